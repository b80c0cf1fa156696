(** * Items that may be null: src/nullability.rs, src/length.rs

    Closures may change a state and panic: [T -> S -> out U * S]. *)
From Coq Require Import List NArith Bool.
From Verif Require Import Base VecModel CollModel.

(** nullability.rs:37, 120, 157 Item; [nl]: NULLABLE (34, 117, 154) *)
Definition item (nl : bool) (T : Type) : Type := if nl then option T else T.

(** nullability.rs:55, 125-127, 163-165 map *)
Definition n_map (nl : bool) {S T U} : item nl T -> (T -> S -> out U * S) -> S -> out (item nl U) * S :=
  match nl return item nl T -> (T -> S -> out U * S) -> S -> out (item nl U) * S with
  | false => fun x f s => f x s
  | true => fun (x : option T) f s =>
      match x with
      | None => (Ret None, s)
      | Some v => match f v s with
                  | (Ret u, s') => (Ret (Some u), s')
                  | (Pnc, s') => (Pnc, s')
                  end
      end
  end.
(** nullability.rs:67, 128-130, 166-168 zip *)
Definition n_zip (nl : bool) {T U} : item nl T -> item nl U -> item nl (T * U) :=
  match nl return item nl T -> item nl U -> item nl (T * U) with
  | false => fun x y => (x, y)
  | true => fun (x : option T) (y : option U) =>
      match x, y with
      | Some a, Some b => Some (a, b)
      | _, _ => None
      end
  end.
(** nullability.rs:78-84 zip_with *)
Definition n_zip_with (nl : bool) {S T U V} (x : item nl T) (y : item nl U)
  (f : T * U -> S -> out V * S) : S -> out (item nl V) * S :=
  n_map nl (n_zip nl x y) f.

(** length.rs:42-44 is_empty *)
Definition k_is_empty (K : Coll) (c : cC K) : out bool :=
  let? n := k_len K c in Ret (Nat.eqb n 0).
