(** * Rows that are not read back

    A vocabulary for the theorems about fixed-size lists. *)
From Coq Require Import List NArith.
From Verif Require Import Base Iter Spec CollModel LayoutModel Reach.
Import ListNotations.

(** Starting from [c] there are an extension that completes, one that
    panics, and then an extension by a single item [x] that completes, makes the
    collection longer by one, and yet the last item reads back as [y], not [x]. *)
Definition corrupts (s : shape) (c : cC (coll s)) : Prop :=
  exists it0 it1 x c0 c1 c2 m y,
    Forall (item_ok s) (items_of it0) /\ Forall (item_ok s) (items_of it1) /\ item_ok s x /\
    step (coll s) c (OpExtend it0) = (c0, ODone) /\
    step (coll s) c0 (OpExtend it1) = (c1, OPanic) /\
    step (coll s) c1 (OpExtend (it_list [x])) = (c2, ODone) /\
    k_len (coll s) c1 = Ret m /\ k_len (coll s) c2 = Ret (S m) /\
    k_owned (coll s) c2 (N.of_nat m) = Ret (Some y) /\ y <> x.

(** The items of a child cut into rows of [n], and what is left over. *)
Definition cut_rows {A} (n : nat) (ys : list A) (rows : list (list A)) (rest : list A) : Prop :=
  ys = concat rows ++ rest /\ Forall (fun r => length r = n) rows /\ length rest < n.

(** The iterator [s] returns [xs] and then panics; before every call its size
    hint announces what is left of [xs]. *)
Fixpoint breaks {S A} (next : S -> out (option A * S)) (hnt : S -> out hint)
  (s : S) (xs : list A) : Prop :=
  hnt s = Ret (exact_hint (length xs)) /\
  match xs with
  | [] => next s = Pnc
  | x :: xs' => exists s', next s = Ret (Some x, s') /\ breaks next hnt s' xs'
  end.

(** The rows [items] appended behind [rest]: every row starts with the end of
    the one before it. *)
Fixpoint shifted {A} (n : nat) (rest : list A) (items : list (list A)) : list (list A) :=
  match items with
  | [] => []
  | x :: items' => (rest ++ firstn (n - length rest) x) ::
                   shifted n (skipn (n - length rest) x) items'
  end.
