(** * Null items: C53 *)
From Coq Require Import List NArith Bool.
From Verif Require Import Base VecModel CollModel Reach LayoutModel NullModel SpecNullability PropArray FactsNullability.
Import ListNotations.

(** ** C53: mapping and zipping items

    [has nl x v]: the item [x] has the value [v]; [null nl x]: it has none. *)
Theorem C53_items : forall nl T (x : item nl T),
  (forall v w, has nl x v -> has nl x w -> v = w) /\
  (null nl x <-> forall v, ~ has nl x v) /\
  (null nl x \/ exists v, has nl x v) /\
  (nl = false -> ~ null nl x).
Proof. exact items_null. Qed.
Print Assumptions C53_items.

(** The closure is called once with the value, or not at all. *)
Theorem C53_map : forall nl S T U (x : item nl T) (f : T -> S -> out U * S) s,
  (null nl x -> exists y, n_map nl x f s = (Ret y, s) /\ null nl y) /\
  (forall v, has nl x v ->
     (forall s', f v s = (Pnc, s') -> n_map nl x f s = (Pnc, s')) /\
     (forall u s', f v s = (Ret u, s') -> exists y, n_map nl x f s = (Ret y, s') /\ has nl y u)).
Proof. exact map_item. Qed.
Print Assumptions C53_map.

Theorem C53_zip : forall nl T U (x : item nl T) (y : item nl U),
  (null nl (n_zip nl x y) <-> null nl x \/ null nl y) /\
  (forall a b, has nl (n_zip nl x y) (a, b) <-> has nl x a /\ has nl y b).
Proof. exact zip_item. Qed.
Print Assumptions C53_zip.

Theorem C53_zip_with : forall nl S T U V (x : item nl T) (y : item nl U) (f : T * U -> S -> out V * S) s,
  (null nl x \/ null nl y -> exists z, n_zip_with nl x y f s = (Ret z, s) /\ null nl z) /\
  (forall a b, has nl x a -> has nl y b ->
     (forall s', f (a, b) s = (Pnc, s') -> n_zip_with nl x y f s = (Pnc, s')) /\
     (forall u s', f (a, b) s = (Ret u, s') ->
        exists z, n_zip_with nl x y f s = (Ret z, s') /\ has nl z u)).
Proof. exact zip_with_item. Qed.
Print Assumptions C53_zip_with.

(** Two calls of map are one, with effects and panics in order. *)
Theorem C53_map_map : forall nl S T U V (x : item nl T) (f : T -> S -> out U * S) (g : U -> S -> out V * S) s,
  (match n_map nl x f s with (Ret y, s') => n_map nl y g s' | (Pnc, s') => (Pnc, s') end) =
  n_map nl x (fun v s => match f v s with (Ret u, s') => g u s' | (Pnc, s') => (Pnc, s') end) s /\
  n_map nl x (fun v s => (Ret v, s)) s = (Ret x, s).
Proof. exact map_map_item. Qed.
Print Assumptions C53_map_map.

(** An array is empty if it has no items. *)
Theorem C53_is_empty : forall s c xs, shows (coll s) c xs ->
  exists b, k_is_empty (coll s) c = Ret b /\ (b = true <-> xs = []).
Proof. exact is_empty_shows. Qed.
Print Assumptions C53_is_empty.

(** A closure that logs its argument and rejects sums above 9 *)
Definition log_sum (p : nat * nat) (s : list (nat * nat)) : out nat * list (nat * nat) :=
  (if Nat.leb (fst p + snd p) 9 then Ret (fst p + snd p) else Pnc, s ++ [p]).
Example C53_case :
  n_zip_with true (Some 1) (Some 2) log_sum [] = (Ret (Some 3), [(1, 2)]) /\
  n_zip_with true (Some 1) None log_sum [(0, 0)] = (Ret None, [(0, 0)]) /\
  n_zip_with true (Some 5) (Some 5) log_sum [] = (Pnc, [(5, 5)]) /\
  n_zip_with false 1 2 log_sum [] = (Ret 3, [(1, 2)]) /\
  has true (Some 3) 3 /\ null true (@None nat) /\ has false 3 3 /\
  k_is_empty (layout deep) deep_array = Ret false.
Proof. vm_compute. auto 10. Qed.
