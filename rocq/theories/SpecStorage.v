(** * Vocabulary of the theorems about storage *)
From Coq Require Import List NArith.
From Verif Require Import Base Iter.
Import ListNotations.

(** What a caller sees of the first [n] calls of an iterator: each time the
    size hint and then the item, up to the first panic. *)
Fixpoint calls {S A} (next : S -> out (option A * S)) (hnt : S -> out hint)
  (n : nat) (s : S) : list (out hint * out (option A)) :=
  match n with
  | O => []
  | Datatypes.S n' =>
      match next s with
      | Ret (x, s') => (hnt s, Ret x) :: calls next hnt n' s'
      | Pnc => [(hnt s, Pnc)]
      end
  end.
