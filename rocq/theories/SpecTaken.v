(** * Vocabulary: what is taken from an iterator *)
From Coq Require Import List NArith Arith.
From Verif Require Import Base Iter Spec.
Import ListNotations.

(** The states of the source before the first call of [next], after the first
    call, the second one, and so on up to the first [None] or panic. *)
Fixpoint states_t {A R} (t : trace A R) (n : node R) : list R :=
  nd_src n ::
  match t with
  | [] => []
  | (Yield _, n') :: t' => states_t t' n'
  | (Stop, n') :: _ | (Boom, n') :: _ => [nd_src n']
  end.
Definition states {A R} (it : iter A R) : list R := states_t (it_tr it) (it_node it).
(** The state right after the first [None] or panic. *)
Definition end_of {A R} (it : iter A R) : R := snd (run it).
