(** * Size hints over the whole run of an iterator *)
From Coq Require Import List NArith Bool Arith.
From Verif Require Import Base Iter Spec.
Import ListNotations.

(** Before every call the hint is related by [P] to the number of items still to
    come. *)
Fixpoint hints_t {A R} (P : hint -> nat -> Prop) (t : trace A R) (n : node R) : Prop :=
  P (nd_hint n) (length (fst (fst (run_t t n)))) /\
  match t with
  | (Yield _, n') :: t' | (Stop, n') :: t' => hints_t P t' n'
  | (Boom, _) :: _ | [] => True
  end.
Definition hints {A R} (P : hint -> nat -> Prop) (it : iter A R) : Prop :=
  hints_t P (it_tr it) (it_node it).
(** The bounds of the contract of [Iterator::size_hint], and of [ExactSizeIterator]. *)
Definition bounds (h : hint) (n : nat) : Prop :=
  (fst h <= N.of_nat n)%N /\ forall u, snd h = Some u -> (N.of_nat n <= u)%N.
Definition exactly (h : hint) (n : nat) : Prop := h = (N.of_nat n, Some (N.of_nat n)).
