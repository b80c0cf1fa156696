(** * Vocabulary for iterators that resume after [None] *)
From Coq Require Import List NArith Arith.
From Verif Require Import Base Iter Spec ValidityModel.
Import ListNotations.

(** What the calls after the first [None] return. *)
Fixpoint resumed_t {A R} (t : trace A R) : trace A R :=
  match t with
  | [] | (Boom, _) :: _ => []
  | (Yield _, _) :: t' => resumed_t t'
  | (Stop, _) :: t' => t'
  end.
(** Unless the items before it make whole groups of eight, the first [None] is
    followed by further ones: for the rest of the group and for the first call of
    the next one. *)
Definition settles {A R} (it : iter A R) : Prop :=
  Forall (fun p => fst p = Stop)
    (firstn ((8 - length (items_of it) mod 8) mod 8) (resumed_t (it_tr it))).

(** The answers to calls made in groups of eight, until the first call of a group
    is answered by [None]. [pos] is the position in the group. *)
Fixpoint answers_t {A R} (pos : nat) (t : trace A R) : list (option A) :=
  match t with
  | [] | (Boom, _) :: _ => []
  | (Yield a, _) :: t' => Some a :: answers_t (S pos mod 8) t'
  | (Stop, _) :: t' => match pos with O => [] | _ => None :: answers_t (S pos mod 8) t' end
  end.
Definition answers {A R} (it : iter A R) : list (option A) := answers_t 0 (it_tr it).
(** One bit per answer, [None] as false, cut down to the number of items. *)
Definition is_true (o : option bool) : bool := match o with Some b => b | None => false end.
Definition packed_answers {R} (it : iter bool R) : list bool :=
  firstn (length (filter is_some (answers it))) (map is_true (answers it)).
