(** * Specification vocabulary, independent of the model's helpers. *)
From Coq Require Import List NArith Bool Arith.
From Verif Require Import Base Iter.
Import ListNotations.

(** How an input iterator first stops producing items. *)
Inductive fin : Type := FStop | FBoom.

(** The items an iterator produces before its first [None] or panic, which of
    the two it is, and the state of the source right after it. *)
Fixpoint run_t {A R} (t : trace A R) (n : node R) : list A * fin * R :=
  match t with
  | [] => ([], FStop, nd_src n)
  | (Yield a, n') :: t' => let '(xs, e, r) := run_t t' n' in (a :: xs, e, r)
  | (Stop, n') :: _ => ([], FStop, nd_src n')
  | (Boom, n') :: _ => ([], FBoom, nd_src n')
  end.
Definition run {A R} (it : iter A R) : list A * fin * R := run_t (it_tr it) (it_node it).
Definition items_of {A R} (it : iter A R) : list A := fst (fst (run it)).
Definition fin_of {A R} (it : iter A R) : fin := snd (fst (run it)).

(** How many items a size hint announces: the upper bound if there is one. *)
Definition announced (h : hint) : N :=
  match snd h with Some u => u | None => fst h end.

(** FusedIterator: only [None] after the first [None]. *)
Fixpoint fused_t {A R} (t : trace A R) : Prop :=
  match t with
  | [] => True
  | (Yield _, _) :: t' => fused_t t'
  | (Stop, _) :: t' => Forall (fun p => fst p = Stop) t'
  | (Boom, _) :: _ => True
  end.
Definition fused {A R} (it : iter A R) : Prop := fused_t (it_tr it).

(** At any time the lower bound of the size hint is at most the number of items
    still to come. *)
Fixpoint honest_t {A R} (t : trace A R) (n : node R) : Prop :=
  (fst (nd_hint n) <= lenN (fst (fst (run_t t n))))%N /\
  match t with
  | (Yield _, n') :: t' | (Stop, n') :: t' => honest_t t' n'
  | (Boom, _) :: _ | [] => True
  end.
Definition honest {A R} (it : iter A R) : Prop := honest_t (it_tr it) (it_node it).

(** At any time what was yielded so far and what the lower bound of the size hint
    promises fit: [used] before the first item, plus [cost] for every item, plus
    [unit] for every promised item is at most [lim]. *)
Fixpoint affords_t {A R} (cost : A -> N) (unit lim used : N) (t : trace A R) (n : node R)
  : Prop :=
  (used + unit * fst (nd_hint n) <= lim)%N /\
  match t with
  | (Yield a, n') :: t' => affords_t cost unit lim (used + cost a)%N t' n'
  | (Stop, n') :: t' => affords_t cost unit lim used t' n'
  | (Boom, _) :: _ | [] => True
  end.
Definition affords {A R} (cost : A -> N) (unit lim used : N) (it : iter A R) : Prop :=
  affords_t cost unit lim used (it_tr it) (it_node it).

(** An allocator that never refuses. *)
Definition grants (w : world) : Prop := Forall (fun a => a <> None) w.

(** The eight bits of a byte, least significant first, and of a buffer. *)
Definition byte_bits (b : N) : list bool :=
  map (fun i => N.testbit b i) [0; 1; 2; 3; 4; 5; 6; 7]%N.
Definition bits_of (bytes : list N) : list bool := flat_map byte_bits bytes.

(** Items of [n] bits, starting at bit [off], never straddle a byte boundary
    unless they are made of whole bytes. *)
Definition bit_aligned (off n : nat) : bool :=
  Nat.eqb (8 mod n) 0 && Nat.eqb (off mod n) 0
  || Nat.eqb (n mod 8) 0 && Nat.eqb (off mod 8) 0.
