(** * Vocabulary for lists handed over as collections *)
From Coq Require Import List NArith ZArith Arith.
From Verif Require Import Base Iter CollModel OffsetsModel LayoutModel Spec Reach.
Import ListNotations.

(** [it'] is [it] with every collection replaced by the list of the items it
    shows: the same calls, the same answers, the same size hints. *)
Definition listed {U : Coll} {A R} (into : cA U -> A) (p : ev (cC U) * node R)
  (q : ev (list A) * node R) : Prop :=
  snd p = snd q /\
  match fst p, fst q with
  | Yield c, Yield l => exists ys, shows U c ys /\ l = map into ys
  | Stop, Stop | Boom, Boom => True
  | _, _ => False
  end.
Definition as_lists {U : Coll} {A R} (into : cA U -> A) (it : iter (cC U) R)
  (it' : iter (list A) R) : Prop :=
  it_node it = it_node it' /\ Forall2 (listed into) (it_tr it) (it_tr it').

(** Collecting [xs] into a new collection of shape [u] may stop the program only
    if they do not fit. *)
Definition collects (u : shape) (xs : list (cA (coll u))) (r : bres (cC (coll u))) : Prop :=
  match r with
  | BOk c => built u c /\ shows (coll u) c xs
  | BErr => False
  | BPanic | BAbort => (limit u < total (cost u) xs)%N
  end.
(** The iterator [s] hands out one collection for each of [rows], then [None]
    forever; before every call its size hint is exact. *)
Fixpoint hands_out {S} (u : shape) (next : S -> bres (option (cC (coll u)) * S))
  (hnt : S -> out hint) (s : S) (rows : list (list (cA (coll u)))) : Prop :=
  match rows with
  | [] => hnt s = Ret (exact_hint 0) /\ next s = BOk (None, s)
  | xs :: rows' =>
      hnt s = Ret (exact_hint (length rows)) /\
      match next s with
      | BOk (Some c, s') => collects u xs (BOk c) /\ hands_out u next hnt s' rows'
      | BOk (None, _) => False
      | BErr => collects u xs BErr
      | BPanic => collects u xs BPanic
      | BAbort => collects u xs BAbort
      end
  end.
(** All collections the iterator ever yields can be built through the API. *)
Definition yields_built (u : shape) {R} (it : iter (cC (coll u)) R) : Prop :=
  Forall (fun p => match fst p with Yield c => built u c | _ => True end) (it_tr it).
