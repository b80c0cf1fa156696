(** * Vocabulary for lists handed over as collections that went through panics *)
From Coq Require Import List NArith ZArith Arith.
From Verif Require Import Base Iter Spec CollModel LayoutModel Reach SpecFixed.
Import ListNotations.

(** Consuming [c] returns [xs] and then [None] forever; consuming [c] returns
    [xs] and then panics. *)
Definition whole (u : shape) (c : cC (coll u)) (xs : list (cA (coll u))) : Prop :=
  exists st, k_into (coll u) c = Ret st /\ yields (k_onext (coll u)) (k_ohint (coll u)) Ret st xs.
Definition cut_off (u : shape) (c : cC (coll u)) (xs : list (cA (coll u))) : Prop :=
  exists st, k_into (coll u) c = Ret st /\ breaks (k_onext (coll u)) (k_ohint (coll u)) st xs.

(** The first [j] of the collections that [it] returns can be consumed. *)
Definition whole_until {u : shape} {R} (it : iter (cC (coll u)) R) (rows : list (list (cA (coll u))))
  (j : nat) : Prop := Forall2 (whole u) (firstn j (items_of it)) (firstn j rows).
(** Where appending the collections of [it], whose items are [rows], may panic
    although allocation failures are reported: after all of them because [it]
    panics, or at the first one that is cut off. *)
Definition panics_at {u : shape} {R} (it : iter (cC (coll u)) R) (rows : list (list (cA (coll u))))
  (j : nat) : Prop :=
  whole_until it rows j /\
  (fin_of it = FBoom /\ j = length rows \/
   exists c row, nth_error (items_of it) j = Some c /\ nth_error rows j = Some row /\ cut_off u c row).

(** [it'] is [it] with every collection replaced by the list of the items it
    returns when it is consumed: the same calls, the same answers, the same size
    hints. Unlike [as_lists] (SpecOwned.v) this says nothing about views. *)
Definition consumed {U : Coll} {A R} (into : cA U -> A) (p : ev (cC U) * node R)
  (q : ev (list A) * node R) : Prop :=
  snd p = snd q /\
  match fst p, fst q with
  | Yield c, Yield l => exists ys st, k_len U c = Ret (length ys) /\ k_into U c = Ret st /\
      yields (k_onext U) (k_ohint U) Ret st ys /\ l = map into ys
  | Stop, Stop | Boom, Boom => True
  | _, _ => False
  end.
Definition as_consumed {U : Coll} {A R} (into : cA U -> A) (it : iter (cC U) R)
  (it' : iter (list A) R) : Prop :=
  it_node it = it_node it' /\ Forall2 (consumed into) (it_tr it) (it_tr it').
