(** * Histories with enough memory *)
From Coq Require Import List NArith.
From Verif Require Import Base Iter Spec CollModel LayoutModel Reach.
Import ListNotations.

(** What an operation may need at most. *)
Definition demand (s : shape) (p : op (cA (coll s))) : N :=
  match p with
  | OpExtend it | OpTryExtend it _ => total (cost s) (items_of it)
  | OpReserve n | OpTryReserve n _ => n * unit_cost s
  | OpTruncate _ => 0
  end.
(** No size hint promises more than comes, no allocation is refused. Sources of
    items may panic. *)
Definition fair {A} (p : op A) : Prop :=
  match p with
  | OpExtend it => fused it /\ honest it
  | OpTryExtend it w => honest it /\ grants w
  | OpTryReserve _ w => grants w
  | OpReserve _ | OpTruncate _ => True
  end.
(** The operation succeeds unless its source panics. *)
Definition ends_well {A} (p : op A) (o : outcome) : Prop :=
  match p with
  | OpExtend it => o = match fin_of it with FStop => ODone | FBoom => OPanic end
  | OpTryExtend it _ =>
      match fin_of it with FStop => o = ODone | FBoom => o = OErr \/ o = OPanic end
  | OpReserve _ | OpTryReserve _ _ | OpTruncate _ => o = ODone
  end.
