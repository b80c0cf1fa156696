(** * Vocabulary for raw parts: which offsets are valid, what is the first fault *)
From Coq Require Import List NArith ZArith.
From Verif Require Import Base OffsetsModel.
Import ListNotations.

(** Starts at 0, is never negative, never decreases. *)
Definition offsets_start_ok (zs : list Z) : Prop :=
  (forall z, nth_error zs 0 = Some z -> z = 0%Z) /\
  (forall i z, nth_error zs i = Some z -> (0 <= z)%Z) /\
  (forall i a b, nth_error zs i = Some a -> nth_error zs (S i) = Some b -> (a <= b)%Z).
(** Valid offsets into [n] items: Arrow's variable-size list layout. *)
Definition offsets_ok (zs : list Z) (n : nat) : Prop :=
  zs <> [] /\ offsets_start_ok zs /\ (last zs 0 <= Z.of_nat n)%Z.
(** [e] names the first thing that is wrong with [zs], and everything before it
    is right. *)
Definition offsets_fault (zs : list Z) (n : nat) (e : offsets_error) : Prop :=
  match e with
  | OffEmpty => zs = []
  | OffNonZeroFirst f => nth_error zs 0 = Some (Z.of_N f) /\ f <> 0%N
  | OffNegative i => exists z, nth_error zs i = Some z /\ (z < 0)%Z /\
      offsets_start_ok (firstn i zs)
  | OffNonMonotonic i => exists j p z, i = S j /\ nth_error zs j = Some p /\
      nth_error zs i = Some z /\ (0 <= z < p)%Z /\ offsets_start_ok (firstn i zs)
  | OffOutOfBounds l m => zs <> [] /\ offsets_start_ok zs /\ last zs 0%Z = Z.of_N l /\
      m = n /\ (N.of_nat n < l)%N
  end.
