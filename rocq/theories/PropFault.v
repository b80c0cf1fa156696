(** * Errors of an import: C43

    [fault t a s e]: the error [e], with the values it carries, is true of the
    array/schema pair or of one of its child pairs. *)
From Coq Require Import List NArith ZArith Bool Arith.
From Verif Require Import Base Iter Spec SpecParts VecModel BitmapModel CollModel ValidityModel FlattenModel
  OffsetsModel LayoutModel Reach FfiModel SpecFfi SpecFault FactsFault PropFfi.
Import ListNotations.

Theorem C43_errors_are_true :
  forall t a s e, arrow_type t -> readable t a s -> import t a s = IErr e -> fault t a s e.
Proof. exact import_fault. Qed.
Print Assumptions C43_errors_are_true.

(** An array with a fault does not describe an array of the type, so that import
    rejects it (C35): errors are returned exactly for the pairs with a fault. *)
Theorem C43_faults_are_violations :
  forall t a s e, readable t a s -> fault t a s e -> ~ describes t a s.
Proof. exact fault_violates. Qed.
Print Assumptions C43_faults_are_violations.

Theorem C43_rejected_exactly_the_faulty :
  forall t a s, arrow_type t -> readable t a s ->
  ((exists e, import t a s = IErr e) <-> (exists e, fault t a s e)).
Proof. exact import_rejects. Qed.
Print Assumptions C43_rejected_exactly_the_faulty.

(** The child declares two nulls and has one; the offsets decrease. The pairs
    are readable by [C35_case]. *)
Example C43_case : arrow_type foreign /\
  readable foreign (foreign_array 2 3) foreign_schema /\
  import foreign (foreign_array 2 3) foreign_schema = IErr (NullCountMismatch 2 1) /\
  (exists ca, child (foreign_array 2 3) = Some ca /\ a_null_count ca = 2%Z /\ actual_nulls ca = 1) /\
  readable foreign (foreign_array 1 0) foreign_schema /\
  import foreign (foreign_array 1 0) foreign_schema = IErr (InvalidOffsets (OffNonMonotonic 2)) /\
  import (TPrim S16 true) (foreign_array 1 0) foreign_schema = IErr UnexpectedFormat.
Proof.
  destruct C35_case as (H1 & H2 & _). split; [exact H1|]. split; [exact (H2 2%Z 3%N eq_refl)|].
  split; [vm_compute; reflexivity|]. split; [eexists; split; [reflexivity|split; vm_compute; reflexivity]|].
  split; [exact (H2 1%Z 0%N eq_refl)|]. split; vm_compute; reflexivity.
Qed.
