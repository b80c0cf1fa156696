(** * C56: exporting an array after any panics

    [lived] collections went through any operations, any of which may have
    panicked at any point. At most 2^63 elements altogether; beyond, the length
    does not fit i64. [typed] is a fact of Rust's types, [aligned] one of the
    allocator. *)
From Coq Require Import List NArith ZArith Bool Arith.
From Verif Require Import Base Iter Spec VecModel BitmapModel CollModel ValidityModel FlattenModel
  OffsetsModel LayoutModel Reach Calm SpecFixed SpecLived FfiModel SpecFfi FactsTorn PropBitmap
  PropFixed PropRepair PropFfi PropLived.
Import ListNotations.

(** Export never panics; an array with a bit offset somewhere is rejected. *)
Theorem C56_export :
  forall t, widths_pos (shape_of t) -> forall c, lived (shape_of t) c ->
  (held (shape_of t) c < 2 ^ 63)%N -> forall mem,
  match export mem t c with
  | XOk (a, s) => Forall (fun o => o = 0) (bit_offsets (shape_of t) c) /\
      a_live a = true /\ s_live s = true
  | XErr o => first_nonzero (bit_offsets (shape_of t) c) = Some (N.to_nat o)
  | XPnc => False
  end.
Proof. exact torn_rejects. Qed.
Print Assumptions C56_export.

(** What is exported describes only memory that exists, and by the Arrow layouts
    it holds the items that can be read. *)
Theorem C56_exported_items :
  forall t, widths_pos (shape_of t) -> forall c, lived (shape_of t) c ->
  (held (shape_of t) c < 2 ^ 63)%N -> forall mem xs a s,
  reads (shape_of t) c xs -> typed (shape_of t) c -> export mem t c = XOk (a, s) ->
  a_length a = Z.of_nat (length xs) /\ a_null_count a = Z.of_nat (null_items t xs) /\
  readable t a s /\ forall i x, nth_error xs i = Some x -> holds t a i x.
Proof. exact torn_items. Qed.
Print Assumptions C56_exported_items.

(** Importing it gives the items back unless a fixed-size list has values beyond
    its rows; then it fails with the error for that and no other. *)
Theorem C56_import_back :
  forall t, widths_pos (shape_of t) -> forall c, lived (shape_of t) c ->
  (held (shape_of t) c < 2 ^ 63)%N -> forall mem xs a s,
  arrow_type t -> reads (shape_of t) c xs -> typed (shape_of t) c -> aligned mem 0 t ->
  export mem t c = XOk (a, s) ->
  match import t a s with
  | IOk c' => rows_fill (shape_of t) c /\ calm (shape_of t) c' /\ shows (layout t) c' xs
  | IErr (FixedSizeListLengthMismatch _ _ _) => ~ rows_fill (shape_of t) c
  | _ => False
  end.
Proof. exact torn_back. Qed.
Print Assumptions C56_import_back.

(** Without fixed-size lists the round trip of C33 always succeeds. *)
Theorem C56_round_trip_without_arrays :
  forall t, widths_pos (shape_of t) -> forall c, lived (shape_of t) c ->
  (held (shape_of t) c < 2 ^ 63)%N -> forall mem xs,
  arrow_type t -> no_arrays (shape_of t) = true -> reads (shape_of t) c xs ->
  typed (shape_of t) c -> aligned mem 0 t ->
  Forall (fun o => o = 0) (bit_offsets (shape_of t) c) ->
  exists a s c', export mem t c = XOk (a, s) /\ import t a s = IOk c' /\ shows (layout t) c' xs.
Proof. exact torn_flat. Qed.
Print Assumptions C56_round_trip_without_arrays.

(** The torn rows of C55: two rows of three bits and one bit more. *)
Definition nested_type : ty := TVsl I32 (TFsl 3 (TBool false) true) false.
Lemma below n l : forallb (fun x => x <? n)%N l = true -> Forall (fun x => x < n)%N l.
Proof.
  intros H. apply Forall_forall. intros x Hx. rewrite forallb_forall in H. apply N.ltb_lt. auto.
Qed.
Example C56_case :
  widths_pos (shape_of nested_type) /\ arrow_type nested_type /\
  lived (shape_of nested_type) nested /\ (held (shape_of nested_type) nested < 2 ^ 63)%N /\
  typed (shape_of nested_type) nested /\ aligned at_64 0 nested_type /\
  Forall (fun o => o = 0) (bit_offsets (shape_of nested_type) nested) /\
  ~ rows_fill (shape_of nested_type) nested /\
  exists a s, export at_64 nested_type nested = XOk (a, s) /\ a_length a = 1%Z /\
    option_map a_length (child a) = Some 2%Z /\
    (forall ca, child a = Some ca -> option_map a_length (child ca) = Some 8%Z) /\
    import nested_type a s = IErr (FixedSizeListLengthMismatch 2 8 3).
Proof.
  split; [split; [apply Nat.lt_0_succ|exact I]|]. split; [split; [vm_compute; discriminate|exact I]|].
  split; [exact nested_lived|]. split; [vm_compute; reflexivity|].
  split; [split; [exact I|apply below; vm_compute; reflexivity]|].
  split; [split; [vm_compute; reflexivity|exact I]|].
  split; [vm_compute; repeat constructor|].
  split.
  { intros [_ [[q H] _]]. vm_compute in H. injection H as H.
    destruct q as [|[|[|q]]]; [discriminate|discriminate|discriminate|].
    cbn [Nat.mul Nat.add] in H. discriminate. }
  eexists. eexists. split; [vm_compute; reflexivity|]. split; [vm_compute; reflexivity|].
  split; [vm_compute; reflexivity|]. split; [|vm_compute; reflexivity].
  intros ca E. vm_compute in E. injection E as <-. vm_compute. reflexivity.
Qed.
(** Vec<Option<bool>>, whose second extension panicked between the bits of the
    values and those of the validity. *)
Definition maybe_type : ty := TBool true.
Definition maybe : cC (layout maybe_type) := Eval vm_compute in
  fst (step (layout maybe_type)
    (fst (step (layout maybe_type) (k_default (layout maybe_type))
       (OpExtend (it_list [Some true; None]))))
    (OpExtend (panicking [Some true; None; Some false]))).
Example C56_flat_case :
  lived (shape_of maybe_type) maybe /\ no_arrays (shape_of maybe_type) = true /\
  typed (shape_of maybe_type) maybe /\ aligned at_64 0 maybe_type /\
  Forall (fun o => o = 0) (bit_offsets (shape_of maybe_type) maybe) /\
  k_len (coll SBits) (va_coll maybe) = Ret 5 /\ k_len (layout maybe_type) maybe = Ret 2 /\
  exists a s c', export at_64 maybe_type maybe = XOk (a, s) /\ import maybe_type a s = IOk c' /\
    k_len (layout maybe_type) c' = Ret 2 /\
    k_owned (layout maybe_type) c' 0 = Ret (Some (Some true)) /\
    k_owned (layout maybe_type) c' 1 = Ret (Some None).
Proof.
  split.
  { apply (lived_step (SNull SBits)
      (fst (step (layout maybe_type) (k_default (layout maybe_type)) (OpExtend (it_list [Some true; None]))))
      (OpExtend (panicking [Some true; None; Some false])) maybe OPanic).
    - apply (lived_step (SNull SBits) (k_default (layout maybe_type))
        (OpExtend (it_list [Some true; None])) _ ODone).
      + apply lived_built, built_default.
      + repeat constructor.
      + vm_compute; reflexivity.
      + discriminate.
    - repeat constructor.
    - vm_compute; reflexivity.
    - discriminate. }
  split; [reflexivity|].
  split; [split; apply below; vm_compute; reflexivity|]. split; [exact I|].
  split; [vm_compute; repeat constructor|].
  split; [vm_compute; reflexivity|]. split; [vm_compute; reflexivity|].
  do 3 eexists. split; [vm_compute; reflexivity|]. split; [vm_compute; reflexivity|].
  split; [vm_compute; reflexivity|]. split; vm_compute; reflexivity.
Qed.
