(** * Taking collections apart and putting them together again: C32 *)
From Coq Require Import List NArith ZArith Bool Arith.
From Verif Require Import Base Iter Spec VecModel BitmapModel CollModel ValidityModel FlattenModel
  OffsetsModel LayoutModel Reach Calm FactsParts PropBitmap PropArray.
Import ListNotations.

Theorem C32_bitmap_parts_inverse :
  forall b, built SBits b ->
  let '(buf, bits, off) := bm_into_parts b in
  bm_try_from_parts buf (N.of_nat bits) (N.of_nat off) = inl b.
Proof. exact bits_round_trip. Qed.
Print Assumptions C32_bitmap_parts_inverse.

(** The parts of [Flatten] are its child collection. *)
Theorem C32_fixed_parts_inverse :
  forall s, widths_pos s -> forall n c, 0 < n -> built (SFixed n s) c ->
  fl_try_from_parts (coll s) n c = Ret (inl c).
Proof. exact fixed_round_trip. Qed.
Print Assumptions C32_fixed_parts_inverse.

Theorem C32_list_parts_inverse :
  forall s, widths_pos s -> forall k (o : offsets (cC (coll s))), built (SList k s) o ->
  let '(data, offs) := of_into_parts (coll s) o in
  of_try_from_parts (coll s) data offs = Ret (inl o).
Proof. exact list_round_trip. Qed.
Print Assumptions C32_list_parts_inverse.

(** Missing for the full statement: extensions in which not the iterator but
    the offsets of a nested list panic; then it is false (below). *)
Theorem C32_null_parts_inverse_partial :
  forall s, widths_pos s -> forall v : validity (cC (coll s)), calm (SNull s) v ->
  match va_into_parts (coll s) v with
  | (c, Some b) => va_try_from_parts (coll s) c b = Ret (inl v)
  | (c, None) => va_from_collection (coll s) c = v
  end.
Proof. exact null_round_trip. Qed.
Print Assumptions C32_null_parts_inverse_partial.

(** [calm] collections are [built] ones: all other theorems apply to them. *)
Theorem C32_calm_is_built : forall s c, calm s c -> built s c.
Proof. exact calm_built. Qed.
Print Assumptions C32_calm_is_built.

(** The array of PropArray.v after a failed and a successful extension and a cut. *)
Definition deep1 : cC (layout deep) :=
  fst (step (layout deep) deep_array (OpTryExtend (it_list many_items) refuse_third)).
Definition deep2 : cC (layout deep) :=
  fst (step (layout deep) deep1 (OpExtend (it_list deep_items))).
Definition deep3 : cC (layout deep) := fst (step (layout deep) deep2 (OpTruncate 6)).
Example C32_case : calm (shape_of deep) deep3 /\ k_len (layout deep) deep3 = Ret 6.
Proof.
  split; [|vm_compute; reflexivity].
  apply (calm_step (shape_of deep) deep2 (OpTruncate 6) deep3 ODone);
    [|constructor|vm_compute; reflexivity|discriminate|discriminate].
  apply (calm_step (shape_of deep) deep1 (OpExtend (it_list deep_items)) deep2 ODone);
    [|exact deep_items_ok|vm_compute; reflexivity|discriminate|discriminate].
  apply (calm_step (shape_of deep) deep_array (OpTryExtend (it_list many_items) refuse_third)
    deep1 OErr); [|repeat constructor|vm_compute; reflexivity|discriminate|discriminate].
  apply (calm_collect (shape_of deep) unit (it_list deep_items) deep_array tt);
    [left; reflexivity|exact deep_items_ok|left; vm_compute; reflexivity].
Qed.

(** After a panicking iterator the values are one too many: [try_from_parts]
    rejects what [into_parts] returned. *)
Theorem C32_after_panic_refuted :
  exists v, va_extend (coll (SVec U8)) (k_default (coll (SNull (SVec U8))))
      (panicking [Some 7%N]) = (v, tt, OPanic) /\ built (SNull (SVec U8)) v /\
    match va_into_parts (coll (SVec U8)) v with
    | (c, Some b) => va_try_from_parts (coll (SVec U8)) c b = Ret (inr (1, 0))
    | _ => False
    end.
Proof.
  eexists. split; [vm_compute; reflexivity|]. split; [|vm_compute; reflexivity].
  apply (built_step (SNull (SVec U8)) (k_default (coll (SNull (SVec U8))))
    (OpExtend (panicking [Some 7%N])) _ OPanic);
    [apply built_default|repeat constructor|vm_compute; reflexivity|discriminate|].
  intros _. left. reflexivity.
Qed.
Print Assumptions C32_after_panic_refuted.

(** Without a panicking iterator: a list of 2^31 bytes does not fit 32-bit offsets. *)
Theorem C32_refuted :
  exists huge : list N, fin_of (it_list [Some []; Some huge]) = FStop /\
  exists v : validity (offsets (vec N)),
    va_extend (coll (SList I32 (SVec U8))) (k_default (coll (SNull (SList I32 (SVec U8)))))
      (it_list [Some []; Some huge]) = (v, tt, OPanic) /\
    match va_into_parts (coll (SList I32 (SVec U8))) v with
    | (c, Some b) => va_try_from_parts (coll (SList I32 (SVec U8))) c b = Ret (inr (1, 0))
    | _ => False
    end.
Proof.
  exists (repeat 0%N (N.to_nat 2147483648)). split; [reflexivity|]. apply null_overflow.
  unfold lenN. rewrite repeat_length. apply N2Nat.id.
Qed.
Print Assumptions C32_refuted.
