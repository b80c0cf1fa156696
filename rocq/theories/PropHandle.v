(** * Allocator handles: C47

    [handles H s]: one handle, of any type [H], for each buffer of a collection of
    shape [s]; [matches]: no more and no fewer. [all_from H s t h]: every buffer
    was constructed with [h]. *)
From Coq Require Import List NArith ZArith Bool Arith.
From Verif Require Import Base Iter Spec VecModel BitmapModel CollModel ValidityModel
  FlattenModel OffsetsModel LayoutModel Reach HandleModel SpecHandle FactsHandle.
Import ListNotations.

(** A collection constructed with [h] has no other buffers. *)
Theorem C47_constructed_with_one_handle :
  forall H s h,
  (forall n c, k_with_capacity (coll s) n = BOk c ->
     matches H s c (h_with_capacity H s h) /\ all_from H s (h_with_capacity H s h) h) /\
  (forall n w c w', k_try_with_capacity (coll s) n w = (BOk c, w') ->
     matches H s c (h_try_with_capacity H s h) /\ all_from H s (h_try_with_capacity H s h) h) /\
  (forall X (it : iter (cA (coll s)) X) c r, k_from_iter_in (coll s) it = (BOk c, r) ->
     matches H s c (h_from_iter H s c h) /\ all_from H s (h_from_iter H s c h) h) /\
  (forall X (it : iter (cA (coll s)) X) w c r w',
     k_try_from_iter (coll s) it w = (BOk c, r, w') ->
     matches H s c (h_try_from_iter H s c h) /\ all_from H s (h_try_from_iter H s c h) h) /\
  matches H s (k_default (coll s)) (h_default H s h) /\ all_from H s (h_default H s h) h.
Proof. exact handles_constructed. Qed.
Print Assumptions C47_constructed_with_one_handle.

(** ... nor does it get any, whatever is done to it and however it ends, and
    [allocator] returns [h]. *)
Theorem C47_histories_keep_the_handle :
  forall H s h c (t : handles H s) ps, matches H s c t -> all_from H s t h ->
  let '(c', t') := h_exec H s c t ps in
  c' = fst (exec (coll s) c ps) /\ matches H s c' t' /\ all_from H s t' h /\
  h_allocator H s t' = h.
Proof. exact handles_one_allocator. Qed.
Print Assumptions C47_histories_keep_the_handle.

(** Collections put together from parts of different allocators: no handle is
    used that was not there, in particular not the default one. *)
Theorem C47_no_new_handles :
  forall H s ps c (t : handles H s), matches H s c t ->
  let '(c', t') := h_exec H s c t ps in
  c' = fst (exec (coll s) c ps) /\ matches H s c' t' /\
  h_allocator H s t' = h_allocator H s t /\
  incl (buffer_handles H s t') (buffer_handles H s t).
Proof. exact handles_history. Qed.
Print Assumptions C47_no_new_handles.

(** A nullable list of optional bytes: the values (7), the offsets (8), and no
    bitmaps. A refused extension has materialised the outer one; the inner one
    follows when a list is appended. Both come from the allocator of the values. *)
Definition opt_lists : shape := SNull (SList I32 (SNull (SVec U8))).
Definition wrapped : cC (coll opt_lists) :=
  Validity (Offsets (Validity (Vec [1; 2]%N 2) None) (Vec [0; 2]%Z 2)) None.
Definition wrapped_handles : handles nat opt_lists :=
  h_null_wrap nat (SList I32 (SNull (SVec U8)))
    (h_list_parts nat I32 (SNull (SVec U8)) (h_null_wrap nat (SVec U8) 7) 8).
Definition one_row : iter (cA (coll opt_lists)) unit := it_list [Some [Some 3; None]%N].
Example C47_case : matches nat opt_lists wrapped wrapped_handles /\
  buffer_handles nat opt_lists wrapped_handles = [7; 8] /\
  snd (h_exec nat opt_lists wrapped wrapped_handles [OpTryExtend one_row [Some 0%N; None]]) =
    (((7, None), 8), Some 7) /\
  snd (h_exec nat opt_lists wrapped wrapped_handles
    [OpTryExtend one_row [Some 0%N; None]; OpExtend one_row; OpTruncate 0]) =
    (((7, Some 7), 8), Some 7) /\
  (exists c r w', k_try_from_iter (coll opt_lists) one_row [] = (BOk c, r, w') /\
     h_try_from_iter nat opt_lists c 5 = (((5, Some 5), 5), Some 5)).
Proof.
  split; [repeat split; reflexivity|]. split; [reflexivity|]. split; [vm_compute; reflexivity|].
  split; [vm_compute; reflexivity|]. do 3 eexists. split; vm_compute; reflexivity.
Qed.
