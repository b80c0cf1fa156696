(** * Properties of list collections: C15-C19, C31

    [s] ranges over all shapes without zero widths, [k] over the two offset
    types; [offsets_coll (coll s) k] is [Offsets<T, OffsetItem>] over the
    collection type of shape [s]. [offsets_ok], [offsets_fault] are in
    SpecParts.v. *)
From Coq Require Import List NArith ZArith Bool Arith Lia.
From Verif Require Import Base Iter Spec SpecParts VecModel BitmapModel CollModel ValidityModel
  FlattenModel OffsetsModel OffsetViewModel LayoutModel SpecTables Reach IterLemmas ReachLemmas CoreLemmas FactsNull FactsList.
Import ListNotations.

(** ** C15 *)

Theorem C15_offsets_accepted_exactly :
  forall s, widths_pos s -> forall k data xs offs,
  built s data -> shows (coll s) data xs -> vec_fits (offset_bytes k) offs ->
  ((exists o, of_try_from_parts (coll s) data offs = Ret (inl o)) <->
   offsets_ok (v_items offs) (length xs)).
Proof. exact (fun s Hw k data xs offs Hb Hs _ => list_parts_iff s data xs offs Hb Hs). Qed.
Print Assumptions C15_offsets_accepted_exactly.

Theorem C15_first_fault_reported :
  forall s, widths_pos s -> forall data xs offs,
  built s data -> shows (coll s) data xs ->
  match of_try_from_parts (coll s) data offs with
  | Ret (inl o) => offsets_ok (v_items offs) (length xs) /\ of_into_parts (coll s) o = (data, offs)
  | Ret (inr e) => offsets_fault (v_items offs) (length xs) e
  | Pnc => False
  end.
Proof. exact (fun s Hw => list_parts s). Qed.
Print Assumptions C15_first_fault_reported.

Definition six_words : vec N := Vec [10; 11; 12; 13; 14; 15]%N 8.
Lemma six_words_built : built (SVec U32) six_words /\
  shows (coll (SVec U32)) six_words [10; 11; 12; 13; 14; 15]%N.
Proof.
  assert (B : built (SVec U32) six_words) by (apply built_vec; split; vm_compute; congruence).
  split; [exact B|]. apply (shows_check (SVec U32) I); [exact B| |]; vm_compute; reflexivity.
Qed.
Example C15_case :
  let try zs := of_try_from_parts (coll (SVec U32)) six_words (Vec zs 8) in
  (exists o, try [0; 2; 2; 5]%Z = Ret (inl o)) /\
  try [] = Ret (inr OffEmpty) /\
  try [1; 2]%Z = Ret (inr (OffNonZeroFirst 1)) /\
  try [-1; 2]%Z = Ret (inr (OffNegative 0)) /\
  try [0; 2; -1; 1]%Z = Ret (inr (OffNegative 2)) /\
  try [0; 4; 3; -1]%Z = Ret (inr (OffNonMonotonic 2)) /\
  try [0; 4; 7]%Z = Ret (inr (OffOutOfBounds 7 6)).
Proof. cbn zeta. split; [eexists|repeat split]; vm_compute; reflexivity. Qed.

(** ** C16 *)

Theorem C16_collected_lists_read_back :
  forall s, widths_pos s -> forall k R (it : iter (list (cA (coll s))) R) res r,
  Forall (item_ok (SList k s)) (items_of it) ->
  k_from_iter (offsets_coll (coll s) k) it = (res, r) \/
    k_from_iter_in (offsets_coll (coll s) k) it = (res, r) ->
  match res with
  | BOk o => fin_of it = FStop /\ shows (offsets_coll (coll s) k) o (items_of it) /\
      built (SList k s) o /\
      (forall i, (lenN (items_of it) <= i)%N -> (i < usize_max)%N ->
         of_view (coll s) o i = Ret None)
  | BErr => False
  | _ => True
  end /\
  (room_new (SList k s) it ->
   (announced (it_hint it) * unit_cost (SList k s) <= limit (SList k s))%N ->
   match fin_of it with FStop => exists o, res = BOk o | FBoom => res = BPanic end).
Proof. exact list_collected. Qed.
Print Assumptions C16_collected_lists_read_back.

Theorem C16_try_collected_lists_read_back :
  forall s, widths_pos s -> forall k R (it : iter (list (cA (coll s))) R) w res r w',
  Forall (item_ok (SList k s)) (items_of it) -> of_try_from_iter (coll s) k it w = (res, r, w') ->
  match res with
  | BOk o => fin_of it = FStop /\ shows (offsets_coll (coll s) k) o (items_of it)
  | BErr => True
  | BPanic => fin_of it = FBoom
  | BAbort => False
  end.
Proof. exact list_try_collected. Qed.
Print Assumptions C16_try_collected_lists_read_back.

Theorem C16_parts_are_slices :
  forall s, widths_pos s -> forall k data xs offs o,
  built s data -> shows (coll s) data xs -> vec_fits (offset_bytes k) offs ->
  Forall (fun z => (offset_min k <= z <= offset_max k)%Z) (v_items offs) ->
  of_try_from_parts (coll s) data offs = Ret (inl o) ->
  exists ls, shows (offsets_coll (coll s) k) o ls /\ built (SList k s) o /\
    S (length ls) = length (v_items offs) /\
    forall i a b, nth_error (v_items offs) i = Some a -> nth_error (v_items offs) (S i) = Some b ->
      nth_error ls i = Some (firstn (Z.to_nat b - Z.to_nat a) (skipn (Z.to_nat a) xs)).
Proof. exact list_parts_read. Qed.
Print Assumptions C16_parts_are_slices.

(** Nested lists with empty ones; parts with an unreferenced suffix. *)
Definition nested : list (list (list N)) := [[[1; 2]; []]; []; [[3]]]%N.
Example C16_case :
  let s := SList I32 (SVec U32) in
  Forall (item_ok (SList I64 s)) nested /\
  (exists o, k_from_iter (offsets_coll (coll s) I64) (it_list nested) = (BOk o, tt) /\
     v_items (of_offs o) = [0; 2; 2; 3]%Z /\ v_items (of_offs (of_data o)) = [0; 2; 2; 3]%Z /\
     v_items (of_data (of_data o)) = [1; 2; 3]%N /\
     k_owned (offsets_coll (coll s) I64) o 0 = Ret (Some [[1; 2]; []]%N)) /\
  room_new (SList I64 s) (it_list nested).
Proof.
  assert (Hi : Forall (item_ok (SList I64 (SList I32 (SVec U32)))) nested)
    by (unfold nested; repeat (constructor; cbn [item_ok])).
  cbn zeta. split; [exact Hi|].
  split; [|apply room_new_list; [exact I|exact Hi|vm_compute; discriminate]].
  eexists. split; [vm_compute; reflexivity|]. repeat split; vm_compute; reflexivity.
Qed.
Definition three_of_six : offsets (vec N) := Offsets six_words (Vec [0; 2; 2; 5]%Z 4).
Lemma three_of_six_parts : built (SVec U32) six_words /\
  vec_fits (offset_bytes I32) (Vec [0; 2; 2; 5]%Z 4) /\
  Forall (fun z => (offset_min I32 <= z <= offset_max I32)%Z) [0; 2; 2; 5]%Z /\
  of_try_from_parts (coll (SVec U32)) six_words (Vec [0; 2; 2; 5]%Z 4) = Ret (inl three_of_six).
Proof.
  split; [apply six_words_built|]. split; [split; vm_compute; congruence|].
  split; [repeat constructor; vm_compute; congruence|]. vm_compute. reflexivity.
Qed.
Lemma three_of_six_built : built (SList I32 (SVec U32)) three_of_six /\
  shows (offsets_coll (coll (SVec U32)) I32) three_of_six [[10; 11]; []; [12; 13; 14]]%N.
Proof.
  destruct three_of_six_parts as (H1 & H2 & H3 & H4).
  pose proof (built_list_parts I32 (SVec U32) _ _ _ H1 H2 H3 H4) as B. split; [exact B|].
  apply (shows_check (SList I32 (SVec U32)) I); [exact B| |]; vm_compute; reflexivity.
Qed.

(** ** C17 *)

Theorem C17_extend_appends :
  forall s, widths_pos s -> forall k R o ls (it : iter (list (cA (coll s))) R) o' r e,
  built (SList k s) o -> shows (offsets_coll (coll s) k) o ls ->
  Forall (item_ok (SList k s)) (items_of it) -> of_extend (coll s) k o it = (o', r, e) ->
  match e with
  | ODone => fin_of it = FStop /\ shows (offsets_coll (coll s) k) o' (ls ++ items_of it) /\
      shows (coll s) (of_data o') (concat (ls ++ items_of it))
  | OErr => False
  | OPanic =>
      panic_safe s false (value_offset s (of_data o)) = true \/ room_in (SList k s) o it ->
      exists j, j <= length (items_of it) /\
        shows (offsets_coll (coll s) k) o' (ls ++ firstn j (items_of it))
  | OAbort => True
  end /\
  (room_in (SList k s) o it ->
   e = match fin_of it with FStop => ODone | FBoom => OPanic end).
Proof. exact list_extend. Qed.
Print Assumptions C17_extend_appends.

Example C17_case : exists o',
  of_extend (coll (SVec U32)) I32 three_of_six (it_list [[]; [7; 8]]%N) = (o', tt, ODone) /\
  v_items (of_data o') = [10; 11; 12; 13; 14; 7; 8]%N /\
  v_items (of_offs o') = [0; 2; 2; 5; 5; 7]%Z /\
  room_in (SList I32 (SVec U32)) three_of_six (it_list [[]; [7; 8]]%N).
Proof.
  eexists. split; [vm_compute; reflexivity|]. split; [vm_compute; reflexivity|].
  split; [vm_compute; reflexivity|].
  apply room_list; [exact I|repeat (constructor; cbn [item_ok])|vm_compute; discriminate].
Qed.

(** ** C18 *)

Theorem C18_offsets_stay_valid :
  forall s, widths_pos s -> forall k o, built (SList k s) o ->
  exists n, k_len (coll s) (of_data o) = Ret n /\ offsets_ok (v_items (of_offs o)) n /\
    forall i z, nth_error (v_items (of_offs o)) i = Some z -> (0 <= z <= offset_max k)%Z.
Proof. exact list_valid. Qed.
Print Assumptions C18_offsets_stay_valid.

(** The lists [xs] before the first one that does not fit are committed. *)
Theorem C18_overflowing_extend_panics :
  forall s, widths_pos s -> forall k R o ls (it : iter (list (cA (coll s))) R) xs l ys o' r e,
  built (SList k s) o -> shows (offsets_coll (coll s) k) o ls ->
  Forall (item_ok (SList k s)) (items_of it) -> items_of it = xs ++ l :: ys ->
  room_for (SList k s) o xs -> (offset_max k < Z.of_nat (length (concat (ls ++ xs ++ [l]))))%Z ->
  of_extend (coll s) k o it = (o', r, e) ->
  e = OPanic /\ shows (offsets_coll (coll s) k) o' (ls ++ xs) /\
  shows (coll s) (of_data o') (concat (ls ++ xs)).
Proof. exact list_overflow. Qed.
Print Assumptions C18_overflowing_extend_panics.

Theorem C18_overflowing_extend_never_returns :
  forall s, widths_pos s -> forall k R o ls (it : iter (list (cA (coll s))) R) o' r e,
  built (SList k s) o -> shows (offsets_coll (coll s) k) o ls ->
  Forall (item_ok (SList k s)) (items_of it) ->
  (offset_max k < Z.of_nat (length (concat (ls ++ items_of it))))%Z ->
  of_extend (coll s) k o it = (o', r, e) -> e = OPanic \/ e = OAbort.
Proof. exact list_overflow_any. Qed.
Print Assumptions C18_overflowing_extend_never_returns.

Theorem C18_overflowing_try_extend_fails :
  forall s, widths_pos s -> forall k R o ls (it : iter (list (cA (coll s))) R) w o' r e w',
  built (SList k s) o -> shows (offsets_coll (coll s) k) o ls ->
  Forall (item_ok (SList k s)) (items_of it) ->
  (offset_max k < Z.of_nat (length (concat (ls ++ items_of it))))%Z ->
  of_try_extend (coll s) k o it w = (o', r, e, w') ->
  e = OErr /\ shows (offsets_coll (coll s) k) o' ls /\ shows (coll s) (of_data o') (concat ls).
Proof. exact list_try_overflow. Qed.
Print Assumptions C18_overflowing_try_extend_fails.

(** A third list of 2^31 bytes cannot follow two short ones. *)
Example C18_case : forall huge : list N, lenN huge = 2147483648%N ->
  items_of (it_list [[1; 2]; [3]; huge]%N) = [[1; 2]; [3]]%N ++ huge :: [] /\
  Forall (item_ok (SList I32 (SVec U8))) (items_of (it_list [[1; 2]; [3]; huge]%N)) /\
  room_for (SList I32 (SVec U8)) (of_default (coll (SVec U8)) I32) [[1; 2]; [3]]%N /\
  (offset_max I32 < Z.of_nat (length (concat ([] ++ [[1; 2]; [3]]%N ++ [huge]))))%Z.
Proof.
  intros huge Hh.
  assert (E : items_of (it_list [[1; 2]; [3]; huge]%N) = [[1; 2]; [3]; huge]%N).
  { unfold items_of. rewrite run_list. reflexivity. }
  split; [exact E|]. split.
  { rewrite E. repeat (constructor; [apply Forall_forall; intros x _; exact I|]). constructor. }
  split; [vm_compute; congruence|].
  assert (Ho : offset_max I32 = 2147483647%Z) by (vm_compute; reflexivity).
  cbn [concat app]. rewrite app_nil_r. cbn [length]. unfold lenN in Hh. lia.
Qed.
Example C18_case_huge : exists huge : list N, lenN huge = 2147483648%N.
Proof.
  exists (repeat 0%N (N.to_nat 2147483648)). unfold lenN. rewrite repeat_length. apply N2Nat.id.
Qed.

(** ** C19 *)

Theorem C19_try_extend_is_atomic :
  forall s, widths_pos s -> forall k R o ls (it : iter (list (cA (coll s))) R) w o' r e w',
  built (SList k s) o -> shows (offsets_coll (coll s) k) o ls ->
  Forall (item_ok (SList k s)) (items_of it) ->
  of_try_extend (coll s) k o it w = (o', r, e, w') ->
  match e with
  | ODone => fin_of it = FStop /\ shows (offsets_coll (coll s) k) o' (ls ++ items_of it) /\
      shows (coll s) (of_data o') (concat (ls ++ items_of it))
  | OErr => shows (offsets_coll (coll s) k) o' ls /\ shows (coll s) (of_data o') (concat ls)
  | OPanic => fin_of it = FBoom /\ shows (offsets_coll (coll s) k) o' (ls ++ items_of it) /\
      shows (coll s) (of_data o') (concat (ls ++ items_of it))
  | OAbort => False
  end.
Proof. exact list_try_extend. Qed.
Print Assumptions C19_try_extend_is_atomic.

(** The first list is appended, the offset of the second cannot be stored. *)
Example C19_case :
  let it := it_list [[7; 8; 9]; [6]]%N in
  (exists o' w', of_try_extend (coll (SVec U32)) I32 three_of_six it [Some 0; Some 0; None]%N
     = (o', tt, OErr, w') /\
     v_items (of_data o') = [10; 11; 12; 13; 14]%N /\ v_items (of_offs o') = [0; 2; 2; 5]%Z) /\
  (exists o' w', of_try_extend (coll (SVec U32)) I32 three_of_six it [] = (o', tt, ODone, w') /\
     v_items (of_offs o') = [0; 2; 2; 5; 8; 9]%Z).
Proof.
  cbn zeta. split; do 2 eexists; (split; [vm_compute; reflexivity|]);
    repeat split; vm_compute; reflexivity.
Qed.

(** ** C31 *)

(** [v] is the view of row [i]. Beyond its length [ov_view] returns [None]
    unless start + index overflows. *)
Theorem C31_views_are_slices :
  forall s, widths_pos s -> forall k o ls i l v,
  built (SList k s) o -> shows (offsets_coll (coll s) k) o ls ->
  nth_error ls i = Some l -> of_view (coll s) o (N.of_nat i) = Ret (Some v) ->
  (exists a b, nth_error (v_items (of_offs o)) i = Some a /\
     nth_error (v_items (of_offs o)) (S i) = Some b /\ Z.of_nat (length l) = (b - a)%Z) /\
  ov_len (coll s) v = Ret (lenN l) /\ ov_own (coll s) v = Ret l /\
  (forall j x, nth_error l j = Some x ->
     exists u, ov_view (coll s) v (N.of_nat j) = Ret (Some u) /\ k_own (coll s) u = Ret x) /\
  (forall j, (lenN l <= j)%N ->
     ov_view (coll s) v j = if (ov_start v + j <=? usize_max)%N then Ret None else Pnc) /\
  (exists it, ov_iter (coll s) v = Ret it /\ yields (ov_inext (coll s)) ix_hint (k_own (coll s)) it l) /\
  (exists it, ov_into (coll s) v = Ret it /\ yields (ov_onext (coll s)) ix_hint Ret it l).
Proof. exact list_view_reads. Qed.
Print Assumptions C31_views_are_slices.

(** Equality with a collection [c] of any type [K2]; [veq], the equality of
    views, decides the equality [eqb] of the owned items. *)
Theorem C31_equality_is_pointwise :
  forall s, widths_pos s -> forall k o ls i l v K2 (veq : cV (coll s) -> cV K2 -> out bool)
    (eqb : cA (coll s) -> cA K2 -> bool) c m,
  built (SList k s) o -> shows (offsets_coll (coll s) k) o ls ->
  nth_error ls i = Some l -> of_view (coll s) o (N.of_nat i) = Ret (Some v) ->
  (forall x y a b, k_own (coll s) x = Ret a -> k_own K2 y = Ret b -> veq x y = Ret (eqb a b)) ->
  shows K2 c m ->
  exists r, ov_eq (coll s) K2 veq v c = Ret r /\
    (r = true <-> length l = length m /\
     forall i a b, nth_error l i = Some a -> nth_error m i = Some b -> eqb a b = true).
Proof. exact list_view_eq. Qed.
Print Assumptions C31_equality_is_pointwise.

Example C31_case : exists v,
  of_view (coll (SVec U32)) three_of_six 2 = Ret (Some v) /\
  ov_len (coll (SVec U32)) v = Ret 3%N /\ ov_own (coll (SVec U32)) v = Ret [12; 13; 14]%N /\
  ov_view (coll (SVec U32)) v 3 = Ret None /\ ov_view (coll (SVec U32)) v usize_max = Pnc /\
  let eq c := ov_eq (coll (SVec U32)) (coll (SVec U32)) (fun a b => Ret (N.eqb a b)) v c in
  eq (Vec [12; 13; 14]%N 3) = Ret true /\ eq (Vec [12; 13]%N 3) = Ret false /\
  eq (Vec [12; 0; 14]%N 3) = Ret false.
Proof. eexists. split; [vm_compute; reflexivity|]. repeat split; vm_compute; reflexivity. Qed.
