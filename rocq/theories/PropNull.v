(** * Properties of nullable collections: C10-C14, C39, C40

    [s] ranges over all shapes without zero widths (bitmaps, vectors, nullable
    collections, fixed-size lists and lists, nested to any depth);
    [validity_coll (coll s)] is [Validity<T>] over the collection type of that
    shape. [built], [shows], [items_of], [fin_of] as in PropBitmap.v. *)
From Coq Require Import List NArith ZArith Bool Arith Lia.
From Verif Require Import Base Iter Spec VecModel BitmapModel CollModel ValidityModel
  FlattenModel OffsetsModel LayoutModel Reach RoomLemmas ReachLemmas CoreLemmas FactsBitmap FactsNull PropBitmap.
Import ListNotations.

(** ** C10 *)

Theorem C10_collected_options_read_back :
  forall s, widths_pos s -> forall R (it : iter (option (cA (coll s))) R) res r,
  resumable s = true \/ fused it -> Forall (item_ok (SNull s)) (items_of it) ->
  k_from_iter (validity_coll (coll s)) it = (res, r) \/
    k_from_iter_in (validity_coll (coll s)) it = (res, r) ->
  match res with
  | BOk v => fin_of it = FStop /\ shows (validity_coll (coll s)) v (items_of it) /\
      (forall i, nth_error (items_of it) i = Some None ->
         va_view (coll s) v (N.of_nat i) = Ret (Some None)) /\
      (forall i, (lenN (items_of it) <= i)%N -> (i <= usize_max)%N ->
         va_view (coll s) v i = Ret None)
  | BErr => False
  | _ => True
  end /\
  (room_new (SNull s) it ->
   (announced (it_hint it) * unit_cost (SNull s) <= limit s)%N ->
   match fin_of it with FStop => exists v, res = BOk v | FBoom => res = BPanic end).
Proof. exact null_collected. Qed.
Print Assumptions C10_collected_options_read_back.

Theorem C10_try_collected_options_read_back :
  forall s, widths_pos s -> forall R (it : iter (option (cA (coll s))) R) w res r w',
  Forall (item_ok (SNull s)) (items_of it) -> va_try_from_iter (coll s) it w = (res, r, w') ->
  match res with
  | BOk v => fin_of it = FStop /\ shows (validity_coll (coll s)) v (items_of it)
  | BErr => True
  | BPanic => fin_of it = FBoom
  | BAbort => False
  end.
Proof. exact null_try_collected. Qed.
Print Assumptions C10_try_collected_options_read_back.

(** Three optional words; the placeholder of the null is a zero. *)
Definition three_words : list (option N) := [Some 7; None; Some 9]%N.
Example C10_case : exists v,
  resumable (SVec U32) = true /\ Forall (item_ok (SNull (SVec U32))) three_words /\
  k_from_iter (validity_coll (coll (SVec U32))) (it_list three_words) = (BOk v, tt) /\
  v_items (va_coll v) = [7; 0; 9]%N /\
  room_new (SNull (SVec U32)) (it_list three_words).
Proof.
  eexists. split; [reflexivity|]. split; [repeat constructor|].
  split; [vm_compute; reflexivity|]. split; [vm_compute; reflexivity|].
  apply room_new_list; [exact I|repeat constructor|vm_compute; discriminate].
Qed.

(** ** C11 *)

Theorem C11_extend_appends :
  forall s, widths_pos s -> forall R v xs (it : iter (option (cA (coll s))) R) v' r o,
  built (SNull s) v -> shows (validity_coll (coll s)) v xs ->
  Forall (item_ok (SNull s)) (items_of it) -> va_extend (coll s) v it = (v', r, o) ->
  (o = ODone -> fin_of it = FStop /\ shows (validity_coll (coll s)) v' (xs ++ items_of it)) /\
  o <> OErr /\
  (room_in (SNull s) v it ->
   o = match fin_of it with FStop => ODone | FBoom => OPanic end).
Proof. exact null_extend. Qed.
Print Assumptions C11_extend_appends.

(** Two words with a bitmap at bit offset 6 (from the five bits of C03, cut to
    two), and two words with implicit validity. *)
Definition two_words : vec N := Vec [40; 41]%N 2.
Definition two_at_six : validity (vec N) := Validity two_words (Some (Bitmap two_bytes 2 6)).
Definition two_plain : validity (vec N) := Validity two_words None.
Lemma two_words_built : built (SVec U32) two_words /\ shows (coll (SVec U32)) two_words [40; 41]%N.
Proof.
  assert (B : built (SVec U32) two_words) by (apply built_vec; split; vm_compute; congruence).
  split; [exact B|]. apply (shows_check (SVec U32) I); [exact B| |]; vm_compute; reflexivity.
Qed.
Lemma two_bits_built : built SBits (Bitmap two_bytes 2 6) /\
  shows bitmap_coll (Bitmap two_bytes 2 6) [true; true].
Proof.
  destruct C03_case as (H1 & _).
  assert (H2 : bm_try_from_parts two_bytes 2 6 = inl (Bitmap two_bytes 2 6)) by reflexivity.
  split; [exact (built_bits_parts _ _ _ _ H1 H2)|].
  destruct (C03_parts_read_back _ _ _ _ H1 H2) as [H3 _]. exact H3.
Qed.
Lemma two_at_six_built : built (SNull (SVec U32)) two_at_six /\
  shows (validity_coll (coll (SVec U32))) two_at_six [Some 40; Some 41]%N.
Proof.
  destruct two_words_built as [A1 A2]. destruct two_bits_built as [B1 B2].
  destruct (null_same (SVec U32) I two_words _ _ _ two_at_six A1 A2 B1 B2 eq_refl eq_refl)
    as (_ & H1 & _ & H2).
  split; [exact H2|exact H1].
Qed.
Lemma two_plain_built : built (SNull (SVec U32)) two_plain /\
  shows (validity_coll (coll (SVec U32))) two_plain [Some 40; Some 41]%N.
Proof.
  destruct two_words_built as [A1 A2].
  split; [exact (built_null_wrap _ _ A1)|exact (null_wrap (SVec U32) I _ _ A1 A2)].
Qed.

(** 1500 items are more than one chunk; every third is null. *)
Definition many : list (option N) :=
  map (fun i => if (N.of_nat i mod 3 =? 0)%N then None else Some (N.of_nat i)) (seq 0 1500).
Example C11_case :
  (exists v', va_extend (coll (SVec U32)) two_at_six (it_list many) = (v', tt, ODone) /\
     va_len (coll (SVec U32)) v' = Ret 1502 /\
     va_view (coll (SVec U32)) v' 1300 = Ret (Some (Some 1298)%N) /\
     va_view (coll (SVec U32)) v' 1301 = Ret (Some None)) /\
  (exists v', va_extend (coll (SVec U32)) two_plain (it_list many) = (v', tt, ODone) /\
     va_view (coll (SVec U32)) v' 1300 = Ret (Some (Some 1298)%N)) /\
  room_in (SNull (SVec U32)) two_at_six (it_list many).
Proof.
  split; [|split].
  - eexists. split; [vm_compute; reflexivity|]. repeat split; vm_compute; reflexivity.
  - eexists. split; [vm_compute; reflexivity|]. vm_compute; reflexivity.
  - apply room_list; [exact I| |vm_compute; discriminate].
    apply Forall_forall. intros [x|] _; exact I.
Qed.

(** ** C12 *)

Theorem C12_panicking_extend_leaves_chunks :
  forall s, widths_pos s -> forall v xs (it : iter (option (cA (coll s))) unit) v1 ps v2 os,
  built (SNull s) v -> shows (validity_coll (coll s)) v xs ->
  Forall (item_ok (SNull s)) (items_of it) ->
  step (validity_coll (coll s)) v (OpExtend it) = (v1, OPanic) ->
  panic_safe s false (value_offset s (va_coll v)) = true \/
    (panic_safe s true (value_offset s (va_coll v)) = true /\
     room_in (SNull s) v it /\ ~ In OPanic os) ->
  Forall (fun p => Forall (item_ok (SNull s)) (op_items p)) ps ->
  exec (validity_coll (coll s)) v1 ps = (v2, os) -> ~ In OAbort os ->
  exists k, k <= length (items_of it) /\ Nat.divide 1024 k /\
    (room_in (SNull s) v it -> k = 1024 * (length (items_of it) / 1024)) /\
    shows (validity_coll (coll s)) v1 (xs ++ firstn k (items_of it)) /\
    exists ys, list_runs (xs ++ firstn k (items_of it)) ps os ys /\
      shows (validity_coll (coll s)) v2 ys.
Proof. exact null_panic_later. Qed.
Print Assumptions C12_panicking_extend_leaves_chunks.

Theorem C12_panicking_try_extend_leaves_chunks :
  forall s, widths_pos s -> forall v xs (it : iter (option (cA (coll s))) unit) w v1,
  built (SNull s) v -> shows (validity_coll (coll s)) v xs ->
  Forall (item_ok (SNull s)) (items_of it) ->
  step (validity_coll (coll s)) v (OpTryExtend it w) = (v1, OPanic) ->
  panic_safe s true (value_offset s (va_coll v)) = true ->
  fin_of it = FBoom /\
  shows (validity_coll (coll s)) v1
    (xs ++ firstn (1024 * (length (items_of it) / 1024)) (items_of it)).
Proof. exact null_try_panic_keeps. Qed.
Print Assumptions C12_panicking_try_extend_leaves_chunks.

(** A panic after 1500 items: 1024 are kept, and the values beyond them, which
    are in the vector, are dropped by the next extension. *)
Example C12_case : exists v1 v2,
  step (validity_coll (coll (SVec U32))) two_at_six (OpExtend (panicking many)) = (v1, OPanic) /\
  va_len (coll (SVec U32)) v1 = Ret 1026 /\ length (v_items (va_coll v1)) = 1502 /\
  exec (validity_coll (coll (SVec U32))) v1 [OpExtend (it_list [Some 5; None]%N)] = (v2, [ODone]) /\
  va_view (coll (SVec U32)) v2 1026 = Ret (Some (Some 5)%N) /\
  va_view (coll (SVec U32)) v2 1027 = Ret (Some None) /\
  panic_safe (SVec U32) false (value_offset (SVec U32) (va_coll two_at_six)) = true.
Proof.
  eexists. eexists. split; [vm_compute; reflexivity|]. split; [vm_compute; reflexivity|].
  split; [vm_compute; reflexivity|]. split; [vm_compute; reflexivity|].
  repeat split; vm_compute; reflexivity.
Qed.

(** ** C13 *)

Theorem C13_try_extend_is_atomic :
  forall s, widths_pos s -> forall R v xs (it : iter (option (cA (coll s))) R) w v' r o w',
  built (SNull s) v -> shows (validity_coll (coll s)) v xs ->
  Forall (item_ok (SNull s)) (items_of it) ->
  va_try_extend (coll s) v it w = (v', r, o, w') ->
  match o with
  | ODone => fin_of it = FStop /\ shows (validity_coll (coll s)) v' (xs ++ items_of it)
  | OErr => shows (validity_coll (coll s)) v' xs
  | OPanic => fin_of it = FBoom
  | OAbort => False
  end.
Proof. exact null_try_extend. Qed.
Print Assumptions C13_try_extend_is_atomic.

(** Refused while the bitmap is materialized, and after a chunk was committed. *)
Example C13_case :
  (exists v', va_try_extend (coll (SVec U32)) two_plain (it_list many) [None] = (v', tt, OErr, []) /\
     va_bm v' = None) /\
  (exists v', va_try_extend (coll (SVec U32)) two_at_six (it_list many) [Some 0%N; Some 0%N; None] =
     (v', tt, OErr, []) /\
     va_len (coll (SVec U32)) v' = Ret 2 /\ length (v_items (va_coll v')) = 2 /\
     (1024 <= v_cap (va_coll v'))%N).
Proof.
  split; eexists; (split; [vm_compute; reflexivity|]); repeat split; vm_compute; congruence.
Qed.

(** ** C14 *)

Theorem C14_parts_accepted_exactly :
  forall s, widths_pos s -> forall c xs b bs,
  built s c -> shows (coll s) c xs -> built SBits b -> shows bitmap_coll b bs ->
  match va_try_from_parts (coll s) c b with
  | Ret (inl v) => length xs = length bs /\ va_into_parts (coll s) v = (c, Some b) /\
      shows (validity_coll (coll s)) v
        (map (fun p : cA (coll s) * bool => if snd p then Some (fst p) else None) (combine xs bs))
  | Ret (inr (n, m)) => length xs <> length bs /\ n = length xs /\ m = length bs
  | Pnc => False
  end.
Proof. exact null_parts. Qed.
Print Assumptions C14_parts_accepted_exactly.

Example C14_case :
  va_try_from_parts (coll (SVec U32)) two_words (Bitmap two_bytes 2 8) =
    Ret (inl (Validity two_words (Some (Bitmap two_bytes 2 8)))) /\
  va_view (coll (SVec U32)) (Validity two_words (Some (Bitmap two_bytes 2 8))) 1 = Ret (Some None) /\
  va_try_from_parts (coll (SVec U32)) two_words five_bits = Ret (inr (2, 5)).
Proof. repeat split; vm_compute; reflexivity. Qed.

(** ** C39 *)

Theorem C39_validity_is_consistent :
  forall s, widths_pos s -> forall v xs,
  built (SNull s) v -> shows (validity_coll (coll s)) v xs ->
  let n := length xs in
  vb_null_count (va_bm v) = Ret (length (filter (fun o => negb (is_some o)) xs)) /\
  vb_valid_count n (va_bm v) = Ret (length (filter is_some xs)) /\
  vb_any_null (va_bm v) = Ret (existsb (fun o => negb (is_some o)) xs) /\
  vb_all_null n (va_bm v) = Ret (forallb (fun o => negb (is_some o)) xs) /\
  vb_any_valid n (va_bm v) = Ret (existsb is_some xs) /\
  vb_all_valid (va_bm v) = Ret (forallb is_some xs) /\
  (forall i, (i <= usize_max)%N ->
     vb_is_valid n (va_bm v) i =
       match va_view (coll s) v i with
       | Ret (Some (Some _)) => Ret (Some true)
       | Ret (Some None) => Ret (Some false)
       | Ret None => Ret None
       | Pnc => Pnc
       end /\
     vb_is_null n (va_bm v) i = omap (option_map negb) (vb_is_valid n (va_bm v) i)) /\
  (exists m, k_len (coll s) (va_coll v) = Ret m /\ n <= m).
Proof. exact null_consistent. Qed.
Print Assumptions C39_validity_is_consistent.

Example C39_case : exists v1,
  step (validity_coll (coll (SVec U32))) two_at_six (OpExtend (panicking many)) = (v1, OPanic) /\
  vb_null_count (va_bm v1) = Ret 342 /\ vb_is_valid 1026 (va_bm v1) 2 = Ret (Some false) /\
  k_len (coll (SVec U32)) (va_coll v1) = Ret 1502.
Proof. eexists. split; [vm_compute; reflexivity|]. repeat split; vm_compute; reflexivity. Qed.

(** ** C40 *)

(** A wrapped collection and the same collection with an all-set bitmap show the
    same items, *)
Theorem C40_implicit_shows_as_explicit :
  forall s, widths_pos s -> forall c xs b bs v,
  built s c -> shows (coll s) c xs -> built SBits b -> shows bitmap_coll b bs ->
  forallb (fun x => x) bs = true -> va_try_from_parts (coll s) c b = Ret (inl v) ->
  shows (validity_coll (coll s)) (va_from_collection (coll s) c) (map Some xs) /\
  shows (validity_coll (coll s)) v (map Some xs) /\
  built (SNull s) (va_from_collection (coll s) c) /\ built (SNull s) v.
Proof. exact null_same. Qed.
Print Assumptions C40_implicit_shows_as_explicit.
(** and collections that show the same items show the same items after every
    history with the same outcomes, *)
Theorem C40_histories_agree :
  forall s, widths_pos s -> forall v1 v2 xs ps os v1' v2',
  built (SNull s) v1 -> built (SNull s) v2 ->
  shows (validity_coll (coll s)) v1 xs -> shows (validity_coll (coll s)) v2 xs ->
  Forall (fun p => Forall (item_ok (SNull s)) (op_items p)) ps ->
  exec (validity_coll (coll s)) v1 ps = (v1', os) ->
  exec (validity_coll (coll s)) v2 ps = (v2', os) -> ~ In OAbort os -> ~ In OPanic os ->
  exists ys, shows (validity_coll (coll s)) v1' ys /\ shows (validity_coll (coll s)) v2' ys.
Proof. exact null_histories. Qed.
Print Assumptions C40_histories_agree.
(** and after every extension for which there is room, panicking ones included. *)
Theorem C40_extensions_agree :
  forall s, widths_pos s -> forall v1 v2 xs (it : iter (option (cA (coll s))) unit) v1' v2' o1 o2,
  built (SNull s) v1 -> built (SNull s) v2 ->
  shows (validity_coll (coll s)) v1 xs -> shows (validity_coll (coll s)) v2 xs ->
  Forall (item_ok (SNull s)) (items_of it) ->
  room_in (SNull s) v1 it -> room_in (SNull s) v2 it ->
  panic_safe s true (value_offset s (va_coll v1)) = true ->
  panic_safe s true (value_offset s (va_coll v2)) = true ->
  step (validity_coll (coll s)) v1 (OpExtend it) = (v1', o1) ->
  step (validity_coll (coll s)) v2 (OpExtend it) = (v2', o2) ->
  o1 = o2 /\
  exists ys, shows (validity_coll (coll s)) v1' ys /\ shows (validity_coll (coll s)) v2' ys.
Proof. exact null_extend_same. Qed.
Print Assumptions C40_extensions_agree.
(** Materializing the bitmap changes nothing. *)
Theorem C40_materializing_changes_nothing :
  forall s, widths_pos s -> forall v xs v',
  built (SNull s) v -> shows (validity_coll (coll s)) v xs ->
  (exists n o, va_reserve (coll s) v n = (v', o)) \/
  (exists n w o w', va_try_reserve (coll s) v n w = (v', o, w')) \/
  (exists w o w', va_try_materialize (coll s) v w = (v', o, w')) ->
  shows (validity_coll (coll s)) v' xs /\ vb_null_count (va_bm v') = vb_null_count (va_bm v).
Proof. exact null_reserve_same. Qed.
Print Assumptions C40_materializing_changes_nothing.

Example C40_case : exists v1 v2 v3,
  step (validity_coll (coll (SVec U32))) two_plain (OpExtend (panicking many)) = (v1, OPanic) /\
  step (validity_coll (coll (SVec U32))) two_at_six (OpExtend (panicking many)) = (v2, OPanic) /\
  va_coll v1 = va_coll v2 /\
  va_reserve (coll (SVec U32)) two_plain 10 = (v3, ODone) /\
  va_bm v3 = Some (Bitmap (Vec [3]%N 8) 2 0) /\
  room_in (SNull (SVec U32)) two_plain (panicking many) /\
  room_in (SNull (SVec U32)) two_at_six (panicking many).
Proof.
  eexists. eexists. eexists. split; [vm_compute; reflexivity|]. split; [vm_compute; reflexivity|].
  split; [vm_compute; reflexivity|]. split; [vm_compute; reflexivity|].
  split; [vm_compute; reflexivity|]. split; apply affords_boom; vm_compute; discriminate.
Qed.
