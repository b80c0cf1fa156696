(** * Properties of bitmaps: C01-C08

    [built SBits b]: [b] is a bitmap some program can build through the API
    (from parts with any offset and any padding, by collecting, by any earlier
    operations). [shows bitmap_coll b xs]: everything the read API returns for
    [b] is what a list [xs] of booleans returns. [items_of it], [fin_of it]: the
    items an input iterator produces before its first [None] or panic, and which
    of the two comes. *)
From Coq Require Import List NArith ZArith Bool Arith Lia.
From Verif Require Import Base Iter Spec SpecResume VecModel BitmapModel CollModel ValidityModel
  FlattenModel OffsetsModel LayoutModel Reach FactsBitmap FactsResume.
Import ListNotations.

(** ** C01 *)

Theorem C01_collected_bitmap_reads_back : forall R (it : iter bool R) res r,
  fused it -> bm_from_iter it = (res, r) ->
  match res with
  | BOk b => fin_of it = FStop /\ shows bitmap_coll b (items_of it) /\
      (forall i, (lenN (items_of it) <= i)%N -> bm_view b i = Ret None)
  | BErr => False
  | BPanic | BAbort => True
  end /\
  (affords (fun _ => 1%N) 1 alloc_max 0 it ->
   match fin_of it with FStop => exists b, res = BOk b | FBoom => res = BPanic end).
Proof. exact collected_bitmap. Qed.
Print Assumptions C01_collected_bitmap_reads_back.

Theorem C01_every_list_is_collected : forall xs, (lenN xs <= alloc_max)%N ->
  exists b, bm_from_iter (it_list xs) = (BOk b, tt) /\ shows bitmap_coll b xs /\
    forall i, (lenN xs <= i)%N -> bm_view b i = Ret None.
Proof. exact collected_list. Qed.
Print Assumptions C01_every_list_is_collected.

Theorem C01_try_collected_bitmap_reads_back : forall R (it : iter bool R) w res r w',
  fused it -> bm_try_from_iter it w = (res, r, w') ->
  match res with
  | BOk b => fin_of it = FStop /\ shows bitmap_coll b (items_of it) /\
      (forall i, (lenN (items_of it) <= i)%N -> bm_view b i = Ret None)
  | BErr => True
  | BPanic => fin_of it = FBoom
  | BAbort => False
  end.
Proof. exact try_collected_bitmap. Qed.
Print Assumptions C01_try_collected_bitmap_reads_back.

Definition ten_bools : list bool :=
  [true; false; true; true; false; false; false; true; true; false].
Example C01_case : exists b, fused (it_list ten_bools) /\
  bm_from_iter (it_list ten_bools) = (BOk b, tt) /\ v_items (bm_buf b) = [141; 1]%N /\
  bm_view b 8 = Ret (Some true) /\ bm_view b 10 = Ret None.
Proof.
  exists (Bitmap (Vec [141; 1]%N 8) 10 0).
  split; [exact (fused_list ten_bools)|]. repeat split; vm_compute; reflexivity.
Qed.

(** ** C02 (refuted for collecting; extending is correct)

    The statement for collecting, [forall it b r, bm_from_iter it = (BOk b, r) ->
    shows bitmap_coll b (items_of it)], is false: after a [None] in the middle of
    a byte, items that follow are collected. *)

(** An iterator that yields true, None, true. *)
Definition resuming : iter bool unit :=
  let n := Node (0%N, None) tt in Iter n [(Yield true, n); (Stop, n); (Yield true, n)].

Theorem C02_collect_resumable_refuted : exists (it : iter bool unit) b r,
  bm_from_iter it = (BOk b, r) /\ ~ shows bitmap_coll b (items_of it).
Proof.
  exists resuming, (Bitmap (Vec [5]%N 8) 2 0), tt. split; [vm_compute; reflexivity|].
  intros [H _ _ _]. vm_compute in H. discriminate.
Qed.
Print Assumptions C02_collect_resumable_refuted.

Theorem C02_try_collect_resumable_refuted : exists (it : iter bool unit) w b r w',
  bm_try_from_iter it w = (BOk b, r, w') /\ ~ shows bitmap_coll b (items_of it).
Proof.
  exists resuming, [], (Bitmap (Vec [5]%N 1) 2 0), tt, []. split; [vm_compute; reflexivity|].
  intros [H _ _ _]. vm_compute in H. discriminate.
Qed.
Print Assumptions C02_try_collect_resumable_refuted.

(** Exactly when it is correct: the iterator stops after whole groups of eight
    items, or stays silent until the next group would begin ([settles]). Missing
    for the full statement: the iterators that do not settle, for which it is
    false. *)
Theorem C02_collect_settling_partial : forall R (it : iter bool R) res r,
  bm_from_iter it = (res, r) ->
  match res with
  | BOk b => fin_of it = FStop /\ (shows bitmap_coll b (items_of it) <-> settles it)
  | BErr => False
  | _ => True
  end /\
  (settles it -> affords (fun _ => 1%N) 1 alloc_max 0 it ->
   match fin_of it with FStop => exists b, res = BOk b | FBoom => res = BPanic end).
Proof. exact collect_resume. Qed.
Print Assumptions C02_collect_settling_partial.

Theorem C02_try_collect_settling_partial : forall R (it : iter bool R) w res r w',
  bm_try_from_iter it w = (res, r, w') ->
  match res with
  | BOk b => fin_of it = FStop /\ (shows bitmap_coll b (items_of it) <-> settles it)
  | BErr => True
  | BPanic => settles it -> fin_of it = FBoom
  | BAbort => False
  end.
Proof. exact try_collect_resume. Qed.
Print Assumptions C02_try_collect_settling_partial.

(** What is collected from any iterator: one bit per call, in groups of eight calls,
    until a group begins with [None]; as many of these bits as there were items. *)
Theorem C02_what_is_collected : forall R (it : iter bool R) b r,
  bm_from_iter it = (BOk b, r) -> shows bitmap_coll b (packed_answers it).
Proof. exact collect_answers. Qed.
Print Assumptions C02_what_is_collected.
Theorem C02_what_is_try_collected : forall R (it : iter bool R) w b r w',
  bm_try_from_iter it w = (BOk b, r, w') -> shows bitmap_coll b (packed_answers it).
Proof. exact try_collect_answers. Qed.
Print Assumptions C02_what_is_try_collected.
Example C02_lost_item_case : exists b, bm_from_iter resuming = (BOk b, tt) /\
  answers resuming = [Some true; None; Some true] /\ packed_answers resuming = [true; false].
Proof. eexists. split; [vm_compute; reflexivity|]. split; reflexivity. Qed.

(** [true, false, true], then [None] for the rest of the byte and once more, then
    two more items: not fused, and collected correctly. With one [None] less it is
    not. *)
Definition late (nones : nat) : iter bool unit :=
  let n := Node (0%N, None) tt in
  Iter n ([(Yield true, n); (Yield false, n); (Yield true, n)] ++
          repeat (Stop, n) nones ++ [(Yield true, n); (Yield true, n)]).
Example C02_case : settles (late 6) /\ ~ fused (late 6) /\ ~ settles (late 5) /\
  affords (fun _ => 1%N) 1 alloc_max 0 (late 6) /\
  bm_from_iter (late 6) = (BOk (Bitmap (Vec [5]%N 8) 3 0), tt) /\
  bm_from_iter (late 5) = (BOk (Bitmap (Vec [5; 3]%N 8) 5 0), tt).
Proof.
  split; [repeat constructor|]. split; [intros H; vm_compute in H; repeat match goal with
    H : Forall _ (_ :: _) |- _ => inversion H; clear H; subst end; discriminate|].
  split; [intros H; vm_compute in H; repeat match goal with
    H : Forall _ (_ :: _) |- _ => inversion H; clear H; subst end; discriminate|].
  split; [vm_compute; repeat split; discriminate|]. split; vm_compute; reflexivity.
Qed.

(** ** C03 *)

Theorem C03_parts_accepted_exactly : forall buf bits off,
  ((exists b, bm_try_from_parts buf bits off = inl b) <->
   (off + bits <= usize_max)%N /\ (off + bits <= 8 * lenN (v_items buf))%N) /\
  (~ ((off + bits <= usize_max)%N /\ (off + bits <= 8 * lenN (v_items buf))%N) ->
   bm_try_from_parts buf bits off = inr (OutOfBounds off bits (lenN (v_items buf)))).
Proof. exact parts_iff. Qed.
Print Assumptions C03_parts_accepted_exactly.

Theorem C03_parts_read_back : forall buf bits off b,
  vec_fits u8sz buf -> bm_try_from_parts buf bits off = inl b ->
  shows bitmap_coll b (firstn (N.to_nat bits) (skipn (N.to_nat off) (bits_of (v_items buf)))) /\
  (forall i, (i < bits)%N -> exists byte,
     nth_error (v_items buf) (N.to_nat ((off + i) / 8)) = Some byte /\
     bm_view b i = Ret (Some (N.testbit byte ((off + i) mod 8)))) /\
  N.of_nat (bm_len b) = bits /\ N.of_nat (bm_bit_offset b) = off /\
  bm_into_parts b = (buf, N.to_nat bits, N.to_nat off).
Proof. exact parts_bits. Qed.
Print Assumptions C03_parts_read_back.

(** Five bits from bit 6 of two bytes; the last bit does not fit. *)
Definition two_bytes : vec N := Vec [0xC1; 0xFD]%N 2.
Definition five_bits : bitmap := Bitmap two_bytes 5 6.
Example C03_case :
  vec_fits u8sz two_bytes /\ bm_try_from_parts two_bytes 5 6 = inl five_bits /\
  firstn 5 (skipn 6 (bits_of (v_items two_bytes))) = [true; true; true; false; true] /\
  bm_try_from_parts two_bytes 11 6 = inr (OutOfBounds 6 11 2) /\
  bm_try_from_parts two_bytes usize_max 1 = inr (OutOfBounds 1 usize_max 2).
Proof. repeat split; vm_compute; congruence. Qed.
Lemma five_bits_built : built SBits five_bits /\
  shows bitmap_coll five_bits [true; true; true; false; true].
Proof.
  destruct C03_case as (H1 & H2 & H3 & _). split.
  - exact (built_bits_parts _ _ _ _ H1 H2).
  - rewrite <- H3. apply (C03_parts_read_back _ _ _ _ H1 H2).
Qed.

(** ** C04 *)

Theorem C04_extend_appends : forall R b xs (it : iter bool R) b' r o,
  built SBits b -> shows bitmap_coll b xs -> fin_of it = FStop -> bm_extend b it = (b', r, o) ->
  (o = ODone /\ shows bitmap_coll b' (xs ++ items_of it)) \/
  ((o = OAbort \/ o = OPanic) /\
   ~ affords (fun _ => 1%N) 1 alloc_max (lenN (v_items (bm_buf b))) it).
Proof. exact bits_extend_appends. Qed.
Print Assumptions C04_extend_appends.

(** Extending five bits at offset 6, with stale bits behind them, by an iterator
    that could be resumed. *)
Example C04_case : built SBits five_bits /\
  shows bitmap_coll five_bits [true; true; true; false; true] /\
  fin_of resuming = FStop /\ items_of resuming = [true] /\
  bm_extend five_bits resuming = (Bitmap (Vec [0xC1; 0xFD]%N 2) 6 6, tt, ODone) /\
  bm_extend five_bits (it_list [false; false]) = (Bitmap (Vec [0xC1; 0xE5]%N 2) 7 6, tt, ODone).
Proof.
  destruct five_bits_built. split; [auto|]. split; [auto|].
  repeat split; vm_compute; reflexivity.
Qed.

(** ** C05 *)

Theorem C05_panicking_extend_leaves_a_prefix :
  forall b xs (it : iter bool unit) b1 o ps b2 os,
  built SBits b -> shows bitmap_coll b xs ->
  step bitmap_coll b (OpExtend it) = (b1, o) \/
    (exists w, step bitmap_coll b (OpTryExtend it w) = (b1, o)) ->
  o = OPanic ->
  exec bitmap_coll b1 ps = (b2, os) -> ~ In OAbort os ->
  let kept := xs ++ firstn ((8 - (bm_bit_offset b + length xs) mod 8) mod 8) (items_of it) in
  shows bitmap_coll b1 kept /\
  exists ys, list_runs kept ps os ys /\ shows bitmap_coll b2 ys.
Proof. exact bits_panic_later. Qed.
Print Assumptions C05_panicking_extend_leaves_a_prefix.

(** Fourteen items and then a panic: five are kept, the rest is invisible later. *)
Definition panicking {A} (xs : list A) : iter A unit :=
  let n := Node (0%N, None) tt in Iter n (map (fun x => (Yield x, n)) xs ++ [(Boom, n)]).
Example C05_case :
  exists b1 b2, step bitmap_coll five_bits (OpExtend (panicking (repeat true 14))) = (b1, OPanic) /\
  bm_len b1 = 10 /\
  exec bitmap_coll b1 [OpExtend (it_list [false; true])] = (b2, [ODone]) /\
  v_items (bm_buf b1) = [193; 253; 255]%N /\ v_items (bm_buf b2) = [193; 253; 2]%N.
Proof.
  exists (Bitmap (Vec [193; 253; 255]%N 8) 10 6), (Bitmap (Vec [193; 253; 2]%N 8) 12 6).
  repeat split; vm_compute; reflexivity.
Qed.

(** ** C06 *)

Theorem C06_try_extend_is_atomic : forall R b xs (it : iter bool R) w b' r o w',
  built SBits b -> shows bitmap_coll b xs -> bm_try_extend b it w = (b', r, o, w') ->
  match o with
  | ODone => fin_of it = FStop /\ shows bitmap_coll b' (xs ++ items_of it)
  | OErr => shows bitmap_coll b' xs
  | OPanic => fin_of it = FBoom
  | OAbort => False
  end.
Proof. exact bits_try_extend. Qed.
Print Assumptions C06_try_extend_is_atomic.

(** Refused: the bits that were already written are taken back. *)
Example C06_case : exists b', bm_try_extend five_bits (it_list (repeat false 12)) [None] =
  (b', tt, OErr, []) /\ bm_len b' = 5 /\ v_items (bm_buf b') <> v_items (bm_buf five_bits).
Proof.
  eexists. split; [vm_compute; reflexivity|]. split; vm_compute; congruence.
Qed.

(** ** C07 *)

Theorem C07_null_counts : forall b xs, built SBits b -> shows bitmap_coll b xs ->
  let n := length xs in
  vb_null_count (Some b) = Ret (length (filter negb xs)) /\
  vb_valid_count n (Some b) = Ret (length (filter (fun x => x) xs)) /\
  vb_any_null (Some b) = Ret (existsb negb xs) /\
  vb_all_null n (Some b) = Ret (forallb negb xs) /\
  vb_any_valid n (Some b) = Ret (existsb (fun x => x) xs) /\
  vb_all_valid (Some b) = Ret (forallb (fun x => x) xs) /\
  (forall i, vb_is_valid n (Some b) i = Ret (nth_error xs (N.to_nat i)) /\
     vb_is_null n (Some b) i = Ret (option_map negb (nth_error xs (N.to_nat i)))).
Proof. exact bits_counts. Qed.
Print Assumptions C07_null_counts.

Example C07_case : built SBits five_bits /\
  shows bitmap_coll five_bits [true; true; true; false; true] /\
  vb_null_count (Some five_bits) = Ret 1 /\ vb_is_null 5 (Some five_bits) 3 = Ret (Some true).
Proof.
  destruct five_bits_built as [H1 H2]. split; [exact H1|]. split; [exact H2|].
  split; vm_compute; reflexivity.
Qed.

(** ** C08 *)

Theorem C08_histories_refine_a_list : forall ps b xs b' os,
  built SBits b -> shows bitmap_coll b xs ->
  exec bitmap_coll b ps = (b', os) -> ~ In OAbort os ->
  exists ys, list_runs xs ps os ys /\ shows bitmap_coll b' ys.
Proof. exact bits_exec. Qed.
Print Assumptions C08_histories_refine_a_list.

(** A history with a panic, a failed allocation, and a truncation. *)
Example C08_case : exists b',
  exec bitmap_coll five_bits
    [OpExtend (panicking (repeat true 12)); OpTryExtend (it_list (repeat false 40)) [None];
     OpTruncate 7; OpReserve 100; OpExtend (it_list [false; true])]
  = (b', [OPanic; OErr; ODone; ODone; ODone]) /\ bm_len b' = 9 /\
  bm_view b' 6 = Ret (Some true) /\ bm_view b' 7 = Ret (Some false).
Proof. eexists. split; [vm_compute; reflexivity|]. repeat split; vm_compute; reflexivity. Qed.
