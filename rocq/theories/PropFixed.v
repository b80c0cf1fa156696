(** * Fixed-size lists: src/collection/flatten.rs

    [s] ranges over all layouts of the items of the rows: [coll s] is the child
    collection, [flatten_coll (coll s) n] the fixed-size lists of width [n]. *)
From Coq Require Import List NArith ZArith Bool Arith.
From Verif Require Import Base Iter Spec VecModel BitmapModel CollModel ValidityModel FlattenModel
  OffsetsModel LayoutModel Reach SpecFixed CoreLemmas FactsFixed PropBitmap.
Import ListNotations.

(** Three rows of two words. *)
Definition words_of (l : list N) : cC (coll (SVec U32)) := Vec l (lenN l).
Definition three_rows : cC (coll (SFixed 2 (SVec U32))) := words_of [1; 2; 3; 4; 5; 6]%N.
Lemma words_built l : (lenN l <= 1000)%N -> built (SVec U32) (words_of l).
Proof.
  intros H. apply built_vec. split; [apply N.le_refl|].
  apply (N.le_trans _ 1000); [exact H|discriminate].
Qed.
Lemma three_rows_built : built (SFixed 2 (SVec U32)) three_rows.
Proof.
  apply (built_fixed_parts 2 (SVec U32) three_rows); [apply words_built; discriminate|reflexivity].
Qed.
(** Two rows of three booleans. *)
Definition two_triples : cC (coll (SFixed 3 SBits)) := Bitmap (Vec [43]%N 1) 6 0.
Lemma two_triples_built : built (SFixed 3 SBits) two_triples.
Proof.
  apply (built_fixed_parts 3 SBits two_triples); [|reflexivity].
  apply (built_bits_parts (Vec [43]%N 1) 6 0); [split; discriminate|reflexivity].
Qed.

(** ** C20 *)

Theorem C20_parts_accepted_exactly :
  forall s, widths_pos s -> forall n c xs, built s c -> shows (coll s) c xs ->
  match fl_try_from_parts (coll s) n c with
  | Ret (inl c') => 0 < n /\ Nat.divide n (length xs) /\ c' = c /\ built (SFixed n s) c' /\
      exists rows, shows (flatten_coll (coll s) n) c' rows /\ n * length rows = length xs /\
        forall i x, nth_error rows i = Some x -> x = firstn n (skipn (n * i) xs)
  | Ret (inr ZeroChunkSize) => n = 0
  | Ret (inr (NotMultiple len m)) => 0 < n /\ len = length xs /\ m = n /\
      ~ Nat.divide n (length xs)
  | Pnc => False
  end.
Proof. exact fixed_parts. Qed.
Print Assumptions C20_parts_accepted_exactly.

Example C20_case :
  fl_try_from_parts (coll (SVec U32)) 2 (words_of [1; 2; 3; 4; 5; 6]%N) = Ret (inl three_rows) /\
  fl_try_from_parts (coll (SVec U32)) 4 (words_of [1; 2; 3; 4; 5; 6]%N) = Ret (inr (NotMultiple 6 4)) /\
  fl_try_from_parts (coll (SVec U32)) 0 (words_of [1; 2; 3; 4; 5; 6]%N) = Ret (inr ZeroChunkSize) /\
  built (SVec U32) (words_of [1; 2; 3; 4; 5; 6]%N) /\
  k_owned (flatten_coll (coll (SVec U32)) 2) three_rows 1 = Ret (Some [3; 4]%N).
Proof.
  split; [reflexivity|]. split; [reflexivity|]. split; [reflexivity|].
  split; [apply words_built; discriminate|]. vm_compute. reflexivity.
Qed.

(** ** C21 *)

Theorem C21_collected_rows_read_back :
  forall s, widths_pos s -> forall n, 0 < n -> forall R (it : iter (list (cA (coll s))) R) res r,
  Forall (item_ok (SFixed n s)) (items_of it) ->
  k_from_iter (flatten_coll (coll s) n) it = (res, r) \/
    k_from_iter_in (flatten_coll (coll s) n) it = (res, r) ->
  match res with
  | BOk c => fin_of it = FStop /\ shows (flatten_coll (coll s) n) c (items_of it) /\
      built (SFixed n s) c
  | BErr => False
  | _ => True
  end /\
  (room_new (SFixed n s) it ->
   (announced (it_hint it) * unit_cost (SFixed n s) <= limit s)%N ->
   match fin_of it with FStop => exists c, res = BOk c | FBoom => res = BPanic end).
Proof. exact fixed_collected. Qed.
Print Assumptions C21_collected_rows_read_back.

Theorem C21_try_collected_rows_read_back :
  forall s, widths_pos s -> forall n, 0 < n ->
  forall R (it : iter (list (cA (coll s))) R) w res r w',
  Forall (item_ok (SFixed n s)) (items_of it) ->
  k_try_from_iter (flatten_coll (coll s) n) it w = (res, r, w') ->
  match res with
  | BOk c => fin_of it = FStop /\ shows (flatten_coll (coll s) n) c (items_of it)
  | BErr => True
  | BPanic => fin_of it = FBoom
  | BAbort => False
  end.
Proof. exact fixed_try_collected. Qed.
Print Assumptions C21_try_collected_rows_read_back.

Theorem C21_extend_appends :
  forall s, widths_pos s -> forall n, 0 < n ->
  forall R c xs (it : iter (list (cA (coll s))) R) c' r o,
  built (SFixed n s) c -> shows (flatten_coll (coll s) n) c xs ->
  Forall (item_ok (SFixed n s)) (items_of it) ->
  k_extend (flatten_coll (coll s) n) c it = (c', r, o) ->
  (o = ODone -> fin_of it = FStop /\ shows (flatten_coll (coll s) n) c' (xs ++ items_of it)) /\
  o <> OErr /\
  (room_in (SFixed n s) c it ->
   o = match fin_of it with FStop => ODone | FBoom => OPanic end).
Proof. exact fixed_extend. Qed.
Print Assumptions C21_extend_appends.

Theorem C21_truncate_keeps_a_prefix :
  forall s, widths_pos s -> forall n, 0 < n -> forall c xs len,
  built (SFixed n s) c -> shows (flatten_coll (coll s) n) c xs ->
  exists c', fl_truncate (coll s) n c len = (c', ODone) /\
    shows (flatten_coll (coll s) n) c' (firstn (N.to_nat len) xs).
Proof. exact fixed_truncate. Qed.
Print Assumptions C21_truncate_keeps_a_prefix.

Example C21_case :
  let rows := [[true; true; false]; [true; false; true]; [false; false; true]] in
  Forall (item_ok (SFixed 3 SBits)) (items_of (it_list rows)) /\
  (exists c, k_from_iter (flatten_coll bitmap_coll 3) (it_list rows) = (BOk c, tt) /\
     k_owned (flatten_coll bitmap_coll 3) c 2 = Ret (Some [false; false; true])) /\
  (exists c, k_extend (flatten_coll bitmap_coll 3) two_triples (it_list rows) = (c, tt, ODone) /\
     k_len (flatten_coll bitmap_coll 3) c = Ret 5 /\
     k_owned (flatten_coll bitmap_coll 3) c 4 = Ret (Some [false; false; true])) /\
  (exists c, fl_truncate bitmap_coll 3 two_triples 1 = (c, ODone) /\ bm_len c = 3) /\
  shows (flatten_coll bitmap_coll 3) two_triples [[true; true; false]; [true; false; true]].
Proof.
  split; [repeat constructor|].
  split; [eexists; split; [vm_compute; reflexivity|vm_compute; reflexivity]|].
  split; [eexists; split; [vm_compute; reflexivity|split; [vm_compute; reflexivity|vm_compute; reflexivity]]|].
  split; [eexists; split; [vm_compute; reflexivity|vm_compute; reflexivity]|].
  apply (shows_check (SFixed 3 SBits) (conj (Nat.lt_0_succ 2) I) two_triples);
    [exact two_triples_built| |]; vm_compute; reflexivity.
Qed.

(** ** C22

    The full statement: for every layout, every collection and every index that
    is not smaller than the length, [view] and [owned] return [None]. It holds
    unless the outermost collection is a fixed-size list, or is a list and the
    index is [usize::MAX]. *)

Theorem C22_view_out_of_bounds_partial :
  forall s, widths_pos s -> forall c xs i, built s c -> shows (coll s) c xs ->
  (lenN xs <= i)%N -> (i <= usize_max)%N ->
  match s with
  | SFixed _ _ => False
  | SList _ _ => (i < usize_max)%N
  | _ => True
  end ->
  k_view (coll s) c i = Ret None /\ k_owned (coll s) c i = Ret None.
Proof. exact view_outside. Qed.
Print Assumptions C22_view_out_of_bounds_partial.

(** Every index that is out of bounds panics. *)
Theorem C22_fixed_view_refuted :
  forall n s, 0 < n -> widths_pos s -> forall c rows i, built (SFixed n s) c ->
  shows (coll (SFixed n s)) c rows -> (lenN rows <= i)%N -> (i <= usize_max)%N ->
  fl_view (coll s) n c i = Pnc.
Proof. exact fixed_view_outside. Qed.
Print Assumptions C22_fixed_view_refuted.

Theorem C22_list_view_refuted :
  forall k s, widths_pos s -> forall o, built (SList k s) o ->
  of_view (coll s) o usize_max = Pnc.
Proof. exact list_view_outside. Qed.
Print Assumptions C22_list_view_refuted.

Theorem C22_refuted : exists n s c rows i, 0 < n /\ widths_pos s /\ built (SFixed n s) c /\
  shows (coll (SFixed n s)) c rows /\ (lenN rows <= i)%N /\ k_view (coll (SFixed n s)) c i = Pnc.
Proof.
  exists 2, (SVec U32), three_rows, [[1; 2]; [3; 4]; [5; 6]]%N, 3%N.
  split; [apply Nat.lt_0_succ|]. split; [exact I|]. split; [exact three_rows_built|]. split.
  - apply (shows_check (SFixed 2 (SVec U32)) (conj (Nat.lt_0_succ 1) I) three_rows);
      [exact three_rows_built| |]; vm_compute; reflexivity.
  - split; [discriminate|]. vm_compute. reflexivity.
Qed.
Print Assumptions C22_refuted.

Example C22_case :
  k_view (coll (SNull (SFixed 2 (SVec U32)))) (va_from_collection _ three_rows) 3 = Ret None /\
  k_view (coll (SFixed 2 (SVec U32))) three_rows 3 = Pnc.
Proof. split; vm_compute; reflexivity. Qed.

(** ** C23

    The full statement, without the premise about [panic_safe], is false. *)

Theorem C23_panicking_extend_keeps_rows_partial :
  forall s, widths_pos s -> forall n, 0 < n ->
  forall c xs (it : iter (list (cA (coll s))) unit) c1 ps c2 os,
  built (SFixed n s) c -> shows (flatten_coll (coll s) n) c xs ->
  Forall (item_ok (SFixed n s)) (items_of it) ->
  step (flatten_coll (coll s) n) c (OpExtend it) = (c1, OPanic) ->
  panic_safe (SFixed n s) false (value_offset s c) = true \/
    (panic_safe (SFixed n s) true (value_offset s c) = true /\
     room_in (SFixed n s) c it /\ ~ In OPanic os) ->
  Forall (fun p => Forall (item_ok (SFixed n s)) (op_items p)) ps ->
  exec (flatten_coll (coll s) n) c1 ps = (c2, os) -> ~ In OAbort os ->
  exists k, k <= length (items_of it) /\
    shows (flatten_coll (coll s) n) c1 (xs ++ firstn k (items_of it)) /\
    exists ys, list_runs (xs ++ firstn k (items_of it)) ps os ys /\
      shows (flatten_coll (coll s) n) c2 ys.
Proof. exact fixed_panic_later. Qed.
Print Assumptions C23_panicking_extend_keeps_rows_partial.

(** What happens to the others. Booleans, options and lists: unless the
    allocation limit is near, there is a history after which a row is not read
    back. *)
Theorem C23_bits_refuted :
  forall n c rows, 0 < n -> built (SFixed n SBits) c ->
  shows (coll (SFixed n SBits)) c rows -> bit_aligned (bm_bit_offset c) n = false ->
  (held SBits c + 34 * N.of_nat n <= alloc_max)%N -> corrupts (SFixed n SBits) c.
Proof. exact fixed_bits_corrupt. Qed.
Print Assumptions C23_bits_refuted.

Theorem C23_options_refuted :
  forall s, widths_pos s -> forall n c rows, 0 < n -> built (SFixed n (SNull s)) c ->
  shows (coll (SFixed n (SNull s))) c rows -> 1024 mod n <> 0 -> n mod 1024 <> 0 ->
  panic_safe s true (value_offset (SNull s) c) = true ->
  (held (SNull s) c + N.of_nat (1023 + 2 * n) * (cost s (k_item0 (coll s)) + 2) <= limit s)%N ->
  corrupts (SFixed n (SNull s)) c.
Proof. exact fixed_nulls_corrupt. Qed.
Print Assumptions C23_options_refuted.

Theorem C23_lists_refuted :
  forall k s, widths_pos s -> forall n c rows huge, 2 <= n ->
  built (SFixed n (SList k s)) c -> shows (coll (SFixed n (SList k s))) c rows ->
  panic_safe s false (value_offset (SList k s) c) = true -> Forall (item_ok s) huge ->
  (omax k < Z.of_nat (length huge))%Z ->
  (held (SList k s) c + N.of_nat (2 * n) * cost (SList k s) [k_item0 (coll s)] <= limit (SList k s))%N ->
  corrupts (SFixed n (SList k s)) c.
Proof. exact fixed_lists_corrupt. Qed.
Print Assumptions C23_lists_refuted.

(** Primitives: unless the spare capacity is a multiple of the width, an
    iterator that never panics but promises too many items makes the vector
    panic in the middle of a row. *)
Theorem C23_words_refuted :
  forall p n (c : vec N) rows, 0 < n -> built (SFixed n (SVec p)) c ->
  shows (coll (SFixed n (SVec p))) c rows ->
  ((v_cap c - lenN (v_items c)) mod N.of_nat n <> 0)%N ->
  (v_cap c + N.of_nat n <= max_items (psz p))%N -> corrupts (SFixed n (SVec p)) c.
Proof. exact fixed_words_corrupt. Qed.
Print Assumptions C23_words_refuted.

(** [[bool; 3]]: two rows of three, then three rows and a panic, then a row. *)
Theorem C23_refuted : exists c1 c2,
  built (SFixed 3 SBits) two_triples /\
  step (coll (SFixed 3 SBits)) two_triples
    (OpExtend (panicking (repeat [true; true; true] 3))) = (c1, OPanic) /\
  k_len (coll (SFixed 3 SBits)) c1 = Ret 2 /\
  step (coll (SFixed 3 SBits)) c1 (OpExtend (it_list [[false; true; false]])) = (c2, ODone) /\
  k_len (coll (SFixed 3 SBits)) c2 = Ret 3 /\
  k_owned (coll (SFixed 3 SBits)) c2 2 = Ret (Some [true; true; false]).
Proof.
  eexists. eexists. split; [exact two_triples_built|]. split; [vm_compute; reflexivity|].
  split; [vm_compute; reflexivity|]. split; [vm_compute; reflexivity|].
  split; vm_compute; reflexivity.
Qed.
Print Assumptions C23_refuted.

Example C23_case : exists c1 c2,
  step (coll (SFixed 2 (SVec U32))) three_rows (OpExtend (panicking [[7; 8]; [9; 10]]%N)) = (c1, OPanic) /\
  exec (coll (SFixed 2 (SVec U32))) c1 [OpTruncate 4; OpExtend (it_list [[11; 12]]%N)] =
    (c2, [ODone; ODone]) /\
  v_items c2 = [1; 2; 3; 4; 5; 6; 7; 8; 11; 12]%N /\
  panic_safe (SFixed 2 (SVec U32)) true 0 = true /\
  room_in (SFixed 2 (SVec U32)) three_rows (panicking [[7; 8]; [9; 10]]%N) /\
  bit_aligned (bm_bit_offset two_triples) 3 = false.
Proof.
  eexists. eexists. split; [vm_compute; reflexivity|]. split; [vm_compute; reflexivity|].
  split; [vm_compute; reflexivity|]. split; [reflexivity|]. split; [|reflexivity].
  split; [vm_compute; discriminate|]. split; [vm_compute; discriminate|].
  split; [vm_compute; discriminate|exact I].
Qed.

(** States that meet the premises. *)
Example C23_bits_case : corrupts (SFixed 3 SBits) two_triples.
Proof.
  apply (C23_bits_refuted 3 two_triples [[true; true; false]; [true; false; true]]).
  - apply Nat.lt_0_succ.
  - exact two_triples_built.
  - apply (shows_check (SFixed 3 SBits) (conj (Nat.lt_0_succ 2) I) two_triples);
      [exact two_triples_built| |]; vm_compute; reflexivity.
  - reflexivity.
  - vm_compute. discriminate.
Qed.
Example C23_words_case : corrupts (SFixed 2 (SVec U32)) (Vec [1; 2]%N 3).
Proof.
  assert (B : built (SFixed 2 (SVec U32)) (Vec [1; 2]%N 3)).
  { apply (built_fixed_parts 2 (SVec U32) (Vec [1; 2]%N 3)); [|reflexivity].
    apply (built_vec U32). split; vm_compute; discriminate. }
  apply (C23_words_refuted U32 2 (Vec [1; 2]%N 3) [[1; 2]]%N).
  - apply Nat.lt_0_succ.
  - exact B.
  - apply (shows_check (SFixed 2 (SVec U32)) (conj (Nat.lt_0_succ 1) I)); [exact B| |];
      vm_compute; reflexivity.
  - discriminate.
  - vm_compute. discriminate.
Qed.
Example C23_options_case :
  corrupts (SFixed 3 (SNull (SVec U32))) (k_default (coll (SFixed 3 (SNull (SVec U32))))).
Proof.
  pose proof (built_default (SFixed 3 (SNull (SVec U32)))) as B.
  apply (C23_options_refuted (SVec U32) I 3 _ []).
  - apply Nat.lt_0_succ.
  - exact B.
  - apply (shows_check (SFixed 3 (SNull (SVec U32))) (conj (Nat.lt_0_succ 2) I)); [exact B| |];
      vm_compute; reflexivity.
  - discriminate.
  - discriminate.
  - reflexivity.
  - vm_compute. discriminate.
Qed.
Example C23_lists_case :
  corrupts (SFixed 2 (SList I32 (SVec U8))) (k_default (coll (SFixed 2 (SList I32 (SVec U8))))).
Proof.
  pose proof (built_default (SFixed 2 (SList I32 (SVec U8)))) as B.
  assert (H : exists huge : list N, Z.of_nat (length huge) = 2147483648%Z).
  { exists (repeat 0%N (N.to_nat 2147483648)). rewrite repeat_length. apply N_nat_Z. }
  destruct H as [huge H].
  apply (C23_lists_refuted I32 (SVec U8) I 2 _ [] huge).
  - apply Nat.le_refl.
  - exact B.
  - apply (shows_check (SFixed 2 (SList I32 (SVec U8))) (conj (Nat.lt_0_succ 1) I)); [exact B| |];
      vm_compute; reflexivity.
  - reflexivity.
  - apply Forall_forall. intros x _. exact I.
  - apply (Z.lt_le_trans _ 2147483648); [vm_compute; reflexivity|apply Z.eq_le_incl; symmetry; exact H].
  - vm_compute. discriminate.
Qed.

(** ** C30

    [try_from_parts] rejects the width 0 (C20). Collecting does not, and the
    collection then has no length, an item at every index and none to iterate. *)

Theorem C30_zero_width_refuted :
  forall s, widths_pos s -> forall q,
  exists c, k_from_iter (flatten_coll (coll s) 0) (it_list (repeat [] q)) = (BOk c, tt) /\
    k_len (flatten_coll (coll s) 0) c = Pnc /\
    k_truncate (flatten_coll (coll s) 0) c 0 = (c, OPanic) /\
    (forall i, k_owned (flatten_coll (coll s) 0) c i = Ret (Some [])) /\
    k_iter (flatten_coll (coll s) 0) c = Pnc /\
    exists t t', k_into (flatten_coll (coll s) 0) c = Ret t /\
      k_onext (flatten_coll (coll s) 0) t = Ret (None, t').
Proof. exact zero_width. Qed.
Print Assumptions C30_zero_width_refuted.

Theorem C30_zero_width_parts_rejected :
  forall s, widths_pos s -> forall c, built s c ->
  fl_try_from_parts (coll s) 0 c = Ret (inr ZeroChunkSize).
Proof. exact zero_parts. Qed.
Print Assumptions C30_zero_width_parts_rejected.

Example C30_case : built (SVec U32) (words_of []%N) /\
  fl_try_from_parts (coll (SVec U32)) 0 (words_of []%N) = Ret (inr ZeroChunkSize) /\
  fst (k_from_iter (flatten_coll (coll (SVec U32)) 0) (it_list [[]; []; []])) = BOk (words_of []).
Proof. split; [apply words_built; discriminate|]. split; vm_compute; reflexivity. Qed.
