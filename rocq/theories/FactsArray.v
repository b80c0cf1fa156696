(** * Facts about arrays of any item type, in the vocabulary of the theorems *)
From Coq Require Import List NArith ZArith Bool Arith Lia.
From Verif Require Import Base Iter Spec RoomLemmas VecModel BitmapModel CollModel ValidityModel
  FlattenModel OffsetsModel LayoutModel Reach ReachLemmas CoreLemmas.
Import ListNotations.

Section Arrays.
  Variable t : ty.
  Hypothesis Ht : widths_pos (shape_of t).

  Lemma array_collected R (it : iter (cA (layout t)) R) res r :
    resumable (shape_of t) = true \/ fused it ->
    Forall (item_ok (shape_of t)) (items_of it) ->
    k_from_iter (layout t) it = (res, r) \/ k_from_iter_in (layout t) it = (res, r) ->
    match res with
    | BOk c => fin_of it = FStop /\ shows (layout t) c (items_of it) /\ built (shape_of t) c
    | BErr => False
    | _ => True
    end /\
    (room_new (shape_of t) it ->
     (upper_or_lower (it_hint it) * unit_cost (shape_of t) <= limit (shape_of t))%N ->
     match fin_of it with FStop => exists c, res = BOk c | FBoom => res = BPanic end).
  Proof.
    intros Hf Hi E.
    assert (E' : exists in_ : bool,
      (if in_ then k_from_iter_in (layout t) it else k_from_iter (layout t) it) = (res, r)).
    { destruct E; [exists false|exists true]; auto. }
    destruct E' as [in_ E'].
    destruct (collect_core (shape_of t) Ht in_ R it res r Hf Hi E') as [H1 H2].
    split; [|exact H2]. destruct res; auto. destruct H1 as (A1 & A2 & A3 & _). auto.
  Qed.
  Lemma array_try_collected R (it : iter (cA (layout t)) R) w res r w' :
    resumable_try (shape_of t) = true \/ fused it ->
    Forall (item_ok (shape_of t)) (items_of it) ->
    k_try_from_iter (layout t) it w = (res, r, w') ->
    match res with
    | BOk c => fin_of it = FStop /\ shows (layout t) c (items_of it) /\ built (shape_of t) c
    | BErr => True
    | BPanic => fin_of it = FBoom
    | BAbort => False
    end.
  Proof.
    intros Hf Hi E. pose proof (try_collect_core (shape_of t) Ht R it w res r w' Hf Hi E) as H.
    destruct res; auto. destruct H as (A1 & A2 & A3 & _). auto.
  Qed.
  Lemma array_try_extend R c xs (it : iter (cA (layout t)) R) w c' r o w' :
    built (shape_of t) c -> shows (layout t) c xs ->
    Forall (item_ok (shape_of t)) (items_of it) ->
    k_try_extend (layout t) c it w = (c', r, o, w') ->
    match o with
    | ODone => fin_of it = FStop /\ shows (layout t) c' (xs ++ items_of it)
    | OErr => shows (layout t) c' xs
    | OPanic => fin_of it = FBoom
    | OAbort => False
    end.
  Proof.
    intros Hb Hs Hi E.
    pose proof (try_extend_core (shape_of t) Ht R c xs it w c' r o w' Hb Hs Hi E) as H.
    destruct o; auto. exact (proj1 H).
  Qed.
  Lemma array_runs c xs ps os c' :
    built (shape_of t) c -> shows (layout t) c xs -> runs (shape_of t) c ps os c' ->
    exists ys, list_runs xs ps os ys /\ shows (layout t) c' ys.
  Proof.
    intros Hb Hs H. destruct (runs_core (shape_of t) Ht c xs ps os c' Hb Hs H) as (ys & H1 & H2 & _).
    eauto.
  Qed.
  Lemma array_exec c xs ps c' os :
    built (shape_of t) c -> shows (layout t) c xs ->
    Forall (fun p => Forall (item_ok (shape_of t)) (op_items p)) ps ->
    exec (layout t) c ps = (c', os) -> ~ In OAbort os ->
    panic_safe (shape_of t) false (value_offset (shape_of t) c) = true \/ ~ In OPanic os ->
    exists ys, list_runs xs ps os ys /\ shows (layout t) c' ys.
  Proof.
    intros Hb Hs Hi E Ha Hp.
    destruct (exec_core (shape_of t) Ht ps c xs c' os Hb Hs Hi E Ha Hp) as (ys & H1 & H2 & _). eauto.
  Qed.
  Lemma array_reserve c xs n c' o : built (shape_of t) c -> shows (layout t) c xs ->
    k_reserve (layout t) c n = (c', o) -> shows (layout t) c' xs /\ o <> OErr /\
    ((held (shape_of t) c + n * unit_cost (shape_of t) <= limit (shape_of t))%N -> o = ODone).
  Proof. intros Hb Hs. apply (reserve_core (shape_of t) Ht c xs n Hb Hs). Qed.
  Lemma array_try_reserve c xs n w c' o w' : built (shape_of t) c -> shows (layout t) c xs ->
    k_try_reserve (layout t) c n w = (c', o, w') ->
    shows (layout t) c' xs /\ (o = ODone \/ o = OErr).
  Proof. intros Hb Hs. apply (reserve_core (shape_of t) Ht c xs n Hb Hs). Qed.
  Lemma array_truncate c xs n : built (shape_of t) c -> shows (layout t) c xs ->
    exists c', k_truncate (layout t) c n = (c', ODone) /\
      shows (layout t) c' (firstn (N.to_nat n) xs) /\
      ((lenN xs <= n)%N -> shows (layout t) c' xs).
  Proof.
    intros Hb Hs. destruct (reserve_core (shape_of t) Ht c xs n Hb Hs) as (_ & _ & c' & E & H).
    exists c'. split; [exact E|]. split; [exact H|]. intros Hn. rewrite firstn_all2 in H; [exact H|].
    assert (G : forall A (l : list A) m, (lenN l <= m)%N -> length l <= N.to_nat m)
      by (unfold lenN; intros; lia).
    exact (G _ xs n Hn).
  Qed.
  Lemma array_empty :
    shows (layout t) (k_default (layout t)) [] /\
    (forall n, match k_with_capacity (layout t) n with
       | BOk c => shows (layout t) c [] | BErr => False | _ => True end /\
       ((n * unit_cost (shape_of t) <= limit (shape_of t))%N ->
        exists c, k_with_capacity (layout t) n = BOk c)) /\
    (forall n w res w', k_try_with_capacity (layout t) n w = (res, w') ->
       match res with BOk c => shows (layout t) c [] | BErr => True | _ => False end).
  Proof.
    destruct (empty_core (shape_of t) Ht) as (H1 & H2 & H3). split; [exact H1|]. split.
    - intros n. destruct (H2 n) as [A B]. split; [|exact B].
      change (coll (shape_of t)) with (layout t) in A.
      destruct (k_with_capacity (layout t) n); auto. exact (proj1 A).
    - intros n w res w' E. pose proof (H3 n w res w' E) as A. destruct res; auto. exact (proj1 A).
  Qed.
End Arrays.

Lemma iterators_exact s (Hw : widths_pos s) c : built s c ->
  exists xs, k_len (coll s) c = Ret (length xs) /\
    (forall i x, nth_error xs i = Some x -> k_owned (coll s) c (N.of_nat i) = Ret (Some x)) /\
    (exists it, k_iter (coll s) c = Ret it /\
       yields (k_inext (coll s)) (k_ihint (coll s)) (k_own (coll s)) it xs) /\
    (exists it, k_into (coll s) c = Ret it /\
       yields (k_onext (coll s)) (k_ohint (coll s)) Ret it xs).
Proof.
  intros Hb. destruct (built_shows s Hw c Hb) as (xs & _ & [H1 H2 H3 H4]). exists xs. auto.
Qed.

(** ** Capacity from the upper bound of the size hint *)

Lemma honest_room s (Hw : widths_pos s) R (it : iter (cA (coll s)) R) :
  Forall (item_ok s) (items_of it) -> fused it -> honest it ->
  (forall c, room_in s c it <-> room_for s c (items_of it)) /\
  (room_new s it <-> (total (cost s) (items_of it) <= limit s)%N).
Proof.
  intros Hi Hf Hh. split.
  - intros c. split; [apply affords_items|apply room_honest; auto].
  - split; [|apply room_new_honest; auto].
    intros H. apply affords_items in H. rewrite N.add_0_l in H. exact H.
Qed.
Lemma array_extend t (Ht : widths_pos (shape_of t)) R c xs (it : iter (cA (layout t)) R) c' r o :
  built (shape_of t) c -> shows (layout t) c xs -> Forall (item_ok (shape_of t)) (items_of it) ->
  k_extend (layout t) c it = (c', r, o) ->
  (o = ODone -> fin_of it = FStop /\ shows (layout t) c' (xs ++ items_of it)) /\
  o <> OErr /\
  (room_in (shape_of t) c it -> o = match fin_of it with FStop => ODone | FBoom => OPanic end).
Proof.
  intros Hb Hs Hi E.
  destruct (extend_core (shape_of t) Ht R c xs it c' r o Hb Hs Hi E) as [H1 H2].
  split; [intros ->; exact H1|]. split; [intros ->; exact H1|exact H2].
Qed.
Lemma huge_cap s (Hw : widths_pos s) : forall n w, (9223372036854775808 < n <= usize_max)%N ->
  exists w', k_try_with_capacity (coll s) n w = (BErr, w').
Proof.
  induction s as [p| |s IH|m s IH|k s IH|A a0 z]; intros n w Hn; cbn [widths_pos] in Hw;
    cbn [coll vec_coll bitmap_coll validity_coll flatten_coll offsets_coll k_try_with_capacity].
  - exists w. unfold vec_try_with_capacity, vec_try_reserve, vec_new, lenN. cbn [v_items v_cap length].
    replace (n <=? 0 - N.of_nat 0)%N with false by (symmetry; apply N.leb_gt; lia).
    replace (max_items (psz p) <? N.of_nat 0 + n)%N with true; [reflexivity|].
    symmetry. apply N.ltb_lt. assert (H : (max_items (psz p) <= alloc_max)%N).
    { unfold max_items. destruct (N.eq_dec (psz p) 0) as [->|Hz]; [vm_compute; discriminate|].
      apply N.div_le_upper_bound; nia. }
    unfold alloc_max in H. lia.
  - exists w. unfold bm_try_with_capacity, vec_try_with_capacity, vec_try_reserve, vec_new, lenN.
    cbn [v_items v_cap length].
    assert (H : (1152921504606846976 < bytes_for_bits n)%N).
    { unfold bytes_for_bits. apply (N.lt_le_trans _ ((9223372036854775809 + 7) / 8)); [reflexivity|].
      apply N.div_le_mono; lia. }
    replace (bytes_for_bits n <=? 0 - N.of_nat 0)%N with false by (symmetry; apply N.leb_gt; lia).
    replace (max_items u8sz <? N.of_nat 0 + bytes_for_bits n)%N with true; [reflexivity|].
    symmetry. apply N.ltb_lt. replace (max_items u8sz) with 1152921504606846976%N by reflexivity. lia.
  - unfold va_try_with_capacity. destruct (IH Hw n w Hn) as [w' E]. rewrite E. eauto.
  - unfold fl_try_with_capacity. destruct Hw as [Hm Hw]. unfold checked_mul.
    destruct (N.leb_spec (n * N.of_nat m) usize_max) as [H|H]; [|eauto].
    apply IH; [exact Hw|]. split; [|exact H]. nia.
  - unfold of_try_with_capacity, checked_add. destruct (N.leb_spec (n + 1) usize_max); [|eauto].
    destruct (IH Hw n w Hn) as [w' E]. rewrite E. eauto.
  - exists w. unfold vec_try_with_capacity, vec_try_reserve, vec_new, lenN. cbn [v_items v_cap length].
    replace (n <=? 0 - N.of_nat 0)%N with false by (symmetry; apply N.leb_gt; lia).
    replace (max_items (N.pos z) <? N.of_nat 0 + n)%N with true; [reflexivity|].
    symmetry. apply N.ltb_lt. assert (H : (max_items (N.pos z) <= alloc_max)%N).
    { unfold max_items. apply N.div_le_upper_bound; nia. }
    unfold alloc_max in H. lia.
Qed.
Lemma huge_hint s (Hw : widths_pos s) lo n : (9223372036854775808 < n <= usize_max)%N ->
  (forall R (it : iter (option (cA (coll s))) R) w, it_hint it = (lo, Some n) ->
     (exists r w', k_try_from_iter (validity_coll (coll s)) it w = (BErr, r, w')) /\
     (forall v r, k_from_iter (validity_coll (coll s)) it <> (BOk v, r)) /\
     (forall v r, k_from_iter_in (validity_coll (coll s)) it <> (BOk v, r))) /\
  (forall k R (it : iter (list (cA (coll s))) R) w, it_hint it = (lo, Some n) ->
     exists r w', k_try_from_iter (offsets_coll (coll s) k) it w = (BErr, r, w')).
Proof.
  intros Hn. split.
  - intros R it w Hh. pose proof (huge_cap (SNull s) Hw n w Hn) as [w' E].
    cbn [coll validity_coll k_try_with_capacity] in E.
    assert (B : forall b, bm_with_capacity n <> BOk b).
    { intros b. unfold bm_with_capacity, vec_with_capacity.
      replace (max_items u8sz <? bytes_for_bits n)%N with true.
      - destruct (cap_limit u8sz <? bytes_for_bits n)%N; discriminate.
      - symmetry. apply N.ltb_lt. replace (max_items u8sz) with 1152921504606846976%N by reflexivity.
        unfold bytes_for_bits. apply (N.lt_le_trans _ ((9223372036854775809 + 7) / 8)); [reflexivity|].
        apply N.div_le_mono; lia. }
    cbn [validity_coll k_try_from_iter k_from_iter k_from_iter_in].
    unfold va_try_from_iter, va_collect, upper_or_lower. rewrite Hh. cbn [fst snd unwrap_or]. rewrite E. split; [eauto|].
    split; intros v r; destruct (bm_with_capacity n) as [b| | |] eqn:Eb; try discriminate;
      destruct (B b eq_refl).
  - intros k R it w Hh. pose proof (huge_cap (SList k s) Hw n w Hn) as [w' E].
    cbn [coll offsets_coll k_try_with_capacity] in E.
    cbn [offsets_coll k_try_from_iter].
    unfold of_try_from_iter, upper_or_lower. rewrite Hh. cbn [fst snd unwrap_or]. rewrite E. eauto.
Qed.
