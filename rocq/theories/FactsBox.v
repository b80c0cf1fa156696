(** * Lemmas behind the theorems of PropBox.v *)
From Coq Require Import List NArith ZArith Bool Arith Lia ZifyBool ZifyNat ZifyN.
From Verif Require Import Base Iter Spec VecModel BitmapModel CollModel ValidityModel
  FlattenModel OffsetsModel LayoutModel BoxModel IterLemmas VecLemmas BitmapLemmas
  BitmapLemmas2 Laws LawsBase LawsFlatten LawsValidity LawsOffsets Reach ReachLemmas
  CoreLemmas FactsFixed FactsArray SpecLive FactsLive.
Import ListNotations.

Lemma boxed_eq {A} (v : vec A) : boxed v = Vec (v_items v) (lenN (v_items v)).
Proof.
  unfold boxed, into_boxed. destruct (_ <? _)%N; [|reflexivity].
  destruct (v_items v); reflexivity.
Qed.
Lemma into_boxed_cases {A} (v : vec A) w : exists w',
  into_boxed v w = (BOk (boxed v), w') /\ (grants w -> grants w') \/
  into_boxed v w = (BAbort, w') /\ w = None :: w'.
Proof.
  rewrite boxed_eq. unfold into_boxed. destruct (_ <? _)%N; [|eauto].
  destruct (v_items v) as [|a l]; [eauto|]. destruct w as [|[e|] w']; [eauto| |eauto].
  exists w'. left. split; auto. intros H; inversion H; auto.
Qed.

(** Boxing what is at the bottom. *)
Fixpoint pack (s : bshape) : cC (coll (bx_shape s)) -> cC (coll (bx_shape s)) :=
  match s with
  | BxPrim _ => fun v : vec N => boxed v
  | BxBits => fun b : bitmap => Bitmap (boxed (bm_buf b)) (bm_bits b) (bm_off b)
  | BxFixed _ s => fun c => pack s c
  | BxAny A _ _ => fun v : vec A => boxed v
  end.

Lemma pack_ok s : forall c, l_inv (shape_ld (bx_shape s)) c ->
  l_inv (shape_ld (bx_shape s)) (pack s c) /\
  l_abs (shape_ld (bx_shape s)) (pack s c) = l_abs (shape_ld (bx_shape s)) c /\
  bx_spare s (pack s c) = 0%N.
Proof.
  assert (V : forall A esz (v : vec A), vec_ok esz v -> vec_ok esz (boxed v)).
  { intros A esz v [H1 H2]. rewrite boxed_eq. split; cbn [v_items v_cap]; lia. }
  induction s as [p| |n s IH|A0 a0 z]; intros c Hc; cbn [bx_shape shape_ld pack bx_spare] in *.
  - cbn in Hc |- *. split; [apply V, Hc|]. rewrite boxed_eq; cbn. split; [auto|lia].
  - cbn in Hc |- *. destruct Hc as [H1 H2]. split; [|split].
    + split; cbn; [apply V, H1|]. rewrite boxed_eq; auto.
    + unfold bm_abs; cbn. rewrite boxed_eq; auto.
    + rewrite boxed_eq; cbn; lia.
  - destruct Hc as [H1 H2]. destruct (IH c H1) as (I1 & I2 & I3).
    split; [|split; [|exact I3]].
    + split; [exact I1|]. rewrite I2. exact H2.
    + cbn. unfold fl_abs. rewrite I2. reflexivity.
  - cbn in Hc |- *. split; [apply V, Hc|]. rewrite boxed_eq; cbn. split; [auto|lia].
Qed.

Lemma from_iter_pack s : forall R (it : iter (cA (coll (bx_shape s))) R),
  bx_from_iter s it = let '(res, r) := k_from_iter (coll (bx_shape s)) it in
                      (bmap (pack s) res, r).
Proof.
  induction s as [p| |n s IH|A0 a0 z]; intros R it.
  - reflexivity.
  - cbn [bx_from_iter bx_shape coll bitmap_coll k_from_iter]. unfold box_from_iter, bm_from_iter.
    destruct (vec_from_iter u8sz _) as [res [r bits]]. destruct res; reflexivity.
  - apply IH.
  - reflexivity.
Qed.
Lemma box_try_cases {A R} esz (it : iter A R) w :
  let '(res, r, w1) := vec_try_from_iter esz it w in
  match res with
  | BOk v => exists w2,
      box_try_from_iter esz it w = (BOk (boxed v), r, w2) /\ (grants w1 -> grants w2) \/
      box_try_from_iter esz it w = (BAbort, r, w2) /\ w1 = None :: w2
  | _ => box_try_from_iter esz it w = (res, r, w1)
  end.
Proof.
  unfold box_try_from_iter.
  destruct (vec_try_from_iter esz it w) as [[[v| | |] r] w1]; cbn [into_boxed_res]; auto.
  destruct (into_boxed_cases v w1) as (w2 & [[-> H]|[-> H]]); exists w2; auto.
Qed.
Lemma try_from_iter_pack s : forall R (it : iter (cA (coll (bx_shape s))) R) w,
  let '(res, r, w1) := k_try_from_iter (coll (bx_shape s)) it w in
  match res with
  | BOk c => exists w2,
      bx_try_from_iter s it w = (BOk (pack s c), r, w2) /\ (grants w1 -> grants w2) \/
      bx_try_from_iter s it w = (BAbort, r, w2) /\ w1 = None :: w2
  | _ => bx_try_from_iter s it w = (res, r, w1)
  end.
Proof.
  induction s as [p| |n s IH|A0 a0 z]; intros R it w.
  - exact (box_try_cases (psz p) it w).
  - cbn [bx_try_from_iter bx_shape coll bitmap_coll k_try_from_iter pack]. unfold bm_try_from_iter.
    pose proof (box_try_cases u8sz (it_packed (it_inspect count_item 0 it)) w) as H.
    destruct (vec_try_from_iter u8sz _ w) as [[[v| | |] [r bits]] w1]; cbn [bmap] in *;
      try (rewrite H; reflexivity).
    destruct H as (w2 & [[-> H]|[-> H]]); exists w2; auto.
  - apply IH.
  - exact (box_try_cases (N.pos z) it w).
Qed.

(** The answers that are left are the last ones. *)
Definition tail_of (w' w : world) : Prop := exists p, w = p ++ w'.
Lemma tail_refl w : tail_of w w.
Proof. exists []; reflexivity. Qed.
Lemma tail_trans w1 w2 w3 : tail_of w1 w2 -> tail_of w2 w3 -> tail_of w1 w3.
Proof. intros [p ->] [q ->]. exists (q ++ p). apply app_assoc. Qed.
Lemma tail_cons x w' w : tail_of w' w -> tail_of w' (x :: w).
Proof. intros [p ->]. exists (x :: p); reflexivity. Qed.
Lemma tail_grants w' w : tail_of w' w -> grants w -> grants w'.
Proof. intros [p ->] H. apply Forall_app in H. apply H. Qed.

Lemma vec_try_reserve_tail {A} esz (v : vec A) add w v' o w' :
  vec_try_reserve esz v add w = (v', o, w') -> tail_of w' w.
Proof.
  unfold vec_try_reserve. intros E.
  destruct (_ <=? _)%N; [inversion E; apply tail_refl|].
  destruct (_ <? _)%N; [inversion E; apply tail_refl|].
  destruct w as [|[e|] w1]; inversion E; subst; try apply tail_refl; apply tail_cons, tail_refl.
Qed.
Lemma vec_try_collect_tail {A R} esz (t : trace A R) : forall n (v : vec A) w res r w',
  vec_try_collect_t esz t n v w = (res, r, w') -> tail_of w' w.
Proof.
  induction t as [|[[a| |] n'] t IH]; intros n v w res r w'; cbn [vec_try_collect_t].
  - intros E; inversion E; apply tail_refl.
  - destruct (vec_try_reserve esz v 1 w) as [[v1 o] w1] eqn:E1.
    apply vec_try_reserve_tail in E1. intros E.
    destruct o; try (inversion E; subst; exact E1).
    apply IH in E. eapply tail_trans; eauto.
  - intros E; inversion E; apply tail_refl.
  - intros E; inversion E; apply tail_refl.
Qed.
Lemma vec_try_with_capacity_tail {A} esz cap w (res : bres (vec A)) w' :
  vec_try_with_capacity esz cap w = (res, w') -> tail_of w' w.
Proof.
  unfold vec_try_with_capacity. destruct (vec_try_reserve _ _ _ _) as [[v o] w1] eqn:E1.
  apply vec_try_reserve_tail in E1. destruct o; intros E; inversion E; subst; exact E1.
Qed.
Lemma vec_try_from_iter_tail {A R} esz (it : iter A R) w res r w' :
  vec_try_from_iter esz it w = (res, r, w') -> tail_of w' w.
Proof.
  unfold vec_try_from_iter. destruct (vec_try_with_capacity _ _ _) as [res1 w1] eqn:E1.
  apply vec_try_with_capacity_tail in E1.
  destruct res1; intros E; try (inversion E; subst; exact E1).
  apply vec_try_collect_tail in E. eapply tail_trans; eauto.
Qed.
Lemma bx_tail s : forall R (it : iter (cA (coll (bx_shape s))) R) w res r w',
  k_try_from_iter (coll (bx_shape s)) it w = (res, r, w') -> tail_of w' w.
Proof.
  induction s as [p| |n s IH|A0 a0 z]; intros R it w res r w' E.
  - apply vec_try_from_iter_tail in E. exact E.
  - cbn [bx_shape coll bitmap_coll k_try_from_iter] in E. unfold bm_try_from_iter in E.
    destruct (vec_try_from_iter _ _ _) as [[res1 [r1 bits]] w1] eqn:E1.
    apply vec_try_from_iter_tail in E1. inversion E; subst. exact E1.
  - eapply IH; exact E.
  - apply vec_try_from_iter_tail in E. exact E.
Qed.

Lemma takes_no_upper s : takes_upper (bx_shape s) = false.
Proof. induction s; auto. Qed.
Lemma bx_resumable s : resumable (bx_shape s) = resumable_try (bx_shape s).
Proof. destruct s; reflexivity. Qed.

(** No condition on the upper bound of the size hint. *)
Lemma bits_live {R} (it : iter bool R) xs e r0 : run it = (xs, e, r0) -> fused it ->
  affords (fun _ => 2%N) 1 alloc_max 0 it ->
  exists r, match e with
    | FStop => exists c, bm_from_iter it = (BOk c, r)
    | FBoom => bm_from_iter it = (BPanic, r)
    end.
Proof.
  intros Hrun Hf Hr. destruct (bm_from_iter it) as [res r] eqn:E.
  destruct (bm_from_iter_spec it _ _ _ _ _ Hrun Hf E) as [_ H].
  assert (Ha : affords (fun _ : bool => 1%N) 1 alloc_max 0 it).
  { eapply RoomLemmas.affords_mono; [| | |exact Hr]; cbn; lia. }
  specialize (H Ha). exists r. destruct e; [destruct H as [b ->]; eauto|rewrite H; auto].
Qed.
Lemma flat_live s : widths_pos (bx_shape s) ->
  forall R (it : iter (cA (coll (bx_shape s))) R) xs e r0,
  resumable (bx_shape s) = true \/ fused it -> Forall (item_ok (bx_shape s)) xs ->
  run it = (xs, e, r0) -> room_new (bx_shape s) it ->
  exists r, match e with
    | FStop => exists c, k_from_iter (coll (bx_shape s)) it = (BOk c, r)
    | FBoom => k_from_iter (coll (bx_shape s)) it = (BPanic, r)
    end.
Proof.
  induction s as [p| |n s IH|A0 a0 z]; intros Hw R it xs e r0 Hf Hi Hrun Hr.
  - destruct (vec_from_iter_live (psz p) it _ _ _ Hrun) as [v E].
    { exact Hr. }
    exists r0. destruct e; [exists v|]; exact E.
  - destruct Hf as [Hf|Hf]; [discriminate|].
    exact (bits_live it xs e r0 Hrun Hf Hr).
  - destruct Hw as [Hn Hw]. apply (IH Hw R (it_flatten (N.of_nat n) it) (concat xs) e r0).
    + right. apply fused_cut, cut_flatten.
    + clear -Hi. induction Hi as [|l ls [_ H] _ IH]; cbn; [constructor|].
      apply Forall_app. auto.
    + apply run_flatten. exact Hrun.
    + unfold room_new in *. eapply Laws.affords_flatten; [exact Hrun| |].
      2:{ eapply RoomLemmas.affords_mono; [| | |exact Hr]; try apply N.le_refl. intros l.
        change (cost (bx_shape (BxFixed n s)) l) with (total (cost (bx_shape s)) l).
        rewrite (total_sumw (cost (bx_shape s)) (cost (bx_shape s))) by reflexivity.
        apply N.le_refl. }
      eapply Forall_impl; [|exact Hi]. intros l [_ Hl]. eapply Forall_impl; [|exact Hl].
      apply (FactsFixed.unit_le_cost (bx_shape s) Hw).
  - destruct (vec_from_iter_live (N.pos z) it _ _ _ Hrun) as [v E].
    { exact Hr. }
    exists r0. destruct e; [exists v|]; exact E.
Qed.

Section Box.
  Variable s : bshape.
  Hypothesis Hw : widths_pos (bx_shape s).
  Let K := coll (bx_shape s).

  Lemma pack_shows c xs : built (bx_shape s) c -> shows K c xs ->
    shows K (pack s c) xs /\ bx_spare s (pack s c) = 0%N.
  Proof.
    intros Hb Hs. destruct (built_abs (bx_shape s) Hw c xs Hb Hs) as [-> Hi].
    destruct (pack_ok s c Hi) as (H1 & H2 & H3). split; [|exact H3].
    rewrite <- H2. apply (abs_shows (bx_shape s) Hw); auto.
  Qed.

  Lemma box_collected R (it : iter (cA K) R) res r :
    resumable (bx_shape s) = true \/ fused it ->
    Forall (item_ok (bx_shape s)) (items_of it) -> bx_from_iter s it = (res, r) ->
    match res with
    | BOk c => fin_of it = FStop /\ shows K c (items_of it) /\ bx_spare s c = 0%N
    | BErr => False
    | _ => True
    end /\
    (room_new (bx_shape s) it ->
     match fin_of it with FStop => exists c, res = BOk c | FBoom => res = BPanic end).
  Proof.
    intros Hf Hi E. rewrite from_iter_pack in E.
    destruct (run_parts it) as [r0 Hrun].
    pose proof (fun H => flat_live s Hw R it _ _ _ Hf Hi Hrun H) as Hlive.
    destruct (k_from_iter (coll (bx_shape s)) it) as [res1 r1] eqn:E1.
    destruct (collect_core (bx_shape s) Hw false R it res1 r1 Hf Hi E1) as [H1 _].
    inversion E; subst; clear E. split.
    - destruct res1 as [c| | |]; cbn [bmap]; auto. destruct H1 as (A1 & A2 & A3 & _).
      destruct (pack_shows c _ A3 A2). auto.
    - intros Hr. destruct (Hlive Hr) as [r2 H]. destruct (fin_of it).
      + destruct H as [c H]. inversion H; subst. cbn; eauto.
      + inversion H; subst. reflexivity.
  Qed.

  Lemma box_try_collected R (it : iter (cA K) R) w res r w' :
    resumable (bx_shape s) = true \/ fused it ->
    Forall (item_ok (bx_shape s)) (items_of it) -> bx_try_from_iter s it w = (res, r, w') ->
    match res with
    | BOk c => fin_of it = FStop /\ shows K c (items_of it) /\ bx_spare s c = 0%N
    | BErr => True
    | BPanic => fin_of it = FBoom
    | BAbort => ~ grants w
    end.
  Proof.
    intros Hf Hi E. rewrite bx_resumable in Hf.
    pose proof (try_from_iter_pack s R it w) as H.
    destruct (k_try_from_iter (coll (bx_shape s)) it w) as [[res1 r1] w1] eqn:E1.
    pose proof (try_collect_core (bx_shape s) Hw R it w res1 r1 w1 Hf Hi E1) as H1.
    apply bx_tail in E1.
    destruct res1 as [c| | |].
    - destruct H1 as (A1 & A2 & A3 & _).
      destruct H as (w2 & [[H _]|[H Hn]]); rewrite H in E; inversion E; subst.
      + destruct (pack_shows c _ A3 A2). auto.
      + intros Hg. apply (tail_grants _ _ E1) in Hg. inversion Hg; auto.
    - rewrite H in E; inversion E; subst. auto.
    - rewrite H in E; inversion E; subst. exact H1.
    - contradiction.
  Qed.

  Lemma box_granted R (it : iter (cA K) R) w :
    resumable (bx_shape s) = true \/ fused it -> good (bx_shape s) it -> grants w ->
    (total (cost (bx_shape s)) (items_of it) <= limit (bx_shape s))%N ->
    exists c r w', bx_try_from_iter s it w = (BOk c, r, w') /\ shows K c (items_of it).
  Proof.
    intros Hf Hg Hgr Ht. pose proof Hf as Hf'. rewrite bx_resumable in Hf'.
    destruct (granted_collect (bx_shape s) Hw R it w Hf' Hg Hgr Ht (or_introl (takes_no_upper s)))
      as (c & r & w1 & E & A1 & A2).
    pose proof (try_from_iter_pack s R it w) as H. pose proof (bx_tail s R it w _ _ _ E) as Hta.
    rewrite E in H. destruct H as (w2 & [[H _]|[H Hn]]).
    - exists (pack s c), r, w2. split; [exact H|]. apply (pack_shows c _ A2 A1).
    - subst w1. apply (tail_grants _ _ Hta) in Hgr. inversion Hgr; contradiction.
  Qed.

  Lemma box_empty :
    (forall n, match bx_with_capacity s n with
       | BOk c => shows K c [] /\ bx_spare s c = 0%N | BErr => False | _ => True end) /\
    (forall n w res w', bx_try_with_capacity s n w = (res, w') ->
       match res with
       | BOk c => shows K c [] /\ bx_spare s c = 0%N | BErr => True | _ => False
       end).
  Proof.
    assert (A : forall n, bx_with_capacity s n = bmap (pack s) (k_with_capacity K n)).
    { subst K. clear Hw. induction s as [p| |m s' IH|A0 a0 z]; intros n.
      - reflexivity.
      - cbn. unfold bm_with_capacity, box_with_capacity.
        destruct (vec_with_capacity _ _); reflexivity.
      - cbn [bx_with_capacity bx_shape coll flatten_coll k_with_capacity pack].
        unfold fl_with_capacity. destruct (strict_mul n (N.of_nat m)); [apply IH|reflexivity].
      - reflexivity. }
    assert (B : forall n w, bx_try_with_capacity s n w =
      let '(res, w') := k_try_with_capacity K n w in (bmap (pack s) res, w')).
    { assert (V : forall A esz cap w (v : vec A) w', vec_try_with_capacity esz cap w = (BOk v, w') ->
        into_boxed v w' = (BOk (boxed v), w')).
      { intros A0 esz cap w v w' E. apply vec_try_with_capacity_spec in E.
        destruct E as (_ & Hi & _). rewrite boxed_eq. unfold into_boxed. rewrite Hi.
        destruct (_ <? _)%N; reflexivity. }
      subst K. clear Hw A. induction s as [p| |m s' IH|A0 a0 z]; intros n w.
      - cbn [bx_try_with_capacity bx_shape coll vec_coll k_try_with_capacity pack].
        unfold box_try_with_capacity.
        destruct (vec_try_with_capacity _ _ _) as [[v| | |] w'] eqn:E; try reflexivity.
        apply V in E. exact E.
      - cbn [bx_try_with_capacity bx_shape coll bitmap_coll k_try_with_capacity pack].
        unfold box_try_with_capacity, bm_try_with_capacity.
        destruct (vec_try_with_capacity _ _ _) as [[v| | |] w'] eqn:E; try reflexivity.
        apply V in E. rewrite E. reflexivity.
      - cbn [bx_try_with_capacity bx_shape coll flatten_coll k_try_with_capacity pack].
        unfold fl_try_with_capacity. destruct (checked_mul n (N.of_nat m)); [apply IH|reflexivity].
      - cbn [bx_try_with_capacity bx_shape coll vec_coll k_try_with_capacity pack].
        unfold box_try_with_capacity.
        destruct (vec_try_with_capacity _ _ _) as [[v| | |] w'] eqn:E; try reflexivity.
        apply V in E. exact E. }
    destruct (empty_core (bx_shape s) Hw) as (_ & H1 & H2). split.
    - intros n. rewrite A. destruct (H1 n) as [H _]. fold K in H.
      destruct (k_with_capacity K n); cbn [bmap]; auto. destruct H. apply pack_shows; auto.
    - intros n w res w' E. rewrite B in E.
      destruct (k_try_with_capacity K n w) as [res1 w1] eqn:E1. inversion E; subst.
      apply H2 in E1. destruct res1; cbn [bmap]; auto. destruct E1. apply pack_shows; auto.
  Qed.

  (** Boxed values with a growable bitmap. *)
  Lemma null_from_iter_pack R (it : iter (option (cA K)) R) :
    bxn_from_iter s it = let '(res, r) := k_from_iter (coll (SNull (bx_shape s))) it in
      (bmap (fun v => Validity (pack s (va_coll v)) (va_bm v)) res, r).
  Proof.
    unfold bxn_from_iter. change (k_from_iter (coll (SNull (bx_shape s))) it) with
      (va_collect K (fun R' => k_from_iter K) it).
    unfold va_collect. subst K. destruct (bm_with_capacity _) as [b| | |]; try reflexivity.
    rewrite from_iter_pack.
    destruct (k_from_iter (coll (bx_shape s)) _) as [res [r b']]. destruct res; reflexivity.
  Qed.
  Lemma null_pack_shows (v : validity (cC K)) xs :
    built (SNull (bx_shape s)) v -> shows (coll (SNull (bx_shape s))) v xs ->
    shows (coll (SNull (bx_shape s))) (Validity (pack s (va_coll v)) (va_bm v)) xs /\
    bx_spare s (pack s (va_coll v)) = 0%N.
  Proof.
    intros Hb Hs. destruct (built_abs (SNull (bx_shape s)) Hw v xs Hb Hs) as [-> Hi].
    destruct v as [c b]. destruct Hi as [Hc Hi].
    destruct (pack_ok s c Hc) as (H1 & H2 & H3). split; [|exact H3].
    assert (E : l_abs (shape_ld (SNull (bx_shape s))) (Validity c b) =
                l_abs (shape_ld (SNull (bx_shape s))) (Validity (pack s c) b)).
    { cbn. unfold va_abs. cbn. unfold va_bits. cbn. rewrite H2. reflexivity. }
    rewrite E. apply (abs_shows (SNull (bx_shape s)) Hw); [|reflexivity].
    split; [exact H1|]. cbn in Hi |- *. rewrite H2. exact Hi.
  Qed.
  Lemma null_box_collected R (it : iter (cA (coll (SNull (bx_shape s)))) R) res r :
    resumable (SNull (bx_shape s)) = true \/ fused it ->
    Forall (item_ok (SNull (bx_shape s))) (items_of it) -> bxn_from_iter s it = (res, r) ->
    match res with
    | BOk v => fin_of it = FStop /\ shows (coll (SNull (bx_shape s))) v (items_of it) /\
        bx_spare s (va_coll v) = 0%N
    | BErr => False
    | _ => True
    end /\
    (room_new (SNull (bx_shape s)) it ->
     (upper_or_lower (it_hint it) * unit_cost (SNull (bx_shape s)) <=
      limit (SNull (bx_shape s)))%N ->
     match fin_of it with FStop => exists c, res = BOk c | FBoom => res = BPanic end).
  Proof.
    intros Hf Hi E. rewrite (null_from_iter_pack R it) in E.
    destruct (k_from_iter (coll (SNull (bx_shape s))) it) as [res1 r1] eqn:E1.
    destruct (collect_core (SNull (bx_shape s)) Hw false R it res1 r1 Hf Hi E1) as [H1 H2].
    inversion E; subst; clear E. split.
    - destruct res1 as [c| | |]; cbn [bmap]; auto. destruct H1 as (A1 & A2 & A3 & _).
      destruct (null_pack_shows c _ A3 A2). auto.
    - intros Hr Hu. specialize (H2 Hr Hu). destruct (fin_of it).
      + destruct H2 as [c Hc]. rewrite Hc. cbn; eauto.
      + rewrite H2. reflexivity.
  Qed.
End Box.
