(** * Room after arbitrary panics

    [WRoom K D d]: on the collections of [WLaws], what [D] counts as used memory
    still bounds what the operations need, so operations end as they do on other
    collections when there is room. *)
From Coq Require Import List NArith ZArith Bool Arith Lia ZifyBool ZifyNat ZifyN.
From Verif Require Import Base Iter Spec VecModel BitmapModel CollModel ValidityModel FlattenModel
  OffsetsModel IterLemmas VecLemmas RoomLemmas BitmapLemmas BitmapLemmas2 HonestLemmas Laws LawsBase
  LawsFlatten LawsValidity LawsOffsets LiveBase LiveLaws WeakLaws WeakNull WeakList.
Import ListNotations.

Local Arguments Nat.div : simpl never.
Local Arguments Nat.modulo : simpl never.
Local Arguments Nat.mul : simpl never.
Local Arguments N.add : simpl never.
Local Arguments N.mul : simpl never.
Local Arguments chunk : simpl never.
Local Arguments max_items : simpl never.
Local Opaque chunk.

Record WRoom (K : Coll) (D : LD K) (d : WD K) : Prop := {
  wr_abs : forall c, w_abs d c = l_abs D c;
  wr_usage : forall c, w_inv d c -> (lenN (w_abs d c) <= l_usage D c)%N;
  wr_extend : forall R c (it : iter (cA K) R) xs e r c' r' o,
    w_inv d c -> Forall (l_wt D) xs -> run it = (xs, e, r) -> k_extend K c it = (c', r', o) ->
    (o <> OAbort -> (l_usage D c' <= l_usage D c + sumw (l_wgt D) xs)%N) /\
    (fits_it D c it -> ends_as o e);
  wr_try_extend : forall R c (it : iter (cA K) R) w xs e r c' r' o w',
    w_inv d c -> Forall (l_wt D) xs -> run it = (xs, e, r) -> k_try_extend K c it w = (c', r', o, w') ->
    (l_usage D c' <= l_usage D c + sumw (l_wgt D) xs)%N /\
    (e = FStop -> honest it -> grants w -> fits D c xs -> o = ODone /\ grants w');
  wr_reserve : forall c n c' o, w_inv d c -> k_reserve K c n = (c', o) ->
    (l_usage D c' <= l_usage D c)%N /\
    ((l_usage D c + n * l_cfac D <= l_lim D)%N -> o = ODone);
  wr_try_reserve : forall c n w c' o w', w_inv d c -> k_try_reserve K c n w = (c', o, w') ->
    (l_usage D c' <= l_usage D c)%N /\
    (grants w -> (l_usage D c + n * l_cfac D <= l_lim D)%N -> o = ODone /\ grants w');
  wr_truncate : forall c n c' o, w_inv d c -> k_truncate K c n = (c', o) ->
    (l_usage D c' <= l_usage D c)%N;
}.

Lemma fits_it_sum {K} (D : LD K) {R} c (it : iter (cA K) R) xs e r :
  run it = (xs, e, r) -> fits_it D c it -> fits D c xs.
Proof. intros Hr Hs. eapply fits_it_fits; eauto. Qed.

(** ** Collections that no panic harms *)
Lemma weak_room K D u : Laws K D -> LiveG K D u -> (forall s o, l_psafe D s o = true) ->
  WRoom K D (weak D).
Proof.
  intros L G Hp. split; cbn [weak w_inv w_abs].
  - reflexivity.
  - apply (lw_usage _ _ L).
  - intros R c it xs e r c' r' o Hc Hwt Hr E.
    destruct (lw_extend _ _ L R c it xs e r c' r' o Hc Hwt Hr E) as [H1 H2]. split; [|exact H2].
    intros Ho. destruct o.
    + apply H1.
    + contradiction.
    + destruct (H1 false) as (_ & _ & H3 & _); [discriminate|apply Hp|exact H3].
    + contradiction.
  - intros R c it w xs e r c' r' o w' Hc Hwt Hr E.
    pose proof (lw_try_extend _ _ L R c it w xs e r c' r' o w' Hc Hwt Hr E) as H. split.
    + destruct o.
      * apply H.
      * apply H.
      * destruct H as [_ H]. destruct (H (Hp _ _)) as (_ & _ & H3 & _). exact H3.
      * contradiction.
    + intros -> Hh Hw Hf.
      destruct (live_extend K D (lg_live _ _ _ G) R c it w xs r Hc Hwt Hr Hh Hw Hf)
        as (c1 & r1 & w1 & E1 & Hg).
      rewrite E in E1. injection E1 as -> -> -> ->. auto.
  - intros c n c' o Hc E. destruct (lw_reserve _ _ L c n c' o Hc E) as ((_ & _ & _ & H) & _ & H').
    auto.
  - intros c n w c' o w' Hc E. destruct (lw_try_reserve _ _ L c n w c' o w' Hc E) as ((_ & _ & _ & H) & _).
    split; [exact H|]. intros Hw Hf.
    destruct (lg_reserve _ _ _ G c n w Hc Hw Hf) as (c1 & w1 & E1 & Hg).
    rewrite E in E1. injection E1 as -> -> ->. auto.
  - intros c n c' o Hc E. destruct (lw_truncate _ _ L c n Hc) as (c1 & E1 & _ & _ & _ & H).
    rewrite E in E1. injection E1 as -> ->. exact H.
Qed.

(** ** Nullable arrays *)
Section Null.
  Context (K : Coll) (D : LD K) (LS : Laws K D) (d : WD K) (L : WLaws K (l_wt D) d) (V : WRoom K D d).
  Local Notation df := (dflt K).
  Local Notation usage := (va_usage K D).

  Lemma wva_materialize_use v v1 o : wva_inv K d v -> va_materialize K v = (v1, o) ->
    o = ODone /\ (usage v1 <= usage v)%N.
  Proof.
    intros Hv. unfold va_materialize, va_usage. destruct (va_bm v) as [b|] eqn:Eb.
    - intros E; inversion E; subst. split; [reflexivity|]. rewrite Eb. lia.
    - rewrite (ww_len _ _ _ L _ (proj1 Hv)).
      pose proof (bm_all_set_spec (length (w_abs d (va_coll v)))) as H.
      pose proof (ww_max _ _ _ L _ (proj1 Hv)) as Hle. unfold lenN in Hle.
      destruct (bm_all_set _) as [b| | |]; try contradiction; try lia; intros E; inversion E; subst.
      split; [reflexivity|]. cbn [va_bm va_coll]. destruct H as (H1 & H2 & H3 & H4 & H5).
      rewrite <- (wr_abs _ _ _ V). unfold lenN. lia.
  Qed.
  Lemma wva_try_materialize_use v w v1 o w' : wva_inv K d v -> va_try_materialize K v w = (v1, o, w') ->
    (usage v1 <= usage v)%N /\
    (grants w -> (usage v <= l_lim D)%N -> o = ODone /\ grants w').
  Proof.
    intros Hv. unfold va_try_materialize, va_usage. destruct (va_bm v) as [b|] eqn:Eb.
    - intros E; inversion E; subst. rewrite Eb. split; [lia|auto].
    - rewrite (ww_len _ _ _ L _ (proj1 Hv)).
      destruct (bm_try_all_set (length (w_abs d (va_coll v))) w) as [res w1] eqn:E1.
      pose proof (bm_try_all_set_spec _ _ _ _ E1) as E2. intros E. split.
      + destruct res as [b| | |]; try contradiction; inversion E; subst.
        * cbn [va_bm va_coll]. destruct E2 as (H1 & H2 & H3 & H4 & H5).
          rewrite <- (wr_abs _ _ _ V). unfold lenN. lia.
        * rewrite Eb. lia.
      + intros Hw Hs.
        destruct (bm_try_all_set_live (length (w_abs d (va_coll v))) w Hw) as (b & w2 & E3 & Hg).
        { pose proof (wr_usage _ _ _ V _ (proj1 Hv)) as Hu. pose proof (lw_lim _ _ LS).
          unfold lenN in Hu. lia. }
        rewrite E3 in E1. injection E1 as <- <-. inversion E; subst. auto.
  Qed.

  Lemma wva_loop_room {R} : forall fuel c b (it : iter (option (cA K)) R) os e r c' b' r' o,
    w_inv d c -> bm_ok b -> Forall (l_wt D) (map df os) -> run it = (os, e, r) ->
    length (it_tr it) < fuel -> va_extend_loop K fuel c b it = (c', b', r', o) ->
    (o <> OAbort -> (l_usage D c' + bm_usage b' <=
       l_usage D c + bm_usage b + sumw (l_wgt D) (map df os) + 2 * lenN os)%N) /\
    (va_room K D c it -> (bm_usage b + 2 * lenN os <= alloc_max)%N -> ends_as o e).
  Proof.
    induction fuel as [|fuel IH]; intros c b it os e r c' b' r' o Hc Hb Hwt Hr Hf; [lia|].
    cbn [va_extend_loop].
    destruct (k_extend K c (va_chunk K it)) as [[c1 [it1 vs]] o1] eqn:E1.
    pose proof (va_room_chunk K D c it) as Hfit1.
    destruct (va_chunk_run K it os e r Hr) as (it' & [(Hle & Hrc & Hr' & Hlen & Hrest)|(Hlt & Hrc & Hsrc)]).
    - set (os1 := firstn chunk os) in *. set (os2 := skipn chunk os) in *.
      assert (Hos : os = os1 ++ os2) by (symmetry; apply firstn_skipn).
      assert (Hl1 : length os1 = chunk) by (unfold os1; rewrite firstn_length; lia).
      clearbody os1 os2. subst os. rewrite map_app in Hwt. apply Forall_app in Hwt.
      destruct Hwt as [Hw1 Hw2].
      pose proof (ww_extend _ _ _ L _ c _ _ _ _ _ _ _ Hc Hw1 Hrc E1) as H1.
      destruct (wr_extend _ _ _ V _ c _ _ _ _ _ _ _ Hc Hw1 Hrc E1) as [U1 U2].
      rewrite map_app, sumw_app, lenN_app.
      destruct o1; try contradiction.
      + destruct H1 as (_ & Ep & ys & Hs & G). inversion Ep; subst it1 vs; clear Ep.
        destruct (bm_extend b (it_list (map is_some os1))) as [[b1 ru] o2] eqn:E2.
        assert (Hl2' : length (map is_some os1) <= chunk) by (rewrite map_length; lia).
        destruct (bm_extend_list _ _ _ _ _ Hb Hl2' E2) as (Ho2 & Hst & Hl2).
        assert (Hm : lenN (map is_some os1) = lenN os1) by (unfold lenN; rewrite map_length; auto).
        rewrite Hm in Hl2. specialize (U1 ltac:(discriminate)).
        destruct o2; try (destruct Ho2; discriminate).
        * specialize (Hst eq_refl). rewrite map_length, Hl1, Nat.ltb_irrefl.
          intros E. destruct Hst as (S1 & _ & _ & _ & S5). rewrite Hm in S5.
          destruct (IH c1 b1 it' os2 e r c' b' r' o (proj1 G) S1 Hw2 Hr' ltac:(lia) E) as [HA HB]. split.
          -- intros Ho. specialize (HA Ho). lia.
          -- intros Hs1 Hs2. apply HB; [|lia].
             eapply affords_mono; [| | |exact (Hrest _ _ _ _ Hs1)]; try (intros; cbv beta; lia).
             rewrite sumw_map in U1. lia.
        * intros E; inversion E; subst. split; [congruence|]. intros _ Hs'.
          assert (OAbort = ODone) by (apply Hl2; lia). discriminate.
      + intros E; inversion E; subst. split; [intros _; specialize (U1 ltac:(discriminate)); lia|].
        intros Hs _. specialize (U2 (Hfit1 Hs)). discriminate.
      + intros E; inversion E; subst. split; [congruence|].
        intros Hs _. specialize (U2 (Hfit1 Hs)). discriminate.
    - pose proof (ww_extend _ _ _ L _ c _ _ _ _ _ _ _ Hc Hwt Hrc E1) as H1.
      destruct (wr_extend _ _ _ V _ c _ _ _ _ _ _ _ Hc Hwt Hrc E1) as [U1 U2].
      destruct o1; try contradiction.
      + destruct H1 as (-> & Ep & ys & Hs & G). inversion Ep; subst it1 vs; clear Ep.
        destruct (bm_extend b (it_list (map is_some os))) as [[b1 ru] o2] eqn:E2.
        assert (Hl2' : length (map is_some os) <= chunk) by (rewrite map_length; lia).
        destruct (bm_extend_list _ _ _ _ _ Hb Hl2' E2) as (Ho2 & Hst & Hl2).
        assert (Hm : lenN (map is_some os) = lenN os) by (unfold lenN; rewrite map_length; auto).
        rewrite Hm in Hl2. specialize (U1 ltac:(discriminate)).
        destruct o2; try (destruct Ho2; discriminate).
        * specialize (Hst eq_refl). rewrite map_length.
          assert (Nat.ltb (length os) chunk = true) as -> by (apply Nat.ltb_lt; auto).
          intros E; inversion E; subst. destruct Hst as (S1 & _ & _ & _ & S5). rewrite Hm in S5.
          split; [intros _; lia|]. intros; reflexivity.
        * intros E; inversion E; subst. split; [congruence|]. intros _ Hs'.
          assert (OAbort = ODone) by (apply Hl2; lia). discriminate.
      + intros E; inversion E; subst. split; [intros _; specialize (U1 ltac:(discriminate)); lia|].
        intros Hs _. exact (U2 (Hfit1 Hs)).
      + intros E; inversion E; subst. split; [congruence|]. intros Hs _. exact (U2 (Hfit1 Hs)).
  Qed.

  Lemma wva_rollback_use c b len c' b' o : w_inv d c -> bm_ok b ->
    va_rollback K c b len = (c', b', o) ->
    (l_usage D c' <= l_usage D c)%N /\ (bm_usage b' <= bm_usage b)%N.
  Proof.
    intros Hc Hb. unfold va_rollback, va_truncate. cbn [va_bm va_coll option_map].
    destruct (k_truncate K c (N.of_nat len)) as [c1 o1] eqn:E1.
    pose proof (wr_truncate _ _ _ V _ _ _ _ Hc E1) as H1.
    destruct (ww_truncate _ _ _ L c (N.of_nat len) Hc) as (c2 & E2 & _).
    rewrite E1 in E2. injection E2 as <- ->.
    destruct (bm_truncate_spec b (N.of_nat len) Hb) as (_ & _ & G3 & _).
    intros E; inversion E; subst. auto.
  Qed.
  Lemma wva_try_loop_room {R} : forall fuel len c b (it : iter (option (cA K)) R) w os e r c' b' r' o w',
    w_inv d c -> bm_ok b -> Forall (l_wt D) (map df os) -> run it = (os, e, r) ->
    length (it_tr it) < fuel -> va_try_extend_loop K fuel len c b it w = (c', b', r', o, w') ->
    (l_usage D c' + bm_usage b' <=
       l_usage D c + bm_usage b + sumw (l_wgt D) (map df os) + 2 * lenN os)%N /\
    (e = FStop -> honest it -> grants w -> fits D c (map df os) ->
     (bm_usage b + 2 * lenN os <= alloc_max)%N -> o = ODone /\ grants w').
  Proof.
    induction fuel as [|fuel IH];
      intros len c b it w os e r c' b' r' o w' Hc Hb Hwt Hr Hf; [lia|].
    cbn [va_try_extend_loop].
    destruct (k_try_extend K c (va_chunk K it) w) as [[[c1 [it1 vs]] o1] w1] eqn:E1.
    pose proof (@honest_va_chunk K R it) as Hhc.
    assert (Hbm : forall w1 b1 ru o2 w2 (bs : list (option (cA K))),
      bm_try_extend b (it_list (map is_some bs)) w1 = (b1, ru, o2, w2) -> grants w1 ->
      (bm_usage b + 2 * lenN bs <= alloc_max)%N -> o2 = ODone /\ grants w2).
    { intros w0 b1 ru o2 w2 bs E Hw Hs.
      destruct (bm_try_extend_wok false b _ w0 _ tt Hb (run_list (map is_some bs)) (honest_list _) (or_intror Hw))
        as (b0 & r0 & w3 & E' & Hw' & _).
      { assert (lenN (map is_some bs) = lenN bs) as -> by (unfold lenN; rewrite map_length; auto).
        unfold vlim. rewrite u8_items. unfold bm_usage in Hs. lia. }
      rewrite E in E'. injection E' as -> -> -> ->. destruct Hw' as [Hw'|Hw']; [discriminate|auto]. }
    destruct (va_chunk_run K it os e r Hr) as (it' & [(Hle & Hrc & Hr' & Hlen & _)|(Hlt & Hrc & Hsrc)]).
    - assert (Hhr : honest it -> honest it').
      { intros Hh. exact (honest_va_rest K it it' _ _ _ _ _ _ Hh Hr Hle Hrc). }
      set (os1 := firstn chunk os) in *. set (os2 := skipn chunk os) in *.
      assert (Hos : os = os1 ++ os2) by (symmetry; apply firstn_skipn).
      assert (Hl1 : length os1 = chunk) by (unfold os1; rewrite firstn_length; lia).
      clearbody os1 os2. subst os. rewrite map_app in Hwt. apply Forall_app in Hwt.
      destruct Hwt as [Hw1 Hw2].
      pose proof (ww_try_extend _ _ _ L _ c _ _ _ _ _ _ _ _ _ Hc Hw1 Hrc E1) as H1.
      destruct (wr_try_extend _ _ _ V _ c _ _ _ _ _ _ _ _ _ Hc Hw1 Hrc E1) as [U1 U2].
      unfold fits in *. rewrite map_app, sumw_app, lenN_app.
      destruct o1; try contradiction.
      + destruct H1 as (_ & Ep & ys & Hs & G). inversion Ep; subst it1 vs; clear Ep.
        pose proof G as [F1 F3].
        destruct (bm_try_extend b (it_list (map is_some os1)) w1) as [[[b1 ru] o2] w2] eqn:E2.
        pose proof (bm_try_extend_list _ _ _ _ _ _ _ Hb E2) as Hst.
        assert (Hm : lenN (map is_some os1) = lenN os1) by (unfold lenN; rewrite map_length; auto).
        rewrite Hm in Hst. specialize (Hbm _ _ _ _ _ _ E2).
        destruct o2; try contradiction.
        * rewrite map_length, Hl1, Nat.ltb_irrefl. intros E.
          destruct Hst as (S1 & _ & _ & _ & S5). rewrite Hm in S5.
          destruct (IH _ _ _ _ _ _ _ _ _ _ _ _ _ F1 S1 Hw2 Hr' ltac:(lia) E) as [IH1 IH2].
          split; [lia|]. intros He Hh Hw Hx Hy.
          destruct (U2 eq_refl (Hhc Hh) Hw) as [_ Hg1]; [lia|]. destruct (Hbm Hg1) as [_ Hg2]; [lia|].
          apply IH2; [exact He|exact (Hhr Hh)|exact Hg2| |]; lia.
        * destruct Hst as (S1 & S2 & S3 & S4).
          destruct (va_rollback K c1 b1 len) as [[c2 b2] o3] eqn:E3.
          destruct (wva_rollback_use _ _ _ _ _ _ F1 S1 E3) as [X1 X2].
          intros E; inversion E; subst. split; [lia|]. intros He Hh Hw Hx Hy.
          destruct (U2 eq_refl (Hhc Hh) Hw) as [_ Hg1]; [lia|].
          destruct (Hbm Hg1) as [Hbad _]; [lia|discriminate].
      + destruct H1 as [Y1 Y3].
        destruct (va_rollback K c1 b len) as [[c2 b2] o3] eqn:E3.
        destruct (wva_rollback_use _ _ _ _ _ _ Y1 Hb E3) as [X1 X2].
        intros E; inversion E; subst. split; [lia|]. intros He Hh Hw Hx Hy.
        destruct (U2 eq_refl (Hhc Hh) Hw) as [Hbad _]; [lia|discriminate].
      + destruct H1 as [H1 _]. discriminate.
    - pose proof (ww_try_extend _ _ _ L _ c _ _ _ _ _ _ _ _ _ Hc Hwt Hrc E1) as H1.
      destruct (wr_try_extend _ _ _ V _ c _ _ _ _ _ _ _ _ _ Hc Hwt Hrc E1) as [U1 U2].
      destruct o1; try contradiction.
      + destruct H1 as (-> & Ep & ys & Hs & G). inversion Ep; subst it1 vs; clear Ep.
        pose proof G as [F1 F3].
        destruct (bm_try_extend b (it_list (map is_some os)) w1) as [[[b1 ru] o2] w2] eqn:E2.
        pose proof (bm_try_extend_list _ _ _ _ _ _ _ Hb E2) as Hst.
        assert (Hm : lenN (map is_some os) = lenN os) by (unfold lenN; rewrite map_length; auto).
        rewrite Hm in Hst. specialize (Hbm _ _ _ _ _ _ E2).
        destruct o2; try contradiction.
        * rewrite map_length.
          assert (Nat.ltb (length os) chunk = true) as -> by (apply Nat.ltb_lt; auto).
          destruct Hst as (S1 & _ & _ & _ & S5). rewrite Hm in S5.
          intros E; inversion E; subst. split; [lia|]. intros He Hh Hw Hx Hy.
          destruct (U2 eq_refl (Hhc Hh) Hw Hx) as [_ Hg1]. destruct (Hbm Hg1 Hy) as [_ Hg2]. auto.
        * destruct Hst as (S1 & S2 & S3 & S4).
          destruct (va_rollback K c1 b1 len) as [[c2 b2] o3] eqn:E3.
          destruct (wva_rollback_use _ _ _ _ _ _ F1 S1 E3) as [X1 X2].
          intros E; inversion E; subst. split; [lia|]. intros He Hh Hw Hx Hy.
          destruct (U2 eq_refl (Hhc Hh) Hw Hx) as [_ Hg1].
          destruct (Hbm Hg1 Hy) as [Hbad _]. discriminate.
      + destruct H1 as [Y1 Y3].
        destruct (va_rollback K c1 b len) as [[c2 b2] o3] eqn:E3.
        destruct (wva_rollback_use _ _ _ _ _ _ Y1 Hb E3) as [X1 X2].
        intros E; inversion E; subst. split; [lia|]. intros He Hh Hw Hx Hy.
        destruct (U2 He (Hhc Hh) Hw Hx) as [Hbad _]. discriminate.
      + destruct H1 as [-> H2]. intros E; inversion E; subst. split; [lia|]. discriminate.
  Qed.

  Lemma va_sum (os : list (option (cA K))) :
    sumw (l_wgt (validity_ld K D)) os = (sumw (l_wgt D) (map df os) + 2 * lenN os)%N.
  Proof.
    rewrite sumw_map. unfold validity_ld; cbn [l_wgt].
    change (sumw (fun o : option (cA K) => (l_wgt D (df o) + 2)%N) os =
      (sumw (fun x => l_wgt D (df x)) os + 2 * lenN os)%N).
    rewrite sumw_plus. f_equal. apply sumw_const. reflexivity.
  Qed.

  Lemma wva_start v v1 b n : wprep K d v v1 b -> (usage v1 <= usage v)%N -> n = length (bm_abs b) ->
    exists c, k_truncate K (va_coll v1) (N.of_nat n) = (c, ODone) /\ w_inv d c /\ bm_ok b /\
      (l_usage D c + bm_usage b <= usage v)%N.
  Proof.
    intros Hp Hu Hn. destruct (wprep_ready K (l_wt D) d L v v1 b n Hp Hn) as (c & E & (R1 & R2 & _)).
    destruct Hp as (Hb & Hc & [Hi1 _] & _). exists c. split; [exact E|]. split; [exact R1|].
    split; [exact R2|]. pose proof (wr_truncate _ _ _ V _ _ _ _ Hi1 E) as Ht.
    unfold va_usage in Hu at 1. rewrite Hb in Hu. lia.
  Qed.

  Lemma wvalidity_room : WRoom (validity_coll K) (validity_ld K D) (wvalidity K d).
  Proof.
    pose proof (lw_lim _ _ LS) as Hlim.
    split.
    - intros v. change (wva_abs K d v = va_abs K D v).
      unfold wva_abs, va_abs, wva_bits, va_bits. rewrite (wr_abs _ _ _ V). reflexivity.
    - intros v Hv. change (lenN (wva_abs K d v) <= usage v)%N.
      pose proof (wr_usage _ _ _ V _ (proj1 Hv)) as Hu. unfold va_usage, lenN in *.
      rewrite (wva_abs_length K d v Hv). pose proof (wva_bits_le K d v Hv). lia.
    - intros R v it os e r v' r' o Hv Hwt Hr.
      change (validity (cC K)) in v, v'. change (iter (option (cA K)) R) in it. change (list (option (cA K))) in os.
      change (va_extend K v it = (v', r', o) ->
        (o <> OAbort -> (usage v' <= usage v + sumw (l_wgt (validity_ld K D)) os)%N) /\
        (fits_it (validity_ld K D) v it -> ends_as o e)).
      change (Forall (owt K (l_wt D)) os) in Hwt. apply (wva_wt K _ d L) in Hwt.
      rewrite (va_sum os). unfold va_extend.
      destruct (va_materialize K v) as [v1 o1] eqn:E1.
      destruct (wva_materialize_use _ _ _ Hv E1) as [-> Hu].
      destruct (wva_materialize K _ d L _ _ _ Hv E1) as [(_ & b & Hp)|(Hbad & _)]; [|discriminate].
      pose proof Hp as (Hb & _ & Hi & _). rewrite Hb.
      assert (Hbo : bm_ok b) by (destruct Hi as [_ Hi]; rewrite Hb in Hi; apply Hi).
      destruct (wva_start v v1 b (bm_len b) Hp Hu) as (c & -> & R1 & R2 & R3).
      { unfold bm_len. rewrite bm_abs_length; auto. }
      destruct (va_extend_loop K (S (length (it_tr it))) c b it) as [[[c3 b3] r3] o3] eqn:E3.
      destruct (wva_loop_room _ _ _ _ _ _ _ _ _ _ _ R1 R2 Hwt Hr (Nat.lt_succ_diag_r _) E3) as [H1 H2].
      intros E; inversion E; subst. split.
      + intros Ho. specialize (H1 Ho).
        change (usage (Validity c3 (Some b3)) <= usage v + (sumw (l_wgt D) (map df os) + 2 * lenN os))%N.
        unfold va_usage at 1. cbn [va_coll va_bm]. lia.
      + intros Hs. apply H2.
        * revert Hs. unfold fits_it, va_room, validity_ld; law_cbn. intros Hs.
          change (affords (fun o : option (cA K) => (l_wgt D (df o) + 2)%N) (l_cfac D + 1) (l_lim D)
            (usage v) it) in Hs.
          eapply affords_mono; [| | |exact Hs]; try (intros; cbv beta; lia).
        * pose proof (fits_it_sum (validity_ld K D) v it os e r Hr Hs) as Hf.
          unfold fits in Hf. rewrite (va_sum os) in Hf.
          change (usage v + (sumw (l_wgt D) (map df os) + 2 * lenN os) <= l_lim D)%N in Hf. lia.
    - intros R v it w os e r v' r' o w' Hv Hwt Hr.
      change (validity (cC K)) in v, v'. change (iter (option (cA K)) R) in it. change (list (option (cA K))) in os.
      change (va_try_extend K v it w = (v', r', o, w') ->
        (usage v' <= usage v + sumw (l_wgt (validity_ld K D)) os)%N /\
        (e = FStop -> honest it -> grants w ->
         (usage v + sumw (l_wgt (validity_ld K D)) os <= l_lim D)%N -> o = ODone /\ grants w')).
      change (Forall (owt K (l_wt D)) os) in Hwt. apply (wva_wt K _ d L) in Hwt.
      rewrite (va_sum os). unfold va_try_extend.
      rewrite (wva_len K _ d L v Hv).
      destruct (va_try_materialize K v w) as [[v1 o1] w1] eqn:E1.
      destruct (wva_try_materialize_use _ _ _ _ _ Hv E1) as [Hu Hg].
      destruct (wva_try_materialize K _ d L _ _ _ _ _ Hv E1) as [(-> & b & Hp)|(-> & ->)].
      2:{ intros E; inversion E; subst. split.
          - change (usage v' <= usage v' + (sumw (l_wgt D) (map df os) + 2 * lenN os))%N. lia.
          - intros _ _ Hw Hf.
            change (usage v' + (sumw (l_wgt D) (map df os) + 2 * lenN os) <= l_lim D)%N in Hf.
            destruct (Hg Hw) as [Hbad _]; [lia|discriminate]. }
      pose proof Hp as (Hb & _ & Hi & Hbi). rewrite Hb.
      assert (Hlen : length (wva_abs K d v) = length (bm_abs b)).
      { rewrite wva_abs_length, <- Hbi by exact Hv. unfold wva_bits. rewrite Hb. reflexivity. }
      destruct (wva_start v v1 b _ Hp Hu Hlen) as (c & -> & R1 & R2 & R3).
      destruct (va_try_extend_loop K (S (length (it_tr it))) (length (wva_abs K d v)) c b it w1)
        as [[[[c3 b3] r3] o3] w3] eqn:E3.
      destruct (wva_try_loop_room _ _ _ _ _ _ _ _ _ _ _ _ _ _ R1 R2 Hwt Hr (Nat.lt_succ_diag_r _) E3)
        as [H1 H2].
      intros E; inversion E; subst. split.
      + change (usage (Validity c3 (Some b3)) <= usage v + (sumw (l_wgt D) (map df os) + 2 * lenN os))%N.
        unfold va_usage at 1. cbn [va_coll va_bm]. lia.
      + intros He Hh Hw Hf.
        change (usage v + (sumw (l_wgt D) (map df os) + 2 * lenN os) <= l_lim D)%N in Hf.
        destruct (Hg Hw) as [_ Hg1]; [lia|].
        apply H2; [exact He|exact Hh|exact Hg1|unfold fits; lia|lia].
    - intros v n v' o Hv. change (va_reserve K v n = (v', o) -> (usage v' <= usage v)%N /\
        ((usage v + n * (l_cfac D + 1) <= l_lim D)%N -> o = ODone)). unfold va_reserve.
      destruct (va_materialize K v) as [v1 o1] eqn:E1.
      destruct (wva_materialize_use _ _ _ Hv E1) as [-> Hu].
      destruct (wva_materialize K _ d L _ _ _ Hv E1) as [(_ & b & Hp)|(Hbad & _)]; [|discriminate].
      pose proof Hp as (Hb & Hc & [Hi1 Hi2] & _). rewrite Hb in *.
      destruct Hi2 as [Hok Hle].
      unfold va_usage in Hu at 1. rewrite Hb in Hu.
      destruct (bm_reserve b n) as [b2 o2] eqn:E2.
      destruct (bm_reserve_spec _ _ _ _ Hok E2) as (B1 & B2 & B3 & B4 & B5 & B6).
      assert (Hx : forall c3, (l_usage D c3 <= l_usage D (va_coll v1))%N ->
        (usage (Validity c3 (Some b2)) <= usage v)%N).
      { intros c3 H. unfold va_usage at 1. cbn [va_coll va_bm]. lia. }
      assert (Hlive : (usage v + n * (l_cfac D + 1) <= l_lim D)%N ->
        o2 = ODone /\ (l_usage D (va_coll v1) + n * l_cfac D <= l_lim D)%N).
      { intros Hs. split; [apply B6|]; lia. }
      destruct o2.
      + destruct (k_reserve K (va_coll v1) n) as [c3 o3] eqn:E3.
        destruct (wr_reserve _ _ _ V _ _ _ _ Hi1 E3) as [C1 C2].
        intros E; inversion E; subst. split; [apply Hx, C1|]. intros Hs. apply C2, Hlive, Hs.
      + intros E; inversion E; subst. split; [apply Hx, N.le_refl|].
        intros Hs. destruct (Hlive Hs); discriminate.
      + intros E; inversion E; subst. split; [apply Hx, N.le_refl|].
        intros Hs. destruct (Hlive Hs); discriminate.
      + intros E; inversion E; subst. split; [apply Hx, N.le_refl|].
        intros Hs. destruct (Hlive Hs); discriminate.
    - intros v n w v' o w' Hv.
      change (va_try_reserve K v n w = (v', o, w') -> (usage v' <= usage v)%N /\
        (grants w -> (usage v + n * (l_cfac D + 1) <= l_lim D)%N -> o = ODone /\ grants w')).
      unfold va_try_reserve.
      destruct (va_try_materialize K v w) as [[v1 o1] w1] eqn:E1.
      destruct (wva_try_materialize_use _ _ _ _ _ Hv E1) as [Hu Hg].
      destruct (wva_try_materialize K _ d L _ _ _ _ _ Hv E1) as [(-> & b & Hp)|(-> & ->)].
      2:{ intros E; inversion E; subst. split; [lia|]. intros Hw Hf.
          destruct (Hg Hw) as [Hbad _]; [lia|discriminate]. }
      pose proof Hp as (Hb & Hc & [Hi1 Hi2] & _). rewrite Hb in *.
      destruct Hi2 as [Hok Hle].
      unfold va_usage in Hu at 1. rewrite Hb in Hu.
      destruct (k_try_reserve K (va_coll v1) n w1) as [[c2 o2] w2] eqn:E2.
      destruct (wr_try_reserve _ _ _ V _ _ _ _ _ _ Hi1 E2) as [C1 C2].
      destruct (ww_try_reserve _ _ _ L _ _ _ _ _ _ Hi1 E2) as (_ & [->| ->]).
      + destruct (bm_try_reserve b n w2) as [[b3 o3] w3] eqn:E3.
        destruct (bm_try_reserve_spec _ _ _ _ _ _ Hok E3) as (B1 & B2 & B3 & B4 & B5 & B6).
        intros E; inversion E; subst. split.
        * unfold va_usage at 1. cbn [va_coll va_bm]. lia.
        * intros Hw Hf. destruct (Hg Hw) as [_ Hg1]; [lia|]. destruct (C2 Hg1) as [_ Hg2]; [lia|].
          destruct (bm_try_reserve_live b n w2 Hok Hg2) as (b4 & w4 & E4 & Hg4); [lia|].
          rewrite E4 in E3. injection E3 as <- <- <-. auto.
      + intros E; inversion E; subst. split.
        * unfold va_usage at 1. cbn [va_coll va_bm]. lia.
        * intros Hw Hf. destruct (Hg Hw) as [_ Hg1]; [lia|]. destruct (C2 Hg1) as [Hbad _]; [lia|discriminate].
    - intros v n v' o Hv. change (va_truncate K v n = (v', o) -> (usage v' <= usage v)%N).
      unfold va_truncate.
      destruct (k_truncate K (va_coll v) n) as [c' o'] eqn:E1.
      pose proof (wr_truncate _ _ _ V _ _ _ _ (proj1 Hv) E1) as H1.
      destruct (ww_truncate _ _ _ L (va_coll v) n (proj1 Hv)) as (c2 & E2 & _ & H2).
      rewrite E1 in E2. injection E2 as <- ->.
      intros E; inversion E; subst. destruct Hv as [Hc Hb].
      change (usage (Validity c' (option_map (fun b => bm_truncate b n) (va_bm v))) <= usage v)%N.
      unfold va_usage. cbn [va_coll va_bm].
      destruct (va_bm v) as [b|]; cbn [option_map].
      + destruct (bm_truncate_spec b n (proj1 Hb)) as (_ & _ & G3 & _). lia.
      + rewrite <- !(wr_abs _ _ _ V), H2. unfold lenN. rewrite firstn_length. lia.
  Qed.
End Null.

(** ** Fixed-size lists *)
Section Flatten.
  Context (K : Coll) (D : LD K) (LS : Laws K D) (d : WD K) (L : WLaws K (l_wt D) d) (V : WRoom K D d)
    (n : nat) (Hn : 0 < n).

  Lemma fl_room_mul m u : (u + m * (N.of_nat n * l_cfac D) <= l_lim D)%N ->
    (m * N.of_nat n <= usize_max)%N /\ (u + m * N.of_nat n * l_cfac D <= l_lim D)%N.
  Proof.
    intros H. pose proof (lw_lim _ _ LS) as Hlim. pose proof (lw_cfac1 _ _ LS) as Hf.
    rewrite alloc_max_val in Hlim. rewrite usize_max_val. rewrite N.mul_assoc in H. split; [nia|lia].
  Qed.
  Lemma wflatten_room : WRoom (flatten_coll K n) (flatten_ld K D n) (wflatten K d n).
  Proof.
    split.
    - intros c. change (wfl_abs K d n c = fl_abs K D n c). unfold wfl_abs, fl_abs.
      rewrite (wr_abs _ _ _ V). reflexivity.
    - intros c Hc. change (lenN (chunks n (w_abs d c)) <= l_usage D c)%N.
      pose proof (wr_usage _ _ _ V c Hc) as H. unfold lenN in *. rewrite chunks_length.
      assert (length (w_abs d c) / n <= length (w_abs d c)) by (apply Nat.div_le_upper_bound; nia). lia.
    - intros R c it xs e r c' r' o Hc Hwt Hr E.
      change (iter (list (cA K)) R) in it. change (list (list (cA K))) in xs.
      destruct (wfl_rows K (l_wt D) n xs Hwt) as [Hrows Hwt'].
      pose proof (run_flatten (N.of_nat n) _ _ _ _ Hr) as Hr'.
      destruct (wr_extend _ _ _ V R c _ _ _ _ _ _ _ Hc Hwt' Hr' E) as [H1 H2].
      rewrite sumw_concat in H1. split; [exact H1|]. intros Hs. apply H2.
      change (affords (sumw (l_wgt D)) (N.of_nat n * l_cfac D) (l_lim D) (l_usage D c) it) in Hs.
      eapply affords_flatten; [exact Hr|apply (fl_wt_cost K D LS n); exact Hwt|exact Hs].
    - intros R c it w xs e r c' r' o w' Hc Hwt Hr E.
      change (iter (list (cA K)) R) in it. change (list (list (cA K))) in xs.
      destruct (wfl_rows K (l_wt D) n xs Hwt) as [Hrows Hwt'].
      pose proof (run_flatten (N.of_nat n) _ _ _ _ Hr) as Hr'.
      destruct (wr_try_extend _ _ _ V R c _ _ _ _ _ _ _ _ _ Hc Hwt' Hr' E) as [H1 H2].
      unfold fits in H2. rewrite sumw_concat in H1, H2. split; [exact H1|]. intros He Hh Hw Hs.
      apply H2; [exact He| |exact Hw|exact Hs]. exact (honest_rows K n it xs _ _ Hr Hrows Hh).
    - intros c m c' o Hc.
      change (fl_reserve K n c m = (c', o) -> (l_usage D c' <= l_usage D c)%N /\
        ((l_usage D c + m * (N.of_nat n * l_cfac D) <= l_lim D)%N -> o = ODone)).
      unfold fl_reserve, strict_mul. destruct (N.leb_spec (m * N.of_nat n) usize_max) as [Hle|Hgt].
      + intros E. destruct (wr_reserve _ _ _ V _ _ _ _ Hc E) as [H1 H2]. split; [exact H1|].
        intros Hs. apply H2. apply fl_room_mul, Hs.
      + intros E; inversion E; subst. split; [lia|]. intros Hs. apply fl_room_mul in Hs. lia.
    - intros c m w c' o w' Hc.
      change (fl_try_reserve K n c m w = (c', o, w') -> (l_usage D c' <= l_usage D c)%N /\
        (grants w -> (l_usage D c + m * (N.of_nat n * l_cfac D) <= l_lim D)%N -> o = ODone /\ grants w')).
      unfold fl_try_reserve, checked_mul. destruct (N.leb_spec (m * N.of_nat n) usize_max) as [Hle|Hgt].
      + intros E. destruct (wr_try_reserve _ _ _ V _ _ _ _ _ _ Hc E) as [H1 H2]. split; [exact H1|].
        intros Hw Hs. apply H2; [exact Hw|]. apply fl_room_mul, Hs.
      + intros E; inversion E; subst. split; [lia|]. intros Hw Hs. apply fl_room_mul in Hs. lia.
    - intros c m c' o Hc. change (fl_truncate K n c m = (c', o) -> (l_usage D c' <= l_usage D c)%N).
      unfold fl_truncate. destruct (fl_len K n c); [|intros E; inversion E; subst; lia].
      destruct (m <? N.of_nat _)%N; [|intros E; inversion E; subst; lia].
      destruct (strict_mul m (N.of_nat n)); [|intros E; inversion E; subst; lia].
      apply (wr_truncate _ _ _ V); exact Hc.
  Qed.
End Flatten.

(** ** Lists *)
Section Lists.
  Context (K : Coll) (D : LD K) (LS : Laws K D) (d : WD K) (L : WLaws K (l_wt D) d) (V : WRoom K D d)
    (kd : okind).
  Local Notation esz := (osz kd).
  Local Notation usage := (of_usage K D).
  Local Notation usg := (usg K D).
  Local Notation of_wgt := (of_wgt K D).
  Local Notation of_lim := (of_lim K D kd).

  Lemma wof_use o ls : wof_rep K d kd o ls -> usage o = usg o ls.
  Proof.
    intros H. pose proof (wof_rep_abs K d kd o ls H) as Ha. unfold of_usage, LawsOffsets.usg.
    assert (of_abs K D o = wof_abs K d o) as ->; [|rewrite Ha; reflexivity].
    unfold of_abs, wof_abs. rewrite (wr_abs _ _ _ V). reflexivity.
  Qed.
  Lemma usg_len o ls ls' : length ls' = length ls -> usg o ls' = usg o ls.
  Proof. intros H. unfold LawsOffsets.usg, lenN. rewrite H. reflexivity. Qed.

  (** What room for one more list means *)
  Lemma wof_live o ls l xs : w_inv d (of_data o) -> w_abs d (of_data o) = concat ls ->
    Forall (l_wt D) l -> (usg o ls + sumw of_wgt (l :: xs) <= of_lim)%N ->
    (N.of_nat (length (concat ls)) + lenN l <= Z.to_N (omax kd))%N /\
    (l_usage D (of_data o) + lenN l * l_cfac D <= l_lim D)%N /\
    (l_usage D (of_data o) + sumw (l_wgt D) l <= l_lim D)%N /\
    (lenN ls + 2 <= max_items esz)%N.
  Proof.
    intros T1 T4 Hl. destruct (sum_len K D LS kd l Hl) as [Hs1 Hs2].
    pose proof (wr_usage _ _ _ V _ T1) as Hu. unfold lenN in Hu at 1. rewrite T4 in Hu.
    cbn [sumw]. unfold LawsOffsets.of_wgt at 1, LawsOffsets.usg, LawsOffsets.of_lim. lia.
  Qed.

  Lemma wof_extend_room {R} : forall (t : trace (list (cA K)) R) n o ls xs e r o' r' out,
    wtight K d kd o ls -> Forall (Forall (l_wt D)) xs -> run_t t n = (xs, e, r) ->
    of_extend_t K kd t n o (Z.of_nat (length (concat ls))) = (o', r', out) ->
    (out <> OAbort -> (usage o' <= usg o ls + sumw of_wgt xs)%N) /\
    ((usg o ls + sumw of_wgt xs <= of_lim)%N -> ends_as out e).
  Proof.
    induction t as [|[[l| |] n'] t IH]; intros n o ls xs e r o' r' out Ht Hwt;
      cbn [run_t of_extend_t].
    - intros E1 E2; inversion E1; inversion E2; subst. cbn [sumw].
      rewrite (wof_use o' ls (wtight_rep _ _ _ _ _ Ht)). split; [intros _; lia|]. intros; reflexivity.
    - destruct (run_t t n') as [[xs1 e1] r1] eqn:Hr. intros E1; inversion E1; subst; clear E1.
      inversion Hwt as [|? ? Hl Hwt1]; subst.
      pose proof Ht as (T1 & T2 & T3 & T4 & T5).
      destruct (omax_val kd) as (Hom & Hon & Hou).
      assert (Hstay : forall d1, w_inv d d1 ->
        (l_usage D d1 <= l_usage D (of_data o) + sumw (l_wgt D) l)%N ->
        (exists rest, w_abs d d1 = concat ls ++ rest) ->
        (usage (Offsets d1 (of_offs o)) <= usg o ls + sumw of_wgt (l :: xs1))%N).
      { intros d1 D1 D3 D4. rewrite (wof_use (Offsets d1 (of_offs o)) ls).
        - unfold LawsOffsets.usg. cbn [of_data sumw]. unfold LawsOffsets.of_wgt at 1. lia.
        - unfold wof_rep. cbn [of_data of_offs]. auto 10. }
      assert (Hoe : Offsets (of_data o) (of_offs o) = o) by (destruct o; auto).
      assert (Hstay0 : (usage o <= usg o ls + sumw of_wgt (l :: xs1))%N).
      { pose proof (Hstay (of_data o)) as H. rewrite Hoe in H. apply H; auto; [lia|].
        exists []. rewrite app_nil_r; auto. }
      pose proof (wof_live o ls l xs1 T1 T4 Hl) as Hlive.
      unfold off_try_from.
      destruct (Z.of_N (lenN l) <=? omax kd)%Z eqn:E0.
      2:{ intros E; inversion E; subst. split; [intros _; exact Hstay0|].
          intros Hs. apply Hlive in Hs. lia. }
      unfold off_strict_add.
      destruct ((omin kd <=? Z.of_nat (length (concat ls)) + Z.of_N (lenN l)) &&
                (Z.of_nat (length (concat ls)) + Z.of_N (lenN l) <=? omax kd))%Z eqn:E3.
      2:{ intros E; inversion E; subst. split; [intros _; exact Hstay0|].
          intros Hs. apply Hlive in Hs. unfold lenN in *. lia. }
      destruct (k_reserve K (of_data o) (lenN l)) as [d1 o1] eqn:Er.
      destruct (ww_reserve _ _ _ L _ _ _ _ T1 Er) as ((R1 & R3) & R5).
      destruct (wr_reserve _ _ _ V _ _ _ _ T1 Er) as (R4 & R6).
      destruct o1; try congruence.
      + destruct (k_extend K d1 (it_list l)) as [[d2 u] o2] eqn:Ex.
        pose proof (ww_extend _ _ _ L _ d1 _ _ _ _ _ _ _ R1 Hl (run_list l) Ex) as X1.
        destruct (wr_extend _ _ _ V _ d1 _ _ _ _ _ _ _ R1 Hl (run_list l) Ex) as [X2 X3].
        assert (X4 : (usg o ls + sumw of_wgt (l :: xs1) <= of_lim)%N -> o2 = ODone).
        { intros Hs. apply Hlive in Hs. apply X3. apply (fits_list D LS); auto. unfold fits. lia. }
        destruct o2; try contradiction.
        * destruct X1 as (_ & _ & l' & Hs & (Y1 & Y3)).
          specialize (X2 ltac:(discriminate)).
          pose proof (lsim_len K d _ _ Hs) as Hll.
          assert (Hpos : (Z.of_nat (length (concat ls)) + Z.of_N (lenN l) =
            Z.of_nat (length (concat (ls ++ [l']))))%Z).
          { rewrite concat_snoc, app_length. unfold lenN in *. lia. }
          rewrite Hpos in *.
          destruct (vec_extend (osz kd) (of_offs o)
            (it_list [Z.of_nat (length (concat (ls ++ [l'])))])) as [[v3 u3] o3] eqn:Ev.
          pose proof (vec_extend_spec _ _ _ _ _ _ _ _ _ T2 (run_list _) Ev) as (V1 & V2 & _ & V4).
          destruct o3; try contradiction.
          -- destruct V4 as (_ & _ & V4).
             assert (Ht' : wtight K d kd (Offsets d2 v3) (ls ++ [l'])).
             { apply wtight_push with (o := o); auto; [|lia]. congruence. }
             intros E. specialize (IH n' (Offsets d2 v3) (ls ++ [l']) xs1 e r o' r' out Ht' Hwt1 Hr E).
             assert (Hus : (usg (Offsets d2 v3) (ls ++ [l']) + sumw of_wgt xs1 <=
               usg o ls + sumw of_wgt (l :: xs1))%N).
             { unfold LawsOffsets.usg. cbn [of_data sumw]. rewrite lenN_app, lenN_cons.
               unfold LawsOffsets.of_wgt at 2. unfold lenN at 2; cbn [length]. lia. }
             destruct IH as [I1 I2]. split.
             ++ intros Ho. specialize (I1 Ho). lia.
             ++ intros Hs'. apply I2. lia.
          -- exfalso. apply (off_push_calm kd _ _ _ _ T2 Ev).
          -- intros E; inversion E; subst. split; [congruence|]. intros Hs'. exfalso.
             apply Hlive in Hs'.
             destruct (vec_extend_live _ _ _ _ _ _ T2 (run_list [Z.of_nat (length (concat (ls ++ [l'])))]))
               as [cap Ev']; [|rewrite Ev' in Ev; discriminate].
             apply affords_list1.
             rewrite T3, lenN_cons. unfold lenN at 1 2. rewrite ends_length. cbn [length].
             unfold lenN in Hs'. lia.
        * intros E; inversion E; subst. specialize (X2 ltac:(discriminate)). split.
          -- intros _. destruct X1 as (k & ys & _ & (Z1 & Z2)). apply Hstay; [exact Z1|lia|].
             rewrite Z2, R3, T4. eauto.
          -- intros Hs. specialize (X4 Hs). discriminate.
        * intros E; inversion E; subst. split; [congruence|]. intros Hs. specialize (X4 Hs). discriminate.
      + intros E; inversion E; subst. split.
        * intros _. apply Hstay; auto; [lia|]. exists []. rewrite app_nil_r, R3; auto.
        * intros Hs. apply Hlive in Hs. assert (OPanic = ODone) by (apply R6; tauto). discriminate.
      + intros E; inversion E; subst. split; [congruence|].
        intros Hs. apply Hlive in Hs. assert (OAbort = ODone) by (apply R6; tauto). discriminate.
    - intros E1 E2; inversion E1; inversion E2; subst. cbn [sumw].
      rewrite (wof_use o' ls (wtight_rep _ _ _ _ _ Ht)). split; [intros _; lia|]. intros; reflexivity.
    - intros E1 E2; inversion E1; inversion E2; subst. cbn [sumw].
      rewrite (wof_use o' ls (wtight_rep _ _ _ _ _ Ht)). split; [intros _; lia|]. intros; reflexivity.
  Qed.

  Lemma wof_rollback_use o ls more1 more2 o' out : w_inv d (of_data o) ->
    vec_ok esz (of_offs o) -> v_items (of_offs o) = (0%Z :: ends 0 ls) ++ more1 ->
    w_abs d (of_data o) = concat ls ++ more2 ->
    (Z.of_nat (length (concat ls)) <= omax kd)%Z ->
    of_rollback K o (length ls) (N.of_nat (length (concat ls))) = (o', out) ->
    out = OErr /\ (usage o' <= l_usage D (of_data o) + lenN ls)%N.
  Proof.
    intros H1 H2 H3 H4 H5 E.
    destruct (wof_rollback K (l_wt D) d L kd o ls more1 more2 o' out H1 H2 H3 H4 H5 E) as [-> Ht].
    split; [reflexivity|]. rewrite (wof_use o' ls (wtight_rep _ _ _ _ _ Ht)). unfold LawsOffsets.usg.
    revert E. unfold of_rollback.
    destruct (k_truncate K (of_data o) (N.of_nat (length (concat ls)))) as [d1 o1] eqn:E1.
    pose proof (wr_truncate _ _ _ V _ _ _ _ H1 E1) as Hu.
    destruct (ww_truncate _ _ _ L (of_data o) (N.of_nat (length (concat ls))) H1) as (d2 & E2 & _).
    rewrite E1 in E2. injection E2 as <- ->.
    intros E; inversion E; subst. cbn [of_data]. lia.
  Qed.
  Lemma wof_try_extend_room {R} ls0 : forall (t : trace (list (cA K)) R) n o ls w xs e r o' r' out w',
    wtight K d kd o (ls0 ++ ls) -> Forall (Forall (l_wt D)) xs -> run_t t n = (xs, e, r) ->
    (Z.of_nat (length (concat ls0)) <= omax kd)%Z ->
    of_try_extend_t K kd (length ls0) (N.of_nat (length (concat ls0))) t n o
      (Z.of_nat (length (concat (ls0 ++ ls)))) w = (o', r', out, w') ->
    (usage o' <= usg o (ls0 ++ ls) + sumw of_wgt xs)%N /\
    (e = FStop -> grants w -> (usg o (ls0 ++ ls) + sumw of_wgt xs <= of_lim)%N ->
     out = ODone /\ grants w').
  Proof.
    induction t as [|[[l| |] n'] t IH]; intros n o ls w xs e r o' r' out w' Ht Hwt;
      cbn [run_t of_try_extend_t].
    - intros E1 _ E2; inversion E1; inversion E2; subst. cbn [sumw].
      rewrite (wof_use o' _ (wtight_rep _ _ _ _ _ Ht)). split; [lia|auto].
    - destruct (run_t t n') as [[xs1 e1] r1] eqn:Hr. intros E1 H0; inversion E1; subst; clear E1.
      inversion Hwt as [|? ? Hl Hwt1]; subst.
      pose proof Ht as (T1 & T2 & T3 & T4 & T5).
      rewrite (as_usize_nat kd).
      assert (Hback : forall o1 (m1 : list Z) m2, w_inv d (of_data o1) -> vec_ok esz (of_offs o1) ->
        v_items (of_offs o1) = (0%Z :: ends 0 ls0) ++ m1 ->
        w_abs d (of_data o1) = concat ls0 ++ m2 ->
        (l_usage D (of_data o1) <= l_usage D (of_data o) + sumw (l_wgt D) l)%N ->
        forall oo ee, of_rollback K o1 (length ls0) (N.of_nat (length (concat ls0))) = (oo, ee) ->
        ee = OErr /\ (usage oo <= usg o (ls0 ++ ls) + sumw of_wgt (l :: xs1))%N).
      { intros o1 m1 m2 Q1 Q2 Q3 Q4 Q5 oo ee Q7.
        destruct (wof_rollback_use _ _ _ _ _ _ Q1 Q2 Q3 Q4 H0 Q7) as [-> Q8]. split; [reflexivity|].
        unfold LawsOffsets.usg. rewrite lenN_app. cbn [sumw]. unfold LawsOffsets.of_wgt at 1. lia. }
      assert (Hz : v_items (of_offs o) = (0%Z :: ends 0 ls0) ++ ends (length (concat ls0)) ls).
      { rewrite T3, ends_app. reflexivity. }
      assert (Hd : w_abs d (of_data o) = concat ls0 ++ concat ls) by (rewrite T4; apply concat_app).
      pose proof (wof_live o (ls0 ++ ls) l xs1 T1 T4 Hl) as Hlive.
      destruct (omax_val kd) as (Hom & Hon & Hou).
      destruct (checked_add (N.of_nat (length (concat (ls0 ++ ls)))) (lenN l)) as [u|] eqn:Ec.
      2:{ destruct (of_rollback K o (length ls0) (N.of_nat (length (concat ls0)))) as [oo ee] eqn:Eb.
          destruct (Hback o _ _ T1 T2 Hz Hd ltac:(lia) _ _ Eb) as (-> & ?).
          intros E; inversion E; subst. split; [assumption|]. intros _ _ Hs. apply Hlive in Hs.
          unfold checked_add in Ec. rewrite usize_max_val in Ec.
          destruct (N.leb_spec (N.of_nat (length (concat (ls0 ++ ls))) + lenN l) 18446744073709551615);
            [discriminate|]. rewrite usize_max_val in Hou. lia. }
      unfold checked_add in Ec.
      destruct (N.of_nat (length (concat (ls0 ++ ls))) + lenN l <=? usize_max)%N; [|discriminate].
      inversion Ec; subst u; clear Ec. unfold off_try_from.
      destruct (Z.of_N (N.of_nat (length (concat (ls0 ++ ls))) + lenN l) <=? omax kd)%Z eqn:E3.
      2:{ destruct (of_rollback K o (length ls0) (N.of_nat (length (concat ls0)))) as [oo ee] eqn:Eb.
          destruct (Hback o _ _ T1 T2 Hz Hd ltac:(lia) _ _ Eb) as (-> & ?).
          intros E; inversion E; subst. split; [assumption|]. intros _ _ Hs. apply Hlive in Hs. lia. }
      destruct (k_try_extend K (of_data o) (it_list l) w) as [[[d2 u] o2] w2] eqn:Ex.
      pose proof (ww_try_extend _ _ _ L _ _ _ _ _ _ _ _ _ _ _ T1 Hl (run_list l) Ex) as X.
      destruct (wr_try_extend _ _ _ V _ _ _ _ _ _ _ _ _ _ _ T1 Hl (run_list l) Ex) as [U1 U2].
      specialize (U2 eq_refl (honest_list l)). unfold fits in U2.
      destruct o2; try contradiction.
      + destruct X as (_ & _ & l' & Hs & (Y1 & Y3)). pose proof (lsim_len K d _ _ Hs) as Hll.
        assert (Hpos : Z.of_N (N.of_nat (length (concat (ls0 ++ ls))) + lenN l) =
          Z.of_nat (length (concat (ls0 ++ ls ++ [l'])))).
        { rewrite app_assoc, concat_snoc, (app_length _ l'). unfold lenN in *. lia. }
        rewrite Hpos in *.
        destruct (vec_try_extend (osz kd) (of_offs o)
          (it_list [Z.of_nat (length (concat (ls0 ++ ls ++ [l'])))]) w2) as [[[v3 u3] o3] w3] eqn:Ev.
        pose proof (vec_try_extend_spec _ _ _ _ _ _ _ _ _ _ _ T2 (run_list _) Ev) as (V1 & V2 & V4).
        assert (Hoff : grants w2 -> (lenN (ls0 ++ ls) + 2 <= max_items esz)%N -> o3 = ODone /\ grants w3).
        { intros Hw2 Hm. destruct (vec_try_extend_wok false (osz kd) (of_offs o)
            (it_list [Z.of_nat (length (concat (ls0 ++ ls ++ [l'])))]) w2 _ tt T2 (run_list _)
            (honest_list _) (or_intror Hw2)) as (v4 & u4 & w4 & Ev4 & Hw4 & _).
          { unfold vlim. rewrite T3. rewrite lenN_cons. unfold lenN in *. rewrite ends_length.
            cbn [length]. lia. }
          rewrite Ev in Ev4. injection Ev4 as -> -> -> ->.
          destruct Hw4 as [Hw4|Hw4]; [discriminate|auto]. }
        destruct o3; try contradiction.
        * destruct V4 as (_ & _ & V4).
          assert (Ht' : wtight K d kd (Offsets d2 v3) (ls0 ++ ls ++ [l'])).
          { rewrite app_assoc in *. apply wtight_push with (o := o); auto. lia. }
          intros E. specialize (IH n' (Offsets d2 v3) (ls ++ [l']) w3 xs1 e r o' r' out w' Ht' Hwt1 Hr H0 E).
          destruct IH as [I1 I2].
          assert (Hus : (usg (Offsets d2 v3) (ls0 ++ ls ++ [l']) + sumw of_wgt xs1 <=
               usg o (ls0 ++ ls) + sumw of_wgt (l :: xs1))%N).
          { unfold LawsOffsets.usg. cbn [of_data sumw]. rewrite !lenN_app, lenN_cons.
            unfold LawsOffsets.of_wgt at 2. unfold lenN at 3; cbn [length]. lia. }
          split; [lia|]. intros He Hw Hs'. pose proof (Hlive Hs') as (_ & _ & G3 & G4).
          destruct (U2 Hw G3) as [_ Hw2]. destruct (Hoff Hw2 G4) as [_ Hw3].
          apply I2; [exact He|exact Hw3|lia].
        * destruct (of_rollback K (Offsets d2 v3) (length ls0) (N.of_nat (length (concat ls0))))
            as [oo ee] eqn:Eb.
          destruct (Hback (Offsets d2 v3) (ends (length (concat ls0)) ls) (concat ls ++ l'))
            with (6 := Eb) as (-> & ?); cbn [of_data of_offs]; auto.
          { rewrite V4. exact Hz. }
          { rewrite Y3, Hd, <- app_assoc. reflexivity. }
          intros E; inversion E; subst. split; [assumption|]. intros He Hw Hs'.
          pose proof (Hlive Hs') as (_ & _ & G3 & G4). destruct (U2 Hw G3) as [_ Hw2].
          destruct (Hoff Hw2 G4) as [Hbad _]. discriminate.
        * destruct V4; discriminate.
      + destruct X as (Y1 & Y3).
        destruct (of_rollback K (Offsets d2 (of_offs o)) (length ls0) (N.of_nat (length (concat ls0))))
            as [oo ee] eqn:Eb.
        destruct (Hback (Offsets d2 (of_offs o)) (ends (length (concat ls0)) ls) (concat ls))
            with (6 := Eb) as (-> & ?); cbn [of_data of_offs]; auto.
        { congruence. }
        intros E; inversion E; subst. split; [assumption|]. intros He Hw Hs'.
        pose proof (Hlive Hs') as (_ & _ & G3 & G4). destruct (U2 Hw G3) as [Hbad _]. discriminate.
      + destruct X; discriminate.
    - intros E1 _ E2; inversion E1; inversion E2; subst. cbn [sumw].
      rewrite (wof_use o' _ (wtight_rep _ _ _ _ _ Ht)). split; [lia|auto].
    - intros E1 _ E2; inversion E1; inversion E2; subst. cbn [sumw].
      rewrite (wof_use o' _ (wtight_rep _ _ _ _ _ Ht)). split; [lia|discriminate].
  Qed.

  Lemma wof_start_use o ls : wof_rep K d kd o ls ->
    exists d1, k_truncate K (of_data o) (N.of_nat (length (concat ls))) = (d1, ODone) /\
      wtight K d kd (Offsets d1 (of_offs o)) ls /\ (usg (Offsets d1 (of_offs o)) ls <= usg o ls)%N.
  Proof.
    intros H. destruct (wof_start K (l_wt D) d L kd o ls H) as (d1 & E & Ht). exists d1.
    split; [exact E|]. split; [exact Ht|]. pose proof (wr_truncate _ _ _ V _ _ _ _ (proj1 H) E).
    unfold LawsOffsets.usg. cbn [of_data]. lia.
  Qed.
  Lemma wof_kept_use o ls d1 v1 : wof_rep K d kd o ls -> kept d (of_data o) d1 -> vec_ok esz v1 ->
    v_items v1 = v_items (of_offs o) -> (l_usage D d1 <= l_usage D (of_data o))%N ->
    (usage (Offsets d1 v1) <= usage o)%N.
  Proof.
    intros Ho (H1 & H3) V1 V2 Hu. rewrite (wof_use o ls Ho), (wof_use (Offsets d1 v1) ls).
    - unfold LawsOffsets.usg. cbn [of_data]. lia.
    - destruct Ho as (G1 & G2 & G3 & G4 & G5). unfold wof_rep. cbn [of_data of_offs].
      rewrite V2, H3. auto 10.
  Qed.

  Lemma woffsets_room : WRoom (offsets_coll K kd) (offsets_ld K D kd) (woffsets K d kd).
  Proof.
    split.
    - intros o. change (wof_abs K d o = of_abs K D o). unfold of_abs, wof_abs.
      rewrite (wr_abs _ _ _ V). reflexivity.
    - intros o Ho. change (lenN (wof_abs K d o) <= usage o)%N.
      rewrite (wof_use o _ (wof_inv_rep K d kd o Ho)). unfold LawsOffsets.usg. lia.
    - intros R o it xs e r o' r' out Ho Hwt Hr.
      change (offsets (cC K)) in o, o'. change (iter (list (cA K)) R) in it. change (list (list (cA K))) in xs.
      change (of_extend K kd o it = (o', r', out) ->
        (out <> OAbort -> (usage o' <= usage o + sumw of_wgt xs)%N) /\
        (fits_it (offsets_ld K D kd) o it -> ends_as out e)).
      pose proof (wof_inv_rep K d kd o Ho) as Hrep. rewrite (wof_use o _ Hrep).
      unfold of_extend. rewrite (wof_last K d kd o _ Hrep), (as_usize_nat kd).
      destruct (wof_start_use o _ Hrep) as (d1 & -> & Ht & Hu). intros E.
      destruct (wof_extend_room _ _ _ _ _ _ _ _ _ _ Ht Hwt Hr E) as [H1 H2]. split.
      + intros Hx. specialize (H1 Hx). lia.
      + intros Hs. apply H2. apply (fits_it_sum (offsets_ld K D kd) o it xs e r Hr) in Hs.
        change (usage o + sumw of_wgt xs <= of_lim)%N in Hs. rewrite (wof_use o _ Hrep) in Hs. lia.
    - intros R o it w xs e r o' r' out w' Ho Hwt Hr.
      change (offsets (cC K)) in o, o'. change (iter (list (cA K)) R) in it. change (list (list (cA K))) in xs.
      change (of_try_extend K kd o it w = (o', r', out, w') ->
        (usage o' <= usage o + sumw of_wgt xs)%N /\
        (e = FStop -> honest it -> grants w -> (usage o + sumw of_wgt xs <= of_lim)%N ->
         out = ODone /\ grants w')).
      pose proof (wof_inv_rep K d kd o Ho) as Hrep. rewrite (wof_use o _ Hrep).
      unfold of_try_extend. rewrite (wof_len K d kd o _ Hrep), (wof_last K d kd o _ Hrep), (as_usize_nat kd).
      destruct (wof_start_use o _ Hrep) as (d1 & -> & Ht & Hu). intros E.
      pose proof Ht as (_ & _ & _ & _ & Hm).
      pose proof (wof_try_extend_room (wof_abs K d o) (it_tr it) (it_node it) (Offsets d1 (of_offs o)) [] w
        xs e r o' r' out w') as H.
      rewrite app_nil_r in H. destruct (H Ht Hwt Hr Hm E) as [H1 H2]. split; [lia|].
      intros He _ Hw Hs. apply H2; [exact He|exact Hw|lia].
    - intros o n o' out Ho.
      change (offsets (cC K)) in o, o'.
      change (of_reserve K kd o n = (o', out) -> (usage o' <= usage o)%N /\
        ((usage o + n * (1 + l_cfac D) <= of_lim)%N -> out = ODone)).
      pose proof (wof_inv_rep K d kd o Ho) as Hrep. unfold of_reserve.
      pose proof Hrep as (H1 & H2 & H3 & _ & _).
      destruct (k_reserve K (of_data o) n) as [d1 o1] eqn:E1.
      destruct (ww_reserve _ _ _ L _ _ _ _ H1 E1) as (C1 & C2).
      destruct (wr_reserve _ _ _ V _ _ _ _ H1 E1) as (C3 & C4).
      assert (Hs : (usage o + n * (1 + l_cfac D) <= of_lim)%N ->
        (l_usage D (of_data o) + n * l_cfac D <= l_lim D)%N /\
        (lenN (v_items (of_offs o)) + n <= max_items esz)%N).
      { rewrite (wof_use _ _ Hrep). unfold LawsOffsets.usg, LawsOffsets.of_lim. rewrite H3, lenN_cons.
        unfold lenN. rewrite ends_length. pose proof (max_items_osz kd) as Hm. lia. }
      destruct o1; try congruence.
      + destruct (vec_reserve (osz kd) (of_offs o) n) as [v2 o2] eqn:E2.
        destruct (vec_reserve_spec _ _ _ _ _ H2 E2) as (V1 & V2 & V3 & V4).
        intros E; inversion E; subst. split; [eapply wof_kept_use; eauto|]. intros Hx. apply Hs in Hx.
        destruct (vec_reserve_live (osz kd) (of_offs o) n) as [vv Hv]; [tauto|]. congruence.
      + intros E; inversion E; subst. split; [eapply wof_kept_use; eauto|]. intros Hx. apply C4, Hs, Hx.
      + intros E; inversion E; subst. split; [eapply wof_kept_use; eauto|]. intros Hx. apply C4, Hs, Hx.
    - intros o n w o' out w' Ho.
      change (offsets (cC K)) in o, o'.
      change (of_try_reserve K kd o n w = (o', out, w') -> (usage o' <= usage o)%N /\
        (grants w -> (usage o + n * (1 + l_cfac D) <= of_lim)%N -> out = ODone /\ grants w')).
      pose proof (wof_inv_rep K d kd o Ho) as Hrep. unfold of_try_reserve.
      pose proof Hrep as (H1 & H2 & H3 & _ & _).
      destruct (k_try_reserve K (of_data o) n w) as [[d1 o1] w1] eqn:E1.
      destruct (ww_try_reserve _ _ _ L _ _ _ _ _ _ H1 E1) as (C1 & C2).
      destruct (wr_try_reserve _ _ _ V _ _ _ _ _ _ H1 E1) as (C3 & C4).
      assert (Hs : (usage o + n * (1 + l_cfac D) <= of_lim)%N ->
        (l_usage D (of_data o) + n * l_cfac D <= l_lim D)%N /\
        (lenN (v_items (of_offs o)) + n <= max_items esz)%N).
      { rewrite (wof_use _ _ Hrep). unfold LawsOffsets.usg, LawsOffsets.of_lim. rewrite H3, lenN_cons.
        unfold lenN. rewrite ends_length. pose proof (max_items_osz kd) as Hm. lia. }
      destruct C2 as [-> | ->].
      + destruct (vec_try_reserve (osz kd) (of_offs o) n w1) as [[v2 o2] w2] eqn:E2.
        destruct (vec_try_reserve_spec _ _ _ _ _ _ _ H2 E2) as (V1 & V2 & V3 & V4).
        intros E; inversion E; subst. split; [eapply wof_kept_use; eauto|]. intros Hw Hx. apply Hs in Hx.
        destruct (C4 Hw) as [_ Hw1]; [tauto|].
        destruct (vec_try_reserve_live (osz kd) (of_offs o) n w1) as (v4 & w4 & E4 & Hw4 & _).
        { left. tauto. }
        rewrite E4 in E2. injection E2 as <- <- <-. auto.
      + intros E; inversion E; subst. split; [eapply wof_kept_use; eauto|]. intros Hw Hx. apply Hs in Hx.
        destruct (C4 Hw) as [Hbad _]; [tauto|discriminate].
    - intros o n o' out Ho.
      change (offsets (cC K)) in o, o'. change (of_truncate K o n = (o', out) -> (usage o' <= usage o)%N).
      pose proof (wof_inv_rep K d kd o Ho) as Hrep. intros E.
      destruct (ww_truncate _ _ _ (woffsets_laws K (l_wt D) d L kd) o n Ho) as (o1 & E1 & I1 & A1).
      change (of_truncate K o n = (o1, ODone)) in E1. rewrite E in E1. injection E1 as -> ->.
      change (wof_inv K d kd o1) in I1. change (wof_abs K d o1 = firstn (N.to_nat n) (wof_abs K d o)) in A1.
      rewrite (wof_use _ _ Hrep), (wof_use _ _ (wof_inv_rep K d kd o1 I1)), A1.
      assert (Hu : (l_usage D (of_data o1) <= l_usage D (of_data o))%N).
      { revert E. unfold of_truncate. destruct (of_len K o); [|discriminate].
        destruct (n <? N.of_nat _)%N; [|intros E; injection E as <-; lia].
        destruct (vec_view (of_offs o) n) as [z|]; [|discriminate].
        destruct (as_usize z) as [dl|]; [|discriminate].
        destruct (k_truncate K (of_data o) dl) as [d1 e] eqn:Ek. intros E. injection E as <- _.
        cbn [of_data]. exact (wr_truncate _ _ _ V _ _ _ _ (proj1 Hrep) Ek). }
      unfold LawsOffsets.usg, lenN. rewrite firstn_length. lia.
  Qed.
End Lists.
