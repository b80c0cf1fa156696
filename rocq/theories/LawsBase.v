(** * Vectors and bitmaps satisfy the laws. *)
From Coq Require Import List NArith ZArith Bool Arith Lia ZifyBool ZifyNat ZifyN.
From Verif Require Import Base Iter Spec VecModel BitmapModel CollModel ValidityModel
  IterLemmas VecLemmas RoomLemmas BitmapLemmas BitmapLemmas2 Laws.
Import ListNotations.

Ltac Zify.zify_post_hook ::= Z.div_mod_to_equations.
Local Arguments Nat.div : simpl never.
Local Arguments Nat.modulo : simpl never.
Local Arguments Nat.mul : simpl never.

Lemma max_items_le esz : (max_items esz <= alloc_max)%N.
Proof.
  unfold max_items. destruct (N.eq_dec esz 0) as [->|H].
  - discriminate.
  - apply N.div_le_upper_bound; auto.
    replace alloc_max with (1 * alloc_max)%N at 1 by reflexivity.
    apply N.mul_le_mono_r. lia.
Qed.

Definition vec_ld (A : Type) (a0 : A) (esz : N) : LD (vec_coll A a0 esz) := {|
  l_wt := fun _ : cA (vec_coll A a0 esz) => True;
  l_inv := @vec_ok A esz : cC (vec_coll A a0 esz) -> Prop;
  l_abs := @v_items A : cC (vec_coll A a0 esz) -> list (cA (vec_coll A a0 esz));
  l_irep := fun (s : cVI (vec_coll A a0 esz)) xs => s = xs;
  l_orep := fun (s : cOI (vec_coll A a0 esz)) xs => s = xs;
  l_voff := fun _ => 0;
  l_usage := fun c : cC (vec_coll A a0 esz) => lenN (v_items c);
  l_wgt := fun _ => 1%N;
  l_cfac := 1%N;
  l_lim := max_items esz;
  l_psafe := fun _ _ => true;
  l_gran := fun s _ n => s || Nat.eqb n 1;
  l_nofuse := true;
  l_nofuse_try := true;
  l_oob := fun _ => true;
|}.

Lemma vec_laws A a0 esz : Laws (vec_coll A a0 esz) (vec_ld A a0 esz).
Proof.
  split; unfold collects, fresh, full_ext, partial_ext, same_items, fits_it, vec_coll, vec_ld;
    law_cbn.
  - exact I.
  - lia.
  - intros; lia.
  - apply max_items_le.
  - intros c _. apply Forall_forall; auto.
  - intros c [H1 H2]. pose proof (max_items_le esz). lia.
  - intros; lia.
  - repeat split; cbn; try lia.
  - reflexivity.
  - intros c i x Hc Hi. exists x. unfold vec_view. rewrite nth_N_nat, Hi. auto.
  - intros c i Hc Hi _. unfold vec_view. rewrite nth_N_ge; auto.
  - eauto.
  - intros s x xs ->. cbn. eauto.
  - intros s ->. cbn. eauto.
  - intros s xs ->. reflexivity.
  - eauto.
  - intros s x xs ->. cbn. eauto.
  - intros s ->. cbn. eauto.
  - intros s xs ->. reflexivity.
  - intros n. split.
    + pose proof (@vec_with_capacity_spec A esz n) as H.
      destruct (vec_with_capacity esz n); auto. destruct H as (? & -> & ?). cbn. auto with arith.
      repeat split; auto; try apply H; lia.
    + intros H. apply vec_with_capacity_live. lia.
  - intros n w res w' E. apply vec_try_with_capacity_spec in E. destruct res; auto.
    destruct E as (? & -> & ?). repeat split; auto; try apply H; cbn; lia.
  - intros R it xs e r res r' _ _ Hr E.
    pose proof (vec_from_iter_spec _ _ _ _ _ _ _ Hr E) as H. split.
    + destruct res; auto. destruct H as (? & -> & -> & ->).
      rewrite sumw_one. pose proof (in_after_run _ _ _ _ Hr).
      repeat split; auto; try apply H; lia.
    + intros Hs _. destruct (vec_from_iter_live _ _ _ _ _ Hr Hs) as [v Hv].
      rewrite Hv in E; inversion E; subst. destruct e; eauto.
  - intros R it xs e r res r' _ _ Hr E.
    pose proof (vec_from_iter_spec _ _ _ _ _ _ _ Hr E) as H. split.
    + destruct res; auto. destruct H as (? & -> & -> & ->).
      rewrite sumw_one. pose proof (in_after_run _ _ _ _ Hr).
      repeat split; auto; try apply H; lia.
    + intros Hs _. destruct (vec_from_iter_live _ _ _ _ _ Hr Hs) as [v Hv].
      rewrite Hv in E; inversion E; subst. destruct e; eauto.
  - intros R it w xs e r res r' w' _ _ Hr E.
    pose proof (vec_try_from_iter_spec _ _ _ _ _ _ _ _ _ Hr E) as H.
    destruct res; auto. destruct H as (? & -> & -> & ->). rewrite sumw_one.
    pose proof (in_after_run _ _ _ _ Hr).
    repeat split; auto; try apply H; lia.
  - intros R c it xs e r c' r' o Hc _ Hr E. rewrite sumw_one.
    pose proof (vec_extend_spec _ _ _ _ _ _ _ _ _ Hc Hr E) as (H1 & H2 & (k & Hk & Hi) & H4).
    split.
    + destruct o; auto.
      * destruct H4 as (-> & -> & ->). rewrite lenN_app. repeat split; auto; try apply H1; lia.
      * intros s Hs _. split; [auto|]. split; [auto|].
        split; [rewrite Hi; unfold lenN; rewrite app_length, firstn_length; lia|].
        destruct s.
        -- destruct (vec_extend_live _ _ _ _ _ _ Hc Hr (Hs eq_refl)) as [cap El].
           rewrite El in E. inversion E; subst. cbn [v_items].
           exists (length xs). rewrite firstn_all. auto.
        -- exists k. split; [auto|]. split; [auto|]. cbn [orb]. intros n Hn _ _.
           apply Nat.eqb_eq in Hn. subst n. apply Nat.divide_1_l.
    + intros Hs. destruct (vec_extend_live _ _ _ _ _ _ Hc Hr Hs) as [cap El]. rewrite El in E.
      inversion E; subst. destruct e; reflexivity.
  - intros R c it w xs e r c' r' o w' Hc _ Hr E. rewrite sumw_one.
    pose proof (vec_try_extend_spec _ _ _ _ _ _ _ _ _ _ _ Hc Hr E) as (H1 & H2 & H4).
    destruct o; auto.
    + destruct H4 as (-> & -> & ->). rewrite lenN_app. repeat split; auto; try apply H1; lia.
    + rewrite H4. repeat split; auto; try apply H1; lia.
    + destruct H4 as (-> & -> & Hi). split; [auto|]. intros _. rewrite Hi, lenN_app.
      split; [auto|]. split; [auto|]. split; [lia|].
      exists (length xs). rewrite firstn_all. auto.
  - intros c n c' o Hc E.
    pose proof (vec_reserve_spec _ _ _ _ _ Hc E) as (H1 & -> & H3 & _).
    repeat split; auto; try apply H1; try lia. intros Hs.
    destruct (vec_reserve_live esz c n) as [v Hv]; [lia|]. congruence.
  - intros c n w c' o w' Hc E.
    pose proof (vec_try_reserve_spec _ _ _ _ _ _ _ Hc E) as (H1 & -> & _ & H3).
    split; [repeat split; auto; try apply H1; lia|]. destruct o; auto; contradiction.
  - intros c n Hc. exists (vec_truncate c n). split; [auto|].
    destruct (vec_truncate_spec esz c n Hc) as (H1 & H2 & H3).
    rewrite H3. repeat split; auto; try apply H1. unfold lenN. rewrite firstn_length. lia.
Qed.

Definition bitmap_ld : LD bitmap_coll := {|
  l_wt := fun _ : cA bitmap_coll => True;
  l_inv := bm_ok : cC bitmap_coll -> Prop;
  l_abs := bm_abs : cC bitmap_coll -> list (cA bitmap_coll);
  l_irep := birep : cVI bitmap_coll -> list (cA bitmap_coll) -> Prop;
  l_orep := birep : cOI bitmap_coll -> list (cA bitmap_coll) -> Prop;
  l_voff := bm_off : cC bitmap_coll -> nat;
  l_usage := bm_usage : cC bitmap_coll -> N;
  l_wgt := fun _ => 2%N;
  l_cfac := 1%N;
  l_lim := alloc_max;
  l_psafe := fun _ _ => true;
  l_gran := fun _ o n => bit_aligned o n;
  l_nofuse := false;
  l_nofuse_try := false;
  l_oob := fun _ => true;
|}.

Lemma bm_usage_step b b' k :
  bm_ok b -> bm_ok b' -> bm_off b' = bm_off b ->
  length (v_items (bm_buf b')) <= length (v_items (bm_buf b)) + k ->
  length (bm_abs b') <= length (bm_abs b) + k ->
  (bm_usage b' <= bm_usage b + 2 * N.of_nat k)%N.
Proof.
  intros H H' Ho Hl Ha. rewrite !bm_abs_length in Ha by auto.
  unfold bm_usage, lenN. lia.
Qed.
Lemma gran_divide a b k o n : bit_aligned o n = true ->
  Nat.divide n a -> Nat.divide n b -> k = b \/ k < 8 /\ (o + a + k) mod 8 = 0 -> Nat.divide n k.
Proof.
  intros H Ha Hb [->|[Hk8 Hk]]; auto. unfold bit_aligned in H.
  destruct n as [|n]; [cbn in H; destruct Ha as [q Ha]; rewrite Nat.mul_0_r in Ha; subst a;
    apply andb_true_iff in H; destruct H as [_ H]; apply Nat.eqb_eq in H; exists 0; lia|].
  apply orb_true_iff in H.
  destruct H as [H|H]; apply andb_true_iff in H; destruct H as [H1 H2]; apply Nat.eqb_eq in H1, H2.
  - assert (D8 : Nat.divide (S n) 8) by (apply Nat.mod_divide; auto).
    assert (Do : Nat.divide (S n) o) by (apply Nat.mod_divide; auto).
    assert (Dk : Nat.divide (S n) (o + a + k)).
    { apply Nat.divide_trans with 8; auto. apply Nat.mod_divide; auto. }
    apply (Nat.divide_add_cancel_r (S n) (o + a) k); auto.
    apply Nat.divide_add_r; auto.
  - assert (D8 : Nat.divide 8 a).
    { apply Nat.divide_trans with (S n); auto. apply Nat.mod_divide; auto. }
    apply Nat.mod_divide in D8; [|lia].
    assert (k = 0) as -> by lia. apply Nat.divide_0_r.
Qed.

Lemma bitmap_laws : Laws bitmap_coll bitmap_ld.
Proof.
  split; unfold collects, fresh, full_ext, partial_ext, same_items, fits_it, bitmap_coll, bitmap_ld;
    law_cbn.
  - exact I.
  - lia.
  - intros; lia.
  - lia.
  - intros c _. apply Forall_forall; auto.
  - intros c H. pose proof (bm_size c H). unfold lenN. rewrite bm_abs_length by auto. lia.
  - intros c H. unfold lenN. rewrite bm_abs_length by auto. unfold bm_usage. lia.
  - split; [apply bm_ok_default|]. repeat split; cbn; lia.
  - intros c H. rewrite bm_abs_length; auto.
  - intros c i x Hc Hi. exists x. rewrite bm_view_spec, nth_N_nat, Hi; auto.
  - intros c i Hc Hi _. rewrite bm_view_spec, nth_N_ge; auto.
  - intros c Hc. eexists; split; [reflexivity|apply birep_new; auto].
  - intros s x xs H. destruct (birep_cons _ _ _ H) as (s' & ? & ?). eauto.
  - apply birep_nil.
  - apply birep_hint.
  - intros c Hc. eexists; split; [reflexivity|apply birep_new; auto].
  - apply birep_cons.
  - apply birep_nil.
  - apply birep_hint.
  - intros n. split.
    + pose proof (bm_with_capacity_spec n) as H.
      destruct (bm_with_capacity n); auto. destruct H as (? & -> & -> & ->). cbn. auto with arith.
      repeat split; auto; try apply H; cbn; lia.
    + intros H. apply bm_with_capacity_live. lia.
  - intros n w res w' E. apply bm_try_with_capacity_spec in E. destruct res; auto.
    destruct E as (? & -> & -> & ->). repeat split; auto; try apply H; cbn; lia.
  - intros R it xs e r res r' [?|Hf] _ Hr E; [discriminate|].
    pose proof (bm_from_iter_spec _ _ _ _ _ _ Hr Hf E) as [H H']. rewrite sumw_two. split.
    + destruct res; auto. destruct H as (-> & Hin & Hok & -> & -> & Hu).
      split; [auto|]. split; [discriminate|]. auto.
    + intros Hs _. apply H'. eapply affords_mono; [| | |exact Hs]; try (intros; cbv beta; lia).
  - intros R it xs e r res r' [?|Hf] _ Hr E; [discriminate|].
    pose proof (bm_from_iter_spec _ _ _ _ _ _ Hr Hf E) as [H H']. rewrite sumw_two. split.
    + destruct res; auto. destruct H as (-> & Hin & Hok & -> & -> & Hu).
      split; [auto|]. split; [discriminate|]. auto.
    + intros Hs _. apply H'. eapply affords_mono; [| | |exact Hs]; try (intros; cbv beta; lia).
  - intros R it w xs e r res r' w' [?|Hf] _ Hr E; [discriminate|].
    pose proof (bm_try_from_iter_spec _ _ _ _ _ _ _ _ Hr Hf E) as H. rewrite sumw_two.
    destruct res; auto. destruct H as (-> & Hin & Hok & -> & -> & Hu).
    split; [auto|]. split; [auto|]. split; [discriminate|auto].
  - intros R c it xs e r c' r' o Hc _ Hr E. rewrite sumw_two.
    pose proof (bm_extend_spec _ _ _ _ _ _ _ _ Hc Hr E)
      as (H1 & H2 & H3 & (k & Hk & Ha & Hg) & H5 & H6 & _).
    assert (Hu : (bm_usage c' <= bm_usage c + 2 * lenN xs)%N).
    { unfold lenN at 1. apply bm_usage_step; auto. rewrite Ha, app_length, firstn_length. lia. }
    split.
    + destruct o; auto.
      * destruct H5 as (-> & -> & ->). repeat split; auto; apply H1.
      * intros s _ _. split; [auto|]. split; [auto|]. split; [auto|].
        exists k. split; [auto|]. split; [auto|]. intros n Hn Hd1 Hd2.
        rewrite bm_abs_length in Hd1 by auto. exact (gran_divide _ _ _ _ _ Hn Hd1 Hd2 Hg).
    + intros Hs. apply H6. eapply affords_mono; [| | |exact Hs]; try (intros; cbv beta; lia).
      unfold bm_usage. lia.
  - intros R c it w xs e r c' r' o w' Hc _ Hr E. rewrite sumw_two.
    pose proof (bm_try_extend_spec _ _ _ _ _ _ _ _ _ _ Hc Hr E) as (H1 & H2 & H3 & H5).
    assert (Hu : (bm_usage c' <= bm_usage c + 2 * lenN xs)%N).
    { unfold lenN at 1. apply bm_usage_step; auto. destruct o.
      - destruct H5 as (_ & _ & ->). rewrite app_length; lia.
      - rewrite H5; lia.
      - destruct H5 as (_ & _ & _ & k & Hk & -> & _). rewrite app_length, firstn_length. lia.
      - contradiction. }
    destruct o; auto.
    + destruct H5 as (-> & -> & ->). repeat split; auto; apply H1.
    + destruct H5 as (-> & _ & _ & k & Hk & Ha & Hg). split; [auto|]. intros _.
      split; [auto|]. split; [auto|]. split; [auto|].
      exists k. split; [auto|]. split; [auto|]. intros n Hn Hd1 Hd2.
      rewrite bm_abs_length in Hd1 by auto. exact (gran_divide _ _ _ _ _ Hn Hd1 Hd2 Hg).
  - intros c n c' o Hc E.
    pose proof (bm_reserve_spec _ _ _ _ Hc E) as (H1 & -> & -> & H3 & -> & H4).
    repeat split; auto; try apply H1; try lia. intros Hs. apply H4. lia.
  - intros c n w c' o w' Hc E.
    pose proof (bm_try_reserve_spec _ _ _ _ _ _ Hc E) as (H1 & -> & -> & -> & _ & H3).
    split; [repeat split; auto; try apply H1; lia|]. destruct o; auto; contradiction.
  - intros c n Hc. exists (bm_truncate c n). split; [auto|].
    destruct (bm_truncate_spec c n Hc) as (H1 & H2 & H3 & H4 & H5). auto.
Qed.
