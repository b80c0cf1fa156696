(** * What is left of the laws of nullable arrays after arbitrary panics *)
From Coq Require Import List NArith ZArith Bool Arith Lia ZifyBool ZifyNat ZifyN.
From Verif Require Import Base Iter Spec VecModel BitmapModel CollModel ValidityModel
  IterLemmas VecLemmas RoomLemmas BitmapLemmas BitmapLemmas2 Laws LawsValidity WeakLaws.
Import ListNotations.

Local Arguments Nat.div : simpl never.
Local Arguments Nat.modulo : simpl never.
Local Arguments Nat.mul : simpl never.
Local Arguments N.add : simpl never.
Local Arguments N.mul : simpl never.
Local Arguments chunk : simpl never.

Section Null.
  Context (K : Coll) (wt : cA K -> Prop) (d : WD K) (L : WLaws K wt d).
  Local Notation df := (dflt K).

  Definition wva_bits (v : validity (cC K)) : list bool :=
    match va_bm v with
    | Some b => bm_abs b
    | None => repeat true (length (w_abs d (va_coll v)))
    end.
  Definition wva_inv (v : validity (cC K)) : Prop :=
    w_inv d (va_coll v) /\
    match va_bm v with
    | Some b => bm_ok b /\ length (bm_abs b) <= length (w_abs d (va_coll v))
    | None => True
    end.
  Definition wva_abs (v : validity (cC K)) : list (option (cA K)) :=
    mask (w_abs d (va_coll v)) (wva_bits v).
  Definition osim (x y : option (cA K)) : Prop :=
    match x, y with
    | Some a, Some b => w_sim d a b
    | None, None => True
    | _, _ => False
    end.
  Definition owt (o : option (cA K)) : Prop := match o with Some x => wt x | None => True end.
  Definition wvalidity : WD (validity_coll K) := {|
    w_inv := wva_inv : cC (validity_coll K) -> Prop;
    w_abs := wva_abs : cC (validity_coll K) -> list (cA (validity_coll K));
    w_irep := va_rep K (w_irep d) : cVI (validity_coll K) -> list (cA (validity_coll K)) -> Prop;
    w_orep := va_rep K (w_orep d) : cOI (validity_coll K) -> list (cA (validity_coll K)) -> Prop;
    w_sim := osim : cA (validity_coll K) -> cA (validity_coll K) -> Prop;
  |}.

  Lemma wva_wt os : Forall owt os -> Forall wt (map df os).
  Proof.
    induction 1 as [|[x|] os Ho Hos IH]; cbn [map]; constructor; auto. apply (ww_item0 _ _ _ L).
  Qed.
  Lemma wva_bits_le v : wva_inv v -> length (wva_bits v) <= length (w_abs d (va_coll v)).
  Proof. intros [_ H]. unfold wva_bits. destruct (va_bm v); [apply H|rewrite repeat_length; auto]. Qed.
  Lemma wva_abs_length v : wva_inv v -> length (wva_abs v) = length (wva_bits v).
  Proof. intros H. unfold wva_abs. rewrite mask_length. pose proof (wva_bits_le v H). lia. Qed.
  Lemma wva_len v : wva_inv v -> va_len K v = Ret (length (wva_abs v)).
  Proof.
    intros H. rewrite wva_abs_length by auto. destruct H as [Hc Hb]. unfold va_len, wva_bits.
    destruct (va_bm v) as [b|].
    - unfold bm_len. rewrite bm_abs_length; tauto.
    - rewrite repeat_length. apply (ww_len _ _ _ L); auto.
  Qed.
  Lemma wva_view v i o : wva_inv v -> nth_error (wva_abs v) i = Some o ->
    exists x, va_view K v (N.of_nat i) = Ret (Some x) /\ va_own K x = Ret o.
  Proof.
    intros Hv Ho.
    assert (Hi : i < length (wva_abs v)) by (apply nth_error_Some; congruence).
    destruct (mask_nth _ _ _ _ Ho) as (x & b & Hx & Hb & ->).
    pose proof Hv as [Hc Hm].
    destruct (ww_view _ _ _ L _ _ _ Hc Hx) as (y & Ey & Hy).
    unfold va_view. rewrite (wva_len v Hv). cbn [obind].
    assert ((N.of_nat i <? N.of_nat (length (wva_abs v)))%N = true) as -> by lia.
    rewrite Ey. cbn [obind expect]. unfold wva_bits in Hb. destruct (va_bm v) as [bm|].
    - rewrite bm_view_spec by tauto. rewrite nth_N_nat, Hb. cbn [obind expect].
      eexists; split; [reflexivity|]. destruct b; cbn [va_own]; [rewrite Hy|]; reflexivity.
    - cbn [obind]. eexists; split; [reflexivity|]. cbn [va_own].
      apply nth_error_In, repeat_spec in Hb. subst b. rewrite Hy. reflexivity.
  Qed.
  Lemma wva_onil s : va_rep K (w_orep d) s [] -> vait_next (k_onext K) s = Pnc \/ at_end wvalidity s.
  Proof.
    destruct s as [s [b|]]; intros H.
    - right. exists (fun t => va_rep K (w_orep d) t [] /\ snd t <> None).
      split; [split; [exact H|discriminate]|]. clear H.
      intros [t [tb|]] [(xs & Hr & H) Hs]; cbn [fst snd] in *; [|contradiction].
      destruct H as (bs & Hb & Hl & E). symmetry in E. apply mask_nil_inv in E; auto. subst bs.
      destruct (birep_nil _ Hb) as (b' & E' & Hb').
      split; [exists xs; cbn [fst snd]; split; auto; exists []; rewrite mask_nil_r; auto|].
      exists (t, Some b'). split; [|split; [|discriminate]].
      + change (vait_next (k_onext K) (t, Some tb) = Ret (None, (t, Some b'))).
        unfold vait_next. rewrite E'. reflexivity.
      + exists xs. cbn [fst snd]. split; auto. exists []. rewrite mask_nil_r. auto.
    - destruct H as (xs & Hr & H). cbn [fst snd] in *. destruct xs; [|discriminate].
      destruct (ww_onil _ _ _ L _ Hr) as [E|(P & H1 & H2)].
      + left. unfold vait_next. rewrite E. reflexivity.
      + right. exists (fun t => P (fst t) /\ snd t = None). split; [auto|].
        intros [t tb] [Ht Hb]; cbn [fst snd] in *. subst tb. destruct (H2 t Ht) as (Hr' & t' & E & Ht').
        split; [exists []; auto|]. exists (t', None). split; [|auto].
        change (vait_next (k_onext K) (t, None) = Ret (None, (t', None))).
        unfold vait_next. rewrite E. reflexivity.
  Qed.

  (** Materializing, then dropping the values beyond the bitmap *)
  Definition wprep (v v1 : validity (cC K)) (b : bitmap) : Prop :=
    va_bm v1 = Some b /\ va_coll v1 = va_coll v /\ wva_inv v1 /\ wva_bits v1 = wva_bits v.
  Lemma wprep_self v b : wva_inv v -> va_bm v = Some b -> wprep v v b.
  Proof. intros H E. unfold wprep. split; [exact E|]. split; [reflexivity|]. split; [exact H|reflexivity]. Qed.
  Lemma wprep_all_set v b : wva_inv v -> va_bm v = None -> bm_ok b ->
    bm_abs b = repeat true (length (w_abs d (va_coll v))) ->
    wprep v (Validity (va_coll v) (Some b)) b.
  Proof.
    intros [Hc _] E Hb Ha. unfold wprep, wva_inv, wva_bits. cbn [va_bm va_coll].
    rewrite E, Ha, repeat_length. repeat split; auto; apply Hb.
  Qed.
  Lemma wva_materialize v v1 o : wva_inv v -> va_materialize K v = (v1, o) ->
    (o = ODone /\ exists b, wprep v v1 b) \/ (o = OAbort /\ v1 = v).
  Proof.
    intros Hv. unfold va_materialize. destruct (va_bm v) as [b|] eqn:Eb.
    - intros E; inversion E; subst. left. split; auto. exists b. apply wprep_self; auto.
    - rewrite (ww_len _ _ _ L _ (proj1 Hv)).
      pose proof (bm_all_set_spec (length (w_abs d (va_coll v)))) as H.
      pose proof (ww_max _ _ _ L _ (proj1 Hv)) as Hle. unfold lenN in Hle.
      destruct (bm_all_set _) as [b| | |]; try contradiction; try lia; intros E; inversion E; subst.
      left. split; auto. exists b. destruct H as (H1 & H2 & H3 & H4 & H5).
      apply wprep_all_set; auto.
  Qed.
  Lemma wva_try_materialize v w v1 o w' : wva_inv v -> va_try_materialize K v w = (v1, o, w') ->
    (o = ODone /\ exists b, wprep v v1 b) \/ (o = OErr /\ v1 = v).
  Proof.
    intros Hv. unfold va_try_materialize. destruct (va_bm v) as [b|] eqn:Eb.
    - intros E; inversion E; subst. left. split; auto. exists b. apply wprep_self; auto.
    - rewrite (ww_len _ _ _ L _ (proj1 Hv)).
      destruct (bm_try_all_set (length (w_abs d (va_coll v))) w) as [res w1] eqn:E1.
      apply bm_try_all_set_spec in E1.
      destruct res as [b| | |]; try contradiction; intros E; inversion E; subst.
      + left. split; auto. exists b. destruct E1 as (H1 & H2 & H3 & H4 & H5).
        apply wprep_all_set; auto.
      + right. auto.
  Qed.
  Definition wready (v : validity (cC K)) (c : cC K) (b : bitmap) : Prop :=
    w_inv d c /\ bm_ok b /\ length (w_abs d c) = length (bm_abs b) /\
    wva_abs v = mask (w_abs d c) (bm_abs b).
  Lemma wprep_ready v v1 b n : wprep v v1 b -> n = length (bm_abs b) ->
    exists c, k_truncate K (va_coll v1) (N.of_nat n) = (c, ODone) /\ wready v c b.
  Proof.
    intros (Hb & Hc & [Hi1 Hi2] & Ha) ->. unfold wva_bits in *. rewrite Hb in *.
    destruct (ww_truncate _ _ _ L (va_coll v1) (N.of_nat (length (bm_abs b))) Hi1) as (c & E & H1 & H3).
    exists c. split; auto. unfold wready. rewrite Nat2N.id in H3.
    split; [auto|]. split; [tauto|]. split.
    { rewrite H3, firstn_length. lia. }
    rewrite H3, mask_trunc by auto. unfold wva_abs, wva_bits. rewrite <- Ha, Hc. reflexivity.
  Qed.

  (** What a chunk appends *)
  Lemma osim_mask os ys : Forall2 (w_sim d) (map df os) ys ->
    Forall2 osim os (mask ys (map is_some os)).
  Proof.
    revert ys. induction os as [|o os IH]; intros ys H; inversion H; subst; [constructor|].
    cbn [map]. rewrite mask_cons. constructor; [|apply IH; assumption].
    destruct o; cbn [is_some osim]; [assumption|exact I].
  Qed.
  Lemma firstn_Forall2 {A B} (R : A -> B -> Prop) k : forall l l', Forall2 R l l' ->
    Forall2 R (firstn k l) (firstn k l').
  Proof. induction k; intros l l' H; [constructor|]. destruct H; cbn [firstn]; constructor; auto. Qed.
  (** [k'] values written, [k] bits recorded *)
  Lemma osim_part os ys k k' : k <= k' -> Forall2 (w_sim d) (firstn k' (map df os)) ys ->
    Forall2 osim (firstn k os) (mask ys (map is_some (firstn k os))).
  Proof.
    intros Hk H. apply (firstn_Forall2 _ k) in H. rewrite firstn_firstn, Nat.min_l in H by lia.
    rewrite firstn_map in H. apply osim_mask in H.
    rewrite mask_trunc in H; [exact H|]. rewrite map_length, firstn_length. lia.
  Qed.
  Definition wpart (c c' : cC K) (b b' : bitmap) (os : list (option (cA K))) : Prop :=
    exists k k' ys, k <= k' /\ k <= length os /\ Forall2 (w_sim d) (firstn k' (map df os)) ys /\
      grown d c c' ys /\ bm_step b b' (map is_some (firstn k os)).
  Lemma wpart_after c c1 c2 b b1 b2 os os' ys : Forall2 (w_sim d) (map df os) ys ->
    grown d c c1 ys -> bm_step b b1 (map is_some os) ->
    wpart c1 c2 b1 b2 os' -> wpart c c2 b b2 (os ++ os').
  Proof.
    intros Hs G S (k & k' & zs & Hk & Hl & Hz & G' & S').
    exists (length os + k), (length os + k'), (ys ++ zs). split; [lia|]. split; [rewrite app_length; lia|].
    split; [|split].
    - rewrite map_app, <- (map_length df os), firstn_app_2. apply Forall2_app; assumption.
    - exact (grown_trans d _ _ _ _ _ G G').
    - rewrite firstn_app_2, map_app. exact (bm_step_trans _ _ _ _ _ S S').
  Qed.
  Lemma wpart_prefix c c' b os os' : bm_ok b ->
    (exists k ys, Forall2 (w_sim d) (firstn k (map df os)) ys /\ grown d c c' ys) ->
    wpart c c' b b (os ++ os').
  Proof.
    intros Hb (k & ys & Hf & G). exists 0, (Nat.min k (length os)), ys. split; [lia|]. split; [lia|].
    split; [|split; [exact G|apply bm_step_refl; exact Hb]].
    rewrite map_app, firstn_app, map_length. replace (Nat.min k (length os) - length os) with 0 by lia.
    cbn [firstn]. rewrite app_nil_r.
    replace (firstn (Nat.min k (length os)) (map df os)) with (firstn k (map df os)); [exact Hf|].
    rewrite <- (map_length df os). rewrite <- (firstn_firstn (map df os) k). f_equal.
    symmetry. apply firstn_all.
  Qed.
  Lemma wpart_only c c' b os : bm_ok b ->
    (exists k ys, Forall2 (w_sim d) (firstn k (map df os)) ys /\ grown d c c' ys) ->
    wpart c c' b b os.
  Proof. intros Hb H. rewrite <- (app_nil_r os). apply wpart_prefix; assumption. Qed.

  Definition wfull (c c' : cC K) (b b' : bitmap) (os : list (option (cA K))) : Prop :=
    exists ys, Forall2 (w_sim d) (map df os) ys /\ grown d c c' ys /\ bm_step b b' (map is_some os).
  Lemma wfull_trans c c1 c2 b b1 b2 os os' ys : Forall2 (w_sim d) (map df os) ys ->
    grown d c c1 ys -> bm_step b b1 (map is_some os) ->
    wfull c1 c2 b1 b2 os' -> wfull c c2 b b2 (os ++ os').
  Proof.
    intros Hs G S (zs & Hz & G' & S'). exists (ys ++ zs). rewrite !map_app.
    split; [apply Forall2_app; assumption|]. split; [exact (grown_trans d _ _ _ _ _ G G')|].
    exact (bm_step_trans _ _ _ _ _ S S').
  Qed.

  Lemma wva_loop {R} : forall fuel c b (it : iter (option (cA K)) R) os e r c' b' r' o,
    w_inv d c -> bm_ok b -> Forall wt (map df os) -> run it = (os, e, r) ->
    length (it_tr it) < fuel -> va_extend_loop K fuel c b it = (c', b', r', o) ->
    match o with
    | ODone => e = FStop /\ r' = r /\ wfull c c' b b' os
    | OErr => False
    | OPanic => wpart c c' b b' os
    | OAbort => True
    end.
  Proof.
    induction fuel as [|fuel IH]; intros c b it os e r c' b' r' o Hc Hb Hwt Hr Hf; [lia|].
    cbn [va_extend_loop].
    destruct (k_extend K c (va_chunk K it)) as [[c1 [it1 vs]] o1] eqn:E1.
    destruct (va_chunk_run K it os e r Hr) as (it' & [(Hle & Hrc & Hr' & Hlen & _)|(Hlt & Hrc & Hsrc)]).
    - set (os1 := firstn chunk os) in *. set (os2 := skipn chunk os) in *.
      assert (Hos : os = os1 ++ os2) by (symmetry; apply firstn_skipn).
      assert (Hl1 : length os1 = chunk) by (unfold os1; rewrite firstn_length; lia).
      clearbody os1 os2. subst os. rewrite map_app in Hwt. apply Forall_app in Hwt.
      destruct Hwt as [Hw1 Hw2].
      pose proof (ww_extend _ _ _ L _ c _ _ _ _ _ _ _ Hc Hw1 Hrc E1) as H1.
      destruct o1; try contradiction.
      + destruct H1 as (_ & Ep & ys & Hs & G). inversion Ep; subst it1 vs; clear Ep.
        destruct (bm_extend b (it_list (map is_some os1))) as [[b1 ru] o2] eqn:E2.
        assert (Hl2' : length (map is_some os1) <= chunk) by (rewrite map_length; lia).
        destruct (bm_extend_list _ _ _ _ _ Hb Hl2' E2) as (Ho2 & Hst & _).
        destruct o2; try (destruct Ho2; discriminate).
        * specialize (Hst eq_refl). rewrite map_length, Hl1, Nat.ltb_irrefl.
          intros E. pose proof G as [G1 _].
          pose proof (IH c1 b1 it' os2 e r c' b' r' o G1 (proj1 Hst) Hw2 Hr' ltac:(lia) E) as HA.
          destruct o; try exact HA.
          -- destruct HA as (HA1 & HA2 & HA3). split; [exact HA1|]. split; [exact HA2|].
             eapply wfull_trans; eauto.
          -- eapply wpart_after; eauto.
        * intros E; inversion E; subst. exact I.
      + intros E; inversion E; subst. apply wpart_prefix; assumption.
      + intros E; inversion E; subst. exact I.
    - pose proof (ww_extend _ _ _ L _ c _ _ _ _ _ _ _ Hc Hwt Hrc E1) as H1.
      destruct o1; try contradiction.
      + destruct H1 as (-> & Ep & ys & Hs & G). inversion Ep; subst it1 vs; clear Ep.
        destruct (bm_extend b (it_list (map is_some os))) as [[b1 ru] o2] eqn:E2.
        assert (Hl2' : length (map is_some os) <= chunk) by (rewrite map_length; lia).
        destruct (bm_extend_list _ _ _ _ _ Hb Hl2' E2) as (Ho2 & Hst & _).
        destruct o2; try (destruct Ho2; discriminate).
        * specialize (Hst eq_refl). rewrite map_length.
          assert (Nat.ltb (length os) chunk = true) as -> by (apply Nat.ltb_lt; auto).
          intros E; inversion E; subst. split; [reflexivity|]. split; [reflexivity|].
          exists ys. auto.
        * intros E; inversion E; subst. exact I.
      + intros E; inversion E; subst. apply wpart_only; assumption.
      + intros E; inversion E; subst. exact I.
  Qed.

  Lemma wva_rollback c b len c' b' o : w_inv d c -> bm_ok b ->
    va_rollback K c b len = (c', b', o) ->
    o = OErr /\ w_inv d c' /\ w_abs d c' = firstn len (w_abs d c) /\ bm_ok b' /\
    bm_abs b' = firstn len (bm_abs b).
  Proof.
    intros Hc Hb. unfold va_rollback, va_truncate. cbn [va_bm va_coll option_map].
    destruct (ww_truncate _ _ _ L c (N.of_nat len) Hc) as (c1 & -> & H1 & H3).
    destruct (bm_truncate_spec b (N.of_nat len) Hb) as (G1 & G2 & _).
    intros E; inversion E; subst. rewrite Nat2N.id in *. auto 8.
  Qed.
  Definition wrolled (len : nat) (c c' : cC K) (b b' : bitmap) : Prop :=
    w_inv d c' /\ w_abs d c' = firstn len (w_abs d c) /\ bm_ok b' /\ bm_abs b' = firstn len (bm_abs b).
  Lemma firstn_grown {A} len (l ys : list A) : len <= length l -> firstn len (l ++ ys) = firstn len l.
  Proof.
    intros H. rewrite firstn_app. replace (len - length l) with 0 by lia. cbn [firstn]. apply app_nil_r.
  Qed.
  Lemma wva_try_loop {R} : forall fuel len c b (it : iter (option (cA K)) R) w os e r c' b' r' o w',
    w_inv d c -> bm_ok b -> len <= length (w_abs d c) -> len <= length (bm_abs b) ->
    Forall wt (map df os) -> run it = (os, e, r) ->
    length (it_tr it) < fuel -> va_try_extend_loop K fuel len c b it w = (c', b', r', o, w') ->
    match o with
    | ODone => e = FStop /\ r' = r /\ wfull c c' b b' os
    | OErr => wrolled len c c' b b'
    | OPanic => e = FBoom /\ wpart c c' b b' os
    | OAbort => False
    end.
  Proof.
    induction fuel as [|fuel IH];
      intros len c b it w os e r c' b' r' o w' Hc Hb Hlc Hlb Hwt Hr Hf; [lia|].
    cbn [va_try_extend_loop].
    destruct (k_try_extend K c (va_chunk K it) w) as [[[c1 [it1 vs]] o1] w1] eqn:E1.
    destruct (va_chunk_run K it os e r Hr) as (it' & [(Hle & Hrc & Hr' & Hlen & _)|(Hlt & Hrc & Hsrc)]).
    - set (os1 := firstn chunk os) in *. set (os2 := skipn chunk os) in *.
      assert (Hos : os = os1 ++ os2) by (symmetry; apply firstn_skipn).
      assert (Hl1 : length os1 = chunk) by (unfold os1; rewrite firstn_length; lia).
      clearbody os1 os2. subst os. rewrite map_app in Hwt. apply Forall_app in Hwt.
      destruct Hwt as [Hw1 Hw2].
      pose proof (ww_try_extend _ _ _ L _ c _ _ _ _ _ _ _ _ _ Hc Hw1 Hrc E1) as H1.
      destruct o1; try contradiction.
      + destruct H1 as (_ & Ep & ys & Hs & G). inversion Ep; subst it1 vs; clear Ep.
        pose proof G as [F1 F3].
        destruct (bm_try_extend b (it_list (map is_some os1)) w1) as [[[b1 ru] o2] w2] eqn:E2.
        pose proof (bm_try_extend_list _ _ _ _ _ _ _ Hb E2) as Hst.
        destruct o2; try contradiction.
        * rewrite map_length, Hl1, Nat.ltb_irrefl. intros E.
          pose proof Hst as (S1 & S2 & S3 & S4 & S5).
          apply IH with (os := os2) (e := e) (r := r) in E; auto.
          2:{ rewrite F3, app_length. lia. }
          2:{ rewrite S3, app_length. lia. }
          2:{ lia. }
          destruct o; try exact E.
          -- destruct E as (HA1 & HA2 & HA3). split; [exact HA1|]. split; [exact HA2|].
             eapply wfull_trans; eauto.
          -- destruct E as (X1 & X2 & X3 & X4). unfold wrolled.
             rewrite F3, firstn_grown in X2 by exact Hlc. rewrite S3, firstn_grown in X4 by exact Hlb. auto.
          -- destruct E as (HA1 & HA2). split; [exact HA1|]. eapply wpart_after; eauto.
        * destruct Hst as (S1 & S2 & S3 & S4).
          destruct (va_rollback K c1 b1 len) as [[c2 b2] o3] eqn:E3.
          destruct (wva_rollback _ _ _ _ _ _ F1 S1 E3) as (-> & X1 & X2 & X3 & X4).
          intros E; inversion E; subst. unfold wrolled.
          rewrite F3, firstn_grown in X2 by exact Hlc. rewrite S3 in X4. auto.
      + destruct H1 as [Y1 Y3].
        destruct (va_rollback K c1 b len) as [[c2 b2] o3] eqn:E3.
        destruct (wva_rollback _ _ _ _ _ _ Y1 Hb E3) as (-> & X1 & X2 & X3 & X4).
        intros E; inversion E; subst. unfold wrolled. rewrite Y3 in X2. auto.
      + destruct H1 as [H1 _]. discriminate.
    - pose proof (ww_try_extend _ _ _ L _ c _ _ _ _ _ _ _ _ _ Hc Hwt Hrc E1) as H1.
      destruct o1; try contradiction.
      + destruct H1 as (-> & Ep & ys & Hs & G). inversion Ep; subst it1 vs; clear Ep.
        pose proof G as [F1 F3].
        destruct (bm_try_extend b (it_list (map is_some os)) w1) as [[[b1 ru] o2] w2] eqn:E2.
        pose proof (bm_try_extend_list _ _ _ _ _ _ _ Hb E2) as Hst.
        destruct o2; try contradiction.
        * rewrite map_length.
          assert (Nat.ltb (length os) chunk = true) as -> by (apply Nat.ltb_lt; auto).
          intros E; inversion E; subst. split; [reflexivity|]. split; [reflexivity|].
          exists ys. auto.
        * destruct Hst as (S1 & S2 & S3 & S4).
          destruct (va_rollback K c1 b1 len) as [[c2 b2] o3] eqn:E3.
          destruct (wva_rollback _ _ _ _ _ _ F1 S1 E3) as (-> & X1 & X2 & X3 & X4).
          intros E; inversion E; subst. unfold wrolled.
          rewrite F3, firstn_grown in X2 by exact Hlc. rewrite S3 in X4. auto.
      + destruct H1 as [Y1 Y3].
        destruct (va_rollback K c1 b len) as [[c2 b2] o3] eqn:E3.
        destruct (wva_rollback _ _ _ _ _ _ Y1 Hb E3) as (-> & X1 & X2 & X3 & X4).
        intros E; inversion E; subst. unfold wrolled. rewrite Y3 in X2. auto.
      + destruct H1 as [-> H2]. intros E; inversion E; subst. split; [reflexivity|].
        apply wpart_only; assumption.
  Qed.

  (** From the pieces to the whole *)
  Lemma wready_full v c b c' b' os : wready v c b -> wfull c c' b b' os ->
    exists zs, Forall2 osim os zs /\ grown wvalidity v (Validity c' (Some b')) zs.
  Proof.
    intros (R1 & R2 & R4 & R5) (ys & Hs & [G1 G2] & S1 & S2 & S3 & _).
    exists (mask ys (map is_some os)). split; [exact (osim_mask _ _ Hs)|].
    apply Forall2_length' in Hs. rewrite map_length in Hs.
    unfold grown, wvalidity; cbn [w_inv w_abs]. unfold wva_inv, wva_abs at 1, wva_bits.
    cbn [va_bm va_coll]. rewrite G2, S3, !app_length, map_length.
    split; [split; [exact G1|split; [exact S1|lia]]|].
    rewrite mask_app, R5 by exact R4. reflexivity.
  Qed.
  Lemma wready_part v c b c' b' os : wready v c b -> wpart c c' b b' os ->
    exists k zs, Forall2 osim (firstn k os) zs /\ grown wvalidity v (Validity c' (Some b')) zs.
  Proof.
    intros (R1 & R2 & R4 & R5) (k & k' & ys & Hk & Hl & Hs & [G1 G2] & S1 & S2 & S3 & _).
    exists k, (mask ys (map is_some (firstn k os))). split; [exact (osim_part _ _ _ _ Hk Hs)|].
    apply Forall2_length' in Hs. rewrite firstn_length, map_length in Hs.
    unfold grown, wvalidity; cbn [w_inv w_abs]. unfold wva_inv, wva_abs at 1, wva_bits.
    cbn [va_bm va_coll]. rewrite G2, S3, !app_length, map_length, firstn_length.
    split; [split; [exact G1|split; [exact S1|lia]]|].
    rewrite mask_app, R5 by exact R4. reflexivity.
  Qed.
  Lemma wkept_of v v1 b c' b' : wprep v v1 b -> w_inv d c' -> w_abs d c' = w_abs d (va_coll v1) ->
    bm_ok b' -> bm_abs b' = bm_abs b -> kept wvalidity v (Validity c' (Some b')).
  Proof.
    intros (Hb & Hc & [Hi1 Hi2] & Ha) H1 H2 H3 H4. unfold wva_bits in *. rewrite Hb in *.
    unfold kept, wvalidity; cbn [w_inv w_abs]. unfold wva_inv, wva_abs, wva_bits. cbn [va_bm va_coll].
    rewrite H2, H4. split; [tauto|]. rewrite <- Ha, Hc. reflexivity.
  Qed.

  Lemma wvalidity_laws : WLaws (validity_coll K) (owt : cA (validity_coll K) -> Prop) wvalidity.
  Proof.
    split; unfold validity_coll; law_cbn.
    - exact I.
    - intros v Hv. pose proof (ww_max _ _ _ L _ (proj1 Hv)).
      change (lenN (wva_abs v) <= 8 * alloc_max)%N.
      unfold lenN in *. rewrite wva_abs_length by auto. pose proof (wva_bits_le v Hv). lia.
    - apply wva_len.
    - apply wva_view.
    - intros v [Hc Hb]. unfold va_iter. destruct (ww_iter _ _ _ L _ Hc) as (s & -> & Hs).
      cbn [obind]. eexists; split; [reflexivity|].
      exists (w_abs d (va_coll v)). cbn [fst snd]. split; auto.
      unfold wvalidity; cbn [w_abs]. unfold wva_abs, wva_bits.
      destruct (va_bm v) as [b|]; cbn [option_map].
      + exists (bm_abs b). split; [apply birep_new; tauto|]. tauto.
      + apply mask_true.
    - intros s o os H. destruct (va_rep_cons K (w_irep d) (k_inext K) (fun v x => k_own K v = Ret x)
        (ww_icons _ _ _ L) s o os H) as (v & s' & E & Hv & Hs).
      exists v, s'. split; [auto|]. split; [|auto].
      destruct v as [v|], o as [x|]; try contradiction; cbn [va_own]; [rewrite Hv|]; reflexivity.
    - intros s H. exact (va_rep_nil K _ _ (ww_inil _ _ _ L) s H).
    - intros s os H. exact (va_rep_hint K _ _ (ww_ihint _ _ _ L) s os H).
    - intros v [Hc Hb]. unfold va_into. destruct (ww_into _ _ _ L _ Hc) as (s & -> & Hs).
      cbn [obind]. eexists; split; [reflexivity|].
      exists (w_abs d (va_coll v)). cbn [fst snd]. split; auto.
      unfold wvalidity; cbn [w_abs]. unfold wva_abs, wva_bits.
      destruct (va_bm v) as [b|]; cbn [option_map].
      + exists (bm_abs b). split; [apply birep_new; tauto|]. tauto.
      + apply mask_true.
    - intros s o os H.
      destruct (va_rep_cons K (w_orep d) (k_onext K) eq) with (s := s) (o := o) (os := os)
        as (v & s' & E & Hv & Hs); auto.
      { intros s1 x xs Hr. destruct (ww_ocons _ _ _ L _ _ _ Hr) as (s2 & ? & ?). eauto. }
      exists s'. split; [|auto]. rewrite E.
      destruct v as [v|], o as [x|]; try contradiction; congruence.
    - exact wva_onil.
    - intros s os H. exact (va_rep_hint K _ _ (ww_ohint _ _ _ L) s os H).
    - intros R v it os e r v' r' o Hv Hwt Hr. unfold va_extend.
      destruct (va_materialize K v) as [v1 o1] eqn:E1.
      destruct (wva_materialize _ _ _ Hv E1) as [(-> & b & Hp)|(-> & ->)].
      2:{ intros E; inversion E; subst. exact I. }
      pose proof Hp as (Hb & _ & Hi & _). rewrite Hb.
      assert (Hbo : bm_ok b) by (destruct Hi as [_ Hi]; rewrite Hb in Hi; apply Hi).
      destruct (wprep_ready v v1 b (bm_len b) Hp) as (c & -> & Hrdy).
      { unfold bm_len. rewrite bm_abs_length; auto. }
      destruct (va_extend_loop K (S (length (it_tr it))) c b it) as [[[c3 b3] r3] o3] eqn:E3.
      pose proof (wva_loop _ _ _ _ _ _ _ _ _ _ _ (proj1 Hrdy) Hbo (wva_wt os Hwt) Hr (Nat.lt_succ_diag_r _) E3) as H.
      intros E; inversion E; subst. destruct o; try exact H.
      + destruct H as (H1 & H2 & H3). split; [exact H1|]. split; [exact H2|].
        exact (wready_full _ _ _ _ _ _ Hrdy H3).
      + exact (wready_part _ _ _ _ _ _ Hrdy H).
    - intros R v it w os e r v' r' o w' Hv Hwt Hr. unfold va_try_extend.
      rewrite (wva_len v Hv).
      destruct (va_try_materialize K v w) as [[v1 o1] w1] eqn:E1.
      destruct (wva_try_materialize _ _ _ _ _ Hv E1) as [(-> & b & Hp)|(-> & ->)].
      2:{ intros E; inversion E; subst. split; [exact Hv|reflexivity]. }
      pose proof Hp as (Hb & _ & Hi & Hbi). rewrite Hb.
      assert (Hbo : bm_ok b) by (destruct Hi as [_ Hi]; rewrite Hb in Hi; apply Hi).
      assert (Hlen : length (wva_abs v) = length (bm_abs b)).
      { rewrite wva_abs_length, <- Hbi by exact Hv. unfold wva_bits. rewrite Hb. reflexivity. }
      destruct (wprep_ready v v1 b (length (wva_abs v)) Hp Hlen) as (c & -> & Hrdy).
      destruct (va_try_extend_loop K (S (length (it_tr it))) (length (wva_abs v)) c b it w1)
        as [[[[c3 b3] r3] o3] w3] eqn:E3.
      pose proof Hrdy as (Y1 & Y2 & Y3 & Y4).
      assert (Z1 : length (wva_abs v) <= length (w_abs d c)) by (rewrite Y3, Hlen; lia).
      assert (Z2 : length (wva_abs v) <= length (bm_abs b)) by (rewrite Hlen; lia).
      pose proof (wva_try_loop _ _ _ _ _ _ _ _ _ _ _ _ _ _ Y1 Hbo Z1 Z2 (wva_wt os Hwt) Hr (Nat.lt_succ_diag_r _) E3) as H.
      intros E; inversion E; subst. destruct o; try exact H.
      + destruct H as (H1 & H2 & H3). split; [exact H1|]. split; [exact H2|].
        exact (wready_full _ _ _ _ _ _ Hrdy H3).
      + destruct H as (X1 & X2 & X3 & X4).
        rewrite firstn_all2 in X2 by lia. rewrite firstn_all2 in X4 by lia.
        unfold kept, wvalidity; cbn [w_inv w_abs]. unfold wva_inv, wva_abs at 1, wva_bits.
        cbn [va_bm va_coll]. rewrite X2, X4, Y3, <- Y4. split; [|reflexivity].
        split; [exact X1|]. split; [exact X3|lia].
      + destruct H as [H1 H2]. split; [exact H1|]. exact (wready_part _ _ _ _ _ _ Hrdy H2).
    - intros v n v' o Hv. unfold va_reserve.
      destruct (va_materialize K v) as [v1 o1] eqn:E1.
      destruct (wva_materialize _ _ _ Hv E1) as [(-> & b & Hp)|(-> & ->)].
      + pose proof Hp as (Hb & Hc & [Hi1 Hi2] & Hbits). rewrite Hb in *.
        destruct Hi2 as [Hok Hle].
        destruct (bm_reserve b n) as [b2 o2] eqn:E2.
        destruct (bm_reserve_spec _ _ _ _ Hok E2) as (B1 & B2 & B3 & B4 & B5 & B6).
        destruct o2; try congruence.
        * destruct (k_reserve K (va_coll v1) n) as [c3 o3] eqn:E3.
          destruct (ww_reserve _ _ _ L _ _ _ _ Hi1 E3) as ([C1 C2] & C3).
          intros E; inversion E; subst. split; [|exact C3]. eapply wkept_of; eauto.
        * intros E; inversion E; subst. split; [|discriminate]. eapply wkept_of; eauto.
        * intros E; inversion E; subst. split; [|discriminate]. eapply wkept_of; eauto.
      + intros E; inversion E; subst. split; [split; [exact Hv|reflexivity]|discriminate].
    - intros v n w v' o w' Hv. unfold va_try_reserve.
      destruct (va_try_materialize K v w) as [[v1 o1] w1] eqn:E1.
      destruct (wva_try_materialize _ _ _ _ _ Hv E1) as [(-> & b & Hp)|(-> & ->)].
      + pose proof Hp as (Hb & Hc & [Hi1 Hi2] & Hbits). rewrite Hb in *.
        destruct Hi2 as [Hok Hle].
        destruct (k_try_reserve K (va_coll v1) n w1) as [[c2 o2] w2] eqn:E2.
        destruct (ww_try_reserve _ _ _ L _ _ _ _ _ _ Hi1 E2) as ([C1 C2] & [->| ->]).
        * destruct (bm_try_reserve b n w2) as [[b3 o3] w3] eqn:E3.
          destruct (bm_try_reserve_spec _ _ _ _ _ _ Hok E3) as (B1 & B2 & B3 & B4 & B5 & B6).
          intros E; inversion E; subst. split; [eapply wkept_of; eauto|].
          destruct o; auto; contradiction.
        * intros E; inversion E; subst. split; [eapply wkept_of; eauto|auto].
      + intros E; inversion E; subst. split; [split; [exact Hv|reflexivity]|auto].
    - intros v n [Hc Hb]. unfold va_truncate.
      destruct (ww_truncate _ _ _ L (va_coll v) n Hc) as (c' & -> & H1 & H2).
      eexists. split; [reflexivity|]. unfold wvalidity; cbn [w_inv w_abs].
      unfold wva_inv, wva_abs, wva_bits. cbn [va_bm va_coll]. rewrite H2.
      destruct (va_bm v) as [b|]; cbn [option_map].
      + destruct Hb as [Hb Hl]. destruct (bm_truncate_spec b n Hb) as (G1 & G2 & _).
        rewrite G2, !firstn_length. split; [split; [exact H1|split; [exact G1|lia]]|].
        apply mask_firstn.
      + split; [auto|]. rewrite mask_true, mask_true. symmetry; apply firstn_map.
  Qed.
End Null.
