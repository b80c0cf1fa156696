(** * Nullable collections whose values and validity bits are equally many.

    A panicking extension may leave values without a bit (they are dropped by
    the next extension). Everything else keeps the two lengths equal: the laws
    hold for the stronger invariant, with no promise about panics. *)
From Coq Require Import List NArith ZArith Bool Arith Lia ZifyBool ZifyNat ZifyN.
From Verif Require Import Base Iter Spec VecModel BitmapModel CollModel ValidityModel
  IterLemmas VecLemmas BitmapLemmas BitmapLemmas2 Laws LawsBase LawsValidity.
Import ListNotations.

Local Arguments N.add : simpl never.
Local Arguments N.mul : simpl never.

Section Sealed.
  Context (K : Coll) (d : LD K) (L : Laws K d).

  Definition whole (v : validity (cC K)) : Prop :=
    match va_bm v with
    | Some b => length (bm_abs b) = length (l_abs d (va_coll v))
    | None => True
    end.
  Definition sealed_ld : LD (validity_coll K) := {|
    l_wt := l_wt (validity_ld K d);
    l_inv := fun v : cC (validity_coll K) => va_inv K d v /\ whole v;
    l_abs := l_abs (validity_ld K d);
    l_irep := l_irep (validity_ld K d);
    l_orep := l_orep (validity_ld K d);
    l_voff := l_voff (validity_ld K d);
    l_usage := l_usage (validity_ld K d);
    l_wgt := l_wgt (validity_ld K d);
    l_cfac := l_cfac (validity_ld K d);
    l_lim := l_lim (validity_ld K d);
    l_psafe := fun _ _ => false;
    l_gran := l_gran (validity_ld K d);
    l_nofuse := l_nofuse (validity_ld K d);
    l_nofuse_try := l_nofuse_try (validity_ld K d);
    l_oob := l_oob (validity_ld K d);
  |}.

  Lemma whole_ready v c b c' b' os : ready K d v c b ->
    full_ext d c c' (map (dflt K) os) -> bm_step b b' (map is_some os) ->
    whole (Validity c' (Some b')).
  Proof.
    intros (_ & _ & _ & R4 & _) (_ & _ & H3 & _) (_ & _ & S3 & _).
    unfold whole. cbn [va_bm va_coll]. rewrite H3, S3, !app_length, !map_length. lia.
  Qed.
  Lemma whole_prep v v1 b : prep K d v v1 b -> whole v ->
    length (bm_abs b) = length (l_abs d (va_coll v1)).
  Proof.
    intros (Hb & Hc & _ & Hbits & _) Hw. rewrite Hc. unfold va_bits in Hbits. rewrite Hb in Hbits.
    rewrite Hbits. unfold whole in Hw. destruct (va_bm v); [auto|apply repeat_length].
  Qed.

  Lemma extend_whole {R} v (it : iter (option (cA K)) R) os e r v' r' :
    va_inv K d v -> Forall (l_wt d) (map (dflt K) os) -> run it = (os, e, r) ->
    va_extend K v it = (v', r', ODone) -> whole v'.
  Proof.
    intros Hv Hwt Hr. unfold va_extend.
    destruct (va_materialize K v) as [v1 o1] eqn:E1.
    destruct (va_materialize_spec K d L _ _ _ Hv E1) as [(-> & b & Hp)|(-> & -> & Hbig)].
    - pose proof Hp as (Hb & _ & [_ Hok] & _). rewrite Hb in *.
      destruct (prep_ready K d L _ _ _ (bm_len b) Hp) as (c2 & -> & Hrd).
      { unfold bm_len. rewrite bm_abs_length; tauto. }
      destruct (va_extend_loop K _ c2 b it) as [[[c3 b3] r3] o3] eqn:E3.
      pose proof Hrd as (R1 & R2 & R3 & _).
      destruct (va_loop_spec K d L _ _ _ _ _ _ _ _ _ _ _ R1 R2 Hwt Hr (Nat.lt_succ_diag_r _) E3)
        as [H1 _].
      intros E; inversion E; subst; clear E. destruct H1 as (_ & _ & H3 & H4).
      eapply whole_ready; eauto.
    - discriminate.
  Qed.
  Lemma try_extend_whole {R} v (it : iter (option (cA K)) R) w os e r v' r' o w' :
    va_inv K d v -> Forall (l_wt d) (map (dflt K) os) -> run it = (os, e, r) ->
    va_try_extend K v it w = (v', r', o, w') ->
    (o = ODone -> whole v') /\ (o = OErr -> whole v -> whole v').
  Proof.
    intros Hv Hwt Hr. unfold va_try_extend.
    rewrite (va_len_spec K d L v Hv), va_abs_length by auto.
    destruct (va_try_materialize K v w) as [[v1 o1] w1] eqn:E1.
    destruct (va_try_materialize_spec K d L _ _ _ _ _ Hv E1) as [(-> & b & Hp)|(-> & ->)].
    - pose proof Hp as (Hb & _ & [_ Hok] & Hbits & _). rewrite Hb in *.
      rewrite <- Hbits. unfold va_bits. rewrite Hb.
      destruct (prep_ready K d L _ _ _ (length (bm_abs b)) Hp eq_refl) as (c2 & -> & Hrd).
      destruct (va_try_extend_loop K _ _ c2 b it w1) as [[[[c3 b3] r3] o3] w3] eqn:E3.
      pose proof Hrd as (R1 & R2 & R3 & R4 & R5 & R6).
      apply (va_try_loop_spec K d L) with (os := os) (e := e) (r := r) in E3; auto; try lia.
      intros E; inversion E; subst; clear E. split; intros ->.
      + destruct E3 as (_ & _ & H3 & H4). eapply whole_ready; eauto.
      + intros _. destruct E3 as (_ & _ & X3 & _ & _ & _ & X7 & _).
        unfold whole. cbn [va_bm va_coll]. rewrite X3, X7, !firstn_length. lia.
    - intros E; inversion E; subst. split; [discriminate|auto].
  Qed.

  Lemma collect_whole (f : forall R, iter (cA K) R -> bres (cC K) * R) : collects d f ->
    forall R (it : iter (option (cA K)) R) os e r v r',
    l_nofuse d = true \/ fused it -> Forall (l_wt d) (map (dflt K) os) ->
    run it = (os, e, r) -> va_collect K f it = (BOk v, r') -> whole v.
  Proof.
    intros Hf R it os e r v r' Hfu Hwt Hr. unfold va_collect.
    pose proof (bm_with_capacity_spec (upper_or_lower (it_hint it))) as Hw.
    destruct (bm_with_capacity (upper_or_lower (it_hint it))) as [b0| | |] eqn:Ew;
      try discriminate.
    destruct Hw as (Hb0 & Ha0 & Ho0 & Hu0).
    destruct (f (R * bitmap)%type
      (it_map (unwrap_or (k_item0 K)) (it_inspect (push_bit K) b0 it)))
      as [res1 [r1 b1]] eqn:E1.
    destruct res1 as [c| | |]; cbn [bmap]; try discriminate.
    intros E; inversion E; subst; clear E.
    pose proof (insp_push K os b0 Hb0) as Hi.
    assert (Hfu' : l_nofuse d = true \/
      fused (it_map (unwrap_or (k_item0 K)) (it_inspect (push_bit K) b0 it))).
    { destruct Hfu; auto. right. apply fused_map, fused_inspect; auto. }
    destruct (insp (push_bit K) b0 os) as [b'|] eqn:Ei.
    - pose proof (run_inspect _ _ _ _ _ _ _ Hr Ei) as Hr1.
      pose proof (run_map (unwrap_or (k_item0 K)) _ _ _ _ Hr1) as Hr2.
      destruct (Hf _ _ _ _ _ _ _ Hfu' Hwt Hr2 E1) as [(-> & H3 & H4 & (F1 & F2 & F3 & F4)) _].
      assert (Hb1 : b1 = b').
      { destruct Hfu as [Hn|Hn].
        - specialize (H3 Hn). congruence.
        - assert (Hin : In (r', b1) (after (it_inspect (push_bit K) b0 it))).
          { rewrite <- (after_map (unwrap_or (k_item0 K))). apply H4.
            apply fused_map, fused_inspect; auto. }
          eapply (after_inspect _ _ _ _ _ _ _ Hn Hr Ei) in Hin. apply Hin. }
      subst b1. destruct Hi as (_ & _ & S3 & _). rewrite Ha0 in S3. cbn [app] in S3.
      unfold whole. cbn [va_bm va_coll]. rewrite F3, S3, !map_length. reflexivity.
    - destruct (run_inspect_none _ _ _ _ _ _ Hr Ei) as (k & rr & Hr1).
      pose proof (run_map (unwrap_or (k_item0 K)) _ _ _ _ Hr1) as Hr2.
      assert (Hwt' : Forall (l_wt d) (map (unwrap_or (k_item0 K)) (firstn k os))).
      { rewrite <- firstn_map. apply Forall_firstn; auto. }
      destruct (Hf _ _ _ _ _ _ _ Hfu' Hwt' Hr2 E1) as [(H1 & _) _]. discriminate.
  Qed.

  Lemma fresh_whole v os : fresh (validity_ld K d) v os -> whole v -> fresh sealed_ld v os.
  Proof. intros (H1 & H2 & H3 & H4) Hw. exact (conj (conj H1 Hw) (conj H2 (conj H3 H4))). Qed.
  Lemma full_whole v v' os : full_ext (validity_ld K d) v v' os -> whole v' ->
    full_ext sealed_ld v v' os.
  Proof. intros (H1 & H2 & H3 & H4) Hw. exact (conj (conj H1 Hw) (conj H2 (conj H3 H4))). Qed.
  Lemma same_whole v v' : same_items (validity_ld K d) v v' -> whole v' ->
    same_items sealed_ld v v'.
  Proof. intros (H1 & H2 & H3 & H4) Hw. exact (conj (conj H1 Hw) (conj H2 (conj H3 H4))). Qed.

  Lemma sealed_collects (f : forall R, iter (cA K) R -> bres (cC K) * R) : collects d f ->
    collects sealed_ld (fun R => va_collect K f).
  Proof.
    intros Hf R it os e r res r' Hfu Hwt Hr E.
    destruct (va_collects K d L f Hf R it os e r res r' Hfu Hwt Hr E) as [H1 H2].
    split; [|exact H2]. destruct res as [v| | |]; auto.
    destruct H1 as (A1 & A2 & A3 & A4). split; [exact A1|]. split; [exact A2|].
    split; [exact A3|]. apply fresh_whole; [exact A4|].
    apply (collect_whole f Hf R it os e r v r' Hfu); auto. apply (va_wt_dflt K d L). exact Hwt.
  Qed.

  Lemma sealed_laws : Laws (validity_coll K) sealed_ld.
  Proof.
    pose proof (validity_laws K d L) as V. split; unfold validity_coll; law_cbn.
    - exact (lw_item0 _ _ V).
    - exact (lw_cfac1 _ _ V).
    - exact (lw_cfac _ _ V).
    - exact (lw_lim _ _ V).
    - intros v [Hv _]. exact (lw_abs_wt _ _ V v Hv).
    - intros v [Hv _]. exact (lw_abs_len _ _ V v Hv).
    - intros v [Hv _]. exact (lw_usage _ _ V v Hv).
    - apply fresh_whole; [exact (lw_default _ _ V)|exact I].
    - intros v [Hv _]. exact (lw_len _ _ V v Hv).
    - intros v i x [Hv _]. exact (lw_view _ _ V v i x Hv).
    - intros v i [Hv _]. exact (lw_view_out _ _ V v i Hv).
    - intros v [Hv _]. exact (lw_iter _ _ V v Hv).
    - exact (lw_icons _ _ V).
    - exact (lw_inil _ _ V).
    - exact (lw_ihint _ _ V).
    - intros v [Hv _]. exact (lw_into _ _ V v Hv).
    - exact (lw_ocons _ _ V).
    - exact (lw_onil _ _ V).
    - exact (lw_ohint _ _ V).
    - intros n. destruct (lw_with_capacity _ _ V n) as [H1 H2]. split; [|exact H2].
      change (k_with_capacity (validity_coll K) n) with (va_with_capacity K n) in H1.
      destruct (va_with_capacity K n) as [v| | |] eqn:E; auto. apply fresh_whole; [exact H1|].
      unfold va_with_capacity in E. destruct (k_with_capacity K n) as [c| | |] eqn:Ec; try discriminate.
      pose proof (lw_with_capacity _ _ L n) as [Hc _]. rewrite Ec in Hc.
      pose proof (bm_with_capacity_spec n) as Hb. destruct (bm_with_capacity n) as [b| | |];
        try discriminate. inversion E; subst. unfold whole. cbn [va_bm va_coll].
      destruct Hc as (_ & _ & -> & _). destruct Hb as (_ & -> & _). reflexivity.
    - intros n w res w' E. pose proof (lw_try_with_capacity _ _ V n w res w' E) as H1.
      destruct res as [v| | |]; auto. apply fresh_whole; [exact H1|].
      unfold va_try_with_capacity in E.
      destruct (k_try_with_capacity K n w) as [[c| | |] w1] eqn:Ec; try discriminate.
      pose proof (lw_try_with_capacity _ _ L _ _ _ _ Ec) as Hc.
      destruct (bm_try_with_capacity n w1) as [rb w2] eqn:Eb. apply bm_try_with_capacity_spec in Eb.
      destruct rb as [b| | |]; try discriminate. inversion E; subst. unfold whole. cbn [va_bm va_coll].
      destruct Hc as (_ & _ & -> & _). destruct Eb as (_ & -> & _). reflexivity.
    - apply (sealed_collects (fun R => @k_from_iter K R)), (lw_from_iter _ _ L).
    - apply (sealed_collects (fun R => @k_from_iter_in K R)), (lw_from_iter_in _ _ L).
    - intros R it w os e r res r' w' Hfu Hwt Hr E.
      pose proof (lw_try_from_iter _ _ V R it w os e r res r' w' Hfu Hwt Hr E) as H1.
      destruct res as [v| | |]; auto. destruct H1 as (A1 & A2 & A3). split; [exact A1|].
      split; [|exact A3]. apply fresh_whole; [exact A2|]. unfold va_try_from_iter in E.
      destruct (va_try_with_capacity K (upper_or_lower (it_hint it)) w) as [res1 w1] eqn:E1.
      pose proof (lw_try_with_capacity _ _ V _ _ _ _ E1) as H1.
      destruct res1 as [v0| | |]; try discriminate.
      destruct (va_try_extend K v0 it w1) as [[[v' r1] o] w3] eqn:E3.
      destruct o; try discriminate. inversion E; subst.
      assert (Hwt' : Forall (l_wt d) (map (dflt K) os)) by (apply (va_wt_dflt K d L); exact Hwt).
      apply (proj1 (try_extend_whole v0 it w1 os _ _ v _ ODone _ (proj1 H1) Hwt' Hr E3) eq_refl).
    - intros R v it os e r v' r' o [Hv Hw] Hwt Hr E.
      destruct (lw_extend _ _ V R v it os e r v' r' o Hv Hwt Hr E) as [H1 H2].
      split; [|exact H2]. destruct o; auto.
      + destruct H1 as (A1 & A2 & A3). split; [exact A1|]. split; [exact A2|].
        apply full_whole; [exact A3|].
        eapply extend_whole; [exact Hv| |exact Hr|exact E]. apply (va_wt_dflt K d L). exact Hwt.
      + intros s _ Hs. discriminate Hs.
    - intros R v it w os e r v' r' o w' [Hv Hw] Hwt Hr E.
      pose proof (lw_try_extend _ _ V R v it w os e r v' r' o w' Hv Hwt Hr E) as H1.
      assert (Hwt' : Forall (l_wt d) (map (dflt K) os)) by (apply (va_wt_dflt K d L); exact Hwt).
      destruct (try_extend_whole v it w os e r v' r' o w' Hv Hwt' Hr E) as [W1 W2].
      destruct o; auto.
      + destruct H1 as (A1 & A2 & A3). split; [exact A1|]. split; [exact A2|].
        apply full_whole; auto.
      + destruct H1 as (A1 & A2 & A3 & A4). split; [split; [exact A1|auto]|].
        split; [exact A2|]. split; [exact A3|exact A4].
      + destruct H1 as [A1 _]. split; [exact A1|]. intros Hs. discriminate Hs.
    - intros v n v' o [Hv Hw] E.
      destruct (lw_reserve _ _ V v n v' o Hv E) as (H1 & H2 & H3).
      split; [|split; [exact H2|exact H3]]. apply same_whole; [exact H1|].
      unfold va_reserve in E. destruct (va_materialize K v) as [v1 o1] eqn:E1.
      destruct (va_materialize_spec K d L _ _ _ Hv E1) as [(-> & b & Hp)|(-> & -> & Hbig)].
      + pose proof (whole_prep _ _ _ Hp Hw) as Hl. pose proof Hp as (Hb & _ & [Hi1 Hi2] & _).
        rewrite Hb in *. destruct (bm_reserve b n) as [b2 o2] eqn:E2.
        destruct (bm_reserve_spec _ _ _ _ (proj1 Hi2) E2) as (B1 & B2 & _).
        assert (Hn : v' = Validity (va_coll v1) (Some b2) \/
          exists c3, v' = Validity c3 (Some b2) /\ l_abs d c3 = l_abs d (va_coll v1)).
        { destruct o2; try (inversion E; auto; fail).
          destruct (k_reserve K (va_coll v1) n) as [c3 o3] eqn:E3.
          destruct (lw_reserve _ _ L _ _ _ _ Hi1 E3) as ((C1 & C2 & C3 & C4) & _).
          inversion E; subst. right. eauto. }
        unfold whole. destruct Hn as [-> | (c3 & -> & C3)]; cbn [va_bm va_coll]; rewrite B2, ?C3; exact Hl.
      + inversion E; subst. exact Hw.
    - intros v n w v' o w' [Hv Hw] E.
      destruct (lw_try_reserve _ _ V v n w v' o w' Hv E) as (H1 & H2).
      split; [|exact H2]. apply same_whole; [exact H1|].
      unfold va_try_reserve in E. destruct (va_try_materialize K v w) as [[v1 o1] w1] eqn:E1.
      destruct (va_try_materialize_spec K d L _ _ _ _ _ Hv E1) as [(-> & b & Hp)|(-> & ->)].
      + pose proof (whole_prep _ _ _ Hp Hw) as Hl. pose proof Hp as (Hb & _ & [Hi1 Hi2] & _).
        rewrite Hb in *. destruct (k_try_reserve K (va_coll v1) n w1) as [[c2 o2] w2] eqn:E2.
        destruct (lw_try_reserve _ _ L _ _ _ _ _ _ Hi1 E2) as ((C1 & C2 & C3 & C4) & [-> | ->]).
        * destruct (bm_try_reserve b n w2) as [[b3 o3] w3] eqn:E3.
          destruct (bm_try_reserve_spec _ _ _ _ _ _ (proj1 Hi2) E3) as (B1 & B2 & _).
          inversion E; subst. unfold whole; cbn [va_bm va_coll]. rewrite B2, C3. exact Hl.
        * inversion E; subst. unfold whole; cbn [va_bm va_coll]. rewrite C3. exact Hl.
      + inversion E; subst. exact Hw.
    - intros v n [Hv Hw]. destruct (lw_truncate _ _ V v n Hv) as (v' & E & H1 & H2 & H3 & H4).
      exists v'. split; [exact E|]. split; [|split; [exact H2|split; [exact H3|exact H4]]].
      split; [exact H1|].
      change (va_truncate K v n = (v', ODone)) in E. unfold va_truncate in E.
      destruct (lw_truncate _ _ L (va_coll v) n (proj1 Hv)) as (c' & Ec & _ & _ & C3 & _).
      rewrite Ec in E. inversion E; subst. unfold whole in *. cbn [va_bm va_coll].
      destruct Hv as [_ Hb]. destruct (va_bm v) as [b|]; cbn [option_map]; [|exact I].
      destruct (bm_truncate_spec b n (proj1 Hb)) as (_ & G2 & _).
      rewrite G2, C3, !firstn_length. lia.
  Qed.
End Sealed.
