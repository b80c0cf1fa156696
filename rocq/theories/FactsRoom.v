(** * Operations on collections after any panics end well when there is room *)
From Coq Require Import List NArith ZArith Bool Arith Lia ZifyBool ZifyNat ZifyN.
From Verif Require Import Base Iter Spec VecModel BitmapModel CollModel ValidityModel FlattenModel
  OffsetsModel LayoutModel IterLemmas VecLemmas RoomLemmas BitmapLemmas Laws LawsBase LawsFlatten
  LawsValidity LawsOffsets Reach ReachLemmas LiveBase LiveLaws WeakLaws WeakNull WeakList WeakRoom
  WeakLive SpecLive FactsLive SpecLived FactsLived SpecRoom.
Import ListNotations.

Local Arguments N.add : simpl never.
Local Arguments N.mul : simpl never.

Lemma shape_room s : widths_pos s -> WRoom (coll s) (shape_ld s) (shape_wd s).
Proof.
  induction s as [p| |s IH|n s IH|k s IH|A a0 z]; cbn [widths_pos coll shape_wd shape_ld]; intros H.
  - apply (weak_room _ _ false); [apply vec_laws|apply vec_liveG|reflexivity].
  - apply (weak_room _ _ false); [apply bitmap_laws|apply bitmap_liveG|reflexivity].
  - exact (wvalidity_room _ _ (shape_laws s H) _ (shape_wlaws s H) (IH H)).
  - destruct H as [Hn H]. exact (wflatten_room _ _ (shape_laws s H) _ (IH H) n Hn).
  - exact (woffsets_room _ _ (shape_laws s H) _ (shape_wlaws s H) (IH H) k).
  - apply (weak_room _ _ false); [apply vec_laws|apply vec_liveG|reflexivity].
Qed.

Lemma weak_held s : widths_pos s -> forall c, w_inv (shape_wd s) c ->
  held s c = l_usage (shape_ld s) c.
Proof.
  induction s as [p| |s IH|n s IH|k s IH|A a0 z]; intros Hw c Hc.
  - reflexivity.
  - reflexivity.
  - cbn [widths_pos] in Hw. change (validity (cC (coll s))) in c.
    destruct c as [c b]. destruct Hc as [H1 H2]. cbn [held va_coll va_bm].
    change (l_usage (shape_ld (SNull s)) (Validity c b))
      with (va_usage (coll s) (shape_ld s) (Validity c b)).
    unfold va_usage. cbn [va_coll va_bm] in *. rewrite IH by auto. destruct b; [reflexivity|].
    rewrite (ww_len _ _ _ (shape_wlaws s Hw)) by auto. rewrite (wr_abs _ _ _ (shape_room s Hw)).
    reflexivity.
  - destruct Hw as [H1 H2]. apply IH; auto.
  - change (offsets (cC (coll s))) in c.
    pose proof (wof_inv_rep (coll s) (shape_wd s) k c Hc) as Hr.
    change (l_usage (shape_ld (SList k s)) c) with (of_usage (coll s) (shape_ld s) c).
    rewrite (wof_use _ _ _ (shape_room s Hw) k c _ Hr). destruct Hr as (H1 & H2 & H3 & _).
    unfold usg. cbn [held]. rewrite IH by auto. f_equal. rewrite H3. unfold lenN. cbn [length].
    rewrite ends_length. lia.
  - reflexivity.
Qed.

Section Room.
  Context (s : shape) (Hw : widths_pos s).
  Local Notation K := (coll s).

  Lemma weak_room_in R c (it : iter (cA K) R) : w_inv (shape_wd s) c -> room_in s c it ->
    fits_it (shape_ld s) c it.
  Proof.
    intros Hc. unfold room_in, fits_it. rewrite limit_lim, (weak_held s Hw c Hc).
    rewrite unit_cost_cfac. intros H. eapply affords_mono; [| | |exact H]; try lia.
    intros a. rewrite cost_wgt. lia.
  Qed.
  Lemma lived_extend R c (it : iter (cA K) R) c' r o : lived s c ->
    Forall (item_ok s) (items_of it) -> room_in s c it -> k_extend K c it = (c', r, o) ->
    o = match fin_of it with FStop => ODone | FBoom => OPanic end.
  Proof.
    intros Hc Hi Hr E. pose proof (lived_inv s c Hc Hw) as H. destruct (run_parts it) as [r0 Hrun].
    apply items_ok_wt in Hi.
    destruct (wr_extend _ _ _ (shape_room s Hw) _ _ _ _ _ _ _ _ _ H Hi Hrun E) as [_ G].
    apply weak_room_in in Hr; [|exact H]. specialize (G Hr). unfold ends_as in G. destruct (fin_of it); exact G.
  Qed.
  Lemma lived_try_extend R c (it : iter (cA K) R) w c' r o w' : lived s c ->
    good s it -> grants w -> room_for s c (items_of it) -> k_try_extend K c it w = (c', r, o, w') ->
    o = ODone /\ grants w'.
  Proof.
    intros Hc (Hf & Hh & Hi) Hg Hr E. pose proof (lived_inv s c Hc Hw) as H.
    destruct (run_parts it) as [r0 Hrun]. apply items_ok_wt in Hi.
    destruct (wr_try_extend _ _ _ (shape_room s Hw) _ _ _ _ _ _ _ _ _ _ _ H Hi Hrun E) as [_ G].
    apply G; auto. unfold room_for in Hr. rewrite (weak_held s Hw c H), costs_wgt, limit_lim in Hr.
    exact Hr.
  Qed.
  Lemma lived_reserve c n c' o : lived s c -> (held s c + n * unit_cost s <= limit s)%N ->
    k_reserve K c n = (c', o) -> o = ODone.
  Proof.
    intros Hc Hr E. pose proof (lived_inv s c Hc Hw) as H.
    destruct (wr_reserve _ _ _ (shape_room s Hw) _ _ _ _ H E) as [_ G]. apply G.
    rewrite (weak_held s Hw c H), limit_lim, unit_cost_cfac in Hr. exact Hr.
  Qed.
  Lemma lived_try_reserve c n w c' o w' : lived s c -> grants w ->
    (held s c + n * unit_cost s <= limit s)%N ->
    k_try_reserve K c n w = (c', o, w') -> o = ODone /\ grants w'.
  Proof.
    intros Hc Hg Hr E. pose proof (lived_inv s c Hc Hw) as H.
    destruct (wr_try_reserve _ _ _ (shape_room s Hw) _ _ _ _ _ _ H E) as [_ G]. apply G; [exact Hg|].
    rewrite (weak_held s Hw c H), limit_lim, unit_cost_cfac in Hr. exact Hr.
  Qed.
  Lemma lived_held c p c' o : lived s c -> Forall (item_ok s) (op_items p) ->
    step K c p = (c', o) -> o <> OAbort ->
    (held s c' <= held s c + total (cost s) (op_items p))%N.
  Proof.
    intros Hc Hi E Ho. pose proof (lived_inv s c Hc Hw) as H.
    pose proof (lived_inv s c' (lived_step s c p c' o Hc Hi E Ho) Hw) as H'.
    rewrite (weak_held s Hw c H), (weak_held s Hw c' H'), costs_wgt. apply items_ok_wt in Hi.
    pose proof (shape_room s Hw) as V.
    destruct p as [it|it w|n|n w|n]; cbn [step op_items] in *.
    - destruct (k_extend K c it) as [[c1 r1] o1] eqn:E1. injection E as <- <-.
      destruct (run_parts it) as [r Hr].
      destruct (wr_extend _ _ _ V _ _ _ _ _ _ _ _ _ H Hi Hr E1) as [G _]. exact (G Ho).
    - destruct (k_try_extend K c it w) as [[[c1 r1] o1] w1] eqn:E1. injection E as <- <-.
      destruct (run_parts it) as [r Hr].
      destruct (wr_try_extend _ _ _ V _ _ _ _ _ _ _ _ _ _ _ H Hi Hr E1) as [G _]. exact G.
    - destruct (wr_reserve _ _ _ V _ _ _ _ H E) as [G _]. cbn [sumw]. lia.
    - destruct (k_try_reserve K c n w) as [[c1 o1] w1] eqn:E1. injection E as <- <-.
      destruct (wr_try_reserve _ _ _ V _ _ _ _ _ _ H E1) as [G _]. cbn [sumw]. lia.
    - pose proof (wr_truncate _ _ _ V _ _ _ _ H E) as G. cbn [sumw]. lia.
  Qed.

  Lemma lived_ends_well c p c' o : lived s c -> Forall (item_ok s) (op_items p) -> fair p ->
    (held s c + demand s p <= limit s)%N -> step K c p = (c', o) -> ends_well p o.
  Proof.
    intros Hc Hi Hf Hr E.
    destruct p as [it|it w|n|n w|n]; cbn [step op_items fair demand ends_well] in *.
    - destruct (k_extend K c it) as [[c1 r1] o1] eqn:E1. injection E as <- <-. destruct Hf as [Hf Hh].
      apply (lived_extend _ _ _ _ _ _ Hc Hi) with (2 := E1). apply room_honest; assumption.
    - pose proof (lived_steps s Hw c _ (OpTryExtend it w) c' o Hc
        (inv_reads s Hw c (lived_inv s c Hc Hw)) Hi E) as G.
      destruct (k_try_extend K c it w) as [[[c1 r1] o1] w1] eqn:E1. injection E as <- <-.
      destruct Hf as [Hh Hg]. destruct (fin_of it) eqn:Ef.
      + apply (lived_try_extend _ _ _ _ _ _ _ _ Hc (conj Ef (conj Hh Hi)) Hg Hr E1).
      + destruct o1; [|left; reflexivity|right; reflexivity|discriminate].
        destruct G as (ys & _ & G). cbn [like_step] in G. destruct G as [G _]. congruence.
    - exact (lived_reserve _ _ _ _ Hc Hr E).
    - destruct (k_try_reserve K c n w) as [[c1 o1] w1] eqn:E1. injection E as <- <-.
      exact (proj1 (lived_try_reserve _ _ _ _ _ _ Hc Hf Hr E1)).
    - pose proof (lived_steps s Hw c _ (OpTruncate n) c' o Hc
        (inv_reads s Hw c (lived_inv s c Hc Hw)) Hi E) as G.
      destruct o; [reflexivity| | |discriminate]; destruct G as (ys & _ & []).
  Qed.

  Lemma ends_well_calm {A} (p : op A) o : ends_well p o -> o <> OAbort.
  Proof.
    destruct p; cbn [ends_well]; try (destruct (fin_of it)); intros H Ho; rewrite Ho in H;
      try discriminate H. destruct H; discriminate.
  Qed.
  Lemma items_demand p : (total (cost s) (op_items p) <= demand s p)%N.
  Proof. destruct p; cbn [op_items demand total]; unfold total; cbn [fold_right]; lia. Qed.

  Lemma lived_history : forall ps c c' os, lived s c ->
    Forall (fun p => Forall (item_ok s) (op_items p) /\ fair p) ps ->
    (held s c + total (demand s) ps <= limit s)%N -> exec K c ps = (c', os) ->
    Forall2 ends_well ps os /\ lived s c' /\ (held s c' <= held s c + total (demand s) ps)%N.
  Proof.
    induction ps as [|p ps IH]; intros c c' os Hc Hp Hr; cbn [exec].
    - intros E. injection E as <- <-. split; [constructor|]. split; [exact Hc|lia].
    - destruct (step K c p) as [c1 o] eqn:Es. destruct (exec K c1 ps) as [c2 os'] eqn:Ee.
      intros E. injection E as <- <-. inversion Hp as [|? ? [Hi Hf] Hp']; subst.
      assert (Ht : total (demand s) (p :: ps) = (demand s p + total (demand s) ps)%N) by reflexivity.
      rewrite Ht in *. clear Ht.
      assert (Hr1 : (held s c + demand s p <= limit s)%N) by lia.
      pose proof (lived_ends_well c p c1 o Hc Hi Hf Hr1 Es) as Ho.
      pose proof (ends_well_calm _ _ Ho) as Ha.
      pose proof (lived_step s c p c1 o Hc Hi Es Ha) as Hc1.
      pose proof (lived_held c p c1 o Hc Hi Es Ha) as Hh.
      pose proof (items_demand p) as Hd.
      destruct (IH c1 c2 os' Hc1 Hp') as (G1 & G2 & G3); [lia|exact Ee|].
      split; [constructor; assumption|]. split; [exact G2|lia].
  Qed.
End Room.

(** ** Reservations *)
Lemma shape_wlive s : widths_pos s ->
  WLive (coll s) (l_wt (shape_ld s)) (shape_wd s) (shape_can s) (covered s).
Proof.
  induction s as [p| |s IH|n s IH|k s IH|A a0 z]; cbn [widths_pos coll shape_wd shape_ld]; intros H.
  - exact (weak_live _ _ _ _ (shape_live (SVec p) H)).
  - exact (weak_live _ _ _ _ (shape_live SBits H)).
  - exact (wvalidity_live _ _ _ (shape_wlaws s H) _ _ (IH H)).
  - exact (wflatten_live _ _ _ n _ _ (IH (proj2 H))).
  - exact (woffsets_live _ _ _ (shape_wlaws s H) k _ _ (IH H)).
  - exact (weak_live _ _ _ _ (shape_live (SAny A a0 z) H)).
Qed.
Section Reserved.
  Context (s : shape) (Hw : widths_pos s).
  Local Notation K := (coll s).

  Lemma lived_can R c xs (it : iter (cA K) R) w ys : lived s c -> reads s c xs ->
    good s it -> shape_can s c (items_of it ++ ys) ->
    exists c' r w' zs, k_try_extend K c it w = (c', r, ODone, w') /\
      w_inv (shape_wd s) c' /\ reads s c' (xs ++ zs) /\ Forall2 (like s) (items_of it) zs /\
      shape_can s c' ys.
  Proof.
    intros Hc Hx (Hf & Hh & Hi) Hy. pose proof (lived_inv s c Hc Hw) as H.
    destruct (run_parts it) as [r0 Hr]. rewrite Hf in Hr. pose proof Hi as Hi0. apply items_ok_wt in Hi.
    destruct (wl_try_extend _ _ _ _ _ (shape_wlive s Hw) R c it w _ ys r0 H Hi Hr Hh Hy)
      as (c' & r & w' & E & Hy').
    destruct (ww_try_extend _ _ _ (shape_wlaws s Hw) _ _ _ _ _ _ _ _ _ _ _ H Hi Hr E)
      as (_ & _ & zs & Hz & [G1 G2]).
    exists c', r, w', zs. split; [exact E|]. split; [exact G1|].
    pose proof (inv_reads s Hw c' G1) as G. rewrite G2 in G.
    rewrite (reads_unique s c xs _ Hx (inv_reads s Hw c H)). split; [exact G|].
    split; [|exact Hy']. pose proof (rd_ok _ _ _ G) as Hok. apply Forall_app in Hok.
    exact (sims_like s _ _ Hi0 (proj2 Hok) Hz).
  Qed.
  Lemma lived_can_parts : forall its c xs, lived s c -> reads s c xs ->
    Forall (fun p => good s (fst p)) its -> shape_can s c (all_items its) ->
    exists c' zs, exec K c (try_extends its) = (c', repeat ODone (length its)) /\
      reads s c' (xs ++ zs) /\ Forall2 (like s) (all_items its) zs.
  Proof.
    induction its as [|[it w] its IH]; intros c xs Hc Hx Hg Hy.
    - exists c, []. rewrite app_nil_r. split; [reflexivity|]. split; [exact Hx|constructor].
    - pose proof (Forall_inv Hg) as Hg1. apply Forall_inv_tail in Hg. cbn [fst] in Hg1.
      unfold all_items in Hy. cbn [flat_map fst] in Hy.
      destruct (lived_can unit c xs it w _ Hc Hx Hg1 Hy) as (c1 & r & w1 & zs & E & _ & R1 & S1 & Y1).
      assert (Es : step K c (OpTryExtend it w) = (c1, ODone)) by (cbn [step]; rewrite E; reflexivity).
      assert (Hc1 : lived s c1).
      { apply (lived_step s c (OpTryExtend it w) c1 ODone Hc (proj2 (proj2 Hg1)) Es). discriminate. }
      destruct (IH c1 _ Hc1 R1 Hg Y1) as (c2 & zs2 & E2 & R2 & S2).
      exists c2, (zs ++ zs2). unfold try_extends. cbn [map fst snd exec]. rewrite Es.
      unfold try_extends in E2. rewrite E2. split; [reflexivity|]. rewrite app_assoc.
      split; [exact R2|]. unfold all_items. cbn [flat_map fst]. apply Forall2_app; assumption.
  Qed.
  Lemma lived_reserved c xs n w c1 w1 its : lived s c -> reads s c xs ->
    k_try_reserve K c n w = (c1, ODone, w1) -> Forall (fun p => good s (fst p)) its ->
    covered s c n (all_items its) ->
    exists c2 zs, exec K c1 (try_extends its) = (c2, repeat ODone (length its)) /\
      reads s c2 (xs ++ zs) /\ Forall2 (like s) (all_items its) zs.
  Proof.
    intros Hc Hx E Hg Hy. pose proof (lived_inv s c Hc Hw) as H.
    pose proof (wl_reserve _ _ _ _ _ (shape_wlive s Hw) _ _ _ _ _ _ H E Hy) as Hcan.
    assert (Es : step K c (OpTryReserve n w) = (c1, ODone)) by (cbn [step]; rewrite E; reflexivity).
    assert (Hc1 : lived s c1).
    { apply (lived_step s c (OpTryReserve n w) c1 ODone Hc); [constructor|exact Es|discriminate]. }
    apply lived_can_parts; auto.
    destruct (lived_steps s Hw c xs (OpTryReserve n w) c1 ODone Hc Hx) as (ys & R1 & R2);
      [constructor|exact Es|]. cbn [like_step] in R2. subst ys. exact R1.
  Qed.
  Lemma lived_reserved_flat c xs n w c1 w1 its : no_lists s -> lived s c -> reads s c xs ->
    k_try_reserve K c n w = (c1, ODone, w1) -> Forall (fun p => good s (fst p)) its ->
    (lenN (all_items its) <= n)%N ->
    exists c2 zs, exec K c1 (try_extends its) = (c2, repeat ODone (length its)) /\
      reads s c2 (xs ++ zs) /\ Forall2 (like s) (all_items its) zs.
  Proof.
    intros Hn Hc Hx E Hg Hl. apply (lived_reserved c xs n w c1 w1 its Hc Hx E Hg).
    apply no_lists_covered; auto. apply all_items_ok, Hg.
  Qed.
End Reserved.
