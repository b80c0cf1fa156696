(** * What collections still offer after any panics *)
From Coq Require Import List NArith ZArith Bool Arith Lia ZifyBool ZifyNat ZifyN.
From Verif Require Import Base Iter Spec RoomLemmas VecModel BitmapModel CollModel ValidityModel
  FlattenModel OffsetsModel LayoutModel IterLemmas VecLemmas BitmapLemmas BitmapLemmas2 Laws LawsBase
  LawsFlatten LawsValidity LawsOffsets OwnedListModel Reach ReachLemmas CloneModel SpecFixed SpecLived
  WeakLaws WeakNull WeakList WeakOwned.
Import ListNotations.

Local Arguments Nat.div : simpl never.
Local Arguments Nat.modulo : simpl never.
Local Arguments Nat.mul : simpl never.

Fixpoint shape_wd (s : shape) : WD (coll s) :=
  match s with
  | SVec p => weak (vec_ld N 0%N (psz p))
  | SAny A a0 z => weak (vec_ld A a0 (N.pos z))
  | SBits => weak bitmap_ld
  | SNull s => wvalidity (coll s) (shape_wd s)
  | SFixed n s => wflatten (coll s) (shape_wd s) n
  | SList k s => woffsets (coll s) (shape_wd s) k
  end.

Lemma shape_wlaws s : widths_pos s -> WLaws (coll s) (l_wt (shape_ld s)) (shape_wd s).
Proof.
  induction s as [p| |s IH|n s IH|k s IH|A a0 z]; cbn [widths_pos coll shape_wd]; intros H.
  - apply weak_laws; [apply vec_laws|reflexivity].
  - apply weak_laws; [apply bitmap_laws|reflexivity].
  - exact (wvalidity_laws (coll s) _ (shape_wd s) (IH H)).
  - destruct H as [Hn H]. exact (wflatten_laws (coll s) _ (shape_wd s) (IH H) n Hn).
  - exact (woffsets_laws (coll s) _ (shape_wd s) (IH H) k).
  - apply weak_laws; [apply vec_laws|reflexivity].
Qed.

(** The laws imply the weak laws. *)
Lemma strong_weak s : forall c, l_inv (shape_ld s) c ->
  w_inv (shape_wd s) c /\ w_abs (shape_wd s) c = l_abs (shape_ld s) c.
Proof.
  induction s as [p| |s IH|n s IH|k s IH|A a0 z]; intros c Hc.
  - split; [exact Hc|reflexivity].
  - split; [exact Hc|reflexivity].
  - change (validity (cC (coll s))) in c. destruct Hc as [H1 H2]. destruct (IH _ H1) as [G1 G2].
    split.
    + change (wva_inv (coll s) (shape_wd s) c). split; [exact G1|].
      destruct (va_bm c); [|exact I]. rewrite G2. exact H2.
    + change (wva_abs (coll s) (shape_wd s) c = va_abs (coll s) (shape_ld s) c).
      unfold wva_abs, va_abs, wva_bits, va_bits. rewrite G2. reflexivity.
  - destruct Hc as [H1 H2]. destruct (IH _ H1) as [G1 G2]. split; [exact G1|].
    change (chunks n (w_abs (shape_wd s) c) = chunks n (l_abs (shape_ld s) c)).
    rewrite G2. reflexivity.
  - change (offsets (cC (coll s))) in c. destruct Hc as (ls & H1 & H2 & H3 & H4 & H5).
    destruct (IH _ H1) as [G1 G2]. split.
    + change (wof_inv (coll s) (shape_wd s) k c). exists ls. unfold wof_rep. rewrite G2.
      split; [exact G1|]. split; [exact H2|]. split; [exact H3|]. split; [exact H4|exact H5].
    + change (wof_abs (coll s) (shape_wd s) c = of_abs (coll s) (shape_ld s) c).
      unfold wof_abs, of_abs. rewrite G2. reflexivity.
  - split; [exact Hc|reflexivity].
Qed.
(** Without fixed-size lists they are the same. *)
Lemma weak_strong s : no_arrays s = true -> forall c, w_inv (shape_wd s) c -> l_inv (shape_ld s) c.
Proof.
  induction s as [p| |s IH|n s IH|k s IH|A a0 z]; cbn [no_arrays]; intros Hs c Hc; try discriminate.
  - exact Hc.
  - exact Hc.
  - change (validity (cC (coll s))) in c. destruct Hc as [H1 H2].
    pose proof (IH Hs _ H1) as G1. split; [exact G1|].
    destruct (strong_weak s _ G1) as [_ G2]. destruct (va_bm c); [|exact I]. rewrite G2 in H2. exact H2.
  - change (offsets (cC (coll s))) in c. destruct Hc as (ls & H1 & H2 & H3 & H4 & H5).
    pose proof (IH Hs _ H1) as G1. destruct (strong_weak s _ G1) as [_ G2].
    exists ls. rewrite G2 in H4.
    split; [exact G1|]. split; [exact H2|]. split; [exact H3|]. split; [exact H4|exact H5].
  - exact Hc.
Qed.

(** ** Items *)

Lemma sim_like s : forall x y, item_ok s x -> item_ok s y -> w_sim (shape_wd s) x y -> like s x y.
Proof.
  induction s as [p| |s IH|n s IH|k s IH|A a0 z]; intros x y Hx Hy H.
  - exact H.
  - exact H.
  - change (option (cA (coll s))) in x, y. change (osim (coll s) (shape_wd s) x y) in H.
    destruct x as [x|], y as [y|]; try exact H. exact (IH x y Hx Hy H).
  - change (list (cA (coll s))) in x, y. destruct Hx as [Hx _], Hy as [Hy _]. cbn [like]. congruence.
  - change (list (cA (coll s))) in x, y. change (Forall2 (w_sim (shape_wd s)) x y) in H.
    change (Forall (item_ok s) x) in Hx. change (Forall (item_ok s) y) in Hy.
    change (Forall2 (like s) x y). induction H as [|a b x y H1 H2 IH2]; constructor.
    + inversion Hx; inversion Hy; subst. apply IH; assumption.
    + inversion Hx; inversion Hy; subst. apply IH2; assumption.
  - exact H.
Qed.
Lemma sims_like s : forall xs ys, Forall (item_ok s) xs -> Forall (item_ok s) ys ->
  Forall2 (w_sim (shape_wd s)) xs ys -> Forall2 (like s) xs ys.
Proof.
  intros xs ys Hx Hy H. induction H as [|a b x y H1 H2 IH2]; constructor.
  - inversion Hx; inversion Hy; subst. apply sim_like; assumption.
  - inversion Hx; inversion Hy; subst. apply IH2; assumption.
Qed.
Lemma like_eq s : no_arrays s = true -> forall x y, like s x y <-> x = y.
Proof.
  induction s as [p| |s IH|n s IH|k s IH|A a0 z]; cbn [no_arrays]; intros Hs x y; try discriminate.
  - reflexivity.
  - reflexivity.
  - change (option (cA (coll s))) in x, y. change (coll (SNull s)) with (validity_coll (coll s)).
    cbn [like]. destruct x as [x|], y as [y|].
    + rewrite (IH Hs). split; intros H; [f_equal; exact H|]. injection H as H; exact H.
    + split; [contradiction|discriminate].
    + split; [contradiction|discriminate].
    + split; reflexivity.
  - change (list (cA (coll s))) in x, y. change (Forall2 (like s) x y <-> x = y). split.
    + induction 1 as [|a b x y H1 H2 IH2]; [reflexivity|]. apply (IH Hs) in H1. congruence.
    + intros <-. induction x; constructor; [apply (IH Hs); reflexivity|assumption].
  - reflexivity.
Qed.

Lemma abs_ok s : widths_pos s -> forall c, w_inv (shape_wd s) c ->
  Forall (item_ok s) (w_abs (shape_wd s) c).
Proof.
  induction s as [p| |s IH|n s IH|k s IH|A a0 z]; cbn [widths_pos]; intros Hw c Hc.
  - apply Forall_forall. intros; exact I.
  - apply Forall_forall. intros; exact I.
  - change (validity (cC (coll s))) in c. destruct Hc as [H1 H2]. specialize (IH Hw _ H1).
    change (Forall (item_ok (SNull s)) (wva_abs (coll s) (shape_wd s) c)). unfold wva_abs.
    apply Forall_forall. intros o Ho. apply In_nth_error in Ho. destruct Ho as [i Ho].
    destruct (mask_nth _ _ _ _ Ho) as (x & b & Hx & _ & ->). apply nth_error_In in Hx.
    destruct b; [|exact I]. exact (proj1 (Forall_forall _ _) IH x Hx).
  - destruct Hw as [Hn Hw]. specialize (IH Hw c Hc).
    change (Forall (item_ok (SFixed n s)) (chunks n (w_abs (shape_wd s) c))).
    pose proof (chunks_rows n (w_abs (shape_wd s) c) Hn) as P. unfold rows_ok in P.
    apply Forall_forall. intros x Hx. split; [exact (proj1 (Forall_forall _ _) P x Hx)|].
    unfold chunks in Hx. apply in_map_iff in Hx. destruct Hx as (i & <- & _).
    apply Forall_forall. intros y Hy. apply (proj1 (Forall_forall _ _) IH).
    rewrite <- (firstn_skipn (n * i) (w_abs (shape_wd s) c)). apply in_or_app. right.
    rewrite <- (firstn_skipn n (skipn (n * i) (w_abs (shape_wd s) c))). apply in_or_app. left. exact Hy.
  - change (offsets (cC (coll s))) in c. destruct Hc as (ls & Hr). pose proof Hr as (H1 & _ & _ & (rest & H4) & _).
    specialize (IH Hw _ H1).
    change (Forall (item_ok (SList k s)) (wof_abs (coll s) (shape_wd s) c)).
    rewrite (wof_rep_abs _ _ _ _ _ Hr). rewrite H4 in IH. apply Forall_app in IH. destruct IH as [IH _].
    clear - IH. induction ls as [|l ls IHl]; constructor.
    + apply (Forall_app (item_ok s)) in IH. apply IH.
    + apply IHl. cbn [concat] in IH. apply Forall_app in IH. apply IH.
  - apply Forall_forall. intros; exact I.
Qed.

(** ** Reading *)

Section Reads.
  Context (K : Coll) (wt : cA K -> Prop) (d : WD K) (L : WLaws K wt d).

  Lemma wirep_yields xs : forall s, w_irep d s xs -> yields (k_inext K) (k_ihint K) (k_own K) s xs.
  Proof.
    induction xs as [|x xs IH]; intros s Hs; cbn [yields].
    - intros n. revert s Hs. induction n as [|n IHn]; intros s Hs; cbn [nones].
      + split; auto. rewrite (ww_ihint _ _ _ L s [] Hs). reflexivity.
      + split; [rewrite (ww_ihint _ _ _ L s [] Hs); reflexivity|].
        destruct (ww_inil _ _ _ L s Hs) as (s' & E & H'). eauto.
    - split; [apply (ww_ihint _ _ _ L s _ Hs)|].
      destruct (ww_icons _ _ _ L s x xs Hs) as (v & s' & E & Hv & H'). eauto 6.
  Qed.
  Lemma worep_ends xs : forall s, w_orep d s xs ->
    yields (k_onext K) (k_ohint K) Ret s xs \/ breaks (k_onext K) (k_ohint K) s xs.
  Proof.
    induction xs as [|x xs IH]; intros s Hs; cbn [yields breaks].
    - destruct (ww_onil _ _ _ L s Hs) as [E|(P & H1 & H2)].
      + right. split; [apply (ww_ohint _ _ _ L s _ Hs)|exact E].
      + left. intros n. revert s Hs H1. induction n as [|n IHn]; intros s Hs H1; cbn [nones].
        * split; auto. rewrite (ww_ohint _ _ _ L s [] Hs). reflexivity.
        * split; [rewrite (ww_ohint _ _ _ L s [] Hs); reflexivity|].
          destruct (H2 s H1) as (_ & t & E & Ht). exists t. split; [exact E|].
          apply IHn; [apply (H2 t Ht)|exact Ht].
    - destruct (ww_ocons _ _ _ L s x xs Hs) as (s' & E & H').
      pose proof (ww_ohint _ _ _ L s _ Hs) as Hh.
      destruct (IH s' H') as [Y|B]; [left|right]; (split; [exact Hh|]).
      + exists x, s'. auto.
      + exists s'. auto.
  Qed.
End Reads.

Lemma inv_reads s : widths_pos s -> forall c, w_inv (shape_wd s) c -> reads s c (w_abs (shape_wd s) c).
Proof.
  intros Hw c Hc. pose proof (shape_wlaws s Hw) as L. split.
  - apply (ww_len _ _ _ L); auto.
  - apply abs_ok; auto.
  - intros i x Hx. unfold k_owned. destruct (ww_view _ _ _ L c i x Hc Hx) as (v & -> & Hv).
    cbn [obind]. rewrite Hv. reflexivity.
  - destruct (ww_iter _ _ _ L c Hc) as (st & E & Hs). exists st. split; auto.
    eapply wirep_yields; eauto.
  - destruct (ww_into _ _ _ L c Hc) as (st & E & Hs). exists st. split; auto.
    eapply worep_ends; eauto.
Qed.
Lemma reads_unique s c xs ys : reads s c xs -> reads s c ys -> xs = ys.
Proof.
  intros [A1 _ A2 _ _] [B1 _ B2 _ _]. rewrite A1 in B1. inversion B1 as [Hl]; clear B1 A1.
  apply nth_error_same. intros i.
  destruct (nth_error xs i) as [x|] eqn:Ex.
  - assert (Hi : i < length ys) by (rewrite <- Hl; apply nth_error_Some; congruence).
    destruct (nth_error ys i) as [y|] eqn:Ey; [|apply nth_error_None in Ey; lia].
    pose proof (A2 i x Ex) as E1. rewrite (B2 i y Ey) in E1. congruence.
  - apply nth_error_None in Ex. symmetry. apply nth_error_None. lia.
Qed.

(** ** Operations *)

Lemma grown_like s c c' xs ys : widths_pos s -> Forall (item_ok s) xs ->
  Forall2 (w_sim (shape_wd s)) xs ys -> grown (shape_wd s) c c' ys ->
  Forall2 (like s) xs ys.
Proof.
  intros Hw Hx Hs [G1 G2]. apply sims_like; auto.
  pose proof (abs_ok s Hw c' G1) as H. rewrite G2 in H. apply Forall_app in H. apply H.
Qed.
Lemma Forall_cut {A} (P : A -> Prop) k l : Forall P l -> Forall P (firstn k l).
Proof. intros H. rewrite <- (firstn_skipn k l) in H. apply Forall_app in H. apply H. Qed.

Lemma lived_step_spec s c p c' o : widths_pos s -> w_inv (shape_wd s) c ->
  Forall (item_ok s) (op_items p) -> step (coll s) c p = (c', o) ->
  match o with
  | OAbort => may_abort p = true
  | _ => w_inv (shape_wd s) c' /\
      like_step s (w_abs (shape_wd s) c) p o (w_abs (shape_wd s) c')
  end.
Proof.
  intros Hw Hc Hi Hs. pose proof (shape_wlaws s Hw) as L.
  pose proof (proj1 (items_ok_wt _ _) Hi) as Hwt.
  destruct p as [it|it w|n|n w|n]; cbn [step op_items] in *.
  - destruct (k_extend (coll s) c it) as [[c1 r1] o1] eqn:E. inversion Hs; subst; clear Hs.
    destruct (run_parts it) as [r Hr].
    pose proof (ww_extend _ _ _ L _ _ _ _ _ _ _ _ _ Hc Hwt Hr E) as H.
    unfold like_step. destruct o; try contradiction; [| |reflexivity].
    + destruct H as (H1 & _ & ys & H2 & H3).
      pose proof (grown_like s c c' _ ys Hw Hi H2 H3) as H4. destruct H3 as [G1 G2].
      split; [exact G1|]. split; [exact H1|]. exists ys. auto.
    + destruct H as (k & ys & H2 & H3).
      pose proof (grown_like s c c' _ ys Hw (Forall_cut _ k _ Hi) H2 H3) as H4. destruct H3 as [G1 G2].
      split; [exact G1|]. exists k, ys. auto.
  - destruct (k_try_extend (coll s) c it w) as [[[c1 r1] o1] w1] eqn:E. inversion Hs; subst; clear Hs.
    destruct (run_parts it) as [r Hr].
    pose proof (ww_try_extend _ _ _ L _ _ _ _ _ _ _ _ _ _ _ Hc Hwt Hr E) as H.
    unfold like_step. destruct o; try contradiction.
    + destruct H as (H1 & _ & ys & H2 & H3).
      pose proof (grown_like s c c' _ ys Hw Hi H2 H3) as H4. destruct H3 as [G1 G2].
      split; [exact G1|]. split; [exact H1|]. exists ys. auto.
    + exact H.
    + destruct H as (H1 & k & ys & H2 & H3).
      pose proof (grown_like s c c' _ ys Hw (Forall_cut _ k _ Hi) H2 H3) as H4. destruct H3 as [G1 G2].
      split; [exact G1|]. split; [exact H1|]. exists k, ys. auto.
  - destruct (ww_reserve _ _ _ L _ _ _ _ Hc Hs) as ([G1 G2] & Ho).
    unfold like_step. destruct o; try congruence; auto.
  - destruct (k_try_reserve (coll s) c n w) as [[c1 o1] w1] eqn:E. inversion Hs; subst; clear Hs.
    destruct (ww_try_reserve _ _ _ L _ _ _ _ _ _ Hc E) as ([G1 G2] & [-> | ->]);
      unfold like_step; auto.
  - destruct (ww_truncate _ _ _ L c n Hc) as (c1 & E & G1 & G2).
    rewrite E in Hs. inversion Hs; subst; clear Hs. unfold like_step. auto.
Qed.

(** ** From parts *)

Section Parts.
  Context (K : Coll) (wt : cA K -> Prop) (d : WD K) (L : WLaws K wt d).

  Lemma wof_parts_inv kd c offs o : w_inv d c -> vec_ok (osz kd) offs ->
    Forall (fun z => (omin kd <= z <= omax kd)%Z) (v_items offs) ->
    of_try_from_parts K c offs = Ret (inl o) -> wof_inv K d kd o.
  Proof.
    intros Hc Hv Hz. unfold of_try_from_parts. destruct (v_items offs) as [|z zs] eqn:Ei; [discriminate|].
    unfold usize_try_from. destruct (0 <=? z)%Z eqn:E0; [|discriminate].
    destruct (Z.to_N z =? 0)%N eqn:E1; [|discriminate].
    destruct (of_check 1 (Z.to_N z) zs) as [last|e] eqn:Ec; [|discriminate].
    rewrite (ww_len _ _ _ L) by auto. cbn [obind].
    destruct (N.of_nat (length (w_abs d c)) <? last)%N eqn:El; [discriminate|].
    intros E; inversion E; subst; clear E.
    assert (z = 0%Z) by lia. subst z. change (Z.to_N 0) with 0%N in *.
    destruct (of_check_ends zs 1 0 last (w_abs d c) Ec) as (ls & H1 & rest & H2 & H3 & _); [lia|lia|].
    cbn [N.to_nat skipn] in H1, H2.
    exists ls. unfold wof_rep. cbn [of_data of_offs]. split; [auto|]. split; [auto|].
    split; [rewrite Ei, H1; reflexivity|]. split; [eauto|].
    rewrite H3. destruct (omax_val kd) as (Hom & _).
    destruct (of_check_last_in _ _ _ _ Ec) as [-> | Hin]; [lia|].
    assert (Hb : In (Z.of_N last) (0%Z :: zs)) by (right; auto).
    apply (proj1 (Forall_forall _ _) Hz) in Hb. lia.
  Qed.
  Lemma wva_parts_inv c b v : w_inv d c -> bm_ok b ->
    va_try_from_parts K c b = Ret (inl v) -> wva_inv K d v.
  Proof.
    intros Hc Hb. unfold va_try_from_parts. rewrite (ww_len _ _ _ L) by auto. cbn [obind].
    destruct (Nat.eqb (length (w_abs d c)) (bm_len b)) eqn:E; [|discriminate].
    intros E2; inversion E2; subst. split; [exact Hc|]. split; [exact Hb|].
    rewrite bm_abs_length by auto. cbn [va_coll]. unfold bm_len in E. lia.
  Qed.
End Parts.

(** ** Clones and lists handed over as collections *)

Lemma wclone_inv s : forall c, w_inv (shape_wd s) c ->
  w_inv (shape_wd s) (clone s c) /\ w_abs (shape_wd s) (clone s c) = w_abs (shape_wd s) c.
Proof.
  assert (Hv : forall A esz (v : vec A), vec_ok esz v -> vec_ok esz (vec_clone v)).
  { intros A esz v [H1 H2]. split; unfold vec_clone; cbn [v_items v_cap]; lia. }
  induction s as [p| |s IH|n s IH|k s IH|A a0 z]; intros c Hc; cbn [clone].
  - split; [exact (Hv _ _ _ Hc)|reflexivity].
  - split; [|reflexivity]. destruct Hc as [H1 H2]. split; [exact (Hv _ _ _ H1)|exact H2].
  - split; [exact Hc|reflexivity].
  - destruct (IH c Hc) as [H1 H2]. split; [exact H1|].
    change (chunks n (w_abs (shape_wd s) (clone s c)) = chunks n (w_abs (shape_wd s) c)).
    rewrite H2. reflexivity.
  - split; [exact Hc|reflexivity].
  - split; [exact (Hv _ _ _ Hc)|reflexivity].
Qed.

Section Handed.
  Context (s u : shape) (Hs : widths_pos s) (Hu : widths_pos u) (k : okind).
  Context (into : cA (coll u) -> cA (coll s)) (Hinto : forall y, item_ok u y -> item_ok s (into y)).
  Local Notation lists := (SList k s).

  Lemma reads_gives c xs : reads u c xs -> exists f, gives (coll u) c xs f.
  Proof.
    intros H. destruct (rd_into _ _ _ H) as (st & E & [Y|B]); [exists FStop|exists FBoom];
      (split; [exact (rd_len _ _ _ H)|]); exists st; auto.
  Qed.
  Lemma rows_wt rows : Forall (Forall (item_ok u)) rows ->
    Forall (item_ok lists) (map (map into) rows).
  Proof.
    induction 1 as [|row rows H _ IH]; cbn [map]; constructor; [|exact IH].
    cbn [item_ok]. induction H; cbn [map]; constructor; auto.
  Qed.
  Lemma all_reads cs rows : Forall2 (reads u) cs rows ->
    Forall2 (fun c row => exists f, gives (coll u) c row f) cs rows /\
    Forall (item_ok lists) (map (map into) rows).
  Proof.
    intros H. split.
    - induction H; constructor; auto. apply reads_gives; assumption.
    - apply rows_wt. induction H; constructor; auto. eapply rd_ok; eauto.
  Qed.
  Lemma all_inv cs : (forall c, In c cs -> w_inv (shape_wd u) c) ->
    Forall2 (reads u) cs (map (w_abs (shape_wd u)) cs).
  Proof.
    induction cs as [|c cs IH]; intros H; cbn [map]; constructor.
    - apply inv_reads; [exact Hu|]. apply H. left; reflexivity.
    - apply IH. intros x Hx. apply H. right; exact Hx.
  Qed.

  Lemma owned_spec {R} o (it : iter (cC (coll u)) R) rows o' r' out :
    w_inv (shape_wd lists) o -> Forall2 (reads u) (items_of it) rows ->
    ou_extend (coll s) (coll u) k into o it = (o', r', out) ->
    match out with
    | ODone => fin_of it = FStop /\
        Forall2 (fun c row => gives (coll u) c row FStop) (items_of it) rows /\
        exists ys, Forall2 (like lists) (map (map into) rows) ys /\ grown (shape_wd lists) o o' ys
    | OErr => False
    | OPanic => exists j ys, before (coll u) (items_of it) rows j /\
        Forall2 (like lists) (firstn j (map (map into) rows)) ys /\
        grown (shape_wd lists) o o' ys
    | OAbort => True
    end.
  Proof.
    intros Ho Hr E. destruct (all_reads _ _ Hr) as [Hg Hi].
    pose proof (proj1 (items_ok_wt lists _) Hi) as Hwt. destruct (run_parts it) as [r Hrun].
    pose proof (wou_extend _ _ _ (shape_wlaws s Hs) k (coll u) into o it _ _ _ rows o' r' out
      Ho Hrun Hg Hwt E) as H.
    destruct out; try exact H.
    - destruct H as (H1 & _ & H2 & ys & H3 & H4). split; [exact H1|]. split; [exact H2|].
      exists ys. split; [|exact H4]. exact (grown_like lists o o' _ ys Hs Hi H3 H4).
    - destruct H as (j & ys & H1 & H3 & H4). exists j, ys. split; [exact H1|]. split; [|exact H4].
      exact (grown_like lists o o' _ ys Hs (Forall_cut _ j _ Hi) H3 H4).
  Qed.
  Lemma owned_try_spec {R} o (it : iter (cC (coll u)) R) w rows o' r' out w' :
    w_inv (shape_wd lists) o -> Forall2 (reads u) (items_of it) rows ->
    ou_try_extend (coll s) (coll u) k into o it w = (o', r', out, w') ->
    match out with
    | ODone => fin_of it = FStop /\
        Forall2 (fun c row => gives (coll u) c row FStop) (items_of it) rows /\
        exists ys, Forall2 (like lists) (map (map into) rows) ys /\ grown (shape_wd lists) o o' ys
    | OErr => kept (shape_wd lists) o o'
    | OPanic => exists j ys, stopped (coll u) (items_of it) rows (fin_of it) j /\
        before (coll u) (items_of it) rows j /\ Forall2 (like lists) (firstn j (map (map into) rows)) ys /\ grown (shape_wd lists) o o' ys
    | OAbort => False
    end.
  Proof.
    intros Ho Hr E. destruct (all_reads _ _ Hr) as [Hg Hi].
    pose proof (proj1 (items_ok_wt lists _) Hi) as Hwt. destruct (run_parts it) as [r Hrun].
    pose proof (wou_try_extend _ _ _ (shape_wlaws s Hs) k (coll u) into o it w _ _ _ rows o' r' out w'
      Ho Hrun Hg Hwt E) as H.
    destruct out; try exact H.
    - destruct H as (H1 & _ & H2 & ys & H3 & H4). split; [exact H1|]. split; [exact H2|].
      exists ys. split; [|exact H4]. exact (grown_like lists o o' _ ys Hs Hi H3 H4).
    - destruct H as (j & ys & H1 & H2 & H3 & H4). exists j, ys. split; [exact H1|]. split; [exact H2|].
      split; [|exact H4]. exact (grown_like lists o o' _ ys Hs (Forall_cut _ j _ Hi) H3 H4).
  Qed.
End Handed.

Lemma lived_inv s c : lived s c -> widths_pos s -> w_inv (shape_wd s) c.
Proof.
  induction 1 as [s c Hb | s c b v Hc IHc Hb IHb Hv | s c Hc IHc
    | n s c c' Hc IHc Hf | k s c offs o Hc IHc Hoffs Hz Ho | s v Hv IHv | s v b Hs Hv IHv Eb
    | n s c Hn Hc IHc | k s o Ho IHo | s c Hcl Hc IHc | s c p c' o Hc IHc Hi Hs Hab
    | k s u into R o it o' r e Hu Hinto Ho IHo Hcs IHcs E Hab
    | k s u into R o it w o' r e w' Hu Hinto Ho IHo Hcs IHcs E]; intros Hw;
    try (cbn [widths_pos] in Hw).
  - apply strong_weak, built_inv; assumption.
  - exact (wva_parts_inv _ _ _ (shape_wlaws s Hw) _ _ _ (IHc Hw) (IHb I) Hv).
  - split; [exact (IHc Hw)|]. exact I.
  - destruct Hw as [Hn Hw]. specialize (IHc Hw). revert Hf. unfold fl_try_from_parts.
    rewrite (ww_len _ _ _ (shape_wlaws s Hw) _ IHc). cbn [obind]. destruct n as [|n]; [lia|].
    destruct (Nat.eqb (length (w_abs (shape_wd s) c) mod S n) 0); [|discriminate].
    intros E; inversion E; subst. exact IHc.
  - exact (wof_parts_inv _ _ _ (shape_wlaws s Hw) _ _ _ _ (IHc Hw) Hoffs Hz Ho).
  - apply (IHv Hw).
  - destruct (IHv Hs) as [_ H]. rewrite Eb in H. apply H.
  - apply (IHc (conj Hn Hw)).
  - destruct (IHo Hw) as (ls & H & _). exact H.
  - apply wclone_inv, IHc, Hw.
  - pose proof (lived_step_spec s c p c' o Hw (IHc Hw) Hi Hs) as H.
    destruct o; try apply H. congruence.
  - pose proof (all_inv u Hu (items_of it) (fun c Hc => IHcs c Hc Hu)) as Hr.
    pose proof (owned_spec s u Hw k into Hinto o it _ o' r e (IHo Hw) Hr E) as H.
    destruct e.
    + destruct H as (_ & _ & ys & _ & H & _). exact H.
    + destruct H.
    + destruct H as (j & ys & _ & _ & H & _). exact H.
    + congruence.
  - pose proof (all_inv u Hu (items_of it) (fun c Hc => IHcs c Hc Hu)) as Hr.
    pose proof (owned_try_spec s u Hw k into Hinto o it w _ o' r e w' (IHo Hw) Hr E) as H.
    destruct e.
    + destruct H as (_ & _ & ys & _ & H & _). exact H.
    + exact (proj1 H).
    + destruct H as (j & ys & _ & _ & _ & H & _). exact H.
    + destruct H.
Qed.

(** ** The theorems *)

Theorem lived_reads : forall s, widths_pos s -> forall c, lived s c -> exists xs, reads s c xs.
Proof. intros s Hw c Hc. eexists. apply inv_reads; [exact Hw|]. apply lived_inv; assumption. Qed.

Theorem lived_steps : forall s, widths_pos s -> forall c xs p c' o,
  lived s c -> reads s c xs -> Forall (item_ok s) (op_items p) -> step (coll s) c p = (c', o) ->
  match o with
  | OAbort => may_abort p = true
  | _ => exists ys, reads s c' ys /\ like_step s xs p o ys
  end.
Proof.
  intros s Hw c xs p c' o Hc Hx Hi Hs. pose proof (lived_inv s c Hc Hw) as H.
  rewrite (reads_unique s c xs _ Hx (inv_reads s Hw c H)).
  pose proof (lived_step_spec s c p c' o Hw H Hi Hs) as G.
  destruct o; try exact G; destruct G as [G1 G2]; eexists; (split; [apply inv_reads; assumption|exact G2]).
Qed.

Theorem lived_shows : forall s, widths_pos s -> no_arrays s = true -> forall c, lived s c ->
  exists xs, reads s c xs /\ shows (coll s) c xs.
Proof.
  intros s Hw Ha c Hc. pose proof (lived_inv s c Hc Hw) as H.
  pose proof (weak_strong s Ha c H) as G. destruct (strong_weak s c G) as [_ E].
  exists (w_abs (shape_wd s) c). split; [apply inv_reads; assumption|].
  rewrite E. apply inv_shows; [apply shape_laws; exact Hw|exact G].
Qed.

Lemma likes_eq s : no_arrays s = true -> forall xs ys, Forall2 (like s) xs ys -> ys = xs.
Proof.
  intros Hs xs ys H. induction H as [|a b x y H1 H2 IH]; [reflexivity|].
  apply (like_eq s Hs) in H1. congruence.
Qed.
Lemma cut_le {A} k (l : list A) : exists k', k' <= length l /\ firstn k l = firstn k' l.
Proof.
  destruct (Nat.le_gt_cases k (length l)) as [H|H]; [exists k; auto|].
  exists (length l). split; [lia|]. rewrite firstn_all. apply firstn_all2. lia.
Qed.
Lemma like_step_exact s xs p o ys : no_arrays s = true -> like_step s xs p o ys -> list_step xs p o ys.
Proof.
  intros Hs. unfold like_step, list_step. destruct p as [it|it w|n|n w|n], o; try (intros H; exact H).
  - intros (H & zs & Hz & ->). rewrite (likes_eq s Hs _ _ Hz). auto.
  - intros (k & zs & Hz & ->). rewrite (likes_eq s Hs _ _ Hz).
    destruct (cut_le k (items_of it)) as (k' & Hk & ->). eauto.
  - intros (H & zs & Hz & ->). rewrite (likes_eq s Hs _ _ Hz). auto.
  - intros (H & k & zs & Hz & ->). rewrite (likes_eq s Hs _ _ Hz). split; [exact H|].
    destruct (cut_le k (items_of it)) as (k' & Hk & ->). eauto.
Qed.

Theorem lived_exact : forall s, widths_pos s -> no_arrays s = true -> forall c, lived s c ->
  exists xs, shows (coll s) c xs /\ forall p c' o,
    Forall (item_ok s) (op_items p) -> step (coll s) c p = (c', o) ->
    match o with
    | OAbort => may_abort p = true
    | _ => exists ys, shows (coll s) c' ys /\ list_step xs p o ys
    end.
Proof.
  intros s Hw Ha c Hc. destruct (lived_shows s Hw Ha c Hc) as (xs & Hr & Hs).
  exists xs. split; [exact Hs|]. intros p c' o Hi E.
  pose proof (lived_steps s Hw c xs p c' o Hc Hr Hi E) as H.
  assert (G : o <> OAbort -> (exists ys, reads s c' ys /\ like_step s xs p o ys) ->
    exists ys, shows (coll s) c' ys /\ list_step xs p o ys).
  { intros Ho (ys & H1 & H2). exists ys. split; [|exact (like_step_exact s xs p o ys Ha H2)].
    destruct (lived_shows s Hw Ha c' (lived_step s c p c' o Hc Hi E Ho)) as (ys' & R & S').
    rewrite (reads_unique s c' ys ys' H1 R). exact S'. }
  destruct o; try exact H; (apply G; [discriminate|exact H]).
Qed.
