(** * Every shape satisfies the laws; built collections satisfy the invariant. *)
From Coq Require Import List NArith ZArith Bool Arith Lia ZifyBool ZifyNat ZifyN.
From Verif Require Import Base Iter Spec VecModel BitmapModel CollModel ValidityModel
  FlattenModel OffsetsModel LayoutModel IterLemmas VecLemmas RoomLemmas BitmapLemmas BitmapLemmas2 Laws
  LawsBase LawsFlatten LawsValidity LawsOffsets Reach.
Import ListNotations.

Ltac Zify.zify_post_hook ::= Z.div_mod_to_equations.
Local Arguments Nat.div : simpl never.
Local Arguments Nat.modulo : simpl never.
Local Arguments Nat.mul : simpl never.
Local Arguments N.add : simpl never.
Local Arguments N.mul : simpl never.

Fixpoint shape_ld (s : shape) : LD (coll s) :=
  match s with
  | SVec p => vec_ld N 0%N (psz p)
  | SAny A a0 z => vec_ld A a0 (N.pos z)
  | SBits => bitmap_ld
  | SNull s => validity_ld (coll s) (shape_ld s)
  | SFixed n s => flatten_ld (coll s) (shape_ld s) n
  | SList k s => offsets_ld (coll s) (shape_ld s) k
  end.

Lemma shape_laws s : widths_pos s -> Laws (coll s) (shape_ld s).
Proof.
  induction s as [p| |s IH|n s IH|k s IH|A a0 z]; cbn [widths_pos coll shape_ld]; intros H.
  - apply vec_laws.
  - apply bitmap_laws.
  - apply validity_laws; auto.
  - apply flatten_laws; tauto.
  - apply offsets_laws; auto.
  - apply vec_laws.
Qed.

(** ** The specification functions agree with the data of the laws *)

Lemma total_sumw {A} (f g : A -> N) l : (forall x, f x = g x) -> total f l = sumw g l.
Proof.
  intros H. induction l as [|x l IH]; cbn [total fold_right sumw]; [auto|].
  rewrite H. unfold total in IH. rewrite IH. reflexivity.
Qed.
Lemma Forall_iff {A} (P Q : A -> Prop) l : (forall x, P x <-> Q x) -> (Forall P l <-> Forall Q l).
Proof. intros H. split; apply Forall_impl; intros x; apply H. Qed.

Lemma item_ok_wt s : forall x, item_ok s x <-> l_wt (shape_ld s) x.
Proof.
  induction s as [p| |s IH|n s IH|k s IH|A a0 z]; intros x.
  - reflexivity.
  - reflexivity.
  - destruct x as [x|]; [apply IH|reflexivity].
  - change (length x = n /\ Forall (item_ok s) x <-> length x = n /\ Forall (l_wt (shape_ld s)) x).
    rewrite (Forall_iff _ _ x IH). reflexivity.
  - apply (Forall_iff _ _ x IH).
  - reflexivity.
Qed.
Lemma items_ok_wt s xs : Forall (item_ok s) xs <-> Forall (l_wt (shape_ld s)) xs.
Proof. apply Forall_iff, item_ok_wt. Qed.
Lemma unit_cost_cfac s : unit_cost s = l_cfac (shape_ld s).
Proof.
  induction s as [p| |s IH|n s IH|k s IH|A a0 z]; cbn [unit_cost]; try reflexivity; rewrite IH; reflexivity.
Qed.
Lemma cost_wgt s : forall x, cost s x = l_wgt (shape_ld s) x.
Proof.
  induction s as [p| |s IH|n s IH|k s IH|A a0 z]; intros x.
  - reflexivity.
  - reflexivity.
  - destruct x as [x|]; cbn [cost]; rewrite IH; reflexivity.
  - apply (total_sumw (cost s) (l_wgt (shape_ld s)) x IH).
  - change ((1 + unit_cost s + total (cost s) x)%N =
      (1 + l_cfac (shape_ld s) + sumw (l_wgt (shape_ld s)) x)%N).
    rewrite unit_cost_cfac. f_equal. exact (total_sumw (cost s) (l_wgt (shape_ld s)) x IH).
  - reflexivity.
Qed.
Lemma costs_wgt s xs : total (cost s) xs = sumw (l_wgt (shape_ld s)) xs.
Proof. apply total_sumw, cost_wgt. Qed.
Lemma limit_lim s : limit s = l_lim (shape_ld s).
Proof.
  induction s as [p| |s IH|n s IH|k s IH|A a0 z]; cbn [limit]; try reflexivity; rewrite IH; reflexivity.
Qed.
Lemma value_offset_voff s : forall c, value_offset s c = l_voff (shape_ld s) c.
Proof.
  induction s as [p| |s IH|n s IH|k s IH|A a0 z]; intros c; cbn [value_offset]; try reflexivity;
    rewrite IH; reflexivity.
Qed.
Lemma keeps_gran s : forall small off n,
  keeps_multiples s small off n = l_gran (shape_ld s) small off n.
Proof.
  induction s as [p| |s IH|m s IH|k s IH|A a0 z]; intros small off n; cbn [keeps_multiples];
    try reflexivity; rewrite IH; reflexivity.
Qed.
Lemma panic_safe_psafe s : forall small off,
  panic_safe s small off = l_psafe (shape_ld s) small off.
Proof.
  induction s as [p| |s IH|m s IH|k s IH|A a0 z]; intros small off; cbn [panic_safe];
    try reflexivity; rewrite IH, ?keeps_gran; reflexivity.
Qed.
Lemma resumable_nofuse s : resumable s = l_nofuse (shape_ld s).
Proof.
  induction s as [p| |s IH|m s IH|k s IH|A a0 z]; cbn [resumable]; try reflexivity; rewrite IH; reflexivity.
Qed.
Lemma resumable_try_nofuse s : resumable_try s = l_nofuse_try (shape_ld s).
Proof. destruct s; reflexivity. Qed.
Lemma held_usage s : widths_pos s -> forall c, l_inv (shape_ld s) c ->
  held s c = l_usage (shape_ld s) c.
Proof.
  induction s as [p| |s IH|n s IH|k s IH|A a0 z]; intros Hw c Hc.
  - reflexivity.
  - reflexivity.
  - cbn [widths_pos] in Hw. pose proof (shape_laws s Hw) as L.
    change (validity (cC (coll s))) in c.
    destruct c as [c b]. destruct Hc as [H1 H2]. cbn [held va_coll va_bm].
    change (l_usage (shape_ld (SNull s)) (Validity c b))
      with (va_usage (coll s) (shape_ld s) (Validity c b)).
    unfold va_usage. cbn [va_coll va_bm] in *. rewrite IH by auto. destruct b; [reflexivity|].
    rewrite (lw_len _ _ L) by auto. reflexivity.
  - destruct Hw as [H1 H2]. apply IH; [auto|]. apply Hc.
  - change (offsets (cC (coll s))) in c.
    pose proof (of_inv_rep (coll s) (shape_ld s) k c Hc) as Hr. destruct Hr as (H1 & H2 & H3 & _).
    change (l_usage (shape_ld (SList k s)) c) with (of_usage (coll s) (shape_ld s) c).
    unfold of_usage. cbn [held]. rewrite IH by auto. f_equal. rewrite H3. unfold lenN. cbn [length].
    rewrite ends_length. lia.
  - reflexivity.
Qed.

(** ** What the laws say about reading *)

Section Shows.
  Context (K : Coll) (d : LD K) (L : Laws K d).

  Lemma irep_yields xs : forall s, l_irep d s xs -> yields (k_inext K) (k_ihint K) (k_own K) s xs.
  Proof.
    induction xs as [|x xs IH]; intros s Hs; cbn [yields].
    - intros n. revert s Hs. induction n as [|n IHn]; intros s Hs; cbn [nones].
      + split; auto. rewrite (lw_ihint _ _ L s [] Hs). reflexivity.
      + split; [rewrite (lw_ihint _ _ L s [] Hs); reflexivity|].
        destruct (lw_inil _ _ L s Hs) as (s' & E & H'). eauto.
    - split; [apply (lw_ihint _ _ L s _ Hs)|].
      destruct (lw_icons _ _ L s x xs Hs) as (v & s' & E & Hv & H'). eauto 6.
  Qed.
  Lemma orep_yields xs : forall s, l_orep d s xs -> yields (k_onext K) (k_ohint K) Ret s xs.
  Proof.
    induction xs as [|x xs IH]; intros s Hs; cbn [yields].
    - intros n. revert s Hs. induction n as [|n IHn]; intros s Hs; cbn [nones].
      + split; auto. rewrite (lw_ohint _ _ L s [] Hs). reflexivity.
      + split; [rewrite (lw_ohint _ _ L s [] Hs); reflexivity|].
        destruct (lw_onil _ _ L s Hs) as (s' & E & H'). eauto.
    - split; [apply (lw_ohint _ _ L s _ Hs)|].
      destruct (lw_ocons _ _ L s x xs Hs) as (s' & E & H'). exists x, s'. auto.
  Qed.
  Lemma inv_shows c : l_inv d c -> shows K c (l_abs d c).
  Proof.
    intros H. split.
    - apply (lw_len _ _ L); auto.
    - intros i x Hx. unfold k_owned. destruct (lw_view _ _ L c i x H Hx) as (v & -> & Hv).
      cbn [obind]. rewrite Hv. reflexivity.
    - destruct (lw_iter _ _ L c H) as (s & E & Hs). exists s. split; auto. apply irep_yields; auto.
    - destruct (lw_into _ _ L c H) as (s & E & Hs). exists s. split; auto. apply orep_yields; auto.
  Qed.
End Shows.

Lemma nth_error_same {A} : forall xs ys : list A,
  (forall i, nth_error xs i = nth_error ys i) -> xs = ys.
Proof.
  induction xs as [|x xs IH]; intros [|y ys] H; auto.
  - specialize (H 0); discriminate.
  - specialize (H 0); discriminate.
  - pose proof (H 0) as H0. inversion H0. f_equal. apply IH. intros i. exact (H (S i)).
Qed.
Lemma shows_unique K c xs ys : shows K c xs -> shows K c ys -> xs = ys.
Proof.
  intros [A1 A2 _ _] [B1 B2 _ _]. rewrite A1 in B1. inversion B1 as [Hl]; clear B1 A1.
  apply nth_error_same. intros i.
  destruct (nth_error xs i) as [x|] eqn:Ex.
  - assert (Hi : i < length ys) by (rewrite <- Hl; apply nth_error_Some; congruence).
    destruct (nth_error ys i) as [y|] eqn:Ey; [|apply nth_error_None in Ey; lia].
    pose proof (A2 i x Ex) as E1. rewrite (B2 i y Ey) in E1. congruence.
  - apply nth_error_None in Ex. symmetry. apply nth_error_None. lia.
Qed.

(** ** From parts *)

Lemma of_check_ends {A} : forall zs idx prev last (xs : list A),
  of_check idx prev zs = inl last -> (prev <= N.of_nat (length xs))%N ->
  (last <= N.of_nat (length xs))%N ->
  exists ls : list (list A), zs = ends (N.to_nat prev) ls /\
    exists rest, skipn (N.to_nat prev) xs = concat ls ++ rest /\
    length (concat ls) = N.to_nat last - N.to_nat prev /\ (prev <= last)%N.
Proof.
  induction zs as [|z zs IH]; intros idx prev last xs; cbn [of_check].
  - intros E Hp Hl. inversion E; subst. exists []. split; auto.
    exists (skipn (N.to_nat last) xs). cbn. repeat split; auto; lia.
  - unfold usize_try_from. destruct (0 <=? z)%Z eqn:Ez; [|discriminate].
    destruct (Z.to_N z <? prev)%N eqn:Ep; [discriminate|]. intros E Hp Hl.
    assert (Hz : (Z.to_N z <= last)%N).
    { clear - E. revert E. generalize (S idx) (Z.to_N z). induction zs as [|y zs IH]; intros i p; cbn [of_check].
      - intros E; inversion E; lia.
      - unfold usize_try_from. destruct (0 <=? y)%Z; [|discriminate].
        destruct (Z.to_N y <? p)%N eqn:Ep; [discriminate|]. intros E. apply IH in E. lia. }
    destruct (IH _ _ _ xs E) as (ls & -> & rest & H1 & H2 & H3); [lia|auto|].
    exists (firstn (Z.to_nat z - N.to_nat prev) (skipn (N.to_nat prev) xs) :: ls).
    assert (Hlen : length (firstn (Z.to_nat z - N.to_nat prev) (skipn (N.to_nat prev) xs)) =
      Z.to_nat z - N.to_nat prev) by (rewrite firstn_length, skipn_length; lia).
    cbn [ends concat]. rewrite Hlen. split.
    { replace (N.to_nat prev + (Z.to_nat z - N.to_nat prev)) with (N.to_nat (Z.to_N z)) by lia.
      f_equal. lia. }
    exists rest. rewrite <- app_assoc. split; [|split].
    + rewrite <- H1. replace (N.to_nat (Z.to_N z)) with
        (N.to_nat prev + (Z.to_nat z - N.to_nat prev)) by lia.
      rewrite <- skipn_skipn_add. symmetry. apply firstn_skipn.
    + rewrite app_length, Hlen, H2. lia.
    + lia.
Qed.
Lemma of_check_last_in idx prev zs last : of_check idx prev zs = inl last ->
  last = prev \/ In (Z.of_N last) zs.
Proof.
  revert idx prev; induction zs as [|z zs IH]; intros idx prev; cbn [of_check].
  - intros E; inversion E; auto.
  - unfold usize_try_from. destruct (0 <=? z)%Z eqn:Ez; [|discriminate].
    destruct (Z.to_N z <? prev)%N; [discriminate|]. intros E. right.
    destruct (IH _ _ E) as [-> | H]; [left; lia|right; auto].
Qed.

Section Parts.
  Context (K : Coll) (d : LD K) (L : Laws K d).

  Lemma of_parts_inv kd c offs o : l_inv d c -> vec_ok (osz kd) offs ->
    Forall (fun z => (omin kd <= z <= omax kd)%Z) (v_items offs) ->
    of_try_from_parts K c offs = Ret (inl o) -> of_inv K d kd o.
  Proof.
    intros Hc Hv Hz. unfold of_try_from_parts. destruct (v_items offs) as [|z zs] eqn:Ei; [discriminate|].
    unfold usize_try_from. destruct (0 <=? z)%Z eqn:E0; [|discriminate].
    destruct (Z.to_N z =? 0)%N eqn:E1; [|discriminate].
    destruct (of_check 1 (Z.to_N z) zs) as [last|e] eqn:Ec; [|discriminate].
    rewrite (lw_len _ _ L) by auto. cbn [obind].
    destruct (N.of_nat (length (l_abs d c)) <? last)%N eqn:El; [discriminate|].
    intros E; inversion E; subst; clear E.
    assert (z = 0%Z) by lia. subst z. change (Z.to_N 0) with 0%N in *.
    destruct (of_check_ends zs 1 0 last (l_abs d c) Ec) as (ls & H1 & rest & H2 & H3 & _); [lia|lia|].
    cbn [N.to_nat skipn] in H1, H2.
    exists ls. unfold of_rep. cbn [of_data of_offs]. split; [auto|]. split; [auto|].
    split; [rewrite Ei, H1; reflexivity|]. split; [eauto|].
    rewrite H3. destruct (omax_val kd) as (Hom & _).
    destruct (of_check_last_in _ _ _ _ Ec) as [-> | Hin]; [lia|].
    assert (Hb : In (Z.of_N last) (0%Z :: zs)) by (right; auto).
    apply (proj1 (Forall_forall _ _) Hz) in Hb. lia.
  Qed.
  Lemma fl_parts_inv n c c' : 0 < n -> l_inv d c ->
    fl_try_from_parts K n c = Ret (inl c') -> c' = c /\ fl_inv K d n c.
  Proof.
    intros Hn Hc. unfold fl_try_from_parts. rewrite (lw_len _ _ L) by auto. cbn [obind].
    destruct n as [|n]; [lia|].
    destruct (Nat.eqb (length (l_abs d c) mod S n) 0) eqn:E; [|discriminate].
    intros E2; inversion E2; subst. split; auto. split; auto.
    apply Nat.mod_divide; lia.
  Qed.
  Lemma va_parts_inv c b v : l_inv d c -> bm_ok b ->
    va_try_from_parts K c b = Ret (inl v) ->
    v = Validity c (Some b) /\ length (bm_abs b) = length (l_abs d c).
  Proof.
    intros Hc Hb. unfold va_try_from_parts. rewrite (lw_len _ _ L) by auto. cbn [obind].
    destruct (Nat.eqb (length (l_abs d c)) (bm_len b)) eqn:E; [|discriminate].
    intros E2; inversion E2; subst. split; auto. rewrite bm_abs_length by auto.
    unfold bm_len in E. lia.
  Qed.
End Parts.

Lemma bm_parts_ok buf bits off b : vec_fits u8sz buf ->
  bm_try_from_parts buf bits off = inl b ->
  b = Bitmap buf (N.to_nat bits) (N.to_nat off) /\ bm_ok b.
Proof.
  intros Hb. unfold bm_try_from_parts, checked_add.
  destruct (off + bits <=? usize_max)%N eqn:E1; [|discriminate].
  destruct (off + bits <=? sat_mul (lenN (v_items buf)) 8)%N eqn:E2; [|discriminate].
  intros E; inversion E; subst. split; auto. split; [exact Hb|]. cbn [bm_off bm_bits bm_buf].
  unfold sat_mul, lenN in E2. lia.
Qed.

Lemma room_in_fits s : widths_pos s -> forall R c (it : iter (cA (coll s)) R),
  l_inv (shape_ld s) c -> room_in s c it -> fits_it (shape_ld s) c it.
Proof.
  intros Hw R c it Hc. unfold room_in, fits_it. rewrite limit_lim, (held_usage s Hw c Hc).
  rewrite unit_cost_cfac. intros H. eapply affords_mono; [| | |exact H]; try lia.
  intros a. rewrite cost_wgt. lia.
Qed.
Lemma room_new_fits s R (it : iter (cA (coll s)) R) : room_new s it ->
  affords (l_wgt (shape_ld s)) (l_cfac (shape_ld s)) (l_lim (shape_ld s)) 0 it.
Proof.
  unfold room_new. rewrite limit_lim, unit_cost_cfac. intros H.
  eapply affords_mono; [| | |exact H]; try lia. intros a. rewrite cost_wgt. lia.
Qed.
(** Iterators that promise no more than they yield need no more room. *)
Lemma room_honest s c R (it : iter (cA (coll s)) R) : widths_pos s ->
  Forall (item_ok s) (items_of it) -> fused it -> honest it ->
  room_for s c (items_of it) -> room_in s c it.
Proof.
  intros Hw Hi Hf Hh H. pose proof (shape_laws s Hw) as L. apply items_ok_wt in Hi.
  apply affords_honest; auto. eapply Forall_impl; [|exact Hi]. intros a Ha.
  rewrite cost_wgt, unit_cost_cfac. apply (lw_cfac _ _ L); auto.
Qed.
Lemma room_new_honest s R (it : iter (cA (coll s)) R) : widths_pos s ->
  Forall (item_ok s) (items_of it) -> fused it -> honest it ->
  (total (cost s) (items_of it) <= limit s)%N -> room_new s it.
Proof.
  intros Hw Hi Hf Hh H. pose proof (shape_laws s Hw) as L. apply items_ok_wt in Hi.
  apply affords_honest; auto. eapply Forall_impl; [|exact Hi]. intros a Ha.
  rewrite cost_wgt, unit_cost_cfac. apply (lw_cfac _ _ L); auto.
Qed.
Lemma room_new_list s xs : widths_pos s -> Forall (item_ok s) xs ->
  (total (cost s) xs <= limit s)%N -> room_new s (it_list xs).
Proof.
  intros Hw Hi H. pose proof (shape_laws s Hw) as L. apply items_ok_wt in Hi.
  apply affords_list; auto. eapply Forall_impl; [|exact Hi]. intros a Ha.
  rewrite cost_wgt, unit_cost_cfac. apply (lw_cfac _ _ L); auto.
Qed.
Lemma room_list s c xs : widths_pos s -> Forall (item_ok s) xs ->
  room_for s c xs -> room_in s c (it_list xs).
Proof.
  intros Hw Hi H. pose proof (shape_laws s Hw) as L. apply items_ok_wt in Hi.
  apply affords_list; auto. eapply Forall_impl; [|exact Hi]. intros a Ha.
  rewrite cost_wgt, unit_cost_cfac. apply (lw_cfac _ _ L); auto.
Qed.

(** ** Operations preserve the invariant *)

Lemma run_parts {A R} (it : iter A R) : exists r, run it = (items_of it, fin_of it, r).
Proof. unfold items_of, fin_of. destruct (run it) as [[xs e] r]. eauto. Qed.

(** What one operation does, on any shape. *)
Lemma step_spec s c p c' o : widths_pos s -> l_inv (shape_ld s) c ->
  Forall (item_ok s) (op_items p) -> step (coll s) c p = (c', o) -> o <> OAbort ->
  panic_ok s c p o ->
  l_inv (shape_ld s) c' /\ value_offset s c' = value_offset s c /\
  list_step (l_abs (shape_ld s) c) p o (l_abs (shape_ld s) c') /\
  (held s c' <= held s c + total (cost s) (op_items p))%N.
Proof.
  intros Hw Hc Hi Hs Ho Hp. pose proof (shape_laws s Hw) as L.
  rewrite !value_offset_voff, costs_wgt, (held_usage s Hw c Hc).
  assert (Hheld : forall u, l_inv (shape_ld s) c' -> (l_usage (shape_ld s) c' <= u)%N ->
    (held s c' <= u)%N) by (intros u H; rewrite (held_usage s Hw c' H); auto).
  apply items_ok_wt in Hi. unfold panic_ok in Hp.
  destruct p as [it|it w|n|n w|n]; cbn [step op_items] in *.
  - destruct (k_extend (coll s) c it) as [[c1 r1] o1] eqn:E. inversion Hs; subst; clear Hs.
    destruct (run_parts it) as [r Hr].
    destruct (lw_extend _ _ L _ _ _ _ _ _ _ _ _ Hc Hi Hr E) as [H1 H2].
    unfold list_step. destruct o; try contradiction.
    + destruct H1 as (He & _ & (F1 & F2 & F3 & F4)). auto 10.
    + specialize (Hp eq_refl). rewrite !value_offset_voff, !panic_safe_psafe in Hp.
      assert (Hx : exists sm, partial_ext (shape_ld s) sm c c' (items_of it)).
      { destruct Hp as [Hp | [Hp1 Hp2]].
        - exists false. apply H1; [discriminate|auto].
        - exists true. apply H1; [|auto]. intros _. apply room_in_fits; auto. }
      destruct Hx as (sm & X1 & X2 & X3 & k & X4 & X5 & _). eauto 10.
  - destruct (k_try_extend (coll s) c it w) as [[[c1 r1] o1] w1] eqn:E. inversion Hs; subst; clear Hs.
    destruct (run_parts it) as [r Hr].
    pose proof (lw_try_extend _ _ L _ _ _ _ _ _ _ _ _ _ _ Hc Hi Hr E) as H1.
    unfold list_step. destruct o; try contradiction.
    + destruct H1 as (He & _ & (F1 & F2 & F3 & F4)). auto 10.
    + destruct H1 as (F1 & F2 & F3 & F4). auto 10.
    + destruct H1 as [He H1]. specialize (Hp eq_refl).
      rewrite !value_offset_voff, !panic_safe_psafe in Hp.
      destruct (H1 Hp) as (X1 & X2 & X3 & k & X4 & X5 & _). eauto 12.
  - destruct (lw_reserve _ _ L _ _ _ _ Hc Hs) as ((F1 & F2 & F3 & F4) & H2 & _).
    cbn [sumw]. rewrite N.add_0_r. split; [auto|]. split; [auto|]. split; [|auto].
    unfold list_step. destruct o; congruence.
  - destruct (k_try_reserve (coll s) c n w) as [[c1 o1] w1] eqn:E. inversion Hs; subst; clear Hs.
    destruct (lw_try_reserve _ _ L _ _ _ _ _ _ Hc E) as ((F1 & F2 & F3 & F4) & H2).
    cbn [sumw]. rewrite N.add_0_r. split; [auto|]. split; [auto|]. split; [|auto].
    unfold list_step. destruct H2 as [-> | ->]; auto.
  - destruct (lw_truncate _ _ L c n Hc) as (c1 & E & F1 & F2 & F3 & F4).
    rewrite E in Hs. inversion Hs; subst; clear Hs.
    cbn [sumw]. rewrite N.add_0_r. unfold list_step. auto.
Qed.

Lemma built_inv s c : built s c -> widths_pos s -> l_inv (shape_ld s) c.
Proof.
  induction 1 as [p v Hv | A a0 z v Hv | buf bits off b Hbuf Hb | s c b v Hc IHc Hb IHb Hv | s c Hc IHc
    | n s c c' Hc IHc Hf | k s c offs o Hc IHc Hoffs Hz Ho | s v Hv IHv | s v b Hs Hv IHv Eb
    | n s c Hn Hc IHc | k s o Ho IHo | s | s n c Hc | s n w c w' Hc | s R it c r Hf Hi Hc
    | s R it w c r w' Hf Hi Hc | s c p c' o Hc IHc Hi Hs Hab Hp]; intros Hw;
    try (cbn [widths_pos] in Hw).
  - exact Hv.
  - exact Hv.
  - destruct (bm_parts_ok _ _ _ _ Hbuf Hb) as [_ H]. exact H.
  - specialize (IHc Hw). specialize (IHb I).
    destruct (va_parts_inv _ _ (shape_laws s Hw) _ _ _ IHc IHb Hv) as [-> Hl].
    split; [exact IHc|]. split; [exact IHb|]. cbn [va_coll]. lia.
  - split; [exact (IHc Hw)|]. exact I.
  - destruct Hw as [Hn Hw]. destruct (fl_parts_inv _ _ (shape_laws s Hw) _ _ _ Hn (IHc Hw) Hf) as [-> H].
    exact H.
  - exact (of_parts_inv _ _ (shape_laws s Hw) _ _ _ _ (IHc Hw) Hoffs Hz Ho).
  - apply (IHv Hw).
  - destruct (IHv Hs) as [_ H]. rewrite Eb in H. apply H.
  - apply (IHc (conj Hn Hw)).
  - destruct (IHo Hw) as (ls & H & _). exact H.
  - apply (lw_default _ _ (shape_laws s Hw)).
  - pose proof (lw_with_capacity _ _ (shape_laws s Hw) n) as [H _]. rewrite Hc in H. apply H.
  - pose proof (lw_try_with_capacity _ _ (shape_laws s Hw) n w _ _ Hc) as H. apply H.
  - pose proof (shape_laws s Hw) as L. apply items_ok_wt in Hi. rewrite resumable_nofuse in Hf.
    destruct (run_parts it) as [r0 Hr].
    destruct Hc as [Hc | Hc].
    + destruct (lw_from_iter _ _ L _ _ _ _ _ _ _ Hf Hi Hr Hc) as [(_ & _ & _ & H) _]. apply H.
    + destruct (lw_from_iter_in _ _ L _ _ _ _ _ _ _ Hf Hi Hr Hc) as [(_ & _ & _ & H) _]. apply H.
  - pose proof (shape_laws s Hw) as L. apply items_ok_wt in Hi. rewrite resumable_try_nofuse in Hf.
    destruct (run_parts it) as [r0 Hr].
    destruct (lw_try_from_iter _ _ L _ _ _ _ _ _ _ _ _ Hf Hi Hr Hc) as (_ & H & _). apply H.
  - eapply step_spec; eauto.
Qed.
