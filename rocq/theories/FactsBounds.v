(** * Facts about how much memory is asked for *)
From Coq Require Import List NArith ZArith Bool Arith Lia ZifyBool ZifyNat ZifyN.
From Verif Require Import Base Iter Spec VecModel BitmapModel CollModel ValidityModel FlattenModel
  OffsetsModel LayoutModel CloneModel IterLemmas VecLemmas RoomLemmas BitmapLemmas BitmapLemmas2 HonestLemmas
  Laws LawsBase LawsFlatten LawsValidity LawsSealed LawsOffsets Reach Calm ReachLemmas SpecFixed
  SpecLive SpecLived SpecCaps LiveBase LiveLaws WeakLaws WeakNull WeakList FactsParts FactsLived FactsCaps
  SpecBounds BoundBase BoundLaws BoundLists.
Import ListNotations.

Local Arguments Nat.div : simpl never.
Local Arguments Nat.modulo : simpl never.
Local Arguments Nat.mul : simpl never.
Local Arguments N.add : simpl never.
Local Arguments N.mul : simpl never.
Local Arguments N.div : simpl never.
Local Arguments max_items : simpl never.
Local Arguments smallest : simpl never.

Fixpoint tidy_of (s : shape) : cC (coll s) -> Prop :=
  match s with
  | SVec _ | SAny _ _ _ | SBits => any
  | SNull s => va_tidy (coll s) (shape_wd s) (tidy_of s)
  | SFixed _ s => tidy_of s
  | SList _ s => of_tidy (coll s) (shape_wd s) (tidy_of s)
  end.
Fixpoint pre_of (s : shape) : cC (coll s) -> Prop :=
  match s with
  | SVec _ | SAny _ _ _ | SBits => any
  | SNull s => va_pre (coll s) (pre_of s)
  | SFixed _ s => pre_of s
  | SList _ s => of_pre (coll s) (tidy_of s)
  end.
Fixpoint solid_of (s : shape) : cC (coll s) -> Prop :=
  match s with
  | SVec _ | SAny _ _ _ | SBits => any
  | SNull s => va_solid (coll s) (solid_of s)
  | SFixed _ s => solid_of s
  | SList _ s => any
  end.

Lemma bits_length (b : bitmap) : bm_ok b -> length (bm_abs b) = bm_bits b.
Proof. exact (bm_abs_length b). Qed.

Lemma shape_tidying s : widths_pos s ->
  Tidying (coll s) (shape_wd s) (stored s) (tidy_of s) (pre_of s).
Proof.
  induction s as [p| |s IH|n s IH|k s IH|A a0 z]; cbn [widths_pos]; intros Hw.
  - exact (vec_tidying N 0%N (psz p) any (shape_wd (SVec p)) (fun v => eq_refl)).
  - exact (bm_tidying _).
  - exact (va_tidying (coll s) _ _ (shape_wlaws s Hw) _ _ any _ (IH Hw)).
  - destruct Hw as [Hn Hw]. exact (fl_tidying (coll s) _ _ (shape_wlaws s Hw) n Hn _ _ any _ (IH Hw)).
  - exact (of_tidying (coll s) _ _ (shape_wlaws s Hw) k _ _ any _ (IH Hw)).
  - exact (vec_tidying A a0 (N.pos z) any (shape_wd (SAny A a0 z)) (fun v => eq_refl)).
Qed.
Lemma shape_rooms s : widths_pos s -> Rooms (coll s) (shape_wd s) (stored s) (tidy_of s).
Proof.
  induction s as [p| |s IH|n s IH|k s IH|A a0 z]; cbn [widths_pos]; intros Hw.
  - exact (vec_rooms N 0%N (psz p) any (shape_wd (SVec p)) (fun v => eq_refl)).
  - exact (bm_rooms (shape_wd SBits) (fun b H => H) (fun b H => bits_length b H)).
  - exact (va_rooms (coll s) _ _ (shape_wlaws s Hw) _ _ any (IH Hw)).
  - destruct Hw as [Hn Hw]. exact (fl_rooms (coll s) _ n _ _ (IH Hw)).
  - exact (of_rooms (coll s) _ _ (shape_wlaws s Hw) k _ _ (IH Hw)).
  - exact (vec_rooms A a0 (N.pos z) any (shape_wd (SAny A a0 z)) (fun v => eq_refl)).
Qed.
Lemma shape_fits s : widths_pos s -> no_lists s ->
  Fits (coll s) (shape_wd s) (stored s) (solid_of s).
Proof.
  induction s as [p| |s IH|n s IH|k s IH|A a0 z]; cbn [widths_pos no_lists]; intros Hw Hn.
  - exact (vec_fits N 0%N (psz p) (shape_wd (SVec p)) (fun v => eq_refl)).
  - exact (bm_fits (shape_wd SBits) (fun b H => H) (fun b H => bits_length b H)).
  - exact (va_fits (coll s) _ _ _ (IH Hw Hn)).
  - destruct Hw as [Hm Hw]. exact (fl_fits (coll s) _ n Hm _ any _ any (IH Hw Hn)).
  - destruct Hn.
  - exact (vec_fits A a0 (N.pos z) (shape_wd (SAny A a0 z)) (fun v => eq_refl)).
Qed.
Lemma shape_bounds s g : widths_pos s -> no_lists s -> rising g ->
  (forall e u, (multiple 2 e u <= g e u)%N) ->
  Bounds (coll s) (l_wt (shape_ld s)) (shape_wd s) (stored s) (tidy_of s) (solid_of s) (pre_of s) g.
Proof.
  intros Hw Hn Hr Hg.
  induction s as [p| |s IH|n s IH|k s IH|A a0 z]; cbn [widths_pos no_lists] in *.
  - exact (vec_bounds N 0%N (psz p) _ _ g Hr Hg).
  - exact (bm_bounds _ (shape_wd SBits) (fun b H => H) (fun b H => bits_length b H) g Hr Hg).
  - exact (va_bounds (coll s) _ _ (shape_wlaws s Hw) _ _ _ _ (shape_tidying s Hw) g (IH Hw Hn)).
  - destruct Hw as [Hm Hw]. exact (fl_bounds (coll s) _ _ n _ _ _ _ g (IH Hw Hn)).
  - destruct Hn.
  - exact (vec_bounds A a0 (N.pos z) _ _ g Hr Hg).
Qed.
Lemma shape_bounds4 s : widths_pos s -> flat_lists s ->
  Bounds (coll s) (l_wt (shape_ld s)) (shape_wd s) (stored s) (tidy_of s) (solid_of s) (pre_of s)
    (multiple 4).
Proof.
  induction s as [p| |s IH|n s IH|k s IH|A a0 z]; cbn [widths_pos flat_lists]; intros Hw Hn.
  - exact (vec_bounds N 0%N (psz p) _ _ _ (rising_multiple 4) four).
  - exact (bm_bounds _ (shape_wd SBits) (fun b H => H) (fun b H => bits_length b H) _ (rising_multiple 4) four).
  - exact (va_bounds (coll s) _ _ (shape_wlaws s Hw) _ _ _ _ (shape_tidying s Hw) _ (IH Hw Hn)).
  - destruct Hw as [Hm Hw]. exact (fl_bounds (coll s) _ _ n _ _ _ _ _ (IH Hw Hn)).
  - exact (of_bounds (coll s) _ _ (shape_wlaws s Hw) k _ _ _ _ (shape_tidying s Hw)
      (shape_bounds s _ Hw Hn (rising_multiple 2) (fun e u => N.le_refl _))
      (shape_rooms s Hw) (shape_fits s Hw Hn)).
  - exact (vec_bounds A a0 (N.pos z) _ _ _ (rising_multiple 4) four).
Qed.
Lemma shape_try_bounds s e : widths_pos s ->
  TryBounds (coll s) (l_wt (shape_ld s)) (shape_wd s) (stored s) (tidy_of s) (pre_of s) e.
Proof.
  induction s as [p| |s IH|n s IH|k s IH|A a0 z]; cbn [widths_pos]; intros Hw.
  - exact (vec_try_bounds N 0%N (psz p) _ _ e).
  - exact (bm_try_bounds _ (shape_wd SBits) (fun b H => H) e).
  - exact (va_try_bounds (coll s) _ _ (shape_wlaws s Hw) _ _ any _ (shape_tidying s Hw) e (IH Hw)).
  - destruct Hw as [Hm Hw]. exact (fl_try_bounds (coll s) _ _ n _ _ _ e (IH Hw)).
  - exact (of_try_bounds (coll s) _ _ (shape_wlaws s Hw) k _ _ any _ (shape_tidying s Hw) e (IH Hw)).
  - exact (vec_try_bounds A a0 (N.pos z) _ _ e).
Qed.

(** ** What is known of a collection *)
Lemma no_lists_pre s : no_lists s -> forall c, pre_of s c.
Proof.
  induction s as [p| |s IH|n s IH|k s IH|A a0 z]; cbn [no_lists]; intros Hn c; try exact I.
  - exact (IH Hn (va_coll c)).
  - exact (IH Hn c).
  - destruct Hn.
Qed.
Lemma no_lists_ends s : no_lists s -> forall c, ends_flush s c.
Proof.
  induction s as [p| |s IH|n s IH|k s IH|A a0 z]; cbn [no_lists]; intros Hn c; try exact I.
  - exact (IH Hn (va_coll c)).
  - exact (IH Hn c).
  - destruct Hn.
Qed.
Lemma flat_inner s : flat_lists s -> forall c, inner_flush s c.
Proof.
  induction s as [p| |s IH|n s IH|k s IH|A a0 z]; cbn [flat_lists]; intros Hn c; try exact I.
  - exact (IH Hn (va_coll c)).
  - exact (IH Hn c).
  - exact (no_lists_ends s Hn (of_data c)).
Qed.
Lemma calm_weak s : forall c, l_inv (calm_ld s) c ->
  w_inv (shape_wd s) c /\ w_abs (shape_wd s) c = l_abs (calm_ld s) c.
Proof.
  induction s as [p| |s IH|n s IH|k s IH|A a0 z]; intros c Hc.
  - split; [exact Hc|reflexivity].
  - split; [exact Hc|reflexivity].
  - change (validity (cC (coll s))) in c. destruct Hc as [[H1 H2] _]. destruct (IH _ H1) as [G1 G2].
    split.
    + change (wva_inv (coll s) (shape_wd s) c). split; [exact G1|].
      destruct (va_bm c); [|exact I]. rewrite G2. exact H2.
    + change (wva_abs (coll s) (shape_wd s) c = va_abs (coll s) (calm_ld s) c).
      unfold wva_abs, va_abs, wva_bits, va_bits. rewrite G2. reflexivity.
  - destruct Hc as [H1 H2]. destruct (IH _ H1) as [G1 G2]. split; [exact G1|].
    change (chunks n (w_abs (shape_wd s) c) = chunks n (l_abs (calm_ld s) c)).
    rewrite G2. reflexivity.
  - change (offsets (cC (coll s))) in c. destruct Hc as (ls & H1 & H2 & H3 & H4 & H5).
    destruct (IH _ H1) as [G1 G2]. split.
    + change (wof_inv (coll s) (shape_wd s) k c). exists ls. unfold wof_rep. rewrite G2.
      split; [exact G1|]. split; [exact H2|]. split; [exact H3|]. split; [exact H4|exact H5].
    + change (wof_abs (coll s) (shape_wd s) c = of_abs (coll s) (calm_ld s) c).
      unfold wof_abs, of_abs. rewrite G2. reflexivity.
  - split; [exact Hc|reflexivity].
Qed.
Lemma last_of_nth {A} (l : list A) d x : nth_error l (length l - 1) = Some x -> last l d = x.
Proof.
  intros H. destruct (exists_last (l := l)) as (l0 & y & ->).
  { intros ->. discriminate. }
  rewrite app_length, nth_error_app2 in H by (cbn [length]; lia). cbn [length] in H.
  replace (length l0 + 1 - 1 - length l0) with 0 in H by lia. injection H as <-. apply last_last.
Qed.
Lemma calm_tidy s : widths_pos s -> forall c, l_inv (calm_ld s) c -> ends_flush s c -> tidy_of s c.
Proof.
  induction s as [p| |s IH|n s IH|k s IH|A a0 z]; cbn [widths_pos]; intros Hw c Hc Hf; try exact I.
  - change (validity (cC (coll s))) in c. destruct Hc as [[H1 H2] H3].
    change (va_tidy (coll s) (shape_wd s) (tidy_of s) c). split; [exact (IH Hw _ H1 Hf)|].
    destruct (calm_weak s _ H1) as [_ G]. unfold whole in H3. destruct (va_bm c) as [b|]; [|exact I].
    rewrite G, <- H3. apply bm_abs_length. apply H2.
  - destruct Hw as [Hn Hw]. destruct Hc as [H1 _]. exact (IH Hw c H1 Hf).
  - change (offsets (cC (coll s))) in c.
    change (of_tidy (coll s) (shape_wd s) (tidy_of s) c).
    destruct (calm_weak (SList k s) c Hc) as [G _].
    change (wof_inv (coll s) (shape_wd s) k c) in G.
    pose proof (wof_inv_rep _ _ _ _ G) as Hrep.
    destruct Hf as [F1 F2]. destruct Hc as (ls & H1 & _).
    split; [exact (IH Hw _ H1 F1)|].
    pose proof (wof_last _ _ _ _ _ Hrep) as Hl.
    pose proof Hrep as (H1' & _). rewrite (ww_len _ _ _ (shape_wlaws s Hw) _ H1') in F2.
    injection F2 as F2. rewrite F2. unfold last_end.
    assert (E : last (v_items (of_offs c)) 0%Z =
      Z.of_nat (length (concat (wof_abs (coll s) (shape_wd s) c)))).
    { exact (last_of_nth _ _ _ Hl). }
    rewrite E. lia.
Qed.
Lemma calm_pre s : widths_pos s -> forall c, l_inv (calm_ld s) c -> inner_flush s c -> pre_of s c.
Proof.
  induction s as [p| |s IH|n s IH|k s IH|A a0 z]; cbn [widths_pos]; intros Hw c Hc Hf; try exact I.
  - change (validity (cC (coll s))) in c. destruct Hc as [[H1 H2] H3]. exact (IH Hw _ H1 Hf).
  - destruct Hw as [Hn Hw]. destruct Hc as [H1 _]. exact (IH Hw c H1 Hf).
  - change (offsets (cC (coll s))) in c. destruct Hc as (ls & H1 & _).
    exact (calm_tidy s Hw _ H1 Hf).
Qed.

(** ** The theorems *)
Lemma capd_bounded g a b : capd g a b -> Forall2 (bounded g) a b.
Proof. intros H. induction H as [|x y a b [[A _] H] _ IH]; constructor; auto. split; assumption. Qed.
Lemma later_bounded g n a b : Forall2 (capped (later g n)) a b -> Forall2 (bounded_for g n) a b.
Proof. intros H. induction H as [|x y a b [[A _] H] _ IH]; constructor; auto. split; assumption. Qed.
Lemma good_parts s R (it : iter (cA (coll s)) R) : good s it ->
  honest it /\ Forall (l_wt (shape_ld s)) (items_of it) /\ exists r, run it = (items_of it, FStop, r).
Proof.
  intros (Hf & Hh & Hi). split; [exact Hh|]. split; [apply (Forall_iff _ _ _ (item_ok_wt s)); exact Hi|].
  destruct (run_parts it) as [r Hr]. exists r. rewrite <- Hf. exact Hr.
Qed.

Theorem extend_bound : forall s, widths_pos s -> no_lists s -> forall c, lived s c ->
  forall R (it : iter (cA (coll s)) R) c' r, good s it ->
  k_extend (coll s) c it = (c', r, ODone) ->
  Forall2 (bounded (multiple 2)) (stored s c) (stored s c').
Proof.
  intros s Hw Hn c Hc R it c' r Hg E. destruct (good_parts s R it Hg) as (Hh & Hi & r0 & Hr).
  apply capd_bounded.
  apply (bn_extend _ _ _ _ _ _ _ _
    (shape_bounds s _ Hw Hn (rising_multiple 2) (fun e u => N.le_refl _))
    R c it _ _ _ _ (lived_inv s c Hc Hw) (no_lists_pre s Hn c) Hi Hr Hh E).
Qed.
Theorem extend_bound_lists : forall s, widths_pos s -> flat_lists s -> forall c, calm s c ->
  forall R (it : iter (cA (coll s)) R) c' r, good s it ->
  k_extend (coll s) c it = (c', r, ODone) ->
  Forall2 (bounded (multiple 4)) (stored s c) (stored s c').
Proof.
  intros s Hw Hn c Hc R it c' r Hg E. destruct (good_parts s R it Hg) as (Hh & Hi & r0 & Hr).
  pose proof (calm_inv s c Hc Hw) as Hinv. apply capd_bounded.
  apply (bn_extend _ _ _ _ _ _ _ _ (shape_bounds4 s Hw Hn) R c it _ _ _ _
    (proj1 (calm_weak s c Hinv)) (calm_pre s Hw c Hinv (flat_inner s Hn c)) Hi Hr Hh E).
Qed.
Theorem try_extend_bound : forall s, widths_pos s -> no_lists s -> forall c, lived s c ->
  forall R (it : iter (cA (coll s)) R) e w c' r w', good s it -> modest e w ->
  k_try_extend (coll s) c it w = (c', r, ODone, w') ->
  Forall2 (bounded (granted e)) (stored s c) (stored s c').
Proof.
  intros s Hw Hn c Hc R it e w c' r w' Hg He E. destruct (good_parts s R it Hg) as (Hh & Hi & r0 & Hr).
  apply capd_bounded.
  apply (tb_extend _ _ _ _ _ _ _ (shape_try_bounds s e Hw)
    R c it _ _ _ _ _ _ (lived_inv s c Hc Hw) (no_lists_pre s Hn c) He Hi Hr Hh E).
Qed.
Theorem try_extend_bound_lists : forall s, widths_pos s -> forall c, calm s c -> inner_flush s c ->
  forall R (it : iter (cA (coll s)) R) e w c' r w', good s it -> modest e w ->
  k_try_extend (coll s) c it w = (c', r, ODone, w') ->
  Forall2 (bounded (granted e)) (stored s c) (stored s c').
Proof.
  intros s Hw c Hc Hf R it e w c' r w' Hg He E. destruct (good_parts s R it Hg) as (Hh & Hi & r0 & Hr).
  pose proof (calm_inv s c Hc Hw) as Hinv. apply capd_bounded.
  apply (tb_extend _ _ _ _ _ _ _ (shape_try_bounds s e Hw)
    R c it _ _ _ _ _ _ (proj1 (calm_weak s c Hinv)) (calm_pre s Hw c Hinv Hf) He Hi Hr Hh E).
Qed.
Theorem reserve_bound : forall s, widths_pos s -> forall c n c', lived s c ->
  k_reserve (coll s) c n = (c', ODone) ->
  Forall2 (bounded_for (multiple 2) n) (stored s c) (stored s c').
Proof.
  intros s Hw c n c' Hc E. apply later_bounded.
  apply (rm_reserve _ _ _ _ (shape_rooms s Hw) c n c' (lived_inv s c Hc Hw) E).
Qed.
Theorem try_reserve_bound : forall s, widths_pos s -> forall c n e w c' w', lived s c ->
  modest e w -> k_try_reserve (coll s) c n w = (c', ODone, w') ->
  Forall2 (bounded_for (granted e) n) (stored s c) (stored s c').
Proof.
  intros s Hw c n e w c' w' Hc He E. apply later_bounded.
  apply (rm_try_reserve _ _ _ _ (shape_rooms s Hw) c n w e c' w' (lived_inv s c Hc Hw) He E).
Qed.

(** ** Creation *)
Lemma bits_takes n : bytes_for_bits n = ((n + 7) / 8)%N.
Proof. unfold bytes_for_bits. reflexivity. Qed.
Lemma vec_new_cap A e n (v : vec A) : vec_with_capacity e n = BOk v -> v = Vec [] n.
Proof.
  unfold vec_with_capacity. destruct (_ <? _)%N; [discriminate|]. destruct (_ <? _)%N; [discriminate|].
  intros E. injection E as <-. reflexivity.
Qed.
Lemma vec_first {A} esz cap (x : A) : (1 <= cap)%N ->
  vec_extend esz (Vec [] cap) (it_list [x]) = (Vec [x] cap, tt, ODone).
Proof.
  intros H. unfold vec_extend. cbn. destruct cap as [|q]; [lia|]. reflexivity.
Qed.
Lemma vec_first_try {A} esz cap (x : A) w : (1 <= cap)%N ->
  vec_try_extend esz (Vec [] cap) (it_list [x]) w = (Vec [x] cap, tt, ODone, w).
Proof.
  intros H. unfold vec_try_extend, vec_try_reserve. cbn [it_list it_hint]. cbn.
  destruct (N.leb_spec 1 (cap - 0)) as [_|X]; [|lia]. cbn. destruct cap as [|q]; [lia|]. reflexivity.
Qed.
Theorem with_capacity_exact : forall s n c, k_with_capacity (coll s) n = BOk c ->
  Forall (fun b => b_cap b = b_used b + b_takes b n)%N (stored s c).
Proof.
  induction s as [p| |s IH|m s IH|k s IH|A a0 z]; intros n c E.
  - apply vec_new_cap in E. subst c. constructor; [|constructor]. reflexivity.
  - change bitmap in c. change (bm_with_capacity n = BOk c) in E. unfold bm_with_capacity in E.
    destruct (vec_with_capacity u8sz (bytes_for_bits n)) as [v| | |] eqn:Ev; try discriminate.
    apply vec_new_cap in Ev. injection E as <-. subst v. constructor; [|constructor]. reflexivity.
  - change (validity (cC (coll s))) in c. change (va_with_capacity (coll s) n = BOk c) in E.
    unfold va_with_capacity in E. destruct (k_with_capacity (coll s) n) as [c0| | |] eqn:Ec; try discriminate.
    unfold bm_with_capacity in E.
    destruct (vec_with_capacity u8sz (bytes_for_bits n)) as [v| | |] eqn:Ev; try discriminate.
    apply vec_new_cap in Ev. injection E as <-. subst v.
    apply Forall_app. split; [exact (IH _ _ Ec)|]. constructor; [|constructor]. reflexivity.
  - change (fl_with_capacity (coll s) m n = BOk c) in E. unfold fl_with_capacity, strict_mul in E.
    destruct (_ <=? _)%N; [|discriminate]. pose proof (IH _ _ E) as H.
    change (stored (SFixed m s) c) with (map (rows_of m) (stored s c)).
    induction H; cbn [map]; constructor; auto.
  - change (offsets (cC (coll s))) in c. change (of_with_capacity (coll s) k n = BOk c) in E.
    unfold of_with_capacity, strict_add in E.
    destruct (k_with_capacity (coll s) n) as [d0| | |] eqn:Ec; try discriminate.
    destruct (_ <=? _)%N; [|discriminate].
    destruct (vec_with_capacity (osz k) (n + 1)) as [v| | |] eqn:Ev; try discriminate.
    apply vec_new_cap in Ev. subst v. rewrite vec_first in E by lia. injection E as <-.
    apply Forall_app. split; [exact (IH _ _ Ec)|]. constructor; [|constructor].
    change ((n + 1) = 1 + n)%N. lia.
  - apply vec_new_cap in E. subst c. constructor; [|constructor]. reflexivity.
Qed.
Lemma vec_new_try {A} esz n w e (v : vec A) w' : modest e w ->
  vec_try_with_capacity esz n w = (BOk v, w') ->
  modest e w' /\ v_items v = [] /\ (n <= v_cap v)%N /\ (v_cap v <= n + e)%N.
Proof.
  unfold vec_try_with_capacity. intros Hw.
  destruct (vec_try_reserve esz vec_new n w) as [[v1 o1] w1] eqn:E. destruct o1; try discriminate.
  intros H. injection H as <- <-.
  destruct (vec_try_reserve_bound _ _ _ _ _ _ _ _ Hw E) as (Hi & Hw1 & Hc).
  cbn [vec_new v_items v_cap] in *. split; [exact Hw1|]. split; [exact Hi|]. split.
  - revert E. unfold vec_try_reserve. cbn [vec_new v_items v_cap]. rewrite (@lenN_nil A).
    destruct (N.leb_spec n (0 - 0)).
    { intros E. injection E as <- <-. cbn. lia. }
    destruct (N.ltb_spec (max_items esz) (0 + n)); [discriminate|].
    destruct w as [|[extra|] w0]; intros E; try discriminate; injection E as <- <-; cbn [v_cap]; lia.
  - rewrite (@lenN_nil A) in Hc. lia.
Qed.
Theorem try_with_capacity_close : forall s e n w c w', modest e w ->
  k_try_with_capacity (coll s) n w = (BOk c, w') ->
  modest e w' /\
  Forall (fun b => b_used b + b_takes b n <= b_cap b <= b_used b + b_takes b n + e)%N (stored s c).
Proof.
  induction s as [p| |s IH|m s IH|k s IH|A a0 z]; intros e n w c w' Hw E.
  - destruct (vec_new_try _ _ _ _ _ _ Hw E) as (H1 & H2 & H3 & H4). split; [exact H1|].
    constructor; [|constructor]. cbn [b_used b_cap b_takes]. rewrite H2. split; [exact H3|exact H4].
  - change bitmap in c. change (bm_try_with_capacity n w = (BOk c, w')) in E. unfold bm_try_with_capacity in E.
    destruct (vec_try_with_capacity u8sz (bytes_for_bits n) w) as [rv w1] eqn:Ev.
    destruct rv as [v| | |]; try discriminate. injection E as <- <-.
    destruct (vec_new_try _ _ _ _ _ _ Hw Ev) as (H1 & H2 & H3 & H4). split; [exact H1|].
    constructor; [|constructor]. cbn [bit_buffer b_used b_cap b_takes bm_buf]. rewrite H2.
    split; [exact H3|exact H4].
  - change (validity (cC (coll s))) in c. change (va_try_with_capacity (coll s) n w = (BOk c, w')) in E.
    unfold va_try_with_capacity in E.
    destruct (k_try_with_capacity (coll s) n w) as [rc w1] eqn:Ec. destruct rc as [c0| | |]; try discriminate.
    destruct (IH _ _ _ _ _ Hw Ec) as [Hw1 Hb].
    unfold bm_try_with_capacity in E.
    destruct (vec_try_with_capacity u8sz (bytes_for_bits n) w1) as [rv w2] eqn:Ev.
    destruct rv as [v| | |]; try discriminate. injection E as <- <-.
    destruct (vec_new_try _ _ _ _ _ _ Hw1 Ev) as (H1 & H2 & H3 & H4). split; [exact H1|].
    apply Forall_app. split; [exact Hb|].
    constructor; [|constructor]. cbn [va_bm bit_buffer b_used b_cap b_takes bm_buf]. rewrite H2.
    split; [exact H3|exact H4].
  - change (fl_try_with_capacity (coll s) m n w = (BOk c, w')) in E.
    unfold fl_try_with_capacity, checked_mul in E.
    destruct (_ <=? _)%N; [|discriminate]. destruct (IH _ _ _ _ _ Hw E) as [H1 H]. split; [exact H1|].
    change (stored (SFixed m s) c) with (map (rows_of m) (stored s c)).
    induction H; cbn [map]; constructor; auto.
  - change (offsets (cC (coll s))) in c. change (of_try_with_capacity (coll s) k n w = (BOk c, w')) in E.
    unfold of_try_with_capacity, checked_add in E. destruct (_ <=? _)%N; [|discriminate].
    destruct (k_try_with_capacity (coll s) n w) as [rc w1] eqn:Ec. destruct rc as [d0| | |]; try discriminate.
    destruct (IH _ _ _ _ _ Hw Ec) as [Hw1 Hb].
    destruct (vec_try_with_capacity (osz k) (n + 1) w1) as [rv w2] eqn:Ev.
    destruct rv as [v| | |]; try discriminate.
    destruct (vec_new_try _ _ _ _ _ _ Hw1 Ev) as (H1 & H2 & H3 & H4).
    destruct v as [its cap]. cbn [v_items v_cap] in *. subst its.
    rewrite vec_first_try in E by lia. injection E as <- <-. split; [exact H1|].
    apply Forall_app. split; [exact Hb|]. constructor; [|constructor].
    change (1 + n <= cap <= 1 + n + e)%N. lia.
  - destruct (vec_new_try _ _ _ _ _ _ Hw E) as (H1 & H2 & H3 & H4). split; [exact H1|].
    constructor; [|constructor]. cbn [b_used b_cap b_takes]. rewrite H2. split; [exact H3|exact H4].
Qed.

(** ** Collecting *)
Section Sizes.
  Context (n : nat) (s : shape) (Hw : widths_pos s).
  Lemma rows_collected R (it : iter (list (cA (coll s))) R) :
    good (SFixed n s) (it : iter (cA (coll (SFixed n s))) R) -> exact it ->
    (lenN (items_of it) * (N.of_nat n * unit_cost s) <= usize_max)%N ->
    good s (it_flatten (N.of_nat n) it) /\ exact (it_flatten (N.of_nat n) it) /\
    fused (it_flatten (N.of_nat n) it) /\
    (lenN (items_of (it_flatten (N.of_nat n) it)) * unit_cost s <= usize_max)%N.
  Proof.
    intros Hg Hx Hl. destruct (run_parts it) as [r0 Hr].
    assert (Hx' : it_hint it = (lenN (items_of it), Some (lenN (items_of it)))) by exact Hx.
    pose proof (proj1 Hg) as Hfin. change (fin_of it = FStop) in Hfin. rewrite Hfin in Hr.
    pose proof (run_flatten (N.of_nat n) it _ _ _ Hr) as Hrf.
    destruct Hg as (_ & Hh & Hi). unfold item_ok in Hi. cbn [coll] in Hi.
    assert (Hrows : Forall (fun x => lenN x = N.of_nat n) (items_of it)).
    { revert Hi. apply Forall_impl. intros x [H _]. unfold lenN. rewrite H. reflexivity. }
    assert (Hlen : lenN (concat (items_of it)) = (lenN (items_of it) * N.of_nat n)%N).
    { clear - Hrows. induction Hrows as [|x xs E _ IH]; [reflexivity|]. cbn [concat].
      rewrite lenN_app, lenN_cons, IH, E. lia. }
    assert (Hit : items_of (it_flatten (N.of_nat n) it) = concat (items_of it)).
    { unfold items_of at 1. rewrite Hrf. reflexivity. }
    rewrite N.mul_assoc in Hl. split; [|split; [|split]].
    - split; [unfold fin_of; rewrite Hrf; reflexivity|]. split; [apply honest_flatten; assumption|].
      rewrite Hit. apply Forall_concat. revert Hi. apply Forall_impl. intros x [_ H]. exact H.
    - unfold exact. rewrite Hit, Hlen.
      change (it_hint (it_flatten (N.of_nat n) it)) with (flat_hint (N.of_nat n) 0 (it_hint it)).
      unfold flat_hint. rewrite Hx'. cbn [fst snd].
      assert (Hu : (lenN (items_of it) * N.of_nat n <= usize_max)%N)
        by (pose proof (unit_cost_pos s Hw); nia).
      unfold sat_add, sat_mul, checked_mul, checked_add.
      replace (N.of_nat n * lenN (items_of it))%N with (lenN (items_of it) * N.of_nat n)%N by lia.
      apply N.leb_le in Hu. rewrite Hu. rewrite N.add_0_l, Hu. apply N.leb_le in Hu.
      f_equal. lia.
    - apply fused_cut, cut_flatten.
    - rewrite Hit, Hlen. exact Hl.
  Qed.
End Sizes.
Lemma rows_all (P Q : buffer -> Prop) m l : (forall b, P b -> Q (rows_of m b)) ->
  Forall P l -> Forall Q (map (rows_of m) l).
Proof. intros H G. induction G; cbn [map]; constructor; auto. Qed.
(** A packed iterator and what it was made from. *)
Lemma packed_parts R (it : iter bool R) : fin_of it = FStop -> honest it -> fused it ->
  exists ys rr, run (it_packed (it_inspect count_item 0 it)) = (ys, FStop, rr) /\
    fst (it_hint (it_packed (it_inspect count_item 0 it))) = ((fst (it_hint it) + 7) / 8)%N /\
    lenN ys = ((lenN (items_of it) + 7) / 8)%N.
Proof.
  intros Hfin Hh Hf. destruct (run_parts it) as [r0 Hr]. rewrite Hfin in Hr.
  assert (Hri : run (it_inspect count_item 0 it) = (items_of it, FStop, (r0, length (items_of it)))).
  { apply run_inspect; [exact Hr|]. rewrite insp_count. reflexivity. }
  destruct (run_packed _ _ _ _ Hri (fused_inspect _ _ _ Hf)) as (ys & rr & Hp & _ & Hy1 & Hy).
  exists ys, rr. split; [exact Hp|]. split.
  { change (it_hint (it_packed (it_inspect count_item 0 it))) with (nd_hint (packed_node (Node (it_hint it) (it_src it, 0)))).
    unfold packed_node. cbn [nd_hint]. destruct (it_hint it). reflexivity. }
  pose proof (packs_length (items_of it) 0 0%N) as Hq. rewrite <- (Hy1 eq_refl) in Hq. clear Hy.
  assert (Hy : length ys = (length (items_of it) + 7) / 8) by (apply Hq; lia).
  unfold lenN at 2. change 7%N with (N.of_nat 7). rewrite <- Nat2N.inj_add.
  change 8%N with (N.of_nat 8). rewrite <- Nat2N.inj_div. unfold lenN. f_equal. exact Hy.
Qed.
Lemma filled s : widths_pos s -> no_lists s -> forall c, w_inv (shape_wd s) c ->
  forall R (it : iter (cA (coll s)) R) c' r, good s it -> k_extend (coll s) c it = (c', r, ODone) ->
  Forall (fun b => b_takes b (lenN (items_of it)) <= b_used b)%N (stored s c').
Proof.
  intros Hw Hn c Hc R it c' r Hg E. destruct (good_parts s R it Hg) as (Hh & Hi & r0 & Hr).
  destruct (bn_extend _ _ _ _ _ _ _ _
    (shape_bounds s _ Hw Hn (rising_multiple 2) (fun e u => N.le_refl _))
    R c it _ _ _ _ Hc (no_lists_pre s Hn c) Hi Hr Hh E) as (_ & _ & H & _).
  pose proof (ww_extend _ _ _ (shape_wlaws s Hw) _ c _ _ _ _ _ _ _ Hc Hi Hr E) as (_ & _ & l' & Hs & (Y1 & Y3)).
  apply (shape_fits s Hw Hn c' _ Y1 H). rewrite Y3, lenN_app, (lsim_len _ _ _ _ Hs). lia.
Qed.
Lemma fresh_unused s : no_lists s -> forall n w c w',
  k_try_with_capacity (coll s) n w = (BOk c, w') -> Forall (fun b => b_used b = 0)%N (stored s c).
Proof.
  assert (V : forall A esz n w (v : vec A) w', vec_try_with_capacity esz n w = (BOk v, w') ->
    lenN (v_items v) = 0%N).
  { intros A esz n w v w' E.
    destruct (vec_new_try (A := A) esz n w (fold_right (fun a m => match a with Some x => N.max x m | None => m end) 0%N w) v w')
      as (_ & -> & _); [|exact E|reflexivity].
    clear. unfold modest. induction w as [|[x|] w IH]; cbn [fold_right]; constructor; auto; [lia|].
    revert IH. apply Forall_impl. intros [y|]; [lia|auto]. }
  induction s as [p| |s IH|m s IH|k s IH|A a0 z]; cbn [no_lists]; intros Hn n w c w' E.
  - constructor; [|constructor]. exact (V _ _ _ _ _ _ E).
  - change bitmap in c. change (bm_try_with_capacity n w = (BOk c, w')) in E. unfold bm_try_with_capacity in E.
    destruct (vec_try_with_capacity u8sz (bytes_for_bits n) w) as [rv w1] eqn:Ev.
    destruct rv as [v| | |]; try discriminate. injection E as <- <-.
    constructor; [|constructor]. exact (V _ _ _ _ _ _ Ev).
  - change (validity (cC (coll s))) in c. change (va_try_with_capacity (coll s) n w = (BOk c, w')) in E.
    unfold va_try_with_capacity in E.
    destruct (k_try_with_capacity (coll s) n w) as [rc w1] eqn:Ec. destruct rc as [c0| | |]; try discriminate.
    unfold bm_try_with_capacity in E.
    destruct (vec_try_with_capacity u8sz (bytes_for_bits n) w1) as [rv w2] eqn:Ev.
    destruct rv as [v| | |]; try discriminate. injection E as <- <-.
    apply Forall_app. split; [exact (IH Hn _ _ _ _ Ec)|].
    constructor; [|constructor]. exact (V _ _ _ _ _ _ Ev).
  - change (fl_try_with_capacity (coll s) m n w = (BOk c, w')) in E.
    unfold fl_try_with_capacity, checked_mul in E. destruct (_ <=? _)%N; [|discriminate].
    change (stored (SFixed m s) c) with (map (rows_of m) (stored s c)).
    apply (rows_all (fun b => b_used b = 0)%N); [auto|]. exact (IH Hn _ _ _ _ E).
  - destruct Hn.
  - constructor; [|constructor]. exact (V _ _ _ _ _ _ E).
Qed.
Lemma vec_try_from_iter_bound' A R esz (it : iter A R) w e xs r v' r' w' :
  modest e w -> run it = (xs, FStop, r) -> (fst (it_hint it) <= lenN xs)%N ->
  vec_try_from_iter esz it w = (BOk v', r', w') ->
  lenN (v_items v') = lenN xs /\ (v_cap v' <= lenN (v_items v') + e)%N.
Proof.
  intros Hw Hr Hn. unfold vec_try_from_iter, vec_try_with_capacity.
  destruct (vec_try_reserve esz vec_new (fst (it_hint it)) w) as [[v1 o1] w1] eqn:E1.
  destruct o1; try discriminate.
  apply (vec_try_reserve_bound _ _ _ _ _ _ _ _ Hw) in E1. destruct E1 as (Hi & Hw1 & Hc).
  intros E. destruct (vec_try_collect_bound _ _ _ _ _ _ _ _ _ _ _ _ _ Hw1 Hr E) as (Hw2 & Hl & Hb).
  rewrite Hi in Hl. unfold vec_new in *. cbn [v_items v_cap] in *. rewrite lenN_nil in *. lia.
Qed.
Theorem collect_close : forall s, widths_pos s -> no_lists s ->
  forall R (it : iter (cA (coll s)) R) e w c r w', modest e w ->
  good s it -> exact it -> fused it -> (lenN (items_of it) * unit_cost s <= usize_max)%N ->
  k_try_from_iter (coll s) it w = (BOk c, r, w') ->
  Forall (fun b => b_cap b <= b_used b + e)%N (stored s c).
Proof.
  induction s as [p| |s IH|n s IH|k s IH|A a0 z]; cbn [widths_pos no_lists]; intros Hw Hn R it e w c r w'
    He Hg Hx Hf Hl E.
  - destruct (good_parts _ _ _ Hg) as (Hh & _ & r0 & Hr).
    destruct (vec_try_from_iter_bound _ _ _ _ _ _ _ _ _ _ _ He Hr Hh E) as (_ & _ & H).
    constructor; [exact H|constructor].
  - change (iter bool R) in it. change bitmap in c. change (bm_try_from_iter it w = (BOk c, r, w')) in E.
    unfold bm_try_from_iter in E.
    destruct (vec_try_from_iter u8sz (it_packed (it_inspect count_item 0 it)) w) as [[res1 [r1 bits]] w1] eqn:E1.
    destruct res1 as [v| | |]; try discriminate. injection E as <- _ <-.
    destruct (packed_parts R it (proj1 Hg) (proj1 (proj2 Hg)) Hf) as (ys & rr & Hr & Hh & Hy).
    assert (Hx' : it_hint it = (lenN (items_of it), Some (lenN (items_of it)))) by exact Hx.
    rewrite Hx' in Hh. cbn [fst] in Hh.
    destruct (vec_try_from_iter_bound' _ _ _ _ _ _ _ _ _ _ _ He Hr ltac:(rewrite Hh, Hy; apply N.le_refl) E1) as (_ & H).
    constructor; [exact H|constructor].
  - change (iter (option (cA (coll s))) R) in it. change (validity (cC (coll s))) in c.
    change (va_try_from_iter (coll s) it w = (BOk c, r, w')) in E.
    assert (Hx' : it_hint it = (lenN (items_of it), Some (lenN (items_of it)))) by exact Hx.
    unfold va_try_from_iter in E. rewrite Hx' in E. unfold upper_or_lower in E. cbn [fst snd unwrap_or] in E.
    destruct (va_try_with_capacity (coll s) (lenN (items_of it)) w) as [r1 w1] eqn:E1.
    destruct r1 as [c1| | |]; try discriminate.
    assert (W : widths_pos (SNull s)) by exact Hw. assert (Nl : no_lists (SNull s)) by exact Hn.
    destruct (try_with_capacity_close (SNull s) e _ _ _ _ He E1) as [He1 B1].
    pose proof (fresh_unused (SNull s) Nl _ _ _ _ E1) as B2.
    pose proof (fresh_reserved (SNull s) W Nl _ _ _ _ E1) as E2.
    pose proof (lived_built _ _ (built_default (SNull s))) as Hd.
    destruct (reserved_quiet (SNull s) W Nl _ _ _ _ _ _ Hd (inv_reads _ W _ (lived_inv _ _ Hd W)) E2 R it Hg)
      as (c2 & r2 & zs & Q & Q2 & _); [apply N.le_refl|].
    destruct (va_try_extend (coll s) c1 it w1) as [[[v3 r3] o3] w3] eqn:E3.
    assert (Q1 : (v3, r3, o3, w3) = (c2, r2, ODone, w1)) by (rewrite <- E3; exact (Q w1)).
    injection Q1 as -> -> -> ->. injection E as <- _ <-.
    pose proof (calm_inv _ _ (calm_try_with_capacity (SNull s) _ _ _ _ E1) W) as I1.
    pose proof (proj1 (calm_weak (SNull s) _ I1)) as I2.
    pose proof (filled (SNull s) W Nl c1 I2 R it c2 r2 Hg Q2) as F.
    destruct (good_parts _ _ _ Hg) as (Hh & Hi & r0 & Hr).
    destruct (tb_extend _ _ _ _ _ _ _ (shape_try_bounds (SNull s) e W) R c1 it _ _ _ _ _ _
      I2 (no_lists_pre (SNull s) Nl c1) He1 Hi Hr Hh E3) as (_ & T & _).
    set (m := lenN (items_of it)) in B1.
    change (Forall (fun b => b_takes b m <= b_used b)%N (stored (SNull s) c2)) in F. clearbody m.
    revert B1 B2 F.
    clear - T. induction T as [|x y a b [[A1 A2] C] _ IH]; intros B1 B2 F; constructor.
    + apply Forall_inv in B1, B2, F. rewrite <- A2 in B1. unfold now, granted in C. cbv beta in *. lia.
    + apply IH; [exact (Forall_inv_tail B1)|exact (Forall_inv_tail B2)|exact (Forall_inv_tail F)].
  - change (iter (list (cA (coll s))) R) in it.
    change (k_try_from_iter (coll s) (it_flatten (N.of_nat n) it) w = (BOk c, r, w')) in E.
    destruct (rows_collected n s (proj2 Hw) R it Hg Hx Hl) as (G1 & G2 & G3 & G4).
    change (stored (SFixed n s) c) with (map (rows_of n) (stored s c)).
    apply (rows_all (fun b => b_cap b <= b_used b + e)%N); [auto|].
    exact (IH (proj2 Hw) Hn _ _ _ _ _ _ _ He G1 G2 G3 G4 E).
  - destruct Hn.
  - destruct (good_parts _ _ _ Hg) as (Hh & _ & r0 & Hr).
    destruct (vec_try_from_iter_bound _ _ _ _ _ _ _ _ _ _ _ He Hr Hh E) as (_ & _ & H).
    constructor; [exact H|constructor].
Qed.

Lemma collect_same s : no_lists s -> forall R (it : iter (cA (coll s)) R),
  k_from_iter_in (coll s) it = k_from_iter (coll s) it.
Proof.
  induction s as [p| |s IH|n s IH|k s IH|A a0 z]; cbn [no_lists]; intros Hn R it; try reflexivity.
  - change (iter (option (cA (coll s))) R) in it.
    change (va_collect (coll s) (fun R => @k_from_iter_in (coll s) R) it =
      va_collect (coll s) (fun R => @k_from_iter (coll s) R) it).
    unfold va_collect. destruct (bm_with_capacity _); try reflexivity. rewrite (IH Hn). reflexivity.
  - exact (IH Hn R (it_flatten (N.of_nat n) it)).
  - destruct Hn.
Qed.
Lemma pushes_bound K : forall os b b', bm_ok b -> insp (push_bit K) b os = Some b' ->
  (bytes b <= bytes b')%N /\
  (v_cap (bm_buf b') <= N.max (v_cap (bm_buf b)) (multiple 2 1 (bytes b')))%N.
Proof.
  induction os as [|o os IH]; intros b b' Hb; cbn [insp].
  - intros E. injection E as <-. split; [apply N.le_refl|]. lia.
  - unfold push_bit at 1. destruct (bm_extend b (it_list [is_some o])) as [[b1 u] o1] eqn:E1.
    destruct o1; try discriminate. intros E.
    destruct (bm_extend_bound _ _ _ _ _ _ Hb (run_list _) (honest_list _) E1) as [X1 X2].
    pose proof (proj1 (bm_extend_spec _ _ _ _ _ _ _ _ Hb (run_list _) E1)) as Hb1.
    destruct (IH _ _ Hb1 E) as [Y1 Y2]. split; [lia|]. unfold multiple in *. lia.
Qed.
Lemma cut_mapped {A B R} (f : A -> B) (it : iter A R) : cut it -> cut (it_map f it).
Proof.
  unfold cut, it_map. cbn [it_tr]. generalize (it_tr it). clear it.
  induction t as [|[[a| |] n'] t IH]; cbn; auto. intros ->. reflexivity.
Qed.
Lemma honest_seen {A R T} (f : T -> A -> option T) (it : iter A R) s s' xs e r :
  cut it -> run it = (xs, e, r) -> insp f s xs = Some s' -> honest it -> honest (it_inspect f s it).
Proof.
  destruct it as [n t]. unfold cut, run, honest, it_inspect. cbn [it_tr it_node].
  change (it_hint (Iter n t)) with (nd_hint n). change (it_src (Iter n t)) with (nd_src n).
  intros Hc Hr Hi.
  assert (Hi' : insp f s (fst (fst (run_t t n))) = Some s') by (rewrite Hr; exact Hi).
  clear xs e r Hr Hi. revert n s Hc Hi'. induction t as [|[[a| |] n'] t IH]; intros n s Hc Hi Hh.
  - exact Hh.
  - pose proof (run_inspect_t f ((Yield a, n') :: t) n s s' Hi (nd_hint n)) as L1.
    destruct Hh as [H1 H2]. cbn [inspect_t] in *. cbn [cut_t] in Hc.
    cbn [run_t] in Hi. destruct (run_t t n') as [[xs e] r] eqn:Hr. cbn [fst insp] in Hi.
    destruct (f s a) as [s1|] eqn:E; [|discriminate].
    split; [rewrite L1; exact H1|]. apply (IH n' s1 Hc); [|exact H2]. rewrite Hr. exact Hi.
  - cbn [cut_t] in Hc. subst t. exact Hh.
  - destruct Hh as [H1 H2]. split; [exact H1|exact I].
Qed.
Theorem collect_bound : forall s, widths_pos s -> no_lists s ->
  forall R (it : iter (cA (coll s)) R) c r,
  good s it -> exact it -> ended it -> (lenN (items_of it) * unit_cost s <= usize_max)%N ->
  k_from_iter (coll s) it = (BOk c, r) \/ k_from_iter_in (coll s) it = (BOk c, r) ->
  Forall (fun b => b_cap b <= multiple 2 (b_size b) (b_used b))%N (stored s c).
Proof.
  intros s Hw Hn R it c r Hg Hx Hf Hl E. rewrite (collect_same s Hn) in E.
  assert (E' : k_from_iter (coll s) it = (BOk c, r)) by (destruct E; assumption). clear E. revert E'.
  change (cut it) in Hf. revert R it c r Hg Hx Hf Hl.
  induction s as [p| |s IH|n s IH|k s IH|A a0 z]; cbn [widths_pos no_lists] in *; intros R it c r
    Hg Hx Hf Hl E.
  - destruct (good_parts _ _ _ Hg) as (Hh & _ & r0 & Hr). change (vec_from_iter (psz p) it = (BOk c, r)) in E.
    unfold vec_from_iter in E.
    destruct (vec_extend (psz p) vec_new it) as [[v r1] o] eqn:E1. destruct o; try discriminate.
    injection E as <- _. destruct (vec_extend_bound _ _ _ _ _ _ _ _ _ Hr Hh E1) as [_ H].
    constructor; [|constructor]. exact (N.le_trans _ _ _ H (proj2 (N.max_lub_iff 0 _ _) (conj (N.le_0_l _) (N.le_refl _)))).
  - change (iter bool R) in it. change bitmap in c. change (bm_from_iter it = (BOk c, r)) in E.
    unfold bm_from_iter in E.
    destruct (vec_from_iter u8sz (it_packed (it_inspect count_item 0 it))) as [res1 [r1 bits]] eqn:E1.
    destruct res1 as [v| | |]; try discriminate. injection E as <- _.
    destruct (good_parts _ _ _ Hg) as (Hh & _ & r0 & Hr). change (run it = (items_of it, FStop, r0)) in Hr.
    assert (Hri : run (it_inspect count_item 0 it) = (items_of it, FStop, (r0, length (items_of it)))).
    { apply run_inspect; [exact Hr|]. rewrite insp_count. reflexivity. }
    destruct (run_packed _ _ _ _ Hri (fused_inspect _ _ _ (fused_cut _ Hf))) as (ys & rr & Hp & _).
    assert (Hci : insp count_item 0 (items_of it) = Some (length (items_of it))) by (rewrite insp_count; reflexivity).
    pose proof (honest_packed _ _ _ Hri (cut_inspect _ _ _ Hf) (honest_seen _ _ _ _ _ _ _ Hf Hr Hci Hh)) as Hhp.
    unfold vec_from_iter in E1.
    destruct (vec_extend u8sz vec_new (it_packed (it_inspect count_item 0 it))) as [[v1 r2] o] eqn:E2.
    destruct o; try discriminate. injection E1 as <- _.
    destruct (vec_extend_bound _ _ _ _ _ _ _ _ _ Hp Hhp E2) as [_ H].
    constructor; [|constructor]. exact (N.le_trans _ _ _ H (proj2 (N.max_lub_iff 0 _ _) (conj (N.le_0_l _) (N.le_refl _)))).
  - change (iter (option (cA (coll s))) R) in it. change (validity (cC (coll s))) in c.
    change (va_collect (coll s) (fun R => @k_from_iter (coll s) R) it = (BOk c, r)) in E.
    assert (Hx' : it_hint it = (lenN (items_of it), Some (lenN (items_of it)))) by exact Hx.
    unfold va_collect in E. rewrite Hx' in E. unfold upper_or_lower in E. cbn [fst snd unwrap_or] in E.
    pose proof (bm_with_capacity_spec (lenN (items_of it))) as Hb.
    destruct (bm_with_capacity (lenN (items_of it))) as [b0| | |] eqn:Eb; try discriminate.
    destruct Hb as (Hb0 & Ha0 & _).
    set (it2 := it_map (unwrap_or (k_item0 (coll s))) (it_inspect (push_bit (coll s)) b0 it)) in *.
    destruct (k_from_iter (coll s) it2) as [res [r1 b1]] eqn:E1. destruct res as [c0| | |]; try discriminate.
    injection E as <- _.
    destruct (good_parts _ _ _ Hg) as (Hh & Hi & r0 & Hr). change (run it = (items_of it, FStop, r0)) in Hr.
    apply (va_wt_dflt (coll s) (shape_ld s) (shape_laws s Hw)) in Hi.
    assert (Hc2 : cut it2) by (apply cut_mapped, cut_inspect; exact Hf).
    pose proof (fused_cut _ Hc2) as Hf2.
    destruct (insp (push_bit (coll s)) b0 (items_of it)) as [b'|] eqn:Ei.
    2:{ destruct (run_inspect_none _ _ _ _ _ _ Hr Ei) as (k & rr & Hr1).
      pose proof (run_map (unwrap_or (k_item0 (coll s))) _ _ _ _ Hr1) as Hr2.
      assert (Hwt' : Forall (l_wt (shape_ld s)) (map (unwrap_or (k_item0 (coll s))) (firstn k (items_of it)))).
      { rewrite <- firstn_map. apply Forall_firstn. exact Hi. }
      destruct (lw_from_iter _ _ (shape_laws s Hw) _ _ _ _ _ _ _ (or_intror Hf2) Hwt' Hr2 E1) as [[H1 _] _].
      discriminate. }
    pose proof (run_inspect _ _ _ _ _ _ _ Hr Ei) as Hr1.
    pose proof (run_map (unwrap_or (k_item0 (coll s))) _ _ _ _ Hr1) as Hr2.
    destruct (lw_from_iter _ _ (shape_laws s Hw) _ _ _ _ _ _ _ (or_intror Hf2) Hi Hr2 E1)
      as [(_ & _ & H4 & _) _].
    specialize (H4 Hf2). rewrite (after_cut _ _ _ _ Hc2 Hr2) in H4. destruct H4 as [H4|[]].
    injection H4 as -> ->.
    destruct (pushes_bound (coll s) _ _ _ Hb0 Ei) as [P1 P2].
    pose proof (insp_push (coll s) (items_of it) b0 Hb0) as Hp. rewrite Ei in Hp.
    destruct Hp as (S1 & _ & S3 & _).
    assert (Hit2 : items_of it2 = map (unwrap_or (k_item0 (coll s))) (items_of it)).
    { unfold items_of at 1. unfold it2. rewrite Hr2. reflexivity. }
    assert (Hlen2 : lenN (items_of it2) = lenN (items_of it)).
    { rewrite Hit2. unfold lenN. rewrite map_length. reflexivity. }
    apply Forall_app. split.
    + apply (IH Hw Hn _ it2 c0 (r1, b1)); [| |exact Hc2| |exact E1].
      * split; [unfold fin_of, it2; rewrite Hr2; reflexivity|].
        split; [apply honest_map, (honest_seen _ _ _ _ _ _ _ Hf Hr Ei Hh)|].
        apply (Forall_iff _ _ _ (item_ok_wt s)). rewrite Hit2. exact Hi.
      * unfold exact. rewrite Hlen2. exact Hx'.
      * rewrite Hlen2. change (unit_cost (SNull s)) with (unit_cost s + 1)%N in Hl.
        change (lenN (items_of it) * (unit_cost s + 1) <= usize_max)%N in Hl. nia.
    + constructor; [|constructor]. cbn [bit_buffer b_cap b_size b_used va_bm].
      assert (Hcap : v_cap (bm_buf b0) = bytes_for_bits (lenN (items_of it))).
      { unfold bm_with_capacity in Eb.
        destruct (vec_with_capacity u8sz (bytes_for_bits (lenN (items_of it)))) as [v0| | |] eqn:Ev; try discriminate.
        apply vec_new_cap in Ev. subst v0. injection Eb as <-. reflexivity. }
      assert (Hfit : (bytes_for_bits (lenN (items_of it)) <= bytes b1)%N).
      { apply (bit_fit b1 (lenN (items_of it)) S1).
        pose proof (f_equal (@length _) S3) as Hq. rewrite app_length, map_length, Ha0 in Hq.
        rewrite (bm_abs_length b1 S1) in Hq. cbn [length] in Hq. unfold lenN. lia. }
      rewrite Hcap in P2. unfold multiple in *. change (lenN (v_items (bm_buf b1))) with (bytes b1). lia.
  - change (iter (list (cA (coll s))) R) in it.
    change (k_from_iter (coll s) (it_flatten (N.of_nat n) it) = (BOk c, r)) in E.
    destruct (rows_collected n s (proj2 Hw) R it Hg Hx Hl) as (G1 & G2 & _ & G4).
    change (stored (SFixed n s) c) with (map (rows_of n) (stored s c)).
    apply (rows_all (fun b => b_cap b <= multiple 2 (b_size b) (b_used b))%N); [auto|].
    exact (IH (proj2 Hw) Hn _ _ _ _ G1 G2 (cut_flatten _ _) G4 E).
  - destruct Hn.
  - destruct (good_parts _ _ _ Hg) as (Hh & _ & r0 & Hr). change (vec_from_iter (N.pos z) it = (BOk c, r)) in E.
    unfold vec_from_iter in E.
    destruct (vec_extend (N.pos z) vec_new it) as [[v r1] o] eqn:E1. destruct o; try discriminate.
    injection E as <- _. destruct (vec_extend_bound _ _ _ _ _ _ _ _ _ Hr Hh E1) as [_ H].
    constructor; [|constructor]. exact (N.le_trans _ _ _ H (proj2 (N.max_lub_iff 0 _ _) (conj (N.le_0_l _) (N.le_refl _)))).
Qed.

(** Collecting lists *)
Lemma fresh_used s : forall n w c w',
  k_try_with_capacity (coll s) n w = (BOk c, w') -> Forall (fun b => b_used b <= 1)%N (stored s c).
Proof.
  assert (V : forall A esz n w (v : vec A) w', vec_try_with_capacity esz n w = (BOk v, w') ->
    v_items v = [] /\ (n <= v_cap v)%N).
  { intros A esz n w v w'. unfold vec_try_with_capacity, vec_try_reserve. cbn [vec_new v_items v_cap].
    rewrite (@lenN_nil A). destruct (N.leb_spec n (0 - 0)).
    { intros E. injection E as <- <-. split; [reflexivity|]. cbn [v_cap]. lia. }
    destruct (N.ltb_spec (max_items esz) (0 + n)); [discriminate|].
    destruct w as [|[extra|] w0]; try discriminate; intros E; injection E as <- <-; cbn [v_items v_cap];
      (split; [reflexivity|lia]). }
  assert (U : forall A esz n w (v : vec A) w', vec_try_with_capacity esz n w = (BOk v, w') ->
    (lenN (v_items v) <= 1)%N).
  { intros A esz n w v w' E. rewrite (proj1 (V _ _ _ _ _ _ E)). apply N.le_0_1. }
  induction s as [p| |s IH|m s IH|k s IH|A a0 z]; intros n w c w' E.
  - constructor; [|constructor]. exact (U _ _ _ _ _ _ E).
  - change bitmap in c. change (bm_try_with_capacity n w = (BOk c, w')) in E. unfold bm_try_with_capacity in E.
    destruct (vec_try_with_capacity u8sz (bytes_for_bits n) w) as [rv w1] eqn:Ev.
    destruct rv as [v| | |]; try discriminate. injection E as <- <-.
    constructor; [|constructor]. exact (U _ _ _ _ _ _ Ev).
  - change (validity (cC (coll s))) in c. change (va_try_with_capacity (coll s) n w = (BOk c, w')) in E.
    unfold va_try_with_capacity in E.
    destruct (k_try_with_capacity (coll s) n w) as [rc w1] eqn:Ec. destruct rc as [c0| | |]; try discriminate.
    unfold bm_try_with_capacity in E.
    destruct (vec_try_with_capacity u8sz (bytes_for_bits n) w1) as [rv w2] eqn:Ev.
    destruct rv as [v| | |]; try discriminate. injection E as <- <-.
    apply Forall_app. split; [exact (IH _ _ _ _ Ec)|].
    constructor; [|constructor]. exact (U _ _ _ _ _ _ Ev).
  - change (fl_try_with_capacity (coll s) m n w = (BOk c, w')) in E.
    unfold fl_try_with_capacity, checked_mul in E. destruct (_ <=? _)%N; [|discriminate].
    change (stored (SFixed m s) c) with (map (rows_of m) (stored s c)).
    apply (rows_all (fun b => b_used b <= 1)%N); [auto|]. exact (IH _ _ _ _ E).
  - change (offsets (cC (coll s))) in c. change (of_try_with_capacity (coll s) k n w = (BOk c, w')) in E.
    unfold of_try_with_capacity, checked_add in E. destruct (_ <=? _)%N; [|discriminate].
    destruct (k_try_with_capacity (coll s) n w) as [rc w1] eqn:Ec. destruct rc as [d0| | |]; try discriminate.
    destruct (vec_try_with_capacity (osz k) (n + 1) w1) as [rv w2] eqn:Ev.
    destruct rv as [v| | |]; try discriminate. destruct (V _ _ _ _ _ _ Ev) as [V1 V2].
    destruct v as [its cap]. cbn [v_items v_cap] in *. subst its.
    rewrite vec_first_try in E by lia. injection E as <- <-.
    apply Forall_app. split; [exact (IH _ _ _ _ Ec)|]. constructor; [|constructor]. apply N.le_refl.
  - constructor; [|constructor]. exact (U _ _ _ _ _ _ E).
Qed.
Lemma fresh_used_in s : forall n c,
  k_with_capacity (coll s) n = BOk c -> Forall (fun b => b_used b <= 1)%N (stored s c).
Proof.
  induction s as [p| |s IH|m s IH|k s IH|A a0 z]; intros n c E.
  - apply vec_new_cap in E. subst c. constructor; [|constructor]. apply N.le_0_1.
  - change bitmap in c. change (bm_with_capacity n = BOk c) in E. unfold bm_with_capacity in E.
    destruct (vec_with_capacity u8sz (bytes_for_bits n)) as [v| | |] eqn:Ev; try discriminate.
    apply vec_new_cap in Ev. injection E as <-. subst v. constructor; [|constructor]. apply N.le_0_1.
  - change (validity (cC (coll s))) in c. change (va_with_capacity (coll s) n = BOk c) in E.
    unfold va_with_capacity in E. destruct (k_with_capacity (coll s) n) as [c0| | |] eqn:Ec; try discriminate.
    unfold bm_with_capacity in E.
    destruct (vec_with_capacity u8sz (bytes_for_bits n)) as [v| | |] eqn:Ev; try discriminate.
    apply vec_new_cap in Ev. injection E as <-. subst v.
    apply Forall_app. split; [exact (IH _ _ Ec)|]. constructor; [|constructor]. apply N.le_0_1.
  - change (fl_with_capacity (coll s) m n = BOk c) in E. unfold fl_with_capacity, strict_mul in E.
    destruct (_ <=? _)%N; [|discriminate].
    change (stored (SFixed m s) c) with (map (rows_of m) (stored s c)).
    apply (rows_all (fun b => b_used b <= 1)%N); [auto|]. exact (IH _ _ E).
  - change (offsets (cC (coll s))) in c. change (of_with_capacity (coll s) k n = BOk c) in E.
    unfold of_with_capacity, strict_add in E.
    destruct (k_with_capacity (coll s) n) as [d0| | |] eqn:Ec; try discriminate.
    destruct (_ <=? _)%N; [|discriminate].
    destruct (vec_with_capacity (osz k) (n + 1)) as [v| | |] eqn:Ev; try discriminate.
    apply vec_new_cap in Ev. subst v. rewrite vec_first in E by lia. injection E as <-.
    apply Forall_app. split; [exact (IH _ _ Ec)|]. constructor; [|constructor]. apply N.le_refl.
  - apply vec_new_cap in E. subst c. constructor; [|constructor]. apply N.le_0_1.
Qed.
Lemma fresh_flush s : widths_pos s -> forall n w c w',
  k_try_with_capacity (coll s) n w = (BOk c, w') -> ends_flush s c.
Proof.
  induction s as [p| |s IH|m s IH|k s IH|A a0 z]; cbn [widths_pos]; intros Hw n w c w' E; try exact I.
  - change (validity (cC (coll s))) in c. change (va_try_with_capacity (coll s) n w = (BOk c, w')) in E.
    unfold va_try_with_capacity in E.
    destruct (k_try_with_capacity (coll s) n w) as [rc w1] eqn:Ec. destruct rc as [c0| | |]; try discriminate.
    destruct (bm_try_with_capacity n w1) as [rb w2]. destruct rb; try discriminate.
    injection E as <- <-. exact (IH Hw _ _ _ _ Ec).
  - change (fl_try_with_capacity (coll s) m n w = (BOk c, w')) in E.
    unfold fl_try_with_capacity in E. destruct (checked_mul n (N.of_nat m)); [|discriminate].
    exact (IH (proj2 Hw) _ _ _ _ E).
  - change (offsets (cC (coll s))) in c. change (of_try_with_capacity (coll s) k n w = (BOk c, w')) in E.
    unfold of_try_with_capacity, checked_add in E. destruct (_ <=? _)%N; [|discriminate].
    destruct (k_try_with_capacity (coll s) n w) as [rc w1] eqn:Ec. destruct rc as [d0| | |]; try discriminate.
    destruct (vec_try_with_capacity (osz k) (n + 1) w1) as [rv w2] eqn:Ev.
    destruct rv as [v| | |]; try discriminate.
    assert (Hv : v_items v = [] /\ (n + 1 <= v_cap v)%N).
    { unfold vec_try_with_capacity, vec_try_reserve in Ev. cbn [vec_new v_items v_cap] in Ev.
      rewrite (@lenN_nil Z) in Ev.
      destruct (N.leb_spec (n + 1) (0 - 0)); [lia|].
      destruct (N.ltb_spec (max_items (osz k)) (0 + (n + 1))); [discriminate|].
      destruct w1 as [|[extra|] w0]; try discriminate; injection Ev as <- <-; cbn [v_items v_cap];
        split; [reflexivity|lia|reflexivity|lia]. }
    destruct v as [its cap]. cbn [v_items v_cap] in Hv. destruct Hv as [-> Hv].
    rewrite vec_first_try in E by lia. injection E as <- <-.
    split; [exact (IH Hw _ _ _ _ Ec)|].
    pose proof (lw_try_with_capacity _ _ (shape_laws s Hw) _ _ _ _ Ec) as (F1 & _ & F3 & _).
    cbn [of_data of_offs]. rewrite (lw_len _ _ (shape_laws s Hw) _ F1), F3. reflexivity.
Qed.
Theorem collect_lists_close : forall k s, widths_pos s ->
  forall R (it : iter (cA (coll (SList k s))) R) e w c r w', modest e w ->
  good (SList k s) it -> k_try_from_iter (coll (SList k s)) it w = (BOk c, r, w') ->
  Forall (fun b => b_cap b <= N.max (b_used b) (1 + b_takes b (upper_or_lower (it_hint it))) + e)%N
    (stored (SList k s) c).
Proof.
  intros k s Hw R it e w c r w' He Hg E. change (iter (list (cA (coll s))) R) in it.
  change (offsets (cC (coll s))) in c. change (of_try_from_iter (coll s) k it w = (BOk c, r, w')) in E.
  unfold of_try_from_iter in E. set (h := upper_or_lower (it_hint it)) in *.
  destruct (of_try_with_capacity (coll s) k h w) as [r1 w1] eqn:E1. destruct r1 as [o0| | |]; try discriminate.
  destruct (of_try_extend (coll s) k o0 it w1) as [[[o1 rr] oc] w2] eqn:E2.
  destruct oc; try discriminate. injection E as <- _ _.
  assert (W : widths_pos (SList k s)) by exact Hw.
  destruct (try_with_capacity_close (SList k s) e _ _ _ _ He E1) as [He1 B1].
  pose proof (calm_try_with_capacity (SList k s) _ _ _ _ E1) as Hc.
  pose proof (calm_inv _ _ Hc W) as I1.
  pose proof (proj1 (fresh_flush (SList k s) W _ _ _ _ E1)) as Hfl.
  destruct (good_parts _ _ _ Hg) as (Hh & Hi & r0 & Hr).
  destruct (tb_extend _ _ _ _ _ _ _ (shape_try_bounds (SList k s) e W) R o0 it _ _ _ _ _ _
    (proj1 (calm_weak (SList k s) _ I1)) (calm_pre (SList k s) W _ I1 Hfl) He1 Hi Hr Hh E2) as (_ & T & _).
  assert (U : Forall (fun b => b_used b <= 1)%N (stored (SList k s) o0)).
  { exact (fresh_used (SList k s) _ _ _ _ E1). }
  change (upper_or_lower (@it_hint (cA (coll (SList k s))) R it)) with h. clearbody h. clear - B1 T U. induction T as [|x y a b [[A1 A2] C] _ IH]; constructor.
  - apply Forall_inv in B1, U. rewrite <- A2 in B1. unfold now, granted in C. cbv beta in *. lia.
  - apply IH; [exact (Forall_inv_tail B1)|exact (Forall_inv_tail U)].
Qed.
Theorem collect_lists_bound : forall k s, widths_pos s -> no_lists s ->
  forall R (it : iter (cA (coll (SList k s))) R) c r, good (SList k s) it ->
  k_from_iter_in (coll (SList k s)) it = (BOk c, r) ->
  Forall (fun b => b_cap b <= N.max (multiple 4 (b_size b) (b_used b))
      (1 + b_takes b (upper_or_lower (it_hint it))))%N
    (stored (SList k s) c).
Proof.
  intros k s Hw Hn R it c r Hg E. change (iter (list (cA (coll s))) R) in it.
  change (offsets (cC (coll s))) in c. change (of_from_iter_in (coll s) k it = (BOk c, r)) in E.
  unfold of_from_iter_in in E. set (h := upper_or_lower (it_hint it)) in *.
  destruct (of_with_capacity (coll s) k h) as [o0| | |] eqn:E1; try discriminate.
  destruct (of_extend (coll s) k o0 it) as [[o1 rr] oc] eqn:E2.
  destruct oc; try discriminate. injection E as <- _.
  assert (W : widths_pos (SList k s)) by exact Hw. assert (Fl : flat_lists (SList k s)) by exact Hn.
  pose proof (with_capacity_exact (SList k s) _ _ E1) as B1.
  pose proof (calm_with_capacity (SList k s) _ _ E1) as Hc.
  pose proof (calm_inv _ _ Hc W) as I1.
  destruct (good_parts _ _ _ Hg) as (Hh & Hi & r0 & Hr).
  destruct (bn_extend _ _ _ _ _ _ _ _ (shape_bounds4 (SList k s) W Fl) R o0 it _ _ _ _
    (proj1 (calm_weak (SList k s) _ I1)) (calm_pre (SList k s) W _ I1 (flat_inner _ Fl _)) Hi Hr Hh E2) as (T & _).
  assert (U : Forall (fun b => b_used b <= 1)%N (stored (SList k s) o0)).
  { exact (fresh_used_in (SList k s) _ _ E1). }
  change (upper_or_lower (@it_hint (cA (coll (SList k s))) R it)) with h. clearbody h. clear - B1 T U. induction T as [|x y a b [[A1 A2] C] _ IH]; constructor.
  - apply Forall_inv in B1, U. rewrite <- A2 in B1. unfold now in C. cbv beta in *. lia.
  - apply IH; [exact (Forall_inv_tail B1)|exact (Forall_inv_tail U)].
Qed.

(** Lists of lists are the exception. *)
Lemma extend_lists_of_lists :
  exists s c (it : iter (cA (coll s)) unit) c',
    widths_pos s /\ calm s c /\ inner_flush s c /\ good s it /\ k_extend (coll s) c it = (c', tt, ODone) /\
    forall factor, ~ Forall2 (bounded (multiple factor)) (stored s c) (stored s c').
Proof.
  pose (s := SList I32 (SList I32 (SVec U8))).
  exists s, (k_default (coll s)), (it_list [repeat [] 100 : list (list N)]). eexists.
  split; [exact I|]. split; [apply calm_default|]. split; [split; [exact I|reflexivity]|]. split.
  { split; [reflexivity|]. split; [vm_compute; repeat split; discriminate|].
    apply Forall_cons; [|apply Forall_nil]. apply Forall_forall. intros x H.
    apply repeat_spec in H. subst x. apply Forall_nil. }
  split; [vm_compute; reflexivity|].
  intros f H. inversion H as [|x y a b [_ B] _]; subst.
  cbn [s stored of_data app b_cap b_size b_used v_cap v_items] in B.
  unfold multiple in B. rewrite (@lenN_nil N), N.mul_0_r in B. vm_compute in B. apply B. reflexivity.
Qed.

(** ** Clones *)
Lemma clone_exact s : forall c, clonable s = true ->
  Forall2 (fun x y => b_used y = b_used x /\ b_cap y = b_used y) (stored s c) (stored s (clone s c)).
Proof.
  induction s as [p| |s IH|m s IH|k s IH|A a z]; intros c C; try discriminate C.
  - constructor; [split; reflexivity|constructor].
  - constructor; [split; reflexivity|constructor].
  - change (Forall2 (fun x y => b_used y = b_used x /\ b_cap y = b_used y)
      (map (rows_of m) (stored s c)) (map (rows_of m) (stored s (clone s c)))).
    induction (IH c C) as [|x y a b H _ J]; constructor; [exact H|exact J].
  - constructor; [split; reflexivity|constructor].
Qed.
