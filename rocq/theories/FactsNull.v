(** * Lemmas behind the theorems of PropNull.v *)
From Coq Require Import List NArith ZArith Bool Arith Lia ZifyBool ZifyNat ZifyN.
From Verif Require Import Base Iter Spec VecModel BitmapModel CollModel ValidityModel
  FlattenModel OffsetsModel LayoutModel IterLemmas VecLemmas BitmapLemmas BitmapLemmas2 Laws
  LawsBase LawsFlatten LawsValidity LawsOffsets Reach ReachLemmas CoreLemmas FactsBitmap.
Import ListNotations.

Ltac Zify.zify_post_hook ::= Z.div_mod_to_equations.
Local Arguments Nat.div : simpl never.
Local Arguments Nat.modulo : simpl never.
Local Arguments N.add : simpl never.
Local Arguments N.mul : simpl never.

(** ** A panicking extension commits whole chunks *)

Lemma mask_bits {A} (xs : list A) bs : length bs <= length xs -> map is_some (mask xs bs) = bs.
Proof.
  revert bs. induction xs as [|x xs IH]; intros [|b bs]; cbn [length]; intros H; auto; try lia.
  rewrite mask_cons. cbn [map]. rewrite IH by lia. destruct b; reflexivity.
Qed.

Section Commits.
  Context (K : Coll) (d : LD K) (L : Laws K d).

  Lemma part_abs s v c b c' b' os : ready K d v c b -> part K d s c c' b b' os ->
    exists k, k <= length os /\ va_abs K d (Validity c' (Some b')) = va_abs K d v ++ firstn k os /\
      Nat.divide chunk k /\ (s = true -> length os < k + chunk).
  Proof.
    intros (R1 & R2 & R3 & R4 & R5 & R6) (H1 & H2 & H3 & k & k' & Hk & Hk' & Ha & Hs & Hd & Hsm).
    destruct Hs as (S1 & S2 & S3 & S4 & S5).
    exists k. split; [exact (Nat.le_trans _ _ _ Hk Hk')|]. split; [|auto].
    unfold va_abs at 1, va_bits. cbn [va_bm va_coll]. rewrite Ha, S3.
    rewrite mask_app, R5 by auto. f_equal.
    transitivity (firstn k (mask (map (dflt K) os) (map is_some os)));
      [|unfold dflt; rewrite mask_options; reflexivity].
    rewrite <- mask_firstn.
    rewrite <- (firstn_skipn k (firstn k' (map (dflt K) os))), firstn_firstn.
    replace (Nat.min k k') with k by lia.
    rewrite mask_short; [reflexivity|]. rewrite !firstn_length, !map_length. lia.
  Qed.
  Lemma va_extend_commits {R} s v (it : iter (option (cA K)) R) os e r v' r' :
    va_inv K d v -> Forall (l_wt (validity_ld K d)) os -> run it = (os, e, r) ->
    va_extend K v it = (v', r', OPanic) ->
    (s = true -> fits_it (validity_ld K d) v it) -> l_psafe d s (l_voff d (va_coll v)) = true ->
    exists k, k <= length os /\ va_abs K d v' = va_abs K d v ++ firstn k os /\
      Nat.divide chunk k /\ (s = true -> length os < k + chunk).
  Proof.
    intros Hv Hwt Hr E Hs Hps. apply (va_wt_dflt K d L) in Hwt. revert E. unfold va_extend.
    destruct (va_materialize K v) as [v1 o1] eqn:E1.
    destruct (va_materialize_spec K d L _ _ _ Hv E1) as [(-> & b & Hp)|(-> & -> & Hbig)].
    2:{ intros E; inversion E. }
    pose proof Hp as (Hb & _ & [_ Hok] & _). rewrite Hb in *.
    destruct (prep_ready K d L _ _ _ (bm_len b) Hp) as (c2 & -> & Hrd).
    { unfold bm_len. rewrite bm_abs_length; tauto. }
    destruct (va_extend_loop K _ c2 b it) as [[[c3 b3] r3] o3] eqn:E3.
    pose proof Hrd as (R1 & R2 & R3 & _).
    destruct (va_loop_spec K d L _ _ _ _ _ _ _ _ _ _ _ R1 R2 Hwt Hr (Nat.lt_succ_diag_r _) E3) as [H1 _].
    intros E; inversion E; subst; clear E.
    eapply part_abs; [exact Hrd|]. apply H1; [|congruence].
    intros Es. eapply (ready_room K d L); eauto.
  Qed.
  Lemma va_try_extend_commits {R} v (it : iter (option (cA K)) R) w os e r v' r' w' :
    va_inv K d v -> Forall (l_wt (validity_ld K d)) os -> run it = (os, e, r) ->
    va_try_extend K v it w = (v', r', OPanic, w') ->
    l_psafe d true (l_voff d (va_coll v)) = true ->
    exists k, k <= length os /\ va_abs K d v' = va_abs K d v ++ firstn k os /\
      Nat.divide chunk k /\ length os < k + chunk.
  Proof.
    intros Hv Hwt Hr E Hps. apply (va_wt_dflt K d L) in Hwt. revert E. unfold va_try_extend.
    rewrite (va_len_spec K d L v Hv), va_abs_length by auto.
    destruct (va_try_materialize K v w) as [[v1 o1] w1] eqn:E1.
    destruct (va_try_materialize_spec K d L _ _ _ _ _ Hv E1) as [(-> & b & Hp)|(-> & ->)].
    2:{ intros E; inversion E. }
    pose proof Hp as (Hb & _ & [_ Hok] & Hbits & _). rewrite Hb in *.
    assert (Hlen : length (va_bits K d v) = length (bm_abs b)).
    { rewrite <- Hbits. unfold va_bits. rewrite Hb. reflexivity. }
    destruct (prep_ready K d L _ _ _ (length (va_bits K d v)) Hp Hlen) as (c2 & -> & Hrd).
    destruct (va_try_extend_loop K _ _ c2 b it w1) as [[[[c3 b3] r3] o3] w3] eqn:E3.
    pose proof Hrd as (R1 & R2 & R3 & R4 & _).
    assert (Hl1 : length (va_bits K d v) <= length (l_abs d c2)) by lia.
    assert (Hl2 : length (va_bits K d v) <= length (bm_abs b)) by lia.
    pose proof (va_try_loop_spec K d L _ _ _ _ _ _ _ _ _ _ _ _ _ _ R1 R2 Hl1 Hl2
      Hwt Hr (Nat.lt_succ_diag_r _) E3) as H1.
    intros E; inversion E; subst; clear E. destruct H1 as [_ H1].
    destruct (part_abs true v c2 b c3 b3 os Hrd) as (k & P1 & P2 & P3 & P4).
    { apply H1; congruence. }
    exists k. auto.
  Qed.
  Lemma va_inv_bits u : va_inv K d u ->
    vb_ok (length (va_abs K d u)) (va_bm u) /\
    vb_bits (length (va_abs K d u)) (va_bm u) = map is_some (va_abs K d u).
  Proof.
    intros Hi.
    pose proof (va_abs_length K d u Hi) as Hl. pose proof (va_bits_le K d u Hi) as Hle. split.
    - destruct Hi as [H1 H2]. unfold va_bits in *. destruct (va_bm u) as [b|]; [|exact I].
      destruct H2 as [H2 H3]. split; [exact H2|]. rewrite Hl. symmetry. apply bm_abs_length; auto.
    - unfold va_abs at 2. rewrite mask_bits by auto. rewrite Hl. unfold vb_bits, va_bits.
      destruct (va_bm u) as [b|]; [reflexivity|]. rewrite repeat_length. reflexivity.
  Qed.
End Commits.

Definition is_none {A} (o : option A) : bool := negb (is_some o).

Lemma chunks_exact k n : Nat.divide 1024 k -> k <= n -> n < k + 1024 -> k = 1024 * (n / 1024).
Proof.
  intros [q ->] H1 H2. rewrite (Nat.mul_comm q). f_equal.
  apply (Nat.div_unique n 1024 q (n - 1024 * q)); lia.
Qed.

Lemma nth_none_N {A} (xs : list A) i : nth_error xs (N.to_nat i) = None -> (lenN xs <= i)%N.
Proof. intros H. apply nth_error_None in H. unfold lenN. lia. Qed.

Lemma nth_map_none {A B} (f : A -> B) (xs : list A) i : (lenN xs <= i)%N ->
  nth_error (map f xs) (N.to_nat i) = None.
Proof. intros H. apply nth_error_None. rewrite map_length. unfold lenN in H. lia. Qed.

Section Null.
  Context (s : shape) (Hw : widths_pos s).
  Let K := coll s.
  Let V := validity_coll K.
  Let d := shape_ld s.

  Lemma null_view_none v xs i : shows V v xs -> nth_error xs i = Some None ->
    va_view K v (N.of_nat i) = Ret (Some None).
  Proof.
    intros Hs Hi. pose proof (sh_owned V v xs Hs i None Hi) as H. unfold k_owned in H.
    change (k_view V v (N.of_nat i)) with (va_view K v (N.of_nat i)) in H.
    destruct (va_view K v (N.of_nat i)) as [[[y|]|]|]; cbn [obind] in H; try discriminate; auto.
    change (k_own V (Some y)) with (omap Some (k_own K y)) in H.
    destruct (k_own K y); discriminate.
  Qed.
  Lemma null_view_some v xs i x : shows V v xs -> nth_error xs i = Some (Some x) ->
    exists y, va_view K v (N.of_nat i) = Ret (Some (Some y)) /\ k_own K y = Ret x.
  Proof.
    intros Hs Hi. pose proof (sh_owned V v xs Hs i (Some x) Hi) as H. unfold k_owned in H.
    change (k_view V v (N.of_nat i)) with (va_view K v (N.of_nat i)) in H.
    destruct (va_view K v (N.of_nat i)) as [[[y|]|]|]; cbn [obind] in H; try discriminate; auto.
    change (k_own V (Some y)) with (omap Some (k_own K y)) in H.
    destruct (k_own K y) eqn:E; [|discriminate]. cbn [omap] in H. inversion H; subst. eauto.
  Qed.
  Lemma null_view_out v xs i : built (SNull s) v -> shows V v xs ->
    (lenN xs <= i)%N -> (i <= usize_max)%N -> va_view K v i = Ret None.
  Proof. intros Hb Hs H1 H2. exact (view_out (SNull s) Hw v xs i Hb Hs H1 H2). Qed.

  Lemma null_collected R (it : iter (option (cA K)) R) res r :
    resumable s = true \/ fused it -> Forall (item_ok (SNull s)) (items_of it) ->
    k_from_iter V it = (res, r) \/ k_from_iter_in V it = (res, r) ->
    match res with
    | BOk v => fin_of it = FStop /\ shows V v (items_of it) /\
        (forall i, nth_error (items_of it) i = Some None ->
           va_view K v (N.of_nat i) = Ret (Some None)) /\
        (forall i, (lenN (items_of it) <= i)%N -> (i <= usize_max)%N -> va_view K v i = Ret None)
    | BErr => False
    | _ => True
    end /\
    (room_new (SNull s) it ->
     (upper_or_lower (it_hint it) * unit_cost (SNull s) <= limit s)%N ->
     match fin_of it with FStop => exists v, res = BOk v | FBoom => res = BPanic end).
  Proof.
    intros Hf Hi E.
    assert (E' : exists in_ : bool, (if in_ then k_from_iter_in V it else k_from_iter V it) = (res, r)).
    { destruct E; [exists false|exists true]; auto. }
    destruct E' as [in_ E'].
    destruct (collect_core (SNull s) Hw in_ R it res r Hf Hi E') as [H1 H2]. split; [|exact H2].
    destruct res as [v| | |]; auto. destruct H1 as (A1 & A2 & A3 & _).
    split; [exact A1|]. split; [exact A2|]. split.
    - intros i Hn. exact (null_view_none v _ i A2 Hn).
    - intros i Hl Hu. exact (null_view_out v _ i A3 A2 Hl Hu).
  Qed.
  Lemma null_try_collected R (it : iter (option (cA K)) R) w res r w' :
    Forall (item_ok (SNull s)) (items_of it) -> va_try_from_iter K it w = (res, r, w') ->
    match res with
    | BOk v => fin_of it = FStop /\ shows V v (items_of it)
    | BErr => True
    | BPanic => fin_of it = FBoom
    | BAbort => False
    end.
  Proof.
    intros Hi E.
    pose proof (try_collect_core (SNull s) Hw R it w res r w' (or_introl eq_refl) Hi E) as H.
    destruct res as [v| | |]; auto. destruct H as (H1 & H2 & _). split; [exact H1|exact H2].
  Qed.
  Lemma null_extend R v xs (it : iter (option (cA K)) R) v' r o :
    built (SNull s) v -> shows V v xs -> Forall (item_ok (SNull s)) (items_of it) ->
    va_extend K v it = (v', r, o) ->
    (o = ODone -> fin_of it = FStop /\ shows V v' (xs ++ items_of it)) /\ o <> OErr /\
    (room_in (SNull s) v it ->
     o = match fin_of it with FStop => ODone | FBoom => OPanic end).
  Proof.
    intros Hb Hs Hi E.
    destruct (extend_core (SNull s) Hw R v xs it v' r o Hb Hs Hi E) as [H1 H2].
    split; [intros ->; exact H1|]. split; [intros ->; exact H1|]. exact H2.
  Qed.

  Lemma null_step_built v xs p v1 o : built (SNull s) v -> shows V v xs ->
    Forall (item_ok (SNull s)) (op_items p) ->
    step V v p = (v1, o) -> o <> OAbort -> panic_ok (SNull s) v p o ->
    built (SNull s) v1 /\ value_offset s (va_coll v1) = value_offset s (va_coll v).
  Proof.
    intros Hb Hs Hi E Ho Hp.
    destruct (step_core (SNull s) Hw v xs p v1 o Hb Hs Hi E Ho Hp) as (ys & _ & _ & H1 & H2 & _).
    split; [exact H1|exact H2].
  Qed.
  (** How much a panicking extension keeps. *)
  Lemma null_panic_keeps v xs (it : iter (option (cA K)) unit) v1 :
    built (SNull s) v -> shows V v xs -> Forall (item_ok (SNull s)) (items_of it) ->
    step V v (OpExtend it) = (v1, OPanic) ->
    panic_ok (SNull s) v (OpExtend it) OPanic ->
    exists k, k <= length (items_of it) /\ Nat.divide 1024 k /\
      shows V v1 (xs ++ firstn k (items_of it)) /\
      (room_in (SNull s) v it -> k = 1024 * (length (items_of it) / 1024)).
  Proof.
    intros Hb Hs Hi E Hp.
    destruct (null_step_built v xs (OpExtend it) v1 OPanic Hb Hs Hi E) as [Hb1 _]; [discriminate|exact Hp|].
    pose proof (built_inv (SNull s) v1 Hb1 Hw) as Hi1.
    specialize (Hp eq_refl). cbn [step] in E.
    change (k_extend V v it) with (va_extend K v it) in E.
    destruct (va_extend K v it) as [[v1' r] o] eqn:E1. inversion E; subst; clear E.
    destruct (built_abs (SNull s) Hw v xs Hb Hs) as [-> Hinv].
    assert (Hroom : room_in (SNull s) v it -> fits_it (validity_ld K d) v it).
    { intros Hrm. exact (room_in_fits (SNull s) Hw _ v it Hinv Hrm). }
    pose proof (proj1 (items_ok_wt (SNull s) _) Hi) as Hwt.
    destruct (run_parts it) as [r0 Hr].
    assert (Hc : forall sm, (sm = true -> fits_it (validity_ld K d) v it) ->
      l_psafe d sm (l_voff d (va_coll v)) = true ->
      exists k, k <= length (items_of it) /\ Nat.divide 1024 k /\
        shows V v1 (va_abs K d v ++ firstn k (items_of it)) /\
        (sm = true -> k = 1024 * (length (items_of it) / 1024))).
    { intros sm Hsm Hps.
      destruct (va_extend_commits K d (shape_laws s Hw) sm v it _ _ _ v1 r Hinv Hwt Hr E1 Hsm Hps)
        as (k & C1 & C2 & C3 & C4).
      exists k. split; [auto|]. split; [exact C3|]. split.
      - apply (abs_shows (SNull s) Hw); [exact Hi1|exact C2].
      - intros Es. apply chunks_exact; auto. }
    unfold panic_ok in Hp. cbn [op_items value_offset panic_safe] in Hp.
    rewrite !value_offset_voff, !panic_safe_psafe in Hp.
    destruct Hp as [Hp | [Hp1 Hp2]].
    - destruct (Hc false) as (k & C1 & C2 & C3 & _); [discriminate|exact Hp|].
      exists k. split; [auto|]. split; [auto|]. split; [exact C3|].
      intros Hrm. destruct (Hc true) as (k2 & D1 & D2 & D3 & D4).
      + intros _. apply Hroom; auto.
      + pose proof (safe_mono s (l_voff d (va_coll v))) as Hm. rewrite !panic_safe_psafe in Hm.
        apply Hm. exact Hp.
      + specialize (D4 eq_refl).
        pose proof (shows_unique V v1 _ _ C3 D3) as Hu.
        apply app_inv_head in Hu. apply (f_equal (@length _)) in Hu.
        rewrite !firstn_length in Hu.
        change (cA V) with (option (cA K)) in Hu.
        assert (k = k2) by lia. congruence.
    - destruct (Hc true) as (k & C1 & C2 & C3 & C4); auto.
      exists k. auto.
  Qed.
  Lemma null_try_panic_keeps v xs (it : iter (option (cA K)) unit) w v1 :
    built (SNull s) v -> shows V v xs -> Forall (item_ok (SNull s)) (items_of it) ->
    step V v (OpTryExtend it w) = (v1, OPanic) ->
    panic_safe s true (value_offset s (va_coll v)) = true ->
    fin_of it = FBoom /\
    shows V v1 (xs ++ firstn (1024 * (length (items_of it) / 1024)) (items_of it)).
  Proof.
    intros Hb Hs Hi E Hp.
    destruct (null_step_built v xs (OpTryExtend it w) v1 OPanic Hb Hs Hi E) as [Hb1 _];
      [discriminate|intros _; exact Hp|].
    pose proof (built_inv (SNull s) v1 Hb1 Hw) as Hi1. cbn [step] in E.
    change (k_try_extend V v it w) with (va_try_extend K v it w) in E.
    destruct (va_try_extend K v it w) as [[[v1' r] o] w'] eqn:E1. inversion E; subst; clear E.
    split.
    { destruct (try_extend_core (SNull s) Hw _ v xs it w v1 r OPanic w' Hb Hs Hi E1) as [H _].
      exact H. }
    destruct (built_abs (SNull s) Hw v xs Hb Hs) as [-> Hinv].
    pose proof (proj1 (items_ok_wt (SNull s) _) Hi) as Hwt.
    destruct (run_parts it) as [r0 Hr]. rewrite value_offset_voff, panic_safe_psafe in Hp.
    destruct (va_try_extend_commits K d (shape_laws s Hw) v it w _ _ _ v1 r w' Hinv Hwt Hr E1 Hp)
      as (k & C1 & C2 & C3 & C4).
    rewrite (chunks_exact k _ C3 C1 C4) in C2.
    apply (abs_shows (SNull s) Hw); [exact Hi1|exact C2].
  Qed.
  Lemma null_panic_later v xs (it : iter (option (cA K)) unit) v1 ps v2 os :
    built (SNull s) v -> shows V v xs -> Forall (item_ok (SNull s)) (items_of it) ->
    step V v (OpExtend it) = (v1, OPanic) ->
    panic_safe s false (value_offset s (va_coll v)) = true \/
      (panic_safe s true (value_offset s (va_coll v)) = true /\
       room_in (SNull s) v it /\ ~ In OPanic os) ->
    Forall (fun p => Forall (item_ok (SNull s)) (op_items p)) ps ->
    exec V v1 ps = (v2, os) -> ~ In OAbort os ->
    exists k, k <= length (items_of it) /\ Nat.divide 1024 k /\
      (room_in (SNull s) v it -> k = 1024 * (length (items_of it) / 1024)) /\
      shows V v1 (xs ++ firstn k (items_of it)) /\
      exists ys, list_runs (xs ++ firstn k (items_of it)) ps os ys /\ shows V v2 ys.
  Proof.
    intros Hb Hs Hi E Hp Hps Ex Ha.
    assert (Hok : panic_ok (SNull s) v (OpExtend it) OPanic).
    { intros _. destruct Hp as [Hp|(Hp1 & Hp2 & _)]; [left; exact Hp|right; split; [exact Hp1|exact Hp2]]. }
    destruct (null_panic_keeps v xs it v1 Hb Hs Hi E Hok) as (k & C1 & C2 & C3 & C4).
    destruct (null_step_built v xs (OpExtend it) v1 OPanic Hb Hs Hi E) as [Hb1 Hv1]; [discriminate|exact Hok|].
    exists k. split; [auto|]. split; [auto|]. split; [auto|]. split; [auto|].
    destruct (exec_core (SNull s) Hw ps v1 _ v2 os Hb1 C3 Hps Ex Ha) as (ys & Y1 & Y2 & _).
    - destruct Hp as [Hp|(_ & _ & Hp)]; [left|right; exact Hp].
      change (panic_safe s false (value_offset s (va_coll v1)) = true). rewrite Hv1. exact Hp.
    - eauto.
  Qed.
  Lemma null_try_extend R v xs (it : iter (option (cA K)) R) w v' r o w' :
    built (SNull s) v -> shows V v xs -> Forall (item_ok (SNull s)) (items_of it) ->
    va_try_extend K v it w = (v', r, o, w') ->
    match o with
    | ODone => fin_of it = FStop /\ shows V v' (xs ++ items_of it)
    | OErr => shows V v' xs
    | OPanic => fin_of it = FBoom
    | OAbort => False
    end.
  Proof.
    intros Hb Hs Hi E.
    pose proof (try_extend_core (SNull s) Hw R v xs it w v' r o w' Hb Hs Hi E) as H.
    destruct o; try exact H. apply H.
  Qed.

  (** Parts *)
  Lemma null_parts c xs b bs : built s c -> shows K c xs -> built SBits b ->
    shows bitmap_coll b bs ->
    match va_try_from_parts K c b with
    | Ret (inl v) => length xs = length bs /\ va_into_parts K v = (c, Some b) /\
        shows V v (map (fun p : cA K * bool => if snd p then Some (fst p) else None) (combine xs bs))
    | Ret (inr (n, m)) => length xs <> length bs /\ n = length xs /\ m = length bs
    | Pnc => False
    end.
  Proof.
    intros Hc Hs Hb Hbs.
    destruct (built_abs s Hw c xs Hc Hs) as [-> Hi]. destruct (bits_abs b bs Hb Hbs) as [-> Hok].
    destruct (va_try_from_parts K c b) as [[v|[n m]]|] eqn:E.
    - destruct (va_parts_inv K d (shape_laws s Hw) c b v Hi Hok E) as [-> Hl].
      split; [symmetry; exact Hl|]. split; [reflexivity|].
      apply (abs_shows (SNull s) Hw); [|reflexivity].
      split; [exact Hi|]. split; [exact Hok|]. exact (Nat.eq_le_incl _ _ Hl).
    - unfold va_try_from_parts in E. rewrite (sh_len K c _ Hs) in E. cbn [obind] in E.
      rewrite bm_abs_length by auto.
      match type of E with context [if ?x then _ else _] => destruct x eqn:En end;
        inversion E; subst.
      apply Nat.eqb_neq in En. split; [exact En|]. split; reflexivity.
    - unfold va_try_from_parts in E. rewrite (sh_len K c _ Hs) in E. discriminate.
  Qed.

  (** Counts *)
  Lemma null_bits v xs : built (SNull s) v -> shows V v xs ->
    vb_ok (length xs) (va_bm v) /\ vb_bits (length xs) (va_bm v) = map is_some xs /\
    exists m, k_len K (va_coll v) = Ret m /\ length xs <= m.
  Proof.
    intros Hb Hs. destruct (built_abs (SNull s) Hw v xs Hb Hs) as [-> Hi].
    destruct (va_inv_bits K d v Hi) as [H1 H2].
    split; [exact H1|]. split; [exact H2|].
    exists (length (l_abs d (va_coll v))). split.
    - apply (lw_len _ _ (shape_laws s Hw)). apply Hi.
    - pose proof (va_abs_length K d v Hi) as Hl. pose proof (va_bits_le K d v Hi) as Hle.
      rewrite <- Hl in Hle. exact Hle.
  Qed.
  Lemma filter_map_len {A B} (f : B -> bool) (g : A -> B) l :
    length (filter f (map g l)) = length (filter (fun x => f (g x)) l).
  Proof. induction l as [|x l IH]; [reflexivity|]. cbn [map filter]. destruct (f (g x)); cbn [length]; auto. Qed.
  Lemma existsb_map' {A B} (f : B -> bool) (g : A -> B) l :
    existsb f (map g l) = existsb (fun x => f (g x)) l.
  Proof. induction l as [|x l IH]; [reflexivity|]. cbn [map existsb]. rewrite IH. reflexivity. Qed.
  Lemma forallb_map' {A B} (f : B -> bool) (g : A -> B) l :
    forallb f (map g l) = forallb (fun x => f (g x)) l.
  Proof. induction l as [|x l IH]; [reflexivity|]. cbn [map forallb]. rewrite IH. reflexivity. Qed.

  Lemma null_consistent v xs : built (SNull s) v -> shows V v xs ->
    let n := length xs in
    vb_null_count (va_bm v) = Ret (length (filter (fun o => negb (is_some o)) xs)) /\
    vb_valid_count n (va_bm v) = Ret (length (filter is_some xs)) /\
    vb_any_null (va_bm v) = Ret (existsb (fun o => negb (is_some o)) xs) /\
    vb_all_null n (va_bm v) = Ret (forallb (fun o => negb (is_some o)) xs) /\
    vb_any_valid n (va_bm v) = Ret (existsb is_some xs) /\
    vb_all_valid (va_bm v) = Ret (forallb is_some xs) /\
    (forall i, (i <= usize_max)%N ->
       vb_is_valid n (va_bm v) i =
         match va_view K v i with
         | Ret (Some (Some _)) => Ret (Some true)
         | Ret (Some None) => Ret (Some false)
         | Ret None => Ret None
         | Pnc => Pnc
         end /\
       vb_is_null n (va_bm v) i = omap (option_map negb) (vb_is_valid n (va_bm v) i)) /\
    (exists m, k_len K (va_coll v) = Ret m /\ n <= m).
  Proof.
    intros Hb Hs n. destruct (null_bits v xs Hb Hs) as (Hok & Hbits & Hm).
    destruct (counts_core n (va_bm v) Hok) as (C1 & C2 & C3 & C4 & C5 & C6 & C7).
    unfold n in *. rewrite Hbits in *.
    rewrite filter_map_len in C1, C2. rewrite existsb_map' in C3, C5. rewrite forallb_map' in C4, C6.
    split; [exact C1|]. split; [exact C2|]. split; [exact C3|]. split; [exact C4|].
    split; [exact C5|]. split; [exact C6|]. split; [|exact Hm].
    intros i Hi. split; [|reflexivity].
    rewrite (proj1 (C7 i)).
    destruct (N.le_gt_cases (lenN xs) i) as [Hl|Hl].
    - rewrite (null_view_out v xs i Hb Hs Hl Hi).
      assert (nth_error (map is_some xs) (N.to_nat i) = None) as ->; [|reflexivity].
      exact (nth_map_none is_some xs i Hl).
    - destruct (nth_error xs (N.to_nat i)) as [[x|]|] eqn:En.
      + destruct (null_view_some v xs (N.to_nat i) x Hs En) as (y & Hy & _).
        rewrite N2Nat.id in Hy. rewrite Hy.
        rewrite (map_nth_error is_some (N.to_nat i) xs En). reflexivity.
      + pose proof (null_view_none v xs (N.to_nat i) Hs En) as Hy.
        rewrite N2Nat.id in Hy. rewrite Hy.
        rewrite (map_nth_error is_some (N.to_nat i) xs En). reflexivity.
      + exfalso. exact (N.lt_irrefl _ (N.lt_le_trans _ _ _ Hl (nth_none_N _ _ En))).
  Qed.

  (** Implicit and explicit validity *)
  Lemma list_runs_det {A} (xs : list A) ps os ys zs : ~ In OPanic os ->
    list_runs xs ps os ys -> list_runs xs ps os zs -> ys = zs.
  Proof.
    intros Hn H. revert zs. induction H as [xs|xs p o ys ps os ws H1 H2 IH]; intros zs Hz.
    - inversion Hz; auto.
    - inversion Hz as [|? ? ? ys' ? ? ? G1 G2]; subst.
      assert (ys' = ys) as ->.
      { clear - H1 G1 Hn. destruct p, o; cbn [list_step] in *; try contradiction;
          try (exfalso; apply Hn; left; reflexivity); try congruence;
          destruct H1 as [_ H1], G1 as [_ G1]; congruence. }
      apply IH; auto. intros Hi; apply Hn; right; auto.
  Qed.
  Lemma mask_all {A} (xs : list A) bs : length bs = length xs -> forallb (fun b => b) bs = true ->
    map (fun p : A * bool => if snd p then Some (fst p) else None) (combine xs bs) = map Some xs.
  Proof.
    revert bs. induction xs as [|x xs IH]; intros [|b bs]; cbn [length]; intros H Hb; auto; try lia.
    cbn [forallb] in Hb. apply andb_true_iff in Hb. destruct Hb as [-> Hb].
    cbn [combine map fst snd]. rewrite IH by (auto; lia). reflexivity.
  Qed.
  Lemma null_wrap c xs : built s c -> shows K c xs -> shows V (va_from_collection K c) (map Some xs).
  Proof.
    intros Hc Hs. destruct (built_abs s Hw c xs Hc Hs) as [-> Hi].
    apply (abs_shows (SNull s) Hw); [split; [exact Hi|exact I]|].
    change (va_abs K d (Validity c None) = map Some (l_abs d c)).
    unfold va_abs, va_bits. cbn [va_bm va_coll]. apply mask_true.
  Qed.
  Lemma null_same c xs b bs v : built s c -> shows K c xs -> built SBits b ->
    shows bitmap_coll b bs -> forallb (fun x => x) bs = true ->
    va_try_from_parts K c b = Ret (inl v) ->
    shows V (va_from_collection K c) (map Some xs) /\ shows V v (map Some xs) /\
    built (SNull s) (va_from_collection K c) /\ built (SNull s) v.
  Proof.
    intros Hc Hs Hb Hbs Ht E. split; [apply null_wrap; auto|].
    pose proof (null_parts c xs b bs Hc Hs Hb Hbs) as H. rewrite E in H.
    destruct H as (H1 & _ & H3). rewrite mask_all in H3 by auto. split; [exact H3|].
    split; [exact (built_null_wrap s c Hc)|exact (built_null_parts s c b v Hc Hb E)].
  Qed.
  Lemma null_histories v1 v2 xs ps os v1' v2' : built (SNull s) v1 -> built (SNull s) v2 ->
    shows V v1 xs -> shows V v2 xs ->
    Forall (fun p => Forall (item_ok (SNull s)) (op_items p)) ps ->
    exec V v1 ps = (v1', os) -> exec V v2 ps = (v2', os) -> ~ In OAbort os -> ~ In OPanic os ->
    exists ys, shows V v1' ys /\ shows V v2' ys.
  Proof.
    intros B1 B2 S1 S2 Hi E1 E2 Ha Hp.
    destruct (exec_core (SNull s) Hw ps v1 xs v1' os B1 S1 Hi E1 Ha (or_intror Hp)) as (ys & Y1 & Y2 & _).
    destruct (exec_core (SNull s) Hw ps v2 xs v2' os B2 S2 Hi E2 Ha (or_intror Hp)) as (zs & Z1 & Z2 & _).
    pose proof (list_runs_det xs ps os ys zs Hp Y1 Z1) as Hyz. subst zs. exists ys.
    split; [exact Y2|exact Z2].
  Qed.
  Lemma null_extend_same v1 v2 xs (it : iter (option (cA K)) unit) v1' v2' o1 o2 :
    built (SNull s) v1 -> built (SNull s) v2 -> shows V v1 xs -> shows V v2 xs ->
    Forall (item_ok (SNull s)) (items_of it) ->
    room_in (SNull s) v1 it -> room_in (SNull s) v2 it ->
    panic_safe s true (value_offset s (va_coll v1)) = true ->
    panic_safe s true (value_offset s (va_coll v2)) = true ->
    step V v1 (OpExtend it) = (v1', o1) -> step V v2 (OpExtend it) = (v2', o2) ->
    o1 = o2 /\ exists ys, shows V v1' ys /\ shows V v2' ys.
  Proof.
    intros B1 B2 S1 S2 Hi R1 R2 P1 P2 E1 E2.
    assert (G : forall v v' o, built (SNull s) v -> shows V v xs -> room_in (SNull s) v it ->
      panic_safe s true (value_offset s (va_coll v)) = true -> step V v (OpExtend it) = (v', o) ->
      o = match fin_of it with FStop => ODone | FBoom => OPanic end /\
      shows V v' (match fin_of it with
        | FStop => xs ++ items_of it
        | FBoom => xs ++ firstn (1024 * (length (items_of it) / 1024)) (items_of it) end)).
    { clear E1 E2. intros v v' o Hb Hs Hr Hp E. pose proof E as E0. cbn [step] in E.
      change (k_extend V v it) with (va_extend K v it) in E.
      destruct (va_extend K v it) as [[v1'' r] o'] eqn:E1. inversion E; subst; clear E.
      destruct (null_extend _ v xs it v' r o Hb Hs Hi E1) as (H1 & H2 & H3).
      specialize (H3 Hr). split; [exact H3|]. subst o. destruct (fin_of it).
      - apply H1. reflexivity.
      - destruct (null_panic_keeps v xs it v' Hb Hs Hi E0) as (k & _ & _ & K3 & K4).
        + intros _. right. split; [exact Hp|exact Hr].
        + rewrite <- (K4 Hr). exact K3. }
    destruct (G v1 v1' o1 B1 S1 R1 P1 E1) as [-> G1]. destruct (G v2 v2' o2 B2 S2 R2 P2 E2) as [-> G2].
    split; [reflexivity|]. eauto.
  Qed.
  Lemma null_reserve_same v xs v' : built (SNull s) v -> shows V v xs ->
    (exists n o, va_reserve K v n = (v', o)) \/
    (exists n w o w', va_try_reserve K v n w = (v', o, w')) \/
    (exists w o w', va_try_materialize K v w = (v', o, w')) ->
    shows V v' xs /\
    vb_null_count (va_bm v') = vb_null_count (va_bm v).
  Proof.
    intros Hb Hs H.
    destruct (built_abs (SNull s) Hw v xs Hb Hs) as [Ex Hinv].
    assert (G2 : va_inv K d v' -> va_abs K d v' = va_abs K d v ->
      shows V v' xs /\ vb_null_count (va_bm v') = vb_null_count (va_bm v)).
    { intros Hi Ha.
      assert (S : shows V v' xs).
      { subst xs. apply (abs_shows (SNull s) Hw); [exact Hi|exact Ha]. }
      split; [exact S|].
      destruct (va_inv_bits K d v' Hi) as [K1 K2]. destruct (va_inv_bits K d v Hinv) as [K3 K4].
      pose proof (vb_null_count_spec _ _ K1) as N1. pose proof (vb_null_count_spec _ _ K3) as N3.
      rewrite K2, Ha in N1. rewrite K4 in N3. exact (eq_trans N1 (eq_sym N3)). }
    pose proof (shape_laws (SNull s) Hw) as L2.
    destruct H as [(n & o & E)|[(n & w & o & w' & E)|(w & o & w' & E)]].
    - destruct (lw_reserve _ _ L2 v n v' o Hinv E) as ((F1 & F2 & F3 & F4) & _).
      apply G2; auto.
    - destruct (lw_try_reserve _ _ L2 v n w v' o w' Hinv E) as ((F1 & F2 & F3 & F4) & _).
      apply G2; auto.
    - destruct (va_try_materialize_spec K d (shape_laws s Hw) v w v' o w' Hinv E)
        as [(-> & b & P1 & P2 & P3 & P4 & P5)|(-> & ->)].
      + apply G2; auto. unfold va_abs. rewrite P2, P4. reflexivity.
      + apply G2; auto.
  Qed.
End Null.
