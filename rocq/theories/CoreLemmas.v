(** * From the laws to the statements of the theorems, for every shape. *)
From Coq Require Import List NArith ZArith Bool Arith Lia ZifyBool ZifyNat ZifyN.
From Verif Require Import Base Iter Spec VecModel BitmapModel CollModel ValidityModel
  FlattenModel OffsetsModel LayoutModel IterLemmas VecLemmas BitmapLemmas BitmapLemmas2 Laws
  LawsBase LawsFlatten LawsValidity LawsOffsets Reach ReachLemmas.
Import ListNotations.

Local Arguments N.add : simpl never.
Local Arguments N.mul : simpl never.

(** More is known about sizes, so more is safe. *)
Lemma keeps_mono s : forall off n, keeps_multiples s false off n = true ->
  keeps_multiples s true off n = true.
Proof.
  induction s as [p| |s IH|m s IH|k s IH|A a0 z]; intros off n; cbn [keeps_multiples andb orb]; auto.
  rewrite orb_false_r. intros ->. reflexivity.
Qed.
Lemma safe_mono s : forall off, panic_safe s false off = true -> panic_safe s true off = true.
Proof.
  induction s as [p| |s IH|m s IH|k s IH|A a0 z]; intros off; cbn [panic_safe orb]; auto.
  intros H. apply andb_true_iff in H. destruct H as [H1 H2].
  rewrite (IH _ H1), (keeps_mono _ _ _ H2). reflexivity.
Qed.

Lemma shows_read K c (xs ys : list (cA K)) : shows K c ys -> k_len K c = Ret (length xs) ->
  map (fun i => k_owned K c (N.of_nat i)) (seq 0 (length xs)) =
    map (fun x => Ret (Some x)) xs -> ys = xs.
Proof.
  intros Hs Hl Ho. pose proof (sh_len K c ys Hs) as Hy.
  rewrite Hl in Hy. inversion Hy as [Hlen]; clear Hy Hl.
  apply nth_error_same. intros i.
  destruct (nth_error ys i) as [y|] eqn:Ey.
  - assert (Hi : i < length xs) by (rewrite Hlen; apply nth_error_Some; congruence).
    pose proof (f_equal (fun l => nth_error l i) Ho) as E. cbv beta in E.
    rewrite (map_nth_error _ i _ (d := i)) in E.
    2:{ rewrite (nth_error_nth' _ 0) by (rewrite seq_length; lia). rewrite seq_nth by lia. reflexivity. }
    destruct (nth_error xs i) as [x|] eqn:Ex; [|apply nth_error_None in Ex; lia].
    rewrite (map_nth_error _ i _ Ex), (sh_owned K c ys Hs i y Ey) in E. congruence.
  - apply nth_error_None in Ey. symmetry. apply nth_error_None. lia.
Qed.

Section Core.
  Context (s : shape) (Hw : widths_pos s).
  Let K := coll s.
  Let d := shape_ld s.
  Let L : Laws K d := shape_laws s Hw.

  Lemma abs_shows c ys : l_inv d c -> l_abs d c = ys -> shows K c ys.
  Proof. intros Hi <-. exact (inv_shows K d L c Hi). Qed.
  Lemma built_abs c xs : built s c -> shows K c xs -> xs = l_abs d c /\ l_inv d c.
  Proof.
    intros Hb Hs. pose proof (built_inv s c Hb Hw) as Hi. split; [|exact Hi].
    exact (shows_unique K c _ _ Hs (inv_shows K d L c Hi)).
  Qed.
  Lemma built_shows c : built s c -> exists xs, Forall (item_ok s) xs /\ shows K c xs.
  Proof.
    intros Hb. pose proof (built_inv s c Hb Hw) as Hi. exists (l_abs d c). split.
    - apply items_ok_wt. apply (lw_abs_wt _ _ L c Hi).
    - exact (inv_shows K d L c Hi).
  Qed.
  Lemma shown_items c xs : built s c -> shows K c xs -> Forall (item_ok s) xs.
  Proof.
    intros Hb Hs. destruct (built_abs c xs Hb Hs) as [-> Hi]. apply items_ok_wt.
    apply (lw_abs_wt _ _ L c Hi).
  Qed.

  (** To compute what a collection shows, reading it item by item is enough. *)
  Lemma shows_check c xs : built s c -> k_len K c = Ret (length xs) ->
    map (fun i => k_owned K c (N.of_nat i)) (seq 0 (length xs)) =
      map (fun x => Ret (Some x)) xs -> shows K c xs.
  Proof.
    intros Hb Hl Ho. destruct (built_shows c Hb) as (ys & _ & Hs).
    rewrite <- (shows_read K c xs ys Hs Hl Ho). exact Hs.
  Qed.

  Lemma view_out c xs i : built s c -> shows K c xs -> (lenN xs <= i)%N -> (i <= usize_max)%N ->
    k_view K c i = if l_oob d i then Ret None else Pnc.
  Proof.
    intros Hb Hs H1 H2. destruct (built_abs c xs Hb Hs) as [-> Hi].
    apply (lw_view_out _ _ L); auto.
  Qed.
  Lemma owned_out c xs i : built s c -> shows K c xs -> (lenN xs <= i)%N -> (i <= usize_max)%N ->
    k_owned K c i = if l_oob d i then Ret None else Pnc.
  Proof.
    intros Hb Hs H1 H2. unfold k_owned. rewrite (view_out c xs i Hb Hs H1 H2).
    destruct (l_oob d i); reflexivity.
  Qed.

  (** Collecting *)
  Lemma collect_core (in_ : bool) R (it : iter (cA K) R) res r :
    resumable s = true \/ fused it -> Forall (item_ok s) (items_of it) ->
    (if in_ then k_from_iter_in K it else k_from_iter K it) = (res, r) ->
    match res with
    | BOk c => fin_of it = FStop /\ shows K c (items_of it) /\ built s c /\ value_offset s c = 0
    | BErr => False
    | _ => True
    end /\
    (room_new s it ->
     (upper_or_lower (it_hint it) * unit_cost s <= limit s)%N ->
     match fin_of it with FStop => exists c, res = BOk c | FBoom => res = BPanic end).
  Proof.
    intros Hf Hi E. pose proof Hf as Hf0. pose proof Hi as Hi0.
    rewrite resumable_nofuse in Hf. apply items_ok_wt in Hi.
    assert (Hroom : room_new s it -> affords (l_wgt d) (l_cfac d) (l_lim d) 0 it).
    { apply room_new_fits. }
    rewrite limit_lim, unit_cost_cfac.
    destruct (run_parts it) as [r0 Hr].
    assert (Hx : match res with
      | BOk c => fin_of it = FStop /\ fresh d c (items_of it) | BErr => False | _ => True end /\
      (affords (l_wgt d) (l_cfac d) (l_lim d) 0 it ->
       (upper_or_lower (it_hint it) * l_cfac d <= l_lim d)%N ->
       match fin_of it with FStop => exists c, res = BOk c | FBoom => res = BPanic end)).
    { destruct in_.
      - destruct (lw_from_iter_in _ _ L _ it _ _ _ _ _ Hf Hi Hr E) as [H1 H2]. split; [|exact H2].
        destruct res; try exact H1. tauto.
      - destruct (lw_from_iter _ _ L _ it _ _ _ _ _ Hf Hi Hr E) as [H1 H2]. split; [|exact H2].
        destruct res; try exact H1. tauto. }
    destruct Hx as [H1 H2]. split; [|intros Hn; exact (H2 (Hroom Hn))]. destruct res as [c| | |]; auto.
    destruct H1 as (H1 & F1 & F2 & F3 & _). split; [auto|]. split.
    { apply abs_shows; [exact F1|exact F3]. }
    split; [|rewrite value_offset_voff; exact F2].
    apply (built_collect s R it c r); auto. destruct in_; auto.
  Qed.
  Lemma try_collect_core R (it : iter (cA K) R) w res r w' :
    resumable_try s = true \/ fused it -> Forall (item_ok s) (items_of it) ->
    k_try_from_iter K it w = (res, r, w') ->
    match res with
    | BOk c => fin_of it = FStop /\ shows K c (items_of it) /\ built s c /\ value_offset s c = 0
    | BErr => True
    | BPanic => fin_of it = FBoom
    | BAbort => False
    end.
  Proof.
    intros Hf Hi E. pose proof Hf as Hf0. pose proof Hi as Hi0.
    rewrite resumable_try_nofuse in Hf. apply items_ok_wt in Hi.
    destruct (run_parts it) as [r0 Hr].
    pose proof (lw_try_from_iter _ _ L _ it _ _ _ _ _ _ _ Hf Hi Hr E) as H1.
    destruct res as [c| | |]; auto.
    destruct H1 as (H1 & (F1 & F2 & F3 & _) & _). split; [auto|]. split.
    { apply abs_shows; [exact F1|exact F3]. }
    split; [|rewrite value_offset_voff; exact F2].
    apply (built_try_collect s R it w c r w'); auto.
  Qed.
  Lemma empty_core :
    shows K (k_default K) [] /\
    (forall n, match k_with_capacity K n with
       | BOk c => shows K c [] /\ built s c | BErr => False | _ => True end /\
       ((n * unit_cost s <= limit s)%N -> exists c, k_with_capacity K n = BOk c)) /\
    (forall n w res w', k_try_with_capacity K n w = (res, w') ->
       match res with BOk c => shows K c [] /\ built s c | BErr => True | _ => False end).
  Proof.
    split; [|split].
    - destruct (lw_default _ _ L) as (H1 & _ & H3 & _). rewrite <- H3. apply (inv_shows K d L); auto.
    - intros n. destruct (lw_with_capacity _ _ L n) as [H1 H2].
      rewrite limit_lim, unit_cost_cfac. split; [|exact H2].
      destruct (k_with_capacity K n) as [c| | |] eqn:E; auto.
      destruct H1 as (F1 & _ & F3 & _). split.
      + apply abs_shows; [assumption|exact F3].
      + exact (built_with_capacity s n c E).
    - intros n w res w' E. pose proof (lw_try_with_capacity _ _ L n w res w' E) as H1.
      destruct res as [c| | |]; auto. destruct H1 as (F1 & _ & F3 & _). split.
      + apply abs_shows; [assumption|exact F3].
      + exact (built_try_with_capacity s n w c w' E).
  Qed.

  (** One operation *)
  Lemma step_core c xs p c' o : built s c -> shows K c xs ->
    Forall (item_ok s) (op_items p) -> step K c p = (c', o) -> o <> OAbort -> panic_ok s c p o ->
    exists ys, list_step xs p o ys /\ shows K c' ys /\ built s c' /\
      value_offset s c' = value_offset s c /\
      (held s c' <= held s c + total (cost s) (op_items p))%N.
  Proof.
    intros Hb Hs Hi E Ho Hp. destruct (built_abs c xs Hb Hs) as [-> Hc].
    destruct (step_spec s c p c' o Hw Hc Hi E Ho Hp) as (H1 & H2 & H3 & H4).
    exists (l_abs d c'). split; [exact H3|]. split; [exact (inv_shows K d L c' H1)|].
    split; [exact (built_step s c p c' o Hb Hi E Ho Hp)|]. auto.
  Qed.
  Lemma runs_core c xs ps os c' : built s c -> shows K c xs -> runs s c ps os c' ->
    exists ys, list_runs xs ps os ys /\ shows K c' ys /\ built s c' /\
      value_offset s c' = value_offset s c.
  Proof.
    intros Hb Hs H. revert xs Hb Hs.
    induction H as [c|c p o c1 ps os c2 Hi E Ho Hp Hr IH]; intros xs Hb Hs.
    - exists xs. split; [constructor|]. auto.
    - destruct (step_core c xs p c1 o Hb Hs Hi E Ho Hp) as (ys & H1 & H2 & H3 & H4 & _).
      destruct (IH ys H3 H2) as (zs & G1 & G2 & G3 & G4).
      exists zs. split; [econstructor; eauto|]. split; [auto|]. split; [auto|]. congruence.
  Qed.

  Lemma exec_runs ps : forall c c' os, built s c -> Forall (fun p => Forall (item_ok s) (op_items p)) ps ->
    exec K c ps = (c', os) -> ~ In OAbort os ->
    panic_safe s false (value_offset s c) = true \/ ~ In OPanic os -> runs s c ps os c'.
  Proof.
    induction ps as [|p ps IH]; intros c c' os Hb Hi E Ha Hp; cbn [exec] in E.
    - inversion E; subst. constructor.
    - destruct (step K c p) as [c1 o] eqn:E1. destruct (exec K c1 ps) as [c2 os2] eqn:E2.
      inversion E; subst; clear E. inversion Hi as [|? ? Hi1 Hi2]; subst; clear Hi.
      assert (Ho : o <> OAbort) by (intros ->; apply Ha; left; auto).
      assert (Hok : panic_ok s c p o).
      { intros ->. destruct Hp as [Hp|Hp]; [|exfalso; apply Hp; left; auto].
        destruct p; auto. apply safe_mono; auto. }
      destruct (built_shows c Hb) as (xs & _ & Hs).
      destruct (step_core c xs p c1 o Hb Hs Hi1 E1 Ho Hok) as (ys & _ & _ & Hb1 & Hv & _).
      econstructor; eauto. apply IH; auto.
      + intros H; apply Ha; right; auto.
      + rewrite Hv. destruct Hp as [Hp|Hp]; [left; auto|right].
        intros H; apply Hp; right; auto.
  Qed.
  Lemma exec_core ps c xs c' os : built s c -> shows K c xs ->
    Forall (fun p => Forall (item_ok s) (op_items p)) ps ->
    exec K c ps = (c', os) -> ~ In OAbort os ->
    panic_safe s false (value_offset s c) = true \/ ~ In OPanic os ->
    exists ys, list_runs xs ps os ys /\ shows K c' ys /\ built s c' /\
      value_offset s c' = value_offset s c.
  Proof.
    intros Hb Hs Hi E Ha Hp. eapply runs_core; eauto. eapply exec_runs; eauto.
  Qed.

  (** Extending, for iterators with any source *)
  Lemma extend_core R c xs (it : iter (cA K) R) c' r o : built s c -> shows K c xs ->
    Forall (item_ok s) (items_of it) -> k_extend K c it = (c', r, o) ->
    match o with
    | ODone => fin_of it = FStop /\ shows K c' (xs ++ items_of it)
    | OErr => False
    | OPanic =>
        panic_safe s false (value_offset s c) = true \/
        (panic_safe s true (value_offset s c) = true /\ room_in s c it) ->
        exists k, k <= length (items_of it) /\ shows K c' (xs ++ firstn k (items_of it))
    | OAbort => True
    end /\
    (room_in s c it -> o = match fin_of it with FStop => ODone | FBoom => OPanic end).
  Proof.
    intros Hb Hs Hi E. destruct (built_abs c xs Hb Hs) as [-> Hc].
    destruct (run_parts it) as [r0 Hr]. apply items_ok_wt in Hi.
    destruct (lw_extend _ _ L _ c it _ _ _ _ _ _ Hc Hi Hr E) as [H1 H2].
    assert (Hroom : room_in s c it -> fits_it d c it) by (apply room_in_fits; auto).
    split.
    - destruct o; auto.
      + destruct H1 as (He & _ & F1 & F2 & F3 & F4). split; [auto|].
        apply abs_shows; [assumption|exact F3].
      + rewrite !value_offset_voff, !panic_safe_psafe. intros Hp.
        assert (Hx : exists sm, partial_ext d sm c c' (items_of it)).
        { destruct Hp as [Hp | [Hp1 Hp2]].
          - exists false. apply H1; [discriminate|auto].
          - exists true. apply H1; auto. }
        destruct Hx as (sm & X1 & X2 & X3 & k & X4 & X5 & _). exists k. split; [auto|].
        apply abs_shows; [assumption|exact X5].
    - intros Hr2. specialize (H2 (Hroom Hr2)). unfold ends_as in H2.
      destruct (fin_of it), o; congruence.
  Qed.
  Lemma try_extend_core R c xs (it : iter (cA K) R) w c' r o w' : built s c -> shows K c xs ->
    Forall (item_ok s) (items_of it) -> k_try_extend K c it w = (c', r, o, w') ->
    match o with
    | ODone => fin_of it = FStop /\ shows K c' (xs ++ items_of it)
    | OErr => shows K c' xs
    | OPanic => fin_of it = FBoom /\
        (panic_safe s true (value_offset s c) = true ->
         exists k, k <= length (items_of it) /\ shows K c' (xs ++ firstn k (items_of it)))
    | OAbort => False
    end.
  Proof.
    intros Hb Hs Hi E. destruct (built_abs c xs Hb Hs) as [-> Hc].
    destruct (run_parts it) as [r0 Hr]. apply items_ok_wt in Hi.
    pose proof (lw_try_extend _ _ L _ c it _ _ _ _ _ _ _ _ Hc Hi Hr E) as H1.
    destruct o; auto.
    - destruct H1 as (He & _ & F1 & F2 & F3 & F4). split; [auto|].
      apply abs_shows; [assumption|exact F3].
    - destruct H1 as (F1 & F2 & F3 & F4). apply abs_shows; [assumption|exact F3].
    - destruct H1 as (He & H1). split; [auto|].
      rewrite !value_offset_voff, !panic_safe_psafe. intros Hp.
      destruct (H1 Hp) as (X1 & X2 & X3 & k & X4 & X5 & _). exists k. split; [auto|].
      apply abs_shows; [assumption|exact X5].
  Qed.
  Lemma reserve_core c xs n : built s c -> shows K c xs ->
    (forall c' o, k_reserve K c n = (c', o) -> shows K c' xs /\ o <> OErr /\
       ((held s c + n * unit_cost s <= limit s)%N -> o = ODone)) /\
    (forall w c' o w', k_try_reserve K c n w = (c', o, w') ->
       shows K c' xs /\ (o = ODone \/ o = OErr)) /\
    (exists c', k_truncate K c n = (c', ODone) /\ shows K c' (firstn (N.to_nat n) xs)).
  Proof.
    intros Hb Hs. destruct (built_abs c xs Hb Hs) as [-> Hc]. split; [|split].
    - intros c' o E. destruct (lw_reserve _ _ L c n c' o Hc E) as ((F1 & F2 & F3 & F4) & H2 & H3).
      split; [apply abs_shows; [exact F1|exact F3]|]. split; [auto|].
      rewrite limit_lim, unit_cost_cfac, (held_usage s Hw c Hc). exact H3.
    - intros w c' o w' E.
      destruct (lw_try_reserve _ _ L c n w c' o w' Hc E) as ((F1 & F2 & F3 & F4) & H2).
      split; [apply abs_shows; [exact F1|exact F3]|]. auto.
    - destruct (lw_truncate _ _ L c n Hc) as (c1 & E & F1 & F2 & F3 & F4).
      exists c1. split; [exact E|]. apply abs_shows; [assumption|exact F3].
  Qed.
End Core.
