(** * What is left of the laws after arbitrary panics

    [WLaws] keeps of [Laws] what survives a panic in the middle of any
    operation: reading works, items that can be read stay as they are until they
    are truncated, and lengths follow the operations. What a later extension
    appends is related to what was pushed by [w_sim] only. *)
From Coq Require Import List NArith ZArith Bool Arith Lia ZifyBool ZifyNat ZifyN.
From Verif Require Import Base Iter Spec VecModel BitmapModel CollModel ValidityModel FlattenModel
  OffsetsModel IterLemmas VecLemmas RoomLemmas BitmapLemmas BitmapLemmas2 Laws LawsBase LawsFlatten
  LawsValidity LawsOffsets.
Import ListNotations.

Ltac Zify.zify_post_hook ::= Z.div_mod_to_equations.
Local Arguments Nat.div : simpl never.
Local Arguments Nat.modulo : simpl never.
Local Arguments Nat.mul : simpl never.
Local Arguments N.add : simpl never.
Local Arguments N.mul : simpl never.
Local Arguments chunk : simpl never.
Local Arguments max_items : simpl never.

Record WD (K : Coll) : Type := {
  w_inv : cC K -> Prop;
  w_abs : cC K -> list (cA K);
  w_irep : cVI K -> list (cA K) -> Prop;
  w_orep : cOI K -> list (cA K) -> Prop;
  w_sim : cA K -> cA K -> Prop;        (* what was pushed, what is read *)
}.
Arguments w_inv {K} w.
Arguments w_abs {K} w.
Arguments w_irep {K} w.
Arguments w_orep {K} w.
Arguments w_sim {K} w.

Definition grown {K} (d : WD K) (c c' : cC K) (ys : list (cA K)) : Prop :=
  w_inv d c' /\ w_abs d c' = w_abs d c ++ ys.
Definition kept {K} (d : WD K) (c c' : cC K) : Prop :=
  w_inv d c' /\ w_abs d c' = w_abs d c.

(** From [s] on the iterator returns [None]. *)
Definition at_end {K} (d : WD K) (s : cOI K) : Prop :=
  exists P : cOI K -> Prop, P s /\
    forall t, P t -> w_orep d t [] /\ exists t', k_onext K t = Ret (None, t') /\ P t'.

Record WLaws (K : Coll) (wt : cA K -> Prop) (d : WD K) : Prop := {
  ww_item0 : wt (k_item0 K);
  ww_max : forall c, w_inv d c -> (lenN (w_abs d c) <= 8 * alloc_max)%N;
  ww_len : forall c, w_inv d c -> k_len K c = Ret (length (w_abs d c));
  ww_view : forall c i x, w_inv d c -> nth_error (w_abs d c) i = Some x ->
    exists v, k_view K c (N.of_nat i) = Ret (Some v) /\ k_own K v = Ret x;
  ww_iter : forall c, w_inv d c -> exists s, k_iter K c = Ret s /\ w_irep d s (w_abs d c);
  ww_icons : forall s x xs, w_irep d s (x :: xs) ->
    exists v s', k_inext K s = Ret (Some v, s') /\ k_own K v = Ret x /\ w_irep d s' xs;
  ww_inil : forall s, w_irep d s [] ->
    exists s', k_inext K s = Ret (None, s') /\ w_irep d s' [];
  ww_ihint : forall s xs, w_irep d s xs -> k_ihint K s = Ret (exact_hint (length xs));
  ww_into : forall c, w_inv d c -> exists s, k_into K c = Ret s /\ w_orep d s (w_abs d c);
  ww_ocons : forall s x xs, w_orep d s (x :: xs) ->
    exists s', k_onext K s = Ret (Some x, s') /\ w_orep d s' xs;
  ww_onil : forall s, w_orep d s [] -> k_onext K s = Pnc \/ at_end d s;
  ww_ohint : forall s xs, w_orep d s xs -> k_ohint K s = Ret (exact_hint (length xs));
  ww_extend : forall R c (it : iter (cA K) R) xs e r c' r' o,
    w_inv d c -> Forall wt xs -> run it = (xs, e, r) -> k_extend K c it = (c', r', o) ->
    match o with
    | ODone => e = FStop /\ r' = r /\ exists ys, Forall2 (w_sim d) xs ys /\ grown d c c' ys
    | OErr => False
    | OPanic => exists k ys, Forall2 (w_sim d) (firstn k xs) ys /\ grown d c c' ys
    | OAbort => True
    end;
  ww_try_extend : forall R c (it : iter (cA K) R) w xs e r c' r' o w',
    w_inv d c -> Forall wt xs -> run it = (xs, e, r) -> k_try_extend K c it w = (c', r', o, w') ->
    match o with
    | ODone => e = FStop /\ r' = r /\ exists ys, Forall2 (w_sim d) xs ys /\ grown d c c' ys
    | OErr => kept d c c'
    | OPanic => e = FBoom /\ exists k ys, Forall2 (w_sim d) (firstn k xs) ys /\ grown d c c' ys
    | OAbort => False
    end;
  ww_reserve : forall c n c' o, w_inv d c -> k_reserve K c n = (c', o) ->
    kept d c c' /\ o <> OErr;
  ww_try_reserve : forall c n w c' o w', w_inv d c -> k_try_reserve K c n w = (c', o, w') ->
    kept d c c' /\ (o = ODone \/ o = OErr);
  ww_truncate : forall c n, w_inv d c ->
    exists c', k_truncate K c n = (c', ODone) /\ w_inv d c' /\
      w_abs d c' = firstn (N.to_nat n) (w_abs d c);
}.

Lemma grown_nil {K} (d : WD K) c : w_inv d c -> grown d c c [].
Proof. intros H. split; [exact H|rewrite app_nil_r; reflexivity]. Qed.
Lemma grown_trans {K} (d : WD K) c c1 c2 ys zs : grown d c c1 ys -> grown d c1 c2 zs ->
  grown d c c2 (ys ++ zs).
Proof. intros [_ H] [G1 G2]. split; [exact G1|]. rewrite G2, H, app_assoc. reflexivity. Qed.

Lemma Forall2_eq {A} (l : list A) : Forall2 eq l l.
Proof. induction l; constructor; auto. Qed.
Lemma Forall2_any {A B} (R : A -> B -> Prop) : (forall a b, R a b) -> forall l l',
  length l = length l' -> Forall2 R l l'.
Proof.
  intros H. induction l as [|a l IH]; intros [|b l'] E; try discriminate; constructor; auto.
Qed.
Lemma Forall2_length' {A B} (R : A -> B -> Prop) l l' : Forall2 R l l' -> length l' = length l.
Proof. induction 1; cbn [length]; congruence. Qed.

(** ** Collections that no panic harms *)
Definition weak {K} (d : LD K) : WD K := {|
  w_inv := l_inv d; w_abs := l_abs d; w_irep := l_irep d; w_orep := l_orep d; w_sim := eq |}.
Lemma weak_laws K (d : LD K) (L : Laws K d) : (forall s o, l_psafe d s o = true) ->
  WLaws K (l_wt d) (weak d).
Proof.
  intros Hp. split; cbn [weak w_inv w_abs w_irep w_orep w_sim].
  - apply (lw_item0 _ _ L).
  - apply (lw_abs_len _ _ L).
  - apply (lw_len _ _ L).
  - apply (lw_view _ _ L).
  - apply (lw_iter _ _ L).
  - apply (lw_icons _ _ L).
  - apply (lw_inil _ _ L).
  - apply (lw_ihint _ _ L).
  - apply (lw_into _ _ L).
  - apply (lw_ocons _ _ L).
  - intros s H. right. exists (fun t => l_orep d t []). split; [exact H|].
    intros t Ht. split; [exact Ht|]. exact (lw_onil _ _ L t Ht).
  - apply (lw_ohint _ _ L).
  - intros R c it xs e r c' r' o Hc Hwt Hr E.
    destruct (lw_extend _ _ L R c it xs e r c' r' o Hc Hwt Hr E) as [H _].
    destruct o; try exact H.
    + destruct H as (H1 & H2 & F1 & _ & F3 & _). split; [exact H1|]. split; [exact H2|].
      exists xs. split; [apply Forall2_eq|]. split; [exact F1|exact F3].
    + destruct (H false) as (F1 & _ & _ & k & Hk & F3 & _); [discriminate|apply Hp|].
      exists k, (firstn k xs). split; [apply Forall2_eq|]. split; [exact F1|exact F3].
  - intros R c it w xs e r c' r' o w' Hc Hwt Hr E.
    pose proof (lw_try_extend _ _ L R c it w xs e r c' r' o w' Hc Hwt Hr E) as H.
    destruct o; try exact H.
    + destruct H as (H1 & H2 & F1 & _ & F3 & _). split; [exact H1|]. split; [exact H2|].
      exists xs. split; [apply Forall2_eq|]. split; [exact F1|exact F3].
    + destruct H as (F1 & _ & F3 & _). split; [exact F1|exact F3].
    + destruct H as [He H]. split; [exact He|].
      destruct (H (Hp _ _)) as (F1 & _ & _ & k & Hk & F3 & _).
      exists k, (firstn k xs). split; [apply Forall2_eq|]. split; [exact F1|exact F3].
  - intros c n c' o Hc E. destruct (lw_reserve _ _ L c n c' o Hc E) as ((F1 & _ & F3 & _) & H & _).
    split; [split; [exact F1|exact F3]|exact H].
  - intros c n w c' o w' Hc E.
    destruct (lw_try_reserve _ _ L c n w c' o w' Hc E) as ((F1 & _ & F3 & _) & H).
    split; [split; [exact F1|exact F3]|exact H].
  - intros c n Hc. destruct (lw_truncate _ _ L c n Hc) as (c' & E & F1 & _ & F3 & _).
    exists c'. split; [exact E|]. split; [exact F1|exact F3].
Qed.

(** ** Fixed-size lists *)
Lemma chunks_prefix {A} n (l l' : list A) : 0 < n ->
  exists ys, chunks n (l ++ l') = chunks n l ++ ys /\
    length ys = (length l + length l') / n - length l / n.
Proof.
  intros Hn. exists (skipn (length l / n) (chunks n (l ++ l'))).
  rewrite skipn_length, chunks_length, app_length. split; [|reflexivity].
  rewrite <- (firstn_skipn (length l / n) (chunks n (l ++ l'))) at 1. f_equal.
  assert (Hle : length l / n <= (length l + length l') / n) by (apply Nat.div_le_mono; lia).
  unfold chunks. rewrite firstn_map, app_length.
  replace (firstn (length l / n) (seq 0 ((length l + length l') / n))) with (seq 0 (length l / n)).
  2:{ replace ((length l + length l') / n) with (length l / n + ((length l + length l') / n - length l / n)) by lia.
      rewrite seq_app, firstn_app, seq_length, Nat.sub_diag. cbn [firstn].
      rewrite app_nil_r, firstn_all2; [reflexivity|rewrite seq_length; lia]. }
  apply map_ext_in. intros i Hi. apply in_seq in Hi.
  assert (n * i + n <= length l) by (pose proof (Nat.div_mod_eq (length l) n); nia).
  rewrite skipn_app, firstn_app, skipn_length.
  replace (n - (length l - n * i)) with 0 by lia. cbn [firstn]. rewrite app_nil_r. reflexivity.
Qed.
Lemma chunks_cut_at {A} n (l : list A) k : 0 < n -> k <= length l / n ->
  chunks n (firstn (n * k) l) = firstn k (chunks n l).
Proof.
  intros Hn Hk. pose proof (Nat.div_mod_eq (length l) n) as D.
  destruct (chunks_prefix n (firstn (n * k) l) (skipn (n * k) l) Hn) as (ys & E & _).
  rewrite firstn_skipn in E. rewrite E.
  assert (Hl : length (chunks n (firstn (n * k) l)) = k).
  { rewrite chunks_length, firstn_length, Nat.min_l by nia. rewrite Nat.mul_comm. apply Nat.div_mul. lia. }
  symmetry. apply firstn_app_exact. exact Hl.
Qed.

Section Flatten.
  Context (K : Coll) (wt : cA K -> Prop) (d : WD K) (L : WLaws K wt d) (n : nat) (Hn : 0 < n).

  Definition wfl_abs (c : cC K) : list (list (cA K)) := chunks n (w_abs d c).
  Definition wfl_orep (s : cOI K) (xs : list (list (cA K))) : Prop :=
    exists rest, w_orep d s (concat xs ++ rest) /\ rows_ok n xs /\ length rest < n.
  Definition wflatten : WD (flatten_coll K n) := {|
    w_inv := w_inv d : cC (flatten_coll K n) -> Prop;
    w_abs := wfl_abs : cC (flatten_coll K n) -> list (cA (flatten_coll K n));
    w_irep := fun (s : cVI (flatten_coll K n)) xs =>
                ixrep (fun c l => w_inv d c /\ wfl_abs c = l) s xs;
    w_orep := wfl_orep : cOI (flatten_coll K n) -> list (cA (flatten_coll K n)) -> Prop;
    w_sim := fun _ _ => True;
  |}.

  Lemma wfl_view c i x : w_inv d c -> nth_error (wfl_abs c) i = Some x ->
    exists v, fl_view K n c (N.of_nat i) = Ret (Some v) /\ fl_own K v = Ret x.
  Proof.
    intros Hc Hx. unfold wfl_abs in Hx.
    assert (Hi : i < length (chunks n (w_abs d c))) by (apply nth_error_Some; congruence).
    rewrite chunks_length in Hi. rewrite chunks_nth in Hx by auto. inversion Hx; subst; clear Hx.
    assert (Hin : n * i + n <= length (w_abs d c)).
    { pose proof (Nat.div_mod_eq (length (w_abs d c)) n). nia. }
    pose proof (ww_max _ _ _ L c Hc) as Hsz. unfold lenN in Hsz. rewrite alloc_max_val in Hsz.
    unfold fl_view.
    destruct (range_out_spec
      (fun j v => exists y, nth_error (w_abs d c) (n * i + j) = Some y /\ k_own K v = Ret y)
      (fun idx => let? base := strict_mul (N.of_nat i) (N.of_nat n) in
                  let? j := strict_add base idx in
                  let? v := k_view K c j in expect v) n 0) as (vs & E & Hl & Hvs).
    { intros j Hj.
      destruct (nth_error (w_abs d c) (n * i + j)) as [y|] eqn:Ey.
      2:{ apply nth_error_None in Ey. lia. }
      destruct (ww_view _ _ _ L c _ y Hc Ey) as (v & Ev & Ho).
      exists v. split; [|eauto].
      unfold strict_mul, strict_add. rewrite usize_max_val.
      assert (Hmul : (N.of_nat i * N.of_nat n = N.of_nat (n * i))%N) by lia.
      rewrite Hmul.
      assert ((N.of_nat (n * i) <=? 18446744073709551615)%N = true) as -> by lia.
      cbn [obind].
      assert ((N.of_nat (n * i) + (0 + N.of_nat j) <=? 18446744073709551615)%N = true) as -> by lia.
      cbn [obind].
      replace (N.of_nat (n * i) + (0 + N.of_nat j))%N with (N.of_nat (n * i + j)) by lia.
      rewrite Ev. reflexivity. }
    rewrite E. exists vs. split; [reflexivity|]. apply fl_own_spec.
    apply (nth_Forall2 1 Nat.lt_0_1); [rewrite firstn_length, skipn_length; lia|].
    intros j v Hv. destruct (Hvs j v Hv) as (y & Ey & Ho). exists y. split; auto.
    assert (j < n) by (rewrite <- Hl; apply nth_error_Some; congruence).
    rewrite nth_error_firstn_lt, nth_error_skipn_add; auto.
  Qed.
  Lemma wfl_len c : w_inv d c -> fl_len K n c = Ret (length (wfl_abs c)).
  Proof.
    intros Hc. unfold fl_len. rewrite (ww_len _ _ _ L c Hc). cbn [obind].
    unfold wfl_abs. rewrite chunks_length. destruct n; [lia|reflexivity].
  Qed.
  Lemma wchunk_rest : forall ys rest s, w_orep d s (ys ++ rest) ->
    exists s', chunk_rest K (length ys) s = Ret (ys, s') /\ w_orep d s' rest.
  Proof.
    clear Hn. induction ys as [|y ys IH]; intros rest s H; cbn [length chunk_rest].
    - eauto.
    - destruct (ww_ocons _ _ _ L s y (ys ++ rest) H) as (s1 & -> & H1). cbn [obind expect].
      destruct (IH rest s1 H1) as (s2 & -> & H2). cbn [obind fst snd]. eauto.
  Qed.
  Lemma wchunk_short : forall ys k s, w_orep d s ys -> length ys < k -> chunk_rest K k s = Pnc.
  Proof.
    clear n Hn. induction ys as [|y ys IH]; intros k s H Hk; (destruct k as [|k]; [cbn in Hk; lia|]);
      cbn [chunk_rest].
    - destruct (ww_onil _ _ _ L s H) as [->|(P & H1 & H2)]; [reflexivity|].
      destruct (H2 s H1) as (_ & s1 & -> & _). reflexivity.
    - destruct (ww_ocons _ _ _ L s y ys H) as (s1 & -> & H1). cbn [obind expect].
      rewrite (IH k s1 H1) by (cbn in Hk; lia). reflexivity.
  Qed.
  Lemma wfl_ocons s x xs : wfl_orep s (x :: xs) ->
    exists s', chunks_next K n s = Ret (Some x, s') /\ wfl_orep s' xs.
  Proof.
    intros (rest & Ho & Hr & Hl). pose proof (Forall_inv Hr) as Hx.
    pose proof (Forall_inv_tail Hr) as Hr'. cbn beta in Hx.
    cbn [concat] in Ho. rewrite <- app_assoc in Ho. destruct x as [|y x]; [cbn in Hx; lia|].
    cbn [length] in Hx. unfold wfl_orep, chunks_next. clear Hr Hn. subst n.
    destruct (ww_ocons _ _ _ L s y (x ++ concat xs ++ rest) Ho) as (s1 & -> & H1).
    cbn [obind].
    destruct (wchunk_rest x (concat xs ++ rest) s1 H1) as (s2 & -> & H2).
    cbn [obind fst snd]. exists s2. split; [reflexivity|]. exists rest. auto.
  Qed.
  Lemma wfl_onil s : wfl_orep s [] -> chunks_next K n s = Pnc \/ at_end wflatten s.
  Proof.
    intros (rest & Ho & _ & Hl). cbn [concat app] in Ho.
    destruct rest as [|y rest].
    - destruct (ww_onil _ _ _ L s Ho) as [E|(P & H1 & H2)].
      + left. unfold chunks_next. rewrite E. reflexivity.
      + right. exists P. split; [exact H1|]. intros t Ht. destruct (H2 t Ht) as (Hr & t' & E & Ht').
        split; [exists []; repeat split; [exact Hr|constructor|exact Hn]|].
        exists t'. split; [|exact Ht']. change (chunks_next K n t = Ret (None, t')).
        unfold chunks_next. rewrite E. reflexivity.
    - left. unfold chunks_next. destruct (ww_ocons _ _ _ L s y rest Ho) as (s1 & -> & H1). cbn [obind].
      destruct n as [|n']; [lia|]. rewrite (wchunk_short rest n' s1 H1) by (cbn in Hl; lia). reflexivity.
  Qed.
  Lemma wfl_grown c c' ys m : grown d c c' ys -> length ys <= n * m ->
    exists zs : list (list (cA K)), length zs <= m /\ (length ys = n * m -> length zs = m) /\
      grown wflatten c c' zs.
  Proof.
    intros [H1 H2] Hl. destruct (chunks_prefix n (w_abs d c) ys Hn) as (zs & E & Ez).
    exists zs. assert (Hu : (length (w_abs d c) + n * m) / n = length (w_abs d c) / n + m).
    { rewrite (Nat.mul_comm n), Nat.div_add by lia. reflexivity. }
    assert (Hm : (length (w_abs d c) + length ys) / n <= length (w_abs d c) / n + m).
    { rewrite <- Hu. apply Nat.div_le_mono; lia. }
    split; [rewrite Ez; revert Hm; generalize (length (w_abs d c) / n); intros; apply Nat.le_sub_le_add_l; assumption|]. split.
    - intros Hy. rewrite Hy, Hu in Ez. rewrite Ez. rewrite Nat.add_comm. apply Nat.add_sub.
    - split; [exact H1|]. change (chunks n (w_abs d c') = chunks n (w_abs d c) ++ zs).
      rewrite H2. exact E.
  Qed.
  Lemma wfl_rows xs : Forall (fun x : list (cA K) => length x = n /\ Forall wt x) xs ->
    rows_ok n xs /\ Forall wt (concat xs).
  Proof.
    clear Hn. induction 1 as [|x xs [H1 H2] _ [IH1 IH2]]; [split; constructor|].
    split; [constructor; auto|]. cbn [concat]. apply Forall_app. auto.
  Qed.

  Lemma wflatten_laws : WLaws (flatten_coll K n)
    (fun x : cA (flatten_coll K n) => length x = n /\ Forall wt x) wflatten.
  Proof.
    split; unfold flatten_coll; law_cbn;
      try (change (w_inv wflatten) with (w_inv d)).
    - split; [apply repeat_length|]. apply Forall_forall. intros x Hx.
      apply repeat_spec in Hx. subst x. apply (ww_item0 _ _ _ L).
    - intros c Hc. pose proof (ww_max _ _ _ L c Hc) as H. unfold wflatten; cbn [w_abs].
      unfold wfl_abs, lenN in *. rewrite chunks_length.
      assert (length (w_abs d c) / n <= length (w_abs d c)) by (apply Nat.div_le_upper_bound; nia). lia.
    - apply wfl_len.
    - apply wfl_view.
    - intros c Hc. unfold fl_iter. rewrite (wfl_len c Hc). cbn [obind].
      eexists; split; [reflexivity|]. unfold wflatten; cbn [w_irep w_abs].
      exists (wfl_abs c). cbn [ix_coll ix_pos ix_end skipn]. repeat split; auto; lia.
    - intros s x xs H. eapply ixrep_cons; [|exact H].
      intros c l i y [Hc <-] Hy. apply wfl_view; auto.
    - intros s H. eapply ixrep_nil; exact H.
    - intros s xs H. eapply ixrep_hint; exact H.
    - intros c Hc. destruct (ww_into _ _ _ L c Hc) as (s & E & Hs).
      exists s. split; auto. unfold wflatten; cbn [w_orep w_abs]. unfold wfl_orep, wfl_abs.
      exists (skipn (n * (length (w_abs d c) / n)) (w_abs d c)).
      pose proof (Nat.div_mod_eq (length (w_abs d c)) n) as D.
      pose proof (Nat.mod_upper_bound (length (w_abs d c)) n) as M.
      assert (Hf : length (firstn (n * (length (w_abs d c) / n)) (w_abs d c)) = n * (length (w_abs d c) / n))
        by (rewrite firstn_length; lia).
      assert (Hc2 : concat (chunks n (w_abs d c)) = firstn (n * (length (w_abs d c) / n)) (w_abs d c)).
      { rewrite <- (concat_chunks n (firstn _ _)) by (auto; exists (length (w_abs d c) / n); lia).
        f_equal. rewrite chunks_cut_at by auto. symmetry. apply firstn_all2. rewrite chunks_length. lia. }
      rewrite Hc2, firstn_skipn. split; [exact Hs|]. split; [apply chunks_rows; auto|].
      rewrite skipn_length. lia.
    - apply wfl_ocons.
    - apply wfl_onil.
    - intros s xs (rest & Ho & Hr & Hl). unfold chunks_hint. rewrite (ww_ohint _ _ _ L s _ Ho). cbn [obind].
      unfold exact_len, exact_hint; cbn [fst snd]. rewrite N.eqb_refl. cbn [obind].
      unfold strict_div. assert ((N.of_nat n =? 0)%N = false) as -> by lia. cbn [obind].
      assert ((N.of_nat (length (concat xs ++ rest)) / N.of_nat n)%N = N.of_nat (length xs)) as ->; auto.
      rewrite <- Nat2N.inj_div. f_equal. rewrite app_length, (concat_length n) by exact Hr.
      symmetry; apply (Nat.div_unique _ n _ (length rest)); lia.
    - intros R c it xs e r c' r' o Hc Hwt Hr E.
      destruct (wfl_rows xs Hwt) as [Hrows Hwt'].
      pose proof (run_flatten (N.of_nat n) _ _ _ _ Hr) as Hr'.
      pose proof (ww_extend _ _ _ L R c _ _ _ _ _ _ _ Hc Hwt' Hr' E) as H.
      assert (Hcl : length (concat xs) = n * length xs) by (apply concat_length; exact Hrows).
      destruct o; try exact H.
      + destruct H as (H1 & H2 & ys & Hy & G). split; [exact H1|]. split; [exact H2|]. apply Forall2_length' in Hy.
        destruct (wfl_grown c c' ys (length xs) G) as (zs & _ & Z2 & Z3); [lia|].
        exists zs. split; [|exact Z3]. apply Forall2_any; [intros; exact I|]. symmetry. apply Z2. lia.
      + destruct H as (k & ys & Hy & G). apply Forall2_length' in Hy. rewrite firstn_length in Hy.
        destruct (wfl_grown c c' ys (length xs) G) as (zs & Z1 & _ & Z3); [lia|].
        exists (length zs), zs. split; [|exact Z3]. apply Forall2_any; [intros; exact I|].
        rewrite firstn_length. apply Nat.min_l. exact Z1.
    - intros R c it w xs e r c' r' o w' Hc Hwt Hr E.
      destruct (wfl_rows xs Hwt) as [Hrows Hwt'].
      pose proof (run_flatten (N.of_nat n) _ _ _ _ Hr) as Hr'.
      pose proof (ww_try_extend _ _ _ L R c _ _ _ _ _ _ _ _ _ Hc Hwt' Hr' E) as H.
      assert (Hcl : length (concat xs) = n * length xs) by (apply concat_length; exact Hrows).
      destruct o; try exact H.
      + destruct H as (H1 & H2 & ys & Hy & G). split; [exact H1|]. split; [exact H2|]. apply Forall2_length' in Hy.
        destruct (wfl_grown c c' ys (length xs) G) as (zs & _ & Z2 & Z3); [lia|].
        exists zs. split; [|exact Z3]. apply Forall2_any; [intros; exact I|]. symmetry. apply Z2. lia.
      + destruct H as [H1 H2]. split; [exact H1|]. unfold wflatten; cbn [w_abs]. unfold wfl_abs.
        rewrite H2. reflexivity.
      + destruct H as (H1 & k & ys & Hy & G). split; [exact H1|]. apply Forall2_length' in Hy.
        rewrite firstn_length in Hy.
        destruct (wfl_grown c c' ys (length xs) G) as (zs & Z1 & _ & Z3); [lia|].
        exists (length zs), zs. split; [|exact Z3]. apply Forall2_any; [intros; exact I|].
        rewrite firstn_length. apply Nat.min_l. exact Z1.
    - intros c m c' o Hc. unfold fl_reserve. destruct (strict_mul m (N.of_nat n)) as [m'|].
      + intros E. destruct (ww_reserve _ _ _ L c m' c' o Hc E) as [[H1 H2] H3]. split; [|exact H3].
        split; [exact H1|]. unfold wflatten; cbn [w_abs]. unfold wfl_abs. rewrite H2. reflexivity.
      + intros E; inversion E; subst. split; [split; auto|discriminate].
    - intros c m w c' o w' Hc. unfold fl_try_reserve. destruct (checked_mul m (N.of_nat n)) as [m'|].
      + intros E. destruct (ww_try_reserve _ _ _ L c m' w c' o w' Hc E) as [[H1 H2] H3]. split; [|exact H3].
        split; [exact H1|]. unfold wflatten; cbn [w_abs]. unfold wfl_abs. rewrite H2. reflexivity.
      + intros E; inversion E; subst. split; [split; auto|auto].
    - intros c m Hc. unfold fl_truncate. rewrite (wfl_len c Hc). unfold wflatten; cbn [w_abs].
      unfold wfl_abs. rewrite chunks_length.
      destruct (m <? N.of_nat (length (w_abs d c) / n))%N eqn:E.
      + pose proof (ww_max _ _ _ L c Hc) as Hsz. unfold lenN in Hsz. rewrite alloc_max_val in Hsz.
        pose proof (Nat.div_mod_eq (length (w_abs d c)) n) as D.
        unfold strict_mul. rewrite usize_max_val.
        assert ((m * N.of_nat n <=? 18446744073709551615)%N = true) as -> by nia.
        destruct (ww_truncate _ _ _ L c (m * N.of_nat n) Hc) as (c' & -> & H1 & H2).
        exists c'. split; [reflexivity|]. split; [exact H1|]. rewrite H2.
        replace (N.to_nat (m * N.of_nat n)) with (n * N.to_nat m) by lia.
        apply chunks_cut_at; [exact Hn|lia].
      + exists c. split; [reflexivity|]. split; [exact Hc|]. symmetry. apply firstn_all2.
        rewrite chunks_length. lia.
  Qed.
End Flatten.
