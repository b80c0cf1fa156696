(** * Flatten preserves the laws (for a width above zero). *)
From Coq Require Import List NArith ZArith Bool Arith Lia ZifyBool ZifyNat ZifyN.
From Verif Require Import Base Iter Spec VecModel BitmapModel CollModel ValidityModel
  FlattenModel IterLemmas VecLemmas BitmapLemmas BitmapLemmas2 Laws LawsBase.
Import ListNotations.

Ltac Zify.zify_post_hook ::= Z.div_mod_to_equations.
Local Arguments Nat.div : simpl never.
Local Arguments Nat.modulo : simpl never.
Local Arguments Nat.mul : simpl never.

(** ** Cutting a list into rows *)

Definition rows_ok {A} (n : nat) (xs : list (list A)) : Prop :=
  Forall (fun l => length l = n) xs.
Definition chunks {A} (n : nat) (l : list A) : list (list A) :=
  map (fun i => firstn n (skipn (n * i) l)) (seq 0 (length l / n)).

Lemma concat_length {A} n (xs : list (list A)) : rows_ok n xs ->
  length (concat xs) = n * length xs.
Proof.
  induction 1 as [|x xs Hx Hxs IH]; cbn [concat length]; [lia|].
  rewrite app_length, IH, Hx. lia.
Qed.
Lemma concat_nth {A} n (xs : list (list A)) i : rows_ok n xs -> i < length xs ->
  nth_error xs i = Some (firstn n (skipn (n * i) (concat xs))).
Proof.
  intros H; revert i; induction H as [|x xs Hx Hxs IH]; cbn [length concat]; intros i Hi; [lia|].
  destruct i as [|i]; cbn [nth_error].
  - replace (n * 0) with 0 by lia. cbn [skipn]. rewrite firstn_app_exact; auto.
  - rewrite IH by lia. replace (n * S i) with (length x + n * i) by lia.
    rewrite <- skipn_skipn_add, skipn_app_exact; auto.
Qed.
Lemma chunks_length {A} n (l : list A) : length (chunks n l) = length l / n.
Proof. unfold chunks. rewrite map_length, seq_length; auto. Qed.
Lemma chunks_rows {A} n (l : list A) : 0 < n -> rows_ok n (chunks n l).
Proof.
  intros Hn. apply Forall_forall. intros x Hx. unfold chunks in Hx.
  apply in_map_iff in Hx. destruct Hx as (i & <- & Hi). apply in_seq in Hi.
  rewrite firstn_length, skipn_length.
  assert (n * S i <= length l); [|lia].
  transitivity (n * (length l / n)); [apply Nat.mul_le_mono_l; lia|apply Nat.mul_div_le; lia].
Qed.
Lemma chunks_concat {A} n (xs : list (list A)) : 0 < n -> rows_ok n xs ->
  chunks n (concat xs) = xs.
Proof.
  intros Hn H.
  assert (Hl : length (chunks n (concat xs)) = length xs).
  { rewrite chunks_length, (concat_length n) by auto.
    rewrite Nat.mul_comm, Nat.div_mul; lia. }
  apply nth_ext with (d := []) (d' := []); auto.
  intros i Hi. rewrite Hl in Hi.
  apply nth_error_nth with (d := []) in Hi as H0 || idtac.
  pose proof (concat_nth n xs i H Hi) as E.
  rewrite (nth_error_nth xs i [] E).
  unfold chunks.
  assert (Hd : length (concat xs) / n = length xs).
  { rewrite (concat_length n) by auto. rewrite Nat.mul_comm, Nat.div_mul; lia. }
  rewrite Hd.
  erewrite nth_error_nth; [reflexivity|].
  rewrite nth_error_map.
  assert (nth_error (seq 0 (length xs)) i = Some i) as ->; [|reflexivity].
  rewrite (nth_error_nth' _ 0) by (rewrite seq_length; auto).
  rewrite seq_nth; auto.
Qed.
Lemma concat_chunks {A} n (l : list A) : 0 < n -> Nat.divide n (length l) ->
  concat (chunks n l) = l.
Proof.
  intros Hn [q Hq]. revert l Hq. induction q as [|q IH]; intros l Hq.
  - destruct l; [|cbn in Hq; lia]. unfold chunks; cbn. rewrite Nat.div_0_l by lia. reflexivity.
  - rewrite <- (firstn_skipn n l).
    assert (L : length (firstn n l) = n) by (rewrite firstn_length; lia).
    rewrite <- (IH (skipn n l)) by (rewrite skipn_length; lia).
    change (firstn n l ++ concat (chunks n (skipn n l)))
      with (concat (firstn n l :: chunks n (skipn n l))).
    rewrite chunks_concat; auto. constructor; auto. apply chunks_rows; auto.
Qed.
Lemma chunks_app {A} n (l : list A) xs : 0 < n -> Nat.divide n (length l) -> rows_ok n xs ->
  chunks n (l ++ concat xs) = chunks n l ++ xs.
Proof.
  intros Hn Hd H. rewrite <- (concat_chunks n l) at 1 by auto.
  rewrite <- concat_app. apply chunks_concat; auto.
  apply Forall_app; split; auto. apply chunks_rows; auto.
Qed.
Lemma concat_firstn {A} n (xs : list (list A)) k : rows_ok n xs ->
  firstn (n * k) (concat xs) = concat (firstn k xs).
Proof.
  intros H; revert k; induction H as [|x xs Hx Hxs IH]; intros k; cbn [concat].
  - rewrite !firstn_nil. reflexivity.
  - destruct k as [|k]; [replace (n * 0) with 0 by lia; reflexivity|].
    cbn [firstn concat]. rewrite <- IH. rewrite firstn_app, Hx.
    rewrite firstn_all2 by lia. do 2 f_equal. lia.
Qed.
Lemma rows_firstn {A} n (xs : list (list A)) k : rows_ok n xs -> rows_ok n (firstn k xs).
Proof.
  intros H. apply Forall_forall. intros x Hx. apply (proj1 (Forall_forall _ _) H).
  rewrite <- (firstn_skipn k xs). apply in_or_app; auto.
Qed.
Lemma chunks_firstn {A} n (l : list A) k : 0 < n -> Nat.divide n (length l) ->
  chunks n (firstn (n * k) l) = firstn k (chunks n l).
Proof.
  intros Hn Hd. rewrite <- (concat_chunks n l) at 1 by auto.
  rewrite concat_firstn by (apply chunks_rows; auto).
  apply chunks_concat; auto. apply rows_firstn, chunks_rows; auto.
Qed.
Lemma chunks_nth {A} n (l : list A) i : 0 < n ->
  i < length l / n -> nth_error (chunks n l) i = Some (firstn n (skipn (n * i) l)).
Proof.
  intros Hn Hi. unfold chunks. rewrite nth_error_map.
  assert (nth_error (seq 0 (length l / n)) i = Some i) as ->; [|reflexivity].
  rewrite (nth_error_nth' _ 0) by (rewrite seq_length; auto). rewrite seq_nth; auto.
Qed.

(** ** Ranges *)

Lemma range_out_spec {B} (P : nat -> B -> Prop) (f : N -> out B) : forall n start,
  (forall i, i < n -> exists v, f (start + N.of_nat i)%N = Ret v /\ P i v) ->
  exists vs, range_out f start n = Ret vs /\ length vs = n /\
    forall i v, nth_error vs i = Some v -> P i v.
Proof.
  intros n; revert P. induction n as [|n IH]; intros P start H; cbn [range_out].
  - exists []. repeat split; auto. intros [|i] v; discriminate.
  - destruct (H 0) as (v & E & Hv); [lia|]. rewrite N.add_0_r in E. rewrite E. cbn [obind].
    destruct (IH (fun i => P (S i)) (start + 1)%N) as (vs & -> & Hl & Hvs).
    { intros i Hi. destruct (H (S i)) as (v' & E' & Hv'); [lia|].
      exists v'. split; auto. rewrite <- E'. f_equal. lia. }
    cbn [obind]. exists (v :: vs). cbn [length]. repeat split; auto.
    intros [|i] x; cbn [nth_error]; [congruence|apply Hvs].
Qed.

(** Index-based view iterators. *)
Section Ix.
  Context {C V A : Type} (view : C -> N -> out (option V)) (own : V -> out A)
    (P : C -> list A -> Prop).
  Hypothesis Hview : forall c l i x, P c l -> nth_error l i = Some x ->
    exists v, view c (N.of_nat i) = Ret (Some v) /\ own v = Ret x.
  Definition ixrep (s : ixiter C) (xs : list A) : Prop :=
    exists l, P (ix_coll s) l /\ ix_end s = length l /\ ix_pos s <= length l /\
      xs = skipn (ix_pos s) l.
  Lemma ixrep_cons s x xs : ixrep s (x :: xs) ->
    exists v s', ix_next view s = Ret (Some v, s') /\ own v = Ret x /\ ixrep s' xs.
  Proof.
    destruct s as [c p e]. intros (l & Hp & He & Hle & Hx). cbn in *. subst e.
    destruct (skipn_cons_nth p l x xs) as [Hlt Hl]; [auto|].
    assert (Hn : nth_error l p = Some x).
    { rewrite Hl, nth_error_app2; rewrite firstn_length; [|lia].
      replace (p - Nat.min p (length l)) with 0 by lia. reflexivity. }
    destruct (Hview c l p x Hp Hn) as (v & E & Hv).
    unfold ix_next; cbn [ix_coll ix_pos ix_end].
    assert (Nat.ltb p (length l) = true) as -> by (apply Nat.ltb_lt; auto).
    rewrite E. cbn [obind expect]. exists v. eexists. split; [reflexivity|]. split; [auto|].
    exists l. cbn. repeat split; auto.
    change (xs = skipn (S p) l). replace (S p) with (p + 1) by lia.
    rewrite <- skipn_skipn_add, <- Hx. reflexivity.
  Qed.
  Lemma ixrep_nil s : ixrep s [] ->
    exists s', ix_next view s = Ret (None, s') /\ ixrep s' [].
  Proof.
    clear Hview. intros H. pose proof H as (l & Hp & He & Hle & Hx).
    exists s. split; auto. unfold ix_next.
    assert (Hd : length (skipn (ix_pos s) l) = 0) by (rewrite <- Hx; auto).
    rewrite skipn_length in Hd.
    assert (Nat.ltb (ix_pos s) (ix_end s) = false) as -> by (apply Nat.ltb_ge; lia).
    reflexivity.
  Qed.
  Lemma ixrep_hint s xs : ixrep s xs -> ix_hint s = Ret (exact_hint (length xs)).
  Proof.
    clear Hview. intros (l & Hp & He & Hle & ->). unfold ix_hint. rewrite skipn_length, He. auto.
  Qed.
End Ix.

(** ** The laws *)

Section Flatten.
  Context (K : Coll) (d : LD K) (L : Laws K d) (n : nat) (Hn : 0 < n).

  Definition fl_inv (c : cC K) : Prop :=
    l_inv d c /\ Nat.divide n (length (l_abs d c)).
  Definition fl_abs (c : cC K) : list (list (cA K)) := chunks n (l_abs d c).

  Definition flatten_ld : LD (flatten_coll K n) := {|
    l_wt := fun x : cA (flatten_coll K n) => length x = n /\ Forall (l_wt d) x;
    l_inv := fl_inv : cC (flatten_coll K n) -> Prop;
    l_abs := fl_abs : cC (flatten_coll K n) -> list (cA (flatten_coll K n));
    l_irep := fun (s : cVI (flatten_coll K n)) xs =>
                ixrep (fun c l => fl_inv c /\ fl_abs c = l) s xs;
    l_orep := fun (s : cOI (flatten_coll K n)) xs => l_orep d s (concat xs) /\ rows_ok n xs;
    l_voff := l_voff d : cC (flatten_coll K n) -> nat;
    l_usage := l_usage d : cC (flatten_coll K n) -> N;
    l_wgt := sumw (l_wgt d) : cA (flatten_coll K n) -> N;
    l_cfac := (N.of_nat n * l_cfac d)%N;
    l_lim := l_lim d;
    l_psafe := fun s o => l_psafe d s o && l_gran d s o n;
    l_gran := fun s o m => l_gran d s o (n * m);
    l_nofuse := true;
    l_nofuse_try := true;
    l_oob := fun _ => false;
  |}.

  Lemma fl_wt_rows xs : Forall (fun x : list (cA K) => length x = n /\ Forall (l_wt d) x) xs ->
    rows_ok n xs /\ Forall (l_wt d) (concat xs).
  Proof.
    induction 1 as [|x xs [H1 H2] Hxs [IH1 IH2]]; cbn; [split; constructor|].
    split; [constructor; auto|]. apply Forall_app; auto.
  Qed.
  Lemma fl_len_spec c : fl_inv c -> fl_len K n c = Ret (length (fl_abs c)).
  Proof.
    intros [Hc Hd]. unfold fl_len. rewrite (lw_len _ _ L c Hc). cbn [obind].
    unfold fl_abs. rewrite chunks_length. clear - Hn. destruct n as [|n']; [lia|]. reflexivity.
  Qed.
  Lemma fl_rows_mul c : fl_inv c -> length (l_abs d c) = n * length (fl_abs c).
  Proof.
    intros [Hc [q Hq]]. unfold fl_abs. rewrite chunks_length, Hq, Nat.div_mul by lia. lia.
  Qed.
  Lemma fl_own_spec vs xs : Forall2 (fun v x => k_own K v = Ret x) vs xs ->
    fl_own K vs = Ret xs.
  Proof.
    induction 1 as [|v x vs xs H HF IH]; cbn [fl_own]; [auto|].
    rewrite H. cbn [obind]. rewrite IH. reflexivity.
  Qed.
  Lemma nth_Forall2 {X Y} (P : X -> Y -> Prop) xs ys : length xs = length ys ->
    (forall i x, nth_error xs i = Some x -> exists y, nth_error ys i = Some y /\ P x y) ->
    Forall2 P xs ys.
  Proof.
    revert ys; induction xs as [|x xs IH]; intros [|y ys] Hl H; try discriminate; constructor.
    - destruct (H 0 x eq_refl) as (y' & E & HP). cbn in E. congruence.
    - apply IH; [cbn in Hl; lia|]. intros i x' Hx. exact (H (S i) x' Hx).
  Qed.
  Lemma fl_view_spec c i x : fl_inv c -> nth_error (fl_abs c) i = Some x ->
    exists v, fl_view K n c (N.of_nat i) = Ret (Some v) /\ fl_own K v = Ret x.
  Proof.
    intros Hi Hx. pose proof (fl_rows_mul c Hi) as Hm. destruct Hi as [Hc Hd].
    assert (Hlt : i < length (fl_abs c)) by (apply nth_error_Some; congruence).
    pose proof (lw_abs_len _ _ L c Hc) as Hsz. unfold lenN in Hsz. rewrite alloc_max_val in Hsz.
    assert (Hin : n * i + n <= length (l_abs d c)).
    { rewrite Hm. replace (n * i + n) with (n * S i) by lia. apply Nat.mul_le_mono_l. lia. }
    unfold fl_abs in Hx. rewrite chunks_nth in Hx by (auto; rewrite <- chunks_length; auto).
    injection Hx as <-. unfold fl_view.
    destruct (range_out_spec
      (fun j v => exists y, nth_error (l_abs d c) (n * i + j) = Some y /\ k_own K v = Ret y)
      (fun idx => let? base := strict_mul (N.of_nat i) (N.of_nat n) in
                  let? j := strict_add base idx in
                  let? v := k_view K c j in expect v) n 0) as (vs & E & Hl & Hvs).
    { intros j Hj.
      destruct (nth_error (l_abs d c) (n * i + j)) as [y|] eqn:Ey.
      2:{ apply nth_error_None in Ey. lia. }
      destruct (lw_view _ _ L c (n * i + j) y Hc Ey) as (v & Ev & Ho).
      exists v. split; [|eauto].
      unfold strict_mul, strict_add. rewrite usize_max_val.
      assert (Hmul : (N.of_nat i * N.of_nat n = N.of_nat (n * i))%N) by lia.
      rewrite Hmul.
      assert ((N.of_nat (n * i) <=? 18446744073709551615)%N = true) as -> by lia.
      cbn [obind].
      assert ((N.of_nat (n * i) + (0 + N.of_nat j) <=? 18446744073709551615)%N = true) as -> by lia.
      cbn [obind].
      replace (N.of_nat (n * i) + (0 + N.of_nat j))%N with (N.of_nat (n * i + j)) by lia.
      rewrite Ev. reflexivity. }
    rewrite E. exists vs. split; [reflexivity|]. apply fl_own_spec.
    apply nth_Forall2; [rewrite firstn_length, skipn_length; lia|].
    intros j v Hv. destruct (Hvs j v Hv) as (y & Ey & Ho). exists y. split; auto.
    assert (j < n) by (rewrite <- Hl; apply nth_error_Some; congruence).
    rewrite nth_error_firstn_lt, nth_error_skipn_add; auto.
  Qed.
  Lemma fl_view_out c i : fl_inv c -> (lenN (fl_abs c) <= i)%N -> (i <= usize_max)%N ->
    fl_view K n c i = Pnc.
  Proof.
    intros Hi Hge Hle. pose proof (fl_rows_mul c Hi) as Hm. destruct Hi as [Hc Hd].
    unfold fl_view.
    assert (n = S (n - 1)) as En by lia.
    match goal with |- omap Some (range_out ?f 0 n) = _ =>
      replace (range_out f 0 n) with (range_out f 0 (S (n - 1))) by (rewrite <- En; auto) end.
    cbn [range_out].
    unfold strict_mul at 1.
    destruct (i * N.of_nat n <=? usize_max)%N eqn:E1; [|reflexivity]. cbn [obind].
    unfold strict_add at 1. rewrite N.add_0_r, E1. cbn [obind].
    rewrite (lw_view_out _ _ L c); auto; [| |lia].
    - destruct (l_oob d _); reflexivity.
    - unfold lenN in *. rewrite Hm.
      replace (N.of_nat (n * length (fl_abs c)))
        with (N.of_nat (length (fl_abs c)) * N.of_nat n)%N by lia.
      apply N.mul_le_mono_r. auto.
  Qed.

  Lemma chunk_rest_spec : forall ys rest s, l_orep d s (ys ++ rest) ->
    exists s', chunk_rest K (length ys) s = Ret (ys, s') /\ l_orep d s' rest.
  Proof.
    induction ys as [|y ys IH]; intros rest s H; cbn [length chunk_rest].
    - eauto.
    - destruct (lw_ocons _ _ L s y (ys ++ rest) H) as (s1 & -> & H1). cbn [obind expect].
      destruct (IH rest s1 H1) as (s2 & -> & H2). cbn [obind fst snd]. eauto.
  Qed.

  Lemma flat_upper_lower (h : hint) :
    (upper_or_lower h * (N.of_nat n * l_cfac d) <= l_lim d)%N ->
    (upper_or_lower (flat_hint (N.of_nat n) 0 h) * l_cfac d <= l_lim d)%N.
  Proof.
    pose proof (lw_lim _ _ L) as Hlim. pose proof (lw_cfac1 _ _ L) as Hf.
    rewrite alloc_max_val in Hlim.
    destruct h as [lo [hi|]]; unfold upper_or_lower, flat_hint; cbn [fst snd unwrap_or]; intros H.
    - assert (Hm : (hi * N.of_nat n <= l_lim d)%N).
      { etransitivity; [|exact H]. rewrite N.mul_assoc.
        rewrite <- (N.mul_1_r (hi * N.of_nat n)) at 1. apply N.mul_le_mono_l. auto. }
      unfold checked_mul. rewrite usize_max_val.
      assert ((N.of_nat n * hi <=? 18446744073709551615)%N = true) as -> by lia.
      unfold checked_add. rewrite usize_max_val. rewrite N.add_0_l.
      assert ((N.of_nat n * hi <=? 18446744073709551615)%N = true) as -> by lia.
      cbn [unwrap_or]. rewrite (N.mul_comm _ hi), <- N.mul_assoc. exact H.
    - unfold sat_add, sat_mul. etransitivity; [|exact H].
      rewrite N.mul_assoc. apply N.mul_le_mono_r. lia.
  Qed.

  Lemma fl_fresh c xs : rows_ok n xs -> fresh d c (concat xs) -> fresh flatten_ld c xs.
  Proof.
    intros Hr (H1 & H2 & H3 & H4). unfold fresh, flatten_ld; law_cbn.
    split; [|split; [auto|split]].
    - split; auto. rewrite H3, (concat_length n) by auto. apply Nat.divide_factor_l.
    - unfold fl_abs. rewrite H3. apply chunks_concat; auto.
    - rewrite sumw_concat in H4. exact H4.
  Qed.
  Lemma fl_fresh0 c : fresh d c [] -> fresh flatten_ld c [].
  Proof. apply (fl_fresh c []). constructor. Qed.

  Lemma fl_wt_cost (xs : list (list (cA K))) :
    Forall (fun x => length x = n /\ Forall (l_wt d) x) xs ->
    Forall (fun l => Forall (fun x => (l_cfac d <= l_wgt d x)%N) l) xs.
  Proof.
    apply Forall_impl. intros x [_ Hx]. revert Hx. apply Forall_impl. apply (lw_cfac _ _ L).
  Qed.
  Lemma fl_collects f : collects d f ->
    collects flatten_ld (fun R it => f R (it_flatten (N.of_nat n) it)).
  Proof.
    intros Hf R it xs e r res r' _ Hwt Hr E. unfold flatten_ld in *. law_cbn.
    cbn [l_wt flatten_coll cA] in Hwt.
    destruct (fl_wt_rows xs Hwt) as [Hrows Hwt'].
    pose proof (run_flatten (N.of_nat n) _ _ _ _ Hr) as Hr'.
    pose proof (cut_flatten (N.of_nat n) it) as Hc.
    destruct (Hf R _ _ _ _ _ _ (or_intror (fused_cut _ Hc)) Hwt' Hr' E) as [H1 H2]. split.
    - destruct res; auto. destruct H1 as (-> & _ & Ha & Hfr).
      specialize (Ha (fused_cut _ Hc)). rewrite (after_cut _ _ _ _ Hc Hr') in Ha.
      destruct Ha as [<-|[]]. split; [auto|]. split; [auto|].
      split; [intros _; eapply in_after_run; eauto|]. apply fl_fresh; auto.
    - intros Hs Hh. apply H2; [|apply flat_upper_lower; auto].
      eapply affords_flatten; [exact Hr|apply fl_wt_cost; auto|exact Hs].
  Qed.

  Lemma fl_full c c' xs : fl_inv c -> rows_ok n xs -> full_ext d c c' (concat xs) ->
    full_ext flatten_ld c c' xs.
  Proof.
    intros [Hc Hd] Hr (H1 & H2 & H3 & H4). unfold full_ext, flatten_ld; law_cbn.
    split; [|split; [auto|split]].
    - split; auto. rewrite H3, app_length, (concat_length n) by auto.
      apply Nat.divide_add_r; auto. apply Nat.divide_factor_l.
    - unfold fl_abs. rewrite H3. apply chunks_app; auto.
    - rewrite sumw_concat in H4. exact H4.
  Qed.
  Lemma fl_partial s c c' xs : fl_inv c -> rows_ok n xs ->
    l_gran d s (l_voff d c) n = true -> partial_ext d s c c' (concat xs) ->
    partial_ext flatten_ld s c c' xs.
  Proof.
    intros Hi Hr Hg (H1 & H2 & H3 & k & Hk & Ha & Hdiv). pose proof (fl_rows_mul c Hi) as Hm.
    destruct Hi as [Hc Hd]. unfold partial_ext, flatten_ld; law_cbn.
    rewrite (concat_length n) in Hk by auto.
    assert (Dk : Nat.divide n k).
    { apply Hdiv; auto. rewrite (concat_length n) by auto. apply Nat.divide_factor_l. }
    destruct Dk as [q Hq]. rewrite Nat.mul_comm in Hq.
    assert (Ha' : l_abs d c' = l_abs d c ++ concat (firstn q xs))
      by (rewrite Ha, Hq, concat_firstn; auto).
    pose proof (rows_firstn n xs q Hr) as Hrq.
    split; [|split; [auto|split]].
    - split; auto. rewrite Ha', app_length, (concat_length n) by auto.
      apply Nat.divide_add_r; auto. apply Nat.divide_factor_l.
    - rewrite sumw_concat in H3. exact H3.
    - exists q. split; [|split].
      + apply (proj2 (Nat.mul_le_mono_pos_l q (length xs) n Hn)). rewrite <- Hq. exact Hk.
      + unfold fl_abs. rewrite Ha'. apply chunks_app; auto.
      + intros m Hgm Hd1 Hd2. apply Nat.mul_divide_cancel_l with n; [lia|].
        rewrite <- Hq. apply Hdiv; auto.
        * rewrite Hm. apply Nat.mul_divide_mono_l; auto.
        * rewrite (concat_length n) by auto. apply Nat.mul_divide_mono_l; auto.
  Qed.
  Lemma fl_same c c' : fl_inv c -> same_items d c c' -> same_items flatten_ld c c'.
  Proof.
    intros [Hc Hd] (H1 & H2 & H3 & H4). unfold same_items, flatten_ld; law_cbn.
    unfold fl_inv, fl_abs. rewrite H3. auto.
  Qed.

  Lemma flatten_laws : Laws (flatten_coll K n) flatten_ld.
  Proof.
    split; unfold flatten_coll, flatten_ld at 1; law_cbn.
    - split; [apply repeat_length|]. apply Forall_forall. intros x Hx.
      apply repeat_spec in Hx. subst x. apply (lw_item0 _ _ L).
    - unfold flatten_ld; law_cbn. pose proof (lw_cfac1 _ _ L). nia.
    - intros x [Hl Hx]. unfold flatten_ld; law_cbn.
      transitivity (l_cfac d * lenN x)%N; [unfold lenN; rewrite Hl; lia|].
      apply sumw_lower. apply Forall_forall. intros y Hy. apply (lw_cfac _ _ L).
      apply (proj1 (Forall_forall _ _) Hx); auto.
    - apply (lw_lim _ _ L).
    - intros c [Hc Hd]. unfold flatten_ld; law_cbn. unfold fl_abs.
      pose proof (chunks_rows n (l_abs d c) Hn) as Hr.
      apply Forall_forall. intros x Hx. split.
      { apply (proj1 (Forall_forall _ _) Hr); auto. }
      pose proof (lw_abs_wt _ _ L c Hc) as Hw.
      rewrite <- (concat_chunks n (l_abs d c) Hn Hd) in Hw.
      apply Forall_forall. intros y Hy. apply (proj1 (Forall_forall _ _) Hw).
      apply in_concat. eauto.
    - intros c Hc. unfold flatten_ld; law_cbn.
      pose proof (lw_abs_len _ _ L c (proj1 Hc)) as H. pose proof (fl_rows_mul c Hc) as Hm.
      unfold lenN in *. rewrite Hm in H. nia.
    - intros c Hc. unfold flatten_ld; law_cbn.
      pose proof (lw_usage _ _ L c (proj1 Hc)) as H. pose proof (fl_rows_mul c Hc) as Hm.
      unfold lenN in *. rewrite Hm in H. nia.
    - apply fl_fresh0, (lw_default _ _ L).
    - apply fl_len_spec.
    - apply fl_view_spec.
    - intros c i Hc H1 H2. unfold flatten_ld; law_cbn. apply fl_view_out; auto.
    - intros c Hc. unfold fl_iter. rewrite (fl_len_spec c Hc). cbn [obind].
      eexists; split; [reflexivity|]. unfold flatten_ld; law_cbn.
      exists (fl_abs c). cbn [ix_coll ix_pos ix_end skipn]. repeat split; auto; try apply Hc; lia.
    - intros s x xs H. eapply ixrep_cons; [|exact H].
      intros c l i y [Hc <-] Hy. apply fl_view_spec; auto.
    - intros s H. eapply ixrep_nil; exact H.
    - intros s xs H. eapply ixrep_hint; exact H.
    - intros c [Hc Hd]. destruct (lw_into _ _ L c Hc) as (s & E & Hs).
      exists s. split; auto. unfold flatten_ld; law_cbn. unfold fl_abs.
      rewrite concat_chunks by auto. split; auto. apply chunks_rows; auto.
    - intros s x xs [Ho Hr]. unfold flatten_ld; law_cbn. inversion Hr as [|? ? Hl Hr']; subst.
      cbn [concat] in Ho. destruct x as [|y x]; [cbn in Hn; lia|].
      unfold chunks_next. destruct (lw_ocons _ _ L s y (x ++ concat xs) Ho) as (s1 & -> & H1).
      cbn [obind length].
      destruct (chunk_rest_spec x (concat xs) s1 H1) as (s2 & -> & H2).
      cbn [obind fst snd]. eauto.
    - intros s [Ho Hr]. unfold flatten_ld; law_cbn. unfold chunks_next.
      destruct (lw_onil _ _ L s Ho) as (s1 & -> & H1). cbn [obind]. eauto.
    - intros s xs [Ho Hr]. unfold chunks_hint. rewrite (lw_ohint _ _ L s _ Ho). cbn [obind].
      unfold exact_len, exact_hint; cbn [fst snd]. rewrite N.eqb_refl. cbn [obind].
      unfold strict_div. assert ((N.of_nat n =? 0)%N = false) as -> by lia. cbn [obind].
      rewrite (concat_length n) by auto.
      assert ((N.of_nat (n * length xs) / N.of_nat n)%N = N.of_nat (length xs)) as ->; auto.
      rewrite Nat2N.inj_mul, N.mul_comm, N.div_mul; lia.
    - intros m. unfold fl_with_capacity, strict_mul.
      destruct (m * N.of_nat n <=? usize_max)%N eqn:E.
      + destruct (lw_with_capacity _ _ L (m * N.of_nat n)) as [H1 H2]. split.
        * destruct (k_with_capacity K (m * N.of_nat n)); auto. apply fl_fresh0; auto.
        * unfold flatten_ld; law_cbn. rewrite N.mul_assoc. auto.
      + split; auto. unfold flatten_ld; law_cbn. intros H. exfalso.
        pose proof (lw_lim _ _ L) as Hlim. pose proof (lw_cfac1 _ _ L) as Hf.
        rewrite alloc_max_val in Hlim. rewrite usize_max_val in E. nia.
    - intros m w res w'. unfold fl_try_with_capacity, checked_mul.
      destruct (m * N.of_nat n <=? usize_max)%N eqn:E.
      + intros E2. pose proof (lw_try_with_capacity _ _ L _ _ _ _ E2) as H.
        destruct res; auto. apply fl_fresh0; auto.
      + intros E2; inversion E2; subst; auto.
    - apply (fl_collects (fun R => @k_from_iter K R)), (lw_from_iter _ _ L).
    - apply (fl_collects (fun R => @k_from_iter_in K R)), (lw_from_iter_in _ _ L).
    - intros R it w xs e r res r' w' _ Hwt Hr E.
      destruct (fl_wt_rows xs Hwt) as [Hrows Hwt'].
      pose proof (run_flatten (N.of_nat n) _ _ _ _ Hr) as Hr'.
      pose proof (cut_flatten (N.of_nat n) it) as Hc.
      pose proof (lw_try_from_iter _ _ L R _ w _ _ _ _ _ _
                    (or_intror (fused_cut _ Hc)) Hwt' Hr' E) as H.
      destruct res; auto. destruct H as (-> & H & _ & Ha).
      specialize (Ha (fused_cut _ Hc)). rewrite (after_cut _ _ _ _ Hc Hr') in Ha.
      destruct Ha as [<-|[]]. split; [auto|]. split; [apply fl_fresh; auto|]. split; [auto|].
      intros _. eapply in_after_run; eauto.
    - intros R c it xs e r c' r' o Hc Hwt Hr E.
      destruct (fl_wt_rows xs Hwt) as [Hrows Hwt'].
      pose proof (run_flatten (N.of_nat n) _ _ _ _ Hr) as Hr'.
      destruct (lw_extend _ _ L R c _ _ _ _ _ _ _ (proj1 Hc) Hwt' Hr' E) as [H1 H2].
      assert (Hfit : fits_it flatten_ld c it -> fits_it d c (it_flatten (N.of_nat n) it)).
      { unfold fits_it, flatten_ld; law_cbn. intros H.
        eapply affords_flatten; [exact Hr|apply fl_wt_cost; exact Hwt|exact H]. }
      split.
      + destruct o; auto.
        * destruct H1 as (-> & -> & H1). split; [auto|]. split; [auto|]. apply fl_full; auto.
        * intros s Hs Hp. unfold flatten_ld in Hp; law_cbn.
          apply andb_true_iff in Hp. destruct Hp as [Hp Hg].
          apply fl_partial; auto.
      + intros Hs. apply H2. apply Hfit; auto.
    - intros R c it w xs e r c' r' o w' Hc Hwt Hr E.
      destruct (fl_wt_rows xs Hwt) as [Hrows Hwt'].
      pose proof (run_flatten (N.of_nat n) _ _ _ _ Hr) as Hr'.
      pose proof (lw_try_extend _ _ L R c _ w _ _ _ _ _ _ _ (proj1 Hc) Hwt' Hr' E) as H1.
      destruct o; auto.
      + destruct H1 as (-> & -> & H1). split; [auto|]. split; [auto|]. apply fl_full; auto.
      + destruct H1 as (H1 & H2 & H3 & H4). unfold flatten_ld; law_cbn.
        rewrite sumw_concat in H4. unfold fl_inv, fl_abs. rewrite H3. destruct Hc. auto.
      + destruct H1 as (-> & H1). split; auto. unfold flatten_ld at 1; law_cbn. intros Hp.
        apply andb_true_iff in Hp. destruct Hp as [Hp Hg]. apply fl_partial; auto.
    - intros c m c' o Hc. unfold fl_reserve, strict_mul.
      destruct (m * N.of_nat n <=? usize_max)%N eqn:E.
      + intros E2. destruct (lw_reserve _ _ L _ _ _ _ (proj1 Hc) E2) as (H1 & H2 & H3).
        split; [apply fl_same; auto|]. split; auto. unfold flatten_ld; law_cbn.
        rewrite N.mul_assoc. auto.
      + intros E2; inversion E2; subst. split; [|split; [congruence|]].
        * unfold same_items, flatten_ld; law_cbn. repeat split; auto; try apply Hc; lia.
        * unfold flatten_ld; law_cbn. intros H. exfalso.
          pose proof (lw_lim _ _ L) as Hlim. pose proof (lw_cfac1 _ _ L) as Hf.
          rewrite alloc_max_val in Hlim. rewrite usize_max_val in E. nia.
    - intros c m w c' o w' Hc. unfold fl_try_reserve, checked_mul.
      destruct (m * N.of_nat n <=? usize_max)%N eqn:E.
      + intros E2. destruct (lw_try_reserve _ _ L _ _ _ _ _ _ (proj1 Hc) E2) as (H1 & H2).
        split; auto. apply fl_same; auto.
      + intros E2; inversion E2; subst. split; auto.
        unfold same_items, flatten_ld; law_cbn. repeat split; auto; try apply Hc; lia.
    - intros c m Hc. unfold fl_truncate. rewrite (fl_len_spec c Hc).
      unfold flatten_ld; law_cbn. pose proof (fl_rows_mul c Hc) as Hm.
      pose proof (lw_abs_len _ _ L c (proj1 Hc)) as Hsz. unfold lenN in Hsz.
      rewrite alloc_max_val in Hsz.
      destruct (m <? N.of_nat (length (fl_abs c)))%N eqn:E.
      + unfold strict_mul. rewrite usize_max_val.
        assert (Hlt : (m * N.of_nat n <= N.of_nat (length (l_abs d c)))%N).
        { rewrite Hm. nia. }
        assert ((m * N.of_nat n <=? 18446744073709551615)%N = true) as -> by lia.
        destruct Hc as [Hc Hd].
        destruct (lw_truncate _ _ L c (m * N.of_nat n) Hc) as (c' & -> & H1 & H2 & H3 & H4).
        assert (Hmn : N.to_nat (m * N.of_nat n) = n * N.to_nat m) by lia.
        rewrite Hmn in H3.
        exists c'. split; [auto|]. split; [|split; [auto|split; [|auto]]].
        * split; auto. rewrite H3, firstn_length.
          replace (Nat.min (n * N.to_nat m) (length (l_abs d c))) with (n * N.to_nat m) by lia.
          apply Nat.divide_factor_l.
        * unfold fl_abs. rewrite H3. apply chunks_firstn; auto.
      + exists c. split; [auto|]. split; [auto|]. split; [auto|]. split; [|lia].
        rewrite firstn_all2; auto. lia.
  Qed.
End Flatten.
