(** * Validity preserves the laws. *)
From Coq Require Import List NArith ZArith Bool Arith Lia ZifyBool ZifyNat ZifyN.
From Verif Require Import Base Iter Spec VecModel BitmapModel CollModel ValidityModel
  IterLemmas VecLemmas RoomLemmas BitmapLemmas BitmapLemmas2 Laws LawsBase.
Import ListNotations.

Ltac Zify.zify_post_hook ::= Z.div_mod_to_equations.
Local Arguments Nat.div : simpl never.
Local Arguments Nat.modulo : simpl never.
Local Arguments Nat.mul : simpl never.
Local Arguments N.add : simpl never.
Local Arguments N.mul : simpl never.
Local Arguments chunk : simpl never.

Lemma chunk_pos : 0 < chunk.
Proof. unfold chunk. lia. Qed.
Local Opaque chunk.

(** ** Values under a mask *)

Definition mask {A} (xs : list A) (bs : list bool) : list (option A) :=
  map (fun p : A * bool => if snd p then Some (fst p) else None) (combine xs bs).

Lemma mask_cons {A} (x : A) xs b bs :
  mask (x :: xs) (b :: bs) = (if b then Some x else None) :: mask xs bs.
Proof. reflexivity. Qed.
Lemma mask_nil_r {A} (xs : list A) : mask xs [] = [].
Proof. destruct xs; reflexivity. Qed.
Lemma mask_length {A} (xs : list A) bs : length (mask xs bs) = Nat.min (length xs) (length bs).
Proof. unfold mask. rewrite map_length. apply combine_length. Qed.
Lemma mask_app {A} (xs xs' : list A) bs bs' : length xs = length bs ->
  mask (xs ++ xs') (bs ++ bs') = mask xs bs ++ mask xs' bs'.
Proof.
  revert bs; induction xs as [|x xs IH]; intros [|b bs] H; try discriminate; [reflexivity|].
  cbn [app]. rewrite !mask_cons, IH by (cbn in H; lia). reflexivity.
Qed.
Lemma mask_short {A} (xs ys : list A) bs : length bs <= length xs ->
  mask (xs ++ ys) bs = mask xs bs.
Proof.
  revert bs; induction xs as [|x xs IH]; intros [|b bs] H; cbn [length app] in *.
  - rewrite !mask_nil_r; auto.
  - lia.
  - rewrite !mask_nil_r; auto.
  - rewrite !mask_cons, IH by lia. reflexivity.
Qed.
Lemma mask_firstn {A} n (xs : list A) bs :
  mask (firstn n xs) (firstn n bs) = firstn n (mask xs bs).
Proof. unfold mask. rewrite firstn_map, combine_firstn; auto. Qed.
Lemma mask_trunc {A} n (xs : list A) bs : length bs <= n -> mask (firstn n xs) bs = mask xs bs.
Proof.
  intros H. rewrite <- (firstn_all2 bs H) at 1. rewrite mask_firstn.
  apply firstn_all2. rewrite mask_length. lia.
Qed.
Lemma mask_true {A} (xs : list A) : mask xs (repeat true (length xs)) = map Some xs.
Proof. induction xs as [|x xs IH]; [reflexivity|]. cbn [length repeat]. rewrite mask_cons, IH; auto. Qed.
Lemma mask_options {A} (x0 : A) os : mask (map (unwrap_or x0) os) (map is_some os) = os.
Proof.
  induction os as [|[x|] os IH]; [reflexivity| |]; cbn [map]; rewrite mask_cons, IH; reflexivity.
Qed.
Lemma mask_nth {A} (xs : list A) bs i o : nth_error (mask xs bs) i = Some o ->
  exists x b, nth_error xs i = Some x /\ nth_error bs i = Some b /\
    o = if b then Some x else None.
Proof.
  revert bs i; induction xs as [|x xs IH]; intros [|b bs] [|i]; cbn; try discriminate.
  - intros H; inversion H; eauto.
  - apply IH.
Qed.
Lemma mask_nil_inv {A} (xs : list A) bs : length bs <= length xs -> mask xs bs = [] -> bs = [].
Proof.
  intros Hl H. apply (f_equal (@length _)) in H. rewrite mask_length in H.
  destruct bs; auto. cbn [length] in *. lia.
Qed.

(** ** Chunks of the input *)

Lemma take_node_src {R} k (n : node R) : nd_src (take_node k n) = nd_src n.
Proof. unfold take_node. destruct (nd_hint n); reflexivity. Qed.
Lemma take_byref_t {A R} : forall (t : trace A R) n nd nd0 xs e r,
  nd_src nd0 = Iter nd t -> run_t t nd = (xs, e, r) ->
  exists it', run_t (take_t n (byref_t t)) nd0 =
      (firstn n xs, if Nat.leb n (length xs) then FStop else e, it') /\
    if Nat.leb n (length xs)
    then run it' = (skipn n xs, e, r) /\ length (it_tr it') + n <= length t /\
      (forall (cost : A -> N) unit lim used, affords_t cost unit lim used t nd ->
       affords cost unit lim (used + sumw cost (firstn n xs)) it')
    else it_src it' = r.
Proof.
  induction t as [|[[a| |] n'] t IH]; intros n nd nd0 xs e r H0 Hr.
  - inversion Hr; subst. destruct n as [|n]; cbn.
    + rewrite H0. eexists; split; [reflexivity|]. split; [reflexivity|]. split; [cbn; lia|].
      intros. rewrite N.add_0_r. assumption.
    + rewrite H0. eexists; split; [reflexivity|]. cbn. reflexivity.
  - cbn [run_t] in Hr. destruct (run_t t n') as [[xs1 e1] r1] eqn:Hr1.
    inversion Hr; subst; clear Hr.
    destruct n as [|n].
    + cbn. rewrite H0. eexists; split; [reflexivity|].
      unfold run. cbn [it_tr it_node run_t]. rewrite Hr1. cbn [length]. split; auto. split; [lia|].
      intros. rewrite N.add_0_r. assumption.
    + cbn [byref_t take_t run_t length firstn skipn].
      destruct (IH n n' (take_node n (Node (nd_hint n') (Iter n' t))) xs1 e r (take_node_src _ _) Hr1)
        as (it' & E & H).
      cbn [nd_hint] in E. rewrite E. exists it'.
      change (Nat.leb (S n) (S (length xs1))) with (Nat.leb n (length xs1)).
      split; [reflexivity|]. destruct (Nat.leb n (length xs1)); [|auto].
      destruct H as (H1 & H2 & H3); split; [auto|]. split; [lia|].
      intros cost unit lim used [_ Ha]. specialize (H3 _ _ _ _ Ha). cbn [sumw].
      rewrite N.add_assoc. exact H3.
  - cbn [run_t] in Hr. inversion Hr; subst; clear Hr. destruct n as [|n]; cbn.
    + rewrite H0. eexists; split; [reflexivity|]. cbn. split; [auto|]. split; [lia|].
      intros. rewrite N.add_0_r. assumption.
    + eexists; split; [reflexivity|]. rewrite take_node_src. reflexivity.
  - cbn [run_t] in Hr. inversion Hr; subst; clear Hr. destruct n as [|n]; cbn.
    + rewrite H0. eexists; split; [reflexivity|]. cbn. split; [auto|]. split; [lia|].
      intros. rewrite N.add_0_r. assumption.
    + eexists; split; [reflexivity|]. rewrite take_node_src. reflexivity.
Qed.

Lemma insp_valid {A} (os : list (option A)) s :
  insp (fun s o => Some (s ++ [is_some o])) s os = Some (s ++ map is_some os).
Proof.
  revert s; induction os as [|o os IH]; intros s; cbn [insp map]; [rewrite app_nil_r; auto|].
  rewrite IH, <- app_assoc. reflexivity.
Qed.

(** [inspect] whose closure panics *)
Lemma run_inspect_none_t {A R S} (f : S -> A -> option S) (t : trace A R) n s :
  insp f s (fst (fst (run_t t n))) = None ->
  forall h, exists k r', run_t (inspect_t f s t) (Node h (nd_src n, s)) =
    (firstn k (fst (fst (run_t t n))), FBoom, r').
Proof.
  revert n s; induction t as [|[[a| |] n'] t IH]; intros n s; cbn; try discriminate.
  destruct (run_t t n') as [[xs e] r] eqn:Hr. cbn [fst insp]. intros H h.
  destruct (f s a) as [s'|] eqn:Ef.
  - specialize (IH n' s'). rewrite Hr in IH. destruct (IH H (nd_hint n')) as (k & r' & E).
    cbn [run_t]. rewrite E. exists (Datatypes.S k), r'. reflexivity.
  - cbn [run_t]. exists 0. eexists. reflexivity.
Qed.
Lemma run_inspect_none {A R S} (f : S -> A -> option S) (it : iter A R) s xs e r :
  run it = (xs, e, r) -> insp f s xs = None ->
  exists k r', run (it_inspect f s it) = (firstn k xs, FBoom, r').
Proof.
  unfold run, it_inspect; cbn; intros Hr Hi.
  destruct (run_inspect_none_t f (it_tr it) (it_node it) s) with (h := nd_hint (it_node it))
    as (k & r' & E); rewrite Hr in *; [auto|]. cbn [fst] in E. eauto.
Qed.

(** ** Bitmap steps *)

Definition bm_step (b b' : bitmap) (ys : list bool) : Prop :=
  bm_ok b' /\ bm_off b' = bm_off b /\ bm_abs b' = bm_abs b ++ ys /\
  bm_bits b' = bm_bits b + length ys /\ (bm_usage b' <= bm_usage b + 2 * lenN ys)%N.
Lemma bm_step_trans b b1 b2 ys zs : bm_step b b1 ys -> bm_step b1 b2 zs ->
  bm_step b b2 (ys ++ zs).
Proof.
  intros (H1 & H2 & H3 & H4 & H5) (G1 & G2 & G3 & G4 & G5). unfold bm_step.
  rewrite G2, G3, G4, H3, app_assoc, app_length, lenN_app. split; [auto|]. split; [auto|].
  split; [auto|]. split; [lia|lia].
Qed.
Lemma bm_step_refl b : bm_ok b -> bm_step b b [].
Proof.
  intros H. unfold bm_step. rewrite app_nil_r. cbn [length]. unfold lenN; cbn [length].
  split; [auto|]. split; [auto|]. split; [auto|]. split; lia.
Qed.
Lemma bm_step_of b b' ys : bm_ok b -> bm_ok b' -> bm_off b' = bm_off b ->
  length (v_items (bm_buf b')) <= length (v_items (bm_buf b)) + length ys ->
  bm_abs b' = bm_abs b ++ ys -> bm_step b b' ys.
Proof.
  intros H H1 H2 H3 H4. unfold bm_step.
  assert (bm_bits b' = bm_bits b + length ys).
  { rewrite <- (bm_abs_length b'), <- (bm_abs_length b), H4, app_length; auto. }
  split; [auto|]. split; [auto|]. split; [auto|]. split; [auto|].
  unfold bm_usage, lenN. lia.
Qed.
Lemma bm_extend_list b ys b' r o : bm_ok b -> length ys <= chunk ->
  bm_extend b (it_list ys) = (b', r, o) ->
  (o = ODone \/ o = OAbort) /\ (o = ODone -> bm_step b b' ys) /\
  ((bm_usage b + lenN ys <= alloc_max)%N -> o = ODone).
Proof.
  intros Hb Hy E.
  destruct (bm_extend_spec _ _ _ _ _ _ _ _ Hb (run_list ys) E)
    as (H1 & H2 & H3 & _ & H5 & H6 & H7).
  split; [|split].
  - destruct o; auto; [contradiction|]. exfalso.
    assert (Hx : FStop = FBoom); [|discriminate]. apply H7; [|auto]. apply affords_list1.
    destruct Hb as [[Hb1 Hb2] _]. rewrite max_items_u8, alloc_max_val in Hb2.
    assert (lenN ys <= 1024)%N by (unfold lenN; change 1024%N with (N.of_nat chunk); lia).
    unfold isize_max. lia.
  - intros ->. destruct H5 as (_ & _ & H5). apply bm_step_of; auto.
  - intros Hs. assert (Ha : ends_as o FStop); [|destruct o; auto; discriminate].
    apply H6. apply affords_list1. unfold bm_usage in Hs. lia.
Qed.
Lemma bm_try_extend_list b ys w b' r o w' :
  bm_ok b -> bm_try_extend b (it_list ys) w = (b', r, o, w') ->
  match o with
  | ODone => bm_step b b' ys
  | OErr => bm_ok b' /\ bm_off b' = bm_off b /\ bm_abs b' = bm_abs b /\
      (bm_usage b' <= bm_usage b + 2 * lenN ys)%N
  | _ => False
  end.
Proof.
  intros Hb E.
  destruct (bm_try_extend_spec _ _ _ _ _ _ _ _ _ _ Hb (run_list ys) E) as (H1 & H2 & H3 & H5).
  destruct o; auto.
  - destruct H5 as (_ & _ & H5). apply bm_step_of; auto.
  - split; [auto|]. split; [auto|]. split; [auto|].
    assert (bm_bits b' = bm_bits b).
    { rewrite <- (bm_abs_length b'), <- (bm_abs_length b), H5; auto. }
    unfold bm_usage, lenN. lia.
  - destruct H5 as [H5 _]. discriminate.
Qed.

Section Validity.
  Context (K : Coll) (d : LD K) (L : Laws K d).

  Definition dflt : option (cA K) -> cA K := unwrap_or (k_item0 K).
  Definition va_bits (v : validity (cC K)) : list bool :=
    match va_bm v with
    | Some b => bm_abs b
    | None => repeat true (length (l_abs d (va_coll v)))
    end.
  Definition va_inv (v : validity (cC K)) : Prop :=
    l_inv d (va_coll v) /\
    match va_bm v with
    | Some b => bm_ok b /\ length (bm_abs b) <= length (l_abs d (va_coll v))
    | None => True
    end.
  Definition va_abs (v : validity (cC K)) : list (option (cA K)) :=
    mask (l_abs d (va_coll v)) (va_bits v).
  Definition va_usage (v : validity (cC K)) : N :=
    (l_usage d (va_coll v) +
     match va_bm v with
     | Some b => bm_usage b
     | None => 2 * lenN (l_abs d (va_coll v))
     end)%N.
  Definition va_rep {I} (rep : I -> list (cA K) -> Prop) (s : I * option bititer)
    (os : list (option (cA K))) : Prop :=
    exists xs, rep (fst s) xs /\
      match snd s with
      | None => os = map Some xs
      | Some b => exists bs, birep b bs /\ length bs <= length xs /\ os = mask xs bs
      end.

  Definition validity_ld : LD (validity_coll K) := {|
    l_wt := fun o : cA (validity_coll K) => match o with Some x => l_wt d x | None => True end;
    l_inv := va_inv : cC (validity_coll K) -> Prop;
    l_abs := va_abs : cC (validity_coll K) -> list (cA (validity_coll K));
    l_irep := va_rep (l_irep d) : cVI (validity_coll K) -> list (cA (validity_coll K)) -> Prop;
    l_orep := va_rep (l_orep d) : cOI (validity_coll K) -> list (cA (validity_coll K)) -> Prop;
    l_voff := fun v : cC (validity_coll K) => l_voff d (va_coll v);
    l_usage := va_usage : cC (validity_coll K) -> N;
    l_wgt := fun o : cA (validity_coll K) => (l_wgt d (dflt o) + 2)%N;
    l_cfac := (l_cfac d + 1)%N;
    l_lim := l_lim d;
    l_psafe := l_psafe d;
    l_gran := fun s _ n => Nat.eqb (chunk mod n) 0 || s && Nat.eqb (n mod chunk) 0;
    l_nofuse := l_nofuse d;
    l_nofuse_try := true;
    l_oob := fun _ => true;
  |}.

  Lemma va_wt_dflt os :
    Forall (fun o => match o with Some x => l_wt d x | None => True end) os ->
    Forall (l_wt d) (map dflt os).
  Proof.
    induction 1 as [|[x|] os Ho Hos IH]; cbn [map]; constructor; auto.
    apply (lw_item0 _ _ L).
  Qed.
  Lemma va_sumw os : sumw (fun o => (l_wgt d (dflt o) + 2)%N) os =
    (sumw (l_wgt d) (map dflt os) + 2 * lenN os)%N.
  Proof. rewrite sumw_plus, sumw_two, sumw_map. reflexivity. Qed.

  Ltac vsum os :=
    match goal with |- context [@sumw ?T ?f os] =>
      change (@sumw T f os)
        with (@sumw (option (cA K)) (fun o => (l_wgt d (dflt o) + 2)%N) os) end;
    rewrite (va_sumw os).

  Lemma va_bits_le v : va_inv v -> length (va_bits v) <= length (l_abs d (va_coll v)).
  Proof.
    intros [_ H]. unfold va_bits. destruct (va_bm v); [apply H|rewrite repeat_length; auto].
  Qed.
  Lemma va_abs_length v : va_inv v -> length (va_abs v) = length (va_bits v).
  Proof. intros H. unfold va_abs. rewrite mask_length. pose proof (va_bits_le v H). lia. Qed.
  Lemma va_len_spec v : va_inv v -> va_len K v = Ret (length (va_abs v)).
  Proof.
    intros H. rewrite va_abs_length by auto. destruct H as [Hc Hb]. unfold va_len, va_bits.
    destruct (va_bm v) as [b|].
    - unfold bm_len. rewrite bm_abs_length; tauto.
    - rewrite repeat_length. apply (lw_len _ _ L); auto.
  Qed.

  Lemma va_view_spec v i o : va_inv v -> nth_error (va_abs v) i = Some o ->
    exists x, va_view K v (N.of_nat i) = Ret (Some x) /\ va_own K x = Ret o.
  Proof.
    intros Hv Ho.
    assert (Hi : i < length (va_abs v)) by (apply nth_error_Some; congruence).
    destruct (mask_nth _ _ _ _ Ho) as (x & b & Hx & Hb & ->).
    pose proof Hv as [Hc Hm].
    destruct (lw_view _ _ L _ _ _ Hc Hx) as (y & Ey & Hy).
    unfold va_view. rewrite (va_len_spec v Hv). cbn [obind].
    assert ((N.of_nat i <? N.of_nat (length (va_abs v)))%N = true) as -> by lia.
    rewrite Ey. cbn [obind expect]. unfold va_bits in Hb. destruct (va_bm v) as [bm|].
    - rewrite bm_view_spec by tauto. rewrite nth_N_nat, Hb. cbn [obind expect].
      eexists; split; [reflexivity|]. destruct b; cbn [va_own]; [rewrite Hy|]; reflexivity.
    - cbn [obind]. eexists; split; [reflexivity|]. cbn [va_own].
      apply nth_error_In, repeat_spec in Hb. subst b. rewrite Hy. reflexivity.
  Qed.

  (** Iterators *)
  Lemma va_rep_cons {I X} (rep : I -> list (cA K) -> Prop) (next : I -> out (option X * I))
    (P : X -> cA K -> Prop)
    (Hcons : forall s x xs, rep s (x :: xs) ->
       exists v s', next s = Ret (Some v, s') /\ P v x /\ rep s' xs) s o os :
    va_rep rep s (o :: os) ->
    exists v s', vait_next next s = Ret (Some v, s') /\
      match v, o with Some y, Some x => P y x | None, None => True | _, _ => False end /\
      va_rep rep s' os.
  Proof.
    destruct s as [s [b|]]; intros (xs & Hr & H); cbn [fst snd] in *; unfold vait_next.
    - destruct H as (bs & Hb & Hl & E).
      destruct xs as [|x xs]; [discriminate|]. destruct bs as [|y bs]; [discriminate|].
      rewrite mask_cons in E. inversion E; subst; clear E.
      destruct (birep_cons _ _ _ Hb) as (b' & -> & Hb'). cbn [obind].
      destruct (Hcons _ _ _ Hr) as (v & s' & -> & Hv & Hs'). cbn [obind].
      eexists; eexists; split; [reflexivity|]. split; [destruct y; auto|].
      exists xs. cbn [fst snd]. split; auto. exists bs. cbn [length] in Hl. split; [auto|]. split; auto; lia.
    - destruct xs as [|x xs]; [discriminate|]. cbn [map] in H. inversion H; subst; clear H.
      destruct (Hcons _ _ _ Hr) as (v & s' & -> & Hv & Hs'). cbn [obind].
      eexists; eexists; split; [reflexivity|]. split; auto. exists xs. cbn. auto.
  Qed.
  Lemma va_rep_nil {I X} (rep : I -> list (cA K) -> Prop) (next : I -> out (option X * I))
    (Hnil : forall s, rep s [] -> exists s', next s = Ret (None, s') /\ rep s' []) s :
    va_rep rep s [] -> exists s', vait_next next s = Ret (None, s') /\ va_rep rep s' [].
  Proof.
    destruct s as [s [b|]]; intros (xs & Hr & H); cbn [fst snd] in *; unfold vait_next.
    - destruct H as (bs & Hb & Hl & E). symmetry in E. apply mask_nil_inv in E; auto. subst bs.
      destruct (birep_nil _ Hb) as (b' & -> & Hb'). cbn [obind].
      eexists; split; [reflexivity|]. exists xs. cbn [fst snd]. split; auto.
      exists []. rewrite mask_nil_r. auto.
    - destruct xs; [|discriminate]. destruct (Hnil _ Hr) as (s' & -> & Hs'). cbn [obind].
      eexists; split; [reflexivity|]. exists []. auto.
  Qed.
  Lemma va_rep_hint {I} (rep : I -> list (cA K) -> Prop) (hnt : I -> out hint)
    (Hh : forall s xs, rep s xs -> hnt s = Ret (exact_hint (length xs))) s os :
    va_rep rep s os -> vait_hint hnt s = Ret (exact_hint (length os)).
  Proof.
    destruct s as [s [b|]]; intros (xs & Hr & H); cbn [fst snd] in *; unfold vait_hint;
      cbn [fst snd]; rewrite (Hh _ _ Hr); cbn [obind].
    - destruct H as (bs & Hb & Hl & ->). rewrite (birep_hint _ _ Hb). cbn [obind].
      unfold exact_hint; cbn [fst snd]. rewrite mask_length.
      replace (N.min (N.of_nat (length xs)) (N.of_nat (length bs)))
        with (N.of_nat (Nat.min (length xs) (length bs))) by lia. reflexivity.
    - subst os. rewrite map_length. reflexivity.
  Qed.

  (** Materializing the bitmap *)
  Definition prep (v v1 : validity (cC K)) (b : bitmap) : Prop :=
    va_bm v1 = Some b /\ va_coll v1 = va_coll v /\ va_inv v1 /\ va_bits v1 = va_bits v /\
    (va_usage v1 <= va_usage v)%N.
  Lemma prep_self v b : va_inv v -> va_bm v = Some b -> prep v v b.
  Proof. intros H E. unfold prep. repeat split; auto; try apply H; lia. Qed.
  Lemma prep_all_set v b : va_inv v -> va_bm v = None -> bm_ok b ->
    bm_abs b = repeat true (length (l_abs d (va_coll v))) ->
    (bm_usage b <= 2 * lenN (l_abs d (va_coll v)))%N ->
    prep v (Validity (va_coll v) (Some b)) b.
  Proof.
    intros [Hc _] E Hb Ha Hu. unfold prep, va_inv, va_bits, va_usage. cbn [va_bm va_coll].
    rewrite E, Ha, repeat_length. repeat split; auto; try apply Hb. lia.
  Qed.
  Lemma va_materialize_spec v v1 o : va_inv v -> va_materialize K v = (v1, o) ->
    (o = ODone /\ exists b, prep v v1 b) \/
    (o = OAbort /\ v1 = v /\ (8 * alloc_max < lenN (l_abs d (va_coll v)))%N).
  Proof.
    intros Hv. unfold va_materialize. destruct (va_bm v) as [b|] eqn:Eb.
    - intros E; inversion E; subst. left. split; auto. exists b. apply prep_self; auto.
    - rewrite (lw_len _ _ L _ (proj1 Hv)).
      pose proof (bm_all_set_spec (length (l_abs d (va_coll v)))) as H.
      pose proof (lw_abs_len _ _ L _ (proj1 Hv)) as Hle. unfold lenN in Hle.
      destruct (bm_all_set _) as [b| | |]; try contradiction; try lia; intros E; inversion E; subst.
      left. split; auto. exists b. destruct H as (H1 & H2 & H3 & H4 & H5).
      apply prep_all_set; auto.
  Qed.
  Lemma va_try_materialize_spec v w v1 o w' : va_inv v -> va_try_materialize K v w = (v1, o, w') ->
    (o = ODone /\ exists b, prep v v1 b) \/ (o = OErr /\ v1 = v).
  Proof.
    intros Hv. unfold va_try_materialize. destruct (va_bm v) as [b|] eqn:Eb.
    - intros E; inversion E; subst. left. split; auto. exists b. apply prep_self; auto.
    - rewrite (lw_len _ _ L _ (proj1 Hv)).
      destruct (bm_try_all_set (length (l_abs d (va_coll v))) w) as [res w1] eqn:E1.
      apply bm_try_all_set_spec in E1.
      destruct res as [b| | |]; try contradiction; intros E; inversion E; subst.
      + left. split; auto. exists b. destruct E1 as (H1 & H2 & H3 & H4 & H5).
        apply prep_all_set; auto.
      + right. auto.
  Qed.
  (** ... and dropping the values beyond it *)
  Definition ready (v : validity (cC K)) (c : cC K) (b : bitmap) : Prop :=
    l_inv d c /\ bm_ok b /\ l_voff d c = l_voff d (va_coll v) /\
    length (l_abs d c) = length (bm_abs b) /\ va_abs v = mask (l_abs d c) (bm_abs b) /\
    (l_usage d c + bm_usage b <= va_usage v)%N.
  Lemma prep_ready v v1 b n : prep v v1 b -> n = length (bm_abs b) ->
    exists c, k_truncate K (va_coll v1) (N.of_nat n) = (c, ODone) /\ ready v c b.
  Proof.
    intros (Hb & Hc & [Hi1 Hi2] & Ha & Hu) ->.
    unfold va_bits, va_usage in *. rewrite Hb in *.
    destruct (lw_truncate _ _ L (va_coll v1) (N.of_nat (length (bm_abs b))) Hi1)
      as (c & E & H1 & H2 & H3 & H4).
    exists c. split; auto. unfold ready. rewrite Nat2N.id in H3.
    split; [auto|]. split; [tauto|]. split; [congruence|]. split.
    { rewrite H3, firstn_length. lia. }
    split; [|fold (va_usage v) in *; unfold va_usage in *; lia].
    rewrite H3, mask_trunc by auto. unfold va_abs. unfold va_bits. rewrite <- Ha, Hc. reflexivity.
  Qed.

  (** Chunks *)
  Lemma va_chunk_run {R} (it : iter (option (cA K)) R) os e r : run it = (os, e, r) ->
    exists it', 
    (chunk <= length os /\
     run (va_chunk K it) = (map dflt (firstn chunk os), FStop, (it', map is_some (firstn chunk os))) /\
     run it' = (skipn chunk os, e, r) /\ length (it_tr it') < length (it_tr it) /\
     (forall (cost : option (cA K) -> N) unit lim used, affords cost unit lim used it ->
      affords cost unit lim (used + sumw cost (firstn chunk os)) it')) \/
    (length os < chunk /\
     run (va_chunk K it) = (map dflt os, e, (it', map is_some os)) /\ it_src it' = r).
  Proof.
    intros Hr. pose proof chunk_pos as Hp. unfold run in Hr.
    destruct (take_byref_t (it_tr it) chunk (it_node it)
                (take_node chunk (Node (it_hint it) it)) os e r) as (it' & E & H); auto.
    { rewrite take_node_src. destruct it; reflexivity. }
    assert (Hrun : run (it_take chunk (it_byref it)) =
      (firstn chunk os, if Nat.leb chunk (length os) then FStop else e, it')) by exact E.
    exists it'.
    assert (Hv : insp (push_valid K) [] (firstn chunk os) = Some (map is_some (firstn chunk os))).
    { exact (insp_valid (firstn chunk os) []). }
    pose proof (run_map (unwrap_or (k_item0 K)) _ _ _ _ (run_inspect _ _ _ _ _ _ _ Hrun Hv)) as Hc.
    destruct (Nat.leb_spec chunk (length os)) as [Hle|Hlt].
    - left. destruct H as (H1 & H2 & H3). split; [auto|]. split; [exact Hc|]. split; [auto|].
      split; [lia|]. exact H3.
    - right. split; [auto|]. split; [|auto]. rewrite firstn_all2 in Hc by lia. exact Hc.
  Qed.

  Definition part (s : bool) (c c' : cC K) (b b' : bitmap) (os : list (option (cA K))) : Prop :=
    l_inv d c' /\ l_voff d c' = l_voff d c /\
    (l_usage d c' <= l_usage d c + sumw (l_wgt d) (map dflt os))%N /\
    exists k k', k <= k' /\ k' <= length os /\
      l_abs d c' = l_abs d c ++ firstn k' (map dflt os) /\
      bm_step b b' (firstn k (map is_some os)) /\ Nat.divide chunk k /\
      (s = true -> length os < k + chunk).

  Lemma full_ext_trans c c1 c2 xs ys : full_ext d c c1 xs -> full_ext d c1 c2 ys ->
    full_ext d c c2 (xs ++ ys).
  Proof.
    intros (H1 & H2 & H3 & H4) (G1 & G2 & G3 & G4). unfold full_ext.
    rewrite G2, G3, H3, app_assoc, sumw_app. split; [auto|]. split; [auto|]. split; [auto|]. lia.
  Qed.
  Lemma part_start s c c' b os : bm_ok b -> partial_ext d s c c' (map dflt os) ->
    (s = true -> length os < chunk) -> part s c c' b b os.
  Proof.
    intros Hb (H1 & H2 & H3 & k & Hk & Ha & _) Hs. unfold part.
    split; [auto|]. split; [auto|]. split; [auto|]. exists 0, k. rewrite map_length in Hk.
    split; [lia|]. split; [auto|]. split; [auto|]. split; [apply bm_step_refl; auto|].
    split; [apply Nat.divide_0_r|exact Hs].
  Qed.
  (** A partial extension by a prefix is one by the whole. *)
  Lemma part_prefix c c' b b' os os' : part false c c' b b' os -> part false c c' b b' (os ++ os').
  Proof.
    intros (H1 & H2 & H3 & k & k' & Hk & Hk' & Ha & Hb & Hd & Hs). unfold part.
    rewrite map_app, sumw_app, app_length. split; [auto|]. split; [auto|]. split; [lia|].
    exists k, k'. split; [auto|]. split; [lia|]. split; [|split; [|split; [auto|discriminate]]].
    - rewrite Ha. rewrite firstn_app, map_length. replace (k' - length os) with 0 by lia.
      cbn [firstn]. rewrite app_nil_r. reflexivity.
    - rewrite map_app, firstn_app, map_length. replace (k - length os) with 0 by lia.
      cbn [firstn]. rewrite app_nil_r. auto.
  Qed.
  (** A partial extension after a full one by a chunk. *)
  Lemma part_after s c c1 c2 b b1 b2 os os' : length os = chunk ->
    full_ext d c c1 (map dflt os) -> bm_step b b1 (map is_some os) ->
    part s c1 c2 b1 b2 os' -> part s c c2 b b2 (os ++ os').
  Proof.
    intros Hl (H1 & H2 & H3 & H4) Hs (G1 & G2 & G3 & k & k' & Hk & Hk' & Ga & Gb & Gd & Gs).
    unfold part. rewrite !map_app, sumw_app, app_length.
    split; [auto|]. split; [congruence|]. split; [lia|].
    exists (chunk + k), (chunk + k'). split; [lia|]. split; [lia|]. split; [|split; [|split]].
    - rewrite Ga, H3, <- app_assoc. f_equal.
      rewrite <- Hl, <- (map_length dflt os), firstn_app_2. reflexivity.
    - rewrite <- Hl, <- (map_length is_some os), firstn_app_2. eapply bm_step_trans; eauto.
    - apply Nat.divide_add_r; auto. apply Nat.divide_refl.
    - intros Es. specialize (Gs Es). lia.
  Qed.

  (** Room for the options, and for those of one chunk. *)
  Definition va_room {R} (c : cC K) (it : iter (option (cA K)) R) : Prop :=
    affords (fun o => l_wgt d (dflt o)) (l_cfac d) (l_lim d) (l_usage d c) it.
  Lemma va_room_chunk {R} c (it : iter (option (cA K)) R) :
    va_room c it -> fits_it d c (va_chunk K it).
  Proof.
    intros H. unfold fits_it, va_chunk.
    eapply affords_map; [| | |apply affords_inspect, affords_take, affords_byref; exact H];
      try (intros; cbv beta; unfold dflt; lia).
  Qed.

  Lemma va_loop_spec {R} : forall fuel c b (it : iter (option (cA K)) R) os e r c' b' r' o,
    l_inv d c -> bm_ok b -> Forall (l_wt d) (map dflt os) -> run it = (os, e, r) ->
    length (it_tr it) < fuel -> va_extend_loop K fuel c b it = (c', b', r', o) ->
    match o with
    | ODone => e = FStop /\ r' = r /\ full_ext d c c' (map dflt os) /\
        bm_step b b' (map is_some os)
    | OErr => False
    | OPanic => forall s, (s = true -> va_room c it) ->
        l_psafe d s (l_voff d c) = true -> part s c c' b b' os
    | OAbort => True
    end /\
    (va_room c it -> (bm_usage b + 2 * lenN os <= alloc_max)%N -> ends_as o e).
  Proof.
    induction fuel as [|fuel IH]; intros c b it os e r c' b' r' o Hc Hb Hwt Hr Hf; [lia|].
    cbn [va_extend_loop].
    destruct (k_extend K c (va_chunk K it)) as [[c1 [it1 vs]] o1] eqn:E1.
    pose proof (va_room_chunk c it) as Hfit1.
    destruct (va_chunk_run it os e r Hr) as (it' & [(Hle & Hrc & Hr' & Hlen & Hrest)|(Hlt & Hrc & Hsrc)]).
    - (* a full chunk *)
      set (os1 := firstn chunk os) in *. set (os2 := skipn chunk os) in *.
      assert (Hos : os = os1 ++ os2) by (symmetry; apply firstn_skipn).
      assert (Hl1 : length os1 = chunk) by (unfold os1; rewrite firstn_length; lia).
      clearbody os1 os2. subst os. rewrite map_app in Hwt. apply Forall_app in Hwt.
      destruct Hwt as [Hw1 Hw2].
      destruct (lw_extend _ _ L _ c _ _ _ _ _ _ _ Hc Hw1 Hrc E1) as [H1 H1l].
      destruct o1; try contradiction.
      + destruct H1 as (_ & Ep & Hfull). inversion Ep; subst it1 vs; clear Ep.
        destruct (bm_extend b (it_list (map is_some os1))) as [[b1 ru] o2] eqn:E2.
        assert (Hl2' : length (map is_some os1) <= chunk) by (rewrite map_length; lia).
        destruct (bm_extend_list _ _ _ _ _ Hb Hl2' E2) as (Ho2 & Hst & Hl2).
        assert (Hlive : (bm_usage b + 2 * lenN (os1 ++ os2) <= alloc_max)%N ->
          o2 = ODone).
        { intros Hs. apply Hl2. unfold lenN in *. rewrite map_length. rewrite app_length in Hs. lia. }
        destruct o2; try (destruct Ho2; discriminate).
        * specialize (Hst eq_refl). rewrite map_length, Hl1, Nat.ltb_irrefl.
          intros E. pose proof Hfull as (F1 & F2 & F3 & F4).
          destruct (IH c1 b1 it' os2 e r c' b' r' o) as [HA HB]; auto; [apply Hst|lia|].
          assert (Hfit2 : va_room c it -> va_room c1 it').
          { intros Hs. eapply affords_mono; [| | |exact (Hrest _ _ _ _ Hs)];
              try (intros; cbv beta; lia). rewrite sumw_map in F4. lia. }
          split.
          -- destruct o; auto.
             ++ destruct HA as (-> & -> & HA1 & HA2). rewrite !map_app.
                split; [auto|]. split; [auto|]. split; [eapply full_ext_trans; eauto|].
                eapply bm_step_trans; eauto.
             ++ intros s Hs Hps. eapply part_after; eauto. apply HA; auto. congruence.
          -- intros Hs1 Hs2. apply HB; auto. destruct Hst as (_ & _ & _ & _ & S5).
             rewrite lenN_app in Hs2. unfold lenN in *. rewrite map_length in S5. lia.
        * intros E; inversion E; subst. split; [auto|]. intros _ Hs. specialize (Hlive Hs). discriminate.
      + intros E; inversion E; subst. split.
        * intros s Hs Hps. destruct s.
          { specialize (H1l (Hfit1 (Hs eq_refl))). discriminate. }
          apply part_prefix. apply part_start; auto; discriminate.
        * intros Hs _. specialize (H1l (Hfit1 Hs)). discriminate.
      + intros E; inversion E; subst. split; auto.
        intros Hs _. specialize (H1l (Hfit1 Hs)). discriminate.
    - (* the last chunk *)
      destruct (lw_extend _ _ L _ c _ _ _ _ _ _ _ Hc Hwt Hrc E1) as [H1 H1l].
      destruct o1; try contradiction.
      + destruct H1 as (-> & Ep & Hfull). inversion Ep; subst it1 vs; clear Ep.
        destruct (bm_extend b (it_list (map is_some os))) as [[b1 ru] o2] eqn:E2.
        assert (Hl2' : length (map is_some os) <= chunk) by (rewrite map_length; lia).
        destruct (bm_extend_list _ _ _ _ _ Hb Hl2' E2) as (Ho2 & Hst & Hl2).
        destruct o2; try (destruct Ho2; discriminate).
        * specialize (Hst eq_refl). rewrite map_length.
          assert (Nat.ltb (length os) chunk = true) as -> by (apply Nat.ltb_lt; auto).
          intros E; inversion E; subst. split; [auto|]. intros; reflexivity.
        * intros E; inversion E; subst. split; [auto|]. intros _ Hs. exfalso.
          unfold lenN in *. rewrite map_length in Hl2.
          assert (OAbort = ODone) by (apply Hl2; lia). discriminate.
      + intros E; inversion E; subst. split.
        * intros s Hs Hps. apply part_start; auto.
        * intros Hs _. specialize (H1l (Hfit1 Hs)). destruct e; auto.
      + intros E; inversion E; subst. split; auto.
  Qed.

  Lemma va_rollback_spec c b len c' b' o : l_inv d c -> bm_ok b ->
    va_rollback K c b len = (c', b', o) ->
    o = OErr /\ l_inv d c' /\ l_voff d c' = l_voff d c /\ l_abs d c' = firstn len (l_abs d c) /\
    (l_usage d c' <= l_usage d c)%N /\ bm_ok b' /\ bm_off b' = bm_off b /\
    bm_abs b' = firstn len (bm_abs b) /\ (bm_usage b' <= bm_usage b)%N.
  Proof.
    intros Hc Hb. unfold va_rollback, va_truncate. cbn [va_bm va_coll option_map].
    destruct (lw_truncate _ _ L c (N.of_nat len) Hc) as (c1 & -> & H1 & H2 & H3 & H4).
    destruct (bm_truncate_spec b (N.of_nat len) Hb) as (G1 & G2 & G3 & G4 & G5).
    intros E; inversion E; subst. rewrite Nat2N.id in *. auto 12.
  Qed.

  Lemma va_try_loop_spec {R} : forall fuel len c b (it : iter (option (cA K)) R) w os e r c' b' r' o w',
    l_inv d c -> bm_ok b -> len <= length (l_abs d c) -> len <= length (bm_abs b) ->
    Forall (l_wt d) (map dflt os) -> run it = (os, e, r) ->
    length (it_tr it) < fuel -> va_try_extend_loop K fuel len c b it w = (c', b', r', o, w') ->
    match o with
    | ODone => e = FStop /\ r' = r /\ full_ext d c c' (map dflt os) /\
        bm_step b b' (map is_some os)
    | OErr => l_inv d c' /\ l_voff d c' = l_voff d c /\ l_abs d c' = firstn len (l_abs d c) /\
        (l_usage d c' <= l_usage d c + sumw (l_wgt d) (map dflt os))%N /\
        bm_ok b' /\ bm_off b' = bm_off b /\ bm_abs b' = firstn len (bm_abs b) /\
        (bm_usage b' <= bm_usage b + 2 * lenN os)%N
    | OPanic => e = FBoom /\
        (l_psafe d true (l_voff d c) = true -> part true c c' b b' os)
    | OAbort => False
    end.
  Proof.
    induction fuel as [|fuel IH];
      intros len c b it w os e r c' b' r' o w' Hc Hb Hlc Hlb Hwt Hr Hf; [lia|].
    cbn [va_try_extend_loop].
    destruct (k_try_extend K c (va_chunk K it) w) as [[[c1 [it1 vs]] o1] w1] eqn:E1.
    destruct (va_chunk_run it os e r Hr) as (it' & [(Hle & Hrc & Hr' & Hlen & Hrest)|(Hlt & Hrc & Hsrc)]).
    - (* a full chunk *)
      set (os1 := firstn chunk os) in *. set (os2 := skipn chunk os) in *.
      assert (Hos : os = os1 ++ os2) by (symmetry; apply firstn_skipn).
      assert (Hl1 : length os1 = chunk) by (unfold os1; rewrite firstn_length; lia).
      clearbody os1 os2. subst os. rewrite map_app in Hwt. apply Forall_app in Hwt.
      destruct Hwt as [Hw1 Hw2].
      pose proof (lw_try_extend _ _ L _ c _ _ _ _ _ _ _ _ _ Hc Hw1 Hrc E1) as H1.
      destruct o1; try contradiction.
      + destruct H1 as (_ & Ep & Hfull). inversion Ep; subst it1 vs; clear Ep.
        pose proof Hfull as (F1 & F2 & F3 & F4).
        destruct (bm_try_extend b (it_list (map is_some os1)) w1) as [[[b1 ru] o2] w2] eqn:E2.
        pose proof (bm_try_extend_list _ _ _ _ _ _ _ Hb E2) as Hst.
        destruct o2; try contradiction.
        * rewrite map_length, Hl1, Nat.ltb_irrefl. intros E.
          pose proof Hst as (S1 & S2 & S3 & S4 & S5).
          apply IH with (os := os2) (e := e) (r := r) in E; auto.
          2:{ rewrite F3, app_length. lia. }
          2:{ rewrite S3, app_length. lia. }
          2:{ lia. }
          destruct o; auto.
          -- destruct E as (-> & -> & HA1 & HA2). rewrite !map_app.
             split; [auto|]. split; [auto|]. split; [eapply full_ext_trans; eauto|].
             eapply bm_step_trans; eauto.
          -- destruct E as (X1 & X2 & X3 & X4 & X5 & X6 & X7 & X8).
             rewrite map_app, sumw_app, lenN_app.
             split; [auto|]. split; [congruence|]. split.
             { rewrite X3, F3, firstn_app. replace (len - length (l_abs d c)) with 0 by lia.
               cbn [firstn]. apply app_nil_r. }
             split; [lia|]. split; [auto|]. split; [congruence|]. split.
             { rewrite X7, S3, firstn_app. replace (len - length (bm_abs b)) with 0 by lia.
               cbn [firstn]. apply app_nil_r. }
             assert (lenN (map is_some os1) = lenN os1) by (unfold lenN; rewrite map_length; auto).
             lia.
          -- destruct E as (-> & E). split; auto. intros Hps. eapply part_after; eauto;
             apply E; congruence.
        * destruct Hst as (S1 & S2 & S3 & S4).
          destruct (va_rollback K c1 b1 len) as [[c2 b2] o3] eqn:E3.
          destruct (va_rollback_spec _ _ _ _ _ _ F1 S1 E3) as (-> & X1 & X2 & X3 & X4 & X5 & X6 & X7 & X8).
          intros E; inversion E; subst. rewrite map_app, sumw_app, lenN_app.
          split; [auto|]. split; [congruence|]. split.
          { rewrite X3, F3, firstn_app. replace (len - length (l_abs d c)) with 0 by lia.
            cbn [firstn]. apply app_nil_r. }
          split; [lia|]. split; [auto|]. split; [congruence|]. split; [congruence|].
          assert (lenN (map is_some os1) = lenN os1) by (unfold lenN; rewrite map_length; auto).
          lia.
      + destruct H1 as (Y1 & Y2 & Y3 & Y4).
        destruct (va_rollback K c1 b len) as [[c2 b2] o3] eqn:E3.
        destruct (va_rollback_spec _ _ _ _ _ _ Y1 Hb E3) as (-> & X1 & X2 & X3 & X4 & X5 & X6 & X7 & X8).
        intros E; inversion E; subst. rewrite map_app, sumw_app, lenN_app.
        split; [auto|]. split; [congruence|]. split; [congruence|].
        split; [lia|]. split; [auto|]. split; [congruence|]. split; [congruence|]. lia.
      + intros E; inversion E; subst. destruct H1 as [H1 _]. discriminate.
    - (* the last chunk *)
      pose proof (lw_try_extend _ _ L _ c _ _ _ _ _ _ _ _ _ Hc Hwt Hrc E1) as H1.
      assert (Hlm : lenN (map is_some os) = lenN os) by (unfold lenN; rewrite map_length; auto).
      destruct o1; try contradiction.
      + destruct H1 as (-> & Ep & Hfull). inversion Ep; subst it1 vs; clear Ep.
        pose proof Hfull as (F1 & F2 & F3 & F4).
        destruct (bm_try_extend b (it_list (map is_some os)) w1) as [[[b1 ru] o2] w2] eqn:E2.
        pose proof (bm_try_extend_list _ _ _ _ _ _ _ Hb E2) as Hst.
        destruct o2; try contradiction.
        * rewrite map_length.
          assert (Nat.ltb (length os) chunk = true) as -> by (apply Nat.ltb_lt; auto).
          intros E; inversion E; subst. auto.
        * destruct Hst as (S1 & S2 & S3 & S4).
          destruct (va_rollback K c1 b1 len) as [[c2 b2] o3] eqn:E3.
          destruct (va_rollback_spec _ _ _ _ _ _ F1 S1 E3) as (-> & X1 & X2 & X3 & X4 & X5 & X6 & X7 & X8).
          intros E; inversion E; subst.
          split; [auto|]. split; [congruence|]. split.
          { rewrite X3, F3, firstn_app. replace (len - length (l_abs d c)) with 0 by lia.
            cbn [firstn]. apply app_nil_r. }
          split; [lia|]. split; [auto|]. split; [congruence|]. split; [congruence|]. lia.
      + destruct H1 as (Y1 & Y2 & Y3 & Y4).
        destruct (va_rollback K c1 b len) as [[c2 b2] o3] eqn:E3.
        destruct (va_rollback_spec _ _ _ _ _ _ Y1 Hb E3) as (-> & X1 & X2 & X3 & X4 & X5 & X6 & X7 & X8).
        intros E; inversion E; subst.
        split; [auto|]. split; [congruence|]. split; [congruence|].
        split; [lia|]. split; [auto|]. split; [congruence|]. split; [congruence|]. lia.
      + intros E; inversion E; subst. destruct H1 as [-> H1]. split; auto.
        intros Hps. apply part_start; auto.
  Qed.

  (** From the pieces to the whole *)
  Lemma ready_full v c b c' b' os : ready v c b ->
    full_ext d c c' (map dflt os) -> bm_step b b' (map is_some os) ->
    full_ext validity_ld v (Validity c' (Some b')) os.
  Proof.
    intros (R1 & R2 & R3 & R4 & R5 & R6) (H1 & H2 & H3 & H4) (S1 & S2 & S3 & S4 & S5).
    unfold full_ext, validity_ld; law_cbn. unfold va_inv, va_abs at 1, va_usage at 1, va_bits.
    cbn [va_bm va_coll]. rewrite H3, S3, !app_length, !map_length.
    split; [split; [auto|split; [auto|lia]]|]. split; [congruence|]. split.
    - rewrite mask_app, R5 by auto. f_equal. apply mask_options.
    - vsum os.
      assert (lenN (map is_some os) = lenN os) by (unfold lenN; rewrite map_length; auto). lia.
  Qed.
  Lemma ready_part s v c b c' b' os : ready v c b -> part s c c' b b' os ->
    partial_ext validity_ld s v (Validity c' (Some b')) os.
  Proof.
    intros (R1 & R2 & R3 & R4 & R5 & R6) (H1 & H2 & H3 & k & k' & Hk & Hk' & Ha & Hs & Hd & Hsm).
    destruct Hs as (S1 & S2 & S3 & S4 & S5).
    unfold partial_ext, validity_ld; law_cbn. unfold va_inv, va_abs at 1, va_usage at 1, va_bits.
    cbn [va_bm va_coll]. rewrite Ha, S3, !app_length, !firstn_length, !map_length.
    split; [split; [auto|split; [auto|lia]]|]. split; [congruence|]. split.
    - vsum os.
      assert (lenN (firstn k (map is_some os)) <= lenN os)%N.
      { unfold lenN. rewrite firstn_length, map_length. lia. }
      lia.
    - exists k. split; [exact (Nat.le_trans _ _ _ Hk Hk')|]. split.
      + rewrite mask_app, R5 by auto. f_equal.
        transitivity (firstn k (mask (map dflt os) (map is_some os)));
          [|unfold dflt; rewrite mask_options; reflexivity].
        rewrite <- mask_firstn.
        rewrite <- (firstn_skipn k (firstn k' (map dflt os))), firstn_firstn.
        replace (Nat.min k k') with k by lia.
        rewrite mask_short; [reflexivity|]. rewrite !firstn_length, !map_length. lia.
      + intros n Hn _ Hos. apply orb_true_iff in Hn. destruct Hn as [Hn|Hn].
        * apply Nat.eqb_eq in Hn. eapply Nat.divide_trans; [|exact Hd].
          destruct n as [|n]; [cbn in Hn; pose proof chunk_pos; lia|].
          apply Nat.mod_divide; lia.
        * apply andb_true_iff in Hn. destruct Hn as [-> Hn]. apply Nat.eqb_eq in Hn.
          specialize (Hsm eq_refl). pose proof chunk_pos.
          apply Nat.mod_divide in Hn; [|lia].
          assert (Hco : Nat.divide chunk (length os)) by (eapply Nat.divide_trans; eauto).
          assert (k = length os) as ->; [|exact Hos].
          destruct Hco as [p Hp], Hd as [q Hq]. rewrite Hp, Hq in *. f_equal.
          assert (q <= p) by nia. nia.
  Qed.
  Lemma va_same_self v : va_inv v -> same_items validity_ld v v.
  Proof. intros H. unfold same_items, validity_ld; law_cbn. repeat split; auto; try apply H; lia. Qed.
  Lemma prep_same v v1 b c' b' : prep v v1 b -> same_items d (va_coll v1) c' ->
    bm_ok b' -> bm_abs b' = bm_abs b -> (bm_usage b' <= bm_usage b)%N ->
    same_items validity_ld v (Validity c' (Some b')).
  Proof.
    intros (Hb & Hc & [Hi1 Hi2] & Ha & Hu) (H1 & H2 & H3 & H4) B1 B2 B3.
    unfold same_items, validity_ld; law_cbn. unfold va_inv, va_abs, va_usage, va_bits in *.
    cbn [va_bm va_coll]. rewrite Hb in *. rewrite H3, B2.
    split; [split; [auto|tauto]|]. split; [congruence|]. split; [|lia].
    rewrite <- Ha, Hc. reflexivity.
  Qed.
  Lemma ready_self v c b : ready v c b -> va_inv (Validity c (Some b)) /\
    l_voff d c = l_voff d (va_coll v) /\ va_abs (Validity c (Some b)) = va_abs v /\
    (va_usage (Validity c (Some b)) <= va_usage v)%N.
  Proof.
    intros (R1 & R2 & R3 & R4 & R5 & R6). unfold va_inv, va_abs at 1, va_usage at 1, va_bits.
    cbn [va_bm va_coll]. rewrite R4. auto 10.
  Qed.

  Lemma va_lim_bits v (os : list (option (cA K))) : fits validity_ld v os -> va_inv v ->
    (lenN (l_abs d (va_coll v)) <= alloc_max)%N.
  Proof.
    intros Hs Hv. unfold fits, validity_ld in Hs; law_cbn.
    cbn [l_usage l_wgt l_lim] in Hs. unfold va_usage in Hs.
    pose proof (lw_usage _ _ L _ (proj1 Hv)). pose proof (lw_lim _ _ L). lia.
  Qed.
  Lemma ready_fits v c b (os : list (option (cA K))) : ready v c b -> fits validity_ld v os ->
    fits d c (map dflt os) /\ (bm_usage b + 2 * lenN os <= alloc_max)%N.
  Proof.
    intros (R1 & R2 & R3 & R4 & R5 & R6). unfold fits, validity_ld; law_cbn.
    vsum os.
    pose proof (lw_lim _ _ L). lia.
  Qed.
  Lemma ready_room {R} v c b (it : iter (option (cA K)) R) os e r :
    ready v c b -> run it = (os, e, r) -> fits_it validity_ld v it ->
    va_room c it /\ (bm_usage b + 2 * lenN os <= alloc_max)%N.
  Proof.
    intros Hrd Hr Hs. split.
    - destruct Hrd as (_ & _ & _ & _ & _ & R6). revert Hs.
      unfold fits_it, va_room, validity_ld; law_cbn. intros Hs.
      eapply affords_mono; [| | |exact Hs]; try (intros; cbv beta; lia).
    - apply (ready_fits v c b os Hrd). eapply fits_it_fits; eauto.
  Qed.

  Lemma va_extend_spec {R} v (it : iter (option (cA K)) R) os e r v' r' o :
    va_inv v -> Forall (l_wt validity_ld) os -> run it = (os, e, r) ->
    va_extend K v it = (v', r', o) ->
    match o with
    | ODone => e = FStop /\ r' = r /\ full_ext validity_ld v v' os
    | OErr => False
    | OPanic => forall s, (s = true -> fits_it validity_ld v it) ->
        l_psafe d s (l_voff d (va_coll v)) = true ->
        partial_ext validity_ld s v v' os
    | OAbort => True
    end /\ (fits_it validity_ld v it -> ends_as o e).
  Proof.
    intros Hv Hwt Hr. apply va_wt_dflt in Hwt. unfold va_extend.
    destruct (va_materialize K v) as [v1 o1] eqn:E1.
    destruct (va_materialize_spec _ _ _ Hv E1) as [(-> & b & Hp)|(_ & _ & Hbig)];
      [|pose proof (lw_abs_len _ _ L _ (proj1 Hv)); lia].
    - pose proof Hp as (Hb & _ & [_ Hok] & _). rewrite Hb in *.
      destruct (prep_ready _ _ _ (bm_len b) Hp) as (c2 & -> & Hrd).
      { unfold bm_len. rewrite bm_abs_length; tauto. }
      destruct (va_extend_loop K _ c2 b it) as [[[c3 b3] r3] o3] eqn:E3.
      pose proof Hrd as (R1 & R2 & R3 & _).
      destruct (va_loop_spec _ _ _ _ _ _ _ _ _ _ _ R1 R2 Hwt Hr (Nat.lt_succ_diag_r _) E3) as [H1 H2].
      intros E; inversion E; subst; clear E. split.
      + destruct o; auto.
        * destruct H1 as (-> & -> & H3 & H4). split; [auto|]. split; [auto|].
          eapply ready_full; eauto.
        * intros s Hs Hps. eapply ready_part; eauto. apply H1; [|congruence].
          intros Es. eapply ready_room; eauto.
      + intros Hs. destruct (ready_room _ _ _ _ _ _ _ Hrd Hr Hs). auto.
  Qed.

  Lemma va_try_extend_spec {R} v (it : iter (option (cA K)) R) w os e r v' r' o w' :
    va_inv v -> Forall (l_wt validity_ld) os -> run it = (os, e, r) ->
    va_try_extend K v it w = (v', r', o, w') ->
    match o with
    | ODone => e = FStop /\ r' = r /\ full_ext validity_ld v v' os
    | OErr => va_inv v' /\ l_voff d (va_coll v') = l_voff d (va_coll v) /\
        va_abs v' = va_abs v /\
        (va_usage v' <= va_usage v + sumw (l_wgt validity_ld) os)%N
    | OPanic => e = FBoom /\
        (l_psafe d true (l_voff d (va_coll v)) = true -> partial_ext validity_ld true v v' os)
    | OAbort => False
    end.
  Proof.
    intros Hv Hwt Hr. apply va_wt_dflt in Hwt. unfold va_try_extend.
    rewrite (va_len_spec v Hv), va_abs_length by auto.
    destruct (va_try_materialize K v w) as [[v1 o1] w1] eqn:E1.
    destruct (va_try_materialize_spec _ _ _ _ _ Hv E1) as [(-> & b & Hp)|(-> & ->)].
    - pose proof Hp as (Hb & _ & [_ Hok] & Hbits & _). rewrite Hb in *.
      rewrite <- Hbits. unfold va_bits. rewrite Hb.
      destruct (prep_ready _ _ _ (length (bm_abs b)) Hp eq_refl) as (c2 & -> & Hrd).
      destruct (va_try_extend_loop K _ _ c2 b it w1) as [[[[c3 b3] r3] o3] w3] eqn:E3.
      pose proof Hrd as (R1 & R2 & R3 & R4 & R5 & R6).
      apply va_try_loop_spec with (os := os) (e := e) (r := r) in E3; auto; try lia.
      intros E; inversion E; subst; clear E.
      destruct o; auto.
      + destruct E3 as (-> & -> & H3 & H4). split; [auto|]. split; [auto|].
        eapply ready_full; eauto.
      + destruct E3 as (X1 & X2 & X3 & X4 & X5 & X6 & X7 & X8).
        unfold validity_ld; law_cbn. unfold va_inv, va_abs at 1, va_usage at 1, va_bits.
        cbn [va_bm va_coll]. rewrite X3, X7, !firstn_all2 by lia. rewrite R4.
        vsum os.
        split; [auto|]. split; [congruence|]. split; [auto|]. lia.
      + destruct E3 as (-> & E3). split; auto. intros Hps. eapply ready_part; eauto;
        apply E3; congruence.
    - intros E; inversion E; subst. split; [auto|]. split; [auto|]. split; [auto|]. lia.
  Qed.

  (** Collecting *)
  Lemma insp_push : forall os b, bm_ok b ->
    match insp (push_bit K) b os with
    | Some b' => bm_step b b' (map is_some os)
    | None => (alloc_max < bm_usage b + 2 * lenN os)%N
    end.
  Proof.
    induction os as [|o os IH]; intros b Hb; cbn [insp map]; [apply bm_step_refl; auto|].
    unfold push_bit at 1.
    destruct (bm_extend b (it_list [is_some o])) as [[b1 ru] o1] eqn:E.
    assert (H1c : length [is_some o] <= chunk) by (cbn [length]; pose proof chunk_pos; lia).
    destruct (bm_extend_list _ _ _ _ _ Hb H1c E) as (Ho & Hst & Hl).
    rewrite lenN_cons. unfold lenN in Hl. cbn [length] in Hl.
    destruct o1; try (destruct Ho; discriminate).
    - specialize (Hst eq_refl). specialize (IH b1 (proj1 Hst)).
      destruct (insp (push_bit K) b1 os).
      + exact (bm_step_trans _ _ _ _ _ Hst IH).
      + destruct Hst as (_ & _ & _ & _ & S5). unfold lenN in *. cbn [length] in S5. lia.
    - destruct (N.le_gt_cases (bm_usage b + 2 * (1 + lenN os)) alloc_max); auto.
      assert (OAbort = ODone) by (apply Hl; lia). discriminate.
  Qed.
  Lemma Forall_firstn {X} (P : X -> Prop) k l : Forall P l -> Forall P (firstn k l).
  Proof.
    intros H. rewrite <- (firstn_skipn k l) in H. apply Forall_app in H. tauto.
  Qed.

  Lemma va_collects (f : forall R, iter (cA K) R -> bres (cC K) * R) : collects d f ->
    collects validity_ld (fun R => va_collect K f).
  Proof.
    intros Hf R it os e r res r'. change (iter (option (cA K)) R) in it.
    change (list (option (cA K))) in os. intros Hfu Hwt Hr. apply va_wt_dflt in Hwt.
    unfold va_collect. unfold validity_ld at 1; law_cbn.
    cbn [l_nofuse validity_ld] in Hfu.
    pose proof (bm_with_capacity_spec (upper_or_lower (it_hint it))) as Hw.
    destruct (bm_with_capacity (upper_or_lower (it_hint it))) as [b0| | |] eqn:Ew;
      [|contradiction| |].
    2,3: intros E; inversion E; subst; split; [exact I|];
      intros _ Hh; exfalso; change (upper_or_lower (it_hint it) * (l_cfac d + 1) <= l_lim d)%N in Hh;
      destruct (bm_with_capacity_live (upper_or_lower (it_hint it))) as [b Hb];
      [pose proof (lw_lim _ _ L); nia|congruence].
    destruct Hw as (Hb0 & Ha0 & Ho0 & Hu0).
    destruct (f (R * bitmap)%type
      (it_map (unwrap_or (k_item0 K)) (it_inspect (push_bit K) b0 it)))
      as [res1 [r1 b1]] eqn:E1.
    intros E; inversion E; subst; clear E.
    pose proof (insp_push os b0 Hb0) as Hi.
    set (hintof := it_hint it) in *.
    assert (Hh : it_hint (it_map (unwrap_or (k_item0 K)) (it_inspect (push_bit K) b0 it)) = hintof)
      by reflexivity.
    destruct (insp (push_bit K) b0 os) as [b'|] eqn:Ei.
    - (* the closure never panics *)
      pose proof (run_inspect _ _ _ _ _ _ _ Hr Ei) as Hr1.
      pose proof (run_map (unwrap_or (k_item0 K)) _ _ _ _ Hr1) as Hr2.
      assert (Hfu' : l_nofuse d = true \/
        fused (it_map (unwrap_or (k_item0 K)) (it_inspect (push_bit K) b0 it))).
      { destruct Hfu; auto. right. apply fused_map, fused_inspect; auto. }
      destruct (Hf _ _ _ _ _ _ _ Hfu' Hwt Hr2 E1) as [H1 H2]. split.
      + destruct res1 as [c| | |]; cbn [bmap]; auto.
        destruct H1 as (-> & H3 & H4 & (F1 & F2 & F3 & F4)).
        assert (Hb1 : b1 = b').
        { destruct Hfu as [Hn|Hn].
          - specialize (H3 Hn). congruence.
          - assert (Hin : In (r', b1) (after (it_inspect (push_bit K) b0 it))).
            { rewrite <- (after_map (unwrap_or (k_item0 K))). apply H4.
              apply fused_map, fused_inspect; auto. }
            eapply (after_inspect _ _ _ _ _ _ _ Hn Hr Ei) in Hin. apply Hin. }
        subst b1. split; [auto|]. split.
        { intros Hn. unfold validity_ld in Hn; law_cbn. specialize (H3 Hn). congruence. }
        split.
        { intros Hn.
          assert (Hin : In (r', b') (after (it_inspect (push_bit K) b0 it))).
          { rewrite <- (after_map (unwrap_or (k_item0 K))). apply H4.
            apply fused_map, fused_inspect; auto. }
          eapply (after_inspect _ _ _ _ _ _ _ Hn Hr Ei) in Hin. apply Hin. }
        destruct Hi as (S1 & S2 & S3 & S4 & S5). rewrite Ha0 in S3. cbn [app] in S3.
        unfold fresh, validity_ld; law_cbn.
        unfold va_inv, va_abs, va_usage, va_bits. cbn [va_bm va_coll].
        rewrite F3, S3, !map_length. vsum os.
        split; [auto|]. split; [auto|]. split; [apply mask_options|].
        assert (lenN (map is_some os) = lenN os) by (unfold lenN; rewrite map_length; auto). lia.
      + unfold validity_ld; law_cbn. intros Hs Hu.
        change (upper_or_lower hintof * (l_cfac d + 1) <= l_lim d)%N in Hu.
        assert (H5 : match e with FStop => exists c, res1 = BOk c | FBoom => res1 = BPanic end).
        { apply H2; [|rewrite Hh; lia].
          eapply affords_map; [| | |apply affords_inspect; exact Hs]; try (intros; cbv beta; lia).
          intros a. unfold dflt. lia. }
        destruct e; [destruct H5 as [c ->]; cbn; eauto|subst res1; reflexivity].
    - (* the closure panics *)
      destruct (run_inspect_none _ _ _ _ _ _ Hr Ei) as (k & rr & Hr1).
      pose proof (run_map (unwrap_or (k_item0 K)) _ _ _ _ Hr1) as Hr2.
      assert (Hfu' : l_nofuse d = true \/
        fused (it_map (unwrap_or (k_item0 K)) (it_inspect (push_bit K) b0 it))).
      { destruct Hfu; auto. right. apply fused_map, fused_inspect; auto. }
      assert (Hwt' : Forall (l_wt d) (map (unwrap_or (k_item0 K)) (firstn k os))).
      { rewrite <- firstn_map. apply Forall_firstn; auto. }
      destruct (Hf _ _ _ _ _ _ _ Hfu' Hwt' Hr2 E1) as [H1 H2]. split.
      + destruct res1; cbn [bmap]; auto. destruct H1; discriminate.
      + unfold validity_ld; law_cbn. intros Hs Hu. exfalso.
        pose proof (lw_lim _ _ L). pose proof (affords_sumw _ _ _ _ _ _ _ _ Hr Hs) as Hs'.
        revert Hs'. vsum os. unfold bm_usage in *. lia.
  Qed.

  Lemma va_fresh_empty c b : fresh d c [] -> bm_ok b -> bm_abs b = [] -> bm_usage b = 0%N ->
    fresh validity_ld (Validity c (Some b)) [].
  Proof.
    intros (H1 & H2 & H3 & H4) B1 B2 B3. unfold fresh, validity_ld; law_cbn.
    unfold va_inv, va_abs, va_usage, va_bits. cbn [va_bm va_coll]. rewrite B2, H3.
    split; [auto with arith|]. split; [auto|]. split; [auto|]. cbn [sumw] in *. lia.
  Qed.

  Lemma validity_laws : Laws (validity_coll K) validity_ld.
  Proof.
    split; unfold validity_coll; law_cbn.
    - exact I.
    - unfold validity_ld; law_cbn. lia.
    - intros o Ho. unfold validity_ld; law_cbn. unfold validity_ld in Ho; law_cbn.
      cbn [l_wt] in Ho. unfold dflt, unwrap_or. destruct o as [x|].
      + pose proof (lw_cfac _ _ L x Ho). lia.
      + pose proof (lw_cfac _ _ L _ (lw_item0 _ _ L)). lia.
    - apply (lw_lim _ _ L).
    - intros v [Hc _]. unfold validity_ld; law_cbn. pose proof (lw_abs_wt _ _ L _ Hc) as Hw.
      unfold va_abs. apply Forall_forall. intros [x|] Ho; auto.
      apply (proj1 (Forall_forall _ _) Hw). unfold mask in Ho. apply in_map_iff in Ho.
      destruct Ho as ([y b] & Eq & Hin). cbn in Eq. destruct b; inversion Eq; subst.
      eapply in_combine_l; eauto.
    - intros v Hv. unfold validity_ld; law_cbn. pose proof (lw_abs_len _ _ L _ (proj1 Hv)).
      unfold lenN in *. rewrite va_abs_length by auto. pose proof (va_bits_le v Hv). lia.
    - intros v Hv. unfold validity_ld; law_cbn. pose proof (lw_usage _ _ L _ (proj1 Hv)).
      unfold va_usage, lenN in *. rewrite va_abs_length by auto. pose proof (va_bits_le v Hv).
      lia.
    - pose proof (lw_default _ _ L) as (H1 & H2 & H3 & H4).
      unfold fresh, validity_ld; law_cbn. unfold va_inv, va_abs, va_usage, va_bits.
      cbn [va_bm va_coll]. rewrite H3. cbn [sumw] in *. unfold lenN; cbn [length].
      repeat split; auto. lia.
    - apply va_len_spec.
    - apply va_view_spec.
    - intros v i Hv Hi _. unfold va_view, validity_ld; law_cbn. rewrite (va_len_spec v Hv).
      cbn [obind]. unfold validity_ld in Hi; law_cbn. cbn [l_abs] in Hi. unfold lenN in Hi.
      assert ((i <? N.of_nat (length (va_abs v)))%N = false) as -> by lia. reflexivity.
    - intros v [Hc Hb]. unfold va_iter. destruct (lw_iter _ _ L _ Hc) as (s & -> & Hs).
      cbn [obind]. eexists; split; [reflexivity|]. unfold validity_ld; law_cbn.
      exists (l_abs d (va_coll v)). cbn [fst snd]. split; auto. unfold va_abs, va_bits.
      destruct (va_bm v) as [b|]; cbn [option_map].
      + exists (bm_abs b). split; [apply birep_new; tauto|]. tauto.
      + apply mask_true.
    - intros s o os H. destruct (va_rep_cons (l_irep d) (k_inext K) (fun v x => k_own K v = Ret x)
        (lw_icons _ _ L) s o os H) as (v & s' & E & Hv & Hs).
      exists v, s'. split; [auto|]. split; [|auto].
      destruct v as [v|], o as [x|]; try contradiction; cbn [va_own]; [rewrite Hv|]; reflexivity.
    - intros s H. exact (va_rep_nil _ _ (lw_inil _ _ L) s H).
    - intros s os H. exact (va_rep_hint _ _ (lw_ihint _ _ L) s os H).
    - intros v [Hc Hb]. unfold va_into. destruct (lw_into _ _ L _ Hc) as (s & -> & Hs).
      cbn [obind]. eexists; split; [reflexivity|]. unfold validity_ld; law_cbn.
      exists (l_abs d (va_coll v)). cbn [fst snd]. split; auto. unfold va_abs, va_bits.
      destruct (va_bm v) as [b|]; cbn [option_map].
      + exists (bm_abs b). split; [apply birep_new; tauto|]. tauto.
      + apply mask_true.
    - intros s o os H.
      destruct (va_rep_cons (l_orep d) (k_onext K) eq) with (s := s) (o := o) (os := os)
        as (v & s' & E & Hv & Hs); auto.
      { intros s1 x xs Hr. destruct (lw_ocons _ _ L _ _ _ Hr) as (s2 & ? & ?). eauto. }
      exists s'. split; [|auto]. rewrite E.
      destruct v as [v|], o as [x|]; try contradiction; congruence.
    - intros s H. exact (va_rep_nil _ _ (lw_onil _ _ L) s H).
    - intros s os H. exact (va_rep_hint _ _ (lw_ohint _ _ L) s os H).
    - intros n. unfold va_with_capacity. destruct (lw_with_capacity _ _ L n) as [H1 H2].
      pose proof (bm_with_capacity_spec n) as H3. pose proof (bm_with_capacity_live n) as H4.
      pose proof (lw_lim _ _ L) as Hlim. split.
      + destruct (k_with_capacity K n); auto.
        destruct (bm_with_capacity n); cbn [bmap]; auto.
        apply va_fresh_empty; tauto.
      + unfold validity_ld; law_cbn. intros Hs.
        destruct H2 as [c ->]; [lia|]. destruct H4 as [b ->]; [nia|]. cbn. eauto.
    - intros n w res w'. unfold va_try_with_capacity.
      destruct (k_try_with_capacity K n w) as [res1 w1] eqn:E1.
      pose proof (lw_try_with_capacity _ _ L _ _ _ _ E1) as H1.
      destruct res1; try contradiction.
      + destruct (bm_try_with_capacity n w1) as [rb w2] eqn:E2.
        apply bm_try_with_capacity_spec in E2. intros E; inversion E; subst.
        destruct rb; cbn [bmap]; auto. apply va_fresh_empty; tauto.
      + intros E; inversion E; subst; auto.
    - apply (va_collects (fun R => @k_from_iter K R)), (lw_from_iter _ _ L).
    - apply (va_collects (fun R => @k_from_iter_in K R)), (lw_from_iter_in _ _ L).
    - intros R it w os e r res r' w' _ Hwt Hr. unfold va_try_from_iter, va_try_with_capacity.
      destruct (k_try_with_capacity K (upper_or_lower (it_hint it)) w) as [res1 w1] eqn:E1.
      pose proof (lw_try_with_capacity _ _ L _ _ _ _ E1) as H1.
      destruct res1 as [c| | |]; try contradiction.
      2:{ intros E; inversion E; subst; auto. }
      destruct (bm_try_with_capacity (upper_or_lower (it_hint it)) w1) as [rb w2] eqn:E2.
      apply bm_try_with_capacity_spec in E2.
      destruct rb as [b| | |]; cbn [bmap]; try contradiction.
      2:{ intros E; inversion E; subst; auto. }
      assert (Hfr : fresh validity_ld (Validity c (Some b)) []) by (apply va_fresh_empty; tauto).
      destruct Hfr as (G1 & G2 & G3 & G4).
      destruct (va_try_extend K (Validity c (Some b)) it w2) as [[[v' r1] o] w3] eqn:E3.
      pose proof (va_try_extend_spec _ _ _ _ _ _ _ _ _ _ G1 Hwt Hr E3) as H3.
      intros E; inversion E; subst. destruct o; auto; [|tauto].
      destruct H3 as (-> & -> & (F1 & F2 & F3 & F4)). split; [auto|].
      split; [|split; [auto|intros _; eapply in_after_run; eauto]]. unfold fresh.
      cbn [sumw] in G4. split; [exact F1|]. split; [exact (eq_trans F2 G2)|].
      split; [refine (eq_trans F3 _); rewrite G3; reflexivity|].
      refine (N.le_trans _ _ _ F4 _). apply N.le_0_r in G4. rewrite G4. apply N.le_refl.
    - intros R v it os e r v' r' o Hv Hwt Hr E. exact (va_extend_spec _ _ _ _ _ _ _ _ Hv Hwt Hr E).
    - intros R v it w os e r v' r' o w' Hv Hwt Hr E.
      exact (va_try_extend_spec _ _ _ _ _ _ _ _ _ _ Hv Hwt Hr E).
    - intros v n v' o Hv. unfold va_reserve.
      destruct (va_materialize K v) as [v1 o1] eqn:E1.
      destruct (va_materialize_spec _ _ _ Hv E1) as [(-> & b & Hp)|(-> & -> & Hbig)].
      + pose proof Hp as (Hb & Hc & [Hi1 Hi2] & Hbits & Hu). rewrite Hb in *.
        destruct Hi2 as [Hok Hle].
        destruct (bm_reserve b n) as [b2 o2] eqn:E2.
        destruct (bm_reserve_spec _ _ _ _ Hok E2) as (B1 & B2 & B3 & B4 & B5 & B6).
        assert (Hlim : (va_usage v + n * (l_cfac d + 1) <= l_lim d)%N ->
          o2 = ODone /\ (l_usage d (va_coll v1) + n * l_cfac d <= l_lim d)%N).
        { intros Hs. pose proof (lw_lim _ _ L). unfold va_usage at 1 in Hu. rewrite Hb in Hu.
          split; [apply B6|]; lia. }
        assert (Hself : same_items d (va_coll v1) (va_coll v1)).
        { unfold same_items. repeat split; auto; lia. }
        destruct o2.
        * destruct (k_reserve K (va_coll v1) n) as [c3 o3] eqn:E3.
          destruct (lw_reserve _ _ L _ _ _ _ Hi1 E3) as (C1 & C2 & C3).
          intros E; inversion E; subst. split; [|split; [auto|]].
          -- eapply prep_same; eauto. lia.
          -- intros Hs. apply C3. apply Hlim; auto.
        * congruence.
        * intros E; inversion E; subst. split; [|split; [congruence|]].
          -- eapply prep_same; eauto. lia.
          -- intros Hs. apply Hlim in Hs. destruct Hs; discriminate.
        * intros E; inversion E; subst. split; [|split; [congruence|]].
          -- eapply prep_same; eauto. lia.
          -- intros Hs. apply Hlim in Hs. destruct Hs; discriminate.
      + intros E; inversion E; subst. split; [apply va_same_self; auto|]. split; [congruence|].
        unfold validity_ld; law_cbn. intros Hs. exfalso.
        pose proof (lw_lim _ _ L). pose proof (lw_usage _ _ L _ (proj1 Hv)).
        unfold va_usage in Hs. lia.
    - intros v n w v' o w' Hv. unfold va_try_reserve.
      destruct (va_try_materialize K v w) as [[v1 o1] w1] eqn:E1.
      destruct (va_try_materialize_spec _ _ _ _ _ Hv E1) as [(-> & b & Hp)|(-> & ->)].
      + pose proof Hp as (Hb & Hc & [Hi1 Hi2] & Hbits & Hu). rewrite Hb in *.
        destruct Hi2 as [Hok Hle].
        destruct (k_try_reserve K (va_coll v1) n w1) as [[c2 o2] w2] eqn:E2.
        destruct (lw_try_reserve _ _ L _ _ _ _ _ _ Hi1 E2) as (C1 & C2).
        destruct C2 as [-> | ->].
        * destruct (bm_try_reserve b n w2) as [[b3 o3] w3] eqn:E3.
          destruct (bm_try_reserve_spec _ _ _ _ _ _ Hok E3) as (B1 & B2 & B3 & B4 & B5 & B6).
          intros E; inversion E; subst. split.
          -- eapply prep_same; eauto. lia.
          -- destruct o; auto; contradiction.
        * intros E; inversion E; subst. split; auto. eapply prep_same; eauto. lia.
      + intros E; inversion E; subst. split; auto. apply va_same_self; auto.
    - intros v n Hv. unfold va_truncate.
      destruct (lw_truncate _ _ L (va_coll v) n (proj1 Hv)) as (c' & -> & H1 & H2 & H3 & H4).
      eexists; split; [reflexivity|]. destruct Hv as [Hc Hb].
      unfold validity_ld; law_cbn. unfold va_inv, va_abs, va_usage, va_bits.
      cbn [va_bm va_coll]. rewrite H3.
      destruct (va_bm v) as [b|]; cbn [option_map].
      + destruct Hb as [Hb Hle].
        destruct (bm_truncate_spec b n Hb) as (G1 & G2 & G3 & G4 & G5). rewrite G2.
        split; [split; [auto|split; [auto|rewrite !firstn_length; lia]]|].
        split; [auto|]. split; [apply mask_firstn|lia].
      + split; [auto|]. split; [auto|]. split.
        * rewrite !mask_true, firstn_map. reflexivity.
        * unfold lenN. rewrite firstn_length. lia.
  Qed.
End Validity.
