(** * Operations that succeed, on every collection.

    [Live K d m can rsv]: when [can c xs] holds, [c] can be extended by [xs], as
    in [LiveBase] either with the room there is already or because no allocation
    fails. [rsv c n xs]: reserving [n] items makes room for [xs]. [LiveG] adds
    construction and reservation when no allocation fails. *)
From Coq Require Import List NArith ZArith Bool Arith Lia ZifyBool ZifyNat ZifyN.
From Verif Require Import Base Iter Spec VecModel BitmapModel CollModel ValidityModel
  FlattenModel OffsetsModel IterLemmas VecLemmas BitmapLemmas BitmapLemmas2 HonestLemmas
  Laws LawsBase LawsValidity LawsFlatten LawsOffsets LiveBase.
Import ListNotations.

Ltac Zify.zify_post_hook ::= Z.div_mod_to_equations.
Local Arguments Nat.div : simpl never.
Local Arguments Nat.modulo : simpl never.
Local Arguments Nat.mul : simpl never.
Local Arguments N.add : simpl never.
Local Arguments N.mul : simpl never.
Local Arguments max_items : simpl never.
Local Arguments chunk : simpl never.
Local Opaque chunk.

Record Live (K : Coll) (d : LD K) (m : bool) (can : cC K -> list (cA K) -> Prop)
  (rsv : cC K -> N -> list (cA K) -> Prop) : Prop := {
  lv_try_extend : forall R c (it : iter (cA K) R) w xs ys r,
    l_inv d c -> Forall (l_wt d) xs -> run it = (xs, FStop, r) -> honest it -> wok m w ->
    can c (xs ++ ys) ->
    exists c' r' w', k_try_extend K c it w = (c', r', ODone, w') /\ wok m w' /\ can c' ys;
  lv_truncate : forall c n c' xs, l_inv d c -> can c xs -> k_truncate K c n = (c', ODone) ->
    can c' xs;
  lv_reserve : m = true -> forall c n w c' w' xs, l_inv d c ->
    k_try_reserve K c n w = (c', ODone, w') -> rsv c n xs -> can c' xs;
}.
Definition no_rsv {K : Coll} : cC K -> N -> list (cA K) -> Prop := fun _ _ _ => False.
Record LiveG (K : Coll) (d : LD K) (u : bool) : Prop := {
  lg_live : Live K d false (fits d) no_rsv;
  lg_with_capacity : forall n w, grants w -> (n * l_cfac d <= l_lim d)%N ->
    exists c w', k_try_with_capacity K n w = (BOk c, w') /\ grants w';
  lg_reserve : forall c n w, l_inv d c -> grants w ->
    (l_usage d c + n * l_cfac d <= l_lim d)%N ->
    exists c' w', k_try_reserve K c n w = (c', ODone, w') /\ grants w';
  lg_from_iter : forall R (it : iter (cA K) R) w xs r,
    l_nofuse_try d = true \/ fused it -> Forall (l_wt d) xs -> run it = (xs, FStop, r) ->
    honest it -> grants w -> (sumw (l_wgt d) xs <= l_lim d)%N ->
    u = false \/ (upper_or_lower (it_hint it) * l_cfac d <= l_lim d)%N ->
    exists c r' w', k_try_from_iter K it w = (BOk c, r', w') /\ grants w';
}.

(** When no allocation fails, success is all there is to show. *)
Lemma live_grants K d : Laws K d ->
  (forall R c (it : iter (cA K) R) w xs r,
    l_inv d c -> Forall (l_wt d) xs -> run it = (xs, FStop, r) -> honest it -> grants w ->
    fits d c xs ->
    exists c' r' w', k_try_extend K c it w = (c', r', ODone, w') /\ grants w') ->
  Live K d false (fits d) no_rsv.
Proof.
  intros L H. split.
  - intros R c it w xs ys r Hc Hwt Hr Hh Hw Hf.
    destruct Hw as [Hw|Hw]; [discriminate|].
    destruct (H R c it w xs r Hc Hwt Hr Hh Hw) as (c' & r' & w' & E & Hg).
    { unfold fits in *. rewrite sumw_app in Hf. lia. }
    exists c', r', w'. split; [exact E|]. split; [right; auto|].
    pose proof (lw_try_extend _ _ L _ _ _ _ _ _ _ _ _ _ _ Hc Hwt Hr E) as (_ & _ & (_ & _ & _ & Hu)).
    unfold fits in *. rewrite sumw_app in Hf. lia.
  - intros c n c' xs Hc Hf E. destruct (lw_truncate _ _ L c n Hc) as (c1 & E1 & _ & _ & _ & Hu).
    rewrite E in E1. injection E1 as <-. unfold fits in *. lia.
  - discriminate.
Qed.
Lemma live_extend K d (LG : Live K d false (fits d) no_rsv) R c (it : iter (cA K) R) w xs r :
  l_inv d c -> Forall (l_wt d) xs -> run it = (xs, FStop, r) -> honest it -> grants w ->
  fits d c xs -> exists c' r' w', k_try_extend K c it w = (c', r', ODone, w') /\ grants w'.
Proof.
  intros Hc Hwt Hr Hh Hw Hf.
  destruct (lv_try_extend _ _ _ _ _ LG R c it w xs [] r Hc Hwt Hr Hh (or_intror Hw))
    as (c' & r' & w' & E & Hw' & _).
  { rewrite app_nil_r. exact Hf. }
  destruct Hw' as [Hw'|Hw']; [discriminate|]. eauto.
Qed.

(** ** Vectors *)
Definition vec_can {A} (v : vec A) (xs : list A) : Prop :=
  (lenN (v_items v) + lenN xs <= v_cap v)%N.
Definition vec_rsv {A} (v : vec A) (n : N) (xs : list A) : Prop := (lenN xs <= n)%N.
Lemma vec_live A a0 esz : Live (vec_coll A a0 esz) (vec_ld A a0 esz) true vec_can vec_rsv.
Proof.
  split; unfold vec_coll, vec_ld; law_cbn.
  - intros R c it w xs ys r Hc _ Hr Hh Hw Hx. unfold vec_can in Hx. rewrite lenN_app in Hx.
    destruct (vec_try_extend_wok true esz c it w xs r Hc Hr Hh Hw) as (v' & r' & w' & E & Hw' & Hcap).
    { unfold vlim. lia. }
    exists v', r', w'. split; [exact E|]. split; [exact Hw'|].
    pose proof (vec_try_extend_spec _ _ _ _ _ _ _ _ _ _ _ Hc Hr E) as (_ & _ & _ & _ & H4).
    unfold vec_can. rewrite (Hcap eq_refl), H4, lenN_app. lia.
  - intros c n c' xs Hc Hx E. injection E as <-. unfold vec_can in *.
    destruct (vec_truncate_spec esz c n Hc) as (H1 & H2 & H3).
    rewrite H2, H3. unfold lenN in *. rewrite firstn_length. lia.
  - intros _ c n w c' w' xs Hc E Hx. unfold vec_rsv in Hx.
    pose proof (vec_try_reserve_spec _ _ _ _ _ _ _ Hc E) as (_ & Hi & _ & H3).
    unfold vec_can. rewrite Hi. lia.
Qed.
Lemma vec_liveG A a0 esz : LiveG (vec_coll A a0 esz) (vec_ld A a0 esz) false.
Proof.
  split.
  - apply live_grants; [apply vec_laws|]. unfold fits, vec_coll, vec_ld; law_cbn.
    intros R c it w xs r Hc _ Hr Hh Hw Hf. rewrite sumw_one in Hf.
    destruct (vec_try_extend_wok false esz c it w xs r Hc Hr Hh (or_intror Hw))
      as (v' & r' & w' & E & Hw' & _).
    { unfold vlim. lia. }
    destruct Hw' as [Hw'|Hw']; [discriminate|]. eauto.
  - unfold vec_coll, vec_ld; law_cbn. intros n w Hw Hn. apply vec_try_with_capacity_live; [auto|lia].
  - unfold vec_coll, vec_ld; law_cbn. intros c n w Hc Hw Hn.
    destruct (vec_try_reserve_live esz c n w) as (v' & w' & E & Hg & _); [left; split; [auto|lia]|].
    eauto.
  - unfold vec_coll, vec_ld; law_cbn. intros R it w xs r _ _ Hr Hh Hw Hs _. rewrite sumw_one in Hs.
    pose proof (honest_hint _ _ _ _ Hh Hr).
    destruct (vec_try_from_iter_live esz it w xs FStop r Hr Hw) as (v & r' & w' & E & Hg); [lia|].
    eauto.
Qed.

(** ** Bitmaps *)
Definition bm_can (m : bool) (b : bitmap) (n : N) : Prop :=
  (N.of_nat (bm_off b + bm_bits b) + n <= 8 * vlim m u8sz (bm_buf b))%N.
Lemma bm_can_extend {R} m b (it : iter bool R) w xs n r :
  bm_ok b -> run it = (xs, FStop, r) -> honest it -> wok m w -> bm_can m b (lenN xs + n) ->
  exists b' r' w', bm_try_extend b it w = (b', r', ODone, w') /\ wok m w' /\ bm_can m b' n.
Proof.
  intros Hb Hr Hh Hw Hx. unfold bm_can in Hx.
  destruct (bm_try_extend_wok m b it w xs r Hb Hr Hh Hw) as (b' & r' & w' & E & Hw' & Hcap); [lia|].
  exists b', r', w'. split; [exact E|]. split; [exact Hw'|].
  destruct (bm_try_extend_spec _ _ _ _ _ _ _ _ _ _ Hb Hr E) as (H1 & H2 & H3 & _ & _ & H5).
  assert (bm_bits b' = bm_bits b + length xs).
  { rewrite <- (bm_abs_length b'), <- (bm_abs_length b), H5, app_length; auto. }
  assert (vlim m u8sz (bm_buf b') = vlim m u8sz (bm_buf b)).
  { unfold vlim. destruct m; auto. }
  unfold bm_can, lenN in *. rewrite H2, H, H0. lia.
Qed.
Lemma bm_can_truncate m b n k : bm_ok b -> bm_can m b k -> bm_can m (bm_truncate b n) k.
Proof.
  intros Hb. destruct (bm_truncate_spec b n Hb) as (_ & _ & _ & H4 & H5). unfold bm_can.
  assert (bm_buf (bm_truncate b n) = bm_buf b) as -> by (unfold bm_truncate; destruct (_ <? _)%N; auto).
  rewrite H4, H5. lia.
Qed.
Lemma bm_can_reserve b n w b' w' k : bm_ok b -> bm_try_reserve b n w = (b', ODone, w') ->
  (k <= n)%N -> bm_can true b' k.
Proof.
  intros Hb E Hk. pose proof (bm_try_reserve_spec _ _ _ _ _ _ Hb E) as (_ & _ & _ & H4 & H5 & H6).
  unfold bm_can, vlim. rewrite H4, H5. lia.
Qed.
Definition bits_can (b : bitmap) (xs : list bool) : Prop := bm_can true b (lenN xs).
Definition bits_rsv (b : bitmap) (n : N) (xs : list bool) : Prop := (lenN xs <= n)%N.
Lemma bitmap_live : Live bitmap_coll bitmap_ld true bits_can bits_rsv.
Proof.
  split; unfold bitmap_coll, bitmap_ld; law_cbn.
  - intros R c it w xs ys r Hc _ Hr Hh Hw Hx. unfold bits_can in *. rewrite lenN_app in Hx.
    exact (bm_can_extend true c it w xs _ r Hc Hr Hh Hw Hx).
  - intros c n c' xs Hc Hx E. injection E as <-. apply bm_can_truncate; auto.
  - intros _ c n w c' w' xs Hc E Hx. exact (bm_can_reserve c n w c' w' _ Hc E Hx).
Qed.
Lemma bitmap_liveG : LiveG bitmap_coll bitmap_ld false.
Proof.
  split.
  - apply live_grants; [apply bitmap_laws|]. unfold fits, bitmap_coll, bitmap_ld; law_cbn.
    intros R c it w xs r Hc _ Hr Hh Hw Hf. rewrite sumw_two in Hf.
    destruct (bm_try_extend_wok false c it w xs r Hc Hr Hh (or_intror Hw))
      as (v' & r' & w' & E & Hw' & _).
    { unfold vlim. rewrite u8_items. unfold bm_usage in Hf. lia. }
    destruct Hw' as [Hw'|Hw']; [discriminate|]. eauto.
  - unfold bitmap_coll, bitmap_ld; law_cbn. intros n w Hw Hn. apply bm_try_with_capacity_live; [auto|lia].
  - unfold bitmap_coll, bitmap_ld; law_cbn. intros c n w Hc Hw Hn. apply bm_try_reserve_live; auto. lia.
  - unfold bitmap_coll, bitmap_ld; law_cbn. intros R it w xs r [Hf|Hf] _ Hr Hh Hw Hs _; [discriminate|].
    rewrite sumw_two in Hs. apply (bm_try_from_iter_live it w xs r); auto. lia.
Qed.

(** ** Validity *)
Section Validity.
  Context (K : Coll) (d : LD K) (L : Laws K d).

  Lemma honest_va_chunk {R} (it : iter (option (cA K)) R) : honest it -> honest (va_chunk K it).
  Proof.
    intros Hh. unfold va_chunk. apply honest_map, honest_inspect; [discriminate|].
    apply honest_take_byref. exact Hh.
  Qed.
  Lemma honest_va_rest {R} (it it' : iter (option (cA K)) R) os e r ys f vs :
    honest it -> run it = (os, e, r) -> chunk <= length os ->
    run (va_chunk K it) = (ys, f, (it', vs)) -> honest it'.
  Proof.
    intros Hh Hr Hle E.
    destruct (run (it_take chunk (it_byref it))) as [[zs f1] it1] eqn:E1.
    assert (Hv : insp (push_valid K) [] zs = Some (map is_some zs)) by exact (insp_valid zs []).
    pose proof (run_map (unwrap_or (k_item0 K)) _ _ _ _ (run_inspect _ _ _ _ _ _ _ E1 Hv)) as Hc.
    change (run (va_chunk K it) = (map (unwrap_or (k_item0 K)) zs, f1, (it1, map is_some zs))) in Hc.
    rewrite E in Hc. injection Hc as _ _ -> _.
    destruct it as [n t]. unfold honest in Hh. cbn [it_tr it_node] in Hh.
    unfold run, it_take, it_byref in E1. cbn [it_tr it_node] in E1.
    eapply honest_rest; [|exact Hh|exact Hr|exact Hle|exact E1]. apply take_node_src.
  Qed.

  Lemma va_try_loop_live {R} m can rsv (V : Live K d m can rsv) : forall fuel len c b
    (it : iter (option (cA K)) R) w os ys r,
    l_inv d c -> bm_ok b -> Forall (l_wt d) (map (dflt K) os) -> run it = (os, FStop, r) ->
    honest it -> length (it_tr it) < fuel -> wok m w ->
    can c (map (dflt K) os ++ ys) -> bm_can m b (lenN os + lenN ys) ->
    exists c' b' r' w', va_try_extend_loop K fuel len c b it w = (c', b', r', ODone, w') /\
      wok m w' /\ can c' ys /\ bm_can m b' (lenN ys).
  Proof.
    induction fuel as [|fuel IH]; intros len c b it w os ys r Hc Hb Hwt Hr Hh Hf Hw Hx Hy; [lia|].
    cbn [va_try_extend_loop]. pose proof (honest_va_chunk it Hh) as Hhc.
    destruct (va_chunk_run K it os FStop r Hr) as (it' & [(Hle & Hrc & Hr' & Hlen)|(Hlt & Hrc & Hsrc)]).
    - pose proof (honest_va_rest it it' _ _ _ _ _ _ Hh Hr Hle Hrc) as Hh'.
      set (os1 := firstn chunk os) in *. set (os2 := skipn chunk os) in *.
      assert (Hos : os = os1 ++ os2) by (symmetry; apply firstn_skipn).
      assert (Hl1 : length os1 = chunk) by (unfold os1; rewrite firstn_length; lia).
      clearbody os1 os2. subst os. rewrite map_app in Hwt, Hx. apply Forall_app in Hwt.
      destruct Hwt as [Hw1 Hw2]. rewrite <- app_assoc in Hx.
      destruct (lv_try_extend _ _ _ _ _ V _ c (va_chunk K it) w _ _ _ Hc Hw1 Hrc Hhc Hw Hx)
        as (c1 & [it1 vs] & w1 & E1 & Hok1 & Hx1).
      rewrite E1.
      pose proof (lw_try_extend _ _ L _ c _ _ _ _ _ _ _ _ _ Hc Hw1 Hrc E1) as (_ & Ep & Hfull).
      injection Ep as -> ->.
      rewrite lenN_app, <- N.add_assoc in Hy.
      assert (Hlm : lenN (map is_some os1) = lenN os1) by (unfold lenN; rewrite map_length; auto).
      rewrite <- Hlm in Hy.
      destruct (bm_can_extend m b _ w1 _ _ _ Hb (run_list (map is_some os1)) (honest_list _) Hok1 Hy)
        as (b1 & ru & w2 & E2 & Hok2 & Hy1).
      rewrite E2. pose proof (bm_try_extend_list _ _ _ _ _ _ _ Hb E2) as (S1 & _).
      rewrite map_length, Hl1, Nat.ltb_irrefl.
      apply (IH len c1 b1 it' w2 os2 ys r); auto; [apply Hfull|lia].
    - destruct (lv_try_extend _ _ _ _ _ V _ c (va_chunk K it) w _ _ _ Hc Hwt Hrc Hhc Hw Hx)
        as (c1 & [it1 vs] & w1 & E1 & Hok1 & Hx1).
      rewrite E1.
      pose proof (lw_try_extend _ _ L _ c _ _ _ _ _ _ _ _ _ Hc Hwt Hrc E1) as (_ & Ep & Hfull).
      injection Ep as -> ->.
      assert (Hlm : lenN (map is_some os) = lenN os) by (unfold lenN; rewrite map_length; auto).
      rewrite <- Hlm in Hy.
      destruct (bm_can_extend m b _ w1 _ _ _ Hb (run_list (map is_some os)) (honest_list _) Hok1 Hy)
        as (b1 & ru & w2 & E2 & Hok2 & Hy1).
      rewrite E2, map_length.
      assert (Nat.ltb (length os) chunk = true) as -> by (apply Nat.ltb_lt; auto).
      do 4 eexists. split; [reflexivity|]. auto.
  Qed.

  Definition va_can (can : cC K -> list (cA K) -> Prop) (v : validity (cC K))
    (os : list (option (cA K))) : Prop :=
    exists b, va_bm v = Some b /\ can (va_coll v) (map (dflt K) os) /\ bm_can true b (lenN os).

  Definition va_rsv (rsv : cC K -> N -> list (cA K) -> Prop) (v : validity (cC K)) (n : N)
    (os : list (option (cA K))) : Prop :=
    (lenN os <= n)%N /\ rsv (va_coll v) n (map (dflt K) os).
  Lemma validity_live can rsv : Live K d true can rsv ->
    Live (validity_coll K) (validity_ld K d) true (va_can can) (va_rsv rsv).
  Proof.
    intros V. split; unfold validity_coll, validity_ld; law_cbn.
    - intros R v it w os ys r Hv Hwt Hr Hh Hw (b & Hb & Hx & Hy).
      apply (va_wt_dflt K d L) in Hwt.
      unfold va_try_extend. rewrite (va_len_spec K d L v Hv).
      unfold va_try_materialize. rewrite Hb.
      pose proof (prep_self K d v b Hv Hb) as Hp.
      destruct (prep_ready K d L v v b (length (va_abs K d v)) Hp) as (c2 & Et & Hrd).
      { rewrite (va_abs_length K d v Hv). unfold va_bits. rewrite Hb. reflexivity. }
      rewrite Hb, Et. rewrite map_app in Hx. rewrite lenN_app in Hy.
      assert (Hx2 : can c2 (map (dflt K) os ++ map (dflt K) ys)).
      { apply (lv_truncate _ _ _ _ _ V _ _ _ _ (proj1 Hv) Hx Et). }
      assert (Hly : lenN (map (dflt K) ys) = lenN ys) by (unfold lenN; rewrite map_length; auto).
      rewrite <- Hly in Hy. pose proof Hrd as (R1 & R2 & _).
      destruct (va_try_loop_live true can rsv V (S (length (it_tr it))) (length (va_abs K d v)) c2 b it w
        os (map (dflt K) ys) r R1 R2 Hwt Hr Hh (Nat.lt_succ_diag_r _) Hw Hx2 Hy)
        as (c3 & b3 & r3 & w3 & E & Hw3 & Hc3 & Hb3).
      rewrite E. do 3 eexists. split; [reflexivity|]. split; [exact Hw3|].
      exists b3. cbn [va_bm va_coll]. rewrite Hly in Hb3. auto.
    - intros v n v' os Hv (b & Hb & Hx & Hy). unfold va_truncate. rewrite Hb. cbn [option_map].
      destruct (k_truncate K (va_coll v) n) as [c' o] eqn:E. intros E1. injection E1 as <- ->.
      exists (bm_truncate b n). cbn [va_bm va_coll]. split; [auto|]. split.
      + apply (lv_truncate _ _ _ _ _ V _ _ _ _ (proj1 Hv) Hx E).
      + apply bm_can_truncate; auto. destruct Hv as [_ Hv]. rewrite Hb in Hv. apply Hv.
    - intros _ v n w v' w' os Hv. unfold va_try_reserve.
      destruct (va_try_materialize K v w) as [[v1 o1] w1] eqn:E1.
      destruct (va_try_materialize_spec K d L _ _ _ _ _ Hv E1) as [(-> & b & Hp)|(-> & ->)]; [|discriminate].
      pose proof Hp as (Hb & Hc & [Hi1 Hi2] & _). rewrite Hb in *.
      destruct (k_try_reserve K (va_coll v1) n w1) as [[c2 o2] w2] eqn:E2.
      destruct o2; try discriminate.
      destruct (bm_try_reserve b n w2) as [[b3 o3] w3] eqn:E3.
      intros E [Hl Hrs]. injection E as <- -> <-. rewrite <- Hc in Hrs.
      exists b3. cbn [va_bm va_coll]. split; [auto|]. split.
      + apply (lv_reserve _ _ _ _ _ V eq_refl _ _ _ _ _ _ Hi1 E2 Hrs).
      + apply (bm_can_reserve b n w2 b3 w3); auto. apply Hi2.
  Qed.

  Lemma va_materialize_live v w (os : list (option (cA K))) : va_inv K d v -> grants w ->
    fits (validity_ld K d) v os ->
    exists v1 w', va_try_materialize K v w = (v1, ODone, w') /\ grants w'.
  Proof.
    intros Hv Hw Hf. unfold va_try_materialize. destruct (va_bm v) as [b|]; [eauto|].
    rewrite (lw_len _ _ L _ (proj1 Hv)).
    destruct (bm_try_all_set_live (length (l_abs d (va_coll v))) w Hw) as (b & w' & -> & Hg); [|eauto].
    exact (va_lim_bits K d L v os Hf Hv).
  Qed.
  Lemma bm_fits b n : (N.of_nat (bm_off b + bm_bits b) + n <= alloc_max)%N -> bm_can false b n.
  Proof. intros H. unfold bm_can, vlim. rewrite u8_items. lia. Qed.

  Lemma va_try_extend_live {R} (LG : Live K d false (fits d) no_rsv) v (it : iter (option (cA K)) R) w os r :
    va_inv K d v -> Forall (l_wt (validity_ld K d)) os -> run it = (os, FStop, r) -> honest it ->
    grants w -> fits (validity_ld K d) v os ->
    exists v' r' w', va_try_extend K v it w = (v', r', ODone, w') /\ grants w'.
  Proof.
    intros Hv Hwt Hr Hh Hw Hf. apply (va_wt_dflt K d L) in Hwt.
    unfold va_try_extend. rewrite (va_len_spec K d L v Hv).
    destruct (va_materialize_live v w os Hv Hw Hf) as (v1 & w1 & E1 & Hw1). rewrite E1.
    destruct (va_try_materialize_spec K d L _ _ _ _ _ Hv E1) as [(_ & b & Hp)|(Hp & _)]; [|discriminate].
    pose proof Hp as (Hb & Hc & Hi & Hbits & _). rewrite Hb.
    destruct (prep_ready K d L v v1 b (length (va_abs K d v)) Hp) as (c2 & Et & Hrd).
    { rewrite (va_abs_length K d v Hv), <- Hbits. unfold va_bits. rewrite Hb. reflexivity. }
    rewrite Et. destruct (ready_fits K d L v c2 b os Hrd Hf) as [F1 F2].
    pose proof Hrd as (R1 & R2 & _).
    destruct (va_try_loop_live false (fits d) no_rsv LG (S (length (it_tr it)))
      (length (va_abs K d v)) c2 b it w1 os [] r R1 R2 Hwt Hr Hh (Nat.lt_succ_diag_r _) (or_intror Hw1))
      as (c3 & b3 & r3 & w3 & E & Hw3 & _).
    { rewrite app_nil_r. exact F1. }
    { apply bm_fits. rewrite lenN_nil, N.add_0_r. unfold bm_usage in F2. lia. }
    rewrite E. destruct Hw3 as [Hw3|Hw3]; [discriminate|]. eauto.
  Qed.

  Lemma validity_liveG u : LiveG K d u -> LiveG (validity_coll K) (validity_ld K d) true.
  Proof.
    intros V. pose proof (validity_laws K d L) as L'.
    assert (X : Live (validity_coll K) (validity_ld K d) false (fits (validity_ld K d)) no_rsv).
    { apply live_grants; [exact L'|]. intros R v it w os r Hv Hwt Hr Hh Hw Hf.
      exact (va_try_extend_live (lg_live _ _ _ V) v it w os r Hv Hwt Hr Hh Hw Hf). }
    assert (Y : forall n w, grants w -> (n * (l_cfac d + 1) <= l_lim d)%N ->
      exists v w', va_try_with_capacity K n w = (BOk v, w') /\ grants w').
    { intros n w Hw Hn. unfold va_try_with_capacity. pose proof (lw_lim _ _ L).
      destruct (lg_with_capacity _ _ _ V n w Hw) as (c & w1 & -> & Hw1); [lia|].
      destruct (bm_try_with_capacity_live n w1 Hw1) as (b & w2 & -> & Hw2); [lia|].
      cbn [bmap]. eauto. }
    assert (Z : forall R (it : iter (option (cA K)) R) w (os : list (option (cA K))) r,
      Forall (l_wt (validity_ld K d)) os -> run it = (os, FStop, r) -> honest it -> grants w ->
      (sumw (l_wgt (validity_ld K d)) os <= l_lim d)%N ->
      (upper_or_lower (it_hint it) * (l_cfac d + 1) <= l_lim d)%N ->
      exists c r' w', va_try_from_iter K it w = (BOk c, r', w') /\ grants w').
    { intros R it w os r Hwt Hr Hh Hw Hs Hu. unfold va_try_from_iter.
      destruct (Y (upper_or_lower (it_hint it)) w Hw Hu) as (v & w1 & E1 & Hw1). rewrite E1.
      pose proof (lw_try_with_capacity _ _ L' _ _ _ _ E1) as (F1 & _ & _ & F4).
      destruct (va_try_extend_live (lg_live _ _ _ V) v it w1 os r F1 Hwt Hr Hh Hw1)
        as (v' & r' & w2 & E2 & Hw2).
      { unfold fits. cbn [sumw] in F4. change (l_lim (validity_ld K d)) with (l_lim d).
        clear - F4 Hs. etransitivity; [|exact Hs].
        apply N.le_trans with (0 + sumw (l_wgt (validity_ld K d)) os)%N; [|apply N.le_refl].
        apply N.add_le_mono_r. exact F4. }
      rewrite E2. eauto. }
    split; [exact X|exact Y| |].
    - unfold validity_coll, validity_ld; law_cbn. intros v n w Hv Hw Hn. unfold va_try_reserve.
      assert (Hf : fits (validity_ld K d) v []).
      { unfold fits, validity_ld; law_cbn. cbn [sumw]. lia. }
      destruct (va_materialize_live v w [] Hv Hw Hf) as (v1 & w1 & E1 & Hw1). rewrite E1.
      destruct (va_try_materialize_spec K d L _ _ _ _ _ Hv E1) as [(_ & b & Hp)|(Hp & _)]; [|discriminate].
      pose proof Hp as (Hb & Hc & [Hi1 Hi2] & _ & Hu). rewrite Hb in *.
      unfold va_usage in Hu at 1. rewrite Hb in Hu. pose proof (lw_lim _ _ L).
      destruct (lg_reserve _ _ _ V (va_coll v1) n w1 Hi1 Hw1) as (c2 & w2 & E2 & Hw2); [lia|].
      rewrite E2.
      destruct (bm_try_reserve_live b n w2) as (b3 & w3 & E3 & Hw3); [apply Hi2|auto|lia|].
      rewrite E3. eauto.
    - intros R it w os r _ Hwt Hr Hh Hw Hs [Hu|Hu]; [discriminate|].
      exact (Z R it w os r Hwt Hr Hh Hw Hs Hu).
  Qed.
End Validity.

(** ** Flatten *)
Section Flatten.
  Context (K : Coll) (d : LD K) (L : Laws K d) (n : nat) (Hn : 0 < n).

  Definition fl_can (can : cC K -> list (cA K) -> Prop) (c : cC K) (xs : list (list (cA K))) : Prop :=
    can c (concat xs).
  Lemma honest_rows {R} (it : iter (list (cA K)) R) xs e r : run it = (xs, e, r) -> rows_ok n xs ->
    honest it -> honest (it_flatten (N.of_nat n) it).
  Proof.
    intros Hr Hok Hh. apply honest_flatten; [|exact Hh].
    unfold items_of. rewrite Hr. cbn [fst]. unfold rows_ok in Hok.
    eapply Forall_impl; [|exact Hok]. intros x Hx. unfold lenN. rewrite Hx. reflexivity.
  Qed.
  Lemma fl_trunc c k c' : fl_inv K d n c -> fl_truncate K n c k = (c', ODone) ->
    c' = c \/ exists j, k_truncate K c j = (c', ODone).
  Proof.
    intros Hc. unfold fl_truncate. destruct (fl_len K n c); [|discriminate].
    destruct (k <? N.of_nat _)%N; [|intros E; injection E as <-; auto].
    destruct (strict_mul k (N.of_nat n)); [eauto|discriminate].
  Qed.
  Definition fl_rsv (rsv : cC K -> N -> list (cA K) -> Prop) (c : cC K) (k : N)
    (xs : list (list (cA K))) : Prop := rsv c (k * N.of_nat n)%N (concat xs).
  Lemma flatten_live m can rsv : Live K d m can rsv ->
    Live (flatten_coll K n) (flatten_ld K d n) m (fl_can can) (fl_rsv rsv).
  Proof.
    intros V. split; unfold flatten_coll, flatten_ld; law_cbn.
    - intros R c it w xs ys r [Hc _] Hwt Hr Hh Hw Hx.
      destruct (fl_wt_rows K d n xs Hwt) as [Hrows Hwt'].
      unfold fl_can in Hx. rewrite concat_app in Hx.
      exact (lv_try_extend _ _ _ _ _ V _ c _ w _ _ _ Hc Hwt' (run_flatten (N.of_nat n) _ _ _ _ Hr)
        (honest_rows it xs _ _ Hr Hrows Hh) Hw Hx).
    - intros c k c' xs Hc Hx E. destruct (fl_trunc c k c' Hc E) as [->|[j Ej]]; [exact Hx|].
      exact (lv_truncate _ _ _ _ _ V _ _ _ _ (proj1 Hc) Hx Ej).
    - intros Hm c k w c' w' xs [Hc _] E Hrs. unfold fl_try_reserve in E.
      destruct (checked_mul k (N.of_nat n)) as [j|] eqn:Ej; [|discriminate].
      apply (lv_reserve _ _ _ _ _ V Hm _ _ _ _ _ _ Hc E).
      unfold checked_mul in Ej. destruct (_ <=? _)%N; [|discriminate]. injection Ej as <-. exact Hrs.
  Qed.
  Lemma live_iff (can can' : cC K -> list (list (cA K)) -> Prop) rsv :
    (forall c xs, can c xs <-> can' c xs) ->
    Live (flatten_coll K n) (flatten_ld K d n) false can rsv ->
    Live (flatten_coll K n) (flatten_ld K d n) false can' no_rsv.
  Proof.
    intros H [H1 H2 _]. split.
    - intros R c it w xs ys r X1 X2 X3 X4 X5 X6. apply H in X6.
      destruct (H1 R c it w xs ys r X1 X2 X3 X4 X5 X6) as (c' & r' & w' & E & Y1 & Y2).
      exists c', r', w'. split; [exact E|]. split; [exact Y1|]. apply H. exact Y2.
    - intros c k c' xs X1 X2 X3. apply H. apply H in X2. eapply H2; eauto.
    - discriminate.
  Qed.
  Lemma flatten_liveG u : LiveG K d u -> LiveG (flatten_coll K n) (flatten_ld K d n) u.
  Proof.
    intros V. split.
    - apply (live_iff (fl_can (fits d)) _ (fl_rsv no_rsv)); [|apply flatten_live, (lg_live _ _ _ V)].
      intros c xs. unfold fl_can, fits, flatten_ld; law_cbn. rewrite sumw_concat. reflexivity.
    - unfold flatten_coll, flatten_ld; law_cbn. intros k w Hw Hk. unfold fl_try_with_capacity.
      pose proof (lw_lim _ _ L). pose proof (lw_cfac1 _ _ L). rewrite alloc_max_val in *.
      rewrite N.mul_assoc in Hk. assert (k * N.of_nat n <= l_lim d)%N by nia.
      unfold checked_mul. rewrite usize_max_val.
      destruct (N.leb_spec (k * N.of_nat n) 18446744073709551615)%N; [|lia].
      apply (lg_with_capacity _ _ _ V); auto.
    - unfold flatten_coll, flatten_ld; law_cbn. intros c k w [Hc _] Hw Hk. unfold fl_try_reserve.
      pose proof (lw_lim _ _ L). pose proof (lw_cfac1 _ _ L). rewrite alloc_max_val in *.
      rewrite N.mul_assoc in Hk. assert (k * N.of_nat n <= l_lim d)%N by nia.
      unfold checked_mul. rewrite usize_max_val.
      destruct (N.leb_spec (k * N.of_nat n) 18446744073709551615)%N; [|lia].
      apply (lg_reserve _ _ _ V); auto.
    - unfold flatten_coll, flatten_ld; law_cbn. intros R it w xs r _ Hwt Hr Hh Hw Hs Hu.
      destruct (fl_wt_rows K d n xs Hwt) as [Hrows Hwt'].
      apply (lg_from_iter _ _ _ V R (it_flatten (N.of_nat n) it) w (concat xs) r); auto.
      + right. apply fused_cut, cut_flatten.
      + apply (run_flatten (N.of_nat n) _ _ _ _ Hr).
      + exact (honest_rows it xs _ _ Hr Hrows Hh).
      + rewrite sumw_concat. exact Hs.
      + destruct Hu as [Hu|Hu]; [left; exact Hu|right]. exact (flat_upper_lower K d L n Hn _ Hu).
  Qed.
End Flatten.

(** ** Offsets *)
Section Offsets.
  Context (K : Coll) (d : LD K) (L : Laws K d) (kd : okind).

  Lemma of_try_extend_t_live {R} (LG : Live K d false (fits d) no_rsv) ls0 :
    forall (t : trace (list (cA K)) R) n o ls w xs r,
    tight K d kd o (ls0 ++ ls) -> Forall (Forall (l_wt d)) xs -> run_t t n = (xs, FStop, r) ->
    grants w -> (usg K d o (ls0 ++ ls) + sumw (of_wgt K d) xs <= of_lim K d kd)%N ->
    exists o' r' w', of_try_extend_t K kd (length ls0) (N.of_nat (length (concat ls0))) t n o
      (Z.of_nat (length (concat (ls0 ++ ls)))) w = (o', r', ODone, w') /\ grants w'.
  Proof.
    induction t as [|[[l| |] n'] t IH]; intros n o ls w xs r Ht Hwt;
      cbn [run_t of_try_extend_t].
    - intros _ Hw _. eauto.
    - destruct (run_t t n') as [[xs1 e1] r1] eqn:Hr. intros E1 Hw Hu. injection E1 as <- -> <-.
      pose proof (Forall_inv Hwt) as Hl. apply Forall_inv_tail in Hwt.
      pose proof Ht as (T1 & T2 & T3 & T4 & T5).
      rewrite (as_usize_nat kd).
      assert (Hpos : (N.of_nat (length (concat (ls0 ++ ls))) + lenN l =
        N.of_nat (length (concat (ls0 ++ ls ++ [l]))))%N).
      { rewrite app_assoc, concat_snoc, (app_length _ l). unfold lenN. lia. }
      cbn [sumw] in Hu. unfold of_wgt in Hu at 1. unfold usg in Hu.
      pose proof (lw_usage _ _ L _ T1) as Hlu. rewrite T4 in Hlu. unfold lenN in Hlu at 1.
      destruct (sum_len K d L kd l Hl) as [Hs1 Hs2]. unfold of_lim in Hu.
      destruct (omax_val kd) as (O1 & O2 & O3). pose proof (max_items_le (osz kd)) as Hml.
      rewrite alloc_max_val in Hml.
      unfold checked_add. rewrite usize_max_val in *.
      destruct (N.leb_spec (N.of_nat (length (concat (ls0 ++ ls))) + lenN l) 18446744073709551615)%N
        as [_|Hbad]; [|lia].
      rewrite Hpos. unfold off_try_from.
      destruct (Z.leb_spec (Z.of_N (N.of_nat (length (concat (ls0 ++ ls ++ [l]))))) (omax kd))%Z
        as [Hz|Hbad]; [|lia].
      replace (Z.of_N (N.of_nat (length (concat (ls0 ++ ls ++ [l])))))
        with (Z.of_nat (length (concat (ls0 ++ ls ++ [l])))) by lia.
      destruct (live_extend K d LG _ (of_data o) (it_list l) w l tt T1 Hl (run_list l) (honest_list l) Hw)
        as (d2 & u & w2 & Ex & Hw2).
      { unfold fits. lia. }
      rewrite Ex.
      pose proof (lw_try_extend _ _ L _ _ _ _ _ _ _ _ _ _ _ T1 Hl (run_list l) Ex)
        as (_ & _ & (Y1 & Y2 & Y3 & Y4)).
      destruct (vec_try_extend_wok false (osz kd) (of_offs o)
        (it_list [Z.of_nat (length (concat (ls0 ++ ls ++ [l])))]) w2 _ tt T2 (run_list _)
        (honest_list _) (or_intror Hw2)) as (v3 & u3 & w3 & Ev & Hw3 & _).
      { unfold vlim. rewrite T3. rewrite lenN_cons. unfold lenN in *. rewrite ends_length. cbn [length]. lia. }
      rewrite Ev. destruct Hw3 as [Hw3|Hw3]; [discriminate|].
      pose proof (vec_try_extend_spec _ _ _ _ _ _ _ _ _ _ _ T2 (run_list _) Ev) as (V1 & _ & _ & _ & V4).
      assert (Ht' : tight K d kd (Offsets d2 v3) (ls0 ++ ls ++ [l])).
      { rewrite app_assoc in *. apply (tight_push K d kd) with (o := o); auto. lia. }
      apply (IH n' (Offsets d2 v3) (ls ++ [l]) w3 xs1 r1 Ht' Hwt Hr Hw3).
      unfold usg. cbn [of_data]. rewrite !lenN_app in *. unfold of_lim.
      assert (lenN [l] = 1)%N as -> by reflexivity. lia.
    - intros _ Hw _. eauto.
    - discriminate.
  Qed.
  Lemma of_try_extend_live {R} (LG : Live K d false (fits d) no_rsv) o (it : iter (list (cA K)) R) w xs r :
    of_inv K d kd o -> Forall (Forall (l_wt d)) xs -> run it = (xs, FStop, r) -> grants w ->
    (of_usage K d o + sumw (of_wgt K d) xs <= of_lim K d kd)%N ->
    exists o' r' w', of_try_extend K kd o it w = (o', r', ODone, w') /\ grants w'.
  Proof.
    intros [ls Ho] Hwt Hr Hw Hf. unfold of_try_extend.
    rewrite (of_rep_usage K d kd o ls Ho) in Hf.
    rewrite (of_len_spec K d kd o ls Ho), (of_last K d kd o ls Ho), (as_usize_nat kd).
    destruct (of_truncate_start K d L kd o ls Ho) as (d1 & -> & Ht & Hv & Hu).
    pose proof (of_try_extend_t_live LG ls (it_tr it) (it_node it) (Offsets d1 (of_offs o)) [] w xs r) as H.
    rewrite app_nil_r in H. apply H; auto. unfold usg in *. cbn [of_data]. lia.
  Qed.
  (** With room already *)
  Lemma of_try_extend_t_room {R} can rsv (V : Live K d true can rsv) ls0 k :
    forall (t : trace (list (cA K)) R) n o ls w xs ys r,
    tight K d kd o (ls0 ++ ls) -> Forall (Forall (l_wt d)) xs -> run_t t n = (xs, FStop, r) ->
    can (of_data o) (concat xs ++ ys) ->
    (lenN (v_items (of_offs o)) + lenN xs + k <= v_cap (of_offs o))%N ->
    (Z.of_nat (length (concat (ls0 ++ ls)) + length (concat xs)) <= omax kd)%Z ->
    exists o' r' w', of_try_extend_t K kd (length ls0) (N.of_nat (length (concat ls0))) t n o
      (Z.of_nat (length (concat (ls0 ++ ls)))) w = (o', r', ODone, w') /\
      can (of_data o') ys /\ (lenN (v_items (of_offs o')) + k <= v_cap (of_offs o'))%N.
  Proof.
    induction t as [|[[l| |] n'] t IH]; intros n o ls w xs ys r Ht Hwt;
      cbn [run_t of_try_extend_t].
    - intros E Hx Hv _. injection E as <- _. exists o, (nd_src n), w. split; [auto|]. split; [exact Hx|].
      rewrite lenN_nil in Hv. lia.
    - destruct (run_t t n') as [[xs1 e1] r1] eqn:Hr. intros E1 Hx Hv Hz. injection E1 as <- -> <-.
      pose proof (Forall_inv Hwt) as Hl. apply Forall_inv_tail in Hwt.
      pose proof Ht as (T1 & T2 & T3 & T4 & T5).
      rewrite (as_usize_nat kd).
      assert (Hpos : (N.of_nat (length (concat (ls0 ++ ls))) + lenN l =
        N.of_nat (length (concat (ls0 ++ ls ++ [l]))))%N).
      { rewrite app_assoc, concat_snoc, (app_length _ l). unfold lenN. lia. }
      cbn [concat] in Hx, Hz. rewrite app_length in Hz.
      destruct (omax_val kd) as (O1 & O2 & O3). rewrite usize_max_val in *.
      unfold checked_add. rewrite usize_max_val.
      destruct (N.leb_spec (N.of_nat (length (concat (ls0 ++ ls))) + lenN l) 18446744073709551615)%N
        as [_|Hbad]; [|unfold lenN in *; lia].
      rewrite Hpos. unfold off_try_from.
      destruct (Z.leb_spec (Z.of_N (N.of_nat (length (concat (ls0 ++ ls ++ [l]))))) (omax kd))%Z
        as [Hz'|Hbad]; [|unfold lenN in *; lia].
      replace (Z.of_N (N.of_nat (length (concat (ls0 ++ ls ++ [l])))))
        with (Z.of_nat (length (concat (ls0 ++ ls ++ [l])))) by lia.
      rewrite <- app_assoc in Hx.
      destruct (lv_try_extend _ _ _ _ _ V _ (of_data o) (it_list l) w l _ tt T1 Hl (run_list l)
        (honest_list l) (or_introl eq_refl) Hx) as (d2 & u & w2 & Ex & _ & Hx2).
      rewrite Ex.
      pose proof (lw_try_extend _ _ L _ _ _ _ _ _ _ _ _ _ _ T1 Hl (run_list l) Ex)
        as (_ & _ & (Y1 & Y2 & Y3 & Y4)).
      rewrite lenN_cons in Hv.
      destruct (vec_try_extend_wok true (osz kd) (of_offs o)
        (it_list [Z.of_nat (length (concat (ls0 ++ ls ++ [l])))]) w2 _ tt T2 (run_list _)
        (honest_list _) (or_introl eq_refl)) as (v3 & u3 & w3 & Ev & _ & Hcap).
      { unfold vlim. rewrite lenN_cons, lenN_nil. lia. }
      rewrite Ev. specialize (Hcap eq_refl).
      pose proof (vec_try_extend_spec _ _ _ _ _ _ _ _ _ _ _ T2 (run_list _) Ev) as (V1 & _ & _ & _ & V4).
      assert (Ht' : tight K d kd (Offsets d2 v3) (ls0 ++ ls ++ [l])).
      { rewrite app_assoc in *. apply (tight_push K d kd) with (o := o); auto. lia. }
      apply (IH n' (Offsets d2 v3) (ls ++ [l]) w3 xs1 ys r1 Ht' Hwt Hr); cbn [of_data of_offs].
      + exact Hx2.
      + rewrite V4, Hcap, lenN_app, lenN_cons, lenN_nil. lia.
      + unfold lenN in Hpos. lia.
    - intros E Hx Hv _. injection E as <- _. exists o, (nd_src n'), w. split; [auto|]. split; [exact Hx|].
      rewrite lenN_nil in Hv. lia.
    - discriminate.
  Qed.
  (** The last offset *)
  Definition of_end (o : offsets (cC K)) : Z := last (v_items (of_offs o)) 0%Z.
  Lemma of_end_spec o ls : of_rep K d kd o ls -> of_end o = Z.of_nat (length (concat ls)).
  Proof.
    intros Ho. pose proof (of_last K d kd o ls Ho) as H. unfold of_end.
    destruct (v_items (of_offs o)) as [|z zs _] using rev_ind; [discriminate|].
    rewrite last_last. rewrite app_length in H. cbn [length] in H.
    replace (length zs + 1 - 1) with (length zs) in H by lia.
    rewrite nth_error_app2, Nat.sub_diag in H by lia. injection H as <-. reflexivity.
  Qed.
  Definition of_can (can : cC K -> list (cA K) -> Prop) (o : offsets (cC K))
    (xs : list (list (cA K))) : Prop :=
    can (of_data o) (concat xs) /\
    (lenN (v_items (of_offs o)) + lenN xs <= v_cap (of_offs o))%N /\
    (of_end o + Z.of_nat (length (concat xs)) <= omax kd)%Z.
  Definition of_rsv (rsv : cC K -> N -> list (cA K) -> Prop) (o : offsets (cC K)) (n : N)
    (xs : list (list (cA K))) : Prop :=
    (lenN xs <= n)%N /\ rsv (of_data o) n (concat xs) /\
    (of_end o + Z.of_nat (length (concat xs)) <= omax kd)%Z.
  Lemma of_try_extend_room {R} can rsv (V : Live K d true can rsv) o (it : iter (list (cA K)) R)
    w xs ys r :
    of_inv K d kd o -> Forall (Forall (l_wt d)) xs -> run it = (xs, FStop, r) ->
    of_can can o (xs ++ ys) ->
    exists o' r' w', of_try_extend K kd o it w = (o', r', ODone, w') /\ of_can can o' ys.
  Proof.
    intros [ls Ho] Hwt Hr (C1 & C2 & C3). rewrite (of_end_spec o ls Ho) in C3.
    destruct (of_try_extend K kd o it w) as [[[o' r'] out] w'] eqn:E0.
    pose proof (of_try_extend_spec K d L kd o ls it w xs FStop r o' r' out w' Ho Hwt Hr E0) as Hsp.
    assert (H : out = ODone /\ can (of_data o') (concat ys) /\
      (lenN (v_items (of_offs o')) + lenN ys <= v_cap (of_offs o'))%N).
    { revert E0. unfold of_try_extend.
      rewrite (of_len_spec K d kd o ls Ho), (of_last K d kd o ls Ho), (as_usize_nat kd).
      destruct (of_truncate_start K d L kd o ls Ho) as (d1 & Et & Ht & _). rewrite Et.
      rewrite concat_app in C1, C3. rewrite app_length in C3. rewrite lenN_app in C2.
      pose proof (lv_truncate _ _ _ _ _ V _ _ _ _ (proj1 Ho) C1 Et) as C1'.
      pose proof (of_try_extend_t_room can rsv V ls (lenN ys) (it_tr it) (it_node it)
        (Offsets d1 (of_offs o)) [] w xs (concat ys) r) as H.
      rewrite app_nil_r in H. cbn [of_offs of_data] in H.
      destruct (H Ht Hwt Hr C1') as (o1 & r1 & w1 & E & D1 & D2); [lia|lia|].
      rewrite E. intros E2. injection E2 as <- <- <- <-. auto. }
    destruct H as (-> & D1 & D2). destruct Hsp as (_ & _ & Ht & _).
    exists o', r', w'. split; [auto|]. split; [exact D1|]. split; [exact D2|].
    rewrite (of_end_spec o' (ls ++ xs) (tight_rep K d kd _ _ Ht)).
    rewrite concat_app, app_length in *. lia.
  Qed.
  Lemma offsets_live can rsv : Live K d true can rsv ->
    Live (offsets_coll K kd) (offsets_ld K d kd) true (of_can can) (of_rsv rsv).
  Proof.
    intros V. split; unfold offsets_coll, offsets_ld; law_cbn.
    - intros R o it w xs ys r Ho Hwt Hr _ _ Hx.
      destruct (of_try_extend_room can rsv V o it w xs ys r Ho Hwt Hr Hx) as (o' & r' & w' & E & Hy).
      exists o', r', w'. split; [exact E|]. split; [left; auto|exact Hy].
    - intros o n o' xs Ho (C1 & C2 & C3) E. pose proof Ho as [ls Hls].
      destruct (lw_truncate _ _ (offsets_laws K d L kd) o n Ho) as (o1 & E1 & I1 & _ & A1 & _).
      change (of_truncate K o n = (o1, ODone)) in E1. rewrite E in E1. injection E1 as <-.
      change (of_inv K d kd o') in I1. change (of_abs K d o' = firstn (N.to_nat n) (of_abs K d o)) in A1.
      rewrite (of_rep_abs K d kd o ls Hls) in A1.
      pose proof (of_inv_rep K d kd o' I1) as Hls'. rewrite A1 in Hls'.
      unfold of_can. rewrite (of_end_spec o' _ Hls'). rewrite (of_end_spec o ls Hls) in C3.
      pose proof (f_equal (@length _) (concat_firstn_skipn (N.to_nat n) ls)) as Hcl. rewrite app_length in Hcl.
      revert E. unfold of_truncate. rewrite (of_len_spec K d kd o ls Hls).
      destruct (n <? N.of_nat (length ls))%N.
      + destruct (vec_view (of_offs o) n) as [z|]; [|discriminate].
        destruct (as_usize z) as [dl|]; [|discriminate].
        destruct (k_truncate K (of_data o) dl) as [d1 e] eqn:Ek. intros E. injection E as <- ->.
        cbn [of_data of_offs]. pose proof Hls as (H1 & H2 & _).
        destruct (vec_truncate_spec (osz kd) (of_offs o) (n + 1) H2) as (V1 & V2 & V3).
        split; [exact (lv_truncate _ _ _ _ _ V _ _ _ _ H1 C1 Ek)|]. split; [|lia].
        rewrite V2, V3. unfold lenN in *. rewrite firstn_length. lia.
      + intros E. injection E as <-. split; [auto|]. split; [auto|lia].
    - intros Hm o n w o' w' xs [ls Ho] E (S1 & S2 & S3). unfold of_try_reserve in E.
      pose proof Ho as (H1 & H2 & _).
      destruct (k_try_reserve K (of_data o) n w) as [[d1 o1] w1] eqn:E1.
      destruct o1; try discriminate.
      destruct (vec_try_reserve (osz kd) (of_offs o) n w1) as [[v2 o2] w2] eqn:E2.
      injection E as <- -> <-.
      pose proof (vec_try_reserve_spec _ _ _ _ _ _ _ H2 E2) as (_ & Hi & _ & Hc).
      unfold of_can, of_end in *. cbn [of_data of_offs]. rewrite Hi.
      split; [exact (lv_reserve _ _ _ _ _ V eq_refl _ _ _ _ _ _ H1 E1 S2)|]. split; [lia|exact S3].
  Qed.
  Lemma offsets_liveG u : LiveG K d u -> LiveG (offsets_coll K kd) (offsets_ld K d kd) true.
  Proof.
    intros V. pose proof (offsets_laws K d L kd) as L'.
    pose proof (max_items_le (osz kd)) as Hml. rewrite alloc_max_val in Hml.
    pose proof (max_items_osz kd) as Hm.
    assert (Y : forall n w, grants w -> (n * (1 + l_cfac d) <= of_lim K d kd)%N ->
      exists v w', of_try_with_capacity K kd n w = (BOk v, w') /\ grants w').
    { intros n w Hw Hn. unfold of_try_with_capacity.
      assert (Hlim : (n * l_cfac d <= l_lim d)%N /\ (n + 1 <= max_items (osz kd))%N).
      { unfold of_lim in Hn. nia. }
      unfold checked_add. rewrite usize_max_val.
      destruct (N.leb_spec (n + 1) 18446744073709551615)%N as [_|Hbad]; [|lia].
      destruct (lg_with_capacity _ _ _ V n w Hw) as (c & w1 & -> & Hw1); [lia|].
      destruct (@vec_try_with_capacity_live Z (osz kd) (n + 1) w1 Hw1) as (v & w2 & E2 & Hw2); [lia|].
      rewrite E2. apply vec_try_with_capacity_spec in E2. destruct E2 as (V1 & V2 & V3).
      destruct (vec_try_extend_wok false (osz kd) v (it_list [0%Z]) w2 _ tt V1 (run_list _)
        (honest_list _) (or_intror Hw2)) as (v3 & u3 & w3 & Ev & Hw3 & _).
      { unfold vlim. rewrite V2. unfold lenN. cbn [length]. lia. }
      rewrite Ev. destruct Hw3 as [Hw3|Hw3]; [discriminate|]. eauto. }
    assert (X : Live (offsets_coll K kd) (offsets_ld K d kd) false (fits (offsets_ld K d kd)) no_rsv).
    { apply live_grants; [exact L'|]. unfold fits, offsets_coll, offsets_ld; law_cbn.
      intros R o it w xs r Ho Hwt Hr Hh Hw Hf.
      exact (of_try_extend_live (lg_live _ _ _ V) o it w xs r Ho Hwt Hr Hw Hf). }
    assert (Z : forall R (it : iter (list (cA K)) R) w (xs : list (list (cA K))) r,
      Forall (Forall (l_wt d)) xs -> run it = (xs, FStop, r) -> honest it -> grants w ->
      (sumw (of_wgt K d) xs <= of_lim K d kd)%N ->
      (upper_or_lower (it_hint it) * (1 + l_cfac d) <= of_lim K d kd)%N ->
      exists c r' w', of_try_from_iter K kd it w = (BOk c, r', w') /\ grants w').
    { intros R it w xs r Hwt Hr Hh Hw Hs Hu. unfold of_try_from_iter.
      destruct (Y (upper_or_lower (it_hint it)) w Hw Hu) as (v & w1 & E1 & Hw1). rewrite E1.
      pose proof (lw_try_with_capacity _ _ L' _ _ _ _ E1) as (F1 & _ & _ & F4).
      destruct (of_try_extend_live (lg_live _ _ _ V) v it w1 xs r F1 Hwt Hr Hw1)
        as (v' & r' & w2 & E2 & Hw2).
      { change (of_usage K d v <= 0)%N in F4. lia. }
      rewrite E2. cbn [bres_of]. eauto. }
    split; [exact X|exact Y| |].
    - unfold offsets_coll, offsets_ld; law_cbn. intros o n w [ls Ho] Hw Hn. unfold of_try_reserve.
      rewrite (of_rep_usage K d kd o ls Ho) in Hn. unfold usg, of_lim in Hn.
      pose proof Ho as (H1 & H2 & H3 & _).
      destruct (lg_reserve _ _ _ V (of_data o) n w H1 Hw) as (c1 & w1 & -> & Hw1); [lia|].
      destruct (vec_try_reserve_live (osz kd) (of_offs o) n w1) as (v2 & w2 & -> & Hw2 & _); [|eauto].
      left. split; [auto|]. rewrite H3, lenN_cons. unfold lenN in *. rewrite ends_length. lia.
    - intros R it w xs r _ Hwt Hr Hh Hw Hs [Hu|Hu]; [discriminate|].
      exact (Z R it w xs r Hwt Hr Hh Hw Hs Hu).
  Qed.
End Offsets.
