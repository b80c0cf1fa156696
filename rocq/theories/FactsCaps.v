(** * Proofs of C61 *)
From Coq Require Import List NArith ZArith Bool Arith Lia ZifyBool ZifyNat ZifyN.
From Verif Require Import Base Iter Spec VecModel BitmapModel CollModel ValidityModel FlattenModel
  OffsetsModel LayoutModel IterLemmas VecLemmas BitmapLemmas HonestLemmas Laws Reach SpecFixed
  SpecLive LiveLaws FactsLive SpecLived FactsLived WeakLaws WeakLive FactsRoom ReachLemmas SpecCaps MemoryLaws.
Import ListNotations.

Local Arguments N.add : simpl never.
Local Arguments N.mul : simpl never.
Local Arguments max_items : simpl never.
Local Arguments chunk : simpl never.
Local Opaque chunk.

(** ** Room that was reserved is used without requests *)
Lemma shape_same s : no_lists s -> Same (coll s).
Proof.
  induction s as [p| |s IH|n s IH|k s IH|A a0 z]; cbn [no_lists coll]; intros H.
  - apply vec_same.
  - apply bitmap_same.
  - exact (validity_same _ _ _ _ (shape_asks s) (IH H)).
  - exact (flatten_same _ n (IH H)).
  - destruct H.
  - apply vec_same.
Qed.

Lemma reserved_can s : widths_pos s -> forall c xs n w c1 w1,
  lived s c -> reads s c xs -> k_try_reserve (coll s) c n w = (c1, ODone, w1) ->
  lived s c1 /\ reads s c1 xs /\ forall ys, covered s c n ys -> shape_can s c1 ys.
Proof.
  intros Hw c xs n w c1 w1 Hc Hx E. pose proof (lived_inv s c Hc Hw) as H.
  assert (Es : step (coll s) c (OpTryReserve n w) = (c1, ODone)) by (cbn [step]; rewrite E; reflexivity).
  split; [|split].
  - apply (lived_step s c (OpTryReserve n w) c1 ODone Hc); [constructor|exact Es|discriminate].
  - destruct (lived_steps s Hw c xs (OpTryReserve n w) c1 ODone Hc Hx) as (ys & R1 & R2);
      [constructor|exact Es|]. cbn [like_step] in R2. subst ys. exact R1.
  - intros ys Hy. exact (wl_reserve _ _ _ _ _ (shape_wlive s Hw) _ _ _ _ _ _ H E Hy).
Qed.
Lemma can_quiet s : widths_pos s -> forall c xs R (it : iter (cA (coll s)) R),
  lived s c -> reads s c xs -> good s it -> shape_can s c (items_of it) ->
  exists c2 r zs,
    (forall w, k_try_extend (coll s) c it w = (c2, r, ODone, w)) /\
    (no_lists s -> k_extend (coll s) c it = (c2, r, ODone)) /\
    memory s c2 = memory s c /\ reads s c2 (xs ++ zs) /\ Forall2 (like s) (items_of it) zs.
Proof.
  intros Hw c xs R it Hc Hx Hg Hcan.
  destruct (lived_can s Hw R c xs it [None] [] Hc Hx Hg) as (c2 & r & w' & zs & E & _ & R2 & Z & _);
    [rewrite app_nil_r; exact Hcan|].
  destruct (as_blind _ _ _ _ (shape_asks s) _ _ _ _ _ _ _ E) as [M B].
  exists c2, r, zs. split; [exact B|]. split; [|split; [exact M|]; split; [exact R2|exact Z]].
  intros Hn. exact (shape_same s Hn _ _ _ _ _ _ _ E).
Qed.
Theorem reserved_quiet : forall s, widths_pos s -> no_lists s -> forall c xs n w c1 w1,
  lived s c -> reads s c xs -> k_try_reserve (coll s) c n w = (c1, ODone, w1) ->
  forall R (it : iter (cA (coll s)) R), good s it -> (lenN (items_of it) <= n)%N ->
  exists c2 r zs,
    (forall w2, k_try_extend (coll s) c1 it w2 = (c2, r, ODone, w2)) /\
    k_extend (coll s) c1 it = (c2, r, ODone) /\
    memory s c2 = memory s c1 /\ reads s c2 (xs ++ zs) /\ Forall2 (like s) (items_of it) zs.
Proof.
  intros s Hw Hn c xs n w c1 w1 Hc Hx E R it Hg Hl.
  destruct (reserved_can s Hw c xs n w c1 w1 Hc Hx E) as (H1 & H2 & H3).
  destruct (can_quiet s Hw c1 xs R it H1 H2 Hg) as (c2 & r & zs & B & X & G).
  { apply H3. apply no_lists_covered; auto. apply Hg. }
  exists c2, r, zs. split; [exact B|]. split; [exact (X Hn)|exact G].
Qed.
Theorem reserved_quiet_lists : forall s, widths_pos s -> forall c xs n w c1 w1,
  lived s c -> reads s c xs -> k_try_reserve (coll s) c n w = (c1, ODone, w1) ->
  forall R (it : iter (cA (coll s)) R), good s it -> covered s c n (items_of it) ->
  exists c2 r zs,
    (forall w2, k_try_extend (coll s) c1 it w2 = (c2, r, ODone, w2)) /\
    memory s c2 = memory s c1 /\ reads s c2 (xs ++ zs) /\ Forall2 (like s) (items_of it) zs.
Proof.
  intros s Hw c xs n w c1 w1 Hc Hx E R it Hg Hl.
  destruct (reserved_can s Hw c xs n w c1 w1 Hc Hx E) as (H1 & H2 & H3).
  destruct (can_quiet s Hw c1 xs R it H1 H2 Hg (H3 _ Hl)) as (c2 & r & zs & B & _ & G).
  exists c2, r, zs. split; [exact B|exact G].
Qed.

(** ** An infallible reservation is a fallible one that is granted enough *)
Definition Granted (K : Coll) : Prop := forall c n c1, k_reserve K c n = (c1, ODone) ->
  exists w, forall w2, k_try_reserve K c n (w ++ w2) = (c1, ODone, w2).
Lemma vec_granted A esz (v : vec A) n v1 : vec_reserve esz v n = (v1, ODone) ->
  exists w, forall w2, vec_try_reserve esz v n (w ++ w2) = (v1, ODone, w2).
Proof.
  unfold vec_reserve, vec_try_reserve.
  destruct (n <=? v_cap v - lenN (v_items v))%N; [intros E; injection E as <-; exists []; reflexivity|].
  destruct (cap_limit esz <? lenN (v_items v) + n)%N; [discriminate|].
  destruct (max_items esz <? lenN (v_items v) + n)%N eqn:Em; [discriminate|].
  intros E. injection E as <-.
  exists [Some (amortized esz (v_cap v) (lenN (v_items v) + n) - (lenN (v_items v) + n))%N].
  intros w2. cbn [app]. do 3 f_equal. unfold amortized. lia.
Qed.
Lemma bm_granted b n b1 : bm_reserve b n = (b1, ODone) ->
  exists w, forall w2, bm_try_reserve b n (w ++ w2) = (b1, ODone, w2).
Proof.
  unfold bm_reserve, bm_try_reserve.
  destruct (N.of_nat (bm_trailing_bits b) <=? n)%N; [|intros E; injection E as <-; exists []; reflexivity].
  destruct (vec_reserve u8sz (bm_buf b) _) as [v o] eqn:E1. intros E. injection E as <- ->.
  destruct (vec_granted _ _ _ _ _ E1) as [w Hw]. exists w. intros w2. rewrite Hw. reflexivity.
Qed.

Lemma all_set_granted n b : bm_all_set n = BOk b ->
  exists w, forall w2, bm_try_all_set n (w ++ w2) = (BOk b, w2).
Proof.
  unfold bm_all_set, bm_try_all_set. set (l := all_set_bytes n).
  destruct (vec_from_iter u8sz (it_list l)) as [res r] eqn:E. cbn [fst].
  pose proof (vec_from_iter_spec _ _ _ _ _ _ _ (run_list l) E) as H.
  destruct res as [v| | |]; cbn [bmap]; try discriminate. intros G. injection G as <-.
  destruct H as (Hv & _ & _ & Hi). unfold vec_ok in Hv. rewrite Hi in Hv.
  assert (Hc : l = [] -> v_cap v = 0%N).
  { intros ->. vm_compute in E. injection E as <- _. reflexivity. }
  assert (T : forall w w2, @vec_try_with_capacity N u8sz (lenN l) w = (BOk (Vec [] (v_cap v)), w2) ->
    vec_try_from_iter u8sz (it_list l) w = (BOk v, tt, w2)).
  { intros w w2 T. unfold vec_try_from_iter. destruct (list_items l) as (I1 & I2 & I3). rewrite I3, T.
    destruct (vec_collect_room u8sz _ _ (Vec [] (v_cap v)) _ _ _ (run_list l)) as (res & r' & C1 & C2).
    { cbn [v_items v_cap]. rewrite lenN_nil. lia. }
    rewrite C1, (C2 eq_refl). cbn [v_items v_cap app]. destruct v as [li c]. cbn [v_items v_cap] in *.
    subst li. f_equal. f_equal. destruct r'; reflexivity. }
  destruct l as [|a l'] eqn:El.
  - exists []. intros w2. cbn [app]. rewrite (T w2 w2); [reflexivity|].
    rewrite Hc by reflexivity. reflexivity.
  - exists [Some (v_cap v - lenN (a :: l'))%N]. intros w2. cbn [app]. rewrite (T _ w2); [reflexivity|].
    unfold vec_try_with_capacity, vec_try_reserve, vec_new. cbn [v_items v_cap].
    rewrite lenN_cons in Hv |- *. rewrite (@lenN_nil N).
    destruct (1 + lenN l' <=? 0 - 0)%N eqn:E1; [lia|].
    destruct (max_items u8sz <? 0 + (1 + lenN l'))%N eqn:E2; [lia|].
    do 3 f_equal. lia.
Qed.
Lemma validity_granted K : Granted K -> Granted (validity_coll K).
Proof.
  intros H v n v1. change (validity (cC K)) in v, v1.
  change (va_reserve K v n = (v1, ODone) ->
    exists w, forall w2, va_try_reserve K v n (w ++ w2) = (v1, ODone, w2)).
  unfold va_reserve, va_try_reserve.
  destruct (va_materialize K v) as [va o1] eqn:E1. destruct o1; try discriminate.
  assert (G1 : exists w, forall w2, va_try_materialize K v (w ++ w2) = (va, ODone, w2)).
  { unfold va_materialize, va_try_materialize in *. destruct (va_bm v) as [b|].
    { injection E1 as <-. exists []. reflexivity. }
    destruct (k_len K (va_coll v)) as [len|]; [|discriminate].
    destruct (bm_all_set len) as [b| | |] eqn:Eb; try discriminate. injection E1 as <-.
    destruct (all_set_granted _ _ Eb) as [w Hw]. exists w. intros w2. rewrite Hw. reflexivity. }
  destruct (va_bm va) as [b|] eqn:Eb; [|discriminate].
  destruct (bm_reserve b n) as [b2 o2] eqn:E2. destruct o2; try discriminate.
  destruct (k_reserve K (va_coll va) n) as [c3 o3] eqn:E3. intros E. injection E as <- ->.
  destruct G1 as [wa Ha]. destruct (bm_granted _ _ _ E2) as [wb Hb]. destruct (H _ _ _ E3) as [wc Hc].
  exists (wa ++ wc ++ wb). intros w2. rewrite <- !app_assoc, Ha, Eb, Hc, Hb. reflexivity.
Qed.
Lemma shape_granted s : Granted (coll s).
Proof.
  induction s as [p| |s IH|n s IH|k s IH|A a0 z]; cbn [coll].
  - intros v n v1. apply vec_granted.
  - intros b n b1. apply bm_granted.
  - exact (validity_granted _ IH).
  - intros c m c1. change (fl_reserve (coll s) n c m = (c1, ODone) ->
      exists w, forall w2, fl_try_reserve (coll s) n c m (w ++ w2) = (c1, ODone, w2)).
    unfold fl_reserve, fl_try_reserve, strict_mul, checked_mul.
    destruct (m * N.of_nat n <=? usize_max)%N; [apply IH|discriminate].
  - intros o n o1. change (offsets (cC (coll s))) in o, o1.
    change (of_reserve (coll s) k o n = (o1, ODone) ->
      exists w, forall w2, of_try_reserve (coll s) k o n (w ++ w2) = (o1, ODone, w2)).
    unfold of_reserve, of_try_reserve.
    destruct (k_reserve (coll s) (of_data o) n) as [d1 e1] eqn:E1. destruct e1; try discriminate.
    destruct (vec_reserve (osz k) (of_offs o) n) as [v2 e2] eqn:E2. intros E. injection E as <- ->.
    destruct (IH _ _ _ E1) as [wa Ha]. destruct (vec_granted _ _ _ _ _ E2) as [wb Hb].
    exists (wa ++ wb). intros w2. rewrite <- app_assoc, Ha, Hb. reflexivity.
  - intros v n v1. apply vec_granted.
Qed.
Theorem reserve_granted : forall s c n c1, k_reserve (coll s) c n = (c1, ODone) ->
  exists w, k_try_reserve (coll s) c n w = (c1, ODone, []).
Proof.
  intros s c n c1 E. destruct (shape_granted s c n c1 E) as [w H]. exists w.
  specialize (H []). rewrite app_nil_r in H. exact H.
Qed.

(** ** Collecting asks once per buffer *)
Lemma default_len s : widths_pos s -> no_lists s -> k_len (coll s) (k_default (coll s)) = Ret 0.
Proof.
  induction s as [p| |s IH|n s IH|k s IH|A a0 z]; cbn [widths_pos no_lists]; intros Hw Hn;
    try reflexivity; try contradiction.
  - change (va_len (coll s) (Validity (k_default (coll s)) None) = Ret 0). unfold va_len.
    cbn [va_bm va_coll]. exact (IH Hw Hn).
  - change (fl_len (coll s) n (k_default (coll s)) = Ret 0). unfold fl_len.
    rewrite (IH (proj2 Hw) Hn). cbn [obind]. destruct n as [|n]; [lia|]. rewrite Nat.div_0_l by lia. reflexivity.
Qed.
Lemma fresh_reserved s : widths_pos s -> no_lists s -> forall n w c w',
  k_try_with_capacity (coll s) n w = (BOk c, w') ->
  k_try_reserve (coll s) (k_default (coll s)) n w = (c, ODone, w').
Proof.
  assert (V : forall A esz n w (c : vec A) w', vec_try_with_capacity esz n w = (BOk c, w') ->
    vec_try_reserve esz vec_new n w = (c, ODone, w')).
  { intros A esz n w c w'. unfold vec_try_with_capacity.
    destruct (vec_try_reserve esz vec_new n w) as [[v o] w1]. destruct o; try discriminate.
    intros E. injection E as <- <-. reflexivity. }
  assert (B : forall n w b w', bm_try_with_capacity n w = (BOk b, w') ->
    bm_try_reserve (Bitmap (Vec [] 0) 0 0) n w = (b, ODone, w')).
  { intros n w b w'. unfold bm_try_with_capacity, bm_try_reserve.
    change (bm_trailing_bits (Bitmap (Vec [] 0) 0 0)) with 0.
    change (N.of_nat 0) with 0%N. rewrite N.sub_0_r. cbn [bm_buf bm_bits bm_off].
    destruct (0 <=? n)%N eqn:E0; [|lia].
    destruct (vec_try_with_capacity u8sz (bytes_for_bits n) w) as [r w1] eqn:E1.
    destruct r as [v| | |]; cbn [bmap]; try discriminate. intros E. injection E as <- <-.
    apply V in E1. unfold vec_new in E1. rewrite E1. reflexivity. }
  induction s as [p| |s IH|m s IH|k s IH|A a0 z]; cbn [widths_pos no_lists coll]; intros Hw Hn n w c w'.
  - apply V.
  - apply B.
  - change (validity (cC (coll s))) in c.
    change (va_try_with_capacity (coll s) n w = (BOk c, w') ->
      va_try_reserve (coll s) (Validity (k_default (coll s)) None) n w = (c, ODone, w')).
    unfold va_try_with_capacity, va_try_reserve, va_try_materialize. cbn [va_bm va_coll].
    rewrite (default_len s Hw Hn).
    change (bm_try_all_set 0 w) with (BOk (Bitmap (Vec [] 0) 0 0), w). cbv iota beta. cbn [va_bm va_coll].
    destruct (k_try_with_capacity (coll s) n w) as [r1 w1] eqn:E1. destruct r1 as [c1| | |]; try discriminate.
    rewrite (IH Hw Hn _ _ _ _ E1).
    destruct (bm_try_with_capacity n w1) as [r2 w2] eqn:E2. destruct r2 as [b| | |]; try discriminate.
    cbn [bmap]. intros E. injection E as <- <-. rewrite (B _ _ _ _ E2). reflexivity.
  - change (fl_try_with_capacity (coll s) m n w = (BOk c, w') ->
      fl_try_reserve (coll s) m (k_default (coll s)) n w = (c, ODone, w')).
    unfold fl_try_with_capacity, fl_try_reserve. destruct (checked_mul n (N.of_nat m)); [|discriminate].
    apply IH; [apply Hw|exact Hn].
  - destruct Hn.
  - apply V.
Qed.
Lemma unit_cost_pos s : widths_pos s -> (1 <= unit_cost s)%N.
Proof.
  induction s as [p| |s IH|n s IH|k s IH|A a0 z]; cbn [widths_pos unit_cost]; intros H; try lia.
  destruct H as [H1 H2]. specialize (IH H2). nia.
Qed.
Lemma bytes_for_lenN n : bytes_for_bits (N.of_nat n) = N.of_nat ((n + 7) / 8).
Proof.
  unfold bytes_for_bits. rewrite Nat2N.inj_div, Nat2N.inj_add. reflexivity.
Qed.
Theorem collected_asks : forall s, widths_pos s -> no_lists s ->
  forall R (it : iter (cA (coll s)) R) w res r w',
  good s it -> exact it -> fused it -> (lenN (items_of it) * unit_cost s <= usize_max)%N ->
  k_try_from_iter (coll s) it w = (res, r, w') -> spent w w' (err_of res) (buffers s).
Proof.
  induction s as [p| |s IH|n s IH|k s IH|A a0 z]; cbn [widths_pos no_lists]; intros Hw Hn R it w res r w'
    Hg Hx Hf Hl.
  - apply vec_try_from_iter_asks; [rewrite Hx; apply N.le_refl|apply Hg].
  - change (iter bool R) in it.
    change (bm_try_from_iter it w = (res, r, w') -> spent w w' (err_of res) 1).
    unfold bm_try_from_iter.
    destruct (vec_try_from_iter u8sz (it_packed (it_inspect count_item 0 it)) w) as [[res1 [r1 bits]] w1] eqn:E1.
    intros E. injection E as <- _ <-.
    enough (S1 : spent w w1 (err_of res1) 1) by (destruct res1; exact S1).
    destruct (run_parts it) as [r0 Hr].
    assert (Hx' : it_hint it = (lenN (items_of it), Some (lenN (items_of it)))) by exact Hx.
    pose proof (proj1 Hg) as Hfin. change (fin_of it = FStop) in Hfin. rewrite Hfin in Hr.
    assert (Hri : run (it_inspect count_item 0 it) = (items_of it, FStop, (r0, length (items_of it)))).
    { apply run_inspect; [exact Hr|]. rewrite insp_count. reflexivity. }
    destruct (run_packed _ _ _ _ Hri (fused_inspect _ _ _ Hf)) as (ys & rr & Hp & _ & _ & Hy).
    refine (vec_try_from_iter_asks _ _ _ _ _ _ _ _ E1).
    + unfold items_of at 1. rewrite Hp. cbn [fst].
      change (it_hint (it_packed (it_inspect count_item 0 it))) with (nd_hint (packed_node (Node (it_hint it) (it_src it, 0)))).
      unfold packed_node. cbn [nd_hint]. rewrite Hx'. cbn [fst nd_hint]. unfold lenN at 2. rewrite bytes_for_lenN.
      unfold lenN. zify. lia.
    + unfold fin_of. rewrite Hp. reflexivity.
  - change (iter (option (cA (coll s))) R) in it. change (bres (validity (cC (coll s)))) in res.
    change (va_try_from_iter (coll s) it w = (res, r, w') -> spent w w' (err_of res) (buffers s + 1)).
    assert (Hx' : it_hint it = (lenN (items_of it), Some (lenN (items_of it)))) by exact Hx.
    unfold va_try_from_iter. rewrite Hx'. unfold upper_or_lower. cbn [fst snd unwrap_or].
    destruct (va_try_with_capacity (coll s) (lenN (items_of it)) w) as [r1 w1] eqn:E1.
    pose proof (as_with_capacity _ _ _ _ (shape_asks (SNull s)) _ _ _ _ E1) as S1. cbn [buffers] in S1.
    destruct r1 as [c| | |]; try (intros E; injection E as <- _ <-; exact S1).
    assert (W : widths_pos (SNull s)) by exact Hw. assert (Nl : no_lists (SNull s)) by exact Hn.
    pose proof (fresh_reserved (SNull s) W Nl _ _ _ _ E1) as E2.
    pose proof (lived_built _ _ (built_default (SNull s))) as Hd.
    destruct (reserved_quiet (SNull s) W Nl _ _ _ _ _ _ Hd (inv_reads _ W _ (lived_inv _ _ Hd W)) E2 R it Hg)
      as (c2 & r2 & zs & Q & _); [apply N.le_refl|].
    destruct (va_try_extend (coll s) c it w1) as [[[v3 r3] o3] w3] eqn:E3.
    assert (Q1 : (v3, r3, o3, w3) = (c2, r2, ODone, w1)) by (rewrite <- E3; exact (Q w1)).
    injection Q1 as -> -> -> ->. intros E. injection E as <- _ <-. exact S1.
  - change (iter (list (cA (coll s))) R) in it.
    change (k_try_from_iter (coll s) (it_flatten (N.of_nat n) it) w = (res, r, w') ->
      spent w w' (err_of res) (buffers s)).
    destruct (run_parts it) as [r0 Hr].
    assert (Hx' : it_hint it = (lenN (items_of it), Some (lenN (items_of it)))) by exact Hx.
    pose proof (proj1 Hg) as Hfin. change (fin_of it = FStop) in Hfin. rewrite Hfin in Hr.
    pose proof (run_flatten (N.of_nat n) it _ _ _ Hr) as Hrf.
    destruct Hg as (_ & Hh & Hi). unfold item_ok in Hi. cbn [coll] in Hi.
    assert (Hrows : Forall (fun x => lenN x = N.of_nat n) (items_of it)).
    { revert Hi. apply Forall_impl. intros x [H _].
      unfold lenN. rewrite H. reflexivity. }
    assert (Hlen : lenN (concat (items_of it)) = (lenN (items_of it) * N.of_nat n)%N).
    { clear - Hrows. induction Hrows as [|x xs E _ IH]; [reflexivity|]. cbn [concat].
      rewrite lenN_app, lenN_cons, IH, E. lia. }
    assert (Hit : items_of (it_flatten (N.of_nat n) it) = concat (items_of it)).
    { unfold items_of at 1. rewrite Hrf. reflexivity. }
    change (lenN (items_of it) * (N.of_nat n * unit_cost s) <= usize_max)%N in Hl.
    rewrite N.mul_assoc in Hl.
    apply IH; [apply Hw|exact Hn| | | |].
    + split; [unfold fin_of; rewrite Hrf; reflexivity|]. split; [apply honest_flatten; assumption|].
      rewrite Hit. apply Forall_concat. revert Hi. apply Forall_impl. intros x [_ H]. exact H.
    + unfold exact. rewrite Hit, Hlen.
      change (it_hint (it_flatten (N.of_nat n) it)) with (flat_hint (N.of_nat n) 0 (it_hint it)).
      unfold flat_hint. rewrite Hx'. cbn [fst snd].
      assert (Hu : (lenN (items_of it) * N.of_nat n <= usize_max)%N) 
        by (pose proof (unit_cost_pos s (proj2 Hw)); nia).
      unfold sat_add, sat_mul, checked_mul, checked_add.
      replace (N.of_nat n * lenN (items_of it))%N with (lenN (items_of it) * N.of_nat n)%N by lia.
      apply N.leb_le in Hu. rewrite Hu. rewrite N.add_0_l, Hu. apply N.leb_le in Hu.
      f_equal. lia.
    + apply fused_cut, cut_flatten.
    + rewrite Hit, Hlen. exact Hl.
  - destruct Hn.
  - apply vec_try_from_iter_asks; [rewrite Hx; apply N.le_refl|apply Hg].
Qed.

(** ** Buffers over histories *)
Theorem step_memory : forall s c p c' o, step (coll s) c p = (c', o) ->
  Forall2 as_large (memory s c) (memory s c') /\
  match p with
  | OpExtend _ | OpReserve _ => Forall2 doubled (memory s c) (memory s c')
  | OpTruncate _ => memory s c' = memory s c
  | _ => True
  end.
Proof.
  intros s c p c' o. pose proof (shape_asks s) as L. destruct p as [it|it w|n|n w|n]; cbn [step].
  - destruct (k_extend (coll s) c it) as [[c1 r] o1] eqn:E. intros G. injection G as <- _.
    pose proof (as_extend _ _ _ _ L _ _ _ _ _ _ E) as D. split; [exact (dbl_lrg _ _ D)|exact D].
  - destruct (k_try_extend (coll s) c it w) as [[[c1 r] o1] w1] eqn:E. intros G. injection G as <- _.
    split; [|exact I]. exact (proj1 (as_try_extend _ _ _ _ L _ _ _ _ _ _ _ _ E)).
  - intros E. pose proof (as_reserve _ _ _ _ L _ _ _ _ E) as D. split; [exact (dbl_lrg _ _ D)|exact D].
  - destruct (k_try_reserve (coll s) c n w) as [[c1 o1] w1] eqn:E. intros G. injection G as <- _.
    split; [|exact I]. exact (proj1 (as_try_reserve _ _ _ _ L _ _ _ _ _ _ E)).
  - intros E. pose proof (as_truncate _ _ _ _ L _ _ _ _ E) as D. split; [|exact D].
    rewrite D. apply lrg_refl.
Qed.
Theorem history_memory : forall s ps c c' os, exec (coll s) c ps = (c', os) ->
  Forall2 as_large (memory s c) (memory s c').
Proof.
  intros s. induction ps as [|p ps IH]; intros c c' os; cbn [exec].
  - intros E. injection E as <- _. apply lrg_refl.
  - destruct (step (coll s) c p) as [c1 o] eqn:E1. destruct (exec (coll s) c1 ps) as [c2 os2] eqn:E2.
    intros E. injection E as <- _. exact (lrg_trans _ _ _ (proj1 (step_memory s c p c1 o E1)) (IH _ _ _ E2)).
Qed.

(** The number of times a buffer moves. *)
Fixpoint chain (e c : N) (cs : list N) : Prop :=
  match cs with
  | [] => True
  | c' :: cs' => doubled (e, c) (e, c') /\ chain e c' cs'
  end.
Lemma moves_bound e m : forall cs c, (c <= m)%N -> (forall c', In c' cs -> (c' <= m)%N) -> chain e c cs ->
  moves c cs <= (if (c =? 0)%N then N.to_nat (N.log2 m) + 2
    else N.to_nat (N.log2 m) - N.to_nat (N.log2 c) + (if (c <? max_items e)%N then 1 else 0)).
Proof.
  induction cs as [|c' cs IH]; intros c Hc Hi; cbn [moves chain]; [intros; lia|].
  intros [[_ D] C]. cbn [fst snd] in D.
  assert (Hc' : (c' <= m)%N) by (apply Hi; left; reflexivity).
  specialize (IH c' Hc' (fun x H => Hi x (or_intror H)) C).
  destruct (c' =? c)%N eqn:Ec.
  { assert (c' = c) by lia. subst c'. exact IH. }
  assert (Hlt : (c < c')%N) by lia. destruct (c' =? 0)%N eqn:E2; [lia|].
  assert (Hm : (N.log2 c' <= N.log2 m)%N) by (apply N.log2_le_mono; lia).
  destruct (c =? 0)%N eqn:E3; [destruct (c' <? max_items e)%N; lia|].
  destruct D as [D|[D|[D1 D2]]]; [lia| |].
  - assert (Hl : (N.log2 (2 * c) <= N.log2 c')%N) by (apply N.log2_le_mono; lia).
    rewrite N.log2_double in Hl by lia.
    destruct (c <? max_items e)%N eqn:E4; destruct (c' <? max_items e)%N eqn:E5; lia.
  - assert (Hl : (N.log2 c <= N.log2 c')%N) by (apply N.log2_le_mono; lia).
    destruct (c <? max_items e)%N eqn:E4; destruct (c' <? max_items e)%N eqn:E5; lia.
Qed.
Lemma nth_rel (P : N * N -> N * N -> Prop) d : P d d -> forall l l', Forall2 P l l' ->
  forall i, P (nth i l d) (nth i l' d).
Proof.
  intros Hd l l' H. induction H as [|x y l l' Hx _ IH]; intros [|i]; cbn [nth]; auto.
Qed.
Lemma capacity_grows s c c' i : Forall2 as_large (memory s c) (memory s c') ->
  (capacity s i c <= capacity s i c')%N.
Proof.
  intros H. exact (proj2 (nth_rel as_large (1, 0)%N (as_large_refl _) _ _ H i)).
Qed.
Lemma exec_states K : forall ps c c' os, exec K c ps = (c', os) -> c' = last (states K c ps) c.
Proof.
  induction ps as [|p ps IH]; intros c c' os; cbn [exec states].
  - intros E. injection E as <- _. reflexivity.
  - destruct (step K c p) as [c1 o] eqn:E1. destruct (exec K c1 ps) as [c2 os2] eqn:E2. cbn [fst].
    intros E. injection E as <- _. rewrite (IH _ _ _ E2). destruct (states K c1 ps) as [|x l]; [reflexivity|].
    change (last (x :: l) c1 = last (x :: l) c). clear. revert x. induction l as [|y l IH]; intros x; [reflexivity|].
    exact (IH y).
Qed.
Lemma states_below s i : forall ps c c' os, exec (coll s) c ps = (c', os) ->
  forall x, In x (states (coll s) c ps) -> (capacity s i x <= capacity s i c')%N.
Proof.
  induction ps as [|p ps IH]; intros c c' os; cbn [exec states]; [intros _ x []|].
  destruct (step (coll s) c p) as [c1 o] eqn:E1. destruct (exec (coll s) c1 ps) as [c2 os2] eqn:E2. cbn [fst].
  intros E x. injection E as <- _. intros [<-|Hx]; [|exact (IH _ _ _ E2 x Hx)].
  apply capacity_grows. exact (history_memory s ps c1 c2 os2 E2).
Qed.
Theorem history_moves : forall s i ps c c' os, Forall infallible ps -> exec (coll s) c ps = (c', os) ->
  moves (capacity s i c) (map (capacity s i) (states (coll s) c ps)) <= N.to_nat (N.log2 (capacity s i c')) + 2.
Proof.
  intros s i ps c c' os Hp E.
  pose proof (moves_bound (fst (nth i (memory s c) (1, 0)%N)) (capacity s i c')
    (map (capacity s i) (states (coll s) c ps)) (capacity s i c)) as B.
  assert (H1 : (capacity s i c <= capacity s i c')%N) by (apply capacity_grows; exact (history_memory s ps c c' os E)).
  assert (H2 : forall x, In x (map (capacity s i) (states (coll s) c ps)) -> (x <= capacity s i c')%N).
  { intros x Hx. apply in_map_iff in Hx. destruct Hx as (y & <- & Hy). exact (states_below s i ps c c' os E y Hy). }
  specialize (B H1 H2).
  assert (H3 : chain (fst (nth i (memory s c) (1, 0)%N)) (capacity s i c) (map (capacity s i) (states (coll s) c ps))).
  { clear - Hp. revert c. induction Hp as [|p ps Hp _ IH]; intros c; cbn [states map chain]; [exact I|].
    destruct (step (coll s) c p) as [c1 o] eqn:E1. cbn [fst].
    destruct (step_memory s c p c1 o E1) as [_ D].
    assert (D2 : Forall2 doubled (memory s c) (memory s c1)).
    { destruct p; try contradiction; try exact D. rewrite D. apply dbl_refl. }
    pose proof (nth_rel doubled (1, 0)%N (doubled_refl _) _ _ D2 i) as [F1 F2].
    split; [split; [reflexivity|exact F2]|]. rewrite F1. exact (IH c1). }
  specialize (B H3). destruct (capacity s i c =? 0)%N; [exact B|].
  destruct (capacity s i c <? _)%N; lia.
Qed.

(** ** Refusals *)
Theorem reserve_asks : forall s c n w c' o w', k_try_reserve (coll s) c n w = (c', o, w') ->
  exists answers, w = answers ++ w' /\ length answers <= buffers s + implicit s c /\
    (all_granted answers \/ last_refused answers /\ o <> ODone).
Proof.
  intros s c n w c' o w' E.
  destruct (as_try_reserve _ _ _ _ (shape_asks s) _ _ _ _ _ _ E) as [_ (a & H1 & H2 & H3)].
  exists a. split; [exact H1|]. split; [exact H2|]. destruct H3 as [H3|[H3 H4]]; auto.
Qed.
Theorem with_capacity_asks : forall s n w res w', k_try_with_capacity (coll s) n w = (res, w') ->
  exists answers, w = answers ++ w' /\ length answers <= buffers s /\
    (all_granted answers \/ last_refused answers /\ forall c, res <> BOk c).
Proof.
  intros s n w res w' E.
  destruct (as_with_capacity _ _ _ _ (shape_asks s) _ _ _ _ E) as (a & H1 & H2 & H3).
  exists a. split; [exact H1|]. split; [exact H2|]. destruct H3 as [H3|[H3 H4]]; [auto|].
  right. split; [exact H4|]. intros c ->. destruct H3; reflexivity.
Qed.
Theorem from_iter_asks : forall s, widths_pos s -> no_lists s ->
  forall R (it : iter (cA (coll s)) R) w res r w',
  good s it -> exact it -> fused it -> (lenN (items_of it) * unit_cost s <= usize_max)%N ->
  k_try_from_iter (coll s) it w = (res, r, w') ->
  exists answers, w = answers ++ w' /\ length answers <= buffers s /\
    (all_granted answers \/ last_refused answers /\ forall c, res <> BOk c).
Proof.
  intros s Hw Hn R it w res r w' Hg Hx Hf Hl E.
  destruct (collected_asks s Hw Hn R it w res r w' Hg Hx Hf Hl E) as (a & H1 & H2 & H3).
  exists a. split; [exact H1|]. split; [exact H2|]. destruct H3 as [H3|[H3 H4]]; [auto|].
  right. split; [exact H4|]. intros c ->. destruct H3; reflexivity.
Qed.
Theorem refusal_reported : forall s, widths_pos s -> forall c xs (it : iter (cA (coll s)) unit) w c' o w',
  lived s c -> reads s c xs -> Forall (item_ok s) (items_of it) ->
  (exists r, k_try_extend (coll s) c it w = (c', r, o, w')) ->
  exists answers, w = answers ++ w' /\
    (all_granted answers \/
     last_refused answers /\ (fin_of it = FStop -> o = OErr /\ reads s c' xs)).
Proof.
  intros s Hw c xs it w c' o w' Hc Hx Hi [r E].
  destruct (as_try_extend _ _ _ _ (shape_asks s) _ _ _ _ _ _ _ _ E) as [_ (n & a & H1 & _ & H3)].
  exists a. split; [exact H1|]. destruct H3 as [H3|[H3 H4]]; [auto|]. right. split; [exact H4|].
  intros Hf.
  assert (Es : step (coll s) c (OpTryExtend it w) = (c', o)) by (cbn [step]; rewrite E; reflexivity).
  pose proof (lived_steps s Hw c xs (OpTryExtend it w) c' o Hc Hx Hi Es) as G.
  destruct o; cbn [like_step may_abort] in G.
  - congruence.
  - destruct G as (ys & G1 & ->). auto.
  - destruct G as (ys & _ & G1 & _). congruence.
  - discriminate.
Qed.
Theorem refusal_reported_reserve : forall s, widths_pos s -> forall c xs n w c' o w',
  lived s c -> reads s c xs -> k_try_reserve (coll s) c n w = (c', o, w') ->
  forall answers, w = answers ++ w' -> In None answers -> o = OErr /\ reads s c' xs.
Proof.
  intros s Hw c xs n w c' o w' Hc Hx E answers Ha Hin.
  destruct (as_try_reserve _ _ _ _ (shape_asks s) _ _ _ _ _ _ E) as [_ (a & H1 & _ & H3)].
  unfold answered in H1. assert (answers = a) by (apply (app_inv_tail w'); congruence). subst a.
  assert (Es : step (coll s) c (OpTryReserve n w) = (c', o)) by (cbn [step]; rewrite E; reflexivity).
  assert (Ho : o <> ODone).
  { destruct H3 as [[es ->]|[H3 _]]; [|exact H3]. apply in_map_iff in Hin. destruct Hin as (? & ? & _). discriminate. }
  pose proof (lived_steps s Hw c xs (OpTryReserve n w) c' o Hc Hx ltac:(constructor) Es) as G.
  destruct o; cbn [like_step may_abort] in G.
  - congruence.
  - destruct G as (ys & G1 & ->). auto.
  - destruct G as (ys & _ & []).
  - discriminate.
Qed.
