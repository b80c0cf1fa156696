(** * Operations that succeed, on vectors and bitmaps.

    Two situations are treated together: there is room already, whatever the
    allocator does ([m = true]); or no allocation fails ([m = false]). *)
From Coq Require Import List NArith ZArith Bool Arith Lia ZifyBool ZifyNat ZifyN.
From Verif Require Import Base Iter Spec VecModel BitmapModel CollModel ValidityModel
  IterLemmas VecLemmas BitmapLemmas BitmapLemmas2 HonestLemmas Laws LawsBase.
Import ListNotations.

Ltac Zify.zify_post_hook ::= Z.div_mod_to_equations.
Local Arguments Nat.div : simpl never.
Local Arguments Nat.modulo : simpl never.
Local Arguments Nat.mul : simpl never.

Definition wok (m : bool) (w : world) : Prop := m = true \/ grants w.
Definition vlim {A} (m : bool) (esz : N) (v : vec A) : N :=
  if m then v_cap v else max_items esz.

Lemma vec_try_extend_wok {A R} m esz (v : vec A) (it : iter A R) w xs r :
  vec_ok esz v -> run it = (xs, FStop, r) -> honest it -> wok m w ->
  (lenN (v_items v) + lenN xs <= vlim m esz v)%N ->
  exists v' r' w', vec_try_extend esz v it w = (v', r', ODone, w') /\ wok m w' /\
    (m = true -> v_cap v' = v_cap v).
Proof.
  intros Hv Hr Hh Hw Hl. pose proof (honest_hint _ _ _ _ Hh Hr) as Hm.
  destruct (vec_try_extend_live esz v it w xs FStop r Hv Hr) as (v' & r' & w' & E & Hg & Hc).
  { destruct m; unfold vlim in Hl; [right; lia|].
    left. destruct Hw as [Hw|Hw]; [discriminate|]. split; [auto|lia]. }
  exists v', r', w'. split; [exact E|]. split.
  - destruct Hw as [Hw|Hw]; [left; auto|right; auto].
  - intros ->. unfold vlim in Hl. apply Hc. lia.
Qed.

Lemma count_item_total (s : nat) (a : bool) : count_item s a <> None.
Proof. discriminate. Qed.

Lemma u8_items : max_items u8sz = alloc_max.
Proof. reflexivity. Qed.

Lemma bm_try_extend_wok {R} m b (it : iter bool R) w xs r :
  bm_ok b -> run it = (xs, FStop, r) -> honest it -> wok m w ->
  (N.of_nat (bm_off b + bm_bits b) + lenN xs <= 8 * vlim m u8sz (bm_buf b))%N ->
  exists b' r' w', bm_try_extend b it w = (b', r', ODone, w') /\ wok m w' /\
    (m = true -> v_cap (bm_buf b') = v_cap (bm_buf b)).
Proof.
  intros Hok Hr0 Hh0 Hw Hl. unfold bm_try_extend.
  assert (Hc : cut (it_fuse it)) by apply fuse_cut.
  assert (Hr : run (it_fuse it) = (xs, FStop, r)) by (rewrite run_fuse; auto).
  pose proof (honest_fuse it Hh0) as Hh.
  destruct (bm_phase1 b (it_fuse it)) as [[b1 it1] p1] eqn:Hp1.
  destruct (phase1_spec _ _ _ _ _ _ _ _ Hok Hc Hr Hp1)
    as (k & tail & Hmin & Hcap & Hlen & Hoff & Hbits & Hfin & HB & Hp).
  destruct p1; [destruct Hp as (Hp & _); discriminate|].
  pose proof (honest_phase1 _ _ _ _ Hh Hp1) as Hh1.
  destruct Hp as (Hc1 & Hr1 & Hal).
  destruct (it_next it1) as [ev it2] eqn:En. destruct ev as [first| |].
  - pose proof (run_next_yield _ _ _ En) as Hr2. rewrite Hr1 in Hr2.
    destruct (run it2) as [[xs2 e2] r2] eqn:Hrun2. cbn [fst snd] in Hr2.
    assert (Hsk : skipn k xs = first :: xs2) by congruence.
    assert (e2 = FStop) by congruence. assert (r2 = r) by congruence. subst e2 r2. clear Hr2.
    pose proof (cut_next_yield _ _ _ Hc1 En) as Hc2.
    pose proof (honest_next_yield _ _ _ Hh1 En) as Hh2.
    destruct (skipn_cons_nth _ _ _ _ Hsk) as [Hml Hxs].
    specialize (Hal Hml).
    destruct (tail_run first it2 xs2 FStop r Hc2 Hrun2) as (Hcp & ys & Hrp & Hys & Hyl).
    assert (Hci : cut (it_inspect count_item 0 (it_chain_once first it2)))
      by (apply cut_inspect, cut_chain_once; auto).
    assert (Hri : run (it_inspect count_item 0 (it_chain_once first it2))
                  = (first :: xs2, FStop, (r, S (length xs2)))).
    { apply run_inspect; [apply run_chain_once; auto|]. rewrite insp_count; reflexivity. }
    assert (Hhp : honest (it_packed (it_inspect count_item 0 (it_chain_once first it2)))).
    { eapply honest_packed; [exact Hri|exact Hci|].
      apply honest_inspect; [exact count_item_total|]. apply honest_chain_once; auto. }
    set (packed := it_packed (it_inspect count_item 0 (it_chain_once first it2))) in *.
    destruct Hok as [Hv Hb].
    assert (Hv1 : vec_ok u8sz (bm_buf b1)).
    { destruct Hv as [V1 V2]. split; rewrite ?Hcap; auto. unfold lenN in *; rewrite Hlen; auto. }
    destruct (bm_overwrite (skipn ((bm_off b1 + bm_bits b1) / 8) (v_items (bm_buf b1))) packed)
      as [[over packed'] p2] eqn:Ho.
    destruct (phase2_spec b1 packed ys FStop _ over packed' p2 Hv1 Hfin Hal Hcp Hrp Ho)
      as (L2 & F2 & Hp2).
    destruct p2; [destruct Hp2; discriminate|].
    destruct Hp2 as (zs & Hrz & Hlz & _).
    pose proof (honest_overwrite _ _ _ _ Hhp Ho) as Hho.
    set (fin := bm_off b1 + bm_bits b1) in *.
    set (items := v_items (bm_buf b1)) in *.
    set (buf2 := Vec (firstn (fin / 8) items ++ over) (v_cap (bm_buf b1))).
    assert (Hv2 : vec_ok u8sz buf2).
    { destruct Hv1 as [V1 V2]. split; cbn; auto. unfold lenN in *; rewrite L2; auto. }
    destruct (vec_try_extend_wok m u8sz buf2 packed' w zs (r, S (length xs2)) Hv2 Hrz Hho Hw)
      as (v' & [r3 consumed] & w' & E & Hw' & Hc').
    { unfold buf2 at 1. cbn [v_items]. unfold lenN. rewrite L2, Hlz.
      assert (Hx : length xs = k + S (length xs2)).
      { rewrite Hxs at 1. rewrite app_length, firstn_length. cbn [length]. lia. }
      assert (Hvl : vlim m u8sz buf2 = vlim m u8sz (bm_buf b)).
      { unfold vlim, buf2. cbn [v_cap]. rewrite Hcap. reflexivity. }
      rewrite Hvl. assert (Hge : (N.of_nat (length items) <= vlim m u8sz (bm_buf b))%N).
      { rewrite <- Hvl. destruct Hv2 as [V1 V2]. unfold lenN in *. unfold buf2 in *. cbn [v_items v_cap] in *.
        rewrite L2 in V1. unfold vlim. cbn [v_cap]. destruct m; lia. }
      unfold lenN in Hl. rewrite Hx in Hl. assert (Hf : fin = bm_off b + bm_bits b + k) by (unfold fin; lia).
      revert Hl Hge Hyl Hf Hal. generalize (vlim m u8sz (bm_buf b)) as lim. intros lim. lia. }
    change (Vec (firstn (fin / 8) items ++ over) (v_cap (bm_buf b1))) with buf2. rewrite E.
    do 3 eexists. split; [reflexivity|]. split; [exact Hw'|]. cbn [bm_buf]. intros Hm.
    rewrite (Hc' Hm). exact Hcap.
  - exists b1, (it_src it2), w. split; [reflexivity|]. split; [auto|]. intros _. exact Hcap.
  - exfalso. assert (X : snd (fst (run it1)) = FBoom).
    { destruct it1 as [n [|[ev n1] t]]; unfold it_next in En; cbn in En; [discriminate|].
      injection En as -> _. reflexivity. }
    rewrite Hr1 in X. discriminate.
Qed.

(** ** Construction *)
Lemma bm_try_with_capacity_live cap w : grants w -> (cap <= alloc_max)%N ->
  exists b w', bm_try_with_capacity cap w = (BOk b, w') /\ grants w'.
Proof.
  intros Hg Hc. unfold bm_try_with_capacity.
  destruct (@vec_try_with_capacity_live N u8sz (bytes_for_bits cap) w) as (v & w' & -> & Hg'); auto.
  { rewrite u8_items. unfold bytes_for_bits. rewrite alloc_max_val in *. lia. }
  cbn [bmap]. eauto.
Qed.
Lemma bm_try_all_set_live n w : grants w -> (N.of_nat n <= alloc_max)%N ->
  exists b w', bm_try_all_set n w = (BOk b, w') /\ grants w'.
Proof.
  intros Hg Hc. unfold bm_try_all_set.
  destruct (vec_try_from_iter_live u8sz (it_list (all_set_bytes n)) w (all_set_bytes n) FStop tt)
    as (v & r & w' & -> & Hg'); auto.
  { apply run_list. }
  { pose proof (honest_hint _ _ _ _ (honest_list (all_set_bytes n)) (run_list _)) as H.
    rewrite u8_items. assert (lenN (all_set_bytes n) <= N.of_nat n)%N; [|lia].
    unfold lenN, all_set_bytes. rewrite app_length, repeat_length.
    destruct (Nat.eqb_spec (n mod 8) 0); cbn [length]; lia. }
  cbn [bmap]. eauto.
Qed.
Lemma bm_try_reserve_live b add w : bm_ok b -> grants w -> (bm_usage b + add <= alloc_max)%N ->
  exists b' w', bm_try_reserve b add w = (b', ODone, w') /\ grants w'.
Proof.
  intros Hb Hg Hu. unfold bm_try_reserve, bm_usage in *.
  destruct (N.of_nat (bm_trailing_bits b) <=? add)%N; [|eauto].
  destruct (vec_try_reserve_live u8sz (bm_buf b) (bytes_for_bits (add - N.of_nat (bm_trailing_bits b))) w)
    as (v & w' & -> & Hg' & _); [|eauto].
  left. split; [auto|]. rewrite u8_items. unfold bytes_for_bits. rewrite alloc_max_val in *. lia.
Qed.
Lemma bm_try_from_iter_live {R} (it : iter bool R) w xs r : run it = (xs, FStop, r) -> fused it ->
  honest it -> grants w -> (lenN xs <= alloc_max)%N ->
  exists b r' w', bm_try_from_iter it w = (BOk b, r', w') /\ grants w'.
Proof.
  intros Hr Hf Hh Hg Hl. unfold bm_try_from_iter.
  assert (Hri : run (it_inspect count_item 0 it) = (xs, FStop, (r, length xs))).
  { apply run_inspect; auto. rewrite insp_count; reflexivity. }
  destruct (run_packed _ _ _ _ Hri (fused_inspect _ _ _ Hf)) as (ys & rr & Hp & Hin & Hys & Hyl).
  pose proof (honest_inspect count_item it 0 count_item_total Hh) as Hhi.
  assert (Hhint : (fst (it_hint (it_packed (it_inspect count_item O it))) <= lenN xs)%N).
  { pose proof (honest_hint _ _ _ _ Hhi Hri) as Hx. unfold it_hint in *. cbn [it_packed it_node].
    unfold packed_node. destruct (nd_hint (it_node (it_inspect count_item O it))) as [lo hi].
    cbn [nd_hint fst] in *. unfold bytes_for_bits in *. lia. }
  destruct (vec_try_from_iter_live u8sz _ w _ _ _ Hp Hg) as (v & [r1 bits] & w' & -> & Hg').
  { rewrite u8_items. unfold lenN in *. lia. }
  cbn [bmap]. eauto.
Qed.
