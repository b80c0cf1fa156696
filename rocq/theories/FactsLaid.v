(** * Collections built by the API have the layout of the Arrow format. *)
From Coq Require Import List NArith ZArith Bool Arith Lia ZifyBool ZifyNat ZifyN.
From Verif Require Import Base Iter Spec VecModel BitmapModel CollModel ValidityModel
  FlattenModel OffsetsModel LayoutModel IterLemmas VecLemmas BitmapLemmas BitmapLemmas2 Laws
  LawsBase LawsFlatten LawsValidity LawsOffsets Reach ReachLemmas CoreLemmas SpecLaid.
Import ListNotations.

Ltac Zify.zify_post_hook ::= Z.div_mod_to_equations.
Local Arguments Nat.div : simpl never.
Local Arguments Nat.modulo : simpl never.
Local Arguments Nat.mul : simpl never.
Local Arguments N.add : simpl never.
Local Arguments N.mul : simpl never.

(** ** Bytes *)

Lemma packs_short l : length l < 8 ->
  packs 0 0%N l = match l with [] => [] | _ => [bits_value l] end.
Proof.
  do 8 (destruct l as [|[] l]; [intros _; reflexivity| |]); cbn [length]; intros; lia.
Qed.
Lemma packs_eight pre l : length pre = 8 ->
  packs 0 0%N (pre ++ l) = bits_value pre :: packs 0 0%N l.
Proof.
  do 8 (destruct pre as [|[] pre]; [discriminate| |]);
    (destruct pre; [|discriminate]); intros _; reflexivity.
Qed.
Lemma put_bit_value l b : length l < 8 ->
  put_bit (bits_value l) (length l) b = bits_value (l ++ [b]).
Proof.
  do 8 (destruct l as [|[] l]; [intros _; destruct b; reflexivity| |]); cbn [length]; intros; lia.
Qed.
Lemma bits_value_ones k : k < 8 -> bits_value (repeat true k) = (N.shiftl 1 (N.of_nat k) - 1)%N.
Proof. do 8 (destruct k as [|k]; [reflexivity|]). lia. Qed.

Lemma arrow_bits_nil : arrow_bits [] = [].
Proof. reflexivity. Qed.
Lemma arrow_bits_length l : length (arrow_bits l) = (length l + 7) / 8.
Proof.
  unfold arrow_bits. generalize ((length l + 7) / 8) as n. intros n. revert l.
  induction n as [|n IH]; intros l; cbn [bytes_from length]; auto.
Qed.
Lemma arrow_bits_eight pre l : length pre = 8 -> arrow_bits (pre ++ l) = bits_value pre :: arrow_bits l.
Proof.
  intros H. unfold arrow_bits. rewrite app_length, H.
  replace ((8 + length l + 7) / 8) with (S ((length l + 7) / 8)) by lia.
  cbn [bytes_from]. rewrite firstn_app_exact, skipn_app_exact by auto. reflexivity.
Qed.
Lemma arrow_bits_short l : 0 < length l <= 8 -> arrow_bits l = [bits_value l].
Proof.
  intros H. unfold arrow_bits. replace ((length l + 7) / 8) with 1 by lia.
  cbn [bytes_from]. rewrite firstn_all2 by lia. reflexivity.
Qed.
Lemma eights_ind (P : list bool -> Prop) :
  (forall l, length l < 8 -> P l) ->
  (forall pre l, length pre = 8 -> P l -> P (pre ++ l)) -> forall l, P l.
Proof.
  intros H1 H2 l. remember (length l) as n eqn:Hn. revert l Hn.
  induction n as [n IH] using lt_wf_ind. intros l Hn.
  destruct (Nat.lt_ge_cases n 8) as [Hlt|Hge]; [apply H1; lia|].
  rewrite <- (firstn_skipn 8 l). apply H2; [rewrite firstn_length; lia|].
  apply (IH (length (skipn 8 l))); auto. rewrite skipn_length. lia.
Qed.
Lemma arrow_packs l : packs 0 0%N l = arrow_bits l.
Proof.
  induction l as [l H|pre l H IH] using eights_ind.
  - rewrite packs_short by auto. destruct l as [|b l]; [reflexivity|].
    rewrite arrow_bits_short; [reflexivity|]. cbn [length] in *. lia.
  - rewrite packs_eight, arrow_bits_eight, IH by auto. reflexivity.
Qed.
Lemma arrow_bits_app l l' : length l mod 8 = 0 ->
  arrow_bits (l ++ l') = arrow_bits l ++ arrow_bits l'.
Proof.
  induction l as [l H|pre l H IH] using eights_ind; intros Hm.
  - destruct l as [|b l]; [reflexivity|]. cbn [length] in *. lia.
  - rewrite app_length, H in Hm. rewrite <- app_assoc.
    rewrite (arrow_bits_eight pre (l ++ l')), (arrow_bits_eight pre l) by auto.
    rewrite IH by lia. reflexivity.
Qed.
Lemma arrow_bits_of l : exists pad, bits_of (arrow_bits l) = l ++ pad.
Proof.
  rewrite <- arrow_packs. destruct (packs_bits l 0 0%N) as [pad H]; [auto|lia|].
  exists pad. exact H.
Qed.
Lemma arrow_bits_ones n : all_set_bytes n = arrow_bits (repeat true n).
Proof.
  unfold all_set_bytes.
  assert (E : repeat true n = repeat true (8 * (n / 8)) ++ repeat true (n mod 8)).
  { rewrite <- repeat_app. f_equal. lia. }
  rewrite E, arrow_bits_app by (rewrite repeat_length; lia). f_equal.
  - clear E. induction (n / 8) as [|m IH]; [reflexivity|].
    replace (8 * S m) with (8 + 8 * m) by lia. rewrite repeat_app.
    rewrite arrow_bits_eight by apply repeat_length. rewrite <- IH. reflexivity.
  - destruct (Nat.eqb_spec (n mod 8) 0) as [->|H]; [reflexivity|].
    rewrite arrow_bits_short by (rewrite repeat_length; lia).
    rewrite bits_value_ones by lia. reflexivity.
Qed.

(** ** Bitmaps *)

Lemma laid_bits_abs b xs : bm_ok b -> laid_bits b xs -> bm_abs b = xs.
Proof.
  intros _ (H1 & H2 & H3). unfold bm_abs. rewrite H1, H2, H3.
  destruct (arrow_bits_of xs) as [pad ->]. cbn [skipn]. apply firstn_app_exact. reflexivity.
Qed.
Lemma fill_laid {R} : forall k (it : iter bool R) l bits ys e r byte' bits' it',
  length l + k = 8 -> cut it -> run it = (ys, e, r) ->
  bm_fill k it (bits_value l) bits = (byte', bits', it', false) ->
  byte' = bits_value (l ++ firstn k ys).
Proof.
  induction k as [|k IH]; intros it l bits ys e r byte' bits' it' Hk Hc Hr; cbn [bm_fill].
  - intros E; inversion E; subst. cbn [firstn]. rewrite app_nil_r. reflexivity.
  - destruct (it_next it) as [ev it1] eqn:En. destruct ev as [b| |].
    + pose proof (run_next_yield _ _ _ En) as Hr'. rewrite Hr in Hr'.
      destruct (run it1) as [[ys1 e1] r1] eqn:Hr1; cbn in Hr'. inversion Hr'; subst.
      replace (8 - S k) with (length l) by lia. rewrite put_bit_value by lia.
      intros E. eapply IH in E; [|rewrite app_length; cbn [length]; lia
        |eapply cut_next_yield; eauto|eauto].
      rewrite E, <- app_assoc. reflexivity.
    + pose proof (run_next_stop _ _ En) as Hr'. rewrite Hr in Hr'. inversion Hr'; subst.
      pose proof (cut_next_stop _ _ Hc En) as Ht. cbn [firstn]. rewrite app_nil_r.
      assert (Hs : forall k bits byte, bm_fill k it1 byte bits = (byte, bits, it1, false)).
      { clear -Ht. induction k as [|k IH]; intros bits byte; cbn [bm_fill]; [reflexivity|].
        unfold it_next. rewrite Ht. destruct it1 as [n1 t1]. cbn [it_tr] in Ht. subst t1. apply IH. }
      rewrite Hs. intros E; inversion E; reflexivity.
    + discriminate.
Qed.

Lemma phase1_laid {R} b (it : iter bool R) xs ys e r b1 it1 :
  bm_ok b -> laid_bits b xs -> cut it -> run it = (ys, e, r) ->
  bm_phase1 b it = (b1, it1, false) ->
  exists m, m <= length ys /\ laid_bits b1 (xs ++ firstn m ys) /\
    cut it1 /\ run it1 = (skipn m ys, e, r) /\
    (m < length ys -> (length xs + m) mod 8 = 0).
Proof.
  intros Hok (L1 & L2 & L3) Hc Hr E0.
  destruct (phase1_spec b it ys e r b1 it1 false Hok Hc Hr E0)
    as (m & tail & Hm & _ & _ & Ho & Hb & _ & _ & Hc1 & Hr1 & Ha).
  rewrite L1, L2 in *. cbn [Nat.add] in *.
  exists m. split; [lia|]. split; [|split; [auto|split; [auto|]]].
  2:{ intros H. specialize (Ha H). rewrite Ho, Hb in Ha. exact Ha. }
  split; [auto|]. split; [rewrite Hb, app_length, firstn_length; lia|].
  unfold bm_phase1 in E0. rewrite L1, L2 in E0. cbn [Nat.add] in E0.
  destruct (Nat.eqb_spec (length xs mod 8) 0) as [Hz|Hnz].
  { inversion E0; subst. rewrite Hz. cbn [Nat.min firstn]. rewrite app_nil_r. exact L3. }
  set (xs0 := firstn (8 * (length xs / 8)) xs). set (rest := skipn (8 * (length xs / 8)) xs).
  assert (Hx : xs = xs0 ++ rest) by (symmetry; apply firstn_skipn).
  assert (H0 : length xs0 = 8 * (length xs / 8)) by (unfold xs0; rewrite firstn_length; lia).
  assert (H1 : length rest = length xs mod 8) by (unfold rest; rewrite skipn_length; lia).
  assert (Hi : v_items (bm_buf b) = arrow_bits xs0 ++ [bits_value rest]).
  { rewrite L3, Hx at 1. rewrite arrow_bits_app by lia. rewrite (arrow_bits_short rest) by lia. reflexivity. }
  assert (Hl : length (arrow_bits xs0) = length xs / 8) by (rewrite arrow_bits_length; lia).
  rewrite Hi in E0. rewrite nth_error_app2 in E0 by lia.
  rewrite Hl, Nat.sub_diag in E0. cbn [nth_error] in E0.
  destruct (bm_fill (8 - length xs mod 8) it (bits_value rest) (length xs))
    as [[[byte' bits'] it'] p'] eqn:Ef.
  inversion E0; subst b1 it1 p'; clear E0. cbn [bm_buf v_items].
  eapply fill_laid in Ef; [|lia|exact Hc|exact Hr]. subst byte'.
  unfold set_nth. rewrite firstn_app_exact, skipn_app_exact by auto.
  replace (xs ++ firstn m ys) with (xs0 ++ (rest ++ firstn m ys))
    by (rewrite app_assoc, <- Hx; reflexivity).
  rewrite (arrow_bits_app xs0) by lia. f_equal.
  assert (Hf : firstn (8 - length xs mod 8) ys = firstn m ys).
  { destruct (Nat.le_gt_cases (length ys) (8 - length xs mod 8)).
    - rewrite !firstn_all2; auto. lia.
    - f_equal. lia. }
  rewrite Hf, arrow_bits_short; [reflexivity|]. rewrite app_length, firstn_length. lia.
Qed.

(** After the first phase the buffer ends at the end of the bits, so nothing is
    overwritten. *)
Lemma tail_laid b1 xs1 : laid_bits b1 xs1 -> length xs1 mod 8 = 0 ->
  firstn ((bm_off b1 + bm_bits b1) / 8) (v_items (bm_buf b1)) = arrow_bits xs1 /\
  skipn ((bm_off b1 + bm_bits b1) / 8) (v_items (bm_buf b1)) = [].
Proof.
  intros (-> & -> & ->) H. cbn [Nat.add].
  split; [apply firstn_all2|apply skipn_all2]; rewrite arrow_bits_length; lia.
Qed.
Lemma commit_laid b1 xs1 v first ys : laid_bits b1 xs1 -> length xs1 mod 8 = 0 ->
  v_items v = arrow_bits xs1 ++ packs 0 0%N (first :: ys) ->
  laid_bits (Bitmap v (bm_bits b1 + S (length ys)) (bm_off b1)) (xs1 ++ first :: ys).
Proof.
  intros (H1 & H2 & H3) Hm Hv. unfold laid_bits. cbn [bm_off bm_bits bm_buf].
  split; [auto|]. split; [rewrite H2, app_length; reflexivity|].
  rewrite Hv, arrow_packs, arrow_bits_app by auto. reflexivity.
Qed.
Lemma phase1_ok {R} b (it : iter bool R) ys e r b1 it1 :
  bm_ok b -> cut it -> run it = (ys, e, r) -> bm_phase1 b it = (b1, it1, false) ->
  vec_ok u8sz (bm_buf b1).
Proof.
  intros Hok Hc Hr E. pose proof Hok as [[V1 V2] _].
  destruct (phase1_spec b it ys e r b1 it1 false Hok Hc Hr E)
    as (m & tail & _ & Hcap & Hlen & _).
  split; rewrite ?Hcap; auto. unfold lenN in *. rewrite Hlen. auto.
Qed.

Lemma bm_extend_laid {R} b (it : iter bool R) xs ys e r b' r' :
  bm_ok b -> laid_bits b xs -> run it = (ys, e, r) -> bm_extend b it = (b', r', ODone) ->
  laid_bits b' (xs ++ ys).
Proof.
  intros Hok Hl Hr0. unfold bm_extend.
  assert (Hc : cut (it_fuse it)) by apply fuse_cut.
  assert (Hr : run (it_fuse it) = (ys, e, r)) by (rewrite run_fuse; auto).
  destruct (bm_phase1 b (it_fuse it)) as [[b1 it1] p1] eqn:Hp1.
  destruct p1; [discriminate|].
  destruct (phase1_laid _ _ _ _ _ _ _ _ Hok Hl Hc Hr Hp1) as (m & Hm & L1 & Hc1 & Hr1 & Ha).
  pose proof (phase1_ok _ _ _ _ _ _ _ Hok Hc Hr Hp1) as Hv1.
  destruct (it_next it1) as [ev it2] eqn:En. destruct ev as [first| |]; [| |discriminate].
  - pose proof (run_next_yield _ _ _ En) as Hr2. rewrite Hr1 in Hr2.
    destruct (run it2) as [[ys2 e2] r2] eqn:Hrun2. cbn [fst snd] in Hr2.
    assert (Hsk : skipn m ys = first :: ys2) by congruence.
    pose proof (cut_next_yield _ _ _ Hc1 En) as Hc2.
    destruct (skipn_cons_nth _ _ _ _ Hsk) as [Hml Hys].
    assert (Hmod : length (xs ++ firstn m ys) mod 8 = 0).
    { rewrite app_length, firstn_length, Nat.min_l by lia. auto. }
    destruct (tail_laid _ _ L1 Hmod) as [-> ->]. cbn [bm_overwrite]. rewrite app_nil_r.
    destruct (tail_run first it2 ys2 e2 r2 Hc2 Hrun2) as (Hcp & zs & Hrp & Hzs & _).
    set (packed := it_packed (it_inspect count_item 0 (it_chain_once first it2))) in *.
    destruct (vec_extend u8sz _ packed) as [[buf3 [r3 consumed]] o3] eqn:Hx.
    destruct o3; try discriminate. intros E; inversion E; subst b' r'; clear E.
    eapply vec_extend_spec in Hx; [|  |exact Hrp].
    2:{ destruct Hv1 as [V1 V2]. destruct L1 as (_ & _ & L1). rewrite L1 in V1. split; auto. }
    destruct Hx as (_ & _ & _ & He & Hrr & Hi). inversion Hrr; subst r3 consumed.
    cbn [v_items] in Hi. rewrite (Hzs He) in Hi.
    rewrite <- (firstn_skipn m ys), Hsk, app_assoc. apply commit_laid; auto.
  - pose proof (run_next_stop _ _ En) as Hr2. rewrite Hr1 in Hr2. inversion Hr2 as [Hsk].
    intros E; inversion E; subst. rewrite <- (firstn_skipn m ys), Hsk, app_nil_r. exact L1.
Qed.
Lemma bm_try_extend_laid {R} b (it : iter bool R) w xs ys e r b' r' w' :
  bm_ok b -> laid_bits b xs -> run it = (ys, e, r) ->
  bm_try_extend b it w = (b', r', ODone, w') -> laid_bits b' (xs ++ ys).
Proof.
  intros Hok Hl Hr0. unfold bm_try_extend.
  assert (Hc : cut (it_fuse it)) by apply fuse_cut.
  assert (Hr : run (it_fuse it) = (ys, e, r)) by (rewrite run_fuse; auto).
  destruct (bm_phase1 b (it_fuse it)) as [[b1 it1] p1] eqn:Hp1.
  destruct p1; [discriminate|].
  destruct (phase1_laid _ _ _ _ _ _ _ _ Hok Hl Hc Hr Hp1) as (m & Hm & L1 & Hc1 & Hr1 & Ha).
  pose proof (phase1_ok _ _ _ _ _ _ _ Hok Hc Hr Hp1) as Hv1.
  destruct (it_next it1) as [ev it2] eqn:En. destruct ev as [first| |]; [| |discriminate].
  - pose proof (run_next_yield _ _ _ En) as Hr2. rewrite Hr1 in Hr2.
    destruct (run it2) as [[ys2 e2] r2] eqn:Hrun2. cbn [fst snd] in Hr2.
    assert (Hsk : skipn m ys = first :: ys2) by congruence.
    pose proof (cut_next_yield _ _ _ Hc1 En) as Hc2.
    destruct (skipn_cons_nth _ _ _ _ Hsk) as [Hml Hys].
    assert (Hmod : length (xs ++ firstn m ys) mod 8 = 0).
    { rewrite app_length, firstn_length, Nat.min_l by lia. auto. }
    destruct (tail_laid _ _ L1 Hmod) as [-> ->]. cbn [bm_overwrite]. rewrite app_nil_r.
    destruct (tail_run first it2 ys2 e2 r2 Hc2 Hrun2) as (Hcp & zs & Hrp & Hzs & _).
    set (packed := it_packed (it_inspect count_item 0 (it_chain_once first it2))) in *.
    destruct (vec_try_extend u8sz _ packed w) as [[[buf3 [r3 consumed]] o3] w3] eqn:Hx.
    destruct o3; try discriminate. intros E; inversion E; subst b' r'; clear E.
    eapply vec_try_extend_spec in Hx; [|  |exact Hrp].
    2:{ destruct Hv1 as [V1 V2]. destruct L1 as (_ & _ & L1). rewrite L1 in V1. split; auto. }
    destruct Hx as (_ & _ & He & Hrr & Hi). inversion Hrr; subst r3 consumed.
    cbn [v_items] in Hi. rewrite (Hzs He) in Hi.
    rewrite <- (firstn_skipn m ys), Hsk, app_assoc. apply commit_laid; auto.
  - pose proof (run_next_stop _ _ En) as Hr2. rewrite Hr1 in Hr2. inversion Hr2 as [Hsk].
    intros E; inversion E; subst. rewrite <- (firstn_skipn m ys), Hsk, app_nil_r. exact L1.
Qed.
Lemma bm_from_iter_laid {R} (it : iter bool R) xs e r b r' :
  run it = (xs, e, r) -> fused it -> bm_from_iter it = (BOk b, r') -> laid_bits b xs.
Proof.
  intros Hr Hf E0. pose proof (bm_from_iter_spec _ _ _ _ _ _ Hr Hf E0) as [(-> & _ & Hok & Habs & _) _].
  assert (Hbits : bm_bits b = length xs) by (rewrite <- (bm_abs_length b Hok), Habs; reflexivity).
  unfold bm_from_iter in E0.
  assert (Hri : run (it_inspect count_item 0 it) = (xs, FStop, (r, length xs))).
  { apply run_inspect; auto. rewrite insp_count; reflexivity. }
  destruct (run_packed _ _ _ _ Hri (fused_inspect _ _ _ Hf)) as (ys & rr & Hp & _ & Hys & _).
  destruct (vec_from_iter u8sz _) as [res1 [r1 bits]] eqn:E1.
  pose proof (vec_from_iter_spec _ _ _ _ _ _ _ Hp E1) as H1.
  destruct res1; cbn [bmap] in E0; try discriminate. destruct H1 as (_ & _ & _ & Hi).
  rewrite (Hys eq_refl), arrow_packs in Hi. inversion E0; subst b r'; clear E0. cbn [bm_bits] in Hbits. unfold laid_bits. cbn [bm_off bm_bits bm_buf].
  split; [auto|]. split; [auto|]. exact Hi.
Qed.
Lemma bm_try_from_iter_laid {R} (it : iter bool R) w xs e r b r' w' :
  run it = (xs, e, r) -> fused it -> bm_try_from_iter it w = (BOk b, r', w') -> laid_bits b xs.
Proof.
  intros Hr Hf E0.
  pose proof (bm_try_from_iter_spec _ _ _ _ _ _ _ _ Hr Hf E0) as (-> & _ & Hok & Habs & _).
  assert (Hbits : bm_bits b = length xs) by (rewrite <- (bm_abs_length b Hok), Habs; reflexivity).
  unfold bm_try_from_iter in E0.
  assert (Hri : run (it_inspect count_item 0 it) = (xs, FStop, (r, length xs))).
  { apply run_inspect; auto. rewrite insp_count; reflexivity. }
  destruct (run_packed _ _ _ _ Hri (fused_inspect _ _ _ Hf)) as (ys & rr & Hp & _ & Hys & _).
  destruct (vec_try_from_iter u8sz _ w) as [[res1 [r1 bits]] w1] eqn:E1.
  pose proof (vec_try_from_iter_spec _ _ _ _ _ _ _ _ _ Hp E1) as H1.
  destruct res1; cbn [bmap] in E0; try discriminate. destruct H1 as (_ & _ & _ & Hi).
  rewrite (Hys eq_refl), arrow_packs in Hi. inversion E0; subst b r'; clear E0. cbn [bm_bits] in Hbits. unfold laid_bits. cbn [bm_off bm_bits bm_buf].
  split; [auto|]. split; [auto|]. exact Hi.
Qed.
Lemma laid_bits_empty v : v_items v = [] -> laid_bits (Bitmap v 0 0) [].
Proof. intros H. unfold laid_bits. cbn [bm_off bm_bits bm_buf]. rewrite H. auto. Qed.
Lemma bm_with_capacity_laid n b : bm_with_capacity n = BOk b -> laid_bits b [].
Proof.
  unfold bm_with_capacity. pose proof (@vec_with_capacity_spec N u8sz (bytes_for_bits n)) as H.
  destruct (vec_with_capacity u8sz (bytes_for_bits n)); cbn [bmap]; try discriminate.
  intros E; inversion E; subst. apply laid_bits_empty. apply H.
Qed.
Lemma bm_try_with_capacity_laid n w b w' : bm_try_with_capacity n w = (BOk b, w') -> laid_bits b [].
Proof.
  unfold bm_try_with_capacity.
  destruct (vec_try_with_capacity u8sz (bytes_for_bits n) w) as [res1 w1] eqn:E1.
  apply vec_try_with_capacity_spec in E1. destruct res1; cbn [bmap]; try discriminate.
  intros E; inversion E; subst. apply laid_bits_empty. apply E1.
Qed.
Lemma bm_all_set_laid n b : bm_all_set n = BOk b -> laid_bits b (repeat true n).
Proof.
  unfold bm_all_set. destruct (vec_from_iter u8sz _) as [res r'] eqn:E.
  pose proof (vec_from_iter_spec _ _ _ _ _ _ _ (run_list _) E) as H. cbn [fst].
  destruct res; cbn [bmap]; try discriminate. intros E2; inversion E2; subst.
  unfold laid_bits. cbn [bm_off bm_bits bm_buf]. rewrite repeat_length.
  split; [auto|]. split; [auto|]. rewrite <- arrow_bits_ones. apply H.
Qed.
Lemma bm_try_all_set_laid n w b w' : bm_try_all_set n w = (BOk b, w') -> laid_bits b (repeat true n).
Proof.
  unfold bm_try_all_set. destruct (vec_try_from_iter u8sz _ w) as [[res r'] w1] eqn:E.
  pose proof (vec_try_from_iter_spec _ _ _ _ _ _ _ _ _ (run_list _) E) as H.
  destruct res; cbn [bmap]; try discriminate. intros E2; inversion E2; subst.
  unfold laid_bits. cbn [bm_off bm_bits bm_buf]. rewrite repeat_length.
  split; [auto|]. split; [auto|]. rewrite <- arrow_bits_ones. apply H.
Qed.
Lemma bm_reserve_laid b n b' o xs : bm_ok b -> laid_bits b xs -> bm_reserve b n = (b', o) -> laid_bits b' xs.
Proof.
  intros [Hv _] (H1 & H2 & H3). unfold bm_reserve. destruct (_ <=? _)%N.
  - destruct (vec_reserve u8sz (bm_buf b) _) as [buf o1] eqn:E1.
    destruct (vec_reserve_spec _ _ _ _ _ Hv E1) as (_ & Hi & _).
    intros E; inversion E; subst. unfold laid_bits. cbn [bm_off bm_bits bm_buf]. rewrite Hi. auto.
  - intros E; inversion E; subst. split; auto.
Qed.
Lemma bm_try_reserve_laid b n w b' o w' xs : bm_ok b -> laid_bits b xs ->
  bm_try_reserve b n w = (b', o, w') -> laid_bits b' xs.
Proof.
  intros [Hv _] (H1 & H2 & H3). unfold bm_try_reserve. destruct (_ <=? _)%N.
  - destruct (vec_try_reserve u8sz (bm_buf b) _ w) as [[buf o1] w1] eqn:E1.
    destruct (vec_try_reserve_spec _ _ _ _ _ _ _ Hv E1) as (_ & Hi & _).
    intros E; inversion E; subst. unfold laid_bits. cbn [bm_off bm_bits bm_buf]. rewrite Hi. auto.
  - intros E; inversion E; subst. split; auto.
Qed.
Lemma bm_truncate_laid b n xs : laid_bits b xs -> (lenN xs <= n)%N -> bm_truncate b n = b.
Proof.
  intros (_ & H2 & _) H. unfold bm_truncate, lenN in *. rewrite H2.
  assert ((n <? N.of_nat (length xs))%N = false) as -> by lia. reflexivity.
Qed.

(** ** Laws about layouts: [P c xs] says that [c] is laid out as [xs]. *)

Definition lays {K} (d : LD K) (P : cC K -> list (cA K) -> Prop)
  (f : forall R, iter (cA K) R -> bres (cC K) * R) : Prop :=
  forall R (it : iter (cA K) R) xs e r c r',
  l_nofuse d = true \/ fused it -> Forall (l_wt d) xs -> run it = (xs, e, r) ->
  f R it = (BOk c, r') -> P c xs.
Record LLaws (K : Coll) (d : LD K) (P : cC K -> list (cA K) -> Prop) : Prop := {
  ll_abs : forall c xs, l_inv d c -> P c xs -> l_abs d c = xs;
  ll_default : P (k_default K) [];
  ll_with_capacity : forall n c, k_with_capacity K n = BOk c -> P c [];
  ll_try_with_capacity : forall n w c w', k_try_with_capacity K n w = (BOk c, w') -> P c [];
  ll_from_iter : lays d P (fun R => @k_from_iter K R);
  ll_from_iter_in : lays d P (fun R => @k_from_iter_in K R);
  ll_try_from_iter : forall R (it : iter (cA K) R) w xs e r c r' w',
    l_nofuse_try d = true \/ fused it -> Forall (l_wt d) xs -> run it = (xs, e, r) ->
    k_try_from_iter K it w = (BOk c, r', w') -> P c xs;
  ll_extend : forall R c (it : iter (cA K) R) xs ys e r c' r',
    l_inv d c -> P c xs -> Forall (l_wt d) ys -> run it = (ys, e, r) ->
    k_extend K c it = (c', r', ODone) -> P c' (xs ++ ys);
  ll_try_extend : forall R c (it : iter (cA K) R) w xs ys e r c' r' w',
    l_inv d c -> P c xs -> Forall (l_wt d) ys -> run it = (ys, e, r) ->
    k_try_extend K c it w = (c', r', ODone, w') -> P c' (xs ++ ys);
  ll_reserve : forall c n c' o xs, l_inv d c -> P c xs -> k_reserve K c n = (c', o) -> P c' xs;
  ll_try_reserve : forall c n w c' o w' xs, l_inv d c -> P c xs ->
    k_try_reserve K c n w = (c', o, w') -> P c' xs;
  ll_truncate : forall c n xs, l_inv d c -> P c xs -> (lenN xs <= n)%N ->
    k_truncate K c n = (c, ODone);
}.

Lemma vec_llaws A a0 esz :
  LLaws (vec_coll A a0 esz) (vec_ld A a0 esz) (fun (v : vec A) (xs : list A) => v_items v = xs).
Proof.
  split; unfold lays, vec_coll, vec_ld; law_cbn.
  - auto.
  - reflexivity.
  - intros n c E. pose proof (@vec_with_capacity_spec A esz n) as H. rewrite E in H. apply H.
  - intros n w c w' E. apply vec_try_with_capacity_spec in E. apply E.
  - intros R it xs e r c r' _ _ Hr E. apply (vec_from_iter_spec _ _ _ _ _ _ _ Hr E).
  - intros R it xs e r c r' _ _ Hr E. apply (vec_from_iter_spec _ _ _ _ _ _ _ Hr E).
  - intros R it w xs e r c r' w' _ _ Hr E. apply (vec_try_from_iter_spec _ _ _ _ _ _ _ _ _ Hr E).
  - intros R c it xs ys e r c' r' Hc <- _ Hr E. apply (vec_extend_spec _ _ _ _ _ _ _ _ _ Hc Hr E).
  - intros R c it w xs ys e r c' r' w' Hc <- _ Hr E.
    apply (vec_try_extend_spec _ _ _ _ _ _ _ _ _ _ _ Hc Hr E).
  - intros c n c' o xs Hc <- E. apply (vec_reserve_spec _ _ _ _ _ Hc E).
  - intros c n w c' o w' xs Hc <- E. apply (vec_try_reserve_spec _ _ _ _ _ _ _ Hc E).
  - intros c n xs _ <- H. unfold vec_truncate.
    assert ((n <? lenN (v_items c))%N = false) as -> by lia. reflexivity.
Qed.

Lemma bitmap_llaws : LLaws bitmap_coll bitmap_ld laid_bits.
Proof.
  split; unfold lays, bitmap_coll, bitmap_ld; law_cbn.
  - intros c xs Hc H. apply laid_bits_abs; auto.
  - apply laid_bits_empty. reflexivity.
  - apply bm_with_capacity_laid.
  - apply bm_try_with_capacity_laid.
  - intros R it xs e r c r' [H|Hf] _ Hr E; [discriminate|]. eapply bm_from_iter_laid; eauto.
  - intros R it xs e r c r' [H|Hf] _ Hr E; [discriminate|]. eapply bm_from_iter_laid; eauto.
  - intros R it w xs e r c r' w' [H|Hf] _ Hr E; [discriminate|]. eapply bm_try_from_iter_laid; eauto.
  - intros R c it xs ys e r c' r' Hc Hl _ Hr E. eapply bm_extend_laid; eauto.
  - intros R c it w xs ys e r c' r' w' Hc Hl _ Hr E. eapply bm_try_extend_laid; eauto.
  - intros c n c' o xs. apply bm_reserve_laid.
  - intros c n w c' o w' xs. apply bm_try_reserve_laid.
  - intros c n xs _ Hl H. rewrite (bm_truncate_laid c n xs Hl H). reflexivity.
Qed.

(** *** Flatten *)

Section Flat.
  Context (K : Coll) (d : LD K) (L : Laws K d) (P : cC K -> list (cA K) -> Prop)
    (LL : LLaws K d P) (n : nat) (Hn : 0 < n).

  Definition flat_laid (c : cC K) (xs : list (list (cA K))) : Prop :=
    (forall x, In x xs -> length x = n) /\ P c (concat xs).

  Lemma flat_rows (xs : list (list (cA K))) :
    Forall (fun x : list (cA K) => length x = n /\ Forall (l_wt d) x) xs ->
    (forall x, In x xs -> length x = n) /\ Forall (l_wt d) (concat xs).
  Proof.
    intros H. destruct (fl_wt_rows K d n xs H) as [H1 H2]. split; [|exact H2].
    apply Forall_forall. exact H1.
  Qed.
  Lemma flat_lays f : lays d P f ->
    @lays (flatten_coll K n) (flatten_ld K d n) flat_laid
      (fun R it => f R (it_flatten (N.of_nat n) it)).
  Proof.
    intros Hf R it xs e r c r' _ Hwt Hr E. destruct (flat_rows xs Hwt) as [H1 H2].
    split; [exact H1|]. eapply Hf; [| |apply (run_flatten (N.of_nat n) _ _ _ _ Hr)|exact E]; auto.
    right. apply fused_cut, cut_flatten.
  Qed.

  Lemma flatten_llaws : LLaws (flatten_coll K n) (flatten_ld K d n) flat_laid.
  Proof.
    split; unfold flatten_coll, flatten_ld; law_cbn.
    - intros c xs [Hc _] [H1 H2]. unfold fl_abs. rewrite (ll_abs _ _ _ LL _ _ Hc H2).
      apply chunks_concat; auto. apply Forall_forall. exact H1.
    - split; [contradiction|apply (ll_default _ _ _ LL)].
    - intros m c. unfold fl_with_capacity. destruct (strict_mul m (N.of_nat n)); [|discriminate].
      intros E. split; [contradiction|apply (ll_with_capacity _ _ _ LL _ _ E)].
    - intros m w c w'. unfold fl_try_with_capacity. destruct (checked_mul m (N.of_nat n)); [|discriminate].
      intros E. split; [contradiction|apply (ll_try_with_capacity _ _ _ LL _ _ _ _ E)].
    - apply (flat_lays (fun R => @k_from_iter K R)), (ll_from_iter _ _ _ LL).
    - apply (flat_lays (fun R => @k_from_iter_in K R)), (ll_from_iter_in _ _ _ LL).
    - intros R it w xs e r c r' w' _ Hwt Hr E. destruct (flat_rows xs Hwt) as [H1 H2].
      split; [exact H1|]. eapply (ll_try_from_iter _ _ _ LL);
        [| |apply (run_flatten (N.of_nat n) _ _ _ _ Hr)|exact E]; auto.
      right. apply fused_cut, cut_flatten.
    - intros R c it xs ys e r c' r' [Hc _] [P1 P2] Hwt Hr E. destruct (flat_rows ys Hwt) as [H1 H2].
      split; [intros x Hx; apply in_app_or in Hx; destruct Hx; auto|]. rewrite concat_app.
      eapply (ll_extend _ _ _ LL); [exact Hc|exact P2|exact H2
        |apply (run_flatten (N.of_nat n) _ _ _ _ Hr)|exact E].
    - intros R c it w xs ys e r c' r' w' [Hc _] [P1 P2] Hwt Hr E. destruct (flat_rows ys Hwt) as [H1 H2].
      split; [intros x Hx; apply in_app_or in Hx; destruct Hx; auto|]. rewrite concat_app.
      eapply (ll_try_extend _ _ _ LL); [exact Hc|exact P2|exact H2
        |apply (run_flatten (N.of_nat n) _ _ _ _ Hr)|exact E].
    - intros c m c' o xs [Hc _] [P1 P2]. unfold fl_reserve.
      destruct (strict_mul m (N.of_nat n)); intros E.
      + split; [exact P1|apply (ll_reserve _ _ _ LL _ _ _ _ _ Hc P2 E)].
      + inversion E; subst. split; assumption.
    - intros c m w c' o w' xs [Hc _] [P1 P2]. unfold fl_try_reserve.
      destruct (checked_mul m (N.of_nat n)); intros E.
      + split; [exact P1|apply (ll_try_reserve _ _ _ LL _ _ _ _ _ _ _ Hc P2 E)].
      + inversion E; subst. split; assumption.
    - intros c m xs Hc [P1 P2] Hm. unfold fl_truncate. rewrite (fl_len_spec K d L n Hn c Hc).
      assert (Ha : fl_abs K d n c = xs).
      { unfold fl_abs. rewrite (ll_abs _ _ _ LL _ _ (proj1 Hc) P2). apply chunks_concat; auto.
        apply Forall_forall. exact P1. }
      rewrite Ha. unfold lenN in Hm.
      assert ((m <? N.of_nat (length xs))%N = false) as -> by lia. reflexivity.
  Qed.
End Flat.

(** *** Validity *)

Section Null.
  Context (K : Coll) (d : LD K) (L : Laws K d) (P : cC K -> list (cA K) -> Prop)
    (LL : LLaws K d P).

  Definition null_laid (v : validity (cC K)) (xs : list (option (cA K))) : Prop :=
    P (va_coll v) (map (dflt K) xs) /\
    match va_bm v with
    | Some b => laid_bits b (map is_some xs)
    | None => forall x, In x xs -> x <> None
    end.

  Lemma all_some (xs : list (option (cA K))) : (forall x, In x xs -> x <> None) ->
    map is_some xs = repeat true (length xs).
  Proof.
    induction xs as [|[x|] xs IH]; intros H; cbn [map length repeat is_some]; [auto| |].
    - f_equal. apply IH. intros y Hy. apply H. right; auto.
    - exfalso. apply (H None); [left|]; auto.
  Qed.
  Lemma null_materialize v v1 o xs : va_inv K d v -> null_laid v xs -> va_materialize K v = (v1, o) ->
    null_laid v1 xs /\ va_coll v1 = va_coll v.
  Proof.
    intros [Hv _] Hl. unfold va_materialize. destruct (va_bm v) as [b|] eqn:Eb.
    - intros E; inversion E; subst. auto.
    - rewrite (lw_len _ _ L _ Hv). destruct (bm_all_set _) as [b| | |] eqn:Ea;
        intros E; inversion E; subst; auto.
      cbn [va_coll]. split; [|reflexivity]. destruct Hl as [H1 H2]. rewrite Eb in H2.
      split; [exact H1|]. cbn [va_bm]. rewrite (all_some xs H2). apply bm_all_set_laid in Ea.
      rewrite (ll_abs _ _ _ LL _ _ Hv H1), map_length in Ea. exact Ea.
  Qed.
  Lemma null_try_materialize v w v1 o w1 xs : va_inv K d v -> null_laid v xs ->
    va_try_materialize K v w = (v1, o, w1) -> null_laid v1 xs /\ va_coll v1 = va_coll v.
  Proof.
    intros [Hv _] Hl. unfold va_try_materialize. destruct (va_bm v) as [b|] eqn:Eb.
    - intros E; inversion E; subst. auto.
    - rewrite (lw_len _ _ L _ Hv). destruct (bm_try_all_set _ w) as [[b| | |] w2] eqn:Ea;
        intros E; inversion E; subst; auto.
      cbn [va_coll]. split; [|reflexivity]. destruct Hl as [H1 H2]. rewrite Eb in H2.
      split; [exact H1|]. cbn [va_bm]. rewrite (all_some xs H2). apply bm_try_all_set_laid in Ea.
      rewrite (ll_abs _ _ _ LL _ _ Hv H1), map_length in Ea. exact Ea.
  Qed.

  Lemma Forall_skip {A} (Q : A -> Prop) : forall (xs : list A) k, Forall Q xs -> Forall Q (skipn k xs).
  Proof. induction xs as [|x xs IH]; intros [|k] H; cbn [skipn]; auto. inversion H; auto. Qed.
  Lemma null_loop {R} : forall fuel c b (it : iter (option (cA K)) R) xs os e r c' b' r',
    l_inv d c -> bm_ok b -> P c (map (dflt K) xs) -> laid_bits b (map is_some xs) ->
    Forall (l_wt d) (map (dflt K) os) -> run it = (os, e, r) ->
    va_extend_loop K fuel c b it = (c', b', r', ODone) ->
    P c' (map (dflt K) (xs ++ os)) /\ laid_bits b' (map is_some (xs ++ os)).
  Proof.
    induction fuel as [|fuel IH]; intros c b it xs os e r c' b' r' Hc Hb Pc Pb Hwt Hr;
      [discriminate|]. cbn [va_extend_loop].
    destruct (k_extend K c (va_chunk K it)) as [[c1 [it1 vs]] o1] eqn:E1.
    destruct o1; try discriminate.
    destruct (bm_extend b (it_list vs)) as [[b1 u] o2] eqn:E2. destruct o2; try discriminate.
    destruct (va_chunk_run K it os e r Hr) as (it' & [(Hl & Hrc & Hr1 & _)|(Hl & Hrc & Hs)]).
    - assert (Hwt1 : Forall (l_wt d) (map (dflt K) (firstn chunk os))).
      { rewrite <- firstn_map. apply Forall_firstn; auto. }
      destruct (lw_extend _ _ L _ _ _ _ _ _ _ _ _ Hc Hwt1 Hrc E1) as [(_ & Hrr & Hc1 & _) _].
      assert (it1 = it' /\ vs = map is_some (firstn chunk os)) as [-> ->] by (split; congruence).
      pose proof (ll_extend _ _ _ LL _ _ _ _ _ _ _ _ _ Hc Pc Hwt1 Hrc E1) as Pc1.
      pose proof (bm_extend_laid _ _ _ _ _ _ _ _ Hb Pb (run_list _) E2) as Pb1.
      pose proof (bm_extend_spec _ _ _ _ _ _ _ _ Hb (run_list _) E2) as [Hb1 _].
      rewrite <- map_app in Pc1, Pb1. rewrite map_length, firstn_length, Nat.min_l by lia.
      rewrite Nat.ltb_irrefl. intros E.
      eapply IH in E; [|exact Hc1|exact Hb1|exact Pc1|exact Pb1| |exact Hr1].
      + rewrite <- app_assoc, firstn_skipn in E. exact E.
      + rewrite <- skipn_map. apply Forall_skip; auto.
    - destruct (lw_extend _ _ L _ _ _ _ _ _ _ _ _ Hc Hwt Hrc E1) as [(_ & Hrr & _) _].
      inversion Hrr; subst it1 vs; clear Hrr.
      pose proof (ll_extend _ _ _ LL _ _ _ _ _ _ _ _ _ Hc Pc Hwt Hrc E1) as Pc1.
      pose proof (bm_extend_laid _ _ _ _ _ _ _ _ Hb Pb (run_list _) E2) as Pb1.
      rewrite <- map_app in Pc1, Pb1. rewrite map_length.
      assert ((length os <? chunk) = true) as -> by (apply Nat.ltb_lt; auto).
      intros E; inversion E; subst. auto.
  Qed.
  Lemma null_try_loop {R} : forall fuel len c b (it : iter (option (cA K)) R) w xs os e r c' b' r' w',
    l_inv d c -> bm_ok b -> P c (map (dflt K) xs) -> laid_bits b (map is_some xs) ->
    Forall (l_wt d) (map (dflt K) os) -> run it = (os, e, r) ->
    va_try_extend_loop K fuel len c b it w = (c', b', r', ODone, w') ->
    P c' (map (dflt K) (xs ++ os)) /\ laid_bits b' (map is_some (xs ++ os)).
  Proof.
    assert (Hroll : forall c b len, l_inv d c -> bm_ok b -> snd (va_rollback K c b len) = OErr).
    { intros c b len Hc Hb. destruct (va_rollback K c b len) as [[c1 b1] o1] eqn:E.
      apply (va_rollback_spec K d L) in E; auto. apply E. }
    induction fuel as [|fuel IH]; intros len c b it w xs os e r c' b' r' w' Hc Hb Pc Pb Hwt Hr;
      [discriminate|]. cbn [va_try_extend_loop].
    destruct (k_try_extend K c (va_chunk K it) w) as [[[c1 [it1 vs]] o1] w1] eqn:E1.
    destruct (va_chunk_run K it os e r Hr) as (it' & Hcase).
    assert (Hrun : exists os1 e1 rr1, run (va_chunk K it) = (map (dflt K) os1, e1, rr1) /\
      Forall (l_wt d) (map (dflt K) os1)).
    { destruct Hcase as [(_ & Hrc & _)|(_ & Hrc & _)].
      - do 3 eexists. split; [exact Hrc|]. rewrite <- firstn_map. apply Forall_firstn; auto.
      - do 3 eexists. split; [exact Hrc|auto]. }
    destruct Hrun as (os1 & e1 & rr1 & Hrun & Hwtc).
    pose proof (lw_try_extend _ _ L _ _ _ _ _ _ _ _ _ _ _ Hc Hwtc Hrun E1) as Hex.
    clear os1 e1 rr1 Hrun Hwtc || idtac.
    destruct o1; try discriminate.
    2:{ destruct Hex as (Hc1 & _). pose proof (Hroll c1 b len Hc1 Hb) as Ho.
        destruct (va_rollback K c1 b len) as [[c2 b2] o2]. cbn [snd] in Ho. subst o2. discriminate. }
    destruct Hex as (_ & _ & Hc1 & _).
    destruct (bm_try_extend b (it_list vs) w1) as [[[b1 u] o2] w2] eqn:E2.
    pose proof (bm_try_extend_list _ _ _ _ _ _ _ Hb E2) as Hbx.
    destruct o2; try discriminate.
    2:{ destruct Hbx as (Hb1 & _). pose proof (Hroll c1 b1 len Hc1 Hb1) as Ho.
        destruct (va_rollback K c1 b1 len) as [[c2 b2] o2]. cbn [snd] in Ho. subst o2. discriminate. }
    destruct Hbx as (Hb1 & _).
    destruct Hcase as [(Hl & Hrc & Hr1 & _)|(Hl & Hrc & Hs)].
    - assert (Hwt1 : Forall (l_wt d) (map (dflt K) (firstn chunk os))).
      { rewrite <- firstn_map. apply Forall_firstn; auto. }
      destruct (lw_try_extend _ _ L _ _ _ _ _ _ _ _ _ _ _ Hc Hwt1 Hrc E1) as (_ & Hrr & _).
      assert (it1 = it' /\ vs = map is_some (firstn chunk os)) as [-> ->] by (split; congruence).
      pose proof (ll_try_extend _ _ _ LL _ _ _ _ _ _ _ _ _ _ _ Hc Pc Hwt1 Hrc E1) as Pc1.
      pose proof (bm_try_extend_laid _ _ _ _ _ _ _ _ _ _ Hb Pb (run_list _) E2) as Pb1.
      rewrite <- map_app in Pc1, Pb1. rewrite map_length, firstn_length, Nat.min_l by lia.
      rewrite Nat.ltb_irrefl. intros E.
      eapply IH in E; [|exact Hc1|exact Hb1|exact Pc1|exact Pb1| |exact Hr1].
      + rewrite <- app_assoc, firstn_skipn in E. exact E.
      + rewrite <- skipn_map. apply Forall_skip; auto.
    - destruct (lw_try_extend _ _ L _ _ _ _ _ _ _ _ _ _ _ Hc Hwt Hrc E1) as (_ & Hrr & _).
      inversion Hrr; subst it1 vs; clear Hrr.
      pose proof (ll_try_extend _ _ _ LL _ _ _ _ _ _ _ _ _ _ _ Hc Pc Hwt Hrc E1) as Pc1.
      pose proof (bm_try_extend_laid _ _ _ _ _ _ _ _ _ _ Hb Pb (run_list _) E2) as Pb1.
      rewrite <- map_app in Pc1, Pb1. rewrite map_length.
      assert ((length os <? chunk) = true) as -> by (apply Nat.ltb_lt; auto).
      intros E; inversion E; subst. auto.
  Qed.

  Lemma null_extend {R} v (it : iter (option (cA K)) R) xs os e r v' r' :
    va_inv K d v -> null_laid v xs -> Forall (l_wt d) (map (dflt K) os) -> run it = (os, e, r) ->
    va_extend K v it = (v', r', ODone) -> null_laid v' (xs ++ os).
  Proof.
    intros Hv Hl Hwt Hr. unfold va_extend.
    destruct (va_materialize K v) as [v1 o1] eqn:E1.
    destruct (null_materialize _ _ _ _ Hv Hl E1) as [[P1 P2] _].
    destruct (va_materialize_spec K d L _ _ _ Hv E1) as [(-> & b & Hp)|(-> & -> & Hbig)]; [|discriminate].
    pose proof Hp as (Hb & _ & [Hc1 Hok] & _). rewrite Hb in *.
    pose proof P2 as (_ & Hbits & _).
    rewrite (ll_truncate _ _ _ LL _ _ _ Hc1 P1)
      by (unfold lenN, bm_len; rewrite Hbits, !map_length; lia).
    destruct (va_extend_loop K _ (va_coll v1) b it) as [[[c3 b3] r3] o3] eqn:E3.
    intros E; inversion E; subst; clear E.
    apply (null_loop _ _ _ _ _ _ _ _ _ _ _ Hc1 (proj1 Hok) P1 P2 Hwt Hr E3).
  Qed.
  Lemma null_try_extend {R} v (it : iter (option (cA K)) R) w xs os e r v' r' w' :
    va_inv K d v -> null_laid v xs -> Forall (l_wt d) (map (dflt K) os) -> run it = (os, e, r) ->
    va_try_extend K v it w = (v', r', ODone, w') -> null_laid v' (xs ++ os).
  Proof.
    intros Hv Hl Hwt Hr. unfold va_try_extend.
    rewrite (va_len_spec K d L v Hv), va_abs_length by auto.
    destruct (va_try_materialize K v w) as [[v1 o1] w1] eqn:E1.
    destruct (null_try_materialize _ _ _ _ _ _ Hv Hl E1) as [[P1 P2] _].
    destruct (va_try_materialize_spec K d L _ _ _ _ _ Hv E1) as [(-> & b & Hp)|(-> & ->)]; [|discriminate].
    pose proof Hp as (Hb & _ & [Hc1 Hok] & Hbits & _). rewrite Hb in *.
    rewrite <- Hbits. unfold va_bits. rewrite Hb.
    rewrite (ll_truncate _ _ _ LL _ _ _ Hc1 P1)
      by (rewrite (laid_bits_abs _ _ (proj1 Hok) P2); unfold lenN; rewrite !map_length; lia).
    destruct (va_try_extend_loop K _ _ (va_coll v1) b it w1) as [[[[c3 b3] r3] o3] w3] eqn:E3.
    intros E; inversion E; subst; clear E.
    apply (null_try_loop _ _ _ _ _ _ _ _ _ _ _ _ _ _ Hc1 (proj1 Hok) P1 P2 Hwt Hr E3).
  Qed.

  Lemma insp_laid : forall (os : list (option (cA K))) b xs b', bm_ok b -> laid_bits b xs ->
    insp (push_bit K) b os = Some b' -> laid_bits b' (xs ++ map is_some os).
  Proof.
    induction os as [|o os IH]; intros b xs b' Hb Hl; cbn [insp map].
    - intros E; inversion E; subst. rewrite app_nil_r. exact Hl.
    - unfold push_bit at 1. destruct (bm_extend b (it_list [is_some o])) as [[b1 u] o1] eqn:E1.
      destruct o1; try discriminate. intros E.
      pose proof (bm_extend_laid _ _ _ _ _ _ _ _ Hb Hl (run_list _) E1) as H1.
      pose proof (bm_extend_spec _ _ _ _ _ _ _ _ Hb (run_list _) E1) as [Hb1 _].
      apply (IH _ _ _ Hb1 H1) in E. rewrite <- app_assoc in E. exact E.
  Qed.
  Lemma null_lays (f : forall R, iter (cA K) R -> bres (cC K) * R) : collects d f -> lays d P f ->
    @lays (validity_coll K) (validity_ld K d) null_laid (fun R => va_collect K f).
  Proof.
    intros Hf Hp R it os e r v r' Hfu Hwt0 Hr. unfold va_collect.
    change (list (option (cA K))) in os. change (iter (option (cA K)) R) in it.
    assert (Hwt : Forall (l_wt d) (map (dflt K) os)) by (apply (va_wt_dflt K d L); exact Hwt0).
    change (l_nofuse d = true \/ fused it) in Hfu.
    pose proof (bm_with_capacity_spec (upper_or_lower (it_hint it))) as Hw.
    destruct (bm_with_capacity (upper_or_lower (it_hint it))) as [b0| | |] eqn:Ew;
      try discriminate.
    pose proof (bm_with_capacity_laid _ _ Ew) as Hl0. destruct Hw as (Hb0 & _).
    destruct (f (R * bitmap)%type
      (it_map (unwrap_or (k_item0 K)) (it_inspect (push_bit K) b0 it)))
      as [res1 [r1 b1]] eqn:E1.
    destruct res1 as [c| | |]; cbn [bmap]; try discriminate.
    intros E; inversion E; subst; clear E.
    assert (Hfu' : l_nofuse d = true \/
      fused (it_map (unwrap_or (k_item0 K)) (it_inspect (push_bit K) b0 it))).
    { destruct Hfu; auto. right. apply fused_map, fused_inspect; auto. }
    destruct (insp (push_bit K) b0 os) as [b'|] eqn:Ei.
    - pose proof (run_inspect _ _ _ _ _ _ _ Hr Ei) as Hr1.
      pose proof (run_map (unwrap_or (k_item0 K)) _ _ _ _ Hr1) as Hr2.
      destruct (Hf _ _ _ _ _ _ _ Hfu' Hwt Hr2 E1) as [(-> & H3 & H4 & _) _].
      pose proof (Hp _ _ _ _ _ _ _ Hfu' Hwt Hr2 E1) as Pc.
      assert (Hb1 : b1 = b').
      { destruct Hfu as [Hn|Hn].
        - specialize (H3 Hn). congruence.
        - assert (Hin : In (r', b1) (after (it_inspect (push_bit K) b0 it))).
          { rewrite <- (after_map (unwrap_or (k_item0 K))). apply H4.
            apply fused_map, fused_inspect; auto. }
          eapply (after_inspect _ _ _ _ _ _ _ Hn Hr Ei) in Hin. apply Hin. }
      subst b1. split; cbn [va_coll va_bm]; [exact Pc|].
      exact (insp_laid _ _ _ _ Hb0 Hl0 Ei).
    - destruct (run_inspect_none _ _ _ _ _ _ Hr Ei) as (k & rr & Hr1).
      pose proof (run_map (unwrap_or (k_item0 K)) _ _ _ _ Hr1) as Hr2.
      assert (Hwt' : Forall (l_wt d) (map (unwrap_or (k_item0 K)) (firstn k os))).
      { rewrite <- firstn_map. apply Forall_firstn; auto. }
      destruct (Hf _ _ _ _ _ _ _ Hfu' Hwt' Hr2 E1) as [(H1 & _) _]. discriminate.
  Qed.

  Lemma null_try_with_capacity n w v w' : va_try_with_capacity K n w = (BOk v, w') -> null_laid v [].
  Proof.
    unfold va_try_with_capacity.
    destruct (k_try_with_capacity K n w) as [[c| | |] w1] eqn:Ec; try discriminate.
    apply (ll_try_with_capacity _ _ _ LL) in Ec.
    destruct (bm_try_with_capacity n w1) as [[b| | |] w2] eqn:Eb; try discriminate.
    apply bm_try_with_capacity_laid in Eb. cbn [bmap].
    intros E; inversion E; subst. split; cbn [va_coll va_bm map]; assumption.
  Qed.

  Lemma null_try_from_iter {R} (it : iter (option (cA K)) R) w xs e r v r' w' :
    Forall (l_wt d) (map (dflt K) xs) -> run it = (xs, e, r) ->
    va_try_from_iter K it w = (BOk v, r', w') -> null_laid v xs.
  Proof.
    intros Hx Hr. unfold va_try_from_iter.
    destruct (va_try_with_capacity K (upper_or_lower (it_hint it)) w) as [res1 w1] eqn:E1.
    pose proof (lw_try_with_capacity _ _ (validity_laws K d L) _ _ _ _ E1) as H1.
    destruct res1 as [v0| | |]; try discriminate.
    apply null_try_with_capacity in E1.
    destruct (va_try_extend K v0 it w1) as [[[v' r1] o] w3] eqn:E3.
    destruct o; try discriminate. intros E; inversion E; subst.
    exact (null_try_extend v0 it w1 [] xs e r _ _ _ (proj1 H1) E1 Hx Hr E3).
  Qed.

  Lemma validity_llaws : LLaws (validity_coll K) (validity_ld K d) null_laid.
  Proof.
    assert (Hwt : forall os, Forall (l_wt (validity_ld K d)) os -> Forall (l_wt d) (map (dflt K) os)).
    { intros os H. apply (va_wt_dflt K d L). exact H. }
    pose proof (validity_laws K d L) as V.
    split.
    - intros v xs [Hc Hb] [P1 P2]. change (va_abs K d v = xs). unfold va_abs, va_bits.
      rewrite (ll_abs _ _ _ LL _ _ Hc P1). destruct (va_bm v) as [b|].
      + rewrite (laid_bits_abs _ _ (proj1 Hb) P2). apply mask_options.
      + rewrite map_length, <- (all_some xs P2). apply mask_options.
    - split; cbn [va_coll va_bm map k_default validity_coll]; [apply (ll_default _ _ _ LL)|contradiction].
    - intros n v E. change (va_with_capacity K n = BOk v) in E. unfold va_with_capacity in E.
      destruct (k_with_capacity K n) as [c| | |] eqn:Ec; try discriminate.
      apply (ll_with_capacity _ _ _ LL) in Ec.
      destruct (bm_with_capacity n) as [b| | |] eqn:Eb; try discriminate.
      apply bm_with_capacity_laid in Eb. cbn [bmap] in E.
      inversion E; subst. split; cbn [va_coll va_bm map]; assumption.
    - intros n w v w' E. exact (null_try_with_capacity n w v w' E).
    - apply (null_lays (fun R => @k_from_iter K R)); [apply (lw_from_iter _ _ L)|apply (ll_from_iter _ _ _ LL)].
    - apply (null_lays (fun R => @k_from_iter_in K R)); [apply (lw_from_iter_in _ _ L)|apply (ll_from_iter_in _ _ _ LL)].
    - intros R it w xs e r v r' w' _ Hx Hr E.
      exact (null_try_from_iter it w xs e r v r' w' (Hwt _ Hx) Hr E).
    - intros R v it xs ys e r v' r' Hv Hl Hx Hr E.
      exact (null_extend v it xs ys e r v' r' Hv Hl (Hwt _ Hx) Hr E).
    - intros R v it w xs ys e r v' r' w' Hv Hl Hx Hr E.
      exact (null_try_extend v it w xs ys e r v' r' w' Hv Hl (Hwt _ Hx) Hr E).
    - intros v n v' o xs Hv Hl E. change (va_inv K d v) in Hv. change (va_reserve K v n = (v', o)) in E.
      unfold va_reserve in E. destruct (va_materialize K v) as [v1 o1] eqn:E1.
      destruct (null_materialize _ _ _ _ Hv Hl E1) as [[P1 P2] _].
      destruct (va_materialize_spec K d L _ _ _ Hv E1) as [(-> & b & Hp)|(-> & -> & Hbig)].
      + pose proof Hp as (Hb & _ & [Hc1 Hok] & _). rewrite Hb in *.
        destruct (bm_reserve b n) as [b2 o2] eqn:E2.
        pose proof (bm_reserve_laid _ _ _ _ _ (proj1 Hok) P2 E2) as B2.
        destruct o2; try (inversion E; subst; split; assumption).
        destruct (k_reserve K (va_coll v1) n) as [c3 o3] eqn:E3.
        pose proof (ll_reserve _ _ _ LL _ _ _ _ _ Hc1 P1 E3) as C3.
        inversion E; subst. split; assumption.
      + inversion E; subst. exact Hl.
    - intros v n w v' o w' xs Hv Hl E. change (va_inv K d v) in Hv.
      change (va_try_reserve K v n w = (v', o, w')) in E.
      unfold va_try_reserve in E. destruct (va_try_materialize K v w) as [[v1 o1] w1] eqn:E1.
      destruct (null_try_materialize _ _ _ _ _ _ Hv Hl E1) as [[P1 P2] _].
      destruct (va_try_materialize_spec K d L _ _ _ _ _ Hv E1) as [(-> & b & Hp)|(-> & ->)].
      + pose proof Hp as (Hb & _ & [Hc1 Hok] & _). rewrite Hb in *.
        destruct (k_try_reserve K (va_coll v1) n w1) as [[c2 o2] w2] eqn:E2.
        pose proof (ll_try_reserve _ _ _ LL _ _ _ _ _ _ _ Hc1 P1 E2) as C2.
        destruct o2; try (inversion E; subst; split; assumption).
        destruct (bm_try_reserve b n w2) as [[b3 o3] w3] eqn:E3.
        pose proof (bm_try_reserve_laid _ _ _ _ _ _ _ (proj1 Hok) P2 E3) as B3.
        inversion E; subst. split; assumption.
      + inversion E; subst. exact Hl.
    - intros v n xs [Hc Hb] [P1 P2] Hn. change (va_truncate K v n = (v, ODone)).
      unfold va_truncate. rewrite (ll_truncate _ _ _ LL _ _ _ Hc P1)
        by (unfold lenN in *; rewrite map_length; exact Hn).
      destruct v as [c [b|]]; cbn [va_coll va_bm option_map] in *; [|reflexivity].
      rewrite (bm_truncate_laid b n _ P2); [reflexivity|]. unfold lenN in *. rewrite map_length. exact Hn.
  Qed.
End Null.

(** *** Offsets *)

Section Lists.
  Context (K : Coll) (d : LD K) (L : Laws K d) (P : cC K -> list (cA K) -> Prop)
    (LL : LLaws K d P) (kd : okind).

  Definition list_laid (o : offsets (cC K)) (xs : list (list (cA K))) : Prop :=
    P (of_data o) (concat xs) /\ v_items (of_offs o) = arrow_offsets 0 xs.

  Lemma arrow_ends : forall (xs : list (list (cA K))) p,
    arrow_offsets (Z.of_nat p) xs = Z.of_nat p :: ends p xs.
  Proof.
    induction xs as [|x xs IH]; intros p; cbn [arrow_offsets ends]; [reflexivity|].
    f_equal. rewrite <- Nat2Z.inj_add, IH. reflexivity.
  Qed.
  Lemma list_laid_tight o xs : tight K d kd o xs -> P (of_data o) (concat xs) -> list_laid o xs.
  Proof.
    intros (_ & _ & H & _) HP. split; [exact HP|]. rewrite H. symmetry. exact (arrow_ends xs 0).
  Qed.
  Lemma ends_inj : forall (xs ys : list (list (cA K))) p, ends p xs = ends p ys ->
    concat xs = concat ys -> xs = ys.
  Proof.
    induction xs as [|x xs IH]; intros [|y ys] p; cbn [ends]; try discriminate; auto.
    cbn [concat]. intros E1 E2. inversion E1 as [[H1 H2]].
    assert (Hl : length x = length y) by lia.
    assert (x = y).
    { apply (f_equal (firstn (length x))) in E2. rewrite firstn_app_exact in E2 by auto.
      rewrite firstn_app_exact in E2 by auto. exact E2. }
    subst y. f_equal. apply (IH ys (p + length x)); auto. apply app_inv_head in E2. exact E2.
  Qed.
  Lemma list_laid_rep o xs : of_inv K d kd o -> list_laid o xs ->
    tight K d kd o xs.
  Proof.
    intros [ls (H1 & H2 & H3 & (rest & H4) & H5)] [P1 P2].
    pose proof (ll_abs _ _ _ LL _ _ H1 P1) as Ha.
    rewrite H3 in P2. change 0%Z with (Z.of_nat 0) in P2 at 2. rewrite arrow_ends in P2.
    assert (E : ends 0 ls = ends 0 xs) by congruence.
    assert (Hlen : length ls = length xs).
    { apply (f_equal (@length Z)) in E. rewrite !ends_length in E. exact E. }
    assert (Hc : length (concat ls) = length (concat xs)).
    { pose proof (ends_nth ls 0 (length ls) (le_n _)) as N1.
      pose proof (ends_nth xs 0 (length xs) (le_n _)) as N2.
      rewrite firstn_all in N1, N2. rewrite E, Hlen, N2 in N1. cbn [Nat.add] in N1.
      inversion N1. lia. }
    assert (Hcc : concat ls = concat xs).
    { rewrite Ha in H4. apply (f_equal (firstn (length (concat ls)))) in H4.
      rewrite firstn_app_exact in H4 by auto. rewrite Hc, firstn_all in H4. auto. }
    assert (ls = xs) by (apply (ends_inj _ _ 0); auto). subst ls.
    unfold tight. auto.
  Qed.

  Lemma list_extend_t {R} : forall (t : trace (list (cA K)) R) n o ls xs e r o' r',
    tight K d kd o ls -> P (of_data o) (concat ls) -> Forall (Forall (l_wt d)) xs ->
    run_t t n = (xs, e, r) ->
    of_extend_t K kd t n o (Z.of_nat (length (concat ls))) = (o', r', ODone) ->
    P (of_data o') (concat (ls ++ xs)).
  Proof.
    induction t as [|[[l| |] n'] t IH]; intros n o ls xs e r o' r' Ht HP Hwt Hr;
      cbn [of_extend_t run_t] in *.
    - inversion Hr; subst. intros E; inversion E; subst. rewrite app_nil_r. exact HP.
    - destruct (run_t t n') as [[xs1 e1] r1] eqn:Hr1. inversion Hr; subst xs e1 r1; clear Hr.
      inversion Hwt as [|? ? Hl Hwt1]; subst.
      unfold off_try_from. destruct (Z.of_N (lenN l) <=? omax kd)%Z; [|discriminate].
      unfold off_strict_add. destruct (_ && _)%bool eqn:Eb; [|discriminate].
      destruct (k_reserve K (of_data o) (lenN l)) as [d1 o1] eqn:E1. destruct o1; try discriminate.
      destruct (k_extend K d1 (it_list l)) as [[d2 u2] o2] eqn:E2. destruct o2; try discriminate.
      destruct (vec_extend (osz kd) (of_offs o) (it_list _)) as [[v3 u3] o3] eqn:E3.
      destruct o3; try discriminate.
      pose proof Ht as (T1 & T2 & T3 & T4 & T5).
      destruct (lw_reserve _ _ L _ _ _ _ T1 E1) as ((R1 & _ & R3 & _) & _).
      pose proof (ll_reserve _ _ _ LL _ _ _ _ _ T1 HP E1) as P1.
      destruct (lw_extend _ _ L _ _ _ _ _ _ _ _ _ R1 Hl (run_list l) E2) as [(_ & _ & X1 & _ & X3 & _) _].
      pose proof (ll_extend _ _ _ LL _ _ _ _ _ _ _ _ _ R1 P1 Hl (run_list l) E2) as P2.
      destruct (vec_extend_spec _ _ _ _ _ _ _ _ _ T2 (run_list _) E3) as (V1 & _ & _ & _ & _ & V4).
      assert (Hnext : (Z.of_nat (length (concat ls)) + Z.of_N (lenN l))%Z =
        Z.of_nat (length (concat (ls ++ [l])))).
      { rewrite concat_snoc, app_length. unfold lenN. lia. }
      rewrite Hnext in *. intros E.
      assert (HP2 : P (of_data (Offsets d2 v3)) (concat (ls ++ [l]))).
      { cbn [of_data]. rewrite concat_snoc. exact P2. }
      assert (Ht2 : tight K d kd (Offsets d2 v3) (ls ++ [l])).
      { apply (tight_push K d kd d2 v3 ls l o Ht X1 V1); [congruence|exact V4|lia]. }
      eapply IH in E; [|exact Ht2|exact HP2|exact Hwt1|exact Hr1].
      rewrite <- app_assoc in E. exact E.
    - inversion Hr; subst. intros E; inversion E; subst. rewrite app_nil_r. exact HP.
    - discriminate.
  Qed.
  Lemma list_try_extend_t {R} rows len : forall (t : trace (list (cA K)) R) n o ls w xs e r o' r' w',
    tight K d kd o ls -> P (of_data o) (concat ls) -> Forall (Forall (l_wt d)) xs ->
    run_t t n = (xs, e, r) ->
    of_try_extend_t K kd rows len t n o (Z.of_nat (length (concat ls))) w = (o', r', ODone, w') ->
    P (of_data o') (concat (ls ++ xs)).
  Proof.
    assert (Hroll : forall o, snd (of_rollback K o rows len) <> ODone).
    { intros o. unfold of_rollback. destruct (k_truncate K (of_data o) len) as [d1 []]; discriminate. }
    assert (Hno : forall o (x : R) (v w' : world) o' r',
      (let '(o1, e1) := of_rollback K o rows len in (o1, x, e1, v)) = (o', r', ODone, w') -> False).
    { intros o x v w' o' r'. specialize (Hroll o). destruct (of_rollback K o rows len) as [o1 e1].
      cbn [snd] in Hroll. intros E; inversion E; subst. congruence. }
    induction t as [|[[l| |] n'] t IH]; intros n o ls w xs e r o' r' w' Ht HP Hwt Hr;
      cbn [of_try_extend_t run_t] in *.
    - inversion Hr; subst. intros E; inversion E; subst. rewrite app_nil_r. exact HP.
    - destruct (run_t t n') as [[xs1 e1] r1] eqn:Hr1. inversion Hr; subst xs e1 r1; clear Hr.
      inversion Hwt as [|? ? Hl Hwt1]; subst.
      rewrite (as_usize_nat kd). unfold checked_add.
      destruct (N.of_nat (length (concat ls)) + lenN l <=? usize_max)%N;
        [|intros E; destruct (Hno _ _ _ _ _ _ E)].
      unfold off_try_from.
      destruct (Z.of_N (N.of_nat (length (concat ls)) + lenN l) <=? omax kd)%Z eqn:Em;
        [|intros E; destruct (Hno _ _ _ _ _ _ E)].
      destruct (k_try_extend K (of_data o) (it_list l) w) as [[[d2 u2] o2] w2] eqn:E2.
      destruct o2; try discriminate; [|intros E; destruct (Hno _ _ _ _ _ _ E)].
      destruct (vec_try_extend (osz kd) (of_offs o) (it_list _) w2) as [[[v3 u3] o3] w3] eqn:E3.
      destruct o3; try discriminate; [|intros E; destruct (Hno _ _ _ _ _ _ E)].
      pose proof Ht as (T1 & T2 & T3 & T4 & T5).
      destruct (lw_try_extend _ _ L _ _ _ _ _ _ _ _ _ _ _ T1 Hl (run_list l) E2)
        as (_ & _ & X1 & _ & X3 & _).
      pose proof (ll_try_extend _ _ _ LL _ _ _ _ _ _ _ _ _ _ _ T1 HP Hl (run_list l) E2) as P2.
      destruct (vec_try_extend_spec _ _ _ _ _ _ _ _ _ _ _ T2 (run_list _) E3)
        as (V1 & _ & _ & _ & V4).
      assert (Hnext : Z.of_N (N.of_nat (length (concat ls)) + lenN l) =
        Z.of_nat (length (concat (ls ++ [l])))).
      { rewrite concat_snoc, app_length. unfold lenN. lia. }
      rewrite Hnext in *. intros E.
      assert (HP2 : P (of_data (Offsets d2 v3)) (concat (ls ++ [l]))).
      { cbn [of_data]. rewrite concat_snoc. exact P2. }
      assert (Ht2 : tight K d kd (Offsets d2 v3) (ls ++ [l])).
      { apply (tight_push K d kd d2 v3 ls l o Ht X1 V1); [congruence|exact V4|lia]. }
      eapply IH in E; [|exact Ht2|exact HP2|exact Hwt1|exact Hr1].
      rewrite <- app_assoc in E. exact E.
    - inversion Hr; subst. intros E; inversion E; subst. rewrite app_nil_r. exact HP.
    - discriminate.
  Qed.

  Lemma list_extend {R} o (it : iter (list (cA K)) R) ls xs e r o' r' :
    of_inv K d kd o -> list_laid o ls -> Forall (Forall (l_wt d)) xs -> run it = (xs, e, r) ->
    of_extend K kd o it = (o', r', ODone) -> list_laid o' (ls ++ xs).
  Proof.
    intros Ho Hl Hwt Hr E. pose proof (list_laid_rep o ls Ho Hl) as Ht.
    pose proof (tight_rep _ _ _ _ _ Ht) as Hrep.
    pose proof (of_extend_spec K d L kd _ _ _ _ _ _ _ _ _ Hrep Hwt Hr E) as (H1 & _).
    apply list_laid_tight; [tauto|]. clear H1. unfold of_extend in E.
    rewrite (of_last K d kd o ls Hrep), (as_usize_nat kd) in E.
    pose proof Ht as (T1 & T2 & T3 & T4 & T5). destruct Hl as [HP _].
    rewrite (ll_truncate _ _ _ LL _ _ _ T1 HP) in E by (unfold lenN; lia).
    replace (Offsets (of_data o) (of_offs o)) with o in E by (destruct o; reflexivity).
    eapply list_extend_t; [exact Ht|exact HP|exact Hwt|exact Hr|exact E].
  Qed.
  Lemma list_try_extend {R} o (it : iter (list (cA K)) R) w ls xs e r o' r' w' :
    of_inv K d kd o -> list_laid o ls -> Forall (Forall (l_wt d)) xs -> run it = (xs, e, r) ->
    of_try_extend K kd o it w = (o', r', ODone, w') -> list_laid o' (ls ++ xs).
  Proof.
    intros Ho Hl Hwt Hr E. pose proof (list_laid_rep o ls Ho Hl) as Ht.
    pose proof (tight_rep _ _ _ _ _ Ht) as Hrep.
    pose proof (of_try_extend_spec K d L kd _ _ _ _ _ _ _ _ _ _ _ Hrep Hwt Hr E) as H1.
    apply list_laid_tight; [apply H1|]. clear H1. unfold of_try_extend in E.
    rewrite (of_len_spec K d kd o ls Hrep), (of_last K d kd o ls Hrep), (as_usize_nat kd) in E.
    pose proof Ht as (T1 & T2 & T3 & T4 & T5). destruct Hl as [HP _].
    rewrite (ll_truncate _ _ _ LL _ _ _ T1 HP) in E by (unfold lenN; lia).
    replace (Offsets (of_data o) (of_offs o)) with o in E by (destruct o; reflexivity).
    eapply list_try_extend_t; [exact Ht|exact HP|exact Hwt|exact Hr|exact E].
  Qed.

  Lemma list_start o : fresh (offsets_ld K d kd) o [] -> P (of_data o) [] -> list_laid o [].
  Proof.
    intros (H1 & _ & H2 & _) HP. split; [exact HP|].
    change (of_inv K d kd o) in H1. change (of_abs K d o = []) in H2.
    destruct H1 as [ls Hls]. pose proof (of_rep_abs K d kd _ _ Hls) as Ha.
    rewrite H2 in Ha. subst ls. apply Hls.
  Qed.
  Lemma list_with_capacity n o : of_with_capacity K kd n = BOk o -> list_laid o [].
  Proof.
    intros E. pose proof (of_with_capacity_spec K d L kd n) as H. rewrite E in H.
    apply list_start; [apply H|]. unfold of_with_capacity in E.
    destruct (k_with_capacity K n) as [c| | |] eqn:Ec; try discriminate.
    apply (ll_with_capacity _ _ _ LL) in Ec.
    destruct (strict_add n 1); [|discriminate].
    destruct (vec_with_capacity _ _); try discriminate. inversion E; subst. exact Ec.
  Qed.
  Lemma list_try_with_capacity n w o w' : of_try_with_capacity K kd n w = (BOk o, w') -> list_laid o [].
  Proof.
    intros E. pose proof (lw_try_with_capacity _ _ (offsets_laws K d L kd) n w _ _ E) as H.
    apply list_start; [exact H|]. unfold of_try_with_capacity in E.
    destruct (checked_add n 1); [|discriminate].
    destruct (k_try_with_capacity K n w) as [[c| | |] w1] eqn:Ec; try discriminate.
    apply (ll_try_with_capacity _ _ _ LL) in Ec.
    destruct (vec_try_with_capacity _ _ _) as [[v| | |] w2]; try discriminate.
    destruct (vec_try_extend _ _ _ _) as [[[v' u] []] w3]; try discriminate.
    inversion E; subst. exact Ec.
  Qed.
  Lemma list_from_iter_in {R} (it : iter (list (cA K)) R) xs e r o r' :
    Forall (Forall (l_wt d)) xs -> run it = (xs, e, r) ->
    of_from_iter_in K kd it = (BOk o, r') -> list_laid o xs.
  Proof.
    intros Hwt Hr. unfold of_from_iter_in.
    pose proof (of_with_capacity_spec K d L kd (upper_or_lower (it_hint it))) as H.
    destruct (of_with_capacity K kd (upper_or_lower (it_hint it))) as [o0| | |] eqn:E0; try discriminate.
    apply list_with_capacity in E0. destruct H as [[H _] _].
    destruct (of_extend K kd o0 it) as [[o1 r1] e1] eqn:E1. destruct e1; try discriminate.
    intros E; inversion E; subst.
    exact (list_extend _ _ _ _ _ _ _ _ H E0 Hwt Hr E1).
  Qed.
  Lemma list_try_from_iter {R} (it : iter (list (cA K)) R) w xs e r o r' w' :
    Forall (Forall (l_wt d)) xs -> run it = (xs, e, r) ->
    of_try_from_iter K kd it w = (BOk o, r', w') -> list_laid o xs.
  Proof.
    intros Hwt Hr. unfold of_try_from_iter.
    destruct (of_try_with_capacity K kd (upper_or_lower (it_hint it)) w) as [res w1] eqn:E0.
    pose proof (lw_try_with_capacity _ _ (offsets_laws K d L kd) _ _ _ _ E0) as H.
    destruct res as [o0| | |]; try discriminate.
    apply list_try_with_capacity in E0. destruct H as [H _].
    destruct (of_try_extend K kd o0 it w1) as [[[o1 r1] e1] w2] eqn:E1. destruct e1; try discriminate.
    intros E; inversion E; subst.
    exact (list_try_extend _ _ _ _ _ _ _ _ _ _ H E0 Hwt Hr E1).
  Qed.

  Lemma list_truncate o n (xs : list (list (cA K))) : of_inv K d kd o -> list_laid o xs ->
    (lenN xs <= n)%N -> of_truncate K o n = (o, ODone).
  Proof.
    intros Ho Hl Hn. pose proof (list_laid_rep o xs Ho Hl) as Ht. apply tight_rep in Ht.
    unfold of_truncate. rewrite (of_len_spec K d kd o xs Ht). unfold lenN in Hn.
    assert ((n <? N.of_nat (length xs))%N = false) as -> by lia. reflexivity.
  Qed.
  Lemma offsets_llaws : LLaws (offsets_coll K kd) (offsets_ld K d kd) list_laid.
  Proof.
    split.
    - intros o xs Ho Hl. change (of_abs K d o = xs). apply (of_rep_abs K d kd).
      apply tight_rep, list_laid_rep; assumption.
    - destruct (of_default_spec K d L kd) as [_ H]. apply list_start; [exact H|].
      apply (ll_default _ _ _ LL).
    - exact list_with_capacity.
    - exact list_try_with_capacity.
    - intros R it xs e r o r' _ Hwt Hr E. change (of_from_iter K kd it = (BOk o, r')) in E.
      unfold of_from_iter in E. destruct (of_default_spec K d L kd) as [_ H].
      pose proof (list_start _ H (ll_default _ _ _ LL)) as H0.
      destruct (of_extend K kd (of_default K kd) it) as [[o1 r1] e1] eqn:E1.
      destruct e1; try discriminate. inversion E; subst.
      exact (list_extend _ _ _ _ _ _ _ _ (proj1 H) H0 Hwt Hr E1).
    - intros R it xs e r o r' _ Hwt Hr E. exact (list_from_iter_in it xs e r o r' Hwt Hr E).
    - intros R it w xs e r o r' w' _ Hwt Hr E. exact (list_try_from_iter it w xs e r o r' w' Hwt Hr E).
    - intros R o it xs ys e r o' r' Ho Hl Hwt Hr E.
      exact (list_extend o it xs ys e r o' r' Ho Hl Hwt Hr E).
    - intros R o it w xs ys e r o' r' w' Ho Hl Hwt Hr E.
      exact (list_try_extend o it w xs ys e r o' r' w' Ho Hl Hwt Hr E).
    - intros o n o' e xs [ls (H1 & H2 & _)] [P1 P2] E. change (of_reserve K kd o n = (o', e)) in E.
      unfold of_reserve in E.
      destruct (k_reserve K (of_data o) n) as [d1 o1] eqn:E1.
      pose proof (ll_reserve _ _ _ LL _ _ _ _ _ H1 P1 E1) as P3.
      destruct o1; try (inversion E; subst; split; assumption).
      destruct (vec_reserve (osz kd) (of_offs o) n) as [v2 o2] eqn:E2.
      pose proof (vec_reserve_spec _ _ _ _ _ H2 E2) as V.
      inversion E; subst. split; [exact P3|]. cbn [of_offs]. rewrite <- P2. apply V.
    - intros o n w o' e w' xs [ls (H1 & H2 & _)] [P1 P2] E.
      change (of_try_reserve K kd o n w = (o', e, w')) in E. unfold of_try_reserve in E.
      destruct (k_try_reserve K (of_data o) n w) as [[d1 o1] w1] eqn:E1.
      pose proof (ll_try_reserve _ _ _ LL _ _ _ _ _ _ _ H1 P1 E1) as P3.
      destruct o1; try (inversion E; subst; split; assumption).
      destruct (vec_try_reserve (osz kd) (of_offs o) n w1) as [[v2 o2] w2] eqn:E2.
      pose proof (vec_try_reserve_spec _ _ _ _ _ _ _ H2 E2) as V.
      inversion E; subst. split; [exact P3|]. cbn [of_offs]. rewrite <- P2. apply V.
    - intros o n xs Ho Hl Hn. exact (list_truncate o n xs Ho Hl Hn).
  Qed.
End Lists.

(** *** Shapes *)

Lemma default_item_spec : forall s, default_item s = k_item0 (coll s).
Proof.
  induction s as [p| |s IH|n s IH|k s IH|A a0 z]; try reflexivity.
  cbn [default_item]. rewrite IH. reflexivity.
Qed.
Lemma laid_laws : forall s, widths_pos s -> LLaws (coll s) (shape_ld s) (laid s).
Proof.
  induction s as [p| |s IH|n s IH|k s IH|A a0 z]; cbn [widths_pos]; intros Hw.
  - apply vec_llaws.
  - apply bitmap_llaws.
  - cbn [laid]. rewrite default_item_spec.
    exact (validity_llaws _ _ (shape_laws s Hw) _ (IH Hw)).
  - destruct Hw as [Hn Hw]. exact (flatten_llaws _ _ (shape_laws s Hw) _ (IH Hw) n Hn).
  - exact (offsets_llaws _ _ (shape_laws s Hw) _ (IH Hw) k).
  - apply vec_llaws.
Qed.

Section Shapes.
  Context (s : shape) (Hw : widths_pos s).
  Local Notation K := (coll s).
  Local Notation d := (shape_ld s).
  Let L : Laws K d := shape_laws s Hw.
  Let LL : LLaws K d (laid s) := laid_laws s Hw.

  Lemma laid_empty : laid s (k_default K) [] /\
    (forall n c, k_with_capacity K n = BOk c -> laid s c []) /\
    (forall n w c w', k_try_with_capacity K n w = (BOk c, w') -> laid s c []).
  Proof.
    split; [apply (ll_default _ _ _ LL)|]. split.
    - apply (ll_with_capacity _ _ _ LL).
    - apply (ll_try_with_capacity _ _ _ LL).
  Qed.
  Lemma laid_collect R (it : iter (cA K) R) c r : resumable s = true \/ fused it ->
    Forall (item_ok s) (items_of it) ->
    k_from_iter K it = (BOk c, r) \/ k_from_iter_in K it = (BOk c, r) -> laid s c (items_of it).
  Proof.
    intros Hf Hi E. rewrite resumable_nofuse in Hf. apply items_ok_wt in Hi.
    destruct (run_parts it) as [r0 Hr]. destruct E as [E|E].
    - exact (ll_from_iter _ _ _ LL _ _ _ _ _ _ _ Hf Hi Hr E).
    - exact (ll_from_iter_in _ _ _ LL _ _ _ _ _ _ _ Hf Hi Hr E).
  Qed.
  Lemma laid_try_collect R (it : iter (cA K) R) w c r w' : resumable_try s = true \/ fused it ->
    Forall (item_ok s) (items_of it) ->
    k_try_from_iter K it w = (BOk c, r, w') -> laid s c (items_of it).
  Proof.
    intros Hf Hi E. rewrite resumable_try_nofuse in Hf. apply items_ok_wt in Hi.
    destruct (run_parts it) as [r0 Hr].
    exact (ll_try_from_iter _ _ _ LL _ _ _ _ _ _ _ _ _ Hf Hi Hr E).
  Qed.
  Lemma laid_extend R c (it : iter (cA K) R) xs c' r : built s c -> laid s c xs ->
    Forall (item_ok s) (items_of it) -> k_extend K c it = (c', r, ODone) ->
    laid s c' (xs ++ items_of it).
  Proof.
    intros Hb Hl Hi E. apply items_ok_wt in Hi. pose proof (built_inv s c Hb Hw) as Hc.
    destruct (run_parts it) as [r0 Hr].
    exact (ll_extend _ _ _ LL _ _ _ _ _ _ _ _ _ Hc Hl Hi Hr E).
  Qed.
  Lemma laid_try_extend R c (it : iter (cA K) R) w xs c' r w' : built s c -> laid s c xs ->
    Forall (item_ok s) (items_of it) -> k_try_extend K c it w = (c', r, ODone, w') ->
    laid s c' (xs ++ items_of it).
  Proof.
    intros Hb Hl Hi E. apply items_ok_wt in Hi. pose proof (built_inv s c Hb Hw) as Hc.
    destruct (run_parts it) as [r0 Hr].
    exact (ll_try_extend _ _ _ LL _ _ _ _ _ _ _ _ _ _ _ Hc Hl Hi Hr E).
  Qed.
  Lemma laid_reserve c xs : built s c -> laid s c xs ->
    (forall n c' o, k_reserve K c n = (c', o) -> laid s c' xs) /\
    (forall n w c' o w', k_try_reserve K c n w = (c', o, w') -> laid s c' xs).
  Proof.
    intros Hb Hl. pose proof (built_inv s c Hb Hw) as Hc. split.
    - intros n c' o E. exact (ll_reserve _ _ _ LL _ _ _ _ _ Hc Hl E).
    - intros n w c' o w' E. exact (ll_try_reserve _ _ _ LL _ _ _ _ _ _ _ Hc Hl E).
  Qed.
  Lemma laid_shows c xs : built s c -> laid s c xs -> shows K c xs.
  Proof.
    intros Hb Hl. pose proof (built_inv s c Hb Hw) as Hc.
    exact (abs_shows s Hw c xs Hc (ll_abs _ _ _ LL _ _ Hc Hl)).
  Qed.
  Lemma laid_runs c xs ps os c' : built s c -> laid s c xs -> runs s c ps os c' ->
    Forall2 appends ps os ->
    laid s c' (xs ++ concat (map op_items ps)) /\ shows K c' (xs ++ concat (map op_items ps)).
  Proof.
    intros Hb Hl H Ha. assert (G : laid s c' (xs ++ concat (map op_items ps)) /\ built s c').
    2:{ destruct G. split; [assumption|]. apply laid_shows; assumption. }
    revert xs Hb Hl Ha.
    induction H as [c|c p o c1 ps os c2 Hi E Ho Hp Hr IH]; intros xs Hb Hl Ha; cbn [map concat].
    - rewrite app_nil_r. split; assumption.
    - inversion Ha as [|? ? ? ? Ha1 Ha2]; subst.
      pose proof (built_step s c p c1 o Hb Hi E Ho Hp) as Hb1.
      rewrite app_assoc. apply IH; [exact Hb1| |exact Ha2].
      destruct p as [it|it w|n|n w|n]; cbn [appends step op_items] in *.
      + subst o. destruct (k_extend K c it) as [[c3 r3] o3] eqn:E3. inversion E; subst.
        exact (laid_extend _ _ _ _ _ _ Hb Hl Hi E3).
      + subst o. destruct (k_try_extend K c it w) as [[[c3 r3] o3] w3] eqn:E3. inversion E; subst.
        exact (laid_try_extend _ _ _ _ _ _ _ _ Hb Hl Hi E3).
      + rewrite app_nil_r. exact (proj1 (laid_reserve c xs Hb Hl) _ _ _ E).
      + rewrite app_nil_r. destruct (k_try_reserve K c n w) as [[c3 o3] w3] eqn:E3. inversion E; subst.
        exact (proj2 (laid_reserve c xs Hb Hl) _ _ _ _ _ E3).
      + contradiction.
  Qed.
  Lemma laid_wrap c xs : laid s c xs -> laid (SNull s) (va_from_collection K c) (map Some xs).
  Proof.
    intros H. split; cbn [va_from_collection va_coll va_bm].
    - rewrite map_map. cbn [slot]. rewrite map_id. exact H.
    - intros x Hx ->. apply in_map_iff in Hx. destruct Hx as (y & E & _). discriminate.
  Qed.
End Shapes.
