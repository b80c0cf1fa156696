(** * The operations change the buffers as [SpecBytes] describes. *)
From Coq Require Import List NArith ZArith Bool Arith Lia ZifyBool ZifyNat ZifyN.
From Verif Require Import Base Iter Spec VecModel BitmapModel CollModel ValidityModel
  FlattenModel OffsetsModel LayoutModel IterLemmas VecLemmas BitmapLemmas BitmapLemmas2 Laws
  LawsBase LawsFlatten LawsValidity LawsOffsets Reach ReachLemmas CoreLemmas SpecLaid FactsLaid
  FactsPack SpecBytes CloneModel.
Import ListNotations.

Ltac Zify.zify_post_hook ::= Z.div_mod_to_equations.
Local Arguments Nat.div : simpl never.
Local Arguments Nat.modulo : simpl never.
Local Arguments Nat.mul : simpl never.
Local Arguments N.add : simpl never.
Local Arguments N.mul : simpl never.

(** ** Bits *)

Definition wf_bits (m : bits_image) : Prop := bi_start m + bi_count m <= length (bi_all m).

Lemma to_byte_ge n : n <= to_byte n < n + 8.
Proof. unfold to_byte. lia. Qed.
Lemma to_byte_mono a b : a <= b -> to_byte a <= to_byte b.
Proof. unfold to_byte. lia. Qed.
Lemma to_byte_same a b : a <= b -> b <= to_byte a -> to_byte b = to_byte a.
Proof. unfold to_byte. lia. Qed.
Lemma skipn_pre {A} n (l l' : list A) : length l <= n -> skipn n (l ++ l') = skipn (n - length l) l'.
Proof. intros H. rewrite skipn_app, skipn_all2 by lia. reflexivity. Qed.
Lemma skipn_repeat {A} (x : A) k n : skipn k (repeat x n) = repeat x (n - k).
Proof.
  revert n. induction k as [|k IH]; intros [|n]; cbn [skipn repeat Nat.sub]; auto.
Qed.
Lemma put_bits_app m xs ys : wf_bits m -> put_bits (put_bits m xs) ys = put_bits m (xs ++ ys).
Proof.
  destruct m as [B st ct]. unfold wf_bits, put_bits. cbn [bi_all bi_start bi_count]. intros Hw.
  set (f := st + ct) in *. rewrite app_length.
  replace (st + (ct + length xs)) with (f + length xs) by lia.
  replace (f + (length xs + length ys)) with (f + length xs + length ys) by lia.
  set (g := f + length xs) in *. set (h := g + length ys).
  assert (Hlen : length (firstn f B ++ xs) = g) by (rewrite app_length, firstn_length; lia).
  f_equal; [|lia]. rewrite (app_assoc (firstn f B) xs). rewrite firstn_app_exact by exact Hlen.
  rewrite <- !app_assoc. do 3 f_equal.
  assert (Hg : forall k l, g <= k -> skipn k (firstn f B ++ xs ++ l) = skipn (k - g) l).
  { intros k l H. rewrite app_assoc, skipn_pre by lia. rewrite Hlen. reflexivity. }
  pose proof (to_byte_ge f) as Tf. pose proof (to_byte_ge g) as Tg. pose proof (to_byte_ge h) as Th.
  destruct (Nat.leb_spec g (to_byte f)) as [H1|H1].
  - rewrite (to_byte_same f g) by lia.
    destruct (Nat.leb_spec h (to_byte f)) as [H2|H2].
    + rewrite Hg by lia. rewrite skipn_skipn_add. f_equal. lia.
    + rewrite Hg by lia. rewrite skipn_skipn_add. do 2 f_equal. lia.
  - destruct (Nat.leb_spec h (to_byte f)) as [H2|H2]; [lia|].
    destruct (Nat.leb_spec h (to_byte g)) as [H3|H3].
    + rewrite Hg by lia. rewrite skipn_app, skipn_repeat, repeat_length.
      rewrite (to_byte_same g h) by lia.
      replace (h - g - (to_byte g - g)) with 0 by lia. cbn [skipn]. do 2 f_equal. lia.
    + pose proof (to_byte_mono g h) as Tm. rewrite Hg by lia.
      rewrite skipn_app, skipn_repeat, repeat_length.
      replace (to_byte g - g - (to_byte h - g)) with 0 by lia. cbn [repeat app]. f_equal.
      rewrite skipn_skipn_add. f_equal. lia.
Qed.
Lemma wf_ones n : wf_bits (ones n).
Proof. unfold wf_bits, ones. cbn [bi_all bi_start bi_count]. rewrite app_length, !repeat_length. lia. Qed.
Lemma wf_bits_in b : bm_ok b -> wf_bits (bits_in b).
Proof. intros [_ H]. unfold wf_bits, bits_in. cbn [bi_all bi_start bi_count]. rewrite bits_of_length. lia. Qed.

Lemma bits_laid b xs : laid_bits b xs ->
  bits_in b = BitsImage (xs ++ repeat false (to_byte (length xs) - length xs)) 0 (length xs).
Proof.
  intros (H1 & H2 & H3). unfold bits_in. rewrite H1, H2, H3, bits_of_arrow. reflexivity.
Qed.
Lemma bits_ones b n : laid_bits b (repeat true n) -> bits_in b = ones n.
Proof. intros H. apply bits_laid in H. rewrite repeat_length in H. exact H. Qed.

Lemma phase1_bits {R} b (it : iter bool R) xs e r b1 it1 :
  bm_ok b -> cut it -> run it = (xs, e, r) -> bm_phase1 b it = (b1, it1, false) ->
  exists m, m = Nat.min (to_byte (bm_off b + bm_bits b) - (bm_off b + bm_bits b)) (length xs) /\
  vec_ok u8sz (bm_buf b1) /\
  bm_off b1 = bm_off b /\ bm_bits b1 = bm_bits b + m /\
  bm_off b1 + bm_bits b1 <= 8 * length (v_items (bm_buf b1)) /\
  bits_of (v_items (bm_buf b1)) = firstn (bm_off b + bm_bits b) (bits_of (v_items (bm_buf b))) ++
    firstn m xs ++ skipn (bm_off b + bm_bits b + m) (bits_of (v_items (bm_buf b))) /\
  cut it1 /\ run it1 = (skipn m xs, e, r) /\
  (m < length xs -> (bm_off b1 + bm_bits b1) mod 8 = 0).
Proof.
  intros Hok Hc Hr E0.
  pose proof (phase1_ok _ _ _ _ _ _ _ Hok Hc Hr E0) as Hv1.
  destruct (phase1_spec b it xs e r b1 it1 false Hok Hc Hr E0)
    as (m & tail & Hm & _ & Hlen & Ho & Hb & Hfit & _ & Hc1 & Hr1 & Ha).
  exists m. split; [rewrite Hm; unfold to_byte; f_equal; lia|].
  do 4 (split; [assumption|]). split; [|auto].
  destruct Hok as [Hv Hfin]. unfold bm_phase1 in E0.
  set (fin := bm_off b + bm_bits b) in *.
  destruct (Nat.eqb_spec (fin mod 8) 0) as [Hz|Hnz].
  { inversion E0; subst b1 it1. assert (m = 0) as -> by lia. cbn [firstn app]. rewrite Nat.add_0_r.
    symmetry. apply firstn_skipn. }
  destruct (nth_error (v_items (bm_buf b)) (fin / 8)) as [byte|] eqn:En.
  2:{ apply nth_error_None in En. lia. }
  destruct (bm_fill (8 - fin mod 8) it byte (bm_bits b)) as [[[byte' bits'] it'] p'] eqn:Ef.
  inversion E0; subst b1 it1 p'; clear E0. cbn [bm_buf v_items bm_bits bm_off] in *.
  eapply fill_spec in Ef; [|lia|exact Hc|exact Hr]. destruct Ef as (_ & Hbyte & _).
  destruct (set_nth_bits (fin / 8) byte' _ _ En) as (Hset & _ & Hold).
  rewrite Hset, Hbyte. set (B := bits_of (v_items (bm_buf b))) in *.
  assert (Hml : Nat.min (8 - fin mod 8) (length xs) = m) by lia. rewrite Hml.
  assert (Hl8 : length (firstn (8 * (fin / 8)) B) = 8 * (fin / 8)).
  { rewrite firstn_length. unfold B. rewrite bits_of_length. lia. }
  assert (HB1 : firstn fin B = firstn (8 * (fin / 8)) B ++ firstn (8 - (8 - fin mod 8)) (byte_bits byte)).
  { rewrite Hold at 1. rewrite firstn_app, Hl8. f_equal; [apply firstn_all2; lia|].
    rewrite firstn_app_le by (rewrite byte_bits_length; lia). f_equal. lia. }
  assert (HB2 : skipn (fin + m) B = skipn (8 - (8 - fin mod 8) + m) (byte_bits byte) ++
    skipn (8 * (fin / 8) + 8) B).
  { rewrite Hold at 1. rewrite skipn_pre by lia. rewrite Hl8.
    rewrite skipn_app_le by (rewrite byte_bits_length; lia). do 2 f_equal. lia. }
  rewrite HB1, HB2, <- !app_assoc. reflexivity.
Qed.

(** The bytes written in the second phase *)
Lemma phase2_bits B1 f first ys bi (items zs : list N) :
  bits_of items = B1 -> bi * 8 = f -> f <= length B1 ->
  zs = packs 0 0%N (first :: ys) ->
  bits_of (firstn bi items ++ zs ++ skipn (length zs) (skipn bi items)) =
  firstn f B1 ++ (first :: ys) ++ repeat false (to_byte (f + S (length ys)) - (f + S (length ys))) ++
    skipn (to_byte (f + S (length ys))) B1.
Proof.
  intros <- Hf Hl ->. rewrite arrow_packs, !bits_of_app, bits_of_firstn, !bits_of_skipn, bits_of_arrow.
  rewrite skipn_skipn_add, arrow_bits_length, <- !app_assoc. cbn [length].
  replace (8 * bi) with f by lia.
  assert (Ht : to_byte (f + S (length ys)) = f + 8 * ((S (length ys) + 7) / 8)) by (unfold to_byte; lia).
  rewrite Ht. unfold zeros_after. do 4 f_equal. lia.
Qed.
Lemma put_bits_long B st ct xs m first ys B' :
  st + ct <= length B -> m = to_byte (st + ct) - (st + ct) -> skipn m xs = first :: ys ->
  m < length xs -> (st + ct + m) mod 8 = 0 ->
  B' = firstn (st + ct) B ++ firstn m xs ++ skipn (st + ct + m) B ->
  BitsImage (firstn (st + ct + m) B' ++ (first :: ys) ++
      repeat false (to_byte (st + ct + m + S (length ys)) - (st + ct + m + S (length ys))) ++
      skipn (to_byte (st + ct + m + S (length ys))) B') st (ct + m + S (length ys)) =
  put_bits (BitsImage B st ct) xs.
Proof.
  intros Hw Hm Hsk Hml Hmod ->. unfold put_bits. cbn [bi_all bi_start bi_count].
  assert (Hx : length xs = m + S (length ys)).
  { apply (f_equal (@length bool)) in Hsk. rewrite skipn_length in Hsk. cbn [length] in Hsk. lia. }
  set (f := st + ct) in *. replace (f + m + S (length ys)) with (f + length xs) by lia.
  f_equal; [|lia].
  assert (Hlen : length (firstn f B ++ firstn m xs) = f + m).
  { rewrite app_length, !firstn_length. lia. }
  rewrite (app_assoc (firstn f B)), firstn_app_exact by exact Hlen.
  rewrite <- Hsk, <- app_assoc, (app_assoc (firstn m xs)), firstn_skipn. do 2 f_equal.
  pose proof (to_byte_ge f) as Tf. pose proof (to_byte_ge (f + length xs)) as Tx.
  destruct (Nat.leb_spec (f + length xs) (to_byte f)) as [H1|H1]; [lia|].
  f_equal. rewrite skipn_pre by lia. rewrite Hlen, skipn_skipn_add. f_equal. lia.
Qed.
Lemma put_bits_short B st ct xs m B' : m = Nat.min (to_byte (st + ct) - (st + ct)) (length xs) ->
  skipn m xs = [] -> B' = firstn (st + ct) B ++ firstn m xs ++ skipn (st + ct + m) B ->
  BitsImage B' st (ct + m) = put_bits (BitsImage B st ct) xs.
Proof.
  intros Hm Hsk ->. apply (f_equal (@length bool)) in Hsk. rewrite skipn_length in Hsk. cbn [length] in Hsk.
  assert (Hx : m = length xs) by lia. unfold put_bits. cbn [bi_all bi_start bi_count].
  pose proof (to_byte_ge (st + ct)) as Tf.
  destruct (Nat.leb_spec (st + ct + length xs) (to_byte (st + ct))) as [H1|H1]; [|lia].
  rewrite Hx, firstn_all. reflexivity.
Qed.

Lemma over_all (rest zs : list N) (over : list N) :
  over = firstn (length rest) zs ++ skipn (length zs) rest ->
  over ++ skipn (length rest) zs = zs ++ skipn (length zs) rest.
Proof.
  intros ->. destruct (Nat.le_gt_cases (length zs) (length rest)) as [H|H].
  - rewrite firstn_all2, (skipn_all2 zs), app_nil_r by lia. reflexivity.
  - rewrite (skipn_all2 rest), app_nil_r, firstn_skipn, app_nil_r by lia. reflexivity.
Qed.
Lemma bm_extend_bits {R} b (it : iter bool R) xs e r b' r' :
  bm_ok b -> run it = (xs, e, r) -> bm_extend b it = (b', r', ODone) ->
  bits_in b' = put_bits (bits_in b) xs.
Proof.
  intros Hok Hr0. unfold bm_extend.
  assert (Hc : cut (it_fuse it)) by apply fuse_cut.
  assert (Hr : run (it_fuse it) = (xs, e, r)) by (rewrite run_fuse; auto).
  destruct (bm_phase1 b (it_fuse it)) as [[b1 it1] p1] eqn:Hp1.
  destruct p1; [discriminate|].
  destruct (phase1_bits _ _ _ _ _ _ _ Hok Hc Hr Hp1)
    as (m & Hm & Hv1 & Ho1 & Hb1 & Hfit & HB1 & Hc1 & Hr1 & Ha).
  pose proof (wf_bits_in b Hok) as Hw. unfold wf_bits, bits_in in Hw. cbn [bi_all bi_start bi_count] in Hw.
  destruct (it_next it1) as [ev it2] eqn:En. destruct ev as [first| |]; [| |discriminate].
  - pose proof (run_next_yield _ _ _ En) as Hr2. rewrite Hr1 in Hr2.
    destruct (run it2) as [[ys2 e2] r2] eqn:Hrun2. cbn [fst snd] in Hr2.
    assert (Hsk : skipn m xs = first :: ys2) by congruence.
    pose proof (cut_next_yield _ _ _ Hc1 En) as Hc2.
    destruct (skipn_cons_nth _ _ _ _ Hsk) as [Hml _].
    destruct (tail_run first it2 ys2 e2 r2 Hc2 Hrun2) as (Hcp & zs & Hrp & Hzs & _).
    set (packed := it_packed (it_inspect count_item 0 (it_chain_once first it2))) in *.
    set (bi := (bm_off b1 + bm_bits b1) / 8) in *.
    destruct (bm_overwrite (skipn bi (v_items (bm_buf b1))) packed) as [[over packed'] p2] eqn:Eo.
    destruct (overwrite_spec _ _ _ _ _ _ _ _ Hcp Hrp Eo) as [Hol Hov].
    destruct p2; [discriminate|]. destruct Hov as (Hover & Hcp' & Hrp').
    destruct (vec_extend u8sz _ packed') as [[buf3 [r3 consumed]] o3] eqn:Hx.
    destruct o3; try discriminate. intros E; inversion E; subst b' r'; clear E.
    eapply vec_extend_spec in Hx; [|  |exact Hrp'].
    2:{ destruct Hv1 as [V1 V2]. split; [|exact V2]. cbn [v_items v_cap] in *.
        unfold lenN in *. rewrite app_length, Hol, <- app_length, firstn_skipn. exact V1. }
    destruct Hx as (_ & _ & _ & He & Hrr & Hi). inversion Hrr; subst r3 consumed.
    cbn [v_items] in Hi. specialize (Hzs He).
    rewrite <- app_assoc, (over_all _ _ _ Hover) in Hi.
    unfold bits_in at 1. cbn [bm_buf bm_off bm_bits]. rewrite Hi.
    assert (Hm2 : m = to_byte (bm_off b + bm_bits b) - (bm_off b + bm_bits b)) by lia.
    specialize (Ha Hml).
    rewrite (phase2_bits (bits_of (v_items (bm_buf b1))) (bm_off b + bm_bits b + m) first ys2
      bi (v_items (bm_buf b1)) zs eq_refl) by (try rewrite bits_of_length; auto; unfold bi; lia).
    rewrite Ho1, Hb1.
    apply put_bits_long; auto. rewrite Ho1, Hb1 in Ha. rewrite <- Nat.add_assoc. exact Ha.
  - pose proof (run_next_stop _ _ En) as Hr2. rewrite Hr1 in Hr2.
    assert (Hsk : skipn m xs = []) by congruence.
    intros E; inversion E; subst. unfold bits_in at 1. rewrite Ho1, Hb1.
    eapply put_bits_short; eauto.
Qed.
Lemma bm_try_extend_bits {R} b (it : iter bool R) w xs e r b' r' w' :
  bm_ok b -> run it = (xs, e, r) -> bm_try_extend b it w = (b', r', ODone, w') ->
  bits_in b' = put_bits (bits_in b) xs.
Proof.
  intros Hok Hr0. unfold bm_try_extend.
  assert (Hc : cut (it_fuse it)) by apply fuse_cut.
  assert (Hr : run (it_fuse it) = (xs, e, r)) by (rewrite run_fuse; auto).
  destruct (bm_phase1 b (it_fuse it)) as [[b1 it1] p1] eqn:Hp1.
  destruct p1; [discriminate|].
  destruct (phase1_bits _ _ _ _ _ _ _ Hok Hc Hr Hp1)
    as (m & Hm & Hv1 & Ho1 & Hb1 & Hfit & HB1 & Hc1 & Hr1 & Ha).
  pose proof (wf_bits_in b Hok) as Hw. unfold wf_bits, bits_in in Hw. cbn [bi_all bi_start bi_count] in Hw.
  destruct (it_next it1) as [ev it2] eqn:En. destruct ev as [first| |]; [| |discriminate].
  - pose proof (run_next_yield _ _ _ En) as Hr2. rewrite Hr1 in Hr2.
    destruct (run it2) as [[ys2 e2] r2] eqn:Hrun2. cbn [fst snd] in Hr2.
    assert (Hsk : skipn m xs = first :: ys2) by congruence.
    pose proof (cut_next_yield _ _ _ Hc1 En) as Hc2.
    destruct (skipn_cons_nth _ _ _ _ Hsk) as [Hml _].
    destruct (tail_run first it2 ys2 e2 r2 Hc2 Hrun2) as (Hcp & zs & Hrp & Hzs & _).
    set (packed := it_packed (it_inspect count_item 0 (it_chain_once first it2))) in *.
    set (bi := (bm_off b1 + bm_bits b1) / 8) in *.
    destruct (bm_overwrite (skipn bi (v_items (bm_buf b1))) packed) as [[over packed'] p2] eqn:Eo.
    destruct (overwrite_spec _ _ _ _ _ _ _ _ Hcp Hrp Eo) as [Hol Hov].
    destruct p2; [discriminate|]. destruct Hov as (Hover & Hcp' & Hrp').
    destruct (vec_try_extend u8sz _ packed' w) as [[[buf3 [r3 consumed]] o3] w3] eqn:Hx.
    destruct o3; try discriminate. intros E; inversion E; subst b' r'; clear E.
    eapply vec_try_extend_spec in Hx; [|  |exact Hrp'].
    2:{ destruct Hv1 as [V1 V2]. split; [|exact V2]. cbn [v_items v_cap] in *.
        unfold lenN in *. rewrite app_length, Hol, <- app_length, firstn_skipn. exact V1. }
    destruct Hx as (_ & _ & He & Hrr & Hi). inversion Hrr; subst r3 consumed.
    cbn [v_items] in Hi. specialize (Hzs He).
    rewrite <- app_assoc, (over_all _ _ _ Hover) in Hi.
    unfold bits_in at 1. cbn [bm_buf bm_off bm_bits]. rewrite Hi.
    assert (Hm2 : m = to_byte (bm_off b + bm_bits b) - (bm_off b + bm_bits b)) by lia.
    specialize (Ha Hml).
    rewrite (phase2_bits (bits_of (v_items (bm_buf b1))) (bm_off b + bm_bits b + m) first ys2
      bi (v_items (bm_buf b1)) zs eq_refl) by (try rewrite bits_of_length; auto; unfold bi; lia).
    rewrite Ho1, Hb1.
    apply put_bits_long; auto. rewrite Ho1, Hb1 in Ha. rewrite <- Nat.add_assoc. exact Ha.
  - pose proof (run_next_stop _ _ En) as Hr2. rewrite Hr1 in Hr2.
    assert (Hsk : skipn m xs = []) by congruence.
    intros E; inversion E; subst. unfold bits_in at 1. rewrite Ho1, Hb1.
    eapply put_bits_short; eauto.
Qed.
Lemma bm_reserve_bits b n b' o : bm_ok b -> bm_reserve b n = (b', o) -> bits_in b' = bits_in b.
Proof.
  intros [Hv _]. unfold bm_reserve. destruct (_ <=? _)%N.
  - destruct (vec_reserve u8sz (bm_buf b) _) as [buf o1] eqn:E1.
    destruct (vec_reserve_spec _ _ _ _ _ Hv E1) as (_ & Hi & _).
    intros E; inversion E; subst. unfold bits_in. cbn [bm_off bm_bits bm_buf]. rewrite Hi. auto.
  - intros E; inversion E; subst. reflexivity.
Qed.
Lemma bm_try_reserve_bits b n w b' o w' : bm_ok b -> bm_try_reserve b n w = (b', o, w') ->
  bits_in b' = bits_in b.
Proof.
  intros [Hv _]. unfold bm_try_reserve. destruct (_ <=? _)%N.
  - destruct (vec_try_reserve u8sz (bm_buf b) _ w) as [[buf o1] w1] eqn:E1.
    destruct (vec_try_reserve_spec _ _ _ _ _ _ _ Hv E1) as (_ & Hi & _).
    intros E; inversion E; subst. unfold bits_in. cbn [bm_off bm_bits bm_buf]. rewrite Hi. auto.
  - intros E; inversion E; subst. reflexivity.
Qed.
Lemma bm_truncate_bits b n : bits_in (bm_truncate b n) = cut_bits (bits_in b) (N.to_nat n).
Proof.
  unfold bm_truncate, cut_bits, bits_in. cbn [bi_all bi_start bi_count].
  destruct (N.ltb_spec n (N.of_nat (bm_bits b))) as [H|H]; cbn [bm_buf bm_bits bm_off]; f_equal; lia.
Qed.

(** ** Laws about buffers *)

Record BLaws (K : Coll) (d : LD K) (I : Type) (img : cC K -> I) (len : I -> nat) (fil : I -> I)
  (app : I -> list (cA K) -> I) (cut : I -> nat -> I) (snug wf : I -> Prop) : Prop := {
  b_len : forall c, l_inv d c -> len (img c) = length (l_abs d c);
  b_wf : forall c, l_inv d c -> wf (fil (img c));
  b_app : forall p xs ys, wf p -> app (app p xs) ys = app p (xs ++ ys);
  b_stay : forall c n, l_inv d c -> snug (img c) -> (lenN (l_abs d c) <= n)%N ->
    k_truncate K c n = (c, ODone);
  b_extend : forall R c (it : iter (cA K) R) xs e r c' r',
    l_inv d c -> snug (img c) -> Forall (l_wt d) xs -> run it = (xs, e, r) ->
    k_extend K c it = (c', r', ODone) ->
    fil (img c') = app (fil (img c)) xs /\ snug (img c');
  b_try_extend : forall R c (it : iter (cA K) R) w xs e r c' r' w',
    l_inv d c -> snug (img c) -> Forall (l_wt d) xs -> run it = (xs, e, r) ->
    k_try_extend K c it w = (c', r', ODone, w') ->
    fil (img c') = app (fil (img c)) xs /\ snug (img c');
  b_reserve : forall c n c' o, l_inv d c -> k_reserve K c n = (c', o) ->
    fil (img c') = fil (img c) /\ (snug (img c) -> snug (img c'));
  b_try_reserve : forall c n w c' o w', l_inv d c -> k_try_reserve K c n w = (c', o, w') ->
    fil (img c') = fil (img c) /\ (snug (img c) -> snug (img c'));
  b_cut : forall c n c' o, l_inv d c -> k_truncate K c n = (c', o) ->
    img c' = cut (img c) (N.to_nat n) /\ (snug (img c) -> snug (img c'));
}.

Lemma vec_blaws A a0 esz : BLaws (vec_coll A a0 esz) (vec_ld A a0 esz) (list A)
  (fun v : vec A => v_items v) (@length A) (fun p => p) (fun l (xs : list A) => l ++ xs)
  (fun l n => firstn n l) (fun _ => True) (fun _ => True).
Proof.
  split; unfold vec_coll, vec_ld; law_cbn.
  - auto.
  - auto.
  - intros p xs ys _. symmetry. apply app_assoc.
  - intros c n _ _ H. unfold vec_truncate.
    assert ((n <? lenN (v_items c))%N = false) as -> by lia. reflexivity.
  - intros R c it xs e r c' r' Hc _ _ Hr E. split; [|exact I].
    apply (vec_extend_spec _ _ _ _ _ _ _ _ _ Hc Hr E).
  - intros R c it w xs e r c' r' w' Hc _ _ Hr E. split; [|exact I].
    apply (vec_try_extend_spec _ _ _ _ _ _ _ _ _ _ _ Hc Hr E).
  - intros c n c' o Hc E. split; [|auto]. apply (vec_reserve_spec _ _ _ _ _ Hc E).
  - intros c n w c' o w' Hc E. split; [|auto]. apply (vec_try_reserve_spec _ _ _ _ _ _ _ Hc E).
  - intros c n c' o _ E. inversion E; subst. split; [|auto]. unfold vec_truncate.
    destruct (N.ltb_spec n (lenN (v_items c))) as [H|H]; cbn [v_items]; [reflexivity|].
    symmetry. apply firstn_all2. unfold lenN in H. lia.
Qed.

Lemma bitmap_blaws : BLaws bitmap_coll bitmap_ld bits_image bits_in bi_count (fun p => p)
  put_bits cut_bits (fun _ => True) wf_bits.
Proof.
  split; unfold bitmap_coll, bitmap_ld; law_cbn.
  - intros c Hc. symmetry. apply (bm_abs_length c Hc).
  - exact wf_bits_in.
  - exact put_bits_app.
  - intros c n Hc _ H. unfold bm_truncate, lenN in *. rewrite (bm_abs_length c Hc) in H.
    assert ((n <? N.of_nat (bm_bits c))%N = false) as -> by lia. reflexivity.
  - intros R c it xs e r c' r' Hc _ _ Hr E. split; [|exact I]. exact (bm_extend_bits _ _ _ _ _ _ _ Hc Hr E).
  - intros R c it w xs e r c' r' w' Hc _ _ Hr E. split; [|exact I].
    exact (bm_try_extend_bits _ _ _ _ _ _ _ _ _ Hc Hr E).
  - intros c n c' o Hc E. split; [|auto]. exact (bm_reserve_bits _ _ _ _ Hc E).
  - intros c n w c' o w' Hc E. split; [|auto]. exact (bm_try_reserve_bits _ _ _ _ _ _ Hc E).
  - intros c n c' o _ E. inversion E; subst. split; [|auto]. apply bm_truncate_bits.
Qed.

Section Flat.
  Context (K : Coll) (d : LD K) (L : Laws K d) (I : Type) (img : cC K -> I) (len : I -> nat)
    (fil : I -> I) (app : I -> list (cA K) -> I) (cut : I -> nat -> I) (snug wf : I -> Prop)
    (B : BLaws K d I img len fil app cut snug wf) (n : nat) (Hn : 0 < n).

  Lemma flatten_blaws : BLaws (flatten_coll K n) (flatten_ld K d n) I img (fun p => len p / n) fil
    (fun p (xs : list (list (cA K))) => app p (concat xs))
    (fun p m => if m <? len p / n then cut p (m * n) else p) snug wf.
  Proof.
    split; unfold flatten_coll, flatten_ld; law_cbn.
    - intros c [Hc _]. rewrite (b_len _ _ _ _ _ _ _ _ _ _ B c Hc). unfold fl_abs. symmetry. apply chunks_length.
    - intros c [Hc _]. apply (b_wf _ _ _ _ _ _ _ _ _ _ B c Hc).
    - intros p xs ys Hp. rewrite concat_app. apply (b_app _ _ _ _ _ _ _ _ _ _ B); exact Hp.
    - intros c m Hc Hs Hm. unfold fl_truncate. rewrite (fl_len_spec K d L n Hn c Hc). unfold lenN in Hm.
      assert ((m <? N.of_nat (length (fl_abs K d n c)))%N = false) as -> by lia. reflexivity.
    - intros R c it xs e r c' r' [Hc _] Hs Hwt Hr E. destruct (flat_rows K d n xs Hwt) as [_ H2].
      eapply (b_extend _ _ _ _ _ _ _ _ _ _ B); [exact Hc|exact Hs|exact H2
        |apply (run_flatten (N.of_nat n) _ _ _ _ Hr)|exact E].
    - intros R c it w xs e r c' r' w' [Hc _] Hs Hwt Hr E. destruct (flat_rows K d n xs Hwt) as [_ H2].
      eapply (b_try_extend _ _ _ _ _ _ _ _ _ _ B); [exact Hc|exact Hs|exact H2
        |apply (run_flatten (N.of_nat n) _ _ _ _ Hr)|exact E].
    - intros c m c' o [Hc _]. unfold fl_reserve. destruct (strict_mul m (N.of_nat n)); intros E.
      + apply (b_reserve _ _ _ _ _ _ _ _ _ _ B _ _ _ _ Hc E).
      + inversion E; subst. auto.
    - intros c m w c' o w' [Hc _]. unfold fl_try_reserve. destruct (checked_mul m (N.of_nat n)); intros E.
      + apply (b_try_reserve _ _ _ _ _ _ _ _ _ _ B _ _ _ _ _ _ Hc E).
      + inversion E; subst. auto.
    - intros c m c' o Hc. unfold fl_truncate. rewrite (fl_len_spec K d L n Hn c Hc).
      rewrite (b_len _ _ _ _ _ _ _ _ _ _ B c (proj1 Hc)).
      assert (Hl : length (fl_abs K d n c) = length (l_abs d c) / n) by apply chunks_length.
      rewrite <- Hl.
      destruct (N.ltb_spec m (N.of_nat (length (fl_abs K d n c)))) as [H|H].
      + assert ((N.to_nat m <? length (fl_abs K d n c)) = true) as -> by lia.
        pose proof (lw_abs_len _ _ L c (proj1 Hc)) as Hb. unfold lenN in Hb.
        pose proof (fl_rows_mul K d n Hn c Hc) as Hr.
        assert (Hm : (m * N.of_nat n <= usize_max)%N).
        { rewrite usize_max_val. rewrite alloc_max_val in Hb. nia. }
        unfold strict_mul. assert ((m * N.of_nat n <=? usize_max)%N = true) as -> by lia.
        intros E. destruct (b_cut _ _ _ _ _ _ _ _ _ _ B _ _ _ _ (proj1 Hc) E) as [H1 H2].
        split; [|exact H2]. rewrite H1. f_equal. lia.
      + assert ((N.to_nat m <? length (fl_abs K d n c)) = false) as -> by lia.
        intros E; inversion E; subst. auto.
  Qed.
End Flat.

Section Null.
  Context (K : Coll) (d : LD K) (L : Laws K d) (I : Type) (img : cC K -> I) (len : I -> nat)
    (fil : I -> I) (app : I -> list (cA K) -> I) (cut : I -> nat -> I) (snug wf : I -> Prop)
    (B : BLaws K d I img len fil app cut snug wf).

  Definition n_img (v : validity (cC K)) : I * option bits_image :=
    (img (va_coll v), option_map bits_in (va_bm v)).
  Definition n_len (p : I * option bits_image) : nat :=
    match snd p with Some m => bi_count m | None => len (fst p) end.
  Definition n_fil (p : I * option bits_image) : I * option bits_image :=
    (fil (fst p), Some (match snd p with Some m => m | None => ones (len (fst p)) end)).
  Definition n_app (p : I * option bits_image) (xs : list (option (cA K))) : I * option bits_image :=
    (app (fst p) (map (dflt K) xs), option_map (fun m => put_bits m (map is_some xs)) (snd p)).
  Definition n_cut (p : I * option bits_image) (n : nat) : I * option bits_image :=
    (cut (fst p) n, option_map (fun m => cut_bits m n) (snd p)).
  Definition n_snug (p : I * option bits_image) : Prop :=
    snug (fst p) /\ match snd p with Some m => bi_count m = len (fst p) | None => True end.
  Definition n_wf (p : I * option bits_image) : Prop :=
    wf (fst p) /\ match snd p with Some m => wf_bits m | None => True end.

  Lemma n_materialize v v1 o : va_inv K d v -> va_materialize K v = (v1, o) ->
    n_fil (n_img v1) = n_fil (n_img v) /\ (n_snug (n_img v) -> n_snug (n_img v1)).
  Proof.
    intros [Hv _]. unfold va_materialize. destruct (va_bm v) as [b|] eqn:Eb.
    - intros E; inversion E; subst. auto.
    - rewrite (lw_len _ _ L _ Hv). destruct (bm_all_set _) as [b| | |] eqn:Ea;
        intros E; inversion E; subst; auto.
      apply bm_all_set_laid, bits_ones in Ea.
      unfold n_fil, n_snug, n_img. cbn [va_coll va_bm option_map fst snd]. rewrite Eb, Ea.
      cbn [option_map]. rewrite (b_len _ _ _ _ _ _ _ _ _ _ B _ Hv). split; [reflexivity|].
      intros [Hs _]. split; [exact Hs|reflexivity].
  Qed.
  Lemma n_try_materialize v w v1 o w1 : va_inv K d v -> va_try_materialize K v w = (v1, o, w1) ->
    n_fil (n_img v1) = n_fil (n_img v) /\ (n_snug (n_img v) -> n_snug (n_img v1)).
  Proof.
    intros [Hv _]. unfold va_try_materialize. destruct (va_bm v) as [b|] eqn:Eb.
    - intros E; inversion E; subst. auto.
    - rewrite (lw_len _ _ L _ Hv). destruct (bm_try_all_set _ w) as [[b| | |] w2] eqn:Ea;
        intros E; inversion E; subst; auto.
      apply bm_try_all_set_laid, bits_ones in Ea.
      unfold n_fil, n_snug, n_img. cbn [va_coll va_bm option_map fst snd]. rewrite Eb, Ea.
      cbn [option_map]. rewrite (b_len _ _ _ _ _ _ _ _ _ _ B _ Hv). split; [reflexivity|].
      intros [Hs _]. split; [exact Hs|reflexivity].
  Qed.

  Lemma n_loop {R} : forall fuel c b (it : iter (option (cA K)) R) os e r c' b' r',
    l_inv d c -> bm_ok b -> snug (img c) -> bm_bits b = length (l_abs d c) ->
    Forall (l_wt d) (map (dflt K) os) -> run it = (os, e, r) ->
    va_extend_loop K fuel c b it = (c', b', r', ODone) ->
    fil (img c') = app (fil (img c)) (map (dflt K) os) /\
    bits_in b' = put_bits (bits_in b) (map is_some os) /\
    snug (img c') /\ l_inv d c' /\ bm_bits b' = length (l_abs d c').
  Proof.
    induction fuel as [|fuel IH]; intros c b it os e r c' b' r' Hc Hb Hs Hbl Hwt Hr;
      [discriminate|]. cbn [va_extend_loop].
    destruct (k_extend K c (va_chunk K it)) as [[c1 [it1 vs]] o1] eqn:E1.
    destruct o1; try discriminate.
    destruct (bm_extend b (it_list vs)) as [[b1 u] o2] eqn:E2. destruct o2; try discriminate.
    destruct (va_chunk_run K it os e r Hr) as (it' & [(Hl & Hrc & Hr1 & _)|(Hl & Hrc & Hsrc)]).
    - assert (Hwt1 : Forall (l_wt d) (map (dflt K) (firstn chunk os))).
      { rewrite <- firstn_map. apply Forall_firstn; auto. }
      destruct (lw_extend _ _ L _ _ _ _ _ _ _ _ _ Hc Hwt1 Hrc E1) as [(_ & Hrr & Hc1 & _ & Ha1 & _) _].
      assert (it1 = it' /\ vs = map is_some (firstn chunk os)) as [-> ->] by (split; congruence).
      destruct (b_extend _ _ _ _ _ _ _ _ _ _ B _ _ _ _ _ _ _ _ Hc Hs Hwt1 Hrc E1) as [Pc1 Hs1].
      pose proof (bm_extend_bits _ _ _ _ _ _ _ Hb (run_list _) E2) as Pb1.
      pose proof (bm_extend_spec _ _ _ _ _ _ _ _ Hb (run_list _) E2) as (Hb1 & _ & _ & _ & (_ & _ & Hab) & _).
      assert (Hbl1 : bm_bits b1 = length (l_abs d c1)).
      { rewrite <- (bm_abs_length b1 Hb1), Hab, Ha1, !app_length, !map_length, (bm_abs_length b Hb). lia. }
      rewrite map_length, firstn_length, Nat.min_l by lia.
      rewrite Nat.ltb_irrefl. intros E.
      eapply IH in E; [|exact Hc1|exact Hb1|exact Hs1|exact Hbl1| |exact Hr1].
      + destruct E as (G1 & G2 & G3). rewrite G1, G2, Pc1, Pb1.
        rewrite (b_app _ _ _ _ _ _ _ _ _ _ B) by (apply (b_wf _ _ _ _ _ _ _ _ _ _ B); exact Hc).
        rewrite put_bits_app by (apply wf_bits_in; exact Hb).
        rewrite <- !map_app, firstn_skipn. auto.
      + rewrite <- skipn_map. apply Forall_skip; auto.
    - destruct (lw_extend _ _ L _ _ _ _ _ _ _ _ _ Hc Hwt Hrc E1) as [(_ & Hrr & Hc1 & _ & Ha1 & _) _].
      inversion Hrr; subst it1 vs; clear Hrr.
      destruct (b_extend _ _ _ _ _ _ _ _ _ _ B _ _ _ _ _ _ _ _ Hc Hs Hwt Hrc E1) as [Pc1 Hs1].
      pose proof (bm_extend_bits _ _ _ _ _ _ _ Hb (run_list _) E2) as Pb1.
      pose proof (bm_extend_spec _ _ _ _ _ _ _ _ Hb (run_list _) E2) as (Hb1 & _ & _ & _ & (_ & _ & Hab) & _).
      rewrite map_length.
      assert ((length os <? chunk) = true) as -> by (apply Nat.ltb_lt; auto).
      intros E; inversion E; subst. split; [exact Pc1|]. split; [exact Pb1|]. split; [exact Hs1|].
      split; [exact Hc1|].
      rewrite <- (bm_abs_length _ Hb1), Hab, Ha1, !app_length, !map_length, (bm_abs_length b Hb). lia.
  Qed.
  Lemma n_try_loop {R} : forall fuel ln c b (it : iter (option (cA K)) R) w os e r c' b' r' w',
    l_inv d c -> bm_ok b -> snug (img c) -> bm_bits b = length (l_abs d c) ->
    Forall (l_wt d) (map (dflt K) os) -> run it = (os, e, r) ->
    va_try_extend_loop K fuel ln c b it w = (c', b', r', ODone, w') ->
    fil (img c') = app (fil (img c)) (map (dflt K) os) /\
    bits_in b' = put_bits (bits_in b) (map is_some os) /\
    snug (img c') /\ l_inv d c' /\ bm_bits b' = length (l_abs d c').
  Proof.
    assert (Hroll : forall c b len, l_inv d c -> bm_ok b -> snd (va_rollback K c b len) = OErr).
    { intros c b ln Hc Hb. destruct (va_rollback K c b ln) as [[c1 b1] o1] eqn:E.
      apply (va_rollback_spec K d L) in E; auto. apply E. }
    induction fuel as [|fuel IH]; intros ln c b it w os e r c' b' r' w' Hc Hb Hs Hbl Hwt Hr;
      [discriminate|]. cbn [va_try_extend_loop].
    destruct (k_try_extend K c (va_chunk K it) w) as [[[c1 [it1 vs]] o1] w1] eqn:E1.
    destruct (va_chunk_run K it os e r Hr) as (it' & Hcase).
    assert (Hrun : exists os1 e1 rr1, run (va_chunk K it) = (map (dflt K) os1, e1, rr1) /\
      Forall (l_wt d) (map (dflt K) os1)).
    { destruct Hcase as [(_ & Hrc & _)|(_ & Hrc & _)].
      - do 3 eexists. split; [exact Hrc|]. rewrite <- firstn_map. apply Forall_firstn; auto.
      - do 3 eexists. split; [exact Hrc|auto]. }
    destruct Hrun as (os1 & e1 & rr1 & Hrun & Hwtc).
    pose proof (lw_try_extend _ _ L _ _ _ _ _ _ _ _ _ _ _ Hc Hwtc Hrun E1) as Hex.
    destruct o1; try discriminate.
    2:{ destruct Hex as (Hc1 & _). pose proof (Hroll c1 b ln Hc1 Hb) as Ho.
        destruct (va_rollback K c1 b ln) as [[c2 b2] o2]. cbn [snd] in Ho. subst o2. discriminate. }
    destruct Hex as (_ & _ & Hc1 & _).
    destruct (bm_try_extend b (it_list vs) w1) as [[[b1 u] o2] w2] eqn:E2.
    pose proof (bm_try_extend_list _ _ _ _ _ _ _ Hb E2) as Hbx.
    destruct o2; try discriminate.
    2:{ destruct Hbx as (Hb1 & _). pose proof (Hroll c1 b1 ln Hc1 Hb1) as Ho.
        destruct (va_rollback K c1 b1 ln) as [[c2 b2] o2]. cbn [snd] in Ho. subst o2. discriminate. }
    destruct Hbx as (Hb1 & Hbx).
    destruct Hcase as [(Hl & Hrc & Hr1 & _)|(Hl & Hrc & Hsrc)].
    - assert (Hwt1 : Forall (l_wt d) (map (dflt K) (firstn chunk os))).
      { rewrite <- firstn_map. apply Forall_firstn; auto. }
      destruct (lw_try_extend _ _ L _ _ _ _ _ _ _ _ _ _ _ Hc Hwt1 Hrc E1) as (_ & Hrr & _ & _ & Ha1 & _).
      assert (it1 = it' /\ vs = map is_some (firstn chunk os)) as [-> ->] by (split; congruence).
      destruct (b_try_extend _ _ _ _ _ _ _ _ _ _ B _ _ _ _ _ _ _ _ _ _ Hc Hs Hwt1 Hrc E1) as [Pc1 Hs1].
      pose proof (bm_try_extend_bits _ _ _ _ _ _ _ _ _ Hb (run_list _) E2) as Pb1.
      assert (Hbl1 : bm_bits b1 = length (l_abs d c1)).
      { apply (f_equal bi_count) in Pb1. cbn [bits_in put_bits bi_count] in Pb1.
        rewrite Pb1, Ha1, app_length, !map_length. lia. }
      rewrite map_length, firstn_length, Nat.min_l by lia.
      rewrite Nat.ltb_irrefl. intros E.
      eapply IH in E; [|exact Hc1|exact Hb1|exact Hs1|exact Hbl1| |exact Hr1].
      + destruct E as (G1 & G2 & G3). rewrite G1, G2, Pc1, Pb1.
        rewrite (b_app _ _ _ _ _ _ _ _ _ _ B) by (apply (b_wf _ _ _ _ _ _ _ _ _ _ B); exact Hc).
        rewrite put_bits_app by (apply wf_bits_in; exact Hb).
        rewrite <- !map_app, firstn_skipn. auto.
      + rewrite <- skipn_map. apply Forall_skip; auto.
    - destruct (lw_try_extend _ _ L _ _ _ _ _ _ _ _ _ _ _ Hc Hwt Hrc E1) as (_ & Hrr & _ & _ & Ha1 & _).
      inversion Hrr; subst it1 vs; clear Hrr.
      destruct (b_try_extend _ _ _ _ _ _ _ _ _ _ B _ _ _ _ _ _ _ _ _ _ Hc Hs Hwt Hrc E1) as [Pc1 Hs1].
      pose proof (bm_try_extend_bits _ _ _ _ _ _ _ _ _ Hb (run_list _) E2) as Pb1.
      assert (Hbl1 : bm_bits b1 = length (l_abs d c1)).
      { apply (f_equal bi_count) in Pb1. cbn [bits_in put_bits bi_count] in Pb1.
        rewrite Pb1, Ha1, app_length, !map_length. lia. }
      rewrite map_length.
      assert ((length os <? chunk) = true) as -> by (apply Nat.ltb_lt; auto).
      intros E; inversion E; subst. auto.
  Qed.

  Lemma n_img_some v b : va_bm v = Some b -> n_img v = (img (va_coll v), Some (bits_in b)).
  Proof. intros E. unfold n_img. rewrite E. reflexivity. Qed.
  Lemma n_extend {R} v (it : iter (option (cA K)) R) os e r v' r' :
    va_inv K d v -> n_snug (n_img v) -> Forall (l_wt d) (map (dflt K) os) -> run it = (os, e, r) ->
    va_extend K v it = (v', r', ODone) ->
    n_fil (n_img v') = n_app (n_fil (n_img v)) os /\ n_snug (n_img v').
  Proof.
    intros Hv Hs Hwt Hr. unfold va_extend.
    destruct (va_materialize K v) as [v1 o1] eqn:E1.
    destruct (n_materialize _ _ _ Hv E1) as [F1 S1]. specialize (S1 Hs).
    destruct (va_materialize_spec K d L _ _ _ Hv E1) as [(-> & b & Hp)|(-> & -> & Hbig)]; [|discriminate].
    pose proof Hp as (Hb & _ & [Hc1 Hok] & _). rewrite Hb in Hok. destruct Hok as [Hok _].
    rewrite (n_img_some v1 b Hb) in *. destruct S1 as [S1 S2]. cbn [fst snd bi_count bits_in] in S1, S2.
    rewrite (b_len _ _ _ _ _ _ _ _ _ _ B _ Hc1) in S2. rewrite Hb.
    rewrite (b_stay _ _ _ _ _ _ _ _ _ _ B _ _ Hc1 S1) by (unfold lenN, bm_len; lia).
    destruct (va_extend_loop K _ (va_coll v1) b it) as [[[c3 b3] r3] o3] eqn:E3.
    intros E; inversion E; subst; clear E.
    destruct (n_loop _ _ _ _ _ _ _ _ _ _ Hc1 Hok S1 S2 Hwt Hr E3) as (G1 & G2 & G3 & G4 & G5).
    rewrite <- F1. unfold n_fil, n_app, n_snug, n_img. cbn [va_coll va_bm option_map fst snd].
    rewrite G1, G2. split; [reflexivity|]. split; [exact G3|].
    rewrite <- G2. cbn [bi_count bits_in]. rewrite (b_len _ _ _ _ _ _ _ _ _ _ B _ G4). exact G5.
  Qed.
  Lemma n_try_extend {R} v (it : iter (option (cA K)) R) w os e r v' r' w' :
    va_inv K d v -> n_snug (n_img v) -> Forall (l_wt d) (map (dflt K) os) -> run it = (os, e, r) ->
    va_try_extend K v it w = (v', r', ODone, w') ->
    n_fil (n_img v') = n_app (n_fil (n_img v)) os /\ n_snug (n_img v').
  Proof.
    intros Hv Hs Hwt Hr. unfold va_try_extend.
    rewrite (va_len_spec K d L v Hv), va_abs_length by auto.
    destruct (va_try_materialize K v w) as [[v1 o1] w1] eqn:E1.
    destruct (n_try_materialize _ _ _ _ _ Hv E1) as [F1 S1]. specialize (S1 Hs).
    destruct (va_try_materialize_spec K d L _ _ _ _ _ Hv E1) as [(-> & b & Hp)|(-> & ->)]; [|discriminate].
    pose proof Hp as (Hb & _ & [Hc1 Hok] & Hbits & _). rewrite Hb in Hok. destruct Hok as [Hok _].
    rewrite (n_img_some v1 b Hb) in *. destruct S1 as [S1 S2]. cbn [fst snd bi_count bits_in] in S1, S2.
    rewrite (b_len _ _ _ _ _ _ _ _ _ _ B _ Hc1) in S2. rewrite Hb.
    rewrite <- Hbits. unfold va_bits. rewrite Hb. rewrite (bm_abs_length b Hok).
    rewrite (b_stay _ _ _ _ _ _ _ _ _ _ B _ _ Hc1 S1) by (unfold lenN; lia).
    destruct (va_try_extend_loop K _ _ (va_coll v1) b it w1) as [[[[c3 b3] r3] o3] w3] eqn:E3.
    intros E; inversion E; subst; clear E.
    destruct (n_try_loop _ _ _ _ _ _ _ _ _ _ _ _ _ Hc1 Hok S1 S2 Hwt Hr E3) as (G1 & G2 & G3 & G4 & G5).
    rewrite <- F1. unfold n_fil, n_app, n_snug, n_img. cbn [va_coll va_bm option_map fst snd].
    rewrite G1, G2. split; [reflexivity|]. split; [exact G3|].
    rewrite <- G2. cbn [bi_count bits_in]. rewrite (b_len _ _ _ _ _ _ _ _ _ _ B _ G4). exact G5.
  Qed.

  Lemma n_same v1 b c2 b2 : va_bm v1 = Some b -> l_inv d (va_coll v1) -> l_inv d c2 ->
    l_abs d c2 = l_abs d (va_coll v1) -> bits_in b2 = bits_in b ->
    fil (img c2) = fil (img (va_coll v1)) -> (snug (img (va_coll v1)) -> snug (img c2)) ->
    n_fil (n_img (Validity c2 (Some b2))) = n_fil (n_img v1) /\
    (n_snug (n_img v1) -> n_snug (n_img (Validity c2 (Some b2)))).
  Proof.
    intros Eb H1 H2 Ha Hb Hf Hs. rewrite (n_img_some v1 b Eb). unfold n_img, n_fil, n_snug.
    cbn [va_coll va_bm option_map fst snd]. rewrite Hb, Hf. split; [reflexivity|].
    intros [G1 G2]. split; [auto|].
    rewrite (b_len _ _ _ _ _ _ _ _ _ _ B _ H2), Ha.
    rewrite (b_len _ _ _ _ _ _ _ _ _ _ B _ H1) in G2. exact G2.
  Qed.

  Lemma validity_blaws : BLaws (validity_coll K) (validity_ld K d) (I * option bits_image) n_img n_len
    n_fil n_app n_cut n_snug n_wf.
  Proof.
    assert (Hwt : forall os, Forall (l_wt (validity_ld K d)) os -> Forall (l_wt d) (map (dflt K) os)).
    { intros os H. apply (va_wt_dflt K d L). exact H. }
    split.
    - intros v Hv. change (va_inv K d v) in Hv.
      change (n_len (n_img v) = length (va_abs K d v)). rewrite (va_abs_length K d v Hv).
      destruct Hv as [Hc Hb]. unfold n_len, n_img, va_bits. cbn [fst snd].
      destruct (va_bm v) as [b|]; cbn [option_map].
      + symmetry. apply bm_abs_length. apply Hb.
      + rewrite repeat_length. apply (b_len _ _ _ _ _ _ _ _ _ _ B _ Hc).
    - intros v [Hc Hb]. unfold n_wf, n_fil, n_img. cbn [fst snd].
      split; [apply (b_wf _ _ _ _ _ _ _ _ _ _ B); exact Hc|].
      destruct (va_bm v) as [b|]; cbn [option_map]; [apply wf_bits_in; apply Hb|apply wf_ones].
    - intros [p [m|]] xs ys [Hp Hm]; unfold n_app; cbn [fst snd option_map] in *.
      + rewrite (b_app _ _ _ _ _ _ _ _ _ _ B) by exact Hp. rewrite put_bits_app by exact Hm.
        rewrite <- !map_app. reflexivity.
      + rewrite (b_app _ _ _ _ _ _ _ _ _ _ B) by exact Hp. rewrite <- map_app. reflexivity.
    - intros v n Hv Hs Hn. change (va_inv K d v) in Hv. change (va_truncate K v n = (v, ODone)).
      change (lenN (va_abs K d v) <= n)%N in Hn. unfold lenN in Hn. rewrite (va_abs_length K d v Hv) in Hn.
      destruct Hv as [Hc Hb]. destruct Hs as [S1 S2]. unfold n_img in S1, S2. cbn [fst snd] in S1, S2.
      unfold va_bits in Hn. unfold va_truncate. destruct v as [c [b|]]; cbn [va_coll va_bm option_map bi_count bits_in] in *.
      + rewrite (b_len _ _ _ _ _ _ _ _ _ _ B _ Hc) in S2. rewrite (bm_abs_length b (proj1 Hb)) in Hn.
        rewrite (b_stay _ _ _ _ _ _ _ _ _ _ B _ _ Hc S1) by (unfold lenN; lia).
        unfold bm_truncate. assert ((n <? N.of_nat (bm_bits b))%N = false) as -> by lia. reflexivity.
      + rewrite repeat_length in Hn.
        rewrite (b_stay _ _ _ _ _ _ _ _ _ _ B _ _ Hc S1) by (unfold lenN; lia). reflexivity.
    - intros R v it xs e r v' r' Hv Hs Hx Hr E. exact (n_extend v it xs e r v' r' Hv Hs (Hwt _ Hx) Hr E).
    - intros R v it w xs e r v' r' w' Hv Hs Hx Hr E.
      exact (n_try_extend v it w xs e r v' r' w' Hv Hs (Hwt _ Hx) Hr E).
    - intros v n v' o Hv E. change (va_inv K d v) in Hv. change (va_reserve K v n = (v', o)) in E.
      unfold va_reserve in E. destruct (va_materialize K v) as [v1 o1] eqn:E1.
      destruct (n_materialize _ _ _ Hv E1) as [F1 S1].
      destruct (va_materialize_spec K d L _ _ _ Hv E1) as [(-> & b & Hp)|(-> & -> & Hbig)].
      2:{ inversion E; subst. auto. }
      pose proof Hp as (Hb & _ & [Hc1 Hok] & _). rewrite Hb in *.
      destruct (bm_reserve b n) as [b2 o2] eqn:E2.
      pose proof (bm_reserve_bits _ _ _ _ (proj1 Hok) E2) as B2.
      assert (G : forall c2, l_inv d c2 -> l_abs d c2 = l_abs d (va_coll v1) ->
        fil (img c2) = fil (img (va_coll v1)) -> (snug (img (va_coll v1)) -> snug (img c2)) ->
        n_fil (n_img (Validity c2 (Some b2))) = n_fil (n_img v) /\
        (n_snug (n_img v) -> n_snug (n_img (Validity c2 (Some b2))))).
      { intros c2 Q1 Q2 Q3 Q4. destruct (n_same v1 b c2 b2 Hb Hc1 Q1 Q2 B2 Q3 Q4) as [G1 G2].
        rewrite G1. auto. }
      destruct o2; try solve [inversion E; subst; apply G; auto].
      destruct (k_reserve K (va_coll v1) n) as [c3 o3] eqn:E3.
      destruct (b_reserve _ _ _ _ _ _ _ _ _ _ B _ _ _ _ Hc1 E3) as [C1 C2].
      destruct (lw_reserve _ _ L _ _ _ _ Hc1 E3) as ((I3 & _ & A3 & _) & _).
      inversion E; subst. apply G; auto.
    - intros v n w v' o w' Hv E. change (va_inv K d v) in Hv.
      change (va_try_reserve K v n w = (v', o, w')) in E.
      unfold va_try_reserve in E. destruct (va_try_materialize K v w) as [[v1 o1] w1] eqn:E1.
      destruct (n_try_materialize _ _ _ _ _ Hv E1) as [F1 S1].
      destruct (va_try_materialize_spec K d L _ _ _ _ _ Hv E1) as [(-> & b & Hp)|(-> & ->)].
      2:{ inversion E; subst. auto. }
      pose proof Hp as (Hb & _ & [Hc1 Hok] & _). rewrite Hb in *.
      destruct (k_try_reserve K (va_coll v1) n w1) as [[c2 o2] w2] eqn:E2.
      destruct (b_try_reserve _ _ _ _ _ _ _ _ _ _ B _ _ _ _ _ _ Hc1 E2) as [C1 C2].
      destruct (lw_try_reserve _ _ L _ _ _ _ _ _ Hc1 E2) as ((I3 & _ & A3 & _) & _).
      assert (G : forall b2, bits_in b2 = bits_in b ->
        n_fil (n_img (Validity c2 (Some b2))) = n_fil (n_img v) /\
        (n_snug (n_img v) -> n_snug (n_img (Validity c2 (Some b2))))).
      { intros b2 Q. destruct (n_same v1 b c2 b2 Hb Hc1 I3 A3 Q C1 C2) as [G1 G2].
        rewrite G1. auto. }
      destruct o2; try solve [inversion E; subst; apply G; auto].
      destruct (bm_try_reserve b n w2) as [[b3 o3] w3] eqn:E3.
      pose proof (bm_try_reserve_bits _ _ _ _ _ _ (proj1 Hok) E3) as B3.
      inversion E; subst. apply G; auto.
    - intros v n v' o Hv E. change (va_inv K d v) in Hv. change (va_truncate K v n = (v', o)) in E.
      unfold va_truncate in E. destruct Hv as [Hc Hb].
      destruct (lw_truncate _ _ L (va_coll v) n Hc) as (c' & Et & Hc' & _ & Ha & _).
      rewrite Et in E. inversion E; subst; clear E.
      destruct (b_cut _ _ _ _ _ _ _ _ _ _ B _ _ _ _ Hc Et) as [C1 C2].
      unfold n_img, n_cut, n_snug. cbn [va_coll va_bm fst snd]. rewrite C1.
      destruct (va_bm v) as [b|]; cbn [option_map].
      + rewrite bm_truncate_bits. split; [reflexivity|]. intros [G1 G2]. rewrite <- C1. split; [auto|].
        rewrite (b_len _ _ _ _ _ _ _ _ _ _ B _ Hc'), Ha, firstn_length.
        rewrite (b_len _ _ _ _ _ _ _ _ _ _ B _ Hc) in G2. cbn [cut_bits bi_count]. rewrite G2. reflexivity.
      + split; [reflexivity|]. intros [G1 _]. rewrite <- C1. auto.
  Qed.
End Null.

Section Lists.
  Context (K : Coll) (d : LD K) (L : Laws K d) (I : Type) (img : cC K -> I) (len : I -> nat)
    (fil : I -> I) (app : I -> list (cA K) -> I) (cut : I -> nat -> I) (snug wf : I -> Prop)
    (B : BLaws K d I img len fil app cut snug wf) (kd : okind).

  Definition o_img (o : offsets (cC K)) : I * list Z := (img (of_data o), v_items (of_offs o)).
  Definition o_len (p : I * list Z) : nat := length (snd p) - 1.
  Definition o_fil (p : I * list Z) : I * list Z := (fil (fst p), snd p).
  Definition o_cut (p : I * list Z) (n : nat) : I * list Z :=
    if n <? length (snd p) - 1
    then (cut (fst p) (Z.to_nat (nth n (snd p) 0%Z)), firstn (S n) (snd p)) else p.
  Definition o_snug (p : I * list Z) : Prop :=
    snug (fst p) /\ last (snd p) 0%Z = Z.of_nat (len (fst p)).

  Lemma last_nth {A} (l : list A) a : last l a = nth (length l - 1) l a.
  Proof.
    induction l as [|x [|y l] IH]; [reflexivity|reflexivity|].
    change (last (x :: y :: l) a) with (last (y :: l) a). rewrite IH.
    cbn [length nth Nat.sub]. rewrite Nat.sub_0_r. reflexivity.
  Qed.
  Lemma last_offs o ls : of_rep K d kd o ls ->
    last (v_items (of_offs o)) 0%Z = Z.of_nat (length (concat ls)).
  Proof.
    intros H. pose proof (of_last K d kd o ls H) as E. rewrite last_nth.
    apply nth_error_nth. exact E.
  Qed.
  Lemma snug_tight o : of_inv K d kd o -> o_snug (o_img o) -> exists ls, tight K d kd o ls.
  Proof.
    intros [ls Ho] [_ H]. exists ls. cbn [o_img fst snd] in H. rewrite (last_offs o ls Ho) in H.
    pose proof Ho as (H1 & H2 & H3 & (rest & H4) & H5).
    rewrite (b_len _ _ _ _ _ _ _ _ _ _ B _ H1), H4, app_length in H.
    assert (rest = []) as -> by (destruct rest; [reflexivity|cbn [length] in H; lia]).
    rewrite app_nil_r in H4. unfold tight. auto.
  Qed.
  Lemma tight_snug o ls : tight K d kd o ls -> snug (img (of_data o)) -> o_snug (o_img o).
  Proof.
    intros Ht Hs. split; [exact Hs|]. cbn [o_img fst snd].
    rewrite (last_offs o ls (tight_rep _ _ _ _ _ Ht)).
    destruct Ht as (H1 & _ & _ & H4 & _). rewrite (b_len _ _ _ _ _ _ _ _ _ _ B _ H1), H4. reflexivity.
  Qed.

  Lemma o_extend_t {R} : forall (t : trace (list (cA K)) R) n o ls xs e r o' r',
    tight K d kd o ls -> snug (img (of_data o)) -> Forall (Forall (l_wt d)) xs ->
    run_t t n = (xs, e, r) ->
    of_extend_t K kd t n o (Z.of_nat (length (concat ls))) = (o', r', ODone) ->
    o_fil (o_img o') = put_lists app (o_fil (o_img o)) xs /\ snug (img (of_data o')).
  Proof.
    induction t as [|[[l| |] n'] t IH]; intros n o ls xs e r o' r' Ht HP Hwt Hr;
      cbn [of_extend_t run_t] in *.
    - inversion Hr; subst. intros E; inversion E; subst. auto.
    - destruct (run_t t n') as [[xs1 e1] r1] eqn:Hr1. inversion Hr; subst xs e1 r1; clear Hr.
      inversion Hwt as [|? ? Hl Hwt1]; subst.
      unfold off_try_from. destruct (Z.of_N (lenN l) <=? omax kd)%Z; [|discriminate].
      unfold off_strict_add. destruct (_ && _)%bool eqn:Eb; [|discriminate].
      destruct (k_reserve K (of_data o) (lenN l)) as [d1 o1] eqn:E1. destruct o1; try discriminate.
      destruct (k_extend K d1 (it_list l)) as [[d2 u2] o2] eqn:E2. destruct o2; try discriminate.
      destruct (vec_extend (osz kd) (of_offs o) (it_list _)) as [[v3 u3] o3] eqn:E3.
      destruct o3; try discriminate.
      pose proof Ht as (T1 & T2 & T3 & T4 & T5).
      destruct (lw_reserve _ _ L _ _ _ _ T1 E1) as ((R1 & _ & R3 & _) & _).
      destruct (b_reserve _ _ _ _ _ _ _ _ _ _ B _ _ _ _ T1 E1) as [F1 P1]. specialize (P1 HP).
      destruct (lw_extend _ _ L _ _ _ _ _ _ _ _ _ R1 Hl (run_list l) E2) as [(_ & _ & X1 & _ & X3 & _) _].
      destruct (b_extend _ _ _ _ _ _ _ _ _ _ B _ _ _ _ _ _ _ _ R1 P1 Hl (run_list l) E2) as [F2 P2].
      destruct (vec_extend_spec _ _ _ _ _ _ _ _ _ T2 (run_list _) E3) as (V1 & _ & _ & _ & _ & V4).
      assert (Hnext : (Z.of_nat (length (concat ls)) + Z.of_N (lenN l))%Z =
        Z.of_nat (length (concat (ls ++ [l])))).
      { rewrite concat_snoc, app_length. unfold lenN. lia. }
      pose proof (last_offs o ls (tight_rep _ _ _ _ _ Ht)) as Hlast.
      assert (Hn2 : (last (v_items (of_offs o)) 0 + Z.of_nat (length l))%Z =
        Z.of_nat (length (concat (ls ++ [l])))) by (rewrite Hlast; unfold lenN in Hnext; lia).
      rewrite Hnext in *. intros E.
      assert (Ht2 : tight K d kd (Offsets d2 v3) (ls ++ [l])).
      { apply (tight_push K d kd d2 v3 ls l o Ht X1 V1); [congruence|exact V4|lia]. }
      eapply IH in E; [|exact Ht2|exact P2|exact Hwt1|exact Hr1].
      destruct E as [G1 G2]. split; [|exact G2]. rewrite G1. cbn [put_lists].
      unfold o_fil, o_img. cbn [of_data of_offs fst snd]. rewrite F2, F1, V4, Hn2. reflexivity.
    - inversion Hr; subst. intros E; inversion E; subst. auto.
    - discriminate.
  Qed.
  Lemma o_try_extend_t {R} rows ln : forall (t : trace (list (cA K)) R) n o ls w xs e r o' r' w',
    tight K d kd o ls -> snug (img (of_data o)) -> Forall (Forall (l_wt d)) xs ->
    run_t t n = (xs, e, r) ->
    of_try_extend_t K kd rows ln t n o (Z.of_nat (length (concat ls))) w = (o', r', ODone, w') ->
    o_fil (o_img o') = put_lists app (o_fil (o_img o)) xs /\ snug (img (of_data o')).
  Proof.
    assert (Hroll : forall o, snd (of_rollback K o rows ln) <> ODone).
    { intros o. unfold of_rollback. destruct (k_truncate K (of_data o) ln) as [d1 []]; discriminate. }
    assert (Hno : forall o (x : R) (v w' : world) o' r',
      (let '(o1, e1) := of_rollback K o rows ln in (o1, x, e1, v)) = (o', r', ODone, w') -> False).
    { intros o x v w' o' r'. specialize (Hroll o). destruct (of_rollback K o rows ln) as [o1 e1].
      cbn [snd] in Hroll. intros E; inversion E; subst. congruence. }
    induction t as [|[[l| |] n'] t IH]; intros n o ls w xs e r o' r' w' Ht HP Hwt Hr;
      cbn [of_try_extend_t run_t] in *.
    - inversion Hr; subst. intros E; inversion E; subst. auto.
    - destruct (run_t t n') as [[xs1 e1] r1] eqn:Hr1. inversion Hr; subst xs e1 r1; clear Hr.
      inversion Hwt as [|? ? Hl Hwt1]; subst.
      rewrite (as_usize_nat kd). unfold checked_add.
      destruct (N.of_nat (length (concat ls)) + lenN l <=? usize_max)%N;
        [|intros E; destruct (Hno _ _ _ _ _ _ E)].
      unfold off_try_from.
      destruct (Z.of_N (N.of_nat (length (concat ls)) + lenN l) <=? omax kd)%Z eqn:Em;
        [|intros E; destruct (Hno _ _ _ _ _ _ E)].
      destruct (k_try_extend K (of_data o) (it_list l) w) as [[[d2 u2] o2] w2] eqn:E2.
      destruct o2; try discriminate; [|intros E; destruct (Hno _ _ _ _ _ _ E)].
      destruct (vec_try_extend (osz kd) (of_offs o) (it_list _) w2) as [[[v3 u3] o3] w3] eqn:E3.
      destruct o3; try discriminate; [|intros E; destruct (Hno _ _ _ _ _ _ E)].
      pose proof Ht as (T1 & T2 & T3 & T4 & T5).
      destruct (lw_try_extend _ _ L _ _ _ _ _ _ _ _ _ _ _ T1 Hl (run_list l) E2)
        as (_ & _ & X1 & _ & X3 & _).
      destruct (b_try_extend _ _ _ _ _ _ _ _ _ _ B _ _ _ _ _ _ _ _ _ _ T1 HP Hl (run_list l) E2) as [F2 P2].
      destruct (vec_try_extend_spec _ _ _ _ _ _ _ _ _ _ _ T2 (run_list _) E3)
        as (V1 & _ & _ & _ & V4).
      assert (Hnext : Z.of_N (N.of_nat (length (concat ls)) + lenN l) =
        Z.of_nat (length (concat (ls ++ [l])))).
      { rewrite concat_snoc, app_length. unfold lenN. lia. }
      pose proof (last_offs o ls (tight_rep _ _ _ _ _ Ht)) as Hlast.
      assert (Hn2 : (last (v_items (of_offs o)) 0 + Z.of_nat (length l))%Z =
        Z.of_nat (length (concat (ls ++ [l])))) by (rewrite Hlast; unfold lenN in Hnext; lia).
      rewrite Hnext in *. intros E.
      assert (Ht2 : tight K d kd (Offsets d2 v3) (ls ++ [l])).
      { apply (tight_push K d kd d2 v3 ls l o Ht X1 V1); [congruence|exact V4|lia]. }
      eapply IH in E; [|exact Ht2|exact P2|exact Hwt1|exact Hr1].
      destruct E as [G1 G2]. split; [|exact G2]. rewrite G1. cbn [put_lists].
      unfold o_fil, o_img. cbn [of_data of_offs fst snd]. rewrite F2, V4, Hn2. reflexivity.
    - inversion Hr; subst. intros E; inversion E; subst. auto.
    - discriminate.
  Qed.

  Lemma o_extend {R} o (it : iter (list (cA K)) R) xs e r o' r' :
    of_inv K d kd o -> o_snug (o_img o) -> Forall (Forall (l_wt d)) xs -> run it = (xs, e, r) ->
    of_extend K kd o it = (o', r', ODone) ->
    o_fil (o_img o') = put_lists app (o_fil (o_img o)) xs /\ o_snug (o_img o').
  Proof.
    intros Ho Hs Hwt Hr E. destruct (snug_tight o Ho Hs) as [ls Ht].
    pose proof (tight_rep _ _ _ _ _ Ht) as Hrep.
    pose proof (of_extend_spec K d L kd _ _ _ _ _ _ _ _ _ Hrep Hwt Hr E) as [(_ & _ & Ht' & _) _].
    unfold of_extend in E. rewrite (of_last K d kd o ls Hrep), (as_usize_nat kd) in E.
    pose proof Ht as (T1 & T2 & T3 & T4 & T5). destruct Hs as [Hs _]. cbn [o_img fst] in Hs.
    rewrite (b_stay _ _ _ _ _ _ _ _ _ _ B _ _ T1 Hs) in E by (unfold lenN; rewrite T4; lia).
    replace (Offsets (of_data o) (of_offs o)) with o in E by (destruct o; reflexivity).
    destruct (o_extend_t _ _ _ _ _ _ _ _ _ Ht Hs Hwt Hr E) as [G1 G2].
    split; [exact G1|]. exact (tight_snug o' _ Ht' G2).
  Qed.
  Lemma o_try_extend {R} o (it : iter (list (cA K)) R) w xs e r o' r' w' :
    of_inv K d kd o -> o_snug (o_img o) -> Forall (Forall (l_wt d)) xs -> run it = (xs, e, r) ->
    of_try_extend K kd o it w = (o', r', ODone, w') ->
    o_fil (o_img o') = put_lists app (o_fil (o_img o)) xs /\ o_snug (o_img o').
  Proof.
    intros Ho Hs Hwt Hr E. destruct (snug_tight o Ho Hs) as [ls Ht].
    pose proof (tight_rep _ _ _ _ _ Ht) as Hrep.
    pose proof (of_try_extend_spec K d L kd _ _ _ _ _ _ _ _ _ _ _ Hrep Hwt Hr E) as (_ & _ & Ht' & _).
    unfold of_try_extend in E.
    rewrite (of_len_spec K d kd o ls Hrep), (of_last K d kd o ls Hrep), (as_usize_nat kd) in E.
    pose proof Ht as (T1 & T2 & T3 & T4 & T5). destruct Hs as [Hs _]. cbn [o_img fst] in Hs.
    rewrite (b_stay _ _ _ _ _ _ _ _ _ _ B _ _ T1 Hs) in E by (unfold lenN; rewrite T4; lia).
    replace (Offsets (of_data o) (of_offs o)) with o in E by (destruct o; reflexivity).
    destruct (o_try_extend_t _ _ _ _ _ _ _ _ _ _ _ _ _ Ht Hs Hwt Hr E) as [G1 G2].
    split; [exact G1|]. exact (tight_snug o' _ Ht' G2).
  Qed.

  Lemma put_lists_app : forall xs p ys,
    put_lists app (put_lists app p xs) ys = put_lists app p (xs ++ ys).
  Proof. induction xs as [|x xs IH]; intros p ys; cbn [put_lists List.app]; auto. Qed.
  Lemma o_same o d1 v1 : l_inv d (of_data o) -> l_inv d d1 -> l_abs d d1 = l_abs d (of_data o) ->
    v_items v1 = v_items (of_offs o) -> fil (img d1) = fil (img (of_data o)) ->
    (snug (img (of_data o)) -> snug (img d1)) ->
    o_fil (o_img (Offsets d1 v1)) = o_fil (o_img o) /\
    (o_snug (o_img o) -> o_snug (o_img (Offsets d1 v1))).
  Proof.
    intros H1 H2 Ha Hv Hf Hs. unfold o_fil, o_snug, o_img. cbn [of_data of_offs fst snd].
    rewrite Hv, Hf. split; [reflexivity|]. intros [G1 G2]. split; [auto|].
    rewrite (b_len _ _ _ _ _ _ _ _ _ _ B _ H2), Ha.
    rewrite (b_len _ _ _ _ _ _ _ _ _ _ B _ H1) in G2. exact G2.
  Qed.
  Lemma offsets_blaws : BLaws (offsets_coll K kd) (offsets_ld K d kd) (I * list Z) o_img o_len o_fil
    (put_lists app) o_cut o_snug (fun _ => True).
  Proof.
    split.
    - intros o Ho. change (of_inv K d kd o) in Ho. change (o_len (o_img o) = length (of_abs K d o)).
      destruct Ho as [ls Ho]. rewrite (of_rep_abs K d kd o ls Ho). unfold o_len, o_img. cbn [snd].
      destruct Ho as (_ & _ & -> & _). cbn [length]. rewrite ends_length. lia.
    - auto.
    - intros p xs ys _. apply put_lists_app.
    - intros o n Ho _ Hn. change (of_inv K d kd o) in Ho. change (of_truncate K o n = (o, ODone)).
      change (lenN (of_abs K d o) <= n)%N in Hn. destruct Ho as [ls Ho].
      rewrite (of_rep_abs K d kd o ls Ho) in Hn.
      unfold of_truncate. rewrite (of_len_spec K d kd o ls Ho). unfold lenN in Hn.
      assert ((n <? N.of_nat (length ls))%N = false) as -> by lia. reflexivity.
    - intros R o it xs e r o' r' Ho Hs Hx Hr E. exact (o_extend o it xs e r o' r' Ho Hs Hx Hr E).
    - intros R o it w xs e r o' r' w' Ho Hs Hx Hr E.
      exact (o_try_extend o it w xs e r o' r' w' Ho Hs Hx Hr E).
    - intros o n o' e [ls (H1 & H2 & _)] E. change (of_reserve K kd o n = (o', e)) in E.
      unfold of_reserve in E.
      destruct (k_reserve K (of_data o) n) as [d1 o1] eqn:E1.
      destruct (b_reserve _ _ _ _ _ _ _ _ _ _ B _ _ _ _ H1 E1) as [F1 S1].
      destruct (lw_reserve _ _ L _ _ _ _ H1 E1) as ((I1 & _ & A1 & _) & _).
      destruct o1; try solve [inversion E; subst; apply o_same; auto].
      destruct (vec_reserve (osz kd) (of_offs o) n) as [v2 o2] eqn:E2.
      destruct (vec_reserve_spec _ _ _ _ _ H2 E2) as (_ & V & _).
      inversion E; subst. apply o_same; auto.
    - intros o n w o' e w' [ls (H1 & H2 & _)] E. change (of_try_reserve K kd o n w = (o', e, w')) in E.
      unfold of_try_reserve in E.
      destruct (k_try_reserve K (of_data o) n w) as [[d1 o1] w1] eqn:E1.
      destruct (b_try_reserve _ _ _ _ _ _ _ _ _ _ B _ _ _ _ _ _ H1 E1) as [F1 S1].
      destruct (lw_try_reserve _ _ L _ _ _ _ _ _ H1 E1) as ((I1 & _ & A1 & _) & _).
      destruct o1; try solve [inversion E; subst; apply o_same; auto].
      destruct (vec_try_reserve (osz kd) (of_offs o) n w1) as [[v2 o2] w2] eqn:E2.
      destruct (vec_try_reserve_spec _ _ _ _ _ _ _ H2 E2) as (_ & V & _).
      inversion E; subst. apply o_same; auto.
    - intros o n o' e [ls Ho] E. change (of_truncate K o n = (o', e)) in E. unfold of_truncate in E.
      rewrite (of_len_spec K d kd o ls Ho) in E. pose proof Ho as (H1 & H2 & H3 & (rest & H4) & H5).
      assert (Hlen : length (v_items (of_offs o)) = S (length ls))
        by (rewrite H3; cbn [length]; rewrite ends_length; reflexivity).
      unfold o_cut. change (snd (o_img o)) with (v_items (of_offs o)).
      change (fst (o_img o)) with (img (of_data o)). rewrite Hlen.
      destruct (N.ltb_spec n (N.of_nat (length ls))) as [H|H].
      2:{ assert ((N.to_nat n <? S (length ls) - 1) = false) as -> by lia.
          inversion E; subst. auto. }
      assert ((N.to_nat n <? S (length ls) - 1) = true) as -> by lia.
      unfold vec_view in E. rewrite nth_N_lt, (of_nth K d kd o ls (N.to_nat n) Ho) in E by (unfold lenN; lia).
      rewrite (as_usize_nat kd) in E.
      set (z := length (concat (firstn (N.to_nat n) ls))) in *.
      destruct (lw_truncate _ _ L (of_data o) (N.of_nat z) H1) as (d' & Et & Hd' & _ & Ha & _).
      rewrite Et in E. inversion E; subst; clear E.
      destruct (b_cut _ _ _ _ _ _ _ _ _ _ B _ _ _ _ H1 Et) as [C1 C2].
      assert (Hz : nth (N.to_nat n) (v_items (of_offs o)) 0%Z = Z.of_nat z).
      { apply nth_error_nth. apply (of_nth K d kd o ls (N.to_nat n) Ho). lia. }
      assert (Hv : v_items (vec_truncate (of_offs o) (n + 1)) = firstn (S (N.to_nat n)) (v_items (of_offs o))).
      { unfold vec_truncate, lenN. rewrite Hlen.
        destruct (N.ltb_spec (n + 1) (N.of_nat (S (length ls)))) as [Hx|Hx]; cbn [v_items].
        - f_equal. lia.
        - symmetry. apply firstn_all2. lia. }
      unfold o_img, o_snug. cbn [of_data of_offs fst snd]. rewrite Hv, C1, Hz.
      split; [do 2 f_equal; lia|]. intros [G1 _]. rewrite <- C1. split; [auto|].
      rewrite (b_len _ _ _ _ _ _ _ _ _ _ B _ Hd'), Ha, last_nth, firstn_length, Hlen, Nat.min_l by lia.
      rewrite firstn_length. replace (S (N.to_nat n) - 1) with (N.to_nat n) by lia.
      rewrite <- (firstn_skipn (S (N.to_nat n)) (v_items (of_offs o))) in Hz.
      rewrite app_nth1 in Hz by (rewrite firstn_length; lia). rewrite Hz.
      rewrite H4, app_length. assert (z <= length (concat ls)); [|lia].
      unfold z. rewrite <- (firstn_skipn (N.to_nat n) ls) at 2. rewrite concat_app, app_length. lia.
  Qed.
End Lists.

(** ** Shapes *)

Fixpoint wf_image (s : shape) : image s -> Prop :=
  match s with
  | SVec _ => fun _ => True
  | SAny A _ _ => fun _ => True
  | SBits => wf_bits
  | SNull s => fun p : image s * option bits_image =>
      wf_image s (fst p) /\ match snd p with Some m => wf_bits m | None => True end
  | SFixed _ s => wf_image s
  | SList _ s => fun _ => True
  end.
Lemma bytes_laws : forall s, widths_pos s ->
  BLaws (coll s) (shape_ld s) (image s) (image_of s) (image_len s) (filled s) (put s) (cut_items s)
    (snug s) (wf_image s).
Proof.
  induction s as [p| |s IH|n s IH|k s IH|A a0 z]; cbn [widths_pos]; intros Hw.
  - apply vec_blaws.
  - apply bitmap_blaws.
  - cbn [put]. rewrite default_item_spec.
    exact (validity_blaws _ _ (shape_laws s Hw) _ _ _ _ _ _ _ _ (IH Hw)).
  - destruct Hw as [Hn Hw]. exact (flatten_blaws _ _ (shape_laws s Hw) _ _ _ _ _ _ _ _ (IH Hw) n Hn).
  - exact (offsets_blaws _ _ (shape_laws s Hw) _ _ _ _ _ _ _ _ (IH Hw) k).
  - apply vec_blaws.
Qed.

Lemma put_bits_nil m : wf_bits m -> put_bits m [] = m.
Proof.
  destruct m as [A st ct]. unfold wf_bits, put_bits. cbn [bi_all bi_start bi_count length app].
  intros H. rewrite !Nat.add_0_r. pose proof (to_byte_ge (st + ct)) as T.
  assert ((st + ct <=? to_byte (st + ct)) = true) as -> by lia. rewrite firstn_skipn. reflexivity.
Qed.
Lemma put_nil : forall s p, wf_image s p -> put s p [] = p.
Proof.
  induction s as [p0| |s IH|n s IH|k s IH|A a0 z]; intros p Hp; cbn [put wf_image] in *.
  - apply app_nil_r.
  - apply put_bits_nil, Hp.
  - destruct p as [p [m|]], Hp as [H1 H2]; cbn [fst snd map option_map] in *; rewrite IH by exact H1;
      [rewrite put_bits_nil by exact H2|]; reflexivity.
  - apply (IH p Hp).
  - reflexivity.
  - apply app_nil_r.
Qed.

Section Shapes.
  Context (s : shape) (Hw : widths_pos s).
  Local Notation K := (coll s).
  Local Notation d := (shape_ld s).
  Let L : Laws K d := shape_laws s Hw.
  Let B := bytes_laws s Hw.

  Lemma bytes_extend R c (it : iter (cA K) R) c' r : built s c -> snug s (image_of s c) ->
    Forall (item_ok s) (items_of it) -> k_extend K c it = (c', r, ODone) ->
    filled s (image_of s c') = put s (filled s (image_of s c)) (items_of it) /\
    snug s (image_of s c').
  Proof.
    intros Hb Hs Hi E. apply items_ok_wt in Hi. pose proof (built_inv s c Hb Hw) as Hc.
    destruct (run_parts it) as [r0 Hr].
    exact (b_extend _ _ _ _ _ _ _ _ _ _ B _ _ _ _ _ _ _ _ Hc Hs Hi Hr E).
  Qed.
  Lemma bytes_try_extend R c (it : iter (cA K) R) w c' r w' : built s c -> snug s (image_of s c) ->
    Forall (item_ok s) (items_of it) -> k_try_extend K c it w = (c', r, ODone, w') ->
    filled s (image_of s c') = put s (filled s (image_of s c)) (items_of it) /\
    snug s (image_of s c').
  Proof.
    intros Hb Hs Hi E. apply items_ok_wt in Hi. pose proof (built_inv s c Hb Hw) as Hc.
    destruct (run_parts it) as [r0 Hr].
    exact (b_try_extend _ _ _ _ _ _ _ _ _ _ B _ _ _ _ _ _ _ _ _ _ Hc Hs Hi Hr E).
  Qed.
  Lemma bytes_reserve c : built s c ->
    (forall n c' o, k_reserve K c n = (c', o) ->
       same_bytes s c' c /\ (snug s (image_of s c) -> snug s (image_of s c'))) /\
    (forall n w c' o w', k_try_reserve K c n w = (c', o, w') ->
       same_bytes s c' c /\ (snug s (image_of s c) -> snug s (image_of s c'))).
  Proof.
    intros Hb. pose proof (built_inv s c Hb Hw) as Hc. split.
    - intros n c' o E. exact (b_reserve _ _ _ _ _ _ _ _ _ _ B _ _ _ _ Hc E).
    - intros n w c' o w' E. exact (b_try_reserve _ _ _ _ _ _ _ _ _ _ B _ _ _ _ _ _ Hc E).
  Qed.
  Lemma bytes_truncate c n c' o : built s c -> k_truncate K c n = (c', o) ->
    image_of s c' = cut_items s (image_of s c) (N.to_nat n) /\
    (snug s (image_of s c) -> snug s (image_of s c')).
  Proof.
    intros Hb E. pose proof (built_inv s c Hb Hw) as Hc.
    exact (b_cut _ _ _ _ _ _ _ _ _ _ B _ _ _ _ Hc E).
  Qed.
  Lemma bytes_runs c ps os c' : built s c -> snug s (image_of s c) -> runs s c ps os c' ->
    Forall2 appends ps os ->
    filled s (image_of s c') = put s (filled s (image_of s c)) (concat (map op_items ps)) /\
    snug s (image_of s c').
  Proof.
    intros Hb Hs H Ha. revert Hb Hs Ha.
    induction H as [c|c p o c1 ps os c2 Hi E Ho Hp Hr IH]; intros Hb Hs Ha; cbn [map concat].
    - split; [|exact Hs]. symmetry. apply put_nil. apply (b_wf _ _ _ _ _ _ _ _ _ _ B).
      exact (built_inv s c Hb Hw).
    - inversion Ha as [|? ? ? ? Ha1 Ha2]; subst.
      pose proof (built_step s c p c1 o Hb Hi E Ho Hp) as Hb1.
      assert (G : filled s (image_of s c1) = put s (filled s (image_of s c)) (op_items p) /\
        snug s (image_of s c1)).
      { assert (Hn : put s (filled s (image_of s c)) [] = filled s (image_of s c)).
        { apply put_nil. apply (b_wf _ _ _ _ _ _ _ _ _ _ B). exact (built_inv s c Hb Hw). }
        destruct p as [it|it w|n|n w|n]; cbn [appends step op_items] in *.
        - subst o. destruct (k_extend K c it) as [[c3 r3] o3] eqn:E3. inversion E; subst.
          exact (bytes_extend _ _ _ _ _ Hb Hs Hi E3).
        - subst o. destruct (k_try_extend K c it w) as [[[c3 r3] o3] w3] eqn:E3. inversion E; subst.
          exact (bytes_try_extend _ _ _ _ _ _ _ Hb Hs Hi E3).
        - rewrite Hn. destruct (proj1 (bytes_reserve c Hb) _ _ _ E) as [G1 G2]. auto.
        - rewrite Hn. destruct (k_try_reserve K c n w) as [[c3 o3] w3] eqn:E3. inversion E; subst.
          destruct (proj2 (bytes_reserve c Hb) _ _ _ _ _ E3) as [G1 G2]. auto.
        - contradiction. }
      destruct G as [G1 G2]. destruct (IH Hb1 G2 Ha2) as [G3 G4]. split; [|exact G4].
      rewrite G3, G1. apply (b_app _ _ _ _ _ _ _ _ _ _ B). apply (b_wf _ _ _ _ _ _ _ _ _ _ B).
      exact (built_inv s c Hb Hw).
  Qed.
  Lemma bytes_same c1 c2 ps1 os1 c1' ps2 os2 c2' : built s c1 -> built s c2 ->
    snug s (image_of s c1) -> snug s (image_of s c2) -> same_bytes s c1 c2 ->
    runs s c1 ps1 os1 c1' -> runs s c2 ps2 os2 c2' -> Forall2 appends ps1 os1 -> Forall2 appends ps2 os2 ->
    concat (map op_items ps1) = concat (map op_items ps2) -> same_bytes s c1' c2'.
  Proof.
    intros B1 B2 S1 S2 Hs R1 R2 A1 A2 Hi. unfold same_bytes in *.
    rewrite (proj1 (bytes_runs _ _ _ _ B1 S1 R1 A1)), (proj1 (bytes_runs _ _ _ _ B2 S2 R2 A2)).
    rewrite Hs, Hi. reflexivity.
  Qed.
End Shapes.

Lemma last_arrow {A} : forall (xs : list (list A)) z,
  last (arrow_offsets z xs) 0%Z = (z + Z.of_nat (length (concat xs)))%Z.
Proof.
  induction xs as [|x xs IH]; intros z; [cbn [arrow_offsets last concat length]; lia|].
  cbn [arrow_offsets concat].
  assert (H : last (z :: arrow_offsets (z + Z.of_nat (length x)) xs) 0%Z =
    last (arrow_offsets (z + Z.of_nat (length x)) xs) 0%Z) by (destruct xs; reflexivity).
  rewrite H, IH, app_length. lia.
Qed.
Lemma arrow_length {A} : forall (xs : list (list A)) z, length (arrow_offsets z xs) = S (length xs).
Proof. induction xs as [|x xs IH]; intros z; cbn [arrow_offsets length]; auto. Qed.
Lemma laid_image_len : forall s c xs, widths_pos s -> laid s c xs ->
  image_len s (image_of s c) = length xs.
Proof.
  induction s as [p| |s IH|n s IH|k s IH|A a0 z]; intros c xs Hw Hl; cbn [laid image_len image_of widths_pos] in *.
  - rewrite Hl. reflexivity.
  - destruct Hl as (_ & H & _). exact H.
  - revert Hl. cbv beta. destruct c as [c [b|]]; cbn [va_coll va_bm snd fst option_map]; intros [H1 H2].
    + destruct H2 as (_ & H & _). rewrite map_length in H. exact H.
    + apply IH in H1; [|exact Hw]. rewrite map_length in H1. exact H1.
  - destruct Hw as [Hn Hw]. destruct Hl as [H1 H2]. apply IH in H2; [|exact Hw]. rewrite H2.
    rewrite (concat_length (A := cA (coll s)) n xs) by (apply Forall_forall; exact H1).
    rewrite Nat.mul_comm. apply Nat.div_mul. lia.
  - destruct Hl as [_ ->]. cbn [snd]. rewrite arrow_length. cbn [Nat.sub]. apply Nat.sub_0_r.
  - rewrite Hl. reflexivity.
Qed.
Lemma laid_snug : forall s c xs, widths_pos s -> laid s c xs -> snug s (image_of s c).
Proof.
  induction s as [p| |s IH|n s IH|k s IH|A a0 z]; intros c xs Hw Hl; cbn [laid snug image_of widths_pos] in *;
    try exact I.
  - revert Hl. destruct c as [c [b|]]; cbn [va_coll va_bm snd fst option_map]; intros [H1 H2];
      (split; [exact (IH _ _ Hw H1)|]); [|exact I].
    rewrite (laid_image_len _ _ _ Hw H1), map_length. destruct H2 as (_ & H & _). rewrite map_length in H. exact H.
  - destruct Hl as [H1 H2]. exact (IH _ _ (proj2 Hw) H2).
  - destruct Hl as [H1 H2]. cbn [fst snd]. split; [exact (IH _ _ Hw H1)|].
    rewrite H2, last_arrow, (laid_image_len _ _ _ Hw H1). lia.
Qed.

(** ** Clones *)

Lemma clone_image : forall s c, image_of s (clone s c) = image_of s c.
Proof. induction s as [p| |s IH|n s IH|k s IH|A a0 z]; intros c; cbn [clone image_of]; auto. Qed.
Lemma clonable_plain : forall s, clonable s = true -> forall p, filled s p = p /\ snug s p.
Proof.
  induction s as [p0| |s IH|n s IH|k s IH|A a0 z]; cbn [clonable]; intros H p; try discriminate;
    cbn [filled snug]; auto.
Qed.
Lemma clone_inv : forall s c, l_inv (shape_ld s) c -> l_inv (shape_ld s) (clone s c) /\
  l_abs (shape_ld s) (clone s c) = l_abs (shape_ld s) c.
Proof.
  assert (Hv : forall A esz (v : vec A), vec_ok esz v -> vec_ok esz (vec_clone v)).
  { intros A esz v [H1 H2]. split; unfold vec_clone; cbn [v_items v_cap]; lia. }
  induction s as [p| |s IH|n s IH|k s IH|A a0 z]; intros c Hc; cbn [clone].
  - split; [apply Hv, Hc|reflexivity].
  - split; [|reflexivity]. destruct Hc as [H1 H2]. split; [apply Hv, H1|exact H2].
  - auto.
  - destruct Hc as [H1 H2]. destruct (IH c H1) as [G1 G2].
    split; [split; [exact G1|]|].
    + rewrite G2. exact H2.
    + change (fl_abs (coll s) (shape_ld s) n (clone s c) = fl_abs (coll s) (shape_ld s) n c).
      unfold fl_abs. rewrite G2. reflexivity.
  - auto.
  - split; [apply Hv, Hc|reflexivity].
Qed.
Lemma inv_built : forall s c, clonable s = true -> widths_pos s -> l_inv (shape_ld s) c -> built s c.
Proof.
  induction s as [p| |s IH|n s IH|k s IH|A a0 z]; intros c Hs Hw Hc; cbn [clonable widths_pos] in *;
    try discriminate.
  - apply built_vec. exact Hc.
  - destruct c as [buf bits off]. destruct Hc as [H1 H2]. cbn [bm_buf bm_off bm_bits] in H1, H2.
    apply (built_bits_parts buf (N.of_nat bits) (N.of_nat off)); [exact H1|].
    unfold bm_try_from_parts, checked_add.
    assert (Hm : (max_items u8sz <= alloc_max)%N) by (vm_compute; discriminate).
    assert (Hl : (lenN (v_items buf) <= alloc_max)%N) by (destruct H1; lia).
    assert (Ha : (alloc_max * 8 < usize_max)%N) by (vm_compute; reflexivity).
    assert (Hb : (N.of_nat off + N.of_nat bits <= lenN (v_items buf) * 8)%N) by (unfold lenN; lia).
    assert ((N.of_nat off + N.of_nat bits <=? usize_max)%N = true) as -> by lia.
    unfold sat_mul.
    match goal with |- (if ?t then _ else _) = _ => assert (t = true) as -> by lia end.
    rewrite !Nat2N.id. reflexivity.
  - destruct Hw as [Hn Hw], Hc as [H1 [q Hq]]. apply (built_fixed_parts n s c c); [apply IH; assumption|].
    unfold fl_try_from_parts. rewrite (lw_len _ _ (shape_laws s Hw) c H1). cbn [obind].
    destruct n as [|n]; [lia|]. rewrite Hq, Nat.mod_mul by lia. reflexivity.
  - apply built_any. exact Hc.
Qed.
Section Clones.
  Context (s : shape) (Hw : widths_pos s) (Hs : clonable s = true).
  Local Notation K := (coll s).
  Lemma clone_same c xs : built s c -> shows K c xs ->
    built s (clone s c) /\ image_of s (clone s c) = image_of s c /\ shows K (clone s c) xs.
  Proof.
    intros Hb Hx. pose proof (built_inv s c Hb Hw) as Hc. destruct (clone_inv s c Hc) as [H1 H2].
    split; [exact (inv_built s _ Hs Hw H1)|]. split; [apply clone_image|].
    apply (abs_shows s Hw _ _ H1). rewrite H2. exact (eq_sym (proj1 (built_abs s Hw c xs Hb Hx))).
  Qed.
  Lemma plain_runs c ps os c' : built s c -> runs s c ps os c' -> Forall2 extends ps os ->
    image_of s c' = fold_left (effect s) ps (image_of s c).
  Proof.
    intros Hb H Ha. revert Hb Ha.
    induction H as [c|c p o c1 ps os c2 Hi E Ho Hp Hr IH]; intros Hb Ha; cbn [fold_left]; [reflexivity|].
    inversion Ha as [|? ? ? ? Ha1 Ha2]; subst.
    pose proof (built_step s c p c1 o Hb Hi E Ho Hp) as Hb1.
    rewrite (IH Hb1 Ha2). f_equal.
    assert (F : forall q, filled s q = q) by (intros q; apply (clonable_plain s Hs)).
    assert (S : snug s (image_of s c)) by apply (clonable_plain s Hs).
    destruct p as [it|it w|n|n w|n]; cbn [extends step op_items effect] in *.
    - subst o. destruct (k_extend K c it) as [[c3 r3] o3] eqn:E3. inversion E; subst.
      pose proof (proj1 (bytes_extend s Hw _ _ _ _ _ Hb S Hi E3)) as G. rewrite !F in G. exact G.
    - subst o. destruct (k_try_extend K c it w) as [[[c3 r3] o3] w3] eqn:E3. inversion E; subst.
      pose proof (proj1 (bytes_try_extend s Hw _ _ _ _ _ _ _ Hb S Hi E3)) as G. rewrite !F in G. exact G.
    - pose proof (proj1 (proj1 (bytes_reserve s Hw c Hb) _ _ _ E)) as G. unfold same_bytes in G.
      rewrite !F in G. exact G.
    - destruct (k_try_reserve K c n w) as [[c3 o3] w3] eqn:E3. inversion E; subst.
      pose proof (proj1 (proj2 (bytes_reserve s Hw c Hb) _ _ _ _ _ E3)) as G. unfold same_bytes in G.
      rewrite !F in G. exact G.
    - exact (proj1 (bytes_truncate s Hw _ _ _ _ Hb E)).
  Qed.
End Clones.
