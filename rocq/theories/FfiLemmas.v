(** * Lemmas about formats and values in memory *)
From Coq Require Import List NArith ZArith Bool Arith Lia ZifyBool ZifyNat ZifyN.
From Verif Require Import Base Iter VecModel BitmapModel CollModel ValidityModel FlattenModel
  OffsetsModel LayoutModel Spec SpecTables SpecParts Reach FfiModel SpecFfi BitmapLemmas BitmapLemmas2.
Import ListNotations.

Ltac Zify.zify_post_hook ::= Z.div_mod_to_equations.

(** ** Decimal numbers *)

Definition decimal_from (v : N) (ds : list N) : N :=
  fold_left (fun v b => v * 10 + (b - 48))%N ds v.
Lemma decimal_from_ge ds : forall v, (v <= decimal_from v ds)%N.
Proof.
  induction ds as [|b ds IH]; intros v; cbn [decimal_from fold_left]; [lia|].
  specialize (IH (v * 10 + (b - 48))%N). unfold decimal_from in IH. lia.
Qed.
Lemma digits_value_sound ds : forall v k, digits_value v ds = Some k ->
  Forall is_digit ds /\ decimal_from v ds = k.
Proof.
  induction ds as [|b ds IH]; intros v k; cbn [digits_value].
  - intros [= <-]. split; [constructor|reflexivity].
  - unfold digit_step. destruct (b <? 48)%N eqn:E1; [discriminate|].
    destruct (9 <? b - 48)%N eqn:E2; [discriminate|].
    unfold checked_mul, checked_add. destruct (v * 10 <=? usize_max)%N; [|discriminate].
    destruct (v * 10 + (b - 48) <=? usize_max)%N; [|discriminate].
    intros H. apply IH in H as [H1 H2]. split; [constructor; [unfold is_digit; lia|auto]|exact H2].
Qed.
Lemma digits_value_complete ds : forall v, Forall is_digit ds ->
  (decimal_from v ds <= usize_max)%N -> digits_value v ds = Some (decimal_from v ds).
Proof.
  induction ds as [|b ds IH]; intros v Hd Hm; cbn [digits_value]; [reflexivity|].
  inversion Hd as [|? ? H1 H2]; subst. unfold is_digit in H1.
  change (decimal_from v (b :: ds)) with (decimal_from (v * 10 + (b - 48))%N ds) in *.
  pose proof (decimal_from_ge ds (v * 10 + (b - 48))%N).
  unfold digit_step, checked_mul, checked_add.
  replace (b <? 48)%N with false by (symmetry; lia).
  replace (9 <? b - 48)%N with false by (symmetry; lia).
  replace (v * 10 <=? usize_max)%N with true by (symmetry; lia).
  replace (v * 10 + (b - 48) <=? usize_max)%N with true by (symmetry; lia).
  apply IH; auto.
Qed.
Lemma strip_prefix_spec pre : forall l r, strip_prefix pre l = Some r <-> l = pre ++ r.
Proof.
  induction pre as [|x pre IH]; intros l r; cbn [strip_prefix app].
  - split; congruence.
  - destruct l as [|y l]; [split; discriminate|]. destruct (x =? y)%N eqn:E.
    + apply N.eqb_eq in E. subst. rewrite IH. split; [intros ->; reflexivity|congruence].
    + apply N.eqb_neq in E. split; [discriminate|congruence].
Qed.
Lemma fixed_matches_spec n f : (n <= usize_max)%N ->
  fixed_matches n f = true <->
  exists digits, f = [43; 119; 58]%N ++ digits /\
    digits <> [] /\ Forall is_digit digits /\ decimal_value digits = n.
Proof.
  intros Hn. unfold fixed_matches. split.
  - destruct (strip_prefix fixed_prefix f) as [ds|] eqn:E; [|discriminate].
    apply strip_prefix_spec in E. destruct ds as [|b ds]; [discriminate|].
    destruct (digits_value 0 (b :: ds)) as [k|] eqn:Ed; [|discriminate].
    intros Hk. apply digits_value_sound in Ed as [H1 H2]. exists (b :: ds).
    split; [exact E|]. split; [discriminate|]. split; [exact H1|].
    apply N.eqb_eq in Hk. rewrite <- Hk. exact H2.
  - intros (ds & E & H1 & H2 & H3). apply (strip_prefix_spec fixed_prefix) in E. rewrite E.
    destruct ds as [|b ds]; [congruence|].
    rewrite digits_value_complete; [|auto|change (decimal_from 0 (b :: ds)) with (decimal_value (b :: ds)); lia].
    change (decimal_from 0 (b :: ds)) with (decimal_value (b :: ds)). rewrite H3. apply N.eqb_refl.
Qed.

Lemma decimal_digits_spec fuel : forall n acc, Forall is_digit acc -> (n < 10 ^ N.of_nat fuel)%N ->
  Forall is_digit (decimal_digits fuel n acc) /\
  (0 < fuel -> decimal_digits fuel n acc <> []) /\
  decimal_from 0 (decimal_digits fuel n acc) = decimal_from n acc.
Proof.
  induction fuel as [|fuel IH]; intros n acc Ha Hn; cbn [decimal_digits].
  - assert (n = 0)%N by (cbn in Hn; lia). subst. split; [auto|]. split; [lia|reflexivity].
  - assert (Hd : Forall is_digit ((48 + n mod 10)%N :: acc)).
    { constructor; [unfold is_digit; lia|auto]. }
    assert (Hs : decimal_from (n / 10) ((48 + n mod 10)%N :: acc) = decimal_from n acc).
    { change (decimal_from (n / 10 * 10 + (48 + n mod 10 - 48))%N acc = decimal_from n acc).
      f_equal. lia. }
    destruct (n / 10 =? 0)%N eqn:E.
    + apply N.eqb_eq in E. rewrite E in Hs. split; [auto|]. split; [discriminate|exact Hs].
    + rewrite Nat2N.inj_succ, N.pow_succ_r' in Hn.
      destruct (IH (n / 10)%N _ Hd) as (H1 & H2 & H3); [lia|]. split; [exact H1|]. split.
      * intros _. destruct fuel; [cbn in Hn; cbn; lia|]. apply H2. lia.
      * rewrite H3. exact Hs.
Qed.
Lemma decimal_spec n : (n <= usize_max)%N ->
  decimal n <> [] /\ Forall is_digit (decimal n) /\ decimal_value (decimal n) = n.
Proof.
  intros Hn. rewrite usize_max_val in Hn.
  destruct (decimal_digits_spec 20 n []) as (H1 & H2 & H3); [constructor| |].
  - change (10 ^ N.of_nat 20)%N with 100000000000000000000%N. lia.
  - split; [apply H2; lia|]. split; [exact H1|exact H3].
Qed.

Lemma list_eqb_spec a : forall b, list_eqb a b = true <-> a = b.
Proof.
  induction a as [|x a IH]; intros [|y b]; cbn [list_eqb]; try (split; congruence).
  rewrite andb_true_iff, IH, N.eqb_eq. split; [intros [-> ->]; auto|intros [= -> ->]; auto].
Qed.
(** The tables of the code are the ones of the specification. *)
Lemma code_format p : arrow_code p = prim_format p.
Proof. destruct p; reflexivity. Qed.

Ltac tables := change offset_bytes with osz in *; change offset_max with omax in *;
  change offset_min with omin in *; change value_bytes with psz in *.

Lemma matches_format_spec t f : arrow_type t -> matches_format t f = true <-> format_for t f.
Proof.
  destruct t as [nl|p nl|n t nl|k t nl]; cbn [matches_format format_of format_for arrow_type].
  - intros _. apply list_eqb_spec.
  - setoid_rewrite code_format. intros H. destruct (prim_format p) as [x|]; [|congruence]. rewrite list_eqb_spec. split.
    + intros ->. eauto.
    + intros (y & [= <-] & ->). reflexivity.
  - intros [H _]. apply fixed_matches_spec. exact H.
  - intros _. rewrite list_eqb_spec. destruct k; reflexivity.
Qed.
Lemma format_of_matches t : arrow_type t -> format_for t (format_of t).
Proof.
  destruct t as [nl|p nl|n t nl|k t nl]; cbn [format_of format_for arrow_type].
  - auto.
  - setoid_rewrite code_format. intros H. destruct (prim_format p) as [x|]; [|congruence]. eauto.
  - intros [H _]. destruct (decimal_spec _ H) as (H1 & H2 & H3). exists (decimal (N.of_nat n)). auto.
  - destruct k; auto.
Qed.

(** ** Little-endian values *)

Lemma total_shift (f : nat -> N) a n : total f (seq a n) = total (fun j => f (a + j)) (seq 0 n).
Proof.
  assert (G : forall b, total f (seq (a + b) n) = total (fun j => f (a + j)) (seq b n)).
  { induction n as [|n IH]; intros b; cbn [seq total fold_right]; [reflexivity|].
    f_equal. replace (S (a + b)) with (a + S b) by lia. apply IH. }
  rewrite <- G, Nat.add_0_r. reflexivity.
Qed.
Lemma total_ext {A} (f g : A -> N) l : (forall x, In x l -> f x = g x) -> total f l = total g l.
Proof.
  induction l as [|x l IH]; intros H; cbn [total fold_right]; [reflexivity|].
  unfold total in IH. rewrite IH, H by (cbn; auto with datatypes). reflexivity.
Qed.
Lemma total_scale {A} (f : A -> N) c l : total (fun x => c * f x)%N l = (c * total f l)%N.
Proof. induction l as [|x l IH]; cbn [total fold_right]; [lia|]. unfold total in IH. rewrite IH. lia. Qed.
Lemma le_value_total l : le_value l =
  total (fun j => nth j l 0 * 256 ^ N.of_nat j)%N (seq 0 (length l)).
Proof.
  induction l as [|b l IH]; [reflexivity|]. cbn [le_value length seq total fold_right].
  change (fold_right _ 0%N (seq 1 (length l))) with
    (total (fun j => nth j (b :: l) 0 * 256 ^ N.of_nat j)%N (seq 1 (length l))).
  rewrite total_shift, IH, <- total_scale. cbn [nth N.of_nat]. rewrite N.pow_0_r, N.mul_1_r. f_equal.
  apply total_ext. intros j _. cbn [nth Nat.add]. rewrite Nat2N.inj_succ, N.pow_succ_r'. lia.
Qed.
Lemma word_at_value w b i : i * w + w <= length (cb_data b) ->
  word_at w b i (le_value (firstn w (skipn (i * w) (cb_data b)))).
Proof.
  intros H. split; [exact H|]. rewrite le_value_total, firstn_length, skipn_length.
  replace (Nat.min w (length (cb_data b) - i * w)) with w by lia.
  apply total_ext. intros j Hj. apply in_seq in Hj. f_equal.
  assert (E : nth_error (firstn w (skipn (i * w) (cb_data b))) j = nth_error (cb_data b) (i * w + j)).
  { rewrite nth_error_firstn_lt by lia. apply nth_error_skipn_add. }
  destruct (nth_error (cb_data b) (i * w + j)) as [x|] eqn:Ex.
  - rewrite (nth_error_nth _ _ 0%N E), (nth_error_nth _ _ 0%N Ex). reflexivity.
  - apply nth_error_None in Ex. lia.
Qed.
Lemma word_at_unique w b i u v : word_at w b i u -> word_at w b i v -> u = v.
Proof. intros [_ ->] [_ ->]. reflexivity. Qed.
Lemma words_length w n : forall l, length (words w n l) = n.
Proof. induction n; intros l; cbn; auto. Qed.
Lemma words_nth w n : forall l i, i < n ->
  nth_error (words w n l) i = Some (le_value (firstn w (skipn (i * w) l))).
Proof.
  induction n as [|n IH]; intros l i Hi; [lia|]. destruct i as [|i]; [reflexivity|].
  cbn [words nth_error]. rewrite IH by lia. rewrite skipn_skipn_add. cbn [Nat.mul]. reflexivity.
Qed.
Lemma le_bytes_length w : forall v, length (le_bytes w v) = w.
Proof. induction w; intros v; cbn; auto. Qed.
Lemma le_bytes_value w : forall v, (v < 256 ^ N.of_nat w)%N -> le_value (le_bytes w v) = v.
Proof.
  induction w as [|w IH]; intros v H; cbn [le_bytes le_value].
  - cbn in H. lia.
  - rewrite Nat2N.inj_succ, N.pow_succ_r' in H. rewrite IH by lia. lia.
Qed.
Lemma le_bytes_byte w : forall v, Forall (fun b => b < 256)%N (le_bytes w v).
Proof. induction w; intros v; cbn [le_bytes]; constructor; [lia|auto]. Qed.
Lemma flat_words_length {A} (f : A -> list N) w : (forall x, length (f x) = w) ->
  forall l, length (flat_map f l) = length l * w.
Proof.
  intros Hf. induction l as [|x l IH]; [reflexivity|]. cbn [flat_map length Nat.mul].
  rewrite app_length, Hf, IH. reflexivity.
Qed.
Lemma flat_words_nth {A} (f : A -> list N) w : (forall x, length (f x) = w) ->
  forall l i x, nth_error l i = Some x -> firstn w (skipn (i * w) (flat_map f l)) = f x.
Proof.
  intros Hf. induction l as [|y l IH]; intros i x Hx; [destruct i; discriminate|].
  destruct i as [|i]; cbn [nth_error Nat.mul flat_map] in *.
  - injection Hx as ->. cbn [skipn]. apply firstn_app_exact, Hf.
  - rewrite <- skipn_skipn_add, skipn_app_exact by apply Hf. apply IH. exact Hx.
Qed.

(** ** Two's complement *)

Lemma osz_range k : omin k = (- 2 ^ (8 * Z.of_N (osz k) - 1))%Z /\
  omax k = (2 ^ (8 * Z.of_N (osz k) - 1) - 1)%Z /\
  (2 ^ (8 * Z.of_N (osz k)) = 2 * 2 ^ (8 * Z.of_N (osz k) - 1))%Z /\
  Z.of_N (256 ^ osz k) = (2 ^ (8 * Z.of_N (osz k)))%Z.
Proof. destruct k; repeat split. Qed.
Lemma of_word_at k b i u : word_at (N.to_nat (osz k)) b i u -> (u < 256 ^ osz k)%N ->
  offset_at k b i (of_word (osz k) u).
Proof.
  intros Hw Hu. destruct (osz_range k) as (H1 & H2 & H3 & H4). exists u. split; [exact Hw|].
  tables.
  rewrite H1, H2, H3. unfold of_word. rewrite H3 in *. rewrite <- H4 in *.
  set (h := (2 ^ (8 * Z.of_N (osz k) - 1))%Z) in *. assert (0 < h)%Z by (destruct k; cbv; auto).
  destruct (Z.of_N u <? h)%Z eqn:E.
  - split; [lia|]. replace (Z.of_N u - Z.of_N u)%Z with 0%Z by lia. apply Z.mod_0_l. lia.
  - split; [lia|]. set (m := Z.of_N (256 ^ osz k)) in *.
    replace (Z.of_N u - m - Z.of_N u)%Z with (-1 * m)%Z by lia. apply Z.mod_mul. lia.
Qed.
Lemma offset_at_unique k b i y z : offset_at k b i y -> offset_at k b i z -> y = z.
Proof.
  intros (u & Hu & Hy & Ey) (v & Hv & Hz & Ez). rewrite (word_at_unique _ _ _ _ _ Hv Hu) in *.
  tables.
  destruct (osz_range k) as (H1 & H2 & H3 & H4). rewrite H1, H2, H3 in *.
  set (h := (2 ^ (8 * Z.of_N (osz k) - 1))%Z) in *. assert (0 < h)%Z by (destruct k; cbv; auto).
  apply Z.mod_divide in Ey as [p Ep]; [|lia]. apply Z.mod_divide in Ez as [q Eq]; [|lia].
  assert (y - z = (p - q) * (2 * h))%Z by lia. assert (p - q = 0)%Z by nia. lia.
Qed.
Lemma to_word_small k z : (to_word (osz k) z < 256 ^ osz k)%N.
Proof.
  destruct (osz_range k) as (_ & _ & H3 & H4). unfold to_word.
  pose proof (Z.mod_pos_bound z (2 ^ (8 * Z.of_N (osz k)))) as H. rewrite <- H4 in *.
  assert (0 < Z.of_N (256 ^ osz k))%Z by (destruct k; cbv; auto). lia.
Qed.
Lemma of_to_word k z : (omin k <= z <= omax k)%Z -> of_word (osz k) (to_word (osz k) z) = z.
Proof.
  destruct (osz_range k) as (H1 & H2 & H3 & H4). intros Hz. rewrite H1, H2 in Hz.
  unfold of_word, to_word. rewrite H3 in *.
  set (h := (2 ^ (8 * Z.of_N (osz k) - 1))%Z) in *. assert (0 < h)%Z by (destruct k; cbv; auto).
  clear H1 H2 H3 H4. pose proof (Z.mod_pos_bound z (2 * h)).
  rewrite Z2N.id by lia.
  destruct (z <? 0)%Z eqn:E.
  - replace (z mod (2 * h))%Z with (z + 2 * h)%Z.
    + replace (z + 2 * h <? h)%Z with false by (symmetry; lia). lia.
    + apply Z.mod_unique with (-1)%Z; lia.
  - rewrite Z.mod_small by lia. replace (z <? h)%Z with true by (symmetry; lia). lia.
Qed.
