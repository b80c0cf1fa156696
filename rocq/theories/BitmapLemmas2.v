(** * Lemmas about the bitmap model: construction, reading, counting. *)
From Coq Require Import List NArith ZArith Bool Arith Lia ZifyBool ZifyNat ZifyN.
From Verif Require Import Base Iter Spec VecModel BitmapModel IterLemmas VecLemmas
  RoomLemmas BitmapLemmas.
Import ListNotations.

Ltac Zify.zify_post_hook ::= Z.div_mod_to_equations.
Local Arguments Nat.div : simpl never.
Local Arguments Nat.modulo : simpl never.
Local Arguments Nat.mul : simpl never.

(** ** Construction *)

(** Logical bits plus bytes in the buffer: what bounds growth. *)
Definition bm_usage (b : bitmap) : N :=
  (N.of_nat (bm_off b + bm_bits b) + lenN (v_items (bm_buf b)))%N.

Lemma bm_packs_ok buf xs :
  vec_ok u8sz buf -> v_items buf = packs 0 0%N xs ->
  let b := Bitmap buf (length xs) 0 in
  bm_ok b /\ bm_abs b = xs /\ (bm_usage b <= 2 * lenN xs)%N.
Proof.
  intros Hv Hi b. destruct (packs_bits xs 0 0%N) as [pad Hp]; [auto|lia|].
  unfold b, bm_ok, bm_abs, bm_usage, lenN; cbn [bm_buf bm_bits bm_off]. rewrite Hi, Hp.
  rewrite packs_length by lia. cbn [firstn app skipn].
  rewrite firstn_app_exact by reflexivity. repeat split; auto; try apply Hv; lia.
Qed.

Lemma bm_from_iter_spec {R} (it : iter bool R) xs e r res r' :
  run it = (xs, e, r) -> fused it -> bm_from_iter it = (res, r') ->
  match res with
  | BOk b => e = FStop /\ In r' (after it) /\ bm_ok b /\ bm_abs b = xs /\ bm_off b = 0 /\
      (bm_usage b <= 2 * lenN xs)%N
  | BErr => False
  | _ => True
  end /\
  (affords (fun _ => 1%N) 1 alloc_max 0 it ->
   match e with FStop => exists b, res = BOk b | FBoom => res = BPanic end).
Proof.
  intros Hr Hf. unfold bm_from_iter.
  assert (Hri : run (it_inspect count_item 0 it) = (xs, e, (r, length xs))).
  { apply run_inspect; auto. rewrite insp_count; reflexivity. }
  destruct (run_packed _ _ _ _ Hri (fused_inspect _ _ _ Hf)) as (ys & rr & Hp & Hin & Hys & Hl).
  destruct (vec_from_iter u8sz (it_packed (it_inspect count_item 0 it)))
    as [res1 [r1 bits]] eqn:E1.
  pose proof (vec_from_iter_spec _ _ _ _ _ _ _ Hp E1) as H1.
  intros E; inversion E; subst; clear E. split.
  - destruct res1; cbn [bmap]; auto.
    destruct H1 as (Hv & -> & <- & Hi). rewrite (Hys eq_refl) in Hi.
    destruct (after_inspect count_item it 0 (length xs) xs FStop r Hf Hr) with (p := (r', bits))
      as [Hb Ha]; auto.
    { rewrite insp_count; reflexivity. }
    cbn in Hb, Ha; subst bits.
    destruct (bm_packs_ok a xs Hv Hi) as (? & ? & ?). auto 10.
  - intros Hs. destruct (vec_from_iter_live u8sz _ _ _ _ Hp) as [v Hv].
    { rewrite max_items_u8. apply affords_packed, affords_inspect, Hs. }
    rewrite Hv in E1. inversion E1; subst. destruct e; cbn; eauto.
Qed.

Lemma bm_try_from_iter_spec {R} (it : iter bool R) w xs e r res r' w' :
  run it = (xs, e, r) -> fused it -> bm_try_from_iter it w = (res, r', w') ->
  match res with
  | BOk b => e = FStop /\ In r' (after it) /\ bm_ok b /\ bm_abs b = xs /\ bm_off b = 0 /\
      (bm_usage b <= 2 * lenN xs)%N
  | BErr => True
  | BPanic => e = FBoom
  | BAbort => False
  end.
Proof.
  intros Hr Hf. unfold bm_try_from_iter.
  assert (Hri : run (it_inspect count_item 0 it) = (xs, e, (r, length xs))).
  { apply run_inspect; auto. rewrite insp_count; reflexivity. }
  destruct (run_packed _ _ _ _ Hri (fused_inspect _ _ _ Hf)) as (ys & rr & Hp & Hin & Hys & Hl).
  destruct (vec_try_from_iter u8sz (it_packed (it_inspect count_item 0 it)) w)
    as [[res1 [r1 bits]] w1] eqn:E1.
  pose proof (vec_try_from_iter_spec _ _ _ _ _ _ _ _ _ Hp E1) as H1.
  intros E; inversion E; subst; clear E.
  destruct res1; cbn [bmap]; auto.
  destruct H1 as (Hv & -> & <- & Hi). rewrite (Hys eq_refl) in Hi.
  destruct (after_inspect count_item it 0 (length xs) xs FStop r Hf Hr) with (p := (r', bits))
    as [Hb Ha]; auto.
  { rewrite insp_count; reflexivity. }
  cbn in Hb, Ha; subst bits.
  destruct (bm_packs_ok a xs Hv Hi) as (? & ? & ?). auto 10.
Qed.

Lemma bm_empty_ok v : vec_ok u8sz v -> v_items v = [] ->
  bm_ok (Bitmap v 0 0) /\ bm_abs (Bitmap v 0 0) = [] /\ bm_usage (Bitmap v 0 0) = 0%N.
Proof.
  intros Hv Hi. unfold bm_ok, bm_abs, bm_usage; cbn. rewrite Hi. repeat split; auto; apply Hv.
Qed.
Lemma bm_with_capacity_spec cap :
  match bm_with_capacity cap with
  | BOk b => bm_ok b /\ bm_abs b = [] /\ bm_off b = 0 /\ bm_usage b = 0%N
  | BErr => False
  | _ => True
  end.
Proof.
  unfold bm_with_capacity.
  pose proof (@vec_with_capacity_spec N u8sz (bytes_for_bits cap)) as H.
  destruct (vec_with_capacity u8sz (bytes_for_bits cap)); cbn [bmap]; auto.
  destruct H as (Hv & Hi & Hc). destruct (bm_empty_ok a Hv Hi) as (? & ? & ?). auto.
Qed.
Lemma bm_with_capacity_live cap : (cap <= alloc_max)%N ->
  exists b, bm_with_capacity cap = BOk b.
Proof.
  intros H. unfold bm_with_capacity.
  destruct (@vec_with_capacity_live N u8sz (bytes_for_bits cap)) as [v ->].
  { rewrite max_items_u8. unfold bytes_for_bits. lia. }
  cbn; eauto.
Qed.
Lemma bm_try_with_capacity_spec cap w res w' :
  bm_try_with_capacity cap w = (res, w') ->
  match res with
  | BOk b => bm_ok b /\ bm_abs b = [] /\ bm_off b = 0 /\ bm_usage b = 0%N
  | BErr => True
  | _ => False
  end.
Proof.
  unfold bm_try_with_capacity.
  destruct (vec_try_with_capacity u8sz (bytes_for_bits cap) w) as [res1 w1] eqn:E.
  apply vec_try_with_capacity_spec in E. intros E2; inversion E2; subst; clear E2.
  destruct res1; cbn [bmap]; auto.
  destruct E as (Hv & Hi & Hc). destruct (bm_empty_ok a Hv Hi) as (? & ? & ?). auto.
Qed.

(** ** All set *)

Lemma byte_bits_ones k : k < 8 ->
  byte_bits (N.shiftl 1 (N.of_nat k) - 1) = repeat true k ++ repeat false (8 - k).
Proof. intros H; do 8 (destruct k as [|k]; [reflexivity|]); lia. Qed.
Lemma bits_of_repeat k : bits_of (repeat 255%N k) = repeat true (8 * k).
Proof.
  induction k as [|k IH]; [reflexivity|]. cbn [repeat].
  change (bits_of (255%N :: repeat 255%N k)) with (byte_bits 255 ++ bits_of (repeat 255%N k)).
  rewrite IH. replace (8 * S k) with (8 + 8 * k) by lia. rewrite repeat_app. reflexivity.
Qed.
Lemma all_set_bits n :
  (exists pad, bits_of (all_set_bytes n) = repeat true n ++ pad) /\
  length (all_set_bytes n) = (n + 7) / 8.
Proof.
  unfold all_set_bytes. destruct (Nat.eqb_spec (n mod 8) 0) as [H|H].
  - rewrite app_nil_r, bits_of_repeat, repeat_length. split; [|lia].
    exists []. rewrite app_nil_r. f_equal. lia.
  - rewrite bits_of_app, bits_of_repeat, app_length, repeat_length. cbn [length].
    split; [|lia]. exists (repeat false (8 - n mod 8)).
    cbn [bits_of flat_map]. rewrite app_nil_r, byte_bits_ones by lia.
    rewrite app_assoc, <- repeat_app. do 2 f_equal. lia.
Qed.
Lemma all_set_ok buf n :
  vec_ok u8sz buf -> v_items buf = all_set_bytes n ->
  let b := Bitmap buf n 0 in
  bm_ok b /\ bm_abs b = repeat true n /\ (bm_usage b <= 2 * N.of_nat n)%N.
Proof.
  intros Hv Hi b. destruct (all_set_bits n) as [[pad Hp] Hl].
  unfold b, bm_ok, bm_abs, bm_usage, lenN; cbn [bm_buf bm_bits bm_off]. rewrite Hi, Hp, Hl.
  cbn [skipn]. rewrite firstn_app_exact by apply repeat_length.
  repeat split; auto; try apply Hv; lia.
Qed.
Lemma bm_all_set_spec n :
  match bm_all_set n with
  | BOk b => bm_ok b /\ bm_abs b = repeat true n /\ bm_off b = 0 /\
      bm_bits b = n /\ (bm_usage b <= 2 * N.of_nat n)%N
  | BErr => False
  | BPanic | BAbort => (8 * alloc_max < N.of_nat n)%N
  end.
Proof.
  unfold bm_all_set.
  destruct (vec_from_iter u8sz (it_list (all_set_bytes n))) as [res r] eqn:E; cbn [fst].
  pose proof (vec_from_iter_spec _ _ _ _ _ _ _ (run_list _) E) as H.
  destruct (all_set_bits n) as [_ Hl].
  assert (Hlive : (N.of_nat n <= 8 * alloc_max)%N -> exists v, res = BOk v).
  { intros Hle. destruct (vec_from_iter_live u8sz _ _ _ _ (run_list (all_set_bytes n))) as [v Hv].
    { rewrite max_items_u8. apply affords_list1. unfold lenN. lia. }
    exists v. congruence. }
  destruct res; cbn [bmap]; auto; try discriminate.
  - destruct H as (Hv & _ & _ & Hi). destruct (all_set_ok a n Hv Hi) as (? & ? & ?). auto 10.
  - destruct (N.le_gt_cases (N.of_nat n) (8 * alloc_max)) as [Hle|]; auto.
    destruct (Hlive Hle). discriminate.
  - destruct (N.le_gt_cases (N.of_nat n) (8 * alloc_max)) as [Hle|]; auto.
    destruct (Hlive Hle). discriminate.
Qed.
Lemma bm_try_all_set_spec n w res w' :
  bm_try_all_set n w = (res, w') ->
  match res with
  | BOk b => bm_ok b /\ bm_abs b = repeat true n /\ bm_off b = 0 /\
      bm_bits b = n /\ (bm_usage b <= 2 * N.of_nat n)%N
  | BErr => True
  | _ => False
  end.
Proof.
  unfold bm_try_all_set.
  destruct (vec_try_from_iter u8sz (it_list (all_set_bytes n)) w) as [[res1 r] w1] eqn:E.
  pose proof (vec_try_from_iter_spec _ _ _ _ _ _ _ _ _ (run_list _) E) as H.
  intros E2; inversion E2; subst; clear E2.
  destruct res1; cbn [bmap]; auto; try discriminate.
  destruct H as (Hv & _ & _ & Hi). destruct (all_set_ok a n Hv Hi) as (? & ? & ?). auto 10.
Qed.

(** ** Reservation and truncation *)

Lemma bm_reserve_spec b add b' o : bm_ok b -> bm_reserve b add = (b', o) ->
  bm_ok b' /\ bm_abs b' = bm_abs b /\ bm_usage b' = bm_usage b /\ o <> OErr /\
  bm_off b' = bm_off b /\
  ((bm_usage b + add <= alloc_max)%N -> o = ODone).
Proof.
  intros [Hv Hb]. unfold bm_reserve.
  destruct (N.of_nat (bm_trailing_bits b) <=? add)%N eqn:Et.
  - destruct (vec_reserve u8sz (bm_buf b) (bytes_for_bits (add - N.of_nat (bm_trailing_bits b))))
      as [buf o1] eqn:E1.
    destruct (vec_reserve_spec _ _ _ _ _ Hv E1) as (Hv' & Hi & He & _).
    intros E; inversion E; subst; clear E.
    unfold bm_ok, bm_abs, bm_usage; cbn [bm_buf bm_bits bm_off]. rewrite Hi.
    split; [auto|]. split; [auto|]. split; [auto|]. split; [auto|]. split; [auto|].
    intros Hs. destruct (vec_reserve_live u8sz (bm_buf b)
      (bytes_for_bits (add - N.of_nat (bm_trailing_bits b)))) as [v' Hl].
    { rewrite max_items_u8. unfold bytes_for_bits. lia. }
    congruence.
  - intros E; inversion E; subst.
    split; [split; auto|]. repeat split; auto; congruence.
Qed.
Lemma bm_try_reserve_spec b add w b' o w' : bm_ok b -> bm_try_reserve b add w = (b', o, w') ->
  bm_ok b' /\ bm_abs b' = bm_abs b /\ bm_usage b' = bm_usage b /\
  bm_off b' = bm_off b /\ bm_bits b' = bm_bits b /\
  match o with
  | ODone =>
      (N.of_nat (bm_off b + bm_bits b) + add <= 8 * v_cap (bm_buf b'))%N
  | OErr => True
  | _ => False
  end.
Proof.
  intros [Hv Hb]. unfold bm_try_reserve.
  assert (Htb : (bm_off b + bm_bits b + bm_trailing_bits b) mod 8 = 0 /\ bm_trailing_bits b < 8).
  { unfold bm_trailing_bits.
    destruct (Nat.eqb_spec ((bm_off b + bm_bits b) mod 8) 0); lia. }
  destruct (N.of_nat (bm_trailing_bits b) <=? add)%N eqn:Et.
  - destruct (vec_try_reserve u8sz (bm_buf b)
               (bytes_for_bits (add - N.of_nat (bm_trailing_bits b))) w)
      as [[buf o1] w1] eqn:E1.
    destruct (vec_try_reserve_spec _ _ _ _ _ _ _ Hv E1) as (Hv' & Hi & Hc & Ho).
    intros E; inversion E; subst; clear E.
    unfold bm_ok, bm_abs, bm_usage; cbn [bm_buf bm_bits bm_off]. rewrite Hi.
    split; [auto|]. split; [auto|]. split; [auto|]. split; [auto|]. split; [auto|].
    destruct o; auto.
    unfold bytes_for_bits, lenN in *.
    assert (bm_off b + bm_bits b + bm_trailing_bits b <= 8 * length (v_items (bm_buf b))) by lia.
    lia.
  - intros E; inversion E; subst.
    split; [split; auto|]. repeat split; auto.
    destruct Hv as [Hv1 Hv2]. unfold lenN in *. lia.
Qed.
Lemma bm_truncate_spec b n : bm_ok b ->
  bm_ok (bm_truncate b n) /\ bm_abs (bm_truncate b n) = firstn (N.to_nat n) (bm_abs b) /\
  (bm_usage (bm_truncate b n) <= bm_usage b)%N /\ bm_off (bm_truncate b n) = bm_off b /\
  bm_bits (bm_truncate b n) = Nat.min (N.to_nat n) (bm_bits b).
Proof.
  intros [Hv Hb]. unfold bm_truncate.
  destruct (n <? N.of_nat (bm_bits b))%N eqn:E.
  - unfold bm_ok, bm_abs, bm_usage; cbn [bm_buf bm_bits bm_off].
    rewrite firstn_firstn. split; [split; [auto|lia]|].
    split; [f_equal; lia|]. split; [lia|]. split; [auto|lia].
  - split; [split; auto|]. split; [|split; [lia|split; [auto|lia]]].
    rewrite firstn_all2; auto. rewrite bm_abs_length by (split; auto). lia.
Qed.

(** ** Reading *)

Lemma land_bit byte k : negb (N.land byte (N.shiftl 1 k) =? 0)%N = N.testbit byte k.
Proof.
  rewrite N.shiftl_1_l.
  destruct (N.testbit byte k) eqn:E.
  - destruct (N.land byte (2 ^ k) =? 0)%N eqn:E2; auto.
    apply N.eqb_eq in E2. assert (H : N.testbit (N.land byte (2 ^ k)) k = true).
    { rewrite N.land_spec, E, N.pow2_bits_true; auto. }
    rewrite E2, N.bits_0 in H; discriminate.
  - assert (N.land byte (2 ^ k) = 0%N) as ->; [|reflexivity].
    apply N.bits_inj. intros i. rewrite N.land_spec, N.pow2_bits_eqb, N.bits_0.
    destruct (N.eqb_spec k i) as [<-|]; [rewrite E; auto|apply andb_false_r].
Qed.
Lemma bm_size b : bm_ok b ->
  (N.of_nat (bm_off b + bm_bits b) <= 8 * alloc_max)%N /\
  (lenN (v_items (bm_buf b)) <= alloc_max)%N.
Proof.
  intros [[H1 H2] H]. rewrite max_items_u8 in H2. unfold lenN in *. lia.
Qed.
Lemma usize_max_val : usize_max = 18446744073709551615%N. Proof. reflexivity. Qed.
Lemma alloc_max_val : alloc_max = 1152921504606846976%N. Proof. reflexivity. Qed.

Lemma bm_view_spec b i : bm_ok b ->
  bm_view b i = Ret (nth_N (bm_abs b) i).
Proof.
  intros Hok. pose proof (bm_size b Hok) as [Hs _].
  pose proof (bm_abs_length b Hok) as Hl. destruct Hok as [Hv Hb].
  unfold bm_view.
  destruct (i <? N.of_nat (bm_bits b))%N eqn:E.
  - unfold bm_byte_index, bm_bit_index, strict_add.
    assert ((N.of_nat (bm_off b) + i <=? usize_max)%N = true) as ->.
    { rewrite usize_max_val. rewrite alloc_max_val in Hs. lia. }
    cbn [obind].
    rewrite (nth_N_lt (bm_abs b)) by (unfold lenN; lia).
    unfold bm_abs.
    rewrite nth_error_firstn_lt by lia.
    rewrite nth_error_skipn_add, bits_of_nth.
    unfold vec_view. rewrite nth_N_lt by (unfold lenN; lia).
    replace (N.to_nat ((N.of_nat (bm_off b) + i) / 8)) with ((bm_off b + N.to_nat i) / 8) by lia.
    destruct (nth_error (v_items (bm_buf b)) ((bm_off b + N.to_nat i) / 8)) as [byte|]; auto.
    rewrite land_bit. do 3 f_equal. lia.
  - rewrite nth_N_ge; auto. unfold lenN; lia.
Qed.

(** ** Iterating *)

(** The bits an unpacking iterator has still to produce. *)
Definition up_bits (u : unpacked) : list bool :=
  if (up_mask u =? 1)%N then bits_of (up_rest u)
  else match up_byte u with
       | Some b => skipn (N.to_nat (N.log2 (up_mask u))) (byte_bits b) ++ bits_of (up_rest u)
       | None => []
       end.
Definition up_ok (u : unpacked) : Prop :=
  exists j, j < 8 /\ up_mask u = (2 ^ N.of_nat j)%N /\ (j <> 0 -> up_byte u <> None).

Lemma up_next_spec u : up_ok u ->
  match up_bits u with
  | [] => exists u', unpacked_next u = (None, u') /\ up_ok u' /\ up_bits u' = []
                     /\ length (up_rest u') <= length (up_rest u)
  | x :: r => exists u', unpacked_next u = (Some x, u') /\ up_ok u' /\ up_bits u' = r
                     /\ length (up_rest u') <= length (up_rest u)
  end.
Proof.
  destruct u as [rest byte mask]. intros (j & Hj & Hm & Hb). cbn in Hm, Hb. subst mask.
  destruct j as [|j].
  - change (2 ^ N.of_nat 0)%N with 1%N in *. unfold up_bits, unpacked_next; cbn [up_mask up_rest up_byte].
    change (1 =? 1)%N with true. cbn iota. destruct rest as [|b rest].
    + cbn [bits_of flat_map]. eexists; split; [reflexivity|]. split; [|auto].
      exists 0; cbn; auto.
    + change (bits_of (b :: rest)) with (byte_bits b ++ bits_of rest).
      cbn [byte_bits map app]. eexists; split; [f_equal; f_equal|].
      { change 1%N with (N.shiftl 1 0) at 1. apply land_bit. }
      split; [|split; [reflexivity|cbn; lia]]. exists 1; cbn; repeat split; try lia; congruence.
  - destruct byte as [b|]; [|exfalso; apply Hb; congruence].
    do 7 (destruct j as [|j]; [
      unfold up_bits, unpacked_next;
      cbn -[N.land N.testbit bits_of N.log2 rotate1];
      match goal with |- context [N.to_nat (N.log2 ?m)] =>
        let v := eval vm_compute in (N.to_nat (N.log2 m)) in
        change (N.to_nat (N.log2 m)) with v end;
      cbn [skipn app];
      eexists; split; [f_equal; f_equal; rewrite <- land_bit; reflexivity|];
      split; [|split; [reflexivity|cbn; lia]];
      match goal with |- up_ok (Unpacked _ _ (rotate1 ?m)) =>
        let v := eval vm_compute in (rotate1 m) in change (rotate1 m) with v end;
      unfold up_ok; cbn [up_mask up_byte];
      first [ exists 2; split; [lia|split; [reflexivity|congruence]]
            | exists 3; split; [lia|split; [reflexivity|congruence]]
            | exists 4; split; [lia|split; [reflexivity|congruence]]
            | exists 5; split; [lia|split; [reflexivity|congruence]]
            | exists 6; split; [lia|split; [reflexivity|congruence]]
            | exists 7; split; [lia|split; [reflexivity|congruence]]
            | exists 0; split; [lia|split; [reflexivity|congruence]] ] |]).
    lia.
Qed.

Lemma up_hint_spec u : up_ok u -> (lenN (up_rest u) <= alloc_max)%N ->
  unpacked_hint u = Ret (exact_hint (length (up_bits u))).
Proof.
  destruct u as [rest byte mask]. intros (j & Hj & Hm & Hb) Hs. cbn in Hm, Hb, Hs. subst mask.
  unfold unpacked_hint, up_bits, exact_hint; cbn [up_mask up_rest up_byte].
  rewrite alloc_max_val in Hs.
  assert (Hmul : sat_mul (lenN rest) 8 = (lenN rest * 8)%N)
    by (unfold sat_mul; rewrite usize_max_val; lia).
  assert (Hcm : checked_mul (lenN rest) 8 = Some (lenN rest * 8)%N).
  { unfold checked_mul. rewrite usize_max_val.
    destruct (lenN rest * 8 <=? 18446744073709551615)%N eqn:E; auto; lia. }
  rewrite Hmul, Hcm.
  destruct j as [|j].
  - change (2 ^ N.of_nat 0 =? 1)%N with true. cbn [obind].
    rewrite bits_of_length. unfold checked_add, sat_add. rewrite usize_max_val.
    destruct (lenN rest * 8 + 0 <=? 18446744073709551615)%N eqn:E; [|lia].
    unfold lenN in *. apply f_equal, f_equal2; [lia|apply f_equal; lia].
  - destruct byte as [b|]; [|exfalso; apply Hb; congruence].
    assert ((2 ^ N.of_nat (S j) =? 1)%N = false) as ->.
    { apply N.eqb_neq. intros H. assert (N.log2 (2 ^ N.of_nat (S j)) = N.log2 1) by congruence.
      rewrite N.log2_pow2 in H0 by lia. cbn in H0. lia. }
    rewrite N.log2_pow2 by lia. unfold strict_sub.
    destruct (N.of_nat (S j) <=? 8)%N eqn:E8; [|lia]. cbn [obind].
    rewrite app_length, skipn_length, byte_bits_length, bits_of_length.
    unfold checked_add, sat_add. rewrite usize_max_val.
    destruct (lenN rest * 8 + (8 - N.of_nat (S j)) <=? 18446744073709551615)%N eqn:E; [|lia].
    unfold lenN in *. apply f_equal, f_equal2; [lia|apply f_equal; lia].
Qed.

Lemma up_nth_spec : forall n u, up_ok u ->
  match skipn n (up_bits u) with
  | [] => exists u', unpacked_nth n u = (None, u') /\ up_ok u'
                     /\ length (up_rest u') <= length (up_rest u)
  | x :: r => exists u', unpacked_nth n u = (Some x, u') /\ up_ok u' /\ up_bits u' = r
                     /\ length (up_rest u') <= length (up_rest u)
  end.
Proof.
  induction n as [|n IH]; intros u Hu; pose proof (up_next_spec u Hu) as H.
  - cbn [skipn unpacked_nth]. destruct (up_bits u); [|exact H].
    destruct H as (u' & ? & ? & ? & ?); eauto.
  - cbn [unpacked_nth]. destruct (up_bits u) as [|x r] eqn:Hb.
    + destruct H as (u' & -> & ? & ? & ?). cbn [skipn]. eauto.
    + destruct H as (u' & -> & Hu' & Hb' & Hl). cbn [skipn].
      specialize (IH u' Hu'). rewrite Hb' in IH.
      destruct (skipn n r); destruct IH as (u2 & ? & ?); exists u2;
        intuition; lia.
Qed.

(** A bitmap iterator stands for the bits it will produce. *)
Definition birep (s : bititer) (xs : list bool) : Prop :=
  up_ok (bi_un s) /\ (lenN (up_rest (bi_un s)) <= alloc_max)%N /\
  length xs = bi_take s /\
  xs = firstn (bi_take s) (skipn (bi_skip s) (up_bits (bi_un s))).

Lemma birep_new b : bm_ok b -> birep (bm_iter b) (bm_abs b).
Proof.
  intros Hok. pose proof (bm_size b Hok) as [_ Hs].
  unfold birep, bm_iter, unpacked_new; cbn. split; [|split; [|split]].
  - exists 0; cbn; repeat split; auto with arith; lia.
  - exact Hs.
  - apply bm_abs_length; auto.
  - reflexivity.
Qed.
Lemma birep_cons s x xs : birep s (x :: xs) ->
  exists s', bititer_next s = Ret (Some x, s') /\ birep s' xs.
Proof.
  destruct s as [sk tk u]. intros (Hu & Hs & Hl & Hx). cbn in *.
  unfold bititer_next; cbn [bi_take bi_skip bi_un]. destruct tk as [|tk]; [discriminate|].
  destruct (skipn sk (up_bits u)) as [|y r] eqn:Hsk; [discriminate|].
  inversion Hx; subst y.
  pose proof (up_nth_spec sk u Hu) as H. rewrite Hsk in H.
  destruct H as (u' & Hn & Hu' & Hb' & Hl').
  exists (BitIter 0 tk u'). split.
  { destruct sk; cbn [unpacked_nth] in Hn |- *; rewrite Hn; reflexivity. }
  split; [|split; [|split]]; cbn.
  - exact Hu'.
  - unfold lenN in *; lia.
  - injection Hl as Hl. rewrite <- H1. exact Hl.
  - rewrite Hb'; reflexivity.
Qed.
Lemma birep_nil s : birep s [] ->
  exists s', bititer_next s = Ret (None, s') /\ birep s' [].
Proof.
  intros (Hu & Hs & Hl & Hx). cbn in Hl. exists s. unfold bititer_next. rewrite <- Hl.
  split; [reflexivity|]. split; [auto|split; [auto|split; auto]].
Qed.
Lemma birep_hint s xs : birep s xs -> bititer_hint s = Ret (exact_hint (length xs)).
Proof.
  intros (Hu & Hs & Hl & Hx). unfold bititer_hint. rewrite Hl.
  destruct (bi_take s) as [|k] eqn:Hk; [reflexivity|].
  rewrite (up_hint_spec _ Hu Hs). cbn [obind exact_hint fst snd].
  assert (Hle : bi_skip s + S k <= length (up_bits (bi_un s))).
  { assert (length xs <= length (up_bits (bi_un s)) - bi_skip s).
    { rewrite Hx at 1. rewrite firstn_length, skipn_length. lia. }
    lia. }
  unfold exact_hint. apply f_equal, f_equal2; [lia|apply f_equal; lia].
Qed.

(** ** Counting *)

Definition count_true (l : list bool) : nat := length (filter (fun b => b) l).
Lemma count_true_app l l' : count_true (l ++ l') = count_true l + count_true l'.
Proof. unfold count_true. rewrite filter_app, app_length; reflexivity. Qed.
Lemma count_true_le l : count_true l <= length l.
Proof. unfold count_true. induction l as [|[] l IH]; cbn; lia. Qed.
Lemma count_true_false n : count_true (repeat false n) = 0.
Proof. induction n; cbn; auto. Qed.
Lemma popcount8_bits b : popcount8 b = count_true (byte_bits b).
Proof.
  unfold popcount8, count_true, byte_bits. cbn -[N.testbit].
  repeat match goal with |- context [N.testbit b ?i] => destruct (N.testbit b i) end; reflexivity.
Qed.

Lemma mask_lead k : k < 8 -> forall i, (i < 8)%N ->
  N.testbit (N.land (N.shiftl 255 (N.of_nat k)) 255) i = (N.of_nat k <=? i)%N.
Proof.
  intros Hk i Hi. rewrite N.land_spec.
  assert (H255 : forall j, (j < 8)%N -> N.testbit 255 j = true).
  { intros j Hj. change 255%N with (N.ones 8). apply N.ones_spec_low; auto. }
  rewrite (H255 i Hi), andb_true_r.
  destruct (N.of_nat k <=? i)%N eqn:E.
  - rewrite N.shiftl_spec_high' by lia. apply H255. lia.
  - apply N.shiftl_spec_low. lia.
Qed.
Lemma mask_trail k i : N.testbit (N.shiftl 1 k - 1) i = (i <? k)%N.
Proof.
  rewrite N.shiftl_1_l, N.sub_1_r. fold (N.ones k).
  change (N.pred (2 ^ k)) with (N.pred (2 ^ k)).
  rewrite <- N.ones_equiv.
  destruct (i <? k)%N eqn:E.
  - apply N.ones_spec_low; lia.
  - apply N.ones_spec_high; lia.
Qed.
(** Masking keeps the bits between the two ends. *)
Lemma masked_count byte a z : a <= 8 -> z <= 8 ->
  forall lead trail,
  (forall i, (i < 8)%N -> N.testbit lead i = (N.of_nat a <=? i)%N) ->
  (forall i, (i < 8)%N -> N.testbit trail i = (i <? N.of_nat z)%N) ->
  popcount8 (N.land (N.land byte lead) trail)
  = count_true (skipn a (firstn z (byte_bits byte))).
Proof.
  intros Ha Hz lead trail Hl Ht. rewrite popcount8_bits.
  unfold byte_bits at 1, map.
  rewrite !N.land_spec, !Hl, !Ht by reflexivity. clear Hl Ht.
  unfold byte_bits, map.
  generalize (N.testbit byte 0), (N.testbit byte 1), (N.testbit byte 2), (N.testbit byte 3),
    (N.testbit byte 4), (N.testbit byte 5), (N.testbit byte 6), (N.testbit byte 7).
  intros b0 b1 b2 b3 b4 b5 b6 b7.
  assert (Hgen : forallb (fun a => forallb (fun z => forallb (fun l =>
     match l with
     | [b0;b1;b2;b3;b4;b5;b6;b7] =>
       Nat.eqb (count_true
        [b0 && (N.of_nat a <=? 0)%N && (0 <? N.of_nat z)%N; b1 && (N.of_nat a <=? 1)%N && (1 <? N.of_nat z)%N;
         b2 && (N.of_nat a <=? 2)%N && (2 <? N.of_nat z)%N; b3 && (N.of_nat a <=? 3)%N && (3 <? N.of_nat z)%N;
         b4 && (N.of_nat a <=? 4)%N && (4 <? N.of_nat z)%N; b5 && (N.of_nat a <=? 5)%N && (5 <? N.of_nat z)%N;
         b6 && (N.of_nat a <=? 6)%N && (6 <? N.of_nat z)%N; b7 && (N.of_nat a <=? 7)%N && (7 <? N.of_nat z)%N])
        (count_true (skipn a (firstn z [b0;b1;b2;b3;b4;b5;b6;b7])))
     | _ => true
     end)
     (flat_map (fun b0 => flat_map (fun b1 => flat_map (fun b2 => flat_map (fun b3 =>
      flat_map (fun b4 => flat_map (fun b5 => flat_map (fun b6 => map (fun b7 =>
        [b0;b1;b2;b3;b4;b5;b6;b7]) [true;false]) [true;false]) [true;false]) [true;false])
        [true;false]) [true;false]) [true;false]) [true;false])) (seq 0 9)) (seq 0 9) = true).
  { vm_compute. reflexivity. }
  assert (Ia : In a (seq 0 9)) by (apply in_seq; lia).
  assert (Iz : In z (seq 0 9)) by (apply in_seq; lia).
  rewrite forallb_forall in Hgen. specialize (Hgen a Ia).
  rewrite forallb_forall in Hgen. specialize (Hgen z Iz).
  rewrite forallb_forall in Hgen.
  specialize (Hgen [b0;b1;b2;b3;b4;b5;b6;b7]).
  apply Nat.eqb_eq. apply Hgen.
  assert (Hb : forall b : bool, In b [true; false]) by (intros []; cbn; auto).
  repeat (apply in_flat_map; eexists; split; [apply Hb|]).
  apply in_map_iff; eexists; split; [reflexivity|apply Hb].
Qed.

Lemma count_masked_tail : forall bytes index last lead trail z,
  1 <= index -> bytes <> [] -> last + 1 = index + length bytes -> 1 <= z <= 8 ->
  (forall i, (i < 8)%N -> N.testbit trail i = (i <? N.of_nat z)%N) ->
  count_masked bytes index last lead trail
  = count_true (firstn (8 * (length bytes - 1) + z) (bits_of bytes)).
Proof.
  assert (H255 : forall i, (i < 8)%N -> N.testbit 255 i = (N.of_nat 0 <=? i)%N).
  { intros j Hj. change 255%N with (N.ones 8). rewrite N.ones_spec_low; auto; lia. }
  assert (H255' : forall i, (i < 8)%N -> N.testbit 255 i = (i <? N.of_nat 8)%N).
  { intros j Hj. change 255%N with (N.ones 8). rewrite N.ones_spec_low; auto; lia. }
  induction bytes as [|b bytes IH]; intros index last lead trail z Hi Hne Hlast Hz Ht;
    [congruence|]. cbn [count_masked].
  assert (Nat.eqb index 0 = false) as -> by (apply Nat.eqb_neq; lia).
  change (bits_of (b :: bytes)) with (byte_bits b ++ bits_of bytes).
  destruct bytes as [|b2 bytes].
  - cbn [length] in *. assert (Nat.eqb index last = true) as -> by (apply Nat.eqb_eq; lia).
    cbn [count_masked bits_of flat_map]. rewrite app_nil_r, Nat.add_0_r.
    rewrite (masked_count b 0 z) by (auto; lia). cbn [skipn].
    replace (8 * (1 - 1) + z) with z by lia. reflexivity.
  - cbn [length] in Hlast.
    assert (Nat.eqb index last = false) as -> by (apply Nat.eqb_neq; lia).
    rewrite (masked_count b 0 8) by (auto; lia).
    rewrite (IH (S index) last lead trail z)
      by first [congruence|assumption|cbn [length]; lia].
    replace (8 * (length (b :: b2 :: bytes) - 1) + z)
      with (8 + (8 * (length (b2 :: bytes) - 1) + z)) by (cbn [length]; lia).
    rewrite (firstn_add 8), firstn_app_exact, skipn_app_exact by reflexivity.
    rewrite count_true_app. reflexivity.
Qed.

Lemma bm_count_ones_spec b : bm_ok b ->
  bm_count_ones b = Ret (count_true (bm_abs b)).
Proof.
  intros Hok. pose proof (bm_size b Hok) as [Hs _]. destruct Hok as [Hv Hb].
  unfold bm_count_ones.
  destruct (Nat.eqb_spec (bm_bits b) 0) as [Hz|Hnz].
  { unfold bm_abs. rewrite Hz. reflexivity. }
  set (fin := bm_off b + bm_bits b) in *.
  unfold strict_add. rewrite alloc_max_val in Hs.
  assert ((N.of_nat (bm_off b) + N.of_nat (bm_bits b) <=? usize_max)%N = true) as ->.
  { rewrite usize_max_val. lia. }
  cbn [obind].
  set (stop := N.to_nat (bytes_for_bits (N.of_nat (bm_off b) + N.of_nat (bm_bits b)))).
  assert (Hstop : stop = (fin + 7) / 8) by (unfold stop, bytes_for_bits, fin; lia).
  set (items := v_items (bm_buf b)) in *.
  set (start := bm_off b / 8) in *.
  assert (Hss : start < stop /\ stop <= length items).
  { unfold start. rewrite Hstop. unfold fin in *. split; lia. }
  assert (Nat.leb start stop && Nat.leb stop (length items) = true) as -> by lia.
  set (bytes := firstn (stop - start) (skipn start items)).
  assert (Hlen : length bytes = stop - start)
    by (unfold bytes; rewrite firstn_length, skipn_length; lia).
  destruct (length bytes) as [|last] eqn:Hlb; [lia|].
  f_equal.
  (* the visible bits within those bytes *)
  set (a := bm_off b mod 8).
  set (z := if Nat.eqb (fin mod 8) 0 then 8 else fin mod 8).
  assert (Habs : bm_abs b = skipn a (firstn (8 * last + z) (bits_of bytes))).
  { unfold bm_abs, bytes. fold items.
    rewrite bits_of_firstn, bits_of_skipn.
    rewrite firstn_firstn_le.
    2:{ unfold z, start in *. destruct (Nat.eqb_spec (fin mod 8) 0); lia. }
    rewrite !firstn_skipn_comm, skipn_skipn_add.
    replace (8 * start + (8 * last + z)) with fin.
    2:{ unfold z, start in *. destruct (Nat.eqb_spec (fin mod 8) 0); lia. }
    fold fin. f_equal. unfold a, start. lia. }
  rewrite Habs.
  assert (Hlead : forall i, (i < 8)%N ->
     N.testbit (N.land (N.shiftl 255 (N.of_nat a)) 255) i = (N.of_nat a <=? i)%N).
  { intros i Hi. apply mask_lead; auto. unfold a. lia. }
  set (endb := ((N.of_nat (bm_off b) + N.of_nat (bm_bits b)) mod 8)%N).
  assert (Htrail : forall i, (i < 8)%N ->
     N.testbit (if (endb =? 0)%N then 255%N else (N.shiftl 1 endb - 1)%N) i
     = (i <? N.of_nat z)%N).
  { intros i Hi. assert (He : endb = N.of_nat (fin mod 8)) by (unfold endb, fin; lia).
    unfold z. destruct (Nat.eqb_spec (fin mod 8) 0) as [H0|H0].
    - assert ((endb =? 0)%N = true) as -> by lia.
      change 255%N with (N.ones 8). rewrite N.ones_spec_low; auto; lia.
    - assert ((endb =? 0)%N = false) as -> by lia. rewrite mask_trail, He; reflexivity. }
  set (lead := N.land (N.shiftl 255 (N.of_nat a)) 255) in *.
  set (trail := if (endb =? 0)%N then 255%N else (N.shiftl 1 endb - 1)%N) in *.
  assert (Hzr : 1 <= z <= 8) by (unfold z; destruct (Nat.eqb_spec (fin mod 8) 0); lia).
  assert (Har : a < 8) by (unfold a; lia).
  clearbody lead trail z a bytes. clear Habs.
  assert (H255' : forall i, (i < 8)%N -> N.testbit 255 i = (i <? N.of_nat 8)%N).
  { intros j Hj. change 255%N with (N.ones 8). rewrite N.ones_spec_low; auto; lia. }
  destruct bytes as [|b0 bytes]; [discriminate|].
  cbn [length] in Hlb. injection Hlb as Hlb.
  cbn [count_masked]. change (Nat.eqb 0 0) with true. cbn iota.
  change (bits_of (b0 :: bytes)) with (byte_bits b0 ++ bits_of bytes).
  destruct last as [|last].
  - destruct bytes; [|discriminate]. cbn [count_masked bits_of flat_map].
    change (Nat.eqb 0 0) with true. cbn iota. rewrite app_nil_r, Nat.add_0_r.
    rewrite (masked_count b0 a z) by (auto; lia).
    replace (8 * 0 + z) with z by lia. reflexivity.
  - change (Nat.eqb 0 (S last)) with false. cbn iota.
    rewrite (masked_count b0 a 8) by (auto; lia).
    rewrite (count_masked_tail bytes 1 (S last) lead trail z); auto;
      [|destruct bytes; [discriminate|congruence]|lia].
    replace (8 * S last + z) with (8 + (8 * (length bytes - 1) + z)) by lia.
    rewrite (firstn_add 8), firstn_app_exact by reflexivity.
    rewrite (skipn_app_exact (byte_bits b0) (bits_of bytes) 8) by reflexivity.
    rewrite skipn_app_le by (rewrite byte_bits_length; lia).
    rewrite count_true_app. reflexivity.
Qed.

(** The ValidityBitmap trait, for a collection of length [len] whose bitmap, if
    any, has that length. *)
Definition vb_bits (len : nat) (m : option bitmap) : list bool :=
  match m with None => repeat true len | Some b => bm_abs b end.
Definition vb_ok (len : nat) (m : option bitmap) : Prop :=
  match m with None => True | Some b => bm_ok b /\ bm_bits b = len end.
Definition count_false (l : list bool) : nat := length (filter negb l).
Lemma count_split l : count_true l + count_false l = length l.
Proof. unfold count_true, count_false. induction l as [|[] l IH]; cbn; lia. Qed.
Lemma count_true_all n : count_true (repeat true n) = n.
Proof. unfold count_true. induction n; cbn; auto. Qed.
Lemma vb_bits_length len m : vb_ok len m -> length (vb_bits len m) = len.
Proof.
  destruct m as [b|]; cbn; [intros [H <-]; apply bm_abs_length; auto|].
  intros _. apply repeat_length.
Qed.

Lemma vb_null_count_spec len m : vb_ok len m ->
  vb_null_count m = Ret (count_false (vb_bits len m)).
Proof.
  intros H. pose proof (count_split (vb_bits len m)) as E.
  rewrite (vb_bits_length len m H) in E. destruct m as [b|]; cbn [vb_null_count vb_bits] in *.
  - destruct H as [Hok Hl]. rewrite bm_count_ones_spec by auto. cbn [obind].
    unfold bm_len. assert (Nat.leb (count_true (bm_abs b)) (bm_bits b) = true) as -> by lia.
    f_equal. lia.
  - rewrite count_true_all in E. f_equal; lia.
Qed.
Lemma vb_valid_count_spec len m : vb_ok len m ->
  vb_valid_count len m = Ret (count_true (vb_bits len m)).
Proof.
  intros H. pose proof (count_split (vb_bits len m)) as E.
  rewrite (vb_bits_length len m H) in E.
  unfold vb_valid_count. rewrite (vb_null_count_spec len m H). cbn [obind].
  assert (Nat.leb (count_false (vb_bits len m)) len = true) as -> by lia.
  f_equal; lia.
Qed.
Lemma bititer_any_false_spec : forall xs fuel s, birep s xs -> length xs < fuel ->
  bititer_any_false fuel s = Ret (existsb negb xs).
Proof.
  induction xs as [|x xs IH]; intros fuel s H Hf; (destruct fuel as [|fuel]; [lia|]);
    cbn [bititer_any_false].
  - destruct (birep_nil s H) as (s' & -> & _). reflexivity.
  - destruct (birep_cons s x xs H) as (s' & -> & H'). cbn [obind].
    destruct x; cbn [existsb negb orb]; auto. apply IH; auto. cbn in Hf; lia.
Qed.
Lemma existsb_false_repeat n : existsb negb (repeat true n) = false.
Proof. induction n; cbn; auto. Qed.
Lemma vb_any_null_spec len m : vb_ok len m ->
  vb_any_null m = Ret (existsb negb (vb_bits len m)).
Proof.
  destruct m as [b|]; cbn [vb_any_null vb_bits].
  - intros [Hok Hl]. apply bititer_any_false_spec; [apply birep_new; auto|].
    rewrite bm_abs_length by auto. unfold bm_len; lia.
  - intros _. rewrite existsb_false_repeat; auto.
Qed.
Lemma vb_is_valid_spec len m i : vb_ok len m ->
  vb_is_valid len m i = Ret (nth_N (vb_bits len m) i).
Proof.
  intros H. unfold vb_is_valid. pose proof (vb_bits_length len m H) as Hl.
  destruct (N.ltb_spec i (N.of_nat len)) as [Hi|Hi].
  - destruct m as [b|]; cbn [vb_bits] in *.
    + destruct H as [Hok Hb]. rewrite bm_view_spec by auto. cbn [obind].
      unfold nth_N. rewrite Hl. assert ((i <? N.of_nat len)%N = true) as -> by lia.
      destruct (nth_error (bm_abs b) (N.to_nat i)) eqn:E2; [reflexivity|].
      apply nth_error_None in E2. lia.
    + unfold nth_N, lenN. rewrite Hl.
      assert ((i <? N.of_nat len)%N = true) as -> by lia.
      rewrite (nth_error_repeat true) by lia. reflexivity.
  - unfold nth_N, lenN. rewrite Hl.
    assert ((i <? N.of_nat len)%N = false) as -> by lia. reflexivity.
Qed.

Lemma bm_try_from_parts_spec buf bits offset b : vec_ok u8sz buf ->
  bm_try_from_parts buf bits offset = inl b ->
  bm_ok b /\ bm_buf b = buf /\ N.of_nat (bm_bits b) = bits /\ N.of_nat (bm_off b) = offset.
Proof.
  intros Hv. unfold bm_try_from_parts, checked_add, sat_mul.
  destruct (offset + bits <=? usize_max)%N eqn:E1; [|discriminate].
  destruct (offset + bits <=? N.min usize_max (lenN (v_items buf) * 8))%N eqn:E2;
    [|discriminate].
  injection 1 as <-. unfold bm_ok, lenN in *; cbn. repeat split; try lia; apply Hv.
Qed.
Lemma bm_try_from_parts_iff buf bits offset : vec_ok u8sz buf ->
  (exists b, bm_try_from_parts buf bits offset = inl b) <->
  (offset + bits <= 8 * lenN (v_items buf))%N.
Proof.
  intros [Hv1 Hv2]. rewrite max_items_u8, alloc_max_val in Hv2.
  unfold bm_try_from_parts, checked_add, sat_mul. rewrite usize_max_val. split.
  - intros [b H]. destruct (offset + bits <=? _)%N eqn:E1 in H; [|discriminate].
    destruct (offset + bits <=? _)%N eqn:E2 in H; [|discriminate]. lia.
  - intros H. assert ((offset + bits <=? 18446744073709551615)%N = true) as -> by lia.
    assert ((offset + bits <=? N.min 18446744073709551615 (lenN (v_items buf) * 8))%N = true) as -> by lia.
    eauto.
Qed.
