(** * Lemmas about the bitmap model. *)
From Coq Require Import List NArith ZArith Bool Arith Lia ZifyBool ZifyNat ZifyN.
From Verif Require Import Base Iter Spec VecModel BitmapModel IterLemmas VecLemmas
  RoomLemmas.
Import ListNotations.

Ltac Zify.zify_post_hook ::= Z.div_mod_to_equations.
Local Arguments Nat.div : simpl never.
Local Arguments Nat.modulo : simpl never.
Local Arguments Nat.mul : simpl never.

(** ** Lists *)

Lemma firstn_add {A} a b (l : list A) :
  firstn (a + b) l = firstn a l ++ firstn b (skipn a l).
Proof.
  revert l; induction a as [|a IH]; intros l; [reflexivity|].
  destruct l as [|x l]; cbn; [rewrite firstn_nil; reflexivity|].
  rewrite IH; reflexivity.
Qed.
Lemma skipn_skipn_add {A} a b (l : list A) : skipn a (skipn b l) = skipn (b + a) l.
Proof.
  revert l; induction b as [|b IH]; intros l; [reflexivity|].
  destruct l as [|x l]; cbn; [apply skipn_nil|]. apply IH.
Qed.
Lemma firstn_app_exact {A} (l l' : list A) n : length l = n -> firstn n (l ++ l') = l.
Proof. intros <-. rewrite firstn_app, firstn_all, Nat.sub_diag; cbn; apply app_nil_r. Qed.
Lemma skipn_app_exact {A} (l l' : list A) n : length l = n -> skipn n (l ++ l') = l'.
Proof. intros <-. rewrite skipn_app, skipn_all, Nat.sub_diag; reflexivity. Qed.
Lemma skipn_app_le {A} (l l' : list A) n : n <= length l ->
  skipn n (l ++ l') = skipn n l ++ l'.
Proof.
  intros H. rewrite skipn_app. replace (n - length l) with 0 by lia. reflexivity.
Qed.
Lemma firstn_app_le {A} (l l' : list A) n : n <= length l ->
  firstn n (l ++ l') = firstn n l.
Proof.
  intros H. rewrite firstn_app. replace (n - length l) with 0 by lia.
  cbn; apply app_nil_r.
Qed.

Lemma nth_error_firstn_lt {A} n (l : list A) i : i < n ->
  nth_error (firstn n l) i = nth_error l i.
Proof.
  revert n i; induction l as [|a l IH]; intros n i H.
  - rewrite firstn_nil; reflexivity.
  - destruct n; [lia|]. destruct i; cbn; [reflexivity|]. apply IH; lia.
Qed.
Lemma nth_error_skipn_add {A} n (l : list A) i :
  nth_error (skipn n l) i = nth_error l (n + i).
Proof.
  revert l; induction n as [|n IH]; intros l; [reflexivity|].
  destruct l as [|a l]; cbn; [destruct i; reflexivity|apply IH].
Qed.

(** ** Bits *)

Lemma byte_bits_length b : length (byte_bits b) = 8.
Proof. reflexivity. Qed.
Lemma bits_of_app l l' : bits_of (l ++ l') = bits_of l ++ bits_of l'.
Proof. unfold bits_of; apply flat_map_app. Qed.
Lemma bits_of_length l : length (bits_of l) = 8 * length l.
Proof.
  induction l as [|b l IH]; [reflexivity|].
  change (bits_of (b :: l)) with (byte_bits b ++ bits_of l).
  rewrite app_length, byte_bits_length, IH. cbn [length]; lia.
Qed.
Lemma bits_of_firstn n l : bits_of (firstn n l) = firstn (8 * n) (bits_of l).
Proof.
  revert n; induction l as [|b l IH]; intros n.
  - rewrite !firstn_nil; reflexivity.
  - destruct n as [|n]; [reflexivity|]. cbn [firstn].
    change (bits_of (b :: firstn n l)) with (byte_bits b ++ bits_of (firstn n l)).
    change (bits_of (b :: l)) with (byte_bits b ++ bits_of l).
    replace (8 * S n) with (8 + 8 * n) by lia.
    rewrite firstn_add, firstn_app_exact, skipn_app_exact, IH; reflexivity.
Qed.
Lemma bits_of_skipn n l : bits_of (skipn n l) = skipn (8 * n) (bits_of l).
Proof.
  revert n; induction l as [|b l IH]; intros n.
  - rewrite !skipn_nil; reflexivity.
  - destruct n as [|n]; [reflexivity|]. cbn [skipn].
    change (bits_of (b :: l)) with (byte_bits b ++ bits_of l).
    replace (8 * S n) with (8 + 8 * n) by lia.
    rewrite <- skipn_skipn_add, skipn_app_exact; [apply IH|reflexivity].
Qed.
Lemma byte_bits_nth b i : i < 8 -> nth_error (byte_bits b) i = Some (N.testbit b (N.of_nat i)).
Proof.
  intros H; do 8 (destruct i as [|i]; [reflexivity|]); lia.
Qed.
Lemma bits_of_nth l i :
  nth_error (bits_of l) i =
  match nth_error l (i / 8) with
  | Some b => Some (N.testbit b (N.of_nat (i mod 8)))
  | None => None
  end.
Proof.
  revert i; induction l as [|b l IH]; intros i.
  - change (bits_of []) with (@nil bool).
    destruct (i / 8); destruct i; reflexivity.
  - change (bits_of (b :: l)) with (byte_bits b ++ bits_of l).
    destruct (Nat.lt_ge_cases i 8) as [H|H].
    + rewrite nth_error_app1 by (rewrite byte_bits_length; lia).
      rewrite Nat.div_small, Nat.mod_small by lia. cbn [nth_error].
      apply byte_bits_nth; auto.
    + rewrite nth_error_app2 by (rewrite byte_bits_length; lia).
      rewrite byte_bits_length, IH.
      replace (i / 8) with (S ((i - 8) / 8)) by lia.
      replace (i mod 8) with ((i - 8) mod 8) by lia. reflexivity.
Qed.

Lemma testbit_or (b : bool) acc k i :
  N.testbit (if b then N.lor acc (N.shiftl 1 k) else acc) i =
  if (i =? k)%N then b || N.testbit acc i else N.testbit acc i.
Proof.
  destruct b.
  - rewrite N.lor_spec, N.shiftl_1_l, N.pow2_bits_eqb, N.eqb_sym.
    destruct (i =? k)%N eqn:E; destruct (N.testbit acc i); reflexivity.
  - destruct (i =? k)%N; reflexivity.
Qed.
Lemma testbit_b2n b i : N.testbit (b2n b) i = if (i =? 0)%N then b else false.
Proof.
  destruct b; cbn [b2n].
  - change 1%N with (2 ^ 0)%N. rewrite N.pow2_bits_eqb, N.eqb_sym. destruct (i =? 0)%N; auto.
  - rewrite N.bits_0. destruct (i =? 0)%N; auto.
Qed.
Lemma testbit_put byte k b i : (i < 8)%N ->
  N.testbit (put_bit byte k b) i =
  if (i =? N.of_nat k)%N then b else N.testbit byte i.
Proof.
  intros Hi. unfold put_bit.
  rewrite N.lor_spec, N.land_spec, N.lxor_spec, N.shiftl_1_l, N.pow2_bits_eqb.
  assert (H255 : N.testbit 255 i = true).
  { change 255%N with (N.ones 8). apply N.ones_spec_low; auto. }
  rewrite H255.
  destruct (i =? N.of_nat k)%N eqn:E.
  - rewrite N.eqb_sym, E; cbn [xorb]. rewrite andb_false_r; cbn [orb].
    rewrite N.shiftl_spec_high' by lia. rewrite testbit_b2n.
    replace (i - N.of_nat k)%N with 0%N by lia. reflexivity.
  - rewrite N.eqb_sym, E; cbn [xorb]. rewrite andb_true_r.
    assert (N.testbit (N.shiftl (b2n b) (N.of_nat k)) i = false) as ->.
    { destruct (N.lt_ge_cases i (N.of_nat k)).
      - apply N.shiftl_spec_low; auto.
      - rewrite N.shiftl_spec_high' by lia. rewrite testbit_b2n.
        destruct (i - N.of_nat k =? 0)%N eqn:E2; auto; lia. }
    apply orb_false_r.
Qed.
Lemma put_bit_bits byte k b : k < 8 ->
  byte_bits (put_bit byte k b) =
  firstn k (byte_bits byte) ++ b :: skipn (S k) (byte_bits byte).
Proof.
  intros Hk. unfold byte_bits at 1.
  unfold map. rewrite !testbit_put by reflexivity.
  do 8 (destruct k as [|k]; [reflexivity|]); lia.
Qed.

(** ** Packing *)

(** The bytes that packing makes of the items [xs], from bit position [pos]
    of a byte whose lower bits are those of [acc]. *)
Fixpoint packs (pos : nat) (acc : N) (xs : list bool) : list N :=
  match xs with
  | [] => match pos with O => [] | _ => [acc] end
  | b :: xs' =>
      let acc' := match pos with
                  | O => b2n b
                  | _ => if b then N.lor acc (N.shiftl 1 (N.of_nat pos)) else acc
                  end in
      if Nat.eqb pos 7 then acc' :: packs 0 0%N xs' else packs (S pos) acc' xs'
  end.

Lemma acc_step pos acc b :
  (forall i, (N.of_nat pos <= i)%N -> N.testbit acc i = false) \/ pos = 0 -> pos < 8 ->
  let acc' := match pos with
              | O => b2n b
              | _ => if b then N.lor acc (N.shiftl 1 (N.of_nat pos)) else acc
              end in
  firstn (S pos) (byte_bits acc') = firstn pos (byte_bits acc) ++ [b] /\
  (forall i, (N.of_nat (S pos) <= i)%N -> N.testbit acc' i = false).
Proof.
  intros Ha Hp acc'.
  destruct (Nat.eq_dec pos 0) as [->|Hnz].
  - subst acc'. split.
    + unfold byte_bits; cbn [firstn map app]. rewrite testbit_b2n; reflexivity.
    + intros i Hi. rewrite testbit_b2n. destruct (i =? 0)%N eqn:E; auto; lia.
  - destruct Ha as [Ha|]; [|contradiction].
    assert (acc' = if b then N.lor acc (N.shiftl 1 (N.of_nat pos)) else acc) as ->.
    { subst acc'; destruct pos; [contradiction|reflexivity]. }
    split.
    + assert (Hb : N.testbit acc (N.of_nat pos) = false) by (apply Ha; lia).
      unfold byte_bits, map. rewrite !testbit_or.
      do 8 (destruct pos as [|pos];
        [cbn -[N.testbit] in *; try rewrite Hb, orb_false_r; reflexivity|]); lia.
    + intros i Hi. rewrite testbit_or.
      destruct (i =? N.of_nat pos)%N eqn:E; [lia|]. apply Ha; lia.
Qed.
Lemma packs_bits xs : forall pos acc,
  (forall i, (N.of_nat pos <= i)%N -> N.testbit acc i = false) \/ pos = 0 -> pos < 8 ->
  exists pad, bits_of (packs pos acc xs) = firstn pos (byte_bits acc) ++ xs ++ pad.
Proof.
  induction xs as [|b xs IH]; intros pos acc Ha Hp.
  - cbn [packs]. destruct pos as [|pos].
    + exists []; reflexivity.
    + exists (skipn (S pos) (byte_bits acc)). cbn [bits_of flat_map].
      rewrite app_nil_r, app_nil_l. symmetry; apply firstn_skipn.
  - cbn [packs]. destruct (acc_step pos acc b Ha Hp) as [H1 H2].
    set (acc' := match pos with
                 | O => b2n b
                 | _ => if b then N.lor acc (N.shiftl 1 (N.of_nat pos)) else acc
                 end) in *.
    destruct (Nat.eqb_spec pos 7) as [->|Hne].
    + destruct (IH 0 0%N) as [pad Hpad]; [auto|lia|].
      exists pad. change (bits_of (acc' :: packs 0 0 xs))
        with (byte_bits acc' ++ bits_of (packs 0 0 xs)).
      rewrite Hpad. change (firstn 0 (byte_bits 0)) with (@nil bool).
      change (byte_bits acc') with (firstn 8 (byte_bits acc')). rewrite H1.
      rewrite <- !app_assoc; reflexivity.
    + destruct (IH (S pos) acc') as [pad Hpad]; [auto|lia|].
      exists pad. rewrite Hpad, H1, <- !app_assoc; reflexivity.
Qed.
Lemma packs_length xs : forall pos acc, pos < 8 ->
  length (packs pos acc xs) = (pos + length xs + 7) / 8.
Proof.
  induction xs as [|b xs IH]; intros pos acc Hp; cbn [packs].
  - do 8 (destruct pos as [|pos]; [reflexivity|]); lia.
  - destruct (Nat.eqb_spec pos 7) as [->|Hne]; cbn [length].
    + rewrite IH by lia. lia.
    + rewrite IH by lia. f_equal. lia.
Qed.

Lemma packed_node_src {R} (n : node R) : nd_src (packed_node n) = nd_src n.
Proof. unfold packed_node; destruct (nd_hint n); reflexivity. Qed.

(** Once the source has stopped. *)
Lemma packed_stops {R} (t : trace bool R) : forall pos acc cur n,
  Forall (fun p => fst p = Stop) t -> pos < 8 ->
  (pos = 0 -> nd_src n = nd_src cur) ->
  exists r', run_t (packed_t pos acc cur t) n =
    (match pos with O => [] | _ => [acc] end, FStop, r') /\
    (r' = nd_src cur \/ In r' (map (fun p => nd_src (snd p)) t)).
Proof.
  induction t as [|[e n'] t IH]; intros pos acc cur n Ht Hp Hn; cbn.
  - destruct pos; cbn.
    + rewrite Hn; eauto.
    + rewrite packed_node_src; eauto.
  - inversion Ht as [|? ? He Ht']; subst; cbn in He; subst e.
    destruct pos as [|pos].
    + cbn. rewrite packed_node_src. eauto.
    + cbn [Nat.eqb]. destruct (Nat.eqb_spec pos 6) as [->|Hne].
      * cbn. destruct (IH 0 0%N n' (packed_node n') Ht') as (r' & E & Hr'); [lia| |].
        { intros _; apply packed_node_src. }
        rewrite E. exists r'; split; auto. destruct Hr' as [->|Hr']; auto.
      * destruct (IH (S (S pos)) acc n' n Ht') as (r' & E & Hr'); [lia|lia|].
        rewrite E. exists r'; split; auto. destruct Hr' as [->|Hr']; auto.
Qed.
Lemma packed_run {R} (t : trace bool R) : forall pos acc cur n xs e r,
  run_t t cur = (xs, e, r) -> fused_t t -> pos < 8 ->
  (pos = 0 -> nd_src n = nd_src cur) ->
  exists ys r', run_t (packed_t pos acc cur t) n = (ys, e, r') /\
    In r' (after_t t cur) /\
    (e = FStop -> ys = packs pos acc xs) /\
    length ys <= (pos + length xs + 7) / 8.
Proof.
  induction t as [|[[b| |] n'] t IH]; intros pos acc cur n xs e r Hr Hf Hp Hn.
  - cbn in Hr; inversion Hr; subst.
    destruct (packed_stops [] pos acc cur n) as (r' & E & Hr'); auto.
    rewrite E. do 2 eexists; split; [reflexivity|]. cbn.
    destruct Hr' as [->|[]]. split; [auto|]. split; [reflexivity|].
    destruct pos; cbn [length]; lia.
  - cbn in Hr. destruct (run_t t n') as [[xs1 e1] r1] eqn:Hr1.
    inversion Hr; subst xs e1 r1; clear Hr. cbn [packed_t packs].
    set (acc' := match pos with
                 | O => b2n b
                 | _ => if b then N.lor acc (N.shiftl 1 (N.of_nat pos)) else acc
                 end).
    destruct (Nat.eqb_spec pos 7) as [->|Hne].
    + destruct (IH 0 0%N n' (packed_node n') xs1 e r Hr1 Hf) as (ys & r' & E & H1 & H2 & H3);
        [lia|intros _; apply packed_node_src|].
      cbn [run_t]. rewrite E. do 2 eexists; split; [reflexivity|].
      split; [exact H1|]. split; [intros He; rewrite H2; auto|]. cbn [length]; lia.
    + destruct (IH (S pos) acc' n' n xs1 e r Hr1 Hf) as (ys & r' & E & H1 & H2 & H3);
        [lia|lia|].
      rewrite E. do 2 eexists; split; [reflexivity|].
      split; [exact H1|]. split; [auto|]. cbn [length]. lia.
  - cbn in Hr; inversion Hr; subst. cbn in Hf.
    destruct (packed_stops ((Stop, n') :: t) pos acc cur n) as (r' & E & Hr'); auto.
    rewrite E. do 2 eexists; split; [reflexivity|].
    split; [|split; [reflexivity|destruct pos; cbn [length]; lia]].
    cbn. destruct Hr' as [->|Hr']; auto.
    (* the source state before the first None is not reported *)
    destruct pos as [|pos]; cbn in E.
    + inversion E. rewrite packed_node_src; auto.
    + destruct (Nat.eqb_spec pos 6) as [->|Hne].
      * destruct (packed_stops t 0 0%N n' (packed_node n')) as (r2 & E2 & Hr2); auto;
          [lia|intros _; apply packed_node_src|].
        cbn in E. rewrite E2 in E. inversion E; subst. destruct Hr2 as [->|?]; auto.
      * destruct (packed_stops t (S (S pos)) acc n' n) as (r2 & E2 & Hr2); auto; [lia|lia|].
        rewrite E2 in E. inversion E; subst. destruct Hr2 as [->|?]; auto.
  - cbn in Hr; inversion Hr; subst. cbn. rewrite packed_node_src.
    do 2 eexists; split; [reflexivity|]. repeat split; auto; [discriminate|cbn; lia].
Qed.
Lemma cut_packed_t {R} (t : trace bool R) : forall pos acc cur,
  cut_t t -> cut_t (packed_t pos acc cur t).
Proof.
  induction t as [|[[b| |] n'] t IH]; intros pos acc cur; cbn.
  - destruct pos; cbn; auto.
  - intros Hc. destruct (Nat.eqb pos 7); cbn; auto.
  - intros ->. destruct pos; cbn; auto. destruct (Nat.eqb pos 6); cbn; auto.
  - auto.
Qed.
Lemma run_packed {R} (it : iter bool R) xs e r :
  run it = (xs, e, r) -> fused it ->
  exists ys r', run (it_packed it) = (ys, e, r') /\ In r' (after it) /\
    (e = FStop -> ys = packs 0 0%N xs) /\ length ys <= (length xs + 7) / 8.
Proof.
  intros Hr Hf. unfold run, it_packed; cbn.
  destruct (packed_run (it_tr it) 0 0%N (it_node it) (packed_node (it_node it)) xs e r)
    as (ys & r' & E & H); auto; [lia|intros _; apply packed_node_src|].
  eauto.
Qed.
Lemma cut_packed {R} (it : iter bool R) : cut it -> cut (it_packed it).
Proof. apply cut_packed_t. Qed.

(** ** Contents and well-formedness *)

Definition bm_abs (b : bitmap) : list bool :=
  firstn (bm_bits b) (skipn (bm_off b) (bits_of (v_items (bm_buf b)))).
Definition bm_ok (b : bitmap) : Prop :=
  vec_ok u8sz (bm_buf b) /\
  bm_off b + bm_bits b <= 8 * length (v_items (bm_buf b)).

Lemma bm_abs_length b : bm_ok b -> length (bm_abs b) = bm_bits b.
Proof.
  intros [_ H]. unfold bm_abs. rewrite firstn_length, skipn_length, bits_of_length. lia.
Qed.
Lemma bm_ok_default : bm_ok bm_default.
Proof. split; [apply vec_ok_new|cbn; lia]. Qed.

(** The visible part followed by [xs]. *)
Lemma abs_append off bits (B B' xs tail : list bool) :
  off + bits <= length B ->
  B' = firstn (off + bits) B ++ xs ++ tail ->
  firstn (bits + length xs) (skipn off B') = firstn bits (skipn off B) ++ xs.
Proof.
  intros Hl ->. rewrite (firstn_add off bits), <- app_assoc.
  rewrite skipn_app_exact by (rewrite firstn_length; lia).
  rewrite firstn_add.
  rewrite firstn_app_exact by (rewrite firstn_length, skipn_length; lia).
  rewrite skipn_app_exact by (rewrite firstn_length, skipn_length; lia).
  rewrite firstn_app_exact by reflexivity. reflexivity.
Qed.

(** ** Filling the last byte *)

Lemma fill_spec {R} : forall k (it : iter bool R) byte bits xs e r byte' bits' it' p,
  k <= 8 -> cut it -> run it = (xs, e, r) ->
  bm_fill k it byte bits = (byte', bits', it', p) ->
  let m := Nat.min k (length xs) in
  bits' = bits + m /\
  byte_bits byte' = firstn (8 - k) (byte_bits byte) ++ firstn m xs
                      ++ skipn (8 - k + m) (byte_bits byte) /\
  (if p then e = FBoom /\ length xs < k /\ it_src it' = r
   else cut it' /\ run it' = (skipn m xs, e, r)).
Proof.
  induction k as [|k IH]; intros it byte bits xs e r byte' bits' it' p Hk Hc Hr.
  - cbn -[skipn firstn byte_bits]. intros E; inversion E; subst; cbn [Nat.min].
    split; [lia|]. split; [|auto].
    cbn [firstn]. change (8 - 0 + 0) with 8. reflexivity.
  - cbn [bm_fill]. destruct (it_next it) as [ev it1] eqn:En. destruct ev as [b| |].
    + pose proof (run_next_yield _ _ _ En) as Hr'. rewrite Hr in Hr'.
      destruct (run it1) as [[xs1 e1] r1] eqn:Hr1; cbn in Hr'. inversion Hr'; subst.
      intros E. eapply IH in E; [|lia|eapply cut_next_yield; eauto|eauto].
      cbn [length]. rewrite <- Nat.succ_min_distr. cbn [firstn skipn].
      destruct E as (H1 & H2 & H3). split; [lia|]. split; [|].
      * rewrite H2. rewrite put_bit_bits by lia.
        assert (L1 : length (firstn (8 - S k) (byte_bits byte)) = 8 - S k)
          by (rewrite firstn_length, byte_bits_length; lia).
        replace (8 - k) with ((8 - S k) + 1) by lia.
        rewrite (firstn_add (8 - S k) 1).
        rewrite firstn_app_exact, skipn_app_exact by auto.
        cbn [firstn]. rewrite <- app_assoc. f_equal. cbn [app]. f_equal. f_equal.
        rewrite <- (skipn_skipn_add (Nat.min k (length xs1)) (8 - S k + 1)).
        rewrite <- (skipn_skipn_add 1 (8 - S k)).
        rewrite skipn_app_exact by auto.
        change (skipn 1 (b :: skipn (S (8 - S k)) (byte_bits byte)))
          with (skipn (S (8 - S k)) (byte_bits byte)).
        rewrite skipn_skipn_add. f_equal. lia.
      * destruct p; intuition.
    + pose proof (run_next_stop _ _ En) as Hr'. rewrite Hr in Hr'. inversion Hr'; subst.
      pose proof (cut_next_stop _ _ Hc En) as Ht.
      intros E. eapply IH in E;
        [|lia|unfold cut; rewrite Ht; exact I|apply run_nil; auto].
      cbn [length] in *. rewrite Nat.min_0_r in *. cbn [firstn skipn] in *.
      destruct E as (H1 & H2 & H3). split; [auto|]. split.
      * rewrite H2. rewrite !Nat.add_0_r. cbn [app]. rewrite !firstn_skipn; reflexivity.
      * destruct p; [|auto]. destruct H3 as [H3 _]; discriminate.
    + pose proof (run_next_boom _ _ En) as Hr'. rewrite Hr in Hr'. inversion Hr'; subst.
      intros E; inversion E; subst. cbn [length]. rewrite Nat.min_0_r.
      split; [lia|]. split; [|cbn; auto with arith].
      cbn [firstn app]. rewrite Nat.add_0_r, firstn_skipn; reflexivity.
Qed.

Lemma set_nth_bits i byte' items byte :
  nth_error items i = Some byte ->
  bits_of (set_nth i byte' items) =
  firstn (8 * i) (bits_of items) ++ byte_bits byte' ++ skipn (8 * i + 8) (bits_of items)
  /\ length (set_nth i byte' items) = length items
  /\ bits_of items =
  firstn (8 * i) (bits_of items) ++ byte_bits byte ++ skipn (8 * i + 8) (bits_of items).
Proof.
  intros H. apply nth_error_split in H. destruct H as (l1 & l2 & -> & Hl).
  unfold set_nth. rewrite firstn_app_exact, skipn_app_exact by auto.
  split; [|split].
  - rewrite bits_of_app. rewrite bits_of_app.
    change (bits_of (byte' :: l2)) with (byte_bits byte' ++ bits_of l2).
    change (bits_of (byte :: l2)) with (byte_bits byte ++ bits_of l2).
    rewrite firstn_app_exact by (rewrite bits_of_length; lia).
    rewrite <- skipn_skipn_add.
    rewrite (skipn_app_exact (bits_of l1)) by (rewrite bits_of_length; lia).
    rewrite skipn_app_exact by reflexivity. reflexivity.
  - rewrite !app_length; reflexivity.
  - rewrite bits_of_app.
    change (bits_of (byte :: l2)) with (byte_bits byte ++ bits_of l2).
    rewrite firstn_app_exact by (rewrite bits_of_length; lia).
    rewrite <- skipn_skipn_add.
    rewrite (skipn_app_exact (bits_of l1)) by (rewrite bits_of_length; lia).
    rewrite skipn_app_exact by reflexivity. reflexivity.
Qed.

Lemma phase1_spec {R} b (it : iter bool R) xs e r b1 it1 p :
  bm_ok b -> cut it -> run it = (xs, e, r) -> bm_phase1 b it = (b1, it1, p) ->
  exists m tail, m = Nat.min ((8 - (bm_off b + bm_bits b) mod 8) mod 8) (length xs) /\
  v_cap (bm_buf b1) = v_cap (bm_buf b) /\
  length (v_items (bm_buf b1)) = length (v_items (bm_buf b)) /\
  bm_off b1 = bm_off b /\ bm_bits b1 = bm_bits b + m /\
  bm_off b1 + bm_bits b1 <= 8 * length (v_items (bm_buf b1)) /\
  bits_of (v_items (bm_buf b1)) =
    firstn (bm_off b + bm_bits b) (bits_of (v_items (bm_buf b))) ++ firstn m xs ++ tail /\
  (if p then e = FBoom /\ m = length xs /\ it_src it1 = r
   else cut it1 /\ run it1 = (skipn m xs, e, r) /\
        (m < length xs -> (bm_off b1 + bm_bits b1) mod 8 = 0)).
Proof.
  intros [Hv Hb] Hc Hr. unfold bm_phase1.
  set (fin := bm_off b + bm_bits b) in *.
  destruct (Nat.eqb_spec (fin mod 8) 0) as [Hz|Hnz].
  { intros E; inversion E; subst b1 it1 p.
    exists 0, (skipn fin (bits_of (v_items (bm_buf b)))).
    split; [rewrite Hz; reflexivity|]. split; [auto|]. split; [auto|]. split; [auto|]. split; [lia|].
    split; [exact Hb|]. split; [cbn [firstn app]; symmetry; apply firstn_skipn|].
    cbn [skipn]. auto. }
  destruct (nth_error (v_items (bm_buf b)) (fin / 8)) as [byte|] eqn:Hnth.
  2:{ apply nth_error_None in Hnth. exfalso. lia. }
  destruct (bm_fill (8 - fin mod 8) it byte (bm_bits b)) as [[[byte' bits'] it'] p'] eqn:Hf.
  eapply fill_spec in Hf; eauto; [|lia].
  set (k := 8 - fin mod 8) in *. set (m := Nat.min k (length xs)) in *. cbn zeta in Hf.
  destruct Hf as (H1 & H2 & H3). intros E; inversion E; subst b1 it1 p; clear E.
  cbn [bm_buf bm_off bm_bits v_items v_cap].
  destruct (set_nth_bits (fin / 8) byte' _ _ Hnth) as (S1 & S2 & S3).
  exists m, (skipn (8 - k + m) (byte_bits byte)
             ++ skipn (8 * (fin / 8) + 8) (bits_of (v_items (bm_buf b)))).
  split; [unfold m; f_equal; unfold k; lia|]. split; [auto|]. split; [auto|]. split; [auto|]. split; [auto|].
  assert (Hlt : fin / 8 < length (v_items (bm_buf b))).
  { apply nth_error_Some; congruence. }
  split; [rewrite S2; subst bits'; unfold fin in *; lia|].
  split.
  - rewrite S1, H2. rewrite S3 at 3.
    replace fin with (8 * (fin / 8) + (8 - k)) at 3 by lia.
    rewrite firstn_add.
    assert (L : length (firstn (8 * (fin / 8)) (bits_of (v_items (bm_buf b)))) = 8 * (fin / 8)).
    { rewrite firstn_length, bits_of_length. lia. }
    rewrite firstn_app_exact, skipn_app_exact by auto.
    rewrite firstn_app_le by (rewrite byte_bits_length; lia).
    rewrite <- !app_assoc. reflexivity.
  - destruct p'.
    + destruct H3 as (? & ? & ?). repeat split; auto. unfold m; lia.
    + destruct H3 as [? ?]. split; [auto|]. split; [auto|].
      intros Hm. subst bits'. unfold m in *. replace (Nat.min k (length xs)) with k by lia.
      replace (bm_off b + (bm_bits b + k)) with (fin + k) by (unfold fin; lia).
      unfold k. lia.
Qed.

(** ** Overwriting stale bytes *)

Lemma overwrite_spec {R} : forall rest (it : iter N R) ys e r over it' p,
  cut it -> run it = (ys, e, r) -> bm_overwrite rest it = (over, it', p) ->
  length over = length rest /\
  (if p then e = FBoom /\ length ys < length rest /\ it_src it' = r
   else over = firstn (length rest) ys ++ skipn (length ys) rest /\ cut it' /\
        run it' = (skipn (length rest) ys, e, r)).
Proof.
  induction rest as [|old rest IH]; intros it ys e r over it' p Hc Hr; cbn [bm_overwrite].
  - intros E; inversion E; subst; cbn [length firstn skipn].
    split; [auto|]. rewrite skipn_nil; auto.
  - destruct (it_next it) as [ev it1] eqn:En. destruct ev as [b| |].
    + pose proof (run_next_yield _ _ _ En) as Hr'. rewrite Hr in Hr'.
      destruct (run it1) as [[ys1 e1] r1] eqn:Hr1; cbn in Hr'. inversion Hr'; subst.
      destruct (bm_overwrite rest it1) as [[o1 it2] p1] eqn:Ho.
      intros E; inversion E; subst.
      eapply IH in Ho; [|eapply cut_next_yield; eauto|eauto].
      destruct Ho as [H1 H2]. cbn [length firstn skipn app]. split; [lia|].
      destruct p.
      * destruct H2 as (? & ? & ?). repeat split; auto; lia.
      * destruct H2 as (-> & ? & ?). auto.
    + pose proof (run_next_stop _ _ En) as Hr'. rewrite Hr in Hr'. inversion Hr'; subst.
      pose proof (cut_next_stop _ _ Hc En) as Ht.
      intros E; inversion E; subst. split; [auto|]. cbn [length firstn skipn app].
      split; [auto|]. split; [unfold cut; rewrite Ht; exact I|apply run_nil; auto].
    + pose proof (run_next_boom _ _ En) as Hr'. rewrite Hr in Hr'. inversion Hr'; subst.
      intros E; inversion E; subst. split; [auto|]. cbn [length]. repeat split; auto. lia.
Qed.

Lemma insp_count xs : forall n, insp count_item n xs = Some (n + length xs).
Proof.
  induction xs as [|x xs IH]; intros n; cbn.
  - f_equal; lia.
  - rewrite IH; f_equal; lia.
Qed.

(** What the packed tail is: the iterator made of the first item and the rest. *)
Lemma tail_run {R} first (it2 : iter bool R) xs e r :
  cut it2 -> run it2 = (xs, e, r) ->
  let packed := it_packed (it_inspect count_item 0 (it_chain_once first it2)) in
  cut packed /\
  exists ys, run packed = (ys, e, (r, S (length xs))) /\
    (e = FStop -> ys = packs 0 0%N (first :: xs)) /\
    length ys <= (S (length xs) + 7) / 8.
Proof.
  intros Hc Hr packed.
  assert (Hc' : cut (it_inspect count_item 0 (it_chain_once first it2)))
    by (apply cut_inspect, cut_chain_once; auto).
  split; [apply cut_packed; auto|].
  assert (Hri : run (it_inspect count_item 0 (it_chain_once first it2))
                = (first :: xs, e, (r, S (length xs)))).
  { apply run_inspect; [apply run_chain_once; auto|]. rewrite insp_count; reflexivity. }
  destruct (run_packed _ _ _ _ Hri (fused_cut _ Hc')) as (ys & r' & E & Hin & H1 & H2).
  rewrite (after_cut _ _ _ _ Hc' Hri) in Hin. destruct Hin as [<-|[]].
  exists ys; auto.
Qed.

(** The state between phase one and the final commit. *)
Lemma phase2_spec {R} b1 (packed : iter N R) ys e rr over packed' p :
  vec_ok u8sz (bm_buf b1) ->
  bm_off b1 + bm_bits b1 <= 8 * length (v_items (bm_buf b1)) ->
  (bm_off b1 + bm_bits b1) mod 8 = 0 ->
  cut packed -> run packed = (ys, e, rr) ->
  let fin := bm_off b1 + bm_bits b1 in
  let items := v_items (bm_buf b1) in
  bm_overwrite (skipn (fin / 8) items) packed = (over, packed', p) ->
  length (firstn (fin / 8) items ++ over) = length items /\
  firstn fin (bits_of (firstn (fin / 8) items ++ over)) = firstn fin (bits_of items) /\
  (if p then e = FBoom /\ it_src packed' = rr
   else exists zs, run packed' = (zs, e, rr) /\
     length zs = length ys - (length items - fin / 8) /\
     exists tail, (firstn (fin / 8) items ++ over) ++ zs
                  = firstn (fin / 8) items ++ ys ++ tail).
Proof.
  intros Hv Hb Hz Hc Hr fin items Ho.
  fold fin in Hb, Hz. fold items in Hb.
  assert (Hfin : 8 * (fin / 8) = fin) by lia.
  assert (Hbi : fin / 8 <= length items) by lia.
  eapply overwrite_spec in Ho; eauto. destruct Ho as [H1 H2].
  rewrite skipn_length in H1.
  assert (L : length (firstn (fin / 8) items) = fin / 8) by (rewrite firstn_length; lia).
  split; [rewrite app_length, L, H1; lia|]. split.
  - rewrite bits_of_app, bits_of_firstn, Hfin.
    rewrite firstn_app_exact; auto. rewrite firstn_length, bits_of_length; lia.
  - destruct p; [intuition|].
    destruct H2 as (-> & Hc' & Hr'). rewrite skipn_length in *.
    exists (skipn (length items - fin / 8) ys). split; [auto|].
    split; [apply skipn_length|].
    exists (skipn (length ys) (skipn (fin / 8) items)).
    rewrite <- !app_assoc. f_equal.
    destruct (Nat.le_gt_cases (length ys) (length items - fin / 8)).
    + rewrite firstn_all2, (skipn_all2 ys), app_nil_r by lia. reflexivity.
    + rewrite (skipn_all2 (n := length ys)) by (rewrite skipn_length; lia).
      rewrite app_nil_r. cbn [app]. apply firstn_skipn.
Qed.

Lemma max_items_u8 : max_items u8sz = alloc_max.
Proof. reflexivity. Qed.

(** Contents after the packed bytes have been appended. *)
Lemma commit_bits fin (items items3 : list N) x xs tail :
  8 * (fin / 8) = fin -> fin <= 8 * length items ->
  items3 = firstn (fin / 8) items ++ packs 0 0%N (x :: xs) ++ tail ->
  exists tail', bits_of items3 = firstn fin (bits_of items) ++ (x :: xs) ++ tail'.
Proof.
  intros Hf Hl ->. destruct (packs_bits (x :: xs) 0 0%N) as [pad Hp]; [auto|lia|].
  exists (pad ++ bits_of tail).
  rewrite !bits_of_app, bits_of_firstn, Hf, Hp. cbn [firstn app].
  rewrite <- app_assoc. reflexivity.
Qed.

Definition ends_as (o : outcome) (e : fin) : Prop :=
  match e with FStop => o = ODone | FBoom => o = OPanic end.

Lemma skipn_cons_nth {A} n (l : list A) x r : skipn n l = x :: r ->
  n < length l /\ l = firstn n l ++ x :: r.
Proof.
  intros H. split.
  - destruct (Nat.lt_ge_cases n (length l)); auto.
    rewrite skipn_all2 in H by lia. discriminate.
  - rewrite <- H. symmetry; apply firstn_skipn.
Qed.

Lemma skipn_nil_length {A} n (l : list A) : skipn n l = [] -> length l <= n.
Proof.
  intros H. pose proof (skipn_length n l) as E. rewrite H in E. cbn in E. lia.
Qed.

(** What is left of an iterator after the first phases is still affordable. *)
Lemma fill_affords {R} lim used : forall k (it : iter bool R) byte bits byte' bits' it' p,
  bm_fill k it byte bits = (byte', bits', it', p) -> p = false ->
  affords (fun _ => 1%N) 1 lim used it -> affords (fun _ => 1%N) 1 lim used it'.
Proof.
  induction k as [|k IH]; intros it byte bits byte' bits' it' p; cbn [bm_fill].
  - intros E _ H; inversion E; subst; auto.
  - destruct (it_next it) as [[b| |] it1] eqn:En; intros E Hp H.
    + apply (IH _ _ _ _ _ _ _ E Hp). apply (affords_next_yield _ _ _ _ _ _ _ H) in En.
      eapply affords_mono; [| | |exact En]; try (intros; cbv beta; lia).
    + apply (IH _ _ _ _ _ _ _ E Hp). apply (affords_next_stop _ _ _ _ _ _ H En).
    + inversion E; subst; discriminate.
Qed.
Lemma phase1_affords {R} lim used b (it : iter bool R) b1 it1 :
  bm_phase1 b it = (b1, it1, false) ->
  affords (fun _ => 1%N) 1 lim used it -> affords (fun _ => 1%N) 1 lim used it1.
Proof.
  unfold bm_phase1. destruct (Nat.eqb _ _); [intros E H; inversion E; subst; auto|].
  destruct (nth_error _ _); [|intros E H; inversion E; subst; auto].
  destruct (bm_fill _ it _ _) as [[[byte' bits'] it'] p] eqn:Hf.
  intros E H; inversion E; subst. eapply fill_affords; eauto.
Qed.
Lemma overwrite_affords {R} lim used : forall rest (it : iter N R) over it' p,
  bm_overwrite rest it = (over, it', p) -> p = false ->
  affords (fun _ => 1%N) 1 lim used it -> affords (fun _ => 1%N) 1 lim used it'.
Proof.
  induction rest as [|old rest IH]; intros it over it' p; cbn [bm_overwrite].
  - intros E _ H; inversion E; subst; auto.
  - destruct (it_next it) as [[b| |] it1] eqn:En.
    + destruct (bm_overwrite rest it1) as [[r2 it2] p2] eqn:E2. intros E Hp H; inversion E; subst.
      apply (IH _ _ _ _ E2 eq_refl). apply (affords_next_yield _ _ _ _ _ _ _ H) in En.
      eapply affords_mono; [| | |exact En]; try (intros; cbv beta; lia).
    + intros E _ H; inversion E; subst. apply (affords_next_stop _ _ _ _ _ _ H En).
    + intros E Hp; inversion E; subst; discriminate.
Qed.

Lemma bm_extend_spec {R} b (it : iter bool R) xs e r b' r' o :
  bm_ok b -> run it = (xs, e, r) -> bm_extend b it = (b', r', o) ->
  bm_ok b' /\ bm_off b' = bm_off b /\
  length (v_items (bm_buf b')) <= length (v_items (bm_buf b)) + length xs /\
  (exists k, k <= length xs /\ bm_abs b' = bm_abs b ++ firstn k xs /\
        (k = length xs \/ k < 8 /\ (bm_off b + bm_bits b + k) mod 8 = 0)) /\
  match o with
  | ODone => e = FStop /\ r' = r /\ bm_abs b' = bm_abs b ++ xs
  | OErr => False
  | OPanic =>
      bm_abs b' = bm_abs b ++ firstn ((8 - (bm_off b + bm_bits b) mod 8) mod 8) xs
  | OAbort => True
  end /\
  (affords (fun _ => 1%N) 1 alloc_max
     (lenN (v_items (bm_buf b))) it -> ends_as o e) /\
  (affords (fun _ => 1%N) 1 isize_max
     (lenN (v_items (bm_buf b))) it -> o = OPanic -> e = FBoom).
Proof.
  intros Hok Hr0. unfold bm_extend.
  assert (Hc : cut (it_fuse it)) by apply fuse_cut.
  assert (Hr : run (it_fuse it) = (xs, e, r)) by (rewrite run_fuse; auto).
  destruct (bm_phase1 b (it_fuse it)) as [[b1 it1] p1] eqn:Hp1.
  destruct (phase1_spec _ _ _ _ _ _ _ _ Hok Hc Hr Hp1)
    as (m & tail & Hmin & Hcap & Hlen & Hoff & Hbits & Hfin & HB & Hp).
  assert (Hm : m <= length xs) by lia.
  assert (Hm8 : m < 8) by (pose proof (Nat.mod_upper_bound (8 - (bm_off b + bm_bits b) mod 8) 8); lia).
  assert (Hfm : firstn ((8 - (bm_off b + bm_bits b) mod 8) mod 8) xs = firstn m xs).
  { rewrite Hmin. symmetry. rewrite <- firstn_firstn, firstn_all. reflexivity. }
  assert (Haf : forall lim, p1 = false ->
    affords (fun _ => 1%N) 1 lim
      (lenN (v_items (bm_buf b))) it ->
    affords (fun _ => 1%N) 1 lim (lenN (v_items (bm_buf b))) it1).
  { intros lim -> H. apply (phase1_affords _ _ _ _ _ _ Hp1). apply affords_fuse. exact H. }
  clear Hp1 Hc Hr. destruct Hok as [Hv Hb].
  set (B := bits_of (v_items (bm_buf b))) in *.
  assert (HlB : bm_off b + bm_bits b <= length B) by (unfold B; rewrite bits_of_length; lia).
  assert (Hlm : length (firstn m xs) = m) by (rewrite firstn_length; lia).
  assert (Habs1 : bm_abs b1 = bm_abs b ++ firstn m xs).
  { unfold bm_abs. rewrite Hbits, Hoff. rewrite <- Hlm at 1. eapply abs_append; eauto. }
  assert (Hv1 : vec_ok u8sz (bm_buf b1)).
  { destruct Hv as [V1 V2]. split; rewrite ?Hcap; auto. unfold lenN in *; rewrite Hlen; auto. }
  assert (Hok1 : bm_ok b1) by (split; auto).
  destruct p1.
  { destruct Hp as (-> & Hm' & <-). intros E; inversion E; subst b' r' o.
    split; [auto|]. split; [auto|]. split; [lia|]. split; [exists m; split; [lia|]; split; [auto|left; lia]|].
    split; [rewrite Hfm; exact Habs1|]. split; [intros _; reflexivity|auto]. }
  destruct Hp as (Hc1 & Hr1 & Hal).
  destruct (it_next it1) as [ev it2] eqn:En. destruct ev as [first| |].
  - pose proof (run_next_yield _ _ _ En) as Hr2. rewrite Hr1 in Hr2.
    destruct (run it2) as [[xs2 e2] r2] eqn:Hrun2. cbn [fst snd] in Hr2.
    assert (Hsk : skipn m xs = first :: xs2) by congruence.
    assert (e2 = e) by congruence. assert (r2 = r) by congruence. subst e2 r2. clear Hr2.
    pose proof (cut_next_yield _ _ _ Hc1 En) as Hc2.
    destruct (skipn_cons_nth _ _ _ _ Hsk) as [Hml Hxs].
    specialize (Hal Hml).
    destruct (tail_run first it2 xs2 e r Hc2 Hrun2) as (Hcp & ys & Hrp & Hys & Hyl).
    set (packed := it_packed (it_inspect count_item 0 (it_chain_once first it2))) in *.
    destruct (bm_overwrite (skipn ((bm_off b1 + bm_bits b1) / 8) (v_items (bm_buf b1))) packed)
      as [[over packed'] p2] eqn:Ho.
    destruct (phase2_spec b1 packed ys e _ over packed' p2 Hv1 Hfin Hal Hcp Hrp Ho)
      as (L2 & F2 & Hp2).
    set (fin := bm_off b1 + bm_bits b1) in *.
    set (items := v_items (bm_buf b1)) in *.
    set (buf2 := Vec (firstn (fin / 8) items ++ over) (v_cap (bm_buf b1))).
    assert (Hv2 : vec_ok u8sz buf2).
    { destruct Hv1 as [V1 V2]. split; cbn; auto. unfold lenN in *; rewrite L2; auto. }
    assert (Habs2 : forall buf bits, firstn fin (bits_of (v_items buf)) = firstn fin (bits_of items) ->
               bits = bm_bits b1 ->
               bm_abs (Bitmap buf bits (bm_off b1)) = bm_abs b1).
    { intros buf bits HF ->. unfold bm_abs; cbn.
      rewrite !firstn_skipn_comm. fold fin items. rewrite HF; auto. }
    destruct p2.
    { destruct Hp2 as (-> & Hs). intros E; inversion E; subst b' r' o; clear E.
      split; [split; cbn; [auto|rewrite L2; exact Hfin]|]. split; [auto|].
      split; [cbn; rewrite L2; lia|].
      split; [exists m; split; [lia|]; split; [rewrite Habs2; auto|];
        right; split; [exact Hm8|]; rewrite <- Nat.add_assoc, <- Hbits, <- Hoff; exact Hal|].
      split; [rewrite Hfm, Habs2; auto|]. split; [intros _; reflexivity|auto]. }
    destruct Hp2 as (zs & Hrz & Hlz & tl & Htl).
    assert (Hzl : length zs <= length xs).
    { assert (length xs2 + S m = length xs).
      { rewrite <- (firstn_skipn m xs), app_length, Hlm, Hsk. cbn [length]. lia. }
      lia. }
    assert (Hl3 : length (v_items buf2) = length (v_items (bm_buf b)))
      by (cbn; rewrite L2; lia).
    destruct (vec_extend u8sz buf2 packed') as [[buf3 [r3 consumed]] o3] eqn:Hx.
    destruct (vec_extend_spec _ _ _ _ _ _ _ _ _ Hv2 Hrz Hx) as (Hv3 & _ & (k3 & Hk3 & Hi3) & Ho3).
    assert (Hl4 : length (v_items buf3) <= length (v_items (bm_buf b)) + length xs)
      by (rewrite Hi3, app_length, firstn_length; lia).
    assert (Hlive : affords (fun _ => 1%N) 1 alloc_max
      (lenN (v_items (bm_buf b))) it -> ends_as o3 e).
    { intros Hs. specialize (Haf _ eq_refl Hs).
      destruct (vec_extend_live u8sz buf2 packed' _ _ _ Hv2 Hrz) as [cap Hl].
      - rewrite max_items_u8. apply (overwrite_affords _ _ _ _ _ _ _ Ho eq_refl).
        apply affords_packed, affords_inspect, affords_chain_once; [lia|].
        replace (lenN (v_items buf2)) with (lenN (v_items (bm_buf b)))
          by (unfold lenN; rewrite Hl3; auto).
        apply (affords_next_yield _ _ _ _ _ _ _ Haf En).
      - rewrite Hl in Hx. inversion Hx; subst. destruct e; reflexivity. }
    assert (Hcalm : affords (fun _ => 1%N) 1 isize_max
      (lenN (v_items (bm_buf b))) it -> o3 = OPanic -> e = FBoom).
    { intros Hs. specialize (Haf _ eq_refl Hs). intros Ho3'.
      eapply (vec_extend_calm u8sz buf2 packed'); eauto.
      change (cap_limit u8sz) with isize_max. apply (overwrite_affords _ _ _ _ _ _ _ Ho eq_refl).
      apply affords_packed, affords_inspect, affords_chain_once; [lia|].
      replace (lenN (v_items buf2)) with (lenN (v_items (bm_buf b)))
        by (unfold lenN; rewrite Hl3; auto).
      apply (affords_next_yield _ _ _ _ _ _ _ Haf En). }
    destruct o3; try contradiction.
    + destruct Ho3 as (-> & Hrr & Hi). inversion Hrr; subst r3 consumed.
      cbn [v_items buf2] in Hi. rewrite Htl, Hys in Hi by reflexivity.
      destruct (commit_bits fin items (v_items buf3) first xs2 tl) as [tail' Hbits3];
        auto; [lia|].
      intros E; inversion E; subst b' r' o; clear E.
      assert (Habs3 : bm_abs (Bitmap buf3 (bm_bits b1 + S (length xs2)) (bm_off b1))
              = bm_abs b ++ xs).
      { rewrite Hxs at 1. rewrite app_assoc, <- Habs1. unfold bm_abs; cbn [bm_bits bm_off bm_buf].
        change (S (length xs2)) with (length (first :: xs2)).
        eapply abs_append; [|exact Hbits3]. rewrite bits_of_length. exact Hfin. }
      split.
      { split; cbn [bm_bits bm_off bm_buf]; [auto|].
        rewrite <- bits_of_length, Hbits3, !app_length, firstn_length, bits_of_length.
        cbn [length]. fold fin items in Hfin. unfold fin in *. lia. }
      split; [auto|]. split; [auto|]. split; [exists (length xs); rewrite firstn_all; auto|].
      split; [auto|]. auto.
    + intros E; inversion E; subst b' r' o; clear E.
      assert (HF : firstn fin (bits_of (v_items buf3)) = firstn fin (bits_of items)).
      { rewrite Hi3. cbn [v_items buf2]. rewrite bits_of_app, firstn_app_le; auto.
        rewrite bits_of_length, L2. exact Hfin. }
      split.
      { split; cbn [bm_bits bm_off bm_buf]; [auto|].
        rewrite Hi3. cbn [v_items buf2]. rewrite app_length, L2. unfold fin, items in *. lia. }
      split; [auto|]. split; [auto|]. split; [exists m; split; [lia|]; split; [rewrite Habs2; auto|];
        right; split; [exact Hm8|]; rewrite <- Nat.add_assoc, <- Hbits, <- Hoff; exact Hal|].
      split; [rewrite Hfm, Habs2; auto|]. auto.
    + intros E; inversion E; subst b' r' o; clear E.
      assert (HF : firstn fin (bits_of (v_items buf3)) = firstn fin (bits_of items)).
      { rewrite Hi3. cbn [v_items buf2]. rewrite bits_of_app, firstn_app_le; auto.
        rewrite bits_of_length, L2. exact Hfin. }
      split.
      { split; cbn [bm_bits bm_off bm_buf]; [auto|].
        rewrite Hi3. cbn [v_items buf2]. rewrite app_length, L2. unfold fin, items in *. lia. }
      split; [auto|]. split; [auto|]. split; [exists m; split; [lia|]; split; [rewrite Habs2; auto|];
        right; split; [exact Hm8|]; rewrite <- Nat.add_assoc, <- Hbits, <- Hoff; exact Hal|].
      split; [auto|]. auto.
  - pose proof (run_next_stop _ _ En) as Hr2. rewrite Hr1 in Hr2.
    inversion Hr2. intros E; inversion E; subst b' r' o; clear E.
    assert (Hml : length xs <= m) by (apply skipn_nil_length; auto).
    split; [auto|]. split; [auto|]. split; [lia|]. split; [exists m; split; [lia|]; split; [auto|left; lia]|].
    assert (firstn m xs = xs) as Hx.
    { rewrite <- (firstn_skipn m xs) at 2. rewrite H0, app_nil_r; auto. }
    rewrite Hx in Habs1. split; [auto|]. split; [intros _; reflexivity|intros _; try discriminate; reflexivity].
  - pose proof (run_next_boom _ _ En) as Hr2. rewrite Hr1 in Hr2.
    inversion Hr2. intros E; inversion E; subst b' r' o; clear E.
    assert (Hml : length xs <= m) by (apply skipn_nil_length; auto).
    split; [auto|]. split; [auto|]. split; [lia|]. split; [exists m; split; [lia|]; split; [auto|left; lia]|]. split; [rewrite Hfm; exact Habs1|].
    split; [intros _; reflexivity|auto].
Qed.

Lemma firstn_firstn_le {A} n (l : list A) m : m <= n -> firstn m (firstn n l) = firstn m l.
Proof. intros H. rewrite firstn_firstn. f_equal. lia. Qed.

Lemma bm_try_extend_spec {R} b (it : iter bool R) w xs e r b' r' o w' :
  bm_ok b -> run it = (xs, e, r) -> bm_try_extend b it w = (b', r', o, w') ->
  bm_ok b' /\ bm_off b' = bm_off b /\
  length (v_items (bm_buf b')) <= length (v_items (bm_buf b)) + length xs /\
  match o with
  | ODone => e = FStop /\ r' = r /\ bm_abs b' = bm_abs b ++ xs
  | OErr => bm_abs b' = bm_abs b
  | OPanic => e = FBoom /\ r' = r /\
      bm_abs b' = bm_abs b ++ firstn ((8 - (bm_off b + bm_bits b) mod 8) mod 8) xs /\
      exists k, k <= length xs /\ bm_abs b' = bm_abs b ++ firstn k xs /\
        (k = length xs \/ k < 8 /\ (bm_off b + bm_bits b + k) mod 8 = 0)
  | OAbort => False
  end.
Proof.
  intros Hok Hr0. unfold bm_try_extend.
  assert (Hc : cut (it_fuse it)) by apply fuse_cut.
  assert (Hr : run (it_fuse it) = (xs, e, r)) by (rewrite run_fuse; auto).
  destruct (bm_phase1 b (it_fuse it)) as [[b1 it1] p1] eqn:Hp1.
  destruct (phase1_spec _ _ _ _ _ _ _ _ Hok Hc Hr Hp1)
    as (m & tail & Hmin & Hcap & Hlen & Hoff & Hbits & Hfin & HB & Hp).
  assert (Hm : m <= length xs) by lia.
  assert (Hm8 : m < 8) by (pose proof (Nat.mod_upper_bound (8 - (bm_off b + bm_bits b) mod 8) 8); lia).
  assert (Hfm : firstn ((8 - (bm_off b + bm_bits b) mod 8) mod 8) xs = firstn m xs).
  { rewrite Hmin. symmetry. rewrite <- firstn_firstn, firstn_all. reflexivity. }
  clear Hp1 Hc Hr. destruct Hok as [Hv Hb].
  set (B := bits_of (v_items (bm_buf b))) in *.
  assert (HlB : bm_off b + bm_bits b <= length B) by (unfold B; rewrite bits_of_length; lia).
  assert (Hlm : length (firstn m xs) = m) by (rewrite firstn_length; lia).
  assert (Habs1 : bm_abs b1 = bm_abs b ++ firstn m xs).
  { unfold bm_abs. rewrite Hbits, Hoff. rewrite <- Hlm at 1. eapply abs_append; eauto. }
  assert (Hv1 : vec_ok u8sz (bm_buf b1)).
  { destruct Hv as [V1 V2]. split; rewrite ?Hcap; auto. unfold lenN in *; rewrite Hlen; auto. }
  assert (Hok1 : bm_ok b1) by (split; auto).
  destruct p1.
  { destruct Hp as (-> & Hm' & <-). intros E; inversion E; subst b' r' o.
    split; [auto|]. split; [auto|]. split; [lia|]. split; [auto|]. split; [auto|].
    split; [congruence|]. exists m; split; [lia|]; split; [auto|left; lia]. }
  destruct Hp as (Hc1 & Hr1 & Hal).
  destruct (it_next it1) as [ev it2] eqn:En. destruct ev as [first| |].
  - pose proof (run_next_yield _ _ _ En) as Hr2. rewrite Hr1 in Hr2.
    destruct (run it2) as [[xs2 e2] r2] eqn:Hrun2. cbn [fst snd] in Hr2.
    assert (Hsk : skipn m xs = first :: xs2) by congruence.
    assert (e2 = e) by congruence. assert (r2 = r) by congruence. subst e2 r2. clear Hr2.
    pose proof (cut_next_yield _ _ _ Hc1 En) as Hc2.
    destruct (skipn_cons_nth _ _ _ _ Hsk) as [Hml Hxs].
    specialize (Hal Hml).
    destruct (tail_run first it2 xs2 e r Hc2 Hrun2) as (Hcp & ys & Hrp & Hys & Hyl).
    set (packed := it_packed (it_inspect count_item 0 (it_chain_once first it2))) in *.
    destruct (bm_overwrite (skipn ((bm_off b1 + bm_bits b1) / 8) (v_items (bm_buf b1))) packed)
      as [[over packed'] p2] eqn:Ho.
    destruct (phase2_spec b1 packed ys e _ over packed' p2 Hv1 Hfin Hal Hcp Hrp Ho)
      as (L2 & F2 & Hp2).
    set (fin := bm_off b1 + bm_bits b1) in *.
    set (items := v_items (bm_buf b1)) in *.
    set (buf2 := Vec (firstn (fin / 8) items ++ over) (v_cap (bm_buf b1))).
    assert (Hv2 : vec_ok u8sz buf2).
    { destruct Hv1 as [V1 V2]. split; cbn; auto. unfold lenN in *; rewrite L2; auto. }
    assert (Habs2 : forall buf bits, firstn fin (bits_of (v_items buf)) = firstn fin (bits_of items) ->
               bits = bm_bits b1 ->
               bm_abs (Bitmap buf bits (bm_off b1)) = bm_abs b1).
    { intros buf bits HF ->. unfold bm_abs; cbn.
      rewrite !firstn_skipn_comm. fold fin items. rewrite HF; auto. }
    destruct p2.
    { destruct Hp2 as (-> & Hs). intros E; inversion E; subst b' r' o; clear E.
      rewrite Hs. cbn [fst].
      split; [split; cbn; [auto|rewrite L2; exact Hfin]|]. split; [auto|].
      split; [cbn; rewrite L2; lia|].
      split; [auto|]. split; [auto|].
      split; [rewrite Hfm, Habs2; auto|]. exists m; split; [lia|]; split; [rewrite Habs2; auto|];
        right; split; [exact Hm8|]; rewrite <- Nat.add_assoc, <- Hbits, <- Hoff; exact Hal. }
    destruct Hp2 as (zs & Hrz & Hlz & tl & Htl).
    assert (Hzl : length zs <= length xs).
    { assert (length xs2 + S m = length xs).
      { rewrite <- (firstn_skipn m xs), app_length, Hlm, Hsk. cbn [length]. lia. }
      lia. }
    assert (Hl3 : length (v_items buf2) = length (v_items (bm_buf b)))
      by (cbn; rewrite L2; lia).
    destruct (vec_try_extend u8sz buf2 packed' w) as [[[buf3 [r3 consumed]] o3] w3] eqn:Hx.
    destruct (vec_try_extend_spec _ _ _ _ _ _ _ _ _ _ _ Hv2 Hrz Hx) as (Hv3 & _ & Ho3).
    assert (Hl4 : length (v_items buf3) <= length (v_items (bm_buf b)) + length xs).
    { destruct o3; try contradiction;
        try (destruct Ho3 as (_ & _ & Ho3)); rewrite Ho3, ?app_length; lia. }
    destruct o3; try contradiction.
    + destruct Ho3 as (-> & Hrr & Hi). inversion Hrr; subst r3 consumed.
      cbn [v_items buf2] in Hi. rewrite Htl, Hys in Hi by reflexivity.
      destruct (commit_bits fin items (v_items buf3) first xs2 tl) as [tail' Hbits3];
        auto; [lia|].
      intros E; inversion E; subst b' r' o; clear E.
      assert (Habs3 : bm_abs (Bitmap buf3 (bm_bits b1 + S (length xs2)) (bm_off b1))
              = bm_abs b ++ xs).
      { rewrite Hxs at 1. rewrite app_assoc, <- Habs1. unfold bm_abs; cbn [bm_bits bm_off bm_buf].
        change (S (length xs2)) with (length (first :: xs2)).
        eapply abs_append; [|exact Hbits3]. rewrite bits_of_length. exact Hfin. }
      split.
      { split; cbn [bm_bits bm_off bm_buf]; [auto|].
        rewrite <- bits_of_length, Hbits3, !app_length, firstn_length, bits_of_length.
        cbn [length]. fold fin items in Hfin. unfold fin in *. lia. }
      split; [auto|]. auto.
    + (* refused: bits back to the original length *)
      intros E; inversion E; subst b' r' o; clear E.
      assert (HF : firstn fin (bits_of (v_items buf3)) = firstn fin (bits_of items))
        by (rewrite Ho3; exact F2).
      assert (Hfe : fin = (bm_off b + bm_bits b) + m) by (unfold fin; lia).
      assert (HF0 : firstn (bm_off b + bm_bits b) (bits_of (v_items buf3))
                    = firstn (bm_off b + bm_bits b) B).
      { rewrite <- (firstn_firstn_le fin _ (bm_off b + bm_bits b)) by lia.
        rewrite HF, firstn_firstn_le by lia. rewrite HB.
        rewrite firstn_app_exact; auto. rewrite firstn_length. lia. }
      split.
      { split; cbn [bm_bits bm_off bm_buf]; [auto|].
        rewrite Ho3. cbn [v_items buf2]. rewrite L2. unfold fin, items in *. lia. }
      split; [auto|]. split; [auto|]. unfold bm_abs; cbn [bm_bits bm_off bm_buf].
      rewrite Hoff, !firstn_skipn_comm, HF0. reflexivity.
    + destruct Ho3 as (-> & Hrr & Hi). inversion Hrr; subst r3 consumed.
      intros E; inversion E; subst b' r' o; clear E.
      assert (HF : firstn fin (bits_of (v_items buf3)) = firstn fin (bits_of items)).
      { rewrite Hi. cbn [v_items buf2]. rewrite bits_of_app, firstn_app_le; auto.
        rewrite bits_of_length, L2. exact Hfin. }
      split.
      { split; cbn [bm_bits bm_off bm_buf]; [auto|].
        rewrite Hi. cbn [v_items buf2]. rewrite app_length, L2. unfold fin, items in *. lia. }
      split; [auto|]. split; [auto|]. split; [auto|]. split; [auto|].
      split; [rewrite Hfm, Habs2; auto|]. exists m; split; [lia|]; split; [rewrite Habs2; auto|];
        right; split; [exact Hm8|]; rewrite <- Nat.add_assoc, <- Hbits, <- Hoff; exact Hal.
  - pose proof (run_next_stop _ _ En) as Hr2. rewrite Hr1 in Hr2.
    inversion Hr2. intros E; inversion E; subst b' r' o; clear E.
    assert (Hml : length xs <= m) by (apply skipn_nil_length; auto).
    split; [auto|]. split; [auto|]. split; [lia|].
    assert (firstn m xs = xs) as Hx.
    { rewrite <- (firstn_skipn m xs) at 2. rewrite H0, app_nil_r; auto. }
    rewrite Hx in Habs1. auto.
  - pose proof (run_next_boom _ _ En) as Hr2. rewrite Hr1 in Hr2.
    inversion Hr2. intros E; inversion E; subst b' r' o; clear E.
    assert (Hml : length xs <= m) by (apply skipn_nil_length; auto).
    split; [auto|]. split; [auto|]. split; [lia|]. split; [auto|]. split; [auto|].
    split; [congruence|]. exists m; split; [lia|]; split; [auto|left; lia].
Qed.
