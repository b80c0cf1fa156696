(** * Packing and unpacking bits *)
From Coq Require Import List NArith Bool Arith Lia ZifyBool ZifyNat ZifyN.
From Verif Require Import Base Iter Spec VecModel BitmapModel IterLemmas BitmapLemmas BitmapLemmas2 HonestLemmas
  Reach SpecLaid FactsLaid UnpackModel SpecPack.
Import ListNotations.

Local Arguments N.add : simpl never.
Local Arguments N.mul : simpl never.

(** ** Bytes *)

Definition zeros_after (n : nat) : nat := 8 * ((n + 7) / 8) - n.
Lemma byte_bits_value l : length l <= 8 -> byte_bits (bits_value l) = l ++ repeat false (8 - length l).
Proof.
  do 8 (destruct l as [|[] l]; [intros _; reflexivity| |]);
    (destruct l; [intros _; reflexivity|cbn [length]; lia]).
Qed.
Lemma bits_of_arrow l : bits_of (arrow_bits l) = l ++ repeat false (zeros_after (length l)).
Proof.
  induction l as [l H|pre l H IH] using eights_ind.
  - destruct l as [|b l]; [reflexivity|]. rewrite arrow_bits_short by (cbn [length] in *; lia).
    cbn [bits_of flat_map]. rewrite app_nil_r, byte_bits_value by lia. do 2 f_equal.
    unfold zeros_after. cbn [length] in *. lia.
  - rewrite arrow_bits_eight by exact H.
    change (bits_of (bits_value pre :: arrow_bits l))
      with (byte_bits (bits_value pre) ++ bits_of (arrow_bits l)).
    rewrite IH, byte_bits_value by lia. rewrite H. cbn [Nat.sub repeat].
    rewrite app_nil_r, <- app_assoc. do 3 f_equal. unfold zeros_after. rewrite app_length, H. lia.
Qed.
Lemma value_byte_bits b : (b < 256)%N -> bits_value (byte_bits b) = b.
Proof.
  intros H.
  assert (E : forallb (fun k => (bits_value (byte_bits (N.of_nat k)) =? N.of_nat k)%N) (seq 0 256) = true)
    by (vm_compute; reflexivity).
  rewrite forallb_forall in E. specialize (E (N.to_nat b)). rewrite N2Nat.id in E.
  apply N.eqb_eq, E, in_seq. lia.
Qed.
Lemma arrow_bits_bits l : Forall (fun b => b < 256)%N l -> arrow_bits (bits_of l) = l.
Proof.
  induction 1 as [|b l Hb Hl IH]; [reflexivity|].
  change (bits_of (b :: l)) with (byte_bits b ++ bits_of l).
  rewrite arrow_bits_eight by reflexivity. rewrite value_byte_bits, IH by exact Hb. reflexivity.
Qed.

(** ** BitPacked *)

Lemma packed_items R (it : iter bool R) : fused it -> fin_of it = FStop ->
  items_of (it_packed it) = arrow_bits (items_of it) /\ fin_of (it_packed it) = FStop.
Proof.
  unfold items_of, fin_of. intros Hf. destruct (run it) as [[xs e] r] eqn:Hr. cbn [fst snd]. intros ->.
  destruct (run_packed it xs FStop r Hr Hf) as (ys & r' & -> & _ & H & _). cbn [fst snd].
  rewrite (H eq_refl), arrow_packs. auto.
Qed.
(** Only whole bytes precede a panic. *)
Lemma packed_boom_t {R} (t : trace bool R) : forall pos acc cur n xs r,
  run_t t cur = (xs, FBoom, r) -> pos < 8 ->
  exists r', run_t (packed_t pos acc cur t) n =
    (firstn ((pos + length xs) / 8) (packs pos acc xs), FBoom, r').
Proof.
  induction t as [|[[b| |] n'] t IH]; intros pos acc cur n xs r Hr Hp; try discriminate.
  - cbn [run_t] in Hr. destruct (run_t t n') as [[xs1 e1] r1] eqn:Hr1.
    assert (xs = b :: xs1 /\ e1 = FBoom) as [-> ->] by (split; congruence).
    cbn [packed_t packs length]. destruct (Nat.eqb_spec pos 7) as [->|Hne].
    + destruct (IH 0 0%N n' (packed_node n') xs1 r1 Hr1) as [r' E]; [lia|].
      cbn [run_t]. rewrite E. exists r'.
      replace ((7 + S (length xs1)) / 8) with (S (length xs1 / 8)) by lia. reflexivity.
    + destruct (IH (S pos) (match pos with
                 | O => b2n b
                 | _ => if b then N.lor acc (N.shiftl 1 (N.of_nat pos)) else acc
                 end) n' n xs1 r1 Hr1) as [r' E]; [lia|].
      rewrite E. exists r'. replace (S pos + length xs1) with (pos + S (length xs1)) by lia. reflexivity.
  - cbn [run_t] in Hr. assert (xs = []) as -> by congruence. cbn [packed_t run_t length].
    replace ((pos + 0) / 8) with 0 by lia. eexists; reflexivity.
Qed.
Lemma packed_panic R (it : iter bool R) : fin_of it = FBoom ->
  items_of (it_packed it) = firstn (length (items_of it) / 8) (arrow_bits (items_of it)) /\
  fin_of (it_packed it) = FBoom.
Proof.
  unfold items_of, fin_of, run, it_packed. cbn [it_tr it_node].
  destruct (run_t (it_tr it) (it_node it)) as [[xs e] r] eqn:Hr. cbn [fst snd]. intros ->.
  destruct (packed_boom_t (it_tr it) 0 0%N (it_node it) (packed_node (it_node it)) xs r Hr) as [r' E]; [lia|].
  rewrite E. cbn [fst snd]. rewrite arrow_packs. auto.
Qed.

Section Hints.
  Variable P : hint -> nat -> Prop.
  Hypothesis HP : forall lo hi n, P (lo, hi) n ->
    P (bytes_for_bits lo, match hi with Some u => Some (bytes_for_bits u) | None => None end) ((n + 7) / 8).

  Lemma packed_node_hint {R} (n : node R) k : P (nd_hint n) k -> P (nd_hint (packed_node n)) ((k + 7) / 8).
  Proof. unfold packed_node. destruct (nd_hint n) as [lo hi]. cbn [nd_hint]. apply HP. Qed.
  Lemma packed_len {R} (t : trace bool R) pos acc cur n0 xs r : run_t t cur = (xs, FStop, r) ->
    fused_t t -> pos < 8 ->
    length (fst (fst (run_t (packed_t pos acc cur t) n0))) = (pos + length xs + 7) / 8.
  Proof.
    intros Hr Hf Hp. destruct (packed_run t pos acc cur cur xs FStop r Hr Hf Hp)
      as (ys & r' & E & _ & Hy & _); [auto|].
    rewrite (run_t_items _ n0 cur), E. cbn [fst]. rewrite (Hy eq_refl). apply packs_length, Hp.
  Qed.
  Lemma stops_fused {R} (t : trace bool R) : Forall (fun p => fst p = Stop) t -> fused_t t.
  Proof. destruct t as [|[e n] t]; intros H; [exact I|]. inversion H as [|? ? He Ht]; subst. cbn in He. subst e. exact Ht. Qed.
  Lemma stops_run {R} (t : trace bool R) n : Forall (fun p => fst p = Stop) t ->
    exists r, run_t t n = ([], FStop, r).
  Proof.
    destruct t as [|[e n'] t]; intros H; [eexists; reflexivity|].
    inversion H as [|? ? He Ht]; subst. cbn in He. subst e. eexists; reflexivity.
  Qed.

  Lemma packed_hints_stops {R} : forall (t : trace bool R) pos acc cur n0,
    Forall (fun p => fst p = Stop) t -> hints_t P t cur -> pos < 8 ->
    P (nd_hint n0) ((pos + 7) / 8) -> hints_t P (packed_t pos acc cur t) n0.
  Proof.
    assert (L : forall (t : trace bool R) pos acc cur n0, Forall (fun p => fst p = Stop) t -> pos < 8 ->
      length (fst (fst (run_t (packed_t pos acc cur t) n0))) = (pos + 7) / 8).
    { intros t pos acc cur n0 Hs Hp. destruct (stops_run t cur Hs) as [r Hr].
      rewrite (packed_len t pos acc cur n0 [] r Hr (stops_fused t Hs) Hp).
      cbn [length]. rewrite Nat.add_0_r. reflexivity. }
    induction t as [|[e n'] t IH]; intros pos acc cur n0 Hs Hh Hp H0.
    - pose proof (L [] pos acc cur n0 Hs Hp) as HL. cbn [packed_t] in *.
      destruct pos as [|pos]; (split; [rewrite HL; exact H0|]); [exact I|].
      split; [|exact I]. cbn [run_t fst length]. apply (packed_node_hint cur 0). apply Hh.
    - pose proof (L _ pos acc cur n0 Hs Hp) as HL. inversion Hs as [|? ? He Ht]; subst.
      cbn [fst] in He. subst e. destruct Hh as [_ Hh].
      assert (Hn : P (nd_hint n') 0).
      { destruct (stops_run t n' Ht) as [r Hr]. destruct t; cbn [hints_t] in Hh;
          [|rewrite Hr in Hh]; apply Hh. }
      assert (Hc : hints_t P (packed_t 0 0%N n' t) (packed_node n')).
      { apply IH; auto; [lia|]. exact (packed_node_hint n' 0 Hn). }
      cbn [packed_t] in *. destruct pos as [|pos].
      + split; [rewrite HL; exact H0|exact Hc].
      + destruct (Nat.eqb_spec (S pos) 7) as [E|Hne].
        * split; [rewrite HL; exact H0|exact Hc].
        * apply IH; auto; [lia|]. replace ((S (S pos) + 7) / 8) with ((S pos + 7) / 8) by lia. exact H0.
  Qed.
  Lemma packed_hints_t {R} : forall (t : trace bool R) pos acc cur n0 xs r,
    run_t t cur = (xs, FStop, r) -> fused_t t -> hints_t P t cur -> pos < 8 ->
    P (nd_hint n0) ((pos + length xs + 7) / 8) -> hints_t P (packed_t pos acc cur t) n0.
  Proof.
    induction t as [|[[b| |] n'] t IH]; intros pos acc cur n0 xs r Hr Hf Hh Hp H0.
    - assert (xs = []) as -> by (cbn in Hr; congruence).
      cbn [length] in H0. rewrite Nat.add_0_r in H0. apply packed_hints_stops; auto.
    - pose proof (packed_len _ pos acc cur n0 xs r Hr Hf Hp) as HL.
      cbn [run_t] in Hr. destruct (run_t t n') as [[xs1 e1] r1] eqn:Hr1.
      assert (xs = b :: xs1 /\ e1 = FStop) as [-> ->] by (split; congruence).
      cbn [fused_t] in Hf. destruct Hh as [_ Hh]. cbn [packed_t length] in *.
      destruct (Nat.eqb_spec pos 7) as [->|Hne].
      + split; [rewrite HL; exact H0|].
        apply (IH 0 0%N n' (packed_node n') xs1 r1 Hr1 Hf Hh); [lia|].
        apply packed_node_hint.
        destruct t as [|[e2 n2] t]; cbn [hints_t] in Hh; rewrite Hr1 in Hh; apply Hh.
      + apply (IH (S pos) _ n' n0 xs1 r1 Hr1 Hf Hh); [lia|].
        replace (S pos + length xs1) with (pos + S (length xs1)) by lia. exact H0.
    - assert (xs = []) as -> by (cbn in Hr; congruence).
      cbn [length] in H0. rewrite Nat.add_0_r in H0.
      apply packed_hints_stops; auto; constructor; auto.
    - discriminate.
  Qed.
  Lemma packed_hints R (it : iter bool R) : fused it -> fin_of it = FStop -> hints P it ->
    hints P (it_packed it).
  Proof.
    unfold fin_of, run. intros Hf Hn Hh.
    destruct (run_t (it_tr it) (it_node it)) as [[xs e] r] eqn:Hr. cbn [fst snd] in Hn. subst e.
    apply (packed_hints_t (it_tr it) 0 0%N (it_node it) _ xs r Hr Hf Hh); [lia|].
    apply packed_node_hint. unfold hints in Hh.
    destruct (it_tr it) as [|[e2 n2] t]; cbn [hints_t] in Hh; rewrite Hr in Hh; apply Hh.
  Qed.
End Hints.
Lemma packed_bounds R (it : iter bool R) : fused it -> fin_of it = FStop -> hints bounds it ->
  hints bounds (it_packed it).
Proof.
  apply packed_hints. unfold bounds, bytes_for_bits. cbn [fst snd]. intros lo hi n [H1 H2].
  split; [lia|]. destruct hi as [u|]; [|discriminate]. intros v Hv. injection Hv as <-.
  specialize (H2 u eq_refl). lia.
Qed.
Lemma packed_exactly R (it : iter bool R) : fused it -> fin_of it = FStop -> hints exactly it ->
  hints exactly (it_packed it).
Proof.
  apply packed_hints. unfold exactly, bytes_for_bits. intros lo hi n E.
  assert (lo = N.of_nat n /\ hi = Some (N.of_nat n)) as [-> ->] by (split; congruence).
  f_equal; [lia|]. f_equal. lia.
Qed.

(** ** BitUnpacked *)

Lemma unpacked_yields bytes : (lenN bytes <= alloc_max)%N ->
  yields (fun u => Ret (unpacked_next u)) unpacked_hint Ret (unpacked_new bytes) (bits_of bytes).
Proof.
  intros Hl.
  assert (Hok : up_ok (unpacked_new bytes)).
  { exists 0. split; [lia|]. split; [reflexivity|]. intros H. destruct (H eq_refl). }
  assert (Hb : up_bits (unpacked_new bytes) = bits_of bytes) by reflexivity.
  assert (Hr : (lenN (up_rest (unpacked_new bytes)) <= alloc_max)%N) by exact Hl.
  revert Hok Hb Hr. generalize (unpacked_new bytes). generalize (bits_of bytes). clear bytes Hl.
  assert (Hn : forall n u, up_ok u -> up_bits u = [] -> (lenN (up_rest u) <= alloc_max)%N ->
    nones (fun u => Ret (unpacked_next u)) unpacked_hint n u).
  { induction n as [|n IH]; intros u Hok Hb Hr; cbn [nones];
      (split; [rewrite up_hint_spec, Hb by assumption; reflexivity|]); [exact I|].
    pose proof (up_next_spec u Hok) as H. rewrite Hb in H. destruct H as (u' & E & H1 & H2 & H3).
    exists u'. rewrite E. split; [reflexivity|]. apply IH; auto. unfold lenN in *. lia. }
  induction l as [|x l IH]; intros u Hok Hb Hr; cbn [yields].
  - intros n. apply Hn; assumption.
  - split; [rewrite up_hint_spec, Hb by assumption; reflexivity|].
    pose proof (up_next_spec u Hok) as H. rewrite Hb in H. destruct H as (u' & E & H1 & H2 & H3).
    exists x, u'. rewrite E. split; [reflexivity|]. split; [reflexivity|].
    apply IH; auto. unfold lenN in *. lia.
Qed.

(** ** BitUnpacked over any iterator *)

Lemma unpacked_bits_run {R} byte (n : node R) t m : forall k, k <= 8 ->
  exists r, run_t (unpacked_bits k byte n ++ t) m =
    (skipn (8 - k) (byte_bits byte) ++ fst (fst (run_t t n)), snd (fst (run_t t n)), r).
Proof.
  intros k. revert m. induction k as [|k IH]; intros m Hk.
  - cbn [unpacked_bits app Nat.sub skipn]. rewrite (run_t_items t n m).
    assert (E : snd (fst (run_t t n)) = snd (fst (run_t t m))).
    { destruct t as [|[[a| |] n1] t]; reflexivity. }
    rewrite E. destruct (run_t t m) as [[xs e] r]. exists r. reflexivity.
  - destruct (IH (unpacked_node (N.of_nat k) n)) as [r E]; [lia|].
    cbn [unpacked_bits app run_t]. rewrite E. exists r. f_equal. f_equal.
    assert (Hb : forall i, i < 8 -> skipn i (byte_bits byte) =
      N.testbit byte (N.of_nat i) :: skipn (S i) (byte_bits byte)).
    { intros i Hi. do 8 (destruct i as [|i]; [reflexivity|]). lia. }
    rewrite (Hb (8 - S k)) by lia. replace (S (8 - S k)) with (8 - k) by lia.
    replace (7 - k) with (8 - S k) by lia. cbn [app]. f_equal. apply land_bit.
Qed.
Lemma unpacked_run {R} : forall (t : trace N R) n m,
  exists r, run_t (unpacked_t t) m =
    (bits_of (fst (fst (run_t t n))), snd (fst (run_t t n)), r).
Proof.
  induction t as [|[[b| |] n'] t IH]; intros n m; try (eexists; reflexivity).
  destruct (unpacked_bits_run b n' (unpacked_t t) m 8) as [r E]; [lia|].
  destruct (IH n' n') as [r1 E1]. exists r. cbn [unpacked_t]. rewrite E, E1. cbn [fst snd Nat.sub skipn].
  cbn [run_t]. destruct (run_t t n') as [[xs e] r2]. reflexivity.
Qed.
Lemma unpacked_items R (it : iter N R) :
  items_of (it_unpacked it) = bits_of (items_of it) /\ fin_of (it_unpacked it) = fin_of it.
Proof.
  unfold items_of, fin_of, run, it_unpacked. cbn [it_tr it_node].
  destruct (unpacked_run (it_tr it) (it_node it) (unpacked_node 0 (it_node it))) as [r ->].
  split; reflexivity.
Qed.
Section UnpackedHints.
  Variables P Q : hint -> nat -> Prop.
  Hypothesis HPQ : forall {R} (n : node R) k m, k < 8 -> P (nd_hint n) m ->
    Q (nd_hint (unpacked_node (N.of_nat k) n)) (8 * m + k).

  Lemma hints_head {A R} (p : hint -> nat -> Prop) (t : trace A R) n :
    hints_t p t n -> p (nd_hint n) (length (fst (fst (run_t t n)))).
  Proof. destruct t; intros [H _]; exact H. Qed.
  Lemma hints_yield {A R} (p : hint -> nat -> Prop) (a : A) n' (t : trace A R) n :
    p (nd_hint n) (length (fst (fst (run_t ((Yield a, n') :: t) n)))) -> hints_t p t n' ->
    hints_t p ((Yield a, n') :: t) n.
  Proof. intros H1 H2. split; assumption. Qed.
  Lemma bits_hints {R} b (n : node R) t q : hints_t Q t (unpacked_node 0 n) ->
    P (nd_hint n) q -> length (fst (fst (run_t t n))) = 8 * q ->
    forall k m, k < 8 -> Q (nd_hint m) (8 * q + S k) -> hints_t Q (unpacked_bits (S k) b n ++ t) m.
  Proof.
    intros Ht Hp Hl. induction k as [|k IH]; intros m Hk Hq.
    - destruct (unpacked_bits_run b n t m 1) as [r E]; [lia|]. cbn [unpacked_bits app] in E |- *.
      split; [rewrite E|exact Ht]. cbn [fst]. rewrite app_length, Hl. rewrite Nat.add_comm. exact Hq.
    - destruct (unpacked_bits_run b n t m (S (S k))) as [r E]; [lia|].
      apply (f_equal (fun x => length (fst (fst x)))) in E.
      apply hints_yield; [eapply eq_rect; [|symmetry; exact E]|].
      + cbn [fst]. rewrite app_length, skipn_length, Hl.
        change (length (byte_bits b)) with 8. replace (8 - (8 - S (S k)) + 8 * q) with (8 * q + S (S k)) by lia.
        exact Hq.
      + apply IH; [lia|]. apply HPQ; [lia|exact Hp].
  Qed.
  Lemma unpacked_hints_t {R} : forall (t : trace N R) n,
    hints_t P t n -> hints_t Q (unpacked_t t) (unpacked_node 0 n).
  Proof.
    induction t as [|[[b| |] n'] t IH]; intros n Hh.
    - split; [|exact I]. apply (HPQ n 0 0); [lia|apply Hh].
    - destruct Hh as [Hh Ht]. specialize (IH n' Ht). apply hints_head in Ht.
      destruct (unpacked_run t n' n') as [r E].
      cbn [run_t] in Hh. destruct (run_t t n') as [[xs e] r1] eqn:Hr. cbn [fst length] in Hh, Ht, E.
      assert (Hl : length (fst (fst (run_t (unpacked_t t) n'))) = 8 * length xs)
        by (rewrite E; apply bits_of_length).
      cbn [unpacked_t]. apply (bits_hints b n' (unpacked_t t) (length xs) IH Ht Hl 7); [lia|].
      replace (8 * length xs + 8) with (8 * S (length xs) + 0) by lia. apply (HPQ n 0); [lia|exact Hh].
    - destruct Hh as [Hh Ht]. split; [apply (HPQ n 0 0); [lia|exact Hh]|]. apply IH, Ht.
    - destruct Hh as [Hh _]. split; [apply (HPQ n 0 0); [lia|exact Hh]|exact I].
  Qed.
End UnpackedHints.
Lemma unpacked_bounds R (it : iter N R) : hints bounds it -> hints bounds (it_unpacked it).
Proof.
  apply unpacked_hints_t. intros S n k m Hk. unfold unpacked_node, bounds.
  destruct (nd_hint n) as [lo hi]. cbn [nd_hint fst snd]. intros [H1 H2].
  unfold sat_add, sat_mul, checked_mul, checked_add. split; [lia|].
  destruct hi as [u|]; [|discriminate]. specialize (H2 u eq_refl). intros v.
  destruct (N.leb_spec (u * 8) usize_max) as [H|]; [|discriminate].
  destruct (N.leb_spec (u * 8 + N.of_nat k) usize_max) as [H'|]; [|discriminate].
  intros E. injection E as <-. lia.
Qed.
Lemma unpacked_exactly R (it : iter N R) :
  hints (fun h n => exactly h n /\ (8 * N.of_nat n + 7 <= usize_max)%N) it ->
  hints exactly (it_unpacked it).
Proof.
  apply unpacked_hints_t. intros S n k m Hk. unfold unpacked_node, exactly.
  destruct (nd_hint n) as [lo hi]. cbn [nd_hint]. intros [E Hm].
  assert (lo = N.of_nat m /\ hi = Some (N.of_nat m)) as [-> ->] by (split; congruence).
  unfold sat_add, sat_mul, checked_mul, checked_add.
  destruct (N.leb_spec (N.of_nat m * 8) usize_max) as [H|]; [|lia].
  destruct (N.leb_spec (N.of_nat m * 8 + N.of_nat k) usize_max) as [H'|]; [|lia].
  f_equal; [lia|]. f_equal. lia.
Qed.
