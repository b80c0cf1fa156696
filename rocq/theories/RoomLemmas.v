(** * Adapters keep what iterators promise affordable. *)
From Coq Require Import List NArith ZArith Bool Arith Lia ZifyBool ZifyNat ZifyN.
From Verif Require Import Base Iter Spec VecModel BitmapModel ValidityModel IterLemmas VecLemmas.
Import ListNotations.

Ltac Zify.zify_post_hook ::= Z.div_mod_to_equations.
Local Arguments N.add : simpl never.
Local Arguments N.mul : simpl never.

Lemma affords_used_t {A R} (cost : A -> N) unit lim used (t : trace A R) n :
  affords_t cost unit lim used t n -> (used + unit * fst (nd_hint n) <= lim)%N.
Proof. destruct t; intros H; apply H. Qed.
Lemma affords_used {A R} (cost : A -> N) unit lim used (it : iter A R) :
  affords cost unit lim used it -> (used + unit * fst (it_hint it) <= lim)%N.
Proof. apply affords_used_t. Qed.
Lemma affords_node {A R} (cost : A -> N) unit lim used (t : trace A R) n n' :
  affords_t cost unit lim used t n -> (used + unit * fst (nd_hint n') <= lim)%N ->
  affords_t cost unit lim used t n'.
Proof. destruct t as [|p t]; cbn [affords_t]; intros [_ H] H'; auto. Qed.

(** Cheaper items *)
Lemma affords_mono_t {A R} (cost cost' : A -> N) unit unit' lim lim' (t : trace A R) :
  (forall a, cost' a <= cost a)%N -> (unit' <= unit)%N ->
  forall used used' n, (used' + lim <= used + lim')%N ->
  affords_t cost unit lim used t n -> affords_t cost' unit' lim' used' t n.
Proof.
  intros Hc Hu. induction t as [|[[a| |] n'] t IH]; intros used used' n Hl; cbn [affords_t];
    intros [H1 H2]; (assert ((unit' * fst (nd_hint n) <= unit * fst (nd_hint n))%N)
      by (apply N.mul_le_mono_r; auto)); (split; [lia|]); auto.
  - apply (IH (used + cost a)%N (used' + cost' a)%N n'); [specialize (Hc a); lia|exact H2].
  - apply (IH used used' n'); auto.
Qed.
Lemma affords_mono {A R} (cost cost' : A -> N) unit unit' lim lim' used used' (it : iter A R) :
  (forall a, cost' a <= cost a)%N -> (unit' <= unit)%N -> (used' + lim <= used + lim')%N ->
  affords cost unit lim used it -> affords cost' unit' lim' used' it.
Proof. intros. eapply affords_mono_t; eauto. Qed.

(** The items fit. *)
Lemma affords_items_t {A R} (cost : A -> N) unit lim (t : trace A R) : forall used n,
  affords_t cost unit lim used t n ->
  (used + fold_right (fun x => N.add (cost x)) 0%N (fst (fst (run_t t n))) <= lim)%N.
Proof.
  induction t as [|[[a| |] n'] t IH]; intros used n; cbn [affords_t run_t]; intros [H1 H2];
    try (cbn [fst fold_right]; lia).
  specialize (IH _ _ H2). destruct (run_t t n') as [[xs e] r]. cbn [fst fold_right] in *. lia.
Qed.
Lemma affords_items {A R} (cost : A -> N) unit lim used (it : iter A R) :
  affords cost unit lim used it ->
  (used + fold_right (fun x => N.add (cost x)) 0%N (items_of it) <= lim)%N.
Proof. apply affords_items_t. Qed.

(** Honest iterators that do not panic promise no more than they yield. *)
Lemma affords_honest_t {A R} (cost : A -> N) unit lim (t : trace A R) : forall used n,
  fused_t t -> honest_t t n ->
  Forall (fun x => (unit <= cost x)%N) (fst (fst (run_t t n))) ->
  (used + fold_right (fun x => N.add (cost x)) 0%N (fst (fst (run_t t n))) <= lim)%N ->
  affords_t cost unit lim used t n.
Proof.
  assert (L : forall l, Forall (fun x => (unit <= cost x)%N) l ->
    (unit * lenN l <= fold_right (fun x => N.add (cost x)) 0%N l)%N).
  { intros l Hl. induction Hl as [|y l Hy Hl IH]; cbn [fold_right]; [unfold lenN; cbn; lia|].
    rewrite lenN_cons, N.mul_add_distr_l, N.mul_1_r. lia. }
  assert (Stops : forall (t : trace A R) used n, Forall (fun p => fst p = Stop) t -> honest_t t n ->
    (used <= lim)%N -> affords_t cost unit lim used t n).
  { clear t. induction t as [|[e n'] t' IH]; intros used n Hf Hh Hu.
    - destruct Hh as [Hh _]. cbn in Hh. split; [|exact I].
      assert (fst (nd_hint n) = 0%N) as -> by lia. lia.
    - assert (e = Stop) as -> by (inversion Hf; subst; auto). destruct Hh as [H1 H2].
      cbn in H1. split.
      + assert (fst (nd_hint n) = 0%N) as -> by lia. lia.
      + apply IH; auto. inversion Hf; auto. }
  induction t as [|[[a| |] n'] t IH]; intros used n Hf Hh Hx Hl.
  - apply Stops; auto. cbn in Hl. lia.
  - destruct Hh as [H1 H2]. split.
    + pose proof (L _ Hx) as HL.
      assert ((unit * fst (nd_hint n) <= unit * lenN (fst (fst (run_t ((Yield a, n') :: t) n))))%N)
        by (apply N.mul_le_mono_l; exact H1). lia.
    + cbn [run_t] in Hx, Hl. specialize (IH (used + cost a)%N n' Hf H2).
      destruct (run_t t n') as [[xs e] r]. cbn [fst fold_right] in *. apply IH.
      * inversion Hx; auto.
      * lia.
  - apply (Stops ((Stop, n') :: t)); [constructor; auto|exact Hh|]. cbn in Hl. lia.
  - destruct Hh as [H1 H2]. cbn in H1, Hl. split; [|exact I].
    assert (fst (nd_hint n) = 0%N) as -> by lia. lia.
Qed.
Lemma affords_honest {A R} (cost : A -> N) unit lim used (it : iter A R) :
  fused it -> honest it -> Forall (fun x => (unit <= cost x)%N) (items_of it) ->
  (used + fold_right (fun x => N.add (cost x)) 0%N (items_of it) <= lim)%N ->
  affords cost unit lim used it.
Proof. apply affords_honest_t. Qed.

(** An iterator without promises that panics after [xs]. *)
Lemma affords_boom {A} (f : A -> N) unit lim used xs :
  (used + fold_right (fun x => N.add (f x)) 0%N xs <= lim)%N ->
  affords f unit lim used (let n := Node (0%N, None) tt in
    Iter n (map (fun x => (Yield x, n)) xs ++ [(Boom, n)])).
Proof.
  unfold affords. cbn [it_tr it_node]. revert used.
  induction xs as [|x xs IH]; intros used H; cbn [map app affords_t nd_hint fst fold_right] in *.
  - split; [lia|exact I].
  - split; [lia|]. apply IH. lia.
Qed.

(** ** Adapters *)

Lemma affords_next_yield {A R} (cost : A -> N) unit lim used (it it' : iter A R) a :
  affords cost unit lim used it -> it_next it = (Yield a, it') ->
  affords cost unit lim (used + cost a) it'.
Proof.
  destruct it as [n [|[e n'] t]]; unfold affords, it_next; cbn; [discriminate|].
  intros H E. injection E as -> <-. cbn. apply H.
Qed.
Lemma affords_next_stop {A R} (cost : A -> N) unit lim used (it it' : iter A R) :
  affords cost unit lim used it -> it_next it = (Stop, it') -> affords cost unit lim used it'.
Proof.
  destruct it as [n [|[e n'] t]]; unfold affords, it_next; cbn.
  - intros H E. injection E as <-. exact H.
  - intros H E. injection E as -> <-. cbn. apply H.
Qed.

Lemma affords_map {A B R} (f : A -> B) (cost : A -> N) (cost' : B -> N) unit unit' lim lim' used used'
  (it : iter A R) :
  (forall a, cost' (f a) <= cost a)%N -> (unit' <= unit)%N -> (used' + lim <= used + lim')%N ->
  affords cost unit lim used it -> affords cost' unit' lim' used' (it_map f it).
Proof.
  intros Hc Hu. destruct it as [n t]. unfold affords, it_map. cbn [it_tr it_node].
  revert used used' n. induction t as [|[[a| |] n'] t IH]; intros used used' n Hl;
    cbn [map_t map affords_t fst snd map_ev];
    intros [H1 H2]; (assert ((unit' * fst (nd_hint n) <= unit * fst (nd_hint n))%N)
      by (apply N.mul_le_mono_r; auto)); (split; [lia|]); auto.
  - apply (IH (used + cost a)%N (used' + cost' (f a))%N n'); [specialize (Hc a); lia|exact H2].
  - apply (IH used used' n'); auto.
Qed.
Lemma affords_inspect {A R S} (f : S -> A -> option S) (cost : A -> N) unit lim used (it : iter A R) s :
  affords cost unit lim used it -> affords cost unit lim used (it_inspect f s it).
Proof.
  destruct it as [n t]. unfold affords, it_inspect. cbn [it_tr it_node].
  change (it_hint (Iter n t)) with (nd_hint n). change (it_src (Iter n t)) with (nd_src n).
  revert used n s. induction t as [|[[a| |] n'] t IH]; intros used n s; cbn [inspect_t].
  - auto.
  - cbn [affords_t]. intros [H1 H2]. destruct (f s a); (split; [exact H1|]); auto.
  - cbn [affords_t]. intros [H1 H2]. split; [exact H1|]. auto.
  - auto.
Qed.
Lemma affords_fuse {A R} (cost : A -> N) unit lim used (it : iter A R) :
  affords cost unit lim used it -> affords cost unit lim used (it_fuse it).
Proof.
  destruct it as [n t]. unfold affords, it_fuse. cbn [it_tr it_node]. revert used n.
  induction t as [|[[a| |] n'] t IH]; intros used n; cbn [fuse_t affords_t]; intros [H1 H2];
    (split; [exact H1|]); auto.
  split; [|exact I]. cbn [nd_hint fst]. apply affords_used_t in H2. lia.
Qed.
Lemma affords_byref {A R} (cost : A -> N) unit lim used (it : iter A R) :
  affords cost unit lim used it -> affords cost unit lim used (it_byref it).
Proof.
  destruct it as [n t]. unfold affords, it_byref. cbn [it_tr it_node].
  change (it_hint (Iter n t)) with (nd_hint n). generalize (Iter n t) as i. revert used n.
  induction t as [|[[a| |] n'] t IH]; intros used n i; cbn [byref_t affords_t nd_hint]; intros [H1 H2];
    (split; [exact H1|]); auto.
Qed.
Lemma affords_take {A R} (cost : A -> N) unit lim k used (it : iter A R) :
  affords cost unit lim used it -> affords cost unit lim used (it_take k it).
Proof.
  destruct it as [n t]. unfold affords, it_take. cbn [it_tr it_node].
  assert (T : forall k (n : node R) used, (used + unit * fst (nd_hint n) <= lim)%N ->
    (used + unit * fst (nd_hint (take_node k n)) <= lim)%N).
  { intros k0 n0 u0. unfold take_node. destruct (nd_hint n0) as [lo hi]. cbn [fst].
    destruct k0; cbn [nd_hint fst]; intros H; [lia|].
    assert (unit * N.min lo (N.of_nat (S k0)) <= unit * lo)%N by (apply N.mul_le_mono_l; lia). lia. }
  revert used n k. induction t as [|[e n'] t IH]; intros used n k H.
  - destruct H as [H1 _]. assert (take_t k (@nil (ev A * node R)) = []) as -> by (destruct k; auto).
    split; [apply T; auto|exact I].
  - destruct k as [|k]; cbn [take_t]; [split; [apply T; apply H|exact I]|].
    destruct e; destruct H as [H1 H2]; (split; [apply T; auto|]); auto.
Qed.
Lemma affords_chain_once {A R} (cost : A -> N) unit lim used (it : iter A R) a :
  (unit <= cost a)%N ->
  affords cost unit lim (used + cost a) it -> affords cost unit lim used (it_chain_once a it).
Proof.
  intros Hc H. unfold affords, it_chain_once. pose proof (affords_used _ _ _ _ _ H) as Hu.
  destruct (it_hint it) as [lo hi] eqn:E. cbn [it_tr it_node affords_t nd_hint fst] in *.
  split; [|exact H].
  assert (unit * sat_add 1 lo <= unit * (1 + lo))%N by (apply N.mul_le_mono_l; unfold sat_add; lia).
  rewrite N.mul_add_distr_l in *. lia.
Qed.

(** Bytes: at most one byte per bit. *)
Lemma affords_packed {R} lim used (it : iter bool R) :
  affords (fun _ => 1%N) 1 lim used it -> affords (fun _ => 1%N) 1 lim used (it_packed it).
Proof.
  assert (P : forall (n : node R), (fst (nd_hint (packed_node n)) <= fst (nd_hint n))%N).
  { intros n. unfold packed_node. destruct (nd_hint n) as [lo hi]. cbn [nd_hint fst].
    unfold bytes_for_bits. lia. }
  assert (T : forall (t : trace bool R) pos acc cur n used, pos <= 7 ->
    (used + fst (nd_hint n) <= lim)%N ->
    affords_t (fun _ => 1%N) 1 lim (used + N.of_nat (Nat.min pos 1)) t cur ->
    affords_t (fun _ => 1%N) 1 lim used (packed_t pos acc cur t) n).
  { clear it used. induction t as [|[[b| |] n'] t IH]; intros pos acc cur n used Hp Hn H.
    - cbn [packed_t]. destruct pos as [|pos]; [split; [lia|exact I]|].
      split; [lia|]. split; [|exact I]. pose proof (P cur). apply affords_used_t in H. lia.
    - cbn [packed_t]. destruct H as [H1 H2].
      destruct (Nat.eqb_spec pos 7) as [->|Hne].
      + split; [lia|]. pose proof (affords_used_t _ _ _ _ _ _ H2) as H3. cbv beta in H3. pose proof (P n').
        apply IH; [lia|lia|]. eapply affords_mono_t; [| | |exact H2]; try (intros; cbv beta; lia).
      + apply IH; [lia|exact Hn|]. eapply affords_mono_t; [| | |exact H2]; try (intros; cbv beta; lia).
    - cbn [packed_t]. destruct H as [H1 H2].
      pose proof (affords_used_t _ _ _ _ _ _ H2) as H3. cbv beta in H3. pose proof (P n').
      destruct pos as [|pos].
      + split; [lia|]. apply IH; [lia|lia|]. exact H2.
      + destruct (Nat.eqb_spec (S pos) 7) as [E|Hne].
        * split; [lia|]. apply IH; [lia|lia|]. eapply affords_mono_t; [| | |exact H2]; try (intros; cbv beta; lia).
        * apply IH; [lia|exact Hn|]. eapply affords_mono_t; [| | |exact H2]; try (intros; cbv beta; lia).
    - cbn [packed_t]. split; [lia|exact I]. }
  intros H. unfold affords, it_packed. cbn [it_tr it_node]. apply T; [lia| |].
  - pose proof (P (it_node it)). apply affords_used in H. unfold it_hint in H. lia.
  - rewrite N.add_0_r. exact H.
Qed.
