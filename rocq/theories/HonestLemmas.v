(** * Adapters keep size hints honest. *)
From Coq Require Import List NArith ZArith Bool Arith Lia ZifyBool ZifyNat ZifyN.
From Verif Require Import Base Iter Spec VecModel BitmapModel ValidityModel IterLemmas VecLemmas
  BitmapLemmas.
Import ListNotations.

Ltac Zify.zify_post_hook ::= Z.div_mod_to_equations.

Lemma run_t_node {A R} (t : trace A R) n n' : fst (run_t t n) = fst (run_t t n').
Proof. destruct t as [|[[a| |] n1] t]; reflexivity. Qed.
Lemma run_t_items {A R} (t : trace A R) n n' : fst (fst (run_t t n)) = fst (fst (run_t t n')).
Proof. rewrite (run_t_node t n n'). reflexivity. Qed.

Lemma honest_hint {A R} (it : iter A R) xs e r : honest it -> run it = (xs, e, r) ->
  (fst (it_hint it) <= lenN xs)%N.
Proof.
  unfold honest, run, it_hint. destruct it as [n t]; cbn [it_tr it_node].
  intros H E. destruct t as [|p t]; cbn [honest_t] in H; rewrite E in H; apply H.
Qed.
Lemma honest_items {A R} (it : iter A R) : honest it -> (fst (it_hint it) <= lenN (items_of it))%N.
Proof.
  intros H. unfold items_of. destruct (run it) as [[xs e] r] eqn:E. exact (honest_hint it _ _ _ H E).
Qed.
Lemma honest_next_yield {A R} (it it' : iter A R) a : honest it -> it_next it = (Yield a, it') ->
  honest it'.
Proof.
  destruct it as [n [|[e n'] t]]; unfold honest, it_next; cbn; [discriminate|].
  intros H E. injection E as -> <-. cbn. apply H.
Qed.
Lemma honest_next_stop {A R} (it it' : iter A R) : honest it -> it_next it = (Stop, it') ->
  honest it'.
Proof.
  destruct it as [n [|[e n'] t]]; unfold honest, it_next; cbn.
  - intros H E. injection E as <-. exact H.
  - intros H E. injection E as -> <-. cbn. apply H.
Qed.
(** A node with another hint *)
Lemma honest_node {A R} (t : trace A R) n n' : honest_t t n ->
  (fst (nd_hint n') <= lenN (fst (fst (run_t t n))))%N -> honest_t t n'.
Proof.
  intros H G. rewrite (run_t_items t n n') in G.
  destruct t as [|[e n1] t]; cbn [honest_t] in *; (split; [exact G|apply H]).
Qed.

Lemma honest_map {A B R} (f : A -> B) (it : iter A R) : honest it -> honest (it_map f it).
Proof.
  destruct it as [n t]. unfold honest, it_map. cbn [it_tr it_node]. revert n.
  induction t as [|[[a| |] n'] t IH]; intros n; cbn [map_t map honest_t fst snd map_ev run_t];
    intros [H1 H2]; split; auto.
  fold (map_t f t). rewrite (run_map_t f t n'). destruct (run_t t n') as [[xs e] r]. cbn [fst] in *.
  unfold lenN in *. cbn [length] in *. rewrite map_length. exact H1.
Qed.
Lemma honest_inspect {A R S} (f : S -> A -> option S) (it : iter A R) s :
  (forall s a, f s a <> None) -> honest it -> honest (it_inspect f s it).
Proof.
  intros Hf. destruct it as [n t]. unfold honest, it_inspect. cbn [it_tr it_node].
  change (it_hint (Iter n t)) with (nd_hint n). change (it_src (Iter n t)) with (nd_src n).
  assert (L : forall (t : trace A R) (n : node R) h (s : S), lenN (fst (fst (run_t (inspect_t f s t) (Node h (nd_src n, s))))) =
    lenN (fst (fst (run_t t n)))).
  { clear n t s. induction t as [|[[a| |] n'] t IH]; intros n h s; cbn [inspect_t run_t]; auto.
    destruct (f s a) as [s'|] eqn:E; [|destruct (Hf _ _ E)]. cbn [run_t].
    specialize (IH n' (nd_hint n') s').
    destruct (run_t (inspect_t f s' t) _) as [[x1 e1] r1].
    destruct (run_t t n') as [[x2 e2] r2]. cbn [fst] in *.
    rewrite !lenN_cons, IH. reflexivity. }
  revert n s. induction t as [|[[a| |] n'] t IH]; intros n s Hh.
  - exact Hh.
  - pose proof (L ((Yield a, n') :: t) n (nd_hint n) s) as L1.
    destruct Hh as [H1 H2]. cbn [inspect_t] in *.
    destruct (f s a) as [s'|] eqn:E; [|destruct (Hf _ _ E)].
    split; [rewrite L1; exact H1|]. apply (IH n' s'); exact H2.
  - destruct Hh as [H1 H2]. split; [exact H1|]. apply (IH n' s); exact H2.
  - destruct Hh as [H1 H2]. split; [exact H1|exact I].
Qed.
Lemma honest_fuse {A R} (it : iter A R) : honest it -> honest (it_fuse it).
Proof.
  destruct it as [n t]. unfold honest, it_fuse. cbn [it_tr it_node]. revert n.
  induction t as [|[[a| |] n'] t IH]; intros n; cbn [fuse_t honest_t]; intros [H1 H2].
  - auto.
  - split; [|auto].
    assert (E : run_t (fuse_t t) n' = run_t t n') by exact (run_fuse (Iter n' t)).
    cbn [run_t] in *. rewrite E. exact H1.
  - split; [exact H1|]. split; [cbn; lia|exact I].
  - auto.
Qed.
Lemma honest_chain_once {A R} (a : A) (it : iter A R) : honest it -> honest (it_chain_once a it).
Proof.
  intros H. pose proof (honest_items it H) as Hh.
  unfold honest, it_chain_once. destruct (it_hint it) as [lo hi] eqn:E.
  cbn [it_tr it_node honest_t nd_hint fst]. split; [|exact H]. cbn [run_t].
  unfold items_of, run in Hh. destruct (run_t (it_tr it) (it_node it)) as [[xs e] r]. cbn [fst] in *.
  rewrite lenN_cons. unfold sat_add. lia.
Qed.
Lemma honest_list {A} (l : list A) : honest (it_list l).
Proof.
  unfold honest, it_list. cbn [it_tr it_node].
  induction l as [|a l IH]; cbn [list_t honest_t].
  - split; [cbn; lia|exact I].
  - split; [|exact IH]. cbn [run_t nd_hint exact_hint fst].
    rewrite (run_list_t l). unfold lenN. cbn [fst]. lia.
Qed.

(** ** Packed bits *)

Lemma honest_packed_t {R} : forall (t : trace bool R) pos acc cur n0 xs r,
  run_t t cur = (xs, FStop, r) -> cut_t t -> honest_t t cur -> pos < 8 ->
  (fst (nd_hint n0) <= N.of_nat ((pos + length xs + 7) / 8))%N ->
  honest_t (packed_t pos acc cur t) n0.
Proof.
  assert (L : forall (t : trace bool R) pos acc cur n0 xs r,
    run_t t cur = (xs, FStop, r) -> cut_t t -> pos < 8 ->
    lenN (fst (fst (run_t (packed_t pos acc cur t) n0))) = N.of_nat ((pos + length xs + 7) / 8)).
  { intros t pos acc cur n0 xs r Hr Hc Hp.
    destruct (packed_run t pos acc cur cur xs FStop r Hr (cut_fused_t _ Hc) Hp)
      as (ys & r' & E & _ & Hy & _); [auto|].
    rewrite (run_t_items _ n0 cur), E. cbn [fst]. rewrite (Hy eq_refl).
    unfold lenN. rewrite packs_length by exact Hp. reflexivity. }
  assert (PH : forall n : node R, fst (nd_hint (packed_node n)) = bytes_for_bits (fst (nd_hint n))).
  { intros [[lo hi] s]. reflexivity. }
  assert (T0 : forall n : node R, @honest_t bool R [] n -> @honest_t N R [] (packed_node n)).
  { intros n [H _]. split; [|exact I]. rewrite PH. cbn in *. unfold bytes_for_bits. lia. }
  induction t as [|[[b| |] n'] t IH]; intros pos acc cur n0 xs r Hr Hc Hh Hp H0.
  - pose proof (L [] pos acc cur n0 xs r Hr Hc Hp) as HL. cbn [packed_t] in *.
    destruct pos as [|pos]; (split; [rewrite HL; exact H0|]); [exact I|].
    apply T0. exact Hh.
  - pose proof (L _ pos acc cur n0 xs r Hr Hc Hp) as HL.
    cbn [run_t] in Hr. destruct (run_t t n') as [[xs1 e1] r1] eqn:Hr1.
    injection Hr as <- -> ->. cbn [cut_t] in Hc. destruct Hh as [Hh1 Hh2].
    cbn [packed_t] in *. cbn [length] in *.
    destruct (Nat.eqb_spec pos 7) as [->|Hne].
    + split; [rewrite HL; exact H0|].
      apply (IH 0 0%N n' (packed_node n') xs1 r Hr1 Hc Hh2); [lia|]. rewrite PH.
      pose proof (honest_hint (Iter n' t) _ _ _ Hh2 Hr1) as Hx.
      unfold it_hint, lenN in Hx. cbn [it_node] in Hx.
      unfold bytes_for_bits. lia.
    + apply (IH (S pos) _ n' n0 xs1 r Hr1 Hc Hh2); [lia|].
      replace (S pos + length xs1) with (pos + S (length xs1)) by lia. exact H0.
  - pose proof (L _ pos acc cur n0 xs r Hr Hc Hp) as HL.
    cbn [run_t] in Hr. injection Hr as <- <-. cbn [cut_t] in Hc. subst t.
    destruct Hh as [_ Hh2]. specialize (T0 n' Hh2).
    cbn [packed_t] in *. destruct pos as [|pos].
    + split; [rewrite HL; exact H0|exact T0].
    + destruct (Nat.eqb (S pos) 7);
        (split; [rewrite HL; exact H0|exact T0]).
  - cbn [run_t] in Hr. discriminate.
Qed.
Lemma honest_packed {R} (it : iter bool R) xs r : run it = (xs, FStop, r) -> cut it -> honest it ->
  honest (it_packed it).
Proof.
  intros Hr Hc Hh. unfold honest, it_packed. cbn [it_tr it_node].
  apply honest_packed_t with (xs := xs) (r := r); auto; [lia|].
  pose proof (honest_hint it _ _ _ Hh Hr) as Hx. unfold it_hint, lenN in Hx.
  unfold packed_node. destruct (nd_hint (it_node it)) as [lo hi]. cbn [nd_hint fst] in *.
  unfold bytes_for_bits. lia.
Qed.

(** ** Arrays *)

Lemma honest_flatten {A R} w (it : iter (list A) R) :
  Forall (fun x => lenN x = w) (items_of it) -> honest it -> honest (it_flatten w it).
Proof.
  intros Hw Hh. unfold honest, it_flatten. cbn [it_tr it_node].
  destruct it as [n t]. unfold items_of, run, honest in *. cbn [it_tr it_node] in *.
  change (it_hint (Iter n t)) with (nd_hint n).
  assert (C : forall (xs : list (list A)), Forall (fun x => lenN x = w) xs ->
    lenN (concat xs) = (lenN xs * w)%N).
  { induction 1 as [|x xs Hx Hxs IH]; [reflexivity|]. cbn [concat].
    rewrite lenN_app, lenN_cons, IH, Hx. lia. }
  assert (G : forall (t : trace (list A) R) (cur n0 : node R), Forall (fun x => lenN x = w) (fst (fst (run_t t cur))) ->
    honest_t t cur ->
    (fst (nd_hint n0) <= lenN (fst (fst (run_t t cur))) * w)%N ->
    honest_t (flatten_t w cur t) n0).
  { clear n t Hw Hh. induction t as [|[[l| |] n'] t IH]; intros cur n0 Hw Hh H0; cbn [flatten_t].
    - cbn in H0. split; [cbn; lia|]. split; [cbn; lia|exact I].
    - cbn [run_t] in Hw, H0. destruct Hh as [Hh1 Hh2].
      pose proof (IH n') as IHn.
      pose proof (run_flatten_t w t n') as Hrf.
      destruct (run_t t n') as [[xs1 e1] r1] eqn:Hr1. cbn [fst] in *.
      pose proof (Forall_inv Hw) as Hl. pose proof (Forall_inv_tail Hw) as Hw1. cbn in Hl.
      rewrite lenN_cons in H0.
      pose proof (honest_hint (Iter n' t) _ _ _ Hh2 Hr1) as Hx.
      unfold it_hint in Hx. cbn [it_node] in Hx.
      assert (E : forall (l' : list A) n0, (fst (nd_hint n0) <= lenN l' + lenN xs1 * w)%N ->
        honest_t (emit_t w l' n' (flatten_t w n' t)) n0).
      { induction l' as [|a l' IHl]; intros m0 Hm0; cbn [emit_t].
        - apply IHn; auto.
        - assert (Hm1 : honest_t (emit_t w l' n' (flatten_t w n' t))
              (Node (flat_hint w (N.of_nat (length l')) (nd_hint n')) (nd_src n'))).
          { apply IHl. cbn [nd_hint flat_hint fst]. unfold sat_add, sat_mul, lenN.
            fold (lenN xs1). nia. }
          split; [|exact Hm1]. cbn [run_t].
          rewrite (run_emit w l' n' (flatten_t w n' t) _ (concat xs1) e1 r1); auto.
          cbn [fst]. rewrite lenN_cons, lenN_app, (C _ Hw1). rewrite lenN_cons in Hm0. lia. }
      apply E. rewrite Hl. lia.
    - cbn in H0. split; [cbn; lia|]. split; [cbn; lia|exact I].
    - cbn in H0. split; [cbn; lia|exact I]. }
  apply G; auto. cbn [nd_hint flat_hint fst]. unfold sat_add, sat_mul.
  pose proof (honest_items (Iter n t) Hh) as Hx.
  unfold it_hint, items_of, run in Hx. cbn [it_node it_tr] in Hx.
  nia.
Qed.

(** ** Chunks *)

Lemma take_hint {R} k (n : node R) :
  fst (nd_hint (take_node k n)) = N.min (fst (nd_hint n)) (N.of_nat k).
Proof. destruct n as [[lo hi] s]. destruct k; cbn [take_node nd_hint fst]; lia. Qed.
Lemma take_byref_items {A R} : forall (t : trace A R) k nd nd0,
  lenN (fst (fst (run_t (take_t k (byref_t t)) nd0))) =
  N.min (N.of_nat k) (lenN (fst (fst (run_t t nd)))).
Proof.
  induction t as [|[[a| |] n'] t IH]; intros k nd nd0; cbn [byref_t];
    (destruct k as [|k]; [cbn [take_t run_t fst]; rewrite lenN_nil; lia|]);
    cbn [take_t run_t]; try (cbn; lia).
  specialize (IH k n' (take_node k (Node (nd_hint n') (Iter n' t)))).
  destruct (run_t (take_t k (byref_t t)) _) as [[x1 e1] r1].
  destruct (run_t t n') as [[x2 e2] r2]. cbn [fst] in *. rewrite !lenN_cons. lia.
Qed.
Lemma honest_take_byref {A R} k (it : iter A R) : honest it -> honest (it_take k (it_byref it)).
Proof.
  destruct it as [n t]. unfold honest, it_take, it_byref. cbn [it_tr it_node].
  change (it_hint (Iter n t)) with (nd_hint n). intros Hh.
  assert (G : forall (t : trace A R) k n s, honest_t t n ->
    honest_t (take_t k (byref_t t)) (take_node k (Node (nd_hint n) s))).
  { clear n t k Hh. induction t as [|[ev n'] t IH]; intros k n s Hh.
    - destruct Hh as [Hh _]. cbn [byref_t]. destruct k; cbn [take_t honest_t];
        (split; [rewrite take_hint; cbn in *; lia|exact I]).
    - pose proof (take_byref_items ((ev, n') :: t) k n (take_node k (Node (nd_hint n) s))) as L.
      cbn [byref_t] in *. destruct k as [|k].
      + split; [rewrite take_hint; lia|exact I].
      + cbn [take_t] in *. destruct Hh as [Hh1 Hh2]. split.
        * rewrite L, take_hint. cbn [nd_hint]. lia.
        * destruct ev as [a| |]; auto. }
  apply G, Hh.
Qed.
Lemma honest_rest {A R} : forall k (t : trace A R) nd nd0 xs e r ys f it',
  nd_src nd0 = Iter nd t -> honest_t t nd -> run_t t nd = (xs, e, r) -> k <= length xs ->
  run_t (take_t k (byref_t t)) nd0 = (ys, f, it') -> honest it'.
Proof.
  induction k as [|k IH]; intros t nd nd0 xs e r ys f it' Hs Hh Hr Hk E.
  - destruct t; cbn in E; injection E as <- <- <-; rewrite Hs; exact Hh.
  - destruct t as [|[[a| |] n'] t]; cbn [run_t] in Hr;
      try (injection Hr as <- <- <-; cbn in Hk; lia).
    destruct (run_t t n') as [[xs1 e1] r1] eqn:Hr1. injection Hr as <- <- <-.
    cbn [byref_t take_t run_t] in E. destruct Hh as [_ Hh].
    destruct (run_t (take_t k (byref_t t)) (take_node k (Node (nd_hint n') (Iter n' t))))
      as [[ys1 f1] it1] eqn:E1.
    injection E as <- <- <-. cbn [length] in Hk.
    apply (IH t n' (take_node k (Node (nd_hint n') (Iter n' t))) xs1 e1 r1 ys1 f1 it1); auto; [|lia].
    unfold take_node. destruct n' as [[lo hi] s]; reflexivity.
Qed.

(** ** The phases of extending a bitmap *)

Lemma honest_fill {R} : forall k (it : iter bool R) byte bits byte' bits' it',
  honest it -> bm_fill k it byte bits = (byte', bits', it', false) -> honest it'.
Proof.
  induction k as [|k IH]; intros it byte bits byte' bits' it' Hh; cbn [bm_fill].
  - intros E; injection E as <- <- <-; exact Hh.
  - destruct (it_next it) as [[b| |] it1] eqn:En; intros E.
    + eapply IH; [|exact E]. eapply honest_next_yield; eauto.
    + eapply IH; [|exact E]. eapply honest_next_stop; eauto.
    + discriminate.
Qed.
Lemma honest_phase1 {R} b (it : iter bool R) b1 it1 : honest it ->
  bm_phase1 b it = (b1, it1, false) -> honest it1.
Proof.
  intros Hh. unfold bm_phase1. destruct (Nat.eqb _ 0); [intros E; injection E as <- <-; exact Hh|].
  destruct (nth_error _ _) as [byte|]; [|intros E; injection E as <- <-; exact Hh].
  destruct (bm_fill _ _ _ _) as [[[byte' bits'] it'] p] eqn:E1.
  intros E; injection E as <- <- ->. eapply honest_fill; eauto.
Qed.
Lemma honest_overwrite {R} : forall rest (it : iter N R) over it',
  honest it -> bm_overwrite rest it = (over, it', false) -> honest it'.
Proof.
  induction rest as [|old rest IH]; intros it over it' Hh; cbn [bm_overwrite].
  - intros E; injection E as <- <-; exact Hh.
  - destruct (it_next it) as [[b| |] it1] eqn:En.
    + destruct (bm_overwrite rest it1) as [[o1 it2] p1] eqn:Eo.
      intros E; injection E as <- <- ->. eapply IH; [|exact Eo]. eapply honest_next_yield; eauto.
    + intros E; injection E as <- <-. eapply honest_next_stop; eauto.
    + discriminate.
Qed.
