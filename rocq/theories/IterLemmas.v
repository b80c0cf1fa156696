(** * Lemmas about scripts and adapters. *)
From Coq Require Import List NArith ZArith Bool Arith Lia ZifyBool ZifyNat ZifyN.
From Verif Require Import Base Iter Spec.
Import ListNotations.

Lemma run_next_yield {A R} (it it' : iter A R) a :
  it_next it = (Yield a, it') ->
  run it = (a :: fst (fst (run it')), snd (fst (run it')), snd (run it')).
Proof.
  destruct it as [n t]; unfold it_next, run; cbn.
  destruct t as [|[e n'] t]; intros H; [discriminate|].
  inversion H; subst; cbn. destruct (run_t t n') as [[xs e] r]; reflexivity.
Qed.
Lemma run_next_stop {A R} (it it' : iter A R) :
  it_next it = (Stop, it') -> run it = ([], FStop, it_src it').
Proof.
  destruct it as [n t]; unfold it_next, run, it_src; cbn.
  destruct t as [|[e n'] t]; intros H; inversion H; subst; reflexivity.
Qed.
Lemma run_next_boom {A R} (it it' : iter A R) :
  it_next it = (Boom, it') -> run it = ([], FBoom, it_src it').
Proof.
  destruct it as [n t]; unfold it_next, run, it_src; cbn.
  destruct t as [|[e n'] t]; intros H; inversion H; subst; reflexivity.
Qed.

(** [map] *)
Lemma run_map_t {A B R} (f : A -> B) (t : trace A R) n :
  run_t (map_t f t) n =
  (map f (fst (fst (run_t t n))), snd (fst (run_t t n)), snd (run_t t n)).
Proof.
  revert n; induction t as [|[[a| |] n'] t IH]; intros n; cbn; try reflexivity.
  fold (map_t f t). rewrite IH.
  destruct (run_t t n') as [[xs e] r]; reflexivity.
Qed.
Lemma run_map {A B R} (f : A -> B) (it : iter A R) xs e r :
  run it = (xs, e, r) -> run (it_map f it) = (map f xs, e, r).
Proof.
  unfold run; cbn; intros H; rewrite run_map_t, H; reflexivity.
Qed.

(** Scripts with nothing after the first [None]. *)
Fixpoint cut_t {A R} (t : trace A R) : Prop :=
  match t with
  | [] => True
  | (Yield _, _) :: t' => cut_t t'
  | (Stop, _) :: t' => t' = []
  | (Boom, _) :: _ => True
  end.
Definition cut {A R} (it : iter A R) : Prop := cut_t (it_tr it).

Lemma cut_fused_t {A R} (t : trace A R) : cut_t t -> fused_t t.
Proof.
  induction t as [|[[a| |] n'] t IH]; cbn; auto.
  intros ->; constructor.
Qed.
Lemma fuse_cut {A R} (it : iter A R) : cut (it_fuse it).
Proof.
  destruct it as [n t]; unfold cut, it_fuse; cbn.
  induction t as [|[[a| |] n'] t IH]; cbn; auto.
Qed.
Lemma run_fuse {A R} (it : iter A R) : run (it_fuse it) = run it.
Proof.
  destruct it as [n t]; unfold run, it_fuse; cbn.
  revert n; induction t as [|[[a| |] n'] t IH]; intros n; cbn; try reflexivity.
  rewrite IH; reflexivity.
Qed.
Lemma cut_next_yield {A R} (it it' : iter A R) a : cut it ->
  it_next it = (Yield a, it') -> cut it'.
Proof.
  destruct it as [n t]; unfold cut, it_next; cbn.
  destruct t as [|[[b| |] n'] t]; cbn; intros H E; inversion E; subst; cbn; auto.
Qed.
Lemma cut_next_stop {A R} (it it' : iter A R) : cut it ->
  it_next it = (Stop, it') -> it_tr it' = [].
Proof.
  destruct it as [n t]; unfold cut, it_next; cbn.
  destruct t as [|[[b| |] n'] t]; cbn; intros H E; inversion E; subst; cbn; auto.
Qed.
Lemma next_nil {A R} (it : iter A R) : it_tr it = [] -> it_next it = (Stop, it).
Proof. unfold it_next; intros ->; reflexivity. Qed.
Lemma run_nil {A R} (it : iter A R) : it_tr it = [] -> run it = ([], FStop, it_src it).
Proof. unfold run; intros ->; reflexivity. Qed.

(** [once(a).chain(it)] *)
Lemma run_chain_once {A R} (a : A) (it : iter A R) xs e r :
  run it = (xs, e, r) -> run (it_chain_once a it) = (a :: xs, e, r).
Proof.
  unfold run, it_chain_once; destruct (it_hint it); cbn; intros ->; reflexivity.
Qed.
Lemma cut_chain_once {A R} (a : A) (it : iter A R) : cut it -> cut (it_chain_once a it).
Proof. unfold cut, it_chain_once; destruct (it_hint it); cbn; auto. Qed.

(** [inspect] with a closure that does not panic on the items produced *)
Fixpoint insp {A S} (f : S -> A -> option S) (s : S) (xs : list A) : option S :=
  match xs with
  | [] => Some s
  | x :: xs' => match f s x with Some s' => insp f s' xs' | None => None end
  end.
Lemma run_inspect_t {A R S} (f : S -> A -> option S) (t : trace A R) n s s' :
  insp f s (fst (fst (run_t t n))) = Some s' ->
  forall h, run_t (inspect_t f s t) (Node h (nd_src n, s)) =
  (fst (fst (run_t t n)), snd (fst (run_t t n)), (snd (run_t t n), s')).
Proof.
  revert n s; induction t as [|[[a| |] n'] t IH]; intros n s; cbn;
    try (intros E; inversion E; reflexivity).
  destruct (run_t t n') as [[xs e] r] eqn:Hr; cbn.
  destruct (f s a) as [s1|] eqn:Hf; [|discriminate].
  intros E h; cbn. specialize (IH n' s1). rewrite Hr in IH; cbn in IH.
  rewrite (IH E (nd_hint n')). reflexivity.
Qed.
Lemma run_inspect {A R S} (f : S -> A -> option S) (it : iter A R) s s' xs e r :
  run it = (xs, e, r) -> insp f s xs = Some s' ->
  run (it_inspect f s it) = (xs, e, (r, s')).
Proof.
  unfold run, it_inspect; cbn; intros Hr Hi.
  rewrite (run_inspect_t f (it_tr it) (it_node it) s s'); rewrite Hr; auto.
Qed.
Lemma cut_inspect {A R S} (f : S -> A -> option S) (it : iter A R) s :
  cut it -> cut (it_inspect f s it).
Proof.
  destruct it as [n t]; unfold cut, it_inspect; cbn.
  revert s; induction t as [|[[a| |] n'] t IH]; intros s; cbn; auto.
  - destruct (f s a); cbn; auto.
  - intros ->; reflexivity.
Qed.

(** [flatten] *)
Lemma run_emit {A R} w (l : list A) (n : node R) rest n0 :
  forall xs e r, (forall m, nd_src m = nd_src n -> run_t rest m = (xs, e, r)) ->
  (l = [] -> nd_src n0 = nd_src n) ->
  run_t (emit_t w l n rest) n0 = (l ++ xs, e, r).
Proof.
  revert n0; induction l as [|a l IH]; intros n0 xs e r H H0; cbn.
  - apply H; auto.
  - rewrite (IH _ xs e r); auto.
Qed.
Lemma run_flatten_t {A R} w (t : trace (list A) R) cur n0 :
  run_t (flatten_t w cur t) n0 =
  (concat (fst (fst (run_t t cur))), snd (fst (run_t t cur)), snd (run_t t cur)).
Proof.
  revert cur n0; induction t as [|[[l| |] n'] t IH]; intros cur n0; cbn; try reflexivity.
  destruct (run_t t n') as [[xs e] r] eqn:Hr; cbn.
  revert n0. induction l as [|a l IHl]; intros n0; cbn.
  - rewrite IH, Hr; reflexivity.
  - rewrite IHl; reflexivity.
Qed.
Lemma run_flatten {A R} w (it : iter (list A) R) xs e r :
  run it = (xs, e, r) -> run (it_flatten w it) = (concat xs, e, r).
Proof.
  unfold run, it_flatten; cbn; intros H; rewrite run_flatten_t, H; reflexivity.
Qed.
Lemma cut_flatten {A R} w (it : iter (list A) R) : cut (it_flatten w it).
Proof.
  destruct it as [n t]; unfold cut, it_flatten; cbn.
  generalize n as cur; induction t as [|[[l| |] n'] t IH]; intros cur; cbn; auto.
  induction l; cbn; auto.
Qed.

(** lists *)
Lemma run_list_t {A} (l : list A) n : run_t (list_t l) n = (l, FStop, tt).
Proof.
  revert n; induction l as [|a l IH]; intros n; cbn.
  - destruct (nd_src n); reflexivity.
  - rewrite IH; reflexivity.
Qed.
Lemma run_list {A} (l : list A) : run (it_list l) = (l, FStop, tt).
Proof. apply run_list_t. Qed.

(** States of the source from the first terminal call on: [None] may be asked
    for again. *)
Fixpoint after_t {A R} (t : trace A R) (n : node R) : list R :=
  match t with
  | [] => [nd_src n]
  | (Yield _, n') :: t' => after_t t' n'
  | (Stop, n') :: t' => nd_src n' :: map (fun p => nd_src (snd p)) t'
  | (Boom, n') :: t' => [nd_src n']
  end.
Definition after {A R} (it : iter A R) : list R := after_t (it_tr it) (it_node it).

Lemma after_cut_t {A R} (t : trace A R) n : cut_t t ->
  after_t t n = [snd (run_t t n)].
Proof.
  revert n; induction t as [|[[a| |] n'] t IH]; intros n; cbn; auto.
  - intros H; rewrite (IH n' H). destruct (run_t t n') as [[? ?] ?]; reflexivity.
  - intros ->; reflexivity.
Qed.
Lemma after_map_t {A B R} (f : A -> B) (t : trace A R) n :
  after_t (map_t f t) n = after_t t n.
Proof.
  revert n; induction t as [|[[a| |] n'] t IH]; intros n; cbn; auto.
  f_equal. unfold map_t. rewrite map_map. reflexivity.
Qed.
Lemma after_inspect_t {A R S} (f : S -> A -> option S) (t : trace A R) n s s' :
  fused_t t ->
  insp f s (fst (fst (run_t t n))) = Some s' ->
  forall h p, In p (after_t (inspect_t f s t) (Node h (nd_src n, s))) ->
  snd p = s' /\ In (fst p) (after_t t n).
Proof.
  revert n s; induction t as [|[[a| |] n'] t IH]; intros n s; cbn.
  - intros _ E h p [<-|[]]; inversion E; cbn; auto.
  - destruct (run_t t n') as [[xs e] r] eqn:Hr; cbn; intros Hf.
    destruct (f s a) as [s1|] eqn:Hfs; [|discriminate].
    intros E h p Hp. specialize (IH n' s1 Hf). rewrite Hr in IH. cbn in *.
    eapply IH; eauto.
  - intros Hf E h p; inversion E; subst s'. intros [<-|Hp]; cbn; auto.
    clear IH E n.
    assert (snd p = s /\ In (fst p) (map (fun p => nd_src (snd p)) t)) as [? ?]; [|auto].
    clear n' h. induction t as [|[[a| |] n'] t IH]; cbn in *; try contradiction.
    + inversion Hf as [|? ? H]; discriminate H.
    + inversion Hf; subst. destruct Hp as [<-|Hp]; cbn; auto.
      destruct IH; auto.
    + inversion Hf as [|? ? H]; discriminate H.
  - intros _ E h p [<-|[]]; inversion E; cbn; auto.
Qed.
Lemma fused_map_t {A B R} (f : A -> B) (t : trace A R) : fused_t t -> fused_t (map_t f t).
Proof.
  induction t as [|[[a| |] n'] t IH]; cbn; auto.
  clear IH; intros H. induction H as [|p l Hp]; cbn; auto.
  constructor; auto. cbn; rewrite Hp; reflexivity.
Qed.
Lemma fused_inspect_t {A R S} (f : S -> A -> option S) (t : trace A R) s :
  fused_t t -> fused_t (inspect_t f s t).
Proof.
  revert s; induction t as [|[[a| |] n'] t IH]; intros s; cbn; auto.
  - intros H; destruct (f s a); cbn; auto.
  - clear IH; intros H. induction H as [|[e n] l Hp]; cbn; auto.
    cbn in Hp; subst e; constructor; auto.
Qed.
Lemma fused_map {A B R} (f : A -> B) (it : iter A R) : fused it -> fused (it_map f it).
Proof. apply fused_map_t. Qed.
Lemma fused_inspect {A R S} (f : S -> A -> option S) (it : iter A R) s :
  fused it -> fused (it_inspect f s it).
Proof. apply fused_inspect_t. Qed.
Lemma fused_cut {A R} (it : iter A R) : cut it -> fused it.
Proof. apply cut_fused_t. Qed.
Lemma after_cut {A R} (it : iter A R) xs e r : cut it -> run it = (xs, e, r) ->
  after it = [r].
Proof.
  unfold cut, after, run; intros Hc Hr; rewrite after_cut_t, Hr; auto.
Qed.
Lemma after_map {A B R} (f : A -> B) (it : iter A R) : after (it_map f it) = after it.
Proof. apply after_map_t. Qed.
Lemma after_inspect {A R S} (f : S -> A -> option S) (it : iter A R) s s' xs e r :
  fused it -> run it = (xs, e, r) -> insp f s xs = Some s' ->
  forall p, In p (after (it_inspect f s it)) -> snd p = s' /\ In (fst p) (after it).
Proof.
  unfold after, run, it_inspect; cbn; intros Hf Hr Hi p.
  apply after_inspect_t; auto. rewrite Hr; auto.
Qed.
