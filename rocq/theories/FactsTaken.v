(** * Extensions stop calling their iterator when it ends *)
From Coq Require Import List NArith ZArith Bool Arith Lia ZifyBool ZifyNat ZifyN.
From Verif Require Import Base Iter Spec SpecResume SpecTaken VecModel BitmapModel CollModel
  ValidityModel FlattenModel OffsetsModel LayoutModel IterLemmas Laws LawsBase LawsFlatten LawsValidity
  LawsOffsets Reach ReachLemmas.
Import ListNotations.

Definition takes {A R} (it : iter A R) (r : R) : Prop := In r (states it).
Definition tame (K : Coll) : Prop :=
  (forall R c (it : iter (cA K) R) c' r o, k_extend K c it = (c', r, o) -> takes it r) /\
  (forall R c (it : iter (cA K) R) w c' r o w', k_try_extend K c it w = (c', r, o, w') -> takes it r).

Lemma states_first {A R} (t : trace A R) n : In (nd_src n) (states_t t n).
Proof. destruct t as [|[[a| |] n'] t]; cbn; auto. Qed.
Lemma takes_first {A R} (it : iter A R) : takes it (it_src it).
Proof. apply states_first. Qed.
Local Hint Resolve states_first takes_first : core.

(** ** All states of a script *)

Fixpoint srcs_t {A R} (t : trace A R) (n : node R) : list R :=
  nd_src n :: match t with [] => [] | (_, n') :: t' => srcs_t t' n' end.
Definition srcs {A R} (it : iter A R) : list R := srcs_t (it_tr it) (it_node it).
Lemma srcs_first {A R} (t : trace A R) n : In (nd_src n) (srcs_t t n).
Proof. destruct t as [|[e n'] t]; cbn; auto. Qed.
Lemma states_srcs {A R} (t : trace A R) n : incl (states_t t n) (srcs_t t n).
Proof.
  revert n; induction t as [|[[a| |] n'] t IH]; intros n x; cbn; intros [H|H]; auto.
  - right. apply (IH n' x H).
  - destruct H as [<-|[]]. right. apply srcs_first.
  - destruct H as [<-|[]]. right. apply srcs_first.
Qed.
Lemma srcs_fuse {A R} (it : iter A R) : incl (srcs (it_fuse it)) (states it).
Proof.
  unfold srcs, states, it_fuse. cbn [it_tr it_node]. generalize (it_node it).
  induction (it_tr it) as [|[[a| |] n'] t IH]; intros n x; cbn; intros H; auto.
  destruct H as [H|H]; auto. right. exact (IH n' x H).
Qed.
Lemma srcs_next {A R} (it : iter A R) e it' : it_next it = (e, it') -> incl (srcs it') (srcs it).
Proof.
  destruct it as [n t]. unfold it_next, srcs. cbn [it_tr it_node].
  destruct t as [|[e0 n'] t]; intros H; inversion H; subst; cbn [it_tr it_node];
    intros x Hx; [exact Hx|]. cbn. auto.
Qed.
Lemma srcs_once {A R} (a : A) (it : iter A R) x :
  In x (srcs (it_chain_once a it)) -> In x (srcs it).
Proof.
  unfold it_chain_once, srcs. destruct (it_hint it) as [lo hi]. cbn.
  intros [<-|H]; [apply srcs_first|exact H].
Qed.
Lemma srcs_inspect {A R S} (f : S -> A -> option S) s (it : iter A R) x :
  In x (srcs (it_inspect f s it)) -> In (fst x) (srcs it).
Proof.
  unfold it_inspect, srcs. cbn [it_tr it_node]. unfold it_src. revert s. generalize (it_node it), (it_hint it).
  induction (it_tr it) as [|[e n'] t IH]; intros n h s.
  - cbn. intros [<-|[]]; auto.
  - destruct e as [a| |]; cbn [inspect_t srcs_t nd_src].
    + destruct (f s a) as [s'|]; cbn [srcs_t nd_src]; intros [<-|H]; [left; reflexivity| |left; reflexivity|].
      * right. exact (IH n' _ s' H).
      * destruct H as [<-|[]]. right. apply srcs_first.
    + intros [<-|H]; [left; reflexivity|]. right. exact (IH n' _ s H).
    + intros [<-|H]; [left; reflexivity|]. right. exact (IH n' _ s H).
Qed.
Lemma packed_node_src {R} (n : node R) : nd_src (packed_node n) = nd_src n.
Proof. unfold packed_node. destruct (nd_hint n); reflexivity. Qed.
Lemma srcs_packed {R} (it : iter bool R) : incl (srcs (it_packed it)) (srcs it).
Proof.
  unfold it_packed, srcs. cbn [it_tr it_node].
  assert (H : forall (t : trace bool R) pos acc cur (m : node R), nd_src m = nd_src cur \/ True ->
    forall x, In x (srcs_t (packed_t pos acc cur t) m) -> x = nd_src m \/ In x (srcs_t t cur)).
  { induction t as [|[e n] t IH]; intros pos acc cur m _ x.
    - destruct pos; cbn; [intros [H|[]]; auto|]. rewrite packed_node_src. intros [H|[H|[]]]; auto.
    - destruct e as [b| |]; cbn [packed_t].
      + destruct (Nat.eqb pos 7); cbn [srcs_t].
        * intros [H|H]; [auto|]. right. right.
          apply IH in H; [|right; exact I]. rewrite packed_node_src in H. destruct H as [->|H]; auto using srcs_first.
        * intros H. apply IH in H; [|right; exact I]. destruct H as [H|H]; auto. right; right; exact H.
      + destruct pos as [|p].
        * cbn [srcs_t]. intros [H|H]; [auto|]. right. right.
          apply IH in H; [|right; exact I]. rewrite packed_node_src in H. destruct H as [->|H]; auto using srcs_first.
        * destruct (Nat.eqb (S p) 7); cbn [srcs_t].
          -- intros [H|H]; [auto|]. right. right.
             apply IH in H; [|right; exact I]. rewrite packed_node_src in H. destruct H as [->|H]; auto using srcs_first.
          -- intros H. apply IH in H; [|right; exact I]. destruct H as [H|H]; auto. right; right; exact H.
      + cbn [srcs_t]. rewrite packed_node_src. intros [H|[H|[]]]; auto. right. right.
        rewrite <- H. apply srcs_first. }
  intros x Hx. apply H in Hx; [|right; exact I]. rewrite packed_node_src in Hx.
  destruct Hx as [->|Hx]; [apply srcs_first|exact Hx].
Qed.

(** ** Vectors *)

Lemma vec_push_tame {A R} esz (t : trace A R) : forall n v v' r o,
  vec_push_t esz t n v = (v', r, o) -> In r (states_t t n).
Proof.
  induction t as [|[[a| |] n'] t IH]; intros n v v' r o; cbn [vec_push_t states_t].
  - intros H; inversion H; left; reflexivity.
  - destruct (if (_ =? _)%N then _ else (v, ODone)) as [v1 [| | |]]; intros H; try (inversion H; subst; right; apply states_first).
    right. eapply IH, H.
  - intros H; inversion H; subst. right; left; reflexivity.
  - intros H; inversion H; subst. right; left; reflexivity.
Qed.
Lemma vec_try_push_tame {A R} esz len0 (t : trace A R) : forall n v w v' r o w',
  vec_try_push_t esz len0 t n v w = (v', r, o, w') -> In r (states_t t n).
Proof.
  induction t as [|[[a| |] n'] t IH]; intros n v w v' r o w'; cbn [vec_try_push_t states_t].
  - intros H; inversion H; left; reflexivity.
  - destruct (_ =? _)%N.
    + destruct (vec_try_reserve esz v 1 w) as [[v1 [| | |]] w1]; intros H;
        try (inversion H; subst; right; apply states_first).
      right. eapply IH, H.
    + intros H. right. eapply IH, H.
  - intros H; inversion H; subst. right; left; reflexivity.
  - intros H; inversion H; subst. right; left; reflexivity.
Qed.
Lemma vec_try_extend_tame {A R} esz v (it : iter A R) w v' r o w' :
  vec_try_extend esz v it w = (v', r, o, w') -> takes it r.
Proof.
  unfold vec_try_extend. destruct (vec_try_reserve esz v _ w) as [[v1 [| | |]] w1]; intros H;
    try (inversion H; subst; apply takes_first). eapply vec_try_push_tame, H.
Qed.
Lemma vec_tame A a0 esz : tame (vec_coll A a0 esz).
Proof.
  split; cbn.
  - intros R c it c' r o. apply vec_push_tame.
  - intros R c it w c' r o w'. apply vec_try_extend_tame.
Qed.

(** ** Bitmaps *)

Lemma fill_srcs {R} k : forall (it : iter bool R) byte bits byte' bits' it' p,
  bm_fill k it byte bits = (byte', bits', it', p) -> incl (srcs it') (srcs it).
Proof.
  induction k as [|k IH]; intros it byte bits byte' bits' it' p; cbn [bm_fill].
  - intros H; inversion H; subst. apply incl_refl.
  - destruct (it_next it) as [[b| |] it1] eqn:E; intros H.
    + eapply incl_tran; [eapply IH, H|eapply srcs_next, E].
    + eapply incl_tran; [eapply IH, H|eapply srcs_next, E].
    + inversion H; subst. eapply srcs_next, E.
Qed.
Lemma phase1_srcs {R} b (it : iter bool R) b' it' p :
  bm_phase1 b it = (b', it', p) -> incl (srcs it') (srcs it).
Proof.
  unfold bm_phase1. destruct (Nat.eqb _ 0); [intros H; inversion H; subst; apply incl_refl|].
  destruct (nth_error _ _); [|intros H; inversion H; subst; apply incl_refl].
  destruct (bm_fill _ _ _ _) as [[[byte' bits'] it1] p1] eqn:E. intros H; inversion H; subst.
  eapply fill_srcs, E.
Qed.
Lemma overwrite_srcs {R} rest : forall (it : iter N R) rest' it' p,
  bm_overwrite rest it = (rest', it', p) -> incl (srcs it') (srcs it).
Proof.
  induction rest as [|old rest IH]; intros it rest' it' p; cbn [bm_overwrite].
  - intros H; inversion H; subst. apply incl_refl.
  - destruct (it_next it) as [[b| |] it1] eqn:E.
    + destruct (bm_overwrite rest it1) as [[r1 it2] p1] eqn:E1. intros H; inversion H; subst.
      eapply incl_tran; [eapply IH, E1|eapply srcs_next, E].
    + intros H; inversion H; subst. eapply srcs_next, E.
    + intros H; inversion H; subst. eapply srcs_next, E.
Qed.
Lemma packing_srcs {R} first (it2 : iter bool R) x :
  In x (srcs (it_packed (it_inspect count_item 0 (it_chain_once first it2)))) ->
  In (fst x) (srcs it2).
Proof. intros H. apply srcs_packed, srcs_inspect, srcs_once in H. exact H. Qed.
Lemma bm_extend_tame {R} b (it : iter bool R) b' r o : bm_extend b it = (b', r, o) -> takes it r.
Proof.
  unfold bm_extend.
  destruct (bm_phase1 b (it_fuse it)) as [[b1 it1] p1] eqn:E1.
  assert (H1 : incl (srcs it1) (states it))
    by (eapply incl_tran; [eapply phase1_srcs, E1|apply srcs_fuse]).
  destruct p1; [intros H; inversion H; subst; apply H1, srcs_first|].
  destruct (it_next it1) as [[first| |] it2] eqn:E2;
    assert (H2 : incl (srcs it2) (states it))
      by (eapply incl_tran; [eapply srcs_next, E2|exact H1]).
  + destruct (bm_overwrite _ _) as [[over packed'] p2] eqn:E3.
    apply overwrite_srcs in E3.
    destruct p2; [intros H; inversion H; subst; apply H2; eapply packing_srcs, E3, srcs_first|].
    destruct (vec_extend _ _ packed') as [[buf3 [r3 n3]] o3] eqn:E4.
    assert (Hr : takes it r3).
    { apply vec_push_tame, states_srcs, E3, packing_srcs in E4. apply H2, E4. }
    destruct o3; intros H; inversion H; subst; exact Hr.
  + intros H; inversion H; subst. apply H2, srcs_first.
  + intros H; inversion H; subst. apply H2, srcs_first.
Qed.
Lemma bm_try_extend_tame {R} b (it : iter bool R) w b' r o w' :
  bm_try_extend b it w = (b', r, o, w') -> takes it r.
Proof.
  unfold bm_try_extend.
  destruct (bm_phase1 b (it_fuse it)) as [[b1 it1] p1] eqn:E1.
  assert (H1 : incl (srcs it1) (states it))
    by (eapply incl_tran; [eapply phase1_srcs, E1|apply srcs_fuse]).
  destruct p1; [intros H; inversion H; subst; apply H1, srcs_first|].
  destruct (it_next it1) as [[first| |] it2] eqn:E2;
    assert (H2 : incl (srcs it2) (states it))
      by (eapply incl_tran; [eapply srcs_next, E2|exact H1]).
  + destruct (bm_overwrite _ _) as [[over packed'] p2] eqn:E3.
    apply overwrite_srcs in E3.
    destruct p2; [intros H; inversion H; subst; apply H2; eapply packing_srcs, E3, srcs_first|].
    destruct (vec_try_extend _ _ packed' w) as [[[buf3 [r3 n3]] o3] w3] eqn:E4.
    assert (Hr : takes it r3).
    { apply vec_try_extend_tame, states_srcs, E3, packing_srcs in E4. apply H2, E4. }
    destruct o3; intros H; inversion H; subst; exact Hr.
  + intros H; inversion H; subst. apply H2, srcs_first.
  + intros H; inversion H; subst. apply H2, srcs_first.
Qed.
Lemma bitmap_tame : tame bitmap_coll.
Proof.
  split.
  - intros R b it b' r o. exact (bm_extend_tame b it b' r o).
  - intros R b it w b' r o w'. exact (bm_try_extend_tame b it w b' r o w').
Qed.

(** ** Fixed-size lists *)

Lemma srcs_flatten {A R} w (it : iter (list A) R) : incl (srcs (it_flatten w it)) (states it).
Proof.
  assert (He : forall l (n : node R) m rest (S : list R), In (nd_src n) S -> In (nd_src m) S ->
    (forall m', nd_src m' = nd_src n \/ nd_src m' = nd_src m -> incl (@srcs_t A R rest m') S) ->
    incl (srcs_t (emit_t w l n rest) m) S).
  { induction l as [|a l IH]; intros n m rest S Hn Hm Hr; cbn [emit_t].
    - apply Hr. auto.
    - cbn [srcs_t]. apply incl_cons; [exact Hm|]. apply IH; auto.
      intros m' Hm'. apply Hr. cbn [nd_src] in Hm'. tauto. }
  assert (T : forall (t : trace (list A) R) cur m, nd_src m = nd_src cur ->
    forall S, incl (states_t t cur) S -> incl (srcs_t (flatten_t w cur t) m) S).
  { induction t as [|[[l| |] n] t IH]; intros cur m Hm S HS; cbn [flatten_t].
    - cbn. rewrite Hm. intros x [<-|[<-|[]]]; apply HS; left; reflexivity.
    - apply He.
      + apply HS. right. apply states_first.
      + rewrite Hm. apply HS. left. reflexivity.
      + intros m' [Hm'|Hm'].
        * apply IH; [exact Hm'|]. intros x Hx. apply HS. right. exact Hx.
        * (* no item in the row *)
          intros x Hx.
          assert (Hx' : x = nd_src m' \/ In x (srcs_t (flatten_t w n t) n)).
          { revert Hx. destruct (flatten_t w n t) as [|[[y| |] n'] t']; cbn; intros [H|H]; auto. }
          destruct Hx' as [->|Hx'].
          -- rewrite Hm', Hm. apply HS. left. reflexivity.
          -- revert Hx'. apply IH; [reflexivity|]. intros z Hz. apply HS. right. exact Hz.
    - cbn. rewrite Hm. intros x [<-|[<-|[]]]; apply HS; cbn; auto.
    - cbn. rewrite Hm. intros x [<-|[<-|[]]]; apply HS; cbn; auto. }
  unfold srcs, states, it_flatten. cbn [it_tr it_node]. apply T; [reflexivity|apply incl_refl].
Qed.
Lemma states_flatten {A R} w (it : iter (list A) R) : incl (states (it_flatten w it)) (states it).
Proof. eapply incl_tran; [apply states_srcs|apply srcs_flatten]. Qed.
Lemma flatten_tame K n : tame K -> tame (flatten_coll K n).
Proof.
  intros [H1 H2]. split; cbn.
  - intros R c it c' r o E. apply H1 in E. eapply states_flatten, E.
  - intros R c it w c' r o w' E. apply H2 in E. eapply states_flatten, E.
Qed.

(** ** Lists *)

Ltac here := match goal with
  | H : (_, _, _) = (_, _, _) |- _ => inversion H; subst; clear H
  end; try (right; apply states_first); try apply takes_first; auto.
Lemma offsets_extend_tame K k {R} (t : trace (list (cA K)) R) : forall n f p c' r o,
  of_extend_t K k t n f p = (c', r, o) -> In r (states_t t n).
Proof.
  induction t as [|[[l| |] n'] t IH]; intros n f p c' r o; cbn [of_extend_t states_t].
  - intros H; inversion H; left; reflexivity.
  - destruct (off_try_from k (lenN l)) as [z|]; [|intros H; here].
    destruct (off_strict_add k p z) as [next|]; [|intros H; here].
    destruct (k_reserve K (of_data f) (lenN l)) as [d1 [| | |]]; try (intros H; here; fail).
    destruct (k_extend K d1 (it_list l)) as [[d2 r2] [| | |]]; try (intros H; here; fail).
    destruct (vec_extend _ _ _) as [[v3 r3] [| | |]]; try (intros H; here; fail).
    intros H. right. eapply IH, H.
  - intros H; inversion H; subst. right; left; reflexivity.
  - intros H; inversion H; subst. right; left; reflexivity.
Qed.
Lemma offsets_try_extend_tame K k rows dl {R} (t : trace (list (cA K)) R) : forall n f p w c' r o w',
  of_try_extend_t K k rows dl t n f p w = (c', r, o, w') -> In r (states_t t n).
Proof.
  induction t as [|[[l| |] n'] t IH]; intros n f p w c' r o w'; cbn [of_try_extend_t states_t].
  - intros H; inversion H; left; reflexivity.
  - destruct (as_usize p) as [pu|]; [|intros H; here].
    destruct (match checked_add pu (lenN l) with Some u => off_try_from k u | None => None end) as [next|];
      [|destruct (of_rollback _ _ _ _); intros H; here].
    destruct (k_try_extend K (of_data f) (it_list l) w) as [[[d2 r2] [| | |]] w2];
      try (intros H; here; fail); [|destruct (of_rollback _ _ _ _); intros H; here].
    destruct (vec_try_extend _ _ _ w2) as [[[v3 r3] [| | |]] w3];
      try (intros H; here; fail); [|destruct (of_rollback _ _ _ _); intros H; here].
    intros H. right. eapply IH, H.
  - intros H; inversion H; subst. right; left; reflexivity.
  - intros H; inversion H; subst. right; left; reflexivity.
Qed.
Lemma of_extend_tame K k {R} f (it : iter (list (cA K)) R) c' r o :
  of_extend K k f it = (c', r, o) -> takes it r.
Proof.
  unfold of_extend.
  destruct (nth_error _ _) as [p|]; [|intros H; here].
  destruct (as_usize p) as [pu|]; [|intros H; here].
  destruct (k_truncate K (of_data f) pu) as [d1 [| | |]]; try (intros H; here; fail).
  apply offsets_extend_tame.
Qed.
Lemma of_try_extend_tame K k {R} f (it : iter (list (cA K)) R) w c' r o w' :
  of_try_extend K k f it w = (c', r, o, w') -> takes it r.
Proof.
  unfold of_try_extend.
  destruct (of_len _ f) as [rows|]; [|intros H; here].
  destruct (nth_error _ _) as [p|]; [|intros H; here].
  destruct (as_usize p) as [pu|]; [|intros H; here].
  destruct (k_truncate K (of_data f) pu) as [d1 [| | |]]; try (intros H; here; fail).
  apply offsets_try_extend_tame.
Qed.
Lemma offsets_tame K k : tame (offsets_coll K k).
Proof.
  split; cbn.
  - intros R f it c' r o. apply of_extend_tame.
  - intros R f it w c' r o w'. apply of_try_extend_tame.
Qed.

(** ** Nullable collections *)

(** In a chunk the source is at a state of the iterator; when the chunk is full
    it has not ended. *)
Lemma states_chunk K {R} (it : iter (option (cA K)) R) it' vs :
  takes (va_chunk K it) (it', vs) ->
  takes it (it_src it') /\ (chunk <= length vs -> incl (states it') (states it)).
Proof.
  unfold takes, va_chunk, it_map, it_inspect, it_take, it_byref, states.
  cbn [it_tr it_node nd_src it_src it_hint].
  assert (T : forall (t : trace (option (cA K)) R) (n : node R) k h s,
    In (it', vs) (states_t (map_t (unwrap_or (k_item0 K))
      (inspect_t (push_valid K) s (take_t k (byref_t t)))) (Node h (Iter n t, s))) ->
    In (it_src it') (states_t t n) /\
    (length s + k <= length vs -> incl (states it') (states_t t n))).
  { induction t as [|[e n'] t IH]; intros n k h s.
    - destruct k; cbn; intros [H|[]]; inversion H; subst; cbn; (split; [auto|]); intros _; apply incl_refl.
    - destruct k as [|k].
      + cbn. intros [H|[]]; inversion H; subst; clear H. split; [apply (states_first ((e, n') :: t))|].
        intros _. apply incl_refl.
      + destruct e as [a| |]; cbn [byref_t take_t inspect_t push_valid map_t map map_ev fst snd states_t nd_src].
        * intros [H|H].
          -- inversion H; subst. split; [left; reflexivity|]. intros Hl. lia.
          -- unfold take_node in H. cbn [nd_hint nd_src] in H. destruct (nd_hint n') as [lo hi] eqn:Eh.
             cbn [nd_hint nd_src] in H. apply (IH n' k) in H. destruct H as [H1 H2]. split; [right; exact H1|].
             rewrite app_length in H2. cbn [length] in H2. intros Hl.
             intros x Hx. right. apply H2; [lia|exact Hx].
        * intros [H|H].
          -- inversion H; subst. split; [left; reflexivity|]. intros Hl. lia.
          -- unfold take_node in H. cbn [nd_hint nd_src] in H. destruct (nd_hint n') as [lo hi] eqn:Eh.
             cbn [nd_hint nd_src In] in H. destruct H as [H|[]]. inversion H; subst.
             split; [right; left; reflexivity|]. intros Hl. lia.
        * intros [H|H].
          -- inversion H; subst. split; [left; reflexivity|]. intros Hl. lia.
          -- unfold take_node in H. cbn [nd_hint nd_src] in H. destruct (nd_hint n') as [lo hi] eqn:Eh.
             cbn [nd_hint nd_src In] in H. destruct H as [H|[]]. inversion H; subst.
             split; [right; left; reflexivity|]. intros Hl. lia. }
  destruct it as [n t]. cbn [it_tr it_node it_hint]. intros H.
  assert (E : forall k (m : node (iter (option (cA K)) R)), nd_src (take_node k m) = nd_src m)
    by (intros k m; unfold take_node; destruct (nd_hint m); reflexivity).
  unfold it_src in H at 1. cbn [it_node] in H. rewrite E in H. exact (T t n chunk _ [] H).
Qed.
Lemma validity_loop_tame K : tame K -> forall R fuel c b (it : iter (option (cA K)) R) c' b' r o,
  va_extend_loop K fuel c b it = (c', b', r, o) -> takes it r.
Proof.
  intros [HK _] R. induction fuel as [|f IH]; intros c b it c' b' r o; cbn [va_extend_loop].
  - intros H; inversion H; auto.
  - destruct (k_extend K c (va_chunk K it)) as [[c1 [it1 vs]] o1] eqn:E1.
    apply HK, states_chunk in E1. destruct E1 as [H1 H2].
    destruct o1; try (intros H; inversion H; subst; exact H1).
    destruct (bm_extend b (it_list vs)) as [[b1 u] o2].
    destruct o2; try (intros H; inversion H; subst; exact H1).
    destruct (Nat.ltb_spec (length vs) chunk) as [Hl|Hl]; [intros H; inversion H; subst; exact H1|].
    intros H. apply IH in H. apply H2; [exact Hl|exact H].
Qed.
Lemma validity_try_loop_tame K : tame K -> forall R fuel len c b (it : iter (option (cA K)) R) w c' b' r o w',
  va_try_extend_loop K fuel len c b it w = (c', b', r, o, w') -> takes it r.
Proof.
  intros [_ HK] R. induction fuel as [|f IH]; intros len c b it w c' b' r o w'; cbn [va_try_extend_loop].
  - intros H; inversion H; auto.
  - destruct (k_try_extend K c (va_chunk K it) w) as [[[c1 [it1 vs]] o1] w1] eqn:E1.
    apply HK, states_chunk in E1. destruct E1 as [H1 H2].
    destruct o1; try (intros H; inversion H; subst; exact H1).
    + destruct (bm_try_extend b (it_list vs) w1) as [[[b1 u] o2] w2].
      destruct o2; try (intros H; inversion H; subst; exact H1).
      * destruct (Nat.ltb_spec (length vs) chunk) as [Hl|Hl]; [intros H; inversion H; subst; exact H1|].
        intros H. apply IH in H. apply H2; [exact Hl|exact H].
      * destruct (va_rollback K c1 b1 len) as [[c2 b2] o3]. intros H; inversion H; subst; exact H1.
    + destruct (va_rollback K c1 b len) as [[c2 b2] o3]. intros H; inversion H; subst; exact H1.
Qed.
Lemma validity_tame K : tame K -> tame (validity_coll K).
Proof.
  intros HK. split.
  - intros R v it c' r o. cbn [k_extend validity_coll]. unfold va_extend.
    destruct (va_materialize K v) as [v1 o1].
    destruct o1; [destruct (va_bm v1) as [b|]| | |]; try (intros H; inversion H; subst; auto; fail).
    destruct (k_truncate K _ _) as [c2 o2]. destruct o2; try (intros H; inversion H; subst; auto; fail).
    destruct (va_extend_loop K _ c2 b it) as [[[c3 b3] r3] o3] eqn:E.
    apply (validity_loop_tame K HK) in E. intros H; inversion H; subst; exact E.
  - intros R v it w c' r o w'. cbn [k_try_extend validity_coll]. unfold va_try_extend.
    destruct (va_len K v) as [len|]; [|intros H; inversion H; subst; auto].
    destruct (va_try_materialize K v w) as [[v1 o1] w1].
    destruct o1; [destruct (va_bm v1) as [b|]| | |]; try (intros H; inversion H; subst; auto; fail).
    destruct (k_truncate K _ _) as [c2 o2]. destruct o2; try (intros H; inversion H; subst; auto; fail).
    destruct (va_try_extend_loop K _ len c2 b it w1) as [[[[c3 b3] r3] o3] w3] eqn:E.
    apply (validity_try_loop_tame K HK) in E. intros H; inversion H; subst; exact E.
Qed.

Lemma coll_tame s : tame (coll s).
Proof.
  induction s as [p| |s IH|n s IH|k s IH|A a0 z]; cbn [coll].
  - apply vec_tame.
  - apply bitmap_tame.
  - apply validity_tame, IH.
  - apply flatten_tame, IH.
  - apply offsets_tame.
  - apply vec_tame.
Qed.

(** ** Collecting *)

Definition collect_fn (K : Coll) := forall R, iter (cA K) R -> bres (cC K) * R.
(** Only states of the script, and only those up to the first [None]. *)
Definition in_script {K} (f : collect_fn K) : Prop :=
  forall R it res r, f R it = (res, r) -> In r (srcs it).
Definition in_time {K} (f : collect_fn K) : Prop :=
  forall R it res r, f R it = (res, r) -> takes it r.
Lemma in_time_script {K} (f : collect_fn K) : in_time f -> in_script f.
Proof. intros H R it res r E. eapply states_srcs, H, E. Qed.

Lemma states_map {A B R} (f : A -> B) (it : iter A R) : states (it_map f it) = states it.
Proof.
  unfold states, it_map. cbn [it_tr it_node]. generalize (it_node it).
  induction (it_tr it) as [|[[a| |] n'] t IH]; intros n; cbn; auto. f_equal. apply IH.
Qed.
Lemma srcs_map {A B R} (f : A -> B) (it : iter A R) : srcs (it_map f it) = srcs it.
Proof.
  unfold srcs, it_map. cbn [it_tr it_node]. generalize (it_node it).
  induction (it_tr it) as [|[e n'] t IH]; intros n; cbn; auto. f_equal. apply IH.
Qed.
Lemma states_inspect {A R S} (f : S -> A -> option S) s (it : iter A R) x :
  takes (it_inspect f s it) x -> takes it (fst x).
Proof.
  unfold takes, it_inspect, states. cbn [it_tr it_node]. unfold it_src. revert s.
  generalize (it_node it), (it_hint it).
  induction (it_tr it) as [|[e n'] t IH]; intros n h s.
  - cbn. intros [<-|[]]; auto.
  - destruct e as [a| |]; cbn [inspect_t states_t nd_src].
    + destruct (f s a) as [s'|]; cbn [states_t nd_src]; intros [<-|H]; [left; reflexivity| |left; reflexivity|].
      * right. exact (IH n' _ s' H).
      * destruct H as [<-|[]]. right. apply states_first.
    + intros [<-|H]; [left; reflexivity|]. destruct H as [<-|[]]. right. left. reflexivity.
    + intros [<-|H]; [left; reflexivity|]. destruct H as [<-|[]]. right. left. reflexivity.
Qed.

Lemma vec_from_iter_time {A R} esz (it : iter A R) res r : vec_from_iter esz it = (res, r) -> takes it r.
Proof.
  unfold vec_from_iter. destruct (vec_extend esz vec_new it) as [[v r1] o] eqn:E.
  apply vec_push_tame in E. intros H; inversion H; subst. exact E.
Qed.
Lemma vec_try_from_iter_time {A R} esz (it : iter A R) w res r w' :
  vec_try_from_iter esz it w = (res, r, w') -> takes it r.
Proof.
  unfold vec_try_from_iter. destruct (vec_try_with_capacity _ _ w) as [[v| | |] w1];
    try (intros H; inversion H; subst; auto; fail).
  unfold takes, states. generalize (it_node it) as n. revert v w1.
  induction (it_tr it) as [|[[a| |] n'] t IH]; intros v w1 n; cbn [vec_try_collect_t states_t].
  - intros H; inversion H; left; reflexivity.
  - destruct (vec_try_reserve esz v 1 w1) as [[v1 [| | |]] w2]; intros H;
      try (inversion H; subst; right; apply states_first). right. eapply IH, H.
  - intros H; inversion H; subst. right; left; reflexivity.
  - intros H; inversion H; subst. right; left; reflexivity.
Qed.
Lemma packing_script {R} (it : iter bool R) x :
  takes (it_packed (it_inspect count_item 0 it)) x -> In (fst x) (srcs it).
Proof. intros H. apply states_srcs, srcs_packed, srcs_inspect in H. exact H. Qed.
Lemma bm_from_iter_script {R} (it : iter bool R) res r : bm_from_iter it = (res, r) -> In r (srcs it).
Proof.
  unfold bm_from_iter. destruct (vec_from_iter _ _) as [res1 [r1 n1]] eqn:E.
  apply vec_from_iter_time, packing_script in E. intros H; inversion H; subst. exact E.
Qed.
Lemma bm_try_from_iter_script {R} (it : iter bool R) w res r w' :
  bm_try_from_iter it w = (res, r, w') -> In r (srcs it).
Proof.
  unfold bm_try_from_iter. destruct (vec_try_from_iter _ _ w) as [[res1 [r1 n1]] w1] eqn:E.
  apply vec_try_from_iter_time, packing_script in E. intros H; inversion H; subst. exact E.
Qed.
Lemma va_collect_script K (f : collect_fn K) {R} (it : iter (option (cA K)) R) res r : in_script f ->
  va_collect K f it = (res, r) -> In r (srcs it).
Proof.
  intros Hf. unfold va_collect.
  destruct (bm_with_capacity _) as [b| | |]; try (intros H; inversion H; subst; apply srcs_first).
  destruct (f _ _) as [res1 [r1 b1]] eqn:E. apply Hf in E. rewrite srcs_map in E.
  apply srcs_inspect in E. intros H; inversion H; subst. exact E.
Qed.
Lemma va_collect_time K (f : collect_fn K) {R} (it : iter (option (cA K)) R) res r : in_time f ->
  va_collect K f it = (res, r) -> takes it r.
Proof.
  intros Hf. unfold va_collect.
  destruct (bm_with_capacity _) as [b| | |]; try (intros H; inversion H; subst; apply takes_first).
  destruct (f _ _) as [res1 [r1 b1]] eqn:E. apply Hf in E. unfold takes in E. rewrite states_map in E.
  apply states_inspect in E. intros H; inversion H; subst. exact E.
Qed.
Lemma va_try_from_iter_time K {R} (it : iter (option (cA K)) R) w res r w' : tame K ->
  va_try_from_iter K it w = (res, r, w') -> takes it r.
Proof.
  intros HK. unfold va_try_from_iter.
  destruct (va_try_with_capacity K _ w) as [[v| | |] w1];
    try (intros H; inversion H; subst; auto; fail).
  destruct (va_try_extend K v it w1) as [[[v1 r1] o] w2] eqn:E.
  apply (proj2 (validity_tame K HK)) in E. intros H; inversion H; subst. exact E.
Qed.
Lemma of_from_iter_time K k {R} (it : iter (list (cA K)) R) res r :
  of_from_iter K k it = (res, r) -> takes it r.
Proof.
  unfold of_from_iter. destruct (of_extend K k _ it) as [[o1 r1] e] eqn:E.
  apply of_extend_tame in E. intros H; inversion H; subst. exact E.
Qed.
Lemma of_from_iter_in_time K k {R} (it : iter (list (cA K)) R) res r :
  of_from_iter_in K k it = (res, r) -> takes it r.
Proof.
  unfold of_from_iter_in. destruct (of_with_capacity K k _) as [o0| | |];
    try (intros H; inversion H; subst; auto; fail).
  destruct (of_extend K k _ it) as [[o1 r1] e] eqn:E.
  apply of_extend_tame in E. intros H; inversion H; subst. exact E.
Qed.
Lemma of_try_from_iter_time K k {R} (it : iter (list (cA K)) R) w res r w' :
  of_try_from_iter K k it w = (res, r, w') -> takes it r.
Proof.
  unfold of_try_from_iter. destruct (of_try_with_capacity K k _ w) as [[o0| | |] w1];
    try (intros H; inversion H; subst; auto; fail).
  destruct (of_try_extend K k _ it w1) as [[[o1 r1] e] w2] eqn:E.
  apply of_try_extend_tame in E. intros H; inversion H; subst. exact E.
Qed.

Lemma from_iter_script s :
  in_script (K := coll s) (fun R => k_from_iter (coll s) (R := R)) /\
  in_script (K := coll s) (fun R => k_from_iter_in (coll s) (R := R)).
Proof.
  induction s as [p| |s IH|n s IH|k s IH|A a0 z]; cbn [coll]; split; intros R it res r E; cbn in E.
  - eapply states_srcs, vec_from_iter_time, E.
  - eapply states_srcs, vec_from_iter_time, E.
  - exact (bm_from_iter_script it res r E).
  - exact (bm_from_iter_script it res r E).
  - exact (va_collect_script (coll s) _ it res r (proj1 IH) E).
  - exact (va_collect_script (coll s) _ it res r (proj2 IH) E).
  - apply (proj1 IH) in E. eapply states_srcs, srcs_flatten, E.
  - apply (proj2 IH) in E. eapply states_srcs, srcs_flatten, E.
  - eapply states_srcs, of_from_iter_time, E.
  - eapply states_srcs, of_from_iter_in_time, E.
  - eapply states_srcs, vec_from_iter_time, E.
  - eapply states_srcs, vec_from_iter_time, E.
Qed.
Lemma from_iter_time s : resumable s = true ->
  in_time (K := coll s) (fun R => k_from_iter (coll s) (R := R)) /\
  in_time (K := coll s) (fun R => k_from_iter_in (coll s) (R := R)).
Proof.
  induction s as [p| |s IH|n s IH|k s IH|A a0 z]; cbn [coll resumable]; intros Hs;
    try discriminate; split; intros R it res r E; cbn in E.
  - eapply vec_from_iter_time, E.
  - eapply vec_from_iter_time, E.
  - exact (va_collect_time (coll s) _ it res r (proj1 (IH Hs)) E).
  - exact (va_collect_time (coll s) _ it res r (proj2 (IH Hs)) E).
  - apply (proj1 (from_iter_script s)) in E. eapply srcs_flatten, E.
  - apply (proj2 (from_iter_script s)) in E. eapply srcs_flatten, E.
  - eapply of_from_iter_time, E.
  - eapply of_from_iter_in_time, E.
  - eapply vec_from_iter_time, E.
  - eapply vec_from_iter_time, E.
Qed.
Lemma try_from_iter_script s R (it : iter (cA (coll s)) R) w res r w' :
  k_try_from_iter (coll s) it w = (res, r, w') -> In r (srcs it).
Proof.
  revert R it w res r w'.
  induction s as [p| |s IH|n s IH|k s IH|A a0 z]; cbn [coll]; intros R it w res r w' E; cbn in E.
  - eapply states_srcs, vec_try_from_iter_time, E.
  - exact (bm_try_from_iter_script it w res r w' E).
  - exact (states_srcs _ _ _ (va_try_from_iter_time (coll s) it w res r w' (coll_tame s) E)).
  - apply IH in E. eapply states_srcs, srcs_flatten, E.
  - eapply states_srcs, of_try_from_iter_time, E.
  - eapply states_srcs, vec_try_from_iter_time, E.
Qed.
Lemma try_from_iter_time s R (it : iter (cA (coll s)) R) w res r w' : resumable_try s = true ->
  k_try_from_iter (coll s) it w = (res, r, w') -> takes it r.
Proof.
  destruct s as [p| |s|n s|k s|A a0 z]; cbn [coll resumable_try]; intros Hs E; try discriminate; cbn in E.
  - eapply vec_try_from_iter_time, E.
  - exact (va_try_from_iter_time (coll s) it w res r w' (coll_tame s) E).
  - apply try_from_iter_script in E. eapply srcs_flatten, E.
  - eapply of_try_from_iter_time, E.
  - eapply vec_try_from_iter_time, E.
Qed.

(** ** The statements *)

Theorem extend_takes s R c (it : iter (cA (coll s)) R) c' r o :
  k_extend (coll s) c it = (c', r, o) -> In r (states it).
Proof. apply (proj1 (coll_tame s)). Qed.
Theorem try_extend_takes s R c (it : iter (cA (coll s)) R) w c' r o w' :
  k_try_extend (coll s) c it w = (c', r, o, w') -> In r (states it).
Proof. apply (proj2 (coll_tame s)). Qed.
Lemma run_end {A R} (it : iter A R) : run it = (items_of it, fin_of it, end_of it).
Proof. unfold items_of, fin_of, end_of. destruct (run it) as [[xs e] r]. reflexivity. Qed.
Theorem extend_ends s : widths_pos s ->
  forall R c (it : iter (cA (coll s)) R) c' r, built s c -> Forall (item_ok s) (items_of it) ->
  k_extend (coll s) c it = (c', r, ODone) -> r = end_of it.
Proof.
  intros Hw R c it c' r Hb Hi E. apply items_ok_wt in Hi.
  apply (lw_extend _ _ (shape_laws s Hw) R c it _ _ _ _ _ _ (built_inv s c Hb Hw) Hi (run_end it) E).
Qed.
Theorem try_extend_ends s : widths_pos s ->
  forall R c (it : iter (cA (coll s)) R) w c' r w', built s c -> Forall (item_ok s) (items_of it) ->
  k_try_extend (coll s) c it w = (c', r, ODone, w') -> r = end_of it.
Proof.
  intros Hw R c it w c' r w' Hb Hi E. apply items_ok_wt in Hi.
  apply (lw_try_extend _ _ (shape_laws s Hw) R c it _ _ _ _ _ _ _ _ (built_inv s c Hb Hw) Hi (run_end it) E).
Qed.
Theorem collect_takes s : resumable s = true -> widths_pos s ->
  forall R (it : iter (cA (coll s)) R) res r,
  k_from_iter (coll s) it = (res, r) \/ k_from_iter_in (coll s) it = (res, r) ->
  In r (states it) /\
  (Forall (item_ok s) (items_of it) -> match res with BOk _ => r = end_of it | _ => True end).
Proof.
  intros Hs Hw R it res r E. destruct (from_iter_time s Hs) as [H1 H2]. split.
  - destruct E as [E|E]; [exact (H1 R it res r E)|exact (H2 R it res r E)].
  - intros Hi. apply items_ok_wt in Hi. pose proof Hs as Hs'. rewrite resumable_nofuse in Hs'.
    pose proof (shape_laws s Hw) as L.
    assert (H : match res with
      | BOk c => fin_of it = FStop /\ (l_nofuse (shape_ld s) = true -> r = end_of it) /\
          (fused it -> In r (after it)) /\ fresh (shape_ld s) c (items_of it)
      | BErr => False | _ => True end).
    { destruct E as [E|E].
      - apply (lw_from_iter _ _ L R it _ _ _ _ _ (or_introl Hs') Hi (run_end it) E).
      - apply (lw_from_iter_in _ _ L R it _ _ _ _ _ (or_introl Hs') Hi (run_end it) E). }
    destruct res; auto. apply H, Hs'.
Qed.
Theorem try_collect_takes s : resumable_try s = true -> widths_pos s ->
  forall R (it : iter (cA (coll s)) R) w res r w',
  k_try_from_iter (coll s) it w = (res, r, w') ->
  In r (states it) /\
  (Forall (item_ok s) (items_of it) -> match res with BOk _ => r = end_of it | _ => True end).
Proof.
  intros Hs Hw R it w res r w' E. split; [exact (try_from_iter_time s R it w res r w' Hs E)|].
  intros Hi. apply items_ok_wt in Hi. pose proof Hs as Hs'. rewrite resumable_try_nofuse in Hs'.
  pose proof (lw_try_from_iter _ _ (shape_laws s Hw) R it w _ _ _ _ _ _ (or_introl Hs') Hi (run_end it) E) as H.
  destruct res; auto. apply H, Hs'.
Qed.
(** By reference: what is left is what comes after the first [None]. *)
Lemma end_of_byref {A R} (it : iter A R) : fin_of it = FStop ->
  it_tr (end_of (it_byref it)) = resumed_t (it_tr it).
Proof.
  destruct it as [n t]. unfold end_of, fin_of, it_byref, run. cbn [it_tr it_node it_hint].
  assert (T : forall (t : trace A R) n h, snd (fst (run_t t n)) = FStop ->
    it_tr (snd (run_t (byref_t t) (Node h (Iter n t)))) = resumed_t t).
  { clear. induction t as [|[[a| |] n'] t IH]; intros n h; cbn; try discriminate; auto.
    specialize (IH n' (nd_hint n')). destruct (run_t t n') as [[xs e] r].
    destruct (run_t (byref_t t) (Node (nd_hint n') (Iter n' t))) as [[xs' e'] r']. exact IH. }
  apply T.
Qed.
Lemma items_of_byref {A R} (it : iter A R) :
  items_of (it_byref it) = items_of it /\ fin_of (it_byref it) = fin_of it.
Proof.
  destruct it as [n t]. unfold items_of, fin_of, it_byref, run. cbn [it_tr it_node it_hint].
  generalize (nd_hint n) (Iter n t). revert n.
  induction t as [|[[a| |] n'] t IH]; intros n h i; cbn; auto.
  destruct (IH n' (nd_hint n') (Iter n' t)) as [H1 H2]. destruct (run_t t n') as [[xs e] r].
  destruct (run_t (byref_t t) _) as [[xs' e'] r'] in *. split; [exact (f_equal (cons a) H1)|exact H2].
Qed.
Theorem lent_resumes s : widths_pos s ->
  forall R c (it it' : iter (cA (coll s)) R) c', built s c -> Forall (item_ok s) (items_of it) ->
  k_extend (coll s) c (it_byref it) = (c', it', ODone) \/
  (exists w w', k_try_extend (coll s) c (it_byref it) w = (c', it', ODone, w')) ->
  it_tr it' = resumed_t (it_tr it).
Proof.
  intros Hw R c it it' c' Hb Hi E. destruct (items_of_byref it) as [Ei Ef].
  rewrite <- Ei in Hi.
  assert (H : fin_of (it_byref it) = FStop /\ it' = end_of (it_byref it)).
  { pose proof (shape_laws s Hw) as L. pose proof (built_inv s c Hb Hw) as Hinv.
    apply items_ok_wt in Hi. destruct E as [E|(w & w' & E)].
    - destruct (lw_extend _ _ L _ c _ _ _ _ _ _ _ Hinv Hi (run_end _) E) as [(H1 & H2 & _) _]. auto.
    - destruct (lw_try_extend _ _ L _ c _ _ _ _ _ _ _ _ _ Hinv Hi (run_end _) E) as (H1 & H2 & _). auto. }
  destruct H as [H ->]. rewrite Ef in H. apply end_of_byref, H.
Qed.
