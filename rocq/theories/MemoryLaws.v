(** * Requests for memory, on every collection

    [Asks K mem imp nb]: what the operations of [K] do to the buffers [mem], without
    any condition on the collection. *)
From Coq Require Import List NArith ZArith Bool Arith Lia ZifyBool ZifyNat ZifyN.
From Verif Require Import Base Iter Spec VecModel BitmapModel CollModel ValidityModel FlattenModel
  OffsetsModel LayoutModel IterLemmas VecLemmas Reach SpecCaps.
Import ListNotations.

Local Arguments N.add : simpl never.
Local Arguments N.mul : simpl never.
Local Arguments max_items : simpl never.
Local Arguments chunk : simpl never.
Local Opaque chunk.

Definition mem_t := list (N * N).
Definition dbl : mem_t -> mem_t -> Prop := Forall2 doubled.
Definition lrg : mem_t -> mem_t -> Prop := Forall2 as_large.

(** What was asked for until an outcome. *)
Definition spent (w w' : world) (o : outcome) (n : nat) : Prop :=
  exists a, answered w w' a /\ length a <= n /\
    (all_granted a \/ o <> ODone /\ last_refused a).
(** ... without a bound. *)
Definition spent_any (w w' : world) (o : outcome) : Prop := exists n, spent w w' o n.

Record Asks (K : Coll) (mem : cC K -> mem_t) (imp : cC K -> nat) (nb : nat) : Prop := {
  as_length : forall c, length (mem c) = nb;
  as_extend : forall R c (it : iter (cA K) R) c' r o, k_extend K c it = (c', r, o) ->
    dbl (mem c) (mem c');
  as_reserve : forall c n c' o, k_reserve K c n = (c', o) -> dbl (mem c) (mem c');
  as_truncate : forall c n c' o, k_truncate K c n = (c', o) -> mem c' = mem c;
  as_try_extend : forall R c (it : iter (cA K) R) w c' r o w',
    k_try_extend K c it w = (c', r, o, w') -> lrg (mem c) (mem c') /\ spent_any w w' o;
  as_try_reserve : forall c n w c' o w', k_try_reserve K c n w = (c', o, w') ->
    lrg (mem c) (mem c') /\ spent w w' o (nb + imp c);
  (** Success although the next request would be refused: there was none. *)
  as_blind : forall R c (it : iter (cA K) R) w c' r w',
    k_try_extend K c it (None :: w) = (c', r, ODone, w') ->
    mem c' = mem c /\ forall w2, k_try_extend K c it w2 = (c', r, ODone, w2);
  as_with_capacity : forall n w r w', k_try_with_capacity K n w = (r, w') ->
    spent w w' (match r with BOk _ => ODone | _ => OErr end) nb;
}.

(** ** The relations *)
Lemma doubled_refl x : doubled x x.
Proof. split; auto. Qed.
Lemma doubled_trans x y z : doubled x y -> doubled y z -> doubled x z.
Proof. intros [E1 H1] [E2 H2]. split; [congruence|]. rewrite <- E1 in H2. lia. Qed.
Lemma as_large_refl x : as_large x x.
Proof. split; [auto|lia]. Qed.
Lemma as_large_trans x y z : as_large x y -> as_large y z -> as_large x z.
Proof. intros [E1 H1] [E2 H2]. split; [congruence|lia]. Qed.
Lemma Forall2_rfl {A} (P : A -> A -> Prop) : (forall x, P x x) -> forall l, Forall2 P l l.
Proof. intros H l. induction l; constructor; auto. Qed.
Lemma Forall2_trn {A} (P : A -> A -> Prop) : (forall x y z, P x y -> P y z -> P x z) ->
  forall a b c, Forall2 P a b -> Forall2 P b c -> Forall2 P a c.
Proof.
  intros H a b c Hab. revert c. induction Hab as [|x y a b Hx _ IH]; intros c Hbc; inversion Hbc; subst;
    constructor; eauto.
Qed.
Lemma dbl_refl l : dbl l l. Proof. exact (Forall2_rfl _ doubled_refl l). Qed.
Lemma lrg_refl l : lrg l l. Proof. exact (Forall2_rfl _ as_large_refl l). Qed.
Lemma dbl_trans a b c : dbl a b -> dbl b c -> dbl a c.
Proof. exact (Forall2_trn _ doubled_trans a b c). Qed.
Lemma lrg_trans a b c : lrg a b -> lrg b c -> lrg a c.
Proof. exact (Forall2_trn _ as_large_trans a b c). Qed.
Lemma dbl_app a b a' b' : dbl a a' -> dbl b b' -> dbl (a ++ b) (a' ++ b').
Proof. exact (@Forall2_app _ _ doubled a b a' b'). Qed.
Lemma lrg_app a b a' b' : lrg a a' -> lrg b b' -> lrg (a ++ b) (a' ++ b').
Proof. exact (@Forall2_app _ _ as_large a b a' b'). Qed.
Lemma dbl_one x y : doubled x y -> dbl [x] [y].
Proof. intros H. constructor; [exact H|constructor]. Qed.
Lemma lrg_one x y : as_large x y -> lrg [x] [y].
Proof. intros H. constructor; [exact H|constructor]. Qed.
Lemma doubled_large x y : doubled x y -> as_large x y.
Proof. intros [E H]. split; [exact E|lia]. Qed.
Lemma dbl_lrg a b : dbl a b -> lrg a b.
Proof. intros H. induction H; constructor; auto. apply doubled_large; auto. Qed.
Lemma doubled_zero e n : doubled (e, 0%N) (e, n).
Proof. split; [reflexivity|]. cbn [snd]. lia. Qed.

Lemma spent_none w o n : spent w w o n.
Proof. exists []. split; [reflexivity|]. split; [cbn; lia|]. left. exists []. reflexivity. Qed.
Lemma spent_grant e w o n : spent (Some e :: w) w o (S n).
Proof. exists [Some e]. split; [reflexivity|]. split; [cbn; lia|]. left. exists [e]. reflexivity. Qed.
Lemma spent_refusal w o n : o <> ODone -> spent (None :: w) w o (S n).
Proof.
  intros H. exists [None]. split; [reflexivity|]. split; [cbn; lia|]. right. split; [exact H|].
  exists []. reflexivity.
Qed.
Lemma spent_more w w' o m n : spent w w' o m -> m <= n -> spent w w' o n.
Proof. intros (a & E & H & G) Hn. exists a. split; [exact E|]. split; [lia|exact G]. Qed.
Lemma spent_trans w w1 w2 o m n : spent w w1 ODone m -> spent w1 w2 o n -> spent w w2 o (m + n).
Proof.
  intros (a & -> & Ha & Ga) (b & -> & Hb & Gb). exists (a ++ b). split; [apply app_assoc|].
  rewrite app_length. split; [lia|]. destruct Ga as [[es ->]|[H _]]; [|congruence].
  destruct Gb as [[fs ->]|[Ho [fs ->]]]; [left|right; split; [exact Ho|]].
  - exists (es ++ fs). symmetry. apply map_app.
  - exists (es ++ fs). rewrite map_app. apply app_assoc.
Qed.
Lemma spent_worse w w' o o' n : spent w w' o n -> (o' = ODone -> o = ODone) -> spent w w' o' n.
Proof.
  intros (a & E & H & G) Ho. exists a. split; [exact E|]. split; [exact H|].
  destruct G as [G|[G1 G2]]; [left; exact G|right; split; auto].
Qed.
Lemma any_of w w' o n : spent w w' o n -> spent_any w w' o.
Proof. exists n; auto. Qed.
Lemma any_none w o : spent_any w w o.
Proof. exists 0. apply spent_none. Qed.
Lemma any_trans w w1 w2 o : spent_any w w1 ODone -> spent_any w1 w2 o -> spent_any w w2 o.
Proof. intros [m H] [n G]. exists (m + n). apply (spent_trans w w1 w2 o m n); auto. Qed.
Lemma any_worse w w' o o' : spent_any w w' o -> (o' = ODone -> o = ODone) -> spent_any w w' o'.
Proof. intros [n H] G. exists n. apply (spent_worse w w' o); auto. Qed.

(** ** Vectors *)
Definition vroom {A} (esz : N) (v : vec A) : mem_t := [(esz, v_cap v)].
Lemma vec_reserve_dbl A esz (v : vec A) n v' o : vec_reserve esz v n = (v', o) ->
  dbl (vroom esz v) (vroom esz v').
Proof.
  unfold vec_reserve, amortized, vroom.
  destruct (n <=? v_cap v - lenN (v_items v))%N eqn:E1; [intros E; injection E as <- _; apply dbl_refl|].
  destruct (cap_limit esz <? lenN (v_items v) + n)%N; [intros E; injection E as <- _; apply dbl_refl|].
  destruct (max_items esz <? lenN (v_items v) + n)%N eqn:E2; [intros E; injection E as <- _; apply dbl_refl|].
  intros E. injection E as <- _. apply dbl_one. split; [reflexivity|]. cbn [fst snd v_cap]. lia.
Qed.
Lemma vec_push_dbl A R esz : forall (t : trace A R) n v v' r o,
  vec_push_t esz t n v = (v', r, o) -> dbl (vroom esz v) (vroom esz v').
Proof.
  induction t as [|[[a| |] n'] t IH]; intros n v v' r o; cbn [vec_push_t].
  - intros E. injection E as <- _ _. apply dbl_refl.
  - set (q := if (lenN (v_items v) =? v_cap v)%N
              then vec_reserve esz v (sat_add (fst (nd_hint n')) 1) else (v, ODone)).
    assert (Q : forall v1 o1, q = (v1, o1) -> dbl (vroom esz v) (vroom esz v1)).
    { intros v1 o1. unfold q. destruct (_ =? _)%N; [apply vec_reserve_dbl|].
      intros E. injection E as <- _. apply dbl_refl. }
    destruct q as [v1 o1]. specialize (Q v1 o1 eq_refl).
    destruct o1; try (intros E; injection E as <- _ _; exact Q).
    intros E. exact (dbl_trans _ _ _ Q (IH _ _ _ _ _ E)).
  - intros E. injection E as <- _ _. apply dbl_refl.
  - intros E. injection E as <- _ _. apply dbl_refl.
Qed.
Lemma vec_extend_dbl A R esz (v : vec A) (it : iter A R) v' r o :
  vec_extend esz v it = (v', r, o) -> dbl (vroom esz v) (vroom esz v').
Proof. apply vec_push_dbl. Qed.
Lemma vec_truncate_cap A (v : vec A) n : v_cap (vec_truncate v n) = v_cap v.
Proof. unfold vec_truncate. destruct (_ <? _)%N; reflexivity. Qed.
Lemma vec_try_reserve_asks A esz (v : vec A) n w v' o w' : vec_try_reserve esz v n w = (v', o, w') ->
  lrg (vroom esz v) (vroom esz v') /\ spent w w' o 1 /\ v_items v' = v_items v /\ (o = ODone \/ o = OErr).
Proof.
  unfold vec_try_reserve, vroom.
  destruct (n <=? v_cap v - lenN (v_items v))%N eqn:E1.
  { intros E. injection E as <- <- <-. split; [apply lrg_refl|]. split; [apply spent_none|]. auto. }
  destruct (max_items esz <? lenN (v_items v) + n)%N eqn:E2.
  { intros E. injection E as <- <- <-. split; [apply lrg_refl|]. split; [apply spent_none|]. auto. }
  destruct w as [|[e|] w]; intros E; injection E as <- <- <-.
  - split; [|split; [apply spent_none|auto]]. apply lrg_one. split; [reflexivity|]. cbn [snd v_cap]. lia.
  - split; [|split; [apply spent_grant|auto]]. apply lrg_one. split; [reflexivity|]. cbn [snd v_cap]. lia.
  - split; [apply lrg_refl|]. split; [apply spent_refusal; discriminate|auto].
Qed.
Lemma vec_try_push_asks A R esz len0 : forall (t : trace A R) n v w v' r o w',
  vec_try_push_t esz len0 t n v w = (v', r, o, w') ->
  lrg (vroom esz v) (vroom esz v') /\ spent_any w w' o.
Proof.
  induction t as [|[[a| |] n'] t IH]; intros n v w v' r o w'; cbn [vec_try_push_t].
  - intros E. injection E as <- _ <- <-. split; [apply lrg_refl|apply any_none].
  - destruct (lenN (v_items v) =? v_cap v)%N; [|intros E; exact (IH _ _ _ _ _ _ _ E)].
    destruct (vec_try_reserve esz v 1 w) as [[v1 o1] w1] eqn:E1.
    destruct (vec_try_reserve_asks _ _ _ _ _ _ _ _ E1) as (L1 & S1 & _ & Ho).
    destruct o1; try (destruct Ho; discriminate).
    + intros E. destruct (IH _ _ _ _ _ _ _ E) as [L2 S2]. split.
      * exact (lrg_trans _ _ _ L1 L2).
      * exact (any_trans _ _ _ _ (any_of _ _ _ _ S1) S2).
    + intros E. injection E as <- _ <- <-. split; [exact L1|exact (any_of _ _ _ _ S1)].
  - intros E. injection E as <- _ <- <-. split; [apply lrg_refl|apply any_none].
  - intros E. injection E as <- _ <- <-. split; [apply lrg_refl|apply any_none].
Qed.
Lemma vec_try_extend_asks A R esz (v : vec A) (it : iter A R) w v' r o w' :
  vec_try_extend esz v it w = (v', r, o, w') ->
  lrg (vroom esz v) (vroom esz v') /\ spent_any w w' o.
Proof.
  unfold vec_try_extend. destruct (vec_try_reserve esz v (fst (it_hint it)) w) as [[v1 o1] w1] eqn:E1.
  destruct (vec_try_reserve_asks _ _ _ _ _ _ _ _ E1) as (L1 & S1 & _ & Ho).
  destruct o1; try (destruct Ho; discriminate).
  - intros E. destruct (vec_try_push_asks _ _ _ _ _ _ _ _ _ _ _ _ E) as [L2 S2]. split.
    + exact (lrg_trans _ _ _ L1 L2).
    + exact (any_trans _ _ _ _ (any_of _ _ _ _ S1) S2).
  - intros E. injection E as <- _ <- <-. split; [exact L1|exact (any_of _ _ _ _ S1)].
Qed.
Definition err_of {X} (r : bres X) : outcome := match r with BOk _ => ODone | _ => OErr end.
Lemma vec_try_with_capacity_asks A esz n w (r : bres (vec A)) w' :
  vec_try_with_capacity esz n w = (r, w') -> spent w w' (err_of r) 1.
Proof.
  unfold vec_try_with_capacity.
  destruct (vec_try_reserve esz vec_new n w) as [[v1 o1] w1] eqn:E1.
  destruct (vec_try_reserve_asks _ _ _ _ _ _ _ _ E1) as (_ & S1 & _ & Ho).
  destruct o1; try (destruct Ho; discriminate); intros E; injection E as <- <-; exact S1.
Qed.
Lemma vec_try_reserve_blind A esz (v : vec A) n w v' w' :
  vec_try_reserve esz v n (None :: w) = (v', ODone, w') ->
  v' = v /\ (n <= v_cap v - lenN (v_items v))%N /\ forall w2, vec_try_reserve esz v n w2 = (v, ODone, w2).
Proof.
  unfold vec_try_reserve. destruct (n <=? v_cap v - lenN (v_items v))%N eqn:E1.
  - intros E. injection E as <- _. split; [reflexivity|]. split; [lia|reflexivity].
  - destruct (max_items esz <? lenN (v_items v) + n)%N; discriminate.
Qed.
Lemma vec_try_push_blind A R esz len0 : forall (t : trace A R) n v w v' r w',
  vec_try_push_t esz len0 t n v (None :: w) = (v', r, ODone, w') ->
  v_cap v' = v_cap v /\ (forall w2, vec_try_push_t esz len0 t n v w2 = (v', r, ODone, w2)) /\
  vec_push_t esz t n v = (v', r, ODone).
Proof.
  induction t as [|[[a| |] n'] t IH]; intros n v w v' r w'; cbn [vec_try_push_t vec_push_t].
  - intros E. injection E as <- <- _. auto.
  - destruct (lenN (v_items v) =? v_cap v)%N eqn:E0.
    + destruct (vec_try_reserve esz v 1 (None :: w)) as [[v1 o1] w1] eqn:E1.
      destruct o1; try discriminate.
      apply vec_try_reserve_blind in E1. destruct E1 as (_ & H & _). lia.
    + intros E. exact (IH _ _ _ _ _ _ E).
  - intros E. injection E as <- <- _. auto.
  - discriminate.
Qed.
Lemma vec_try_extend_blind A R esz (v : vec A) (it : iter A R) w v' r w' :
  vec_try_extend esz v it (None :: w) = (v', r, ODone, w') ->
  v_cap v' = v_cap v /\ (forall w2, vec_try_extend esz v it w2 = (v', r, ODone, w2)) /\
  vec_extend esz v it = (v', r, ODone).
Proof.
  unfold vec_try_extend.
  destruct (vec_try_reserve esz v (fst (it_hint it)) (None :: w)) as [[v1 o1] w1] eqn:E1.
  destruct (vec_try_reserve_asks _ _ _ _ _ _ _ _ E1) as (_ & _ & _ & Ho).
  destruct o1; try discriminate. clear Ho.
  apply vec_try_reserve_blind in E1 as E2. destruct E2 as (-> & _ & E2).
  rewrite (E2 (None :: w)) in E1. injection E1 as <-. intros E.
  destruct (vec_try_push_blind _ _ _ _ _ _ _ _ _ _ _ E) as (H1 & H2 & H3).
  split; [exact H1|]. split; [|exact H3]. intros w2. rewrite E2. apply H2.
Qed.
Lemma vec_asks A a0 esz : Asks (vec_coll A a0 esz) (vroom esz) (fun _ => 0) 1.
Proof.
  split.
  - reflexivity.
  - intros R c it c' r o. apply vec_extend_dbl.
  - intros c n c' o. apply vec_reserve_dbl.
  - intros c n c' o E. injection E as <- _. unfold vroom. change (vec A) in c.
    rewrite vec_truncate_cap. reflexivity.
  - intros R c it w c' r o w'. apply vec_try_extend_asks.
  - intros c n w c' o w' E.
    destruct (vec_try_reserve_asks _ _ _ _ _ _ _ _ E) as (H1 & H2 & _). auto.
  - intros R c it w c' r w' E. destruct (vec_try_extend_blind _ _ _ _ _ _ _ _ _ E) as (H1 & H2 & _).
    split; [|exact H2]. unfold vroom. change (vec A) in c, c'. rewrite H1. reflexivity.
  - intros n w r w'. apply vec_try_with_capacity_asks.
Qed.

(** ** Bitmaps *)
Definition broom (b : bitmap) : mem_t := [bitmap_room b].
Lemma phase1_cap R b (it : iter bool R) b1 it1 p : bm_phase1 b it = (b1, it1, p) ->
  v_cap (bm_buf b1) = v_cap (bm_buf b).
Proof.
  unfold bm_phase1. destruct (Nat.eqb _ 0); [intros E; injection E as <- _ _; reflexivity|].
  destruct (nth_error _ _); [|intros E; injection E as <- _ _; reflexivity].
  destruct (bm_fill _ _ _ _) as [[[by1 bi1] i1] p1]. intros E. injection E as <- _ _. reflexivity.
Qed.
Lemma bm_extend_dbl R b (it : iter bool R) b' r o : bm_extend b it = (b', r, o) ->
  dbl (broom b) (broom b').
Proof.
  unfold bm_extend, broom, bitmap_room. destruct (bm_phase1 b (it_fuse it)) as [[b1 it1] p1] eqn:E1.
  rewrite <- (phase1_cap _ _ _ _ _ _ E1).
  destruct p1; [intros E; injection E as <- _ _; apply dbl_refl|].
  destruct (it_next it1) as [[x| |] it2]; try (intros E; injection E as <- _ _; apply dbl_refl).
  destruct (bm_overwrite _ _) as [[ov pk] p2].
  destruct p2; [intros E; injection E as <- _ _; apply dbl_refl|].
  match goal with |- context [vec_extend u8sz ?v ?p] =>
    destruct (vec_extend u8sz v p) as [[v3 [r3 n3]] o3] eqn:E3 end.
  pose proof (vec_extend_dbl _ _ _ _ _ _ _ _ E3) as H. unfold vroom in H. cbn [v_cap] in H.
  destruct o3; intros E; injection E as <- _ _; exact H.
Qed.
Lemma bm_try_extend_asks R b (it : iter bool R) w b' r o w' : bm_try_extend b it w = (b', r, o, w') ->
  lrg (broom b) (broom b') /\ spent_any w w' o.
Proof.
  unfold bm_try_extend, broom, bitmap_room. destruct (bm_phase1 b (it_fuse it)) as [[b1 it1] p1] eqn:E1.
  rewrite <- (phase1_cap _ _ _ _ _ _ E1).
  destruct p1; [intros E; injection E as <- _ <- <-; split; [apply lrg_refl|apply any_none]|].
  destruct (it_next it1) as [[x| |] it2];
    try (intros E; injection E as <- _ <- <-; split; [apply lrg_refl|apply any_none]).
  destruct (bm_overwrite _ _) as [[ov pk] p2].
  destruct p2; [intros E; injection E as <- _ <- <-; split; [apply lrg_refl|apply any_none]|].
  match goal with |- context [vec_try_extend u8sz ?v ?p w] =>
    destruct (vec_try_extend u8sz v p w) as [[[v3 [r3 n3]] o3] w3] eqn:E3 end.
  pose proof (vec_try_extend_asks _ _ _ _ _ _ _ _ _ _ E3) as [H G]. unfold vroom in H. cbn [v_cap] in H.
  destruct o3; intros E; injection E as <- _ <- <-; split; assumption.
Qed.
Lemma bm_reserve_dbl b n b' o : bm_reserve b n = (b', o) -> dbl (broom b) (broom b').
Proof.
  unfold bm_reserve, broom. destruct (_ <=? _)%N; [|intros E; injection E as <- _; apply dbl_refl].
  destruct (vec_reserve _ _ _) as [v1 o1] eqn:E1. intros E. injection E as <- _.
  exact (vec_reserve_dbl _ _ _ _ _ _ E1).
Qed.
Lemma bm_try_reserve_asks b n w b' o w' : bm_try_reserve b n w = (b', o, w') ->
  lrg (broom b) (broom b') /\ spent w w' o 1.
Proof.
  unfold bm_try_reserve, broom. destruct (_ <=? _)%N;
    [|intros E; injection E as <- <- <-; split; [apply lrg_refl|apply spent_none]].
  destruct (vec_try_reserve _ _ _ _) as [[v1 o1] w1] eqn:E1. intros E. injection E as <- <- <-.
  destruct (vec_try_reserve_asks _ _ _ _ _ _ _ _ E1) as (H1 & H2 & _). split; assumption.
Qed.
Lemma bm_truncate_room b n : bitmap_room (bm_truncate b n) = bitmap_room b.
Proof. unfold bm_truncate. destruct (_ <? _)%N; reflexivity. Qed.
Lemma bm_try_with_capacity_asks n w r w' : bm_try_with_capacity n w = (r, w') ->
  spent w w' (err_of r) 1.
Proof.
  unfold bm_try_with_capacity. destruct (vec_try_with_capacity _ _ _) as [r1 w1] eqn:E1.
  intros E. injection E as <- <-. pose proof (vec_try_with_capacity_asks _ _ _ _ _ _ E1) as H.
  destruct r1; exact H.
Qed.
Lemma bm_try_extend_blind R b (it : iter bool R) w b' r w' :
  bm_try_extend b it (None :: w) = (b', r, ODone, w') ->
  bitmap_room b' = bitmap_room b /\ (forall w2, bm_try_extend b it w2 = (b', r, ODone, w2)) /\
  bm_extend b it = (b', r, ODone).
Proof.
  unfold bm_try_extend, bm_extend, bitmap_room.
  destruct (bm_phase1 b (it_fuse it)) as [[b1 it1] p1] eqn:E1.
  rewrite <- (phase1_cap _ _ _ _ _ _ E1).
  destruct p1; [discriminate|].
  destruct (it_next it1) as [[x| |] it2]; try discriminate.
  2: { intros E; injection E as <- <- _; auto. }
  destruct (bm_overwrite _ _) as [[ov pk] p2].
  destruct p2; [discriminate|].
  match goal with |- context [vec_try_extend u8sz ?v ?p (None :: w)] => set (v2 := v);
    destruct (vec_try_extend u8sz v2 p (None :: w)) as [[[v3 [r3 n3]] o3] w3] eqn:E3 end.
  destruct o3; try discriminate.
  destruct (vec_try_extend_blind _ _ _ _ _ _ _ _ _ E3) as (H1 & H2 & H3).
  intros E. injection E as <- <- _. cbn [bm_buf]. rewrite H1. split; [reflexivity|]. split.
  - intros w2. rewrite H2. reflexivity.
  - rewrite H3. reflexivity.
Qed.
Lemma bitmap_asks : Asks bitmap_coll broom (fun _ => 0) 1.
Proof.
  split.
  - reflexivity.
  - intros R c it c' r o. apply bm_extend_dbl.
  - intros c n c' o. apply bm_reserve_dbl.
  - intros c n c' o E. injection E as <- _. unfold broom. rewrite bm_truncate_room. reflexivity.
  - intros R c it w c' r o w'. apply bm_try_extend_asks.
  - intros c n w c' o w'. apply bm_try_reserve_asks.
  - intros R c it w c' r w' E. destruct (bm_try_extend_blind _ _ _ _ _ _ _ E) as (H1 & H2 & _).
    split; [|exact H2]. unfold broom. rewrite H1. reflexivity.
  - intros n w r w'. apply bm_try_with_capacity_asks.
Qed.

(** ** Nullable collections *)
Section Null.
  Context (K : Coll) (mem : cC K -> mem_t) (imp : cC K -> nat) (nb : nat) (L : Asks K mem imp nb).

  Definition vmem (v : validity (cC K)) : mem_t :=
    mem (va_coll v) ++ [match va_bm v with Some b => bitmap_room b | None => (1%N, 0%N) end].
  Definition vimp (v : validity (cC K)) : nat :=
    imp (va_coll v) + match va_bm v with Some _ => 0 | None => 1 end.

  Lemma va_extend_loop_dbl R : forall fuel c b (it : iter (option (cA K)) R) c' b' r o,
    va_extend_loop K fuel c b it = (c', b', r, o) ->
    dbl (mem c) (mem c') /\ dbl (broom b) (broom b').
  Proof.
    induction fuel as [|fuel IH]; intros c b it c' b' r o; cbn [va_extend_loop].
    { intros E. injection E as <- <- _ _. split; apply dbl_refl. }
    destruct (k_extend K c (va_chunk K it)) as [[c1 [it1 vs]] o1] eqn:E1.
    pose proof (as_extend _ _ _ _ L _ _ _ _ _ _ E1) as H1.
    destruct o1; try (intros E; injection E as <- <- _ _; split; [exact H1|apply dbl_refl]).
    destruct (bm_extend b (it_list vs)) as [[b2 r2] o2] eqn:E2.
    pose proof (bm_extend_dbl _ _ _ _ _ _ E2) as H2.
    destruct o2; try (intros E; injection E as <- <- _ _; split; assumption).
    destruct (Nat.ltb _ _); [intros E; injection E as <- <- _ _; split; assumption|].
    intros E. destruct (IH _ _ _ _ _ _ _ E) as [G1 G2].
    split; [exact (dbl_trans _ _ _ H1 G1)|exact (dbl_trans _ _ _ H2 G2)].
  Qed.
  Lemma va_rollback_mem c b len c' b' o : va_rollback K c b len = (c', b', o) ->
    mem c' = mem c /\ broom b' = broom b /\ o <> ODone.
  Proof.
    unfold va_rollback, va_truncate. cbn [va_coll va_bm option_map].
    destruct (k_truncate K c (N.of_nat len)) as [c1 o1] eqn:E1. cbn [va_bm va_coll].
    intros E. injection E as <- <- <-. unfold broom. rewrite bm_truncate_room.
    split; [exact (as_truncate _ _ _ _ L _ _ _ _ E1)|]. split; [reflexivity|]. destruct o1; discriminate.
  Qed.
  Lemma va_try_loop_asks R len : forall fuel c b (it : iter (option (cA K)) R) w c' b' r o w',
    va_try_extend_loop K fuel len c b it w = (c', b', r, o, w') ->
    lrg (mem c) (mem c') /\ lrg (broom b) (broom b') /\ spent_any w w' o.
  Proof.
    induction fuel as [|fuel IH]; intros c b it w c' b' r o w'; cbn [va_try_extend_loop].
    { intros E. injection E as <- <- _ <- <-. split; [apply lrg_refl|]. split; [apply lrg_refl|apply any_none]. }
    destruct (k_try_extend K c (va_chunk K it) w) as [[[c1 [it1 vs]] o1] w1] eqn:E1.
    pose proof (as_try_extend _ _ _ _ L _ _ _ _ _ _ _ _ E1) as [H1 S1].
    destruct o1.
    2: { destruct (va_rollback K c1 b len) as [[c2 b2] o2] eqn:E2.
         destruct (va_rollback_mem _ _ _ _ _ _ E2) as (M1 & M2 & M3).
         intros E. injection E as <- <- _ <- <-. rewrite M1, M2.
         split; [exact H1|]. split; [apply lrg_refl|].
         apply (any_worse w w1 OErr); [exact S1|intros ->; destruct M3; reflexivity]. }
    2-3: intros E; injection E as <- <- _ <- <-; split; [exact H1|]; split; [apply lrg_refl|exact S1].
    destruct (bm_try_extend b (it_list vs) w1) as [[[b2 r2] o2] w2] eqn:E2.
    pose proof (bm_try_extend_asks _ _ _ _ _ _ _ _ E2) as [H2 S2].
    pose proof (any_trans _ _ _ _ S1 S2) as S3.
    destruct o2.
    2: { destruct (va_rollback K c1 b2 len) as [[c3 b3] o3] eqn:E3.
         destruct (va_rollback_mem _ _ _ _ _ _ E3) as (M1 & M2 & M3).
         intros E. injection E as <- <- _ <- <-. rewrite M1, M2.
         split; [exact H1|]. split; [exact H2|].
         apply (any_worse w w2 OErr); [exact S3|intros ->; destruct M3; reflexivity]. }
    2-3: intros E; injection E as <- <- _ <- <-; split; [exact H1|]; split; [exact H2|exact S3].
    destruct (Nat.ltb _ _);
      [intros E; injection E as <- <- _ <- <-; split; [exact H1|]; split; [exact H2|exact S3]|].
    intros E. destruct (IH _ _ _ _ _ _ _ _ _ E) as (G1 & G2 & G3).
    split; [exact (lrg_trans _ _ _ H1 G1)|]. split; [exact (lrg_trans _ _ _ H2 G2)|].
    exact (any_trans _ _ _ _ S3 G3).
  Qed.

  Lemma va_materialize_mem v v' o : va_materialize K v = (v', o) ->
    dbl (vmem v) (vmem v') /\ va_coll v' = va_coll v.
  Proof.
    unfold va_materialize, vmem. destruct (va_bm v) as [b|] eqn:Eb.
    { intros E. injection E as <- _. rewrite Eb. split; [apply dbl_refl|reflexivity]. }
    destruct (k_len K (va_coll v)) as [n|].
    2: { intros E. injection E as <- _. rewrite Eb. split; [apply dbl_refl|reflexivity]. }
    destruct (bm_all_set n) as [b| | |]; intros E; injection E as <- _;
      try (rewrite Eb; split; [apply dbl_refl|reflexivity]).
    cbn [va_coll va_bm]. split; [|reflexivity]. apply dbl_app; [apply dbl_refl|].
    apply dbl_one. apply doubled_zero.
  Qed.
  Lemma vec_collect_room {A R} esz : forall (t : trace A R) n (v : vec A) xs e r,
    run_t t n = (xs, e, r) -> (lenN (v_items v) + lenN xs <= v_cap v)%N ->
    exists res r', (forall w, vec_try_collect_t esz t n v w = (res, r', w)) /\
      (e = FStop -> res = BOk (Vec (v_items v ++ xs) (v_cap v))).
  Proof.
    assert (Z : forall v : vec A, BOk v = BOk (Vec (v_items v ++ []) (v_cap v))).
    { intros [l c]. cbn [v_items v_cap]. rewrite app_nil_r. reflexivity. }
    induction t as [|[[a| |] n'] t IH]; intros n v xs e r; cbn [run_t vec_try_collect_t].
    - intros E _. injection E as <- _ _. do 2 eexists. split; [reflexivity|]. intros _. apply Z.
    - destruct (run_t t n') as [[xs1 e1] r1] eqn:Hr. intros E Hl. injection E as <- <- _.
      rewrite lenN_cons in Hl.
      destruct (IH n' (Vec (v_items v ++ [a]) (v_cap v)) xs1 e1 r1 Hr) as (res & r' & H & G).
      { cbn [v_items v_cap]. rewrite lenN_app, lenN_cons, lenN_nil. lia. }
      exists res, r'. split.
      + intros w. unfold vec_try_reserve.
        destruct (1 <=? v_cap v - lenN (v_items v))%N eqn:E1; [apply H|lia].
      + intros He. rewrite (G He). cbn [v_items v_cap]. rewrite <- app_assoc. reflexivity.
    - intros E _. injection E as <- _ _. do 2 eexists. split; [reflexivity|]. intros _. apply Z.
    - intros E _. injection E as _ <- _. do 2 eexists. split; [reflexivity|]. discriminate.
  Qed.
  Lemma vec_try_from_iter_asks {A R} esz (it : iter A R) w (res : bres (vec A)) r w' :
    (lenN (items_of it) <= fst (it_hint it))%N -> fin_of it = FStop ->
    vec_try_from_iter esz it w = (res, r, w') -> spent w w' (err_of res) 1.
  Proof.
    intros Hl Hf. unfold vec_try_from_iter.
    destruct (vec_try_with_capacity esz (fst (it_hint it)) w) as [res1 w1] eqn:E1.
    pose proof (vec_try_with_capacity_asks _ _ _ _ _ _ E1) as S1.
    apply vec_try_with_capacity_spec in E1.
    destruct res1 as [v| | |]; try (intros E; injection E as <- _ <-; exact S1).
    destruct E1 as (_ & Hi & Hc). destruct (run it) as [[xs e] r0] eqn:Hr.
    unfold items_of, fin_of in *. rewrite Hr in *. cbn [fst snd] in *.
    destruct (vec_collect_room esz _ _ v _ _ _ Hr) as (res2 & r2 & H & G).
    { rewrite Hi, lenN_nil. lia. }
    rewrite H. intros E. injection E as <- _ <-. rewrite (G Hf). exact S1.
  Qed.
  Lemma list_items {A} (l : list A) : items_of (it_list l) = l /\ fin_of (it_list l) = FStop /\
    fst (it_hint (it_list l)) = lenN l.
  Proof. unfold items_of, fin_of. rewrite run_list. split; [reflexivity|]. split; reflexivity. Qed.
  Lemma va_try_materialize_asks v w v' o w' : va_try_materialize K v w = (v', o, w') ->
    lrg (vmem v) (vmem v') /\ va_coll v' = va_coll v /\
    spent w w' o (match va_bm v with Some _ => 0 | None => 1 end).
  Proof.
    unfold va_try_materialize, vmem. destruct (va_bm v) as [b|] eqn:Eb.
    { intros E. injection E as <- <- <-. rewrite Eb. split; [apply lrg_refl|].
      split; [reflexivity|apply spent_none]. }
    destruct (k_len K (va_coll v)) as [n|].
    2: { intros E. injection E as <- <- <-. rewrite Eb. split; [apply lrg_refl|].
         split; [reflexivity|apply spent_none]. }
    destruct (bm_try_all_set n w) as [r w1] eqn:E1. unfold bm_try_all_set in E1.
    destruct (vec_try_from_iter u8sz (it_list (all_set_bytes n)) w) as [[r1 u1] w2] eqn:E2.
    injection E1 as <- <-. destruct (list_items (all_set_bytes n)) as (I1 & I2 & I3).
    pose proof (vec_try_from_iter_asks _ _ _ _ _ _
      ltac:(rewrite I1, I3; lia) I2 E2) as S1.
    destruct r1 as [b| | |]; cbn [bmap]; intros E; injection E as <- <- <-; cbn [err_of] in S1;
      try (rewrite Eb; split; [apply lrg_refl|]; split; [reflexivity|];
           apply (spent_worse _ _ _ _ _ S1); discriminate).
    cbn [va_coll va_bm]. split; [|split; [reflexivity|exact S1]]. apply lrg_app; [apply lrg_refl|].
    apply lrg_one. apply doubled_large. apply doubled_zero.
  Qed.
  (** Without a request: the bitmap is there or nothing is in it. *)
  Lemma va_try_materialize_blind v w v' w' :
    va_try_materialize K v (None :: w) = (v', ODone, w') ->
    vmem v' = vmem v /\ (forall w2, va_try_materialize K v w2 = (v', ODone, w2)) /\
    va_materialize K v = (v', ODone) /\ va_len K v = Ret (match va_bm v' with Some b => bm_len b | None => 0 end) /\
    va_bm v' <> None.
  Proof.
    unfold va_try_materialize, va_materialize, vmem, va_len. destruct (va_bm v) as [b|] eqn:Eb.
    { intros E. injection E as <- _. rewrite Eb. repeat split; discriminate. }
    destruct (k_len K (va_coll v)) as [n|]; [|discriminate].
    unfold bm_try_all_set, bm_all_set.
    destruct n as [|n].
    - cbn. intros E. injection E as <- _. cbn. repeat split. discriminate.
    - destruct (vec_try_from_iter u8sz (it_list (all_set_bytes (S n))) (None :: w)) as [[r1 u1] w2] eqn:E2.
      assert (Hne : all_set_bytes (S n) <> []).
      { unfold all_set_bytes. intros H. apply app_eq_nil in H. destruct H as [H1 H2].
        pose proof (Nat.div_mod (S n) 8 ltac:(lia)) as Hd.
        destruct (S n / 8); [|discriminate].
        destruct (Nat.eqb_spec (S n mod 8) 0) as [Hm|Hm]; [lia|discriminate]. }
      intros E. exfalso. revert E2 E. unfold vec_try_from_iter, vec_try_with_capacity, vec_try_reserve.
      cbn [vec_new v_items v_cap]. rewrite (proj2 (proj2 (list_items _))).
      destruct (all_set_bytes (S n)) as [|x l] eqn:Ea; [congruence|].
      rewrite lenN_cons, (@lenN_nil N).
      destruct (_ <=? 0 - 0)%N eqn:El; [lia|].
      destruct (max_items u8sz <? _)%N; intros E; injection E as <- _ _; discriminate.
  Qed.

  Lemma va_loop_blind R len : forall fuel c b (it : iter (option (cA K)) R) w c' b' r w',
    va_try_extend_loop K fuel len c b it (None :: w) = (c', b', r, ODone, w') ->
    mem c' = mem c /\ bitmap_room b' = bitmap_room b /\
    forall w2, va_try_extend_loop K fuel len c b it w2 = (c', b', r, ODone, w2).
  Proof.
    induction fuel as [|fuel IH]; intros c b it w c' b' r w'; cbn [va_try_extend_loop]; [discriminate|].
    destruct (k_try_extend K c (va_chunk K it) (None :: w)) as [[[c1 [it1 vs]] o1] w1] eqn:E1.
    destruct o1; try discriminate.
    2: { destruct (va_rollback K c1 b len) as [[c2 b2] o2] eqn:E2.
         destruct (va_rollback_mem _ _ _ _ _ _ E2) as (_ & _ & M3).
         intros E. injection E as _ _ _ -> _. destruct M3; reflexivity. }
    destruct (as_blind _ _ _ _ L _ _ _ _ _ _ _ E1) as [H1 B1].
    rewrite (B1 (None :: w)) in E1. injection E1 as <-.
    destruct (bm_try_extend b (it_list vs) (None :: w)) as [[[b2 r2] o2] w2] eqn:E2.
    destruct o2; try discriminate.
    2: { destruct (va_rollback K c1 b2 len) as [[c3 b3] o3] eqn:E3.
         destruct (va_rollback_mem _ _ _ _ _ _ E3) as (_ & _ & M3).
         intros E. injection E as _ _ _ -> _. destruct M3; reflexivity. }
    destruct (bm_try_extend_blind _ _ _ _ _ _ _ E2) as (H2 & B2 & _).
    rewrite (B2 (None :: w)) in E2. injection E2 as <-.
    destruct (Nat.ltb (length vs) chunk) eqn:El.
    - intros E. injection E as <- <- <- _. split; [exact H1|]. split; [exact H2|].
      intros w2. rewrite B1, B2, El. reflexivity.
    - intros E. destruct (IH _ _ _ _ _ _ _ _ E) as (G1 & G2 & G3).
      split; [congruence|]. split; [congruence|]. intros w2. rewrite B1, B2, El. apply G3.
  Qed.
  Lemma bm_room_app (c c' : cC K) b b' : dbl (mem c) (mem c') -> dbl (broom b) (broom b') ->
    dbl (vmem (Validity c (Some b))) (vmem (Validity c' (Some b'))).
  Proof. intros H1 H2. unfold vmem. cbn [va_coll va_bm]. apply dbl_app; assumption. Qed.
  Lemma vmem_some v b : va_bm v = Some b -> vmem v = mem (va_coll v) ++ broom b.
  Proof. intros H. unfold vmem. rewrite H. reflexivity. Qed.

  Lemma validity_asks : Asks (validity_coll K) vmem vimp (nb + 1).
  Proof.
    split.
    - intros v. change (validity (cC K)) in v. unfold vmem. rewrite app_length, (as_length _ _ _ _ L). reflexivity.
    - intros R v it v' r o. change (validity (cC K)) in v, v'. change (iter (option (cA K)) R) in it.
      change (va_extend K v it = (v', r, o) -> dbl (vmem v) (vmem v')). unfold va_extend.
      destruct (va_materialize K v) as [v1 o1] eqn:E1.
      destruct (va_materialize_mem _ _ _ E1) as [H1 C1].
      destruct o1; try (intros E; injection E as <- _ _; exact H1).
      destruct (va_bm v1) as [b|] eqn:Eb; [|intros E; injection E as <- _ _; exact H1].
      destruct (k_truncate K (va_coll v1) (N.of_nat (bm_len b))) as [c2 o2] eqn:E2.
      pose proof (as_truncate _ _ _ _ L _ _ _ _ E2) as T2.
      assert (H2 : dbl (vmem v) (mem c2 ++ broom b)).
      { rewrite T2, <- (vmem_some v1 b Eb). exact H1. }
      destruct o2; try (intros E; injection E as <- _ _; exact H2).
      destruct (va_extend_loop K (S (length (it_tr it))) c2 b it) as [[[c3 b3] r3] o3] eqn:E3.
      destruct (va_extend_loop_dbl _ _ _ _ _ _ _ _ _ E3) as [G1 G2].
      intros E. injection E as <- _ _. apply (dbl_trans _ _ _ H2). apply dbl_app; assumption.
    - intros v n v' o. change (validity (cC K)) in v, v'.
      change (va_reserve K v n = (v', o) -> dbl (vmem v) (vmem v')). unfold va_reserve.
      destruct (va_materialize K v) as [v1 o1] eqn:E1.
      destruct (va_materialize_mem _ _ _ E1) as [H1 C1].
      destruct o1; try (intros E; injection E as <- _; exact H1).
      destruct (va_bm v1) as [b|] eqn:Eb; [|intros E; injection E as <- _; exact H1].
      destruct (bm_reserve b n) as [b2 o2] eqn:E2. pose proof (bm_reserve_dbl _ _ _ _ E2) as H2.
      rewrite (vmem_some v1 b Eb) in H1.
      destruct o2; try (intros E; injection E as <- _; apply (dbl_trans _ _ _ H1);
        apply dbl_app; [apply dbl_refl|exact H2]).
      destruct (k_reserve K (va_coll v1) n) as [c3 o3] eqn:E3.
      intros E. injection E as <- _. apply (dbl_trans _ _ _ H1). apply dbl_app; [|exact H2].
      exact (as_reserve _ _ _ _ L _ _ _ _ E3).
    - intros v n v' o. change (validity (cC K)) in v, v'.
      change (va_truncate K v n = (v', o) -> vmem v' = vmem v). unfold va_truncate, vmem.
      destruct (k_truncate K (va_coll v) n) as [c1 o1] eqn:E1. intros E. injection E as <- _.
      cbn [va_coll va_bm]. rewrite (as_truncate _ _ _ _ L _ _ _ _ E1). f_equal.
      destruct (va_bm v) as [b|]; [|reflexivity]. cbn [option_map]. rewrite bm_truncate_room. reflexivity.
    - intros R v it w v' r o w'. change (validity (cC K)) in v, v'. change (iter (option (cA K)) R) in it.
      change (va_try_extend K v it w = (v', r, o, w') -> lrg (vmem v) (vmem v') /\ spent_any w w' o).
      unfold va_try_extend. destruct (va_len K v) as [len|];
        [|intros E; injection E as <- _ <- <-; split; [apply lrg_refl|apply any_none]].
      destruct (va_try_materialize K v w) as [[v1 o1] w1] eqn:E1.
      destruct (va_try_materialize_asks _ _ _ _ _ E1) as (H1 & C1 & S1). apply any_of in S1.
      destruct o1; try (intros E; injection E as <- _ <- <-; split; assumption).
      destruct (va_bm v1) as [b|] eqn:Eb.
      2: { intros E. injection E as <- _ <- <-. split; [exact H1|].
           apply (any_worse _ _ _ _ S1). discriminate. }
      destruct (k_truncate K (va_coll v1) (N.of_nat len)) as [c2 o2] eqn:E2.
      pose proof (as_truncate _ _ _ _ L _ _ _ _ E2) as T2.
      assert (H2 : lrg (vmem v) (mem c2 ++ broom b)).
      { rewrite T2, <- (vmem_some v1 b Eb). exact H1. }
      destruct o2; try (intros E; injection E as <- _ <- <-; split;
        [exact H2|apply (any_worse _ _ _ _ S1); discriminate]).
      destruct (va_try_extend_loop K (S (length (it_tr it))) len c2 b it w1) as [[[[c3 b3] r3] o3] w3] eqn:E3.
      destruct (va_try_loop_asks _ _ _ _ _ _ _ _ _ _ _ _ E3) as (G1 & G2 & G3).
      intros E. injection E as <- _ <- <-. split.
      + apply (lrg_trans _ _ _ H2). apply lrg_app; assumption.
      + exact (any_trans _ _ _ _ S1 G3).
    - intros v n w v' o w'. change (validity (cC K)) in v, v'.
      change (va_try_reserve K v n w = (v', o, w') ->
        lrg (vmem v) (vmem v') /\ spent w w' o (nb + 1 + vimp v)).
      unfold va_try_reserve, vimp.
      destruct (va_try_materialize K v w) as [[v1 o1] w1] eqn:E1.
      destruct (va_try_materialize_asks _ _ _ _ _ E1) as (H1 & C1 & S1).
      set (k := match va_bm v with Some _ => 0 | None => 1 end) in *.
      assert (S1' : forall o', o' <> ODone -> spent w w1 o' (nb + 1 + (imp (va_coll v) + k))).
      { intros o' Ho. apply (spent_more _ _ _ k); [|lia].
        apply (spent_worse _ _ _ _ _ S1). intros ->. congruence. }
      destruct o1; try (intros E; injection E as <- <- <-; split; [exact H1|apply S1'; discriminate]).
      destruct (va_bm v1) as [b|] eqn:Eb.
      2: { intros E. injection E as <- <- <-. split; [exact H1|apply S1'; discriminate]. }
      rewrite (vmem_some v1 b Eb) in H1.
      destruct (k_try_reserve K (va_coll v1) n w1) as [[c2 o2] w2] eqn:E2.
      destruct (as_try_reserve _ _ _ _ L _ _ _ _ _ _ E2) as [H2 S2]. rewrite C1 in S2.
      pose proof (spent_trans _ _ _ _ _ _ S1 S2) as S3.
      destruct o2; try (intros E; injection E as <- <- <-; split;
        [apply (lrg_trans _ _ _ H1); apply lrg_app; [exact H2|apply lrg_refl]
        |apply (spent_more _ _ _ _ _ S3); lia]).
      destruct (bm_try_reserve b n w2) as [[b3 o3] w3] eqn:E3.
      destruct (bm_try_reserve_asks _ _ _ _ _ _ E3) as [H3 S4].
      intros E. injection E as <- <- <-. split.
      + apply (lrg_trans _ _ _ H1). apply lrg_app; assumption.
      + pose proof (spent_trans _ _ _ _ _ _ S3 S4) as S5. apply (spent_more _ _ _ _ _ S5). lia.
    - intros R v it w v' r w'. change (validity (cC K)) in v, v'. change (iter (option (cA K)) R) in it.
      change (va_try_extend K v it (None :: w) = (v', r, ODone, w') ->
        vmem v' = vmem v /\ forall w2, va_try_extend K v it w2 = (v', r, ODone, w2)).
      unfold va_try_extend. destruct (va_len K v) as [len|]; [|discriminate].
      destruct (va_try_materialize K v (None :: w)) as [[v1 o1] w1] eqn:E1.
      destruct o1; try discriminate.
      destruct (va_try_materialize_blind _ _ _ _ E1) as (H1 & B1 & _).
      rewrite (B1 (None :: w)) in E1. injection E1 as <-.
      destruct (va_bm v1) as [b|] eqn:Eb; [|discriminate].
      destruct (k_truncate K (va_coll v1) (N.of_nat len)) as [c2 o2] eqn:E2.
      pose proof (as_truncate _ _ _ _ L _ _ _ _ E2) as T2. destruct o2; try discriminate.
      destruct (va_try_extend_loop K (S (length (it_tr it))) len c2 b it (None :: w))
        as [[[[c3 b3] r3] o3] w3] eqn:E3.
      intros E. injection E as <- <- -> <-.
      destruct (va_loop_blind _ _ _ _ _ _ _ _ _ _ _ E3) as (G1 & G2 & G3). split.
      + rewrite <- H1, (vmem_some v1 b Eb). unfold vmem. cbn [va_coll va_bm].
        rewrite G1, G2, T2. reflexivity.
      + intros w2. rewrite B1, Eb, E2, G3. reflexivity.
    - intros n w r w'.
      change (va_try_with_capacity K n w = (r, w') -> spent w w' (err_of r) (nb + 1)).
      unfold va_try_with_capacity. destruct (k_try_with_capacity K n w) as [r1 w1] eqn:E1.
      pose proof (as_with_capacity _ _ _ _ L _ _ _ _ E1) as S1.
      destruct r1 as [c| | |]; try (intros E; injection E as <- <-; cbn [err_of];
        apply (spent_more _ _ _ _ _ S1); lia).
      destruct (bm_try_with_capacity n w1) as [r2 w2] eqn:E2.
      pose proof (bm_try_with_capacity_asks _ _ _ _ E2) as S2.
      intros E. injection E as <- <-. pose proof (spent_trans _ _ _ _ _ _ S1 S2) as S3.
      destruct r2; exact S3.
  Qed.
End Null.

(** ** Fixed-size lists *)
Lemma flatten_asks K mem imp nb n : Asks K mem imp nb -> Asks (flatten_coll K n) mem imp nb.
Proof.
  intros L. split.
  - exact (as_length _ _ _ _ L).
  - intros R c it c' r o. apply (as_extend _ _ _ _ L).
  - intros c k c' o E. change (fl_reserve K n c k = (c', o)) in E. unfold fl_reserve in E.
    destruct (strict_mul k (N.of_nat n)); [exact (as_reserve _ _ _ _ L _ _ _ _ E)|].
    injection E as <- _. apply dbl_refl.
  - intros c k c' o E. change (fl_truncate K n c k = (c', o)) in E. unfold fl_truncate in E.
    destruct (fl_len K n c); [|injection E as <- _; reflexivity].
    destruct (k <? N.of_nat _)%N; [|injection E as <- _; reflexivity].
    destruct (strict_mul k (N.of_nat n)); [exact (as_truncate _ _ _ _ L _ _ _ _ E)|].
    injection E as <- _. reflexivity.
  - intros R c it w c' r o w'. apply (as_try_extend _ _ _ _ L).
  - intros c k w c' o w' E. change (fl_try_reserve K n c k w = (c', o, w')) in E. unfold fl_try_reserve in E.
    destruct (checked_mul k (N.of_nat n)); [exact (as_try_reserve _ _ _ _ L _ _ _ _ _ _ E)|].
    injection E as <- <- <-. split; [apply lrg_refl|apply spent_none].
  - intros R c it w c' r w'. apply (as_blind _ _ _ _ L).
  - intros k w r w' E. change (fl_try_with_capacity K n k w = (r, w')) in E. unfold fl_try_with_capacity in E.
    destruct (checked_mul k (N.of_nat n)); [exact (as_with_capacity _ _ _ _ L _ _ _ _ E)|].
    injection E as <- <-. apply spent_none.
Qed.

(** ** Lists *)
Section Lists.
  Context (K : Coll) (mem : cC K -> mem_t) (imp : cC K -> nat) (nb : nat) (L : Asks K mem imp nb)
    (kd : okind).

  Definition omem (o : offsets (cC K)) : mem_t := mem (of_data o) ++ vroom (osz kd) (of_offs o).
  Definition oimp (o : offsets (cC K)) : nat := imp (of_data o).

  Lemma of_extend_t_dbl R : forall (t : trace (list (cA K)) R) n o p o' r e,
    of_extend_t K kd t n o p = (o', r, e) -> dbl (omem o) (omem o').
  Proof.
    induction t as [|[[l| |] n'] t IH]; intros n o p o' r e; cbn [of_extend_t];
      try (intros E; injection E as <- _ _; apply dbl_refl).
    destruct (off_try_from kd (lenN l)) as [z|]; [|intros E; injection E as <- _ _; apply dbl_refl].
    destruct (off_strict_add kd p z) as [next|]; [|intros E; injection E as <- _ _; apply dbl_refl].
    destruct (k_reserve K (of_data o) (lenN l)) as [d1 o1] eqn:E1.
    pose proof (as_reserve _ _ _ _ L _ _ _ _ E1) as H1.
    destruct o1; try (intros E; injection E as <- _ _; apply dbl_app; [exact H1|apply dbl_refl]).
    destruct (k_extend K d1 (it_list l)) as [[d2 r2] o2] eqn:E2.
    pose proof (dbl_trans _ _ _ H1 (as_extend _ _ _ _ L _ _ _ _ _ _ E2)) as H2.
    destruct o2; try (intros E; injection E as <- _ _; apply dbl_app; [exact H2|apply dbl_refl]).
    destruct (vec_extend (osz kd) (of_offs o) (it_list [next])) as [[v3 r3] o3] eqn:E3.
    pose proof (dbl_app _ _ _ _ H2 (vec_extend_dbl _ _ _ _ _ _ _ _ E3)) as H3.
    destruct o3; try (intros E; injection E as <- _ _; exact H3).
    intros E. exact (dbl_trans _ _ _ H3 (IH _ _ _ _ _ _ E)).
  Qed.
  Lemma of_rollback_mem o rows len o' e : of_rollback K o rows len = (o', e) ->
    omem o' = omem o /\ e <> ODone.
  Proof.
    unfold of_rollback, omem, vroom. destruct (k_truncate K (of_data o) len) as [d1 e1] eqn:E1.
    intros E. injection E as <- <-. cbn [of_data of_offs].
    rewrite (as_truncate _ _ _ _ L _ _ _ _ E1), vec_truncate_cap. split; [reflexivity|].
    destruct e1; discriminate.
  Qed.
  Lemma of_try_extend_t_asks R rows len : forall (t : trace (list (cA K)) R) n o p w o' r e w',
    of_try_extend_t K kd rows len t n o p w = (o', r, e, w') ->
    lrg (omem o) (omem o') /\ spent_any w w' e.
  Proof.
    induction t as [|[[l| |] n'] t IH]; intros n o p w o' r e w'; cbn [of_try_extend_t];
      try (intros E; injection E as <- _ <- <-; split; [apply lrg_refl|apply any_none]).
    destruct (as_usize p) as [u|];
      [|intros E; injection E as <- _ <- <-; split; [apply lrg_refl|apply any_none]].
    destruct (match checked_add u (lenN l) with Some u' => off_try_from kd u' | None => None end)
      as [next|].
    2: { destruct (of_rollback K o rows len) as [o1 e1] eqn:E1.
         destruct (of_rollback_mem _ _ _ _ _ E1) as [M1 _].
         intros E. injection E as <- _ <- <-. rewrite M1. split; [apply lrg_refl|apply any_none]. }
    destruct (k_try_extend K (of_data o) (it_list l) w) as [[[d2 r2] o2] w2] eqn:E2.
    destruct (as_try_extend _ _ _ _ L _ _ _ _ _ _ _ _ E2) as [H2 S2].
    assert (G2 : lrg (omem o) (omem (Offsets d2 (of_offs o)))).
    { apply lrg_app; [exact H2|apply lrg_refl]. }
    destruct o2; try (intros E; injection E as <- _ <- <-; split; assumption).
    2: { destruct (of_rollback K (Offsets d2 (of_offs o)) rows len) as [o1 e1] eqn:E1.
         destruct (of_rollback_mem _ _ _ _ _ E1) as [M1 M2].
         intros E. injection E as <- _ <- <-. rewrite M1. split; [exact G2|].
         apply (any_worse _ _ _ _ S2). intros ->. destruct M2; reflexivity. }
    destruct (vec_try_extend (osz kd) (of_offs o) (it_list [next]) w2) as [[[v3 r3] o3] w3] eqn:E3.
    destruct (vec_try_extend_asks _ _ _ _ _ _ _ _ _ _ E3) as [H3 S3].
    pose proof (any_trans _ _ _ _ S2 S3) as S4.
    assert (G3 : lrg (omem o) (omem (Offsets d2 v3))) by (apply lrg_app; assumption).
    destruct o3; try (intros E; injection E as <- _ <- <-; split; assumption).
    - intros E. destruct (IH _ _ _ _ _ _ _ _ E) as [H4 S5].
      split; [exact (lrg_trans _ _ _ G3 H4)|exact (any_trans _ _ _ _ S4 S5)].
    - destruct (of_rollback K (Offsets d2 v3) rows len) as [o1 e1] eqn:E1.
      destruct (of_rollback_mem _ _ _ _ _ E1) as [M1 M2].
      intros E. injection E as <- _ <- <-. rewrite M1. split; [exact G3|].
      apply (any_worse _ _ _ _ S4). intros ->. destruct M2; reflexivity.
  Qed.
  Lemma of_try_extend_t_blind R rows len : forall (t : trace (list (cA K)) R) n o p w o' r w',
    of_try_extend_t K kd rows len t n o p (None :: w) = (o', r, ODone, w') ->
    omem o' = omem o /\ forall w2, of_try_extend_t K kd rows len t n o p w2 = (o', r, ODone, w2).
  Proof.
    induction t as [|[[l| |] n'] t IH]; intros n o p w o' r w'; cbn [of_try_extend_t];
      try discriminate; try (intros E; injection E as <- <- _; split; reflexivity).
    destruct (as_usize p) as [u|]; [|discriminate].
    destruct (match checked_add u (lenN l) with Some u' => off_try_from kd u' | None => None end)
      as [next|].
    2: { destruct (of_rollback K o rows len) as [o1 e1] eqn:E1.
         destruct (of_rollback_mem _ _ _ _ _ E1) as [_ M].
         intros E. injection E as _ _ -> _. destruct M; reflexivity. }
    destruct (k_try_extend K (of_data o) (it_list l) (None :: w)) as [[[d2 r2] o2] w2] eqn:E2.
    destruct o2; try discriminate.
    2: { destruct (of_rollback K (Offsets d2 (of_offs o)) rows len) as [o1 e1] eqn:E1.
         destruct (of_rollback_mem _ _ _ _ _ E1) as [_ M].
         intros E. injection E as _ _ -> _. destruct M; reflexivity. }
    destruct (as_blind _ _ _ _ L _ _ _ _ _ _ _ E2) as [H2 B2].
    rewrite (B2 (None :: w)) in E2. injection E2 as <-.
    destruct (vec_try_extend (osz kd) (of_offs o) (it_list [next]) (None :: w)) as [[[v3 r3] o3] w3] eqn:E3.
    destruct o3; try discriminate.
    2: { destruct (of_rollback K (Offsets d2 v3) rows len) as [o1 e1] eqn:E1.
         destruct (of_rollback_mem _ _ _ _ _ E1) as [_ M].
         intros E. injection E as _ _ -> _. destruct M; reflexivity. }
    destruct (vec_try_extend_blind _ _ _ _ _ _ _ _ _ E3) as (H3 & B3 & _).
    rewrite (B3 (None :: w)) in E3. injection E3 as <-.
    intros E. destruct (IH _ _ _ _ _ _ _ E) as [H4 B4]. split.
    - rewrite H4. unfold omem, vroom. cbn [of_data of_offs]. rewrite H2, H3. reflexivity.
    - intros w2. rewrite B2, B3. apply B4.
  Qed.

  Lemma offsets_asks : Asks (offsets_coll K kd) omem oimp (nb + 1).
  Proof.
    split.
    - intros o. change (offsets (cC K)) in o. unfold omem. rewrite app_length, (as_length _ _ _ _ L). reflexivity.
    - intros R o it o' r e. change (offsets (cC K)) in o, o'. change (iter (list (cA K)) R) in it.
      change (of_extend K kd o it = (o', r, e) -> dbl (omem o) (omem o')). unfold of_extend.
      destruct (nth_error _ _) as [p|]; [|intros E; injection E as <- _ _; apply dbl_refl].
      destruct (as_usize p) as [u|]; [|intros E; injection E as <- _ _; apply dbl_refl].
      destruct (k_truncate K (of_data o) u) as [d1 o1] eqn:E1.
      assert (M : omem (Offsets d1 (of_offs o)) = omem o).
      { unfold omem. cbn [of_data of_offs]. rewrite (as_truncate _ _ _ _ L _ _ _ _ E1). reflexivity. }
      destruct o1; try (intros E; injection E as <- _ _; rewrite M; apply dbl_refl).
      intros E. rewrite <- M. exact (of_extend_t_dbl _ _ _ _ _ _ _ _ E).
    - intros o n o' e. change (offsets (cC K)) in o, o'.
      change (of_reserve K kd o n = (o', e) -> dbl (omem o) (omem o')). unfold of_reserve.
      destruct (k_reserve K (of_data o) n) as [d1 o1] eqn:E1.
      pose proof (as_reserve _ _ _ _ L _ _ _ _ E1) as H1.
      destruct o1; try (intros E; injection E as <- _; apply dbl_app; [exact H1|apply dbl_refl]).
      destruct (vec_reserve (osz kd) (of_offs o) n) as [v2 o2] eqn:E2.
      intros E. injection E as <- _. apply dbl_app; [exact H1|exact (vec_reserve_dbl _ _ _ _ _ _ E2)].
    - intros o n o' e. change (offsets (cC K)) in o, o'.
      change (of_truncate K o n = (o', e) -> omem o' = omem o). unfold of_truncate.
      destruct (of_len K o) as [m|]; [|intros E; injection E as <- _; reflexivity].
      destruct (n <? N.of_nat m)%N; [|intros E; injection E as <- _; reflexivity].
      destruct (vec_view (of_offs o) n) as [z|]; [|intros E; injection E as <- _; reflexivity].
      destruct (as_usize z) as [u|]; [|intros E; injection E as <- _; reflexivity].
      destruct (k_truncate K (of_data o) u) as [d1 o1] eqn:E1.
      intros E. injection E as <- _. unfold omem, vroom. cbn [of_data of_offs].
      rewrite (as_truncate _ _ _ _ L _ _ _ _ E1), vec_truncate_cap. reflexivity.
    - intros R o it w o' r e w'. change (offsets (cC K)) in o, o'. change (iter (list (cA K)) R) in it.
      change (of_try_extend K kd o it w = (o', r, e, w') -> lrg (omem o) (omem o') /\ spent_any w w' e).
      unfold of_try_extend. assert (N0 : forall r0 e0, (o, r0, e0, w) = (o', r, e, w') ->
        lrg (omem o) (omem o') /\ spent_any w w' e).
      { intros r0 e0 E. injection E as <- _ <- <-. split; [apply lrg_refl|apply any_none]. }
      destruct (of_len K o) as [rows|]; [|apply N0].
      destruct (nth_error _ _) as [p|]; [|apply N0].
      destruct (as_usize p) as [u|]; [|apply N0].
      destruct (k_truncate K (of_data o) u) as [d1 o1] eqn:E1.
      assert (M : omem (Offsets d1 (of_offs o)) = omem o).
      { unfold omem. cbn [of_data of_offs]. rewrite (as_truncate _ _ _ _ L _ _ _ _ E1). reflexivity. }
      destruct o1; try (intros E; injection E as <- _ <- <-; rewrite M; split; [apply lrg_refl|apply any_none]).
      intros E. rewrite <- M. exact (of_try_extend_t_asks _ _ _ _ _ _ _ _ _ _ _ _ E).
    - intros o n w o' e w'. change (offsets (cC K)) in o, o'.
      change (of_try_reserve K kd o n w = (o', e, w') ->
        lrg (omem o) (omem o') /\ spent w w' e (nb + 1 + imp (of_data o))). unfold of_try_reserve.
      destruct (k_try_reserve K (of_data o) n w) as [[d1 o1] w1] eqn:E1.
      destruct (as_try_reserve _ _ _ _ L _ _ _ _ _ _ E1) as [H1 S1].
      destruct o1; try (intros E; injection E as <- <- <-; split;
        [apply lrg_app; [exact H1|apply lrg_refl]|apply (spent_more _ _ _ _ _ S1); lia]).
      destruct (vec_try_reserve (osz kd) (of_offs o) n w1) as [[v2 o2] w2] eqn:E2.
      destruct (vec_try_reserve_asks _ _ _ _ _ _ _ _ E2) as (H2 & S2 & _).
      intros E. injection E as <- <- <-. split; [apply lrg_app; assumption|].
      apply (spent_more _ _ _ _ _ (spent_trans _ _ _ _ _ _ S1 S2)). lia.
    - intros R o it w o' r w'. change (offsets (cC K)) in o, o'. change (iter (list (cA K)) R) in it.
      change (of_try_extend K kd o it (None :: w) = (o', r, ODone, w') ->
        omem o' = omem o /\ forall w2, of_try_extend K kd o it w2 = (o', r, ODone, w2)).
      unfold of_try_extend.
      destruct (of_len K o) as [rows|]; [|discriminate].
      destruct (nth_error _ _) as [p|]; [|discriminate].
      destruct (as_usize p) as [u|]; [|discriminate].
      destruct (k_truncate K (of_data o) u) as [d1 o1] eqn:E1. destruct o1; try discriminate.
      assert (M : omem (Offsets d1 (of_offs o)) = omem o).
      { unfold omem. cbn [of_data of_offs]. rewrite (as_truncate _ _ _ _ L _ _ _ _ E1). reflexivity. }
      intros E. rewrite <- M. exact (of_try_extend_t_blind _ _ _ _ _ _ _ _ _ _ _ E).
    - intros n w r w'.
      change (of_try_with_capacity K kd n w = (r, w') -> spent w w' (err_of r) (nb + 1)).
      unfold of_try_with_capacity.
      destruct (checked_add n 1) as [n1|] eqn:En; [|intros E; injection E as <- <-; apply spent_none].
      destruct (k_try_with_capacity K n w) as [r1 w1] eqn:E1.
      pose proof (as_with_capacity _ _ _ _ L _ _ _ _ E1) as S1.
      destruct r1 as [c| | |]; try (intros E; injection E as <- <-; cbn [err_of];
        apply (spent_more _ _ _ _ _ S1); lia).
      destruct (@vec_try_with_capacity Z (osz kd) n1 w1) as [r2 w2] eqn:E2.
      pose proof (vec_try_with_capacity_asks _ _ _ _ _ _ E2) as S2.
      pose proof (spent_trans _ _ _ _ _ _ S1 S2) as S3.
      apply vec_try_with_capacity_spec in E2.
      destruct r2 as [v| | |]; try (intros E; injection E as <- <-; exact S3).
      destruct E2 as (_ & Hi & Hc).
      assert (H1 : (1 <= n1)%N).
      { unfold checked_add in En. destruct (_ <=? _)%N; [|discriminate]. injection En as <-. lia. }
      unfold vec_try_extend, vec_try_reserve. cbn [it_list it_hint nd_hint it_node exact_hint fst length].
      rewrite Hi, (@lenN_nil Z).
      destruct (N.of_nat 1 <=? v_cap v - 0)%N eqn:El; [|lia].
      cbn [it_tr it_list list_t vec_try_push_t]. rewrite Hi, (@lenN_nil Z).
      destruct (0 =? v_cap v)%N eqn:Ez; [lia|].
      intros E. injection E as <- <-. exact S3.
  Qed.
End Lists.

(** ** An infallible extension, without lists *)
Definition Same (K : Coll) : Prop := forall R c (it : iter (cA K) R) w c' r w',
  k_try_extend K c it (None :: w) = (c', r, ODone, w') -> k_extend K c it = (c', r, ODone).
Lemma vec_same A a0 esz : Same (vec_coll A a0 esz).
Proof. intros R c it w c' r w' E. exact (proj2 (proj2 (vec_try_extend_blind _ _ _ _ _ _ _ _ _ E))). Qed.
Lemma bitmap_same : Same bitmap_coll.
Proof. intros R c it w c' r w' E. exact (proj2 (proj2 (bm_try_extend_blind _ _ _ _ _ _ _ E))). Qed.
Lemma flatten_same K n : Same K -> Same (flatten_coll K n).
Proof. intros H R c it w c' r w'. apply H. Qed.
Lemma validity_same K mem imp nb : Asks K mem imp nb -> Same K -> Same (validity_coll K).
Proof.
  intros L H R v it w v' r w'. change (validity (cC K)) in v, v'. change (iter (option (cA K)) R) in it.
  change (va_try_extend K v it (None :: w) = (v', r, ODone, w') -> va_extend K v it = (v', r, ODone)).
  unfold va_try_extend, va_extend. destruct (va_len K v) as [len|] eqn:El; [|discriminate].
  destruct (va_try_materialize K v (None :: w)) as [[v1 o1] w1] eqn:E1.
  destruct o1; try discriminate.
  destruct (va_try_materialize_blind K mem v _ _ _ E1) as (_ & B1 & B2 & B3 & _).
  rewrite (B1 (None :: w)) in E1. injection E1 as <-. rewrite B2.
  destruct (va_bm v1) as [b|] eqn:Eb; [|discriminate].
  rewrite El in B3. injection B3 as ->.
  destruct (k_truncate K (va_coll v1) (N.of_nat (bm_len b))) as [c2 o2] eqn:E2.
  destruct o2; try discriminate.
  assert (Loop : forall len fuel c b (it : iter (option (cA K)) R) c' b' r w',
    va_try_extend_loop K fuel len c b it (None :: w) = (c', b', r, ODone, w') ->
    va_extend_loop K fuel c b it = (c', b', r, ODone)).
  { clear - L H. intros len. induction fuel as [|fuel IH]; intros c b it c' b' r w';
      cbn [va_try_extend_loop va_extend_loop]; [discriminate|].
    destruct (k_try_extend K c (va_chunk K it) (None :: w)) as [[[c1 [it1 vs]] o1] w1] eqn:E1.
    destruct o1; try discriminate.
    2: { destruct (va_rollback K c1 b len) as [[c2 b2] o2] eqn:E2.
         destruct (va_rollback_mem K mem imp nb L _ _ _ _ _ _ E2) as (_ & _ & M3).
         intros E. injection E as _ _ _ -> _. destruct M3; reflexivity. }
    destruct (as_blind _ _ _ _ L _ _ _ _ _ _ _ E1) as [H1 B1].
    rewrite (H _ _ _ _ _ _ _ E1).
    rewrite (B1 (None :: w)) in E1. injection E1 as <-.
    destruct (bm_try_extend b (it_list vs) (None :: w)) as [[[b2 r2] o2] w2] eqn:E2.
    destruct o2; try discriminate.
    2: { destruct (va_rollback K c1 b2 len) as [[c3 b3] o3] eqn:E3.
         destruct (va_rollback_mem K mem imp nb L _ _ _ _ _ _ E3) as (_ & _ & M3).
         intros E. injection E as _ _ _ -> _. destruct M3; reflexivity. }
    destruct (bm_try_extend_blind _ _ _ _ _ _ _ E2) as (H2 & B2 & B3). rewrite B3.
    rewrite (B2 (None :: w)) in E2. injection E2 as <-.
    destruct (Nat.ltb (length vs) chunk).
    - intros E. injection E as <- <- <- _. reflexivity.
    - apply IH. }
  destruct (va_try_extend_loop K (S (length (it_tr it))) (bm_len b) c2 b it (None :: w))
    as [[[[c3 b3] r3] o3] w3] eqn:E3.
  intros E. injection E as <- <- -> _. rewrite (Loop _ _ _ _ _ _ _ _ _ E3). reflexivity.
Qed.

(** ** All shapes *)
Lemma shape_asks s : Asks (coll s) (memory s) (implicit s) (buffers s).
Proof.
  induction s as [p| |s IH|n s IH|k s IH|A a0 z]; cbn [coll memory implicit buffers].
  - apply vec_asks.
  - apply bitmap_asks.
  - exact (validity_asks _ _ _ _ IH).
  - exact (flatten_asks _ _ _ _ n IH).
  - exact (offsets_asks _ _ _ _ IH k).
  - apply vec_asks.
Qed.
