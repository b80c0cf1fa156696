(** * Lemmas about the vector model. *)
From Coq Require Import List NArith ZArith Bool Arith Lia ZifyBool ZifyNat ZifyN.
From Verif Require Import Base Iter Spec VecModel IterLemmas.
Import ListNotations.

Ltac Zify.zify_post_hook ::= Z.div_mod_to_equations.

Lemma lenN_app {A} (l l' : list A) : lenN (l ++ l') = (lenN l + lenN l')%N.
Proof. unfold lenN; rewrite app_length; lia. Qed.
Lemma lenN_nil {A} : lenN (@nil A) = 0%N.
Proof. reflexivity. Qed.
Lemma lenN_cons {A} (a : A) l : lenN (a :: l) = (1 + lenN l)%N.
Proof. unfold lenN; cbn [length]; lia. Qed.

(** Well-formed vectors: within the allocation limit, length within capacity. *)
Definition vec_ok {A} (esz : N) (v : vec A) : Prop :=
  (lenN (v_items v) <= v_cap v)%N /\ (v_cap v <= max_items esz)%N.

Lemma vec_ok_new {A} esz : vec_ok esz (@vec_new A).
Proof. split; cbn; lia. Qed.

Lemma vec_ok_push {A} esz (v : vec A) a :
  vec_ok esz v -> (lenN (v_items v) < v_cap v)%N ->
  vec_ok esz (Vec (v_items v ++ [a]) (v_cap v)).
Proof.
  intros [H1 H2] Hlt; split; cbn; rewrite ?lenN_app, ?lenN_cons, ?lenN_nil; lia.
Qed.
Lemma vec_reserve_spec {A} esz (v v' : vec A) add o :
  vec_ok esz v -> vec_reserve esz v add = (v', o) ->
  vec_ok esz v' /\ v_items v' = v_items v /\ o <> OErr /\
  (v_cap v <= v_cap v')%N /\
  (o = ODone -> (lenN (v_items v) + add <= v_cap v')%N).
Proof.
  intros [H1 H2]. unfold vec_reserve.
  destruct (add <=? v_cap v - lenN (v_items v))%N eqn:E1.
  { intros E; inversion E; subst. repeat split; auto; try congruence; lia. }
  destruct (cap_limit esz <? lenN (v_items v) + add)%N.
  { intros E; inversion E; subst. repeat split; auto; try congruence; lia. }
  destruct (max_items esz <? lenN (v_items v) + add)%N eqn:E2.
  { intros E; inversion E; subst. repeat split; auto; try congruence; lia. }
  intros E; inversion E; subst; cbn; unfold amortized. repeat split; cbn; auto; try congruence; lia.
Qed.
Lemma cap_limit_ge esz : (max_items esz <= cap_limit esz)%N.
Proof.
  unfold max_items, cap_limit, alloc_max, isize_max.
  destruct (N.eq_dec esz 0) as [->|H]; [reflexivity|].
  apply N.div_le_mono; [auto|]. discriminate || lia.
Qed.
Lemma vec_reserve_live {A} esz (v : vec A) add :
  (lenN (v_items v) + add <= max_items esz)%N ->
  exists v', vec_reserve esz v add = (v', ODone).
Proof.
  intros H. pose proof (cap_limit_ge esz). unfold vec_reserve.
  destruct (add <=? v_cap v - lenN (v_items v))%N; eauto.
  destruct (cap_limit esz <? lenN (v_items v) + add)%N eqn:E1; [lia|].
  destruct (max_items esz <? lenN (v_items v) + add)%N eqn:E2; [lia|]. eauto.
Qed.

(** One step of [extend]: room for one more item, and for those promised. *)
Definition vec_room {A} (esz : N) (v : vec A) (promised : N) : vec A * outcome :=
  if (lenN (v_items v) =? v_cap v)%N
  then vec_reserve esz v (sat_add promised 1) else (v, ODone).
Lemma vec_room_spec {A} esz (v v' : vec A) h o :
  vec_ok esz v -> vec_room esz v h = (v', o) ->
  vec_ok esz v' /\ v_items v' = v_items v /\ o <> OErr /\ (v_cap v <= v_cap v')%N /\
  (o = ODone -> (lenN (v_items v) < v_cap v')%N) /\
  ((lenN (v_items v) + 1 + h <= max_items esz)%N -> o = ODone).
Proof.
  intros Hv. unfold vec_room. destruct (lenN (v_items v) =? v_cap v)%N eqn:Ec.
  - intros E. destruct (vec_reserve_spec _ _ _ _ _ Hv E) as (H1 & H2 & H3 & H4 & H5).
    repeat split; auto; try apply H1.
    + intros Ho. specialize (H5 Ho). unfold sat_add, usize_max in H5. lia.
    + intros Hm. destruct (vec_reserve_live esz v (sat_add h 1)) as [v1 E1]; [|congruence].
      unfold sat_add, usize_max. lia.
  - intros E; inversion E; subst. destruct Hv. repeat split; auto; try congruence; lia.
Qed.

Lemma vec_push_spec {A R} esz (t : trace A R) n v xs e r v' r' o :
  run_t t n = (xs, e, r) -> vec_ok esz v -> vec_push_t esz t n v = (v', r', o) ->
  vec_ok esz v' /\ (v_cap v <= v_cap v')%N /\
  (exists k, k <= length xs /\ v_items v' = v_items v ++ firstn k xs) /\
  match o with
  | ODone => e = FStop /\ r' = r /\ v_items v' = v_items v ++ xs
  | OErr => False
  | _ => True
  end /\
  (affords_t (fun _ => 1%N) 1 (max_items esz) (lenN (v_items v)) t n ->
   r' = r /\ v_items v' = v_items v ++ xs /\
   o = match e with FStop => ODone | FBoom => OPanic end).
Proof.
  revert n v xs e r; induction t as [|[[a| |] n'] t IH]; intros n v xs e r; cbn [run_t vec_push_t].
  - intros E1 Hv E2; inversion E1; inversion E2; subst.
    rewrite app_nil_r; repeat split; auto; try apply Hv; try lia.
    exists 0; cbn; rewrite app_nil_r; auto.
  - destruct (run_t t n') as [[xs1 e1] r1] eqn:Hr.
    intros E1 Hv; inversion E1; subst xs e1 r1; clear E1.
    fold (vec_room esz v (fst (nd_hint n'))).
    destruct (vec_room esz v (fst (nd_hint n'))) as [v1 o1] eqn:Er.
    destruct (vec_room_spec _ _ _ _ _ Hv Er) as (Hv1 & Hi & He & Hc & Hlt & Hl).
    assert (Hk0 : exists k, k <= length (a :: xs1) /\ v_items v1 = v_items v ++ firstn k (a :: xs1)).
    { exists 0. rewrite Hi. cbn. rewrite app_nil_r. split; [lia|auto]. }
    assert (Hbad : o1 <> ODone -> (v1, nd_src n', o1) = (v', r', o) ->
      vec_ok esz v' /\ (v_cap v <= v_cap v')%N /\
      (exists k, k <= length (a :: xs1) /\ v_items v' = v_items v ++ firstn k (a :: xs1)) /\
      match o with
      | ODone => e = FStop /\ r' = r /\ v_items v' = v_items v ++ a :: xs1
      | OErr => False
      | _ => True
      end /\
      (affords_t (fun _ => 1%N) 1 (max_items esz) (lenN (v_items v)) ((Yield a, n') :: t) n ->
       r' = r /\ v_items v' = v_items v ++ a :: xs1 /\
       o = match e with FStop => ODone | FBoom => OPanic end)).
    { intros Hn E; inversion E; subst v1 r' o. split; [auto|]. split; [auto|]. split; [auto|].
      split; [destruct o1; auto; congruence|].
      cbn [affords_t]. intros [_ Ha]. exfalso. apply Hn, Hl.
      destruct t as [|[[]]]; cbn [affords_t] in Ha; lia. }
    destruct o1; try (apply Hbad; discriminate).
    specialize (Hlt eq_refl). intros E2.
    eapply IH in E2; [|exact Hr|apply vec_ok_push; auto; rewrite Hi; auto].
    cbn [v_items v_cap] in E2. rewrite Hi, <- app_assoc in E2; cbn [app] in E2.
    destruct E2 as (H1 & H2 & (k & Hk & Hk') & H3 & H4).
    split; [exact H1|]. split; [lia|]. split; [|split; [exact H3|]].
    + exists (S k); cbn [length firstn]; split; [lia|]. rewrite Hk', <- app_assoc. reflexivity.
    + cbn [affords_t]. intros [_ Ha]. apply H4. rewrite lenN_app, lenN_cons, lenN_nil. exact Ha.
  - intros E1 Hv E2; inversion E1; inversion E2; subst.
    rewrite app_nil_r; repeat split; auto; try apply Hv; try lia.
    exists 0; cbn; rewrite app_nil_r; auto.
  - intros E1 Hv E2; inversion E1; inversion E2; subst.
    rewrite app_nil_r; repeat split; auto; try apply Hv; try lia.
    exists 0; cbn; rewrite app_nil_r; auto.
Qed.

(** The reservations panic only if what is promised exceeds isize::MAX bytes. *)
Lemma vec_push_calm {A R} esz (t : trace A R) n v xs e r v' r' o :
  run_t t n = (xs, e, r) -> vec_ok esz v -> vec_push_t esz t n v = (v', r', o) ->
  affords_t (fun _ => 1%N) 1 (cap_limit esz) (lenN (v_items v)) t n -> o = OPanic -> e = FBoom.
Proof.
  revert n v xs e r; induction t as [|[[a| |] n'] t IH]; intros n v xs e r; cbn [run_t vec_push_t].
  - intros E1 Hv E2 _ ->; inversion E1; inversion E2; subst; auto; try discriminate.
  - destruct (run_t t n') as [[xs1 e1] r1] eqn:Hr.
    intros E1 Hv; inversion E1; subst xs e1 r1; clear E1.
    fold (vec_room esz v (fst (nd_hint n'))).
    destruct (vec_room esz v (fst (nd_hint n'))) as [v1 o1] eqn:Er.
    destruct (vec_room_spec _ _ _ _ _ Hv Er) as (Hv1 & Hi & He & Hc & Hlt & Hl).
    intros E2. cbn [affords_t]. intros [_ Ha] ->.
    destruct o1; try discriminate E2.
    + specialize (Hlt eq_refl). eapply IH in E2;
        [exact E2|exact Hr|apply vec_ok_push; auto; rewrite Hi; auto| |auto].
      cbn [v_items]. rewrite Hi, lenN_app, lenN_cons, lenN_nil. exact Ha.
    + exfalso. assert (Hh : (lenN (v_items v) + 1 + fst (nd_hint n') <= cap_limit esz)%N).
      { destruct t as [|[[]]]; cbn [affords_t] in Ha; lia. }
      revert Er. unfold vec_room. destruct (_ =? _)%N; [|discriminate].
      unfold vec_reserve. destruct (_ <=? _)%N; [discriminate|].
      destruct (cap_limit esz <? lenN (v_items v) + sat_add (fst (nd_hint n')) 1)%N eqn:E1.
      { unfold sat_add, usize_max in E1. lia. }
      destruct (max_items esz <? _)%N; intros E3; discriminate E3.
  - intros E1 Hv E2 _ ->; inversion E1; inversion E2; subst; auto; try discriminate.
  - intros E1 Hv E2 _ ->; inversion E1; inversion E2; subst; auto; try discriminate.
Qed.

Lemma vec_extend_spec {A R} esz (v : vec A) (it : iter A R) xs e r v' r' o :
  vec_ok esz v -> run it = (xs, e, r) -> vec_extend esz v it = (v', r', o) ->
  vec_ok esz v' /\ (v_cap v <= v_cap v')%N /\
  (exists k, k <= length xs /\ v_items v' = v_items v ++ firstn k xs) /\
  match o with
  | ODone => e = FStop /\ r' = r /\ v_items v' = v_items v ++ xs
  | OErr => False
  | _ => True
  end.
Proof.
  intros Hv Hr E. destruct (vec_push_spec _ _ _ _ _ _ _ _ _ _ Hr Hv E) as (? & ? & ? & ? & _). auto.
Qed.
Lemma vec_extend_live {A R} esz (v : vec A) (it : iter A R) xs e r :
  vec_ok esz v -> run it = (xs, e, r) ->
  affords (fun _ => 1%N) 1 (max_items esz) (lenN (v_items v)) it ->
  exists cap, vec_extend esz v it =
    (Vec (v_items v ++ xs) cap, r, match e with FStop => ODone | FBoom => OPanic end).
Proof.
  intros Hv Hr Ha. destruct (vec_extend esz v it) as [[v' r'] o] eqn:E.
  destruct (vec_push_spec _ _ _ _ _ _ _ _ _ _ Hr Hv E) as (_ & _ & _ & _ & H).
  destruct (H Ha) as (-> & <- & ->). exists (v_cap v'). destruct v'; reflexivity.
Qed.
Lemma vec_extend_calm {A R} esz (v : vec A) (it : iter A R) xs e r v' r' o :
  vec_ok esz v -> run it = (xs, e, r) -> vec_extend esz v it = (v', r', o) ->
  affords (fun _ => 1%N) 1 (cap_limit esz) (lenN (v_items v)) it -> o = OPanic -> e = FBoom.
Proof. intros Hv Hr E. eapply vec_push_calm; eauto. Qed.
(** A list reports how much is left, so it fits if its items do. *)
Lemma affords_list {A} (cost : A -> N) unit lim used l :
  Forall (fun x => (unit <= cost x)%N) l ->
  (used + fold_right (fun x => N.add (cost x)) 0%N l <= lim)%N -> affords cost unit lim used (it_list l).
Proof.
  unfold affords, it_list. cbn [it_tr it_node]. revert used.
  induction l as [|x l IH]; intros used Hl; cbn [list_t affords_t fold_right length nd_hint fst exact_hint].
  - intros H. split; [lia|exact I].
  - intros H. inversion Hl as [|? ? Hx Hl']; subst.
    assert (Hle : (unit * N.of_nat (length l) <= fold_right (fun x => N.add (cost x)) 0%N l)%N).
    { clear - Hl'. induction Hl' as [|y l Hy Hl IH]; cbn [length fold_right]; [lia|].
      rewrite Nat2N.inj_succ, N.mul_succ_r. lia. }
    split; [rewrite Nat2N.inj_succ, N.mul_succ_r; lia|]. apply IH; auto. lia.
Qed.
Lemma affords_list1 {A} lim used (l : list A) :
  (used + lenN l <= lim)%N -> affords (fun _ => 1%N) 1 lim used (it_list l).
Proof.
  intros H. apply affords_list; [apply Forall_forall; intros; lia|].
  assert (E : fold_right (fun _ => N.add 1) 0%N l = lenN l).
  { clear. unfold lenN. induction l as [|x l IH]; cbn [fold_right length]; [auto|]. rewrite IH. lia. }
  rewrite E. exact H.
Qed.

Lemma vec_try_reserve_spec {A} esz (v v' : vec A) add w w' o :
  vec_ok esz v -> vec_try_reserve esz v add w = (v', o, w') ->
  vec_ok esz v' /\ v_items v' = v_items v /\ (v_cap v <= v_cap v')%N /\
  match o with
  | ODone => (lenN (v_items v) + add <= v_cap v')%N
  | OErr => v' = v
  | _ => False
  end.
Proof.
  intros [H1 H2]. unfold vec_try_reserve.
  destruct (add <=? v_cap v - lenN (v_items v))%N eqn:Ha.
  - intros E; inversion E; subst; repeat split; auto; lia.
  - destruct (max_items esz <? lenN (v_items v) + add)%N eqn:Hm.
    + intros E; inversion E; subst; repeat split; auto; lia.
    + destruct w as [|[x|] w]; intros E; inversion E; subst; cbn; repeat split; cbn;
        auto; try lia.
Qed.

Lemma vec_try_push_spec {A R} esz len0 l0 (t : trace A R) n v w xs e r v' r' o w' :
  run_t t n = (xs, e, r) ->
  vec_ok esz v -> firstn len0 (v_items v) = l0 -> len0 <= length (v_items v) ->
  vec_try_push_t esz len0 t n v w = (v', r', o, w') ->
  vec_ok esz v' /\ (v_cap v <= v_cap v')%N /\
  match o with
  | ODone => e = FStop /\ r' = r /\ v_items v' = v_items v ++ xs
  | OErr => v_items v' = l0
  | OPanic => e = FBoom /\ r' = r /\ v_items v' = v_items v ++ xs
  | OAbort => False
  end.
Proof.
  revert n v w xs e r; induction t as [|[[a| |] n'] t IH]; intros n v w xs e r; cbn.
  - intros E1 Hv Hl Hle E2; inversion E1; inversion E2; subst.
    rewrite app_nil_r; repeat split; auto; try apply Hv; lia.
  - destruct (run_t t n') as [[xs1 e1] r1] eqn:Hr.
    intros E1 Hv Hl Hle; inversion E1; subst xs e1 r1; clear E1.
    assert (Hgo : forall v1 w1, vec_ok esz v1 -> v_items v1 = v_items v ->
      (lenN (v_items v1) < v_cap v1)%N -> (v_cap v <= v_cap v1)%N ->
      vec_try_push_t esz len0 t n' (Vec (v_items v1 ++ [a]) (v_cap v1)) w1
        = (v', r', o, w') ->
      vec_ok esz v' /\ (v_cap v <= v_cap v')%N /\
      match o with
      | ODone => e = FStop /\ r' = r /\ v_items v' = v_items v ++ a :: xs1
      | OErr => v_items v' = l0
      | OPanic => e = FBoom /\ r' = r /\ v_items v' = v_items v ++ a :: xs1
      | OAbort => False
      end).
    { intros v1 w1 Hv1 Hi Hlt Hc E.
      eapply IH in E; [|exact Hr| | |].
      - cbn in E. rewrite Hi, <- app_assoc in E; cbn in E.
        destruct E as (? & ? & ?). split; [auto|]. split; [lia|auto].
      - apply vec_ok_push; auto.
      - cbn; rewrite firstn_app.
        replace (len0 - length (v_items v1)) with 0 by (rewrite Hi; lia).
        cbn; rewrite app_nil_r, Hi; auto.
      - cbn; rewrite app_length, Hi; lia. }
    destruct (lenN (v_items v) =? v_cap v)%N eqn:Hcap.
    + destruct (vec_try_reserve esz v 1 w) as [[v1 o1] w1] eqn:Hres.
      pose proof (vec_try_reserve_spec _ _ _ _ _ _ _ Hv Hres) as (Hv1 & Hi & Hc & Ho).
      destruct o1; try contradiction.
      * intros E; eapply (Hgo v1 w1); eauto; rewrite Hi; lia.
      * subst v1. intros E; inversion E; subst; cbn.
        destruct Hv as [Hv1' Hv2]. repeat split; cbn; try lia.
        unfold lenN in *; rewrite firstn_length; lia.
    + intros E; eapply (Hgo v w); eauto; destruct Hv; lia.
  - intros E1 Hv Hl Hle E2; inversion E1; inversion E2; subst.
    rewrite app_nil_r; repeat split; auto; try apply Hv; lia.
  - intros E1 Hv Hl Hle E2; inversion E1; inversion E2; subst.
    rewrite app_nil_r; repeat split; auto; try apply Hv; lia.
Qed.

Lemma vec_try_extend_spec {A R} esz (v : vec A) (it : iter A R) w xs e r v' r' o w' :
  vec_ok esz v -> run it = (xs, e, r) -> vec_try_extend esz v it w = (v', r', o, w') ->
  vec_ok esz v' /\ (v_cap v <= v_cap v')%N /\
  match o with
  | ODone => e = FStop /\ r' = r /\ v_items v' = v_items v ++ xs
  | OErr => v_items v' = v_items v
  | OPanic => e = FBoom /\ r' = r /\ v_items v' = v_items v ++ xs
  | OAbort => False
  end.
Proof.
  intros Hv Hr. unfold vec_try_extend.
  destruct (vec_try_reserve esz v (fst (it_hint it)) w) as [[v1 o1] w1] eqn:Hres.
  pose proof (vec_try_reserve_spec _ _ _ _ _ _ _ Hv Hres) as (Hv1 & Hi & Hc & Ho).
  destruct o1; try contradiction.
  - intros E. eapply (vec_try_push_spec _ _ (v_items v)) in E; eauto.
    + rewrite Hi in E. destruct E as (? & ? & ?). split; [auto|split; [lia|auto]].
    + rewrite Hi. apply firstn_all.
    + rewrite Hi; lia.
  - intros E; inversion E; subst. auto.
Qed.

(** With enough capacity reserved, or an allocator that never refuses and a
    lower bound that fits, [try_extend] runs to the end of the iterator. *)
Lemma vec_try_reserve_live {A} esz (v : vec A) add w :
  (grants w /\ (lenN (v_items v) + add <= max_items esz)%N) \/
  (lenN (v_items v) + add <= v_cap v)%N ->
  exists v' w', vec_try_reserve esz v add w = (v', ODone, w') /\
    (grants w -> grants w') /\
    ((lenN (v_items v) + add <= v_cap v)%N -> v' = v /\ w' = w).
Proof.
  intros Hw. unfold vec_try_reserve.
  destruct (add <=? v_cap v - lenN (v_items v))%N eqn:E1.
  { exists v, w; auto. }
  destruct Hw as [[Hw Hm]|Hm].
  - destruct (max_items esz <? lenN (v_items v) + add)%N eqn:H; [lia|].
    destruct w as [|[x|] w].
    + do 2 eexists; split; [reflexivity|]. split; [auto|lia].
    + inversion Hw; subst. do 2 eexists; split; [reflexivity|]. split; [auto|lia].
    + inversion Hw; congruence.
  - exfalso; lia.
Qed.
Lemma vec_try_push_live {A R} esz len0 (t : trace A R) n v w xs e r :
  run_t t n = (xs, e, r) -> vec_ok esz v ->
  (grants w /\ (lenN (v_items v) + lenN xs <= max_items esz)%N) \/
  (lenN (v_items v) + lenN xs <= v_cap v)%N ->
  exists v' r' w', vec_try_push_t esz len0 t n v w =
    (v', r', match e with FStop => ODone | FBoom => OPanic end, w') /\
    (grants w -> grants w') /\
    ((lenN (v_items v) + lenN xs <= v_cap v)%N -> v_cap v' = v_cap v /\ w' = w).
Proof.
  revert n v w xs e r; induction t as [|[[a| |] n'] t IH]; intros n v w xs e r; cbn.
  - intros E1 _ _; inversion E1; subst; eauto 10.
  - destruct (run_t t n') as [[xs1 e1] r1] eqn:Hr.
    intros E1 Hv Hw; inversion E1; subst xs e1 r1; clear E1.
    rewrite lenN_cons in *.
    destruct (lenN (v_items v) =? v_cap v)%N eqn:Hcap.
    + destruct (vec_try_reserve_live esz v 1 w) as (v1 & w1 & E & Hg & _).
      { destruct Hw as [[Hw Hm]|Hm]; [left; split; auto; lia|lia]. }
      rewrite E.
      pose proof (vec_try_reserve_spec _ _ _ _ _ _ _ Hv E) as (Hv1 & Hi & Hc & Ho).
      destruct (IH n' (Vec (v_items v1 ++ [a]) (v_cap v1)) w1 _ _ _ Hr)
        as (v' & r' & w' & E' & Hg' & Hc').
      { apply vec_ok_push; auto. rewrite Hi; lia. }
      { destruct Hw as [[Hw Hm]|Hm]; [left|lia]. split; auto.
        cbn; rewrite Hi, lenN_app, lenN_cons, lenN_nil; lia. }
      exists v', r', w'; split; [exact E'|]. split; [auto|]. lia.
    + destruct (IH n' (Vec (v_items v ++ [a]) (v_cap v)) w _ _ _ Hr)
        as (v' & r' & w' & E' & Hg' & Hc').
      { apply vec_ok_push; auto. destruct Hv; lia. }
      { destruct Hw as [[Hw Hm]|Hm]; [left; split; auto|right];
        cbn; rewrite lenN_app, lenN_cons, lenN_nil; lia. }
      exists v', r', w'; split; [exact E'|]. split; [auto|].
      intros H. apply Hc'. cbn; rewrite lenN_app, lenN_cons, lenN_nil; lia.
  - intros E1 _ _; inversion E1; subst; eauto 10.
  - intros E1 _ _; inversion E1; subst; eauto 10.
Qed.
Lemma vec_try_extend_live {A R} esz (v : vec A) (it : iter A R) w xs e r :
  vec_ok esz v -> run it = (xs, e, r) ->
  (grants w /\ (lenN (v_items v) + N.max (fst (it_hint it)) (lenN xs) <= max_items esz)%N) \/
  (lenN (v_items v) + N.max (fst (it_hint it)) (lenN xs) <= v_cap v)%N ->
  exists v' r' w', vec_try_extend esz v it w =
    (v', r', match e with FStop => ODone | FBoom => OPanic end, w') /\
    (grants w -> grants w') /\
    ((lenN (v_items v) + N.max (fst (it_hint it)) (lenN xs) <= v_cap v)%N ->
       v_cap v' = v_cap v /\ w' = w).
Proof.
  intros Hv Hr Hw. unfold vec_try_extend.
  destruct (vec_try_reserve_live esz v (fst (it_hint it)) w) as (v1 & w1 & E & Hg & Hs).
  { destruct Hw as [[Hw Hm]|Hm]; [left; split; auto; lia|right; lia]. }
  rewrite E.
  pose proof (vec_try_reserve_spec _ _ _ _ _ _ _ Hv E) as (Hv1 & Hi & Hc & Ho).
  destruct (vec_try_push_live esz (length (v_items v)) (it_tr it) (it_node it) v1 w1 xs e r)
    as (v' & r' & w' & E' & Hg' & Hc'); auto.
  { rewrite Hi. destruct Hw as [[Hw Hm]|Hm]; [left; split; auto; lia|right].
    lia. }
  exists v', r', w'; split; [exact E'|]. split; [auto|].
  intros H. destruct Hs as [-> ->]; [lia|]. apply Hc'. lia.
Qed.

Lemma vec_try_collect_spec {A R} esz (t : trace A R) n v w xs e r res r' w' :
  run_t t n = (xs, e, r) -> vec_ok esz v ->
  vec_try_collect_t esz t n v w = (res, r', w') ->
  match res with
  | BOk v' => vec_ok esz v' /\ e = FStop /\ r' = r /\ v_items v' = v_items v ++ xs
  | BErr => True
  | BPanic => e = FBoom
  | BAbort => False
  end.
Proof.
  revert n v w xs e r; induction t as [|[[a| |] n'] t IH]; intros n v w xs e r; cbn.
  - intros E1 Hv E2; inversion E1; inversion E2; subst.
    rewrite app_nil_r; auto.
  - destruct (run_t t n') as [[xs1 e1] r1] eqn:Hr.
    intros E1 Hv; inversion E1; subst xs e1 r1; clear E1.
    destruct (vec_try_reserve esz v 1 w) as [[v1 o1] w1] eqn:Hres.
    pose proof (vec_try_reserve_spec _ _ _ _ _ _ _ Hv Hres) as (Hv1 & Hi & Hc & Ho).
    destruct o1; try contradiction.
    + intros E; eapply IH in E; eauto.
      * cbn in E. rewrite Hi, <- app_assoc in E; exact E.
      * apply vec_ok_push; auto. rewrite Hi; lia.
    + intros E; inversion E; subst; auto.
  - intros E1 Hv E2; inversion E1; inversion E2; subst.
    rewrite app_nil_r; auto.
  - intros E1 Hv E2; inversion E1; inversion E2; subst; auto.
Qed.
Lemma vec_try_with_capacity_spec {A} esz cap w res w' :
  @vec_try_with_capacity A esz cap w = (res, w') ->
  match res with
  | BOk v => vec_ok esz v /\ v_items v = [] /\ (cap <= v_cap v)%N
  | BErr => True
  | _ => False
  end.
Proof.
  unfold vec_try_with_capacity.
  destruct (vec_try_reserve esz vec_new cap w) as [[v1 o1] w1] eqn:Hres.
  pose proof (vec_try_reserve_spec _ _ _ _ _ _ _ (vec_ok_new esz) Hres)
    as (Hv1 & Hi & Hc & Ho).
  destruct o1; try contradiction; intros E; inversion E; subst; auto.
Qed.
Lemma vec_try_from_iter_spec {A R} esz (it : iter A R) w xs e r res r' w' :
  run it = (xs, e, r) -> vec_try_from_iter esz it w = (res, r', w') ->
  match res with
  | BOk v => vec_ok esz v /\ e = FStop /\ r' = r /\ v_items v = xs
  | BErr => True
  | BPanic => e = FBoom
  | BAbort => False
  end.
Proof.
  intros Hr. unfold vec_try_from_iter.
  destruct (@vec_try_with_capacity A esz (fst (it_hint it)) w) as [res1 w1] eqn:E.
  apply vec_try_with_capacity_spec in E.
  destruct res1; try contradiction.
  - destruct E as (Hv & Hi & Hc).
    intros E2; eapply vec_try_collect_spec in E2; eauto. rewrite Hi in E2; exact E2.
  - intros E2; inversion E2; subst; auto.
Qed.
Lemma vec_try_collect_live {A R} esz (t : trace A R) n v w xs e r :
  run_t t n = (xs, e, r) -> vec_ok esz v ->
  grants w -> (lenN (v_items v) + lenN xs <= max_items esz)%N ->
  exists v' r' w', vec_try_collect_t esz t n v w =
    (match e with FStop => BOk v' | FBoom => BPanic end, r', w') /\ grants w'.
Proof.
  revert n v w xs e r; induction t as [|[[a| |] n'] t IH]; intros n v w xs e r; cbn.
  - intros E1 _ Hg _; inversion E1; subst; eauto 10.
  - destruct (run_t t n') as [[xs1 e1] r1] eqn:Hr.
    intros E1 Hv Hg Hm; inversion E1; subst xs e1 r1; clear E1.
    rewrite lenN_cons in *.
    destruct (vec_try_reserve_live esz v 1 w) as (v1 & w1 & E & Hg1 & _).
    { left; split; auto; lia. }
    rewrite E.
    pose proof (vec_try_reserve_spec _ _ _ _ _ _ _ Hv E) as (Hv1 & Hi & Hc & Ho).
    eapply (IH n' (Vec (v_items v1 ++ [a]) (v_cap v1)) w1 _ _ _ Hr); auto.
    { apply vec_ok_push; auto. rewrite Hi; lia. }
    cbn; rewrite Hi, lenN_app, lenN_cons, lenN_nil; lia.
  - intros E1 _ Hg _; inversion E1; subst; eauto 10.
  - intros E1 _ Hg _; inversion E1; subst.
    exists v, (nd_src n'), w; auto.
Qed.
Lemma vec_try_with_capacity_live {A} esz cap w :
  grants w -> (cap <= max_items esz)%N ->
  exists v w', @vec_try_with_capacity A esz cap w = (BOk v, w') /\ grants w'.
Proof.
  intros Hg Hc. unfold vec_try_with_capacity.
  destruct (vec_try_reserve_live esz (@vec_new A) cap w) as (v1 & w1 & E & Hg1 & _).
  { left; split; auto; cbn; lia. }
  rewrite E; eauto.
Qed.
Lemma vec_try_from_iter_live {A R} esz (it : iter A R) w xs e r :
  run it = (xs, e, r) -> grants w ->
  (N.max (fst (it_hint it)) (lenN xs) <= max_items esz)%N ->
  exists v' r' w', vec_try_from_iter esz it w =
    (match e with FStop => BOk v' | FBoom => BPanic end, r', w') /\ grants w'.
Proof.
  intros Hr Hg Hm. unfold vec_try_from_iter.
  destruct (@vec_try_with_capacity_live A esz (fst (it_hint it)) w) as (v & w1 & E & Hg1);
    auto; [lia|].
  rewrite E. apply vec_try_with_capacity_spec in E. destruct E as (Hv & Hi & Hc).
  eapply vec_try_collect_live; eauto. rewrite Hi, lenN_nil; lia.
Qed.

Lemma vec_from_iter_spec {A R} esz (it : iter A R) xs e r res r' :
  run it = (xs, e, r) -> vec_from_iter esz it = (res, r') ->
  match res with
  | BOk v => vec_ok esz v /\ e = FStop /\ r' = r /\ v_items v = xs
  | BErr => False
  | _ => True
  end.
Proof.
  intros Hr. unfold vec_from_iter.
  destruct (vec_extend esz vec_new it) as [[v r1] o] eqn:E.
  pose proof (vec_extend_spec _ _ _ _ _ _ _ _ _ (vec_ok_new esz) Hr E)
    as (Hv & _ & _ & H).
  intros E2; destruct o; inversion E2; subst; cbn in *; intuition.
Qed.
Lemma vec_from_iter_live {A R} esz (it : iter A R) xs e r :
  run it = (xs, e, r) -> affords (fun _ => 1%N) 1 (max_items esz) 0 it ->
  exists v, vec_from_iter esz it =
    (match e with FStop => BOk v | FBoom => BPanic end, r).
Proof.
  intros Hr Ha. unfold vec_from_iter.
  destruct (vec_extend_live esz (@vec_new A) it xs e r (vec_ok_new esz) Hr Ha) as [cap ->].
  destruct e; eauto. exists vec_new; auto.
Qed.

Lemma vec_with_capacity_spec {A} esz cap :
  match @vec_with_capacity A esz cap with
  | BOk v => vec_ok esz v /\ v_items v = [] /\ v_cap v = cap
  | BErr => False
  | _ => True
  end.
Proof.
  unfold vec_with_capacity.
  destruct (cap_limit esz <? cap)%N; auto.
  destruct (max_items esz <? cap)%N eqn:E; auto.
  repeat split; cbn; lia.
Qed.
Lemma vec_with_capacity_live {A} esz cap :
  (cap <= max_items esz)%N -> exists v, @vec_with_capacity A esz cap = BOk v.
Proof.
  intros H. pose proof (cap_limit_ge esz). unfold vec_with_capacity.
  destruct (cap_limit esz <? cap)%N eqn:E1; [lia|].
  destruct (max_items esz <? cap)%N eqn:E; [lia|]. eauto.
Qed.

Lemma vec_truncate_spec {A} esz (v : vec A) n :
  vec_ok esz v ->
  vec_ok esz (vec_truncate v n) /\ v_cap (vec_truncate v n) = v_cap v /\
  v_items (vec_truncate v n) = firstn (N.to_nat n) (v_items v).
Proof.
  intros [H1 H2]. unfold vec_truncate.
  destruct (n <? lenN (v_items v))%N eqn:E; cbn.
  - repeat split; auto. unfold lenN in *; cbn; rewrite firstn_length; lia.
  - repeat split; auto. rewrite firstn_all2; auto. unfold lenN in *; lia.
Qed.

Lemma nth_N_lt {A} (l : list A) i : (i < lenN l)%N -> nth_N l i = nth_error l (N.to_nat i).
Proof. unfold nth_N, lenN; intros H. destruct (i <? N.of_nat (length l))%N eqn:E; auto; lia. Qed.
Lemma nth_N_ge {A} (l : list A) i : (lenN l <= i)%N -> nth_N l i = None.
Proof. unfold nth_N, lenN; intros H. destruct (i <? N.of_nat (length l))%N eqn:E; auto; lia. Qed.
Lemma nth_N_nat {A} (l : list A) i : nth_N l (N.of_nat i) = nth_error l i.
Proof.
  destruct (Nat.lt_ge_cases i (length l)).
  - rewrite nth_N_lt, Nat2N.id; auto. unfold lenN; lia.
  - rewrite nth_N_ge; [|unfold lenN; lia]. symmetry; apply nth_error_None; auto.
Qed.
