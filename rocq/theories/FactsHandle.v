(** * Proofs about allocator handles *)
From Coq Require Import List NArith ZArith Bool Arith Lia.
From Verif Require Import Base Iter VecModel BitmapModel CollModel ValidityModel
  FlattenModel OffsetsModel LayoutModel Reach HandleModel SpecHandle.
Import ListNotations.

(** ** Bitmaps do not vanish *)

Record Keeps (K : Coll) (R : cC K -> cC K -> Prop) : Prop := {
  kp_refl : forall c, R c c;
  kp_trans : forall a b c, R a b -> R b c -> R a c;
  kp_extend : forall X c (it : iter (cA K) X) c' r o, k_extend K c it = (c', r, o) -> R c c';
  kp_try_extend : forall X c (it : iter (cA K) X) w c' r o w',
    k_try_extend K c it w = (c', r, o, w') -> R c c';
  kp_reserve : forall c n c' o, k_reserve K c n = (c', o) -> R c c';
  kp_try_reserve : forall c n w c' o w', k_try_reserve K c n w = (c', o, w') -> R c c';
  kp_truncate : forall c n c' o, k_truncate K c n = (c', o) -> R c c';
}.
Arguments kp_refl {K R} k.
Arguments kp_trans {K R} k.

Lemma keeps_true K : Keeps K (fun _ _ => True).
Proof. constructor; intros; exact I. Qed.

(** [grown s c c']: every bitmap of [c] is still there in [c']. *)
Definition null_grown {C} (R : C -> C -> Prop) (v v' : validity C) : Prop :=
  (va_bm v' = None -> va_bm v = None) /\ R (va_coll v) (va_coll v').
Definition list_grown {C} (R : C -> C -> Prop) (o o' : offsets C) : Prop :=
  R (of_data o) (of_data o').
Fixpoint grown (s : shape) : cC (coll s) -> cC (coll s) -> Prop :=
  match s with
  | SVec _ | SAny _ _ _ | SBits => fun _ _ => True
  | SNull s => null_grown (grown s)
  | SFixed _ s => grown s
  | SList _ s => list_grown (grown s)
  end.

Section Null.
  Variable K : Coll.
  Variable R : cC K -> cC K -> Prop.
  Hypothesis HK : Keeps K R.

  Lemma materialize_grown v v' o : va_materialize K v = (v', o) -> null_grown R v v'.
  Proof.
    unfold va_materialize. intro E. destruct (va_bm v) as [b|] eqn:Eb.
    - injection E as <- _. split; [rewrite Eb; auto|apply (kp_refl HK)].
    - split; [rewrite Eb; auto|].
      destruct (k_len K (va_coll v)) as [n|]; [|injection E as <- _; apply (kp_refl HK)].
      destruct (bm_all_set n); injection E as <- _; apply (kp_refl HK).
  Qed.
  Lemma try_materialize_grown v w v' o w' :
    va_try_materialize K v w = (v', o, w') -> null_grown R v v'.
  Proof.
    unfold va_try_materialize. intro E. destruct (va_bm v) as [b|] eqn:Eb.
    - injection E as <- _ _. split; [rewrite Eb; auto|apply (kp_refl HK)].
    - split; [rewrite Eb; auto|].
      destruct (k_len K (va_coll v)) as [n|]; [|injection E as <- _ _; apply (kp_refl HK)].
      destruct (bm_try_all_set n w) as [[b| | |] w1]; injection E as <- _ _; apply (kp_refl HK).
  Qed.

  Lemma extend_loop_grown X fuel : forall c b (it : iter (option (cA K)) X) c' b' r o,
    va_extend_loop K fuel c b it = (c', b', r, o) -> R c c'.
  Proof.
    induction fuel as [|f IH]; intros c b it c' b' r o E.
    - injection E as <- _ _ _. apply (kp_refl HK).
    - cbn [va_extend_loop] in E.
      destruct (k_extend K c (va_chunk K it)) as [[c1 [it' vs]] o1] eqn:E1.
      apply (kp_extend _ _ HK) in E1.
      destruct o1; try (injection E as <- _ _ _; exact E1).
      destruct (bm_extend b (it_list vs)) as [[b1 u] o2].
      destruct o2; try (injection E as <- _ _ _; exact E1).
      destruct (Nat.ltb (length vs) chunk); [injection E as <- _ _ _; exact E1|].
      apply (kp_trans HK) with c1; [exact E1|exact (IH _ _ _ _ _ _ _ E)].
  Qed.
  Lemma extend_grown X v (it : iter (option (cA K)) X) v' r o :
    va_extend K v it = (v', r, o) -> null_grown R v v'.
  Proof.
    unfold va_extend. intro E. destruct (va_materialize K v) as [v1 o1] eqn:E1.
    apply materialize_grown in E1. destruct E1 as [H1 H2].
    destruct o1; try (injection E as <- _ _; split; assumption).
    destruct (va_bm v1) as [b|] eqn:Eb; [|injection E as <- _ _; split; [rewrite Eb; auto|assumption]].
    destruct (k_truncate K (va_coll v1) (N.of_nat (bm_len b))) as [c2 o2] eqn:E2.
    apply (kp_truncate _ _ HK) in E2.
    assert (H3 : R (va_coll v) c2) by (apply (kp_trans HK) with (va_coll v1); assumption).
    destruct o2; try (injection E as <- _ _; split; [discriminate|assumption]).
    destruct (va_extend_loop K _ c2 b it) as [[[c3 b3] r3] o3] eqn:E3.
    injection E as <- _ _. split; [discriminate|].
    apply extend_loop_grown in E3. apply (kp_trans HK) with c2; assumption.
  Qed.

  Lemma truncate_grown v n v' o : va_truncate K v n = (v', o) -> null_grown R v v'.
  Proof.
    unfold va_truncate. destruct (k_truncate K (va_coll v) n) as [c' e] eqn:E.
    intro H. injection H as <- _. split.
    - cbn. destruct (va_bm v); [discriminate|reflexivity].
    - exact (kp_truncate _ _ HK _ _ _ _ E).
  Qed.
  Lemma rollback_grown c b n c' b' o : va_rollback K c b n = (c', b', o) -> R c c'.
  Proof.
    unfold va_rollback. destruct (va_truncate K (Validity c (Some b)) (N.of_nat n)) as [v e] eqn:E.
    apply truncate_grown in E. destruct E as [_ E]. cbn in E.
    destruct (va_bm v); intro H; injection H as <- _ _; exact E.
  Qed.
  Lemma try_extend_loop_grown X fuel len : forall c b (it : iter (option (cA K)) X) w c' b' r o w',
    va_try_extend_loop K fuel len c b it w = (c', b', r, o, w') -> R c c'.
  Proof.
    induction fuel as [|f IH]; intros c b it w c' b' r o w' E.
    - injection E as <- _ _ _ _. apply (kp_refl HK).
    - cbn [va_try_extend_loop] in E.
      destruct (k_try_extend K c (va_chunk K it) w) as [[[c1 [it' vs]] o1] w1] eqn:E1.
      apply (kp_try_extend _ _ HK) in E1.
      destruct o1; try (injection E as <- _ _ _ _; exact E1).
      + destruct (bm_try_extend b (it_list vs) w1) as [[[b1 u] o2] w2].
        destruct o2; try (injection E as <- _ _ _ _; exact E1).
        * destruct (Nat.ltb (length vs) chunk); [injection E as <- _ _ _ _; exact E1|].
          apply (kp_trans HK) with c1; [exact E1|exact (IH _ _ _ _ _ _ _ _ _ E)].
        * destruct (va_rollback K c1 b1 len) as [[c2 b2] o3] eqn:E2.
          apply rollback_grown in E2. injection E as <- _ _ _ _.
          apply (kp_trans HK) with c1; assumption.
      + destruct (va_rollback K c1 b len) as [[c2 b2] o3] eqn:E2.
        apply rollback_grown in E2. injection E as <- _ _ _ _.
        apply (kp_trans HK) with c1; assumption.
  Qed.
  Lemma try_extend_grown X v (it : iter (option (cA K)) X) w v' r o w' :
    va_try_extend K v it w = (v', r, o, w') -> null_grown R v v'.
  Proof.
    unfold va_try_extend. intro E.
    destruct (va_len K v) as [len|];
      [|injection E as <- _ _ _; split; [auto|apply (kp_refl HK)]].
    destruct (va_try_materialize K v w) as [[v1 o1] w1] eqn:E1.
    apply try_materialize_grown in E1. destruct E1 as [H1 H2].
    destruct o1; try (injection E as <- _ _ _; split; assumption).
    destruct (va_bm v1) as [b|] eqn:Eb;
      [|injection E as <- _ _ _; split; [rewrite Eb; auto|assumption]].
    destruct (k_truncate K (va_coll v1) (N.of_nat len)) as [c2 o2] eqn:E2.
    apply (kp_truncate _ _ HK) in E2.
    assert (H3 : R (va_coll v) c2) by (apply (kp_trans HK) with (va_coll v1); assumption).
    destruct o2; try (injection E as <- _ _ _; split; [discriminate|assumption]).
    destruct (va_try_extend_loop K _ len c2 b it w1) as [[[[c3 b3] r3] o3] w3] eqn:E3.
    injection E as <- _ _ _. split; [discriminate|].
    apply try_extend_loop_grown in E3. apply (kp_trans HK) with c2; assumption.
  Qed.
  Lemma reserve_grown v n v' o : va_reserve K v n = (v', o) -> null_grown R v v'.
  Proof.
    unfold va_reserve. intro E. destruct (va_materialize K v) as [v1 o1] eqn:E1.
    apply materialize_grown in E1. destruct E1 as [H1 H2].
    destruct o1; try (injection E as <- _; split; assumption).
    destruct (va_bm v1) as [b|] eqn:Eb; [|injection E as <- _; split; [rewrite Eb; auto|assumption]].
    destruct (bm_reserve b n) as [b2 o2].
    destruct o2; try (injection E as <- _; split; [discriminate|assumption]).
    destruct (k_reserve K (va_coll v1) n) as [c3 o3] eqn:E3.
    injection E as <- _. split; [discriminate|].
    apply (kp_trans HK) with (va_coll v1); [exact H2|exact (kp_reserve _ _ HK _ _ _ _ E3)].
  Qed.
  Lemma try_reserve_grown v n w v' o w' :
    va_try_reserve K v n w = (v', o, w') -> null_grown R v v'.
  Proof.
    unfold va_try_reserve. intro E. destruct (va_try_materialize K v w) as [[v1 o1] w1] eqn:E1.
    apply try_materialize_grown in E1. destruct E1 as [H1 H2].
    destruct o1; try (injection E as <- _ _; split; assumption).
    destruct (va_bm v1) as [b|] eqn:Eb; [|injection E as <- _ _; split; [rewrite Eb; auto|assumption]].
    destruct (k_try_reserve K (va_coll v1) n w1) as [[c2 o2] w2] eqn:E2.
    apply (kp_try_reserve _ _ HK) in E2.
    assert (H3 : R (va_coll v) c2) by (apply (kp_trans HK) with (va_coll v1); assumption).
    destruct o2; try (injection E as <- _ _; split; [discriminate|assumption]).
    destruct (bm_try_reserve b n w2) as [[b3 o3] w3].
    injection E as <- _ _. split; [discriminate|exact H3].
  Qed.

  Lemma null_keeps : Keeps (validity_coll K) (null_grown R).
  Proof.
    constructor.
    - intro v. split; [auto|apply (kp_refl HK)].
    - intros a b c [H1 H2] [H3 H4]. split; [auto|apply (kp_trans HK) with (va_coll b); assumption].
    - intros X c it c' r o E. exact (extend_grown _ _ _ _ _ _ E).
    - intros X c it w c' r o w' E. exact (try_extend_grown _ _ _ _ _ _ _ _ E).
    - intros c n c' o E. exact (reserve_grown _ _ _ _ E).
    - intros c n w c' o w' E. exact (try_reserve_grown _ _ _ _ _ _ E).
    - intros c n c' o E. exact (truncate_grown _ _ _ _ E).
  Qed.
End Null.

Lemma fixed_keeps K R n : Keeps K R -> Keeps (flatten_coll K n) R.
Proof.
  intro HK. constructor.
  - exact (kp_refl HK).
  - exact (kp_trans HK).
  - intros X c it c' r o E. exact (kp_extend _ _ HK _ _ _ _ _ _ E).
  - intros X c it w c' r o w' E. exact (kp_try_extend _ _ HK _ _ _ _ _ _ _ _ E).
  - intros c m c' o E. cbn in E. unfold fl_reserve in E.
    destruct (strict_mul m (N.of_nat n)); [exact (kp_reserve _ _ HK _ _ _ _ E)|].
    injection E as <- _. apply (kp_refl HK).
  - intros c m w c' o w' E. cbn in E. unfold fl_try_reserve in E.
    destruct (checked_mul m (N.of_nat n)); [exact (kp_try_reserve _ _ HK _ _ _ _ _ _ E)|].
    injection E as <- _ _. apply (kp_refl HK).
  - intros c m c' o E. cbn in E. unfold fl_truncate in E.
    destruct (fl_len K n c) as [l|]; [|injection E as <- _; apply (kp_refl HK)].
    destruct (m <? N.of_nat l)%N; [|injection E as <- _; apply (kp_refl HK)].
    destruct (strict_mul m (N.of_nat n)); [exact (kp_truncate _ _ HK _ _ _ _ E)|].
    injection E as <- _. apply (kp_refl HK).
Qed.

Section List.
  Variable K : Coll.
  Variable kd : okind.
  Variable R : cC K -> cC K -> Prop.
  Hypothesis HK : Keeps K R.

  Lemma l_extend_t_grown X t : forall (n : node X) o position o' r e,
    of_extend_t K kd t n o position = (o', r, e) -> list_grown R o o'.
  Proof.
    induction t as [|[[l| |] n'] t IH]; intros n o position o' r e E; cbn [of_extend_t] in E;
      try (injection E as <- _ _; apply (kp_refl HK)).
    destruct (off_try_from kd (lenN l)); [|injection E as <- _ _; apply (kp_refl HK)].
    destruct (off_strict_add kd position z) as [next|]; [|injection E as <- _ _; apply (kp_refl HK)].
    destruct (k_reserve K (of_data o) (lenN l)) as [d1 o1] eqn:E1.
    apply (kp_reserve _ _ HK) in E1.
    destruct o1; try (injection E as <- _ _; exact E1).
    destruct (k_extend K d1 (it_list l)) as [[d2 u] o2] eqn:E2.
    apply (kp_extend _ _ HK) in E2.
    assert (H : R (of_data o) d2) by (apply (kp_trans HK) with d1; assumption).
    destruct o2; try (injection E as <- _ _; exact H).
    destruct (vec_extend (osz kd) (of_offs o) (it_list [next])) as [[v3 u3] o3].
    destruct o3; try (injection E as <- _ _; exact H).
    apply (kp_trans HK) with d2; [exact H|exact (IH _ _ _ _ _ _ E)].
  Qed.
  Lemma l_extend_grown X o (it : iter (list (cA K)) X) o' r e :
    of_extend K kd o it = (o', r, e) -> list_grown R o o'.
  Proof.
    unfold of_extend. intro E.
    destruct (nth_error (v_items (of_offs o)) (length (v_items (of_offs o)) - 1)) as [position|];
      [|injection E as <- _ _; apply (kp_refl HK)].
    destruct (as_usize position) as [p|]; [|injection E as <- _ _; apply (kp_refl HK)].
    destruct (k_truncate K (of_data o) p) as [d1 o1] eqn:E1. apply (kp_truncate _ _ HK) in E1.
    destruct o1; try (injection E as <- _ _; exact E1).
    apply l_extend_t_grown in E. apply (kp_trans HK) with d1; assumption.
  Qed.
  Lemma l_rollback_grown o rows n o' e :
    of_rollback K o rows n = (o', e) -> list_grown R o o'.
  Proof.
    unfold of_rollback. destruct (k_truncate K (of_data o) n) as [d e'] eqn:E.
    intro H. injection H as <- _. exact (kp_truncate _ _ HK _ _ _ _ E).
  Qed.
  Lemma l_try_extend_t_grown X rows n t : forall (nd : node X) o position w o' r e w',
    of_try_extend_t K kd rows n t nd o position w = (o', r, e, w') -> list_grown R o o'.
  Proof.
    induction t as [|[[l| |] n'] t IH]; intros nd o position w o' r e w' E;
      cbn [of_try_extend_t] in E; try (injection E as <- _ _ _; apply (kp_refl HK)).
    destruct (as_usize position) as [p|]; [|injection E as <- _ _ _; apply (kp_refl HK)].
    destruct (match checked_add p (lenN l) with Some u => off_try_from kd u | None => None end)
      as [next|].
    2:{ destruct (of_rollback K o rows n) as [o2 e2] eqn:E2. injection E as <- _ _ _.
        exact (l_rollback_grown _ _ _ _ _ E2). }
    destruct (k_try_extend K (of_data o) (it_list l) w) as [[[d2 u] o2] w2] eqn:E2.
    apply (kp_try_extend _ _ HK) in E2.
    destruct o2; try (injection E as <- _ _ _; exact E2).
    - destruct (vec_try_extend (osz kd) (of_offs o) (it_list [next]) w2) as [[[v3 u3] o3] w3].
      destruct o3; try (injection E as <- _ _ _; exact E2).
      + apply (kp_trans HK) with d2; [exact E2|exact (IH _ _ _ _ _ _ _ _ E)].
      + destruct (of_rollback K (Offsets d2 v3) rows n) as [o4 e4] eqn:E4.
        injection E as <- _ _ _. apply l_rollback_grown in E4.
        apply (kp_trans HK) with d2; [exact E2|exact E4].
    - destruct (of_rollback K (Offsets d2 (of_offs o)) rows n) as [o4 e4] eqn:E4.
      injection E as <- _ _ _. apply l_rollback_grown in E4.
      apply (kp_trans HK) with d2; [exact E2|exact E4].
  Qed.
  Lemma l_try_extend_grown X o (it : iter (list (cA K)) X) w o' r e w' :
    of_try_extend K kd o it w = (o', r, e, w') -> list_grown R o o'.
  Proof.
    unfold of_try_extend. intro E.
    destruct (of_len K o) as [rows|]; [|injection E as <- _ _ _; apply (kp_refl HK)].
    destruct (nth_error (v_items (of_offs o)) (length (v_items (of_offs o)) - 1)) as [position|];
      [|injection E as <- _ _ _; apply (kp_refl HK)].
    destruct (as_usize position) as [p|]; [|injection E as <- _ _ _; apply (kp_refl HK)].
    destruct (k_truncate K (of_data o) p) as [d1 o1] eqn:E1. apply (kp_truncate _ _ HK) in E1.
    destruct o1; try (injection E as <- _ _ _; exact E1).
    apply l_try_extend_t_grown in E. apply (kp_trans HK) with d1; assumption.
  Qed.

  Lemma list_keeps : Keeps (offsets_coll K kd) (list_grown R).
  Proof.
    constructor.
    - intro o. apply (kp_refl HK).
    - intros a b c H1 H2. apply (kp_trans HK) with (of_data b); assumption.
    - intros X c it c' r o E. exact (l_extend_grown _ _ _ _ _ _ E).
    - intros X c it w c' r o w' E. exact (l_try_extend_grown _ _ _ _ _ _ _ _ E).
    - intros o n o' e E. cbn in E. unfold of_reserve in E.
      destruct (k_reserve K (of_data o) n) as [d1 o1] eqn:E1. apply (kp_reserve _ _ HK) in E1.
      destruct o1; try (injection E as <- _; exact E1).
      destruct (vec_reserve (osz kd) (of_offs o) n). injection E as <- _. exact E1.
    - intros o n w o' e w' E. cbn in E. unfold of_try_reserve in E.
      destruct (k_try_reserve K (of_data o) n w) as [[d1 o1] w1] eqn:E1.
      apply (kp_try_reserve _ _ HK) in E1.
      destruct o1; try (injection E as <- _ _; exact E1).
      destruct (vec_try_reserve (osz kd) (of_offs o) n w1) as [[v2 o2] w2].
      injection E as <- _ _. exact E1.
    - intros o n o' e E. cbn in E. unfold of_truncate in E.
      destruct (of_len K o) as [m|]; [|injection E as <- _; apply (kp_refl HK)].
      destruct (n <? N.of_nat m)%N; [|injection E as <- _; apply (kp_refl HK)].
      destruct (vec_view (of_offs o) n) as [z|]; [|injection E as <- _; apply (kp_refl HK)].
      destruct (as_usize z) as [p|]; [|injection E as <- _; apply (kp_refl HK)].
      destruct (k_truncate K (of_data o) p) as [d e'] eqn:E1.
      injection E as <- _. exact (kp_truncate _ _ HK _ _ _ _ E1).
  Qed.
End List.

Lemma grown_keeps s : Keeps (coll s) (grown s).
Proof.
  induction s as [p| |s IH|n s IH|k s IH|A a0 z]; cbn [coll grown].
  - apply keeps_true.
  - apply keeps_true.
  - exact (null_keeps _ _ IH).
  - exact (fixed_keeps _ _ n IH).
  - exact (list_keeps _ k _ IH).
  - apply keeps_true.
Qed.
Lemma step_grown s c p c' o : step (coll s) c p = (c', o) -> grown s c c'.
Proof.
  pose proof (grown_keeps s) as HK. destruct p as [it|it w|n|n w|n]; cbn [step]; intro E.
  - destruct (k_extend (coll s) c it) as [[c1 r] o1] eqn:E1. injection E as <- _.
    exact (kp_extend _ _ HK _ _ _ _ _ _ E1).
  - destruct (k_try_extend (coll s) c it w) as [[[c1 r] o1] w1] eqn:E1. injection E as <- _.
    exact (kp_try_extend _ _ HK _ _ _ _ _ _ _ _ E1).
  - exact (kp_reserve _ _ HK _ _ _ _ E).
  - destruct (k_try_reserve (coll s) c n w) as [[c1 o1] w1] eqn:E1. injection E as <- _.
    exact (kp_try_reserve _ _ HK _ _ _ _ _ _ E1).
  - exact (kp_truncate _ _ HK _ _ _ _ E).
Qed.

(** ** Handles *)

Section Handles.
  Variable H : Type.

  Lemma after_allocator s c (t : handles H s) :
    h_allocator H s (h_after H s c t) = h_allocator H s t.
  Proof.
    induction s as [p| |s IH|n s IH|k s IH|A a0 z]; cbn in *; try reflexivity;
      apply IH.
  Qed.
  Lemma allocator_in s (t : handles H s) : In (h_allocator H s t) (buffer_handles H s t).
  Proof.
    induction s as [p| |s IH|n s IH|k s IH|A a0 z]; cbn in *; try (left; reflexivity);
      try (apply in_or_app; left); apply IH.
  Qed.
  Lemma after_incl s c (t : handles H s) :
    incl (buffer_handles H s (h_after H s c t)) (buffer_handles H s t).
  Proof.
    induction s as [p| |s IH|n s IH|k s IH|A a0 z]; cbn [h_after buffer_handles].
    - apply incl_refl.
    - apply incl_refl.
    - destruct t as [t o]. cbn [fst snd]. apply incl_app.
      + apply incl_appl. apply IH.
      + destruct o as [h|]; [apply incl_appr, incl_refl|].
        destruct c as [c [b|]]; cbn [va_bm]; [|apply incl_nil_l].
        intros x [<-|[]]. apply in_or_app. left. apply allocator_in.
    - apply IH.
    - destruct t as [t o]. cbn [fst snd]. apply incl_app.
      + apply incl_appl. apply IH.
      + apply incl_appr, incl_refl.
    - apply incl_refl.
  Qed.
  Lemma after_matches s c c' (t : handles H s) :
    matches H s c t -> grown s c c' -> matches H s c' (h_after H s c' t).
  Proof.
    induction s as [p| |s IH|n s IH|k s IH|A a0 z]; cbn [matches grown h_after]; intros Hm Hg;
      try exact I.
    - destruct t as [t o]. destruct Hm as [H1 H2]. destruct Hg as [H3 H4]. cbn [fst snd] in *.
      split; [|exact (IH _ _ _ H2 H4)].
      destruct o as [h|].
      + split; intro E; [apply H3, H1 in E|]; discriminate.
      + destruct c' as [c' [b|]]; cbn [va_bm]; split; intro E; discriminate || reflexivity.
    - exact (IH _ _ _ Hm Hg).
    - exact (IH _ _ _ Hm Hg).
  Qed.

  Theorem handles_history s : forall ps c (t : handles H s), matches H s c t ->
    let '(c', t') := h_exec H s c t ps in
    c' = fst (exec (coll s) c ps) /\ matches H s c' t' /\
    h_allocator H s t' = h_allocator H s t /\
    incl (buffer_handles H s t') (buffer_handles H s t).
  Proof.
    induction ps as [|p ps IH]; intros c t Hm; cbn [h_exec exec].
    - split; [reflexivity|]. split; [exact Hm|]. split; [reflexivity|apply incl_refl].
    - destruct (step (coll s) c p) as [c1 o] eqn:E. cbn [fst].
      pose proof (after_matches s c c1 t Hm (step_grown _ _ _ _ _ E)) as H1.
      specialize (IH c1 (h_after H s c1 t) H1).
      destruct (h_exec H s c1 (h_after H s c1 t) ps) as [c' t'].
      destruct IH as (I1 & I2 & I3 & I4).
      destruct (exec (coll s) c1 ps) as [c2 os] eqn:E2. cbn [fst] in *.
      split; [exact I1|]. split; [exact I2|]. split.
      + rewrite I3. apply after_allocator.
      + apply incl_tran with (buffer_handles H s (h_after H s c1 t)); [exact I4|apply after_incl].
  Qed.

  (** ** Constructions *)

  Lemma all_from_after s c (t : handles H s) h :
    all_from H s t h -> all_from H s (h_after H s c t) h.
  Proof. intros Ha x Hx. apply Ha. exact (after_incl s c t x Hx). Qed.
  Lemma all_from_allocator s (t : handles H s) h : all_from H s t h -> h_allocator H s t = h.
  Proof. intro Ha. apply Ha, allocator_in. Qed.

  Lemma with_capacity_from s h : all_from H s (h_with_capacity H s h) h.
  Proof.
    unfold all_from. induction s as [p| |s IH|n s IH|k s IH|A a0 z];
      cbn [h_with_capacity buffer_handles fst snd]; intros x Hx; try exact (IH _ Hx);
      try (apply in_app_or in Hx; destruct Hx as [Hx|Hx]; [exact (IH _ Hx)|]);
      destruct Hx as [<-|[]]; reflexivity.
  Qed.
  Lemma try_with_capacity_from s h : all_from H s (h_try_with_capacity H s h) h.
  Proof.
    unfold all_from. induction s as [p| |s IH|n s IH|k s IH|A a0 z];
      cbn [h_try_with_capacity buffer_handles fst snd]; intros x Hx; try exact (IH _ Hx);
      try (apply in_app_or in Hx; destruct Hx as [Hx|Hx]; [exact (IH _ Hx)|]);
      destruct Hx as [<-|[]]; reflexivity.
  Qed.
  Lemma default_from s h : all_from H s (h_default H s h) h.
  Proof.
    unfold all_from. induction s as [p| |s IH|n s IH|k s IH|A a0 z];
      cbn [h_default buffer_handles fst snd]; intros x Hx; try exact (IH _ Hx);
      try (apply in_app_or in Hx; destruct Hx as [Hx|Hx]; [exact (IH _ Hx)|]);
      try (destruct Hx as [<-|[]]; reflexivity). destruct Hx.
  Qed.
  Lemma from_iter_from s c h : all_from H s (h_from_iter H s c h) h.
  Proof.
    induction s as [p| |s IH|n s IH|k s IH|A a0 z]; cbn [h_from_iter].
    - intros x [<-|[]]. reflexivity.
    - intros x [<-|[]]. reflexivity.
    - intros x Hx. cbn [buffer_handles fst snd] in Hx. apply in_app_or in Hx.
      destruct Hx as [Hx|[<-|[]]]; [exact (IH _ _ Hx)|reflexivity].
    - apply IH.
    - apply all_from_after, with_capacity_from.
    - intros x [<-|[]]. reflexivity.
  Qed.
  Lemma try_from_iter_from s c h : all_from H s (h_try_from_iter H s c h) h.
  Proof.
    induction s as [p| |s IH|n s IH|k s IH|A a0 z]; cbn [h_try_from_iter].
    - intros x [<-|[]]. reflexivity.
    - intros x [<-|[]]. reflexivity.
    - apply all_from_after, try_with_capacity_from.
    - apply IH.
    - apply all_from_after, try_with_capacity_from.
    - intros x [<-|[]]. reflexivity.
  Qed.

  Lemma default_matches s h : matches H s (k_default (coll s)) (h_default H s h).
  Proof.
    induction s as [p| |s IH|n s IH|k s IH|A a0 z]; cbn; auto. split; [tauto|exact IH].
  Qed.
  Lemma with_capacity_matches s h : forall n c, k_with_capacity (coll s) n = BOk c ->
    matches H s c (h_with_capacity H s h).
  Proof.
    induction s as [p| |s IH|m s IH|k s IH|A a0 z]; intros n c E; try exact I.
    - cbn in E. unfold va_with_capacity in E.
      destruct (k_with_capacity (coll s) n) as [c0| | |] eqn:E0; try discriminate.
      destruct (bm_with_capacity n) as [b| | |]; try discriminate.
      injection E as <-. cbn. split; [split; discriminate|exact (IH _ _ E0)].
    - cbn in E. unfold fl_with_capacity in E.
      destruct (strict_mul n (N.of_nat m)) as [l|]; [|discriminate]. exact (IH _ _ E).
    - cbn in E. unfold of_with_capacity in E.
      destruct (k_with_capacity (coll s) n) as [c0| | |] eqn:E0; try discriminate.
      destruct (strict_add n 1) as [l|]; [|discriminate].
      destruct (@vec_with_capacity Z (osz k) l) as [v| | |]; try discriminate.
      injection E as <-. exact (IH _ _ E0).
  Qed.
  Lemma try_with_capacity_matches s h : forall n w c w',
    k_try_with_capacity (coll s) n w = (BOk c, w') ->
    matches H s c (h_try_with_capacity H s h).
  Proof.
    induction s as [p| |s IH|m s IH|k s IH|A a0 z]; intros n w c w' E; try exact I.
    - cbn in E. unfold va_try_with_capacity in E.
      destruct (k_try_with_capacity (coll s) n w) as [[c0| | |] w1] eqn:E0; try discriminate.
      destruct (bm_try_with_capacity n w1) as [[b| | |] w2]; try discriminate.
      injection E as <- _. cbn. split; [split; discriminate|exact (IH _ _ _ _ E0)].
    - cbn in E. unfold fl_try_with_capacity in E.
      destruct (checked_mul n (N.of_nat m)) as [l|]; [|discriminate]. exact (IH _ _ _ _ E).
    - cbn in E. unfold of_try_with_capacity in E.
      destruct (checked_add n 1) as [l|]; [|discriminate].
      destruct (k_try_with_capacity (coll s) n w) as [[c0| | |] w1] eqn:E0; try discriminate.
      destruct (@vec_try_with_capacity Z (osz k) l w1) as [[v| | |] w2]; try discriminate.
      destruct (vec_try_extend (osz k) v (it_list [0%Z]) w2) as [[[v' u] o] w3].
      destruct o; try discriminate. injection E as <- _. exact (IH _ _ _ _ E0).
  Qed.
  Lemma collect_parts K (collect : forall R, iter (cA K) R -> bres (cC K) * R)
    X (it : iter (option (cA K)) X) v r : va_collect K collect it = (BOk v, r) ->
    exists c b Y (it' : iter (cA K) Y) r',
      v = Validity c (Some b) /\ collect Y it' = (BOk c, r').
  Proof.
    unfold va_collect. intro E.
    destruct (bm_with_capacity (upper_or_lower (it_hint it))) as [b| | |]; try discriminate.
    destruct (collect _ (it_map (unwrap_or (k_item0 K)) (it_inspect (push_bit K) b it)))
      as [res [r' b']] eqn:E0.
    destruct res as [c0| | |]; try discriminate. injection E as <- _.
    do 5 eexists. split; [reflexivity|exact E0].
  Qed.
  Lemma list_collect_parts K k X (it : iter (list (cA K)) X) o r :
    of_from_iter_in K k it = (BOk o, r) ->
    exists o0, of_with_capacity K k (upper_or_lower (it_hint it)) = BOk o0 /\
      of_extend K k o0 it = (o, r, ODone).
  Proof.
    unfold of_from_iter_in. intro E.
    destruct (of_with_capacity K k (upper_or_lower (it_hint it))) as [o0| | |]; try discriminate.
    exists o0. split; [reflexivity|]. destruct (of_extend K k o0 it) as [[o' r'] e].
    destruct e; try discriminate. injection E as <- <-. reflexivity.
  Qed.
  Lemma null_try_collect_parts K X (it : iter (option (cA K)) X) w v r w' :
    va_try_from_iter K it w = (BOk v, r, w') ->
    exists v0 w1, va_try_with_capacity K (upper_or_lower (it_hint it)) w = (BOk v0, w1) /\
      va_try_extend K v0 it w1 = (v, r, ODone, w').
  Proof.
    unfold va_try_from_iter. intro E.
    destruct (va_try_with_capacity K (upper_or_lower (it_hint it)) w) as [[v0| | |] w1];
      try discriminate.
    exists v0, w1. split; [reflexivity|]. destruct (va_try_extend K v0 it w1) as [[[v' r'] e] w2].
    destruct e; try discriminate. injection E as <- <- <-. reflexivity.
  Qed.
  Lemma list_try_collect_parts K k X (it : iter (list (cA K)) X) w o r w' :
    of_try_from_iter K k it w = (BOk o, r, w') ->
    exists o0 w1, of_try_with_capacity K k (upper_or_lower (it_hint it)) w = (BOk o0, w1) /\
      of_try_extend K k o0 it w1 = (o, r, ODone, w').
  Proof.
    unfold of_try_from_iter. intro E.
    destruct (of_try_with_capacity K k (upper_or_lower (it_hint it)) w) as [[o0| | |] w1];
      try discriminate.
    exists o0, w1. split; [reflexivity|]. destruct (of_try_extend K k o0 it w1) as [[[o' r'] e] w2].
    destruct e; try discriminate. injection E as <- <- <-. reflexivity.
  Qed.
  Lemma from_iter_matches s h : forall X (it : iter (cA (coll s)) X) c r,
    k_from_iter_in (coll s) it = (BOk c, r) -> matches H s c (h_from_iter H s c h).
  Proof.
    induction s as [p| |s IH|m s IH|k s IH|A a0 z]; intros X it c r E; try exact I.
    - destruct (collect_parts _ _ _ _ _ _ E) as (c0 & b & Y & it' & r' & -> & E0).
      cbn. split; [split; discriminate|exact (IH _ _ _ _ E0)].
    - exact (IH _ _ _ _ E).
    - destruct (list_collect_parts _ _ _ _ _ _ E) as (o0 & E0 & E1).
      apply (after_matches (SList k s) o0).
      + exact (with_capacity_matches (SList k s) h _ _ E0).
      + exact (kp_extend _ _ (grown_keeps (SList k s)) _ _ _ _ _ _ E1).
  Qed.
  Lemma try_from_iter_matches s h : forall X (it : iter (cA (coll s)) X) w c r w',
    k_try_from_iter (coll s) it w = (BOk c, r, w') -> matches H s c (h_try_from_iter H s c h).
  Proof.
    induction s as [p| |s IH|m s IH|k s IH|A a0 z]; intros X it w c r w' E; try exact I.
    - destruct (null_try_collect_parts _ _ _ _ _ _ _ E) as (v0 & w1 & E0 & E1).
      apply (after_matches (SNull s) v0).
      + exact (try_with_capacity_matches (SNull s) h _ _ _ _ E0).
      + exact (kp_try_extend _ _ (grown_keeps (SNull s)) _ _ _ _ _ _ _ _ E1).
    - exact (IH _ _ _ _ _ _ E).
    - destruct (list_try_collect_parts _ _ _ _ _ _ _ _ E) as (o0 & w1 & E0 & E1).
      apply (after_matches (SList k s) o0).
      + exact (try_with_capacity_matches (SList k s) h _ _ _ _ E0).
      + exact (kp_try_extend _ _ (grown_keeps (SList k s)) _ _ _ _ _ _ _ _ E1).
  Qed.

  Theorem handles_constructed s h :
    (forall n c, k_with_capacity (coll s) n = BOk c ->
       matches H s c (h_with_capacity H s h) /\ all_from H s (h_with_capacity H s h) h) /\
    (forall n w c w', k_try_with_capacity (coll s) n w = (BOk c, w') ->
       matches H s c (h_try_with_capacity H s h) /\ all_from H s (h_try_with_capacity H s h) h) /\
    (forall X (it : iter (cA (coll s)) X) c r, k_from_iter_in (coll s) it = (BOk c, r) ->
       matches H s c (h_from_iter H s c h) /\ all_from H s (h_from_iter H s c h) h) /\
    (forall X (it : iter (cA (coll s)) X) w c r w',
       k_try_from_iter (coll s) it w = (BOk c, r, w') ->
       matches H s c (h_try_from_iter H s c h) /\ all_from H s (h_try_from_iter H s c h) h) /\
    matches H s (k_default (coll s)) (h_default H s h) /\ all_from H s (h_default H s h) h.
  Proof.
    split; [intros n c E; split; [exact (with_capacity_matches s h n c E)|apply with_capacity_from]|].
    split; [intros n w c w' E; split;
      [exact (try_with_capacity_matches s h n w c w' E)|apply try_with_capacity_from]|].
    split; [intros X it c r E; split; [exact (from_iter_matches s h X it c r E)|apply from_iter_from]|].
    split; [intros X it w c r w' E; split;
      [exact (try_from_iter_matches s h X it w c r w' E)|apply try_from_iter_from]|].
    split; [apply default_matches|apply default_from].
  Qed.
  Theorem handles_one_allocator s h c (t : handles H s) ps :
    matches H s c t -> all_from H s t h ->
    let '(c', t') := h_exec H s c t ps in
    c' = fst (exec (coll s) c ps) /\ matches H s c' t' /\ all_from H s t' h /\
    h_allocator H s t' = h.
  Proof.
    intros Hm Ha. pose proof (handles_history s ps c t Hm) as Hh.
    destruct (h_exec H s c t ps) as [c' t']. destruct Hh as (H1 & H2 & H3 & H4).
    split; [exact H1|]. split; [exact H2|].
    assert (Ha' : all_from H s t' h) by (intros x Hx; apply Ha, H4, Hx).
    split; [exact Ha'|exact (all_from_allocator s t' h Ha')].
  Qed.
End Handles.
