(** * Laws of collections.

    [LD] packs, for one collection type, the abstraction to a list and what
    bounds and classifies its behaviour; [Laws] says that the operations of the
    model implement the list operations. Vectors and bitmaps satisfy the laws,
    and Validity, Flatten and Offsets preserve them. *)
From Coq Require Import List NArith ZArith Bool Arith Lia ZifyBool ZifyNat ZifyN.
From Verif Require Import Base Iter Spec VecModel BitmapModel CollModel ValidityModel
  IterLemmas VecLemmas RoomLemmas BitmapLemmas BitmapLemmas2.
Import ListNotations.

Fixpoint sumw {A} (f : A -> N) (l : list A) : N :=
  match l with [] => 0%N | x :: l' => (f x + sumw f l')%N end.

Record LD (K : Coll) : Type := {
  l_wt : cA K -> Prop;               (* arrays have their length, at any depth *)
  l_inv : cC K -> Prop;
  l_abs : cC K -> list (cA K);
  l_irep : cVI K -> list (cA K) -> Prop;   (* items left in a view iterator *)
  l_orep : cOI K -> list (cA K) -> Prop;   (* items left in an owned iterator *)
  l_voff : cC K -> nat;              (* bit offset of the innermost bitmap of values *)
  l_usage : cC K -> N;               (* bounds the memory in use *)
  l_wgt : cA K -> N;                 (* growth of usage per item *)
  l_cfac : N;                        (* usage per reserved item *)
  l_lim : N;                         (* usage up to this never overflows *)
  (* Is a panicking extension harmless? The first argument says whether sizes
     are known to stay within [l_lim], the second is the value bit offset. *)
  l_psafe : bool -> nat -> bool;
  (* Does a panicking extension keep the length a multiple of the last
     argument? *)
  l_gran : bool -> nat -> nat -> bool;
  l_nofuse : bool;                   (* collecting stops at the first None *)
  l_nofuse_try : bool;
  l_oob : N -> bool;                 (* is an out of bounds view None? *)
}.
Arguments l_wt {K} l.
Arguments l_inv {K} l.
Arguments l_abs {K} l.
Arguments l_irep {K} l.
Arguments l_orep {K} l.
Arguments l_voff {K} l.
Arguments l_usage {K} l.
Arguments l_wgt {K} l.
Arguments l_cfac {K} l.
Arguments l_lim {K} l.
Arguments l_psafe {K} l.
Arguments l_gran {K} l.
Arguments l_nofuse {K} l.
Arguments l_nofuse_try {K} l.
Arguments l_oob {K} l.

Section Defs.
  Context {K : Coll} (d : LD K).

  Definition fits (c : cC K) (xs : list (cA K)) : Prop :=
    (l_usage d c + sumw (l_wgt d) xs <= l_lim d)%N.

  (** [c] has room for everything [it] yields or promises. *)
  Definition fits_it {R} (c : cC K) (it : iter (cA K) R) : Prop :=
    affords (l_wgt d) (l_cfac d) (l_lim d) (l_usage d c) it.

  (** [c'] holds the items of [c] followed by [xs]. *)
  Definition full_ext (c c' : cC K) (xs : list (cA K)) : Prop :=
    l_inv d c' /\ l_voff d c' = l_voff d c /\ l_abs d c' = l_abs d c ++ xs /\
    (l_usage d c' <= l_usage d c + sumw (l_wgt d) xs)%N.

  (** [c'] holds the items of [c] followed by a prefix of [xs]. *)
  Definition partial_ext (s : bool) (c c' : cC K) (xs : list (cA K)) : Prop :=
    l_inv d c' /\ l_voff d c' = l_voff d c /\
    (l_usage d c' <= l_usage d c + sumw (l_wgt d) xs)%N /\
    exists k, k <= length xs /\ l_abs d c' = l_abs d c ++ firstn k xs /\
      (forall n, l_gran d s (l_voff d c) n = true ->
         Nat.divide n (length (l_abs d c)) -> Nat.divide n (length xs) -> Nat.divide n k).

  (** [c'] holds the items of [c]. *)
  Definition same_items (c c' : cC K) : Prop :=
    l_inv d c' /\ l_voff d c' = l_voff d c /\ l_abs d c' = l_abs d c /\
    (l_usage d c' <= l_usage d c)%N.

  Definition fresh (c : cC K) (xs : list (cA K)) : Prop :=
    l_inv d c /\ l_voff d c = 0 /\ l_abs d c = xs /\ (l_usage d c <= sumw (l_wgt d) xs)%N.

  Definition collects (f : forall R, iter (cA K) R -> bres (cC K) * R) : Prop :=
    forall R (it : iter (cA K) R) xs e r res r',
    l_nofuse d = true \/ fused it ->
    Forall (l_wt d) xs -> run it = (xs, e, r) -> f R it = (res, r') ->
    match res with
    | BOk c => e = FStop /\ (l_nofuse d = true -> r' = r) /\
        (fused it -> In r' (after it)) /\ fresh c xs
    | BErr => False
    | _ => True
    end /\
    (affords (l_wgt d) (l_cfac d) (l_lim d) 0 it ->
     (upper_or_lower (it_hint it) * l_cfac d <= l_lim d)%N ->
     match e with FStop => exists c, res = BOk c | FBoom => res = BPanic end).
End Defs.

Record Laws (K : Coll) (d : LD K) : Prop := {
  lw_item0 : l_wt d (k_item0 K);
  lw_cfac1 : (1 <= l_cfac d)%N;
  lw_cfac : forall x, l_wt d x -> (l_cfac d <= l_wgt d x)%N;
  lw_lim : (l_lim d <= alloc_max)%N;
  lw_abs_wt : forall c, l_inv d c -> Forall (l_wt d) (l_abs d c);
  lw_abs_len : forall c, l_inv d c -> (lenN (l_abs d c) <= 8 * alloc_max)%N;
  lw_usage : forall c, l_inv d c -> (lenN (l_abs d c) <= l_usage d c)%N;
  lw_default : fresh d (k_default K) [];
  lw_len : forall c, l_inv d c -> k_len K c = Ret (length (l_abs d c));
  lw_view : forall c i x, l_inv d c -> nth_error (l_abs d c) i = Some x ->
    exists v, k_view K c (N.of_nat i) = Ret (Some v) /\ k_own K v = Ret x;
  lw_view_out : forall c i, l_inv d c -> (lenN (l_abs d c) <= i)%N -> (i <= usize_max)%N ->
    k_view K c i = if l_oob d i then Ret None else Pnc;
  lw_iter : forall c, l_inv d c -> exists s, k_iter K c = Ret s /\ l_irep d s (l_abs d c);
  lw_icons : forall s x xs, l_irep d s (x :: xs) ->
    exists v s', k_inext K s = Ret (Some v, s') /\ k_own K v = Ret x /\ l_irep d s' xs;
  lw_inil : forall s, l_irep d s [] ->
    exists s', k_inext K s = Ret (None, s') /\ l_irep d s' [];
  lw_ihint : forall s xs, l_irep d s xs -> k_ihint K s = Ret (exact_hint (length xs));
  lw_into : forall c, l_inv d c -> exists s, k_into K c = Ret s /\ l_orep d s (l_abs d c);
  lw_ocons : forall s x xs, l_orep d s (x :: xs) ->
    exists s', k_onext K s = Ret (Some x, s') /\ l_orep d s' xs;
  lw_onil : forall s, l_orep d s [] ->
    exists s', k_onext K s = Ret (None, s') /\ l_orep d s' [];
  lw_ohint : forall s xs, l_orep d s xs -> k_ohint K s = Ret (exact_hint (length xs));
  lw_with_capacity : forall n,
    match k_with_capacity K n with
    | BOk c => fresh d c []
    | BErr => False
    | _ => True
    end /\
    ((n * l_cfac d <= l_lim d)%N -> exists c, k_with_capacity K n = BOk c);
  lw_try_with_capacity : forall n w res w', k_try_with_capacity K n w = (res, w') ->
    match res with BOk c => fresh d c [] | BErr => True | _ => False end;
  lw_from_iter : collects d (fun R => @k_from_iter K R);
  lw_from_iter_in : collects d (fun R => @k_from_iter_in K R);
  lw_try_from_iter : forall R (it : iter (cA K) R) w xs e r res r' w',
    l_nofuse_try d = true \/ fused it ->
    Forall (l_wt d) xs -> run it = (xs, e, r) ->
    k_try_from_iter K it w = (res, r', w') ->
    match res with
    | BOk c => e = FStop /\ fresh d c xs /\ (l_nofuse_try d = true -> r' = r) /\
        (fused it -> In r' (after it))
    | BErr => True
    | BPanic => e = FBoom
    | BAbort => False
    end;
  lw_extend : forall R c (it : iter (cA K) R) xs e r c' r' o,
    l_inv d c -> Forall (l_wt d) xs -> run it = (xs, e, r) ->
    k_extend K c it = (c', r', o) ->
    match o with
    | ODone => e = FStop /\ r' = r /\ full_ext d c c' xs
    | OErr => False
    | OPanic => forall s, (s = true -> fits_it d c it) -> l_psafe d s (l_voff d c) = true ->
        partial_ext d s c c' xs
    | OAbort => True
    end /\ (fits_it d c it -> ends_as o e);
  lw_try_extend : forall R c (it : iter (cA K) R) w xs e r c' r' o w',
    l_inv d c -> Forall (l_wt d) xs -> run it = (xs, e, r) ->
    k_try_extend K c it w = (c', r', o, w') ->
    match o with
    | ODone => e = FStop /\ r' = r /\ full_ext d c c' xs
    | OErr => l_inv d c' /\ l_voff d c' = l_voff d c /\ l_abs d c' = l_abs d c /\
        (l_usage d c' <= l_usage d c + sumw (l_wgt d) xs)%N
    | OPanic => e = FBoom /\
        (l_psafe d true (l_voff d c) = true -> partial_ext d true c c' xs)
    | OAbort => False
    end;
  lw_reserve : forall c n c' o, l_inv d c -> k_reserve K c n = (c', o) ->
    same_items d c c' /\ o <> OErr /\
    ((l_usage d c + n * l_cfac d <= l_lim d)%N -> o = ODone);
  lw_try_reserve : forall c n w c' o w', l_inv d c -> k_try_reserve K c n w = (c', o, w') ->
    same_items d c c' /\ (o = ODone \/ o = OErr);
  lw_truncate : forall c n, l_inv d c ->
    exists c', k_truncate K c n = (c', ODone) /\ l_inv d c' /\ l_voff d c' = l_voff d c /\
      l_abs d c' = firstn (N.to_nat n) (l_abs d c) /\ (l_usage d c' <= l_usage d c)%N;
}.

(** ** Sums *)

Local Arguments N.add : simpl never.
Lemma sumw_app {A} (f : A -> N) l l' : sumw f (l ++ l') = (sumw f l + sumw f l')%N.
Proof. induction l as [|x l IH]; cbn [sumw app]; lia. Qed.
Lemma sumw_const {A} (f : A -> N) c l : (forall x, In x l -> f x = c) -> sumw f l = (c * lenN l)%N.
Proof.
  induction l as [|x l IH]; cbn [sumw]; intros H; [unfold lenN; cbn [length]; lia|].
  rewrite IH, lenN_cons, (H x) by (intros; try apply H; cbn [In]; auto). rewrite N.mul_add_distr_l. lia.
Qed.
Lemma sumw_lower {A} (f : A -> N) c l : Forall (fun x => (c <= f x)%N) l -> (c * lenN l <= sumw f l)%N.
Proof.
  induction 1 as [|x l Hx Hl IH]; cbn [sumw]; [unfold lenN; cbn [length]; lia|].
  rewrite lenN_cons, N.mul_add_distr_l. lia.
Qed.
Lemma sumw_firstn {A} (f : A -> N) k l : (sumw f (firstn k l) <= sumw f l)%N.
Proof. rewrite <- (firstn_skipn k l) at 2. rewrite sumw_app. lia. Qed.
Lemma sumw_skipn {A} (f : A -> N) k l : (sumw f (skipn k l) <= sumw f l)%N.
Proof. rewrite <- (firstn_skipn k l) at 2. rewrite sumw_app. lia. Qed.
Lemma sumw_map {A B} (f : B -> N) (g : A -> B) l : sumw f (map g l) = sumw (fun x => f (g x)) l.
Proof. induction l as [|x l IH]; cbn [sumw map]; congruence. Qed.
Lemma sumw_concat {A} (f : A -> N) l : sumw f (concat l) = sumw (sumw f) l.
Proof. induction l as [|x l IH]; cbn [sumw concat]; [auto|]. rewrite sumw_app, IH; auto. Qed.
Lemma sumw_plus {A} (f g : A -> N) l : sumw (fun x => (f x + g x)%N) l = (sumw f l + sumw g l)%N.
Proof. induction l as [|x l IH]; cbn [sumw]; lia. Qed.
Lemma sumw_one {A} (l : list A) : sumw (fun _ => 1%N) l = lenN l.
Proof. rewrite (sumw_const _ 1) by auto. lia. Qed.
Lemma sumw_two {A} (l : list A) : sumw (fun _ => 2%N) l = (2 * lenN l)%N.
Proof. apply sumw_const; auto. Qed.

Lemma sumw_fold {A} (f : A -> N) l : sumw f l = fold_right (fun x => N.add (f x)) 0%N l.
Proof. induction l as [|x l IH]; cbn [sumw fold_right]; congruence. Qed.
Lemma fits_it_fits {K} (d : LD K) {R} c (it : iter (cA K) R) xs e r :
  run it = (xs, e, r) -> fits_it d c it -> fits d c xs.
Proof.
  intros Hr H. apply affords_items in H. unfold items_of in H. rewrite Hr in H.
  unfold fits. rewrite sumw_fold. exact H.
Qed.
Lemma affords_sumw {A R} (f : A -> N) unit lim used (it : iter A R) xs e r :
  run it = (xs, e, r) -> affords f unit lim used it -> (used + sumw f xs <= lim)%N.
Proof.
  intros Hr H. apply affords_items in H. unfold items_of in H. rewrite Hr in H.
  rewrite sumw_fold. exact H.
Qed.
Lemma fits_list {K} (d : LD K) (L : Laws K d) c xs :
  Forall (l_wt d) xs -> fits d c xs -> fits_it d c (it_list xs).
Proof.
  intros Hx H. apply affords_list.
  - eapply Forall_impl; [|exact Hx]. intros a. apply (lw_cfac _ _ L).
  - rewrite <- sumw_fold. exact H.
Qed.

(** [flatten] of rows of [w] items *)
Lemma affords_flatten {A R} (f : A -> N) unit lim used (w : nat) (it : iter (list A) R) xs e r :
  run it = (xs, e, r) -> Forall (fun l => Forall (fun x => (unit <= f x)%N) l) xs ->
  affords (sumw f) (N.of_nat w * unit) lim used it ->
  affords f unit lim used (it_flatten (N.of_nat w) it).
Proof.
  assert (H0 : forall (h : hint) rest used, (used + unit * (fst h * N.of_nat w + rest) <= lim)%N ->
    (used + unit * fst (flat_hint (N.of_nat w) rest h) <= lim)%N).
  { intros h rest u H. unfold flat_hint. cbn [fst].
    assert (unit * sat_add (sat_mul (fst h) (N.of_nat w)) rest <= unit * (fst h * N.of_nat w + rest))%N.
    { apply N.mul_le_mono_l. unfold sat_add, sat_mul. lia. }
    lia. }
  assert (Hsw : forall h : N, (unit * (h * N.of_nat w) = N.of_nat w * unit * h)%N).
  { intros h. rewrite (N.mul_comm h), N.mul_assoc, (N.mul_comm unit). reflexivity. }
  assert (He : forall (n : node R) rest (l : list A) used n0,
    (used + unit * fst (nd_hint n0) <= lim)%N -> Forall (fun x => (unit <= f x)%N) l ->
    (used + sumw f l + N.of_nat w * unit * fst (nd_hint n) <= lim)%N ->
    (forall n1, (used + sumw f l + unit * fst (nd_hint n1) <= lim)%N ->
       affords_t f unit lim (used + sumw f l) rest n1) ->
    affords_t f unit lim used (emit_t (N.of_nat w) l n rest) n0).
  { intros n rest. induction l as [|x l IH]; intros u n0 Hn0 Hl Hs Hk; cbn [emit_t].
    - specialize (Hk n0). cbn [sumw] in Hk. rewrite N.add_0_r in Hk. auto.
    - split; [exact Hn0|]. cbn [sumw] in *. inversion Hl as [|? ? Hx Hl']; subst.
      pose proof (sumw_lower f unit l Hl') as Hw. unfold lenN in Hw. apply IH; auto.
      + cbn [nd_hint]. apply H0. rewrite N.mul_add_distr_l, Hsw. lia.
      + lia.
      + intros n1 Hn1. replace (u + f x + sumw f l)%N with (u + (f x + sumw f l))%N in * by lia. auto. }
  assert (T : forall (t : trace (list A) R) cur n0 used xs e r, run_t t cur = (xs, e, r) ->
    Forall (fun l => Forall (fun x => (unit <= f x)%N) l) xs ->
    affords_t (sumw f) (N.of_nat w * unit) lim used t cur ->
    (used + unit * fst (nd_hint n0) <= lim)%N ->
    affords_t f unit lim used (flatten_t (N.of_nat w) cur t) n0).
  { clear used it xs e r. induction t as [|[[l| |] n'] t IH]; intros cur n0 u xs e r Hr Hx H Hn0;
      cbn [flatten_t].
    - split; [exact Hn0|]. split; [|exact I]. cbn [nd_hint fst]. lia.
    - cbn [run_t] in Hr. destruct (run_t t n') as [[xs1 e1] r1] eqn:Hr1. inversion Hr; subst.
      inversion Hx as [|? ? Hl Hx1]; subst. destruct H as [_ H].
      assert (Hu : (u + sumw f l + N.of_nat w * unit * fst (nd_hint n') <= lim)%N).
      { destruct t; apply H. }
      apply He; auto. intros n1 Hn1. eapply IH; eauto.
    - split; [exact Hn0|]. split; [|exact I]. cbn [nd_hint fst]. lia.
    - split; [exact Hn0|exact I]. }
  intros Hr Hx H. unfold affords, it_flatten. cbn [it_tr it_node].
  apply (T _ _ _ _ _ _ _ Hr Hx H). cbn [nd_hint]. apply H0. rewrite N.add_0_r, Hsw.
  apply affords_used in H. exact H.
Qed.

Lemma in_after_run {A R} (it : iter A R) xs e r : run it = (xs, e, r) -> In r (after it).
Proof.
  unfold run, after. generalize (it_node it) as n. revert xs e r.
  induction (it_tr it) as [|[[a| |] n'] t IH]; intros xs e r n; cbn.
  - intros H; inversion H; auto.
  - destruct (run_t t n') as [[xs1 e1] r1] eqn:E. intros H; inversion H; subst. eauto.
  - intros H; inversion H; auto.
  - intros H; inversion H; auto.
Qed.

(** Reduce the projections of a collection and of its law data. *)
Ltac law_cbn := cbn [cC cA cV cVI cOI k_item0 k_len k_view k_own k_iter k_inext k_ihint
  k_into k_onext k_ohint k_default k_with_capacity k_try_with_capacity k_from_iter
  k_from_iter_in k_try_from_iter k_extend k_try_extend k_reserve k_try_reserve k_truncate
  l_wt l_inv l_abs l_irep l_orep l_voff l_usage l_wgt l_cfac l_lim l_psafe l_gran
  l_nofuse l_nofuse_try l_oob].
