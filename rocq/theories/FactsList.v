(** * Facts about list collections, in the vocabulary of the theorems *)
From Coq Require Import List NArith ZArith Bool Arith Lia ZifyBool ZifyNat ZifyN.
From Verif Require Import Base Iter Spec SpecParts VecModel BitmapModel CollModel ValidityModel
  FlattenModel OffsetsModel OffsetViewModel LayoutModel IterLemmas VecLemmas BitmapLemmas
  BitmapLemmas2 Laws LawsBase LawsFlatten LawsValidity LawsOffsets Reach ReachLemmas CoreLemmas
  FactsNull.
Import ListNotations.

Ltac Zify.zify_post_hook ::= Z.div_mod_to_equations.
Local Arguments N.add : simpl never.
Local Arguments N.mul : simpl never.
Local Arguments max_items : simpl never.

(** ** Raw offsets *)

Lemma start_ok_nil : offsets_start_ok [].
Proof. repeat split; [intros z|intros [|i] z|intros [|i] a b]; discriminate. Qed.
Lemma start_ok_zero : offsets_start_ok [0%Z].
Proof.
  repeat split; [intros z|intros [|[|i]] z|intros [|[|i]] a b]; cbn; try discriminate;
    intros E; inversion E; lia.
Qed.
Lemma start_ok_snoc zs a b : offsets_start_ok (zs ++ [a]) -> (a <= b)%Z ->
  offsets_start_ok (zs ++ [a; b]).
Proof.
  intros (H1 & H2 & H3) Hab.
  assert (Ha : (0 <= a)%Z).
  { apply (H2 (length zs)). rewrite nth_error_app2, Nat.sub_diag by lia. reflexivity. }
  replace (zs ++ [a; b]) with ((zs ++ [a]) ++ [b]) by (rewrite <- app_assoc; reflexivity).
  assert (Hlen : length (zs ++ [a]) = S (length zs)) by (rewrite app_length; cbn; lia).
  assert (Hl : nth_error (zs ++ [a]) (length zs) = Some a).
  { rewrite nth_error_app2, Nat.sub_diag by lia. reflexivity. }
  repeat split.
  - intros z Hz. apply H1. rewrite nth_error_app1 in Hz by lia. auto.
  - intros i z Hz. destruct (Nat.ltb i (S (length zs))) eqn:E.
    + rewrite nth_error_app1 in Hz by lia. eauto.
    + rewrite nth_error_app2 in Hz by lia.
      destruct (i - length (zs ++ [a])) as [|[|k]]; cbn in Hz; inversion Hz; lia.
  - intros i x y Hx Hy. destruct (Nat.ltb (S i) (S (length zs))) eqn:E.
    + rewrite nth_error_app1 in Hx, Hy by lia. eauto.
    + rewrite nth_error_app2 in Hy by lia.
      destruct (S i - length (zs ++ [a])) as [|[|k]] eqn:Ek; cbn in Hy; inversion Hy; subst.
      assert (i = length zs) as -> by lia. rewrite nth_error_app1 in Hx by lia.
      rewrite Hl in Hx. inversion Hx; subst; auto.
Qed.
Lemma firstn_app_len {A} (l1 l2 : list A) n : length l1 = n -> firstn n (l1 ++ l2) = l1.
Proof. intros <-. rewrite firstn_app, firstn_all, Nat.sub_diag. apply app_nil_r. Qed.

(** The loop of try_from_parts, after a valid [pre ++ [prev]]. *)
Lemma of_check_fault l : forall pre prev n, offsets_start_ok (pre ++ [Z.of_N prev]) ->
  match of_check (S (length pre)) prev l with
  | inl p => offsets_start_ok (pre ++ Z.of_N prev :: l) /\
      last (pre ++ Z.of_N prev :: l) 0%Z = Z.of_N p
  | inr e => offsets_fault (pre ++ Z.of_N prev :: l) n e
  end.
Proof.
  induction l as [|z l IH]; intros pre prev n Hs; cbn [of_check].
  - split; [auto|]. rewrite last_last. reflexivity.
  - unfold usize_try_from. destruct (0 <=? z)%Z eqn:E0.
    + destruct (Z.to_N z <? prev)%N eqn:E1.
      * unfold offsets_fault. exists (length pre), (Z.of_N prev), z.
        split; [auto|]. split; [rewrite nth_error_app2, Nat.sub_diag by lia; reflexivity|].
        split.
        { rewrite nth_error_app2 by lia. replace (S (length pre) - length pre) with 1 by lia. auto. }
        split; [lia|].
        replace (pre ++ Z.of_N prev :: z :: l) with ((pre ++ [Z.of_N prev]) ++ z :: l)
          by (rewrite <- app_assoc; reflexivity).
        rewrite firstn_app_len; [auto|]. rewrite app_length; cbn; lia.
      * specialize (IH (pre ++ [Z.of_N prev]) (Z.to_N z) n).
        rewrite Z2N.id in IH by lia. rewrite app_length in IH. cbn [length] in IH.
        replace (length pre + 1) with (S (length pre)) in IH by lia.
        rewrite <- !app_assoc in IH. cbn [app] in IH. apply IH.
        apply start_ok_snoc; [auto|lia].
    + unfold offsets_fault. exists z. split.
      { rewrite nth_error_app2 by lia. replace (S (length pre) - length pre) with 1 by lia. auto. }
      split; [lia|].
      replace (pre ++ Z.of_N prev :: z :: l) with ((pre ++ [Z.of_N prev]) ++ z :: l)
        by (rewrite <- app_assoc; reflexivity).
      rewrite firstn_app_len; [auto|]. rewrite app_length; cbn; lia.
Qed.

Lemma offsets_ok_no_fault zs n e : offsets_ok zs n -> offsets_fault zs n e -> False.
Proof.
  intros (H1 & (H2 & H3 & H4) & H5). destruct e; cbn [offsets_fault].
  - auto.
  - intros [E Hf]. apply H2 in E. lia.
  - intros (z & E & Hz & _). apply H3 in E. lia.
  - intros (j & p & z & -> & Ep & Ez & Hz & _). pose proof (H4 _ _ _ Ep Ez). lia.
  - intros (_ & _ & El & _ & Hl). lia.
Qed.

(** try_from_parts, for any collection whose length is known. *)
Lemma of_parts_spec K (data : cC K) offs n : k_len K data = Ret n ->
  match of_try_from_parts K data offs with
  | Ret (inl o) => offsets_ok (v_items offs) n /\ o = Offsets data offs
  | Ret (inr e) => offsets_fault (v_items offs) n e
  | Pnc => False
  end.
Proof.
  intros Hn. unfold of_try_from_parts. destruct (v_items offs) as [|z zs] eqn:Ev.
  - reflexivity.
  - unfold usize_try_from. destruct (0 <=? z)%Z eqn:E0.
    2:{ exists z. split; [reflexivity|]. split; [lia|]. apply start_ok_nil. }
    destruct (Z.to_N z =? 0)%N eqn:E1.
    2:{ split; [cbn; f_equal; lia|lia]. }
    assert (z = 0%Z) by lia. subst z. change (Z.to_N 0) with 0%N.
    pose proof (of_check_fault zs [] 0%N n start_ok_zero) as H. cbn [length app Z.of_N] in H.
    destruct (of_check 1 0 zs) as [p|e].
    + rewrite Hn. cbn [obind]. destruct H as [H1 H2].
      destruct (N.of_nat n <? p)%N eqn:E2.
      * unfold offsets_fault. split; [discriminate|]. split; [auto|]. split; [auto|]. split; [auto|lia].
      * split; [|reflexivity]. split; [discriminate|]. split; [auto|]. lia.
    + exact H.
Qed.

(** ** Views *)

Section Views.
  (** Any collection with an invariant under which the items [abs] can be viewed. *)
  Context (K : Coll) (inv : cC K -> Prop) (abs : cC K -> list (cA K)) (kd : okind)
    (Hmax : forall c, inv c -> (lenN (abs c) <= 8 * alloc_max)%N)
    (Hview : forall c i x, inv c -> nth_error (abs c) i = Some x ->
       exists v, k_view K c (N.of_nat i) = Ret (Some v) /\ k_own K v = Ret x).

  Definition row_rep (o : offsets (cC K)) (ls : list (list (cA K))) : Prop :=
    inv (of_data o) /\ (lenN ls < alloc_max)%N /\ v_items (of_offs o) = 0%Z :: ends 0 ls /\
    exists rest, abs (of_data o) = concat ls ++ rest.
  Lemma row_nth o ls i : row_rep o ls -> i <= length ls ->
    nth_error (v_items (of_offs o)) i = Some (Z.of_nat (length (concat (firstn i ls)))).
  Proof. intros (_ & _ & Hi & _) H. rewrite Hi. exact (ends_nth ls 0 i H). Qed.
  Lemma of_view_row o ls i l : row_rep o ls -> nth_error ls i = Some l ->
    let s := length (concat (firstn i ls)) in
    of_view K o (N.of_nat i) = Ret (Some (OffView o (N.of_nat s) (N.of_nat (s + length l)))) /\
    s + length l <= length (abs (of_data o)) /\
    (forall j x, nth_error l j = Some x -> nth_error (abs (of_data o)) (s + j) = Some x).
  Proof.
    intros Ho Hl s.
    assert (Hi : i < length ls) by (apply nth_error_Some; congruence).
    pose proof (nth_split_row ls i l Hl) as Hsp.
    pose proof Ho as (Hd & Hr & _ & (rest & Ha)). unfold lenN in Hr. rewrite alloc_max_val in Hr.
    split; [|split].
    - unfold of_view, strict_add. rewrite usize_max_val.
      assert ((N.of_nat i + 1 <=? 18446744073709551615)%N = true) as -> by lia. cbn [obind].
      unfold vec_view. replace (N.of_nat i + 1)%N with (N.of_nat (S i)) by lia.
      rewrite !nth_N_nat, (row_nth o ls i), (row_nth o ls (S i)) by (auto; lia).
      rewrite !(as_usize_nat kd). cbn [obind].
      assert (Hf : concat (firstn (S i) ls) = concat (firstn i ls) ++ l).
      { rewrite (firstn_S_nth ls i l Hl), concat_app. cbn [concat]. rewrite app_nil_r. auto. }
      rewrite Hf, app_length. reflexivity.
    - rewrite Ha, Hsp, !app_length. unfold s. lia.
    - intros j x Hx. rewrite Ha, Hsp, <- !app_assoc.
      assert (Hj : j < length l) by (apply nth_error_Some; congruence).
      rewrite nth_error_app2 by (unfold s; lia).
      replace (s + j - length (concat (firstn i ls))) with j by (unfold s; lia).
      rewrite nth_error_app1; auto.
  Qed.

  (** A view of the items [l] of [data], starting at [s]. *)
  Definition ov_rep (v : offview (cC K)) (l : list (cA K)) : Prop :=
    exists s, ov_start v = N.of_nat s /\ ov_end v = N.of_nat (s + length l) /\
      inv (of_data (ov_coll v)) /\
      s + length l <= length (abs (of_data (ov_coll v))) /\
      (forall j x, nth_error l j = Some x ->
         nth_error (abs (of_data (ov_coll v))) (s + j) = Some x).

  Lemma ov_rep_len v l : ov_rep v l -> ov_len K v = Ret (lenN l).
  Proof.
    intros (s & H1 & H2 & _). unfold ov_len, strict_sub. rewrite H1, H2.
    assert ((N.of_nat s <=? N.of_nat (s + length l))%N = true) as -> by lia. f_equal. unfold lenN. lia.
  Qed.
  Lemma ov_rep_view v l i x : ov_rep v l -> nth_error l i = Some x ->
    exists u, ov_view K v (N.of_nat i) = Ret (Some u) /\ k_own K u = Ret x.
  Proof.
    intros (s & H1 & H2 & H3 & H4 & H5) Hx.
    assert (Hi : i < length l) by (apply nth_error_Some; congruence).
    pose proof (Hmax _ H3) as Hsz. rewrite alloc_max_val in Hsz. unfold lenN in Hsz.
    unfold ov_view, strict_add. rewrite H1, H2, usize_max_val.
    assert ((N.of_nat s + N.of_nat i <=? 18446744073709551615)%N = true) as -> by lia. cbn [obind].
    assert ((N.of_nat s + N.of_nat i <? N.of_nat (s + length l))%N = true) as -> by lia.
    replace (N.of_nat s + N.of_nat i)%N with (N.of_nat (s + i)) by lia.
    apply (Hview _ _ _ H3 (H5 i x Hx)).
  Qed.
  Lemma ov_rep_view_out v l i : ov_rep v l -> (lenN l <= i)%N ->
    ov_view K v i = if (ov_start v + i <=? usize_max)%N then Ret None else Pnc.
  Proof.
    intros (s & H1 & H2 & _) Hi. unfold lenN in Hi. unfold ov_view, strict_add. rewrite H1, H2.
    destruct (N.of_nat s + i <=? usize_max)%N; [|reflexivity]. cbn [obind].
    assert ((N.of_nat s + i <? N.of_nat (s + length l))%N = false) as -> by lia. reflexivity.
  Qed.
  Lemma ov_rep_own v l : ov_rep v l -> ov_own K v = Ret l.
  Proof.
    intros Hv. unfold ov_own. rewrite (ov_rep_len v l Hv). cbn [obind]. unfold lenN.
    rewrite Nat2N.id. apply (range_list kd). intros i x Hx. rewrite N.add_0_l. unfold ov_item.
    destruct (ov_rep_view v l i x Hv Hx) as (u & -> & Hu). exact Hu.
  Qed.
  Lemma ov_rep_ix v l : ov_rep v l -> ixrep ov_rep (IxIter v 0 (length l)) l.
  Proof.
    intros Hv. exists l. cbn [ix_coll ix_pos ix_end skipn]. repeat split; auto. lia.
  Qed.
  Lemma ov_iter_yields xs : forall s, ixrep ov_rep s xs ->
    yields (ov_inext K) ix_hint (k_own K) s xs.
  Proof.
    induction xs as [|x xs IH]; intros s Hs; cbn [yields].
    - intros n. revert s Hs. induction n as [|n IHn]; intros s Hs; cbn [nones].
      + split; auto. apply (ixrep_hint ov_rep s [] Hs).
      + split; [apply (ixrep_hint ov_rep s [] Hs)|].
        destruct (ixrep_nil (ov_view K) ov_rep s Hs) as (s' & E & H'). eauto.
    - split; [apply (ixrep_hint ov_rep s _ Hs)|].
      destruct (ixrep_cons (ov_view K) (k_own K) ov_rep ov_rep_view s x xs Hs)
        as (v & s' & E & Hv & H'). eauto 6.
  Qed.
  Lemma ov_into_yields xs : forall s, ixrep ov_rep s xs ->
    yields (ov_onext K) ix_hint Ret s xs.
  Proof.
    induction xs as [|x xs IH]; intros s Hs; cbn [yields].
    - intros n. revert s Hs. induction n as [|n IHn]; intros s Hs; cbn [nones].
      + split; auto. apply (ixrep_hint ov_rep s [] Hs).
      + split; [apply (ixrep_hint ov_rep s [] Hs)|].
        destruct (ixrep_nil (ov_view K) ov_rep s Hs) as (s' & E & H').
        exists s'. split; [|auto]. unfold ov_onext, ov_inext. rewrite E. reflexivity.
    - split; [apply (ixrep_hint ov_rep s _ Hs)|].
      destruct (ixrep_cons (ov_view K) (k_own K) ov_rep ov_rep_view s x xs Hs)
        as (v & s' & E & Hv & H').
      exists x, s'. split; [|auto]. unfold ov_onext, ov_inext. rewrite E. cbn [obind fst snd].
      rewrite Hv. reflexivity.
  Qed.

  (** Equality with another collection *)
  Fixpoint all2 {A B} (eqb : A -> B -> bool) (l : list A) (m : list B) : bool :=
    match l, m with
    | [], [] => true
    | a :: l', b :: m' => eqb a b && all2 eqb l' m'
    | _, _ => false
    end.
  Lemma all2_iff {A B} (eqb : A -> B -> bool) l : forall m, all2 eqb l m = true <->
    length l = length m /\
    forall i a b, nth_error l i = Some a -> nth_error m i = Some b -> eqb a b = true.
  Proof.
    induction l as [|a l IH]; intros [|b m]; cbn [all2 length]; split; try discriminate; try lia.
    - intros _. split; auto. intros [|i]; discriminate.
    - intros H. apply andb_true_iff in H. destruct H as [H1 H2]. apply IH in H2.
      destruct H2 as [H2 H3]. split; [lia|]. intros [|i] x y; cbn [nth_error]; [congruence|eauto].
    - intros [H1 H2]. apply andb_true_iff. split; [apply (H2 0); reflexivity|].
      apply IH. split; [lia|]. intros i x y Hx Hy. exact (H2 (S i) x y Hx Hy).
  Qed.
  Lemma ov_all_spec K2 (veq : cV K -> cV K2 -> out bool) (eqb : cA K -> cA K2 -> bool) :
    (forall x y a b, k_own K x = Ret a -> k_own K2 y = Ret b -> veq x y = Ret (eqb a b)) ->
    forall l m n s t, length l = length m -> length l < n ->
    yields (ov_inext K) ix_hint (k_own K) s l ->
    yields (k_inext K2) (k_ihint K2) (k_own K2) t m ->
    ov_all K K2 veq n s t = Ret (all2 eqb l m).
  Proof.
    intros He. induction l as [|a l IH]; intros [|b m] [|n] s t Hlen Hn Hs Ht;
      cbn [length] in *; try lia; cbn [ov_all].
    - destruct (Hs 1) as (_ & s' & -> & _). reflexivity.
    - destruct Hs as (_ & x & s' & -> & Hx & Hs'). destruct Ht as (_ & y & t' & -> & Hy & Ht').
      cbn [obind fst snd]. rewrite (He _ _ _ _ Hx Hy). cbn [obind all2].
      destruct (eqb a b); cbn [andb]; [|reflexivity]. apply IH; auto; lia.
  Qed.
  Lemma ov_rep_eq K2 (veq : cV K -> cV K2 -> out bool) (eqb : cA K -> cA K2 -> bool) v l c m :
    (forall x y a b, k_own K x = Ret a -> k_own K2 y = Ret b -> veq x y = Ret (eqb a b)) ->
    ov_rep v l -> k_len K2 c = Ret (length m) ->
    (exists t, k_iter K2 c = Ret t /\ yields (k_inext K2) (k_ihint K2) (k_own K2) t m) ->
    ov_eq K K2 veq v c = Ret (all2 eqb l m).
  Proof.
    intros He Hv Hc (t & Et & Ht). unfold ov_eq. rewrite (ov_rep_len v l Hv). cbn [obind].
    rewrite Hc. cbn [obind].
    destruct (lenN l =? N.of_nat (length m))%N eqn:E.
    - unfold ov_iter. rewrite (ov_rep_len v l Hv). cbn [obind].
      rewrite Et. cbn [obind]. unfold lenN in *. rewrite Nat2N.id.
      apply ov_all_spec; auto; [lia|]. apply ov_iter_yields, ov_rep_ix, Hv.
    - destruct (all2 eqb l m) eqn:Ea; [|reflexivity]. apply all2_iff in Ea. unfold lenN in E. lia.
  Qed.

  Lemma row_view o ls i l : row_rep o ls -> nth_error ls i = Some l ->
    exists v, of_view K o (N.of_nat i) = Ret (Some v) /\ ov_rep v l /\
      exists a b, nth_error (v_items (of_offs o)) i = Some a /\
        nth_error (v_items (of_offs o)) (S i) = Some b /\
        Z.of_N (ov_start v) = a /\ Z.of_nat (length l) = (b - a)%Z.
  Proof.
    intros Hr Hl. assert (Hi : i < length ls) by (apply nth_error_Some; congruence).
    destruct (of_view_row o ls i l Hr Hl) as (E & H1 & H2). eexists. split; [exact E|].
    pose proof Hr as (Hd & _). split.
    - exists (length (concat (firstn i ls))). cbn [ov_start ov_end ov_coll]. auto.
    - exists (Z.of_nat (length (concat (firstn i ls)))), (Z.of_nat (length (concat (firstn (S i) ls)))).
      split; [apply (row_nth o ls i Hr); lia|]. split; [apply (row_nth o ls (S i) Hr); lia|].
      cbn [ov_start]. split; [lia|].
      rewrite (firstn_S_nth ls i l Hl), concat_app, app_length. cbn [concat]. rewrite app_nil_r. lia.
  Qed.
  Lemma row_view_reads o ls i l v : row_rep o ls -> nth_error ls i = Some l ->
    of_view K o (N.of_nat i) = Ret (Some v) ->
    (exists a b, nth_error (v_items (of_offs o)) i = Some a /\
       nth_error (v_items (of_offs o)) (S i) = Some b /\ Z.of_nat (length l) = (b - a)%Z) /\
    ov_len K v = Ret (lenN l) /\ ov_own K v = Ret l /\
    (forall j x, nth_error l j = Some x ->
       exists u, ov_view K v (N.of_nat j) = Ret (Some u) /\ k_own K u = Ret x) /\
    (forall j, (lenN l <= j)%N ->
       ov_view K v j = if (ov_start v + j <=? usize_max)%N then Ret None else Pnc) /\
    (exists it, ov_iter K v = Ret it /\ yields (ov_inext K) ix_hint (k_own K) it l) /\
    (exists it, ov_into K v = Ret it /\ yields (ov_onext K) ix_hint Ret it l).
  Proof.
    intros Hr Hl E. destruct (row_view o ls i l Hr Hl) as (v' & E' & Hv & a & b & Ha & Hnb & _ & Hlen).
    rewrite E in E'. inversion E'; subst v'; clear E'.
    split; [eauto|]. split; [apply (ov_rep_len v l Hv)|].
    split; [apply (ov_rep_own v l Hv)|].
    split; [intros j x; apply (ov_rep_view v l j x Hv)|].
    split; [intros j; apply (ov_rep_view_out v l j Hv)|].
    split; (eexists; split; [unfold ov_iter, ov_into; rewrite (ov_rep_len v l Hv); reflexivity|]);
      unfold lenN; rewrite Nat2N.id.
    - apply ov_iter_yields, (ov_rep_ix v l Hv).
    - apply ov_into_yields, (ov_rep_ix v l Hv).
  Qed.
  Lemma row_view_eq o ls i l v K2 (veq : cV K -> cV K2 -> out bool) (eqb : cA K -> cA K2 -> bool) c m :
    row_rep o ls -> nth_error ls i = Some l -> of_view K o (N.of_nat i) = Ret (Some v) ->
    (forall x y a b, k_own K x = Ret a -> k_own K2 y = Ret b -> veq x y = Ret (eqb a b)) ->
    k_len K2 c = Ret (length m) ->
    (exists t, k_iter K2 c = Ret t /\ yields (k_inext K2) (k_ihint K2) (k_own K2) t m) ->
    exists r, ov_eq K K2 veq v c = Ret r /\
      (r = true <-> length l = length m /\
       forall i a b, nth_error l i = Some a -> nth_error m i = Some b -> eqb a b = true).
  Proof.
    intros Hr Hl E Heq Hc Hm. destruct (row_view o ls i l Hr Hl) as (v' & E' & Hv & _).
    rewrite E in E'. inversion E'; subst v'; clear E'.
    exists (all2 eqb l m). split; [exact (ov_rep_eq K2 veq eqb v l c m Heq Hv Hc Hm)|].
    apply all2_iff.
  Qed.
End Views.

(** ** Overflow of the offset type *)

Section Overflow.
  Context (K : Coll) (d : LD K) (L : Laws K d) (kd : okind).

  Lemma of_extend_t_step {R} l (n n' : node R) o p o1 r1 :
    of_extend_t K kd [(Yield l, n')] n o p = (o1, r1, ODone) ->
    forall t, of_extend_t K kd ((Yield l, n') :: t) n o p =
      of_extend_t K kd t n' o1 (p + Z.of_nat (length l)).
  Proof.
    cbn [of_extend_t]. unfold off_try_from.
    destruct (Z.of_N (lenN l) <=? omax kd)%Z; [|discriminate].
    unfold off_strict_add. unfold lenN. rewrite nat_N_Z.
    destruct ((omin kd <=? p + Z.of_nat (length l)) && (p + Z.of_nat (length l) <=? omax kd))%Z;
      [|discriminate].
    destruct (k_reserve K (of_data o) _) as [d1 []]; try discriminate.
    destruct (k_extend K d1 _) as [[d2 u] []]; try discriminate.
    destruct (vec_extend _ (of_offs o) _) as [[v3 u3] []]; try discriminate.
    intros E t. inversion E; subst. reflexivity.
  Qed.
  Lemma of_extend_t_overflow {R} l ys : forall (t : trace (list (cA K)) R) n o ls xs e r o' r' out,
    tight K d kd o ls -> Forall (Forall (l_wt d)) (xs ++ l :: ys) ->
    run_t t n = (xs ++ l :: ys, e, r) ->
    (usg K d o ls + sumw (of_wgt K d) xs <= of_lim K d kd)%N ->
    (omax kd < Z.of_nat (length (concat (ls ++ xs ++ [l]))))%Z ->
    of_extend_t K kd t n o (Z.of_nat (length (concat ls))) = (o', r', out) ->
    out = OPanic /\ tight K d kd o' (ls ++ xs) /\
    (usg K d o' (ls ++ xs) <= usg K d o ls + sumw (of_wgt K d) xs)%N.
  Proof.
    induction t as [|[[a| |] n'] t IH]; intros n o ls xs e r o' r' out Ht Hwt; cbn [run_t].
    1,3,4: intros E; inversion E; destruct xs; discriminate.
    destruct (run_t t n') as [[xs1 e1] r1] eqn:Hr. intros E1 Hs Hover.
    destruct xs as [|x xs]; cbn [app] in E1; inversion E1; subst; clear E1.
    - rewrite app_nil_r. cbn [app] in Hover. rewrite concat_app, app_length in Hover.
      cbn [concat] in Hover. rewrite app_nil_r in Hover.
      cbn [of_extend_t]. unfold off_try_from.
      destruct (Z.of_N (lenN l) <=? omax kd)%Z.
      + unfold off_strict_add, lenN. rewrite nat_N_Z.
        assert (((omin kd <=? Z.of_nat (length (concat ls)) + Z.of_nat (length l)) &&
          (Z.of_nat (length (concat ls)) + Z.of_nat (length l) <=? omax kd))%Z = false) as -> by lia.
        intros E; inversion E; subst. split; [auto|]. split; [auto|]. cbn [sumw]. lia.
      + intros E; inversion E; subst. split; [auto|]. split; [auto|]. cbn [sumw]. lia.
    - cbn [app] in Hwt. inversion Hwt as [|? ? Hx Hwt1]; subst. cbn [sumw] in Hs.
      destruct (of_extend_t K kd [(Yield x, n')] n o (Z.of_nat (length (concat ls))))
        as [[o1 r2] out1] eqn:E1.
      pose proof (of_extend_t_spec K d L kd [(Yield x, n')] n o ls [x] FStop (nd_src n') o1 r2 out1
        Ht (Forall_cons _ Hx (Forall_nil _)) eq_refl E1) as [H1 H2].
      cbn [sumw] in H1, H2. rewrite N.add_0_r in H1, H2.
      destruct H2 as [H2 _]; [lia|]. unfold ends_as in H2. subst out1.
      destruct H1 as (_ & _ & Ht1 & _ & Hu1).
      rewrite (of_extend_t_step _ _ _ _ _ _ _ E1 t). intros E.
      replace (Z.of_nat (length (concat ls)) + Z.of_nat (length x))%Z
        with (Z.of_nat (length (concat (ls ++ [x])))) in E.
      2:{ rewrite concat_app, app_length. cbn [concat]. rewrite app_nil_r. lia. }
      specialize (IH n' o1 (ls ++ [x]) xs e r o' r' out Ht1 Hwt1 Hr).
      rewrite <- app_assoc in IH. cbn [app] in IH.
      replace (ls ++ x :: xs) with ((ls ++ [x]) ++ xs) by (rewrite <- app_assoc; reflexivity).
      destruct IH as (G1 & G2 & G3); [lia|exact Hover|exact E|].
      split; [exact G1|]. split; [exact G2|]. cbn [sumw]. lia.
  Qed.
  Lemma of_extend_overflow {R} o ls (it : iter (list (cA K)) R) xs l ys e r o' r' out :
    of_rep K d kd o ls -> Forall (Forall (l_wt d)) (xs ++ l :: ys) ->
    run it = (xs ++ l :: ys, e, r) ->
    (usg K d o ls + sumw (of_wgt K d) xs <= of_lim K d kd)%N ->
    (omax kd < Z.of_nat (length (concat (ls ++ xs ++ [l]))))%Z ->
    of_extend K kd o it = (o', r', out) ->
    out = OPanic /\ tight K d kd o' (ls ++ xs) /\
    (usg K d o' (ls ++ xs) <= usg K d o ls + sumw (of_wgt K d) xs)%N.
  Proof.
    intros Ho Hwt Hr Hs Hover. unfold of_extend. rewrite (of_last K d kd o ls Ho), (as_usize_nat kd).
    destruct (of_truncate_start K d L kd o ls Ho) as (d1 & -> & Ht & Hv & Hu).
    intros E. destruct (of_extend_t_overflow l ys (it_tr it) (it_node it) _ ls xs e r o' r' out
      Ht Hwt Hr) as (G1 & G2 & G3); [|exact Hover|exact E|].
    - unfold usg in *. cbn [of_data]. lia.
    - split; [exact G1|]. split; [exact G2|]. unfold usg in *. cbn [of_data] in G3. lia.
  Qed.
End Overflow.

(** ** Lists over any shape *)

Lemma ends_start_ok {A} (ls : list (list A)) : offsets_start_ok (0%Z :: ends 0 ls) /\
  last (0%Z :: ends 0 ls) 0%Z = Z.of_nat (length (concat ls)).
Proof.
  assert (Hn : forall i z, nth_error (0%Z :: ends 0 ls) i = Some z -> i <= length ls /\
    z = Z.of_nat (length (concat (firstn i ls)))).
  { intros i z Hz. assert (Hi : i < length (0%Z :: ends 0 ls)) by (apply nth_error_Some; congruence).
    cbn [length] in Hi. rewrite ends_length in Hi. split; [lia|].
    pose proof (ends_nth ls 0 i) as E. cbn [Z.of_nat Nat.add] in E. rewrite E in Hz by lia.
    congruence. }
  split; [repeat split|].
  - intros z Hz. cbn in Hz. congruence.
  - intros i z Hz. destruct (Hn i z Hz). lia.
  - intros i a b Ha Hb. destruct (Hn i a Ha) as [_ ->]. destruct (Hn (S i) b Hb) as [Hi ->].
    destruct (nth_error ls i) as [l|] eqn:El.
    + rewrite (firstn_S_nth ls i l El), concat_app, app_length. lia.
    + apply nth_error_None in El. lia.
  - set (zs := 0%Z :: ends 0 ls).
    assert (Hlen : length zs = S (length ls)) by (unfold zs; cbn [length]; rewrite ends_length; auto).
    destruct (exists_last (l := zs)) as (p & a & Ep); [discriminate|]. rewrite Ep, last_last.
    assert (Hp : length p = length ls) by (rewrite Ep, app_length in Hlen; cbn in Hlen; lia).
    destruct (Hn (length ls) a) as [_ Ha].
    { fold zs. rewrite Ep, <- Hp, nth_error_app2, Nat.sub_diag by lia. reflexivity. }
    rewrite firstn_all in Ha. exact Ha.
Qed.
Lemma last_nth_ok zs i z : offsets_start_ok zs -> nth_error zs i = Some z -> (z <= last zs 0)%Z.
Proof.
  intros (_ & _ & H3) Hz. assert (Hi : i < length zs) by (apply nth_error_Some; congruence).
  destruct (exists_last (l := zs)) as (p & a & Ep); [destruct zs; [cbn in Hi; lia|discriminate]|].
  rewrite Ep, last_last. rewrite Ep, app_length in Hi. cbn [length] in Hi.
  remember (length p - i) as m eqn:Em.
  revert i z Hz Hi Em. induction m as [|m IH]; intros i z Hz Hi Em.
  - assert (i = length p) as -> by lia. rewrite Ep, nth_error_app2, Nat.sub_diag in Hz by lia.
    cbn in Hz. inversion Hz. lia.
  - destruct (nth_error zs (S i)) as [b|] eqn:Eb.
    + pose proof (H3 _ _ _ Hz Eb). pose proof (IH (S i) b Eb). lia.
    + apply nth_error_None in Eb. rewrite Ep, app_length in Eb. cbn in Eb. lia.
Qed.

Lemma rep_slices K d kd o ls : of_rep K d kd o ls ->
  S (length ls) = length (v_items (of_offs o)) /\
  forall i a b, nth_error (v_items (of_offs o)) i = Some a ->
    nth_error (v_items (of_offs o)) (S i) = Some b ->
    nth_error ls i = Some (firstn (Z.to_nat b - Z.to_nat a)
      (skipn (Z.to_nat a) (l_abs d (of_data o)))).
Proof.
  intros Hr. pose proof Hr as (_ & _ & Hi & (rest & Ha) & _). split.
  - rewrite Hi. cbn [length]. rewrite ends_length. auto.
  - intros i a b Hna Hnb.
    assert (Hlt : S i < length (v_items (of_offs o))) by (apply nth_error_Some; congruence).
    rewrite Hi in Hlt. cbn [length] in Hlt. rewrite ends_length in Hlt.
    destruct (nth_error ls i) as [l|] eqn:El; [|apply nth_error_None in El; lia].
    rewrite (of_nth K d kd o ls i Hr) in Hna by lia.
    rewrite (of_nth K d kd o ls (S i) Hr) in Hnb by lia.
    assert (a = Z.of_nat (length (concat (firstn i ls)))) as -> by congruence.
    assert (b = Z.of_nat (length (concat (firstn (S i) ls)))) as -> by congruence.
    rewrite !Nat2Z.id. f_equal.
    rewrite (firstn_S_nth ls i l El), concat_app, app_length. cbn [concat]. rewrite app_nil_r.
    replace (length (concat (firstn i ls)) + length l - length (concat (firstn i ls)))
      with (length l) by lia.
    rewrite Ha, (nth_split_row ls i l El), <- !app_assoc.
    rewrite skipn_app_exact, firstn_app_exact by auto. reflexivity.
Qed.

Lemma rep_valid K d (L : Laws K d) kd o ls : of_rep K d kd o ls ->
  exists n, k_len K (of_data o) = Ret n /\ offsets_ok (v_items (of_offs o)) n /\
    forall i z, nth_error (v_items (of_offs o)) i = Some z -> (0 <= z <= omax kd)%Z.
Proof.
  intros (H1 & _ & Hi & (rest & Ha) & Hm).
  exists (length (l_abs d (of_data o))). split; [apply (lw_len _ _ L _ H1)|].
  destruct (ends_start_ok ls) as [G1 G2]. rewrite Hi. split.
  - split; [discriminate|]. split; [exact G1|]. rewrite G2, Ha, app_length. lia.
  - intros i z Hz. pose proof (last_nth_ok _ _ _ G1 Hz). destruct G1 as (G0 & G1 & G3).
    split; [eapply G1; exact Hz|]. lia.
Qed.

Lemma rep_row K d kd o ls : of_rep K d kd o ls -> row_rep K (l_inv d) (l_abs d) o ls.
Proof.
  intros Hr. pose proof (of_rep_rows K d kd o ls Hr). destruct Hr as (H1 & _ & H3 & H4 & _).
  split; [exact H1|]. split; [assumption|]. split; [exact H3|exact H4].
Qed.

Section Lists.
  Context (s : shape) (Hw : widths_pos s) (k : okind).
  Let K := coll s.
  Let V := offsets_coll K k.
  Let d := shape_ld s.
  Let L : Laws K d := shape_laws s Hw.

  Lemma list_rep o ls : built (SList k s) o -> shows V o ls -> of_rep K d k o ls.
  Proof.
    intros Hb Hs. destruct (built_abs (SList k s) Hw o ls Hb Hs) as [-> Hi].
    exact (of_inv_rep K d k o Hi).
  Qed.
  Lemma rep_shows o ls : of_rep K d k o ls -> shows V o ls.
  Proof.
    intros H. apply (abs_shows (SList k s) Hw).
    - exists ls. exact H.
    - exact (of_rep_abs K d k o ls H).
  Qed.
  Lemma tight_shows o ls : tight K d k o ls -> shows V o ls /\ shows K (of_data o) (concat ls).
  Proof.
    intros H. split; [apply rep_shows, tight_rep, H|]. destruct H as (H1 & _ & _ & H4 & _).
    apply (abs_shows s Hw); [exact H1|exact H4].
  Qed.

  Lemma list_parts data xs offs : built s data -> shows K data xs ->
    match of_try_from_parts K data offs with
    | Ret (inl o) => offsets_ok (v_items offs) (length xs) /\ of_into_parts K o = (data, offs)
    | Ret (inr e) => offsets_fault (v_items offs) (length xs) e
    | Pnc => False
    end.
  Proof.
    intros Hb Hs. pose proof (of_parts_spec K data offs (length xs) (sh_len _ _ _ Hs)) as H.
    destruct (of_try_from_parts K data offs) as [[o|e]|]; auto. destruct H as [H ->]. auto.
  Qed.
  Lemma list_parts_iff data xs offs : built s data -> shows K data xs ->
    ((exists o, of_try_from_parts K data offs = Ret (inl o)) <->
     offsets_ok (v_items offs) (length xs)).
  Proof.
    intros Hb Hs. pose proof (list_parts data xs offs Hb Hs) as H.
    destruct (of_try_from_parts K data offs) as [[o|e]|].
    - split; [intros _; apply H|eauto].
    - split; [intros [o E]; discriminate|]. intros Ho. destruct (offsets_ok_no_fault _ _ _ Ho H).
    - destruct H.
  Qed.

  Lemma list_parts_read data xs offs o : built s data -> shows K data xs ->
    vec_fits (osz k) offs -> Forall (fun z => (omin k <= z <= omax k)%Z) (v_items offs) ->
    of_try_from_parts K data offs = Ret (inl o) ->
    exists ls, shows V o ls /\ built (SList k s) o /\ S (length ls) = length (v_items offs) /\
      forall i a b, nth_error (v_items offs) i = Some a -> nth_error (v_items offs) (S i) = Some b ->
        nth_error ls i = Some (firstn (Z.to_nat b - Z.to_nat a) (skipn (Z.to_nat a) xs)).
  Proof.
    intros Hb Hs Hv Hz E.
    assert (Hbo : built (SList k s) o) by (eapply built_list_parts; eauto).
    destruct (built_shows (SList k s) Hw o Hbo) as (ls & _ & Hls).
    pose proof (list_rep o ls Hbo Hls) as Hr.
    pose proof (list_parts data xs offs Hb Hs) as Hp. rewrite E in Hp.
    destruct Hp as [_ Hp]. unfold of_into_parts in Hp. injection Hp as Hd Ho.
    destruct (built_abs s Hw data xs Hb Hs) as [Hx _].
    exists ls. split; [exact Hls|]. split; [exact Hbo|].
    destruct (rep_slices K d k o ls Hr) as [G1 G2]. rewrite Ho in G1, G2. split; [exact G1|].
    intros i a b Hna Hnb. rewrite Hx, <- Hd. exact (G2 i a b Hna Hnb).
  Qed.

  Lemma list_extend R o ls (it : iter (list (cA K)) R) o' r e : built (SList k s) o ->
    shows V o ls -> Forall (item_ok (SList k s)) (items_of it) -> of_extend K k o it = (o', r, e) ->
    match e with
    | ODone => fin_of it = FStop /\ shows V o' (ls ++ items_of it) /\
        shows K (of_data o') (concat (ls ++ items_of it))
    | OErr => False
    | OPanic => panic_safe s false (value_offset s (of_data o)) = true \/ room_in (SList k s) o it ->
        exists j, j <= length (items_of it) /\ shows V o' (ls ++ firstn j (items_of it))
    | OAbort => True
    end /\
    (room_in (SList k s) o it ->
     e = match fin_of it with FStop => ODone | FBoom => OPanic end).
  Proof.
    intros Hb Hs Hi E.
    destruct (extend_core (SList k s) Hw R o ls it o' r e Hb Hs Hi E) as [H1 H2].
    split; [|exact H2]. pose proof (list_rep o ls Hb Hs) as Hr.
    destruct (run_parts it) as [r0 Hrun].
    apply items_ok_wt in Hi.
    pose proof (of_extend_spec K d L k o ls it _ _ _ _ _ _ Hr Hi Hrun E) as [H3 _].
    destruct e; auto.
    - destruct H3 as (F1 & _ & F2 & _). split; [exact F1|]. exact (tight_shows _ _ F2).
    - intros Hp. apply H1. destruct Hp as [Hp|Hp]; [left; exact Hp|right; split; [reflexivity|exact Hp]].
  Qed.
  Lemma list_try_extend R o ls (it : iter (list (cA K)) R) w o' r e w' : built (SList k s) o ->
    shows V o ls -> Forall (item_ok (SList k s)) (items_of it) ->
    of_try_extend K k o it w = (o', r, e, w') ->
    match e with
    | ODone => fin_of it = FStop /\ shows V o' (ls ++ items_of it) /\
        shows K (of_data o') (concat (ls ++ items_of it))
    | OErr => shows V o' ls /\ shows K (of_data o') (concat ls)
    | OPanic => fin_of it = FBoom /\ shows V o' (ls ++ items_of it) /\
        shows K (of_data o') (concat (ls ++ items_of it))
    | OAbort => False
    end.
  Proof.
    intros Hb Hs Hi E. pose proof (list_rep o ls Hb Hs) as Hr.
    destruct (run_parts it) as [r0 Hrun]. apply items_ok_wt in Hi.
    pose proof (of_try_extend_spec K d L k o ls it w _ _ _ _ _ _ _ Hr Hi Hrun E) as H3.
    destruct e; auto.
    - destruct H3 as (F1 & _ & F2 & _). split; [exact F1|]. exact (tight_shows _ _ F2).
    - destruct H3 as (F2 & _). exact (tight_shows _ _ F2).
    - destruct H3 as (F1 & F2 & _). split; [exact F1|]. exact (tight_shows _ _ F2).
  Qed.

  Lemma list_valid o : built (SList k s) o ->
    exists n, k_len K (of_data o) = Ret n /\ offsets_ok (v_items (of_offs o)) n /\
      forall i z, nth_error (v_items (of_offs o)) i = Some z -> (0 <= z <= omax k)%Z.
  Proof.
    intros Hb. pose proof (built_inv _ _ Hb Hw) as (ls & Hr). exact (rep_valid K d L k o ls Hr).
  Qed.

  Lemma list_overflow_full R o ls (it : iter (list (cA K)) R) xs l ys o' r e : built (SList k s) o ->
    shows V o ls -> Forall (item_ok (SList k s)) (items_of it) ->
    items_of it = xs ++ l :: ys -> room_for (SList k s) o xs ->
    (omax k < Z.of_nat (length (concat (ls ++ xs ++ [l]))))%Z ->
    of_extend K k o it = (o', r, e) -> e = OPanic /\ shows V o' (ls ++ xs) /\
      shows K (of_data o') (concat (ls ++ xs)) /\ l_inv (shape_ld (SList k s)) o' /\
      (held (SList k s) o' <= held (SList k s) o + total (cost (SList k s)) xs)%N.
  Proof.
    intros Hb Hs Hi Hx Hroom Hover E. pose proof (list_rep o ls Hb Hs) as Hr.
    destruct (run_parts it) as [r0 Hrun]. apply items_ok_wt in Hi. rewrite Hx in *.
    assert (Hf : (usg K d o ls + sumw (of_wgt K d) xs <= of_lim K d k)%N).
    { unfold room_for in Hroom. rewrite costs_wgt, limit_lim in Hroom.
      rewrite (held_usage (SList k s) Hw o (built_inv _ _ Hb Hw)) in Hroom.
      rewrite <- (of_rep_usage K d k o ls Hr). exact Hroom. }
    destruct (of_extend_overflow K d L k o ls it xs l ys _ _ _ _ _ Hr Hi Hrun Hf Hover E)
      as (G1 & G2 & G3).
    split; [exact G1|]. destruct (tight_shows _ _ G2) as [T1 T2].
    split; [exact T1|]. split; [exact T2|].
    assert (Hi' : l_inv (shape_ld (SList k s)) o') by (exists (ls ++ xs); apply tight_rep; exact G2).
    split; [exact Hi'|].
    rewrite (held_usage (SList k s) Hw o' Hi'), (held_usage (SList k s) Hw o (built_inv _ _ Hb Hw)).
    rewrite costs_wgt.
    pose proof (of_rep_usage K d k o' _ (tight_rep _ _ _ _ _ G2)) as U1.
    pose proof (of_rep_usage K d k o _ Hr) as U2.
    change (of_usage K d o' <= of_usage K d o + sumw (of_wgt K d) xs)%N.
    rewrite U1, U2. exact G3.
  Qed.
  Lemma list_overflow R o ls (it : iter (list (cA K)) R) xs l ys o' r e : built (SList k s) o ->
    shows V o ls -> Forall (item_ok (SList k s)) (items_of it) ->
    items_of it = xs ++ l :: ys -> room_for (SList k s) o xs ->
    (omax k < Z.of_nat (length (concat (ls ++ xs ++ [l]))))%Z ->
    of_extend K k o it = (o', r, e) -> e = OPanic /\ shows V o' (ls ++ xs) /\
      shows K (of_data o') (concat (ls ++ xs)).
  Proof.
    intros Hb Hs Hi Hx Hroom Hover E.
    destruct (list_overflow_full R o ls it xs l ys o' r e Hb Hs Hi Hx Hroom Hover E) as (H1 & H2 & H3 & _).
    auto.
  Qed.
  Lemma list_overflow_any R o ls (it : iter (list (cA K)) R) o' r e : built (SList k s) o ->
    shows V o ls -> Forall (item_ok (SList k s)) (items_of it) ->
    (omax k < Z.of_nat (length (concat (ls ++ items_of it))))%Z ->
    of_extend K k o it = (o', r, e) -> e = OPanic \/ e = OAbort.
  Proof.
    intros Hb Hs Hi Hover E. pose proof (list_rep o ls Hb Hs) as Hr.
    destruct (run_parts it) as [r0 Hrun]. apply items_ok_wt in Hi.
    pose proof (of_extend_spec K d L k o ls it _ _ _ _ _ _ Hr Hi Hrun E) as [H3 _].
    destruct e; auto; [|contradiction].
    destruct H3 as (_ & _ & (_ & _ & _ & _ & Hm) & _).
    pose proof (Z.lt_le_trans _ _ _ Hover Hm). lia.
  Qed.
  Lemma list_try_overflow R o ls (it : iter (list (cA K)) R) w o' r e w' : built (SList k s) o ->
    shows V o ls -> Forall (item_ok (SList k s)) (items_of it) ->
    (omax k < Z.of_nat (length (concat (ls ++ items_of it))))%Z ->
    of_try_extend K k o it w = (o', r, e, w') ->
    e = OErr /\ shows V o' ls /\ shows K (of_data o') (concat ls).
  Proof.
    intros Hb Hs Hi Hover E. pose proof (list_rep o ls Hb Hs) as Hr.
    destruct (run_parts it) as [r0 Hrun]. apply items_ok_wt in Hi.
    pose proof (of_try_extend_spec K d L k o ls it w _ _ _ _ _ _ _ Hr Hi Hrun E) as H3.
    destruct e.
    - destruct H3 as (_ & _ & (_ & _ & _ & _ & Hm) & _).
      pose proof (Z.lt_le_trans _ _ _ Hover Hm). lia.
    - destruct H3 as (H3 & _). split; [auto|]. exact (tight_shows _ _ H3).
    - destruct H3 as (_ & (_ & _ & _ & _ & Hm) & _).
      pose proof (Z.lt_le_trans _ _ _ Hover Hm). lia.
    - contradiction.
  Qed.

  Lemma list_collected R (it : iter (list (cA K)) R) res r :
    Forall (item_ok (SList k s)) (items_of it) ->
    k_from_iter V it = (res, r) \/ k_from_iter_in V it = (res, r) ->
    match res with
    | BOk o => fin_of it = FStop /\ shows V o (items_of it) /\ built (SList k s) o /\
        (forall i, (lenN (items_of it) <= i)%N -> (i < usize_max)%N -> of_view K o i = Ret None)
    | BErr => False
    | _ => True
    end /\
    (room_new (SList k s) it ->
     (upper_or_lower (it_hint it) * unit_cost (SList k s) <= limit (SList k s))%N ->
     match fin_of it with FStop => exists o, res = BOk o | FBoom => res = BPanic end).
  Proof.
    intros Hi E.
    assert (E' : exists in_ : bool, (if in_ then k_from_iter_in V it else k_from_iter V it) = (res, r)).
    { destruct E; [exists false|exists true]; auto. }
    destruct E' as [in_ E'].
    destruct (collect_core (SList k s) Hw in_ R it res r (or_introl eq_refl) Hi E') as [H1 H2].
    split; [|exact H2]. destruct res as [v| | |]; auto. destruct H1 as (A1 & A2 & A3 & _).
    split; [exact A1|]. split; [exact A2|]. split; [exact A3|].
    intros i Hl Hu. pose proof (of_view_out K d k v _ i (list_rep v _ A3 A2) Hl) as G.
    rewrite G by lia. assert ((i <? usize_max)%N = true) as -> by lia. reflexivity.
  Qed.
  Lemma list_try_collected R (it : iter (list (cA K)) R) w res r w' :
    Forall (item_ok (SList k s)) (items_of it) -> of_try_from_iter K k it w = (res, r, w') ->
    match res with
    | BOk o => fin_of it = FStop /\ shows V o (items_of it)
    | BErr => True
    | BPanic => fin_of it = FBoom
    | BAbort => False
    end.
  Proof.
    intros Hi E.
    pose proof (try_collect_core (SList k s) Hw R it w res r w' (or_introl eq_refl) Hi E) as H.
    destruct res; auto. destruct H as (A1 & A2 & _). split; [exact A1|exact A2].
  Qed.

  (** Views *)
  Lemma list_view_reads o ls i l v : built (SList k s) o -> shows V o ls ->
    nth_error ls i = Some l -> of_view K o (N.of_nat i) = Ret (Some v) ->
    (exists a b, nth_error (v_items (of_offs o)) i = Some a /\
       nth_error (v_items (of_offs o)) (S i) = Some b /\ Z.of_nat (length l) = (b - a)%Z) /\
    ov_len K v = Ret (lenN l) /\ ov_own K v = Ret l /\
    (forall j x, nth_error l j = Some x ->
       exists u, ov_view K v (N.of_nat j) = Ret (Some u) /\ k_own K u = Ret x) /\
    (forall j, (lenN l <= j)%N ->
       ov_view K v j = if (ov_start v + j <=? usize_max)%N then Ret None else Pnc) /\
    (exists it, ov_iter K v = Ret it /\ yields (ov_inext K) ix_hint (k_own K) it l) /\
    (exists it, ov_into K v = Ret it /\ yields (ov_onext K) ix_hint Ret it l).
  Proof.
    intros Hb Hs. apply (row_view_reads K (l_inv d) (l_abs d) k (lw_abs_len _ _ L) (lw_view _ _ L)).
    exact (rep_row _ _ _ _ _ (list_rep o ls Hb Hs)).
  Qed.
  Lemma list_view_eq o ls i l v K2 (veq : cV K -> cV K2 -> out bool) (eqb : cA K -> cA K2 -> bool) c m :
    built (SList k s) o -> shows V o ls ->
    nth_error ls i = Some l -> of_view K o (N.of_nat i) = Ret (Some v) ->
    (forall x y a b, k_own K x = Ret a -> k_own K2 y = Ret b -> veq x y = Ret (eqb a b)) ->
    shows K2 c m ->
    exists r, ov_eq K K2 veq v c = Ret r /\
      (r = true <-> length l = length m /\
       forall i a b, nth_error l i = Some a -> nth_error m i = Some b -> eqb a b = true).
  Proof.
    intros Hb Hs Hl E He Hc.
    exact (row_view_eq K (l_inv d) (l_abs d) k (lw_abs_len _ _ L) (lw_view _ _ L) o ls i l v K2 veq eqb
      c m (rep_row _ _ _ _ _ (list_rep o ls Hb Hs)) Hl E He (sh_len _ _ _ Hc) (sh_iter _ _ _ Hc)).
  Qed.
End Lists.
