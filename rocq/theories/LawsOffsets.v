(** * Offsets preserves the laws. *)
From Coq Require Import List NArith ZArith Bool Arith Lia ZifyBool ZifyNat ZifyN.
From Verif Require Import Base Iter Spec VecModel BitmapModel CollModel ValidityModel
  FlattenModel OffsetsModel IterLemmas VecLemmas BitmapLemmas BitmapLemmas2 Laws LawsBase
  LawsFlatten.
Import ListNotations.

Ltac Zify.zify_post_hook ::= Z.div_mod_to_equations.
Local Arguments Nat.div : simpl never.
Local Arguments Nat.modulo : simpl never.
Local Arguments Nat.mul : simpl never.
Local Arguments N.add : simpl never.
Local Arguments N.mul : simpl never.
Local Arguments max_items : simpl never.

(** ** Offsets of a list of lists *)

Fixpoint ends {A} (p : nat) (ls : list (list A)) : list Z :=
  match ls with
  | [] => []
  | l :: ls' => Z.of_nat (p + length l) :: ends (p + length l) ls'
  end.
Fixpoint rows {A} (xs : list A) (p : Z) (zs : list Z) : list (list A) :=
  match zs with
  | [] => []
  | z :: zs' => firstn (Z.to_nat (z - p)) (skipn (Z.to_nat p) xs) :: rows xs z zs'
  end.

Lemma ends_length {A} p (ls : list (list A)) : length (ends p ls) = length ls.
Proof. revert p; induction ls as [|l ls IH]; intros p; cbn [ends length]; auto. Qed.
Lemma ends_app {A} p (ls ls' : list (list A)) :
  ends p (ls ++ ls') = ends p ls ++ ends (p + length (concat ls)) ls'.
Proof.
  revert p; induction ls as [|l ls IH]; intros p; cbn [ends app concat].
  - cbn [length]. rewrite Nat.add_0_r; auto.
  - rewrite IH, app_length. do 2 f_equal. f_equal. lia.
Qed.
Lemma ends_nth {A} (ls : list (list A)) : forall p i, i <= length ls ->
  nth_error (Z.of_nat p :: ends p ls) i = Some (Z.of_nat (p + length (concat (firstn i ls)))).
Proof.
  induction ls as [|l ls IH]; intros p i Hi; cbn [length] in Hi.
  - assert (i = 0) as -> by lia. cbn. f_equal. lia.
  - destruct i as [|i]; [cbn; f_equal; lia|]. cbn [nth_error ends].
    rewrite (IH (p + length l) i) by lia. cbn [firstn concat]. rewrite app_length. f_equal. lia.
Qed.
Lemma ends_firstn {A} n p (ls : list (list A)) : firstn n (ends p ls) = ends p (firstn n ls).
Proof.
  revert n p; induction ls as [|l ls IH]; intros [|n] p; cbn [ends firstn]; auto.
  rewrite IH; auto.
Qed.
Lemma rows_ends {A} (ls : list (list A)) : forall pre rest,
  rows (pre ++ concat ls ++ rest) (Z.of_nat (length pre)) (ends (length pre) ls) = ls.
Proof.
  induction ls as [|l ls IH]; intros pre rest; cbn [ends rows concat]; auto.
  rewrite Nat2Z.id. rewrite skipn_app_exact by auto. rewrite <- app_assoc.
  replace (Z.to_nat (Z.of_nat (length pre + length l) - Z.of_nat (length pre)))
    with (length l) by lia.
  rewrite firstn_app_exact by auto. f_equal.
  specialize (IH (pre ++ l) rest). rewrite app_length, <- app_assoc in IH. exact IH.
Qed.
Lemma concat_firstn_skipn {A} n (ls : list (list A)) :
  concat ls = concat (firstn n ls) ++ concat (skipn n ls).
Proof. rewrite <- concat_app, firstn_skipn. reflexivity. Qed.
Lemma firstn_S_nth {A} (ls : list A) i l : nth_error ls i = Some l ->
  firstn (S i) ls = firstn i ls ++ [l].
Proof.
  revert i; induction ls as [|x ls IH]; intros [|i]; cbn [nth_error]; try discriminate.
  - intros E; inversion E; subst. reflexivity.
  - intros E. rewrite firstn_cons, (IH i E). reflexivity.
Qed.
Lemma nth_split_row {A} (ls : list (list A)) i l : nth_error ls i = Some l ->
  concat ls = concat (firstn i ls) ++ l ++ concat (skipn (S i) ls).
Proof.
  revert i; induction ls as [|x ls IH]; intros [|i]; cbn [nth_error]; try discriminate.
  - intros E; inversion E; subst. reflexivity.
  - intros E. cbn [firstn skipn concat]. rewrite (IH i E) at 1. rewrite <- app_assoc. reflexivity.
Qed.

Lemma max_items_osz kd : (144115188075855872 <= max_items (osz kd))%N.
Proof. destruct kd; vm_compute; discriminate. Qed.
Lemma omax_val kd : (2147483647 <= omax kd)%Z /\ (omin kd <= 0)%Z /\
  (Z.to_N (omax kd) <= usize_max)%N.
Proof. destruct kd; vm_compute; repeat split; discriminate. Qed.
Global Opaque omax omin.
(** One more offset never exceeds isize::MAX bytes. *)
Lemma off_push_calm kd (v v' : vec Z) x u : vec_ok (osz kd) v ->
  vec_extend (osz kd) v (it_list [x]) = (v', u, OPanic) -> False.
Proof.
  intros Hv E.
  assert (H : FStop = FBoom); [|discriminate].
  eapply (vec_extend_calm _ _ _ _ _ _ _ _ _ Hv (run_list [x]) E); auto.
  apply affords_list1. destruct Hv as [H1 H2].
  assert (max_items (osz kd) + 1 <= cap_limit (osz kd))%N by (destruct kd; vm_compute; discriminate).
  unfold lenN in *. cbn [length]. lia.
Qed.

Section Offsets.
  Context (K : Coll) (d : LD K) (L : Laws K d) (kd : okind).
  Let esz : N := osz kd.

  Definition of_abs (o : offsets (cC K)) : list (list (cA K)) :=
    match v_items (of_offs o) with
    | [] => []
    | p :: zs => rows (l_abs d (of_data o)) p zs
    end.
  Definition of_rep (o : offsets (cC K)) (ls : list (list (cA K))) : Prop :=
    l_inv d (of_data o) /\ vec_ok esz (of_offs o) /\
    v_items (of_offs o) = 0%Z :: ends 0 ls /\
    (exists rest, l_abs d (of_data o) = concat ls ++ rest) /\
    (Z.of_nat (length (concat ls)) <= omax kd)%Z.
  Definition of_inv (o : offsets (cC K)) : Prop := exists ls, of_rep o ls.
  Definition of_usage (o : offsets (cC K)) : N :=
    (l_usage d (of_data o) + lenN (of_abs o))%N.
  Definition of_wgt (l : list (cA K)) : N := (1 + l_cfac d + sumw (l_wgt d) l)%N.
  Definition of_lim : N := N.min (l_lim d) (N.min (Z.to_N (omax kd)) (max_items esz - 1)).
  Definition of_orep (s : offinto (cC K)) (ls : list (list (cA K))) : Prop :=
    l_inv d (oi_data s) /\ exists pre rest,
      l_abs d (oi_data s) = pre ++ concat ls ++ rest /\
      oi_pos s = Z.of_nat (length pre) /\ oi_offs s = ends (length pre) ls.

  Definition offsets_ld : LD (offsets_coll K kd) := {|
    l_wt := Forall (l_wt d) : cA (offsets_coll K kd) -> Prop;
    l_inv := of_inv : cC (offsets_coll K kd) -> Prop;
    l_abs := of_abs : cC (offsets_coll K kd) -> list (cA (offsets_coll K kd));
    l_irep := fun (s : cVI (offsets_coll K kd)) xs => ixrep of_rep s xs;
    l_orep := of_orep : cOI (offsets_coll K kd) -> list (cA (offsets_coll K kd)) -> Prop;
    l_voff := fun o : cC (offsets_coll K kd) => l_voff d (of_data o);
    l_usage := of_usage : cC (offsets_coll K kd) -> N;
    l_wgt := of_wgt : cA (offsets_coll K kd) -> N;
    l_cfac := (1 + l_cfac d)%N;
    l_lim := of_lim;
    l_psafe := fun s o => s || l_psafe d false o;
    l_gran := fun s _ n => s || Nat.eqb n 1;
    l_nofuse := true;
    l_nofuse_try := true;
    l_oob := fun i => (i <? usize_max)%N;
  |}.

  Lemma of_rep_abs o ls : of_rep o ls -> of_abs o = ls.
  Proof.
    intros (_ & _ & Hi & (rest & Ha) & _). unfold of_abs. rewrite Hi, Ha.
    exact (rows_ends ls [] rest).
  Qed.
  Lemma of_inv_rep o : of_inv o -> of_rep o (of_abs o).
  Proof. intros [ls H]. rewrite (of_rep_abs o ls H). exact H. Qed.
  Lemma of_rep_rows o ls : of_rep o ls -> (lenN ls < alloc_max)%N.
  Proof.
    intros (_ & [H1 H2] & Hi & _). rewrite Hi, lenN_cons in H1.
    pose proof (max_items_le esz). unfold lenN in *. rewrite ends_length in H1. lia.
  Qed.
  Lemma of_data_len o : l_inv d (of_data o) ->
    (lenN (l_abs d (of_data o)) <= 9223372036854775808)%N.
  Proof.
    intros H. pose proof (lw_abs_len _ _ L _ H). rewrite alloc_max_val in *. lia.
  Qed.
  Lemma of_wt_rows (ls : list (list (cA K))) rest : Forall (l_wt d) (concat ls ++ rest) ->
    Forall (Forall (l_wt d)) ls.
  Proof.
    intros H. apply Forall_app in H. destruct H as [H _].
    induction ls as [|l ls IH]; constructor; cbn [concat] in H; apply Forall_app in H; tauto.
  Qed.
  Lemma sum_len (l : list (cA K)) : Forall (l_wt d) l ->
    (lenN l * l_cfac d <= sumw (l_wgt d) l)%N /\ (lenN l <= sumw (l_wgt d) l)%N.
  Proof.
    intros H. pose proof (lw_cfac1 _ _ L) as Hf.
    assert (Hl : (l_cfac d * lenN l <= sumw (l_wgt d) l)%N).
    { apply sumw_lower. eapply Forall_impl; [|exact H]. intros x. apply (lw_cfac _ _ L). }
    split; [lia|]. nia.
  Qed.

  Lemma of_len_spec o ls : of_rep o ls -> of_len K o = Ret (length ls).
  Proof.
    intros (_ & _ & Hi & _). unfold of_len. rewrite Hi. cbn [length]. rewrite ends_length. auto.
  Qed.
  Lemma of_nth o ls i : of_rep o ls -> i <= length ls ->
    nth_error (v_items (of_offs o)) i = Some (Z.of_nat (length (concat (firstn i ls)))).
  Proof. intros (_ & _ & Hi & _) H. rewrite Hi. exact (ends_nth ls 0 i H). Qed.
  Lemma as_usize_nat n : as_usize (Z.of_nat n) = Ret (N.of_nat n).
  Proof.
    unfold as_usize. assert ((0 <=? Z.of_nat n)%Z = true) as -> by lia. f_equal. lia.
  Qed.
  Lemma expect_view c i x : l_inv d c -> nth_error (l_abs d c) i = Some x ->
    (let? o := k_view K c (N.of_nat i) in let? v := expect o in k_own K v) = Ret x.
  Proof.
    intros Hc Hx. destruct (lw_view _ _ L c i x Hc Hx) as (v & -> & Hv). exact Hv.
  Qed.
  Lemma range_list {B} (f : N -> out B) : forall (l : list B) start,
    (forall i x, nth_error l i = Some x -> f (start + N.of_nat i)%N = Ret x) ->
    range_out f start (length l) = Ret l.
  Proof.
    induction l as [|x l IH]; intros start H; cbn [length range_out]; auto.
    pose proof (H 0 x eq_refl) as H0. rewrite N.add_0_r in H0. rewrite H0. cbn [obind].
    rewrite IH; [reflexivity|]. intros i y Hy. rewrite <- (H (S i) y Hy). f_equal. lia.
  Qed.

  Lemma of_view_spec o ls i l : of_rep o ls -> nth_error ls i = Some l ->
    exists v, of_view K o (N.of_nat i) = Ret (Some v) /\ ov_own K v = Ret l.
  Proof.
    intros Ho Hl.
    assert (Hi : i < length ls) by (apply nth_error_Some; congruence).
    pose proof (of_rep_rows o ls Ho) as Hr. unfold lenN in Hr. rewrite alloc_max_val in Hr.
    unfold of_view, strict_add. rewrite usize_max_val.
    assert ((N.of_nat i + 1 <=? 18446744073709551615)%N = true) as -> by lia. cbn [obind].
    unfold vec_view. replace (N.of_nat i + 1)%N with (N.of_nat (S i)) by lia.
    rewrite !nth_N_nat, (of_nth o ls i), (of_nth o ls (S i)) by (auto; lia).
    rewrite !as_usize_nat. cbn [obind]. eexists; split; [reflexivity|].
    pose proof (nth_split_row ls i l Hl) as Hsp.
    assert (Hf : concat (firstn (S i) ls) = concat (firstn i ls) ++ l).
    { rewrite (firstn_S_nth ls i l Hl), concat_app. cbn [concat]. rewrite app_nil_r. auto. }
    rewrite Hf, app_length. set (s := length (concat (firstn i ls))) in *.
    pose proof Ho as (Hd & _ & _ & (rest & Ha) & _).
    pose proof (of_data_len o Hd) as Hsz. unfold lenN in Hsz.
    unfold ov_own, ov_len, strict_sub. cbn [ov_start ov_end].
    assert ((N.of_nat s <=? N.of_nat (s + length l))%N = true) as -> by lia. cbn [obind].
    replace (N.to_nat (N.of_nat (s + length l) - N.of_nat s)) with (length l) by lia.
    assert (Hlen : s + length l <= length (l_abs d (of_data o))).
    { rewrite Ha, Hsp, !app_length. unfold s. lia. }
    apply range_list. intros j x Hx.
    assert (Hj : j < length l) by (apply nth_error_Some; congruence).
    unfold ov_item, ov_view, strict_add. cbn [ov_start ov_end ov_coll]. rewrite usize_max_val.
    replace (N.of_nat s + (0 + N.of_nat j))%N with (N.of_nat (s + j)) by lia.
    assert ((N.of_nat (s + j) <=? 18446744073709551615)%N = true) as -> by lia. cbn [obind].
    assert ((N.of_nat (s + j) <? N.of_nat (s + length l))%N = true) as -> by lia.
    apply expect_view; auto. rewrite Ha, Hsp, <- !app_assoc.
    rewrite nth_error_app2 by (unfold s; lia).
    replace (s + j - length (concat (firstn i ls))) with j by (unfold s; lia).
    rewrite nth_error_app1; auto.
  Qed.
  Lemma of_view_out o ls i : of_rep o ls -> (lenN ls <= i)%N -> (i <= usize_max)%N ->
    of_view K o i = if (i <? usize_max)%N then Ret None else Pnc.
  Proof.
    intros Ho Hi Hm. unfold of_view, strict_add.
    destruct (i <? usize_max)%N eqn:E.
    - assert ((i + 1 <=? usize_max)%N = true) as -> by lia. cbn [obind].
      unfold vec_view. rewrite (nth_N_ge _ (i + 1)).
      + destruct (nth_N _ i); reflexivity.
      + destruct Ho as (_ & _ & -> & _). rewrite lenN_cons. unfold lenN in *.
        rewrite ends_length. lia.
    - assert ((i + 1 <=? usize_max)%N = false) as -> by lia. reflexivity.
  Qed.

  (** ** Growing *)

  Definition tight (o : offsets (cC K)) (ls : list (list (cA K))) : Prop :=
    l_inv d (of_data o) /\ vec_ok esz (of_offs o) /\
    v_items (of_offs o) = 0%Z :: ends 0 ls /\ l_abs d (of_data o) = concat ls /\
    (Z.of_nat (length (concat ls)) <= omax kd)%Z.
  Definition usg (o : offsets (cC K)) (ls : list (list (cA K))) : N :=
    (l_usage d (of_data o) + lenN ls)%N.
  Lemma tight_rep o ls : tight o ls -> of_rep o ls.
  Proof.
    intros (H1 & H2 & H3 & H4 & H5). unfold of_rep. repeat split; auto; try apply H2.
    exists []. rewrite app_nil_r; auto.
  Qed.
  Lemma of_rep_usage o ls : of_rep o ls -> of_usage o = usg o ls.
  Proof. intros H. unfold of_usage, usg. rewrite (of_rep_abs o ls H). auto. Qed.
  Lemma concat_snoc (ls : list (list (cA K))) l : concat (ls ++ [l]) = concat ls ++ l.
  Proof. rewrite concat_app. cbn [concat]. rewrite app_nil_r; auto. Qed.
  Lemma ends_snoc (ls : list (list (cA K))) l :
    ends 0 (ls ++ [l]) = ends 0 ls ++ [Z.of_nat (length (concat (ls ++ [l])))].
  Proof. rewrite ends_app, concat_snoc, app_length. reflexivity. Qed.

  Lemma tight_push d2 v2 ls l o : tight o ls -> l_inv d d2 -> vec_ok esz v2 ->
    l_abs d d2 = l_abs d (of_data o) ++ l ->
    v_items v2 = v_items (of_offs o) ++ [Z.of_nat (length (concat (ls ++ [l])))] ->
    (Z.of_nat (length (concat (ls ++ [l]))) <= omax kd)%Z ->
    tight (Offsets d2 v2) (ls ++ [l]).
  Proof.
    intros (H1 & H2 & H3 & H4 & H5) G1 G2 G3 G4 G5. unfold tight. cbn [of_data of_offs].
    split; [auto|]. split; [auto|]. split; [|split; [|auto]].
    - rewrite G4, H3, ends_snoc. reflexivity.
    - rewrite G3, H4, concat_snoc. reflexivity.
  Qed.

  Lemma of_truncate_start o ls : of_rep o ls ->
    exists d1, k_truncate K (of_data o) (N.of_nat (length (concat ls))) = (d1, ODone) /\
      tight (Offsets d1 (of_offs o)) ls /\ l_voff d d1 = l_voff d (of_data o) /\
      (l_usage d d1 <= l_usage d (of_data o))%N.
  Proof.
    intros (H1 & H2 & H3 & (rest & H4) & H5).
    destruct (lw_truncate _ _ L (of_data o) (N.of_nat (length (concat ls))) H1)
      as (d1 & E & G1 & G2 & G3 & G4).
    exists d1. split; [auto|]. split; [|auto].
    unfold tight. cbn [of_data of_offs]. split; [auto|]. split; [auto|]. split; [auto|].
    split; [|auto]. rewrite G3, H4, Nat2N.id. apply firstn_app_exact; auto.
  Qed.
  Lemma of_last o ls : of_rep o ls ->
    nth_error (v_items (of_offs o)) (length (v_items (of_offs o)) - 1) =
    Some (Z.of_nat (length (concat ls))).
  Proof.
    intros Ho. pose proof Ho as (_ & _ & Hi & _). rewrite Hi at 2. cbn [length].
    rewrite ends_length. replace (S (length ls) - 1) with (length ls) by lia.
    rewrite (of_nth o ls) by auto. rewrite firstn_all. auto.
  Qed.

  Lemma of_extend_t_spec {R} : forall (t : trace (list (cA K)) R) n o ls xs e r o' r' out,
    tight o ls -> Forall (Forall (l_wt d)) xs -> run_t t n = (xs, e, r) ->
    of_extend_t K kd t n o (Z.of_nat (length (concat ls))) = (o', r', out) ->
    match out with
    | ODone => e = FStop /\ r' = r /\ tight o' (ls ++ xs) /\
        l_voff d (of_data o') = l_voff d (of_data o) /\
        (usg o' (ls ++ xs) <= usg o ls + sumw of_wgt xs)%N
    | OErr => False
    | OPanic => l_psafe d false (l_voff d (of_data o)) = true ->
        exists k, k <= length xs /\ of_rep o' (ls ++ firstn k xs) /\
          l_voff d (of_data o') = l_voff d (of_data o) /\
          (usg o' (ls ++ firstn k xs) <= usg o ls + sumw of_wgt xs)%N
    | OAbort => True
    end /\
    ((usg o ls + sumw of_wgt xs <= of_lim)%N ->
     ends_as out e /\
     (out = OPanic -> of_rep o' (ls ++ xs) /\
        l_voff d (of_data o') = l_voff d (of_data o) /\
        (usg o' (ls ++ xs) <= usg o ls + sumw of_wgt xs)%N)).
  Proof.
    induction t as [|[[l| |] n'] t IH]; intros n o ls xs e r o' r' out Ht Hwt;
      cbn [run_t of_extend_t].
    - intros E1 E2; inversion E1; inversion E2; subst. rewrite app_nil_r. cbn [sumw].
      split; [repeat split; auto; try apply Ht; lia|]. intros _. split; [reflexivity|congruence].
    - destruct (run_t t n') as [[xs1 e1] r1] eqn:Hr. intros E1; inversion E1; subst; clear E1.
      inversion Hwt as [|? ? Hl Hwt1]; subst.
      destruct (sum_len l Hl) as [Hs1 Hs2].
      pose proof Ht as (T1 & T2 & T3 & T4 & T5).
      pose proof (lw_usage _ _ L _ T1) as Hu. unfold lenN in Hu at 1. rewrite T4 in Hu.
      destruct (omax_val kd) as (Hom & Hon & Hou).
      assert (Hstay : forall d1, l_inv d d1 -> l_voff d d1 = l_voff d (of_data o) ->
        (l_usage d d1 <= l_usage d (of_data o) + sumw (l_wgt d) l)%N ->
        (exists rest, l_abs d d1 = concat ls ++ rest) ->
        exists k, k <= length (l :: xs1) /\ of_rep (Offsets d1 (of_offs o)) (ls ++ firstn k (l :: xs1)) /\
          l_voff d (of_data (Offsets d1 (of_offs o))) = l_voff d (of_data o) /\
          (usg (Offsets d1 (of_offs o)) (ls ++ firstn k (l :: xs1)) <=
             usg o ls + sumw of_wgt (l :: xs1))%N).
      { intros d1 D1 D2 D3 D4. exists 0. split; [lia|]. cbn [firstn]. rewrite app_nil_r.
        split; [|split; [auto|]].
        - unfold of_rep. cbn [of_data of_offs]. auto 10.
        - unfold usg. cbn [of_data sumw]. unfold of_wgt at 1. lia. }
      assert (Hoe : Offsets (of_data o) (of_offs o) = o) by (destruct o; auto).
      assert (Hstay0 : exists k, k <= length (l :: xs1) /\ of_rep o (ls ++ firstn k (l :: xs1)) /\
          l_voff d (of_data o) = l_voff d (of_data o) /\
          (usg o (ls ++ firstn k (l :: xs1)) <= usg o ls + sumw of_wgt (l :: xs1))%N).
      { pose proof (Hstay (of_data o)) as H. rewrite Hoe in H. apply H; auto; [lia|].
        exists []. rewrite app_nil_r; auto. }
      assert (Hlive : (usg o ls + sumw of_wgt (l :: xs1) <= of_lim)%N ->
        (N.of_nat (length (concat ls)) + lenN l <= Z.to_N (omax kd))%N /\
        (l_usage d (of_data o) + lenN l * l_cfac d <= l_lim d)%N /\
        (l_usage d (of_data o) + sumw (l_wgt d) l <= l_lim d)%N /\
        (lenN ls + 2 <= max_items esz)%N).
      { cbn [sumw]. unfold of_wgt at 1, usg, of_lim. lia. }
      unfold off_try_from.
      destruct (Z.of_N (lenN l) <=? omax kd)%Z eqn:E0.
      2:{ intros E; inversion E; subst. split; [intros _; exact Hstay0|].
          intros Hs. apply Hlive in Hs. lia. }
      unfold off_strict_add. unfold lenN in E0 |- * at 1 2 3.
      assert (Hpos : (Z.of_nat (length (concat ls)) + Z.of_N (N.of_nat (length l)) =
        Z.of_nat (length (concat (ls ++ [l]))))%Z).
      { rewrite concat_snoc, app_length. lia. }
      rewrite Hpos.
      destruct ((omin kd <=? Z.of_nat (length (concat (ls ++ [l])))) &&
                (Z.of_nat (length (concat (ls ++ [l]))) <=? omax kd))%Z eqn:E3.
      2:{ intros E; inversion E; subst. split; [intros _; exact Hstay0|].
          intros Hs. apply Hlive in Hs. unfold lenN in Hs. lia. }
      fold (lenN l).
      destruct (k_reserve K (of_data o) (lenN l)) as [d1 o1] eqn:Er.
      destruct (lw_reserve _ _ L _ _ _ _ T1 Er) as ((R1 & R2 & R3 & R4) & R5 & R6).
      destruct o1; try congruence.
      + destruct (k_extend K d1 (it_list l)) as [[d2 u] o2] eqn:Ex.
        destruct (lw_extend _ _ L _ d1 _ _ _ _ _ _ _ R1 Hl (run_list l) Ex) as [X1 X2].
        assert (X3 : (usg o ls + sumw of_wgt (l :: xs1) <= of_lim)%N -> o2 = ODone).
        { intros Hs. apply Hlive in Hs. apply X2, fits_list; auto. unfold fits. lia. }
        destruct o2; try contradiction.
        * destruct X1 as (_ & _ & (Y1 & Y2 & Y3 & Y4)).
          destruct (vec_extend (osz kd) (of_offs o)
            (it_list [Z.of_nat (length (concat (ls ++ [l])))])) as [[v3 u3] o3] eqn:Ev.
          pose proof (vec_extend_spec _ _ _ _ _ _ _ _ _ T2 (run_list _) Ev) as (V1 & V2 & _ & V4).
          destruct o3; try contradiction.
          -- destruct V4 as (_ & _ & V4).
             assert (Ht' : tight (Offsets d2 v3) (ls ++ [l])).
             { apply tight_push with (o := o); auto; [|lia]. congruence. }
             intros E. specialize (IH n' (Offsets d2 v3) (ls ++ [l]) xs1 e r o' r' out Ht' Hwt1 Hr E).
             cbn [of_data] in IH. rewrite Y2, R2 in IH.
             assert (Hus : (usg (Offsets d2 v3) (ls ++ [l]) + sumw of_wgt xs1 <=
               usg o ls + sumw of_wgt (l :: xs1))%N).
             { unfold usg. cbn [of_data sumw]. rewrite lenN_app, lenN_cons.
               unfold of_wgt at 2. unfold lenN at 2; cbn [length]. lia. }
             rewrite <- app_assoc in IH. cbn [app] in IH. destruct IH as [I1 I2]. split.
             ++ destruct out; auto.
                ** destruct I1 as (? & ? & ? & ? & ?). repeat split; auto; try apply H1. lia.
                ** intros Hp. destruct (I1 Hp) as (k & K1 & K2 & K3 & K4).
                   exists (S k). cbn [length firstn]. split; [lia|].
                   rewrite <- app_assoc in K2, K4. cbn [app] in K2, K4.
                   split; [auto|]. split; [auto|]. lia.
             ++ intros Hs. destruct I2 as [J1 J2]; [lia|]. split; auto.
                intros Ho. destruct (J2 Ho) as (? & ? & ?). split; [auto|]. split; [auto|]. lia.
          -- exfalso. apply (off_push_calm kd _ _ _ _ T2 Ev).
          -- intros E; inversion E; subst. split; auto. intros Hs. exfalso.
             apply Hlive in Hs.
             destruct (vec_extend_live _ _ _ _ _ _ T2 (run_list [Z.of_nat (length (concat (ls ++ [l])))]))
               as [cap Ev']; [|fold esz in Ev; rewrite Ev' in Ev; discriminate].
             apply affords_list1.
             rewrite T3, lenN_cons. unfold lenN at 1 2. rewrite ends_length. cbn [length].
             unfold lenN in Hs. fold esz. lia.
        * intros E; inversion E; subst. split.
          -- intros Hp. rewrite <- R2 in Hp.
             destruct (X1 false) as (Z1 & Z2 & Z3 & k & Z4 & Z5 & _); [congruence|auto|].
             apply Hstay; auto; [congruence|lia|]. rewrite Z5, R3, T4. eauto.
          -- intros Hs. specialize (X3 Hs). discriminate.
        * intros E; inversion E; subst. split; auto. intros Hs. specialize (X3 Hs). discriminate.
      + intros E; inversion E; subst. split.
        * intros _. apply Hstay; auto; [lia|]. exists []. rewrite app_nil_r, R3; auto.
        * intros Hs. apply Hlive in Hs. assert (OPanic = ODone) by (apply R6; tauto). discriminate.
      + intros E; inversion E; subst. split; auto.
        intros Hs. apply Hlive in Hs. assert (OAbort = ODone) by (apply R6; tauto). discriminate.
    - intros E1 E2; inversion E1; inversion E2; subst. rewrite app_nil_r. cbn [sumw].
      split; [repeat split; auto; try apply Ht; lia|]. intros _. split; [reflexivity|congruence].
    - intros E1 E2; inversion E1; inversion E2; subst. cbn [sumw length].
      pose proof (tight_rep _ _ Ht) as Hrep. split.
      + intros _. exists 0. cbn [firstn]. rewrite app_nil_r. split; [lia|].
        split; [auto|]. split; [auto|]. lia.
      + intros _. split; [reflexivity|]. intros _. rewrite app_nil_r. split; [auto|]. split; [auto|]. lia.
  Qed.

  Lemma of_extend_spec {R} o ls (it : iter (list (cA K)) R) xs e r o' r' out :
    of_rep o ls -> Forall (Forall (l_wt d)) xs -> run it = (xs, e, r) ->
    of_extend K kd o it = (o', r', out) ->
    match out with
    | ODone => e = FStop /\ r' = r /\ tight o' (ls ++ xs) /\
        l_voff d (of_data o') = l_voff d (of_data o) /\
        (usg o' (ls ++ xs) <= usg o ls + sumw of_wgt xs)%N
    | OErr => False
    | OPanic => l_psafe d false (l_voff d (of_data o)) = true ->
        exists k, k <= length xs /\ of_rep o' (ls ++ firstn k xs) /\
          l_voff d (of_data o') = l_voff d (of_data o) /\
          (usg o' (ls ++ firstn k xs) <= usg o ls + sumw of_wgt xs)%N
    | OAbort => True
    end /\
    ((usg o ls + sumw of_wgt xs <= of_lim)%N ->
     ends_as out e /\
     (out = OPanic -> of_rep o' (ls ++ xs) /\
        l_voff d (of_data o') = l_voff d (of_data o) /\
        (usg o' (ls ++ xs) <= usg o ls + sumw of_wgt xs)%N)).
  Proof.
    intros Ho Hwt Hr. unfold of_extend. rewrite (of_last o ls Ho), as_usize_nat.
    destruct (of_truncate_start o ls Ho) as (d1 & -> & Ht & Hv & Hu).
    intros E. pose proof (of_extend_t_spec _ _ _ _ _ _ _ _ _ _ Ht Hwt Hr E) as H.
    cbn [of_data] in H. rewrite Hv in H.
    assert (Hus : (usg (Offsets d1 (of_offs o)) ls <= usg o ls)%N) by (unfold usg; cbn [of_data]; lia).
    destruct H as [H1 H2]. split.
    - destruct out; auto.
      + destruct H1 as (? & ? & ? & ? & ?). split; [auto|]. split; [auto|]. split; [auto|].
        split; [auto|]. lia.
      + intros Hp. destruct (H1 Hp) as (k & ? & ? & ? & ?). exists k.
        split; [auto|]. split; [auto|]. split; [auto|]. lia.
    - intros Hs. destruct H2 as [G1 G2]; [lia|]. split; auto. intros Hp.
      destruct (G2 Hp) as (? & ? & ?). split; [auto|]. split; [auto|]. lia.
  Qed.

  Lemma of_rollback_spec o ls more1 more2 o' out : l_inv d (of_data o) ->
    vec_ok esz (of_offs o) -> v_items (of_offs o) = (0%Z :: ends 0 ls) ++ more1 ->
    l_abs d (of_data o) = concat ls ++ more2 ->
    (Z.of_nat (length (concat ls)) <= omax kd)%Z ->
    of_rollback K o (length ls) (N.of_nat (length (concat ls))) = (o', out) ->
    out = OErr /\ tight o' ls /\ l_voff d (of_data o') = l_voff d (of_data o) /\
    (l_usage d (of_data o') <= l_usage d (of_data o))%N.
  Proof.
    intros H1 H2 H3 H4 H5. unfold of_rollback.
    destruct (lw_truncate _ _ L (of_data o) (N.of_nat (length (concat ls))) H1)
      as (d1 & -> & G1 & G2 & G3 & G4).
    destruct (vec_truncate_spec esz (of_offs o) (N.of_nat (length ls) + 1) H2) as (V1 & V2 & V3).
    intros E; inversion E; subst; clear E. split; [auto|]. split; [|auto].
    unfold tight. cbn [of_data of_offs]. split; [auto|]. split; [auto|]. split; [|split; [|auto]].
    - rewrite V3, H3. apply firstn_app_exact. cbn [length]. rewrite ends_length. lia.
    - rewrite G3, H4, Nat2N.id. apply firstn_app_exact; auto.
  Qed.

  Lemma of_try_extend_t_spec {R} ls0 : forall (t : trace (list (cA K)) R) n o ls w xs e r o' r' out w',
    tight o (ls0 ++ ls) -> Forall (Forall (l_wt d)) xs -> run_t t n = (xs, e, r) ->
    (Z.of_nat (length (concat ls0)) <= omax kd)%Z ->
    of_try_extend_t K kd (length ls0) (N.of_nat (length (concat ls0))) t n o
      (Z.of_nat (length (concat (ls0 ++ ls)))) w = (o', r', out, w') ->
    match out with
    | ODone => e = FStop /\ r' = r /\ tight o' (ls0 ++ ls ++ xs) /\
        l_voff d (of_data o') = l_voff d (of_data o) /\
        (usg o' (ls0 ++ ls ++ xs) <= usg o (ls0 ++ ls) + sumw of_wgt xs)%N
    | OErr => tight o' ls0 /\ l_voff d (of_data o') = l_voff d (of_data o) /\
        (usg o' ls0 <= usg o (ls0 ++ ls) + sumw of_wgt xs)%N
    | OPanic => e = FBoom /\ tight o' (ls0 ++ ls ++ xs) /\
        l_voff d (of_data o') = l_voff d (of_data o) /\
        (usg o' (ls0 ++ ls ++ xs) <= usg o (ls0 ++ ls) + sumw of_wgt xs)%N
    | OAbort => False
    end.
  Proof.
    induction t as [|[[l| |] n'] t IH]; intros n o ls w xs e r o' r' out w' Ht Hwt;
      cbn [run_t of_try_extend_t].
    - intros E1 _ E2; inversion E1; inversion E2; subst. rewrite app_nil_r. cbn [sumw].
      repeat split; auto; try apply Ht; lia.
    - destruct (run_t t n') as [[xs1 e1] r1] eqn:Hr. intros E1 H0; inversion E1; subst; clear E1.
      inversion Hwt as [|? ? Hl Hwt1]; subst.
      destruct (sum_len l Hl) as [Hs1 Hs2].
      pose proof Ht as (T1 & T2 & T3 & T4 & T5).
      rewrite as_usize_nat.
      assert (Hpos : (N.of_nat (length (concat (ls0 ++ ls))) + lenN l =
        N.of_nat (length (concat (ls0 ++ ls ++ [l]))))%N).
      { rewrite app_assoc, concat_snoc, (app_length _ l). unfold lenN. lia. }
      assert (Hback : forall o1 (m1 : list Z) m2, l_inv d (of_data o1) -> vec_ok esz (of_offs o1) ->
        v_items (of_offs o1) = (0%Z :: ends 0 ls0) ++ m1 ->
        l_abs d (of_data o1) = concat ls0 ++ m2 ->
        l_voff d (of_data o1) = l_voff d (of_data o) ->
        (l_usage d (of_data o1) <= l_usage d (of_data o) + sumw (l_wgt d) l)%N ->
        forall oo ee, of_rollback K o1 (length ls0) (N.of_nat (length (concat ls0))) = (oo, ee) ->
        ee = OErr /\ tight oo ls0 /\ l_voff d (of_data oo) = l_voff d (of_data o) /\
        (usg oo ls0 <= usg o (ls0 ++ ls) + sumw of_wgt (l :: xs1))%N).
      { intros o1 m1 m2 Q1 Q2 Q3 Q4 Q5 Q6 oo ee Q7.
        destruct (of_rollback_spec _ _ _ _ _ _ Q1 Q2 Q3 Q4 H0 Q7) as (? & ? & ? & ?).
        split; [auto|]. split; [auto|]. split; [congruence|].
        unfold usg. rewrite lenN_app. cbn [sumw]. unfold of_wgt at 1. lia. }
      assert (Hz : v_items (of_offs o) = (0%Z :: ends 0 ls0) ++ ends (length (concat ls0)) ls).
      { rewrite T3, ends_app. reflexivity. }
      assert (Hd : l_abs d (of_data o) = concat ls0 ++ concat ls) by (rewrite T4; apply concat_app).
      destruct (checked_add (N.of_nat (length (concat (ls0 ++ ls)))) (lenN l)) as [u|] eqn:Ec.
      2:{ destruct (of_rollback K o (length ls0) (N.of_nat (length (concat ls0)))) as [oo ee] eqn:Eb.
          destruct (Hback o _ _ T1 T2 Hz Hd eq_refl) with (2 := Eb) as (-> & ? & ? & ?); [lia|].
          intros E; inversion E; subst. auto. }
      unfold checked_add in Ec.
      destruct (N.of_nat (length (concat (ls0 ++ ls))) + lenN l <=? usize_max)%N; [|discriminate].
      inversion Ec; subst u; clear Ec. rewrite Hpos. unfold off_try_from.
      destruct (Z.of_N (N.of_nat (length (concat (ls0 ++ ls ++ [l])))) <=? omax kd)%Z eqn:E3.
      2:{ destruct (of_rollback K o (length ls0) (N.of_nat (length (concat ls0)))) as [oo ee] eqn:Eb.
          destruct (Hback o _ _ T1 T2 Hz Hd eq_refl) with (2 := Eb) as (-> & ? & ? & ?); [lia|].
          intros E; inversion E; subst. auto. }
      replace (Z.of_N (N.of_nat (length (concat (ls0 ++ ls ++ [l])))))
        with (Z.of_nat (length (concat (ls0 ++ ls ++ [l])))) by lia.
      destruct (k_try_extend K (of_data o) (it_list l) w) as [[[d2 u] o2] w2] eqn:Ex.
      pose proof (lw_try_extend _ _ L _ _ _ _ _ _ _ _ _ _ _ T1 Hl (run_list l) Ex) as X.
      destruct o2; try contradiction.
      + destruct X as (_ & _ & (Y1 & Y2 & Y3 & Y4)).
        destruct (vec_try_extend (osz kd) (of_offs o)
          (it_list [Z.of_nat (length (concat (ls0 ++ ls ++ [l])))]) w2) as [[[v3 u3] o3] w3] eqn:Ev.
        pose proof (vec_try_extend_spec _ _ _ _ _ _ _ _ _ _ _ T2 (run_list _) Ev) as (V1 & V2 & V4).
        destruct o3; try contradiction.
        * destruct V4 as (_ & _ & V4).
          assert (Ht' : tight (Offsets d2 v3) (ls0 ++ ls ++ [l])).
          { rewrite app_assoc in *. apply tight_push with (o := o); auto. lia. }
          intros E. specialize (IH n' (Offsets d2 v3) (ls ++ [l]) w3 xs1 e r o' r' out w' Ht' Hwt1 Hr H0 E).
          cbn [of_data] in IH. rewrite Y2 in IH.
          assert (Hus : (usg (Offsets d2 v3) (ls0 ++ ls ++ [l]) + sumw of_wgt xs1 <=
               usg o (ls0 ++ ls) + sumw of_wgt (l :: xs1))%N).
          { unfold usg. cbn [of_data sumw]. rewrite !lenN_app, lenN_cons.
            unfold of_wgt at 2. unfold lenN at 3; cbn [length]. lia. }
          rewrite <- !app_assoc in IH. cbn [app] in IH.
          destruct out; auto.
          -- destruct IH as (? & ? & ? & ? & ?). split; [auto|]. split; [auto|]. split; [auto|].
             split; [auto|]. lia.
          -- destruct IH as (? & ? & ?). split; [auto|]. split; [auto|]. lia.
          -- destruct IH as (? & ? & ? & ?). split; [auto|]. split; [auto|]. split; [auto|]. lia.
        * destruct (of_rollback K (Offsets d2 v3) (length ls0) (N.of_nat (length (concat ls0))))
            as [oo ee] eqn:Eb.
          destruct (Hback (Offsets d2 v3) (ends (length (concat ls0)) ls) (concat ls ++ l))
            with (7 := Eb) as (-> & ? & ? & ?); cbn [of_data of_offs]; auto.
          { rewrite V4. exact Hz. }
          { rewrite Y3, Hd, <- app_assoc. reflexivity. }
          intros E; inversion E; subst. auto.
        * destruct V4; discriminate.
      + destruct X as (Y1 & Y2 & Y3 & Y4).
        destruct (of_rollback K (Offsets d2 (of_offs o)) (length ls0) (N.of_nat (length (concat ls0))))
            as [oo ee] eqn:Eb.
        destruct (Hback (Offsets d2 (of_offs o)) (ends (length (concat ls0)) ls) (concat ls))
            with (7 := Eb) as (-> & ? & ? & ?); cbn [of_data of_offs]; auto.
        { congruence. }
        intros E; inversion E; subst. auto.
      + destruct X; discriminate.
    - intros E1 _ E2; inversion E1; inversion E2; subst. rewrite app_nil_r. cbn [sumw].
      repeat split; auto; try apply Ht; lia.
    - intros E1 _ E2; inversion E1; inversion E2; subst. rewrite app_nil_r. cbn [sumw].
      repeat split; auto; try apply Ht; lia.
  Qed.

  Lemma of_try_extend_spec {R} o ls (it : iter (list (cA K)) R) w xs e r o' r' out w' :
    of_rep o ls -> Forall (Forall (l_wt d)) xs -> run it = (xs, e, r) ->
    of_try_extend K kd o it w = (o', r', out, w') ->
    match out with
    | ODone => e = FStop /\ r' = r /\ tight o' (ls ++ xs) /\
        l_voff d (of_data o') = l_voff d (of_data o) /\
        (usg o' (ls ++ xs) <= usg o ls + sumw of_wgt xs)%N
    | OErr => tight o' ls /\ l_voff d (of_data o') = l_voff d (of_data o) /\
        (usg o' ls <= usg o ls + sumw of_wgt xs)%N
    | OPanic => e = FBoom /\ tight o' (ls ++ xs) /\
        l_voff d (of_data o') = l_voff d (of_data o) /\
        (usg o' (ls ++ xs) <= usg o ls + sumw of_wgt xs)%N
    | OAbort => False
    end.
  Proof.
    intros Ho Hwt Hr. unfold of_try_extend.
    rewrite (of_len_spec o ls Ho), (of_last o ls Ho), as_usize_nat.
    destruct (of_truncate_start o ls Ho) as (d1 & -> & Ht & Hv & Hu).
    intros E. pose proof Ht as (_ & _ & _ & _ & Hm).
    pose proof (of_try_extend_t_spec ls (it_tr it) (it_node it) (Offsets d1 (of_offs o)) [] w xs e r
      o' r' out w') as H.
    rewrite app_nil_r in H. specialize (H Ht Hwt Hr Hm E). cbn [app of_data] in H. rewrite Hv in H.
    assert (Hus : (usg (Offsets d1 (of_offs o)) ls <= usg o ls)%N) by (unfold usg; cbn [of_data]; lia).
    destruct out; auto.
    - destruct H as (? & ? & ? & ? & ?). split; [auto|]. split; [auto|]. split; [auto|].
      split; [auto|]. lia.
    - destruct H as (? & ? & ?). split; [auto|]. split; [auto|]. lia.
    - destruct H as (? & ? & ? & ?). split; [auto|]. split; [auto|]. split; [auto|]. lia.
  Qed.

  (** ** Construction *)

  Lemma of_start d0 v : fresh d d0 [] -> vec_ok esz v -> v_items v = [] ->
    tight (Offsets d0 (fst (fst (vec_extend esz v (it_list [0%Z]))))) [].
  Proof.
    intros (H1 & H2 & H3 & H4) V1 V2.
    pose proof (max_items_osz kd) as Hm. fold esz in Hm.
    destruct (vec_extend_live _ _ _ _ _ _ V1 (run_list [0%Z])) as [cap Ev].
    { apply affords_list1. rewrite V2. unfold lenN; cbn [length]. lia. }
    destruct (vec_extend esz v (it_list [0%Z])) as [[v' u] o] eqn:E. cbn [fst].
    pose proof (vec_extend_spec _ _ _ _ _ _ _ _ _ V1 (run_list _) E) as (G1 & G2 & _ & G4).
    inversion Ev; subst; clear Ev.
    destruct G4 as (_ & _ & G4).
    unfold tight. cbn [of_data of_offs]. split; [auto|]. split; [auto|].
    rewrite G4, V2. split; [reflexivity|]. split; [auto|]. cbn. destruct (omax_val kd). lia.
  Qed.
  Lemma of_fresh_start o ls : tight o ls -> fresh d (of_data o) [] -> ls = [] ->
    fresh offsets_ld o [].
  Proof.
    intros Ht (H1 & H2 & H3 & H4) ->. pose proof (tight_rep _ _ Ht) as Hr.
    unfold fresh, offsets_ld; law_cbn. split; [eexists; eauto|]. split; [auto|].
    split; [apply (of_rep_abs _ _ Hr)|]. rewrite (of_rep_usage _ _ Hr). unfold usg, lenN.
    cbn [sumw length] in *. lia.
  Qed.
  Lemma of_default_spec : tight (of_default K kd) [] /\ fresh offsets_ld (of_default K kd) [].
  Proof.
    assert (H : tight (of_default K kd) []).
    { unfold of_default. apply of_start; [apply (lw_default _ _ L)|apply vec_ok_new|reflexivity]. }
    split; auto. apply of_fresh_start with (ls := []); auto. apply (lw_default _ _ L).
  Qed.
  Lemma of_with_capacity_spec n :
    match of_with_capacity K kd n with
    | BOk o => fresh offsets_ld o []
    | BErr => False
    | _ => True
    end /\
    ((n * (1 + l_cfac d) <= of_lim)%N -> exists o, of_with_capacity K kd n = BOk o).
  Proof.
    unfold of_with_capacity. destruct (lw_with_capacity _ _ L n) as [H1 H2].
    pose proof (max_items_le esz) as Hml. rewrite alloc_max_val in Hml.
    pose proof (max_items_osz kd) as Hm. fold esz in Hm.
    assert (Hlim : (n * (1 + l_cfac d) <= of_lim)%N ->
      (n * l_cfac d <= l_lim d)%N /\ (n + 1 <= max_items esz)%N).
    { unfold of_lim. nia. }
    destruct (k_with_capacity K n) as [d0| | |].
    - unfold strict_add. rewrite usize_max_val.
      destruct (n + 1 <=? 18446744073709551615)%N eqn:E1.
      + pose proof (@vec_with_capacity_spec Z (osz kd) (n + 1)) as V.
        pose proof (@vec_with_capacity_live Z (osz kd) (n + 1)) as Vl. change (osz kd) with esz in V, Vl |- *.
        destruct (vec_with_capacity esz (n + 1)) as [v| | |]; try contradiction.
        * split; [|eauto]. destruct V as (V1 & V2 & V3).
          apply of_fresh_start with (ls := []); auto. apply of_start; auto.
        * split; auto. intros Hs. apply Hlim in Hs. destruct Vl as [? ?]; [tauto|discriminate].
        * split; auto. intros Hs. apply Hlim in Hs. destruct Vl as [? ?]; [tauto|discriminate].
      + split; auto. intros Hs. apply Hlim in Hs. lia.
    - contradiction.
    - split; auto. intros Hs. apply Hlim in Hs. destruct H2 as [? ?]; [tauto|discriminate].
    - split; auto. intros Hs. apply Hlim in Hs. destruct H2 as [? ?]; [tauto|discriminate].
  Qed.
  Lemma of_try_with_capacity_spec n w res w' : of_try_with_capacity K kd n w = (res, w') ->
    match res with BOk o => fresh offsets_ld o [] | BErr => True | _ => False end.
  Proof.
    unfold of_try_with_capacity.
    destruct (checked_add n 1) as [n1|]; [|intros E; inversion E; subst; auto].
    destruct (k_try_with_capacity K n w) as [res1 w1] eqn:E1.
    pose proof (lw_try_with_capacity _ _ L _ _ _ _ E1) as H1.
    destruct res1 as [d0| | |]; try contradiction; [|intros E; inversion E; subst; auto].
    destruct (@vec_try_with_capacity Z (osz kd) n1 w1) as [res2 w2] eqn:E2.
    apply vec_try_with_capacity_spec in E2.
    destruct res2 as [v| | |]; try contradiction; [|intros E; inversion E; subst; auto].
    destruct E2 as (V1 & V2 & V3).
    destruct (vec_try_extend (osz kd) v (it_list [0%Z]) w2) as [[[v' u] o] w3] eqn:E3.
    pose proof (vec_try_extend_spec _ _ _ _ _ _ _ _ _ _ _ V1 (run_list _) E3) as (G1 & G2 & G4).
    destruct o; intros E; inversion E; subst; auto.
    - destruct G4 as (_ & _ & G4). rewrite V2 in G4. destruct H1 as (X1 & X2 & X3 & X4).
      apply of_fresh_start with (ls := []); auto; [|unfold fresh; auto].
      unfold tight. cbn [of_data of_offs]. rewrite G4. split; [auto|]. split; [auto|].
      split; [auto|]. split; [auto|]. cbn. destruct (omax_val kd). lia.
    - destruct G4; discriminate.
  Qed.

  (** Collecting is extending an empty list. *)
  Lemma of_collect_spec {R} o0 (it : iter (list (cA K)) R) xs e r o r' out :
    fresh offsets_ld o0 [] -> Forall (Forall (l_wt d)) xs -> run it = (xs, e, r) ->
    of_extend K kd o0 it = (o, r', out) ->
    match bres_of out o with
    | BOk c => e = FStop /\ r' = r /\ fresh offsets_ld c xs
    | BErr => False
    | _ => True
    end /\
    ((sumw of_wgt xs <= of_lim)%N ->
     match e with FStop => exists c, bres_of out o = BOk c | FBoom => bres_of out o = BPanic end).
  Proof.
    intros (F1 & F2 & F3 & F4) Hwt Hr E. unfold offsets_ld in F1, F2, F3, F4.
    cbn [l_inv l_voff l_abs l_usage l_wgt] in F1, F2, F3, F4.
    change (offsets (cC K)) in o0.
    change (of_abs o0 = @nil (list (cA K))) in F3.
    pose proof (of_inv_rep _ F1) as Hrep. rewrite F3 in Hrep.
    rewrite (of_rep_usage _ _ Hrep) in F4. cbn [sumw] in F4.
    destruct (of_extend_spec _ _ _ _ _ _ _ _ _ Hrep Hwt Hr E) as [H1 H2]. cbn [app] in *.
    split.
    - destruct out; cbn [bres_of]; auto. destruct H1 as (-> & -> & T & V & U).
      split; [auto|]. split; [auto|]. pose proof (tight_rep _ _ T) as Hrep'.
      unfold fresh, offsets_ld; law_cbn. split; [eexists; eauto|]. split; [congruence|].
      split; [apply of_rep_abs; auto|]. rewrite (of_rep_usage _ _ Hrep').
      change (usg o xs <= sumw of_wgt xs)%N. lia.
    - intros Hs. destruct H2 as [H2 _]; [lia|].
      destruct e; cbn [ends_as] in H2; subst out; cbn [bres_of]; eauto.
  Qed.

  Lemma of_from_iter_collects :
    @collects (offsets_coll K kd) offsets_ld (fun R => @of_from_iter K kd R).
  Proof.
    intros R it xs e r res r' _ Hwt Hr.
    change (iter (list (cA K)) R) in it. change (list (list (cA K))) in xs.
    unfold of_from_iter.
    destruct (of_extend K kd (of_default K kd) it) as [[o r1] out] eqn:E.
    destruct (of_collect_spec _ _ _ _ _ _ _ _ (proj2 of_default_spec) Hwt Hr E) as [H1 H2].
    intros E2; inversion E2; subst. split; [|intros Hs _; apply H2; exact (affords_sumw _ _ _ _ _ _ _ _ Hr Hs)].
    destruct (bres_of out o); auto. destruct H1 as (-> & -> & H1).
    split; [auto|]. split; [auto|]. split; [|exact H1]. intros _. eapply in_after_run; eauto.
  Qed.
  Lemma of_from_iter_in_collects :
    @collects (offsets_coll K kd) offsets_ld (fun R => @of_from_iter_in K kd R).
  Proof.
    intros R it xs e r res r' _ Hwt Hr.
    change (iter (list (cA K)) R) in it. change (list (list (cA K))) in xs.
    unfold of_from_iter_in.
    destruct (of_with_capacity_spec (upper_or_lower (it_hint it))) as [C1 C2].
    destruct (of_with_capacity K kd (upper_or_lower (it_hint it))) as [o0| | |];
      try contradiction.
    - destruct (of_extend K kd o0 it) as [[o r1] out] eqn:E.
      destruct (of_collect_spec _ _ _ _ _ _ _ _ C1 Hwt Hr E) as [H1 H2].
      intros E2; inversion E2; subst. split; [|intros Hs _; apply H2; exact (affords_sumw _ _ _ _ _ _ _ _ Hr Hs)].
      destruct (bres_of out o); auto. destruct H1 as (-> & -> & H1).
      split; [auto|]. split; [auto|]. split; [|exact H1]. intros _. eapply in_after_run; eauto.
    - intros E; inversion E; subst. split; auto. intros _ Hs.
      destruct (C2 Hs); discriminate.
    - intros E; inversion E; subst. split; auto. intros _ Hs.
      destruct (C2 Hs); discriminate.
  Qed.

  Lemma of_same o ls d1 v1 : of_rep o ls -> same_items d (of_data o) d1 -> vec_ok esz v1 ->
    v_items v1 = v_items (of_offs o) -> same_items offsets_ld o (Offsets d1 v1).
  Proof.
    intros Ho (H1 & H2 & H3 & H4) V1 V2.
    assert (Hr : of_rep (Offsets d1 v1) ls).
    { destruct Ho as (G1 & G2 & G3 & G4 & G5). unfold of_rep. cbn [of_data of_offs].
      rewrite V2, H3. auto 10. }
    unfold same_items, offsets_ld; law_cbn.
    rewrite (of_rep_abs _ _ Hr), (of_rep_abs _ _ Ho), (of_rep_usage _ _ Hr), (of_rep_usage _ _ Ho).
    split; [eexists; eauto|]. split; [auto|]. split; [auto|]. unfold usg. cbn [of_data]. lia.
  Qed.

  Lemma same_refl c : l_inv d c -> same_items d c c.
  Proof. intros H. unfold same_items. repeat split; auto; lia. Qed.

  Lemma offsets_laws : Laws (offsets_coll K kd) offsets_ld.
  Proof.
    split; unfold offsets_coll; law_cbn.
    - constructor.
    - unfold offsets_ld; law_cbn. lia.
    - intros l _. unfold offsets_ld; law_cbn. unfold of_wgt. lia.
    - unfold offsets_ld; law_cbn. unfold of_lim. pose proof (lw_lim _ _ L). lia.
    - intros o Ho. unfold offsets_ld; law_cbn. pose proof (of_inv_rep _ Ho) as Hr.
      destruct Hr as (H1 & _ & _ & (rest & H4) & _).
      apply of_wt_rows with (rest := rest). rewrite <- H4. apply (lw_abs_wt _ _ L); auto.
    - intros o Ho. unfold offsets_ld; law_cbn. pose proof (of_rep_rows _ _ (of_inv_rep _ Ho)).
      rewrite alloc_max_val in *. lia.
    - intros o Ho. unfold offsets_ld; law_cbn. unfold of_usage. lia.
    - apply of_default_spec.
    - intros o Ho. apply of_len_spec, of_inv_rep; auto.
    - intros o i l Ho Hl. eapply of_view_spec; [apply of_inv_rep; exact Ho|exact Hl].
    - intros o i Ho H1 H2. eapply of_view_out; [apply of_inv_rep; exact Ho|exact H1|exact H2].
    - intros o Ho. unfold of_iter. pose proof (of_inv_rep _ Ho) as Hr.
      rewrite (of_len_spec _ _ Hr). cbn [obind]. eexists; split; [reflexivity|].
      unfold offsets_ld; law_cbn. exists (of_abs o). cbn [ix_coll ix_pos ix_end skipn].
      split; [auto|]. split; [auto|]. split; [lia|auto].
    - intros s x xs H. eapply ixrep_cons; [|exact H].
      intros c l i y Hc Hy. eapply of_view_spec; eauto.
    - intros s H. eapply ixrep_nil; exact H.
    - intros s xs H. eapply ixrep_hint; exact H.
    - intros o Ho. pose proof (of_inv_rep _ Ho) as (H1 & H2 & H3 & (rest & H4) & H5).
      unfold of_into. rewrite H3. eexists; split; [reflexivity|].
      unfold offsets_ld; law_cbn. unfold of_orep. cbn [oi_data oi_offs oi_pos].
      split; [auto|]. exists [], rest. auto.
    - intros s l ls (H1 & pre & rest & H2 & H3 & H4). unfold offsets_ld; law_cbn.
      unfold of_onext. rewrite H4, H3. cbn [ends].
      rewrite !as_usize_nat. cbn [obind concat].
      replace (N.to_nat (N.of_nat (length pre + length l) - N.of_nat (length pre)))
        with (length l) by lia.
      cbn [concat] in H2. rewrite <- app_assoc in H2.
      rewrite (range_list _ l).
      + cbn [obind]. eexists; split; [reflexivity|]. unfold of_orep. cbn [oi_data oi_offs oi_pos].
        split; [auto|]. exists (pre ++ l), rest. rewrite app_length, <- app_assoc. auto.
      + intros i x Hx. replace (N.of_nat (length pre) + N.of_nat i)%N
          with (N.of_nat (length pre + i)) by lia.
        apply expect_view; auto. rewrite H2, nth_error_app2 by lia.
        replace (length pre + i - length pre) with i by lia.
        rewrite nth_error_app1; auto. apply nth_error_Some; congruence.
    - intros s (H1 & pre & rest & H2 & H3 & H4). unfold of_onext. rewrite H4. cbn [ends].
      eexists; split; [reflexivity|]. unfold offsets_ld; law_cbn. split; eauto.
    - intros s ls (H1 & pre & rest & H2 & H3 & H4). unfold of_ohint. rewrite H4.
      rewrite ends_length. reflexivity.
    - exact of_with_capacity_spec.
    - exact of_try_with_capacity_spec.
    - exact of_from_iter_collects.
    - exact of_from_iter_in_collects.
    - intros R it w xs e r res r' w' _ Hwt Hr. unfold of_try_from_iter.
      destruct (of_try_with_capacity K kd (upper_or_lower (it_hint it)) w) as [res1 w1] eqn:E1.
      apply of_try_with_capacity_spec in E1.
      destruct res1 as [o0| | |]; try contradiction; [|intros E; inversion E; subst; auto].
      destruct (of_try_extend K kd o0 it w1) as [[[o r1] out] w2] eqn:E2.
      destruct E1 as (F1 & F2 & F3 & F4). unfold offsets_ld in F1, F2, F3, F4.
      cbn [l_inv l_voff l_abs l_usage l_wgt] in F1, F2, F3, F4.
      change (of_abs o0 = @nil (list (cA K))) in F3.
      pose proof (of_inv_rep _ F1) as Hrep. rewrite F3 in Hrep.
      rewrite (of_rep_usage _ _ Hrep) in F4. cbn [sumw] in F4.
      pose proof (of_try_extend_spec _ _ _ _ _ _ _ _ _ _ _ Hrep Hwt Hr E2) as H.
      intros E; inversion E; subst. destruct out; cbn [bres_of]; auto; [|tauto].
      destruct H as (-> & -> & T & V & U). cbn [app] in *. split; [auto|].
      pose proof (tight_rep _ _ T) as Hrep'.
      split; [|split; [auto|intros _; eapply in_after_run; eauto]].
      unfold fresh, offsets_ld; law_cbn. split; [eexists; eauto|]. split; [congruence|].
      split; [apply of_rep_abs; auto|]. rewrite (of_rep_usage _ _ Hrep').
      change (usg o xs <= sumw of_wgt xs)%N. lia.
    - intros R o it xs e r o' r' out Ho Hwt Hr E. pose proof (of_inv_rep _ Ho) as Hrep.
      destruct (of_extend_spec _ _ _ _ _ _ _ _ _ Hrep Hwt Hr E) as [H1 H2].
      assert (Hfit : fits_it offsets_ld o it -> (usg o (of_abs o) + sumw of_wgt xs <= of_lim)%N).
      { intros Hs. rewrite <- (of_rep_usage _ _ Hrep). exact (@fits_it_fits (offsets_coll K kd) offsets_ld R o it xs e r Hr Hs). }
      unfold full_ext, partial_ext, offsets_ld; law_cbn.
      rewrite !(of_rep_usage _ _ Hrep). split.
      + destruct out; auto.
        * destruct H1 as (-> & -> & T & V & U). pose proof (tight_rep _ _ T) as Hrep'.
          split; [auto|]. split; [auto|].
          split; [eexists; eauto|]. split; [auto|]. split; [apply of_rep_abs; auto|].
          rewrite (of_rep_usage _ _ Hrep'). auto.
        * intros s Hs Hp. destruct s; cbn [orb] in Hp.
          -- destruct H2 as [_ H2]; [exact (Hfit (Hs eq_refl))|].
             destruct (H2 eq_refl) as (R1 & R2 & R3).
             rewrite (of_rep_abs _ _ R1), (of_rep_usage _ _ R1).
             split; [eexists; eauto|]. split; [auto|]. split; [auto|].
             exists (length xs). split; [auto|]. rewrite firstn_all. auto.
          -- destruct (H1 Hp) as (k & K1 & R1 & R2 & R3).
             rewrite (of_rep_abs _ _ R1), (of_rep_usage _ _ R1).
             split; [eexists; eauto|]. split; [auto|]. split; [auto|].
             exists k. split; [auto|]. split; [auto|]. cbn [orb]. intros n Hn _ _.
             apply Nat.eqb_eq in Hn. subst n. apply Nat.divide_1_l.
      + intros Hs. apply H2. exact (Hfit Hs).
    - intros R o it w xs e r o' r' out w' Ho Hwt Hr E. pose proof (of_inv_rep _ Ho) as Hrep.
      pose proof (of_try_extend_spec _ _ _ _ _ _ _ _ _ _ _ Hrep Hwt Hr E) as H.
      unfold full_ext, partial_ext, offsets_ld; law_cbn.
      rewrite !(of_rep_usage _ _ Hrep).
      destruct out; auto.
      + destruct H as (-> & -> & T & V & U). pose proof (tight_rep _ _ T) as Hrep'.
        split; [auto|]. split; [auto|].
        split; [eexists; eauto|]. split; [auto|]. split; [apply of_rep_abs; auto|].
        rewrite (of_rep_usage _ _ Hrep'). auto.
      + destruct H as (T & V & U). pose proof (tight_rep _ _ T) as Hrep'.
        rewrite (of_rep_abs _ _ Hrep'), (of_rep_usage _ _ Hrep').
        split; [eexists; eauto|]. auto.
      + destruct H as (-> & T & V & U). pose proof (tight_rep _ _ T) as Hrep'.
        rewrite (of_rep_abs _ _ Hrep'), (of_rep_usage _ _ Hrep').
        split; [auto|]. intros _. split; [eexists; eauto|]. split; [auto|]. split; [auto|].
        exists (length xs). split; [auto|]. rewrite firstn_all. auto.
    - intros o n o' out Ho. pose proof (of_inv_rep _ Ho) as Hrep. unfold of_reserve.
      pose proof Hrep as (H1 & H2 & H3 & _ & _).
      destruct (k_reserve K (of_data o) n) as [d1 o1] eqn:E1.
      destruct (lw_reserve _ _ L _ _ _ _ H1 E1) as (C1 & C2 & C3).
      assert (Hs : (of_usage o + n * (1 + l_cfac d) <= of_lim)%N ->
        (l_usage d (of_data o) + n * l_cfac d <= l_lim d)%N /\
        (lenN (v_items (of_offs o)) + n <= max_items esz)%N).
      { rewrite (of_rep_usage _ _ Hrep). unfold usg, of_lim. rewrite H3, lenN_cons.
        unfold lenN. rewrite ends_length. pose proof (max_items_osz kd) as Hm. fold esz in Hm. lia. }
      destruct o1.
      + destruct (vec_reserve (osz kd) (of_offs o) n) as [v2 o2] eqn:E2.
        destruct (vec_reserve_spec _ _ _ _ _ H2 E2) as (V1 & V2 & V3 & V4).
        intros E; inversion E; subst. split; [eapply of_same; eauto|]. split; [auto|].
        unfold offsets_ld; law_cbn. intros Hx. apply Hs in Hx.
        destruct (vec_reserve_live esz (of_offs o) n) as [vv Hv]; [tauto|].
        fold esz in E2. congruence.
      + congruence.
      + intros E; inversion E; subst. split; [eapply of_same; eauto|]. split; [congruence|].
        unfold offsets_ld; law_cbn. intros Hx. apply C3. apply Hs; auto.
      + intros E; inversion E; subst. split; [eapply of_same; eauto|]. split; [congruence|].
        unfold offsets_ld; law_cbn. intros Hx. apply C3. apply Hs; auto.
    - intros o n w o' out w' Ho. pose proof (of_inv_rep _ Ho) as Hrep. unfold of_try_reserve.
      pose proof Hrep as (H1 & H2 & H3 & _ & _).
      destruct (k_try_reserve K (of_data o) n w) as [[d1 o1] w1] eqn:E1.
      destruct (lw_try_reserve _ _ L _ _ _ _ _ _ H1 E1) as (C1 & [-> | ->]).
      + destruct (vec_try_reserve (osz kd) (of_offs o) n w1) as [[v2 o2] w2] eqn:E2.
        destruct (vec_try_reserve_spec _ _ _ _ _ _ _ H2 E2) as (V1 & V2 & V3 & V4).
        intros E; inversion E; subst. split; [eapply of_same; eauto|].
        destruct out; auto; contradiction.
      + intros E; inversion E; subst. split; [eapply of_same; eauto|]. auto.
    - intros o n Ho. pose proof (of_inv_rep _ Ho) as Hrep. unfold of_truncate.
      rewrite (of_len_spec _ _ Hrep).
      pose proof Hrep as (H1 & H2 & H3 & (rest & H4) & H5).
      set (ls := of_abs o) in *. unfold offsets_ld; law_cbn. fold ls.
      destruct (n <? N.of_nat (length ls))%N eqn:En.
      + unfold vec_view. set (m := N.to_nat n) in *.
        assert (nth_N (v_items (of_offs o)) n =
          Some (Z.of_nat (length (concat (firstn m ls))))) as ->.
        { replace n with (N.of_nat m) by lia. rewrite nth_N_nat. apply of_nth; [auto|lia]. }
        rewrite as_usize_nat.
        destruct (lw_truncate _ _ L (of_data o) (N.of_nat (length (concat (firstn m ls)))) H1)
          as (d1 & -> & G1 & G2 & G3 & G4).
        destruct (vec_truncate_spec esz (of_offs o) (n + 1) H2) as (V1 & V2 & V3).
        eexists; split; [reflexivity|].
        assert (Hr : of_rep (Offsets d1 (vec_truncate (of_offs o) (n + 1))) (firstn m ls)).
        { unfold of_rep. cbn [of_data of_offs]. split; [auto|]. split; [auto|].
          rewrite V3, H3. replace (N.to_nat (n + 1)) with (S m) by lia. cbn [firstn].
          rewrite ends_firstn. split; [auto|]. rewrite G3, H4, Nat2N.id.
          rewrite (concat_firstn_skipn m ls). rewrite <- app_assoc.
          rewrite firstn_app_exact by auto. split; [exists []; rewrite app_nil_r; auto|].
          rewrite (concat_firstn_skipn m ls), app_length in H5. lia. }
        split; [eexists; eauto|]. split; [auto|].
        split; [apply of_rep_abs; auto|].
        rewrite (of_rep_usage _ _ Hr), (of_rep_usage _ _ Hrep). unfold usg. cbn [of_data].
        unfold lenN. rewrite firstn_length. lia.
      + exists o. split; [auto|]. split; [auto|]. split; [auto|]. split; [|lia].
        rewrite firstn_all2; auto. lia.
  Qed.
End Offsets.
