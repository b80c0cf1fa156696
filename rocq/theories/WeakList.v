(** * What is left of the laws of lists after arbitrary panics *)
From Coq Require Import List NArith ZArith Bool Arith Lia ZifyBool ZifyNat ZifyN.
From Verif Require Import Base Iter Spec VecModel BitmapModel CollModel ValidityModel OffsetsModel
  IterLemmas VecLemmas RoomLemmas BitmapLemmas BitmapLemmas2 Laws LawsBase LawsFlatten LawsOffsets WeakLaws.
Import ListNotations.

Local Arguments Nat.div : simpl never.
Local Arguments Nat.modulo : simpl never.
Local Arguments Nat.mul : simpl never.
Local Arguments N.add : simpl never.
Local Arguments N.mul : simpl never.
Local Arguments max_items : simpl never.

Section Lists.
  Context (K : Coll) (wt : cA K -> Prop) (d : WD K) (L : WLaws K wt d) (kd : okind).
  Local Notation esz := (osz kd).

  Definition wof_abs (o : offsets (cC K)) : list (list (cA K)) :=
    match v_items (of_offs o) with
    | [] => []
    | p :: zs => rows (w_abs d (of_data o)) p zs
    end.
  Definition wof_rep (o : offsets (cC K)) (ls : list (list (cA K))) : Prop :=
    w_inv d (of_data o) /\ vec_ok esz (of_offs o) /\
    v_items (of_offs o) = 0%Z :: ends 0 ls /\
    (exists rest, w_abs d (of_data o) = concat ls ++ rest) /\
    (Z.of_nat (length (concat ls)) <= omax kd)%Z.
  Definition wof_inv (o : offsets (cC K)) : Prop := exists ls, wof_rep o ls.
  Definition wof_orep (s : offinto (cC K)) (ls : list (list (cA K))) : Prop :=
    w_inv d (oi_data s) /\ exists pre rest,
      w_abs d (oi_data s) = pre ++ concat ls ++ rest /\
      oi_pos s = Z.of_nat (length pre) /\ oi_offs s = ends (length pre) ls.
  Definition lsim (l l' : list (cA K)) : Prop := Forall2 (w_sim d) l l'.
  Definition woffsets : WD (offsets_coll K kd) := {|
    w_inv := wof_inv : cC (offsets_coll K kd) -> Prop;
    w_abs := wof_abs : cC (offsets_coll K kd) -> list (cA (offsets_coll K kd));
    w_irep := fun (s : cVI (offsets_coll K kd)) xs => ixrep wof_rep s xs;
    w_orep := wof_orep : cOI (offsets_coll K kd) -> list (cA (offsets_coll K kd)) -> Prop;
    w_sim := lsim : cA (offsets_coll K kd) -> cA (offsets_coll K kd) -> Prop;
  |}.

  Lemma wof_rep_abs o ls : wof_rep o ls -> wof_abs o = ls.
  Proof.
    intros (_ & _ & Hi & (rest & Ha) & _). unfold wof_abs. rewrite Hi, Ha.
    exact (rows_ends ls [] rest).
  Qed.
  Lemma wof_inv_rep o : wof_inv o -> wof_rep o (wof_abs o).
  Proof. intros [ls H]. rewrite (wof_rep_abs o ls H). exact H. Qed.
  Lemma wof_rep_rows o ls : wof_rep o ls -> (lenN ls < alloc_max)%N.
  Proof.
    intros (_ & [H1 H2] & Hi & _). rewrite Hi, lenN_cons in H1.
    pose proof (max_items_le esz). unfold lenN in *. rewrite ends_length in H1. lia.
  Qed.
  Lemma wof_data_len o : w_inv d (of_data o) ->
    (lenN (w_abs d (of_data o)) <= 9223372036854775808)%N.
  Proof. intros H. pose proof (ww_max _ _ _ L _ H). rewrite alloc_max_val in *. lia. Qed.
  Lemma wof_len o ls : wof_rep o ls -> of_len K o = Ret (length ls).
  Proof.
    intros (_ & _ & Hi & _). unfold of_len. rewrite Hi. cbn [length]. rewrite ends_length. auto.
  Qed.
  Lemma wof_nth o ls i : wof_rep o ls -> i <= length ls ->
    nth_error (v_items (of_offs o)) i = Some (Z.of_nat (length (concat (firstn i ls)))).
  Proof. intros (_ & _ & Hi & _) H. rewrite Hi. exact (ends_nth ls 0 i H). Qed.
  Lemma wexpect_view c i x : w_inv d c -> nth_error (w_abs d c) i = Some x ->
    (let? o := k_view K c (N.of_nat i) in let? v := expect o in k_own K v) = Ret x.
  Proof. intros Hc Hx. destruct (ww_view _ _ _ L c i x Hc Hx) as (v & -> & Hv). exact Hv. Qed.
  Lemma wof_view o ls i l : wof_rep o ls -> nth_error ls i = Some l ->
    exists v, of_view K o (N.of_nat i) = Ret (Some v) /\ ov_own K v = Ret l.
  Proof.
    intros Ho Hl.
    assert (Hi : i < length ls) by (apply nth_error_Some; congruence).
    pose proof (wof_rep_rows o ls Ho) as Hr. unfold lenN in Hr. rewrite alloc_max_val in Hr.
    unfold of_view, strict_add. rewrite usize_max_val.
    assert ((N.of_nat i + 1 <=? 18446744073709551615)%N = true) as -> by lia. cbn [obind].
    unfold vec_view. replace (N.of_nat i + 1)%N with (N.of_nat (S i)) by lia.
    rewrite !nth_N_nat, (wof_nth o ls i), (wof_nth o ls (S i)) by (auto; lia).
    rewrite !(as_usize_nat kd). cbn [obind]. eexists; split; [reflexivity|].
    pose proof (nth_split_row ls i l Hl) as Hsp.
    assert (Hf : concat (firstn (S i) ls) = concat (firstn i ls) ++ l).
    { rewrite (firstn_S_nth ls i l Hl), concat_app. cbn [concat]. rewrite app_nil_r. auto. }
    rewrite Hf, app_length. set (s := length (concat (firstn i ls))) in *.
    pose proof Ho as (Hd & _ & _ & (rest & Ha) & _).
    pose proof (wof_data_len o Hd) as Hsz. unfold lenN in Hsz.
    unfold ov_own, ov_len, strict_sub. cbn [ov_start ov_end].
    assert ((N.of_nat s <=? N.of_nat (s + length l))%N = true) as -> by lia. cbn [obind].
    replace (N.to_nat (N.of_nat (s + length l) - N.of_nat s)) with (length l) by lia.
    assert (Hlen : s + length l <= length (w_abs d (of_data o))).
    { rewrite Ha, Hsp, !app_length. unfold s. lia. }
    apply (range_list kd). intros j x Hx.
    assert (Hj : j < length l) by (apply nth_error_Some; congruence).
    unfold ov_item, ov_view, strict_add. cbn [ov_start ov_end ov_coll]. rewrite usize_max_val.
    replace (N.of_nat s + (0 + N.of_nat j))%N with (N.of_nat (s + j)) by lia.
    assert ((N.of_nat (s + j) <=? 18446744073709551615)%N = true) as -> by lia. cbn [obind].
    assert ((N.of_nat (s + j) <? N.of_nat (s + length l))%N = true) as -> by lia.
    apply wexpect_view; auto. rewrite Ha, Hsp, <- !app_assoc.
    rewrite nth_error_app2 by (unfold s; lia).
    replace (s + j - length (concat (firstn i ls))) with j by (unfold s; lia).
    rewrite nth_error_app1; auto.
  Qed.

  Definition wtight (o : offsets (cC K)) (ls : list (list (cA K))) : Prop :=
    w_inv d (of_data o) /\ vec_ok esz (of_offs o) /\
    v_items (of_offs o) = 0%Z :: ends 0 ls /\ w_abs d (of_data o) = concat ls /\
    (Z.of_nat (length (concat ls)) <= omax kd)%Z.
  Lemma wtight_rep o ls : wtight o ls -> wof_rep o ls.
  Proof.
    intros (H1 & H2 & H3 & H4 & H5). unfold wof_rep. split; [auto|]. split; [auto|].
    split; [auto|]. split; [|auto]. exists []. rewrite app_nil_r; auto.
  Qed.
  Lemma wtight_push d2 v2 ls l o : wtight o ls -> w_inv d d2 -> vec_ok esz v2 ->
    w_abs d d2 = w_abs d (of_data o) ++ l ->
    v_items v2 = v_items (of_offs o) ++ [Z.of_nat (length (concat (ls ++ [l])))] ->
    (Z.of_nat (length (concat (ls ++ [l]))) <= omax kd)%Z ->
    wtight (Offsets d2 v2) (ls ++ [l]).
  Proof.
    intros (H1 & H2 & H3 & H4 & H5) G1 G2 G3 G4 G5. unfold wtight. cbn [of_data of_offs].
    split; [auto|]. split; [auto|]. split; [|split; [|auto]].
    - rewrite G4, H3, ends_snoc. reflexivity.
    - rewrite G3, H4, concat_snoc. reflexivity.
  Qed.
  Lemma wof_start o ls : wof_rep o ls ->
    exists d1, k_truncate K (of_data o) (N.of_nat (length (concat ls))) = (d1, ODone) /\
      wtight (Offsets d1 (of_offs o)) ls.
  Proof.
    intros (H1 & H2 & H3 & (rest & H4) & H5).
    destruct (ww_truncate _ _ _ L (of_data o) (N.of_nat (length (concat ls))) H1)
      as (d1 & E & G1 & G3).
    exists d1. split; [auto|].
    unfold wtight. cbn [of_data of_offs]. split; [auto|]. split; [auto|]. split; [auto|].
    split; [|auto]. rewrite G3, H4, Nat2N.id. apply firstn_app_exact; auto.
  Qed.
  Lemma wof_last o ls : wof_rep o ls ->
    nth_error (v_items (of_offs o)) (length (v_items (of_offs o)) - 1) =
    Some (Z.of_nat (length (concat ls))).
  Proof.
    intros Ho. pose proof Ho as (_ & _ & Hi & _). rewrite Hi at 2. cbn [length].
    rewrite ends_length. replace (S (length ls) - 1) with (length ls) by lia.
    rewrite (wof_nth o ls) by auto. rewrite firstn_all. auto.
  Qed.
  Lemma lsim_len l l' : lsim l l' -> lenN l' = lenN l.
  Proof. intros H. apply Forall2_length' in H. unfold lenN. congruence. Qed.

  Lemma wof_extend_t {R} : forall (t : trace (list (cA K)) R) n o ls xs e r o' r' out,
    wtight o ls -> Forall (Forall wt) xs -> run_t t n = (xs, e, r) ->
    of_extend_t K kd t n o (Z.of_nat (length (concat ls))) = (o', r', out) ->
    match out with
    | ODone => e = FStop /\ r' = r /\ exists ys, Forall2 lsim xs ys /\ wtight o' (ls ++ ys)
    | OErr => False
    | OPanic => exists k ys, Forall2 lsim (firstn k xs) ys /\ wof_rep o' (ls ++ ys)
    | OAbort => True
    end.
  Proof.
    induction t as [|[[l| |] n'] t IH]; intros n o ls xs e r o' r' out Ht Hwt;
      cbn [run_t of_extend_t].
    - intros E1 E2; inversion E1; inversion E2; subst. split; [reflexivity|]. split; [reflexivity|].
      exists []. rewrite app_nil_r. split; [constructor|exact Ht].
    - destruct (run_t t n') as [[xs1 e1] r1] eqn:Hr. intros E1; inversion E1; subst; clear E1.
      inversion Hwt as [|? ? Hl Hwt1]; subst.
      pose proof Ht as (T1 & T2 & T3 & T4 & T5).
      destruct (omax_val kd) as (Hom & Hon & Hou).
      assert (Hstay : forall d1, w_inv d d1 ->
        (exists rest, w_abs d d1 = concat ls ++ rest) ->
        exists k ys, Forall2 lsim (firstn k (l :: xs1)) ys /\
          wof_rep (Offsets d1 (of_offs o)) (ls ++ ys)).
      { intros d1 D1 D4. exists 0, []. split; [constructor|]. rewrite app_nil_r.
        unfold wof_rep. cbn [of_data of_offs]. auto 10. }
      assert (Hoe : Offsets (of_data o) (of_offs o) = o) by (destruct o; auto).
      assert (Hstay0 : exists k ys, Forall2 lsim (firstn k (l :: xs1)) ys /\ wof_rep o (ls ++ ys)).
      { pose proof (Hstay (of_data o)) as H. rewrite Hoe in H. apply H; auto.
        exists []. rewrite app_nil_r; auto. }
      unfold off_try_from.
      destruct (Z.of_N (lenN l) <=? omax kd)%Z eqn:E0.
      2:{ intros E; inversion E; subst. exact Hstay0. }
      unfold off_strict_add.
      destruct ((omin kd <=? Z.of_nat (length (concat ls)) + Z.of_N (lenN l)) &&
                (Z.of_nat (length (concat ls)) + Z.of_N (lenN l) <=? omax kd))%Z eqn:E3.
      2:{ intros E; inversion E; subst. exact Hstay0. }
      destruct (k_reserve K (of_data o) (lenN l)) as [d1 o1] eqn:Er.
      destruct (ww_reserve _ _ _ L _ _ _ _ T1 Er) as ((R1 & R3) & R5).
      destruct o1; try congruence.
      + destruct (k_extend K d1 (it_list l)) as [[d2 u] o2] eqn:Ex.
        pose proof (ww_extend _ _ _ L _ d1 _ _ _ _ _ _ _ R1 Hl (run_list l) Ex) as X1.
        destruct o2; try contradiction.
        * destruct X1 as (_ & _ & l' & Hs & (Y1 & Y3)).
          assert (Hpos : (Z.of_nat (length (concat ls)) + Z.of_N (lenN l) =
            Z.of_nat (length (concat (ls ++ [l']))))%Z).
          { rewrite concat_snoc, app_length. pose proof (lsim_len _ _ Hs) as Hll. unfold lenN in *. lia. }
          rewrite Hpos in *.
          destruct (vec_extend (osz kd) (of_offs o)
            (it_list [Z.of_nat (length (concat (ls ++ [l'])))])) as [[v3 u3] o3] eqn:Ev.
          pose proof (vec_extend_spec _ _ _ _ _ _ _ _ _ T2 (run_list _) Ev) as (V1 & V2 & _ & V4).
          destruct o3; try contradiction.
          -- destruct V4 as (_ & _ & V4).
             assert (Ht' : wtight (Offsets d2 v3) (ls ++ [l'])).
             { apply wtight_push with (o := o); auto; [|lia]. congruence. }
             intros E. specialize (IH n' (Offsets d2 v3) (ls ++ [l']) xs1 e r o' r' out Ht' Hwt1 Hr E).
             destruct out; try exact IH.
             ++ destruct IH as (I1 & I2 & ys & I3 & I4). split; [exact I1|]. split; [exact I2|].
                exists (l' :: ys). split; [constructor; assumption|].
                rewrite <- app_assoc in I4. exact I4.
             ++ destruct IH as (k & ys & I3 & I4). exists (S k), (l' :: ys).
                split; [constructor; assumption|]. rewrite <- app_assoc in I4. exact I4.
          -- exfalso. apply (off_push_calm kd _ _ _ _ T2 Ev).
          -- intros E; inversion E; subst. exact I.
        * intros E; inversion E; subst. destruct X1 as (k & ys & _ & (Z1 & Z2)).
          apply Hstay; auto. rewrite Z2, R3, T4. eauto.
        * intros E; inversion E; subst. exact I.
      + intros E; inversion E; subst. apply Hstay; auto. exists []. rewrite app_nil_r, R3; auto.
      + intros E; inversion E; subst. exact I.
    - intros E1 E2; inversion E1; inversion E2; subst. split; [reflexivity|]. split; [reflexivity|].
      exists []. rewrite app_nil_r. split; [constructor|exact Ht].
    - intros E1 E2; inversion E1; inversion E2; subst. exists 0, []. rewrite app_nil_r.
      split; [constructor|]. exact (wtight_rep _ _ Ht).
  Qed.

  Lemma wof_rollback o ls more1 more2 o' out : w_inv d (of_data o) ->
    vec_ok esz (of_offs o) -> v_items (of_offs o) = (0%Z :: ends 0 ls) ++ more1 ->
    w_abs d (of_data o) = concat ls ++ more2 ->
    (Z.of_nat (length (concat ls)) <= omax kd)%Z ->
    of_rollback K o (length ls) (N.of_nat (length (concat ls))) = (o', out) ->
    out = OErr /\ wtight o' ls.
  Proof.
    intros H1 H2 H3 H4 H5. unfold of_rollback.
    destruct (ww_truncate _ _ _ L (of_data o) (N.of_nat (length (concat ls))) H1)
      as (d1 & -> & G1 & G3).
    destruct (vec_truncate_spec esz (of_offs o) (N.of_nat (length ls) + 1) H2) as (V1 & V2 & V3).
    intros E; inversion E; subst; clear E. split; [auto|].
    unfold wtight. cbn [of_data of_offs]. split; [auto|]. split; [auto|]. split; [|split; [|auto]].
    - rewrite V3, H3. apply firstn_app_exact. cbn [length]. rewrite ends_length. lia.
    - rewrite G3, H4, Nat2N.id. apply firstn_app_exact; auto.
  Qed.
  Lemma wof_try_extend_t {R} ls0 : forall (t : trace (list (cA K)) R) n o ls w xs e r o' r' out w',
    wtight o (ls0 ++ ls) -> Forall (Forall wt) xs -> run_t t n = (xs, e, r) ->
    (Z.of_nat (length (concat ls0)) <= omax kd)%Z ->
    of_try_extend_t K kd (length ls0) (N.of_nat (length (concat ls0))) t n o
      (Z.of_nat (length (concat (ls0 ++ ls)))) w = (o', r', out, w') ->
    match out with
    | ODone => e = FStop /\ r' = r /\ exists ys, Forall2 lsim xs ys /\ wtight o' (ls0 ++ ls ++ ys)
    | OErr => wtight o' ls0
    | OPanic => e = FBoom /\ exists ys, Forall2 lsim xs ys /\ wtight o' (ls0 ++ ls ++ ys)
    | OAbort => False
    end.
  Proof.
    induction t as [|[[l| |] n'] t IH]; intros n o ls w xs e r o' r' out w' Ht Hwt;
      cbn [run_t of_try_extend_t].
    - intros E1 _ E2; inversion E1; inversion E2; subst. split; [reflexivity|]. split; [reflexivity|].
      exists []. rewrite app_nil_r. split; [constructor|exact Ht].
    - destruct (run_t t n') as [[xs1 e1] r1] eqn:Hr. intros E1 H0; inversion E1; subst; clear E1.
      inversion Hwt as [|? ? Hl Hwt1]; subst.
      pose proof Ht as (T1 & T2 & T3 & T4 & T5).
      rewrite (as_usize_nat kd).
      assert (Hback : forall o1 (m1 : list Z) m2, w_inv d (of_data o1) -> vec_ok esz (of_offs o1) ->
        v_items (of_offs o1) = (0%Z :: ends 0 ls0) ++ m1 ->
        w_abs d (of_data o1) = concat ls0 ++ m2 ->
        forall oo ee, of_rollback K o1 (length ls0) (N.of_nat (length (concat ls0))) = (oo, ee) ->
        ee = OErr /\ wtight oo ls0).
      { intros o1 m1 m2 Q1 Q2 Q3 Q4 oo ee Q7. exact (wof_rollback _ _ _ _ _ _ Q1 Q2 Q3 Q4 H0 Q7). }
      assert (Hz : v_items (of_offs o) = (0%Z :: ends 0 ls0) ++ ends (length (concat ls0)) ls).
      { rewrite T3, ends_app. reflexivity. }
      assert (Hd : w_abs d (of_data o) = concat ls0 ++ concat ls) by (rewrite T4; apply concat_app).
      destruct (checked_add (N.of_nat (length (concat (ls0 ++ ls)))) (lenN l)) as [u|] eqn:Ec.
      2:{ destruct (of_rollback K o (length ls0) (N.of_nat (length (concat ls0)))) as [oo ee] eqn:Eb.
          destruct (Hback o _ _ T1 T2 Hz Hd _ _ Eb) as (-> & ?).
          intros E; inversion E; subst. auto. }
      unfold checked_add in Ec.
      destruct (N.of_nat (length (concat (ls0 ++ ls))) + lenN l <=? usize_max)%N; [|discriminate].
      inversion Ec; subst u; clear Ec. unfold off_try_from.
      destruct (Z.of_N (N.of_nat (length (concat (ls0 ++ ls))) + lenN l) <=? omax kd)%Z eqn:E3.
      2:{ destruct (of_rollback K o (length ls0) (N.of_nat (length (concat ls0)))) as [oo ee] eqn:Eb.
          destruct (Hback o _ _ T1 T2 Hz Hd _ _ Eb) as (-> & ?).
          intros E; inversion E; subst. auto. }
      destruct (k_try_extend K (of_data o) (it_list l) w) as [[[d2 u] o2] w2] eqn:Ex.
      pose proof (ww_try_extend _ _ _ L _ _ _ _ _ _ _ _ _ _ _ T1 Hl (run_list l) Ex) as X.
      destruct o2; try contradiction.
      + destruct X as (_ & _ & l' & Hs & (Y1 & Y3)).
        assert (Hpos : Z.of_N (N.of_nat (length (concat (ls0 ++ ls))) + lenN l) =
          Z.of_nat (length (concat (ls0 ++ ls ++ [l'])))).
        { rewrite app_assoc, concat_snoc, (app_length _ l'). pose proof (lsim_len _ _ Hs) as Hll.
          unfold lenN in *. lia. }
        rewrite Hpos in *.
        destruct (vec_try_extend (osz kd) (of_offs o)
          (it_list [Z.of_nat (length (concat (ls0 ++ ls ++ [l'])))]) w2) as [[[v3 u3] o3] w3] eqn:Ev.
        pose proof (vec_try_extend_spec _ _ _ _ _ _ _ _ _ _ _ T2 (run_list _) Ev) as (V1 & V2 & V4).
        destruct o3; try contradiction.
        * destruct V4 as (_ & _ & V4).
          assert (Ht' : wtight (Offsets d2 v3) (ls0 ++ ls ++ [l'])).
          { rewrite app_assoc in *. apply wtight_push with (o := o); auto. lia. }
          intros E. specialize (IH n' (Offsets d2 v3) (ls ++ [l']) w3 xs1 e r o' r' out w' Ht' Hwt1 Hr H0 E).
          destruct out; try exact IH.
          -- destruct IH as (I1 & I2 & ys & I3 & I4). split; [exact I1|]. split; [exact I2|].
             exists (l' :: ys). split; [constructor; assumption|]. rewrite <- app_assoc in I4. exact I4.
          -- destruct IH as (I1 & ys & I3 & I4). split; [exact I1|].
             exists (l' :: ys). split; [constructor; assumption|]. rewrite <- app_assoc in I4. exact I4.
        * destruct (of_rollback K (Offsets d2 v3) (length ls0) (N.of_nat (length (concat ls0))))
            as [oo ee] eqn:Eb.
          destruct (Hback (Offsets d2 v3) (ends (length (concat ls0)) ls) (concat ls ++ l'))
            with (5 := Eb) as (-> & ?); cbn [of_data of_offs]; auto.
          { rewrite V4. exact Hz. }
          { rewrite Y3, Hd, <- app_assoc. reflexivity. }
          intros E; inversion E; subst. auto.
        * destruct V4; discriminate.
      + destruct X as (Y1 & Y3).
        destruct (of_rollback K (Offsets d2 (of_offs o)) (length ls0) (N.of_nat (length (concat ls0))))
            as [oo ee] eqn:Eb.
        destruct (Hback (Offsets d2 (of_offs o)) (ends (length (concat ls0)) ls) (concat ls))
            with (5 := Eb) as (-> & ?); cbn [of_data of_offs]; auto.
        { congruence. }
        intros E; inversion E; subst. auto.
      + destruct X; discriminate.
    - intros E1 _ E2; inversion E1; inversion E2; subst. split; [reflexivity|]. split; [reflexivity|].
      exists []. rewrite app_nil_r. split; [constructor|exact Ht].
    - intros E1 _ E2; inversion E1; inversion E2; subst. split; [reflexivity|].
      exists []. rewrite app_nil_r. split; [constructor|exact Ht].
  Qed.

  Lemma wof_grown o o' ls ys : wof_rep o ls -> wof_rep o' (ls ++ ys) -> grown woffsets o o' ys.
  Proof.
    intros H H'. unfold grown, woffsets; cbn [w_inv w_abs]. split; [eexists; exact H'|].
    rewrite (wof_rep_abs _ _ H), (wof_rep_abs _ _ H'). reflexivity.
  Qed.
  Lemma wof_kept o ls d1 v1 : wof_rep o ls -> kept d (of_data o) d1 -> vec_ok esz v1 ->
    v_items v1 = v_items (of_offs o) -> kept woffsets o (Offsets d1 v1).
  Proof.
    intros Ho (H1 & H3) V1 V2.
    assert (Hr : wof_rep (Offsets d1 v1) ls).
    { destruct Ho as (G1 & G2 & G3 & G4 & G5). unfold wof_rep. cbn [of_data of_offs].
      rewrite V2, H3. auto 10. }
    unfold kept, woffsets; cbn [w_inv w_abs]. split; [eexists; exact Hr|].
    rewrite (wof_rep_abs _ _ Hr), (wof_rep_abs _ _ Ho). reflexivity.
  Qed.

  Lemma woffsets_laws : WLaws (offsets_coll K kd) (Forall wt : cA (offsets_coll K kd) -> Prop) woffsets.
  Proof.
    split; unfold offsets_coll; law_cbn.
    - constructor.
    - intros o Ho. pose proof (wof_rep_rows _ _ (wof_inv_rep _ Ho)) as H.
      change (lenN (wof_abs o) <= 8 * alloc_max)%N. rewrite alloc_max_val in *. lia.
    - intros o Ho. apply wof_len, wof_inv_rep; auto.
    - intros o i l Ho Hl. eapply wof_view; [apply wof_inv_rep; exact Ho|exact Hl].
    - intros o Ho. unfold of_iter. pose proof (wof_inv_rep _ Ho) as Hr.
      rewrite (wof_len _ _ Hr). cbn [obind]. eexists; split; [reflexivity|].
      exists (wof_abs o). cbn [ix_coll ix_pos ix_end skipn].
      split; [auto|]. split; [auto|]. split; [lia|auto].
    - intros s x xs H. eapply ixrep_cons; [|exact H].
      intros c l i y Hc Hy. eapply wof_view; eauto.
    - intros s H. eapply ixrep_nil; exact H.
    - intros s xs H. eapply ixrep_hint; exact H.
    - intros o Ho. pose proof (wof_inv_rep _ Ho) as (H1 & H2 & H3 & (rest & H4) & H5).
      unfold of_into. rewrite H3. eexists; split; [reflexivity|].
      unfold woffsets; cbn [w_orep w_abs]. unfold wof_orep. cbn [oi_data oi_offs oi_pos].
      split; [auto|]. exists [], rest. auto.
    - intros s l ls (H1 & pre & rest & H2 & H3 & H4).
      unfold of_onext. rewrite H4, H3. cbn [ends].
      rewrite !(as_usize_nat kd). cbn [obind concat].
      replace (N.to_nat (N.of_nat (length pre + length l) - N.of_nat (length pre)))
        with (length l) by lia.
      cbn [concat] in H2. rewrite <- app_assoc in H2.
      rewrite (range_list kd _ l).
      + cbn [obind]. eexists; split; [reflexivity|]. unfold woffsets; cbn [w_orep].
        unfold wof_orep. cbn [oi_data oi_offs oi_pos].
        split; [auto|]. exists (pre ++ l), rest. rewrite app_length, <- app_assoc. auto.
      + intros i x Hx. replace (N.of_nat (length pre) + N.of_nat i)%N
          with (N.of_nat (length pre + i)) by lia.
        apply wexpect_view; auto. rewrite H2, nth_error_app2 by lia.
        replace (length pre + i - length pre) with i by lia.
        rewrite nth_error_app1; auto. apply nth_error_Some; congruence.
    - intros s Hs. right. exists (fun t => wof_orep t []). split; [exact Hs|].
      intros t Ht. split; [exact Ht|]. exists t. split; [|exact Ht].
      destruct Ht as (H1 & pre & rest & H2 & H3 & H4).
      change (of_onext K t = Ret (None, t)). unfold of_onext. rewrite H4. reflexivity.
    - intros s ls (H1 & pre & rest & H2 & H3 & H4). unfold of_ohint. rewrite H4.
      rewrite ends_length. reflexivity.
    - intros R o it xs e r o' r' out Ho Hwt Hr. pose proof (wof_inv_rep _ Ho) as Hrep.
      unfold of_extend. rewrite (wof_last o _ Hrep), (as_usize_nat kd).
      destruct (wof_start o _ Hrep) as (d1 & -> & Ht). intros E.
      pose proof (wof_extend_t _ _ _ _ _ _ _ _ _ _ Ht Hwt Hr E) as H. destruct out; try exact H.
      + destruct H as (H1 & H2 & ys & H3 & H4). split; [exact H1|]. split; [exact H2|].
        exists ys. split; [exact H3|]. exact (wof_grown _ _ _ _ Hrep (wtight_rep _ _ H4)).
      + destruct H as (k & ys & H3 & H4).
        exists k, ys. split; [exact H3|]. exact (wof_grown _ _ _ _ Hrep H4).
    - intros R o it w xs e r o' r' out w' Ho Hwt Hr. pose proof (wof_inv_rep _ Ho) as Hrep.
      unfold of_try_extend. rewrite (wof_len o _ Hrep), (wof_last o _ Hrep), (as_usize_nat kd).
      destruct (wof_start o _ Hrep) as (d1 & -> & Ht). intros E.
      pose proof Ht as (_ & _ & _ & _ & Hm).
      pose proof (wof_try_extend_t (wof_abs o) (it_tr it) (it_node it) (Offsets d1 (of_offs o)) [] w xs e r
        o' r' out w') as H.
      rewrite app_nil_r in H. specialize (H Ht Hwt Hr Hm E). cbn [app] in H.
      destruct out; try exact H.
      + destruct H as (H1 & H2 & ys & H3 & H4). split; [exact H1|]. split; [exact H2|].
        exists ys. split; [exact H3|]. exact (wof_grown _ _ _ _ Hrep (wtight_rep _ _ H4)).
      + apply wtight_rep in H. split; [eexists; exact H|].
        change (wof_abs o' = wof_abs o). rewrite (wof_rep_abs _ _ H). reflexivity.
      + destruct H as (H1 & ys & H3 & H4). split; [exact H1|]. exists (length xs), ys.
        rewrite firstn_all. split; [exact H3|]. exact (wof_grown _ _ _ _ Hrep (wtight_rep _ _ H4)).
    - intros o n o' out Ho. pose proof (wof_inv_rep _ Ho) as Hrep. unfold of_reserve.
      pose proof Hrep as (H1 & H2 & H3 & _ & _).
      destruct (k_reserve K (of_data o) n) as [d1 o1] eqn:E1.
      destruct (ww_reserve _ _ _ L _ _ _ _ H1 E1) as (C1 & C2).
      destruct o1; try congruence.
      + destruct (vec_reserve (osz kd) (of_offs o) n) as [v2 o2] eqn:E2.
        destruct (vec_reserve_spec _ _ _ _ _ H2 E2) as (V1 & V2 & V3 & V4).
        intros E; inversion E; subst. split; [eapply wof_kept; eauto|auto].
      + intros E; inversion E; subst. split; [eapply wof_kept; eauto|discriminate].
      + intros E; inversion E; subst. split; [eapply wof_kept; eauto|discriminate].
    - intros o n w o' out w' Ho. pose proof (wof_inv_rep _ Ho) as Hrep. unfold of_try_reserve.
      pose proof Hrep as (H1 & H2 & H3 & _ & _).
      destruct (k_try_reserve K (of_data o) n w) as [[d1 o1] w1] eqn:E1.
      destruct (ww_try_reserve _ _ _ L _ _ _ _ _ _ H1 E1) as (C1 & [-> | ->]).
      + destruct (vec_try_reserve (osz kd) (of_offs o) n w1) as [[v2 o2] w2] eqn:E2.
        destruct (vec_try_reserve_spec _ _ _ _ _ _ _ H2 E2) as (V1 & V2 & V3 & V4).
        intros E; inversion E; subst. split; [eapply wof_kept; eauto|].
        destruct out; auto; contradiction.
      + intros E; inversion E; subst. split; [eapply wof_kept; eauto|]. auto.
    - intros o n Ho. pose proof (wof_inv_rep _ Ho) as Hrep. unfold of_truncate.
      rewrite (wof_len _ _ Hrep).
      pose proof Hrep as (H1 & H2 & H3 & (rest & H4) & H5).
      unfold woffsets; cbn [w_inv w_abs]. set (ls := wof_abs o) in *.
      destruct (n <? N.of_nat (length ls))%N eqn:En.
      + unfold vec_view. set (m := N.to_nat n) in *.
        assert (nth_N (v_items (of_offs o)) n =
          Some (Z.of_nat (length (concat (firstn m ls))))) as ->.
        { replace n with (N.of_nat m) by lia. rewrite nth_N_nat. apply wof_nth; [auto|lia]. }
        rewrite (as_usize_nat kd).
        destruct (ww_truncate _ _ _ L (of_data o) (N.of_nat (length (concat (firstn m ls)))) H1)
          as (d1 & -> & G1 & G3).
        destruct (vec_truncate_spec esz (of_offs o) (n + 1) H2) as (V1 & V2 & V3).
        eexists; split; [reflexivity|].
        assert (Hr : wof_rep (Offsets d1 (vec_truncate (of_offs o) (n + 1))) (firstn m ls)).
        { unfold wof_rep. cbn [of_data of_offs]. split; [auto|]. split; [auto|].
          rewrite V3, H3. replace (N.to_nat (n + 1)) with (S m) by lia. cbn [firstn].
          rewrite ends_firstn. split; [auto|]. rewrite G3, H4, Nat2N.id.
          rewrite (concat_firstn_skipn m ls). rewrite <- app_assoc.
          rewrite firstn_app_exact by auto. split; [exists []; rewrite app_nil_r; auto|].
          rewrite (concat_firstn_skipn m ls), app_length in H5. lia. }
        split; [eexists; exact Hr|]. exact (wof_rep_abs _ _ Hr).
      + exists o. split; [auto|]. split; [auto|].
        rewrite firstn_all2; auto. lia.
  Qed.
End Lists.
