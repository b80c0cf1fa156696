(** * Lists handed over as collections, after arbitrary panics *)
From Coq Require Import List NArith ZArith Bool Arith Lia ZifyBool ZifyNat ZifyN.
From Verif Require Import Base Iter Spec VecModel BitmapModel CollModel ValidityModel OffsetsModel
  OwnedListModel IterLemmas VecLemmas RoomLemmas BitmapLemmas BitmapLemmas2 Laws LawsBase LawsFlatten
  LawsOffsets LayoutModel Reach SpecFixed WeakLaws WeakList.
Import ListNotations.

Local Arguments Nat.div : simpl never.
Local Arguments Nat.modulo : simpl never.
Local Arguments Nat.mul : simpl never.
Local Arguments N.add : simpl never.
Local Arguments N.mul : simpl never.
Local Arguments max_items : simpl never.

(** [c] has the items [xs]; what its owning iterator does when it has returned
    them. *)
Definition gives (U : Coll) (c : cC U) (xs : list (cA U)) (e : fin) : Prop :=
  k_len U c = Ret (length xs) /\ exists st, k_into U c = Ret st /\
  match e with
  | FStop => yields (k_onext U) (k_ohint U) Ret st xs
  | FBoom => breaks (k_onext U) (k_ohint U) st xs
  end.

Section Owned.
  Context (K : Coll) (wt : cA K -> Prop) (d : WD K) (L : WLaws K wt d) (kd : okind).
  Context (U : Coll) (into : cA U -> cA K).
  Local Notation esz := (osz kd).
  Local Notation lsim := (lsim K d).
  Local Notation wtight := (wtight K d kd).
  Local Notation wof_rep := (wof_rep K d kd).

  Lemma drain_whole xs : forall st, yields (k_onext U) (k_ohint U) Ret st xs -> forall n nd,
    run_t (ou_drain K U into (S (length xs + n)) st) nd = (map into xs, FStop, tt).
  Proof.
    induction xs as [|x xs IH]; intros st H n [h []]; cbn [length Nat.add].
    - destruct (H 1) as (_ & st' & E & _). cbn [ou_drain]. rewrite E. reflexivity.
    - destruct H as (_ & v & st' & E & Ev & H). injection Ev as ->.
      remember (S (length xs + n)) as m eqn:Em. cbn [ou_drain]. rewrite E. cbn [run_t map].
      subst m. rewrite (IH st' H). reflexivity.
  Qed.
  Lemma drain_cut xs : forall st, breaks (k_onext U) (k_ohint U) st xs -> forall n nd,
    run_t (ou_drain K U into (S (length xs + n)) st) nd = (map into xs, FBoom, tt).
  Proof.
    induction xs as [|x xs IH]; intros st H n [h []]; cbn [length Nat.add].
    - destruct H as (_ & E). cbn [ou_drain]. rewrite E. reflexivity.
    - destruct H as (_ & st' & E & H).
      remember (S (length xs + n)) as m eqn:Em. cbn [ou_drain]. rewrite E. cbn [run_t map].
      subst m. rewrite (IH st' H). reflexivity.
  Qed.
  Lemma run_items c xs e : gives U c xs e -> exists st, k_into U c = Ret st /\
    run (ou_items K U into (length xs) st) = (map into xs, e, tt).
  Proof.
    intros (_ & st & E & H). exists st. split; [exact E|]. unfold run, ou_items. cbn [it_tr it_node].
    rewrite <- (Nat.add_0_r (length xs)).
    destruct e; [apply drain_whole|apply drain_cut]; exact H.
  Qed.

  (** The first [j] collections could be consumed. *)
  Definition before (cs : list (cC U)) (rows : list (list (cA U))) (j : nat) : Prop :=
    Forall2 (fun c row => gives U c row FStop) (firstn j cs) (firstn j rows).

  Lemma wou_extend_t {R} : forall (t : trace (cC U) R) n o ls cs e r rows o' r' out,
    wtight o ls -> run_t t n = (cs, e, r) ->
    Forall2 (fun c row => exists f, gives U c row f) cs rows ->
    Forall (Forall wt) (map (map into) rows) ->
    ou_extend_t K U kd into t n o (Z.of_nat (length (concat ls))) = (o', r', out) ->
    match out with
    | ODone => e = FStop /\ r' = r /\ Forall2 (fun c row => gives U c row FStop) cs rows /\
        exists ys, Forall2 lsim (map (map into) rows) ys /\ wtight o' (ls ++ ys)
    | OErr => False
    | OPanic => exists j ys, before cs rows j /\
        Forall2 lsim (firstn j (map (map into) rows)) ys /\ wof_rep o' (ls ++ ys)
    | OAbort => True
    end.
  Proof.
    induction t as [|[[c| |] n'] t IH]; intros n o ls cs e r rows o' r' out Ht;
      cbn [run_t ou_extend_t].
    - intros E1 Hc Hwt E2; inversion E1; inversion E2; subst. inversion Hc; subst.
      split; [reflexivity|]. split; [reflexivity|]. split; [constructor|].
      exists []. rewrite app_nil_r. split; [constructor|exact Ht].
    - destruct (run_t t n') as [[cs1 e1] r1] eqn:Hr. intros E1; inversion E1; subst; clear E1.
      intros Hc Hwt. inversion Hc as [|? row ? rows1 (f & Hg) Hc1]; subst. cbn [map] in Hwt.
      inversion Hwt as [|? ? Hl Hwt1]; subst. cbn [map].
      pose proof Ht as (T1 & T2 & T3 & T4 & T5).
      destruct (omax_val kd) as (Hom & Hon & Hou).
      assert (Hstay : forall d1, w_inv d d1 ->
        (exists rest, w_abs d d1 = concat ls ++ rest) ->
        exists j ys, before (c :: cs1) (row :: rows1) j /\
          Forall2 lsim (firstn j (map into row :: map (map into) rows1)) ys /\
          wof_rep (Offsets d1 (of_offs o)) (ls ++ ys)).
      { intros d1 D1 D4. exists 0, []. split; [constructor|]. split; [constructor|]. rewrite app_nil_r.
        unfold WeakList.wof_rep. cbn [of_data of_offs]. auto 10. }
      assert (Hoe : Offsets (of_data o) (of_offs o) = o) by (destruct o; auto).
      assert (Hstay0 : exists j ys, before (c :: cs1) (row :: rows1) j /\
          Forall2 lsim (firstn j (map into row :: map (map into) rows1)) ys /\
          wof_rep o (ls ++ ys)).
      { pose proof (Hstay (of_data o)) as H. rewrite Hoe in H. apply H; auto.
        exists []. rewrite app_nil_r; auto. }
      pose proof Hg as (Hlen & _). rewrite Hlen.
      unfold off_try_from.
      destruct (Z.of_N (N.of_nat (length row)) <=? omax kd)%Z eqn:E0.
      2:{ intros E; inversion E; subst. exact Hstay0. }
      unfold off_strict_add.
      destruct ((omin kd <=? Z.of_nat (length (concat ls)) + Z.of_N (N.of_nat (length row))) &&
                (Z.of_nat (length (concat ls)) + Z.of_N (N.of_nat (length row)) <=? omax kd))%Z eqn:E3.
      2:{ intros E; inversion E; subst. exact Hstay0. }
      destruct (k_reserve K (of_data o) (N.of_nat (length row))) as [d1 o1] eqn:Er.
      destruct (ww_reserve _ _ _ L _ _ _ _ T1 Er) as ((R1 & R3) & R5).
      destruct (run_items c row f Hg) as (st & Est & Hrun).
      destruct o1; try congruence.
      + rewrite Est. destruct (k_extend K d1 (ou_items K U into (length row) st)) as [[d2 u] o2] eqn:Ex.
        pose proof (ww_extend _ _ _ L _ d1 _ _ _ _ _ _ _ R1 Hl Hrun Ex) as X1.
        destruct o2; try contradiction.
        * destruct X1 as (-> & _ & l' & Hs & (Y1 & Y3)).
          assert (Hpos : (Z.of_nat (length (concat ls)) + Z.of_N (N.of_nat (length row)) =
            Z.of_nat (length (concat (ls ++ [l']))))%Z).
          { rewrite concat_snoc, app_length. pose proof (lsim_len _ _ _ _ Hs) as Hll.
            unfold lenN in Hll. rewrite map_length in Hll. lia. }
          rewrite Hpos in *.
          destruct (vec_extend (osz kd) (of_offs o)
            (it_list [Z.of_nat (length (concat (ls ++ [l'])))])) as [[v3 u3] o3] eqn:Ev.
          pose proof (vec_extend_spec _ _ _ _ _ _ _ _ _ T2 (run_list _) Ev) as (V1 & V2 & _ & V4).
          destruct o3; try contradiction.
          -- destruct V4 as (_ & _ & V4).
             assert (Ht' : wtight (Offsets d2 v3) (ls ++ [l'])).
             { apply wtight_push with (o := o); auto; [|lia]. congruence. }
             intros E. specialize (IH n' (Offsets d2 v3) (ls ++ [l']) cs1 e r rows1 o' r' out Ht' Hr Hc1 Hwt1 E).
             destruct out; try exact IH.
             ++ destruct IH as (I1 & I2 & I5 & ys & I3 & I4). split; [exact I1|]. split; [exact I2|].
                split; [constructor; assumption|].
                exists (l' :: ys). split; [constructor; assumption|].
                rewrite <- app_assoc in I4. exact I4.
             ++ destruct IH as (k & ys & I5 & I3 & I4). exists (S k), (l' :: ys).
                split; [constructor; assumption|]. split; [constructor; assumption|]. rewrite <- app_assoc in I4. exact I4.
          -- exfalso. apply (off_push_calm kd _ _ _ _ T2 Ev).
          -- intros E; inversion E; subst. exact I.
        * intros E; inversion E; subst. destruct X1 as (k & ys & _ & (Z1 & Z2)).
          apply Hstay; auto. rewrite Z2, R3, T4. eauto.
        * intros E; inversion E; subst. exact I.
      + intros E; inversion E; subst. apply Hstay; auto. exists []. rewrite app_nil_r, R3; auto.
      + intros E; inversion E; subst. exact I.
    - intros E1 Hc Hwt E2; inversion E1; inversion E2; subst. inversion Hc; subst.
      split; [reflexivity|]. split; [reflexivity|]. split; [constructor|].
      exists []. rewrite app_nil_r. split; [constructor|exact Ht].
    - intros E1 Hc Hwt E2; inversion E1; inversion E2; subst. exists 0, []. rewrite app_nil_r.
      split; [constructor|]. split; [constructor|]. exact (wtight_rep _ _ _ _ _ Ht).
  Qed.

  (** Where a fallible operation panics: at the end of the iterator, or at the
      end of one of the collections. *)
  Definition stopped (cs : list (cC U)) (rows : list (list (cA U))) (e : fin) (j : nat) : Prop :=
    e = FBoom /\ j = length rows \/
    exists c row, nth_error cs j = Some c /\ nth_error rows j = Some row /\ gives U c row FBoom.

  Lemma wou_try_extend_t {R} ls0 : forall (t : trace (cC U) R) n o ls w cs e r rows o' r' out w',
    wtight o (ls0 ++ ls) -> run_t t n = (cs, e, r) ->
    Forall2 (fun c row => exists f, gives U c row f) cs rows ->
    Forall (Forall wt) (map (map into) rows) ->
    (Z.of_nat (length (concat ls0)) <= omax kd)%Z ->
    ou_try_extend_t K U kd into (length ls0) (N.of_nat (length (concat ls0))) t n o
      (Z.of_nat (length (concat (ls0 ++ ls)))) w = (o', r', out, w') ->
    match out with
    | ODone => e = FStop /\ r' = r /\ Forall2 (fun c row => gives U c row FStop) cs rows /\
        exists ys, Forall2 lsim (map (map into) rows) ys /\ wtight o' (ls0 ++ ls ++ ys)
    | OErr => wtight o' ls0
    | OPanic => exists j ys, stopped cs rows e j /\ before cs rows j /\
        Forall2 lsim (firstn j (map (map into) rows)) ys /\ wof_rep o' (ls0 ++ ls ++ ys)
    | OAbort => False
    end.
  Proof.
    induction t as [|[[c| |] n'] t IH]; intros n o ls w cs e r rows o' r' out w' Ht;
      cbn [run_t ou_try_extend_t].
    - intros E1 Hc Hwt _ E2; inversion E1; inversion E2; subst. inversion Hc; subst.
      split; [reflexivity|]. split; [reflexivity|]. split; [constructor|].
      exists []. rewrite app_nil_r. split; [constructor|exact Ht].
    - destruct (run_t t n') as [[cs1 e1] r1] eqn:Hr. intros E1; inversion E1; subst; clear E1.
      intros Hc Hwt H0. inversion Hc as [|? row ? rows1 (f & Hg) Hc1]; subst. cbn [map] in Hwt.
      inversion Hwt as [|? ? Hl Hwt1]; subst. cbn [map].
      pose proof Ht as (T1 & T2 & T3 & T4 & T5).
      rewrite (as_usize_nat kd).
      assert (Hback : forall o1 (m1 : list Z) m2, w_inv d (of_data o1) -> vec_ok esz (of_offs o1) ->
        v_items (of_offs o1) = (0%Z :: ends 0 ls0) ++ m1 ->
        w_abs d (of_data o1) = concat ls0 ++ m2 ->
        forall oo ee, of_rollback K o1 (length ls0) (N.of_nat (length (concat ls0))) = (oo, ee) ->
        ee = OErr /\ wtight oo ls0).
      { intros o1 m1 m2 Q1 Q2 Q3 Q4 oo ee Q7. exact (wof_rollback _ _ _ L _ _ _ _ _ _ _ Q1 Q2 Q3 Q4 H0 Q7). }
      assert (Hz : v_items (of_offs o) = (0%Z :: ends 0 ls0) ++ ends (length (concat ls0)) ls).
      { rewrite T3, ends_app. reflexivity. }
      assert (Hd : w_abs d (of_data o) = concat ls0 ++ concat ls) by (rewrite T4; apply concat_app).
      pose proof Hg as (Hlen & _). rewrite Hlen.
      destruct (checked_add (N.of_nat (length (concat (ls0 ++ ls)))) (N.of_nat (length row))) as [u|] eqn:Ec.
      2:{ destruct (of_rollback K o (length ls0) (N.of_nat (length (concat ls0)))) as [oo ee] eqn:Eb.
          destruct (Hback o _ _ T1 T2 Hz Hd _ _ Eb) as (-> & ?).
          intros E; inversion E; subst. auto. }
      unfold checked_add in Ec.
      destruct (N.of_nat (length (concat (ls0 ++ ls))) + N.of_nat (length row) <=? usize_max)%N; [|discriminate].
      inversion Ec; subst u; clear Ec. unfold off_try_from.
      destruct (Z.of_N (N.of_nat (length (concat (ls0 ++ ls))) + N.of_nat (length row)) <=? omax kd)%Z eqn:E3.
      2:{ destruct (of_rollback K o (length ls0) (N.of_nat (length (concat ls0)))) as [oo ee] eqn:Eb.
          destruct (Hback o _ _ T1 T2 Hz Hd _ _ Eb) as (-> & ?).
          intros E; inversion E; subst. auto. }
      destruct (run_items c row f Hg) as (st & Est & Hrun). rewrite Est.
      destruct (k_try_extend K (of_data o) (ou_items K U into (length row) st) w) as [[[d2 u] o2] w2] eqn:Ex.
      pose proof (ww_try_extend _ _ _ L _ _ _ _ _ _ _ _ _ _ _ T1 Hl Hrun Ex) as X.
      destruct o2; try contradiction.
      + destruct X as (-> & _ & l' & Hs & (Y1 & Y3)).
        assert (Hpos : Z.of_N (N.of_nat (length (concat (ls0 ++ ls))) + N.of_nat (length row)) =
          Z.of_nat (length (concat (ls0 ++ ls ++ [l'])))).
        { rewrite app_assoc, concat_snoc, (app_length _ l'). pose proof (lsim_len _ _ _ _ Hs) as Hll.
          unfold lenN in Hll. rewrite map_length in Hll. lia. }
        rewrite Hpos in *.
        destruct (vec_try_extend (osz kd) (of_offs o)
          (it_list [Z.of_nat (length (concat (ls0 ++ ls ++ [l'])))]) w2) as [[[v3 u3] o3] w3] eqn:Ev.
        pose proof (vec_try_extend_spec _ _ _ _ _ _ _ _ _ _ _ T2 (run_list _) Ev) as (V1 & V2 & V4).
        destruct o3; try contradiction.
        * destruct V4 as (_ & _ & V4).
          assert (Ht' : wtight (Offsets d2 v3) (ls0 ++ ls ++ [l'])).
          { rewrite app_assoc in *. apply wtight_push with (o := o); auto. lia. }
          intros E.
          specialize (IH n' (Offsets d2 v3) (ls ++ [l']) w3 cs1 e r rows1 o' r' out w' Ht' Hr Hc1 Hwt1 H0 E).
          destruct out; try exact IH.
          -- destruct IH as (I1 & I2 & I5 & ys & I3 & I4). split; [exact I1|]. split; [exact I2|].
             split; [constructor; assumption|].
             exists (l' :: ys). split; [constructor; assumption|]. rewrite <- app_assoc in I4. exact I4.
          -- destruct IH as (j & ys & I1 & I5 & I3 & I4). exists (S j), (l' :: ys).
             split.
             { destruct I1 as [[-> ->]|(c1 & row1 & N1 & N2 & N3)].
               - left. split; reflexivity.
               - right. exists c1, row1. auto. }
             split; [constructor; assumption|]. split; [constructor; assumption|]. rewrite <- app_assoc in I4. exact I4.
        * destruct (of_rollback K (Offsets d2 v3) (length ls0) (N.of_nat (length (concat ls0))))
            as [oo ee] eqn:Eb.
          destruct (Hback (Offsets d2 v3) (ends (length (concat ls0)) ls) (concat ls ++ l'))
            with (5 := Eb) as (-> & ?); cbn [of_data of_offs]; auto.
          { rewrite V4. exact Hz. }
          { rewrite Y3, Hd, <- app_assoc. reflexivity. }
          intros E; inversion E; subst. auto.
        * destruct V4; discriminate.
      + destruct X as (Y1 & Y3).
        destruct (of_rollback K (Offsets d2 (of_offs o)) (length ls0) (N.of_nat (length (concat ls0))))
            as [oo ee] eqn:Eb.
        destruct (Hback (Offsets d2 (of_offs o)) (ends (length (concat ls0)) ls) (concat ls))
            with (5 := Eb) as (-> & ?); cbn [of_data of_offs]; auto.
        { congruence. }
        intros E; inversion E; subst. auto.
      + destruct X as (-> & k & ys & _ & (Z1 & Z2)).
        intros E; inversion E; subst. exists 0, []. split.
        { right. exists c, row. auto. }
        split; [constructor|]. split; [constructor|]. rewrite app_nil_r. unfold WeakList.wof_rep. cbn [of_data of_offs].
        split; [exact Z1|]. split; [exact T2|]. split; [exact T3|].
        split; [exists ys; rewrite Z2, T4; reflexivity|exact T5].
    - intros E1 Hc Hwt _ E2; inversion E1; inversion E2; subst. inversion Hc; subst.
      split; [reflexivity|]. split; [reflexivity|]. split; [constructor|].
      exists []. rewrite app_nil_r. split; [constructor|exact Ht].
    - intros E1 Hc Hwt _ E2; inversion E1; inversion E2; subst. inversion Hc; subst. exists 0, [].
      split; [left; auto|]. split; [constructor|]. split; [constructor|]. rewrite app_nil_r. exact (wtight_rep _ _ _ _ _ Ht).
  Qed.

  Local Notation wof := (woffsets K d kd).
  Lemma wou_extend {R} o (it : iter (cC U) R) cs e r rows o' r' out :
    w_inv wof o -> run it = (cs, e, r) ->
    Forall2 (fun c row => exists f, gives U c row f) cs rows ->
    Forall (Forall wt) (map (map into) rows) ->
    ou_extend K U kd into o it = (o', r', out) ->
    match out with
    | ODone => e = FStop /\ r' = r /\ Forall2 (fun c row => gives U c row FStop) cs rows /\
        exists ys, Forall2 (w_sim wof) (map (map into) rows) ys /\ grown wof o o' ys
    | OErr => False
    | OPanic => exists j ys, before cs rows j /\
        Forall2 (w_sim wof) (firstn j (map (map into) rows)) ys /\ grown wof o o' ys
    | OAbort => True
    end.
  Proof.
    intros Ho Hr Hc Hwt. pose proof (wof_inv_rep _ _ _ _ Ho) as Hrep.
    unfold ou_extend. rewrite (wof_last _ _ _ o _ Hrep), (as_usize_nat kd).
    destruct (wof_start _ _ _ L _ o _ Hrep) as (d1 & -> & Ht). intros E.
    pose proof (wou_extend_t _ _ _ _ _ _ _ _ _ _ _ Ht Hr Hc Hwt E) as H. destruct out; try exact H.
    + destruct H as (H1 & H2 & H5 & ys & H3 & H4). split; [exact H1|]. split; [exact H2|].
      split; [exact H5|].
      exists ys. split; [exact H3|]. exact (wof_grown _ _ _ _ _ _ _ Hrep (wtight_rep _ _ _ _ _ H4)).
    + destruct H as (k & ys & H5 & H3 & H4).
      exists k, ys. split; [exact H5|]. split; [exact H3|]. exact (wof_grown _ _ _ _ _ _ _ Hrep H4).
  Qed.
  Lemma wou_try_extend {R} o (it : iter (cC U) R) w cs e r rows o' r' out w' :
    w_inv wof o -> run it = (cs, e, r) ->
    Forall2 (fun c row => exists f, gives U c row f) cs rows ->
    Forall (Forall wt) (map (map into) rows) ->
    ou_try_extend K U kd into o it w = (o', r', out, w') ->
    match out with
    | ODone => e = FStop /\ r' = r /\ Forall2 (fun c row => gives U c row FStop) cs rows /\
        exists ys, Forall2 (w_sim wof) (map (map into) rows) ys /\ grown wof o o' ys
    | OErr => kept wof o o'
    | OPanic => exists j ys, stopped cs rows e j /\ before cs rows j /\
        Forall2 (w_sim wof) (firstn j (map (map into) rows)) ys /\ grown wof o o' ys
    | OAbort => False
    end.
  Proof.
    intros Ho Hr Hc Hwt. pose proof (wof_inv_rep _ _ _ _ Ho) as Hrep.
    unfold ou_try_extend. rewrite (wof_len _ _ _ o _ Hrep), (wof_last _ _ _ o _ Hrep), (as_usize_nat kd).
    destruct (wof_start _ _ _ L _ o _ Hrep) as (d1 & -> & Ht). intros E.
    pose proof Ht as (_ & _ & _ & _ & Hm).
    pose proof (wou_try_extend_t (wof_abs K d o) (it_tr it) (it_node it) (Offsets d1 (of_offs o)) [] w
      cs e r rows o' r' out w') as H.
    rewrite app_nil_r in H. specialize (H Ht Hr Hc Hwt Hm E). cbn [app] in H.
    destruct out; try exact H.
    + destruct H as (H1 & H2 & H5 & ys & H3 & H4). split; [exact H1|]. split; [exact H2|].
      split; [exact H5|].
      exists ys. split; [exact H3|]. exact (wof_grown _ _ _ _ _ _ _ Hrep (wtight_rep _ _ _ _ _ H4)).
    + apply wtight_rep in H. split; [eexists; exact H|].
      change (wof_abs K d o' = wof_abs K d o). rewrite (wof_rep_abs _ _ _ _ _ H). reflexivity.
    + destruct H as (j & ys & H1 & H5 & H3 & H4). exists j, ys. split; [exact H1|]. split; [exact H5|]. split; [exact H3|].
      exact (wof_grown _ _ _ _ _ _ _ Hrep H4).
  Qed.
End Owned.
