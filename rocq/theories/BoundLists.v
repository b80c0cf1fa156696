(** * How much memory the operations end up with, on fixed-size lists and lists *)
From Coq Require Import List NArith ZArith Bool Arith Lia ZifyBool ZifyNat ZifyN.
From Verif Require Import Base Iter Spec VecModel BitmapModel CollModel ValidityModel FlattenModel
  OffsetsModel LayoutModel IterLemmas VecLemmas RoomLemmas BitmapLemmas BitmapLemmas2 HonestLemmas
  Laws LawsBase LawsFlatten LawsValidity LawsOffsets LiveBase LiveLaws WeakLaws WeakNull WeakList
  MemoryLaws SpecBounds BoundBase BoundLaws.
Import ListNotations.

Local Arguments Nat.div : simpl never.
Local Arguments Nat.modulo : simpl never.
Local Arguments Nat.mul : simpl never.
Local Arguments N.add : simpl never.
Local Arguments N.mul : simpl never.
Local Arguments N.div : simpl never.
Local Arguments chunk : simpl never.
Local Arguments max_items : simpl never.
Local Arguments smallest : simpl never.

(** ** Fixed-size lists *)
Lemma Forall2_map2 {A} (f : A -> A) (P Q : A -> A -> Prop) :
  (forall x y, P x y -> Q (f x) (f y)) ->
  forall a b, Forall2 P a b -> Forall2 Q (map f a) (map f b).
Proof. intros H a b G. induction G; cbn [map]; constructor; auto. Qed.
Lemma rows_alike m x y : alike x y -> alike (rows_of m x) (rows_of m y).
Proof. intros [A B]. split; [exact A|]. cbn [rows_of b_takes]. rewrite B. reflexivity. Qed.
Section Flatten.
  Context (K : Coll) (wt : cA K -> Prop) (d : WD K) (L : WLaws K wt d) (n : nat) (Hn : 0 < n)
    (use : cC K -> list buffer) (tidy solid pre : cC K -> Prop).
  Definition fl_use (c : cC K) : list buffer := map (rows_of n) (use c).
  Local Notation fwt := ((fun x : list (cA K) => length x = n /\ Forall wt x)
    : cA (flatten_coll K n) -> Prop).

  Lemma rows_capd g a b : capd g a b -> capd g (map (rows_of n) a) (map (rows_of n) b).
  Proof. apply Forall2_map2. intros x y [A H]. split; [apply rows_alike; exact A|exact H]. Qed.
  Lemma rows_later g k a b : Forall2 (capped (later g (k * N.of_nat n))) a b ->
    Forall2 (capped (later g k)) (map (rows_of n) a) (map (rows_of n) b).
  Proof. apply Forall2_map2. intros x y [A H]. split; [apply rows_alike; exact A|exact H]. Qed.
  Lemma rows_fullr a b : fullr a b -> fullr (map (rows_of n) a) (map (rows_of n) b).
  Proof. apply Forall2_map2. intros x y H. exact H. Qed.
  Lemma rows_stdy a b : stdy a b -> stdy (map (rows_of n) a) (map (rows_of n) b).
  Proof. apply Forall2_map2. intros x y [A H]. split; [apply rows_alike; exact A|exact H]. Qed.

  Lemma fl_bounds g : Bounds K wt d use tidy solid pre g ->
    Bounds (flatten_coll K n) fwt (wflatten K d n) fl_use tidy solid pre g.
  Proof.
    intros B. split; [exact (bn_rising _ _ _ _ _ _ _ _ B)|exact (bn_least _ _ _ _ _ _ _ _ B)|].
    intros R c it xs r c' r' Hc Hq Hwt Hr Hh E.
    change (iter (list (cA K)) R) in it. change (list (list (cA K))) in xs.
    destruct (wfl_rows K wt n xs Hwt) as [Hrows Hwt'].
    destruct (bn_extend _ _ _ _ _ _ _ _ B R c _ _ _ _ _ Hc Hq Hwt' (run_flatten (N.of_nat n) _ _ _ _ Hr)
      (honest_rows K n it xs _ _ Hr Hrows Hh) E) as (H1 & H2 & H3 & H4).
    split; [exact (rows_capd _ _ _ H1)|]. split; [exact H2|]. split; [exact H3|].
    intros Ht. exact (rows_fullr _ _ (H4 Ht)).
  Qed.
  Lemma fl_try_bounds e : TryBounds K wt d use tidy pre e ->
    TryBounds (flatten_coll K n) fwt (wflatten K d n) fl_use tidy pre e.
  Proof.
    intros B. split. intros R c it w xs r c' r' w' Hc Hq Hw Hwt Hr Hh E.
    change (iter (list (cA K)) R) in it. change (list (list (cA K))) in xs.
    destruct (wfl_rows K wt n xs Hwt) as [Hrows Hwt'].
    destruct (tb_extend _ _ _ _ _ _ _ B R c _ _ _ _ _ _ _ Hc Hq Hw Hwt' (run_flatten (N.of_nat n) _ _ _ _ Hr)
      (honest_rows K n it xs _ _ Hr Hrows Hh) E) as (H0 & H1 & H2 & H4).
    split; [exact H0|]. split; [exact (rows_capd _ _ _ H1)|]. split; [exact H2|].
    intros Ht. exact (rows_fullr _ _ (H4 Ht)).
  Qed.
  Lemma fl_tidying : Tidying K d use tidy pre ->
    Tidying (flatten_coll K n) (wflatten K d n) fl_use tidy pre.
  Proof.
    intros T. split.
    - exact (ty_pre _ _ _ _ _ T).
    - intros c k c' o Hc E. change (fl_truncate K n c k = (c', o)) in E. revert E. unfold fl_truncate.
      assert (Hs : stdy (fl_use c) (fl_use c) /\ (tidy c -> tidy c) /\ (pre c -> pre c))
        by (split; [apply stdy_refl|auto]).
      destruct (fl_len K n c); [|intros E; injection E as <- _; exact Hs].
      destruct (k <? N.of_nat _)%N; [|intros E; injection E as <- _; exact Hs].
      destruct (strict_mul k (N.of_nat n)); [|intros E; injection E as <- _; exact Hs].
      intros E. destruct (ty_truncate _ _ _ _ _ T _ _ _ _ Hc E) as (H1 & H2).
      split; [exact (rows_stdy _ _ H1)|exact H2].
    - intros c k c' o Hc _ Hk E. change (fl_truncate K n c k = (c', o)) in E. revert E. unfold fl_truncate.
      rewrite (wfl_len K wt d L n Hn c Hc). change (lenN (wfl_abs K d n c) <= k)%N in Hk. unfold lenN in Hk.
      destruct (N.ltb_spec k (N.of_nat (length (wfl_abs K d n c)))); [lia|].
      intros E. injection E as <- _. reflexivity.
  Qed.
  Lemma fl_rooms : Rooms K d use tidy -> Rooms (flatten_coll K n) (wflatten K d n) fl_use tidy.
  Proof.
    intros M. split.
    - intros c k c' Hc E. change (fl_reserve K n c k = (c', ODone)) in E. unfold fl_reserve in E.
      unfold strict_mul in E. destruct (_ <=? _)%N; [|discriminate].
      destruct (rm_reserve _ _ _ _ M _ _ _ Hc E) as (H1 & H2 & H3).
      split; [exact (rows_later _ _ _ _ H1)|]. split; [exact (rows_fullr _ _ H2)|exact H3].
    - intros c k w e c' w' Hc Hw E. change (fl_try_reserve K n c k w = (c', ODone, w')) in E.
      unfold fl_try_reserve, checked_mul in E. destruct (_ <=? _)%N; [|discriminate].
      destruct (rm_try_reserve _ _ _ _ M _ _ _ _ _ _ Hc Hw E) as (H1 & H2).
      split; [exact H1|exact (rows_later _ _ _ _ H2)].
  Qed.
  Lemma fl_fits : Fits K d use solid -> Fits (flatten_coll K n) (wflatten K d n) fl_use solid.
  Proof.
    intros F c k Hc Hs Hk. change (k <= lenN (chunks n (w_abs d c)))%N in Hk.
    unfold lenN in Hk. rewrite chunks_length in Hk.
    pose proof (Nat.div_mod_eq (length (w_abs d c)) n) as D.
    assert (Hl : (k * N.of_nat n <= lenN (w_abs d c))%N) by (unfold lenN; nia).
    pose proof (F c _ Hc Hs Hl) as H. unfold fl_use. induction H; cbn [map]; constructor; auto.
  Qed.
End Flatten.

(** ** Lists *)
Section Lists.
  Context (K : Coll) (wt : cA K -> Prop) (d : WD K) (L : WLaws K wt d) (kd : okind)
    (use : cC K -> list buffer) (tidy solid pre : cC K -> Prop).
  Definition ends_use (v : vec Z) : buffer := Buffer (osz kd) (v_cap v) (lenN (v_items v)) (fun n => n).
  Definition of_use (o : offsets (cC K)) : list buffer := use (of_data o) ++ [ends_use (of_offs o)].
  Definition of_tidy (o : offsets (cC K)) : Prop :=
    tidy (of_data o) /\ length (w_abs d (of_data o)) = length (concat (wof_abs K d o)).
  Definition of_pre (o : offsets (cC K)) : Prop := tidy (of_data o).
  Context (T : Tidying K d use tidy pre).

  Lemma of_tidying : Tidying (offsets_coll K kd) (woffsets K d kd) of_use of_tidy of_pre.
  Proof.
    split.
    - intros o [H _]. exact H.
    - intros o n o' e Ho E. change (offsets (cC K)) in o, o'. change (of_truncate K o n = (o', e)) in E.
      change (wof_inv K d kd o) in Ho.
      destruct (ww_truncate _ _ _ (woffsets_laws K wt d L kd) o n Ho) as (o1 & E1 & I1 & A1).
      change (of_truncate K o n = (o1, ODone)) in E1. rewrite E in E1. injection E1 as <- ->.
      change (wof_inv K d kd o') in I1. change (wof_abs K d o' = firstn (N.to_nat n) (wof_abs K d o)) in A1.
      pose proof (wof_inv_rep K d kd o Ho) as Hrep. set (ls := wof_abs K d o) in *.
      revert E. unfold of_truncate. rewrite (wof_len K d kd o ls Hrep).
      destruct (N.ltb_spec n (N.of_nat (length ls))) as [Hlt|Hge].
      2:{ intros E. injection E as <-. split; [apply stdy_refl|auto]. }
      assert (Hnn : n = N.of_nat (N.to_nat n)) by lia.
      unfold vec_view. rewrite Hnn at 1. rewrite nth_N_nat, (wof_nth K d kd o ls) by (auto; lia).
      rewrite (as_usize_nat kd).
      destruct (k_truncate K (of_data o) _) as [d1 e1] eqn:Ek. intros E. injection E as <- ->.
      pose proof Hrep as (H1 & _ & _ & (rest & H4) & _).
      destruct (ty_truncate _ _ _ _ _ T _ _ _ _ H1 Ek) as (T1 & T2 & _).
      unfold of_use, of_tidy, of_pre. cbn [of_data of_offs]. split; [|split; [|exact T2]].
      + apply Forall2_app; [exact T1|]. apply one. split; [split; reflexivity|].
        apply vec_truncate_cap.
      + intros [G1 G2]. split; [exact (T2 G1)|]. rewrite A1.
        destruct (ww_truncate _ _ _ L (of_data o) (N.of_nat (length (concat (firstn (N.to_nat n) ls)))) H1)
          as (d2 & E2 & _ & A2). rewrite Ek in E2. injection E2 as <-.
        rewrite A2, Nat2N.id, firstn_length. apply Nat.min_l. rewrite G2. fold ls.
        pose proof (f_equal (@length _) (concat_firstn_skipn (N.to_nat n) ls)) as Hsum.
        rewrite app_length in Hsum. lia.
    - intros o n o' e Ho _ Hn E. change (offsets (cC K)) in o, o'. change (of_truncate K o n = (o', e)) in E.
      change (wof_inv K d kd o) in Ho. change (lenN (wof_abs K d o) <= n)%N in Hn.
      pose proof (wof_inv_rep K d kd o Ho) as Hrep. revert E. unfold of_truncate.
      rewrite (wof_len K d kd o _ Hrep). unfold lenN in Hn.
      destruct (N.ltb_spec n (N.of_nat (length (wof_abs K d o)))); [lia|].
      intros E. injection E as <- _. reflexivity.
  Qed.

  Lemma of_rooms : Rooms K d use tidy -> Rooms (offsets_coll K kd) (woffsets K d kd) of_use of_tidy.
  Proof.
    intros M. split.
    - intros o n o' Ho E. change (offsets (cC K)) in o, o'. change (of_reserve K kd o n = (o', ODone)) in E.
      change (wof_inv K d kd o) in Ho. unfold of_reserve in E.
      destruct (k_reserve K (of_data o) n) as [d1 o1] eqn:E1. destruct o1; try discriminate.
      destruct (vec_reserve (osz kd) (of_offs o) n) as [v2 o2] eqn:E2. injection E as <- ->.
      pose proof (wof_inv_rep K d kd o Ho) as Hrep. pose proof Hrep as (H1 & _).
      destruct (rm_reserve _ _ _ _ M _ _ _ H1 E1) as (P1 & P2 & P3).
      destruct (ww_reserve _ _ _ L _ _ _ _ H1 E1) as [[_ Hk] _].
      apply vec_reserve_bound in E2. destruct E2 as [Hi Hc].
      unfold of_use, of_tidy, wof_abs. cbn [of_data of_offs]. rewrite Hi, Hk. split; [|split].
      + apply Forall2_app; [exact P1|]. apply one. split; [split; reflexivity|].
        unfold later, ends_use. cbn [b_cap b_size b_used b_takes]. rewrite Hi. exact Hc.
      + apply Forall2_app; [exact P2|]. apply one. unfold fuller, ends_use. cbn [b_used].
        rewrite Hi. apply N.le_refl.
      + intros [G1 G2]. split; [exact (P3 G1)|exact G2].
    - intros o n w e o' w' Ho Hw E. change (offsets (cC K)) in o, o'.
      change (of_try_reserve K kd o n w = (o', ODone, w')) in E.
      change (wof_inv K d kd o) in Ho. unfold of_try_reserve in E.
      destruct (k_try_reserve K (of_data o) n w) as [[d1 o1] w1] eqn:E1. destruct o1; try discriminate.
      destruct (vec_try_reserve (osz kd) (of_offs o) n w1) as [[v2 o2] w2] eqn:E2. injection E as <- -> <-.
      pose proof (wof_inv_rep K d kd o Ho) as Hrep. pose proof Hrep as (H1 & _).
      destruct (rm_try_reserve _ _ _ _ M _ _ _ _ _ _ H1 Hw E1) as (Hw1 & P1).
      apply (vec_try_reserve_bound _ _ _ _ _ _ _ _ Hw1) in E2. destruct E2 as (Hi & Hw2 & Hc).
      split; [exact Hw2|]. unfold of_use. cbn [of_data of_offs].
      apply Forall2_app; [exact P1|]. apply one. split; [split; reflexivity|].
      unfold later, ends_use, granted. cbn [b_cap b_size b_used b_takes]. rewrite Hi. exact Hc.
  Qed.

  Lemma Forall2_right {A} (P : A -> A -> Prop) (Q : A -> Prop) a b :
    Forall2 P a b -> Forall Q b -> Forall2 (fun x y => P x y /\ Q y) a b.
  Proof.
    intros H. induction H; intros G; constructor.
    - split; [assumption|exact (Forall_inv G)].
    - apply IHForall2. exact (Forall_inv_tail G).
  Qed.
  (** Reserving for a list and pushing it. *)
  Lemma reserve_extend n a b c :
    Forall2 (capped (later (multiple 2) n)) a b -> fullr b c -> capd (multiple 2) b c ->
    Forall (fun y => (b_takes y n <= b_used y)%N) c -> capd (multiple 4) a c.
  Proof.
    intros H1 H2 H3 H4. pose proof (Forall2_right _ _ _ _ H2 H4) as H5.
    refine (Forall2_comp3 _ _ _ _ _ _ _ _ H1 H5 H3).
    intros x y z [A1 C1] [F G] [A2 C2]. split; [exact (alike_trans _ _ _ A1 A2)|].
    unfold later, now, multiple, fuller in *. destruct A2 as [Hs Ht]. rewrite Hs, Ht in *. lia.
  Qed.
  Lemma ends_capped g (v v' : vec Z) : (forall e u, (multiple 2 e u <= g e u)%N) ->
    (v_cap v' <= N.max (v_cap v) (multiple 2 (osz kd) (lenN (v_items v'))))%N ->
    capped (now g) (ends_use v) (ends_use v').
  Proof.
    intros Hg H. split; [split; reflexivity|]. unfold now, ends_use. cbn [b_cap b_size b_used].
    pose proof (Hg (osz kd) (lenN (v_items v'))). lia.
  Qed.

  Section Extend.
    Context (B : Bounds K wt d use tidy solid pre (multiple 2)) (M : Rooms K d use tidy)
      (F : Fits K d use solid).
    Lemma four e u : (multiple 2 e u <= multiple 4 e u)%N.
    Proof. apply multiple_le. lia. Qed.
    Lemma of_loop_bound {R} : forall (t : trace (list (cA K)) R) n o ls xs r o' r',
      wtight K d kd o ls -> tidy (of_data o) -> Forall (Forall wt) xs -> run_t t n = (xs, FStop, r) ->
      of_extend_t K kd t n o (Z.of_nat (length (concat ls))) = (o', r', ODone) ->
      capd (multiple 4) (of_use o) (of_use o') /\ of_tidy o' /\ fullr (of_use o) (of_use o').
    Proof.
      induction t as [|[[l| |] n'] t IH]; intros n o ls xs r o' r' Ht Hd Hwt;
        cbn [run_t of_extend_t].
      - intros E1 E2. injection E2 as <- _. split; [apply capd_refl|]. split; [|apply fullr_refl].
        split; [exact Hd|]. rewrite (wof_rep_abs K d kd o ls (wtight_rep K d kd o ls Ht)).
        destruct Ht as (_ & _ & _ & -> & _). reflexivity.
      - destruct (run_t t n') as [[xs1 e1] r1] eqn:Hr. intros E1. injection E1 as <- -> <-.
        pose proof (Forall_inv Hwt) as Hl. apply Forall_inv_tail in Hwt.
        pose proof Ht as (T1 & T2 & T3 & T4 & T5).
        unfold off_try_from. destruct (Z.of_N (lenN l) <=? omax kd)%Z; [|discriminate].
        unfold off_strict_add.
        destruct ((omin kd <=? Z.of_nat (length (concat ls)) + Z.of_N (lenN l)) &&
                  (Z.of_nat (length (concat ls)) + Z.of_N (lenN l) <=? omax kd))%Z eqn:E3; [|discriminate].
        destruct (k_reserve K (of_data o) (lenN l)) as [d1 o1] eqn:Er. destruct o1; try discriminate.
        destruct (ww_reserve _ _ _ L _ _ _ _ T1 Er) as ((R1 & R3) & _).
        destruct (rm_reserve _ _ _ _ M _ _ _ T1 Er) as (M1 & M2 & M3). specialize (M3 Hd).
        destruct (k_extend K d1 (it_list l)) as [[d2 u] o2] eqn:Ex. destruct o2; try discriminate.
        pose proof (ww_extend _ _ _ L _ d1 _ _ _ _ _ _ _ R1 Hl (run_list l) Ex)
          as (_ & _ & l' & Hs & (Y1 & Y3)).
        destruct (bn_extend _ _ _ _ _ _ _ _ B _ _ _ _ _ _ _ R1 (ty_pre _ _ _ _ _ T _ M3) Hl (run_list l)
          (honest_list l) Ex) as (X1 & X2 & X3 & X4). specialize (X4 M3).
        pose proof (lsim_len K d _ _ Hs) as Hll.
        assert (Hfit : Forall (fun y => (b_takes y (lenN l) <= b_used y)%N) (use d2)).
        { apply (F d2 (lenN l) Y1 X3). rewrite Y3, lenN_app. lia. }
        pose proof (reserve_extend _ _ _ _ M1 X4 X1 Hfit) as D1.
        pose proof (fullr_trans _ _ _ M2 X4) as D2.
        assert (Hpos : (Z.of_nat (length (concat ls)) + Z.of_N (lenN l) =
          Z.of_nat (length (concat (ls ++ [l']))))%Z).
        { rewrite concat_snoc, app_length. unfold lenN in *. lia. }
        rewrite Hpos in *.
        destruct (vec_extend (osz kd) (of_offs o)
          (it_list [Z.of_nat (length (concat (ls ++ [l'])))])) as [[v3 u3] o3] eqn:Ev.
        pose proof (vec_extend_spec _ _ _ _ _ _ _ _ _ T2 (run_list _) Ev) as (V1 & V2 & _ & V4).
        destruct o3; try discriminate. destruct V4 as (_ & _ & V4).
        destruct (vec_extend_bound _ _ _ _ _ _ _ _ _ (run_list _) (honest_list _) Ev) as [W1 W2].
        assert (Ht' : wtight K d kd (Offsets d2 v3) (ls ++ [l'])).
        { apply wtight_push with (o := o); auto; [|lia]. congruence. }
        intros E. destruct (IH n' (Offsets d2 v3) (ls ++ [l']) xs1 r1 o' r' Ht' X2 Hwt Hr E)
          as (I1 & I2 & I3).
        assert (J1 : capd (multiple 4) (of_use o) (of_use (Offsets d2 v3))).
        { apply Forall2_app; [exact D1|]. apply one. apply (ends_capped _ _ _ four W2). }
        assert (J2 : fullr (of_use o) (of_use (Offsets d2 v3))).
        { apply Forall2_app; [exact D2|]. apply one. unfold fuller, ends_use. cbn [b_used of_offs]. lia. }
        split; [exact (capd_trans _ _ _ _ (rising_multiple 4) J1 I3 I1)|].
        split; [exact I2|]. exact (fullr_trans _ _ _ J2 I3).
      - intros E1 E2. injection E2 as <- _. split; [apply capd_refl|]. split; [|apply fullr_refl].
        split; [exact Hd|]. rewrite (wof_rep_abs K d kd o ls (wtight_rep K d kd o ls Ht)).
        destruct Ht as (_ & _ & _ & -> & _). reflexivity.
      - discriminate.
    Qed.
    Lemma of_bounds : Bounds (offsets_coll K kd) (Forall wt : cA (offsets_coll K kd) -> Prop)
      (woffsets K d kd) of_use of_tidy any of_pre (multiple 4).
    Proof.
      split; [apply rising_multiple|exact four|].
      intros R o it xs r o' r' Ho Hq Hwt Hr _ E.
      change (offsets (cC K)) in o, o'. change (iter (list (cA K)) R) in it.
      change (list (list (cA K))) in xs. pose proof (wof_inv_rep K d kd o Ho) as Hrep.
      change (tidy (of_data o)) in Hq.
      change (of_extend K kd o it = (o', r', ODone)) in E. unfold of_extend in E.
      rewrite (wof_last K d kd o _ Hrep), (as_usize_nat kd) in E.
      destruct (wof_start K wt d L kd o _ Hrep) as (d1 & Et & Ht). rewrite Et in E.
      pose proof Hrep as (H1 & _).
      destruct (ty_truncate _ _ _ _ _ T _ _ _ _ H1 Et) as (T1 & T2 & _).
      destruct (of_loop_bound _ _ _ _ _ _ _ _ Ht (T2 Hq) Hwt Hr E) as (I1 & I2 & I3).
      assert (J : stdy (of_use o) (of_use (Offsets d1 (of_offs o)))).
      { apply Forall2_app; [exact T1|]. apply one. apply steady_refl. }
      split; [exact (stdy_capd _ _ _ _ J I1)|]. split; [exact I2|]. split; [exact I|].
      intros [G1 G2]. assert (Hs : use d1 = use (of_data o)).
      { apply (ty_still _ _ _ _ _ T _ _ _ _ H1 G1) in Et; [exact Et|]. unfold lenN. lia. }
      assert (Hu : of_use (Offsets d1 (of_offs o)) = of_use o).
      { unfold of_use. cbn [of_data of_offs]. rewrite Hs. reflexivity. }
      rewrite <- Hu. exact I3.
    Qed.
  End Extend.

  Section TryExtend.
    Context (e : N) (B : TryBounds K wt d use tidy pre e).
    Lemma of_try_loop_bound {R} ls0 : forall (t : trace (list (cA K)) R) n o ls w xs r o' r' w',
      wtight K d kd o (ls0 ++ ls) -> tidy (of_data o) -> modest e w ->
      Forall (Forall wt) xs -> run_t t n = (xs, FStop, r) ->
      of_try_extend_t K kd (length ls0) (N.of_nat (length (concat ls0))) t n o
        (Z.of_nat (length (concat (ls0 ++ ls)))) w = (o', r', ODone, w') ->
      modest e w' /\ capd (granted e) (of_use o) (of_use o') /\ of_tidy o' /\
      fullr (of_use o) (of_use o').
    Proof.
      induction t as [|[[l| |] n'] t IH]; intros n o ls w xs r o' r' w' Ht Hd Hw Hwt;
        cbn [run_t of_try_extend_t].
      - intros E1 E2. injection E2 as <- _ <-. split; [exact Hw|]. split; [apply capd_refl|].
        split; [|apply fullr_refl].
        split; [exact Hd|]. rewrite (wof_rep_abs K d kd o _ (wtight_rep K d kd o _ Ht)).
        destruct Ht as (_ & _ & _ & -> & _). reflexivity.
      - destruct (run_t t n') as [[xs1 e1] r1] eqn:Hr. intros E1. injection E1 as <- -> <-.
        pose proof (Forall_inv Hwt) as Hl. apply Forall_inv_tail in Hwt.
        pose proof Ht as (T1 & T2 & T3 & T4 & T5).
        assert (Hroll : forall oo rr ww, (let '(o1, e1) := of_rollback K oo (length ls0)
          (N.of_nat (length (concat ls0))) in (o1, rr, e1, ww)) = (o', r', ODone, w') -> False).
        { intros oo rr ww. unfold of_rollback. destruct (k_truncate K _ _) as [dd ee].
          destruct ee; discriminate. }
        rewrite (as_usize_nat kd). unfold checked_add.
        destruct (N.of_nat (length (concat (ls0 ++ ls))) + lenN l <=? usize_max)%N;
          [|intros E; destruct (Hroll _ _ _ E)].
        unfold off_try_from.
        destruct (Z.of_N (N.of_nat (length (concat (ls0 ++ ls))) + lenN l) <=? omax kd)%Z eqn:E3;
          [|intros E; destruct (Hroll _ _ _ E)].
        destruct (k_try_extend K (of_data o) (it_list l) w) as [[[d2 u] o2] w2] eqn:Ex.
        destruct o2; try discriminate; [|intros E; destruct (Hroll _ _ _ E)].
        pose proof (ww_try_extend _ _ _ L _ _ _ _ _ _ _ _ _ _ _ T1 Hl (run_list l) Ex)
          as (_ & _ & l' & Hs & (Y1 & Y3)).
        destruct (tb_extend _ _ _ _ _ _ _ B _ _ _ _ _ _ _ _ _ T1 (ty_pre _ _ _ _ _ T _ Hd) Hw Hl (run_list l)
          (honest_list l) Ex) as (X0 & X1 & X2 & X4). specialize (X4 Hd).
        pose proof (lsim_len K d _ _ Hs) as Hll.
        assert (Hpos : Z.of_N (N.of_nat (length (concat (ls0 ++ ls))) + lenN l) =
          Z.of_nat (length (concat (ls0 ++ ls ++ [l'])))).
        { rewrite app_assoc, concat_snoc, (app_length _ l'). unfold lenN in *. lia. }
        rewrite Hpos in *.
        destruct (vec_try_extend (osz kd) (of_offs o)
          (it_list [Z.of_nat (length (concat (ls0 ++ ls ++ [l'])))]) w2) as [[[v3 u3] o3] w3] eqn:Ev.
        pose proof (vec_try_extend_spec _ _ _ _ _ _ _ _ _ _ _ T2 (run_list _) Ev) as (V1 & V2 & V4).
        destruct o3; try discriminate; [|intros E; destruct (Hroll _ _ _ E)].
        destruct V4 as (_ & _ & V4).
        destruct (vec_try_extend_bound _ _ _ _ _ _ _ _ _ _ _ _ X0 (run_list _) (honest_list _) Ev)
          as (W0 & W1 & W2).
        assert (Ht' : wtight K d kd (Offsets d2 v3) (ls0 ++ ls ++ [l'])).
        { rewrite app_assoc in *. apply wtight_push with (o := o); auto. lia. }
        intros E. destruct (IH n' (Offsets d2 v3) (ls ++ [l']) w3 xs1 r1 o' r' w' Ht' X2 W0 Hwt Hr E)
          as (I0 & I1 & I2 & I3).
        assert (J1 : capd (granted e) (of_use o) (of_use (Offsets d2 v3))).
        { apply Forall2_app; [exact X1|]. apply one. split; [split; reflexivity|]. exact W2. }
        assert (J2 : fullr (of_use o) (of_use (Offsets d2 v3))).
        { apply Forall2_app; [exact X4|]. apply one. unfold fuller, ends_use. cbn [b_used of_offs]. lia. }
        split; [exact I0|].
        split; [exact (capd_trans _ _ _ _ (rising_granted e) J1 I3 I1)|].
        split; [exact I2|]. exact (fullr_trans _ _ _ J2 I3).
      - intros E1 E2. injection E2 as <- _ <-. split; [exact Hw|]. split; [apply capd_refl|].
        split; [|apply fullr_refl].
        split; [exact Hd|]. rewrite (wof_rep_abs K d kd o _ (wtight_rep K d kd o _ Ht)).
        destruct Ht as (_ & _ & _ & -> & _). reflexivity.
      - discriminate.
    Qed.
    Lemma of_try_bounds : TryBounds (offsets_coll K kd) (Forall wt : cA (offsets_coll K kd) -> Prop)
      (woffsets K d kd) of_use of_tidy of_pre e.
    Proof.
      split. intros R o it w xs r o' r' w' Ho Hq Hw Hwt Hr _ E.
      change (offsets (cC K)) in o, o'. change (iter (list (cA K)) R) in it.
      change (list (list (cA K))) in xs. pose proof (wof_inv_rep K d kd o Ho) as Hrep.
      change (tidy (of_data o)) in Hq.
      change (of_try_extend K kd o it w = (o', r', ODone, w')) in E. unfold of_try_extend in E.
      rewrite (wof_len K d kd o _ Hrep), (wof_last K d kd o _ Hrep), (as_usize_nat kd) in E.
      destruct (wof_start K wt d L kd o _ Hrep) as (d1 & Et & Ht). rewrite Et in E.
      pose proof Hrep as (H1 & _).
      destruct (ty_truncate _ _ _ _ _ T _ _ _ _ H1 Et) as (T1 & T2 & _).
      pose proof (of_try_loop_bound (wof_abs K d o) (it_tr it) (it_node it) (Offsets d1 (of_offs o)) []) as Q.
      rewrite app_nil_r in Q. destruct (Q _ _ _ _ _ _ Ht (T2 Hq) Hw Hwt Hr E) as (I0 & I1 & I2 & I3).
      assert (J : stdy (of_use o) (of_use (Offsets d1 (of_offs o)))).
      { apply Forall2_app; [exact T1|]. apply one. apply steady_refl. }
      split; [exact I0|]. split; [exact (stdy_capd _ _ _ _ J I1)|]. split; [exact I2|].
      intros [G1 G2]. assert (Hs : use d1 = use (of_data o)).
      { apply (ty_still _ _ _ _ _ T _ _ _ _ H1 G1) in Et; [exact Et|]. unfold lenN. lia. }
      assert (Hu : of_use (Offsets d1 (of_offs o)) = of_use o).
      { unfold of_use. cbn [of_data of_offs]. rewrite Hs. reflexivity. }
      rewrite <- Hu. exact I3.
    Qed.
  End TryExtend.
End Lists.
