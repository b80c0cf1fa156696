(** * Reserved room after arbitrary panics

    [WLive K wt d can rsv] is [Live] of [LiveLaws.v] on the collections of
    [WLaws], for the case that the room is there already. *)
From Coq Require Import List NArith ZArith Bool Arith Lia ZifyBool ZifyNat ZifyN.
From Verif Require Import Base Iter Spec VecModel BitmapModel CollModel ValidityModel FlattenModel
  OffsetsModel IterLemmas VecLemmas BitmapLemmas BitmapLemmas2 HonestLemmas Laws LawsBase
  LawsFlatten LawsValidity LawsOffsets LiveBase LiveLaws WeakLaws WeakNull WeakList.
Import ListNotations.

Local Arguments Nat.div : simpl never.
Local Arguments Nat.modulo : simpl never.
Local Arguments Nat.mul : simpl never.
Local Arguments N.add : simpl never.
Local Arguments N.mul : simpl never.
Local Arguments chunk : simpl never.
Local Arguments max_items : simpl never.
Local Opaque chunk.

Record WLive (K : Coll) (wt : cA K -> Prop) (d : WD K) (can : cC K -> list (cA K) -> Prop)
  (rsv : cC K -> N -> list (cA K) -> Prop) : Prop := {
  wl_try_extend : forall R c (it : iter (cA K) R) w xs ys r,
    w_inv d c -> Forall wt xs -> run it = (xs, FStop, r) -> honest it ->
    can c (xs ++ ys) ->
    exists c' r' w', k_try_extend K c it w = (c', r', ODone, w') /\ can c' ys;
  wl_truncate : forall c n c' xs, w_inv d c -> can c xs -> k_truncate K c n = (c', ODone) ->
    can c' xs;
  wl_reserve : forall c n w c' w' xs, w_inv d c ->
    k_try_reserve K c n w = (c', ODone, w') -> rsv c n xs -> can c' xs;
}.

Lemma weak_live K D can rsv : Live K D true can rsv -> WLive K (l_wt D) (weak D) can rsv.
Proof.
  intros V. split; cbn [weak w_inv].
  - intros R c it w xs ys r Hc Hwt Hr Hh Hx.
    destruct (lv_try_extend _ _ _ _ _ V R c it w xs ys r Hc Hwt Hr Hh (or_introl eq_refl) Hx)
      as (c' & r' & w' & E & _ & Hy). eauto.
  - apply (lv_truncate _ _ _ _ _ V).
  - apply (lv_reserve _ _ _ _ _ V eq_refl).
Qed.

(** ** Nullable collections *)
Section Null.
  Context (K : Coll) (wt : cA K -> Prop) (d : WD K) (L : WLaws K wt d)
    (can : cC K -> list (cA K) -> Prop) (rsv : cC K -> N -> list (cA K) -> Prop)
    (V : WLive K wt d can rsv).

  Lemma wva_try_loop_live {R} : forall fuel len c b (it : iter (option (cA K)) R) w os ys r,
    w_inv d c -> bm_ok b -> Forall wt (map (dflt K) os) -> run it = (os, FStop, r) ->
    honest it -> length (it_tr it) < fuel ->
    can c (map (dflt K) os ++ ys) -> bm_can true b (lenN os + lenN ys) ->
    exists c' b' r' w', va_try_extend_loop K fuel len c b it w = (c', b', r', ODone, w') /\
      can c' ys /\ bm_can true b' (lenN ys).
  Proof.
    induction fuel as [|fuel IH]; intros len c b it w os ys r Hc Hb Hwt Hr Hh Hf Hx Hy; [lia|].
    cbn [va_try_extend_loop]. pose proof (honest_va_chunk K it Hh) as Hhc.
    destruct (va_chunk_run K it os FStop r Hr) as (it' & [(Hle & Hrc & Hr' & Hlen)|(Hlt & Hrc & Hsrc)]).
    - pose proof (honest_va_rest K it it' _ _ _ _ _ _ Hh Hr Hle Hrc) as Hh'.
      set (os1 := firstn chunk os) in *. set (os2 := skipn chunk os) in *.
      assert (Hos : os = os1 ++ os2) by (symmetry; apply firstn_skipn).
      assert (Hl1 : length os1 = chunk) by (unfold os1; rewrite firstn_length; lia).
      clearbody os1 os2. subst os. rewrite map_app in Hwt, Hx. apply Forall_app in Hwt.
      destruct Hwt as [Hw1 Hw2]. rewrite <- app_assoc in Hx.
      destruct (wl_try_extend _ _ _ _ _ V _ c (va_chunk K it) w _ _ _ Hc Hw1 Hrc Hhc Hx)
        as (c1 & [it1 vs] & w1 & E1 & Hx1).
      rewrite E1.
      pose proof (ww_try_extend _ _ _ L _ c _ _ _ _ _ _ _ _ _ Hc Hw1 Hrc E1) as (_ & Ep & zs & _ & [G _]).
      injection Ep as -> ->.
      rewrite lenN_app, <- N.add_assoc in Hy.
      assert (Hlm : lenN (map is_some os1) = lenN os1) by (unfold lenN; rewrite map_length; auto).
      rewrite <- Hlm in Hy.
      destruct (bm_can_extend true b _ w1 _ _ _ Hb (run_list (map is_some os1)) (honest_list _)
        (or_introl eq_refl) Hy) as (b1 & ru & w2 & E2 & _ & Hy1).
      rewrite E2. pose proof (bm_try_extend_list _ _ _ _ _ _ _ Hb E2) as (S1 & _).
      rewrite map_length, Hl1, Nat.ltb_irrefl.
      apply (IH len c1 b1 it' w2 os2 ys r); auto; lia.
    - destruct (wl_try_extend _ _ _ _ _ V _ c (va_chunk K it) w _ _ _ Hc Hwt Hrc Hhc Hx)
        as (c1 & [it1 vs] & w1 & E1 & Hx1).
      rewrite E1.
      pose proof (ww_try_extend _ _ _ L _ c _ _ _ _ _ _ _ _ _ Hc Hwt Hrc E1) as (_ & Ep & zs & _ & [G _]).
      injection Ep as -> ->.
      assert (Hlm : lenN (map is_some os) = lenN os) by (unfold lenN; rewrite map_length; auto).
      rewrite <- Hlm in Hy.
      destruct (bm_can_extend true b _ w1 _ _ _ Hb (run_list (map is_some os)) (honest_list _)
        (or_introl eq_refl) Hy) as (b1 & ru & w2 & E2 & _ & Hy1).
      rewrite E2, map_length.
      assert (Nat.ltb (length os) chunk = true) as -> by (apply Nat.ltb_lt; auto).
      do 4 eexists. split; [reflexivity|]. auto.
  Qed.

  Lemma wvalidity_live : WLive (validity_coll K) (owt K wt : cA (validity_coll K) -> Prop)
    (wvalidity K d) (va_can K can) (va_rsv K rsv).
  Proof.
    split.
    - intros R v it w os ys r Hv Hwt Hr Hh (b & Hb & Hx & Hy).
      change (validity (cC K)) in v. change (iter (option (cA K)) R) in it.
      change (list (option (cA K))) in os, ys. change (wva_inv K d v) in Hv.
      apply (wva_wt K wt d L) in Hwt.
      change (exists v' r' w', va_try_extend K v it w = (v', r', ODone, w') /\ va_can K can v' ys).
      unfold va_try_extend. rewrite (wva_len K wt d L v Hv).
      unfold va_try_materialize. rewrite Hb.
      pose proof (wprep_self K d v b Hv Hb) as Hp.
      destruct (wprep_ready K wt d L v v b (length (wva_abs K d v)) Hp) as (c2 & Et & Hrd).
      { rewrite (wva_abs_length K d v Hv). unfold wva_bits. rewrite Hb. reflexivity. }
      rewrite Hb, Et. rewrite map_app in Hx. rewrite lenN_app in Hy.
      assert (Hx2 : can c2 (map (dflt K) os ++ map (dflt K) ys)).
      { apply (wl_truncate _ _ _ _ _ V _ _ _ _ (proj1 Hv) Hx Et). }
      assert (Hly : lenN (map (dflt K) ys) = lenN ys) by (unfold lenN; rewrite map_length; auto).
      rewrite <- Hly in Hy. pose proof Hrd as (R1 & R2 & _).
      destruct (wva_try_loop_live (S (length (it_tr it))) (length (wva_abs K d v)) c2 b it w
        os (map (dflt K) ys) r R1 R2 Hwt Hr Hh (Nat.lt_succ_diag_r _) Hx2 Hy)
        as (c3 & b3 & r3 & w3 & E & Hc3 & Hb3).
      rewrite E. do 3 eexists. split; [reflexivity|].
      exists b3. cbn [va_bm va_coll]. rewrite Hly in Hb3. auto.
    - intros v n v' os Hv (b & Hb & Hx & Hy).
      change (validity (cC K)) in v, v'. change (list (option (cA K))) in os.
      change (wva_inv K d v) in Hv. change (va_truncate K v n = (v', ODone) -> va_can K can v' os).
      unfold va_truncate. rewrite Hb. cbn [option_map].
      destruct (k_truncate K (va_coll v) n) as [c' o] eqn:E. intros E1. injection E1 as <- ->.
      exists (bm_truncate b n). cbn [va_bm va_coll]. split; [auto|]. split.
      + apply (wl_truncate _ _ _ _ _ V _ _ _ _ (proj1 Hv) Hx E).
      + apply bm_can_truncate; auto. destruct Hv as [_ Hv]. rewrite Hb in Hv. apply Hv.
    - intros v n w v' w' os Hv.
      change (validity (cC K)) in v, v'. change (list (option (cA K))) in os.
      change (wva_inv K d v) in Hv.
      change (va_try_reserve K v n w = (v', ODone, w') -> va_rsv K rsv v n os -> va_can K can v' os).
      unfold va_try_reserve.
      destruct (va_try_materialize K v w) as [[v1 o1] w1] eqn:E1.
      destruct (wva_try_materialize K wt d L _ _ _ _ _ Hv E1) as [(-> & b & Hp)|(-> & ->)]; [|discriminate].
      pose proof Hp as (Hb & Hc & [Hi1 Hi2] & _). rewrite Hb in *.
      destruct (k_try_reserve K (va_coll v1) n w1) as [[c2 o2] w2] eqn:E2.
      destruct o2; try discriminate.
      destruct (bm_try_reserve b n w2) as [[b3 o3] w3] eqn:E3.
      intros E [Hl Hrs]. injection E as <- -> <-. rewrite <- Hc in Hrs.
      exists b3. cbn [va_bm va_coll]. split; [auto|]. split.
      + apply (wl_reserve _ _ _ _ _ V _ _ _ _ _ _ Hi1 E2 Hrs).
      + apply (bm_can_reserve b n w2 b3 w3); auto. apply Hi2.
  Qed.
End Null.

(** ** Fixed-size lists *)
Section Flatten.
  Context (K : Coll) (wt : cA K -> Prop) (d : WD K) (n : nat)
    (can : cC K -> list (cA K) -> Prop) (rsv : cC K -> N -> list (cA K) -> Prop)
    (V : WLive K wt d can rsv).

  Lemma wflatten_live : WLive (flatten_coll K n)
    ((fun x : list (cA K) => length x = n /\ Forall wt x) : cA (flatten_coll K n) -> Prop)
    (wflatten K d n) (fl_can K can) (fl_rsv K n rsv).
  Proof.
    split.
    - intros R c it w xs ys r Hc Hwt Hr Hh Hx.
      change (iter (list (cA K)) R) in it. change (list (list (cA K))) in xs, ys.
      destruct (wfl_rows K wt n xs Hwt) as [Hrows Hwt'].
      unfold fl_can in Hx. rewrite concat_app in Hx.
      exact (wl_try_extend _ _ _ _ _ V _ c _ w _ _ _ Hc Hwt' (run_flatten (N.of_nat n) _ _ _ _ Hr)
        (honest_rows K n it xs _ _ Hr Hrows Hh) Hx).
    - intros c k c' xs Hc Hx E. change (fl_truncate K n c k = (c', ODone)) in E.
      revert E. unfold fl_truncate. destruct (fl_len K n c); [|discriminate].
      destruct (k <? N.of_nat _)%N; [|intros E; injection E as <-; exact Hx].
      destruct (strict_mul k (N.of_nat n)); [|discriminate].
      intros E. exact (wl_truncate _ _ _ _ _ V _ _ _ _ Hc Hx E).
    - intros c k w c' w' xs Hc E Hrs. change (fl_try_reserve K n c k w = (c', ODone, w')) in E.
      unfold fl_try_reserve in E.
      destruct (checked_mul k (N.of_nat n)) as [j|] eqn:Ej; [|discriminate].
      apply (wl_reserve _ _ _ _ _ V _ _ _ _ _ _ Hc E).
      unfold checked_mul in Ej. destruct (_ <=? _)%N; [|discriminate]. injection Ej as <-. exact Hrs.
  Qed.
End Flatten.

(** ** Lists *)
Section Lists.
  Context (K : Coll) (wt : cA K -> Prop) (d : WD K) (L : WLaws K wt d) (kd : okind)
    (can : cC K -> list (cA K) -> Prop) (rsv : cC K -> N -> list (cA K) -> Prop)
    (V : WLive K wt d can rsv).

  Lemma wof_end o ls : wof_rep K d kd o ls -> of_end K o = Z.of_nat (length (concat ls)).
  Proof.
    intros Ho. pose proof (wof_last K d kd o ls Ho) as H. unfold of_end.
    destruct (v_items (of_offs o)) as [|z zs _] using rev_ind; [discriminate|].
    rewrite last_last. rewrite app_length in H. cbn [length] in H.
    replace (length zs + 1 - 1) with (length zs) in H by lia.
    rewrite nth_error_app2, Nat.sub_diag in H by lia. injection H as <-. reflexivity.
  Qed.
  Lemma wof_try_extend_live {R} ls0 k :
    forall (t : trace (list (cA K)) R) n o ls w xs ys r,
    wtight K d kd o (ls0 ++ ls) -> Forall (Forall wt) xs -> run_t t n = (xs, FStop, r) ->
    can (of_data o) (concat xs ++ ys) ->
    (lenN (v_items (of_offs o)) + lenN xs + k <= v_cap (of_offs o))%N ->
    (Z.of_nat (length (concat (ls0 ++ ls)) + length (concat xs)) <= omax kd)%Z ->
    exists o' r' w' ls', of_try_extend_t K kd (length ls0) (N.of_nat (length (concat ls0))) t n o
      (Z.of_nat (length (concat (ls0 ++ ls)))) w = (o', r', ODone, w') /\
      can (of_data o') ys /\ (lenN (v_items (of_offs o')) + k <= v_cap (of_offs o'))%N /\
      wtight K d kd o' ls' /\
      length (concat ls') = length (concat (ls0 ++ ls)) + length (concat xs).
  Proof.
    induction t as [|[[l| |] n'] t IH]; intros n o ls w xs ys r Ht Hwt;
      cbn [run_t of_try_extend_t].
    - intros E Hx Hv _. injection E as <- _. exists o, (nd_src n), w, (ls0 ++ ls).
      split; [auto|]. split; [exact Hx|]. rewrite lenN_nil in Hv. split; [lia|]. split; [exact Ht|].
      cbn [concat length]. lia.
    - destruct (run_t t n') as [[xs1 e1] r1] eqn:Hr. intros E1 Hx Hv Hz. injection E1 as <- -> <-.
      pose proof (Forall_inv Hwt) as Hl. apply Forall_inv_tail in Hwt.
      pose proof Ht as (T1 & T2 & T3 & T4 & T5).
      rewrite (as_usize_nat kd).
      cbn [concat] in Hx, Hz |- *. rewrite app_length in Hz.
      destruct (omax_val kd) as (O1 & O2 & O3). rewrite usize_max_val in *.
      unfold checked_add. rewrite usize_max_val.
      destruct (N.leb_spec (N.of_nat (length (concat (ls0 ++ ls))) + lenN l) 18446744073709551615)%N
        as [_|Hbad]; [|unfold lenN in *; lia].
      unfold off_try_from.
      destruct (Z.leb_spec (Z.of_N (N.of_nat (length (concat (ls0 ++ ls))) + lenN l)) (omax kd))%Z
        as [Hz'|Hbad]; [|unfold lenN in *; lia].
      rewrite <- app_assoc in Hx.
      destruct (wl_try_extend _ _ _ _ _ V _ (of_data o) (it_list l) w l _ tt T1 Hl (run_list l)
        (honest_list l) Hx) as (d2 & u & w2 & Ex & Hx2).
      rewrite Ex.
      pose proof (ww_try_extend _ _ _ L _ _ _ _ _ _ _ _ _ _ _ T1 Hl (run_list l) Ex)
        as (_ & _ & l' & Hs & (Y1 & Y3)).
      pose proof (lsim_len K d _ _ Hs) as Hll.
      assert (Hpos : Z.of_N (N.of_nat (length (concat (ls0 ++ ls))) + lenN l) =
        Z.of_nat (length (concat (ls0 ++ ls ++ [l'])))).
      { rewrite app_assoc, concat_snoc, (app_length _ l'). unfold lenN in *. lia. }
      rewrite Hpos in *. rewrite lenN_cons in Hv.
      destruct (vec_try_extend_wok true (osz kd) (of_offs o)
        (it_list [Z.of_nat (length (concat (ls0 ++ ls ++ [l'])))]) w2 _ tt T2 (run_list _)
        (honest_list _) (or_introl eq_refl)) as (v3 & u3 & w3 & Ev & _ & Hcap).
      { unfold vlim. rewrite lenN_cons, lenN_nil. lia. }
      rewrite Ev. specialize (Hcap eq_refl).
      pose proof (vec_try_extend_spec _ _ _ _ _ _ _ _ _ _ _ T2 (run_list _) Ev) as (V1 & _ & _ & _ & V4).
      assert (Ht' : wtight K d kd (Offsets d2 v3) (ls0 ++ ls ++ [l'])).
      { rewrite app_assoc in *. apply wtight_push with (o := o); auto. }
      destruct (IH n' (Offsets d2 v3) (ls ++ [l']) w3 xs1 ys r1 Ht' Hwt Hr)
        as (o' & r' & w' & ls' & E & D1 & D2 & D3 & D4); cbn [of_data of_offs].
      + exact Hx2.
      + rewrite V4, Hcap, lenN_app, lenN_cons, lenN_nil. lia.
      + unfold lenN in Hpos. lia.
      + exists o', r', w', ls'. split; [exact E|]. split; [exact D1|]. split; [exact D2|].
        split; [exact D3|]. rewrite D4, app_length. unfold lenN in Hpos. lia.
    - intros E Hx Hv _. injection E as <- _. exists o, (nd_src n'), w, (ls0 ++ ls).
      split; [auto|]. split; [exact Hx|]. rewrite lenN_nil in Hv. split; [lia|]. split; [exact Ht|].
      cbn [concat length]. lia.
    - discriminate.
  Qed.
  Lemma woffsets_live : WLive (offsets_coll K kd) (Forall wt : cA (offsets_coll K kd) -> Prop)
    (woffsets K d kd) (of_can K kd can) (of_rsv K kd rsv).
  Proof.
    split.
    - intros R o it w xs ys r Ho Hwt Hr _ (C1 & C2 & C3).
      change (offsets (cC K)) in o. change (iter (list (cA K)) R) in it.
      change (list (list (cA K))) in xs, ys. pose proof (wof_inv_rep K d kd o Ho) as Hrep.
      change (exists o' r' w', of_try_extend K kd o it w = (o', r', ODone, w') /\ of_can K kd can o' ys).
      rewrite (wof_end o _ Hrep) in C3. unfold of_try_extend.
      rewrite (wof_len K d kd o _ Hrep), (wof_last K d kd o _ Hrep), (as_usize_nat kd).
      destruct (wof_start K wt d L kd o _ Hrep) as (d1 & Et & Ht). rewrite Et.
      rewrite concat_app in C1, C3. rewrite app_length in C3. rewrite lenN_app in C2.
      pose proof (wl_truncate _ _ _ _ _ V _ _ _ _ (proj1 Hrep) C1 Et) as C1'.
      pose proof (wof_try_extend_live (wof_abs K d o) (lenN ys) (it_tr it) (it_node it)
        (Offsets d1 (of_offs o)) [] w xs (concat ys) r) as H.
      rewrite app_nil_r in H. cbn [of_offs of_data] in H.
      destruct (H Ht Hwt Hr C1') as (o1 & r1 & w1 & ls' & E & D1 & D2 & D3 & D4); [lia|lia|].
      exists o1, r1, w1. split; [exact E|]. split; [exact D1|]. split; [exact D2|].
      rewrite (wof_end o1 ls' (wtight_rep K d kd _ _ D3)). lia.
    - intros o n o' xs Ho (C1 & C2 & C3) E.
      change (offsets (cC K)) in o, o'. change (list (list (cA K))) in xs.
      change (of_truncate K o n = (o', ODone)) in E. pose proof (wof_inv_rep K d kd o Ho) as Hls.
      set (ls := wof_abs K d o) in *.
      destruct (ww_truncate _ _ _ (woffsets_laws K wt d L kd) o n Ho) as (o1 & E1 & I1 & A1).
      change (of_truncate K o n = (o1, ODone)) in E1. rewrite E in E1. injection E1 as <-.
      change (wof_inv K d kd o') in I1. change (wof_abs K d o' = firstn (N.to_nat n) ls) in A1.
      pose proof (wof_inv_rep K d kd o' I1) as Hls'. rewrite A1 in Hls'.
      unfold of_can. rewrite (wof_end o' _ Hls'). rewrite (wof_end o ls Hls) in C3.
      pose proof (f_equal (@length _) (concat_firstn_skipn (N.to_nat n) ls)) as Hcl. rewrite app_length in Hcl.
      revert E. unfold of_truncate. rewrite (wof_len K d kd o ls Hls).
      destruct (n <? N.of_nat (length ls))%N.
      + destruct (vec_view (of_offs o) n) as [z|]; [|discriminate].
        destruct (as_usize z) as [dl|]; [|discriminate].
        destruct (k_truncate K (of_data o) dl) as [d1 e] eqn:Ek. intros E. injection E as <- ->.
        cbn [of_data of_offs]. pose proof Hls as (H1 & H2 & _).
        destruct (vec_truncate_spec (osz kd) (of_offs o) (n + 1) H2) as (V1 & V2 & V3).
        split; [exact (wl_truncate _ _ _ _ _ V _ _ _ _ H1 C1 Ek)|]. split; [|lia].
        rewrite V2, V3. unfold lenN in *. rewrite firstn_length. lia.
      + intros E. injection E as <-. split; [auto|]. split; [auto|lia].
    - intros o n w o' w' xs Ho E (S1 & S2 & S3).
      change (offsets (cC K)) in o, o'. change (list (list (cA K))) in xs.
      change (of_try_reserve K kd o n w = (o', ODone, w')) in E.
      pose proof (wof_inv_rep K d kd o Ho) as (H1 & H2 & _). unfold of_try_reserve in E.
      destruct (k_try_reserve K (of_data o) n w) as [[d1 o1] w1] eqn:E1.
      destruct o1; try discriminate.
      destruct (vec_try_reserve (osz kd) (of_offs o) n w1) as [[v2 o2] w2] eqn:E2.
      injection E as <- -> <-.
      pose proof (vec_try_reserve_spec _ _ _ _ _ _ _ H2 E2) as (_ & Hi & _ & Hc).
      unfold of_can, of_end in *. cbn [of_data of_offs]. rewrite Hi.
      split; [exact (wl_reserve _ _ _ _ _ V _ _ _ _ _ _ H1 E1 S2)|]. split; [lia|exact S3].
  Qed.
End Lists.
