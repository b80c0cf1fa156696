(** * Facts about operations that succeed, in the vocabulary of the theorems *)
From Coq Require Import List NArith ZArith Bool Arith Lia.
From Verif Require Import Base Iter Spec VecModel BitmapModel CollModel ValidityModel
  FlattenModel OffsetsModel LayoutModel Laws LawsBase LawsValidity LawsFlatten LawsOffsets
  Reach ReachLemmas CoreLemmas LiveLaws SpecLive.
Import ListNotations.

Fixpoint shape_can (s : shape) : cC (coll s) -> list (cA (coll s)) -> Prop :=
  match s with
  | SVec _ | SAny _ _ _ => vec_can
  | SBits => bits_can
  | SNull s => va_can (coll s) (shape_can s)
  | SFixed n s => fl_can (coll s) (shape_can s)
  | SList k s => of_can (coll s) k (shape_can s)
  end.
Lemma shape_live s : widths_pos s ->
  Live (coll s) (shape_ld s) true (shape_can s) (covered s).
Proof.
  induction s as [p| |s IH|n s IH|k s IH|A a0 z]; cbn [coll shape_ld shape_can covered widths_pos]; intros Hw.
  - exact (vec_live _ _ _).
  - exact bitmap_live.
  - exact (validity_live _ _ (shape_laws s Hw) _ _ (IH Hw)).
  - exact (flatten_live _ _ n true _ _ (IH (proj2 Hw))).
  - exact (offsets_live _ _ (shape_laws s Hw) k _ _ (IH Hw)).
  - exact (vec_live _ _ _).
Qed.
Lemma shape_liveG s : widths_pos s -> LiveG (coll s) (shape_ld s) (takes_upper s).
Proof.
  induction s as [p| |s IH|n s IH|k s IH|A a0 z]; cbn [coll shape_ld takes_upper widths_pos]; intros Hw.
  - exact (vec_liveG _ _ _).
  - exact bitmap_liveG.
  - exact (validity_liveG _ _ (shape_laws s Hw) _ (IH Hw)).
  - exact (flatten_liveG _ _ (shape_laws s (proj2 Hw)) n (proj1 Hw) _ (IH (proj2 Hw))).
  - exact (offsets_liveG _ _ (shape_laws s Hw) k _ (IH Hw)).
  - exact (vec_liveG _ _ _).
Qed.

Lemma values_ok s (Hw : widths_pos s) : forall xs : list (option (cA (coll s))),
  Forall (item_ok (SNull s)) xs ->
  Forall (item_ok s) (map (fun x => match x with Some y => y | None => k_item0 (coll s) end) xs).
Proof.
  induction 1 as [|[x|] l Hx _ IHl]; cbn [map]; constructor; auto.
  apply item_ok_wt. apply (lw_item0 _ _ (shape_laws s Hw)).
Qed.
Lemma rows_ok n s : forall xs : list (list (cA (coll s))),
  Forall (item_ok (SFixed n s)) xs ->
  Forall (item_ok s) (concat xs) /\ length (concat xs) = length xs * n.
Proof.
  induction 1 as [|x l [Hx Hy] _ [IH1 IH2]]; cbn [concat length]; [split; [constructor|reflexivity]|].
  split; [apply Forall_app; auto|]. rewrite app_length, IH2, Hx. reflexivity.
Qed.
Lemma no_lists_covered s : widths_pos s -> no_lists s -> forall c n xs, Forall (item_ok s) xs ->
  (lenN xs <= n)%N -> covered s c n xs.
Proof.
  induction s as [p| |s IH|m s IH|k s IH|A a0 z]; cbn [no_lists widths_pos]; intros Hw Hn c n xs Hi Hl.
  - exact Hl.
  - exact Hl.
  - split; [exact Hl|]. apply (IH Hw Hn _ _ _ (values_ok s Hw xs Hi)).
    unfold lenN in *. rewrite map_length. exact Hl.
  - destruct (rows_ok m s xs Hi) as [H1 H2]. apply (IH (proj2 Hw) Hn _ _ _ H1).
    assert (Hl' : (N.of_nat (@length (list (cA (coll s))) xs) <= n)%N) by exact Hl.
    unfold lenN. nia.
  - destruct Hn.
  - exact Hl.
Qed.

Section Live.
  Variable s : shape.
  Hypothesis Hw : widths_pos s.
  Local Notation K := (coll s).
  Local Notation d := (shape_ld s).

  (** A reservation pays for everything it covers *)
  Lemma extend_room R c xs (it : iter (cA K) R) w ys : l_inv d c -> l_abs d c = xs ->
    good s it -> shape_can s c (items_of it ++ ys) ->
    exists c' r w', k_try_extend K c it w = (c', r, ODone, w') /\
      l_inv d c' /\ l_abs d c' = xs ++ items_of it /\ shape_can s c' ys.
  Proof.
    intros Hc Ha (Hf & Hh & Hi) Hx. destruct (run_parts it) as [r0 Hr]. rewrite Hf in Hr.
    apply items_ok_wt in Hi.
    destruct (lv_try_extend _ _ _ _ _ (shape_live s Hw) R c it w _ ys r0 Hc Hi Hr Hh (or_introl eq_refl) Hx)
      as (c' & r & w' & E & _ & Hy).
    pose proof (lw_try_extend _ _ (shape_laws s Hw) _ _ _ _ _ _ _ _ _ _ _ Hc Hi Hr E)
      as (_ & _ & (H1 & _ & H2 & _)).
    exists c', r, w'. rewrite H2, Ha. auto.
  Qed.
  Lemma extends_room : forall its c xs, l_inv d c -> l_abs d c = xs ->
    Forall (fun p => good s (fst p)) its -> shape_can s c (all_items its) ->
    exists c', exec K c (try_extends its) = (c', repeat ODone (length its)) /\
      l_inv d c' /\ l_abs d c' = xs ++ all_items its.
  Proof.
    induction its as [|[it w] its IH]; intros c xs Hc Ha Hg Hx.
    - exists c. cbn. rewrite app_nil_r. auto.
    - pose proof (Forall_inv Hg) as Hg1. apply Forall_inv_tail in Hg. cbn [fst] in Hg1.
      unfold all_items in Hx. cbn [flat_map fst] in Hx.
      destruct (extend_room unit c xs it w _ Hc Ha Hg1 Hx) as (c1 & r & w1 & E & I1 & A1 & Hx1).
      destruct (IH c1 _ I1 A1 Hg Hx1) as (c2 & E2 & I2 & A2).
      exists c2. unfold try_extends. cbn [map fst snd exec step]. rewrite E.
      unfold try_extends in E2. rewrite E2. split; [reflexivity|]. split; [exact I2|].
      rewrite A2. unfold all_items. cbn [flat_map fst]. rewrite app_assoc. reflexivity.
  Qed.
  Lemma reserved_room c xs n w c1 w1 ys : built s c -> shows K c xs ->
    k_try_reserve K c n w = (c1, ODone, w1) -> covered s c n ys ->
    l_inv d c1 /\ l_abs d c1 = xs /\ shape_can s c1 ys.
  Proof.
    intros Hb Hs E Hy. destruct (built_abs s Hw c xs Hb Hs) as [-> Hc].
    pose proof (lw_try_reserve _ _ (shape_laws s Hw) _ _ _ _ _ _ Hc E) as [(H1 & _ & H2 & _) _].
    pose proof (lv_reserve _ _ _ _ _ (shape_live s Hw) eq_refl _ _ _ _ _ _ Hc E Hy). auto.
  Qed.
  Lemma reserved_extend R c xs n w c1 w1 (it : iter (cA K) R) w2 : built s c -> shows K c xs ->
    k_try_reserve K c n w = (c1, ODone, w1) -> good s it -> covered s c n (items_of it) ->
    exists c2 r w3, k_try_extend K c1 it w2 = (c2, r, ODone, w3) /\
      shows K c2 (xs ++ items_of it).
  Proof.
    intros Hb Hs E Hg Hy.
    rewrite <- (app_nil_r (items_of it)) in Hy.
    destruct (reserved_room c xs n w c1 w1 _ Hb Hs E Hy) as (I1 & A1 & Hx).
    destruct (extend_room R c1 xs it w2 [] I1 A1 Hg Hx) as (c2 & r & w3 & E2 & I2 & A2 & _).
    exists c2, r, w3. split; [exact E2|]. exact (abs_shows s Hw c2 _ I2 A2).
  Qed.
  Lemma reserved_extends c xs n w c1 w1 its : built s c -> shows K c xs ->
    k_try_reserve K c n w = (c1, ODone, w1) -> Forall (fun p => good s (fst p)) its ->
    covered s c n (all_items its) ->
    exists c2, exec K c1 (try_extends its) = (c2, repeat ODone (length its)) /\
      shows K c2 (xs ++ all_items its).
  Proof.
    intros Hb Hs E Hg Hy.
    destruct (reserved_room c xs n w c1 w1 _ Hb Hs E Hy) as (I1 & A1 & Hx).
    destruct (extends_room its c1 xs I1 A1 Hg Hx) as (c2 & E2 & I2 & A2).
    exists c2. split; [exact E2|]. exact (abs_shows s Hw c2 _ I2 A2).
  Qed.
  Lemma all_items_ok (its : list (iter (cA K) unit * world)) :
    Forall (fun p => good s (fst p)) its -> Forall (item_ok s) (all_items its).
  Proof.
    unfold all_items. induction 1 as [|p l (_ & _ & H) _ IH]; cbn [flat_map]; [constructor|].
    apply Forall_app. auto.
  Qed.

  (** When no allocation fails *)
  Lemma granted_collect R (it : iter (cA K) R) w :
    resumable_try s = true \/ fused it -> good s it -> grants w ->
    (total (cost s) (items_of it) <= limit s)%N ->
    takes_upper s = false \/ (upper_or_lower (it_hint it) * unit_cost s <= limit s)%N ->
    exists c r w', k_try_from_iter K it w = (BOk c, r, w') /\ shows K c (items_of it) /\ built s c.
  Proof.
    intros Hf (Hs & Hh & Hi) Hg Ht Hu. destruct (run_parts it) as [r0 Hr]. rewrite Hs in Hr.
    rewrite costs_wgt, limit_lim in Ht. rewrite unit_cost_cfac, limit_lim in Hu.
    pose proof Hf as Hf'. rewrite resumable_try_nofuse in Hf'.
    pose proof (proj1 (items_ok_wt s _) Hi) as Hi'.
    destruct (lg_from_iter _ _ _ (shape_liveG s Hw) R it w _ r0 Hf' Hi' Hr Hh Hg Ht Hu)
      as (c & r & w' & E & _).
    pose proof (try_collect_core s Hw R it w _ r w' Hf Hi E) as (_ & H1 & H2 & _).
    exists c, r, w'. auto.
  Qed.
  Lemma granted_with_capacity n w : grants w -> (n * unit_cost s <= limit s)%N ->
    exists c w', k_try_with_capacity K n w = (BOk c, w') /\ shows K c [].
  Proof.
    intros Hg Hn. pose proof Hn as Hn'. rewrite unit_cost_cfac, limit_lim in Hn'.
    destruct (lg_with_capacity _ _ _ (shape_liveG s Hw) n w Hg Hn') as (c & w' & E & _).
    exists c, w'. split; [exact E|].
    destruct (empty_core s Hw) as (_ & _ & H). destruct (H n w _ w' E) as [H1 _]. exact H1.
  Qed.
  Lemma granted_reserve c xs n w : built s c -> shows K c xs -> grants w ->
    (held s c + n * unit_cost s <= limit s)%N ->
    exists c' w', k_try_reserve K c n w = (c', ODone, w') /\ shows K c' xs.
  Proof.
    intros Hb Hs Hg Hn. destruct (built_abs s Hw c xs Hb Hs) as [-> Hc].
    rewrite (held_usage s Hw c Hc), unit_cost_cfac, limit_lim in Hn.
    destruct (lg_reserve _ _ _ (shape_liveG s Hw) c n w Hc Hg Hn) as (c' & w' & E & _).
    exists c', w'. split; [exact E|].
    pose proof (lw_try_reserve _ _ (shape_laws s Hw) _ _ _ _ _ _ Hc E) as [(H1 & _ & H2 & _) _].
    apply (abs_shows s Hw); auto.
  Qed.
  Lemma granted_extend R c xs (it : iter (cA K) R) w : built s c -> shows K c xs ->
    good s it -> grants w -> room_for s c (items_of it) ->
    exists c' r w', k_try_extend K c it w = (c', r, ODone, w') /\
      shows K c' (xs ++ items_of it).
  Proof.
    intros Hb Hs (Hf & Hh & Hi) Hg Hr. destruct (built_abs s Hw c xs Hb Hs) as [-> Hc].
    unfold room_for in Hr. rewrite (held_usage s Hw c Hc), costs_wgt, limit_lim in Hr.
    destruct (run_parts it) as [r0 Hrun]. rewrite Hf in Hrun. apply items_ok_wt in Hi.
    destruct (live_extend _ _ (lg_live _ _ _ (shape_liveG s Hw)) R c it w _ r0 Hc Hi Hrun Hh Hg Hr)
      as (c' & r & w' & E & _).
    exists c', r, w'. split; [exact E|].
    pose proof (lw_try_extend _ _ (shape_laws s Hw) _ _ _ _ _ _ _ _ _ _ _ Hc Hi Hrun E)
      as (_ & _ & (H1 & _ & H2 & _)).
    apply (abs_shows s Hw); auto.
  Qed.
End Live.

Lemma flat_reserved s : widths_pos s -> no_lists s ->
  forall c xs n w c1 w1, built s c -> shows (coll s) c xs ->
  k_try_reserve (coll s) c n w = (c1, ODone, w1) ->
  forall R (it : iter (cA (coll s)) R) w2, good s it -> (lenN (items_of it) <= n)%N ->
  exists c2 r w3, k_try_extend (coll s) c1 it w2 = (c2, r, ODone, w3) /\
    shows (coll s) c2 (xs ++ items_of it).
Proof.
  intros Hw Hn c xs n w c1 w1 Hb Hs E R it w2 Hg Hl.
  apply (reserved_extend s Hw R c xs n w c1 w1 it w2 Hb Hs E Hg).
  apply no_lists_covered; auto. apply Hg.
Qed.
Lemma flat_reserved_parts s : widths_pos s -> no_lists s ->
  forall c xs n w c1 w1, built s c -> shows (coll s) c xs ->
  k_try_reserve (coll s) c n w = (c1, ODone, w1) ->
  forall its, Forall (fun p => good s (fst p)) its -> (lenN (all_items its) <= n)%N ->
  exists c2, exec (coll s) c1 (try_extends its) = (c2, repeat ODone (length its)) /\
    shows (coll s) c2 (xs ++ all_items its).
Proof.
  intros Hw Hn c xs n w c1 w1 Hb Hs E its Hg Hl.
  apply (reserved_extends s Hw c xs n w c1 w1 its Hb Hs E Hg).
  apply no_lists_covered; auto. apply all_items_ok, Hg.
Qed.
