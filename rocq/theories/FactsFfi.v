(** * Facts about export followed by import *)
From Coq Require Import List NArith ZArith Bool Arith Lia ZifyBool ZifyNat ZifyN.
From Verif Require Import Base Iter Spec SpecParts VecModel BitmapModel CollModel ValidityModel
  FlattenModel OffsetsModel LayoutModel IterLemmas VecLemmas BitmapLemmas BitmapLemmas2 Laws
  LawsBase LawsFlatten LawsValidity LawsSealed LawsOffsets Reach Calm ReachLemmas CoreLemmas
  SpecLived WeakLaws FactsLived
  FactsBitmap FactsList FactsFixed FactsParts FfiModel SpecFfi FfiLemmas FactsImport FactsExport.
Import ListNotations.

(** An array holds at most one item at a position. *)
Lemma valid_at_unique a i x y : valid_at a i x -> valid_at a i y -> x = y.
Proof. unfold valid_at, bit_at. destruct (buffer a 0); congruence. Qed.
Lemma holds_null_unique nl s a i (P : cA (coll s) -> Prop) : (forall x y, P x -> P y -> x = y) ->
  forall x y, holds_null nl s a i P x -> holds_null nl s a i P y -> x = y.
Proof.
  intros HP. destruct nl; [|exact HP]. intros [x|] [y|]; cbn [holds_null].
  - intros [_ Hx] [_ Hy]. f_equal. auto.
  - intros [Hx _] Hy. discriminate (valid_at_unique a i _ _ Hx Hy).
  - intros Hx [Hy _]. discriminate (valid_at_unique a i _ _ Hx Hy).
  - reflexivity.
Qed.
Lemma list_unique {A} (P : nat -> A -> Prop) (xs ys : list A) :
  (forall j x y, P j x -> P j y -> x = y) -> length xs = length ys ->
  (forall j x, nth_error xs j = Some x -> P j x) -> (forall j x, nth_error ys j = Some x -> P j x) ->
  xs = ys.
Proof.
  intros HP Hl Hx Hy. apply nth_error_same. intros j.
  destruct (nth_error xs j) as [x|] eqn:Ex, (nth_error ys j) as [y|] eqn:Ey; auto.
  - f_equal. eauto.
  - apply nth_error_None in Ey. assert (j < length xs) by (apply nth_error_Some; congruence). lia.
  - apply nth_error_None in Ex. assert (j < length ys) by (apply nth_error_Some; congruence). lia.
Qed.
Lemma holds_unique t : forall a i x y, holds t a i x -> holds t a i y -> x = y.
Proof.
  induction t as [nl|p nl|n t IH nl|k t IH nl]; intros a i; cbn [holds]; apply holds_null_unique.
  - unfold bit_at. intros x y (b & Eb & Hx) (b' & Eb' & Hy).
    assert (b' = b) by congruence. subst. congruence.
  - intros x y (b & Eb & Hx) (b' & Eb' & Hy). assert (b' = b) by congruence. subst.
    exact (word_at_unique _ _ _ _ _ Hx Hy).
  - intros x y (Lx & ca & Ea & Hx) (Ly & ca' & Ea' & Hy). assert (ca' = ca) by congruence. subst ca'.
    apply (list_unique (fun j => holds t ca (i * n + j))); [intros j; apply IH| |exact Hx|exact Hy].
    exact (eq_trans Lx (eq_sym Ly)).
  - intros x y (b & ca & lo & hi & Eb & Ea & O1 & O2 & _ & L & Hx)
      (b' & ca' & lo' & hi' & Eb' & Ea' & O1' & O2' & _ & L' & Hy).
    assert (b' = b) by congruence. assert (ca' = ca) by congruence. subst b' ca'.
    pose proof (offset_at_unique _ _ _ _ _ O1 O1') as <-.
    pose proof (offset_at_unique _ _ _ _ _ O2 O2') as <-.
    apply (list_unique (fun j => holds t ca (Z.to_nat lo + j))); [intros j; apply IH| |exact Hx|exact Hy].
    assert (G : forall p q : nat, (hi = lo + Z.of_nat p)%Z -> (hi = lo + Z.of_nat q)%Z -> p = q) by (intros; lia).
    exact (G _ _ L L').
Qed.

(** ** Import *)

Lemma import_total t a s : arrow_type t -> readable t a s ->
  (exists c, import t a s = IOk c) \/ (exists e, import t a s = IErr e).
Proof.
  intros Ht Hr. pose proof (import_spec t a s Ht Hr). destruct (import t a s); eauto; contradiction.
Qed.
Lemma import_accepts t a s : arrow_type t -> readable t a s ->
  ((exists c, import t a s = IOk c) <-> describes t a s).
Proof.
  intros Ht Hr. pose proof (import_spec t a s Ht Hr) as H. destruct (import t a s) as [c|e| |]; try contradiction.
  - split; [tauto|eauto].
  - split; [intros [c E]; discriminate|tauto].
Qed.
Lemma import_contents t a s c : arrow_type t -> readable t a s -> import t a s = IOk c ->
  widths_pos (shape_of t) /\ calm (shape_of t) c /\
  exists xs, shows (layout t) c xs /\ Z.of_nat (length xs) = a_length a /\
    forall i x, nth_error xs i = Some x -> holds t a i x.
Proof.
  intros Ht Hr E. pose proof (import_spec t a s Ht Hr) as H. rewrite E in H.
  destruct H as [(Hw & Hc & Hl & Hx) _]. split; [exact Hw|]. split; [exact Hc|].
  exists (l_abs (shape_ld (shape_of t)) c). split; [|auto].
  apply (abs_shows (shape_of t) Hw); [|reflexivity]. exact (built_inv _ _ (calm_built _ _ Hc) Hw).
Qed.

(** ** Export *)

Lemma first_nonzero_none l : first_nonzero l = None <-> Forall (fun o => o = 0) l.
Proof.
  unfold first_nonzero. induction l as [|o l IH]; cbn [find]; [split; auto|].
  destruct o as [|o]; cbn [Nat.eqb negb].
  - rewrite IH. split; [intros H; constructor; auto|inversion 1; auto].
  - split; [discriminate|inversion 1; discriminate].
Qed.
Lemma first_nonzero_some l o : first_nonzero l = Some o -> In o l /\ o <> 0.
Proof.
  unfold first_nonzero. intros H. apply find_some in H as [H1 H2]. split; [exact H1|].
  destruct o; [discriminate|discriminate].
Qed.
Section Weak.
  Context (t : ty) (Hw : widths_pos (shape_of t)) (c : cC (layout t))
    (Hc : w_inv (shape_wd (shape_of t)) c) (Hh : (held (shape_of t) c < 2 ^ 63)%N).
  Notation xs := (w_abs (shape_wd (shape_of t)) c).

  Lemma weak_rejects mem :
    match export mem t c with
    | XOk (a, s) => Forall (fun o => o = 0) (bit_offsets (shape_of t) c) /\
        a_live a = true /\ s_live s = true
    | XErr o => first_nonzero (bit_offsets (shape_of t) c) = Some (N.to_nat o)
    | XPnc => False
    end.
  Proof.
    pose proof (export_spec mem t c Hw Hc Hh) as H.
    destruct (first_nonzero (bit_offsets (shape_of t) c)) as [o|] eqn:Ef.
    - rewrite H, Nat2N.id. reflexivity.
    - destruct H as (a & -> & _ & _ & Hl & _). split; [apply first_nonzero_none; exact Ef|].
      split; [exact Hl|]. destruct t; reflexivity.
  Qed.
  Lemma weak_accepts mem : Forall (fun o => o = 0) (bit_offsets (shape_of t) c) ->
    exists a s, export mem t c = XOk (a, s).
  Proof.
    intros Ho. pose proof (export_spec mem t c Hw Hc Hh) as H. apply first_nonzero_none in Ho.
    rewrite Ho in H. destruct H as (a & E & _). eauto.
  Qed.
  Lemma weak_items mem a s : typed (shape_of t) c -> export mem t c = XOk (a, s) ->
    a_length a = Z.of_nat (length xs) /\ a_null_count a = Z.of_nat (null_items t xs) /\
    readable t a s /\ forall i x, nth_error xs i = Some x -> holds t a i x.
  Proof.
    intros Hty E. pose proof (export_spec mem t c Hw Hc Hh) as H.
    destruct (first_nonzero (bit_offsets (shape_of t) c)) as [o|]; [congruence|].
    destruct H as (a' & E' & H1 & H2 & _ & H3). rewrite E in E'. injection E' as -> ->.
    destruct (H3 Hty) as (H4 & H5 & _). auto.
  Qed.
  Lemma weak_describes mem a s : arrow_type t -> typed (shape_of t) c -> aligned mem 0 t ->
    export mem t c = XOk (a, s) ->
    nearly t a s /\ (describes t a s <-> rows_fill (shape_of t) c).
  Proof.
    intros Ht Hty Hal E. pose proof (export_spec mem t c Hw Hc Hh) as H.
    destruct (first_nonzero (bit_offsets (shape_of t) c)) as [o|]; [congruence|].
    destruct H as (a' & E' & _ & _ & _ & H3). rewrite E in E'. injection E' as -> ->.
    destruct (H3 Hty) as (_ & _ & H4). auto.
  Qed.
  (** What is imported holds the same items. *)
  Lemma weak_imported mem a s c' : arrow_type t -> typed (shape_of t) c ->
    export mem t c = XOk (a, s) -> import t a s = IOk c' ->
    calm (shape_of t) c' /\ shows (layout t) c' xs.
  Proof.
    intros Ht Hty E Ei. destruct (weak_items mem a s Hty E) as (E1 & _ & E2 & E3).
    destruct (import_contents t a s c' Ht E2 Ei) as (_ & Hcc & ys & Hy & Hl & Hh2).
    split; [exact Hcc|]. replace xs with ys; [exact Hy|].
    apply (list_unique (holds t a)); [intros j x y; apply holds_unique| |exact Hh2|exact E3].
    apply Nat2Z.inj. exact (eq_trans Hl E1).
  Qed.
End Weak.

Lemma export_rejects_iff mem t c : widths_pos (shape_of t) -> built (shape_of t) c ->
  (held (shape_of t) c < 2 ^ 63)%N ->
  match export mem t c with
  | XOk (a, s) => Forall (fun o => o = 0) (bit_offsets (shape_of t) c) /\ a_live a = true /\ s_live s = true
  | XErr o => first_nonzero (bit_offsets (shape_of t) c) = Some (N.to_nat o)
  | XPnc => False
  end.
Proof. intros Hw Hb Hh. exact (weak_rejects t Hw c (built_weak _ _ Hb Hw) Hh mem). Qed.
Lemma export_items mem t c xs a s : widths_pos (shape_of t) -> built (shape_of t) c ->
  (held (shape_of t) c < 2 ^ 63)%N -> shows (layout t) c xs -> typed (shape_of t) c ->
  export mem t c = XOk (a, s) ->
  a_length a = Z.of_nat (length xs) /\ a_null_count a = Z.of_nat (null_items t xs) /\
  readable t a s /\ forall i x, nth_error xs i = Some x -> holds t a i x.
Proof.
  intros Hw Hb Hh Hs. destruct (built_abs (shape_of t) Hw c xs Hb Hs) as [-> Hi].
  rewrite <- (built_abs_eq _ _ Hb Hw). exact (weak_items t Hw c (built_weak _ _ Hb Hw) Hh mem a s).
Qed.
Lemma export_describes mem t c a s : widths_pos (shape_of t) -> arrow_type t ->
  calm (shape_of t) c -> (held (shape_of t) c < 2 ^ 63)%N -> typed (shape_of t) c ->
  aligned mem 0 t -> export mem t c = XOk (a, s) -> describes t a s.
Proof.
  intros Hw Ht Hc Hh Hty Hal E.
  apply (weak_describes t Hw c (built_weak _ _ (calm_built _ _ Hc) Hw) Hh mem a s Ht Hty Hal E).
  apply calm_fill; assumption.
Qed.

(** ** Round trip *)

Lemma round_trip mem t c xs : widths_pos (shape_of t) -> arrow_type t ->
  calm (shape_of t) c -> (held (shape_of t) c < 2 ^ 63)%N -> typed (shape_of t) c ->
  aligned mem 0 t -> Forall (fun o => o = 0) (bit_offsets (shape_of t) c) ->
  shows (layout t) c xs ->
  exists a s c', export mem t c = XOk (a, s) /\ import t a s = IOk c' /\ shows (layout t) c' xs.
Proof.
  intros Hw Ht Hc Hh Hty Hal Ho Hs. pose proof (calm_built _ _ Hc) as Hb.
  pose proof (built_weak _ _ Hb Hw) as Hi.
  destruct (weak_accepts t Hw c Hi Hh mem Ho) as (a & s & E).
  destruct (export_items mem t c xs a s Hw Hb Hh Hs Hty E) as (_ & _ & E2 & _).
  pose proof (export_describes mem t c a s Hw Ht Hc Hh Hty Hal E) as Hd.
  apply (import_accepts t a s Ht E2) in Hd as [c' Ei].
  exists a, s, c'. split; [exact E|]. split; [exact Ei|].
  destruct (built_abs (shape_of t) Hw c xs Hb Hs) as [-> _]. rewrite <- (built_abs_eq _ _ Hb Hw).
  apply (weak_imported t Hw c Hi Hh mem a s c' Ht Hty E Ei).
Qed.

(** ** An overflow in the middle of an extension breaks the round trip *)

Definition lists1 : ty := TFsl 1 (TVsl I32 (TPrim U8 false) false) true.
Lemma fixed_overflow (huge : list N) : lenN huge = 2147483648%N ->
  exists v : cC (layout lists1),
    k_extend (layout lists1) (k_default (layout lists1)) (it_list [Some [[]]; Some [huge]])
      = (v, tt, OPanic) /\
    built (shape_of lists1) v /\ shows (layout lists1) v [] /\
    bit_offsets (shape_of lists1) v = [0] /\ typed (shape_of lists1) v /\
    forall mem, exists a s e, export mem lists1 v = XOk (a, s) /\ import lists1 a s = IErr e.
Proof.
  intros Hh. pose (s := SFixed 1 (SList I32 (SVec U8))). pose (K := coll s).
  assert (Hex : exists it : iter (option (cA K)) unit, it = it_list [Some [[]]; Some [huge]])
    by (eexists; reflexivity).
  destruct Hex as [it Eit].
  assert (Hrun : run it = ([Some [[]]; Some [huge]], FStop, tt)) by (rewrite Eit; apply run_list).
  destruct (va_extend K (Validity (k_default K) None) it) as [[v []] o] eqn:E.
  assert (Hv : o = OPanic /\ shows (coll (SList I32 (SVec U8))) (va_coll v) [[]] /\
    shows (coll (SVec U8)) (of_data (va_coll v)) [] /\ va_bm v = Some (Bitmap (Vec [] 0) 0 0) /\
    (held (SList I32 (SVec U8)) (va_coll v) < 2 ^ 62)%N).
  { unfold va_extend in E.
    change (va_materialize K (Validity (k_default K) None)) with
      (Validity (k_default K) (Some (Bitmap (Vec [] 0) 0 0)), ODone) in E.
    cbn [va_bm va_coll] in E.
    change (k_truncate K (k_default K) (N.of_nat (bm_len (Bitmap (Vec [] 0) 0 0)))) with
      (k_default K, ODone) in E.
    cbn [va_extend_loop] in E.
    destruct (k_extend K (k_default K) (va_chunk K it)) as [[c1 [it1 vs]] o1] eqn:E1.
    destruct (va_chunk_run K it _ _ _ Hrun) as (it' & [(Hle & _)|(Hlt & Hrc & Hsrc)]).
    { exfalso. apply Nat.leb_le in Hle. revert Hle. vm_compute. discriminate. }
    apply (run_flatten 1%N) in Hrc.
    assert (Hit : items_of (it_flatten 1 (va_chunk K it)) = [[]; huge])
      by (unfold items_of; rewrite Hrc; reflexivity).
    assert (Hd : shows (coll (SList I32 (SVec U8))) (k_default (coll (SList I32 (SVec U8)))) []).
    { apply (shows_check (SList I32 (SVec U8)) I); [apply built_default| |]; vm_compute; reflexivity. }
    assert (Hok : Forall (item_ok (SList I32 (SVec U8))) (items_of (it_flatten 1 (va_chunk K it)))).
    { rewrite Hit. constructor; [constructor|]. constructor; [|constructor].
      apply Forall_forall. intros x _. exact I. }
    change (of_extend (coll (SVec U8)) I32 (k_default (coll (SList I32 (SVec U8))))
      (it_flatten 1 (va_chunk K it)) = (c1, (it1, vs), o1)) in E1.
    destruct (list_overflow_full (SVec U8) I I32 _ (k_default (coll (SList I32 (SVec U8)))) []
      (it_flatten 1 (va_chunk K it)) [[]] huge [] c1 (it1, vs) o1) as (D1 & S1 & S2 & _ & Hh1); auto.
    - apply built_default.
    - vm_compute. discriminate.
    - cbn [concat app]. rewrite app_nil_r.
      replace (omax I32) with 2147483647%Z by (vm_compute; reflexivity).
      change (2147483647 < Z.of_nat (@length N huge))%Z. unfold lenN in Hh. lia.
    - subst o1. injection E as <- _ <-. split; [reflexivity|]. split; [exact S1|]. split; [exact S2|].
      split; [reflexivity|]. refine (N.le_lt_trans _ _ _ Hh1 _). vm_compute. reflexivity. }
  destruct Hv as (-> & S1 & S2 & Eb & Hheld).
  assert (Hb : built (SNull s) v).
  { apply (built_step (SNull s) (k_default (coll (SNull s))) (OpExtend it) v OPanic).
    - apply built_default.
    - change (Forall (item_ok (SNull s)) (items_of it)). unfold items_of. rewrite Hrun.
      constructor; [|constructor; [|constructor]].
      + split; [reflexivity|]. constructor; [|constructor]. constructor.
      + split; [reflexivity|]. constructor; [|constructor]. apply Forall_forall. intros x _. exact I.
    - change ((let '(c', _, o) := va_extend K (Validity (k_default K) None) it in (c', o)) = (v, OPanic)).
      rewrite E. reflexivity.
    - discriminate.
    - intros _. left. reflexivity. }
  assert (Hw : widths_pos (shape_of lists1)) by exact (conj (Nat.lt_0_succ 0) I).
  assert (Ec : l_abs (shape_ld (SList I32 (SVec U8))) (va_coll v) = [[]]).
  { symmetry. apply (built_abs (SList I32 (SVec U8)) I (va_coll v) [[]]); [|exact S1].
    apply (built_fixed_coll 1 (SList I32 (SVec U8)) (va_coll v) Nat.lt_0_1).
    exact (built_null_coll s v Hb). }
  assert (Hnil : [] = l_abs (shape_ld (shape_of lists1)) v).
  { assert (M : forall A (l : list A), mask l [] = []) by (destruct l; reflexivity).
    destruct v as [c m]. cbn [va_bm] in Eb. subst m. symmetry. exact (M _ _). }
  assert (Hshow : shows (layout lists1) v []).
  { apply (abs_shows (shape_of lists1) Hw v); [exact (built_inv _ _ Hb Hw)|exact (eq_sym Hnil)]. }
  assert (Hty : typed (shape_of lists1) v).
  { destruct v as [[data offs] m]. cbn [va_bm va_coll of_data] in *. subst m.
    split; [constructor|]. destruct data as [items cap].
    pose proof (sh_len _ _ _ S2) as Hl. destruct items; [constructor|discriminate]. }
  assert (Hoff : bit_offsets (shape_of lists1) v = [0]).
  { destruct v as [c m]. cbn [va_bm] in Eb. subst m. reflexivity. }
  exists v. split; [rewrite <- Eit; exact E|]. split; [exact Hb|]. split; [exact Hshow|].
  split; [exact Hoff|]. split; [exact Hty|].
  intros mem.
  assert (Hh' : (held (shape_of lists1) v < 2 ^ 63)%N).
  { assert (G : forall x, (x < 2 ^ 62 -> x + 0 < 2 ^ 63)%N) by (intros; lia).
    destruct v as [c m]. cbn [va_bm va_coll] in *. subst m. exact (G _ Hheld). }
  pose proof (built_weak _ _ Hb Hw) as Hbw. rewrite <- (built_abs_eq (shape_of lists1) v Hb Hw) in Hnil.
  pose proof (export_spec mem lists1 v Hw Hbw Hh') as Hx. rewrite Hoff in Hx. cbn [first_nonzero find Nat.eqb negb] in Hx.
  destruct Hx as (a & Ex & Hl & _ & _ & Hr). destruct (Hr Hty) as (_ & Hread & _). rewrite <- Hnil in Hl.
  assert (Ht : arrow_type lists1) by (repeat split; vm_compute; discriminate).
  pose proof (import_spec lists1 a (schema_of lists1) Ht Hread) as Hi.
  destruct (import lists1 a (schema_of lists1)) as [c|e| |] eqn:Ei; [exfalso| |contradiction|contradiction].
  2: { exists a, (schema_of lists1), e. auto. }
  destruct Hi as [_ Hd].
  rewrite (export_level mem lists1 v Hw Hbw Hh') in Ex.
  pose (t' := TVsl I32 (TPrim U8 false) false).
  assert (Hb' : built (shape_of t') (va_coll v)).
  { apply (built_fixed_coll 1 (SList I32 (SVec U8)) (va_coll v) Nat.lt_0_1).
    exact (built_null_coll s v Hb). }
  assert (Hh2 : (held (shape_of t') (va_coll v) < 2 ^ 63)%N).
  { refine (N.lt_trans _ _ _ Hheld _). vm_compute. reflexivity. }
  pose proof (child_array_spec mem t' 1 (va_coll v) I (built_weak _ _ Hb' I) Hh2) as Hc.
  change (bit_offsets (shape_of t') (va_coll v)) with (@nil nat) in Hc.
  cbn [first_nonzero find] in Hc. destruct Hc as (kids & _ & _ & Ec2 & Hl2 & _).
  assert (Ek : x_children mem 0 lists1 v = xbind (child_array mem 1 t' (va_coll v)) (fun k => XOk [k]))
    by reflexivity.
  rewrite Ek, Ec2 in Ex. cbn [xbind] in Ex.
  assert (Eo : x_offset lists1 v = 0%N).
  { destruct v as [c' m]. cbn [va_bm] in Eb. subst m. reflexivity. }
  rewrite Eo in Ex. cbn [N.eqb] in Ex. injection Ex as Ea. 
  assert (Ekid : child a = Some (level mem 1 t' (va_coll v) kids)) by (rewrite <- Ea; reflexivity).
  destruct Hd as (_ & _ & _ & _ & _ & _ & _ & _ & _ & _ & _ & _ & _ & _ & _ & ca & cs & Eca & _ & _ & Elen).
  rewrite Ekid in Eca. injection Eca as <-.
  assert (G : forall p q, (p = 1 -> q = 0 -> p = q * 1 -> False)%Z) by (intros; lia).
  pose proof (built_abs_eq _ _ Hb' I) as Ec'.
  exact (G _ _ (eq_trans Hl2 (f_equal (fun l => Z.of_nat (length l)) (eq_trans Ec' Ec))) Hl Elen).
Qed.

(** ** Formats of fixed-size lists *)

Lemma own_format n : (n <= usize_max)%N -> fixed_matches n ([43; 119; 58]%N ++ decimal n) = true.
Proof. intros Hn. apply fixed_matches_spec; [exact Hn|]. destruct (decimal_spec n Hn). eauto. Qed.
Lemma other_width n m : (n <= usize_max)%N -> (m <= usize_max)%N ->
  fixed_matches m ([43; 119; 58]%N ++ decimal n) = true -> m = n.
Proof.
  intros Hn Hm H. apply (fixed_matches_spec m _ Hm) in H as (ds & E & _ & _ & <-).
  apply app_inv_head in E as <-. apply decimal_spec. exact Hn.
Qed.
Lemma accepted_strings n f : (n <= usize_max)%N ->
  (fixed_matches n f = true <->
   exists digits, f = [43; 119; 58]%N ++ digits /\ digits <> [] /\ Forall is_digit digits /\
     decimal_value digits = n).
Proof. exact (fixed_matches_spec n f). Qed.
