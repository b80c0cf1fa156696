(** * Facts about export *)
From Coq Require Import List NArith ZArith Bool Arith Lia ZifyBool ZifyNat ZifyN.
From Verif Require Import Base Iter Spec SpecParts VecModel BitmapModel CollModel ValidityModel
  FlattenModel OffsetsModel LayoutModel IterLemmas VecLemmas BitmapLemmas BitmapLemmas2 Laws
  LawsBase LawsFlatten LawsValidity LawsSealed LawsOffsets Reach Calm ReachLemmas CoreLemmas
  SpecFixed SpecLived WeakLaws WeakNull WeakList FactsLived
  FactsBitmap FactsList FactsFixed FactsParts FfiModel SpecFfi FfiLemmas FactsImport.
Import ListNotations.

Ltac Zify.zify_post_hook ::= Z.div_mod_to_equations.

(** ** Below the validity *)

Section Nulls.
  Context (s : shape) (v : validity (cC (coll s))) (Hb : w_inv (shape_wd (SNull s)) v).
  Notation xs := (wva_abs (coll s) (shape_wd s) v).
  Notation ys := (w_abs (shape_wd s) (va_coll v)).

  Lemma v_inv :
    match va_bm v with
    | Some b => bm_ok b /\ length (bm_abs b) <= length ys
    | None => True
    end.
  Proof. exact (proj2 Hb). Qed.
  Lemma v_bits :
    match va_bm v with
    | Some b => bm_ok b /\ bm_bits b = length xs /\ length xs <= length ys
    | None => length xs = length ys
    end.
  Proof.
    pose proof v_inv as H. unfold wva_abs. rewrite mask_length. unfold wva_bits.
    destruct (va_bm v) as [b|].
    - destruct H as [H1 H2]. split; [exact H1|]. rewrite <- (bm_abs_length b H1). lia.
    - rewrite repeat_length. lia.
  Qed.
  Lemma v_valid i x : nth_error xs i = Some x ->
    match va_bm v with
    | Some b => nth_error (bm_abs b) i = Some (is_some x)
    | None => is_some x = true
    end /\ forall y, x = Some y -> nth_error ys i = Some y.
  Proof.
    intros Hx. unfold wva_abs in Hx. apply mask_nth in Hx as (y & b & H1 & H2 & ->).
    unfold wva_bits in H2. split.
    - destruct (va_bm v) as [m|].
      + rewrite H2. destruct b; reflexivity.
      + apply nth_error_In, repeat_spec in H2. subst b. reflexivity.
    - intros y' E. destruct b; [|discriminate]. injection E as <-. exact H1.
  Qed.
  Lemma mask_nones {A} (zs : list A) : forall bs, length bs <= length zs ->
    length (filter (fun o => negb (is_some o)) (mask zs bs)) = count_false bs.
  Proof.
    intros bs. revert zs. induction bs as [|b bs IH]; intros [|z l] Hl; cbn [length] in Hl;
      try lia; try reflexivity.
    rewrite mask_cons. unfold count_false in *. cbn [filter].
    destruct b; cbn [is_some negb length]; rewrite IH by lia; reflexivity.
  Qed.
  Lemma v_count : let n := length (filter (fun o => negb (is_some o)) xs) in
    vb_null_count (va_bm v) = Ret n /\ n <= length xs /\
    n = match va_bm v with Some b => count_false (bm_abs b) | None => 0 end.
  Proof.
    cbv zeta. pose proof v_inv as H. unfold wva_abs. rewrite mask_length. unfold wva_bits.
    destruct (va_bm v) as [b|].
    - destruct H as [H1 H2]. rewrite mask_nones by exact H2.
      pose proof (count_split (bm_abs b)). split; [|split; lia].
      rewrite (vb_null_count_spec (bm_bits b) (Some b)) by (cbn; auto). reflexivity.
    - rewrite mask_nones by (rewrite repeat_length; lia).
      pose proof (count_split (repeat true (length ys))) as E.
      rewrite count_true_all, repeat_length in E. cbn [vb_null_count].
      split; [f_equal; lia|]. split; lia.
  Qed.
End Nulls.

Lemma nulls_pos nl s : widths_pos s -> widths_pos (nulls nl s).
Proof. destruct nl; auto. Qed.

Section Under.
  Context (nl : bool) (s : shape) (c : cC (coll (nulls nl s))).
  Notation u := (un_null nl s c).
  Notation m := (bits_under nl s c).
  Notation xs := (w_abs (shape_wd (nulls nl s)) c).
  Notation ys := (w_abs (shape_wd s) u).

  Lemma under_inv : w_inv (shape_wd (nulls nl s)) c -> w_inv (shape_wd s) u.
  Proof. destruct nl; [intros H; exact (proj1 H)|auto]. Qed.
  Lemma under_offsets : bit_offsets (nulls nl s) c =
    match m with Some b => [bm_off b] | None => [] end ++ bit_offsets s u.
  Proof. destruct nl; reflexivity. Qed.
  Lemma under_held : (held s u <= held (nulls nl s) c)%N.
  Proof. destruct nl; cbn [nulls un_null held]; lia. Qed.
  Lemma under_typed : typed (nulls nl s) c ->
    typed s u /\ match m with Some b => bytes (v_items (bm_buf b)) | None => True end.
  Proof. destruct nl; cbn [nulls un_null bits_under typed]; tauto. Qed.

  Lemma under_bits : w_inv (shape_wd (nulls nl s)) c ->
    match m with
    | Some b => bm_ok b /\ bm_bits b = length xs /\ length xs <= length ys
    | None => length xs = length ys
    end.
  Proof. intros Hb. destruct nl; [exact (v_bits s c Hb)|reflexivity]. Qed.
  Lemma under_count : w_inv (shape_wd (nulls nl s)) c ->
    vb_null_count m = Ret (nones_of nl s xs) /\ nones_of nl s xs <= length xs /\
    nones_of nl s xs = match m with Some b => count_false (bm_abs b) | None => 0 end.
  Proof.
    intros Hb. destruct nl; [exact (v_count s c Hb)|]. cbn [nones_of bits_under vb_null_count].
    split; [reflexivity|]. split; [lia|reflexivity].
  Qed.
  (** The items of the array, if its first buffer is the validity bitmap. *)
  Lemma under_holds a addr (P : nat -> cA (coll s) -> Prop) : w_inv (shape_wd (nulls nl s)) c -> bits_offset m = 0%N ->
    buffer a 0 = bits_ptr addr m ->
    (forall i y, nth_error ys i = Some y -> P i y) ->
    forall i x, nth_error xs i = Some x -> holds_null nl s a i (P i) x.
  Proof.
    intros Hb Ho Ea HP i x Hx. revert c Hb Ho Ea HP x Hx.
    destruct nl; [|intros c Hb Ho Ea HP x Hx; exact (HP i x Hx)].
    intros v Hb Ho Ea HP x Hx. destruct (v_valid s v i x Hx) as [H1 H2].
    cbn [bits_under] in *.
    assert (Hv : valid_at a i (is_some x)).
    { unfold valid_at. rewrite Ea. clear Ea. change (va_bm v) with (@va_bm (cC (coll s)) v) in *.
      destruct (@va_bm (cC (coll s)) v) as [b|]; cbn [bits_ptr vec_ptr]; [|exact H1].
      unfold bit_at. cbn [cb_data]. cbn [bits_offset] in Ho. unfold bm_abs in H1.
      replace (bm_off b) with 0 in H1 by lia. cbn [skipn] in H1.
      destruct (Nat.ltb i (bm_bits b)) eqn:El.
      - rewrite nth_error_firstn_lt in H1 by lia. exact H1.
      - assert (Hn : nth_error (firstn (bm_bits b) (bits_of (v_items (bm_buf b)))) i = None)
          by (apply nth_error_None; rewrite firstn_length; lia). congruence. }
    destruct x as [x|]; cbn [holds_null is_some] in *; [|exact Hv].
    split; [exact Hv|]. apply HP. exact (H2 x eq_refl).
  Qed.
End Under.

(** ** Lists *)

Lemma wrep_slices K d kd o ls : wof_rep K d kd o ls ->
  S (length ls) = length (v_items (of_offs o)) /\
  forall i a b, nth_error (v_items (of_offs o)) i = Some a ->
    nth_error (v_items (of_offs o)) (S i) = Some b ->
    nth_error ls i = Some (firstn (Z.to_nat b - Z.to_nat a)
      (skipn (Z.to_nat a) (w_abs d (of_data o)))).
Proof.
  intros Hr. pose proof Hr as (_ & _ & Hi & (rest & Ha) & _). split.
  - rewrite Hi. cbn [length]. rewrite ends_length. auto.
  - intros i a b Hna Hnb.
    assert (Hlt : S i < length (v_items (of_offs o))) by (apply nth_error_Some; congruence).
    rewrite Hi in Hlt. cbn [length] in Hlt. rewrite ends_length in Hlt.
    destruct (nth_error ls i) as [l|] eqn:El; [|apply nth_error_None in El; lia].
    rewrite (wof_nth K d kd o ls i Hr) in Hna by lia.
    rewrite (wof_nth K d kd o ls (S i) Hr) in Hnb by lia.
    assert (a = Z.of_nat (length (concat (firstn i ls)))) as -> by congruence.
    assert (b = Z.of_nat (length (concat (firstn (S i) ls)))) as -> by congruence.
    rewrite !Nat2Z.id. f_equal.
    rewrite (firstn_S_nth ls i l El), concat_app, app_length. cbn [concat]. rewrite app_nil_r.
    replace (length (concat (firstn i ls)) + length l - length (concat (firstn i ls)))
      with (length l) by lia.
    rewrite Ha, (nth_split_row ls i l El), <- !app_assoc.
    rewrite skipn_app_exact, firstn_app_exact by auto. reflexivity.
Qed.
Lemma wrep_valid K d kd o ls : wof_rep K d kd o ls ->
  offsets_ok (v_items (of_offs o)) (length (w_abs d (of_data o))) /\
  forall i z, nth_error (v_items (of_offs o)) i = Some z -> (0 <= z <= omax kd)%Z.
Proof.
  intros (H1 & _ & Hi & (rest & Ha) & Hm).
  destruct (ends_start_ok ls) as [G1 G2]. rewrite Hi. split.
  - split; [discriminate|]. split; [exact G1|]. rewrite G2, Ha, app_length. lia.
  - intros i z Hz. pose proof (last_nth_ok _ _ _ G1 Hz). destruct G1 as (G0 & G1 & G3).
    split; [eapply G1; exact Hz|]. lia.
Qed.
Lemma offsets_ok_firstn zs n m : offsets_ok zs n -> 0 < m -> offsets_ok (firstn m zs) n.
Proof.
  intros (H1 & H2 & H3) Hm.
  assert (F : forall i z, nth_error (firstn m zs) i = Some z -> nth_error zs i = Some z).
  { intros i z E. assert (i < length (firstn m zs)) by (apply nth_error_Some; congruence).
    rewrite firstn_length in *. rewrite nth_error_firstn_lt in E by lia. exact E. }
  split; [destruct zs, m; try lia; try congruence; discriminate|].
  split.
  - destruct H2 as (G1 & G2 & G3). split; [intros z E; apply G1, F, E|].
    split; [intros i z E; exact (G2 _ _ (F _ _ E))|]. intros i a b Ea Eb. exact (G3 _ _ _ (F _ _ Ea) (F _ _ Eb)).
  - assert (E : firstn m zs <> []) by (destruct zs, m; try lia; try congruence; discriminate).
    destruct (exists_last E) as (p & z & Ep). rewrite Ep, last_last.
    pose proof (last_nth_ok zs (length p) z H2) as G.
    assert (nth_error zs (length p) = Some z); [|specialize (G ltac:(assumption)); lia].
    apply F. rewrite Ep, nth_error_app2, Nat.sub_diag by lia. reflexivity.
Qed.

(** ** Lengths *)

Lemma abs_held s : forall c, w_inv (shape_wd s) c -> (lenN (w_abs (shape_wd s) c) <= held s c)%N.
Proof.
  induction s as [p| |s IH|n s IH|k s IH|A a0 z]; intros c Hc.
  - apply N.le_refl.
  - change (lenN (bm_abs c) <= held SBits c)%N. unfold lenN. rewrite (bm_abs_length c Hc).
    cbn [held]. lia.
  - change (validity (cC (coll s))) in c. destruct Hc as [H1 _]. specialize (IH _ H1).
    change (lenN (wva_abs (coll s) (shape_wd s) c) <= held (SNull s) c)%N.
    unfold wva_abs, lenN in *. rewrite mask_length. cbn [held].
    set (m := length (w_abs (shape_wd s) (va_coll c))) in *. lia.
  - specialize (IH c Hc). change (lenN (chunks n (w_abs (shape_wd s) c)) <= held s c)%N.
    unfold lenN in *. rewrite chunks_length.
    pose proof (Nat.div_le_upper_bound (length (w_abs (shape_wd s) c)) n (length (w_abs (shape_wd s) c))) as H.
    destruct n as [|n]; [cbn [Nat.div]; lia|]. specialize (H ltac:(lia) ltac:(nia)). lia.
  - change (offsets (cC (coll s))) in c. change (wof_inv (coll s) (shape_wd s) k c) in Hc.
    destruct (wrep_slices _ _ _ _ _ (wof_inv_rep _ _ _ _ Hc)) as [R1 _].
    change (lenN (wof_abs (coll s) (shape_wd s) c) <= held (SList k s) c)%N.
    unfold lenN in *. cbn [held]. unfold lenN. lia.
  - apply N.le_refl.
Qed.

Lemma fixed_fill nl n s (c : cC (coll (nulls nl (SFixed n s)))) : 0 < n -> widths_pos s ->
  w_inv (shape_wd (nulls nl (SFixed n s))) c ->
  (rows_fill (nulls nl (SFixed n s)) c <->
   length (w_abs (shape_wd s) (un_null nl (SFixed n s) c)) =
     length (w_abs (shape_wd (nulls nl (SFixed n s))) c) * n /\
   rows_fill s (un_null nl (SFixed n s) c)).
Proof.
  intros Hn Hw Hc. pose proof (under_inv nl (SFixed n s) c Hc) as Hu.
  pose proof (ww_len _ _ _ (shape_wlaws s Hw) _ Hu) as L1.
  assert (L2 : k_len (coll (SFixed n s)) (un_null nl (SFixed n s) c) =
    Ret (length (w_abs (shape_wd s) (un_null nl (SFixed n s) c)) / n)).
  { rewrite (ww_len _ _ _ (shape_wlaws (SFixed n s) (conj Hn Hw)) _ Hu). f_equal. apply chunks_length. }
  destruct nl.
  - change (validity (cC (coll (SFixed n s)))) in c. cbn [nulls un_null] in *.
    pose proof (ww_len _ _ _ (shape_wlaws (SNull (SFixed n s)) (conj Hn Hw)) c Hc) as L3.
    cbn [rows_fill is_fixed].
    change (k_len (coll (SNull (SFixed n s))) c = Ret (length (w_abs (shape_wd (SNull (SFixed n s))) c))) in L3.
    rewrite L3, L2. change (cC (coll (SFixed n s))) with (cC (coll s)) in *. rewrite L1.
    set (m := length (w_abs (shape_wd s) (va_coll c))) in *.
    set (q := length (w_abs (shape_wd (SNull (SFixed n s))) c)) in *. clearbody q m. split.
    + intros (A1 & (x & A2) & A3). split; [|exact A3]. specialize (A1 eq_refl).
      injection A1 as A1. injection A2 as A2. rewrite A2, Nat.div_mul in A1 by lia. lia.
    + intros (A1 & A2). split; [intros _; rewrite A1, Nat.div_mul by lia; reflexivity|].
      split; [exists q; rewrite A1; reflexivity|exact A2].
  - cbn [nulls un_null rows_fill] in *. change (cC (coll (SFixed n s))) with (cC (coll s)) in *.
    rewrite L1.
    assert (L4 : length (w_abs (shape_wd (SFixed n s)) c) = length (w_abs (shape_wd s) c) / n)
      by exact (chunks_length n (w_abs (shape_wd s) c)).
    rewrite L4. set (m := length (w_abs (shape_wd s) c)) in *. clearbody m. split.
    + intros ((x & A2) & A3). split; [|exact A3]. injection A2 as A2.
      rewrite A2, Nat.div_mul by lia. reflexivity.
    + intros (A1 & A2). split; [exists (m / n); congruence|exact A2].
Qed.
Lemma list_fill nl k s (c : cC (coll (nulls nl (SList k s)))) :
  rows_fill (nulls nl (SList k s)) c <->
  rows_fill s (of_data (un_null nl (SList k s) c : offsets (cC (coll s)))).
Proof.
  destruct nl; cbn [nulls rows_fill un_null is_fixed]; [|reflexivity].
  split; [intros [_ H]; exact H|]. intros H. split; [discriminate|exact H].
Qed.

(** ** One level *)

Lemma x_len t (c : cC (layout t)) : widths_pos (shape_of t) -> w_inv (shape_wd (shape_of t)) c ->
  (held (shape_of t) c < 2 ^ 63)%N ->
  xout (obind (k_len (layout t) c) i64_from) =
    XOk (Z.of_nat (length (w_abs (shape_wd (shape_of t)) c))) /\
  (Z.of_nat (length (w_abs (shape_wd (shape_of t)) c)) <= i64_max)%Z.
Proof.
  intros Hw Hb Hh. unfold layout. rewrite (ww_len _ _ _ (shape_wlaws _ Hw) c Hb). cbn [obind].
  pose proof (abs_held _ c Hb) as Hu. unfold lenN in Hu.
  set (n := length (w_abs (shape_wd (shape_of t)) c)) in *. unfold i64_from, i64_max.
  change (2 ^ 63)%N with 9223372036854775808%N in Hh.
  replace (Z.of_nat n <=? 9223372036854775807)%Z with true by (symmetry; lia). split; [reflexivity|lia].
Qed.
Lemma x_nulls t (c : cC (layout t)) : widths_pos (shape_of t) -> w_inv (shape_wd (shape_of t)) c ->
  (held (shape_of t) c < 2 ^ 63)%N ->
  xout (x_null_count t c) =
    XOk (Z.of_nat (null_items t (w_abs (shape_wd (shape_of t)) c))).
Proof.
  intros Hw Hb Hh. destruct (x_len t c Hw Hb Hh) as [_ Hl].
  assert (G : vb_null_count (top_bits t c) = Ret (null_items t (w_abs (shape_wd (shape_of t)) c)) /\
    null_items t (w_abs (shape_wd (shape_of t)) c) <= length (w_abs (shape_wd (shape_of t)) c)).
  { destruct t as [nl|p nl|n t nl|k t nl]; cbn [shape_of top_bits null_items] in *.
    - destruct (under_count nl SBits c Hb) as (H1 & H2 & _). split; [exact H1|exact H2].
    - destruct (under_count nl (SVec p) c Hb) as (H1 & H2 & _). split; [exact H1|exact H2].
    - assert (Hw' : widths_pos (SFixed n (shape_of t))) by (destruct nl; exact Hw).
      destruct (under_count nl _ c Hb) as (H1 & H2 & _). split; [exact H1|exact H2].
    - assert (Hw' : widths_pos (SList k (shape_of t))) by (destruct nl; exact Hw).
      destruct (under_count nl _ c Hb) as (H1 & H2 & _). split; [exact H1|exact H2]. }
  destruct G as [G1 G2]. unfold x_null_count. rewrite G1. cbn [obind]. unfold i64_from.
  set (n := null_items t (w_abs (shape_wd (shape_of t)) c)) in *.
  replace (Z.of_nat n <=? i64_max)%Z with true by (symmetry; lia). reflexivity.
Qed.

(** The array of one level, given those of its children. *)
Definition level (mem : block -> N) (d : nat) (t : ty) (c : cC (layout t)) (kids : list carray) : carray :=
  into_array (x_buffers mem d t c) kids
    (Z.of_nat (length (w_abs (shape_wd (shape_of t)) c)))
    (Z.of_nat (null_items t (w_abs (shape_wd (shape_of t)) c))).
Lemma child_array_level mem d t (c : cC (layout t)) : widths_pos (shape_of t) ->
  w_inv (shape_wd (shape_of t)) c -> (held (shape_of t) c < 2 ^ 63)%N ->
  child_array mem d t c =
    if (x_offset t c =? 0)%N
    then xbind (x_children mem d t c) (fun kids => XOk (level mem d t c kids))
    else XErr (x_offset t c).
Proof.
  intros Hw Hb Hh. destruct (x_len t c Hw Hb Hh) as [E1 _]. pose proof (x_nulls t c Hw Hb Hh) as E2.
  transitivity (if (x_offset t c =? 0)%N then
    xbind (xout (obind (k_len (layout t) c) i64_from)) (fun len =>
    xbind (xout (x_null_count t c)) (fun nulls =>
    xbind (x_children mem d t c) (fun kids =>
    XOk (into_array (x_buffers mem d t c) kids len nulls))))
    else XErr (x_offset t c)); [destruct t; reflexivity|].
  destruct (x_offset t c =? 0)%N; [|reflexivity]. rewrite E1. cbn [xbind]. rewrite E2. reflexivity.
Qed.
Lemma export_level mem t (c : cC (layout t)) : widths_pos (shape_of t) ->
  w_inv (shape_wd (shape_of t)) c -> (held (shape_of t) c < 2 ^ 63)%N ->
  export mem t c =
    if (x_offset t c =? 0)%N
    then xbind (x_children mem 0 t c) (fun kids => XOk (level mem 0 t c kids, schema_of t))
    else XErr (x_offset t c).
Proof.
  intros Hw Hb Hh. destruct (x_len t c Hw Hb Hh) as [E1 _]. pose proof (x_nulls t c Hw Hb Hh) as E2.
  unfold export. destruct (x_offset t c =? 0)%N; [|reflexivity].
  destruct (x_children mem 0 t c) as [kids| |]; cbn [xbind]; [|reflexivity|reflexivity].
  rewrite E1. cbn [xbind]. rewrite E2. reflexivity.
Qed.

(** [describes] without the lengths of the children of fixed-size lists. *)
Fixpoint nearly (t : ty) (a : carray) (s : cschema) {struct t} : Prop :=
  header t a s /\ nulls_ok (nullable t) a /\
  (nullable t = true -> buffer a 0 = None -> a_length a = 0%Z \/ a_null_count a = 0%Z) /\
  match t with
  | TBool _ => (a_length a <> 0%Z -> buffer a 1 <> None)
  | TPrim p _ => (a_length a <> 0%Z -> aligned_at a (psz p))
  | TFsl n t _ => 0 < n /\
      exists ca cs, child a = Some ca /\ schema_child s = Some cs /\ nearly t ca cs
  | TVsl k t _ => aligned_at a (osz k) /\
      exists ca cs, child a = Some ca /\ schema_child s = Some cs /\ nearly t ca cs /\
        exists b zs, buffer a 1 = Some b /\ Z.of_nat (length zs) = (a_length a + 1)%Z /\
          (forall i z, nth_error zs i = Some z -> offset_at k b i z) /\
          offsets_ok zs (Z.to_nat (a_length ca))
  end.

(** What is known of the array of one level. *)
Definition exported (mem : block -> N) (d : nat) (t : ty) (c : cC (layout t)) (a : carray) : Prop :=
  let xs := w_abs (shape_wd (shape_of t)) c in
  a_length a = Z.of_nat (length xs) /\ a_null_count a = Z.of_nat (null_items t xs) /\
  a_live a = true /\
  (typed (shape_of t) c ->
     (forall i x, nth_error xs i = Some x -> holds t a i x) /\
     readable t a (schema_of t) /\
     (aligned mem d t -> arrow_type t -> nearly t a (schema_of t) /\
        (describes t a (schema_of t) <-> rows_fill (shape_of t) c))).

Lemma level_nulls nl s (c : cC (coll (nulls nl s))) addr rest kids :
  w_inv (shape_wd (nulls nl s)) c -> bits_offset (bits_under nl s c) = 0%N ->
  let xs := w_abs (shape_wd (nulls nl s)) c in
  let a := into_array (bits_ptr addr (bits_under nl s c) :: rest) kids
    (Z.of_nat (length xs)) (Z.of_nat (nones_of nl s xs)) in
  nulls_ok nl a /\ (nl = true -> buffer a 0 = None -> a_length a = 0%Z \/ a_null_count a = 0%Z) /\
  (nl = true -> holds_bytes a 0 ((a_length a + 7) / 8)) /\
  (typed (nulls nl s) c -> in_memory a 0).
Proof.
  intros Hb Ho xs a.
  assert (E0 : buffer a 0 = bits_ptr addr (bits_under nl s c)) by reflexivity.
  pose proof (under_bits nl s c Hb) as H1. destruct (under_count nl s c Hb) as (_ & H2 & H3).
  fold xs in H1, H2, H3. split; [|split; [|split]].
  - right. unfold nulls_ok. rewrite E0. change (a_null_count a) with (Z.of_nat (nones_of nl s xs)).
    change (a_length a) with (Z.of_nat (length xs)). rewrite Nat2Z.id. rewrite H3. clear H2 H3 E0. clearbody xs.
    destruct nl; [|reflexivity]. destruct (bits_under true s c) as [b|]; [|reflexivity].
    cbn [bits_ptr vec_ptr cb_data]. cbn [bits_offset] in Ho. destruct H1 as (_ & H1 & _).
    unfold bm_abs. replace (bm_off b) with 0 by lia. cbn [skipn]. rewrite H1. reflexivity.
  - intros _ En. right. change (a_null_count a) with (Z.of_nat (nones_of nl s xs)). rewrite E0 in En.
    destruct (bits_under nl s c) as [b|]; [discriminate|]. rewrite H3. reflexivity.
  - intros _ b Eb. change (a_length a) with (Z.of_nat (length xs)). rewrite E0 in Eb.
    destruct (bits_under nl s c) as [m|]; [|discriminate]. injection Eb as <-. cbn [cb_data].
    destruct H1 as ([_ H1] & H4 & _). cbn [bits_offset] in Ho. clearbody xs. rewrite <- H4. lia.
  - intros Ht b Eb. apply under_typed in Ht as [_ Ht]. rewrite E0 in Eb.
    destruct (bits_under nl s c) as [m|]; [|discriminate]. injection Eb as <-. cbn [cb_data].
    split; [exact Ht|]. destruct H1 as ([[V1 V2] _] & _). rewrite max_items_u8 in V2. lia.
Qed.

Lemma null_items_le t (c : cC (layout t)) : widths_pos (shape_of t) -> w_inv (shape_wd (shape_of t)) c ->
  null_items t (w_abs (shape_wd (shape_of t)) c) <= length (w_abs (shape_wd (shape_of t)) c) /\
  (nullable t = false -> null_items t (w_abs (shape_wd (shape_of t)) c) = 0).
Proof.
  intros Hw Hb. destruct t as [nl|p nl|n t nl|k t nl]; cbn [shape_of null_items nullable] in *.
  - split; [exact (proj1 (proj2 (under_count nl SBits c Hb)))|intros ->; reflexivity].
  - split; [exact (proj1 (proj2 (under_count nl (SVec p) c Hb)))|intros ->; reflexivity].
  - assert (Hw' : widths_pos (SFixed n (shape_of t))) by (destruct nl; exact Hw).
    split; [exact (proj1 (proj2 (under_count nl _ c Hb)))|intros ->; reflexivity].
  - assert (Hw' : widths_pos (SList k (shape_of t))) by (destruct nl; exact Hw).
    split; [exact (proj1 (proj2 (under_count nl _ c Hb)))|intros ->; reflexivity].
Qed.
Lemma level_header mem d t (c : cC (layout t)) kids : widths_pos (shape_of t) ->
  w_inv (shape_wd (shape_of t)) c -> arrow_type t -> length kids = children_of t ->
  header t (level mem d t c kids) (schema_of t).
Proof.
  intros Hw Hb Ht Hk. destruct (null_items_le t c Hw Hb) as [Hn Hz]. unfold level.
  set (xs := w_abs (shape_wd (shape_of t)) c) in *. set (n := null_items t xs) in *.
  unfold header. cbn [into_array a_live a_length a_offset a_null_count a_n_buffers a_n_children
    a_buffers a_children a_dictionary].
  assert (Es : s_live (schema_of t) = true /\ s_format (schema_of t) = Some (format_of t) /\
    s_flags (schema_of t) = flags_of t /\ s_n_children (schema_of t) = Z.of_nat (children_of t) /\
    s_dictionary (schema_of t) = None /\ (children_of t = 1 -> s_children (schema_of t) <> None)).
  { destruct t; repeat split; discriminate. }
  destruct Es as (S1 & S2 & S3 & S4 & S5 & S6).
  split; [reflexivity|]. split; [exact S1|].
  split; [exists (format_of t); split; [exact S2|apply format_of_matches; exact Ht]|].
  split. { rewrite S3. unfold flags_of. destruct (nullable t); reflexivity. }
  split; [lia|]. split; [reflexivity|]. split; [lia|]. split; [intros E; specialize (Hz E); lia|].
  split; [destruct t; reflexivity|]. split; [rewrite Hk; reflexivity|]. split; [exact S4|].
  split; [reflexivity|]. split; [exact S5|]. split; [destruct t; discriminate|].
  intros E. split; [|exact (S6 E)]. rewrite E in Hk. destruct kids; discriminate.
Qed.

Lemma first_app m l : first_nonzero (match m with Some b => [bm_off b] | None => [] end ++ l) =
  if (bits_offset m =? 0)%N then first_nonzero l else option_map bm_off m.
Proof.
  destruct m as [b|]; cbn [bits_offset app option_map]; [|reflexivity].
  unfold first_nonzero. cbn [find]. destruct (bm_off b); reflexivity.
Qed.

Lemma bits_exported nl mem d (c : cC (layout (TBool nl))) : w_inv (shape_wd (nulls nl SBits)) c ->
  (held (nulls nl SBits) c < 2 ^ 63)%N ->
  bits_offset (bits_under nl SBits c) = 0%N -> bm_off (un_null nl SBits c) = 0 ->
  exported mem d (TBool nl) c (level mem d (TBool nl) c []).
Proof.
  intros Hb Hh Ho Hv. pose proof (nulls_pos nl SBits I) as Hw.
  set (a := level mem d (TBool nl) c []).
  destruct (level_nulls nl SBits c (mem (BValidity d))
    [vec_ptr (mem (BValues d)) (v_items (bm_buf (un_null nl SBits c)))] [] Hb Ho) as (N1 & N2 & N3 & N4).
  fold (level mem d (TBool nl) c []) in *.
  pose proof (under_bits nl SBits c Hb) as Hub.
  pose proof (under_inv nl SBits c Hb) as Hok.
  change (bm_ok (un_null nl SBits c)) in Hok.
  assert (E1 : buffer a 1 = Some (CBuf (mem (BValues d)) (v_items (bm_buf (un_null nl SBits c))))) by reflexivity.
  assert (Hlen : length (w_abs (shape_wd (nulls nl SBits)) c) <= bm_bits (un_null nl SBits c)).
  { rewrite <- (bm_abs_length _ Hok).
    change (length (w_abs (shape_wd (nulls nl SBits)) c) <= length (w_abs (shape_wd SBits) (un_null nl SBits c))).
    destruct (bits_under nl SBits c); [apply Hub|rewrite Hub; apply Nat.le_refl]. }
  split; [reflexivity|]. split; [reflexivity|]. split; [reflexivity|]. intros Ht.
  split; [|split].
  - refine (under_holds nl SBits c a (mem (BValidity d)) _ Hb Ho eq_refl _).
    intros i y Hy. eexists. split; [exact E1|]. unfold bit_at. cbn [cb_data].
    change (nth_error (bm_abs (un_null nl SBits c)) i = Some y) in Hy. unfold bm_abs in Hy.
    rewrite Hv in Hy. cbn [skipn] in Hy.
    assert (Hlt : i < length (firstn (bm_bits (un_null nl SBits c)) (bits_of (v_items (bm_buf (un_null nl SBits c))))))
      by (apply nth_error_Some; rewrite Hy; discriminate).
    rewrite firstn_length in Hlt. rewrite nth_error_firstn_lt in Hy by lia. exact Hy.
  - cbn [readable]. split. { intros l [= <-]. cbn. lia. }
    split; [discriminate|]. split; [discriminate|]. split; [exact (N4 Ht)|].
    destruct (under_typed nl SBits c Ht) as [Ht1 _]. destruct Hok as [[V1 V2] Hfit].
    rewrite max_items_u8 in V2. split.
    { intros b Eb. rewrite E1 in Eb. injection Eb as <-. cbn [cb_data]. split; [exact Ht1|]. lia. }
    split; [|exact I]. intros _. split; [exact N3|]. intros b Eb. rewrite E1 in Eb. injection Eb as <-.
    cbn [cb_data]. change (a_length a) with (Z.of_nat (length (w_abs (shape_wd (nulls nl SBits)) c))).
    set (q := length (w_abs (shape_wd (nulls nl SBits)) c)) in *. lia.
  - intros _ Har. assert (Hh' : header (TBool nl) a (schema_of (TBool nl))) by (apply level_header; auto).
    assert (E2 : a_length a <> 0%Z -> buffer a 1 <> None) by (intros _; rewrite E1; discriminate).
    split; [exact (conj Hh' (conj N1 (conj N2 E2)))|].
    split; intros _; [|apply describes_intro; auto].
    destruct nl; cbn [shape_of nulls rows_fill is_fixed]; [split; [discriminate|exact I]|exact I].
Qed.

Lemma prim_exported p nl mem d (c : cC (layout (TPrim p nl))) : w_inv (shape_wd (nulls nl (SVec p))) c ->
  (held (nulls nl (SVec p)) c < 2 ^ 63)%N ->
  bits_offset (bits_under nl (SVec p) c) = 0%N ->
  exported mem d (TPrim p nl) c (level mem d (TPrim p nl) c []).
Proof.
  intros Hb Hh Ho. pose proof (nulls_pos nl (SVec p) I) as Hw.
  set (a := level mem d (TPrim p nl) c []).
  set (w := N.to_nat (psz p)).
  set (items := v_items (un_null nl (SVec p) c) : list N).
  destruct (level_nulls nl (SVec p) c (mem (BValidity d))
    [vec_ptr (mem (BValues d)) (flat_map (le_bytes w) items)] [] Hb Ho) as (N1 & N2 & N3 & N4).
  fold (level mem d (TPrim p nl) c []) in *.
  pose proof (under_bits nl (SVec p) c Hb) as Hub.
  pose proof (under_inv nl (SVec p) c Hb) as Hok.
  change (vec_ok (psz p) (un_null nl (SVec p) c)) in Hok.
  assert (E1 : buffer a 1 = Some (CBuf (mem (BValues d)) (flat_map (le_bytes w) items))) by reflexivity.
  assert (Hlen : length (w_abs (shape_wd (nulls nl (SVec p))) c) <= length items).
  { change (length (w_abs (shape_wd (nulls nl (SVec p))) c) <= length (w_abs (shape_wd (SVec p)) (un_null nl (SVec p) c))).
    destruct (bits_under nl (SVec p) c); [apply Hub|rewrite Hub; apply Nat.le_refl]. }
  assert (Hfl : length (flat_map (le_bytes w) items) = length items * w).
  { apply flat_words_length. apply le_bytes_length. }
  split; [reflexivity|]. split; [reflexivity|]. split; [reflexivity|]. intros Ht.
  destruct (under_typed nl (SVec p) c Ht) as [Ht1 _].
  assert (Ht2 : Forall (fun x => x < 256 ^ psz p)%N items) by exact Ht1.
  split; [|split].
  - refine (under_holds nl (SVec p) c a (mem (BValidity d)) _ Hb Ho eq_refl _).
    intros i y Hy. eexists. split; [exact E1|]. fold w.
    change (nth_error items i = Some y) in Hy.
    assert (Hi : i < length items) by (apply nth_error_Some; rewrite Hy; discriminate).
    pose proof (word_at_value w (CBuf (mem (BValues d)) (flat_map (le_bytes w) items)) i) as W.
    cbn [cb_data] in W.
    rewrite (flat_words_nth (le_bytes w) w (le_bytes_length w) items i y Hy) in W.
    rewrite le_bytes_value in W.
    + apply W. rewrite Hfl. nia.
    + subst w. rewrite N2Nat.id. rewrite Forall_forall in Ht2. apply Ht2. eapply nth_error_In. exact Hy.
  - cbn [readable]. split. { intros l [= <-]. cbn. lia. }
    split; [discriminate|]. split; [discriminate|]. split; [exact (N4 Ht)|].
    destruct Hok as [V1 V2]. fold items in V1. split.
    { intros b Eb. rewrite E1 in Eb. injection Eb as <-. cbn [cb_data]. split.
      - unfold bytes. apply Forall_flat_map, Forall_forall. intros x _. apply le_bytes_byte.
      - unfold lenN in *. rewrite Hfl. subst w. unfold max_items in V2. pose proof (psz_pos p).
        assert (N.of_nat (length items) * psz p <= alloc_max)%N; [|lia].
        pose proof (N.mul_div_le alloc_max (psz p)). nia. }
    split; [|exact I]. intros _. split; [exact N3|]. intros b Eb. rewrite E1 in Eb. injection Eb as <-.
    cbn [cb_data]. change (a_length a) with (Z.of_nat (length (w_abs (shape_wd (nulls nl (SVec p))) c))).
    rewrite Hfl. subst w. tables. nia.
  - intros Hal Har.
    assert (Hh' : header (TPrim p nl) a (schema_of (TPrim p nl))) by (apply level_header; auto).
    assert (E2 : a_length a <> 0%Z -> aligned_at a (psz p)).
    { intros _. unfold aligned_at. rewrite E1. eexists. split; [reflexivity|]. exact Hal. }
    split; [exact (conj Hh' (conj N1 (conj N2 E2)))|].
    split; intros _; [|apply describes_intro; auto].
    destruct nl; cbn [shape_of nulls rows_fill is_fixed]; [split; [discriminate|exact I]|exact I].
Qed.

Lemma fixed_exported n t nl mem d (c : cC (layout (TFsl n t nl))) ca :
  widths_pos (SFixed n (shape_of t)) -> w_inv (shape_wd (nulls nl (SFixed n (shape_of t)))) c ->
  bits_offset (bits_under nl (SFixed n (shape_of t)) c) = 0%N ->
  exported mem (S d) t (un_null nl (SFixed n (shape_of t)) c) ca ->
  exported mem d (TFsl n t nl) c (level mem d (TFsl n t nl) c [ca]).
Proof.
  intros Hw Hb Ho (C1 & C2 & C3 & C4). set (s := SFixed n (shape_of t)) in *.
  set (u := un_null nl s c : cC (coll (shape_of t))) in *.
  destruct (level_nulls nl s c (mem (BValidity d)) [] [ca] Hb Ho) as (N1 & N2 & N3 & N4).
  set (a := level mem d (TFsl n t nl) c [ca]).
  pose proof (under_bits nl s c Hb) as Hub.
  pose proof (under_inv nl s c Hb) as Hbu.
  destruct Hw as [Hn Hwt]. set (cs := w_abs (shape_wd (shape_of t)) u) in *.
  assert (Hq : length (chunks n cs) * n <= length cs).
  { rewrite chunks_length, Nat.mul_comm. apply Nat.mul_div_le. lia. }
  split; [reflexivity|]. split; [reflexivity|]. split; [reflexivity|]. intros Ht.
  destruct (under_typed nl s c Ht) as [Ht1 _]. change (typed (shape_of t) u) in Ht1.
  destruct (C4 Ht1) as (C5 & C6 & C7). split; [|split].
  - refine (under_holds nl s c a (mem (BValidity d)) _ Hb Ho eq_refl _).
    intros i y Hy. change (nth_error (chunks n cs) i = Some y) in Hy.
    assert (Hi2 : i < length (chunks n cs)) by (apply nth_error_Some; rewrite Hy; discriminate).
    rewrite chunks_nth in Hy by (rewrite chunks_length in Hi2; lia). injection Hy as <-. split.
    + etransitivity; [apply firstn_length|]. rewrite skipn_length. nia.
    + exists ca. split; [reflexivity|]. intros j x Hj.
      change (nth_error (firstn n (skipn (n * i) cs)) j = Some x) in Hj.
      assert (Hlt : j < length (firstn n (skipn (n * i) cs))) by (apply nth_error_Some; rewrite Hj; discriminate).
      rewrite firstn_length in Hlt.
      rewrite nth_error_firstn_lt, nth_error_skipn_add in Hj by lia.
      apply C5. rewrite (Nat.mul_comm i n). exact Hj.
  - cbn [readable]. split. { intros l [= <-]. cbn. lia. }
    split. { intros l [= <-]. cbn. lia. }
    split. { intros l [= <-]. cbn. lia. }
    split; [exact (N4 Ht)|]. split; [intros b Eb; discriminate|].
    split; [intros _; split; [exact N3|exact I]|].
    intros ca' cs' [= <-] [= <-]. exact C6.
  - intros Hal [Hu Har]. destruct (C7 Hal Har) as [D1 D2].
    assert (Hh' : header (TFsl n t nl) a (schema_of (TFsl n t nl))).
    { apply level_header; auto; [|split; auto]. apply nulls_pos. split; assumption. }
    split; [|split].
    + refine (conj Hh' (conj N1 (conj N2 (conj Hn _)))). exists ca, (schema_of t). auto.
    + intros D. apply (fixed_fill nl n (shape_of t) c Hn Hwt Hb). cbn [describes] in D.
      destruct D as (_ & _ & _ & _ & _ & _ & _ & _ & _ & _ & _ & _ & _ & _ & _ & ca' & cs' & D3 & D4 & D5 & D6).
      injection D3 as <-. injection D4 as <-. split; [|apply D2; exact D5].
      rewrite C1 in D6. change (a_length a) with (Z.of_nat (length (w_abs (shape_wd (nulls nl s)) c))) in D6.
      apply Nat2Z.inj. rewrite Nat2Z.inj_mul. exact D6.
    + intros D. apply (fixed_fill nl n (shape_of t) c Hn Hwt Hb) in D as [D3 D4].
      apply describes_intro; auto. split; [exact Hn|]. exists ca, (schema_of t).
      split; [reflexivity|]. split; [reflexivity|]. split; [apply D2; exact D4|].
      rewrite C1. change (a_length a) with (Z.of_nat (length (w_abs (shape_wd (nulls nl s)) c))).
      rewrite <- Nat2Z.inj_mul. f_equal. exact D3.
Qed.

Lemma list_exported k t nl mem d (c : cC (layout (TVsl k t nl))) ca :
  widths_pos (shape_of t) -> w_inv (shape_wd (nulls nl (SList k (shape_of t)))) c ->
  bits_offset (bits_under nl (SList k (shape_of t)) c) = 0%N ->
  exported mem (S d) t (of_data (un_null nl (SList k (shape_of t)) c)) ca ->
  exported mem d (TVsl k t nl) c (level mem d (TVsl k t nl) c [ca]).
Proof.
  intros Hw Hb Ho (C1 & C2 & C3 & C4). set (s := SList k (shape_of t)) in *.
  set (u := un_null nl s c : offsets (cC (coll (shape_of t)))) in *.
  set (w := N.to_nat (osz k)).
  set (enc := fun z => le_bytes w (to_word (osz k) z)).
  destruct (level_nulls nl s c (mem (BValidity d))
    [vec_ptr (mem (BOffsets d)) (flat_map enc (v_items (of_offs u)))] [ca] Hb Ho) as (N1 & N2 & N3 & N4).
  set (a := level mem d (TVsl k t nl) c [ca]).
  pose proof (under_bits nl s c Hb) as Hub.
  pose proof (under_inv nl s c Hb) as Hbu.
  change (wof_inv (coll (shape_of t)) (shape_wd (shape_of t)) k u) in Hbu.
  pose proof (wof_inv_rep _ _ _ _ Hbu) as Hr.
  destruct (wrep_slices _ _ _ _ _ Hr) as [R1 R2].
  destruct (wrep_valid _ _ _ _ _ Hr) as (Hok & Hrng).
  pose proof Hr as (Hid & [V1 V2] & _).
  set (cs := w_abs (shape_wd (shape_of t)) (of_data u)) in *.
  set (ls := wof_abs (coll (shape_of t)) (shape_wd (shape_of t)) u) in *.
  set (items := v_items (of_offs u)) in *.
  assert (Hencl : forall z, length (enc z) = w) by (intros z; apply le_bytes_length).
  assert (Hfl : length (flat_map enc items) = length items * w) by (apply flat_words_length, Hencl).
  assert (E1 : buffer a 1 = Some (CBuf (mem (BOffsets d)) (flat_map enc items))) by reflexivity.
  assert (Hat : forall i z, nth_error items i = Some z ->
    offset_at k (CBuf (mem (BOffsets d)) (flat_map enc items)) i z).
  { intros i z Hz. assert (Hlt : i < length items) by (apply nth_error_Some; rewrite Hz; discriminate).
    pose proof (word_at_value w (CBuf (mem (BOffsets d)) (flat_map enc items)) i) as W. cbn [cb_data] in W.
    rewrite (flat_words_nth enc w Hencl items i z Hz) in W. unfold enc at 3 in W.
    pose proof (to_word_small k z) as Hsm.
    rewrite le_bytes_value in W by (subst w; rewrite N2Nat.id; exact Hsm).
    pose proof (of_word_at k _ i _ (W ltac:(rewrite Hfl; nia)) Hsm) as O.
    rewrite of_to_word in O; [exact O|]. pose proof (Hrng i z Hz). destruct (omax_val k) as (_ & Hmin & _). lia. }
  split; [reflexivity|]. split; [reflexivity|]. split; [reflexivity|]. intros Ht.
  destruct (under_typed nl s c Ht) as [Ht1 _]. change (typed (shape_of t) (of_data u)) in Ht1.
  destruct (C4 Ht1) as (C5 & C6 & C7). split; [|split].
  - refine (under_holds nl s c a (mem (BValidity d)) _ Hb Ho eq_refl _).
    intros i y Hy. change (nth_error ls i = Some y) in Hy.
    assert (Hlt : i < length ls) by (apply nth_error_Some; rewrite Hy; discriminate).
    destruct (nth_error items i) as [lo|] eqn:L1.
    2:{ apply nth_error_None in L1. lia. }
    destruct (nth_error items (S i)) as [hi|] eqn:L2.
    2:{ apply nth_error_None in L2. lia. }
    specialize (R2 i lo hi L1 L2). rewrite Hy in R2. injection R2 as ->.
    destruct Hok as (_ & Hst & Hlast). pose proof (last_nth_ok _ _ _ Hst L2) as H2.
    destruct Hst as (_ & Hpos & Hmon). pose proof (Hpos _ _ L1). pose proof (Hmon _ _ _ L1 L2).
    eexists. exists ca, lo, hi. split; [exact E1|]. split; [reflexivity|].
    split; [exact (Hat _ _ L1)|]. split; [exact (Hat _ _ L2)|]. split; [assumption|]. split.
    + fold cs. assert (G : length (firstn (Z.to_nat hi - Z.to_nat lo) (skipn (Z.to_nat lo) cs)) =
        Z.to_nat hi - Z.to_nat lo) by (rewrite firstn_length, skipn_length; lia).
      assert (Q : forall q : nat, q = Z.to_nat hi - Z.to_nat lo -> hi = (lo + Z.of_nat q)%Z) by lia.
      exact (Q _ G).
    + intros j x Hj.
      change (nth_error (firstn (Z.to_nat hi - Z.to_nat lo) (skipn (Z.to_nat lo) cs)) j = Some x) in Hj.
      assert (Hj2 : j < length (firstn (Z.to_nat hi - Z.to_nat lo) (skipn (Z.to_nat lo) cs)))
        by (apply nth_error_Some; rewrite Hj; discriminate).
      rewrite firstn_length in Hj2. rewrite nth_error_firstn_lt, nth_error_skipn_add in Hj by lia.
      apply C5. exact Hj.
  - cbn [readable]. split. { intros l [= <-]. cbn. lia. }
    split. { intros l [= <-]. cbn. lia. }
    split. { intros l [= <-]. cbn. lia. }
    split; [exact (N4 Ht)|]. split.
    { intros b Eb. rewrite E1 in Eb. injection Eb as <-. cbn [cb_data]. split.
      - unfold bytes. apply Forall_flat_map, Forall_forall. intros x _. apply le_bytes_byte.
      - unfold lenN in *. rewrite Hfl. subst w. unfold max_items in V2. pose proof (osz_pos k).
        fold items in V1.
        assert (N.of_nat (length items) * osz k <= alloc_max)%N; [|lia].
        pose proof (N.mul_div_le alloc_max (osz k)). nia. }
    split.
    { intros _. split; [exact N3|]. intros b Eb. rewrite E1 in Eb. injection Eb as <-.
      cbn [cb_data]. change (a_length a) with (Z.of_nat (length (w_abs (shape_wd (nulls nl s)) c))).
      rewrite Hfl. tables.
      assert (G : length (w_abs (shape_wd (nulls nl s)) c) <= length ls).
      { change (length (w_abs (shape_wd (nulls nl s)) c) <= length (w_abs (shape_wd s) (un_null nl s c))).
        destruct (bits_under nl s c); [apply Hub|rewrite Hub; apply Nat.le_refl]. }
      set (q := length (w_abs (shape_wd (nulls nl s)) c)) in *. rewrite <- R1. subst w.
      assert (Q : forall q l z, q <= l -> ((Z.of_nat q + 1) * Z.of_N z <= Z.of_nat (S l * N.to_nat z))%Z) by nia.
      exact (Q q _ _ G). }
    intros ca' cs' [= <-] [= <-]. exact C6.
  - intros [Hal1 Hal] Har. cbn [arrow_type] in Har. destruct (C7 Hal Har) as [D1 D2].
    assert (Hh' : header (TVsl k t nl) a (schema_of (TVsl k t nl))).
    { apply level_header; auto. apply nulls_pos. exact Hw. }
    assert (Hal2 : aligned_at a (osz k)) by (eexists; split; [exact E1|exact Hal1]).
    assert (Hzs : exists b zs, buffer a 1 = Some b /\ Z.of_nat (length zs) = (a_length a + 1)%Z /\
      (forall i z, nth_error zs i = Some z -> offset_at k b i z) /\
      offsets_ok zs (Z.to_nat (a_length ca))).
    { assert (G : length (w_abs (shape_wd (nulls nl s)) c) <= length ls).
      { change (length (w_abs (shape_wd (nulls nl s)) c) <= length (w_abs (shape_wd s) (un_null nl s c))).
        destruct (bits_under nl s c); [apply Hub|rewrite Hub; apply Nat.le_refl]. }
      change (a_length a) with (Z.of_nat (length (w_abs (shape_wd (nulls nl s)) c))).
      set (q := length (w_abs (shape_wd (nulls nl s)) c)) in *. clearbody q.
      eexists. exists (firstn (S q) items). split; [exact E1|]. split.
      { rewrite firstn_length, <- R1. lia. }
      split; [|rewrite C1, Nat2Z.id; apply offsets_ok_firstn; [exact Hok|lia]].
      intros i z Hz. apply Hat. assert (Hlt : i < length (firstn (S q) items)) by (apply nth_error_Some; congruence).
      rewrite firstn_length in Hlt. rewrite nth_error_firstn_lt in Hz by lia. exact Hz. }
    split; [|split].
    + refine (conj Hh' (conj N1 (conj N2 (conj Hal2 _)))). exists ca, (schema_of t). auto.
    + intros D. apply (list_fill nl k (shape_of t) c). cbn [describes] in D.
      destruct D as (_ & _ & _ & _ & _ & _ & _ & _ & _ & _ & _ & _ & _ & _ & _ & ca' & cs' & D3 & D4 & D5 & _).
      injection D3 as <-. injection D4 as <-. apply D2. exact D5.
    + intros D. apply (list_fill nl k (shape_of t) c) in D.
      apply describes_intro; auto. split; [exact Hal2|]. exists ca, (schema_of t).
      split; [reflexivity|]. split; [reflexivity|]. split; [apply D2; exact D|exact Hzs].
Qed.

Lemma child_array_spec mem t : forall d (c : cC (layout t)), widths_pos (shape_of t) ->
  w_inv (shape_wd (shape_of t)) c -> (held (shape_of t) c < 2 ^ 63)%N ->
  match first_nonzero (bit_offsets (shape_of t) c) with
  | Some o => child_array mem d t c = XErr (N.of_nat o)
  | None => exists kids, x_offset t c = 0%N /\ x_children mem d t c = XOk kids /\
      child_array mem d t c = XOk (level mem d t c kids) /\
      exported mem d t c (level mem d t c kids)
  end.
Proof.
  induction t as [nl|p nl|n t IH nl|k t IH nl]; intros d c Hw Hb Hh;
    rewrite (child_array_level mem d _ c Hw Hb Hh); cbn [shape_of] in *;
    rewrite under_offsets, first_app; cbn [x_offset].
  - destruct (bits_offset (bits_under nl SBits c) =? 0)%N eqn:E0.
    + cbn [bit_offsets]. unfold first_nonzero. cbn [find].
      destruct (Nat.eqb (bm_off (un_null nl SBits c)) 0) eqn:E1; cbn [negb].
      * apply Nat.eqb_eq in E1. rewrite E1. exists []. cbn [x_children xbind].
        split; [reflexivity|]. split; [reflexivity|]. split; [reflexivity|]. apply bits_exported; auto. lia.
      * replace (N.of_nat (bm_off (un_null nl SBits c)) =? 0)%N with false by (symmetry; lia). reflexivity.
    + destruct (bits_under nl SBits c) as [b|]; cbn [bits_offset option_map] in *; [|discriminate].
      rewrite E0. reflexivity.
  - destruct (bits_offset (bits_under nl (SVec p) c) =? 0)%N eqn:E0.
    + cbn [bit_offsets first_nonzero find]. exists []. cbn [x_children xbind].
      split; [lia|]. split; [reflexivity|]. split; [reflexivity|]. apply prim_exported; auto. lia.
    + destruct (bits_under nl (SVec p) c) as [b|]; cbn [bits_offset option_map] in *; [|discriminate].
      reflexivity.
  - assert (Hw' : widths_pos (SFixed n (shape_of t))) by (destruct nl; exact Hw).
    set (s := SFixed n (shape_of t)) in *.
    destruct (bits_offset (bits_under nl s c) =? 0)%N eqn:E0.
    + pose proof (under_inv nl s c Hb) as Hbu. destruct Hw' as [Hn Hwt].
      set (u := un_null nl s c : cC (coll (shape_of t))) in *.
      assert (Hbt : w_inv (shape_wd (shape_of t)) u) by exact Hbu.
      assert (Hht : (held (shape_of t) u < 2 ^ 63)%N).
      { pose proof (under_held nl s c) as Hle. change (held (shape_of t) u <= held (nulls nl s) c)%N in Hle. lia. }
      specialize (IH (S d) u Hwt Hbt Hht).
      change (bit_offsets s u) with (bit_offsets (shape_of t) u).
      destruct (first_nonzero (bit_offsets (shape_of t) u)) as [o|].
      * cbn [x_children]. fold s. fold u. rewrite IH. reflexivity.
      * destruct IH as (kids & _ & _ & E1 & E2). cbn [x_children]. fold s. fold u. rewrite E1. cbn [xbind].
        exists [level mem (S d) t u kids]. split; [lia|]. split; [reflexivity|]. split; [reflexivity|].
        apply fixed_exported; auto; [split; assumption|]. fold s. lia.
    + destruct (bits_under nl s c) as [b|]; cbn [bits_offset option_map] in *; [|discriminate].
      reflexivity.
  - assert (Hw' : widths_pos (shape_of t)) by (destruct nl; exact Hw).
    set (s := SList k (shape_of t)) in *.
    destruct (bits_offset (bits_under nl s c) =? 0)%N eqn:E0.
    + pose proof (under_inv nl s c Hb) as Hbu.
      set (u := un_null nl s c : offsets (cC (coll (shape_of t)))) in *.
      assert (Hbt : w_inv (shape_wd (shape_of t)) (of_data u)) by (destruct Hbu as (ls & Hr & _); exact Hr).
      assert (Hht : (held (shape_of t) (of_data u) < 2 ^ 63)%N).
      { pose proof (under_held nl s c) as Hle.
        change (held (shape_of t) (of_data u) + (lenN (v_items (of_offs u)) - 1) <= held (nulls nl s) c)%N in Hle. lia. }
      specialize (IH (S d) (of_data u) Hw' Hbt Hht).
      change (bit_offsets s u) with (bit_offsets (shape_of t) (of_data u)).
      destruct (first_nonzero (bit_offsets (shape_of t) (of_data u))) as [o|].
      * assert (E1 : x_children mem d (TVsl k t nl) c = xbind (child_array mem (S d) t (of_data u)) (fun q => XOk [q])) by reflexivity.
        rewrite E1, IH. reflexivity.
      * destruct IH as (kids & _ & _ & E1 & E2).
        assert (E3 : x_children mem d (TVsl k t nl) c = xbind (child_array mem (S d) t (of_data u)) (fun q => XOk [q])) by reflexivity.
        rewrite E3, E1. cbn [xbind].
        exists [level mem (S d) t (of_data u) kids]. split; [lia|]. split; [reflexivity|]. split; [reflexivity|].
        apply list_exported; auto. fold s. lia.
    + destruct (bits_under nl s c) as [b|]; cbn [bits_offset option_map] in *; [|discriminate].
      reflexivity.
Qed.

Lemma export_spec mem t (c : cC (layout t)) : widths_pos (shape_of t) ->
  w_inv (shape_wd (shape_of t)) c -> (held (shape_of t) c < 2 ^ 63)%N ->
  match first_nonzero (bit_offsets (shape_of t) c) with
  | Some o => export mem t c = XErr (N.of_nat o)
  | None => exists a, export mem t c = XOk (a, schema_of t) /\ exported mem 0 t c a
  end.
Proof.
  intros Hw Hb Hh. pose proof (child_array_spec mem t 0 c Hw Hb Hh) as H.
  rewrite (child_array_level mem 0 t c Hw Hb Hh) in H. rewrite (export_level mem t c Hw Hb Hh).
  destruct (first_nonzero (bit_offsets (shape_of t) c)) as [o|].
  - destruct (x_offset t c =? 0)%N; [|congruence].
    destruct (x_children mem 0 t c); cbn [xbind] in *; congruence.
  - destruct H as (kids & H1 & H2 & _ & H4). rewrite H1, H2. cbn [xbind N.eqb].
    exists (level mem 0 t c kids). auto.
Qed.

(** ** Collections without torn rows *)

Lemma built_weak s c : built s c -> widths_pos s -> w_inv (shape_wd s) c.
Proof. intros Hb Hw. apply strong_weak, built_inv; assumption. Qed.
Lemma built_abs_eq s c : built s c -> widths_pos s ->
  w_abs (shape_wd s) c = l_abs (shape_ld s) c.
Proof. intros Hb Hw. apply strong_weak, built_inv; assumption. Qed.

Lemma calm_fill s : widths_pos s -> forall c, calm s c -> rows_fill s c.
Proof.
  induction s as [p| |s IH|n s IH|k s IH|A a0 z]; intros Hw c Hc; cbn [rows_fill]; try exact I.
  - change (validity (cC (coll s))) in c. split; [|apply (IH Hw), calm_null_coll, Hc].
    intros _. change (va_len (coll s) c = k_len (coll s) (va_coll c)). unfold va_len.
    destruct (va_bm c) as [b|] eqn:Eb; [|reflexivity].
    destruct (calm_inv _ _ Hc Hw) as [[G1 G3] G2]. unfold whole in G2. fold calm_ld in G1, G2, G3.
    assert (G2' : bm_ok b /\ length (bm_abs b) = length (l_abs (calm_ld s) (va_coll c))).
    { revert G2 G3. generalize (l_abs (calm_ld s) (va_coll c)). intros l G G'. rewrite Eb in G, G'.
      split; [apply G'|exact G]. }
    destruct G2' as [G4 G5].
    pose proof (lw_len _ _ (calm_laws s Hw) _ G1) as E1. fold calm_ld in E1. rewrite E1, <- G5.
    unfold bm_len. rewrite (bm_abs_length b G4). reflexivity.
  - destruct Hw as [Hn Hw]. split; [|apply (IH Hw), (calm_fixed_coll n s c Hn Hc)].
    destruct (built_inv _ _ (calm_built _ _ Hc) (conj Hn Hw)) as [H1 [q H2]]. fold shape_ld in H1, H2.
    exists q. rewrite (lw_len _ _ (shape_laws s Hw) c H1). f_equal. exact H2.
  - exact (IH Hw _ (calm_list_data k s c Hc)).
Qed.
Lemma flat_fill s : no_arrays s = true -> forall c, rows_fill s c.
Proof.
  induction s as [p| |s IH|n s IH|k s IH|A a0 z]; cbn [no_arrays rows_fill]; intros Hs c;
    try exact I; try discriminate.
  - split; [|apply (IH Hs)]. intros H. destruct s; discriminate.
  - apply (IH Hs).
Qed.

(** ** Import of arrays with torn rows *)

Lemma nearly_import t : forall a s e, arrow_type t -> readable t a s -> nearly t a s ->
  import t a s = IErr e -> exists l m n, e = FixedSizeListLengthMismatch l m n.
Proof.
  induction t as [nl|p nl|n t IH nl|k t IH nl]; intros a s e Ht Hr Hnear Ei;
    destruct Hnear as (Hh & D1 & D2 & D3); cbn [import] in Ei.
  - pose proof (import_checks_spec (TBool nl) a s Ht) as Hch.
    destruct (import_checks (TBool nl) a s) as [len|]; [|contradiction].
    destruct Hch as [-> _]. destruct Hr as (R1 & _ & _ & R4 & R5 & R6 & _).
    pose proof Hh as (_ & _ & _ & _ & Hlen & _ & _ & _ & Hnb & _ & _ & _ & _ & Hbuf & _).
    destruct (R6 Hlen) as [R7 R8]. cbn [nullable] in R7.
    pose proof (import_bits_spec a _ (read_buffer a 2 1 Hbuf R1 Hnb ltac:(lia)) Hlen eq_refl R5 R8) as H.
    destruct (import_bits a (Z.to_N (a_length a))) as [m|e'| |]; cbn [ibind] in Ei; try contradiction.
    destruct H as [Him Hv].
    pose proof (wrap_spec nl SBits a m _ (TBool nl) s Him Hh eq_refl R1 R4 R7) as Hwr.
    destruct (wrap nl SBits a m) as [v|e'| |]; try contradiction; [discriminate|].
    exfalso. apply Hwr. split; assumption.
  - pose proof (import_checks_spec (TPrim p nl) a s Ht) as Hch.
    destruct (import_checks (TPrim p nl) a s) as [len|]; [|contradiction].
    destruct Hch as [-> _]. destruct Hr as (R1 & _ & _ & R4 & R5 & R6 & _).
    pose proof Hh as (_ & _ & _ & _ & Hlen & _ & _ & _ & Hnb & _ & _ & _ & _ & Hbuf & _).
    destruct (R6 Hlen) as [R7 R8]. cbn [nullable] in R7.
    pose proof (import_values_spec p a _ (read_buffer a 2 1 Hbuf R1 Hnb ltac:(lia)) Hlen eq_refl R5 R8) as H.
    destruct (import_values p a (Z.to_N (a_length a))) as [m|e'| |]; cbn [ibind] in Ei; try contradiction.
    destruct H as [Him Hv].
    pose proof (wrap_spec nl (SVec p) a m _ (TPrim p nl) s Him Hh eq_refl R1 R4 R7) as Hwr.
    destruct (wrap nl (SVec p) a m) as [v|e'| |]; try contradiction; [discriminate|].
    exfalso. apply Hwr. split; assumption.
  - pose proof (import_checks_spec (TFsl n t nl) a s Ht) as Hch.
    destruct (import_checks (TFsl n t nl) a s) as [len|]; [|contradiction].
    destruct Hch as [-> _]. destruct Hr as (R1 & R2 & R3 & R4 & R5 & R6 & R9).
    destruct Ht as [_ Ht]. destruct D3 as (Hn & ca' & cs' & P1' & P2' & D3).
    pose proof Hh as (_ & _ & _ & _ & Hlen & _ & _ & _ & Hnb & _ & _ & _ & _ & Hbuf & _).
    destruct (R6 Hlen) as [R7 R8]. cbn [nullable] in R7.
    destruct (Nat.eqb n 0) eqn:En; [lia|].
    pose proof (import_pointers_spec _ a s Hh eq_refl R2 R3) as Hp.
    destruct (import_pointers a s) as [[ca cs]|e'| |]; cbn [ibind fst snd] in Ei; try contradiction.
    2:{ destruct Hp; congruence. }
    destruct Hp as [P1 P2]. assert (ca' = ca) by congruence. assert (cs' = cs) by congruence. subst ca' cs'.
    pose proof (import_spec t ca cs Ht (R9 _ _ P1 P2)) as Hs.
    destruct (import t ca cs) as [c|e'| |] eqn:Ec; cbn [ibind] in Ei; try contradiction.
    2:{ injection Ei as ->. exact (IH ca cs e Ht (R9 _ _ P1 P2) D3 Ec). }
    destruct Hs as [Him _]. pose proof Him as (Hw & Hcc & Hl & _).
    pose proof (built_inv _ _ (calm_built _ _ Hcc) Hw) as Hi.
    unfold layout in Ei. rewrite (lw_len _ _ (shape_laws _ Hw) c Hi) in Ei. cbn [iout ibind] in Ei.
    set (m := length (l_abs (shape_ld (shape_of t)) c)) in *.
    destruct (match checked_mul (Z.to_N (a_length a)) (N.of_nat n) with
              | Some k => (k =? N.of_nat m)%N | None => false end) eqn:Em.
    2:{ injection Ei as <-. eauto. }
    assert (Hlm : a_length ca = (a_length a * Z.of_nat n)%Z).
    { unfold checked_mul in Em. destruct (_ <=? usize_max)%N; [|discriminate]. nia. }
    destruct (fixed_imported n (shape_of t) a ca c _ Hn Him Hlm) as [Ef Hfi]. rewrite Ef in Ei.
    pose proof (wrap_spec nl (SFixed n (shape_of t)) a c _ (TFsl n t nl) s Hfi Hh eq_refl R1 R4 R7) as Hwr.
    destruct (wrap nl (SFixed n (shape_of t)) a c) as [v|e'| |]; try contradiction; [discriminate|].
    exfalso. apply Hwr. split; assumption.
  - pose proof (import_checks_spec (TVsl k t nl) a s Ht) as Hch.
    destruct (import_checks (TVsl k t nl) a s) as [len|]; [|contradiction].
    destruct Hch as [-> _]. destruct Hr as (R1 & R2 & R3 & R4 & R5 & R6 & R9).
    cbn [arrow_type] in Ht. destruct D3 as (Hal & ca' & cs' & P1' & P2' & D3 & b' & zs & Z1 & Z2 & Z3 & Z4).
    pose proof Hh as (_ & _ & _ & _ & Hlen & _ & _ & _ & Hnb & _ & _ & _ & _ & Hbuf & _).
    destruct (R6 Hlen) as [R7 R8]. cbn [nullable] in R7.
    pose proof (import_offsets_spec k a _ (read_buffer a 2 1 Hbuf R1 Hnb ltac:(lia)) Hlen eq_refl R5 R8) as H.
    destruct (import_offsets k a (Z.to_N (a_length a))) as [offs|e'| |]; cbn [ibind] in Ei; try contradiction.
    2:{ exfalso. apply H. split; [exact Hal|]. exists b', zs. auto. }
    destruct H as (b & Eb & Hal' & Hfit & Hol & Hat). assert (b' = b) by congruence. subst b'.
    pose proof (import_pointers_spec _ a s Hh eq_refl R2 R3) as Hp.
    destruct (import_pointers a s) as [[ca cs]|e'| |]; cbn [ibind fst snd] in Ei; try contradiction.
    2:{ destruct Hp; congruence. }
    destruct Hp as [P1 P2]. assert (ca' = ca) by congruence. assert (cs' = cs) by congruence. subst ca' cs'.
    pose proof (import_spec t ca cs Ht (R9 _ _ P1 P2)) as Hs.
    destruct (import t ca cs) as [c|e'| |] eqn:Ec; cbn [ibind] in Ei; try contradiction.
    2:{ injection Ei as ->. exact (IH ca cs e Ht (R9 _ _ P1 P2) D3 Ec). }
    destruct Hs as [Him _].
    assert (Ez : v_items offs = zs).
    { apply nth_error_same. intros i.
      destruct (nth_error zs i) as [y|] eqn:Ey, (nth_error (v_items offs) i) as [z|] eqn:Ez; auto.
      - f_equal. exact (offset_at_unique k b i z y (Hat _ _ Ez) (Z3 _ _ Ey)).
      - apply nth_error_None in Ez. assert (i < length zs) by (apply nth_error_Some; congruence). lia.
      - apply nth_error_None in Ey. assert (i < length (v_items offs)) by (apply nth_error_Some; congruence). lia. }
    pose proof (list_imported k (shape_of t) a ca c _ offs b Him Hfit Hol Hat) as Hli. rewrite Ez in Hli.
    unfold layout in Ei. destruct (of_try_from_parts (coll (shape_of t)) c offs) as [[o|e']|]; try contradiction.
    destruct Hli as [Hok Hli].
    pose proof (wrap_spec nl (SList k (shape_of t)) a o _ (TVsl k t nl) s Hli Hh eq_refl R1 R4 R7) as Hwr.
    destruct (wrap nl (SList k (shape_of t)) a o) as [v|e'| |]; try contradiction; [discriminate|].
    exfalso. apply Hwr. split; assumption.
Qed.
