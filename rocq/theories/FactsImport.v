(** * Facts about import *)
From Coq Require Import List NArith ZArith Bool Arith Lia ZifyBool ZifyNat ZifyN.
From Verif Require Import Base Iter Spec SpecParts VecModel BitmapModel CollModel ValidityModel
  FlattenModel OffsetsModel LayoutModel IterLemmas VecLemmas BitmapLemmas BitmapLemmas2 Laws
  LawsBase LawsFlatten LawsValidity LawsSealed LawsOffsets Reach Calm ReachLemmas CoreLemmas
  FactsBitmap FactsList FactsFixed FactsParts FfiModel SpecFfi FfiLemmas.
Import ListNotations.

Ltac Zify.zify_post_hook ::= Z.div_mod_to_equations.

(** ** Scalar fields *)

Lemma land_two f : Z.land f 2 = if Z.testbit f 1 then 2%Z else 0%Z.
Proof.
  apply Z.bits_inj'. intros n Hn. rewrite Z.land_spec. change 2%Z with (2 ^ 1)%Z at 1.
  rewrite Z.pow2_bits_eqb by lia. destruct (1 =? n)%Z eqn:E.
  - apply Z.eqb_eq in E. subst n. destruct (Z.testbit f 1); reflexivity.
  - rewrite andb_false_r. destruct (Z.testbit f 1); [|rewrite Z.testbit_0_l; reflexivity].
    change 2%Z with (2 ^ 1)%Z. rewrite Z.pow2_bits_eqb, E by lia. reflexivity.
Qed.

(** What the scalar checks establish. *)
Definition header (t : ty) (a : carray) (s : cschema) : Prop :=
  a_live a = true /\ s_live s = true /\
  (exists f, s_format s = Some f /\ format_for t f) /\
  Z.testbit (s_flags s) 1 = nullable t /\
  (0 <= a_length a)%Z /\ a_offset a = 0%Z /\
  (-1 <= a_null_count a <= a_length a)%Z /\ (nullable t = false -> a_null_count a <= 0)%Z /\
  a_n_buffers a = Z.of_nat (buffers_of t) /\
  a_n_children a = Z.of_nat (children_of t) /\ s_n_children s = Z.of_nat (children_of t) /\
  a_dictionary a = None /\ s_dictionary s = None /\ a_buffers a <> None /\
  (children_of t = 1 -> a_children a <> None /\ s_children s <> None).

Lemma import_checks_spec t a s : arrow_type t ->
  match import_checks t a s with
  | inl n => n = Z.to_N (a_length a) /\ header t a s
  | inr _ => ~ header t a s
  end.
Proof.
  intros Ht. unfold import_checks, header.
  destruct (a_live a); cbn [negb]; [|intros H; intuition discriminate].
  destruct (s_live s); cbn [negb]; [|intros H; intuition discriminate].
  destruct (s_format s) as [f|]; [|intros (_ & _ & (f & Hf & _) & _); discriminate].
  destruct (matches_format t f) eqn:Ef; cbn [negb].
  2:{ intros (_ & _ & (f' & [= <-] & Hf) & _). apply matches_format_spec in Hf; congruence. }
  apply matches_format_spec in Ef; [|exact Ht].
  assert (Efl : (Z.land (s_flags s) 2 =? flags_of t)%Z = Bool.eqb (Z.testbit (s_flags s) 1) (nullable t)).
  { rewrite land_two. unfold flags_of. destruct (Z.testbit (s_flags s) 1), (nullable t); reflexivity. }
  rewrite Efl. destruct (Bool.eqb (Z.testbit (s_flags s) 1) (nullable t)) eqn:Efl2; cbn [negb].
  2:{ apply eqb_false_iff in Efl2. intuition congruence. }
  apply eqb_prop in Efl2. clear Efl.
  destruct (a_length a <? 0)%Z eqn:El; [intuition lia|].
  destruct (a_offset a =? 0)%Z eqn:Eo; cbn [negb]; [|intuition lia].
  assert (Hfl : (flags_of t =? 0)%Z = negb (nullable t)) by (unfold flags_of; destruct (nullable t); reflexivity).
  rewrite Hfl. clear Hfl.
  destruct ((a_null_count a <? -1)%Z || (a_length a <? a_null_count a)%Z ||
    negb (nullable t) && (0 <? a_null_count a)%Z) eqn:En.
  { intros (_ & _ & _ & _ & _ & _ & H & H' & _).
    destruct (nullable t); cbn [negb andb] in En; [lia|]. specialize (H' eq_refl). lia. }
  destruct (a_n_buffers a =? Z.of_nat (buffers_of t))%Z eqn:Eb; cbn [negb]; [|intuition lia].
  destruct (a_n_children a =? Z.of_nat (children_of t))%Z eqn:Ec; cbn [negb orb]; [|intuition lia].
  destruct (s_n_children s =? Z.of_nat (children_of t))%Z eqn:Es; cbn [negb orb]; [|intuition lia].
  destruct (a_dictionary a); cbn [is_some orb]; [intuition discriminate|].
  destruct (s_dictionary s); cbn [is_some orb]; [intuition discriminate|].
  assert (Hb0 : Nat.eqb (buffers_of t) 0 = false) by (destruct t; reflexivity).
  rewrite Hb0. cbn [negb andb].
  destruct (a_buffers a); cbn [is_some negb]; [|intuition congruence].
  assert (Hc : children_of t = 0 \/ children_of t = 1) by (destruct t; cbn; auto).
  assert (Hr : (-1 <= a_null_count a <= a_length a)%Z) by lia.
  assert (Hn : nullable t = false -> (a_null_count a <= 0)%Z).
  { intros E. rewrite E in En. cbn [negb andb] in En. lia. }
  apply Z.eqb_eq in Eo, Eb, Ec, Es. apply Z.ltb_ge in El.
  destruct Hc as [Hc|Hc]; rewrite Hc in *; cbn [Nat.eqb negb andb].
  - split; [reflexivity|]. do 2 (split; [reflexivity|]).
    split; [exists f; auto|]. repeat (split; [first [assumption|reflexivity|discriminate]|]).
    intros; discriminate.
  - destruct (a_children a); cbn [is_some negb].
    2:{ intros H. decompose [and] H. match goal with H : 1 = 1 -> _ |- _ => destruct (H eq_refl) end. congruence. }
    destruct (s_children s); cbn [is_some negb].
    2:{ intros H. decompose [and] H. match goal with H : 1 = 1 -> _ |- _ => destruct (H eq_refl) end. congruence. }
    split; [reflexivity|]. do 2 (split; [reflexivity|]).
    split; [exists f; auto|]. repeat (split; [first [assumption|reflexivity|discriminate]|]).
    discriminate.
Qed.

Lemma count_zeros_le n l : count_zeros (firstn n l) <= n.
Proof.
  pose proof (count_split (firstn n l)) as H. rewrite firstn_length in H.
  change (count_zeros (firstn n l)) with (count_false (firstn n l)). lia.
Qed.
Lemma describes_top t a s : describes t a s ->
  header t a s /\ nulls_ok (nullable t) a /\
  (nullable t = true -> buffer a 0 = None -> a_length a = 0%Z \/ a_null_count a = 0%Z).
Proof.
  intros H.
  assert (G : a_live a = true /\ s_live s = true /\
    (exists f, s_format s = Some f /\ format_for t f) /\
    Z.testbit (s_flags s) 1 = nullable t /\
    (0 <= a_length a)%Z /\ a_offset a = 0%Z /\
    a_dictionary a = None /\ s_dictionary s = None /\ a_buffers a <> None /\
    nulls_ok (nullable t) a /\
    (nullable t = true -> buffer a 0 = None -> a_length a = 0%Z \/ a_null_count a = 0%Z) /\
    a_n_buffers a = Z.of_nat (buffers_of t) /\
    a_n_children a = Z.of_nat (children_of t) /\ s_n_children s = Z.of_nat (children_of t) /\
    (children_of t = 1 -> a_children a <> None /\ s_children s <> None)).
  { destruct t as [nl|p nl|n t nl|k t nl]; cbn [describes] in H; cbn [buffers_of children_of];
      destruct H as (H1 & H2 & H3 & H4 & H5 & H6 & H7 & H8 & H9 & H10 & H11 & H12).
    - destruct H12 as (B1 & B2 & B3 & _). repeat (split; [assumption|]). discriminate.
    - destruct H12 as (B1 & B2 & B3 & _). repeat (split; [assumption|]). discriminate.
    - destruct H12 as (B1 & B2 & B3 & _ & ca & cs & C1 & C2 & _). repeat (split; [assumption|]).
      intros _. unfold child, schema_child in *. split; intros E; rewrite E in *; discriminate.
    - destruct H12 as (B1 & B2 & B3 & _ & ca & cs & C1 & C2 & _). repeat (split; [assumption|]).
      intros _. unfold child, schema_child in *. split; intros E; rewrite E in *; discriminate. }
  clear H. destruct G as (H1 & H2 & H3 & H4 & H5 & H6 & H7 & H8 & H9 & H10 & H11 & H12 & H13 & H14 & H15).
  split; [|auto]. unfold header. repeat (split; [assumption|]).
  assert (Hn : (-1 <= a_null_count a <= a_length a)%Z /\ (nullable t = false -> (a_null_count a <= 0)%Z)).
  { unfold nulls_ok in H10. destruct H10 as [->|E]; [lia|].
    destruct (nullable t); [|lia]. destruct (buffer a 0) as [b|]; [|lia].
    pose proof (count_zeros_le (Z.to_nat (a_length a)) (bits_of (cb_data b))). lia. }
  destruct Hn as [Hn1 Hn2]. repeat (split; [assumption|]). auto.
Qed.

(** ** Tables *)

Lemma read_table_nth {A} (l : list (option A)) n i : i < n -> n <= length l ->
  read_table (Some l) n i = IOk (nth i l None).
Proof.
  intros Hi Hn. unfold read_table. replace (Nat.leb n (length l)) with true by (symmetry; lia).
  destruct (nth_error l i) as [x|] eqn:E.
  - cbn [iread]. rewrite (nth_error_nth _ _ None E). reflexivity.
  - apply nth_error_None in E. lia.
Qed.
Lemma read_buffer a n i : a_buffers a <> None ->
  (forall l, a_buffers a = Some l -> (a_n_buffers a <= Z.of_nat (length l))%Z) ->
  a_n_buffers a = Z.of_nat n -> i < n -> read_table (a_buffers a) n i = IOk (buffer a i).
Proof.
  intros H1 H2 H3 Hi. unfold buffer. destruct (a_buffers a) as [l|]; [|congruence].
  apply read_table_nth; [exact Hi|]. specialize (H2 l eq_refl). lia.
Qed.
Lemma read_child a : a_children a <> None ->
  (forall l, a_children a = Some l -> (a_n_children a <= Z.of_nat (length l))%Z) ->
  a_n_children a = 1%Z -> read_table (a_children a) 1 0 = IOk (child a).
Proof.
  intros H1 H2 H3. unfold child. destruct (a_children a) as [l|]; [|congruence].
  specialize (H2 l eq_refl). rewrite read_table_nth by lia. destruct l; reflexivity.
Qed.
Lemma read_schema_child s : s_children s <> None ->
  (forall l, s_children s = Some l -> (s_n_children s <= Z.of_nat (length l))%Z) ->
  s_n_children s = 1%Z -> read_table (s_children s) 1 0 = IOk (schema_child s).
Proof.
  intros H1 H2 H3. unfold schema_child. destruct (s_children s) as [l|]; [|congruence].
  specialize (H2 l eq_refl). rewrite read_table_nth by lia. destruct l; reflexivity.
Qed.

(** ** Bits *)

Lemma slice_fits {A} esz (l : list A) : (lenN l <= max_items esz)%N -> vec_fits esz (slice l).
Proof. intros H. split; cbn [slice v_items v_cap]; lia. Qed.
Lemma import_bm b n : (lenN (cb_data b) <= alloc_max)%N ->
  (bytes_for_bits n <= lenN (cb_data b))%N ->
  let values := firstn (N.to_nat (bytes_for_bits n)) (cb_data b) in
  exists m, bm_try_from_parts (slice values) n 0 = inl m /\ calm SBits m /\ bm_ok m /\
    bm_off m = 0 /\ bm_bits m = N.to_nat n /\
    bm_abs m = firstn (N.to_nat n) (bits_of (cb_data b)).
Proof.
  intros Hm Hl values.
  assert (Hlen : lenN values = bytes_for_bits n).
  { subst values. unfold lenN in *. rewrite firstn_length. lia. }
  assert (Hf : vec_fits u8sz (slice values)).
  { apply slice_fits. rewrite max_items_u8. lia. }
  destruct (proj2 (bm_try_from_parts_iff (slice values) n 0 Hf)) as [m Em].
  { cbn [slice v_items]. rewrite Hlen. unfold bytes_for_bits. lia. }
  exists m. split; [exact Em|]. split; [exact (calm_bits_parts _ _ _ _ Hf Em)|].
  destruct (bm_parts_ok _ _ _ _ Hf Em) as [-> Hok]. split; [exact Hok|].
  cbn [bm_off bm_bits]. split; [reflexivity|]. split; [reflexivity|].
  unfold bm_abs. cbn [bm_off bm_bits bm_buf slice v_items]. cbn [N.to_nat skipn]. subst values.
  rewrite bits_of_firstn. rewrite firstn_firstn. f_equal. unfold bytes_for_bits. lia.
Qed.
Lemma import_bm_nil : exists m, bm_try_from_parts (slice []) 0 0 = inl m /\ calm SBits m /\ bm_abs m = [].
Proof.
  exists (Bitmap (slice []) 0 0). split; [reflexivity|]. split; [|reflexivity].
  apply (calm_bits_parts (slice []) 0 0); [|reflexivity]. apply slice_fits. cbn. lia.
Qed.

(** ** The validity *)

(** The collection inside the validity has been imported. *)
Definition imported (s : shape) (a : carray) (c : cC (coll s)) (P : nat -> cA (coll s) -> Prop) : Prop :=
  widths_pos s /\ calm s c /\ Z.of_nat (length (l_abs (shape_ld s) c)) = a_length a /\
  forall i x, nth_error (l_abs (shape_ld s) c) i = Some x -> P i x.

Lemma wrap_spec nl s a c P t sch : imported s a c P -> header t a sch -> nullable t = nl ->
  (forall l, a_buffers a = Some l -> (a_n_buffers a <= Z.of_nat (length l))%Z) ->
  in_memory a 0 -> (nl = true -> holds_bytes a 0 ((a_length a + 7) / 8)) ->
  match wrap nl s a c with
  | IOk v => imported (nulls nl s) a v (fun i => holds_null nl s a i (P i)) /\ nulls_ok nl a /\
      (nl = true -> buffer a 0 = None -> a_length a = 0%Z \/ a_null_count a = 0%Z)
  | IErr _ => ~ (nulls_ok nl a /\
      (nl = true -> buffer a 0 = None -> a_length a = 0%Z \/ a_null_count a = 0%Z))
  | _ => False
  end.
Proof.
  intros (Hw & Hb & Hl & HP) Hh Hnl Htab Hmem Hbytes.
  destruct Hh as (_ & _ & _ & _ & Hlen & _ & Hnc & Hnc0 & Hnb & _ & _ & _ & _ & Hbuf & _).
  rewrite Hnl in Hnc0. destruct nl; cbn [wrap nulls].
  2:{ specialize (Hnc0 eq_refl). split; [|split; [|discriminate]].
      - exact (conj Hw (conj Hb (conj Hl HP))).
      - unfold nulls_ok. lia. }
  assert (Hn0 : 0 < buffers_of t) by (destruct t; cbn; lia).
  unfold wrap_nullable. replace (a_n_buffers a <? 0)%Z with false by (symmetry; lia).
  replace (a_n_buffers a =? 0)%Z with false by (symmetry; lia).
  rewrite (read_buffer a _ 0) by (auto; lia). cbn [ibind].
  pose proof (built_inv _ _ (calm_built _ _ Hb) Hw) as Hi.
  rewrite (lw_len _ _ (shape_laws s Hw) c Hi). cbn [iout ibind].
  set (n := length (l_abs (shape_ld s) c)) in *.
  assert (Hvb : forall (v : validity (cC (coll s))), va_coll v = c ->
    vb_ok n (va_bm v) -> calm (SNull s) v ->
    (forall i x, nth_error (vb_bits n (va_bm v)) i = Some x -> valid_at a i x) ->
    Z.of_nat (count_false (vb_bits n (va_bm v))) =
      match buffer a 0 with
      | Some b => Z.of_nat (count_zeros (firstn (Z.to_nat (a_length a)) (bits_of (cb_data b))))
      | None => 0%Z
      end ->
    (buffer a 0 = None -> a_length a = 0%Z \/ a_null_count a = 0%Z) ->
    match (if (0 <=? a_null_count a)%Z
           then ibind (iout (vb_null_count (va_bm v))) (fun actual : nat =>
             if (a_null_count a =? Z.of_nat actual)%Z then IOk v
             else IErr (NullCountMismatch (a_null_count a) actual))
           else IOk v) with
    | IOk v => imported (SNull s) a v (fun i => holds_null true s a i (P i)) /\ nulls_ok true a /\
        (true = true -> buffer a 0 = None -> a_length a = 0%Z \/ a_null_count a = 0%Z)
    | IErr _ => ~ (nulls_ok true a /\
        (true = true -> buffer a 0 = None -> a_length a = 0%Z \/ a_null_count a = 0%Z))
    | _ => False
    end).
  { intros v Ec Hv Hcv Hbits Hcnt Hnone. rewrite (vb_null_count_spec n _ Hv). cbn [iout ibind].
    assert (Him : imported (SNull s) a v (fun i => holds_null true s a i (P i))).
    { split; [exact Hw|]. split; [exact Hcv|].
      assert (Ebits : va_bits (coll s) (shape_ld s) v = vb_bits n (va_bm v)).
      { unfold va_bits, vb_bits. rewrite Ec. reflexivity. }
      change (l_abs (shape_ld (SNull s)) v) with (va_abs (coll s) (shape_ld s) v).
      unfold va_abs. rewrite Ebits, Ec. split.
      - transitivity (Z.of_nat n); [|exact Hl]. f_equal.
        etransitivity; [apply mask_length|]. rewrite vb_bits_length by exact Hv. apply Nat.min_id.
      - intros i x Hx. apply mask_nth in Hx as (y & b & Hy & Hb1 & ->).
        apply Hbits in Hb1. apply HP in Hy. cbn [holds_null]. destruct b; auto. }
    destruct (0 <=? a_null_count a)%Z eqn:E0.
    - destruct (a_null_count a =? Z.of_nat (count_false (vb_bits n (va_bm v))))%Z eqn:E1.
      + split; [exact Him|]. split; [|auto]. right. rewrite <- Hcnt. lia.
      + intros [[H|H] _]; [lia|]. rewrite <- Hcnt in H. lia.
    - split; [exact Him|]. split; [|auto]. left. lia. }
  destruct (buffer a 0) as [b|] eqn:Eb.
  - destruct (Hmem b Eb) as [Hby Hmx]. specialize (Hbytes eq_refl b Eb).
    assert (Hbf : (bytes_for_bits (N.of_nat n) <= lenN (cb_data b))%N).
    { unfold bytes_for_bits, lenN. rewrite <- Hl in Hbytes. lia. }
    unfold read_bytes. replace (bytes_for_bits (N.of_nat n) <=? lenN (cb_data b))%N with true by (symmetry; lia).
    cbn [iread ibind].
    destruct (import_bm b (N.of_nat n) Hmx Hbf) as (m & -> & Hcm & Hok & Hoff & Hbits & Habs).
    rewrite Nat2N.id in *.
    assert (Ev : va_try_from_parts (coll s) c m = Ret (inl (Validity c (Some m)))).
    { unfold va_try_from_parts. rewrite (lw_len _ _ (shape_laws s Hw) c Hi). cbn [obind].
      fold n. unfold bm_len. rewrite Hbits, Nat.eqb_refl. reflexivity. }
    rewrite Ev. cbn [ibind].
    apply (Hvb (Validity c (Some m))); cbn [va_coll va_bm vb_ok vb_bits].
    + reflexivity.
    + auto.
    + exact (calm_null_parts s c m _ Hb Hcm Ev).
    + intros i x Hx. unfold valid_at. rewrite Eb. unfold bit_at. rewrite Habs in Hx.
      assert (i < n). { assert (Hlt : i < length (firstn n (bits_of (cb_data b)))) by (apply nth_error_Some; congruence).
        rewrite firstn_length in Hlt. lia. }
      rewrite nth_error_firstn_lt in Hx by auto. exact Hx.
    + rewrite Habs. unfold count_false, count_zeros. replace (Z.to_nat (a_length a)) with n by (clear -Hl; lia). reflexivity.
    + discriminate.
  - destruct ((a_null_count a =? 0)%Z || Nat.eqb n 0) eqn:E0; cbn [ibind].
    + apply (Hvb (va_from_collection (coll s) c)); cbn [va_from_collection va_coll va_bm vb_ok vb_bits].
      * reflexivity.
      * exact I.
      * apply calm_null_wrap. exact Hb.
      * intros i x Hx. unfold valid_at. rewrite Eb. apply nth_error_In, repeat_spec in Hx. auto.
      * pose proof (count_split (repeat true n)). rewrite count_true_all, repeat_length in H. lia.
      * intros _. lia.
    + intros [_ H]. specialize (H eq_refl eq_refl). lia.
Qed.

(** ** The buffers of values and offsets *)

Lemma import_bits_spec a n : read_table (a_buffers a) 2 1 = IOk (buffer a 1) ->
  (0 <= a_length a)%Z -> n = Z.to_N (a_length a) ->
  in_memory a 1 -> holds_bytes a 1 ((a_length a + 7) / 8) ->
  match import_bits a n with
  | IOk m => imported SBits a m (fun i x => exists b, buffer a 1 = Some b /\ bit_at b i x) /\
      (a_length a <> 0%Z -> buffer a 1 <> None)
  | IErr _ => ~ (a_length a <> 0%Z -> buffer a 1 <> None)
  | _ => False
  end.
Proof.
  intros Ht Hl -> Hm Hb. unfold import_bits. rewrite Ht. cbn [ibind].
  destruct (bytes_for_bits (Z.to_N (a_length a)) =? 0)%N eqn:E0.
  - assert (E : a_length a = 0%Z) by (unfold bytes_for_bits in E0; lia).
    rewrite E. cbn [ibind Z.to_N]. destruct import_bm_nil as (m & -> & Hc & Ha). split; [|lia].
    split; [exact I|]. split; [exact Hc|]. change (l_abs (shape_ld SBits) m) with (bm_abs m).
    rewrite Ha. split; [cbn; lia|]. intros [|i] x; discriminate.
  - destruct (buffer a 1) as [b|] eqn:Eb.
    2:{ cbn [ibind]. intros H. apply H; [|reflexivity]. unfold bytes_for_bits in E0. lia. }
    destruct (Hm b Eb) as [_ Hmx]. specialize (Hb b Eb). unfold read_bytes.
    assert (Hbf : (bytes_for_bits (Z.to_N (a_length a)) <= lenN (cb_data b))%N).
    { unfold bytes_for_bits, lenN. lia. }
    replace (_ <=? _)%N with true by (symmetry; lia). cbn [iread ibind].
    destruct (import_bm b _ Hmx Hbf) as (m & -> & Hc & Hok & _ & Hbits & Ha).
    split; [|discriminate]. split; [exact I|]. split; [exact Hc|].
    change (l_abs (shape_ld SBits) m) with (bm_abs m). split.
    + etransitivity; [apply f_equal, (bm_abs_length m Hok)|]. rewrite Hbits. lia.
    + intros i x Hx. exists b. split; [reflexivity|]. unfold bit_at.
      change (nth_error (bm_abs m) i = Some x) in Hx. rewrite Ha in Hx.
      assert (Hlt : i < length (firstn (N.to_nat (Z.to_N (a_length a))) (bits_of (cb_data b))))
        by (apply nth_error_Some; congruence).
      rewrite firstn_length in Hlt. rewrite nth_error_firstn_lt in Hx by lia. exact Hx.
Qed.

Lemma psz_pos p : (1 <= psz p)%N.
Proof. induction p as [| | | | | | | | | | | | | |p IH n]; cbn [psz]; lia. Qed.
Lemma osz_pos k : (1 <= osz k)%N.
Proof. destruct k; cbn; lia. Qed.
Lemma read_words_spec w b n : (1 <= w)%N -> (lenN (cb_data b) <= alloc_max)%N ->
  (n * w <= lenN (cb_data b))%N ->
  exists l, read_words w b n = Some l /\ lenN l = n /\ (lenN l <= max_items w)%N /\
    forall i v, nth_error l i = Some v -> word_at (N.to_nat w) b i v /\
      exists bs, v = le_value bs /\ length bs = N.to_nat w /\ (bytes (cb_data b) -> bytes bs).
Proof.
  intros Hw Hm Hn. unfold read_words. replace (_ <=? _)%N with true by (symmetry; lia).
  eexists. split; [reflexivity|]. unfold lenN in *. rewrite words_length.
  split; [lia|]. split.
  { unfold max_items. apply N.div_le_lower_bound; lia. }
  intros i v Hv. assert (Hi : i < N.to_nat n).
  { rewrite <- (words_length (N.to_nat w) (N.to_nat n) (cb_data b)). apply nth_error_Some. congruence. }
  rewrite words_nth in Hv by exact Hi. injection Hv as <-.
  assert (Hfit : i * N.to_nat w + N.to_nat w <= length (cb_data b)) by nia.
  split; [apply word_at_value, Hfit|]. eexists. split; [reflexivity|]. split.
  - rewrite firstn_length, skipn_length. lia.
  - unfold bytes. intros H. apply Forall_firstn. rewrite Forall_forall in *.
    intros x Hx. apply H. rewrite <- (firstn_skipn (i * N.to_nat w) (cb_data b)).
    apply in_or_app. auto.
Qed.

Lemma import_values_spec p a n : read_table (a_buffers a) 2 1 = IOk (buffer a 1) ->
  (0 <= a_length a)%Z -> n = Z.to_N (a_length a) ->
  in_memory a 1 -> holds_bytes a 1 (a_length a * Z.of_N (psz p)) ->
  match import_values p a n with
  | IOk v => imported (SVec p) a v
      (fun i x => exists b, buffer a 1 = Some b /\ word_at (N.to_nat (psz p)) b i x) /\
      (a_length a <> 0%Z -> aligned_at a (psz p))
  | IErr _ => ~ (a_length a <> 0%Z -> aligned_at a (psz p))
  | _ => False
  end.
Proof.
  intros Ht Hl -> Hm Hb. unfold import_values. rewrite Ht. cbn [ibind].
  destruct (Z.to_N (a_length a) =? 0)%N eqn:E0.
  - assert (E : a_length a = 0%Z) by lia. cbn [ibind]. split; [|lia]. split; [exact I|].
    split; [apply calm_vec, slice_fits; cbn [lenN length N.of_nat]; lia|].
    split; [rewrite E; reflexivity|]. intros [|i] x; discriminate.
  - destruct (buffer a 1) as [b|] eqn:Eb.
    2:{ cbn [ibind]. intros H. destruct H as (b & Hb' & _); [lia|congruence]. }
    destruct (cb_addr b mod psz p =? 0)%N eqn:Ea.
    2:{ cbn [ibind]. intros H. destruct H as (b' & Hb' & Hal); [lia|].
        assert (b' = b) by congruence. subst. apply N.eqb_neq in Ea. contradiction. }
    destruct (Hm b Eb) as [_ Hmx]. specialize (Hb b Eb).
    destruct (read_words_spec (psz p) b (Z.to_N (a_length a)) (psz_pos p) Hmx) as (l & -> & H1 & H2 & H3).
    { unfold lenN. lia. }
    cbn [iread ibind]. split.
    2:{ intros _. exists b. apply N.eqb_eq in Ea. auto. }
    split; [exact I|]. split; [apply calm_vec, slice_fits; exact H2|].
    change (l_abs (shape_ld (SVec p)) (slice l)) with l. split.
    + unfold lenN in H1. change (Z.of_nat (@length N l) = a_length a). lia.
    + intros i x Hx. exists b. split; [reflexivity|]. exact (proj1 (H3 i x Hx)).
Qed.

Lemma le_value_small bs : bytes bs -> (le_value bs < 256 ^ N.of_nat (length bs))%N.
Proof.
  unfold bytes. induction 1 as [|b bs Hb _ IH]; [cbn; lia|]. cbn [le_value length].
  rewrite Nat2N.inj_succ, N.pow_succ_r'. lia.
Qed.

Lemma import_offsets_spec k a n : read_table (a_buffers a) 2 1 = IOk (buffer a 1) ->
  (0 <= a_length a)%Z -> n = Z.to_N (a_length a) ->
  in_memory a 1 -> holds_bytes a 1 ((a_length a + 1) * Z.of_N (osz k)) ->
  match import_offsets k a n with
  | IOk v => exists b, buffer a 1 = Some b /\ (cb_addr b mod osz k = 0)%N /\
      vec_fits (osz k) v /\ Z.of_nat (length (v_items v)) = (a_length a + 1)%Z /\
      forall i z, nth_error (v_items v) i = Some z -> offset_at k b i z
  | IErr _ => ~ (aligned_at a (osz k) /\
      exists b zs, buffer a 1 = Some b /\ Z.of_nat (length zs) = (a_length a + 1)%Z /\
        forall i z, nth_error zs i = Some z -> offset_at k b i z)
  | _ => False
  end.
Proof.
  intros Ht Hl -> Hm Hb. unfold import_offsets, checked_add.
  destruct (Z.to_N (a_length a) + 1 <=? usize_max)%N eqn:Eo.
  2:{ intros (_ & b & zs & Eb & Hz & Hat). destruct (Hm b Eb) as [_ Hmx].
      destruct (nth_error zs (Z.to_nat (a_length a))) as [z|] eqn:Ez.
      - apply Hat in Ez as (u & [Hu _] & _). tables. pose proof (osz_pos k). unfold lenN in Hmx.
        rewrite alloc_max_val in Hmx. rewrite usize_max_val in Eo. nia.
      - apply nth_error_None in Ez. lia. }
  rewrite Ht. cbn [ibind]. destruct (buffer a 1) as [b|] eqn:Eb.
  2:{ intros ((b & Hb' & _) & _). congruence. }
  destruct (cb_addr b mod osz k =? 0)%N eqn:Ea.
  2:{ intros ((b' & Hb' & Hal) & _). assert (b' = b) by congruence. subst. lia. }
  destruct (Hm b Eb) as [Hby Hmx]. specialize (Hb b Eb).
  destruct (read_words_spec (osz k) b (Z.to_N (a_length a) + 1) (osz_pos k) Hmx) as (l & -> & H1 & H2 & H3).
  { unfold lenN. lia. }
  cbn [iread ibind]. exists b. split; [reflexivity|]. split; [lia|]. cbn [slice v_items].
  split; [apply slice_fits; unfold lenN in *; rewrite map_length; exact H2|].
  split; [rewrite map_length; unfold lenN in H1; lia|].
  intros i z Hz. rewrite nth_error_map in Hz.
  destruct (nth_error l i) as [v|] eqn:Ev; [|discriminate]. injection Hz as <-.
  destruct (H3 i v Ev) as (W & bs & -> & Hbs & Hbb). apply of_word_at; [exact W|].
  pose proof (le_value_small bs (Hbb Hby)) as Hs. rewrite Hbs, N2Nat.id in Hs. exact Hs.
Qed.

(** ** Children *)

Lemma import_pointers_spec t a s : header t a s -> children_of t = 1 ->
  (forall l, a_children a = Some l -> (a_n_children a <= Z.of_nat (length l))%Z) ->
  (forall l, s_children s = Some l -> (s_n_children s <= Z.of_nat (length l))%Z) ->
  match import_pointers a s with
  | IOk (ca, cs) => child a = Some ca /\ schema_child s = Some cs
  | IErr _ => child a = None \/ schema_child s = None
  | _ => False
  end.
Proof.
  intros (_ & _ & _ & _ & _ & _ & _ & _ & _ & Hc & Hs & _ & _ & _ & Hn) E H1 H2.
  rewrite E in Hc, Hs. destruct (Hn E) as [N1 N2]. unfold import_pointers.
  rewrite read_child by auto. cbn [ibind]. destruct (child a) as [ca|]; [|auto].
  rewrite read_schema_child by auto. cbn [ibind]. destruct (schema_child s) as [cs|]; auto.
Qed.

(** Rows of the child. *)
Lemma fixed_imported n s a ca (c : cC (coll s)) P : 0 < n ->
  imported s ca c P -> a_length ca = (a_length a * Z.of_nat n)%Z ->
  fl_try_from_parts (coll s) n c = Ret (inl c) /\
  imported (SFixed n s) a c (fun i (xs : list (cA (coll s))) => length xs = n /\
    forall j x, nth_error xs j = Some x -> P (i * n + j) x).
Proof.
  intros Hn (Hw & Hc & Hl & HP) Hlen. pose proof (built_inv _ _ (calm_built _ _ Hc) Hw) as Hi.
  set (l := l_abs (shape_ld s) c) in *.
  assert (Hm : length l = Z.to_nat (a_length a) * n /\ (0 <= a_length a)%Z) by nia.
  destruct Hm as [Hm H0]. set (q := Z.to_nat (a_length a)) in *.
  assert (E : fl_try_from_parts (coll s) n c = Ret (inl c)).
  { unfold fl_try_from_parts. rewrite (lw_len _ _ (shape_laws s Hw) c Hi). cbn [obind].
    fold l. destruct n as [|n]; [lia|]. rewrite Hm, Nat.mod_mul by lia. reflexivity. }
  split; [exact E|]. split; [split; assumption|]. split; [exact (calm_fixed_parts n s c c Hc E)|].
  change (l_abs (shape_ld (SFixed n s)) c) with (chunks n l).
  assert (Hq : length l / n = q) by (rewrite Hm; apply Nat.div_mul; lia).
  assert (Hcl : length (chunks n l) = q) by (rewrite chunks_length; exact Hq).
  split.
  - transitivity (Z.of_nat q); [apply f_equal; exact Hcl|lia].
  - intros i x Hx. change (nth_error (chunks n l) i = Some x) in Hx.
    assert (Hi2 : i < q).
    { rewrite <- Hcl. apply nth_error_Some. rewrite Hx. discriminate. }
    rewrite chunks_nth in Hx by (auto; lia). injection Hx as <-. split.
    + etransitivity; [apply firstn_length|]. rewrite skipn_length. nia.
    + intros j x Hj. assert (Hlt : j < length (firstn n (skipn (n * i) l))) by (apply nth_error_Some; congruence).
      rewrite firstn_length in Hlt.
      rewrite nth_error_firstn_lt, nth_error_skipn_add in Hj by lia.
      apply HP. rewrite (Nat.mul_comm i n). exact Hj.
Qed.

Lemma list_imported k s a ca (c : cC (coll s)) P offs b :
  imported s ca c P -> vec_fits (osz k) offs ->
  Z.of_nat (length (v_items offs)) = (a_length a + 1)%Z ->
  (forall i z, nth_error (v_items offs) i = Some z -> offset_at k b i z) ->
  match of_try_from_parts (coll s) c offs with
  | Ret (inl o) => offsets_ok (v_items offs) (Z.to_nat (a_length ca)) /\
      imported (SList k s) a o (fun i (xs : list (cA (coll s))) => exists lo hi,
        offset_at k b i lo /\ offset_at k b (S i) hi /\
        (0 <= lo)%Z /\ (hi = lo + Z.of_nat (length xs))%Z /\
        forall j x, nth_error xs j = Some x -> P (Z.to_nat lo + j) x)
  | Ret (inr _) => ~ offsets_ok (v_items offs) (Z.to_nat (a_length ca))
  | Pnc => False
  end.
Proof.
  intros (Hw & Hc & Hl & HP) Hv Hlen Hat. pose proof (built_inv _ _ (calm_built _ _ Hc) Hw) as Hi.
  assert (Hz : Forall (fun z => (omin k <= z <= omax k)%Z) (v_items offs)).
  { apply Forall_forall. intros z Hin. apply In_nth_error in Hin as [i Hin].
    destruct (Hat i z Hin) as (u & _ & Hr & _). exact Hr. }
  pose proof (of_parts_spec (coll s) c offs _ (lw_len _ _ (shape_laws s Hw) c Hi)) as H.
  destruct (of_try_from_parts (coll s) c offs) as [[o|e]|] eqn:E; [| |exact H].
  2:{ rewrite <- Hl, Nat2Z.id. intros Hok. exact (offsets_ok_no_fault _ _ _ Hok H). }
  destruct H as [Hok ->]. rewrite <- Hl, Nat2Z.id. split; [exact Hok|].
  split; [exact Hw|]. split; [exact (calm_list_parts k s c offs _ Hc Hv Hz E)|].
  pose proof (of_parts_inv (coll s) (shape_ld s) (shape_laws s Hw) k c offs _ Hi Hv Hz E) as Ho.
  pose proof (of_inv_rep _ _ _ _ Ho) as Hr. destruct (rep_slices _ _ _ _ _ Hr) as [R1 R2].
  cbn [of_offs of_data] in R1, R2.
  change (l_abs (shape_ld (SList k s)) (Offsets c offs)) with
    (of_abs (coll s) (shape_ld s) (Offsets c offs)).
  set (ls := of_abs (coll s) (shape_ld s) (Offsets c offs)) in *. split.
  - assert (G : forall n m z, S n = m -> Z.of_nat m = (z + 1)%Z -> Z.of_nat n = z) by lia.
    exact (G _ _ _ R1 Hlen).
  - intros i xs Hx. change (nth_error ls i = Some xs) in Hx.
    assert (Hlt : i < length ls) by (apply nth_error_Some; rewrite Hx; discriminate).
    destruct (nth_error (v_items offs) i) as [lo|] eqn:E1.
    2:{ apply nth_error_None in E1. lia. }
    destruct (nth_error (v_items offs) (S i)) as [hi|] eqn:E2.
    2:{ apply nth_error_None in E2. lia. }
    specialize (R2 i lo hi E1 E2). rewrite Hx in R2.
    destruct Hok as (_ & Hst & Hlast). pose proof (last_nth_ok _ _ _ Hst E2) as H2.
    destruct Hst as (_ & Hpos & Hmon). pose proof (Hpos _ _ E1). pose proof (Hmon _ _ _ E1 E2).
    exists lo, hi. split; [exact (Hat _ _ E1)|]. split; [exact (Hat _ _ E2)|]. split; [assumption|].
    injection R2 as ->. split.
    + rewrite firstn_length, skipn_length. lia.
    + intros j x Hj. assert (Hj2 : j < length (firstn (Z.to_nat hi - Z.to_nat lo)
        (skipn (Z.to_nat lo) (l_abs (shape_ld s) c)))) by (apply nth_error_Some; congruence).
      rewrite firstn_length in Hj2. rewrite nth_error_firstn_lt, nth_error_skipn_add in Hj by lia.
      apply HP. exact Hj.
Qed.

(** ** Import *)

Lemma describes_intro t a s : header t a s -> nulls_ok (nullable t) a ->
  (nullable t = true -> buffer a 0 = None -> a_length a = 0%Z \/ a_null_count a = 0%Z) ->
  match t with
  | TBool _ => (a_length a <> 0%Z -> buffer a 1 <> None)
  | TPrim p _ => (a_length a <> 0%Z -> aligned_at a (psz p))
  | TFsl n t _ => 0 < n /\
      exists ca cs, child a = Some ca /\ schema_child s = Some cs /\ describes t ca cs /\
        a_length ca = (a_length a * Z.of_nat n)%Z
  | TVsl k t _ => aligned_at a (osz k) /\
      exists ca cs, child a = Some ca /\ schema_child s = Some cs /\ describes t ca cs /\
        exists b zs, buffer a 1 = Some b /\ Z.of_nat (length zs) = (a_length a + 1)%Z /\
          (forall i z, nth_error zs i = Some z -> offset_at k b i z) /\
          offsets_ok zs (Z.to_nat (a_length ca))
  end -> describes t a s.
Proof.
  intros (H1 & H2 & H3 & H4 & H5 & H6 & _ & _ & H9 & H10 & H11 & H12 & H13 & H14 & _) N1 N2.
  destruct t as [nl|p nl|n t nl|k t nl]; cbn [buffers_of children_of] in *; intros H;
    cbn [describes]; repeat (split; [assumption|]); exact H.
Qed.

Lemma import_spec t : forall a s, arrow_type t -> readable t a s ->
  match import t a s with
  | IOk c => imported (shape_of t) a c (holds t a) /\ describes t a s
  | IErr _ => ~ describes t a s
  | _ => False
  end.
Proof.
  induction t as [nl|p nl|n t IH nl|k t IH nl]; intros a s Ht Hr.
  - cbn [import]. pose proof (import_checks_spec (TBool nl) a s Ht) as Hch.
    destruct (import_checks (TBool nl) a s) as [len|e].
    2:{ intros D. apply describes_top in D. tauto. }
    destruct Hch as [-> Hh]. destruct Hr as (R1 & _ & _ & R4 & R5 & R6 & _).
    pose proof Hh as (_ & _ & _ & _ & Hlen & _ & _ & _ & Hnb & _ & _ & _ & _ & Hbuf & _).
    destruct (R6 Hlen) as [R7 R8]. cbn [nullable] in R7.
    pose proof (import_bits_spec a _ (read_buffer a 2 1 Hbuf R1 Hnb ltac:(lia)) Hlen eq_refl R5 R8) as H.
    destruct (import_bits a (Z.to_N (a_length a))) as [m|e| |]; cbn [ibind]; try contradiction.
    2:{ intros D. apply H. cbn [describes] in D. tauto. }
    destruct H as [Him Hv].
    pose proof (wrap_spec nl SBits a m _ (TBool nl) s Him Hh eq_refl R1 R4 R7) as Hwr.
    destruct (wrap nl SBits a m) as [v|e| |]; try contradiction.
    + destruct Hwr as (W1 & W2 & W3). split; [exact W1|]. apply describes_intro; auto.
    + intros D. apply describes_top in D. tauto.
  - cbn [import]. pose proof (import_checks_spec (TPrim p nl) a s Ht) as Hch.
    destruct (import_checks (TPrim p nl) a s) as [len|e].
    2:{ intros D. apply describes_top in D. tauto. }
    destruct Hch as [-> Hh]. destruct Hr as (R1 & _ & _ & R4 & R5 & R6 & _).
    pose proof Hh as (_ & _ & _ & _ & Hlen & _ & _ & _ & Hnb & _ & _ & _ & _ & Hbuf & _).
    destruct (R6 Hlen) as [R7 R8]. cbn [nullable] in R7.
    pose proof (import_values_spec p a _ (read_buffer a 2 1 Hbuf R1 Hnb ltac:(lia)) Hlen eq_refl R5 R8) as H.
    destruct (import_values p a (Z.to_N (a_length a))) as [m|e| |]; cbn [ibind]; try contradiction.
    2:{ intros D. apply H. cbn [describes] in D. tauto. }
    destruct H as [Him Hv].
    pose proof (wrap_spec nl (SVec p) a m _ (TPrim p nl) s Him Hh eq_refl R1 R4 R7) as Hwr.
    destruct (wrap nl (SVec p) a m) as [v|e| |]; try contradiction.
    + destruct Hwr as (W1 & W2 & W3). split; [exact W1|]. apply describes_intro; auto.
    + intros D. apply describes_top in D. tauto.
  - cbn [import]. pose proof (import_checks_spec (TFsl n t nl) a s Ht) as Hch.
    destruct (import_checks (TFsl n t nl) a s) as [len|e].
    2:{ intros D. apply describes_top in D. tauto. }
    destruct Hch as [-> Hh]. destruct Hr as (R1 & R2 & R3 & R4 & R5 & R6 & R9).
    destruct Ht as [_ Ht].
    pose proof Hh as (_ & _ & _ & _ & Hlen & _ & _ & _ & Hnb & _ & _ & _ & _ & Hbuf & _).
    destruct (R6 Hlen) as [R7 R8]. cbn [nullable] in R7.
    destruct (Nat.eqb n 0) eqn:En.
    { intros D. cbn [describes] in D. apply Nat.eqb_eq in En. destruct D as (_ & _ & _ & _ & _ & _ & _ & _ & _ & _ & _ & _ & _ & _ & D & _). lia. }
    assert (Hn : 0 < n) by lia. clear En.
    pose proof (import_pointers_spec _ a s Hh eq_refl R2 R3) as Hp.
    destruct (import_pointers a s) as [[ca cs]|e| |]; cbn [ibind fst snd]; try contradiction.
    2:{ intros D. cbn [describes] in D.
        destruct D as (_ & _ & _ & _ & _ & _ & _ & _ & _ & _ & _ & _ & _ & _ & _ & ca & cs & D1 & D2 & _).
        destruct Hp; congruence. }
    destruct Hp as [P1 P2]. specialize (IH ca cs Ht (R9 _ _ P1 P2)).
    assert (Hd : describes (TFsl n t nl) a s -> describes t ca cs /\ a_length ca = (a_length a * Z.of_nat n)%Z).
    { intros D. cbn [describes] in D.
      destruct D as (_ & _ & _ & _ & _ & _ & _ & _ & _ & _ & _ & _ & _ & _ & _ & ca' & cs' & D1 & D2 & D3 & D4).
      assert (ca' = ca) by congruence. assert (cs' = cs) by congruence. subst. auto. }
    destruct (import t ca cs) as [c|e| |]; cbn [ibind]; try contradiction.
    2:{ intros D. apply IH. apply Hd. exact D. }
    destruct IH as [Him Hdc]. pose proof Him as (Hw & Hcc & Hl & _).
    pose proof (built_inv _ _ (calm_built _ _ Hcc) Hw) as Hi.
    unfold layout. rewrite (lw_len _ _ (shape_laws _ Hw) c Hi). cbn [iout ibind].
    set (m := length (l_abs (shape_ld (shape_of t)) c)) in *.
    destruct (match checked_mul (Z.to_N (a_length a)) (N.of_nat n) with
              | Some k => (k =? N.of_nat m)%N | None => false end) eqn:Em.
    2:{ intros D. apply Hd in D as [_ D].
        pose proof (lw_abs_len _ _ (shape_laws _ Hw) c Hi) as Hmax. unfold lenN in Hmax. fold m in Hmax.
        rewrite alloc_max_val in Hmax. unfold checked_mul in Em. rewrite usize_max_val in Em.
        assert (Emul : (Z.to_N (a_length a) * N.of_nat n = N.of_nat m)%N) by nia.
        rewrite Emul in Em.
        replace (N.of_nat m <=? 18446744073709551615)%N with true in Em by (symmetry; lia).
        rewrite N.eqb_refl in Em. discriminate. }
    assert (Hlm : a_length ca = (a_length a * Z.of_nat n)%Z).
    { unfold checked_mul in Em. destruct (_ <=? usize_max)%N; [|discriminate]. nia. }
    destruct (fixed_imported n (shape_of t) a ca c _ Hn Him Hlm) as [-> Hfi].
    pose proof (wrap_spec nl (SFixed n (shape_of t)) a c _ (TFsl n t nl) s Hfi Hh eq_refl R1 R4 R7) as Hwr.
    destruct (wrap nl (SFixed n (shape_of t)) a c) as [v|e| |]; try contradiction.
    + destruct Hwr as ((W1 & W1b & W1c & W1d) & W2 & W3). split.
      * split; [exact W1|]. split; [exact W1b|]. split; [exact W1c|]. intros i x Hx.
        specialize (W1d i x Hx). cbn [holds]. destruct nl; cbn [holds_null] in *.
        -- destruct x as [x|]; [|exact W1d]. destruct W1d as (V & L & HP). split; [exact V|].
           split; [exact L|]. exists ca. auto.
        -- destruct W1d as (L & HP). split; [exact L|]. exists ca. auto.
      * apply describes_intro; auto. split; [exact Hn|]. exists ca, cs. auto.
    + intros D. apply describes_top in D. tauto.
  - cbn [import]. pose proof (import_checks_spec (TVsl k t nl) a s Ht) as Hch.
    destruct (import_checks (TVsl k t nl) a s) as [len|e].
    2:{ intros D. apply describes_top in D. tauto. }
    destruct Hch as [-> Hh]. destruct Hr as (R1 & R2 & R3 & R4 & R5 & R6 & R9).
    cbn [arrow_type] in Ht.
    pose proof Hh as (_ & _ & _ & _ & Hlen & _ & _ & _ & Hnb & _ & _ & _ & _ & Hbuf & _).
    destruct (R6 Hlen) as [R7 R8]. cbn [nullable] in R7.
    assert (Hd : describes (TVsl k t nl) a s -> aligned_at a (osz k) /\
      exists ca cs, child a = Some ca /\ schema_child s = Some cs /\ describes t ca cs /\
        exists b zs, buffer a 1 = Some b /\ Z.of_nat (length zs) = (a_length a + 1)%Z /\
          (forall i z, nth_error zs i = Some z -> offset_at k b i z) /\
          offsets_ok zs (Z.to_nat (a_length ca))).
    { intros D. cbn [describes] in D. tauto. }
    pose proof (import_offsets_spec k a _ (read_buffer a 2 1 Hbuf R1 Hnb ltac:(lia)) Hlen eq_refl R5 R8) as H.
    destruct (import_offsets k a (Z.to_N (a_length a))) as [offs|e| |]; cbn [ibind]; try contradiction.
    2:{ intros D. apply H. apply Hd in D. destruct D as (D1 & ca & cs & _ & _ & _ & b & zs & D2 & D3 & D4 & _).
        split; [exact D1|]. exists b, zs. auto. }
    destruct H as (b & Eb & Hal & Hfit & Hol & Hat).
    pose proof (import_pointers_spec _ a s Hh eq_refl R2 R3) as Hp.
    destruct (import_pointers a s) as [[ca cs]|e| |]; cbn [ibind fst snd]; try contradiction.
    2:{ intros D. apply Hd in D as (_ & ca & cs & D1 & D2 & _). destruct Hp; congruence. }
    destruct Hp as [P1 P2]. specialize (IH ca cs Ht (R9 _ _ P1 P2)).
    assert (Hd2 : describes (TVsl k t nl) a s -> describes t ca cs /\
      offsets_ok (v_items offs) (Z.to_nat (a_length ca))).
    { intros D. apply Hd in D as (_ & ca' & cs' & D1 & D2 & D3 & b' & zs & D4 & D5 & D6 & D7).
      assert (ca' = ca) by congruence. assert (cs' = cs) by congruence. assert (b' = b) by congruence. subst.
      split; [exact D3|]. replace (v_items offs) with zs; [exact D7|]. apply nth_error_same. intros i.
      destruct (nth_error zs i) as [y|] eqn:Ey, (nth_error (v_items offs) i) as [z|] eqn:Ez; auto.
      - f_equal. exact (offset_at_unique k b i y z (D6 _ _ Ey) (Hat _ _ Ez)).
      - apply nth_error_None in Ez. assert (i < length zs) by (apply nth_error_Some; congruence). lia.
      - apply nth_error_None in Ey. assert (i < length (v_items offs)) by (apply nth_error_Some; congruence). lia. }
    destruct (import t ca cs) as [c|e| |]; cbn [ibind]; try contradiction.
    2:{ intros D. apply IH. apply Hd2. exact D. }
    destruct IH as [Him Hdc].
    pose proof (list_imported k (shape_of t) a ca c _ offs b Him Hfit Hol Hat) as Hli.
    unfold layout. destruct (of_try_from_parts (coll (shape_of t)) c offs) as [[o|e]|]; try contradiction.
    2:{ intros D. apply Hli. apply Hd2. exact D. }
    destruct Hli as [Hok Hli].
    pose proof (wrap_spec nl (SList k (shape_of t)) a o _ (TVsl k t nl) s Hli Hh eq_refl R1 R4 R7) as Hwr.
    destruct (wrap nl (SList k (shape_of t)) a o) as [v|e| |]; try contradiction.
    + destruct Hwr as ((W1 & W1b & W1c & W1d) & W2 & W3). split.
      * split; [exact W1|]. split; [exact W1b|]. split; [exact W1c|]. intros i x Hx.
        specialize (W1d i x Hx). cbn [holds]. destruct nl; cbn [holds_null] in *.
        -- destruct x as [x|]; [|exact W1d]. destruct W1d as (V & lo & hi & HP). split; [exact V|].
           exists b, ca, lo, hi. auto.
        -- destruct W1d as (lo & hi & HP). exists b, ca, lo, hi. auto.
      * apply describes_intro; auto. split; [exists b; auto|]. exists ca, cs. repeat (split; [assumption|]).
        exists b, (v_items offs). auto.
    + intros D. apply describes_top in D. tauto.
Qed.
