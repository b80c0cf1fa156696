(** * Facts about the errors of an import *)
From Coq Require Import List NArith ZArith Bool Arith Lia ZifyBool ZifyNat ZifyN.
From Verif Require Import Base Iter Spec SpecParts VecModel BitmapModel CollModel ValidityModel
  FlattenModel OffsetsModel LayoutModel IterLemmas VecLemmas BitmapLemmas BitmapLemmas2 Laws
  LawsBase LawsFlatten LawsValidity LawsSealed LawsOffsets Reach Calm ReachLemmas CoreLemmas
  FactsBitmap FactsList FactsFixed FactsParts FfiModel SpecFfi FfiLemmas FactsImport SpecFault.
Import ListNotations.

Ltac Zify.zify_post_hook ::= Z.div_mod_to_equations.

Lemma checks_fault t a s e : arrow_type t -> import_checks t a s = inr e -> fault_here t a s e.
Proof.
  intros Ht. unfold import_checks.
  destruct (a_live a) eqn:E1; cbn [negb]; [|intros [= <-]; exact E1].
  destruct (s_live s) eqn:E2; cbn [negb]; [|intros [= <-]; exact E2].
  destruct (s_format s) as [f|] eqn:E3; [|intros [= <-]; exact E3].
  destruct (matches_format t f) eqn:Ef; cbn [negb].
  2:{ intros [= <-]. exists f. split; [exact E3|]. intros H.
      apply matches_format_spec in H; congruence. }
  assert (Efl : (Z.land (s_flags s) 2 =? flags_of t)%Z = Bool.eqb (Z.testbit (s_flags s) 1) (nullable t)).
  { rewrite land_two. unfold flags_of. destruct (Z.testbit (s_flags s) 1), (nullable t); reflexivity. }
  rewrite Efl. destruct (Bool.eqb (Z.testbit (s_flags s) 1) (nullable t)) eqn:Efl2; cbn [negb].
  2:{ intros [= <-]. split; [reflexivity|]. apply eqb_false_iff in Efl2.
      destruct (Z.testbit (s_flags s) 1), (nullable t); cbn [negb]; congruence. }
  destruct (a_length a <? 0)%Z eqn:El; [intros [= <-]; split; [reflexivity|lia]|].
  destruct (a_offset a =? 0)%Z eqn:Eo; cbn [negb]; [|intros [= <-]; split; [reflexivity|lia]].
  assert (Hfl : (flags_of t =? 0)%Z = negb (nullable t)) by (unfold flags_of; destruct (nullable t); reflexivity).
  rewrite Hfl. clear Hfl.
  destruct ((a_null_count a <? -1)%Z || (a_length a <? a_null_count a)%Z ||
    negb (nullable t) && (0 <? a_null_count a)%Z) eqn:En.
  { intros [= <-]. split; [reflexivity|]. destruct (nullable t); cbn [negb andb] in En; [lia|].
    destruct (0 <? a_null_count a)%Z eqn:E0; [right; right; split; [reflexivity|lia]|lia]. }
  assert (Hb : Z.of_nat (buffers_of t) = layout_buffers t) by (destruct t; reflexivity).
  assert (Hc : Z.of_nat (children_of t) = layout_children t) by (destruct t; reflexivity).
  rewrite Hb, Hc.
  destruct (a_n_buffers a =? layout_buffers t)%Z eqn:Eb; cbn [negb]; [|intros [= <-]; split; [reflexivity|lia]].
  destruct (negb (a_n_children a =? layout_children t)%Z || negb (s_n_children s =? layout_children t)%Z) eqn:Ec.
  { intros [= <-]. split; [reflexivity|]. split; [reflexivity|]. lia. }
  destruct (is_some (a_dictionary a) || is_some (s_dictionary s)) eqn:Ed.
  { intros [= <-]. cbn [fault_here]. destruct (a_dictionary a), (s_dictionary s); try discriminate;
      [left|left|right]; discriminate. }
  assert (Hb0 : Nat.eqb (buffers_of t) 0 = false) by (destruct t; reflexivity).
  rewrite Hb0. cbn [negb andb].
  destruct (a_buffers a) eqn:Eab; cbn [is_some negb]; [|intros [= <-]; exact Eab].
  destruct (negb (Nat.eqb (children_of t) 0) && negb (is_some (a_children a))) eqn:Eac.
  { intros [= <-]. split; [destruct t; try discriminate; reflexivity|].
    unfold child. destruct (a_children a); [destruct t; discriminate|reflexivity]. }
  destruct (negb (Nat.eqb (children_of t) 0) && negb (is_some (s_children s))) eqn:Esc.
  { intros [= <-]. split; [destruct t; try discriminate; reflexivity|].
    unfold schema_child. destruct (s_children s); [destruct t; discriminate|reflexivity]. }
  discriminate.
Qed.

Lemma wrap_fault nl s a c P t sch e : imported s a c P -> header t a sch -> nullable t = nl ->
  (forall l, a_buffers a = Some l -> (a_n_buffers a <= Z.of_nat (length l))%Z) ->
  in_memory a 0 -> (nl = true -> holds_bytes a 0 ((a_length a + 7) / 8)) ->
  wrap nl s a c = IErr e -> fault_here t a sch e.
Proof.
  intros (Hw & Hb & Hl & HP) Hh Hnl Htab Hmem Hbytes.
  destruct Hh as (_ & _ & _ & _ & Hlen & _ & Hnc & Hnc0 & Hnb & _ & _ & _ & _ & Hbuf & _).
  destruct nl; cbn [wrap nulls]; [|discriminate].
  assert (Hn0 : 0 < buffers_of t) by (destruct t; cbn; lia).
  unfold wrap_nullable. replace (a_n_buffers a <? 0)%Z with false by (symmetry; lia).
  replace (a_n_buffers a =? 0)%Z with false by (symmetry; lia).
  rewrite (read_buffer a _ 0) by (auto; lia). cbn [ibind].
  pose proof (built_inv _ _ (calm_built _ _ Hb) Hw) as Hi.
  rewrite (lw_len _ _ (shape_laws s Hw) c Hi). cbn [iout ibind].
  set (n := length (l_abs (shape_ld s) c)) in *.
  assert (Hvb : forall (v : validity (cC (coll s))),
    vb_ok n (va_bm v) ->
    count_false (vb_bits n (va_bm v)) = actual_nulls a ->
    (if (0 <=? a_null_count a)%Z
     then ibind (iout (vb_null_count (va_bm v))) (fun actual : nat =>
       if (a_null_count a =? Z.of_nat actual)%Z then IOk v
       else IErr (NullCountMismatch (a_null_count a) actual))
     else IOk v) = IErr e -> fault_here t a sch e).
  { intros v Hv Hcnt. rewrite (vb_null_count_spec n _ Hv). cbn [iout ibind].
    destruct (0 <=? a_null_count a)%Z eqn:E0; [|discriminate].
    destruct (a_null_count a =? Z.of_nat (count_false (vb_bits n (va_bm v))))%Z eqn:E1; [discriminate|].
    intros [= <-]. split; [exact Hnl|]. split; [reflexivity|]. split; [lia|]. split; [exact Hcnt|lia]. }
  destruct (buffer a 0) as [b|] eqn:Eb.
  - destruct (Hmem b Eb) as [Hby Hmx]. specialize (Hbytes eq_refl b Eb).
    assert (Hbf : (bytes_for_bits (N.of_nat n) <= lenN (cb_data b))%N).
    { unfold bytes_for_bits, lenN. rewrite <- Hl in Hbytes. lia. }
    unfold read_bytes. replace (bytes_for_bits (N.of_nat n) <=? lenN (cb_data b))%N with true by (symmetry; lia).
    cbn [iread ibind].
    destruct (import_bm b (N.of_nat n) Hmx Hbf) as (m & -> & Hcm & Hok & Hoff & Hbits & Habs).
    rewrite Nat2N.id in *.
    assert (Ev : va_try_from_parts (coll s) c m = Ret (inl (Validity c (Some m)))).
    { unfold va_try_from_parts. rewrite (lw_len _ _ (shape_laws s Hw) c Hi). cbn [obind].
      fold n. unfold bm_len. rewrite Hbits, Nat.eqb_refl. reflexivity. }
    rewrite Ev. cbn [ibind].
    apply (Hvb (Validity c (Some m))); cbn [va_coll va_bm vb_ok vb_bits].
    + auto.
    + unfold actual_nulls. rewrite Habs, Eb. unfold count_false, count_zeros.
      replace (Z.to_nat (a_length a)) with n by (clear -Hl; lia). reflexivity.
  - destruct ((a_null_count a =? 0)%Z || Nat.eqb n 0) eqn:E0; cbn [ibind].
    + apply (Hvb (va_from_collection (coll s) c)); cbn [va_from_collection va_coll va_bm vb_ok vb_bits].
      * exact I.
      * unfold actual_nulls. rewrite Eb.
        pose proof (count_split (repeat true n)). rewrite count_true_all, repeat_length in H. lia.
    + intros [= <-]. split; [exact Hnl|]. split; [exact Eb|]. lia.
Qed.

Lemma bits_fault nl a s n e : read_table (a_buffers a) 2 1 = IOk (buffer a 1) ->
  (0 <= a_length a)%Z -> n = Z.to_N (a_length a) ->
  in_memory a 1 -> holds_bytes a 1 ((a_length a + 7) / 8) ->
  import_bits a n = IErr e -> fault_here (TBool nl) a s e.
Proof.
  intros Ht Hl -> Hm Hb. unfold import_bits. rewrite Ht. cbn [ibind].
  destruct (bytes_for_bits (Z.to_N (a_length a)) =? 0)%N eqn:E0.
  - cbn [ibind]. destruct (bm_try_from_parts _ _ _); discriminate.
  - destruct (buffer a 1) as [b|] eqn:Eb.
    + unfold read_bytes. destruct (_ <=? _)%N; cbn [iread ibind]; [|discriminate].
      destruct (bm_try_from_parts _ _ _); discriminate.
    + intros [= <-]. split; [reflexivity|]. split; [exact Eb|].
      intros E. rewrite E in E0. discriminate.
Qed.
Lemma values_fault p nl a s n e : read_table (a_buffers a) 2 1 = IOk (buffer a 1) ->
  (0 <= a_length a)%Z -> n = Z.to_N (a_length a) ->
  import_values p a n = IErr e -> fault_here (TPrim p nl) a s e.
Proof.
  intros Ht Hl ->. unfold import_values. rewrite Ht. cbn [ibind].
  destruct (Z.to_N (a_length a) =? 0)%N eqn:E0; [discriminate|].
  destruct (buffer a 1) as [b|] eqn:Eb.
  - destruct (cb_addr b mod psz p =? 0)%N eqn:Ea.
    + destruct (read_words _ _ _); discriminate.
    + intros [= <-]. split; [reflexivity|]. split; [exists b; split; [exact Eb|lia]|lia].
  - intros [= <-]. split; [reflexivity|]. split; [exact Eb|lia].
Qed.
Lemma offsets_buffer_fault k t nl a s n e : read_table (a_buffers a) 2 1 = IOk (buffer a 1) ->
  (0 <= a_length a)%Z -> n = Z.to_N (a_length a) ->
  import_offsets k a n = IErr e -> fault_here (TVsl k t nl) a s e.
Proof.
  intros Ht Hl ->. unfold import_offsets, checked_add.
  destruct (Z.to_N (a_length a) + 1 <=? usize_max)%N eqn:Eo.
  - rewrite Ht. cbn [ibind]. destruct (buffer a 1) as [b|] eqn:Eb.
    + destruct (cb_addr b mod osz k =? 0)%N eqn:Ea.
      * destruct (read_words _ _ _); discriminate.
      * intros [= <-]. split; [reflexivity|]. exists b. split; [exact Eb|lia].
    + intros [= <-]. split; [exists (osz k); reflexivity|exact Eb].
  - intros [= <-]. split; [reflexivity|]. rewrite usize_max_val in Eo. lia.
Qed.
Lemma pointers_fault t a s e : layout_children t = 1%Z -> header t a s -> children_of t = 1 ->
  (forall l, a_children a = Some l -> (a_n_children a <= Z.of_nat (length l))%Z) ->
  (forall l, s_children s = Some l -> (s_n_children s <= Z.of_nat (length l))%Z) ->
  import_pointers a s = IErr e -> fault_here t a s e.
Proof.
  intros H1t (_ & _ & _ & _ & _ & _ & _ & _ & _ & Hc & Hs & _ & _ & _ & Hn) E H1 H2.
  rewrite E in Hc, Hs. destruct (Hn E) as [N1 N2]. unfold import_pointers.
  rewrite read_child by auto. cbn [ibind]. destruct (child a) as [ca|] eqn:Ec.
  - rewrite read_schema_child by auto. cbn [ibind]. destruct (schema_child s) as [cs|] eqn:Es; [discriminate|].
    intros [= <-]. split; [exact H1t|exact Es].
  - intros [= <-]. split; [exact H1t|exact Ec].
Qed.

Lemma import_fault t : forall a s e, arrow_type t -> readable t a s ->
  import t a s = IErr e -> fault t a s e.
Proof.
  induction t as [nl|p nl|n t IH nl|k t IH nl]; intros a s e Ht Hr.
  - cbn [import fault]. pose proof (import_checks_spec (TBool nl) a s Ht) as Hch.
    destruct (import_checks (TBool nl) a s) as [len|e0] eqn:Ech.
    2:{ intros [= ->]. left. exact (checks_fault _ _ _ _ Ht Ech). }
    destruct Hch as [-> Hh]. destruct Hr as (R1 & _ & _ & R4 & R5 & R6 & _).
    pose proof Hh as (_ & _ & _ & _ & Hlen & _ & _ & _ & Hnb & _ & _ & _ & _ & Hbuf & _).
    destruct (R6 Hlen) as [R7 R8]. cbn [nullable] in R7.
    pose proof (read_buffer a 2 1 Hbuf R1 Hnb ltac:(lia)) as Hrd.
    pose proof (import_bits_spec a _ Hrd Hlen eq_refl R5 R8) as H.
    destruct (import_bits a (Z.to_N (a_length a))) as [m|e0| |] eqn:Eb; cbn [ibind]; try contradiction.
    2:{ intros [= ->]. left. exact (bits_fault nl a s _ _ Hrd Hlen eq_refl R5 R8 Eb). }
    intros Hwr. left. exact (wrap_fault nl SBits a m _ (TBool nl) s e (proj1 H) Hh eq_refl R1 R4 R7 Hwr).
  - cbn [import fault]. pose proof (import_checks_spec (TPrim p nl) a s Ht) as Hch.
    destruct (import_checks (TPrim p nl) a s) as [len|e0] eqn:Ech.
    2:{ intros [= ->]. left. exact (checks_fault _ _ _ _ Ht Ech). }
    destruct Hch as [-> Hh]. destruct Hr as (R1 & _ & _ & R4 & R5 & R6 & _).
    pose proof Hh as (_ & _ & _ & _ & Hlen & _ & _ & _ & Hnb & _ & _ & _ & _ & Hbuf & _).
    destruct (R6 Hlen) as [R7 R8]. cbn [nullable] in R7.
    pose proof (read_buffer a 2 1 Hbuf R1 Hnb ltac:(lia)) as Hrd.
    pose proof (import_values_spec p a _ Hrd Hlen eq_refl R5 R8) as H.
    destruct (import_values p a (Z.to_N (a_length a))) as [m|e0| |] eqn:Eb; cbn [ibind]; try contradiction.
    2:{ intros [= ->]. left. exact (values_fault p nl a s _ _ Hrd Hlen eq_refl Eb). }
    intros Hwr. left. exact (wrap_fault nl (SVec p) a m _ (TPrim p nl) s e (proj1 H) Hh eq_refl R1 R4 R7 Hwr).
  - cbn [import fault]. pose proof (import_checks_spec (TFsl n t nl) a s Ht) as Hch.
    destruct (import_checks (TFsl n t nl) a s) as [len|e0] eqn:Ech.
    2:{ intros [= ->]. left. exact (checks_fault _ _ _ _ Ht Ech). }
    destruct Hch as [-> Hh]. destruct Hr as (R1 & R2 & R3 & R4 & R5 & R6 & R9).
    destruct Ht as [Hnu Ht].
    pose proof Hh as (_ & _ & _ & _ & Hlen & _ & _ & _ & Hnb & _ & _ & _ & _ & Hbuf & _).
    destruct (R6 Hlen) as [R7 R8]. cbn [nullable] in R7.
    destruct (Nat.eqb n 0) eqn:En.
    { intros [= <-]. left. split; [reflexivity|lia]. }
    assert (Hn : 0 < n) by lia. clear En.
    pose proof (import_pointers_spec _ a s Hh eq_refl R2 R3) as Hp.
    destruct (import_pointers a s) as [[ca cs]|e0| |] eqn:Eip; cbn [ibind fst snd]; try contradiction.
    2:{ intros [= ->]. left. exact (pointers_fault (TFsl n t nl) a s e eq_refl Hh eq_refl R2 R3 Eip). }
    destruct Hp as [P1 P2]. specialize (IH ca cs).
    pose proof (import_spec t ca cs Ht (R9 _ _ P1 P2)) as Hsp.
    destruct (import t ca cs) as [c|e0| |] eqn:Ei; cbn [ibind]; try contradiction.
    2:{ intros [= ->]. right. exists ca, cs. split; [exact P1|]. split; [exact P2|].
        exact (IH e Ht (R9 _ _ P1 P2) eq_refl). }
    destruct Hsp as [Him Hdc]. pose proof Him as (Hw & Hcc & Hl & _).
    pose proof (built_inv _ _ (calm_built _ _ Hcc) Hw) as Hi.
    unfold layout. rewrite (lw_len _ _ (shape_laws _ Hw) c Hi). cbn [iout ibind].
    set (m := length (l_abs (shape_ld (shape_of t)) c)) in *.
    destruct (match checked_mul (Z.to_N (a_length a)) (N.of_nat n) with
              | Some k => (k =? N.of_nat m)%N | None => false end) eqn:Em.
    2:{ intros [= <-]. left. split; [reflexivity|]. split; [lia|]. exists ca. split; [exact P1|].
        split; [symmetry; exact Hl|].
        pose proof (lw_abs_len _ _ (shape_laws _ Hw) c Hi) as Hmax. unfold lenN in Hmax. fold m in Hmax.
        rewrite alloc_max_val in Hmax. unfold checked_mul in Em. rewrite usize_max_val in Em.
        intros D.
        assert (Emul : (Z.to_N (a_length a) * N.of_nat n = N.of_nat m)%N) by nia.
        rewrite Emul in Em.
        replace (N.of_nat m <=? 18446744073709551615)%N with true in Em by (symmetry; lia).
        rewrite N.eqb_refl in Em. discriminate. }
    assert (Hlm : a_length ca = (a_length a * Z.of_nat n)%Z).
    { unfold checked_mul in Em. destruct (_ <=? usize_max)%N; [|discriminate]. nia. }
    destruct (fixed_imported n (shape_of t) a ca c _ Hn Him Hlm) as [-> Hfi].
    intros Hwr. left.
    exact (wrap_fault nl (SFixed n (shape_of t)) a c _ (TFsl n t nl) s e Hfi Hh eq_refl R1 R4 R7 Hwr).
  - cbn [import fault]. pose proof (import_checks_spec (TVsl k t nl) a s Ht) as Hch.
    destruct (import_checks (TVsl k t nl) a s) as [len|e0] eqn:Ech.
    2:{ intros [= ->]. left. exact (checks_fault _ _ _ _ Ht Ech). }
    destruct Hch as [-> Hh]. destruct Hr as (R1 & R2 & R3 & R4 & R5 & R6 & R9).
    cbn [arrow_type] in Ht.
    pose proof Hh as (_ & _ & _ & _ & Hlen & _ & _ & _ & Hnb & _ & _ & _ & _ & Hbuf & _).
    destruct (R6 Hlen) as [R7 R8]. cbn [nullable] in R7.
    pose proof (read_buffer a 2 1 Hbuf R1 Hnb ltac:(lia)) as Hrd.
    pose proof (import_offsets_spec k a _ Hrd Hlen eq_refl R5 R8) as H.
    destruct (import_offsets k a (Z.to_N (a_length a))) as [offs|e0| |] eqn:Eo; cbn [ibind]; try contradiction.
    2:{ intros [= ->]. left. exact (offsets_buffer_fault k t nl a s _ _ Hrd Hlen eq_refl Eo). }
    destruct H as (b & Eb & Hal & Hfit & Hol & Hat).
    pose proof (import_pointers_spec _ a s Hh eq_refl R2 R3) as Hp.
    destruct (import_pointers a s) as [[ca cs]|e0| |] eqn:Eip; cbn [ibind fst snd]; try contradiction.
    2:{ intros [= ->]. left. exact (pointers_fault (TVsl k t nl) a s e eq_refl Hh eq_refl R2 R3 Eip). }
    destruct Hp as [P1 P2]. specialize (IH ca cs).
    pose proof (import_spec t ca cs Ht (R9 _ _ P1 P2)) as Hsp.
    destruct (import t ca cs) as [c|e0| |] eqn:Ei; cbn [ibind]; try contradiction.
    2:{ intros [= ->]. right. exists ca, cs. split; [exact P1|]. split; [exact P2|].
        exact (IH e Ht (R9 _ _ P1 P2) eq_refl). }
    destruct Hsp as [Him Hdc]. pose proof Him as (Hw & Hcc & Hl & _).
    pose proof (built_inv _ _ (calm_built _ _ Hcc) Hw) as Hi.
    pose proof (list_imported k (shape_of t) a ca c _ offs b Him Hfit Hol Hat) as Hli.
    pose proof (of_parts_spec (coll (shape_of t)) c offs _ (lw_len _ _ (shape_laws _ Hw) c Hi)) as Hof.
    unfold layout. destruct (of_try_from_parts (coll (shape_of t)) c offs) as [[o|e0]|]; try contradiction.
    2:{ intros [= <-]. left. exists ca, b, (v_items offs). repeat (split; [assumption|]).
        rewrite <- Hl, Nat2Z.id. exact Hof. }
    destruct Hli as [Hok Hli]. intros Hwr. left.
    exact (wrap_fault nl (SList k (shape_of t)) a o _ (TVsl k t nl) s e Hli Hh eq_refl R1 R4 R7 Hwr).
Qed.

(** ** Faults are violations *)

Lemma describes_length t : forall a s, readable t a s -> describes t a s ->
  (0 <= a_length a < 18446744073709551615)%Z.
Proof.
  assert (B : forall a i n b, in_memory a i -> holds_bytes a i n -> buffer a i = Some b ->
    (n <= 1152921504606846976)%Z).
  { intros a i n b Hm Hh E. destruct (Hm b E) as [_ Hx]. specialize (Hh b E). unfold lenN in Hx.
    rewrite alloc_max_val in Hx. lia. }
  induction t as [nl|p nl|n t IH nl|k t IH nl]; intros a s Hr D;
    pose proof (describes_top _ _ _ D) as [Hh _];
    pose proof Hh as (_ & _ & _ & _ & Hlen & _); split; try exact Hlen;
    destruct Hr as (_ & _ & _ & R4 & R5 & R6 & R9); destruct (R6 Hlen) as [_ R8]; cbn [describes] in D; tables.
  - destruct D as (_ & _ & _ & _ & _ & _ & _ & _ & _ & _ & _ & _ & _ & _ & D).
    destruct (Z.eq_dec (a_length a) 0) as [->|E0]; [lia|].
    destruct (buffer a 1) as [b|] eqn:Eb; [|destruct (D E0 eq_refl)].
    pose proof (B _ _ _ _ R5 R8 Eb). lia.
  - destruct D as (_ & _ & _ & _ & _ & _ & _ & _ & _ & _ & _ & _ & _ & _ & D).
    destruct (Z.eq_dec (a_length a) 0) as [->|E0]; [lia|].
    destruct (D E0) as (b & Eb & _). pose proof (B _ _ _ _ R5 R8 Eb).
    pose proof (psz_pos p).
    assert (a_length a * 1 <= a_length a * Z.of_N (psz p))%Z by (apply Z.mul_le_mono_nonneg_l; lia). lia.
  - destruct D as (_ & _ & _ & _ & _ & _ & _ & _ & _ & _ & _ & _ & _ & _ & Hn & ca & cs & D1 & D2 & D3 & D4).
    pose proof (IH ca cs (R9 _ _ D1 D2) D3).
    assert (a_length a * 1 <= a_length a * Z.of_nat n)%Z by (apply Z.mul_le_mono_nonneg_l; lia). lia.
  - destruct D as (_ & _ & _ & _ & _ & _ & _ & _ & _ & _ & _ & _ & _ & _ & (b & Eb & _) & _).
    pose proof (B _ _ _ _ R5 R8 Eb). pose proof (osz_pos k).
    assert ((a_length a + 1) * 1 <= (a_length a + 1) * Z.of_N (osz k))%Z
      by (apply Z.mul_le_mono_nonneg_l; lia). lia.
Qed.

Lemma here_violates t a s e : readable t a s -> fault_here t a s e -> ~ describes t a s.
Proof.
  intros Hr F D. pose proof (describes_length t a s Hr D) as HL.
  pose proof (describes_top _ _ _ D) as (Hh & Hnk & Hnb0).
  destruct Hh as (H1 & H2 & (f & Hf & Hff) & H4 & H5 & H6 & H7 & H8 & H9 & H10 & H11 & H12 & H13 & H14 & H15).
  assert (Hb : Z.of_nat (buffers_of t) = layout_buffers t) by (destruct t; reflexivity).
  assert (Hc : Z.of_nat (children_of t) = layout_children t) by (destruct t; reflexivity).
  destruct e; cbn [fault_here] in F.
  - congruence.
  - congruence.
  - congruence.
  - destruct F as (g & Hg & Hn). assert (f = g) by congruence. subst. contradiction.
  - destruct F as [-> F]. rewrite H4 in F. destruct (nullable t); discriminate.
  - destruct F as [-> F]. contradiction.
  - destruct F as [-> F]. contradiction.
  - destruct F as [-> F]. destruct F as [F|[F|[F1 F2]]]; [lia|lia|]. specialize (H8 F1). lia.
  - destruct F as (F1 & F2 & F3 & F4). destruct (Hnb0 F1 F2); contradiction.
  - destruct F as (F1 & -> & F2 & -> & F3). destruct Hnk as [E|E]; [lia|]. rewrite F1 in E.
    apply F3. rewrite E. unfold actual_nulls. destruct (buffer a 0); reflexivity.
  - destruct F as [-> F]. congruence.
  - destruct F as (-> & -> & F). destruct F; congruence.
  - destruct F; contradiction.
  - contradiction.
  - destruct F as [F1 F2]. destruct t; try discriminate F1; cbn [describes] in D;
      decompose [and ex] D; congruence.
  - destruct F as [F1 F2]. destruct t; try discriminate F1; cbn [describes] in D;
      decompose [and ex] D; congruence.
  - destruct t; try contradiction. destruct F as [-> F]. cbn [describes] in D.
    destruct D as (_ & _ & _ & _ & _ & _ & _ & _ & _ & _ & _ & _ & _ & _ & Hn & _). lia.
  - destruct t; try contradiction. destruct F as (-> & F1 & ca & F2 & F3 & F4). cbn [describes] in D.
    destruct D as (_ & _ & _ & _ & _ & _ & _ & _ & _ & _ & _ & _ & _ & _ & _ & ca' & cs & D1 & _ & _ & D4).
    assert (ca' = ca) by congruence. subst. rewrite F1, F3 in D4. contradiction.
  - destruct F as [[w Fw] F]. destruct t; try contradiction. cbn [describes] in D.
    destruct D as (_ & _ & _ & _ & _ & _ & _ & _ & _ & _ & _ & _ & _ & _ & (b & Eb & _) & _). congruence.
  - destruct F as [Fw (b & Eb & Hm)]. destruct t; try contradiction. cbn [offsets_of] in Fw. subst.
    cbn [describes] in D.
    destruct D as (_ & _ & _ & _ & _ & _ & _ & _ & _ & _ & _ & _ & _ & _ & (b' & Eb' & Hm') & _).
    assert (b' = b) by congruence. subst. contradiction.
  - destruct t; try contradiction. destruct F as (ca & b & zs & F1 & F2 & F3 & F4 & F5). cbn [describes] in D.
    destruct D as (_ & _ & _ & _ & _ & _ & _ & _ & _ & _ & _ & _ & _ & _ & _ & ca' & cs & D1 & _ & _ &
      b' & zs' & D4 & D5 & D6 & D7).
    assert (ca' = ca) by congruence. assert (b' = b) by congruence. subst.
    assert (zs' = zs).
    { apply nth_error_same. intros i.
      destruct (nth_error zs' i) as [y|] eqn:Ey, (nth_error zs i) as [z|] eqn:Ez; auto.
      - f_equal. exact (offset_at_unique _ b i y z (D6 _ _ Ey) (F4 _ _ Ez)).
      - apply nth_error_None in Ez. assert (i < length zs') by (apply nth_error_Some; congruence). lia.
      - apply nth_error_None in Ey. assert (i < length zs) by (apply nth_error_Some; congruence). lia. }
    subst. exact (offsets_ok_no_fault _ _ _ D7 F5).
  - destruct F as (F1 & F2 & F3). destruct t; try discriminate F1; cbn [describes] in D.
    + destruct D as (_ & _ & _ & _ & _ & _ & _ & _ & _ & _ & _ & _ & _ & _ & D). exact (D F3 F2).
    + destruct D as (_ & _ & _ & _ & _ & _ & _ & _ & _ & _ & _ & _ & _ & _ & D).
      destruct (D F3) as (b & Eb & _). congruence.
  - destruct F as (F1 & (b & Eb & Hm) & F3). destruct t; try contradiction. cbn [values_of] in F1. subst.
    cbn [describes] in D.
    destruct D as (_ & _ & _ & _ & _ & _ & _ & _ & _ & _ & _ & _ & _ & _ & D).
    destruct (D F3) as (b' & Eb' & Hm'). assert (b' = b) by congruence. subst. contradiction.
Qed.

Lemma fault_violates t : forall a s e, readable t a s -> fault t a s e -> ~ describes t a s.
Proof.
  induction t as [nl|p nl|n t IH nl|k t IH nl]; intros a s e Hr [F|F];
    try (exact (here_violates _ _ _ _ Hr F)); try contradiction;
    destruct F as (ca & cs & C1 & C2 & F); intros D;
    pose proof Hr as (_ & _ & _ & _ & _ & _ & R9); apply (IH ca cs e (R9 _ _ C1 C2) F);
    cbn [describes] in D; decompose [and ex] D;
    match goal with H : describes t ?x ?y |- _ => 
      assert (x = ca) by congruence; assert (y = cs) by congruence; subst; exact H end.
Qed.

Lemma import_rejects t a s : arrow_type t -> readable t a s ->
  ((exists e, import t a s = IErr e) <-> (exists e, fault t a s e)).
Proof.
  intros Ht Hr. split; intros [e H].
  - exists e. exact (import_fault t a s e Ht Hr H).
  - pose proof (import_spec t a s Ht Hr) as Hs. destruct (import t a s) as [c|e'| |]; try contradiction.
    + destruct Hs as [_ D]. destruct (fault_violates t a s e Hr H D).
    + exists e'. reflexivity.
Qed.
