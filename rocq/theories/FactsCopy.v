(** * Facts about arrays collected from arrays *)
From Coq Require Import List NArith ZArith Bool Arith Lia ZifyBool ZifyNat ZifyN.
From Verif Require Import Base Iter Spec SpecTables VecModel BitmapModel CollModel ValidityModel FlattenModel
  OffsetsModel LayoutModel Reach IterLemmas Laws ReachLemmas CoreLemmas Calm FactsBitmap FactsArray SpecLive HonestLemmas
  FactsLive SpecLaid FactsLaid SpecBytes FactsBytes FfiModel SpecFfi FfiLemmas FactsImport FactsFfi SpecWire FactsWire
  StorageModel FactsStorage FactsOwned FactsParts CopyModel.
Import ListNotations.

Lemma drained_yields {S X A} (next : S -> out (option X * S)) hnt (own : X -> out A) xs :
  forall s, yields next hnt own s xs ->
  drain_node hnt s = Node (exact_hint (length xs)) tt /\
  forall n, length xs <= n -> drain next hnt own (Datatypes.S n) s = list_t xs.
Proof.
  induction xs as [|x xs IH]; intros s H.
  - apply nones_now in H. destruct H as (H & s' & E). split.
    + unfold drain_node. rewrite H. reflexivity.
    + intros n _. cbn [drain]. rewrite E. reflexivity.
  - destruct H as (H & v & s' & E & Ev & H'). apply IH in H'. destruct H' as [Hn Hd]. split.
    + unfold drain_node. rewrite H. reflexivity.
    + intros n Hl. cbn [drain]. rewrite E, Ev. cbn [list_t]. rewrite Hn. f_equal.
      destruct n as [|n]; [cbn in Hl; lia|]. apply Hd. cbn in Hl. lia.
Qed.
Lemma source_list s (v : reading s) c xs : shows (coll s) c xs -> source s v c = Ret (it_list xs).
Proof.
  intros H. unfold source. rewrite (sh_len _ _ _ H). cbn [obind].
  destruct v as [f|].
  - destruct (own_in_yields s f c xs H) as (st & E & Hy). rewrite E. cbn [obind].
    destruct (drained_yields _ _ _ _ _ Hy) as [H1 H2]. unfold drained, it_list.
    rewrite H1, H2 by lia. reflexivity.
  - destruct (sh_iter _ _ _ H) as (st & E & Hy). rewrite E. cbn [obind].
    destruct (drained_yields _ _ _ _ _ Hy) as [H1 H2]. unfold drained, it_list.
    rewrite H1, H2 by lia. reflexivity.
Qed.

(** Layouts determine the buffers. *)
Lemma laid_same : forall s c1 c2 xs, widths_pos s -> laid s c1 xs -> laid s c2 xs -> same_bytes s c1 c2.
Proof.
  unfold same_bytes.
  induction s as [p| |s IH|n s IH|k s IH|A a0 z]; intros c1 c2 xs Hw H1 H2;
    cbn [laid image_of filled widths_pos] in *.
  - congruence.
  - rewrite (bits_laid _ _ H1), (bits_laid _ _ H2). reflexivity.
  - destruct H1 as [A1 B1], H2 as [A2 B2]. cbn [fst snd].
    rewrite (laid_image_len _ _ _ Hw A1), (laid_image_len _ _ _ Hw A2), map_length.
    f_equal; [exact (IH _ _ _ Hw A1 A2)|].
    assert (G : forall v : validity (cC (coll s)),
      match va_bm v with
      | Some b => laid_bits b (map present xs)
      | None => forall x, In x xs -> x <> None
      end -> Some match option_map bits_in (va_bm v) with Some m => m | None => ones (length xs) end =
             Some (BitsImage (map present xs ++ repeat false (to_byte (length xs) - length xs)) 0 (length xs))).
    { intros [d [b|]]; cbn [va_bm option_map]; intros H.
      - rewrite (bits_laid _ _ H), map_length. reflexivity.
      - unfold ones. repeat f_equal. revert H. clear. induction xs as [|[x|] xs IH]; intros H; cbn.
        + reflexivity.
        + f_equal. apply IH. intros y Hy. apply H. right. exact Hy.
        + exfalso. exact (H None (or_introl eq_refl) eq_refl). }
    etransitivity; [exact (G c1 B1)|]. symmetry. exact (G c2 B2).
  - exact (IH _ _ _ (proj2 Hw) (proj2 H1) (proj2 H2)).
  - destruct H1 as [A1 B1], H2 as [A2 B2]. cbn [fst snd]. rewrite B1, B2.
    f_equal. exact (IH _ _ _ Hw A1 A2).
  - congruence.
Qed.

Lemma limit_le : forall s, (limit s <= alloc_max)%N.
Proof.
  assert (H : forall z, (0 < z)%N -> (max_items z <= alloc_max)%N).
  { intros z Hz. unfold max_items. apply N.div_le_upper_bound; [lia|]. nia. }
  induction s as [p| |s IH|n s IH|k s IH|A a0 z]; cbn [limit]; try lia.
  - apply H. pose proof (psz_pos p). lia.
  - apply H. lia.
Qed.

Section Shapes.
  Context (s : shape) (Hw : widths_pos s).
  Local Notation K := (coll s).

  Lemma list_room xs : Forall (item_ok s) xs -> (total (cost s) xs <= limit s)%N ->
    (lenN xs * unit_cost s <= limit s)%N.
  Proof.
    intros Hi H. assert (G : (lenN xs * unit_cost s <= total (cost s) xs)%N); [|lia].
    clear H. induction Hi as [|x xs Hx Hi IH]; [unfold lenN; cbn [length total fold_right]; lia|].
    assert (Hc : (unit_cost s <= cost s x)%N).
    { rewrite cost_wgt, unit_cost_cfac. apply (lw_cfac _ _ (shape_laws s Hw)).
      assert (G : Forall (item_ok s) [x]) by (constructor; [exact Hx|constructor]).
      apply items_ok_wt in G. inversion G; assumption. }
    unfold lenN in *. cbn [length total fold_right]. fold (total (cost s) xs).
    replace (N.of_nat (S (length xs))) with (1 + N.of_nat (length xs))%N by lia. lia.
  Qed.

  Lemma copy_spec v in_ c xs : built s c -> shows K c xs ->
    match copy s v in_ c with
    | BOk c' => laid s c' xs /\ built s c' /\ shows K c' xs
    | BErr => False
    | _ => True
    end /\
    ((total (cost s) xs <= limit s)%N -> exists c', copy s v in_ c = BOk c').
  Proof.
    intros Hb Hs. pose proof (shown_items s Hw c xs Hb Hs) as Hi. unfold copy.
    rewrite (source_list s v c xs Hs). destruct (items_of_list xs) as [I1 I2].
    destruct (if in_ then k_from_iter_in K (it_list xs) else k_from_iter K (it_list xs)) as [res r] eqn:E.
    assert (Hi' : Forall (item_ok s) (items_of (it_list xs))) by (rewrite I1; exact Hi).
    destruct (collect_core s Hw in_ unit (it_list xs) res r (or_intror (fused_list xs)) Hi' E) as [H1 H2].
    cbn [fst]. rewrite I1, I2 in H1. rewrite I2 in H2. split.
    - destruct res as [c'| | |]; auto. destruct H1 as (_ & A1 & A2 & _). split; [|auto].
      rewrite <- I1. apply (laid_collect s Hw unit (it_list xs) c' r (or_intror (fused_list xs)) Hi').
      destruct in_; auto.
    - intros Ht. apply H2; [apply room_new_list; assumption|].
      change (upper_or_lower (it_hint (it_list xs))) with (lenN xs). apply list_room; assumption.
  Qed.
  Lemma try_copy_spec v c xs w : built s c -> shows K c xs ->
    match fst (try_copy s v c w) with
    | BOk c' => laid s c' xs /\ built s c' /\ shows K c' xs
    | BErr => True
    | _ => False
    end /\
    (grants w -> (total (cost s) xs <= limit s)%N -> exists c', fst (try_copy s v c w) = BOk c').
  Proof.
    intros Hb Hs. pose proof (shown_items s Hw c xs Hb Hs) as Hi. unfold try_copy.
    rewrite (source_list s v c xs Hs). destruct (items_of_list xs) as [I1 I2].
    destruct (k_try_from_iter K (it_list xs) w) as [[res r] w'] eqn:E.
    assert (Hi' : Forall (item_ok s) (items_of (it_list xs))) by (rewrite I1; exact Hi).
    pose proof (try_collect_core s Hw unit (it_list xs) w res r w' (or_intror (fused_list xs)) Hi' E) as H1.
    cbn [fst]. rewrite I1, I2 in H1. split.
    - destruct res as [c'| | |]; auto; [|discriminate]. destruct H1 as (_ & A1 & A2 & _). split; [|auto].
      rewrite <- I1. exact (laid_try_collect s Hw unit (it_list xs) w c' r w' (or_intror (fused_list xs)) Hi' E).
    - intros Hg Ht. destruct (granted_collect s Hw unit (it_list xs) w) as (c' & r' & w2 & E' & _); auto.
      + right. apply fused_list.
      + split; [exact I2|]. split; [apply honest_list|]. exact Hi'.
      + rewrite I1. exact Ht.
      + right. change (upper_or_lower (it_hint (it_list xs))) with (lenN xs). apply list_room; assumption.
      + rewrite E in E'. injection E' as -> _ _. eauto.
  Qed.

  Lemma append_spec v dst src xs ys c o : built s dst -> shows K dst xs -> built s src -> shows K src ys ->
    append s v dst src = (c, o) ->
    (o = ODone -> shows K c (xs ++ ys) /\ built s c /\ (laid s dst xs -> laid s c (xs ++ ys))) /\
    o <> OErr /\ (room_for s dst ys -> o = ODone).
  Proof.
    intros Hb Hs Hb2 Hs2. pose proof (shown_items s Hw src ys Hb2 Hs2) as Hi. unfold append.
    rewrite (source_list s v src ys Hs2). destruct (items_of_list ys) as [I1 I2].
    assert (Hi' : Forall (item_ok s) (items_of (it_list ys))) by (rewrite I1; exact Hi).
    destruct (k_extend K dst (it_list ys)) as [[c1 r] o1] eqn:E. intros X. injection X as <- <-.
    destruct (extend_core s Hw unit dst xs (it_list ys) c1 r o1 Hb Hs Hi' E) as [H1 H3].
    rewrite I1, I2 in H1. rewrite I2 in H3. split; [|split].
    - intros ->. split; [exact (proj2 H1)|].
      assert (Es : step K dst (OpExtend (it_list ys)) = (c1, ODone)) by (cbn [step]; rewrite E; reflexivity).
      split.
      + apply (built_step s dst (OpExtend (it_list ys)) c1 ODone Hb Hi' Es); [discriminate|intros X; discriminate].
      + intros Hl. pose proof (laid_extend s Hw unit dst (it_list ys) xs c1 r Hb Hl Hi' E) as G.
        rewrite I1 in G. exact G.
    - intros ->. exact H1.
    - intros Hr. apply H3. apply room_list; assumption.
  Qed.
  Lemma try_append_spec v dst src xs ys w c o w' : built s dst -> shows K dst xs ->
    built s src -> shows K src ys -> try_append s v dst src w = (c, o, w') ->
    match o with
    | ODone => shows K c (xs ++ ys) /\ built s c /\ (laid s dst xs -> laid s c (xs ++ ys))
    | OErr => shows K c xs /\ built s c
    | _ => False
    end.
  Proof.
    intros Hb Hs Hb2 Hs2. pose proof (shown_items s Hw src ys Hb2 Hs2) as Hi. unfold try_append.
    rewrite (source_list s v src ys Hs2). destruct (items_of_list ys) as [I1 I2].
    assert (Hi' : Forall (item_ok s) (items_of (it_list ys))) by (rewrite I1; exact Hi).
    destruct (k_try_extend K dst (it_list ys) w) as [[[c1 r] o1] w1] eqn:E. intros X. injection X as <- <- <-.
    pose proof (try_extend_core s Hw unit dst xs (it_list ys) w c1 r o1 w1 Hb Hs Hi' E) as H1.
    assert (Es : step K dst (OpTryExtend (it_list ys) w) = (c1, o1)) by (cbn [step]; rewrite E; reflexivity).
    rewrite I1, I2 in H1. destruct o1; try contradiction; try (destruct H1; discriminate).
    - split; [exact (proj2 H1)|]. split.
      + apply (built_step s dst (OpTryExtend (it_list ys) w) c1 ODone Hb Hi' Es); [discriminate|intros X; discriminate].
      + intros Hl. pose proof (laid_try_extend s Hw unit dst (it_list ys) w xs c1 r w1 Hb Hl Hi' E) as G.
        rewrite I1 in G. exact G.
    - split; [exact H1|].
      apply (built_step s dst (OpTryExtend (it_list ys) w) c1 OErr Hb Hi' Es); [discriminate|intros X; discriminate].
  Qed.
  Lemma copies_same v1 v2 in1 in2 c1 c2 xs c1' c2' : built s c1 -> built s c2 ->
    shows K c1 xs -> shows K c2 xs -> copy s v1 in1 c1 = BOk c1' -> copy s v2 in2 c2 = BOk c2' ->
    same_bytes s c1' c2'.
  Proof.
    intros B1 B2 S1 S2 E1 E2.
    destruct (copy_spec v1 in1 c1 xs B1 S1) as [H1 _]. rewrite E1 in H1.
    destruct (copy_spec v2 in2 c2 xs B2 S2) as [H2 _]. rewrite E2 in H2.
    exact (laid_same s c1' c2' xs Hw (proj1 H1) (proj1 H2)).
  Qed.
End Shapes.

(** ** Hand-over *)

(** What memory holds fits its type. *)
Lemma word_small w b i v : bytes (cb_data b) -> word_at w b i v -> (v < 256 ^ N.of_nat w)%N.
Proof.
  intros Hb H. assert (Hl : i * w + w <= length (cb_data b)) by apply H.
  rewrite (word_at_unique _ _ _ _ _ H (word_at_value w b i Hl)).
  assert (Hn : length (firstn w (skipn (i * w) (cb_data b))) = w)
    by (rewrite firstn_length, skipn_length; lia).
  assert (Hs : bytes (firstn w (skipn (i * w) (cb_data b)))).
  { unfold bytes in *. rewrite Forall_forall in *. intros x Hx. apply Hb.
    rewrite <- (firstn_skipn (i * w) (cb_data b)). apply in_app_iff. right.
    rewrite <- (firstn_skipn w (skipn (i * w) (cb_data b))). apply in_app_iff. left. exact Hx. }
  apply le_value_small in Hs. rewrite Hn in Hs. exact Hs.
Qed.
Lemma fits_nulls nl s a i (P : cA (coll s) -> Prop) (x : cA (coll (nulls nl s))) :
  (forall y, P y -> item_fits s y) -> holds_null nl s a i P x -> item_fits (nulls nl s) x.
Proof.
  destruct nl; cbn [nulls holds_null]; intros HP H; [|exact (HP _ H)].
  cbn [item_fits]. intros y ->. apply HP. exact (proj2 H).
Qed.
Lemma holds_fits : forall t a s i x, readable t a s -> describes t a s -> holds t a i x ->
  item_fits (shape_of t) x.
Proof.
  induction t as [nl|p nl|n t IH nl|k t IH nl]; intros a s i x Hr Hd Hx;
    apply (fits_nulls nl _ a i _ x) with (2 := Hx); intros y Hy.
  - exact I.
  - destruct Hy as (b & Hb & Hy). cbn [item_fits].
    destruct Hr as (_ & _ & _ & _ & Hm & _). destruct (Hm b Hb) as [Hm' _].
    pose proof (word_small _ _ _ _ Hm' Hy) as G. rewrite N2Nat.id in G. exact G.
  - destruct Hy as (_ & ca & Hc & Hy). cbn [item_fits]. intros z Hz.
    destruct (In_nth_error _ _ Hz) as [j Hj].
    destruct Hd as (_ & _ & _ & _ & _ & _ & _ & _ & _ & _ & _ & _ & _ & _ & _ & ca' & cs & H1 & H2 & H3 & _).
    rewrite Hc in H1. injection H1 as <-.
    destruct Hr as (_ & _ & _ & _ & _ & _ & Hr). exact (IH _ _ _ _ (Hr _ _ Hc H2) H3 (Hy _ _ Hj)).
  - destruct Hy as (b & ca & lo & hi & _ & Hc & _ & _ & _ & _ & Hy). cbn [item_fits]. intros z Hz.
    destruct (In_nth_error _ _ Hz) as [j Hj].
    destruct Hd as (_ & _ & _ & _ & _ & _ & _ & _ & _ & _ & _ & _ & _ & _ & _ & ca' & cs & H1 & H2 & H3 & _).
    rewrite Hc in H1. injection H1 as <-.
    destruct Hr as (_ & _ & _ & _ & _ & _ & Hr). exact (IH _ _ _ _ (Hr _ _ Hc H2) H3 (Hy _ _ Hj)).
Qed.

Section Wire.
  Context (t : ty) (Hw : widths_pos (shape_of t)).
  Lemma copy_travels mem v in_ c xs : arrow_type t -> aligned mem 0 t -> built (shape_of t) c ->
    shows (layout t) c xs -> Forall (item_fits (shape_of t)) xs ->
    (total (cost (shape_of t)) xs <= limit (shape_of t))%N ->
    exists c', copy (shape_of t) v in_ c = BOk c' /\ travels mem t c' xs.
  Proof.
    intros Ht Ha Hb Hs Hf Hm. destruct (copy_spec (shape_of t) Hw v in_ c xs Hb Hs) as [_ H].
    destruct (H Hm) as [c' E]. exists c'. split; [exact E|]. clear H.
    pose proof (shown_items (shape_of t) Hw c xs Hb Hs) as Hi. unfold copy in E.
    rewrite (source_list _ v c xs Hs) in E. destruct (items_of_list xs) as [I1 I2].
    rewrite <- I1 in Hi, Hf, Hm. rewrite <- I1.
    assert (Hm' : (total (cost (shape_of t)) (items_of (it_list xs)) < 2 ^ 63)%N).
    { eapply N.le_lt_trans; [exact Hm|]. eapply N.le_lt_trans; [apply limit_le|]. reflexivity. }
    assert (P : forall p : bres (cC (layout t)) * unit, fst p = BOk c' -> p = (BOk c', snd p)).
    { intros [p1 p2] X. cbn [fst snd] in *. rewrite X. reflexivity. }
    destruct in_; cbv iota in E; apply P in E;
      eapply (collected_travels t Hw mem unit (it_list xs) c' _ Ht Ha (or_intror (fused_list xs)) Hi Hf Hm').
    - right. exact E.
    - left. exact E.
  Qed.
End Wire.
Lemma copy_relays t a sc c mem v in_ : arrow_type t -> readable t a sc -> import t a sc = IOk c ->
  aligned mem 0 t ->
  exists xs, shows (layout t) c xs /\ Z.of_nat (length xs) = a_length a /\
    (forall i x, nth_error xs i = Some x -> holds t a i x) /\
    ((total (cost (shape_of t)) xs <= limit (shape_of t))%N ->
     exists c', copy (shape_of t) v in_ c = BOk c' /\ travels mem t c' xs).
Proof.
  intros Ht Hr E Ha. destruct (import_contents t a sc c Ht Hr E) as (Hw & Hc & xs & Hs & Hl & Hx).
  exists xs. split; [exact Hs|]. split; [exact Hl|]. split; [exact Hx|]. intros Hm.
  apply copy_travels; auto; [exact (calm_built _ _ Hc)|].
  apply Forall_forall. intros x Hin. destruct (In_nth_error _ _ Hin) as [i Hi].
  apply (holds_fits t a sc i x Hr); [|exact (Hx i x Hi)].
  apply (import_accepts t a sc Ht Hr). eauto.
Qed.
