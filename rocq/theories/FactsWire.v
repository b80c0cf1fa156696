(** * Exporting what has the layout of the Arrow format *)
From Coq Require Import List NArith ZArith Bool Arith Lia ZifyBool ZifyNat ZifyN.
From Verif Require Import Base Iter Spec VecModel BitmapModel CollModel ValidityModel
  FlattenModel OffsetsModel LayoutModel IterLemmas VecLemmas BitmapLemmas BitmapLemmas2 Laws
  LawsBase LawsFlatten LawsValidity LawsOffsets Reach Calm ReachLemmas CoreLemmas SpecTables SpecLaid
  WeakLaws FactsLived FactsLaid FfiModel SpecFfi FfiLemmas FactsParts FactsExport FactsFfi SpecWire.
Import ListNotations.

Local Arguments N.add : simpl never.
Local Arguments N.mul : simpl never.
Local Arguments N.pow : simpl never.
Local Arguments Z.mul : simpl never.

Lemma bits_value_byte : forall l, length l <= 8 -> (bits_value l < 256)%N.
Proof.
  assert (H : forall l, (bits_value l < 2 ^ lenN l)%N).
  { induction l as [|b l IH]; [reflexivity|]. unfold lenN in *. cbn [bits_value length].
    replace (N.of_nat (S (length l))) with (N.succ (N.of_nat (length l))) by lia.
    rewrite N.pow_succ_r'. destruct b; lia. }
  intros l Hl. specialize (H l).
  assert (2 ^ lenN l <= 2 ^ 8)%N by (apply N.pow_le_mono_r; unfold lenN; lia).
  change (2 ^ 8)%N with 256%N in *. lia.
Qed.
Lemma arrow_bytes l : bytes (arrow_bits l).
Proof.
  unfold arrow_bits, bytes. generalize ((length l + 7) / 8). intros n. revert l.
  induction n as [|n IH]; intros l; cbn [bytes_from]; constructor; auto.
  apply bits_value_byte. rewrite firstn_length. lia.
Qed.
Lemma default_fits s : item_fits s (default_item s).
Proof.
  induction s as [p| |s IH|n s IH|k s IH|A a0 z]; cbn [item_fits default_item]; auto.
  - apply N.neq_0_lt_0, N.pow_nonzero. lia.
  - discriminate.
  - intros x Hx. apply repeat_spec in Hx. subst x. exact IH.
  - contradiction.
Qed.

Lemma laid_offsets : forall s c xs, laid s c xs -> Forall (fun o => o = 0) (bit_offsets s c).
Proof.
  induction s as [p| |s IH|n s IH|k s IH|A a0 z]; intros c xs; cbn [laid bit_offsets]; auto.
  - intros (H & _). auto.
  - intros [H1 H2]. apply Forall_app. split; [|eapply IH; eauto].
    revert H2. match goal with |- context [match ?m with _ => _ end] => destruct m as [b|] end; auto.
    intros (H & _). auto.
  - intros [_ H]. eapply IH; eauto.
  - intros [H _]. eapply IH; eauto.
Qed.
Lemma laid_typed : forall s c xs, laid s c xs -> (forall x, In x xs -> item_fits s x) -> typed s c.
Proof.
  induction s as [p| |s IH|n s IH|k s IH|A a0 z]; intros c xs; cbn [laid typed item_fits]; auto.
  - intros <- H. apply Forall_forall. exact H.
  - intros (_ & _ & ->) _. apply arrow_bytes.
  - intros [H1 H2] Hf. split.
    + revert H2. match goal with |- context [match ?m with _ => _ end] => destruct m as [b|] end; auto.
      intros (_ & _ & ->). apply arrow_bytes.
    + apply (IH _ _ H1). intros x Hx. apply in_map_iff in Hx. destruct Hx as ([y|] & <- & Hy).
      * exact (Hf _ Hy y eq_refl).
      * apply default_fits.
  - intros [_ H] Hf. apply (IH _ _ H). intros x Hx. apply in_concat in Hx.
    destruct Hx as (l & Hl & Hx). exact (Hf l Hl x Hx).
  - intros [H _] Hf. apply (IH _ _ H). intros x Hx. apply in_concat in Hx.
    destruct Hx as (l & Hl & Hx). exact (Hf l Hl x Hx).
Qed.

Lemma word_bytes_le w v : word_bytes w v = le_bytes (N.to_nat w) v.
Proof.
  unfold word_bytes. generalize (N.to_nat w). intros n. clear w.
  assert (H : forall n k u, (u = v / 256 ^ N.of_nat k)%N ->
    map (fun j => (v / 256 ^ N.of_nat j) mod 256)%N (seq k n) = le_bytes n u).
  { clear n. induction n as [|n IH]; intros k u ->; cbn [seq map le_bytes]; [reflexivity|].
    f_equal. apply IH. replace (N.of_nat (S k)) with (N.of_nat k + 1)%N by lia.
    rewrite N.pow_add_r, N.div_div by (try apply N.pow_nonzero; lia). reflexivity. }
  apply H. cbn. rewrite N.div_1_r. reflexivity.
Qed.
Lemma flat_word w l : flat_map (le_bytes (N.to_nat w)) l = concat (map (word_bytes w) l).
Proof.
  rewrite flat_map_concat_map. f_equal. apply map_ext. intros v. symmetry. apply word_bytes_le.
Qed.
Lemma psz_bytes p : psz p = value_bytes p.
Proof. induction p; cbn [psz value_bytes]; congruence. Qed.
Lemma osz_bytes k : osz k = offset_bytes k.
Proof. destruct k; reflexivity. Qed.

Lemma offset_word k z : (0 <= z <= omax k)%Z ->
  le_bytes (N.to_nat (osz k)) (to_word (osz k) z) = word_bytes (offset_bytes k) (Z.to_N z).
Proof.
  intros H. rewrite word_bytes_le. change offset_bytes with osz. f_equal. unfold to_word. f_equal.
  apply Z.mod_small. destruct (osz_range k) as (_ & E & _).
  replace (8 * Z.of_N (osz k))%Z with (Z.succ (8 * Z.of_N (osz k) - 1))%Z by lia.
  rewrite Z.pow_succ_r by (destruct k; cbn; lia). lia.
Qed.
Lemma arrow_offsets_range {A} : forall (ls : list (list A)) z0 z, (0 <= z0)%Z ->
  In z (arrow_offsets z0 ls) -> (z0 <= z <= z0 + Z.of_nat (length (concat ls)))%Z.
Proof.
  induction ls as [|l ls IH]; intros z0 z H0; cbn [arrow_offsets concat In length].
  - intros [<-|[]]. lia.
  - rewrite app_length. intros [<-|H]; [lia|]. apply IH in H; lia.
Qed.

Lemma under_laid nl s (c : cC (coll (nulls nl s))) xs : laid (nulls nl s) c xs ->
  laid s (un_null nl s c) (slots nl s xs) /\
  forall a addr, buffer a 0 = bits_ptr addr (bits_under nl s c) -> validity_of nl s a xs.
Proof.
  destruct nl; cbn [nulls un_null slots bits_under validity_of].
  - cbn [laid]. intros [H1 H2]. split; [exact H1|]. intros a addr ->. revert H2.
    match goal with |- match ?m with _ => _ end -> _ => destruct m as [b|] end; cbn [bits_ptr]; [|auto].
    intros (_ & _ & H). exact H.
  - intros H. split; [exact H|]. intros a addr ->. reflexivity.
Qed.

Lemma level_counts mem d t (c : cC (layout t)) kids xs : widths_pos (shape_of t) ->
  built (shape_of t) c -> laid (shape_of t) c xs -> counts_of t (level mem d t c kids) xs.
Proof.
  intros Hw Hb Hl. pose proof (built_inv _ _ Hb Hw) as Hi.
  pose proof (ll_abs _ _ _ (laid_laws _ Hw) _ _ Hi Hl) as E. rewrite <- (built_abs_eq _ _ Hb Hw) in E.
  unfold counts_of, level. cbn [into_array a_length a_null_count a_offset].
  rewrite E. auto.
Qed.

Lemma list_words k s (Hw : widths_pos s) (o : offsets (cC (coll s))) (xs : list (list (cA (coll s)))) :
  built (SList k s) o -> laid s (of_data o) (concat xs) ->
  v_items (of_offs o) = arrow_offsets 0 xs ->
  flat_map (fun z => le_bytes (N.to_nat (osz k)) (to_word (osz k) z)) (v_items (of_offs o)) =
  concat (map (fun z => word_bytes (offset_bytes k) (Z.to_N z)) (arrow_offsets 0 xs)).
Proof.
  intros Hb H1 H2. rewrite H2, flat_map_concat_map. f_equal. apply map_ext_in. intros z Hz.
  apply offset_word. apply arrow_offsets_range in Hz; [|lia].
  pose proof (built_inv (SList k s) o Hb Hw) as Hi.
  pose proof (list_laid_rep (coll s) (shape_ld s) (laid s) (laid_laws s Hw) k o xs Hi (conj H1 H2))
    as (_ & _ & _ & _ & Hm).
  lia.
Qed.

Lemma level_encodes mem t : forall d (c : cC (layout t)) xs, widths_pos (shape_of t) ->
  built (shape_of t) c -> (held (shape_of t) c < 2 ^ 63)%N -> laid (shape_of t) c xs ->
  exists kids, x_children mem d t c = XOk kids /\ encodes t (level mem d t c kids) xs.
Proof.
  induction t as [nl|p nl|n t IH nl|k t IH nl]; intros d c xs Hw Hb Hh Hl.
  - exists []. split; [reflexivity|]. cbn [encodes].
    destruct (under_laid nl SBits c xs Hl) as [H1 H2].
    split; [apply level_counts; assumption|]. split; [exact (H2 (level mem d (TBool nl) c []) _ eq_refl)|].
    cbn [level into_array buffer a_buffers x_buffers nth vec_ptr option_map cb_data].
    destruct H1 as (_ & _ & H1). f_equal. exact H1.
  - exists []. split; [reflexivity|]. cbn [encodes].
    destruct (under_laid nl (SVec p) c xs Hl) as [H1 H2].
    split; [apply level_counts; assumption|]. split; [exact (H2 (level mem d (TPrim p nl) c []) _ eq_refl)|].
    cbn [level into_array buffer a_buffers x_buffers nth vec_ptr option_map cb_data].
    f_equal. rewrite psz_bytes, flat_word. cbn [laid] in H1. rewrite H1. reflexivity.
  - destruct (under_laid nl (SFixed n (shape_of t)) c xs Hl) as [[_ H1] H2].
    assert (Hw' : 0 < n /\ widths_pos (shape_of t)) by (destruct nl; exact Hw).
    assert (Hb' : built (shape_of t) (un_null nl (SFixed n (shape_of t)) c)).
    { apply (built_fixed_coll n); [apply Hw'|]. destruct nl; [apply built_null_coll|]; exact Hb. }
    assert (Hh' : (held (shape_of t) (un_null nl (SFixed n (shape_of t)) c) < 2 ^ 63)%N).
    { pose proof (under_held nl (SFixed n (shape_of t)) c) as H. cbn [held] in H. cbn [shape_of] in Hh. lia. }
    destruct (IH (S d) _ _ (proj2 Hw') Hb' Hh' H1) as (kids & E1 & E2).
    exists [level mem (S d) t (un_null nl (SFixed n (shape_of t)) c) kids]. split.
    + cbn [x_children]. rewrite (child_array_level mem (S d) t _ (proj2 Hw') (built_weak _ _ Hb' (proj2 Hw')) Hh').
      pose proof (child_array_spec mem t (S d) _ (proj2 Hw') (built_weak _ _ Hb' (proj2 Hw')) Hh') as HS.
      rewrite (proj2 (first_nonzero_none _) (laid_offsets _ _ _ H1)) in HS.
      destruct HS as (_ & -> & _). cbn. rewrite E1. reflexivity.
    + cbn [encodes]. split; [apply level_counts; assumption|].
      split; [exact (H2 (level mem d (TFsl n t nl) c [_]) _ eq_refl)|].
      eexists. split; [reflexivity|]. exact E2.
  - destruct (under_laid nl (SList k (shape_of t)) c xs Hl) as [[H1 H1o] H2].
    assert (Hw' : widths_pos (shape_of t)) by (destruct nl; exact Hw).
    assert (Hbu : built (SList k (shape_of t)) (un_null nl (SList k (shape_of t)) c)) by (destruct nl; [apply built_null_coll|]; exact Hb).
    set (u := un_null nl (SList k (shape_of t)) c : offsets (cC (coll (shape_of t)))) in *.
    assert (Hb' : built (shape_of t) (of_data u)) by exact (built_list_data k _ _ Hbu).
    assert (Hh' : (held (shape_of t) (of_data u) < 2 ^ 63)%N).
    { pose proof (under_held nl (SList k (shape_of t)) c) as H. cbn [held] in H. fold u in H.
      cbn [shape_of] in Hh. lia. }
    destruct (IH (S d) _ _ Hw' Hb' Hh' H1) as (kids & E1 & E2).
    exists [level mem (S d) t (of_data u) kids]. split.
    + assert (E3 : x_children mem d (TVsl k t nl) c =
        xbind (child_array mem (S d) t (of_data u)) (fun q => XOk [q])) by reflexivity.
      rewrite E3, (child_array_level mem (S d) t _ Hw' (built_weak _ _ Hb' Hw') Hh').
      pose proof (child_array_spec mem t (S d) _ Hw' (built_weak _ _ Hb' Hw') Hh') as HS.
      rewrite (proj2 (first_nonzero_none _) (laid_offsets _ _ _ H1)) in HS.
      destruct HS as (kids' & -> & _). cbn [N.eqb xbind]. rewrite E1. reflexivity.
    + cbn [encodes]. split; [apply level_counts; assumption|].
      split; [exact (H2 (level mem d (TVsl k t nl) c [_]) _ eq_refl)|].
      split; [|eexists; split; [reflexivity|exact E2]].
      cbn [level into_array buffer a_buffers x_buffers nth vec_ptr option_map cb_data]. fold u.
      f_equal. exact (list_words k (shape_of t) Hw' u _ Hbu H1 H1o).
Qed.

Section Wire.
  Context (t : ty) (Hw : widths_pos (shape_of t)).

  Lemma export_encodes mem c xs : built (shape_of t) c -> (held (shape_of t) c < 2 ^ 63)%N ->
    laid (shape_of t) c xs -> exists a, export mem t c = XOk (a, schema_of t) /\ encodes t a xs.
  Proof.
    intros Hb Hh Hl. destruct (level_encodes mem t 0 c xs Hw Hb Hh Hl) as (kids & E1 & E2).
    exists (level mem 0 t c kids). split; [|exact E2].
    pose proof (child_array_spec mem t 0 _ Hw (built_weak _ _ Hb Hw) Hh) as HS.
    rewrite (proj2 (first_nonzero_none _) (laid_offsets _ _ _ Hl)) in HS.
    destruct HS as (_ & E0 & _).
    rewrite (export_level mem t c Hw (built_weak _ _ Hb Hw) Hh), E0. cbn. rewrite E1. reflexivity.
  Qed.

  Lemma laid_travels mem c xs : arrow_type t -> aligned mem 0 t -> calm (shape_of t) c ->
    laid (shape_of t) c xs -> Forall (item_fits (shape_of t)) xs ->
    (held (shape_of t) c < 2 ^ 63)%N -> travels mem t c xs.
  Proof.
    intros Ht Ha Hc Hl Hf Hh. pose proof (calm_built _ _ Hc) as Hb.
    destruct (export_encodes mem c xs Hb Hh Hl) as (a & E & He).
    assert (Hty : typed (shape_of t) c).
    { apply (laid_typed _ _ _ Hl). rewrite Forall_forall in Hf. exact Hf. }
    pose proof (laid_shows (shape_of t) Hw c xs Hb Hl) as Hs.
    destruct (round_trip mem t c xs Hw Ht Hc Hh Hty Ha (laid_offsets _ _ _ Hl) Hs)
      as (a' & s' & c' & E1 & E2 & E3).
    rewrite E in E1. injection E1 as <- <-.
    exists a, (schema_of t), c'. split; [exact E|].
    split; [exact (export_describes mem t c _ _ Hw Ht Hc Hh Hty Ha E)|]. split; [exact He|].
    split; [|split; assumption].
    exact (proj2 (proj2 (proj2 (export_items mem t c xs _ _ Hw Hb Hh Hs Hty E)))).
  Qed.

  Lemma held_le c u : built (shape_of t) c -> (l_usage (shape_ld (shape_of t)) c <= u)%N ->
    (held (shape_of t) c <= u)%N.
  Proof. intros Hb H. rewrite (held_usage _ Hw c (built_inv _ _ Hb Hw)). exact H. Qed.

  Lemma collected_travels mem R (it : iter (cA (layout t)) R) c r : arrow_type t -> aligned mem 0 t ->
    resumable (shape_of t) = true \/ fused it -> Forall (item_ok (shape_of t)) (items_of it) ->
    Forall (item_fits (shape_of t)) (items_of it) ->
    (total (cost (shape_of t)) (items_of it) < 2 ^ 63)%N ->
    k_from_iter (layout t) it = (BOk c, r) \/ k_from_iter_in (layout t) it = (BOk c, r) ->
    travels mem t c (items_of it).
  Proof.
    intros Ht Ha Hf Hi Hx Hm E.
    assert (Hc : calm (shape_of t) c) by exact (calm_collect (shape_of t) R it c r Hf Hi E).
    apply laid_travels; auto.
    - exact (laid_collect (shape_of t) Hw R it c r Hf Hi E).
    - eapply N.le_lt_trans; [|exact Hm]. apply held_le; [exact (calm_built _ _ Hc)|].
      rewrite costs_wgt. rewrite resumable_nofuse in Hf. apply items_ok_wt in Hi.
      destruct (run_parts it) as [r0 Hr]. pose proof (shape_laws _ Hw) as L. destruct E as [E|E].
      + destruct (lw_from_iter _ _ L _ _ _ _ _ _ _ Hf Hi Hr E) as [G _]. apply G.
      + destruct (lw_from_iter_in _ _ L _ _ _ _ _ _ _ Hf Hi Hr E) as [G _]. apply G.
  Qed.
  Lemma try_collected_travels mem R (it : iter (cA (layout t)) R) w c r w' :
    arrow_type t -> aligned mem 0 t ->
    resumable_try (shape_of t) = true \/ fused it -> Forall (item_ok (shape_of t)) (items_of it) ->
    Forall (item_fits (shape_of t)) (items_of it) ->
    (total (cost (shape_of t)) (items_of it) < 2 ^ 63)%N ->
    k_try_from_iter (layout t) it w = (BOk c, r, w') ->
    travels mem t c (items_of it).
  Proof.
    intros Ht Ha Hf Hi Hx Hm E.
    assert (Hc : calm (shape_of t) c) by exact (calm_try_collect (shape_of t) R it w c r w' Hf Hi E).
    apply laid_travels; auto.
    - exact (laid_try_collect (shape_of t) Hw R it w c r w' Hf Hi E).
    - eapply N.le_lt_trans; [|exact Hm]. apply held_le; [exact (calm_built _ _ Hc)|].
      rewrite costs_wgt. rewrite resumable_try_nofuse in Hf. apply items_ok_wt in Hi.
      destruct (run_parts it) as [r0 Hr]. pose proof (shape_laws _ Hw) as L.
      pose proof (lw_try_from_iter _ _ L _ _ _ _ _ _ _ _ _ Hf Hi Hr E) as G. apply G.
  Qed.

  Lemma runs_held_calm c xs ps os c' : calm (shape_of t) c -> laid (shape_of t) c xs ->
    runs (shape_of t) c ps os c' -> Forall2 appends ps os ->
    calm (shape_of t) c' /\
    (held (shape_of t) c' <= held (shape_of t) c +
       total (cost (shape_of t)) (concat (map op_items ps)))%N.
  Proof.
    intros Hc Hl H. revert xs Hc Hl.
    induction H as [c|c p o c1 ps os c2 Hi E Ho Hp Hr IH]; intros xs Hc Hl Ha; cbn [map concat].
    - split; [exact Hc|]. lia.
    - inversion Ha as [|? ? ? ? Ha1 Ha2]; subst.
      assert (Hc1 : calm (shape_of t) c1).
      { apply (calm_step _ c p c1 o Hc Hi E Ho). intros -> Hx.
        destruct p; cbn [appends is_extension] in *; try contradiction; discriminate. }
      pose proof (calm_built _ _ Hc) as Hb.
      assert (Hl1 : laid (shape_of t) c1 (xs ++ op_items p)).
      { assert (R1 : runs (shape_of t) c [p] [o] c1) by (econstructor; eauto; constructor).
        pose proof (laid_runs _ Hw c xs [p] [o] c1 Hb Hl R1 (Forall2_cons _ _ Ha1 (Forall2_nil _))) as [G _].
        cbn [map concat] in G. rewrite app_nil_r in G. exact G. }
      destruct (IH _ Hc1 Hl1 Ha2) as [G1 G2]. split; [exact G1|].
      destruct (step_core _ Hw c xs p c1 o Hb (laid_shows _ Hw c xs Hb Hl) Hi E Ho Hp)
        as (_ & _ & _ & _ & _ & G3).
      assert (Et : total (cost (shape_of t)) (op_items p ++ concat (map op_items ps)) =
        (total (cost (shape_of t)) (op_items p) + total (cost (shape_of t)) (concat (map op_items ps)))%N).
      { rewrite !costs_wgt. apply sumw_app. }
      rewrite Et. lia.
  Qed.
  Lemma runs_travels mem c xs ps os c' : arrow_type t -> aligned mem 0 t ->
    calm (shape_of t) c -> laid (shape_of t) c xs -> runs (shape_of t) c ps os c' ->
    Forall2 appends ps os ->
    Forall (item_fits (shape_of t)) (xs ++ concat (map op_items ps)) ->
    (held (shape_of t) c + total (cost (shape_of t)) (concat (map op_items ps)) < 2 ^ 63)%N ->
    travels mem t c' (xs ++ concat (map op_items ps)).
  Proof.
    intros Ht Ha Hc Hl Hr Hp Hf Hm.
    destruct (runs_held_calm c xs ps os c' Hc Hl Hr Hp) as [G1 G2].
    apply laid_travels; auto; [|lia].
    exact (proj1 (laid_runs _ Hw c xs ps os c' (calm_built _ _ Hc) Hl Hr Hp)).
  Qed.
End Wire.
