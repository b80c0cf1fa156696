(** * Facts about taking collections apart *)
From Coq Require Import List NArith ZArith Bool Arith Lia ZifyBool ZifyNat ZifyN.
From Verif Require Import Base Iter Spec SpecParts VecModel BitmapModel CollModel ValidityModel
  FlattenModel OffsetsModel LayoutModel IterLemmas VecLemmas BitmapLemmas BitmapLemmas2 Laws
  LawsBase LawsFlatten LawsValidity LawsSealed LawsOffsets Reach Calm ReachLemmas CoreLemmas
  FactsBitmap FactsList.
Import ListNotations.

(** Every shape, with the stronger invariant for nullable collections. *)
Fixpoint calm_ld (s : shape) : LD (coll s) :=
  match s with
  | SVec p => vec_ld N 0%N (psz p)
  | SAny A a0 z => vec_ld A a0 (N.pos z)
  | SBits => bitmap_ld
  | SNull s => sealed_ld (coll s) (calm_ld s)
  | SFixed n s => flatten_ld (coll s) (calm_ld s) n
  | SList k s => offsets_ld (coll s) (calm_ld s) k
  end.
Lemma calm_laws s : widths_pos s -> Laws (coll s) (calm_ld s).
Proof.
  induction s as [p| |s IH|n s IH|k s IH|A a0 z]; cbn [widths_pos coll calm_ld]; intros H.
  - apply vec_laws.
  - apply bitmap_laws.
  - apply sealed_laws; auto.
  - apply flatten_laws; tauto.
  - apply offsets_laws; auto.
  - apply vec_laws.
Qed.
Lemma calm_item_ok s : forall x, item_ok s x <-> l_wt (calm_ld s) x.
Proof.
  induction s as [p| |s IH|n s IH|k s IH|A a0 z]; intros x.
  - reflexivity.
  - reflexivity.
  - destruct x as [x|]; [apply IH|reflexivity].
  - change (length x = n /\ Forall (item_ok s) x <-> length x = n /\ Forall (l_wt (calm_ld s)) x).
    rewrite (Forall_iff _ _ x IH). reflexivity.
  - apply (Forall_iff _ _ x IH).
  - reflexivity.
Qed.
Lemma calm_resumable s : resumable s = l_nofuse (calm_ld s).
Proof.
  induction s as [p| |s IH|m s IH|k s IH|A a0 z]; cbn [resumable]; try reflexivity; rewrite IH; reflexivity.
Qed.
Lemma calm_resumable_try s : resumable_try s = l_nofuse_try (calm_ld s).
Proof. destruct s; reflexivity. Qed.

Lemma calm_step_inv s c p c' o : widths_pos s -> l_inv (calm_ld s) c ->
  Forall (item_ok s) (op_items p) -> step (coll s) c p = (c', o) -> o <> OAbort ->
  (o = OPanic -> ~ is_extension p) -> l_inv (calm_ld s) c'.
Proof.
  intros Hw Hc Hi Hs Ho Hp. pose proof (calm_laws s Hw) as L.
  apply (Forall_iff _ _ _ (calm_item_ok s)) in Hi.
  destruct p as [it|it w|n|n w|n]; cbn [step op_items is_extension] in *.
  - destruct (k_extend (coll s) c it) as [[c1 r1] o1] eqn:E. inversion Hs; subst; clear Hs.
    destruct (run_parts it) as [r Hr].
    destruct (lw_extend _ _ L _ _ _ _ _ _ _ _ _ Hc Hi Hr E) as [H1 _].
    destruct o; try contradiction; [apply H1|destruct (Hp eq_refl I)].
  - destruct (k_try_extend (coll s) c it w) as [[[c1 r1] o1] w1] eqn:E. inversion Hs; subst; clear Hs.
    destruct (run_parts it) as [r Hr].
    pose proof (lw_try_extend _ _ L _ _ _ _ _ _ _ _ _ _ _ Hc Hi Hr E) as H1.
    destruct o; try contradiction; [apply H1|apply H1|destruct (Hp eq_refl I)].
  - destruct (lw_reserve _ _ L _ _ _ _ Hc Hs) as ((F1 & _) & _). exact F1.
  - destruct (k_try_reserve (coll s) c n w) as [[c1 o1] w1] eqn:E. inversion Hs; subst; clear Hs.
    destruct (lw_try_reserve _ _ L _ _ _ _ _ _ Hc E) as ((F1 & _) & _). exact F1.
  - destruct (lw_truncate _ _ L c n Hc) as (c1 & E & F1 & _).
    rewrite E in Hs. inversion Hs; subst. exact F1.
Qed.

Lemma calm_inv s c : calm s c -> widths_pos s -> l_inv (calm_ld s) c.
Proof.
  induction 1 as [p v Hv | A a0 z v Hv | buf bits off b Hbuf Hb | s c b v Hc IHc Hb IHb Hv | s c Hc IHc
    | n s c c' Hc IHc Hf | k s c offs o Hc IHc Hoffs Hz Ho | s v Hv IHv | s v b Hs Hv IHv Eb
    | n s c Hn Hc IHc | k s o Ho IHo | s | s n c Hc | s n w c w' Hc | s R it c r Hf Hi Hc
    | s R it w c r w' Hf Hi Hc | s c p c' o Hc IHc Hi Hs Hab Hp]; intros Hw;
    try (cbn [widths_pos] in Hw).
  - exact Hv.
  - exact Hv.
  - destruct (bm_parts_ok _ _ _ _ Hbuf Hb) as [_ H]. exact H.
  - specialize (IHc Hw). specialize (IHb I).
    destruct (va_parts_inv _ _ (calm_laws s Hw) _ _ _ IHc IHb Hv) as [-> Hl].
    split; [|exact Hl]. split; [exact IHc|]. split; [exact IHb|]. cbn [va_coll]. lia.
  - split; [|exact I]. split; [exact (IHc Hw)|]. exact I.
  - destruct Hw as [Hn Hw]. destruct (fl_parts_inv _ _ (calm_laws s Hw) _ _ _ Hn (IHc Hw) Hf) as [-> H].
    exact H.
  - exact (of_parts_inv _ _ (calm_laws s Hw) _ _ _ _ (IHc Hw) Hoffs Hz Ho).
  - apply (proj1 (IHv Hw)).
  - destruct (IHv Hs) as [[_ H] _]. rewrite Eb in H. apply H.
  - apply (IHc (conj Hn Hw)).
  - destruct (IHo Hw) as (ls & H & _). exact H.
  - apply (lw_default _ _ (calm_laws s Hw)).
  - pose proof (lw_with_capacity _ _ (calm_laws s Hw) n) as [H _]. rewrite Hc in H. apply H.
  - pose proof (lw_try_with_capacity _ _ (calm_laws s Hw) n w _ _ Hc) as H. apply H.
  - pose proof (calm_laws s Hw) as L. apply (Forall_iff _ _ _ (calm_item_ok s)) in Hi.
    rewrite calm_resumable in Hf. destruct (run_parts it) as [r0 Hr].
    destruct Hc as [Hc | Hc].
    + destruct (lw_from_iter _ _ L _ _ _ _ _ _ _ Hf Hi Hr Hc) as [(_ & _ & _ & H) _]. apply H.
    + destruct (lw_from_iter_in _ _ L _ _ _ _ _ _ _ Hf Hi Hr Hc) as [(_ & _ & _ & H) _]. apply H.
  - pose proof (calm_laws s Hw) as L. apply (Forall_iff _ _ _ (calm_item_ok s)) in Hi.
    rewrite calm_resumable_try in Hf. destruct (run_parts it) as [r0 Hr].
    destruct (lw_try_from_iter _ _ L _ _ _ _ _ _ _ _ _ Hf Hi Hr Hc) as (_ & H & _). apply H.
  - eapply calm_step_inv; eauto.
Qed.

Lemma calm_built s c : calm s c -> built s c.
Proof.
  induction 1 as [p v Hv | A a0 z v Hv | buf bits off b Hbuf Hb | s c b v Hc IHc Hb IHb Hv | s c Hc IHc
    | n s c c' Hc IHc Hf | k s c offs o Hc IHc Hoffs Hz Ho | s v Hv IHv | s v b Hs Hv IHv Eb
    | n s c Hn Hc IHc | k s o Ho IHo | s | s n c Hc | s n w c w' Hc | s R it c r Hf Hi Hc
    | s R it w c r w' Hf Hi Hc | s c p c' o Hc IHc Hi Hs Hab Hp].
  - apply built_vec; auto.
  - apply built_any; auto.
  - eapply built_bits_parts; eauto.
  - exact (built_null_parts s c b v IHc IHb Hv).
  - apply built_null_wrap; auto.
  - eapply built_fixed_parts; eauto.
  - exact (built_list_parts k s c offs o IHc Hoffs Hz Ho).
  - apply built_null_coll; auto.
  - exact (built_null_bits s v b Hs IHv Eb).
  - eapply built_fixed_coll; eauto.
  - exact (built_list_data k s o IHo).
  - apply built_default.
  - eapply built_with_capacity; eauto.
  - eapply built_try_with_capacity; eauto.
  - eapply built_collect; eauto.
  - eapply built_try_collect; eauto.
  - apply (built_step s c p c' o); auto. intros Eo. specialize (Hp Eo).
    destruct p; cbn [is_extension] in Hp; try exact I; destruct (Hp I).
Qed.

(** ** Apart and back together *)

Lemma bits_round_trip b : built SBits b ->
  let '(buf, bits, off) := bm_into_parts b in
  bm_try_from_parts buf (N.of_nat bits) (N.of_nat off) = inl b.
Proof.
  intros Hb. pose proof (bits_built_ok b Hb) as [Hv Hl]. unfold bm_into_parts, bm_try_from_parts.
  destruct b as [buf bits off]. cbn [bm_buf bm_bits bm_off] in *. unfold checked_add, sat_mul.
  destruct Hv as [Hv1 Hv2]. unfold lenN in *.
  replace (max_items u8sz) with alloc_max in Hv2 by reflexivity.
  assert (Ha : alloc_max = 1152921504606846976%N) by reflexivity.
  assert (Hu : usize_max = 18446744073709551615%N) by reflexivity.
  replace (N.of_nat off + N.of_nat bits <=? usize_max)%N with true by (symmetry; lia).
  replace (N.of_nat off + N.of_nat bits <=? N.min usize_max (N.of_nat (length (v_items buf)) * 8))%N
    with true by (symmetry; lia).
  rewrite !Nat2N.id. reflexivity.
Qed.
Lemma fixed_round_trip s (Hw : widths_pos s) n c : 0 < n -> built (SFixed n s) c ->
  fl_try_from_parts (coll s) n c = Ret (inl c).
Proof.
  intros Hn Hb. destruct (built_inv _ _ Hb (conj Hn Hw)) as [Hc Hd].
  unfold fl_try_from_parts. rewrite (lw_len _ _ (shape_laws s Hw) c Hc). cbn [obind].
  destruct n as [|n]; [lia|]. apply Nat.mod_divide in Hd; [|lia].
  apply Nat.eqb_eq in Hd. fold shape_ld in Hd. rewrite Hd. reflexivity.
Qed.
Lemma list_round_trip s (Hw : widths_pos s) k (o : offsets (cC (coll s))) : built (SList k s) o ->
  let '(data, offs) := of_into_parts (coll s) o in
  of_try_from_parts (coll s) data offs = Ret (inl o).
Proof.
  intros Hb. unfold of_into_parts.
  destruct (list_valid s Hw k o Hb) as (n & Hn & Hok & _).
  pose proof (of_parts_spec (coll s) (of_data o) (of_offs o) n Hn) as H.
  destruct (of_try_from_parts (coll s) (of_data o) (of_offs o)) as [[o'|e]|]; [| |contradiction].
  - destruct H as [_ H]. destruct o as [a1 a2], o' as [b1 b2]. unfold of_into_parts in H. cbn [of_data of_offs] in *.
    inversion H; subst. reflexivity.
  - destruct (offsets_ok_no_fault _ _ _ Hok H).
Qed.
Lemma null_round_trip s (Hw : widths_pos s) (v : validity (cC (coll s))) : calm (SNull s) v ->
  match va_into_parts (coll s) v with
  | (c, Some b) => va_try_from_parts (coll s) c b = Ret (inl v)
  | (c, None) => va_from_collection (coll s) c = v
  end.
Proof.
  intros Hc. destruct (calm_inv _ _ Hc Hw) as [[H1 H2] H3]. unfold va_into_parts.
  unfold whole in H3. fold calm_ld in H1, H2, H3. destruct v as [c [b|]]; cbn [va_coll va_bm] in *; [|reflexivity].
  unfold va_try_from_parts. rewrite (lw_len _ _ (calm_laws s Hw) c H1). cbn [obind].
  rewrite <- H3, bm_abs_length by tauto. unfold bm_len. rewrite Nat.eqb_refl. reflexivity.
Qed.

(** An overflow of the offsets in the middle of a nullable extension. *)
Lemma null_overflow (huge : list N) : lenN huge = 2147483648%N ->
  exists v : validity (offsets (vec N)),
    va_extend (coll (SList I32 (SVec U8))) (k_default (coll (SNull (SList I32 (SVec U8)))))
      (it_list [Some []; Some huge]) = (v, tt, OPanic) /\
    match va_into_parts (coll (SList I32 (SVec U8))) v with
    | (c, Some b) => va_try_from_parts (coll (SList I32 (SVec U8))) c b = Ret (inr (1, 0))
    | _ => False
    end.
Proof.
  intros Hh. pose (s := SList I32 (SVec U8)). pose (K := coll s).
  assert (Hex : exists it : iter (option (cA K)) unit, it = it_list [Some []; Some huge])
    by (eexists; reflexivity).
  destruct Hex as [it Eit].
  assert (Hrun : run it = ([Some []; Some huge], FStop, tt)) by (rewrite Eit; apply run_list).
  change (exists v : validity (offsets (vec N)),
    va_extend K (Validity (k_default K) None) (it_list [Some []; Some huge]) = (v, tt, OPanic) /\
    match va_into_parts K v with
    | (c, Some b) => va_try_from_parts K c b = Ret (inr (1, 0))
    | _ => False
    end).
  rewrite <- Eit.
  unfold va_extend.
  change (va_materialize K (Validity (k_default K) None)) with
    (Validity (k_default K) (Some (Bitmap (Vec [] 0) 0 0)), ODone).
  cbn [va_bm va_coll].
  change (k_truncate K (k_default K) (N.of_nat (bm_len (Bitmap (Vec [] 0) 0 0)))) with
    (k_default K, ODone).
  cbn [va_extend_loop].
  destruct (k_extend K (k_default K) (va_chunk K it)) as [[c1 [it1 vs]] o1] eqn:E1.
  destruct (va_chunk_run K it _ _ _ Hrun) as (it' & [(Hle & _)|(Hlt & Hrc & Hsrc)]).
  { exfalso. apply Nat.leb_le in Hle. revert Hle. vm_compute. discriminate. }
  assert (Hit : items_of (va_chunk K it) = [[]; huge]).
  { unfold items_of. rewrite Hrc. reflexivity. }
  assert (Hok : Forall (item_ok s) (items_of (va_chunk K it))).
  { rewrite Hit. constructor; [constructor|]. constructor; [|constructor].
    apply Forall_forall. intros x _. exact I. }
  assert (Hd : shows K (k_default K) []).
  { apply (shows_check s I); [apply built_default| |]; vm_compute; reflexivity. }
  destruct (list_overflow_full (SVec U8) I I32 _ (k_default K) [] (va_chunk K it) [[]] huge [] c1
    (it1, vs) o1) as (D1 & S1 & _); auto.
  { apply built_default. }
  { vm_compute. discriminate. }
  { cbn [concat app]. rewrite app_nil_r.
    replace (omax I32) with 2147483647%Z by (vm_compute; reflexivity).
    change (2147483647 < Z.of_nat (@length N huge))%Z. unfold lenN in Hh. lia. }
  subst o1. eexists. split; [|].
  - f_equal. f_equal. destruct (it_src it1). reflexivity.
  - unfold va_into_parts. cbn [va_coll va_bm]. unfold va_try_from_parts.
    change (k_len K c1) with (k_len (offsets_coll (coll (SVec U8)) I32) c1).
    rewrite (sh_len _ _ _ S1). reflexivity.
Qed.
