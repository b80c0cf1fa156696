(** * Lemmas behind the theorems of PropBitmap.v *)
From Coq Require Import List NArith ZArith Bool Arith Lia ZifyBool ZifyNat ZifyN.
From Verif Require Import Base Iter Spec VecModel BitmapModel CollModel ValidityModel
  FlattenModel OffsetsModel LayoutModel IterLemmas VecLemmas BitmapLemmas BitmapLemmas2 Laws
  LawsBase LawsFlatten LawsValidity LawsOffsets Reach ReachLemmas CoreLemmas.
Import ListNotations.

Ltac Zify.zify_post_hook ::= Z.div_mod_to_equations.
Local Arguments Nat.div : simpl never.
Local Arguments Nat.modulo : simpl never.
Local Arguments N.add : simpl never.
Local Arguments N.mul : simpl never.

Lemma items_true {A} (xs : list A) : Forall (fun _ => True) xs.
Proof. apply Forall_forall; auto. Qed.
Lemma bits_item_ok (xs : list bool) : Forall (item_ok SBits) xs.
Proof. apply items_true. Qed.
Lemma bits_built_ok b : built SBits b -> bm_ok b.
Proof. intros H. exact (built_inv SBits b H I). Qed.
Lemma bits_shows b : bm_ok b -> shows bitmap_coll b (bm_abs b).
Proof. intros H. exact (inv_shows _ _ bitmap_laws b H). Qed.
Lemma bits_abs b xs : built SBits b -> shows bitmap_coll b xs -> xs = bm_abs b /\ bm_ok b.
Proof. intros H1 H2. exact (built_abs SBits I b xs H1 H2). Qed.
Lemma fused_list {A} (xs : list A) : fused (it_list xs).
Proof.
  unfold fused, it_list. cbn [it_tr].
  induction xs as [|x xs IH]; cbn [list_t fused_t]; auto.
Qed.
Lemma items_of_list {A} (xs : list A) : items_of (it_list xs) = xs /\ fin_of (it_list xs) = FStop.
Proof. unfold items_of, fin_of. rewrite run_list. auto. Qed.

Lemma collected_bitmap R (it : iter bool R) res r : fused it -> bm_from_iter it = (res, r) ->
  match res with
  | BOk b => fin_of it = FStop /\ shows bitmap_coll b (items_of it) /\
      (forall i, (lenN (items_of it) <= i)%N -> bm_view b i = Ret None)
  | BErr => False
  | BPanic | BAbort => True
  end /\
  (affords (fun _ => 1%N) 1 alloc_max 0 it ->
   match fin_of it with FStop => exists b, res = BOk b | FBoom => res = BPanic end).
Proof.
  intros Hf E. destruct (run_parts it) as [r0 Hr].
  destruct (bm_from_iter_spec it _ _ _ _ _ Hr Hf E) as [H1 H2].
  assert (Hn : forall b, bm_ok b -> bm_abs b = items_of it ->
    forall i, (lenN (items_of it) <= i)%N -> bm_view b i = Ret None).
  { intros b Hb Ha i Hi. rewrite bm_view_spec by auto. rewrite Ha, nth_N_ge; auto. }
  split; [|exact H2]. destruct res as [b| | |]; auto.
  destruct H1 as (He & _ & Hok & Ha & _). split; [auto|]. split; [|apply Hn; auto].
  rewrite <- Ha. apply bits_shows; auto.
Qed.
Lemma collected_list xs : (lenN xs <= alloc_max)%N ->
  exists b, bm_from_iter (it_list xs) = (BOk b, tt) /\ shows bitmap_coll b xs /\
    forall i, (lenN xs <= i)%N -> bm_view b i = Ret None.
Proof.
  intros Hs. destruct (bm_from_iter (it_list xs)) as [res []] eqn:E.
  destruct (collected_bitmap _ _ _ _ (fused_list xs) E) as [H H'].
  destruct (items_of_list xs) as [H1 H2]. rewrite ?H1, H2 in *.
  destruct H' as [b ->]; [apply affords_list1; rewrite N.add_0_l; exact Hs|].
  exists b. tauto.
Qed.
Lemma try_collected_bitmap R (it : iter bool R) w res r w' : fused it ->
  bm_try_from_iter it w = (res, r, w') ->
  match res with
  | BOk b => fin_of it = FStop /\ shows bitmap_coll b (items_of it) /\
      (forall i, (lenN (items_of it) <= i)%N -> bm_view b i = Ret None)
  | BErr => True
  | BPanic => fin_of it = FBoom
  | BAbort => False
  end.
Proof.
  intros Hf E. destruct (run_parts it) as [r0 Hr].
  pose proof (bm_try_from_iter_spec it _ _ _ _ _ _ _ Hr Hf E) as H1.
  destruct res as [b| | |]; auto. destruct H1 as (He & _ & Hok & Ha & _). split; [auto|].
  rewrite <- Ha. split; [apply bits_shows; auto|].
  intros i Hi. rewrite bm_view_spec by auto. rewrite nth_N_ge; auto.
Qed.

Lemma parts_accepted buf bits off :
  bm_try_from_parts buf bits off =
  if (off + bits <=? usize_max)%N && (off + bits <=? 8 * lenN (v_items buf))%N
  then inl (Bitmap buf (N.to_nat bits) (N.to_nat off))
  else inr (OutOfBounds off bits (lenN (v_items buf))).
Proof.
  unfold bm_try_from_parts, checked_add, sat_mul.
  destruct (off + bits <=? usize_max)%N eqn:E; cbn [andb]; [|reflexivity].
  replace (off + bits <=? N.min usize_max (lenN (v_items buf) * 8))%N
    with (off + bits <=? 8 * lenN (v_items buf))%N by lia.
  reflexivity.
Qed.
Lemma parts_iff buf bits off :
  ((exists b, bm_try_from_parts buf bits off = inl b) <->
   (off + bits <= usize_max)%N /\ (off + bits <= 8 * lenN (v_items buf))%N) /\
  (~ ((off + bits <= usize_max)%N /\ (off + bits <= 8 * lenN (v_items buf))%N) ->
   bm_try_from_parts buf bits off = inr (OutOfBounds off bits (lenN (v_items buf)))).
Proof.
  rewrite parts_accepted.
  destruct (N.leb_spec (off + bits) usize_max); cbn [andb].
  - destruct (N.leb_spec (off + bits) (8 * lenN (v_items buf))).
    + split; [split; [intros _; auto|intros _; eauto]|]. intros H1; exfalso; apply H1; auto.
    + split; [split; [intros [? H1]; discriminate|intros [? ?]; lia]|]. auto.
  - split; [split; [intros [? H1]; discriminate|intros [? ?]; lia]|]. auto.
Qed.
Lemma parts_bits buf bits off b : vec_fits u8sz buf -> bm_try_from_parts buf bits off = inl b ->
  shows bitmap_coll b (firstn (N.to_nat bits) (skipn (N.to_nat off) (bits_of (v_items buf)))) /\
  (forall i, (i < bits)%N -> exists byte,
     nth_error (v_items buf) (N.to_nat ((off + i) / 8)) = Some byte /\
     bm_view b i = Ret (Some (N.testbit byte ((off + i) mod 8)))) /\
  N.of_nat (bm_len b) = bits /\ N.of_nat (bm_bit_offset b) = off /\
  bm_into_parts b = (buf, N.to_nat bits, N.to_nat off).
Proof.
  intros Hv E. destruct (bm_parts_ok _ _ _ _ Hv E) as [-> Hok].
  pose proof (bits_shows _ Hok) as Hs. unfold bm_abs in Hs. cbn [bm_bits bm_off bm_buf] in Hs.
  split; [exact Hs|]. split; [|cbn [bm_len bm_bit_offset bm_bits bm_off bm_into_parts bm_buf];
    rewrite !N2Nat.id; auto].
  intros i Hi. rewrite bm_view_spec by auto. unfold bm_abs. cbn [bm_bits bm_off bm_buf].
  assert (Hl : N.to_nat off + N.to_nat bits <= 8 * length (v_items buf)) by apply Hok.
  rewrite nth_N_lt.
  2:{ unfold lenN. rewrite firstn_length, skipn_length, bits_of_length. lia. }
  rewrite nth_error_firstn_lt by lia. rewrite nth_error_skipn_add, bits_of_nth.
  replace (N.to_nat ((off + i) / 8)) with ((N.to_nat off + N.to_nat i) / 8) by lia.
  destruct (nth_error (v_items buf) ((N.to_nat off + N.to_nat i) / 8)) as [byte|] eqn:En.
  - exists byte. split; auto. do 3 f_equal. lia.
  - apply nth_error_None in En. lia.
Qed.

Lemma bits_extend R b xs (it : iter bool R) b' r o : built SBits b -> shows bitmap_coll b xs ->
  bm_extend b it = (b', r, o) ->
  match o with
  | ODone => fin_of it = FStop /\ shows bitmap_coll b' (xs ++ items_of it)
  | OErr => False
  | OPanic => shows bitmap_coll b'
        (xs ++ firstn ((8 - (bm_bit_offset b + length xs) mod 8) mod 8) (items_of it))
  | OAbort => True
  end /\
  (affords (fun _ => 1%N) 1 alloc_max (lenN (v_items (bm_buf b))) it ->
   o = match fin_of it with FStop => ODone | FBoom => OPanic end).
Proof.
  intros Hb Hs E. destruct (bits_abs b xs Hb Hs) as [-> Hok].
  destruct (run_parts it) as [r0 Hr].
  destruct (bm_extend_spec b it _ _ _ _ _ _ Hok Hr E) as (H1 & H2 & H3 & _ & H5 & H6 & _).
  pose proof (bits_shows b' H1) as Hs'. rewrite bm_abs_length by auto. unfold bm_bit_offset.
  split.
  - destruct o; auto.
    + destruct H5 as (-> & _ & H5). rewrite H5 in Hs'. split; [auto|exact Hs'].
    + rewrite H5 in Hs'. exact Hs'.
  - intros Ha. specialize (H6 Ha). unfold ends_as in H6. destruct (fin_of it); auto.
Qed.
Lemma bits_extend_appends R b xs (it : iter bool R) b' r o :
  built SBits b -> shows bitmap_coll b xs -> fin_of it = FStop -> bm_extend b it = (b', r, o) ->
  (o = ODone /\ shows bitmap_coll b' (xs ++ items_of it)) \/
  ((o = OAbort \/ o = OPanic) /\
   ~ affords (fun _ => 1%N) 1 alloc_max (lenN (v_items (bm_buf b))) it).
Proof.
  intros Hb Hs He E. destruct (bits_extend R b xs it b' r o Hb Hs E) as [H H'].
  rewrite He in H'.
  destruct o; [left; tauto|contradiction|right|right]; (split; [auto|]); intros Ha;
    specialize (H' Ha); discriminate.
Qed.
Lemma bits_no_safe : forall off, panic_safe SBits false off = true.
Proof. reflexivity. Qed.
Lemma bits_exec ps b xs b' os : built SBits b -> shows bitmap_coll b xs ->
  exec bitmap_coll b ps = (b', os) -> ~ In OAbort os ->
  exists ys, list_runs xs ps os ys /\ shows bitmap_coll b' ys.
Proof.
  intros Hb Hs E Ha.
  destruct (exec_core SBits I ps b xs b' os Hb Hs) as (ys & H1 & H2 & _); auto.
  - apply Forall_forall. intros p _. apply bits_item_ok.
  - eauto.
Qed.
Lemma bits_panic_later b xs (it : iter bool unit) b1 o ps b2 os :
  built SBits b -> shows bitmap_coll b xs ->
  step bitmap_coll b (OpExtend it) = (b1, o) \/
    (exists w, step bitmap_coll b (OpTryExtend it w) = (b1, o)) ->
  o = OPanic ->
  exec bitmap_coll b1 ps = (b2, os) -> ~ In OAbort os ->
  let kept := xs ++ firstn ((8 - (bm_bit_offset b + length xs) mod 8) mod 8) (items_of it) in
  shows bitmap_coll b1 kept /\
  exists ys, list_runs kept ps os ys /\ shows bitmap_coll b2 ys.
Proof.
  intros Hb Hs Hst -> E Ha kept.
  assert (Hx : shows bitmap_coll b1 kept /\ built SBits b1).
  { destruct Hst as [Hst|[w Hst]].
    - assert (Hb1 : built SBits b1).
      { apply (built_step SBits b (OpExtend it) b1 OPanic Hb); auto; try discriminate.
        apply bits_item_ok. intros _. left; reflexivity. }
      cbn [step] in Hst. change (k_extend bitmap_coll b it) with (bm_extend b it) in Hst.
      destruct (bm_extend b it) as [[b1' r] o] eqn:E1. inversion Hst; subst; clear Hst.
      destruct (bits_extend _ b xs it _ _ _ Hb Hs E1) as [H1 _]. auto.
    - assert (Hb1 : built SBits b1).
      { apply (built_step SBits b (OpTryExtend it w) b1 OPanic Hb); auto; try discriminate.
        apply bits_item_ok. intros _. reflexivity. }
      cbn [step] in Hst. change (k_try_extend bitmap_coll b it w) with (bm_try_extend b it w) in Hst.
      destruct (bm_try_extend b it w) as [[[b1' r] o] w'] eqn:E1. inversion Hst; subst; clear Hst.
      destruct (bits_abs b xs Hb Hs) as [-> Hok].
      destruct (run_parts it) as [r0 Hr].
      destruct (bm_try_extend_spec b it _ _ _ _ _ _ _ _ Hok Hr E1) as (H1 & H2 & H3 & He & _ & Ha1 & _).
      split; [|auto]. unfold kept, bm_bit_offset. rewrite bm_abs_length by auto.
      pose proof (bits_shows b1 H1) as Hs'. rewrite Ha1 in Hs'. exact Hs'. }
  destruct Hx as (H2 & H3). split; [auto|].
  eapply bits_exec; eauto.
Qed.

Lemma bits_try_extend R b xs (it : iter bool R) w b' r o w' :
  built SBits b -> shows bitmap_coll b xs -> bm_try_extend b it w = (b', r, o, w') ->
  match o with
  | ODone => fin_of it = FStop /\ shows bitmap_coll b' (xs ++ items_of it)
  | OErr => shows bitmap_coll b' xs
  | OPanic => fin_of it = FBoom
  | OAbort => False
  end.
Proof.
  intros Hb Hs E.
  pose proof (try_extend_core SBits I R b xs it w b' r o w' Hb Hs (bits_item_ok _) E) as H.
  destruct o; auto. apply H.
Qed.

Lemma nth_N_nth {A} (l : list A) i : nth_N l i = nth_error l (N.to_nat i).
Proof.
  unfold nth_N. destruct (N.ltb_spec i (N.of_nat (length l))) as [H|H]; auto.
  symmetry. apply nth_error_None. lia.
Qed.
Lemma filter_all_len {A} (f : A -> bool) l : Nat.eqb (length (filter f l)) (length l) = forallb f l.
Proof.
  induction l as [|x l IH]; [reflexivity|]. cbn [filter forallb length].
  destruct (f x); cbn [length andb]; [exact IH|].
  assert (length (filter f l) <= length l) by (clear; induction l as [|x l IH]; cbn; auto; destruct (f x); cbn; lia).
  apply Nat.eqb_neq. lia.
Qed.
Lemma filter_none_len {A} (f : A -> bool) l : Nat.eqb (length (filter f l)) 0 = negb (existsb f l).
Proof.
  induction l as [|x l IH]; [reflexivity|]. cbn [filter existsb].
  destruct (f x); cbn [length orb]; auto.
Qed.
Lemma existsb_forallb_negb {A} (f : A -> bool) l : negb (existsb (fun x => negb (f x)) l) = forallb f l.
Proof.
  induction l as [|x l IH]; [reflexivity|]. cbn [existsb forallb]. rewrite <- IH.
  destruct (f x), (existsb (fun x => negb (f x)) l); reflexivity.
Qed.

(** Counts over an optional bitmap, [bits] being what it shows (all set if there
    is none). *)
Lemma counts_core len m : vb_ok len m ->
  let bits := vb_bits len m in
  vb_null_count m = Ret (length (filter negb bits)) /\
  vb_valid_count len m = Ret (length (filter (fun x => x) bits)) /\
  vb_any_null m = Ret (existsb negb bits) /\
  vb_all_null len m = Ret (forallb negb bits) /\
  vb_any_valid len m = Ret (existsb (fun x => x) bits) /\
  vb_all_valid m = Ret (forallb (fun x => x) bits) /\
  (forall i, vb_is_valid len m i = Ret (nth_error bits (N.to_nat i)) /\
     vb_is_null len m i = Ret (option_map negb (nth_error bits (N.to_nat i)))).
Proof.
  intros Hok bits. pose proof (vb_bits_length len m Hok) as Hl.
  unfold vb_all_null, vb_any_valid, vb_all_valid.
  rewrite (vb_null_count_spec len m Hok), (vb_valid_count_spec len m Hok).
  split; [reflexivity|]. split; [reflexivity|].
  split; [exact (vb_any_null_spec len m Hok)|]. fold bits in Hl. cbn [omap].
  split; [|split; [|split]].
  - f_equal. unfold count_false. fold bits. rewrite <- Hl at 1. apply filter_all_len.
  - f_equal. unfold count_true. fold bits. rewrite filter_none_len, negb_involutive. reflexivity.
  - f_equal. unfold count_false. fold bits. rewrite filter_none_len.
    exact (existsb_forallb_negb (fun x => x) bits).
  - intros i. unfold vb_is_null. rewrite (vb_is_valid_spec len m i Hok), nth_N_nth.
    cbn [omap]. auto.
Qed.
Lemma bits_counts b xs : built SBits b -> shows bitmap_coll b xs ->
  let n := length xs in
  vb_null_count (Some b) = Ret (length (filter negb xs)) /\
  vb_valid_count n (Some b) = Ret (length (filter (fun x => x) xs)) /\
  vb_any_null (Some b) = Ret (existsb negb xs) /\
  vb_all_null n (Some b) = Ret (forallb negb xs) /\
  vb_any_valid n (Some b) = Ret (existsb (fun x => x) xs) /\
  vb_all_valid (Some b) = Ret (forallb (fun x => x) xs) /\
  (forall i, vb_is_valid n (Some b) i = Ret (nth_error xs (N.to_nat i)) /\
     vb_is_null n (Some b) i = Ret (option_map negb (nth_error xs (N.to_nat i)))).
Proof.
  intros Hb Hs n. destruct (bits_abs b xs Hb Hs) as [-> Hok].
  assert (H : vb_ok n (Some b)) by (split; [auto|]; unfold n; rewrite bm_abs_length; auto).
  exact (counts_core n (Some b) H).
Qed.
