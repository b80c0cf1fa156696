(** * Views, counts, parts and copies after any panics *)
From Coq Require Import List NArith ZArith Bool Arith Lia ZifyBool ZifyNat ZifyN.
From Verif Require Import Base Iter Spec SpecParts VecModel BitmapModel CollModel ValidityModel
  FlattenModel OffsetsModel OffsetViewModel LayoutModel IterLemmas VecLemmas BitmapLemmas BitmapLemmas2
  Laws LawsBase LawsFlatten LawsValidity LawsOffsets Reach ReachLemmas CoreLemmas FactsBitmap FactsNull
  FactsList FactsFixed FactsTaken SpecTaken SpecFixed SpecLived WeakLaws WeakNull WeakList FactsLived
  SpecLive HonestLemmas SpecLaid FactsLaid FactsLive FactsExport StorageModel FactsStorage CopyModel FactsCopy.
Import ListNotations.

Local Arguments Nat.div : simpl never.
Local Arguments Nat.modulo : simpl never.
Local Arguments Nat.mul : simpl never.
Local Arguments N.mul : simpl never.

Lemma lived_abs s (Hw : widths_pos s) c xs : lived s c -> reads s c xs ->
  xs = w_abs (shape_wd s) c /\ w_inv (shape_wd s) c.
Proof.
  intros Hc Hx. pose proof (lived_inv s c Hc Hw) as H.
  split; [exact (reads_unique s c xs _ Hx (inv_reads s Hw c H))|exact H].
Qed.

(** ** Out of bounds *)

Lemma range_out_fails {B} (f : N -> out B) : forall n start j, j < n -> f (start + N.of_nat j)%N = Pnc ->
  range_out f start n = Pnc.
Proof.
  induction n as [|n IH]; intros start j Hj H; [lia|]. cbn [range_out].
  destruct (f start) as [b|] eqn:E; [|reflexivity]. cbn [obind]. destruct j as [|j].
  - rewrite N.add_0_r in H. congruence.
  - rewrite (IH (start + 1)%N j); [reflexivity|lia|].
    replace (start + 1 + N.of_nat j)%N with (start + N.of_nat (S j))%N by lia. exact H.
Qed.
Lemma weak_view_out s : widths_pos s -> forall c i, w_inv (shape_wd s) c ->
  (lenN (w_abs (shape_wd s) c) <= i)%N -> (i <= usize_max)%N ->
  k_view (coll s) c i = if none_out s i then Ret None else Pnc.
Proof.
  induction s as [p| |s IH|n s IH|k s IH|A a0 z]; intros Hw c i Hc H1 H2.
  - exact (lw_view_out _ _ (shape_laws (SVec p) Hw) c i Hc H1 H2).
  - exact (lw_view_out _ _ (shape_laws SBits Hw) c i Hc H1 H2).
  - change (validity (cC (coll s))) in c. change (va_view (coll s) c i = Ret None).
    unfold va_view. rewrite (wva_len _ _ _ (shape_wlaws s Hw) c Hc). cbn [obind].
    change (lenN (wva_abs (coll s) (shape_wd s) c) <= i)%N in H1. unfold lenN in H1.
    assert ((i <? N.of_nat (length (wva_abs (coll s) (shape_wd s) c)))%N = false) as -> by lia. reflexivity.
  - destruct Hw as [Hn Hw].
    change (fl_view (coll s) n c i = Pnc). unfold fl_view.
    change (lenN (chunks n (w_abs (shape_wd s) c)) <= i)%N in H1. unfold lenN in H1.
    rewrite chunks_length in H1.
    rewrite (range_out_fails _ n 0 (n - 1)); [reflexivity|lia|].
    unfold strict_mul. destruct (i * N.of_nat n <=? usize_max)%N eqn:E1; [|reflexivity]. cbn [obind].
    unfold strict_add. destruct (i * N.of_nat n + (0 + N.of_nat (n - 1)) <=? usize_max)%N eqn:E2; [|reflexivity].
    cbn [obind]. rewrite (IH Hw c); [destruct (none_out s _); reflexivity|exact Hc| |lia].
    unfold lenN. set (m := length (w_abs (shape_wd s) c)) in *.
    assert (G : m < n * (m / n) + n).
    { pose proof (Nat.mul_succ_div_gt m n ltac:(lia)). lia. }
    assert (n * (m / n) <= n * N.to_nat i) by (apply Nat.mul_le_mono_l; lia). lia.
  - change (offsets (cC (coll s))) in c. change (of_view (coll s) c i = if (i <? usize_max)%N then Ret None else Pnc).
    pose proof (wof_inv_rep _ _ _ _ Hc) as (_ & _ & Hi & _).
    change (lenN (wof_abs (coll s) (shape_wd s) c) <= i)%N in H1.
    unfold of_view, strict_add. destruct (i <? usize_max)%N eqn:E.
    + assert ((i + 1 <=? usize_max)%N = true) as -> by lia. cbn [obind].
      unfold vec_view. rewrite (nth_N_ge _ (i + 1)); [destruct (nth_N _ i); reflexivity|].
      assert (Hl : lenN (v_items (of_offs c)) = (1 + lenN (wof_abs (coll s) (shape_wd s) c))%N).
      { rewrite Hi, lenN_cons. unfold lenN. rewrite ends_length. reflexivity. }
      lia.
    + assert ((i + 1 <=? usize_max)%N = false) as -> by lia. reflexivity.
  - exact (lw_view_out _ _ (shape_laws (SAny A a0 z) Hw) c i Hc H1 H2).
Qed.
Theorem after_outside : forall s, widths_pos s -> forall c xs i, lived s c -> reads s c xs ->
  (lenN xs <= i)%N -> (i <= usize_max)%N ->
  k_view (coll s) c i =
    match s with
    | SFixed _ _ => Pnc
    | SList _ _ => if (i <? usize_max)%N then Ret None else Pnc
    | _ => Ret None
    end.
Proof.
  intros s Hw c xs i Hc Hx H1 H2. destruct (lived_abs s Hw c xs Hc Hx) as [-> Hi].
  rewrite (weak_view_out s Hw c i Hi H1 H2). destruct s; reflexivity.
Qed.

(** ** Validity *)

Lemma wva_inv_bits K d u : wva_inv K d u ->
  vb_ok (length (wva_abs K d u)) (va_bm u) /\
  vb_bits (length (wva_abs K d u)) (va_bm u) = map is_some (wva_abs K d u).
Proof.
  intros Hi. pose proof (wva_abs_length K d u Hi) as Hl. pose proof (wva_bits_le K d u Hi) as Hle. split.
  - destruct Hi as [H1 H2]. unfold wva_bits in *. destruct (va_bm u) as [b|]; [|exact I].
    destruct H2 as [H2 H3]. split; [exact H2|]. rewrite Hl. symmetry. apply bm_abs_length; auto.
  - unfold wva_abs at 2. rewrite mask_bits by auto. rewrite Hl. unfold vb_bits, wva_bits.
    destruct (va_bm u) as [b|]; [reflexivity|]. rewrite repeat_length. reflexivity.
Qed.
Section Null.
  Context (s : shape) (Hw : widths_pos s).
  Let K := coll s.
  Let d := shape_wd s.

  Lemma wnull_bits v xs : lived (SNull s) v -> reads (SNull s) v xs ->
    vb_ok (length xs) (va_bm v) /\ vb_bits (length xs) (va_bm v) = map is_some xs /\
    exists m, k_len K (va_coll v) = Ret m /\ length xs <= m.
  Proof.
    intros Hc Hx. destruct (lived_abs (SNull s) Hw v xs Hc Hx) as [-> Hi].
    change (wva_inv K d v) in Hi. change (w_abs (shape_wd (SNull s)) v) with (wva_abs K d v).
    destruct (wva_inv_bits K d v Hi) as [H1 H2]. split; [exact H1|]. split; [exact H2|].
    exists (length (w_abs d (va_coll v))). split; [apply (ww_len _ _ _ (shape_wlaws s Hw)), Hi|].
    pose proof (wva_abs_length K d v Hi) as Hl. pose proof (wva_bits_le K d v Hi) as Hle.
    rewrite <- Hl in Hle. exact Hle.
  Qed.
  Lemma after_null v xs : lived (SNull s) v -> reads (SNull s) v xs ->
    let n := length xs in
    vb_null_count (va_bm v) = Ret (length (filter (fun o => negb (is_some o)) xs)) /\
    vb_valid_count n (va_bm v) = Ret (length (filter is_some xs)) /\
    vb_any_null (va_bm v) = Ret (existsb (fun o => negb (is_some o)) xs) /\
    vb_all_null n (va_bm v) = Ret (forallb (fun o => negb (is_some o)) xs) /\
    vb_any_valid n (va_bm v) = Ret (existsb is_some xs) /\
    vb_all_valid (va_bm v) = Ret (forallb is_some xs) /\
    (forall i, (i <= usize_max)%N ->
       vb_is_valid n (va_bm v) i =
         match va_view K v i with
         | Ret (Some (Some _)) => Ret (Some true)
         | Ret (Some None) => Ret (Some false)
         | Ret None => Ret None
         | Pnc => Pnc
         end /\
       vb_is_null n (va_bm v) i = omap (option_map negb) (vb_is_valid n (va_bm v) i)) /\
    (exists m, k_len K (va_coll v) = Ret m /\ n <= m).
  Proof.
    intros Hc Hx n. destruct (wnull_bits v xs Hc Hx) as (Hok & Hbits & Hm).
    destruct (counts_core n (va_bm v) Hok) as (C1 & C2 & C3 & C4 & C5 & C6 & C7).
    unfold n in *. rewrite Hbits in *.
    rewrite filter_map_len in C1, C2. rewrite existsb_map' in C3, C5. rewrite forallb_map' in C4, C6.
    split; [exact C1|]. split; [exact C2|]. split; [exact C3|]. split; [exact C4|].
    split; [exact C5|]. split; [exact C6|]. split; [|exact Hm].
    intros i Hi. split; [|reflexivity].
    rewrite (proj1 (C7 i)).
    destruct (nth_error xs (N.to_nat i)) as [o|] eqn:En.
    - rewrite (map_nth_error is_some (N.to_nat i) xs En).
      pose proof (rd_owned _ _ _ Hx _ _ En) as H. rewrite N2Nat.id in H. unfold k_owned in H.
      change (k_view (coll (SNull s)) v i) with (va_view K v i) in H.
      destruct (va_view K v i) as [[[y|]|]|]; cbn [obind] in H; try discriminate.
      + change (k_own (coll (SNull s)) (Some y)) with (omap Some (k_own K y)) in H.
        destruct (k_own K y); [|discriminate]. cbn [omap] in H. injection H as <-. reflexivity.
      + injection H as <-. reflexivity.
    - apply nth_none_N in En. rewrite (nth_map_none is_some xs i En).
      change (va_view K v i) with (k_view (coll (SNull s)) v i).
      rewrite (after_outside (SNull s) Hw v xs i Hc Hx En Hi). reflexivity.
  Qed.

  Lemma after_null_parts c xs b bs : lived s c -> reads s c xs -> lived SBits b -> reads SBits b bs ->
    match va_try_from_parts K c b with
    | Ret (inl v) => length xs = length bs /\ va_into_parts K v = (c, Some b) /\
        reads (SNull s) v (map (fun p : cA K * bool => if snd p then Some (fst p) else None) (combine xs bs))
    | Ret (inr (n, m)) => length xs <> length bs /\ n = length xs /\ m = length bs
    | Pnc => False
    end.
  Proof.
    intros Hc Hx Hb Hbs.
    destruct (lived_abs s Hw c xs Hc Hx) as [Ex Hi]. destruct (lived_abs SBits I b bs Hb Hbs) as [Eb Hok].
    change (bs = bm_abs b) in Eb. change (bm_ok b) in Hok.
    assert (Hlen : bm_len b = length bs) by (rewrite Eb, bm_abs_length by auto; reflexivity).
    assert (Hn : k_len K c = Ret (length xs)) by exact (rd_len _ _ _ Hx).
    unfold va_try_from_parts. rewrite Hn. cbn [obind]. rewrite Hlen.
    match goal with |- context [if ?x then _ else _] => destruct x eqn:En end.
    - apply Nat.eqb_eq in En. split; [exact En|]. split; [reflexivity|].
      set (v := Validity c (Some b)).
      assert (Hv : w_inv (shape_wd (SNull s)) v).
      { split; [exact Hi|]. cbn [v va_bm va_coll]. split; [exact Hok|].
        rewrite <- Eb, <- Ex. apply Nat.eq_le_incl. symmetry. exact En. }
      pose proof (inv_reads (SNull s) Hw v Hv) as H.
      change (w_abs (shape_wd (SNull s)) v) with (mask (w_abs d c) (bm_abs b)) in H.
      unfold d in H. rewrite <- Eb, <- Ex in H. exact H.
    - apply Nat.eqb_neq in En. auto.
  Qed.
End Null.

(** ** Fixed-size lists *)

Lemma after_fixed_parts s (Hw : widths_pos s) n c xs : lived s c -> reads s c xs ->
  match fl_try_from_parts (coll s) n c with
  | Ret (inl c') => 0 < n /\ Nat.divide n (length xs) /\ c' = c /\
      exists rows, reads (SFixed n s) c' rows /\ n * length rows = length xs /\
        forall i x, nth_error rows i = Some x -> x = firstn n (skipn (n * i) xs)
  | Ret (inr ZeroChunkSize) => n = 0
  | Ret (inr (NotMultiple len m)) => 0 < n /\ len = length xs /\ m = n /\
      ~ Nat.divide n (length xs)
  | Pnc => False
  end.
Proof.
  intros Hc Hx. destruct (lived_abs s Hw c xs Hc Hx) as [Ex Hi].
  unfold fl_try_from_parts. rewrite (rd_len _ _ _ Hx). cbn [obind].
  destruct n as [|n]; [reflexivity|].
  destruct (Nat.eqb (length xs mod S n) 0) eqn:E.
  - assert (Hd : Nat.divide (S n) (length xs)) by (apply Nat.mod_divide; lia).
    split; [lia|]. split; [exact Hd|]. split; [auto|].
    destruct (chunks_cut (S n) xs (Nat.lt_0_succ n) Hd) as [G1 G2].
    exists (chunks (S n) xs). split; [|auto].
    pose proof (inv_reads (SFixed (S n) s) (conj (Nat.lt_0_succ n) Hw) c Hi) as H.
    change (w_abs (shape_wd (SFixed (S n) s)) c) with (chunks (S n) (w_abs (shape_wd s) c)) in H.
    rewrite <- Ex in H. exact H.
  - split; [lia|]. split; [auto|]. split; [auto|]. intros Hd.
    apply Nat.mod_divide in Hd; [|lia]. lia.
Qed.

(** ** Lists *)

Section Lists.
  Context (s : shape) (Hw : widths_pos s) (k : okind).
  Let K := coll s.
  Let d := shape_wd s.
  Let L := shape_wlaws s Hw.

  Lemma after_list_parts data xs offs : lived s data -> reads s data xs ->
    match of_try_from_parts K data offs with
    | Ret (inl o) => offsets_ok (v_items offs) (length xs) /\ of_into_parts K o = (data, offs)
    | Ret (inr e) => offsets_fault (v_items offs) (length xs) e
    | Pnc => False
    end.
  Proof.
    intros Hc Hx. pose proof (of_parts_spec K data offs (length xs) (rd_len _ _ _ Hx)) as H.
    destruct (of_try_from_parts K data offs) as [[o|e]|]; auto. destruct H as [H ->]. auto.
  Qed.

  Lemma wlist_rep o ls : lived (SList k s) o -> reads (SList k s) o ls -> wof_rep K d k o ls.
  Proof.
    intros Hc Hx. destruct (lived_abs (SList k s) Hw o ls Hc Hx) as [-> Hi].
    exact (wof_inv_rep K d k o Hi).
  Qed.
  Lemma wrep_row o ls : wof_rep K d k o ls -> row_rep K (w_inv d) (w_abs d) o ls.
  Proof.
    intros Hr. pose proof (wof_rep_rows K d k o ls Hr). destruct Hr as (H1 & _ & H3 & H4 & _).
    split; [exact H1|]. split; [assumption|]. split; [exact H3|exact H4].
  Qed.
  Lemma after_list_rows o ls : lived (SList k s) o -> reads (SList k s) o ls ->
    exists xs, reads s (of_data o) xs /\ offsets_ok (v_items (of_offs o)) (length xs) /\
      (forall i z, nth_error (v_items (of_offs o)) i = Some z -> (0 <= z <= omax k)%Z) /\
      S (length ls) = length (v_items (of_offs o)) /\
      forall i a b, nth_error (v_items (of_offs o)) i = Some a ->
        nth_error (v_items (of_offs o)) (S i) = Some b ->
        nth_error ls i = Some (firstn (Z.to_nat b - Z.to_nat a) (skipn (Z.to_nat a) xs)).
  Proof.
    intros Hc Hx. pose proof (wlist_rep o ls Hc Hx) as Hr. exists (w_abs d (of_data o)).
    split; [apply (inv_reads s Hw); apply Hr|]. destruct (wrep_valid K d k o ls Hr) as [H1 H2].
    split; [exact H1|]. split; [exact H2|]. exact (wrep_slices K d k o ls Hr).
  Qed.
  Lemma after_list_views o ls i l v : lived (SList k s) o -> reads (SList k s) o ls ->
    nth_error ls i = Some l -> of_view K o (N.of_nat i) = Ret (Some v) ->
    (exists a b, nth_error (v_items (of_offs o)) i = Some a /\
       nth_error (v_items (of_offs o)) (S i) = Some b /\ Z.of_nat (length l) = (b - a)%Z) /\
    ov_len K v = Ret (lenN l) /\ ov_own K v = Ret l /\
    (forall j x, nth_error l j = Some x ->
       exists u, ov_view K v (N.of_nat j) = Ret (Some u) /\ k_own K u = Ret x) /\
    (forall j, (lenN l <= j)%N ->
       ov_view K v j = if (ov_start v + j <=? usize_max)%N then Ret None else Pnc) /\
    (exists it, ov_iter K v = Ret it /\ yields (ov_inext K) ix_hint (k_own K) it l) /\
    (exists it, ov_into K v = Ret it /\ yields (ov_onext K) ix_hint Ret it l).
  Proof.
    intros Hc Hx. apply (row_view_reads K (w_inv d) (w_abs d) k (ww_max _ _ _ L) (ww_view _ _ _ L)).
    exact (wrep_row o ls (wlist_rep o ls Hc Hx)).
  Qed.
  Lemma after_list_eq o ls i l v s2 (veq : cV K -> cV (coll s2) -> out bool)
    (eqb : cA K -> cA (coll s2) -> bool) c m :
    lived (SList k s) o -> reads (SList k s) o ls ->
    nth_error ls i = Some l -> of_view K o (N.of_nat i) = Ret (Some v) ->
    (forall x y a b, k_own K x = Ret a -> k_own (coll s2) y = Ret b -> veq x y = Ret (eqb a b)) ->
    reads s2 c m ->
    exists r, ov_eq K (coll s2) veq v c = Ret r /\
      (r = true <-> length l = length m /\
       forall i a b, nth_error l i = Some a -> nth_error m i = Some b -> eqb a b = true).
  Proof.
    intros Hc Hx Hl E He Hm.
    exact (row_view_eq K (w_inv d) (w_abs d) k (ww_max _ _ _ L) (ww_view _ _ _ L) o ls i l v _ veq eqb
      c m (wrep_row o ls (wlist_rep o ls Hc Hx)) Hl E He (rd_len _ _ _ Hm) (rd_iter _ _ _ Hm)).
  Qed.
End Lists.

(** ** Copies *)

Lemma drained_breaks {S A} (next : S -> out (option A * S)) hnt xs :
  forall s, breaks next hnt s xs ->
  drain_node hnt s = Node (exact_hint (length xs)) tt /\
  forall n, length xs <= n -> let t := drain next hnt Ret (Datatypes.S n) s in
    fused_t t /\ forall nd, fst (run_t t nd) = (xs, FBoom).
Proof.
  induction xs as [|x xs IH]; intros s [Hh H].
  - split; [unfold drain_node; rewrite Hh; reflexivity|]. intros n _. cbn [drain]. rewrite H.
    split; [exact I|reflexivity].
  - split; [unfold drain_node; rewrite Hh; reflexivity|]. destruct H as (s' & E & H).
    destruct (IH s' H) as [Hn Hd]. intros [|n] Hl; [cbn [length] in Hl; lia|].
    specialize (Hd n). cbn [length] in Hl. destruct Hd as [D1 D2]; [lia|].
    cbn zeta. change (drain next hnt Ret (Datatypes.S (Datatypes.S n)) s)
      with (match next s with
            | Pnc => [(Boom, drain_node hnt s)]
            | Ret (None, _) => []
            | Ret (Some v, s') => (Yield v, drain_node hnt s') :: drain next hnt Ret (Datatypes.S n) s'
            end).
    rewrite E. split; [exact D1|]. intros nd. cbn [run_t].
    specialize (D2 (drain_node hnt s')). destruct (run_t _ (drain_node hnt s')) as [[ys e] r].
    cbn [fst] in *. congruence.
Qed.
Lemma sim_breaks : forall K O rel, Sim K O rel -> forall xs s t, rel s t ->
  breaks (k_onext K) (k_ohint K) t xs -> breaks (o_next O) (o_hint O) s xs.
Proof.
  intros K O rel HS. induction xs as [|x xs IH]; intros s t Hr [Hh H].
  - split; [rewrite (sim_hint _ _ _ HS s t Hr); exact Hh|].
    pose proof (sim_next _ _ _ HS s t Hr) as Hx. unfold nexts in Hx. rewrite H in Hx. exact Hx.
  - split; [rewrite (sim_hint _ _ _ HS s t Hr); exact Hh|].
    destruct H as (t' & E & H). pose proof (sim_next _ _ _ HS s t Hr) as Hx.
    unfold nexts in Hx. rewrite E in Hx. destruct Hx as (s' & E' & Hr'). eauto.
Qed.

(** The items are handed over, then comes the end or, by value, a panic. *)
Lemma after_source s (v : reading s) c xs : reads s c xs ->
  exists it, source s v c = Ret it /\ items_of it = xs /\ fused it /\
    (it = it_list xs \/ (v <> ByViews /\ fin_of it = FBoom)).
Proof.
  intros H. unfold source. rewrite (rd_len _ _ _ H). cbn [obind].
  destruct v as [f|].
  - destruct (own_in_sim s f) as [rel HS].
    destruct (rd_into _ _ _ H) as (t & E & Hy).
    pose proof (sim_into _ _ _ HS c) as Hi. rewrite E in Hi. destruct Hi as (st & Ei & Hr).
    rewrite Ei. cbn [obind]. eexists. split; [reflexivity|]. destruct Hy as [Hy|Hy].
    + destruct (drained_yields _ _ _ _ _ (sim_yields _ _ _ HS xs st t Hr Hy)) as [H1 H2].
      unfold drained. rewrite H1, H2 by lia. change (Iter _ _) with (it_list xs).
      split; [apply items_of_list|]. split; [apply fused_list|]. left; reflexivity.
    + destruct (drained_breaks _ _ _ _ (sim_breaks _ _ _ HS xs st t Hr Hy)) as [H1 H2].
      destruct (H2 (length xs) (le_n _)) as [D1 D2]. unfold drained, items_of, fin_of, run, fused.
      cbn [it_tr it_node]. rewrite D2. split; [reflexivity|]. split; [exact D1|].
      right. split; [discriminate|]. reflexivity.
  - destruct (rd_iter _ _ _ H) as (st & E & Hy). rewrite E. cbn [obind].
    destruct (drained_yields _ _ _ _ _ Hy) as [H1 H2]. eexists. split; [reflexivity|].
    unfold drained. rewrite H1, H2 by lia. change (Iter _ _) with (it_list xs).
    split; [apply items_of_list|]. split; [apply fused_list|]. left; reflexivity.
Qed.

Section Copies.
  Context (s : shape) (Hw : widths_pos s).
  Local Notation K := (coll s).

  Lemma after_copy in_ (v : reading s) c xs : reads s c xs ->
    match copy s v in_ c with
    | BOk c' => laid s c' xs /\ built s c' /\ shows K c' xs
    | BErr => False
    | _ => True
    end /\
    ((total (cost s) xs <= limit s)%N -> exists c', copy s ByViews in_ c = BOk c').
  Proof.
    intros Hx. pose proof (rd_ok _ _ _ Hx) as Hi. split.
    - unfold copy. destruct (after_source s v c xs Hx) as (it & -> & I1 & Hf & _).
      destruct (if in_ then k_from_iter_in K it else k_from_iter K it) as [res r] eqn:E.
      rewrite <- I1 in Hi.
      destruct (collect_core s Hw in_ unit it res r (or_intror Hf) Hi E) as [H1 _].
      cbn [fst]. destruct res as [c'| | |]; auto. destruct H1 as (_ & A1 & A2 & _).
      rewrite I1 in A1. split; [|auto].
      rewrite <- I1. apply (laid_collect s Hw unit it c' r (or_intror Hf) Hi).
      destruct in_; auto.
    - intros Ht. unfold copy. destruct (after_source s ByViews c xs Hx) as (it & -> & _ & _ & [->|[G _]]);
        [|congruence].
      destruct (items_of_list xs) as [I1 I2].
      destruct (if in_ then k_from_iter_in K (it_list xs) else k_from_iter K (it_list xs)) as [res r] eqn:E.
      assert (Hi' : Forall (item_ok s) (items_of (it_list xs))) by (rewrite I1; exact Hi).
      destruct (collect_core s Hw in_ unit (it_list xs) res r (or_intror (fused_list xs)) Hi' E) as [_ H2].
      rewrite I2 in H2. apply H2; [apply room_new_list; assumption|].
      change (upper_or_lower (it_hint (it_list xs))) with (lenN xs). apply list_room; assumption.
  Qed.
  Lemma after_try_copy (v : reading s) c xs w : reads s c xs ->
    match fst (try_copy s v c w) with
    | BOk c' => laid s c' xs /\ built s c' /\ shows K c' xs
    | BErr => True
    | BPanic => v <> ByViews
    | BAbort => False
    end /\
    (grants w -> (total (cost s) xs <= limit s)%N -> exists c', fst (try_copy s ByViews c w) = BOk c').
  Proof.
    intros Hx. pose proof (rd_ok _ _ _ Hx) as Hi. split.
    - unfold try_copy. destruct (after_source s v c xs Hx) as (it & -> & I1 & Hf & Hend).
      destruct (k_try_from_iter K it w) as [[res r] w'] eqn:E. rewrite <- I1 in Hi.
      pose proof (try_collect_core s Hw unit it w res r w' (or_intror Hf) Hi E) as H1.
      cbn [fst]. destruct res as [c'| | |]; auto.
      + destruct H1 as (_ & A1 & A2 & _). rewrite I1 in A1. split; [|auto].
        rewrite <- I1. exact (laid_try_collect s Hw unit it w c' r w' (or_intror Hf) Hi E).
      + destruct Hend as [->|[G _]]; [|exact G].
        destruct (items_of_list xs) as [_ I2]. rewrite I2 in H1. discriminate.
    - intros Hg Ht. unfold try_copy.
      destruct (after_source s ByViews c xs Hx) as (it & -> & _ & _ & [->|[G _]]); [|congruence].
      destruct (items_of_list xs) as [I1 I2].
      assert (Hi' : Forall (item_ok s) (items_of (it_list xs))) by (rewrite I1; exact Hi).
      destruct (k_try_from_iter K (it_list xs) w) as [[res r] w'] eqn:E.
      destruct (granted_collect s Hw unit (it_list xs) w) as (c' & r' & w2 & E' & _); auto.
      + right. apply fused_list.
      + split; [exact I2|]. split; [apply honest_list|]. exact Hi'.
      + rewrite I1. exact Ht.
      + right. change (upper_or_lower (it_hint (it_list xs))) with (lenN xs). apply list_room; assumption.
      + rewrite E in E'. injection E' as -> _ _. cbn [fst]; eauto.
  Qed.
End Copies.

(** ** Iterators *)

Theorem after_extend_ends s : widths_pos s ->
  forall R c (it : iter (cA (coll s)) R) c' r, lived s c -> Forall (item_ok s) (items_of it) ->
  k_extend (coll s) c it = (c', r, ODone) -> r = end_of it.
Proof.
  intros Hw R c it c' r Hc Hi E. apply items_ok_wt in Hi.
  apply (ww_extend _ _ _ (shape_wlaws s Hw) R c it _ _ _ _ _ _ (lived_inv s c Hc Hw) Hi (run_end it) E).
Qed.
Theorem after_try_extend_ends s : widths_pos s ->
  forall R c (it : iter (cA (coll s)) R) w c' r w', lived s c -> Forall (item_ok s) (items_of it) ->
  k_try_extend (coll s) c it w = (c', r, ODone, w') -> r = end_of it.
Proof.
  intros Hw R c it w c' r w' Hc Hi E. apply items_ok_wt in Hi.
  apply (ww_try_extend _ _ _ (shape_wlaws s Hw) R c it _ _ _ _ _ _ _ _ (lived_inv s c Hc Hw) Hi (run_end it) E).
Qed.
