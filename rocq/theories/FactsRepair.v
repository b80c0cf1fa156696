(** * Fixed-size lists whose child ends in the middle of a row: lemmas *)
From Coq Require Import List NArith ZArith Bool Arith Lia.
From Coq Require Import ZifyBool ZifyNat ZifyN.
From Verif Require Import Base Iter Spec RoomLemmas VecModel BitmapModel CollModel ValidityModel
  FlattenModel OffsetsModel LayoutModel IterLemmas VecLemmas BitmapLemmas BitmapLemmas2 Laws
  LawsBase LawsFlatten LawsValidity LawsOffsets Reach ReachLemmas CoreLemmas FactsBitmap FactsNull
  FactsList SpecFixed FactsFixed.
Import ListNotations.

Lemma cut_chunks {A} n (ys : list A) rows rest : cut_rows n ys rows rest ->
  length ys / n = length rows /\ rows = chunks n ys.
Proof.
  intros (-> & Hr & Hl).
  assert (Hlen : length (concat rows ++ rest) / n = length rows).
  { rewrite app_length, (concat_length n) by exact Hr.
    symmetry. apply (Nat.div_unique _ n _ (length rest)); lia. }
  split; [exact Hlen|].
  rewrite <- (chunks_concat n rows) at 1 by (try exact Hr; lia).
  unfold chunks. rewrite Hlen, (concat_length n), (Nat.mul_comm n), Nat.div_mul by (try exact Hr; lia).
  apply map_ext_in. intros i Hi. apply in_seq in Hi.
  rewrite skipn_app, (concat_length n) by exact Hr.
  replace (n * i - n * length rows) with 0 by nia. cbn [skipn].
  rewrite firstn_app. rewrite skipn_length, (concat_length n) by exact Hr.
  replace (n - (n * length rows - n * i)) with 0 by nia. cbn [firstn].
  rewrite app_nil_r. reflexivity.
Qed.
Lemma cut_exists {A} n (ys : list A) : 0 < n ->
  cut_rows n ys (chunks n ys) (skipn (n * (length ys / n)) ys).
Proof.
  intros Hn. pose proof (Nat.div_mod_eq (length ys) n) as D.
  pose proof (Nat.mod_upper_bound (length ys) n) as M.
  set (q := length ys / n) in *.
  assert (Hf : length (firstn (n * q) ys) = n * q) by (rewrite firstn_length; lia).
  assert (Hd : Nat.divide n (length (firstn (n * q) ys))) by (exists q; lia).
  assert (Hc : cut_rows n ys (chunks n (firstn (n * q) ys)) (skipn (n * q) ys)).
  { split; [rewrite concat_chunks by auto; symmetry; apply firstn_skipn|].
    split; [apply chunks_rows; exact Hn|]. rewrite skipn_length. lia. }
  destruct (cut_chunks n ys _ _ Hc) as [_ <-]. exact Hc.
Qed.

Section Cut.
  Context (K : Coll) (d : LD K) (L : Laws K d) (n : nat) (Hn : 0 < n).

  Definition cut_rep (c : cC K) (l : list (list (cA K))) : Prop :=
    l_inv d c /\ exists rest, cut_rows n (l_abs d c) l rest.
  Lemma cut_view c l i x : cut_rep c l -> nth_error l i = Some x ->
    exists v, fl_view K n c (N.of_nat i) = Ret (Some v) /\ fl_own K v = Ret x.
  Proof.
    intros (Hc & rest & Hcut) Hx. destruct (cut_chunks _ _ _ _ Hcut) as [Hl Hch].
    assert (Hi : i < length l) by (apply nth_error_Some; congruence).
    rewrite Hch, chunks_nth in Hx by lia.
    assert (Hin : n * i + n <= length (l_abs d c)).
    { pose proof (Nat.div_mod_eq (length (l_abs d c)) n). nia. }
    pose proof (fl_owned_any K d L n c i Hc Hin) as E. unfold k_owned in E.
    change (k_view (flatten_coll K n) c (N.of_nat i)) with (fl_view K n c (N.of_nat i)) in E.
    destruct (fl_view K n c (N.of_nat i)) as [[v|]|]; cbn [obind] in E; try discriminate.
    change (k_own (flatten_coll K n) v) with (fl_own K v) in E.
    exists v. split; [reflexivity|].
    destruct (fl_own K v) as [a|]; cbn [obind omap] in E; [|discriminate]. congruence.
  Qed.
  Lemma cut_iter xs : forall s, ixrep cut_rep s xs ->
    yields (ix_next (fl_view K n)) ix_hint (fl_own K) s xs.
  Proof.
    induction xs as [|x xs IH]; intros s Hs; cbn [yields].
    - intros k. revert s Hs. induction k as [|k IHk]; intros s Hs; cbn [nones].
      + split; [exact (ixrep_hint cut_rep s [] Hs)|exact I].
      + destruct (ixrep_nil (fl_view K n) cut_rep s Hs) as (s' & E & Hs').
        split; [exact (ixrep_hint cut_rep s [] Hs)|]. exists s'. split; [exact E|apply IHk; exact Hs'].
    - split; [exact (ixrep_hint cut_rep s _ Hs)|].
      destruct (ixrep_cons (fl_view K n) (fl_own K) cut_rep cut_view s x xs Hs) as (v & s' & E & Ho & Hs').
      exists v, s'. split; [exact E|]. split; [exact Ho|apply IH; exact Hs'].
  Qed.

  Lemma chunk_rest_short : forall ys k s, l_orep d s ys -> length ys < k -> chunk_rest K k s = Pnc.
  Proof.
    clear n Hn. induction ys as [|y ys IH]; intros k s H Hk; (destruct k as [|k]; [cbn in Hk; lia|]);
      cbn [chunk_rest].
    - destruct (lw_onil _ _ L s H) as (s1 & -> & _). reflexivity.
    - destruct (lw_ocons _ _ L s y ys H) as (s1 & -> & H1). cbn [obind expect].
      rewrite (IH k s1 H1) by (cbn in Hk; lia). reflexivity.
  Qed.
  Lemma cut_into_breaks rest : rest <> [] -> length rest < n ->
    forall rows s, Forall (fun r : list (cA K) => length r = n) rows ->
    l_orep d s (concat rows ++ rest) -> breaks (chunks_next K n) (chunks_hint K n) s rows.
  Proof.
    intros Hne Hl rows. induction rows as [|row rows IH]; intros s Hr Ho; cbn [breaks].
    all: assert (Hh : forall rows', Forall (fun r : list (cA K) => length r = n) rows' ->
      l_orep d s (concat rows' ++ rest) -> chunks_hint K n s = Ret (exact_hint (length rows'))).
    1,3: intros rows' Hr' Ho'; unfold chunks_hint; rewrite (lw_ohint _ _ L s _ Ho'); cbn [obind];
      unfold exact_len, exact_hint; cbn [fst snd]; rewrite N.eqb_refl; cbn [obind];
      unfold strict_div; assert ((N.of_nat n =? 0)%N = false) as -> by lia; cbn [obind];
      assert ((N.of_nat (length (concat rows' ++ rest)) / N.of_nat n)%N = N.of_nat (length rows')) as ->;
      [rewrite <- Nat2N.inj_div; f_equal; rewrite app_length, (concat_length n) by exact Hr';
       symmetry; apply (Nat.div_unique _ n _ (length rest)); lia|reflexivity].
    - split; [exact (Hh [] Hr Ho)|]. cbn [concat app] in Ho. destruct rest as [|y rest]; [congruence|].
      unfold chunks_next. destruct (lw_ocons _ _ L s y rest Ho) as (s1 & -> & H1). cbn [obind].
      destruct n as [|n']; [lia|]. rewrite (chunk_rest_short rest n' s1 H1) by (cbn in Hl; lia). reflexivity.
    - split; [exact (Hh (row :: rows) Hr Ho)|].
      inversion Hr as [|? ? Hrow Hr']; subst.
      cbn [concat] in Ho. rewrite <- app_assoc in Ho. destruct row as [|y row]; [cbn in Hn; lia|].
      unfold chunks_next. destruct (lw_ocons _ _ L s y (row ++ concat rows ++ rest) Ho) as (s1 & -> & H1).
      cbn [obind length].
      destruct (chunk_rest_spec K d L row (concat rows ++ rest) s1 H1) as (s2 & -> & H2).
      cbn [obind fst snd]. exists s2. split; [reflexivity|]. apply IH; [exact Hr'|exact H2].
  Qed.
End Cut.

Lemma cut_reads s (Hw : widths_pos s) n c ys rows rest :
  built s c -> shows (coll s) c ys -> cut_rows n ys rows rest ->
  k_len (flatten_coll (coll s) n) c = Ret (length rows) /\
  (forall i x, nth_error rows i = Some x ->
     k_owned (flatten_coll (coll s) n) c (N.of_nat i) = Ret (Some x)) /\
  (exists st, k_iter (flatten_coll (coll s) n) c = Ret st /\
     yields (k_inext (flatten_coll (coll s) n)) (k_ihint (flatten_coll (coll s) n))
       (k_own (flatten_coll (coll s) n)) st rows) /\
  (rest <> [] -> exists st, k_into (flatten_coll (coll s) n) c = Ret st /\
     breaks (k_onext (flatten_coll (coll s) n)) (k_ohint (flatten_coll (coll s) n)) st rows).
Proof.
  intros Hb Hs Hcut. destruct (built_abs s Hw c ys Hb Hs) as [Hx Hi]. subst ys.
  assert (Hn : 0 < n) by (destruct Hcut as (_ & _ & H); lia).
  destruct (cut_chunks _ _ _ _ Hcut) as [Hl Hch].
  pose proof (fl_len_any _ _ (shape_laws s Hw) n c Hn Hi) as El. rewrite Hl in El.
  split; [exact El|]. split; [|split].
  - intros i x Hx. assert (Hlt : i < length rows) by (apply nth_error_Some; congruence).
    rewrite Hch, chunks_nth in Hx by lia. injection Hx as <-.
    apply (fl_owned_any _ _ (shape_laws s Hw) n c i Hi).
    pose proof (Nat.div_mod_eq (length (l_abs (shape_ld s) c)) n). nia.
  - exists (IxIter c 0 (length rows)). split.
    + change (fl_iter (coll s) n c = Ret (IxIter c 0 (length rows))).
      unfold fl_iter. rewrite El. reflexivity.
    + apply (cut_iter _ _ (shape_laws s Hw) n Hn). exists rows.
      cbn [ix_coll ix_pos ix_end skipn]. split; [split; [exact Hi|exists rest; exact Hcut]|].
      split; [reflexivity|]. split; [lia|reflexivity].
  - intros Hne. destruct (lw_into _ _ (shape_laws s Hw) c Hi) as (st & E & Ho).
    exists st. split; [exact E|]. destruct Hcut as (Hc & Hr & Hrest). rewrite Hc in Ho.
    exact (cut_into_breaks _ _ (shape_laws s Hw) n Hn rest Hne Hrest rows st Hr Ho).
Qed.

(** ** Truncation *)
Lemma cut_truncate s (Hw : widths_pos s) n c ys rows rest len :
  built s c -> shows (coll s) c ys -> cut_rows n ys rows rest ->
  (len < lenN rows ->
   exists c', k_truncate (flatten_coll (coll s) n) c len = (c', ODone) /\ built (SFixed n s) c' /\
     shows (coll (SFixed n s)) c' (firstn (N.to_nat len) rows))%N /\
  (lenN rows <= len -> k_truncate (flatten_coll (coll s) n) c len = (c, ODone))%N.
Proof.
  intros Hb Hs Hcut. assert (Hn : 0 < n) by (destruct Hcut as (_ & _ & H); lia).
  destruct (cut_reads s Hw n c ys rows rest Hb Hs Hcut) as (El & _).
  change (fl_len (coll s) n c = Ret (length rows)) in El.
  change (k_truncate (flatten_coll (coll s) n) c len) with (fl_truncate (coll s) n c len).
  unfold fl_truncate. rewrite El. unfold lenN. split; intros Hlen.
  2:{ assert ((len <? N.of_nat (length rows))%N = false) as -> by lia. reflexivity. }
  assert ((len <? N.of_nat (length rows))%N = true) as -> by lia.
  destruct (built_abs s Hw c ys Hb Hs) as [Hx Hi].
  pose proof (lw_abs_len _ _ (shape_laws s Hw) c Hi) as Hsz. unfold lenN in Hsz.
  rewrite <- Hx, alloc_max_val in Hsz. pose proof Hcut as (Hc & Hr & Hrest).
  assert (Hly : length ys = n * length rows + length rest)
    by (rewrite Hc, app_length, (concat_length n) by exact Hr; reflexivity).
  unfold strict_mul. rewrite usize_max_val.
  assert ((len * N.of_nat n <=? 18446744073709551615)%N = true) as -> by nia.
  destruct (reserve_core s Hw c ys (len * N.of_nat n) Hb Hs) as (_ & _ & c' & E & Hs').
  exists c'. split; [exact E|].
  assert (Hb' : built s c').
  { apply (built_step s c (OpTruncate (len * N.of_nat n)) c' ODone Hb (Forall_nil _) E).
    - discriminate.
    - intros X; discriminate. }
  assert (Hf : firstn (N.to_nat (len * N.of_nat n)) ys = concat (firstn (N.to_nat len) rows)).
  { rewrite Hc, firstn_app, (concat_length n) by exact Hr.
    replace (N.to_nat (len * N.of_nat n)) with (n * N.to_nat len) by lia.
    replace (n * N.to_nat len - n * length rows) with 0 by nia.
    cbn [firstn]. rewrite app_nil_r. rewrite <- (concat_firstn n) by exact Hr. reflexivity. }
  rewrite Hf in Hs'.
  assert (Hr' : rows_ok n (firstn (N.to_nat len) rows)) by (apply Forall_firstn; exact Hr).
  assert (Hp : fl_try_from_parts (coll s) n c' = Ret (inl c')).
  { unfold fl_try_from_parts. rewrite (sh_len _ _ _ Hs'). cbn [obind].
    rewrite (concat_length n) by exact Hr'. destruct n as [|n']; [lia|].
    rewrite (Nat.mul_comm (S n')), Nat.mod_mul by lia. reflexivity. }
  pose proof (built_fixed_parts n s c' c' Hb' Hp) as B. split; [exact B|].
  destruct (built_abs s Hw c' _ Hb' Hs') as [Hx' Hi'].
  apply (abs_shows (SFixed n s) (conj Hn Hw)); [exact (built_inv (SFixed n s) c' B (conj Hn Hw))|].
  change (chunks n (l_abs (shape_ld s) c') = firstn (N.to_nat len) rows).
  rewrite <- Hx'. apply chunks_concat; [exact Hn|exact Hr'].
Qed.

(** ** What a panicking extension leaves behind *)
Lemma items_flatten {A R} (it : iter (list A) R) n :
  items_of (it_flatten n it) = concat (items_of it).
Proof.
  destruct (run_parts it) as [r Hr]. pose proof (run_flatten n _ _ _ _ Hr) as H.
  unfold items_of at 1. rewrite H. reflexivity.
Qed.
Lemma items_ok_concat s n rows : Forall (item_ok (SFixed n s)) rows -> Forall (item_ok s) (concat rows).
Proof.
  induction 1 as [|r rows [_ Hr] _ IH]; [constructor|].
  cbn [concat]. apply Forall_app. split; [exact Hr|exact IH].
Qed.

Lemma fixed_panic_child s (Hw : widths_pos s) n (Hn : 0 < n) c xs p c1 :
  built (SFixed n s) c -> shows (coll (SFixed n s)) c xs ->
  Forall (item_ok (SFixed n s)) (op_items p) ->
  step (coll (SFixed n s)) c p = (c1, OPanic) ->
  match p with
  | OpExtend it => panic_safe s false (value_offset s c) = true \/
      (panic_safe s true (value_offset s c) = true /\ room_in (SFixed n s) c it)
  | OpTryExtend _ _ => panic_safe s true (value_offset s c) = true
  | _ => True
  end ->
  built s c1 /\ exists m, m <= length (concat (op_items p)) /\
    shows (coll s) c1 (concat xs ++ firstn m (concat (op_items p))).
Proof.
  intros Hb Hs Hi E Hp.
  pose proof (built_fixed_coll n s c Hn Hb) as Hbc.
  pose proof (fixed_child s Hw n Hn c xs Hb Hs) as Hsc.
  assert (Hother : match p with OpExtend _ | OpTryExtend _ _ => True
    | _ => built s c1 /\ exists m, m <= length (concat (op_items p)) /\
       shows (coll s) c1 (concat xs ++ firstn m (concat (op_items p))) end).
  { assert (Hpk : forall o', match p with OpExtend _ | OpTryExtend _ _ => True
       | _ => panic_ok (SFixed n s) c p o' end) by (intros o'; destruct p; exact I || (intros _; exact I)).
    destruct p as [it|it w|k|k w|k]; try exact I.
    all: destruct (step_core (SFixed n s) (conj Hn Hw) c xs _ c1 OPanic Hb Hs Hi E)
      as (ys & H1 & H2 & H3 & _); [discriminate|exact (Hpk OPanic)|].
    all: pose proof (built_fixed_coll n s c1 Hn H3) as B1.
    all: pose proof (fixed_child s Hw n Hn c1 ys H3 H2) as S1.
    all: cbn [list_step] in H1.
    all: split; [exact B1|]; exists 0; split; [apply Nat.le_0_l|]; cbn [firstn]; rewrite app_nil_r.
    1: subst ys; exact S1.
    1: destruct H1.
    destruct (reserve_core (SFixed n s) (conj Hn Hw) c xs k Hb Hs) as (_ & _ & c2 & E2 & _).
    change (k_truncate (coll (SFixed n s)) c k = (c1, OPanic)) in E. congruence. }
  destruct p as [it|it w|k|k w|k]; try exact Hother; clear Hother.
  - change (step (coll s) c (OpExtend (it_flatten (N.of_nat n) it)) = (c1, OPanic)) in E.
    cbn [op_items] in *.
    assert (Hic : Forall (item_ok s) (op_items (OpExtend (it_flatten (N.of_nat n) it)))).
    { cbn [op_items]. rewrite items_flatten. apply (items_ok_concat s n). exact Hi. }
    destruct (step_core s Hw c (concat xs) _ c1 OPanic Hbc Hsc Hic E) as (ys & H1 & H2 & H3 & _);
      [discriminate| |].
    { intros _. destruct Hp as [Hp|[Hp1 Hp2]]; [left; exact Hp|right; split; [exact Hp1|]].
      exact (room_in_flatten s Hw n c _ it Hi Hp2). }
    destruct H1 as (m & Hm & ->). rewrite items_flatten in *. split; [exact H3|].
    exists m. split; [exact Hm|exact H2].
  - change (step (coll s) c (OpTryExtend (it_flatten (N.of_nat n) it) w) = (c1, OPanic)) in E.
    cbn [op_items] in *.
    assert (Hic : Forall (item_ok s) (op_items (OpTryExtend (it_flatten (N.of_nat n) it) w))).
    { cbn [op_items]. rewrite items_flatten. apply (items_ok_concat s n). exact Hi. }
    destruct (step_core s Hw c (concat xs) _ c1 OPanic Hbc Hsc Hic E) as (ys & H1 & H2 & H3 & _);
      [discriminate|intros _; exact Hp|].
    destruct H1 as (_ & m & Hm & ->). rewrite items_flatten in *. split; [exact H3|].
    exists m. split; [exact Hm|exact H2].
Qed.

(** The rows of such a child are the first of the old and the new ones. *)
Lemma cut_prefix {A} n (xs items rows : list (list A)) m rest :
  0 < n -> Forall (fun r => length r = n) xs -> Forall (fun r => length r = n) items ->
  m <= length (concat items) ->
  cut_rows n (concat xs ++ firstn m (concat items)) rows rest ->
  length xs <= length rows <= length xs + length items /\
  rows = firstn (length rows) (xs ++ items).
Proof.
  intros Hn Hx Hi Hm Hc. destruct (cut_chunks _ _ _ _ Hc) as [Hl Hch].
  pose proof Hm as Hm'. rewrite (concat_length n) in Hm' by exact Hi.
  assert (Hall : Forall (fun r => length r = n) (xs ++ items)) by (apply Forall_app; split; auto).
  rewrite app_length, firstn_length, (concat_length n xs), Nat.min_l in Hl by auto.
  assert (Hb : length xs <= length rows <= length xs + length items).
  { pose proof (Nat.div_mod_eq (n * length xs + m) n). pose proof (Nat.mod_upper_bound (n * length xs + m) n).
    rewrite Hl in *. nia. }
  split; [exact Hb|].
  destruct Hc as (Hc & Hr & Hrest).
  assert (Hp : concat rows = concat (firstn (length rows) (xs ++ items))).
  { rewrite <- (concat_firstn n) by exact Hall. rewrite concat_app.
    replace (concat rows) with (firstn (n * length rows) (concat rows ++ rest)).
    2:{ rewrite firstn_app, <- (concat_length n) by exact Hr. rewrite firstn_all, Nat.sub_diag.
        apply app_nil_r. }
    rewrite <- Hc, !firstn_app, (concat_length n xs) by exact Hx. f_equal.
    rewrite firstn_firstn. f_equal.
    assert (length (concat rows ++ rest) = n * length xs + m).
    { rewrite <- Hc, app_length, firstn_length, (concat_length n xs), Nat.min_l by auto. reflexivity. }
    rewrite app_length, (concat_length n) in H by exact Hr. lia. }
  transitivity (chunks n (concat rows)); [symmetry; apply chunks_concat; auto|].
  rewrite Hp. apply chunks_concat; [exact Hn|]. apply Forall_firstn; exact Hall.
Qed.

Lemma items_rows s n rows : Forall (item_ok (SFixed n s)) rows ->
  Forall (fun r : list (cA (coll s)) => length r = n) rows.
Proof. intros H. eapply Forall_impl; [|exact H]. intros r [Hr _]. exact Hr. Qed.
Lemma shown_rows s (Hw : widths_pos s) n (Hn : 0 < n) c xs : built (SFixed n s) c ->
  shows (coll (SFixed n s)) c xs -> Forall (fun r : list (cA (coll s)) => length r = n) xs.
Proof.
  intros Hb Hs. destruct (built_abs (SFixed n s) (conj Hn Hw) c xs Hb Hs) as [-> _].
  apply chunks_rows; exact Hn.
Qed.

Lemma fixed_repair s (Hw : widths_pos s) n (Hn : 0 < n) c xs p c1 :
  built (SFixed n s) c -> shows (coll (SFixed n s)) c xs ->
  Forall (item_ok (SFixed n s)) (op_items p) ->
  step (coll (SFixed n s)) c p = (c1, OPanic) ->
  match p with
  | OpExtend it => panic_safe s false (value_offset s c) = true \/
      (panic_safe s true (value_offset s c) = true /\ room_in (SFixed n s) c it)
  | OpTryExtend _ _ => panic_safe s true (value_offset s c) = true
  | _ => True
  end ->
  built s c1 /\
  exists q, length xs <= q <= length xs + length (op_items p) /\
    k_len (coll (SFixed n s)) c1 = Ret q /\
    (forall i x, i < q -> nth_error (xs ++ op_items p) i = Some x ->
       k_owned (coll (SFixed n s)) c1 (N.of_nat i) = Ret (Some x)) /\
    (exists st, k_iter (coll (SFixed n s)) c1 = Ret st /\
       yields (k_inext (coll (SFixed n s))) (k_ihint (coll (SFixed n s))) (k_own (coll (SFixed n s)))
         st (firstn q (xs ++ op_items p))) /\
    (forall len, (len < N.of_nat q)%N ->
       exists c2, k_truncate (coll (SFixed n s)) c1 len = (c2, ODone) /\ built (SFixed n s) c2 /\
         shows (coll (SFixed n s)) c2 (firstn (N.to_nat len) (xs ++ op_items p))).
Proof.
  intros Hb Hs Hi E Hp.
  destruct (fixed_panic_child s Hw n Hn c xs p c1 Hb Hs Hi E Hp) as [B1 (m & Hm & S1)].
  split; [exact B1|].
  set (ys := concat xs ++ firstn m (concat (op_items p))) in *.
  pose proof (cut_exists n ys Hn) as Hc.
  remember (chunks n ys) as rows eqn:Er. remember (skipn (n * (length ys / n)) ys) as rest eqn:Et.
  clear Er Et.
  destruct (cut_prefix n xs (op_items p) rows m rest Hn (shown_rows s Hw n Hn c xs Hb Hs)
    (items_rows s n _ Hi) Hm Hc) as [Hq Hrows].
  destruct (cut_reads s Hw n c1 ys rows rest B1 S1 Hc) as (R1 & R2 & R3 & _).
  exists (length rows). split; [exact Hq|]. split; [exact R1|]. split; [|split].
  - intros i x Hlt Hx. apply R2. rewrite Hrows. rewrite nth_error_firstn_lt; auto.
  - exact (eq_ind rows (fun l : list (list (cA (coll s))) =>
      exists st, k_iter (coll (SFixed n s)) c1 = Ret st /\
       yields (k_inext (coll (SFixed n s))) (k_ihint (coll (SFixed n s))) (k_own (coll (SFixed n s)))
         st l) R3 _ Hrows).
  - intros len Hlen.
    destruct (cut_truncate s Hw n c1 ys rows rest len B1 S1 Hc) as [T _].
    destruct (T Hlen) as (c2 & E2 & B2 & S2). exists c2. split; [exact E2|]. split; [exact B2|].
    assert (Hf : firstn (N.to_nat len) rows = firstn (N.to_nat len) (xs ++ op_items p)).
    { rewrite Hrows at 1. rewrite firstn_firstn. f_equal. lia. }
    exact (eq_ind _ (fun l : list (list (cA (coll s))) => shows (coll (SFixed n s)) c2 l) S2 _ Hf).
Qed.

(** Extending it without truncating shifts every new row. *)
Lemma cut_shifted {A} n (items : list (list A)) : forall rest,
  length rest < n -> Forall (fun r => length r = n) items ->
  exists rest', cut_rows n (rest ++ concat items) (shifted n rest items) rest' /\
    length rest' = length rest.
Proof.
  induction items as [|x items IH]; intros rest Hl Hi; cbn [concat shifted].
  - exists rest. split; [|reflexivity]. split; [apply app_nil_r|]. split; [constructor|exact Hl].
  - inversion Hi as [|? ? Hx Hi']; subst.
    destruct (IH (skipn (length x - length rest) x)) as (rest' & (H1 & H2 & H3) & H4);
      [rewrite skipn_length; lia|exact Hi'|].
    exists rest'. split; [|rewrite H4, skipn_length; lia]. split; [|split; [|exact H3]].
    + cbn [concat]. rewrite <- !app_assoc, <- H1. f_equal. rewrite app_assoc, firstn_skipn. reflexivity.
    + constructor; [|exact H2]. rewrite app_length, firstn_length. lia.
Qed.
Lemma shifted_length {A} n (items : list (list A)) : forall rest, length (shifted n rest items) = length items.
Proof. induction items as [|x items IH]; intros rest; cbn [shifted length]; [reflexivity|]. rewrite IH. reflexivity. Qed.

Lemma cut_extend s (Hw : widths_pos s) n c ys rows rest (it : iter (list (cA (coll s))) unit) c' :
  built s c -> shows (coll s) c ys -> cut_rows n ys rows rest ->
  Forall (item_ok (SFixed n s)) (items_of it) ->
  step (flatten_coll (coll s) n) c (OpExtend it) = (c', ODone) ->
  built s c' /\ k_len (flatten_coll (coll s) n) c' = Ret (length rows + length (items_of it)) /\
  forall i x, nth_error (rows ++ shifted n rest (items_of it)) i = Some x ->
    k_owned (flatten_coll (coll s) n) c' (N.of_nat i) = Ret (Some x).
Proof.
  intros Hb Hs (Hy & Hr & Hl) Hi E.
  change (step (coll s) c (OpExtend (it_flatten (N.of_nat n) it)) = (c', ODone)) in E.
  assert (Hic : Forall (item_ok s) (op_items (OpExtend (it_flatten (N.of_nat n) it)))).
  { cbn [op_items]. rewrite items_flatten. apply (items_ok_concat s n). exact Hi. }
  destruct (step_core s Hw c ys _ c' ODone Hb Hs Hic E) as (zs & H1 & H2 & H3 & _);
    [discriminate|intros X; discriminate|].
  destruct H1 as [_ ->]. rewrite items_flatten, Hy in H2.
  destruct (cut_shifted n (items_of it) rest Hl (items_rows s n _ Hi)) as (rest' & (G1 & G2 & G3) & _).
  assert (Hc : cut_rows n ((concat rows ++ rest) ++ concat (items_of it))
    (rows ++ shifted n rest (items_of it)) rest').
  { split; [rewrite concat_app, <- !app_assoc, G1; reflexivity|].
    split; [apply Forall_app; split; auto|exact G3]. }
  destruct (cut_reads s Hw n c' _ _ _ H3 H2 Hc) as (R1 & R2 & _).
  split; [exact H3|]. split; [|exact R2].
  rewrite R1, app_length, shifted_length. reflexivity.
Qed.
