(** * Facts about fixed-size lists, in the vocabulary of the theorems *)
From Coq Require Import List NArith ZArith Bool Arith Lia ZifyBool ZifyNat ZifyN.
From Verif Require Import Base Iter Spec RoomLemmas VecModel BitmapModel CollModel ValidityModel
  FlattenModel OffsetsModel LayoutModel IterLemmas VecLemmas BitmapLemmas BitmapLemmas2 Laws
  LawsBase LawsFlatten LawsValidity LawsOffsets Reach ReachLemmas CoreLemmas FactsBitmap FactsNull
  FactsList SpecFixed.
Import ListNotations.

Ltac Zify.zify_post_hook ::= Z.div_mod_to_equations.
Local Arguments Nat.div : simpl never.
Local Arguments Nat.modulo : simpl never.
Local Arguments Nat.mul : simpl never.
Local Arguments N.add : simpl never.
Local Arguments N.mul : simpl never.
Local Arguments max_items : simpl never.

(** ** Reading rows of a child of any length *)

Section Rows.
  Context (K : Coll) (d : LD K) (L : Laws K d) (n : nat).

  Lemma fl_owned_any c i : l_inv d c -> n * i + n <= length (l_abs d c) ->
    k_owned (flatten_coll K n) c (N.of_nat i) =
      Ret (Some (firstn n (skipn (n * i) (l_abs d c)))).
  Proof.
    intros Hc Hin.
    pose proof (lw_abs_len _ _ L c Hc) as Hsz. unfold lenN in Hsz. rewrite alloc_max_val in Hsz.
    assert (H : exists v, fl_view K n c (N.of_nat i) = Ret (Some v) /\
      fl_own K v = Ret (firstn n (skipn (n * i) (l_abs d c)))).
    { unfold fl_view.
      destruct (range_out_spec
        (fun j v => exists y, nth_error (l_abs d c) (n * i + j) = Some y /\ k_own K v = Ret y)
        (fun idx => let? base := strict_mul (N.of_nat i) (N.of_nat n) in
                    let? j := strict_add base idx in
                    let? v := k_view K c j in expect v) n 0) as (vs & E & Hl & Hvs).
      { intros j Hj.
        destruct (nth_error (l_abs d c) (n * i + j)) as [y|] eqn:Ey.
        2:{ apply nth_error_None in Ey. lia. }
        destruct (lw_view _ _ L c (n * i + j) y Hc Ey) as (v & Ev & Ho).
        exists v. split; [|eauto].
        unfold strict_mul, strict_add. rewrite usize_max_val.
        assert (Hmul : (N.of_nat i * N.of_nat n = N.of_nat (n * i))%N) by lia.
        rewrite Hmul.
        assert ((N.of_nat (n * i) <=? 18446744073709551615)%N = true) as -> by lia.
        cbn [obind].
        assert ((N.of_nat (n * i) + (0 + N.of_nat j) <=? 18446744073709551615)%N = true) as -> by lia.
        cbn [obind].
        replace (N.of_nat (n * i) + (0 + N.of_nat j))%N with (N.of_nat (n * i + j)) by lia.
        rewrite Ev. reflexivity. }
      rewrite E. exists vs. split; [reflexivity|]. apply fl_own_spec.
      apply (nth_Forall2 1 Nat.lt_0_1); [rewrite firstn_length, skipn_length; lia|].
      intros j v Hv. destruct (Hvs j v Hv) as (y & Ey & Ho). exists y. split; auto.
      assert (j < n) by (rewrite <- Hl; apply nth_error_Some; congruence).
      rewrite nth_error_firstn_lt, nth_error_skipn_add; auto. }
    destruct H as (v & Hv1 & Hv2). unfold k_owned.
    change (k_view (flatten_coll K n) c (N.of_nat i)) with (fl_view K n c (N.of_nat i)).
    rewrite Hv1. cbn [obind]. change (k_own (flatten_coll K n) v) with (fl_own K v).
    rewrite Hv2. reflexivity.
  Qed.
  Lemma fl_len_any c : 0 < n -> l_inv d c -> fl_len K n c = Ret (length (l_abs d c) / n).
  Proof.
    intros Hn Hc. unfold fl_len. rewrite (lw_len _ _ L c Hc). cbn [obind].
    clear - Hn. destruct n; [lia|reflexivity].
  Qed.
End Rows.

Lemma shows_rows s (Hw : widths_pos s) n c xs : 0 < n -> built s c -> shows (coll s) c xs ->
  k_len (flatten_coll (coll s) n) c = Ret (length xs / n) /\
  forall i, n * i + n <= length xs ->
    k_owned (flatten_coll (coll s) n) c (N.of_nat i) = Ret (Some (firstn n (skipn (n * i) xs))).
Proof.
  intros Hn Hb Hs. destruct (built_abs s Hw c xs Hb Hs) as [-> Hi]. split.
  - exact (fl_len_any _ _ (shape_laws s Hw) n c Hn Hi).
  - intros i. exact (fl_owned_any _ _ (shape_laws s Hw) n c i Hi).
Qed.

(** ** Parts *)

Lemma chunks_cut {A} n (l : list A) : 0 < n -> Nat.divide n (length l) ->
  n * length (chunks n l) = length l /\
  forall i x, nth_error (chunks n l) i = Some x -> x = firstn n (skipn (n * i) l).
Proof.
  intros Hn [q Hq]. rewrite chunks_length. split.
  - rewrite Hq, Nat.div_mul by lia. lia.
  - intros i x Hx.
    assert (Hi : i < length (chunks n l)) by (apply nth_error_Some; congruence).
    rewrite chunks_length in Hi. rewrite chunks_nth in Hx by auto. congruence.
Qed.
Lemma fixed_parts s (Hw : widths_pos s) n c xs : built s c -> shows (coll s) c xs ->
  match fl_try_from_parts (coll s) n c with
  | Ret (inl c') => 0 < n /\ Nat.divide n (length xs) /\ c' = c /\ built (SFixed n s) c' /\
      exists rows, shows (flatten_coll (coll s) n) c' rows /\ n * length rows = length xs /\
        forall i x, nth_error rows i = Some x -> x = firstn n (skipn (n * i) xs)
  | Ret (inr ZeroChunkSize) => n = 0
  | Ret (inr (NotMultiple len m)) => 0 < n /\ len = length xs /\ m = n /\
      ~ Nat.divide n (length xs)
  | Pnc => False
  end.
Proof.
  intros Hb Hs. unfold fl_try_from_parts. rewrite (sh_len _ _ _ Hs). cbn [obind].
  destruct n as [|n]; [reflexivity|].
  destruct (Nat.eqb (length xs mod S n) 0) eqn:E.
  - assert (Hd : Nat.divide (S n) (length xs)) by (apply Nat.mod_divide; lia).
    split; [lia|]. split; [exact Hd|]. split; [auto|].
    assert (Hf : fl_try_from_parts (coll s) (S n) c = Ret (inl c)).
    { unfold fl_try_from_parts. rewrite (sh_len _ _ _ Hs). cbn [obind]. rewrite E. reflexivity. }
    pose proof (built_fixed_parts (S n) s c c Hb Hf) as B. split; [exact B|].
    destruct (built_abs s Hw c xs Hb Hs) as [Hx Hi].
    destruct (chunks_cut (S n) xs (Nat.lt_0_succ n) Hd) as [G1 G2].
    exists (chunks (S n) xs). split; [|auto].
    apply (abs_shows (SFixed (S n) s) (conj (Nat.lt_0_succ n) Hw)).
    + exact (built_inv _ _ B (conj (Nat.lt_0_succ n) Hw)).
    + rewrite Hx. reflexivity.
  - split; [lia|]. split; [auto|]. split; [auto|]. intros Hd.
    apply Nat.mod_divide in Hd; [|lia]. lia.
Qed.

(** ** Collecting, extending, truncating *)

Lemma fixed_collected s (Hw : widths_pos s) n (Hn : 0 < n) R (it : iter (list (cA (coll s))) R) res r :
  Forall (item_ok (SFixed n s)) (items_of it) ->
  k_from_iter (flatten_coll (coll s) n) it = (res, r) \/
    k_from_iter_in (flatten_coll (coll s) n) it = (res, r) ->
  match res with
  | BOk c => fin_of it = FStop /\ shows (flatten_coll (coll s) n) c (items_of it) /\
      built (SFixed n s) c
  | BErr => False
  | _ => True
  end /\
  (room_new (SFixed n s) it ->
   (upper_or_lower (it_hint it) * unit_cost (SFixed n s) <= limit s)%N ->
   match fin_of it with FStop => exists c, res = BOk c | FBoom => res = BPanic end).
Proof.
  intros Hi E.
  assert (E' : exists in_ : bool, (if in_ then k_from_iter_in (flatten_coll (coll s) n) it
    else k_from_iter (flatten_coll (coll s) n) it) = (res, r)).
  { destruct E; [exists false|exists true]; auto. }
  destruct E' as [in_ E'].
  destruct (collect_core (SFixed n s) (conj Hn Hw) in_ R it res r (or_introl eq_refl) Hi E') as [H1 H2].
  split; [|exact H2]. destruct res as [v| | |]; auto. destruct H1 as (A1 & A2 & A3 & _).
  split; [exact A1|]. split; [exact A2|exact A3].
Qed.
Lemma fixed_try_collected s (Hw : widths_pos s) n (Hn : 0 < n) R
  (it : iter (list (cA (coll s))) R) w res r w' :
  Forall (item_ok (SFixed n s)) (items_of it) ->
  k_try_from_iter (flatten_coll (coll s) n) it w = (res, r, w') ->
  match res with
  | BOk c => fin_of it = FStop /\ shows (flatten_coll (coll s) n) c (items_of it)
  | BErr => True
  | BPanic => fin_of it = FBoom
  | BAbort => False
  end.
Proof.
  intros Hi E.
  pose proof (try_collect_core (SFixed n s) (conj Hn Hw) R it w res r w' (or_introl eq_refl) Hi E) as H.
  destruct res; auto. destruct H as (A1 & A2 & _). split; [exact A1|exact A2].
Qed.
Lemma fixed_extend s (Hw : widths_pos s) n (Hn : 0 < n) R c xs
  (it : iter (list (cA (coll s))) R) c' r o :
  built (SFixed n s) c -> shows (flatten_coll (coll s) n) c xs ->
  Forall (item_ok (SFixed n s)) (items_of it) ->
  k_extend (flatten_coll (coll s) n) c it = (c', r, o) ->
  (o = ODone -> fin_of it = FStop /\ shows (flatten_coll (coll s) n) c' (xs ++ items_of it)) /\
  o <> OErr /\
  (room_in (SFixed n s) c it ->
   o = match fin_of it with FStop => ODone | FBoom => OPanic end).
Proof.
  intros Hb Hs Hi E.
  destruct (extend_core (SFixed n s) (conj Hn Hw) R c xs it c' r o Hb Hs Hi E) as [H1 H2].
  split; [intros ->; exact H1|]. split; [intros ->; exact H1|exact H2].
Qed.
Lemma fixed_truncate s (Hw : widths_pos s) n (Hn : 0 < n) c xs len :
  built (SFixed n s) c -> shows (flatten_coll (coll s) n) c xs ->
  exists c', fl_truncate (coll s) n c len = (c', ODone) /\
    shows (flatten_coll (coll s) n) c' (firstn (N.to_nat len) xs).
Proof.
  intros Hb Hs. apply (reserve_core (SFixed n s) (conj Hn Hw) c xs len Hb Hs).
Qed.

(** ** Panicking extensions *)

Lemma fixed_panic_later s (Hw : widths_pos s) n (Hn : 0 < n) c xs
  (it : iter (list (cA (coll s))) unit) c1 ps c2 os :
  built (SFixed n s) c -> shows (flatten_coll (coll s) n) c xs ->
  Forall (item_ok (SFixed n s)) (items_of it) ->
  step (flatten_coll (coll s) n) c (OpExtend it) = (c1, OPanic) ->
  panic_safe (SFixed n s) false (value_offset s c) = true \/
    (panic_safe (SFixed n s) true (value_offset s c) = true /\
     room_in (SFixed n s) c it /\ ~ In OPanic os) ->
  Forall (fun p => Forall (item_ok (SFixed n s)) (op_items p)) ps ->
  exec (flatten_coll (coll s) n) c1 ps = (c2, os) -> ~ In OAbort os ->
  exists k, k <= length (items_of it) /\
    shows (flatten_coll (coll s) n) c1 (xs ++ firstn k (items_of it)) /\
    exists ys, list_runs (xs ++ firstn k (items_of it)) ps os ys /\
      shows (flatten_coll (coll s) n) c2 ys.
Proof.
  intros Hb Hs Hi E Hp Hps Ex Ha.
  assert (Hok : panic_ok (SFixed n s) c (OpExtend it) OPanic).
  { intros _. destruct Hp as [Hp|(Hp1 & Hp2 & _)]; [left; exact Hp|right; split; [exact Hp1|exact Hp2]]. }
  destruct (step_core (SFixed n s) (conj Hn Hw) c xs (OpExtend it) c1 OPanic Hb Hs Hi E)
    as (ys & H1 & H2 & H3 & H4 & _); [discriminate|exact Hok|].
  destruct H1 as (k & Hk & ->). exists k. split; [exact Hk|]. split; [exact H2|].
  destruct (exec_core (SFixed n s) (conj Hn Hw) ps c1 _ c2 os H3 H2 Hps Ex Ha) as (zs & Y1 & Y2 & _).
  - destruct Hp as [Hp|(_ & _ & Hp)]; [left|right; exact Hp].
    rewrite H4. exact Hp.
  - exists zs. split; [exact Y1|exact Y2].
Qed.

(** Rows need the room of their items. *)
Lemma unit_le_cost s : widths_pos s -> forall x, item_ok s x -> (unit_cost s <= cost s x)%N.
Proof.
  intros Hw x Hx. rewrite cost_wgt, unit_cost_cfac. apply (lw_cfac _ _ (shape_laws s Hw)).
  assert (H : Forall (l_wt (shape_ld s)) [x]) by (apply items_ok_wt; constructor; auto).
  inversion H; auto.
Qed.
Lemma room_in_flatten s (Hw : widths_pos s) n c R (it : iter (list (cA (coll s))) R) :
  Forall (item_ok (SFixed n s)) (items_of it) -> room_in (SFixed n s) c it ->
  room_in s c (it_flatten (N.of_nat n) it).
Proof.
  intros Hi H. destruct (run_parts it) as [r Hr]. unfold room_in in *.
  eapply affords_flatten; [exact Hr| |].
  2:{ eapply affords_mono; [| | |exact H]; try apply N.le_refl. intros l.
    change (cost (SFixed n s) l) with (total (cost s) l).
    rewrite (total_sumw (cost s) (cost s)) by reflexivity. apply N.le_refl. }
  eapply Forall_impl; [|exact Hi]. intros l [_ Hl]. eapply Forall_impl; [|exact Hl].
  apply (unit_le_cost s Hw).
Qed.

(** A child whose length is not a multiple of the width: the next row that is
    appended is read as a mixture of left-over items and its own. *)
Lemma mixed_row {A} n (xs x : list A) : 0 < n -> length x = n ->
  firstn n (skipn (n * (length xs / n)) (xs ++ x)) =
  skipn (n * (length xs / n)) xs ++ firstn (n - length xs mod n) x.
Proof.
  intros Hn Hx. pose proof (Nat.div_mod_eq (length xs) n) as Hd.
  pose proof (Nat.mod_upper_bound (length xs) n) as Hm.
  rewrite skipn_app. replace (n * (length xs / n) - length xs) with 0 by lia. cbn [skipn].
  rewrite firstn_app, skipn_length.
  replace (length xs - n * (length xs / n)) with (length xs mod n) by lia.
  rewrite firstn_all2 by (rewrite skipn_length; lia). reflexivity.
Qed.
Lemma misaligned s (Hw : widths_pos s) n c1 xs x : 0 < n -> built s c1 -> shows (coll s) c1 xs ->
  length x = n -> Forall (item_ok s) x -> room_for s c1 x ->
  skipn (n * (length xs / n)) xs ++ firstn (n - length xs mod n) x <> x ->
  exists c2 y, k_len (flatten_coll (coll s) n) c1 = Ret (length xs / n) /\
    k_extend (flatten_coll (coll s) n) c1 (it_list [x]) = (c2, tt, ODone) /\
    k_len (flatten_coll (coll s) n) c2 = Ret (S (length xs / n)) /\
    k_owned (flatten_coll (coll s) n) c2 (N.of_nat (length xs / n)) = Ret (Some y) /\ y <> x.
Proof.
  intros Hn Hb Hs Hx Hi Hroom Hne.
  set (it := it_flatten (N.of_nat n) (it_list [x])).
  assert (Hr : run it = (x, FStop, tt)).
  { unfold it. rewrite (run_flatten _ _ _ _ _ (run_list [x])). cbn [concat].
    rewrite app_nil_r. reflexivity. }
  assert (Hit : items_of it = x) by (unfold items_of; rewrite Hr; auto).
  destruct (k_extend (coll s) c1 it) as [[c2 []] o] eqn:E.
  assert (Hi' : Forall (item_ok s) (items_of it)) by (rewrite Hit; exact Hi).
  destruct (extend_core s Hw unit c1 xs it c2 tt o Hb Hs Hi' E) as [H1 H2].
  assert (Hroom' : room_in s c1 it).
  { apply (room_in_flatten s Hw n c1 unit (it_list [x] : iter (list (cA (coll s))) unit)).
    - unfold items_of; rewrite run_list. constructor; [split; auto|constructor].
    - apply (room_list (SFixed n s)); [split; auto|constructor; [split; auto|constructor]|].
      unfold room_for in *. change (held (SFixed n s) c1) with (held s c1).
      change (limit (SFixed n s)) with (limit s).
      change (total (cost (SFixed n s)) [x]) with (total (cost s) x + 0)%N. lia. }
  specialize (H2 Hroom'). rewrite Hit in H1.
  assert (Hfin : fin_of it = FStop) by (unfold fin_of; rewrite Hr; auto).
  rewrite Hfin in H2. subst o. destruct H1 as [_ H1].
  assert (Hb2 : built s c2).
  { apply (built_step s c1 (OpExtend it) c2 ODone); [exact Hb|exact Hi'| |discriminate|].
    - cbn [step]. rewrite E. reflexivity.
    - unfold panic_ok. discriminate. }
  destruct (shows_rows s Hw n c1 xs Hn Hb Hs) as [L1 _].
  destruct (shows_rows s Hw n c2 _ Hn Hb2 H1) as [L2 O2].
  assert (Hl2 : length (xs ++ x) = length xs + n) by (rewrite app_length; lia).
  assert (Hdiv : (length xs + n) / n = S (length xs / n)).
  { replace (length xs + n) with (length xs + 1 * n) by lia. rewrite Nat.div_add by lia. lia. }
  exists c2. eexists. split; [exact L1|]. split; [exact E|].
  split; [rewrite L2, Hl2, Hdiv; reflexivity|]. split.
  - apply O2. rewrite Hl2. pose proof (Nat.div_mod_eq (length xs) n). lia.
  - rewrite mixed_row by auto. exact Hne.
Qed.

(** The child of a fixed-size list shows its rows one after the other. *)
Lemma fixed_child s (Hw : widths_pos s) n (Hn : 0 < n) c rows :
  built (SFixed n s) c -> shows (coll (SFixed n s)) c rows -> shows (coll s) c (concat rows).
Proof.
  intros Hb Hs. destruct (built_abs (SFixed n s) (conj Hn Hw) c rows Hb Hs) as [Hx [Hi Hd]].
  apply (abs_shows s Hw); [exact Hi|]. rewrite Hx. symmetry. apply concat_chunks; [exact Hn|exact Hd].
Qed.

Definition it_boom {A} (xs : list A) : iter A unit :=
  let n := Node (0%N, None) tt in Iter n (map (fun x => (Yield x, n)) xs ++ [(Boom, n)]).
Lemma run_boom {A} (xs : list A) : run (it_boom xs) = (xs, FBoom, tt).
Proof.
  unfold run, it_boom; cbn. induction xs as [|x xs IH]; [reflexivity|]. cbn. rewrite IH. reflexivity.
Qed.
Lemma total_app {A} (f : A -> N) xs ys : total f (xs ++ ys) = (total f xs + total f ys)%N.
Proof.
  induction xs as [|x xs IH]; [reflexivity|].
  change (f x + total f (xs ++ ys) = f x + total f xs + total f ys)%N. rewrite IH. lia.
Qed.
Lemma total_repeat {A} (f : A -> N) x n : total f (repeat x n) = (N.of_nat n * f x)%N.
Proof.
  induction n as [|n IH]; [reflexivity|]. change (total f (repeat x (S n))) with (f x + total f (repeat x n))%N.
  rewrite IH. lia.
Qed.
Lemma concat_repeat_repeat {A} (x : A) n q : concat (repeat (repeat x n) q) = repeat x (q * n).
Proof.
  induction q as [|q IH]; [reflexivity|]. cbn [repeat concat]. rewrite IH, <- repeat_app. reflexivity.
Qed.
Lemma Forall_repeat {A} (P : A -> Prop) x n : P x -> Forall P (repeat x n).
Proof. intros H. induction n; constructor; auto. Qed.
Lemma firstn_repeated {A} (x : A) k n : firstn k (repeat x n) = repeat x (Nat.min k n).
Proof.
  revert n; induction k as [|k IH]; intros [|n]; try reflexivity. cbn [repeat firstn Nat.min].
  rewrite IH. reflexivity.
Qed.
Lemma total_rows s n (rows : list (list (cA (coll s)))) :
  total (cost (SFixed n s)) rows = total (cost s) (concat rows).
Proof.
  induction rows as [|x rows IH]; [reflexivity|]. cbn [concat]. rewrite total_app, <- IH. reflexivity.
Qed.

(** If the child keeps a number of items that is not a multiple of the width,
    the rows are mixed up. *)
Lemma corrupts_if s (Hw : widths_pos s) n (Hn : 0 < n) c rows a b q p :
  built (SFixed n s) c -> shows (coll (SFixed n s)) c rows ->
  item_ok s a -> item_ok s b -> a <> b ->
  (held s c + N.of_nat (q * n + p * n) * cost s a + N.of_nat n * cost s b <= limit s)%N ->
  panic_safe s true (value_offset s c) = true ->
  (forall c0 c1 it, built s c0 -> shows (coll s) c0 (concat rows ++ repeat a (q * n)) ->
     value_offset s c0 = value_offset s c ->
     items_of it = repeat a (p * n) -> Forall (item_ok s) (items_of it) ->
     room_in s c0 it ->
     step (coll s) c0 (OpExtend it) = (c1, OPanic) ->
     exists kept, kept mod n <> 0 /\
       shows (coll s) c1 ((concat rows ++ repeat a (q * n)) ++ repeat a kept)) ->
  corrupts (SFixed n s) c.
Proof.
  intros Hb Hs Ha Hbb Hab Hroom Hps Hkeep.
  set (S' := SFixed n s) in *. pose proof (conj Hn Hw : widths_pos S') as HW.
  pose (rows0 := repeat (repeat a n) q : list (cA (coll S'))).
  pose (rows1 := repeat (repeat a n) p : list (cA (coll S'))).
  assert (Hr0 : Forall (item_ok S') rows0).
  { apply Forall_repeat. split; [apply repeat_length|apply Forall_repeat; exact Ha]. }
  assert (Hr1 : Forall (item_ok S') rows1).
  { apply Forall_repeat. split; [apply repeat_length|apply Forall_repeat; exact Ha]. }
  assert (Hx : item_ok S' (repeat b n)).
  { split; [apply repeat_length|apply Forall_repeat; exact Hbb]. }
  assert (T0 : total (cost S') rows0 = (N.of_nat (q * n) * cost s a)%N).
  { transitivity (total (cost s) (concat (repeat (repeat a n) q))); [apply total_rows|].
    rewrite concat_repeat_repeat. apply total_repeat. }
  assert (I0 : items_of (it_list rows0) = rows0) by (unfold items_of; rewrite run_list; reflexivity).
  assert (F0 : fin_of (it_list rows0) = FStop) by (unfold fin_of; rewrite run_list; reflexivity).
  (* the first extension *)
  destruct (step (coll S') c (OpExtend (it_list rows0))) as [c0 o0] eqn:E0.
  assert (D0 : o0 = ODone).
  { cbn [step] in E0. destruct (k_extend (coll S') c (it_list rows0)) as [[c0' r0] o0'] eqn:E0'.
    destruct (extend_core S' HW unit c rows (it_list rows0) c0' r0 o0' Hb Hs) as [_ G]; auto.
    { rewrite I0. exact Hr0. }
    rewrite F0 in G. inversion E0; subst. apply G. apply room_list; [exact HW|exact Hr0|].
    unfold room_for. rewrite T0.
    change (held S' c) with (held s c). change (limit S') with (limit s). lia. }
  subst o0.
  destruct (step_core S' HW c rows (OpExtend (it_list rows0)) c0 ODone Hb Hs) as
    (ys & Y1 & Y2 & Y3 & Y4 & Y5); auto; try discriminate.
  { cbn [op_items]. rewrite I0. exact Hr0. }
  destruct Y1 as [_ ->]. rewrite I0 in Y2. cbn [op_items] in Y5. rewrite I0, T0 in Y5.
  change (held s c0 <= held s c + N.of_nat (q * n) * cost s a)%N in Y5.
  pose proof (fixed_child s Hw n Hn c0 _ Y3 Y2) as C0.
  change (shows (coll s) c0 (concat (rows ++ repeat (repeat a n) q))) in C0.
  rewrite concat_app, concat_repeat_repeat in C0.
  pose proof (built_fixed_coll n s c0 Hn Y3) as B0.
  (* the panicking extension *)
  assert (Hex : exists it : iter (cA (coll s)) unit, it = it_flatten (N.of_nat n) (it_boom rows1))
    by (eexists; reflexivity).
  destruct Hex as [it Eit].
  assert (Hr : run it = (repeat a (p * n), FBoom, tt)).
  { rewrite Eit, (run_flatten _ _ _ _ _ (run_boom rows1)).
    change (concat rows1) with (concat (repeat (repeat a n) p)).
    rewrite concat_repeat_repeat. reflexivity. }
  assert (Hit : items_of it = repeat a (p * n)) by (unfold items_of; rewrite Hr; auto).
  assert (Hfin : fin_of it = FBoom) by (unfold fin_of; rewrite Hr; auto).
  assert (Hok : Forall (item_ok s) (items_of it)) by (rewrite Hit; apply Forall_repeat; exact Ha).
  assert (Hrm : room_in s c0 it).
  { rewrite Eit. apply (room_in_flatten s Hw n c0 unit (it_boom rows1)).
    - unfold items_of; rewrite run_boom. exact Hr1.
    - apply affords_boom. change (held s c0 + total (cost (SFixed n s)) rows1 <= limit s)%N.
      rewrite (total_rows s n rows1).
      change (concat rows1) with (concat (repeat (repeat a n) p)).
      rewrite concat_repeat_repeat, total_repeat. lia. }
  destruct (step (coll s) c0 (OpExtend it)) as [c1 o1] eqn:E1.
  assert (D1 : o1 = OPanic).
  { pose proof E1 as E1'. cbn [step] in E1'.
    destruct (k_extend (coll s) c0 it) as [[c1' r1] o1'] eqn:E1''.
    destruct (extend_core s Hw unit c0 _ it c1' r1 o1' B0 C0 Hok E1'') as [_ G].
    rewrite Hfin in G. specialize (G Hrm). congruence. }
  subst o1.
  destruct (Hkeep c0 c1 it B0 C0 Y4 Hit Hok Hrm E1) as (kept & K1 & K2).
  destruct (step_core s Hw c0 _ (OpExtend it) c1 OPanic B0 C0) as
    (zs & Z1 & Z2 & Z3 & Z4 & Z5); auto; try discriminate.
  { intros _. right. split; [|exact Hrm]. change (value_offset s c0 = value_offset s c) in Y4.
    rewrite Y4. exact Hps. }
  clear Z1 Z2 zs. cbn [op_items] in Z5. rewrite Hit, total_repeat in Z5.
  (* the mixed row *)
  set (xs := (concat rows ++ repeat a (q * n)) ++ repeat a kept) in *.
  assert (Hlen : exists m, length (concat rows ++ repeat a (q * n)) = n * m).
  { exists (length rows + q). rewrite app_length, repeat_length.
    transitivity (n * length rows + q * n); [|lia]. f_equal. apply (concat_length n rows).
    pose proof (shown_items S' HW c rows Hb Hs) as F. clear - F.
    apply Forall_impl with (2 := F). intros x [H _]. exact H. }
  destruct Hlen as [m Hm].
  pose proof (Nat.div_mod_eq kept n) as Hdm.
  assert (Hxl : length xs = n * m + kept).
  { unfold xs. rewrite app_length, repeat_length, Hm. reflexivity. }
  assert (Hq : length xs / n = m + kept / n).
  { rewrite Hxl. replace (n * m + kept) with (kept + m * n) by lia. rewrite Nat.div_add by lia. lia. }
  assert (Hxs : xs = (concat rows ++ repeat a (q * n) ++ repeat a (n * (kept / n))) ++ repeat a (kept mod n)).
  { unfold xs. rewrite Hdm at 1. rewrite repeat_app, !app_assoc. reflexivity. }
  assert (Hsk : skipn (n * (length xs / n)) xs = repeat a (kept mod n)).
  { rewrite Hq. rewrite Hxs. rewrite skipn_app, skipn_all2.
    - rewrite !app_length, !repeat_length. rewrite app_length, repeat_length in Hm.
      replace (n * (m + kept / n) - (length (concat rows) + (q * n + n * (kept / n)))) with 0 by lia.
      reflexivity.
    - rewrite !app_length, !repeat_length. rewrite app_length, repeat_length in Hm. lia. }
  assert (Hne : skipn (n * (length xs / n)) xs ++ firstn (n - length xs mod n) (repeat b n) <> repeat b n).
  { rewrite Hsk. destruct (kept mod n); [lia|]. destruct n; [lia|]. cbn [repeat app]. congruence. }
  destruct (misaligned s Hw n c1 xs (repeat b n) Hn Z3 K2) as (c2 & y & M1 & M2 & M3 & M4 & M5).
  { apply repeat_length. }
  { apply Forall_repeat; exact Hbb. }
  { unfold room_for. rewrite total_repeat. lia. }
  { exact Hne. }
  exists (it_list rows0), (it_boom rows1), (repeat b n), c0, c1, c2, (length xs / n), y.
  split; [rewrite I0; exact Hr0|].
  split; [unfold items_of; rewrite run_boom; exact Hr1|].
  split; [exact Hx|]. split; [exact E0|]. split; [rewrite Eit in E1; exact E1|].
  split.
  { exact (f_equal (fun t => let '(c', _, o) := t in (c', o)) M2). }
  split; [exact M1|]. split; [exact M3|]. split; [exact M4|exact M5].
Qed.

(** ** The classification of panicking extensions is exact *)

Lemma misfit n off : 0 < n -> bit_aligned off n = false ->
  exists q, q < 8 /\ ((8 - (off + q * n) mod 8) mod 8) mod n <> 0.
Proof.
  intros Hn Hal. unfold bit_aligned in Hal.
  assert (Hoff : exists o, o < 8 /\ off mod 8 = o) by (exists (off mod 8); split; [apply Nat.mod_upper_bound; lia|auto]).
  destruct Hoff as (o & Ho & Eo).
  assert (Hq : forall q, (off + q * n) mod 8 = (o + q * n) mod 8).
  { intros q. rewrite <- Eo, Nat.add_mod_idemp_l by lia. reflexivity. }
  destruct (Nat.lt_ge_cases n 8) as [H8|H8].
  - assert (Hal' : (8 mod n =? 0) && (o mod n =? 0) = false).
    { destruct (8 mod n =? 0) eqn:E; [|reflexivity]. cbn [andb] in *.
      apply orb_false_elim in Hal as [Hal _]. cbn [andb].
      assert (Hmm : off mod n = o mod n); [|rewrite <- Hmm; exact Hal].
      rewrite <- Eo. assert (exists g, 8 = n * g) as [g Hg].
      { apply Nat.eqb_eq, Nat.mod_divide in E; [|lia]. destruct E as [g Hg]. exists g. lia. }
      rewrite (Nat.div_mod_eq off 8) at 1.
      replace (8 * (off / 8) + off mod 8) with (off mod 8 + (g * (off / 8)) * n) by nia.
      apply Nat.mod_add. lia. }
    assert (Hfin : exists q, q < 8 /\ ((8 - (o + q * n) mod 8) mod 8) mod n <> 0).
    2:{ destruct Hfin as (q & H1 & H2). exists q. rewrite Hq. auto. }
    clear Hal Hq Eo.
    assert (Hf : existsb (fun q => negb (((8 - (o + q * n) mod 8) mod 8) mod n =? 0)) (seq 0 8) = true).
    { do 8 (destruct n as [|n]; [first [lia|
        do 8 (destruct o as [|o]; [first [discriminate Hal'|reflexivity]|]); lia]|]). lia. }
    apply existsb_exists in Hf as (q & Hin & Hv). apply in_seq in Hin. exists q. split; lia.
  - destruct (Nat.eq_dec o 0) as [->|Ho0].
    + exists 1. split; [lia|]. rewrite Hq.
      assert (n mod 8 <> 0).
      { intros E. rewrite E in Hal. rewrite Eo in Hal. cbn in Hal. rewrite orb_true_r in Hal. discriminate. }
      replace (0 + 1 * n) with n by lia. rewrite Nat.mod_small.
      * pose proof (Nat.mod_upper_bound n 8). rewrite Nat.mod_small by lia. lia.
      * pose proof (Nat.mod_upper_bound (8 - n mod 8) 8). lia.
    + exists 0. split; [lia|]. rewrite Hq. replace (o + 0 * n) with o by lia.
      rewrite (Nat.mod_small o 8) by lia. rewrite (Nat.mod_small (8 - o) 8) by lia.
      rewrite Nat.mod_small by lia. lia.
Qed.

Lemma bit_aligned_add off n m : 0 < n -> bit_aligned (off + n * m) n = bit_aligned off n.
Proof.
  intros Hn. unfold bit_aligned.
  replace ((off + n * m) mod n) with (off mod n) by (rewrite (Nat.mul_comm n), Nat.mod_add; lia).
  f_equal. destruct (n mod 8 =? 0) eqn:E; [|reflexivity]. cbn [andb].
  apply Nat.eqb_eq, Nat.mod_divide in E; [|lia]. destruct E as [g ->].
  replace (off + g * 8 * m) with (off + (g * m) * 8) by lia. rewrite Nat.mod_add by lia. reflexivity.
Qed.
Lemma rows_length s (Hw : widths_pos s) n (Hn : 0 < n) c rows : built (SFixed n s) c ->
  shows (coll (SFixed n s)) c rows -> length (concat rows) = n * length rows.
Proof.
  intros Hb Hs. apply (concat_length n rows).
  apply Forall_impl with (2 := shown_items (SFixed n s) (conj Hn Hw) c rows Hb Hs).
  intros x [H _]. exact H.
Qed.
Lemma fixed_bits_corrupt n c rows : 0 < n -> built (SFixed n SBits) c ->
  shows (coll (SFixed n SBits)) c rows -> bit_aligned (bm_bit_offset c) n = false ->
  (held SBits c + 34 * N.of_nat n <= alloc_max)%N -> corrupts (SFixed n SBits) c.
Proof.
  intros Hn Hb Hs Hal Hroom.
  pose proof (rows_length SBits I n Hn c rows Hb Hs) as Hl.
  destruct (misfit n (bm_bit_offset c + n * length rows) Hn) as (q & Hq & Hm).
  { rewrite bit_aligned_add by auto. exact Hal. }
  apply (corrupts_if SBits I n Hn c rows true false q 8); auto; try exact I; try discriminate.
  - change (cost SBits true) with 2%N. change (cost SBits false) with 2%N.
    change (limit SBits) with alloc_max. nia.
  - intros c0 c1 it B0 S0 V0 Hit _ _ E.
    exists ((8 - (bm_bit_offset c + n * length rows + q * n) mod 8) mod 8). split; [exact Hm|].
    destruct (bits_panic_later c0 _ it c1 OPanic [] c1 [] B0 S0 (or_introl E) eq_refl eq_refl)
      as (H & _); [auto|].
    assert (Hit' : @items_of bool unit it = repeat true (8 * n)) by exact Hit.
    rewrite Hit' in H.
    assert (V0' : bm_bit_offset c0 = bm_bit_offset c) by exact V0.
    assert (Hl' : @length bool (concat rows ++ repeat true (q * n)) = n * length rows + q * n).
    { rewrite app_length, repeat_length. f_equal. exact Hl. }
    rewrite V0' in H.
    match type of H with shows _ _ (_ ++ firstn ?k _) =>
      replace k with ((8 - (bm_bit_offset c + n * length rows + q * n) mod 8) mod 8) in H
        by (rewrite <- Nat.add_assoc, <- Hl'; reflexivity)
    end.
    rewrite firstn_repeated in H. rewrite Nat.min_l in H; [exact H|].
    pose proof (Nat.mod_upper_bound (8 - (bm_bit_offset c + n * length rows + q * n) mod 8) 8). lia.
Qed.

Lemma item0_ok s (Hw : widths_pos s) : item_ok s (k_item0 (coll s)).
Proof.
  assert (H : Forall (item_ok s) [k_item0 (coll s)]).
  { apply items_ok_wt. constructor; [apply (lw_item0 _ _ (shape_laws s Hw))|constructor]. }
  inversion H; auto.
Qed.
Lemma fixed_nulls_corrupt s (Hw : widths_pos s) n c rows : 0 < n -> built (SFixed n (SNull s)) c ->
  shows (coll (SFixed n (SNull s))) c rows -> 1024 mod n <> 0 -> n mod 1024 <> 0 ->
  panic_safe s true (value_offset (SNull s) c) = true ->
  (held (SNull s) c + N.of_nat (1023 + 2 * n) * (cost s (k_item0 (coll s)) + 2) <= limit s)%N ->
  corrupts (SFixed n (SNull s)) c.
Proof.
  intros Hn Hb Hs H1 H2 Hps Hroom.
  set (p := 1023 / n + 1).
  assert (Hp : 1024 <= p * n <= 1023 + n).
  { unfold p. pose proof (Nat.div_mod_eq 1023 n). pose proof (Nat.mod_upper_bound 1023 n). nia. }
  apply (corrupts_if (SNull s) Hw n Hn c rows None (Some (k_item0 (coll s))) 0 p); auto.
  - exact I.
  - exact (item0_ok s Hw).
  - discriminate.
  - change (limit (SNull s)) with (limit s).
    change (cost (SNull s) None) with (cost s (k_item0 (coll s)) + 2)%N.
    change (cost (SNull s) (Some (k_item0 (coll s)))) with (cost s (k_item0 (coll s)) + 2)%N.
    replace (N.of_nat (0 * n + p * n)) with (N.of_nat (p * n)) by lia. nia.
  - intros c0 c1 it B0 S0 V0 Hit Hi Hr E.
    exists (1024 * ((p * n) / 1024)). split.
    { destruct (Nat.lt_ge_cases n 1024) as [Hlt|Hge].
      - replace (p * n / 1024) with 1; [exact H1|].
        apply Nat.div_unique with (r := p * n - 1024); lia.
      - assert (n <> 1024) by (intros ->; apply H2; reflexivity).
        assert (p = 1) as -> by (unfold p; rewrite Nat.div_small; lia).
        rewrite Nat.mul_1_l. pose proof (Nat.div_mod_eq n 1024).
        assert (n / 1024 <> 0) by (rewrite Nat.div_small_iff; lia).
        rewrite Nat.mod_small; lia. }
    destruct (null_panic_keeps s Hw c0 _ it c1 B0 S0 Hi E) as (k & _ & _ & K1 & K2).
    { intros _. right. split; [|exact Hr].
      change (panic_safe s true (value_offset (SNull s) c0) = true). rewrite V0. exact Hps. }
    specialize (K2 Hr).
    assert (Hit' : @items_of (option (cA (coll s))) unit it = repeat None (p * n)) by exact Hit.
    rewrite Hit' in K1, K2. rewrite repeat_length in K2. subst k.
    rewrite firstn_repeated, Nat.min_l in K1; [exact K1|].
    pose proof (Nat.div_mod_eq (p * n) 1024). lia.
Qed.

Lemma fixed_lists_corrupt k s (Hw : widths_pos s) n c rows huge : 2 <= n ->
  built (SFixed n (SList k s)) c -> shows (coll (SFixed n (SList k s))) c rows ->
  panic_safe s false (value_offset (SList k s) c) = true -> Forall (item_ok s) huge -> (omax k < Z.of_nat (length huge))%Z ->
  (held (SList k s) c + N.of_nat (2 * n) * cost (SList k s) [k_item0 (coll s)] <= limit (SList k s))%N ->
  corrupts (SFixed n (SList k s)) c.
Proof.
  intros Hn Hb Hs Hps Hhuge Hover Hroom.
  assert (Hn0 : 0 < n) by lia. set (s' := SList k s) in *.
  pose (S' := SFixed n s'). pose proof (conj Hn0 Hw : widths_pos S') as HW.
  assert (Hw' : widths_pos s') by exact Hw.
  pose (row := ([] :: huge :: repeat [] (n - 2)) : cA (coll S')).
  pose (a := [k_item0 (coll s)] : cA (coll s')).
  pose (x := repeat a n : cA (coll S')).
  pose proof (item0_ok s Hw) as H0.
  assert (Hrow : item_ok S' row).
  { split; [unfold row; cbn [length]; rewrite repeat_length; lia|].
    constructor; [constructor|]. constructor; [exact Hhuge|]. apply Forall_repeat. constructor. }
  assert (Ha : item_ok s' a) by (constructor; [exact H0|constructor]).
  assert (Hx : item_ok S' x).
  { split; [apply repeat_length|]. apply Forall_repeat. exact Ha. }
  pose proof (fixed_child s' Hw' n Hn0 c rows Hb Hs) as C0.
  pose proof (built_fixed_coll n s' c Hn0 Hb) as B0.
  (* an extension by nothing *)
  destruct (step (coll S') c (OpExtend (it_list []))) as [c0 o0] eqn:E0.
  assert (D0 : o0 = ODone).
  { cbn [step] in E0. destruct (k_extend (coll S') c (it_list [])) as [[c0' r0] o0'] eqn:E0'.
    destruct (extend_core S' HW unit c rows (it_list []) c0' r0 o0' Hb Hs) as [_ G]; auto.
    { constructor. }
    inversion E0; subst. apply G. apply room_list; [exact HW|constructor|].
    unfold room_for. change (total (cost S') []) with 0%N.
    change (held S' c) with (held s' c). change (limit S') with (limit s'). lia. }
  subst o0.
  destruct (step_core S' HW c rows (OpExtend (it_list [])) c0 ODone Hb Hs) as
    (ys & Y1 & Y2 & Y3 & Y4 & Y5); auto; try discriminate.
  { constructor. }
  destruct Y1 as [_ ->]. change (total (cost S') (op_items (OpExtend (it_list [])))) with 0%N in Y5.
  change (held s' c0 <= held s' c + 0)%N in Y5.
  assert (Y2' : shows (coll S') c0 rows) by (rewrite app_nil_r in Y2; exact Y2). clear Y2.
  clear C0 B0.
  pose proof (fixed_child s' Hw' n Hn0 c0 rows Y3 Y2') as C0.
  pose proof (built_fixed_coll n s' c0 Hn0 Y3) as B0.
  (* the overflow *)
  assert (Hex : exists it : iter (cA (coll s')) unit, it = it_flatten (N.of_nat n) (it_list [row]))
    by (eexists; reflexivity).
  destruct Hex as [it Eit].
  assert (Hr : run it = (row, FStop, tt)).
  { rewrite Eit, (run_flatten _ _ _ _ _ (run_list [row])).
    cbn [concat]. rewrite app_nil_r. reflexivity. }
  assert (Hit : items_of it = row) by (unfold items_of; rewrite Hr; auto).
  assert (Hok : Forall (item_ok s') (items_of it)) by (rewrite Hit; exact (proj2 Hrow)).
  destruct (of_extend (coll s) k c0 it) as [[c1 r1] o1] eqn:E1.
  assert (Hce : cost s' a = (1 + unit_cost s + (cost s (k_item0 (coll s)) + 0))%N) by reflexivity.
  assert (Hc0 : total (cost s') [[]] = (1 + unit_cost s + 0 + 0)%N) by reflexivity.
  destruct (list_overflow_full s Hw k unit c0 _ it [[]] huge (repeat [] (n - 2)) c1 r1 o1 B0 C0 Hok Hit)
    as (D1 & S1 & _ & _ & U1); auto.
  { unfold room_for. change (held (SList k s)) with (held s'). change (limit (SList k s)) with (limit s').
    change (total (cost (SList k s)) [[]]) with (total (cost s') [[]]). rewrite Hc0.
    change (cost s' [k_item0 (coll s)]) with (cost s' a) in Hroom. nia. }
  { rewrite !concat_app, !app_length. cbn [concat app length]. rewrite app_nil_r. lia. }
  subst o1.
  assert (B1 : built s' c1).
  { apply (built_step s' c0 (OpExtend it) c1 OPanic B0); [exact Hok| |discriminate|].
    - exact (f_equal (fun t => let '(c', _, o) := t in (c', o)) E1).
    - intros _. left. assert (V : value_offset s' c0 = value_offset s' c) by exact Y4.
      change (panic_safe s false (value_offset s' c0) = true). rewrite V. exact Hps. }
  (* the mixed row *)
  assert (Hm : length (concat rows) = n * length rows) by exact (rows_length s' Hw' n Hn0 c rows Hb Hs).
  pose (xs := concat rows ++ [[]] : list (cA (coll s'))).
  assert (Hxl : length xs = 1 + length rows * n).
  { unfold xs. rewrite app_length. cbn [length].
    transitivity (n * length rows + 1); [f_equal; exact Hm|lia]. }
  assert (Hq : length xs / n = length rows).
  { rewrite Hxl, Nat.div_add by lia. rewrite Nat.div_small by lia. lia. }
  assert (Hsk : skipn (n * (length xs / n)) xs = [[]]).
  { rewrite Hq. unfold xs. rewrite skipn_app, skipn_all2 by (rewrite <- Hm; apply Nat.le_refl).
    replace (n * length rows - length (concat rows)) with 0 by (rewrite <- Hm; lia). reflexivity. }
  assert (Hne : skipn (n * (length xs / n)) xs ++ firstn (n - length xs mod n) x <> x).
  { rewrite Hsk. unfold x. clear - Hn. destruct n; [lia|]. unfold a. cbn [repeat app]. discriminate. }
  destruct (misaligned s' Hw' n c1 xs x Hn0 B1 S1) as (c2 & y & M1 & M2 & M3 & M4 & M5).
  { apply repeat_length. }
  { exact (proj2 Hx). }
  { unfold room_for. unfold x. rewrite total_repeat.
    change (held (SList k s)) with (held s') in U1.
    change (total (cost (SList k s)) [[]]) with (total (cost s') [[]]) in U1. rewrite Hc0 in U1.
    change (cost s' [k_item0 (coll s)]) with (cost s' a) in Hroom. nia. }
  { exact Hne. }
  exists (it_list []), (it_list [row]), x, c0, c1, c2, (length xs / n), y.
  split; [constructor|]. split; [unfold items_of; rewrite run_list; constructor; [exact Hrow|constructor]|].
  split; [exact Hx|]. split; [exact E0|].
  split; [rewrite Eit in E1; exact (f_equal (fun t => let '(c', _, o) := t in (c', o)) E1)|].
  split; [exact (f_equal (fun t => let '(c', _, o) := t in (c', o)) M2)|].
  split; [exact M1|]. split; [exact M3|]. split; [exact M4|exact M5].
Qed.

(** An iterator whose lower bound is a lie. *)
Definition it_liar {A} (xs : list A) : iter A unit :=
  let n := Node (usize_max, None) tt in Iter n (map (fun x => (Yield x, n)) xs).
Lemma run_liar {A} (xs : list A) : run (it_liar xs) = (xs, FStop, tt).
Proof.
  unfold run, it_liar; cbn. induction xs as [|x xs IH]; [reflexivity|]. cbn. rewrite IH. reflexivity.
Qed.
Lemma flatten_liar {A} n (rows : list (list A)) : 0 < n -> it_tr (it_flatten (N.of_nat n) (it_liar rows)) =
  it_tr (it_liar (concat rows)) ++ [(Stop, Node (0%N, Some 0%N) tt)].
Proof.
  intros Hn. unfold it_flatten, it_liar. cbn [it_tr it_node it_src nd_src].
  assert (Hh : forall r, flat_hint (N.of_nat n) r (usize_max, None) = (usize_max, None)).
  { intros r. unfold flat_hint, sat_add, sat_mul. cbn [fst snd]. f_equal.
    assert (usize_max * 1 <= usize_max * N.of_nat n)%N by (apply N.mul_le_mono_l; lia). lia. }
  generalize (Node (usize_max, None) tt) at 1 as cur.
  induction rows as [|l rows IH]; intros cur; cbn [map flatten_t concat app].
  - destruct cur as [h []]. reflexivity.
  - rewrite IH, map_app, <- app_assoc. clear IH. induction l as [|a l IH]; [reflexivity|].
    cbn [emit_t map app]. rewrite IH. cbn [nd_hint nd_src]. rewrite Hh. reflexivity.
Qed.
(** It stops a vector when its capacity is used up. *)
Lemma vec_wall {A} esz (xs : list A) rest n : forall v, (lenN (v_items v) <= v_cap v)%N ->
  (v_cap v - lenN (v_items v) < lenN xs)%N ->
  exists r, vec_push_t esz (it_tr (it_liar xs) ++ rest) n v =
    (Vec (v_items v ++ firstn (N.to_nat (v_cap v - lenN (v_items v))) xs) (v_cap v), r, OPanic).
Proof.
  revert n. induction xs as [|a xs IH]; intros n v Hc Hl; [unfold lenN in Hl; cbn in Hl; lia|].
  unfold it_liar in *. cbn [it_tr map app vec_push_t nd_hint fst nd_src] in *.
  destruct (lenN (v_items v) =? v_cap v)%N eqn:E.
  - exists tt. unfold vec_reserve.
    assert (Hs : sat_add usize_max 1 = usize_max) by (vm_compute; reflexivity). rewrite Hs.
    assert (E1 : (usize_max <=? v_cap v - lenN (v_items v))%N = false).
    { assert (0 < usize_max)%N by (vm_compute; reflexivity). lia. }
    assert (E2 : (cap_limit esz <? lenN (v_items v) + usize_max)%N = true).
    { assert (cap_limit esz <= isize_max)%N.
      { unfold cap_limit. destruct (N.eq_dec esz 0) as [->|]; [destruct isize_max; cbn; lia|].
        apply N.div_le_upper_bound; [auto|].
        assert (1 * isize_max <= esz * isize_max)%N by (apply N.mul_le_mono_r; lia). lia. }
      assert (isize_max < usize_max)%N by (vm_compute; reflexivity). lia. }
    rewrite E1, E2. replace (v_cap v - lenN (v_items v))%N with 0%N by lia.
    cbn [N.to_nat firstn]. rewrite app_nil_r. destruct v. reflexivity.
  - assert (Hl1 : lenN (v_items v ++ [a]) = (lenN (v_items v) + 1)%N).
    { unfold lenN. rewrite app_length. cbn. lia. }
    rewrite lenN_cons in Hl.
    destruct (IH (Node (usize_max, None) tt) (Vec (v_items v ++ [a]) (v_cap v))) as [r Hr];
      cbn [v_items v_cap]; rewrite ?Hl1; try lia.
    exists r. cbn [v_items v_cap] in Hr. rewrite Hr, Hl1. f_equal. f_equal. f_equal.
    replace (N.to_nat (v_cap v - lenN (v_items v)))
      with (S (N.to_nat (v_cap v - (lenN (v_items v) + 1)))) by lia.
    cbn [firstn]. rewrite <- app_assoc. reflexivity.
Qed.
Lemma fixed_words_corrupt p n (c : vec N) rows : 0 < n -> built (SFixed n (SVec p)) c ->
  shows (coll (SFixed n (SVec p))) c rows ->
  ((v_cap c - lenN (v_items c)) mod N.of_nat n <> 0)%N ->
  (v_cap c + N.of_nat n <= max_items (psz p))%N -> corrupts (SFixed n (SVec p)) c.
Proof.
  intros Hn Hb Hs Hm Hroom. set (s := SVec p). pose (S' := SFixed n s).
  assert (Hw : widths_pos s) by exact I. pose proof (conj Hn Hw : widths_pos S') as HW.
  pose proof (fixed_child s Hw n Hn c rows Hb Hs) as C0.
  pose proof (built_fixed_coll n s c Hn Hb) as B0.
  pose proof (rows_length s Hw n Hn c rows Hb Hs) as Hlen.
  set (spare := N.to_nat (v_cap c - lenN (v_items c))).
  pose (rows1 := repeat (repeat 0%N n) (spare / n + 1) : list (list N)).
  assert (Hc1 : concat rows1 = repeat 0%N ((spare / n + 1) * n)) by apply concat_repeat_repeat.
  assert (Hr1 : @Forall (cA (coll S')) (item_ok S') rows1).
  { apply Forall_repeat. split; [apply repeat_length|apply Forall_repeat; exact I]. }
  assert (Hmod : spare mod n <> 0).
  { unfold spare. intros E. apply Hm.
    rewrite <- (N2Nat.id (v_cap c - lenN (v_items c))). rewrite <- Nat2N.inj_mod, E. reflexivity. }
  assert (Hi : l_inv (shape_ld s) c) by (apply (built_inv s c B0 Hw)).
  assert (Hcap : (lenN (v_items c) <= v_cap c)%N) by apply Hi.
  assert (Hits : v_items c = concat rows).
  { destruct (built_abs s Hw c _ B0 C0) as [E _]. symmetry. exact E. }
  destruct (vec_wall (psz p) (repeat 0%N ((spare / n + 1) * n)) [(Stop, Node (0%N, Some 0%N) tt)]
    (it_node (it_flatten (N.of_nat n) (it_liar rows1))) c Hcap) as [[] E1].
  { unfold lenN at 2. rewrite repeat_length. pose proof (Nat.div_mod_eq spare n).
    pose proof (Nat.mod_upper_bound spare n). nia. }
  fold spare in E1. rewrite firstn_repeated, Nat.min_l in E1.
  2:{ pose proof (Nat.div_mod_eq spare n). pose proof (Nat.mod_upper_bound spare n). nia. }
  set (c1 := Vec (v_items c ++ repeat 0%N spare) (v_cap c)) in *.
  assert (E2 : vec_extend (psz p) c (it_flatten (N.of_nat n) (it_liar rows1)) = (c1, tt, OPanic)).
  { unfold vec_extend. rewrite (flatten_liar n rows1 Hn), Hc1. exact E1. }
  assert (Hl1 : lenN (v_items c1) = v_cap c).
  { unfold c1, lenN. cbn [v_items]. rewrite app_length, repeat_length.
    assert (Hsp : N.of_nat spare = (v_cap c - lenN (v_items c))%N) by apply N2Nat.id.
    clearbody spare. unfold lenN in *. lia. }
  assert (B1 : built s c1).
  { apply (built_vec p c1). split; [rewrite Hl1; apply N.le_refl|].
    change (v_cap c <= max_items (psz p))%N. lia. }
  assert (Hpre : exists pre : list N, pre = concat rows) by (eexists; reflexivity).
  destruct Hpre as [pre Hpre].
  assert (Hlen' : length pre = n * length rows) by (rewrite Hpre; exact Hlen).
  pose (xs := pre ++ repeat 0%N spare : list N).
  assert (C1 : shows (coll s) c1 xs).
  { apply (abs_shows s Hw); [exact (built_inv s c1 B1 Hw)|].
    unfold xs. transitivity (v_items c1); [reflexivity|]. unfold c1. cbn [v_items]. rewrite Hits, <- Hpre. reflexivity. }
  assert (Hxl : length xs = n * length rows + spare).
  { unfold xs. rewrite app_length, repeat_length. rewrite Hlen'. reflexivity. }
  assert (Hq : length xs / n = length rows + spare / n).
  { rewrite Hxl. replace (n * length rows + spare) with (spare + length rows * n) by lia.
    rewrite Nat.div_add by lia. lia. }
  pose proof (Nat.div_mod_eq spare n) as Hdm.
  assert (Hsk : skipn (n * (length xs / n)) xs = repeat 0%N (spare mod n)).
  { rewrite Hq. unfold xs. rewrite skipn_app, skipn_all2 by (rewrite Hlen'; apply Nat.mul_le_mono_l, Nat.le_add_r).
    rewrite Hlen'. replace (n * (length rows + spare / n) - n * length rows) with (n * (spare / n))
      by (rewrite Nat.mul_add_distr_l, Nat.add_comm, Nat.add_sub; reflexivity).
    rewrite Hdm at 2. rewrite repeat_app, skipn_app, skipn_all2 by (rewrite repeat_length; lia).
    rewrite repeat_length, Nat.sub_diag. reflexivity. }
  assert (Hne : skipn (n * (length xs / n)) xs ++ firstn (n - length xs mod n) (repeat 1%N n)
    <> repeat 1%N n).
  { rewrite Hsk. destruct (spare mod n); [lia|]. destruct n; [lia|]. cbn [repeat app]. discriminate. }
  destruct (misaligned s Hw n c1 xs (repeat 1%N n : list (cA (coll s))) Hn B1 C1)
    as (c2 & y & M1 & M2 & M3 & M4 & M5).
  { apply repeat_length. }
  { apply Forall_repeat. exact I. }
  { unfold room_for. rewrite total_repeat.
    change (held s c1) with (lenN (v_items c1)). change (cost s 1%N) with 1%N.
    change (limit s) with (max_items (psz p)). rewrite Hl1. lia. }
  { exact Hne. }
  exists (it_list []), (it_liar rows1), (repeat 1%N n), c, c1, c2, (length xs / n), y.
  split; [constructor|]. split; [unfold items_of; rewrite run_liar; exact Hr1|].
  split; [split; [apply repeat_length|apply Forall_repeat; exact I]|].
  split; [reflexivity|]. split.
  { exact (f_equal (fun t => let '(c', _, o) := t in (c', o)) E2). }
  split; [exact (f_equal (fun t => let '(c', _, o) := t in (c', o)) M2)|].
  split; [exact M1|]. split; [exact M3|]. split; [exact M4|exact M5].
Qed.

(** ** Zero width *)

Lemma zero_width s (Hw : widths_pos s) q :
  exists c, k_from_iter (flatten_coll (coll s) 0) (it_list (repeat [] q)) = (BOk c, tt) /\
    k_len (flatten_coll (coll s) 0) c = Pnc /\
    k_truncate (flatten_coll (coll s) 0) c 0 = (c, OPanic) /\
    (forall i, k_owned (flatten_coll (coll s) 0) c i = Ret (Some [])) /\
    k_iter (flatten_coll (coll s) 0) c = Pnc /\
    exists t t', k_into (flatten_coll (coll s) 0) c = Ret t /\
      k_onext (flatten_coll (coll s) 0) t = Ret (None, t').
Proof.
  assert (Hex : exists it : iter (cA (coll s)) unit, it = it_flatten (N.of_nat 0) (it_list (repeat [] q)))
    by (eexists; reflexivity).
  destruct Hex as [it Eit].
  assert (Hr : run it = ([], FStop, tt)).
  { rewrite Eit, (run_flatten _ _ _ _ _ (run_list _)). f_equal. f_equal. clear.
    induction q as [|q IH]; [reflexivity|exact IH]. }
  assert (Hit : items_of it = []) by (unfold items_of; rewrite Hr; auto).
  assert (Hfin : fin_of it = FStop) by (unfold fin_of; rewrite Hr; auto).
  assert (Hf : fused it) by (rewrite Eit; apply fused_cut, cut_flatten).
  assert (Hh : upper_or_lower (it_hint it) = 0%N).
  { rewrite Eit. unfold it_hint, it_flatten, it_list, exact_hint, flat_hint, upper_or_lower.
    cbn [it_node nd_hint fst snd]. unfold checked_mul.
    reflexivity. }
  destruct (k_from_iter (coll s) it) as [res []] eqn:E.
  assert (Hi : Forall (item_ok s) (items_of it)) by (rewrite Hit; constructor).
  destruct (collect_core s Hw false unit it res tt (or_intror Hf) Hi E) as [H1 H2].
  rewrite Hfin, Hh in H2. destruct H2 as [c ->].
  { rewrite Eit. unfold room_new. eapply affords_flatten; [exact (run_list _)| |].
    - apply Forall_repeat. constructor.
    - apply affords_list; [apply Forall_repeat; cbn; lia|].
      clear. induction q as [|q IH]; cbn [repeat fold_right sumw] in *; lia. }
  { lia. }
  destruct H1 as (_ & H1 & _ & _). rewrite Hit in H1.
  assert (Hlen : k_len (flatten_coll (coll s) 0) c = Pnc).
  { change (fl_len (coll s) 0 c = Pnc). unfold fl_len. rewrite (sh_len _ _ _ H1). reflexivity. }
  exists c. split; [rewrite Eit in E; exact E|]. split; [exact Hlen|]. split.
  { change (fl_truncate (coll s) 0 c 0 = (c, OPanic)). unfold fl_truncate.
    change (fl_len (coll s) 0 c = Pnc) in Hlen. rewrite Hlen. reflexivity. }
  split; [reflexivity|]. split.
  { change (fl_iter (coll s) 0 c = Pnc). unfold fl_iter.
    change (fl_len (coll s) 0 c = Pnc) in Hlen. rewrite Hlen. reflexivity. }
  destruct (sh_into _ _ _ H1) as (t & Ht & Hy).
  assert (Hn : exists t', k_onext (coll s) t = Ret (None, t')).
  { destruct (Hy 1) as (_ & t' & Hn & _). exists t'. exact Hn. }
  destruct Hn as [t' Hn]. exists t, t'. split; [exact Ht|].
  change (chunks_next (coll s) 0 t = Ret (None, t')). unfold chunks_next. rewrite Hn. reflexivity.
Qed.

(** ** Out of bounds *)

Definition none_out (s : shape) (i : N) : bool :=
  match s with SFixed _ _ => false | SList _ _ => (i <? usize_max)%N | _ => true end.
Lemma none_out_oob s i : l_oob (shape_ld s) i = none_out s i.
Proof. destruct s; reflexivity. Qed.
Lemma view_outside s (Hw : widths_pos s) c xs i : built s c -> shows (coll s) c xs ->
  (lenN xs <= i)%N -> (i <= usize_max)%N ->
  match s with
  | SFixed _ _ => False
  | SList _ _ => (i < usize_max)%N
  | _ => True
  end ->
  k_view (coll s) c i = Ret None /\ k_owned (coll s) c i = Ret None.
Proof.
  intros Hb Hs H1 H2 H3.
  pose proof (view_out s Hw c xs i Hb Hs H1 H2) as V.
  pose proof (owned_out s Hw c xs i Hb Hs H1 H2) as O.
  rewrite none_out_oob in V, O.
  assert (E : none_out s i = true) by (destruct s; cbn [none_out]; try reflexivity; [contradiction|lia]).
  rewrite E in V, O. auto.
Qed.
Lemma fixed_view_outside n s (Hn : 0 < n) (Hw : widths_pos s) c rows i : built (SFixed n s) c ->
  shows (coll (SFixed n s)) c rows -> (lenN rows <= i)%N -> (i <= usize_max)%N ->
  fl_view (coll s) n c i = Pnc.
Proof. intros Hb Hs H1 H2. exact (view_out (SFixed n s) (conj Hn Hw) c rows i Hb Hs H1 H2). Qed.
Lemma list_view_outside k s (Hw : widths_pos s) o : built (SList k s) o ->
  of_view (coll s) o usize_max = Pnc.
Proof.
  intros Hb. destruct (built_shows (SList k s) Hw o Hb) as (ls & _ & Hs).
  apply (view_out (SList k s) Hw o ls usize_max Hb Hs); [|apply N.le_refl].
  destruct (built_abs (SList k s) Hw o ls Hb Hs) as [-> Hi].
  pose proof (lw_abs_len _ _ (shape_laws (SList k s) Hw) o Hi) as H.
  rewrite alloc_max_val in H. rewrite usize_max_val. lia.
Qed.
Lemma zero_parts s (Hw : widths_pos s) c : built s c ->
  fl_try_from_parts (coll s) 0 c = Ret (inr ZeroChunkSize).
Proof.
  intros Hb. destruct (built_shows s Hw c Hb) as (xs & _ & Hs).
  unfold fl_try_from_parts. rewrite (sh_len _ _ _ Hs). reflexivity.
Qed.
