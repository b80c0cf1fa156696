(** * What is collected has the physical layout of the Arrow format: C48 *)
From Coq Require Import List NArith ZArith Bool Arith Lia.
From Verif Require Import Base Iter Spec VecModel BitmapModel CollModel ValidityModel
  FlattenModel OffsetsModel LayoutModel Reach FactsBitmap SpecLaid FactsLaid.
Import ListNotations.

(** ** C48: the buffers hold exactly what the format prescribes *)

Theorem C48_empty : forall s, widths_pos s ->
  laid s (k_default (coll s)) [] /\
  (forall n c, k_with_capacity (coll s) n = BOk c -> laid s c []) /\
  (forall n w c w', k_try_with_capacity (coll s) n w = (BOk c, w') -> laid s c []).
Proof. exact laid_empty. Qed.
Print Assumptions C48_empty.

Theorem C48_collected : forall s, widths_pos s -> forall R (it : iter (cA (coll s)) R) c r,
  resumable s = true \/ fused it -> Forall (item_ok s) (items_of it) ->
  k_from_iter (coll s) it = (BOk c, r) \/ k_from_iter_in (coll s) it = (BOk c, r) ->
  laid s c (items_of it).
Proof. exact laid_collect. Qed.
Print Assumptions C48_collected.

Theorem C48_try_collected : forall s, widths_pos s ->
  forall R (it : iter (cA (coll s)) R) w c r w',
  resumable_try s = true \/ fused it -> Forall (item_ok s) (items_of it) ->
  k_try_from_iter (coll s) it w = (BOk c, r, w') -> laid s c (items_of it).
Proof. exact laid_try_collect. Qed.
Print Assumptions C48_try_collected.

Theorem C48_extended : forall s, widths_pos s -> forall R c (it : iter (cA (coll s)) R) xs c' r,
  built s c -> laid s c xs -> Forall (item_ok s) (items_of it) ->
  k_extend (coll s) c it = (c', r, ODone) -> laid s c' (xs ++ items_of it).
Proof. exact laid_extend. Qed.
Print Assumptions C48_extended.

Theorem C48_try_extended : forall s, widths_pos s ->
  forall R c (it : iter (cA (coll s)) R) w xs c' r w',
  built s c -> laid s c xs -> Forall (item_ok s) (items_of it) ->
  k_try_extend (coll s) c it w = (c', r, ODone, w') -> laid s c' (xs ++ items_of it).
Proof. exact laid_try_extend. Qed.
Print Assumptions C48_try_extended.

(** Reservations change nothing, whether they succeed or not. *)
Theorem C48_reserved : forall s, widths_pos s -> forall c xs, built s c -> laid s c xs ->
  (forall n c' o, k_reserve (coll s) c n = (c', o) -> laid s c' xs) /\
  (forall n w c' o w', k_try_reserve (coll s) c n w = (c', o, w') -> laid s c' xs).
Proof. exact laid_reserve. Qed.
Print Assumptions C48_reserved.

(** Whole histories: the layout, and with it the items, are those of all items
    appended, one list after the other. *)
Theorem C48_histories : forall s, widths_pos s -> forall c xs ps os c',
  built s c -> laid s c xs -> runs s c ps os c' -> Forall2 appends ps os ->
  laid s c' (xs ++ concat (map op_items ps)) /\
  shows (coll s) c' (xs ++ concat (map op_items ps)).
Proof. exact laid_runs. Qed.
Print Assumptions C48_histories.

(** The layout determines what is read. *)
Theorem C48_laid_shows : forall s, widths_pos s -> forall c xs, built s c -> laid s c xs ->
  shows (coll s) c xs.
Proof. exact laid_shows. Qed.
Print Assumptions C48_laid_shows.

Theorem C48_wrapped : forall s c xs, laid s c xs ->
  laid (SNull s) (va_from_collection (coll s) c) (map Some xs).
Proof. exact laid_wrap. Qed.
Print Assumptions C48_wrapped.

(** Truncating a bitmap keeps its bytes, so no such claim is made of it: the bits
    that were cut off are still there. *)
Theorem C48_not_after_truncation :
  exists (b b' : bitmap) (xs : list bool), built SBits b /\ laid SBits b xs /\
    k_truncate (coll SBits) b 1 = (b', ODone) /\ ~ laid SBits b' (firstn 1 xs).
Proof.
  destruct (k_from_iter (coll SBits) (it_list [true; true; true])) as [[b| | |] r] eqn:E;
    try (vm_compute in E; discriminate).
  exists b, (fst (k_truncate (coll SBits) b 1)), [true; true; true].
  assert (Hf : Forall (item_ok SBits) (items_of (it_list [true; true; true]))) by (repeat constructor).
  split; [|split; [|split]].
  - exact (built_collect SBits _ _ _ _ (or_intror (fused_list _)) Hf (or_introl E)).
  - exact (C48_collected SBits I _ _ _ _ (or_intror (fused_list _)) Hf (or_introl E)).
  - reflexivity.
  - vm_compute in E. inversion E; subst. intros (_ & _ & H). vm_compute in H. discriminate.
Qed.
Print Assumptions C48_not_after_truncation.

(** Optional lists of optional booleans: twelve booleans in four lists, one of
    them null and one empty. *)
Definition flags : shape := SNull (SList I32 (SNull SBits)).
Definition flag_lists : list (option (list (option bool))) :=
  [Some [Some true; None; Some true]; None; Some [];
   Some [Some true; Some true; Some true; Some true; Some false; Some true; None; Some true; Some true]].
Definition flags_laid : cC (coll flags) -> Prop := fun v =>
  v_items (of_offs (va_coll v)) = [0; 3; 3; 3; 12]%Z /\
  v_items (bm_buf (va_coll (of_data (va_coll v)))) = [125; 13]%N /\
  option_map (fun b => v_items (bm_buf b)) (va_bm (of_data (va_coll v))) = Some [253; 13]%N /\
  option_map (fun b => v_items (bm_buf b)) (va_bm v) = Some [13]%N.
Example C48_case : widths_pos flags /\ resumable flags = true /\
  Forall (item_ok flags) (items_of (it_list flag_lists)) /\
  exists c r, k_from_iter (coll flags) (it_list flag_lists) = (BOk c, r) /\ flags_laid c /\
    laid flags c flag_lists.
Proof.
  assert (Hi : Forall (item_ok flags) (items_of (it_list flag_lists))).
  { repeat (constructor; [cbn; repeat constructor|]). constructor. }
  split; [exact I|]. split; [reflexivity|]. split; [exact Hi|].
  destruct (k_from_iter (coll flags) (it_list flag_lists)) as [[c| | |] r] eqn:E;
    try (vm_compute in E; discriminate).
  exists c, r. split; [reflexivity|]. split.
  - vm_compute in E. inversion E; subst. unfold flags_laid. cbn. auto.
  - exact (C48_collected flags I _ _ _ _ (or_introl eq_refl) Hi (or_introl E)).
Qed.

(** A history: two successful extensions, a reservation, and one that
    the allocator refuses. *)
Definition flag_ops : list (op (cA (coll flags))) :=
  [OpExtend (it_list (firstn 2 flag_lists)); OpReserve 100; OpTryReserve 1000 [None];
   OpTryExtend (it_list (skipn 2 flag_lists)) []].
Definition flags0 : cC (coll flags) := k_default (coll flags).
Definition flags1 := fst (exec (coll flags) flags0 (firstn 1 flag_ops)).
Definition flags2 := fst (exec (coll flags) flags0 (firstn 2 flag_ops)).
Definition flags3 := fst (exec (coll flags) flags0 (firstn 3 flag_ops)).
Definition flags4 := fst (exec (coll flags) flags0 flag_ops).
Example C48_history_case :
  runs flags flags0 flag_ops [ODone; ODone; OErr; ODone] flags4 /\
  Forall2 appends flag_ops [ODone; ODone; OErr; ODone] /\
  flags_laid flags4 /\ laid flags flags4 flag_lists.
Proof.
  assert (Hr : runs flags flags0 flag_ops [ODone; ODone; OErr; ODone] flags4).
  { apply runs_cons with (c1 := flags1); [|vm_compute; reflexivity|discriminate|discriminate|].
    { repeat (constructor; [cbn; repeat constructor|]). constructor. }
    apply runs_cons with (c1 := flags2); [constructor|vm_compute; reflexivity|discriminate|discriminate|].
    apply runs_cons with (c1 := flags3); [constructor|vm_compute; reflexivity|discriminate|discriminate|].
    apply runs_cons with (c1 := flags4); [|vm_compute; reflexivity|discriminate|discriminate|constructor].
    repeat (constructor; [cbn; repeat constructor|]). constructor. }
  assert (Ha : Forall2 appends flag_ops [ODone; ODone; OErr; ODone]).
  { repeat (constructor; [cbn; auto|]). constructor. }
  split; [exact Hr|]. split; [exact Ha|]. split; [repeat split; vm_compute; reflexivity|].
  exact (proj1 (C48_histories flags I _ [] _ _ _ (built_default flags) (proj1 (C48_empty flags I)) Hr Ha)).
Qed.
