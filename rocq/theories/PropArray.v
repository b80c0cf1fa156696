(** * Arrays of any item type: src/array.rs, src/layout/, src/nullability.rs

    [t] ranges over all item types: booleans, primitives, arrays and vectors of
    item types, each possibly optional. [layout t] is the memory of [Array<T>]. *)
From Coq Require Import List NArith ZArith Bool Arith.
From Verif Require Import Base Iter Spec VecModel BitmapModel CollModel ValidityModel FlattenModel
  OffsetsModel LayoutModel Reach ReachLemmas CoreLemmas FactsArray PropBitmap.
Import ListNotations.

(** Option<Vec<Option<[Option<bool>; 2]>>> *)
Definition deep : ty := TVsl I32 (TFsl 2 (TBool true) true) true.
Definition deep_items : list (cA (layout deep)) :=
  [Some [Some [Some true; None]; None; Some [Some false; Some true]]; None; Some [];
   Some [Some [None; Some true]]].
Lemma deep_ok : widths_pos (shape_of deep).
Proof. exact (conj (Nat.lt_0_succ 1) I). Qed.
Lemma deep_items_ok : Forall (item_ok (shape_of deep)) deep_items.
Proof. repeat constructor. Qed.
(** What collecting them gives. *)
Definition deep_array : cC (layout deep) :=
  match fst (k_from_iter (layout deep) (it_list deep_items)) with
  | BOk c => c
  | _ => k_default (layout deep)
  end.
Lemma deep_built : built (shape_of deep) deep_array.
Proof.
  apply (built_collect (shape_of deep) unit (it_list deep_items) deep_array tt);
    [left; reflexivity|exact deep_items_ok|left; vm_compute; reflexivity].
Qed.
Lemma deep_shows : shows (layout deep) deep_array deep_items.
Proof.
  apply (shows_check (shape_of deep) deep_ok); [exact deep_built| |]; vm_compute; reflexivity.
Qed.

(** ** C09: output iterators *)

Theorem C09_iterators_exact :
  forall s, widths_pos s -> forall c, built s c ->
  exists xs, k_len (coll s) c = Ret (length xs) /\
    (forall i x, nth_error xs i = Some x -> k_owned (coll s) c (N.of_nat i) = Ret (Some x)) /\
    (exists it, k_iter (coll s) c = Ret it /\
       yields (k_inext (coll s)) (k_ihint (coll s)) (k_own (coll s)) it xs) /\
    (exists it, k_into (coll s) c = Ret it /\
       yields (k_onext (coll s)) (k_ohint (coll s)) Ret it xs).
Proof. exact iterators_exact. Qed.
Print Assumptions C09_iterators_exact.

Example C09_case : built (shape_of deep) deep_array /\ k_len (layout deep) deep_array = Ret 4 /\
  exists it it', k_into (layout deep) deep_array = Ret it /\
    k_ohint (layout deep) it = Ret (4%N, Some 4%N) /\
    k_onext (layout deep) it =
      Ret (Some (Some [Some [Some true; None]; None; Some [Some false; Some true]]), it') /\
    k_ohint (layout deep) it' = Ret (3%N, Some 3%N).
Proof.
  split; [exact deep_built|]. split; [vm_compute; reflexivity|]. do 2 eexists.
  split; [vm_compute; reflexivity|]. split; [vm_compute; reflexivity|].
  split; [vm_compute; reflexivity|]. vm_compute; reflexivity.
Qed.

(** ** C24: collecting *)

Theorem C24_collected_items_read_back :
  forall t, widths_pos (shape_of t) -> forall R (it : iter (cA (layout t)) R) res r,
  resumable (shape_of t) = true \/ fused it ->
  Forall (item_ok (shape_of t)) (items_of it) ->
  k_from_iter (layout t) it = (res, r) \/ k_from_iter_in (layout t) it = (res, r) ->
  match res with
  | BOk c => fin_of it = FStop /\ shows (layout t) c (items_of it) /\ built (shape_of t) c
  | BErr => False
  | _ => True
  end /\
  (room_new (shape_of t) it ->
   (announced (it_hint it) * unit_cost (shape_of t) <= limit (shape_of t))%N ->
   match fin_of it with FStop => exists c, res = BOk c | FBoom => res = BPanic end).
Proof. exact array_collected. Qed.
Print Assumptions C24_collected_items_read_back.

(** Iterators that promise no more than they yield need room for their items. *)
Theorem C24_honest_iterators_need_room_for_their_items :
  forall s, widths_pos s -> forall R (it : iter (cA (coll s)) R),
  Forall (item_ok s) (items_of it) -> fused it -> honest it ->
  (forall c, room_in s c it <-> room_for s c (items_of it)) /\
  (room_new s it <-> (total (cost s) (items_of it) <= limit s)%N).
Proof. exact honest_room. Qed.
Print Assumptions C24_honest_iterators_need_room_for_their_items.

Example C24_case :
  widths_pos (shape_of deep) /\ resumable (shape_of deep) = true /\
  Forall (item_ok (shape_of deep)) (items_of (it_list deep_items)) /\
  room_new (shape_of deep) (it_list deep_items) /\
  k_from_iter (layout deep) (it_list deep_items) = (BOk deep_array, tt) /\
  k_owned (layout deep) deep_array 0 =
    Ret (Some (Some [Some [Some true; None]; None; Some [Some false; Some true]])).
Proof.
  split; [exact deep_ok|]. split; [reflexivity|]. split; [exact deep_items_ok|].
  split; [|split; vm_compute; reflexivity].
  apply room_new_list; [exact deep_ok|exact deep_items_ok|vm_compute; discriminate].
Qed.

(** ** C25: fallible extension *)

Theorem C25_try_extend_is_atomic :
  forall t, widths_pos (shape_of t) -> forall R c xs (it : iter (cA (layout t)) R) w c' r o w',
  built (shape_of t) c -> shows (layout t) c xs ->
  Forall (item_ok (shape_of t)) (items_of it) ->
  k_try_extend (layout t) c it w = (c', r, o, w') ->
  match o with
  | ODone => fin_of it = FStop /\ shows (layout t) c' (xs ++ items_of it)
  | OErr => shows (layout t) c' xs
  | OPanic => fin_of it = FBoom
  | OAbort => False
  end.
Proof. exact array_try_extend. Qed.
Print Assumptions C25_try_extend_is_atomic.

(** Refused by the allocator at the third request, when a nested buffer grows. *)
Definition many_items : list (cA (layout deep)) := concat (repeat deep_items 20).
Definition refuse_third : world := repeat (Some 0%N) 2 ++ [None].
Example C25_case :
  built (shape_of deep) deep_array /\ shows (layout deep) deep_array deep_items /\
  (exists c w', k_try_extend (layout deep) deep_array (it_list many_items) refuse_third =
    (c, tt, OErr, w') /\ k_len (layout deep) c = Ret 4) /\
  (exists c w', k_try_extend (layout deep) deep_array (it_list deep_items) [] =
    (c, tt, ODone, w') /\ k_len (layout deep) c = Ret 8).
Proof.
  split; [exact deep_built|]. split; [exact deep_shows|].
  split; do 2 eexists; (split; [vm_compute; reflexivity|vm_compute; reflexivity]).
Qed.

(** ** C26: histories

    [runs] is a history in which no infallible allocation aborts the process
    and panicking extensions are of the kind covered by [panic_safe]; C23 shows
    what goes wrong with the others. *)

Theorem C26_histories_refine_lists :
  forall t, widths_pos (shape_of t) -> forall c xs ps os c',
  built (shape_of t) c -> shows (layout t) c xs -> runs (shape_of t) c ps os c' ->
  exists ys, list_runs xs ps os ys /\ shows (layout t) c' ys.
Proof. exact array_runs. Qed.
Print Assumptions C26_histories_refine_lists.

Theorem C26_executions_refine_lists :
  forall t, widths_pos (shape_of t) -> forall c xs ps c' os,
  built (shape_of t) c -> shows (layout t) c xs ->
  Forall (fun p => Forall (item_ok (shape_of t)) (op_items p)) ps ->
  exec (layout t) c ps = (c', os) -> ~ In OAbort os ->
  panic_safe (shape_of t) false (value_offset (shape_of t) c) = true \/ ~ In OPanic os ->
  exists ys, list_runs xs ps os ys /\ shows (layout t) c' ys.
Proof. exact array_exec. Qed.
Print Assumptions C26_executions_refine_lists.

(** One extension, with what makes it complete. *)
Theorem C26_extend_appends :
  forall t, widths_pos (shape_of t) -> forall R c xs (it : iter (cA (layout t)) R) c' r o,
  built (shape_of t) c -> shows (layout t) c xs -> Forall (item_ok (shape_of t)) (items_of it) ->
  k_extend (layout t) c it = (c', r, o) ->
  (o = ODone -> fin_of it = FStop /\ shows (layout t) c' (xs ++ items_of it)) /\
  o <> OErr /\
  (room_in (shape_of t) c it -> o = match fin_of it with FStop => ODone | FBoom => OPanic end).
Proof. exact array_extend. Qed.
Print Assumptions C26_extend_appends.

Definition deep_history : list (op (cA (layout deep))) :=
  [OpTryExtend (it_list many_items) refuse_third; OpReserve 3; OpTruncate 2;
   OpExtend (it_list deep_items); OpTryReserve 1000 [None]; OpTryExtend (it_list [None]) []].
Example C26_case : exists c,
  built (shape_of deep) deep_array /\ shows (layout deep) deep_array deep_items /\
  exec (layout deep) deep_array deep_history = (c, [OErr; ODone; ODone; ODone; OErr; ODone]) /\
  k_len (layout deep) c = Ret 7.
Proof.
  eexists. split; [exact deep_built|]. split; [exact deep_shows|].
  split; [vm_compute; reflexivity|]. vm_compute; reflexivity.
Qed.
(** A history with a panic, of arrays of four optional words. *)
Definition quads : ty := TFsl 4 (TPrim U32 true) false.
Example C26_panic_case : exists c,
  panic_safe (shape_of quads) false 0 = true /\
  exec (layout quads) (k_default (layout quads))
    [OpExtend (it_list [[Some 1; None; None; Some 4]])%N;
     OpExtend (panicking [[Some 1; None; None; Some 4]; [None; None; None; None]])%N;
     OpExtend (it_list [[Some 5; None; None; Some 9]])%N] = (c, [ODone; OPanic; ODone]) /\
  k_owned (layout quads) c 1 = Ret (Some [Some 5; None; None; Some 9]%N).
Proof.
  eexists. split; [reflexivity|]. split; [vm_compute; reflexivity|]. vm_compute; reflexivity.
Qed.

(** ** C27: reservations and truncation *)

Theorem C27_reserve_keeps_contents :
  forall t, widths_pos (shape_of t) -> forall c xs n c' o,
  built (shape_of t) c -> shows (layout t) c xs -> k_reserve (layout t) c n = (c', o) ->
  shows (layout t) c' xs /\ o <> OErr /\
  ((held (shape_of t) c + n * unit_cost (shape_of t) <= limit (shape_of t))%N -> o = ODone).
Proof. exact array_reserve. Qed.
Print Assumptions C27_reserve_keeps_contents.

Theorem C27_try_reserve_keeps_contents :
  forall t, widths_pos (shape_of t) -> forall c xs n w c' o w',
  built (shape_of t) c -> shows (layout t) c xs -> k_try_reserve (layout t) c n w = (c', o, w') ->
  shows (layout t) c' xs /\ (o = ODone \/ o = OErr).
Proof. exact array_try_reserve. Qed.
Print Assumptions C27_try_reserve_keeps_contents.

Theorem C27_truncate_keeps_a_prefix :
  forall t, widths_pos (shape_of t) -> forall c xs n,
  built (shape_of t) c -> shows (layout t) c xs ->
  exists c', k_truncate (layout t) c n = (c', ODone) /\
    shows (layout t) c' (firstn (N.to_nat n) xs) /\
    ((lenN xs <= n)%N -> shows (layout t) c' xs).
Proof. exact array_truncate. Qed.
Print Assumptions C27_truncate_keeps_a_prefix.

Example C27_case :
  built (shape_of deep) deep_array /\ shows (layout deep) deep_array deep_items /\
  snd (k_reserve (layout deep) deep_array 100) = ODone /\
  snd (k_reserve (layout (TPrim U16 false)) (k_default _) usize_max) = OPanic /\
  snd (fst (k_try_reserve (layout deep) deep_array 1000 [Some 0%N; None])) = OErr /\
  (exists c, k_truncate (layout deep) deep_array 3 = (c, ODone) /\ k_len (layout deep) c = Ret 3) /\
  (exists c, k_truncate (layout deep) deep_array usize_max = (c, ODone) /\
     k_len (layout deep) c = Ret 4).
Proof.
  split; [exact deep_built|]. split; [exact deep_shows|].
  split; [vm_compute; reflexivity|]. split; [vm_compute; reflexivity|].
  split; [vm_compute; reflexivity|].
  split; eexists; (split; [vm_compute; reflexivity|vm_compute; reflexivity]).
Qed.

(** ** C29: fallible construction *)

Theorem C29_try_collected_items_read_back :
  forall t, widths_pos (shape_of t) -> forall R (it : iter (cA (layout t)) R) w res r w',
  resumable_try (shape_of t) = true \/ fused it ->
  Forall (item_ok (shape_of t)) (items_of it) ->
  k_try_from_iter (layout t) it w = (res, r, w') ->
  match res with
  | BOk c => fin_of it = FStop /\ shows (layout t) c (items_of it) /\ built (shape_of t) c
  | BErr => True
  | BPanic => fin_of it = FBoom
  | BAbort => False
  end.
Proof. exact array_try_collected. Qed.
Print Assumptions C29_try_collected_items_read_back.

Theorem C29_empty_constructors :
  forall t, widths_pos (shape_of t) ->
  shows (layout t) (k_default (layout t)) [] /\
  (forall n, match k_with_capacity (layout t) n with
     | BOk c => shows (layout t) c [] | BErr => False | _ => True end /\
     ((n * unit_cost (shape_of t) <= limit (shape_of t))%N ->
      exists c, k_with_capacity (layout t) n = BOk c)) /\
  (forall n w res w', k_try_with_capacity (layout t) n w = (res, w') ->
     match res with BOk c => shows (layout t) c [] | BErr => True | _ => False end).
Proof. exact array_empty. Qed.
Print Assumptions C29_empty_constructors.

(** Nullable and list collections reserve for the upper bound of the size
    hint. With an upper bound above 2^63 construction fails whatever the number
    of items and the answers of the allocator. *)
Theorem C29_upper_bound_refuted :
  forall s, widths_pos s -> forall lo n, (9223372036854775808 < n <= usize_max)%N ->
  (forall R (it : iter (option (cA (coll s))) R) w, it_hint it = (lo, Some n) ->
     (exists r w', k_try_from_iter (validity_coll (coll s)) it w = (BErr, r, w')) /\
     (forall v r, k_from_iter (validity_coll (coll s)) it <> (BOk v, r)) /\
     (forall v r, k_from_iter_in (validity_coll (coll s)) it <> (BOk v, r))) /\
  (forall k R (it : iter (list (cA (coll s))) R) w, it_hint it = (lo, Some n) ->
     exists r w', k_try_from_iter (offsets_coll (coll s) k) it w = (BErr, r, w')).
Proof. exact huge_hint. Qed.
Print Assumptions C29_upper_bound_refuted.

(** One item, an honest size hint and an allocator that always grants. *)
Theorem C29_refuted : exists (it : iter (cA (layout (TPrim U8 true))) unit),
  items_of it = [Some 7%N] /\ fin_of it = FStop /\ it_hint it = (0%N, Some usize_max) /\
  k_try_from_iter (layout (TPrim U8 true)) it [] = (BErr, tt, []).
Proof.
  exists (Iter (Node (0%N, Some usize_max) tt) [(Yield (Some 7%N), Node (0%N, Some 0%N) tt)]).
  repeat split.
Qed.
Print Assumptions C29_refuted.

Example C29_case :
  resumable_try (shape_of deep) = true /\
  (exists c, fst (fst (k_try_from_iter (layout deep) (it_list deep_items) [])) = BOk c /\
     k_len (layout deep) c = Ret 4 /\ k_owned (layout deep) c 1 = Ret (Some None)) /\
  fst (fst (k_try_from_iter (layout deep) (it_list deep_items) refuse_third)) = BErr /\
  fst (k_try_with_capacity (layout deep) 10 [Some 0; None]%N) = BErr.
Proof.
  split; [reflexivity|]. split.
  - eexists. split; [vm_compute; reflexivity|]. split; vm_compute; reflexivity.
  - split; vm_compute; reflexivity.
Qed.
