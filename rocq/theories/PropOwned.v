(** * Lists handed over and back as collections: C46

    [Offsets<T, OffsetItem, Storage, U>] takes and returns lists as collections of
    type [U]. [s] is the shape of [T], [u] that of [U]; [into] and [back] stand for
    the identity between their items, which have one type in Rust. [as_lists],
    [collects], [hands_out] and [yields_built] are in SpecOwned.v. *)
From Coq Require Import List NArith ZArith Bool Arith.
From Verif Require Import Base Iter Spec VecModel BitmapModel CollModel ValidityModel FlattenModel
  OffsetsModel LayoutModel Reach OwnedListModel SpecOwned ReachLemmas CoreLemmas FactsOwned
  PropBitmap.
Import ListNotations.

(** What is stored does not depend on [U]: writing collections does what writing
    the lists of their items does (C16, C17, C29), outcome and consumed input
    included. *)
Theorem C46_writing_as_lists :
  forall K U k (into : cA U -> cA K) R (it : iter (cC U) R) it', as_lists into it it' ->
  (forall o, ou_extend K U k into o it = of_extend K k o it') /\
  (forall o w, ou_try_extend K U k into o it w = of_try_extend K k o it' w) /\
  ou_from_iter K U k into it = of_from_iter K k it' /\
  ou_from_iter_in K U k into it = of_from_iter_in K k it' /\
  (forall w, ou_try_from_iter K U k into it w = of_try_from_iter K k it' w).
Proof. exact writing_as_lists. Qed.
Print Assumptions C46_writing_as_lists.

(** Every iterator of collections has such an iterator of lists. *)
Theorem C46_seen_as_lists :
  forall u s, widths_pos u -> forall R (into : cA (coll u) -> cA (coll s))
    (it : iter (cC (coll u)) R),
  yields_built u it -> exists it', as_lists into it it'.
Proof. exact seen_as_lists. Qed.
Print Assumptions C46_seen_as_lists.

(** Reading one row, however it came about. *)
Theorem C46_owned_row :
  forall s u, widths_pos s -> widths_pos u -> forall k (back : cA (coll s) -> cA (coll u)),
  (forall x, item_ok s x -> item_ok u (back x)) -> forall c rows i row,
  built (SList k s) c -> shows (offsets_coll (coll s) k) c rows -> nth_error rows i = Some row ->
  exists v, of_view (coll s) c (N.of_nat i) = Ret (Some v) /\
    collects u (map back row) (ou_own (coll s) (coll u) back v).
Proof. exact owned_row. Qed.
Print Assumptions C46_owned_row.

(** The owning iterator. *)
Theorem C46_owned_rows :
  forall s u, widths_pos s -> widths_pos u -> forall k (back : cA (coll s) -> cA (coll u)),
  (forall x, item_ok s x -> item_ok u (back x)) -> forall c rows,
  built (SList k s) c -> shows (offsets_coll (coll s) k) c rows ->
  exists st, of_into (coll s) c = Ret st /\
    hands_out u (ou_onext (coll s) (coll u) back) (of_ohint (coll s)) st (map (map back) rows).
Proof. exact owned_rows. Qed.
Print Assumptions C46_owned_rows.

(** Both together: collections that show the same items come back. *)
Theorem C46_round_trip :
  forall s u, widths_pos s -> widths_pos u -> forall k
    (into : cA (coll u) -> cA (coll s)) (back : cA (coll s) -> cA (coll u)),
  (forall y, back (into y) = y) -> (forall y, item_ok u y -> item_ok s (into y)) ->
  (forall x, item_ok s x -> item_ok u (back x)) ->
  forall R (it : iter (cC (coll u)) R) c, yields_built u it ->
  (exists r, ou_from_iter (coll s) (coll u) k into it = (BOk c, r)) \/
  (exists r, ou_from_iter_in (coll s) (coll u) k into it = (BOk c, r)) \/
  (exists w r w', ou_try_from_iter (coll s) (coll u) k into it w = (BOk c, r, w')) ->
  fin_of it = FStop /\ of_len (coll s) c = Ret (length (items_of it)) /\
  (forall i x ys, nth_error (items_of it) i = Some x -> shows (coll u) x ys ->
     exists v, of_view (coll s) c (N.of_nat i) = Ret (Some v) /\
       collects u ys (ou_own (coll s) (coll u) back v)) /\
  exists st yss, of_into (coll s) c = Ret st /\ Forall2 (shows (coll u)) (items_of it) yss /\
    hands_out u (ou_onext (coll s) (coll u) back) (of_ohint (coll s)) st yss.
Proof. exact round_trip. Qed.
Print Assumptions C46_round_trip.

(** Offsets<Bitmap, i32, VecBuffer, Bitmap>: a bitmap that starts in the middle of a
    byte and an empty one. What comes back starts at the first bit of a byte. *)
Definition sliced : bitmap := Bitmap (Vec [181; 3]%N 2) 9 3.
Lemma sliced_built : built SBits sliced.
Proof.
  apply (built_bits_parts (Vec [181; 3]%N 2) 9 3); [split; vm_compute; congruence|reflexivity].
Qed.
Definition two_bitmaps : iter bitmap unit := it_list [sliced; bm_default].
Definition two_rows : offsets bitmap :=
  Eval vm_compute in
  match fst (ou_from_iter (coll SBits) (coll SBits) I32 (fun b => b) two_bitmaps) with
  | BOk c => c
  | _ => Offsets bm_default (Vec [] 0)
  end.
Example C46_case :
  yields_built SBits two_bitmaps /\
  ou_from_iter (coll SBits) (coll SBits) I32 (fun b => b) two_bitmaps = (BOk two_rows, tt) /\
  v_items (of_offs two_rows) = [0; 9; 9]%Z /\
  v_items (bm_buf (of_data two_rows)) = [118; 0]%N /\
  exists v b, of_view (coll SBits) two_rows 0 = Ret (Some v) /\
    ou_own (coll SBits) (coll SBits) (fun b => b) v = BOk b /\
    v_items (bm_buf b) = [118; 0]%N /\ bm_off b = 0 /\ bm_bits b = 9.
Proof.
  split.
  { constructor; [exact sliced_built|]. constructor; [exact (built_default SBits)|constructor]. }
  split; [vm_compute; reflexivity|]. split; [reflexivity|]. split; [reflexivity|].
  eexists. eexists. split; [vm_compute; reflexivity|]. split; [vm_compute; reflexivity|].
  repeat split.
Qed.

(** Offsets<Validity<Bitmap>, i64, VecBuffer, Vec<Option<bool>>>: nullable booleans
    handed over as vectors. *)
Definition vec_shape : shape := SAny (option bool) None 1.
Definition two_vecs : iter (vec (option bool)) unit :=
  it_list [Vec [Some true; None; Some false] 3; Vec [] 0; Vec [None] 4].
Lemma two_vecs_built : yields_built vec_shape two_vecs.
Proof.
  assert (G : forall v : vec (option bool), vec_fits 1 v -> built vec_shape v)
    by (intros v Hv; apply (built_any (option bool) None 1); exact Hv).
  constructor; [apply G; split; vm_compute; congruence|].
  constructor; [apply G; split; vm_compute; congruence|].
  constructor; [apply G; split; vm_compute; congruence|constructor].
Qed.
Definition vec_rows : offsets (validity bitmap) :=
  Eval vm_compute in
  match fst (ou_from_iter (coll (SNull SBits)) (coll vec_shape) I64 (fun b => b) two_vecs) with
  | BOk c => c
  | _ => Offsets (Validity bm_default None) (Vec [] 0)
  end.
Example C46_vec_case :
  yields_built vec_shape two_vecs /\
  ou_from_iter (coll (SNull SBits)) (coll vec_shape) I64 (fun b => b) two_vecs = (BOk vec_rows, tt) /\
  v_items (of_offs vec_rows) = [0; 3; 3; 4]%Z /\
  v_items (bm_buf (va_coll (of_data vec_rows))) = [1]%N /\
  option_map (fun b => v_items (bm_buf b)) (va_bm (of_data vec_rows)) = Some [5]%N /\
  exists v x, of_view (coll (SNull SBits)) vec_rows 0 = Ret (Some v) /\
    ou_own (coll (SNull SBits)) (coll vec_shape) (fun b => b) v = BOk x /\
    v_items x = [Some true; None; Some false].
Proof.
  split; [exact two_vecs_built|]. split; [vm_compute; reflexivity|]. split; [reflexivity|].
  split; [reflexivity|]. split; [reflexivity|].
  eexists. eexists. split; [vm_compute; reflexivity|]. split; [vm_compute; reflexivity|]. reflexivity.
Qed.
