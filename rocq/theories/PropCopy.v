(** * Arrays collected from arrays: C52

    [copy s v in_ c] collects a new array from the items of [c], which is read by
    value with its buffers in any storage or through views; [append s v dst src]
    extends [dst] by the items of [src]. *)
From Coq Require Import List NArith ZArith Bool Arith Lia.
From Verif Require Import Base Iter Spec SpecTables VecModel BitmapModel CollModel ValidityModel
  FlattenModel OffsetsModel LayoutModel Reach CoreLemmas SpecLive SpecLaid SpecBytes FfiModel SpecFfi
  SpecWire StorageModel CopyModel FactsCopy PropFfi PropWire PropBytes.
Import ListNotations.

(** ** C52: copying an array normalises it *)

(** As input, an array is the list of its items, with exact hints. *)
Theorem C52_source : forall s (v : reading s) c xs,
  shows (coll s) c xs -> source s v c = Ret (it_list xs).
Proof. exact source_list. Qed.
Print Assumptions C52_source.

(** Wherever the buffers of [c] came from, those of the copy are the ones that the
    Arrow format prescribes for its items. *)
Theorem C52_copy : forall s, widths_pos s -> forall (v : reading s) in_ c xs,
  built s c -> shows (coll s) c xs ->
  match copy s v in_ c with
  | BOk c' => laid s c' xs /\ built s c' /\ shows (coll s) c' xs
  | BErr => False
  | _ => True
  end /\
  ((total (cost s) xs <= limit s)%N -> exists c', copy s v in_ c = BOk c').
Proof. exact copy_spec. Qed.
Print Assumptions C52_copy.

Theorem C52_try_copy : forall s, widths_pos s -> forall (v : reading s) c xs w,
  built s c -> shows (coll s) c xs ->
  match fst (try_copy s v c w) with
  | BOk c' => laid s c' xs /\ built s c' /\ shows (coll s) c' xs
  | BErr => True
  | _ => False
  end /\
  (grants w -> (total (cost s) xs <= limit s)%N -> exists c', fst (try_copy s v c w) = BOk c').
Proof. exact try_copy_spec. Qed.
Print Assumptions C52_try_copy.

(** Copies of arrays of the same items have the same bytes, whatever the arrays
    looked like. *)
Theorem C52_same : forall s, widths_pos s -> forall (v1 v2 : reading s) in1 in2 c1 c2 xs c1' c2',
  built s c1 -> built s c2 -> shows (coll s) c1 xs -> shows (coll s) c2 xs ->
  copy s v1 in1 c1 = BOk c1' -> copy s v2 in2 c2 = BOk c2' -> same_bytes s c1' c2'.
Proof. exact copies_same. Qed.
Print Assumptions C52_same.

Theorem C52_append : forall s, widths_pos s -> forall (v : reading s) dst src xs ys c o,
  built s dst -> shows (coll s) dst xs -> built s src -> shows (coll s) src ys ->
  append s v dst src = (c, o) ->
  (o = ODone ->
     shows (coll s) c (xs ++ ys) /\ built s c /\ (laid s dst xs -> laid s c (xs ++ ys))) /\
  o <> OErr /\ (room_for s dst ys -> o = ODone).
Proof. exact append_spec. Qed.
Print Assumptions C52_append.

(** An array is no iterator that panics: a failure is reported and leaves the items. *)
Theorem C52_try_append : forall s, widths_pos s -> forall (v : reading s) dst src xs ys w c o w',
  built s dst -> shows (coll s) dst xs -> built s src -> shows (coll s) src ys ->
  try_append s v dst src w = (c, o, w') ->
  match o with
  | ODone => shows (coll s) c (xs ++ ys) /\ built s c /\ (laid s dst xs -> laid s c (xs ++ ys))
  | OErr => shows (coll s) c xs /\ built s c
  | _ => False
  end.
Proof. exact try_append_spec. Qed.
Print Assumptions C52_try_append.

(** Export refuses bitmaps that begin within a byte. A copy is never refused. *)
Theorem C52_exports : forall t, widths_pos (shape_of t) ->
  forall mem (v : reading (shape_of t)) in_ c xs, arrow_type t -> aligned mem 0 t ->
  built (shape_of t) c -> shows (layout t) c xs -> Forall (item_fits (shape_of t)) xs ->
  (total (cost (shape_of t)) xs <= limit (shape_of t))%N ->
  exists c', copy (shape_of t) v in_ c = BOk c' /\ travels mem t c' xs.
Proof. exact copy_travels. Qed.
Print Assumptions C52_exports.

(** What was imported and copied can be handed on: the next consumer finds the
    items that the first producer stored. *)
Theorem C52_relay : forall t a sc c mem (v : reading (shape_of t)) in_,
  arrow_type t -> readable t a sc -> import t a sc = IOk c -> aligned mem 0 t ->
  exists xs, shows (layout t) c xs /\ Z.of_nat (length xs) = a_length a /\
    (forall i x, nth_error xs i = Some x -> holds t a i x) /\
    ((total (cost (shape_of t)) xs <= limit (shape_of t))%N ->
     exists c', copy (shape_of t) v in_ c = BOk c' /\ travels mem t c' xs).
Proof. exact copy_relays. Qed.
Print Assumptions C52_relay.

(** ** Cases *)

(** The bits of C51 begin at bit 2: they are not exported, their copy is one byte. *)
Example C52_window_case :
  export at_64 (TBool false) window = XErr 2 /\
  shows (coll SBits) window [true; true; true; true; true] /\
  exists c', copy SBits ByViews false window = BOk c' /\ bytes_and_bits c' = ([31]%N, 5, 0) /\
    copy SBits (ByValue (all_shared SBits)) true window = BOk c' /\
    exists a sc, export at_64 (TBool false) c' = XOk (a, sc) /\ bytes_at 1 a = Some [31]%N.
Proof.
  split; [vm_compute; reflexivity|]. split.
  - apply (shows_check SBits I); [exact (proj1 C51_window_case)| |]; vm_compute; reflexivity.
  - eexists. split; [vm_compute; reflexivity|]. split; [reflexivity|]. split; [vm_compute; reflexivity|].
    do 2 eexists. split; vm_compute; reflexivity.
Qed.

(** The array of another producer (C35), with spare bytes everywhere: borrowed,
    copied, handed on. *)
Definition borrowed : reading (shape_of foreign) := ByValue (all_shared _).
Definition relayed : xres (carray * cschema) :=
  Eval vm_compute in
  match import foreign (foreign_array (-1) 3) foreign_schema with
  | IOk c => match copy (shape_of foreign) borrowed false c with
             | BOk c' => export at_64 foreign c'
             | _ => XPnc
             end
  | _ => XPnc
  end.
Example C52_relay_case :
  match relayed with
  | XOk (a, _) =>
      a_null_count a = 0%Z /\
      bytes_at 1 a = Some [0; 0; 0; 0; 1; 0; 0; 0; 3; 0; 0; 0]%N /\
      option_map a_null_count (child a) = Some 1%Z /\
      (match child a with Some ca => bytes_at 0 ca | None => None end) = Some [5]%N /\
      (match child a with Some ca => bytes_at 1 ca | None => None end) =
        Some [255; 255; 0; 0; 2; 1]%N
  | _ => False
  end /\
  readable foreign (foreign_array (-1) 3) foreign_schema /\ aligned at_64 0 foreign.
Proof.
  split; [vm_compute; auto 10|]. split; [|vm_compute; auto].
  destruct C35_case as (_ & H & _). apply H. reflexivity.
Qed.

(** A clone of the bits appended to them. *)
Example C52_append_case :
  built SBits window /\
  (let '(b, o) := append SBits ByViews window window in (bytes_and_bits b, o)) =
    ([255; 15]%N, 10, 2, ODone) /\
  room_for SBits window [true; true; true; true; true].
Proof.
  split; [exact (proj1 C51_window_case)|]. split; [vm_compute; reflexivity|].
  vm_compute. discriminate.
Qed.
