(** * What errors and Debug output say: C63 and C64 *)
From Coq Require Import List NArith ZArith Arith Bool String.
From Verif Require Import Base Iter Spec VecModel BitmapModel CollModel ValidityModel FlattenModel
  OffsetsModel LayoutModel FfiModel CloneModel Reach SpecFfi SpecBytes TextModel SpecText FactsText.
Import ListNotations.
Open Scope list_scope.

(** ** C63: messages tell errors apart and state their numbers *)

Theorem C63_equal_messages_equal_errors :
  (forall e e', bitmap_message e = bitmap_message e' -> e = e') /\
  (forall e e', validity_message e = validity_message e' -> e = e') /\
  (forall e e', flatten_message e = flatten_message e' -> e = e') /\
  (forall e e', offsets_message e = offsets_message e' -> e = e') /\
  (forall e e', export_message e = export_message e' -> e = e') /\
  (forall e e', import_message e = import_message e' -> e = e').
Proof.
  exact (conj bitmap_message_inj (conj validity_message_inj (conj flatten_message_inj
    (conj offsets_message_inj (conj export_message_inj import_message_inj))))).
Qed.
Print Assumptions C63_equal_messages_equal_errors.

(** Who looks up the name of a number in the message finds the number behind it. *)
Theorem C63_messages_state_the_numbers :
  (forall e, Forall (fun p => said (fst p) (bitmap_message e) = Some (snd p)) (bitmap_numbers e)) /\
  (forall n m, said "collection length (" (validity_message (n, m)) = Some (Z.of_nat n) /\
    said "bitmap length (" (validity_message (n, m)) = Some (Z.of_nat m)) /\
  (forall e, Forall (fun p => said (fst p) (flatten_message e) = Some (snd p)) (flatten_numbers e)) /\
  (forall e, Forall (fun p => said (fst p) (offsets_message e) = Some (snd p)) (offsets_numbers e)) /\
  (forall o, said "offset (" (export_message o) = Some (Z.of_N o)) /\
  (forall e, Forall (fun p => said (fst p) (import_message e) = Some (snd p)) (import_numbers e)).
Proof.
  exact (conj bitmap_says (conj validity_said (conj flatten_says (conj offsets_says
    (conj export_says import_says))))).
Qed.
Print Assumptions C63_messages_state_the_numbers.

(** The message of an error that has a source ends with that of the source. *)
Theorem C63_source :
  forall e x, import_source e = Some x ->
  e = InvalidOffsets x /\ exists before, import_message e = before ++ offsets_message x.
Proof. exact import_source_says. Qed.
Print Assumptions C63_source.

Example C63_case :
  import_message (FixedSizeListLengthMismatch 5 9 2) =
    spelled "fixed-size-list length (5) with width (2) does not match child length (9)" /\
  import_message (NullCountMismatch (-1) 20) =
    spelled "Arrow array null count (-1) does not match validity bitmap (20)" /\
  import_message (InvalidOffsets (OffNonMonotonic 120)) =
    spelled "invalid Arrow offsets: offset at index 120 is not monotonically increasing" /\
  bitmap_message (OutOfBounds 4 30 4) =
    spelled "offset (4) + bits (30) exceeds buffer capacity (4 bytes)" /\
  flatten_message (NotMultiple 10 3) = spelled "child length (10) is not a multiple of N (3)" /\
  said "width (" (spelled "fixed-size-list length (5) with width (2) does not match child length (9)") = Some 2%Z.
Proof. vm_compute. repeat split. Qed.

(** ** C64: Debug output tells what is in the buffers *)

Theorem C64_debug_determines_the_buffers :
  forall t, printable t = true -> forall c c',
  typed (shape_of t) c -> typed (shape_of t) c' ->
  (debug_array t c = debug_array t c' <-> image_of (shape_of t) c = image_of (shape_of t) c').
Proof. exact debug_determines. Qed.
Print Assumptions C64_debug_determines_the_buffers.

(** A clone prints as what it was cloned from. *)
Theorem C64_clones_print_alike :
  forall t, clonable (shape_of t) = true -> forall c,
  debug_array t (clone (shape_of t) c) = debug_array t c.
Proof. exact clone_debug. Qed.
Print Assumptions C64_clones_print_alike.

(** Views of a list print their range. *)
Theorem C64_views_print_their_range :
  forall C (v w : offview C),
  debug_offset_view v = debug_offset_view w <-> ov_start v = ov_start w /\ ov_end v = ov_end w.
Proof. exact view_determines. Qed.
Print Assumptions C64_views_print_their_range.

(** Who looks up the name of a field finds what it holds. *)
Theorem C64_bitmaps_state_their_fields :
  forall b,
  listed "buffer: " (debug_bitmap b) = Some (map Z.of_N (v_items (bm_buf b))) /\
  said "bits: " (debug_bitmap b) = Some (Z.of_nat (bm_bits b)) /\
  said "offset: " (debug_bitmap b) = Some (Z.of_nat (bm_off b)).
Proof. exact bitmap_states. Qed.
Print Assumptions C64_bitmaps_state_their_fields.

Theorem C64_integers_are_listed :
  forall p, is_integer p = true ->
  (forall v : vec N, typed (SVec p) v ->
    listed "FixedSizePrimitive(" (debug_array (TPrim p false) v) = Some (map (integer p) (v_items v))) /\
  (forall v : validity (vec N), typed (SNull (SVec p)) v ->
    listed "collection: " (debug_array (TPrim p true) v) =
      Some (map (integer p) (v_items (va_coll v)))).
Proof. exact (fun p P => conj (values_stated p P) (null_values_stated p P)). Qed.
Print Assumptions C64_integers_are_listed.

Theorem C64_offsets_are_listed :
  forall C (show : C -> list N) (o : offsets C),
  exists rest, debug_offsets show o = spelled "Offset { data: " ++ show (of_data o) ++ rest /\
  listed ", offsets: " rest = Some (v_items (of_offs o)).
Proof. exact offsets_stated. Qed.
Print Assumptions C64_offsets_are_listed.

Theorem C64_views_state_their_range :
  forall C (v : offview C),
  said "offset: " (debug_offset_view v) = Some (Z.of_N (ov_start v)) /\
  said ".." (debug_offset_view v) = Some (Z.of_N (ov_end v)).
Proof. exact view_states. Qed.
Print Assumptions C64_views_state_their_range.

Example C64_integers_case :
  typed (SNull (SVec S16)) (Validity (Vec [65535; 0; 32768; 32767]%N 4) None) /\
  debug_array (TPrim S16 true) (Validity (Vec [65535; 0; 32768; 32767]%N 4) None) =
    spelled "Array(FixedSizePrimitive(Validity { collection: [-1, 0, -32768, 32767], bitmap: None }))" /\
  map (integer S16) [65535; 0; 32768; 32767]%N = [-1; 0; -32768; 32767]%Z.
Proof. vm_compute. repeat first [split|constructor]. Qed.

(** Two ways to the same buffers with different capacities, and buffers that differ
    in a bit that is not read. *)
Definition optional_lists : ty := TVsl I32 (TPrim S16 true) false.
Definition two_items : list (cA (layout optional_lists)) := [[Some 65535%N; None]; [Some 7%N]].
Definition one_way : cC (layout optional_lists) :=
  fst (fst (k_extend (layout optional_lists) (k_default _) (it_list two_items))).
Definition other_way : cC (layout optional_lists) :=
  fst (k_reserve (layout optional_lists) one_way 50).
Example C64_case :
  printable optional_lists = true /\
  typed (shape_of optional_lists) one_way /\ typed (shape_of optional_lists) other_way /\
  one_way <> other_way /\
  image_of (shape_of optional_lists) one_way = image_of (shape_of optional_lists) other_way /\
  debug_array optional_lists one_way =
    spelled "Array(VariableSizeList(Offset { data: FixedSizePrimitive(Validity { collection: [-1, 0, 7], bitmap: Some(Bitmap { buffer: [5], bits: 3, offset: 0 }) }), offsets: [0, 2, 3] }))" /\
  debug_array (TBool false) (Bitmap (Vec [5%N] 1) 2 0) <> debug_array (TBool false) (Bitmap (Vec [1%N] 1) 2 0).
Proof.
  split; [reflexivity|]. split; [vm_compute; repeat first [split|constructor|reflexivity]|].
  split; [vm_compute; repeat first [split|constructor|reflexivity]|].
  split; [vm_compute; discriminate|]. split; [vm_compute; reflexivity|]. split; [vm_compute; reflexivity|].
  vm_compute. discriminate.
Qed.
