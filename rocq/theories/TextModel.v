(** * Messages of errors and Debug output

    Text is its bytes. Only the plain forms [{}] and [{:?}] are modelled, not the
    pretty-printed [{:#?}] or widths. What an element prints is the standard library's;
    floating point numbers are left out. *)
From Coq Require Import List NArith ZArith Bool Arith Ascii String.
From Verif Require Import Base VecModel BitmapModel CollModel ValidityModel FlattenModel
  OffsetsModel LayoutModel FfiModel.
Import ListNotations.

Definition text : Type := list N.
Definition lit (s : string) : text := List.map N_of_ascii (list_ascii_of_string s).

(** [{}] and [{:?}] of an integer. *)
Definition digits (n : N) : text := decimal_digits (S (N.size_nat n)) n [].
Definition number (z : Z) : text :=
  match z with Zneg p => 45%N :: digits (N.pos p) | _ => digits (Z.to_N z) end.
Definition count (n : nat) : text := digits (N.of_nat n).

(** ** Messages *)

(** src/bitmap/mod.rs:60-73 *)
Definition bitmap_message (e : bitmap_error) : text :=
  match e with
  | OutOfBounds offset bits bytes =>
      lit "offset (" ++ digits offset ++ lit ") + bits (" ++ digits bits ++
      lit ") exceeds buffer capacity (" ++ digits bytes ++ lit " bytes)"
  end.
(** src/validity.rs:79-88; the error is the two lengths. *)
Definition validity_message (e : nat * nat) : text :=
  lit "collection length (" ++ count (fst e) ++ lit ") does not match bitmap length (" ++
  count (snd e) ++ lit ")".
(** src/collection/flatten.rs:64-73 *)
Definition flatten_message (e : flatten_error) : text :=
  match e with
  | ZeroChunkSize => lit "chunk size N must be non-zero"
  | NotMultiple len n =>
      lit "child length (" ++ count len ++ lit ") is not a multiple of N (" ++ count n ++ lit ")"
  end.
(** src/offset.rs:184-201 *)
Definition offsets_message (e : offsets_error) : text :=
  match e with
  | OffEmpty => lit "offsets buffer must contain at least one offset"
  | OffNonZeroFirst first => lit "first offset (" ++ digits first ++ lit ") is not zero"
  | OffNegative index => lit "offset at index " ++ count index ++ lit " is negative"
  | OffNonMonotonic index =>
      lit "offset at index " ++ count index ++ lit " is not monotonically increasing"
  | OffOutOfBounds last data =>
      lit "last offset (" ++ digits last ++ lit ") exceeds the length of the data (" ++
      count data ++ lit ")"
  end.
(** narrow-ffi/src/export/mod.rs:78-86; the error is the offset. *)
Definition export_message (offset : N) : text :=
  lit "array offset (" ++ digits offset ++ lit ") is not supported".
(** narrow-ffi/src/import/mod.rs:373-442 *)
Definition import_message (e : import_error) : text :=
  match e with
  | ReleasedArray => lit "Arrow array is already released"
  | ReleasedSchema => lit "Arrow schema is already released"
  | MissingFormat => lit "Arrow schema format is missing"
  | UnexpectedFormat => lit "Arrow schema format does not match"
  | UnexpectedFlags flags =>
      lit "Arrow schema nullable flag in flags (" ++ number flags ++ lit ") does not match"
  | InvalidLength length => lit "Arrow array length (" ++ number length ++ lit ") is invalid"
  | NonZeroOffset offset => lit "Arrow array offset (" ++ number offset ++ lit ") is not supported"
  | UnexpectedNullCount null_count =>
      lit "Arrow array null count (" ++ number null_count ++
      lit ") does not match the imported layout"
  | MissingValidityBuffer => lit "nullable Arrow array validity buffer is missing"
  | NullCountMismatch declared actual =>
      lit "Arrow array null count (" ++ number declared ++
      lit ") does not match validity bitmap (" ++ count actual ++ lit ")"
  | UnexpectedBufferCount n => lit "Arrow array buffer count (" ++ number n ++ lit ") does not match"
  | UnexpectedChildCount array schema =>
      lit "Arrow child counts do not match the imported layout: array " ++ number array ++
      lit ", schema " ++ number schema
  | UnexpectedDictionary => lit "Arrow dictionary is not supported for this array"
  | MissingBufferPointers => lit "Arrow buffer pointers are missing"
  | MissingArrayChildren => lit "Arrow array child pointers are missing"
  | MissingSchemaChildren => lit "Arrow schema child pointers are missing"
  | UnsupportedFixedSizeListSize size =>
      lit "fixed-size-list width (" ++ count size ++ lit ") is not supported"
  | FixedSizeListLengthMismatch length child_length size =>
      lit "fixed-size-list length (" ++ digits length ++ lit ") with width (" ++ count size ++
      lit ") does not match child length (" ++ count child_length ++ lit ")"
  | MissingOffsetsBuffer => lit "Arrow offsets buffer is missing"
  | MisalignedOffsetsBuffer alignment =>
      lit "Arrow offsets buffer does not have the required alignment (" ++ digits alignment ++
      lit ")"
  | InvalidOffsets error => lit "invalid Arrow offsets: " ++ offsets_message error
  | MissingValuesBuffer => lit "Arrow value buffer is missing"
  | MisalignedValuesBuffer alignment =>
      lit "Arrow value buffer does not have the required alignment (" ++ digits alignment ++ lit ")"
  end.
(** narrow-ffi/src/import/mod.rs:444-451 source *)
Definition import_source (e : import_error) : option offsets_error :=
  match e with InvalidOffsets error => Some error | _ => None end.

(** ** Debug *)

(** [debug_tuple] with one field, [debug_struct] with the given fields *)
Definition debug_tuple (name : string) (field : text) : text :=
  lit name ++ lit "(" ++ field ++ lit ")".
Fixpoint debug_fields (fields : list (string * text)) : text :=
  match fields with
  | [] => []
  | [(n, f)] => lit n ++ lit ": " ++ f
  | (n, f) :: rest => lit n ++ lit ": " ++ f ++ lit ", " ++ debug_fields rest
  end.
Definition debug_struct (name : string) (fields : list (string * text)) : text :=
  lit name ++ lit " { " ++ debug_fields fields ++ lit " }".
(** [debug_list], used by [Vec] and arrays *)
Fixpoint debug_rest {A} (show : A -> text) (l : list A) : text :=
  match l with [] => lit "]" | x :: r => lit ", " ++ show x ++ debug_rest show r end.
Definition debug_list {A} (show : A -> text) (l : list A) : text :=
  match l with [] => lit "[]" | x :: r => lit "[" ++ show x ++ debug_rest show r end.
Definition debug_option (o : option text) : text :=
  match o with Some t => debug_tuple "Some" t | None => lit "None" end.

(** A value of [bytes] bytes as a signed integer *)
Definition as_signed (bytes x : N) : Z :=
  if (x <? 2 ^ (8 * bytes - 1))%N then Z.of_N x else (Z.of_N x - Z.of_N (2 ^ (8 * bytes)))%Z.
(** The [n] values of [bytes] bytes that a value consists of, the first in the low bytes *)
Fixpoint split_value (bytes : N) (n : nat) (x : N) : list N :=
  match n with
  | O => []
  | S n => (x mod 256 ^ bytes)%N :: split_value bytes n (x / 256 ^ bytes)%N
  end.
(** Values; src/fixed_size.rs:60 derives Debug of FixedSizeArray. *)
Fixpoint debug_value (p : prim) (x : N) : text :=
  match p with
  | U8 | U16 | U32 | U64 | U128 | Usize => digits x
  | S8 | S16 | S32 | S64 | S128 | Ssize => number (as_signed (psz p) x)
  | F32 | F64 => []
  | PArr q n =>
      debug_tuple "FixedSizeArray" (debug_list (debug_value q) (split_value (psz q) (Pos.to_nat n) x))
  end.

(** src/bitmap/mod.rs:124-132 *)
Definition debug_bitmap (b : bitmap) : text :=
  debug_struct "Bitmap"
    [("buffer", debug_list digits (v_items (bm_buf b))); ("bits", count (bm_bits b));
     ("offset", count (bm_off b))]%string.
(** src/validity.rs:185-195; a collection without validity is the collection itself. *)
Definition debug_nulls (nl : bool) (s : shape) (show : cC (coll s) -> text)
  : cC (coll (nulls nl s)) -> text :=
  match nl return cC (coll (nulls nl s)) -> text with
  | true => fun v : validity (cC (coll s)) =>
      debug_struct "Validity"
        [("collection", show (va_coll v)); ("bitmap", debug_option (option_map debug_bitmap (va_bm v)))]%string
  | false => fun c => show c
  end.
(** src/collection/flatten.rs:32 derives Debug. *)
Definition debug_flatten {C} (show : C -> text) (c : C) : text := debug_tuple "Flatten" (show c).
(** src/offset.rs:295-304 *)
Definition debug_offsets {C} (show : C -> text) (o : offsets C) : text :=
  debug_struct "Offset"
    [("data", show (of_data o)); ("offsets", debug_list number (v_items (of_offs o)))]%string.

(** src/layout/boolean.rs:84-91, fixed_size_primitive.rs:85-93, fixed_size_list.rs:92-100,
    variable_size_list.rs:95-103 *)
Fixpoint debug_memory (t : ty) : cC (layout t) -> text :=
  match t return cC (layout t) -> text with
  | TBool nl => fun c => debug_tuple "Boolean" (debug_nulls nl SBits debug_bitmap c)
  | TPrim p nl => fun c =>
      debug_tuple "FixedSizePrimitive"
        (debug_nulls nl (SVec p) (fun v : vec N => debug_list (debug_value p) (v_items v)) c)
  | TFsl n t nl => fun c =>
      debug_tuple "FixedSizeList"
        (debug_nulls nl (SFixed n (shape_of t)) (debug_flatten (debug_memory t)) c)
  | TVsl k t nl => fun c =>
      debug_tuple "VariableSizeList"
        (debug_nulls nl (SList k (shape_of t)) (debug_offsets (debug_memory t)) c)
  end.
(** src/array.rs:89-96 *)
Definition debug_array (t : ty) (c : cC (layout t)) : text := debug_tuple "Array" (debug_memory t c).

(** src/offset.rs:639-647: the range of a view, without the collection *)
Definition debug_offset_view {C} (v : offview C) : text :=
  lit "OffsetView { offset: " ++ digits (ov_start v) ++ lit ".." ++ digits (ov_end v) ++ lit ", .. }".
