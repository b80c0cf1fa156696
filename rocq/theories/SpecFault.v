(** * What the errors of an import say

    [fault t a s e]: the error [e] is true of the array/schema pair, or of one of
    the child pairs. ImportError, narrow-ffi/src/import/mod.rs:281-371. *)
From Coq Require Import List NArith ZArith Bool Arith.
From Verif Require Import Base Iter VecModel BitmapModel CollModel ValidityModel FlattenModel
  OffsetsModel LayoutModel Spec SpecTables SpecParts Reach FfiModel SpecFfi.
Import ListNotations.

(** The number of buffers and children of the Arrow layouts. *)
Definition layout_buffers (t : ty) : Z := match t with TFsl _ _ _ => 1 | _ => 2 end.
Definition layout_children (t : ty) : Z :=
  match t with TBool _ | TPrim _ _ => 0 | TFsl _ _ _ | TVsl _ _ _ => 1 end.
(** The width of the elements of the second buffer. *)
Definition values_of (t : ty) (w : N) : Prop :=
  match t with TPrim p _ => w = value_bytes p | _ => False end.
Definition offsets_of (t : ty) (w : N) : Prop :=
  match t with TVsl k _ _ => w = offset_bytes k | _ => False end.
Definition misaligned (a : carray) (w : N) : Prop :=
  exists b, buffer a 1 = Some b /\ (cb_addr b mod w <> 0)%N.
(** The number of clear bits among the first [a_length] of the validity buffer;
    without a buffer no item is null. *)
Definition actual_nulls (a : carray) : nat :=
  match buffer a 0 with
  | Some b => count_zeros (firstn (Z.to_nat (a_length a)) (bits_of (cb_data b)))
  | None => 0
  end.

Definition fault_here (t : ty) (a : carray) (s : cschema) (e : import_error) : Prop :=
  match e with
  | ReleasedArray => a_live a = false
  | ReleasedSchema => s_live s = false
  | MissingFormat => s_format s = None
  | UnexpectedFormat => exists f, s_format s = Some f /\ ~ format_for t f
  | UnexpectedFlags f => f = s_flags s /\ Z.testbit f 1 = negb (nullable t)
  (* l is of type i64, so that it is negative *)
  | InvalidLength l => l = a_length a /\ ~ (0 <= l < 18446744073709551615)%Z
  | NonZeroOffset o => o = a_offset a /\ o <> 0%Z
  | UnexpectedNullCount c => c = a_null_count a /\
      (c < -1 \/ a_length a < c \/ nullable t = false /\ 0 < c)%Z
  | MissingValidityBuffer => nullable t = true /\ buffer a 0 = None /\
      a_length a <> 0%Z /\ a_null_count a <> 0%Z
  | NullCountMismatch declared actual => nullable t = true /\ declared = a_null_count a /\
      (0 <= declared)%Z /\ actual = actual_nulls a /\ declared <> Z.of_nat actual
  | UnexpectedBufferCount n => n = a_n_buffers a /\ n <> layout_buffers t
  | UnexpectedChildCount n m => n = a_n_children a /\ m = s_n_children s /\
      (n <> layout_children t \/ m <> layout_children t)
  | UnexpectedDictionary => a_dictionary a <> None \/ s_dictionary s <> None
  | MissingBufferPointers => a_buffers a = None
  | MissingArrayChildren => layout_children t = 1%Z /\ child a = None
  | MissingSchemaChildren => layout_children t = 1%Z /\ schema_child s = None
  | UnsupportedFixedSizeListSize n =>
      match t with TFsl m _ _ => n = m /\ n = 0 | _ => False end
  | FixedSizeListLengthMismatch l cl n =>
      match t with
      | TFsl m _ _ => n = m /\ a_length a = Z.of_N l /\
          exists ca, child a = Some ca /\ a_length ca = Z.of_nat cl /\
            Z.of_nat cl <> (Z.of_N l * Z.of_nat n)%Z
      | _ => False
      end
  | MissingOffsetsBuffer => (exists w, offsets_of t w) /\ buffer a 1 = None
  | MisalignedOffsetsBuffer w => offsets_of t w /\ misaligned a w
  | InvalidOffsets e =>
      match t with
      | TVsl k _ _ => exists ca b zs, child a = Some ca /\ buffer a 1 = Some b /\
          Z.of_nat (length zs) = (a_length a + 1)%Z /\
          (forall i z, nth_error zs i = Some z -> offset_at k b i z) /\
          offsets_fault zs (Z.to_nat (a_length ca)) e
      | _ => False
      end
  | MissingValuesBuffer => layout_children t = 0%Z /\ buffer a 1 = None /\ a_length a <> 0%Z
  | MisalignedValuesBuffer w => values_of t w /\ misaligned a w /\ a_length a <> 0%Z
  end.

Fixpoint fault (t : ty) (a : carray) (s : cschema) (e : import_error) {struct t} : Prop :=
  fault_here t a s e \/
  match t with
  | TBool _ | TPrim _ _ => False
  | TFsl _ t _ | TVsl _ t _ =>
      exists ca cs, child a = Some ca /\ schema_child s = Some cs /\ fault t ca cs e
  end.
