(** * Item types and their layouts: src/layout/*.rs, src/fixed_size.rs

    Array<T> and the layout structs are newtypes around the collections below
    and delegate every method (layout/boolean.rs, fixed_size_primitive.rs,
    fixed_size_list.rs, variable_size_list.rs, array.rs). *)
From Coq Require Import List NArith ZArith Bool.
From Verif Require Import Base Iter VecModel BitmapModel CollModel
  ValidityModel FlattenModel OffsetsModel.
Import ListNotations.

(** fixed_size.rs:23-38 and 60-86 FixedSizeArray<T, N> ([PArr]); a value is its
    bit pattern. N is positive: items of size zero are not modelled. *)
Inductive prim : Type :=
| U8 | U16 | U32 | U64 | U128 | Usize
| S8 | S16 | S32 | S64 | S128 | Ssize
| F32 | F64
| PArr (p : prim) (n : positive).
Fixpoint psz (p : prim) : N :=
  match p with
  | U8 | S8 => 1
  | U16 | S16 => 2
  | U32 | S32 | F32 => 4
  | U64 | S64 | F64 | Usize | Ssize => 8
  | U128 | S128 => 16
  | PArr p n => psz p * N.pos n
  end%N.

(** Item types: layout/mod.rs:106-136. The boolean is nullability
    ([Option<_>] around the type). [TVsl] with [I64] is
    VariableSizeList<T, Nulls, i64>; ArrayItem selects [I32]. *)
Inductive ty : Type :=
| TBool (nl : bool)
| TPrim (p : prim) (nl : bool)
| TFsl (n : nat) (t : ty) (nl : bool)
| TVsl (k : okind) (t : ty) (nl : bool).

(** The collection types these select, as compositions of the generic types:
    Vec, Bitmap, Validity<_>, Flatten<_, N>, Offsets<_, OffsetItem>. [SAny] is a Vec
    of any other items (booleans, arrays, vectors: view.rs:38-70), with the default
    value and the size in bytes of one item; what an item itself owns is not
    counted. No item type selects it, but it may be used directly. *)
Inductive shape : Type :=
| SVec (p : prim)
| SBits
| SNull (s : shape)
| SFixed (n : nat) (s : shape)
| SList (k : okind) (s : shape)
| SAny (A : Type) (a0 : A) (z : positive).

Fixpoint coll (s : shape) : Coll :=
  match s with
  | SVec p => vec_coll N 0%N (psz p)
  | SBits => bitmap_coll
  | SNull s => validity_coll (coll s)
  | SFixed n s => flatten_coll (coll s) n
  | SList k s => offsets_coll (coll s) k
  | SAny A a0 z => vec_coll A a0 (N.pos z)
  end.

(** nullability.rs:116-169: Nullability::Collection *)
Definition nulls (nl : bool) (s : shape) : shape := if nl then SNull s else s.

(** layout/mod.rs:106-136, boolean.rs, fixed_size_primitive.rs,
    fixed_size_list.rs, variable_size_list.rs *)
Fixpoint shape_of (t : ty) : shape :=
  match t with
  | TBool nl => nulls nl SBits
  | TPrim p nl => nulls nl (SVec p)
  | TFsl n t nl => nulls nl (SFixed n (shape_of t))
  | TVsl k t nl => nulls nl (SList k (shape_of t))
  end.
Definition layout (t : ty) : Coll := coll (shape_of t).
