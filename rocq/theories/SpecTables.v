(** * Tables of the Arrow columnar format and of Rust's primitive types *)
From Coq Require Import List NArith ZArith.
From Verif Require Import Base Iter VecModel BitmapModel CollModel OffsetsModel LayoutModel.
Import ListNotations.

(** The format characters of the C data interface. *)
Definition arrow_code (p : prim) : option N :=
  match p with
  | S8 => Some 99        (* c: int8 *)
  | U8 => Some 67        (* C: uint8 *)
  | S16 => Some 115      (* s: int16 *)
  | U16 => Some 83       (* S: uint16 *)
  | S32 => Some 105      (* i: int32 *)
  | U32 => Some 73       (* I: uint32 *)
  | S64 => Some 108      (* l: int64 *)
  | U64 => Some 76       (* L: uint64 *)
  | F32 => Some 102      (* f: float32 *)
  | F64 => Some 103      (* g: float64 *)
  | U128 | S128 | Usize | Ssize | PArr _ _ => None
  end%N.
(** Bytes of a value. *)
Fixpoint value_bytes (p : prim) : N :=
  match p with
  | U8 | S8 => 1
  | U16 | S16 => 2
  | U32 | S32 | F32 => 4
  | U64 | S64 | Usize | Ssize | F64 => 8
  | U128 | S128 => 16
  | PArr p n => value_bytes p * N.pos n
  end%N.
(** Bytes and range of an offset. *)
Definition offset_bytes (k : okind) : N := match k with I32 => 4%N | I64 => 8%N end.
Definition offset_max (k : okind) : Z :=
  match k with I32 => 2147483647%Z | I64 => 9223372036854775807%Z end.
Definition offset_min (k : okind) : Z :=
  match k with I32 => (-2147483648)%Z | I64 => (-9223372036854775808)%Z end.
