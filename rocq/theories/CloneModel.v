(** * Cloning a collection *)
From Coq Require Import List NArith ZArith Bool Arith.
From Verif Require Import Base VecModel BitmapModel CollModel ValidityModel FlattenModel
  OffsetsModel LayoutModel Reach.
Import ListNotations.

(** [Vec::clone] of the standard library allocates for the items and no more. That the
    allocation for it ends the process is left out. *)
Definition vec_clone {A} (v : vec A) : vec A := Vec (v_items v) (lenN (v_items v)).
(** src/bitmap/mod.rs:285-293 *)
Definition bm_clone (b : bitmap) : bitmap := Bitmap (vec_clone (bm_buf b)) (bm_bits b) (bm_off b).

(** [Validity] (src/validity.rs:46-52) and [Offsets] (src/offset.rs:121-131) are not
    [Clone]. *)
Fixpoint clonable (s : shape) : bool :=
  match s with
  | SVec _ | SAny _ _ _ | SBits => true
  | SNull _ | SList _ _ => false
  | SFixed _ s => clonable s
  end.
(** src/collection/flatten.rs:32 derive(Clone); what cannot be cloned is left as
    it is. *)
Fixpoint clone (s : shape) : cC (coll s) -> cC (coll s) :=
  match s with
  | SVec _ => fun v : vec N => vec_clone v
  | SAny A _ _ => fun v : vec A => vec_clone v
  | SBits => bm_clone
  | SFixed _ s => clone s
  | SNull s => fun c => c
  | SList _ s => fun c => c
  end.
