(** * Construction in boxed storage: src/collection/box.rs:36-57

    [Box<[T]>] implements [CollectionAllocIn] and [FromIterator], but not
    [CollectionRealloc]. [Bitmap<BoxBuffer>] (bitmap/mod.rs:394-412, 445-498) and
    [Flatten] (flatten.rs:142-146, 185-207) can be constructed over it. [Validity] and
    [Offsets] ask for [CollectionRealloc] of their storage (validity.rs:369-373,
    439-443, offset.rs:323-331), and [Offsets] also of its data; what remains is
    [FromIterator] of a [Validity] whose values are boxed and whose bitmap is a
    vector (validity.rs:369-388), which is not [CollectionAlloc] and so can only be
    outermost. A boxed slice is a [vec] whose capacity is
    its length. It is read as a [Vec] is (StorageModel.v). *)
From Coq Require Import List NArith Bool Arith.
From Verif Require Import Base Iter VecModel BitmapModel CollModel ValidityModel
  FlattenModel OffsetsModel LayoutModel.
Import ListNotations.

(** std Vec::into_boxed_slice: [shrink_to_fit] if there is spare capacity. An empty
    vector is deallocated; otherwise the allocator is asked for a smaller block, and if
    it refuses, [handle_alloc_error] ends the process. *)
Definition into_boxed {A} (v : vec A) (w : world) : bres (vec A) * world :=
  let b := Vec (v_items v) (lenN (v_items v)) in
  if (lenN (v_items v) <? v_cap v)%N then
    match v_items v with
    | [] => (BOk b, w)
    | _ => match w with
           | None :: w' => (BAbort, w')
           | _ :: w' => (BOk b, w')
           | [] => (BOk b, [])
           end
    end
  else (BOk b, w).
Definition into_boxed_res {A R} (x : bres (vec A) * R * world) : bres (vec A) * R * world :=
  let '(res, r, w) := x in
  match res with
  | BOk v => let '(res', w') := into_boxed v w in (res', r, w')
  | _ => (res, r, w)
  end.
(** In infallible functions an allocation is not refused (DESIGN.md, trusted base). *)
Definition boxed {A} (v : vec A) : vec A := fst (match into_boxed v [] with
                                                 | (BOk b, w) => (b, w)
                                                 | (_, w) => (v, w)
                                                 end).

(** box.rs:39-41 with_capacity_in, 47-49 try_with_capacity_in *)
Definition box_with_capacity {A} (esz cap : N) : bres (vec A) :=
  bmap boxed (vec_with_capacity esz cap).
Definition box_try_with_capacity {A} (esz cap : N) (w : world) : bres (vec A) * world :=
  match vec_try_with_capacity esz cap w with
  | (BOk v, w') => into_boxed v w'
  | (res, w') => (res, w')
  end.
(** box.rs:43-45 from_iter_in and std's FromIterator; 51-56 try_from_iter_in *)
Definition box_from_iter {A R} (esz : N) (it : iter A R) : bres (vec A) * R :=
  let '(res, r) := vec_from_iter esz it in (bmap boxed res, r).
Definition box_try_from_iter {A R} (esz : N) (it : iter A R) (w : world)
  : bres (vec A) * R * world :=
  into_boxed_res (vec_try_from_iter esz it w).

(** What can be constructed in boxed storage. *)
Inductive bshape : Type :=
| BxPrim (p : prim)
| BxBits
| BxFixed (n : nat) (s : bshape)
| BxAny (A : Type) (a0 : A) (z : positive).
Fixpoint bx_shape (s : bshape) : shape :=
  match s with
  | BxPrim p => SVec p
  | BxBits => SBits
  | BxFixed n s => SFixed n (bx_shape s)
  | BxAny A a0 z => SAny A a0 z
  end.

(** bitmap/mod.rs:394-412, 448-454, 456-469, 471-479, 481-497 over boxed bytes;
    flatten.rs:142-146, 188-206 over boxed children *)
Fixpoint bx_with_capacity (s : bshape) : N -> bres (cC (coll (bx_shape s))) :=
  match s with
  | BxPrim p => fun cap => box_with_capacity (psz p) cap
  | BxBits => fun cap =>
      bmap (fun buf => Bitmap buf 0 0) (box_with_capacity u8sz (bytes_for_bits cap))
  | BxFixed n s => fun cap =>
      match strict_mul cap (N.of_nat n) with
      | Ret m => bx_with_capacity s m
      | Pnc => BPanic
      end
  | BxAny A a0 z => fun cap => box_with_capacity (N.pos z) cap
  end.
Fixpoint bx_try_with_capacity (s : bshape)
  : N -> world -> bres (cC (coll (bx_shape s))) * world :=
  match s with
  | BxPrim p => fun cap w => box_try_with_capacity (psz p) cap w
  | BxBits => fun cap w =>
      let '(res, w') := box_try_with_capacity u8sz (bytes_for_bits cap) w in
      (bmap (fun buf => Bitmap buf 0 0) res, w')
  | BxFixed n s => fun cap w =>
      match checked_mul cap (N.of_nat n) with
      | Some m => bx_try_with_capacity s m w
      | None => (BErr, w)
      end
  | BxAny A a0 z => fun cap w => box_try_with_capacity (N.pos z) cap w
  end.
Fixpoint bx_from_iter (s : bshape) {R}
  : iter (cA (coll (bx_shape s))) R -> bres (cC (coll (bx_shape s))) * R :=
  match s with
  | BxPrim p => fun it => box_from_iter (psz p) it
  | BxBits => fun it =>
      let '(res, (r, bits)) := box_from_iter u8sz (it_packed (it_inspect count_item 0 it)) in
      (bmap (fun buf => Bitmap buf bits 0) res, r)
  | BxFixed n s => fun it => bx_from_iter s (it_flatten (N.of_nat n) it)
  | BxAny A a0 z => fun it => box_from_iter (N.pos z) it
  end.
Fixpoint bx_try_from_iter (s : bshape) {R}
  : iter (cA (coll (bx_shape s))) R -> world -> bres (cC (coll (bx_shape s))) * R * world :=
  match s with
  | BxPrim p => fun it w => box_try_from_iter (psz p) it w
  | BxBits => fun it w =>
      let '(res, (r, bits), w') :=
        box_try_from_iter u8sz (it_packed (it_inspect count_item 0 it)) w in
      (bmap (fun buf => Bitmap buf bits 0) res, r, w')
  | BxFixed n s => fun it w => bx_try_from_iter s (it_flatten (N.of_nat n) it) w
  | BxAny A a0 z => fun it w => box_try_from_iter (N.pos z) it w
  end.

(** validity.rs:375-387 from_iter: boxed values with a growable bitmap *)
Definition bxn_from_iter (s : bshape) {R} (it : iter (option (cA (coll (bx_shape s)))) R)
  : bres (validity (cC (coll (bx_shape s)))) * R :=
  va_collect (coll (bx_shape s)) (fun R' => @bx_from_iter s R') it.

(** The capacity of the buffer that is not in use. *)
Fixpoint bx_spare (s : bshape) : cC (coll (bx_shape s)) -> N :=
  match s with
  | BxPrim _ => fun v : vec N => (v_cap v - lenN (v_items v))%N
  | BxBits => fun b : bitmap => (v_cap (bm_buf b) - lenN (v_items (bm_buf b)))%N
  | BxFixed _ s => fun c => bx_spare s c
  | BxAny A _ _ => fun v : vec A => (v_cap v - lenN (v_items v))%N
  end.
