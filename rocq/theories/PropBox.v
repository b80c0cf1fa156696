(** * Boxed storage: C42

    [bx_shape s]: slices of primitives or of any other items, bitmaps, and fixed-size
    lists of them, which are the collections that can be constructed in boxed slices;
    [bxn_from_iter s] collects the nullable versions of them. *)
From Coq Require Import List NArith ZArith Bool Arith.
From Verif Require Import Base Iter Spec VecModel BitmapModel CollModel ValidityModel
  FlattenModel OffsetsModel LayoutModel BoxModel Reach SpecLive FactsBitmap FactsBox PropBitmap.
Import ListNotations.

Theorem C42_boxed_items_read_back :
  forall s, widths_pos (bx_shape s) -> forall R (it : iter (cA (coll (bx_shape s))) R) res r,
  resumable (bx_shape s) = true \/ fused it ->
  Forall (item_ok (bx_shape s)) (items_of it) -> bx_from_iter s it = (res, r) ->
  match res with
  | BOk c => fin_of it = FStop /\ shows (coll (bx_shape s)) c (items_of it) /\
      bx_spare s c = 0%N
  | BErr => False
  | _ => True
  end /\
  (room_new (bx_shape s) it ->
   match fin_of it with FStop => exists c, res = BOk c | FBoom => res = BPanic end).
Proof. exact box_collected. Qed.
Print Assumptions C42_boxed_items_read_back.

(** Boxed values whose bitmap is a vector can be collected. *)
Theorem C42_nullable_boxed_items_read_back :
  forall s, widths_pos (bx_shape s) ->
  forall R (it : iter (cA (coll (SNull (bx_shape s)))) R) res r,
  resumable (SNull (bx_shape s)) = true \/ fused it ->
  Forall (item_ok (SNull (bx_shape s))) (items_of it) -> bxn_from_iter s it = (res, r) ->
  match res with
  | BOk v => fin_of it = FStop /\ shows (coll (SNull (bx_shape s))) v (items_of it) /\
      bx_spare s (va_coll v) = 0%N
  | BErr => False
  | _ => True
  end /\
  (room_new (SNull (bx_shape s)) it ->
   (announced (it_hint it) * unit_cost (SNull (bx_shape s)) <=
    limit (SNull (bx_shape s)))%N ->
   match fin_of it with FStop => exists c, res = BOk c | FBoom => res = BPanic end).
Proof. exact null_box_collected. Qed.
Print Assumptions C42_nullable_boxed_items_read_back.

(** Missing for the full statement: the process is not ended when the allocator
    refuses to shrink the buffer; this is false, see below. *)
Theorem C42_try_boxed_items_partial :
  forall s, widths_pos (bx_shape s) -> forall R (it : iter (cA (coll (bx_shape s))) R) w res r w',
  resumable (bx_shape s) = true \/ fused it ->
  Forall (item_ok (bx_shape s)) (items_of it) -> bx_try_from_iter s it w = (res, r, w') ->
  match res with
  | BOk c => fin_of it = FStop /\ shows (coll (bx_shape s)) c (items_of it) /\
      bx_spare s c = 0%N
  | BErr => True
  | BPanic => fin_of it = FBoom
  | BAbort => ~ grants w
  end.
Proof. exact box_try_collected. Qed.
Print Assumptions C42_try_boxed_items_partial.

Theorem C42_try_boxed_succeeds :
  forall s, widths_pos (bx_shape s) -> forall R (it : iter (cA (coll (bx_shape s))) R) w,
  resumable (bx_shape s) = true \/ fused it -> good (bx_shape s) it -> grants w ->
  (total (cost (bx_shape s)) (items_of it) <= limit (bx_shape s))%N ->
  exists c r w', bx_try_from_iter s it w = (BOk c, r, w') /\
    shows (coll (bx_shape s)) c (items_of it).
Proof. exact box_granted. Qed.
Print Assumptions C42_try_boxed_succeeds.

(** [with_capacity] gives nothing but an empty box, and its fallible version never
    ends the process. *)
Theorem C42_boxed_empty : forall s, widths_pos (bx_shape s) ->
  (forall n, match bx_with_capacity s n with
     | BOk c => shows (coll (bx_shape s)) c [] /\ bx_spare s c = 0%N
     | BErr => False
     | _ => True
     end) /\
  (forall n w res w', bx_try_with_capacity s n w = (res, w') ->
     match res with
     | BOk c => shows (coll (bx_shape s)) c [] /\ bx_spare s c = 0%N
     | BErr => True
     | _ => False
     end).
Proof. exact box_empty. Qed.
Print Assumptions C42_boxed_empty.

(** Three pairs of u16 whose number is not known in advance. *)
Definition boxed_pairs : bshape := BxFixed 2 (BxPrim U16).
Definition pairs_it : iter (list N) unit :=
  let n := Node (0%N, None) tt in
  Iter n [(Yield [1; 2]%N, n); (Yield [3; 4]%N, n); (Yield [5; 6]%N, n); (Stop, n)].
(** The allocator gives eight elements for the first item and refuses to take two
    back. *)
Theorem C42_shrink_refuted : exists s (it : iter (cA (coll (bx_shape s))) unit) w r w',
  widths_pos (bx_shape s) /\ good (bx_shape s) it /\ fused it /\
  (total (cost (bx_shape s)) (items_of it) <= limit (bx_shape s))%N /\
  bx_try_from_iter s it w = (BAbort, r, w').
Proof.
  exists boxed_pairs, pairs_it, [Some 7%N; None], tt, [].
  split; [repeat constructor|]. split.
  { split; [reflexivity|]. split; [repeat split; vm_compute; discriminate|].
    repeat constructor. }
  split; [repeat constructor|]. split; [vm_compute; discriminate|vm_compute; reflexivity].
Qed.
Print Assumptions C42_shrink_refuted.

Example C42_case :
  widths_pos (bx_shape boxed_pairs) /\ resumable (bx_shape boxed_pairs) = true /\
  good (bx_shape boxed_pairs) pairs_it /\ room_new (bx_shape boxed_pairs) pairs_it /\
  bx_from_iter boxed_pairs pairs_it = (BOk (Vec [1; 2; 3; 4; 5; 6]%N 6), tt) /\
  bx_try_from_iter boxed_pairs pairs_it [Some 7%N; Some 0%N] =
    (BOk (Vec [1; 2; 3; 4; 5; 6]%N 6), tt, []) /\
  bx_try_from_iter boxed_pairs pairs_it [None] = (BErr, tt, []) /\
  bx_try_with_capacity boxed_pairs 5 [Some 1%N; None] = (BOk (Vec [] 0), [None]) /\
  bx_try_from_iter BxBits (it_list ten_bools) [Some 6%N; Some 0%N] =
    (BOk (Bitmap (Vec [141; 1]%N 2) 10 0), tt, []).
Proof.
  split; [repeat constructor|]. split; [reflexivity|]. split.
  { split; [reflexivity|]. split; [repeat split; vm_compute; discriminate|].
    repeat constructor. }
  split; [vm_compute; repeat split; discriminate|].
  repeat split; vm_compute; reflexivity.
Qed.
(** Two of three pairs are null; items of another kind. *)
Example C42_nullable_case :
  bxn_from_iter boxed_pairs (it_list [None; Some [3; 4]%N; None]) =
    (BOk (Validity (Vec [0; 0; 3; 4; 0; 0]%N 6) (Some (Bitmap (Vec [2]%N 1) 3 0))), tt) /\
  bx_from_iter (BxAny (option bool) None 1) (it_list [Some true; None]) =
    (BOk (Vec [Some true; None] 2), tt).
Proof. split; vm_compute; reflexivity. Qed.
