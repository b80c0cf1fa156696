(** * Vec<T>: std's growable buffer and narrow's impls in collection/vec.rs.

    A vector is its items and its capacity (in elements). [esz] is the size of
    an element in bytes (at least 1). In the fallible operations the script of
    answers decides how much more capacity than requested is granted; in the
    infallible ones a vector at least doubles, as std's does, up to the largest
    allocation (a larger request for the sake of doubling is cut down to it). *)
From Coq Require Import List NArith Bool.
From Verif Require Import Base Iter.
Import ListNotations.

Record vec (A : Type) : Type := Vec { v_items : list A; v_cap : N }.
Arguments Vec {A} v_items v_cap.
Arguments v_items {A} v.
Arguments v_cap {A} v.

(** Elements that fit into the largest allocation / into isize::MAX bytes. *)
Definition max_items (esz : N) : N := (alloc_max / esz)%N.
Definition cap_limit (esz : N) : N := (isize_max / esz)%N.

Definition vec_new {A} : vec A := Vec [] 0.

(** std Vec::try_reserve / try_reserve_exact; vec.rs:79-81 *)
Definition vec_try_reserve {A} (esz : N) (v : vec A) (add : N) (w : world)
  : vec A * outcome * world :=
  let len := lenN (v_items v) in
  if (add <=? v_cap v - len)%N then (v, ODone, w)
  else if (max_items esz <? len + add)%N then (v, OErr, w)
  else match w with
       | [] => (Vec (v_items v) (len + add), ODone, [])
       | Some extra :: w' =>
           (Vec (v_items v) (N.min (max_items esz) (len + add + extra)), ODone, w')
       | None :: w' => (v, OErr, w')
       end.

(** std RawVec::grow_amortized: at least twice the capacity, at least
    MIN_NON_ZERO_CAP elements. *)
Definition min_cap (esz : N) : N :=
  if (esz =? 1)%N then 8%N else if (esz <=? 1024)%N then 4%N else 1%N.
Definition amortized (esz cap required : N) : N :=
  N.max required (N.min (max_items esz) (N.max (2 * cap) (min_cap esz))).

(** std Vec::reserve; vec.rs:104-106 *)
Definition vec_reserve {A} (esz : N) (v : vec A) (add : N) : vec A * outcome :=
  let len := lenN (v_items v) in
  if (add <=? v_cap v - len)%N then (v, ODone)
  else if (cap_limit esz <? len + add)%N then (v, OPanic)
  else if (max_items esz <? len + add)%N then (v, OAbort)
  else (Vec (v_items v) (amortized esz (v_cap v) (len + add)), ODone).

(** std Vec::with_capacity; vec.rs:45-47 *)
Definition vec_with_capacity {A} (esz : N) (cap : N) : bres (vec A) :=
  if (cap_limit esz <? cap)%N then BPanic
  else if (max_items esz <? cap)%N then BAbort
  else BOk (Vec [] cap).

(** vec.rs:53-59 try_with_capacity_in *)
Definition vec_try_with_capacity {A} (esz : N) (cap : N) (w : world)
  : bres (vec A) * world :=
  match vec_try_reserve esz (@vec_new A) cap w with
  | (v, ODone, w') => (BOk v, w')
  | (_, _, w') => (BErr, w')
  end.

(** std Extend::extend for Vec ([extend_desugared]): takes an item; if the vector
    is full, reserves for it and for the lower bound of the items to come; pushes
    it. *)
Fixpoint vec_push_t {A R} (esz : N) (t : trace A R) (n : node R) (v : vec A)
  : vec A * R * outcome :=
  match t with
  | [] => (v, nd_src n, ODone)
  | (Yield a, n') :: t' =>
      let '(v', o) :=
        if (lenN (v_items v) =? v_cap v)%N
        then vec_reserve esz v (sat_add (fst (nd_hint n')) 1) else (v, ODone) in
      match o with
      | ODone => vec_push_t esz t' n' (Vec (v_items v' ++ [a]) (v_cap v'))
      | _ => (v', nd_src n', o)
      end
  | (Stop, n') :: _ => (v, nd_src n', ODone)
  | (Boom, n') :: _ => (v, nd_src n', OPanic)
  end.
Definition vec_extend {A R} (esz : N) (v : vec A) (it : iter A R)
  : vec A * R * outcome :=
  vec_push_t esz (it_tr it) (it_node it) v.

(** std FromIterator for Vec; vec.rs:49-51 from_iter_in. The capacity for the
    first item and those to come is reserved after taking the first item, as in
    extend. *)
Definition vec_from_iter {A R} (esz : N) (it : iter A R) : bres (vec A) * R :=
  let '(v, r, o) := vec_extend esz vec_new it in
  (match o with
   | ODone => BOk v
   | OErr => BErr
   | OPanic => BPanic
   | OAbort => BAbort
   end, r).

(** vec.rs:90-101, the loop of try_extend: on a failed reservation the vector
    is truncated to its original length [len0] and an error is returned. *)
Fixpoint vec_try_push_t {A R} (esz : N) (len0 : nat) (t : trace A R) (n : node R)
  (v : vec A) (w : world) : vec A * R * outcome * world :=
  match t with
  | [] => (v, nd_src n, ODone, w)
  | (Yield a, n') :: t' =>
      let push v' w' :=
        vec_try_push_t esz len0 t' n' (Vec (v_items v' ++ [a]) (v_cap v')) w' in
      if (lenN (v_items v) =? v_cap v)%N then
        match vec_try_reserve esz v 1 w with
        | (v', ODone, w') => push v' w'
        | (v', _, w') => (Vec (firstn len0 (v_items v')) (v_cap v'), nd_src n', OErr, w')
        end
      else push v w
  | (Stop, n') :: _ => (v, nd_src n', ODone, w)
  | (Boom, n') :: _ => (v, nd_src n', OPanic, w)
  end.
(** vec.rs:83-102 *)
Definition vec_try_extend {A R} (esz : N) (v : vec A) (it : iter A R) (w : world)
  : vec A * R * outcome * world :=
  match vec_try_reserve esz v (fst (it_hint it)) w with
  | (v', ODone, w') =>
      vec_try_push_t esz (length (v_items v)) (it_tr it) (it_node it) v' w'
  | (v', _, w') => (v', it_src it, OErr, w')
  end.

(** vec.rs:61-73 try_from_iter_in: reserve the lower bound, then reserve one
    and push per item. *)
Fixpoint vec_try_collect_t {A R} (esz : N) (t : trace A R) (n : node R)
  (v : vec A) (w : world) : bres (vec A) * R * world :=
  match t with
  | [] => (BOk v, nd_src n, w)
  | (Yield a, n') :: t' =>
      match vec_try_reserve esz v 1 w with
      | (v', ODone, w') =>
          vec_try_collect_t esz t' n' (Vec (v_items v' ++ [a]) (v_cap v')) w'
      | (_, _, w') => (BErr, nd_src n', w')
      end
  | (Stop, n') :: _ => (BOk v, nd_src n', w)
  | (Boom, n') :: _ => (BPanic, nd_src n', w)
  end.
Definition vec_try_from_iter {A R} (esz : N) (it : iter A R) (w : world)
  : bres (vec A) * R * world :=
  match @vec_try_with_capacity A esz (fst (it_hint it)) w with
  | (BOk v, w') => vec_try_collect_t esz (it_tr it) (it_node it) v w'
  | (_, w') => (BErr, it_src it, w')
  end.

(** std Vec::truncate; vec.rs:108-110. [len] is any usize. *)
Definition vec_truncate {A} (v : vec A) (len : N) : vec A :=
  if (len <? lenN (v_items v))%N
  then Vec (firstn (N.to_nat len) (v_items v)) (v_cap v)
  else v.

(** vec.rs:18-20 [self.get(index)] *)
Definition vec_view {A} (v : vec A) (i : N) : option A := nth_N (v_items v) i.
