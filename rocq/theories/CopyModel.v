(** * One array collected from another: src/array.rs, src/collection/mod.rs

    What a program does to move items between arrays, possibly of different
    storage: [src.into_iter_owned().collect()], [dst.extend(src.into_iter_owned())],
    or the same with [src.iter_views().map(IntoOwned::into_owned)]. *)
From Coq Require Import List NArith ZArith Bool Arith.
From Verif Require Import Base Iter VecModel BitmapModel CollModel ValidityModel FlattenModel
  OffsetsModel LayoutModel StorageModel.
Import ListNotations.

Section Drain.
  Context {S X A : Type}.
  Variable next : S -> out (option X * S).
  Variable hnt : S -> out hint.
  Variable own : X -> out A.

  (** An iterator of the crate as the input of an operation: what its calls return
      up to the first [None] or panic, at most [n] calls. [own] stands for the
      closure of [Iterator::map]. A panicking [size_hint] is read as no hint. *)
  Definition drain_node (s : S) : node unit :=
    Node (match hnt s with Ret h => h | Pnc => (0%N, None) end) tt.
  Fixpoint drain (n : nat) (s : S) : trace A unit :=
    match n with
    | O => []
    | Datatypes.S n' =>
        match next s with
        | Pnc => [(Boom, drain_node s)]
        | Ret (None, _) => []
        | Ret (Some v, s') =>
            match own v with
            | Pnc => [(Boom, drain_node s')]
            | Ret a => (Yield a, drain_node s') :: drain n' s'
            end
        end
    end.
  Definition drained (n : nat) (s : S) : iter A unit := Iter (drain_node s) (drain n s).
End Drain.

(** By value, the buffers in the storage [f] (array.rs:154-156, mod.rs:105), or
    through views (array.rs:148-150, mod.rs:90, owned.rs:30). *)
Inductive reading (s : shape) : Type :=
| ByValue (f : storages s)
| ByViews.
Arguments ByValue {s} f.
Arguments ByViews {s}.
(** The array as an input iterator. One call more than it has items, so that the
    end is part of the script. *)
Definition source (s : shape) (v : reading s) (c : cC (coll s)) : out (iter (cA (coll s)) unit) :=
  let? n := k_len (coll s) c in
  match v with
  | ByValue f =>
      let? st := o_into (own_in s f) c in
      Ret (drained (o_next (own_in s f)) (o_hint (own_in s f)) Ret (S n) st)
  | ByViews =>
      let? st := k_iter (coll s) c in
      Ret (drained (k_inext (coll s)) (k_ihint (coll s)) (k_own (coll s)) (S n) st)
  end.

(** array.rs:122-129 FromIterator and 169-171 from_iter_in, [in_] tells which *)
Definition copy (s : shape) (v : reading s) (in_ : bool) (c : cC (coll s)) : bres (cC (coll s)) :=
  match source s v c with
  | Ret it => fst (if in_ then k_from_iter_in (coll s) it else k_from_iter (coll s) it)
  | Pnc => BPanic
  end.
(** array.rs:177-182 try_from_iter_in *)
Definition try_copy (s : shape) (v : reading s) (c : cC (coll s)) (w : world)
  : bres (cC (coll s)) * world :=
  match source s v c with
  | Ret it => let '(res, _, w') := k_try_from_iter (coll s) it w in (res, w')
  | Pnc => (BPanic, w)
  end.
(** array.rs:107-114 Extend *)
Definition append (s : shape) (v : reading s) (dst src : cC (coll s)) : cC (coll s) * outcome :=
  match source s v src with
  | Ret it => let '(c, _, o) := k_extend (coll s) dst it in (c, o)
  | Pnc => (dst, OPanic)
  end.
(** array.rs:197-202 try_extend *)
Definition try_append (s : shape) (v : reading s) (dst src : cC (coll s)) (w : world)
  : cC (coll s) * outcome * world :=
  match source s v src with
  | Ret it => let '(c, _, o, w') := k_try_extend (coll s) dst it w in (c, o, w')
  | Pnc => (dst, OPanic, w)
  end.
