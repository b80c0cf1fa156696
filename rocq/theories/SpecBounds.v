(** * Vocabulary of the theorems about how much memory is asked for *)
From Coq Require Import List NArith ZArith Bool Arith.
From Verif Require Import Base Iter VecModel BitmapModel CollModel ValidityModel FlattenModel
  OffsetsModel LayoutModel Spec Reach SpecFixed SpecLive.
Import ListNotations.

(** A buffer: the size of an element in bytes, for how many elements there is memory,
    how many are in it, and how many [n] items of the collection take, a list being
    one with a single element. *)
Record buffer : Type :=
  Buffer { b_size : N; b_cap : N; b_used : N; b_takes : N -> N }.
Definition bit_buffer (b : bitmap) : buffer :=
  Buffer 1 (v_cap (bm_buf b)) (lenN (v_items (bm_buf b))) (fun n => (n + 7) / 8)%N.
Definition no_buffer : buffer := Buffer 1 0 0 (fun n => (n + 7) / 8)%N.
Definition rows_of (m : nat) (b : buffer) : buffer :=
  Buffer (b_size b) (b_cap b) (b_used b) (fun n => b_takes b (n * N.of_nat m)%N).
Fixpoint stored (s : shape) : cC (coll s) -> list buffer :=
  match s with
  | SVec p => fun v : vec N => [Buffer (psz p) (v_cap v) (lenN (v_items v)) (fun n => n)]
  | SAny A _ z => fun v : vec A => [Buffer (N.pos z) (v_cap v) (lenN (v_items v)) (fun n => n)]
  | SBits => fun b : bitmap => [bit_buffer b]
  | SNull s => fun v : validity (cC (coll s)) =>
      stored s (va_coll v) ++ [match va_bm v with Some b => bit_buffer b | None => no_buffer end]
  | SFixed m s => fun c : cC (coll s) => map (rows_of m) (stored s c)
  | SList k s => fun o : offsets (cC (coll s)) =>
      stored s (of_data o) ++
      [Buffer (osz k) (v_cap (of_offs o)) (lenN (v_items (of_offs o))) (fun n => n)]
  end.

(** The smallest memory std asks for: 8 bytes, 4 elements, or 1 element of more than
    1 KiB. *)
Definition smallest (size : N) : N :=
  if (size <? 2)%N then 8%N else if (1024 <? size)%N then 1%N else 4%N.
(** Memory for [factor] times the elements [u], or the smallest that is asked for. *)
Definition multiple (factor size u : N) : N := N.max (smallest size) (factor * u).
(** [y] is [x] after an operation: it has the memory of [x], or at most what [bound]
    allows for the elements that are in it now. *)
Definition bounded (bound : N -> N -> N) (x y : buffer) : Prop :=
  b_size y = b_size x /\ (b_cap y <= N.max (b_cap x) (bound (b_size y) (b_used y)))%N.
(** ... and for [n] items more. *)
Definition bounded_for (bound : N -> N -> N) (n : N) (x y : buffer) : Prop :=
  b_size y = b_size x /\
  (b_cap y <= N.max (b_cap x) (bound (b_size y) (b_used y + b_takes y n)))%N.

(** The allocator grants at most [e] elements more than it is asked for. *)
Definition modest (e : N) (w : world) : Prop :=
  Forall (fun a => match a with Some extra => (extra <= e)%N | None => True end) w.
(** What a fallible operation may end up with. *)
Definition granted (e : N) : N -> N -> N := fun _ u => (u + e)%N.

(** Lists, but no lists of lists. *)
Fixpoint flat_lists (s : shape) : Prop :=
  match s with
  | SVec _ | SAny _ _ _ | SBits => True
  | SNull s | SFixed _ s => flat_lists s
  | SList _ s => no_lists s
  end.
(** The lists in the data of a list end where their data ends. Extending starts by
    cutting the data of the outermost list; this is about those further in. *)
Definition last_end (offs : vec Z) : N := Z.to_N (last (v_items offs) 0%Z).
Fixpoint ends_flush (s : shape) : cC (coll s) -> Prop :=
  match s with
  | SVec _ | SAny _ _ _ | SBits => fun _ => True
  | SNull s => fun v : validity (cC (coll s)) => ends_flush s (va_coll v)
  | SFixed _ s => fun c : cC (coll s) => ends_flush s c
  | SList _ s => fun o : offsets (cC (coll s)) =>
      ends_flush s (of_data o) /\
      k_len (coll s) (of_data o) = Ret (N.to_nat (last_end (of_offs o)))
  end.
Fixpoint inner_flush (s : shape) : cC (coll s) -> Prop :=
  match s with
  | SVec _ | SAny _ _ _ | SBits => fun _ => True
  | SNull s => fun v : validity (cC (coll s)) => inner_flush s (va_coll v)
  | SFixed _ s => fun c : cC (coll s) => inner_flush s c
  | SList _ s => fun o : offsets (cC (coll s)) => ends_flush s (of_data o)
  end.

(** An iterator that is not called again after it returned [None]. *)
Fixpoint ended_t {A R} (t : trace A R) : Prop :=
  match t with
  | [] => True
  | (Yield _, _) :: t' => ended_t t'
  | (Stop, _) :: t' => t' = []
  | (Boom, _) :: _ => True
  end.
Definition ended {A R} (it : iter A R) : Prop := ended_t (it_tr it).
