(** * Vocabulary of the theorems about requests for memory *)
From Coq Require Import List NArith Bool Arith.
From Verif Require Import Base Iter VecModel BitmapModel CollModel ValidityModel FlattenModel
  OffsetsModel LayoutModel Spec Reach.
Import ListNotations.

(** The buffers of a collection: the size of an element in bytes, and for how many
    elements there is memory. A bitmap that is implicit has none. *)
Definition bitmap_room (b : bitmap) : N * N := (1%N, v_cap (bm_buf b)).
Fixpoint memory (s : shape) : cC (coll s) -> list (N * N) :=
  match s with
  | SVec p => fun v : vec N => [(psz p, v_cap v)]
  | SAny A _ z => fun v : vec A => [(N.pos z, v_cap v)]
  | SBits => fun b : bitmap => [bitmap_room b]
  | SNull s => fun v : validity (cC (coll s)) =>
      memory s (va_coll v) ++
      [match va_bm v with Some b => bitmap_room b | None => (1%N, 0%N) end]
  | SFixed _ s => memory s
  | SList k s => fun o : offsets (cC (coll s)) =>
      memory s (of_data o) ++ [(osz k, v_cap (of_offs o))]
  end.
(** How many there are. *)
Fixpoint buffers (s : shape) : nat :=
  match s with
  | SVec _ | SAny _ _ _ | SBits => 1
  | SNull s | SList _ s => buffers s + 1
  | SFixed _ s => buffers s
  end.
(** Bitmaps that are implicit. *)
Fixpoint implicit (s : shape) : cC (coll s) -> nat :=
  match s with
  | SVec _ | SAny _ _ _ | SBits => fun _ => 0
  | SNull s => fun v : validity (cC (coll s)) =>
      implicit s (va_coll v) + match va_bm v with Some _ => 0 | None => 1 end
  | SFixed _ s => implicit s
  | SList _ s => fun o : offsets (cC (coll s)) => implicit s (of_data o)
  end.

(** A buffer is where it was or has moved to one of at least twice the size, or to
    the largest there is. *)
Definition doubled (x y : N * N) : Prop :=
  fst x = fst y /\
  (snd y = snd x \/ (2 * snd x <= snd y)%N \/ (snd x <= snd y)%N /\ snd y = max_items (fst x)).
(** No buffer has become smaller. *)
Definition as_large (x y : N * N) : Prop := fst x = fst y /\ (snd x <= snd y)%N.

(** The answers the allocator gave while the script went from [w] to [w']. All are
    grants, or the last one is a refusal. *)
Definition answered (w w' : world) (answers : list (option N)) : Prop :=
  w = answers ++ w'.
Definition all_granted (answers : list (option N)) : Prop :=
  exists extras, answers = map Some extras.
Definition last_refused (answers : list (option N)) : Prop :=
  exists extras, answers = map Some extras ++ [None].

(** The size hint says how many items come. *)
Definition exact {A R} (it : iter A R) : Prop :=
  it_hint it = (lenN (items_of it), Some (lenN (items_of it))).

(** How often a number in a sequence differs from the one before. *)
Fixpoint moves (c : N) (cs : list N) : nat :=
  match cs with
  | [] => 0
  | c' :: cs' => (if (c' =? c)%N then 0 else 1) + moves c' cs'
  end.

(** The states a history goes through, and the capacity of one buffer. *)
Fixpoint states (K : Coll) (c : cC K) (ps : list (op (cA K))) : list (cC K) :=
  match ps with
  | [] => []
  | p :: ps' => fst (step K c p) :: states K (fst (step K c p)) ps'
  end.
Definition capacity (s : shape) (i : nat) (c : cC (coll s)) : N := snd (nth i (memory s c) (1, 0)%N).
Definition infallible {A} (p : op A) : Prop :=
  match p with OpExtend _ | OpReserve _ | OpTruncate _ => True | _ => False end.
