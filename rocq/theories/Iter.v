(** * Input iterators and the core adapters narrow uses.

    An iterator handed to narrow is an arbitrary script: the results of the
    successive calls to [next] (an item, [None], or a panic), with the
    [size_hint] it would report after each call and the state [R] of the
    underlying source after each call. When the script is exhausted [next]
    returns [None] forever. A terminating run makes finitely many calls, so
    every terminating run of a real iterator is described by a script.

    The adapters below transcribe core::iter; they are trusted (not part of
    /repo) and are functions from scripts to scripts. *)
From Coq Require Import List NArith Bool.
From Verif Require Import Base.
Import ListNotations.

Inductive ev (A : Type) : Type :=
| Yield (a : A)
| Stop
| Boom.
Arguments Yield {A} a.
Arguments Stop {A}.
Arguments Boom {A}.

Definition hint : Type := (N * option N)%type.

(** What can be observed between two calls of [next]. *)
Record node (R : Type) : Type := Node { nd_hint : hint; nd_src : R }.
Arguments Node {R} nd_hint nd_src.
Arguments nd_hint {R} n.
Arguments nd_src {R} n.

Definition trace (A R : Type) : Type := list (ev A * node R).

Record iter (A R : Type) : Type := Iter { it_node : node R; it_tr : trace A R }.
Arguments Iter {A R} it_node it_tr.
Arguments it_node {A R} i.
Arguments it_tr {A R} i.

Definition it_hint {A R} (it : iter A R) : hint := nd_hint (it_node it).
Definition it_src {A R} (it : iter A R) : R := nd_src (it_node it).

(** [Iterator::next] *)
Definition it_next {A R} (it : iter A R) : ev A * iter A R :=
  match it_tr it with
  | [] => (Stop, it)
  | (e, n) :: t => (e, Iter n t)
  end.

(** [Iterator::map] with a pure total function *)
Definition map_ev {A B} (f : A -> B) (e : ev A) : ev B :=
  match e with Yield a => Yield (f a) | Stop => Stop | Boom => Boom end.
Definition map_t {A B R} (f : A -> B) (t : trace A R) : trace B R :=
  map (fun p => (map_ev f (fst p), snd p)) t.
Definition it_map {A B R} (f : A -> B) (it : iter A R) : iter B R :=
  Iter (it_node it) (map_t f (it_tr it)).

(** [Iterator::fuse]: nothing is called after the first [None]. *)
Fixpoint fuse_t {A R} (t : trace A R) : trace A R :=
  match t with
  | [] => []
  | (Yield a, n) :: t' => (Yield a, n) :: fuse_t t'
  | (Stop, n) :: _ => [(Stop, Node (0%N, Some 0%N) (nd_src n))]
  | (Boom, n) :: _ => [(Boom, n)]
  end.
Definition it_fuse {A R} (it : iter A R) : iter A R :=
  Iter (it_node it) (fuse_t (it_tr it)).

(** [Iterator::take]: counts calls to [next]; at zero the source is not
    called. *)
Definition take_node {R} (k : nat) (n : node R) : node R :=
  let '(lo, hi) := nd_hint n in
  Node (match k with
        | O => (0%N, Some 0%N)
        | _ => (N.min lo (N.of_nat k),
                match hi with
                | Some h => Some (N.min h (N.of_nat k))
                | None => Some (N.of_nat k)
                end)
        end) (nd_src n).
Fixpoint take_t {A R} (k : nat) (t : trace A R) : trace A R :=
  match k, t with
  | S k', (e, n) :: t' => (e, take_node k' n) :: take_t k' t'
  | _, _ => []
  end.
Definition it_take {A R} (k : nat) (it : iter A R) : iter A R :=
  Iter (take_node k (it_node it)) (take_t k (it_tr it)).

(** [Iterator::by_ref]: the source state seen through the adapter is what is
    left of the iterator itself. *)
Fixpoint byref_t {A R} (t : trace A R) : trace A (iter A R) :=
  match t with
  | [] => []
  | (e, n) :: t' => (e, Node (nd_hint n) (Iter n t')) :: byref_t t'
  end.
Definition it_byref {A R} (it : iter A R) : iter A (iter A R) :=
  Iter (Node (it_hint it) it) (byref_t (it_tr it)).

(** [Iterator::inspect] with a closure that updates captured state; [None]
    means that the closure panics. The captured state is part of the source
    state. *)
Fixpoint inspect_t {A R S} (f : S -> A -> option S) (s : S) (t : trace A R)
  : trace A (R * S) :=
  match t with
  | [] => []
  | (Yield a, n) :: t' =>
      match f s a with
      | Some s' => (Yield a, Node (nd_hint n) (nd_src n, s')) :: inspect_t f s' t'
      | None => [(Boom, Node (nd_hint n) (nd_src n, s))]
      end
  | (Stop, n) :: t' => (Stop, Node (nd_hint n) (nd_src n, s)) :: inspect_t f s t'
  | (Boom, n) :: t' => (Boom, Node (nd_hint n) (nd_src n, s)) :: inspect_t f s t'
  end.
Definition it_inspect {A R S} (f : S -> A -> option S) (s : S) (it : iter A R)
  : iter A (R * S) :=
  Iter (Node (it_hint it) (it_src it, s)) (inspect_t f s (it_tr it)).

(** [iter::once(a).chain(it)] *)
Definition it_chain_once {A R} (a : A) (it : iter A R) : iter A R :=
  let '(lo, hi) := it_hint it in
  Iter (Node (sat_add 1 lo,
              match hi with Some h => checked_add 1 h | None => None end)
             (it_src it))
       ((Yield a, it_node it) :: it_tr it).

(** [Iterator::flatten] of arrays of length [w] (lists here), fused as in core.
    The hint is the one of arrays: [w] items per outer item plus what is left
    of the current array. *)
Definition flat_hint (w rest : N) (h : hint) : hint :=
  (sat_add (sat_mul (fst h) w) rest,
   match snd h with
   | Some u => match checked_mul w u with Some m => checked_add rest m | None => None end
   | None => None
   end).
Fixpoint emit_t {A R} (w : N) (l : list A) (n : node R) (rest : trace A R) : trace A R :=
  match l with
  | [] => rest
  | a :: l' =>
      (Yield a, Node (flat_hint w (N.of_nat (length l')) (nd_hint n)) (nd_src n))
        :: emit_t w l' n rest
  end.
Fixpoint flatten_t {A R} (w : N) (cur : node R) (t : trace (list A) R) : trace A R :=
  match t with
  | [] => [(Stop, Node (0%N, Some 0%N) (nd_src cur))]
  | (Yield l, n) :: t' => emit_t w l n (flatten_t w n t')
  | (Stop, n) :: _ => [(Stop, Node (0%N, Some 0%N) (nd_src n))]
  | (Boom, n) :: _ => [(Boom, n)]
  end.
Definition it_flatten {A R} (w : N) (it : iter (list A) R) : iter A R :=
  Iter (Node (flat_hint w 0 (it_hint it)) (it_src it))
       (flatten_t w (it_node it) (it_tr it)).

(** An exact-size iterator over a list ([vec::IntoIter], [iter::once],
    [slice::Iter::copied], [repeat_n().chain()]). *)
Definition exact_hint (n : nat) : hint := (N.of_nat n, Some (N.of_nat n)).
Fixpoint list_t {A} (l : list A) : trace A unit :=
  match l with
  | [] => []
  | a :: l' => (Yield a, Node (exact_hint (length l')) tt) :: list_t l'
  end.
Definition it_list {A} (l : list A) : iter A unit :=
  Iter (Node (exact_hint (length l)) tt) (list_t l).
