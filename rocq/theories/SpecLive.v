(** * Vocabulary of the theorems about operations that succeed *)
From Coq Require Import List NArith ZArith Bool Arith.
From Verif Require Import Base Iter VecModel BitmapModel CollModel ValidityModel
  FlattenModel OffsetsModel LayoutModel Spec Reach.
Import ListNotations.

(** Vectors, bitmaps, and nullable and fixed-size-list collections over them. *)
Fixpoint no_lists (s : shape) : Prop :=
  match s with
  | SVec _ | SBits | SAny _ _ _ => True
  | SNull s | SFixed _ s => no_lists s
  | SList _ _ => False
  end.

(** Does collecting reserve for the upper bound of the size hint? *)
Fixpoint takes_upper (s : shape) : bool :=
  match s with
  | SVec _ | SBits | SAny _ _ _ => false
  | SNull _ | SList _ _ => true
  | SFixed _ s => takes_upper s
  end.

(** What reserving [n] items pays for, lists included: at most [n] items, and at
    every level of lists at most [n] elements in total. Offsets must be
    representable. *)
Fixpoint covered (s : shape) : cC (coll s) -> N -> list (cA (coll s)) -> Prop :=
  match s with
  | SVec _ | SAny _ _ _ => fun _ n xs => (lenN xs <= n)%N
  | SBits => fun _ n xs => (lenN xs <= n)%N
  | SNull s => fun (v : validity (cC (coll s))) n (xs : list (option (cA (coll s)))) =>
      (lenN xs <= n)%N /\
      covered s (va_coll v) n
        (map (fun x => match x with Some y => y | None => k_item0 (coll s) end) xs)
  | SFixed m s => fun c n (xs : list (list (cA (coll s)))) =>
      covered s c (n * N.of_nat m)%N (concat xs)
  | SList k s => fun (o : offsets (cC (coll s))) n (xs : list (list (cA (coll s)))) =>
      (lenN xs <= n)%N /\ covered s (of_data o) n (concat xs) /\
      (last (v_items (of_offs o)) 0 + Z.of_nat (length (concat xs)) <= omax k)%Z
  end.

(** An iterator that ends, whose lower size bound is honest and whose items are
    well formed. *)
Definition good (s : shape) {R} (it : iter (cA (coll s)) R) : Prop :=
  fin_of it = FStop /\ honest it /\ Forall (item_ok s) (items_of it).

(** Successive fallible extensions, each with its own allocator. *)
Definition try_extends {A} (its : list (iter A unit * world)) : list (op A) :=
  map (fun p => OpTryExtend (fst p) (snd p)) its.
Definition all_items {A} (its : list (iter A unit * world)) : list A :=
  flat_map (fun p => items_of (fst p)) its.
