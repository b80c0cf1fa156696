(** * The physical layout that the Arrow format prescribes for a list of items

    Written from the format, without the operations of the model; only the fields
    of the collections are named. *)
From Coq Require Import List NArith ZArith Bool Arith.
From Verif Require Import Base VecModel BitmapModel CollModel ValidityModel FlattenModel
  OffsetsModel LayoutModel Reach.
Import ListNotations.

(** Bits as a number, the first is the least significant. *)
Fixpoint bits_value (l : list bool) : N :=
  match l with
  | [] => 0
  | b :: l' => (if b then 1 else 0) + 2 * bits_value l'
  end%N.
(** Eight bits per byte; what is left of the last byte is zero, and there is no
    further byte. *)
Fixpoint bytes_from (n : nat) (l : list bool) : list N :=
  match n with
  | O => []
  | S n' => bits_value (firstn 8 l) :: bytes_from n' (skipn 8 l)
  end.
Definition arrow_bits (l : list bool) : list N := bytes_from ((length l + 7) / 8) l.

(** One offset more than there are lists, the first is [z], each list ends where
    the next one begins. *)
Fixpoint arrow_offsets {A} (z : Z) (ls : list (list A)) : list Z :=
  match ls with
  | [] => [z]
  | l :: ls' => z :: arrow_offsets (z + Z.of_nat (length l)) ls'
  end.

(** The value in the slot of a null: [T::default()] *)
Fixpoint default_item (s : shape) : cA (coll s) :=
  match s with
  | SVec _ => 0%N
  | SBits => false
  | SNull _ => None
  | SFixed n s => repeat (default_item s) n
  | SList _ _ => []
  | SAny _ a0 _ => a0
  end.
Definition slot {A} (x0 : A) (o : option A) : A := match o with Some x => x | None => x0 end.
Definition present {A} (o : option A) : bool := match o with Some _ => true | None => false end.

Definition laid_bits (b : bitmap) (xs : list bool) : Prop :=
  bm_off b = 0 /\ bm_bits b = length xs /\ v_items (bm_buf b) = arrow_bits xs.
(** The buffers of [c] hold [xs] and nothing else. A bitmap of validity may be
    absent if nothing is null. *)
Fixpoint laid (s : shape) : cC (coll s) -> list (cA (coll s)) -> Prop :=
  match s with
  | SVec _ => fun (v : vec N) (xs : list N) => v_items v = xs
  | SAny A _ _ => fun (v : vec A) (xs : list A) => v_items v = xs
  | SBits => laid_bits
  | SNull s => fun (v : validity (cC (coll s))) (xs : list (option (cA (coll s)))) =>
      laid s (va_coll v) (map (slot (default_item s)) xs) /\
      match va_bm v with
      | Some b => laid_bits b (map present xs)
      | None => forall x, In x xs -> x <> None
      end
  | SFixed n s => fun c (xs : list (list (cA (coll s)))) =>
      (forall x, In x xs -> length x = n) /\ laid s c (concat xs)
  | SList k s => fun (o : offsets (cC (coll s))) (xs : list (list (cA (coll s)))) =>
      laid s (of_data o) (concat xs) /\ v_items (of_offs o) = arrow_offsets 0 xs
  end.

(** A history that appends and reserves: extensions succeed, reservations may fail. *)
Definition appends {A} (p : op A) (o : outcome) : Prop :=
  match p with
  | OpExtend _ | OpTryExtend _ _ => o = ODone
  | OpReserve _ | OpTryReserve _ _ => True
  | OpTruncate _ => False
  end.
