(** * The bytes of an exported array, as the Arrow format prescribes them *)
From Coq Require Import List NArith ZArith Bool Arith.
From Verif Require Import Base Iter VecModel BitmapModel CollModel ValidityModel FlattenModel
  OffsetsModel LayoutModel Spec SpecTables Reach SpecLaid FfiModel SpecFfi.
Import ListNotations.

(** [w] bytes, the least significant first *)
Definition word_bytes (w : N) (v : N) : list N :=
  map (fun j => (v / 256 ^ N.of_nat j) mod 256)%N (seq 0 (N.to_nat w)).

(** The values of an item fit their types (a fact of Rust's types). *)
Fixpoint item_fits (s : shape) : cA (coll s) -> Prop :=
  match s with
  | SVec p => fun v : N => (v < 256 ^ value_bytes p)%N
  | SBits | SAny _ _ _ => fun _ => True
  | SNull s => fun o : option (cA (coll s)) => forall x, o = Some x -> item_fits s x
  | SFixed _ s | SList _ s => fun l : list (cA (coll s)) => forall x, In x l -> item_fits s x
  end.

(** What is stored for the items: the values, with the default value for nulls. *)
Definition slots (nl : bool) (s : shape) : list (cA (coll (nulls nl s))) -> list (cA (coll s)) :=
  match nl return list (cA (coll (nulls nl s))) -> list (cA (coll s)) with
  | true => fun xs : list (option (cA (coll s))) => map (slot (default_item s)) xs
  | false => fun xs => xs
  end.
(** The first buffer: the validity bitmap, which may be absent if there are no
    nulls. *)
Definition validity_of (nl : bool) (s : shape) (a : carray)
  : list (cA (coll (nulls nl s))) -> Prop :=
  match nl return list (cA (coll (nulls nl s))) -> Prop with
  | true => fun xs : list (option (cA (coll s))) =>
      match buffer a 0 with
      | Some b => cb_data b = arrow_bits (map present xs)
      | None => forall x, In x xs -> x <> None
      end
  | false => fun _ => buffer a 0 = None
  end.
Definition counts_of (t : ty) (a : carray) (xs : list (cA (layout t))) : Prop :=
  a_length a = Z.of_nat (length xs) /\ a_null_count a = Z.of_nat (null_items t xs) /\
  a_offset a = 0%Z.
(** [a] is, byte for byte and at every level, the array of the items [xs]. *)
Fixpoint encodes (t : ty) (a : carray) {struct t} : list (cA (layout t)) -> Prop :=
  match t return list (cA (layout t)) -> Prop with
  | TBool nl => fun xs =>
      counts_of (TBool nl) a xs /\ validity_of nl SBits a xs /\
      option_map cb_data (buffer a 1) = Some (arrow_bits (slots nl SBits xs))
  | TPrim p nl => fun xs =>
      counts_of (TPrim p nl) a xs /\ validity_of nl (SVec p) a xs /\
      option_map cb_data (buffer a 1) =
        Some (concat (map (word_bytes (value_bytes p)) (slots nl (SVec p) xs)))
  | TFsl n t nl => fun xs =>
      counts_of (TFsl n t nl) a xs /\ validity_of nl (SFixed n (shape_of t)) a xs /\
      exists ca, child a = Some ca /\
        encodes t ca (concat (slots nl (SFixed n (shape_of t)) xs : list (list (cA (layout t)))))
  | TVsl k t nl => fun xs =>
      counts_of (TVsl k t nl) a xs /\ validity_of nl (SList k (shape_of t)) a xs /\
      option_map cb_data (buffer a 1) =
        Some (concat (map (fun z => word_bytes (offset_bytes k) (Z.to_N z))
          (arrow_offsets 0 (slots nl (SList k (shape_of t)) xs : list (list (cA (layout t))))))) /\
      exists ca, child a = Some ca /\
        encodes t ca (concat (slots nl (SList k (shape_of t)) xs : list (list (cA (layout t)))))
  end.

(** Export succeeds, the consumer reads the items, and importing the result
    gives an array of the same items. *)
Definition travels (mem : block -> N) (t : ty) (c : cC (layout t)) (xs : list (cA (layout t))) : Prop :=
  exists a s c', export mem t c = XOk (a, s) /\ describes t a s /\ encodes t a xs /\
    (forall i x, nth_error xs i = Some x -> holds t a i x) /\
    import t a s = IOk c' /\ shows (layout t) c' xs.
