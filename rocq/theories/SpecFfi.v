(** * Vocabulary of the Arrow C Data Interface

    What the buffers of an array mean (Arrow columnar format), what a consumer
    may rely on (safety contract of [Import::import]), and which array/schema
    pairs describe an array of a given type. *)
From Coq Require Import List NArith ZArith Bool Arith.
From Verif Require Import Base Iter VecModel BitmapModel CollModel ValidityModel FlattenModel
  OffsetsModel LayoutModel Spec SpecTables SpecParts Reach FfiModel.
Import ListNotations.

(** ** Reading memory *)

Definition buffer (a : carray) (i : nat) : option cbuffer :=
  match a_buffers a with Some l => nth i l None | None => None end.
Definition child (a : carray) : option carray :=
  match a_children a with Some (c :: _) => c | _ => None end.
Definition schema_child (s : cschema) : option cschema :=
  match s_children s with Some (c :: _) => c | _ => None end.

(** Bit [i] of a buffer, least significant bit first. *)
Definition bit_at (b : cbuffer) (i : nat) (x : bool) : Prop :=
  nth_error (bits_of (cb_data b)) i = Some x.
(** The [i]-th value of [w] bytes, least significant byte first. *)
Definition word_at (w : nat) (b : cbuffer) (i : nat) (v : N) : Prop :=
  (i * w + w <= length (cb_data b)) /\
  v = total (fun j => nth (i * w + j) (cb_data b) 0 * 256 ^ N.of_nat j)%N (seq 0 w).
(** The [i]-th offset, in two's complement. *)
Definition offset_at (k : okind) (b : cbuffer) (i : nat) (z : Z) : Prop :=
  exists u, word_at (N.to_nat (offset_bytes k)) b i u /\ (offset_min k <= z <= offset_max k)%Z /\
    ((z - Z.of_N u) mod 2 ^ (8 * Z.of_N (offset_bytes k)) = 0)%Z.

(** ** Items of an array *)

(** Item [i] is valid: there is no validity bitmap or its bit is set. *)
Definition valid_at (a : carray) (i : nat) (x : bool) : Prop :=
  match buffer a 0 with
  | None => x = true
  | Some b => bit_at b i x
  end.
Definition holds_null (nl : bool) (s : shape) (a : carray) (i : nat) (P : cA (coll s) -> Prop)
  : cA (coll (nulls nl s)) -> Prop :=
  match nl return cA (coll (nulls nl s)) -> Prop with
  | false => P
  | true => fun o : option (cA (coll s)) =>
      match o with
      | Some x => valid_at a i true /\ P x
      | None => valid_at a i false
      end
  end.
(** The array holds the item at position [i]: the Arrow layouts. *)
Fixpoint holds (t : ty) (a : carray) (i : nat) {struct t} : cA (layout t) -> Prop :=
  match t return cA (layout t) -> Prop with
  | TBool nl => holds_null nl SBits a i
      (fun x : bool => exists b, buffer a 1 = Some b /\ bit_at b i x)
  | TPrim p nl => holds_null nl (SVec p) a i
      (fun v : N => exists b, buffer a 1 = Some b /\ word_at (N.to_nat (value_bytes p)) b i v)
  | TFsl n t nl => holds_null nl (SFixed n (shape_of t)) a i
      (fun xs : list (cA (layout t)) => length xs = n /\
         exists ca, child a = Some ca /\
         forall j x, nth_error xs j = Some x -> holds t ca (i * n + j) x)
  | TVsl k t nl => holds_null nl (SList k (shape_of t)) a i
      (fun xs : list (cA (layout t)) => exists b ca lo hi,
         buffer a 1 = Some b /\ child a = Some ca /\
         offset_at k b i lo /\ offset_at k b (S i) hi /\
         (0 <= lo)%Z /\ (hi = lo + Z.of_nat (length xs))%Z /\
         forall j x, nth_error xs j = Some x -> holds t ca (Z.to_nat lo + j) x)
  end.

(** ** Formats *)

(** Item types that can be exported; widths are of type usize. *)
Fixpoint arrow_type (t : ty) : Prop :=
  match t with
  | TBool _ => True
  | TPrim p _ => arrow_code p <> None
  | TFsl n t _ => (N.of_nat n <= usize_max)%N /\ arrow_type t
  | TVsl _ t _ => arrow_type t
  end.

(** [n] written in decimal; leading zeros are allowed. *)
Definition is_digit (b : N) : Prop := (48 <= b <= 57)%N.
Definition decimal_value (digits : list N) : N :=
  fold_left (fun v b => v * 10 + (b - 48))%N digits 0%N.
Definition format_for (t : ty) (f : list N) : Prop :=
  match t with
  | TBool _ => f = [98]%N                                  (* b *)
  | TPrim p _ => exists x, arrow_code p = Some x /\ f = [x]
  | TFsl n _ _ => exists digits, f = [43; 119; 58]%N ++ digits /\    (* +w: *)
      digits <> [] /\ Forall is_digit digits /\ decimal_value digits = N.of_nat n
  | TVsl I32 _ _ => f = [43; 108]%N                        (* +l *)
  | TVsl I64 _ _ => f = [43; 76]%N                         (* +L *)
  end.

(** ** The safety contract of import

    All non-null pointers are valid: tables have the declared number of
    entries, buffers the bytes that the declared length needs, children satisfy
    the contract. Memory consists of bytes and no buffer is larger than the
    address space. Nothing is assumed about the values of scalar fields and which
    pointers are null. *)
Definition holds_bytes (a : carray) (i : nat) (n : Z) : Prop :=
  forall b, buffer a i = Some b -> (n <= Z.of_nat (length (cb_data b)))%Z.
Definition bytes (l : list N) : Prop := Forall (fun b => b < 256)%N l.
Definition in_memory (a : carray) (i : nat) : Prop :=
  forall b, buffer a i = Some b -> bytes (cb_data b) /\ (lenN (cb_data b) <= alloc_max)%N.
Fixpoint readable (t : ty) (a : carray) (s : cschema) {struct t} : Prop :=
  (forall l, a_buffers a = Some l -> (a_n_buffers a <= Z.of_nat (length l))%Z) /\
  (forall l, a_children a = Some l -> (a_n_children a <= Z.of_nat (length l))%Z) /\
  (forall l, s_children s = Some l -> (s_n_children s <= Z.of_nat (length l))%Z) /\
  in_memory a 0 /\ in_memory a 1 /\
  ((0 <= a_length a)%Z ->
     (nullable t = true -> holds_bytes a 0 ((a_length a + 7) / 8)) /\
     match t with
     | TBool _ => holds_bytes a 1 ((a_length a + 7) / 8)
     | TPrim p _ => holds_bytes a 1 (a_length a * Z.of_N (value_bytes p))
     | TFsl _ _ _ => True
     | TVsl k _ _ => holds_bytes a 1 ((a_length a + 1) * Z.of_N (offset_bytes k))
     end) /\
  match t with
  | TBool _ | TPrim _ _ => True
  | TFsl _ t _ | TVsl _ t _ =>
      forall ca cs, child a = Some ca -> schema_child s = Some cs -> readable t ca cs
  end.

(** ** Pairs that describe an array of type [t] *)

Definition aligned_at (a : carray) (w : N) : Prop :=
  exists b, buffer a 1 = Some b /\ (cb_addr b mod w = 0)%N.
Definition count_zeros (l : list bool) : nat := length (filter negb l).
(** The declared null count is unknown or right. *)
Definition nulls_ok (nl : bool) (a : carray) : Prop :=
  a_null_count a = (-1)%Z \/
  a_null_count a =
    (if nl then
       match buffer a 0 with
       | Some b => Z.of_nat (count_zeros (firstn (Z.to_nat (a_length a)) (bits_of (cb_data b))))
       | None => 0
       end
     else 0)%Z.
Fixpoint describes (t : ty) (a : carray) (s : cschema) {struct t} : Prop :=
  a_live a = true /\ s_live s = true /\
  (exists f, s_format s = Some f /\ format_for t f) /\
  Z.testbit (s_flags s) 1 = nullable t /\
  (0 <= a_length a)%Z /\ a_offset a = 0%Z /\
  a_dictionary a = None /\ s_dictionary s = None /\ a_buffers a <> None /\
  nulls_ok (nullable t) a /\
  (nullable t = true -> buffer a 0 = None -> a_length a = 0%Z \/ a_null_count a = 0%Z) /\
  match t with
  | TBool _ =>
      a_n_buffers a = 2%Z /\ a_n_children a = 0%Z /\ s_n_children s = 0%Z /\
      (a_length a <> 0%Z -> buffer a 1 <> None)
  | TPrim p _ =>
      a_n_buffers a = 2%Z /\ a_n_children a = 0%Z /\ s_n_children s = 0%Z /\
      (a_length a <> 0%Z -> aligned_at a (value_bytes p))
  | TFsl n t _ =>
      a_n_buffers a = 1%Z /\ a_n_children a = 1%Z /\ s_n_children s = 1%Z /\ 0 < n /\
      exists ca cs, child a = Some ca /\ schema_child s = Some cs /\ describes t ca cs /\
        a_length ca = (a_length a * Z.of_nat n)%Z
  | TVsl k t _ =>
      a_n_buffers a = 2%Z /\ a_n_children a = 1%Z /\ s_n_children s = 1%Z /\
      aligned_at a (offset_bytes k) /\
      exists ca cs, child a = Some ca /\ schema_child s = Some cs /\ describes t ca cs /\
        exists b zs, buffer a 1 = Some b /\ Z.of_nat (length zs) = (a_length a + 1)%Z /\
          (forall i z, nth_error zs i = Some z -> offset_at k b i z) /\
          offsets_ok zs (Z.to_nat (a_length ca))
  end.

(** ** Exported arrays *)

(** The bit offsets of all bitmaps, outermost first. *)
Fixpoint bit_offsets (s : shape) : cC (coll s) -> list nat :=
  match s with
  | SVec _ | SAny _ _ _ => fun _ => []
  | SBits => fun b : bitmap => [bm_off b]
  | SNull s => fun v : validity (cC (coll s)) =>
      match va_bm v with Some b => [bm_off b] | None => [] end ++ bit_offsets s (va_coll v)
  | SFixed _ s => bit_offsets s
  | SList _ s => fun o : offsets (cC (coll s)) => bit_offsets s (of_data o)
  end.
(** Elements are of the types the buffers have: bytes and values that fit their
    size. *)
Fixpoint typed (s : shape) : cC (coll s) -> Prop :=
  match s with
  | SVec p => fun v : vec N => Forall (fun x => x < 256 ^ value_bytes p)%N (v_items v)
  | SBits => fun b : bitmap => bytes (v_items (bm_buf b))
  | SAny _ _ _ => fun _ => True
  | SNull s => fun v : validity (cC (coll s)) =>
      match va_bm v with Some b => bytes (v_items (bm_buf b)) | None => True end /\
      typed s (va_coll v)
  | SFixed _ s => typed s
  | SList _ s => fun o : offsets (cC (coll s)) => typed s (of_data o)
  end.
(** The allocator aligns buffers for their elements. *)
Fixpoint aligned (mem : block -> N) (d : nat) (t : ty) : Prop :=
  match t with
  | TBool _ => True
  | TPrim p _ => (mem (BValues d) mod value_bytes p = 0)%N
  | TFsl _ t _ => aligned mem (S d) t
  | TVsl k t _ => (mem (BOffsets d) mod offset_bytes k = 0)%N /\ aligned mem (S d) t
  end.
(** The number of null items. *)
Definition nones_of (nl : bool) (s : shape) : list (cA (coll (nulls nl s))) -> nat :=
  match nl return list (cA (coll (nulls nl s))) -> nat with
  | true => fun xs : list (option (cA (coll s))) =>
      length (filter (fun o => negb (is_some o)) xs)
  | false => fun _ => 0
  end.
Definition null_items (t : ty) : list (cA (layout t)) -> nat :=
  match t return list (cA (layout t)) -> nat with
  | TBool nl => nones_of nl SBits
  | TPrim p nl => nones_of nl (SVec p)
  | TFsl n t nl => nones_of nl (SFixed n (shape_of t))
  | TVsl k t nl => nones_of nl (SList k (shape_of t))
  end.
Definition first_nonzero (l : list nat) : option nat := find (fun o => negb (Nat.eqb o 0)) l.
