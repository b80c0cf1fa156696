(** * What an operation does to the buffers of a collection

    A reference description of the contents of the buffers, written without the
    operations of the model; only the fields of the collections are named.
    Capacities are no part of it. *)
From Coq Require Import List NArith ZArith Bool Arith.
From Verif Require Import Base Spec VecModel BitmapModel CollModel ValidityModel FlattenModel
  OffsetsModel LayoutModel Reach SpecLaid.
Import ListNotations.

(** ** Bits *)

(** All the bits of the buffer, where the bitmap begins in it and its length. *)
Record bits_image : Type := BitsImage { bi_all : list bool; bi_start : nat; bi_count : nat }.

(** The least multiple of eight that is not below [n]. *)
Definition to_byte (n : nat) : nat := 8 * ((n + 7) / 8).

(** Append [xs]. Bits in front of the end keep their values. What follows the
    new end is untouched if [xs] fits into the byte that the old end is in;
    otherwise the rest of the last byte written is zero, and bytes behind it are
    untouched. *)
Definition put_bits (m : bits_image) (xs : list bool) : bits_image :=
  let fin := bi_start m + bi_count m in
  let fin' := fin + length xs in
  BitsImage
    (firstn fin (bi_all m) ++ xs ++
       (if fin' <=? to_byte fin then skipn fin' (bi_all m)
        else repeat false (to_byte fin' - fin') ++ skipn (to_byte fin') (bi_all m)))
    (bi_start m) (bi_count m + length xs).
(** Shorten: the buffer keeps all its bits. *)
Definition cut_bits (m : bits_image) (n : nat) : bits_image :=
  BitsImage (bi_all m) (bi_start m) (Nat.min n (bi_count m)).
(** The bitmap that an absent one stands for *)
Definition ones (n : nat) : bits_image :=
  BitsImage (repeat true n ++ repeat false (to_byte n - n)) 0 n.

Definition bits_in (b : bitmap) : bits_image :=
  BitsImage (bits_of (v_items (bm_buf b))) (bm_off b) (bm_bits b).

(** ** Collections *)

Fixpoint image (s : shape) : Type :=
  match s with
  | SVec _ => list N
  | SAny A _ _ => list A
  | SBits => bits_image
  | SNull s => image s * option bits_image
  | SFixed _ s => image s
  | SList _ s => image s * list Z
  end.
Fixpoint image_of (s : shape) : cC (coll s) -> image s :=
  match s with
  | SVec _ => fun v : vec N => v_items v
  | SAny A _ _ => fun v : vec A => v_items v
  | SBits => bits_in
  | SNull s => fun v : validity (cC (coll s)) =>
      (image_of s (va_coll v), option_map bits_in (va_bm v))
  | SFixed _ s => fun c => image_of s c
  | SList _ s => fun o : offsets (cC (coll s)) =>
      (image_of s (of_data o), v_items (of_offs o))
  end.

(** The number of items *)
Fixpoint image_len (s : shape) : image s -> nat :=
  match s with
  | SVec _ => fun l : list N => length l
  | SAny A _ _ => fun l : list A => length l
  | SBits => bi_count
  | SNull s => fun p : image s * option bits_image =>
      match snd p with Some m => bi_count m | None => image_len s (fst p) end
  | SFixed n s => fun p => image_len s p / n
  | SList _ s => fun p : image s * list Z => length (snd p) - 1
  end.

(** Absent bitmaps of validity, at any depth, replaced by what they stand for *)
Fixpoint filled (s : shape) : image s -> image s :=
  match s with
  | SVec _ => fun p => p
  | SAny A _ _ => fun p => p
  | SBits => fun p => p
  | SNull s => fun p : image s * option bits_image =>
      (filled s (fst p),
       Some (match snd p with Some m => m | None => ones (image_len s (fst p)) end))
  | SFixed _ s => filled s
  | SList _ s => fun p : image s * list Z => (filled s (fst p), snd p)
  end.

(** Append lists one by one: the items of a list behind the data, where it ends
    behind the offsets. *)
Fixpoint put_lists {I A} (put : I -> list A -> I) (p : I * list Z) (ls : list (list A)) : I * list Z :=
  match ls with
  | [] => p
  | l :: ls' =>
      put_lists put (put (fst p) l, snd p ++ [(last (snd p) 0 + Z.of_nat (length l))%Z]) ls'
  end.
(** Append items to an image without absent bitmaps. The slot of a null takes the
    default value. *)
Fixpoint put (s : shape) : image s -> list (cA (coll s)) -> image s :=
  match s with
  | SVec _ => fun (l : list N) (xs : list N) => l ++ xs
  | SAny A _ _ => fun (l : list A) (xs : list A) => l ++ xs
  | SBits => put_bits
  | SNull s => fun (p : image s * option bits_image) (xs : list (option (cA (coll s)))) =>
      (put s (fst p) (map (slot (default_item s)) xs),
       option_map (fun m => put_bits m (map present xs)) (snd p))
  | SFixed _ s => fun (p : image s) (xs : list (list (cA (coll s)))) => put s p (concat xs)
  | SList _ s => fun (p : image s * list Z) (xs : list (list (cA (coll s)))) =>
      put_lists (put s) p xs
  end.

(** Keep the first [n] items. Fixed-size and variable-size lists are shortened only
    if they are longer. *)
Fixpoint cut_items (s : shape) : image s -> nat -> image s :=
  match s with
  | SVec _ => fun (l : list N) n => firstn n l
  | SAny A _ _ => fun (l : list A) n => firstn n l
  | SBits => cut_bits
  | SNull s => fun (p : image s * option bits_image) n =>
      (cut_items s (fst p) n, option_map (fun m => cut_bits m n) (snd p))
  | SFixed w s => fun (p : image s) n =>
      if n <? image_len s p / w then cut_items s p (n * w) else p
  | SList _ s => fun (p : image s * list Z) n =>
      if n <? length (snd p) - 1
      then (cut_items s (fst p) (Z.to_nat (nth n (snd p) 0%Z)), firstn (S n) (snd p))
      else p
  end.

(** Nothing behind the items: at any depth a bitmap of validity is as long as the
    values, and the last list ends where the data end. Collecting leaves
    collections like this, and so does everything else but an abandoned
    extension and assembling from parts. *)
Fixpoint snug (s : shape) : image s -> Prop :=
  match s with
  | SVec _ => fun _ => True
  | SAny A _ _ => fun _ => True
  | SBits => fun _ => True
  | SNull s => fun p : image s * option bits_image =>
      snug s (fst p) /\
      match snd p with Some m => bi_count m = image_len s (fst p) | None => True end
  | SFixed _ s => snug s
  | SList _ s => fun p : image s * list Z =>
      snug s (fst p) /\ last (snd p) 0%Z = Z.of_nat (image_len s (fst p))
  end.

(** The same buffers, up to absent bitmaps *)
Definition same_bytes (s : shape) (c1 c2 : cC (coll s)) : Prop :=
  filled s (image_of s c1) = filled s (image_of s c2).

(** One operation, where no bitmap of validity can be absent *)
Definition effect (s : shape) (p : image s) (q : op (cA (coll s))) : image s :=
  match q with
  | OpExtend it | OpTryExtend it _ => put s p (items_of it)
  | OpReserve _ | OpTryReserve _ _ => p
  | OpTruncate n => cut_items s p (N.to_nat n)
  end.
(** Extensions succeed; reservations may fail. *)
Definition extends {A} (p : op A) (o : outcome) : Prop :=
  match p with
  | OpExtend _ | OpTryExtend _ _ => o = ODone
  | OpReserve _ | OpTryReserve _ _ | OpTruncate _ => True
  end.
