(** * bitmap/unpacked.rs over any iterator of bytes

    [BitmapModel] has [BitUnpacked] over the bytes of a buffer; here the inner
    iterator is any script. *)
From Coq Require Import List NArith Bool.
From Verif Require Import Base Iter.
Import ListNotations.

(** unpacked.rs:49-74 size_hint, with [buffered] bits left of the byte that was
    fetched last; for every one-bit mask [strict_sub] cannot overflow. *)
Definition unpacked_node {R} (buffered : N) (n : node R) : node R :=
  let '(lo, hi) := nd_hint n in
  Node (sat_add (sat_mul lo 8) buffered,
        match hi with
        | Some h => match checked_mul h 8 with
                    | Some b => checked_add b buffered
                    | None => None
                    end
        | None => None
        end)
       (nd_src n).
(** unpacked.rs:34-46 next: [k] bits of [byte] are left, the mask selects the first
    of them; the inner iterator is called when the mask is back at the first bit. A
    [None] is forgotten by the next call, which asks again. *)
Fixpoint unpacked_bits {R} (k : nat) (byte : N) (n : node R) : trace bool R :=
  match k with
  | O => []
  | S k' => (Yield (negb (N.land byte (N.shiftl 1 (N.of_nat (7 - k'))) =? 0)%N),
             unpacked_node (N.of_nat k') n) :: unpacked_bits k' byte n
  end.
Fixpoint unpacked_t {R} (t : trace N R) : trace bool R :=
  match t with
  | [] => []
  | (Yield b, n) :: t' => unpacked_bits 8 b n ++ unpacked_t t'
  | (Stop, n) :: t' => (Stop, unpacked_node 0 n) :: unpacked_t t'
  | (Boom, n) :: _ => [(Boom, unpacked_node 0 n)]
  end.
(** unpacked.rs:94-103 bit_unpacked *)
Definition it_unpacked {R} (it : iter N R) : iter bool R :=
  Iter (unpacked_node 0 (it_node it)) (unpacked_t (it_tr it)).
