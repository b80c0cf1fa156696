(** * Bitmaps: src/bitmap/{mod,packed,unpacked,validity}.rs

    Bytes are [N] below 256, bits are numbered from the least significant. *)
From Coq Require Import List NArith Bool Arith.
From Verif Require Import Base Iter VecModel.
Import ListNotations.

(** u8 is one byte: the element size of the bitmap buffer. *)
Definition u8sz : N := 1%N.

Definition b2n (b : bool) : N := if b then 1%N else 0%N.

(** ** bitmap/packed.rs *)

(** packed.rs:49-54 size_hint *)
Definition packed_node {R} (n : node R) : node R :=
  let '(lo, hi) := nd_hint n in
  Node (bytes_for_bits lo,
        match hi with Some h => Some (bytes_for_bits h) | None => None end)
       (nd_src n).
(** packed.rs:29-46 next: the first item is bit 0, then seven more calls of
    [next] that go on after [None]. [pos] is the bit position of the next call
    and [acc] the byte built so far. *)
Fixpoint packed_t {R} (pos : nat) (acc : N) (cur : node R) (t : trace bool R)
  : trace N R :=
  match t with
  | [] => match pos with
          | O => []
          | _ => [(Yield acc, packed_node cur)]
          end
  | (Boom, n) :: _ => [(Boom, packed_node n)]
  | (Yield b, n) :: t' =>
      let acc' := match pos with
                  | O => b2n b
                  | _ => if b then N.lor acc (N.shiftl 1 (N.of_nat pos)) else acc
                  end in
      if Nat.eqb pos 7 then (Yield acc', packed_node n) :: packed_t 0 0%N n t'
      else packed_t (S pos) acc' n t'
  | (Stop, n) :: t' =>
      match pos with
      | O => (Stop, packed_node n) :: packed_t 0 0%N n t'
      | _ => if Nat.eqb pos 7 then (Yield acc, packed_node n) :: packed_t 0 0%N n t'
             else packed_t (S pos) acc n t'
      end
  end.
Definition it_packed {R} (it : iter bool R) : iter N R :=
  Iter (packed_node (it_node it)) (packed_t 0 0%N (it_node it) (it_tr it)).

(** ** bitmap/unpacked.rs over an exact-size iterator of bytes *)

Record unpacked : Type :=
  Unpacked { up_rest : list N; up_byte : option N; up_mask : N }.

(** unpacked.rs:94-103 bit_unpacked *)
Definition unpacked_new (bytes : list N) : unpacked := Unpacked bytes None 1%N.
(** u8::rotate_left(1) of a mask *)
Definition rotate1 (m : N) : N :=
  N.lor (N.land (N.shiftl m 1) 255) (N.shiftr m 7).
(** unpacked.rs:34-46 next *)
Definition unpacked_next (u : unpacked) : option bool * unpacked :=
  let '(byte, rest) :=
    if (up_mask u =? 1)%N
    then match up_rest u with [] => (None, []) | b :: r => (Some b, r) end
    else (up_byte u, up_rest u) in
  match byte with
  | Some b =>
      (Some (negb (N.land b (up_mask u) =? 0)%N),
       Unpacked rest byte (rotate1 (up_mask u)))
  | None => (None, Unpacked rest byte (up_mask u))
  end.
(** unpacked.rs:49-74 size_hint; [trailing_zeros] of a one-bit mask is its
    logarithm. *)
Definition unpacked_hint (u : unpacked) : out hint :=
  let n := lenN (up_rest u) in
  let? buffered :=
    (if (up_mask u =? 1)%N then Ret 0%N else strict_sub 8 (N.log2 (up_mask u))) in
  Ret (sat_add (sat_mul n 8) buffered,
       match checked_mul n 8 with Some b => checked_add b buffered | None => None end).

(** core::iter::Skip / Take over [unpacked]: bitmap/mod.rs:316-322, 330-336 *)
Record bititer : Type := BitIter { bi_skip : nat; bi_take : nat; bi_un : unpacked }.

(** Iterator::nth: [n] calls of next that stop at [None], then one more. *)
Fixpoint unpacked_nth (n : nat) (u : unpacked) : option bool * unpacked :=
  match n with
  | O => unpacked_next u
  | S n' => match unpacked_next u with
            | (Some _, u') => unpacked_nth n' u'
            | (None, u') => (None, u')
            end
  end.
Definition bititer_next (s : bititer) : out (option bool * bititer) :=
  match bi_take s with
  | O => Ret (None, s)
  | S k =>
      let '(x, u) := match bi_skip s with
                     | O => unpacked_next (bi_un s)
                     | n => unpacked_nth n (bi_un s)
                     end in
      Ret (x, BitIter 0 k u)
  end.
Definition bititer_hint (s : bititer) : out hint :=
  match bi_take s with
  | O => Ret (0%N, Some 0%N)
  | k => let? h := unpacked_hint (bi_un s) in
         let sk := N.of_nat (bi_skip s) in
         let lo := (fst h - sk)%N in
         Ret (N.min lo (N.of_nat k),
              match snd h with
              | Some hi => Some (N.min (hi - sk) (N.of_nat k))
              | None => Some (N.of_nat k)
              end)
  end.

(** ** bitmap/mod.rs *)

(** mod.rs:100-114 *)
Record bitmap : Type := Bitmap { bm_buf : vec N; bm_bits : nat; bm_off : nat }.

(** mod.rs:295-303 *)
Definition bm_default : bitmap := Bitmap vec_new 0 0.

(** mod.rs:46-58 BitmapError::OutOfBounds { offset, bits, bytes } *)
Inductive bitmap_error : Type := OutOfBounds (offset bits bytes : N).

(** mod.rs:153-172 try_from_parts *)
Definition bm_try_from_parts (buf : vec N) (bits offset : N) : bitmap + bitmap_error :=
  let bytes := lenN (v_items buf) in
  let capacity := sat_mul bytes 8 in
  match checked_add offset bits with
  | Some required =>
      if (required <=? capacity)%N
      then inl (Bitmap buf (N.to_nat bits) (N.to_nat offset))
      else inr (OutOfBounds offset bits bytes)
  | None => inr (OutOfBounds offset bits bytes)
  end.

(** mod.rs:241-243 into_parts, 185-187 bit_offset, 305-309 len *)
Definition bm_into_parts (b : bitmap) : vec N * nat * nat :=
  (bm_buf b, bm_bits b, bm_off b).
Definition bm_bit_offset (b : bitmap) : nat := bm_off b.
Definition bm_len (b : bitmap) : nat := bm_bits b.

(** mod.rs:248-250 bit_index, 259-261 byte_index *)
Definition bm_bit_index (b : bitmap) (i : N) : out N :=
  let? s := strict_add (N.of_nat (bm_off b)) i in Ret (s mod 8)%N.
Definition bm_byte_index (b : bitmap) (i : N) : out N :=
  let? s := strict_add (N.of_nat (bm_off b)) i in Ret (s / 8)%N.

(** mod.rs:422-427 view *)
Definition bm_view (b : bitmap) (i : N) : out (option bool) :=
  if (i <? N.of_nat (bm_bits b))%N then
    let? byi := bm_byte_index b i in
    match vec_view (bm_buf b) byi with
    | Some byte =>
        let? bi := bm_bit_index b i in
        Ret (Some (negb (N.land byte (N.shiftl 1 bi) =? 0)%N))
    | None => Ret None
    end
  else Ret None.

(** mod.rs:311-337 into_iter, by value and by reference *)
Definition bm_iter (b : bitmap) : bititer :=
  BitIter (bm_off b) (bm_bits b) (unpacked_new (v_items (bm_buf b))).

(** u8::count_ones *)
Definition popcount8 (b : N) : nat :=
  length (filter (fun i => N.testbit b (N.of_nat i)) (seq 0 8)).
(** mod.rs:191-223 count_ones *)
Fixpoint count_masked (bytes : list N) (index last : nat) (lead trail : N) : nat :=
  match bytes with
  | [] => 0
  | byte :: bytes' =>
      let masked :=
        N.land (N.land byte (if Nat.eqb index 0 then lead else 255%N))
               (if Nat.eqb index last then trail else 255%N) in
      popcount8 masked + count_masked bytes' (S index) last lead trail
  end.
Definition bm_count_ones (b : bitmap) : out nat :=
  if Nat.eqb (bm_bits b) 0 then Ret 0
  else
    let? fin := strict_add (N.of_nat (bm_off b)) (N.of_nat (bm_bits b)) in
    let start_byte := bm_off b / 8 in
    let end_bit := (fin mod 8)%N in
    let stop := N.to_nat (bytes_for_bits fin) in
    let items := v_items (bm_buf b) in
    if Nat.leb start_byte stop && Nat.leb stop (length items) then
      let bytes := firstn (stop - start_byte) (skipn start_byte items) in
      match length bytes with
      | O => Pnc
      | S last =>
          let lead := N.land (N.shiftl 255 (N.of_nat (bm_off b mod 8))) 255 in
          let trail := if (end_bit =? 0)%N then 255%N
                       else (N.shiftl 1 end_bit - 1)%N in
          Ret (count_masked bytes 0 last lead trail)
      end
    else Pnc.

(** u8: clear bit [index], then or in [u8::from(b) << index]; mod.rs:359, 562 *)
Definition put_bit (byte : N) (index : nat) (b : bool) : N :=
  N.lor (N.land byte (N.lxor (N.shiftl 1 (N.of_nat index)) 255))
        (N.shiftl (b2n b) (N.of_nat index)).

(** mod.rs:355-362 and 560-565: fill the byte at the logical end, [k] calls of
    next left; the bit count is committed per item ([strict_add] cannot
    overflow below the end of the byte). Returns whether the iterator
    panicked. *)
Fixpoint bm_fill {R} (k : nat) (it : iter bool R) (byte : N) (bits : nat)
  : N * nat * iter bool R * bool :=
  match k with
  | O => (byte, bits, it, false)
  | S k' =>
      match it_next it with
      | (Yield b, it') => bm_fill k' it' (put_bit byte (8 - k) b) (S bits)
      | (Stop, it') => bm_fill k' it' byte bits
      | (Boom, it') => (byte, bits, it', true)
      end
  end.

Definition set_nth {A} (i : nat) (x : A) (l : list A) : list A :=
  firstn i l ++ match skipn i l with [] => [] | _ :: r => x :: r end.

(** mod.rs:351-364 and 556-567: the first phase. [strict_add] of offset and
    bits cannot overflow in a valid bitmap. *)
Definition bm_phase1 {R} (b : bitmap) (it : iter bool R)
  : bitmap * iter bool R * bool :=
  let fin := bm_off b + bm_bits b in
  let bit_index := fin mod 8 in
  if Nat.eqb bit_index 0 then (b, it, false)
  else
    let byte_index := fin / 8 in
    match nth_error (v_items (bm_buf b)) byte_index with
    | None => (b, it, false)
    | Some byte =>
        let '(byte', bits', it', p) := bm_fill (8 - bit_index) it byte (bm_bits b) in
        (Bitmap (Vec (set_nth byte_index byte' (v_items (bm_buf b)))
                     (v_cap (bm_buf b))) bits' (bm_off b), it', p)
    end.

(** mod.rs:377-386 and 576-585: overwrite the bytes beyond the logical end
    ([rest]) with packed bytes. Returns whether the iterator panicked. *)
Fixpoint bm_overwrite {R} (rest : list N) (it : iter N R) : list N * iter N R * bool :=
  match rest with
  | [] => ([], it, false)
  | old :: rest' =>
      match it_next it with
      | (Yield byte, it') =>
          let '(r, it'', p) := bm_overwrite rest' it' in (byte :: r, it'', p)
      | (Stop, it') => (rest, it', false)
      | (Boom, it') => (rest, it', true)
      end
  end.

(** The closure of [inspect], mod.rs:373, 401-403, 460, 488, 573. The counter is
    bounded by the number of items in memory. *)
Definition count_item (c : nat) (_ : bool) : option nat := Some (S c).

(** mod.rs:339-392 extend *)
Definition bm_extend {R} (b : bitmap) (it0 : iter bool R) : bitmap * R * outcome :=
  let it := it_fuse it0 in
  let '(b1, it1, p1) := bm_phase1 b it in
  if p1 then (b1, it_src it1, OPanic)
  else
    match it_next it1 with
    | (Stop, it2) => (b1, it_src it2, ODone)
    | (Boom, it2) => (b1, it_src it2, OPanic)
    | (Yield first, it2) =>
        let packed := it_packed (it_inspect count_item 0 (it_chain_once first it2)) in
        let byte_index := (bm_off b1 + bm_bits b1) / 8 in
        let items := v_items (bm_buf b1) in
        let '(over, packed', p2) := bm_overwrite (skipn byte_index items) packed in
        let buf2 := Vec (firstn byte_index items ++ over) (v_cap (bm_buf b1)) in
        if p2 then (Bitmap buf2 (bm_bits b1) (bm_off b1), fst (it_src packed'), OPanic)
        else
          let '(buf3, (r, consumed), o) := vec_extend u8sz buf2 packed' in
          match o with
          | ODone => (Bitmap buf3 (bm_bits b1 + consumed) (bm_off b1), r, ODone)
          | _ => (Bitmap buf3 (bm_bits b1) (bm_off b1), r, o)
          end
    end.

(** mod.rs:549-594 try_extend *)
Definition bm_try_extend {R} (b : bitmap) (it0 : iter bool R) (w : world)
  : bitmap * R * outcome * world :=
  let original_bits := bm_bits b in
  let it := it_fuse it0 in
  let '(b1, it1, p1) := bm_phase1 b it in
  if p1 then (b1, it_src it1, OPanic, w)
  else
    match it_next it1 with
    | (Stop, it2) => (b1, it_src it2, ODone, w)
    | (Boom, it2) => (b1, it_src it2, OPanic, w)
    | (Yield first, it2) =>
        let packed := it_packed (it_inspect count_item 0 (it_chain_once first it2)) in
        let byte_index := (bm_off b1 + bm_bits b1) / 8 in
        let items := v_items (bm_buf b1) in
        let '(over, packed', p2) := bm_overwrite (skipn byte_index items) packed in
        let buf2 := Vec (firstn byte_index items ++ over) (v_cap (bm_buf b1)) in
        if p2 then (Bitmap buf2 (bm_bits b1) (bm_off b1), fst (it_src packed'), OPanic, w)
        else
          let '(buf3, (r, consumed), o, w') := vec_try_extend u8sz buf2 packed' w in
          match o with
          | ODone => (Bitmap buf3 (bm_bits b1 + consumed) (bm_off b1), r, ODone, w')
          | OErr => (Bitmap buf3 original_bits (bm_off b1), r, OErr, w')
          | _ => (Bitmap buf3 (bm_bits b1) (bm_off b1), r, o, w')
          end
    end.

(** mod.rs:394-412 from_iter and 456-469 from_iter_in: not fused *)
Definition bm_from_iter {R} (it : iter bool R) : bres bitmap * R :=
  let '(res, (r, bits)) := vec_from_iter u8sz (it_packed (it_inspect count_item 0 it)) in
  (bmap (fun buf => Bitmap buf bits 0) res, r).

(** mod.rs:481-497 try_from_iter_in: not fused *)
Definition bm_try_from_iter {R} (it : iter bool R) (w : world)
  : bres bitmap * R * world :=
  let '(res, (r, bits), w') :=
    vec_try_from_iter u8sz (it_packed (it_inspect count_item 0 it)) w in
  (bmap (fun buf => Bitmap buf bits 0) res, r, w').

(** mod.rs:448-454 with_capacity_in, 471-479 try_with_capacity_in *)
Definition bm_with_capacity (cap : N) : bres bitmap :=
  bmap (fun buf => Bitmap buf 0 0) (vec_with_capacity u8sz (bytes_for_bits cap)).
Definition bm_try_with_capacity (cap : N) (w : world) : bres bitmap * world :=
  let '(res, w') := vec_try_with_capacity u8sz (bytes_for_bits cap) w in
  (bmap (fun buf => Bitmap buf 0 0) res, w').

(** mod.rs:527-532 all_set_bytes *)
Definition all_set_bytes (bits : nat) : list N :=
  repeat 255%N (bits / 8) ++
  (if Nat.eqb (bits mod 8) 0 then []
   else [(N.shiftl 1 (N.of_nat (bits mod 8)) - 1)%N]).
(** mod.rs:502-511 all_set_in, 514-524 try_all_set_in *)
Definition bm_all_set (bits : nat) : bres bitmap :=
  bmap (fun buf => Bitmap buf bits 0)
       (fst (vec_from_iter u8sz (it_list (all_set_bytes bits)))).
Definition bm_try_all_set (bits : nat) (w : world) : bres bitmap * world :=
  let '(res, _, w') := vec_try_from_iter u8sz (it_list (all_set_bytes bits)) w in
  (bmap (fun buf => Bitmap buf bits 0) res, w').

(** mod.rs:275-282 trailing_bits (offset+bits cannot overflow) *)
Definition bm_trailing_bits (b : bitmap) : nat :=
  let k := (bm_off b + bm_bits b) mod 8 in
  if Nat.eqb k 0 then 0 else 8 - k.

(** mod.rs:542-547 try_reserve, 596-600 reserve *)
Definition bm_try_reserve (b : bitmap) (add : N) (w : world) : bitmap * outcome * world :=
  let tb := N.of_nat (bm_trailing_bits b) in
  if (tb <=? add)%N then
    let '(buf, o, w') := vec_try_reserve u8sz (bm_buf b) (bytes_for_bits (add - tb)) w in
    (Bitmap buf (bm_bits b) (bm_off b), o, w')
  else (b, ODone, w).
Definition bm_reserve (b : bitmap) (add : N) : bitmap * outcome :=
  let tb := N.of_nat (bm_trailing_bits b) in
  if (tb <=? add)%N then
    let '(buf, o) := vec_reserve u8sz (bm_buf b) (bytes_for_bits (add - tb)) in
    (Bitmap buf (bm_bits b) (bm_off b), o)
  else (b, ODone).

(** mod.rs:602-608 truncate *)
Definition bm_truncate (b : bitmap) (len : N) : bitmap :=
  if (len <? N.of_nat (bm_bits b))%N
  then Bitmap (bm_buf b) (N.to_nat len) (bm_off b)
  else b.

(** ** bitmap/validity.rs: the ValidityBitmap trait, for a collection of
    length [len] with an optional bitmap. *)

(** validity.rs:73-78 is_valid, 43-45 is_null *)
Definition vb_is_valid (len : nat) (m : option bitmap) (i : N) : out (option bool) :=
  if (i <? N.of_nat len)%N then
    match m with
    | None => Ret (Some true)
    | Some b => let? v := bm_view b i in omap Some (expect v)
    end
  else Ret None.
Definition vb_is_null (len : nat) (m : option bitmap) (i : N) : out (option bool) :=
  omap (option_map negb) (vb_is_valid len m i).
(** validity.rs:57-60 null_count, 90-92 valid_count *)
Definition vb_null_count (m : option bitmap) : out nat :=
  match m with
  | None => Ret 0
  | Some b => let? ones := bm_count_ones b in
              if Nat.leb ones (bm_len b) then Ret (bm_len b - ones) else Pnc
  end.
Definition vb_valid_count (len : nat) (m : option bitmap) : out nat :=
  let? nulls := vb_null_count m in
  if Nat.leb nulls len then Ret (len - nulls) else Pnc.
(** validity.rs:104-107 any_null: iterate until a false bit; the number of
    calls is bounded by the length. *)
Fixpoint bititer_any_false (fuel : nat) (s : bititer) : out bool :=
  match fuel with
  | O => Pnc
  | S f => let? r := bititer_next s in
           match r with
           | (None, _) => Ret false
           | (Some false, _) => Ret true
           | (Some true, s') => bititer_any_false f s'
           end
  end.
Definition vb_any_null (m : option bitmap) : out bool :=
  match m with
  | None => Ret false
  | Some b => bititer_any_false (S (bm_len b)) (bm_iter b)
  end.
(** validity.rs:119-121 all_null, 133-135 any_valid, 147-149 all_valid *)
Definition vb_all_null (len : nat) (m : option bitmap) : out bool :=
  omap (fun n => Nat.eqb n len) (vb_null_count m).
Definition vb_any_valid (len : nat) (m : option bitmap) : out bool :=
  omap (fun n => negb (Nat.eqb n 0)) (vb_valid_count len m).
Definition vb_all_valid (m : option bitmap) : out bool :=
  omap (fun n => Nat.eqb n 0) (vb_null_count m).
