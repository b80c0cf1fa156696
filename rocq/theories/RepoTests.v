(** * The crate's own unit tests, run on the model

    These are tests, not proofs: each example transcribes a #[test] of /repo
    and evaluates the model on its inputs. They check that the model was
    transcribed faithfully where the authors of the crate wrote down what they
    expect; no claim in MANIFEST.json rests on them.

    Left out: tests that only check types, and tests of allocator-aware
    collections defined in the tests themselves. Where a test compares the
    address of a buffer, the example compares the address in the model. *)
From Coq Require Import List NArith ZArith Bool.
From Verif Require Import Base Iter VecModel BitmapModel UnpackModel CollModel ValidityModel
  OffsetsModel OffsetViewModel FlattenModel NullModel LayoutModel StorageModel FfiModel FfiHeapModel.
Import ListNotations.

(** ** How a test observes a collection *)

(** [Iterator::collect::<Vec<_>>()] for at most [n] items *)
Fixpoint collected {S A} (next : S -> out (option A * S)) (n : nat) (s : S) : out (list A) :=
  match n with
  | O => Pnc
  | S n' => obind (next s) (fun r =>
      match r with
      | (Some a, s') => omap (cons a) (collected next n' s')
      | (None, _) => Ret []
      end)
  end.
Fixpoint owned_all {V A} (own : V -> out A) (l : list V) : out (list A) :=
  match l with
  | [] => Ret []
  | v :: l' => obind (own v) (fun a => omap (cons a) (owned_all own l'))
  end.
(** [len], [iter_views().map(into_owned)], [into_iter_owned().size_hint()] and
    [into_iter_owned()] *)
Record seen (A : Type) : Type :=
  Seen { se_len : out nat; se_views : out (list A); se_hint : out hint; se_owned : out (list A) }.
Arguments Seen {A}.
Definition see (K : Coll) (c : cC K) : seen (cA K) :=
  Seen (k_len K c)
    (obind (k_iter K c) (fun s => obind (collected (k_inext K) 3000 s) (owned_all (k_own K))))
    (obind (k_into K c) (k_ohint K))
    (obind (k_into K c) (collected (k_onext K) 3000)).
Definition shown {A} (l : list A) : seen A :=
  Seen (Ret (length l)) (Ret l) (Ret (exact_hint (length l))) (Ret l).

(** [from_iter] of an array *)
Definition collect (K : Coll) (l : list (cA K)) : bres (cC K) :=
  fst (k_from_iter K (it_list l)).
(** [extend] with an array *)
Definition extended (K : Coll) (c : cC K) (l : list (cA K)) : cC K * outcome :=
  let '(c', _, o) := k_extend K c (it_list l) in (c', o).
Definition after (K : Coll) (c : cC K) (l : list (cA K)) : cC K := fst (extended K c l).
Definition the (K : Coll) (x : bres (cC K)) : cC K :=
  match x with BOk c => c | _ => k_default K end.
Definition of_items (K : Coll) (l : list (cA K)) : cC K := the K (collect K l).

(** [l.into_iter().chain(iter::once_with(|| panic!()))] *)
Fixpoint boom_t {A} (l : list A) : trace A unit :=
  match l with
  | [] => [(Boom, Node (exact_hint 0) tt)]
  | a :: l' => (Yield a, Node (exact_hint (S (length l'))) tt) :: boom_t l'
  end.
Definition then_panic {A} (l : list A) : iter A unit :=
  Iter (Node (exact_hint (S (length l))) tt) (boom_t l).

(** The lengths reported before each call of [next]. *)
Fixpoint hints {S A} (next : S -> out (option A * S)) (hnt : S -> out hint) (n : nat) (s : S)
  : list (out hint) :=
  match n with
  | O => []
  | S n' => hnt s :: match next s with
                     | Ret (Some _, s') => hints next hnt n' s'
                     | Ret (None, s') => [hnt s']
                     | Pnc => [Pnc]
                     end
  end.
Definition counting_down (n : nat) : list (out hint) :=
  map (fun k => Ret (exact_hint k)) (rev (seq 0 (S n))) ++ [Ret (exact_hint 0)].

Definition V32 : Coll := coll (SVec S32).
Definition whole {A} (l : list A) : vec A := Vec l (lenN l).

(** collection/mod.rs:427-448 round_trip *)
Definition round_trip (s : shape) (l : list (cA (coll s))) : Prop :=
  see (coll s) (of_items (coll s) l) = shown l /\
  collect (coll s) l = BOk (of_items (coll s) l).
Ltac check := vm_compute; repeat split.

(** ** bitmap/mod.rs *)

(** 621-623 *)
Example bytes_for_bits_does_not_saturate_before_rounding :
  bytes_for_bits usize_max = (usize_max / 8 + 1)%N.
Proof. vm_compute. reflexivity. Qed.
(** 626-635 *)
Example bitmap_from_iter : round_trip SBits [true; false; true; true].
Proof. check. Qed.
(** 638-643 *)
Definition bits_of (l : list bool) : bitmap := of_items bitmap_coll l.
Definition extend_bits (b : bitmap) (l : list bool) : bitmap := after bitmap_coll b l.
Definition bytes_of (b : bitmap) : list N := v_items (bm_buf b).
Example bitmap_extend :
  bytes_of (bits_of [true]) = [1%N] /\
  bytes_of (extend_bits (bits_of [true]) [true]) = [3%N].
Proof. check. Qed.
(** 646-662 *)
Example bitmap_extend_within_byte :
  let a := bits_of [true; false; true; true] in
  let b := extend_bits a [true; false; false] in
  let c := extend_bits b [true] in
  map (fun x => (bm_len x, bytes_of x)) [a; b; c] = [(4, [13%N]); (7, [29%N]); (8, [157%N])].
Proof. vm_compute. reflexivity. Qed.
(** 665-678 *)
Example bitmap_extend_within_byte_with_offset :
  let a := Bitmap (bm_buf (bits_of [true; false; true; true])) 2 2 in
  let b := extend_bits a [true; false; false; true; true; true] in
  map (fun x => (bm_len x, bytes_of x)) [a; b] = [(2, [13%N]); (8, [157; 3]%N)].
Proof. vm_compute. reflexivity. Qed.
(** 681-692 *)
Example bitmap_extend_across_next_byte :
  let a := bits_of (repeat true 8) in
  let b := extend_bits a [true] in
  map (fun x => (bm_len x, bytes_of x)) [a; b] = [(8, [255%N]); (9, [255; 1]%N)].
Proof. vm_compute. reflexivity. Qed.
(** 695-715; owned items of a slice are taken with the iterator of borrowed
    storage *)
Example bitmap_slice_buffer :
  let b := Bitmap (whole [160%N]) 3 4 in
  (bm_len b, bm_bit_offset b, bm_trailing_bits b) = (3, 4, 1) /\
  map (bm_view b) [0; 1; 2; 3]%N = [Ret (Some false); Ret (Some true); Ret (Some false); Ret None] /\
  collected bititer_next 10 (bm_iter b) = Ret [false; true; false] /\
  collected sbititer_next 10 (sbm_into b) = Ret [false; true; false].
Proof. check. Qed.
(** 718-721 *)
Example bitmap_alloc :
  bmap (fun b => v_cap (bm_buf b)) (bm_with_capacity 15) = BOk 2%N.
Proof. vm_compute. reflexivity. Qed.
(** 724-748 *)
Example bitmap_extend_panic_safety :
  let '(b, _, o) := bm_extend (bits_of [true]) (then_panic [true]) in
  o = OPanic /\ bm_len b = 2 /\ bm_view b 1 = Ret (Some true) /\
  see bitmap_coll (extend_bits b [false; true]) = shown [true; true; false; true].
Proof. check. Qed.
(** 751-779 *)
Example bitmap_extend_panic_discards_uncommitted_packed_bits :
  let '(b, _, o) := bm_extend bm_default (then_panic (map Nat.even (seq 0 10))) in
  o = OPanic /\ bm_len b = 0 /\ bm_view b 0 = Ret None /\
  see bitmap_coll (extend_bits b [false; true; false]) = shown [false; true; false].
Proof. check. Qed.
(** 782-801; the default size_hint *)
Example bitmap_extend_non_fused_iterator :
  let n := Node (0%N, @None N) tt in
  let '(b, _, o) := bm_extend (bits_of [true])
                      (Iter n ((Yield false, n) :: (Stop, n) :: repeat (Yield true, n) 20)) in
  o = ODone /\ see bitmap_coll b = shown [true; false].
Proof. check. Qed.
(** 804-817 *)
Example bitmap_extend_clears_stale_bits :
  let b := extend_bits (Bitmap (whole [255%N]) 4 0) [false; true] in
  bm_len b = 6 /\ map (bm_view b) [4; 5]%N = [Ret (Some false); Ret (Some true)] /\
  bytes_of b = [239%N].
Proof. check. Qed.
(** 820-830 *)
Example bitmap_into_iter_len :
  hints bititer_next bititer_hint 10 (bm_iter (bits_of [true; false; true; true])) = counting_down 4.
Proof. vm_compute. reflexivity. Qed.
(** 833-845 *)
Example bitmap_try_from_parts :
  match bm_try_from_parts (whole [13%N]) 4 0 with
  | inl b => see bitmap_coll b = shown [true; false; true; true] /\
             map (bm_view b) [0; 1; 2; 3]%N =
               map (fun x => Ret (Some x)) [true; false; true; true] /\
             bm_into_parts b = (whole [13%N], 4, 0)
  | inr _ => False
  end.
Proof. check. Qed.
(** 848-859 *)
Example bitmap_try_from_parts_out_of_bounds :
  bm_try_from_parts (whole [0%N]) 5 4 = inr (OutOfBounds 4 5 1).
Proof. vm_compute. reflexivity. Qed.
(** 862-871 *)
Example bitmap_count_ones_ignores_padding_bits :
  bm_count_ones (Bitmap (whole [240; 255]%N) 10 2) = Ret 8 /\
  bm_count_ones (Bitmap (whole [237%N]) 3 2) = Ret 2 /\
  bm_try_from_parts (whole [240; 255]%N) 10 2 = inl (Bitmap (whole [240; 255]%N) 10 2) /\
  bm_try_from_parts (whole [237%N]) 3 2 = inl (Bitmap (whole [237%N]) 3 2).
Proof. check. Qed.
(** 874-883 *)
Example bitmap_all_set_in_masks_tail_bits :
  bmap (fun b => (bytes_of b, bm_bits b, bm_off b)) (bm_all_set 10) = BOk ([255; 3]%N, 10, 0) /\
  bmap (fun b => (bytes_of b, bm_bits b, bm_off b)) (fst (bm_try_all_set 0 [])) = BOk ([], 0, 0).
Proof. check. Qed.
(** 886-900 *)
Example bitmap_truncate :
  let a := bm_truncate (bits_of [true; false; true; true]) 2 in
  see bitmap_coll a = shown [true; false] /\
  see bitmap_coll (bm_truncate a 5) = shown [true; false] /\
  see bitmap_coll (extend_bits (bm_truncate a 5) [false; false]) = shown [true; false; false; false].
Proof. check. Qed.
(** 903-917 *)
Example bitmap_into_iter_len_offset :
  hints sbititer_next sbititer_hint 10 (sbm_into (Bitmap (whole [160; 5]%N) 7 4)) = counting_down 7.
Proof. vm_compute. reflexivity. Qed.

(** ** bitmap/packed.rs and bitmap/unpacked.rs *)

Definition items {A R} (it : iter A R) : list A :=
  flat_map (fun p => match fst p with Yield a => [a] | _ => [] end) (it_tr it).
(** packed.rs:99-110 *)
Example packed_iter :
  items (it_packed (it_list [false; true; false; true; false; true])) = [42%N] /\
  items (it_packed (it_list [false; true; false; true; false; true; false; true])) = [170%N] /\
  items (it_packed (it_list (repeat true 16))) = [255; 255]%N.
Proof. check. Qed.
(** packed.rs:113-132; only the hint of the source is looked at *)
Definition hinting (h : hint) : iter bool unit := Iter (Node h tt) [].
Example packed_size_hint :
  map (fun n => it_hint (it_packed (it_list (repeat false n)))) [0; 1; 7; 8; 9; 3] =
    map exact_hint [0; 1; 1; 1; 2; 1] /\
  it_hint (it_packed (hinting (usize_max, None))) = ((usize_max / 8 + 1)%N, None) /\
  it_hint (it_packed (hinting (usize_max, Some usize_max))) =
    ((usize_max / 8 + 1)%N, Some (usize_max / 8 + 1)%N).
Proof. check. Qed.
(** unpacked.rs:122-131 *)
Example unpacked_iter :
  let next u := Ret (unpacked_next u) in
  collected next 20 (unpacked_new [255; 1]%N) = Ret (repeat true 9 ++ repeat false 7) /\
  items (it_unpacked (it_list [255; 1]%N)) = repeat true 9 ++ repeat false 7.
Proof. check. Qed.
(** unpacked.rs:134-140 *)
Example unpacked_size_hint :
  unpacked_hint (unpacked_new [255; 1; 2; 3]%N) = Ret (exact_hint 32).
Proof. vm_compute. reflexivity. Qed.
(** unpacked.rs:143-152 *)
Example unpacked_size_hint_partially_yielded_byte :
  hints (fun u => Ret (unpacked_next u)) unpacked_hint 20 (unpacked_new [255; 1]%N) =
    counting_down 16.
Proof. vm_compute. reflexivity. Qed.

(** ** validity.rs *)

Definition VV : Coll := coll (SNull (SVec S32)).
Definition four : list (option N) := [Some 1; None; Some 3; Some 4]%N.
(** 724-735, 747-752 *)
Example validity_from_iter :
  let v := of_items VV four in
  round_trip (SNull (SVec S32)) four /\
  map (k_view VV v) [0; 1; 2; 3; 4]%N = map (fun o => Ret (Some o)) four ++ [Ret None].
Proof. check. Qed.
(** 738-744: [Validity<Vec<Option<i32>>>] *)
Example validity_from_iter_nested :
  round_trip (SNull (SAny (option N) None 8)) [Some (Some 1%N); None; Some None; Some (Some 4%N)].
Proof. check. Qed.
(** 755-765 *)
Example validity_try_from_parts :
  va_try_from_parts V32 (whole [1; 0; 3; 4]%N) (bits_of [true; false; true; true]) =
    Ret (inl (Validity (whole [1; 0; 3; 4]%N) (Some (bits_of [true; false; true; true])))) /\
  see VV (Validity (whole [1; 0; 3; 4]%N) (Some (bits_of [true; false; true; true]))) = shown four.
Proof. check. Qed.
(** 768-777 *)
Example validity_implicit_all_valid :
  let v := va_from_collection V32 (whole [1; 2; 3]%N) in
  see VV v = shown (map Some [1; 2; 3]%N) /\ va_into_parts V32 v = (whole [1; 2; 3]%N, None).
Proof. check. Qed.
(** 780-789 *)
Example validity_extend_materializes_implicit_validity :
  let v := after VV (va_from_collection V32 (whole [1; 2]%N)) [None; Some 4%N] in
  is_some (va_bm v) = true /\ see VV v = shown [Some 1; Some 2; None; Some 4]%N.
Proof. check. Qed.
(** 804-815 *)
Example validity_try_from_parts_length_mismatch :
  va_try_from_parts V32 (whole [1; 2; 3]%N) (bits_of [true; false]) = Ret (inr (3, 2)).
Proof. vm_compute. reflexivity. Qed.
(** 818-827 *)
Example validity_truncate :
  let '(v, o) := k_truncate VV (of_items VV four) 2 in
  o = ODone /\ see VV v = shown [Some 1%N; None] /\ k_view VV v 2 = Ret None.
Proof. check. Qed.
(** 830-840 *)
Example validity_extend :
  see VV (after VV (of_items VV four) [Some 5%N]) = shown (four ++ [Some 5%N]).
Proof. vm_compute. reflexivity. Qed.
(** 843-861 *)
Definition many : list (option N) :=
  map (fun i => if (N.of_nat i mod 3 =? 0)%N then None else Some (N.of_nat i)) (seq 0 2500).
Example validity_from_iter_across_chunks : round_trip (SNull (SVec U32)) many.
Proof. check. Qed.
Example validity_extend_across_chunks :
  let '(v, o) := extended VV (k_default VV) many in o = ODone /\ see VV v = shown many.
Proof. check. Qed.
(** 864-889 *)
Example validity_extend_panic_discards_uncommitted_suffix :
  let '(v, _, o) := k_extend VV (of_items VV [Some 1%N; None])
                      (then_panic [Some 3%N; Some 4%N]) in
  o = OPanic /\ k_len VV v = Ret 2 /\ k_view VV v 2 = Ret None /\
  see VV (after VV v [Some 5%N]) = shown [Some 1%N; None; Some 5%N].
Proof. check. Qed.
(** 892-921 *)
Example validity_extend_panic_preserves_committed_chunks :
  let V := coll (SNull (SVec Usize)) in
  let '(v, _, o) := k_extend V (k_default V)
                      (then_panic (map (fun i => Some (N.of_nat i)) (seq 0 (chunk + 2)))) in
  o = OPanic /\ k_len V v = Ret chunk /\ k_view V v 0 = Ret (Some (Some 0%N)) /\
  k_view V v 1023 = Ret (Some (Some 1023%N)) /\
  k_len V (after V v [Some 1027%N]) = Ret (chunk + 1) /\
  k_view V (after V v [Some 1027%N]) 1024 = Ret (Some (Some 1027%N)).
Proof. check. Qed.
(** 924-943 *)
Example validity_extend_panic_discards_nested_suffix :
  let V := coll (SNull (SNull (SVec U32))) in
  let '(v, _, o) := k_extend V (k_default V)
                      (then_panic [Some (Some 1%N); Some (Some 2%N)]) in
  o = OPanic /\ k_len V v = Ret 0 /\ see V (after V v [Some (Some 3%N)]) = shown [Some (Some 3%N)].
Proof. check. Qed.

(** ** offset.rs *)

Definition LV : Coll := coll (SList I32 (SVec S32)).
(** 743-749 *)
Example offsets_default_len :
  see LV (k_default LV) = shown [] /\ k_len V32 (of_data (k_default LV)) = Ret 0 /\
  v_items (of_offs (k_default LV)) = [0%Z].
Proof. check. Qed.
(** 752-773 *)
Example offsets_iterator_size :
  map (fun l => obind (k_into LV (of_items LV l)) (k_ohint LV))
    [[[42]]; [[42; 1]]; [[42; 1]; [2]]]%N = map (fun n => Ret (exact_hint n)) [1; 1; 2].
Proof. vm_compute. reflexivity. Qed.
(** 776-784 *)
Example offsets_compare_view :
  ov_eq V32 V32 (fun a b => Ret (N.eqb a b)) (OffView (of_items LV [[42]; [0]]%N) 0 1)
    (whole [42%N]) = Ret true.
Proof. vm_compute. reflexivity. Qed.
(** 787-794 *)
Definition five : offsets (vec N) := Offsets (whole [1; 2; 3; 4; 5]%N) (whole [0; 2; 3; 4; 5]%Z).
Example offsets_try_from_parts :
  of_try_from_parts V32 (whole [1; 2; 3; 4; 5]%N) (whole [0; 2; 3; 4; 5]%Z) = Ret (inl five) /\
  k_len LV five = Ret 4.
Proof. check. Qed.
(** 797-829 *)
Example offsets_try_from_parts_errors :
  map (fun p => of_try_from_parts V32 (whole (fst p)) (whole (snd p)))
    [([1%N], []); ([1; 2]%N, [1; 2]%Z); ([1; 2]%N, [-1; 0]%Z); ([1; 2; 3]%N, [0; 2; 1]%Z);
     ([1; 2]%N, [0; 5]%Z)] =
    map (fun e => Ret (inr e))
      [OffEmpty; OffNonZeroFirst 1; OffNegative 0; OffNonMonotonic 2; OffOutOfBounds 5 2].
Proof. vm_compute. reflexivity. Qed.
(** 832-841 *)
Example offsets_truncate :
  let '(c, o) := k_truncate LV (of_items LV [[1; 2]; [3]; [4; 5; 6]]%N) 1 in
  o = ODone /\ see LV c = shown [[1; 2]%N] /\
  map (k_owned LV c) [0; 1]%N = [Ret (Some [1; 2]%N); Ret None].
Proof. check. Qed.
(** 844-859 *)
Example offsets_extend_reconciles_trailing_data :
  let c := Offsets (whole [1; 2; 99]%N) (whole [0; 2]%Z) in
  see LV c = shown [[1; 2]%N] /\
  k_len LV (after LV c [[3%N]]) = Ret 2 /\ k_owned LV (after LV c [[3%N]]) 1 = Ret (Some [3%N]).
Proof. check. Qed.
(** 862-882 *)
Example offsets_view :
  k_len LV five = Ret 4 /\
  k_view LV five 0 = Ret (Some (OffView five 0 2)) /\
  map (ov_view V32 (OffView five 0 2)) [0; 1; 2]%N = [Ret (Some 1%N); Ret (Some 2%N); Ret None] /\
  see LV five = shown [[1; 2]; [3]; [4]; [5]]%N /\
  obind (ov_into V32 (OffView five 2 3)) (collected (ov_onext V32) 10) = Ret [3%N] /\
  obind (ov_iter V32 (OffView five 3 4)) (collected (ov_inext V32) 10) = Ret [4%N].
Proof. check. Qed.

(** ** collection/ *)

(** vec.rs:119-129 *)
Example vec_alloc_in :
  (match vec_with_capacity (A := N) 4 4 with BOk v => (4 <=? v_cap v)%N | _ => false end) = true /\
  bmap v_items (fst (fst (k_try_from_iter V32 (it_list [1; 2; 3; 4]%N) []))) =
    BOk [1; 2; 3; 4]%N /\
  bmap v_items (fst (k_from_iter_in V32 (it_list [5; 6; 7; 8]%N))) = BOk [5; 6; 7; 8]%N.
Proof. check. Qed.
(** vec.rs:132-143 *)
Example vec_alloc_in_capacity_overflow :
  fst (vec_try_with_capacity (A := N) 4 usize_max []) = BErr /\
  fst (vec_try_reserve 4 (whole [1; 2; 3; 4]%N) usize_max []) = (whole [1; 2; 3; 4]%N, OErr).
Proof. check. Qed.
(** vec.rs:146-151 *)
Example vec_try_extend_filtered :
  let n k := Node (0%N, Some k) tt in
  let '(v, _, o, _) := vec_try_extend 4 (whole [1; 2]%N)
     (Iter (n 3%N) [(Yield 3, n 2); (Yield 4, n 1); (Yield 5, n 0); (Stop, n 0)]%N) [] in
  v_items v = [1; 2; 3; 4; 5]%N /\ o = ODone.
Proof. check. Qed.
(** vec.rs:154-162; no item is taken *)
Example vec_try_extend_capacity_overflow :
  let '(v, _, o, _) := vec_try_extend 4 (whole [1; 2; 3; 4]%N)
     (Iter (Node (usize_max, Some usize_max) tt) (repeat (Yield 5%N, Node (0%N, None) tt) 3)) [] in
  v_items v = [1; 2; 3; 4]%N /\ o = OErr.
Proof. check. Qed.
(** vec.rs:166-175 *)
Example vec_capacity_overflow_panics :
  vec_with_capacity (A := N) 4 usize_max = BPanic /\
  snd (vec_reserve 4 (whole [1; 2; 3; 4]%N) usize_max) = OPanic.
Proof. check. Qed.

(** slice.rs:99-109 *)
Fixpoint si_nth (n : nat) (s : sliceinto N) : out (option N * sliceinto N) :=
  match n with O => si_next s | S n' => obind (si_next s) (fun r => si_nth n' (snd r)) end.
Example slice_into_iter_size_hint :
  let s0 := Ret (si_new [1; 2; 3; 4]%N) in
  let s1 := obind s0 (fun s => omap snd (si_next s)) in
  let s2 := obind s1 (fun s => omap snd (si_nth 2 s)) in
  let s3 := obind s2 (fun s => omap snd (si_next s)) in
  map (fun s => obind s si_hint) [s0; s1; s2; s3] =
    map (fun n => Ret (exact_hint n)) [4; 3; 0; 0].
Proof. vm_compute. reflexivity. Qed.

(** flatten.rs:336-355 *)
Example flatten_flattens :
  let K := coll (SFixed 2 (SFixed 2 (SVec S32))) in
  let c := of_items K [[[1; 2]; [3; 4]]; [[5; 6]; [7; 8]]]%N in
  v_items c = [1; 2; 3; 4; 5; 6; 7; 8]%N /\
  k_view K c 0 = Ret (Some [[1; 2]; [3; 4]]%N) /\ k_view K c 1 = Ret (Some [[5; 6]; [7; 8]]%N).
Proof. check. Qed.
(** flatten.rs:358-377 *)
Example flatten_try_from_parts :
  fl_try_from_parts V32 2 (whole [1; 2; 3; 4]%N) = Ret (inl (whole [1; 2; 3; 4]%N)) /\
  fl_len V32 2 (whole [1; 2; 3; 4]%N) = Ret 2 /\
  fl_try_from_parts V32 2 (whole [1; 2; 3]%N) = Ret (inr (NotMultiple 3 2)) /\
  fl_try_from_parts V32 0 (whole [1; 2; 3]%N) = Ret (inr ZeroChunkSize).
Proof. check. Qed.
(** flatten.rs:380-399 *)
Example flatten_truncate :
  let K := coll (SFixed 2 (SVec S32)) in
  see K (fst (k_truncate K (of_items K [[1; 2]; [3; 4]; [5; 6]]%N) 1)) = shown [[1; 2]%N] /\
  k_truncate K (of_items K [[1; 2]; [3; 4]]%N) usize_max =
    (of_items K [[1; 2]; [3; 4]]%N, ODone) /\
  see K (of_items K [[1; 2]; [3; 4]]%N) = shown [[1; 2]; [3; 4]]%N.
Proof. check. Qed.
(** flatten.rs:402-406 *)
Example flatten_collection :
  round_trip (SFixed 2 (SVec S32)) [[1; 2]; [3; 4]]%N /\
  round_trip (SFixed 4 (SVec S32)) [[1; 2; 3; 4]; [5; 6; 7; 8]]%N /\
  round_trip (SFixed 2 (SFixed 2 (SVec S32))) [[[1; 2]; [3; 4]]; [[5; 6]; [7; 8]]]%N.
Proof. check. Qed.

(** ** nullability.rs *)

(** 176-182 *)
Example nullability_zip :
  n_zip false (T := N) (U := N) 1%N 2%N = (1, 2)%N /\
  map (fun p => n_zip true (T := N) (U := N) (fst p) (snd p))
    [(None, None); (Some 1, None); (None, Some 2); (Some 1, Some 2)]%N =
    [None; None; None; Some (1, 2)]%N.
Proof. check. Qed.
(** 185-198 *)
Example nullability_generic :
  let add nl x y := fst (n_zip_with nl (S := unit) (T := N) (U := N) (V := N) x y
                           (fun p s => (Ret (fst p + snd p)%N, s)) tt) in
  add false 1%N 2%N = Ret 3%N /\ add true (Some 1%N) (Some 2%N) = Ret (Some 3%N) /\
  add true (Some 1%N) None = Ret None.
Proof. check. Qed.

(** ** layout/*.rs and array.rs: what is collected is what is read. An array and
    its layout have the collection of the shape; a [FixedSizeArray] is one item. *)

(** boolean.rs:227-230, fixed_size_primitive.rs:237-248 *)
Example layouts_flat :
  round_trip (shape_of (TBool false)) [true; false; true; true] /\
  round_trip (shape_of (TBool true)) [Some true; None; Some false; Some true] /\
  round_trip (shape_of (TPrim S32 false)) [1; 2; 3; 4]%N /\
  round_trip (shape_of (TPrim S32 true)) four /\
  round_trip (shape_of (TPrim (PArr U8 4) false)) [67305985; 134678021]%N /\
  round_trip (shape_of (TPrim (PArr U8 4) true)) [Some 67305985%N; None].
Proof. check. Qed.
(** fixed_size_list.rs:274-289 *)
Example layouts_fixed_size_list :
  round_trip (shape_of (TFsl 1 (TPrim S32 false) false)) [[1]; [2]; [3]; [4]]%N /\
  round_trip (shape_of (TFsl 4 (TPrim S32 false) true)) [Some [1; 2; 3; 4]%N; None] /\
  round_trip (shape_of (TFsl 1 (TPrim S32 true) false)) [[Some 1]; [None]; [Some 3]; [Some 4]]%N /\
  round_trip (shape_of (TFsl 1 (TPrim S32 true) true))
    [Some [Some 1]; None; Some [None]; Some [Some 4]]%N /\
  round_trip (shape_of (TFsl 2 (TVsl I32 (TPrim S32 false) false) true))
    [Some [[1; 2]; [3; 4]]; None; Some [[5; 6; 7]; [8]]]%N.
Proof. check. Qed.
(** variable_size_binary.rs:33-36, variable_size_list.rs:265-276 *)
Example layouts_variable_size_list :
  round_trip (shape_of (TVsl I32 (TPrim U8 false) false)) [[1; 2; 3; 4]; [5; 6; 7; 8]]%N /\
  round_trip (shape_of (TVsl I32 (TPrim U8 false) true)) [Some [1; 2; 3; 4]%N; None] /\
  round_trip (shape_of (TVsl I32 (TPrim U16 false) false)) [[1; 2; 3; 4]; [5; 6; 7; 8]]%N /\
  round_trip (shape_of (TVsl I32 (TPrim U16 false) true)) [Some [1; 2; 3; 4]%N; None] /\
  round_trip (shape_of (TVsl I32 (TVsl I32 (TPrim U16 false) false) false))
    [[[1; 2]; [3; 4]]; [[5; 6; 7]; [8]]]%N /\
  round_trip (shape_of (TVsl I32 (TVsl I32 (TVsl I32 (TPrim U16 false) false) false) false))
    [[[[1; 2]; [3; 4]]; []]; [[[5; 6; 7]; [8]]; []]]%N.
Proof. check. Qed.
(** array.rs:224-230; the layouts' from_buffer tests *)
Example array_from_buffer :
  let c := of_items (layout (TPrim S32 false)) [1; 2; 3; 4]%N in
  k_len V32 c = Ret 4 /\ map (k_owned V32 c) [0; 3]%N = [Ret (Some 1%N); Ret (Some 4%N)].
Proof. check. Qed.
(** array.rs:233-250 *)
Example array_alloc_in_nested :
  let T := layout (TVsl I32 (TPrim S32 false) true) in
  let two : list (cA T) := [Some [1; 2]%N; None] in
  let '(a, _) := k_from_iter_in T (it_list two) in
  let '(b, _, _) := k_try_from_iter T (it_list two) [] in
  let '(c, _, o, _) := k_try_extend T (the T b) (it_list [Some [3; 4; 5]%N]) [] in
  see T (the T a) = shown two /\ see T (the T b) = shown two /\ o = ODone /\
  see T c = shown (two ++ [Some [3; 4; 5]%N]).
Proof. check. Qed.
(** array.rs:253-269 *)
Example array_extend_forwards_backing_input_type :
  see V32 (after V32 (k_default V32) [1; 2; 3; 4]%N) = shown [1; 2; 3; 4]%N.
Proof. vm_compute. reflexivity. Qed.
(** array.rs:272-317, those not already above *)
Example array_collection :
  round_trip (shape_of (TFsl 4 (TPrim S32 true) true)) [Some [Some 1; None; Some 3; Some 4]%N; None] /\
  round_trip (shape_of (TFsl 4 (TVsl I32 (TPrim S32 false) true) true))
    [Some [Some [1; 2]; None; Some [3]; Some [4]]; None;
     Some [None; Some [5; 6; 7; 8]; None; None]]%N /\
  round_trip (shape_of (TVsl I32 (TPrim S32 true) true)) [Some four; None] /\
  round_trip (shape_of (TVsl I32 (TVsl I32 (TPrim S32 false) true) true))
    [Some [Some [1; 2]; None; Some [3; 4; 5; 6]; Some [7; 8]]; None; Some [None]; Some [Some []];
     None]%N /\
  round_trip (shape_of (TVsl I32 (TFsl 2 (TPrim S32 false) false) false))
    [[[1; 2]; [3; 4]]; [[5; 6]; [7; 8]]]%N /\
  round_trip (shape_of (TVsl I32 (TFsl 2 (TPrim S32 false) true) false))
    [[Some [1; 2]; None]; [None; Some [7; 8]]]%N /\
  round_trip (shape_of (TVsl I32 (TFsl 2 (TPrim S32 false) true) true))
    [Some [Some [1; 2]; None]; None]%N.
Proof. check. Qed.

(** ** tests/borrowed_memory.rs *)

(** 4-49 *)
Example borrows_nested_backing_memory :
  let T := layout (TVsl I32 (TFsl 2 (TPrim S32 false) true) true) in
  let list_validity : validity (offsets (validity (vec N))) :=
    of_items T [Some [Some [1; 2]; None]]%N in
  let offs := va_coll list_validity in
  let item_validity := of_data offs in
  option_map (fun b => (bytes_of b, bm_bit_offset b)) (va_bm list_validity) = Some ([1%N], 0) /\
  vb_null_count (va_bm list_validity) = Ret 0 /\
  v_items (of_offs offs) = [0; 2]%Z /\
  option_map bytes_of (va_bm item_validity) = Some [1%N] /\
  vb_null_count (va_bm item_validity) = Ret 1 /\
  vb_is_valid 2 (va_bm item_validity) 0 = Ret (Some true) /\
  vb_is_null 2 (va_bm item_validity) 1 = Ret (Some true) /\
  v_items (va_coll item_validity) = [1; 2; 0; 0]%N.
Proof. check. Qed.
(** 52-58 *)
Example borrows_boolean_backing_memory :
  let b := bits_of [true; false; true] in bytes_of b = [5%N] /\ bm_bit_offset b = 0.
Proof. check. Qed.

(** ** narrow-ffi/src/export

    Addresses: every block has its own, a multiple of 64. *)

Definition place (b : block) : N :=
  (match b with
   | BValidity d => 64 + 512 * N.of_nat d
   | BValues d => 128 + 512 * N.of_nat d
   | BOffsets d => 192 + 512 * N.of_nat d
   | BData d => 256 + 512 * N.of_nat d
   | BPointers d => 320 + 512 * N.of_nat d
   | BSchema d => 384 + 512 * N.of_nat d
   | BFormat d => 448 + 512 * N.of_nat d
   end)%N.
(** What a test reads off an exported array: length, null_count, offset,
    n_buffers, n_children, the buffers and the children *)
Definition array_facts (a : carray) :=
  (a_length a, a_null_count a, a_offset a, a_n_buffers a, a_n_children a, a_buffers a,
   a_dictionary a, a_live a).
Definition schema_facts (s : cschema) :=
  (s_format s, s_flags s, s_n_children s, s_dictionary s, s_live s).
Definition the_child {A} (l : option (list (option A))) : option A :=
  match l with Some [Some k] => Some k | _ => None end.
(** Which of the buffers of [c] are still allocated after the consumer's steps *)
Definition kept (t : ty) (c : cC (layout t)) (l : list action) : option (list block) :=
  option_map (fun st => filter (fun b => is_some (lookup b (mem st))) (storage 0 t c))
    (acts (start t c) l).
Definition word (n : N) : list N := [n; 0; 0; 0]%N.

(** export/fixed_size_primitive.rs:133-146, boolean.rs:98-100,
    variable_size_list.rs:146-149 *)
Example format_strings_match_arrow :
  map (fun p => format_of (TPrim p false)) [S8; U8; S16; U16; S32; U32; S64; U64; F32; F64] =
    [[99]; [67]; [115]; [83]; [105]; [73]; [108]; [76]; [102]; [103]]%N /\
  format_of (TPrim S32 true) = [105%N] /\ flags_of (TPrim S32 true) = 2%Z /\
  format_of (TBool false) = [98%N] /\
  list_format I32 = [43; 108]%N /\ list_format I64 = [43; 76]%N.
Proof. check. Qed.

(** fixed_size_primitive.rs:149-186, 189-203 *)
Example exports_primitive_array_without_copying_values :
  let t := TPrim S32 false in
  let c : cC (layout t) := whole [1; 2; 3]%N in
  match export place t c with
  | XOk (a, s) =>
      array_facts a = (3, 0, 0, 2, 0,
        Some [None; Some (CBuf (place (BValues 0)) (word 1 ++ word 2 ++ word 3))], None, true)%Z /\
      a_children a = None /\
      schema_facts s = (Some [105%N], 0, 0, None, true)%Z /\ s_children s = None
  | _ => False
  end /\
  kept t c [] = Some [BValues 0] /\ kept t c [Drop 0] = Some [] /\
  kept t c [Drop 0; Drop 1] = Some [].
Proof. check. Qed.
(** fixed_size_primitive.rs:206-248 *)
Example exports_nullable_primitive_buffers_without_copying :
  let t := TPrim S32 true in
  let c : cC (layout t) := Validity (whole [1; 0; 3]%N) (Some (Bitmap (whole [5%N]) 3 0)) in
  match export place t c with
  | XOk (a, s) =>
      array_facts a = (3, 1, 0, 2, 0,
        Some [Some (CBuf (place (BValidity 0)) [5%N]);
              Some (CBuf (place (BValues 0)) (word 1 ++ word 0 ++ word 3))], None, true)%Z /\
      schema_facts s = (Some [105%N], 2, 0, None, true)%Z
  | _ => False
  end /\
  kept t c [] = Some [BValidity 0; BValues 0] /\ kept t c [Drop 0] = Some [].
Proof. check. Qed.
(** fixed_size_primitive.rs:251-273 *)
Example exports_nullable_primitive_without_validity_bitmap :
  let t := TPrim S32 true in
  let c : cC (layout t) := va_from_collection V32 (whole [1; 2; 3]%N) in
  match export place t c with
  | XOk (a, s) =>
      array_facts a = (3, 0, 0, 2, 0,
        Some [None; Some (CBuf (place (BValues 0)) (word 1 ++ word 2 ++ word 3))], None, true)%Z /\
      s_flags s = 2%Z
  | _ => False
  end /\
  kept t c [] = Some [BValues 0] /\ kept t c [Drop 0] = Some [].
Proof. check. Qed.
(** The rejected offsets: fixed_size_primitive.rs:276-286, boolean.rs:185-215,
    234-242, fixed_size_list.rs:250-277, variable_size_list.rs:269-281 *)
Example rejects_non_zero_offsets :
  export place (TPrim S32 true)
    (Validity (whole [1; 0; 3]%N) (Some (Bitmap (whole [20; 0; 0]%N) 3 2))) = XErr 2 /\
  export place (TBool true)
    (Validity (Bitmap (whole [20%N]) 3 2) (Some (Bitmap (whole [7%N]) 3 0))) = XErr 2 /\
  export place (TBool true)
    (Validity (Bitmap (whole [5%N]) 3 0) (Some (Bitmap (whole [28%N]) 3 2))) = XErr 2 /\
  export place (TBool false) (Bitmap (whole [20%N]) 3 2) = XErr 2 /\
  export place (TFsl 2 (TPrim S32 false) true)
    (Validity (whole [1; 2; 3; 4]%N) (Some (Bitmap (whole [12; 0; 0; 0]%N) 2 2))) = XErr 2 /\
  export place (TFsl 2 (TPrim S32 true) false)
    (Validity (whole [1; 2; 3; 4]%N) (Some (Bitmap (whole [60; 0; 0; 0]%N) 4 2))) = XErr 2 /\
  export place (TVsl I32 (TPrim S32 false) true)
    (Validity (Offsets (whole [1; 2; 3]%N) (whole [0; 2; 3]%Z))
       (Some (Bitmap (whole [12; 0; 0]%N) 2 2))) = XErr 2.
Proof. check. Qed.
(** boolean.rs:103-137, 218-231 *)
Example exports_boolean_bitmap_without_copying_values :
  let t := TBool false in
  let c : cC (layout t) := Bitmap (whole [5%N]) 3 0 in
  match export place t c with
  | XOk (a, s) =>
      array_facts a = (3, 0, 0, 2, 0,
        Some [None; Some (CBuf (place (BValues 0)) [5%N])], None, true)%Z /\
      a_children a = None /\
      schema_facts s = (Some [98%N], 0, 0, None, true)%Z /\ s_children s = None
  | _ => False
  end /\
  kept t c [] = Some [BValues 0] /\ kept t c [Drop 0] = Some [].
Proof. check. Qed.
(** boolean.rs:140-182 *)
Example exports_nullable_boolean_bitmaps_without_copying :
  let t := TBool true in
  let c : cC (layout t) := Validity (Bitmap (whole [1%N]) 3 0) (Some (Bitmap (whole [5%N]) 3 0)) in
  match export place t c with
  | XOk (a, s) =>
      array_facts a = (3, 1, 0, 2, 0,
        Some [Some (CBuf (place (BValidity 0)) [5%N]); Some (CBuf (place (BValues 0)) [1%N])],
        None, true)%Z /\
      schema_facts s = (Some [98%N], 2, 0, None, true)%Z
  | _ => False
  end /\
  kept t c [] = Some [BValidity 0; BValues 0] /\ kept t c [Drop 0] = Some [].
Proof. check. Qed.
(** fixed_size_list.rs:142-195 *)
Example exports_fixed_size_list_child_without_copying_values :
  let t := TFsl 2 (TPrim S32 false) false in
  let c : cC (layout t) := whole [1; 2; 3; 4]%N in
  match export place t c with
  | XOk (a, s) =>
      array_facts a = (2, 0, 0, 1, 1, Some [None], None, true)%Z /\
      option_map array_facts (the_child (a_children a)) = Some (4, 0, 0, 2, 0,
        Some [None; Some (CBuf (place (BValues 1)) (word 1 ++ word 2 ++ word 3 ++ word 4))],
        None, true)%Z /\
      schema_facts s = (Some [43; 119; 58; 50]%N, 0, 1, None, true)%Z /\
      option_map schema_facts (the_child (s_children s)) = Some (Some [105%N], 0, 0, None, true)%Z
  | _ => False
  end /\
  kept t c [] = Some [BValues 1] /\ kept t c [Drop 0] = Some [] /\
  kept t c [Drop 0; Drop 1] = Some [].
Proof. check. Qed.
(** fixed_size_list.rs:198-247 *)
Example exports_nullable_fixed_size_list_without_copying_buffers :
  let t := TFsl 2 (TPrim S32 false) true in
  let c : cC (layout t) :=
    Validity (whole [1; 2; 3; 4]%N) (Some (Bitmap (whole [1%N]) 2 0)) in
  match export place t c with
  | XOk (a, s) =>
      array_facts a = (2, 1, 0, 1, 1, Some [Some (CBuf (place (BValidity 0)) [1%N])], None, true)%Z /\
      option_map array_facts (the_child (a_children a)) = Some (4, 0, 0, 2, 0,
        Some [None; Some (CBuf (place (BValues 1)) (word 1 ++ word 2 ++ word 3 ++ word 4))],
        None, true)%Z /\
      schema_facts s = (Some [43; 119; 58; 50]%N, 2, 1, None, true)%Z /\
      option_map s_flags (the_child (s_children s)) = Some 0%Z
  | _ => False
  end /\
  kept t c [] = Some [BValidity 0; BValues 1] /\ kept t c [Drop 0] = Some [].
Proof. check. Qed.
(** variable_size_list.rs:152-207 *)
Definition three : offsets (vec N) := Offsets (whole [1; 2; 3]%N) (whole [0; 2; 3]%Z).
Example exports_variable_size_list_without_copying_buffers :
  let t := TVsl I32 (TPrim S32 false) false in
  let c : cC (layout t) := three in
  match export place t c with
  | XOk (a, s) =>
      array_facts a = (2, 0, 0, 2, 1,
        Some [None; Some (CBuf (place (BOffsets 0)) (word 0 ++ word 2 ++ word 3))], None, true)%Z /\
      option_map array_facts (the_child (a_children a)) = Some (3, 0, 0, 2, 0,
        Some [None; Some (CBuf (place (BValues 1)) (word 1 ++ word 2 ++ word 3))],
        None, true)%Z /\
      schema_facts s = (Some [43; 108]%N, 0, 1, None, true)%Z /\
      option_map schema_facts (the_child (s_children s)) = Some (Some [105%N], 0, 0, None, true)%Z
  | _ => False
  end /\
  kept t c [] = Some [BOffsets 0; BValues 1] /\ kept t c [Drop 0] = Some [] /\
  kept t c [Drop 0; Drop 1] = Some [].
Proof. check. Qed.
(** variable_size_list.rs:210-266 *)
Example exports_nullable_variable_size_list_without_copying_buffers :
  let t := TVsl I32 (TPrim S32 false) true in
  let c : cC (layout t) := Validity three (Some (Bitmap (whole [1%N]) 2 0)) in
  match export place t c with
  | XOk (a, s) =>
      array_facts a = (2, 1, 0, 2, 1,
        Some [Some (CBuf (place (BValidity 0)) [1%N]);
              Some (CBuf (place (BOffsets 0)) (word 0 ++ word 2 ++ word 3))], None, true)%Z /\
      option_map array_facts (the_child (a_children a)) = Some (3, 0, 0, 2, 0,
        Some [None; Some (CBuf (place (BValues 1)) (word 1 ++ word 2 ++ word 3))],
        None, true)%Z /\
      schema_facts s = (Some [43; 108]%N, 2, 1, None, true)%Z /\
      option_map s_flags (the_child (s_children s)) = Some 0%Z
  | _ => False
  end /\
  kept t c [] = Some [BValidity 0; BOffsets 0; BValues 1] /\ kept t c [Drop 0] = Some [].
Proof. check. Qed.

(** ** narrow-ffi/src/import *)

(** The tests change one field of what was exported. *)
Definition with_length (n : Z) (a : carray) : carray :=
  CArray n (a_null_count a) (a_offset a) (a_n_buffers a) (a_n_children a) (a_buffers a)
    (a_children a) (a_dictionary a) (a_live a).
Definition with_nulls (n : Z) (a : carray) : carray :=
  CArray (a_length a) n (a_offset a) (a_n_buffers a) (a_n_children a) (a_buffers a)
    (a_children a) (a_dictionary a) (a_live a).
Definition with_offset (n : Z) (a : carray) : carray :=
  CArray (a_length a) (a_null_count a) n (a_n_buffers a) (a_n_children a) (a_buffers a)
    (a_children a) (a_dictionary a) (a_live a).
Definition with_buffers (l : list (option cbuffer)) (a : carray) : carray :=
  CArray (a_length a) (a_null_count a) (a_offset a) (a_n_buffers a) (a_n_children a) (Some l)
    (a_children a) (a_dictionary a) (a_live a).
Definition no_validity (a : carray) : carray :=
  with_buffers (None :: match a_buffers a with Some (_ :: r) => r | _ => [] end) a.
Definition with_format (f : list N) (s : cschema) : cschema :=
  CSchema (Some f) (s_flags s) (s_n_children s) (s_children s) (s_dictionary s) (s_live s).
Definition with_flags (f : Z) (s : cschema) : cschema :=
  CSchema (s_format s) f (s_n_children s) (s_children s) (s_dictionary s) (s_live s).
Definition same {A} (x : A) : A := x.
(** Exports, changes, imports; what the imported array shows and is made of *)
Definition reimport (t : ty) (c : cC (layout t)) (fa : carray -> carray) (fs : cschema -> cschema)
  : ires (cC (layout t)) :=
  match export place t c with
  | XOk (a, s) => import t (fa a) (fs s)
  | _ => IPnc
  end.
Definition import_error_of {A} (x : ires A) : option import_error :=
  match x with IErr e => Some e | _ => None end.
Definition imported (t : ty) (x : ires (cC (layout t))) : option (seen (cA (layout t))) :=
  match x with IOk c => Some (see (layout t) c) | _ => None end.

(** fixed_size_primitive.rs:81-105 *)
Example imports_primitive_values_without_copying :
  reimport (TPrim S32 false) (whole [1; 2; 3]%N) same same = IOk (whole [1; 2; 3]%N).
Proof. check. Qed.
(** fixed_size_primitive.rs:108-217 *)
Example primitive_checks :
  let t := TPrim S32 false in
  let c : cC (layout t) := of_items (layout t) [1%N] in
  import_error_of (reimport t c same (with_format [108%N])) = Some UnexpectedFormat /\
  import_error_of (reimport t c (with_offset 1) same) = Some (NonZeroOffset 1) /\
  imported t (reimport t c same (with_flags 8)) = Some (shown [1%N]) /\
  import_error_of (reimport t c same (with_flags 2)) = Some (UnexpectedFlags 2) /\
  imported t (reimport t c (with_nulls (-1)) same) = Some (shown [1%N]) /\
  import_error_of (reimport t c (with_nulls (-2)) same) = Some (UnexpectedNullCount (-2)) /\
  import_error_of (reimport t c (with_nulls 1) same) = Some (UnexpectedNullCount 1).
Proof. check. Qed.
(** fixed_size_primitive.rs:220-248 *)
Example imports_nullable_primitive_values_without_copying :
  let t := TPrim S32 true in
  let c : cC (layout t) := Validity (whole [1; 0; 3]%N) (Some (Bitmap (whole [5%N]) 3 0)) in
  reimport t c (with_nulls (-1)) same = IOk c /\
  imported t (reimport t c (with_nulls (-1)) same) = Some (shown [Some 1%N; None; Some 3%N]).
Proof. check. Qed.
(** fixed_size_primitive.rs:251-272 *)
Example imports_nullable_primitive_values_with_implicit_validity :
  let t := TPrim S32 true in
  let c : cC (layout t) := va_from_collection V32 (whole [1; 2; 3]%N) in
  reimport t c same same = IOk c /\
  imported t (reimport t c same same) = Some (shown (map Some [1; 2; 3]%N)).
Proof. check. Qed.
(** fixed_size_primitive.rs:275-314 *)
Example nullable_primitive_checks :
  let t := TPrim S32 true in
  let c : cC (layout t) := of_items (layout t) [Some 1%N; None] in
  import_error_of (reimport t c no_validity same) = Some MissingValidityBuffer /\
  import_error_of (reimport t c (with_nulls 0) same) = Some (NullCountMismatch 0 1).
Proof. check. Qed.
(** boolean.rs:74-102 *)
Example imports_boolean_values_without_copying :
  let t := TBool false in
  let c : cC (layout t) := Bitmap (whole [5%N]) 3 0 in
  reimport t c same same = IOk c /\
  imported t (reimport t c same same) = Some (shown [true; false; true]).
Proof. check. Qed.
(** boolean.rs:105-135 *)
Example imports_nullable_boolean_values_without_copying :
  let t := TBool true in
  let c : cC (layout t) := Validity (Bitmap (whole [1%N]) 3 0) (Some (Bitmap (whole [5%N]) 3 0)) in
  reimport t c (with_nulls (-1)) same = IOk c /\
  imported t (reimport t c (with_nulls (-1)) same) = Some (shown [Some true; None; Some false]).
Proof. check. Qed.
(** boolean.rs:138-161 *)
Example imports_nullable_boolean_values_with_implicit_validity :
  let t := TBool true in
  let c : cC (layout t) := va_from_collection bitmap_coll (Bitmap (whole [5%N]) 3 0) in
  reimport t c same same = IOk c /\
  imported t (reimport t c same same) = Some (shown [Some true; Some false; Some true]).
Proof. check. Qed.
(** boolean.rs:164-203 *)
Example nullable_boolean_checks :
  let t := TBool true in
  let c : cC (layout t) := of_items (layout t) [Some true; None] in
  import_error_of (reimport t c no_validity same) = Some MissingValidityBuffer /\
  import_error_of (reimport t c (with_nulls 0) same) = Some (NullCountMismatch 0 1).
Proof. check. Qed.
(** fixed_size_list.rs:99-132 *)
Example imports_fixed_size_list_child_without_copying :
  let t := TFsl 2 (TPrim S32 false) false in
  let c : cC (layout t) := whole [1; 2; 3; 4]%N in
  reimport t c same same = IOk c /\
  imported t (reimport t c same same) = Some (shown [[1; 2]; [3; 4]]%N).
Proof. check. Qed.
(** fixed_size_list.rs:135-168 *)
Example imports_nullable_fixed_size_list_without_copying :
  let t := TFsl 2 (TPrim S32 false) true in
  let c : cC (layout t) :=
    Validity (whole [1; 2; 3; 4]%N) (Some (Bitmap (whole [1%N]) 2 0)) in
  reimport t c (with_nulls (-1)) same = IOk c /\
  imported t (reimport t c (with_nulls (-1)) same) = Some (shown [Some [1; 2]%N; None]).
Proof. check. Qed.
(** fixed_size_list.rs:171-188 *)
Example preserves_omitted_fixed_size_list_validity :
  let t := TFsl 2 (TPrim S32 false) true in
  let c : cC (layout t) := of_items (layout t) [Some [1; 2]; Some [3; 4]]%N in
  let x := reimport t c (fun a => with_nulls 0 (no_validity a)) same in
  match x with IOk v => va_bm (v : validity (vec N)) = None | _ => False end /\
  imported t x = Some (shown [Some [1; 2]; Some [3; 4]]%N).
Proof. check. Qed.
(** fixed_size_list.rs:191-229 *)
Example fixed_size_list_checks :
  let t := TFsl 2 (TPrim S32 false) false in
  import_error_of (reimport t (of_items (layout t) [[1; 2]%N]) same
    (with_format [43; 119; 58; 51]%N)) = Some UnexpectedFormat /\
  import_error_of (reimport t (of_items (layout t) [[1; 2]; [3; 4]]%N) (with_length 1) same) =
    Some (FixedSizeListLengthMismatch 1 4 2).
Proof. check. Qed.
(** variable_size_list.rs:91-129 *)
Example imports_variable_size_list_buffers_without_copying :
  let t := TVsl I32 (TPrim S32 false) false in
  let c : cC (layout t) := three in
  reimport t c same same = IOk c /\
  imported t (reimport t c same same) = Some (shown [[1; 2]; [3]]%N).
Proof. check. Qed.
(** variable_size_list.rs:132-165 *)
Example imports_nullable_variable_size_list_buffers_without_copying :
  let t := TVsl I32 (TPrim S32 false) true in
  let c : cC (layout t) := Validity three (Some (Bitmap (whole [1%N]) 2 0)) in
  reimport t c (with_nulls (-1)) same = IOk c /\
  imported t (reimport t c (with_nulls (-1)) same) = Some (shown [Some [1; 2]%N; None]).
Proof. check. Qed.
(** variable_size_list.rs:168-185 *)
Example imports_nullable_variable_size_list_with_implicit_validity :
  let t := TVsl I32 (TPrim S32 false) true in
  let c : cC (layout t) := Validity three None in
  reimport t c same same = IOk c /\
  imported t (reimport t c same same) = Some (shown [Some [1; 2]; Some [3]]%N).
Proof. check. Qed.
(** variable_size_list.rs:188-230 *)
Example variable_size_list_checks :
  let t := TVsl I32 (TPrim S32 false) false in
  import_error_of (reimport t (of_items (layout t) [[1%N]]) same (with_format [43; 76]%N)) =
    Some UnexpectedFormat /\
  import_error_of (reimport t (of_items (layout t) [[1; 2]; [3]]%N)
    (with_buffers [None; Some (CBuf 4096 (word 0 ++ word 2 ++ word 1))]) same) =
    Some (InvalidOffsets (OffNonMonotonic 2)).
Proof. check. Qed.

(** ** narrow-ffi/src/lib.rs:277-295: dropping calls the callback once *)
Example drop_calls_release_once :
  let t := TVsl I32 (TPrim S32 false) false in
  option_map (fun st => (mem st, map st_live (slots st))) (acts (start t three) [Drop 0; Drop 1]) =
    Some ([], [false; false]) /\
  option_map (fun st => mem st) (acts (start t three) [Drop 0; Drop 0; Drop 1; Drop 1]) = Some [].
Proof. check. Qed.
