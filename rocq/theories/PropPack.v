(** * Packing and unpacking bits: C50 *)
From Coq Require Import List NArith Bool Arith Lia.
From Verif Require Import Base Iter Spec VecModel BitmapModel Reach SpecLaid UnpackModel SpecPack FactsPack.
Import ListNotations.

(** ** C50: packed bits are the bits, and the other way round *)

(** [arrow_bits] is written from the format (SpecLaid.v). *)
Theorem C50_packed : forall R (it : iter bool R), fused it -> fin_of it = FStop ->
  items_of (it_packed it) = arrow_bits (items_of it) /\ fin_of (it_packed it) = FStop.
Proof. exact packed_items. Qed.
Print Assumptions C50_packed.

Theorem C50_packed_until_panic : forall R (it : iter bool R), fin_of it = FBoom ->
  items_of (it_packed it) = firstn (length (items_of it) / 8) (arrow_bits (items_of it)) /\
  fin_of (it_packed it) = FBoom.
Proof. exact packed_panic. Qed.
Print Assumptions C50_packed_until_panic.

(** Correct hints stay correct and exact hints stay exact, before every call. *)
Theorem C50_packed_hints : forall R (it : iter bool R), fused it -> fin_of it = FStop ->
  (hints bounds it -> hints bounds (it_packed it)) /\
  (hints exactly it -> hints exactly (it_packed it)).
Proof. intros R it Hf Hn. split; [apply packed_bounds|apply packed_exactly]; assumption. Qed.
Print Assumptions C50_packed_hints.

(** Any bytes of a buffer *)
Theorem C50_unpacked : forall bytes, (lenN bytes <= alloc_max)%N ->
  yields (fun u => Ret (unpacked_next u)) unpacked_hint Ret (unpacked_new bytes) (bits_of bytes).
Proof. exact unpacked_yields. Qed.
Print Assumptions C50_unpacked.

(** Any iterator of bytes, also a resumable or panicking one *)
Theorem C50_unpacked_any : forall R (it : iter N R),
  items_of (it_unpacked it) = bits_of (items_of it) /\ fin_of (it_unpacked it) = fin_of it.
Proof. exact unpacked_items. Qed.
Print Assumptions C50_unpacked_any.

Theorem C50_unpacked_hints : forall R (it : iter N R),
  (hints bounds it -> hints bounds (it_unpacked it)) /\
  (hints (fun h n => exactly h n /\ (8 * N.of_nat n + 7 <= usize_max)%N) it ->
   hints exactly (it_unpacked it)).
Proof. intros R it. split; [apply unpacked_bounds|apply unpacked_exactly]. Qed.
Print Assumptions C50_unpacked_hints.

(** Unpacking what was packed gives the bits and then zeros up to the next byte;
    packing what was unpacked gives the bytes. *)
Theorem C50_inverse :
  (forall l, bits_of (arrow_bits l) = l ++ repeat false (8 * ((length l + 7) / 8) - length l)) /\
  (forall bytes, Forall (fun b => b < 256)%N bytes -> arrow_bits (bits_of bytes) = bytes).
Proof. split; [exact bits_of_arrow|exact arrow_bits_bits]. Qed.
Print Assumptions C50_inverse.

(** Eleven bits; the iterator repeats [None] when asked again. *)
Definition eleven : list bool :=
  [true; false; true; true; false; false; false; true; true; true; false].
Definition asked_again : iter bool unit :=
  Iter (it_node (it_list eleven))
    (it_tr (it_list eleven) ++ [(Stop, Node (exact_hint 0) tt); (Stop, Node (exact_hint 0) tt)]).
Example C50_case : fused asked_again /\ fin_of asked_again = FStop /\ hints exactly asked_again /\
  items_of asked_again = eleven /\ items_of (it_packed asked_again) = [141; 3]%N /\
  nd_hint (it_node (it_packed asked_again)) = (2%N, Some 2%N) /\ hints exactly (it_packed asked_again) /\
  bits_of [141; 3]%N = eleven ++ repeat false 5.
Proof.
  assert (Hf : fused asked_again) by (cbn; repeat constructor).
  assert (Hh : hints exactly asked_again) by (vm_compute; repeat split).
  split; [exact Hf|]. split; [reflexivity|]. split; [exact Hh|]. split; [reflexivity|].
  split; [vm_compute; reflexivity|]. split; [reflexivity|].
  split; [exact (proj2 (C50_packed_hints _ asked_again Hf eq_refl) Hh)|reflexivity].
Qed.
Example C50_panic_case : fin_of (Iter (it_node (it_list eleven))
    (it_tr (it_list eleven) ++ [(Boom, Node (exact_hint 0) tt)])) = FBoom /\
  items_of (it_packed (Iter (it_node (it_list eleven))
    (it_tr (it_list eleven) ++ [(Boom, Node (exact_hint 0) tt)]))) = [141]%N.
Proof. split; vm_compute; reflexivity. Qed.

(** A source that ends, goes on after it and then panics. *)
Definition resumed : iter N nat :=
  Iter (Node (0%N, Some 5%N) 0)
    [(Yield 5%N, Node (0%N, None) 1); (Yield 128%N, Node (0%N, Some usize_max) 2);
     (Stop, Node (1%N, Some 1%N) 3); (Yield 7%N, Node (0%N, Some 0%N) 4); (Boom, Node (9%N, Some 0%N) 5)].
Example C50_resumed_case : hints bounds resumed /\ hints bounds (it_unpacked resumed) /\
  items_of (it_unpacked resumed) = bits_of [5; 128]%N /\ fin_of (it_unpacked resumed) = FStop.
Proof.
  assert (H : hints bounds resumed).
  { repeat split; try (vm_compute; discriminate); intros u E; vm_compute in E; try discriminate E;
      injection E as <-; vm_compute; discriminate. }
  split; [exact H|]. split; [exact (proj1 (C50_unpacked_hints _ resumed) H)|]. split; reflexivity.
Qed.
