(** * The effect of the operations on the buffers: C51 *)
From Coq Require Import List NArith ZArith Bool Arith Lia.
From Verif Require Import Base Iter Spec VecModel BitmapModel CollModel ValidityModel FlattenModel
  OffsetsModel LayoutModel Reach SpecLaid SpecBytes CloneModel FactsBytes PropLaid.
Import ListNotations.

(** ** C51: what is in the buffers after an operation *)

(** [put] is written from the meaning of the buffers (SpecBytes.v). It depends on
    the items and not on size hints, capacities or the allocator. *)
Theorem C51_extend : forall s, widths_pos s ->
  forall R c (it : iter (cA (coll s)) R) c' r, built s c -> snug s (image_of s c) ->
  Forall (item_ok s) (items_of it) -> k_extend (coll s) c it = (c', r, ODone) ->
  filled s (image_of s c') = put s (filled s (image_of s c)) (items_of it) /\
  snug s (image_of s c').
Proof. exact bytes_extend. Qed.
Print Assumptions C51_extend.

Theorem C51_try_extend : forall s, widths_pos s ->
  forall R c (it : iter (cA (coll s)) R) w c' r w', built s c -> snug s (image_of s c) ->
  Forall (item_ok s) (items_of it) -> k_try_extend (coll s) c it w = (c', r, ODone, w') ->
  filled s (image_of s c') = put s (filled s (image_of s c)) (items_of it) /\
  snug s (image_of s c').
Proof. exact bytes_try_extend. Qed.
Print Assumptions C51_try_extend.

(** A reservation changes nothing, whether it succeeds or not. *)
Theorem C51_reserve : forall s, widths_pos s -> forall c, built s c ->
  (forall n c' o, k_reserve (coll s) c n = (c', o) ->
     same_bytes s c' c /\ (snug s (image_of s c) -> snug s (image_of s c'))) /\
  (forall n w c' o w', k_try_reserve (coll s) c n w = (c', o, w') ->
     same_bytes s c' c /\ (snug s (image_of s c) -> snug s (image_of s c'))).
Proof. exact bytes_reserve. Qed.
Print Assumptions C51_reserve.

Theorem C51_truncate : forall s, widths_pos s -> forall c n c' o, built s c ->
  k_truncate (coll s) c n = (c', o) ->
  image_of s c' = cut_items s (image_of s c) (N.to_nat n) /\
  (snug s (image_of s c) -> snug s (image_of s c')).
Proof. exact bytes_truncate. Qed.
Print Assumptions C51_truncate.

(** Collected collections are snug (C48 shows that they are laid out). *)
Theorem C51_collected : forall s c xs, widths_pos s -> laid s c xs -> snug s (image_of s c).
Proof. exact laid_snug. Qed.
Print Assumptions C51_collected.

Theorem C51_histories : forall s, widths_pos s -> forall c ps os c', built s c ->
  snug s (image_of s c) -> runs s c ps os c' -> Forall2 appends ps os ->
  filled s (image_of s c') = put s (filled s (image_of s c)) (concat (map op_items ps)) /\
  snug s (image_of s c').
Proof. exact bytes_runs. Qed.
Print Assumptions C51_histories.

(** Two collections with the same bytes, the same items in other portions: the
    same bytes. *)
Theorem C51_same : forall s, widths_pos s -> forall c1 c2 ps1 os1 c1' ps2 os2 c2',
  built s c1 -> built s c2 -> snug s (image_of s c1) -> snug s (image_of s c2) -> same_bytes s c1 c2 ->
  runs s c1 ps1 os1 c1' -> runs s c2 ps2 os2 c2' ->
  Forall2 appends ps1 os1 -> Forall2 appends ps2 os2 ->
  concat (map op_items ps1) = concat (map op_items ps2) -> same_bytes s c1' c2'.
Proof. exact bytes_same. Qed.
Print Assumptions C51_same.

(** Bits, numbers and fixed-size lists of them have no bitmaps that can be absent.
    Then this also holds of histories that truncate. *)
Theorem C51_plain_histories : forall s, widths_pos s -> clonable s = true ->
  forall c ps os c', built s c -> runs s c ps os c' -> Forall2 extends ps os ->
  image_of s c' = fold_left (effect s) ps (image_of s c).
Proof. exact plain_runs. Qed.
Print Assumptions C51_plain_histories.

(** A clone is a collection like any other, with the same items and bytes. *)
Theorem C51_clone : forall s, widths_pos s -> clonable s = true ->
  forall c xs, built s c -> shows (coll s) c xs ->
  built s (clone s c) /\ image_of s (clone s c) = image_of s c /\ shows (coll s) (clone s c) xs.
Proof. exact clone_same. Qed.
Print Assumptions C51_clone.

(** ** Cases *)

(** Five bits that begin at bit 2 of two bytes of ones. One more bit stays within
    the first byte and the second one is not touched; three more bits reach the
    second byte, and the rest of it becomes zero. *)
Definition window : bitmap := Bitmap (Vec [255; 255]%N 4) 5 2.
Definition bytes_and_bits (b : bitmap) : list N * nat * nat := (v_items (bm_buf b), bm_bits b, bm_off b).
Example C51_window_case : built SBits window /\
  (let '(b, _, o) := k_extend (coll SBits) window (it_list [false]) in (bytes_and_bits b, o)) =
    ([127; 255]%N, 6, 2, ODone) /\
  (let '(b, _, o) := k_extend (coll SBits) window (it_list [false; true; false]) in (bytes_and_bits b, o)) =
    ([127; 1]%N, 8, 2, ODone) /\
  put SBits (image_of SBits window) [false; true; false] =
    BitsImage (bits_of [127; 1]%N) 2 8.
Proof.
  split; [|vm_compute; auto].
  apply (built_bits_parts (Vec [255; 255]%N 4) 5 2); [split; vm_compute; discriminate|reflexivity].
Qed.

(** The history of C48 against one extension with another hint. *)
Definition one_go : list (op (cA (coll flags))) := [OpExtend (it_list flag_lists)].
Definition flags_once := Eval vm_compute in fst (exec (coll flags) flags0 one_go).
Example C51_same_case : same_bytes flags flags4 flags_once /\
  put flags (filled flags (image_of flags flags0)) flag_lists = filled flags (image_of flags flags4) /\
  snd (image_of flags flags4) = Some (BitsImage (bits_of [13]%N) 0 4).
Proof.
  destruct C48_history_case as (Hr & Ha & _).
  assert (Hs : snug flags (image_of flags flags0)).
  { exact (C51_collected flags _ [] I (proj1 (C48_empty flags I))). }
  split; [|split].
  - apply (C51_same flags I flags0 flags0 _ _ _ one_go [ODone] _ (built_default flags)
      (built_default flags) Hs Hs eq_refl Hr).
    + apply runs_cons with (c1 := flags_once); [|vm_compute; reflexivity|discriminate|discriminate|constructor].
      repeat (constructor; [cbn; repeat constructor|]). constructor.
    + exact Ha.
    + constructor; [reflexivity|constructor].
    + reflexivity.
  - vm_compute. reflexivity.
  - vm_compute. reflexivity.
Qed.

(** Pairs of bits, truncated and extended, and the same of a clone. The bits cut off
    are overwritten. *)
Definition pairs : shape := SFixed 2 SBits.
Definition pairs_of (n : N) : bitmap := Bitmap (Vec [n] 8) 6 0.
Definition pair_ops : list (op (list bool)) :=
  [OpTruncate 1; OpExtend (it_list [[false; true]]); OpReserve 100].
Example C51_clone_case : clonable pairs = true /\ built pairs (pairs_of 63) /\
  v_cap (bm_buf (clone pairs (pairs_of 63))) = 1%N /\
  (let '(b, os) := exec (coll pairs) (pairs_of 63) pair_ops in (bytes_and_bits b, os)) =
    ([59]%N, 4, 0, [ODone; ODone; ODone]) /\
  (let '(b, os) := exec (coll pairs) (clone pairs (pairs_of 63)) pair_ops in (bytes_and_bits b, os)) =
    ([59]%N, 4, 0, [ODone; ODone; ODone]) /\
  fold_left (effect pairs) pair_ops (image_of pairs (pairs_of 63)) = BitsImage (bits_of [59]%N) 0 4.
Proof.
  split; [reflexivity|]. split; [|vm_compute; auto].
  apply (built_fixed_parts 2 SBits (pairs_of 63)); [|reflexivity].
  apply (built_bits_parts (Vec [63]%N 8) 6 0); [split; vm_compute; discriminate|reflexivity].
Qed.
