(** * Operations that must succeed: C28, C29 *)
From Coq Require Import List NArith ZArith Bool Arith.
From Verif Require Import Base Iter Spec VecModel BitmapModel CollModel ValidityModel
  FlattenModel OffsetsModel LayoutModel Reach SpecLive FactsLive.
Import ListNotations.

(** An allocator that refuses everything (for longer than any of the examples). *)
Definition refuses : world := repeat None 200.

(** ** C28: a reservation suffices *)

(** [w2] is arbitrary: every further allocation may fail. *)
Theorem C28_reservation_suffices :
  forall s, widths_pos s -> no_lists s ->
  forall c xs n w c1 w1, built s c -> shows (coll s) c xs ->
  k_try_reserve (coll s) c n w = (c1, ODone, w1) ->
  forall R (it : iter (cA (coll s)) R) w2, good s it -> (lenN (items_of it) <= n)%N ->
  exists c2 r w3, k_try_extend (coll s) c1 it w2 = (c2, r, ODone, w3) /\
    shows (coll s) c2 (xs ++ items_of it).
Proof. exact flat_reserved. Qed.
Print Assumptions C28_reservation_suffices.

(** The reserved room can be used in any number of extensions. *)
Theorem C28_reservation_suffices_in_parts :
  forall s, widths_pos s -> no_lists s ->
  forall c xs n w c1 w1, built s c -> shows (coll s) c xs ->
  k_try_reserve (coll s) c n w = (c1, ODone, w1) ->
  forall its, Forall (fun p => good s (fst p)) its -> (lenN (all_items its) <= n)%N ->
  exists c2, exec (coll s) c1 (try_extends its) = (c2, repeat ODone (length its)) /\
    shows (coll s) c2 (xs ++ all_items its).
Proof. exact flat_reserved_parts. Qed.
Print Assumptions C28_reservation_suffices_in_parts.

(** What a reservation is good for when lists are involved. *)
Theorem C28_lists_get_one_element_each :
  forall s, widths_pos s ->
  forall c xs n w c1 w1 its, built s c -> shows (coll s) c xs ->
  k_try_reserve (coll s) c n w = (c1, ODone, w1) ->
  Forall (fun p => good s (fst p)) its -> covered s c n (all_items its) ->
  exists c2, exec (coll s) c1 (try_extends its) = (c2, repeat ODone (length its)) /\
    shows (coll s) c2 (xs ++ all_items its).
Proof. exact reserved_extends. Qed.
Print Assumptions C28_lists_get_one_element_each.

(** Lists have to be excluded: one list is reserved, one list is refused. *)
Theorem C28_not_for_lists :
  let s := SList I32 (SVec U16) in
  exists c1 w1, k_try_reserve (coll s) (k_default (coll s)) 1 [] = (c1, ODone, w1) /\
  snd (fst (k_try_extend (coll s) c1 (it_list [[1; 2; 3]%N]) refuses)) = OErr.
Proof.
  exists (Offsets (Vec [] 1) (Vec [0%Z] 4)), [].
  split; [vm_compute; reflexivity|]. vm_compute; reflexivity.
Qed.
Print Assumptions C28_not_for_lists.

(** Optional pairs of optional booleans, three of them, twenty more to come. *)
Definition pairs : shape := SNull (SFixed 2 (SNull SBits)).
Definition three_pairs : list (cA (coll pairs)) :=
  [Some [Some true; None]; None; Some [Some false; Some true]].
Definition more_pairs : list (cA (coll pairs)) :=
  concat (repeat [Some [None; Some true]; None] 10).
Definition pairs_before : cC (coll pairs) := Eval vm_compute in
  match fst (k_from_iter (coll pairs) (it_list three_pairs)) with
  | BOk c => c | _ => k_default (coll pairs) end.
Definition pairs_reserved : cC (coll pairs) := Eval vm_compute in
  fst (fst (k_try_reserve (coll pairs) pairs_before 20 [])).
Lemma pairs_built : built pairs pairs_before.
Proof.
  apply (built_collect pairs unit (it_list three_pairs) pairs_before tt).
  - left. reflexivity.
  - repeat constructor.
  - left. vm_compute. reflexivity.
Qed.
Example C28_case :
  widths_pos pairs /\ no_lists pairs /\ built pairs pairs_before /\
  k_try_reserve (coll pairs) pairs_before 20 [] = (pairs_reserved, ODone, []) /\
  lenN more_pairs = 20%N /\ good pairs (it_list more_pairs) /\
  snd (fst (k_try_extend (coll pairs) pairs_reserved (it_list more_pairs) refuses)) = ODone /\
  (* without the reservation *)
  snd (fst (k_try_extend (coll pairs) pairs_before (it_list more_pairs) refuses)) = OErr.
Proof.
  split; [repeat constructor|]. split; [exact I|]. split; [exact pairs_built|].
  split; [vm_compute; reflexivity|]. split; [vm_compute; reflexivity|].
  split; [|split; vm_compute; reflexivity].
  split; [vm_compute; reflexivity|]. split.
  - vm_compute. repeat split; discriminate.
  - vm_compute. repeat constructor.
Qed.
Example C28_lists_case :
  let s := SList I32 (SVec U16) in
  let c1 : cC (coll s) := Offsets (Vec [] 4) (Vec [0%Z] 5) in
  k_try_reserve (coll s) (k_default (coll s)) 4 [] = (c1, ODone, []) /\
  covered s (k_default (coll s)) 4 [[1; 2]; [3]; []; [4]]%N /\
  snd (fst (k_try_extend (coll s) c1 (it_list [[1; 2]; [3]; []; [4]]%N) refuses)) = ODone.
Proof.
  split; [vm_compute; reflexivity|]. split; [|vm_compute; reflexivity].
  split; [vm_compute; discriminate|]. split; vm_compute; discriminate.
Qed.

(** ** C29: construction succeeds when no allocation fails *)

(** Nullable and list collections reserve for the upper bound of the size hint:
    for them it has to fit as well ([C29_upper_bound_refuted]). *)
Theorem C29_construction_succeeds :
  forall s, widths_pos s -> forall R (it : iter (cA (coll s)) R) w,
  resumable_try s = true \/ fused it -> good s it -> grants w ->
  (total (cost s) (items_of it) <= limit s)%N ->
  takes_upper s = false \/ (announced (it_hint it) * unit_cost s <= limit s)%N ->
  exists c r w', k_try_from_iter (coll s) it w = (BOk c, r, w') /\
    shows (coll s) c (items_of it) /\ built s c.
Proof. exact granted_collect. Qed.
Print Assumptions C29_construction_succeeds.

Theorem C29_empty_construction_succeeds :
  forall s, widths_pos s -> forall n w, grants w -> (n * unit_cost s <= limit s)%N ->
  exists c w', k_try_with_capacity (coll s) n w = (BOk c, w') /\ shows (coll s) c [].
Proof. exact granted_with_capacity. Qed.
Print Assumptions C29_empty_construction_succeeds.

(** ** The same for reservations and extensions *)

Theorem C28_reservation_succeeds :
  forall s, widths_pos s -> forall c xs n w, built s c -> shows (coll s) c xs -> grants w ->
  (held s c + n * unit_cost s <= limit s)%N ->
  exists c' w', k_try_reserve (coll s) c n w = (c', ODone, w') /\ shows (coll s) c' xs.
Proof. exact granted_reserve. Qed.
Print Assumptions C28_reservation_succeeds.

Theorem C29_extension_succeeds :
  forall s, widths_pos s -> forall R c xs (it : iter (cA (coll s)) R) w,
  built s c -> shows (coll s) c xs -> good s it -> grants w -> room_for s c (items_of it) ->
  exists c' r w', k_try_extend (coll s) c it w = (c', r, ODone, w') /\
    shows (coll s) c' (xs ++ items_of it).
Proof. exact granted_extend. Qed.
Print Assumptions C29_extension_succeeds.

Example C29_live_case :
  good pairs (it_list more_pairs) /\ grants (repeat (Some 0%N) 5) /\
  (total (cost pairs) more_pairs <= limit pairs)%N /\
  (announced (it_hint (it_list more_pairs)) * unit_cost pairs <= limit pairs)%N /\
  (exists c, fst (fst (k_try_from_iter (coll pairs) (it_list more_pairs) (repeat (Some 0%N) 5))) =
     BOk c) /\
  (held pairs pairs_before + 20 * unit_cost pairs <= limit pairs)%N /\
  room_for pairs pairs_before more_pairs.
Proof.
  split; [exact (proj1 (proj2 (proj2 (proj2 (proj2 (proj2 C28_case))))))|].
  split; [vm_compute; repeat constructor; discriminate|].
  split; [vm_compute; discriminate|]. split; [vm_compute; discriminate|].
  split; [eexists; vm_compute; reflexivity|].
  split; vm_compute; discriminate.
Qed.
