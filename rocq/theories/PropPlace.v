(** * Exported memory in any storage: C59

    [w b]: where the buffer [b] of the layout is: an allocation of its own, a shared
    one, inside of the layout, or static. [pbefore w e t c]: the memory before the
    export, with [e i] references to the [i]-th shared allocation that are not in the
    array. [prun_export w fuel t c m]: the steps of export; it returns the array (slot
    0) and the schema (slot 1). [pacts fuel st l]: the state after the events [l], none
    if one of them frees or reads memory that is not there. [strong m i]: the
    references to a shared allocation, which is freed when there is none.
    [fuel] bounds the depth of what is followed. *)
From Coq Require Import List NArith ZArith Bool Arith.
From Verif Require Import Base Iter Spec VecModel BitmapModel CollModel ValidityModel FlattenModel
  OffsetsModel LayoutModel FfiModel FfiHeapModel FfiExportModel FfiPlaceModel SpecHeap SpecPlace FactsPlace
  PropFfi PropHeap.
Import ListNotations.

(** Whatever a consumer does with the structures that export returned, and whenever
    the other owners clone and drop their references: what belongs to the array
    alone is there until the array is released, and every reference of the array to
    shared memory is given up exactly then. *)
Theorem C59_released_exactly_once :
  forall w t c fuel e sl m l, levels t < fuel ->
  prun_export w fuel t c (pbefore w e t c) = Some (XOk sl, m) -> top_level (consumer l) -> civil e l ->
  exists st, pacts fuel (PState sl m) l = Some st /\
  (forall b, palive st b <->
    (In b (own_blocks w t c) /\ array_holder (consumer l) <> None) \/
    (In b (schema_blocks 0 t) /\ schema_holder (consumer l) <> None)) /\
  (forall i, strong (pmem st) i =
    others e l i + match array_holder (consumer l) with Some _ => uses w t c i | None => 0 end).
Proof. exact place_top. Qed.
Print Assumptions C59_released_exactly_once.

(** The same when children are moved out, if nothing is read after the release of
    the array (C38). *)
Theorem C59_moved_children :
  forall w t c fuel e sl m l, levels t < fuel ->
  prun_export w fuel t c (pbefore w e t c) = Some (XOk sl, m) -> guarded (consumer l) -> civil e l ->
  exists st, pacts fuel (PState sl m) l = Some st /\
  (forall b, In b (own_storage w t c) -> palive st b <-> array_holder (consumer l) <> None) /\
  (forall i, strong (pmem st) i =
    others e l i + match array_holder (consumer l) with Some _ => uses w t c i | None => 0 end) /\
  ((forall i, ps_live (pget i (pslots st)) = false) -> forall b, ~ palive st b).
Proof. exact place_forest. Qed.
Print Assumptions C59_moved_children.

(** All buffer pointers, those of the children too, are to where the buffers are
    after the export: what is inline has been moved to the box of the array. *)
Theorem C59_pointers :
  forall w t c fuel e sl m, levels t < fuel ->
  prun_export w fuel t c (pbefore w e t c) = Some (XOk sl, m) ->
  pointers fuel (pget 0 sl) m = map (buffer_at w) (storage 0 t c).
Proof. exact place_pointers. Qed.
Print Assumptions C59_pointers.

(** Export succeeds, is rejected or panics as in any other storage; if it does not
    succeed it frees all that belongs to the array and gives up the references the
    array has, and no others. *)
Theorem C59_failed_export :
  forall w t c fuel e addr, levels t < fuel ->
  match export addr t c with
  | XOk _ => exists sl m, prun_export w fuel t c (pbefore w e t c) = Some (XOk sl, m)
  | XErr o => exists m, prun_export w fuel t c (pbefore w e t c) = Some (XErr o, m) /\
      cells m = [] /\ forall i, strong m i = e i
  | XPnc => exists m, prun_export w fuel t c (pbefore w e t c) = Some (XPnc, m) /\
      cells m = [] /\ forall i, strong m i = e i
  end.
Proof. exact place_failures. Qed.
Print Assumptions C59_failed_export.

(** ** Cases *)

(** The array of C37 with its buffers in all kinds of places: the offsets and a
    bitmap in one shared allocation that has another owner, a bitmap inline, the
    values in memory of their own. *)
Definition mixed_places (b : block) : place :=
  match b with
  | BOffsets 0 | BValidity 2 => Shared 7
  | BValidity 1 => Inline
  | _ => Own
  end.
Definition one_other (i : nat) : nat := if Nat.eqb i 7 then 1 else 0.
Definition mixed_export : option (xres (list pstruct) * pheap) :=
  prun_export mixed_places 3 mixed mixed_array (pbefore mixed_places one_other mixed mixed_array).
Definition pmixed : pstate := Eval vm_compute in
  match mixed_export with
  | Some (XOk sl, m) => PState sl m
  | _ => PState [] (PHeap [] (fun _ => 0))
  end.
Definition shared_history : list event :=
  [Consumer (Read 0); Retain 7; Consumer (Move 0); Discard 7; Discard 7; Consumer (Read 2);
   Consumer (Release 2); Consumer (Read 1)].
Example C59_case : mixed_export = Some (XOk (pslots pmixed), pmem pmixed) /\ levels mixed < 3 /\
  storage 0 mixed mixed_array = [BOffsets 0; BValidity 1; BValidity 2; BValues 2] /\
  uses mixed_places mixed mixed_array 7 = 2 /\
  own_storage mixed_places mixed mixed_array = [BValues 2] /\
  pointers 3 (pget 0 (pslots pmixed)) (pmem pmixed) =
    [PShared 7; PInside (Some (BData 0)); PShared 7; PBlock (BValues 2)] /\
  top_level (consumer shared_history) /\ civil one_other shared_history /\
  array_holder (consumer shared_history) = None /\
  map (fun n => option_map (fun st => (length (cells (pmem st)), strong (pmem st) 7))
         (pacts 3 pmixed (firstn n shared_history))) [0; 2; 4; 5; 6; 8] =
    map Some [(9, 3); (9, 4); (9, 3); (9, 2); (9, 2); (3, 0)].
Proof.
  split; [vm_compute; reflexivity|]. split; [vm_compute; repeat constructor|].
  split; [vm_compute; reflexivity|]. split; [vm_compute; reflexivity|]. split; [vm_compute; reflexivity|].
  split; [vm_compute; reflexivity|].
  split; [intros i H; repeat (destruct H as [H|H]; [discriminate|]); exact H|].
  split; [|split; vm_compute; reflexivity].
  intros l1 l2 i [H|H];
    do 8 (destruct l1 as [|? l1]; [discriminate H || (injection H as <- _; vm_compute; discriminate)
      |injection H as <- H; try (destruct l1; discriminate H)]).
Qed.

(** The events of C38 on the same array, with the other owner leaving first *)
Definition shared_adoption : list event := Discard 7 :: map Consumer adoption.
Example C59_moved_case : guarded (consumer shared_adoption) /\ civil one_other shared_adoption /\
  option_map (fun st => (map ps_live (pslots st), cells (pmem st), strong (pmem st) 7))
    (pacts 3 pmixed shared_adoption) = Some (repeat false 6, [], 0).
Proof.
  split; [exact (proj1 C38_case)|]. split; [|vm_compute; reflexivity].
  intros l1 l2 i [H|H].
  - destruct l1 as [|? l1]; [discriminate H|]. injection H as <- H.
    do 13 (destruct l1 as [|? l1]; [discriminate H|injection H as <- H; try (destruct l1; discriminate H)]).
  - destruct l1 as [|? l1]; [injection H as <- _; vm_compute; discriminate|]. injection H as <- H.
    do 13 (destruct l1 as [|? l1]; [discriminate H|injection H as <- H; try (destruct l1; discriminate H)]).
Qed.

(** The rejected array of C44, all of it shared *)
Example C59_failed_case : export at_64 deep deep_array = XErr 3 /\
  uses (fun _ => Shared 1) deep deep_array 1 = 3 /\
  option_map (fun r => (fst r, cells (snd r), map (strong (snd r)) [0; 1; 7]))
    (prun_export (fun _ => Shared 1) 3 deep deep_array
      (pbefore (fun _ => Shared 1) (fun i => i) deep deep_array)) = Some (XErr 3%N, [], [0; 1; 7]).
Proof. repeat split; vm_compute; reflexivity. Qed.

(** Had the inline buffers been asked for their addresses before the move into the
    box, a consumer could not read the array. *)
Example C59_not_before_the_move :
  pread 3 (parray mixed_places (Some (BData 0)) 0 mixed mixed_array) (pmem pmixed) = true /\
  pread 3 (parray (fun _ => Inline) None 0 mixed mixed_array) (pmem pmixed) = false.
Proof. split; vm_compute; reflexivity. Qed.
