(** * Ownership of exported memory: C37, C38, C44

    [run_export t c (owned t c)]: export of an array [c], when only its storage is
    allocated. It returns the array (slot 0) and the schema (slot 1) and leaves
    the heap [h]. [acts st l]: the state after the actions [l] of a consumer, none
    if one of them frees or reads memory that is not allocated (so [Some] also
    says that nothing is freed twice). [array_holder l], [schema_holder l]: the
    slot the structure is in after [l], [None] once it is released. *)
From Coq Require Import List NArith ZArith Bool Arith.
From Verif Require Import Base Iter Spec VecModel BitmapModel CollModel ValidityModel FlattenModel
  OffsetsModel LayoutModel FfiModel FfiHeapModel FfiExportModel SpecHeap FactsHeap FactsRun PropFfi.
Import ListNotations.

(** ** C37 *)

Theorem C37_freed_exactly_on_release :
  forall t c sl h l, run_export t c (owned t c) = Some (XOk sl, h) -> top_level l ->
  exists st, acts (State sl h) l = Some st /\
  forall b, alive st b <->
    (In b (array_blocks t c) /\ array_holder l <> None) \/
    (In b (schema_blocks 0 t) /\ schema_holder l <> None).
Proof. exact run_top. Qed.
Print Assumptions C37_freed_exactly_on_release.

(** No two of these are the same allocation. *)
Theorem C37_allocations_distinct :
  forall t c, NoDup (array_blocks t c ++ schema_blocks 0 t).
Proof. exact start_nodup. Qed.
Print Assumptions C37_allocations_distinct.

(** The buffers of the structures are those [export] hands out (C33-C35). *)
Theorem C37_buffers_of_export :
  forall addr d t c,
  map (option_map cb_addr) (x_buffers addr d t c) = map (option_map addr) (level_buffers d t c).
Proof. exact same_buffers. Qed.
Print Assumptions C37_buffers_of_export.

Definition mixed_state : state := Eval vm_compute in
  match run_export mixed mixed_array (owned mixed mixed_array) with
  | Some (XOk sl, h) => State sl h
  | _ => State [] []
  end.
Definition history : list action :=
  [Read 0; Move 0; Read 1; Release 0; Move 2; Read 3; Drop 2; Release 3; Read 3; Read 1].
Example C37_case : run_export mixed mixed_array (owned mixed mixed_array) =
    Some (XOk (slots mixed_state), mem mixed_state) /\ top_level history /\ array_holder history = None /\
  schema_holder history = Some 1 /\ length (array_blocks mixed mixed_array) = 9 /\
  schema_blocks 0 mixed = [BSchema 0; BSchema 1; BFormat 1] /\
  option_map (fun st => map fst (mem st)) (acts mixed_state history) = Some (schema_blocks 0 mixed).
Proof.
  split; [vm_compute; reflexivity|].
  split; [intros i H; repeat (destruct H as [H|H]; [discriminate|]); exact H|].
  repeat split; vm_compute; reflexivity.
Qed.

(** ** C44 *)

(** An export that is rejected, or panics because a length does not fit i64,
    frees the storage of the array and all it has allocated; [export] is the
    function of C33 and C34. *)
Theorem C44_failed_export_leaves_nothing :
  forall t c addr,
  match export addr t c with
  | XOk _ => exists sl h, run_export t c (owned t c) = Some (XOk sl, h)
  | XErr o => run_export t c (owned t c) = Some (XErr o, [])
  | XPnc => run_export t c (owned t c) = Some (XPnc, [])
  end.
Proof. exact run_failures. Qed.
Print Assumptions C44_failed_export_leaves_nothing.

(** The bit offset is two levels down; the outermost box is allocated when it is
    found. *)
Definition deep : ty := TVsl I32 (TFsl 1 (TBool false) false) true.
Definition deep_array : cC (layout deep) :=
  Validity (Offsets (Bitmap (Vec [184]%N 1) 5 3) (Vec [0; 2; 5]%Z 3)) (Some (Bitmap (Vec [3]%N 1) 2 0)).
Example C44_case : owned deep deep_array =
    [(BValidity 0, Bytes); (BOffsets 0, Bytes); (BValues 2, Bytes)] /\
  export at_64 deep deep_array = XErr 3 /\
  run_export deep deep_array (owned deep deep_array) = Some (XErr 3%N, []).
Proof. repeat split; vm_compute; reflexivity. Qed.

(** ** C38 *)

(** The storage of an exported array lives exactly until the array itself is
    released, whatever children a consumer moves out; nothing is freed twice and
    in the end nothing is left. Missing for the full statement: that the buffers
    of a moved child outlive the array; that is false (below). *)
Theorem C38_moved_children_partial :
  forall t c sl h l, run_export t c (owned t c) = Some (XOk sl, h) -> guarded l ->
  exists st, acts (State sl h) l = Some st /\
  (forall b, In b (storage 0 t c) -> alive st b <-> array_holder l <> None) /\
  ((forall i, st_live (get i (slots st)) = false) -> forall b, ~ alive st b).
Proof. exact run_forest. Qed.
Print Assumptions C38_moved_children_partial.

Definition adoption : list action :=
  [MoveChild 0; Read 2; MoveChild 2; Read 3; Move 0; Read 3; MoveChild 1; Release 4; Drop 3;
   Drop 2; Drop 1; Drop 5].
Example C38_case : guarded adoption /\ array_holder adoption = None /\
  option_map (fun st => (map st_live (slots st), map fst (mem st)))
    (acts mixed_state adoption) = Some (repeat false 6, []).
Proof.
  split; [|split; vm_compute; reflexivity].
  intros l1 i l2 H.
  do 13 (destruct l1 as [|? l1]; [discriminate H || (vm_compute; discriminate)
    |injection H as <- H; try (destruct l1; discriminate H)]).
Qed.

(** The full statement is false: the child that was moved out still points to
    buffers, but they are freed with its parent. *)
Definition orphaned : state := Eval vm_compute in
  match acts mixed_state [MoveChild 0; Release 0] with
  | Some st => st
  | None => mixed_state
  end.
Theorem C38_moved_child_refuted :
  exists t c sl h st, run_export t c (owned t c) = Some (XOk sl, h) /\
  acts (State sl h) [MoveChild 0; Release 0] = Some st /\
  st_live (get 2 (slots st)) = true /\
  (exists b, In b (st_buffers (get 2 (slots st)))) /\
  (forall b, In b (st_buffers (get 2 (slots st))) -> ~ alive st b) /\
  act st (Read 2) = None.
Proof.
  exists mixed, mixed_array, (slots mixed_state), (mem mixed_state), orphaned.
  split; [vm_compute; reflexivity|].
  split; [vm_compute; reflexivity|]. split; [vm_compute; reflexivity|].
  split; [eexists; left; vm_compute; reflexivity|]. split; [|vm_compute; reflexivity].
  intros b [<-|[]] H. apply H. vm_compute. reflexivity.
Qed.
Print Assumptions C38_moved_child_refuted.
