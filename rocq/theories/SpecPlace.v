(** * Vocabulary for exported arrays with shared, inline and static buffers *)
From Coq Require Import List NArith ZArith Bool Arith.
From Verif Require Import Base Iter VecModel BitmapModel CollModel ValidityModel FlattenModel
  OffsetsModel LayoutModel FfiModel FfiHeapModel FfiExportModel FfiPlaceModel SpecHeap.
Import ListNotations.

(** Depth of the nesting *)
Fixpoint levels (t : ty) : nat :=
  match t with
  | TBool _ | TPrim _ _ => 0
  | TFsl _ t _ | TVsl _ t _ => S (levels t)
  end.

Definition palive (st : pstate) (b : block) : Prop := at_block b (pmem st) <> None.
(** The allocations that belong to an exported array alone *)
Definition own_blocks (w : block -> place) (t : ty) (c : cC (layout t)) : list block :=
  own_storage w t c ++ boxes 0 t.

(** Where a buffer is after the export *)
Definition buffer_at (w : block -> place) (b : block) : ptr :=
  match w b with
  | Own => PBlock b
  | Shared i => PShared i
  | Inline => PInside (Some (BData 0)) (* in the outermost box *)
  | Static => PStatic
  end.
(** The buffer pointers of a structure and its children, outermost first *)
Fixpoint pointers (fuel : nat) (s : pstruct) (m : pheap) : list ptr :=
  match fuel with
  | O => []
  | S f =>
      ps_buffers s ++
      match ps_children s with
      | None => []
      | Some table =>
          match at_block table m with
          | Some (PTable box) =>
              match at_block box m with
              | Some (PArrayBox (Some k) _ _) => pointers f k m
              | _ => []
              end
          | _ => []
          end
      end
  end.

(** What the consumer does in a history *)
Definition consumer (l : list event) : list action :=
  flat_map (fun e => match e with Consumer a => [a] | _ => [] end) l.
(** The references the other owners have after a history; [e]: at first *)
Definition retained (i : nat) (l : list event) : nat :=
  length (filter (fun e => match e with Retain j => Nat.eqb i j | _ => false end) l).
Definition discarded (i : nat) (l : list event) : nat :=
  length (filter (fun e => match e with Discard j => Nat.eqb i j | _ => false end) l).
Definition others (e : nat -> nat) (l : list event) (i : nat) : nat :=
  e i + retained i l - discarded i l.
(** The other owners clone and drop only references they have. *)
Definition civil (e : nat -> nat) (l : list event) : Prop :=
  forall l1 l2 i, l = l1 ++ Retain i :: l2 \/ l = l1 ++ Discard i :: l2 -> others e l1 i <> 0.
