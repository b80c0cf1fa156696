(** * Who owns the memory of exported structures: narrow-ffi/src/export

    The heap export leaves behind, the release callbacks, and what a consumer
    may do. A step that frees or reads memory that is not allocated has no
    result ([None]). Simplifications: every type has at most one child, so a box
    has at most one; an empty Vec counts as an allocation of size 0; every buffer
    is an allocation of its own (FfiPlaceModel.v has the other kinds); only what
    concerns ownership is kept of the structures. *)
From Coq Require Import List NArith ZArith Bool Arith.
From Verif Require Import Base Iter VecModel BitmapModel CollModel ValidityModel FlattenModel
  OffsetsModel LayoutModel FfiModel.
Import ListNotations.

(** lib.rs:102-121 ArrowSchema and 160-181 ArrowArray.
    [st_live]: release is not null; [st_private]: private_data; [st_buffers]: what
    the buffers of an array or the format of a schema point to, static memory
    left out; [st_children]: the allocation the children table is in. *)
Record cstruct : Type := CStruct {
  st_live : bool;
  st_private : option block;
  st_buffers : list block;
  st_children : option block;
}.

(** What is in an allocation *)
Inductive cell : Type :=
| Bytes                     (* a buffer or a string *)
| Table (box : block)       (* child_pointers: the child in that box *)
| ArrayBox (kid : option cstruct) (pointers : option block) (owner : list block)
    (* ArrayData, export/mod.rs:217-226 *)
| SchemaBox (format : option block) (kid : cstruct).
    (* fixed_size_list.rs:112-119, variable_size_list.rs:118-123; the children
       table is in the box *)

Definition block_eqb (a b : block) : bool :=
  match a, b with
  | BValidity i, BValidity j | BValues i, BValues j | BOffsets i, BOffsets j
  | BData i, BData j | BPointers i, BPointers j | BSchema i, BSchema j
  | BFormat i, BFormat j => Nat.eqb i j
  | _, _ => false
  end.

Definition heap : Type := list (block * cell).
Fixpoint lookup (b : block) (h : heap) : option cell :=
  match h with
  | [] => None
  | (b', c) :: r => if block_eqb b b' then Some c else lookup b r
  end.
Definition remove (b : block) (h : heap) : heap :=
  filter (fun p => negb (block_eqb b (fst p))) h.
(** Freeing what is not allocated is undefined. *)
Definition free (b : block) (h : heap) : option heap :=
  if is_some (lookup b h) then Some (remove b h) else None.
Fixpoint free_all (bs : list block) (h : heap) : option heap :=
  match bs with
  | [] => Some h
  | b :: r => match free b h with Some h' => free_all r h' | None => None end
  end.
Definition opt_list {A} (o : option A) : list A :=
  match o with Some a => [a] | None => [] end.

(** ** Release and drop *)

Definition hbind {A B} (o : option A) (f : A -> option B) : option B :=
  match o with Some a => f a | None => None end.

(** lib.rs:147-155, 208-216 Drop: calls release on a live structure.
    export/mod.rs:317-331 release_array, 341-354 release_schema: take
    private_data and drop the box: its fields in order of declaration, then the
    box itself. 334-338 release_flat_schema: there is no private data. [fuel]
    bounds the depth of the structure; the theorems show it suffices. *)
Fixpoint drop_struct (fuel : nat) (s : cstruct) (h : heap) : option heap :=
  if st_live s then
    match fuel with
    | O => None
    | S f =>
      match st_private s with
      | None => Some h
      | Some b =>
          match lookup b h with
          | Some (ArrayBox kid pointers owner) =>
              hbind (match kid with Some k => drop_struct f k h | None => Some h end) (fun h1 =>
              hbind (free_all (opt_list pointers) h1) (fun h2 =>
              hbind (free_all owner h2) (free b)))
          | Some (SchemaBox format kid) =>
              hbind (free_all (opt_list format) h) (fun h1 =>
              hbind (drop_struct f kid h1) (free b))
          | _ => None
          end
      end
    end
  else Some h.
Definition fuel_of (h : heap) : nat := S (length h).

(** ** Export *)

(** The buffers of one level: what [x_buffers] points to *)
Definition level_buffers (d : nat) (t : ty) : cC (layout t) -> list (option block) :=
  let bits m := match m : option bitmap with Some _ => Some (BValidity d) | None => None end in
  match t return cC (layout t) -> list (option block) with
  | TBool nl => fun c => [bits (bits_under nl SBits c); Some (BValues d)]
  | TPrim p nl => fun c => [bits (bits_under nl (SVec p) c); Some (BValues d)]
  | TFsl n t nl => fun c => [bits (bits_under nl (SFixed n (shape_of t)) c)]
  | TVsl k t nl => fun c =>
      [bits (bits_under nl (SList k (shape_of t)) c); Some (BOffsets d)]
  end.
Definition level_blocks (d : nat) (t : ty) (c : cC (layout t)) : list block :=
  flat_map opt_list (level_buffers d t c).
(** All storage of a layout: what dropping it frees *)
Fixpoint storage (d : nat) (t : ty) {struct t} : cC (layout t) -> list block :=
  fun c => level_blocks d t c ++
  match t return cC (layout t) -> list block with
  | TBool _ | TPrim _ _ => fun _ => []
  | TFsl n t nl => fun c => storage (S d) t (un_null nl (SFixed n (shape_of t)) c)
  | TVsl k t nl => fun c => storage (S d) t (of_data (un_null nl (SList k (shape_of t)) c))
  end c.

(** The structure export/mod.rs:250-285 into_array returns *)
Definition array_struct (d : nat) (t : ty) (c : cC (layout t)) : cstruct := {|
  st_live := true;
  st_private := Some (BData d);
  st_buffers := level_blocks d t c;
  st_children := match t with
                 | TBool _ | TPrim _ _ => None
                 | TFsl _ _ _ | TVsl _ _ _ => Some (BPointers d)
                 end;
|}.
(** The boxes of an array and its children, export/mod.rs:163-183 (the owner of a
    child is the unit) and 186-213 (the owner of the array is the layout) *)
Fixpoint array_heap (d : nat) (t : ty) (owner : list block) {struct t} : cC (layout t) -> heap :=
  match t return cC (layout t) -> heap with
  | TBool _ | TPrim _ _ => fun _ => [(BData d, ArrayBox None None owner)]
  | TFsl n t nl => fun c =>
      let k := un_null nl (SFixed n (shape_of t)) c in
      (BData d, ArrayBox (Some (array_struct (S d) t k)) (Some (BPointers d)) owner) ::
      (BPointers d, Table (BData d)) :: array_heap (S d) t [] k
  | TVsl k t nl => fun c =>
      let k := of_data (un_null nl (SList k (shape_of t)) c) in
      (BData d, ArrayBox (Some (array_struct (S d) t k)) (Some (BPointers d)) owner) ::
      (BPointers d, Table (BData d)) :: array_heap (S d) t [] k
  end.

(** export/mod.rs:301-313 flat, fixed_size_list.rs:81-108,
    variable_size_list.rs:90-114 *)
Definition schema_struct (d : nat) (t : ty) : cstruct :=
  match t with
  | TBool _ | TPrim _ _ => CStruct true None [] None
  | TFsl _ _ _ => CStruct true (Some (BSchema d)) [BFormat d] (Some (BSchema d))
  | TVsl _ _ _ => CStruct true (Some (BSchema d)) [] (Some (BSchema d))
  end.
Fixpoint schema_heap (d : nat) (t : ty) : heap :=
  match t with
  | TBool _ | TPrim _ _ => []
  | TFsl _ t _ =>
      (BSchema d, SchemaBox (Some (BFormat d)) (schema_struct (S d) t)) ::
      (BFormat d, Bytes) :: schema_heap (S d) t
  | TVsl _ t _ =>
      (BSchema d, SchemaBox None (schema_struct (S d) t)) :: schema_heap (S d) t
  end.

(** ** Consumers *)

(** The structures a consumer holds, and the heap. *)
Record state : Type := State { slots : list cstruct; mem : heap }.
(** export returns the array (slot 0) and the schema (slot 1). FfiExportModel.v
    has the steps of export; they lead to these cells, in another order. *)
Definition start (t : ty) (c : cC (layout t)) : state := {|
  slots := [array_struct 0 t c; schema_struct 0 t];
  mem := map (fun b => (b, Bytes)) (storage 0 t c) ++
         array_heap 0 t (storage 0 t c) c ++ schema_heap 0 t;
|}.

(** Follows all pointers of a live structure: buffers and their table, which is
    in the box, children and their table. *)
Fixpoint read (fuel : nat) (s : cstruct) (h : heap) : bool :=
  if st_live s then
    match fuel with
    | O => false
    | S f =>
      match st_private s with
      | Some b => is_some (lookup b h)
      | None => true
      end &&
      forallb (fun b => is_some (lookup b h)) (st_buffers s) &&
      match st_children s with
      | None => true
      | Some table =>
          match lookup table h with
          | Some (Table box) =>
              match lookup box h with
              | Some (ArrayBox (Some k) _ _) => read f k h
              | _ => false
              end
          | Some (SchemaBox _ k) => read f k h
          | _ => false
          end
      end
    end
  else true.

Fixpoint update (b : block) (c : cell) (h : heap) : heap :=
  match h with
  | [] => []
  | (b', c') :: r => if block_eqb b b' then (b', c) :: r else (b', c') :: update b c r
  end.

(** The Arrow C Data Interface: a structure is moved by copying it and marking
    the source released. *)
Definition moved (s : cstruct) : cstruct :=
  CStruct false (st_private s) (st_buffers s) (st_children s).
Definition gone : cstruct := CStruct false None [] None.

Inductive action : Type :=
| Read (i : nat)
| Move (i : nat)       (* to a new slot *)
| Release (i : nat)    (* calls the callback if it is not null *)
| Drop (i : nat)       (* Drop of the Rust structure *)
| MoveChild (i : nat). (* the child of a structure to a new slot *)

Definition get (i : nat) (l : list cstruct) : cstruct := nth i l gone.
Fixpoint set {A} (i : nat) (s : A) (l : list A) : list A :=
  match l, i with
  | [], _ => []
  | _ :: r, O => s :: r
  | x :: r, S j => x :: set j s r
  end.
Definition move_child (s : cstruct) (h : heap) : option (cstruct * heap) :=
  match st_live s, st_children s with
  | true, Some table =>
      match lookup table h with
      | Some (Table box) =>
          match lookup box h with
          | Some (ArrayBox (Some k) p o) => Some (k, update box (ArrayBox (Some (moved k)) p o) h)
          | _ => None
          end
      | Some (SchemaBox f k) => Some (k, update table (SchemaBox f (moved k)) h)
      | _ => None
      end
  | _, _ => Some (gone, h)
  end.
Definition act (st : state) (a : action) : option state :=
  match a with
  | Read i =>
      if read (fuel_of (mem st)) (get i (slots st)) (mem st) then Some st else None
  | Move i => Some (State (set i (moved (get i (slots st))) (slots st) ++ [get i (slots st)]) (mem st))
  | Release i | Drop i =>
      hbind (drop_struct (fuel_of (mem st)) (get i (slots st)) (mem st)) (fun h =>
      Some (State (set i gone (slots st)) h))
  | MoveChild i =>
      hbind (move_child (get i (slots st)) (mem st)) (fun '(k, h) =>
      Some (State (slots st ++ [k]) h))
  end.
Fixpoint acts (st : state) (l : list action) : option state :=
  match l with
  | [] => Some st
  | a :: r => hbind (act st a) (fun st' => acts st' r)
  end.
