(** * Exporting arrays whose buffers are shared, inline or static

    FfiHeapModel.v and FfiExportModel.v have every buffer in an allocation of its
    own, as with VecBuffer and BoxBuffer. Here a buffer may also be shared with
    other owners (RcBuffer, ArcBuffer), lie inside of the array itself
    (ArrayBuffer) or be borrowed for ['static] (SliceBuffer; export requires
    ['static], export/mod.rs:186-189, 292). So dropping a buffer may only give up a
    reference, and a pointer to an inline buffer is good as long as the array stays
    where it was. The functions are those of the two files, with this added. *)
From Coq Require Import List NArith ZArith Bool Arith.
From Verif Require Import Base Iter VecModel BitmapModel CollModel ValidityModel FlattenModel
  OffsetsModel LayoutModel FfiModel FfiHeapModel FfiExportModel.
Import ListNotations.

(** buffer.rs:61-176: where the items of a buffer are. [Shared i]: in the [i]-th
    reference counted allocation; several buffers may be in the same. *)
Inductive place : Type := Own | Shared (i : nat) | Inline | Static.
(** What a layout has of a buffer *)
Inductive reference : Type := RBlock (b : block) | RShared (i : nat) | RInline | RStatic.
(** A pointer to a buffer. [PInside None]: into a value on the stack of export;
    [PInside (Some b)]: into the allocation [b]. *)
Inductive ptr : Type := PBlock (b : block) | PShared (i : nat) | PInside (b : option block) | PStatic.

Record pstruct : Type := PStruct {
  ps_live : bool;
  ps_private : option block;
  ps_buffers : list ptr;
  ps_children : option block;
}.
Inductive pcell : Type :=
| PBytes
| PTable (box : block)
| PArrayBox (kid : option pstruct) (pointers : option block) (owner : list reference)
| PSchemaBox (format : option block) (kid : pstruct).

(** [strong i]: the number of references to the [i]-th shared allocation, 0 if it
    is freed. *)
Record pheap : Type := PHeap { cells : list (block * pcell); strong : nat -> nat }.
Fixpoint pfind (b : block) (l : list (block * pcell)) : option pcell :=
  match l with
  | [] => None
  | (b', c) :: r => if block_eqb b b' then Some c else pfind b r
  end.
Definition at_block (b : block) (m : pheap) : option pcell := pfind b (cells m).
Definition pfree (b : block) (m : pheap) : option pheap :=
  if is_some (at_block b m)
  then Some (PHeap (filter (fun p => negb (block_eqb b (fst p))) (cells m)) (strong m)) else None.
Definition set_count (i n : nat) (f : nat -> nat) (j : nat) : nat := if Nat.eqb i j then n else f j.
(** Drop of [Rc] and [Arc]; what is inline goes with the value it is in. *)
Definition drop_buffer (x : reference) (m : pheap) : option pheap :=
  match x with
  | RBlock b => pfree b m
  | RShared i => match strong m i with
                    | O => None
                    | S n => Some (PHeap (cells m) (set_count i n (strong m)))
                    end
  | RInline | RStatic => Some m
  end.
Fixpoint drop_buffers (l : list reference) (m : pheap) : option pheap :=
  match l with
  | [] => Some m
  | x :: r => hbind (drop_buffer x m) (drop_buffers r)
  end.
Definition pfree_opt (o : option block) (m : pheap) : option pheap :=
  match o with Some b => pfree b m | None => Some m end.
Definition pnew (b : block) (c : pcell) (m : pheap) : pheap := PHeap ((b, c) :: cells m) (strong m).
Fixpoint pchange (b : block) (c : pcell) (l : list (block * pcell)) : list (block * pcell) :=
  match l with
  | [] => []
  | (b', c') :: r => if block_eqb b b' then (b', c) :: r else (b', c') :: pchange b c r
  end.
Definition pupdate (b : block) (c : pcell) (m : pheap) : pheap := PHeap (pchange b c (cells m)) (strong m).

(** lib.rs:147-155, 208-216 Drop; export/mod.rs:317-331 release_array, 334-338
    release_flat_schema, 341-354 release_schema. [fuel] bounds the depth. *)
Fixpoint pdrop (fuel : nat) (s : pstruct) (m : pheap) : option pheap :=
  if ps_live s then
    match fuel with
    | O => None
    | S f =>
      match ps_private s with
      | None => Some m
      | Some b =>
          match at_block b m with
          | Some (PArrayBox kid pointers owner) =>
              hbind (match kid with Some k => pdrop f k m | None => Some m end) (fun m1 =>
              hbind (pfree_opt pointers m1) (fun m2 =>
              hbind (drop_buffers owner m2) (pfree b)))
          | Some (PSchemaBox format kid) =>
              hbind (pfree_opt format m) (fun m1 =>
              hbind (pdrop f kid m1) (pfree b))
          | _ => None
          end
      end
    end
  else Some m.

Definition readable_at (m : pheap) (p : ptr) : bool :=
  match p with
  | PBlock b => is_some (at_block b m)
  | PShared i => negb (Nat.eqb (strong m i) 0)
  | PInside (Some b) => is_some (at_block b m)
  | PInside None => false
  | PStatic => true
  end.
Fixpoint pread (fuel : nat) (s : pstruct) (m : pheap) : bool :=
  if ps_live s then
    match fuel with
    | O => false
    | S f =>
      match ps_private s with
      | Some b => is_some (at_block b m)
      | None => true
      end &&
      forallb (readable_at m) (ps_buffers s) &&
      match ps_children s with
      | None => true
      | Some table =>
          match at_block table m with
          | Some (PTable box) =>
              match at_block box m with
              | Some (PArrayBox (Some k) _ _) => pread f k m
              | _ => false
              end
          | Some (PSchemaBox _ k) => pread f k m
          | _ => false
          end
      end
    end
  else true.

(** ** Export *)
Section Export.
  Context (where_ : block -> place). (* of each buffer, by the name it has in FfiModel.v *)

  Definition hold (b : block) : reference :=
    match where_ b with
    | Own => RBlock b
    | Shared i => RShared i
    | Inline => RInline
    | Static => RStatic
    end.
  (** [as_ptr] of a buffer of a value that is in [self] *)
  Definition ptr_in (self : option block) (x : reference) : ptr :=
    match x with
    | RBlock b => PBlock b
    | RShared i => PShared i
    | RInline => PInside self
    | RStatic => PStatic
    end.
  (** The structure of a layout that is in [self] *)
  Definition parray (self : option block) (d : nat) (t : ty) (c : cC (layout t)) : pstruct := {|
    ps_live := true;
    ps_private := Some (BData d);
    ps_buffers := map (fun b => ptr_in self (hold b)) (level_blocks d t c);
    ps_children := st_children (array_struct d t c);
  |}.

  (** export/mod.rs:240-247 set_child_pointers *)
  Definition pset_child_pointers (d : nat) (kid : option pstruct) (owner : list reference) (m : pheap) : pheap :=
    match kid with
    | None => m
    | Some k => pupdate (BData d) (PArrayBox (Some k) (Some (BPointers d)) owner)
                  (pnew (BPointers d) (PTable (BData d)) m)
    end.
  (** export/mod.rs:163-183 child_array of a layout that is in [self] *)
  Fixpoint prun_child (self : option block) (d : nat) (t : ty) {struct t}
    : cC (layout t) -> pheap -> xres pstruct * pheap :=
    fun c m =>
    if (x_offset t c =? 0)%N then
      match xout (obind (k_len (layout t) c) i64_from) with
      | XErr e => (XErr e, m)
      | XPnc => (XPnc, m)
      | XOk _ =>
        match xout (x_null_count t c) with
        | XErr e => (XErr e, m)
        | XPnc => (XPnc, m)
        | XOk _ =>
          match
            (match t return cC (layout t) -> xres (option pstruct) * pheap with
             | TBool _ | TPrim _ _ => fun _ => (XOk None, m)
             | TFsl n t nl => fun c =>
                 let (x, m') := prun_child self (S d) t (un_null nl (SFixed n (shape_of t)) c) m in
                 (xbind x (fun k => XOk (Some k)), m')
             | TVsl k t nl => fun c =>
                 let (x, m') := prun_child self (S d) t (of_data (un_null nl (SList k (shape_of t)) c)) m in
                 (xbind x (fun k => XOk (Some k)), m')
             end c)
          with
          | (XErr e, m') => (XErr e, m')
          | (XPnc, m') => (XPnc, m')
          | (XOk kid, m') =>
              (XOk (parray self d t c),
               pset_child_pointers d kid [] (pnew (BData d) (PArrayBox kid None []) m'))
          end
        end
      end
    else (XErr (x_offset t c), m).
  Definition prun_children (self : option block) (t : ty)
    : cC (layout t) -> pheap -> xres (option pstruct) * pheap :=
    match t return cC (layout t) -> pheap -> xres (option pstruct) * pheap with
    | TBool _ | TPrim _ _ => fun _ m => (XOk None, m)
    | TFsl n t nl => fun c m =>
        let (x, m') := prun_child self 1 t (un_null nl (SFixed n (shape_of t)) c) m in
        (xbind x (fun k => XOk (Some k)), m')
    | TVsl k t nl => fun c m =>
        let (x, m') := prun_child self 1 t (of_data (un_null nl (SList k (shape_of t)) c)) m in
        (xbind x (fun k => XOk (Some k)), m')
    end.
  (** schema: export/mod.rs:301-313, fixed_size_list.rs:81-108,
      variable_size_list.rs:90-114 *)
  Fixpoint prun_schema (d : nat) (t : ty) (m : pheap) : pstruct * pheap :=
    match t with
    | TBool _ | TPrim _ _ => (PStruct true None [] None, m)
    | TFsl _ t _ =>
        let (kid, m1) := prun_schema (S d) t m in
        (PStruct true (Some (BSchema d)) [PBlock (BFormat d)] (Some (BSchema d)),
         pnew (BSchema d) (PSchemaBox (Some (BFormat d)) kid) (pnew (BFormat d) PBytes m1))
    | TVsl _ t _ =>
        let (kid, m1) := prun_schema (S d) t m in
        (PStruct true (Some (BSchema d)) [] (Some (BSchema d)),
         pnew (BSchema d) (PSchemaBox None kid) m1)
    end.

  (** export/mod.rs:186-213 export *)
  Definition prun_export (fuel : nat) (t : ty) (c : cC (layout t)) (m : pheap)
    : option (xres (list pstruct) * pheap) :=
    let owner := map hold (storage 0 t c) in
    if (x_offset t c =? 0)%N then
      (* 195-201: the layout is moved into the box, where its buffers are asked for *)
      let self := Some (BData 0) in
      let m0 := pnew (BData 0) (PArrayBox None None owner) m in
      let fail m := fun x =>
        hbind (pdrop fuel (PStruct true self [] None) m) (fun m' => Some (x, m')) in
      match prun_children self t c m0 with
      | (XErr e, m1) => fail m1 (XErr e)
      | (XPnc, m1) => fail m1 XPnc
      | (XOk kid, m1) =>
          let m2 := pset_child_pointers 0 kid owner (pupdate (BData 0) (PArrayBox kid None owner) m1) in
          match xbind (xout (obind (k_len (layout t) c) i64_from)) (fun _ => xout (x_null_count t c)) with
          | XErr e => fail m2 (XErr e)
          | XPnc => fail m2 XPnc
          | XOk _ =>
              let (schema, m3) := prun_schema 0 t m2 in
              Some (XOk [parray self 0 t c; schema], m3)
          end
      end
    else
      (* 190-193: self is dropped *)
      hbind (drop_buffers owner m) (fun m' => Some (XErr (x_offset t c), m')).

  (** References of the layout to the [i]-th shared allocation *)
  Definition uses (t : ty) (c : cC (layout t)) (i : nat) : nat :=
    length (filter (fun b => match where_ b with Shared j => Nat.eqb j i | _ => false end) (storage 0 t c)).
  (** The storage of the layout that is allocated for it alone *)
  Definition own_storage (t : ty) (c : cC (layout t)) : list block :=
    filter (fun b => match where_ b with Own => true | _ => false end) (storage 0 t c).
  (** The memory before export. [others i]: the references to the [i]-th shared
      allocation that are not in the layout. *)
  Definition pbefore (others : nat -> nat) (t : ty) (c : cC (layout t)) : pheap :=
    PHeap (map (fun b => (b, PBytes)) (own_storage t c)) (fun i => others i + uses t c i).
End Export.

(** ** Consumers and the other owners of shared buffers *)
Record pstate : Type := PState { pslots : list pstruct; pmem : pheap }.
Definition pmoved (s : pstruct) : pstruct :=
  PStruct false (ps_private s) (ps_buffers s) (ps_children s).
Definition pgone : pstruct := PStruct false None [] None.
Definition pget (i : nat) (l : list pstruct) : pstruct := nth i l pgone.
Definition pmove_child (s : pstruct) (m : pheap) : option (pstruct * pheap) :=
  match ps_live s, ps_children s with
  | true, Some table =>
      match at_block table m with
      | Some (PTable box) =>
          match at_block box m with
          | Some (PArrayBox (Some k) p o) => Some (k, pupdate box (PArrayBox (Some (pmoved k)) p o) m)
          | _ => None
          end
      | Some (PSchemaBox f k) => Some (k, pupdate table (PSchemaBox f (pmoved k)) m)
      | _ => None
      end
  | _, _ => Some (pgone, m)
  end.
Inductive event : Type :=
| Consumer (a : action)
| Retain (i : nat)   (* another owner clones its reference *)
| Discard (i : nat). (* another owner drops one *)
Definition pact (fuel : nat) (st : pstate) (e : event) : option pstate :=
  match e with
  | Consumer (Read i) =>
      if pread fuel (pget i (pslots st)) (pmem st) then Some st else None
  | Consumer (Move i) =>
      Some (PState (set i (pmoved (pget i (pslots st))) (pslots st) ++ [pget i (pslots st)]) (pmem st))
  | Consumer (Release i) | Consumer (Drop i) =>
      hbind (pdrop fuel (pget i (pslots st)) (pmem st)) (fun m =>
      Some (PState (set i pgone (pslots st)) m))
  | Consumer (MoveChild i) =>
      hbind (pmove_child (pget i (pslots st)) (pmem st)) (fun '(k, m) =>
      Some (PState (pslots st ++ [k]) m))
  | Retain i =>
      Some (PState (pslots st)
              (PHeap (cells (pmem st)) (set_count i (S (strong (pmem st) i)) (strong (pmem st)))))
  | Discard i =>
      hbind (drop_buffer (RShared i) (pmem st)) (fun m => Some (PState (pslots st) m))
  end.
Fixpoint pacts (fuel : nat) (st : pstate) (l : list event) : option pstate :=
  match l with
  | [] => Some st
  | e :: r => hbind (pact fuel st e) (fun st' => pacts fuel st' r)
  end.
