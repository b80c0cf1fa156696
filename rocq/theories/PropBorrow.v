(** * Imported arrays are borrowed memory: C65

    [borrow m t a s]: import of the structures with the memory [m]; its result are the
    slices of the array, an address and a number of elements each. [deref m t lv]: the
    array that is read through the slices. [backed t m a]: the buffers the structure
    [a] points to are in the memory. [lent t a lv]: the slices are the buffers of the
    structure and its children, cut to what the length needs. *)
From Coq Require Import List NArith ZArith Bool Arith.
From Verif Require Import Base Iter Spec VecModel BitmapModel CollModel ValidityModel FlattenModel
  OffsetsModel LayoutModel FfiModel SpecFfi FfiHeapModel FfiExportModel SpecHeap BorrowModel SpecBorrow
  FactsBorrow PropFfi PropHeap.
Import ListNotations.

(** The arrays of C33, C35, C43 and C52 are what is read through the slices. *)
Theorem C65_import_borrows :
  forall m t a s, backed t m a ->
  match import t a s with
  | IOk c => exists lv, borrow m t a s = IOk lv /\ deref m t lv = c
  | IErr e => borrow m t a s = IErr e
  | IPnc => borrow m t a s = IPnc
  | IUb => borrow m t a s = IUb
  end.
Proof. exact import_borrows. Qed.
Print Assumptions C65_import_borrows.

Theorem C65_slices_are_buffers :
  forall m t a s lv, borrow m t a s = IOk lv -> lent t a lv.
Proof. exact borrow_slices. Qed.
Print Assumptions C65_slices_are_buffers.

Theorem C65_nothing_else_is_read :
  forall m m' t lv, (forall sp x, In sp (spans lv) -> under sp x -> m x = m' x) ->
  deref m t lv = deref m' t lv.
Proof. exact deref_frame. Qed.
Print Assumptions C65_nothing_else_is_read.

(** Which schema came with the array does not matter for what is borrowed. *)
Theorem C65_schema_not_borrowed :
  forall m t a s s' lv lv', borrow m t a s = IOk lv -> borrow m t a s' = IOk lv' -> lv = lv'.
Proof. exact borrow_schema. Qed.
Print Assumptions C65_schema_not_borrowed.

(** For an array exported by this crate: the slices are in its storage, which is there
    as long as the array is not released, whatever happens to the schema and to
    children that are moved out. *)
Theorem C65_borrowed_until_release :
  forall addr m t c a s lv sl h l st, export addr t c = XOk (a, s) ->
  borrow m t a s = IOk lv -> run_export t c (owned t c) = Some (XOk sl, h) -> guarded l ->
  acts (State sl h) l = Some st -> array_holder l <> None ->
  forall sp, In sp (spans lv) -> exists b, In b (storage 0 t c) /\ sp_addr sp = addr b /\ alive st b.
Proof. exact borrowed_alive. Qed.
Print Assumptions C65_borrowed_until_release.

(** ** Cases *)

(** The structure of another producer of C35 in memory, with other bytes around it *)
Definition foreign_memory (x : N) : N :=
  nth (N.to_nat x) [171; 253; 77; 171; 171; 171; 255; 255; 1; 0; 2; 1;
    0; 0; 0; 0; 1; 0; 0; 0; 3; 0; 0; 0; 99]%N 171%N.
Definition foreign_lent : list level :=
  [Level None (Some (Span 12 3 4)) 0;
   Level (Some (LBits (Some (Span 1 1 1)) 3)) (Some (Span 6 3 2)) 0].
Example C65_case :
  backed foreign foreign_memory
    (CArray 2 (-1) 0 2 1
      (Some [None; Some (CBuf 12 [0; 0; 0; 0; 1; 0; 0; 0; 3; 0; 0; 0; 99]%N)])
      (Some [Some (CArray 3 (-1) 0 2 0
        (Some [Some (CBuf 1 [253; 77]%N); Some (CBuf 6 [255; 255; 1; 0; 2; 1]%N)]) None None true)])
      None true) /\
  borrow foreign_memory foreign
    (CArray 2 (-1) 0 2 1
      (Some [None; Some (CBuf 12 [0; 0; 0; 0; 1; 0; 0; 0; 3; 0; 0; 0; 99]%N)])
      (Some [Some (CArray 3 (-1) 0 2 0
        (Some [Some (CBuf 1 [253; 77]%N); Some (CBuf 6 [255; 255; 1; 0; 2; 1]%N)]) None None true)])
      None true) foreign_schema = IOk foreign_lent /\
  k_owned (layout foreign) (deref foreign_memory foreign foreign_lent) 1 = Ret (Some [None; Some 258%N]) /\
  (* what a write to the last value would show *)
  k_owned (layout foreign)
    (deref (fun x => if (x =? 11)%N then 7%N else foreign_memory x) foreign foreign_lent) 1 =
    Ret (Some [None; Some 1794%N]).
Proof.
  split; [|split; [vm_compute; reflexivity|split; vm_compute; reflexivity]].
  split.
  - intros [|[|i]] b j x; [discriminate|intros [= <-]|destruct i; discriminate].
    cbn [cb_data cb_addr]. do 13 (destruct j as [|j]; [intros [= <-]; vm_compute; reflexivity|]).
    destruct j; discriminate.
  - intros ca [= <-]. split; [|exact I]. intros [|[|i]] b j x; [intros [= <-]|intros [= <-]|destruct i; discriminate];
      cbn [cb_data cb_addr]; do 6 (destruct j as [|j]; [intros [= <-]; vm_compute; reflexivity|]);
      destruct j; discriminate.
Qed.

(** The array of C37: buffers at distinct addresses, borrowed while the schema is
    released, the array is moved and a child is moved out. *)
Definition apart (b : block) : N :=
  match b with BOffsets _ => 64 | BValidity d => 128 + N.of_nat d | _ => 256 end%N.
Definition mixed_memory (x : N) : N :=
  nth (N.to_nat (x - 64))
    ([0; 0; 0; 0; 0; 0; 0; 0; 2; 0; 0; 0; 0; 0; 0; 0; 2; 0; 0; 0; 0; 0; 0; 0; 3; 0; 0; 0; 0; 0; 0; 0] ++
     repeat 0 33 ++ [5; 49] ++ repeat 0 125 ++ [1; 2; 0; 0; 0; 0; 0; 0; 255; 255; 7; 0])%N 0%N.
Definition borrowing : list action := [Read 0; Drop 1; Move 0; MoveChild 2; Read 2; Drop 3].
Example C65_exported_case : exists a s lv st, export apart mixed mixed_array = XOk (a, s) /\
  borrow mixed_memory mixed a s = IOk lv /\ guarded borrowing /\
  acts mixed_state borrowing = Some st /\ array_holder borrowing = Some 2 /\
  spans lv = [Span 64 4 8; Span 129 1 1; Span 130 1 1; Span 256 6 2] /\
  map (fun i => k_owned (layout mixed) (deref mixed_memory mixed lv) i) [0; 1; 2]%N =
    map (fun x => Ret (Some x)) mixed_items.
Proof.
  do 4 eexists. split; [vm_compute; reflexivity|]. split; [vm_compute; reflexivity|].
  split; [|split; [vm_compute; reflexivity|split; [vm_compute; reflexivity|split; vm_compute; reflexivity]]].
  intros l1 i l2 H.
  do 7 (destruct l1 as [|? l1]; [discriminate H || (vm_compute; discriminate)
    |injection H as <- H; try (destruct l1; discriminate H)]).
Qed.
