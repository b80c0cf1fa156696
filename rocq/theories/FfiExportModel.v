(** * The memory export allocates and frees: narrow-ffi/src/export

    The steps of export on the heap, in their order, with what is dropped when
    export returns an error or panics. A step that frees memory that is not
    allocated has no result ([None]). Allocations succeed: they are Box::new,
    CString::new and collect, which abort the process otherwise. *)
From Coq Require Import List NArith ZArith Bool Arith.
From Verif Require Import Base Iter VecModel BitmapModel CollModel ValidityModel FlattenModel
  OffsetsModel LayoutModel FfiModel FfiHeapModel.
Import ListNotations.

Definition new (b : block) (c : cell) (h : heap) : heap := (b, c) :: h.

(** export/mod.rs:240-247 set_child_pointers of the box [BData d]: collecting no
    pointers does not allocate. *)
Definition set_child_pointers (d : nat) (kid : option cstruct) (owner : list block) (h : heap) : heap :=
  match kid with
  | None => h
  | Some k => update (BData d) (ArrayBox (Some k) (Some (BPointers d)) owner)
                (new (BPointers d) (Table (BData d)) h)
  end.

(** export/mod.rs:163-183 child_array. The box is allocated after the children;
    errors and panics come before, so that there is nothing to drop. *)
Fixpoint run_child (d : nat) (t : ty) {struct t} : cC (layout t) -> heap -> xres cstruct * heap :=
  fun c h =>
  if (x_offset t c =? 0)%N then
    match xout (obind (k_len (layout t) c) i64_from) with
    | XErr e => (XErr e, h)
    | XPnc => (XPnc, h)
    | XOk _ =>
      match xout (x_null_count t c) with
      | XErr e => (XErr e, h)
      | XPnc => (XPnc, h)
      | XOk _ =>
        match
          (match t return cC (layout t) -> xres (option cstruct) * heap with
           | TBool _ | TPrim _ _ => fun _ => (XOk None, h)
           | TFsl n t nl => fun c =>
               let (x, h') := run_child (S d) t (un_null nl (SFixed n (shape_of t)) c) h in
               (xbind x (fun k => XOk (Some k)), h')
           | TVsl k t nl => fun c =>
               let (x, h') := run_child (S d) t (of_data (un_null nl (SList k (shape_of t)) c)) h in
               (xbind x (fun k => XOk (Some k)), h')
           end c)
        with
        | (XErr e, h') => (XErr e, h')
        | (XPnc, h') => (XPnc, h')
        | (XOk kid, h') =>
            (XOk (array_struct d t c),
             set_child_pointers d kid [] (new (BData d) (ArrayBox kid None []) h'))
        end
      end
    end
  else (XErr (x_offset t c), h).

(** children of the outermost layout: fixed_size_list.rs:37-39, 74-76 and
    variable_size_list.rs:40-42, 83-85; the others have none,
    export/mod.rs:153-155 *)
Definition run_children (t : ty) : cC (layout t) -> heap -> xres (option cstruct) * heap :=
  match t return cC (layout t) -> heap -> xres (option cstruct) * heap with
  | TBool _ | TPrim _ _ => fun _ h => (XOk None, h)
  | TFsl n t nl => fun c h =>
      let (x, h') := run_child 1 t (un_null nl (SFixed n (shape_of t)) c) h in
      (xbind x (fun k => XOk (Some k)), h')
  | TVsl k t nl => fun c h =>
      let (x, h') := run_child 1 t (of_data (un_null nl (SList k (shape_of t)) c)) h in
      (xbind x (fun k => XOk (Some k)), h')
  end.

(** schema: export/mod.rs:301-313, fixed_size_list.rs:81-108 (the child is built
    first, then the string, then the box), variable_size_list.rs:90-114 *)
Fixpoint run_schema (d : nat) (t : ty) (h : heap) : cstruct * heap :=
  match t with
  | TBool _ | TPrim _ _ => (CStruct true None [] None, h)
  | TFsl _ t _ =>
      let (kid, h1) := run_schema (S d) t h in
      (CStruct true (Some (BSchema d)) [BFormat d] (Some (BSchema d)),
       new (BSchema d) (SchemaBox (Some (BFormat d)) kid) (new (BFormat d) Bytes h1))
  | TVsl _ t _ =>
      let (kid, h1) := run_schema (S d) t h in
      (CStruct true (Some (BSchema d)) [] (Some (BSchema d)),
       new (BSchema d) (SchemaBox None kid) h1)
  end.

(** Dropping the local [private] of export: its children, the table, the owner,
    the box *)
Definition drop_private (h : heap) : option heap :=
  drop_struct (fuel_of h) (CStruct true (Some (BData 0)) [] None) h.

(** export/mod.rs:186-213 export. The result is the array and the schema. *)
Definition run_export (t : ty) (c : cC (layout t)) (h : heap)
  : option (xres (list cstruct) * heap) :=
  let owner := storage 0 t c in
  if (x_offset t c =? 0)%N then
    (* 195-201 *)
    let h0 := new (BData 0) (ArrayBox None None owner) h in
    let fail h := fun x => hbind (drop_private h) (fun h' => Some (x, h')) in
    match run_children t c h0 with
    | (XErr e, h1) => fail h1 (XErr e)
    | (XPnc, h1) => fail h1 XPnc
    | (XOk kid, h1) =>
        (* 203-204 *)
        let h2 := set_child_pointers 0 kid owner (update (BData 0) (ArrayBox kid None owner) h1) in
        (* 207-208 *)
        match xbind (xout (obind (k_len (layout t) c) i64_from)) (fun _ => xout (x_null_count t c)) with
        | XErr e => fail h2 (XErr e)
        | XPnc => fail h2 XPnc
        | XOk _ =>
            (* 210-212 *)
            let (schema, h3) := run_schema 0 t h2 in
            Some (XOk [array_struct 0 t c; schema], h3)
        end
    end
  else
    (* 190-193: self is dropped *)
    hbind (free_all owner h) (fun h' => Some (XErr (x_offset t c), h')).

(** The memory before export: the storage of the array. *)
Definition owned (t : ty) (c : cC (layout t)) : heap :=
  map (fun b => (b, Bytes)) (storage 0 t c).
