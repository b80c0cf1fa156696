(** * Vocabulary for the histories of a consumer *)
From Coq Require Import List NArith ZArith Bool Arith.
From Verif Require Import Base Iter VecModel BitmapModel CollModel ValidityModel FlattenModel
  OffsetsModel LayoutModel FfiModel FfiHeapModel.
Import ListNotations.

Definition alive (st : state) (b : block) : Prop := lookup b (mem st) <> None.

(** The allocations of an exported array: its storage, and per level the box
    and, if there is a child, the table. *)
Fixpoint boxes (d : nat) (t : ty) : list block :=
  match t with
  | TBool _ | TPrim _ _ => [BData d]
  | TFsl _ t _ | TVsl _ t _ => BData d :: BPointers d :: boxes (S d) t
  end.
Definition array_blocks (t : ty) (c : cC (layout t)) : list block := storage 0 t c ++ boxes 0 t.
(** Those of its schema: boxes and the format strings of fixed-size lists. *)
Fixpoint schema_blocks (d : nat) (t : ty) : list block :=
  match t with
  | TBool _ | TPrim _ _ => []
  | TFsl _ t _ => BSchema d :: BFormat d :: schema_blocks (S d) t
  | TVsl _ t _ => BSchema d :: schema_blocks (S d) t
  end.

(** The slot that holds a structure after a history, if it has not been released;
    [n]: the number of slots. *)
Fixpoint holder (p : option nat) (n : nat) (l : list action) : option nat :=
  match l with
  | [] => p
  | a :: r =>
      let here i := match p with Some j => Nat.eqb i j | None => false end in
      match a with
      | Read _ => holder p n r
      | Move i => holder (if here i then Some n else p) (S n) r
      | Release i | Drop i => holder (if here i then None else p) n r
      | MoveChild _ => holder p (S n) r
      end
  end.
Definition array_holder : list action -> option nat := holder (Some 0) 2.
Definition schema_holder : list action -> option nat := holder (Some 1) 2.

(** Histories on the structures that export returned *)
Definition top_level (l : list action) : Prop := forall i, ~ In (MoveChild i) l.
(** Nothing is read after the release of the exported array. *)
Definition guarded (l : list action) : Prop :=
  forall l1 i l2, l = l1 ++ Read i :: l2 -> array_holder l1 <> None.
