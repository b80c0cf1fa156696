(** * The Collection traits as a record of operations.

    One value of [Coll] stands for one Rust type implementing [Collection],
    [CollectionAlloc(In)], [CollectionRealloc], [Extend], [FromIterator] and
    [Default] (collection/mod.rs:40-407). [Validity], [Flatten] and [Offsets]
    are functions from [Coll] to [Coll], as their generic Rust counterparts
    are. Operations that take [&mut self] return the state they leave behind
    together with how they ended. *)
From Coq Require Import List NArith Bool.
From Verif Require Import Base Iter VecModel BitmapModel.
Import ListNotations.

Record Coll : Type := {
  cC : Type;                         (* the collection *)
  cA : Type;                         (* Owned *)
  cV : Type;                         (* View *)
  cVI : Type;                        (* Iter (of iter_views) *)
  cOI : Type;                        (* IntoIter (of into_iter_owned) *)
  k_item0 : cA;                      (* Owned::default() *)
  k_len : cC -> out nat;             (* Length::len, length.rs *)
  k_view : cC -> N -> out (option cV);     (* mod.rs:49-60 *)
  k_own : cV -> out cA;              (* IntoOwned::into_owned, owned.rs *)
  k_iter : cC -> out cVI;            (* mod.rs:90 iter_views *)
  k_inext : cVI -> out (option cV * cVI);
  k_ihint : cVI -> out hint;
  k_into : cC -> out cOI;            (* mod.rs:105 into_iter_owned *)
  k_onext : cOI -> out (option cA * cOI);
  k_ohint : cOI -> out hint;
  k_default : cC;
  k_with_capacity : N -> bres cC;
  k_try_with_capacity : N -> world -> bres cC * world;
  k_from_iter : forall R, iter cA R -> bres cC * R;       (* FromIterator *)
  k_from_iter_in : forall R, iter cA R -> bres cC * R;
  k_try_from_iter : forall R, iter cA R -> world -> bres cC * R * world;
  k_extend : forall R, cC -> iter cA R -> cC * R * outcome;
  k_try_extend : forall R, cC -> iter cA R -> world -> cC * R * outcome * world;
  k_reserve : cC -> N -> cC * outcome;
  k_try_reserve : cC -> N -> world -> cC * outcome * world;
  k_truncate : cC -> N -> cC * outcome;
}.
Arguments k_from_iter K {R} : rename.
Arguments k_from_iter_in K {R} : rename.
Arguments k_try_from_iter K {R} : rename.
Arguments k_extend K {R} : rename.
Arguments k_try_extend K {R} : rename.

(** mod.rs:72-74, the provided method [owned] *)
Definition k_owned (K : Coll) (c : cC K) (i : N) : out (option (cA K)) :=
  let? v := k_view K c i in
  match v with
  | None => Ret None
  | Some v => omap Some (k_own K v)
  end.

(** A list consumed from the front: [vec::IntoIter], [slice::Iter]. *)
Definition list_next {A} (l : list A) : out (option A * list A) :=
  match l with [] => Ret (None, []) | a :: r => Ret (Some a, r) end.
Definition list_hint {A} (l : list A) : out hint := Ret (exact_hint (length l)).

(** collection/vec.rs: Vec of plain values (views are copies, view.rs:38-70) *)
Definition vec_coll (A : Type) (a0 : A) (esz : N) : Coll := {|
  cC := vec A; cA := A; cV := A; cVI := list A; cOI := list A;
  k_item0 := a0;
  k_len v := Ret (length (v_items v));
  k_view v i := Ret (vec_view v i);
  k_own a := Ret a;
  k_iter v := Ret (v_items v);
  k_inext := list_next;
  k_ihint := list_hint;
  k_into v := Ret (v_items v);
  k_onext := list_next;
  k_ohint := list_hint;
  k_default := vec_new;
  k_with_capacity := vec_with_capacity esz;
  k_try_with_capacity := vec_try_with_capacity esz;
  k_from_iter R := vec_from_iter esz;
  k_from_iter_in R := vec_from_iter esz;
  k_try_from_iter R := vec_try_from_iter esz;
  k_extend R := vec_extend esz;
  k_try_extend R := vec_try_extend esz;
  k_reserve := vec_reserve esz;
  k_try_reserve := vec_try_reserve esz;
  k_truncate v n := (vec_truncate v n, ODone);
|}.

(** bitmap/mod.rs as a collection of booleans *)
Definition bitmap_coll : Coll := {|
  cC := bitmap; cA := bool; cV := bool; cVI := bititer; cOI := bititer;
  k_item0 := false;
  k_len b := Ret (bm_len b);
  k_view := bm_view;
  k_own a := Ret a;
  k_iter b := Ret (bm_iter b);
  k_inext := bititer_next;
  k_ihint := bititer_hint;
  k_into b := Ret (bm_iter b);
  k_onext := bititer_next;
  k_ohint := bititer_hint;
  k_default := bm_default;
  k_with_capacity := bm_with_capacity;
  k_try_with_capacity := bm_try_with_capacity;
  k_from_iter R := bm_from_iter;
  k_from_iter_in R := bm_from_iter;
  k_try_from_iter R := bm_try_from_iter;
  k_extend R := bm_extend;
  k_try_extend R := bm_try_extend;
  k_reserve := bm_reserve;
  k_try_reserve := bm_try_reserve;
  k_truncate b n := (bm_truncate b n, ODone);
|}.

(** [(start..start+n).map(f).collect()] where [f] may panic *)
Fixpoint range_out {B} (f : N -> out B) (start : N) (n : nat) : out (list B) :=
  match n with
  | O => Ret []
  | S n' => let? b := f start in
            let? r := range_out f (start + 1)%N n' in
            Ret (b :: r)
  end.

(** [ExactSizeIterator::len] of core: asserts that the bounds agree. *)
Definition exact_len (h : hint) : out N :=
  match snd h with
  | Some u => if (u =? fst h)%N then Ret (fst h) else Pnc
  | None => Pnc
  end.

(** [(0..len).zip(repeat_n(self, len)).map(|(i, c)| c.view(i).expect(..))]:
    flatten.rs:172-176, offset.rs:462-467 *)
Record ixiter (C : Type) : Type := IxIter { ix_coll : C; ix_pos : nat; ix_end : nat }.
Arguments IxIter {C} ix_coll ix_pos ix_end.
Arguments ix_coll {C} i.
Arguments ix_pos {C} i.
Arguments ix_end {C} i.
Definition ix_next {C V} (view : C -> N -> out (option V)) (s : ixiter C)
  : out (option V * ixiter C) :=
  if Nat.ltb (ix_pos s) (ix_end s) then
    let? o := view (ix_coll s) (N.of_nat (ix_pos s)) in
    let? v := expect o in
    Ret (Some v, IxIter (ix_coll s) (S (ix_pos s)) (ix_end s))
  else Ret (None, s).
Definition ix_hint {C} (s : ixiter C) : out hint :=
  Ret (exact_hint (ix_end s - ix_pos s)).
