(** * Vocabulary for borrowed memory *)
From Coq Require Import List NArith ZArith Bool Arith.
From Verif Require Import Base Iter VecModel BitmapModel CollModel ValidityModel FlattenModel
  OffsetsModel LayoutModel SpecTables FfiModel SpecFfi BorrowModel.
Import ListNotations.

(** The bytes of all buffers of the array and its children are in the memory. *)
Fixpoint backed (t : ty) (m : memory) (a : carray) {struct t} : Prop :=
  (forall i b j x, buffer a i = Some b -> nth_error (cb_data b) j = Some x ->
     m (cb_addr b + N.of_nat j)%N = x) /\
  match t with
  | TBool _ | TPrim _ _ => True
  | TFsl _ t _ | TVsl _ t _ => forall ca, child a = Some ca -> backed t m ca
  end.

(** All slices of an imported array *)
Definition level_spans (l : level) : list span :=
  match lv_validity l with
  | Some b => match lb_bytes b with Some sp => [sp] | None => [] end
  | None => []
  end ++
  match lv_main l with Some sp => [sp] | None => [] end.
Definition spans (lv : list level) : list span := flat_map level_spans lv.
(** The memory under a slice *)
Definition under (sp : span) (addr : N) : Prop :=
  (sp_addr sp <= addr < sp_addr sp + sp_count sp * sp_size sp)%N.

(** The slice starts where the buffer does, has the given number of elements of the
    given size, is aligned for them and lies in the buffer. *)
Definition lends (b : cbuffer) (n w : N) (sp : span) : Prop :=
  sp = Span (cb_addr b) n w /\ (cb_addr b mod w = 0)%N /\ (n * w <= lenN (cb_data b))%N.
(** Level by level: the validity is buffer 0 of the array, with a bit per item. Buffer
    1 is a bit per item, a value per item, or an offset per item and one more; there
    are no values to be borrowed if there is no item. *)
Fixpoint lent (t : ty) (a : carray) (lv : list level) {struct t} : Prop :=
  let items := Z.to_N (a_length a) in
  let octets := ((items + 7) / 8)%N in
  match lv with
  | [] => False
  | l :: r =>
    match lv_validity l with
    | None => nullable t = true -> buffer a 0 = None
    | Some v => nullable t = true /\ lb_bits v = items /\
        exists b sp, buffer a 0 = Some b /\ lb_bytes v = Some sp /\ lends b octets 1 sp
    end /\
    match t with
    | TBool _ => r = [] /\ lv_bits l = items /\
        match lv_main l with
        | None => items = 0%N
        | Some sp => exists b, buffer a 1 = Some b /\ lends b octets 1 sp
        end
    | TPrim p _ => r = [] /\
        match lv_main l with
        | None => items = 0%N
        | Some sp => exists b, buffer a 1 = Some b /\ lends b items (value_bytes p) sp
        end
    | TFsl _ t _ => lv_main l = None /\ exists ca, child a = Some ca /\ lent t ca r
    | TVsl k t _ =>
        (exists b sp, lv_main l = Some sp /\ buffer a 1 = Some b /\
           lends b (items + 1) (offset_bytes k) sp) /\
        exists ca, child a = Some ca /\ lent t ca r
    end
  end.
