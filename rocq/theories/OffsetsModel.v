(** * Offsets<T, OffsetItem>: src/offset.rs, with U = Vec *)
From Coq Require Import List NArith ZArith Bool Arith.
From Verif Require Import Base Iter VecModel BitmapModel CollModel ValidityModel.
Import ListNotations.

(** offset.rs:45-92: the offset types *)
Inductive okind : Type := I32 | I64.
Definition omax (k : okind) : Z :=
  match k with I32 => 2147483647%Z | I64 => 9223372036854775807%Z end.
Definition omin (k : okind) : Z :=
  match k with I32 => (-2147483648)%Z | I64 => (-9223372036854775808)%Z end.
Definition osz (k : okind) : N := match k with I32 => 4%N | I64 => 8%N end.

(** offset.rs:73-75 as_usize: panics if negative *)
Definition as_usize (z : Z) : out N :=
  if (0 <=? z)%Z then Ret (Z.to_N z) else Pnc.
(** [OffsetItem::try_from(usize)] *)
Definition off_try_from (k : okind) (u : N) : option Z :=
  if (Z.of_N u <=? omax k)%Z then Some (Z.of_N u) else None.
(** [usize::try_from(OffsetItem)] *)
Definition usize_try_from (z : Z) : option N :=
  if (0 <=? z)%Z then Some (Z.to_N z) else None.
(** offset.rs:83-92 Offset::strict_add *)
Definition off_strict_add (k : okind) (a b : Z) : out Z :=
  if ((omin k <=? a + b) && (a + b <=? omax k))%Z then Ret (a + b)%Z else Pnc.

(** offset.rs:121-131 *)
Record offsets (C : Type) : Type := Offsets { of_data : C; of_offs : vec Z }.
Arguments Offsets {C} of_data of_offs.
Arguments of_data {C} o.
Arguments of_offs {C} o.

(** offset.rs:155-182 OffsetsError *)
Inductive offsets_error : Type :=
| OffEmpty
| OffNonZeroFirst (first : N)
| OffNegative (index : nat)
| OffNonMonotonic (index : nat)
| OffOutOfBounds (last : N) (data : nat).

(** offset.rs:633-637 OffsetView *)
Record offview (C : Type) : Type :=
  OffView { ov_coll : offsets C; ov_start : N; ov_end : N }.
Arguments OffView {C} ov_coll ov_start ov_end.
Arguments ov_coll {C} o.
Arguments ov_start {C} o.
Arguments ov_end {C} o.

(** offset.rs:578-584 OffsetIntoIter *)
Record offinto (C : Type) : Type :=
  OffInto { oi_data : C; oi_offs : list Z; oi_pos : Z }.
Arguments OffInto {C} oi_data oi_offs oi_pos.
Arguments oi_data {C} o.
Arguments oi_offs {C} o.
Arguments oi_pos {C} o.

Section Offsets.
  Variable K : Coll.
  Variable kd : okind.
  Let esz : N := osz kd.

  (** offset.rs:234-242, the loop of try_from_parts *)
  Fixpoint of_check (index : nat) (previous : N) (l : list Z) : N + offsets_error :=
    match l with
    | [] => inl previous
    | z :: l' =>
        match usize_try_from z with
        | None => inr (OffNegative index)
        | Some current =>
            if (current <? previous)%N then inr (OffNonMonotonic index)
            else of_check (S index) current l'
        end
    end.
  (** offset.rs:222-255 try_from_parts *)
  Definition of_try_from_parts (data : cC K) (offs : vec Z)
    : out (offsets (cC K) + offsets_error) :=
    match v_items offs with
    | [] => Ret (inr OffEmpty)
    | first :: rest =>
        match usize_try_from first with
        | None => Ret (inr (OffNegative 0))
        | Some previous =>
            if (previous =? 0)%N then
              match of_check 1 previous rest with
              | inr e => Ret (inr e)
              | inl last =>
                  let? n := k_len K data in
                  if (N.of_nat n <? last)%N
                  then Ret (inr (OffOutOfBounds last n))
                  else Ret (inl (Offsets data offs))
              end
            else Ret (inr (OffNonZeroFirst previous))
        end
    end.
  (** offset.rs:270-272 into_parts *)
  Definition of_into_parts (o : offsets (cC K)) : cC K * vec Z := (of_data o, of_offs o).

  (** offset.rs:306-321 Default: one offset, 0 *)
  Definition of_default : offsets (cC K) :=
    Offsets (k_default K) (fst (fst (vec_extend esz vec_new (it_list [0%Z])))).

  (** offset.rs:426-432 len *)
  Definition of_len (o : offsets (cC K)) : out nat :=
    match length (v_items (of_offs o)) with O => Pnc | S n => Ret n end.

  (** offset.rs:444-452 view *)
  Definition of_view (o : offsets (cC K)) (i : N) : out (option (offview (cC K))) :=
    let s := vec_view (of_offs o) i in
    let? i1 := strict_add i 1 in
    let e := vec_view (of_offs o) i1 in
    match s, e with
    | Some s, Some e =>
        let? su := as_usize s in
        let? eu := as_usize e in
        Ret (Some (OffView o su eu))
    | _, _ => Ret None
    end.

  (** offset.rs:687-689 len, 702-709 view of an OffsetView *)
  Definition ov_len (v : offview (cC K)) : out N := strict_sub (ov_end v) (ov_start v).
  Definition ov_view (v : offview (cC K)) (i : N) : out (option (cV K)) :=
    let? idx := strict_add (ov_start v) i in
    if (idx <? ov_end v)%N then k_view K (of_data (ov_coll v)) idx else Ret None.
  (** offset.rs:727-731 into_iter_owned, collected: 679-681 into_owned *)
  Definition ov_item (v : offview (cC K)) (i : N) : out (cA K) :=
    let? o := ov_view v i in
    let? x := expect o in
    k_own K x.
  Definition ov_own (v : offview (cC K)) : out (list (cA K)) :=
    let? n := ov_len v in
    range_out (ov_item v) 0 (N.to_nat n).
  (** offset.rs:719-723 iter_views of an OffsetView *)
  Definition ov_iter (v : offview (cC K)) : out (ixiter (offview (cC K))) :=
    let? n := ov_len v in Ret (IxIter v 0 (N.to_nat n)).
  Definition ov_inext := @ix_next (offview (cC K)) (cV K) ov_view.

  (** offset.rs:462-467 iter_views *)
  Definition of_iter (o : offsets (cC K)) : out (ixiter (offsets (cC K))) :=
    let? n := of_len o in Ret (IxIter o 0 n).

  (** offset.rs:471-483 into_iter_owned *)
  Definition of_into (o : offsets (cC K)) : out (offinto (cC K)) :=
    match v_items (of_offs o) with
    | [] => Pnc
    | p :: rest => Ret (OffInto (of_data o) rest p)
    end.
  (** offset.rs:590-599 next *)
  Definition of_onext (s : offinto (cC K))
    : out (option (list (cA K)) * offinto (cC K)) :=
    match oi_offs s with
    | [] => Ret (None, s)
    | e :: rest =>
        let? su := as_usize (oi_pos s) in
        let? eu := as_usize e in
        let? l := range_out (fun i =>
                    let? o := k_view K (oi_data s) i in
                    let? x := expect o in
                    k_own K x) su (N.to_nat (eu - su)) in
        Ret (Some l, OffInto (oi_data s) rest e)
    end.
  (** offset.rs:601-611 size_hint, len *)
  Definition of_ohint (s : offinto (cC K)) : out hint :=
    Ret (exact_hint (length (oi_offs s))).

  (** offset.rs:334-344 with_capacity_in, 354-364 try_with_capacity_in *)
  Definition of_with_capacity (n : N) : bres (offsets (cC K)) :=
    match k_with_capacity K n with
    | BOk d =>
        match strict_add n 1 with
        | Pnc => BPanic
        | Ret n1 =>
            match @vec_with_capacity Z esz n1 with
            | BOk v => BOk (Offsets d (fst (fst (vec_extend esz v (it_list [0%Z])))))
            | BErr => BErr
            | BPanic => BPanic
            | BAbort => BAbort
            end
        end
    | BErr => BErr
    | BPanic => BPanic
    | BAbort => BAbort
    end.
  Definition of_try_with_capacity (n : N) (w : world) : bres (offsets (cC K)) * world :=
    match checked_add n 1 with
    | None => (BErr, w)
    | Some n1 =>
        match k_try_with_capacity K n w with
        | (BOk d, w1) =>
            match @vec_try_with_capacity Z esz n1 w1 with
            | (BOk v, w2) =>
                match vec_try_extend esz v (it_list [0%Z]) w2 with
                | (v', _, ODone, w3) => (BOk (Offsets d v'), w3)
                | (_, _, OErr, w3) => (BErr, w3)
                | (_, _, OPanic, w3) => (BPanic, w3)
                | (_, _, OAbort, w3) => (BAbort, w3)
                end
            | (BErr, w2) => (BErr, w2)
            | (BPanic, w2) => (BPanic, w2)
            | (BAbort, w2) => (BAbort, w2)
            end
        | (BErr, w1) => (BErr, w1)
        | (BPanic, w1) => (BPanic, w1)
        | (BAbort, w1) => (BAbort, w1)
        end
    end.

  (** offset.rs:399-405, the loop of extend *)
  Fixpoint of_extend_t {R} (t : trace (list (cA K)) R) (n : node R)
    (o : offsets (cC K)) (position : Z) : offsets (cC K) * R * outcome :=
    match t with
    | [] => (o, nd_src n, ODone)
    | (Stop, n') :: _ => (o, nd_src n', ODone)
    | (Boom, n') :: _ => (o, nd_src n', OPanic)
    | (Yield l, n') :: t' =>
        match off_try_from kd (lenN l) with
        | None => (o, nd_src n', OPanic)
        | Some z =>
            match off_strict_add kd position z with
            | Pnc => (o, nd_src n', OPanic)
            | Ret next =>
                let '(d1, o1) := k_reserve K (of_data o) (lenN l) in
                match o1 with
                | ODone =>
                    let '(d2, _, o2) := k_extend K d1 (it_list l) in
                    match o2 with
                    | ODone =>
                        let '(v3, _, o3) := vec_extend esz (of_offs o) (it_list [next]) in
                        match o3 with
                        | ODone => of_extend_t t' n' (Offsets d2 v3) next
                        | _ => (Offsets d2 v3, nd_src n', o3)
                        end
                    | _ => (Offsets d2 (of_offs o), nd_src n', o2)
                    end
                | _ => (Offsets d1 (of_offs o), nd_src n', o1)
                end
            end
        end
    end.
  (** offset.rs:387-406 extend *)
  Definition of_extend {R} (o : offsets (cC K)) (it : iter (list (cA K)) R)
    : offsets (cC K) * R * outcome :=
    match nth_error (v_items (of_offs o)) (length (v_items (of_offs o)) - 1) with
    | None => (o, it_src it, OPanic)
    | Some position =>
        match as_usize position with
        | Pnc => (o, it_src it, OPanic)
        | Ret p =>
            let '(d1, o1) := k_truncate K (of_data o) p in
            match o1 with
            | ODone => of_extend_t (it_tr it) (it_node it) (Offsets d1 (of_offs o)) position
            | _ => (Offsets d1 (of_offs o), it_src it, o1)
            end
        end
    end.

  Definition bres_of {X} (o : outcome) (x : X) : bres X :=
    match o with
    | ODone => BOk x
    | OErr => BErr
    | OPanic => BPanic
    | OAbort => BAbort
    end.

  (** offset.rs:419-423 from_iter, 346-352 from_iter_in *)
  Definition of_from_iter {R} (it : iter (list (cA K)) R) : bres (offsets (cC K)) * R :=
    let '(o, r, e) := of_extend of_default it in (bres_of e o, r).
  Definition of_from_iter_in {R} (it : iter (list (cA K)) R) : bres (offsets (cC K)) * R :=
    match of_with_capacity (upper_or_lower (it_hint it)) with
    | BOk o0 => let '(o, r, e) := of_extend o0 it in (bres_of e o, r)
    | BErr => (BErr, it_src it)
    | BPanic => (BPanic, it_src it)
    | BAbort => (BAbort, it_src it)
    end.

  (** offset.rs:526-528, 531-533, 536-538: the rollback of try_extend *)
  Definition of_rollback (o : offsets (cC K)) (rows : nat) (data_len : N)
    : offsets (cC K) * outcome :=
    let v := vec_truncate (of_offs o) (N.of_nat rows + 1) in
    let '(d, e) := k_truncate K (of_data o) data_len in
    (Offsets d v, match e with ODone => OErr | _ => e end).
  (** offset.rs:519-541, the loop of try_extend *)
  Fixpoint of_try_extend_t {R} (rows : nat) (data_len : N)
    (t : trace (list (cA K)) R) (n : node R) (o : offsets (cC K)) (position : Z)
    (w : world) : offsets (cC K) * R * outcome * world :=
    match t with
    | [] => (o, nd_src n, ODone, w)
    | (Stop, n') :: _ => (o, nd_src n', ODone, w)
    | (Boom, n') :: _ => (o, nd_src n', OPanic, w)
    | (Yield l, n') :: t' =>
        match as_usize position with
        | Pnc => (o, nd_src n', OPanic, w)
        | Ret p =>
            match match checked_add p (lenN l) with
                  | Some u => off_try_from kd u
                  | None => None
                  end with
            | None => let '(o', e) := of_rollback o rows data_len in
                      (o', nd_src n', e, w)
            | Some next =>
                let '(d2, _, o2, w2) := k_try_extend K (of_data o) (it_list l) w in
                match o2 with
                | OErr => let '(o', e) := of_rollback (Offsets d2 (of_offs o)) rows data_len in
                          (o', nd_src n', e, w2)
                | ODone =>
                    let '(v3, _, o3, w3) :=
                      vec_try_extend esz (of_offs o) (it_list [next]) w2 in
                    match o3 with
                    | OErr => let '(o', e) := of_rollback (Offsets d2 v3) rows data_len in
                              (o', nd_src n', e, w3)
                    | ODone => of_try_extend_t rows data_len t' n' (Offsets d2 v3) next w3
                    | _ => (Offsets d2 v3, nd_src n', o3, w3)
                    end
                | _ => (Offsets d2 (of_offs o), nd_src n', o2, w2)
                end
            end
        end
    end.
  (** offset.rs:505-543 try_extend *)
  Definition of_try_extend {R} (o : offsets (cC K)) (it : iter (list (cA K)) R)
    (w : world) : offsets (cC K) * R * outcome * world :=
    match of_len o with
    | Pnc => (o, it_src it, OPanic, w)
    | Ret rows =>
        match nth_error (v_items (of_offs o)) (length (v_items (of_offs o)) - 1) with
        | None => (o, it_src it, OPanic, w)
        | Some position =>
            match as_usize position with
            | Pnc => (o, it_src it, OPanic, w)
            | Ret data_len =>
                let '(d1, o1) := k_truncate K (of_data o) data_len in
                match o1 with
                | ODone => of_try_extend_t rows data_len (it_tr it) (it_node it)
                             (Offsets d1 (of_offs o)) position w
                | _ => (Offsets d1 (of_offs o), it_src it, o1, w)
                end
            end
        end
    end.
  (** offset.rs:366-375 try_from_iter_in *)
  Definition of_try_from_iter {R} (it : iter (list (cA K)) R) (w : world)
    : bres (offsets (cC K)) * R * world :=
    match of_try_with_capacity (upper_or_lower (it_hint it)) w with
    | (BOk o0, w1) => let '(o, r, e, w2) := of_try_extend o0 it w1 in (bres_of e o, r, w2)
    | (BErr, w1) => (BErr, it_src it, w1)
    | (BPanic, w1) => (BPanic, it_src it, w1)
    | (BAbort, w1) => (BAbort, it_src it, w1)
    end.

  (** offset.rs:499-503 try_reserve, 545-549 reserve *)
  Definition of_try_reserve (o : offsets (cC K)) (n : N) (w : world)
    : offsets (cC K) * outcome * world :=
    let '(d1, o1, w1) := k_try_reserve K (of_data o) n w in
    match o1 with
    | ODone => let '(v2, o2, w2) := vec_try_reserve esz (of_offs o) n w1 in
               (Offsets d1 v2, o2, w2)
    | _ => (Offsets d1 (of_offs o), o1, w1)
    end.
  Definition of_reserve (o : offsets (cC K)) (n : N) : offsets (cC K) * outcome :=
    let '(d1, o1) := k_reserve K (of_data o) n in
    match o1 with
    | ODone => let '(v2, o2) := vec_reserve esz (of_offs o) n in (Offsets d1 v2, o2)
    | _ => (Offsets d1 (of_offs o), o1)
    end.
  (** offset.rs:551-558 truncate *)
  Definition of_truncate (o : offsets (cC K)) (len : N) : offsets (cC K) * outcome :=
    match of_len o with
    | Pnc => (o, OPanic)
    | Ret n =>
        if (len <? N.of_nat n)%N then
          match vec_view (of_offs o) len with
          | None => (o, OPanic)
          | Some z =>
              match as_usize z with
              | Pnc => (o, OPanic)
              | Ret data_len =>
                  let v := vec_truncate (of_offs o) (len + 1) in
                  let '(d, e) := k_truncate K (of_data o) data_len in
                  (Offsets d v, e)
              end
          end
        else (o, ODone)
    end.

  Definition offsets_coll : Coll := {|
    cC := offsets (cC K); cA := list (cA K); cV := offview (cC K);
    cVI := ixiter (offsets (cC K)); cOI := offinto (cC K);
    k_item0 := [];
    k_len := of_len;
    k_view := of_view;
    k_own := ov_own;
    k_iter := of_iter;
    k_inext := ix_next of_view;
    k_ihint := ix_hint;
    k_into := of_into;
    k_onext := of_onext;
    k_ohint := of_ohint;
    k_default := of_default;
    k_with_capacity := of_with_capacity;
    k_try_with_capacity := of_try_with_capacity;
    k_from_iter R := of_from_iter;
    k_from_iter_in R := of_from_iter_in;
    k_try_from_iter R := of_try_from_iter;
    k_extend R := of_extend;
    k_try_extend R := of_try_extend;
    k_reserve := of_reserve;
    k_try_reserve := of_try_reserve;
    k_truncate := of_truncate;
  |}.
End Offsets.
