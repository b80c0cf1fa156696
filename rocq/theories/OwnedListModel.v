(** * Offsets<T, OffsetItem, Storage, U> with any owned item type U: src/offset.rs

    [U] is a collection type whose items are those of [T]. In Rust the two item
    types are the same type; here [into] and [back] stand for the identity
    between them. The buffers, [len], [view], [truncate], [reserve] and
    [with_capacity_in] do not mention [U]: they are those of OffsetsModel.v. *)
From Coq Require Import List NArith ZArith Bool Arith.
From Verif Require Import Base Iter VecModel BitmapModel CollModel ValidityModel OffsetsModel.
Import ListNotations.

Section OwnedLists.
  Variables K U : Coll.
  Variable kd : okind.
  Variable into : cA U -> cA K.
  Variable back : cA K -> cA U.
  Let esz : N := osz kd.

  (** An iterator of [U] handed on as an input iterator (offset.rs:402, 530: the
      argument of [extend] and [try_extend]): its calls up to the first [None], at
      most [n] of them. A panicking [size_hint] is read as no hint. *)
  Definition ou_node (s : cOI U) : node unit :=
    Node (match k_ohint U s with Ret h => h | Pnc => (0%N, None) end) tt.
  Fixpoint ou_drain (n : nat) (s : cOI U) : trace (cA K) unit :=
    match n with
    | O => []
    | S n' =>
        match k_onext U s with
        | Pnc => [(Boom, ou_node s)]
        | Ret (None, _) => []
        | Ret (Some a, s') => (Yield (into a), ou_node s') :: ou_drain n' s'
        end
    end.
  Definition ou_items (n : nat) (s : cOI U) : iter (cA K) unit :=
    Iter (ou_node s) (ou_drain (S n) s).

  (** offset.rs:399-405, the loop of extend *)
  Fixpoint ou_extend_t {R} (t : trace (cC U) R) (n : node R)
    (o : offsets (cC K)) (position : Z) : offsets (cC K) * R * outcome :=
    match t with
    | [] => (o, nd_src n, ODone)
    | (Stop, n') :: _ => (o, nd_src n', ODone)
    | (Boom, n') :: _ => (o, nd_src n', OPanic)
    | (Yield c, n') :: t' =>
        match k_len U c with
        | Pnc => (o, nd_src n', OPanic)
        | Ret len =>
            match off_try_from kd (N.of_nat len) with
            | None => (o, nd_src n', OPanic)
            | Some z =>
                match off_strict_add kd position z with
                | Pnc => (o, nd_src n', OPanic)
                | Ret next =>
                    let '(d1, o1) := k_reserve K (of_data o) (N.of_nat len) in
                    match o1, k_into U c with
                    | ODone, Ret s =>
                        let '(d2, _, o2) := k_extend K d1 (ou_items len s) in
                        match o2 with
                        | ODone =>
                            let '(v3, _, o3) := vec_extend esz (of_offs o) (it_list [next]) in
                            match o3 with
                            | ODone => ou_extend_t t' n' (Offsets d2 v3) next
                            | _ => (Offsets d2 v3, nd_src n', o3)
                            end
                        | _ => (Offsets d2 (of_offs o), nd_src n', o2)
                        end
                    | ODone, Pnc => (Offsets d1 (of_offs o), nd_src n', OPanic)
                    | _, _ => (Offsets d1 (of_offs o), nd_src n', o1)
                    end
                end
            end
        end
    end.
  (** offset.rs:387-406 extend *)
  Definition ou_extend {R} (o : offsets (cC K)) (it : iter (cC U) R)
    : offsets (cC K) * R * outcome :=
    match nth_error (v_items (of_offs o)) (length (v_items (of_offs o)) - 1) with
    | None => (o, it_src it, OPanic)
    | Some position =>
        match as_usize position with
        | Pnc => (o, it_src it, OPanic)
        | Ret p =>
            let '(d1, o1) := k_truncate K (of_data o) p in
            match o1 with
            | ODone => ou_extend_t (it_tr it) (it_node it) (Offsets d1 (of_offs o)) position
            | _ => (Offsets d1 (of_offs o), it_src it, o1)
            end
        end
    end.
  (** offset.rs:419-423 from_iter, 346-352 from_iter_in *)
  Definition ou_from_iter {R} (it : iter (cC U) R) : bres (offsets (cC K)) * R :=
    let '(o, r, e) := ou_extend (of_default K kd) it in (bres_of e o, r).
  Definition ou_from_iter_in {R} (it : iter (cC U) R) : bres (offsets (cC K)) * R :=
    match of_with_capacity K kd (upper_or_lower (it_hint it)) with
    | BOk o0 => let '(o, r, e) := ou_extend o0 it in (bres_of e o, r)
    | BErr => (BErr, it_src it)
    | BPanic => (BPanic, it_src it)
    | BAbort => (BAbort, it_src it)
    end.

  (** offset.rs:519-541, the loop of try_extend *)
  Fixpoint ou_try_extend_t {R} (rows : nat) (data_len : N) (t : trace (cC U) R) (n : node R)
    (o : offsets (cC K)) (position : Z) (w : world) : offsets (cC K) * R * outcome * world :=
    match t with
    | [] => (o, nd_src n, ODone, w)
    | (Stop, n') :: _ => (o, nd_src n', ODone, w)
    | (Boom, n') :: _ => (o, nd_src n', OPanic, w)
    | (Yield c, n') :: t' =>
        match as_usize position, k_len U c with
        | Ret p, Ret len =>
            match match checked_add p (N.of_nat len) with
                  | Some u => off_try_from kd u
                  | None => None
                  end with
            | None => let '(o', e) := of_rollback K o rows data_len in
                      (o', nd_src n', e, w)
            | Some next =>
                match k_into U c with
                | Pnc => (o, nd_src n', OPanic, w)
                | Ret s =>
                    let '(d2, _, o2, w2) := k_try_extend K (of_data o) (ou_items len s) w in
                    match o2 with
                    | OErr =>
                        let '(o', e) := of_rollback K (Offsets d2 (of_offs o)) rows data_len in
                        (o', nd_src n', e, w2)
                    | ODone =>
                        let '(v3, _, o3, w3) :=
                          vec_try_extend esz (of_offs o) (it_list [next]) w2 in
                        match o3 with
                        | OErr => let '(o', e) := of_rollback K (Offsets d2 v3) rows data_len in
                                  (o', nd_src n', e, w3)
                        | ODone => ou_try_extend_t rows data_len t' n' (Offsets d2 v3) next w3
                        | _ => (Offsets d2 v3, nd_src n', o3, w3)
                        end
                    | _ => (Offsets d2 (of_offs o), nd_src n', o2, w2)
                    end
                end
            end
        | _, _ => (o, nd_src n', OPanic, w)
        end
    end.
  (** offset.rs:505-543 try_extend *)
  Definition ou_try_extend {R} (o : offsets (cC K)) (it : iter (cC U) R) (w : world)
    : offsets (cC K) * R * outcome * world :=
    match of_len K o with
    | Pnc => (o, it_src it, OPanic, w)
    | Ret rows =>
        match nth_error (v_items (of_offs o)) (length (v_items (of_offs o)) - 1) with
        | None => (o, it_src it, OPanic, w)
        | Some position =>
            match as_usize position with
            | Pnc => (o, it_src it, OPanic, w)
            | Ret data_len =>
                let '(d1, o1) := k_truncate K (of_data o) data_len in
                match o1 with
                | ODone => ou_try_extend_t rows data_len (it_tr it) (it_node it)
                             (Offsets d1 (of_offs o)) position w
                | _ => (Offsets d1 (of_offs o), it_src it, o1, w)
                end
            end
        end
    end.
  (** offset.rs:366-375 try_from_iter_in *)
  Definition ou_try_from_iter {R} (it : iter (cC U) R) (w : world)
    : bres (offsets (cC K)) * R * world :=
    match of_try_with_capacity K kd (upper_or_lower (it_hint it)) w with
    | (BOk o0, w1) => let '(o, r, e, w2) := ou_try_extend o0 it w1 in (bres_of e o, r, w2)
    | (BErr, w1) => (BErr, it_src it, w1)
    | (BPanic, w1) => (BPanic, it_src it, w1)
    | (BAbort, w1) => (BAbort, it_src it, w1)
    end.

  (** [(start..start + n).map(f)]: the items, in order, with exact hints *)
  Fixpoint range_t (f : N -> out (cA K)) (start : N) (n : nat) : trace (cA U) unit :=
    match n with
    | O => []
    | S n' =>
        match f start with
        | Pnc => [(Boom, Node (exact_hint n') tt)]
        | Ret a => (Yield (back a), Node (exact_hint n') tt) :: range_t f (start + 1)%N n'
        end
    end.
  (** [collect::<U>()] of it *)
  Definition range_collect (f : N -> out (cA K)) (start : N) (n : nat) : bres (cC U) :=
    fst (k_from_iter U (Iter (Node (exact_hint n) tt) (range_t f start n))).

  (** offset.rs:676-682 into_owned of a view: 727-731, collected *)
  Definition ou_own (v : offview (cC K)) : bres (cC U) :=
    match ov_len K v with
    | Pnc => BPanic
    | Ret n => range_collect (ov_item K v) 0 (N.to_nat n)
    end.
  (** offset.rs:590-599 next of the owning iterator *)
  Definition ou_onext (s : offinto (cC K)) : bres (option (cC U) * offinto (cC K)) :=
    match oi_offs s with
    | [] => BOk (None, s)
    | e :: rest =>
        match as_usize (oi_pos s), as_usize e with
        | Ret su, Ret eu =>
            match range_collect (fun i =>
                    let? o := k_view K (oi_data s) i in
                    let? x := expect o in
                    k_own K x) su (N.to_nat (eu - su)) with
            | BOk c => BOk (Some c, OffInto (oi_data s) rest e)
            | BErr => BErr
            | BPanic => BPanic
            | BAbort => BAbort
            end
        | _, _ => BPanic
        end
    end.
End OwnedLists.
