(** * Validity<T>: src/validity.rs *)
From Coq Require Import List NArith Bool Arith.
From Verif Require Import Base Iter VecModel BitmapModel CollModel.
Import ListNotations.

(** validity.rs:46-52, the struct *)
Record validity (C : Type) : Type :=
  Validity { va_coll : C; va_bm : option bitmap }.
Arguments Validity {C} va_coll va_bm.
Arguments va_coll {C} v.
Arguments va_bm {C} v.

Definition is_some {A} (o : option A) : bool :=
  match o with Some _ => true | None => false end.
Definition unwrap_or {A} (d : A) (o : option A) : A :=
  match o with Some a => a | None => d end.

(** validity.rs:392 VALIDITY_CHUNK *)
Definition chunk : nat := N.to_nat 1024.

(** [upper_bound.unwrap_or(lower_bound)], validity.rs:378, 459, 487;
    offset.rs:349, 372 *)
Definition upper_or_lower (h : hint) : N := unwrap_or (fst h) (snd h).

Section Validity.
  Variable K : Coll.

  (** validity.rs:161-166 from_collection, 141-143 into_parts *)
  Definition va_from_collection (c : cC K) : validity (cC K) := Validity c None.
  Definition va_into_parts (v : validity (cC K)) : cC K * option bitmap :=
    (va_coll v, va_bm v).

  (** validity.rs:109-122 try_from_parts; the error carries both lengths *)
  Definition va_try_from_parts (c : cC K) (b : bitmap)
    : out (validity (cC K) + (nat * nat)) :=
    let? n := k_len K c in
    let m := bm_len b in
    Ret (if Nat.eqb n m then inl (Validity c (Some b)) else inr (n, m)).

  (** validity.rs:213-219 len *)
  Definition va_len (v : validity (cC K)) : out nat :=
    match va_bm v with
    | None => k_len K (va_coll v)
    | Some b => Ret (bm_len b)
    end.

  (** validity.rs:312-322 view *)
  Definition va_view (v : validity (cC K)) (i : N) : out (option (option (cV K))) :=
    let? n := va_len v in
    if (i <? N.of_nat n)%N then
      let? ov := k_view K (va_coll v) i in
      let? value := expect ov in
      let? valid := match va_bm v with
                    | None => Ret true
                    | Some b => let? ob := bm_view b i in expect ob
                    end in
      Ret (Some (if valid then Some value else None))
    else Ret None.

  (** owned.rs: IntoOwned for Option *)
  Definition va_own (o : option (cV K)) : out (option (cA K)) :=
    match o with
    | None => Ret None
    | Some v => omap Some (k_own K v)
    end.

  (** validity.rs:222-271 ValidityIter, over views or over owned values *)
  Definition vait_next {I X} (next : I -> out (option X * I))
    (s : I * option bititer) : out (option (option X) * (I * option bititer)) :=
    let '(vals, bits) := s in
    let values valid bits' :=
      let? r := next vals in
      let '(ox, vals') := r in
      Ret (match ox with
           | Some x => Some (if (valid : bool) then Some x else None)
           | None => None
           end, (vals', bits')) in
    match bits with
    | None => values true None
    | Some b =>
        let? r := bititer_next b in
        match r with
        | (None, b') => Ret (None, (vals, Some b'))
        | (Some valid, b') => values valid (Some b')
        end
    end.
  Definition vait_hint {I} (hnt : I -> out hint) (s : I * option bititer) : out hint :=
    let? h := hnt (fst s) in
    match snd s with
    | None => Ret h
    | Some b =>
        let? hb := bititer_hint b in
        Ret (N.min (fst h) (fst hb),
             match snd h, snd hb with
             | Some x, Some y => Some (N.min x y)
             | _, _ => None
             end)
    end.
  (** validity.rs:273-302 the two into_iter *)
  Definition va_iter (v : validity (cC K)) : out (cVI K * option bititer) :=
    let? i := k_iter K (va_coll v) in
    Ret (i, option_map bm_iter (va_bm v)).
  Definition va_into (v : validity (cC K)) : out (cOI K * option bititer) :=
    let? i := k_into K (va_coll v) in
    Ret (i, option_map bm_iter (va_bm v)).

  (** validity.rs:347-353 materialize_bitmap, 357-366 try_materialize_bitmap *)
  Definition va_materialize (v : validity (cC K))
    : validity (cC K) * outcome :=
    match va_bm v with
    | Some _ => (v, ODone)
    | None =>
        match k_len K (va_coll v) with
        | Pnc => (v, OPanic)
        | Ret n => match bm_all_set n with
                   | BOk b => (Validity (va_coll v) (Some b), ODone)
                   | BErr => (v, OErr)
                   | BPanic => (v, OPanic)
                   | BAbort => (v, OAbort)
                   end
        end
    end.
  Definition va_try_materialize (v : validity (cC K)) (w : world)
    : validity (cC K) * outcome * world :=
    match va_bm v with
    | Some _ => (v, ODone, w)
    | None =>
        match k_len K (va_coll v) with
        | Pnc => (v, OPanic, w)
        | Ret n => match bm_try_all_set n w with
                   | (BOk b, w') => (Validity (va_coll v) (Some b), ODone, w')
                   | (BErr, w') => (v, OErr, w')
                   | (BPanic, w') => (v, OPanic, w')
                   | (BAbort, w') => (v, OAbort, w')
                   end
        end
    end.

  (** validity.rs:380, 462: the closure extends the bitmap by one bit. That the
      allocation for it ends the process is counted as a panic. *)
  Definition push_bit (b : bitmap) (o : option (cA K)) : option bitmap :=
    match bm_extend b (it_list [is_some o]) with
    | (b', _, ODone) => Some b'
    | _ => None
    end.
  (** validity.rs:375-387 from_iter and 455-470 from_iter_in, which differ only
      in how the child is collected *)
  Definition va_collect (collect : forall R, iter (cA K) R -> bres (cC K) * R)
    {R} (it : iter (option (cA K)) R) : bres (validity (cC K)) * R :=
    match bm_with_capacity (upper_or_lower (it_hint it)) with
    | BOk b =>
        let '(res, (r, b')) :=
          collect _ (it_map (unwrap_or (k_item0 K)) (it_inspect push_bit b it)) in
        (bmap (fun c => Validity c (Some b')) res, r)
    | BErr => (BErr, it_src it)
    | BPanic => (BPanic, it_src it)
    | BAbort => (BAbort, it_src it)
    end.

  (** validity.rs:422-425 and 526-529: the closure records validity; the index
      is below VALIDITY_CHUNK because the closure sits under
      [take(VALIDITY_CHUNK)]. *)
  Definition push_valid (s : list bool) (o : option (cA K)) : option (list bool) :=
    Some (s ++ [is_some o]).
  (** validity.rs:419-426 and 523-530: the adapted chunk *)
  Definition va_chunk {R} (it : iter (option (cA K)) R)
    : iter (cA K) (iter (option (cA K)) R * list bool) :=
    it_map (unwrap_or (k_item0 K))
      (it_inspect push_valid [] (it_take chunk (it_byref it))).

  (** validity.rs:414-435: the loop of extend. Every round that does not end
      the loop consumes [chunk] items, so [fuel] larger than the script is
      never exhausted. *)
  Fixpoint va_extend_loop {R} (fuel : nat) (c : cC K) (b : bitmap)
    (it : iter (option (cA K)) R) : cC K * bitmap * R * outcome :=
    match fuel with
    | O => (c, b, it_src it, OPanic)
    | S f =>
        let '(c', (it', vs), o) := k_extend K c (va_chunk it) in
        match o with
        | ODone =>
            let '(b', _, o2) := bm_extend b (it_list vs) in
            match o2 with
            | ODone => if Nat.ltb (length vs) chunk then (c', b', it_src it', ODone)
                       else va_extend_loop f c' b' it'
            | _ => (c', b', it_src it', o2)
            end
        | _ => (c', b, it_src it', o)
        end
    end.
  (** validity.rs:400-436 extend *)
  Definition va_extend {R} (v : validity (cC K)) (it : iter (option (cA K)) R)
    : validity (cC K) * R * outcome :=
    let '(v1, o1) := va_materialize v in
    match o1, va_bm v1 with
    | ODone, Some b =>
        let '(c2, o2) := k_truncate K (va_coll v1) (N.of_nat (bm_len b)) in
        match o2 with
        | ODone =>
            let '(c3, b3, r, o3) := va_extend_loop (S (length (it_tr it))) c2 b it in
            (Validity c3 (Some b3), r, o3)
        | _ => (Validity c2 (Some b), it_src it, o2)
        end
    | ODone, None => (v1, it_src it, OPanic)
    | _, _ => (v1, it_src it, o1)
    end.

  (** validity.rs:560-565 truncate *)
  Definition va_truncate (v : validity (cC K)) (n : N) : validity (cC K) * outcome :=
    let bm' := option_map (fun b => bm_truncate b n) (va_bm v) in
    let '(c', o) := k_truncate K (va_coll v) n in
    (Validity c' bm', o).

  (** validity.rs:519-547: the loop of try_extend; on failure the collection
      and the bitmap are truncated to the original length [len]. *)
  Definition va_rollback (c : cC K) (b : bitmap) (len : nat)
    : cC K * bitmap * outcome :=
    let '(v, o) := va_truncate (Validity c (Some b)) (N.of_nat len) in
    match va_bm v with
    | Some b' => (va_coll v, b', match o with ODone => OErr | _ => o end)
    | None => (va_coll v, b, OPanic)
    end.
  Fixpoint va_try_extend_loop {R} (fuel : nat) (len : nat) (c : cC K) (b : bitmap)
    (it : iter (option (cA K)) R) (w : world)
    : cC K * bitmap * R * outcome * world :=
    match fuel with
    | O => (c, b, it_src it, OPanic, w)
    | S f =>
        let '(c', (it', vs), o, w1) := k_try_extend K c (va_chunk it) w in
        match o with
        | ODone =>
            let '(b', _, o2, w2) := bm_try_extend b (it_list vs) w1 in
            match o2 with
            | ODone => if Nat.ltb (length vs) chunk
                       then (c', b', it_src it', ODone, w2)
                       else va_try_extend_loop f len c' b' it' w2
            | OErr => let '(c'', b'', o3) := va_rollback c' b' len in
                      (c'', b'', it_src it', o3, w2)
            | _ => (c', b', it_src it', o2, w2)
            end
        | OErr => let '(c'', b'', o3) := va_rollback c' b len in
                  (c'', b'', it_src it', o3, w1)
        | _ => (c', b, it_src it', o, w1)
        end
    end.
  (** validity.rs:511-549 try_extend *)
  Definition va_try_extend {R} (v : validity (cC K)) (it : iter (option (cA K)) R)
    (w : world) : validity (cC K) * R * outcome * world :=
    match va_len v with
    | Pnc => (v, it_src it, OPanic, w)
    | Ret len =>
        let '(v1, o1, w1) := va_try_materialize v w in
        match o1, va_bm v1 with
        | ODone, Some b =>
            let '(c2, o2) := k_truncate K (va_coll v1) (N.of_nat len) in
            match o2 with
            | ODone =>
                let '(c3, b3, r, o3, w3) :=
                  va_try_extend_loop (S (length (it_tr it))) len c2 b it w1 in
                (Validity c3 (Some b3), r, o3, w3)
            | _ => (Validity c2 (Some b), it_src it, o2, w1)
            end
        | ODone, None => (v1, it_src it, OPanic, w1)
        | _, _ => (v1, it_src it, o1, w1)
        end
    end.

  (** validity.rs:446-453 with_capacity_in, 472-479 try_with_capacity_in *)
  Definition va_with_capacity (n : N) : bres (validity (cC K)) :=
    match k_with_capacity K n with
    | BOk c => bmap (fun b => Validity c (Some b)) (bm_with_capacity n)
    | BErr => BErr
    | BPanic => BPanic
    | BAbort => BAbort
    end.
  Definition va_try_with_capacity (n : N) (w : world) : bres (validity (cC K)) * world :=
    match k_try_with_capacity K n w with
    | (BOk c, w1) =>
        let '(rb, w2) := bm_try_with_capacity n w1 in
        (bmap (fun b => Validity c (Some b)) rb, w2)
    | (BErr, w1) => (BErr, w1)
    | (BPanic, w1) => (BPanic, w1)
    | (BAbort, w1) => (BAbort, w1)
    end.
  (** validity.rs:481-490 try_from_iter_in *)
  Definition va_try_from_iter {R} (it : iter (option (cA K)) R) (w : world)
    : bres (validity (cC K)) * R * world :=
    match va_try_with_capacity (upper_or_lower (it_hint it)) w with
    | (BOk v, w1) =>
        let '(v', r, o, w2) := va_try_extend v it w1 in
        (match o with
         | ODone => BOk v'
         | OErr => BErr
         | OPanic => BPanic
         | OAbort => BAbort
         end, r, w2)
    | (BErr, w1) => (BErr, it_src it, w1)
    | (BPanic, w1) => (BPanic, it_src it, w1)
    | (BAbort, w1) => (BAbort, it_src it, w1)
    end.

  (** validity.rs:502-509 try_reserve *)
  Definition va_try_reserve (v : validity (cC K)) (n : N) (w : world)
    : validity (cC K) * outcome * world :=
    let '(v1, o1, w1) := va_try_materialize v w in
    match o1, va_bm v1 with
    | ODone, Some b =>
        let '(c2, o2, w2) := k_try_reserve K (va_coll v1) n w1 in
        match o2 with
        | ODone => let '(b3, o3, w3) := bm_try_reserve b n w2 in
                   (Validity c2 (Some b3), o3, w3)
        | _ => (Validity c2 (Some b), o2, w2)
        end
    | ODone, None => (v1, OPanic, w1)
    | _, _ => (v1, o1, w1)
    end.
  (** validity.rs:551-558 reserve: bitmap first, then the collection *)
  Definition va_reserve (v : validity (cC K)) (n : N) : validity (cC K) * outcome :=
    let '(v1, o1) := va_materialize v in
    match o1, va_bm v1 with
    | ODone, Some b =>
        let '(b2, o2) := bm_reserve b n in
        match o2 with
        | ODone => let '(c3, o3) := k_reserve K (va_coll v1) n in
                   (Validity c3 (Some b2), o3)
        | _ => (Validity (va_coll v1) (Some b2), o2)
        end
    | ODone, None => (v1, OPanic)
    | _, _ => (v1, o1)
    end.

  Definition validity_coll : Coll := {|
    cC := validity (cC K); cA := option (cA K); cV := option (cV K);
    cVI := cVI K * option bititer; cOI := cOI K * option bititer;
    k_item0 := None;
    k_len := va_len;
    k_view := va_view;
    k_own := va_own;
    k_iter := va_iter;
    k_inext := vait_next (k_inext K);
    k_ihint := vait_hint (k_ihint K);
    k_into := va_into;
    k_onext := vait_next (k_onext K);
    k_ohint := vait_hint (k_ohint K);
    (* validity.rs:197-204 *)
    k_default := Validity (k_default K) None;
    k_with_capacity := va_with_capacity;
    k_try_with_capacity := va_try_with_capacity;
    k_from_iter R := va_collect (fun R' => k_from_iter K);
    k_from_iter_in R := va_collect (fun R' => k_from_iter_in K);
    k_try_from_iter R := va_try_from_iter;
    k_extend R := va_extend;
    k_try_extend R := va_try_extend;
    k_reserve := va_reserve;
    k_try_reserve := va_try_reserve;
    k_truncate := va_truncate;
  |}.
End Validity.
