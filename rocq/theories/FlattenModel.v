(** * Flatten<C, N>: src/collection/flatten.rs

    Arrays [T; N] are lists; that they have length N is a hypothesis of the
    theorems (a fact of Rust's types). A [Flatten] is its child. *)
From Coq Require Import List NArith Bool Arith.
From Verif Require Import Base Iter VecModel BitmapModel CollModel.
Import ListNotations.

(** flatten.rs:51-62 FlattenError *)
Inductive flatten_error : Type := ZeroChunkSize | NotMultiple (len n : nat).

Section Flatten.
  Variable K : Coll.
  Variable n : nat.
  Let w : N := N.of_nat n.

  (** flatten.rs:93-102 try_from_parts *)
  Definition fl_try_from_parts (c : cC K) : out (cC K + flatten_error) :=
    let? len := k_len K c in
    match n with
    | O => Ret (inr ZeroChunkSize)
    | _ => if Nat.eqb (len mod n) 0 then Ret (inl c)
           else Ret (inr (NotMultiple len n))
    end.

  (** flatten.rs:130-134 len *)
  Definition fl_len (c : cC K) : out nat :=
    let? len := k_len K c in
    match n with O => Pnc | _ => Ret (len / n) end.

  (** flatten.rs:156-162 view *)
  Definition fl_view (c : cC K) (i : N) : out (option (list (cV K))) :=
    omap Some
      (range_out (fun idx =>
         let? base := strict_mul i w in
         let? j := strict_add base idx in
         let? v := k_view K c j in
         expect v) 0 n).

  (** flatten.rs:279-283 FlattenView::into_owned *)
  Fixpoint fl_own (l : list (cV K)) : out (list (cA K)) :=
    match l with
    | [] => Ret []
    | v :: r => let? a := k_own K v in
                let? r' := fl_own r in
                Ret (a :: r')
    end.

  (** flatten.rs:172-176 iter_views *)
  Definition fl_iter (c : cC K) : out (ixiter (cC K)) :=
    let? len := fl_len c in Ret (IxIter c 0 len).

  (** flatten.rs:305-313 ArrayChunks::next: the remaining [k] calls of next *)
  Fixpoint chunk_rest (k : nat) (s : cOI K) : out (list (cA K) * cOI K) :=
    match k with
    | O => Ret ([], s)
    | S k' => let? r := k_onext K s in
              let '(o, s') := r in
              let? a := expect o in
              let? r' := chunk_rest k' s' in
              Ret (a :: fst r', snd r')
    end.
  (** [items[0] = Some(first)] is out of bounds for N = 0. *)
  Definition chunks_next (s : cOI K) : out (option (list (cA K)) * cOI K) :=
    let? r := k_onext K s in
    match r with
    | (None, s') => Ret (None, s')
    | (Some a, s') =>
        match n with
        | O => Pnc
        | S n' => let? r' := chunk_rest n' s' in
                  Ret (Some (a :: fst r'), snd r')
        end
    end.
  (** flatten.rs:315-324 size_hint and len *)
  Definition chunks_hint (s : cOI K) : out hint :=
    let? h := k_ohint K s in
    let? l := exact_len h in
    let? d := strict_div l w in
    Ret (d, Some d).

  (** flatten.rs:188-190, 196-199 *)
  Definition fl_with_capacity (cap : N) : bres (cC K) :=
    match strict_mul cap w with
    | Ret m => k_with_capacity K m
    | Pnc => BPanic
    end.
  Definition fl_try_with_capacity (cap : N) (wd : world) : bres (cC K) * world :=
    match checked_mul cap w with
    | Some m => k_try_with_capacity K m wd
    | None => (BErr, wd)
    end.
  (** flatten.rs:214-217 try_reserve, 226-228 reserve *)
  Definition fl_try_reserve (c : cC K) (add : N) (wd : world) : cC K * outcome * world :=
    match checked_mul add w with
    | Some m => k_try_reserve K c m wd
    | None => (c, OErr, wd)
    end.
  Definition fl_reserve (c : cC K) (add : N) : cC K * outcome :=
    match strict_mul add w with
    | Ret m => k_reserve K c m
    | Pnc => (c, OPanic)
    end.
  (** flatten.rs:230-234 truncate *)
  Definition fl_truncate (c : cC K) (len : N) : cC K * outcome :=
    match fl_len c with
    | Pnc => (c, OPanic)
    | Ret l =>
        if (len <? N.of_nat l)%N then
          match strict_mul len w with
          | Ret m => k_truncate K c m
          | Pnc => (c, OPanic)
          end
        else (c, ODone)
    end.

  Definition flatten_coll : Coll := {|
    cC := cC K; cA := list (cA K); cV := list (cV K);
    cVI := ixiter (cC K); cOI := cOI K;
    k_item0 := repeat (k_item0 K) n;
    k_len := fl_len;
    k_view := fl_view;
    k_own := fl_own;
    k_iter := fl_iter;
    k_inext := ix_next fl_view;
    k_ihint := ix_hint;
    (* flatten.rs:180-182 *)
    k_into := k_into K;
    k_onext := chunks_next;
    k_ohint := chunks_hint;
    (* flatten.rs:32 derive(Default) *)
    k_default := k_default K;
    k_with_capacity := fl_with_capacity;
    k_try_with_capacity := fl_try_with_capacity;
    (* flatten.rs:142-146, 192-194, 201-206 *)
    k_from_iter R it := k_from_iter K (it_flatten w it);
    k_from_iter_in R it := k_from_iter_in K (it_flatten w it);
    k_try_from_iter R it wd := k_try_from_iter K (it_flatten w it) wd;
    (* flatten.rs:136-140, 219-224 *)
    k_extend R c it := k_extend K c (it_flatten w it);
    k_try_extend R c it wd := k_try_extend K c (it_flatten w it) wd;
    k_reserve := fl_reserve;
    k_try_reserve := fl_try_reserve;
    k_truncate := fl_truncate;
  |}.
End Flatten.
