(** * C54: fixed-size lists that end in the middle of a row

    A panicking extension of a fixed-size list may stop between the items of a
    row (C23). [s] ranges over all layouts of the items of the rows. *)
From Coq Require Import List NArith Arith Bool.
From Verif Require Import Base Iter Spec VecModel BitmapModel CollModel FlattenModel LayoutModel Reach
  SpecFixed CoreLemmas FactsFixed FactsRepair PropBitmap PropFixed.
Import ListNotations.

(** Reading a child of any length through the rows. *)
Theorem C54_whole_rows_are_read :
  forall s, widths_pos s -> forall n c ys rows rest,
  built s c -> shows (coll s) c ys -> cut_rows n ys rows rest ->
  k_len (flatten_coll (coll s) n) c = Ret (length rows) /\
  (forall i x, nth_error rows i = Some x ->
     k_owned (flatten_coll (coll s) n) c (N.of_nat i) = Ret (Some x)) /\
  (exists st, k_iter (flatten_coll (coll s) n) c = Ret st /\
     yields (k_inext (flatten_coll (coll s) n)) (k_ihint (flatten_coll (coll s) n))
       (k_own (flatten_coll (coll s) n)) st rows) /\
  (rest <> [] -> exists st, k_into (flatten_coll (coll s) n) c = Ret st /\
     breaks (k_onext (flatten_coll (coll s) n)) (k_ohint (flatten_coll (coll s) n)) st rows).
Proof. exact cut_reads. Qed.
Print Assumptions C54_whole_rows_are_read.

(** Truncation below the length repairs; any other changes nothing. *)
Theorem C54_truncate_repairs :
  forall s, widths_pos s -> forall n c ys rows rest len,
  built s c -> shows (coll s) c ys -> cut_rows n ys rows rest ->
  (len < lenN rows ->
   exists c', k_truncate (flatten_coll (coll s) n) c len = (c', ODone) /\ built (SFixed n s) c' /\
     shows (coll (SFixed n s)) c' (firstn (N.to_nat len) rows))%N /\
  (lenN rows <= len -> k_truncate (flatten_coll (coll s) n) c len = (c, ODone))%N.
Proof. exact cut_truncate. Qed.
Print Assumptions C54_truncate_repairs.

(** Appending to it instead shifts all new rows. *)
Theorem C54_extend_shifts :
  forall s, widths_pos s -> forall n c ys rows rest (it : iter (list (cA (coll s))) unit) c',
  built s c -> shows (coll s) c ys -> cut_rows n ys rows rest ->
  Forall (item_ok (SFixed n s)) (items_of it) ->
  step (flatten_coll (coll s) n) c (OpExtend it) = (c', ODone) ->
  built s c' /\ k_len (flatten_coll (coll s) n) c' = Ret (length rows + length (items_of it)) /\
  forall i x, nth_error (rows ++ shifted n rest (items_of it)) i = Some x ->
    k_owned (flatten_coll (coll s) n) c' (N.of_nat i) = Ret (Some x).
Proof. exact cut_extend. Qed.
Print Assumptions C54_extend_shifts.

(** After any panicking operation on fixed-size lists whose child survives
    panics: the old rows and a prefix of the new ones can be read, and a
    truncation below the length makes the collection sound again. *)
Theorem C54_after_a_panic :
  forall s, widths_pos s -> forall n, 0 < n -> forall c xs p c1,
  built (SFixed n s) c -> shows (coll (SFixed n s)) c xs ->
  Forall (item_ok (SFixed n s)) (op_items p) ->
  step (coll (SFixed n s)) c p = (c1, OPanic) ->
  match p with
  | OpExtend it => panic_safe s false (value_offset s c) = true \/
      (panic_safe s true (value_offset s c) = true /\ room_in (SFixed n s) c it)
  | OpTryExtend _ _ => panic_safe s true (value_offset s c) = true
  | _ => True
  end ->
  built s c1 /\
  exists q, length xs <= q <= length xs + length (op_items p) /\
    k_len (coll (SFixed n s)) c1 = Ret q /\
    (forall i x, i < q -> nth_error (xs ++ op_items p) i = Some x ->
       k_owned (coll (SFixed n s)) c1 (N.of_nat i) = Ret (Some x)) /\
    (exists st, k_iter (coll (SFixed n s)) c1 = Ret st /\
       yields (k_inext (coll (SFixed n s))) (k_ihint (coll (SFixed n s))) (k_own (coll (SFixed n s)))
         st (firstn q (xs ++ op_items p))) /\
    (forall len, (len < N.of_nat q)%N ->
       exists c2, k_truncate (coll (SFixed n s)) c1 len = (c2, ODone) /\ built (SFixed n s) c2 /\
         shows (coll (SFixed n s)) c2 (firstn (N.to_nat len) (xs ++ op_items p))).
Proof. exact fixed_repair. Qed.
Print Assumptions C54_after_a_panic.

(** [[bool; 3]]: two rows and a panic after three more leave eight bits. The
    length is still two, truncating to it does nothing and the next row is read
    shifted; truncating to one row repairs. *)
Definition torn : cC (coll (SFixed 3 SBits)) :=
  Eval vm_compute in
    fst (step (coll (SFixed 3 SBits)) two_triples (OpExtend (panicking (repeat [true; true; true] 3)))).
Example C54_case : exists c2 c3 c4,
  step (coll (SFixed 3 SBits)) two_triples (OpExtend (panicking (repeat [true; true; true] 3))) =
    (torn, OPanic) /\
  cut_rows 3 [true; true; false; true; false; true; true; true]
    [[true; true; false]; [true; false; true]] [true; true] /\
  bm_len torn = 8 /\ k_len (coll (SFixed 3 SBits)) torn = Ret 2 /\
  k_truncate (coll (SFixed 3 SBits)) torn 2 = (torn, ODone) /\
  step (coll (SFixed 3 SBits)) torn (OpExtend (it_list [[false; true; false]])) = (c2, ODone) /\
  shifted 3 [true; true] [[false; true; false]] = [[true; true; false]] /\
  k_owned (coll (SFixed 3 SBits)) c2 2 = Ret (Some [true; true; false]) /\
  k_truncate (coll (SFixed 3 SBits)) torn 1 = (c3, ODone) /\
  step (coll (SFixed 3 SBits)) c3 (OpExtend (it_list [[false; true; false]])) = (c4, ODone) /\
  k_owned (coll (SFixed 3 SBits)) c4 0 = Ret (Some [true; true; false]) /\
  k_owned (coll (SFixed 3 SBits)) c4 1 = Ret (Some [false; true; false]) /\
  panic_safe SBits false (value_offset SBits two_triples) = true.
Proof.
  eexists. eexists. eexists. split; [vm_compute; reflexivity|].
  split; [split; [reflexivity|split; [constructor; [reflexivity|constructor; [reflexivity|constructor]]|]];
          cbn; apply Nat.lt_succ_diag_r|].
  split; [reflexivity|]. split; [vm_compute; reflexivity|]. split; [vm_compute; reflexivity|].
  split; [vm_compute; reflexivity|]. split; [reflexivity|]. split; [vm_compute; reflexivity|].
  split; [vm_compute; reflexivity|]. split; [vm_compute; reflexivity|].
  split; [vm_compute; reflexivity|]. split; [vm_compute; reflexivity|]. reflexivity.
Qed.
