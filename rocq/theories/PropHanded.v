(** * C60: after any panics, lists handed over as collections, clones and other storage

    [s] is the shape of the items of the list, [u] that of the collections that are
    handed over and back; [into] and [back] stand for the identity between their
    items, which have one type in Rust. [whole], [cut_off], [whole_until] and
    [panics_at] are in SpecHanded.v, [collects] and [hands_out] in SpecOwned.v. *)
From Coq Require Import List NArith ZArith Arith Bool.
From Verif Require Import Base Iter Spec VecModel BitmapModel CollModel ValidityModel FlattenModel
  OffsetsModel OwnedListModel LayoutModel Reach CloneModel StorageModel SpecBytes SpecFixed SpecLived
  SpecOwned SpecHanded FactsOwned FactsHanded PropBitmap PropFixed PropRepair PropLived PropAfter.
Import ListNotations.

(** Appending collections. One whose iterator panics at its end makes the
    operation panic; the lists before it are appended and it is not. *)
Theorem C60_handed_over :
  forall s u, widths_pos s -> forall k (into : cA (coll u) -> cA (coll s)),
  (forall y, item_ok u y -> item_ok s (into y)) ->
  forall R o ls (it : iter (cC (coll u)) R) rows o' r e,
  lived (SList k s) o -> reads (SList k s) o ls -> Forall2 (reads u) (items_of it) rows ->
  ou_extend (coll s) (coll u) k into o it = (o', r, e) ->
  match e with
  | ODone => fin_of it = FStop /\ Forall2 (whole u) (items_of it) rows /\
      exists zs, Forall2 (like (SList k s)) (map (map into) rows) zs /\ reads (SList k s) o' (ls ++ zs)
  | OErr => False
  | OPanic => exists j zs, whole_until it rows j /\
      Forall2 (like (SList k s)) (firstn j (map (map into) rows)) zs /\ reads (SList k s) o' (ls ++ zs)
  | OAbort => True
  end.
Proof. exact handed_over. Qed.
Print Assumptions C60_handed_over.

Theorem C60_handed_over_fallibly :
  forall s u, widths_pos s -> forall k (into : cA (coll u) -> cA (coll s)),
  (forall y, item_ok u y -> item_ok s (into y)) ->
  forall R o ls (it : iter (cC (coll u)) R) w rows o' r e w',
  lived (SList k s) o -> reads (SList k s) o ls -> Forall2 (reads u) (items_of it) rows ->
  ou_try_extend (coll s) (coll u) k into o it w = (o', r, e, w') ->
  match e with
  | ODone => fin_of it = FStop /\ Forall2 (whole u) (items_of it) rows /\
      exists zs, Forall2 (like (SList k s)) (map (map into) rows) zs /\ reads (SList k s) o' (ls ++ zs)
  | OErr => reads (SList k s) o' ls
  | OPanic => exists j zs, panics_at it rows j /\
      Forall2 (like (SList k s)) (firstn j (map (map into) rows)) zs /\ reads (SList k s) o' (ls ++ zs)
  | OAbort => False
  end.
Proof. exact handed_over_try. Qed.
Print Assumptions C60_handed_over_fallibly.

(** Collecting them. *)
Theorem C60_collected :
  forall s u, widths_pos s -> widths_pos u -> forall k (into : cA (coll u) -> cA (coll s)),
  (forall y, item_ok u y -> item_ok s (into y)) ->
  forall R (it : iter (cC (coll u)) R) rows c,
  (forall x, In x (items_of it) -> lived u x) -> Forall2 (reads u) (items_of it) rows ->
  (exists r, ou_from_iter (coll s) (coll u) k into it = (BOk c, r)) \/
  (exists r, ou_from_iter_in (coll s) (coll u) k into it = (BOk c, r)) \/
  (exists w r w', ou_try_from_iter (coll s) (coll u) k into it w = (BOk c, r, w')) ->
  fin_of it = FStop /\ Forall2 (whole u) (items_of it) rows /\ lived (SList k s) c /\
  exists zs, Forall2 (like (SList k s)) (map (map into) rows) zs /\ reads (SList k s) c zs.
Proof. exact handed_collect. Qed.
Print Assumptions C60_collected.

(** Collections that can be consumed are written as the lists of their items
    are, outcome and consumed input included. C55 and C58 say what that does and
    when it succeeds. *)
Theorem C60_writing_whole :
  forall K U k (into : cA U -> cA K) R (it : iter (cC U) R) it', as_consumed into it it' ->
  (forall o, ou_extend K U k into o it = of_extend K k o it') /\
  (forall o w, ou_try_extend K U k into o it w = of_try_extend K k o it' w) /\
  ou_from_iter K U k into it = of_from_iter K k it' /\
  ou_from_iter_in K U k into it = of_from_iter_in K k it' /\
  (forall w, ou_try_from_iter K U k into it w = of_try_from_iter K k it' w).
Proof. exact writing_consumed. Qed.
Print Assumptions C60_writing_whole.

Theorem C60_whole_as_lists :
  forall u s R (into : cA (coll u) -> cA (coll s)) (it : iter (cC (coll u)) R),
  Forall (fun p => match fst p with
                   | Yield c => exists xs, reads u c xs /\ whole u c xs
                   | _ => True
                   end) (it_tr it) ->
  exists it', as_consumed into it it'.
Proof. exact whole_as_lists. Qed.
Print Assumptions C60_whole_as_lists.

(** Such are all collections without leftovers of rows, *)
Theorem C60_filled_are_whole :
  forall s, widths_pos s -> forall c xs, lived s c -> reads s c xs -> rows_fill s c -> whole s c xs.
Proof. exact filled_whole. Qed.
Print Assumptions C60_filled_are_whole.

(** and lists, whatever their items left behind. *)
Theorem C60_lists_are_whole :
  forall s, widths_pos s -> forall k o rows,
  lived (SList k s) o -> reads (SList k s) o rows -> whole (SList k s) o rows.
Proof. exact lists_whole. Qed.
Print Assumptions C60_lists_are_whole.

(** Every row can be read into a new collection, *)
Theorem C60_owned_row :
  forall s u, widths_pos u -> forall k (back : cA (coll s) -> cA (coll u)),
  (forall x, item_ok s x -> item_ok u (back x)) -> forall o rows i row,
  reads (SList k s) o rows -> nth_error rows i = Some row ->
  exists v, of_view (coll s) o (N.of_nat i) = Ret (Some v) /\
    collects u (map back row) (ou_own (coll s) (coll u) back v).
Proof. exact handed_row. Qed.
Print Assumptions C60_owned_row.

(** and consuming the list hands out all of them, whatever is left behind the
    last row. *)
Theorem C60_owned_rows :
  forall s u, widths_pos s -> widths_pos u -> forall k (back : cA (coll s) -> cA (coll u)),
  (forall x, item_ok s x -> item_ok u (back x)) -> forall o rows,
  lived (SList k s) o -> reads (SList k s) o rows ->
  exists st, of_into (coll s) o = Ret st /\
    hands_out u (ou_onext (coll s) (coll u) back) (of_ohint (coll s)) st (map (map back) rows).
Proof. exact handed_rows. Qed.
Print Assumptions C60_owned_rows.

(** A clone is what it was cloned from. *)
Theorem C60_clone :
  forall s, widths_pos s -> clonable s = true -> forall c xs, lived s c -> reads s c xs ->
  lived s (clone s c) /\ image_of s (clone s c) = image_of s c /\ reads s (clone s c) xs.
Proof. exact clone_reads. Qed.
Print Assumptions C60_clone.

(** In shared storage the iterator ends as in a vector. *)
Theorem C60_shared_storage :
  forall s (f : storages s) c xs, reads s c xs ->
  exists st, o_into (own_in s f) c = Ret st /\
    (whole s c xs /\ yields (o_next (own_in s f)) (o_hint (own_in s f)) Ret st xs \/
     cut_off s c xs /\ breaks (o_next (own_in s f)) (o_hint (own_in s f)) st xs).
Proof. exact storage_reads. Qed.
Print Assumptions C60_shared_storage.

(** Rows of two [[bool; 3]]. The second collection ends in the middle of a row:
    extending panics behind the first one, and two bits of the second stay behind
    it. A clone of the first appended to that comes back shifted by them. *)
Definition triples : list (list bool) := [[true; true; false]; [true; false; true]].
Definition with_torn : iter (cC (coll torn_shape)) unit := it_list [two_triples; torn; two_triples].
Definition one_row : cC (coll (SList I32 torn_shape)) :=
  Offsets (Bitmap (Vec [235]%N 8) 8 0) (Vec [0; 2]%Z 4).
Definition two_rows : cC (coll (SList I32 torn_shape)) :=
  Offsets (Bitmap (Vec [235; 43]%N 8) 14 0) (Vec [0; 2; 4]%Z 4).
Lemma with_torn_lived : forall c, In c (items_of with_torn) -> lived torn_shape c.
Proof.
  change (forall c, In c [two_triples; torn; two_triples] -> lived torn_shape c).
  intros c [<-|[<-|[<-|[]]]].
  - exact (lived_built torn_shape _ two_triples_built).
  - exact torn_lived.
  - exact (lived_built torn_shape _ two_triples_built).
Qed.
Lemma cloned_lived : forall c, In c (items_of (it_list [clone torn_shape two_triples])) -> lived torn_shape c.
Proof.
  change (forall c, In c [clone torn_shape two_triples] -> lived torn_shape c). intros c [<-|[]].
  apply lived_clone; [reflexivity|]. exact (lived_built torn_shape _ two_triples_built).
Qed.
Example C60_case :
  widths_pos torn_shape /\ (forall c, In c (items_of with_torn) -> lived torn_shape c) /\
  ou_extend (coll torn_shape) (coll torn_shape) I32 (fun x => x) (of_default (coll torn_shape) I32) with_torn
    = (one_row, tt, OPanic) /\
  ou_extend (coll torn_shape) (coll torn_shape) I32 (fun x => x) one_row
    (it_list [clone torn_shape two_triples]) = (two_rows, tt, ODone) /\
  lived (SList I32 torn_shape) two_rows /\
  k_owned (coll (SList I32 torn_shape)) two_rows 0 = Ret (Some triples) /\
  k_owned (coll (SList I32 torn_shape)) two_rows 1 = Ret (Some [[true; true; true]; [true; false; true]]) /\
  (exists s0 s1 s2, k_into (coll torn_shape) (clone torn_shape torn) = Ret s0 /\
     k_onext (coll torn_shape) s0 = Ret (Some [true; true; false], s1) /\
     k_onext (coll torn_shape) s1 = Ret (Some [true; false; true], s2) /\
     k_onext (coll torn_shape) s2 = Pnc) /\
  exists v c, of_view (coll torn_shape) two_rows 0 = Ret (Some v) /\
    ou_own (coll torn_shape) (coll torn_shape) (fun x => x) v = BOk c /\
    v_items (bm_buf c) = [43]%N /\ bm_bits c = 6.
Proof.
  split; [split; [apply Nat.lt_0_succ|exact I]|]. split; [exact with_torn_lived|].
  assert (E1 : ou_extend (coll torn_shape) (coll torn_shape) I32 (fun x => x)
    (of_default (coll torn_shape) I32) with_torn = (one_row, tt, OPanic)) by (vm_compute; reflexivity).
  assert (E2 : ou_extend (coll torn_shape) (coll torn_shape) I32 (fun x => x) one_row
    (it_list [clone torn_shape two_triples]) = (two_rows, tt, ODone)) by (vm_compute; reflexivity).
  split; [exact E1|]. split; [exact E2|].
  assert (W : widths_pos torn_shape) by (split; [apply Nat.lt_0_succ|exact I]).
  split.
  { apply (lived_owned I32 torn_shape torn_shape (fun x => x) unit one_row
      (it_list [clone torn_shape two_triples]) two_rows tt ODone W (fun y H => H)).
    - apply (lived_owned I32 torn_shape torn_shape (fun x => x) unit (of_default (coll torn_shape) I32)
        with_torn one_row tt OPanic W (fun y H => H)).
      + exact (lived_built _ _ (built_default (SList I32 torn_shape))).
      + exact with_torn_lived.
      + exact E1.
      + discriminate.
    - exact cloned_lived.
    - exact E2.
    - discriminate. }
  split; [vm_compute; reflexivity|]. split; [vm_compute; reflexivity|].
  split.
  { eexists. eexists. eexists. split; [vm_compute; reflexivity|]. split; [vm_compute; reflexivity|].
    split; vm_compute; reflexivity. }
  eexists. eexists. split; [vm_compute; reflexivity|]. split; [vm_compute; reflexivity|].
  split; reflexivity.
Qed.

(** The fallible operation does the same; handed over alone, the collections
    that are not torn are collected. *)
Example C60_fallible_case : exists o,
  ou_try_extend (coll torn_shape) (coll torn_shape) I32 (fun x => x) (of_default (coll torn_shape) I32)
    with_torn [] = (o, tt, OPanic, []) /\
  k_len (coll (SList I32 torn_shape)) o = Ret 1 /\
  k_owned (coll (SList I32 torn_shape)) o 0 = Ret (Some triples) /\
  exists c, ou_from_iter (coll torn_shape) (coll torn_shape) I32 (fun x => x)
    (it_list [two_triples; two_triples]) = (BOk c, tt) /\
  v_items (of_offs c) = [0; 2; 4]%Z /\ v_items (bm_buf (of_data c)) = [235; 10]%N.
Proof.
  eexists. split; [vm_compute; reflexivity|]. split; [vm_compute; reflexivity|].
  split; [vm_compute; reflexivity|]. eexists. split; [vm_compute; reflexivity|]. split; reflexivity.
Qed.
