(** * C58: no panic costs memory or makes a later operation fail

    [s] ranges over all layouts; [lived] collections went through any operations,
    any of which may have panicked at any point. *)
From Coq Require Import List NArith ZArith Arith Bool.
From Verif Require Import Base Iter Spec VecModel BitmapModel CollModel ValidityModel FlattenModel
  OffsetsModel LayoutModel Reach SpecFixed SpecLive SpecLived SpecRoom FactsRoom PropBitmap PropRepair
  PropLived.
Import ListNotations.

(** An extension for which there is room ends as its source ends. *)
Theorem C58_extension_completes :
  forall s, widths_pos s -> forall R c (it : iter (cA (coll s)) R) c' r o,
  lived s c -> Forall (item_ok s) (items_of it) -> room_in s c it ->
  k_extend (coll s) c it = (c', r, o) ->
  o = match fin_of it with FStop => ODone | FBoom => OPanic end.
Proof. exact lived_extend. Qed.
Print Assumptions C58_extension_completes.

Theorem C58_fallible_extension_succeeds :
  forall s, widths_pos s -> forall R c (it : iter (cA (coll s)) R) w c' r o w',
  lived s c -> good s it -> grants w -> room_for s c (items_of it) ->
  k_try_extend (coll s) c it w = (c', r, o, w') -> o = ODone /\ grants w'.
Proof. exact lived_try_extend. Qed.
Print Assumptions C58_fallible_extension_succeeds.

Theorem C58_reservation_succeeds :
  forall s, widths_pos s -> forall c n c' o,
  lived s c -> (held s c + n * unit_cost s <= limit s)%N ->
  k_reserve (coll s) c n = (c', o) -> o = ODone.
Proof. exact lived_reserve. Qed.
Print Assumptions C58_reservation_succeeds.

Theorem C58_fallible_reservation_succeeds :
  forall s, widths_pos s -> forall c n w c' o w',
  lived s c -> grants w -> (held s c + n * unit_cost s <= limit s)%N ->
  k_try_reserve (coll s) c n w = (c', o, w') -> o = ODone /\ grants w'.
Proof. exact lived_try_reserve. Qed.
Print Assumptions C58_fallible_reservation_succeeds.

(** However an operation ends, the collection grows by no more than the items of
    its source. *)
Theorem C58_growth_is_bounded :
  forall s, widths_pos s -> forall c p c' o,
  lived s c -> Forall (item_ok s) (op_items p) -> step (coll s) c p = (c', o) -> o <> OAbort ->
  (held s c' <= held s c + total (cost s) (op_items p))%N.
Proof. exact lived_held. Qed.
Print Assumptions C58_growth_is_bounded.

(** A whole history: if there is room for all of it, no operation fails other
    than by a panic of its source, whatever earlier panics left behind. *)
Theorem C58_histories_end_well :
  forall s, widths_pos s -> forall ps c c' os,
  lived s c -> Forall (fun p => Forall (item_ok s) (op_items p) /\ fair p) ps ->
  (held s c + total (demand s) ps <= limit s)%N -> exec (coll s) c ps = (c', os) ->
  Forall2 ends_well ps os /\ lived s c' /\ (held s c' <= held s c + total (demand s) ps)%N.
Proof. exact lived_history. Qed.
Print Assumptions C58_histories_end_well.

(** C28 after panics: a reservation suffices. The [snd]s of [its] are arbitrary:
    every further allocation may fail. *)
Theorem C58_reservation_suffices :
  forall s, widths_pos s -> forall c xs n w c1 w1 its, no_lists s ->
  lived s c -> reads s c xs -> k_try_reserve (coll s) c n w = (c1, ODone, w1) ->
  Forall (fun p => good s (fst p)) its -> (lenN (all_items its) <= n)%N ->
  exists c2 zs, exec (coll s) c1 (try_extends its) = (c2, repeat ODone (length its)) /\
    reads s c2 (xs ++ zs) /\ Forall2 (like s) (all_items its) zs.
Proof. exact lived_reserved_flat. Qed.
Print Assumptions C58_reservation_suffices.

(** What it is good for when lists are involved. *)
Theorem C58_lists_get_one_element_each :
  forall s, widths_pos s -> forall c xs n w c1 w1 its,
  lived s c -> reads s c xs -> k_try_reserve (coll s) c n w = (c1, ODone, w1) ->
  Forall (fun p => good s (fst p)) its -> covered s c n (all_items its) ->
  exists c2 zs, exec (coll s) c1 (try_extends its) = (c2, repeat ODone (length its)) /\
    reads s c2 (xs ++ zs) /\ Forall2 (like s) (all_items its) zs.
Proof. exact lived_reserved. Qed.
Print Assumptions C58_lists_get_one_element_each.

(** The torn collection of C55. An extension panics once more, then it is used on. *)
Definition row (b : bool) : option (list bool) := Some [b; negb b; b].
Definition later : list (op (cA (coll nested_shape))) :=
  [OpExtend (panicking [[row true; None]; [row false]]);
   OpTryExtend (it_list [[None; row true; row false]; []]) (repeat (Some 0%N) 9);
   OpReserve 40; OpTryReserve 100 []; OpTruncate 4; OpExtend (it_list [[row false; row true]])].
Lemma row_ok b : item_ok (SNull (SFixed 3 SBits)) (row b).
Proof. split; [reflexivity|apply Forall_forall; intros; exact I]. Qed.
Example C58_case : exists c,
  widths_pos nested_shape /\ lived nested_shape nested /\
  Forall (fun p => Forall (item_ok nested_shape) (op_items p) /\ fair p) later /\
  (held nested_shape nested + total (demand nested_shape) later <= limit nested_shape)%N /\
  exec (coll nested_shape) nested later = (c, [OPanic; ODone; ODone; ODone; ODone; ODone]) /\
  k_len (coll nested_shape) c = Ret 5 /\
  (held nested_shape nested < held nested_shape c)%N.
Proof.
  eexists. split; [split; [apply Nat.lt_0_succ|exact I]|]. split; [exact nested_lived|].
  split.
  { assert (N0 : item_ok (SNull (SFixed 3 SBits)) None) by exact I.
    constructor; [split|].
    { change (Forall (Forall (item_ok (SNull (SFixed 3 SBits)))) [[row true; None]; [row false]]).
      constructor; [constructor; [apply row_ok|constructor; [exact N0|constructor]]|].
      constructor; [constructor; [apply row_ok|constructor]|constructor]. }
    { split; [exact I|]. vm_compute. repeat split; discriminate. }
    constructor; [split|].
    { change (Forall (Forall (item_ok (SNull (SFixed 3 SBits)))) [[None; row true; row false]; []]).
      constructor; [|constructor; [constructor|constructor]].
      constructor; [exact N0|]. constructor; [apply row_ok|]. constructor; [apply row_ok|constructor]. }
    { split; [vm_compute; repeat split; discriminate|]. vm_compute. repeat constructor; discriminate. }
    constructor; [split; [constructor|exact I]|].
    constructor; [split; [constructor|constructor]|].
    constructor; [split; [constructor|exact I]|].
    constructor; [split|constructor].
    { change (Forall (Forall (item_ok (SNull (SFixed 3 SBits)))) [[row false; row true]]).
      constructor; [|constructor]. constructor; [apply row_ok|]. constructor; [apply row_ok|constructor]. }
    { split; [vm_compute; repeat constructor|]. vm_compute. repeat split; discriminate. } }
  split; [vm_compute; discriminate|]. split; [vm_compute; reflexivity|].
  split; [vm_compute; reflexivity|]. vm_compute; reflexivity.
Qed.
(** The hypotheses of the single operations. *)
Example C58_single_case :
  room_in nested_shape nested (it_list [more]) /\ room_for nested_shape nested [more] /\
  good nested_shape (it_list [more]) /\ grants [Some 3%N] /\
  (held nested_shape nested + 1000 * unit_cost nested_shape <= limit nested_shape)%N /\
  (exists c, k_extend (coll nested_shape) nested (panicking [more]) = (c, tt, OPanic)).
Proof.
  split; [vm_compute; repeat split; discriminate|]. split; [vm_compute; discriminate|].
  split.
  { split; [reflexivity|]. split; [vm_compute; repeat split; discriminate|].
    exact (proj1 (proj2 (proj2 C55_case))). }
  split; [constructor; [discriminate|constructor]|]. split; [vm_compute; discriminate|].
  eexists. vm_compute. reflexivity.
Qed.
(** Reserving four rows in the torn rows of C54 pays for four rows, one by one. *)
Definition rows_in_parts : list (iter (cA (coll (SFixed 3 SBits))) unit * world) :=
  map (fun l => (it_list l, [None; None]))
    [[[true; false; true]]; [[false; false; true]; [true; true; true]]; [[true; true; false]]].
Definition torn_reserved : cC (coll (SFixed 3 SBits)) := Eval vm_compute in
  fst (fst (k_try_reserve (coll (SFixed 3 SBits)) torn 4 [])).
Lemma torn_lived : lived (SFixed 3 SBits) torn.
Proof. exact (lived_null_coll (SFixed 3 SBits) _ (lived_list_data I32 _ _ nested_lived)). Qed.
Lemma triple_ok a b c : item_ok (SFixed 3 SBits) [a; b; c].
Proof. split; [reflexivity|apply Forall_forall; intros; exact I]. Qed.
Example C58_reserved_case :
  no_lists (SFixed 3 SBits) /\ lived (SFixed 3 SBits) torn /\
  k_try_reserve (coll (SFixed 3 SBits)) torn 4 [] = (torn_reserved, ODone, []) /\
  Forall (fun p => good (SFixed 3 SBits) (fst p)) rows_in_parts /\
  (lenN (all_items rows_in_parts) <= 4)%N /\
  covered (SFixed 3 SBits) torn 4 (all_items rows_in_parts) /\
  (exists c, exec (coll (SFixed 3 SBits)) torn_reserved (try_extends rows_in_parts) =
     (c, [ODone; ODone; ODone]) /\ k_len (coll (SFixed 3 SBits)) c = Ret 6).
Proof.
  split; [exact I|]. split; [exact torn_lived|]. split; [vm_compute; reflexivity|].
  split.
  { constructor; [|constructor; [|constructor; [|constructor]]];
      (split; [reflexivity|]); (split; [vm_compute; repeat split; discriminate|]).
    - constructor; [apply triple_ok|constructor].
    - constructor; [apply triple_ok|]. constructor; [apply triple_ok|constructor].
    - constructor; [apply triple_ok|constructor]. }
  split; [vm_compute; discriminate|]. split; [vm_compute; discriminate|].
  eexists. split; vm_compute; reflexivity.
Qed.
