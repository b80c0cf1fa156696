(** * C55: no panic makes reading panic or loses an item

    [s] ranges over all layouts; [lived] collections went through any operations,
    any of which may have panicked at any point. *)
From Coq Require Import List NArith ZArith Arith Bool.
From Verif Require Import Base Iter Spec VecModel BitmapModel CollModel ValidityModel FlattenModel
  OffsetsModel LayoutModel Reach SpecFixed SpecLived FactsLived PropBitmap PropFixed PropRepair.
Import ListNotations.

(** Every such collection can be read. *)
Theorem C55_reading_survives :
  forall s, widths_pos s -> forall c, lived s c -> exists xs, reads s c xs.
Proof. exact lived_reads. Qed.
Print Assumptions C55_reading_survives.

(** Every operation on it does to what is read what it does to a list, up to the
    contents of new rows of fixed-size lists. *)
Theorem C55_operations :
  forall s, widths_pos s -> forall c xs p c' o,
  lived s c -> reads s c xs -> Forall (item_ok s) (op_items p) -> step (coll s) c p = (c', o) ->
  match o with
  | OAbort => may_abort p = true
  | _ => exists ys, reads s c' ys /\ like_step s xs p o ys
  end.
Proof. exact lived_steps. Qed.
Print Assumptions C55_operations.

(** Without fixed-size lists: exactly what it does to a list. *)
Theorem C55_exact_without_arrays :
  forall s, widths_pos s -> no_arrays s = true -> forall c, lived s c ->
  exists xs, shows (coll s) c xs /\ forall p c' o,
    Forall (item_ok s) (op_items p) -> step (coll s) c p = (c', o) ->
    match o with
    | OAbort => may_abort p = true
    | _ => exists ys, shows (coll s) c' ys /\ list_step xs p o ys
    end.
Proof. exact lived_exact. Qed.
Print Assumptions C55_exact_without_arrays.

(** The torn [[bool; 3]] of C54 as the items of a list of nullable rows. The
    list reads its one item, takes another, whose first row comes back shifted,
    and can be consumed; the nullable rows alone panic when consumed. *)
Definition nested_shape : shape := SList I32 (SNull (SFixed 3 SBits)).
Definition nested : cC (coll nested_shape) :=
  Offsets (va_from_collection (coll (SFixed 3 SBits)) torn) (Vec [0; 2]%Z 2).
Definition more : list (option (list bool)) := [Some [false; true; false]; None].
Definition nested' : cC (coll nested_shape) :=
  Eval vm_compute in fst (step (coll nested_shape) nested (OpExtend (it_list [more]))).
Lemma nested_lived : lived nested_shape nested.
Proof.
  apply (lived_list_parts I32 (SNull (SFixed 3 SBits))
           (va_from_collection (coll (SFixed 3 SBits)) torn) (Vec [0; 2]%Z 2)).
  - apply (lived_null_wrap (SFixed 3 SBits)).
    apply (lived_step (SFixed 3 SBits) two_triples (OpExtend (panicking (repeat [true; true; true] 3)))
             torn OPanic).
    + apply lived_built, two_triples_built.
    + change (Forall (item_ok (SFixed 3 SBits)) (repeat [true; true; true] 3)).
      apply Forall_forall. intros x Hx. apply repeat_spec in Hx. subst x. split; [reflexivity|].
      apply Forall_forall. intros; exact I.
    + vm_compute; reflexivity.
    + discriminate.
  - split; discriminate.
  - constructor; [split; discriminate|]. constructor; [split; discriminate|constructor].
  - vm_compute; reflexivity.
Qed.
Example C55_case :
  widths_pos nested_shape /\ lived nested_shape nested /\
  Forall (item_ok nested_shape) [more] /\
  k_len (coll nested_shape) nested = Ret 1 /\
  k_owned (coll nested_shape) nested 0 = Ret (Some [Some [true; true; false]; Some [true; false; true]]) /\
  step (coll nested_shape) nested (OpExtend (it_list [more])) = (nested', ODone) /\
  k_len (coll nested_shape) nested' = Ret 2 /\
  k_owned (coll nested_shape) nested' 0 = Ret (Some [Some [true; true; false]; Some [true; false; true]]) /\
  k_owned (coll nested_shape) nested' 1 = Ret (Some [Some [true; true; false]; None]) /\
  like nested_shape more [Some [true; true; false]; None] /\
  (exists s0 s1 s2, k_into (coll (SNull (SFixed 3 SBits))) (of_data nested) = Ret s0 /\
     k_onext (coll (SNull (SFixed 3 SBits))) s0 = Ret (Some (Some [true; true; false]), s1) /\
     k_onext (coll (SNull (SFixed 3 SBits))) s1 = Ret (Some (Some [true; false; true]), s2) /\
     k_onext (coll (SNull (SFixed 3 SBits))) s2 = Pnc).
Proof.
  split; [split; [apply Nat.lt_0_succ|exact I]|]. split; [exact nested_lived|].
  split.
  { constructor; [|constructor].
    constructor; [split; [reflexivity|apply Forall_forall; intros; exact I]|].
    constructor; [exact I|constructor]. }
  split; [vm_compute; reflexivity|]. split; [vm_compute; reflexivity|].
  split; [vm_compute; reflexivity|]. split; [vm_compute; reflexivity|].
  split; [vm_compute; reflexivity|]. split; [vm_compute; reflexivity|].
  split.
  { constructor; [reflexivity|]. constructor; [exact I|constructor]. }
  eexists. eexists. eexists. split; [vm_compute; reflexivity|]. split; [vm_compute; reflexivity|].
  split; vm_compute; reflexivity.
Qed.
