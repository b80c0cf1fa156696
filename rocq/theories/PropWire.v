(** * The bytes that exported arrays hand over: C49

    [travels mem t c xs]: exporting [c] succeeds, the result is a consistent
    description whose buffers are byte for byte those of an Arrow array of the
    items [xs], and importing it gives an array of these items. *)
From Coq Require Import List NArith ZArith Bool Arith Lia.
From Verif Require Import Base Iter Spec SpecTables VecModel BitmapModel CollModel ValidityModel
  FlattenModel OffsetsModel LayoutModel Reach Calm FactsBitmap SpecLaid FactsLaid FfiModel SpecFfi
  SpecWire FactsWire.
Import ListNotations.

(** ** C49: what is collected can be handed over *)

Theorem C49_collected : forall t, widths_pos (shape_of t) ->
  forall mem R (it : iter (cA (layout t)) R) c r, arrow_type t -> aligned mem 0 t ->
  resumable (shape_of t) = true \/ fused it -> Forall (item_ok (shape_of t)) (items_of it) ->
  Forall (item_fits (shape_of t)) (items_of it) ->
  (total (cost (shape_of t)) (items_of it) < 2 ^ 63)%N ->
  k_from_iter (layout t) it = (BOk c, r) \/ k_from_iter_in (layout t) it = (BOk c, r) ->
  travels mem t c (items_of it).
Proof. exact collected_travels. Qed.
Print Assumptions C49_collected.

Theorem C49_try_collected : forall t, widths_pos (shape_of t) ->
  forall mem R (it : iter (cA (layout t)) R) w c r w', arrow_type t -> aligned mem 0 t ->
  resumable_try (shape_of t) = true \/ fused it -> Forall (item_ok (shape_of t)) (items_of it) ->
  Forall (item_fits (shape_of t)) (items_of it) ->
  (total (cost (shape_of t)) (items_of it) < 2 ^ 63)%N ->
  k_try_from_iter (layout t) it w = (BOk c, r, w') ->
  travels mem t c (items_of it).
Proof. exact try_collected_travels. Qed.
Print Assumptions C49_try_collected.

(** Histories of successful extensions and of reservations, successful or not *)
Theorem C49_histories : forall t, widths_pos (shape_of t) ->
  forall mem c xs ps os c', arrow_type t -> aligned mem 0 t ->
  calm (shape_of t) c -> laid (shape_of t) c xs -> runs (shape_of t) c ps os c' ->
  Forall2 appends ps os ->
  Forall (item_fits (shape_of t)) (xs ++ concat (map op_items ps)) ->
  (held (shape_of t) c + total (cost (shape_of t)) (concat (map op_items ps)) < 2 ^ 63)%N ->
  travels mem t c' (xs ++ concat (map op_items ps)).
Proof. exact runs_travels. Qed.
Print Assumptions C49_histories.

(** The bytes do not depend on how the items got there, nor on whether they are
    values of their types: only lengths matter. *)
Theorem C49_bytes : forall t, widths_pos (shape_of t) ->
  forall mem c xs, built (shape_of t) c -> (held (shape_of t) c < 2 ^ 63)%N ->
  laid (shape_of t) c xs ->
  exists a, export mem t c = XOk (a, schema_of t) /\ encodes t a xs.
Proof. exact export_encodes. Qed.
Print Assumptions C49_bytes.

(** Vec<Option<[Option<u16>; 2]>>, collected *)
Definition sent : ty := TVsl I32 (TFsl 2 (TPrim U16 true) true) false.
Definition sent_items : list (cA (layout sent)) :=
  [[Some [Some 513%N; None]; None]; []; [Some [Some 65535%N; Some 7%N]]].
Definition addresses (b : block) : N := 64%N.
Definition bytes_at (i : nat) (a : carray) : option (list N) := option_map cb_data (buffer a i).
Lemma sent_ok : Forall (item_ok (shape_of sent)) sent_items /\
  Forall (item_fits (shape_of sent)) sent_items.
Proof.
  split.
  - repeat (constructor; [cbn; repeat constructor|]). constructor.
  - apply Forall_forall. intros x Hx y Hy.
    repeat (destruct Hx as [<-|Hx]; [cbn in Hy|]); [| | |contradiction];
      repeat (destruct Hy as [<-|Hy]; [|]); try contradiction; intros l E; inversion E; subst l;
      intros z Hz; repeat (destruct Hz as [<-|Hz]; [|]); try contradiction;
      intros v Ev; inversion Ev; subst; reflexivity.
Qed.
Example C49_case : widths_pos (shape_of sent) /\ arrow_type sent /\ aligned addresses 0 sent /\
  resumable (shape_of sent) = true /\
  (total (cost (shape_of sent)) sent_items < 2 ^ 63)%N /\
  exists c r, k_from_iter (layout sent) (it_list sent_items) = (BOk c, r) /\
    travels addresses sent c sent_items /\
    exists a ca cca, export addresses sent c = XOk (a, schema_of sent) /\
      child a = Some ca /\ child ca = Some cca /\
      bytes_at 0 a = None /\ bytes_at 1 a = Some [0; 0; 0; 0; 2; 0; 0; 0; 2; 0; 0; 0; 3; 0; 0; 0]%N /\
      bytes_at 0 ca = Some [5]%N /\ bytes_at 0 cca = Some [49]%N /\
      bytes_at 1 cca = Some [1; 2; 0; 0; 0; 0; 0; 0; 255; 255; 7; 0]%N.
Proof.
  assert (Hw : widths_pos (shape_of sent)) by (cbn; lia).
  assert (Ht : arrow_type sent) by (cbn; split; [vm_compute; discriminate|discriminate]).
  assert (Ha : aligned addresses 0 sent) by (cbn; auto).
  assert (Hm : (total (cost (shape_of sent)) sent_items < 2 ^ 63)%N) by (vm_compute; reflexivity).
  split; [exact Hw|]. split; [exact Ht|]. split; [exact Ha|]. split; [reflexivity|]. split; [exact Hm|].
  destruct (k_from_iter (layout sent) (it_list sent_items)) as [[c| | |] r] eqn:E;
    try (vm_compute in E; discriminate).
  exists c, r. split; [reflexivity|]. split.
  - exact (C49_collected sent Hw addresses _ (it_list sent_items) c r Ht Ha (or_introl eq_refl) (proj1 sent_ok)
      (proj2 sent_ok) Hm (or_introl E)).
  - vm_compute in E. inversion E; subst.
    do 3 eexists. split; [vm_compute; reflexivity|]. split; [reflexivity|]. split; [reflexivity|].
    vm_compute. auto 10.
Qed.
