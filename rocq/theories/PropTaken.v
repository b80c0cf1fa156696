(** * Iterators are not called again once they have ended: C45 *)
From Coq Require Import List NArith ZArith Bool Arith Lia.
From Verif Require Import Base Iter Spec SpecResume SpecTaken VecModel BitmapModel CollModel
  ValidityModel FlattenModel OffsetsModel LayoutModel Reach FactsTaken.
Import ListNotations.

(** ** C45: nothing is asked of an iterator that has ended *)

(** Whatever the outcome and whatever the collection: the source is left in a
    state it had before or right after the first [None] or panic. *)
Theorem C45_extend_stops : forall s R c (it : iter (cA (coll s)) R) c' r o,
  k_extend (coll s) c it = (c', r, o) -> In r (states it).
Proof. exact extend_takes. Qed.
Print Assumptions C45_extend_stops.

Theorem C45_try_extend_stops : forall s R c (it : iter (cA (coll s)) R) w c' r o w',
  k_try_extend (coll s) c it w = (c', r, o, w') -> In r (states it).
Proof. exact try_extend_takes. Qed.
Print Assumptions C45_try_extend_stops.

(** Success means that everything up to the first [None] was taken. *)
Theorem C45_extend_exhausts : forall s, widths_pos s ->
  forall R c (it : iter (cA (coll s)) R) c' r, built s c -> Forall (item_ok s) (items_of it) ->
  k_extend (coll s) c it = (c', r, ODone) -> r = end_of it.
Proof. exact extend_ends. Qed.
Print Assumptions C45_extend_exhausts.

Theorem C45_try_extend_exhausts : forall s, widths_pos s ->
  forall R c (it : iter (cA (coll s)) R) w c' r w', built s c -> Forall (item_ok s) (items_of it) ->
  k_try_extend (coll s) c it w = (c', r, ODone, w') -> r = end_of it.
Proof. exact try_extend_ends. Qed.
Print Assumptions C45_try_extend_exhausts.

(** An iterator that was lent goes on with what comes after its first [None]. *)
Theorem C45_lent_iterator_resumes : forall s, widths_pos s ->
  forall R c (it it' : iter (cA (coll s)) R) c', built s c -> Forall (item_ok s) (items_of it) ->
  k_extend (coll s) c (it_byref it) = (c', it', ODone) \/
  (exists w w', k_try_extend (coll s) c (it_byref it) w = (c', it', ODone, w')) ->
  it_tr it' = resumed_t (it_tr it).
Proof. exact lent_resumes. Qed.
Print Assumptions C45_lent_iterator_resumes.

(** The same for collecting, unless the items are (optional) booleans. *)
Theorem C45_collect_stops : forall s, resumable s = true -> widths_pos s ->
  forall R (it : iter (cA (coll s)) R) res r,
  k_from_iter (coll s) it = (res, r) \/ k_from_iter_in (coll s) it = (res, r) ->
  In r (states it) /\
  (Forall (item_ok s) (items_of it) -> match res with BOk _ => r = end_of it | _ => True end).
Proof. exact collect_takes. Qed.
Print Assumptions C45_collect_stops.

Theorem C45_try_collect_stops : forall s, resumable_try s = true -> widths_pos s ->
  forall R (it : iter (cA (coll s)) R) w res r w',
  k_try_from_iter (coll s) it w = (res, r, w') ->
  In r (states it) /\
  (Forall (item_ok s) (items_of it) -> match res with BOk _ => r = end_of it | _ => True end).
Proof. exact try_collect_takes. Qed.
Print Assumptions C45_try_collect_stops.

(** An iterator whose source counts the calls: [None] for each [None]. *)
Fixpoint counting_t {A} (n : nat) (l : list (option A)) : trace A nat :=
  match l with
  | [] => []
  | o :: l' => (match o with Some a => Yield a | None => Stop end, Node (0%N, None) (S n)) ::
      counting_t (S n) l'
  end.
Definition counting {A} (l : list (option A)) : iter A nat :=
  Iter (Node (0%N, None) 0) (counting_t 0 l).

(** Booleans have to be excluded from collecting: the byte is filled up. *)
Theorem C45_not_for_collected_bitmaps :
  exists (it : iter bool nat) b r, k_from_iter (coll SBits) it = (BOk b, r) /\
    end_of it = 3 /\ r = 9 /\ ~ In r (states it).
Proof.
  exists (counting [Some true; Some false; None; None; None; None; None; None; None; Some true]).
  eexists; eexists. split; [vm_compute; reflexivity|]. split; [reflexivity|]. split; [reflexivity|].
  vm_compute. intuition discriminate.
Qed.
Print Assumptions C45_not_for_collected_bitmaps.

(** Optional pairs of booleans: two of them, [None], and one more. *)
Definition bool_pairs : shape := SNull (SFixed 2 SBits).
Definition paused : iter (cA (coll bool_pairs)) nat :=
  counting [Some (Some [true; false]); Some None; None; Some (Some [true; true])].
Example C45_example :
  widths_pos bool_pairs /\ resumable bool_pairs = true /\ resumable_try bool_pairs = true /\
  built bool_pairs (k_default (coll bool_pairs)) /\
  Forall (item_ok bool_pairs) (items_of paused) /\
  states paused = [0; 1; 2; 3] /\ end_of paused = 3 /\
  snd (fst (k_extend (coll bool_pairs) (k_default (coll bool_pairs)) paused)) = 3 /\
  snd (fst (fst (k_try_extend (coll bool_pairs) (k_default (coll bool_pairs)) paused []))) = 3 /\
  (* the allocator refuses to grow the bitmap after the pairs were taken *)
  snd (fst (fst (k_try_extend (coll bool_pairs) (k_default (coll bool_pairs)) paused
    [Some 1000%N; None]))) = 3 /\
  (* the first allocation fails: one item has been taken *)
  snd (fst (fst (k_try_extend (coll (SVec U8)) (k_default (coll (SVec U8)))
    (counting [Some 7%N; Some 8%N]) [None]))) = 1 /\
  snd (k_from_iter (coll bool_pairs) paused) = 3 /\
  snd (fst (k_try_from_iter (coll bool_pairs) paused [])) = 3.
Proof.
  split; [cbn; auto|]. split; [reflexivity|]. split; [reflexivity|].
  split; [apply built_default|]. split; [repeat constructor|].
  repeat split; vm_compute; reflexivity.
Qed.
(** Lent twice: what follows the [None] is appended by the second extension. *)
Example C45_example_lent :
  exists c1 it1 c2 r2, 
  k_extend (coll bool_pairs) (k_default (coll bool_pairs)) (it_byref paused) = (c1, it1, ODone) /\
  it_tr it1 = resumed_t (it_tr paused) /\
  items_of it1 = [Some [true; true]] /\
  k_extend (coll bool_pairs) c1 it1 = (c2, r2, ODone) /\ r2 = 4 /\
  k_len (coll bool_pairs) c2 = Ret 3.
Proof.
  do 4 eexists. split; [vm_compute; reflexivity|]. split; [reflexivity|]. split; [reflexivity|].
  split; [vm_compute; reflexivity|]. split; reflexivity.
Qed.
