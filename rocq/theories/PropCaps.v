(** * C61: memory is asked for when room runs out, and kept

    [s] ranges over all layouts. *)
From Coq Require Import List NArith ZArith Arith Bool.
From Verif Require Import Base Iter Spec VecModel BitmapModel CollModel ValidityModel FlattenModel
  OffsetsModel LayoutModel Reach SpecFixed SpecLive SpecLived SpecCaps FactsCaps PropRoom PropBitmap
  PropRepair PropLived.
Import ListNotations.

(** Room that was reserved is used without a request, whatever happened to the
    collection before: the answers of the allocator are left as they were, no buffer
    is enlarged, and the infallible extension does the same. *)
Theorem C61_reserved_room_is_used :
  forall s, widths_pos s -> no_lists s -> forall c xs n w c1 w1,
  lived s c -> reads s c xs -> k_try_reserve (coll s) c n w = (c1, ODone, w1) ->
  forall R (it : iter (cA (coll s)) R), good s it -> (lenN (items_of it) <= n)%N ->
  exists c2 r zs,
    (forall w2, k_try_extend (coll s) c1 it w2 = (c2, r, ODone, w2)) /\
    k_extend (coll s) c1 it = (c2, r, ODone) /\
    memory s c2 = memory s c1 /\ reads s c2 (xs ++ zs) /\ Forall2 (like s) (items_of it) zs.
Proof. exact reserved_quiet. Qed.
Print Assumptions C61_reserved_room_is_used.

(** With lists, what the reservation pays for (C28). *)
Theorem C61_reserved_room_is_used_by_lists :
  forall s, widths_pos s -> forall c xs n w c1 w1,
  lived s c -> reads s c xs -> k_try_reserve (coll s) c n w = (c1, ODone, w1) ->
  forall R (it : iter (cA (coll s)) R), good s it -> covered s c n (items_of it) ->
  exists c2 r zs,
    (forall w2, k_try_extend (coll s) c1 it w2 = (c2, r, ODone, w2)) /\
    memory s c2 = memory s c1 /\ reads s c2 (xs ++ zs) /\ Forall2 (like s) (items_of it) zs.
Proof. exact reserved_quiet_lists. Qed.
Print Assumptions C61_reserved_room_is_used_by_lists.

(** What an infallible reservation leaves behind a fallible one can leave behind, so
    both theorems above hold of it. *)
Theorem C61_reservations_agree :
  forall s c n c1, k_reserve (coll s) c n = (c1, ODone) ->
  exists w, k_try_reserve (coll s) c n w = (c1, ODone, []).
Proof. exact reserve_granted. Qed.
Print Assumptions C61_reservations_agree.

(** One request per buffer, and one for every bitmap that is implicit. Nothing is
    asked for after a refusal. *)
Theorem C61_reserving_asks_once :
  forall s c n w c' o w', k_try_reserve (coll s) c n w = (c', o, w') ->
  exists answers, w = answers ++ w' /\ length answers <= buffers s + implicit s c /\
    (all_granted answers \/ last_refused answers /\ o <> ODone).
Proof. exact reserve_asks. Qed.
Print Assumptions C61_reserving_asks_once.

Theorem C61_creating_asks_once :
  forall s n w res w', k_try_with_capacity (coll s) n w = (res, w') ->
  exists answers, w = answers ++ w' /\ length answers <= buffers s /\
    (all_granted answers \/ last_refused answers /\ forall c, res <> BOk c).
Proof. exact with_capacity_asks. Qed.
Print Assumptions C61_creating_asks_once.

(** Collecting an iterator that knows how many items come. *)
Theorem C61_collecting_asks_once :
  forall s, widths_pos s -> no_lists s ->
  forall R (it : iter (cA (coll s)) R) w res r w',
  good s it -> exact it -> fused it -> (lenN (items_of it) * unit_cost s <= usize_max)%N ->
  k_try_from_iter (coll s) it w = (res, r, w') ->
  exists answers, w = answers ++ w' /\ length answers <= buffers s /\
    (all_granted answers \/ last_refused answers /\ forall c, res <> BOk c).
Proof. exact from_iter_asks. Qed.
Print Assumptions C61_collecting_asks_once.

(** A refusal is never swallowed: it is the last answer, the error is returned and the
    items are what they were. *)
Theorem C61_refusals_are_reported :
  forall s, widths_pos s -> forall c xs (it : iter (cA (coll s)) unit) w c' o w',
  lived s c -> reads s c xs -> Forall (item_ok s) (items_of it) ->
  (exists r, k_try_extend (coll s) c it w = (c', r, o, w')) ->
  exists answers, w = answers ++ w' /\
    (all_granted answers \/
     last_refused answers /\ (fin_of it = FStop -> o = OErr /\ reads s c' xs)).
Proof. exact refusal_reported. Qed.
Print Assumptions C61_refusals_are_reported.

Theorem C61_refused_reservations_are_reported :
  forall s, widths_pos s -> forall c xs n w c' o w',
  lived s c -> reads s c xs -> k_try_reserve (coll s) c n w = (c', o, w') ->
  forall answers, w = answers ++ w' -> In None answers -> o = OErr /\ reads s c' xs.
Proof. exact refusal_reported_reserve. Qed.
Print Assumptions C61_refused_reservations_are_reported.

(** However an operation ends no buffer becomes smaller. Infallible operations leave
    a buffer alone or enlarge it at least twofold; truncation leaves all alone. *)
Theorem C61_buffers_grow :
  forall s c p c' o, step (coll s) c p = (c', o) ->
  Forall2 as_large (memory s c) (memory s c') /\
  match p with
  | OpExtend _ | OpReserve _ => Forall2 doubled (memory s c) (memory s c')
  | OpTruncate _ => memory s c' = memory s c
  | _ => True
  end.
Proof. exact step_memory. Qed.
Print Assumptions C61_buffers_grow.

(** In a history of infallible operations, however long, a buffer moves at most
    logarithmically often in its final capacity. *)
Theorem C61_buffers_move_seldom :
  forall s i ps c c' os, Forall infallible ps -> exec (coll s) c ps = (c', os) ->
  moves (capacity s i c) (map (capacity s i) (states (coll s) c ps)) <=
    N.to_nat (N.log2 (capacity s i c')) + 2.
Proof. exact history_moves. Qed.
Print Assumptions C61_buffers_move_seldom.

(** Optional rows of three bits with an implicit bitmap, torn (C54), get room for
    twenty rows: three requests, the last of which would have been for the bitmap. *)
Definition rows3 : shape := SNull (SFixed 3 SBits).
Definition torn_rows3 : cC (coll rows3) := va_from_collection (coll (SFixed 3 SBits)) torn.
Definition reserved_rows3 : cC (coll rows3) := Eval vm_compute in
  fst (fst (k_try_reserve (coll rows3) torn_rows3 20 [Some 0; Some 2; Some 5]%N)).
Definition five_rows : list (cA (coll rows3)) := [row true; None; row false; row true; None].
Lemma five_rows_ok : Forall (item_ok rows3) five_rows.
Proof.
  assert (N0 : item_ok rows3 None) by exact I.
  constructor; [apply row_ok|]. constructor; [exact N0|]. constructor; [apply row_ok|].
  constructor; [apply row_ok|]. constructor; [exact N0|constructor].
Qed.
Lemma five_rows_good : good rows3 (it_list five_rows).
Proof.
  split; [reflexivity|]. split; [vm_compute; repeat split; discriminate|]. exact five_rows_ok.
Qed.
Example C61_case : exists c2,
  widths_pos rows3 /\ no_lists rows3 /\ lived rows3 torn_rows3 /\
  (exists xs, reads rows3 torn_rows3 xs) /\ implicit rows3 torn_rows3 = 1 /\ buffers rows3 = 2 /\
  k_try_reserve (coll rows3) torn_rows3 20 [Some 0; Some 2; Some 5]%N = (reserved_rows3, ODone, []) /\
  snd (fst (k_try_reserve (coll rows3) torn_rows3 20 [Some 0; None; Some 5]%N)) = OErr /\
  good rows3 (it_list five_rows) /\ (lenN (items_of (it_list five_rows)) <= 20)%N /\
  covered rows3 torn_rows3 20 (items_of (it_list five_rows)) /\
  k_try_extend (coll rows3) reserved_rows3 (it_list five_rows) [None] = (c2, tt, ODone, [None]) /\
  memory rows3 c2 = memory rows3 reserved_rows3 /\ c2 <> reserved_rows3 /\
  (exists c3 r w, k_try_extend (coll rows3) torn_rows3 (it_list five_rows) [Some 0; None; Some 5]%N =
     (c3, r, OErr, w) /\ w = [Some 5%N]).
Proof.
  assert (W : widths_pos rows3) by (split; [apply Nat.lt_0_succ|exact I]).
  assert (L : lived rows3 torn_rows3) by exact (lived_null_wrap (SFixed 3 SBits) _ torn_lived).
  eexists. split; [exact W|]. split; [exact I|]. split; [exact L|].
  split; [exact (C55_reading_survives rows3 W _ L)|].
  split; [reflexivity|]. split; [reflexivity|]. split; [vm_compute; reflexivity|].
  split; [vm_compute; reflexivity|]. split; [exact five_rows_good|]. split; [vm_compute; discriminate|].
  split; [split; vm_compute; discriminate|]. split; [vm_compute; reflexivity|].
  split; [vm_compute; reflexivity|]. split; [vm_compute; discriminate|].
  do 3 eexists. split; vm_compute; reflexivity.
Qed.
(** Collecting them takes two requests; the third answer is left. *)
Example C61_collecting_case : exists c,
  exact (it_list five_rows) /\ fused (it_list five_rows) /\
  (lenN (items_of (it_list five_rows)) * unit_cost rows3 <= usize_max)%N /\
  k_try_from_iter (coll rows3) (it_list five_rows) [Some 1; Some 0; Some 9]%N = (BOk c, tt, [Some 9%N]) /\
  k_try_with_capacity (coll rows3) 5 [Some 1; None; Some 9]%N = (BErr, [Some 9%N]) /\
  k_reserve (coll rows3) c 100 <> (c, ODone).
Proof.
  eexists. split; [vm_compute; reflexivity|]. split; [vm_compute; constructor|].
  split; [vm_compute; discriminate|]. split; [vm_compute; reflexivity|].
  split; [vm_compute; reflexivity|]. vm_compute. discriminate.
Qed.
(** Forty extensions by one item and a truncation move the buffer of the items five
    times. *)
Definition one_by_one : list (op (cA (coll (SNull (SVec U16))))) :=
  repeat (OpExtend (it_list [Some 7%N])) 40 ++ [OpTruncate 2; OpReserve 3].
Example C61_moves_case : exists c os,
  Forall infallible one_by_one /\
  exec (coll (SNull (SVec U16))) (k_default _) one_by_one = (c, os) /\
  Forall (eq ODone) os /\ memory (SNull (SVec U16)) c = [(2, 64); (1, 8)]%N /\
  moves 0 (map (capacity (SNull (SVec U16)) 0) (states (coll (SNull (SVec U16))) (k_default _) one_by_one)) = 5 /\
  moves 0 (map (capacity (SNull (SVec U16)) 1) (states (coll (SNull (SVec U16))) (k_default _) one_by_one)) = 1.
Proof.
  do 2 eexists. split; [unfold one_by_one; apply Forall_app; split|].
  { apply Forall_forall. intros p H. apply repeat_spec in H. subst p. exact I. }
  { constructor; [exact I|]. constructor; [exact I|constructor]. }
  split; [vm_compute; reflexivity|]. split; [repeat constructor|].
  split; [vm_compute; reflexivity|]. split; vm_compute; reflexivity.
Qed.
