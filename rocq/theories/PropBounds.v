(** * C62: no more memory is asked for than the items account for

    [s] ranges over all layouts. [stored s c] are the buffers of [c]. *)
From Coq Require Import List NArith ZArith Arith Bool.
From Verif Require Import Base Iter Spec VecModel BitmapModel CollModel ValidityModel FlattenModel
  OffsetsModel LayoutModel CloneModel Reach SpecFixed SpecLive SpecLived SpecCaps Calm SpecBounds FactsBounds
  PropRoom PropBitmap PropRepair PropLived PropCaps.
Import ListNotations.

(** After an infallible extension a buffer has the memory it had, the least that is
    ever asked for, or memory for at most twice the elements in it. This holds of every
    collection that operations and arbitrary panics can lead to. *)
Theorem C62_extending_at_most_doubles :
  forall s, widths_pos s -> no_lists s -> forall c, lived s c ->
  forall R (it : iter (cA (coll s)) R) c' r, good s it ->
  k_extend (coll s) c it = (c', r, ODone) ->
  Forall2 (bounded (multiple 2)) (stored s c) (stored s c').
Proof. exact extend_bound. Qed.
Print Assumptions C62_extending_at_most_doubles.

(** For lists, four times: room is made for a list at a time. *)
Theorem C62_extending_lists_at_most_quadruples :
  forall s, widths_pos s -> flat_lists s -> forall c, calm s c ->
  forall R (it : iter (cA (coll s)) R) c' r, good s it ->
  k_extend (coll s) c it = (c', r, ODone) ->
  Forall2 (bounded (multiple 4)) (stored s c) (stored s c').
Proof. exact extend_bound_lists. Qed.
Print Assumptions C62_extending_lists_at_most_quadruples.

(** A fallible extension asks for what is needed: a buffer has the memory it had or
    what is in it and the [e] elements the allocator may add. *)
Theorem C62_fallible_extensions_ask_for_what_is_needed :
  forall s, widths_pos s -> no_lists s -> forall c, lived s c ->
  forall R (it : iter (cA (coll s)) R) e w c' r w', good s it -> modest e w ->
  k_try_extend (coll s) c it w = (c', r, ODone, w') ->
  Forall2 (bounded (granted e)) (stored s c) (stored s c').
Proof. exact try_extend_bound. Qed.
Print Assumptions C62_fallible_extensions_ask_for_what_is_needed.

Theorem C62_fallible_extensions_of_lists_ask_for_what_is_needed :
  forall s, widths_pos s -> forall c, calm s c -> inner_flush s c ->
  forall R (it : iter (cA (coll s)) R) e w c' r w', good s it -> modest e w ->
  k_try_extend (coll s) c it w = (c', r, ODone, w') ->
  Forall2 (bounded (granted e)) (stored s c) (stored s c').
Proof. exact try_extend_bound_lists. Qed.
Print Assumptions C62_fallible_extensions_of_lists_ask_for_what_is_needed.

(** Reserving asks for the announced items beyond those there are. *)
Theorem C62_reserving_at_most_doubles :
  forall s, widths_pos s -> forall c n c', lived s c ->
  k_reserve (coll s) c n = (c', ODone) ->
  Forall2 (bounded_for (multiple 2) n) (stored s c) (stored s c').
Proof. exact reserve_bound. Qed.
Print Assumptions C62_reserving_at_most_doubles.

Theorem C62_fallible_reservations_ask_for_what_is_announced :
  forall s, widths_pos s -> forall c n e w c' w', lived s c -> modest e w ->
  k_try_reserve (coll s) c n w = (c', ODone, w') ->
  Forall2 (bounded_for (granted e) n) (stored s c) (stored s c').
Proof. exact try_reserve_bound. Qed.
Print Assumptions C62_fallible_reservations_ask_for_what_is_announced.

(** A collection created with a capacity has memory for exactly that many items, and
    the first offset of a list. *)
Theorem C62_capacity_is_exact :
  forall s n c, k_with_capacity (coll s) n = BOk c ->
  Forall (fun b => b_cap b = b_used b + b_takes b n)%N (stored s c).
Proof. exact with_capacity_exact. Qed.
Print Assumptions C62_capacity_is_exact.

Theorem C62_fallible_capacity_is_close :
  forall s e n w c w', modest e w -> k_try_with_capacity (coll s) n w = (BOk c, w') ->
  modest e w' /\
  Forall (fun b => b_used b + b_takes b n <= b_cap b <= b_used b + b_takes b n + e)%N (stored s c).
Proof. exact try_with_capacity_close. Qed.
Print Assumptions C62_fallible_capacity_is_close.

(** Collecting an iterator that knows how many items come. *)
Theorem C62_collecting_asks_for_what_is_needed :
  forall s, widths_pos s -> no_lists s ->
  forall R (it : iter (cA (coll s)) R) e w c r w', modest e w ->
  good s it -> exact it -> fused it -> (lenN (items_of it) * unit_cost s <= usize_max)%N ->
  k_try_from_iter (coll s) it w = (BOk c, r, w') ->
  Forall (fun b => b_cap b <= b_used b + e)%N (stored s c).
Proof. exact collect_close. Qed.
Print Assumptions C62_collecting_asks_for_what_is_needed.

Theorem C62_infallible_collecting_at_most_doubles :
  forall s, widths_pos s -> no_lists s ->
  forall R (it : iter (cA (coll s)) R) c r,
  good s it -> exact it -> ended it -> (lenN (items_of it) * unit_cost s <= usize_max)%N ->
  k_from_iter (coll s) it = (BOk c, r) \/ k_from_iter_in (coll s) it = (BOk c, r) ->
  Forall (fun b => b_cap b <= multiple 2 (b_size b) (b_used b))%N (stored s c).
Proof. exact collect_bound. Qed.
Print Assumptions C62_infallible_collecting_at_most_doubles.

(** Collecting lists starts with memory for as many elements as lists are announced. *)
Theorem C62_collecting_lists_asks_for_what_is_needed :
  forall k s, widths_pos s ->
  forall R (it : iter (cA (coll (SList k s))) R) e w c r w', modest e w ->
  good (SList k s) it -> k_try_from_iter (coll (SList k s)) it w = (BOk c, r, w') ->
  Forall (fun b => b_cap b <= N.max (b_used b) (1 + b_takes b (announced (it_hint it))) + e)%N
    (stored (SList k s) c).
Proof. exact collect_lists_close. Qed.
Print Assumptions C62_collecting_lists_asks_for_what_is_needed.

Theorem C62_infallible_collecting_of_lists_at_most_quadruples :
  forall k s, widths_pos s -> no_lists s ->
  forall R (it : iter (cA (coll (SList k s))) R) c r, good (SList k s) it ->
  k_from_iter_in (coll (SList k s)) it = (BOk c, r) ->
  Forall (fun b => b_cap b <= N.max (multiple 4 (b_size b) (b_used b))
      (1 + b_takes b (announced (it_hint it))))%N
    (stored (SList k s) c).
Proof. exact collect_lists_bound. Qed.
Print Assumptions C62_infallible_collecting_of_lists_at_most_quadruples.

(** A clone has memory for what is in it. *)
Theorem C62_clones_are_exact :
  forall s c, clonable s = true ->
  Forall2 (fun x y => b_used y = b_used x /\ b_cap y = b_used y) (stored s c) (stored s (clone s c)).
Proof. exact clone_exact. Qed.
Print Assumptions C62_clones_are_exact.

(** Optional rows of three bits, torn (C54), extended by five rows and with room
    reserved for twenty or, fallibly, for twenty with up to five elements more. *)
Definition fill (s : shape) (c : cC (coll s)) : list (N * N) :=
  map (fun b => (b_cap b, b_used b)) (stored s c).
Example C62_case : exists c1 c2 c3 c4,
  widths_pos rows3 /\ no_lists rows3 /\ lived rows3 torn_rows3 /\ good rows3 (it_list five_rows) /\
  k_extend (coll rows3) torn_rows3 (it_list five_rows) = (c1, tt, ODone) /\
  modest 5 [Some 0; Some 2; Some 5]%N /\
  k_try_extend (coll rows3) torn_rows3 (it_list five_rows) [Some 0; Some 2; Some 5]%N =
    (c2, tt, ODone, [Some 5]%N) /\
  k_reserve (coll rows3) torn_rows3 200 = (c3, ODone) /\
  k_try_reserve (coll rows3) torn_rows3 200 [Some 0; Some 2; Some 5]%N = (c4, ODone, []) /\
  fill rows3 c1 <> fill rows3 torn_rows3 /\ fill rows3 c2 <> fill rows3 torn_rows3 /\
  fill rows3 c3 <> fill rows3 torn_rows3 /\ fill rows3 c4 <> fill rows3 torn_rows3.
Proof.
  assert (W : widths_pos rows3) by (split; [apply Nat.lt_0_succ|exact I]).
  assert (L : lived rows3 torn_rows3) by exact (lived_null_wrap (SFixed 3 SBits) _ torn_lived).
  do 4 eexists. split; [exact W|]. split; [exact I|]. split; [exact L|]. split; [exact five_rows_good|].
  split; [vm_compute; reflexivity|].
  split; [constructor; [vm_compute; discriminate|]; constructor; [vm_compute; discriminate|];
          constructor; [vm_compute; discriminate|constructor]|].
  split; [vm_compute; reflexivity|]. split; [vm_compute; reflexivity|].
  split; [vm_compute; reflexivity|]. split; [vm_compute; discriminate|].
  split; [vm_compute; discriminate|]. split; [vm_compute; discriminate|]. vm_compute. discriminate.
Qed.

(** Collecting them. *)
Example C62_collecting_case : exists c1 c2 c3,
  exact (it_list five_rows) /\ fused (it_list five_rows) /\ ended (it_list five_rows) /\
  (lenN (items_of (it_list five_rows)) * unit_cost rows3 <= usize_max)%N /\ modest 1 [Some 1; Some 0]%N /\
  k_try_from_iter (coll rows3) (it_list five_rows) [Some 1; Some 0]%N = (BOk c1, tt, []) /\
  k_from_iter (coll rows3) (it_list five_rows) = (BOk c2, tt) /\
  k_with_capacity (coll rows3) 30 = BOk c3 /\
  fill rows3 c1 = [(3, 2); (1, 1)]%N /\ fill rows3 c2 = [(8, 2); (1, 1)]%N /\
  fill rows3 c3 = [(12, 0); (4, 0)]%N.
Proof.
  do 3 eexists. split; [vm_compute; reflexivity|]. split; [vm_compute; constructor|].
  split; [vm_compute; reflexivity|].
  split; [vm_compute; discriminate|].
  split; [constructor; [vm_compute; discriminate|]; constructor; [vm_compute; discriminate|constructor]|].
  split; [vm_compute; reflexivity|]. split; [vm_compute; reflexivity|]. split; [vm_compute; reflexivity|].
  split; [vm_compute; reflexivity|]. split; vm_compute; reflexivity.
Qed.

(** Cloning the torn rows with room reserved. *)
Example C62_clone_case : exists c,
  clonable (SFixed 3 SBits) = true /\ k_reserve (coll (SFixed 3 SBits)) (va_coll torn_rows3) 200 = (c, ODone) /\
  fill (SFixed 3 SBits) c = [(76, 1)]%N /\ fill (SFixed 3 SBits) (clone (SFixed 3 SBits) c) = [(1, 1)]%N.
Proof. eexists. split; [reflexivity|]. split; [vm_compute; reflexivity|]. split; vm_compute; reflexivity. Qed.

(** Lists of optional numbers, and lists of lists of bytes. *)
Definition some_lists : shape := SList I32 (SNull (SVec U16)).
Definition three_lists : list (cA (coll some_lists)) :=
  [[Some 1%N; None; Some 3%N]; []; [Some 4%N; None; Some 6%N; Some 7%N; Some 8%N; Some 9%N]].
Definition deep_lists : shape := SList I32 (SList I32 (SVec U8)).
Definition two_deep : list (cA (coll deep_lists)) := [[[1; 2]; []; [3]]; [[4; 5; 6; 7]]]%N.
Lemma three_lists_good : good some_lists (it_list three_lists).
Proof.
  split; [reflexivity|]. split; [vm_compute; repeat split; discriminate|].
  repeat first [apply Forall_nil | apply Forall_cons | exact I].
Qed.
Lemma two_deep_good : good deep_lists (it_list two_deep).
Proof.
  split; [reflexivity|]. split; [vm_compute; repeat split; discriminate|].
  repeat first [apply Forall_nil | apply Forall_cons | exact I].
Qed.
Example C62_lists_case : exists c1 c2 c3 c4,
  widths_pos some_lists /\ flat_lists some_lists /\ calm some_lists (k_default (coll some_lists)) /\
  good some_lists (it_list three_lists) /\
  k_extend (coll some_lists) (k_default _) (it_list three_lists) = (c1, tt, ODone) /\
  k_from_iter_in (coll some_lists) (it_list three_lists) = (BOk c2, tt) /\
  widths_pos deep_lists /\ calm deep_lists (k_default (coll deep_lists)) /\
  inner_flush deep_lists (k_default (coll deep_lists)) /\ good deep_lists (it_list two_deep) /\
  modest 3 [] /\
  k_try_extend (coll deep_lists) (k_default _) (it_list two_deep) [] = (c3, tt, ODone, []) /\
  k_try_from_iter (coll deep_lists) (it_list two_deep) [] = (BOk c4, tt, []) /\
  fill some_lists c1 = [(9, 9); (8, 2); (4, 4)]%N /\
  fill some_lists c2 = [(9, 9); (8, 2); (4, 4)]%N /\
  fill deep_lists c3 = [(7, 7); (5, 5); (4, 3)]%N /\
  fill deep_lists c4 = [(7, 7); (5, 5); (3, 3)]%N.
Proof.
  do 4 eexists. split; [exact I|]. split; [exact I|]. split; [apply calm_default|].
  split; [exact three_lists_good|]. split; [vm_compute; reflexivity|]. split; [vm_compute; reflexivity|].
  split; [exact I|]. split; [apply calm_default|]. split; [split; [exact I|reflexivity]|].
  split; [exact two_deep_good|]. split; [constructor|]. split; [vm_compute; reflexivity|].
  split; [vm_compute; reflexivity|].
  split; [vm_compute; reflexivity|]. split; [vm_compute; reflexivity|]. split; vm_compute; reflexivity.
Qed.

(** No multiple bounds infallible extensions of lists of lists. Extending by one list
    of a hundred empty lists leaves memory for a hundred elements and has none. *)
Theorem C62_not_for_lists_of_lists :
  exists s c (it : iter (cA (coll s)) unit) c',
    widths_pos s /\ calm s c /\ inner_flush s c /\ good s it /\ k_extend (coll s) c it = (c', tt, ODone) /\
    forall factor, ~ Forall2 (bounded (multiple factor)) (stored s c) (stored s c').
Proof. exact extend_lists_of_lists. Qed.
Print Assumptions C62_not_for_lists_of_lists.
