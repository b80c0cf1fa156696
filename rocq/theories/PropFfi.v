(** * The Arrow C Data Interface: C33-C36

    [export mem t c] is the array and schema that export returns for the array
    [c] of item type [t] when its buffers are at the addresses [mem]. [holds t a
    i x]: by the Arrow layouts, item [i] of the C array [a] is [x]. [readable t a
    s]: all non-null pointers are valid. [describes t a s]: the pair is a
    consistent description of an array of type [t]. *)
From Coq Require Import List NArith ZArith Bool Arith.
From Verif Require Import Base Iter Spec SpecParts VecModel BitmapModel CollModel ValidityModel FlattenModel
  OffsetsModel LayoutModel Reach Calm FfiModel SpecFfi CoreLemmas FactsFfi PropBitmap PropArray PropParts.
Import ListNotations.

(** Vec<Option<[Option<u16>; 2]>> *)
Definition mixed : ty := TVsl I64 (TFsl 2 (TPrim U16 true) true) false.
Definition mixed_items : list (cA (layout mixed)) :=
  [[Some [Some 513%N; None]; None]; []; [Some [Some 65535%N; Some 7%N]]].
Definition mixed_array : cC (layout mixed) := Eval vm_compute in
  match fst (k_from_iter (layout mixed) (it_list mixed_items)) with
  | BOk c => c
  | _ => k_default (layout mixed)
  end.
Definition at_64 (b : block) : N := 64%N.
Lemma mixed_ok : widths_pos (shape_of mixed) /\ arrow_type mixed /\
  calm (shape_of mixed) mixed_array /\ (held (shape_of mixed) mixed_array < 2 ^ 63)%N /\
  typed (shape_of mixed) mixed_array /\ aligned at_64 0 mixed /\
  Forall (fun o => o = 0) (bit_offsets (shape_of mixed) mixed_array) /\
  shows (layout mixed) mixed_array mixed_items.
Proof.
  assert (Hw : widths_pos (shape_of mixed)) by exact (conj (Nat.lt_0_succ 1) I).
  assert (Hi : Forall (item_ok (shape_of mixed)) mixed_items) by repeat constructor.
  assert (Hc : calm (shape_of mixed) mixed_array).
  { apply (calm_collect (shape_of mixed) unit (it_list mixed_items) mixed_array tt);
      [left; reflexivity|exact Hi|left; vm_compute; reflexivity]. }
  split; [exact Hw|]. split; [split; vm_compute; discriminate|].
  split; [exact Hc|]. split; [vm_compute; reflexivity|].
  assert (F : forall n l, forallb (fun x => x <? n)%N l = true -> Forall (fun x => x < n)%N l).
  { intros n l H. apply Forall_forall. intros x Hx. rewrite forallb_forall in H.
    apply N.ltb_lt. auto. }
  split; [split; [apply F; vm_compute; reflexivity|]; split; apply F; vm_compute; reflexivity|].
  split; [split; vm_compute; reflexivity|].
  split; [vm_compute; repeat constructor|].
  apply (shows_check (shape_of mixed) Hw); [exact (C32_calm_is_built _ _ Hc)| |];
    vm_compute; reflexivity.
Qed.

(** ** C33 *)

(** Missing for the full statement: arrays after an extension in which not the
    iterator but the offsets of a list panicked; then it is false (below).
    [typed] is a fact of Rust's types, [aligned] one of the allocator; at most
    2^63 elements altogether. *)
Theorem C33_round_trip_partial :
  forall mem t c xs, widths_pos (shape_of t) -> arrow_type t ->
  calm (shape_of t) c -> (held (shape_of t) c < 2 ^ 63)%N -> typed (shape_of t) c ->
  aligned mem 0 t -> Forall (fun o => o = 0) (bit_offsets (shape_of t) c) ->
  shows (layout t) c xs ->
  exists a s c', export mem t c = XOk (a, s) /\ import t a s = IOk c' /\ shows (layout t) c' xs.
Proof. exact round_trip. Qed.
Print Assumptions C33_round_trip_partial.

Example C33_case : exists a s c', export at_64 mixed mixed_array = XOk (a, s) /\
  import mixed a s = IOk c' /\ k_len (layout mixed) c' = Ret 3 /\
  k_owned (layout mixed) c' 2 = Ret (Some [Some [Some 65535%N; Some 7%N]]) /\
  k_owned (layout mixed) c' 0 = Ret (Some [Some [Some 513%N; None]; None]).
Proof.
  do 3 eexists. split; [vm_compute; reflexivity|]. split; [vm_compute; reflexivity|].
  split; [vm_compute; reflexivity|]. split; vm_compute; reflexivity.
Qed.
Example C33_hypotheses : widths_pos (shape_of mixed) /\ arrow_type mixed /\
  calm (shape_of mixed) mixed_array /\ (held (shape_of mixed) mixed_array < 2 ^ 63)%N /\
  typed (shape_of mixed) mixed_array /\ aligned at_64 0 mixed /\
  Forall (fun o => o = 0) (bit_offsets (shape_of mixed) mixed_array) /\
  shows (layout mixed) mixed_array mixed_items.
Proof. exact mixed_ok. Qed.

(** The full statement is false: a list of 2^31 bytes does not fit 32-bit
    offsets, the extension of a nullable array of fixed-size lists panics, and
    the array that is left can not be imported. No iterator panics. *)
Theorem C33_round_trip_refuted :
  exists huge : list N, fin_of (it_list [Some [[]]; Some [huge]]) = FStop /\
  exists v : cC (layout lists1),
    k_extend (layout lists1) (k_default (layout lists1)) (it_list [Some [[]]; Some [huge]])
      = (v, tt, OPanic) /\
    built (shape_of lists1) v /\ shows (layout lists1) v [] /\
    bit_offsets (shape_of lists1) v = [0] /\ typed (shape_of lists1) v /\
    forall mem, exists a s e, export mem lists1 v = XOk (a, s) /\ import lists1 a s = IErr e.
Proof.
  exists (repeat 0%N (N.to_nat 2147483648)). split; [reflexivity|]. apply fixed_overflow.
  unfold lenN. rewrite repeat_length. apply N2Nat.id.
Qed.
Print Assumptions C33_round_trip_refuted.

(** The same after a panicking iterator. *)
Definition pairs : ty := TFsl 2 (TPrim U8 false) true.
Theorem C33_panicked_array_not_importable :
  exists v, k_extend (layout pairs) (k_default (layout pairs)) (panicking [Some [7%N; 8%N]])
      = (v, tt, OPanic) /\ built (shape_of pairs) v /\
    exists a s, export at_64 pairs v = XOk (a, s) /\
      import pairs a s = IErr (FixedSizeListLengthMismatch 0 2 2).
Proof.
  eexists. split; [vm_compute; reflexivity|]. split.
  - apply (built_step (shape_of pairs) (k_default (layout pairs))
      (OpExtend (panicking [Some [7%N; 8%N]])) _ OPanic);
      [apply built_default|repeat constructor|vm_compute; reflexivity|discriminate|].
    intros _. right. split; [reflexivity|]. split; [vm_compute; discriminate|].
    split; [vm_compute; discriminate|exact I].
  - do 2 eexists. split; [vm_compute; reflexivity|]. vm_compute; reflexivity.
Qed.
Print Assumptions C33_panicked_array_not_importable.

(** ** C34 *)

(** At most 2^63 elements altogether; beyond, the length does not fit i64. *)
Theorem C34_export_rejects_offsets :
  forall mem t c, widths_pos (shape_of t) -> built (shape_of t) c ->
  (held (shape_of t) c < 2 ^ 63)%N ->
  match export mem t c with
  | XOk (a, s) => Forall (fun o => o = 0) (bit_offsets (shape_of t) c) /\
      a_live a = true /\ s_live s = true
  | XErr o => first_nonzero (bit_offsets (shape_of t) c) = Some (N.to_nat o)
  | XPnc => False
  end.
Proof. exact export_rejects_iff. Qed.
Print Assumptions C34_export_rejects_offsets.

Theorem C34_exported_items :
  forall mem t c xs a s, widths_pos (shape_of t) -> built (shape_of t) c ->
  (held (shape_of t) c < 2 ^ 63)%N -> shows (layout t) c xs -> typed (shape_of t) c ->
  export mem t c = XOk (a, s) ->
  a_length a = Z.of_nat (length xs) /\ a_null_count a = Z.of_nat (null_items t xs) /\
  readable t a s /\ forall i x, nth_error xs i = Some x -> holds t a i x.
Proof. exact export_items. Qed.
Print Assumptions C34_exported_items.

(** The pair as a whole, children included; not after a panicking extension
    ([C33_panicked_array_not_importable]). *)
Theorem C34_exported_pair_describes :
  forall mem t c a s, widths_pos (shape_of t) -> arrow_type t ->
  calm (shape_of t) c -> (held (shape_of t) c < 2 ^ 63)%N -> typed (shape_of t) c ->
  aligned mem 0 t -> export mem t c = XOk (a, s) -> describes t a s.
Proof. exact export_describes. Qed.
Print Assumptions C34_exported_pair_describes.

(** At most one item is held at each position, so [holds] determines the items. *)
Theorem C34_items_determined :
  forall t a i x y, holds t a i x -> holds t a i y -> x = y.
Proof. exact holds_unique. Qed.
Print Assumptions C34_items_determined.

(** A bitmap of the values, two levels down, with bit offset 3. *)
Definition shifted : cC (layout (TVsl I32 (TBool false) false)) :=
  Offsets (Bitmap (Vec [184]%N 1) 5 3) (Vec [0; 2; 5]%Z 3).
Example C34_case : exists a s, export at_64 mixed mixed_array = XOk (a, s) /\
  a_length a = 3%Z /\ a_n_children a = 1%Z /\ buffer a 0 = None /\
  option_map cb_data (buffer a 1) =
    Some [0; 0; 0; 0; 0; 0; 0; 0; 2; 0; 0; 0; 0; 0; 0; 0;
          2; 0; 0; 0; 0; 0; 0; 0; 3; 0; 0; 0; 0; 0; 0; 0]%N /\
  option_map a_null_count (child a) = Some 1%Z /\
  export at_64 (TVsl I32 (TBool false) false) shifted = XErr 3.
Proof.
  do 2 eexists. split; [vm_compute; reflexivity|]. repeat split; vm_compute; reflexivity.
Qed.

(** ** C35 *)

Theorem C35_import_never_panics :
  forall t a s, arrow_type t -> readable t a s ->
  (exists c, import t a s = IOk c) \/ (exists e, import t a s = IErr e).
Proof. exact import_total. Qed.
Print Assumptions C35_import_never_panics.

Theorem C35_import_accepts_exactly :
  forall t a s, arrow_type t -> readable t a s ->
  ((exists c, import t a s = IOk c) <-> describes t a s).
Proof. exact import_accepts. Qed.
Print Assumptions C35_import_accepts_exactly.

Theorem C35_imported_items :
  forall t a s c, arrow_type t -> readable t a s -> import t a s = IOk c ->
  widths_pos (shape_of t) /\ calm (shape_of t) c /\
  exists xs, shows (layout t) c xs /\ Z.of_nat (length xs) = a_length a /\
    forall i x, nth_error xs i = Some x -> holds t a i x.
Proof. exact import_contents. Qed.
Print Assumptions C35_imported_items.

(** Arrays of another producer: Vec<Option<i16>> with spare bytes everywhere, an
    unknown and a wrong null count, decreasing offsets. *)
Definition foreign : ty := TVsl I32 (TPrim S16 true) false.
Definition foreign_schema : cschema :=
  CSchema (Some [43; 108]%N) 5 1
    (Some [Some (CSchema (Some [115]%N) 2 0 None None true); None]) None true.
Definition foreign_array (nulls : Z) (last : N) : carray :=
  CArray 2 (-1) 0 2 1
    (Some [None; Some (CBuf 12 [0; 0; 0; 0; 1; 0; 0; 0; last; 0; 0; 0; 99]%N)])
    (Some [Some (CArray 3 nulls 0 2 0
      (Some [Some (CBuf 1 [253; 77]%N); Some (CBuf 6 [255; 255; 1; 0; 2; 1; 9]%N)]) None None true)])
    None true.
Example C35_case : arrow_type foreign /\
  (forall nulls last, (last < 256)%N -> readable foreign (foreign_array nulls last) foreign_schema) /\
  (exists c, import foreign (foreign_array (-1) 3) foreign_schema = IOk c /\
     k_owned (layout foreign) c 0 = Ret (Some [Some 65535%N]) /\
     k_owned (layout foreign) c 1 = Ret (Some [None; Some 258%N])) /\
  import foreign (foreign_array 2 3) foreign_schema = IErr (NullCountMismatch 2 1) /\
  import foreign (foreign_array 1 0) foreign_schema = IErr (InvalidOffsets (OffNonMonotonic 2)).
Proof.
  split; [vm_compute; discriminate|]. split; [|split; [|split; vm_compute; reflexivity]].
  - intros nulls lst Hl.
    assert (M : forall a i, match buffer a i with
        | Some b => bytes (cb_data b) /\ (lenN (cb_data b) <= alloc_max)%N | None => True end ->
      in_memory a i) by (intros a i H b E; rewrite E in H; exact H).
    assert (B : forall a i n, match buffer a i with
        | Some b => (n <= Z.of_nat (length (cb_data b)))%Z | None => True end ->
      holds_bytes a i n) by (intros a i n H b E; rewrite E in H; exact H).
    assert (T : forall A n (o : option (list A)), match o with
        | Some l => (n <= Z.of_nat (length l))%Z | None => True end ->
      forall l, o = Some l -> (n <= Z.of_nat (length l))%Z) by (intros A n o H l ->; exact H).
    assert (L : forall l : list N, (lenN l <= 100)%N -> (lenN l <= alloc_max)%N).
    { intros l H. refine (N.le_trans _ _ _ H _). vm_compute. discriminate. }
    split; [apply T; vm_compute; discriminate|]. split; [apply T; vm_compute; discriminate|].
    split; [apply T; vm_compute; discriminate|]. split; [apply M; exact I|].
    split; [apply M; split; [repeat constructor; exact Hl|apply L; vm_compute; discriminate]|].
    split; [intros _; split; [discriminate|apply B; vm_compute; discriminate]|].
    intros ca cs [= <-] [= <-].
    split; [apply T; vm_compute; discriminate|]. split; [apply T; exact I|].
    split; [apply T; exact I|].
    split; [apply M; split; [repeat constructor|apply L; vm_compute; discriminate]|].
    split; [apply M; split; [repeat constructor|apply L; vm_compute; discriminate]|].
    split; [intros _; split; [intros _|]; apply B; vm_compute; discriminate|]. exact I.
  - eexists. split; [vm_compute; reflexivity|]. split; vm_compute; reflexivity.
Qed.

(** ** C36 *)

Theorem C36_own_format_accepted :
  forall n, (n <= usize_max)%N -> fixed_matches n ([43; 119; 58]%N ++ decimal n) = true.
Proof. exact own_format. Qed.
Print Assumptions C36_own_format_accepted.

Theorem C36_no_other_width :
  forall n m, (n <= usize_max)%N -> (m <= usize_max)%N ->
  fixed_matches m ([43; 119; 58]%N ++ decimal n) = true -> m = n.
Proof. exact other_width. Qed.
Print Assumptions C36_no_other_width.

Theorem C36_accepted_strings :
  forall n f, (n <= usize_max)%N ->
  (fixed_matches n f = true <->
   exists digits, f = [43; 119; 58]%N ++ digits /\ digits <> [] /\ Forall is_digit digits /\
     decimal_value digits = n).
Proof. exact accepted_strings. Qed.
Print Assumptions C36_accepted_strings.

Example C36_case : decimal 18446744073709551615 =
    [49; 56; 52; 52; 54; 55; 52; 52; 48; 55; 51; 55; 48; 57; 53; 53; 49; 54; 49; 53]%N /\
  fixed_matches 12 [43; 119; 58; 48; 49; 50]%N = true /\
  (* 2^64 + 12 *)
  fixed_matches 12 ([43; 119; 58]%N ++ [49; 56; 52; 52; 54; 55; 52; 52; 48; 55; 51; 55; 48; 57; 53; 53; 49; 54; 50; 56]%N) = false /\
  fixed_matches 12 [43; 119; 58; 49; 50; 32]%N = false /\ fixed_matches 0 [43; 119; 58]%N = false.
Proof. repeat split; vm_compute; reflexivity. Qed.
