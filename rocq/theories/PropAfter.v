(** * C57: after any panic the views, counts, parts and copies agree with the items read

    [s] ranges over all layouts; [lived] collections went through any operations,
    any of which may have panicked at any point. *)
From Coq Require Import List NArith ZArith Arith Bool.
From Verif Require Import Base Iter Spec SpecParts SpecTables SpecTaken VecModel BitmapModel CollModel ValidityModel
  FlattenModel OffsetsModel OffsetViewModel LayoutModel Reach SpecFixed SpecLived SpecLive SpecLaid
  StorageModel CopyModel FactsAfter PropBitmap PropFixed PropRepair PropLived PropBytes.
Import ListNotations.

(** Out of bounds: as in C22. *)
Theorem C57_outside :
  forall s, widths_pos s -> forall c xs i, lived s c -> reads s c xs ->
  (lenN xs <= i)%N -> (i <= usize_max)%N ->
  k_view (coll s) c i =
    match s with
    | SFixed _ _ => Pnc
    | SList _ _ => if (i <? usize_max)%N then Ret None else Pnc
    | _ => Ret None
    end.
Proof. exact after_outside. Qed.
Print Assumptions C57_outside.

(** Validity: as in C39. *)
Theorem C57_validity :
  forall s, widths_pos s -> forall v xs, lived (SNull s) v -> reads (SNull s) v xs ->
  let n := length xs in
  vb_null_count (va_bm v) = Ret (length (filter (fun o => negb (is_some o)) xs)) /\
  vb_valid_count n (va_bm v) = Ret (length (filter is_some xs)) /\
  vb_any_null (va_bm v) = Ret (existsb (fun o => negb (is_some o)) xs) /\
  vb_all_null n (va_bm v) = Ret (forallb (fun o => negb (is_some o)) xs) /\
  vb_any_valid n (va_bm v) = Ret (existsb is_some xs) /\
  vb_all_valid (va_bm v) = Ret (forallb is_some xs) /\
  (forall i, (i <= usize_max)%N ->
     vb_is_valid n (va_bm v) i =
       match va_view (coll s) v i with
       | Ret (Some (Some _)) => Ret (Some true)
       | Ret (Some None) => Ret (Some false)
       | Ret None => Ret None
       | Pnc => Pnc
       end /\
     vb_is_null n (va_bm v) i = omap (option_map negb) (vb_is_valid n (va_bm v) i)) /\
  (exists m, k_len (coll s) (va_coll v) = Ret m /\ n <= m).
Proof. exact after_null. Qed.
Print Assumptions C57_validity.

(** Parts: as in C14, C20 and C15. *)
Theorem C57_null_parts :
  forall s, widths_pos s -> forall c xs b bs,
  lived s c -> reads s c xs -> lived SBits b -> reads SBits b bs ->
  match va_try_from_parts (coll s) c b with
  | Ret (inl v) => length xs = length bs /\ va_into_parts (coll s) v = (c, Some b) /\
      reads (SNull s) v
        (map (fun p : cA (coll s) * bool => if snd p then Some (fst p) else None) (combine xs bs))
  | Ret (inr (n, m)) => length xs <> length bs /\ n = length xs /\ m = length bs
  | Pnc => False
  end.
Proof. exact after_null_parts. Qed.
Print Assumptions C57_null_parts.

Theorem C57_fixed_parts :
  forall s, widths_pos s -> forall n c xs, lived s c -> reads s c xs ->
  match fl_try_from_parts (coll s) n c with
  | Ret (inl c') => 0 < n /\ Nat.divide n (length xs) /\ c' = c /\
      exists rows, reads (SFixed n s) c' rows /\ n * length rows = length xs /\
        forall i x, nth_error rows i = Some x -> x = firstn n (skipn (n * i) xs)
  | Ret (inr ZeroChunkSize) => n = 0
  | Ret (inr (NotMultiple len m)) => 0 < n /\ len = length xs /\ m = n /\
      ~ Nat.divide n (length xs)
  | Pnc => False
  end.
Proof. exact after_fixed_parts. Qed.
Print Assumptions C57_fixed_parts.

Theorem C57_list_parts :
  forall s data xs offs, lived s data -> reads s data xs ->
  match of_try_from_parts (coll s) data offs with
  | Ret (inl o) => offsets_ok (v_items offs) (length xs) /\ of_into_parts (coll s) o = (data, offs)
  | Ret (inr e) => offsets_fault (v_items offs) (length xs) e
  | Pnc => False
  end.
Proof. exact after_list_parts. Qed.
Print Assumptions C57_list_parts.

(** Lists: the offsets stay valid, as in C18, and row [i] is the slice of the
    child's items between two of them. *)
Theorem C57_list_rows :
  forall s, widths_pos s -> forall k o ls, lived (SList k s) o -> reads (SList k s) o ls ->
  exists xs, reads s (of_data o) xs /\ offsets_ok (v_items (of_offs o)) (length xs) /\
    (forall i z, nth_error (v_items (of_offs o)) i = Some z -> (0 <= z <= offset_max k)%Z) /\
    S (length ls) = length (v_items (of_offs o)) /\
    forall i a b, nth_error (v_items (of_offs o)) i = Some a ->
      nth_error (v_items (of_offs o)) (S i) = Some b ->
      nth_error ls i = Some (firstn (Z.to_nat b - Z.to_nat a) (skipn (Z.to_nat a) xs)).
Proof. exact after_list_rows. Qed.
Print Assumptions C57_list_rows.

(** Views of rows: as in C31. *)
Theorem C57_list_views :
  forall s, widths_pos s -> forall k o ls i l v, lived (SList k s) o -> reads (SList k s) o ls ->
  nth_error ls i = Some l -> of_view (coll s) o (N.of_nat i) = Ret (Some v) ->
  (exists a b, nth_error (v_items (of_offs o)) i = Some a /\
     nth_error (v_items (of_offs o)) (S i) = Some b /\ Z.of_nat (length l) = (b - a)%Z) /\
  ov_len (coll s) v = Ret (lenN l) /\ ov_own (coll s) v = Ret l /\
  (forall j x, nth_error l j = Some x ->
     exists u, ov_view (coll s) v (N.of_nat j) = Ret (Some u) /\ k_own (coll s) u = Ret x) /\
  (forall j, (lenN l <= j)%N ->
     ov_view (coll s) v j = if (ov_start v + j <=? usize_max)%N then Ret None else Pnc) /\
  (exists it, ov_iter (coll s) v = Ret it /\ yields (ov_inext (coll s)) ix_hint (k_own (coll s)) it l) /\
  (exists it, ov_into (coll s) v = Ret it /\ yields (ov_onext (coll s)) ix_hint Ret it l).
Proof. exact after_list_views. Qed.
Print Assumptions C57_list_views.

Theorem C57_list_equality :
  forall s, widths_pos s -> forall k o ls i l v s2 (veq : cV (coll s) -> cV (coll s2) -> out bool)
    (eqb : cA (coll s) -> cA (coll s2) -> bool) c m,
  lived (SList k s) o -> reads (SList k s) o ls ->
  nth_error ls i = Some l -> of_view (coll s) o (N.of_nat i) = Ret (Some v) ->
  (forall x y a b, k_own (coll s) x = Ret a -> k_own (coll s2) y = Ret b -> veq x y = Ret (eqb a b)) ->
  reads s2 c m ->
  exists r, ov_eq (coll s) (coll s2) veq v c = Ret r /\
    (r = true <-> length l = length m /\
     forall i a b, nth_error l i = Some a -> nth_error m i = Some b -> eqb a b = true).
Proof. exact after_list_eq. Qed.
Print Assumptions C57_list_equality.

(** Copying repairs: a copy has the buffers that the format prescribes for the
    items that are read, as in C52, and is [built]. Reading by reference makes
    one whenever there is room; by value it may panic instead. *)
Theorem C57_copy : forall s, widths_pos s -> forall in_ (v : reading s) c xs, reads s c xs ->
  match copy s v in_ c with
  | BOk c' => laid s c' xs /\ built s c' /\ shows (coll s) c' xs
  | BErr => False
  | _ => True
  end /\
  ((total (cost s) xs <= limit s)%N -> exists c', copy s ByViews in_ c = BOk c').
Proof. exact after_copy. Qed.
Print Assumptions C57_copy.

Theorem C57_try_copy : forall s, widths_pos s -> forall (v : reading s) c xs w, reads s c xs ->
  match fst (try_copy s v c w) with
  | BOk c' => laid s c' xs /\ built s c' /\ shows (coll s) c' xs
  | BErr => True
  | BPanic => v <> ByViews
  | BAbort => False
  end /\
  (grants w -> (total (cost s) xs <= limit s)%N -> exists c', fst (try_copy s ByViews c w) = BOk c').
Proof. exact after_try_copy. Qed.
Print Assumptions C57_try_copy.

(** Success still means that everything up to the first [None] was taken, as in C45. *)
Theorem C57_extend_exhausts : forall s, widths_pos s ->
  forall R c (it : iter (cA (coll s)) R) c' r, lived s c -> Forall (item_ok s) (items_of it) ->
  k_extend (coll s) c it = (c', r, ODone) -> r = end_of it.
Proof. exact after_extend_ends. Qed.
Print Assumptions C57_extend_exhausts.

Theorem C57_try_extend_exhausts : forall s, widths_pos s ->
  forall R c (it : iter (cA (coll s)) R) w c' r w', lived s c -> Forall (item_ok s) (items_of it) ->
  k_try_extend (coll s) c it w = (c', r, ODone, w') -> r = end_of it.
Proof. exact after_try_extend_ends. Qed.
Print Assumptions C57_try_extend_exhausts.

(** The nested list of C55 and the torn rows of C54. The copy by reference drops
    the two bits of the third row; the copy by value panics. *)
Example C57_case : exists v c',
  lived nested_shape nested /\
  of_view (coll (SNull (SFixed 3 SBits))) nested 0 = Ret (Some v) /\
  ov_len (coll (SNull (SFixed 3 SBits))) v = Ret 2%N /\
  ov_own (coll (SNull (SFixed 3 SBits))) v = Ret [Some [true; true; false]; Some [true; false; true]] /\
  k_view (coll nested_shape) nested 1 = Ret None /\
  k_view (coll (SFixed 3 SBits)) torn 2 = Pnc /\
  vb_null_count (va_bm (of_data nested)) = Ret 0 /\
  vb_null_count (va_bm (of_data nested')) = Ret 1 /\
  vb_is_valid 4 (va_bm (of_data nested')) 3 = Ret (Some false) /\
  fl_try_from_parts (coll SBits) 3 torn = Ret (inr (NotMultiple 8 3)) /\
  bytes_and_bits torn = ([235]%N, 8, 0) /\
  copy (SFixed 3 SBits) ByViews false torn = BOk c' /\ bytes_and_bits c' = ([43]%N, 6, 0) /\
  copy (SFixed 3 SBits) (ByValue (all_shared _)) false torn = BPanic /\
  (total (cost (SFixed 3 SBits)) [[true; true; false]; [true; false; true]] <= limit (SFixed 3 SBits))%N.
Proof.
  eexists. eexists. split; [exact nested_lived|].
  split; [vm_compute; reflexivity|]. split; [vm_compute; reflexivity|].
  split; [vm_compute; reflexivity|]. split; [vm_compute; reflexivity|].
  split; [vm_compute; reflexivity|]. split; [vm_compute; reflexivity|].
  split; [vm_compute; reflexivity|]. split; [vm_compute; reflexivity|].
  split; [vm_compute; reflexivity|]. split; [vm_compute; reflexivity|].
  split; [vm_compute; reflexivity|]. split; [vm_compute; reflexivity|].
  split; [vm_compute; reflexivity|]. vm_compute; discriminate.
Qed.

(** ** The claims that need rows that are not torn

    C09, C11, C13, C17, C19, C21 and C25 are about [built] collections. They fail
    for the rows that a panic tore (C23): consuming panics where [None] is due,
    and an extension that succeeds puts other rows in place of those pushed. *)
Definition torn_shape : shape := SFixed 3 SBits.
Definition row : list bool := [false; true; false].
Definition shifted_row : list bool := [true; true; false].
Lemma torn_lived : lived torn_shape torn.
Proof.
  exact (lived_null_coll torn_shape (va_from_collection (coll torn_shape) torn)
           (lived_list_data I32 (SNull torn_shape) nested nested_lived)).
Qed.
Definition torn_null : cC (coll (SNull torn_shape)) := va_from_collection (coll torn_shape) torn.
Lemma torn_null_lived : lived (SNull torn_shape) torn_null.
Proof. apply lived_null_wrap, torn_lived. Qed.

Theorem C09_not_for_torn_rows : lived torn_shape torn /\ k_len (coll torn_shape) torn = Ret 2 /\
  exists s0 s1 s2 x y, k_into (coll torn_shape) torn = Ret s0 /\
    k_onext (coll torn_shape) s0 = Ret (Some x, s1) /\ k_onext (coll torn_shape) s1 = Ret (Some y, s2) /\
    k_onext (coll torn_shape) s2 = Pnc.
Proof.
  split; [exact torn_lived|]. split; [vm_compute; reflexivity|].
  do 5 eexists. split; [vm_compute; reflexivity|]. split; [vm_compute; reflexivity|].
  split; vm_compute; reflexivity.
Qed.
Print Assumptions C09_not_for_torn_rows.

Theorem C11_not_for_torn_rows : lived (SNull torn_shape) torn_null /\
  exists v', va_extend (coll torn_shape) torn_null (it_list [Some row]) = (v', tt, ODone) /\
    k_owned (coll (SNull torn_shape)) v' 2 = Ret (Some (Some shifted_row)) /\ shifted_row <> row.
Proof.
  split; [exact torn_null_lived|]. eexists. split; [vm_compute; reflexivity|].
  split; [vm_compute; reflexivity|discriminate].
Qed.
Print Assumptions C11_not_for_torn_rows.

Theorem C13_not_for_torn_rows : lived (SNull torn_shape) torn_null /\
  exists v' w', va_try_extend (coll torn_shape) torn_null (it_list [Some row]) [] = (v', tt, ODone, w') /\
    k_owned (coll (SNull torn_shape)) v' 2 = Ret (Some (Some shifted_row)) /\ shifted_row <> row.
Proof.
  split; [exact torn_null_lived|]. do 2 eexists. split; [vm_compute; reflexivity|].
  split; [vm_compute; reflexivity|discriminate].
Qed.
Print Assumptions C13_not_for_torn_rows.

Theorem C17_not_for_torn_rows : lived nested_shape nested /\
  exists o', of_extend (coll (SNull torn_shape)) I32 nested (it_list [[Some row]]) = (o', tt, ODone) /\
    k_owned (coll nested_shape) o' 1 = Ret (Some [Some shifted_row]) /\ shifted_row <> row.
Proof.
  split; [exact nested_lived|]. eexists. split; [vm_compute; reflexivity|].
  split; [vm_compute; reflexivity|discriminate].
Qed.
Print Assumptions C17_not_for_torn_rows.

Theorem C19_not_for_torn_rows : lived nested_shape nested /\
  exists o' w', of_try_extend (coll (SNull torn_shape)) I32 nested (it_list [[Some row]]) [] =
    (o', tt, ODone, w') /\
    k_owned (coll nested_shape) o' 1 = Ret (Some [Some shifted_row]) /\ shifted_row <> row.
Proof.
  split; [exact nested_lived|]. do 2 eexists. split; [vm_compute; reflexivity|].
  split; [vm_compute; reflexivity|discriminate].
Qed.
Print Assumptions C19_not_for_torn_rows.

Theorem C21_not_for_torn_rows : lived torn_shape torn /\
  exists c', k_extend (coll torn_shape) torn (it_list [row]) = (c', tt, ODone) /\
    k_owned (coll torn_shape) c' 2 = Ret (Some shifted_row) /\ shifted_row <> row.
Proof.
  split; [exact torn_lived|]. eexists. split; [vm_compute; reflexivity|].
  split; [vm_compute; reflexivity|discriminate].
Qed.
Print Assumptions C21_not_for_torn_rows.

Theorem C25_not_for_torn_rows : lived (shape_of (TFsl 3 (TBool false) false)) torn /\
  exists c' w', k_try_extend (layout (TFsl 3 (TBool false) false)) torn (it_list [row]) [] =
    (c', tt, ODone, w') /\
    k_owned (layout (TFsl 3 (TBool false) false)) c' 2 = Ret (Some shifted_row) /\ shifted_row <> row.
Proof.
  split; [exact torn_lived|]. do 2 eexists. split; [vm_compute; reflexivity|].
  split; [vm_compute; reflexivity|discriminate].
Qed.
Print Assumptions C25_not_for_torn_rows.
