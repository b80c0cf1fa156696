(** * Imported arrays as borrowed memory: narrow-ffi/src/import

    The functions of FfiModel.v once more, with what they make of a pointer: a slice,
    that is an address and a number of elements. Contents are read from the memory
    [m] when they are needed. Of a [cbuffer] only the address and the number of bytes
    are used here. Reading a slice that is outside of the buffer is [IUb]. *)
From Coq Require Import List NArith ZArith Bool Arith.
From Verif Require Import Base Iter VecModel BitmapModel CollModel ValidityModel FlattenModel
  OffsetsModel LayoutModel FfiModel.
Import ListNotations.

(** The byte at every address *)
Definition memory : Type := N -> N.
Definition bytes_at (m : memory) (addr : N) (n : nat) : list N :=
  map (fun i => m (addr + N.of_nat i)%N) (seq 0 n).

(** [&[T]]: address, number of elements, size of an element *)
Record span : Type := Span { sp_addr : N; sp_count : N; sp_size : N }.
(** [slice::from_raw_parts(pointer, n)] for elements of [w] bytes *)
Definition raw_parts (b : cbuffer) (n w : N) : ires span :=
  if (n * w <=? lenN (cb_data b))%N then IOk (Span (cb_addr b) n w) else IUb.
(** What a slice shows; [None] is the slice [&[]]. *)
Definition load (m : memory) (sp : span) : list N :=
  words (N.to_nat (sp_size sp)) (N.to_nat (sp_count sp))
    (bytes_at m (sp_addr sp) (N.to_nat (sp_count sp * sp_size sp))).
Definition load_opt (m : memory) (sp : option span) : list N :=
  match sp with Some sp => load m sp | None => [] end.

(** A bitmap over a slice of bytes, with bit offset 0 *)
Record lent_bits : Type := LBits { lb_bytes : option span; lb_bits : N }.
Definition deref_bits (m : memory) (b : lent_bits) : bitmap :=
  Bitmap (slice (load_opt m (lb_bytes b))) (N.to_nat (lb_bits b)) 0.
(** An imported array: per level its validity, if it has one, and the slice of its
    values or offsets. Every type has at most one child. *)
Record level : Type := Level {
  lv_validity : option lent_bits;
  lv_main : option span;
  lv_bits : N; (* of a bitmap of values *)
}.

(** The array that is read through the slices. [SliceBuffer] for all buffers: as in
    FfiModel.v a slice is a Vec without spare capacity. *)
Definition deref_null (m : memory) (nl : bool) (s : shape) (v : option lent_bits)
  (c : cC (coll s)) : cC (coll (nulls nl s)) :=
  match nl return cC (coll (nulls nl s)) with
  | true => Validity c (option_map (deref_bits m) v)
  | false => c
  end.
Fixpoint deref (m : memory) (t : ty) (lv : list level) {struct t} : cC (layout t) :=
  match lv with
  | [] => k_default (layout t)
  | l :: r =>
    match t return cC (layout t) with
    | TBool nl =>
        deref_null m nl SBits (lv_validity l) (deref_bits m (LBits (lv_main l) (lv_bits l)))
    | TPrim p nl => deref_null m nl (SVec p) (lv_validity l) (slice (load_opt m (lv_main l)))
    | TFsl n t nl => deref_null m nl (SFixed n (shape_of t)) (lv_validity l) (deref m t r)
    | TVsl k t nl => deref_null m nl (SList k (shape_of t)) (lv_validity l)
        (Offsets (deref m t r) (slice (map (of_word (osz k)) (load_opt m (lv_main l)))))
    end
  end.

(** import/mod.rs:72-115 wrap of Nullable: the validity for the collection [c] *)
Definition borrow_nullable (m : memory) (K : Coll) (a : carray) (c : cC K)
  : ires (option lent_bits) :=
  if (a_n_buffers a <? 0)%Z then IPnc
  else if (a_n_buffers a =? 0)%Z then IPnc
  else
  ibind (read_table (a_buffers a) (Z.to_nat (a_n_buffers a)) 0) (fun validity_pointer =>
  ibind (iout (k_len K c)) (fun length =>
  ibind
    (match validity_pointer with
     | None =>
         if (a_null_count a =? 0)%Z || Nat.eqb length 0 then IOk None
         else IErr MissingValidityBuffer
     | Some b =>
         ibind (raw_parts b (bytes_for_bits (N.of_nat length)) 1) (fun values =>
         match bm_try_from_parts (slice (load m values)) (N.of_nat length) 0 with
         | inr _ => IPnc
         | inl bitmap =>
             match va_try_from_parts K c bitmap with
             | Ret (inl _) => IOk (Some (LBits (Some values) (N.of_nat length)))
             | _ => IPnc
             end
         end)
     end) (fun validity =>
  if (0 <=? a_null_count a)%Z then
    ibind (iout (vb_null_count (option_map (deref_bits m) validity))) (fun actual =>
    if (a_null_count a =? Z.of_nat actual)%Z then IOk validity
    else IErr (NullCountMismatch (a_null_count a) actual))
  else IOk validity))).
(** import/mod.rs:58-66 wrap of NonNullable *)
Definition borrow_wrap (m : memory) (nl : bool) (K : Coll) (a : carray) (c : cC K)
  : ires (option lent_bits) :=
  if nl then borrow_nullable m K a c else IOk None.

(** import/boolean.rs:23-43 *)
Definition borrow_bits (m : memory) (a : carray) (length : N) : ires (option span) :=
  ibind (read_table (a_buffers a) 2 1) (fun pointer =>
  let byte_length := bytes_for_bits length in
  ibind
    (if (byte_length =? 0)%N then IOk None
     else match pointer with
          | None => IErr MissingValuesBuffer
          | Some b => ibind (raw_parts b byte_length 1) (fun sp => IOk (Some sp))
          end) (fun values =>
  match bm_try_from_parts (slice (load_opt m values)) length 0 with
  | inl _ => IOk values
  | inr _ => IPnc
  end)).
(** import/fixed_size_primitive.rs:26-48 *)
Definition borrow_values (p : prim) (a : carray) (length : N) : ires (option span) :=
  ibind (read_table (a_buffers a) 2 1) (fun pointer =>
  if (length =? 0)%N then IOk None
  else match pointer with
       | None => IErr MissingValuesBuffer
       | Some b =>
           if (cb_addr b mod psz p =? 0)%N
           then ibind (raw_parts b length (psz p)) (fun sp => IOk (Some sp))
           else IErr (MisalignedValuesBuffer (psz p))
       end).
(** import/variable_size_list.rs:36-52 *)
Definition borrow_offsets (k : okind) (a : carray) (length : N) : ires span :=
  match checked_add length 1 with
  | None => IErr (InvalidLength (a_length a))
  | Some offsets_length =>
      ibind (read_table (a_buffers a) 2 1) (fun pointer =>
      match pointer with
      | None => IErr MissingOffsetsBuffer
      | Some b =>
          if (cb_addr b mod osz k =? 0)%N then raw_parts b offsets_length (osz k)
          else IErr (MisalignedOffsetsBuffer (osz k))
      end)
  end.

(** import/mod.rs:147-216, 263-275 with import_validated of boolean.rs:23-48,
    fixed_size_primitive.rs:26-53, fixed_size_list.rs:46-74,
    variable_size_list.rs:31-65 *)
Fixpoint borrow (m : memory) (t : ty) (a : carray) (s : cschema) {struct t}
  : ires (list level) :=
  match import_checks t a s with
  | inr e => IErr e
  | inl length =>
    match t with
    | TBool nl =>
        ibind (borrow_bits m a length) (fun values =>
        ibind (borrow_wrap m nl bitmap_coll a (deref_bits m (LBits values length))) (fun v =>
        IOk [Level v values length]))
    | TPrim p nl =>
        ibind (borrow_values p a length) (fun values =>
        ibind (borrow_wrap m nl (coll (SVec p)) a (slice (load_opt m values))) (fun v =>
        IOk [Level v values 0]))
    | TFsl n t nl =>
        if Nat.eqb n 0 then IErr (UnsupportedFixedSizeListSize n)
        else
        ibind (import_pointers a s) (fun kids =>
        ibind (borrow m t (fst kids) (snd kids)) (fun child =>
        ibind (iout (k_len (layout t) (deref m t child))) (fun child_length =>
        if match checked_mul length (N.of_nat n) with
           | Some l => (l =? N.of_nat child_length)%N
           | None => false
           end
        then match fl_try_from_parts (layout t) n (deref m t child) with
             | Ret (inl flattened) =>
                 ibind (borrow_wrap m nl (coll (SFixed n (shape_of t))) a flattened) (fun v =>
                 IOk (Level v None 0 :: child))
             | _ => IPnc
             end
        else IErr (FixedSizeListLengthMismatch length child_length n))))
    | TVsl k t nl =>
        ibind (borrow_offsets k a length) (fun offset_values =>
        ibind (import_pointers a s) (fun kids =>
        ibind (borrow m t (fst kids) (snd kids)) (fun child =>
        match of_try_from_parts (layout t) (deref m t child)
                (slice (map (of_word (osz k)) (load m offset_values))) with
        | Ret (inl offsets) =>
            ibind (borrow_wrap m nl (coll (SList k (shape_of t))) a offsets) (fun v =>
            IOk (Level v (Some offset_values) 0 :: child))
        | Ret (inr e) => IErr (InvalidOffsets e)
        | Pnc => IPnc
        end)))
    end
  end.
