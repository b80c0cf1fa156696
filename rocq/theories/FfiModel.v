(** * The Arrow C Data Interface: narrow-ffi/src

    The C structures as data: a pointer is [None] if null and otherwise the
    thing pointed to, so a structure is the tree of everything that can be
    reached from it. Which memory is alive is the subject of FfiHeapModel.v. *)
From Coq Require Import List NArith ZArith Bool Arith.
From Verif Require Import Base Iter VecModel BitmapModel CollModel ValidityModel FlattenModel
  OffsetsModel LayoutModel.
Import ListNotations.

(** ** The structures: lib.rs:100-216 *)

(** A pointer to a buffer: its address and the bytes that may be read. *)
Record cbuffer : Type := CBuf { cb_addr : N; cb_data : list N }.

(** lib.rs:160-181. [a_live]: the release callback is not null (186-188
    is_released). *)
Inductive carray : Type := CArray {
  a_length : Z;
  a_null_count : Z;
  a_offset : Z;
  a_n_buffers : Z;
  a_n_children : Z;
  a_buffers : option (list (option cbuffer));
  a_children : option (list (option carray));
  a_dictionary : option carray;
  a_live : bool;
}.

(** lib.rs:102-121. Strings are byte lists without the final zero; name and
    metadata are never read and left out. *)
Inductive cschema : Type := CSchema {
  s_format : option (list N);
  s_flags : Z;
  s_n_children : Z;
  s_children : option (list (option cschema));
  s_dictionary : option cschema;
  s_live : bool;
}.

Definition i64_max : Z := 9223372036854775807.

(** ** Formats *)

(** export/fixed_size_primitive.rs:73-111 ArrowType for the primitive types; the
    others have no format, so that arrays of them can not be exported. *)
Definition prim_format (p : prim) : option N :=
  match p with
  | S8 => Some 99        (* c *)
  | U8 => Some 67        (* C *)
  | S16 => Some 115      (* s *)
  | U16 => Some 83       (* S *)
  | S32 => Some 105      (* i *)
  | U32 => Some 73       (* I *)
  | S64 => Some 108      (* l *)
  | U64 => Some 76       (* L *)
  | F32 => Some 102      (* f *)
  | F64 => Some 103      (* g *)
  | U128 | S128 | Usize | Ssize | PArr _ _ => None
  end%N.
(** lib.rs:82-88 ArrowListOffset *)
Definition list_format (k : okind) : list N :=
  match k with I32 => [43; 108] (* +l *) | I64 => [43; 76] (* +L *) end%N.

(** [format!("{N}")]: the decimal digits of a usize, of which there are at most
    20, without leading zeros. *)
Fixpoint decimal_digits (fuel : nat) (n : N) (acc : list N) : list N :=
  match fuel with
  | O => acc
  | S f => let acc' := (48 + n mod 10)%N :: acc in
           if (n / 10 =? 0)%N then acc' else decimal_digits f (n / 10)%N acc'
  end.
Definition decimal (n : N) : list N := decimal_digits 20 n [].
Definition fixed_prefix : list N := [43; 119; 58]%N. (* +w: *)

(** The format of a type: export/boolean.rs:74-76, fixed_size_primitive.rs:73-111,
    fixed_size_list.rs:82 [format!("+w:{N}")], variable_size_list.rs:100 *)
Definition format_of (t : ty) : list N :=
  match t with
  | TBool _ => [98]%N (* b *)
  | TPrim p _ => match prim_format p with Some f => [f] | None => [] end
  | TFsl n _ _ => fixed_prefix ++ decimal (N.of_nat n)
  | TVsl k _ _ => list_format k
  end.

Definition nullable (t : ty) : bool :=
  match t with TBool nl | TPrim _ nl | TFsl _ _ nl | TVsl _ _ nl => nl end.
(** lib.rs:94 ARROW_FLAG_NULLABLE; export/mod.rs:44-50, import/mod.rs:56, 70 *)
Definition flags_of (t : ty) : Z := if nullable t then 2 else 0.

(** import/fixed_size_list.rs:37-43: one step of the fold, and the fold *)
Definition digit_step (size byte : N) : option N :=
  if (byte <? 48)%N then None
  else if (9 <? byte - 48)%N then None
  else match checked_mul size 10 with
       | None => None
       | Some m => checked_add m (byte - 48)
       end.
Fixpoint digits_value (size : N) (digits : list N) : option N :=
  match digits with
  | [] => Some size
  | b :: r => match digit_step size b with
              | None => None
              | Some size' => digits_value size' r
              end
  end.
Fixpoint list_eqb (a b : list N) : bool :=
  match a, b with
  | [], [] => true
  | x :: a', y :: b' => (x =? y)%N && list_eqb a' b'
  | _, _ => false
  end.
(** [strip_prefix] *)
Fixpoint strip_prefix (pre l : list N) : option (list N) :=
  match pre, l with
  | [], _ => Some l
  | x :: pre', y :: l' => if (x =? y)%N then strip_prefix pre' l' else None
  | _ :: _, [] => None
  end.
(** import/fixed_size_list.rs:27-44 *)
Definition fixed_matches (n : N) (format : list N) : bool :=
  match strip_prefix fixed_prefix format with
  | None => false
  | Some [] => false
  | Some digits => match digits_value 0 digits with
                   | Some k => (k =? n)%N
                   | None => false
                   end
  end.
(** matches_format: import/boolean.rs:19-21, fixed_size_primitive.rs:22-24,
    fixed_size_list.rs:27-44, variable_size_list.rs:27-29 *)
Definition matches_format (t : ty) (format : list N) : bool :=
  match t with
  | TFsl n _ _ => fixed_matches (N.of_nat n) format
  | _ => list_eqb format (format_of t)
  end.

(** ** Values in memory

    Arrow buffers are little-endian, like the platforms modelled. *)
Fixpoint le_bytes (w : nat) (v : N) : list N :=
  match w with
  | O => []
  | S w' => (v mod 256)%N :: le_bytes w' (v / 256)%N
  end.
Fixpoint le_value (bytes : list N) : N :=
  match bytes with
  | [] => 0%N
  | b :: r => (b + 256 * le_value r)%N
  end.
(** [slice::from_raw_parts::<T>(ptr, n)] for a [T] of [w] bytes *)
Fixpoint words (w : nat) (n : nat) (bytes : list N) : list N :=
  match n with
  | O => []
  | S n' => le_value (firstn w bytes) :: words w n' (skipn w bytes)
  end.
Definition read_words (w : N) (b : cbuffer) (n : N) : option (list N) :=
  if (n * w <=? lenN (cb_data b))%N
  then Some (words (N.to_nat w) (N.to_nat n) (cb_data b)) else None.
Definition read_bytes (b : cbuffer) (n : N) : option (list N) :=
  if (n <=? lenN (cb_data b))%N then Some (firstn (N.to_nat n) (cb_data b)) else None.
(** Two's complement *)
Definition to_word (w : N) (z : Z) : N := Z.to_N (z mod 2 ^ (8 * Z.of_N w)).
Definition of_word (w : N) (u : N) : Z :=
  (if (Z.of_N u <? 2 ^ (8 * Z.of_N w - 1)) then Z.of_N u
   else Z.of_N u - 2 ^ (8 * Z.of_N w))%Z.

(** ** Export *)

(** The memory an exported array and schema use, by nesting depth. Every type
    has at most one child. *)
Inductive block : Type :=
| BValidity (depth : nat)  (* buffer of a validity bitmap *)
| BValues (depth : nat)    (* buffer of values, primitive or bits *)
| BOffsets (depth : nat)   (* buffer of offsets *)
| BData (depth : nat)      (* ArrayData of an array, export/mod.rs:217-226 *)
| BPointers (depth : nat)  (* its child_pointers *)
| BSchema (depth : nat)    (* private data of a schema *)
| BFormat (depth : nat).   (* its format string *)

(** [XErr off] is [ExportError::NonZeroOffset], export/mod.rs:70-76. *)
Inductive xres (A : Type) : Type := XOk (a : A) | XErr (off : N) | XPnc.
Arguments XOk {A} a.
Arguments XErr {A} off.
Arguments XPnc {A}.
Definition xbind {A B} (x : xres A) (f : A -> xres B) : xres B :=
  match x with XOk a => f a | XErr e => XErr e | XPnc => XPnc end.
Definition xout {A} (x : out A) : xres A :=
  match x with Ret a => XOk a | Pnc => XPnc end.

(** The collection below an optional [Validity], and its bitmap:
    [child_ref], [bitmap_ref] *)
Definition un_null (nl : bool) (s : shape) : cC (coll (nulls nl s)) -> cC (coll s) :=
  match nl return cC (coll (nulls nl s)) -> cC (coll s) with
  | true => fun v : validity (cC (coll s)) => va_coll v
  | false => fun c => c
  end.
Definition bits_under (nl : bool) (s : shape) : cC (coll (nulls nl s)) -> option bitmap :=
  match nl return cC (coll (nulls nl s)) -> option bitmap with
  | true => fun v : validity (cC (coll s)) => va_bm v
  | false => fun _ => None
  end.

(** [bitmap_ref().map_or(0, Bitmap::bit_offset)] *)
Definition bits_offset (m : option bitmap) : N :=
  match m with Some b => N.of_nat (bm_off b) | None => 0%N end.
(** ArrowArrayLayout::offset: export/mod.rs:145-147, boolean.rs:25-27, 48-58,
    fixed_size_primitive.rs:53-57, fixed_size_list.rs:60-64,
    variable_size_list.rs:64-68 *)
Definition x_offset (t : ty) : cC (layout t) -> N :=
  match t return cC (layout t) -> N with
  | TBool nl => fun c =>
      let o := bits_offset (bits_under nl SBits c) in
      if (o =? 0)%N then N.of_nat (bm_off (un_null nl SBits c)) else o
  | TPrim p nl => fun c => bits_offset (bits_under nl (SVec p) c)
  | TFsl n t nl => fun c => bits_offset (bits_under nl (SFixed n (shape_of t)) c)
  | TVsl k t nl => fun c => bits_offset (bits_under nl (SList k (shape_of t)) c)
  end.
Definition top_bits (t : ty) : cC (layout t) -> option bitmap :=
  match t return cC (layout t) -> option bitmap with
  | TBool nl => bits_under nl SBits
  | TPrim p nl => bits_under nl (SVec p)
  | TFsl n t nl => bits_under nl (SFixed n (shape_of t))
  | TVsl k t nl => bits_under nl (SList k (shape_of t))
  end.
(** [i64::try_from(n).expect(..)] *)
Definition i64_from (n : nat) : out Z :=
  if (Z.of_nat n <=? i64_max)%Z then Ret (Z.of_nat n) else Pnc.
(** export/mod.rs:140-142 and the null_count of the nullable layouts *)
Definition x_null_count (t : ty) (c : cC (layout t)) : out Z :=
  let? n := vb_null_count (top_bits t c) in i64_from n.

Definition vec_ptr (addr : N) (bytes : list N) : option cbuffer := Some (CBuf addr bytes).
Definition bits_ptr (addr : N) (m : option bitmap) : option cbuffer :=
  match m with Some b => vec_ptr addr (v_items (bm_buf b)) | None => None end.
(** ArrowArrayLayout::buffers: boolean.rs:29-32, 60-71,
    fixed_size_primitive.rs:30-33, 59-70, fixed_size_list.rs:33-35, 66-72,
    variable_size_list.rs:35-38, 70-81. [mem] gives the addresses; the pointer
    of an empty Vec is not null either. *)
Definition x_buffers (mem : block -> N) (d : nat) (t : ty)
  : cC (layout t) -> list (option cbuffer) :=
  match t return cC (layout t) -> list (option cbuffer) with
  | TBool nl => fun c =>
      [bits_ptr (mem (BValidity d)) (bits_under nl SBits c);
       vec_ptr (mem (BValues d)) (v_items (bm_buf (un_null nl SBits c)))]
  | TPrim p nl => fun c =>
      [bits_ptr (mem (BValidity d)) (bits_under nl (SVec p) c);
       vec_ptr (mem (BValues d))
         (flat_map (le_bytes (N.to_nat (psz p))) (v_items (un_null nl (SVec p) c)))]
  | TFsl n t nl => fun c =>
      [bits_ptr (mem (BValidity d)) (bits_under nl (SFixed n (shape_of t)) c)]
  | TVsl k t nl => fun c =>
      [bits_ptr (mem (BValidity d)) (bits_under nl (SList k (shape_of t)) c);
       vec_ptr (mem (BOffsets d))
         (flat_map (fun z => le_bytes (N.to_nat (osz k)) (to_word (osz k) z))
            (v_items (of_offs (un_null nl (SList k (shape_of t)) c))))]
  end.

(** export/mod.rs:250-285 into_array *)
Definition into_array (bufs : list (option cbuffer)) (kids : list carray) (len nulls : Z)
  : carray := {|
  a_length := len;
  a_null_count := nulls;
  a_offset := 0;
  a_n_buffers := Z.of_nat (length bufs);
  a_n_children := Z.of_nat (length kids);
  a_buffers := match bufs with [] => None | _ => Some bufs end;
  a_children := match kids with [] => None | _ => Some (map Some kids) end;
  a_dictionary := None;
  a_live := true;
|}.

(** export/mod.rs:163-183 child_array; the children of the list layouts are
    fixed_size_list.rs:37-39, 74-76 and variable_size_list.rs:40-42, 83-85. *)
Fixpoint child_array (mem : block -> N) (d : nat) (t : ty) {struct t}
  : cC (layout t) -> xres carray :=
  fun c =>
  if (x_offset t c =? 0)%N then
    xbind (xout (obind (k_len (layout t) c) i64_from)) (fun len =>
    xbind (xout (x_null_count t c)) (fun nulls =>
    xbind
      (match t return cC (layout t) -> xres (list carray) with
       | TBool _ | TPrim _ _ => fun _ => XOk []
       | TFsl n t nl => fun c =>
           xbind (child_array mem (S d) t (un_null nl (SFixed n (shape_of t)) c))
             (fun k => XOk [k])
       | TVsl k t nl => fun c =>
           xbind (child_array mem (S d) t (of_data (un_null nl (SList k (shape_of t)) c)))
             (fun k => XOk [k])
       end c) (fun kids =>
    XOk (into_array (x_buffers mem d t c) kids len nulls))))
  else XErr (x_offset t c).
(** The same children again, for the outermost array. *)
Definition x_children (mem : block -> N) (d : nat) (t : ty)
  : cC (layout t) -> xres (list carray) :=
  match t return cC (layout t) -> xres (list carray) with
  | TBool _ | TPrim _ _ => fun _ => XOk []
  | TFsl n t nl => fun c =>
      xbind (child_array mem (S d) t (un_null nl (SFixed n (shape_of t)) c)) (fun k => XOk [k])
  | TVsl k t nl => fun c =>
      xbind (child_array mem (S d) t (of_data (un_null nl (SList k (shape_of t)) c)))
        (fun k => XOk [k])
  end.

(** schema: export/mod.rs:301-313 flat, fixed_size_list.rs:81-108,
    variable_size_list.rs:90-114 *)
Fixpoint schema_of (t : ty) : cschema :=
  let kids := match t with
              | TBool _ | TPrim _ _ => []
              | TFsl _ t _ | TVsl _ t _ => [schema_of t]
              end in {|
  s_format := Some (format_of t);
  s_flags := flags_of t;
  s_n_children := Z.of_nat (length kids);
  s_children := match kids with [] => None | _ => Some (map Some kids) end;
  s_dictionary := None;
  s_live := true;
|}.

(** export/mod.rs:186-213 export *)
Definition export (mem : block -> N) (t : ty) (c : cC (layout t)) : xres (carray * cschema) :=
  if (x_offset t c =? 0)%N then
    xbind (x_children mem 0 t c) (fun kids =>
    xbind (xout (obind (k_len (layout t) c) i64_from)) (fun len =>
    xbind (xout (x_null_count t c)) (fun nulls =>
    XOk (into_array (x_buffers mem 0 t c) kids len nulls, schema_of t))))
  else XErr (x_offset t c).

(** ** Import *)

(** import/mod.rs:281-371 ImportError *)
Inductive import_error : Type :=
| ReleasedArray
| ReleasedSchema
| MissingFormat
| UnexpectedFormat
| UnexpectedFlags (flags : Z)
| InvalidLength (length : Z)
| NonZeroOffset (offset : Z)
| UnexpectedNullCount (null_count : Z)
| MissingValidityBuffer
| NullCountMismatch (declared : Z) (actual : nat)
| UnexpectedBufferCount (count : Z)
| UnexpectedChildCount (array schema : Z)
| UnexpectedDictionary
| MissingBufferPointers
| MissingArrayChildren
| MissingSchemaChildren
| UnsupportedFixedSizeListSize (size : nat)
| FixedSizeListLengthMismatch (length : N) (child_length size : nat)
| MissingOffsetsBuffer
| MisalignedOffsetsBuffer (alignment : N)
| InvalidOffsets (error : offsets_error)
| MissingValuesBuffer
| MisalignedValuesBuffer (alignment : N).

(** [IUb] is a read outside the memory a pointer gives access to. *)
Inductive ires (A : Type) : Type := IOk (a : A) | IErr (e : import_error) | IPnc | IUb.
Arguments IOk {A} a.
Arguments IErr {A} e.
Arguments IPnc {A}.
Arguments IUb {A}.
Definition ibind {A B} (x : ires A) (f : A -> ires B) : ires B :=
  match x with IOk a => f a | IErr e => IErr e | IPnc => IPnc | IUb => IUb end.
Definition iout {A} (x : out A) : ires A :=
  match x with Ret a => IOk a | Pnc => IPnc end.
Definition iread {A} (x : option A) : ires A :=
  match x with Some a => IOk a | None => IUb end.

(** [slice::from_raw_parts(table, n)[i]] for a table of pointers *)
Definition read_table {A} (table : option (list A)) (n i : nat) : ires A :=
  match table with
  | None => IUb
  | Some l => if Nat.leb n (length l) then iread (nth_error l i) else IUb
  end.

(** A borrowed slice (SliceBuffer) as a Vec without spare capacity. Imported
    arrays only support reading. *)
Definition slice {A} (l : list A) : vec A := Vec l (lenN l).

(** import/mod.rs:72-115 wrap of Nullable *)
Definition wrap_nullable (K : Coll) (a : carray) (c : cC K) : ires (validity (cC K)) :=
  if (a_n_buffers a <? 0)%Z then IPnc
  else if (a_n_buffers a =? 0)%Z then IPnc
  else
  ibind (read_table (a_buffers a) (Z.to_nat (a_n_buffers a)) 0) (fun validity_pointer =>
  ibind (iout (k_len K c)) (fun length =>
  ibind
    (match validity_pointer with
     | None =>
         if (a_null_count a =? 0)%Z || Nat.eqb length 0 then IOk (va_from_collection K c)
         else IErr MissingValidityBuffer
     | Some b =>
         ibind (iread (read_bytes b (bytes_for_bits (N.of_nat length)))) (fun values =>
         match bm_try_from_parts (slice values) (N.of_nat length) 0 with
         | inr _ => IPnc
         | inl bitmap =>
             match va_try_from_parts K c bitmap with
             | Ret (inl v) => IOk v
             | _ => IPnc
             end
         end)
     end) (fun validity =>
  if (0 <=? a_null_count a)%Z then
    ibind (iout (vb_null_count (va_bm validity))) (fun actual =>
    if (a_null_count a =? Z.of_nat actual)%Z then IOk validity
    else IErr (NullCountMismatch (a_null_count a) actual))
  else IOk validity))).
(** import/mod.rs:58-66 wrap of NonNullable *)
Definition wrap (nl : bool) (s : shape) (a : carray) (c : cC (coll s))
  : ires (cC (coll (nulls nl s))) :=
  match nl return ires (cC (coll (nulls nl s))) with
  | true => wrap_nullable (coll s) a c
  | false => IOk c
  end.

(** FLAGS, BUFFERS, CHILDREN: import/boolean.rs:15-17,
    fixed_size_primitive.rs:18-20, fixed_size_list.rs:23-25,
    variable_size_list.rs:23-25 *)
Definition buffers_of (t : ty) : nat :=
  match t with TBool _ | TPrim _ _ | TVsl _ _ _ => 2 | TFsl _ _ _ => 1 end.
Definition children_of (t : ty) : nat :=
  match t with TBool _ | TPrim _ _ => 0 | TFsl _ _ _ | TVsl _ _ _ => 1 end.

(** import/mod.rs:147-211: the checks of import_layout, in order; the result is
    the length. *)
Definition import_checks (t : ty) (a : carray) (s : cschema) : N + import_error :=
  if negb (a_live a) then inr ReleasedArray
  else if negb (s_live s) then inr ReleasedSchema
  else match s_format s with
  | None => inr MissingFormat
  | Some format =>
    if negb (matches_format t format) then inr UnexpectedFormat
    else if negb (Z.land (s_flags s) 2 =? flags_of t)%Z then inr (UnexpectedFlags (s_flags s))
    else if (a_length a <? 0)%Z then inr (InvalidLength (a_length a))
    else if negb (a_offset a =? 0)%Z then inr (NonZeroOffset (a_offset a))
    else if (a_null_count a <? -1)%Z || (a_length a <? a_null_count a)%Z ||
            (flags_of t =? 0)%Z && (0 <? a_null_count a)%Z
      then inr (UnexpectedNullCount (a_null_count a))
    else if negb (a_n_buffers a =? Z.of_nat (buffers_of t))%Z
      then inr (UnexpectedBufferCount (a_n_buffers a))
    else if negb (a_n_children a =? Z.of_nat (children_of t))%Z ||
            negb (s_n_children s =? Z.of_nat (children_of t))%Z
      then inr (UnexpectedChildCount (a_n_children a) (s_n_children s))
    else if is_some (a_dictionary a) || is_some (s_dictionary s) then inr UnexpectedDictionary
    else if negb (Nat.eqb (buffers_of t) 0) && negb (is_some (a_buffers a))
      then inr MissingBufferPointers
    else if negb (Nat.eqb (children_of t) 0) && negb (is_some (a_children a))
      then inr MissingArrayChildren
    else if negb (Nat.eqb (children_of t) 0) && negb (is_some (s_children s))
      then inr MissingSchemaChildren
    else inl (Z.to_N (a_length a))
  end.

(** import/boolean.rs:23-48 import_validated, up to wrap *)
Definition import_bits (a : carray) (length : N) : ires bitmap :=
  ibind (read_table (a_buffers a) 2 1) (fun pointer =>
  let byte_length := bytes_for_bits length in
  ibind
    (if (byte_length =? 0)%N then IOk []
     else match pointer with
          | None => IErr MissingValuesBuffer
          | Some b => iread (read_bytes b byte_length)
          end) (fun values =>
  match bm_try_from_parts (slice values) length 0 with
  | inl b => IOk b
  | inr _ => IPnc
  end)).
(** import/fixed_size_primitive.rs:26-53, up to wrap. The alignment of the
    primitive types is their size (64-bit targets). *)
Definition import_values (p : prim) (a : carray) (length : N) : ires (vec N) :=
  ibind (read_table (a_buffers a) 2 1) (fun pointer =>
  ibind
    (if (length =? 0)%N then IOk []
     else match pointer with
          | None => IErr MissingValuesBuffer
          | Some b =>
              if (cb_addr b mod psz p =? 0)%N then iread (read_words (psz p) b length)
              else IErr (MisalignedValuesBuffer (psz p))
          end) (fun values => IOk (slice values))).
(** import/variable_size_list.rs:36-52, the offsets *)
Definition import_offsets (k : okind) (a : carray) (length : N) : ires (vec Z) :=
  match checked_add length 1 with
  | None => IErr (InvalidLength (a_length a))
  | Some offsets_length =>
      ibind (read_table (a_buffers a) 2 1) (fun pointer =>
      match pointer with
      | None => IErr MissingOffsetsBuffer
      | Some b =>
          if (cb_addr b mod osz k =? 0)%N then
            ibind (iread (read_words (osz k) b offsets_length)) (fun values =>
            IOk (slice (map (of_word (osz k)) values)))
          else IErr (MisalignedOffsetsBuffer (osz k))
      end)
  end.
(** import/mod.rs:224-260 import_child, the pointers *)
Definition import_pointers (a : carray) (s : cschema) : ires (carray * cschema) :=
  ibind (read_table (a_children a) 1 0) (fun child_array =>
  match child_array with
  | None => IErr MissingArrayChildren
  | Some ca =>
      ibind (read_table (s_children s) 1 0) (fun child_schema =>
      match child_schema with
      | None => IErr MissingSchemaChildren
      | Some cs => IOk (ca, cs)
      end)
  end).

(** import/mod.rs:147-216 import_layout, with import_validated of
    boolean.rs:23-48, fixed_size_primitive.rs:26-53, fixed_size_list.rs:46-74,
    variable_size_list.rs:31-65. [Array::import] (263-275) wraps the result. *)
Fixpoint import (t : ty) (a : carray) (s : cschema) {struct t} : ires (cC (layout t)) :=
  match import_checks t a s with
  | inr e => IErr e
  | inl length =>
    match t return ires (cC (layout t)) with
    | TBool nl => ibind (import_bits a length) (wrap nl SBits a)
    | TPrim p nl => ibind (import_values p a length) (wrap nl (SVec p) a)
    | TFsl n t nl =>
        if Nat.eqb n 0 then IErr (UnsupportedFixedSizeListSize n)
        else
        ibind (import_pointers a s) (fun kids =>
        ibind (import t (fst kids) (snd kids)) (fun child =>
        ibind (iout (k_len (layout t) child)) (fun child_length =>
        if match checked_mul length (N.of_nat n) with
           | Some m => (m =? N.of_nat child_length)%N
           | None => false
           end
        then match fl_try_from_parts (layout t) n child with
             | Ret (inl flattened) => wrap nl (SFixed n (shape_of t)) a flattened
             | _ => IPnc
             end
        else IErr (FixedSizeListLengthMismatch length child_length n))))
    | TVsl k t nl =>
        ibind (import_offsets k a length) (fun offset_values =>
        ibind (import_pointers a s) (fun kids =>
        ibind (import t (fst kids) (snd kids)) (fun child =>
        match of_try_from_parts (layout t) child offset_values with
        | Ret (inl offsets) => wrap nl (SList k (shape_of t)) a offsets
        | Ret (inr e) => IErr (InvalidOffsets e)
        | Pnc => IPnc
        end)))
    end
  end.
