(** * Collections after any panics

    A vocabulary for the theorems about collections that were used on after
    operations panicked in the middle, whatever they left behind. *)
From Coq Require Import List NArith ZArith Bool Arith.
From Verif Require Import Base Iter Spec VecModel BitmapModel CollModel ValidityModel FlattenModel
  OffsetsModel OwnedListModel LayoutModel Reach CloneModel SpecFixed.
Import ListNotations.

(** Everything [built] allows, and in addition every operation may panic at any
    point, and the pieces of such a collection may be taken out, cloned and used
    again. Such collections may also be the lists that are appended to a list: [u]
    is their shape, and [into] stands for the identity between their items and
    those of [s], which have one type in Rust. Unlike [built_step], the last three
    do not ask for a harmless panic. *)
Inductive lived : forall s : shape, cC (coll s) -> Prop :=
| lived_built s c : built s c -> lived s c
| lived_null_parts s c b v : lived s c -> lived SBits b ->
    va_try_from_parts (coll s) c b = Ret (inl v) -> lived (SNull s) v
| lived_null_wrap s c : lived s c -> lived (SNull s) (va_from_collection (coll s) c)
| lived_fixed_parts n s c c' : lived s c ->
    fl_try_from_parts (coll s) n c = Ret (inl c') -> lived (SFixed n s) c'
| lived_list_parts k s c offs o : lived s c -> vec_fits (osz k) offs ->
    Forall (fun z => (omin k <= z <= omax k)%Z) (v_items offs) ->
    of_try_from_parts (coll s) c offs = Ret (inl o) -> lived (SList k s) o
| lived_null_coll s (v : validity (cC (coll s))) : lived (SNull s) v -> lived s (va_coll v)
| lived_null_bits s (v : validity (cC (coll s))) b :
    widths_pos s -> lived (SNull s) v -> va_bm v = Some b -> lived SBits b
| lived_fixed_coll n s (c : cC (coll s)) : 0 < n -> lived (SFixed n s) c -> lived s c
| lived_list_data k s (o : offsets (cC (coll s))) : lived (SList k s) o -> lived s (of_data o)
| lived_clone s c : clonable s = true -> lived s c -> lived s (clone s c)
| lived_step s c p c' o : lived s c -> Forall (item_ok s) (op_items p) ->
    step (coll s) c p = (c', o) -> o <> OAbort -> lived s c'
| lived_owned k s u (into : cA (coll u) -> cA (coll s)) R o (it : iter (cC (coll u)) R) o' r e :
    widths_pos u -> (forall y, item_ok u y -> item_ok s (into y)) ->
    lived (SList k s) o -> (forall c, In c (items_of it) -> lived u c) ->
    ou_extend (coll s) (coll u) k into o it = (o', r, e) -> e <> OAbort -> lived (SList k s) o'
| lived_owned_try k s u (into : cA (coll u) -> cA (coll s)) R o (it : iter (cC (coll u)) R) w o' r e w' :
    widths_pos u -> (forall y, item_ok u y -> item_ok s (into y)) ->
    lived (SList k s) o -> (forall c, In c (items_of it) -> lived u c) ->
    ou_try_extend (coll s) (coll u) k into o it w = (o', r, e, w') -> lived (SList k s) o'.

(** What the read API returns for [c]. Unlike [shows], consuming [c] may
    panic once all of [xs] has been returned: a fixed-size list that ends in the
    middle of a row does so (C54). *)
Record reads (s : shape) (c : cC (coll s)) (xs : list (cA (coll s))) : Prop := {
  rd_len : k_len (coll s) c = Ret (length xs);
  rd_ok : Forall (item_ok s) xs;
  rd_owned : forall i x, nth_error xs i = Some x -> k_owned (coll s) c (N.of_nat i) = Ret (Some x);
  rd_iter : exists st, k_iter (coll s) c = Ret st /\
    yields (k_inext (coll s)) (k_ihint (coll s)) (k_own (coll s)) st xs;
  rd_into : exists st, k_into (coll s) c = Ret st /\
    (yields (k_onext (coll s)) (k_ohint (coll s)) Ret st xs \/
     breaks (k_onext (coll s)) (k_ohint (coll s)) st xs);
}.

(** An item as it was pushed and as it is read: the same up to the contents of
    the rows of fixed-size lists. *)
Fixpoint like (s : shape) : cA (coll s) -> cA (coll s) -> Prop :=
  match s with
  | SVec _ | SBits | SAny _ _ _ => eq
  | SNull s => fun x y : option (cA (coll s)) =>
      match x, y with
      | Some a, Some b => like s a b
      | None, None => True
      | _, _ => False
      end
  | SFixed _ s => fun x y : list (cA (coll s)) => length x = length y
  | SList _ s => fun x y : list (cA (coll s)) => Forall2 (like s) x y
  end.

(** [list_step] with items that are [like] those pushed. *)
Definition like_step (s : shape) (xs : list (cA (coll s))) (p : op (cA (coll s))) (o : outcome)
  (ys : list (cA (coll s))) : Prop :=
  match p, o with
  | OpExtend it, ODone | OpTryExtend it _, ODone => fin_of it = FStop /\
      exists zs, Forall2 (like s) (items_of it) zs /\ ys = xs ++ zs
  | OpExtend it, OPanic =>
      exists k zs, Forall2 (like s) (firstn k (items_of it)) zs /\ ys = xs ++ zs
  | OpTryExtend it _, OPanic => fin_of it = FBoom /\
      exists k zs, Forall2 (like s) (firstn k (items_of it)) zs /\ ys = xs ++ zs
  | OpTryExtend _ _, OErr => ys = xs
  | OpReserve _, ODone | OpReserve _, OPanic => ys = xs
  | OpTryReserve _ _, ODone | OpTryReserve _ _, OErr => ys = xs
  | OpTruncate n, ODone => ys = firstn (N.to_nat n) xs
  | _, _ => False
  end.

(** Running out of memory aborts these. *)
Definition may_abort {A} (p : op A) : bool :=
  match p with OpExtend _ | OpReserve _ => true | _ => false end.

Fixpoint no_arrays (s : shape) : bool :=
  match s with
  | SVec _ | SBits | SAny _ _ _ => true
  | SNull s | SList _ s => no_arrays s
  | SFixed _ _ => false
  end.

(** No fixed-size list holds values beyond its rows; if its items may be null,
    every row has a validity bit. *)
Definition is_fixed (s : shape) : bool := match s with SFixed _ _ => true | _ => false end.
Fixpoint rows_fill (s : shape) : cC (coll s) -> Prop :=
  match s with
  | SVec _ | SBits | SAny _ _ _ => fun _ => True
  | SNull s => fun v : validity (cC (coll s)) =>
      (is_fixed s = true -> k_len (coll (SNull s)) v = k_len (coll s) (va_coll v)) /\
      rows_fill s (va_coll v)
  | SFixed n s => fun c : cC (coll s) =>
      (exists q, k_len (coll s) c = Ret (q * n)) /\ rows_fill s c
  | SList _ s => fun o : offsets (cC (coll s)) => rows_fill s (of_data o)
  end.
