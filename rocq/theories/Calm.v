(** * Collections that can be built through the API without a panicking extension *)
From Coq Require Import List NArith ZArith Bool Arith.
From Verif Require Import Base Iter VecModel BitmapModel CollModel ValidityModel
  FlattenModel OffsetsModel LayoutModel Spec Reach.
Import ListNotations.

Definition is_extension {A} (p : op A) : Prop :=
  match p with OpExtend _ | OpTryExtend _ _ => True | _ => False end.

(** The constructors of [built]; only the last one differs. *)
Inductive calm : forall s : shape, cC (coll s) -> Prop :=
| calm_vec p (v : vec N) : vec_fits (psz p) v -> calm (SVec p) v
| calm_any A a0 z (v : vec A) : vec_fits (N.pos z) v -> calm (SAny A a0 z) v
| calm_bits_parts buf bits off b : vec_fits u8sz buf ->
    bm_try_from_parts buf bits off = inl b -> calm SBits b
| calm_null_parts s c b v : calm s c -> calm SBits b ->
    va_try_from_parts (coll s) c b = Ret (inl v) -> calm (SNull s) v
| calm_null_wrap s c : calm s c -> calm (SNull s) (va_from_collection (coll s) c)
| calm_fixed_parts n s c c' : calm s c ->
    fl_try_from_parts (coll s) n c = Ret (inl c') -> calm (SFixed n s) c'
| calm_list_parts k s c offs o : calm s c -> vec_fits (osz k) offs ->
    Forall (fun z => (omin k <= z <= omax k)%Z) (v_items offs) ->
    of_try_from_parts (coll s) c offs = Ret (inl o) -> calm (SList k s) o
| calm_null_coll s (v : validity (cC (coll s))) : calm (SNull s) v -> calm s (va_coll v)
| calm_null_bits s (v : validity (cC (coll s))) b :
    widths_pos s -> calm (SNull s) v -> va_bm v = Some b -> calm SBits b
| calm_fixed_coll n s (c : cC (coll s)) : 0 < n -> calm (SFixed n s) c -> calm s c
| calm_list_data k s (o : offsets (cC (coll s))) : calm (SList k s) o -> calm s (of_data o)
| calm_default s : calm s (k_default (coll s))
| calm_with_capacity s n c : k_with_capacity (coll s) n = BOk c -> calm s c
| calm_try_with_capacity s n w c w' :
    k_try_with_capacity (coll s) n w = (BOk c, w') -> calm s c
| calm_collect s R (it : iter (cA (coll s)) R) c r :
    resumable s = true \/ fused it -> Forall (item_ok s) (items_of it) ->
    (k_from_iter (coll s) it = (BOk c, r) \/ k_from_iter_in (coll s) it = (BOk c, r)) ->
    calm s c
| calm_try_collect s R (it : iter (cA (coll s)) R) w c r w' :
    resumable_try s = true \/ fused it -> Forall (item_ok s) (items_of it) ->
    k_try_from_iter (coll s) it w = (BOk c, r, w') -> calm s c
| calm_step s c p c' o : calm s c -> Forall (item_ok s) (op_items p) ->
    step (coll s) c p = (c', o) -> o <> OAbort -> (o = OPanic -> ~ is_extension p) -> calm s c'.
