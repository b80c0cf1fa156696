(** * Allocator handles: CollectionAllocIn::Alloc, CollectionRealloc::allocator

    Every buffer is constructed with a handle of its allocator (collection/mod.rs:183-259)
    and returns a clone of it (318-332). Vec has one handle, [()]
    (collection/vec.rs:43, 77); here the buffers are vectors that carry a handle of
    an arbitrary type [H], as the collection in the tests of validity.rs:594-750
    does. Which handle a buffer has does not influence what is in it, so that the
    handles are kept beside the collections of the other files. *)
From Coq Require Import List NArith ZArith Bool.
From Verif Require Import Base Iter VecModel BitmapModel CollModel ValidityModel
  FlattenModel OffsetsModel LayoutModel.
Import ListNotations.

Section Handles.
  Variable H : Type.

  (** One handle for each buffer: those of vectors and bitmaps (bitmap/mod.rs:100-117),
      the optional bitmap (validity.rs:46-52), the offsets (offset.rs:121-131). *)
  Fixpoint handles (s : shape) : Type :=
    match s with
    | SVec _ | SAny _ _ _ | SBits => H
    | SNull s => handles s * option H
    | SFixed _ s => handles s
    | SList _ s => handles s * H
    end%type.

  (** allocator: bitmap/mod.rs:538-540, validity.rs:498-500, flatten.rs:210-212,
      offset.rs:495-497; the layouts and Array delegate (array.rs:189-191) *)
  Fixpoint h_allocator (s : shape) : handles s -> H :=
    match s with
    | SVec _ | SAny _ _ _ | SBits => fun h => h
    | SNull s => fun t => h_allocator s (fst t)
    | SFixed _ s => h_allocator s
    | SList _ s => fun t => h_allocator s (fst t)
    end.

  (** with_capacity_in: bitmap/mod.rs:448-454, validity.rs:446-453,
      flatten.rs:188-190, offset.rs:334-344 *)
  Fixpoint h_with_capacity (s : shape) (h : H) : handles s :=
    match s with
    | SVec _ | SAny _ _ _ | SBits => h
    | SNull s => (h_with_capacity s h, Some h)
    | SFixed _ s => h_with_capacity s h
    | SList _ s => (h_with_capacity s h, h)
    end.
  (** try_with_capacity_in: bitmap/mod.rs:471-479, validity.rs:472-479,
      flatten.rs:196-199, offset.rs:354-364 *)
  Fixpoint h_try_with_capacity (s : shape) (h : H) : handles s :=
    match s with
    | SVec _ | SAny _ _ _ | SBits => h
    | SNull s => (h_try_with_capacity s h, Some h)
    | SFixed _ s => h_try_with_capacity s h
    | SList _ s => (h_try_with_capacity s h, h)
    end.
  (** Default: flatten.rs:32, validity.rs:197-204 (without bitmap),
      offset.rs:306-321; [h] is the handle of a buffer's Default *)
  Fixpoint h_default (s : shape) (h : H) : handles s :=
    match s with
    | SVec _ | SAny _ _ _ | SBits => h
    | SNull s => (h_default s h, None)
    | SFixed _ s => h_default s h
    | SList _ s => (h_default s h, h)
    end.

  (** What operations on [&mut self] that leave [c] behind do to the handles: no
      buffer is replaced by one of another allocator, and if a bitmap came into
      being it was by materialize_bitmap or try_materialize_bitmap, with the
      handle of the values (validity.rs:347-366, called in 401, 503, 516, 552). *)
  Fixpoint h_after (s : shape) : cC (coll s) -> handles s -> handles s :=
    match s with
    | SVec _ | SAny _ _ _ | SBits => fun _ h => h
    | SNull s => fun (v : validity (cC (coll s))) t =>
        (h_after s (va_coll v) (fst t),
         match snd t, va_bm v with
         | None, Some _ => Some (h_allocator s (fst t))
         | o, _ => o
         end)
    | SFixed _ s => h_after s
    | SList _ s => fun (o : offsets (cC (coll s))) t =>
        (h_after s (of_data o) (fst t), snd t)
    end.

  (** from_iter_in giving [c]: bitmap/mod.rs:456-469, validity.rs:455-470,
      flatten.rs:192-194, offset.rs:346-352 (with_capacity_in, then extend) *)
  Fixpoint h_from_iter (s : shape) : cC (coll s) -> H -> handles s :=
    match s with
    | SVec _ | SAny _ _ _ | SBits => fun _ h => h
    | SNull s => fun (v : validity (cC (coll s))) h => (h_from_iter s (va_coll v) h, Some h)
    | SFixed _ s => h_from_iter s
    | SList k s => fun o h => h_after (SList k s) o (h_with_capacity (SList k s) h)
    end.
  (** try_from_iter_in: bitmap/mod.rs:481-498, validity.rs:481-490,
      flatten.rs:201-206, offset.rs:366-375 (try_with_capacity_in, then try_extend) *)
  Fixpoint h_try_from_iter (s : shape) : cC (coll s) -> H -> handles s :=
    match s with
    | SVec _ | SAny _ _ _ | SBits => fun _ h => h
    | SNull s => fun v h => h_after (SNull s) v (h_try_with_capacity (SNull s) h)
    | SFixed _ s => h_try_from_iter s
    | SList k s => fun o h => h_after (SList k s) o (h_try_with_capacity (SList k s) h)
    end.

  (** validity.rs:109-122 try_from_parts, 161-166 from_collection; offset.rs:222-255
      try_from_parts: the buffers stay what they are *)
  Definition h_null_parts (s : shape) (t : handles s) (b : H) : handles (SNull s) := (t, Some b).
  Definition h_null_wrap (s : shape) (t : handles s) : handles (SNull s) := (t, None).
  Definition h_list_parts (k : okind) (s : shape) (t : handles s) (o : H) : handles (SList k s) :=
    (t, o).
End Handles.
Arguments handles H s : simpl nomatch.
