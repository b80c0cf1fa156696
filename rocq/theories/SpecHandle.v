(** * Vocabulary of the theorems about allocator handles *)
From Coq Require Import List NArith ZArith Bool.
From Verif Require Import Base Iter VecModel BitmapModel CollModel ValidityModel
  FlattenModel OffsetsModel LayoutModel Reach HandleModel.
Import ListNotations.

Section Spec.
  Variable H : Type.

  (** The handles of all buffers. *)
  Fixpoint buffer_handles (s : shape) : handles H s -> list H :=
    match s with
    | SVec _ | SAny _ _ _ | SBits => fun h => [h]
    | SNull s => fun t : handles H s * option H =>
        buffer_handles s (fst t) ++ match snd t with Some h => [h] | None => [] end
    | SFixed _ s => buffer_handles s
    | SList _ s => fun t : handles H s * H => buffer_handles s (fst t) ++ [snd t]
    end.
  Definition all_from (s : shape) (t : handles H s) (h : H) : Prop :=
    forall x, In x (buffer_handles s t) -> x = h.

  (** Exactly the buffers of [c] have a handle. *)
  Fixpoint matches (s : shape) : cC (coll s) -> handles H s -> Prop :=
    match s with
    | SVec _ | SAny _ _ _ | SBits => fun _ _ => True
    | SNull s => fun (v : validity (cC (coll s))) t =>
        (va_bm v = None <-> snd t = None) /\ matches s (va_coll v) (fst t)
    | SFixed _ s => matches s
    | SList _ s => fun (o : offsets (cC (coll s))) t => matches s (of_data o) (fst t)
    end.

  (** A history of operations. *)
  Fixpoint h_exec (s : shape) (c : cC (coll s)) (t : handles H s) (ps : list (op (cA (coll s))))
    : cC (coll s) * handles H s :=
    match ps with
    | [] => (c, t)
    | p :: ps' =>
        let c' := fst (step (coll s) c p) in h_exec s c' (h_after H s c' t) ps'
    end.
End Spec.
