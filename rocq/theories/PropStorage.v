(** * Shared storage: C41

    [own_in s f] is the owned iterator of a collection of shape [s] in which [f]
    says which buffers are borrowed slices, [Rc]s or [Arc]s; [coll s] has the
    one for vectors. [calls next hint n st] lists what the first [n] calls return. *)
From Coq Require Import List NArith ZArith Bool Arith.
From Verif Require Import Base Iter Spec VecModel BitmapModel CollModel ValidityModel FlattenModel
  OffsetsModel LayoutModel Reach Calm FfiModel SpecFfi StorageModel SpecStorage FactsStorage
  PropArray PropFfi.
Import ListNotations.

(** Whatever the buffers contain. *)
Theorem C41_same_calls :
  forall s (f : storages s) c,
  match k_into (coll s) c with
  | Ret t => exists st, o_into (own_in s f) c = Ret st /\
      forall n, calls (o_next (own_in s f)) (o_hint (own_in s f)) n st =
                calls (k_onext (coll s)) (k_ohint (coll s)) n t
  | Pnc => o_into (own_in s f) c = Pnc
  end.
Proof. exact own_in_calls. Qed.
Print Assumptions C41_same_calls.

(** A collection that shows [xs] gives [xs] away. *)
Theorem C41_yields_the_items :
  forall s (f : storages s) c xs, shows (coll s) c xs -> exists st,
  o_into (own_in s f) c = Ret st /\
  yields (o_next (own_in s f)) (o_hint (own_in s f)) Ret st xs.
Proof. exact own_in_yields. Qed.
Print Assumptions C41_yields_the_items.

(** An imported array borrows its buffers, which is one choice of [f]. *)
Theorem C41_imported_items :
  forall t (f : storages (shape_of t)) a sc c,
  arrow_type t -> readable t a sc -> import t a sc = IOk c ->
  exists xs st, o_into (own_in (shape_of t) f) c = Ret st /\
    yields (o_next (own_in (shape_of t) f)) (o_hint (own_in (shape_of t) f)) Ret st xs /\
    Z.of_nat (length xs) = a_length a /\
    forall i x, nth_error xs i = Some x -> holds t a i x.
Proof.
  intros t f a sc c Ht Hr Hi.
  destruct (C35_imported_items t a sc c Ht Hr Hi) as (_ & _ & xs & Hs & Hl & Hh).
  destruct (C41_yields_the_items _ f _ _ Hs) as (st & E & Hy).
  exists xs, st. split; [exact E|]. split; [exact Hy|]. split; [exact Hl|exact Hh].
Qed.
Print Assumptions C41_imported_items.

(** The array of C09; and a list whose second offset is below its first, which
    is an empty list, and whose third reaches beyond the data, which panics. *)
Definition broken : cC (coll (SList I32 (SVec U8))) :=
  Offsets (Vec [5; 6]%N 2) (Vec [1; 0; 2; 3]%Z 4).
Definition show_calls (s : shape) (f : storages s) (c : cC (coll s)) (n : nat) :=
  match o_into (own_in s f) c with
  | Ret st => calls (o_next (own_in s f)) (o_hint (own_in s f)) n st
  | Pnc => []
  end.
Example C41_case :
  map snd (show_calls (shape_of deep) (all_shared _) deep_array 5) =
    map (fun x => Ret (Some x)) deep_items ++ [Ret None] /\
  show_calls (SList I32 (SVec U8)) (all_shared _) broken 9 =
    [(Ret (3, Some 3)%N, Ret (Some [])); (Ret (2, Some 2)%N, Ret (Some [5; 6]%N));
     (Ret (1, Some 1)%N, Pnc)].
Proof. split; vm_compute; reflexivity. Qed.
(** Three values in a vector with a borrowed bitmap of two bits. *)
Example C41_mixed :
  show_calls (SNull (SVec U8)) (false, true)
    (Validity (Vec [5; 6; 7]%N 3) (Some (Bitmap (Vec [12]%N 1) 2 1))) 4 =
    [(Ret (2, Some 2)%N, Ret (Some None)); (Ret (1, Some 1)%N, Ret (Some (Some 6%N)));
     (Ret (0, Some 0)%N, Ret None); (Ret (0, Some 0)%N, Ret None)].
Proof. vm_compute. reflexivity. Qed.
