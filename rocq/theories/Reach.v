(** * Vocabulary of the theorems: what a collection shows, which collections
    can be built through the API, and histories of operations.

    Apart from [held] and [value_offset], nothing here mentions how a collection
    represents its items. *)
From Coq Require Import List NArith ZArith Bool Arith.
From Verif Require Import Base Iter VecModel BitmapModel CollModel ValidityModel
  FlattenModel OffsetsModel LayoutModel Spec.
Import ListNotations.

(** ** What a collection shows *)

(** [s] keeps returning [None] and reports that nothing is left. *)
Fixpoint nones {S X} (next : S -> out (option X * S)) (hnt : S -> out hint)
  (n : nat) (s : S) : Prop :=
  hnt s = Ret (0%N, Some 0%N) /\
  match n with
  | O => True
  | Datatypes.S n' => exists s', next s = Ret (None, s') /\ nones next hnt n' s'
  end.
(** The iterator [s] returns [xs], then [None] forever; before every call its
    size hint is exact. *)
Fixpoint yields {S X A} (next : S -> out (option X * S)) (hnt : S -> out hint)
  (own : X -> out A) (s : S) (xs : list A) : Prop :=
  match xs with
  | [] => forall n, nones next hnt n s
  | x :: xs' =>
      hnt s = Ret (exact_hint (length xs)) /\
      exists v s', next s = Ret (Some v, s') /\ own v = Ret x /\ yields next hnt own s' xs'
  end.

(** Everything the read API returns for [c] is determined by [xs]. *)
Record shows (K : Coll) (c : cC K) (xs : list (cA K)) : Prop := {
  sh_len : k_len K c = Ret (length xs);
  sh_owned : forall i x, nth_error xs i = Some x -> k_owned K c (N.of_nat i) = Ret (Some x);
  sh_iter : exists s, k_iter K c = Ret s /\ yields (k_inext K) (k_ihint K) (k_own K) s xs;
  sh_into : exists s, k_into K c = Ret s /\ yields (k_onext K) (k_ohint K) Ret s xs;
}.

(** ** Items, sizes *)

(** Arrays [T; N] inside an item have N elements. *)
Fixpoint item_ok (s : shape) : cA (coll s) -> Prop :=
  match s with
  | SVec _ | SAny _ _ _ => fun _ => True
  | SBits => fun _ => True
  | SNull s => fun o : option (cA (coll s)) =>
      match o with Some x => item_ok s x | None => True end
  | SFixed n s => fun l : list (cA (coll s)) => length l = n /\ Forall (item_ok s) l
  | SList _ s => fun l : list (cA (coll s)) => Forall (item_ok s) l
  end.

(** No zero width. *)
Fixpoint widths_pos (s : shape) : Prop :=
  match s with
  | SVec _ | SBits | SAny _ _ _ => True
  | SNull s | SList _ s => widths_pos s
  | SFixed n s => 0 < n /\ widths_pos s
  end.

(** Upper bounds for the memory an operation needs, in units that are at least
    a byte: what one item costs, what reserving one item costs, what a
    collection holds, and how much always fits. *)
Definition total {A} (f : A -> N) (l : list A) : N := fold_right (fun x => N.add (f x)) 0%N l.
Fixpoint unit_cost (s : shape) : N :=
  match s with
  | SVec _ | SBits | SAny _ _ _ => 1
  | SNull s => unit_cost s + 1
  | SFixed n s => N.of_nat n * unit_cost s
  | SList _ s => 1 + unit_cost s
  end%N.
Fixpoint cost (s : shape) : cA (coll s) -> N :=
  match s with
  | SVec _ | SAny _ _ _ => fun _ => 1%N
  | SBits => fun _ => 2%N
  | SNull s => fun o : option (cA (coll s)) =>
      (cost s (match o with Some x => x | None => k_item0 (coll s) end) + 2)%N
  | SFixed _ s => fun l : list (cA (coll s)) => total (cost s) l
  | SList _ s => fun l : list (cA (coll s)) => (1 + unit_cost s + total (cost s) l)%N
  end.
Fixpoint limit (s : shape) : N :=
  match s with
  | SVec p => max_items (psz p)
  | SAny _ _ z => max_items (N.pos z)
  | SBits => alloc_max
  | SNull s | SFixed _ s => limit s
  | SList k s => N.min (limit s) (N.min (Z.to_N (omax k)) (max_items (osz k) - 1))
  end.
Fixpoint held (s : shape) : cC (coll s) -> N :=
  match s with
  | SVec _ => fun v : vec N => lenN (v_items v)
  | SAny A _ _ => fun v : vec A => lenN (v_items v)
  | SBits => fun b : bitmap =>
      (N.of_nat (bm_off b + bm_bits b) + lenN (v_items (bm_buf b)))%N
  | SNull s => fun v : validity (cC (coll s)) =>
      (held s (va_coll v) +
       match va_bm v with
       | Some b => N.of_nat (bm_off b + bm_bits b) + lenN (v_items (bm_buf b))
       | None => match k_len (coll s) (va_coll v) with Ret n => 2 * N.of_nat n | Pnc => 0 end
       end)%N
  | SFixed _ s => held s
  | SList _ s => fun o : offsets (cC (coll s)) =>
      (held s (of_data o) + (lenN (v_items (of_offs o)) - 1))%N
  end.
(** [c] and [xs] together are known to fit. *)
Definition room_for (s : shape) (c : cC (coll s)) (xs : list (cA (coll s))) : Prop :=
  (held s c + total (cost s) xs <= limit s)%N.

(** ... and so do [c], what [it] yields and whatever it promises on the way:
    [Vec::extend] trusts the lower size hint when it has to grow. *)
Definition room_in (s : shape) (c : cC (coll s)) {R} (it : iter (cA (coll s)) R) : Prop :=
  affords (cost s) (unit_cost s) (limit s) (held s c) it.
(** The same for a new collection. *)
Definition room_new (s : shape) {R} (it : iter (cA (coll s)) R) : Prop :=
  affords (cost s) (unit_cost s) (limit s) 0 it.

(** ** Panicking extensions *)

(** Bit offset of the bitmap of values, if the values are booleans. *)
Fixpoint value_offset (s : shape) : cC (coll s) -> nat :=
  match s with
  | SVec _ | SAny _ _ _ => fun _ => 0
  | SBits => bm_off
  | SNull s => fun v : validity (cC (coll s)) => value_offset s (va_coll v)
  | SFixed _ s => value_offset s
  | SList _ s => fun o : offsets (cC (coll s)) => value_offset s (of_data o)
  end.
(** Does an extension that panics keep the number of items a multiple of [n]?
    [small]: sizes are known to fit; [off]: the bit offset of the values. A
    vector keeps what was pushed before a reservation panicked, a bitmap commits whole bytes, a nullable collection commits chunks of 1024. *)
Fixpoint keeps_multiples (s : shape) (small : bool) (off n : nat) : bool :=
  match s with
  | SVec _ | SAny _ _ _ => small || Nat.eqb n 1
  | SBits => bit_aligned off n
  | SNull _ => Nat.eqb (chunk mod n) 0 || small && Nat.eqb (n mod chunk) 0
  | SFixed m s => keeps_multiples s small off (m * n)
  | SList _ _ => small || Nat.eqb n 1
  end.
(** Is an extension that panics harmless? *)
Fixpoint panic_safe (s : shape) (small : bool) (off : nat) : bool :=
  match s with
  | SVec _ | SBits | SAny _ _ _ => true
  | SNull s => panic_safe s small off
  | SFixed n s => panic_safe s small off && keeps_multiples s small off n
  | SList _ s => small || panic_safe s false off
  end.
(** The iterator may be resumed after its first [None] without effect on
    collecting (infallibly, fallibly). *)
Fixpoint resumable (s : shape) : bool :=
  match s with
  | SVec _ | SAny _ _ _ => true
  | SBits => false
  | SNull s => resumable s
  | SFixed _ _ | SList _ _ => true
  end.
Definition resumable_try (s : shape) : bool :=
  match s with SBits => false | _ => true end.

(** ** Operations and histories *)

Inductive op (A : Type) : Type :=
| OpExtend (it : iter A unit)
| OpTryExtend (it : iter A unit) (w : world)
| OpReserve (n : N)
| OpTryReserve (n : N) (w : world)
| OpTruncate (n : N).
Arguments OpExtend {A} it.
Arguments OpTryExtend {A} it w.
Arguments OpReserve {A} n.
Arguments OpTryReserve {A} n w.
Arguments OpTruncate {A} n.

Definition step (K : Coll) (c : cC K) (p : op (cA K)) : cC K * outcome :=
  match p with
  | OpExtend it => let '(c', _, o) := k_extend K c it in (c', o)
  | OpTryExtend it w => let '(c', _, o, _) := k_try_extend K c it w in (c', o)
  | OpReserve n => k_reserve K c n
  | OpTryReserve n w => let '(c', o, _) := k_try_reserve K c n w in (c', o)
  | OpTruncate n => k_truncate K c n
  end.

Definition op_items {A} (p : op A) : list A :=
  match p with OpExtend it | OpTryExtend it _ => items_of it | _ => [] end.

(** The same operations on a list. *)
Definition list_step {A} (xs : list A) (p : op A) (o : outcome) (ys : list A) : Prop :=
  match p, o with
  | OpExtend it, ODone => fin_of it = FStop /\ ys = xs ++ items_of it
  | OpExtend it, OPanic => exists k, k <= length (items_of it) /\ ys = xs ++ firstn k (items_of it)
  | OpTryExtend it _, ODone => fin_of it = FStop /\ ys = xs ++ items_of it
  | OpTryExtend it _, OPanic => fin_of it = FBoom /\
      exists k, k <= length (items_of it) /\ ys = xs ++ firstn k (items_of it)
  | OpTryExtend _ _, OErr => ys = xs
  | OpReserve _, ODone | OpReserve _, OPanic => ys = xs
  | OpTryReserve _ _, ODone | OpTryReserve _ _, OErr => ys = xs
  | OpTruncate n, ODone => ys = firstn (N.to_nat n) xs
  | _, _ => False
  end.

(** What must be known when an operation panics. *)
Definition panic_ok (s : shape) (c : cC (coll s)) (p : op (cA (coll s))) (o : outcome) : Prop :=
  o = OPanic ->
  match p with
  | OpExtend it => panic_safe s false (value_offset s c) = true \/
      (panic_safe s true (value_offset s c) = true /\ room_in s c it)
  | OpTryExtend _ _ => panic_safe s true (value_offset s c) = true
  | _ => True
  end.

(** A history: the final state and how every operation ended. *)
Fixpoint exec (K : Coll) (c : cC K) (ps : list (op (cA K))) : cC K * list outcome :=
  match ps with
  | [] => (c, [])
  | p :: ps' =>
      let '(c1, o) := step K c p in
      let '(c2, os) := exec K c1 ps' in (c2, o :: os)
  end.

(** A history that does not abort the process and whose panics are harmless. *)
Inductive runs (s : shape) : cC (coll s) -> list (op (cA (coll s))) -> list outcome ->
  cC (coll s) -> Prop :=
| runs_nil c : runs s c [] [] c
| runs_cons c p o c1 ps os c2 :
    Forall (item_ok s) (op_items p) -> step (coll s) c p = (c1, o) -> o <> OAbort ->
    panic_ok s c p o -> runs s c1 ps os c2 -> runs s c (p :: ps) (o :: os) c2.
Inductive list_runs {A} : list A -> list (op A) -> list outcome -> list A -> Prop :=
| list_runs_nil xs : list_runs xs [] [] xs
| list_runs_cons xs p o ys ps os zs :
    list_step xs p o ys -> list_runs ys ps os zs -> list_runs xs (p :: ps) (o :: os) zs.

(** ** Collections that can be built through the API *)

(** A Vec: its length is at most its capacity, which was allocated. *)
Definition vec_fits {A} (esz : N) (v : vec A) : Prop :=
  (lenN (v_items v) <= v_cap v)%N /\ (v_cap v <= max_items esz)%N.

Inductive built : forall s : shape, cC (coll s) -> Prop :=
(* from parts, and back *)
| built_vec p (v : vec N) : vec_fits (psz p) v -> built (SVec p) v
| built_any A a0 z (v : vec A) : vec_fits (N.pos z) v -> built (SAny A a0 z) v
| built_bits_parts buf bits off b : vec_fits u8sz buf ->
    bm_try_from_parts buf bits off = inl b -> built SBits b
| built_null_parts s c b v : built s c -> built SBits b ->
    va_try_from_parts (coll s) c b = Ret (inl v) -> built (SNull s) v
| built_null_wrap s c : built s c -> built (SNull s) (va_from_collection (coll s) c)
| built_fixed_parts n s c c' : built s c ->
    fl_try_from_parts (coll s) n c = Ret (inl c') -> built (SFixed n s) c'
| built_list_parts k s c offs o : built s c -> vec_fits (osz k) offs ->
    Forall (fun z => (omin k <= z <= omax k)%Z) (v_items offs) ->
    of_try_from_parts (coll s) c offs = Ret (inl o) -> built (SList k s) o
| built_null_coll s (v : validity (cC (coll s))) : built (SNull s) v -> built s (va_coll v)
| built_null_bits s (v : validity (cC (coll s))) b :
    widths_pos s -> built (SNull s) v -> va_bm v = Some b -> built SBits b
| built_fixed_coll n s (c : cC (coll s)) : 0 < n -> built (SFixed n s) c -> built s c
| built_list_data k s (o : offsets (cC (coll s))) : built (SList k s) o -> built s (of_data o)
(* constructors *)
| built_default s : built s (k_default (coll s))
| built_with_capacity s n c : k_with_capacity (coll s) n = BOk c -> built s c
| built_try_with_capacity s n w c w' :
    k_try_with_capacity (coll s) n w = (BOk c, w') -> built s c
| built_collect s R (it : iter (cA (coll s)) R) c r :
    resumable s = true \/ fused it -> Forall (item_ok s) (items_of it) ->
    (k_from_iter (coll s) it = (BOk c, r) \/ k_from_iter_in (coll s) it = (BOk c, r)) ->
    built s c
| built_try_collect s R (it : iter (cA (coll s)) R) w c r w' :
    resumable_try s = true \/ fused it -> Forall (item_ok s) (items_of it) ->
    k_try_from_iter (coll s) it w = (BOk c, r, w') -> built s c
(* operations *)
| built_step s c p c' o : built s c -> Forall (item_ok s) (op_items p) ->
    step (coll s) c p = (c', o) -> o <> OAbort -> panic_ok s c p o -> built s c'.
