(** * Machine integers, outcomes, allocator answers.

    Shared vocabulary of the model. usize is 64 bits wide. *)
From Coq Require Import List NArith ZArith Bool.
Import ListNotations.

Definition usize_max : N := 18446744073709551615%N.
Definition isize_max : N := 9223372036854775807%N.

(** No allocation larger than 2^60 bytes ever succeeds (64-bit address
    spaces); see DESIGN.md, trusted base. *)
Definition alloc_max : N := 1152921504606846976%N.

(** A computation that may panic: strict arithmetic, [expect], slice
    indexing. *)
Inductive out (A : Type) : Type :=
| Ret (a : A)
| Pnc.
Arguments Ret {A} a.
Arguments Pnc {A}.

Definition obind {A B} (x : out A) (f : A -> out B) : out B :=
  match x with Ret a => f a | Pnc => Pnc end.
Definition omap {A B} (f : A -> B) (x : out A) : out B :=
  match x with Ret a => Ret (f a) | Pnc => Pnc end.

Declare Scope out_scope.
Delimit Scope out_scope with out.
Notation "'let?' x := e 'in' f" := (obind e (fun x => f))
  (at level 200, x name, e at level 100, f at level 200) : out_scope.
Open Scope out_scope.

(** [Option::expect] *)
Definition expect {A} (x : option A) : out A :=
  match x with Some a => Ret a | None => Pnc end.

(** [usize::strict_add], [strict_mul], [strict_sub]: panic on overflow. *)
Definition strict_add (a b : N) : out N :=
  if (a + b <=? usize_max)%N then Ret (a + b)%N else Pnc.
Definition strict_mul (a b : N) : out N :=
  if (a * b <=? usize_max)%N then Ret (a * b)%N else Pnc.
Definition strict_sub (a b : N) : out N :=
  if (b <=? a)%N then Ret (a - b)%N else Pnc.
Definition strict_div (a b : N) : out N :=
  if (b =? 0)%N then Pnc else Ret (a / b)%N.
(** [usize::checked_add], [checked_mul] *)
Definition checked_add (a b : N) : option N :=
  if (a + b <=? usize_max)%N then Some (a + b)%N else None.
Definition checked_mul (a b : N) : option N :=
  if (a * b <=? usize_max)%N then Some (a * b)%N else None.
(** [usize::saturating_add], [saturating_mul] *)
Definition sat_add (a b : N) : N := N.min usize_max (a + b).
Definition sat_mul (a b : N) : N := N.min usize_max (a * b).

(** [bits.div_ceil(8)], bitmap/mod.rs:27-29 bytes_for_bits *)
Definition bytes_for_bits (bits : N) : N := ((bits + 7) / 8)%N.

(** How a [&mut self] operation ends. [OErr] is [Err(AllocError)]; [OAbort] is
    the process abort of an infallible allocation that cannot be satisfied
    (no claim is made about what follows it). *)
Inductive outcome : Type := ODone | OErr | OPanic | OAbort.

(** How a constructor ends. *)
Inductive bres (A : Type) : Type :=
| BOk (a : A)
| BErr
| BPanic
| BAbort.
Arguments BOk {A} a.
Arguments BErr {A}.
Arguments BPanic {A}.
Arguments BAbort {A}.

Definition bmap {A B} (f : A -> B) (x : bres A) : bres B :=
  match x with
  | BOk a => BOk (f a)
  | BErr => BErr
  | BPanic => BPanic
  | BAbort => BAbort
  end.

(** Answers of the allocator to the requests of fallible operations, in order:
    [Some extra] grants the request and [extra] more elements, [None] refuses.
    When the script is exhausted every request is granted. *)
Definition world : Type := list (option N).

(** Indexing a list by a usize without converting large numbers. *)
Definition nth_N {A} (l : list A) (i : N) : option A :=
  if (i <? N.of_nat (length l))%N then nth_error l (N.to_nat i) else None.

Definition lenN {A} (l : list A) : N := N.of_nat (length l).
