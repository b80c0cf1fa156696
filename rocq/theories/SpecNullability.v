(** * The value of an item that may be null *)
From Verif Require Import NullModel.

Definition has (nl : bool) {T} : item nl T -> T -> Prop :=
  match nl return item nl T -> T -> Prop with
  | true => fun (x : option T) v => x = Some v
  | false => fun x v => x = v
  end.
Definition null (nl : bool) {T} : item nl T -> Prop :=
  match nl return item nl T -> Prop with
  | true => fun x : option T => x = None
  | false => fun _ => False
  end.
