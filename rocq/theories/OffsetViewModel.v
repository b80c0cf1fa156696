(** * OffsetView as a collection: src/offset.rs:617-733 *)
From Coq Require Import List NArith Bool.
From Verif Require Import Base Iter VecModel BitmapModel CollModel OffsetsModel.
Import ListNotations.

Section View.
  Variable K : Coll.

  (** offset.rs:725-731 into_iter_owned: [(0..len).zip(repeat_n(self, len))
      .map(|(index, v)| v.view(index).expect(..).into_owned())] *)
  Definition ov_into (v : offview (cC K)) : out (ixiter (offview (cC K))) :=
    let? n := ov_len K v in Ret (IxIter v 0 (N.to_nat n)).
  Definition ov_onext (s : ixiter (offview (cC K)))
    : out (option (cA K) * ixiter (offview (cC K))) :=
    let? p := ov_inext K s in
    match fst p with
    | None => Ret (None, snd p)
    | Some v => let? x := k_own K v in Ret (Some x, snd p)
    end.

  (** offset.rs:662-675 PartialEq with any other collection. [veq] is the
      equality of the two kinds of views ([T::View: PartialEq<C::View>]).
      [Zip::next] asks the left iterator first; [Iterator::all] stops at the
      first [false]. [fuel] bounds the number of pairs; one more than the
      length of the view is enough. *)
  Variable K2 : Coll.
  Variable veq : cV K -> cV K2 -> out bool.
  Fixpoint ov_all (fuel : nat) (a : ixiter (offview (cC K))) (b : cVI K2) : out bool :=
    match fuel with
    | O => Pnc
    | S fuel' =>
        let? p := ov_inext K a in
        match fst p with
        | None => Ret true
        | Some x =>
            let? q := k_inext K2 b in
            match fst q with
            | None => Ret true
            | Some y =>
                let? e := veq x y in
                if e then ov_all fuel' (snd p) (snd q) else Ret false
            end
        end
    end.
  Definition ov_eq (v : offview (cC K)) (other : cC K2) : out bool :=
    let? n := ov_len K v in
    let? m := k_len K2 other in
    if (n =? N.of_nat m)%N then
      let? a := ov_iter K v in
      let? b := k_iter K2 other in
      ov_all (S (N.to_nat n)) a b
    else Ret false.
End View.
