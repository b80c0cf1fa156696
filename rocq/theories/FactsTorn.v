(** * Export and import after any panics *)
From Coq Require Import List NArith ZArith Bool Arith.
From Verif Require Import Base Iter Spec VecModel BitmapModel CollModel ValidityModel FlattenModel
  OffsetsModel LayoutModel Reach Calm SpecFixed SpecLived WeakLaws FactsLived FfiModel SpecFfi
  FactsExport FactsFfi.
Import ListNotations.

Section Torn.
  Context (t : ty) (Hw : widths_pos (shape_of t)) (c : cC (layout t))
    (Hc : lived (shape_of t) c) (Hh : (held (shape_of t) c < 2 ^ 63)%N).
  Let Hi : w_inv (shape_wd (shape_of t)) c := lived_inv _ _ Hc Hw.

  Lemma torn_abs xs : reads (shape_of t) c xs -> xs = w_abs (shape_wd (shape_of t)) c.
  Proof. intros H. exact (reads_unique _ _ _ _ H (inv_reads _ Hw _ Hi)). Qed.
  Lemma torn_rejects mem :
    match export mem t c with
    | XOk (a, s) => Forall (fun o => o = 0) (bit_offsets (shape_of t) c) /\
        a_live a = true /\ s_live s = true
    | XErr o => first_nonzero (bit_offsets (shape_of t) c) = Some (N.to_nat o)
    | XPnc => False
    end.
  Proof. exact (weak_rejects t Hw c Hi Hh mem). Qed.
  Lemma torn_items mem xs a s : reads (shape_of t) c xs -> typed (shape_of t) c ->
    export mem t c = XOk (a, s) ->
    a_length a = Z.of_nat (length xs) /\ a_null_count a = Z.of_nat (null_items t xs) /\
    readable t a s /\ forall i x, nth_error xs i = Some x -> holds t a i x.
  Proof. intros Hx. rewrite (torn_abs xs Hx). exact (weak_items t Hw c Hi Hh mem a s). Qed.
  Lemma torn_back mem xs a s : arrow_type t -> reads (shape_of t) c xs -> typed (shape_of t) c ->
    aligned mem 0 t -> export mem t c = XOk (a, s) ->
    match import t a s with
    | IOk c' => rows_fill (shape_of t) c /\ calm (shape_of t) c' /\ shows (layout t) c' xs
    | IErr (FixedSizeListLengthMismatch _ _ _) => ~ rows_fill (shape_of t) c
    | _ => False
    end.
  Proof.
    intros Ht Hx Hty Hal E. destruct (torn_items mem xs a s Hx Hty E) as (_ & _ & Hr & _).
    destruct (weak_describes t Hw c Hi Hh mem a s Ht Hty Hal E) as [Hn Hd].
    pose proof (import_accepts t a s Ht Hr) as Ha. pose proof (import_total t a s Ht Hr) as Htot.
    destruct (import t a s) as [c'|e| |] eqn:Ei.
    - split; [apply Hd, Ha; eauto|]. rewrite (torn_abs xs Hx).
      exact (weak_imported t Hw c Hi Hh mem a s c' Ht Hty E Ei).
    - destruct (nearly_import t a s e Ht Hr Hn Ei) as (l & m & n & ->).
      intros Hf. apply Hd, Ha in Hf as [c' E']. discriminate.
    - destruct Htot as [[? X]|[? X]]; discriminate.
    - destruct Htot as [[? X]|[? X]]; discriminate.
  Qed.
  Lemma torn_flat mem xs : arrow_type t -> no_arrays (shape_of t) = true ->
    reads (shape_of t) c xs -> typed (shape_of t) c -> aligned mem 0 t ->
    Forall (fun o => o = 0) (bit_offsets (shape_of t) c) ->
    exists a s c', export mem t c = XOk (a, s) /\ import t a s = IOk c' /\ shows (layout t) c' xs.
  Proof.
    intros Ht Hf Hx Hty Hal Ho. destruct (weak_accepts t Hw c Hi Hh mem Ho) as (a & s & E).
    pose proof (torn_back mem xs a s Ht Hx Hty Hal E) as H.
    pose proof (flat_fill _ Hf c) as Hfill. exists a, s.
    destruct (import t a s) as [c'|e| |]; [|destruct e; contradiction|contradiction|contradiction].
    exists c'. split; [exact E|]. split; [reflexivity|apply H].
  Qed.
End Torn.
