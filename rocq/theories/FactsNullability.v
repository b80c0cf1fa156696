(** * Facts about null items *)
From Coq Require Import List NArith Bool Arith.
From Verif Require Import Base VecModel CollModel Reach LayoutModel NullModel SpecNullability.
Import ListNotations.

Lemma items_null nl T (x : item nl T) :
  (forall v w, has nl x v -> has nl x w -> v = w) /\
  (null nl x <-> forall v, ~ has nl x v) /\
  (null nl x \/ exists v, has nl x v) /\
  (nl = false -> ~ null nl x).
Proof.
  destruct nl; cbn in *.
  - destruct x as [x|].
    + split; [congruence|]. split; [|split; [eauto|discriminate]].
      split; [discriminate|]. intros H. exfalso. exact (H x eq_refl).
    + split; [congruence|]. split; [|split; [auto|discriminate]]. split; [congruence|auto].
  - split; [congruence|]. split; [|split; [eauto|auto]]. split; [tauto|]. intros H. exact (H x eq_refl).
Qed.
Lemma map_item nl S T U (x : item nl T) (f : T -> S -> out U * S) s :
  (null nl x -> exists y, n_map nl x f s = (Ret y, s) /\ null nl y) /\
  (forall v, has nl x v ->
     (forall s', f v s = (Pnc, s') -> n_map nl x f s = (Pnc, s')) /\
     (forall u s', f v s = (Ret u, s') -> exists y, n_map nl x f s = (Ret y, s') /\ has nl y u)).
Proof.
  destruct nl; cbn in *.
  - split; [intros ->; eauto|]. intros v ->. split; [intros s' ->; reflexivity|].
    intros u s' ->. eauto.
  - split; [tauto|]. intros v ->. split; [auto|]. intros u s' E. eauto.
Qed.
Lemma zip_item nl T U (x : item nl T) (y : item nl U) :
  (null nl (n_zip nl x y) <-> null nl x \/ null nl y) /\
  (forall a b, has nl (n_zip nl x y) (a, b) <-> has nl x a /\ has nl y b).
Proof.
  destruct nl; cbn in *.
  - destruct x as [x|], y as [y|]; (split; [split; [intros H|intros [H|H]]|intros a b; split;
      [intros H|intros [H1 H2]]]); try discriminate; auto; try congruence;
      injection H as <- <-; auto.
  - split; [tauto|]. intros a b. split; [intros H; injection H; auto|intros [-> ->]; reflexivity].
Qed.
Lemma zip_with_item nl S T U V (x : item nl T) (y : item nl U) (f : T * U -> S -> out V * S) s :
  (null nl x \/ null nl y -> exists z, n_zip_with nl x y f s = (Ret z, s) /\ null nl z) /\
  (forall a b, has nl x a -> has nl y b ->
     (forall s', f (a, b) s = (Pnc, s') -> n_zip_with nl x y f s = (Pnc, s')) /\
     (forall u s', f (a, b) s = (Ret u, s') ->
        exists z, n_zip_with nl x y f s = (Ret z, s') /\ has nl z u)).
Proof.
  destruct (map_item nl S (T * U) V (n_zip nl x y) f s) as [H1 H2].
  destruct (zip_item nl T U x y) as [Z1 Z2]. split.
  - intros H. apply H1, Z1, H.
  - intros a b Ha Hb. apply H2, Z2. auto.
Qed.
Lemma map_map_item nl S T U V (x : item nl T) (f : T -> S -> out U * S) (g : U -> S -> out V * S) s :
  (match n_map nl x f s with (Ret y, s') => n_map nl y g s' | (Pnc, s') => (Pnc, s') end) =
  n_map nl x (fun v s => match f v s with (Ret u, s') => g u s' | (Pnc, s') => (Pnc, s') end) s /\
  n_map nl x (fun v s => (Ret v, s)) s = (Ret x, s).
Proof.
  destruct nl; cbn.
  - destruct x as [v|]; [|auto]. destruct (f v s) as [[u|] s']; auto.
  - auto.
Qed.
Lemma is_empty_shows s c xs : shows (coll s) c xs ->
  exists b, k_is_empty (coll s) c = Ret b /\ (b = true <-> xs = []).
Proof.
  intros H. unfold k_is_empty. rewrite (sh_len _ _ _ H). cbn [obind]. eexists. split; [reflexivity|].
  destruct xs; cbn; split; congruence.
Qed.
