(** * How much memory the operations end up with, on every collection *)
From Coq Require Import List NArith ZArith Bool Arith Lia ZifyBool ZifyNat ZifyN.
From Verif Require Import Base Iter Spec VecModel BitmapModel CollModel ValidityModel FlattenModel
  OffsetsModel LayoutModel IterLemmas VecLemmas BitmapLemmas BitmapLemmas2 HonestLemmas Laws LawsBase
  LawsFlatten LawsValidity LawsOffsets LiveBase LiveLaws WeakLaws WeakNull WeakList MemoryLaws
  SpecBounds BoundBase.
Import ListNotations.

Local Arguments Nat.div : simpl never.
Local Arguments Nat.modulo : simpl never.
Local Arguments Nat.mul : simpl never.
Local Arguments N.add : simpl never.
Local Arguments N.mul : simpl never.
Local Arguments N.div : simpl never.
Local Arguments chunk : simpl never.
Local Arguments max_items : simpl never.
Local Arguments smallest : simpl never.
Local Opaque chunk.

(** ** Relations between buffers *)
Definition alike (x y : buffer) : Prop := b_size y = b_size x /\ b_takes y = b_takes x.
Definition capped (f : buffer -> N) (x y : buffer) : Prop :=
  alike x y /\ (b_cap y <= N.max (b_cap x) (f y))%N.
Definition fuller (x y : buffer) : Prop := (b_used x <= b_used y)%N.
Definition steady (x y : buffer) : Prop := alike x y /\ b_cap y = b_cap x.
Definition bounds : Type := N -> N -> N.
Definition now (g : bounds) (y : buffer) : N := g (b_size y) (b_used y).
Definition later (g : bounds) (n : N) (y : buffer) : N := g (b_size y) (b_used y + b_takes y n)%N.
Definition rising (g : bounds) : Prop := forall e u u', (u <= u')%N -> (g e u <= g e u')%N.
Definition capd (g : bounds) : list buffer -> list buffer -> Prop := Forall2 (capped (now g)).
Definition fullr : list buffer -> list buffer -> Prop := Forall2 fuller.
Definition stdy : list buffer -> list buffer -> Prop := Forall2 steady.

Lemma alike_refl x : alike x x. Proof. split; reflexivity. Qed.
Lemma alike_trans x y z : alike x y -> alike y z -> alike x z.
Proof. intros [A B] [C D]. split; congruence. Qed.
Lemma capped_refl f x : capped f x x.
Proof. split; [apply alike_refl|]. lia. Qed.
Lemma steady_refl x : steady x x.
Proof. split; [apply alike_refl|reflexivity]. Qed.
Lemma fuller_refl x : fuller x x.
Proof. apply N.le_refl. Qed.
Lemma capd_refl g l : capd g l l. Proof. apply Forall2_rfl, capped_refl. Qed.
Lemma fullr_refl l : fullr l l. Proof. apply Forall2_rfl, fuller_refl. Qed.
Lemma stdy_refl l : stdy l l. Proof. apply Forall2_rfl, steady_refl. Qed.
Lemma fullr_trans a b c : fullr a b -> fullr b c -> fullr a c.
Proof. apply Forall2_trn. intros x y z. apply N.le_trans. Qed.
Lemma capped_now_trans g x y z : rising g ->
  capped (now g) x y -> fuller y z -> capped (now g) y z -> capped (now g) x z.
Proof.
  intros Hg [A1 H1] F [A2 H2]. split; [exact (alike_trans _ _ _ A1 A2)|].
  unfold now in *. destruct A2 as [Hs _]. rewrite Hs in *.
  pose proof (Hg (b_size y) _ _ F). lia.
Qed.
Lemma Forall2_comp3 {A} (P Q R S : A -> A -> Prop) :
  (forall x y z, P x y -> Q y z -> R y z -> S x z) ->
  forall a b c, Forall2 P a b -> Forall2 Q b c -> Forall2 R b c -> Forall2 S a c.
Proof.
  intros H a b c Hab. revert c. induction Hab as [|x y a b Hx _ IH]; intros c H1 H2.
  - inversion H1; subst. constructor.
  - inversion H1; subst. inversion H2; subst. constructor; eauto.
Qed.
Lemma capd_trans g a b c : rising g -> capd g a b -> fullr b c -> capd g b c -> capd g a c.
Proof. intros Hg. apply Forall2_comp3. intros x y z. apply capped_now_trans. exact Hg. Qed.
Lemma stdy_capd f a b c : stdy a b -> Forall2 (capped f) b c -> Forall2 (capped f) a c.
Proof.
  intros H. revert c. induction H as [|x y a b [A H] _ IH]; intros c G; inversion G; subst; constructor; auto.
  match goal with X : capped f y _ |- _ => destruct X as [A2 H2] end.
  split; [exact (alike_trans _ _ _ A A2)|]. lia.
Qed.
Lemma capd_weaken g h a b : (forall e u, (g e u <= h e u)%N) -> capd g a b -> capd h a b.
Proof.
  intros Hg H. induction H as [|x y a b [A H] _ IH]; constructor; auto.
  split; [exact A|]. unfold now in *. pose proof (Hg (b_size y) (b_used y)). lia.
Qed.
Lemma rising_multiple k : rising (multiple k).
Proof. intros e u u' H. unfold multiple. nia. Qed.
Lemma rising_granted e : rising (granted e).
Proof. intros x u u' H. unfold granted. lia. Qed.
Lemma multiple_le j k e u : (j <= k)%N -> (multiple j e u <= multiple k e u)%N.
Proof. intros H. unfold multiple. nia. Qed.
Lemma one {A} (P : A -> A -> Prop) x y : P x y -> Forall2 P [x] [y].
Proof. intros H. constructor; [exact H|constructor]. Qed.

(** ** The laws *)
Record Bounds (K : Coll) (wt : cA K -> Prop) (d : WD K) (use : cC K -> list buffer)
  (tidy solid pre : cC K -> Prop) (g : bounds) : Prop := {
  bn_rising : rising g;
  bn_least : forall e u, (multiple 2 e u <= g e u)%N;
  bn_extend : forall R c (it : iter (cA K) R) xs r c' r',
    w_inv d c -> pre c -> Forall wt xs -> run it = (xs, FStop, r) -> honest it ->
    k_extend K c it = (c', r', ODone) ->
    capd g (use c) (use c') /\ tidy c' /\ solid c' /\ (tidy c -> fullr (use c) (use c'));
}.
Record TryBounds (K : Coll) (wt : cA K -> Prop) (d : WD K) (use : cC K -> list buffer)
  (tidy pre : cC K -> Prop) (e : N) : Prop := {
  tb_extend : forall R c (it : iter (cA K) R) w xs r c' r' w',
    w_inv d c -> pre c -> modest e w -> Forall wt xs -> run it = (xs, FStop, r) -> honest it ->
    k_try_extend K c it w = (c', r', ODone, w') ->
    modest e w' /\ capd (granted e) (use c) (use c') /\ tidy c' /\
    (tidy c -> fullr (use c) (use c'));
}.
Record Tidying (K : Coll) (d : WD K) (use : cC K -> list buffer)
  (tidy pre : cC K -> Prop) : Prop := {
  ty_pre : forall c, tidy c -> pre c;
  ty_truncate : forall c n c' o, w_inv d c -> k_truncate K c n = (c', o) ->
    stdy (use c) (use c') /\ (tidy c -> tidy c') /\ (pre c -> pre c');
  ty_still : forall c n c' o, w_inv d c -> tidy c -> (lenN (w_abs d c) <= n)%N ->
    k_truncate K c n = (c', o) -> use c' = use c;
}.
Record Rooms (K : Coll) (d : WD K) (use : cC K -> list buffer) (tidy : cC K -> Prop) : Prop := {
  rm_reserve : forall c n c', w_inv d c -> k_reserve K c n = (c', ODone) ->
    Forall2 (capped (later (multiple 2) n)) (use c) (use c') /\ fullr (use c) (use c') /\
    (tidy c -> tidy c');
  rm_try_reserve : forall c n w e c' w', w_inv d c -> modest e w ->
    k_try_reserve K c n w = (c', ODone, w') ->
    modest e w' /\ Forall2 (capped (later (granted e) n)) (use c) (use c');
}.
Definition Fits (K : Coll) (d : WD K) (use : cC K -> list buffer) (solid : cC K -> Prop) : Prop :=
  forall c n, w_inv d c -> solid c -> (n <= lenN (w_abs d c))%N ->
    Forall (fun b => (b_takes b n <= b_used b)%N) (use c).
Definition any {A} : A -> Prop := fun _ => True.

(** ** Vectors *)
Definition vec_use {A} (esz : N) (v : vec A) : list buffer :=
  [Buffer esz (v_cap v) (lenN (v_items v)) (fun n => n)].
Section Vec.
  Context (A : Type) (a0 : A) (esz : N) (wt : A -> Prop) (d : WD (vec_coll A a0 esz))
    (Ha : forall v : vec A, w_abs d v = v_items v).
  Lemma vec_use_capped f (v v' : vec A) :
    (v_cap v' <= N.max (v_cap v) (f (Buffer esz (v_cap v') (lenN (v_items v')) (fun n => n))))%N ->
    Forall2 (capped f) (vec_use esz v) (vec_use esz v').
  Proof. intros H. apply one. split; [split; reflexivity|exact H]. Qed.
  Lemma vec_use_fuller (v v' : vec A) : (lenN (v_items v) <= lenN (v_items v'))%N ->
    fullr (vec_use esz v) (vec_use esz v').
  Proof. intros H. apply one. exact H. Qed.
  Lemma vec_bounds g : rising g -> (forall e u, (multiple 2 e u <= g e u)%N) ->
    Bounds (vec_coll A a0 esz) wt d (vec_use esz) any any any g.
  Proof.
    intros Hg Hl. split; [exact Hg|exact Hl|].
    intros R c it xs r c' r' _ _ _ Hr Hh E. change (vec A) in c, c'.
    destruct (vec_extend_bound _ _ _ _ _ _ _ _ _ Hr Hh E) as [H1 H2].
    split; [|split; [exact I|split; [exact I|]]].
    - apply vec_use_capped. unfold now. cbn [b_size b_used].
      eapply N.le_trans; [exact H2|]. apply N.max_le_compat_l, Hl.
    - intros _. apply vec_use_fuller.
      exact (N.le_trans _ _ _ (N.le_add_r _ _) (N.eq_le_incl _ _ (eq_sym H1))).
  Qed.
  Lemma vec_try_bounds e : TryBounds (vec_coll A a0 esz) wt d (vec_use esz) any any e.
  Proof.
    split. intros R c it w xs r c' r' w' _ _ Hw _ Hr Hh E. change (vec A) in c, c'.
    destruct (vec_try_extend_bound _ _ _ _ _ _ _ _ _ _ _ _ Hw Hr Hh E) as (H0 & H1 & H2).
    split; [exact H0|]. split; [|split; [exact I|]].
    - apply vec_use_capped. exact H2.
    - intros _. apply vec_use_fuller.
      exact (N.le_trans _ _ _ (N.le_add_r _ _) (N.eq_le_incl _ _ (eq_sym H1))).
  Qed.
  Lemma vec_tidying : Tidying (vec_coll A a0 esz) d (vec_use esz) any any.
  Proof.
    split.
    - intros c H. exact I.
    - intros c n c' o _ E. change (vec A) in c, c'. injection E as <- _.
      split; [|split; intros _; exact I]. apply one. split; [split; reflexivity|].
      cbn [b_cap]. apply vec_truncate_cap.
    - intros c n c' o _ _ Hn E. change (vec A) in c, c'. rewrite Ha in Hn. injection E as <- _.
      unfold vec_truncate. destruct (N.ltb_spec n (lenN (v_items c))); [|reflexivity].
      change (lenN (v_items c) <= n)%N in Hn. lia.
  Qed.
  Lemma vec_rooms : Rooms (vec_coll A a0 esz) d (vec_use esz) any.
  Proof.
    split.
    - intros c n c' _ E. change (vec A) in c, c'. apply vec_reserve_bound in E. destruct E as [Hi Hc].
      split; [|split; [|intros _; exact I]].
      + apply vec_use_capped. unfold later. cbn [b_size b_used b_takes]. rewrite Hi. exact Hc.
      + apply vec_use_fuller. rewrite Hi. lia.
    - intros c n w e c' w' _ Hw E. change (vec A) in c, c'.
      apply (vec_try_reserve_bound _ _ _ _ _ _ _ _ Hw) in E. destruct E as (Hi & Hw1 & Hc).
      split; [exact Hw1|]. apply vec_use_capped. unfold later, granted. cbn [b_size b_used b_takes].
      rewrite Hi. exact Hc.
  Qed.
  Lemma vec_fits : Fits (vec_coll A a0 esz) d (vec_use esz) any.
  Proof.
    intros c n _ _ H. change (vec A) in c. rewrite Ha in H. constructor; [exact H|constructor].
  Qed.
End Vec.

(** ** Bitmaps *)
Definition bm_use (b : bitmap) : list buffer := [bit_buffer b].
Lemma bit_capped f b b' :
  (v_cap (bm_buf b') <= N.max (v_cap (bm_buf b)) (f (bit_buffer b')))%N ->
  capped f (bit_buffer b) (bit_buffer b').
Proof. intros H. split; [split; reflexivity|exact H]. Qed.
Lemma bit_still b n : bit_buffer (bm_truncate b n) = bit_buffer b.
Proof. unfold bm_truncate. destruct (_ <? _)%N; reflexivity. Qed.
Lemma bit_fit b n : bm_ok b -> (n <= N.of_nat (bm_bits b))%N ->
  (b_takes (bit_buffer b) n <= b_used (bit_buffer b))%N.
Proof.
  intros Hb Hn. pose proof (bm_bytes_fit b Hb) as H.
  eapply N.le_trans; [|exact H]. apply N.div_le_mono; lia.
Qed.
Section Bits.
  Context (wt : bool -> Prop) (d : WD bitmap_coll) (Hi : forall b : bitmap, w_inv d b -> bm_ok b)
    (Ha : forall b : bitmap, w_inv d b -> length (w_abs d b) = bm_bits b).
  Lemma bm_bounds g : rising g -> (forall e u, (multiple 2 e u <= g e u)%N) ->
    Bounds bitmap_coll wt d bm_use any any any g.
  Proof.
    intros Hg Hl. split; [exact Hg|exact Hl|].
    intros R c it xs r c' r' Hc _ _ Hr Hh E. change bitmap in c, c'.
    destruct (bm_extend_bound _ _ _ _ _ _ (Hi c Hc) Hr Hh E) as [H1 H2].
    split; [|split; [exact I|split; [exact I|]]].
    - apply one, bit_capped. pose proof (Hl 1%N (bytes c')). unfold now.
      change (b_size (bit_buffer c')) with 1%N. change (b_used (bit_buffer c')) with (bytes c'). lia.
    - intros _. apply one. exact H1.
  Qed.
  Lemma bm_try_bounds e : TryBounds bitmap_coll wt d bm_use any any e.
  Proof.
    split. intros R c it w xs r c' r' w' Hc _ Hw _ Hr Hh E. change bitmap in c, c'.
    destruct (bm_try_extend_bound _ _ _ _ _ _ _ _ _ (Hi c Hc) Hw Hr Hh E) as (H0 & H1 & H2).
    split; [exact H0|]. split; [|split; [exact I|]].
    - apply one, bit_capped. exact H2.
    - intros _. apply one. exact H1.
  Qed.
  Lemma bm_tidying : Tidying bitmap_coll d bm_use any any.
  Proof.
    split.
    - intros c H. exact I.
    - intros c n c' o _ E. change bitmap in c, c'. injection E as <- _.
      split; [|split; intros _; exact I]. unfold bm_use. rewrite bit_still. apply stdy_refl.
    - intros c n c' o _ _ _ E. change bitmap in c, c'. injection E as <- _.
      unfold bm_use. rewrite bit_still. reflexivity.
  Qed.
  Lemma bm_rooms : Rooms bitmap_coll d bm_use any.
  Proof.
    split.
    - intros c n c' _ E. change bitmap in c, c'.
      destruct (bm_reserve_bound _ _ _ E) as (_ & Hb & Hc).
      split; [|split; [|intros _; exact I]].
      + apply one, bit_capped. unfold later.
        change (b_used (bit_buffer c')) with (bytes c'). rewrite Hb. exact Hc.
      + apply one. unfold fuller. change (bytes c <= bytes c')%N. lia.
    - intros c n w e c' w' _ Hw E. change bitmap in c, c'.
      destruct (bm_try_reserve_bound _ _ _ _ _ _ Hw E) as (Hw1 & _ & Hb & Hc).
      split; [exact Hw1|]. apply one, bit_capped. unfold later, granted.
      change (b_used (bit_buffer c')) with (bytes c'). rewrite Hb. exact Hc.
  Qed.
  Lemma bm_fits : Fits bitmap_coll d bm_use any.
  Proof.
    intros c n Hc _ H. change bitmap in c. constructor; [|constructor].
    apply bit_fit; [exact (Hi c Hc)|]. rewrite <- (Ha c Hc). exact H.
  Qed.
End Bits.

(** ** Nullable collections *)
Definition obuf (m : option bitmap) : buffer :=
  match m with Some b => bit_buffer b | None => no_buffer end.
Section Null.
  Context (K : Coll) (wt : cA K -> Prop) (d : WD K) (L : WLaws K wt d)
    (use : cC K -> list buffer) (tidy solid pre : cC K -> Prop).
  Definition va_use (v : validity (cC K)) : list buffer := use (va_coll v) ++ [obuf (va_bm v)].
  Definition va_tidy (v : validity (cC K)) : Prop :=
    tidy (va_coll v) /\
    match va_bm v with Some b => length (w_abs d (va_coll v)) = bm_bits b | None => True end.
  Definition va_solid (v : validity (cC K)) : Prop := solid (va_coll v) /\ va_bm v <> None.
  Definition va_pre (v : validity (cC K)) : Prop := pre (va_coll v).
  Context (T : Tidying K d use tidy pre).

  Lemma va_materialize_bound v v1 : va_materialize K v = (v1, ODone) ->
    va_coll v1 = va_coll v /\ capped (now (multiple 2)) (obuf (va_bm v)) (obuf (va_bm v1)) /\
    fuller (obuf (va_bm v)) (obuf (va_bm v1)) /\ (va_bm v <> None -> v1 = v).
  Proof.
    unfold va_materialize. destruct (va_bm v) as [b|] eqn:Eb.
    { intros E. injection E as <-. rewrite Eb. split; [reflexivity|]. split; [apply capped_refl|].
      split; [apply fuller_refl|auto]. }
    destruct (k_len K (va_coll v)) as [n|]; [|discriminate].
    destruct (bm_all_set n) as [b| | |] eqn:Es; try discriminate.
    intros E. injection E as <-. cbn [va_coll va_bm obuf]. split; [reflexivity|].
    apply bm_all_set_bound in Es. split; [|split; [|congruence]].
    - split; [split; reflexivity|]. change (b_cap no_buffer) with 0%N.
      change (v_cap (bm_buf b) <= N.max 0 (multiple 2 1 (bytes b)))%N. lia.
    - unfold fuller. change (0 <= bytes b)%N. lia.
  Qed.
  Lemma va_try_materialize_bound v w e v1 w1 : modest e w ->
    va_try_materialize K v w = (v1, ODone, w1) ->
    modest e w1 /\
    va_coll v1 = va_coll v /\ capped (now (granted e)) (obuf (va_bm v)) (obuf (va_bm v1)) /\
    fuller (obuf (va_bm v)) (obuf (va_bm v1)) /\ (va_bm v <> None -> v1 = v).
  Proof.
    intros Hw. unfold va_try_materialize. destruct (va_bm v) as [b|] eqn:Eb.
    { intros E. injection E as <- <-. rewrite Eb. split; [exact Hw|]. split; [reflexivity|].
      split; [apply capped_refl|]. split; [apply fuller_refl|auto]. }
    destruct (k_len K (va_coll v)) as [n|]; [|discriminate].
    destruct (bm_try_all_set n w) as [[b| | |] w2] eqn:Es; try discriminate.
    intros E. injection E as <- <-. cbn [va_coll va_bm obuf].
    apply (bm_try_all_set_bound _ _ _ _ _ Hw) in Es. destruct Es as [Hw2 Es].
    split; [exact Hw2|]. split; [reflexivity|]. split; [|split; [|congruence]].
    - split; [split; reflexivity|]. change (b_cap no_buffer) with 0%N.
      change (v_cap (bm_buf b) <= N.max 0 (bytes b + e))%N. lia.
    - unfold fuller. change (0 <= bytes b)%N. lia.
  Qed.

  Lemma va_tidying : Tidying (validity_coll K) (wvalidity K d) va_use va_tidy va_pre.
  Proof.
    split.
    - intros v [H _]. exact (ty_pre _ _ _ _ _ T _ H).
    - intros v n v' o Hv E. change (validity (cC K)) in v, v'. change (wva_inv K d v) in Hv.
      change (va_truncate K v n = (v', o)) in E. unfold va_truncate in E.
      destruct (k_truncate K (va_coll v) n) as [c' o1] eqn:E1. injection E as <- <-.
      destruct (ty_truncate _ _ _ _ _ T _ _ _ _ (proj1 Hv) E1) as (H1 & H2 & H3).
      unfold va_use, va_tidy, va_pre. cbn [va_coll va_bm].
      split; [|split; [|exact H3]].
      + apply Forall2_app; [exact H1|]. apply one. destruct (va_bm v) as [b|]; cbn [option_map obuf].
        * rewrite bit_still. apply steady_refl.
        * apply steady_refl.
      + intros [G1 G2]. split; [exact (H2 G1)|]. destruct (va_bm v) as [b|]; [|exact I].
        cbn [option_map]. destruct (ww_truncate _ _ _ L _ n (proj1 Hv)) as (c2 & E2 & _ & A2).
        rewrite E1 in E2. injection E2 as <- ->. rewrite A2, firstn_length, G2.
        unfold bm_truncate. destruct (N.ltb_spec n (N.of_nat (bm_bits b))); cbn [bm_bits]; lia.
    - intros v n v' o Hv [G1 G2] Hn E. change (validity (cC K)) in v, v'. change (wva_inv K d v) in Hv.
      change (lenN (wva_abs K d v) <= n)%N in Hn.
      change (va_truncate K v n = (v', o)) in E. unfold va_truncate in E.
      destruct (k_truncate K (va_coll v) n) as [c' o1] eqn:E1. injection E as <- <-.
      unfold va_use. cbn [va_coll va_bm]. f_equal.
      + apply (ty_still _ _ _ _ _ T _ n _ o1 (proj1 Hv) G1); [|exact E1].
        unfold lenN in *. rewrite (wva_abs_length K d v Hv) in Hn. unfold wva_bits in Hn.
        pose proof Hv as [_ Hv2].
        destruct (va_bm v) as [b|]; [|rewrite repeat_length in Hn; exact Hn].
        destruct Hv2 as [Hb _]. rewrite bm_abs_length in Hn by exact Hb. lia.
      + destruct (va_bm v) as [b|]; cbn [option_map obuf]; [rewrite bit_still|]; reflexivity.
  Qed.

  Lemma va_rooms : Rooms K d use tidy -> Rooms (validity_coll K) (wvalidity K d) va_use va_tidy.
  Proof.
    intros M. split.
    - intros v n v' Hv E. change (validity (cC K)) in v, v'. change (wva_inv K d v) in Hv.
      change (va_reserve K v n = (v', ODone)) in E. unfold va_reserve in E.
      destruct (va_materialize K v) as [v1 o1] eqn:E1.
      destruct (wva_materialize K wt d L _ _ _ Hv E1) as [(-> & b & Hp)|(-> & _)]; [|discriminate].
      destruct (va_materialize_bound _ _ E1) as (Hc & Hb1 & Hf1 & _).
      pose proof Hp as (Hb & _ & Hi & Ha). rewrite Hb in *.
      destruct (bm_reserve b n) as [b2 o2] eqn:E2. destruct o2; try discriminate.
      destruct (bm_reserve_bound _ _ _ E2) as (Hbits & Hy & Hcap).
      destruct (k_reserve K (va_coll v1) n) as [c3 o3] eqn:E3. injection E as <- ->.
      rewrite Hc in E3. destruct (rm_reserve _ _ _ _ M _ _ _ (proj1 Hv) E3) as (H1 & H2 & H3).
      destruct (ww_reserve _ _ _ L _ _ _ _ (proj1 Hv) E3) as [[_ Hk] _].
      unfold va_use, va_tidy. cbn [va_coll va_bm obuf].
      assert (Hu : b_used (bit_buffer b2) = b_used (bit_buffer b)) by exact Hy.
      split; [|split].
      + apply Forall2_app; [exact H1|]. apply one. destruct Hb1 as [A1 C1]. cbn [obuf] in A1, C1.
        split; [exact A1|]. unfold later, now in *. rewrite Hu.
        change (b_size (bit_buffer b2)) with 1%N. change (b_size (bit_buffer b)) with 1%N in C1.
        change (b_cap (bit_buffer b2)) with (v_cap (bm_buf b2)).
        change (b_cap (bit_buffer b)) with (v_cap (bm_buf b)) in C1.
        change (b_takes (bit_buffer b2) n) with ((n + 7) / 8)%N.
        change (b_used (bit_buffer b)) with (bytes b) in *.
        pose proof (rising_multiple 2 1%N (bytes b) (bytes b + (n + 7) / 8)%N (N.le_add_r _ _)). lia.
      + apply Forall2_app; [exact H2|]. apply one. unfold fuller in *. rewrite Hu. exact Hf1.
      + intros [G1 G2]. split; [exact (H3 G1)|]. rewrite Hk, Hbits.
        assert (Hl : length (wva_bits K d v1) = length (wva_bits K d v)) by congruence.
        unfold wva_bits in Hl. rewrite Hb in Hl. destruct Hi as [_ Hi]. rewrite Hb in Hi.
        rewrite bm_abs_length in Hl by apply Hi. rewrite Hl.
        destruct (va_bm v) as [b0|] eqn:E0; [|symmetry; apply repeat_length].
        destruct Hv as [_ Hv]. rewrite E0 in Hv. rewrite bm_abs_length by apply Hv. exact G2.
    - intros v n w e v' w' Hv Hw E. change (validity (cC K)) in v, v'. change (wva_inv K d v) in Hv.
      change (va_try_reserve K v n w = (v', ODone, w')) in E. unfold va_try_reserve in E.
      destruct (va_try_materialize K v w) as [[v1 o1] w1] eqn:E1.
      destruct (wva_try_materialize K wt d L _ _ _ _ _ Hv E1) as [(-> & b & Hp)|(-> & _)]; [|discriminate].
      destruct (va_try_materialize_bound _ _ _ _ _ Hw E1) as (Hw1 & Hc & Hb1 & _ & _).
      pose proof Hp as (Hb & _ & Hi & Ha). rewrite Hb in *.
      destruct (k_try_reserve K (va_coll v1) n w1) as [[c2 o2] w2] eqn:E2. destruct o2; try discriminate.
      rewrite Hc in E2. destruct (rm_try_reserve _ _ _ _ M _ _ _ _ _ _ (proj1 Hv) Hw1 E2) as (Hw2 & H1).
      destruct (bm_try_reserve b n w2) as [[b3 o3] w3] eqn:E3. injection E as <- -> <-.
      destruct (bm_try_reserve_bound _ _ _ _ _ _ Hw2 E3) as (Hw3 & _ & Hy & Hcap).
      split; [exact Hw3|]. unfold va_use. cbn [va_coll va_bm obuf].
      apply Forall2_app; [exact H1|]. apply one. destruct Hb1 as [A1 C1]. cbn [obuf] in A1, C1.
      split; [exact A1|]. unfold later, now, granted in *.
      change (b_cap (bit_buffer b3)) with (v_cap (bm_buf b3)).
      change (b_cap (bit_buffer b)) with (v_cap (bm_buf b)) in C1.
      change (b_takes (bit_buffer b3) n) with ((n + 7) / 8)%N.
      change (b_used (bit_buffer b)) with (bytes b) in *.
      change (b_used (bit_buffer b3)) with (bytes b3) in *. lia.
  Qed.

  Lemma va_fits : Fits K d use solid -> Fits (validity_coll K) (wvalidity K d) va_use va_solid.
  Proof.
    intros F v n Hv [S1 S2] Hn. change (validity (cC K)) in v. change (wva_inv K d v) in Hv.
    change (n <= lenN (wva_abs K d v))%N in Hn.
    unfold lenN in Hn. rewrite (wva_abs_length K d v Hv) in Hn.
    apply Forall_app. split.
    - apply (F _ n (proj1 Hv) S1). pose proof (wva_bits_le K d v Hv). unfold lenN. lia.
    - constructor; [|constructor]. unfold wva_bits in Hn. destruct Hv as [_ Hv].
      destruct (va_bm v) as [b|]; [|contradiction]. cbn [obuf]. apply bit_fit; [apply Hv|].
      rewrite bm_abs_length in Hn by apply Hv. exact Hn.
  Qed.

  Section Extend.
    Context (g : bounds) (B : Bounds K wt d use tidy solid pre g).
    Lemma va_loop_bound {R} : forall fuel c b (it : iter (option (cA K)) R) os r c' b' r',
      w_inv d c -> pre c -> bm_ok b -> Forall wt (map (dflt K) os) -> run it = (os, FStop, r) ->
      honest it -> length (it_tr it) < fuel ->
      va_extend_loop K fuel c b it = (c', b', r', ODone) ->
      capd g (use c) (use c') /\ tidy c' /\ solid c' /\ (tidy c -> fullr (use c) (use c')) /\
      capped (now g) (bit_buffer b) (bit_buffer b') /\ (bytes b <= bytes b')%N.
    Proof.
      induction fuel as [|fuel IH]; intros c b it os r c' b' r' Hc Hq Hb Hwt Hr Hh Hf; [lia|].
      cbn [va_extend_loop]. pose proof (honest_va_chunk K it Hh) as Hhc.
      destruct (k_extend K c (va_chunk K it)) as [[c1 [it1 vs]] o1] eqn:E1.
      destruct o1; try discriminate.
      assert (Hbits : forall ys b1 ru, bm_extend b (it_list ys) = (b1, ru, ODone) ->
        bm_ok b1 /\ capped (now g) (bit_buffer b) (bit_buffer b1) /\ (bytes b <= bytes b1)%N).
      { intros ys b1 ru E2.
        destruct (bm_extend_bound _ _ _ _ _ _ Hb (run_list ys) (honest_list _) E2) as [X1 X2].
        split; [exact (proj1 (bm_extend_spec _ _ _ _ _ _ _ _ Hb (run_list _) E2))|]. split; [|exact X1].
        apply bit_capped. pose proof (bn_least _ _ _ _ _ _ _ _ B 1%N (bytes b1)). unfold now.
        change (b_size (bit_buffer b1)) with 1%N. change (b_used (bit_buffer b1)) with (bytes b1). lia. }
      destruct (va_chunk_run K it os FStop r Hr) as (it' & [(Hle & Hrc & Hr' & Hlen & _)|(Hlt & Hrc & Hsrc)]).
      - pose proof (honest_va_rest K it it' _ _ _ _ _ _ Hh Hr Hle Hrc) as Hh'.
        set (os1 := firstn chunk os) in *. set (os2 := skipn chunk os) in *.
        assert (Hos : os = os1 ++ os2) by (symmetry; apply firstn_skipn).
        assert (Hl1 : length os1 = chunk) by (unfold os1; rewrite firstn_length; lia).
        clearbody os1 os2. subst os. rewrite map_app in Hwt. apply Forall_app in Hwt.
        destruct Hwt as [Hw1 Hw2].
        pose proof (ww_extend _ _ _ L _ c _ _ _ _ _ _ _ Hc Hw1 Hrc E1) as (_ & Ep & zs & _ & [G1 _]).
        injection Ep as -> ->.
        destruct (bn_extend _ _ _ _ _ _ _ _ B _ _ _ _ _ _ _ Hc Hq Hw1 Hrc Hhc E1) as (P1 & P2 & P3 & P4).
        destruct (bm_extend b (it_list (map is_some os1))) as [[b1 ru] o2] eqn:E2.
        destruct o2; try discriminate. destruct (Hbits _ _ _ E2) as (Hb1 & Q1 & Q2).
        rewrite map_length, Hl1, Nat.ltb_irrefl. intros E.
        destruct (IH c1 b1 it' os2 r c' b' r' G1 (ty_pre _ _ _ _ _ T _ P2) Hb1 Hw2 Hr' Hh' ltac:(lia) E)
          as (I1 & I2 & I3 & I4 & I5 & I6).
        pose proof (bn_rising _ _ _ _ _ _ _ _ B) as Hg.
        split; [exact (capd_trans _ _ _ _ Hg P1 (I4 P2) I1)|].
        split; [exact I2|]. split; [exact I3|].
        split; [intros Ht; exact (fullr_trans _ _ _ (P4 Ht) (I4 P2))|].
        split; [exact (capped_now_trans _ _ (bit_buffer b1) (bit_buffer b') Hg Q1 I6 I5)|]. lia.
      - pose proof (ww_extend _ _ _ L _ c _ _ _ _ _ _ _ Hc Hwt Hrc E1) as (_ & Ep & zs & _ & [G1 _]).
        injection Ep as -> ->.
        destruct (bn_extend _ _ _ _ _ _ _ _ B _ _ _ _ _ _ _ Hc Hq Hwt Hrc Hhc E1) as (P1 & P2 & P3 & P4).
        destruct (bm_extend b (it_list (map is_some os))) as [[b1 ru] o2] eqn:E2.
        destruct o2; try discriminate. destruct (Hbits _ _ _ E2) as (Hb1 & Q1 & Q2).
        rewrite map_length. assert (Nat.ltb (length os) chunk = true) as -> by (apply Nat.ltb_lt; auto).
        intros E. injection E as <- <- _. auto 8.
    Qed.

    Lemma va_bounds : Bounds (validity_coll K) (owt K wt : cA (validity_coll K) -> Prop)
      (wvalidity K d) va_use va_tidy va_solid va_pre g.
    Proof.
      pose proof (bn_rising _ _ _ _ _ _ _ _ B) as Hg.
      split; [exact Hg|exact (bn_least _ _ _ _ _ _ _ _ B)|].
      intros R v it os r v' r' Hv Hq Hwt Hr Hh E.
      change (validity (cC K)) in v, v'. change (iter (option (cA K)) R) in it.
      change (list (option (cA K))) in os. change (wva_inv K d v) in Hv. change (pre (va_coll v)) in Hq.
      apply (wva_wt K wt d L) in Hwt.
      change (va_extend K v it = (v', r', ODone)) in E. unfold va_extend in E.
      destruct (va_materialize K v) as [v1 o1] eqn:E1.
      destruct (wva_materialize K wt d L _ _ _ Hv E1) as [(-> & b & Hp)|(-> & _)]; [|discriminate].
      destruct (va_materialize_bound _ _ E1) as (Hc & Hb1 & Hf1 & Hsame).
      pose proof Hp as (Hb & _ & Hi & Ha). rewrite Hb in *.
      assert (Hbm : bm_ok b) by (destruct Hi as [_ Hi]; rewrite Hb in Hi; apply Hi).
      destruct (wprep_ready K wt d L v v1 b (bm_len b) Hp) as (c2 & Et & Hrd).
      { unfold bm_len. symmetry. apply bm_abs_length. exact Hbm. }
      rewrite Et in E. pose proof Hrd as (R1 & R2 & R3 & _).
      destruct (va_extend_loop K _ c2 b it) as [[[c3 b3] r3] o3] eqn:El. injection E as <- _ ->.
      rewrite Hc in Et. destruct (ty_truncate _ _ _ _ _ T _ _ _ _ (proj1 Hv) Et) as (T1 & T2 & T3).
      pose proof (wva_loop K wt d L _ _ _ _ _ _ _ _ _ _ _ R1 R2 Hwt Hr (Nat.lt_succ_diag_r _) El)
        as (_ & _ & ys & Hys & [_ Gr] & (S1 & S2 & S3 & _)).
      destruct (va_loop_bound _ _ _ _ _ _ _ _ _ R1 (T3 Hq) R2 Hwt Hr Hh (Nat.lt_succ_diag_r _) El)
        as (I1 & I2 & I3 & I4 & I5 & I6).
      unfold va_use, va_tidy, va_solid. cbn [va_coll va_bm obuf].
      split; [|split; [split; [exact I2|]|split; [split; [exact I3|discriminate]|]]].
      - apply Forall2_app; [exact (stdy_capd _ _ _ _ T1 I1)|]. apply one.
        refine (capped_now_trans _ _ _ _ Hg _ _ I5); [|exact I6].
        destruct Hb1 as [A1 C1]. split; [exact A1|]. unfold now in *.
        pose proof (bn_least _ _ _ _ _ _ _ _ B (b_size (bit_buffer b)) (b_used (bit_buffer b))).
        cbn [obuf] in C1. lia.
      - rewrite Gr, app_length, R3. apply Forall2_length' in Hys. rewrite map_length in Hys.
        rewrite <- (bm_abs_length b3 S1), S3, app_length, map_length. lia.
      - intros [G1 G2]. apply Forall2_app.
        + assert (Hs : use c2 = use (va_coll v)).
          { apply (ty_still _ _ _ _ _ T _ _ _ _ (proj1 Hv) G1) in Et; [exact Et|].
            unfold lenN, bm_len. destruct (va_bm v) as [b0|] eqn:E0.
            - assert (v1 = v) as -> by (apply Hsame; discriminate). rewrite E0 in Hb.
              injection Hb as ->. lia.
            - unfold wva_bits in Ha. rewrite Hb, E0 in Ha.
              rewrite <- (bm_abs_length b Hbm), Ha, repeat_length. lia. }
          rewrite <- Hs. apply I4, T2, G1.
        + apply one. unfold fuller in *. cbn [obuf] in Hf1.
          eapply N.le_trans; [exact Hf1|]. exact I6.
    Qed.
  End Extend.

  Section TryExtend.
    Context (e : N) (B : TryBounds K wt d use tidy pre e).
    Lemma va_try_loop_bound {R} : forall fuel len c b (it : iter (option (cA K)) R) w os r c' b' r' w',
      w_inv d c -> pre c -> bm_ok b -> modest e w ->
      Forall wt (map (dflt K) os) -> run it = (os, FStop, r) ->
      honest it -> length (it_tr it) < fuel ->
      va_try_extend_loop K fuel len c b it w = (c', b', r', ODone, w') ->
      modest e w' /\
      capd (granted e) (use c) (use c') /\ tidy c' /\ (tidy c -> fullr (use c) (use c')) /\
      capped (now (granted e)) (bit_buffer b) (bit_buffer b') /\ (bytes b <= bytes b')%N.
    Proof.
      induction fuel as [|fuel IH]; intros len c b it w os r c' b' r' w' Hc Hq Hb Hw Hwt Hr Hh Hf; [lia|].
      cbn [va_try_extend_loop]. pose proof (honest_va_chunk K it Hh) as Hhc.
      destruct (k_try_extend K c (va_chunk K it) w) as [[[c1 [it1 vs]] o1] w1] eqn:E1.
      assert (Hroll : forall cc bb w0 rr, (let '(c'', b'', o3) := va_rollback K cc bb len in
        (c'', b'', rr, o3, w0)) = (c', b', r', ODone, w') -> False).
      { intros cc bb w0 rr. unfold va_rollback.
        destruct (va_truncate K _ _) as [vv oo]. destruct (va_bm vv); [|discriminate].
        destruct oo; discriminate. }
      destruct o1; try discriminate; [|intros E; destruct (Hroll _ _ _ _ E)].
      assert (Hbits : forall ys b1 ru w2, modest e w1 ->
        bm_try_extend b (it_list ys) w1 = (b1, ru, ODone, w2) ->
        bm_ok b1 /\ modest e w2 /\
        capped (now (granted e)) (bit_buffer b) (bit_buffer b1) /\ (bytes b <= bytes b1)%N).
      { intros ys b1 ru w2 Hw1 E2.
        destruct (bm_try_extend_bound _ _ _ _ _ _ _ _ _ Hb Hw1 (run_list ys) (honest_list _) E2)
          as (X0 & X1 & X2).
        split; [exact (proj1 (bm_try_extend_spec _ _ _ _ _ _ _ _ _ _ Hb (run_list _) E2))|].
        split; [exact X0|]. split; [|exact X1]. apply bit_capped. exact X2. }
      pose proof (rising_granted e) as Hg.
      destruct (va_chunk_run K it os FStop r Hr) as (it' & [(Hle & Hrc & Hr' & Hlen & _)|(Hlt & Hrc & Hsrc)]).
      - pose proof (honest_va_rest K it it' _ _ _ _ _ _ Hh Hr Hle Hrc) as Hh'.
        set (os1 := firstn chunk os) in *. set (os2 := skipn chunk os) in *.
        assert (Hos : os = os1 ++ os2) by (symmetry; apply firstn_skipn).
        assert (Hl1 : length os1 = chunk) by (unfold os1; rewrite firstn_length; lia).
        clearbody os1 os2. subst os. rewrite map_app in Hwt. apply Forall_app in Hwt.
        destruct Hwt as [Hw1 Hw2].
        pose proof (ww_try_extend _ _ _ L _ c _ _ _ _ _ _ _ _ _ Hc Hw1 Hrc E1) as (_ & Ep & zs & _ & [G1 _]).
        injection Ep as -> ->.
        destruct (tb_extend _ _ _ _ _ _ _ B _ _ _ _ _ _ _ _ _ Hc Hq Hw Hw1 Hrc Hhc E1) as (Hm & P1 & P2 & P4).
        destruct (bm_try_extend b (it_list (map is_some os1)) w1) as [[[b1 ru] o2] w2] eqn:E2.
        destruct o2; try discriminate; [|intros E; destruct (Hroll _ _ _ _ E)].
        destruct (Hbits _ _ _ _ Hm E2) as (Hb1 & Hm2 & Q1 & Q2).
        rewrite map_length, Hl1, Nat.ltb_irrefl. intros E.
        destruct (IH len c1 b1 it' w2 os2 r c' b' r' w' G1 (ty_pre _ _ _ _ _ T _ P2) Hb1 Hm2 Hw2 Hr' Hh' ltac:(lia) E)
          as (I0 & I1 & I2 & I4 & I5 & I6).
        split; [exact I0|].
        split; [exact (capd_trans _ _ _ _ Hg P1 (I4 P2) I1)|].
        split; [exact I2|].
        split; [intros Ht; exact (fullr_trans _ _ _ (P4 Ht) (I4 P2))|].
        split; [exact (capped_now_trans _ _ (bit_buffer b1) (bit_buffer b') Hg Q1 I6 I5)|]. lia.
      - pose proof (ww_try_extend _ _ _ L _ c _ _ _ _ _ _ _ _ _ Hc Hwt Hrc E1) as (_ & Ep & zs & _ & [G1 _]).
        injection Ep as -> ->.
        destruct (tb_extend _ _ _ _ _ _ _ B _ _ _ _ _ _ _ _ _ Hc Hq Hw Hwt Hrc Hhc E1) as (Hm & P1 & P2 & P4).
        destruct (bm_try_extend b (it_list (map is_some os)) w1) as [[[b1 ru] o2] w2] eqn:E2.
        destruct o2; try discriminate; [|intros E; destruct (Hroll _ _ _ _ E)].
        destruct (Hbits _ _ _ _ Hm E2) as (Hb1 & Hm2 & Q1 & Q2).
        rewrite map_length. assert (Nat.ltb (length os) chunk = true) as -> by (apply Nat.ltb_lt; auto).
        intros E. injection E as <- <- _ <-. auto 8.
    Qed.

    Lemma va_try_bounds : TryBounds (validity_coll K) (owt K wt : cA (validity_coll K) -> Prop)
      (wvalidity K d) va_use va_tidy va_pre e.
    Proof.
      pose proof (rising_granted e) as Hg. split.
      intros R v it w os r v' r' w' Hv Hq Hw Hwt Hr Hh E.
      change (validity (cC K)) in v, v'. change (iter (option (cA K)) R) in it.
      change (list (option (cA K))) in os. change (wva_inv K d v) in Hv. change (pre (va_coll v)) in Hq.
      apply (wva_wt K wt d L) in Hwt.
      change (va_try_extend K v it w = (v', r', ODone, w')) in E. unfold va_try_extend in E.
      rewrite (wva_len K wt d L v Hv) in E.
      destruct (va_try_materialize K v w) as [[v1 o1] w1] eqn:E1.
      destruct (wva_try_materialize K wt d L _ _ _ _ _ Hv E1) as [(-> & b & Hp)|(-> & _)]; [|discriminate].
      destruct (va_try_materialize_bound _ _ _ _ _ Hw E1) as (Hw1 & Hc & Hb1 & Hf1 & Hsame).
      pose proof Hp as (Hb & _ & Hi & Ha). rewrite Hb in *.
      assert (Hbm : bm_ok b) by (destruct Hi as [_ Hi]; rewrite Hb in Hi; apply Hi).
      assert (Hlen : length (wva_abs K d v) = length (bm_abs b)).
      { rewrite (wva_abs_length K d v Hv), <- Ha. unfold wva_bits. rewrite Hb. reflexivity. }
      destruct (wprep_ready K wt d L v v1 b (length (wva_abs K d v)) Hp Hlen) as (c2 & Et & Hrd).
      rewrite Et in E. pose proof Hrd as (R1 & R2 & R3 & _).
      destruct (va_try_extend_loop K _ _ c2 b it w1) as [[[[c3 b3] r3] o3] w3] eqn:El. injection E as <- _ -> <-.
      rewrite Hc in Et. destruct (ty_truncate _ _ _ _ _ T _ _ _ _ (proj1 Hv) Et) as (T1 & T2 & T3).
      assert (Hl1 : length (wva_abs K d v) <= length (w_abs d c2)) by lia.
      assert (Hl2 : length (wva_abs K d v) <= length (bm_abs b)) by lia.
      pose proof (wva_try_loop K wt d L _ _ _ _ _ _ _ _ _ _ _ _ _ _ R1 R2 Hl1 Hl2 Hwt Hr (Nat.lt_succ_diag_r _) El)
        as (_ & _ & ys & Hys & [_ Gr] & (S1 & S2 & S3 & _)).
      destruct (va_try_loop_bound _ _ _ _ _ _ _ _ _ _ _ _ R1 (T3 Hq) R2 Hw1 Hwt Hr Hh (Nat.lt_succ_diag_r _) El)
        as (I0 & I1 & I2 & I4 & I5 & I6).
      unfold va_use, va_tidy. cbn [va_coll va_bm obuf]. split; [exact I0|].
      split; [|split; [split; [exact I2|]|]].
      - apply Forall2_app; [exact (stdy_capd _ _ _ _ T1 I1)|]. apply one.
        refine (capped_now_trans _ _ _ _ Hg _ _ I5); [exact Hb1|exact I6].
      - rewrite Gr, app_length, R3. apply Forall2_length' in Hys. rewrite map_length in Hys.
        rewrite <- (bm_abs_length b3 S1), S3, app_length, map_length. lia.
      - intros [G1 G2]. apply Forall2_app.
        + assert (Hs : use c2 = use (va_coll v)).
          { apply (ty_still _ _ _ _ _ T _ _ _ _ (proj1 Hv) G1) in Et; [exact Et|].
            unfold lenN. rewrite Hlen, (bm_abs_length b Hbm). destruct (va_bm v) as [b0|] eqn:E0.
            - assert (v1 = v) as -> by (apply Hsame; discriminate). rewrite E0 in Hb.
              injection Hb as ->. lia.
            - unfold wva_bits in Ha. rewrite Hb, E0 in Ha.
              rewrite <- (bm_abs_length b Hbm), Ha, repeat_length. lia. }
          rewrite <- Hs. apply I4, T2, G1.
        + apply one. unfold fuller in *. cbn [obuf] in Hf1.
          eapply N.le_trans; [exact Hf1|]. exact I6.
    Qed.
  End TryExtend.
End Null.
