(** * Facts about the ownership of exported memory *)
From Coq Require Import List NArith ZArith Bool Arith Lia ZifyBool ZifyNat ZifyN Permutation.
From Verif Require Import Base Iter VecModel BitmapModel CollModel ValidityModel FlattenModel
  OffsetsModel LayoutModel FfiModel FfiHeapModel SpecHeap.
Import ListNotations.

Lemma block_eqb_spec a b : reflect (a = b) (block_eqb a b).
Proof.
  destruct a, b; cbn [block_eqb]; try (constructor; discriminate);
    destruct (Nat.eqb_spec depth depth0); constructor; congruence.
Qed.
Lemma block_eqb_refl a : block_eqb a a = true.
Proof. destruct (block_eqb_spec a a); congruence. Qed.
Lemma block_dec (a b : block) : {a = b} + {a <> b}.
Proof. destruct (block_eqb_spec a b); auto. Qed.

(** ** Heaps *)

Lemma lookup_in b h : lookup b h <> None <-> In b (map fst h).
Proof.
  induction h as [|[b' c] h IH]; cbn [lookup map fst In]; [tauto|].
  destruct (block_eqb_spec b b') as [->|Hn]; [split; [auto|discriminate]|].
  rewrite IH. split; [auto|intros [E|H]; [congruence|auto]].
Qed.
Lemma lookup_remove b b' h : lookup b (remove b' h) = if block_eqb b' b then None else lookup b h.
Proof.
  induction h as [|[x c] h IH]; cbn [remove filter lookup fst].
  - destruct (block_eqb b' b); reflexivity.
  - fold (remove b' h). destruct (block_eqb_spec b' x) as [->|Hn]; cbn [negb].
    + rewrite IH. destruct (block_eqb_spec x b) as [->|]; [reflexivity|].
      destruct (block_eqb_spec b x); [congruence|reflexivity].
    + cbn [lookup]. rewrite IH. destruct (block_eqb_spec b x) as [->|]; [|reflexivity].
      destruct (block_eqb_spec b' x); [congruence|reflexivity].
Qed.
Lemma lookup_update b b' c h :
  lookup b (update b' c h) = if block_eqb b' b then (if is_some (lookup b h) then Some c else None) else lookup b h.
Proof.
  induction h as [|[x y] h IH]; cbn [update lookup].
  - destruct (block_eqb b' b); reflexivity.
  - destruct (block_eqb_spec b' x) as [->|Hn]; cbn [lookup].
    + destruct (block_eqb_spec b x) as [->|]; [rewrite block_eqb_refl; reflexivity|].
      destruct (block_eqb_spec x b); [congruence|reflexivity].
    + rewrite IH. destruct (block_eqb_spec b x) as [->|]; [|reflexivity].
      destruct (block_eqb_spec b' x); [congruence|reflexivity].
Qed.
Lemma lookup_app b h1 h2 :
  lookup b (h1 ++ h2) = match lookup b h1 with Some c => Some c | None => lookup b h2 end.
Proof.
  induction h1 as [|[x y] h IH]; cbn [app lookup]; [reflexivity|].
  destruct (block_eqb b x); [reflexivity|exact IH].
Qed.

(** [h'] is [h] without the blocks of [l]. *)
Definition minus (h : heap) (l : list block) (h' : heap) : Prop :=
  (forall b, In b l -> lookup b h' = None) /\ (forall b, ~ In b l -> lookup b h' = lookup b h).
Lemma minus_nil h : minus h [] h.
Proof. split; [intros b []|reflexivity]. Qed.
Lemma minus_app h l1 h1 l2 h2 : minus h l1 h1 -> minus h1 l2 h2 -> minus h (l1 ++ l2) h2.
Proof.
  intros [A1 A2] [B1 B2]. split; intros b Hb.
  - destruct (in_dec block_dec b l2) as [H|H]; [auto|]. rewrite B2 by auto. apply A1.
    apply in_app_or in Hb. tauto.
  - rewrite B2, A2; auto; intros H; apply Hb, in_or_app; auto.
Qed.
Lemma minus_same h l1 l2 h' : (forall b, In b l1 <-> In b l2) -> minus h l1 h' -> minus h l2 h'.
Proof.
  intros E [A1 A2]. split; intros b Hb; [apply A1|apply A2]; rewrite E; exact Hb.
Qed.
Definition all_in (h : heap) (l : list block) : Prop := forall b, In b l -> lookup b h <> None.
Lemma all_in_minus h l1 h1 l2 : minus h l1 h1 -> all_in h l2 ->
  (forall b, In b l2 -> ~ In b l1) -> all_in h1 l2.
Proof. intros [A1 A2] H D b Hb. rewrite A2; auto. Qed.

Lemma free_spec b h : lookup b h <> None -> exists h', free b h = Some h' /\ minus h [b] h'.
Proof.
  intros H. unfold free. destruct (lookup b h) eqn:E; [|congruence]. cbn [is_some].
  eexists. split; [reflexivity|]. split.
  - intros x [<-|[]]. rewrite lookup_remove, block_eqb_refl. reflexivity.
  - intros x Hx. rewrite lookup_remove. destruct (block_eqb_spec b x) as [->|]; [|reflexivity].
    destruct Hx. left. reflexivity.
Qed.
Lemma free_all_spec l : forall h, NoDup l -> all_in h l ->
  exists h', free_all l h = Some h' /\ minus h l h'.
Proof.
  induction l as [|b l IH]; intros h Hd Ha; cbn [free_all].
  - exists h. split; [reflexivity|apply minus_nil].
  - apply NoDup_cons_iff in Hd as [Hb Hd].
    destruct (free_spec b h) as (h1 & E & M); [apply Ha; left; reflexivity|]. rewrite E.
    destruct (IH h1 Hd) as (h2 & E2 & M2).
    + apply (all_in_minus _ _ _ _ M); [intros x Hx; apply Ha; right; exact Hx|].
      intros x Hx [->|[]]. contradiction.
    + exists h2. split; [exact E2|]. exact (minus_app _ [b] _ _ _ M M2).
Qed.

(** ** Structures and what they own

    [rep E h s foot]: the structure [s] and its children own the blocks [foot],
    and their buffers are in memory they own themselves or in [E]. *)
Inductive rep (E : list block) (h : heap) : cstruct -> list block -> Prop :=
| rep_dead s : st_live s = false -> rep E h s []
| rep_flat s : st_live s = true -> st_private s = None -> st_buffers s = [] ->
    st_children s = None -> rep E h s []
| rep_leaf s b owner : st_live s = true -> st_private s = Some b -> st_children s = None ->
    incl (st_buffers s) (owner ++ E) ->
    lookup b h = Some (ArrayBox None None owner) -> rep E h s (b :: owner)
| rep_array s b p owner k foot : st_live s = true -> st_private s = Some b ->
    st_children s = Some p -> incl (st_buffers s) (owner ++ E) ->
    lookup b h = Some (ArrayBox (Some k) (Some p) owner) -> lookup p h = Some (Table b) ->
    rep E h k foot -> rep E h s (b :: p :: owner ++ foot)
| rep_schema s b f k foot : st_live s = true -> st_private s = Some b ->
    st_children s = Some b -> incl (st_buffers s) (opt_list f ++ E) ->
    lookup b h = Some (SchemaBox f k) -> rep E h k foot ->
    rep E h s (b :: opt_list f ++ foot).

Lemma rep_frame E h h' s foot : rep E h s foot ->
  (forall b, In b foot -> lookup b h' = lookup b h) -> rep E h' s foot.
Proof.
  induction 1 as [s|s|s b owner|s b p owner k foot H1 H2 H3 H4 H5 H6 H7 IH
                 |s b f k foot H1 H2 H3 H4 H5 H6 IH]; intros Hf.
  - apply rep_dead; auto.
  - apply rep_flat; auto.
  - apply rep_leaf; auto. rewrite Hf; [auto|left; reflexivity].
  - apply (rep_array E h' s b p owner k foot); auto.
    + rewrite Hf; [auto|left; reflexivity].
    + rewrite Hf; [auto|right; left; reflexivity].
    + apply IH. intros x Hx. apply Hf. right. right. apply in_or_app. auto.
  - apply (rep_schema E h' s b f k foot); auto.
    + rewrite Hf; [auto|left; reflexivity].
    + apply IH. intros x Hx. apply Hf. right. apply in_or_app. auto.
Qed.
Lemma rep_weaken E E' h s foot : rep E h s foot -> incl E E' -> rep E' h s foot.
Proof.
  induction 1 as [s|s|s b owner H1 H2 H3 H4 H5|s b p owner k foot H1 H2 H3 H4 H5 H6 H7 IH
                 |s b f k foot H1 H2 H3 H4 H5 H6 IH]; intros Hi.
  - apply rep_dead; auto.
  - apply rep_flat; auto.
  - apply rep_leaf; auto. intros x Hx. apply H4 in Hx.
    apply in_app_or in Hx. apply in_or_app. destruct Hx; auto.
  - apply (rep_array E' h s b p owner k foot); auto. intros x Hx. apply H4 in Hx.
    apply in_app_or in Hx. apply in_or_app. destruct Hx; auto.
  - apply (rep_schema E' h s b f k foot); auto. intros x Hx. apply H4 in Hx.
    apply in_app_or in Hx. apply in_or_app. destruct Hx; auto.
Qed.

Lemma nodup_app {A} (l1 l2 : list A) : NoDup (l1 ++ l2) ->
  NoDup l1 /\ NoDup l2 /\ forall x, In x l1 -> ~ In x l2.
Proof.
  induction l1 as [|a l1 IH]; cbn [app]; intros H; [split; [constructor|auto]|].
  apply NoDup_cons_iff in H as [H1 H2]. destruct (IH H2) as (I1 & I2 & I3).
  split; [constructor; [intros G; apply H1, in_or_app; auto|auto]|]. split; [auto|].
  intros x [<-|Hx]; [intros G; apply H1, in_or_app; auto|auto].
Qed.

Lemma drop_rep E h0 s foot : rep E h0 s foot -> forall h fuel,
  (forall b, In b foot -> lookup b h = lookup b h0) -> NoDup foot -> all_in h foot ->
  length foot < fuel -> exists h', drop_struct fuel s h = Some h' /\ minus h foot h'.
Proof.
  induction 1 as [s H1|s H1 H2 H3 H4|s b owner H1 H2 H3 H4 H5
                 |s b p owner k foot H1 H2 H3 H4 H5 H6 H7 IH
                 |s b f k foot H1 H2 H3 H4 H5 H6 IH]; intros h fuel Hf Hd Ha Hl.
  - exists h. split; [destruct fuel; cbn [drop_struct]; rewrite H1; reflexivity|apply minus_nil].
  - exists h. split; [|apply minus_nil].
    destruct fuel; [cbn in Hl; lia|]. cbn [drop_struct]. rewrite H1, H2. reflexivity.
  - destruct fuel as [|f']; [cbn in Hl; lia|]. cbn [drop_struct]. rewrite H1, H2.
    rewrite Hf, H5 by (left; reflexivity). cbn [hbind opt_list free_all].
    apply NoDup_cons_iff in Hd as [Hb Hd].
    destruct (free_all_spec owner h Hd) as (h1 & E1 & M1); [intros x Hx; apply Ha; right; auto|].
    rewrite E1. cbn [hbind].
    destruct (free_spec b h1) as (h2 & E2 & M2).
    { apply (all_in_minus _ _ _ [b] M1); [|intros x [<-|[]]; auto|left; reflexivity].
      intros x [<-|[]]. apply Ha. left. reflexivity. }
    exists h2. split; [exact E2|]. apply (minus_same _ (owner ++ [b])).
    + intros x. rewrite in_app_iff. cbn [In]. tauto.
    + exact (minus_app _ _ _ _ _ M1 M2).
  - destruct fuel as [|f']; [cbn in Hl; lia|]. cbn [drop_struct]. rewrite H1, H2.
    rewrite Hf, H5 by (left; reflexivity).
    apply NoDup_cons_iff in Hd as [Hb Hd]. apply NoDup_cons_iff in Hd as [Hp Hd].
    destruct (nodup_app _ _ Hd) as (Ho & Hk & Hok).
    destruct (IH h f') as (h1 & E1 & M1); auto.
    { intros x Hx. apply Hf. right. right. apply in_or_app. auto. }
    { intros x Hx. apply Ha. right. right. apply in_or_app. auto. }
    { cbn [length] in Hl. rewrite app_length in Hl. lia. }
    rewrite E1. cbn [hbind opt_list].
    destruct (free_all_spec [p] h1) as (h2 & E2 & M2); [repeat constructor; auto| |].
    { apply (all_in_minus _ _ _ [p] M1); intros x [<-|[]].
      - apply Ha. right. left. reflexivity.
      - intros G. apply Hp, in_or_app. auto. }
    rewrite E2. cbn [hbind]. pose proof (minus_app _ _ _ _ _ M1 M2) as M12.
    destruct (free_all_spec owner h2 Ho) as (h3 & E3 & M3).
    { apply (all_in_minus _ _ _ owner M12); intros x Hx.
      - apply Ha. right. right. apply in_or_app. auto.
      - rewrite in_app_iff. intros [G|[->|[]]]; [eapply Hok; eauto|]. apply Hp, in_or_app. auto. }
    rewrite E3. cbn [hbind]. pose proof (minus_app _ _ _ _ _ M12 M3) as M123.
    destruct (free_spec b h3) as (h4 & E4 & M4).
    { apply (all_in_minus _ _ _ [b] M123); [| |left; reflexivity]; intros x [<-|[]].
      - apply Ha. left. reflexivity.
      - rewrite !in_app_iff. intros [[G|[->|[]]]|G]; apply Hb; cbn [In]; rewrite ?in_app_iff; auto. }
    exists h4. split; [exact E4|]. apply (minus_same _ (((foot ++ [p]) ++ owner) ++ [b])).
    + intros x. cbn [In]. rewrite !in_app_iff. cbn [In]. tauto.
    + exact (minus_app _ _ _ _ _ M123 M4).
  - destruct fuel as [|f']; [cbn in Hl; lia|]. cbn [drop_struct]. rewrite H1, H2.
    rewrite Hf, H5 by (left; reflexivity).
    apply NoDup_cons_iff in Hd as [Hb Hd]. destruct (nodup_app _ _ Hd) as (Ho & Hk & Hok).
    destruct (free_all_spec (opt_list f) h Ho) as (h1 & E1 & M1).
    { intros x Hx. apply Ha. right. apply in_or_app. auto. }
    rewrite E1. cbn [hbind].
    destruct (IH h1 f') as (h2 & E2 & M2); auto.
    { intros x Hx. destruct M1 as [_ M1]. rewrite M1; [apply Hf; right; apply in_or_app; auto|].
      intros G. eapply Hok; eauto. }
    { apply (all_in_minus _ _ _ foot M1); intros x Hx.
      - apply Ha. right. apply in_or_app. auto.
      - intros G. eapply Hok; eauto. }
    { cbn [length] in Hl. rewrite app_length in Hl. lia. }
    rewrite E2. cbn [hbind]. pose proof (minus_app _ _ _ _ _ M1 M2) as M12.
    destruct (free_spec b h2) as (h3 & E3 & M3).
    { apply (all_in_minus _ _ _ [b] M12); [| |left; reflexivity]; intros x [<-|[]].
      - apply Ha. left. reflexivity.
      - exact Hb. }
    exists h3. split; [exact E3|]. apply (minus_same _ ((opt_list f ++ foot) ++ [b])).
    + intros x. cbn [In]. rewrite !in_app_iff. cbn [In]. tauto.
    + exact (minus_app _ _ _ _ _ M12 M3).
Qed.

Lemma fuel_enough h foot : NoDup foot -> all_in h foot -> length foot < fuel_of h.
Proof.
  intros Hd Ha. unfold fuel_of. rewrite <- (map_length fst h).
  apply Nat.lt_succ_r, NoDup_incl_length; [exact Hd|].
  intros b Hb. apply lookup_in. auto.
Qed.

Lemma read_rep E h s foot : rep E h s foot -> forall fuel,
  all_in h foot -> all_in h E -> length foot < fuel -> read fuel s h = true.
Proof.
  intros H. 
  assert (B : forall l own, incl l (own ++ E) -> all_in h own -> all_in h E ->
    forallb (fun b => is_some (lookup b h)) l = true).
  { intros l own Hi Ho He. apply forallb_forall. intros b Hb. apply Hi in Hb.
    destruct (lookup b h) eqn:El; [reflexivity|]. exfalso.
    apply in_app_or in Hb as [Hb|Hb]; [eapply Ho|eapply He]; eauto. }
  induction H as [s H1|s H1 H2 H3 H4|s b owner H1 H2 H3 H4 H5
                 |s b p owner k foot H1 H2 H3 H4 H5 H6 H7 IH
                 |s b f k foot H1 H2 H3 H4 H5 H6 IH]; intros fuel Ha He Hl.
  - destruct fuel; cbn [read]; rewrite H1; reflexivity.
  - destruct fuel; [cbn in Hl; lia|]. cbn [read]. rewrite H1, H2, H3, H4. reflexivity.
  - destruct fuel as [|f']; [cbn in Hl; lia|]. cbn [read]. rewrite H1, H2, H3, H5.
    rewrite (B _ owner H4); auto. intros x Hx. apply Ha. right. exact Hx.
  - destruct fuel as [|f']; [cbn in Hl; lia|]. cbn [read]. rewrite H1, H2, H3, H5, H6, H5.
    rewrite (B _ owner H4); auto.
    + cbn [andb is_some]. apply IH; auto.
      * intros x Hx. apply Ha. right. right. apply in_or_app. auto.
      * cbn [length] in Hl. rewrite app_length in Hl. lia.
    + intros x Hx. apply Ha. right. right. apply in_or_app. auto.
  - destruct fuel as [|f']; [cbn in Hl; lia|]. cbn [read]. rewrite H1, H2, H3, H5.
    rewrite (B _ (opt_list f) H4); auto.
    + cbn [andb is_some]. apply IH; auto.
      * intros x Hx. apply Ha. right. apply in_or_app. auto.
      * cbn [length] in Hl. rewrite app_length in Hl. lia.
    + intros x Hx. apply Ha. right. apply in_or_app. auto.
Qed.

(** ** The structures export returns *)

Definition kind (b : block) : nat :=
  match b with
  | BValidity _ | BValues _ | BOffsets _ => 0
  | BData _ | BPointers _ => 1
  | BSchema _ | BFormat _ => 2
  end.
Definition depth_of (b : block) : nat :=
  match b with
  | BValidity d | BValues d | BOffsets d | BData d | BPointers d | BSchema d | BFormat d => d
  end.
Lemma level_kind d t (c : cC (layout t)) b : In b (level_blocks d t c) -> kind b = 0 /\ depth_of b = d.
Proof.
  unfold level_blocks, level_buffers. destruct t; cbn [flat_map opt_list app In];
    match goal with |- context [match ?m with Some _ => Some (BValidity _) | None => None end] =>
      destruct m end; cbn [opt_list app In]; intros H;
    repeat destruct H as [<-|H]; try contradiction; split; reflexivity.
Qed.
Lemma level_nodup d t (c : cC (layout t)) : NoDup (level_blocks d t c).
Proof.
  unfold level_blocks, level_buffers. destruct t; cbn [flat_map opt_list app];
    match goal with |- context [match ?m with Some _ => Some (BValidity _) | None => None end] =>
      destruct m end; cbn [opt_list app]; repeat constructor; cbn [In];
    intuition discriminate.
Qed.
Lemma storage_kind t : forall d (c : cC (layout t)) b, In b (storage d t c) -> kind b = 0 /\ d <= depth_of b.
Proof.
  induction t as [nl|p nl|n t IH nl|k t IH nl]; intros d c b; cbn [storage]; rewrite in_app_iff;
    (intros [H|H]; [apply level_kind in H; lia|]); try contradiction H; apply IH in H; lia.
Qed.
Lemma storage_nodup t : forall d (c : cC (layout t)), NoDup (storage d t c).
Proof.
  assert (G : forall l1 l2 d, NoDup l1 -> NoDup l2 -> (forall b, In b l1 -> depth_of b = d) ->
    (forall b, In b l2 -> S d <= depth_of b) -> NoDup (l1 ++ l2)).
  { induction l1 as [|b l1 IH]; intros l2 d H1 H2 H3 H4; [exact H2|]. cbn [app].
    apply NoDup_cons_iff in H1 as [H0 H1]. constructor.
    - rewrite in_app_iff. intros [G|G]; [auto|]. apply H4 in G. rewrite (H3 b) in G; [lia|left; auto].
    - apply (IH l2 d); auto. intros x Hx. apply H3. right. exact Hx. }
  induction t as [nl|p nl|n t IH nl|k t IH nl]; intros d c; cbn [storage];
    apply (G _ _ d); try apply level_nodup; try (intros b Hb; apply level_kind in Hb; tauto);
    try apply IH; try constructor; try (intros b []).
  - intros b Hb. apply storage_kind in Hb. tauto.
  - intros b Hb. apply storage_kind in Hb. tauto.
Qed.
Lemma boxes_kind t : forall d b, In b (boxes d t) -> kind b = 1 /\ d <= depth_of b.
Proof.
  induction t as [nl|p nl|n t IH nl|k t IH nl]; intros d b; cbn [boxes In].
  - intros [<-|[]]. cbn. auto.
  - intros [<-|[]]. cbn. auto.
  - intros [<-|[<-|H]]; [cbn; auto|cbn; auto|]. apply IH in H. lia.
  - intros [<-|[<-|H]]; [cbn; auto|cbn; auto|]. apply IH in H. lia.
Qed.
Lemma boxes_nodup t : forall d, NoDup (boxes d t).
Proof.
  induction t as [nl|p nl|n t IH nl|k t IH nl]; intros d; cbn [boxes].
  - repeat constructor; auto.
  - repeat constructor; auto.
  - repeat constructor; [| |apply IH]; cbn [In]; intros H.
    + destruct H as [H|H]; [discriminate|]. apply boxes_kind in H. cbn in H. lia.
    + apply boxes_kind in H. cbn in H. lia.
  - repeat constructor; [| |apply IH]; cbn [In]; intros H.
    + destruct H as [H|H]; [discriminate|]. apply boxes_kind in H. cbn in H. lia.
    + apply boxes_kind in H. cbn in H. lia.
Qed.
Lemma schema_kind t : forall d b, In b (schema_blocks d t) -> kind b = 2 /\ d <= depth_of b.
Proof.
  induction t as [nl|p nl|n t IH nl|k t IH nl]; intros d b; cbn [schema_blocks In].
  - contradiction.
  - contradiction.
  - intros [<-|[<-|H]]; [cbn; auto|cbn; auto|]. apply IH in H. lia.
  - intros [<-|H]; [cbn; auto|]. apply IH in H. lia.
Qed.
Lemma schema_nodup t : forall d, NoDup (schema_blocks d t).
Proof.
  induction t as [nl|p nl|n t IH nl|k t IH nl]; intros d; cbn [schema_blocks].
  - constructor.
  - constructor.
  - repeat constructor; [| |apply IH]; cbn [In]; intros H.
    + destruct H as [H|H]; [discriminate|]. apply schema_kind in H. cbn in H. lia.
    + apply schema_kind in H. cbn in H. lia.
  - constructor; [|apply IH]. intros H. apply schema_kind in H. cbn in H. lia.
Qed.
Lemma array_heap_keys t : forall d o (c : cC (layout t)), map fst (array_heap d t o c) = boxes d t.
Proof.
  induction t as [nl|p nl|n t IH nl|k t IH nl]; intros d o c; cbn [array_heap boxes map fst];
    rewrite ?IH; reflexivity.
Qed.
Lemma schema_heap_keys t : forall d, map fst (schema_heap d t) = schema_blocks d t.
Proof.
  induction t as [nl|p nl|n t IH nl|k t IH nl]; intros d; cbn [schema_heap schema_blocks map fst];
    rewrite ?IH; reflexivity.
Qed.

(** [h] contains the heap [h1]. *)
Definition within (h1 h : heap) : Prop := forall b x, lookup b h1 = Some x -> lookup b h = Some x.
Lemma within_cons b x r h : within ((b, x) :: r) h -> ~ In b (map fst r) ->
  lookup b h = Some x /\ within r h.
Proof.
  intros H Hb. split; [apply H; cbn [lookup]; rewrite block_eqb_refl; reflexivity|].
  intros b' x' E. apply H. cbn [lookup]. destruct (block_eqb_spec b' b) as [->|]; [|exact E].
  exfalso. apply Hb, lookup_in. congruence.
Qed.

Lemma array_rep E h t : forall d owner (c : cC (layout t)), within (array_heap d t owner c) h ->
  incl (storage d t c) (owner ++ E) -> incl (storage d t c) E ->
  exists foot, rep E h (array_struct d t c) foot /\ Permutation foot (boxes d t ++ owner).
Proof.
  assert (Leaf : forall d t owner (c : cC (layout t)),
    match t with TBool _ | TPrim _ _ => True | _ => False end ->
    within [(BData d, ArrayBox None None owner)] h -> incl (storage d t c) (owner ++ E) ->
    exists foot, rep E h (array_struct d t c) foot /\ Permutation foot (BData d :: owner)).
  { intros d t1 owner c Ht Hw Hi. exists (BData d :: owner). split; [|reflexivity].
    apply within_cons in Hw as [Hw _]; [|intros []].
    apply rep_leaf; [reflexivity|reflexivity| |intros x Hx; apply Hi|exact Hw];
      destruct t1; try contradiction; try reflexivity; cbn [storage];
      apply in_or_app; left; exact Hx. }
  assert (Node : forall d t t' owner (c : cC (layout t)) (k : cC (layout t')),
    (forall h0 owner, within h0 h -> h0 = array_heap (S d) t' owner k ->
      incl (storage (S d) t' k) (owner ++ E) -> incl (storage (S d) t' k) E ->
      exists foot, rep E h (array_struct (S d) t' k) foot /\ Permutation foot (boxes (S d) t' ++ owner)) ->
    st_children (array_struct d t c) = Some (BPointers d) ->
    within ((BData d, ArrayBox (Some (array_struct (S d) t' k)) (Some (BPointers d)) owner) ::
      (BPointers d, Table (BData d)) :: array_heap (S d) t' [] k) h ->
    incl (level_blocks d t c) (owner ++ E) -> incl (storage (S d) t' k) E ->
    exists foot, rep E h (array_struct d t c) foot /\
      Permutation foot (BData d :: BPointers d :: boxes (S d) t' ++ owner)).
  { intros d t1 t' owner c k IH Ec Hw Hi Hs.
    apply within_cons in Hw as [Hw1 Hw].
    2: { cbn [map fst In]. rewrite array_heap_keys. intros [H|H]; [discriminate|].
         apply boxes_kind in H. cbn in H. lia. }
    apply within_cons in Hw as [Hw2 Hw].
    2: { rewrite array_heap_keys. intros H. apply boxes_kind in H. cbn in H. lia. }
    destruct (IH _ [] Hw eq_refl Hs Hs) as (foot & Hr & Hp).
    exists (BData d :: BPointers d :: owner ++ foot). split.
    - apply (rep_array E h _ _ _ _ (array_struct (S d) t' k)); auto; reflexivity.
    - do 2 apply perm_skip. rewrite app_nil_r in Hp. rewrite Hp. apply Permutation_app_comm. }
  induction t as [nl|p nl|n t IH nl|k t IH nl]; intros d owner c Hw Hi He.
  - apply (Leaf d (TBool nl)); auto.
  - apply (Leaf d (TPrim p nl)); auto.
  - cbn [boxes]. apply (Node d (TFsl n t nl) t owner c (un_null nl (SFixed n (shape_of t)) c)).
    + intros h0 o H0 ->. apply IH. exact H0.
    + reflexivity.
    + exact Hw.
    + intros x Hx. apply Hi. cbn [storage]. apply in_or_app. auto.
    + intros x Hx. apply He. cbn [storage]. apply in_or_app. auto.
  - cbn [boxes]. apply (Node d (TVsl k t nl) t owner c (of_data (un_null nl (SList k (shape_of t)) c))).
    + intros h0 o H0 ->. apply IH. exact H0.
    + reflexivity.
    + exact Hw.
    + intros x Hx. apply Hi. cbn [storage]. apply in_or_app. auto.
    + intros x Hx. apply He. cbn [storage]. apply in_or_app. auto.
Qed.
Lemma schema_rep h t : forall d, within (schema_heap d t) h ->
  rep [] h (schema_struct d t) (schema_blocks d t).
Proof.
  induction t as [nl|p nl|n t IH nl|k t IH nl]; intros d Hw; cbn [schema_struct schema_blocks schema_heap] in *.
  - apply rep_flat; reflexivity.
  - apply rep_flat; reflexivity.
  - apply within_cons in Hw as [Hw1 Hw].
    2: { cbn [map fst In]. rewrite schema_heap_keys. intros [H|H]; [discriminate|].
         apply schema_kind in H. cbn in H. lia. }
    apply within_cons in Hw as [Hw2 Hw].
    2: { rewrite schema_heap_keys. intros H. apply schema_kind in H. cbn in H. lia. }
    apply (rep_schema [] h _ (BSchema d) (Some (BFormat d)) (schema_struct (S d) t)); auto.
    intros x Hx. exact Hx.
  - apply within_cons in Hw as [Hw1 Hw].
    2: { rewrite schema_heap_keys. intros H. apply schema_kind in H. cbn in H. lia. }
    apply (rep_schema [] h _ (BSchema d) None (schema_struct (S d) t)); auto.
    intros x [].
Qed.

Section Start.
  Variable t : ty.
  Variable c : cC (layout t).
  Let E := storage 0 t c.
  Let h0 := mem (start t c).
  Lemma start_keys b : lookup b h0 <> None <-> In b (array_blocks t c ++ schema_blocks 0 t).
  Proof.
    unfold h0, start. cbn [mem]. rewrite lookup_in, !map_app, map_map, array_heap_keys, schema_heap_keys.
    cbn [fst]. rewrite map_id. unfold array_blocks. rewrite !in_app_iff. tauto.
  Qed.
  Lemma start_within_array : within (array_heap 0 t E c) h0.
  Proof.
    intros b x H. unfold h0, start. cbn [mem]. rewrite !lookup_app.
    assert (Hb : In b (boxes 0 t)) by (rewrite <- (array_heap_keys t 0 E c); apply lookup_in; congruence).
    apply boxes_kind in Hb as [Hb _].
    destruct (lookup b (map (fun b => (b, Bytes)) (storage 0 t c))) as [y|] eqn:El; [exfalso|fold E; rewrite H; reflexivity].
    assert (G : lookup b (map (fun b => (b, Bytes)) (storage 0 t c)) <> None) by congruence.
    rewrite lookup_in, map_map, map_id in G. apply storage_kind in G. lia.
  Qed.
  Lemma start_within_schema : within (schema_heap 0 t) h0.
  Proof.
    intros b x H. unfold h0, start. cbn [mem]. rewrite !lookup_app.
    assert (Hb : In b (schema_blocks 0 t)) by (rewrite <- schema_heap_keys; apply lookup_in; congruence).
    apply schema_kind in Hb as [Hb _].
    destruct (lookup b (map (fun b => (b, Bytes)) (storage 0 t c))) as [y|] eqn:El.
    { exfalso. assert (G : lookup b (map (fun b => (b, Bytes)) (storage 0 t c)) <> None) by congruence.
      rewrite lookup_in, map_map, map_id in G. apply storage_kind in G. lia. }
    destruct (lookup b (array_heap 0 t (storage 0 t c) c)) as [y|] eqn:Ea; [|exact H].
    exfalso. assert (G : lookup b (array_heap 0 t (storage 0 t c) c) <> None) by congruence.
    rewrite lookup_in, array_heap_keys in G. apply boxes_kind in G. lia.
  Qed.
  Lemma start_array : exists foot, rep E h0 (array_struct 0 t c) foot /\
    Permutation foot (array_blocks t c).
  Proof.
    destruct (array_rep E h0 t 0 E c start_within_array) as (foot & H1 & H2).
    - intros x Hx. apply in_or_app. left. exact Hx.
    - intros x Hx. exact Hx.
    - exists foot. split; [exact H1|]. rewrite H2. apply Permutation_app_comm.
  Qed.
  Lemma start_schema : rep E h0 (schema_struct 0 t) (schema_blocks 0 t).
  Proof. apply (rep_weaken []); [apply schema_rep, start_within_schema|intros x []]. Qed.
  Lemma start_nodup : NoDup (array_blocks t c ++ schema_blocks 0 t).
  Proof.
    assert (G : forall l1 l2 : list block, NoDup l1 -> NoDup l2 -> (forall b, In b l1 -> ~ In b l2) -> NoDup (l1 ++ l2)).
    { induction l1 as [|b l1 IH]; intros l2 H1 H2 H3; [exact H2|]. apply NoDup_cons_iff in H1 as [H0 H1].
      cbn [app]. constructor; [rewrite in_app_iff; intros [G|G]; [auto|]|].
      - apply (H3 b); [left; reflexivity|exact G].
      - apply IH; auto. intros x Hx. apply H3. right. exact Hx. }
    apply G; [apply G; [apply storage_nodup|apply boxes_nodup|]|apply schema_nodup|].
    - intros b H1 H2. apply storage_kind in H1. apply boxes_kind in H2. lia.
    - intros b H1 H2. apply schema_kind in H2. unfold array_blocks in H1.
      apply in_app_or in H1 as [H1|H1]; [apply storage_kind in H1|apply boxes_kind in H1]; lia.
  Qed.
End Start.

(** ** Slots *)

Lemma set_length {A} i (x : A) l : length (set i x l) = length l.
Proof. revert i. induction l as [|y l IH]; intros [|i]; cbn [set length]; auto. Qed.
Lemma nth_set {A} i j (x d : A) l :
  nth j (set i x l) d = if Nat.eqb j i && Nat.ltb i (length l) then x else nth j l d.
Proof.
  revert i j. induction l as [|y l IH]; intros i j; cbn [set].
  - destruct (Nat.ltb_spec i (length (@nil A))) as [H|H]; [cbn in H; lia|].
    rewrite andb_false_r. destruct i; reflexivity.
  - destruct i as [|i], j as [|j]; cbn [set nth Nat.eqb andb]; try reflexivity.
    rewrite IH. reflexivity.
Qed.
Lemma nth_snoc {A} i (x d : A) l :
  nth i (l ++ [x]) d = if Nat.ltb i (length l) then nth i l d else if Nat.eqb i (length l) then x else d.
Proof.
  destruct (Nat.ltb_spec i (length l)) as [H|H]; [apply app_nth1; exact H|].
  rewrite app_nth2 by exact H. destruct (Nat.eqb_spec i (length l)) as [->|Hn].
  - rewrite Nat.sub_diag. reflexivity.
  - destruct (i - length l) as [|[|m]] eqn:Em; [lia|reflexivity|reflexivity].
Qed.

Definition here (i : nat) (p : option nat) : bool :=
  match p with Some j => Nat.eqb i j | None => false end.

(** ** Histories on the exported structures *)
Section Top.
  Variable t : ty.
  Variable c : cC (layout t).
  Let E := storage 0 t c.
  Let h0 := mem (start t c).
  Let sa := array_struct 0 t c.
  Let ss := schema_struct 0 t.

  Definition top_inv (st : state) (pa ps : option nat) (n : nat) : Prop :=
    length (slots st) = n /\
    (forall i, here i pa = true -> i < n /\ here i ps = false) /\
    (forall i, here i ps = true -> i < n) /\
    (forall i, if here i pa then get i (slots st) = sa
               else if here i ps then get i (slots st) = ss
               else st_live (get i (slots st)) = false) /\
    (forall b, In b (array_blocks t c) ->
       lookup b (mem st) = match pa with Some _ => lookup b h0 | None => None end) /\
    (forall b, In b (schema_blocks 0 t) ->
       lookup b (mem st) = match ps with Some _ => lookup b h0 | None => None end) /\
    (forall b, ~ In b (array_blocks t c) -> ~ In b (schema_blocks 0 t) -> lookup b (mem st) = None).

  Lemma start_top : top_inv (start t c) (Some 0) (Some 1) 2.
  Proof.
    split; [reflexivity|]. split.
    { intros i Hi. apply Nat.eqb_eq in Hi. subst. split; [lia|reflexivity]. }
    split; [intros i Hi; apply Nat.eqb_eq in Hi; lia|]. split.
    { intros [|[|i]]; cbn [here Nat.eqb]; try reflexivity. unfold get. destruct i; reflexivity. }
    split; [reflexivity|]. split; [reflexivity|].
    intros b Ha Hs. destruct (lookup b (mem (start t c))) eqn:El; [|reflexivity]. exfalso.
    assert (G : lookup b (mem (start t c)) <> None) by congruence.
    apply start_keys in G. apply in_app_or in G. tauto.
  Qed.

  Lemma arr_schema_disjoint b : In b (array_blocks t c) -> ~ In b (schema_blocks 0 t).
  Proof. apply (nodup_app _ _ (start_nodup t c)). Qed.

  (** Moving and dropping structures that own nothing changes nothing. *)
  Lemma drop_dead fuel s h : st_live s = false -> drop_struct fuel s h = Some h.
  Proof. intros H. destruct fuel; cbn [drop_struct]; rewrite H; reflexivity. Qed.

  Lemma top_drop st pa ps n i : top_inv st pa ps n ->
    exists h, drop_struct (fuel_of (mem st)) (get i (slots st)) (mem st) = Some h /\
    top_inv (State (set i gone (slots st)) h) (if here i pa then None else pa)
      (if here i ps then None else ps) n.
  Proof.
    intros (I1 & I2 & I3 & I4 & I5 & I6 & I7).
    assert (Hset : forall j, get j (set i gone (slots st)) =
      if Nat.eqb j i && Nat.ltb i (length (slots st)) then gone else get j (slots st)).
    { intros j. unfold get. rewrite nth_set. reflexivity. }
    pose proof (I4 i) as Hi. destruct (here i pa) eqn:Ea.
    - destruct (I2 i Ea) as [Hn Eps]. rewrite Eps. rewrite Hi.
      destruct (start_array t c) as (foot & Hr & Hp).
      assert (Hin : forall b, In b foot <-> In b (array_blocks t c)).
      { intros b. split; apply Permutation_in; [exact Hp|symmetry; exact Hp]. }
      destruct pa as [ja|]; [|discriminate Ea].
      assert (Hnd : NoDup foot).
      { apply (Permutation_NoDup (l := array_blocks t c)); [symmetry; exact Hp|].
        apply (nodup_app _ _ (start_nodup t c)). }
      assert (Hal : all_in (mem st) foot).
      { intros b Hb. rewrite I5 by (apply Hin; exact Hb). apply start_keys, in_or_app. left. apply Hin. exact Hb. }
      destruct (drop_rep _ _ _ _ Hr (mem st) (fuel_of (mem st))) as (h & Eh & M1 & M2); auto.
      { intros b Hb. apply I5. apply Hin. exact Hb. }
      { apply fuel_enough; auto. }
      exists h. split; [exact Eh|]. apply Nat.eqb_eq in Ea. subst ja.
      split; [cbn [slots]; rewrite set_length; exact I1|].
      split; [discriminate|]. split; [exact I3|]. split.
      { intros j. cbn [here slots]. rewrite Hset. specialize (I4 j). cbn [here] in I4.
        destruct (Nat.eqb_spec j i) as [Hj|Hne]; cbn [andb]; [subst j|].
        - rewrite Eps, I1. assert (Nat.ltb i n = true) as -> by (apply Nat.ltb_lt; exact Hn). reflexivity.
        - exact I4. }
      cbn [mem]. split; [intros b Hb; apply M1, Hin; exact Hb|]. split.
      + intros b Hb. rewrite M2; [apply I6; exact Hb|]. intros G. apply Hin in G.
        exact (arr_schema_disjoint b G Hb).
      + intros b H1 H2. rewrite M2; [apply I7; auto|]. rewrite Hin. exact H1.
    - destruct (here i ps) eqn:Es.
      + rewrite Hi. pose proof (start_schema t c) as Hr. pose proof (I3 i Es) as Hn.
        destruct ps as [js|]; [|discriminate Es].
        assert (Hal : all_in (mem st) (schema_blocks 0 t)).
        { intros b Hb. rewrite I6 by exact Hb. apply start_keys, in_or_app. right. exact Hb. }
        destruct (drop_rep _ _ _ _ Hr (mem st) (fuel_of (mem st))) as (h & Eh & M1 & M2); auto.
        { apply schema_nodup. }
        { apply fuel_enough; [apply schema_nodup|exact Hal]. }
        exists h. split; [exact Eh|]. apply Nat.eqb_eq in Es. subst js.
        split; [cbn [slots]; rewrite set_length; exact I1|].
        split. { intros j Hj. split; [apply (I2 j Hj)|reflexivity]. }
        split; [discriminate|]. split.
        { intros j. cbn [slots]. rewrite Hset. specialize (I4 j). cbn [here] in I4 |- *.
          destruct (Nat.eqb_spec j i) as [Hj|Hne]; cbn [andb]; [subst j|].
          - rewrite Ea, I1. assert (Nat.ltb i n = true) as -> by (apply Nat.ltb_lt; exact Hn). reflexivity.
          - exact I4. }
        cbn [mem]. split.
        * intros b Hb. rewrite M2; [apply I5; exact Hb|]. exact (arr_schema_disjoint b Hb).
        * split; [exact M1|]. intros b H1 H2. rewrite M2; [apply I7; auto|exact H2].
      + exists (mem st). split; [apply drop_dead; exact Hi|].
        split; [cbn [slots]; rewrite set_length; exact I1|]. split; [exact I2|]. split; [exact I3|].
        split; [|auto]. intros j. cbn [slots]. rewrite Hset. specialize (I4 j).
        destruct (Nat.eqb_spec j i) as [Hj|Hne]; cbn [andb]; [subst j|exact I4].
        rewrite Ea, Es in *. destruct (Nat.ltb i (length (slots st))); [reflexivity|exact I4].
  Qed.

  Lemma top_move st pa ps n i : top_inv st pa ps n ->
    top_inv (State (set i (moved (get i (slots st))) (slots st) ++ [get i (slots st)]) (mem st))
      (if here i pa then Some n else pa) (if here i ps then Some n else ps) (S n).
  Proof.
    intros (I1 & I2 & I3 & I4 & I5 & I6 & I7).
    assert (Hget : forall j, get j (set i (moved (get i (slots st))) (slots st) ++ [get i (slots st)]) =
      if Nat.eqb j n then get i (slots st)
      else if Nat.eqb j i && Nat.ltb i n then moved (get i (slots st)) else get j (slots st)).
    { intros j. unfold get at 1. rewrite nth_snoc, set_length, nth_set, I1.
      destruct (Nat.ltb_spec j n) as [H|H].
      - destruct (Nat.eqb_spec j n); [lia|]. reflexivity.
      - destruct (Nat.eqb_spec j n) as [->|Hne]; [reflexivity|].
        destruct (Nat.eqb_spec j i) as [->|Hji]; cbn [andb].
        + destruct (Nat.ltb_spec i n); [lia|]. unfold get. rewrite nth_overflow; [reflexivity|lia].
        + unfold get. rewrite nth_overflow; [reflexivity|lia]. }
    assert (Hfresh : forall p, (forall i, here i p = true -> i < n) -> here n p = false).
    { intros p Hp. destruct (here n p) eqn:En; [|reflexivity]. apply Hp in En. lia. }
    assert (Ea : here n pa = false) by (apply Hfresh; intros j Hj; apply (I2 j Hj)).
    assert (Es : here n ps = false) by (apply Hfresh; exact I3).
    assert (Hone : forall p j k, here j p = true -> here k p = true -> j = k).
    { intros [x|] j k Hj Hk; cbn [here] in *; [|discriminate]. apply Nat.eqb_eq in Hj, Hk. congruence. }
    split; [cbn [slots]; rewrite app_length, set_length, I1; cbn; lia|].
    split.
    { intros j Hj. destruct (here i pa) eqn:Eip.
      - cbn [here] in Hj. apply Nat.eqb_eq in Hj. subst j.
        destruct (I2 i Eip) as [_ ->]. split; [lia|exact Es].
      - destruct (I2 j Hj) as [H1 H2]. split; [lia|]. destruct (here i ps) eqn:Eis; [|exact H2].
        cbn [here]. apply Nat.eqb_neq. lia. }
    split.
    { intros j Hj. destruct (here i ps); [cbn [here] in Hj; apply Nat.eqb_eq in Hj; lia|].
      apply I3 in Hj. lia. }
    split.
    { intros j. cbn [slots]. rewrite Hget. destruct (Nat.eqb_spec j n) as [->|Hjn].
      - pose proof (I4 i) as Hi. destruct (here i pa) eqn:Eip.
        + cbn [here]. rewrite Nat.eqb_refl. exact Hi.
        + rewrite Ea. destruct (here i ps) eqn:Eis; [cbn [here]; rewrite Nat.eqb_refl; exact Hi|].
          rewrite Es. exact Hi.
      - pose proof (I4 j) as Hj. destruct (Nat.eqb_spec j i) as [->|Hji]; cbn [andb].
        + destruct (here i pa) eqn:Eip.
          * cbn [here]. destruct (Nat.eqb_spec i n); [congruence|].
            destruct (I2 i Eip) as [Hin ->]. rewrite (proj2 (I2 i Eip)).
            assert (Nat.ltb i n = true) as -> by (apply Nat.ltb_lt; exact Hin). reflexivity.
          * rewrite Eip. destruct (here i ps) eqn:Eis.
            -- cbn [here]. destruct (Nat.eqb_spec i n); [congruence|].
               assert (Nat.ltb i n = true) as -> by (apply Nat.ltb_lt, I3; exact Eis). reflexivity.
            -- rewrite Eis. destruct (Nat.ltb i n); [reflexivity|exact Hj].
        + assert (Ha : here j (if here i pa then Some n else pa) = here j pa).
          { destruct (here i pa) eqn:Eip; [|reflexivity]. cbn [here].
            destruct (Nat.eqb_spec j n); [congruence|]. destruct (here j pa) eqn:Ejp; [|reflexivity].
            exfalso. apply Hji. eapply Hone; eauto. }
          assert (Hs : here j (if here i ps then Some n else ps) = here j ps).
          { destruct (here i ps) eqn:Eip; [|reflexivity]. cbn [here].
            destruct (Nat.eqb_spec j n); [congruence|]. destruct (here j ps) eqn:Ejp; [|reflexivity].
            exfalso. apply Hji. eapply Hone; eauto. }
          rewrite Ha, Hs. exact Hj. }
    cbn [mem]. split; [|split; [|exact I7]].
    - intros b Hb. rewrite I5 by exact Hb. destruct pa as [x|]; [|reflexivity].
      destruct (here i (Some x)); reflexivity.
    - intros b Hb. rewrite I6 by exact Hb. destruct ps as [x|]; [|reflexivity].
      destruct (here i (Some x)); reflexivity.
  Qed.

  Lemma top_read st pa ps n i : top_inv st pa ps n ->
    read (fuel_of (mem st)) (get i (slots st)) (mem st) = true.
  Proof.
    intros (I1 & I2 & I3 & I4 & I5 & I6 & I7). pose proof (I4 i) as Hi.
    destruct (here i pa) eqn:Ea.
    - destruct pa as [x|]; [|discriminate]. rewrite Hi.
      destruct (start_array t c) as (foot & Hr & Hp).
      assert (Hin : forall b, In b foot <-> In b (array_blocks t c)).
      { intros b. split; apply Permutation_in; [exact Hp|symmetry; exact Hp]. }
      assert (Hal : all_in (mem st) (array_blocks t c)).
      { intros b Hb. rewrite I5 by exact Hb. apply start_keys, in_or_app. auto. }
      assert (Hal' : all_in (mem st) foot) by (intros b Hb; apply Hal, Hin; exact Hb).
      apply (read_rep E _ _ foot); [|exact Hal'| |].
      + apply (rep_frame _ _ _ _ _ Hr). intros b Hb. apply I5, Hin, Hb.
      + intros b Hb. apply Hal. unfold array_blocks. apply in_or_app. left. exact Hb.
      + apply fuel_enough; [|exact Hal'].
        apply (Permutation_NoDup (l := array_blocks t c)); [symmetry; exact Hp|].
        apply (nodup_app _ _ (start_nodup t c)).
    - destruct (here i ps) eqn:Es.
      + destruct ps as [x|]; [|discriminate]. rewrite Hi.
        assert (Hal : all_in (mem st) (schema_blocks 0 t)).
        { intros b Hb. rewrite I6 by exact Hb. apply start_keys, in_or_app. auto. }
        apply (read_rep [] _ _ (schema_blocks 0 t)); [|exact Hal|intros b []|].
        * apply (rep_frame [] h0); [apply schema_rep, start_within_schema|]. exact I6.
        * apply fuel_enough; [apply schema_nodup|exact Hal].
      + destruct (fuel_of (mem st)); cbn [read]; rewrite Hi; reflexivity.
  Qed.

  Lemma top_acts l : forall st pa ps n, top_level l -> top_inv st pa ps n ->
    exists st' n', acts st l = Some st' /\ top_inv st' (holder pa n l) (holder ps n l) n'.
  Proof.
    induction l as [|a l IH]; intros st pa ps n Hl Hi.
    - exists st, n. split; [reflexivity|exact Hi].
    - assert (Hl' : top_level l) by (intros i H; apply (Hl i); right; exact H).
      destruct a as [i|i|i|i|i]; cbn [acts act holder]; fold (here i pa) (here i ps).
      + rewrite (top_read _ _ _ _ i Hi). cbn [hbind]. apply IH; auto.
      + cbn [hbind]. apply IH; [exact Hl'|]. apply top_move. exact Hi.
      + destruct (top_drop _ _ _ _ i Hi) as (h & -> & Hi'). cbn [hbind]. apply IH; auto.
      + destruct (top_drop _ _ _ _ i Hi) as (h & -> & Hi'). cbn [hbind]. apply IH; auto.
      + exfalso. apply (Hl i). left. reflexivity.
  Qed.
  Lemma top_history l st0 : top_inv st0 (Some 0) (Some 1) 2 -> top_level l ->
    exists st, acts st0 l = Some st /\
    forall b, alive st b <->
      (In b (array_blocks t c) /\ array_holder l <> None) \/
      (In b (schema_blocks 0 t) /\ schema_holder l <> None).
  Proof.
    intros H0 Hl. destruct (top_acts l _ _ _ _ Hl H0) as (st & n & E1 & I1 & I2 & I3 & I4 & I5 & I6 & I7).
    exists st. split; [exact E1|]. intros b. unfold alive, array_holder, schema_holder.
    destruct (in_dec block_dec b (array_blocks t c)) as [Ha|Ha].
    - rewrite I5 by exact Ha. pose proof (arr_schema_disjoint b Ha) as Hs.
      assert (G : lookup b h0 <> None) by (apply start_keys, in_or_app; auto).
      destruct (holder (Some 0) 2 l); [|tauto]. split; [left; split; [auto|discriminate]|auto].
    - destruct (in_dec block_dec b (schema_blocks 0 t)) as [Hs|Hs].
      + rewrite I6 by exact Hs.
        assert (G : lookup b h0 <> None) by (apply start_keys, in_or_app; auto).
        destruct (holder (Some 1) 2 l); [|tauto]. split; [right; split; [auto|discriminate]|auto].
      + rewrite I7 by auto. tauto.
  Qed.
End Top.

(** ** Histories that also move children out *)

Lemma concat_set {A} i (x : list A) l : i < length l ->
  Permutation (nth i l [] ++ concat (set i x l)) (x ++ concat l).
Proof.
  revert i. induction l as [|y l IH]; intros i Hi; cbn [length] in Hi; [lia|].
  destruct i as [|i]; cbn [set nth concat].
  - rewrite !app_assoc. apply Permutation_app_tail, Permutation_app_comm.
  - rewrite (app_assoc (nth i l [])), (Permutation_app_comm (nth i l []) y), <- app_assoc.
    rewrite (IH i) by lia. rewrite !app_assoc. apply Permutation_app_tail, Permutation_app_comm.
Qed.
Lemma in_nth_concat {A} i (l : list (list A)) x : In x (nth i l []) -> In x (concat l).
Proof.
  intros H. destruct (Nat.lt_ge_cases i (length l)) as [Hi|Hi].
  - apply in_concat. exists (nth i l []). split; [apply nth_In; exact Hi|exact H].
  - rewrite nth_overflow in H by exact Hi. contradiction.
Qed.
Lemma nodup_concat_nth {A} (l : list (list A)) : NoDup (concat l) -> forall i, NoDup (nth i l []).
Proof.
  induction l as [|y l IH]; intros H [|i]; cbn [nth concat] in *; try constructor.
  - apply (nodup_app _ _ H).
  - apply IH. apply (nodup_app _ _ H).
Qed.
Lemma nodup_concat_disjoint {A} (l : list (list A)) : NoDup (concat l) ->
  forall i j x, i <> j -> In x (nth i l []) -> ~ In x (nth j l []).
Proof.
  induction l as [|y l IH]; intros H i j x Hij Hx Hy.
  - destruct i; contradiction Hx.
  - cbn [concat] in H. destruct (nodup_app _ _ H) as (_ & H2 & H3).
    destruct i as [|i], j as [|j]; cbn [nth] in *; [congruence| | |].
    + apply (H3 x Hx). exact (in_nth_concat _ _ _ Hy).
    + apply (H3 x Hy). exact (in_nth_concat _ _ _ Hx).
    + apply (IH H2 i j x); auto.
Qed.

Section Forest.
  Variable t : ty.
  Variable c : cC (layout t).
  Let E := storage 0 t c.

  (** The slots own disjoint parts of the heap, which are all of it; the box of
      the array owns its storage. *)
  Definition forest (st : state) (p : option nat) (fs : list (list block)) : Prop :=
    length fs = length (slots st) /\
    (forall i, rep E (mem st) (get i (slots st)) (nth i fs [])) /\
    NoDup (concat fs) /\
    (forall b, lookup b (mem st) <> None <-> In b (concat fs)) /\
    (forall i, p = Some i -> i < length fs /\ st_live (get i (slots st)) = true /\
       exists b kid q, st_private (get i (slots st)) = Some b /\
         lookup b (mem st) = Some (ArrayBox kid q E)) /\
    (p = None -> forall b, In b E -> lookup b (mem st) = None).

  Lemma start_forest : exists fs, forest (start t c) (Some 0) fs.
  Proof.
    destruct (start_array t c) as (foot & Hr & Hp).
    exists [foot; schema_blocks 0 t]. split; [reflexivity|].
    assert (Hin : forall b, In b (concat [foot; schema_blocks 0 t]) <->
      In b (array_blocks t c ++ schema_blocks 0 t)).
    { intros b. cbn [concat]. rewrite app_nil_r, !in_app_iff.
      assert (In b foot <-> In b (array_blocks t c)); [|tauto].
      split; apply Permutation_in; [exact Hp|symmetry; exact Hp]. }
    split. { intros [|[|i]]; [exact Hr|apply start_schema|]. destruct i; apply rep_dead; reflexivity. }
    split.
    { apply (Permutation_NoDup (l := array_blocks t c ++ schema_blocks 0 t)); [|apply start_nodup].
      cbn [concat]. rewrite app_nil_r. apply Permutation_app_tail. symmetry. exact Hp. }
    split. { intros b. rewrite Hin. apply start_keys. }
    split; [|discriminate]. intros i [= <-]. split; [cbn; lia|]. split; [reflexivity|].
    destruct t as [nl|pr nl|n t' nl|k t' nl].
    - exists (BData 0), None, None. split; [reflexivity|]. apply (start_within_array _ c). reflexivity.
    - exists (BData 0), None, None. split; [reflexivity|]. apply (start_within_array _ c). reflexivity.
    - eexists (BData 0), _, _. split; [reflexivity|]. apply (start_within_array _ c). reflexivity.
    - eexists (BData 0), _, _. split; [reflexivity|]. apply (start_within_array _ c). reflexivity.
  Qed.

  (** The storage is there as long as the array is not released. *)
  Lemma forest_owner st i fs : forest st (Some i) fs -> incl E (nth i fs []).
  Proof.
    intros (F1 & F2 & F3 & F4 & F5 & F6) b Hb.
    destruct (F5 i eq_refl) as (Hi & Hl & bx & kid & q & Hp & Ho). specialize (F2 i).
    destruct F2 as [s H1|s H1 H2 H3 H4|s b' owner H1 H2 H3 H4 H5
                   |s b' p' owner k foot H1 H2 H3 H4 H5 H6 H7
                   |s b' f k foot H1 H2 H3 H4 H5 H6]; try congruence.
    - assert (b' = bx) by congruence. subst b'. rewrite Ho in H5. injection H5 as _ _ ->.
      right. exact Hb.
    - assert (b' = bx) by congruence. subst b'. rewrite Ho in H5. injection H5 as _ _ ->.
      right. right. apply in_or_app. left. exact Hb.
  Qed.
  Lemma forest_storage st i fs : forest st (Some i) fs -> all_in (mem st) E.
  Proof.
    intros F b Hb. apply (forest_owner _ _ _ F) in Hb. destruct F as (F1 & F2 & F3 & F4 & F5 & F6).
    apply F4. apply (in_nth_concat i). exact Hb.
  Qed.
  Lemma forest_read st i fs j : forest st (Some i) fs ->
    read (fuel_of (mem st)) (get j (slots st)) (mem st) = true.
  Proof.
    intros F. pose proof (forest_storage _ _ _ F) as He. destruct F as (F1 & F2 & F3 & F4 & F5 & F6).
    assert (Ha : all_in (mem st) (nth j fs [])).
    { intros b Hb. apply F4. exact (in_nth_concat _ _ _ Hb). }
    apply (read_rep E _ _ (nth j fs [])); auto.
    apply fuel_enough; [|exact Ha]. apply nodup_concat_nth. exact F3.
  Qed.

  (** The new list of footprints: slot [i] now owns [x], the new slot [y]. *)
  Lemma forest_move st p fs i : forest st p fs ->
    exists fs', forest (State (set i (moved (get i (slots st))) (slots st) ++ [get i (slots st)]) (mem st))
      (if here i p then Some (length (slots st)) else p) fs'.
  Proof.
    intros (F1 & F2 & F3 & F4 & F5 & F6).
    exists (set i [] fs ++ [nth i fs []]). unfold forest. cbn [slots mem].
    assert (Hg : forall j, get j (set i (moved (get i (slots st))) (slots st) ++ [get i (slots st)]) =
      if Nat.ltb j (length fs) then
        (if Nat.eqb j i then moved (get i (slots st)) else get j (slots st))
      else if Nat.eqb j (length fs) then get i (slots st) else gone).
    { intros j. unfold get at 1. rewrite nth_snoc, set_length, nth_set, <- F1.
      destruct (Nat.ltb_spec j (length fs)) as [H|H]; [|reflexivity].
      destruct (Nat.eqb_spec j i) as [->|]; cbn [andb]; [|reflexivity].
      destruct (Nat.ltb_spec i (length fs)); [reflexivity|lia]. }
    assert (Hf : forall j, nth j (set i [] fs ++ [nth i fs []]) [] =
      if Nat.ltb j (length fs) then (if Nat.eqb j i then [] else nth j fs [])
      else if Nat.eqb j (length fs) then nth i fs [] else []).
    { intros j. rewrite nth_snoc, set_length, nth_set.
      destruct (Nat.ltb_spec j (length fs)) as [H|H]; [|reflexivity].
      destruct (Nat.eqb_spec j i) as [->|]; cbn [andb]; [|reflexivity].
      destruct (Nat.ltb_spec i (length fs)); [reflexivity|lia]. }
    assert (Hp : Permutation (concat (set i [] fs ++ [nth i fs []])) (concat fs)).
    { rewrite concat_app. cbn [concat]. rewrite app_nil_r.
      destruct (Nat.lt_ge_cases i (length fs)) as [Hi|Hi].
      - rewrite Permutation_app_comm. apply (concat_set i [] fs Hi).
      - rewrite (nth_overflow fs) by exact Hi. rewrite app_nil_r.
        replace (set i [] fs) with fs; [reflexivity|]. clear -Hi. revert i Hi.
        induction fs as [|f fs IH]; intros [|i] Hi; cbn [set length] in *; try reflexivity; [lia|].
        f_equal. apply IH. lia. }
    split; [rewrite !app_length, !set_length, F1; reflexivity|]. split.
    { intros j. rewrite Hg, Hf. destruct (Nat.ltb j (length fs)).
      - destruct (Nat.eqb_spec j i); [apply rep_dead; reflexivity|apply F2].
      - destruct (Nat.eqb j (length fs)); [apply F2|apply rep_dead; reflexivity]. }
    split; [apply (Permutation_NoDup (l := concat fs)); [symmetry; exact Hp|exact F3]|].
    split.
    { intros b. rewrite F4. split; apply Permutation_in; [symmetry; exact Hp|exact Hp]. }
    split; [|destruct (here i p); [discriminate|exact F6]].
    intros j Ej. rewrite Hg. rewrite app_length, set_length. cbn [length].
    destruct (here i p) eqn:Eh.
    - destruct p as [x|]; [|discriminate]. apply Nat.eqb_eq in Eh. subst x.
      injection Ej as <-. destruct (F5 i eq_refl) as (Hi & Hl & H). rewrite <- F1.
      rewrite Nat.ltb_irrefl, Nat.eqb_refl. split; [lia|]. auto.
    - destruct (F5 j Ej) as (Hj & Hl & H). subst p. cbn [here] in Eh.
      assert (Nat.ltb j (length fs) = true) as -> by (apply Nat.ltb_lt; exact Hj).
      rewrite Nat.eqb_sym, Eh. split; [lia|]. auto.
  Qed.

  Lemma forest_drop st p fs i : forest st p fs ->
    exists h, drop_struct (fuel_of (mem st)) (get i (slots st)) (mem st) = Some h /\
    exists fs', forest (State (set i gone (slots st)) h) (if here i p then None else p) fs'.
  Proof.
    intros F. pose proof F as (F1 & F2 & F3 & F4 & F5 & F6).
    assert (Ha : all_in (mem st) (nth i fs [])).
    { intros b Hb. apply F4. exact (in_nth_concat _ _ _ Hb). }
    pose proof (nodup_concat_nth fs F3 i) as Hd.
    destruct (drop_rep _ _ _ _ (F2 i) (mem st) (fuel_of (mem st))) as (h & Eh & M1 & M2); auto.
    { apply fuel_enough; auto. }
    exists h. split; [exact Eh|]. exists (set i [] fs). unfold forest. cbn [slots mem].
    assert (Hg : forall j, get j (set i gone (slots st)) =
      if Nat.eqb j i && Nat.ltb i (length fs) then gone else get j (slots st)).
    { intros j. unfold get at 1. rewrite nth_set, F1. reflexivity. }
    split; [rewrite !set_length; exact F1|]. split.
    { intros j. rewrite Hg, nth_set. destruct (Nat.eqb_spec j i) as [->|Hj]; cbn [andb].
      - destruct (Nat.ltb_spec i (length fs)) as [Hi|Hi]; [apply rep_dead; reflexivity|].
        rewrite nth_overflow by exact Hi. unfold get. rewrite nth_overflow by lia.
        apply rep_dead. reflexivity.
      - apply (rep_frame _ _ _ _ _ (F2 j)). intros b Hb. apply M2.
        exact (nodup_concat_disjoint fs F3 j i b Hj Hb). }
    assert (Hin : forall b, In b (concat (set i [] fs)) <-> In b (concat fs) /\ ~ In b (nth i fs [])).
    { intros b. destruct (Nat.lt_ge_cases i (length fs)) as [Hi|Hi].
      - pose proof (concat_set i [] fs Hi) as P. cbn [app] in P.
        assert (N1 : NoDup (nth i fs [] ++ concat (set i [] fs))).
        { apply (Permutation_NoDup (l := concat fs)); [symmetry; exact P|exact F3]. }
        destruct (nodup_app _ _ N1) as (_ & _ & D). split.
        + intros H. split; [|intros G; exact (D b G H)].
          apply (Permutation_in _ P), in_or_app. auto.
        + intros [H G]. apply (Permutation_in _ (Permutation_sym P)) in H.
          apply in_app_or in H. tauto.
      - rewrite (nth_overflow fs) by exact Hi.
        replace (set i [] fs) with fs; [cbn [In]; tauto|]. clear -Hi. revert i Hi.
        induction fs as [|f fs IH]; intros [|i] Hi; cbn [set length] in *; try reflexivity; [lia|].
        f_equal. apply IH. lia. }
    split.
    { destruct (Nat.lt_ge_cases i (length fs)) as [Hi|Hi].
      - apply (nodup_app (nth i fs [])). apply (Permutation_NoDup (l := concat fs)); [|exact F3].
        symmetry. apply (concat_set i [] fs Hi).
      - replace (set i [] fs) with fs; [exact F3|]. clear -Hi. revert i Hi.
        induction fs as [|f fs IH]; intros [|i] Hi; cbn [set length] in *; try reflexivity; [lia|].
        f_equal. apply IH. lia. }
    split.
    { intros b. rewrite Hin. destruct (in_dec block_dec b (nth i fs [])) as [H|H].
      - rewrite (M1 b H). tauto.
      - rewrite (M2 b H), F4. tauto. }
    split.
    2: { intros Ep b Hb. destruct (here i p) eqn:Ehp.
         - destruct p as [x|]; [|discriminate Ehp]. apply Nat.eqb_eq in Ehp. subst x.
           apply M1. exact (forest_owner _ _ _ F b Hb).
         - destruct (in_dec block_dec b (nth i fs [])) as [G|G]; [auto|].
           rewrite M2 by exact G. auto. }
    intros j Ej. destruct (here i p) eqn:Ehp; [discriminate|]. subst p. cbn [here] in Ehp.
    destruct (F5 j eq_refl) as (Hj & Hl & bx & kid & q & Hp & Ho).
    rewrite set_length, Hg, Nat.eqb_sym, Ehp. cbn [andb]. split; [exact Hj|]. split; [exact Hl|].
    exists bx, kid, q. split; [exact Hp|]. rewrite M2; [exact Ho|].
    assert (Hbx : In bx (nth j fs [])).
    { specialize (F2 j). destruct F2 as [s H1|s H1 H2 H3 H4|s b' owner H1 H2 H3 H4 H5
                   |s b' p' owner k foot H1 H2 H3 H4 H5 H6 H7
                   |s b' f k foot H1 H2 H3 H4 H5 H6]; try congruence;
        (assert (b' = bx) by congruence; left; auto). }
    apply (nodup_concat_disjoint fs F3 j i bx); [|exact Hbx].
    apply Nat.eqb_neq in Ehp. congruence.
  Qed.

  (** The child [k] of slot [i] and what it owns get a slot of their own. *)
  Lemma forest_split st p fs i x k foot b cell h : forest st p fs ->
    nth i fs [] = x ++ foot -> i < length fs -> In b x -> lookup b (mem st) <> None ->
    h = update b cell (mem st) -> rep E h (get i (slots st)) x -> rep E h k foot ->
    (forall kid q, lookup b (mem st) = Some (ArrayBox kid q E) ->
       exists kid' q', cell = ArrayBox kid' q' E) ->
    exists fs', forest (State (slots st ++ [k]) h) p fs'.
  Proof.
    intros (F1 & F2 & F3 & F4 & F5 & F6) En Hi Hbx Hb -> Hri Hrk Hc.
    assert (Hup : forall y, y <> b -> lookup y (update b cell (mem st)) = lookup y (mem st)).
    { intros y Hy. rewrite lookup_update. destruct (block_eqb_spec b y); [congruence|reflexivity]. }
    assert (Hub : lookup b (update b cell (mem st)) = Some cell).
    { rewrite lookup_update, block_eqb_refl. destruct (lookup b (mem st)); [reflexivity|congruence]. }
    assert (Hbi : In b (nth i fs [])) by (rewrite En; apply in_or_app; auto).
    assert (P : Permutation (concat (set i x fs ++ [foot])) (concat fs)).
    { rewrite concat_app. cbn [concat]. rewrite app_nil_r, Permutation_app_comm.
      apply (Permutation_app_inv_l x). rewrite app_assoc, <- En. apply concat_set. exact Hi. }
    exists (set i x fs ++ [foot]). unfold forest. cbn [slots mem].
    assert (Hf : forall j, nth j (set i x fs ++ [foot]) [] =
      if Nat.ltb j (length fs) then (if Nat.eqb j i then x else nth j fs [])
      else if Nat.eqb j (length fs) then foot else []).
    { intros j. rewrite nth_snoc, set_length, nth_set.
      destruct (Nat.ltb_spec j (length fs)) as [H|H]; [|reflexivity].
      destruct (Nat.eqb_spec j i) as [->|]; cbn [andb]; [|reflexivity].
      destruct (Nat.ltb_spec i (length fs)); [reflexivity|lia]. }
    assert (Hg : forall j, get j (slots st ++ [k]) =
      if Nat.ltb j (length fs) then get j (slots st)
      else if Nat.eqb j (length fs) then k else gone).
    { intros j. unfold get at 1. rewrite nth_snoc, F1. reflexivity. }
    split; [rewrite !app_length, set_length, F1; reflexivity|]. split.
    { intros j. rewrite Hg, Hf. destruct (Nat.ltb_spec j (length fs)) as [Hj|Hj].
      - destruct (Nat.eqb_spec j i) as [->|Hji]; [exact Hri|].
        apply (rep_frame _ _ _ _ _ (F2 j)). intros y Hy. apply Hup. intros ->.
        exact (nodup_concat_disjoint fs F3 j i b Hji Hy Hbi).
      - destruct (Nat.eqb j (length fs)); [exact Hrk|apply rep_dead; reflexivity]. }
    split; [apply (Permutation_NoDup (l := concat fs)); [symmetry; exact P|exact F3]|].
    split.
    { intros y. assert (In y (concat (set i x fs ++ [foot])) <-> In y (concat fs)) as ->.
      { split; apply Permutation_in; [exact P|symmetry; exact P]. }
      rewrite <- F4. destruct (block_dec y b) as [->|Hy]; [|rewrite Hup by exact Hy; reflexivity].
      rewrite Hub. split; [auto|discriminate]. }
    split.
    2: { intros Ep y Hy. rewrite Hup; [auto|]. intros ->. apply Hb, F6; auto. }
    intros j Ej. destruct (F5 j Ej) as (Hj & Hl & bx & kid & q & Hp & Ho).
    rewrite app_length, set_length, Hg. cbn [length].
    assert (Nat.ltb j (length fs) = true) as -> by (apply Nat.ltb_lt; exact Hj).
    split; [lia|]. split; [exact Hl|]. destruct (block_dec bx b) as [->|Hne].
    - destruct (Hc _ _ Ho) as (kid' & q' & ->). exists b, kid', q'. auto.
    - exists bx, kid, q. rewrite Hup by exact Hne. auto.
  Qed.
  Lemma forest_none st p fs : forest st p fs ->
    exists fs', forest (State (slots st ++ [gone]) (mem st)) p fs'.
  Proof.
    intros (F1 & F2 & F3 & F4 & F5 & F6). exists (fs ++ [[]]). unfold forest. cbn [slots mem].
    rewrite !app_length, F1, concat_app. cbn [length concat]. rewrite !app_nil_r.
    split; [reflexivity|]. split; [|split; [exact F3|split; [exact F4|split; [|exact F6]]]].
    - intros j. unfold get. rewrite !nth_snoc, F1.
      destruct (Nat.ltb j (length (slots st))); [apply F2|].
      destruct (Nat.eqb j (length (slots st))); apply rep_dead; reflexivity.
    - intros j Ej. destruct (F5 j Ej) as (Hj & H). rewrite F1 in Hj. split; [lia|].
      unfold get. rewrite nth_snoc. assert (Nat.ltb j (length (slots st)) = true) as -> by (apply Nat.ltb_lt; exact Hj).
      exact H.
  Qed.
  Lemma forest_child st p fs i : forest st p fs ->
    exists k h fs', move_child (get i (slots st)) (mem st) = Some (k, h) /\
      forest (State (slots st ++ [k]) h) p fs'.
  Proof.
    intros F. destruct (forest_none _ _ _ F) as (fs0 & F0).
    pose proof F as (F1 & F2 & F3 & F4 & F5 & F6).
    assert (Hlt : st_live (get i (slots st)) = true -> i < length fs).
    { intros H. destruct (Nat.lt_ge_cases i (length fs)) as [Hi|Hi]; [exact Hi|].
      unfold get in H. rewrite nth_overflow in H by lia. discriminate. }
    pose proof (nodup_concat_nth fs F3 i) as Hd.
    pose proof (F2 i) as Hr. inversion Hr as [s H1 Es Ef|s H1 H2 H3 H4 Es Ef|s b owner H1 H2 H3 H4 H5 Es Ef
      |s b q owner k foot H1 H2 H3 H4 H5 H6 H7 Es Ef|s b f k foot H1 H2 H3 H4 H5 H6 Es Ef];
      subst s; unfold move_child; rewrite H1.
    - exists gone, (mem st), fs0. auto.
    - rewrite H4. exists gone, (mem st), fs0. auto.
    - rewrite H3. exists gone, (mem st), fs0. auto.
    - rewrite H3, H6, H5.
      assert (En : nth i fs [] = (b :: q :: owner) ++ foot) by (rewrite <- Ef; reflexivity).
      rewrite En in Hd. destruct (nodup_app _ _ Hd) as (D1 & D2 & D3).
      assert (Hqb : b <> q) by (intros ->; apply NoDup_cons_iff in D1; apply D1; left; reflexivity).
      destruct (forest_split st p fs i (b :: q :: owner) k foot b
        (ArrayBox (Some (moved k)) (Some q) owner)
        (update b (ArrayBox (Some (moved k)) (Some q) owner) (mem st)) F En (Hlt H1)
        (or_introl eq_refl))
        as (fs' & F'); auto.
      + congruence.
      + replace (b :: q :: owner) with (b :: q :: owner ++ []) by (rewrite app_nil_r; reflexivity).
        apply (rep_array E _ _ b q owner (moved k)); auto.
        * rewrite lookup_update, block_eqb_refl, H5. reflexivity.
        * rewrite lookup_update. destruct (block_eqb_spec b q); [congruence|exact H6].
        * apply rep_dead. reflexivity.
      + apply (rep_frame _ _ _ _ _ H7). intros y Hy. rewrite lookup_update.
        destruct (block_eqb_spec b y) as [->|]; [|reflexivity].
        exfalso. apply (D3 y); [left; reflexivity|exact Hy].
      + intros kid q' Ho. rewrite H5 in Ho. injection Ho as _ _ ->. eauto.
      + eauto.
    - rewrite H3, H5.
      assert (En : nth i fs [] = (b :: opt_list f) ++ foot) by (rewrite <- Ef; reflexivity).
      rewrite En in Hd. destruct (nodup_app _ _ Hd) as (D1 & D2 & D3).
      destruct (forest_split st p fs i (b :: opt_list f) k foot b
        (SchemaBox f (moved k)) (update b (SchemaBox f (moved k)) (mem st)) F En (Hlt H1)
        (or_introl eq_refl))
        as (fs' & F'); auto.
      + congruence.
      + replace (b :: opt_list f) with (b :: opt_list f ++ []) by (rewrite app_nil_r; reflexivity).
        apply (rep_schema E _ _ b f (moved k)); auto.
        * rewrite lookup_update, block_eqb_refl, H5. reflexivity.
        * apply rep_dead. reflexivity.
      + apply (rep_frame _ _ _ _ _ H6). intros y Hy. rewrite lookup_update.
        destruct (block_eqb_spec b y) as [->|]; [|reflexivity].
        exfalso. apply (D3 y); [left; reflexivity|exact Hy].
      + intros kid q' Ho. congruence.
      + eauto.
  Qed.

  Lemma forest_acts l : forall st p fs,
    (forall l1 i l2, l = l1 ++ Read i :: l2 -> holder p (length (slots st)) l1 <> None) ->
    forest st p fs -> exists st' fs', acts st l = Some st' /\
      forest st' (holder p (length (slots st)) l) fs'.
  Proof.
    induction l as [|a l IH]; intros st p fs Hg F.
    - exists st, fs. split; [reflexivity|exact F].
    - assert (Hg' : forall n' p', (forall l1, holder p (length (slots st)) (a :: l1) = holder p' n' l1) ->
        forall l1 i l2, l = l1 ++ Read i :: l2 -> holder p' n' l1 <> None).
      { intros n' p' E' l1 i l2 ->. rewrite <- E'. apply (Hg (a :: l1) i l2). reflexivity. }
      assert (Go : forall st' p', (forall l1, holder p (length (slots st)) (a :: l1) = holder p' (length (slots st')) l1) ->
        act st a = Some st' -> (exists fs', forest st' p' fs') ->
        exists st'' fs', acts st (a :: l) = Some st'' /\
          forest st'' (holder p (length (slots st)) (a :: l)) fs').
      { intros st' p' E' Ea (fs' & F'). cbn [acts]. rewrite Ea, E'. cbn [hbind].
        apply (IH st' p' fs'); [|exact F']. apply Hg'. exact E'. }
      destruct a as [i|i|i|i|i].
      + apply (Go st p); [reflexivity| |eauto]. cbn [act].
        destruct p as [x|]; [|exfalso; apply (Hg [] i l eq_refl); reflexivity].
        rewrite (forest_read _ _ _ i F). reflexivity.
      + eapply Go; [|reflexivity|apply (forest_move _ _ _ i F)].
        intros l1. cbn [holder slots]. rewrite app_length, set_length, Nat.add_1_r. reflexivity.
      + destruct (forest_drop _ _ _ i F) as (h & Eh & F').
        eapply Go; [|cbn [act]; rewrite Eh; reflexivity|exact F'].
        intros l1. cbn [holder slots]. rewrite set_length. reflexivity.
      + destruct (forest_drop _ _ _ i F) as (h & Eh & F').
        eapply Go; [|cbn [act]; rewrite Eh; reflexivity|exact F'].
        intros l1. cbn [holder slots]. rewrite set_length. reflexivity.
      + destruct (forest_child _ _ _ i F) as (k & h & fs' & Ek & F').
        eapply Go; [|cbn [act]; rewrite Ek; reflexivity|eauto].
        intros l1. cbn [holder slots]. rewrite app_length, Nat.add_1_r. reflexivity.
  Qed.
  Lemma forest_history l st0 fs : forest st0 (Some 0) fs -> length (slots st0) = 2 ->
    guarded l -> exists st, acts st0 l = Some st /\
    (forall b, In b (storage 0 t c) -> alive st b <-> array_holder l <> None) /\
    ((forall i, st_live (get i (slots st)) = false) -> forall b, ~ alive st b).
  Proof.
    intros F H2 Hg.
    destruct (forest_acts l st0 (Some 0) fs) as (st & fs' & Ea & F'); [rewrite H2; exact Hg|exact F|].
    exists st. split; [exact Ea|]. split.
    - intros b Hb. unfold array_holder, alive.
      rewrite H2 in F'.
      destruct (holder (Some 0) 2 l) as [x|] eqn:Ex.
      + split; [discriminate|]. intros _. exact (forest_storage _ _ _ F' b Hb).
      + destruct F' as (F1 & F2 & F3 & F4 & F5 & F6). rewrite (F6 eq_refl b Hb). tauto.
    - intros Hd b Hb. destruct F' as (F1 & F2 & F3 & F4 & F5 & F6). apply F4 in Hb.
      apply in_concat in Hb as (f & Hf & Hb). apply (In_nth _ _ []) in Hf as (i & _ & <-).
      specialize (F2 i). specialize (Hd i). inversion F2 as [s H1 Es Ef|s H1|s b' owner H1
        |s b' q owner k foot H1|s b' f k foot H1]; subst; try congruence.
      rewrite <- Ef in Hb. exact Hb.
  Qed.
End Forest.

Lemma same_buffers addr d t c :
  map (option_map cb_addr) (x_buffers addr d t c) = map (option_map addr) (level_buffers d t c).
Proof.
  assert (B : forall m b, option_map cb_addr (bits_ptr (addr b) m) =
    option_map addr (match m : option bitmap with Some _ => Some b | None => None end)).
  { intros [m|] b; reflexivity. }
  destruct t; cbn [x_buffers level_buffers map]; rewrite B; reflexivity.
Qed.
