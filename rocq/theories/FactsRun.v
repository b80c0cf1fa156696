(** * Facts about the memory export allocates and frees *)
From Coq Require Import List NArith ZArith Bool Arith Lia ZifyBool ZifyNat ZifyN Permutation.
From Verif Require Import Base Iter VecModel BitmapModel CollModel ValidityModel FlattenModel
  OffsetsModel LayoutModel FfiModel FfiHeapModel FfiExportModel SpecHeap FactsHeap.
Import ListNotations.

(** [h'] is [h] with the cells of [h1] on top. *)
Definition over (h1 h h' : heap) : Prop :=
  forall b, lookup b h' = match lookup b h1 with Some x => Some x | None => lookup b h end.

Lemma lookup_new b b' x h : lookup b (new b' x h) = if block_eqb b b' then Some x else lookup b h.
Proof. reflexivity. Qed.

Lemma box_lookup d kid p b (h : heap) own :
  lookup b (set_child_pointers d (Some kid) own (new (BData d) p h)) =
  lookup b ((BData d, ArrayBox (Some kid) (Some (BPointers d)) own) ::
    (BPointers d, Table (BData d)) :: h).
Proof.
  cbn [set_child_pointers new update block_eqb lookup]. rewrite Nat.eqb_refl. cbn [lookup].
  destruct b; cbn [block_eqb]; try reflexivity; destruct (Nat.eqb _ _); reflexivity.
Qed.

Definition like {A B} (x : xres A) (y : xres B) : Prop :=
  match x, y with
  | XOk _, XOk _ => True
  | XErr a, XErr b => a = b
  | XPnc, XPnc => True
  | _, _ => False
  end.

Lemma run_child_spec addr t : forall d c h,
  like (fst (run_child d t c h)) (child_array addr d t c) /\
  match run_child d t c h with
  | (XOk s, h') => s = array_struct d t c /\ over (array_heap d t [] c) h h'
  | (_, h') => h' = h
  end.
Proof.
  assert (Node : forall d t t' (c : cC (layout t)) (k : cC (layout t')) h h',
    over (array_heap (S d) t' [] k) h h' ->
    over ((BData d, ArrayBox (Some (array_struct (S d) t' k)) (Some (BPointers d)) []) ::
      (BPointers d, Table (BData d)) :: array_heap (S d) t' [] k) h
      (set_child_pointers d (Some (array_struct (S d) t' k)) []
        (new (BData d) (ArrayBox (Some (array_struct (S d) t' k)) None []) h'))).
  { intros d t1 t' c k h h' Ho b. rewrite box_lookup. cbn [lookup].
    destruct (block_eqb b (BData d)); [reflexivity|].
    destruct (block_eqb b (BPointers d)); [reflexivity|]. apply Ho. }
  induction t as [nl|p nl|n t IH nl|k t IH nl]; intros d c h; cbn [run_child child_array];
    (destruct (x_offset _ c =? 0)%N; [|split; reflexivity]);
    (destruct (obind (k_len _ c) i64_from) as [len|]; cbn [xout xbind]; [|split; reflexivity || exact I]);
    (destruct (x_null_count _ c) as [nulls|]; cbn [xout xbind]; [|split; reflexivity || exact I]).
  - split; [exact I|]. split; [reflexivity|]. intros b.
    cbn [set_child_pointers new array_heap lookup]. destruct (block_eqb b (BData d)); reflexivity.
  - split; [exact I|]. split; [reflexivity|]. intros b.
    cbn [set_child_pointers new array_heap lookup]. destruct (block_eqb b (BData d)); reflexivity.
  - specialize (IH (S d) (un_null nl (SFixed n (shape_of t)) c) h).
    destruct (run_child (S d) t (un_null nl (SFixed n (shape_of t)) c) h) as [x h'].
    cbn [fst] in IH. destruct IH as [L IH].
    destruct x as [s|e|]; destruct (child_array addr (S d) t _) as [a|e'|]; try contradiction;
      cbn [xbind fst like].
    + split; [exact I|]. split; [reflexivity|]. destruct IH as [-> IH].
      exact (Node d (TFsl n t nl) t c _ h h' IH).
    + split; [exact L|exact IH].
    + split; [exact I|exact IH].
  - specialize (IH (S d) (of_data (un_null nl (SList k (shape_of t)) c)) h).
    destruct (run_child (S d) t (of_data (un_null nl (SList k (shape_of t)) c)) h) as [x h'].
    cbn [fst] in IH. destruct IH as [L IH].
    destruct x as [s|e|]; destruct (child_array addr (S d) t _) as [a|e'|]; try contradiction;
      cbn [xbind fst like].
    + split; [exact I|]. split; [reflexivity|]. destruct IH as [-> IH].
      exact (Node d (TVsl k t nl) t c _ h h' IH).
    + split; [exact L|exact IH].
    + split; [exact I|exact IH].
Qed.

Lemma run_schema_spec t : forall d h, let (s, h') := run_schema d t h in
  s = schema_struct d t /\ over (schema_heap d t) h h'.
Proof.
  induction t as [nl|p nl|n t IH nl|k t IH nl]; intros d h; cbn [run_schema schema_heap schema_struct].
  - split; [reflexivity|intros b; reflexivity].
  - split; [reflexivity|intros b; reflexivity].
  - specialize (IH (S d) h). destruct (run_schema (S d) t h) as [s h']. destruct IH as [-> IH].
    split; [reflexivity|]. intros b. rewrite !lookup_new. cbn [lookup].
    destruct (block_eqb b (BSchema d)); [reflexivity|]. destruct (block_eqb b (BFormat d)); [reflexivity|].
    apply IH.
  - specialize (IH (S d) h). destruct (run_schema (S d) t h) as [s h']. destruct IH as [-> IH].
    split; [reflexivity|]. intros b. rewrite !lookup_new. cbn [lookup].
    destruct (block_eqb b (BSchema d)); [reflexivity|]. apply IH.
Qed.

Lemma heap_nil h : (forall b, lookup b h = None) -> h = [].
Proof.
  intros H. destruct h as [|[b x] h]; [reflexivity|]. specialize (H b). cbn [lookup] in H.
  rewrite block_eqb_refl in H. discriminate.
Qed.

Section Run.
  Variable t : ty.
  Variable c : cC (layout t).
  Let E := storage 0 t c.

  Lemma owned_in b : lookup b (owned t c) <> None <-> In b E.
  Proof. unfold owned. rewrite lookup_in, map_map. cbn [fst]. rewrite map_id. reflexivity. Qed.
  Lemma owned_none b : ~ In b E -> lookup b (owned t c) = None.
  Proof.
    intros H. destruct (lookup b (owned t c)) eqn:El; [|reflexivity]. exfalso. apply H, owned_in. congruence.
  Qed.

  Lemma free_owned : free_all E (owned t c) = Some [].
  Proof.
    destruct (free_all_spec E (owned t c) (storage_nodup t 0 c)) as (h & Eh & M1 & M2).
    { intros b Hb. apply owned_in. exact Hb. }
    rewrite Eh. f_equal. apply heap_nil. intros b. destruct (in_dec block_dec b E) as [H|H]; [auto|].
    rewrite M2 by exact H. apply owned_none. exact H.
  Qed.

  (** Dropping the box frees all there is if the box and its children own it. *)
  Lemma drop_private_all h :
    within (array_heap 0 t E c) h -> (forall b, lookup b h <> None <-> In b (array_blocks t c)) ->
    drop_private h = Some [].
  Proof.
    intros Hw Hk. destruct (array_rep E h t 0 E c Hw) as (foot & Hr & Hp).
    { intros x Hx. apply in_or_app. left. exact Hx. }
    { intros x Hx. exact Hx. }
    assert (Hin : forall b, In b foot <-> In b (array_blocks t c)).
    { intros b. unfold array_blocks. rewrite in_app_iff. fold E.
      assert (In b foot <-> In b (boxes 0 t ++ E)).
      { split; apply Permutation_in; [exact Hp|symmetry; exact Hp]. }
      rewrite in_app_iff in H. tauto. }
    assert (Hd : NoDup foot).
    { apply (Permutation_NoDup (l := array_blocks t c)).
      - rewrite Hp. apply Permutation_app_comm.
      - apply (nodup_app _ _ (start_nodup t c)). }
    assert (Ha : all_in h foot) by (intros b Hb; apply Hk, Hin; exact Hb).
    destruct (drop_rep _ _ _ _ Hr h (fuel_of h)) as (h' & Eh & M1 & M2); auto.
    { apply fuel_enough; auto. }
    transitivity (drop_struct (fuel_of h) (array_struct 0 t c) h); [reflexivity|].
    rewrite Eh. f_equal. apply heap_nil. intros b.
    destruct (in_dec block_dec b foot) as [H|H]; [auto|]. rewrite M2 by exact H.
    destruct (lookup b h) eqn:El; [|reflexivity]. exfalso. apply H, Hin, Hk. congruence.
  Qed.
  (** The same before the children are made. *)
  Lemma drop_private_early : drop_private (new (BData 0) (ArrayBox None None E) (owned t c)) = Some [].
  Proof.
    set (h := new (BData 0) (ArrayBox None None E) (owned t c)).
    assert (Hb0 : ~ In (BData 0) E) by (intros H; apply storage_kind in H; cbn in H; lia).
    assert (Hr : rep E h (CStruct true (Some (BData 0)) [] None) (BData 0 :: E)).
    { apply rep_leaf; try reflexivity. intros x []. }
    assert (Ha : all_in h (BData 0 :: E)).
    { intros b [<-|Hb]; unfold h; rewrite lookup_new; [rewrite block_eqb_refl; discriminate|].
      destruct (block_eqb b (BData 0)); [discriminate|]. apply owned_in. exact Hb. }
    assert (Hd : NoDup (BData 0 :: E)) by (constructor; [exact Hb0|apply storage_nodup]).
    destruct (drop_rep _ _ _ _ Hr h (fuel_of h)) as (h' & Eh & M1 & M2); auto.
    { apply fuel_enough; auto. }
    unfold drop_private. rewrite Eh. f_equal. apply heap_nil. intros b.
    destruct (in_dec block_dec b (BData 0 :: E)) as [H|H]; [auto|]. rewrite M2 by exact H.
    unfold h. rewrite lookup_new. destruct (block_eqb_spec b (BData 0)) as [->|Hn].
    - destruct H. left. reflexivity.
    - apply owned_none. intros G. apply H. right. exact G.
  Qed.

  (** With the children and the table. *)
  Definition built_heap (kid : option cstruct) (h1 : heap) : heap :=
    set_child_pointers 0 kid E (update (BData 0) (ArrayBox kid None E) h1).
  Lemma children_spec addr :
    like (fst (run_children t c (new (BData 0) (ArrayBox None None E) (owned t c)))) (x_children addr 0 t c) /\
    match run_children t c (new (BData 0) (ArrayBox None None E) (owned t c)) with
    | (XOk kid, h1) => over (array_heap 0 t E c) (owned t c) (built_heap kid h1)
    | (_, h1) => h1 = new (BData 0) (ArrayBox None None E) (owned t c)
    end.
  Proof.
    unfold built_heap. generalize E. intros own. generalize (owned t c). intros h.
    assert (Node : forall t' (k : cC (layout t')) h1,
      over (array_heap 1 t' [] k) (new (BData 0) (ArrayBox None None own) h) h1 ->
      over ((BData 0, ArrayBox (Some (array_struct 1 t' k)) (Some (BPointers 0)) own) ::
        (BPointers 0, Table (BData 0)) :: array_heap 1 t' [] k) h
        (set_child_pointers 0 (Some (array_struct 1 t' k)) own
          (update (BData 0) (ArrayBox (Some (array_struct 1 t' k)) None own) h1))).
    { intros t' k h1 Ho b. cbn [set_child_pointers].
      rewrite lookup_update, lookup_new, lookup_update. specialize (Ho b). rewrite lookup_new in Ho.
      cbn [lookup]. destruct (block_eqb_spec (BData 0) b) as [<-|Hn].
      - rewrite block_eqb_refl in Ho. cbn [block_eqb Nat.eqb].
        assert (Hk : lookup (BData 0) (array_heap 1 t' [] k) = None).
        { destruct (lookup (BData 0) (array_heap 1 t' [] k)) eqn:El; [|reflexivity]. exfalso.
          assert (G : lookup (BData 0) (array_heap 1 t' [] k) <> None) by congruence.
          rewrite lookup_in, array_heap_keys in G. apply boxes_kind in G. cbn in G. lia. }
        rewrite Hk in Ho. rewrite Ho. reflexivity.
      - destruct (block_eqb_spec b (BData 0)); [congruence|].
        destruct (block_eqb b (BPointers 0)); [reflexivity|exact Ho]. }
    destruct t as [nl|p nl|n t' nl|k t' nl]; cbn [run_children x_children array_heap].
    - split; [exact I|]. intros b. cbn [set_child_pointers new update block_eqb Nat.eqb lookup].
      destruct (block_eqb b (BData 0)); reflexivity.
    - split; [exact I|]. intros b. cbn [set_child_pointers new update block_eqb Nat.eqb lookup].
      destruct (block_eqb b (BData 0)); reflexivity.
    - pose proof (run_child_spec addr t' 1 (un_null nl (SFixed n (shape_of t')) c)
        (new (BData 0) (ArrayBox None None own) h)) as H.
      destruct (run_child 1 t' _ _) as [x h1]. cbn [fst] in H. destruct H as [L H].
      destruct x as [s|e|]; destruct (child_array addr 1 t' _) as [a|e'|]; try contradiction;
        cbn [xbind fst like].
      + split; [exact I|]. destruct H as [-> H]. exact (Node t' _ h1 H).
      + split; [exact L|exact H].
      + split; [exact I|exact H].
    - pose proof (run_child_spec addr t' 1 (of_data (un_null nl (SList k (shape_of t')) c))
        (new (BData 0) (ArrayBox None None own) h)) as H.
      destruct (run_child 1 t' _ _) as [x h1]. cbn [fst] in H. destruct H as [L H].
      destruct x as [s|e|]; destruct (child_array addr 1 t' _) as [a|e'|]; try contradiction;
        cbn [xbind fst like].
      + split; [exact I|]. destruct H as [-> H]. exact (Node t' _ h1 H).
      + split; [exact L|exact H].
      + split; [exact I|exact H].
  Qed.

  Definition alike (st : state) : Prop :=
    slots st = slots (start t c) /\ forall b, lookup b (mem st) = lookup b (mem (start t c)).

  Lemma over_keys h : over (array_heap 0 t E c) (owned t c) h ->
    forall b, lookup b h <> None <-> In b (array_blocks t c).
  Proof.
    intros Ho b. rewrite Ho. unfold array_blocks. rewrite in_app_iff. fold E.
    rewrite <- (owned_in b), <- (array_heap_keys t 0 E c), <- lookup_in.
    destruct (lookup b (array_heap 0 t E c)); [|tauto]. split; [right; discriminate|discriminate].
  Qed.

  Lemma run_spec addr :
    match export addr t c with
    | XOk _ => exists sl h, run_export t c (owned t c) = Some (XOk sl, h) /\ alike (State sl h)
    | XErr o => run_export t c (owned t c) = Some (XErr o, [])
    | XPnc => run_export t c (owned t c) = Some (XPnc, [])
    end.
  Proof.
    unfold export, run_export. destruct (x_offset t c =? 0)%N.
    2:{ fold E. rewrite free_owned. reflexivity. }
    fold E. pose proof (children_spec addr) as [L H].
    destruct (run_children t c (new (BData 0) (ArrayBox None None E) (owned t c))) as [x h1].
    cbn [fst] in L. destruct x as [kid|e|]; destruct (x_children addr 0 t c) as [ks|e'|]; try contradiction;
      cbn [xbind].
    2:{ cbn [like] in L. subst. rewrite drop_private_early. reflexivity. }
    2:{ subst. rewrite drop_private_early. reflexivity. }
    fold (built_heap kid h1).
    assert (Hd : drop_private (built_heap kid h1) = Some []).
    { apply drop_private_all; [|exact (over_keys _ H)]. intros b y Hy. rewrite H, Hy. reflexivity. }
    destruct (obind (k_len (layout t) c) i64_from) as [len|]; cbn [xout xbind].
    2:{ rewrite Hd. reflexivity. }
    destruct (x_null_count t c) as [nulls|]; cbn [xout xbind].
    2:{ rewrite Hd. reflexivity. }
    pose proof (run_schema_spec t 0 (built_heap kid h1)) as Hs.
    destruct (run_schema 0 t (built_heap kid h1)) as [s h3]. destruct Hs as [-> Hs].
    do 2 eexists. split; [reflexivity|]. split; [reflexivity|]. intros b. cbn [mem start].
    rewrite Hs, H, !lookup_app. fold (owned t c). fold E.
    destruct (lookup b (schema_heap 0 t)) as [y|] eqn:Es.
    - assert (G : lookup b (schema_heap 0 t) <> None) by congruence.
      rewrite lookup_in, schema_heap_keys in G. apply schema_kind in G as [G _].
      rewrite owned_none; [|intros K; apply storage_kind in K; lia].
      destruct (lookup b (array_heap 0 t E c)) eqn:Ea; [|reflexivity]. exfalso.
      assert (K : lookup b (array_heap 0 t E c) <> None) by congruence.
      rewrite lookup_in, array_heap_keys in K. apply boxes_kind in K. lia.
    - destruct (lookup b (array_heap 0 t E c)) as [y|] eqn:Ea.
      + rewrite owned_none; [reflexivity|]. intros K. apply storage_kind in K.
        assert (G : lookup b (array_heap 0 t E c) <> None) by congruence.
        rewrite lookup_in, array_heap_keys in G. apply boxes_kind in G. lia.
      + destruct (lookup b (owned t c)); reflexivity.
  Qed.

  Lemma run_alike sl h : run_export t c (owned t c) = Some (XOk sl, h) -> alike (State sl h).
  Proof.
    intros H. pose proof (run_spec (fun _ => 0%N)) as S. destruct (export (fun _ => 0%N) t c).
    - destruct S as (sl' & h' & E' & A). rewrite H in E'. injection E' as <- <-. exact A.
    - congruence.
    - congruence.
  Qed.

  (** ** Histories after the export *)

  Lemma alike_top st : alike st -> top_inv t c st (Some 0) (Some 1) 2.
  Proof.
    intros [Es El]. destruct (start_top t c) as (I1 & I2 & I3 & I4 & I5 & I6 & I7).
    unfold top_inv. rewrite Es. repeat (split; [assumption|]).
    split; [intros b Hb; rewrite El; auto|]. split; [intros b Hb; rewrite El; auto|].
    intros b H1 H2. rewrite El. auto.
  Qed.
  Lemma alike_forest st : alike st -> exists fs, forest t c st (Some 0) fs.
  Proof.
    intros [Es El]. destruct (start_forest t c) as (fs & F1 & F2 & F3 & F4 & F5 & F6).
    exists fs. unfold forest. rewrite Es. split; [exact F1|].
    split. { intros i. apply (rep_frame _ _ _ _ _ (F2 i)). intros b _. apply El. }
    split; [exact F3|]. split; [intros b; rewrite El; apply F4|].
    split; [|discriminate]. intros i Hi. destruct (F5 i Hi) as (G1 & G2 & b & kid & q & G3 & G4).
    split; [exact G1|]. split; [exact G2|]. exists b, kid, q. rewrite El. auto.
  Qed.

  Lemma run_top sl h l : run_export t c (owned t c) = Some (XOk sl, h) -> top_level l ->
    exists st, acts (State sl h) l = Some st /\
    forall b, alive st b <->
      (In b (array_blocks t c) /\ array_holder l <> None) \/
      (In b (schema_blocks 0 t) /\ schema_holder l <> None).
  Proof. intros H. apply top_history, alike_top, run_alike, H. Qed.
  Lemma run_forest sl h l : run_export t c (owned t c) = Some (XOk sl, h) -> guarded l ->
    exists st, acts (State sl h) l = Some st /\
    (forall b, In b (storage 0 t c) -> alive st b <-> array_holder l <> None) /\
    ((forall i, st_live (get i (slots st)) = false) -> forall b, ~ alive st b).
  Proof.
    intros H Hg. apply run_alike in H. destruct (alike_forest _ H) as (fs & F).
    apply (forest_history t c l (State sl h) fs F); [|exact Hg]. rewrite (proj1 H). reflexivity.
  Qed.
  Lemma run_failures addr :
    match export addr t c with
    | XOk _ => exists sl h, run_export t c (owned t c) = Some (XOk sl, h)
    | XErr o => run_export t c (owned t c) = Some (XErr o, [])
    | XPnc => run_export t c (owned t c) = Some (XPnc, [])
    end.
  Proof.
    pose proof (run_spec addr) as H. destruct (export addr t c); [|exact H|exact H].
    destruct H as (sl & h & H & _). eauto.
  Qed.
End Run.
