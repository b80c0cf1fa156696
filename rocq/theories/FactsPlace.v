(** * Facts about exported arrays with shared, inline and static buffers

    Every step is followed by one of the model with a block for every buffer,
    FfiHeapModel.v and FfiExportModel.v, of which FactsHeap.v and FactsRun.v show
    what there is to know. *)
From Coq Require Import List NArith ZArith Bool Arith Lia ZifyBool ZifyNat ZifyN Permutation.
From Verif Require Import Base Iter VecModel BitmapModel CollModel ValidityModel FlattenModel
  OffsetsModel LayoutModel FfiModel FfiHeapModel FfiExportModel FfiPlaceModel SpecHeap FactsHeap FactsRun
  SpecPlace.
Import ListNotations.

Lemma pfind_filter b b' l : pfind b (filter (fun p => negb (block_eqb b' (fst p))) l) =
  if block_eqb b' b then None else pfind b l.
Proof.
  induction l as [|[q x] l IH]; [destruct (block_eqb b' b); reflexivity|].
  cbn [filter pfind fst]. destruct (block_eqb_spec b' q) as [->|Hq]; cbn [negb].
  - rewrite IH. destruct (block_eqb_spec b q) as [->|Hb]; [rewrite block_eqb_refl; reflexivity|].
    destruct (block_eqb_spec q b); congruence.
  - cbn [pfind]. rewrite IH. destruct (block_eqb_spec b q) as [->|Hb]; [|reflexivity].
    destruct (block_eqb_spec b' q); congruence.
Qed.
Lemma pfind_change b b' x l : pfind b (pchange b' x l) =
  if block_eqb b' b then (match pfind b l with Some _ => Some x | None => None end) else pfind b l.
Proof.
  induction l as [|[q y] l IH]; [destruct (block_eqb b' b); reflexivity|].
  cbn [pchange pfind]. destruct (block_eqb_spec b' q) as [->|Hq]; cbn [pfind].
  - destruct (block_eqb_spec b q) as [->|Hb]; [rewrite block_eqb_refl; reflexivity|].
    destruct (block_eqb_spec q b); congruence.
  - rewrite IH. destruct (block_eqb_spec b q) as [->|Hb]; [|reflexivity].
    destruct (block_eqb_spec b' q); congruence.
Qed.

Lemma filter_ext_in' {A} (f g : A -> bool) l : (forall x, In x l -> f x = g x) -> filter f l = filter g l.
Proof.
  induction l as [|x l IH]; intros H; [reflexivity|]. cbn [filter]. rewrite (H x (or_introl eq_refl)).
  rewrite IH; [reflexivity|]. intros y Hy. apply H. right. exact Hy.
Qed.
(** One element less *)
Lemma filter_one {A} (f g : A -> bool) l x : NoDup l -> In x l -> f x = true -> g x = false ->
  (forall y, y <> x -> g y = f y) -> length (filter f l) = S (length (filter g l)).
Proof.
  intros Hd Hx Hf Hg Ho. induction Hd as [|y l Hy Hd IH]; [destruct Hx|]. cbn [filter].
  destruct Hx as [->|Hx].
  - rewrite Hf, Hg. cbn [length]. do 2 f_equal. apply filter_ext_in'. intros z Hz. symmetry. apply Ho. congruence.
  - rewrite Ho by congruence. destruct (f y); cbn [length]; rewrite IH by exact Hx; reflexivity.
Qed.

Section Place.
  Context (w : block -> place) (t : ty) (c : cC (layout t)).
  Let E := storage 0 t c.
  Let L := levels t.

  (** ** The corresponding state *)
  Definition own (b : block) : bool :=
    if Nat.eqb (kind b) 0 then match w b with Own => true | _ => false end else true.
  Definition point (b : block) : ptr :=
    if Nat.eqb (kind b) 0 then ptr_in (Some (BData 0)) (hold w b) else PBlock b.
  Definition pstr (s : cstruct) : pstruct :=
    PStruct (st_live s) (st_private s) (map point (st_buffers s)) (st_children s).
  Definition pcel (x : cell) : pcell :=
    match x with
    | Bytes => PBytes
    | Table b => PTable b
    | ArrayBox kid p o => PArrayBox (option_map pstr kid) p (map (hold w) o)
    | SchemaBox f kid => PSchemaBox f (pstr kid)
    end.
  Definition shared_in (i : nat) (h : heap) (b : block) : bool :=
    match w b with Shared j => Nat.eqb j i && is_some (lookup b h) | _ => false end.
  Definition sim (e : nat -> nat) (h : heap) (m : pheap) : Prop :=
    (forall b, at_block b m =
      match lookup b h with Some x => if own b then Some (pcel x) else None | None => None end) /\
    (forall i, strong m i = e i + length (filter (shared_in i h) E)).

  Lemma own_kind b : kind b <> 0 -> own b = true.
  Proof. intros H. unfold own. apply Nat.eqb_neq in H. rewrite H. reflexivity. Qed.
  Lemma E_kind b : In b E -> kind b = 0.
  Proof. intros H. apply storage_kind in H. tauto. Qed.

  Lemma sim_at e h m b : sim e h m -> kind b <> 0 -> at_block b m = option_map pcel (lookup b h).
  Proof. intros [SM _] H. rewrite SM, own_kind by exact H. destruct (lookup b h); reflexivity. Qed.
  Lemma sim_same_shared e e' h h' m' :
    (forall b, In b E -> is_some (lookup b h') = is_some (lookup b h)) ->
    (forall i, strong m' i = e i + length (filter (shared_in i h) E)) -> (forall i, e' i = e i) ->
    forall i, strong m' i = e' i + length (filter (shared_in i h') E).
  Proof.
    intros Hl Hs He i. rewrite Hs, He. do 2 f_equal. apply filter_ext_in'. intros b Hb.
    unfold shared_in. rewrite Hl by exact Hb. reflexivity.
  Qed.

  Lemma sim_new e h m b x : sim e h m -> kind b <> 0 -> sim e (new b x h) (pnew b (pcel x) m).
  Proof.
    intros [S1 S2] Hb. split.
    - intros q. unfold at_block, pnew. cbn [cells pfind]. rewrite lookup_new.
      destruct (block_eqb_spec q b) as [->|_]; [rewrite own_kind by exact Hb; reflexivity|apply S1].
    - apply (sim_same_shared e e h); [|exact S2|reflexivity]. intros q Hq. rewrite lookup_new.
      destruct (block_eqb_spec q b) as [->|_]; [|reflexivity]. destruct Hb. apply E_kind. exact Hq.
  Qed.
  Lemma sim_update e h m b x : sim e h m -> kind b <> 0 -> sim e (update b x h) (pupdate b (pcel x) m).
  Proof.
    intros [S1 S2] Hb. split.
    - intros q. unfold at_block, pupdate. cbn [cells]. rewrite pfind_change, lookup_update.
      destruct (block_eqb_spec b q) as [<-|_]; [|apply S1].
      change (pfind b (cells m)) with (at_block b m). rewrite S1, own_kind by exact Hb.
      destruct (lookup b h); reflexivity.
    - apply (sim_same_shared e e h); [|exact S2|reflexivity]. intros q Hq. rewrite lookup_update.
      destruct (block_eqb_spec b q) as [->|_]; [|reflexivity]. destruct Hb. apply E_kind. exact Hq.
  Qed.
  Lemma free_some b h h' : free b h = Some h' -> lookup b h <> None /\ h' = remove b h.
  Proof.
    unfold free. destruct (lookup b h); cbn [is_some]; [|discriminate]. intros H. injection H as <-.
    split; [discriminate|reflexivity].
  Qed.
  Lemma sim_pfree e h m b h' : sim e h m -> free b h = Some h' -> kind b <> 0 ->
    exists m', pfree b m = Some m' /\ sim e h' m'.
  Proof.
    intros SM F Hb. apply free_some in F as [Hl ->]. unfold pfree. rewrite (sim_at _ _ _ _ SM Hb).
    destruct (lookup b h); [|congruence]. cbn [option_map is_some]. eexists. split; [reflexivity|].
    destruct SM as [S1 S2]. split.
    - intros q. unfold at_block. cbn [cells]. rewrite pfind_filter, lookup_remove.
      destruct (block_eqb b q); [reflexivity|apply S1].
    - apply (sim_same_shared e e h); [|exact S2|reflexivity]. intros q Hq. rewrite lookup_remove.
      destruct (block_eqb_spec b q) as [->|_]; [|reflexivity]. destruct Hb. apply E_kind. exact Hq.
  Qed.
  Lemma sim_pfree_opt e h m o h' : sim e h m -> free_all (opt_list o) h = Some h' ->
    (forall b, o = Some b -> kind b <> 0) -> exists m', pfree_opt o m = Some m' /\ sim e h' m'.
  Proof.
    intros SM F Ho. destruct o as [b|]; cbn [opt_list free_all pfree_opt] in *.
    - destruct (free b h) as [h1|] eqn:Ef; [|discriminate]. injection F as <-.
      apply (sim_pfree _ _ _ _ _ SM Ef). auto.
    - injection F as <-. eauto.
  Qed.

  Lemma sim_drop_buffer e h m b h' : sim e h m -> free b h = Some h' -> In b E ->
    exists m', drop_buffer (hold w b) m = Some m' /\ sim e h' m'.
  Proof.
    intros SM F Hb. apply free_some in F as [Hl ->]. pose proof (E_kind _ Hb) as Hk.
    destruct SM as [S1 S2]. unfold hold. destruct (w b) as [|i| |] eqn:Ew; cbn [drop_buffer].
    - unfold pfree. rewrite S1. unfold own. rewrite Hk, Ew. cbn [Nat.eqb].
      destruct (lookup b h); [|congruence]. cbn [is_some]. eexists. split; [reflexivity|]. split.
      + intros q. unfold at_block. cbn [cells]. rewrite pfind_filter, lookup_remove.
        destruct (block_eqb b q); [reflexivity|apply S1].
      + intros i. cbn [strong]. rewrite S2. do 2 f_equal. apply filter_ext_in'. intros q _.
        unfold shared_in. rewrite lookup_remove. destruct (block_eqb_spec b q) as [<-|_]; [|reflexivity].
        rewrite Ew. reflexivity.
    - assert (Hc : length (filter (shared_in i h) E) = S (length (filter (shared_in i (remove b h)) E))).
      { apply (filter_one _ _ _ b (storage_nodup t 0 c) Hb).
        - unfold shared_in. rewrite Ew, Nat.eqb_refl. destruct (lookup b h); [reflexivity|congruence].
        - unfold shared_in. rewrite Ew, lookup_remove, block_eqb_refl, andb_false_r. reflexivity.
        - intros y Hy. unfold shared_in. rewrite lookup_remove.
          destruct (block_eqb_spec b y); [congruence|reflexivity]. }
      rewrite S2, Hc. replace (e i + S (length (filter (shared_in i (remove b h)) E)))
        with (S (e i + length (filter (shared_in i (remove b h)) E))) by lia.
      eexists. split; [reflexivity|]. split.
      + intros q. unfold at_block. cbn [cells]. rewrite lookup_remove.
        change (pfind q (cells m)) with (at_block q m). rewrite S1.
        destruct (block_eqb_spec b q) as [<-|_]; [|reflexivity].
        unfold own. rewrite Hk, Ew. cbn [Nat.eqb]. destruct (lookup b h); reflexivity.
      + intros j. cbn [strong]. unfold set_count. destruct (Nat.eqb_spec i j) as [->|Hj]; [reflexivity|].
        rewrite S2. do 2 f_equal. apply filter_ext_in'. intros q _. unfold shared_in.
        rewrite lookup_remove. destruct (block_eqb_spec b q) as [<-|_]; [|reflexivity].
        rewrite Ew. apply Nat.eqb_neq in Hj. rewrite Hj. reflexivity.
    - eexists. split; [reflexivity|]. split.
      + intros q. rewrite S1, lookup_remove. destruct (block_eqb_spec b q) as [<-|_]; [|reflexivity].
        unfold own. rewrite Hk, Ew. destruct (lookup b h); reflexivity.
      + intros j. rewrite S2. do 2 f_equal. apply filter_ext_in'. intros q _. unfold shared_in.
        rewrite lookup_remove. destruct (block_eqb_spec b q) as [<-|_]; [|reflexivity]. rewrite Ew. reflexivity.
    - eexists. split; [reflexivity|]. split.
      + intros q. rewrite S1, lookup_remove. destruct (block_eqb_spec b q) as [<-|_]; [|reflexivity].
        unfold own. rewrite Hk, Ew. destruct (lookup b h); reflexivity.
      + intros j. rewrite S2. do 2 f_equal. apply filter_ext_in'. intros q _. unfold shared_in.
        rewrite lookup_remove. destruct (block_eqb_spec b q) as [<-|_]; [|reflexivity]. rewrite Ew. reflexivity.
  Qed.
  Lemma sim_drop_buffers o : forall e h m h', sim e h m -> free_all o h = Some h' -> incl o E ->
    exists m', drop_buffers (map (hold w) o) m = Some m' /\ sim e h' m'.
  Proof.
    induction o as [|b o IH]; intros e h m h' SM F Ho; cbn [free_all map drop_buffers] in *.
    - injection F as <-. eauto.
    - destruct (free b h) as [h1|] eqn:Ef; [|discriminate].
      destruct (sim_drop_buffer _ _ _ _ _ SM Ef) as (m1 & -> & S1); [apply Ho; left; reflexivity|].
      cbn [hbind]. apply (IH e h1 m1 h' S1 F). intros q Hq. apply Ho. right. exact Hq.
  Qed.

  (** ** What the heap looks like *)
  Definition okst (d : nat) (s : cstruct) : Prop :=
    (st_private s = None \/ st_private s = Some (BData d) \/ st_private s = Some (BSchema d)) /\
    (st_children s = None \/ st_children s = Some (BPointers d) \/ st_children s = Some (BSchema d)) /\
    (forall b, In b (st_buffers s) -> In b E \/ kind b <> 0).
  Definition okcell (b : block) (x : cell) : Prop :=
    match x with
    | Bytes => True
    | Table q => exists d, b = BPointers d /\ q = BData d
    | ArrayBox kid p o => exists d, b = BData d /\ d <= L /\
        (forall k, kid = Some k -> S d <= L /\ okst (S d) k) /\
        (p = None \/ p = Some (BPointers d)) /\ incl o E /\ (d = 0 -> o = E)
    | SchemaBox f kid => exists d, b = BSchema d /\ S d <= L /\ okst (S d) kid /\
        (f = None \/ f = Some (BFormat d))
    end.
  Definition wf (h : heap) : Prop := forall b x, lookup b h = Some x -> okcell b x.
  (** What is inline is alive only in the box. *)
  Definition pin (h : heap) : Prop :=
    forall b, In b E -> lookup b h <> None -> lookup (BData 0) h <> None.

  Lemma wf_free b h h' : wf h -> free b h = Some h' -> wf h'.
  Proof.
    intros W F. apply free_some in F as [_ ->]. intros q x. rewrite lookup_remove.
    destruct (block_eqb b q); [discriminate|apply W].
  Qed.
  Lemma wf_free_all o : forall h h', wf h -> free_all o h = Some h' -> wf h'.
  Proof.
    induction o as [|b o IH]; intros h h' W F; cbn [free_all] in F; [injection F as <-; exact W|].
    destruct (free b h) eqn:Ef; [|discriminate]. eapply IH; [|exact F]. eapply wf_free; eassumption.
  Qed.
  Lemma pin_free b h h' : pin h -> free b h = Some h' -> b <> BData 0 -> pin h'.
  Proof.
    intros P F Hb. apply free_some in F as [_ ->]. intros q Hq. rewrite !lookup_remove.
    destruct (block_eqb_spec b q); [congruence|]. intros Hl.
    destruct (block_eqb_spec b (BData 0)); [congruence|]. exact (P q Hq Hl).
  Qed.
  Lemma pin_free_all o : forall h h', pin h -> free_all o h = Some h' -> ~ In (BData 0) o -> pin h'.
  Proof.
    induction o as [|b o IH]; intros h h' P F Ho; cbn [free_all] in F; [injection F as <-; exact P|].
    destruct (free b h) eqn:Ef; [|discriminate]. cbn [In] in Ho. eapply IH; [|exact F|tauto].
    eapply pin_free; [eassumption|eassumption|]. intros ->. tauto.
  Qed.
  Lemma free_all_gone o : forall h h', free_all o h = Some h' -> forall b, In b o \/ lookup b h = None -> lookup b h' = None.
  Proof.
    induction o as [|q o IH]; intros h h' F b Hb; cbn [free_all] in F.
    - injection F as <-. destruct Hb as [[]|Hb]. exact Hb.
    - destruct (free q h) as [h1|] eqn:Ef; [|discriminate]. apply (IH _ _ F).
      apply free_some in Ef as [_ ->]. rewrite lookup_remove. destruct (block_eqb_spec q b) as [->|Hn].
      + right. reflexivity.
      + destruct Hb as [[->|Hb]|Hb]; [congruence|left; exact Hb|right; exact Hb].
  Qed.
  Lemma E_not_box : ~ In (BData 0) E.
  Proof. intros H. apply E_kind in H. discriminate. Qed.

  (** ** Steps *)
  Lemma drop_sim f : forall s h h' d f' m e, drop_struct f s h = Some h' -> wf h -> pin h ->
    okst d s -> d <= L -> L - d < f' -> sim e h m ->
    exists m', pdrop f' (pstr s) m = Some m' /\ sim e h' m' /\ wf h' /\ pin h'.
  Proof.
    induction f as [|f IH]; intros s h h' d f' m e D W P O Hd Hf SM.
    - cbn [drop_struct] in D. destruct (st_live s) eqn:Es; [discriminate|]. injection D as <-.
      exists m. destruct f'; cbn [pdrop pstr ps_live]; rewrite Es; auto.
    - cbn [drop_struct] in D. destruct f' as [|f']; [lia|]. cbn [pdrop pstr ps_live ps_private].
      destruct (st_live s); [|injection D as <-; exists m; auto].
      destruct O as (Op & Oc & Ob). destruct (st_private s) as [b|]; [|injection D as <-; exists m; auto].
      assert (Hk : kind b <> 0).
      { destruct Op as [G|[G|G]]; [discriminate|injection G as ->; discriminate|injection G as ->; discriminate]. }
      rewrite (sim_at _ _ _ _ SM Hk). destruct (lookup b h) as [x|] eqn:El; [|discriminate].
      pose proof (W b x El) as Wx. destruct x as [|q|kid p o|fm kid]; try discriminate;
        cbn [option_map pcel okcell] in *.
      + destruct Wx as (d' & -> & Hd' & Wk & Wp & Wo & W0).
        assert (d' = d) by (destruct Op as [G|[G|G]]; congruence). subst d'.
        assert (K : exists h1 m1, (match kid with Some k => drop_struct f k h | None => Some h end) = Some h1 /\
          (match option_map pstr kid with Some k => pdrop f' k m | None => Some m end) = Some m1 /\
          sim e h1 m1 /\ wf h1 /\ pin h1).
        { destruct kid as [k|]; cbn [option_map].
          - destruct (drop_struct f k h) as [h1|] eqn:Ek; [|discriminate].
            destruct (Wk k eq_refl) as [Hd1 Ok].
            destruct (IH k h h1 (S d) f' m e Ek W P Ok Hd1) as (m1 & Em & S1 & W1 & P1); [lia|exact SM|].
            exists h1, m1. auto.
          - exists h, m. auto. }
        destruct K as (h1 & m1 & Ek & -> & S1 & W1 & P1). rewrite Ek in D. cbn [hbind] in D |- *.
        destruct (free_all (opt_list p) h1) as [h2|] eqn:E2; [|discriminate]. cbn [hbind] in D.
        destruct (sim_pfree_opt _ _ _ _ _ S1 E2) as (m2 & -> & S2).
        { intros q ->. destruct Wp as [G|G]; [discriminate|injection G as ->; discriminate]. }
        pose proof (wf_free_all _ _ _ W1 E2) as W2.
        assert (P2 : pin h2).
        { apply (pin_free_all _ _ _ P1 E2). destruct Wp as [->| ->]; cbn [opt_list In]; intros G; [exact G|].
          destruct G as [G|[]]. discriminate. }
        cbn [hbind]. destruct (free_all o h2) as [h3|] eqn:E3; [|discriminate]. cbn [hbind] in D.
        destruct (sim_drop_buffers _ _ _ _ _ S2 E3 Wo) as (m3 & -> & S3). cbn [hbind].
        pose proof (wf_free_all _ _ _ W2 E3) as W3.
        assert (P3 : pin h3) by (apply (pin_free_all _ _ _ P2 E3); intros G; apply E_not_box, Wo, G).
        destruct (sim_pfree _ _ _ _ _ S3 D Hk) as (m4 & Em & S4). exists m4.
        split; [exact Em|]. split; [exact S4|]. split; [exact (wf_free _ _ _ W3 D)|].
        destruct d as [|d].
        * intros q Hq Hl. exfalso. apply Hl. apply free_some in D as [_ ->]. rewrite lookup_remove.
          destruct (block_eqb (BData 0) q); [reflexivity|].
          apply (free_all_gone _ _ _ E3). left. rewrite W0 by reflexivity. exact Hq.
        * apply (pin_free _ _ _ P3 D). discriminate.
      + destruct Wx as (d' & -> & Hd' & Ok & Wf).
        assert (d' = d) by (destruct Op as [G|[G|G]]; congruence). subst d'.
        destruct (free_all (opt_list fm) h) as [h1|] eqn:E1; [|discriminate]. cbn [hbind] in D.
        destruct (sim_pfree_opt _ _ _ _ _ SM E1) as (m1 & -> & S1).
        { intros q ->. destruct Wf as [G|G]; [discriminate|injection G as ->; discriminate]. }
        pose proof (wf_free_all _ _ _ W E1) as W1.
        assert (P1 : pin h1).
        { apply (pin_free_all _ _ _ P E1). destruct Wf as [->| ->]; cbn [opt_list In]; intros G; [exact G|].
          destruct G as [G|[]]. discriminate. }
        cbn [hbind]. destruct (drop_struct f kid h1) as [h2|] eqn:E2; [|discriminate]. cbn [hbind] in D.
        destruct (IH kid h1 h2 (S d) f' m1 e E2 W1 P1 Ok Hd') as (m2 & -> & S2 & W2 & P2); [lia|exact S1|].
        cbn [hbind]. destruct (sim_pfree _ _ _ _ _ S2 D Hk) as (m3 & Em & S3). exists m3.
        split; [exact Em|]. split; [exact S3|]. split; [exact (wf_free _ _ _ W2 D)|].
        apply (pin_free _ _ _ P2 D). discriminate.
  Qed.

  Lemma readable_sim e h m b : sim e h m -> pin h -> In b E \/ kind b <> 0 -> lookup b h <> None ->
    readable_at m (point b) = true.
  Proof.
    intros SM P Hb Hl. unfold point. destruct (Nat.eqb_spec (kind b) 0) as [Hk|Hk].
    - destruct Hb as [Hb|Hb]; [|congruence]. pose proof SM as [S1 S2]. unfold hold.
      destruct (w b) as [|i| |] eqn:Ew; cbn [ptr_in readable_at]; [| | |reflexivity].
      + rewrite S1. unfold own. rewrite Hk, Ew. destruct (lookup b h); [reflexivity|congruence].
      + rewrite S2. apply negb_true_iff, Nat.eqb_neq.
        assert (G : In b (filter (shared_in i h) E)).
        { apply filter_In. split; [exact Hb|]. unfold shared_in. rewrite Ew, Nat.eqb_refl.
          destruct (lookup b h); [reflexivity|congruence]. }
        destruct (filter (shared_in i h) E); [destruct G|]. cbn [length]. lia.
      + rewrite (sim_at _ _ _ _ SM) by discriminate. pose proof (P b Hb Hl) as G.
        destruct (lookup (BData 0) h); [reflexivity|congruence].
    - cbn [readable_at]. rewrite (sim_at _ _ _ _ SM Hk). destruct (lookup b h); [reflexivity|congruence].
  Qed.

  Lemma read_sim f : forall s h d f' m e, read f s h = true -> wf h -> pin h ->
    okst d s -> d <= L -> L - d < f' -> sim e h m -> pread f' (pstr s) m = true.
  Proof.
    induction f as [|f IH]; intros s h d f' m e D W P O Hd Hf SM.
    - cbn [read] in D. destruct f'; cbn [pread pstr ps_live]; destruct (st_live s); congruence.
    - cbn [read] in D. destruct f' as [|f']; [lia|].
      cbn [pread pstr ps_live ps_private ps_buffers ps_children]. destruct (st_live s); [|reflexivity].
      destruct O as (Op & Oc & Ob). apply andb_true_iff in D as [D D3]. apply andb_true_iff in D as [D1 D2].
      apply andb_true_iff. split; [apply andb_true_iff; split|].
      + destruct (st_private s) as [b|]; [|reflexivity]. rewrite (sim_at _ _ _ _ SM).
        * destruct (lookup b h); [reflexivity|discriminate].
        * destruct Op as [G|[G|G]]; [discriminate|injection G as ->; discriminate|injection G as ->; discriminate].
      + rewrite forallb_forall in D2 |- *. intros p Hp. apply in_map_iff in Hp as (b & <- & Hb).
        apply (readable_sim e h); auto. pose proof (D2 b Hb) as G. destruct (lookup b h); [discriminate|discriminate G].
      + destruct (st_children s) as [q|]; [|reflexivity].
        rewrite (sim_at _ _ _ _ SM).
        2:{ destruct Oc as [G|[G|G]]; [discriminate|injection G as ->; discriminate|injection G as ->; discriminate]. }
        destruct (lookup q h) as [x|] eqn:El; [|discriminate]. pose proof (W q x El) as Wx.
        destruct x as [|r|kid p o|fm kid]; try discriminate; cbn [option_map pcel okcell] in *.
        * destruct Wx as (d' & -> & ->).
          assert (d' = d) by (destruct Oc as [G|[G|G]]; congruence). subst d'.
          rewrite (sim_at _ _ _ _ SM) by discriminate. destruct (lookup (BData d) h) as [y|] eqn:Er; [|discriminate].
          pose proof (W _ y Er) as Wy. destruct y as [|r|kid p o|fm kid]; try discriminate;
            cbn [option_map pcel okcell] in *.
          destruct kid as [k|]; [|discriminate]. cbn [option_map].
          destruct Wy as (d' & Hd' & _ & Wk & _). injection Hd' as <-. destruct (Wk k eq_refl) as [G1 G2].
          apply (IH k h (S d) f' m e); auto. lia.
        * destruct Wx as (d' & -> & Hd' & Ok & _).
          assert (d' = d) by (destruct Oc as [G|[G|G]]; congruence). subst d'.
          apply (IH kid h (S d) f' m e); auto. lia.
  Qed.

  Definition okslot (s : cstruct) : Prop := exists d, d <= L /\ okst d s.
  Lemma gone_ok : okslot gone.
  Proof. exists 0. split; [lia|]. split; [left; reflexivity|]. split; [left; reflexivity|intros b []]. Qed.
  Lemma moved_ok d s : okst d s -> okst d (moved s).
  Proof. intros H. exact H. Qed.
  Lemma pmoved_str s : pmoved (pstr s) = pstr (moved s).
  Proof. reflexivity. Qed.

  Lemma wf_update b x y h : wf h -> lookup b h = Some y -> okcell b x -> wf (update b x h).
  Proof.
    intros W El Hx q z. rewrite lookup_update. destruct (block_eqb_spec b q) as [<-|_]; [|apply W].
    rewrite El. intros H. injection H as <-. exact Hx.
  Qed.
  Lemma pin_update b x h : pin h -> pin (update b x h).
  Proof.
    assert (G : forall q, lookup q (update b x h) <> None <-> lookup q h <> None).
    { intros q. rewrite lookup_update. destruct (block_eqb b q); [|tauto].
      destruct (lookup q h); split; intros G; try discriminate; exact G. }
    intros P q Hq Hl. apply G. apply (P q Hq). apply G. exact Hl.
  Qed.

  Lemma move_child_sim s h k h' m e : move_child s h = Some (k, h') -> wf h -> pin h -> okslot s -> sim e h m ->
    exists m', pmove_child (pstr s) m = Some (pstr k, m') /\ sim e h' m' /\ wf h' /\ pin h' /\ okslot k.
  Proof.
    intros D W P (d & Hd & Op & Oc & Ob) SM. unfold move_child in D. unfold pmove_child.
    cbn [pstr ps_live ps_children]. destruct (st_live s).
    2:{ injection D as <- <-. exists m. split; [reflexivity|]. pose proof gone_ok. auto. }
    destruct (st_children s) as [q|].
    2:{ injection D as <- <-. exists m. split; [reflexivity|]. pose proof gone_ok. auto. }
    rewrite (sim_at _ _ _ _ SM).
    2:{ destruct Oc as [G|[G|G]]; [discriminate|injection G as ->; discriminate|injection G as ->; discriminate]. }
    destruct (lookup q h) as [x|] eqn:El; [|discriminate]. pose proof (W q x El) as Wx.
    destruct x as [|r|kid p o|fm kid]; try discriminate; cbn [option_map pcel okcell] in *.
    - destruct Wx as (d' & -> & ->).
      assert (d' = d) by (destruct Oc as [G|[G|G]]; congruence). subst d'.
      rewrite (sim_at _ _ _ _ SM) by discriminate. destruct (lookup (BData d) h) as [y|] eqn:Er; [|discriminate].
      pose proof (W _ y Er) as Wy. destruct y as [|r|kid p o|fm kid]; try discriminate;
        cbn [option_map pcel okcell] in *.
      destruct kid as [k'|]; [|discriminate]. cbn [option_map]. injection D as <- <-.
      destruct Wy as (d' & Hd' & Hl & Wk & Wp & Wo & W0). injection Hd' as <-.
      destruct (Wk k' eq_refl) as [G1 G2]. eexists. split; [reflexivity|]. rewrite pmoved_str.
      split. { apply (sim_update e h m (BData d) (ArrayBox (Some (moved k')) p o) SM). discriminate. }
      split.
      { eapply wf_update; [exact W|exact Er|]. exists d. split; [reflexivity|]. split; [exact Hl|].
        split; [|split; [exact Wp|split; [exact Wo|exact W0]]].
        intros k2 G. injection G as <-. split; [exact G1|apply moved_ok; exact G2]. }
      split; [apply pin_update; exact P|]. exists (S d). auto.
    - destruct Wx as (d' & -> & Hd' & Ok & Wf). injection D as <- <-.
      eexists. split; [reflexivity|]. rewrite pmoved_str.
      split. { apply (sim_update e h m (BSchema d') (SchemaBox fm (moved kid)) SM). discriminate. }
      split.
      { eapply wf_update; [exact W|exact El|]. exists d'. split; [reflexivity|]. split; [exact Hd'|].
        split; [apply moved_ok; exact Ok|exact Wf]. }
      split; [apply pin_update; exact P|]. exists (S d'). auto.
  Qed.

  Definition simst (e : nat -> nat) (st : state) (ps : pstate) : Prop :=
    pslots ps = map pstr (slots st) /\ sim e (mem st) (pmem ps) /\ wf (mem st) /\ pin (mem st) /\
    forall i, okslot (get i (slots st)).

  Lemma pget_map i l : pget i (map pstr l) = pstr (get i l).
  Proof. unfold pget, get. rewrite <- (map_nth pstr). reflexivity. Qed.
  Lemma set_map {A B} (g : A -> B) i x l : set i (g x) (map g l) = map g (set i x l).
  Proof. revert i. induction l as [|y l IH]; intros [|i]; cbn [set map]; [reflexivity..|]. rewrite IH. reflexivity. Qed.

  Lemma act_sim e st a st' ps fuel : act st a = Some st' -> simst e st ps -> L < fuel ->
    exists ps', pact fuel ps (Consumer a) = Some ps' /\ simst e st' ps'.
  Proof.
    intros D (Hs & SM & W & P & O) Hf.
    assert (Release : forall i, hbind (drop_struct (fuel_of (mem st)) (get i (slots st)) (mem st)) (fun h =>
        Some (State (set i gone (slots st)) h)) = Some st' ->
      exists ps', hbind (pdrop fuel (pget i (pslots ps)) (pmem ps)) (fun m =>
        Some (PState (set i pgone (pslots ps)) m)) = Some ps' /\ simst e st' ps').
    { intros i G. destruct (drop_struct _ _ _) as [h'|] eqn:Ed; [|discriminate]. injection G as <-.
      destruct (O i) as (d & Hd & Oi). rewrite Hs, pget_map.
      destruct (drop_sim _ _ _ _ d fuel (pmem ps) e Ed W P Oi Hd) as (m' & -> & SM' & W' & P'); [lia|exact SM|].
      cbn [hbind]. eexists. split; [reflexivity|]. split.
      { cbn [pslots slots]. change pgone with (pstr gone). apply set_map. }
      split; [exact SM'|]. split; [exact W'|]. split; [exact P'|]. cbn [slots]. intros j. unfold get.
      rewrite nth_set. pose proof gone_ok. destruct (_ && _); [assumption|apply (O j)]. }
    destruct a as [i|i|i|i|i]; cbn [act pact] in *.
    - destruct (read _ _ _) eqn:Er; [|discriminate]. injection D as <-.
      destruct (O i) as (d & Hd & Oi). rewrite Hs, pget_map.
      rewrite (read_sim _ _ _ d fuel (pmem ps) e Er W P Oi Hd); [|lia|exact SM].
      exists ps. split; [reflexivity|]. split; [exact Hs|auto].
    - injection D as <-. eexists. split; [reflexivity|]. split.
      { cbn [pslots slots]. rewrite Hs, pget_map, pmoved_str, set_map, map_app. reflexivity. }
      split; [exact SM|]. split; [exact W|]. split; [exact P|]. cbn [slots]. intros j. unfold get.
      rewrite nth_snoc. pose proof gone_ok as G.
      match goal with |- context [if Nat.ltb j ?n then _ else _] => destruct (Nat.ltb j n) end.
      2:{ destruct (Nat.eqb _ _); [exact (O i)|exact G]. }
      rewrite nth_set. destruct (_ && _); [|exact (O j)]. destruct (O i) as (d & Hd & Oi). exists d.
      split; [exact Hd|apply moved_ok; exact Oi].
    - apply Release. exact D.
    - apply Release. exact D.
    - destruct (move_child _ _) as [[k h']|] eqn:Em; [|discriminate]. cbn [hbind] in D. injection D as <-.
      rewrite Hs, pget_map.
      destruct (move_child_sim _ _ _ _ (pmem ps) e Em W P (O i) SM) as (m' & -> & SM' & W' & P' & Ok).
      cbn [hbind]. eexists. split; [reflexivity|]. split.
      { cbn [pslots slots]. rewrite map_app. reflexivity. }
      split; [exact SM'|]. split; [exact W'|]. split; [exact P'|]. cbn [slots]. intros j. unfold get.
      rewrite nth_snoc. pose proof gone_ok as G.
      match goal with |- context [if Nat.ltb j ?n then _ else _] => destruct (Nat.ltb j n) end.
      + exact (O j).
      + destruct (Nat.eqb _ _); [exact Ok|exact G].
  Qed.

  (** ** The other owners *)
  Lemma sim_others e e' h m f : sim e h m -> (forall i, f i + e i = strong m i + e' i) ->
    sim e' h (PHeap (cells m) f).
  Proof.
    intros [S1 S2] H. split; [exact S1|]. intros i. cbn [strong]. specialize (H i). rewrite S2 in H. lia.
  Qed.

  Lemma others_cons e a l : civil e (a :: l) -> forall l1 i, others e (a :: l1) i =
    others (match a with
            | Consumer _ => e
            | Retain i => set_count i (S (e i)) e
            | Discard i => set_count i (pred (e i)) e
            end) l1 i.
  Proof.
    intros C l1 i. unfold others, retained, discarded. cbn [filter].
    destruct a as [a|j|j]; [reflexivity| |]; unfold set_count;
      rewrite (Nat.eqb_sym j i); destruct (Nat.eqb_spec i j) as [->|Hj]; cbn [length]; try reflexivity; try lia.
    assert (G : others e [] j <> 0) by (apply (C [] l j); right; reflexivity).
    unfold others, retained, discarded in G. cbn [filter length] in G. lia.
  Qed.
  Lemma civil_cons e a l : civil e (a :: l) ->
    civil (match a with
            | Consumer _ => e
            | Retain i => set_count i (S (e i)) e
            | Discard i => set_count i (pred (e i)) e
            end) l.
  Proof.
    intros C l1 l2 i H. rewrite <- (others_cons e a l C). apply (C (a :: l1) l2 i).
    destruct H as [->| ->]; [left|right]; reflexivity.
  Qed.

  Lemma acts_sim fuel l : L < fuel -> forall e st st' ps, acts st (consumer l) = Some st' -> simst e st ps ->
    civil e l -> exists ps', pacts fuel ps l = Some ps' /\ simst (others e l) st' ps'.
  Proof.
    intros Hf. induction l as [|a l IH]; intros e st st' ps D SM C.
    - cbn [consumer flat_map acts pacts] in *. injection D as <-. exists ps. split; [reflexivity|].
      destruct SM as (Hs & SM & R). split; [exact Hs|]. split; [|exact R].
      destruct SM as [S1 S2]. split; [exact S1|]. intros i. rewrite S2. unfold others, retained, discarded.
      cbn [filter length]. lia.
    - pose proof (others_cons e a l C) as Ho. pose proof (civil_cons e a l C) as C'.
      assert (Next : forall st1 ps1, acts st1 (consumer l) = Some st' -> pact fuel ps a = Some ps1 ->
        simst (match a with
               | Consumer _ => e
               | Retain i => set_count i (S (e i)) e
               | Discard i => set_count i (pred (e i)) e
               end) st1 ps1 ->
        exists ps', pacts fuel ps (a :: l) = Some ps' /\ simst (others e (a :: l)) st' ps').
      { intros st1 ps1 D1 A1 S1. destruct (IH _ _ _ _ D1 S1 C') as (ps' & Hp & SM').
        exists ps'. cbn [pacts]. rewrite A1. split; [exact Hp|].
        destruct SM' as (Hs & [T1 T2] & R). split; [exact Hs|]. split; [|exact R].
        split; [exact T1|]. intros i. rewrite Ho. apply T2. }
      destruct a as [a|i|i].
      + change (consumer (Consumer a :: l)) with (a :: consumer l) in D. cbn [acts] in D.
        destruct (act st a) as [st1|] eqn:Ea; [|discriminate]. cbn [hbind] in D.
        destruct (act_sim _ _ _ _ _ _ Ea SM Hf) as (ps1 & A1 & S1). exact (Next st1 ps1 D A1 S1).
      + change (consumer (Retain i :: l)) with (consumer l) in D.
        apply (Next st _ D eq_refl). destruct SM as (Hs & SM & R). split; [exact Hs|]. split; [|exact R].
        cbn [pmem]. apply (sim_others e _ _ _ _ SM). intros j. unfold set_count.
        destruct (Nat.eqb_spec i j) as [->|_]; lia.
      + change (consumer (Discard i :: l)) with (consumer l) in D.
        assert (G : e i <> 0).
        { assert (G : others e [] i <> 0) by (apply (C [] l i); right; reflexivity).
          unfold others, retained, discarded in G. cbn [filter length] in G. lia. }
        pose proof SM as (Hs & [S1 S2] & R). pose proof (S2 i) as Hi.
        destruct (strong (pmem ps) i) as [|n] eqn:En; [lia|].
        apply (Next st (PState (pslots ps) (PHeap (cells (pmem ps)) (set_count i n (strong (pmem ps))))) D).
        * cbn [pact drop_buffer]. rewrite En. reflexivity.
        * split; [exact Hs|]. split; [|exact R]. cbn [pmem]. apply (sim_others e _ _ _ _ (conj S1 S2)).
          intros j. unfold set_count. destruct (Nat.eqb_spec i j) as [<-|_]; lia.
  Qed.

  (** ** Export *)
  Lemma level_point self d t' (c' : cC (layout t')) : self = Some (BData 0) ->
    map (fun b => ptr_in self (hold w b)) (level_blocks d t' c') = map point (level_blocks d t' c').
  Proof.
    intros ->. apply map_ext_in. intros b Hb. apply level_kind in Hb as [Hk _]. unfold point. rewrite Hk. reflexivity.
  Qed.
  Definition xmap {A B} (g : A -> B) (x : xres A) : xres B :=
    match x with XOk a => XOk (g a) | XErr e => XErr e | XPnc => XPnc end.
  Lemma parray_str self d t' (c' : cC (layout t')) : self = Some (BData 0) ->
    parray w self d t' c' = pstr (array_struct d t' c').
  Proof. intros H. unfold parray, pstr. rewrite level_point by exact H. reflexivity. Qed.

  Lemma set_pointers_sim e h m d kid o : sim e h m ->
    sim e (set_child_pointers d kid o h) (pset_child_pointers d (option_map pstr kid) (map (hold w) o) m).
  Proof.
    intros SM. destruct kid as [k|]; [|exact SM]. cbn [set_child_pointers option_map pset_child_pointers].
    change (PArrayBox (Some (pstr k)) (Some (BPointers d)) (map (hold w) o))
      with (pcel (ArrayBox (Some k) (Some (BPointers d)) o)).
    apply sim_update; [|discriminate]. change (PTable (BData d)) with (pcel (Table (BData d))).
    apply sim_new; [exact SM|discriminate].
  Qed.

  Lemma run_child_sim e self t' : self = Some (BData 0) -> forall d c' h m, sim e h m ->
    fst (prun_child w self d t' c' m) = xmap pstr (fst (run_child d t' c' h)) /\
    sim e (snd (run_child d t' c' h)) (snd (prun_child w self d t' c' m)).
  Proof.
    intros Hself.
    assert (Node : forall d t0 (c0 : cC (layout t0)) kid h m, sim e h m ->
      sim e (set_child_pointers d kid [] (new (BData d) (ArrayBox kid None []) h))
        (pset_child_pointers d (option_map pstr kid) [] (pnew (BData d) (PArrayBox (option_map pstr kid) None []) m))).
    { intros d t0 c0 kid h m SM. apply (set_pointers_sim e _ _ d kid []).
      change (PArrayBox (option_map pstr kid) None []) with (pcel (ArrayBox kid None [])).
      apply sim_new; [exact SM|discriminate]. }
    induction t' as [nl|p nl|n t' IH nl|k t' IH nl]; intros d c' h m SM; cbn [prun_child run_child];
      (destruct (x_offset _ c' =? 0)%N; [|split; [reflexivity|exact SM]]);
      (destruct (xout (obind (k_len _ c') i64_from)); [|split; [reflexivity|exact SM]..]);
      (destruct (xout (x_null_count _ c')); [|split; [reflexivity|exact SM]..]).
    - cbn [fst snd xmap]. rewrite parray_str by exact Hself. split; [reflexivity|].
      apply (Node d (TBool nl) c' None _ _ SM).
    - cbn [fst snd xmap]. rewrite parray_str by exact Hself. split; [reflexivity|].
      apply (Node d (TPrim p nl) c' None _ _ SM).
    - specialize (IH (S d) (un_null nl (SFixed n (shape_of t')) c') h m SM).
      destruct (prun_child w self (S d) t' _ m) as [y m']. destruct (run_child (S d) t' _ h) as [x h'].
      cbn [fst snd] in IH. destruct IH as [-> SM'].
      destruct x as [s|er|]; cbn [xmap xbind fst snd]; [|split; [reflexivity|exact SM']..].
      rewrite parray_str by exact Hself. split; [reflexivity|].
      apply (Node d (TFsl n t' nl) c' (Some s) _ _ SM').
    - specialize (IH (S d) (of_data (un_null nl (SList k (shape_of t')) c')) h m SM).
      destruct (prun_child w self (S d) t' _ m) as [y m']. destruct (run_child (S d) t' _ h) as [x h'].
      cbn [fst snd] in IH. destruct IH as [-> SM'].
      destruct x as [s|er|]; cbn [xmap xbind fst snd]; [|split; [reflexivity|exact SM']..].
      rewrite parray_str by exact Hself. split; [reflexivity|].
      apply (Node d (TVsl k t' nl) c' (Some s) _ _ SM').
  Qed.
  Lemma run_children_sim e t' c' h m : sim e h m ->
    fst (prun_children w (Some (BData 0)) t' c' m) = xmap (option_map pstr) (fst (run_children t' c' h)) /\
    sim e (snd (run_children t' c' h)) (snd (prun_children w (Some (BData 0)) t' c' m)).
  Proof.
    intros SM. destruct t' as [nl|p nl|n t' nl|k t' nl]; cbn [prun_children run_children];
      try (split; [reflexivity|exact SM]).
    - pose proof (run_child_sim e _ t' eq_refl 1 (un_null nl (SFixed n (shape_of t')) c') h m SM) as G.
      destruct (prun_child w _ 1 t' _ m) as [y m']. destruct (run_child 1 t' _ h) as [x h'].
      cbn [fst snd] in G. destruct G as [-> SM'].
      destruct x; cbn [xmap xbind fst snd]; (split; [reflexivity|exact SM']).
    - pose proof (run_child_sim e _ t' eq_refl 1 (of_data (un_null nl (SList k (shape_of t')) c')) h m SM) as G.
      destruct (prun_child w _ 1 t' _ m) as [y m']. destruct (run_child 1 t' _ h) as [x h'].
      cbn [fst snd] in G. destruct G as [-> SM'].
      destruct x; cbn [xmap xbind fst snd]; (split; [reflexivity|exact SM']).
  Qed.
  Lemma run_schema_sim e t' : forall d h m, sim e h m ->
    fst (prun_schema d t' m) = pstr (fst (run_schema d t' h)) /\
    sim e (snd (run_schema d t' h)) (snd (prun_schema d t' m)).
  Proof.
    induction t' as [nl|p nl|n t' IH nl|k t' IH nl]; intros d h m SM; cbn [prun_schema run_schema];
      try (split; [reflexivity|exact SM]).
    - specialize (IH (S d) h m SM). destruct (prun_schema _ t' m) as [y m'].
      destruct (run_schema _ t' h) as [x h']. cbn [fst snd] in *. destruct IH as [-> SM'].
      split; [reflexivity|].
      change (PSchemaBox (Some (BFormat d)) (pstr x)) with (pcel (SchemaBox (Some (BFormat d)) x)).
      apply sim_new; [|discriminate]. change PBytes with (pcel Bytes). apply sim_new; [exact SM'|discriminate].
    - specialize (IH (S d) h m SM). destruct (prun_schema _ t' m) as [y m'].
      destruct (run_schema _ t' h) as [x h']. cbn [fst snd] in *. destruct IH as [-> SM'].
      split; [reflexivity|].
      change (PSchemaBox None (pstr x)) with (pcel (SchemaBox None x)).
      apply sim_new; [exact SM'|discriminate].
  Qed.

  (** *** The cells export makes *)
  Lemma array_struct_ok t' d (c' : cC (layout t')) : incl (storage d t' c') E -> okst d (array_struct d t' c').
  Proof.
    intros H. split; [right; left; reflexivity|]. split.
    - destruct t'; cbn [array_struct st_children]; auto.
    - intros b Hb. left. apply H. destruct t'; cbn [storage]; apply in_or_app; left; exact Hb.
  Qed.
  Lemma array_heap_ok t' : forall d o (c' : cC (layout t')), d + levels t' <= L -> incl (storage d t' c') E ->
    incl o E -> (d = 0 -> o = E) -> forall b x, lookup b (array_heap d t' o c') = Some x -> okcell b x.
  Proof.
    assert (Leaf : forall d o b x, d <= L -> incl o E -> (d = 0 -> o = E) ->
      lookup b [(BData d, ArrayBox None None o)] = Some x -> okcell b x).
    { intros d o b x Hd Ho H0 H. cbn [lookup] in H. destruct (block_eqb_spec b (BData d)) as [->|_]; [|discriminate].
      injection H as <-. exists d. split; [reflexivity|]. split; [exact Hd|]. split; [discriminate|]. auto. }
    assert (Node : forall d t0 (c0 : cC (layout t0)) o, S d + levels t0 <= L ->
      incl (storage (S d) t0 c0) E -> incl o E -> (d = 0 -> o = E) ->
      (forall b x, lookup b (array_heap (S d) t0 [] c0) = Some x -> okcell b x) ->
      forall b x, lookup b ((BData d, ArrayBox (Some (array_struct (S d) t0 c0)) (Some (BPointers d)) o) ::
        (BPointers d, Table (BData d)) :: array_heap (S d) t0 [] c0) = Some x -> okcell b x).
    { intros d t0 c0 o Hd Hi Ho H0 IH b x H. cbn [lookup] in H.
      destruct (block_eqb_spec b (BData d)) as [->|_].
      - injection H as <-. exists d. split; [reflexivity|]. split; [lia|]. split; [|auto].
        intros k G. injection G as <-. split; [lia|apply array_struct_ok; exact Hi].
      - destruct (block_eqb_spec b (BPointers d)) as [->|_]; [|apply IH; exact H].
        injection H as <-. exists d. split; reflexivity. }
    induction t' as [nl|p nl|n t' IH nl|k t' IH nl]; intros d o c' Hd Hi Ho H0; cbn [array_heap levels] in *.
    - intros b x. apply Leaf; auto. lia.
    - intros b x. apply Leaf; auto. lia.
    - assert (Hi' : incl (storage (S d) t' (un_null nl (SFixed n (shape_of t')) c')) E).
      { intros b Hb. apply Hi. cbn [storage]. apply in_or_app. right. exact Hb. }
      apply Node; auto; [lia|]. apply IH; [lia|exact Hi'|intros b []|discriminate].
    - assert (Hi' : incl (storage (S d) t' (of_data (un_null nl (SList k (shape_of t')) c'))) E).
      { intros b Hb. apply Hi. cbn [storage]. apply in_or_app. right. exact Hb. }
      apply Node; auto; [lia|]. apply IH; [lia|exact Hi'|intros b []|discriminate].
  Qed.
  Lemma schema_struct_ok t' d : okst d (schema_struct d t').
  Proof.
    destruct t'; cbn [schema_struct]; (split; [cbn; auto|]); (split; [cbn; auto|]); cbn [st_buffers In]; intros b Hb;
      try contradiction. destruct Hb as [<-|[]]. right. discriminate.
  Qed.
  Lemma schema_heap_ok t' : forall d, d + levels t' <= L ->
    forall b x, lookup b (schema_heap d t') = Some x -> okcell b x.
  Proof.
    induction t' as [nl|p nl|n t' IH nl|k t' IH nl]; intros d Hd b x H; cbn [schema_heap levels] in *; try discriminate.
    - cbn [lookup] in H. destruct (block_eqb_spec b (BSchema d)) as [->|_].
      + injection H as <-. exists d. split; [reflexivity|]. split; [lia|].
        split; [apply schema_struct_ok|right; reflexivity].
      + destruct (block_eqb b (BFormat d)); [injection H as <-; exact I|]. apply (IH (S d)); [lia|exact H].
    - cbn [lookup] in H. destruct (block_eqb_spec b (BSchema d)) as [->|_].
      + injection H as <-. exists d. split; [reflexivity|]. split; [lia|].
        split; [apply schema_struct_ok|left; reflexivity].
      + apply (IH (S d)); [lia|exact H].
  Qed.
  Lemma owned_ok b x : lookup b (owned t c) = Some x -> okcell b x.
  Proof.
    unfold owned. fold E. induction E as [|q l IH]; cbn [map lookup]; [discriminate|].
    destruct (block_eqb b q); [|exact IH]. intros H. injection H as <-. exact I.
  Qed.
  Lemma array_top_ok b x : lookup b (array_heap 0 t E c) = Some x -> okcell b x.
  Proof. apply array_heap_ok; [unfold L; lia|apply incl_refl|apply incl_refl|reflexivity]. Qed.
  Lemma array_top_box : lookup (BData 0) (array_heap 0 t E c) <> None.
  Proof. clear. generalize E. intros o. destruct t; cbn [array_heap lookup block_eqb Nat.eqb]; discriminate. Qed.

  Lemma start_simst_wf st : alike t c st -> wf (mem st) /\ pin (mem st) /\ forall i, okslot (get i (slots st)).
  Proof.
    intros [Hs Hl]. split; [|split].
    - intros b x. rewrite Hl. cbn [mem start]. rewrite !lookup_app. fold (owned t c). fold E.
      destruct (lookup b (owned t c)) eqn:E1; [intros H; injection H as <-; apply owned_ok; exact E1|].
      destruct (lookup b (array_heap 0 t E c)) eqn:E2; [intros H; injection H as <-; apply array_top_ok; exact E2|].
      apply schema_heap_ok. unfold L. lia.
    - intros b _ _. rewrite Hl. cbn [mem start]. rewrite !lookup_app. fold (owned t c). fold E.
      destruct (lookup (BData 0) (owned t c)); [discriminate|]. pose proof array_top_box.
      destruct (lookup (BData 0) (array_heap 0 t E c)); [discriminate|congruence].
    - rewrite Hs. cbn [slots start]. intros [|[|i]]; unfold get; cbn [nth].
      + exists 0. split; [lia|]. apply array_struct_ok, incl_refl.
      + exists 0. split; [lia|]. apply schema_struct_ok.
      + destruct i; apply gone_ok.
  Qed.

  Lemma before_sim e : sim e (owned t c) (pbefore w e t c).
  Proof.
    unfold pbefore, own_storage, uses, owned. fold E. split.
    - intros b. unfold at_block. cbn [cells].
      assert (H : forall b, In b E -> kind b = 0) by apply E_kind. revert H. generalize E. intros l H.
      induction l as [|q l IH]; [reflexivity|]. cbn [map lookup filter].
      assert (IH' := IH (fun b Hb => H b (or_intror Hb))). clear IH.
      destruct (block_eqb_spec b q) as [->|Hn].
      + unfold own at 1. rewrite (H q (or_introl eq_refl)). cbn [Nat.eqb].
        destruct (w q) eqn:Ew; cbn [map pfind]; [rewrite block_eqb_refl; reflexivity|..];
          rewrite IH'; unfold own; rewrite (H q (or_introl eq_refl)), Ew; cbn [Nat.eqb];
          destruct (lookup q _); reflexivity.
      + destruct (w q); cbn [map pfind]; [destruct (block_eqb_spec b q); [congruence|]|..]; exact IH'.
    - intros i. cbn [strong]. do 2 f_equal. apply filter_ext_in'. intros b Hb. unfold shared_in.
      destruct (w b); try reflexivity. assert (G : lookup b (owned t c) <> None) by (apply owned_in; exact Hb).
      unfold owned in G. fold E in G. destruct (lookup b _); [|congruence]. cbn [is_some]. rewrite andb_true_r. reflexivity.
  Qed.

  Lemma private_ok : okst 0 (CStruct true (Some (BData 0)) [] None).
  Proof. split; [right; left; reflexivity|]. split; [left; reflexivity|intros b []]. Qed.

  Lemma run_sim fuel e : L < fuel -> forall x h, run_export t c (owned t c) = Some (x, h) ->
    exists m, prun_export w fuel t c (pbefore w e t c) = Some (xmap (map pstr) x, m) /\ sim e h m.
  Proof.
    intros Hf x h R. pose proof (before_sim e) as SM. unfold run_export in R. unfold prun_export. fold E in R |- *.
    destruct (x_offset t c =? 0)%N.
    2:{ destruct (free_all E (owned t c)) as [h'|] eqn:Ef; [|discriminate]. cbn [hbind] in R. injection R as <- <-.
        destruct (sim_drop_buffers _ _ _ _ _ SM Ef) as (m' & -> & SM'); [apply incl_refl|]. cbn [hbind xmap]. eauto. }
    pose proof (sim_new e _ _ (BData 0) (ArrayBox None None E) SM) as S0. cbn [pcel option_map] in S0.
    specialize (S0 ltac:(discriminate)).
    pose proof (children_spec t c (fun _ => 0%N)) as [_ K]. fold E in K.
    assert (Fail : forall h' m' y, wf h' -> pin h' -> sim e h' m' ->
      hbind (drop_private h') (fun h'' => Some (y, h'')) = Some (x, h) ->
      exists m, hbind (pdrop fuel (PStruct true (Some (BData 0)) [] None) m')
        (fun m'' => Some (xmap (map pstr) y, m'')) = Some (xmap (map pstr) x, m) /\ sim e h m).
    { intros h' m' y W P SM' D. unfold drop_private in D. destruct (drop_struct _ _ h') as [h''|] eqn:Ed; [|discriminate].
      cbn [hbind] in D. injection D as -> ->.
      destruct (drop_sim _ _ _ _ 0 fuel m' e Ed W P private_ok) as (m2 & Em & S2 & _); [lia|lia|exact SM'|].
      unfold pstr in Em. cbn [st_live st_private st_buffers st_children map] in Em. rewrite Em. cbn [hbind]. eauto. }
    assert (Early : wf (new (BData 0) (ArrayBox None None E) (owned t c)) /\
      pin (new (BData 0) (ArrayBox None None E) (owned t c))).
    { split.
      - intros b y. rewrite lookup_new. destruct (block_eqb_spec b (BData 0)) as [->|_]; [|apply owned_ok].
        intros H. injection H as <-. exists 0. split; [reflexivity|]. split; [lia|]. split; [discriminate|].
        split; [left; reflexivity|]. split; [apply incl_refl|reflexivity].
      - intros b _ _. rewrite lookup_new. rewrite block_eqb_refl. discriminate. }
    pose proof (run_children_sim e t c _ _ S0) as [Hc Sc].
    destruct (run_children t c (new (BData 0) (ArrayBox None None E) (owned t c))) as [y h1].
    destruct (prun_children w (Some (BData 0)) t c _) as [y' m1]. cbn [fst snd] in Hc, Sc. subst y'.
    destruct y as [kid|er|]; cbn [xmap].
    2:{ subst h1. exact (Fail _ _ (XErr er) (proj1 Early) (proj2 Early) Sc R). }
    2:{ subst h1. exact (Fail _ _ XPnc (proj1 Early) (proj2 Early) Sc R). }
    fold (built_heap t c kid h1) in R. unfold built_heap in *. fold E in R, K.
    set (h2 := set_child_pointers 0 kid E (update (BData 0) (ArrayBox kid None E) h1)) in *.
    set (m2 := pset_child_pointers 0 (option_map pstr kid) (map (hold w) E)
      (pupdate (BData 0) (PArrayBox (option_map pstr kid) None (map (hold w) E)) m1)) in *.
    assert (S2 : sim e h2 m2).
    { apply set_pointers_sim. change (PArrayBox (option_map pstr kid) None (map (hold w) E))
        with (pcel (ArrayBox kid None E)). apply sim_update; [exact Sc|discriminate]. }
    assert (Late : wf h2 /\ pin h2).
    { split.
      - intros b y. rewrite K. destruct (lookup b (array_heap 0 t E c)) eqn:Ea; [|apply owned_ok].
        intros H. injection H as <-. apply array_top_ok. exact Ea.
      - intros b _ _. rewrite K. pose proof array_top_box. destruct (lookup (BData 0) (array_heap 0 t E c)); congruence. }
    destruct (xbind _ _) as [n|er|].
    2:{ exact (Fail _ _ (XErr er) (proj1 Late) (proj2 Late) S2 R). }
    2:{ exact (Fail _ _ XPnc (proj1 Late) (proj2 Late) S2 R). }
    pose proof (run_schema_sim e t 0 h2 m2 S2) as [Hs Ss].
    destruct (run_schema 0 t h2) as [s h3]. destruct (prun_schema 0 t m2) as [s' m3]. cbn [fst snd] in Hs, Ss. subst s'.
    injection R as <- <-. exists m3. split; [|exact Ss]. cbn [xmap map]. rewrite parray_str by reflexivity. reflexivity.
  Qed.

  (** ** Results *)
  Lemma sim_alive e h m b : sim e h m -> at_block b m <> None <-> lookup b h <> None /\ own b = true.
  Proof.
    intros [SM _]. rewrite SM. destruct (lookup b h); [|split; [congruence|intros [G _]; congruence]].
    destruct (own b); split; try congruence; [intros _; split; [discriminate|reflexivity]|intros [_ G]; discriminate].
  Qed.
  Lemma own_storage_in b : In b (own_storage w t c) <-> In b E /\ own b = true.
  Proof.
    unfold own_storage. fold E. rewrite filter_In. split; intros [H G]; (split; [exact H|]);
      unfold own in *; rewrite (E_kind _ H) in *; cbn [Nat.eqb] in *; destruct (w b); auto.
  Qed.
  Lemma sim_strong_all e h m : sim e h m -> (forall b, In b E -> lookup b h <> None) ->
    forall i, strong m i = e i + uses w t c i.
  Proof.
    intros [_ SM] H i. rewrite SM. unfold uses. fold E. do 2 f_equal. apply filter_ext_in'. intros b Hb.
    unfold shared_in. destruct (w b); try reflexivity. specialize (H b Hb).
    destruct (lookup b h); [apply andb_true_r|congruence].
  Qed.
  Lemma sim_strong_none e h m : sim e h m -> (forall b, In b E -> lookup b h = None) -> forall i, strong m i = e i.
  Proof.
    intros [_ SM] H i. rewrite SM. replace (filter (shared_in i h) E) with (@nil block); [cbn [length]; lia|].
    symmetry. assert (G : forall b, In b E -> shared_in i h b = false).
    { intros b Hb. unfold shared_in. destruct (w b); try reflexivity. rewrite (H b Hb). apply andb_false_r. }
    revert G. generalize E. intros l G. induction l as [|b l IH]; [reflexivity|]. cbn [filter].
    rewrite (G b (or_introl eq_refl)). apply IH. intros q Hq. apply G. right. exact Hq.
  Qed.

  Lemma place_failures fuel e addr : L < fuel ->
    match export addr t c with
    | XOk _ => exists sl m, prun_export w fuel t c (pbefore w e t c) = Some (XOk sl, m)
    | XErr o => exists m, prun_export w fuel t c (pbefore w e t c) = Some (XErr o, m) /\
        cells m = [] /\ forall i, strong m i = e i
    | XPnc => exists m, prun_export w fuel t c (pbefore w e t c) = Some (XPnc, m) /\
        cells m = [] /\ forall i, strong m i = e i
    end.
  Proof.
    intros Hf. pose proof (run_failures t c addr) as R.
    assert (Nil : forall m, sim e [] m -> cells m = [] /\ forall i, strong m i = e i).
    { intros m SM. split; [|apply (sim_strong_none _ _ _ SM); reflexivity].
      destruct SM as [SM _]. destruct m as [l f]. cbn [cells] in *. destruct l as [|[b x] l]; [reflexivity|].
      specialize (SM b). unfold at_block in SM. cbn [cells pfind lookup] in SM. rewrite block_eqb_refl in SM. discriminate. }
    destruct (export addr t c).
    - destruct R as (sl & h & R). destruct (run_sim fuel e Hf _ _ R) as (m & Em & _). cbn [xmap] in Em. eauto.
    - destruct (run_sim fuel e Hf _ _ R) as (m & Em & SM). cbn [xmap] in Em. exists m. split; [exact Em|auto].
    - destruct (run_sim fuel e Hf _ _ R) as (m & Em & SM). cbn [xmap] in Em. exists m. split; [exact Em|auto].
  Qed.

  Lemma place_start fuel e sl m : L < fuel -> prun_export w fuel t c (pbefore w e t c) = Some (XOk sl, m) ->
    exists sl0 h, run_export t c (owned t c) = Some (XOk sl0, h) /\ simst e (State sl0 h) (PState sl m).
  Proof.
    intros Hf H. pose proof (run_failures t c (fun _ => 0%N)) as R.
    destruct (export (fun _ => 0%N) t c).
    - destruct R as (sl0 & h & R). destruct (run_sim fuel e Hf _ _ R) as (m' & Em & SM). rewrite H in Em.
      cbn [xmap] in Em. injection Em as -> ->. exists sl0, h. split; [exact R|]. split; [reflexivity|].
      split; [exact SM|]. apply start_simst_wf. apply run_alike. exact R.
    - destruct (run_sim fuel e Hf _ _ R) as (m' & Em & SM). rewrite H in Em. discriminate.
    - destruct (run_sim fuel e Hf _ _ R) as (m' & Em & SM). rewrite H in Em. discriminate.
  Qed.

  Lemma pointers_sim e h m t' : forall d o (c' : cC (layout t')) fuel, sim e h m ->
    within (array_heap d t' o c') h -> levels t' < fuel ->
    pointers fuel (pstr (array_struct d t' c')) m = map point (storage d t' c').
  Proof.
    intros d o c' fuel SM. revert d o c' fuel.
    assert (Node : forall d t0 t1 (c0 : cC (layout t0)) (c1 : cC (layout t1)) o fuel,
      st_children (array_struct d t0 c0) = Some (BPointers d) ->
      within ((BData d, ArrayBox (Some (array_struct (S d) t1 c1)) (Some (BPointers d)) o) ::
        (BPointers d, Table (BData d)) :: array_heap (S d) t1 [] c1) h ->
      (within (array_heap (S d) t1 [] c1) h ->
       pointers fuel (pstr (array_struct (S d) t1 c1)) m = map point (storage (S d) t1 c1)) ->
      pointers (S fuel) (pstr (array_struct d t0 c0)) m =
        map point (level_blocks d t0 c0 ++ storage (S d) t1 c1)).
    { intros d t0 t1 c0 c1 o fuel Hc Hw IH.
      apply within_cons in Hw as [Hw1 Hw].
      2: { cbn [map fst In]. rewrite array_heap_keys. intros [H|H]; [discriminate|].
           apply boxes_kind in H. cbn in H. lia. }
      apply within_cons in Hw as [Hw2 Hw].
      2: { rewrite array_heap_keys. intros H. apply boxes_kind in H. cbn in H. lia. }
      cbn [pointers]. unfold pstr at 1 2. cbn [ps_buffers ps_children]. rewrite Hc.
      rewrite (sim_at _ _ _ _ SM), Hw2 by discriminate. cbn [option_map pcel].
      rewrite (sim_at _ _ _ _ SM), Hw1 by discriminate. cbn [option_map pcel].
      rewrite IH by exact Hw. rewrite map_app. reflexivity. }
    induction t' as [nl|p nl|n t' IH nl|k t' IH nl]; intros d o c' fuel Hw Hf; cbn [levels storage array_heap] in *;
      (destruct fuel as [|fuel]; [lia|]).
    - rewrite app_nil_r. cbn [pointers pstr ps_buffers ps_children array_struct st_children st_buffers].
      apply app_nil_r.
    - rewrite app_nil_r. cbn [pointers pstr ps_buffers ps_children array_struct st_children st_buffers].
      apply app_nil_r.
    - apply (Node d (TFsl n t' nl) t' c' _ o fuel eq_refl Hw). intros Hw'. apply (IH _ [] _ fuel Hw'). lia.
    - apply (Node d (TVsl k t' nl) t' c' _ o fuel eq_refl Hw). intros Hw'. apply (IH _ [] _ fuel Hw'). lia.
  Qed.
  Lemma place_pointers fuel e sl m : L < fuel -> prun_export w fuel t c (pbefore w e t c) = Some (XOk sl, m) ->
    pointers fuel (pget 0 sl) m = map (buffer_at w) (storage 0 t c).
  Proof.
    intros Hf H. destruct (place_start fuel e sl m Hf H) as (sl0 & h & R & Hs & SM & _).
    apply run_alike in R as [Es El]. cbn [pslots slots mem] in *. subst sl sl0. cbn [start slots map].
    unfold pget. cbn [nth]. rewrite (pointers_sim e h m t 0 E c fuel SM); [|intros b x Hx|exact Hf].
    - apply map_ext_in. intros b Hb. unfold point, buffer_at, hold. rewrite (E_kind b Hb). destruct (w b); reflexivity.
    - rewrite El. cbn [mem start]. rewrite !lookup_app. fold (owned t c). fold E.
      rewrite owned_none, Hx; [reflexivity|]. intros K. apply storage_kind in K.
      assert (G : lookup b (array_heap 0 t E c) <> None) by congruence.
      rewrite lookup_in, array_heap_keys in G. apply boxes_kind in G. lia.
  Qed.

  Lemma place_top fuel e sl m l : L < fuel -> prun_export w fuel t c (pbefore w e t c) = Some (XOk sl, m) ->
    top_level (consumer l) -> civil e l ->
    exists st, pacts fuel (PState sl m) l = Some st /\
    (forall b, palive st b <->
      (In b (own_blocks w t c) /\ array_holder (consumer l) <> None) \/
      (In b (schema_blocks 0 t) /\ schema_holder (consumer l) <> None)) /\
    (forall i, strong (pmem st) i =
      others e l i + match array_holder (consumer l) with Some _ => uses w t c i | None => 0 end).
  Proof.
    intros Hf H Ht Hc. destruct (place_start fuel e sl m Hf H) as (sl0 & h & R & SM).
    destruct (run_top t c sl0 h (consumer l) R Ht) as (st & A & Al).
    destruct (acts_sim fuel l Hf e _ _ _ A SM Hc) as (ps & Ap & SM'). exists ps. split; [exact Ap|].
    destruct SM' as (_ & SM' & _ & _ & _). split.
    - intros b. unfold palive. rewrite (sim_alive _ _ _ _ SM'). fold (alive st b). rewrite Al.
      unfold own_blocks, array_blocks. rewrite !in_app_iff, own_storage_in. fold E.
      assert (H1 : In b (boxes 0 t) -> own b = true).
      { intros G. apply boxes_kind in G. apply own_kind. lia. }
      assert (H2 : In b (schema_blocks 0 t) -> own b = true).
      { intros G. apply schema_kind in G. apply own_kind. lia. }
      tauto.
    - assert (K : forall b, In b E -> alive st b <-> array_holder (consumer l) <> None).
      { intros b Hb. rewrite Al. unfold array_blocks. rewrite in_app_iff. fold E.
        assert (H2 : ~ In b (schema_blocks 0 t)).
        { intros G. apply schema_kind in G. apply E_kind in Hb. lia. }
        tauto. }
      destruct (array_holder (consumer l)).
      + apply (sim_strong_all _ _ _ SM'). intros b Hb. apply K; [exact Hb|discriminate].
      + intros i. rewrite Nat.add_0_r. apply (sim_strong_none _ _ _ SM'). intros b Hb.
        destruct (lookup b (mem st)) eqn:El; [|reflexivity]. exfalso.
        assert (G : alive st b) by (unfold alive; congruence). apply K in G; [congruence|exact Hb].
  Qed.

  Lemma place_forest fuel e sl m l : L < fuel -> prun_export w fuel t c (pbefore w e t c) = Some (XOk sl, m) ->
    guarded (consumer l) -> civil e l ->
    exists st, pacts fuel (PState sl m) l = Some st /\
    (forall b, In b (own_storage w t c) -> palive st b <-> array_holder (consumer l) <> None) /\
    (forall i, strong (pmem st) i =
      others e l i + match array_holder (consumer l) with Some _ => uses w t c i | None => 0 end) /\
    ((forall i, ps_live (pget i (pslots st)) = false) -> forall b, ~ palive st b).
  Proof.
    intros Hf H Ht Hc. destruct (place_start fuel e sl m Hf H) as (sl0 & h & R & SM).
    destruct (run_forest t c sl0 h (consumer l) R Ht) as (st & A & Al & Ad).
    destruct (acts_sim fuel l Hf e _ _ _ A SM Hc) as (ps & Ap & SM'). exists ps. split; [exact Ap|].
    destruct SM' as (Hs & SM' & _ & _ & _). split; [|split].
    - intros b Hb. apply own_storage_in in Hb as [Hb Ho]. unfold palive. rewrite (sim_alive _ _ _ _ SM').
      fold (alive st b). rewrite (Al b Hb). tauto.
    - destruct (array_holder (consumer l)).
      + apply (sim_strong_all _ _ _ SM'). intros b Hb. apply Al; [exact Hb|discriminate].
      + intros i. rewrite Nat.add_0_r. apply (sim_strong_none _ _ _ SM'). intros b Hb.
        destruct (lookup b (mem st)) eqn:El; [|reflexivity]. exfalso.
        assert (G : alive st b) by (unfold alive; congruence). apply Al in G; [congruence|exact Hb].
    - intros Hd b Hb. unfold palive in Hb. rewrite (sim_alive _ _ _ _ SM') in Hb. destruct Hb as [Hb _].
      revert Hb. apply Ad. intros i. specialize (Hd i). rewrite Hs, pget_map in Hd. exact Hd.
  Qed.
End Place.
