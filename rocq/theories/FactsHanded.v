(** * Lists handed over and back as collections, clones and storage after any panics *)
From Coq Require Import List NArith ZArith Bool Arith Lia.
From Verif Require Import Base Iter Spec VecModel BitmapModel CollModel ValidityModel FlattenModel
  OffsetsModel OwnedListModel LayoutModel Laws LawsFlatten LawsValidity LawsOffsets Reach CloneModel IterLemmas ReachLemmas CoreLemmas SpecFixed SpecLived
  SpecOwned SpecHanded WeakLaws WeakList WeakOwned FactsOwned FactsLived StorageModel FactsStorage FactsAfter
  SpecLaid SpecBytes FactsBytes.
Import ListNotations.

(** ** Writing *)

Lemma gives_whole u c xs : gives (coll u) c xs FStop -> whole u c xs.
Proof. intros (_ & st & E & H). exists st. auto. Qed.
Lemma gives_cut u c xs : gives (coll u) c xs FBoom -> cut_off u c xs.
Proof. intros (_ & st & E & H). exists st. auto. Qed.
Lemma all_whole u cs rows : Forall2 (fun c row => gives (coll u) c row FStop) cs rows ->
  Forall2 (whole u) cs rows.
Proof. induction 1; constructor; auto. apply gives_whole; assumption. Qed.

Section Handed.
  Context (s u : shape) (Hs : widths_pos s) (Hu : widths_pos u) (k : okind).
  Context (into : cA (coll u) -> cA (coll s)) (Hinto : forall y, item_ok u y -> item_ok s (into y)).
  Local Notation lists := (SList k s).

  Lemma grown_reads o o' ls ys : lived lists o -> reads lists o ls ->
    grown (shape_wd lists) o o' ys -> reads lists o' (ls ++ ys).
  Proof.
    intros Ho Hl [G1 G2]. destruct (lived_abs lists Hs o ls Ho Hl) as [-> _]. rewrite <- G2.
    exact (inv_reads lists Hs o' G1).
  Qed.
  Lemma handed_over R o ls (it : iter (cC (coll u)) R) rows o' r e :
    lived lists o -> reads lists o ls -> Forall2 (reads u) (items_of it) rows ->
    ou_extend (coll s) (coll u) k into o it = (o', r, e) ->
    match e with
    | ODone => fin_of it = FStop /\ Forall2 (whole u) (items_of it) rows /\
        exists zs, Forall2 (like lists) (map (map into) rows) zs /\ reads lists o' (ls ++ zs)
    | OErr => False
    | OPanic => exists j zs, whole_until it rows j /\
        Forall2 (like lists) (firstn j (map (map into) rows)) zs /\ reads lists o' (ls ++ zs)
    | OAbort => True
    end.
  Proof.
    intros Ho Hl Hr E. pose proof (lived_inv lists o Ho Hs) as Hi.
    pose proof (owned_spec s u Hs k into Hinto o it rows o' r e Hi Hr E) as H.
    destruct e; try exact H.
    - destruct H as (H1 & H2 & zs & H3 & H4). split; [exact H1|]. split; [exact (all_whole _ _ _ H2)|].
      exists zs. split; [exact H3|]. exact (grown_reads _ _ _ _ Ho Hl H4).
    - destruct H as (j & zs & H2 & H3 & H4). exists j, zs. split; [exact (all_whole _ _ _ H2)|].
      split; [exact H3|]. exact (grown_reads _ _ _ _ Ho Hl H4).
  Qed.
  Lemma handed_over_try R o ls (it : iter (cC (coll u)) R) w rows o' r e w' :
    lived lists o -> reads lists o ls -> Forall2 (reads u) (items_of it) rows ->
    ou_try_extend (coll s) (coll u) k into o it w = (o', r, e, w') ->
    match e with
    | ODone => fin_of it = FStop /\ Forall2 (whole u) (items_of it) rows /\
        exists zs, Forall2 (like lists) (map (map into) rows) zs /\ reads lists o' (ls ++ zs)
    | OErr => reads lists o' ls
    | OPanic => exists j zs, panics_at it rows j /\
        Forall2 (like lists) (firstn j (map (map into) rows)) zs /\ reads lists o' (ls ++ zs)
    | OAbort => False
    end.
  Proof.
    intros Ho Hl Hr E. pose proof (lived_inv lists o Ho Hs) as Hi.
    pose proof (owned_try_spec s u Hs k into Hinto o it w rows o' r e w' Hi Hr E) as H.
    destruct e; try exact H.
    - destruct H as (H1 & H2 & zs & H3 & H4). split; [exact H1|]. split; [exact (all_whole _ _ _ H2)|].
      exists zs. split; [exact H3|]. exact (grown_reads _ _ _ _ Ho Hl H4).
    - destruct H as [H1 H2]. destruct (lived_abs lists Hs o ls Ho Hl) as [-> _]. rewrite <- H2.
      exact (inv_reads lists Hs o' H1).
    - destruct H as (j & zs & H1 & H2 & H3 & H4). exists j, zs. split.
      { split; [exact (all_whole _ _ _ H2)|].
        destruct H1 as [H1|(c & row & N1 & N2 & N3)]; [left; exact H1|right].
        exists c, row. split; [exact N1|]. split; [exact N2|exact (gives_cut _ _ _ N3)]. }
      split; [exact H3|]. exact (grown_reads _ _ _ _ Ho Hl H4).
  Qed.
  Lemma empty_reads o : built lists o -> shows (coll lists) o [] -> reads lists o [].
  Proof.
    intros Hb Hl. destruct (lived_reads lists Hs o (lived_built _ _ Hb)) as [xs Hx].
    pose proof (rd_len _ _ _ Hx) as E. rewrite (sh_len _ _ _ Hl) in E. injection E as E.
    destruct xs; [exact Hx|discriminate].
  Qed.
  Lemma handed_collect R (it : iter (cC (coll u)) R) rows c :
    (forall x, In x (items_of it) -> lived u x) -> Forall2 (reads u) (items_of it) rows ->
    (exists r, ou_from_iter (coll s) (coll u) k into it = (BOk c, r)) \/
    (exists r, ou_from_iter_in (coll s) (coll u) k into it = (BOk c, r)) \/
    (exists w r w', ou_try_from_iter (coll s) (coll u) k into it w = (BOk c, r, w')) ->
    fin_of it = FStop /\ Forall2 (whole u) (items_of it) rows /\ lived lists c /\
    exists zs, Forall2 (like lists) (map (map into) rows) zs /\ reads lists c zs.
  Proof.
    intros Hlv Hr H. destruct (empty_core lists Hs) as (F1 & F2 & F3).
    assert (G : forall o, built lists o -> shows (coll lists) o [] ->
      (exists r, ou_extend (coll s) (coll u) k into o it = (c, r, ODone)) \/
      (exists w r w', ou_try_extend (coll s) (coll u) k into o it w = (c, r, ODone, w')) ->
      fin_of it = FStop /\ Forall2 (whole u) (items_of it) rows /\ lived lists c /\
      exists zs, Forall2 (like lists) (map (map into) rows) zs /\ reads lists c zs).
    { intros o Hb H0 [(r & E)|(w & r & w' & E)].
      - destruct (handed_over R o [] it rows c r ODone (lived_built _ _ Hb) (empty_reads o Hb H0) Hr E)
          as (A1 & A2 & A3).
        split; [exact A1|]. split; [exact A2|]. split; [|exact A3].
        refine (lived_owned k s u into R o it c r ODone Hu Hinto (lived_built _ _ Hb) Hlv E _). discriminate.
      - destruct (handed_over_try R o [] it w rows c r ODone w' (lived_built _ _ Hb) (empty_reads o Hb H0) Hr E)
          as (A1 & A2 & A3).
        split; [exact A1|]. split; [exact A2|]. split; [|exact A3].
        exact (lived_owned_try k s u into R o it w c r ODone w' Hu Hinto (lived_built _ _ Hb) Hlv E). }
    destruct H as [(r & E)|[(r & E)|(w & r & w' & E)]].
    - unfold ou_from_iter in E. destruct (ou_extend _ _ _ _ _ it) as [[o1 r1] e1] eqn:E1.
      destruct e1; try discriminate. injection E as -> <-.
      refine (G (of_default (coll s) k) (built_default lists) _ _); [exact F1|]. left. eauto.
    - unfold ou_from_iter_in in E. specialize (F2 (upper_or_lower (it_hint it))). destruct F2 as [F2 _].
      change (k_with_capacity (coll lists)) with (of_with_capacity (coll s) k) in F2.
      destruct (of_with_capacity (coll s) k _) as [o0| | |]; try discriminate.
      destruct (ou_extend _ _ _ _ _ it) as [[o1 r1] e1] eqn:E1.
      destruct e1; try discriminate. injection E as -> <-. destruct F2 as [F2 F4].
      refine (G o0 F4 F2 _). left. eauto.
    - unfold ou_try_from_iter in E.
      destruct (of_try_with_capacity (coll s) k _ w) as [[o0| | |] w1] eqn:E0; try discriminate.
      specialize (F3 _ _ _ _ E0). destruct (ou_try_extend _ _ _ _ _ it _) as [[[o1 r1] e1] w2] eqn:E1.
      destruct e1; try discriminate. injection E as -> <- <-. destruct F3 as [F3 F4].
      refine (G o0 F4 F3 _). right. eauto.
  Qed.
End Handed.

(** Collections that can be consumed are seen as the lists of their items. *)
Lemma whole_as_lists u s R (into : cA (coll u) -> cA (coll s)) (it : iter (cC (coll u)) R) :
  Forall (fun p => match fst p with
                   | Yield c => exists xs, reads u c xs /\ whole u c xs
                   | _ => True
                   end) (it_tr it) ->
  exists it', as_consumed into it it'.
Proof.
  destruct it as [n t]. cbn [it_tr]. intros H.
  assert (G : exists t', Forall2 (consumed into) t t').
  { induction H as [|[e m] t He _ [t' IH]]; [exists []; constructor|]. cbn [fst] in He.
    destruct e as [c| |].
    - destruct He as (ys & Hr & st & E & Hy). exists ((Yield (map into ys), m) :: t').
      constructor; [|exact IH]. split; [reflexivity|]. exists ys, st.
      split; [exact (rd_len _ _ _ Hr)|]. auto.
    - exists ((Stop, m) :: t'). constructor; [|exact IH]. split; reflexivity.
    - exists ((Boom, m) :: t'). constructor; [|exact IH]. split; reflexivity. }
  destruct G as [t' G]. exists (Iter n t'). split; [reflexivity|exact G].
Qed.

Lemma fill_strong s : widths_pos s -> forall c, w_inv (shape_wd s) c -> rows_fill s c ->
  l_inv (shape_ld s) c.
Proof.
  induction s as [p| |s IH|n s IH|k s IH|A a0 z]; cbn [widths_pos rows_fill]; intros Hw c Hc Hf.
  - exact Hc.
  - exact Hc.
  - change (validity (cC (coll s))) in c. destruct Hc as [H1 H2].
    pose proof (IH Hw _ H1 (proj2 Hf)) as G1. split; [exact G1|].
    destruct (strong_weak s _ G1) as [_ G2]. destruct (va_bm c); [|exact I]. rewrite G2 in H2. exact H2.
  - destruct Hw as [Hn Hw]. destruct Hf as [(q & Hq) Hf]. pose proof (IH Hw c Hc Hf) as G1.
    split; [exact G1|]. exists q.
    rewrite (lw_len _ _ (shape_laws s Hw) c G1) in Hq. injection Hq as Hq. exact Hq.
  - change (offsets (cC (coll s))) in c. destruct Hc as (ls & H1 & H2 & H3 & H4 & H5).
    pose proof (IH Hw _ H1 Hf) as G1. destruct (strong_weak s _ G1) as [_ G2].
    exists ls. rewrite G2 in H4.
    split; [exact G1|]. split; [exact H2|]. split; [exact H3|]. split; [exact H4|exact H5].
  - exact Hc.
Qed.
Lemma filled_whole s : widths_pos s -> forall c xs, lived s c -> reads s c xs -> rows_fill s c ->
  whole s c xs.
Proof.
  intros Hw c xs Hc Hx Hf. destruct (lived_abs s Hw c xs Hc Hx) as [-> Hi].
  pose proof (fill_strong s Hw c Hi Hf) as G. rewrite (proj2 (strong_weak s c G)).
  exact (sh_into _ _ _ (inv_shows (coll s) (shape_ld s) (shape_laws s Hw) c G)).
Qed.

(** ** Reading *)

Section Reading.
  Context (s u : shape) (Hs : widths_pos s) (Hu : widths_pos u) (k : okind).
  Context (back : cA (coll s) -> cA (coll u)) (Hback : forall x, item_ok s x -> item_ok u (back x)).
  Local Notation lists := (SList k s).

  Lemma rows_back rows : Forall (item_ok lists) rows ->
    Forall (fun row => Forall (item_ok u) (map back row)) rows.
  Proof.
    induction 1 as [|row rows Hr _ IH]; constructor; [|exact IH].
    cbn [item_ok] in Hr. induction Hr; cbn [map]; constructor; auto.
  Qed.
  Lemma handed_row o rows i row : reads lists o rows -> nth_error rows i = Some row ->
    exists v, of_view (coll s) o (N.of_nat i) = Ret (Some v) /\
      collects u (map back row) (ou_own (coll s) (coll u) back v).
  Proof.
    intros H Hn. pose proof (rd_owned _ _ _ H i row Hn) as Ho. unfold k_owned in Ho.
    cbn [coll offsets_coll k_view k_own] in Ho.
    destruct (of_view (coll s) o (N.of_nat i)) as [[v|]|]; try discriminate.
    exists v. split; [reflexivity|]. cbn [obind] in Ho.
    destruct (ov_own (coll s) v) as [r|] eqn:E; [|discriminate]. cbn [obind] in Ho.
    injection Ho as ->. apply own_collects; auto.
    pose proof (rows_back rows (rd_ok _ _ _ H)) as Hr. rewrite Forall_forall in Hr. apply Hr.
    eapply nth_error_In; eauto.
  Qed.
  Lemma lists_whole o rows : lived lists o -> reads lists o rows -> whole lists o rows.
  Proof.
    intros Ho Hr. destruct (lived_abs lists Hs o rows Ho Hr) as [-> Hi].
    pose proof (shape_wlaws lists Hs) as L.
    destruct (ww_into _ _ _ L o Hi) as (st & E & Hst). exists st. split; [exact E|].
    destruct (worep_ends _ _ _ L _ _ Hst) as [Y|B]; [exact Y|]. exfalso.
    clear E Hi Ho Hr. revert st Hst B.
    set (rows := w_abs (shape_wd lists) o). clearbody rows.
    induction rows as [|row rows IH]; intros st Hst B; destruct B as [_ B].
    - destruct Hst as (_ & pre & rest & _ & _ & H4). cbn [coll offsets_coll k_onext] in B.
      unfold of_onext in B. rewrite H4 in B. discriminate.
    - destruct B as (st' & E & B). destruct (ww_ocons _ _ _ L st row rows Hst) as (st2 & E2 & H2).
      rewrite E in E2. injection E2 as <-. exact (IH st' H2 B).
  Qed.
  Lemma handed_rows o rows : lived lists o -> reads lists o rows ->
    exists st, of_into (coll s) o = Ret st /\
      hands_out u (ou_onext (coll s) (coll u) back) (of_ohint (coll s)) st (map (map back) rows).
  Proof.
    intros Ho Hr. destruct (lists_whole o rows Ho Hr) as (st & E & Y). exists st. split; [exact E|].
    apply onext_hands; [exact Hu|exact Y|]. apply rows_back. exact (rd_ok _ _ _ Hr).
  Qed.
End Reading.

(** ** Clones and storage *)

Lemma clone_reads s : widths_pos s -> clonable s = true -> forall c xs, lived s c -> reads s c xs ->
  lived s (clone s c) /\ image_of s (clone s c) = image_of s c /\ reads s (clone s c) xs.
Proof.
  intros Hw Hs c xs Hc Hx. split; [exact (lived_clone s c Hs Hc)|]. split; [apply clone_image|].
  destruct (lived_abs s Hw c xs Hc Hx) as [-> Hi]. destruct (wclone_inv s c Hi) as [H1 H2].
  rewrite <- H2. exact (inv_reads s Hw _ H1).
Qed.
Lemma sim_breaks : forall K O rel, Sim K O rel -> forall xs s t, rel s t ->
  breaks (k_onext K) (k_ohint K) t xs -> breaks (o_next O) (o_hint O) s xs.
Proof.
  intros K O rel HS xs. induction xs as [|x xs IH]; intros s t Hr [Hh B]; cbn [breaks];
    (split; [rewrite (sim_hint _ _ _ HS s t Hr); exact Hh|]);
    pose proof (sim_next _ _ _ HS s t Hr) as Hx; unfold nexts in Hx.
  - rewrite B in Hx. exact Hx.
  - destruct B as (t' & E & B). rewrite E in Hx. destruct Hx as (s' & -> & Hr').
    exists s'. split; [reflexivity|exact (IH _ _ Hr' B)].
Qed.
Lemma storage_reads s (f : storages s) c xs : reads s c xs ->
  exists st, o_into (own_in s f) c = Ret st /\
    (whole s c xs /\ yields (o_next (own_in s f)) (o_hint (own_in s f)) Ret st xs \/
     cut_off s c xs /\ breaks (o_next (own_in s f)) (o_hint (own_in s f)) st xs).
Proof.
  intros Hx. destruct (own_in_sim s f) as [rel HS]. destruct (rd_into _ _ _ Hx) as (t & E & D).
  pose proof (sim_into _ _ _ HS c) as Hi. rewrite E in Hi. destruct Hi as (st & Ei & Hr).
  exists st. split; [exact Ei|]. destruct D as [Y|B]; [left|right].
  - split; [exists t; auto|exact (sim_yields _ _ _ HS xs st t Hr Y)].
  - split; [exists t; auto|exact (sim_breaks _ _ _ HS xs st t Hr B)].
Qed.

