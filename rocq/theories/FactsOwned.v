(** * Facts about lists handed over as collections *)
From Coq Require Import List NArith ZArith Bool Arith Lia.
From Verif Require Import Base Iter Spec VecModel BitmapModel CollModel ValidityModel FlattenModel
  OffsetsModel LayoutModel Reach IterLemmas ReachLemmas CoreLemmas FactsBitmap FactsList OwnedListModel SpecOwned SpecHanded.
Import ListNotations.

Section Drain.
  Variables K U : Coll.
  Variable into : cA U -> cA K.

  Lemma nones_now {S X} (next : S -> out (option X * S)) hnt s : (forall n, nones next hnt n s) ->
    hnt s = Ret (exact_hint 0) /\ exists s', next s = Ret (None, s').
  Proof.
    intros H. destruct (H 1) as (H1 & s' & H2 & _). split; [exact H1|]. eauto.
  Qed.
  Lemma drain_yields xs : forall s, yields (k_onext U) (k_ohint U) Ret s xs ->
    ou_node U s = Node (exact_hint (length xs)) tt /\
    forall n, length xs <= n -> ou_drain K U into (S n) s = list_t (map into xs).
  Proof.
    induction xs as [|x xs IH]; intros s H.
    - apply nones_now in H. destruct H as (H & s' & E). split.
      + unfold ou_node. rewrite H. reflexivity.
      + intros n _. cbn [ou_drain]. rewrite E. reflexivity.
    - destruct H as (H & v & s' & E & Ev & H'). injection Ev as ->. apply IH in H'.
      destruct H' as [Hn Hd]. split.
      + unfold ou_node. rewrite H. reflexivity.
      + intros n Hl. cbn [ou_drain]. rewrite E. cbn [map list_t]. rewrite map_length, Hn.
        f_equal. destruct n as [|n]; [cbn in Hl; lia|]. apply Hd. cbn in Hl. lia.
  Qed.
  Lemma items_yielded s ys : yields (k_onext U) (k_ohint U) Ret s ys ->
    ou_items K U into (length ys) s = it_list (map into ys).
  Proof.
    intros Hy. destruct (drain_yields ys s Hy) as [H1 H2].
    unfold ou_items, it_list. rewrite H1, map_length, H2 by lia. reflexivity.
  Qed.
End Drain.

Section AsLists.
  Variables K U : Coll.
  Variable kd : okind.
  Variable into : cA U -> cA K.

  Lemma ou_extend_t_lists R (t : trace (cC U) R) (t' : trace (list (cA K)) R) :
    Forall2 (consumed into) t t' -> forall n o p,
    ou_extend_t K U kd into t n o p = of_extend_t K kd t' n o p.
  Proof.
    induction 1 as [|[e n] [e' n'] t t' [H0 H] _ IH]; intros m o p; [reflexivity|].
    cbn [fst snd] in *. subst n'. cbn [ou_extend_t of_extend_t].
    destruct e as [c| |], e' as [l| |]; try contradiction; try reflexivity.
    destruct H as (ys & s & Hl & E & Hy & ->). rewrite Hl, E, (items_yielded K U into s ys Hy).
    unfold lenN. rewrite map_length.
    destruct (off_try_from kd (N.of_nat (length ys))) as [z|]; [|reflexivity].
    destruct (off_strict_add kd p z) as [next|]; [|reflexivity].
    destruct (k_reserve K (of_data o) (N.of_nat (length ys))) as [d1 [| | |]]; try reflexivity.
    destruct (k_extend K d1 (it_list (map into ys))) as [[d2 []] [| | |]]; try reflexivity.
    destruct (vec_extend (osz kd) (of_offs o) (it_list [next])) as [[v3 []] [| | |]]; try reflexivity.
    apply IH.
  Qed.
  Lemma ou_extend_lists R o (it : iter (cC U) R) it' : as_consumed into it it' ->
    ou_extend K U kd into o it = of_extend K kd o it'.
  Proof.
    intros [Hn Ht]. unfold ou_extend, of_extend, it_src. rewrite Hn.
    destruct (nth_error _ _) as [p|]; [|reflexivity]. destruct (as_usize p) as [q|]; [|reflexivity].
    destruct (k_truncate K (of_data o) q) as [d1 [| | |]]; try reflexivity.
    apply ou_extend_t_lists. exact Ht.
  Qed.
  Lemma ou_try_extend_t_lists R rows dl (t : trace (cC U) R) (t' : trace (list (cA K)) R) :
    Forall2 (consumed into) t t' -> forall n o p w,
    ou_try_extend_t K U kd into rows dl t n o p w = of_try_extend_t K kd rows dl t' n o p w.
  Proof.
    induction 1 as [|[e n] [e' n'] t t' [H0 H] _ IH]; intros m o p w; [reflexivity|].
    cbn [fst snd] in *. subst n'. cbn [ou_try_extend_t of_try_extend_t].
    destruct e as [c| |], e' as [l| |]; try contradiction; try reflexivity.
    destruct H as (ys & s & Hl & E & Hy & ->). rewrite Hl, E, (items_yielded K U into s ys Hy).
    unfold lenN. rewrite map_length. destruct (as_usize p) as [q|]; [|reflexivity].
    destruct (match checked_add q (N.of_nat (length ys)) with
              | Some u => off_try_from kd u | None => None end) as [next|]; [|reflexivity].
    destruct (k_try_extend K (of_data o) (it_list (map into ys)) w) as [[[d2 []] [| | |]] w2];
      try reflexivity.
    destruct (vec_try_extend (osz kd) (of_offs o) (it_list [next]) w2) as [[[v3 []] [| | |]] w3];
      try reflexivity.
    apply IH.
  Qed.
  Lemma ou_try_extend_lists R o (it : iter (cC U) R) it' w : as_consumed into it it' ->
    ou_try_extend K U kd into o it w = of_try_extend K kd o it' w.
  Proof.
    intros [Hn Ht]. unfold ou_try_extend, of_try_extend, it_src. rewrite Hn.
    destruct (of_len K o) as [rows|]; [|reflexivity].
    destruct (nth_error _ _) as [p|]; [|reflexivity]. destruct (as_usize p) as [q|]; [|reflexivity].
    destruct (k_truncate K (of_data o) q) as [d1 [| | |]]; try reflexivity.
    apply ou_try_extend_t_lists. exact Ht.
  Qed.
  Lemma ou_collect_lists R (it : iter (cC U) R) it' w : as_consumed into it it' ->
    ou_from_iter K U kd into it = of_from_iter K kd it' /\
    ou_from_iter_in K U kd into it = of_from_iter_in K kd it' /\
    ou_try_from_iter K U kd into it w = of_try_from_iter K kd it' w.
  Proof.
    intros H. pose proof H as [Hn Ht].
    unfold ou_from_iter, of_from_iter, ou_from_iter_in, of_from_iter_in, ou_try_from_iter,
      of_try_from_iter, it_hint, it_src. rewrite Hn.
    rewrite (ou_extend_lists R _ it it' H). split; [reflexivity|]. split.
    - destruct (of_with_capacity K kd _) as [o| | |]; try reflexivity.
      rewrite (ou_extend_lists R _ it it' H). reflexivity.
    - destruct (of_try_with_capacity K kd _ w) as [[o| | |] w1]; try reflexivity.
      rewrite (ou_try_extend_lists R _ it it' w1 H). reflexivity.
  Qed.
  Lemma writing_consumed R (it : iter (cC U) R) it' : as_consumed into it it' ->
    (forall o, ou_extend K U kd into o it = of_extend K kd o it') /\
    (forall o w, ou_try_extend K U kd into o it w = of_try_extend K kd o it' w) /\
    ou_from_iter K U kd into it = of_from_iter K kd it' /\
    ou_from_iter_in K U kd into it = of_from_iter_in K kd it' /\
    (forall w, ou_try_from_iter K U kd into it w = of_try_from_iter K kd it' w).
  Proof.
    intros H. split; [intros o; apply ou_extend_lists; exact H|].
    split; [intros o w; apply ou_try_extend_lists; exact H|].
    destruct (ou_collect_lists R it it' [] H) as (E1 & E2 & _). split; [exact E1|].
    split; [exact E2|]. intros w. apply (ou_collect_lists R it it' w H).
  Qed.
End AsLists.

Lemma listed_consumed (U : Coll) A R (into : cA U -> A) (it : iter (cC U) R) it' :
  as_lists into it it' -> as_consumed into it it'.
Proof.
  intros [H0 H]. split; [exact H0|]. induction H as [|[e n] [e' n'] t t' [H1 H2] _ IH]; constructor; [|exact IH].
  split; [exact H1|]. cbn [fst] in *. destruct e as [c| |], e' as [l| |]; try contradiction; try exact I.
  destruct H2 as (ys & Hs & ->). destruct (sh_into _ _ _ Hs) as (st & E & Hy).
  exists ys, st. split; [exact (sh_len _ _ _ Hs)|]. auto.
Qed.
Lemma writing_as_lists K U kd (into : cA U -> cA K) R (it : iter (cC U) R) it' : as_lists into it it' ->
  (forall o, ou_extend K U kd into o it = of_extend K kd o it') /\
  (forall o w, ou_try_extend K U kd into o it w = of_try_extend K kd o it' w) /\
  ou_from_iter K U kd into it = of_from_iter K kd it' /\
  ou_from_iter_in K U kd into it = of_from_iter_in K kd it' /\
  (forall w, ou_try_from_iter K U kd into it w = of_try_from_iter K kd it' w).
Proof. intros H. apply writing_consumed, listed_consumed, H. Qed.

Lemma affords_promise {A R} (cost : A -> N) unit lim used (it : iter A R) :
  affords cost unit lim used it -> (used + unit * fst (it_hint it) <= lim)%N.
Proof. unfold affords, it_hint. destruct (it_tr it) as [|[[a| |] n] t]; intros [H _]; exact H. Qed.

Section Reading.
  Variables K : Coll.
  Variable u : shape.
  Hypothesis Hu : widths_pos u.
  Variable back : cA K -> cA (coll u).
  Local Notation U := (coll u).

  Lemma range_list f : forall n start l, range_out f start n = Ret l ->
    length l = n /\ range_t K U back f start n = list_t (map back l).
  Proof.
    induction n as [|n IH]; intros start l H; cbn [range_out] in H.
    - injection H as <-. split; reflexivity.
    - cbn [range_t]. destruct (f start) as [b|]; [|discriminate]. cbn [obind] in H.
      destruct (range_out f (start + 1)%N n) as [r|] eqn:E; [|discriminate]. cbn [obind] in H.
      injection H as <-. apply IH in E. destruct E as [E1 E2]. split; [cbn; lia|].
      rewrite E2. cbn [map list_t]. rewrite map_length, E1. reflexivity.
  Qed.
  Lemma range_collects f start n l : range_out f start n = Ret l ->
    Forall (item_ok u) (map back l) -> collects u (map back l) (range_collect K U back f start n).
  Proof.
    intros H Hi. apply range_list in H. destruct H as [Hl Ht].
    unfold range_collect. rewrite Ht.
    replace (Iter (Node (exact_hint n) tt) (list_t (map back l))) with (it_list (map back l))
      by (unfold it_list; rewrite map_length, Hl; reflexivity).
    destruct (k_from_iter U (it_list (map back l))) as [res r] eqn:E. cbn [fst].
    pose proof (collect_core u Hu false unit (it_list (map back l)) res r) as H.
    destruct (items_of_list (map back l)) as [Il Fl].
    rewrite Il in H. specialize (H (or_intror (fused_list _)) Hi E).
    destruct H as [H1 H2]. unfold collects.
    assert (Hroom : ~ (limit u < total (cost u) (map back l))%N -> exists c, res = BOk c).
    { intros Hn. rewrite Fl in H2. pose proof (room_new_list u (map back l) Hu Hi) as Hr. apply H2.
      - apply Hr. lia.
      - specialize (Hr ltac:(lia)). apply affords_promise in Hr. change (upper_or_lower _) with (N.of_nat (length (map back l))).
        cbn [it_hint it_node it_list nd_hint exact_hint fst] in Hr. lia. }
    destruct res as [c| | |]; auto.
    - destruct H1 as (_ & H1 & H3 & _). split; assumption.
    - destruct (N.lt_ge_cases (limit u) (total (cost u) (map back l))) as [A|A]; [exact A|].
      destruct Hroom as [c Hc]; [lia|discriminate].
    - destruct (N.lt_ge_cases (limit u) (total (cost u) (map back l))) as [A|A]; [exact A|].
      destruct Hroom as [c Hc]; [lia|discriminate].
  Qed.

  Lemma own_collects v row : ov_own K v = Ret row -> Forall (item_ok u) (map back row) ->
    collects u (map back row) (ou_own K U back v).
  Proof.
    unfold ov_own, ou_own. destruct (ov_len K v) as [n|]; [|discriminate]. cbn [obind].
    apply range_collects.
  Qed.
  Lemma onext_hands rows : forall st, yields (of_onext K) (of_ohint K) Ret st rows ->
    Forall (fun row => Forall (item_ok u) (map back row)) rows ->
    hands_out u (ou_onext K U back) (of_ohint K) st (map (map back) rows).
  Proof.
    induction rows as [|row rows IH]; intros st H Hi; cbn [map hands_out].
    - apply nones_now in H. destruct H as (H & st' & E). split; [exact H|].
      unfold of_ohint in H. injection H as H. unfold ou_onext, of_onext in *.
      destruct (oi_offs st) as [|e rest]; [reflexivity|]. cbn in H. lia.
    - destruct H as (H & v & st' & E & Ev & H'). injection Ev as ->.
      split; [rewrite H; cbn [length]; rewrite map_length; reflexivity|].
      unfold of_onext in E. unfold ou_onext. destruct (oi_offs st) as [|e rest]; [discriminate|].
      destruct (as_usize (oi_pos st)) as [su|]; [|discriminate].
      destruct (as_usize e) as [eu|]; [|discriminate]. cbn [obind] in E.
      match type of E with obind ?X _ = _ => destruct X as [l|] eqn:El; [|discriminate] end.
      cbn [obind] in E. injection E as -> <-. inversion Hi as [|? ? Hi1 Hi2]; subst.
      pose proof (range_collects _ _ _ _ El Hi1) as Hc.
      destruct (range_collect K U back _ su _) as [c| | |]; try exact Hc.
      split; [exact Hc|]. apply IH; assumption.
  Qed.
End Reading.

Section Owned.
  Variables s u : shape.
  Hypothesis Hs : widths_pos s.
  Hypothesis Hu : widths_pos u.
  Variable kd : okind.
  Variable back : cA (coll s) -> cA (coll u).
  Hypothesis Hback : forall x, item_ok s x -> item_ok u (back x).

  Lemma rows_ok c rows : built (SList kd s) c -> shows (offsets_coll (coll s) kd) c rows ->
    Forall (fun row => Forall (item_ok u) (map back row)) rows.
  Proof.
    intros Hb H. destruct (built_shows (SList kd s) Hs c Hb) as (ys & Hi & H').
    rewrite (shows_unique (offsets_coll (coll s) kd) c rows ys H H').
    clear H H'. induction Hi as [|row ys Hr _ IH]; constructor; [|exact IH].
    cbn [item_ok] in Hr. induction Hr; cbn [map]; constructor; auto.
  Qed.
  Lemma owned_row c rows i row : built (SList kd s) c ->
    shows (offsets_coll (coll s) kd) c rows -> nth_error rows i = Some row ->
    exists v, of_view (coll s) c (N.of_nat i) = Ret (Some v) /\
      collects u (map back row) (ou_own (coll s) (coll u) back v).
  Proof.
    intros Hb H Hn. pose proof (sh_owned _ _ _ H i row Hn) as Ho. unfold k_owned in Ho.
    cbn [offsets_coll k_view k_own] in Ho.
    destruct (of_view (coll s) c (N.of_nat i)) as [[v|]|]; try discriminate.
    exists v. split; [reflexivity|]. cbn [obind] in Ho.
    destruct (ov_own (coll s) v) as [r|] eqn:E; [|discriminate]. cbn [obind] in Ho.
    injection Ho as ->. apply own_collects; auto.
    pose proof (rows_ok c rows Hb H) as Hr. rewrite Forall_forall in Hr. apply Hr.
    eapply nth_error_In; eauto.
  Qed.
  Lemma owned_rows c rows : built (SList kd s) c -> shows (offsets_coll (coll s) kd) c rows ->
    exists st, of_into (coll s) c = Ret st /\
      hands_out u (ou_onext (coll s) (coll u) back) (of_ohint (coll s)) st (map (map back) rows).
  Proof.
    intros Hb H. destruct (sh_into _ _ _ H) as (st & E & Hy). exists st. split; [exact E|].
    apply onext_hands; [exact Hu|exact Hy|]. apply (rows_ok c); assumption.
  Qed.
End Owned.

(** Iterators of collections that can be built. *)
Lemma seen_as_lists u s (Hu : widths_pos u) R (into : cA (coll u) -> cA (coll s))
  (it : iter (cC (coll u)) R) : yields_built u it -> exists it', as_lists into it it'.
Proof.
  destruct it as [n t]. unfold yields_built. cbn [it_tr]. intros H.
  assert (G : exists t', Forall2 (listed into) t t').
  { induction H as [|[e m] t He _ [t' IH]]; [exists []; constructor|]. cbn [fst] in He.
    destruct e as [c| |].
    - destruct (built_shows u Hu c He) as (ys & _ & Hs). exists ((Yield (map into ys), m) :: t').
      constructor; [|exact IH]. split; [reflexivity|]. exists ys. auto.
    - exists ((Stop, m) :: t'). constructor; [|exact IH]. split; reflexivity.
    - exists ((Boom, m) :: t'). constructor; [|exact IH]. split; reflexivity. }
  destruct G as [t' G]. exists (Iter n t'). split; [reflexivity|exact G].
Qed.
Definition lists_as {U : Coll} {A} (into : cA U -> A) (c : cC U) (l : list A) : Prop :=
  exists ys, shows U c ys /\ l = map into ys.
Lemma run_lists (U : Coll) A R (into : cA U -> A) (t : trace (cC U) R) t' :
  Forall2 (listed into) t t' -> forall n,
  Forall2 (lists_as into) (fst (fst (run_t t n))) (fst (fst (run_t t' n))) /\
  snd (fst (run_t t n)) = snd (fst (run_t t' n)).
Proof.
  induction 1 as [|[e m] [e' m'] t t' [H0 H] _ IH]; intros n; [split; [constructor|reflexivity]|].
  cbn [fst snd] in *. subst m'. cbn [run_t].
  destruct e as [c| |], e' as [l| |]; try contradiction; try (split; [constructor|reflexivity]).
  specialize (IH m). destruct (run_t t m) as [[xs f] r], (run_t t' m) as [[xs' f'] r'].
  cbn [fst snd] in *. destruct IH as [I1 I2]. split; [constructor; assumption|exact I2].
Qed.
Lemma items_built u R (it : iter (cC (coll u)) R) : yields_built u it -> Forall (built u) (items_of it).
Proof.
  destruct it as [n t]. unfold yields_built, items_of, run. cbn [it_tr it_node]. intros H.
  revert n. induction H as [|[e m] t He _ IH]; intros n; [constructor|]. cbn [fst] in He.
  cbn [run_t]. destruct e as [c| |]; [|constructor|constructor].
  specialize (IH m). destruct (run_t t m) as [[xs f] r]. constructor; assumption.
Qed.
Section Round.
  Variables s u : shape.
  Hypothesis Hs : widths_pos s.
  Hypothesis Hu : widths_pos u.
  Variable kd : okind.
  Variable into : cA (coll u) -> cA (coll s).
  Variable back : cA (coll s) -> cA (coll u).
  Hypothesis Hround : forall y, back (into y) = y.
  Hypothesis Hinto : forall y, item_ok u y -> item_ok s (into y).
  Hypothesis Hback : forall x, item_ok s x -> item_ok u (back x).

  Lemma lists_items_ok xs ls : Forall (built u) xs -> Forall2 (lists_as into) xs ls ->
    Forall (item_ok (SList kd s)) ls.
  Proof.
    intros Hb H. revert Hb. induction H as [|c l xs ls (ys & Hc & ->) _ IH]; intros Hb; [constructor|].
    inversion Hb as [|? ? Hb1 Hb2]; subst. constructor; [|auto].
    destruct (built_shows u Hu c Hb1) as (ys' & Hi & Hc').
    rewrite (shows_unique _ _ _ _ Hc Hc'). cbn [item_ok].
    clear - Hi Hinto. induction Hi; cbn [map]; constructor; auto.
  Qed.
  Lemma back_into ys : map back (map into ys) = ys.
  Proof. rewrite map_map. induction ys; cbn; congruence. Qed.
  Lemma round_trip R (it : iter (cC (coll u)) R) c : yields_built u it ->
    (exists r, ou_from_iter (coll s) (coll u) kd into it = (BOk c, r)) \/
    (exists r, ou_from_iter_in (coll s) (coll u) kd into it = (BOk c, r)) \/
    (exists w r w', ou_try_from_iter (coll s) (coll u) kd into it w = (BOk c, r, w')) ->
    fin_of it = FStop /\ of_len (coll s) c = Ret (length (items_of it)) /\
    (forall i x ys, nth_error (items_of it) i = Some x -> shows (coll u) x ys ->
       exists v, of_view (coll s) c (N.of_nat i) = Ret (Some v) /\
         collects u ys (ou_own (coll s) (coll u) back v)) /\
    exists st yss, of_into (coll s) c = Ret st /\ Forall2 (shows (coll u)) (items_of it) yss /\
      hands_out u (ou_onext (coll s) (coll u) back) (of_ohint (coll s)) st yss.
  Proof.
    intros Hb H. destruct (seen_as_lists u s Hu R into it Hb) as [it' Hl].
    destruct (run_lists _ _ _ into _ _ (proj2 Hl) (it_node it)) as [H1 H2].
    assert (I1 : Forall2 (lists_as into) (items_of it) (items_of it'))
      by (unfold items_of, run; rewrite <- (proj1 Hl); exact H1).
    assert (I2 : fin_of it = fin_of it')
      by (unfold fin_of, run; rewrite <- (proj1 Hl); exact H2).
    pose proof (lists_items_ok _ _ (items_built u R it Hb) I1) as Hi.
    assert (Hc : fin_of it' = FStop /\ shows (offsets_coll (coll s) kd) c (items_of it') /\
                 built (SList kd s) c).
    { destruct (ou_collect_lists (coll s) (coll u) kd into R it it' [] (listed_consumed _ _ _ _ _ _ Hl)) as (E1 & E2 & _).
      destruct H as [[r E]|[[r E]|(w & r & w' & E)]].
      - rewrite E1 in E.
        destruct (collect_core (SList kd s) Hs false R it' (BOk c) r) as [(A1 & A2 & A3 & _) _]; auto.
      - rewrite E2 in E.
        destruct (collect_core (SList kd s) Hs true R it' (BOk c) r) as [(A1 & A2 & A3 & _) _]; auto.
      - destruct (ou_collect_lists (coll s) (coll u) kd into R it it' w (listed_consumed _ _ _ _ _ _ Hl)) as (_ & _ & E3).
        rewrite E3 in E.
        destruct (try_collect_core (SList kd s) Hs R it' w (BOk c) r w') as (A1 & A2 & A3 & _); auto. }
    destruct Hc as (C1 & C2 & C3). split; [congruence|]. split.
    { pose proof (sh_len _ _ _ C2) as Hn. cbn [offsets_coll k_len] in Hn. rewrite Hn.
      f_equal. clear - I1. induction I1; cbn [length]; congruence. }
    split.
    - intros i x ys Hx Hy.
      assert (Hn : nth_error (items_of it') i = Some (map into ys)).
      { clear - I1 Hx Hy. revert i Hx. induction I1 as [|c l xs ls (zs & Hc & ->) _ IH];
          intros [|i] Hx; try discriminate.
        - cbn in *. injection Hx as ->. rewrite (shows_unique _ _ _ _ Hy Hc). reflexivity.
        - cbn in *. auto. }
      destruct (owned_row s u Hs Hu kd back Hback c _ i _ C3 C2 Hn) as (v & Ev & Hv).
      rewrite back_into in Hv. eauto.
    - destruct (owned_rows s u Hs Hu kd back Hback c _ C3 C2) as (st & Est & Hst).
      exists st, (map (map back) (items_of it')). split; [exact Est|]. split; [|exact Hst].
      clear - I1 Hround. induction I1 as [|c l xs ls (zs & Hc & ->) _ IH]; cbn [map]; constructor.
      + rewrite back_into. exact Hc.
      + exact IH.
  Qed.
End Round.
