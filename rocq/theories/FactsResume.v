(** * Lemmas about collecting bitmaps from iterators that resume *)
From Coq Require Import List NArith ZArith Bool Arith Lia ZifyBool ZifyNat ZifyN.
From Verif Require Import Base Iter Spec SpecResume VecModel BitmapModel CollModel ValidityModel
  FlattenModel OffsetsModel LayoutModel IterLemmas VecLemmas RoomLemmas BitmapLemmas
  BitmapLemmas2 Laws LawsBase Reach ReachLemmas CoreLemmas FactsBitmap.
Import ListNotations.

Ltac Zify.zify_post_hook ::= Z.div_mod_to_equations.
Local Arguments Nat.div : simpl never.
Local Arguments Nat.modulo : simpl never.
Local Arguments N.add : simpl never.
Local Arguments N.mul : simpl never.

Definition all_stop {A R} (t : trace A R) : Prop := Forall (fun p => fst p = Stop) t.

(** The calls that must still return [None] once the iterator has stopped in the
    middle of a byte, before the call for bit [pos]. *)
Definition silence (pos : nat) : nat := match pos with O => 1 | _ => 9 - pos end.

Section Resume.
  Context {R : Type}.
  Implicit Types (t : trace bool R) (cur n : node (R * nat)).

  Lemma packed_quiet t : forall pos acc cur n s,
    pos < 8 -> snd (nd_src cur) = s -> (pos = 0 -> nd_src n = nd_src cur) ->
    all_stop (firstn (silence pos) t) ->
    exists r, run_t (packed_t pos acc cur (inspect_t count_item s t)) n =
      (match pos with O => [] | _ => [acc] end, FStop, (r, s)).
  Proof.
    induction t as [|[e n'] t IH]; intros pos acc cur n s Hp Hs Hn Hq.
    - exists (fst (nd_src cur)). destruct pos; cbn.
      + rewrite Hn, <- Hs by auto. rewrite <- surjective_pairing. reflexivity.
      + rewrite packed_node_src, <- Hs, <- surjective_pairing. reflexivity.
    - assert (He : e = Stop).
      { unfold silence in Hq. destruct pos as [|pos]; [inversion Hq; auto|].
        replace (9 - S pos) with (S (7 - pos)) in Hq by lia. inversion Hq; auto. }
      subst e. destruct pos as [|pos]; cbn.
      + rewrite packed_node_src. cbn. eauto.
      + destruct (Nat.eqb_spec pos 6) as [->|Hne].
        * cbn [run_t]. edestruct (IH 0 0%N) as [r ->]; [| | | |exists r; reflexivity].
          -- lia.
          -- reflexivity.
          -- intros _. apply packed_node_src.
          -- cbn in Hq |- *. inversion Hq; auto.
        * edestruct (IH (S (S pos)) acc) as [r ->]; [| | | |exists r; reflexivity].
          -- lia.
          -- reflexivity.
          -- discriminate.
          -- unfold silence in *. replace (9 - S pos) with (S (9 - S (S pos))) in Hq by lia.
             inversion Hq; auto.
  Qed.

  Lemma packed_grows t : forall pos acc cur n s ys r b,
    snd (nd_src cur) = s -> (pos = 0 -> nd_src n = nd_src cur) ->
    run_t (packed_t pos acc cur (inspect_t count_item s t)) n = (ys, FStop, (r, b)) ->
    s <= b.
  Proof.
    induction t as [|[e n'] t IH]; intros pos acc cur n s ys r b Hs Hn E.
    - cbn in E. destruct pos; cbn in E.
      + rewrite Hn in E by auto. inversion E as [[H1 H2]]. rewrite H2 in Hs. cbn in Hs. lia.
      + rewrite packed_node_src in E. inversion E as [[H1 H2]]. rewrite H2 in Hs. cbn in Hs. lia.
    - destruct e; cbn in E.
      + destruct (Nat.eqb pos 7); cbn [run_t] in E.
        * destruct (run_t _ _) as [[ys1 e1] [r1 b1]] eqn:E1 in E. inversion E; subst.
          apply IH in E1; [lia|reflexivity|intros _; apply packed_node_src].
        * apply IH in E; [lia|reflexivity|discriminate].
      + destruct pos as [|pos]; cbn in E.
        * rewrite packed_node_src in E. cbn in E. inversion E; subst. lia.
        * destruct (Nat.eqb pos 6); cbn [run_t] in E.
          -- destruct (run_t _ _) as [[ys1 e1] [r1 b1]] eqn:E1 in E. inversion E; subst.
             apply IH in E1; [lia|reflexivity|intros _; apply packed_node_src].
          -- apply IH in E; [lia|reflexivity|discriminate].
      + discriminate E.
  Qed.

  Lemma packed_loud t : forall pos acc cur n s ys r b, pos < 8 ->
    run_t (packed_t pos acc cur (inspect_t count_item s t)) n = (ys, FStop, (r, b)) ->
    ~ all_stop (firstn (silence pos) t) -> s < b.
  Proof.
    induction t as [|[e n'] t IH]; intros pos acc cur n s ys r b Hp E Hq.
    - destruct Hq. unfold silence. rewrite firstn_nil. constructor.
    - destruct e; cbn in E.
      + destruct (Nat.eqb pos 7); cbn [run_t] in E.
        * destruct (run_t _ _) as [[ys1 e1] [r1 b1]] eqn:E1 in E. inversion E; subst.
          apply packed_grows in E1; [lia|reflexivity|intros _; apply packed_node_src].
        * apply packed_grows in E; [lia|reflexivity|discriminate].
      + destruct pos as [|pos]; cbn in E.
        * destruct Hq. cbn. repeat constructor.
        * destruct (Nat.eqb_spec pos 6) as [->|Hne]; cbn [run_t] in E.
          -- destruct (run_t _ _) as [[ys1 e1] [r1 b1]] eqn:E1 in E. inversion E; subst.
             eapply IH in E1; [exact E1|lia|]. intros H; apply Hq. cbn in H |- *.
             constructor; auto.
          -- eapply IH in E; [exact E|lia|]. intros H; apply Hq. unfold silence in *.
             replace (9 - S pos) with (S (9 - S (S pos))) by lia. constructor; auto.
      + discriminate E.
  Qed.

  (** The bytes and the count collected, after [k] items ([k mod 8] of them in the
      byte at hand). *)
  Lemma packed_resume t : forall pos acc cur n (cur0 : node R) s xs e r0,
    pos < 8 -> snd (nd_src cur) = s -> (pos = 0 -> nd_src n = nd_src cur) ->
    run_t t cur0 = (xs, e, r0) ->
    let q := all_stop (firstn ((8 - (pos + length xs) mod 8) mod 8) (resumed_t t)) in
    let '(ys, e', (r, b)) := run_t (packed_t pos acc cur (inspect_t count_item s t)) n in
    (e' = FStop -> e = FStop) /\
    (q -> e' = e) /\
    (e = FStop -> q -> ys = packs pos acc xs /\ b = s + length xs) /\
    (e' = FStop -> ~ q -> s + length xs < b).
  Proof.
    induction t as [|[ev n'] t IH]; intros pos acc cur n cur0 s xs e r0 Hp Hs Hn Hr; cbv zeta.
    - inversion Hr; subst. cbn [resumed_t length].
      destruct (packed_quiet [] pos acc cur n (snd (nd_src cur))) as [r E]; auto.
      { unfold silence. rewrite firstn_nil. constructor. }
      rewrite E. rewrite firstn_nil. split; [auto|]. split; [auto|]. split.
      + intros _ _. split; [reflexivity|lia].
      + intros _ H. destruct H. constructor.
    - destruct ev as [b'| |].
      + cbn [run_t] in Hr. destruct (run_t t n') as [[xs1 e1] r1] eqn:Hr1.
        inversion Hr; subst xs e1 r1; clear Hr. cbn [packed_t packs inspect_t count_item resumed_t].
        set (acc' := match pos with
                     | O => b2n b'
                     | _ => if b' then N.lor acc (N.shiftl 1 (N.of_nat pos)) else acc
                     end).
        destruct (Nat.eqb_spec pos 7) as [->|Hne].
        * cbn [run_t].
          set (nn := Node (nd_hint n') (nd_src n', S s)).
          specialize (IH 0 0%N nn (packed_node nn) n' (S s) xs1 e r0).
          cbv zeta in IH. destruct (run_t (packed_t 0 0%N nn _) _) as [[ys e'] [r b]].
          destruct IH as (H1 & H2 & H3 & H4); auto; [lia|intros _; apply packed_node_src|].
          assert (HH : (0 + length xs1) mod 8 = (7 + length (b' :: xs1)) mod 8)
            by (cbn [length]; lia).
          rewrite HH in *. split; [auto|]. split; [auto|]. split.
          -- intros He Hq. destruct (H3 He Hq) as [-> ->]. cbn [length]. split; [reflexivity|lia].
          -- intros He Hq. specialize (H4 He Hq). cbn [length]. lia.
        * set (nn := Node (nd_hint n') (nd_src n', S s)).
          specialize (IH (S pos) acc' nn n n' (S s) xs1 e r0).
          cbv zeta in IH. destruct (run_t (packed_t (S pos) acc' nn _) _) as [[ys e'] [r b]].
          destruct IH as (H1 & H2 & H3 & H4); auto; [lia|lia|].
          assert (HH : (S pos + length xs1) mod 8 = (pos + length (b' :: xs1)) mod 8)
            by (cbn [length]; lia).
          rewrite HH in *. split; [auto|]. split; [auto|]. split.
          -- intros He Hq. destruct (H3 He Hq) as [-> ->]. cbn [length]. split; [reflexivity|lia].
          -- intros He Hq. specialize (H4 He Hq). cbn [length]. lia.
      + cbn [run_t] in Hr. inversion Hr; subst xs e r0; clear Hr.
        cbn [resumed_t length]. rewrite Nat.add_0_r, (Nat.mod_small pos) by lia.
        destruct pos as [|pos].
        * cbn. rewrite packed_node_src. cbn. split; [auto|]. split; [auto|].
          split; [intros _ _; split; [reflexivity|lia]|].
          intros _ H. destruct H. constructor.
        * rewrite (Nat.mod_small (8 - S pos)) by lia.
          assert (Hx : exists acc2 cur2, run_t (packed_t (S pos) acc cur
              (inspect_t count_item s ((Stop, n') :: t))) n =
            (let '(ys, e', r) := run_t (packed_t (if Nat.eqb pos 6 then 0 else S (S pos)) acc2 cur2
               (inspect_t count_item s t)) (if Nat.eqb pos 6 then packed_node cur2 else n) in
             (if Nat.eqb pos 6 then acc :: ys else ys, e', r)) /\
            snd (nd_src cur2) = s /\ (pos <> 6 -> acc2 = acc)).
          { cbn [inspect_t packed_t Nat.eqb]. destruct (Nat.eqb_spec pos 6) as [->|Hne].
            - exists 0%N, (Node (nd_hint n') (nd_src n', s)). cbn [run_t]. split; [reflexivity|]. split; [reflexivity|lia].
            - exists acc, (Node (nd_hint n') (nd_src n', s)). split; [|split; [reflexivity|auto]].
              destruct (run_t _ _) as [[? ?] ?]. reflexivity. }
          destruct Hx as (acc2 & cur2 & -> & Hs2 & Ha2).
          assert (Hsil : silence (if Nat.eqb pos 6 then 0 else S (S pos)) = 8 - S pos).
          { destruct (Nat.eqb_spec pos 6) as [->|Hne]; unfold silence; lia. }
          assert (Hp2 : (if Nat.eqb pos 6 then 0 else S (S pos)) < 8)
            by (destruct (Nat.eqb_spec pos 6); lia).
          pose proof (packed_quiet t _ acc2 cur2 (if Nat.eqb pos 6 then packed_node cur2 else n) s
            Hp2 Hs2) as Q.
          pose proof (packed_loud t (if Nat.eqb pos 6 then 0 else S (S pos)) acc2 cur2 (if Nat.eqb pos 6 then packed_node cur2 else n) s)
            as L.
          rewrite Hsil in Q.
          destruct (run_t (packed_t _ acc2 cur2 _) _) as [[ys e'] [r b]] eqn:E.
          assert (Q' : all_stop (firstn (8 - S pos) t) ->
            ys = (if Nat.eqb pos 6 then [] else [acc]) /\ e' = FStop /\ b = s).
          { intros Hq. destruct Q as [r' Er]; [|exact Hq|].
            - destruct (Nat.eqb pos 6); [intros _; apply packed_node_src|discriminate].
            - inversion Er; subst. destruct (Nat.eqb_spec pos 6); auto.
              rewrite Ha2 by auto. auto. }
          split; [auto|]. split; [intros Hq; apply Q', Hq|]. split.
          -- intros _ Hq. destruct (Q' Hq) as (-> & _ & ->). split; [|lia].
             destruct (Nat.eqb pos 6); reflexivity.
          -- intros -> Hq. specialize (L _ _ _ Hp2 eq_refl). rewrite Hsil in L. specialize (L Hq). lia.
      + cbn [run_t] in Hr. inversion Hr; subst. cbn.
        rewrite packed_node_src. cbn. split; [discriminate|]. split; [reflexivity|].
        split; discriminate.
  Qed.

  (** All that is collected. *)
  Lemma packed_answers_spec t : forall pos acc cur n s ys r b, pos < 8 ->
    snd (nd_src cur) = s -> (pos = 0 -> nd_src n = nd_src cur) ->
    run_t (packed_t pos acc cur (inspect_t count_item s t)) n = (ys, FStop, (r, b)) ->
    ys = packs pos acc (map is_true (answers_t pos t)) /\
    b = s + length (filter is_some (answers_t pos t)).
  Proof.
    induction t as [|[e n'] t IH]; intros pos acc cur n s ys r b Hp Hs Hn E.
    - cbn in E |- *. destruct pos; cbn in E.
      + rewrite Hn in E by auto. inversion E as [[H1 H2]]. rewrite H2 in Hs. cbn in Hs. split; [auto|lia].
      + rewrite packed_node_src in E. inversion E as [[H1 H2]]. rewrite H2 in Hs. cbn in Hs. split; [auto|lia].
    - destruct e as [x| |]; cbn [packed_t inspect_t count_item answers_t] in E |- *.
      + destruct (Nat.eqb_spec pos 7) as [->|Hne]; cbn [run_t] in E.
        * destruct (run_t _ _) as [[ys1 e1] [r1 b1]] eqn:E1 in E. inversion E; subst.
          apply IH in E1; [|lia|reflexivity|intros _; apply packed_node_src].
          destruct E1 as [-> ->]. cbn [map filter is_some length packs is_true Nat.eqb].
          change (8 mod 8) with 0. split; [reflexivity|lia].
        * apply IH in E; [|lia|reflexivity|discriminate].
          destruct E as [-> ->]. cbn [map filter is_some length packs is_true].
          rewrite (Nat.mod_small (S pos)) by lia.
          rewrite (proj2 (Nat.eqb_neq pos 7)) by auto. split; [reflexivity|lia].
      + destruct pos as [|pos].
        * cbn in E. rewrite packed_node_src in E. cbn in E. inversion E; subst. cbn. split; [auto|lia].
        * destruct (Nat.eqb_spec (S pos) 7) as [H7|Hne]; cbn [run_t] in E.
          -- destruct (run_t _ _) as [[ys1 e1] [r1 b1]] eqn:E1 in E. inversion E; subst.
             apply IH in E1; [|lia|reflexivity|intros _; apply packed_node_src].
             destruct E1 as [-> ->]. cbn [map filter is_some length packs is_true].
             rewrite H7. cbn [Nat.eqb]. change (8 mod 8) with 0. split; [reflexivity|lia].
          -- apply IH in E; [|lia|reflexivity|discriminate].
             destruct E as [-> ->]. cbn [map filter is_some length packs is_true].
             rewrite (Nat.mod_small (S (S pos))) by lia.
             rewrite (proj2 (Nat.eqb_neq (S pos) 7)) by auto. split; [reflexivity|lia].
      + discriminate E.
  Qed.
End Resume.

Lemma bm_shows_len b xs : shows bitmap_coll b xs -> bm_bits b = length xs.
Proof. intros [H _ _ _]. cbn in H. inversion H. auto. Qed.

Lemma collect_resume R (it : iter bool R) res r : bm_from_iter it = (res, r) ->
  match res with
  | BOk b => fin_of it = FStop /\ (shows bitmap_coll b (items_of it) <-> settles it)
  | BErr => False
  | _ => True
  end /\
  (settles it -> affords (fun _ => 1%N) 1 alloc_max 0 it ->
   match fin_of it with FStop => exists b, res = BOk b | FBoom => res = BPanic end).
Proof.
  unfold bm_from_iter. destruct (run_parts it) as [r0 Hr]. unfold run in Hr.
  pose proof (packed_resume (it_tr it) 0 0%N (Node (it_hint it) (it_src it, 0))
    (packed_node (Node (it_hint it) (it_src it, 0))) (it_node it) 0 _ _ _
    ltac:(lia) eq_refl (fun _ => packed_node_src _) Hr) as H.
  cbv zeta in H.
  destruct (run_t (packed_t 0 0%N _ _) _) as [[ys e'] [r1 b1]] eqn:Ep in H.
  change (run (it_packed (it_inspect count_item 0 it)) = (ys, e', (r1, b1))) in Ep.
  destruct H as (H1 & H2 & H3 & H4).
  destruct (vec_from_iter u8sz (it_packed (it_inspect count_item 0 it)))
    as [res1 [r2 bits]] eqn:E1.
  pose proof (vec_from_iter_spec _ _ _ _ _ _ _ Ep E1) as V.
  intros E; inversion E; subst; clear E. split.
  - destruct res1; cbn [bmap]; auto.
    destruct V as (Hv & -> & Hb & Hi). inversion Hb; subst. specialize (H1 eq_refl).
    split; [exact H1|]. split.
    + intros Hs. destruct (Forall_dec (fun p : ev bool * node R => fst p = Stop)) with
        (l := firstn ((8 - length (items_of it) mod 8) mod 8) (resumed_t (it_tr it))) as [q|q].
      { intros [[] ?]; cbn; [right; discriminate|left; reflexivity|right; discriminate]. }
      * exact q.
      * apply bm_shows_len in Hs. cbn in Hs. specialize (H4 eq_refl q). lia.
    + intros q. destruct (H3 H1 q) as [Hy Hbits].
      destruct (bm_packs_ok a (items_of it) Hv Hy) as (Hok & Ha & _).
      rewrite Hbits, Nat.add_0_l. rewrite <- Ha at 2. apply bits_shows; auto.
  - intros q Hs. destruct (vec_from_iter_live u8sz _ _ _ _ Ep) as [v Hv].
    { rewrite max_items_u8. apply affords_packed, affords_inspect, Hs. }
    rewrite Hv in E1. inversion E1; subst. rewrite (H2 q).
    destruct (fin_of it); cbn; eauto.
Qed.

Lemma try_collect_resume R (it : iter bool R) w res r w' :
  bm_try_from_iter it w = (res, r, w') ->
  match res with
  | BOk b => fin_of it = FStop /\ (shows bitmap_coll b (items_of it) <-> settles it)
  | BErr => True
  | BPanic => settles it -> fin_of it = FBoom
  | BAbort => False
  end.
Proof.
  unfold bm_try_from_iter. destruct (run_parts it) as [r0 Hr]. unfold run in Hr.
  pose proof (packed_resume (it_tr it) 0 0%N (Node (it_hint it) (it_src it, 0))
    (packed_node (Node (it_hint it) (it_src it, 0))) (it_node it) 0 _ _ _
    ltac:(lia) eq_refl (fun _ => packed_node_src _) Hr) as H.
  cbv zeta in H.
  destruct (run_t (packed_t 0 0%N _ _) _) as [[ys e'] [r1 b1]] eqn:Ep in H.
  change (run (it_packed (it_inspect count_item 0 it)) = (ys, e', (r1, b1))) in Ep.
  destruct H as (H1 & H2 & H3 & H4).
  destruct (vec_try_from_iter u8sz (it_packed (it_inspect count_item 0 it)) w)
    as [[res1 [r2 bits]] w1] eqn:E1.
  pose proof (vec_try_from_iter_spec _ _ _ _ _ _ _ _ _ Ep E1) as V.
  intros E; inversion E; subst; clear E.
  destruct res1; cbn [bmap]; auto.
  - destruct V as (Hv & -> & Hb & Hi). inversion Hb; subst. specialize (H1 eq_refl).
    split; [exact H1|]. split.
    + intros Hs. destruct (Forall_dec (fun p : ev bool * node R => fst p = Stop)) with
        (l := firstn ((8 - length (items_of it) mod 8) mod 8) (resumed_t (it_tr it))) as [q|q].
      { intros [[] ?]; cbn; [right; discriminate|left; reflexivity|right; discriminate]. }
      * exact q.
      * apply bm_shows_len in Hs. cbn in Hs. specialize (H4 eq_refl q). lia.
    + intros q. destruct (H3 H1 q) as [Hy Hbits].
      destruct (bm_packs_ok a (items_of it) Hv Hy) as (Hok & Ha & _).
      rewrite Hbits, Nat.add_0_l. rewrite <- Ha at 2. apply bits_shows; auto.
  - intros q. rewrite <- (H2 q). exact V.
Qed.

Lemma packed_shows R (it : iter bool R) v : vec_ok u8sz v ->
  v_items v = packs 0 0%N (map is_true (answers it)) ->
  shows bitmap_coll (Bitmap v (length (filter is_some (answers it))) 0) (packed_answers it).
Proof.
  intros Hv Hi.
  assert (Hl : length (filter is_some (answers it)) <= length (map is_true (answers it))).
  { rewrite map_length. clear. induction (answers it) as [|[] l IH]; cbn; lia. }
  destruct (packs_bits (map is_true (answers it)) 0 0%N) as [pad Hp]; [auto|lia|].
  assert (Hok : bm_ok (Bitmap v (length (filter is_some (answers it))) 0)).
  { split; [exact Hv|]. cbn [bm_buf bm_bits bm_off].
    pose proof (bits_of_length (v_items v)) as H. rewrite Hi, Hp in H at 1.
    rewrite !app_length in H. cbn [firstn length] in H. lia. }
  assert (Ha : bm_abs (Bitmap v (length (filter is_some (answers it))) 0) = packed_answers it).
  { unfold bm_abs, packed_answers. cbn [bm_buf bm_bits bm_off skipn]. rewrite Hi, Hp.
    cbn [firstn app]. rewrite firstn_app.
    replace (length (filter is_some (answers it)) - length (map is_true (answers it))) with 0 by lia.
    cbn [firstn]. apply app_nil_r. }
  rewrite <- Ha. apply bits_shows, Hok.
Qed.
Lemma collect_answers R (it : iter bool R) b r : bm_from_iter it = (BOk b, r) ->
  shows bitmap_coll b (packed_answers it).
Proof.
  unfold bm_from_iter.
  destruct (vec_from_iter u8sz (it_packed (it_inspect count_item 0 it))) as [res1 [r2 bits]] eqn:E1.
  destruct (run (it_packed (it_inspect count_item 0 it))) as [[ys e'] [r1 b1]] eqn:Ep.
  pose proof (vec_from_iter_spec _ _ _ _ _ _ _ Ep E1) as V.
  destruct res1; cbn [bmap]; intros E; inversion E; subst; clear E.
  destruct V as (Hv & -> & Hb & Hi). inversion Hb; subst.
  apply (packed_answers_spec (it_tr it) 0 0%N (Node (it_hint it) (it_src it, 0))) in Ep;
    [|lia|reflexivity|intros _; apply packed_node_src].
  destruct Ep as [Hy ->]. apply packed_shows; auto.
Qed.
Lemma try_collect_answers R (it : iter bool R) w b r w' : bm_try_from_iter it w = (BOk b, r, w') ->
  shows bitmap_coll b (packed_answers it).
Proof.
  unfold bm_try_from_iter.
  destruct (vec_try_from_iter u8sz (it_packed (it_inspect count_item 0 it)) w)
    as [[res1 [r2 bits]] w1] eqn:E1.
  destruct (run (it_packed (it_inspect count_item 0 it))) as [[ys e'] [r1 b1]] eqn:Ep.
  pose proof (vec_try_from_iter_spec _ _ _ _ _ _ _ _ _ Ep E1) as V.
  destruct res1; cbn [bmap]; intros E; inversion E; subst; clear E.
  destruct V as (Hv & -> & Hb & Hi). inversion Hb; subst.
  apply (packed_answers_spec (it_tr it) 0 0%N (Node (it_hint it) (it_src it, 0))) in Ep;
    [|lia|reflexivity|intros _; apply packed_node_src].
  destruct Ep as [Hy ->]. apply packed_shows; auto.
Qed.
