(** * How much memory vectors and bitmaps end up with *)
From Coq Require Import List NArith ZArith Bool Arith Lia ZifyBool ZifyNat ZifyN.
From Verif Require Import Base Iter Spec VecModel BitmapModel CollModel ValidityModel FlattenModel
  OffsetsModel LayoutModel IterLemmas VecLemmas BitmapLemmas BitmapLemmas2 HonestLemmas LiveBase
  MemoryLaws SpecBounds.
Import ListNotations.

Local Arguments Nat.div : simpl never.
Local Arguments Nat.modulo : simpl never.
Local Arguments Nat.mul : simpl never.
Local Arguments N.add : simpl never.
Local Arguments N.mul : simpl never.
Local Arguments N.div : simpl never.
Local Arguments max_items : simpl never.
Local Arguments smallest : simpl never.

Lemma modest_nil e : modest e [].
Proof. constructor. Qed.
Lemma modest_tail e a w : modest e (a :: w) -> modest e w.
Proof. intros H. exact (Forall_inv_tail H). Qed.

(** ** Vectors *)
Lemma min_cap_smallest esz : (min_cap esz <= smallest esz)%N.
Proof.
  unfold min_cap, smallest. destruct (esz =? 1)%N eqn:E1, (esz <=? 1024)%N eqn:E2,
    (esz <? 2)%N eqn:E3, (1024 <? esz)%N eqn:E4; lia.
Qed.
Lemma vec_reserve_bound A esz (v : vec A) n v' : vec_reserve esz v n = (v', ODone) ->
  v_items v' = v_items v /\
  (v_cap v' <= N.max (v_cap v) (multiple 2 esz (lenN (v_items v) + n)))%N.
Proof.
  pose proof (min_cap_smallest esz) as Hm. unfold vec_reserve, amortized, multiple.
  destruct (n <=? v_cap v - lenN (v_items v))%N eqn:E1; [intros E; injection E as <-; split; [auto|lia]|].
  destruct (cap_limit esz <? _)%N; [discriminate|].
  destruct (max_items esz <? _)%N eqn:E2; [discriminate|].
  intros E. injection E as <-. cbn [v_items v_cap]. split; [auto|]. lia.
Qed.
Lemma vec_try_reserve_bound A esz (v : vec A) n w e v' w' : modest e w ->
  vec_try_reserve esz v n w = (v', ODone, w') ->
  v_items v' = v_items v /\ modest e w' /\
  (v_cap v' <= N.max (v_cap v) (lenN (v_items v) + n + e))%N.
Proof.
  intros Hw. unfold vec_try_reserve.
  destruct (n <=? v_cap v - lenN (v_items v))%N eqn:E1.
  { intros E. injection E as <- <-. split; [auto|]. split; [auto|lia]. }
  destruct (max_items esz <? _)%N eqn:E2; [discriminate|].
  destruct w as [|[x|] w]; intros E; try discriminate; injection E as <- <-; cbn [v_items v_cap].
  - split; [auto|]. split; [constructor|lia].
  - split; [auto|]. pose proof (Forall_inv Hw) as Hx. cbn beta iota in Hx.
    split; [exact (modest_tail _ _ _ Hw)|]. lia.
Qed.
Lemma vec_push_bound A R esz : forall (t : trace A R) n v v' r' xs r,
  run_t t n = (xs, FStop, r) -> honest_t t n -> vec_push_t esz t n v = (v', r', ODone) ->
  lenN (v_items v') = (lenN (v_items v) + lenN xs)%N /\
  (v_cap v' <= N.max (v_cap v) (multiple 2 esz (lenN (v_items v'))))%N.
Proof.
  induction t as [|[[a| |] n'] t IH]; intros n v v' r' xs r; cbn [vec_push_t run_t honest_t].
  - intros E1 _ E. injection E1 as <- _. injection E as <- _. rewrite lenN_nil. split; lia.
  - destruct (run_t t n') as [[xs1 e1] r1] eqn:Hr. intros E1 [_ Hh]. injection E1 as <- -> <-.
    assert (Hn : (fst (nd_hint n') <= lenN xs1)%N).
    { destruct t as [|p t]; cbn [honest_t] in Hh; rewrite Hr in Hh; apply Hh. }
    rewrite lenN_cons. destruct (N.eqb_spec (lenN (v_items v)) (v_cap v)) as [He|He].
    + destruct (vec_reserve esz v (sat_add (fst (nd_hint n')) 1)) as [v1 o1] eqn:E1.
      destruct o1; try discriminate. apply vec_reserve_bound in E1. destruct E1 as [Hi Hc].
      intros E. destruct (IH _ _ _ _ _ _ Hr Hh E) as [Hl Hb]. cbn [v_items v_cap] in *.
      rewrite Hi, lenN_app, lenN_cons, lenN_nil in Hl. split; [lia|].
      assert (sat_add (fst (nd_hint n')) 1 <= lenN xs1 + 1)%N by (unfold sat_add; lia).
      unfold multiple in *. lia.
    + intros E. destruct (IH _ _ _ _ _ _ Hr Hh E) as [Hl Hb]. cbn [v_items v_cap] in *.
      rewrite lenN_app, lenN_cons, lenN_nil in Hl. split; [lia|exact Hb].
  - intros E1 _ E. injection E1 as <- _. injection E as <- _. rewrite lenN_nil. split; lia.
  - discriminate.
Qed.
Lemma vec_extend_bound A R esz (v : vec A) (it : iter A R) xs r v' r' :
  run it = (xs, FStop, r) -> honest it -> vec_extend esz v it = (v', r', ODone) ->
  lenN (v_items v') = (lenN (v_items v) + lenN xs)%N /\
  (v_cap v' <= N.max (v_cap v) (multiple 2 esz (lenN (v_items v'))))%N.
Proof. apply vec_push_bound. Qed.
Lemma vec_try_push_bound A R esz len0 e : forall (t : trace A R) n v w v' r' w' xs r,
  modest e w -> run_t t n = (xs, FStop, r) ->
  vec_try_push_t esz len0 t n v w = (v', r', ODone, w') ->
  modest e w' /\ lenN (v_items v') = (lenN (v_items v) + lenN xs)%N /\
  (v_cap v' <= N.max (v_cap v) (lenN (v_items v') + e))%N.
Proof.
  induction t as [|[[a| |] n'] t IH]; intros n v w v' r' w' xs r Hw; cbn [vec_try_push_t run_t].
  - intros E1 E. injection E1 as <- _. injection E as <- _ <-. rewrite lenN_nil. split; [auto|]. lia.
  - destruct (run_t t n') as [[xs1 e1] r1] eqn:Hr. intros E1. injection E1 as <- -> <-.
    rewrite lenN_cons. destruct (N.eqb_spec (lenN (v_items v)) (v_cap v)) as [He|He].
    + destruct (vec_try_reserve esz v 1 w) as [[v1 o1] w1] eqn:E1.
      destruct o1; try discriminate.
      apply (vec_try_reserve_bound _ _ _ _ _ _ _ _ Hw) in E1. destruct E1 as (Hi & Hw1 & Hc).
      intros E. destruct (IH _ _ _ _ _ _ _ _ Hw1 Hr E) as (Hw2 & Hl & Hb). cbn [v_items v_cap] in *.
      rewrite Hi, lenN_app, lenN_cons, lenN_nil in Hl. split; [auto|]. split; lia.
    + intros E. destruct (IH _ _ _ _ _ _ _ _ Hw Hr E) as (Hw2 & Hl & Hb). cbn [v_items v_cap] in *.
      rewrite lenN_app, lenN_cons, lenN_nil in Hl. split; [auto|]. split; lia.
  - intros E1 E. injection E1 as <- _. injection E as <- _ <-. rewrite lenN_nil. split; [auto|]. lia.
  - discriminate.
Qed.
Lemma vec_try_extend_bound A R esz (v : vec A) (it : iter A R) w e xs r v' r' w' :
  modest e w -> run it = (xs, FStop, r) -> honest it ->
  vec_try_extend esz v it w = (v', r', ODone, w') ->
  modest e w' /\ lenN (v_items v') = (lenN (v_items v) + lenN xs)%N /\
  (v_cap v' <= N.max (v_cap v) (lenN (v_items v') + e))%N.
Proof.
  intros Hw Hr Hh. pose proof (honest_hint _ _ _ _ Hh Hr) as Hn. unfold vec_try_extend.
  destruct (vec_try_reserve esz v (fst (it_hint it)) w) as [[v1 o1] w1] eqn:E1.
  destruct o1; try discriminate.
  apply (vec_try_reserve_bound _ _ _ _ _ _ _ _ Hw) in E1. destruct E1 as (Hi & Hw1 & Hc).
  intros E. destruct (vec_try_push_bound _ _ _ _ _ _ _ _ _ _ _ _ _ _ Hw1 Hr E) as (Hw2 & Hl & Hb).
  rewrite Hi in Hl. split; [auto|]. split; [auto|]. lia.
Qed.
Lemma vec_try_collect_bound A R esz e : forall (t : trace A R) n v w v' r' w' xs r,
  modest e w -> run_t t n = (xs, FStop, r) ->
  vec_try_collect_t esz t n v w = (BOk v', r', w') ->
  modest e w' /\ lenN (v_items v') = (lenN (v_items v) + lenN xs)%N /\
  (v_cap v' <= N.max (v_cap v) (lenN (v_items v') + e))%N.
Proof.
  induction t as [|[[a| |] n'] t IH]; intros n v w v' r' w' xs r Hw; cbn [vec_try_collect_t run_t].
  - intros E1 E. injection E1 as <- _. injection E as <- _ <-. rewrite lenN_nil. split; [auto|]. lia.
  - destruct (run_t t n') as [[xs1 e1] r1] eqn:Hr. intros E1. injection E1 as <- -> <-.
    rewrite lenN_cons.
    destruct (vec_try_reserve esz v 1 w) as [[v1 o1] w1] eqn:E1.
    destruct o1; try discriminate.
    apply (vec_try_reserve_bound _ _ _ _ _ _ _ _ Hw) in E1. destruct E1 as (Hi & Hw1 & Hc).
    intros E. destruct (IH _ _ _ _ _ _ _ _ Hw1 Hr E) as (Hw2 & Hl & Hb). cbn [v_items v_cap] in *.
    rewrite Hi, lenN_app, lenN_cons, lenN_nil in Hl. split; [auto|]. split; lia.
  - intros E1 E. injection E1 as <- _. injection E as <- _ <-. rewrite lenN_nil. split; [auto|]. lia.
  - discriminate.
Qed.
Lemma vec_try_from_iter_bound A R esz (it : iter A R) w e xs r v' r' w' :
  modest e w -> run it = (xs, FStop, r) -> honest it ->
  vec_try_from_iter esz it w = (BOk v', r', w') ->
  modest e w' /\ lenN (v_items v') = lenN xs /\ (v_cap v' <= lenN (v_items v') + e)%N.
Proof.
  intros Hw Hr Hh. pose proof (honest_hint _ _ _ _ Hh Hr) as Hn.
  unfold vec_try_from_iter, vec_try_with_capacity.
  destruct (vec_try_reserve esz vec_new (fst (it_hint it)) w) as [[v1 o1] w1] eqn:E1.
  destruct o1; try discriminate.
  apply (vec_try_reserve_bound _ _ _ _ _ _ _ _ Hw) in E1. destruct E1 as (Hi & Hw1 & Hc).
  intros E. destruct (vec_try_collect_bound _ _ _ _ _ _ _ _ _ _ _ _ _ Hw1 Hr E) as (Hw2 & Hl & Hb).
  rewrite Hi in Hl. unfold vec_new in *. cbn [v_items v_cap] in *. rewrite lenN_nil in *.
  split; [auto|]. split; lia.
Qed.

(** ** Bitmaps *)
Definition bytes (b : bitmap) : N := lenN (v_items (bm_buf b)).
(** The iterator of the last phase, from an honest iterator. *)
Lemma bm_tail {R} b (it : iter bool R) xs r b1 it1 first it2 over packed' p2 :
  bm_ok b -> run it = (xs, FStop, r) -> honest it ->
  bm_phase1 b (it_fuse it) = (b1, it1, false) -> it_next it1 = (Yield first, it2) ->
  bm_overwrite (skipn ((bm_off b1 + bm_bits b1) / 8) (v_items (bm_buf b1)))
    (it_packed (it_inspect count_item 0 (it_chain_once first it2))) = (over, packed', p2) ->
  length (firstn ((bm_off b1 + bm_bits b1) / 8) (v_items (bm_buf b1)) ++ over)
    = length (v_items (bm_buf b)) /\
  (p2 = false -> honest packed' /\ exists zs q, run packed' = (zs, FStop, q)).
Proof.
  intros Hok Hr0 Hh0 Hp1 En Ho.
  assert (Hc : cut (it_fuse it)) by apply fuse_cut.
  assert (Hr : run (it_fuse it) = (xs, FStop, r)) by (rewrite run_fuse; auto).
  pose proof (honest_fuse it Hh0) as Hh.
  destruct (phase1_spec _ _ _ _ _ _ _ _ Hok Hc Hr Hp1)
    as (k & tail & Hmin & Hcap & Hlen & Hoff & Hbits & Hfin & HB & Hp).
  pose proof (honest_phase1 _ _ _ _ Hh Hp1) as Hh1.
  destruct Hp as (Hc1 & Hr1 & Hal).
  pose proof (run_next_yield _ _ _ En) as Hr2. rewrite Hr1 in Hr2.
  destruct (run it2) as [[xs2 e2] r2] eqn:Hrun2. cbn [fst snd] in Hr2.
  assert (Hsk : skipn k xs = first :: xs2) by congruence.
  assert (e2 = FStop) by congruence. assert (r2 = r) by congruence. subst e2 r2. clear Hr2.
  pose proof (cut_next_yield _ _ _ Hc1 En) as Hc2.
  pose proof (honest_next_yield _ _ _ Hh1 En) as Hh2.
  destruct (skipn_cons_nth _ _ _ _ Hsk) as [Hml Hxs].
  specialize (Hal Hml).
  destruct (tail_run first it2 xs2 FStop r Hc2 Hrun2) as (Hcp & ys & Hrp & Hys & Hyl).
  assert (Hci : cut (it_inspect count_item 0 (it_chain_once first it2)))
    by (apply cut_inspect, cut_chain_once; auto).
  assert (Hri : run (it_inspect count_item 0 (it_chain_once first it2))
                = (first :: xs2, FStop, (r, S (length xs2)))).
  { apply run_inspect; [apply run_chain_once; auto|]. rewrite insp_count; reflexivity. }
  assert (Hhp : honest (it_packed (it_inspect count_item 0 (it_chain_once first it2)))).
  { eapply honest_packed; [exact Hri|exact Hci|].
    apply honest_inspect; [exact count_item_total|]. apply honest_chain_once; auto. }
  destruct Hok as [Hv Hb].
  assert (Hv1 : vec_ok u8sz (bm_buf b1)).
  { destruct Hv as [V1 V2]. split; rewrite ?Hcap; auto. unfold lenN in *; rewrite Hlen; auto. }
  destruct (phase2_spec b1 _ ys FStop _ over packed' p2 Hv1 Hfin Hal Hcp Hrp Ho)
    as (L2 & F2 & Hp2).
  split; [rewrite L2; exact Hlen|]. intros ->.
  destruct Hp2 as (zs & Hrz & Hlz & _).
  split; [exact (honest_overwrite _ _ _ _ Hhp Ho)|]. eauto.
Qed.
Lemma phase1_bytes {R} b (it : iter bool R) b1 it1 : bm_phase1 b it = (b1, it1, false) ->
  bytes b1 = bytes b.
Proof.
  unfold bm_phase1, bytes. destruct (Nat.eqb _ 0); [intros E; injection E as <- _; reflexivity|].
  destruct (nth_error _ _) eqn:En; [|intros E; injection E as <- _; reflexivity].
  destruct (bm_fill _ _ _ _) as [[[by1 bi1] i1] p1]. intros E. injection E as <- _ _.
  cbn [bm_buf v_items]. unfold set_nth, lenN. f_equal. rewrite app_length, firstn_length.
  assert (Hi : (bm_off b + bm_bits b) / 8 < length (v_items (bm_buf b))) by (apply nth_error_Some; congruence).
  pose proof (skipn_length ((bm_off b + bm_bits b) / 8) (v_items (bm_buf b))) as Hs.
  destruct (skipn _ _) as [|x l]; cbn [length] in *; lia.
Qed.
Lemma bm_extend_bound {R} b (it : iter bool R) xs r b' r' : bm_ok b ->
  run it = (xs, FStop, r) -> honest it -> bm_extend b it = (b', r', ODone) ->
  (bytes b <= bytes b')%N /\
  (v_cap (bm_buf b') <= N.max (v_cap (bm_buf b)) (multiple 2 1 (bytes b')))%N.
Proof.
  intros Hok Hr Hh. unfold bm_extend.
  destruct (bm_phase1 b (it_fuse it)) as [[b1 it1] p1] eqn:E1.
  pose proof (phase1_cap _ _ _ _ _ _ E1) as Hc.
  destruct p1; [discriminate|]. pose proof (phase1_bytes _ _ _ _ E1) as Hb.
  destruct (it_next it1) as [[x| |] it2] eqn:En; try discriminate.
  2:{ intros E. injection E as <- _. lia. }
  destruct (bm_overwrite _ _) as [[ov pk] p2] eqn:Eo.
  destruct (bm_tail _ _ _ _ _ _ _ _ _ _ _ Hok Hr Hh E1 En Eo) as [Hl Hp].
  destruct p2; [discriminate|]. destruct (Hp eq_refl) as (Hhp & zs & q & Hz).
  match goal with |- context [vec_extend u8sz ?v ?p] =>
    destruct (vec_extend u8sz v p) as [[v3 [r3 n3]] o3] eqn:E3 end.
  destruct o3; try discriminate. intros E. injection E as <- _.
  destruct (vec_extend_bound _ _ _ _ _ _ _ _ _ Hz Hhp E3) as [G1 G2]. cbn [v_items v_cap] in *.
  unfold bytes in *. cbn [bm_buf]. unfold lenN in *. rewrite Hl in G1. rewrite Hc in G2.
  split; [lia|exact G2].
Qed.
Lemma bm_try_extend_bound {R} b (it : iter bool R) w e xs r b' r' w' : bm_ok b -> modest e w ->
  run it = (xs, FStop, r) -> honest it -> bm_try_extend b it w = (b', r', ODone, w') ->
  modest e w' /\ (bytes b <= bytes b')%N /\
  (v_cap (bm_buf b') <= N.max (v_cap (bm_buf b)) (bytes b' + e))%N.
Proof.
  intros Hok Hw Hr Hh. unfold bm_try_extend.
  destruct (bm_phase1 b (it_fuse it)) as [[b1 it1] p1] eqn:E1.
  pose proof (phase1_cap _ _ _ _ _ _ E1) as Hc.
  destruct p1; [discriminate|]. pose proof (phase1_bytes _ _ _ _ E1) as Hb.
  destruct (it_next it1) as [[x| |] it2] eqn:En; try discriminate.
  2:{ intros E. injection E as <- _ <-. split; [exact Hw|]. lia. }
  destruct (bm_overwrite _ _) as [[ov pk] p2] eqn:Eo.
  destruct (bm_tail _ _ _ _ _ _ _ _ _ _ _ Hok Hr Hh E1 En Eo) as [Hl Hp].
  destruct p2; [discriminate|]. destruct (Hp eq_refl) as (Hhp & zs & q & Hz).
  match goal with |- context [vec_try_extend u8sz ?v ?p w] =>
    destruct (vec_try_extend u8sz v p w) as [[[v3 [r3 n3]] o3] w3] eqn:E3 end.
  destruct o3; try discriminate. intros E. injection E as <- _ <-.
  destruct (vec_try_extend_bound _ _ _ _ _ _ _ _ _ _ _ _ Hw Hz Hhp E3) as (G0 & G1 & G2).
  cbn [v_items v_cap] in *.
  unfold bytes in *. cbn [bm_buf]. unfold lenN in *. rewrite Hl in G1. rewrite Hc in G2.
  split; [exact G0|]. split; [lia|exact G2].
Qed.
Lemma bytes_for_le m n : (m <= n)%N -> (bytes_for_bits m <= (n + 7) / 8)%N.
Proof. intros H. unfold bytes_for_bits. apply N.div_le_mono; lia. Qed.
Lemma bm_reserve_bound b n b' : bm_reserve b n = (b', ODone) ->
  bm_bits b' = bm_bits b /\ bytes b' = bytes b /\
  (v_cap (bm_buf b') <= N.max (v_cap (bm_buf b)) (multiple 2 1 (bytes b + (n + 7) / 8)))%N.
Proof.
  unfold bm_reserve. destruct (_ <=? _)%N; [|intros E; injection E as <-; lia].
  destruct (vec_reserve _ _ _) as [v1 o1] eqn:E1. intros E. injection E as <- ->.
  apply vec_reserve_bound in E1. destruct E1 as [Hi Hc]. unfold bytes. cbn [bm_buf bm_bits].
  rewrite Hi. split; [auto|]. split; [auto|].
  pose proof (bytes_for_le (n - N.of_nat (bm_trailing_bits b)) n (N.le_sub_l _ _)).
  change u8sz with 1%N in Hc. unfold multiple in *. lia.
Qed.
Lemma bm_try_reserve_bound b n w e b' w' : modest e w -> bm_try_reserve b n w = (b', ODone, w') ->
  modest e w' /\ bm_bits b' = bm_bits b /\ bytes b' = bytes b /\
  (v_cap (bm_buf b') <= N.max (v_cap (bm_buf b)) (bytes b + (n + 7) / 8 + e))%N.
Proof.
  intros Hw. unfold bm_try_reserve. destruct (_ <=? _)%N; [|intros E; injection E as <- <-; split; [auto|lia]].
  destruct (vec_try_reserve _ _ _ _) as [[v1 o1] w1] eqn:E1. intros E. injection E as <- -> <-.
  apply (vec_try_reserve_bound _ _ _ _ _ _ _ _ Hw) in E1. destruct E1 as (Hi & Hw1 & Hc).
  unfold bytes. cbn [bm_buf bm_bits].
  rewrite Hi. split; [auto|]. split; [auto|]. split; [auto|].
  pose proof (bytes_for_le (n - N.of_nat (bm_trailing_bits b)) n (N.le_sub_l _ _)). lia.
Qed.
Lemma bm_all_set_bound n b : bm_all_set n = BOk b -> (v_cap (bm_buf b) <= multiple 2 1 (bytes b))%N.
Proof.
  unfold bm_all_set, vec_from_iter. destruct (vec_extend _ _ _) as [[v1 r1] o1] eqn:E1.
  destruct o1; try discriminate. cbn [fst bmap]. intros E. injection E as <-.
  destruct (vec_extend_bound _ _ _ _ _ _ _ _ _ (run_list _) (honest_list _) E1) as [_ H].
  unfold bytes. cbn [bm_buf]. unfold vec_new in H. cbn [v_cap] in H. change u8sz with 1%N in H. lia.
Qed.
Lemma bm_try_all_set_bound n w e b w' : modest e w -> bm_try_all_set n w = (BOk b, w') ->
  modest e w' /\ (v_cap (bm_buf b) <= bytes b + e)%N.
Proof.
  intros Hw. unfold bm_try_all_set. destruct (vec_try_from_iter _ _ _) as [[r1 u] w1] eqn:E1.
  destruct r1 as [v1| | |]; try discriminate. cbn [bmap]. intros E. injection E as <- <-.
  destruct (vec_try_from_iter_bound _ _ _ _ _ _ _ _ _ _ _ Hw (run_list _) (honest_list _) E1) as (H & _ & G).
  split; [exact H|exact G].
Qed.
Lemma bm_bytes_fit b : bm_ok b -> ((N.of_nat (bm_bits b) + 7) / 8 <= bytes b)%N.
Proof.
  intros [_ H]. unfold bytes, lenN. apply N.lt_succ_r, N.div_lt_upper_bound; lia.
Qed.
