(** * Owned iterators over shared storage return what those over vectors return. *)
From Coq Require Import List NArith ZArith Bool Arith Lia ZifyBool ZifyNat ZifyN.
From Verif Require Import Base Iter Spec VecModel BitmapModel CollModel ValidityModel
  FlattenModel OffsetsModel LayoutModel Reach StorageModel SpecStorage.
Import ListNotations.

(** ** A simulation *)

Definition nexts {S T X} (rel : S -> T -> Prop) (r : out (option X * S)) (r' : out (option X * T))
  : Prop :=
  match r' with
  | Ret (x, t) => exists s, r = Ret (x, s) /\ rel s t
  | Pnc => r = Pnc
  end.
Record Sim (K : Coll) (O : OwnIter K) (rel : oT O -> cOI K -> Prop) : Prop := {
  sim_into : forall c,
    match k_into K c with
    | Ret t => exists s, o_into O c = Ret s /\ rel s t
    | Pnc => o_into O c = Pnc
    end;
  sim_next : forall s t, rel s t -> nexts rel (o_next O s) (k_onext K t);
  sim_hint : forall s t, rel s t -> o_hint O s = k_ohint K t;
}.

(** ** Leaves *)

Definition si_rel {A} (s : sliceinto A) (l : list A) : Prop :=
  si_index s <= length (si_slice s) /\ l = skipn (si_index s) (si_slice s).
Lemma si_rel_new : forall A (l : list A), si_rel (si_new l) l.
Proof. intros A l. split; cbn; [lia|reflexivity]. Qed.
Lemma si_rel_next : forall A (s : sliceinto A) l, si_rel s l ->
  nexts si_rel (si_next s) (list_next l).
Proof.
  intros A [l0 i] l [Hi ->]. cbn [si_slice si_index] in *. unfold si_next, nexts. cbn [si_slice si_index].
  destruct (nth_error l0 i) as [a|] eqn:E.
  - assert (Hs : skipn i l0 = a :: skipn (S i) l0).
    { clear Hi. revert l0 E. induction i as [|i IH]; intros [|b l0] E; cbn in *; try discriminate.
      - injection E as ->. reflexivity.
      - exact (IH _ E). }
    rewrite Hs. cbn [list_next]. eexists. split; [reflexivity|].
    split; cbn [si_slice si_index]; [|reflexivity].
    assert (i < length l0) by (apply nth_error_Some; congruence). lia.
  - apply nth_error_None in E. rewrite (skipn_all2 l0) by exact E. cbn [list_next].
    eexists. split; [reflexivity|]. split; cbn [si_slice si_index]; [exact Hi|].
    symmetry. apply skipn_all2. exact E.
Qed.
Lemma si_rel_hint : forall A (s : sliceinto A) l, si_rel s l ->
  si_hint s = Ret (exact_hint (length l)).
Proof.
  intros A [l0 i] l [Hi ->]. cbn [si_slice si_index] in *. unfold si_hint, strict_sub, lenN.
  cbn [si_slice si_index]. rewrite skipn_length.
  destruct (N.leb_spec (N.of_nat i) (N.of_nat (length l0))) as [_|]; [|lia].
  cbn [obind]. unfold exact_hint.
  replace (N.of_nat (length l0) - N.of_nat i)%N with (N.of_nat (length l0 - i)) by lia.
  reflexivity.
Qed.

Lemma vec_sim : forall A (a0 : A) esz, Sim (vec_coll A a0 esz) (vec_own A a0 esz) si_rel.
Proof.
  intros A a0 esz. constructor.
  - intros c. cbn. eexists. split; [reflexivity|]. exact (si_rel_new _ _).
  - exact (si_rel_next A).
  - exact (si_rel_hint A).
Qed.

Definition su_rel (u : sunpacked) (v : unpacked) : Prop :=
  si_rel (su_iter u) (up_rest v) /\ su_byte u = up_byte v /\ su_mask u = up_mask v.
Lemma su_rel_next : forall u v, su_rel u v ->
  nexts su_rel (sunpacked_next u) (Ret (unpacked_next v)).
Proof.
  intros [i b m] [l b' m'] (Hi & Hb & Hm). cbn in Hi, Hb, Hm. subst b' m'.
  unfold nexts, sunpacked_next, unpacked_next. cbn [su_iter su_byte su_mask up_rest up_byte up_mask].
  destruct (m =? 1)%N eqn:Em.
  - pose proof (si_rel_next _ _ _ Hi) as Hn. unfold nexts in Hn.
    destruct l as [|x l]; cbn [list_next] in Hn; destruct Hn as (i' & -> & Hi'); cbn;
      (eexists; split; [reflexivity|]); (split; [exact Hi'|split; reflexivity]).
  - destruct b as [x|]; cbn; (eexists; split; [reflexivity|]);
      (split; [exact Hi|split; reflexivity]).
Qed.
Lemma su_rel_nth : forall n u v, su_rel u v ->
  nexts su_rel (sunpacked_nth n u) (Ret (unpacked_nth n v)).
Proof.
  intros n. induction n as [|n IH]; intros u v Hr; cbn [sunpacked_nth unpacked_nth].
  - exact (su_rel_next _ _ Hr).
  - pose proof (su_rel_next _ _ Hr) as Hn. unfold nexts in Hn.
    destruct (unpacked_next v) as [[b|] v']; destruct Hn as (u' & -> & Hu').
    + exact (IH _ _ Hu').
    + cbn. exists u'. split; [reflexivity|exact Hu'].
Qed.
Lemma su_rel_hint : forall u v, su_rel u v -> sunpacked_hint u = unpacked_hint v.
Proof.
  intros [i b m] [l b' m'] (Hi & Hb & Hm). cbn in Hi, Hb, Hm. subst b' m'.
  unfold sunpacked_hint, unpacked_hint. cbn [su_iter su_byte su_mask up_rest up_byte up_mask].
  rewrite (si_rel_hint _ _ _ Hi). cbn [fst snd exact_hint]. reflexivity.
Qed.
Definition sb_rel (s : sbititer) (t : bititer) : Prop :=
  sb_skip s = bi_skip t /\ sb_take s = bi_take t /\ su_rel (sb_un s) (bi_un t).
Lemma sb_rel_new : forall b, sb_rel (sbm_into b) (bm_iter b).
Proof.
  intros b. split; [reflexivity|]. split; [reflexivity|].
  split; [exact (si_rel_new _ _)|split; reflexivity].
Qed.
Lemma sb_rel_next : forall s t, sb_rel s t -> nexts sb_rel (sbititer_next s) (bititer_next t).
Proof.
  intros [k n u] [k' n' v] (Hk & Hn & Hu). cbn in Hk, Hn, Hu. subst k' n'.
  unfold nexts, sbititer_next, bititer_next. cbn [sb_skip sb_take sb_un bi_skip bi_take bi_un].
  destruct n as [|n].
  - eexists. split; [reflexivity|]. split; [reflexivity|]. split; [reflexivity|exact Hu].
  - destruct k as [|k].
    + pose proof (su_rel_next _ _ Hu) as Hx. unfold nexts in Hx.
      destruct (unpacked_next v) as [x v']. destruct Hx as (u' & -> & Hu'). cbn.
      eexists. split; [reflexivity|]. split; [reflexivity|]. split; [reflexivity|exact Hu'].
    + pose proof (su_rel_nth (S k) _ _ Hu) as Hx. unfold nexts in Hx.
      destruct (unpacked_nth (S k) v) as [x v']. destruct Hx as (u' & -> & Hu'). cbn [obind fst snd].
      eexists. split; [reflexivity|]. split; [reflexivity|]. split; [reflexivity|exact Hu'].
Qed.
Lemma sb_rel_hint : forall s t, sb_rel s t -> sbititer_hint s = bititer_hint t.
Proof.
  intros [k n u] [k' n' v] (Hk & Hn & Hu). cbn in Hk, Hn, Hu. subst k' n'.
  unfold sbititer_hint, bititer_hint. cbn [sb_skip sb_take sb_un bi_skip bi_take bi_un].
  rewrite (su_rel_hint _ _ Hu). destruct n; reflexivity.
Qed.
Lemma bitmap_sim : Sim bitmap_coll bitmap_own sb_rel.
Proof.
  constructor.
  - intros c. cbn. eexists. split; [reflexivity|]. exact (sb_rel_new _).
  - exact sb_rel_next.
  - exact sb_rel_hint.
Qed.

Lemma native_sim : forall K, Sim K (native_own K) eq.
Proof.
  intros K. constructor.
  - intros c. cbn. destruct (k_into K c) as [t|]; [|reflexivity]. exists t. split; reflexivity.
  - intros s t ->. unfold nexts. cbn. destruct (k_onext K t) as [[x t']|]; [|reflexivity].
    exists t'. split; reflexivity.
  - intros s t ->. reflexivity.
Qed.
Lemma vec_in_sim : forall f A (a0 : A) esz, exists rel,
  Sim (vec_coll A a0 esz) (vec_own_in f A a0 esz) rel.
Proof.
  intros [|] A a0 esz; eexists; [exact (vec_sim A a0 esz)|exact (native_sim _)].
Qed.
Lemma bitmap_in_sim : forall f, exists rel, Sim bitmap_coll (bitmap_own_in f) rel.
Proof. intros [|]; eexists; [exact bitmap_sim|exact (native_sim _)]. Qed.

(** ** Wrappers *)

Section Wrap.
  Variable K : Coll.
  Variable O : OwnIter K.
  Variable rel : oT O -> cOI K -> Prop.
  Hypothesis HS : Sim K O rel.
  Variable B : OwnIter bitmap_coll.
  Variable relb : oT B -> bititer -> Prop.
  Hypothesis HB : Sim bitmap_coll B relb.

  Definition va_rel (s : oT O * option (oT B)) (t : cOI K * option bititer) : Prop :=
    rel (fst s) (fst t) /\
    match snd s, snd t with
    | Some b, Some b' => relb b b'
    | None, None => True
    | _, _ => False
    end.
  Lemma validity_sim : Sim (validity_coll K) (validity_own K O B) va_rel.
  Proof.
    constructor.
    - intros [c b]. cbn. unfold va_into. cbn [va_coll va_bm].
      pose proof (sim_into _ _ _ HS c) as Hi.
      destruct (k_into K c) as [t|].
      + destruct Hi as (s & -> & Hr). cbn. destruct b as [b|].
        * pose proof (sim_into _ _ _ HB b) as Hj. cbn in Hj. destruct Hj as (j & -> & Hj).
          cbn. eexists. split; [reflexivity|]. split; [exact Hr|exact Hj].
        * eexists. split; [reflexivity|]. split; [exact Hr|exact I].
      + rewrite Hi. reflexivity.
    - intros [s bs] [t bt] [Hr Hb]. cbn [fst snd] in Hr, Hb.
      pose proof (sim_next _ _ _ HS s t Hr) as Hn. unfold nexts in Hn |- *.
      cbn [validity_own o_next validity_coll k_onext]. unfold svait_next, vait_next.
      destruct bs as [bs|], bt as [bt|]; try contradiction.
      + pose proof (sim_next _ _ _ HB _ _ Hb) as Hx. unfold nexts in Hx.
        cbn [bitmap_coll k_onext] in Hx. destruct (bititer_next bt) as [[[x|] bt']|].
        * destruct Hx as (bs' & -> & Hb').
          destruct (k_onext K t) as [[y t']|].
          -- destruct Hn as (s' & -> & Hr'). cbn. eexists. split; [reflexivity|].
             split; [exact Hr'|exact Hb'].
          -- rewrite Hn. reflexivity.
        * destruct Hx as (bs' & -> & Hb'). cbn. eexists. split; [reflexivity|].
          split; [exact Hr|exact Hb'].
        * rewrite Hx. reflexivity.
      + destruct (k_onext K t) as [[y t']|].
        * destruct Hn as (s' & -> & Hr'). cbn. eexists. split; [reflexivity|].
          split; [exact Hr'|exact I].
        * rewrite Hn. reflexivity.
    - intros [s bs] [t bt] [Hr Hb]. cbn [fst snd] in Hr, Hb.
      cbn [validity_own o_hint validity_coll k_ohint]. unfold svait_hint, vait_hint.
      cbn [fst snd]. rewrite (sim_hint _ _ _ HS s t Hr).
      destruct bs as [bs|], bt as [bt|]; try contradiction.
      + rewrite (sim_hint _ _ _ HB _ _ Hb). reflexivity.
      + reflexivity.
  Qed.

  Variable n : nat.
  Lemma chunk_rest_sim : forall k s t, rel s t ->
    match chunk_rest K k t with
    | Ret (l, t') => exists s', schunk_rest K O k s = Ret (l, s') /\ rel s' t'
    | Pnc => schunk_rest K O k s = Pnc
    end.
  Proof.
    intros k. induction k as [|k IH]; intros s t Hr; cbn [chunk_rest schunk_rest].
    - eexists. split; [reflexivity|exact Hr].
    - pose proof (sim_next _ _ _ HS s t Hr) as Hn. unfold nexts in Hn.
      destruct (k_onext K t) as [[[a|] t']|].
      + destruct Hn as (s' & -> & Hr'). cbn [expect obind].
        specialize (IH s' t' Hr').
        destruct (chunk_rest K k t') as [[l t'']|].
        * destruct IH as (s'' & E & Hr''). cbn. rewrite E. cbn.
          eexists. split; [reflexivity|exact Hr''].
        * cbn. rewrite IH. reflexivity.
      + destruct Hn as (s' & -> & Hr'). reflexivity.
      + rewrite Hn. reflexivity.
  Qed.
  Lemma flatten_sim : Sim (flatten_coll K n) (flatten_own K O n) rel.
  Proof.
    constructor.
    - exact (sim_into _ _ _ HS).
    - intros s t Hr. pose proof (sim_next _ _ _ HS s t Hr) as Hn.
      unfold nexts in Hn |- *. cbn [flatten_own o_next flatten_coll k_onext].
      unfold schunks_next, chunks_next.
      destruct (k_onext K t) as [[[a|] t']|].
      + destruct Hn as (s' & -> & Hr'). cbn. destruct n as [|m]; [reflexivity|].
        pose proof (chunk_rest_sim m s' t' Hr') as Hc.
        destruct (chunk_rest K m t') as [[l t'']|].
        * destruct Hc as (s'' & -> & Hr''). cbn. eexists. split; [reflexivity|exact Hr''].
        * rewrite Hc. reflexivity.
      + destruct Hn as (s' & -> & Hr'). cbn. eexists. split; [reflexivity|exact Hr'].
      + rewrite Hn. reflexivity.
    - intros s t Hr. cbn [flatten_own o_hint flatten_coll k_ohint].
      unfold schunks_hint, chunks_hint. rewrite (sim_hint _ _ _ HS s t Hr). reflexivity.
  Qed.
End Wrap.

Section Offsets.
  Variable K : Coll.
  Variable kd : okind.
  Variable V : OwnIter (vec_coll Z 0%Z (osz kd)).
  Variable relv : oT V -> list Z -> Prop.
  Hypothesis HV : Sim (vec_coll Z 0%Z (osz kd)) V relv.

  Definition so_rel (s : soffinto K kd V) (t : offinto (cC K)) : Prop :=
    so_data K kd V s = oi_data t /\ relv (so_offs K kd V s) (oi_offs t) /\
    so_pos K kd V s = oi_pos t.
  Lemma offsets_sim : Sim (offsets_coll K kd) (offsets_own K kd V) so_rel.
  Proof.
    constructor.
    - intros [d v]. cbn [offsets_coll k_into offsets_own o_into].
      unfold of_into, sof_into. cbn [of_offs of_data].
      pose proof (sim_into _ _ _ HV v) as Hi. cbn [vec_coll k_into] in Hi.
      destruct Hi as (i & -> & Hi). cbn [obind].
      pose proof (sim_next _ _ _ HV _ _ Hi) as Hn. unfold nexts in Hn.
      cbn [vec_coll k_onext] in Hn. destruct v as [offs cap]. cbn [v_items] in *.
      destruct offs as [|p rest]; cbn [list_next] in Hn; destruct Hn as (s' & -> & Hs').
      + reflexivity.
      + cbn. eexists. split; [reflexivity|]. split; [reflexivity|]. split; [exact Hs'|reflexivity].
    - intros [d i p] [d' l p'] (Hd & Hi & Hp). cbn in Hd, Hi, Hp. subst d' p'.
      unfold nexts. cbn [offsets_coll k_onext offsets_own o_next]. unfold of_onext, sof_next.
      cbn [so_data so_offs so_pos oi_data oi_offs oi_pos].
      pose proof (sim_next _ _ _ HV _ _ Hi) as Hn. unfold nexts in Hn.
      cbn [vec_coll k_onext] in Hn.
      destruct l as [|e rest]; cbn [list_next] in Hn; destruct Hn as (i' & -> & Hi');
        cbn [obind fst snd].
      + eexists. split; [reflexivity|]. split; [reflexivity|]. split; [exact Hi'|reflexivity].
      + destruct (as_usize p) as [su|]; cbn [obind]; [|reflexivity].
        destruct (as_usize e) as [eu|]; cbn [obind]; [|reflexivity].
        match goal with |- context [range_out ?f ?a ?b] => destruct (range_out f a b) as [r|] end;
          cbn [obind]; [|reflexivity].
        eexists. split; [reflexivity|]. split; [reflexivity|]. split; [exact Hi'|reflexivity].
    - intros [d i p] [d' l p'] (Hd & Hi & Hp). cbn in Hd, Hi, Hp. subst d' p'.
      cbn [offsets_coll k_ohint offsets_own o_hint]. unfold of_ohint, sof_hint.
      cbn [so_offs oi_offs]. rewrite (sim_hint _ _ _ HV _ _ Hi). cbn. unfold exact_len. cbn.
      rewrite N.eqb_refl. reflexivity.
  Qed.
End Offsets.

Lemma own_in_sim : forall s (f : storages s), exists rel, Sim (coll s) (own_in s f) rel.
Proof.
  intros s. induction s as [p| |s IH|n s IH|k s IH|A a0 z]; intro f; cbn [coll own_in].
  - exact (vec_in_sim f N 0%N (psz p)).
  - exact (bitmap_in_sim f).
  - destruct (IH (fst f)) as [rel H]. destruct (bitmap_in_sim (snd f)) as [relb HB].
    eexists. exact (validity_sim _ _ _ H _ _ HB).
  - destruct (IH f) as [rel H]. eexists. exact (flatten_sim _ _ _ H n).
  - destruct (vec_in_sim (snd f) Z 0%Z (osz k)) as [relv HV].
    eexists. exact (offsets_sim _ k _ _ HV).
  - exact (vec_in_sim f A a0 (N.pos z)).
Qed.

(** ** The facts *)

Lemma sim_calls : forall K O rel, Sim K O rel -> forall n s t, rel s t ->
  calls (o_next O) (o_hint O) n s = calls (k_onext K) (k_ohint K) n t.
Proof.
  intros K O rel HS n. induction n as [|n IH]; intros s t Hr; cbn [calls]; [reflexivity|].
  rewrite (sim_hint _ _ _ HS s t Hr). pose proof (sim_next _ _ _ HS s t Hr) as Hn.
  unfold nexts in Hn. destruct (k_onext K t) as [[x t']|].
  - destruct Hn as (s' & -> & Hr'). rewrite (IH _ _ Hr'). reflexivity.
  - rewrite Hn. reflexivity.
Qed.
Lemma own_in_calls : forall s f c,
  match k_into (coll s) c with
  | Ret t => exists st, o_into (own_in s f) c = Ret st /\
      forall n, calls (o_next (own_in s f)) (o_hint (own_in s f)) n st =
                calls (k_onext (coll s)) (k_ohint (coll s)) n t
  | Pnc => o_into (own_in s f) c = Pnc
  end.
Proof.
  intros s f c. destruct (own_in_sim s f) as [rel HS].
  pose proof (sim_into _ _ _ HS c) as Hi. destruct (k_into (coll s) c) as [t|]; [|exact Hi].
  destruct Hi as (st & E & Hr). exists st. split; [exact E|].
  intros n. exact (sim_calls _ _ _ HS n st t Hr).
Qed.

Lemma sim_nones : forall K O rel, Sim K O rel -> forall n s t, rel s t ->
  nones (k_onext K) (k_ohint K) n t -> nones (o_next O) (o_hint O) n s.
Proof.
  intros K O rel HS n. induction n as [|n IH]; intros s t Hr [Hh Hn]; cbn [nones];
    (split; [rewrite (sim_hint _ _ _ HS s t Hr); exact Hh|]); [exact I|].
  destruct Hn as (t' & E & Hn). pose proof (sim_next _ _ _ HS s t Hr) as Hx.
  unfold nexts in Hx. rewrite E in Hx. destruct Hx as (s' & -> & Hr').
  exists s'. split; [reflexivity|exact (IH _ _ Hr' Hn)].
Qed.
Lemma sim_yields : forall K O rel, Sim K O rel -> forall xs s t, rel s t ->
  yields (k_onext K) (k_ohint K) Ret t xs -> yields (o_next O) (o_hint O) Ret s xs.
Proof.
  intros K O rel HS xs. induction xs as [|x xs IH]; intros s t Hr Hy; cbn [yields] in *.
  - intros n. exact (sim_nones _ _ _ HS n s t Hr (Hy n)).
  - destruct Hy as (Hh & v & t' & E & Hv & Hy).
    split; [rewrite (sim_hint _ _ _ HS s t Hr); exact Hh|].
    pose proof (sim_next _ _ _ HS s t Hr) as Hx.
    unfold nexts in Hx. rewrite E in Hx. destruct Hx as (s' & -> & Hr').
    exists v, s'. split; [reflexivity|]. split; [exact Hv|exact (IH _ _ Hr' Hy)].
Qed.
Lemma own_in_yields : forall s f c xs, shows (coll s) c xs -> exists st,
  o_into (own_in s f) c = Ret st /\
  yields (o_next (own_in s f)) (o_hint (own_in s f)) Ret st xs.
Proof.
  intros s f c xs Hs. destruct (own_in_sim s f) as [rel HS].
  destruct (sh_into _ _ _ Hs) as (t & E & Hy).
  pose proof (sim_into _ _ _ HS c) as Hi. rewrite E in Hi. destruct Hi as (st & Ei & Hr).
  exists st. split; [exact Ei|exact (sim_yields _ _ _ HS xs st t Hr Hy)].
Qed.
