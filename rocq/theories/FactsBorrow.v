(** * Imported arrays are the memory of the structures *)
From Coq Require Import List NArith ZArith Bool Arith Lia ZifyBool ZifyNat ZifyN.
From Verif Require Import Base Iter VecModel BitmapModel CollModel ValidityModel FlattenModel
  OffsetsModel LayoutModel Spec SpecTables FfiModel SpecFfi BitmapLemmas ReachLemmas CoreLemmas FfiLemmas
  FfiHeapModel FfiExportModel SpecHeap FactsHeap FactsRun BorrowModel SpecBorrow.
Import ListNotations.

Definition imap {A B} (f : A -> B) (x : ires A) : ires B := ibind x (fun a => IOk (f a)).

Lemma ibind_assoc {A B C} (x : ires A) (f : A -> ires B) (g : B -> ires C) :
  ibind (ibind x f) g = ibind x (fun a => ibind (f a) g).
Proof. destruct x; reflexivity. Qed.
Lemma ibind_ext {A B} (x : ires A) (f g : A -> ires B) :
  (forall a, x = IOk a -> f a = g a) -> ibind x f = ibind x g.
Proof. destruct x; cbn; auto. Qed.

Lemma read_table_buffer a n i p : read_table (a_buffers a) n i = IOk p -> buffer a i = p.
Proof.
  unfold read_table, buffer. destruct (a_buffers a) as [l|]; [|discriminate].
  destruct (Nat.leb n (length l)); [|discriminate]. unfold iread.
  destruct (nth_error l i) as [x|] eqn:E; [|discriminate]. intros [= <-].
  apply nth_error_nth. exact E.
Qed.
Lemma import_pointers_child a s ca cs : import_pointers a s = IOk (ca, cs) -> child a = Some ca.
Proof.
  unfold import_pointers, read_table, child. destruct (a_children a) as [l|]; [|discriminate].
  destruct l as [|x l]; [discriminate|]. cbn [length Nat.leb iread nth_error ibind].
  destruct x as [x|]; [|discriminate]. destruct (s_children s) as [[|y r]|]; try discriminate.
  cbn [length Nat.leb iread nth_error ibind]. destruct y; [|discriminate]. intros [= <- _]. reflexivity.
Qed.

Lemma words_prefix w : forall n l, words w n (firstn (n * w) l) = words w n l.
Proof.
  induction n as [|n IH]; intros l; [reflexivity|]. cbn [words Nat.mul].
  rewrite firstn_firstn, (Nat.min_l w (w + n * w)) by lia. f_equal.
  rewrite skipn_firstn_comm. replace (w + n * w - w) with (n * w) by lia. apply IH.
Qed.
Lemma words_one : forall n l, n <= length l -> words 1 n l = firstn n l.
Proof.
  induction n as [|n IH]; intros [|x l] H; try reflexivity; cbn [length] in H; [lia|].
  cbn [words firstn skipn le_value]. rewrite IH by lia. f_equal. lia.
Qed.
Lemma bytes_at_prefix m addr l n :
  (forall j x, nth_error l j = Some x -> m (addr + N.of_nat j)%N = x) -> n <= length l ->
  bytes_at m addr n = firstn n l.
Proof.
  intros H Hn. unfold bytes_at. apply nth_error_same. intros j.
  destruct (Nat.lt_ge_cases j n) as [Hj|Hj].
  - assert (E : nth_error (seq 0 n) j = Some j).
    { rewrite (nth_error_nth' _ 0) by (rewrite seq_length; exact Hj). f_equal. rewrite seq_nth by exact Hj.
      reflexivity. }
    rewrite (map_nth_error _ _ _ E).
    destruct (nth_error l j) as [x|] eqn:Ex; [|apply nth_error_None in Ex; lia].
    rewrite (H _ _ Ex). symmetry. rewrite <- Ex. apply nth_error_firstn_lt; exact Hj.
  - transitivity (@None N); [|symmetry]; apply nth_error_None;
      rewrite ?map_length, ?seq_length, ?firstn_length; lia.
Qed.

(** What is read at a slice of a buffer *)
Definition stored_at (m : memory) (b : cbuffer) : Prop :=
  forall j x, nth_error (cb_data b) j = Some x -> m (cb_addr b + N.of_nat j)%N = x.
Lemma load_words m b n w sp : stored_at m b -> raw_parts b n w = IOk sp ->
  load m sp = words (N.to_nat w) (N.to_nat n) (cb_data b).
Proof.
  intros H. unfold raw_parts. destruct (N.leb_spec (n * w) (lenN (cb_data b))); [|discriminate].
  intros [= <-]. unfold load. cbn [sp_size sp_count sp_addr].
  rewrite (bytes_at_prefix m _ (cb_data b)); [|exact H|unfold lenN in *; lia].
  replace (N.to_nat (n * w)) with (N.to_nat n * N.to_nat w) by lia. apply words_prefix.
Qed.
Lemma load_bytes m b n sp : stored_at m b -> raw_parts b n 1 = IOk sp ->
  load m sp = firstn (N.to_nat n) (cb_data b).
Proof.
  intros H E. rewrite (load_words m b n 1 sp H E). apply words_one. unfold raw_parts in E.
  destruct (N.leb_spec (n * 1) (lenN (cb_data b))); [|discriminate]. unfold lenN in *. lia.
Qed.
Lemma raw_words m b n w : stored_at m b ->
  imap (load m) (raw_parts b n w) = iread (read_words w b n).
Proof.
  intros H. destruct (raw_parts b n w) as [sp| | |] eqn:E; cbn [imap ibind].
  - rewrite (load_words m b n w sp H E). unfold raw_parts in E. unfold read_words.
    destruct (n * w <=? lenN (cb_data b))%N; [reflexivity|discriminate].
  - unfold raw_parts in E. destruct (n * w <=? lenN (cb_data b))%N; discriminate.
  - unfold raw_parts in E. destruct (n * w <=? lenN (cb_data b))%N; discriminate.
  - unfold raw_parts in E. unfold read_words.
    destruct (n * w <=? lenN (cb_data b))%N; [discriminate|reflexivity].
Qed.
Lemma raw_bytes m b n : stored_at m b ->
  imap (load m) (raw_parts b n 1) = iread (read_bytes b n).
Proof.
  intros H. rewrite (raw_words m b n 1 H). unfold read_words, read_bytes. rewrite N.mul_1_r.
  destruct (N.leb_spec n (lenN (cb_data b))); [|reflexivity]. cbn [iread]. f_equal.
  apply words_one. unfold lenN in *. lia.
Qed.

Lemma borrow_bits_import m a n : (forall b, buffer a 1 = Some b -> stored_at m b) ->
  imap (fun values => deref_bits m (LBits values n)) (borrow_bits m a n) = import_bits a n.
Proof.
  intros H. unfold imap, borrow_bits, import_bits. rewrite ibind_assoc. apply ibind_ext. intros p Hp.
  apply read_table_buffer in Hp. cbn zeta. destruct (bytes_for_bits n =? 0)%N.
  - cbn [ibind load_opt]. unfold bm_try_from_parts at 1 2.
    destruct (checked_add 0 n); [|reflexivity]. destruct (_ <=? _)%N; reflexivity.
  - destruct p as [b|]; [|reflexivity]. rewrite <- (raw_bytes m b _ (H _ Hp)). unfold imap.
    rewrite !ibind_assoc. apply ibind_ext. intros sp _. cbn [ibind load_opt]. unfold bm_try_from_parts.
    destruct (checked_add 0 n); [|reflexivity]. destruct (_ <=? _)%N; reflexivity.
Qed.
Lemma borrow_values_import m p a n : (forall b, buffer a 1 = Some b -> stored_at m b) ->
  imap (fun values => slice (load_opt m values)) (borrow_values p a n) = import_values p a n.
Proof.
  intros H. unfold imap, borrow_values, import_values. rewrite ibind_assoc. apply ibind_ext. intros q Hq.
  apply read_table_buffer in Hq. destruct (n =? 0)%N; [reflexivity|].
  destruct q as [b|]; [|reflexivity]. destruct (_ =? 0)%N; [|reflexivity].
  rewrite <- (raw_words m b _ _ (H _ Hq)). unfold imap. rewrite !ibind_assoc. reflexivity.
Qed.
Lemma borrow_offsets_import m k a n : (forall b, buffer a 1 = Some b -> stored_at m b) ->
  imap (fun values => slice (map (of_word (osz k)) (load m values))) (borrow_offsets k a n) =
  import_offsets k a n.
Proof.
  intros H. unfold imap, borrow_offsets, import_offsets. destruct (checked_add n 1) as [n'|]; [|reflexivity].
  rewrite ibind_assoc. apply ibind_ext. intros q Hq. apply read_table_buffer in Hq.
  destruct q as [b|]; [|reflexivity]. destruct (_ =? 0)%N; [|reflexivity].
  rewrite <- (raw_words m b _ _ (H _ Hq)). unfold imap. rewrite !ibind_assoc. reflexivity.
Qed.

Lemma borrow_nullable_import m K a c : (forall b, buffer a 0 = Some b -> stored_at m b) ->
  imap (fun v => Validity c (option_map (deref_bits m) v)) (borrow_nullable m K a c) =
  wrap_nullable K a c.
Proof.
  intros H. unfold imap, borrow_nullable, wrap_nullable. destruct (_ <? 0)%Z; [reflexivity|].
  destruct (_ =? 0)%Z; [reflexivity|]. rewrite ibind_assoc. apply ibind_ext. intros q Hq.
  apply read_table_buffer in Hq. rewrite ibind_assoc. apply ibind_ext. intros n Hn.
  destruct (k_len K c) as [n'|] eqn:El; [|discriminate]. injection Hn as ->.
  assert (T : forall (x : ires (option lent_bits)) (y : ires (validity (cC K))),
    imap (fun v => Validity c (option_map (deref_bits m) v)) x = y ->
    ibind (ibind x (fun validity =>
      if (0 <=? a_null_count a)%Z then
        ibind (iout (vb_null_count (option_map (deref_bits m) validity))) (fun actual =>
        if (a_null_count a =? Z.of_nat actual)%Z then IOk validity
        else IErr (NullCountMismatch (a_null_count a) actual))
      else IOk validity)) (fun v => IOk (Validity c (option_map (deref_bits m) v))) =
    ibind y (fun validity =>
      if (0 <=? a_null_count a)%Z then
        ibind (iout (vb_null_count (va_bm validity))) (fun actual =>
        if (a_null_count a =? Z.of_nat actual)%Z then IOk validity
        else IErr (NullCountMismatch (a_null_count a) actual))
      else IOk validity)).
  { intros x y <-. unfold imap. rewrite !ibind_assoc. apply ibind_ext. intros v _.
    cbn [ibind va_bm]. destruct (0 <=? a_null_count a)%Z; [|reflexivity].
    destruct (vb_null_count (option_map (deref_bits m) v)) as [z|]; cbn [iout ibind]; [|reflexivity].
    destruct (_ =? _)%Z; reflexivity. }
  apply T. clear T. destruct q as [b|].
  - rewrite <- (raw_bytes m b _ (H _ Hq)). unfold imap. rewrite !ibind_assoc. apply ibind_ext. intros sp _.
    cbn [ibind]. unfold bm_try_from_parts. destruct (checked_add 0 (N.of_nat n)); [|reflexivity].
    destruct (_ <=? _)%N; [|reflexivity]. unfold va_try_from_parts. rewrite El. cbn [obind].
    destruct (Nat.eqb _ _); reflexivity.
  - destruct (_ || _)%bool; reflexivity.
Qed.
Lemma borrow_wrap_import m nl s a c : (forall b, buffer a 0 = Some b -> stored_at m b) ->
  imap (fun v => deref_null m nl s v c) (borrow_wrap m nl (coll s) a c) = wrap nl s a c.
Proof.
  intros H. destruct nl; [|reflexivity]. apply (borrow_nullable_import m (coll s) a c H).
Qed.

Lemma backed_buffers t m a : backed t m a -> forall i b, buffer a i = Some b -> stored_at m b.
Proof. intros H i b Hb j x. destruct t; apply (proj1 H i b j x Hb). Qed.

Lemma borrow_import m t : forall a s, backed t m a ->
  imap (deref m t) (borrow m t a s) = import t a s.
Proof.
  induction t as [nl|p nl|n t IH nl|k t IH nl]; intros a s H; pose proof (backed_buffers _ _ _ H) as B;
    cbn [borrow import]; destruct (import_checks _ a s) as [len|e]; try reflexivity.
  - rewrite <- (borrow_bits_import m a len (B 1)). unfold imap. rewrite !ibind_assoc. apply ibind_ext.
    intros v _. cbn [ibind]. rewrite ibind_assoc. rewrite <- (borrow_wrap_import m nl SBits a _ (B 0)).
    reflexivity.
  - rewrite <- (borrow_values_import m p a len (B 1)). unfold imap. rewrite !ibind_assoc. apply ibind_ext.
    intros v _. cbn [ibind]. rewrite ibind_assoc. rewrite <- (borrow_wrap_import m nl (SVec p) a _ (B 0)).
    reflexivity.
  - destruct (Nat.eqb n 0); [reflexivity|]. unfold imap. rewrite ibind_assoc. apply ibind_ext.
    intros [ca cs] Hk. cbn [fst snd]. rewrite <- (IH ca cs (proj2 H ca (import_pointers_child _ _ _ _ Hk))).
    unfold imap. rewrite !ibind_assoc. apply ibind_ext. intros lv _. cbn [ibind].
    rewrite ibind_assoc. apply ibind_ext. intros cl _.
    destruct (match checked_mul len (N.of_nat n) with Some l => (l =? N.of_nat cl)%N | None => false end);
      [|reflexivity].
    destruct (fl_try_from_parts (layout t) n (deref m t lv)) as [[f|e]|] eqn:Ef; try reflexivity.
    rewrite <- (borrow_wrap_import m nl (SFixed n (shape_of t)) a f (B 0)). unfold imap.
    rewrite ibind_assoc. apply ibind_ext. intros v _. cbn [ibind deref lv_validity].
    enough (f = deref m t lv) as -> by reflexivity.
    unfold fl_try_from_parts in Ef. destruct (k_len (layout t) (deref m t lv)); [|discriminate].
    cbn [obind] in Ef. destruct n; [discriminate|]. destruct (Nat.eqb _ 0); [|discriminate].
    injection Ef as <-. reflexivity.
  - rewrite <- (borrow_offsets_import m k a len (B 1)). unfold imap. rewrite !ibind_assoc. apply ibind_ext.
    intros ov _. cbn [ibind]. rewrite ibind_assoc. apply ibind_ext. intros [ca cs] Hk. cbn [fst snd].
    rewrite <- (IH ca cs (proj2 H ca (import_pointers_child _ _ _ _ Hk))).
    unfold imap. rewrite !ibind_assoc. apply ibind_ext. intros lv _. cbn [ibind].
    destruct (of_try_from_parts (layout t) (deref m t lv)
                (slice (map (of_word (osz k)) (load m ov)))) as [[o|e]|] eqn:Eo; try reflexivity.
    rewrite <- (borrow_wrap_import m nl (SList k (shape_of t)) a o (B 0)). unfold imap.
    rewrite ibind_assoc. apply ibind_ext. intros v _. cbn [ibind deref lv_validity lv_main load_opt].
    enough (o = Offsets (deref m t lv) (slice (map (of_word (osz k)) (load m ov)))) as -> by reflexivity.
    unfold of_try_from_parts in Eo. cbn [v_items slice] in Eo. revert Eo.
    destruct (map (of_word (osz k)) (load m ov)) as [|first rest] eqn:Em; [discriminate|].
    destruct (usize_try_from first) as [pr|]; [|discriminate]. destruct (pr =? 0)%N; [|discriminate].
    destruct (of_check 1 pr rest) as [last|e]; [|discriminate].
    destruct (k_len (layout t) (deref m t lv)) as [z|]; [|discriminate]. cbn [obind].
    destruct (_ <? _)%N; [discriminate|]. intros [= <-]. reflexivity.
Qed.

(** ** Where the slices are *)

Lemma raw_parts_lends b n w sp : raw_parts b n w = IOk sp -> (cb_addr b mod w = 0)%N -> lends b n w sp.
Proof.
  unfold raw_parts. destruct (N.leb_spec (n * w) (lenN (cb_data b))); [|discriminate].
  intros [= <-] H1. split; [reflexivity|]. split; assumption.
Qed.
Lemma import_checks_length t a s n : import_checks t a s = inl n -> n = Z.to_N (a_length a).
Proof.
  unfold import_checks. destruct (s_format s); repeat match goal with
  | |- context [if ?c then _ else _] => destruct c
  end; try discriminate; intros [= <-]; reflexivity.
Qed.
Lemma load_length m sp : length (load m sp) = N.to_nat (sp_count sp).
Proof. apply words_length. Qed.
Lemma ibind_ok {A B} (x : ires A) (f : A -> ires B) b : ibind x f = IOk b ->
  exists a, x = IOk a /\ f a = IOk b.
Proof. destruct x; try discriminate. eauto. Qed.

(** The validity, for a collection of [n] items *)
Lemma borrow_wrap_lent m nl K a c n v : k_len K c = Ret n -> borrow_wrap m nl K a c = IOk v ->
  match v with
  | None => nl = true -> buffer a 0 = None
  | Some v => nl = true /\ lb_bits v = N.of_nat n /\
      exists b sp, buffer a 0 = Some b /\ lb_bytes v = Some sp /\
        lends b ((N.of_nat n + 7) / 8) 1 sp
  end.
Proof.
  intros Hn H. destruct nl; [|injection H as <-; discriminate]. cbn [borrow_wrap] in H.
  unfold borrow_nullable in H. destruct (_ <? 0)%Z; [discriminate|]. destruct (_ =? 0)%Z; [discriminate|].
  apply ibind_ok in H as (q & Hq & H). apply read_table_buffer in Hq.
  rewrite Hn in H. cbn [iout ibind] in H. apply ibind_ok in H as (v' & Hv & H).
  assert (E : v' = v).
  { destruct (0 <=? a_null_count a)%Z; [|congruence].
    apply ibind_ok in H as (z & _ & H). cbv beta in H.
    destruct (a_null_count a =? Z.of_nat z)%Z; [congruence|discriminate]. }
  subst v'. clear H. destruct q as [b|].
  - apply ibind_ok in Hv as (sp & Hs & Hv). destruct (bm_try_from_parts _ _ _); [|discriminate].
    destruct (va_try_from_parts K c b0) as [[?|?]|]; try discriminate. injection Hv as <-.
    split; [reflexivity|]. split; [reflexivity|]. exists b, sp. split; [exact Hq|]. split; [reflexivity|].
    apply raw_parts_lends; [exact Hs|apply N.mod_1_r].
  - destruct (_ || _)%bool; [|discriminate]. injection Hv as <-. intros _. exact Hq.
Qed.

Lemma borrow_lent m t : forall a s lv, borrow m t a s = IOk lv ->
  lent t a lv /\ k_len (layout t) (deref m t lv) = Ret (N.to_nat (Z.to_N (a_length a))).
Proof.
  assert (N1 : forall x, N.of_nat (N.to_nat x) = x) by (intros; lia).
  assert (L : forall m nl s v (c : cC (coll s)) a n, k_len (coll s) c = Ret n ->
    match v with
    | None => nl = true -> buffer a 0 = None
    | Some v => nl = true /\ lb_bits v = N.of_nat n /\
        exists b sp, buffer a 0 = Some b /\ lb_bytes v = Some sp /\ lends b ((N.of_nat n + 7) / 8) 1 sp
    end -> k_len (coll (nulls nl s)) (deref_null m nl s v c) = Ret n).
  { intros m' nl s v c a n Hn Hv. destruct nl; [|exact Hn]. destruct v as [v|]; [|exact Hn].
    destruct Hv as (_ & Hb & _). cbn [deref_null option_map]. change (Ret (N.to_nat (lb_bits v)) = Ret n).
    rewrite Hb. f_equal. lia. }
  induction t as [nl|p nl|n t IH nl|k t IH nl]; intros a s lv H; cbn [borrow] in H;
    destruct (import_checks _ a s) as [len|e] eqn:Hch; try discriminate;
    apply import_checks_length in Hch; subst len; set (len := Z.to_N (a_length a)) in *.
  - apply ibind_ok in H as (values & Hb & H). apply ibind_ok in H as (v & Hv & H). injection H as <-.
    assert (El : k_len bitmap_coll (deref_bits m (LBits values len)) = Ret (N.to_nat len)) by reflexivity.
    pose proof (borrow_wrap_lent _ _ _ _ _ _ _ El Hv) as W.
    split; [|exact (L m nl SBits v _ a _ El W)].
    cbn [lent lv_validity lv_main lv_bits nullable]. fold len. rewrite N1 in W. split; [exact W|].
    split; [reflexivity|]. split; [reflexivity|].
    unfold borrow_bits in Hb. apply ibind_ok in Hb as (q & Hq & Hb). apply read_table_buffer in Hq.
    cbn zeta in Hb. apply ibind_ok in Hb as (values' & Hb & Hm).
    destruct (bm_try_from_parts _ _ _); [|discriminate]. injection Hm as ->.
    destruct (N.eqb_spec (bytes_for_bits len) 0) as [E0|E0].
    + injection Hb as <-. unfold bytes_for_bits in E0. destruct (N.eq_dec len 0); [assumption|].
      assert (1 <= (len + 7) / 8)%N by (apply N.div_le_lower_bound; lia). lia.
    + destruct q as [b0|]; [|discriminate]. apply ibind_ok in Hb as (sp & Hs & Hb). injection Hb as <-.
      exists b0. split; [exact Hq|]. apply raw_parts_lends; [exact Hs|apply N.mod_1_r].
  - apply ibind_ok in H as (values & Hb & H). apply ibind_ok in H as (v & Hv & H). injection H as <-.
    assert (M : match values with
      | None => len = 0%N
      | Some sp => exists b, buffer a 1 = Some b /\ lends b len (psz p) sp end).
    { unfold borrow_values in Hb. apply ibind_ok in Hb as (q & Hq & Hb). apply read_table_buffer in Hq.
      destruct (N.eqb_spec len 0) as [E0|E0]; [injection Hb as <-; exact E0|].
      destruct q as [b0|]; [|discriminate]. destruct (N.eqb_spec (cb_addr b0 mod psz p) 0); [|discriminate].
      apply ibind_ok in Hb as (sp & Hs & Hb). injection Hb as <-. exists b0. split; [exact Hq|].
      apply raw_parts_lends; assumption. }
    assert (El : k_len (coll (SVec p)) (slice (load_opt m values)) = Ret (N.to_nat len)).
    { change (Ret (length (load_opt m values)) = Ret (N.to_nat len)). f_equal. destruct values as [sp|].
      - destruct M as (b & _ & E & _). cbn [load_opt]. rewrite load_length, E. reflexivity.
      - rewrite M. reflexivity. }
    pose proof (borrow_wrap_lent _ _ _ _ _ _ _ El Hv) as W.
    split; [|exact (L m nl (SVec p) v _ a _ El W)].
    cbn [lent lv_validity lv_main lv_bits nullable]. fold len. rewrite N1 in W. split; [exact W|].
    split; [reflexivity|exact M].
  - destruct (Nat.eqb_spec n 0) as [?|Hn0]; [discriminate|]. apply ibind_ok in H as ([ca cs] & Hk & H).
    apply import_pointers_child in Hk. cbn [fst snd] in H. apply ibind_ok in H as (lv' & Hl & H).
    destruct (IH ca cs lv' Hl) as (I1 & I2). rewrite I2 in H. cbn [iout ibind] in H.
    set (cl := N.to_nat (Z.to_N (a_length ca))) in *.
    destruct (checked_mul len (N.of_nat n)) as [l|] eqn:Em; [|discriminate].
    destruct (N.eqb_spec l (N.of_nat cl)) as [El|]; [|discriminate].
    unfold checked_mul in Em. destruct (_ <=? _)%N in Em; [|discriminate]. injection Em as Em.
    unfold fl_try_from_parts in H. rewrite I2 in H. cbn [obind] in H.
    destruct n as [|n]; [contradiction|]. destruct (Nat.eqb (cl mod S n) 0); [|discriminate].
    apply ibind_ok in H as (v & Hv & H). injection H as <-.
    assert (Ef : k_len (coll (SFixed (S n) (shape_of t))) (deref m t lv') = Ret (N.to_nat len)).
    { change (fl_len (layout t) (S n) (deref m t lv') = Ret (N.to_nat len)). unfold fl_len. rewrite I2.
      cbn [obind]. f_equal. replace cl with (N.to_nat len * S n) by lia. apply Nat.div_mul. discriminate. }
    pose proof (borrow_wrap_lent _ _ _ _ _ _ _ Ef Hv) as W.
    split; [|exact (L m nl (SFixed (S n) (shape_of t)) v _ a _ Ef W)].
    cbn [lent lv_validity lv_main lv_bits nullable]. fold len. rewrite N1 in W. split; [exact W|].
    split; [reflexivity|]. exists ca. split; assumption.
  - apply ibind_ok in H as (ov & Ho & H). apply ibind_ok in H as ([ca cs] & Hk & H).
    apply import_pointers_child in Hk. cbn [fst snd] in H. apply ibind_ok in H as (lv' & Hl & H).
    destruct (IH ca cs lv' Hl) as (I1 & I2).
    assert (M : exists b, buffer a 1 = Some b /\ lends b (len + 1) (osz k) ov).
    { unfold borrow_offsets, checked_add in Ho. destruct (_ <=? _)%N in Ho; [|discriminate].
      apply ibind_ok in Ho as (q & Hq & Ho). apply read_table_buffer in Hq.
      destruct q as [b|]; [|discriminate]. destruct (N.eqb_spec (cb_addr b mod osz k) 0); [|discriminate].
      exists b. split; [exact Hq|]. apply raw_parts_lends; assumption. }
    destruct (of_try_from_parts (layout t) (deref m t lv') (slice (map (of_word (osz k)) (load m ov))))
      as [[o|?]|] eqn:Eo; try discriminate.
    apply ibind_ok in H as (v & Hv & H). injection H as <-.
    assert (E : o = Offsets (deref m t lv') (slice (map (of_word (osz k)) (load m ov)))).
    { unfold of_try_from_parts in Eo. cbn [v_items slice] in Eo. revert Eo.
      destruct (map (of_word (osz k)) (load m ov)) as [|first rest] eqn:Em; [discriminate|].
      destruct (usize_try_from first) as [pr|]; [|discriminate]. destruct (pr =? 0)%N; [|discriminate].
      destruct (of_check 1 pr rest) as [last|e]; [|discriminate].
      destruct (k_len (layout t) (deref m t lv')) as [z|]; [|discriminate]. cbn [obind].
      destruct (_ <? _)%N; [discriminate|]. intros [= <-]. reflexivity. }
    subst o.
    assert (Ef : k_len (coll (SList k (shape_of t)))
       (Offsets (deref m t lv') (slice (map (of_word (osz k)) (load m ov)))) = Ret (N.to_nat len)).
    { match goal with |- k_len _ ?o = _ => change (of_len (layout t) o = Ret (N.to_nat len)) end.
      unfold of_len. cbn [of_offs slice v_items]. rewrite map_length, load_length.
      destruct M as (b & _ & E & _). rewrite E. cbn [sp_count].
      replace (N.to_nat (len + 1)) with (S (N.to_nat len)) by lia. reflexivity. }
    pose proof (borrow_wrap_lent _ _ _ _ _ _ _ Ef Hv) as W.
    split; [|exact (L m nl (SList k (shape_of t)) v _ a _ Ef W)].
    cbn [lent lv_validity lv_main lv_bits nullable]. fold len. rewrite N1 in W. split; [exact W|].
    split; [destruct M as (b & M1 & M2); exists b, ov; split; [reflexivity|]; split; assumption|].
    exists ca. split; assumption.
Qed.

(** ** Reading the slices only *)

Lemma load_frame m m' sp : (forall x, under sp x -> m x = m' x) -> load m sp = load m' sp.
Proof.
  intros H. unfold load. f_equal. unfold bytes_at. apply map_ext_in. intros i Hi.
  apply in_seq in Hi. apply H. unfold under. lia.
Qed.
Lemma deref_frame m m' t : forall lv,
  (forall sp x, In sp (spans lv) -> under sp x -> m x = m' x) -> deref m t lv = deref m' t lv.
Proof.
  assert (O : forall o, (forall sp x, o = Some sp -> under sp x -> m x = m' x) ->
    load_opt m o = load_opt m' o).
  { intros [sp|] H; [|reflexivity]. apply load_frame. intros x. apply H. reflexivity. }
  assert (V : forall nl s v c, (forall sp x, match v with Some b => lb_bytes b | None => None end = Some sp ->
    under sp x -> m x = m' x) -> deref_null m nl s v c = deref_null m' nl s v c).
  { intros [|] s [b|] c H; try reflexivity. cbn [deref_null option_map]. do 2 f_equal. unfold deref_bits.
    rewrite (O _ H). reflexivity. }
  induction t as [nl|p nl|n t IH nl|k t IH nl]; intros [|l r] H; try reflexivity; cbn [deref];
    cbn [spans flat_map] in H; fold (spans r) in H; unfold level_spans in H;
    (rewrite (V _ _ (lv_validity l));
     [|intros sp x E; apply H; apply in_or_app; left; apply in_or_app; left;
       destruct (lv_validity l) as [b|]; [rewrite E; left; reflexivity|discriminate]]);
    f_equal.
  - unfold deref_bits. cbn [lb_bytes lb_bits]. rewrite (O (lv_main l)); [reflexivity|].
    intros sp x E. apply H. apply in_or_app; left; apply in_or_app; right. rewrite E. left. reflexivity.
  - rewrite (O (lv_main l)); [reflexivity|].
    intros sp x E. apply H. apply in_or_app; left; apply in_or_app; right. rewrite E. left. reflexivity.
  - apply IH. intros sp x Hs. apply H. apply in_or_app. right. exact Hs.
  - f_equal.
    + apply IH. intros sp x Hs. apply H. apply in_or_app. right. exact Hs.
    + rewrite (O (lv_main l)); [reflexivity|].
      intros sp x E. apply H. apply in_or_app; left; apply in_or_app; right. rewrite E. left. reflexivity.
Qed.

(** ** Arrays of this crate *)

(** The buffers of an exported array, level by level *)
Fixpoint exported (addr : block -> N) (d : nat) (t : ty) {struct t} : cC (layout t) -> carray -> Prop :=
  fun c a => a_buffers a = Some (x_buffers addr d t c) /\
  match t return cC (layout t) -> Prop with
  | TBool _ | TPrim _ _ => fun _ => True
  | TFsl n t nl => fun c => exists ca, child a = Some ca /\
      exported addr (S d) t (un_null nl (SFixed n (shape_of t)) c) ca
  | TVsl k t nl => fun c => exists ca, child a = Some ca /\
      exported addr (S d) t (of_data (un_null nl (SList k (shape_of t)) c)) ca
  end c.
Lemma xbind_ok {A B} (x : xres A) (f : A -> xres B) b : xbind x f = XOk b ->
  exists a, x = XOk a /\ f a = XOk b.
Proof. destruct x; try discriminate. eauto. Qed.
Lemma child_exported addr t : forall d c a, child_array addr d t c = XOk a -> exported addr d t c a.
Proof.
  induction t as [nl|p nl|n t IH nl|k t IH nl]; intros d c a H; cbn [child_array] in H;
    (destruct (_ =? 0)%N in H; [|discriminate]);
    apply xbind_ok in H as (len & _ & H); apply xbind_ok in H as (nc & _ & H);
    apply xbind_ok in H as (kids & Hk & H); injection H as <-.
  - split; [reflexivity|exact I].
  - split; [reflexivity|exact I].
  - apply xbind_ok in Hk as (ca & Hc & Hk). injection Hk as <-. split; [reflexivity|].
    exists ca. split; [reflexivity|]. apply IH, Hc.
  - apply xbind_ok in Hk as (ca & Hc & Hk). injection Hk as <-. split; [reflexivity|].
    exists ca. split; [reflexivity|]. apply IH, Hc.
Qed.
Lemma export_exported addr t c a s : export addr t c = XOk (a, s) -> exported addr 0 t c a.
Proof.
  unfold export. destruct (_ =? 0)%N; [|discriminate]. intros H.
  apply xbind_ok in H as (kids & Hk & H). apply xbind_ok in H as (len & _ & H).
  apply xbind_ok in H as (nc & _ & H). injection H as <- _.
  destruct t as [nl|p nl|n t nl|k t nl]; cbn [x_children] in Hk.
  - split; [reflexivity|exact I].
  - split; [reflexivity|exact I].
  - apply xbind_ok in Hk as (ca & Hc & Hk). injection Hk as <-. split; [reflexivity|].
    exists ca. split; [reflexivity|]. apply child_exported, Hc.
  - apply xbind_ok in Hk as (ca & Hc & Hk). injection Hk as <-. split; [reflexivity|].
    exists ca. split; [reflexivity|]. apply child_exported, Hc.
Qed.

Lemma exported_address addr d t c a i b : a_buffers a = Some (x_buffers addr d t c) ->
  buffer a i = Some b -> exists k, In k (level_blocks d t c) /\ cb_addr b = addr k.
Proof.
  unfold buffer. intros -> Hb.
  assert (E : nth_error (map (option_map cb_addr) (x_buffers addr d t c)) i = Some (Some (cb_addr b))).
  { destruct (nth_error (x_buffers addr d t c) i) as [x|] eqn:E.
    - rewrite (nth_error_nth _ _ _ E) in Hb. subst x. rewrite (map_nth_error _ _ _ E). reflexivity.
    - apply nth_error_None in E. rewrite nth_overflow in Hb by exact E. discriminate. }
  rewrite same_buffers in E. apply nth_error_In, in_map_iff in E as ([k|] & E & Hk); [|discriminate].
  injection E as E. exists k. split; [|symmetry; exact E]. unfold level_blocks. apply in_flat_map.
  exists (Some k). split; [exact Hk|left; reflexivity].
Qed.
Lemma exported_spans addr t : forall d c a lv sp, exported addr d t c a -> lent t a lv ->
  In sp (spans lv) -> exists k, In k (storage d t c) /\ sp_addr sp = addr k.
Proof.
  assert (P : forall b n w sp, lends b n w sp -> sp_addr sp = cb_addr b)
    by (intros b n w sp (-> & _); reflexivity).
  assert (Q : forall t d c a l sp,
    a_buffers a = Some (x_buffers addr d t c) ->
    match lv_validity l with
    | None => True
    | Some v => exists b sp n, buffer a 0 = Some b /\ lb_bytes v = Some sp /\ lends b n 1 sp
    end ->
    match lv_main l with
    | None => True
    | Some sp => exists b n w, buffer a 1 = Some b /\ lends b n w sp
    end ->
    In sp (level_spans l) -> exists k, In k (level_blocks d t c) /\ sp_addr sp = addr k).
  { intros t' d c a l sp Ha Hv Hm Hs. unfold level_spans in Hs. apply in_app_iff in Hs as [Hs|Hs].
    - destruct (lv_validity l) as [v|]; [|contradiction]. destruct Hv as (b & sp' & n & Hb & E & Hl).
      rewrite E in Hs. destruct Hs as [<-|[]]. rewrite (P _ _ _ _ Hl). eapply exported_address; eassumption.
    - destruct (lv_main l) as [sp'|]; [|contradiction]. destruct Hm as (b & n & w & Hb & Hl).
      destruct Hs as [<-|[]]. rewrite (P _ _ _ _ Hl). eapply exported_address; eassumption. }
  assert (V : forall t a l, match lv_validity l with
      | None => nullable t = true -> buffer a 0 = None
      | Some v => nullable t = true /\ lb_bits v = Z.to_N (a_length a) /\
          exists b sp, buffer a 0 = Some b /\ lb_bytes v = Some sp /\
            lends b ((Z.to_N (a_length a) + 7) / 8) 1 sp
      end ->
    match lv_validity l with
    | None => True
    | Some v => exists b sp n, buffer a 0 = Some b /\ lb_bytes v = Some sp /\ lends b n 1 sp
    end).
  { intros t' a l H. destruct (lv_validity l); [|exact I]. destruct H as (_ & _ & b & sp & H1 & H2 & H3).
    exists b, sp. eexists. split; [exact H1|]. split; [exact H2|exact H3]. }
  induction t as [nl|p nl|n t IH nl|k t IH nl]; intros d c a [|l r] sp He Hl Hs; try contradiction;
    destruct He as (Ha & He); cbn [lent] in Hl; destruct Hl as (Hv & Hl); apply V in Hv;
    cbn [spans flat_map] in Hs; apply in_app_iff in Hs; cbn [storage].
  - destruct Hl as (-> & _ & Hm). destruct Hs as [Hs|[]].
    destruct (Q _ d c a l sp Ha Hv) as (x & H1 & H2); [|exact Hs|].
    + destruct (lv_main l); [|exact I]. destruct Hm as (b & H1 & H2). exists b. do 2 eexists. split; eassumption.
    + exists x. split; [apply in_or_app; left|]; assumption.
  - destruct Hl as (-> & Hm). destruct Hs as [Hs|[]].
    destruct (Q _ d c a l sp Ha Hv) as (x & H1 & H2); [|exact Hs|].
    + destruct (lv_main l); [|exact I]. destruct Hm as (b & H1 & H2). exists b. do 2 eexists. split; eassumption.
    + exists x. split; [apply in_or_app; left|]; assumption.
  - destruct Hl as (Hm & ca & Hc & Hl). destruct He as (ca' & Hc' & He).
    rewrite Hc in Hc'. injection Hc' as <-. destruct Hs as [Hs|Hs].
    + destruct (Q _ d c a l sp Ha Hv) as (x & H1 & H2); [rewrite Hm; exact I|exact Hs|].
      exists x. split; [apply in_or_app; left|]; assumption.
    + destruct (IH _ _ _ _ _ He Hl Hs) as (x & H1 & H2). exists x. split; [apply in_or_app; right|]; assumption.
  - destruct Hl as ((b & sp0 & Hm & Hb & Hd) & ca & Hc & Hl). destruct He as (ca' & Hc' & He).
    rewrite Hc in Hc'. injection Hc' as <-. destruct Hs as [Hs|Hs].
    + destruct (Q _ d c a l sp Ha Hv) as (x & H1 & H2); [|exact Hs|].
      * rewrite Hm. exists b. do 2 eexists. split; eassumption.
      * exists x. split; [apply in_or_app; left|]; assumption.
    + destruct (IH _ _ _ _ _ He Hl Hs) as (x & H1 & H2). exists x. split; [apply in_or_app; right|]; assumption.
Qed.

Lemma borrowed_alive addr m t c a s lv sl h l st : export addr t c = XOk (a, s) ->
  borrow m t a s = IOk lv -> run_export t c (owned t c) = Some (XOk sl, h) -> guarded l ->
  acts (State sl h) l = Some st -> array_holder l <> None ->
  forall sp, In sp (spans lv) -> exists b, In b (storage 0 t c) /\ sp_addr sp = addr b /\ alive st b.
Proof.
  intros Hx Hb Hr Hg Ha Hh sp Hs.
  destruct (exported_spans addr t 0 c a lv sp (export_exported _ _ _ _ _ Hx)
              (proj1 (borrow_lent m t a s lv Hb)) Hs) as (b & H1 & H2).
  exists b. split; [exact H1|]. split; [exact H2|].
  destruct (run_forest t c sl h l Hr Hg) as (st' & E & H3 & _). rewrite Ha in E. injection E as <-.
  apply H3; assumption.
Qed.

(** ** The schema *)

Lemma borrow_schema m t : forall a s s' lv lv',
  borrow m t a s = IOk lv -> borrow m t a s' = IOk lv' -> lv = lv'.
Proof.
  assert (C : forall t a s s' x x', import_checks t a s = inl x -> import_checks t a s' = inl x' -> x = x').
  { intros t' a s s' x x' H H'. apply import_checks_length in H, H'. congruence. }
  induction t as [nl|p nl|n t IH nl|k t IH nl]; intros a s s' lv lv' H H'; cbn [borrow] in H, H';
    destruct (import_checks _ a s) as [len|?] eqn:E; try discriminate;
    destruct (import_checks _ a s') as [len'|?] eqn:E'; try discriminate;
    rewrite (C _ _ _ _ _ _ E E') in H; clear E E' len.
  - rewrite H in H'. congruence.
  - rewrite H in H'. congruence.
  - destruct (Nat.eqb n 0); [discriminate|].
    apply ibind_ok in H as ([ca cs] & Hk & H). apply ibind_ok in H' as ([ca' cs'] & Hk' & H').
    apply import_pointers_child in Hk, Hk'. rewrite Hk in Hk'. injection Hk' as <-. cbn [fst snd] in H, H'.
    apply ibind_ok in H as (l & Hl & H). apply ibind_ok in H' as (l' & Hl' & H').
    rewrite <- (IH _ _ _ _ _ Hl Hl'), H in H'. congruence.
  - apply ibind_ok in H as (ov & Ho & H). apply ibind_ok in H' as (ov' & Ho' & H').
    rewrite Ho in Ho'. injection Ho' as <-.
    apply ibind_ok in H as ([ca cs] & Hk & H). apply ibind_ok in H' as ([ca' cs'] & Hk' & H').
    apply import_pointers_child in Hk, Hk'. rewrite Hk in Hk'. injection Hk' as <-. cbn [fst snd] in H, H'.
    apply ibind_ok in H as (l & Hl & H). apply ibind_ok in H' as (l' & Hl' & H').
    rewrite <- (IH _ _ _ _ _ Hl Hl'), H in H'. congruence.
Qed.

Lemma import_borrows m t a s : backed t m a ->
  match import t a s with
  | IOk c => exists lv, borrow m t a s = IOk lv /\ deref m t lv = c
  | IErr e => borrow m t a s = IErr e
  | IPnc => borrow m t a s = IPnc
  | IUb => borrow m t a s = IUb
  end.
Proof.
  intros H. rewrite <- (borrow_import m t a s H). destruct (borrow m t a s); cbn; eauto.
Qed.
Lemma borrow_slices m t a s lv : borrow m t a s = IOk lv -> lent t a lv.
Proof. intros H. exact (proj1 (borrow_lent m t a s lv H)). Qed.
