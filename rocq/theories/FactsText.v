(** * Facts about messages and Debug output *)
From Coq Require Import List NArith ZArith Bool Arith Lia ZifyBool ZifyNat ZifyN Ascii String.
From Verif Require Import Base Spec VecModel BitmapModel CollModel ValidityModel FlattenModel
  OffsetsModel LayoutModel FfiModel CloneModel SpecTables SpecFfi SpecBytes TextModel SpecText.
Import ListNotations.
Open Scope list_scope.

(** ** Numbers *)

Lemma decimal_acc f : forall n acc, decimal_digits f n acc = decimal_digits f n [] ++ acc.
Proof.
  induction f as [|f IH]; intros n acc; [reflexivity|]. cbn [decimal_digits].
  destruct (n / 10 =? 0)%N; [reflexivity|].
  rewrite (IH _ (_ :: acc)), (IH _ [_]), <- app_assoc. reflexivity.
Qed.

Lemma digit_byte n : is_digit (48 + n mod 10)%N = true.
Proof. pose proof (N.mod_lt n 10 ltac:(discriminate)). unfold is_digit. lia. Qed.

Lemma read_decimal f : forall n v r, (n < 2 ^ N.of_nat f)%N -> 0 < f ->
  exists k, read_digits v (decimal_digits f n [] ++ r) = read_digits (v * 10 ^ k + n)%N r.
Proof.
  induction f as [|f IH]; intros n v r Hn Hf; [lia|]. cbn [decimal_digits].
  pose proof (N.div_mod n 10 ltac:(discriminate)) as D.
  pose proof (N.mod_lt n 10 ltac:(discriminate)) as M.
  destruct (n / 10 =? 0)%N eqn:E.
  - exists 1%N. cbn [app read_digits]. rewrite digit_byte. f_equal. lia.
  - rewrite decimal_acc, <- app_assoc. rewrite Nat2N.inj_succ, N.pow_succ_r' in Hn.
    destruct f as [|f]; [change (2 ^ N.of_nat 0)%N with 1%N in Hn; lia|].
    destruct (IH (n / 10)%N v ([(48 + n mod 10)%N] ++ r)) as [k Hk]; [lia|lia|].
    exists (N.succ k). rewrite Hk. cbn [app read_digits]. rewrite digit_byte. f_equal.
    rewrite N.pow_succ_r'. lia.
Qed.

Lemma size_bound n : (n < 2 ^ N.of_nat (S (N.size_nat n)))%N.
Proof.
  destruct n as [|p]; [reflexivity|]. cbn [N.size_nat].
  assert (H : (N.pos p < 2 ^ N.of_nat (Pos.size_nat p))%N).
  { induction p as [p IH|p IH|]; cbn [Pos.size_nat]; [| |reflexivity];
    rewrite Nat2N.inj_succ, N.pow_succ_r'; lia. }
  rewrite Nat2N.inj_succ, N.pow_succ_r'. lia.
Qed.

(** Text that does not go on with a digit. *)
Definition stop (t : text) : Prop := match t with b :: _ => is_digit b = false | [] => True end.

Lemma digits_read n r : stop r -> read_digits 0 (digits n ++ r) = (n, r).
Proof.
  intros Hr. unfold digits.
  destruct (read_decimal (S (N.size_nat n)) n 0 r (size_bound n) ltac:(lia)) as [k ->].
  rewrite N.mul_0_l, N.add_0_l. destruct r as [|b r]; cbn [read_digits]; [reflexivity|].
  cbn in Hr. rewrite Hr. reflexivity.
Qed.

Lemma decimal_first f : forall n acc, exists b t, decimal_digits (S f) n acc = b :: t /\ is_digit b = true.
Proof.
  induction f as [|f IH]; intros n acc.
  - cbn [decimal_digits]. destruct (n / 10 =? 0)%N; eexists _, _; split; try reflexivity; apply digit_byte.
  - remember (S f) as g eqn:Eg. cbn [decimal_digits]. destruct (n / 10 =? 0)%N.
    + eexists _, _. split; [reflexivity|apply digit_byte].
    + subst g. apply IH.
Qed.
Lemma digits_first n : exists b t, digits n = b :: t /\ is_digit b = true.
Proof. apply decimal_first. Qed.

Lemma natural_read n r : stop r -> read_natural (digits n ++ r) = Some (n, r).
Proof.
  intros Hr. pose proof (digits_read n r Hr) as H. destruct (digits_first n) as (b & t & E & D).
  rewrite E in *. cbn [app] in *. unfold read_natural. rewrite D. exact (f_equal Some H).
Qed.
Lemma number_read z r : stop r -> read_number (number z ++ r) = Some (z, r).
Proof.
  intros Hr. assert (P : forall n, read_number (digits n ++ r) = Some (Z.of_N n, r)).
  { intros n. pose proof (natural_read n r Hr) as H. destruct (digits_first n) as (b & t & E & D).
    rewrite E in *. cbn [app] in *. unfold read_number.
    replace (b =? 45)%N with false by (unfold is_digit in D; lia). rewrite H. reflexivity. }
  destruct z as [|p|p]; cbn [number].
  - apply (P 0%N).
  - rewrite P. reflexivity.
  - cbn [app read_number]. change (45 =? 45)%N with true. cbv iota. rewrite natural_read by exact Hr.
    reflexivity.
Qed.
Lemma digits_number n : digits n = number (Z.of_N n).
Proof. destruct n; reflexivity. Qed.
Lemma count_number n : count n = number (Z.of_nat n).
Proof. unfold count. rewrite digits_number, nat_N_Z. reflexivity. Qed.

(** ** Text that can be taken apart *)

Definition tells {A B} (P : A -> Prop) (f : A -> text) (g : A -> B) : Prop :=
  forall x y r r', P x -> P y -> stop r -> stop r' -> f x ++ r = f y ++ r' -> g x = g y /\ r = r'.

Lemma number_tells : tells (fun _ => True) number (fun z => z).
Proof.
  intros x y r r' _ _ Hr Hr' H. apply (f_equal read_number) in H.
  rewrite !number_read in H by assumption. injection H as -> ->. split; reflexivity.
Qed.
Lemma digits_tells : tells (fun _ => True) digits (fun n => n).
Proof.
  intros x y r r' _ _ Hr Hr' H. rewrite !digits_number in H.
  destruct (number_tells _ _ _ _ I I Hr Hr' H) as [E ->]. split; [lia|reflexivity].
Qed.
Lemma count_tells : tells (fun _ => True) count (fun n => n).
Proof.
  intros x y r r' _ _ Hr Hr' H. rewrite !count_number in H.
  destruct (number_tells _ _ _ _ I I Hr Hr' H) as [E ->]. split; [lia|reflexivity].
Qed.

Lemma tells_weaken {A B} (P Q : A -> Prop) (f : A -> text) (g : A -> B) :
  (forall x, Q x -> P x) -> tells P f g -> tells Q f g.
Proof. intros H T x y r r' X Y. apply T; apply H; assumption. Qed.
Lemma tells_map {A B B'} (P : A -> Prop) (f : A -> text) (g : A -> B) (g' : A -> B') :
  (forall x y, P x -> P y -> g x = g y -> g' x = g' y) -> tells P f g -> tells P f g'.
Proof.
  intros H T x y r r' X Y R R' E. destruct (T x y r r' X Y R R' E) as [G ->].
  split; [apply H; assumption|reflexivity].
Qed.
Lemma tells_on {A A' B} (P : A -> Prop) (f : A -> text) (g : A -> B) (h : A' -> A) :
  tells P f g -> tells (fun x => P (h x)) (fun x => f (h x)) (fun x => g (h x)).
Proof. intros T x y. apply T. Qed.

Lemma tuple_tells {A B} (P : A -> Prop) (f : A -> text) (g : A -> B) name :
  tells P f g -> tells P (fun x => debug_tuple name (f x)) g.
Proof.
  intros T x y r r' X Y Hr Hr' H. unfold debug_tuple in H. rewrite <- !app_assoc in H.
  apply app_inv_head in H. apply app_inv_head in H.
  apply T in H; [|assumption|assumption|reflexivity|reflexivity]. destruct H as [G E]. split; [exact G|].
  apply app_inv_head in E. exact E.
Qed.

(** Values that do not start as the end of a list does. *)
Definition opens {A} (P : A -> Prop) (f : A -> text) : Prop :=
  forall x, P x -> exists b t, f x = b :: t /\ b <> 93%N.

Lemma rest_stops {A} (f : A -> text) l r : stop (debug_rest f l ++ r).
Proof. destruct l; reflexivity. Qed.
Lemma rest_tells {A B} (P : A -> Prop) (f : A -> text) (g : A -> B) : tells P f g ->
  tells (Forall P) (debug_rest f) (map g).
Proof.
  intros T x y r r' X. revert y r r'. induction X as [|x l Hx _ IH]; intros [|y m] r r' Y Hr Hr' H.
  - split; [reflexivity|]. apply app_inv_head in H. exact H.
  - exfalso. cbn in H. discriminate H.
  - exfalso. cbn in H. discriminate H.
  - cbn [debug_rest] in H. rewrite <- !app_assoc in H. apply app_inv_head in H.
    apply T in H; [|assumption|exact (Forall_inv Y)|apply rest_stops|apply rest_stops].
    destruct H as [G H]. apply IH in H; [|exact (Forall_inv_tail Y)|assumption|assumption].
    destruct H as [M ->]. cbn [map]. rewrite G, M. split; reflexivity.
Qed.
Lemma list_tells {A B} (P : A -> Prop) (f : A -> text) (g : A -> B) : tells P f g -> opens P f ->
  tells (Forall P) (debug_list f) (map g).
Proof.
  intros T O [|x l] [|y m] r r' X Y Hr Hr' H.
  - split; [reflexivity|]. apply app_inv_head in H. exact H.
  - exfalso. cbn [debug_list] in H. rewrite <- app_assoc in H.
    destruct (O y (Forall_inv Y)) as (b & t & E & N). rewrite E in H. cbn in H. congruence.
  - exfalso. cbn [debug_list] in H. rewrite <- app_assoc in H.
    destruct (O x (Forall_inv X)) as (b & t & E & N). rewrite E in H. cbn in H. congruence.
  - cbn [debug_list] in H. rewrite <- !app_assoc in H. apply app_inv_head in H.
    apply T in H; [|exact (Forall_inv X)|exact (Forall_inv Y)|apply rest_stops|apply rest_stops].
    destruct H as [G H].
    apply (rest_tells P f g T) in H; [|exact (Forall_inv_tail X)|exact (Forall_inv_tail Y)|assumption|assumption].
    destruct H as [M ->]. cbn [map]. rewrite G, M. split; reflexivity.
Qed.
Lemma digits_open : opens (fun _ => True) digits.
Proof.
  intros n _. destruct (digits_first n) as (b & t & E & D). exists b, t. split; [exact E|].
  unfold is_digit in D. lia.
Qed.
Lemma number_open : opens (fun _ => True) number.
Proof.
  intros [|p|p] _; cbn [number]; try apply digits_open; try exact I.
  eexists _, _. split; [reflexivity|discriminate].
Qed.

(** ** Values *)

Lemma signed_inj b x y : (0 < b)%N -> (x < 256 ^ b)%N -> (y < 256 ^ b)%N ->
  as_signed b x = as_signed b y -> x = y.
Proof.
  intros B X Y. unfold as_signed. replace (256 ^ b)%N with (2 ^ (8 * b))%N in * by
    (rewrite N.pow_mul_r; reflexivity).
  assert (E : (2 ^ (8 * b) = 2 * 2 ^ (8 * b - 1))%N) by (rewrite <- N.pow_succ_r'; f_equal; lia).
  rewrite E in *. generalize dependent (2 ^ (8 * b - 1))%N. intros h X Y _.
  destruct (x <? h)%N eqn:Ex, (y <? h)%N eqn:Ey; lia.
Qed.
Lemma split_bound b n : forall x, Forall (fun v => v < 256 ^ b)%N (split_value b n x).
Proof.
  induction n as [|n IH]; intros x; cbn [split_value]; constructor; [|apply IH].
  apply N.mod_lt. apply N.pow_nonzero. discriminate.
Qed.
Lemma split_inj b n : forall x y, (x < 256 ^ (b * N.of_nat n))%N -> (y < 256 ^ (b * N.of_nat n))%N ->
  split_value b n x = split_value b n y -> x = y.
Proof.
  assert (Z : (256 ^ b)%N <> 0%N) by (apply N.pow_nonzero; discriminate).
  induction n as [|n IH]; intros x y X Y H.
  - rewrite N.mul_0_r in X, Y. change (256 ^ 0)%N with 1%N in *. lia.
  - cbn [split_value] in H. rewrite Nat2N.inj_succ, N.mul_succ_r, N.add_comm, N.pow_add_r in X, Y.
    assert (H1 := f_equal (hd 0%N) H). assert (H2 := f_equal (@tl N) H). cbn [hd tl] in H1, H2.
    apply IH in H2; [|apply N.div_lt_upper_bound; assumption|apply N.div_lt_upper_bound; assumption].
    rewrite (N.div_mod x (256 ^ b) Z), (N.div_mod y (256 ^ b) Z), H1, H2. reflexivity.
Qed.
Lemma psz_value p : psz p = value_bytes p.
Proof. induction p; cbn [psz value_bytes]; congruence. Qed.
Lemma value_pos p : (0 < value_bytes p)%N.
Proof. induction p; cbn [value_bytes]; lia. Qed.

Definition fits (p : prim) (x : N) : Prop := (x < 256 ^ value_bytes p)%N.
Lemma value_opens p : integral p = true -> opens (fits p) (debug_value p).
Proof.
  intros I x _. destruct p; cbn [debug_value]; try discriminate I;
    try (apply digits_open; exact Logic.I); try (apply number_open; exact Logic.I).
  eexists _, _. split; [reflexivity|discriminate].
Qed.
Lemma value_tells p : integral p = true -> tells (fits p) (debug_value p) (fun x => x).
Proof.
  assert (U : forall q, tells (fits q) digits (fun n => n)).
  { intros q. eapply tells_weaken; [|exact digits_tells]. intros; exact I. }
  assert (V : forall q, tells (fits q) (fun x => number (as_signed (psz q) x)) (fun n => n)).
  { intros q. eapply tells_map; [|eapply tells_weaken; [|exact (tells_on _ _ _ (as_signed (psz q)) number_tells)]].
    - cbv beta. intros x y X Y E. rewrite psz_value in E. eapply signed_inj; eauto using value_pos.
    - intros; exact I. }
  induction p as [| | | | | | | | | | | | | |q IH n]; cbn [integral debug_value]; intros J;
    try discriminate J; try apply U; try apply V.
  apply tuple_tells.
  pose proof (list_tells _ _ _ (IH J) (value_opens q J)) as T.
  eapply tells_map; [|eapply tells_weaken; [|exact (tells_on _ _ _ (split_value (psz q) (Pos.to_nat n)) T)]].
  - unfold fits. cbn [value_bytes]. cbv beta. intros x y X Y E. rewrite !map_id, psz_value in E.
    replace (N.pos n) with (N.of_nat (Pos.to_nat n)) in X, Y by lia.
    eapply split_inj; eassumption.
  - intros x _. unfold fits. rewrite <- psz_value. apply split_bound.
Qed.

(** ** Collections *)

Lemma byte_bits_inj x y : (x < 256)%N -> (y < 256)%N -> byte_bits x = byte_bits y -> x = y.
Proof.
  intros X Y H. apply N.bits_inj. intros i.
  assert (Hi : forall z, (z < 256)%N -> (8 <= i)%N -> N.testbit z i = false).
  { intros z Hz I. destruct z as [|p]; [apply N.bits_0|]. apply N.bits_above_log2.
    apply N.log2_lt_pow2; [lia|]. apply N.lt_le_trans with (2 ^ 8)%N; [exact Hz|].
    apply N.pow_le_mono_r; lia. }
  destruct (N.le_gt_cases 8 i) as [I|I]; [rewrite !Hi by assumption; reflexivity|].
  unfold byte_bits in H. cbn [map] in H. injection H as H0 H1 H2 H3 H4 H5 H6 H7.
  assert (C : i = 0%N \/ i = 1%N \/ i = 2%N \/ i = 3%N \/ i = 4%N \/ i = 5%N \/ i = 6%N \/ i = 7%N)
    by (clear - I; lia).
  destruct C as [->|[->|[->|[->|[->|[->|[->| ->]]]]]]]; assumption.
Qed.
Lemma bits_of_inj l : forall m, bytes l -> bytes m -> bits_of l = bits_of m -> l = m.
Proof.
  induction l as [|x l IH]; intros [|y m] L M H; [reflexivity|discriminate H|discriminate H|].
  unfold bits_of in H. cbn [flat_map] in H.
  assert (H1 := f_equal (firstn 8) H). assert (H2 := f_equal (skipn 8) H).
  change (byte_bits x = byte_bits y) in H1. change (bits_of l = bits_of m) in H2.
  rewrite (byte_bits_inj x y (Forall_inv L) (Forall_inv M) H1),
    (IH m (Forall_inv_tail L) (Forall_inv_tail M) H2). reflexivity.
Qed.

Lemma map_same {A} (l : list A) : map (fun x => x) l = l.
Proof. apply map_id. Qed.
Lemma any_forall {A} (l : list A) : Forall (fun _ => True) l.
Proof. induction l; constructor; auto. Qed.

Lemma bitmap_tells : tells (fun _ => True) debug_bitmap bits_in.
Proof.
  intros x y r r' _ _ Hr Hr' H. unfold debug_bitmap, debug_struct in H. cbn [debug_fields] in H.
  rewrite <- !app_assoc in H. do 4 apply app_inv_head in H.
  apply (list_tells _ _ _ digits_tells digits_open) in H; [|apply any_forall|apply any_forall|reflexivity|reflexivity].
  destruct H as [H1 H]. rewrite !map_same in H1. do 3 apply app_inv_head in H.
  apply count_tells in H; [|exact I|exact I|reflexivity|reflexivity].
  destruct H as [H2 H]. do 3 apply app_inv_head in H.
  apply count_tells in H; [|exact I|exact I|reflexivity|reflexivity].
  destruct H as [H3 H]. apply app_inv_head in H. split; [|exact H].
  unfold bits_in. rewrite H1, H2, H3. reflexivity.
Qed.
Lemma bitmap_same x y : bytes (v_items (bm_buf x)) -> bytes (v_items (bm_buf y)) ->
  bits_in x = bits_in y -> debug_bitmap x = debug_bitmap y.
Proof.
  intros X Y H. unfold bits_in in H. injection H as H1 H2 H3. unfold debug_bitmap.
  rewrite (bits_of_inj _ _ X Y H1), H2, H3. reflexivity.
Qed.

Lemma nulls_tells nl s show :
  tells (typed s) show (image_of s) ->
  tells (typed (nulls nl s)) (debug_nulls nl s show) (image_of (nulls nl s)).
Proof.
  intros T. destruct nl; [|exact T]. intros [x bx] [y bz] r r' X Y Hr Hr' H.
  unfold debug_nulls, debug_struct in H. cbn [debug_fields va_coll va_bm] in H.
  rewrite <- !app_assoc in H. do 4 apply app_inv_head in H.
  destruct X as [_ X], Y as [_ Y]. cbn [va_coll] in X, Y.
  apply T in H; [|assumption|assumption|reflexivity|reflexivity].
  destruct H as [H1 H]. do 3 apply app_inv_head in H.
  change (image_of (nulls true s)) with (fun v : validity (cC (coll s)) =>
      (image_of s (va_coll v), option_map bits_in (va_bm v))). cbn [va_coll va_bm]. rewrite H1.
  destruct bx as [bx|], bz as [bz|]; cbn [option_map debug_option] in *.
  - apply (tuple_tells _ _ _ "Some" bitmap_tells) in H; [|exact I|exact I|reflexivity|reflexivity].
    destruct H as [H2 H]. apply app_inv_head in H. rewrite H2. split; [reflexivity|exact H].
  - cbn in H. discriminate H.
  - cbn in H. discriminate H.
  - do 2 apply app_inv_head in H. split; [reflexivity|exact H].
Qed.
Lemma nulls_same nl s show :
  (forall x y, typed s x -> typed s y -> image_of s x = image_of s y -> show x = show y) ->
  forall x y, typed (nulls nl s) x -> typed (nulls nl s) y ->
  image_of (nulls nl s) x = image_of (nulls nl s) y -> debug_nulls nl s show x = debug_nulls nl s show y.
Proof.
  intros T. destruct nl; [|exact T]. intros [x bx] [y bz] [Bx X] [Bz Y] H.
  change ((image_of s x, option_map bits_in bx) = (image_of s y, option_map bits_in bz)) in H.
  injection H as H1 H2. cbn [va_coll va_bm] in *. unfold debug_nulls. cbn [va_coll va_bm].
  rewrite (T x y X Y H1). destruct bx as [bx|], bz as [bz|]; cbn [option_map] in *; try discriminate H2;
    [|reflexivity].
  rewrite (bitmap_same bx bz Bx Bz); [reflexivity|]. injection H2; intros; unfold bits_in; congruence.
Qed.

Lemma memory_tells t : printable t = true ->
  tells (typed (shape_of t)) (debug_memory t) (image_of (shape_of t)).
Proof.
  induction t as [nl|p nl|n t IH nl|k t IH nl]; cbn [printable]; intros J;
    cbn [debug_memory shape_of]; apply tuple_tells; apply nulls_tells.
  - eapply tells_weaken; [|exact bitmap_tells]. intros; exact I.
  - pose proof (list_tells _ _ _ (value_tells p J) (value_opens p J)) as T.
    eapply tells_map; [|exact (tells_on _ _ _ (fun v : vec N => v_items v) T)].
    cbv beta. intros x y _ _ E. rewrite !map_same in E. exact E.
  - unfold debug_flatten. apply tuple_tells. exact (IH J).
  - intros x y r r' X Y Hr Hr' H. unfold debug_offsets, debug_struct in H. cbn [debug_fields] in H.
    rewrite <- !app_assoc in H. do 4 apply app_inv_head in H.
    apply (IH J) in H; [|exact X|exact Y|reflexivity|reflexivity].
    destruct H as [H1 H]. do 3 apply app_inv_head in H.
    apply (list_tells _ _ _ number_tells number_open) in H; [|apply any_forall|apply any_forall|reflexivity|reflexivity].
    destruct H as [H2 H]. apply app_inv_head in H. rewrite !map_same in H2. split; [|exact H].
    exact (f_equal2 pair H1 H2).
Qed.
Lemma memory_same t : forall x y, typed (shape_of t) x -> typed (shape_of t) y ->
  image_of (shape_of t) x = image_of (shape_of t) y -> debug_memory t x = debug_memory t y.
Proof.
  induction t as [nl|p nl|n t IH nl|k t IH nl]; intros x y X Y H; cbn [debug_memory]; f_equal;
    (apply nulls_same; [|exact X|exact Y|exact H]); clear x y X Y H; intros x y X Y H.
  - apply bitmap_same; assumption.
  - cbn [image_of] in H. cbv beta. rewrite H. reflexivity.
  - unfold debug_flatten. rewrite (IH x y X Y H). reflexivity.
  - cbn [image_of] in H. injection H as H1 H2.
    exact (f_equal2 (fun a b => debug_struct "Offset" [("data", a); ("offsets", debug_list number b)]%string)
      (IH _ _ X Y H1) H2).
Qed.

Lemma debug_determines t : printable t = true -> forall c c',
  typed (shape_of t) c -> typed (shape_of t) c' ->
  (debug_array t c = debug_array t c' <-> image_of (shape_of t) c = image_of (shape_of t) c').
Proof.
  intros J c c' T T'. split; intros H.
  - apply (f_equal (fun m => m ++ [])) in H.
    apply (tuple_tells _ _ _ "Array" (memory_tells t J)) in H; [exact (proj1 H)|assumption|assumption|exact I|exact I].
  - unfold debug_array. rewrite (memory_same t c c' T T' H). reflexivity.
Qed.

Lemma view_tells {C} (v w : offview C) : debug_offset_view v = debug_offset_view w ->
  ov_start v = ov_start w /\ ov_end v = ov_end w.
Proof.
  intros H. unfold debug_offset_view in H. apply app_inv_head in H.
  apply digits_tells in H; [|exact I|exact I|reflexivity|reflexivity]. destruct H as [H1 H].
  apply app_inv_head in H.
  apply digits_tells in H; [|exact I|exact I|reflexivity|reflexivity]. destruct H as [H2 _].
  split; assumption.
Qed.
Lemma view_determines C (v w : offview C) :
  debug_offset_view v = debug_offset_view w <-> ov_start v = ov_start w /\ ov_end v = ov_end w.
Proof.
  split; [apply view_tells|]. intros [A B]. unfold debug_offset_view. rewrite A, B. reflexivity.
Qed.

(** ** Messages *)

Ltac peel H :=
  repeat first
    [ apply app_inv_head in H
    | apply number_tells in H; [destruct H as [? H]|exact I|exact I|first [exact I|reflexivity]|first [exact I|reflexivity]] ].
Ltac prepare H :=
  apply (f_equal (fun m : text => m ++ [])) in H; rewrite ?digits_number, ?count_number, <- ?app_assoc in H.
Ltac apart H :=
  exfalso; clear - H;
  first [ revert H; generalize number; intros num H; vm_compute in H; discriminate H
        | peel H; revert H; generalize number; intros num H; vm_compute in H; discriminate H ].

Lemma bitmap_message_inj e e' : bitmap_message e = bitmap_message e' -> e = e'.
Proof.
  destruct e as [a b c], e' as [a' b' c']; cbn [bitmap_message]; intros H. prepare H. peel H. f_equal; lia.
Qed.
Lemma validity_message_inj e e' : validity_message e = validity_message e' -> e = e'.
Proof.
  destruct e as [a b], e' as [a' b']; unfold validity_message; cbn [fst snd]; intros H. prepare H. peel H.
  f_equal; lia.
Qed.
Lemma flatten_message_inj e e' : flatten_message e = flatten_message e' -> e = e'.
Proof.
  destruct e, e'; cbn [flatten_message]; intros H; prepare H;
    first [reflexivity | peel H; f_equal; lia | apart H].
Qed.
Lemma offsets_message_inj e e' : offsets_message e = offsets_message e' -> e = e'.
Proof.
  destruct e, e'; cbn [offsets_message]; intros H; prepare H;
    first [reflexivity | solve [apart H] | peel H; f_equal; lia].
Qed.
Lemma export_message_inj e e' : export_message e = export_message e' -> e = e'.
Proof. unfold export_message. intros H. prepare H. peel H. lia. Qed.
Lemma import_message_inj e e' : import_message e = import_message e' -> e = e'.
Proof.
  destruct e as [| | | | | | | | | | | | | | | | | | | |x| |], e' as [| | | | | | | | | | | | | | | | | | | |y| |];
    cbn [import_message]; intros H;
    try (apply app_inv_head in H; apply offsets_message_inj in H; subst y; reflexivity);
    try (exfalso; destruct x; cbn [offsets_message] in H; prepare H; apart H);
    try (exfalso; destruct y; cbn [offsets_message] in H; prepare H; apart H);
    prepare H; first [reflexivity | solve [apart H] | peel H; f_equal; lia].
Qed.

(** ** What messages say *)

Fixpoint mismatch (n a : text) : bool :=
  match n, a with
  | x :: n, y :: a => if (x =? y)%N then mismatch n a else true
  | _, _ => false
  end.
Fixpoint skips (n a : text) : bool :=
  match a with [] => true | _ :: r => mismatch n a && skips n r end.
Fixpoint equal (n a : text) : bool :=
  match n, a with
  | [], [] => true
  | x :: n, y :: a => (x =? y)%N && equal n a
  | _, _ => false
  end.
Fixpoint found (n a : text) : bool :=
  equal n a || match a with [] => false | _ :: r => mismatch n a && found n r end.

Lemma without_mismatch n : forall a y, mismatch n a = true -> without n (a ++ y) = None.
Proof.
  induction n as [|x n IH]; intros [|b a] y H; try discriminate H. cbn [mismatch] in H.
  cbn [app without]. destruct (x =? b)%N; [apply IH; exact H|reflexivity].
Qed.
Lemma without_equal n : forall a y, equal n a = true -> without n (a ++ y) = Some y.
Proof.
  induction n as [|x n IH]; intros [|b a] y H; try discriminate H; [reflexivity|]. cbn [equal] in H.
  apply andb_true_iff in H. destruct H as [E H]. cbn [app without]. rewrite E. apply IH. exact H.
Qed.
Lemma after_skip n a y : skips n a = true -> after n (a ++ y) = after n y.
Proof.
  induction a as [|b a IH]; intros H; [reflexivity|]. cbn [skips] in H. apply andb_true_iff in H.
  destruct H as [M H]. pose proof (without_mismatch n (b :: a) y M) as W. cbn [app] in *. cbn [after].
  rewrite W. apply IH. exact H.
Qed.
Lemma after_found n a y : found n a = true -> after n (a ++ y) = Some y.
Proof.
  induction a as [|b a IH]; intros H.
  - cbn [found] in H. rewrite orb_false_r in H. pose proof (without_equal n [] y H) as W. cbn [app] in *.
    destruct y; cbn [after]; rewrite W; reflexivity.
  - cbn [found] in H. apply orb_true_iff in H. destruct H as [H|H].
    + pose proof (without_equal n (b :: a) y H) as W. cbn [app] in *. cbn [after]. rewrite W. reflexivity.
    + apply andb_true_iff in H. destruct H as [M H]. pose proof (without_mismatch n (b :: a) y M) as W.
      cbn [app] in *. cbn [after]. rewrite W. apply IH. exact H.
Qed.

(** Names do not start like a number. *)
Definition wordy (n : text) : bool :=
  match n with b :: _ => negb (is_digit b) && negb (b =? 45)%N | [] => false end.
Lemma decimal_all f : forall n acc, Forall (fun b => is_digit b = true) acc ->
  Forall (fun b => is_digit b = true) (decimal_digits f n acc).
Proof.
  induction f as [|f IH]; intros n acc H; [exact H|]. cbn [decimal_digits].
  assert (H' : Forall (fun b => is_digit b = true) ((48 + n mod 10)%N :: acc)) by
    (constructor; [apply digit_byte|exact H]).
  destruct (n / 10 =? 0)%N; [exact H'|apply IH; exact H'].
Qed.
Lemma number_all z : Forall (fun b => is_digit b = true \/ b = 45%N) (number z).
Proof.
  assert (D : forall n, Forall (fun b => is_digit b = true \/ b = 45%N) (digits n)).
  { intros n. eapply Forall_impl; [|apply decimal_all; constructor]. cbv beta. intros; left; assumption. }
  destruct z; cbn [number]; [apply D|apply D|]. constructor; [right; reflexivity|apply D].
Qed.
Lemma after_number n z y : wordy n = true -> after n (number z ++ y) = after n y.
Proof.
  intros W. apply after_skip. induction (number_all z) as [|b l Hb _ IH]; [reflexivity|].
  cbn [skips]. rewrite IH, andb_true_r. destruct n as [|a n]; [discriminate W|]. cbn [wordy] in W.
  cbn [mismatch]. destruct (a =? b)%N eqn:E; [|reflexivity]. apply N.eqb_eq in E. subst b.
  destruct Hb as [Hb| ->]; [rewrite Hb in W|]; discriminate W.
Qed.

Lemma number_read_end z : read_number (number z) = Some (z, []).
Proof. rewrite <- (app_nil_r (number z)). apply number_read. exact I. Qed.

Ltac say :=
  cbv beta; cbn [fst snd]; unfold said;
  repeat first
    [ rewrite after_number by (vm_compute; reflexivity)
    | rewrite after_skip by (vm_compute; reflexivity)
    | rewrite after_found by (vm_compute; reflexivity) ];
  first [rewrite number_read by first [exact I|reflexivity] | rewrite number_read_end]; reflexivity.
Ltac says :=
  rewrite ?digits_number, ?count_number;
  repeat first [apply Forall_nil | apply Forall_cons; [say|]].

Definition tells_of (t : text) (l : list (string * Z)) : Prop :=
  Forall (fun p => said (fst p) t = Some (snd p)) l.
Lemma bitmap_says e : tells_of (bitmap_message e) (bitmap_numbers e).
Proof. destruct e; cbn [bitmap_message bitmap_numbers]; unfold tells_of; says. Qed.
Lemma flatten_says e : tells_of (flatten_message e) (flatten_numbers e).
Proof. destruct e; cbn [flatten_message flatten_numbers]; unfold tells_of; says. Qed.
Lemma validity_says a b :
  tells_of (validity_message (a, b)) [("collection length (", Z.of_nat a); ("bitmap length (", Z.of_nat b)]%string.
Proof. unfold validity_message, tells_of; cbn [fst snd]; says. Qed.
Lemma offsets_says e : tells_of (offsets_message e) (offsets_numbers e).
Proof. destruct e; cbn [offsets_message offsets_numbers]; unfold tells_of; says. Qed.
Lemma export_says o : said "offset (" (export_message o) = Some (Z.of_N o).
Proof. unfold export_message. rewrite digits_number. say. Qed.
Lemma import_says e : tells_of (import_message e) (import_numbers e).
Proof.
  unfold tells_of. destruct e as [| | | | | | | | | | | | | | | | | | | |x| |]; cbn [import_message import_numbers];
    try solve [says]. destruct x; cbn [offsets_message offsets_numbers]; says.
Qed.
Lemma validity_said n m : said "collection length (" (validity_message (n, m)) = Some (Z.of_nat n) /\
  said "bitmap length (" (validity_message (n, m)) = Some (Z.of_nat m).
Proof.
  pose proof (validity_says n m) as H. split; [exact (Forall_inv H)|exact (Forall_inv (Forall_inv_tail H))].
Qed.
Lemma import_source_says e x : import_source e = Some x ->
  e = InvalidOffsets x /\ exists before, import_message e = before ++ offsets_message x.
Proof.
  destruct e; cbn [import_source]; intros H; try discriminate H. injection H as ->.
  split; [reflexivity|]. eexists. reflexivity.
Qed.

(** ** Clones *)
Lemma clone_prints t : clonable (shape_of t) = true -> forall c,
  debug_memory t (clone (shape_of t) c) = debug_memory t c.
Proof.
  induction t as [nl|p nl|n t IH nl|k t IH nl]; destruct nl; intros H c; try discriminate H.
  - reflexivity.
  - reflexivity.
  - exact (f_equal (fun x => debug_tuple "FixedSizeList" (debug_tuple "Flatten" x)) (IH H c)).
Qed.
Lemma clone_debug t : clonable (shape_of t) = true -> forall c,
  debug_array t (clone (shape_of t) c) = debug_array t c.
Proof. intros H c. unfold debug_array. rewrite (clone_prints t H c). reflexivity. Qed.

(** ** Reading lists of numbers *)

Lemma rest_map {A} (g : A -> Z) (l : list A) :
  debug_rest (fun x => number (g x)) l = debug_rest number (map g l).
Proof. induction l as [|x l IH]; [reflexivity|]. cbn [debug_rest map]. rewrite IH. reflexivity. Qed.
Lemma list_map {A} (g : A -> Z) (l : list A) :
  debug_list (fun x => number (g x)) l = debug_list number (map g l).
Proof. destruct l as [|x l]; [reflexivity|]. cbn [debug_list map]. rewrite rest_map. reflexivity. Qed.
Lemma rest_ext {A} (f g : A -> text) (l : list A) : Forall (fun x => f x = g x) l ->
  debug_rest f l = debug_rest g l.
Proof. induction 1 as [|x l E _ IH]; [reflexivity|]. cbn [debug_rest]. rewrite E, IH. reflexivity. Qed.
Lemma list_ext {A} (f g : A -> text) (l : list A) : Forall (fun x => f x = g x) l ->
  debug_list f l = debug_list g l.
Proof.
  intros H. destruct H as [|x l E H]; [reflexivity|]. cbn [debug_list]. rewrite E, (rest_ext f g l H).
  reflexivity.
Qed.

Lemma rest_read l : forall fuel r, List.length l <= fuel ->
  read_rest fuel (debug_rest number l ++ r) = Some l.
Proof.
  induction l as [|z l IH]; intros [|fuel] r H; cbn [List.length] in H; try lia; try reflexivity.
  cbn [debug_rest]. rewrite <- !app_assoc. cbn [read_rest].
  change (without (spelled "]") (lit ", " ++ number z ++ debug_rest number l ++ r)) with (@None (list N)).
  change (without (spelled ", ") (lit ", " ++ number z ++ debug_rest number l ++ r))
    with (Some (number z ++ debug_rest number l ++ r)).
  cbv iota. rewrite number_read by apply rest_stops. rewrite IH by lia. reflexivity.
Qed.
Lemma rest_length l : List.length l <= List.length (debug_rest number l).
Proof.
  induction l as [|z l IH]; [cbn; lia|]. cbn [debug_rest]. rewrite !app_length.
  change (List.length (lit ", ")) with 2. cbn [List.length]. lia.
Qed.
Lemma list_read l r : read_list (debug_list number l ++ r) = Some l.
Proof.
  destruct l as [|z l]; [reflexivity|]. cbn [debug_list]. rewrite <- !app_assoc. unfold read_list.
  assert (E : without (spelled "[]") (lit "[" ++ number z ++ debug_rest number l ++ r) = None).
  { destruct (number_open z I) as (b & t & -> & B). cbn. destruct (N.eqb_spec 93 b); [congruence|].
    destruct b; try reflexivity. cbn in *. destruct (93 =? p)%positive eqn:X; [|reflexivity].
    apply Pos.eqb_eq in X. congruence. }
  rewrite E. change (without (spelled "[") (lit "[" ++ number z ++ debug_rest number l ++ r))
    with (Some (number z ++ debug_rest number l ++ r)). cbv iota.
  rewrite number_read by apply rest_stops. rewrite rest_read; [reflexivity|].
  rewrite app_length. pose proof (rest_length l). lia.
Qed.

(** Names start with a letter. *)
Definition letter (n : text) : bool :=
  match n with b :: _ => (97 <=? b)%N && (b <=? 122)%N | [] => false end.
Lemma after_plain n a y : letter n = true -> Forall (fun b => b < 97)%N a -> after n (a ++ y) = after n y.
Proof.
  intros W H. apply after_skip. induction H as [|b l Hb _ IH]; [reflexivity|].
  cbn [skips]. rewrite IH, andb_true_r. destruct n as [|x n]; [discriminate W|]. cbn [letter] in W.
  cbn [mismatch]. destruct (N.eqb_spec x b); [lia|reflexivity].
Qed.
Lemma number_plain z : Forall (fun b => b < 97)%N (number z).
Proof. eapply Forall_impl; [|apply number_all]. cbv beta. unfold is_digit. intros b [H|H]; lia. Qed.
Lemma rest_plain l : Forall (fun b => b < 97)%N (debug_rest number l).
Proof.
  induction l as [|z l IH]; [repeat constructor|]. cbn [debug_rest]. apply Forall_app. split; [repeat constructor|].
  apply Forall_app. split; [apply number_plain|exact IH].
Qed.
Lemma list_plain l : Forall (fun b => b < 97)%N (debug_list number l).
Proof.
  destruct l as [|z l]; [repeat constructor|]. cbn [debug_list]. apply Forall_app. split; [repeat constructor|].
  apply Forall_app. split; [apply number_plain|apply rest_plain].
Qed.

Lemma bitmap_states b :
  listed "buffer: " (debug_bitmap b) = Some (map Z.of_N (v_items (bm_buf b))) /\
  said "bits: " (debug_bitmap b) = Some (Z.of_nat (bm_bits b)) /\
  said "offset: " (debug_bitmap b) = Some (Z.of_nat (bm_off b)).
Proof.
  unfold debug_bitmap, debug_struct. cbn [debug_fields].
  rewrite (list_ext digits (fun x => number (Z.of_N x))) by
    (apply Forall_forall; intros; apply digits_number).
  rewrite list_map, !count_number, <- !app_assoc. unfold listed, said.
  repeat split.
  - rewrite 2 after_skip by (vm_compute; reflexivity). rewrite (app_assoc (lit "buffer")).
    rewrite after_found by (vm_compute; reflexivity). apply list_read.
  - rewrite 4 after_skip by (vm_compute; reflexivity).
    rewrite after_plain by (reflexivity || apply list_plain).
    rewrite after_skip by (vm_compute; reflexivity). rewrite (app_assoc (lit "bits")).
    rewrite after_found by (vm_compute; reflexivity).
    rewrite number_read by reflexivity. reflexivity.
  - rewrite 4 after_skip by (vm_compute; reflexivity).
    rewrite after_plain by (reflexivity || apply list_plain).
    rewrite 3 after_skip by (vm_compute; reflexivity).
    rewrite after_plain by (reflexivity || apply number_plain).
    rewrite after_skip by (vm_compute; reflexivity). rewrite (app_assoc (lit "offset")).
    rewrite after_found by (vm_compute; reflexivity).
    rewrite number_read by reflexivity. reflexivity.
Qed.

Lemma signed_integer p x : is_integer p = true -> (x < 256 ^ value_bytes p)%N ->
  debug_value p x = number (integer p x).
Proof.
  intros P X. unfold integer. destruct (signed p) eqn:G; cbn [andb].
  - assert (E : debug_value p x = number (as_signed (value_bytes p) x)).
    { rewrite <- psz_value. destruct p; try discriminate G; reflexivity. }
    rewrite E. f_equal. unfold as_signed. pose proof (value_pos p) as V.
    set (m := (8 * value_bytes p - 1)%N).
    assert (M : (8 * value_bytes p = N.succ m)%N) by (subst m; lia).
    replace (256 ^ value_bytes p)%N with (2 ^ (8 * value_bytes p))%N in X by
      (rewrite N.pow_mul_r; reflexivity).
    assert (T : N.testbit x m = negb (x <? 2 ^ m)%N).
    { rewrite M, N.pow_succ_r' in X. rewrite N.testbit_odd, N.shiftr_div_pow2.
      assert (P2 : (0 < 2 ^ m)%N) by (apply N.neq_0_lt_0, N.pow_nonzero; discriminate).
      destruct (N.ltb_spec x (2 ^ m)).
      - rewrite N.div_small by assumption. reflexivity.
      - replace (x / 2 ^ m)%N with 1%N; [reflexivity|].
        apply (N.div_unique x (2 ^ m) 1 (x - 2 ^ m)); lia. }
    rewrite T. destruct (x <? 2 ^ m)%N; [reflexivity|]. cbn [negb]. rewrite N2Z.inj_pow. reflexivity.
  - transitivity (digits x); [destruct p; try discriminate P; try discriminate G; reflexivity|].
    apply digits_number.
Qed.
Lemma values_listed p (v : vec N) : is_integer p = true -> Forall (fun x => x < 256 ^ value_bytes p)%N (v_items v) ->
  debug_list (debug_value p) (v_items v) = debug_list number (map (integer p) (v_items v)).
Proof.
  intros P V. rewrite <- list_map. apply list_ext. eapply Forall_impl; [|exact V]. cbv beta.
  intros x X. apply signed_integer; assumption.
Qed.
Lemma values_stated p : is_integer p = true -> forall v : cC (layout (TPrim p false)),
  typed (shape_of (TPrim p false)) v ->
  listed "FixedSizePrimitive(" (debug_array (TPrim p false) v) =
    Some (map (integer p) (v_items (v : vec N))).
Proof.
  intros P v V. unfold debug_array, listed. cbn [debug_memory debug_nulls].
  rewrite (values_listed p v P V). unfold debug_tuple. rewrite <- !app_assoc.
  rewrite 2 after_skip by (vm_compute; reflexivity). rewrite (app_assoc (lit "FixedSizePrimitive")).
  rewrite after_found by (vm_compute; reflexivity). apply list_read.
Qed.
Lemma null_values_stated p : is_integer p = true -> forall v : cC (layout (TPrim p true)),
  typed (shape_of (TPrim p true)) v ->
  listed "collection: " (debug_array (TPrim p true) v) =
    Some (map (integer p) (v_items (va_coll (v : validity (vec N))))).
Proof.
  intros P v V. unfold debug_array, listed. cbn [debug_memory debug_nulls]. destruct V as [_ V].
  rewrite (values_listed p _ P V). unfold debug_tuple, debug_struct. cbn [debug_fields]. rewrite <- !app_assoc.
  rewrite 6 after_skip by (vm_compute; reflexivity). rewrite (app_assoc (lit "collection")).
  rewrite after_found by (vm_compute; reflexivity). apply list_read.
Qed.
Lemma offsets_stated C (show : C -> text) (o : offsets C) :
  exists rest, debug_offsets show o = spelled "Offset { data: " ++ show (of_data o) ++ rest /\
  listed ", offsets: " rest = Some (v_items (of_offs o)).
Proof.
  eexists (lit ", " ++ lit "offsets" ++ lit ": " ++ debug_list number (v_items (of_offs o)) ++ lit " }").
  split; [|apply list_read].
  unfold debug_offsets, debug_struct. cbn [debug_fields]. rewrite <- !app_assoc. reflexivity.
Qed.
Lemma view_states C (v : offview C) :
  said "offset: " (debug_offset_view v) = Some (Z.of_N (ov_start v)) /\
  said ".." (debug_offset_view v) = Some (Z.of_N (ov_end v)).
Proof. unfold debug_offset_view. rewrite !digits_number. split; say. Qed.
