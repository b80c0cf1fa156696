(** * Other storage: src/collection/{slice,rc,arc,box,array}.rs, src/buffer.rs

    A layout can keep its buffers in a [Vec], a boxed slice, an array [T; N], a
    borrowed slice, or an [Rc]/[Arc] of a slice (buffer.rs:73-175). All of them
    read by [self.get(index)] and iterate by [slice::Iter] (slice.rs:13-24,
    rc.rs:16-27, arc.rs:16-27, box.rs:16-27, array.rs:13-24), as [vec_coll] does,
    so that the functions of the model that only read apply to them as they are;
    the capacity in [vec] is then meaningless. [Box<[T]>] and [T; N] are turned
    into owned items by std's iterators (box.rs:31-33, array.rs:28-30), as [Vec]
    is. Slices, [Rc] and [Arc] use narrow's [SliceIntoIter] instead, and the
    iterators of the layouts are built on top of it. The buffers of one collection
    may be of different storage: Validity<Vec<u8>, SliceBuffer> has its own values
    and a borrowed bitmap. *)
From Coq Require Import List NArith ZArith Bool Arith.
From Verif Require Import Base Iter VecModel BitmapModel CollModel ValidityModel
  FlattenModel OffsetsModel LayoutModel.
Import ListNotations.

(** The owned iterator of one collection type over shared storage. *)
Record OwnIter (K : Coll) : Type := {
  oT : Type;
  o_into : cC K -> out oT;
  o_next : oT -> out (option (cA K) * oT);
  o_hint : oT -> out hint;
}.
Arguments oT {K} o.
Arguments o_into {K} o.
Arguments o_next {K} o.
Arguments o_hint {K} o.

(** Buffers that own their items *)
Definition native_own (K : Coll) : OwnIter K := {|
  oT := cOI K; o_into := k_into K; o_next := k_onext K; o_hint := k_ohint K;
|}.

(** slice.rs:48-56 SliceIntoIter, 84-92 From *)
Record sliceinto (A : Type) : Type := SliceInto { si_slice : list A; si_index : nat }.
Arguments SliceInto {A} si_slice si_index.
Arguments si_slice {A} s.
Arguments si_index {A} s.
Definition si_new {A} (l : list A) : sliceinto A := SliceInto l 0.
(** slice.rs:63-71 next; [strict_add(1)] cannot overflow below the length *)
Definition si_next {A} (s : sliceinto A) : out (option A * sliceinto A) :=
  match nth_error (si_slice s) (si_index s) with
  | Some a => Ret (Some a, SliceInto (si_slice s) (S (si_index s)))
  | None => Ret (None, s)
  end.
(** slice.rs:73-76 size_hint *)
Definition si_hint {A} (s : sliceinto A) : out hint :=
  let? remaining := strict_sub (lenN (si_slice s)) (N.of_nat (si_index s)) in
  Ret (remaining, Some remaining).

(** slice.rs:28-30, rc.rs:31-33, arc.rs:31-33 into_iter_owned *)
Definition vec_own (A : Type) (a0 : A) (esz : N) : OwnIter (vec_coll A a0 esz) := {|
  oT := sliceinto A;
  o_into := fun v : cC (vec_coll A a0 esz) => Ret (si_new (@v_items A v));
  o_next := si_next;
  o_hint := si_hint;
|}.

(** unpacked.rs:12-77 BitUnpacked over a SliceIntoIter of bytes *)
Record sunpacked : Type :=
  SUnpacked { su_iter : sliceinto N; su_byte : option N; su_mask : N }.
Definition sunpacked_next (u : sunpacked) : out (option bool * sunpacked) :=
  let? p := (if (su_mask u =? 1)%N then si_next (su_iter u)
             else Ret (su_byte u, su_iter u)) in
  let '(byte, rest) := p in
  Ret (match byte with
       | Some b => (Some (negb (N.land b (su_mask u) =? 0)%N),
                    SUnpacked rest byte (rotate1 (su_mask u)))
       | None => (None, SUnpacked rest byte (su_mask u))
       end).
Definition sunpacked_hint (u : sunpacked) : out hint :=
  let? h := si_hint (su_iter u) in
  let? buffered :=
    (if (su_mask u =? 1)%N then Ret 0%N else strict_sub 8 (N.log2 (su_mask u))) in
  Ret (sat_add (sat_mul (fst h) 8) buffered,
       match snd h with
       | Some n => match checked_mul n 8 with
                   | Some b => checked_add b buffered
                   | None => None
                   end
       | None => None
       end).
(** core::iter::Skip / Take over it: bitmap/mod.rs:311-323 *)
Record sbititer : Type := SBitIter { sb_skip : nat; sb_take : nat; sb_un : sunpacked }.
Fixpoint sunpacked_nth (n : nat) (u : sunpacked) : out (option bool * sunpacked) :=
  match n with
  | O => sunpacked_next u
  | S n' => let? p := sunpacked_next u in
            match fst p with
            | Some _ => sunpacked_nth n' (snd p)
            | None => Ret (None, snd p)
            end
  end.
Definition sbititer_next (s : sbititer) : out (option bool * sbititer) :=
  match sb_take s with
  | O => Ret (None, s)
  | S k =>
      let? p := match sb_skip s with
                | O => sunpacked_next (sb_un s)
                | n => sunpacked_nth n (sb_un s)
                end in
      Ret (fst p, SBitIter 0 k (snd p))
  end.
Definition sbititer_hint (s : sbititer) : out hint :=
  match sb_take s with
  | O => Ret (0%N, Some 0%N)
  | k => let? h := sunpacked_hint (sb_un s) in
         let sk := N.of_nat (sb_skip s) in
         Ret (N.min (fst h - sk) (N.of_nat k),
              match snd h with
              | Some hi => Some (N.min (hi - sk) (N.of_nat k))
              | None => Some (N.of_nat k)
              end)
  end.
Definition sbm_into (b : bitmap) : sbititer :=
  SBitIter (bm_off b) (bm_bits b) (SUnpacked (si_new (v_items (bm_buf b))) None 1%N).
Definition bitmap_own : OwnIter bitmap_coll := {|
  oT := sbititer;
  o_into := fun b : cC bitmap_coll => Ret (sbm_into b);
  o_next := sbititer_next;
  o_hint := sbititer_hint;
|}.

Section Own.
  Variable K : Coll.
  Variable O : OwnIter K.

  (** validity.rs:222-258 ValidityIter, 290-302 into_iter; [B]: the owned iterator
      of the bitmap *)
  Variable B : OwnIter bitmap_coll.
  Definition svait_next (s : oT O * option (oT B))
    : out (option (option (cA K)) * (oT O * option (oT B))) :=
    let '(vals, bits) := s in
    let values valid bits' :=
      let? r := o_next O vals in
      let '(ox, vals') := r in
      Ret (match ox with
           | Some x => Some (if (valid : bool) then Some x else None)
           | None => None
           end, (vals', bits')) in
    match bits with
    | None => values true None
    | Some b =>
        let? r := o_next B b in
        match r with
        | (None, b') => Ret (None, (vals, Some b'))
        | (Some valid, b') => values valid (Some b')
        end
    end.
  Definition svait_hint (s : oT O * option (oT B)) : out hint :=
    let? h := o_hint O (fst s) in
    match snd s with
    | None => Ret h
    | Some b =>
        let? hb := o_hint B b in
        Ret (N.min (fst h) (fst hb),
             match snd h, snd hb with
             | Some x, Some y => Some (N.min x y)
             | _, _ => None
             end)
    end.
  Definition validity_own : OwnIter (validity_coll K) := {|
    oT := oT O * option (oT B);
    o_into := fun v : cC (validity_coll K) =>
      let? i := o_into O (va_coll v) in
      match va_bm v with
      | None => Ret (i, None)
      | Some b => let? j := o_into B b in Ret (i, Some j)
      end;
    o_next := svait_next;
    o_hint := svait_hint;
  |}.

  (** flatten.rs:299-324 ArrayChunks, 178-182 into_iter_owned *)
  Variable n : nat.
  Fixpoint schunk_rest (k : nat) (s : oT O) : out (list (cA K) * oT O) :=
    match k with
    | 0 => Ret ([], s)
    | S k' => let? r := o_next O s in
              let '(o, s') := r in
              let? a := expect o in
              let? r' := schunk_rest k' s' in
              Ret (a :: fst r', snd r')
    end.
  Definition schunks_next (s : oT O) : out (option (list (cA K)) * oT O) :=
    let? r := o_next O s in
    match r with
    | (None, s') => Ret (None, s')
    | (Some a, s') =>
        match n with
        | 0 => Pnc
        | S n' => let? r' := schunk_rest n' s' in
                  Ret (Some (a :: fst r'), snd r')
        end
    end.
  Definition schunks_hint (s : oT O) : out hint :=
    let? h := o_hint O s in
    let? l := exact_len h in
    let? d := strict_div l (N.of_nat n) in
    Ret (d, Some d).
  Definition flatten_own : OwnIter (flatten_coll K n) :=
    Build_OwnIter (flatten_coll K n) (oT O) (o_into O) schunks_next schunks_hint.

  (** offset.rs:578-612 OffsetIntoIter, 471-483 into_iter_owned; [V]: the owned
      iterator of the offsets. The data is read by index. *)
  Variable kd : okind.
  Variable V : OwnIter (vec_coll Z 0%Z (osz kd)).
  Record soffinto : Type := SOffInto { so_data : cC K; so_offs : oT V; so_pos : Z }.
  Definition sof_into (o : offsets (cC K)) : out soffinto :=
    let? i := o_into V (of_offs o) in
    let? p := o_next V i in
    let? position := expect (fst p) in
    Ret (SOffInto (of_data o) (snd p) position).
  Definition sof_next (s : soffinto) : out (option (list (cA K)) * soffinto) :=
    let? p := o_next V (so_offs s) in
    match fst p with
    | None => Ret (None, SOffInto (so_data s) (snd p) (so_pos s))
    | Some e =>
        let? su := as_usize (so_pos s) in
        let? eu := as_usize e in
        let? l := range_out (fun i =>
                    let? o := k_view K (so_data s) i in
                    let? x := expect o in
                    k_own K x) su (N.to_nat (eu - su)) in
        Ret (Some l, SOffInto (so_data s) (snd p) e)
    end.
  Definition sof_hint (s : soffinto) : out hint :=
    let? h := o_hint V (so_offs s) in
    let? l := exact_len h in Ret (l, Some l).
  Definition offsets_own : OwnIter (offsets_coll K kd) :=
    Build_OwnIter (offsets_coll K kd) soffinto sof_into sof_next sof_hint.
End Own.

(** The storage of each buffer: [true] for slices, [Rc] and [Arc]. *)
Fixpoint storages (s : shape) : Type :=
  match s with
  | SVec _ | SAny _ _ _ | SBits => bool
  | SNull s => storages s * bool
  | SFixed _ s => storages s
  | SList _ s => storages s * bool
  end%type.
Definition vec_own_in (shared : bool) (A : Type) (a0 : A) (esz : N) : OwnIter (vec_coll A a0 esz) :=
  if shared then vec_own A a0 esz else native_own (vec_coll A a0 esz).
Definition bitmap_own_in (shared : bool) : OwnIter bitmap_coll :=
  if shared then bitmap_own else native_own bitmap_coll.
Fixpoint own_in (s : shape) : storages s -> OwnIter (coll s) :=
  match s with
  | SVec p => fun f => vec_own_in f N 0%N (psz p)
  | SAny A a0 z => fun f => vec_own_in f A a0 (N.pos z)
  | SBits => bitmap_own_in
  | SNull s => fun f => validity_own (coll s) (own_in s (fst f)) (bitmap_own_in (snd f))
  | SFixed n s => fun f => flatten_own (coll s) (own_in s f) n
  | SList k s => fun f => offsets_own (coll s) k (vec_own_in (snd f) Z 0%Z (osz k))
  end.
(** Slices, [Rc] or [Arc] only. *)
Fixpoint all_shared (s : shape) : storages s :=
  match s with
  | SVec _ | SAny _ _ _ | SBits => true
  | SNull s => (all_shared s, true)
  | SFixed _ s => all_shared s
  | SList _ s => (all_shared s, true)
  end.
