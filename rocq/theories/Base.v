(** Base: how C values, buffers and undefined behaviour are represented.

    Nothing in this file models a particular function of the repository; it is
    the vocabulary the models of the C files are written in. *)
From Coq Require Export ZArith List Lia Bool.
From Coq Require Export ZifyBool ZifyNat.
Export ListNotations.
Global Open Scope Z_scope.
Global Set Default Goal Selector "1".

(** ** Outcomes: [Undef] stands for C undefined behaviour (out-of-bounds access,
    signed overflow); it is distinct from every normal result. *)
Inductive outcome (A : Type) : Type :=
| Ret (a : A)
| Undef.
Arguments Ret {A} a.
Arguments Undef {A}.

Definition bind {A B} (x : outcome A) (k : A -> outcome B) : outcome B :=
  match x with Ret a => k a | Undef => Undef end.

Notation "x <- e ;; k" := (bind e (fun x => k))
  (at level 61, e at next level, right associativity).
Notation "' p <- e ;; k" := (bind e (fun p => k))
  (at level 61, p pattern, e at next level, right associativity).

(** ** Bytes and buffers *)
Definition byte_ok (b : Z) : Prop := 0 <= b < 256.
Definition bytes_ok (l : list Z) : Prop := Forall byte_ok l.

(** Length of a buffer, as a C-sized quantity. *)
Definition zlen {A} (l : list A) : Z := Z.of_nat (length l).

(** A nullable pointer to a byte buffer: [None] is NULL. *)
Definition ptr := option (list Z).

(** [n] bytes of [l] starting at offset [off]. *)
Definition slice {A} (l : list A) (off n : Z) : list A :=
  firstn (Z.to_nat n) (skipn (Z.to_nat off) l).

(** An array of [n] bytes initialised with [= { 0 }]. *)
Definition zeros (n : Z) : list Z := repeat 0 (Z.to_nat n).

(** C read [buf[i]]. *)
Definition rd {A} (d : A) (buf : list A) (i : Z) : outcome A :=
  if (0 <=? i) && (i <? zlen buf) then Ret (nth (Z.to_nat i) buf d) else Undef.

(** Replace element [i] of a list (no effect outside). *)
Fixpoint upd {A} (l : list A) (i : nat) (v : A) : list A :=
  match l, i with
  | [], _ => []
  | _ :: l', O => v :: l'
  | x :: l', S i' => x :: upd l' i' v
  end.

(** C write [buf[i] = v]. *)
Definition wr {A} (buf : list A) (i : Z) (v : A) : outcome (list A) :=
  if (0 <=? i) && (i <? zlen buf) then Ret (upd buf (Z.to_nat i) v) else Undef.

(** The C loop [for (i = 0; i < n; i++) dst[doff + i] = src[soff + i];] on two
    arrays that do not overlap.  [copy_is_loop] below shows that it is the loop. *)
Definition copy (dst : list Z) (doff : Z) (src : list Z) (soff n : Z)
  : outcome (list Z) :=
  if n <=? 0 then Ret dst
  else if (0 <=? doff) && (doff + n <=? zlen dst)
          && (0 <=? soff) && (soff + n <=? zlen src)
  then Ret (slice dst 0 doff ++ slice src soff n ++ slice dst (doff + n) (zlen dst - doff - n))
  else Undef.

(** Read [n] bytes starting at [off] (what a callee reads from a pointer). *)
Definition rdrange (src : list Z) (off n : Z) : outcome (list Z) :=
  if n <=? 0 then Ret []
  else if (0 <=? off) && (off + n <=? zlen src) then Ret (slice src off n) else Undef.

(** [for (i = 0; i < n; i++)] with body [f i], threading a state. *)
Fixpoint for_from {S} (n : nat) (i : Z) (f : Z -> S -> outcome S) (s : S) : outcome S :=
  match n with
  | O => Ret s
  | Datatypes.S n' => s' <- f i s ;; for_from n' (i + 1) f s'
  end.
Definition for_loop {S} (n : Z) (f : Z -> S -> outcome S) (s : S) : outcome S :=
  for_from (Z.to_nat n) 0 f s.

(** ** Fixed-width conversions *)
Definition u8 (x : Z) : Z := x mod 2 ^ 8.
Definition u16 (x : Z) : Z := x mod 2 ^ 16.
Definition u32 (x : Z) : Z := x mod 2 ^ 32.
Definition u64 (x : Z) : Z := x mod 2 ^ 64.
(** Conversion to [int] / [int32_t] as done by every mainstream compiler
    (implementation-defined in ISO C): reduce modulo 2^32 into the signed range. *)
Definition i32 (x : Z) : Z := (x + 2 ^ 31) mod 2 ^ 32 - 2 ^ 31.
Definition i64 (x : Z) : Z := (x + 2 ^ 63) mod 2 ^ 64 - 2 ^ 63.

(** ** Facts *)
Lemma zlen_nonneg {A} (l : list A) : 0 <= zlen l.
Proof. unfold zlen; lia. Qed.
Lemma zlen_nil {A} : zlen (@nil A) = 0. Proof. reflexivity. Qed.
Lemma zlen_cons {A} (x : A) l : zlen (x :: l) = 1 + zlen l.
Proof. unfold zlen; cbn [length]; lia. Qed.
Lemma zlen_app {A} (a b : list A) : zlen (a ++ b) = zlen a + zlen b.
Proof. unfold zlen; rewrite app_length; lia. Qed.
Lemma zlen_zeros n : 0 <= n -> zlen (zeros n) = n.
Proof. intros; unfold zlen, zeros; rewrite repeat_length; lia. Qed.
Lemma zlen_zeros_max n : zlen (zeros n) = Z.max 0 n.
Proof. unfold zlen, zeros; rewrite repeat_length; lia. Qed.
Lemma zlen_map {A B} (f : A -> B) l : zlen (map f l) = zlen l.
Proof. unfold zlen; now rewrite map_length. Qed.
Lemma zlen_firstn {A} n (l : list A) : zlen (firstn n l) = Z.min (Z.of_nat n) (zlen l).
Proof. unfold zlen; rewrite firstn_length; lia. Qed.
Lemma zlen_skipn {A} n (l : list A) : zlen (skipn n l) = Z.max 0 (zlen l - Z.of_nat n).
Proof. unfold zlen; rewrite skipn_length; lia. Qed.
Lemma zlen_slice {A} (l : list A) off n :
  0 <= off -> 0 <= n -> off + n <= zlen l -> zlen (slice l off n) = n.
Proof. intros; unfold slice; rewrite zlen_firstn, zlen_skipn; lia. Qed.
Lemma zlen_slice_le {A} (l : list A) off n : 0 <= n -> zlen (slice l off n) <= n.
Proof. intros; unfold slice; rewrite zlen_firstn, zlen_skipn; lia. Qed.
Lemma zlen_0_nil {A} (l : list A) : zlen l = 0 -> l = [].
Proof. destruct l; [reflexivity|]; rewrite zlen_cons; pose proof (zlen_nonneg l); lia. Qed.
Lemma length_zlen {A} (l : list A) : length l = Z.to_nat (zlen l).
Proof. unfold zlen; lia. Qed.
Lemma upd_length {A} (l : list A) i v : length (upd l i v) = length l.
Proof. revert i; induction l as [|x l IH]; intros [|i]; cbn; auto. Qed.
Lemma zlen_upd {A} (l : list A) i v : zlen (upd l i v) = zlen l.
Proof. unfold zlen; now rewrite upd_length. Qed.

Lemma nth_upd {A} (l : list A) i j v d :
  nth j (upd l i v) d = if (Nat.eqb i j && Nat.ltb i (length l))%bool then v else nth j l d.
Proof.
  revert i j; induction l as [|x l IH]; intros [|i] [|j]; cbn [upd nth length]; try reflexivity.
  - rewrite andb_false_r; reflexivity.
  - rewrite IH; cbn [Nat.eqb]. change (Nat.ltb (S i) (S (length l))) with (Nat.ltb i (length l)).
    reflexivity.
Qed.

Lemma slice_app_l {A} (a b : list A) off n :
  0 <= off -> 0 <= n -> off + n <= zlen a -> slice (a ++ b) off n = slice a off n.
Proof.
  intros; unfold slice, zlen in *. rewrite skipn_app, firstn_app, skipn_length.
  replace (Z.to_nat off - length a)%nat with 0%nat by lia.
  replace (Z.to_nat n - (length a - Z.to_nat off))%nat with 0%nat by lia.
  cbn [firstn]. now rewrite app_nil_r.
Qed.
Lemma slice_app_r {A} (a b : list A) off n :
  zlen a <= off -> 0 <= n -> slice (a ++ b) off n = slice b (off - zlen a) n.
Proof.
  intros; unfold slice, zlen in *. rewrite skipn_app.
  rewrite skipn_all2 by lia. cbn [app]. f_equal. f_equal. lia.
Qed.
Lemma slice_all {A} (l : list A) n : n = zlen l -> slice l 0 n = l.
Proof. intros ->; unfold slice, zlen; rewrite skipn_O, firstn_all2 by lia; reflexivity. Qed.
Lemma slice_0 {A} (l : list A) off : slice l off 0 = [].
Proof. reflexivity. Qed.
Lemma slice_neg {A} (l : list A) off n : n <= 0 -> slice l off n = [].
Proof. intros; unfold slice; replace (Z.to_nat n) with 0%nat by lia; reflexivity. Qed.
Lemma skipn_skipn' {A} (l : list A) : forall a b : nat, skipn a (skipn b l) = skipn (b + a) l.
Proof. intros a b; revert l; induction b as [|b IH]; intros [|x l]; cbn; auto; destruct a; reflexivity. Qed.
Lemma slice_slice {A} (l : list A) a n b k :
  0 <= a -> 0 <= b -> 0 <= k -> b + k <= n -> slice (slice l a n) b k = slice l (a + b) k.
Proof.
  intros; unfold slice.
  rewrite skipn_firstn_comm, firstn_firstn, skipn_skipn'.
  rewrite <- Z2Nat.inj_add by lia. f_equal. lia.
Qed.
Lemma slice_split {A} (l : list A) off n k :
  0 <= off -> 0 <= k <= n -> slice l off n = slice l off k ++ slice l (off + k) (n - k).
Proof.
  intros Ho Hk. unfold slice.
  replace (Z.to_nat (off + k)) with (Z.to_nat off + Z.to_nat k)%nat by lia.
  rewrite <- skipn_skipn'.
  set (l' := skipn (Z.to_nat off) l).
  rewrite <- (firstn_skipn (Z.to_nat k) (firstn (Z.to_nat n) l')) at 1.
  rewrite firstn_firstn, skipn_firstn_comm. f_equal; f_equal; lia.
Qed.
Lemma slice_whole_split {A} (l : list A) k :
  0 <= k <= zlen l -> l = slice l 0 k ++ slice l k (zlen l - k).
Proof.
  intros. rewrite <- (slice_all l (zlen l)) at 1 by reflexivity.
  rewrite (slice_split l 0 (zlen l) k) by lia. reflexivity.
Qed.
Lemma nth_slice {A} (l : list A) off n i d :
  0 <= off -> 0 <= n -> (i < Z.to_nat n)%nat -> nth i (slice l off n) d = nth (Z.to_nat off + i) l d.
Proof.
  intros Ho Hn Hi; unfold slice. rewrite <- (firstn_skipn (Z.to_nat n) (skipn (Z.to_nat off) l)) at 1.
  destruct (Nat.lt_ge_cases i (length (firstn (Z.to_nat n) (skipn (Z.to_nat off) l)))) as [Hlt|Hge].
  - rewrite firstn_skipn.
    assert (E: nth (Z.to_nat off + i) l d = nth i (skipn (Z.to_nat off) l) d).
    { rewrite <- (firstn_skipn (Z.to_nat off) l) at 1.
      destruct (Nat.le_gt_cases (length l) (Z.to_nat off)) as [Hle|Hgt].
      - rewrite skipn_all2 by lia. rewrite app_nil_r. rewrite !nth_overflow; auto. cbn; lia.
        rewrite firstn_length; lia.
      - rewrite app_nth2; rewrite firstn_length; [f_equal; lia|lia]. }
    rewrite E. symmetry.
    rewrite <- (firstn_skipn (Z.to_nat n) (skipn (Z.to_nat off) l)) at 1.
    apply app_nth1; exact Hlt.
  - rewrite firstn_skipn. rewrite nth_overflow by lia. rewrite nth_overflow; [reflexivity|].
    rewrite firstn_length, skipn_length in Hge. lia.
Qed.

Lemma bytes_ok_app a b : bytes_ok (a ++ b) <-> bytes_ok a /\ bytes_ok b.
Proof. unfold bytes_ok; apply Forall_app. Qed.
Lemma Forall_firstn' {A} (P : A -> Prop) n l : Forall P l -> Forall P (firstn n l).
Proof. intros H; revert n; induction H; intros [|n]; cbn; constructor; auto. Qed.
Lemma Forall_skipn' {A} (P : A -> Prop) n l : Forall P l -> Forall P (skipn n l).
Proof. intros H; revert n; induction H; intros [|n]; cbn; auto. Qed.
Lemma bytes_ok_slice l off n : bytes_ok l -> bytes_ok (slice l off n).
Proof. intros; unfold slice; apply Forall_firstn', Forall_skipn'; assumption. Qed.
Lemma bytes_ok_zeros n : bytes_ok (zeros n).
Proof. unfold zeros, bytes_ok; apply Forall_forall; intros x Hx; apply repeat_spec in Hx; subst; unfold byte_ok; lia. Qed.
Lemma bytes_ok_nth l i : bytes_ok l -> byte_ok (nth i l 0).
Proof.
  intros H. destruct (Nat.lt_ge_cases i (length l)) as [Hl|Hg].
  - eapply Forall_forall in H; [exact H|]. apply nth_In; exact Hl.
  - rewrite nth_overflow by lia. unfold byte_ok; lia.
Qed.

(** *** [rd], [wr], [copy], [rdrange] inside the bounds *)
Lemma rd_ok {A} (d : A) buf i : 0 <= i < zlen buf -> rd d buf i = Ret (nth (Z.to_nat i) buf d).
Proof. intros; unfold rd. destruct (Z.leb_spec 0 i); destruct (Z.ltb_spec i (zlen buf)); cbn; try reflexivity; lia. Qed.
Lemma wr_ok {A} (buf : list A) i v : 0 <= i < zlen buf -> wr buf i v = Ret (upd buf (Z.to_nat i) v).
Proof. intros; unfold wr. destruct (Z.leb_spec 0 i); destruct (Z.ltb_spec i (zlen buf)); cbn; try reflexivity; lia. Qed.
Lemma rdrange_ok src off n :
  0 <= n -> 0 <= off -> off + n <= zlen src -> rdrange src off n = Ret (slice src off n).
Proof.
  intros; unfold rdrange. destruct (Z.leb_spec n 0).
  - rewrite slice_neg by lia; reflexivity.
  - destruct (Z.leb_spec 0 off); destruct (Z.leb_spec (off+n) (zlen src)); cbn; try reflexivity; lia.
Qed.
Lemma copy_ok dst doff src soff n :
  0 <= n -> 0 <= doff -> doff + n <= zlen dst -> 0 <= soff -> soff + n <= zlen src ->
  copy dst doff src soff n =
  Ret (slice dst 0 doff ++ slice src soff n ++ slice dst (doff + n) (zlen dst - doff - n)).
Proof.
  intros; unfold copy. destruct (Z.leb_spec n 0).
  - assert (n = 0) as -> by lia. rewrite slice_0; cbn [app]. f_equal.
    replace (doff + 0) with doff by lia. replace (zlen dst - doff - 0) with (zlen dst - doff) by lia.
    apply slice_whole_split; lia.
  - destruct (Z.leb_spec 0 doff); destruct (Z.leb_spec (doff+n) (zlen dst));
    destruct (Z.leb_spec 0 soff); destruct (Z.leb_spec (soff+n) (zlen src)); cbn; try reflexivity; lia.
Qed.
(** Copying over a whole (e.g. freshly zeroed) local array. *)
Lemma copy_fill dst src soff n :
  0 <= n -> n = zlen dst -> 0 <= soff -> soff + n <= zlen src ->
  copy dst 0 src soff n = Ret (slice src soff n).
Proof.
  intros Hn Hd Hs Hb. rewrite copy_ok by lia.
  rewrite slice_0, slice_neg with (n := zlen dst - 0 - n) by lia.
  rewrite app_nil_r; reflexivity.
Qed.
(** Copying just behind an already written prefix. *)
Lemma copy_next p r src soff n :
  0 <= n -> n <= zlen r -> 0 <= soff -> soff + n <= zlen src ->
  copy (p ++ r) (zlen p) src soff n = Ret ((p ++ slice src soff n) ++ slice r n (zlen r - n)).
Proof.
  intros Hn Hr Hs Hb. pose proof (zlen_nonneg p). rewrite copy_ok; rewrite ?zlen_app; try lia.
  rewrite slice_app_l, slice_all by lia.
  rewrite slice_app_r by lia. rewrite <- app_assoc.
  replace (zlen p + n - zlen p) with n by lia.
  replace (zlen p + zlen r - zlen p - n) with (zlen r - n) by lia. reflexivity.
Qed.

Lemma upd_app_r {A} (p r : list A) v x : upd (p ++ x :: r) (length p) v = p ++ v :: r.
Proof. induction p as [|y p IH]; cbn; [reflexivity|]; now rewrite IH. Qed.

(** The literal byte-copy loop. *)
Definition copy_loop dst doff src soff n : outcome (list Z) :=
  for_loop n (fun i d => b <- rd 0 src (soff + i) ;; wr d (doff + i) b) dst.

Lemma slice_snoc (l : list Z) off n :
  0 <= off -> 0 <= n -> off + n < zlen l ->
  slice l off (n + 1) = slice l off n ++ [nth (Z.to_nat (off + n)) l 0].
Proof.
  intros. rewrite (slice_split l off (n+1) n) by lia. f_equal.
  replace (n + 1 - n) with 1 by lia.
  pose proof (zlen_slice l (off+n) 1 ltac:(lia) ltac:(lia) ltac:(lia)) as L.
  pose proof (nth_slice l (off+n) 1 0 0 ltac:(lia) ltac:(lia) ltac:(lia)) as N.
  destruct (slice l (off+n) 1) as [|x [|y t]].
  - rewrite zlen_nil in L; lia.
  - cbn in N. f_equal. rewrite N. f_equal; lia.
  - rewrite !zlen_cons in L; pose proof (zlen_nonneg t); lia.
Qed.
Lemma slice_cons (l : list Z) off n :
  0 <= off -> 0 < n -> off + n <= zlen l ->
  slice l off n = nth (Z.to_nat off) l 0 :: slice l (off + 1) (n - 1).
Proof.
  intros. rewrite (slice_split l off n 1) by lia.
  change 1 with (0 + 1) at 1. rewrite slice_snoc by lia. cbn [slice app].
  rewrite slice_0. cbn [app]. do 2 f_equal; lia.
Qed.

Lemma upd_at (l : list Z) i v : 0 <= i < zlen l ->
  upd l (Z.to_nat i) v = slice l 0 i ++ v :: slice l (i + 1) (zlen l - i - 1).
Proof.
  intros Hi. rewrite (slice_whole_split l i) at 1 by lia.
  rewrite (slice_cons l i) by lia.
  pose proof (upd_app_r (slice l 0 i) (slice l (i + 1) (zlen l - i - 1)) v (nth (Z.to_nat i) l 0)) as E.
  rewrite length_zlen, zlen_slice in E by lia. exact E.
Qed.

Lemma copy_loop_from (dst : list Z) doff (src : list Z) soff : forall (k : nat) i,
  0 <= i -> 0 <= doff -> 0 <= soff -> doff + i + Z.of_nat k <= zlen dst -> soff + i + Z.of_nat k <= zlen src ->
  forall dcur, zlen dcur = zlen dst ->
  for_from k i (fun i d => b <- rd 0 src (soff + i) ;; wr d (doff + i) b) dcur
  = Ret (slice dcur 0 (doff + i) ++ slice src (soff + i) (Z.of_nat k)
         ++ slice dcur (doff + i + Z.of_nat k) (zlen dst - doff - i - Z.of_nat k)).
Proof.
  induction k as [|k IH]; intros i Hi Hd Hs Hbd Hbs dcur Hl; cbn [for_from].
  - rewrite slice_neg with (n := Z.of_nat 0) by lia. cbn [app].
    replace (doff + i + Z.of_nat 0) with (doff + i) by lia.
    replace (zlen dst - doff - i - Z.of_nat 0) with (zlen dcur - (doff + i)) by lia.
    f_equal. apply slice_whole_split. lia.
  - rewrite rd_ok by lia. cbn [bind]. rewrite wr_ok by lia. cbn [bind].
    rewrite IH; [|lia..|rewrite zlen_upd; lia].
    f_equal.
    set (v := nth (Z.to_nat (soff + i)) src 0).
    rewrite (upd_at dcur (doff + i) v) by lia.
    set (p := slice dcur 0 (doff + i)).
    assert (Hp: zlen p = doff + i) by (unfold p; rewrite zlen_slice; lia).
    set (r := slice dcur (doff + i + 1) (zlen dcur - (doff + i) - 1)).
    assert (E1: slice (p ++ v :: r) 0 (doff + (i + 1)) = p ++ [v]).
    { change (p ++ v :: r) with (p ++ [v] ++ r). rewrite app_assoc, slice_app_l, slice_all;
        rewrite ?zlen_app, ?zlen_cons, ?(@zlen_nil Z); try lia; reflexivity. }
    assert (E2: forall o n, doff + i < o -> 0 <= n -> o + n <= zlen dcur ->
               slice (p ++ v :: r) o n = slice dcur o n).
    { intros o n Ho Hn Hon. change (p ++ v :: r) with (p ++ [v] ++ r).
      rewrite app_assoc, slice_app_r; rewrite ?zlen_app, ?zlen_cons, ?(@zlen_nil Z); try lia.
      unfold r. rewrite slice_slice by lia. f_equal; lia. }
    rewrite E1, E2 by lia.
    rewrite (slice_cons src (soff + i) (Z.of_nat (S k))) by lia.
    fold v. rewrite <- app_assoc. cbn [app].
    replace (soff + i + 1) with (soff + (i + 1)) by lia.
    replace (Z.of_nat (S k) - 1) with (Z.of_nat k) by lia.
    replace (doff + i + Z.of_nat (S k)) with (doff + (i + 1) + Z.of_nat k) by lia.
    replace (zlen dst - doff - i - Z.of_nat (S k)) with (zlen dst - doff - (i + 1) - Z.of_nat k) by lia.
    reflexivity.
Qed.

Lemma copy_is_loop dst doff src soff n :
  0 <= doff -> 0 <= soff -> doff + n <= zlen dst -> soff + n <= zlen src ->
  copy dst doff src soff n = copy_loop dst doff src soff n.
Proof.
  intros. unfold copy_loop, for_loop. destruct (Z.leb_spec n 0).
  - unfold copy. replace (n <=? 0) with true by lia. replace (Z.to_nat n) with 0%nat by lia. reflexivity.
  - rewrite (copy_loop_from dst) by lia. rewrite copy_ok by lia.
    rewrite !Z.add_0_r. rewrite Z2Nat.id by lia. rewrite Z.sub_0_r. reflexivity.
Qed.

Arguments slice : simpl never.
Arguments zeros : simpl never.
Arguments zlen : simpl never.
Arguments copy : simpl never.
Arguments rd : simpl never.
Arguments wr : simpl never.

Lemma bytes_ok_upd l i v : bytes_ok l -> byte_ok v -> bytes_ok (upd l i v).
Proof.
  unfold bytes_ok. intros Hl Hv. revert i. induction Hl as [|x l Hx Hl IH]; intros [|i]; cbn [upd]; constructor; auto.
Qed.
