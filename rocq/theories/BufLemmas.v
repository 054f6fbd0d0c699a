(** Facts about writing a block into a buffer ([splice], SpongeProofs2.v) and about copy
    loops inside one memory. *)
From Verif Require Import Base SpongePure SpongeProofs SpongeProofs2.
Ltac Zify.zify_post_hook ::= idtac.

Lemma zlen_splice' h off l : 0 <= off -> off + zlen l <= zlen h -> zlen (splice h off l) = zlen h.
Proof. apply zlen_splice. Qed.
Lemma nth_splice_lt h off l k d : 0 <= off <= zlen h -> Z.of_nat k < off -> nth k (splice h off l) d = nth k h d.
Proof.
  intros Ho Hk. unfold splice. rewrite app_nth1.
  - rewrite nth_slice by lia. reflexivity.
  - enough (Z.of_nat (length (slice h 0 off)) = off) by lia. change (zlen (slice h 0 off) = off). rewrite zlen_slice; lia.
Qed.
Lemma nth_splice_ge h off l k d : 0 <= off -> off + zlen l <= zlen h -> off + zlen l <= Z.of_nat k ->
  nth k (splice h off l) d = nth k h d.
Proof.
  intros Ho Hl Hk. pose proof (zlen_nonneg l). unfold splice.
  assert (L1: length (slice h 0 off) = Z.to_nat off) by (pose proof (zlen_slice h 0 off ltac:(lia) ltac:(lia) ltac:(lia)) as E; unfold zlen in E; lia).
  rewrite app_nth2 by lia. rewrite app_nth2 by (unfold zlen in *; lia). rewrite L1.
  destruct (Z.ltb_spec (Z.of_nat k) (zlen h)).
  - rewrite nth_slice by (unfold zlen in *; lia). f_equal. unfold zlen in *. lia.
  - rewrite (nth_overflow h) by (unfold zlen in *; lia). apply nth_overflow.
    pose proof (zlen_slice_le h (off + zlen l) (zlen h - off - zlen l) ltac:(lia)). unfold zlen in *. lia.
Qed.
Lemma splice_snoc h off l b : 0 <= off -> off + zlen l < zlen h -> wr (splice h off l) (off + zlen l) b = Ret (splice h off (l ++ [b])).
Proof.
  intros Ho Hl. pose proof (zlen_nonneg l). rewrite wr_splice by (rewrite zlen_splice; lia).
  rewrite splice_splice; [reflexivity|lia|change (zlen [b]) with 1; lia].
Qed.
Lemma splice_whole' h l : zlen h = zlen l -> splice h 0 l = l.
Proof. intros E. pose proof (zlen_nonneg l). unfold splice. rewrite slice_0. cbn [app]. rewrite slice_neg by lia. apply app_nil_r. Qed.
Lemma slice_splice_in h off l a n : 0 <= off -> off + zlen l <= zlen h -> off <= a -> 0 <= n -> a + n <= off + zlen l ->
  slice (splice h off l) a n = slice l (a - off) n.
Proof.
  intros Ho Hl Ha Hn Han. unfold splice.
  assert (L1: zlen (slice h 0 off) = off) by (apply zlen_slice; lia).
  rewrite slice_app_r by lia. rewrite L1. rewrite slice_app_l by lia. reflexivity.
Qed.
Lemma slice_splice_before h off l a n : 0 <= a -> 0 <= n -> a + n <= off -> off + zlen l <= zlen h ->
  slice (splice h off l) a n = slice h a n.
Proof.
  intros Ha Hn Han Hl. pose proof (zlen_nonneg l). unfold splice. rewrite slice_app_l by (rewrite ?zlen_slice; lia).
  rewrite slice_slice by lia. reflexivity.
Qed.
Lemma slice_splice_after h off l a n : 0 <= off -> 0 <= n -> off + zlen l <= a -> a + n <= zlen h ->
  slice (splice h off l) a n = slice h a n.
Proof.
  intros Ho Hn Ha Han. pose proof (zlen_nonneg l). unfold splice. rewrite app_assoc.
  assert (L1: zlen (slice h 0 off ++ l) = off + zlen l) by (rewrite zlen_app, zlen_slice; lia).
  rewrite slice_app_r by lia. rewrite L1. rewrite slice_slice by lia. f_equal; lia.
Qed.
Lemma splice_cover h off l l' : 0 <= off -> zlen l <= zlen l' -> off + zlen l' <= zlen h ->
  splice (splice h off l) off l' = splice h off l'.
Proof.
  intros Ho Hl Hh. pose proof (zlen_nonneg l). unfold splice at 1. rewrite slice_splice_before by lia.
  rewrite slice_splice_after by (rewrite ?zlen_splice; lia). rewrite zlen_splice by lia. reflexivity.
Qed.
Lemma bytes_ok_splice h off l : bytes_ok h -> bytes_ok l -> bytes_ok (splice h off l).
Proof. intros Hh Hl. unfold splice. rewrite !bytes_ok_app. repeat split; try assumption; apply bytes_ok_slice; assumption. Qed.

(** Copying upwards inside one memory: right when the destination does not start inside the source. *)
Lemma move_up_ok n : forall mem d s, 0 <= n -> 0 <= d -> 0 <= s -> d + n <= zlen mem -> s + n <= zlen mem ->
  d <= s \/ s + n <= d ->
  for_loop n (fun i mem => b <- rd 0 mem (s + i) ;; wr mem (d + i) b) mem = Ret (splice mem d (slice mem s n)).
Proof.
  intros mem d s Hn Hd Hs Hdn Hsn Hov. unfold for_loop.
  assert (G: forall k i, 0 <= i -> i + Z.of_nat k = n ->
    for_from k i (fun i mem => b <- rd 0 mem (s + i) ;; wr mem (d + i) b) (splice mem d (slice mem s i)) = Ret (splice mem d (slice mem s n))).
  { induction k as [|k IH]; intros i Hi Hk; cbn [for_from].
    - replace i with n by lia. reflexivity.
    - assert (L: zlen (slice mem s i) = i) by (apply zlen_slice; lia).
      rewrite rd_ok by (rewrite zlen_splice by lia; lia). cbn [bind].
      replace (nth (Z.to_nat (s + i)) (splice mem d (slice mem s i)) 0) with (nth (Z.to_nat (s + i)) mem 0).
      2:{ symmetry. destruct (Z.ltb_spec (s + i) d); [apply nth_splice_lt; lia|apply nth_splice_ge; lia]. }
      replace (d + i) with (d + zlen (slice mem s i)) by lia. rewrite splice_snoc by lia. cbn [bind].
      replace (slice mem s i ++ [nth (Z.to_nat (s + i)) mem 0]) with (slice mem s (i + 1)).
      + apply IH; lia.
      + rewrite slice_snoc by lia. reflexivity. }
  specialize (G (Z.to_nat n) 0 ltac:(lia) ltac:(lia)). rewrite slice_0, splice_nil in G by lia. exact G.
Qed.
(** Copying downwards: right when the destination does not end inside the source. *)
Lemma move_down_ok n : forall mem d s, 0 <= n -> 0 <= d -> 0 <= s -> d + n <= zlen mem -> s + n <= zlen mem ->
  s <= d \/ d + n <= s ->
  for_loop n (fun i mem => b <- rd 0 mem (s + (n - 1 - i)) ;; wr mem (d + (n - 1 - i)) b) mem = Ret (splice mem d (slice mem s n)).
Proof.
  intros mem d s Hn Hd Hs Hdn Hsn Hov. unfold for_loop.
  assert (G: forall k i, 0 <= i -> i + Z.of_nat k = n ->
    for_from k i (fun i mem => b <- rd 0 mem (s + (n - 1 - i)) ;; wr mem (d + (n - 1 - i)) b) (splice mem (d + n - i) (slice mem (s + n - i) i))
    = Ret (splice mem d (slice mem s n))).
  { induction k as [|k IH]; intros i Hi Hk; cbn [for_from].
    - replace (d + n - i) with d by lia. replace (s + n - i) with s by lia. replace i with n by lia. reflexivity.
    - assert (L: zlen (slice mem (s + n - i) i) = i) by (apply zlen_slice; lia).
      rewrite rd_ok by (rewrite zlen_splice by lia; lia). cbn [bind].
      replace (nth (Z.to_nat (s + (n - 1 - i))) (splice mem (d + n - i) (slice mem (s + n - i) i)) 0) with (nth (Z.to_nat (s + (n - 1 - i))) mem 0).
      2:{ symmetry. destruct (Z.ltb_spec (s + (n - 1 - i)) (d + n - i)); [apply nth_splice_lt; lia|apply nth_splice_ge; lia]. }
      rewrite wr_splice by (rewrite zlen_splice by lia; lia). cbn [bind].
      replace (splice (splice mem (d + n - i) (slice mem (s + n - i) i)) (d + (n - 1 - i)) [nth (Z.to_nat (s + (n - 1 - i))) mem 0])
        with (splice mem (d + n - (i + 1)) (slice mem (s + n - (i + 1)) (i + 1))).
      + apply IH; lia.
      + replace (d + (n - 1 - i)) with (d + n - (i + 1)) by lia. replace (s + (n - 1 - i)) with (s + n - (i + 1)) by lia.
        set (x := nth (Z.to_nat (s + n - (i + 1))) mem 0).
        assert (E: slice mem (s + n - (i + 1)) (i + 1) = x :: slice mem (s + n - i) i).
        { unfold x. rewrite slice_cons by lia. f_equal. f_equal; lia. }
        rewrite E. unfold splice at 1 2. change (zlen [x]) with 1. rewrite zlen_cons, L.
        rewrite zlen_splice by lia. rewrite slice_splice_before by lia. f_equal. cbn [app]. f_equal.
        rewrite (slice_split (splice mem (d + n - i) (slice mem (s + n - i) i)) _ _ i) by lia.
        replace (d + n - (i + 1) + 1) with (d + n - i) by lia. f_equal.
        * rewrite slice_splice_in by lia. replace (d + n - i - (d + n - i)) with 0 by lia. symmetry. apply slice_all. lia.
        * rewrite slice_splice_after by lia. f_equal; lia. }
  specialize (G (Z.to_nat n) 0 ltac:(lia) ltac:(lia)). rewrite !Z.sub_0_r, slice_0, splice_nil in G by lia. exact G.
Qed.
