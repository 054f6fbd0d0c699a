(** Proofs about HybridBuf.v: each function equals the one on separate arrays (Hybrid.v) whenever the
    copy loops between caller buffers do not read what they or earlier steps have overwritten. *)
From Coq Require Import ZifyBool ZifyNat.
From Verif Require Import Base SpongeProofs2 BufLemmas Hybrid HybridBuf.
Local Open Scope Z_scope.
Ltac Zify.zify_post_hook ::= idtac.

Ltac consts := unfold MIN_MSG_LEN, MAX_MSG_LEN, LEN_BYTES, SEED_LENGTH_ED25519,
  CRYPTO_ED25519_PUBLICKEY_BYTES, CRYPTO_ED25519_SECRETKEY_BYTES, CRYPTO_ED25519_SIGNATURE_BYTES,
  SEED_LENGTH_DILITHIUM, CRYPTO_DILITHIUM_PUBLICKEY_BYTES, CRYPTO_DILITHIUM_SECRETKEY_BYTES,
  CRYPTO_DILITHIUM_SIGNATURE_BYTES, SEED_LENGTH_SPHINCS, CRYPTO_SPHINCS_PUBLICKEY_BYTES,
  CRYPTO_SPHINCS_SECRETKEY_BYTES, CRYPTO_SPHINCS_SIGNATURE_BYTES, NONCE_BYTES, HASH_LENGTH,
  DILITHIUM_ED25519_SPHINCS_COMPACT_ID, DILITHIUM_ED25519_SPHINCS_FULL_ID.

Lemma Ret_inj {A} (x y : A) : Ret x = Ret y -> x = y. Proof. congruence. Qed.
Lemma copy_sub dst d mem k S s n : 0 <= k -> 0 <= S -> k + S <= zlen mem -> 0 <= s -> s + n <= S ->
  copy dst d (slice mem k S) s n = copy dst d mem (k + s) n.
Proof.
  intros H1 HS H2 H3 H4. unfold copy. destruct (Z.leb_spec n 0) as [|Hn]; [reflexivity|].
  rewrite zlen_slice by lia. rewrite slice_slice by lia.
  replace ((0 <=? d) && (d + n <=? zlen dst) && (0 <=? k + s) && (k + s + n <=? zlen mem))
    with ((0 <=? d) && (d + n <=? zlen dst) && (0 <=? s) && (s + n <=? S)) by lia. reflexivity.
Qed.
Lemma rd_sub mem k S i : 0 <= k -> k + S <= zlen mem -> 0 <= i < S -> rd 0 (slice mem k S) i = rd 0 mem (k + i).
Proof.
  intros H1 H2 H3. rewrite !rd_ok by (rewrite ?zlen_slice; lia). f_equal. rewrite nth_slice by lia. f_equal. lia.
Qed.
Lemma rdrange_sub mem k n : 0 < n -> 0 <= k -> k + n <= zlen mem -> rdrange (slice mem k n) 0 n = rdrange mem k n.
Proof. intros H0 H1 H2. rewrite !rdrange_ok by (rewrite ?zlen_slice; lia). now rewrite slice_all by (rewrite zlen_slice; lia). Qed.
Lemma put_len n x y : 0 <= n -> put (zeros n) x = Ret y -> zlen y = n.
Proof.
  intros Hn. unfold put, copy. destruct (Z.leb_spec (zlen x) 0); [intros E; injection E as <-; apply zlen_zeros; lia|].
  rewrite zlen_zeros by lia. destruct ((0 <=? 0) && (0 + zlen x <=? n) && (0 <=? 0) && (0 + zlen x <=? zlen x)) eqn:E0; [|discriminate].
  intros E. injection E as <-. rewrite !zlen_app, !zlen_slice; rewrite ?zlen_zeros; lia.
Qed.
Lemma copy_len dst d src s n y : copy dst d src s n = Ret y -> zlen y = zlen dst.
Proof.
  unfold copy. destruct (Z.leb_spec n 0); [intros E; injection E as <-; reflexivity|].
  destruct ((0 <=? d) && (d + n <=? zlen dst) && (0 <=? s) && (s + n <=? zlen src)) eqn:E0; [|discriminate].
  intros E. injection E as <-. rewrite !zlen_app, !zlen_slice; lia.
Qed.
(** a write at the end of what has been written *)
Lemma copy_snoc h off l src s n k : 0 <= off -> k = off + zlen l -> 0 <= n -> off + zlen l + n <= zlen h -> 0 <= s -> s + n <= zlen src ->
  copy (splice h off l) k src s n = Ret (splice h off (l ++ slice src s n)).
Proof.
  intros H1 -> H2 H3 H4 H5. pose proof (zlen_nonneg l). rewrite copy_splice by (rewrite ?zlen_splice; lia). rewrite splice_splice by (rewrite ?zlen_slice; lia). reflexivity.
Qed.
Lemma wr_snoc h off l k b : 0 <= off -> k = off + zlen l -> off + zlen l < zlen h -> wr (splice h off l) k b = Ret (splice h off (l ++ [b])).
Proof. intros H1 -> H2. apply splice_snoc; lia. Qed.
(** writing into a part of the memory *)
Lemma splice_part mem off S d l : 0 <= off -> 0 <= S -> off + S <= zlen mem -> 0 <= d -> d + zlen l <= S ->
  splice mem off (splice (slice mem off S) d l) = splice mem (off + d) l.
Proof.
  intros H1 H2 H3 H4 H5. pose proof (zlen_nonneg l). assert (LS: zlen (slice mem off S) = S) by (apply zlen_slice; lia).
  unfold splice at 1. rewrite zlen_splice by lia. rewrite LS. unfold splice. rewrite LS.
  rewrite (slice_split mem 0 (off + d) off) by lia. rewrite !slice_slice by lia. rewrite <- !app_assoc. f_equal. replace (0 + off) with off by lia. replace (off + d - off) with d by lia.
  rewrite Z.add_0_r. f_equal. f_equal. replace (off + d + zlen l) with (off + (d + zlen l)) by lia.
  replace (off + S) with (off + (d + zlen l) + (S - d - zlen l)) by lia.
  rewrite (slice_split mem (off + (d + zlen l)) (zlen mem - (off + d) - zlen l) (S - d - zlen l)) by lia. f_equal. f_equal; lia.
Qed.
Lemma splice_self mem off S : 0 <= off -> 0 <= S -> off + S <= zlen mem -> splice mem off (slice mem off S) = mem.
Proof.
  intros H1 H2 H3. unfold splice. rewrite zlen_slice by lia. transitivity (slice mem 0 off ++ slice mem off (zlen mem - off)); [|symmetry; apply slice_whole_split; lia]. f_equal.
  rewrite (slice_split mem off (zlen mem - off) S) by lia. reflexivity.
Qed.

Ltac zl := rewrite ?zlen_app, ?zlen_cons, ?(@zlen_nil Z); repeat (rewrite zlen_slice by (rewrite ?zlen_app, ?zlen_cons, ?(@zlen_nil Z); lia)); lia.
Ltac same e := let E := fresh "E" in destruct e eqn:E; cbn [bind]; [|reflexivity].

(** ** Two disjoint arrays in one memory *)
Lemma nth_splice_in h off l k d : 0 <= off -> off + zlen l <= zlen h -> off <= Z.of_nat k < off + zlen l -> nth k (splice h off l) d = nth (Z.to_nat (Z.of_nat k - off)) l d.
Proof.
  intros Ho Hl Hk. pose proof (zlen_nonneg l). unfold splice.
  assert (L1: length (slice h 0 off) = Z.to_nat off) by (pose proof (zlen_slice h 0 off ltac:(lia) ltac:(lia) ltac:(lia)) as E; unfold zlen in E; lia).
  rewrite app_nth2 by lia. rewrite app_nth1 by (unfold zlen in *; lia). f_equal. lia.
Qed.
Lemma splice_comm h a x b y : 0 <= a -> a + zlen x <= zlen h -> 0 <= b -> b + zlen y <= zlen h -> a + zlen x <= b \/ b + zlen y <= a ->
  splice (splice h a x) b y = splice (splice h b y) a x.
Proof.
  intros Ha Hx Hb Hy D. pose proof (zlen_nonneg x). pose proof (zlen_nonneg y).
  assert (Lx: zlen (splice h a x) = zlen h) by (apply zlen_splice; lia). assert (Ly: zlen (splice h b y) = zlen h) by (apply zlen_splice; lia).
  apply (nth_ext _ _ 0 0).
  - assert (zlen (splice (splice h a x) b y) = zlen (splice (splice h b y) a x)) by (rewrite !zlen_splice by lia; lia). unfold zlen in *. lia.
  - intros n Hn. assert (Z.of_nat n < zlen h) by (assert (E: zlen (splice (splice h a x) b y) = zlen h) by (rewrite zlen_splice by lia; lia); unfold zlen in *; lia).
    destruct (Z.ltb_spec (Z.of_nat n) b); [rewrite (nth_splice_lt _ b) by lia|destruct (Z.ltb_spec (Z.of_nat n) (b + zlen y)); [rewrite (nth_splice_in _ b) by lia|rewrite (nth_splice_ge _ b) by lia]];
    (destruct (Z.ltb_spec (Z.of_nat n) a); [rewrite ?(nth_splice_lt _ a) by lia|destruct (Z.ltb_spec (Z.of_nat n) (a + zlen x)); [rewrite ?(nth_splice_in _ a) by lia|rewrite ?(nth_splice_ge _ a) by lia]]);
    rewrite ?(nth_splice_in h b), ?(nth_splice_lt h b), ?(nth_splice_ge h b) by lia; try reflexivity; lia.
Qed.
Lemma copy_in h off x d src s n : 0 <= off -> off + zlen x <= zlen h -> 0 <= d -> 0 <= n -> d + n <= zlen x -> 0 <= s -> s + n <= zlen src ->
  copy (splice h off x) (off + d) src s n = Ret (splice h off (splice x d (slice src s n))).
Proof.
  intros H1 H2 H3 Hn H4 H5 H6. rewrite copy_splice by (rewrite ?zlen_splice; lia). f_equal.
  assert (E: slice (splice h off x) off (zlen x) = x) by (apply slice_splice; lia).
  rewrite <- (splice_part (splice h off x) off (zlen x) d (slice src s n)) by (rewrite ?zlen_splice, ?zlen_slice; lia). rewrite E.
  rewrite splice_cover; [reflexivity|lia|rewrite zlen_splice; rewrite ?zlen_slice; lia|rewrite zlen_splice; rewrite ?zlen_slice; lia].
Qed.
Lemma copy_in2 h a x b y d src s n : 0 <= a -> a + zlen x <= zlen h -> 0 <= b -> b + zlen y <= zlen h -> a + zlen x <= b \/ b + zlen y <= a ->
  0 <= d -> 0 <= n -> d + n <= zlen x -> 0 <= s -> s + n <= zlen src ->
  copy (splice (splice h a x) b y) (a + d) src s n = Ret (splice (splice h a (splice x d (slice src s n))) b y).
Proof.
  intros. pose proof (zlen_nonneg x). pose proof (zlen_nonneg y).
  assert (LX: zlen (splice x d (slice src s n)) = zlen x) by (apply zlen_splice; rewrite ?zlen_slice; lia).
  rewrite splice_comm by lia. rewrite copy_in by (rewrite ?zlen_splice; lia). f_equal. apply splice_comm; rewrite ?LX; lia.
Qed.
(** the loop that writes the same bytes to two disjoint places *)
Lemma loop_both src mem a c : 0 <= a -> a + zlen src <= zlen mem -> 0 <= c -> c + zlen src <= zlen mem -> a + zlen src <= c \/ c + zlen src <= a ->
  for_loop (zlen src) (fun i mem => b <- rd 0 src i ;; mem <- wr mem (a + i) b ;; wr mem (c + i) b) mem = Ret (splice (splice mem a src) c src).
Proof.
  intros H1 H2 H3 H4 D. unfold for_loop.
  assert (G: forall k i, 0 <= i -> i + Z.of_nat k = zlen src ->
    for_from k i (fun i mem => b <- rd 0 src i ;; mem <- wr mem (a + i) b ;; wr mem (c + i) b) (splice (splice mem a (slice src 0 i)) c (slice src 0 i))
    = Ret (splice (splice mem a src) c src)).
  { induction k as [|k IH]; intros i Hi Hk; cbn [for_from]; [now rewrite slice_all by lia|].
    assert (L: zlen (slice src 0 i) = i) by (apply zlen_slice; lia).
    assert (L1: zlen (splice mem a (slice src 0 i)) = zlen mem) by (apply zlen_splice; lia).
    rewrite rd_ok by lia. cbn [bind]. set (v := nth (Z.to_nat i) src 0).
    assert (EV: slice src 0 i ++ [v] = slice src 0 (i + 1)) by (rewrite slice_snoc by lia; reflexivity).
    assert (L2: zlen (slice src 0 (i + 1)) = i + 1) by (apply zlen_slice; lia).
    rewrite (splice_comm mem) by lia. assert (L3: zlen (splice mem c (slice src 0 i)) = zlen mem) by (apply zlen_splice; lia).
    rewrite (wr_snoc (splice mem c (slice src 0 i)) a) by lia. cbn [bind]. rewrite EV. rewrite <- (splice_comm mem) by lia.
    assert (L4: zlen (splice mem a (slice src 0 (i + 1))) = zlen mem) by (apply zlen_splice; lia).
    rewrite (wr_snoc (splice mem a (slice src 0 (i + 1))) c) by lia. cbn [bind]. rewrite EV. apply IH; lia. }
  pose proof (zlen_nonneg src). specialize (G (Z.to_nat (zlen src)) 0 ltac:(lia) ltac:(lia)). rewrite !slice_0, !splice_nil in G by (rewrite ?splice_nil; lia). exact G.
Qed.

Ltac same' e := let E := fresh "E" in destruct e eqn:E; cbn [bind]; [|left; split; reflexivity].

Ltac err := right; left; eexists; refine (conj _ (conj eq_refl eq_refl)); discriminate.

Section Hyb.
Variable P : comps.

(** What the caller sees of a call that gave the array [x'] back in place of the one at [off]. *)
Definition put_back (mem : list Z) (off : Z) (r : outcome (Z * ptr * option Z)) : outcome (Z * list Z * Z) :=
  match r with
  | Ret (c, Some x, Some len) => Ret (c, splice mem off x, len)
  | _ => Undef
  end.

Lemma sign_full_c_ok rb mem so S l mo mlen ko :
  0 <= so -> 0 <= S -> so + S <= zlen mem -> 0 <= mo -> mo + mlen <= zlen mem -> 0 <= ko -> ko + 4064 <= zlen mem -> 52342 + mlen <= S ->
  sign_full_c P rb mem so l mo mlen ko
  = put_back mem so (sign_full P rb (Some (slice mem so S)) (Some l) (Some (slice mem mo mlen)) mlen (Some (slice mem ko 4064))).
Proof.
  intros H1 H2 H3 H4 H5 H6 H7 H8. unfold sign_full_c, sign_full. consts.
  change (64 + 2560) with 2624. change (2624 + 1312) with 3936.
  assert (K: forall c, Ret (c, mem, l) = put_back mem so (Ret (c, Some (slice mem so S), Some l))) by (intros c; cbn [put_back]; now rewrite splice_self by lia).
  destruct ((mlen <=? 0) || (64 <? mlen)) eqn:EM; [apply K|].
  rewrite ?(copy_sub _ _ mem ko 4064) by lia. rewrite rdrange_sub by lia. rewrite Z.add_0_r.
  same (copy (zeros 64) 0 mem ko 64). same (copy (zeros 2560) 0 mem (ko + 64) 2560). same (copy (zeros 128) 0 mem (ko + 3936) 128).
  same (rdrange mem mo mlen). rename a2 into msg. cbv zeta.
  same (put (zeros 128) (obytes (ed_sign P msg a))). same (put (zeros 2420) (obytes (dil_sign P msg a0))). same (put (zeros 49856) (obytes (spx_sign P rb msg a1))).
  apply put_len in E3, E4, E5; try lia.
  do 3 match goal with |- (if negb (?x =? 0) then _ else _) = _ => destruct (negb (x =? 0)); [apply K|] end.
  destruct (Z.eqb_spec (olen (ed_sign P msg a)) (64 + mlen)) as [O1|]; cbn [negb]; [|apply K].
  destruct (Z.eqb_spec (olen (dil_sign P msg a0)) 2420) as [O2|]; cbn [negb]; [|apply K].
  destruct (Z.eqb_spec (olen (spx_sign P rb msg a1)) 49856) as [O3|]; cbn [negb]; [|apply K].
  rewrite O1, O2, O3. replace (i32 (64 + mlen)) with (64 + mlen) by (unfold i32; rewrite Z.mod_small; lia).
  assert (LS: zlen (slice mem so S) = S) by (apply zlen_slice; lia). change (u8 2) with 2.
  assert (G: forall h off, 0 <= off -> off + 52342 + mlen <= zlen h ->
    (h <- wr h off 2 ;; h <- wr h (off + 1) (u8 mlen) ;; h <- copy h (off + 2) a2 0 (64 + mlen) ;; h <- copy h (off + (2 + (64 + mlen))) a3 0 2420 ;; copy h (off + (2 + (64 + mlen) + 2420)) a4 0 49856)
    = Ret (splice h off (((([2] ++ [u8 mlen]) ++ slice a2 0 (64 + mlen)) ++ slice a3 0 2420) ++ slice a4 0 49856))).
  { intros h off Ho Hh. rewrite wr_splice by lia. cbn [bind]. rewrite wr_snoc by zl. cbn [bind].
    rewrite copy_snoc by zl. cbn [bind]. rewrite copy_snoc by zl. cbn [bind]. rewrite copy_snoc by zl. reflexivity. }
  pose proof (G mem so H1 ltac:(lia)) as G1. pose proof (G (slice mem so S) 0 ltac:(lia) ltac:(lia)) as G2. clear G.
  set (D := ((([2] ++ [u8 mlen]) ++ slice a2 0 (64 + mlen)) ++ slice a3 0 2420) ++ slice a4 0 49856) in *.
  assert (LD: zlen D = 52342 + mlen) by (unfold D; zl).
  rewrite !Z.add_0_l in G2.
  destruct (wr mem so 2) as [h|]; [|discriminate]. cbn [bind] in *. destruct (wr h (so + 1) (u8 mlen)) as [h0|]; [|discriminate]. cbn [bind] in *.
  destruct (copy h0 (so + 2) a2 0 (64 + mlen)) as [h1|]; [|discriminate]. cbn [bind] in *. destruct (copy h1 _ a3 0 2420) as [h2|]; [|discriminate]. cbn [bind] in *. rewrite G1. cbn [bind].
  destruct (wr (slice mem so S) 0 2) as [k|]; [|discriminate]. cbn [bind] in *. destruct (wr k 1 (u8 mlen)) as [k0|]; [|discriminate]. cbn [bind] in *.
  destruct (copy k0 2 a2 0 (64 + mlen)) as [k1|]; [|discriminate]. cbn [bind] in *. destruct (copy k1 _ a3 0 2420) as [k2|]; [|discriminate]. cbn [bind] in *. rewrite G2. cbn [bind put_back].
  rewrite splice_part by lia. rewrite Z.add_0_r. f_equal.
Qed.

Lemma open_full_c_ok mem mo N l so smlen po :
  0 <= so -> 0 <= smlen -> so + smlen <= zlen mem -> 0 <= mo -> 0 <= N -> mo + N <= zlen mem -> 0 <= po -> po + 1408 <= zlen mem -> smlen - 52342 <= N ->
  open_full_c P mem mo l so smlen po
  = put_back mem mo (open_full P (Some (slice mem mo N)) (Some l) (Some (slice mem so smlen)) smlen (Some (slice mem po 1408))).
Proof.
  intros H1 H2 H3 H4 H5 H6 H7 H8 H9. unfold open_full_c, open_full. consts.
  assert (K: forall c, Ret (c, mem, l) = put_back mem mo (Ret (c, Some (slice mem mo N), Some l))) by (intros c; cbn [put_back]; now rewrite splice_self by lia).
  change (2 + 64 + 1 + 2420 + 49856) with 52343. change (2 + 64 + 64 + 2420 + 49856) with 52406.
  destruct ((smlen <? 52343) || (52406 <? smlen)) eqn:ES; [apply K|].
  rewrite !rd_sub by lia. rewrite Z.add_0_r. same (rd 0 mem so). destruct (negb (a =? 2)); [apply K|].
  same (rd 0 mem (so + 1)). rename a0 into n. destruct ((n <=? 0) || (64 <? n)) eqn:EN; [apply K|].
  replace (2 + 64 + n + 2420 + 49856) with (52342 + n) by lia. destruct (Z.eqb_spec smlen (52342 + n)) as [EL|]; cbn [negb]; [|apply K].
  change (2 + 64) with 66. rewrite ?(copy_sub _ _ mem so smlen) by lia. rewrite ?(copy_sub _ _ mem po 1408) by lia. rewrite Z.add_0_r.
  same (copy (zeros 128) 0 mem (so + 2) (64 + n)). same (copy (zeros 32) 0 mem po 32). same (rdrange a0 0 (64 + n)). cbv zeta.
  same (put (zeros 128) (obytes (ed_open P a2 a1))). apply put_len in E4; [|lia].
  destruct (negb (code (ed_open P a2 a1) =? 0)); [apply K|]. destruct (negb (i32 (olen (ed_open P a2 a1)) =? n)); [apply K|].
  replace (66 + n + 2420) with (2486 + n) by lia. change (32 + 1312) with 1344.
  same (copy (zeros 2420) 0 mem (so + (66 + n)) 2420). same (copy (zeros 1312) 0 mem (po + 32) 1312). same (rdrange a3 0 n).
  destruct (negb (dil_verify P a4 a6 a5 =? 0)); [apply K|].
  same (copy (zeros 49856) 0 mem (so + (2486 + n)) 49856). same (copy (zeros 64) 0 mem (po + 1344) 64).
  destruct (negb (spx_verify P a7 a6 a8 =? 0)); [apply K|].
  rewrite (copy_splice mem mo), (copy_splice (slice mem mo N) 0) by (rewrite ?zlen_slice; lia). cbn [bind put_back].
  rewrite splice_part by (rewrite ?zlen_slice; lia). now rewrite Z.add_0_r.
Qed.

(** Compact signing up to the last loop: [D] is the part of the signed message before the message. *)
Lemma sign_compact_shape rb mem so S l mo mlen ko :
  0 <= so -> 0 <= S -> so + S <= zlen mem -> 0 <= mo -> mo + mlen <= zlen mem -> 0 <= ko -> ko + 4064 <= zlen mem -> 2526 + mlen <= S ->
  let sep := sign_compact P rb (Some (slice mem so S)) (Some l) (Some (slice mem mo mlen)) mlen (Some (slice mem ko 4064)) in
  (sep = Undef /\ sign_compact_c P rb mem so l mo mlen ko = Undef) \/
  (exists c, c <> 0 /\ sep = Ret (c, Some (slice mem so S), Some l) /\ sign_compact_c P rb mem so l mo mlen ko = Ret (c, mem, l)) \/
  (exists D, 1 <= mlen <= 64 /\ zlen D = 2526 /\ nth 0 D 0 = 1 /\ sep = Ret (0, Some (splice (slice mem so S) 0 (D ++ slice mem mo mlen)), Some (2526 + mlen)) /\
     sign_compact_c P rb mem so l mo mlen ko = (mem <- move (splice mem so D) (so + 2526) mo mlen ;; Ret (0, mem, 2526 + mlen))).
Proof.
  intros H1 H2 H3 H4 H5 H6 H7 H8. cbv zeta. unfold sign_compact_c, sign_compact. consts.
  change (64 + 2560) with 2624. change (2624 + 1312 + 128 / 2) with 4000. change (40 + 64 + 64) with 168.
  destruct ((mlen <=? 0) || (64 <? mlen)) eqn:EM; [err|].
  rewrite ?(copy_sub _ _ mem ko 4064) by lia. rewrite Z.add_0_r.
  same' (copy (zeros 64) 0 mem ko 64). same' (copy (zeros 2560) 0 mem (ko + 64) 2560). destruct (rb 40) as [r rbytes].
  same' (put (zeros 40) rbytes). apply put_len in E1; [|lia]. destruct (negb (r =? 0)); [err|].
  same' (copy (zeros 168) 0 a1 0 40). rewrite ?(copy_sub _ _ mem mo mlen) by lia. rewrite Z.add_0_r.
  same' (copy a2 40 mem mo mlen). rewrite ?(copy_sub _ _ mem ko 4064) by lia.
  same' (copy a3 (40 + mlen) mem (ko + 4000) 64). same' (rdrange a4 0 (40 + mlen + 64)). same' (put (zeros 64) (sha3_512 P a5)). same' (rdrange a6 0 64). cbv zeta.
  same' (put (zeros 128) (obytes (ed_sign P a7 a))). same' (put (zeros 2420) (obytes (dil_sign P a7 a0))). apply put_len in E8, E9; try lia.
  destruct (negb (code (ed_sign P a7 a) =? 0)); [err|]. destruct (negb (code (dil_sign P a7 a0) =? 0)); [err|].
  change (64 + 64) with 128. destruct (negb (olen (ed_sign P a7 a) =? 128)); [err|]. destruct (negb (olen (dil_sign P a7 a0) =? 2420)); [err|].
  right. right. change (u8 1) with 1. change (2 + 64) with 66. change (66 + 2420) with 2486. change (2486 + 40) with 2526.
  assert (LS: zlen (slice mem so S) = S) by (apply zlen_slice; lia). assert (LM: zlen (slice mem mo mlen) = mlen) by (apply zlen_slice; lia).
  set (D := ((([1] ++ [u8 mlen]) ++ slice a8 0 64) ++ slice a9 0 2420) ++ slice a1 0 40). assert (LD: zlen D = 2526) by (unfold D; zl).
  exists D. split; [lia|]. split; [exact LD|]. split; [reflexivity|].
  rewrite (wr_splice (slice mem so S)) by lia. cbn [bind]. rewrite (wr_snoc _ 0) by zl. cbn [bind]. rewrite (copy_snoc _ 0) by zl. cbn [bind]. rewrite (copy_snoc _ 0) by zl. cbn [bind]. rewrite (copy_snoc _ 0) by zl. cbn [bind].
  fold D. rewrite (copy_snoc _ 0) by zl. cbn [bind]. rewrite (slice_all (slice mem mo mlen)) by lia. split; [reflexivity|].
  rewrite (wr_splice mem) by lia. cbn [bind]. rewrite (wr_snoc _ so) by zl. cbn [bind]. rewrite (copy_snoc _ so) by zl. cbn [bind]. rewrite (copy_snoc _ so) by zl. cbn [bind]. rewrite (copy_snoc _ so) by zl. cbn [bind].
  reflexivity.
Qed.

Lemma open_compact_c_ok mem mo N l so smlen po :
  0 <= so -> 0 <= smlen -> so + smlen <= zlen mem -> 0 <= mo -> 0 <= N -> mo + N <= zlen mem -> 0 <= po -> po + 1408 <= zlen mem -> smlen - 2526 <= N ->
  mo <= so + 2526 \/ so + smlen <= mo ->
  open_compact_c P mem mo l so smlen po
  = put_back mem mo (open_compact P (Some (slice mem mo N)) (Some l) (Some (slice mem so smlen)) smlen (Some (slice mem po 1408))).
Proof.
  intros H1 H2 H3 H4 H5 H6 H7 H8 H9 HO. unfold open_compact_c, open_compact. consts.
  assert (K: forall c, Ret (c, mem, l) = put_back mem mo (Ret (c, Some (slice mem mo N), Some l))) by (intros c; cbn [put_back]; now rewrite splice_self by lia).
  change (2 + 64 + 2420 + 40 + 1) with 2527. change (2 + 64 + 2420 + 40 + 64) with 2590. change (40 + 64 + 64) with 168.
  destruct ((smlen <? 2527) || (2590 <? smlen)) eqn:ES; [apply K|].
  rewrite !rd_sub by lia. rewrite Z.add_0_r. same (rd 0 mem so). destruct (negb (a =? 1)); [apply K|].
  same (rd 0 mem (so + 1)). rename a0 into n. destruct ((n <=? 0) || (64 <? n)) eqn:EN; [apply K|].
  change (2 + 64) with 66. change (66 + 2420) with 2486. change (2486 + 40) with 2526. change (32 + 1312) with 1344. change (64 + 64) with 128. change (Z.to_nat 64) with 64%nat.
  destruct (Z.eqb_spec smlen (2526 + n)) as [EL|]; cbn [negb]; [|apply K].
  rewrite ?(copy_sub _ _ mem so smlen) by lia.
  same (copy (zeros 168) 0 mem (so + 2486) 40). rewrite ?(copy_sub _ _ mem so smlen) by lia. same (copy a0 40 mem (so + 2526) n). rewrite ?(copy_sub _ _ mem po 1408) by lia. rewrite Z.add_0_r.
  same (copy a1 (40 + n) mem (po + 1344) 64). same (rdrange a2 0 (40 + n + 64)). same (put (zeros 64) (sha3_512 P a3)).
  same (copy (zeros 128) 0 mem (so + 2) 64). same (copy a5 64 a4 0 64). rewrite ?(copy_sub _ _ mem po 1408) by lia. same (copy (zeros 32) 0 mem po 32). same (rdrange a6 0 128). cbv zeta.
  same (put (zeros 128) (obytes (ed_open P a8 a7))).
  destruct (negb (code (ed_open P a8 a7) =? 0)); [apply K|]. destruct (negb (olen (ed_open P a8 a7) =? 64)); [apply K|].
  same (cmp_from 64 0 a9 a4). destruct (negb a10); [apply K|]. rewrite ?(copy_sub _ _ mem so smlen), ?(copy_sub _ _ mem po 1408) by lia.
  same (copy (zeros 2420) 0 mem (so + 66) 2420). rewrite ?(copy_sub _ _ mem po 1408) by lia. same (copy (zeros 1312) 0 mem (po + 32) 1312). same (rdrange a4 0 64).
  destruct (negb (dil_verify P a11 a13 a12 =? 0)); [apply K|].
  unfold move. rewrite move_up_ok by lia. cbn [bind].
  rewrite (copy_splice (slice mem mo N) 0) by (rewrite ?zlen_slice; lia). cbn [bind put_back].
  rewrite splice_part by (rewrite ?zlen_slice; rewrite ?zlen_slice; lia). now rewrite Z.add_0_r.
Qed.

Definition put_back2 (mem : list Z) (a b : Z) (r : outcome (Z * ptr * ptr)) : outcome (Z * list Z) :=
  match r with
  | Ret (c, Some x, Some y) => Ret (c, splice (splice mem a x) b y)
  | _ => Undef
  end.
Lemma keypair_seed_c_ok mem po ko eo :
  0 <= po -> po + 1408 <= zlen mem -> 0 <= ko -> ko + 4064 <= zlen mem -> 0 <= eo -> eo + 160 <= zlen mem -> po + 1408 <= ko \/ ko + 4064 <= po ->
  keypair_seed_c P mem po ko eo
  = put_back2 mem po ko (keypair_seed P (Some (slice mem po 1408)) (Some (slice mem ko 4064)) (Some (slice mem eo 160))).
Proof.
  intros H1 H2 H3 H4 H5 H6 D. unfold keypair_seed_c, keypair_seed. consts. change (32 + 32) with 64. change (64 + 2560) with 2624. change (2624 + 1312) with 3936. change (32 + 1312) with 1344.
  rewrite !(copy_sub _ _ mem eo 160) by lia. rewrite Z.add_0_r.
  same (copy (zeros 32) 0 mem eo 32). same (copy (zeros 32) 0 mem (eo + 32) 32). same (copy (zeros 96) 0 mem (eo + 64) 96).
  assert (LP: zlen (slice mem po 1408) = 1408) by (apply zlen_slice; lia). assert (LK: zlen (slice mem ko 4064) = 4064) by (apply zlen_slice; lia).
  set (pk := slice mem po 1408) in *. set (sk := slice mem ko 4064) in *.
  assert (EM: mem = splice (splice mem po pk) ko sk).
  { unfold pk. rewrite splice_self by lia. unfold sk. now rewrite splice_self by lia. }
  destruct (ed_keypair P a) as [[r1 pk1] sk1]. same (put (zeros 32) pk1). same (put (zeros 64) sk1). apply put_len in E2, E3; try lia.
  destruct (negb (r1 =? 0)); [cbn [put_back2]; now rewrite EM at 1|]. clearbody pk sk. 
  rewrite (copy_splice pk 0), (copy_splice sk 0) by lia. cbn [bind].
  rewrite EM at 1. replace po with (po + 0) at 2 by lia. rewrite copy_in2 by lia. cbn [bind]. replace ko with (ko + 0) at 2 by lia.
  set (pk' := splice pk 0 (slice a2 0 32)). assert (LP': zlen pk' = 1408) by (unfold pk'; rewrite zlen_splice; rewrite ?zlen_slice; lia).
  rewrite copy_in by (rewrite ?zlen_splice; lia). cbn [bind]. set (sk' := splice sk 0 (slice a3 0 64)). assert (LK': zlen sk' = 4064) by (unfold sk'; rewrite zlen_splice; rewrite ?zlen_slice; lia).
  destruct (dil_keypair P a0) as [[r2 pk2] sk2]. same (put (zeros 1312) pk2). same (put (zeros 2560) sk2). apply put_len in E4, E5; try lia.
  destruct (negb (r2 =? 0)); [reflexivity|].
  rewrite (copy_splice sk' 64) by lia. cbn [bind]. rewrite copy_in by (rewrite ?zlen_splice; lia). cbn [bind].
  set (sk'' := splice sk' 64 (slice a5 0 2560)). assert (LK'': zlen sk'' = 4064) by (unfold sk''; rewrite zlen_splice; rewrite ?zlen_slice; lia).
  rewrite (copy_splice pk' 32), (copy_splice sk'' 2624) by lia. cbn [bind].
  set (M := splice (splice mem po pk') ko sk''). assert (LM: zlen M = zlen mem) by (unfold M; rewrite !zlen_splice; rewrite ?zlen_splice; lia).
  rewrite <- E4 at 1. rewrite loop_both by lia. cbn [bind].
  assert (EL: splice (splice M (po + 32) a4) (ko + 2624) a4 = splice (splice mem po (splice pk' 32 (slice a4 0 1312))) ko (splice sk'' 2624 (slice a4 0 1312))).
  { pose proof (copy_in2 mem po pk' ko sk'' 32 a4 0 1312 ltac:(lia) ltac:(lia) ltac:(lia) ltac:(lia) ltac:(lia) ltac:(lia) ltac:(lia) ltac:(lia) ltac:(lia) ltac:(lia)) as C1. fold M in C1.
    rewrite (copy_splice M) in C1 by lia. apply Ret_inj in C1. rewrite (slice_all a4) in * by lia. rewrite C1.
    assert (LQ: zlen (splice pk' 32 a4) = 1408) by (rewrite zlen_splice; lia).
    pose proof (copy_in (splice mem po (splice pk' 32 a4)) ko sk'' 2624 a4 0 1312 ltac:(lia) ltac:(rewrite zlen_splice; lia) ltac:(lia) ltac:(lia) ltac:(lia) ltac:(lia) ltac:(lia)) as C2.
    rewrite copy_splice in C2 by (rewrite ?zlen_splice; rewrite ?zlen_splice; lia). apply Ret_inj in C2. rewrite (slice_all a4) in * by lia. exact C2. }
  rewrite EL. set (pk3b := splice pk' 32 (slice a4 0 1312)). set (sk3b := splice sk'' 2624 (slice a4 0 1312)).
  assert (LP3: zlen pk3b = 1408) by (unfold pk3b; rewrite zlen_splice; rewrite ?zlen_slice; lia). assert (LK3: zlen sk3b = 4064) by (unfold sk3b; rewrite zlen_splice; rewrite ?zlen_slice; lia).
  destruct (spx_keypair P a1) as [[r3 pk3] sk3]. same (put (zeros 64) pk3). same (put (zeros 128) sk3). apply put_len in E6, E7; try lia.
  destruct (negb (r3 =? 0)); [reflexivity|].
  rewrite (copy_splice sk3b 3936), (copy_splice pk3b 1344) by lia. cbn [bind].
  rewrite copy_in by (rewrite ?zlen_splice; lia). cbn [bind]. rewrite copy_in2 by (rewrite ?zlen_splice; rewrite ?zlen_slice; lia). reflexivity.
Qed.
End Hyb.

(** ** The seed expander *)
Lemma copy_seed_loop_sub mem eo : 0 <= eo -> eo + 96 <= zlen mem -> forall fuel i t, 0 <= i ->
  copy_seed_loop_c fuel i t mem eo = copy_seed_loop fuel i t (slice mem eo 96).
Proof.
  intros H1 H2. induction fuel as [|fuel IH]; intros i t Hi; cbn [copy_seed_loop_c copy_seed_loop]; destruct (Z.ltb_spec i 64); try reflexivity.
  rewrite rd_sub by lia. destruct (rd 0 mem (eo + i)); cbn [bind]; [|reflexivity]. destruct (wr t i a); cbn [bind]; [|reflexivity]. apply IH. lia.
Qed.
Lemma keypair_seed_expander_c_ok expander mem eo xo :
  (forall s n o k, zlen (snd (expander s n o k)) = zlen o) ->
  0 <= eo -> eo + 96 <= zlen mem -> 0 <= xo -> xo + 160 <= zlen mem -> xo <= eo + 32 \/ eo + 96 <= xo ->
  keypair_seed_expander_c expander mem eo xo
  = match keypair_seed_expander expander (Some (slice mem eo 96)) (Some (slice mem xo 160)) with
    | Ret (c, Some x) => Ret (c, splice mem xo x)
    | _ => Undef
    end.
Proof.
  intros HE H1 H2 H3 H4 D. unfold keypair_seed_expander_c, keypair_seed_expander. rewrite copy_seed_loop_sub by lia.
  same (copy_seed_loop 64 0 (zeros 64) (slice mem eo 96)). specialize (HE a 64 (zeros 128) 128). destruct (expander a 64 (zeros 128) 128) as [ret t]. cbn [snd] in HE. rewrite zlen_zeros in HE by lia.
  destruct (negb (ret =? 0)); [now rewrite splice_self by lia|].
  assert (LX: zlen (slice mem xo 160) = 160) by (apply zlen_slice; lia). assert (LE: zlen (slice mem eo 96) = 96) by (apply zlen_slice; lia).
  rewrite !copy_splice by lia. cbn [bind]. 
  rewrite (copy_snoc (slice mem xo 160) 0) by zl. cbn [bind]. rewrite (copy_snoc (slice mem xo 160) 0) by zl. cbn [bind].
  unfold move. rewrite move_up_ok by (rewrite ?zlen_splice; rewrite ?zlen_slice; lia). cbn [bind].
  assert (ES: slice (splice mem xo (slice t 0 32)) (eo + 64) 32 = slice (slice mem eo 96) 64 32).
  { rewrite slice_slice by lia. destruct D as [D|D]; [apply slice_splice_after|apply slice_splice_before]; rewrite ?zlen_slice; lia. }
  rewrite ES. replace (xo + 32) with (xo + zlen (slice t 0 32)) by (rewrite zlen_slice; lia). rewrite splice_splice by (rewrite ?zlen_slice; rewrite ?zlen_slice; lia).
  rewrite (copy_snoc mem xo) by zl. cbn [bind]. rewrite splice_part by zl. now rewrite Z.add_0_r.
Qed.
