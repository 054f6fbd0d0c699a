(** Property theorems about the hybrid interface when the caller's buffers share memory (C73).
    [inside mem off n]: the [n] bytes at [off] lie in the memory; [written mem off l mem'] (BufSpec.v):
    [mem'] is [mem] with the bytes [l] at [off].  The functions without [_c] are those of Hybrid.v, on
    separate arrays; C01-C15 and C53 say what they do. *)
From Coq Require Import ZifyBool ZifyNat.
From Verif Require Import Base BufSpec SpongeProofs2 BufLemmas Hybrid HybridSpec HybridProofs HybridProofs2 HybridToy HybridBuf HybridBufProofs.
From Verif Require PropsBuf PropsHybrid.
Local Open Scope Z_scope.
Ltac Zify.zify_post_hook ::= idtac.
Local Opaque zeros slice.

Definition inside (mem : list Z) (off n : Z) : Prop := 0 <= off /\ 0 <= n /\ off + n <= zlen mem.
Definition apart (a n b k : Z) : Prop := a + n <= b \/ b + k <= a.

Lemma wr_len {A} (b : list A) i v y : wr b i v = Ret y -> zlen y = zlen b.
Proof. unfold wr. destruct ((0 <=? i) && (i <? zlen b)); [|discriminate]. intros E. injection E as <-. apply zlen_upd. Qed.
Ltac peel := repeat match goal with
  | H : bind ?e _ = Ret _ |- _ => let E := fresh "E" in destruct e eqn:E; cbn [bind] in H; [|discriminate H]
  | H : (if ?b then _ else _) = Ret _ |- _ => destruct b
  | H : (let '(_, _) := ?e in _) = Ret _ |- _ => destruct e
  | H : match ?e with (_, _) => _ end = Ret _ |- _ => destruct e
  end.
Ltac lens := repeat match goal with H : copy _ _ _ _ _ = Ret _ |- _ => apply copy_len in H | H : wr _ _ _ = Ret _ |- _ => apply wr_len in H end.
Lemma sign_full_len P rb sm l m mlen sk c sm' l' : sign_full P rb (Some sm) (Some l) (Some m) mlen (Some sk) = Ret (c, Some sm', l') -> zlen sm' = zlen sm.
Proof. unfold sign_full. cbv zeta. intros H. peel; injection H as <- <- <-; lens; congruence. Qed.
Lemma sign_compact_len P rb sm l m mlen sk c sm' l' : sign_compact P rb (Some sm) (Some l) (Some m) mlen (Some sk) = Ret (c, Some sm', l') -> zlen sm' = zlen sm.
Proof. unfold sign_compact. cbv zeta. intros H. peel; injection H as <- <- <-; lens; congruence. Qed.
Lemma open_full_len P m l sm smlen pk c m' l' : open_full P (Some m) (Some l) (Some sm) smlen (Some pk) = Ret (c, Some m', l') -> zlen m' = zlen m.
Proof. unfold open_full. cbv zeta. intros H. peel; injection H as <- <- <-; lens; congruence. Qed.
Lemma open_compact_len P m l sm smlen pk c m' l' : open_compact P (Some m) (Some l) (Some sm) smlen (Some pk) = Ret (c, Some m', l') -> zlen m' = zlen m.
Proof. unfold open_compact. cbv zeta. intros H. peel; injection H as <- <- <-; lens; congruence. Qed.
Lemma keypair_seed_len P pk sk seed c pk' sk' : keypair_seed P (Some pk) (Some sk) (Some seed) = Ret (c, Some pk', Some sk') -> zlen pk' = zlen pk /\ zlen sk' = zlen sk.
Proof. unfold keypair_seed. intros H. peel; injection H as <- <- <-; lens; split; congruence. Qed.
Lemma expander_len E seed x c x' : keypair_seed_expander E (Some seed) (Some x) = Ret (c, Some x') -> zlen x' = zlen x.
Proof. unfold keypair_seed_expander. cbv zeta. intros H. peel; injection H as <- <-; lens; congruence. Qed.

(** ** Full mode *)
(** Any placement of signed message, message and secret key, in place ([so = mo]) included: the call does
    what it does on separate arrays, and writes only the signed message. *)
Theorem C73_full_sign_any_overlap : forall P rb mem so l mo mlen ko c sm' len,
  inside mem so (52342 + mlen) -> inside mem mo mlen -> inside mem ko 4064 ->
  sign_full P rb (Some (slice mem so (52342 + mlen))) (Some l) (Some (slice mem mo mlen)) mlen (Some (slice mem ko 4064)) = Ret (c, Some sm', Some len) ->
  exists mem', sign_full_c P rb mem so l mo mlen ko = Ret (c, mem', len) /\ written mem so sm' mem'.
Proof.
  intros P rb mem so l mo mlen ko c sm' len (S1 & S2 & S3) (M1 & M2 & M3) (K1 & _ & K3) E.
  rewrite (sign_full_c_ok P rb mem so (52342 + mlen)) by lia. rewrite E. cbn [put_back]. eexists. split; [reflexivity|].
  apply sign_full_len in E. rewrite zlen_slice in E by lia. apply PropsBuf.splice_written; lia.
Qed.
Theorem C73_full_open_any_overlap : forall P mem mo N l so smlen po c m' len,
  inside mem mo N -> smlen - 52342 <= N -> inside mem so smlen -> inside mem po 1408 ->
  open_full P (Some (slice mem mo N)) (Some l) (Some (slice mem so smlen)) smlen (Some (slice mem po 1408)) = Ret (c, Some m', Some len) ->
  exists mem', open_full_c P mem mo l so smlen po = Ret (c, mem', len) /\ written mem mo m' mem'.
Proof.
  intros P mem mo N l so smlen po c m' len (M1 & M2 & M3) HN (S1 & S2 & S3) (K1 & _ & K3) E.
  rewrite (open_full_c_ok P mem mo N) by lia. rewrite E. cbn [put_back]. eexists. split; [reflexivity|].
  apply open_full_len in E. rewrite zlen_slice in E by lia. apply PropsBuf.splice_written; lia.
Qed.
Print Assumptions C73_full_sign_any_overlap. Print Assumptions C73_full_open_any_overlap.

(** ** Compact mode *)
(** Opening works in place and whenever the message buffer does not start inside the copied message. *)
Theorem C73_compact_open_overlap : forall P mem mo N l so smlen po c m' len,
  inside mem mo N -> smlen - 2526 <= N -> inside mem so smlen -> inside mem po 1408 -> mo <= so + 2526 \/ so + smlen <= mo ->
  open_compact P (Some (slice mem mo N)) (Some l) (Some (slice mem so smlen)) smlen (Some (slice mem po 1408)) = Ret (c, Some m', Some len) ->
  exists mem', open_compact_c P mem mo l so smlen po = Ret (c, mem', len) /\ written mem mo m' mem'.
Proof.
  intros P mem mo N l so smlen po c m' len (M1 & M2 & M3) HN (S1 & S2 & S3) (K1 & _ & K3) HO E.
  rewrite (open_compact_c_ok P mem mo N) by lia. rewrite E. cbn [put_back]. eexists. split; [reflexivity|].
  apply open_compact_len in E. rewrite zlen_slice in E by lia. apply PropsBuf.splice_written; lia.
Qed.
(** Signing works if the message lies before the signed message, or anywhere behind its first 2526 bytes. *)
Theorem C73_compact_sign_overlap_partial : forall P rb mem so l mo mlen ko c sm' len,
  inside mem so (2526 + mlen) -> inside mem mo mlen -> inside mem ko 4064 -> apart mo mlen so 2526 ->
  sign_compact P rb (Some (slice mem so (2526 + mlen))) (Some l) (Some (slice mem mo mlen)) mlen (Some (slice mem ko 4064)) = Ret (c, Some sm', Some len) ->
  exists mem', sign_compact_c P rb mem so l mo mlen ko = Ret (c, mem', len) /\ written mem so sm' mem'.
Proof.
  intros P rb mem so l mo mlen ko c sm' len (S1 & S2 & S3) (M1 & M2 & M3) (K1 & _ & K3) HA E.
  pose proof (sign_compact_len _ _ _ _ _ _ _ _ _ _ E) as LE. rewrite zlen_slice in LE by lia.
  destruct (sign_compact_shape P rb mem so (2526 + mlen) l mo mlen ko) as [[X _]|[(c' & Hc & X & Y)|(D & Hm & LD & _ & X & Y)]]; try lia; cbv zeta in X; rewrite E in X.
  - discriminate X.
  - assert (c = c' /\ sm' = slice mem so (2526 + mlen) /\ len = l) as (-> & -> & ->) by (split; [congruence|split; congruence]).
    exists mem. split; [exact Y|]. rewrite <- (splice_self mem so (2526 + mlen)) at 3 by lia. apply PropsBuf.splice_written; rewrite ?zlen_slice; lia.
  - assert (c = 0 /\ sm' = splice (slice mem so (2526 + mlen)) 0 (D ++ slice mem mo mlen) /\ len = 2526 + mlen) as (-> & -> & ->) by (split; [congruence|split; congruence]).
    assert (LM: zlen (slice mem mo mlen) = mlen) by (apply zlen_slice; lia).
    unfold move in Y. rewrite move_up_ok in Y by (rewrite ?zlen_splice by lia; destruct HA; lia). cbn [bind] in Y.
    rewrite splice_whole' in * by (rewrite zlen_app, zlen_slice; lia).
    assert (EM: slice (splice mem so D) mo mlen = slice mem mo mlen) by (destruct HA; [apply slice_splice_before|apply slice_splice_after]; lia).
    rewrite EM in Y. replace (so + 2526) with (so + zlen D) in Y by lia. rewrite splice_splice in Y by lia.
    eexists. split; [exact Y|]. apply PropsBuf.splice_written; lia.
Qed.
(** In place ([sm == m]) the message is overwritten before it is copied.  The call returns 0, but the
    message in the output is the beginning of the output itself, and no key verifies the output against
    the caller's message. *)
Theorem C73_compact_sign_in_place_refuted : forall P rb mem so l mlen ko sm' len,
  inside mem so (2526 + mlen) -> inside mem ko 4064 ->
  let M := slice mem so mlen in
  sign_compact P rb (Some (slice mem so (2526 + mlen))) (Some l) (Some M) mlen (Some (slice mem ko 4064)) = Ret (0, Some sm', Some len) ->
  exists out mem', sign_compact_c P rb mem so l so mlen ko = Ret (0, mem', len) /\ written mem so out mem' /\ zlen out = len /\
    slice out 0 2526 = slice sm' 0 2526 /\ slice out 2526 mlen = slice sm' 0 mlen /\ nth 2526 out 0 = 1 /\
    (nth 0 M 0 <> 1 -> comps_fit P -> comps_faithful P -> forall pk, zlen pk = 1408 -> verify_compact P (Some M) mlen (Some out) len (Some pk) <> Ret 0).
Proof.
  intros P rb mem so l mlen ko sm' len (S1 & S2 & S3) (K1 & _ & K3) M E. unfold M in *.
  assert (Hl: 0 <= mlen). { unfold sign_compact in E. destruct ((mlen <=? 0) || _) eqn:EB; [discriminate E|lia]. }
  destruct (sign_compact_shape P rb mem so (2526 + mlen) l so mlen ko) as [[X _]|[(c' & Hc & X & Y)|(D & Hm & LD & D0 & X & Y)]]; try lia; cbv zeta in X; rewrite E in X.
  - discriminate X.
  - congruence.
  - assert (sm' = splice (slice mem so (2526 + mlen)) 0 (D ++ slice mem so mlen) /\ len = 2526 + mlen) as (-> & ->) by (split; congruence).
    assert (LM: zlen (slice mem so mlen) = mlen) by (apply zlen_slice; lia).
    unfold move in Y. rewrite move_up_ok in Y by (rewrite ?zlen_splice by lia; lia). cbn [bind] in Y.
    rewrite splice_whole' in * by (rewrite zlen_app, zlen_slice; lia).
    assert (EM: slice (splice mem so D) so mlen = slice D 0 mlen) by (rewrite slice_splice_in by lia; f_equal; lia).
    assert (LX: zlen (slice D 0 mlen) = mlen) by (apply zlen_slice; lia).
    rewrite EM in Y. replace (so + 2526) with (so + zlen D) in Y by lia. rewrite splice_splice in Y by lia.
    assert (T: slice (D ++ slice D 0 mlen) 2526 mlen = slice D 0 mlen) by (rewrite slice_app_r by lia; replace (2526 - zlen D) with 0 by lia; apply slice_all; lia).
    exists (D ++ slice D 0 mlen). eexists. split; [exact Y|]. split; [apply PropsBuf.splice_written; rewrite ?zlen_app; lia|]. split; [rewrite zlen_app; lia|].
    split; [rewrite !slice_app_l by lia; reflexivity|]. split; [rewrite T, slice_app_l by lia; reflexivity|].
    assert (N1: nth 0 (slice D 0 mlen) 0 = 1) by (rewrite nth_slice by lia; exact D0).
    split; [rewrite app_nth2 by (unfold zlen in LD; lia); replace (2526 - length D)%nat with 0%nat by (unfold zlen in LD; lia); exact N1|].
    intros HN HF HT pk Lpk HV.
    destruct (PropsHybrid.C09_compact_verify_iff_open P (slice mem so mlen) mlen (D ++ slice D 0 mlen) (2526 + mlen) pk HF HT) as (r & E1 & _ & E2); try (rewrite ?zlen_app; lia).
    rewrite HV in E1. apply Ret_inj in E1. symmetry in E1. apply E2 in E1. destruct E1 as (m1 & EO & EQ).
    apply PropsHybrid.C08_compact_open_iff in EO; try assumption; try (rewrite ?zlen_app, ?zlen_zeros; lia).
    destruct EO as (edsig & dilsig & nonce & msg & EL & ELn & _ & L1 & L2 & L3 & _ & _ & Em1 & Elen).
    assert (Lmsg: zlen msg = mlen) by lia. injection Em1 as Em1. rewrite Em1 in EQ. rewrite slice_app_l in EQ by lia. rewrite !slice_all in EQ by lia.
    assert (EM': slice (D ++ slice D 0 mlen) 2526 mlen = msg).
    { rewrite (slice_all (D ++ slice D 0 mlen)) in EL by (rewrite zlen_app; lia). rewrite EL. unfold compact_layout. 
      rewrite !app_assoc. rewrite slice_app_r by (rewrite ?zlen_app, ?zlen_cons, ?(@zlen_nil Z); lia).
      replace (2526 - _) with 0 by (rewrite ?zlen_app, ?zlen_cons, ?(@zlen_nil Z); lia). apply slice_all. lia. }
    rewrite T in EM'. apply HN. rewrite <- EQ, <- EM'. exact N1.
Qed.
Print Assumptions C73_compact_open_overlap. Print Assumptions C73_compact_sign_overlap_partial. Print Assumptions C73_compact_sign_in_place_refuted.

(** ** Key generation and the seed expander *)
(** The seed may lie anywhere, also inside the buffers for the keys, as long as these do not overlap. *)
Theorem C73_keypair_seed_overlap : forall P mem po ko eo c pk' sk',
  inside mem po 1408 -> inside mem ko 4064 -> inside mem eo 160 -> apart po 1408 ko 4064 ->
  keypair_seed P (Some (slice mem po 1408)) (Some (slice mem ko 4064)) (Some (slice mem eo 160)) = Ret (c, Some pk', Some sk') ->
  exists mem1 mem', keypair_seed_c P mem po ko eo = Ret (c, mem') /\ written mem po pk' mem1 /\ written mem1 ko sk' mem'.
Proof.
  intros P mem po ko eo c pk' sk' (P1 & _ & P3) (K1 & _ & K3) (E1 & _ & E3) HA E.
  rewrite keypair_seed_c_ok by (unfold apart in HA; lia). rewrite E. cbn [put_back2].
  apply keypair_seed_len in E. destruct E as [LP LK]. rewrite zlen_slice in LP, LK by lia.
  exists (splice mem po pk'). eexists. split; [reflexivity|]. split; apply PropsBuf.splice_written; rewrite ?zlen_splice; lia.
Qed.
(** The expander works in place and whenever the third part of the seed is not overwritten first. *)
Theorem C73_seed_expander_overlap : forall E mem eo xo c x',
  (forall s n o k, zlen (snd (E s n o k)) = zlen o) ->
  inside mem eo 96 -> inside mem xo 160 -> xo <= eo + 32 \/ eo + 96 <= xo ->
  keypair_seed_expander E (Some (slice mem eo 96)) (Some (slice mem xo 160)) = Ret (c, Some x') ->
  exists mem', keypair_seed_expander_c E mem eo xo = Ret (c, mem') /\ written mem xo x' mem'.
Proof.
  intros E mem eo xo c x' HE (E1 & _ & E3) (X1 & _ & X3) HO H.
  rewrite keypair_seed_expander_c_ok by (try assumption; lia). rewrite H. eexists. split; [reflexivity|].
  apply expander_len in H. rewrite zlen_slice in H by lia. apply PropsBuf.splice_written; lia.
Qed.
Print Assumptions C73_keypair_seed_overlap. Print Assumptions C73_seed_expander_overlap.

(** Concrete calls: the message 'hello' at the start of the memory, signed in place in both modes; the key behind
    the signed message.  The first byte of the message is not 1. *)
Example C73_sign_witness : let mem n := toy_msg ++ zeros (n - 5) ++ toy_sk in
  (inside (mem 52347) 0 (52342 + 5) /\ inside (mem 52347) 0 5 /\ inside (mem 52347) 52347 4064 /\ slice (mem 52347) 0 5 = toy_msg /\ slice (mem 52347) 52347 4064 = toy_sk) /\
  (inside (mem 2531) 0 (2526 + 5) /\ inside (mem 2531) 2531 4064 /\ slice (mem 2531) 0 5 = toy_msg /\ slice (mem 2531) 2531 4064 = toy_sk) /\
  nth 0 toy_msg 0 <> 1 /\ comps_fit toy /\ comps_faithful toy /\
  (forall sm0, 52347 <= zlen sm0 -> exists sm l, sign_full toy toy_rnd (Some sm0) (Some 0) (Some toy_msg) 5 (Some toy_sk) = Ret (0, Some sm, Some l)) /\
  (forall sm0, 2531 <= zlen sm0 -> exists sm l, sign_compact toy toy_rnd (Some sm0) (Some 0) (Some toy_msg) 5 (Some toy_sk) = Ret (0, Some sm, Some l)).
Proof.
  assert (LK: zlen toy_sk = 4064) by reflexivity. assert (LM: zlen toy_msg = 5) by reflexivity.
  assert (G: forall n, 5 <= n -> let mem := toy_msg ++ zeros (n - 5) ++ toy_sk in inside mem 0 n /\ inside mem 0 5 /\ inside mem n 4064 /\ slice mem 0 5 = toy_msg /\ slice mem n 4064 = toy_sk).
  { intros n Hn mem. assert (L: zlen mem = n + 4064) by (unfold mem; rewrite !zlen_app, LK, LM, zlen_zeros; lia).
    unfold inside. split; [lia|]. split; [lia|]. split; [lia|]. split.
    - unfold mem. rewrite slice_app_l by lia. apply slice_all. lia.
    - unfold mem. rewrite app_assoc, slice_app_r by (rewrite ?zlen_app, ?LM, ?zlen_zeros; lia). replace (n - _) with 0 by (rewrite ?zlen_app, ?LM, ?zlen_zeros; lia). apply slice_all. lia. }
  cbv zeta. destruct (G 52347 ltac:(lia)) as (A1 & A2 & A3 & A4 & A5). destruct (G 2531 ltac:(lia)) as (B1 & B2 & B3 & B4 & B5).
  split; [exact (conj A1 (conj A2 (conj A3 (conj A4 A5))))|]. split; [exact (conj B1 (conj B3 (conj B4 B5)))|]. split; [discriminate|]. split; [exact toy_fit|]. split; [exact toy_faithful|]. split.
  - intros sm0 H. apply sign_full_runs; [apply toy_fit|apply toy_faithful|lia|lia|rewrite LM; lia|exact LK|..]; reflexivity.
  - intros sm0 H. apply sign_compact_runs; [apply toy_fit|apply toy_faithful|lia|lia|rewrite LM; lia|exact LK|..]; reflexivity.
Qed.
(** Key generation with the seed at the start of the buffer for the secret key. *)
Example C73_keygen_witness : let mem := toy_seed ++ zeros 3904 ++ zeros 1408 in
  inside mem 4064 1408 /\ inside mem 0 4064 /\ inside mem 0 160 /\ apart 4064 1408 0 4064 /\ slice mem 0 160 = toy_seed.
Proof.
  cbv zeta. assert (LS: zlen toy_seed = 160) by reflexivity. assert (L: zlen (toy_seed ++ zeros 3904 ++ zeros 1408) = 5472) by (rewrite !zlen_app, LS, !zlen_zeros; lia).
  unfold inside, apart. rewrite L. split; [lia|]. split; [lia|]. split; [lia|]. split; [lia|]. rewrite slice_app_l by lia. apply slice_all. lia.
Qed.
