(** Property theorems about the buffer-level model of dilithium2/ (C60, C61, C62): the samplers,
    the hash call sites and the in-place calls with their actual arrays.  [fuel] bounds the
    rejection loops; [Ret None] means "bound reached". *)
From Verif Require Import Base SpongePure Sponge SpongeProofs SpongeProofs2 Tab DilReduce DilPoly DilVec DilPacking DilSign DilEncSpec DilEncProofs DilSampleSpec DilSample DilSignProofs DilSpec DilFips DilFipsProofs DilFipsProofs2 DilFipsProofs3 DilBuf BufLemmas BufSpec DilBufProofs DilBufSign PropsDilithium2 PropsDilithium4.
From Verif Require HybridRealProofs.
Ltac Zify.zify_post_hook ::= idtac.
Local Opaque F.

Lemma splice_written mem off l : 0 <= off -> off + zlen l <= zlen mem -> written mem off l (splice mem off l).
Proof.
  intros Ho Hl. pose proof (zlen_nonneg l). split.
  - pose proof (zlen_splice mem off l Ho Hl) as E. unfold zlen in E. lia.
  - intros i Hi. change (Z.of_nat (length l)) with (zlen l).
    destruct (Z.leb_spec off (Z.of_nat i)); cbn [andb]; [destruct (Z.ltb_spec (Z.of_nat i) (off + zlen l))|].
    + assert (L1: length (slice mem 0 off) = Z.to_nat off) by (pose proof (zlen_slice mem 0 off ltac:(lia) ltac:(lia) ltac:(pose proof (zlen_nonneg l); lia)) as E; unfold zlen in E; lia).
      unfold splice. rewrite app_nth2 by lia. rewrite app_nth1 by (unfold zlen in *; lia). f_equal. lia.
    + apply nth_splice_ge; lia.
    + apply nth_splice_lt; lia.
Qed.
Lemma written_det mem off l m1 m2 : written mem off l m1 -> written mem off l m2 -> m1 = m2.
Proof.
  intros [L1 H1] [L2 H2]. apply (nth_ext _ _ 0 0); [lia|]. intros i Hi. rewrite H1, H2 by lia. reflexivity.
Qed.
Lemma prefix_sponge r p m n : 0 < r -> Sample.prefix (stream r (pad_state r p (absorb r m))) n = sponge_bytes r p m (Z.of_nat n).
Proof.
  intros Hr. rewrite prefix_zseq. pose proof (shake_xof r p m 0 (Z.of_nat n) Hr ltac:(lia) ltac:(lia)) as E. unfold xof_of in E. rewrite Nat2Z.id in E.
  cbn [Z.add] in E. rewrite slice_all in E by (symmetry; apply sponge_bytes_len; lia). symmetry. exact E.
Qed.

(** ** C60: the samplers *)

(** poly_uniform computes the first 256 accepted candidates of SHAKE-128(seed | nonce), on
    every nonce and whatever the coefficient array and the 842-byte buffer contain. *)
Theorem C60_uniform : forall fuel a0 buf0 seed nonce, length a0 = 256%nat -> zlen buf0 = 842 -> zlen seed = 32 ->
  poly_uniform_c fuel a0 buf0 seed nonce =
  Ret (let a := firstn 256 (Sample.uniform_accepted (shake128_bytes (seed ++ [nonce mod 256; nonce / 256 mod 256]) (840 + 168 * Z.of_nat fuel))) in
       if (length a =? 256)%nat then Some a else None).
Proof.
  intros fuel a0 buf0 seed nonce Ha Hb Hs. rewrite poly_uniform_c_ok by (unfold zlen in *; lia). apply (f_equal Ret).
  set (s := stream 168 (st128 seed nonce)).
  transitivity (poly_uniform_x fuel (xof_of s)).
  { apply poly_uniform_x_ext. intros. apply stream128_x; lia. }
  rewrite C29_uniform by apply stream_byte. unfold s, st128. rewrite prefix_sponge by lia.
  replace (nonce_bytes nonce) with [nonce mod 256; nonce / 256 mod 256].
  - unfold shake128_bytes. replace (Z.of_nat (840 + 168 * fuel)) with (840 + 168 * Z.of_nat fuel) by lia. reflexivity.
  - unfold nonce_bytes, u8. rewrite Z.shiftr_div_pow2 by lia. reflexivity.
Qed.
Print Assumptions C60_uniform.
Theorem C60_uniform_eta : forall fuel a0 buf0 seed nonce, length a0 = 256%nat -> zlen buf0 = 136 -> zlen seed = 64 ->
  poly_uniform_eta_c fuel a0 buf0 seed nonce =
  Ret (let a := firstn 256 (Sample.eta_accepted (shake256_bytes (seed ++ [nonce mod 256; nonce / 256 mod 256]) (136 + 136 * Z.of_nat fuel))) in
       if (length a =? 256)%nat then Some a else None).
Proof.
  intros fuel a0 buf0 seed nonce Ha Hb Hs. rewrite poly_uniform_eta_c_ok by (unfold zlen in *; lia). apply (f_equal Ret).
  set (s := stream 136 (st256 seed nonce)).
  transitivity (poly_uniform_eta_x fuel (xof_of s)).
  { apply poly_uniform_eta_x_ext. intros. apply stream256_x; lia. }
  rewrite C29_eta by apply stream_byte. unfold s, st256. rewrite prefix_sponge by lia.
  replace (nonce_bytes nonce) with [nonce mod 256; nonce / 256 mod 256].
  - change (sponge_bytes 136 31) with shake256_bytes. replace (Z.of_nat (136 + 136 * fuel)) with (136 + 136 * Z.of_nat fuel) by lia. reflexivity.
  - unfold nonce_bytes, u8. rewrite Z.shiftr_div_pow2 by lia. reflexivity.
Qed.
Print Assumptions C60_uniform_eta.
(** poly_uniform_gamma1 decodes 576 bytes of SHAKE-256(seed | nonce) into 18-bit coefficients. *)
Theorem C60_uniform_gamma1 : forall buf0 seed nonce, zlen buf0 = 680 -> zlen seed = 64 ->
  exists a, poly_uniform_gamma1_c buf0 seed nonce = Ret a /\ Enc.poly_in (-131071) 131072 a /\
    Enc.value 18 (map (fun x => 131072 - x) a) = Enc.value 8 (shake256_bytes (seed ++ [nonce mod 256; nonce / 256 mod 256]) 576).
Proof.
  intros buf0 seed nonce Hb Hs. rewrite poly_uniform_gamma1_c_ok by assumption. eexists. split; [reflexivity|].
  set (s := stream 136 (st256 seed nonce)).
  assert (E: poly_uniform_gamma1 seed nonce = poly_uniform_gamma1_x (xof_of s)).
  { unfold poly_uniform_gamma1, poly_uniform_gamma1_x. now rewrite stream256_x by lia. }
  rewrite E. destruct (C29_mask s (stream_byte _ _)) as [H1 H2]. split; [exact H1|]. rewrite H2. unfold s, st256. rewrite prefix_sponge by lia.
  replace (nonce_bytes nonce) with [nonce mod 256; nonce / 256 mod 256]; [reflexivity|]. unfold nonce_bytes, u8. rewrite Z.shiftr_div_pow2 by lia. reflexivity.
Qed.
Print Assumptions C60_uniform_gamma1.
(** poly_challenge runs the specified shuffle on SHAKE-256 of the first 32 bytes of its input. *)
Theorem C60_challenge : forall fuel c0 buf0 seed, length c0 = 256%nat -> zlen buf0 = 136 -> 32 <= zlen seed ->
  exists r, poly_challenge_c fuel c0 buf0 seed = Ret r /\
  (forall c, r = Some c -> Enc.poly_in (-1) 1 c /\ Sample.nonzero c = 39 /\
     exists n, forall n', n <= n' -> Sample.challenge (shake256_bytes (firstn 32 seed) n') = Some c) /\
  (forall n c, 8 <= n <= Z.of_nat fuel -> Sample.challenge (shake256_bytes (firstn 32 seed) n) = Some c -> r = Some c).
Proof.
  intros fuel c0 buf0 seed Hc Hb Hs. rewrite poly_challenge_c_ok by (unfold zlen in *; lia). eexists. split; [reflexivity|].
  set (s := stream 136 (pad_state 136 0x1F (absorb 136 (slice seed 0 32)))).
  assert (E: poly_challenge fuel seed = poly_challenge_x fuel (xof_of s)).
  { apply poly_challenge_x_ext. intros. apply shake256_xof_x; lia. }
  rewrite E. replace (firstn 32 seed) with (slice seed 0 32) by reflexivity.
  assert (P: forall n, 0 <= n -> Sample.prefix s (Z.to_nat n) = shake256_bytes (slice seed 0 32) n).
  { intros n Hn. unfold s. rewrite prefix_sponge, Z2Nat.id by lia. reflexivity. }
  split.
  - intros c Ec. destruct (C29_challenge_sound s fuel c (stream_byte _ _) Ec) as (H1 & H2 & n & Hn). split; [exact H1|]. split; [exact H2|].
    exists (Z.of_nat n). intros n' Hn'. rewrite <- P by lia. apply Hn. lia.
  - intros n c Hn Ec. rewrite <- P in Ec by lia. apply (C29_challenge_terminates s (Z.to_nat n)); [apply stream_byte|lia|exact Ec].
Qed.
Print Assumptions C60_challenge.
(** The hypotheses are met for every content of the arrays (here: sevens and nines), and the
    samplers do succeed on an actual seed (evaluated when this file is compiled). *)
Example C60_witness : length (repeat 7 256) = 256%nat /\ zlen (repeat 9 842) = 842 /\ zlen (repeat 9 680) = 680 /\ zlen (repeat 9 136) = 136 /\
  zlen (zseq 0 32) = 32 /\ zlen (zseq 0 64) = 64.
Proof. repeat split. Qed.
Ltac expect_true b := let r := eval vm_compute in b in lazymatch r with true => idtac end.
Definition full (r : outcome (option (list Z))) : bool := match r with Ret (Some a) => (length a =? 256)%nat | _ => false end.
Goal True.
  expect_true (full (poly_uniform_c 1 (repeat 7 256) (repeat 9 842) (zseq 0 32) 513)).
  expect_true (full (poly_uniform_eta_c 2 (repeat 7 256) (repeat 9 136) (zseq 0 64) 513)).
  expect_true (full (poly_challenge_c 99 (repeat 7 256) (repeat 9 136) (zseq 0 64))).
exact I. Qed.

(** ** C61: sign.c with its buffers *)

(** Key generation never has undefined behaviour, whatever the local arrays and the caller's
    buffers contain, and writes exactly the specified keys to the start of the buffers. *)
Theorem C61_keygen : forall fuel seedbuf0 tr0 pk0 sk0 seed, zlen seedbuf0 = 128 -> zlen tr0 = 64 -> 1312 <= zlen pk0 -> 2560 <= zlen sk0 ->
  32 <= zlen seed -> bytes_ok seed ->
  exists r, keypair_seed_c fuel seedbuf0 tr0 pk0 sk0 seed = Ret r /\
  forall rc pk' sk', r = Some (rc, pk', sk') ->
    rc = 0 /\ exists pk sk, MLDSA.keygen (firstn 32 seed) pk sk /\ Enc.bytes 1312 pk /\ Enc.bytes 2560 sk /\ written pk0 0 pk pk' /\ written sk0 0 sk sk'.
Proof.
  intros fuel seedbuf0 tr0 pk0 sk0 seed L1 L2 L3 L4 L5 B. destruct (keypair_seed_c_ok fuel seedbuf0 tr0 pk0 sk0 seed L1 L2 L3 L4 L5 B) as (r & E & Ec).
  eexists. split; [exact Ec|]. intros rc pk' sk'. destruct r as [[pk sk]|]; cbn [spliced]; [|discriminate]. intros H. apply Some3_inj in H as (<- & <- & <-).
  split; [reflexivity|]. exists pk, sk.
  assert (E': keypair_seed fuel (slice seed 0 32) = Ret (Some (pk, sk))).
  { rewrite <- E. unfold keypair_seed. rewrite slice_slice by lia. reflexivity. }
  assert (L6: zlen (slice seed 0 32) = 32) by (apply zlen_slice; lia).
  destruct (HybridRealProofs.dil_key_shape fuel seed pk sk E) as (Lp & Bp & Lk & Bk).
  split; [change (firstn 32 seed) with (slice seed 0 32); now apply (keygen_sound fuel)|]. split; [split; assumption|]. split; [split; assumption|].
  split; apply splice_written; lia.
Qed.
Print Assumptions C61_keygen.
Theorem C61_keygen_complete : forall seed pk sk, 32 <= zlen seed -> bytes_ok seed -> MLDSA.keygen (firstn 32 seed) pk sk ->
  exists f, forall fuel seedbuf0 tr0 pk0 sk0, (f <= fuel)%nat -> zlen seedbuf0 = 128 -> zlen tr0 = 64 -> 1312 <= zlen pk0 -> 2560 <= zlen sk0 ->
  exists pk' sk', keypair_seed_c fuel seedbuf0 tr0 pk0 sk0 seed = Ret (Some (0, pk', sk')) /\ written pk0 0 pk pk' /\ written sk0 0 sk sk'.
Proof.
  intros seed pk sk L5 B HK. assert (L6: zlen (slice seed 0 32) = 32) by (apply zlen_slice; lia).
  destruct (keygen_complete (slice seed 0 32) pk sk L6 HK) as (f & Hf). exists f. intros fuel seedbuf0 tr0 pk0 sk0 Hfuel L1 L2 L3 L4.
  destruct (keypair_seed_c_ok fuel seedbuf0 tr0 pk0 sk0 seed L1 L2 L3 L4 L5 B) as (r & E & Ec). specialize (Hf fuel Hfuel).
  assert (E': keypair_seed fuel (slice seed 0 32) = keypair_seed fuel seed) by (unfold keypair_seed; rewrite slice_slice by lia; reflexivity).
  rewrite E', E in Hf. apply Ret_inj in Hf. subst r. rewrite Ec. cbn [spliced]. rewrite E in E'.
  destruct (HybridRealProofs.dil_key_shape fuel seed pk sk E) as (Lp & Bp & Lk & Bk).
  eexists _, _. split; [reflexivity|]. split; apply splice_written; lia.
Qed.
Print Assumptions C61_keygen_complete.

(** Signing: the message lies anywhere in memory, also inside the signature buffer. *)
Theorem C61_sign : forall fuel seedbuf0 mem so mo mlen sk, zlen seedbuf0 = 288 -> 2560 <= zlen sk -> bytes_ok sk ->
  0 <= so -> so + 2420 <= zlen mem -> 0 <= mo -> 0 <= mlen -> mo + mlen <= zlen mem ->
  exists r, sign_signature_c fuel seedbuf0 mem so mo mlen sk = Ret r /\
  forall rc mem' siglen, r = Some (rc, mem', siglen) ->
    rc = 0 /\ siglen = 2420 /\ exists sig, length sig = Z.to_nat 2420 /\ written mem so sig mem' /\
      (MLDSA.secret_key (slice sk 0 2560) -> MLDSA.sign (slice sk 0 2560) (slice mem mo mlen) sig).
Proof.
  intros fuel seedbuf0 mem so mo mlen sk L1 L2 B H1 H2 H3 H4 H5.
  destruct (sign_signature_c_ok fuel seedbuf0 mem so mo mlen sk L1 L2 B H1 H2 H3 H4 H5) as (r & E & Ec & HL).
  eexists. split; [exact Ec|]. intros rc mem' siglen. destruct r as [sig|]; cbn [sig_result]; [|discriminate]. intros H. apply Some3_inj in H as (<- & <- & <-).
  specialize (HL sig eq_refl). split; [reflexivity|]. split; [reflexivity|]. exists sig. split; [unfold zlen in HL; lia|]. split; [apply splice_written; lia|].
  intros HK. eapply sign_sound; eassumption.
Qed.
Print Assumptions C61_sign.
Theorem C61_sign_complete : forall sk m sig, 2560 <= zlen sk -> bytes_ok sk -> MLDSA.sign (slice sk 0 2560) m sig ->
  exists f, forall fuel seedbuf0 mem so mo, (f <= fuel)%nat -> zlen seedbuf0 = 288 -> 0 <= so -> so + 2420 <= zlen mem -> 0 <= mo -> mo + zlen m <= zlen mem ->
  slice mem mo (zlen m) = m ->
  exists mem', sign_signature_c fuel seedbuf0 mem so mo (zlen m) sk = Ret (Some (0, mem', 2420)) /\ written mem so sig mem'.
Proof.
  intros sk m sig L2 B HS. destruct (sign_complete m (slice sk 0 2560) sig HS) as (f & Hf). exists f.
  intros fuel seedbuf0 mem so mo Hfuel L1 H1 H2 H3 H5 Hm. pose proof (zlen_nonneg m).
  destruct (sign_signature_c_ok fuel seedbuf0 mem so mo (zlen m) sk L1 L2 B H1 H2 H3 ltac:(lia) H5) as (r & E & Ec & HL).
  rewrite Hm, Hf in E by assumption. apply Ret_inj in E. subst r. rewrite Ec. specialize (HL sig eq_refl).
  cbn [sig_result]. eexists. split; [reflexivity|]. apply splice_written; lia.
Qed.
Print Assumptions C61_sign_complete.

(** Verification, on any memory and any placement of signature and message. *)
Theorem C61_verify : forall fuel mu0 c20 buf0 mem so mo mlen pk, zlen mu0 = 64 -> zlen c20 = 32 -> zlen buf0 = 768 ->
  1312 <= zlen pk -> bytes_ok pk -> bytes_ok mem -> 0 <= so -> so + 2420 <= zlen mem -> 0 <= mo -> 0 <= mlen -> mo + mlen <= zlen mem ->
  exists r, sign_verify_c fuel mu0 c20 buf0 mem so 2420 mo mlen pk = Ret r /\
  (forall v, r = Some v ->
    (v = 0 /\ MLDSA.verify (slice pk 0 1312) (slice mem mo mlen) (slice mem so 2420)) \/
    (v = -1 /\ ~ MLDSA.verify (slice pk 0 1312) (slice mem mo mlen) (slice mem so 2420))).
Proof.
  intros fuel mu0 c20 buf0 mem so mo mlen pk L1 L2 L3 Lp Bp Bm H1 H2 H3 H4 H5. rewrite sign_verify_c_ok by (try assumption; lia).
  assert (Lpk: zlen (slice pk 0 1312) = 1312) by (apply zlen_slice; lia). assert (Bpk: bytes_ok (slice pk 0 1312)) by (now apply bytes_ok_slice).
  assert (Lg: zlen (slice mem so 2420) = 2420) by (apply zlen_slice; lia). assert (Bg: bytes_ok (slice mem so 2420)) by (now apply bytes_ok_slice).
  destruct (verify_spec fuel _ (slice mem mo mlen) _ Lpk Bpk Lg Bg) as (r & E & _). exists r. split; [exact E|]. intros v ->.
  apply (C55_verify_exact fuel); [split; assumption|split; assumption|exact E].
Qed.
Print Assumptions C61_verify.
Theorem C61_verify_length : forall fuel mu0 c20 buf0 mem so siglen mo mlen pk, siglen <> 2420 ->
  sign_verify_c fuel mu0 c20 buf0 mem so siglen mo mlen pk = Ret (Some (-1)).
Proof. intros. unfold sign_verify_c. destruct (Z.eqb_spec siglen 2420); [contradiction|reflexivity]. Qed.
Print Assumptions C61_verify_length.

(** ** C62: crypto_sign and crypto_sign_open when message and signed message share memory *)

(** The message may start at the signed-message buffer (the documented in-place call), or
    anywhere that does not lie strictly inside the place it is moved to. *)
Theorem C62_sign_in_place : forall fuel seedbuf0 mem so mo mlen sk, zlen seedbuf0 = 288 -> 2560 <= zlen sk -> bytes_ok sk ->
  0 <= so -> 0 <= mlen < 2 ^ 63 -> so + 2420 + mlen <= zlen mem -> 0 <= mo -> mo + mlen <= zlen mem ->
  mo <= so + 2420 \/ so + 2420 + mlen <= mo ->
  exists r, crypto_sign_c fuel seedbuf0 mem so mo mlen sk = Ret r /\
  forall rc mem' smlen, r = Some (rc, mem', smlen) ->
    rc = 0 /\ smlen = 2420 + mlen /\ exists sig, length sig = Z.to_nat 2420 /\ written mem so (sig ++ slice mem mo mlen) mem' /\
      (MLDSA.secret_key (slice sk 0 2560) -> MLDSA.sign (slice sk 0 2560) (slice mem mo mlen) sig).
Proof.
  intros fuel seedbuf0 mem so mo mlen sk L1 L2 B H1 H2 H3 H4 H5 H6.
  destruct (crypto_sign_c_ok fuel seedbuf0 mem so mo mlen sk L1 L2 B H1 ltac:(lia) H3 H4 H5 H6) as (r & E & Ec & HL).
  eexists. split; [exact Ec|]. intros rc mem' smlen. unfold crypto_sign in E.
  assert (LS: zlen (slice sk 0 2560) = 2560) by (apply zlen_slice; lia). assert (BS: bytes_ok (slice sk 0 2560)) by (now apply bytes_ok_slice).
  destruct (sign_signature fuel (slice mem mo mlen) (slice sk 0 2560)) as [[sig|]|] eqn:ES; cbn [bind] in E; [|apply Ret_inj in E; subst r; discriminate|discriminate E].
  apply Ret_inj in E. subst r. cbn [signed_result]. intros H. apply Some3_inj in H as (<- & <- & <-). specialize (HL _ eq_refl).
  split; [reflexivity|]. split; [unfold u64; change (2 ^ 63) with 9223372036854775808 in H2; change (2 ^ 64) with 18446744073709551616; apply Z.mod_small; lia|].
  destruct (HybridRealProofs.dil_sig_shape fuel _ _ sig LS BS ES) as [Lg _]. exists sig. split; [unfold zlen in Lg; lia|].
  split; [apply splice_written; lia|]. intros HK. eapply sign_sound; eassumption.
Qed.
Print Assumptions C62_sign_in_place.

(** Opening: on success exactly the message bytes are written, on failure nothing is. *)
Theorem C62_open_in_place : forall fuel mu0 c20 buf0 mem so smlen mo mlen0 pk, zlen mu0 = 64 -> zlen c20 = 32 -> zlen buf0 = 768 ->
  1312 <= zlen pk -> bytes_ok pk -> bytes_ok mem -> 0 <= so -> 2420 <= smlen -> so + smlen <= zlen mem -> 0 <= mo -> mo + (smlen - 2420) <= zlen mem ->
  mo <= so + 2420 \/ so + smlen <= mo ->
  exists r, sign_open_c fuel mu0 c20 buf0 mem so smlen mo mlen0 pk = Ret r /\
  forall rc mem' mlen, r = Some (rc, mem', mlen) ->
    (rc = 0 /\ mlen = smlen - 2420 /\ MLDSA.verify (slice pk 0 1312) (slice mem (so + 2420) mlen) (slice mem so 2420) /\
       written mem mo (slice mem (so + 2420) mlen) mem') \/
    (rc < 0 /\ mem' = mem /\ ~ MLDSA.verify (slice pk 0 1312) (slice mem (so + 2420) (smlen - 2420)) (slice mem so 2420)).
Proof.
  intros fuel mu0 c20 buf0 mem so smlen mo mlen0 pk L1 L2 L3 Lp Bp Bm H1 H2 H3 H4 H5 H6. rewrite sign_open_c_ok by assumption.
  assert (Lpk: zlen (slice pk 0 1312) = 1312) by (apply zlen_slice; lia). assert (Bpk: bytes_ok (slice pk 0 1312)) by (now apply bytes_ok_slice).
  assert (Lg: zlen (slice mem so 2420) = 2420) by (apply zlen_slice; lia). assert (Bg: bytes_ok (slice mem so 2420)) by (now apply bytes_ok_slice).
  destruct (verify_spec fuel _ (slice mem (so + 2420) (smlen - 2420)) _ Lpk Bpk Lg Bg) as (v & E & _). rewrite E. cbn [bind].
  eexists. split; [reflexivity|]. intros rc mem' mlen. destruct v as [v|]; cbn [opened_result]; [|discriminate].
  apply (C55_verify_exact fuel) in E; [|split; assumption|split; assumption].
  destruct E as [[-> HV]|[-> HV]].
  - change (0 =? 0) with true. cbv iota. intros H. apply Some3_inj in H as (<- & <- & <-). left. split; [reflexivity|]. split; [reflexivity|]. split; [exact HV|].
    rewrite slice_slice by lia. apply splice_written; [lia|]. rewrite zlen_slice; lia.
  - change (-1 =? 0) with false. cbv iota. intros H. apply Some3_inj in H as (<- & <- & <-). right. split; [lia|]. split; [reflexivity|exact HV].
Qed.
Print Assumptions C62_open_in_place.

(** A memory in which the hypotheses of C61 and C62 hold with message and signature buffer at
    the same address (so = mo), and one with a message that overlaps its destination. *)
Example C62_witness : let mem := repeat 65 4000 in
  (0 <= 10 /\ 10 + 2420 + 1500 <= zlen mem /\ 10 + 1500 <= zlen mem /\ 10 <= 10 + 2420) /\ slice mem 10 1500 = repeat 65 1500 /\
  (0 <= 10 /\ 1000 + 1500 <= zlen mem /\ 1000 <= 10 + 2420) /\ bytes_ok mem.
Proof.
  cbv zeta. split; [vm_compute; repeat split; discriminate|]. split; [vm_compute; reflexivity|]. split; [vm_compute; repeat split; discriminate|].
  apply Forall_forall. intros x Hx. apply repeat_spec in Hx. subst x. split; lia.
Qed.
