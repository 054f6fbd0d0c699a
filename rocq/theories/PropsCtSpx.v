(** C68: what the branches and addresses of SPHINCS+ key generation and signing reveal. *)
From Coq Require Import ZifyBool ZifyNat.
From Verif Require Import Base Sha512Spec TweetSha SpongePure SpxSpec Spx SpongeProofs2 BufLemmas DilBuf SpxBuf SpxBufProofs SpxBufTop CtBase CtKeccak CtSpx CtSpxProofs CtSpxTrace CtSpxSign.
Local Open Scope Z_scope.
Ltac Zify.zify_post_hook ::= idtac.
#[local] Opaque Keccak.KeccakF1600_StatePermute.

(** What a run finds in its uninitialised local arrays: [loc n] bytes and [locw n] words,
    of the right sizes and otherwise arbitrary. *)
Definition stack_ok (loc locw : Z -> list Z) : Prop :=
  (forall n, 0 <= n -> zlen (loc n) = n) /\ (forall n, bytes_ok (loc n)) /\ (forall n, 0 <= n -> zlen (locw n) = n).

(** Key generation has one trace: the same sequence of branches and addresses whatever the
    seed (whose first 64 bytes are the secret ones) and whatever was on the stack, while it
    writes the FIPS 205 key pair of that seed. *)
Theorem C68_keygen_has_one_trace : exists T, forall loc locw pk sk seed, stack_ok loc locw ->
  64 <= zlen pk -> 128 <= zlen sk -> bytes_ok sk -> zlen seed = 96 -> bytes_ok seed ->
  trace (seed_keypair_l Zops loc locw pk sk seed) = T /\
  value (seed_keypair_l Zops loc locw pk sk seed) =
    (0, splice pk 0 (fst (slh_keygen shake256_bytes seed)), splice sk 0 (snd (slh_keygen shake256_bytes seed))).
Proof.
  exists (trace (seed_keypair_l Zops zeros zeros (zeros 64) (zeros 128) (zeros 96))).
  intros loc locw pk sk seed (L1 & L2 & L3) Hp Hs Bs Ld Bd. split.
  - apply ct_seed_keypair; try assumption; try (intros; apply bytes_ok_zeros); try (intros; apply zlen_zeros; assumption); first [exact (Z.le_refl 128) | reflexivity].
  - apply era_seed_keypair. apply seed_keypair_c_ok; (assumption || reflexivity).
Qed.
Print Assumptions C68_keygen_has_one_trace.

(** Signing computes the FIPS 205 signature. Two runs over the same message with keys that
    share their public half (PK.seed, PK.root), whatever their secret seeds, PRF keys, random
    inputs, uninitialised stack contents and other memory contents, have the same trace as
    soon as they output the same signature: branches and addresses reveal nothing that the
    public key, the message and the signature do not already determine. *)
Theorem C68_sign_trace_follows_from_signature : forall loc locw loc' locw' mem mem' so siglen siglen' mo mlen sk sk' optrand optrand',
  stack_ok loc locw -> stack_ok loc' locw' ->
  zlen sk = 128 -> bytes_ok sk -> zlen sk' = 128 -> bytes_ok sk' -> slice sk 64 64 = slice sk' 64 64 ->
  0 <= so -> so + 49856 <= zlen mem -> so + 49856 <= zlen mem' ->
  0 <= mo -> 0 <= mlen -> mo + mlen <= zlen mem -> mo + mlen <= zlen mem' -> mo + mlen <= so \/ so + 32 <= mo \/ mlen = 0 ->
  slice mem mo mlen = slice mem' mo mlen -> zlen optrand = 32 -> zlen optrand' = 32 ->
  let run := sign_signature_l Zops loc locw 0 optrand mem so siglen mo mlen sk in
  let run' := sign_signature_l Zops loc' locw' 0 optrand' mem' so siglen' mo mlen sk' in
  let sig := slh_sign_sk shake256_bytes (slice mem mo mlen) sk optrand in
  let sig' := slh_sign_sk shake256_bytes (slice mem' mo mlen) sk' optrand' in
  value run = (0, 49856, splice mem so sig) /\ value run' = (0, 49856, splice mem' so sig') /\ (sig = sig' -> trace run = trace run').
Proof.
  intros loc locw loc' locw' mem mem' so siglen siglen' mo mlen sk sk' optrand optrand' (L1 & L2 & L3) (L1' & L2' & L3') Lsk Bsk Lsk' Bsk' Epk Hso Hl Hl' Hmo Hml Hmm Hmm' Hdis EM Lo Lo'. cbv zeta.
  split; [|split].
  - apply era_sign_signature. apply sign_signature_c_ok; (assumption || reflexivity).
  - apply era_sign_signature. apply sign_signature_c_ok; (assumption || reflexivity).
  - intros E. apply (sign_trace loc locw loc' locw' L1 L2 L3 L1' L2' L3' shake256_bytes eq_refl); assumption.
Qed.
Print Assumptions C68_sign_trace_follows_from_signature.
(** When the random generator fails, the run reveals that and nothing else. *)
Theorem C68_failed_sign_has_one_trace : exists T, forall loc locw rc bs mem so siglen mo mlen sk,
  rc <> 0 -> zlen bs = 32 ->
  trace (sign_signature_l Zops loc locw rc bs mem so siglen mo mlen sk) = T /\
  value (sign_signature_l Zops loc locw rc bs mem so siglen mo mlen sk) = (-1, siglen, mem).
Proof.
  exists (trace (sign_signature_l Zops zeros zeros 1 (zeros 32) [] 0 0 0 0 [])). intros loc locw rc bs mem so siglen mo mlen sk Hrc Lb.
  assert (E : negb (rc =? 0) = true) by lia. split.
  - unfold sign_signature_l. rewrite E, Lb. change (zlen (zeros 32)) with 32. change (negb (1 =? 0)) with true. unfold lif.
    apply ct_bind; [apply ct_copy|intros]. apply ct_bind; [apply ct_copy|intros]. cbv zeta. do 2 (apply ct_bind; [reflexivity|intros]). apply ct_bind; [apply ct_copy|reflexivity].
  - unfold sign_signature_l. rewrite !value_bind. rewrite E. reflexivity.
Qed.
Print Assumptions C68_failed_sign_has_one_trace.

(** The three secret-dependent steps of a signature, each with two unrelated sets of secrets.
    The randomiser R: one trace for every secret PRF key, random input and message of one
    length. *)
Theorem C68_randomiser_trace : forall mem mem' sk sk' optrand optrand' so mo mlen,
  zlen sk = 128 -> zlen sk' = 128 -> zlen optrand = 32 -> zlen optrand' = 32 ->
  0 <= mo -> 0 <= mlen -> mo + mlen <= zlen mem -> mo + mlen <= zlen mem' ->
  trace (gen_message_random_l Zops mem so sk 32 optrand mo mlen) = trace (gen_message_random_l Zops mem' so sk' 32 optrand' mo mlen).
Proof. intros. apply ct_pieces. cbn [map]. unfold lptr. rewrite !zlen_slice by lia. reflexivity. Qed.
Print Assumptions C68_randomiser_trace.
(** The FORS signature: the trace depends on the (public) 40-byte message digest alone. *)
Theorem C68_fors_trace : forall loc locw loc' locw' ps ss ps' ss' mem mem' off pk pk' md addr addr',
  stack_ok loc locw -> stack_ok loc' locw' -> bytes_ok md -> zlen md = 40 ->
  trace (fors_sign_l Zops loc locw (ps, ss) mem off pk md addr) = trace (fors_sign_l Zops loc' locw' (ps', ss') mem' off pk' md addr').
Proof. intros until addr'. intros (L1 & L2 & L3) (L1' & L2' & L3') Hb Hl. apply ct_fors_sign; assumption. Qed.
Print Assumptions C68_fors_trace.
(** A layer of the hypertree: the trace depends on the root it signs (which the verifier
    recomputes) and on the leaf index (part of the message digest) alone. *)
Theorem C68_layer_trace : forall loc locw loc' locw' ps ss ps' ss' i mem mem' off root wa ta tr wa' ta' tr' leaf,
  stack_ok loc locw -> stack_ok loc' locw' -> zlen root = 32 -> bytes_ok root ->
  trace (sign_layer_l Zops loc locw (ps, ss) i (mem, off, root, wa, ta, tr, leaf)) = trace (sign_layer_l Zops loc' locw' (ps', ss') i (mem', off, root, wa', ta', tr', leaf)).
Proof. intros until leaf. intros (L1 & L2 & L3) (L1' & L2' & L3') Hr Hb. apply ct_sign_layer; assumption. Qed.
Print Assumptions C68_layer_trace.

(** The hypotheses are met. *)
Definition ones (n : Z) : list Z := repeat 255 (Z.to_nat n).
Lemma ones_ok : stack_ok ones ones.
Proof.
  assert (Z1 : forall n, 0 <= n -> zlen (ones n) = n) by (intros n Hn; unfold ones, zlen; rewrite repeat_length; lia).
  split; [exact Z1|]. split; [|exact Z1]. intros n. unfold ones, bytes_ok. apply Forall_forall. intros x Hx. apply repeat_spec in Hx. subst. unfold byte_ok. lia.
Qed.
Lemma zeros_ok : stack_ok zeros zeros.
Proof. split; [intros; now apply zlen_zeros|]. split; [intros; apply bytes_ok_zeros|intros; now apply zlen_zeros]. Qed.
(** Two seeds that differ in every byte, on two different stacks: one trace. *)
Example C68_ex_keygen : trace (seed_keypair_l Zops zeros zeros (zeros 64) (zeros 128) (zeros 96)) = trace (seed_keypair_l Zops ones ones (ones 64) (ones 128) (ones 96)).
Proof.
  destruct C68_keygen_has_one_trace as (T & K). destruct ones_ok as (O1 & O2 & O3).
  destruct (K zeros zeros (zeros 64) (zeros 128) (zeros 96) zeros_ok ltac:(rewrite zlen_zeros; lia) ltac:(rewrite zlen_zeros; lia) (bytes_ok_zeros 128) ltac:(rewrite zlen_zeros; lia) (bytes_ok_zeros 96)) as (-> & _).
  destruct (K ones ones (ones 64) (ones 128) (ones 96) ones_ok ltac:(rewrite O1; lia) ltac:(rewrite O1; lia) (O2 128) ltac:(rewrite O1; lia) (O2 96)) as (-> & _). reflexivity.
Qed.
(** Signing the same 5-byte message with one key on two stacks and in two memories. *)
Example C68_ex_sign : let sk := ones 128 in let M := [1; 2; 3; 4; 5] in
  trace (sign_signature_l Zops zeros zeros 0 (zeros 32) (M ++ zeros 49856) 5 0 0 5 sk) = trace (sign_signature_l Zops ones ones 0 (zeros 32) (M ++ ones 49856) 5 7 0 5 sk).
Proof.
  cbv zeta. destruct ones_ok as (O1 & O2 & O3). set (M := [1; 2; 3; 4; 5]). assert (LM : zlen M = 5) by reflexivity.
  assert (L1 : zlen (M ++ zeros 49856) = 49861) by (rewrite zlen_app, zlen_zeros by lia; lia).
  assert (L2 : zlen (M ++ ones 49856) = 49861) by (rewrite zlen_app, O1 by lia; lia).
  assert (S1 : slice (M ++ zeros 49856) 0 5 = M) by (rewrite slice_app_l by lia; apply slice_all; lia).
  assert (S2 : slice (M ++ ones 49856) 0 5 = M) by (rewrite slice_app_l by lia; apply slice_all; lia).
  pose proof (C68_sign_trace_follows_from_signature zeros zeros ones ones (M ++ zeros 49856) (M ++ ones 49856) 5 0 7 0 5 (ones 128) (ones 128) (zeros 32) (zeros 32)) as P.
  rewrite L1, L2, S1, S2 in P. apply P; try reflexivity; try lia; try apply zeros_ok; try apply ones_ok; try (apply O1; lia); try apply O2; try (apply zlen_zeros; lia).
Qed.
