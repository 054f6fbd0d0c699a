(** Property theorems about what an observer of branches and addresses learns from the hash
    functions and the seed expander (C67).  Vocabulary as in PropsCt.v. *)
From Verif Require Import Base Keccak KeccakSpec Sponge SpongePure SpongeProofs2 ShakePrng PropsSponge CtBase CtTweet CtKeccak CtKeccakProofs.
Ltac Zify.zify_post_hook ::= idtac.
Local Opaque KeccakF1600_StatePermute keccak_f_bits.

(** [r] is SHAKE's rate in bytes: 168 for SHAKE128, 136 for SHAKE256 *)
Theorem C67_shake128 : forall outlen inlen, exists T, forall output input,
  0 <= outlen <= zlen output -> 0 <= inlen <= zlen input -> bytes_ok input ->
  trace (shake_l Zops SHAKE128_RATE output outlen input inlen) = T /\
  exists d, overwritten output outlen d (value (shake_l Zops SHAKE128_RATE output outlen input inlen)) /\
    bits_of_bytes d = SHAKE128 (bits_of_bytes (slice input 0 inlen)) (8 * Z.to_nat outlen).
Proof.
  intros ol il. exists (trace (shake_l Zops SHAKE128_RATE [] ol [] il)). intros out inp H1 H2 H3. split; [apply ct_shake|].
  destruct (C21_shake128_is_fips202 out ol inp il H1 H2 H3) as (d & o' & E & W). exists d.
  now rewrite (era_shake _ _ _ _ _ _ E).
Qed.
Print Assumptions C67_shake128.
Theorem C67_shake256 : forall outlen inlen, exists T, forall output input,
  0 <= outlen <= zlen output -> 0 <= inlen <= zlen input -> bytes_ok input ->
  trace (shake_l Zops SHAKE256_RATE output outlen input inlen) = T /\
  exists d, overwritten output outlen d (value (shake_l Zops SHAKE256_RATE output outlen input inlen)) /\
    bits_of_bytes d = SHAKE256 (bits_of_bytes (slice input 0 inlen)) (8 * Z.to_nat outlen).
Proof.
  intros ol il. exists (trace (shake_l Zops SHAKE256_RATE [] ol [] il)). intros out inp H1 H2 H3. split; [apply ct_shake|].
  destruct (C21_shake256_is_fips202 out ol inp il H1 H2 H3) as (d & o' & E & W). exists d.
  now rewrite (era_shake _ _ _ _ _ _ E).
Qed.
Print Assumptions C67_shake256.
Theorem C67_sha3 : forall inlen, exists T256 T384 T512, forall output input,
  0 <= inlen <= zlen input -> bytes_ok input -> 64 <= zlen output ->
  (trace (sha3_l Zops SHA3_256_RATE 32 output input inlen) = T256 /\
   exists d, overwritten output 32 d (value (sha3_l Zops SHA3_256_RATE 32 output input inlen)) /\
     bits_of_bytes d = SHA3_256 (bits_of_bytes (slice input 0 inlen))) /\
  (trace (sha3_l Zops SHA3_384_RATE 48 output input inlen) = T384 /\
   exists d, overwritten output 48 d (value (sha3_l Zops SHA3_384_RATE 48 output input inlen)) /\
     bits_of_bytes d = SHA3_384 (bits_of_bytes (slice input 0 inlen))) /\
  (trace (sha3_l Zops SHA3_512_RATE 64 output input inlen) = T512 /\
   exists d, overwritten output 64 d (value (sha3_l Zops SHA3_512_RATE 64 output input inlen)) /\
     bits_of_bytes d = SHA3_512 (bits_of_bytes (slice input 0 inlen))).
Proof.
  intros il. exists (trace (sha3_l Zops SHA3_256_RATE 32 [] [] il)), (trace (sha3_l Zops SHA3_384_RATE 48 [] [] il)), (trace (sha3_l Zops SHA3_512_RATE 64 [] [] il)).
  intros out inp H1 H2 H3. repeat apply conj; try apply ct_sha3.
  - destruct (C21_sha3_256_is_fips202 out inp il ltac:(lia) H1 H2) as (d & o' & E & W). exists d. now rewrite (era_sha3 _ _ _ _ _ _ E).
  - destruct (C21_sha3_384_is_fips202 out inp il ltac:(lia) H1 H2) as (d & o' & E & W). exists d. now rewrite (era_sha3 _ _ _ _ _ _ E).
  - destruct (C21_sha3_512_is_fips202 out inp il ltac:(lia) H1 H2) as (d & o' & E & W). exists d. now rewrite (era_sha3 _ _ _ _ _ _ E).
Qed.
Print Assumptions C67_sha3.
(** The incremental functions: absorbing any chunks, finalizing, and squeezing pieces of any sizes
    has a trace that depends on the lengths of the chunks and of the pieces only. *)
Theorem C67_incremental : forall r lens sizes, r = SHAKE128_RATE \/ r = SHAKE256_RATE ->
  exists T, forall chunks output,
  map zlen chunks = lens -> Forall bytes_ok chunks -> Forall (fun n => 0 <= n) sizes -> zlen output = sum sizes ->
  trace (inc_shake_l Zops r chunks sizes) = T /\
  shake_oneshot r output (sum sizes) (concat chunks) (zlen (concat chunks)) = Ret (value (inc_shake_l Zops r chunks sizes)).
Proof.
  intros r lens sizes Hr. exists (trace (inc_shake_l Zops r (map zeros lens) sizes)). intros chunks out El Hb Hs Ho. split.
  - apply ct_inc_shake. rewrite map_map. subst lens. rewrite map_map. apply map_ext. intros m. rewrite zlen_zeros; [reflexivity|apply zlen_nonneg].
  - pose proof (C20_incremental_is_oneshot_shake r chunks sizes out Hr Hb Hs Ho) as E.
    destruct (shake_oneshot r out (sum sizes) (concat chunks) (zlen (concat chunks))) as [v|] eqn:F.
    + rewrite (era_inc_shake r chunks sizes v E). reflexivity.
    + exfalso. pose proof (sum_nonneg sizes Hs) as N. pose proof (zlen_nonneg (concat chunks)) as N2.
      assert (Bc : bytes_ok (concat chunks)) by (now apply Forall_concat).
      destruct Hr as [-> | ->].
      * destruct (C21_shake128_is_fips202 out (sum sizes) (concat chunks) (zlen (concat chunks)) ltac:(lia) ltac:(lia) Bc) as (? & ? & F' & _).
        unfold shake128 in F'. rewrite F in F'. discriminate F'.
      * destruct (C21_shake256_is_fips202 out (sum sizes) (concat chunks) (zlen (concat chunks)) ltac:(lia) ltac:(lia) Bc) as (? & ? & F' & _).
        unfold shake256 in F'. rewrite F in F'. discriminate F'.
Qed.
Print Assumptions C67_incremental.
(** The seed expander of the hybrid key generation: nothing about the seed or the expanded bytes *)
Theorem C67_seedexpander : forall seedlen outlen, exists T, forall seed out,
  bytes_ok seed -> 32 <= seedlen <= zlen seed -> seedlen < outlen <= zlen out ->
  trace (seedexpander_wrapper_l Zops seed seedlen out outlen) = T /\
  exists d out', value (seedexpander_wrapper_l Zops seed seedlen out outlen) = (0, out') /\ overwritten out outlen d out' /\
    bits_of_bytes d = SHAKE256 (bits_of_bytes (slice seed 0 seedlen ++ [2])) (8 * Z.to_nat outlen).
Proof.
  intros sl ol. exists (trace (seedexpander_wrapper_l Zops [] sl [] ol)). intros seed out Hb Hs Ho. split; [apply ct_seedexpander_wrapper|].
  destruct (C19_output_is_shake256 seed sl out ol Hb Hs Ho) as (d & o' & E & W & B). exists d, o'.
  rewrite (era_seedexpander_wrapper _ _ _ _ _ E). repeat split; [apply W|apply W|exact B].
Qed.
Print Assumptions C67_seedexpander.
(** Non-vacuity: concrete lengths, and the trace is not empty: a SHAKE256 call that reads 3 bytes and
    produces 4 has one permutation per block. *)
Example C67_instance : exists T, forall input, bytes_ok input -> zlen input = 3 ->
  trace (shake_l Zops SHAKE256_RATE [0;0;0;0] 4 input 3) = T /\ Nat.ltb 500 (length T) = true.
Proof.
  exists (trace (shake_l Zops SHAKE256_RATE [] 4 [] 3)). intros input _ _. split; [apply ct_shake|]. vm_compute. reflexivity.
Qed.
(** different lengths do show: the observer sees something *)
Example C67_lengths_visible : trace (seedexpander_wrapper_l Zops [] 32 [] 96) <> trace (seedexpander_wrapper_l Zops [] 31 [] 96).
Proof. intros H. apply (f_equal (fun l => nth 0 l (ERd 0))) in H. discriminate H. Qed.
