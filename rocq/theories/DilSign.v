(** Model of dilithium2/sign.c.

    Hash calls are written with the one-shot functions [shake256_bytes]; by C20 that is
    what the incremental calls of the code compute.  All loops of unbounded length
    (rejection sampling, rejection of signature attempts) take a fuel argument;
    [Ret None] means that the fuel did not suffice. *)
From Verif Require Import Base SpongePure DilReduce Tab DilNtt DilPoly DilVec.

Notation "x <~ e ;; k" := (match e with Some x => k | None => Ret None end)
  (at level 61, e at next level, right associativity).
Notation "' p <~ e ;; k" := (match e with Some p => k | None => Ret None end)
  (at level 61, p pattern, e at next level, right associativity).

(** sign.c L45-64: everything after the seed expansion.  Result: (pk, sk) *)
Definition keypair_from (fuel : nat) (rho rhoprime key : list Z) : outcome (option (list Z * list Z)) :=
  mat <~ matrix_expand fuel rho ;;
  s1 <~ vec_uniform_eta fuel rhoprime 0 ;;
  s2 <~ vec_uniform_eta fuel rhoprime 4 ;;
  s1hat <- vec_ntt s1 ;;
  t <- matrix_pointwise mat s1hat ;;
  t <- vec_reduce t ;;
  t <- vec_invntt_tomont t ;;
  t <- vec_add t s2 ;;
  t <- vec_caddq t ;;
  '(t1, t0) <- vec_power2round t ;;
  pk <- pack_pk rho t1 ;;
  let tr := shake256_bytes pk 64 in
  sk <- pack_sk rho tr key t0 s1 s2 ;;
  Ret (Some (pk, sk)).
(** sign.c L23-68: crypto_sign_keypair_seed *)
Definition keypair_seed (fuel : nat) (seed : list Z) : outcome (option (list Z * list Z)) :=
  let seedbuf := shake256_bytes (slice seed 0 32) 128 in
  keypair_from fuel (slice seedbuf 0 32) (slice seedbuf 32 64) (slice seedbuf 96 32).

(** sign.c L150-205: one attempt.  Result: [Some None] = goto rej, [Some (Some sig)] = done *)
Definition sign_attempt (fuel : nat) (mat : list vec) (s1 s2 t0 : vec) (mu rhoprime : list Z) (nonce : Z)
  : outcome (option (option (list Z))) :=
  let y := vec_uniform_gamma1 rhoprime nonce in
  z <- vec_ntt y ;;
  w <- matrix_pointwise mat z ;;
  w <- vec_reduce w ;;
  w <- vec_invntt_tomont w ;;
  w <- vec_caddq w ;;
  '(w1, w0) <- vec_decompose w ;;
  pw1 <- vec_pack_w1 w1 ;;
  let c := shake256_bytes (mu ++ pw1) 32 in
  cp <~ poly_challenge fuel c ;;
  cp <- poly_ntt cp ;;
  z <- vec_pointwise_poly cp s1 ;;
  z <- vec_invntt_tomont z ;;
  z <- vec_add z y ;;
  z <- vec_reduce z ;;
  r <- vec_chknorm z (GAMMA1 - BETA) ;;
  if negb (r =? 0) then Ret (Some None) else
  h <- vec_pointwise_poly cp s2 ;;
  h <- vec_invntt_tomont h ;;
  w0 <- vec_sub w0 h ;;
  w0 <- vec_reduce w0 ;;
  r <- vec_chknorm w0 (GAMMA2 - BETA) ;;
  if negb (r =? 0) then Ret (Some None) else
  h <- vec_pointwise_poly cp t0 ;;
  h <- vec_invntt_tomont h ;;
  h <- vec_reduce h ;;
  r <- vec_chknorm h GAMMA2 ;;
  if negb (r =? 0) then Ret (Some None) else
  w0 <- vec_add w0 h ;;
  '(h, n) <- vec_make_hint w0 w1 ;;
  if OMEGA <? n then Ret (Some None) else
  sig <- pack_sig c z h ;;
  Ret (Some (Some sig)).
(** the rejection loop, sign.c L148-205; nonce is a uint16_t *)
Fixpoint rej_loop (att : Z -> outcome (option (option (list Z)))) (fuel : nat) (nonce : Z) : outcome (option (list Z)) :=
  match fuel with
  | O => Ret None
  | S fuel =>
      r <- att nonce ;;
      r <~ r ;;
      match r with Some sig => Ret (Some sig) | None => rej_loop att fuel (u16 (nonce + 1)) end
  end.
(** sign.c L108-211: crypto_sign_signature; the code always returns 0 *)
Definition sign_signature (fuel : nat) (m sk : list Z) : outcome (option (list Z)) :=
  let '(rho, tr, key, t0, s1, s2) := unpack_sk sk in
  let mu := shake256_bytes (tr ++ m) 64 in
  let rhoprime := shake256_bytes (key ++ zeros 32 ++ mu) 64 in
  mat <~ matrix_expand fuel rho ;;
  s1 <- vec_ntt s1 ;;
  s2 <- vec_ntt s2 ;;
  t0 <- vec_ntt t0 ;;
  rej_loop (sign_attempt fuel mat s1 s2 t0 mu rhoprime) fuel 0.

(** sign.c L229-242: crypto_sign; the signed message (smlen is its length) *)
Definition crypto_sign (fuel : nat) (m sk : list Z) : outcome (option (list Z)) :=
  r <- sign_signature fuel m sk ;;
  sig <~ r ;;
  Ret (Some (sig ++ m)).

(** sign.c L257-328: crypto_sign_verify; the return value *)
Definition sign_verify (fuel : nat) (sig : list Z) (siglen : Z) (m pk : list Z) : outcome (option Z) :=
  if negb (siglen =? 2420) then Ret (Some (-1)) else
  let '(rho, t1) := unpack_pk pk in
  s <- unpack_sig sig ;;
  match s with
  | None => Ret (Some (-1))
  | Some (c, z, h) =>
      r <- vec_chknorm z (GAMMA1 - BETA) ;;
      if negb (r =? 0) then Ret (Some (-1)) else
      let mu := shake256_bytes (slice pk 0 1312) 64 in
      let mu := shake256_bytes (mu ++ m) 64 in
      cp <~ poly_challenge fuel c ;;
      mat <~ matrix_expand fuel rho ;;
      z <- vec_ntt z ;;
      w1 <- matrix_pointwise mat z ;;
      cp <- poly_ntt cp ;;
      t1 <- vec_shiftl t1 ;;
      t1 <- vec_ntt t1 ;;
      t1 <- vec_pointwise_poly cp t1 ;;
      w1 <- vec_sub w1 t1 ;;
      w1 <- vec_reduce w1 ;;
      w1 <- vec_invntt_tomont w1 ;;
      w1 <- vec_caddq w1 ;;
      w1 <- vec_use_hint w1 h ;;
      buf <- vec_pack_w1 w1 ;;
      let c2 := shake256_bytes (mu ++ buf) 32 in
      Ret (Some (if forallb (fun i => ix c i =? ix c2 i) (zseq 0 32) then 0 else -1))
  end.

(** sign.c L344-365: crypto_sign_open.  Arguments: the caller's message buffer and length
    variable; result: return value and their new contents. *)
Definition sign_open (fuel : nat) (mbuf : list Z) (mlen : Z) (sm : list Z) (smlen : Z) (pk : list Z)
  : outcome (option (Z * list Z * Z)) :=
  if smlen <? 2420 then Ret (Some (-1, mbuf, mlen)) else
  let mlen := smlen - 2420 in
  r <- sign_verify fuel (slice sm 0 2420) 2420 (slice sm 2420 mlen) pk ;;
  r <~ r ;;
  if negb (r =? 0) then Ret (Some (-2, mbuf, mlen)) else
  mbuf <- copy mbuf 0 sm 2420 mlen ;;
  Ret (Some (0, mbuf, mlen)).
