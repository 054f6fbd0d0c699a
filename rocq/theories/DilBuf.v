(** The samplers of dilithium2/poly.c and the functions of dilithium2/sign.c with the
    arrays, the streaming hash contexts and the memory layout of the code.

    DilPoly.v and DilSign.v write these functions with the hash as a function of the
    whole input.  Here every hash call is the call the code makes ([Sponge.v]), every
    array has its declared size and every access is checked.  Local arrays start with
    arbitrary contents (arguments ending in 0).  Arithmetic on polynomials and their
    encodings is that of DilVec.v. *)
From Verif Require Import Base Sponge DilReduce Tab DilNtt DilPoly DilVec DilSign.

(** ** symmetric-shake.c L6-15 and L17-26 *)
Definition shake128_stream_init (seed : list Z) (nonce : Z) : outcome inc_ctx :=
  let t := [u8 nonce; u8 (Z.shiftr nonce 8)] in                                (* L8-9 *)
  c <- shake128_inc_absorb shake128_inc_init seed 32 ;;
  c <- shake128_inc_absorb c t 2 ;;
  shake128_inc_finalize c.
Definition shake256_stream_init (seed : list Z) (nonce : Z) : outcome inc_ctx :=
  let t := [u8 nonce; u8 (Z.shiftr nonce 8)] in
  c <- shake256_inc_absorb shake256_inc_init seed 64 ;;
  c <- shake256_inc_absorb c t 2 ;;
  shake256_inc_finalize c.

(** ** poly.c L311-333, [rej_uniform]: the array argument is [a + aoff].
    Result: the array and the number of coefficients written. *)
Fixpoint rej_uniform_loop (fuel : nat) (a : list Z) (aoff len : Z) (buf : list Z) (buflen ctr pos : Z)
  : outcome (list Z * Z) :=
  if (ctr <? len) && (u32 (pos + 3) <=? buflen) then                           (* L319 *)
    match fuel with
    | O => Undef
    | S fuel =>
        b0 <- rd 0 buf pos ;;
        b1 <- rd 0 buf (pos + 1) ;;
        b2 <- rd 0 buf (pos + 2) ;;
        let t := Z.land (Z.lor (Z.lor b0 (Z.shiftl b1 8)) (Z.shiftl b2 16)) 0x7FFFFF in
        if t <? Q
        then a <- wr a (aoff + ctr) t ;; rej_uniform_loop fuel a aoff len buf buflen (ctr + 1) (pos + 3)
        else rej_uniform_loop fuel a aoff len buf buflen ctr (pos + 3)
    end
  else Ret (a, ctr).
Definition rej_uniform_c a aoff len buf buflen := rej_uniform_loop (Z.to_nat buflen) a aoff len buf buflen 0 0.

(** poly.c L359-369: the loop that asks for one more block *)
Fixpoint poly_uniform_while (fuel : nat) (a : list Z) (ctr : Z) (buf : list Z) (buflen : Z) (st : inc_ctx)
  : outcome (option (list Z)) :=
  if ctr <? 256 then
    match fuel with
    | O => Ret None
    | S fuel =>
        let off := buflen mod 3 in                                             (* L360 *)
        buf <- for_loop off (fun i buf => b <- rd 0 buf (buflen - off + i) ;; wr buf i b) buf ;; (* L361-363 *)
        '(buf, st) <- shake128_inc_squeeze buf off 168 st ;;                   (* L365 *)
        let buflen := 168 + off in                                             (* L366 *)
        '(a, n) <- rej_uniform_c a ctr (256 - ctr) buf buflen ;;               (* L367 *)
        poly_uniform_while fuel a (ctr + n) buf buflen st
    end
  else Ret (Some a).
(** poly.c L347-371; [buf0] has 5 * 168 + 2 bytes, [a0] 256 coefficients *)
Definition poly_uniform_c (fuel : nat) (a0 buf0 seed : list Z) (nonce : Z) : outcome (option (list Z)) :=
  st <- shake128_stream_init seed nonce ;;
  '(buf, st) <- shake128_inc_squeeze buf0 0 840 st ;;                          (* L356 *)
  '(a, ctr) <- rej_uniform_c a0 0 256 buf 840 ;;                               (* L358 *)
  poly_uniform_while fuel a ctr buf 840 st.

(** ** poly.c L387-412, [rej_eta] *)
Fixpoint rej_eta_loop (fuel : nat) (a : list Z) (aoff len : Z) (buf : list Z) (buflen ctr pos : Z)
  : outcome (list Z * Z) :=
  if (ctr <? len) && (pos <? buflen) then                                      (* L395 *)
    match fuel with
    | O => Undef
    | S fuel =>
        b <- rd 0 buf pos ;;
        let t0 := Z.land b 0x0F in
        let t1 := Z.shiftr b 4 in
        '(a, ctr) <- (if t0 <? 15 then a <- wr a (aoff + ctr) (eta_coeff t0) ;; Ret (a, ctr + 1)
                      else Ret (a, ctr)) ;;
        '(a, ctr) <- (if (t1 <? 15) && (ctr <? len) then a <- wr a (aoff + ctr) (eta_coeff t1) ;; Ret (a, ctr + 1)
                      else Ret (a, ctr)) ;;
        rej_eta_loop fuel a aoff len buf buflen ctr (pos + 1)
    end
  else Ret (a, ctr).
Definition rej_eta_c a aoff len buf buflen := rej_eta_loop (Z.to_nat buflen) a aoff len buf buflen 0 0.

(** poly.c L439-442 *)
Fixpoint poly_uniform_eta_while (fuel : nat) (a : list Z) (ctr : Z) (buf : list Z) (st : inc_ctx)
  : outcome (option (list Z)) :=
  if ctr <? 256 then
    match fuel with
    | O => Ret None
    | S fuel =>
        '(buf, st) <- shake256_inc_squeeze buf 0 136 st ;;
        '(a, n) <- rej_eta_c a ctr (256 - ctr) buf 136 ;;
        poly_uniform_eta_while fuel a (ctr + n) buf st
    end
  else Ret (Some a).
(** poly.c L426-444; [buf0] has 136 bytes *)
Definition poly_uniform_eta_c (fuel : nat) (a0 buf0 seed : list Z) (nonce : Z) : outcome (option (list Z)) :=
  st <- shake256_stream_init seed nonce ;;
  '(buf, st) <- shake256_inc_squeeze buf0 0 136 st ;;
  '(a, ctr) <- rej_eta_c a0 0 256 buf 136 ;;
  poly_uniform_eta_while fuel a ctr buf st.

(** ** poly.c L458-468; [buf0] has 5 * 136 bytes; polyz_unpack reads the first 576 *)
Definition poly_uniform_gamma1_c (buf0 seed : list Z) (nonce : Z) : outcome (list Z) :=
  st <- shake256_stream_init seed nonce ;;
  '(buf, st) <- shake256_inc_squeeze buf0 0 680 st ;;
  b <- rdrange buf 0 576 ;;
  Ret (polyz_unpack b).

(** ** poly.c L497-507: do { ... } while (b > i); state: buf, pos, context *)
Fixpoint challenge_next_c (fuel : nat) (i : Z) (buf : list Z) (pos : Z) (st : inc_ctx)
  : outcome (option (Z * (list Z * Z * inc_ctx))) :=
  match fuel with
  | O => Ret None
  | S fuel =>
      '(buf, pos, st) <- (if 136 <=? pos then '(buf, st) <- shake256_inc_squeeze buf 0 136 st ;; Ret (buf, 0, st)
                          else Ret (buf, pos, st)) ;;
      b <- rd 0 buf pos ;;
      if i <? b then challenge_next_c fuel i buf (pos + 1) st else Ret (Some (b, (buf, pos + 1, st)))
  end.
(** poly.c L496-513 *)
Fixpoint challenge_loop_c (fuel n : nat) (i : Z) (c : list Z) (signs : Z) (buf : list Z) (pos : Z) (st : inc_ctx)
  : outcome (option (list Z)) :=
  match n with
  | O => Ret (Some c)
  | S n =>
      r <- challenge_next_c fuel i buf pos st ;;
      match r with
      | None => Ret None
      | Some (b, (buf, pos, st)) =>
          v <- rd 0 c b ;;
          c <- wr c i v ;;                                                     (* L509 *)
          c <- wr c b (i32 (u64 (1 - 2 * Z.land signs 1))) ;;                  (* L510 *)
          challenge_loop_c fuel n (i + 1) c (Z.shiftr signs 1) buf pos st
      end
  end.
(** poly.c L480-515; [buf0] has 136 bytes, [c0] 256 coefficients *)
Definition poly_challenge_c (fuel : nat) (c0 buf0 seed : list Z) : outcome (option (list Z)) :=
  st <- shake256_inc_absorb shake256_inc_init seed 32 ;;
  st <- shake256_inc_finalize st ;;
  '(buf, st) <- shake256_inc_squeeze buf0 0 136 st ;;
  signs <- for_loop 8 (fun i s => b <- rd 0 buf i ;; Ret (Z.lor s (u64 (Z.shiftl b (8 * i))))) 0 ;; (* L486-489 *)
  c <- for_loop 256 (fun i c => wr c i 0) c0 ;;                                (* L492-494 *)
  challenge_loop_c fuel 39 217 c signs buf 8 st.

(** ** sign.c *)

(** A hash of several pieces: init, absorb each, finalize, squeeze [n] bytes to [out + off]
    (L131-136, L165-170, L287-292, L316-321).  The pieces are read before [out] is written. *)
Fixpoint absorb_pieces (c : inc_ctx) (pieces : list (list Z)) : outcome inc_ctx :=
  match pieces with
  | [] => Ret c
  | p :: rest => c <- shake256_inc_absorb c p (zlen p) ;; absorb_pieces c rest
  end.
Definition shake256_pieces (out : list Z) (off n : Z) (pieces : list (list Z)) : outcome (list Z) :=
  c <- absorb_pieces shake256_inc_init pieces ;;
  c <- shake256_inc_finalize c ;;
  '(out, _) <- shake256_inc_squeeze out off n c ;;
  Ret out.
(** One-shot hash from [inp + ioff] to [out + off] (L36, L64, L141, L286).  The input may lie
    in the same array as the output: the code absorbs all of it before it writes. *)
Definition shake256_at (out : list Z) (off n : Z) (inp : list Z) (ioff ilen : Z) : outcome (list Z) :=
  i <- rdrange inp ioff ilen ;;
  o <- rdrange out off n ;;
  d <- shake256 o n i ilen ;;
  copy out off d 0 n.

(** sign.c L23-68, crypto_sign_keypair_seed; [seedbuf0] has 128 bytes, [tr0] 64.
    Result: return value and the caller's two buffers. *)
Definition keypair_seed_c (fuel : nat) (seedbuf0 tr0 pk sk seed : list Z) : outcome (option (Z * list Z * list Z)) :=
  seedbuf <- for_loop 32 (fun i sb => b <- rd 0 seed i ;; wr sb i b) seedbuf0 ;; (* L32-34 *)
  seedbuf <- shake256_at seedbuf 0 128 seedbuf 0 32 ;;                         (* L36 *)
  rho <- rdrange seedbuf 0 32 ;;
  rhoprime <- rdrange seedbuf 32 64 ;;
  key <- rdrange seedbuf 96 32 ;;
  mat <~ matrix_expand fuel rho ;;
  s1 <~ vec_uniform_eta fuel rhoprime 0 ;;
  s2 <~ vec_uniform_eta fuel rhoprime 4 ;;
  s1hat <- vec_ntt s1 ;;
  t <- matrix_pointwise mat s1hat ;;
  t <- vec_reduce t ;;
  t <- vec_invntt_tomont t ;;
  t <- vec_add t s2 ;;
  t <- vec_caddq t ;;
  '(t1, t0) <- vec_power2round t ;;
  b <- pack_pk rho t1 ;;
  pk <- copy pk 0 b 0 1312 ;;                                                  (* L61 *)
  tr <- shake256_at tr0 0 64 pk 0 1312 ;;                                      (* L64 *)
  tr <- rdrange tr 0 64 ;;
  b <- pack_sk rho tr key t0 s1 s2 ;;
  sk <- copy sk 0 b 0 2560 ;;                                                  (* L65 *)
  Ret (Some (0, pk, sk)).

(** sign.c L148-205, one attempt.  [mem] is the memory that holds the signature buffer at
    offset [so]; w1 is packed into it, its first 32 bytes become the challenge, and the
    signature is written over it. *)
Definition sign_attempt_c (fuel : nat) (mat : list vec) (s1 s2 t0 : vec) (mu rhoprime : list Z) (nonce so : Z)
  (mem : list Z) : outcome (option (bool * list Z)) :=
  let y := vec_uniform_gamma1 rhoprime nonce in
  z <- vec_ntt y ;;
  w <- matrix_pointwise mat z ;;
  w <- vec_reduce w ;;
  w <- vec_invntt_tomont w ;;
  w <- vec_caddq w ;;
  '(w1, w0) <- vec_decompose w ;;
  b <- vec_pack_w1 w1 ;;
  mem <- copy mem so b 0 768 ;;                                                (* L163 *)
  b <- rdrange mem so 768 ;;
  mem <- shake256_pieces mem so 32 [mu; b] ;;                                  (* L165-170 *)
  c <- rdrange mem so 32 ;;
  cp <~ poly_challenge fuel c ;;                                               (* L171 *)
  cp <- poly_ntt cp ;;
  z <- vec_pointwise_poly cp s1 ;;
  z <- vec_invntt_tomont z ;;
  z <- vec_add z y ;;
  z <- vec_reduce z ;;
  r <- vec_chknorm z (GAMMA1 - BETA) ;;
  if negb (r =? 0) then Ret (Some (false, mem)) else
  h <- vec_pointwise_poly cp s2 ;;
  h <- vec_invntt_tomont h ;;
  w0 <- vec_sub w0 h ;;
  w0 <- vec_reduce w0 ;;
  r <- vec_chknorm w0 (GAMMA2 - BETA) ;;
  if negb (r =? 0) then Ret (Some (false, mem)) else
  h <- vec_pointwise_poly cp t0 ;;
  h <- vec_invntt_tomont h ;;
  h <- vec_reduce h ;;
  r <- vec_chknorm h GAMMA2 ;;
  if negb (r =? 0) then Ret (Some (false, mem)) else
  w0 <- vec_add w0 h ;;
  '(h, n) <- vec_make_hint w0 w1 ;;
  if OMEGA <? n then Ret (Some (false, mem)) else
  c <- rdrange mem so 32 ;;
  b <- pack_sig c z h ;;                                                       (* L207: pack_sig(sig, sig, ..) *)
  mem <- copy mem so b 0 2420 ;;
  Ret (Some (true, mem)).
Fixpoint rej_loop_c (att : Z -> list Z -> outcome (option (bool * list Z))) (fuel : nat) (nonce : Z) (mem : list Z)
  : outcome (option (list Z)) :=
  match fuel with
  | O => Ret None
  | S fuel =>
      r <- att nonce mem ;;
      r <~ r ;;
      let '(done, mem) := r in
      if done : bool then Ret (Some mem) else rej_loop_c att fuel (u16 (nonce + 1)) mem
  end.
(** sign.c L108-211, crypto_sign_signature.  [mem] holds the message at offset [mo] and the
    signature buffer at offset [so]; the two may overlap.  [seedbuf0] has 288 bytes:
    rho | tr | key | rnd | mu | rhoprime.  Result: return value, memory, *siglen. *)
Definition sign_signature_c (fuel : nat) (seedbuf0 mem : list Z) (so mo mlen : Z) (sk : list Z)
  : outcome (option (Z * list Z * Z)) :=
  skb <- rdrange sk 0 2560 ;;
  let '(rho, tr, key, t0, s1, s2) := unpack_sk skb in
  sb <- copy seedbuf0 0 rho 0 32 ;;                                            (* L127 *)
  sb <- copy sb 96 key 0 32 ;;
  sb <- copy sb 32 tr 0 64 ;;
  tr <- rdrange sb 32 64 ;;
  m <- rdrange mem mo mlen ;;
  sb <- shake256_pieces sb 160 64 [tr; m] ;;                                   (* L130-136 *)
  sb <- for_loop 32 (fun n sb => wr sb (128 + n) 0) sb ;;                      (* L138-140 *)
  sb <- shake256_at sb 224 64 sb 96 128 ;;                                     (* L141 *)
  rho <- rdrange sb 0 32 ;;
  mu <- rdrange sb 160 64 ;;
  rhoprime <- rdrange sb 224 64 ;;
  mat <~ matrix_expand fuel rho ;;
  s1 <- vec_ntt s1 ;;
  s2 <- vec_ntt s2 ;;
  t0 <- vec_ntt t0 ;;
  r <- rej_loop_c (fun nonce => sign_attempt_c fuel mat s1 s2 t0 mu rhoprime nonce so) fuel 0 mem ;;
  mem <~ r ;;
  Ret (Some (0, mem, 2420)).                                                   (* L208-209 *)
(** sign.c L229-242, crypto_sign: the copy goes from the end of the message to its start *)
Definition crypto_sign_c (fuel : nat) (seedbuf0 mem : list Z) (so mo mlen : Z) (sk : list Z)
  : outcome (option (Z * list Z * Z)) :=
  mem <- for_loop mlen (fun i mem => b <- rd 0 mem (mo + (mlen - 1 - i)) ;;
                                     wr mem (so + (2420 + mlen - 1 - i)) b) mem ;; (* L236-238 *)
  r <- sign_signature_c fuel seedbuf0 mem so (so + 2420) mlen sk ;;            (* L239 *)
  r <~ r ;;
  let '(_, mem, smlen) := r in
  Ret (Some (0, mem, u64 (smlen + mlen))).                                     (* L240-241 *)

(** sign.c L257-328, crypto_sign_verify on the memory [mem]: signature at [so], message at [mo].
    [mu0] has 64 bytes, [c20] 32, [buf0] 768. *)
Definition sign_verify_c (fuel : nat) (mu0 c20 buf0 mem : list Z) (so siglen mo mlen : Z) (pk : list Z)
  : outcome (option Z) :=
  if negb (siglen =? 2420) then Ret (Some (-1)) else
  pkb <- rdrange pk 0 1312 ;;
  let '(rho, t1) := unpack_pk pkb in
  sig <- rdrange mem so 2420 ;;
  s <- unpack_sig sig ;;
  match s with
  | None => Ret (Some (-1))
  | Some (c, z, h) =>
      r <- vec_chknorm z (GAMMA1 - BETA) ;;
      if negb (r =? 0) then Ret (Some (-1)) else
      mu <- shake256_at mu0 0 64 pk 0 1312 ;;                                  (* L286 *)
      mub <- rdrange mu 0 64 ;;
      m <- rdrange mem mo mlen ;;
      mu <- shake256_pieces mu 0 64 [mub; m] ;;                                (* L287-292 *)
      mub <- rdrange mu 0 64 ;;
      cp <~ poly_challenge fuel c ;;
      mat <~ matrix_expand fuel rho ;;
      z <- vec_ntt z ;;
      w1 <- matrix_pointwise mat z ;;
      cp <- poly_ntt cp ;;
      t1 <- vec_shiftl t1 ;;
      t1 <- vec_ntt t1 ;;
      t1 <- vec_pointwise_poly cp t1 ;;
      w1 <- vec_sub w1 t1 ;;
      w1 <- vec_reduce w1 ;;
      w1 <- vec_invntt_tomont w1 ;;
      w1 <- vec_caddq w1 ;;
      w1 <- vec_use_hint w1 h ;;
      b <- vec_pack_w1 w1 ;;
      buf <- copy buf0 0 b 0 768 ;;                                            (* L313 *)
      bufb <- rdrange buf 0 768 ;;
      c2 <- shake256_pieces c20 0 32 [mub; bufb] ;;                            (* L316-321 *)
      for_loop 32 (fun i r =>                                                  (* L322-326 *)
        match r with
        | Some 0 => x <- rd 0 c i ;; y <- rd 0 c2 i ;; Ret (Some (if x =? y then 0 else -1))
        | _ => Ret r
        end) (Some 0)
  end.
(** sign.c L344-365, crypto_sign_open: signed message at [so], message buffer at [mo] of the
    same memory.  Result: return value, memory, *mlen. *)
Definition sign_open_c (fuel : nat) (mu0 c20 buf0 mem : list Z) (so smlen mo mlen : Z) (pk : list Z)
  : outcome (option (Z * list Z * Z)) :=
  if smlen <? 2420 then Ret (Some (-1, mem, mlen)) else
  let mlen := smlen - 2420 in
  r <- sign_verify_c fuel mu0 c20 buf0 mem so 2420 (so + 2420) mlen pk ;;
  r <~ r ;;
  if negb (r =? 0) then Ret (Some (-2, mem, mlen)) else
  mem <- for_loop mlen (fun i mem => b <- rd 0 mem (so + (2420 + i)) ;; wr mem (mo + i) b) mem ;; (* L359-361 *)
  Ret (Some (0, mem, mlen)).
