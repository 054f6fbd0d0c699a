(** Model of the sponge functions of common/fips202.c (L18-48 and L336-928).

    A Keccak state [uint64_t s[25]] is a list of 25 words.  The incremental state
    [uint64_t s_inc[26]] is the record [inc_ctx]: [lanes] is s_inc[0..24] and [pos]
    is s_inc[25]; a lane access with index 25 or more is [Undef] (in C it would
    overwrite the counter).  Memory allocation (malloc returning NULL makes the
    library call exit(111)) is not modelled here: contexts always exist (see Heap.v). *)
From Verif Require Import Base Keccak.

(** fips202.c L28-35: load64.  Byte [off + i] of [x] is shifted by 8*i <= 56 bits, so
    nothing is lost for bytes. *)
Definition load64 (x : list Z) (off : Z) : outcome Z :=
  for_loop 8 (fun i r => b <- rd 0 x (off + i) ;; Ret (Z.lor r (Z.shiftl b (8 * i)))) 0.

(** fips202.c L44-48: store64 *)
Definition store64 (x : list Z) (off u : Z) : outcome (list Z) :=
  for_loop 8 (fun i x => wr x (off + i) (u8 (Z.shiftr u (8 * i)))) x.

(** [s[i] ^= v] *)
Definition xor_lane (s : list Z) (i v : Z) : outcome (list Z) :=
  a <- rd 0 s i ;; wr s i (Z.lxor a v).

(** fips202.c L359-367: while (mlen >= r).  [fuel] bounds the iterations. *)
Fixpoint absorb_loop (fuel : nat) (s : list Z) (r : Z) (m : list Z) (off mlen : Z)
  : outcome (list Z * Z * Z) :=
  if mlen >=? r then
    match fuel with
    | O => Undef
    | S fuel' =>
        s <- for_loop (r / 8) (fun i s => v <- load64 m (off + 8 * i) ;; xor_lane s i v) s ;;
        absorb_loop fuel' (KeccakF1600_StatePermute s) r m (off + r) (mlen - r)
    end
  else Ret (s, off, mlen).

(** fips202.c L349-380: keccak_absorb.  Of [uint8_t t[200]] only t[0..r) is ever
    used; the model gives it exactly r elements, so any other access is [Undef]. *)
Definition keccak_absorb (r : Z) (m : list Z) (mlen p : Z) : outcome (list Z) :=
  let s := zeros 25 in
  '(s, off, mlen) <- absorb_loop (S (Z.to_nat (mlen / r))) s r m 0 mlen ;;
  t <- copy (zeros r) 0 m off mlen ;;
  t <- wr t mlen p ;;
  b <- rd 0 t (r - 1) ;;
  t <- wr t (r - 1) (Z.lor b 128) ;;
  for_loop (r / 8) (fun i s => v <- load64 t (8 * i) ;; xor_lane s i v) s.

(** fips202.c L395-405: keccak_squeezeblocks; returns the new output buffer and state. *)
Fixpoint keccak_squeezeblocks (h : list Z) (off : Z) (nblocks : nat) (s : list Z) (r : Z)
  : outcome (list Z * list Z) :=
  match nblocks with
  | O => Ret (h, s)
  | S n =>
      let s := KeccakF1600_StatePermute s in
      h <- for_loop (Z.shiftr r 3) (fun i h => v <- rd 0 s i ;; store64 h (off + 8 * i) v) h ;;
      keccak_squeezeblocks h (off + r) n s r
  end.

Record inc_ctx := { lanes : list Z; pos : Z }.

(** fips202.c L417-424 *)
Definition keccak_inc_init : inc_ctx := {| lanes := zeros 25; pos := 0 |}.

(** one byte xored into the state at byte position [j] (fips202.c L450, L460) *)
Definition xor_byte (s : list Z) (j b : Z) : outcome (list Z) :=
  xor_lane s (Z.shiftr j 3) (Z.shiftl b (8 * Z.land j 7)).

(** fips202.c L445-457 *)
Fixpoint inc_absorb_loop (fuel : nat) (c : inc_ctx) (r : Z) (m : list Z) (off mlen : Z)
  : outcome (inc_ctx * Z * Z) :=
  if mlen + pos c >=? r then
    match fuel with
    | O => Undef
    | S fuel' =>
        s <- for_loop (r - pos c) (fun i s => b <- rd 0 m (off + i) ;; xor_byte s (pos c + i) b) (lanes c) ;;
        inc_absorb_loop fuel' {| lanes := KeccakF1600_StatePermute s; pos := 0 |} r m
          (off + (r - pos c)) (mlen - (r - pos c))
    end
  else Ret (c, off, mlen).

(** fips202.c L440-462: keccak_inc_absorb *)
Definition keccak_inc_absorb (c : inc_ctx) (r : Z) (m : list Z) (mlen : Z) : outcome inc_ctx :=
  '(c, off, mlen) <- inc_absorb_loop (S (Z.to_nat ((mlen + pos c) / r))) c r m 0 mlen ;;
  s <- for_loop mlen (fun i s => b <- rd 0 m (off + i) ;; xor_byte s (pos c + i) b) (lanes c) ;;
  Ret {| lanes := s; pos := pos c + mlen |}.

(** fips202.c L477-483: keccak_inc_finalize *)
Definition keccak_inc_finalize (c : inc_ctx) (r p : Z) : outcome inc_ctx :=
  s <- xor_byte (lanes c) (pos c) p ;;
  s <- xor_byte s (r - 1) 128 ;;
  Ret {| lanes := s; pos := 0 |}.

(** the byte at position [j] of the state (fips202.c L506, L518) *)
Definition get_byte (s : list Z) (j : Z) : outcome Z :=
  v <- rd 0 s (Z.shiftr j 3) ;; Ret (u8 (Z.shiftr v (8 * Z.land j 7))).

(** fips202.c L513-522: while (outlen > 0) *)
Fixpoint inc_squeeze_loop (fuel : nat) (h : list Z) (off outlen : Z) (c : inc_ctx) (r : Z)
  : outcome (list Z * inc_ctx) :=
  if outlen >? 0 then
    match fuel with
    | O => Undef
    | S fuel' =>
        let s := KeccakF1600_StatePermute (lanes c) in
        (* for (i = 0; i < outlen && i < r; i++) *)
        let n := Z.min outlen r in
        h <- for_loop n (fun i h => b <- get_byte s i ;; wr h (off + i) b) h ;;
        inc_squeeze_loop fuel' h (off + n) (outlen - n) {| lanes := s; pos := r - n |} r
    end
  else Ret (h, c).

(** fips202.c L498-523: keccak_inc_squeeze *)
Definition keccak_inc_squeeze (h : list Z) (off outlen : Z) (c : inc_ctx) (r : Z)
  : outcome (list Z * inc_ctx) :=
  (* for (i = 0; i < outlen && i < s_inc[25]; i++) *)
  let n := Z.max 0 (Z.min outlen (pos c)) in
  h <- for_loop n (fun i h => b <- get_byte (lanes c) (r - pos c + i) ;; wr h (off + i) b) h ;;
  inc_squeeze_loop (Z.to_nat (outlen / r + 2)) h (off + n) (outlen - n)
    {| lanes := lanes c; pos := pos c - n |} r.

(** fips202.h rates *)
Definition SHAKE128_RATE : Z := 168.
Definition SHAKE256_RATE : Z := 136.
Definition SHA3_256_RATE : Z := 136.
Definition SHA3_384_RATE : Z := 104.
Definition SHA3_512_RATE : Z := 72.

(** fips202.c L525-587 (the sha3 incremental ones, L747-769, L808-826, L869-887, use the same functions): the incremental API *)
Definition shake128_inc_init := keccak_inc_init.
Definition shake128_inc_absorb c m mlen := keccak_inc_absorb c SHAKE128_RATE m mlen.
Definition shake128_inc_finalize c := keccak_inc_finalize c SHAKE128_RATE 0x1F.
Definition shake128_inc_squeeze h off outlen c := keccak_inc_squeeze h off outlen c SHAKE128_RATE.
Definition shake256_inc_init := keccak_inc_init.
Definition shake256_inc_absorb c m mlen := keccak_inc_absorb c SHAKE256_RATE m mlen.
Definition shake256_inc_finalize c := keccak_inc_finalize c SHAKE256_RATE 0x1F.
Definition shake256_inc_squeeze h off outlen c := keccak_inc_squeeze h off outlen c SHAKE256_RATE.

(** fips202.c L695-714 and L726-745: shake128 / shake256 (r is the rate) *)
Definition shake_oneshot (r : Z) (output : list Z) (outlen : Z) (input : list Z) (inlen : Z)
  : outcome (list Z) :=
  let nblocks := outlen / r in
  s <- keccak_absorb r input inlen 0x1F ;;
  '(output, s) <- keccak_squeezeblocks output 0 (Z.to_nat nblocks) s r ;;
  let off := nblocks * r in
  let outlen := outlen - nblocks * r in
  if outlen =? 0 then Ret output
  else
    '(t, _) <- keccak_squeezeblocks (zeros r) 0 1 s r ;;
    copy output off t 0 outlen.
Definition shake128 := shake_oneshot SHAKE128_RATE.
Definition shake256 := shake_oneshot SHAKE256_RATE.

(** fips202.c L793-806, L854-867, L915-928: sha3_256 / sha3_384 / sha3_512 (d is the digest size) *)
Definition sha3_oneshot (r d : Z) (output : list Z) (input : list Z) (inlen : Z) : outcome (list Z) :=
  s <- keccak_absorb r input inlen 0x06 ;;
  '(t, _) <- keccak_squeezeblocks (zeros r) 0 1 s r ;;
  copy output 0 t 0 d.
Definition sha3_256 := sha3_oneshot SHA3_256_RATE 32.
Definition sha3_384 := sha3_oneshot SHA3_384_RATE 48.
Definition sha3_512 := sha3_oneshot SHA3_512_RATE 64.

(** fips202.c L771-783, L832-844, L893-905 (sha3_*_inc_finalize): finalize and squeeze one block *)
Definition sha3_inc_finalize (r d : Z) (output : list Z) (c : inc_ctx) : outcome (list Z) :=
  c <- keccak_inc_finalize c r 0x06 ;;
  '(t, _) <- keccak_squeezeblocks (zeros r) 0 1 (lanes c) r ;;
  copy output 0 t 0 d.
