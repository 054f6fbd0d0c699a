(** common/fips202.c, common/shake_prng.c and dilithium2/*.c with their heap: hash contexts are blocks
    that malloc hands out and free takes back.

    [alloc n h] is the answer of the [n]-th call of malloc when the live blocks are [h]: an address
    or NULL.  It is arbitrary except that it never gives the address of a live block ([honest]).
    A block is uninitialised ([Raw]) until it is written; reading it before, and any access to or
    release of an address that is not live, is undefined ([UB]).  [Exit] is a call of exit, [More] a
    rejection loop that has not ended after [fuel] steps. *)
From Verif Require Import Base Keccak Sponge ShakePrng DilReduce Tab DilNtt DilPoly DilVec DilSign DilBuf.
Local Open Scope Z_scope.

(** A state of 25 words (PQC_SHAKECTX_BYTES = 200) or an incremental state of 26 words
    (PQC_SHAKEINCCTX_BYTES = 208), fips202.h L13-14; [Raw] gives the size in bytes.
    [store] checks the size, so writing 26 words into a 25-word block is undefined. *)
Inductive block := Raw (size : Z) | State (s : list Z) | Inc (c : inc_ctx).
Definition heap := list (Z * block).
Fixpoint find (p : Z) (h : heap) : option block :=
  match h with [] => None | (q, b) :: h => if p =? q then Some b else find p h end.
Fixpoint remove (p : Z) (h : heap) : heap :=
  match h with [] => [] | (q, b) :: h => if p =? q then h else (q, b) :: remove p h end.
Fixpoint update (p : Z) (b : block) (h : heap) : heap :=
  match h with [] => [] | (q, c) :: h => if p =? q then (q, b) :: h else (q, c) :: update p b h end.

(** sizeof of the block behind a pointer *)
Definition size_of (b : block) : Z := match b with Raw n => n | State _ => 200 | Inc _ => 208 end.

Inductive result (A : Type) := Ok (a : A) (n : nat) (h : heap) | Exit (code : Z) | UB | More.
Arguments Ok {A}. Arguments Exit {A}. Arguments UB {A}. Arguments More {A}.
Definition M (A : Type) : Type := (nat -> heap -> option Z) -> nat -> heap -> result A.
Definition mret {A} (a : A) : M A := fun _ n h => Ok a n h.
Definition mbind {A B} (m : M A) (k : A -> M B) : M B :=
  fun alloc n h => match m alloc n h with Ok a n h => k a alloc n h | Exit c => Exit c | UB => UB | More => More end.
Definition mmore {A} : M A := fun _ _ _ => More.
(** computations that do not touch the heap *)
Definition lift {A} (o : outcome A) : M A := fun _ n h => match o with Ret a => Ok a n h | Undef => UB end.
Coercion lift : outcome >-> M.
Declare Scope heap_scope.
Delimit Scope heap_scope with heap.
Notation "x <- e ;; k" := (mbind e%heap (fun x => k%heap)) (at level 61, e at next level, right associativity) : heap_scope.
Notation "' p <- e ;; k" := (mbind e%heap (fun x => match x with p => k%heap end)) (at level 61, p pattern, e at next level, right associativity) : heap_scope.
Notation "e ;;; k" := (mbind e%heap (fun _ => k%heap)) (at level 61, right associativity) : heap_scope.

(** malloc, free and access through a pointer *)
Definition malloc (size : Z) : M (option Z) := fun alloc n h =>
  match alloc n h with Some p => Ok (Some p) (S n) ((p, Raw size) :: h) | None => Ok None (S n) h end.
Definition mfree (p : Z) : M unit := fun _ n h => match find p h with Some _ => Ok tt n (remove p h) | None => UB end.
Definition exit_ {A} (code : Z) : M A := fun _ _ _ => Exit code.
Definition load (p : Z) : M block := fun _ n h => match find p h with Some b => Ok b n h | None => UB end.
Definition store (p : Z) (b : block) : M unit := fun _ n h => 
  match find p h with Some b' => if size_of b <=? size_of b' then Ok tt n (update p b h) else UB | None => UB end.
(** the 26 words, or the first 25 words, behind a pointer *)
Definition load_inc (p : Z) : M inc_ctx := mbind (load p) (fun b => match b with Inc c => mret c | _ => lift Undef end).
Definition load_state (p : Z) : M (list Z) := mbind (load p) (fun b => match b with State s => mret s | Inc c => mret (lanes c) | Raw _ => lift Undef end).
Local Open Scope heap_scope.

(** ** fips202.c L525-587, L747-769, L808-830, L869-891: incremental contexts of rate [r].
    A context variable holds the pointer [ctx]. *)
Definition inc_init_h : M Z :=
  p <- malloc 208 ;;
  match p with
  | None => exit_ 111
  | Some p => store p (Inc keccak_inc_init) ;;; mret p
  end.
Definition inc_absorb_h (r p : Z) (m : list Z) (mlen : Z) : M unit :=
  c <- load_inc p ;; c <- keccak_inc_absorb c r m mlen ;; store p (Inc c).
Definition inc_finalize_h (r p : Z) : M unit :=
  c <- load_inc p ;; c <- keccak_inc_finalize c r 0x1F ;; store p (Inc c).
Definition inc_squeeze_h (r : Z) (out : list Z) (off n p : Z) : M (list Z) :=
  c <- load_inc p ;; '(out, c) <- keccak_inc_squeeze out off n c r ;; store p (Inc c) ;;; mret out.
(** *_inc_ctx_clone: a new block with a copy of the contents *)
Definition inc_clone_h (src : Z) : M Z :=
  p <- malloc 208 ;;
  match p with
  | None => exit_ 111
  | Some p => b <- load_inc src ;; store p (Inc b) ;;; mret p
  end.
Definition release_h (p : Z) : M unit := mfree p.
(** fips202.c L771-783, L832-844, L893-905: sha3_*_inc_finalize, which releases the context *)
Definition sha3_inc_finalize_h (r d : Z) (output : list Z) (p : Z) : M (list Z) :=
  c <- load_inc p ;; c <- keccak_inc_finalize c r 0x06 ;; store p (Inc c) ;;;
  s <- load_state p ;; '(t, s) <- keccak_squeezeblocks (zeros r) 0 1 s r ;; store p (Inc {| lanes := s; pos := pos c |}) ;;;
  release_h p ;;;
  copy output 0 t 0 d.
(** ** fips202.c L600-606, L648-654 (shake*_absorb), L622-623, L670-671 (shake*_squeezeblocks) *)
Definition absorb_h (r : Z) (m : list Z) (mlen : Z) : M Z :=
  p <- malloc 200 ;;
  match p with
  | None => exit_ 111
  | Some p => s <- keccak_absorb r m mlen 0x1F ;; store p (State s) ;;; mret p
  end.
Definition squeezeblocks_h (r : Z) (out : list Z) (off nblocks p : Z) : M (list Z) :=
  s <- load_state p ;; '(out, s) <- keccak_squeezeblocks out off (Z.to_nat nblocks) s r ;; store p (State s) ;;; mret out.
(** fips202.c L695-714, L726-745: shake128, shake256 *)
Definition shake_h (r : Z) (output : list Z) (outlen : Z) (input : list Z) (inlen : Z) : M (list Z) :=
  let nblocks := outlen / r in
  s <- absorb_h r input inlen ;;
  output <- squeezeblocks_h r output 0 nblocks s ;;
  let off := nblocks * r in
  let outlen := outlen - nblocks * r in
  output <- (if outlen =? 0 then mret output
             else t <- squeezeblocks_h r (zeros r) 0 1 s ;; copy output off t 0 outlen) ;;
  release_h s ;;; mret output.

(** ** shake_prng.c L19-25, L37-50, L56-58, L67-83 *)
Definition seedexpander_init_h (seed : list Z) (seedlen : Z) : M Z :=
  p <- inc_init_h ;;
  inc_absorb_h SHAKE256_RATE p seed seedlen ;;;
  inc_absorb_h SHAKE256_RATE p [SEEDEXPANDER_DOMAIN] 1 ;;;
  inc_finalize_h SHAKE256_RATE p ;;; mret p.
Definition seedexpander_h (p : Z) (output : list Z) (outlen : Z) : M (list Z) :=
  let remainder := outlen mod 8 in
  output <- inc_squeeze_h SHAKE256_RATE output 0 (outlen - remainder) p ;;
  if remainder =? 0 then mret output
  else
    tmp <- inc_squeeze_h SHAKE256_RATE (zeros 8) 0 8 p ;;
    copy output (outlen - remainder) tmp 0 remainder.
Definition seedexpander_wrapper_h (seed : ptr) (seedlen : Z) (output : ptr) (outlen : Z) : M (Z * ptr) :=
  match seed, output with
  | Some sd, Some out =>
      if seedlen <? 32 then mret (-2, output)
      else if outlen <=? seedlen then mret (-3, output)
      else
        p <- seedexpander_init_h sd seedlen ;;
        out <- seedexpander_h p out outlen ;;
        release_h p ;;; mret (0, Some out)
  | _, _ => mret (-1, output)
  end.

(** ** dilithium2/symmetric-shake.c L6-15, L17-26 ([r], [n]: rate and seed length) *)
Definition stream_init_h (r n : Z) (seed : list Z) (nonce : Z) : M Z :=
  let t := [u8 nonce; u8 (Z.shiftr nonce 8)] in
  p <- inc_init_h ;;
  inc_absorb_h r p seed n ;;;
  inc_absorb_h r p t 2 ;;;
  inc_finalize_h r p ;;; mret p.

Section Prog.
(** what uninitialised local arrays of [n] elements contain *)
Variable loc : Z -> list Z.
Variable fuel0 : nat.

(** poly.c L347-371 *)
Fixpoint poly_uniform_while_h (fuel : nat) (a : list Z) (ctr : Z) (buf : list Z) (buflen p : Z) : M (list Z) :=
  if ctr <? 256 then
    match fuel with
    | O => mmore
    | S fuel =>
        let off := buflen mod 3 in
        buf <- for_loop off (fun i buf => bind (rd 0 buf (buflen - off + i)) (fun b => wr buf i b)) buf ;;
        buf <- inc_squeeze_h 168 buf off 168 p ;;
        let buflen := 168 + off in
        '(a, n) <- rej_uniform_c a ctr (256 - ctr) buf buflen ;;
        poly_uniform_while_h fuel a (ctr + n) buf buflen p
    end
  else mret a.
Definition poly_uniform_h (seed : list Z) (nonce : Z) : M (list Z) :=
  p <- stream_init_h 168 32 seed nonce ;;
  buf <- inc_squeeze_h 168 (loc 842) 0 840 p ;;
  '(a, ctr) <- rej_uniform_c (loc 256) 0 256 buf 840 ;;
  a <- poly_uniform_while_h fuel0 a ctr buf 840 p ;;
  release_h p ;;; mret a.
(** poly.c L426-444 *)
Fixpoint poly_uniform_eta_while_h (fuel : nat) (a : list Z) (ctr : Z) (buf : list Z) (p : Z) : M (list Z) :=
  if ctr <? 256 then
    match fuel with
    | O => mmore
    | S fuel =>
        buf <- inc_squeeze_h 136 buf 0 136 p ;;
        '(a, n) <- rej_eta_c a ctr (256 - ctr) buf 136 ;;
        poly_uniform_eta_while_h fuel a (ctr + n) buf p
    end
  else mret a.
Definition poly_uniform_eta_h (seed : list Z) (nonce : Z) : M (list Z) :=
  p <- stream_init_h 136 64 seed nonce ;;
  buf <- inc_squeeze_h 136 (loc 136) 0 136 p ;;
  '(a, ctr) <- rej_eta_c (loc 256) 0 256 buf 136 ;;
  a <- poly_uniform_eta_while_h fuel0 a ctr buf p ;;
  release_h p ;;; mret a.
(** poly.c L458-468 *)
Definition poly_uniform_gamma1_h (seed : list Z) (nonce : Z) : M (list Z) :=
  p <- stream_init_h 136 64 seed nonce ;;
  buf <- inc_squeeze_h 136 (loc 680) 0 680 p ;;
  release_h p ;;;
  b <- rdrange buf 0 576 ;;
  mret (polyz_unpack b).
(** poly.c L480-515 *)
Fixpoint challenge_next_h (fuel : nat) (i : Z) (buf : list Z) (pos p : Z) : M (Z * (list Z * Z)) :=
  match fuel with
  | O => mmore
  | S fuel =>
      '(buf, pos) <- (if 136 <=? pos then buf <- inc_squeeze_h 136 buf 0 136 p ;; mret (buf, 0) else mret (buf, pos)) ;;
      b <- rd 0 buf pos ;;
      if i <? b then challenge_next_h fuel i buf (pos + 1) p else mret (b, (buf, pos + 1))
  end.
Fixpoint challenge_loop_h (n : nat) (i : Z) (c : list Z) (signs : Z) (buf : list Z) (pos p : Z) : M (list Z) :=
  match n with
  | O => mret c
  | S n =>
      '(b, (buf, pos)) <- challenge_next_h fuel0 i buf pos p ;;
      v <- rd 0 c b ;;
      c <- wr c i v ;;
      c <- wr c b (i32 (u64 (1 - 2 * Z.land signs 1))) ;;
      challenge_loop_h n (i + 1) c (Z.shiftr signs 1) buf pos p
  end.
Definition poly_challenge_h (seed : list Z) : M (list Z) :=
  p <- inc_init_h ;;
  inc_absorb_h 136 p seed 32 ;;;
  inc_finalize_h 136 p ;;;
  buf <- inc_squeeze_h 136 (loc 136) 0 136 p ;;
  signs <- for_loop 8 (fun i s => bind (rd 0 buf i) (fun b => Ret (Z.lor s (u64 (Z.shiftl b (8 * i)))))) 0 ;;
  c <- for_loop 256 (fun i c => wr c i 0) (loc 256) ;;
  c <- challenge_loop_h 39 217 c signs buf 8 p ;;
  release_h p ;;; mret c.

(** polyvec.c L16-24, L38-52, L164-170 *)
Fixpoint mmap {A B} (f : A -> M B) (l : list A) : M (list B) :=
  match l with [] => mret [] | x :: l => y <- f x ;; r <- mmap f l ;; mret (y :: r) end.
Definition matrix_expand_h (rho : list Z) : M (list vec) :=
  mmap (fun i => mmap (fun j => poly_uniform_h rho (u16 (Z.shiftl i 8 + j))) [0; 1; 2; 3]) [0; 1; 2; 3].
Definition vec_uniform_eta_h (seed : list Z) (nonce : Z) : M vec :=
  mmap (fun i => poly_uniform_eta_h seed (u16 (nonce + i))) [0; 1; 2; 3].
Definition vec_uniform_gamma1_h (seed : list Z) (nonce : Z) : M vec :=
  mmap (fun i => poly_uniform_gamma1_h seed (u16 (4 * nonce + i))) [0; 1; 2; 3].

(** ** sign.c: hash call sites (see DilBuf.v) *)
Fixpoint absorb_pieces_h (p : Z) (pieces : list (list Z)) : M unit :=
  match pieces with [] => mret tt | x :: rest => inc_absorb_h 136 p x (zlen x) ;;; absorb_pieces_h p rest end.
Definition shake256_pieces_h (out : list Z) (off n : Z) (pieces : list (list Z)) : M (list Z) :=
  p <- inc_init_h ;;
  absorb_pieces_h p pieces ;;;
  inc_finalize_h 136 p ;;;
  out <- inc_squeeze_h 136 out off n p ;;
  release_h p ;;; mret out.
Definition shake256_at_h (out : list Z) (off n : Z) (inp : list Z) (ioff ilen : Z) : M (list Z) :=
  i <- rdrange inp ioff ilen ;;
  o <- rdrange out off n ;;
  d <- shake_h 136 o n i ilen ;;
  copy out off d 0 n.

(** sign.c L23-68 *)
Definition keypair_seed_h (pk sk seed : list Z) : M (Z * list Z * list Z) :=
  seedbuf <- for_loop 32 (fun i sb => bind (rd 0 seed i) (fun b => wr sb i b)) (loc 128) ;;
  seedbuf <- shake256_at_h seedbuf 0 128 seedbuf 0 32 ;;
  rho <- rdrange seedbuf 0 32 ;;
  rhoprime <- rdrange seedbuf 32 64 ;;
  key <- rdrange seedbuf 96 32 ;;
  mat <- matrix_expand_h rho ;;
  s1 <- vec_uniform_eta_h rhoprime 0 ;;
  s2 <- vec_uniform_eta_h rhoprime 4 ;;
  s1hat <- vec_ntt s1 ;;
  t <- matrix_pointwise mat s1hat ;;
  t <- vec_reduce t ;;
  t <- vec_invntt_tomont t ;;
  t <- vec_add t s2 ;;
  t <- vec_caddq t ;;
  '(t1, t0) <- vec_power2round t ;;
  b <- pack_pk rho t1 ;;
  pk <- copy pk 0 b 0 1312 ;;
  tr <- shake256_at_h (loc 64) 0 64 pk 0 1312 ;;
  tr <- rdrange tr 0 64 ;;
  b <- pack_sk rho tr key t0 s1 s2 ;;
  sk <- copy sk 0 b 0 2560 ;;
  mret (0, pk, sk).

(** sign.c L148-205 *)
Definition sign_attempt_h (mat : list vec) (s1 s2 t0 : vec) (mu rhoprime : list Z) (nonce so : Z) (mem : list Z) : M (bool * list Z) :=
  y <- vec_uniform_gamma1_h rhoprime nonce ;;
  z <- vec_ntt y ;;
  w <- matrix_pointwise mat z ;;
  w <- vec_reduce w ;;
  w <- vec_invntt_tomont w ;;
  w <- vec_caddq w ;;
  '(w1, w0) <- vec_decompose w ;;
  b <- vec_pack_w1 w1 ;;
  mem <- copy mem so b 0 768 ;;
  b <- rdrange mem so 768 ;;
  mem <- shake256_pieces_h mem so 32 [mu; b] ;;
  c <- rdrange mem so 32 ;;
  cp <- poly_challenge_h c ;;
  cp <- poly_ntt cp ;;
  z <- vec_pointwise_poly cp s1 ;;
  z <- vec_invntt_tomont z ;;
  z <- vec_add z y ;;
  z <- vec_reduce z ;;
  r <- vec_chknorm z (GAMMA1 - BETA) ;;
  if negb (r =? 0) then mret (false, mem) else
  h <- vec_pointwise_poly cp s2 ;;
  h <- vec_invntt_tomont h ;;
  w0 <- vec_sub w0 h ;;
  w0 <- vec_reduce w0 ;;
  r <- vec_chknorm w0 (GAMMA2 - BETA) ;;
  if negb (r =? 0) then mret (false, mem) else
  h <- vec_pointwise_poly cp t0 ;;
  h <- vec_invntt_tomont h ;;
  h <- vec_reduce h ;;
  r <- vec_chknorm h GAMMA2 ;;
  if negb (r =? 0) then mret (false, mem) else
  w0 <- vec_add w0 h ;;
  '(h, n) <- vec_make_hint w0 w1 ;;
  if OMEGA <? n then mret (false, mem) else
  c <- rdrange mem so 32 ;;
  b <- pack_sig c z h ;;
  mem <- copy mem so b 0 2420 ;;
  mret (true, mem).
Fixpoint rej_loop_h (att : Z -> list Z -> M (bool * list Z)) (fuel : nat) (nonce : Z) (mem : list Z) : M (list Z) :=
  match fuel with
  | O => mmore
  | S fuel =>
      '(done, mem) <- att nonce mem ;;
      if done : bool then mret mem else rej_loop_h att fuel (u16 (nonce + 1)) mem
  end.
(** sign.c L108-211 *)
Definition sign_signature_h (mem : list Z) (so mo mlen : Z) (sk : list Z) : M (Z * list Z * Z) :=
  skb <- rdrange sk 0 2560 ;;
  let '(rho, tr, key, t0, s1, s2) := unpack_sk skb in
  sb <- copy (loc 288) 0 rho 0 32 ;;
  sb <- copy sb 96 key 0 32 ;;
  sb <- copy sb 32 tr 0 64 ;;
  tr <- rdrange sb 32 64 ;;
  m <- rdrange mem mo mlen ;;
  sb <- shake256_pieces_h sb 160 64 [tr; m] ;;
  sb <- for_loop 32 (fun n sb => wr sb (128 + n) 0) sb ;;
  sb <- shake256_at_h sb 224 64 sb 96 128 ;;
  rho <- rdrange sb 0 32 ;;
  mu <- rdrange sb 160 64 ;;
  rhoprime <- rdrange sb 224 64 ;;
  mat <- matrix_expand_h rho ;;
  s1 <- vec_ntt s1 ;;
  s2 <- vec_ntt s2 ;;
  t0 <- vec_ntt t0 ;;
  mem <- rej_loop_h (fun nonce => sign_attempt_h mat s1 s2 t0 mu rhoprime nonce so) fuel0 0 mem ;;
  mret (0, mem, 2420).
(** sign.c L229-242 *)
Definition crypto_sign_h (mem : list Z) (so mo mlen : Z) (sk : list Z) : M (Z * list Z * Z) :=
  mem <- for_loop mlen (fun i mem => bind (rd 0 mem (mo + (mlen - 1 - i))) (fun b => wr mem (so + (2420 + mlen - 1 - i)) b)) mem ;;
  '(_, mem, smlen) <- sign_signature_h mem so (so + 2420) mlen sk ;;
  mret (0, mem, u64 (smlen + mlen)).

(** sign.c L257-328 *)
Definition sign_verify_h (mem : list Z) (so siglen mo mlen : Z) (pk : list Z) : M Z :=
  if negb (siglen =? 2420) then mret (-1) else
  pkb <- rdrange pk 0 1312 ;;
  let '(rho, t1) := unpack_pk pkb in
  sig <- rdrange mem so 2420 ;;
  s <- unpack_sig sig ;;
  match s with
  | None => mret (-1)
  | Some (c, z, h) =>
      r <- vec_chknorm z (GAMMA1 - BETA) ;;
      if negb (r =? 0) then mret (-1) else
      mu <- shake256_at_h (loc 64) 0 64 pk 0 1312 ;;
      mub <- rdrange mu 0 64 ;;
      m <- rdrange mem mo mlen ;;
      mu <- shake256_pieces_h mu 0 64 [mub; m] ;;
      mub <- rdrange mu 0 64 ;;
      cp <- poly_challenge_h c ;;
      mat <- matrix_expand_h rho ;;
      z <- vec_ntt z ;;
      w1 <- matrix_pointwise mat z ;;
      cp <- poly_ntt cp ;;
      t1 <- vec_shiftl t1 ;;
      t1 <- vec_ntt t1 ;;
      t1 <- vec_pointwise_poly cp t1 ;;
      w1 <- vec_sub w1 t1 ;;
      w1 <- vec_reduce w1 ;;
      w1 <- vec_invntt_tomont w1 ;;
      w1 <- vec_caddq w1 ;;
      w1 <- vec_use_hint w1 h ;;
      b <- vec_pack_w1 w1 ;;
      buf <- copy (loc 768) 0 b 0 768 ;;
      bufb <- rdrange buf 0 768 ;;
      c2 <- shake256_pieces_h (loc 32) 0 32 [mub; bufb] ;;
      r <- for_loop 32 (fun i r =>
        match r with
        | Some 0 => bind (rd 0 c i) (fun x => bind (rd 0 c2 i) (fun y => Ret (Some (if x =? y then 0 else -1))))
        | _ => Ret r
        end) (Some 0) ;;
      match r with Some v => mret v | None => mmore end
  end.
(** sign.c L344-365 *)
Definition sign_open_h (mem : list Z) (so smlen mo mlen : Z) (pk : list Z) : M (Z * list Z * Z) :=
  if smlen <? 2420 then mret (-1, mem, mlen) else
  let mlen := smlen - 2420 in
  r <- sign_verify_h mem so 2420 (so + 2420) mlen pk ;;
  if negb (r =? 0) then mret (-2, mem, mlen) else
  mem <- for_loop mlen (fun i mem => bind (rd 0 mem (so + (2420 + i))) (fun b => wr mem (mo + i) b)) mem ;;
  mret (0, mem, mlen).
End Prog.
