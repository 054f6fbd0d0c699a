(** What the library leaves in memory that it gives back to the allocator.

    The programs of Heap.v, SpxHeap.v and HybridProg.v again, this time with a record of the contents
    that blocks have at the moment they are passed to free: [R A] is a program that returns its result
    together with these blocks.  free() does not clear a block and the library does not clear it before
    (fips202.c L553-555, L585-587, L633-635, L681-683 only call free), so these are the bytes that the
    allocator gets back. *)
From Verif Require Import Base Sponge ShakePrng DilReduce Tab DilNtt DilPoly DilVec DilSign DilBuf HybridBuf Spx SpxBuf Heap HybridProg.
From Verif Require SpxHeap Tweet.
Local Open Scope Z_scope.
Local Open Scope heap_scope.

Definition R (A : Type) : Type := M (A * list block).
(** the same program without the record *)
Definition forget {A} (m : R A) : M A := x <- m ;; mret (fst x).

(** The bytes of a block, for a machine that stores 64-bit words least significant byte first. *)
Definition word_bytes (w : Z) : list Z := map (fun i => u8 (Z.shiftr w (8 * i))) [0; 1; 2; 3; 4; 5; 6; 7].
Definition contents (b : block) : list Z :=
  match b with
  | Raw _ => []                                      (* never written *)
  | State s => flat_map word_bytes s
  | Inc c => flat_map word_bytes (lanes c ++ [pos c])
  end.

(** fips202.c L553-555, L585-587, L633-635, L681-683 *)
Definition release_r (p : Z) : R unit := b <- load p ;; release_h p ;;; mret (tt, [b]).

(** fips202.c L695-714, L726-745: shake128, shake256 *)
Definition shake_r (r : Z) (output : list Z) (outlen : Z) (input : list Z) (inlen : Z) : R (list Z) :=
  let nblocks := outlen / r in
  s <- absorb_h r input inlen ;;
  output <- squeezeblocks_h r output 0 nblocks s ;;
  let off := nblocks * r in
  let outlen := outlen - nblocks * r in
  output <- (if outlen =? 0 then mret output
             else t <- squeezeblocks_h r (zeros r) 0 1 s ;; copy output off t 0 outlen) ;;
  '(_, l) <- release_r s ;; mret (output, l).
(** a call shake256(out + off, n, inp + ioff, ilen), as in Heap.v *)
Definition shake256_at_r (out : list Z) (off n : Z) (inp : list Z) (ioff ilen : Z) : R (list Z) :=
  i <- rdrange inp ioff ilen ;;
  o <- rdrange out off n ;;
  '(d, l) <- shake_r 136 o n i ilen ;;
  out <- copy out off d 0 n ;; mret (out, l).

(** shake_prng.c L67-83 *)
Definition seedexpander_wrapper_r (seed : ptr) (seedlen : Z) (output : ptr) (outlen : Z) : R (Z * ptr) :=
  match seed, output with
  | Some sd, Some out =>
      if seedlen <? 32 then mret ((-2, output), [])
      else if outlen <=? seedlen then mret ((-3, output), [])
      else
        p <- seedexpander_init_h sd seedlen ;;
        out <- seedexpander_h p out outlen ;;
        '(_, l) <- release_r p ;; mret ((0, Some out), l)
  | _, _ => mret ((-1, output), [])
  end.

(** hybrid.c L140-172 *)
Definition keypair_seed_expander_r (mem : list Z) (eo xo : Z) : R (Z * list Z) :=
  seedTemp <- copy_seed_loop_c 64 0 (zeros 64) mem eo ;;
  '(ret, x, l) <- seedexpander_wrapper_r (Some seedTemp) 64 (Some (zeros 128)) 128 ;;
  if negb (ret =? 0) then mret ((ret, mem), l) else
  match x with
  | None => lift Undef
  | Some x =>
    mem <- copy mem xo x 0 32 ;;
    mem <- move mem (xo + 32) (eo + 64) 32 ;;
    mem <- copy mem (xo + 64) x 32 96 ;;
    mret ((0, mem), l)
  end.

Section Prog.
Variables loc locw : Z -> list Z.
Variable fuel0 : nat.

(** sphincs/hash_shake.c L14-23 *)
Definition prf_addr_r (ctx : spx_ctx) (out : list Z) (ooff : Z) (addr : list Z) : R (list Z) :=
  buf <- copy (loc 96) 0 (pub_seed ctx) 0 32 ;;
  buf <- copy buf 32 addr 0 32 ;;
  buf <- copy buf 64 (sk_seed ctx) 0 32 ;;
  shake256_at_r out ooff 32 buf 0 96.

(** dilithium2/sign.c L23-68.  Only the context of the first hash (L36) is recorded; the blocks that the
    rest of the function (L38-67) releases are not, so the record is a part of what is given back. *)
Definition keypair_rest_h (seedbuf pk sk : list Z) : M (Z * list Z * list Z) :=
  rho <- rdrange seedbuf 0 32 ;;
  rhoprime <- rdrange seedbuf 32 64 ;;
  key <- rdrange seedbuf 96 32 ;;
  mat <- matrix_expand_h loc fuel0 rho ;;
  s1 <- vec_uniform_eta_h loc fuel0 rhoprime 0 ;;
  s2 <- vec_uniform_eta_h loc fuel0 rhoprime 4 ;;
  s1hat <- vec_ntt s1 ;;
  t <- matrix_pointwise mat s1hat ;;
  t <- vec_reduce t ;;
  t <- vec_invntt_tomont t ;;
  t <- vec_add t s2 ;;
  t <- vec_caddq t ;;
  '(t1, t0) <- vec_power2round t ;;
  b <- pack_pk rho t1 ;;
  pk <- copy pk 0 b 0 1312 ;;
  tr <- shake256_at_h (loc 64) 0 64 pk 0 1312 ;;
  tr <- rdrange tr 0 64 ;;
  b <- pack_sk rho tr key t0 s1 s2 ;;
  sk <- copy sk 0 b 0 2560 ;;
  mret (0, pk, sk).
Definition keypair_seed_r (pk sk seed : list Z) : R (Z * list Z * list Z) :=
  seedbuf <- for_loop 32 (fun i sb => bind (rd 0 seed i) (fun b => wr sb i b)) (loc 128) ;;
  '(seedbuf, l) <- shake256_at_r seedbuf 0 128 seedbuf 0 32 ;;
  x <- keypair_rest_h seedbuf pk sk ;;
  mret (x, l).

(** hybrid.c L174-245, recording what the Dilithium key generation gives back *)
Definition hybrid_keypair_seed_r (mem : list Z) (po ko eo : Z) : R (Z * list Z) :=
  seed1 <- copy (zeros 32) 0 mem eo 32 ;;
  seed2 <- copy (zeros 32) 0 mem (eo + 32) 32 ;;
  seed3 <- copy (zeros 96) 0 mem (eo + 64) 96 ;;
  '(r1, pk1, sk1) <- Tweet.ed_keypair_seed seed1 ;;
  if negb (r1 =? 0) then mret ((-2, mem), []) else
  mem <- copy mem po pk1 0 32 ;;
  mem <- copy mem ko sk1 0 64 ;;
  '(r2, pk2, sk2, l) <- keypair_seed_r (zeros 1312) (zeros 2560) seed2 ;;
  if negb (r2 =? 0) then mret ((-3, mem), l) else
  mem <- copy mem (ko + 64) sk2 0 2560 ;;
  mem <- for_loop 1312 (fun i mem =>
           bind (rd 0 pk2 i) (fun b => bind (wr mem (po + 32 + i) b) (fun mem => wr mem (ko + 2624 + i) b))) mem ;;
  '(r3, pk3, sk3) <- SpxHeap.seed_keypair_hp loc locw (zeros 64) (zeros 128) seed3 ;;
  if negb (r3 =? 0) then mret ((-4, mem), l) else
  mem <- copy mem (ko + 3936) sk3 0 128 ;;
  mem <- copy mem (po + 1344) pk3 0 64 ;;
  mret ((0, mem), l).
End Prog.
