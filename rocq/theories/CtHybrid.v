(** hybrid-dilithium-sphincs/hybrid.c key generation and signing with everything an observer of
    branches and addresses sees recorded (CtBase.v).  The calls go to the recorded programs of
    CtTweet.v, CtDil.v, CtSpx.v and CtKeccak.v.

    Simplifications: the caller's arrays are separate (overlap is the subject of HybridBuf.v) and not
    NULL; [= { 0 }] initialisations are not recorded (their addresses are constants); hash contexts are
    values (Heap.v has them on a heap).  [loc], [locw]: contents of uninitialised local arrays.  [fuel]
    bounds the rejection loops of Dilithium; [None] means it did not suffice.  [rc] and [bs] are what
    randombytes returns and writes. *)
From Verif Require Import Base Sponge CtBase CtKeccak.
From Verif Require CtTweet CtDil CtSpx.

Section Prog.
Context {V : Type} (O : ops V).
Variables loc locw : Z -> list V.
Notation arr := (list V).

(** L145-148, with both increments of [i] *)
Fixpoint copy_seed_loop_l (fuel : nat) (i : Z) (seedTemp seed : arr) : L arr :=
  lif (i <? 64)
    (match fuel with
     | Datatypes.O => lret seedTemp
     | S fuel' =>
         b <~ lrd O seed i ;;;
         seedTemp <~ lwr seedTemp i b ;;;
         copy_seed_loop_l fuel' ((i + 1) + 1) seedTemp seed
     end)
    (lret seedTemp).
(** L140-172 *)
Definition keypair_seed_expander_l (seed expandedSeed : arr) : L (Z * arr) :=
  seedTemp <~ copy_seed_loop_l 64 0 (vzeros O 64) seed ;;;
  '(ret, expandedSeedTemp) <~ seedexpander_wrapper_l O seedTemp 64 (vzeros O 128) 128 ;;;
  lif (negb (ret =? 0)) (lret (ret, expandedSeed)) (
  expandedSeed <~ lcopy O expandedSeed 0 expandedSeedTemp 0 32 ;;;
  expandedSeed <~ lcopy O expandedSeed 32 seed 64 32 ;;;
  expandedSeed <~ lcopy O expandedSeed 64 expandedSeedTemp 32 96 ;;;
  lret (0, expandedSeed)).

(** L221-224: the Dilithium public key goes to both keys in one loop *)
Definition copy_both_l (pk sk pk2 : arr) : L (arr * arr) :=
  lfor 1312 (fun i '(pk, sk) =>
    v <~ lrd O pk2 i ;;;
    pk <~ lwr pk (32 + i) v ;;;
    v <~ lrd O pk2 i ;;;
    sk <~ lwr sk (64 + 2560 + i) v ;;;
    lret (pk, sk)) (pk, sk).
(** L174-245 *)
Definition keypair_seed_l (fuel : nat) (pk sk seed : arr) : L (option (Z * arr * arr)) :=
  seed1 <~ lcopy O (vzeros O 32) 0 seed 0 32 ;;;
  seed2 <~ lcopy O (vzeros O 32) 0 seed 32 32 ;;;
  seed3 <~ lcopy O (vzeros O 96) 0 seed (32 + 32) 96 ;;;
  '(r1, pk1, sk1) <~ CtTweet.keypair_seed_l O seed1 ;;;
  lif (negb (r1 =? 0)) (lret (Some (-2, pk, sk))) (
  pk <~ lcopy O pk 0 pk1 0 32 ;;;
  sk <~ lcopy O sk 0 sk1 0 64 ;;;
  r <~ CtDil.keypair_seed_l O loc fuel (vzeros O 1312) (vzeros O 2560) seed2 ;;;
  match r with
  | None => lret None
  | Some (r2, pk2, sk2) =>
      lif (negb (r2 =? 0)) (lret (Some (-3, pk, sk))) (
      sk <~ lcopy O sk 64 sk2 0 2560 ;;;
      '(pk, sk) <~ copy_both_l pk sk pk2 ;;;
      '(r3, pk3, sk3) <~ CtSpx.seed_keypair_l O loc locw (vzeros O 64) (vzeros O 128) seed3 ;;;
      lif (negb (r3 =? 0)) (lret (Some (-4, pk, sk))) (
      sk <~ lcopy O sk (64 + 2560 + 1312) sk3 0 128 ;;;
      pk <~ lcopy O pk (32 + 1312) pk3 0 64 ;;;
      lret (Some (0, pk, sk))))
  end).
(** L247-257; randombytes writes [bs] into the local array *)
Definition keypair_l (fuel : nat) (rc : Z) (bs : arr) (pk sk : arr) : L (option (Z * arr * arr)) :=
  seed <~ lcopy O (loc 160) 0 bs 0 160 ;;;
  lif (negb (rc =? 0)) (lret (Some (-1, pk, sk))) (keypair_seed_l fuel pk sk seed).

(** L259-344.  [*smlen] is an argument and a result.  The two post-quantum signing calls get a message
    that does not overlap the signature they write. *)
Definition sign_l (fuel : nat) (rc : Z) (bs : arr) (sm : arr) (smlen : Z) (m : arr) (mlen : Z) (sk : arr) : L (option (Z * arr * Z)) :=
  lif ((mlen <=? 0) || (64 <? mlen)) (lret (Some (-1, sm, smlen))) (
  sk1 <~ lcopy O (vzeros O 64) 0 sk 0 64 ;;;
  sk2 <~ lcopy O (vzeros O 2560) 0 sk 64 2560 ;;;
  sk3 <~ lcopy O (vzeros O 128) 0 sk (64 + 2560 + 1312) 128 ;;;
  '(r1, l1, sig1) <~ CtTweet.sign_l O (vzeros O 128) m mlen sk1 ;;;
  r <~ CtDil.sign_signature_l O loc fuel (vzeros O 2420 ++ m) 0 2420 mlen sk2 ;;;
  match r with
  | None => lret None
  | Some (r2, mem2, l2) =>
      '(r3, l3, mem3) <~ CtSpx.sign_signature_l O loc locw rc bs (vzeros O 49856 ++ m) 0 0 49856 mlen sk3 ;;;
      lif (negb (r1 =? 0)) (lret (Some (-2, sm, smlen))) (
      lif (negb (r2 =? 0)) (lret (Some (-3, sm, smlen))) (
      lif (negb (r3 =? 0)) (lret (Some (-4, sm, smlen))) (
      lif (negb (l1 =? 64 + mlen)) (lret (Some (-5, sm, smlen))) (
      lif (negb (l2 =? 2420)) (lret (Some (-6, sm, smlen))) (
      lif (negb (l3 =? 49856)) (lret (Some (-6, sm, smlen))) (
      sm <~ lwr sm 0 (cst O 2) ;;;
      sm <~ lwr sm 1 (cst O (mlen mod 256)) ;;;
      sm <~ lcopy O sm 2 sig1 0 l1 ;;;
      sm <~ lcopy O sm (2 + l1) (lptr mem2 0 2420) 0 l2 ;;;
      sm <~ lcopy O sm (2 + l1 + l2) (lptr mem3 0 49856) 0 l3 ;;;
      lret (Some (0, sm, 2 + 64 + 2420 + 49856 + mlen))))))))
  end).

(** L468-564 *)
Definition sign_compact_l (fuel : nat) (rc : Z) (bs : arr) (sm : arr) (smlen : Z) (m : arr) (mlen : Z) (sk : arr) : L (option (Z * arr * Z)) :=
  lif ((mlen <=? 0) || (64 <? mlen)) (lret (Some (-1, sm, smlen))) (
  sk1 <~ lcopy O (vzeros O 64) 0 sk 0 64 ;;;
  sk2 <~ lcopy O (vzeros O 2560) 0 sk 64 2560 ;;;
  nonce <~ lcopy O (loc 40) 0 bs 0 40 ;;;
  lif (negb (rc =? 0)) (lret (Some (-1, sm, smlen))) (
  hm <~ lcopy O (vzeros O 168) 0 nonce 0 40 ;;;
  hm <~ lcopy O hm 40 m 0 mlen ;;;
  hm <~ lcopy O hm (40 + mlen) sk (64 + 2560 + 1312 + 128 / 2) 64 ;;;
  h <~ sha3_l O SHA3_512_RATE 64 (loc 64) hm (40 + mlen + 64) ;;;
  '(r1, l1, sig1) <~ CtTweet.sign_l O (vzeros O 128) h 64 sk1 ;;;
  r <~ CtDil.sign_signature_l O loc fuel (vzeros O 2420 ++ h) 0 2420 64 sk2 ;;;
  match r with
  | None => lret None
  | Some (r2, mem2, l2) =>
      lif (negb (r1 =? 0)) (lret (Some (-2, sm, smlen))) (
      lif (negb (r2 =? 0)) (lret (Some (-3, sm, smlen))) (
      lif (negb (l1 =? 64 + 64)) (lret (Some (-4, sm, smlen))) (
      lif (negb (l2 =? 2420)) (lret (Some (-5, sm, smlen))) (
      sm <~ lwr sm 0 (cst O 1) ;;;
      sm <~ lwr sm 1 (cst O (mlen mod 256)) ;;;
      sm <~ lcopy O sm 2 sig1 0 64 ;;;
      sm <~ lcopy O sm (2 + 64) (lptr mem2 0 2420) 0 2420 ;;;
      sm <~ lcopy O sm (2 + 64 + 2420) nonce 0 40 ;;;
      sm <~ lcopy O sm (2 + 64 + 2420 + 40) m 0 mlen ;;;
      lret (Some (0, sm, 2 + 64 + 2420 + 40 + mlen))))))
  end)).
End Prog.
