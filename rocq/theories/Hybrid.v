(** Model of [hybrid-dilithium-sphincs/hybrid.c] and [common/hybrid-common.c].

    The three component schemes, SHA3-512, the seed expander and the random
    source are arguments: a theorem proved here holds for every behaviour of
    them.  They are modelled themselves in other files and plugged in later.

    Simplifications, everywhere in this file:
    - the buffers given to one call do not overlap;
    - [unsigned long long *] passed where a component takes [size_t *]
      (L294-296, L518-519) is treated as the same type (true on LP64/LLP64;
      the 32-bit case is treated in [Wasm.v]). *)
From Verif Require Import Base.

(** ** [common/hybrid-common.c] L3-27 *)
Definition MIN_MSG_LEN : Z := 1.                          (* L3 *)
Definition MAX_MSG_LEN : Z := 64.                         (* L4 *)
Definition LEN_BYTES : Z := 2.                            (* L5 *)
Definition SEED_LENGTH_ED25519 : Z := 32.                 (* L7 *)
Definition CRYPTO_ED25519_PUBLICKEY_BYTES : Z := 32.      (* L8 *)
Definition CRYPTO_ED25519_SECRETKEY_BYTES : Z := 64.      (* L9 *)
Definition CRYPTO_ED25519_SIGNATURE_BYTES : Z := 64.      (* L10 *)
Definition SEED_LENGTH_DILITHIUM : Z := 32.               (* L13 *)
Definition CRYPTO_DILITHIUM_PUBLICKEY_BYTES : Z := 1312.  (* L14 *)
Definition CRYPTO_DILITHIUM_SECRETKEY_BYTES : Z := 2560.  (* L15 *)
Definition CRYPTO_DILITHIUM_SIGNATURE_BYTES : Z := 2420.  (* L16 *)
Definition SEED_LENGTH_SPHINCS : Z := 96.                 (* L18 *)
Definition CRYPTO_SPHINCS_PUBLICKEY_BYTES : Z := 64.      (* L19 *)
Definition CRYPTO_SPHINCS_SECRETKEY_BYTES : Z := 128.     (* L20 *)
Definition CRYPTO_SPHINCS_SIGNATURE_BYTES : Z := 49856.   (* L21 *)
Definition NONCE_BYTES : Z := 40.                         (* L23 *)
Definition HASH_LENGTH : Z := 64.                         (* L24 *)
Definition DILITHIUM_ED25519_SPHINCS_COMPACT_ID : Z := 1. (* L26 *)
Definition DILITHIUM_ED25519_SPHINCS_FULL_ID : Z := 2.    (* L27 *)

(** ** Components *)

(** What one call of a component function does: its return value, the value it
    leaves in the caller's length variable, and the bytes it writes from the
    start of the caller's output array. *)
Record cres := { code : Z; olen : Z; obytes : list Z }.

(** The random source as seen by one API call: [rb n] is the return value of
    [randombytes(buf, n)] and the [n] bytes it leaves in [buf].  Every function
    below calls it at most once. *)
Definition rnd := Z -> Z * list Z.

Record comps := {
  (* tweetnacl/tweetnacl.c L658-678: seed -> (ret, pk, sk) *)
  ed_keypair : list Z -> Z * list Z * list Z;
  (* dilithium2/sign.c L23-68 *)
  dil_keypair : list Z -> Z * list Z * list Z;
  (* sphincs/sign.c L50-75 *)
  spx_keypair : list Z -> Z * list Z * list Z;
  (* tweetnacl L728-758: message, sk *)
  ed_sign : list Z -> list Z -> cres;
  (* dilithium2/sign.c L108-211: message, sk *)
  dil_sign : list Z -> list Z -> cres;
  (* sphincs/sign.c L96-163: random source, message, sk *)
  spx_sign : rnd -> list Z -> list Z -> cres;
  (* tweetnacl L796-825: signed message, pk *)
  ed_open : list Z -> list Z -> cres;
  (* dilithium2/sign.c L257-328: signature, message, pk *)
  dil_verify : list Z -> list Z -> list Z -> Z;
  (* sphincs/sign.c L168-247: signature, message, pk *)
  spx_verify : list Z -> list Z -> list Z -> Z;
  (* common/fips202.c L897-928 *)
  sha3_512 : list Z -> list Z
}.

(** A callee writing [out] through a pointer to the local array [buf]. *)
Definition put (buf out : list Z) : outcome (list Z) := copy buf 0 out 0 (zlen out).

(** ** hybrid.c L140-172: [..._keypair_seed_expander]
    [expander seedTemp seedlen out outlen] is [seedexpander_wrapper]
    (common/shake_prng.c L61-83), returning its code and the new [out].
    There is no NULL check in the C code, so a NULL pointer is [Undef]. *)

(** L145-148: [for (int i = 0; i < 64; i++) { seedTemp[i] = seed[i]; i++; }].
    The index is incremented in the body and again in the loop header, exactly
    as in the source.  [fuel] bounds the number of iterations (64 is enough and
    running out would be [Undef]). *)
Fixpoint copy_seed_loop (fuel : nat) (i : Z) (seedTemp seed : list Z) : outcome (list Z) :=
  if i <? 64 then
    match fuel with
    | O => Undef
    | S fuel' =>
        b <- rd 0 seed i ;;
        seedTemp' <- wr seedTemp i b ;;
        (* the [i++] of the body (L147) and the [i++] of the header (L145) *)
        copy_seed_loop fuel' ((i + 1) + 1) seedTemp' seed
    end
  else Ret seedTemp.

Definition keypair_seed_expander
    (expander : list Z -> Z -> list Z -> Z -> Z * list Z)
    (seed expandedSeed : ptr) : outcome (Z * ptr) :=
  match seed, expandedSeed with
  | Some seed, Some expandedSeed =>
    let seedTemp := zeros 64 in                                   (* L141 *)
    let expandedSeedTemp := zeros 128 in                          (* L142 *)
    seedTemp <- copy_seed_loop 64 0 seedTemp seed ;;              (* L145-148 *)
    let '(ret, expandedSeedTemp) :=
      expander seedTemp 64 expandedSeedTemp 128 in                (* L151 *)
    if negb (ret =? 0) then Ret (ret, Some expandedSeed) else     (* L152-154 *)
    expandedSeed <- copy expandedSeed 0 expandedSeedTemp 0 32 ;;  (* L157-159 *)
    expandedSeed <- copy expandedSeed 32 seed 64 32 ;;            (* L162-164 *)
    expandedSeed <- copy expandedSeed 64 expandedSeedTemp 32 96 ;;(* L167-169 *)
    Ret (0, Some expandedSeed)
  | _, _ => Undef
  end.

Section WithComponents.
Variable P : comps.

(** ** hybrid.c L174-245: [..._keypair_seed] *)
Definition keypair_seed (pk sk seed : ptr) : outcome (Z * ptr * ptr) :=
  match pk, sk, seed with
  | Some pk, Some sk, Some seed =>
    (* L190-200 *)
    seed1 <- copy (zeros 32) 0 seed 0 SEED_LENGTH_ED25519 ;;
    seed2 <- copy (zeros 32) 0 seed SEED_LENGTH_ED25519 SEED_LENGTH_DILITHIUM ;;
    seed3 <- copy (zeros 96) 0 seed (SEED_LENGTH_ED25519 + SEED_LENGTH_DILITHIUM) SEED_LENGTH_SPHINCS ;;
    (* L202-205 *)
    let '(r1, pk1, sk1) := ed_keypair P seed1 in
    pk1 <- put (zeros 32) pk1 ;;
    sk1 <- put (zeros 64) sk1 ;;
    if negb (r1 =? 0) then Ret (-2, Some pk, Some sk) else
    (* L207-213 *)
    pk <- copy pk 0 pk1 0 CRYPTO_ED25519_PUBLICKEY_BYTES ;;
    sk <- copy sk 0 sk1 0 CRYPTO_ED25519_SECRETKEY_BYTES ;;
    (* L215-219 *)
    let '(r2, pk2, sk2) := dil_keypair P seed2 in
    pk2 <- put (zeros 1312) pk2 ;;
    sk2 <- put (zeros 2560) sk2 ;;
    if negb (r2 =? 0) then Ret (-3, Some pk, Some sk) else
    (* L221-228 *)
    sk <- copy sk CRYPTO_ED25519_SECRETKEY_BYTES sk2 0 CRYPTO_DILITHIUM_SECRETKEY_BYTES ;;
    pk <- copy pk CRYPTO_ED25519_PUBLICKEY_BYTES pk2 0 CRYPTO_DILITHIUM_PUBLICKEY_BYTES ;;
    sk <- copy sk (CRYPTO_ED25519_SECRETKEY_BYTES + CRYPTO_DILITHIUM_SECRETKEY_BYTES) pk2 0
               CRYPTO_DILITHIUM_PUBLICKEY_BYTES ;;
    (* L230-234 *)
    let '(r3, pk3, sk3) := spx_keypair P seed3 in
    pk3 <- put (zeros 64) pk3 ;;
    sk3 <- put (zeros 128) sk3 ;;
    if negb (r3 =? 0) then Ret (-4, Some pk, Some sk) else
    (* L236-242 *)
    sk <- copy sk (CRYPTO_ED25519_SECRETKEY_BYTES + CRYPTO_DILITHIUM_SECRETKEY_BYTES
                   + CRYPTO_DILITHIUM_PUBLICKEY_BYTES) sk3 0 CRYPTO_SPHINCS_SECRETKEY_BYTES ;;
    pk <- copy pk (CRYPTO_ED25519_PUBLICKEY_BYTES + CRYPTO_DILITHIUM_PUBLICKEY_BYTES) pk3 0
               CRYPTO_SPHINCS_PUBLICKEY_BYTES ;;
    Ret (0, Some pk, Some sk)
  | _, _, _ => Ret (-1, pk, sk)                                   (* L175-177 *)
  end.

(** ** hybrid.c L247-257: [..._keypair] *)
Definition keypair (rb : rnd) (pk sk : ptr) : outcome (Z * ptr * ptr) :=
  match pk, sk with
  | Some _, Some _ =>
    let '(r, seed) := rb 160 in
    if negb (r =? 0) then Ret (-1, pk, sk) else
    keypair_seed pk sk (Some seed)
  | _, _ => Ret (-1, pk, sk)
  end.

(** ** hybrid.c L259-344: full-mode [sign].
    Result: (return value, new [sm], new [*smlen]). *)
Definition sign_full (rb : rnd) (sm : ptr) (smlen : option Z) (m : ptr) (mlen : Z) (sk : ptr)
  : outcome (Z * ptr * option Z) :=
  match sm, smlen, m, sk with
  | Some smb, Some _, Some mb, Some skb =>
    if (mlen <=? 0) || (MAX_MSG_LEN <? mlen) then Ret (-1, sm, smlen) else    (* L263 *)
    (* L278-291 *)
    sk1 <- copy (zeros 64) 0 skb 0 CRYPTO_ED25519_SECRETKEY_BYTES ;;
    sk2 <- copy (zeros 2560) 0 skb CRYPTO_ED25519_SECRETKEY_BYTES CRYPTO_DILITHIUM_SECRETKEY_BYTES ;;
    sk3 <- copy (zeros 128) 0 skb (CRYPTO_ED25519_SECRETKEY_BYTES + CRYPTO_DILITHIUM_SECRETKEY_BYTES
                                   + CRYPTO_DILITHIUM_PUBLICKEY_BYTES) CRYPTO_SPHINCS_SECRETKEY_BYTES ;;
    (* L294-296: the callees read m[0..mlen) *)
    msg <- rdrange mb 0 mlen ;;
    let c1 := ed_sign P msg sk1 in
    sig1 <- put (zeros 128) (obytes c1) ;;
    let c2 := dil_sign P msg sk2 in
    sig2 <- put (zeros 2420) (obytes c2) ;;
    let c3 := spx_sign P rb msg sk3 in
    sig3 <- put (zeros 49856) (obytes c3) ;;
    if negb (code c1 =? 0) then Ret (-2, sm, smlen) else                      (* L298 *)
    if negb (code c2 =? 0) then Ret (-3, sm, smlen) else                      (* L302 *)
    if negb (code c3 =? 0) then Ret (-4, sm, smlen) else                      (* L306 *)
    if negb (olen c1 =? CRYPTO_ED25519_SIGNATURE_BYTES + mlen) then Ret (-5, sm, smlen) else
    if negb (olen c2 =? CRYPTO_DILITHIUM_SIGNATURE_BYTES) then Ret (-6, sm, smlen) else
    if negb (olen c3 =? CRYPTO_SPHINCS_SIGNATURE_BYTES) then Ret (-6, sm, smlen) else
    (* L323-324 *)
    smb <- wr smb 0 (u8 DILITHIUM_ED25519_SPHINCS_FULL_ID) ;;
    smb <- wr smb 1 (u8 mlen) ;;
    (* L327-339 *)
    smb <- copy smb LEN_BYTES sig1 0 (i32 (olen c1)) ;;
    smb <- copy smb (LEN_BYTES + olen c1) sig2 0 (olen c2) ;;
    smb <- copy smb (LEN_BYTES + olen c1 + olen c2) sig3 0 (olen c3) ;;
    (* L341-343 *)
    Ret (0, Some smb, Some (LEN_BYTES + CRYPTO_ED25519_SIGNATURE_BYTES + CRYPTO_DILITHIUM_SIGNATURE_BYTES
                            + CRYPTO_SPHINCS_SIGNATURE_BYTES + mlen))
  | _, _, _, _ => Ret (-1, sm, smlen)
  end.

(** ** hybrid.c L346-437: full-mode [open].
    Result: (return value, new [m], new [*mlen]). *)
Definition open_full (m : ptr) (mlen : option Z) (sm : ptr) (smlen : Z) (pk : ptr)
  : outcome (Z * ptr * option Z) :=
  match m, mlen, sm, pk with
  | Some mb, Some _, Some smb, Some pkb =>
    if (smlen <? LEN_BYTES + CRYPTO_ED25519_SIGNATURE_BYTES + MIN_MSG_LEN
                 + CRYPTO_DILITHIUM_SIGNATURE_BYTES + CRYPTO_SPHINCS_SIGNATURE_BYTES)
       || (LEN_BYTES + CRYPTO_ED25519_SIGNATURE_BYTES + MAX_MSG_LEN
           + CRYPTO_DILITHIUM_SIGNATURE_BYTES + CRYPTO_SPHINCS_SIGNATURE_BYTES <? smlen)
    then Ret (-1, m, mlen) else                                               (* L350-353 *)
    id <- rd 0 smb 0 ;;                                                       (* L355 *)
    if negb (id =? DILITHIUM_ED25519_SPHINCS_FULL_ID) then Ret (-2, m, mlen) else
    msgLen <- rd 0 smb 1 ;;                                                   (* L360 *)
    if (msgLen <=? 0) || (MAX_MSG_LEN <? msgLen) then Ret (-3, m, mlen) else
    if negb (smlen =? LEN_BYTES + CRYPTO_ED25519_SIGNATURE_BYTES + msgLen
                      + CRYPTO_DILITHIUM_SIGNATURE_BYTES + CRYPTO_SPHINCS_SIGNATURE_BYTES)
    then Ret (-4, m, mlen) else                                               (* L365 *)
    let sig1Len := CRYPTO_ED25519_SIGNATURE_BYTES + msgLen in                 (* L369 *)
    sig1 <- copy (zeros 128) 0 smb LEN_BYTES sig1Len ;;                       (* L381 *)
    pk1 <- copy (zeros 32) 0 pkb 0 CRYPTO_ED25519_PUBLICKEY_BYTES ;;          (* L386 *)
    sig1in <- rdrange sig1 0 sig1Len ;;
    let c1 := ed_open P sig1in pk1 in                                         (* L390 *)
    msgFromSignature1 <- put (zeros 128) (obytes c1) ;;
    if negb (code c1 =? 0) then Ret (-5, m, mlen) else
    if negb (i32 (olen c1) =? msgLen) then Ret (-6, m, mlen) else             (* L395 *)
    sig2 <- copy (zeros 2420) 0 smb (LEN_BYTES + CRYPTO_ED25519_SIGNATURE_BYTES + msgLen)
                 CRYPTO_DILITHIUM_SIGNATURE_BYTES ;;                          (* L400 *)
    pk2 <- copy (zeros 1312) 0 pkb CRYPTO_ED25519_PUBLICKEY_BYTES
                CRYPTO_DILITHIUM_PUBLICKEY_BYTES ;;                           (* L406 *)
    msg <- rdrange msgFromSignature1 0 msgLen ;;
    if negb (dil_verify P sig2 msg pk2 =? 0) then Ret (-7, m, mlen) else      (* L410 *)
    sig3 <- copy (zeros 49856) 0 smb
                 (LEN_BYTES + CRYPTO_ED25519_SIGNATURE_BYTES + msgLen + CRYPTO_DILITHIUM_SIGNATURE_BYTES)
                 CRYPTO_SPHINCS_SIGNATURE_BYTES ;;                            (* L416 *)
    pk3 <- copy (zeros 64) 0 pkb (CRYPTO_ED25519_PUBLICKEY_BYTES + CRYPTO_DILITHIUM_PUBLICKEY_BYTES)
                CRYPTO_SPHINCS_PUBLICKEY_BYTES ;;                             (* L421 *)
    if negb (spx_verify P sig3 msg pk3 =? 0) then Ret (-8, m, mlen) else      (* L425 *)
    mb <- copy mb 0 msgFromSignature1 0 msgLen ;;                             (* L430 *)
    Ret (0, Some mb, Some msgLen)                                             (* L434 *)
  | _, _, _, _ => Ret (-1, m, mlen)
  end.

(** L459-463 / L689-693: compare the first [n] bytes of [a] with [b], stopping
    with [Ret false] at the first difference. *)
Fixpoint cmp_from (n : nat) (i : Z) (a b : list Z) : outcome bool :=
  match n with
  | O => Ret true
  | S n' =>
      x <- rd 0 a i ;;
      y <- rd 0 b i ;;
      if negb (x =? y) then Ret false else cmp_from n' (i + 1) a b
  end.

(** ** hybrid.c L439-466: full-mode [verify] *)
Definition verify_full (m : ptr) (mlen : Z) (sm : ptr) (smlen : Z) (pk : ptr) : outcome Z :=
  match m, sm, pk with
  | Some mb, Some _, Some _ =>
    if (mlen <=? 0) || (MAX_MSG_LEN <? mlen) then Ret (-1) else               (* L443 *)
    '(r, msgFromSignature1, msgFromSignatureLen1) <-
       open_full (Some (zeros (64 + 64 + 32 + 64))) (Some 0) sm smlen pk ;;   (* L450 *)
    if negb (r =? 0) then Ret (-2) else
    match msgFromSignature1, msgFromSignatureLen1 with
    | Some msgFromSignature1, Some msgFromSignatureLen1 =>
      if negb (msgFromSignatureLen1 =? mlen) then Ret (-3) else               (* L455 *)
      eq <- cmp_from (Z.to_nat (i32 msgFromSignatureLen1)) 0 msgFromSignature1 mb ;;
      if eq then Ret 0 else Ret (-4)
    | _, _ => Undef
    end
  | _, _, _ => Ret (-1)
  end.

(** ** hybrid.c L468-564: compact-mode [sign] *)
Definition sign_compact (rb : rnd) (sm : ptr) (smlen : option Z) (m : ptr) (mlen : Z) (sk : ptr)
  : outcome (Z * ptr * option Z) :=
  match sm, smlen, m, sk with
  | Some smb, Some _, Some mb, Some skb =>
    if (mlen <=? 0) || (MAX_MSG_LEN <? mlen) then Ret (-1, sm, smlen) else    (* L472 *)
    sk1 <- copy (zeros 64) 0 skb 0 CRYPTO_ED25519_SECRETKEY_BYTES ;;          (* L488 *)
    sk2 <- copy (zeros 2560) 0 skb CRYPTO_ED25519_SECRETKEY_BYTES CRYPTO_DILITHIUM_SECRETKEY_BYTES ;;
    let '(r, rbytes) := rb 40 in                                              (* L498 *)
    nonce <- put (zeros 40) rbytes ;;
    if negb (r =? 0) then Ret (-1, sm, smlen) else
    hybridMsg <- copy (zeros (40 + 64 + 64)) 0 nonce 0 NONCE_BYTES ;;         (* L502 *)
    hybridMsg <- copy hybridMsg NONCE_BYTES mb 0 mlen ;;                      (* L506 *)
    hybridMsg <- copy hybridMsg (NONCE_BYTES + mlen) skb                      (* L510 *)
                   (CRYPTO_ED25519_SECRETKEY_BYTES + CRYPTO_DILITHIUM_SECRETKEY_BYTES
                    + CRYPTO_DILITHIUM_PUBLICKEY_BYTES + CRYPTO_SPHINCS_SECRETKEY_BYTES / 2)
                   CRYPTO_SPHINCS_PUBLICKEY_BYTES ;;
    hin <- rdrange hybridMsg 0 (NONCE_BYTES + mlen + CRYPTO_SPHINCS_PUBLICKEY_BYTES) ;;
    hybridMessageHash <- put (zeros 64) (sha3_512 P hin) ;;                   (* L515 *)
    hmsg <- rdrange hybridMessageHash 0 HASH_LENGTH ;;
    let c1 := ed_sign P hmsg sk1 in                                           (* L518 *)
    sig1 <- put (zeros 128) (obytes c1) ;;
    let c2 := dil_sign P hmsg sk2 in                                          (* L519 *)
    sig2 <- put (zeros 2420) (obytes c2) ;;
    if negb (code c1 =? 0) then Ret (-2, sm, smlen) else
    if negb (code c2 =? 0) then Ret (-3, sm, smlen) else
    if negb (olen c1 =? CRYPTO_ED25519_SIGNATURE_BYTES + HASH_LENGTH) then Ret (-4, sm, smlen) else
    if negb (olen c2 =? CRYPTO_DILITHIUM_SIGNATURE_BYTES) then Ret (-5, sm, smlen) else
    smb <- wr smb 0 (u8 DILITHIUM_ED25519_SPHINCS_COMPACT_ID) ;;              (* L538 *)
    smb <- wr smb 1 (u8 mlen) ;;
    smb <- copy smb LEN_BYTES sig1 0 CRYPTO_ED25519_SIGNATURE_BYTES ;;        (* L542 *)
    smb <- copy smb (LEN_BYTES + CRYPTO_ED25519_SIGNATURE_BYTES) sig2 0
                CRYPTO_DILITHIUM_SIGNATURE_BYTES ;;                           (* L547 *)
    smb <- copy smb (LEN_BYTES + CRYPTO_ED25519_SIGNATURE_BYTES + CRYPTO_DILITHIUM_SIGNATURE_BYTES)
                nonce 0 NONCE_BYTES ;;                                        (* L552 *)
    smb <- copy smb (LEN_BYTES + CRYPTO_ED25519_SIGNATURE_BYTES + CRYPTO_DILITHIUM_SIGNATURE_BYTES
                     + NONCE_BYTES) mb 0 mlen ;;                              (* L557 *)
    Ret (0, Some smb, Some (LEN_BYTES + CRYPTO_ED25519_SIGNATURE_BYTES + CRYPTO_DILITHIUM_SIGNATURE_BYTES
                            + NONCE_BYTES + mlen))                            (* L561 *)
  | _, _, _, _ => Ret (-1, sm, smlen)
  end.

(** ** hybrid.c L566-667: compact-mode [open] *)
Definition open_compact (m : ptr) (mlen : option Z) (sm : ptr) (smlen : Z) (pk : ptr)
  : outcome (Z * ptr * option Z) :=
  match m, mlen, sm, pk with
  | Some mb, Some _, Some smb, Some pkb =>
    if (smlen <? LEN_BYTES + CRYPTO_ED25519_SIGNATURE_BYTES + CRYPTO_DILITHIUM_SIGNATURE_BYTES
                 + NONCE_BYTES + MIN_MSG_LEN)
       || (LEN_BYTES + CRYPTO_ED25519_SIGNATURE_BYTES + CRYPTO_DILITHIUM_SIGNATURE_BYTES
           + NONCE_BYTES + MAX_MSG_LEN <? smlen)
    then Ret (-1, m, mlen) else                                               (* L570-573 *)
    id <- rd 0 smb 0 ;;
    if negb (id =? DILITHIUM_ED25519_SPHINCS_COMPACT_ID) then Ret (-2, m, mlen) else
    msgLen <- rd 0 smb 1 ;;
    if (msgLen <=? 0) || (MAX_MSG_LEN <? msgLen) then Ret (-3, m, mlen) else
    if negb (smlen =? LEN_BYTES + CRYPTO_ED25519_SIGNATURE_BYTES + CRYPTO_DILITHIUM_SIGNATURE_BYTES
                      + NONCE_BYTES + msgLen)
    then Ret (-4, m, mlen) else                                               (* L585 *)
    hybridMsg <- copy (zeros (40 + 64 + 64)) 0 smb
                   (LEN_BYTES + CRYPTO_ED25519_SIGNATURE_BYTES + CRYPTO_DILITHIUM_SIGNATURE_BYTES)
                   NONCE_BYTES ;;                                             (* L599 *)
    hybridMsg <- copy hybridMsg NONCE_BYTES smb
                   (LEN_BYTES + CRYPTO_ED25519_SIGNATURE_BYTES + CRYPTO_DILITHIUM_SIGNATURE_BYTES
                    + NONCE_BYTES) msgLen ;;                                  (* L602 *)
    hybridMsg <- copy hybridMsg (NONCE_BYTES + msgLen) pkb
                   (CRYPTO_ED25519_PUBLICKEY_BYTES + CRYPTO_DILITHIUM_PUBLICKEY_BYTES)
                   CRYPTO_SPHINCS_PUBLICKEY_BYTES ;;                          (* L605 *)
    hin <- rdrange hybridMsg 0 (NONCE_BYTES + msgLen + CRYPTO_SPHINCS_PUBLICKEY_BYTES) ;;
    hybridMessageHash <- put (zeros 64) (sha3_512 P hin) ;;                   (* L610 *)
    sig1 <- copy (zeros 128) 0 smb LEN_BYTES CRYPTO_ED25519_SIGNATURE_BYTES ;;(* L614 *)
    sig1 <- copy sig1 CRYPTO_ED25519_SIGNATURE_BYTES hybridMessageHash 0 HASH_LENGTH ;; (* L619 *)
    pk1 <- copy (zeros 32) 0 pkb 0 CRYPTO_ED25519_PUBLICKEY_BYTES ;;          (* L624 *)
    sig1in <- rdrange sig1 0 (CRYPTO_ED25519_SIGNATURE_BYTES + HASH_LENGTH) ;;
    let c1 := ed_open P sig1in pk1 in                                         (* L628 *)
    msgFromSignature1 <- put (zeros 128) (obytes c1) ;;
    if negb (code c1 =? 0) then Ret (-5, m, mlen) else
    if negb (olen c1 =? HASH_LENGTH) then Ret (-6, m, mlen) else              (* L633 *)
    eq <- cmp_from (Z.to_nat HASH_LENGTH) 0 msgFromSignature1 hybridMessageHash ;; (* L638 *)
    if negb eq then Ret (-7, m, mlen) else
    sig2 <- copy (zeros 2420) 0 smb (LEN_BYTES + CRYPTO_ED25519_SIGNATURE_BYTES)
                 CRYPTO_DILITHIUM_SIGNATURE_BYTES ;;                          (* L645 *)
    pk2 <- copy (zeros 1312) 0 pkb CRYPTO_ED25519_PUBLICKEY_BYTES
                CRYPTO_DILITHIUM_PUBLICKEY_BYTES ;;                           (* L650 *)
    hmsg <- rdrange hybridMessageHash 0 HASH_LENGTH ;;
    if negb (dil_verify P sig2 hmsg pk2 =? 0) then Ret (-8, m, mlen) else     (* L654 *)
    mb <- copy mb 0 smb (LEN_BYTES + CRYPTO_ED25519_SIGNATURE_BYTES + CRYPTO_DILITHIUM_SIGNATURE_BYTES
                         + NONCE_BYTES) msgLen ;;                             (* L660 *)
    Ret (0, Some mb, Some msgLen)                                             (* L664 *)
  | _, _, _, _ => Ret (-1, m, mlen)
  end.

(** ** hybrid.c L669-696: compact-mode [verify] *)
Definition verify_compact (m : ptr) (mlen : Z) (sm : ptr) (smlen : Z) (pk : ptr) : outcome Z :=
  match m, sm, pk with
  | Some mb, Some _, Some _ =>
    if (mlen <=? 0) || (MAX_MSG_LEN <? mlen) then Ret (-1) else               (* L673 *)
    '(r, msgFromSignature1, msgFromSignatureLen1) <-
       open_compact (Some (zeros 64)) (Some 0) sm smlen pk ;;                 (* L680 *)
    if negb (r =? 0) then Ret (-2) else
    match msgFromSignature1, msgFromSignatureLen1 with
    | Some msgFromSignature1, Some msgFromSignatureLen1 =>
      if negb (msgFromSignatureLen1 =? mlen) then Ret (-3) else               (* L685 *)
      eq <- cmp_from (Z.to_nat (i32 msgFromSignatureLen1)) 0 msgFromSignature1 mb ;;
      if eq then Ret 0 else Ret (-4)
    | _, _ => Undef
    end
  | _, _, _ => Ret (-1)
  end.

(** ** hybrid.c L698-711: [crypto_verify_dilithium].
    [dil_verify_len sig siglen m pk] is the Dilithium verification with an
    explicit signature length (dilithium2/sign.c L257-328): it returns -1
    without reading the signature unless the length is 2420. *)
Definition verify_dilithium (m : ptr) (mlen : Z) (sm : ptr) (smlen : Z) (pk : ptr) : outcome Z :=
  match m, sm, pk with
  | Some mb, Some smb, Some pkb =>
    if (mlen <=? 0) || (MAX_MSG_LEN <? mlen) then Ret (-1) else               (* L701 *)
    if negb (smlen =? CRYPTO_DILITHIUM_SIGNATURE_BYTES) then Ret (-2) else    (* sign.c L273 via L705 *)
    sig <- rdrange smb 0 smlen ;;
    msg <- rdrange mb 0 mlen ;;
    pk2 <- rdrange pkb 0 CRYPTO_DILITHIUM_PUBLICKEY_BYTES ;;
    if negb (dil_verify P sig msg pk2 =? 0) then Ret (-2) else Ret 0
  | _, _, _ => Ret (-1)
  end.

End WithComponents.
