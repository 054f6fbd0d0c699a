(** What the hybrid interface computes, in terms of RFC 8032 (EdSig.v), FIPS 204 (DilFips.v) and
    FIPS 205 (SpxSpec.v) and of the byte layouts of HybridSpec.v (C75). *)
From Verif Require Import Base SpongePure HybridSpec EdSig SpxSpec.
From Verif Require DilFips.
Local Open Scope Z_scope.

(** [sm] is a full-mode signature of [m] that all three schemes accept *)
Definition full_valid (pk sm m : list Z) : Prop :=
  1 <= zlen m <= 64 /\
  exists edsig dilsig spxsig, zlen edsig = 64 /\ zlen dilsig = 2420 /\ zlen spxsig = 49856 /\
    sm = full_layout edsig m dilsig spxsig /\
    ed_valid (pk_ed pk) edsig m /\ DilFips.MLDSA.verify (pk_dil pk) m dilsig /\ slh_verify shake256_bytes m spxsig (pk_spx pk).
(** what the compact mode hands to Ed25519 and Dilithium *)
Definition compact_digest (nonce m spxpk : list Z) : list Z := sha3_512_bytes (nonce ++ m ++ spxpk).
(** [sm] is a compact-mode signature of [m] that Ed25519 and Dilithium accept *)
Definition compact_valid (pk sm m : list Z) : Prop :=
  1 <= zlen m <= 64 /\
  exists edsig dilsig nonce, zlen edsig = 64 /\ zlen dilsig = 2420 /\ zlen nonce = 40 /\
    sm = compact_layout edsig dilsig nonce m /\
    let h := compact_digest nonce m (pk_spx pk) in
    ed_valid (pk_ed pk) edsig h /\ DilFips.MLDSA.verify (pk_dil pk) h dilsig.
(** a key pair made from the 160 bytes of [seed] *)
Definition hybrid_keys (seed pk sk : list Z) : Prop :=
  let edseed := slice seed 0 32 in
  exists dilpk dilsk, DilFips.MLDSA.keygen (slice seed 32 32) dilpk dilsk /\
  let '(spxpk, spxsk) := slh_keygen shake256_bytes (slice seed 64 96) in
  pk = pk_layout (ed_public edseed) dilpk spxpk /\ sk = sk_layout (edseed ++ ed_public edseed) dilsk dilpk spxsk.
(** a signature made with the secret key [sk], the FIPS 205 randomness [optrand] or the nonce *)
Definition full_signed (sk optrand m sm : list Z) : Prop :=
  exists dilsig, DilFips.MLDSA.sign (sk_dil sk) m dilsig /\
  sm = full_layout (ed_signature (slice sk 0 32) m) m dilsig (slh_sign_sk shake256_bytes m (sk_spx sk) optrand).
Definition compact_signed (sk nonce m sm : list Z) : Prop :=
  let h := compact_digest nonce m (sk_spxpk sk) in
  exists dilsig, DilFips.MLDSA.sign (sk_dil sk) h dilsig /\
  sm = compact_layout (ed_signature (slice sk 0 32) h) dilsig nonce m.
