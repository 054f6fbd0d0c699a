(** Ed25519 key generation, signing and verification as in RFC 8032, section 5.1.
    Independent of the code. *)
From Verif Require Import Base EdSpec Sha512Spec.

(** 5.1.5: the secret scalar (low three bits cleared, bit 255 cleared, bit 254 set), the prefix and the public key. *)
Definition ed_scalar (seed : list Z) : Z :=
  let v := le_val (slice (sha512 seed) 0 32) in 2 ^ 254 + 8 * ((v mod 2 ^ 254) / 8).
Definition ed_prefix (seed : list Z) : list Z := slice (sha512 seed) 32 32.
Definition ed_public (seed : list Z) : list Z := penc (smul (ed_scalar seed) edB).
(** 5.1.6: the signature. *)
Definition ed_challenge (R A M : list Z) : Z := le_val (sha512 (R ++ A ++ M)).
Definition ed_nonce (seed M : list Z) : Z := le_val (sha512 (ed_prefix seed ++ M)).
Definition ed_sigR (seed M : list Z) : list Z := penc (smul (ed_nonce seed M) edB).
Definition ed_sigS (seed M : list Z) : Z :=
  (ed_nonce seed M + ed_challenge (ed_sigR seed M) (ed_public seed) M * ed_scalar seed) mod edL.
Definition ed_signature (seed M : list Z) : list Z := ed_sigR seed M ++ le_bytes 32 (ed_sigS seed M).

(** 5.1.3: decoding of a point.  [decodes]: the low 255 bits give y modulo p, bit 255 gives the low bit of x.
    [decodes_strict] is RFC 8032 exactly: y must be below p, and x = 0 requires a zero sign bit. *)
Definition decodes (pk : list Z) (A : point) : Prop :=
  on_curve A /\ snd A = (le_val pk mod 2 ^ 255) mod edp /\ (fst A = 0 \/ fst A mod 2 = le_val pk / 2 ^ 255).
Definition decodes_strict (pk : list Z) (A : point) : Prop :=
  on_curve A /\ snd A = le_val pk mod 2 ^ 255 /\ fst A mod 2 = le_val pk / 2 ^ 255.

(** 5.1.7, the check without cofactor: R equals the encoding of [S]B - [k]A, k the challenge reduced modulo L. *)
Definition ed_equation (R : list Z) (S : Z) (pk M : list Z) (A : point) : Prop :=
  R = penc (padd (smul S edB) (pneg (smul (ed_challenge R pk M mod edL) A))).
Definition ed_valid (pk sig M : list Z) : Prop :=
  exists A, decodes pk A /\ ed_equation (slice sig 0 32) (le_val (slice sig 32 32)) pk M A.
(** RFC 8032 additionally requires the strict decoding and S < L. *)
Definition ed_valid_rfc (pk sig M : list Z) : Prop :=
  exists A, decodes_strict pk A /\ le_val (slice sig 32 32) < edL /\ ed_equation (slice sig 0 32) (le_val (slice sig 32 32)) pk M A.
