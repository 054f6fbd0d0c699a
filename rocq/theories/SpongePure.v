(** The sponge as pure functions: what the functions of Sponge.v compute (proved in
    SpongeProofs.v) and what FIPS 202 prescribes (proved in SpongeFips.v). Models of
    higher layers call these functions. *)
From Verif Require Import Base Keccak.

Notation F := KeccakF1600_StatePermute.

(** xor a byte into byte position [j] of the 25 lanes *)
Definition xor_at (s : list Z) (j b : Z) : list Z :=
  let i := Z.to_nat (Z.shiftr j 3) in
  upd s i (Z.lxor (nth i s 0) (Z.shiftl b (8 * Z.land j 7))).
(** byte [j] of the lanes *)
Definition byte_at (s : list Z) (j : Z) : Z :=
  u8 (Z.shiftr (nth (Z.to_nat (Z.shiftr j 3)) s 0) (8 * Z.land j 7)).

(** One message byte: xor it in; permute when the block of [r] bytes is complete. *)
Definition absorb_byte (r : Z) (c : list Z * Z) (b : Z) : list Z * Z :=
  let '(s, p) := c in
  let s := xor_at s p b in
  if p + 1 =? r then (F s, 0) else (s, p + 1).
Definition absorb_from (r : Z) (c : list Z * Z) (m : list Z) : list Z * Z := fold_left (absorb_byte r) m c.
Definition absorb (r : Z) (m : list Z) : list Z * Z := absorb_from r (zeros 25, 0) m.
(** domain byte at the current position, 0x80 at the end of the block *)
Definition pad_state (r p : Z) (c : list Z * Z) : list Z := xor_at (xor_at (fst c) (snd c) p) (r - 1) 128.

(** The output stream: byte [k] comes from the (k/r + 1)-st permutation of the state. *)
Definition stream (r : Z) (s : list Z) (k : Z) : Z :=
  byte_at (Nat.iter (Z.to_nat (k / r + 1)) F s) (k mod r).

Fixpoint zseq (i : Z) (n : nat) : list Z :=
  match n with O => [] | S n' => i :: zseq (i + 1) n' end.

(** [n] output bytes, block by block *)
Fixpoint squeeze_blocks (r : Z) (k : nat) (s : list Z) : list Z :=
  match k with
  | O => []
  | S k' => let s := F s in map (byte_at s) (zseq 0 (Z.to_nat r)) ++ squeeze_blocks r k' s
  end.
Definition squeeze (r : Z) (n : Z) (s : list Z) : list Z :=
  slice (squeeze_blocks r (Z.to_nat (n / r + 1)) s) 0 n.

Definition sponge_bytes (r p : Z) (m : list Z) (n : Z) : list Z := squeeze r n (pad_state r p (absorb r m)).
Definition shake128_bytes := sponge_bytes 168 0x1F.
Definition shake256_bytes := sponge_bytes 136 0x1F.
Definition sha3_256_bytes m := sponge_bytes 136 0x06 m 32.
Definition sha3_384_bytes m := sponge_bytes 104 0x06 m 48.
Definition sha3_512_bytes m := sponge_bytes 72 0x06 m 64.
