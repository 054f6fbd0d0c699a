(** X25519 from RFC 7748, section 5, and the correspondence between Curve25519 and Ed25519
    (section 4.1).  Independent of the model of tweetnacl.c. *)
From Verif Require Import Base EdSpec BoxSpec.

(** decodeScalar25519: clear the three low bits and the top bit of the 256-bit little-endian
    integer, set bit 254 *)
Definition decodeScalar25519 (k : list Z) : Z := 2 ^ 254 + 8 * (le_val k mod 2 ^ 254 / 8).
(** decodeUCoordinate: the top bit is ignored, non-canonical values are reduced *)
Definition decodeUCoordinate (u : list Z) : Z := (le_val u mod 2 ^ 255) mod edp.
Definition encodeUCoordinate (u : Z) : list Z := le_bytes 32 (u mod edp).

(** the Montgomery ladder, in the letters of the RFC; [a24] is (486662 - 2) / 4 *)
Definition a24 : Z := 121665.
Definition ladder_step (x_1 : Z) (k_t : bool) (st : Z * Z * Z * Z) : Z * Z * Z * Z :=
  let '(x_2, z_2, x_3, z_3) := st in
  let '(x_2, x_3) := if k_t then (x_3, x_2) else (x_2, x_3) in
  let '(z_2, z_3) := if k_t then (z_3, z_2) else (z_2, z_3) in
  let A := (x_2 + z_2) mod edp in let AA := (A * A) mod edp in
  let B := (x_2 - z_2) mod edp in let BB := (B * B) mod edp in
  let E := (AA - BB) mod edp in
  let C := (x_3 + z_3) mod edp in let D := (x_3 - z_3) mod edp in
  let DA := (D * A) mod edp in let CB := (C * B) mod edp in
  let x_3 := (DA + CB) ^ 2 mod edp in
  let z_3 := (x_1 * (DA - CB) ^ 2) mod edp in
  let x_2 := (AA * BB) mod edp in
  let z_2 := (E * (AA + a24 * E)) mod edp in
  let '(x_2, x_3) := if k_t then (x_3, x_2) else (x_2, x_3) in
  let '(z_2, z_3) := if k_t then (z_3, z_2) else (z_2, z_3) in
  (x_2, z_2, x_3, z_3).
(** bits [t - 1], ..., [0] of [k] *)
Fixpoint ladder (x_1 k : Z) (t : nat) (st : Z * Z * Z * Z) : Z * Z * Z * Z :=
  match t with
  | O => st
  | S t => ladder x_1 k t (ladder_step x_1 (Z.testbit k (Z.of_nat t)) st)
  end.
Definition montgomery_ladder (k u : Z) : Z :=
  let '(x_2, z_2, _, _) := ladder u k 255 (1, 0, u, 1) in (x_2 * finv z_2) mod edp.
Definition x25519 (k u : list Z) : list Z :=
  encodeUCoordinate (montgomery_ladder (decodeScalar25519 k) (decodeUCoordinate u)).

(** RFC 7748 section 4.1: the Montgomery u-coordinate of the Edwards point (x, y) is
    (1 + y) / (1 - y); the neutral element (0, 1), which has no u-coordinate, gets 0 *)
Definition ucoord (P : Z * Z) : Z := ((1 + snd P) * finv (1 - snd P)) mod edp.

(** the shared key of a public-key box ("Cryptography in NaCl", sections 5 and 8) *)
Definition box_shared (sk pk : list Z) : list Z := hsalsa20 (x25519 sk pk) (repeat 0 16).
