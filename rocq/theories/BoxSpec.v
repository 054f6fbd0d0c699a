(** Salsa20, XSalsa20, Poly1305 and the NaCl secret-key box, from their published definitions.
    Independent of the model of tweetnacl.c. *)
From Verif Require Import Base EdSpec Tab.

(** ** Salsa20 (D. J. Bernstein, "Salsa20 specification") *)
Definition add32 (a b : Z) : Z := (a + b) mod 2 ^ 32.
(** [rotl32 a n]: multiplication by [2^n] modulo [2^32 - 1], i.e. rotation of 32 bits *)
Definition rotl32 (a n : Z) : Z := (a * 2 ^ n) mod 2 ^ 32 + a / 2 ^ (32 - n).
(** section 3 *)
Definition quarterround (y : Z * Z * Z * Z) : Z * Z * Z * Z :=
  let '(y0, y1, y2, y3) := y in
  let z1 := Z.lxor y1 (rotl32 (add32 y0 y3) 7) in
  let z2 := Z.lxor y2 (rotl32 (add32 z1 y0) 9) in
  let z3 := Z.lxor y3 (rotl32 (add32 z2 z1) 13) in
  let z0 := Z.lxor y0 (rotl32 (add32 z3 z2) 18) in
  (z0, z1, z2, z3).
(** section 4 *)
Definition rowround (y : list Z) : list Z :=
  match y with
  | [y0;y1;y2;y3;y4;y5;y6;y7;y8;y9;y10;y11;y12;y13;y14;y15] =>
      let '(z0, z1, z2, z3) := quarterround (y0, y1, y2, y3) in
      let '(z5, z6, z7, z4) := quarterround (y5, y6, y7, y4) in
      let '(z10, z11, z8, z9) := quarterround (y10, y11, y8, y9) in
      let '(z15, z12, z13, z14) := quarterround (y15, y12, y13, y14) in
      [z0;z1;z2;z3;z4;z5;z6;z7;z8;z9;z10;z11;z12;z13;z14;z15]
  | _ => y
  end.
(** section 5 *)
Definition columnround (x : list Z) : list Z :=
  match x with
  | [x0;x1;x2;x3;x4;x5;x6;x7;x8;x9;x10;x11;x12;x13;x14;x15] =>
      let '(y0, y4, y8, y12) := quarterround (x0, x4, x8, x12) in
      let '(y5, y9, y13, y1) := quarterround (x5, x9, x13, x1) in
      let '(y10, y14, y2, y6) := quarterround (x10, x14, x2, x6) in
      let '(y15, y3, y7, y11) := quarterround (x15, x3, x7, x11) in
      [y0;y1;y2;y3;y4;y5;y6;y7;y8;y9;y10;y11;y12;y13;y14;y15]
  | _ => x
  end.
(** section 6 *)
Definition doubleround (x : list Z) : list Z := rowround (columnround x).
Definition doubleround10 (x : list Z) : list Z := Nat.iter 10 doubleround x.
(** section 7: little-endian words *)
Fixpoint words_of (b : list Z) : list Z :=
  match b with b0 :: b1 :: b2 :: b3 :: r => le_val [b0; b1; b2; b3] :: words_of r | _ => [] end.
Definition bytes_of (x : list Z) : list Z := flat_map (le_bytes 4) x.
(** section 8: the hash function *)
Definition salsa20 (x : list Z) : list Z :=
  bytes_of (map2 add32 (words_of x) (doubleround10 (words_of x))).
(** section 9: expansion of a 32-byte key and a 16-byte input; the constant is the ASCII text
    "expand 32-byte k" *)
Definition salsa_input (k n : list Z) : list Z :=
  [101;120;112;97] ++ slice k 0 16 ++ [110;100;32;51] ++ n ++ [50;45;98;121] ++ slice k 16 16 ++ [116;101;32;107].
Definition salsa20_k (k n : list Z) : list Z := salsa20 (salsa_input k n).
(** section 10: the key stream for an 8-byte nonce; the block number is a 64-bit little-endian
    integer *)
Definition salsa20_stream (k v : list Z) (len : nat) : list Z :=
  firstn len (flat_map (fun i => salsa20_k k (v ++ le_bytes 8 (Z.of_nat i))) (seq 0 (S (len / 64)))).
(** HSalsa20 and XSalsa20 (D. J. Bernstein, "Extending the Salsa20 nonce") *)
Definition hsalsa20 (k n : list Z) : list Z :=
  let z := doubleround10 (words_of (salsa_input k n)) in
  bytes_of (map (fun i => nth i z 0) [0; 5; 10; 15; 6; 7; 8; 9]%nat).
Definition xsalsa20_stream (k n : list Z) (len : nat) : list Z :=
  salsa20_stream (hsalsa20 k (slice n 0 16)) (slice n 16 8) len.

(** ** Poly1305 (RFC 8439, section 2.5) *)
Definition poly_p : Z := 2 ^ 130 - 5.
Fixpoint blocks16 (fuel : nat) (m : list Z) : list (list Z) :=
  match fuel, m with
  | S f, _ :: _ => firstn 16 m :: blocks16 f (skipn 16 m)
  | _, _ => []
  end.
Definition poly_clamp (r : Z) : Z := Z.land r 0x0ffffffc0ffffffc0ffffffc0fffffff.
(** the block's bytes followed by a byte 1, as a little-endian number, are added to the
    accumulator, which is then multiplied by [r] modulo [2^130 - 5] *)
Definition poly_acc (r : Z) (m : list Z) : Z :=
  fold_left (fun a b => ((a + le_val (b ++ [1])) * r) mod poly_p) (blocks16 (length m) m) 0.
Definition poly1305 (key m : list Z) : list Z :=
  le_bytes 16 ((poly_acc (poly_clamp (le_val (slice key 0 16))) m + le_val (slice key 16 16)) mod 2 ^ 128).

(** ** Secret-key authenticated encryption (D. J. Bernstein, "Cryptography in NaCl", section 10):
    the first 32 bytes of the XSalsa20 key stream are the Poly1305 key, the rest encrypts *)
Definition xor_bytes (a b : list Z) : list Z := map2 Z.lxor a b.
Definition box_cipher (k n msg : list Z) : list Z :=
  xor_bytes msg (skipn 32 (xsalsa20_stream k n (32 + length msg))).
Definition box_tag (k n ct : list Z) : list Z := poly1305 (xsalsa20_stream k n 32) ct.
