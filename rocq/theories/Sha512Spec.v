(** SHA-512 as specified by FIPS 180-4 (sections 2.2.2, 3.2, 4.1.3, 4.2.3, 5.1.2, 5.3.5, 6.4),
    on byte strings.  Independent of the code: words are integers 0 <= w < 2^64, and the
    constants are computed from their definition (roots of the first primes), not copied. *)
From Verif Require Import Base.

Definition W64 : Z := 2 ^ 64.
(** addition modulo 2^64 *)
Definition add64 (a b : Z) : Z := (a + b) mod W64.
Definition rotr (n x : Z) : Z := x / 2 ^ n + (x mod 2 ^ n) * 2 ^ (64 - n).
Definition shr (n x : Z) : Z := x / 2 ^ n.
Definition fCh (x y z : Z) : Z := Z.lxor (Z.land x y) (Z.land (W64 - 1 - x) z).
Definition fMaj (x y z : Z) : Z := Z.lxor (Z.lxor (Z.land x y) (Z.land x z)) (Z.land y z).
Definition bigS0 (x : Z) : Z := Z.lxor (Z.lxor (rotr 28 x) (rotr 34 x)) (rotr 39 x).
Definition bigS1 (x : Z) : Z := Z.lxor (Z.lxor (rotr 14 x) (rotr 18 x)) (rotr 41 x).
Definition smallS0 (x : Z) : Z := Z.lxor (Z.lxor (rotr 1 x) (rotr 8 x)) (shr 7 x).
Definition smallS1 (x : Z) : Z := Z.lxor (Z.lxor (rotr 19 x) (rotr 61 x)) (shr 6 x).

(** The first eighty primes. *)
Definition primes80 : list Z := [2; 3; 5; 7; 11; 13; 17; 19; 23; 29; 31; 37; 41; 43; 47; 53; 59; 61; 67; 71; 73; 79; 83; 89; 97; 101; 103; 107; 109; 113; 127; 131; 137; 139; 149; 151; 157; 163; 167; 173; 179; 181; 191; 193; 197; 199; 211; 223; 227; 229; 233; 239; 241; 251; 257; 263; 269; 271; 277; 281; 283; 293; 307; 311; 313; 317; 331; 337; 347; 349; 353; 359; 367; 373; 379; 383; 389; 397; 401; 409].
(** The integer cube root: the largest c with c^3 <= n, bit by bit (n < 2^210). *)
Definition cbrt (n : Z) : Z :=
  fold_left (fun c b => let c' := c + 2 ^ Z.of_nat b in if c' * c' * c' <=? n then c' else c) (rev (seq 0 70)) 0.
(** 4.2.3: the first 64 bits of the fractional parts of the cube roots of the first 80 primes. *)
Definition sha_K : list Z := map (fun p => cbrt (p * 2 ^ 192) mod W64) primes80.
(** 5.3.5: the first 64 bits of the fractional parts of the square roots of the first 8 primes. *)
Definition sha_IV : list Z := map (fun p => Z.sqrt (p * 2 ^ 128) mod W64) (firstn 8 primes80).

(** Big-endian integers. *)
Definition be_val (l : list Z) : Z := fold_left (fun a b => 256 * a + b) l 0.
Fixpoint be_bytes (n : nat) (v : Z) : list Z :=
  match n with O => [] | S n => (v / 256 ^ Z.of_nat n) mod 256 :: be_bytes n v end.

(** 6.4.2 step 1: the message schedule, extended word by word from the 16 words of the block. *)
Fixpoint sched (n : nat) (w : list Z) : list Z :=
  match n with
  | O => w
  | S n =>
    let t := length w in
    sched n (w ++ [add64 (add64 (smallS1 (nth (t - 2) w 0)) (nth (t - 7) w 0))
                         (add64 (smallS0 (nth (t - 15) w 0)) (nth (t - 16) w 0))])
  end.
Definition block_words (blk : list Z) : list Z := map (fun i => be_val (slice blk (8 * Z.of_nat i) 8)) (seq 0 16).

(** 6.4.2 step 3: one round on the working variables a..h. *)
Definition vars : Type := (Z * Z * Z * Z * Z * Z * Z * Z)%type.
Definition sha_step (s : vars) (kw : Z * Z) : vars :=
  let '(a, b, c, d, e, f, g, h) := s in
  let '(k, w) := kw in
  let T1 := add64 (add64 (add64 (add64 h (bigS1 e)) (fCh e f g)) k) w in
  let T2 := add64 (bigS0 a) (fMaj a b c) in
  (add64 T1 T2, a, b, c, add64 d T1, e, f, g).
Definition vars_of (H : list Z) : vars :=
  (nth 0 H 0, nth 1 H 0, nth 2 H 0, nth 3 H 0, nth 4 H 0, nth 5 H 0, nth 6 H 0, nth 7 H 0).
Definition list_of (s : vars) : list Z := let '(a, b, c, d, e, f, g, h) := s in [a; b; c; d; e; f; g; h].
(** 6.4.2: the new chaining value. *)
Definition compress (H : list Z) (blk : list Z) : list Z :=
  let s := fold_left sha_step (combine sha_K (sched 64 (block_words blk))) (vars_of H) in
  map (fun p => add64 (fst p) (snd p)) (combine (list_of s) H).

(** 5.1.2: padding: 0x80, zeros, and the bit length as a 128-bit big-endian integer. *)
Definition sha_pad (M : list Z) : list Z :=
  M ++ [128] ++ zeros ((111 - zlen M) mod 128) ++ be_bytes 16 (8 * zlen M).
Definition blocks_fold (H : list Z) (P : list Z) (n : nat) : list Z :=
  fold_left (fun H k => compress H (slice P (128 * Z.of_nat k) 128)) (seq 0 n) H.
(** The digest, 64 bytes (defined for messages below 2^125 bytes). *)
Definition sha512 (M : list Z) : list Z :=
  let P := sha_pad M in
  flat_map (be_bytes 8) (blocks_fold sha_IV P (Z.to_nat (zlen P / 128))).
