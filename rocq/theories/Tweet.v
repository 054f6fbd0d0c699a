(** Model of tweetnacl/tweetnacl.c: field and scalar arithmetic, SHA-512, Ed25519.

    Conventions.  [i64] values are integers checked at every signed operation: an operation whose
    exact result does not fit 64 bits is [Undef] ([ck]).  [u64] values wrap.  The two signed left
    shifts [c<<16] (L281) and [carry<<8] (L703) are modelled as multiplications, which is what
    every compiler does; ISO C11 leaves the shift of a negative value undefined (see DESIGN.md).
    A [gf] is a list of 16 limbs.  Functions that fill an output array return the array.  In the C
    text outputs may alias inputs ([M(a,a,t)], [add(p,p)]); every such function reads all its
    inputs before it writes its first output (or works element by element), so returning the new
    value is the same. *)
From Verif Require Import Base.

(** A checked signed 64-bit result. *)
Definition ck (x : Z) : outcome Z := if (- 2 ^ 63 <=? x) && (x <? 2 ^ 63) then Ret x else Undef.

(** L16-25: constants *)
Definition gf0 : list Z := [0;0;0;0;0;0;0;0;0;0;0;0;0;0;0;0].
Definition gf1 : list Z := [1;0;0;0;0;0;0;0;0;0;0;0;0;0;0;0].
Definition gfD : list Z := [0x78a3; 0x1359; 0x4dca; 0x75eb; 0xd8ab; 0x4141; 0x0a4d; 0x0070; 0xe898; 0x7779; 0x4079; 0x8cc7; 0xfe73; 0x2b6f; 0x6cee; 0x5203].
Definition gfD2 : list Z := [0xf159; 0x26b2; 0x9b94; 0xebd6; 0xb156; 0x8283; 0x149a; 0x00e0; 0xd130; 0xeef3; 0x80f2; 0x198e; 0xfce7; 0x56df; 0xd9dc; 0x2406].
Definition gfX : list Z := [0xd51a; 0x8f25; 0x2d60; 0xc956; 0xa7b2; 0x9525; 0xc760; 0x692c; 0xdc5c; 0xfdd6; 0xe231; 0xc0a4; 0x53fe; 0xcd6e; 0x36d3; 0x2169].
Definition gfY : list Z := [0x6658; 0x6666; 0x6666; 0x6666; 0x6666; 0x6666; 0x6666; 0x6666; 0x6666; 0x6666; 0x6666; 0x6666; 0x6666; 0x6666; 0x6666; 0x6666].
Definition gfI : list Z := [0xa0b0; 0x4a0e; 0x1b27; 0xc4ee; 0xe478; 0xad2f; 0x1806; 0x2f43; 0xd7a7; 0x3dfb; 0x0099; 0x2b4d; 0xdf0b; 0x4fc1; 0x2480; 0x2b83].

(** L54-59 vn: [u32] is [unsigned long] (L6); the accumulator only ever holds a byte, so its width
    (32 or 64 bits) does not matter to [d - 1] beyond wrapping; 64 bits here. *)
Definition vn (x y : list Z) (n : Z) : outcome Z :=
  d <- for_loop n (fun i d => a <- rd 0 x i ;; b <- rd 0 y i ;; Ret (Z.lor d (Z.lxor a b))) 0 ;;
  Ret (i32 (u64 (Z.land 1 (Z.shiftr (u64 (d - 1)) 8) - 1))).
(** L61-69 *)
Definition crypto_verify_16 (x y : list Z) : outcome Z := vn x y 16.
Definition crypto_verify_32 (x y : list Z) : outcome Z := vn x y 32.

(** L273-283 car25519 *)
Definition car_step (i : Z) (o : list Z) : outcome (list Z) :=
  x <- rd 0 o i ;;
  x1 <- ck (x + 2 ^ 16) ;;
  o <- wr o i x1 ;;
  let c := Z.shiftr x1 16 in
  let k := (i + 1) * Z.b2z (i <? 15) in
  c1 <- ck (c - 1) ;;
  s <- ck (37 * c1) ;;
  s <- ck (s * Z.b2z (i =? 15)) ;;
  s <- ck (c1 + s) ;;
  y <- rd 0 o k ;;
  y1 <- ck (y + s) ;;
  o <- wr o k y1 ;;
  z <- rd 0 o i ;;
  t <- ck (c * 2 ^ 16) ;;
  z1 <- ck (z - t) ;;
  wr o i z1.
Definition car25519 (o : list Z) : outcome (list Z) := for_loop 16 car_step o.

(** L285-293 sel25519; [b] is an [int], [c] an [i64] *)
Definition sel25519 (p q : list Z) (b : Z) : outcome (list Z * list Z) :=
  let c := Z.lnot (b - 1) in
  for_loop 16 (fun i '(p, q) =>
    pi <- rd 0 p i ;; qi <- rd 0 q i ;;
    let t := Z.land c (Z.lxor pi qi) in
    p <- wr p i (Z.lxor pi t) ;;
    q <- wr q i (Z.lxor qi t) ;;
    Ret (p, q)) (p, q).

(** L300-310: one pass of the conditional subtraction in pack25519; the array [m] is written
    completely before it is read, so its initial contents do not matter (zeros here) *)
Definition pack_pass (t : list Z) (m : list Z) : outcome (list Z * list Z) :=
  t0 <- rd 0 t 0 ;;
  m0 <- ck (t0 - 0xffed) ;;
  m <- wr m 0 m0 ;;
  m <- for_from 14 1 (fun i m =>
         ti <- rd 0 t i ;; mp <- rd 0 m (i - 1) ;;
         v <- ck (ti - 0xffff - Z.land (Z.shiftr mp 16) 1) ;;
         m <- wr m i v ;;
         wr m (i - 1) (Z.land mp 0xffff)) m ;;
  t15 <- rd 0 t 15 ;; m14 <- rd 0 m 14 ;;
  v <- ck (t15 - 0x7fff - Z.land (Z.shiftr m14 16) 1) ;;
  m <- wr m 15 v ;;
  m15 <- rd 0 m 15 ;;
  let b := Z.land (Z.shiftr m15 16) 1 in
  m <- wr m 14 (Z.land m14 0xffff) ;;
  sel25519 t m (1 - b).
(** L295-318 pack25519 *)
Definition pack25519 (n : list Z) : outcome (list Z) :=
  t <- car25519 n ;;
  t <- car25519 t ;;
  t <- car25519 t ;;
  '(t, m) <- for_loop 2 (fun _ '(t, m) => pack_pass t m) (t, zeros 16) ;;
  for_loop 16 (fun i o =>
    ti <- rd 0 t i ;;
    o <- wr o (2 * i) (u8 (Z.land ti 0xff)) ;;
    wr o (2 * i + 1) (u8 (Z.shiftr ti 8))) (zeros 32).

(** L320-326 *)
Definition neq25519 (a b : list Z) : outcome Z :=
  c <- pack25519 a ;; d <- pack25519 b ;; crypto_verify_32 c d.
(** L328-333 *)
Definition par25519 (a : list Z) : outcome Z :=
  d <- pack25519 a ;; d0 <- rd 0 d 0 ;; Ret (Z.land d0 1).
(** L335-340 *)
Definition unpack25519 (n : list Z) : outcome (list Z) :=
  o <- for_loop 16 (fun i o =>
         a <- rd 0 n (2 * i) ;; b <- rd 0 n (2 * i + 1) ;;
         wr o i (a + b * 2 ^ 8)) (zeros 16) ;;
  o15 <- rd 0 o 15 ;; wr o 15 (Z.land o15 0x7fff).

(** L342-352: A and Z *)
Definition gfA (a b : list Z) : outcome (list Z) :=
  for_loop 16 (fun i o => x <- rd 0 a i ;; y <- rd 0 b i ;; v <- ck (x + y) ;; wr o i v) (zeros 16).
Definition gfZ (a b : list Z) : outcome (list Z) :=
  for_loop 16 (fun i o => x <- rd 0 a i ;; y <- rd 0 b i ;; v <- ck (x - y) ;; wr o i v) (zeros 16).
(** L354-363: M *)
Definition gfM (a b : list Z) : outcome (list Z) :=
  t <- for_loop 16 (fun i t => for_loop 16 (fun j t =>
         x <- rd 0 a i ;; y <- rd 0 b j ;; v <- ck (x * y) ;;
         u <- rd 0 t (i + j) ;; w <- ck (u + v) ;; wr t (i + j) w) t) (zeros 31) ;;
  t <- for_loop 15 (fun i t =>
         x <- rd 0 t (i + 16) ;; v <- ck (38 * x) ;; u <- rd 0 t i ;; w <- ck (u + v) ;; wr t i w) t ;;
  o <- for_loop 16 (fun i o => x <- rd 0 t i ;; wr o i x) (zeros 16) ;;
  o <- car25519 o ;;
  car25519 o.
(** L365-368: S *)
Definition gfS (a : list Z) : outcome (list Z) := gfM a a.
(** L370-380: inv25519 *)
Definition inv25519 (i : list Z) : outcome (list Z) :=
  for_loop 254 (fun k c =>
    let a := 253 - k in
    c <- gfS c ;;
    if negb (a =? 2) && negb (a =? 4) then gfM c i else Ret c) i.
(** L382-392: pow2523 *)
Definition pow2523 (i : list Z) : outcome (list Z) :=
  for_loop 251 (fun k c =>
    let a := 250 - k in
    c <- gfS c ;;
    if negb (a =? 1) then gfM c i else Ret c) i.

(** ** SHA-512 *)
(** L34-39 dl64, big-endian load of 8 bytes at [off] *)
Definition dl64 (x : list Z) (off : Z) : outcome Z :=
  for_loop 8 (fun i u => b <- rd 0 x (off + i) ;; Ret (Z.lor (u64 (Z.shiftl u 8)) b)) 0.
(** L48-52 ts64, big-endian store at [off] *)
Definition ts64 (x : list Z) (off u : Z) : outcome (list Z) :=
  '(x, u) <- for_loop 8 (fun k '(x, u) => x <- wr x (off + (7 - k)) (u8 u) ;; Ret (x, Z.shiftr u 8)) (x, u) ;;
  Ret x.
(** L489-495 *)
Definition Rr (x c : Z) : Z := Z.lor (Z.shiftr x c) (u64 (Z.shiftl x (64 - c))).
Definition Ch (x y z : Z) : Z := Z.lxor (Z.land x y) (Z.land (u64 (Z.lnot x)) z).
Definition Maj (x y z : Z) : Z := Z.lxor (Z.lxor (Z.land x y) (Z.land x z)) (Z.land y z).
Definition Sigma0 (x : Z) : Z := Z.lxor (Z.lxor (Rr x 28) (Rr x 34)) (Rr x 39).
Definition Sigma1 (x : Z) : Z := Z.lxor (Z.lxor (Rr x 14) (Rr x 18)) (Rr x 41).
Definition sigma0 (x : Z) : Z := Z.lxor (Z.lxor (Rr x 1) (Rr x 8)) (Z.shiftr x 7).
Definition sigma1 (x : Z) : Z := Z.lxor (Z.lxor (Rr x 19) (Rr x 61)) (Z.shiftr x 6).
(** L497-519 *)
Definition K512 : list Z := [
  0x428a2f98d728ae22; 0x7137449123ef65cd; 0xb5c0fbcfec4d3b2f; 0xe9b5dba58189dbbc;
  0x3956c25bf348b538; 0x59f111f1b605d019; 0x923f82a4af194f9b; 0xab1c5ed5da6d8118;
  0xd807aa98a3030242; 0x12835b0145706fbe; 0x243185be4ee4b28c; 0x550c7dc3d5ffb4e2;
  0x72be5d74f27b896f; 0x80deb1fe3b1696b1; 0x9bdc06a725c71235; 0xc19bf174cf692694;
  0xe49b69c19ef14ad2; 0xefbe4786384f25e3; 0x0fc19dc68b8cd5b5; 0x240ca1cc77ac9c65;
  0x2de92c6f592b0275; 0x4a7484aa6ea6e483; 0x5cb0a9dcbd41fbd4; 0x76f988da831153b5;
  0x983e5152ee66dfab; 0xa831c66d2db43210; 0xb00327c898fb213f; 0xbf597fc7beef0ee4;
  0xc6e00bf33da88fc2; 0xd5a79147930aa725; 0x06ca6351e003826f; 0x142929670a0e6e70;
  0x27b70a8546d22ffc; 0x2e1b21385c26c926; 0x4d2c6dfc5ac42aed; 0x53380d139d95b3df;
  0x650a73548baf63de; 0x766a0abb3c77b2a8; 0x81c2c92e47edaee6; 0x92722c851482353b;
  0xa2bfe8a14cf10364; 0xa81a664bbc423001; 0xc24b8b70d0f89791; 0xc76c51a30654be30;
  0xd192e819d6ef5218; 0xd69906245565a910; 0xf40e35855771202a; 0x106aa07032bbd1b8;
  0x19a4c116b8d2d0c8; 0x1e376c085141ab53; 0x2748774cdf8eeb99; 0x34b0bcb5e19b48a8;
  0x391c0cb3c5c95a63; 0x4ed8aa4ae3418acb; 0x5b9cca4f7763e373; 0x682e6ff3d6b2b8a3;
  0x748f82ee5defb2fc; 0x78a5636f43172f60; 0x84c87814a1f0ab72; 0x8cc702081a6439ec;
  0x90befffa23631e28; 0xa4506cebde82bde9; 0xbef9a3f7b2c67915; 0xc67178f2e372532b;
  0xca273eceea26619c; 0xd186b8c721c0c207; 0xeada7dd6cde0eb1e; 0xf57d4f7fee6ed178;
  0x06f067aa72176fba; 0x0a637dc5a2c898a6; 0x113f9804bef90dae; 0x1b710b35131c471b;
  0x28db77f523047d84; 0x32caab7b40c72493; 0x3c9ebe0a15c9bebc; 0x431d67c49c100d4c;
  0x4cc5d4becb3e42b6; 0x597f299cfc657e2a; 0x5fcb6fab3ad6faec; 0x6c44198c4a475817].
(** L553-562 *)
Definition iv512 : list Z := [
  0x6a;0x09;0xe6;0x67;0xf3;0xbc;0xc9;0x08;
  0xbb;0x67;0xae;0x85;0x84;0xca;0xa7;0x3b;
  0x3c;0x6e;0xf3;0x72;0xfe;0x94;0xf8;0x2b;
  0xa5;0x4f;0xf5;0x3a;0x5f;0x1d;0x36;0xf1;
  0x51;0x0e;0x52;0x7f;0xad;0xe6;0x82;0xd1;
  0x9b;0x05;0x68;0x8c;0x2b;0x3e;0x6c;0x1f;
  0x1f;0x83;0xd9;0xab;0xfb;0x41;0xbd;0x6b;
  0x5b;0xe0;0xcd;0x19;0x13;0x7e;0x21;0x79].
(** L531-541: round [i] on the arrays [a] (state), [b] (scratch, written before it is read) and
    [w]; every [a + b] below is unsigned 64-bit addition *)
Definition sha_round (i : Z) (a w : list Z) : outcome (list Z * list Z) :=
  a0 <- rd 0 a 0 ;; a1 <- rd 0 a 1 ;; a2 <- rd 0 a 2 ;;
  a4 <- rd 0 a 4 ;; a5 <- rd 0 a 5 ;; a6 <- rd 0 a 6 ;; a7 <- rd 0 a 7 ;;
  k <- rd 0 K512 i ;; wi <- rd 0 w (i mod 16) ;;
  let t := u64 (a7 + Sigma1 a4 + Ch a4 a5 a6 + k + wi) in
  b <- wr a 7 (u64 (t + Sigma0 a0 + Maj a0 a1 a2)) ;;
  b3 <- rd 0 b 3 ;;
  b <- wr b 3 (u64 (b3 + t)) ;;
  a <- for_loop 8 (fun j a => bj <- rd 0 b j ;; wr a ((j + 1) mod 8) bj) a ;;
  w <- (if i mod 16 =? 15
        then for_loop 16 (fun j w =>
               wj <- rd 0 w j ;; w9 <- rd 0 w ((j + 9) mod 16) ;;
               w1 <- rd 0 w ((j + 1) mod 16) ;; w14 <- rd 0 w ((j + 14) mod 16) ;;
               wr w j (u64 (wj + w9 + sigma0 w1 + sigma1 w14))) w
        else Ret w) ;;
  Ret (a, w).
(** L528-547: one iteration of the block loop; [z] and [a] hold the same chaining value *)
Definition sha_block (m : list Z) (off : Z) (z a : list Z) : outcome (list Z * list Z) :=
  w <- for_loop 16 (fun i w => v <- dl64 m (off + 8 * i) ;; wr w i v) (zeros 16) ;;
  '(a, w) <- for_loop 80 (fun i '(a, w) => sha_round i a w) (a, w) ;;
  for_loop 8 (fun i '(z, a) =>
    ai <- rd 0 a i ;; zi <- rd 0 z i ;;
    let v := u64 (ai + zi) in
    a <- wr a i v ;; z <- wr z i v ;; Ret (z, a)) (z, a).
(** L521-551 crypto_hashblocks on the [n] bytes at offset [off] of [m]; the loop
    [while (n >= 128) { ...; m += 128; n -= 128; }] runs [n / 128] times *)
Definition crypto_hashblocks (x m : list Z) (off n : Z) : outcome (list Z) :=
  a <- for_loop 8 (fun i a => v <- dl64 x (8 * i) ;; wr a i v) (zeros 8) ;;
  '(z, a) <- for_loop (n / 128) (fun k '(z, a) => sha_block m (off + 128 * k) z a) (a, a) ;;
  for_loop 8 (fun i x => v <- rd 0 z i ;; ts64 x (8 * i) v) x.
(** L564-588 crypto_hash of the [n] bytes at offset [off] of [m] *)
Definition crypto_hash (m : list Z) (off n : Z) : outcome (list Z) :=
  h <- copy (zeros 64) 0 iv512 0 64 ;;
  h <- crypto_hashblocks h m off n ;;
  let r := Z.land n 127 in
  x <- copy (zeros 256) 0 m (off + n - r) r ;;
  x <- wr x r 128 ;;
  let n2 := 256 - 128 * Z.b2z (r <? 112) in
  x <- wr x (n2 - 9) (u8 (Z.shiftr n 61)) ;;
  x <- ts64 x (n2 - 8) (u64 (Z.shiftl n 3)) ;;
  crypto_hashblocks h x 0 n2.

(** ** Ed25519 *)
(** [gf p[4]] *)
Definition gf4 : Type := (list Z * list Z * list Z * list Z)%type.
(** L590-613 add: [p] becomes [p + q] *)
Definition ed_add (p q : gf4) : outcome gf4 :=
  let '(p0, p1, p2, p3) := p in let '(q0, q1, q2, q3) := q in
  a <- gfZ p1 p0 ;;
  t <- gfZ q1 q0 ;;
  a <- gfM a t ;;
  b <- gfA p0 p1 ;;
  t <- gfA q0 q1 ;;
  b <- gfM b t ;;
  c <- gfM p3 q3 ;;
  c <- gfM c gfD2 ;;
  d <- gfM p2 q2 ;;
  d <- gfA d d ;;
  e <- gfZ b a ;;
  f <- gfZ d c ;;
  g <- gfA d c ;;
  h <- gfA b a ;;
  r0 <- gfM e f ;;
  r1 <- gfM h g ;;
  r2 <- gfM g f ;;
  r3 <- gfM e h ;;
  Ret (r0, r1, r2, r3).
(** L615-620 cswap *)
Definition cswap (p q : gf4) (b : Z) : outcome (gf4 * gf4) :=
  let '(p0, p1, p2, p3) := p in let '(q0, q1, q2, q3) := q in
  '(p0, q0) <- sel25519 p0 q0 b ;;
  '(p1, q1) <- sel25519 p1 q1 b ;;
  '(p2, q2) <- sel25519 p2 q2 b ;;
  '(p3, q3) <- sel25519 p3 q3 b ;;
  Ret ((p0, p1, p2, p3), (q0, q1, q2, q3)).
(** L622-630 pack *)
Definition ed_pack (p : gf4) : outcome (list Z) :=
  let '(p0, p1, p2, p3) := p in
  zi <- inv25519 p2 ;;
  tx <- gfM p0 zi ;;
  ty <- gfM p1 zi ;;
  r <- pack25519 ty ;;
  b <- par25519 tx ;;
  r31 <- rd 0 r 31 ;;
  wr r 31 (u8 (Z.lxor r31 (Z.shiftl b 7))).
(** L632-646 scalarmult *)
Definition scalarmult (q : gf4) (s : list Z) : outcome gf4 :=
  '(p, q) <- for_loop 256 (fun k '(p, q) =>
     let i := 255 - k in
     si <- rd 0 s (i / 8) ;;
     let b := u8 (Z.land (Z.shiftr si (Z.land i 7)) 1) in
     '(p, q) <- cswap p q b ;;
     q <- ed_add q p ;;
     p <- ed_add p p ;;
     cswap p q b) ((gf0, gf1, gf1, gf0), q) ;;
  Ret p.
(** L648-656 scalarbase *)
Definition scalarbase (s : list Z) : outcome gf4 :=
  t <- gfM gfX gfY ;;
  scalarmult (gfX, gfY, gf1, t) s.

(** L668-670, L735-737: clamping of the first half of the hashed secret: [d[0] &= 248; d[31] &= 127; d[31] |= 64] *)
Definition clamp (d : list Z) : outcome (list Z) :=
  d0 <- rd 0 d 0 ;; d <- wr d 0 (Z.land d0 248) ;;
  d31 <- rd 0 d 31 ;; d <- wr d 31 (Z.land d31 127) ;;
  d31 <- rd 0 d 31 ;; wr d 31 (Z.lor d31 64).

(** L658-678 crypto_sign_keypair_seed; [pk] and [sk] are fully overwritten, so returned: (return value, pk, sk) *)
Definition ed_keypair_seed (seed : list Z) : outcome (Z * list Z * list Z) :=
  sk <- copy (zeros 64) 0 seed 0 32 ;;
  d <- crypto_hash sk 0 32 ;;
  d <- clamp d ;;
  p <- scalarbase d ;;
  pk <- ed_pack p ;;
  sk <- copy sk 32 pk 0 32 ;;
  Ret (0, pk, sk).
(** L680-690 crypto_sign_keypair: [rnd] is what randombytes does: its return value and the 32 bytes it
    leaves in the buffer; [None]: outputs not written *)
Definition ed_keypair (rnd : Z * list Z) : outcome (Z * option (list Z * list Z)) :=
  let '(r1, seed) := rnd in
  if negb (r1 =? 0) then Ret (r1, None)
  else '(r, pk, sk) <- ed_keypair_seed seed ;; Ret (r, Some (pk, sk)).

(** L692: the group order, low byte first *)
Definition Lbytes : list Z := [0xed; 0xd3; 0xf5; 0x5c; 0x1a; 0x63; 0x12; 0x58; 0xd6; 0x9c; 0xf7; 0xa2; 0xde; 0xf9; 0xde; 0x14; 0; 0; 0; 0; 0; 0; 0; 0; 0; 0; 0; 0; 0; 0; 0; 0x10].
(** L694-718 modL: [L] is an array of [u64], so [16 * x[i] * L[..]] is a signed product converted to
    unsigned and multiplied modulo 2^64; the sum is converted back to [i64] on assignment.
    Pass [i] of the first loop. *)
Definition modL_pass (i : Z) (x : list Z) : outcome (list Z) :=
  '(x, carry) <- for_loop 20 (fun k '(x, carry) =>
      let j := i - 32 + k in
      xj <- rd 0 x j ;; xi <- rd 0 x i ;;
      p <- ck (16 * xi) ;;
      l <- rd 0 Lbytes (j - (i - 32)) ;;
      let v := i64 (u64 (xj + u64 (carry - u64 (u64 p * l)))) in
      x <- wr x j v ;;
      v128 <- ck (v + 128) ;;
      let carry := Z.shiftr v128 8 in
      c8 <- ck (carry * 2 ^ 8) ;;
      v' <- ck (v - c8) ;;
      x <- wr x j v' ;;
      Ret (x, carry)) (x, 0) ;;
  xj <- rd 0 x (i - 12) ;;
  v <- ck (xj + carry) ;;
  x <- wr x (i - 12) v ;;
  wr x i 0.
Definition modL (x : list Z) : outcome (list Z) :=
  x <- for_loop 32 (fun k x => modL_pass (63 - k) x) x ;;
  '(x, carry) <- for_loop 32 (fun j '(x, carry) =>
      xj <- rd 0 x j ;; x31 <- rd 0 x 31 ;; l <- rd 0 Lbytes j ;;
      let v := i64 (u64 (xj + u64 (carry - u64 (u64 (Z.shiftr x31 4) * l)))) in
      x <- wr x j (Z.land v 255) ;;
      Ret (x, Z.shiftr v 8)) (x, 0) ;;
  x <- for_loop 32 (fun j x =>
      xj <- rd 0 x j ;; l <- rd 0 Lbytes j ;;
      wr x j (i64 (u64 (u64 xj - u64 (u64 carry * l))))) x ;;
  '(x, r) <- for_loop 32 (fun i '(x, r) =>
      xi <- rd 0 x i ;; xn <- rd 0 x (i + 1) ;;
      v <- ck (xn + Z.shiftr xi 8) ;;
      x <- wr x (i + 1) v ;;
      r <- wr r i (u8 (Z.land xi 255)) ;;
      Ret (x, r)) (x, zeros 32) ;;
  Ret r.
(** L720-726 reduce: the first 32 bytes of the result hold the residue, the rest is zero *)
Definition ed_reduce (r : list Z) : outcome (list Z) :=
  x <- for_loop 64 (fun i x => b <- rd 0 r i ;; wr x i b) (zeros 64) ;;
  v <- modL x ;;
  copy (zeros 64) 0 v 0 32.

(** L728-758 crypto_sign into a buffer [sm] that does not overlap [m]; returns (return value, *smlen, sm) *)
Definition ed_sign (sm m : list Z) (n : Z) (sk : list Z) : outcome (Z * Z * list Z) :=
  d <- crypto_hash sk 0 32 ;;
  d <- clamp d ;;
  let smlen := u64 (n + 64) in
  sm <- copy sm 64 m 0 n ;;
  sm <- copy sm 32 d 32 32 ;;
  r <- crypto_hash sm 32 (u64 (n + 32)) ;;
  r <- ed_reduce r ;;
  p <- scalarbase r ;;
  R <- ed_pack p ;;
  sm <- copy sm 0 R 0 32 ;;
  sm <- copy sm 32 sk 32 32 ;;
  h <- crypto_hash sm 0 (u64 (n + 64)) ;;
  h <- ed_reduce h ;;
  x <- for_loop 32 (fun i x => b <- rd 0 r i ;; wr x i b) (zeros 64) ;;
  x <- for_loop 32 (fun i x => for_loop 32 (fun j x =>
         hi <- rd 0 h i ;; dj <- rd 0 d j ;; u <- rd 0 x (i + j) ;;
         wr x (i + j) (i64 (u64 (u + u64 (hi * dj))))) x) x ;;
  S <- modL x ;;
  sm <- copy sm 32 S 0 32 ;;
  Ret (0, smlen, sm).

(** L760-794 unpackneg; [None] is the return value -1 *)
Definition unpackneg (p : list Z) : outcome (option gf4) :=
  r1 <- unpack25519 p ;;
  num <- gfS r1 ;;
  den <- gfM num gfD ;;
  num <- gfZ num gf1 ;;
  den <- gfA gf1 den ;;
  den2 <- gfS den ;;
  den4 <- gfS den2 ;;
  den6 <- gfM den4 den2 ;;
  t <- gfM den6 num ;;
  t <- gfM t den ;;
  t <- pow2523 t ;;
  t <- gfM t num ;;
  t <- gfM t den ;;
  t <- gfM t den ;;
  r0 <- gfM t den ;;
  chk <- gfS r0 ;;
  chk <- gfM chk den ;;
  ne <- neq25519 chk num ;;
  r0 <- (if ne =? 0 then Ret r0 else gfM r0 gfI) ;;
  chk <- gfS r0 ;;
  chk <- gfM chk den ;;
  ne <- neq25519 chk num ;;
  if negb (ne =? 0) then Ret None
  else
    b <- par25519 r0 ;;
    p31 <- rd 0 p 31 ;;
    r0 <- (if b =? Z.shiftr p31 7 then gfZ gf0 r0 else Ret r0) ;;
    r3 <- gfM r0 r1 ;;
    Ret (Some (r0, r1, gf1, r3)).

(** L796-825 crypto_sign_open into a buffer [m] that does not overlap [sm]; returns (return value, *mlen, m).
    The counter [i] of [FOR(i,n)] is an [int]: it overflows when n exceeds 2^31 - 1. *)
Definition ed_open (m sm : list Z) (n : Z) (pk : list Z) : outcome (Z * Z * list Z) :=
  let mlen := u64 (-1) in
  if n <? 64 then Ret (-1, mlen, m)
  else
  q <- unpackneg pk ;;
  match q with
  | None => Ret (-1, mlen, m)
  | Some q =>
    if 2 ^ 31 <=? n then Undef
    else
    m <- copy m 0 sm 0 n ;;
    m <- copy m 32 pk 0 32 ;;
    h <- crypto_hash m 0 n ;;
    h <- ed_reduce h ;;
    p <- scalarmult q h ;;
    q <- scalarbase (slice sm 32 32) ;;
    p <- ed_add p q ;;
    t <- ed_pack p ;;
    let n := n - 64 in
    v <- crypto_verify_32 sm t ;;
    if negb (v =? 0) then m <- copy m 0 (zeros n) 0 n ;; Ret (-1, mlen, m)
    else m <- copy m 0 sm 64 n ;; Ret (0, n, m)
  end.
