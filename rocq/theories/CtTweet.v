(** tweetnacl/tweetnacl.c once more, statement by statement, as instrumented programs (CtBase.v):
    which branches are taken and which array elements are touched.  Data values are abstract, so
    the text below cannot branch on them or use them as an index unobserved.  [CtTweetProofs.v]
    shows that these programs compute exactly what the models of Tweet.v, TweetBox.v and TweetDH.v
    compute. *)
From Verif Require Import Base CtBase Tweet TweetBox TweetDH.

Section Prog.
Context {V : Type} (O : ops V).
Notation "# c" := (cst O c) (at level 1, format "# c").
Notation "x +! y" := (bi O Add x y) (at level 50, left associativity).
Notation "x -! y" := (bi O Sub x y) (at level 50, left associativity).
Notation "x *! y" := (bi O Mul x y) (at level 40, left associativity).
Notation "x &! y" := (bi O And x y) (at level 40, left associativity).
Notation "x |! y" := (bi O Or x y) (at level 50, left associativity).
Notation "x ^! y" := (bi O Xor x y) (at level 45, left associativity).
Notation "x >>! c" := (un O (Shr c) x) (at level 38, left associativity).
Notation "x <<! c" := (un O (Shl c) x) (at level 38, left associativity).
Notation wrap n x := (un O (Wrap n) x).
Notation swrap n x := (un O (SWrap n) x).
Notation rd := (lrd O).
Notation wr := lwr.
Notation arr := (list V).
Definition karr (l : list Z) : arr := map (cst O) l.

(** L54-59 *)
Definition vn_l (x y : arr) (n : Z) : L V :=
  d <~ lfor n (fun i d => a <~ rd x i ;;; b <~ rd y i ;;; lret (d |! (a ^! b))) #0 ;;;
  lret (swrap 32 (wrap 64 ((#1 &! (wrap 64 (d -! #1) >>! 8)) -! #1))).
Definition verify_16_l (x y : arr) := vn_l x y 16.
Definition verify_32_l (x y : arr) := vn_l x y 32.

(** ** Field arithmetic *)
(** L273-283; [(i+1)*(i<15)] and [(i==15)] are computed from the loop counter *)
Definition car_l (o : arr) : L arr :=
  lfor 16 (fun i o =>
    x <~ rd o i ;;; let x1 := x +! #(2 ^ 16) in
    o <~ wr o i x1 ;;;
    let c := x1 >>! 16 in
    let k := (i + 1) * Z.b2z (i <? 15) in
    let c1 := c -! #1 in
    y <~ rd o k ;;;
    o <~ wr o k (y +! (c1 +! #37 *! c1 *! #(Z.b2z (i =? 15)))) ;;;
    z <~ rd o i ;;;
    wr o i (z -! c *! #(2 ^ 16))) o.
(** L285-293 *)
Definition sel_l (p q : arr) (b : V) : L (arr * arr) :=
  let c := un O Not (b -! #1) in
  lfor 16 (fun i '(p, q) =>
    pi <~ rd p i ;;; qi <~ rd q i ;;;
    let t := c &! (pi ^! qi) in
    p <~ wr p i (pi ^! t) ;;;
    q <~ wr q i (qi ^! t) ;;;
    lret (p, q)) (p, q).
(** L302-312 *)
Definition pack_pass_l (t m : arr) : L (arr * arr) :=
  t0 <~ rd t 0 ;;;
  m <~ wr m 0 (t0 -! #0xffed) ;;;
  m <~ lfrom 14 1 (fun i m =>
         ti <~ rd t i ;;; mp <~ rd m (i - 1) ;;;
         m <~ wr m i (ti -! #0xffff -! (mp >>! 16) &! #1) ;;;
         wr m (i - 1) (mp &! #0xffff)) m ;;;
  t15 <~ rd t 15 ;;; m14 <~ rd m 14 ;;;
  m <~ wr m 15 (t15 -! #0x7fff -! (m14 >>! 16) &! #1) ;;;
  m15 <~ rd m 15 ;;;
  let b := (m15 >>! 16) &! #1 in
  m <~ wr m 14 (m14 &! #0xffff) ;;;
  sel_l t m (#1 -! b).
(** L295-318 *)
Definition pack25519_l (n : arr) : L arr :=
  t <~ ldup O 16 n ;;;
  t <~ car_l t ;;; t <~ car_l t ;;; t <~ car_l t ;;;
  '(t, m) <~ lfor 2 (fun _ '(t, m) => pack_pass_l t m) (t, vzeros O 16) ;;;
  lfor 16 (fun i o =>
    ti <~ rd t i ;;;
    o <~ wr o (2 * i) (wrap 8 (ti &! #0xff)) ;;;
    wr o (2 * i + 1) (wrap 8 (ti >>! 8))) (vzeros O 32).
(** L328-333 *)
Definition par_l (a : arr) : L V := d <~ pack25519_l a ;;; d0 <~ rd d 0 ;;; lret (d0 &! #1).
(** L335-340 *)
Definition unpack_l (n : arr) : L arr :=
  o <~ lfor 16 (fun i o =>
         a <~ rd n (2 * i) ;;; b <~ rd n (2 * i + 1) ;;;
         wr o i (a +! b *! #(2 ^ 8))) (vzeros O 16) ;;;
  o15 <~ rd o 15 ;;; wr o 15 (o15 &! #0x7fff).
(** L342-363 *)
Definition A_l (a b : arr) : L arr :=
  lfor 16 (fun i o => x <~ rd a i ;;; y <~ rd b i ;;; wr o i (x +! y)) (vzeros O 16).
Definition Z_l (a b : arr) : L arr :=
  lfor 16 (fun i o => x <~ rd a i ;;; y <~ rd b i ;;; wr o i (x -! y)) (vzeros O 16).
Definition M_l (a b : arr) : L arr :=
  t <~ linit O 31 ;;;
  t <~ lfor 16 (fun i t => lfor 16 (fun j t =>
         x <~ rd a i ;;; y <~ rd b j ;;; u <~ rd t (i + j) ;;; wr t (i + j) (u +! x *! y)) t) t ;;;
  t <~ lfor 15 (fun i t => x <~ rd t (i + 16) ;;; u <~ rd t i ;;; wr t i (u +! #38 *! x)) t ;;;
  o <~ lfor 16 (fun i o => x <~ rd t i ;;; wr o i x) (vzeros O 16) ;;;
  o <~ car_l o ;;; car_l o.
Definition S_l (a : arr) : L arr := M_l a a.
(** L370-392; the condition [a!=2&&a!=4] tests the loop counter *)
Definition inv_l (i : arr) : L arr :=
  c <~ ldup O 16 i ;;;
  c <~ lfor 254 (fun k c =>
    let a := 253 - k in
    c <~ S_l c ;;;
    lif (negb (a =? 2) && negb (a =? 4)) (M_l c i) (lret c)) c ;;;
  ldup O 16 c.

(** ** X25519 *)
(** L399-401 *)
Definition sm_clamp_l (n : arr) : L arr :=
  z <~ lfor 31 (fun i z => a <~ rd n i ;;; wr z i a) (vzeros O 32) ;;;
  a <~ rd n 31 ;;; z <~ wr z 31 (wrap 8 ((a &! #127) |! #64)) ;;;
  b <~ rd z 0 ;;; wr z 0 (wrap 8 (b &! #248)).
(** L412-429 *)
Definition sm_step_l (x a b c d : arr) : L (arr * arr * arr * arr) :=
  e <~ A_l a c ;;; a <~ Z_l a c ;;; c <~ A_l b d ;;; b <~ Z_l b d ;;;
  d <~ S_l e ;;; f <~ S_l a ;;; a <~ M_l c a ;;; c <~ M_l b e ;;;
  e <~ A_l a c ;;; a <~ Z_l a c ;;; b <~ S_l a ;;; c <~ Z_l d f ;;;
  a <~ M_l c (karr gf121665) ;;; a <~ A_l a d ;;; c <~ M_l c a ;;; a <~ M_l d f ;;;
  d <~ M_l b x ;;; b <~ S_l e ;;;
  lret (a, b, c, d).
(** L394-443; the scalar bit [r] is data, its position [i] is the loop counter *)
Definition x25519_l (n p : arr) : L (Z * arr) :=
  z <~ sm_clamp_l n ;;;
  x <~ unpack_l p ;;;
  b <~ ldup O 16 x ;;;
  _ <~ linit O 16 ;;; _ <~ linit O 16 ;;; _ <~ linit O 16 ;;;
  '(a, b, c, d) <~ lfor 255 (fun t '(a, b, c, d) =>
     let i := 254 - t in
     zi <~ rd z (i / 8) ;;;
     let r := (zi >>! (Z.land i 7)) &! #1 in
     '(a, b) <~ sel_l a b r ;;;
     '(c, d) <~ sel_l c d r ;;;
     '(a, b, c, d) <~ sm_step_l x a b c d ;;;
     '(a, b) <~ sel_l a b r ;;;
     '(c, d) <~ sel_l c d r ;;;
     lret (a, b, c, d)) (karr gf1, b, karr gf0, karr gf1) ;;;
  a <~ ldup O 16 a ;;; c <~ ldup O 16 c ;;; _ <~ ldup O 16 b ;;; _ <~ ldup O 16 d ;;;
  i <~ inv_l c ;;;
  q <~ M_l a i ;;;
  q <~ pack25519_l q ;;;
  lret (0, q).

(** ** SHA-512 *)
(** L34-39, L48-52 *)
Definition dl64_l (x : arr) (off : Z) : L V :=
  lfor 8 (fun i u => b <~ rd x (off + i) ;;; lret (wrap 64 (u <<! 8) |! b)) #0.
Definition ts64_l (x : arr) (off : Z) (u : V) : L arr :=
  '(x, u) <~ lfor 8 (fun k '(x, u) => x <~ wr x (off + (7 - k)) (wrap 8 u) ;;; lret (x, u >>! 8)) (x, u) ;;;
  lret x.
(** L489-495 *)
Definition R_l (x : V) (c : Z) : V := (x >>! c) |! wrap 64 (x <<! (64 - c)).
Definition Ch_l (x y z : V) : V := (x &! y) ^! (wrap 64 (un O Not x) &! z).
Definition Maj_l (x y z : V) : V := (x &! y) ^! (x &! z) ^! (y &! z).
Definition S0_l (x : V) : V := R_l x 28 ^! R_l x 34 ^! R_l x 39.
Definition S1_l (x : V) : V := R_l x 14 ^! R_l x 18 ^! R_l x 41.
Definition s0_l (x : V) : V := R_l x 1 ^! R_l x 8 ^! (x >>! 7).
Definition s1_l (x : V) : V := R_l x 19 ^! R_l x 61 ^! (x >>! 6).
(** L531-541 *)
Definition round_l (i : Z) (a w : arr) : L (arr * arr) :=
  b <~ ldup O 8 a ;;;
  a0 <~ rd a 0 ;;; a1 <~ rd a 1 ;;; a2 <~ rd a 2 ;;;
  a4 <~ rd a 4 ;;; a5 <~ rd a 5 ;;; a6 <~ rd a 6 ;;; a7 <~ rd a 7 ;;;
  k <~ rd (karr K512) i ;;; wi <~ rd w (i mod 16) ;;;
  let t := wrap 64 (a7 +! S1_l a4 +! Ch_l a4 a5 a6 +! k +! wi) in
  b <~ wr b 7 (wrap 64 (t +! S0_l a0 +! Maj_l a0 a1 a2)) ;;;
  b3 <~ rd b 3 ;;;
  b <~ wr b 3 (wrap 64 (b3 +! t)) ;;;
  a <~ lfor 8 (fun j a => bj <~ rd b j ;;; wr a ((j + 1) mod 8) bj) a ;;;
  w <~ lif (i mod 16 =? 15)
        (lfor 16 (fun j w =>
               wj <~ rd w j ;;; w9 <~ rd w ((j + 9) mod 16) ;;;
               w1 <~ rd w ((j + 1) mod 16) ;;; w14 <~ rd w ((j + 14) mod 16) ;;;
               wr w j (wrap 64 (wj +! w9 +! s0_l w1 +! s1_l w14))) w)
        (lret w) ;;;
  lret (a, w).
(** L528-547 *)
Definition block_l (m : arr) (off : Z) (z a : arr) : L (arr * arr) :=
  w <~ lfor 16 (fun i w => v <~ dl64_l m (off + 8 * i) ;;; wr w i v) (vzeros O 16) ;;;
  '(a, w) <~ lfor 80 (fun i '(a, w) => round_l i a w) (a, w) ;;;
  lfor 8 (fun i '(z, a) =>
    ai <~ rd a i ;;; zi <~ rd z i ;;;
    let v := wrap 64 (ai +! zi) in
    a <~ wr a i v ;;; z <~ wr z i v ;;; lret (z, a)) (z, a).
(** L521-551 *)
Definition hashblocks_l (x m : arr) (off n : Z) : L arr :=
  a <~ lfor 8 (fun i a => v <~ dl64_l x (8 * i) ;;; wr a i v) (vzeros O 8) ;;;
  '(z, a) <~ lfor (n / 128) (fun k '(z, a) => block_l m (off + 128 * k) z a) (a, a) ;;;
  lfor 8 (fun i x => v <~ rd z i ;;; ts64_l x (8 * i) v) x.
(** L564-588; the number of bytes [n] is public *)
Definition hash_l (m : arr) (off n : Z) : L arr :=
  h <~ lcopy O (vzeros O 64) 0 (karr iv512) 0 64 ;;;
  h <~ hashblocks_l h m off n ;;;
  let r := Z.land n 127 in
  x <~ linit O 256 ;;;
  x <~ lcopy O x 0 m (off + n - r) r ;;;
  x <~ wr x r #128 ;;;
  let n2 := 256 - 128 * Z.b2z (r <? 112) in
  x <~ wr x (n2 - 9) (wrap 8 (#n >>! 61)) ;;;
  x <~ ts64_l x (n2 - 8) (wrap 64 (#n <<! 3)) ;;;
  h <~ hashblocks_l h x 0 n2 ;;;
  ldup O 64 h.

(** ** Ed25519 *)
Definition vgf4 : Type := (arr * arr * arr * arr)%type.
(** L590-613 *)
Definition add_l (p q : vgf4) : L vgf4 :=
  let '(p0, p1, p2, p3) := p in let '(q0, q1, q2, q3) := q in
  a <~ Z_l p1 p0 ;;;
  t <~ Z_l q1 q0 ;;;
  a <~ M_l a t ;;;
  b <~ A_l p0 p1 ;;;
  t <~ A_l q0 q1 ;;;
  b <~ M_l b t ;;;
  c <~ M_l p3 q3 ;;;
  c <~ M_l c (karr gfD2) ;;;
  d <~ M_l p2 q2 ;;;
  d <~ A_l d d ;;;
  e <~ Z_l b a ;;;
  f <~ Z_l d c ;;;
  g <~ A_l d c ;;;
  h <~ A_l b a ;;;
  r0 <~ M_l e f ;;;
  r1 <~ M_l h g ;;;
  r2 <~ M_l g f ;;;
  r3 <~ M_l e h ;;;
  lret (r0, r1, r2, r3).
(** L615-620; the loop over the four coordinates is unrolled *)
Definition cswap_l (p q : vgf4) (b : V) : L (vgf4 * vgf4) :=
  let '(p0, p1, p2, p3) := p in let '(q0, q1, q2, q3) := q in
  '(p0, q0) <~ sel_l p0 q0 b ;;;
  '(p1, q1) <~ sel_l p1 q1 b ;;;
  '(p2, q2) <~ sel_l p2 q2 b ;;;
  '(p3, q3) <~ sel_l p3 q3 b ;;;
  lret ((p0, p1, p2, p3), (q0, q1, q2, q3)).
(** L622-630 *)
Definition epack_l (p : vgf4) : L arr :=
  let '(p0, p1, p2, p3) := p in
  zi <~ inv_l p2 ;;;
  tx <~ M_l p0 zi ;;;
  ty <~ M_l p1 zi ;;;
  r <~ pack25519_l ty ;;;
  b <~ par_l tx ;;;
  r31 <~ rd r 31 ;;;
  wr r 31 (wrap 8 (r31 ^! (b <<! 7))).
(** L632-646 *)
Definition scalarmult_l (q : vgf4) (s : arr) : L vgf4 :=
  g0 <~ ldup O 16 (karr gf0) ;;; g1 <~ ldup O 16 (karr gf1) ;;;
  g2 <~ ldup O 16 (karr gf1) ;;; g3 <~ ldup O 16 (karr gf0) ;;;
  '(p, q) <~ lfor 256 (fun k '(p, q) =>
     let i := 255 - k in
     si <~ rd s (i / 8) ;;;
     let b := wrap 8 ((si >>! (Z.land i 7)) &! #1) in
     '(p, q) <~ cswap_l p q b ;;;
     q <~ add_l q p ;;;
     p <~ add_l p p ;;;
     cswap_l p q b) ((g0, g1, g2, g3), q) ;;;
  lret p.
(** L648-656 *)
Definition scalarbase_l (s : arr) : L vgf4 :=
  q0 <~ ldup O 16 (karr gfX) ;;; q1 <~ ldup O 16 (karr gfY) ;;; q2 <~ ldup O 16 (karr gf1) ;;;
  t <~ M_l (karr gfX) (karr gfY) ;;;
  scalarmult_l (q0, q1, q2, t) s.
(** L669-671, L735-737 *)
Definition clamp_l (d : arr) : L arr :=
  d0 <~ rd d 0 ;;; d <~ wr d 0 (d0 &! #248) ;;;
  d31 <~ rd d 31 ;;; d <~ wr d 31 (d31 &! #127) ;;;
  d31 <~ rd d 31 ;;; wr d 31 (d31 |! #64).
(** L658-678 *)
Definition keypair_seed_l (seed : arr) : L (Z * arr * arr) :=
  sk <~ lcopy O (vzeros O 64) 0 seed 0 32 ;;;
  d <~ hash_l sk 0 32 ;;;
  d <~ clamp_l d ;;;
  p <~ scalarbase_l d ;;;
  pk <~ epack_l p ;;;
  sk <~ lcopy O sk 32 pk 0 32 ;;;
  lret (0, pk, sk).
(** L694-718 *)
Definition modL_pass_l (i : Z) (x : arr) : L arr :=
  '(x, carry) <~ lfor 20 (fun k '(x, carry) =>
      let j := i - 32 + k in
      xj <~ rd x j ;;; xi <~ rd x i ;;;
      l <~ rd (karr Lbytes) (j - (i - 32)) ;;;
      let v := swrap 64 (wrap 64 (xj +! wrap 64 (carry -! wrap 64 (wrap 64 (#16 *! xi) *! l)))) in
      x <~ wr x j v ;;;
      let carry := (v +! #128) >>! 8 in
      x <~ wr x j (v -! carry *! #(2 ^ 8)) ;;;
      lret (x, carry)) (x, #0) ;;;
  xj <~ rd x (i - 12) ;;;
  x <~ wr x (i - 12) (xj +! carry) ;;;
  wr x i #0.
Definition modL_l (x : arr) : L arr :=
  x <~ lfor 32 (fun k x => modL_pass_l (63 - k) x) x ;;;
  '(x, carry) <~ lfor 32 (fun j '(x, carry) =>
      xj <~ rd x j ;;; x31 <~ rd x 31 ;;; l <~ rd (karr Lbytes) j ;;;
      let v := swrap 64 (wrap 64 (xj +! wrap 64 (carry -! wrap 64 (wrap 64 (x31 >>! 4) *! l)))) in
      x <~ wr x j (v &! #255) ;;;
      lret (x, v >>! 8)) (x, #0) ;;;
  x <~ lfor 32 (fun j x =>
      xj <~ rd x j ;;; l <~ rd (karr Lbytes) j ;;;
      wr x j (swrap 64 (wrap 64 (wrap 64 xj -! wrap 64 (wrap 64 carry *! l))))) x ;;;
  '(x, r) <~ lfor 32 (fun i '(x, r) =>
      xi <~ rd x i ;;; xn <~ rd x (i + 1) ;;;
      x <~ wr x (i + 1) (xn +! (xi >>! 8)) ;;;
      r <~ wr r i (wrap 8 (xi &! #255)) ;;;
      lret (x, r)) (x, vzeros O 32) ;;;
  lret r.
(** L720-726 *)
Definition reduce_l (r : arr) : L arr :=
  x <~ lfor 64 (fun i x => b <~ rd r i ;;; wr x i b) (vzeros O 64) ;;;
  r <~ linit O 64 ;;;
  v <~ modL_l x ;;;
  lcopy O r 0 v 0 32.
(** L728-758; the message length [n] is public *)
Definition sign_l (sm m : arr) (n : Z) (sk : arr) : L (Z * Z * arr) :=
  d <~ hash_l sk 0 32 ;;;
  d <~ clamp_l d ;;;
  sm <~ lcopy O sm 64 m 0 n ;;;
  sm <~ lcopy O sm 32 d 32 32 ;;;
  r <~ hash_l sm 32 (u64 (n + 32)) ;;;
  r <~ reduce_l r ;;;
  p <~ scalarbase_l r ;;;
  R <~ epack_l p ;;;
  sm <~ lcopy O sm 0 R 0 32 ;;;
  sm <~ lcopy O sm 32 sk 32 32 ;;;
  h <~ hash_l sm 0 (u64 (n + 64)) ;;;
  h <~ reduce_l h ;;;
  x <~ linit O 64 ;;;
  x <~ lfor 32 (fun i x => b <~ rd r i ;;; wr x i b) x ;;;
  x <~ lfor 32 (fun i x => lfor 32 (fun j x =>
         hi <~ rd h i ;;; dj <~ rd d j ;;; u <~ rd x (i + j) ;;;
         wr x (i + j) (swrap 64 (wrap 64 (u +! wrap 64 (hi *! dj))))) x) x ;;;
  S <~ modL_l x ;;;
  sm <~ lcopy O sm 32 S 0 32 ;;;
  lret (0, u64 (n + 64), sm).

(** ** Salsa20, Poly1305, secretbox *)
Section W.
Context (w : Z).
Notation uwl x := (un O (Wrap w) x).
(** L27 *)
Definition L32_l (x : V) (c : Z) : V := uwl (uwl (x <<! c) |! ((x &! #0xffffffff) >>! (32 - c))).
Definition addw_l (a b : V) : V := uwl (a +! b).
Definition subw_l (a b : V) : V := uwl (a -! b).
Definition ldcat_l (u a : V) : V := uwl (u <<! 8) |! a.
(** L29-35, L44-48 *)
Definition ld32_l (x : arr) (o : Z) : L V :=
  u <~ rd x (o + 3) ;;;
  a <~ rd x (o + 2) ;;; let u := ldcat_l u a in
  a <~ rd x (o + 1) ;;; let u := ldcat_l u a in
  a <~ rd x o ;;; lret (ldcat_l u a).
Definition st32_l (x : arr) (o : Z) (u : V) : L arr :=
  '(x, u) <~ lfor 4 (fun i '(x, u) => x <~ wr x (o + i) (wrap 8 u) ;;; lret (x, u >>! 8)) (x, u) ;;;
  lret x.
(** L85-92 *)
Definition quarter_l (x : arr) (j : Z) (wv : arr) : L arr :=
  t <~ lfor 4 (fun m t => a <~ rd x ((5 * j + 4 * m) mod 16) ;;; wr t m a) (vzeros O 4) ;;;
  t0 <~ rd t 0 ;;; t1 <~ rd t 1 ;;; t2 <~ rd t 2 ;;; t3 <~ rd t 3 ;;;
  let t1 := t1 ^! L32_l (addw_l t0 t3) 7 in
  let t2 := t2 ^! L32_l (addw_l t1 t0) 9 in
  let t3 := t3 ^! L32_l (addw_l t2 t1) 13 in
  let t0 := t0 ^! L32_l (addw_l t3 t2) 18 in
  let t := [t0; t1; t2; t3] in
  lfor 4 (fun m wv => a <~ rd t m ;;; wr wv (4 * j + (j + m) mod 4) a) wv.
Definition core_round_l (x wv : arr) : L (arr * arr) :=
  wv <~ lfor 4 (quarter_l x) wv ;;;
  x <~ lfor 16 (fun m x => a <~ rd wv m ;;; wr x m a) x ;;;
  lret (x, wv).
(** L71-109; [h] is the constant the two callers pass *)
Definition core_l (inp k c : arr) (h : bool) : L arr :=
  x <~ lfor 4 (fun i x =>
    a <~ ld32_l c (4 * i) ;;; x <~ wr x (5 * i) a ;;;
    a <~ ld32_l k (4 * i) ;;; x <~ wr x (1 + i) a ;;;
    a <~ ld32_l inp (4 * i) ;;; x <~ wr x (6 + i) a ;;;
    a <~ ld32_l k (16 + 4 * i) ;;; wr x (11 + i) a) (vzeros O 16) ;;;
  y <~ lfor 16 (fun i y => a <~ rd x i ;;; wr y i a) (vzeros O 16) ;;;
  '(x, _) <~ lfor 20 (fun _ '(x, wv) => core_round_l x wv) (x, vzeros O 16) ;;;
  lif h
   (x <~ lfor 16 (fun i x => a <~ rd x i ;;; b <~ rd y i ;;; wr x i (addw_l a b)) x ;;;
    x <~ lfor 4 (fun i x =>
      a <~ rd x (5 * i) ;;; b <~ ld32_l c (4 * i) ;;; x <~ wr x (5 * i) (subw_l a b) ;;;
      a <~ rd x (6 + i) ;;; b <~ ld32_l inp (4 * i) ;;; wr x (6 + i) (subw_l a b)) x ;;;
    lfor 4 (fun i out =>
      a <~ rd x (5 * i) ;;; out <~ st32_l out (4 * i) a ;;;
      a <~ rd x (6 + i) ;;; st32_l out (16 + 4 * i) a) (vzeros O 32))
   (lfor 16 (fun i out => a <~ rd x i ;;; b <~ rd y i ;;; st32_l out (4 * i) (addw_l a b)) (vzeros O 64)).
Definition salsa20_l inp k c := core_l inp k c false.
Definition hsalsa20_l inp k c := core_l inp k c true.
(** L134, L146; whether [m] is the null pointer is public *)
Definition xor_into_l (c : arr) (m : option arr) (x : arr) (off cnt : Z) : L arr :=
  lfor cnt (fun i c =>
    a <~ match m with Some m => lif true (rd m (off + i)) (lret #0) | None => lif false (lret #0) (lret #0) end ;;;
    b <~ rd x i ;;;
    wr c (off + i) (wrap 8 (a ^! b))) c.
(** L135-140 *)
Definition ctr_inc_l (z : arr) : L arr :=
  '(z, u) <~ lfor 8 (fun t '(z, u) =>
      a <~ rd z (8 + t) ;;;
      let u := uwl (u +! a) in
      z <~ wr z (8 + t) (wrap 8 u) ;;;
      lret (z, u >>! 8)) (z, #1) ;;;
  lret z.
(** L125-150 *)
Definition salsa20_xor_l (c : arr) (m : option arr) (b : Z) (n : arr) (no : Z) (k : arr) : L arr :=
  lif (b =? 0) (lret c) (
  z <~ linit O 16 ;;;
  z <~ lfor 8 (fun i z => a <~ rd n (no + i) ;;; wr z i a) z ;;;
  '(c, z) <~ lfor (b / 64) (fun t '(c, z) =>
      x <~ salsa20_l z k (karr sigma) ;;;
      c <~ xor_into_l c m x (64 * t) 64 ;;;
      z <~ ctr_inc_l z ;;;
      lret (c, z)) (c, z) ;;;
  lif (b mod 64 =? 0) (lret c) (
  x <~ salsa20_l z k (karr sigma) ;;;
  xor_into_l c m x (64 * (b / 64)) (b mod 64))).
(** L152-169 *)
Definition stream_l (c : arr) (d : Z) (n k : arr) : L arr :=
  s <~ hsalsa20_l n k (karr sigma) ;;; salsa20_xor_l c None d n 16 s.
Definition stream_xor_l (c m : arr) (d : Z) (n k : arr) : L arr :=
  s <~ hsalsa20_l n k (karr sigma) ;;; salsa20_xor_l c (Some m) d n 16 s.
(** L171-179 *)
Definition add1305_l (h c : arr) : L arr :=
  '(h, u) <~ lfor 17 (fun j '(h, u) =>
      a <~ rd h j ;;; b <~ rd c j ;;;
      let u := uwl (u +! uwl (a +! b)) in
      h <~ wr h j (u &! #255) ;;;
      lret (h, u >>! 8)) (h, #0) ;;;
  lret h.
(** L189-197 *)
Definition and_at_l (r : arr) (i v : Z) : L arr := a <~ rd r i ;;; wr r i (a &! #v).
Definition poly_r_l (k : arr) : L arr :=
  r <~ linit O 17 ;;;
  r <~ lfor 16 (fun j r => a <~ rd k j ;;; wr r j a) r ;;;
  r <~ and_at_l r 3 15 ;;; r <~ and_at_l r 4 252 ;;; r <~ and_at_l r 7 15 ;;; r <~ and_at_l r 8 252 ;;;
  r <~ and_at_l r 11 15 ;;; r <~ and_at_l r 12 252 ;;; and_at_l r 15 15.
(** L204-207; [j <= i] compares loop counters *)
Definition poly_mul_l (h r : arr) : L arr :=
  lfor 17 (fun i x =>
    v <~ lfor 17 (fun j v =>
           a <~ rd h j ;;;
           b <~ lif (j <=? i) (rd r (i - j)) (q <~ rd r (i + 17 - j) ;;; lret (uwl (#320 *! q))) ;;;
           lret (uwl (v +! uwl (a *! b)))) #0 ;;;
    wr x i v) (vzeros O 17).
Definition poly_carry_l (h : arr) (u : V) : L (arr * V) :=
  lfor 16 (fun j '(h, u) =>
    a <~ rd h j ;;;
    let u := uwl (u +! a) in
    h <~ wr h j (u &! #255) ;;;
    lret (h, u >>! 8)) (h, u).
(** L200-223 *)
Definition poly_block_l (m : arr) (off n : Z) (r h : arr) : L arr :=
  let j := Z.min 16 n in
  c <~ linit O 17 ;;;
  c <~ lfor j (fun i c => a <~ rd m (off + i) ;;; wr c i a) c ;;;
  c <~ wr c j #1 ;;;
  h <~ add1305_l h c ;;;
  h <~ poly_mul_l h r ;;;
  '(h, u) <~ poly_carry_l h #0 ;;;
  a <~ rd h 16 ;;; let u := uwl (u +! a) in
  h <~ wr h 16 (u &! #3) ;;;
  let u := uwl (#5 *! (u >>! 2)) in
  '(h, u) <~ poly_carry_l h u ;;;
  a <~ rd h 16 ;;;
  wr h 16 (uwl (u +! a)).
(** L225-228: the final subtraction is done by a mask *)
Definition poly_freeze_l (h : arr) : L arr :=
  g <~ ldup O 17 h ;;;
  h <~ add1305_l h (karr minusp) ;;;
  t <~ rd h 16 ;;;
  let s := uwl (un O Neg (t >>! 7)) in
  lfor 17 (fun j h =>
    a <~ rd g j ;;; b <~ rd h j ;;; wr h j (b ^! (s &! (a ^! b)))) h.
(** L185-236 *)
Definition onetimeauth_l (m : arr) (off n : Z) (k : arr) : L arr :=
  r <~ poly_r_l k ;;;
  h <~ linit O 17 ;;;
  h <~ lfor ((n + 15) / 16) (fun t h => poly_block_l m (off + 16 * t) (n - 16 * t) r h) h ;;;
  h <~ poly_freeze_l h ;;;
  c <~ lfor 16 (fun j c => a <~ rd k (j + 16) ;;; wr c j a) (vzeros O 17) ;;;
  h <~ add1305_l h c ;;;
  lfor 16 (fun j out => a <~ rd h j ;;; wr out j (wrap 8 a)) (vzeros O 16).
(** L238-243 *)
Definition onetimeauth_verify_l (h : arr) (ho : Z) (m : arr) (off n : Z) (k : arr) : L V :=
  x <~ onetimeauth_l m off n k ;;;
  verify_16_l (lptr h ho 16) x.
(** L245-253; the length [d] is public *)
Definition secretbox_l (c m : arr) (d : Z) (n k : arr) : L (Z * arr) :=
  lif (d <? 32) (lret (-1, c)) (
  c <~ stream_xor_l c m d n k ;;;
  t <~ onetimeauth_l c 32 (d - 32) c ;;;
  c <~ lcopy O c 16 t 0 16 ;;;
  c <~ lfor 16 (fun i c => wr c i #0) c ;;;
  lret (0, c)).
(** L255-265; the comparison's verdict decides a branch *)
Definition secretbox_open_l (m c : arr) (d : Z) (n k : arr) : L (Z * arr) :=
  lif (d <? 32) (lret (-1, m)) (
  x <~ stream_l (vzeros O 32) 32 n k ;;;
  v <~ onetimeauth_verify_l c 16 c 32 (d - 32) x ;;;
  bad <~ lbranch O v ;;;
  if bad then lret (-1, m) else
  m <~ stream_xor_l m c d n k ;;;
  m <~ lfor 32 (fun i m => wr m i #0) m ;;;
  lret (0, m)).
(** L445-487 *)
Definition beforenm_l (y x : arr) : L (Z * arr) :=
  '(_, s) <~ x25519_l x y ;;;
  k <~ hsalsa20_l (karr zero16) s (karr sigma) ;;;
  lret (0, k).
Definition box_l (c m : arr) (d : Z) (n y x : arr) : L (Z * arr) :=
  '(_, k) <~ beforenm_l y x ;;; secretbox_l c m d n k.
Definition box_open_l (m c : arr) (d : Z) (n y x : arr) : L (Z * arr) :=
  '(_, k) <~ beforenm_l y x ;;; secretbox_open_l m c d n k.
End W.
Definition x25519_base_l (n : arr) : L (Z * arr) := x25519_l n (karr nine32).
End Prog.
