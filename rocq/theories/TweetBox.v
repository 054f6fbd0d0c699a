(** Model of tweetnacl/tweetnacl.c: Salsa20, Poly1305, secretbox, X25519, box.

    Conventions as in Tweet.v.  [u32] is [unsigned long] (L6): its width is the parameter [w], 64
    on LP64 systems and 32 on Windows and wasm32.  Every unsigned operation wraps at [2 ^ w].
    A pointer into a buffer is the buffer and an offset.  Local arrays that are completely written
    before they are read start as zeros here. *)
From Verif Require Import Base Tweet.

Definition uw (w x : Z) : Z := x mod 2 ^ w.
(** L27 L32 *)
Definition L32 (w x c : Z) : Z := uw w (Z.lor (uw w (Z.shiftl x c)) (Z.shiftr (Z.land x 0xffffffff) (32 - c))).
(** [u32] sum and difference *)
Definition addw (w a b : Z) : Z := uw w (a + b).
Definition subw (w a b : Z) : Z := uw w (a - b).
(** L29-35 ld32 *)
Definition ldcat (w u a : Z) : Z := Z.lor (uw w (Z.shiftl u 8)) a.
Definition ld32 (w : Z) (x : list Z) (o : Z) : outcome Z :=
  u <- rd 0 x (o + 3) ;;
  a <- rd 0 x (o + 2) ;; let u := ldcat w u a in
  a <- rd 0 x (o + 1) ;; let u := ldcat w u a in
  a <- rd 0 x o ;; Ret (ldcat w u a).
(** L44-48 st32 *)
Definition st32 (x : list Z) (o u : Z) : outcome (list Z) :=
  '(x, u) <- for_loop 4 (fun i '(x, u) => x <- wr x (o + i) (u8 u) ;; Ret (x, Z.shiftr u 8)) (x, u) ;;
  Ret x.

(** ** Salsa20 *)
(** L85-92: one pass of the body of the loop over [j] *)
Definition core_quarter (w : Z) (x : list Z) (j : Z) (wv : list Z) : outcome (list Z) :=
  t <- for_loop 4 (fun m t => a <- rd 0 x ((5 * j + 4 * m) mod 16) ;; wr t m a) (zeros 4) ;;
  t0 <- rd 0 t 0 ;; t1 <- rd 0 t 1 ;; t2 <- rd 0 t 2 ;; t3 <- rd 0 t 3 ;;
  let t1 := Z.lxor t1 (L32 w (addw w t0 t3) 7) in
  let t2 := Z.lxor t2 (L32 w (addw w t1 t0) 9) in
  let t3 := Z.lxor t3 (L32 w (addw w t2 t1) 13) in
  let t0 := Z.lxor t0 (L32 w (addw w t3 t2) 18) in
  let t := [t0; t1; t2; t3] in
  for_loop 4 (fun m wv => a <- rd 0 t m ;; wr wv (4 * j + (j + m) mod 4) a) wv.
(** L84-94: one pass of the loop over [i] *)
Definition core_round (w : Z) (x wv : list Z) : outcome (list Z * list Z) :=
  wv <- for_loop 4 (core_quarter w x) wv ;;
  x <- for_loop 16 (fun m x => a <- rd 0 wv m ;; wr x m a) x ;;
  Ret (x, wv).
(** L75-80: the input words *)
Definition core_init (w : Z) (inp k c : list Z) : outcome (list Z) :=
  for_loop 4 (fun i x =>
    a <- ld32 w c (4 * i) ;; x <- wr x (5 * i) a ;;
    a <- ld32 w k (4 * i) ;; x <- wr x (1 + i) a ;;
    a <- ld32 w inp (4 * i) ;; x <- wr x (6 + i) a ;;
    a <- ld32 w k (16 + 4 * i) ;; wr x (11 + i) a) (zeros 16).
(** L71-109 core; [h] selects HSalsa20.  The result has 32 bytes when [h], 64 otherwise. *)
Definition core (w : Z) (inp k c : list Z) (h : bool) : outcome (list Z) :=
  x <- core_init w inp k c ;;
  y <- for_loop 16 (fun i y => a <- rd 0 x i ;; wr y i a) (zeros 16) ;;
  '(x, _) <- for_loop 20 (fun _ '(x, wv) => core_round w x wv) (x, zeros 16) ;;
  if h then
    x <- for_loop 16 (fun i x => a <- rd 0 x i ;; b <- rd 0 y i ;; wr x i (addw w a b)) x ;;
    x <- for_loop 4 (fun i x =>
      a <- rd 0 x (5 * i) ;; b <- ld32 w c (4 * i) ;; x <- wr x (5 * i) (subw w a b) ;;
      a <- rd 0 x (6 + i) ;; b <- ld32 w inp (4 * i) ;; wr x (6 + i) (subw w a b)) x ;;
    for_loop 4 (fun i out =>
      a <- rd 0 x (5 * i) ;; out <- st32 out (4 * i) a ;;
      a <- rd 0 x (6 + i) ;; st32 out (16 + 4 * i) a) (zeros 32)
  else
    for_loop 16 (fun i out => a <- rd 0 x i ;; b <- rd 0 y i ;; st32 out (4 * i) (addw w a b)) (zeros 64).
(** L111-121 *)
Definition crypto_core_salsa20 w inp k c := core w inp k c false.
Definition crypto_core_hsalsa20 w inp k c := core w inp k c true.
(** L123 *)
Definition sigma : list Z := [101;120;112;97;110;100;32;51;50;45;98;121;116;101;32;107].

(** L134 and L146: [c[i] = (m?m[i]:0) ^ x[i]] for [cnt] bytes at offset [off]; [m = None] is the
    null pointer *)
Definition xor_into (c : list Z) (m : option (list Z)) (x : list Z) (off cnt : Z) : outcome (list Z) :=
  for_loop cnt (fun i c =>
    a <- match m with Some m => rd 0 m (off + i) | None => Ret 0 end ;;
    b <- rd 0 x i ;;
    wr c (off + i) (u8 (Z.lxor a b))) c.
(** L135-140: the block counter *)
Definition ctr_inc (w : Z) (z : list Z) : outcome (list Z) :=
  '(z, u) <- for_loop 8 (fun t '(z, u) =>
      a <- rd 0 z (8 + t) ;;
      let u := uw w (u + a) in
      z <- wr z (8 + t) (u8 u) ;;
      Ret (z, Z.shiftr u 8)) (z, 1) ;;
  Ret z.
(** L125-150 crypto_stream_salsa20_xor; [n] is read from offset [no].  The [while] loop subtracts
    64 from [b] until less than 64 is left: it runs [b / 64] times.  Returns the buffer [c]; the
    C function's return value is always 0. *)
Definition crypto_stream_salsa20_xor (w : Z) (c : list Z) (m : option (list Z)) (b : Z) (n : list Z) (no : Z) (k : list Z) : outcome (list Z) :=
  if b =? 0 then Ret c else
  z <- for_loop 8 (fun i z => a <- rd 0 n (no + i) ;; wr z i a) (zeros 16) ;;
  '(c, z) <- for_loop (b / 64) (fun t '(c, z) =>
      x <- crypto_core_salsa20 w z k sigma ;;
      c <- xor_into c m x (64 * t) 64 ;;
      z <- ctr_inc w z ;;
      Ret (c, z)) (c, z) ;;
  if b mod 64 =? 0 then Ret c else
  x <- crypto_core_salsa20 w z k sigma ;;
  xor_into c m x (64 * (b / 64)) (b mod 64).
(** L152-155 *)
Definition crypto_stream_salsa20 w c d n no k := crypto_stream_salsa20_xor w c None d n no k.
(** L157-162 *)
Definition crypto_stream (w : Z) (c : list Z) (d : Z) (n k : list Z) : outcome (list Z) :=
  s <- crypto_core_hsalsa20 w n k sigma ;; crypto_stream_salsa20 w c d n 16 s.
(** L164-169 *)
Definition crypto_stream_xor (w : Z) (c m : list Z) (d : Z) (n k : list Z) : outcome (list Z) :=
  s <- crypto_core_hsalsa20 w n k sigma ;; crypto_stream_salsa20_xor w c (Some m) d n 16 s.

(** ** Poly1305 *)
(** L171-179 add1305 *)
Definition add1305 (w : Z) (h c : list Z) : outcome (list Z) :=
  '(h, u) <- for_loop 17 (fun j '(h, u) =>
      a <- rd 0 h j ;; b <- rd 0 c j ;;
      let u := uw w (u + uw w (a + b)) in
      h <- wr h j (Z.land u 255) ;;
      Ret (h, Z.shiftr u 8)) (h, 0) ;;
  Ret h.
(** L181-183 *)
Definition minusp : list Z := [5;0;0;0;0;0;0;0;0;0;0;0;0;0;0;0;252].
(** L190-197: the clamped multiplier *)
Definition and_at (r : list Z) (i v : Z) : outcome (list Z) := a <- rd 0 r i ;; wr r i (Z.land a v).
Definition poly_r (k : list Z) : outcome (list Z) :=
  r <- for_loop 16 (fun j r => a <- rd 0 k j ;; wr r j a) (zeros 17) ;;
  r <- and_at r 3 15 ;; r <- and_at r 4 252 ;; r <- and_at r 7 15 ;; r <- and_at r 8 252 ;;
  r <- and_at r 11 15 ;; r <- and_at r 12 252 ;; and_at r 15 15.
(** L204-207: [h * r], limb by limb; [x[i]] is accumulated in a local *)
Definition poly_mul (w : Z) (h r : list Z) : outcome (list Z) :=
  for_loop 17 (fun i x =>
    v <- for_loop 17 (fun j v =>
           a <- rd 0 h j ;;
           b <- (if j <=? i then rd 0 r (i - j) else q <- rd 0 r (i + 17 - j) ;; Ret (uw w (320 * q))) ;;
           Ret (uw w (v + uw w (a * b)))) 0 ;;
    wr x i v) (zeros 17).
(** L210-214 and L217-221 *)
Definition poly_carry (w : Z) (h : list Z) (u : Z) : outcome (list Z * Z) :=
  for_loop 16 (fun j '(h, u) =>
    a <- rd 0 h j ;;
    let u := uw w (u + a) in
    h <- wr h j (Z.land u 255) ;;
    Ret (h, Z.shiftr u 8)) (h, u).
(** L199-223: one block of the message, starting at offset [off] with [n] bytes left *)
Definition poly_block (w : Z) (m : list Z) (off n : Z) (r h : list Z) : outcome (list Z) :=
  let j := Z.min 16 n in
  c <- for_loop j (fun i c => a <- rd 0 m (off + i) ;; wr c i a) (zeros 17) ;;
  c <- wr c j 1 ;;
  h <- add1305 w h c ;;
  h <- poly_mul w h r ;;
  '(h, u) <- poly_carry w h 0 ;;
  a <- rd 0 h 16 ;; let u := uw w (u + a) in
  h <- wr h 16 (Z.land u 3) ;;
  let u := uw w (5 * Z.shiftr u 2) in
  '(h, u) <- poly_carry w h u ;;
  a <- rd 0 h 16 ;;
  wr h 16 (uw w (u + a)).
(** L225-228: subtract [p] once if that does not go below zero *)
Definition poly_freeze (w : Z) (h : list Z) : outcome (list Z) :=
  let g := h in
  h <- add1305 w h minusp ;;
  t <- rd 0 h 16 ;;
  let s := uw w (- Z.shiftr t 7) in
  for_loop 17 (fun j h =>
    a <- rd 0 g j ;; b <- rd 0 h j ;; wr h j (Z.lxor b (Z.land s (Z.lxor a b)))) h.
(** L185-236 crypto_onetimeauth: message at offset [off] of [m], key at the start of [k].  The
    [while] loop takes 16 bytes at a time: [(n + 15) / 16] passes. *)
Definition crypto_onetimeauth (w : Z) (m : list Z) (off n : Z) (k : list Z) : outcome (list Z) :=
  r <- poly_r k ;;
  h <- for_loop ((n + 15) / 16) (fun t h => poly_block w m (off + 16 * t) (n - 16 * t) r h) (zeros 17) ;;
  h <- poly_freeze w h ;;
  c <- for_loop 16 (fun j c => a <- rd 0 k (j + 16) ;; wr c j a) (zeros 17) ;;
  h <- add1305 w h c ;;
  for_loop 16 (fun j out => a <- rd 0 h j ;; wr out j (u8 a)) (zeros 16).
(** L238-243: the tag is at offset [ho] of [h] *)
Definition crypto_onetimeauth_verify (w : Z) (h : list Z) (ho : Z) (m : list Z) (off n : Z) (k : list Z) : outcome Z :=
  x <- crypto_onetimeauth w m off n k ;;
  t <- rdrange h ho 16 ;;
  crypto_verify_16 t x.

(** ** secretbox *)
(** L245-253.  [c] is the output buffer as it was; returns the code and the buffer.  The tag is
    written at [c + 16], inside the 32 bytes used as key: the C function reads the key before it
    writes the tag. *)
Definition crypto_secretbox (w : Z) (c m : list Z) (d : Z) (n k : list Z) : outcome (Z * list Z) :=
  if d <? 32 then Ret (-1, c) else
  c <- crypto_stream_xor w c m d n k ;;
  t <- crypto_onetimeauth w c 32 (d - 32) c ;;
  c <- copy c 16 t 0 16 ;;
  c <- for_loop 16 (fun i c => wr c i 0) c ;;
  Ret (0, c).
(** L255-265 *)
Definition crypto_secretbox_open (w : Z) (m c : list Z) (d : Z) (n k : list Z) : outcome (Z * list Z) :=
  if d <? 32 then Ret (-1, m) else
  x <- crypto_stream w (zeros 32) 32 n k ;;
  v <- crypto_onetimeauth_verify w c 16 c 32 (d - 32) x ;;
  if negb (v =? 0) then Ret (-1, m) else
  m <- crypto_stream_xor w m c d n k ;;
  m <- for_loop 32 (fun i m => wr m i 0) m ;;
  Ret (0, m).
