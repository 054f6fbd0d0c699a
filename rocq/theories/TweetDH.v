(** Model of tweetnacl/tweetnacl.c: X25519 and the public-key box.  Conventions as in Tweet.v and
    TweetBox.v ([w] is the width of [unsigned long]). *)
From Verif Require Import Base Tweet TweetBox.

(** L18 [_121665], L14 [_9], L13 [_0] *)
Definition gf121665 : list Z := [0xDB41; 1; 0; 0; 0; 0; 0; 0; 0; 0; 0; 0; 0; 0; 0; 0].
Definition nine32 : list Z := 9 :: zeros 31.
Definition zero16 : list Z := zeros 16.

(** L399-401: the clamped copy of the scalar *)
Definition sm_clamp (n : list Z) : outcome (list Z) :=
  z <- for_loop 31 (fun i z => a <- rd 0 n i ;; wr z i a) (zeros 32) ;;
  a <- rd 0 n 31 ;; z <- wr z 31 (u8 (Z.lor (Z.land a 127) 64)) ;;
  b <- rd 0 z 0 ;; wr z 0 (u8 (Z.land b 248)).
(** L411-431: the body of the ladder loop between the two pairs of conditional swaps; [x] is the
    unpacked input in x[0..15] *)
Definition sm_step (x a b c d : list Z) : outcome (list Z * list Z * list Z * list Z) :=
  e <- gfA a c ;; a <- gfZ a c ;; c <- gfA b d ;; b <- gfZ b d ;;
  d <- gfS e ;; f <- gfS a ;; a <- gfM c a ;; c <- gfM b e ;;
  e <- gfA a c ;; a <- gfZ a c ;; b <- gfS a ;; c <- gfZ d f ;;
  a <- gfM c gf121665 ;; a <- gfA a d ;; c <- gfM c a ;; a <- gfM d f ;;
  d <- gfM b x ;; b <- gfS e ;;
  Ret (a, b, c, d).
(** L394-443 crypto_scalarmult.  Returns the return value and [q].  The regions x+16 and x+32 of
    the work array are the copies of [a] and [c]; x+48 and x+64 are written and never read. *)
Definition crypto_scalarmult (n p : list Z) : outcome (Z * list Z) :=
  z <- sm_clamp n ;;
  x <- unpack25519 p ;;
  '(a, _, c, _) <- for_loop 255 (fun t '(a, b, c, d) =>
     let i := 254 - t in
     zi <- rd 0 z (i / 8) ;;
     let r := Z.land (Z.shiftr zi (Z.land i 7)) 1 in
     '(a, b) <- sel25519 a b r ;;
     '(c, d) <- sel25519 c d r ;;
     '(a, b, c, d) <- sm_step x a b c d ;;
     '(a, b) <- sel25519 a b r ;;
     '(c, d) <- sel25519 c d r ;;
     Ret (a, b, c, d)) (gf1, x, gf0, gf1) ;;
  i <- inv25519 c ;;
  q <- gfM a i ;;
  q <- pack25519 q ;;
  Ret (0, q).
(** L445-448 *)
Definition crypto_scalarmult_base (n : list Z) : outcome (Z * list Z) := crypto_scalarmult n nine32.
(** L450-456: [r] is what randombytes does: its return value and the 32 bytes it leaves in [x];
    [y] is the public-key buffer as it was *)
Definition crypto_box_keypair (y : list Z) (r : Z * list Z) : outcome (Z * list Z * list Z) :=
  let '(rc, x) := r in
  if negb (rc =? 0) then Ret (-1, y, x) else
  '(rc, y) <- crypto_scalarmult_base x ;; Ret (rc, y, x).
(** L458-463: the public key is [y], the secret key [x]; the return value of crypto_scalarmult is
    ignored.  The shared point is the *key* argument of HSalsa20, as in NaCl. *)
Definition crypto_box_beforenm (w : Z) (y x : list Z) : outcome (Z * list Z) :=
  '(_, s) <- crypto_scalarmult x y ;;
  k <- crypto_core_hsalsa20 w zero16 s sigma ;;
  Ret (0, k).
(** L465-473 *)
Definition crypto_box_afternm (w : Z) (c m : list Z) (d : Z) (n k : list Z) := crypto_secretbox w c m d n k.
Definition crypto_box_open_afternm (w : Z) (m c : list Z) (d : Z) (n k : list Z) := crypto_secretbox_open w m c d n k.
(** L475-487 *)
Definition crypto_box (w : Z) (c m : list Z) (d : Z) (n y x : list Z) : outcome (Z * list Z) :=
  '(_, k) <- crypto_box_beforenm w y x ;; crypto_box_afternm w c m d n k.
Definition crypto_box_open (w : Z) (m c : list Z) (d : Z) (n y x : list Z) : outcome (Z * list Z) :=
  '(_, k) <- crypto_box_beforenm w y x ;; crypto_box_open_afternm w m c d n k.
