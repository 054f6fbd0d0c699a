(** Model of dilithium2/poly.c.

    A polynomial is its array of 256 coefficients.  Loops that treat the
    coefficients one by one are written as [mapM]/[map2M]; loops over groups of
    coefficients are written as recursive functions consuming one group. *)
From Verif Require Import Base SpongePure DilReduce Tab DilNtt.

(** poly.c L20-28 *)
Definition poly_reduce (a : list Z) : outcome (list Z) := mapM reduce32 a.
(** poly.c L39-47 *)
Definition poly_caddq (a : list Z) : outcome (list Z) := mapM caddq a.
(** poly.c L59-67 *)
Definition poly_add (a b : list Z) : outcome (list Z) := map2M (fun x y => ck32 (x + y)) a b.
(** poly.c L81-89 *)
Definition poly_sub (a b : list Z) : outcome (list Z) := map2M (fun x y => ck32 (x - y)) a b.
(** poly.c L100-108: a->coeffs[i] <<= D *)
Definition poly_shiftl (a : list Z) : outcome (list Z) := mapM (fun x => shl32 x D) a.
(** poly.c L119-125 *)
Definition poly_ntt (a : list Z) : outcome (list Z) := ntt a.
(** poly.c L136-142 *)
Definition poly_invntt_tomont (a : list Z) : outcome (list Z) := invntt_tomont a.
(** poly.c L155-163 *)
Definition poly_pointwise_montgomery (a b : list Z) : outcome (list Z) :=
  map2M (fun x y => p <- ck64 (x * y) ;; montgomery_reduce p) a b.
(** poly.c L178-186 and L202-210; the result is (a1, a0) *)
Definition poly_power2round (a : list Z) : outcome (list Z * list Z) :=
  r <- mapM power2round a ;; Ret (map fst r, map snd r).
Definition poly_decompose (a : list Z) : outcome (list Z * list Z) :=
  r <- mapM decompose a ;; Ret (map fst r, map snd r).
(** poly.c L226-236: hint polynomial and number of ones *)
Definition poly_make_hint (a0 a1 : list Z) : outcome (list Z * Z) :=
  h <- map2M (fun x y => Ret (make_hint x y)) a0 a1 ;;
  Ret (h, fold_left (fun s x => u32 (s + x)) h 0).
(** poly.c L248-256 *)
Definition poly_use_hint (a h : list Z) : outcome (list Z) := map2M use_hint a h.

(** poly.c L270-295; returns 0 or 1 *)
Fixpoint chknorm_loop (a : list Z) (B : Z) : outcome Z :=
  match a with
  | [] => Ret 0
  | x :: a =>
      let t := Z.shiftr x 31 in
      d <- ck32 (2 * x) ;;
      t <- ck32 (x - Z.land t d) ;;
      if B <=? t then Ret 1 else chknorm_loop a B
  end.
Definition poly_chknorm (a : list Z) (B : Z) : outcome Z :=
  if (Q - 1) / 8 <? B then Ret 1 else chknorm_loop a B.

(** ** Sampling.  [x pos n] is the output bytes [pos .. pos+n-1] of the extendable
    output function; by the incremental-hashing theorems (C20) this is what
    successive squeeze calls return. *)
Definition xof := Z -> Z -> list Z.
(** symmetric-shake.c L6-15 / L17-26: absorb the seed and the two nonce bytes *)
Definition nonce_bytes (nonce : Z) : list Z := [u8 nonce; u8 (Z.shiftr nonce 8)].
Definition stream128 (seed : list Z) (nonce : Z) : xof :=
  fun pos n => slice (shake128_bytes (seed ++ nonce_bytes nonce) (pos + n)) pos n.
Definition stream256 (seed : list Z) (nonce : Z) : xof :=
  fun pos n => slice (shake256_bytes (seed ++ nonce_bytes nonce) (pos + n)) pos n.
Definition shake256_xof (seed : list Z) : xof :=
  fun pos n => slice (shake256_bytes seed (pos + n)) pos n.

(** poly.c L311-333: the coefficients written to a[0..], at most [len] of them *)
Fixpoint rej_uniform (len : nat) (buf : list Z) : list Z :=
  match len, buf with
  | S len', b0 :: b1 :: b2 :: rest =>
      let t := Z.land (Z.lor (Z.lor b0 (Z.shiftl b1 8)) (Z.shiftl b2 16)) 0x7FFFFF in
      if t <? Q then t :: rej_uniform len' rest else rej_uniform len rest
  | _, _ => []
  end.

(** poly.c L347-371.  [fuel] bounds the number of extra blocks; [None]: not finished.
    [acc] is the part of the polynomial written so far. *)
Fixpoint uniform_loop (fuel : nat) (x : xof) (pos : Z) (buf acc : list Z) : option (list Z) :=
  if zlen acc <? 256 then
    match fuel with
    | O => None
    | S fuel =>
        let off := zlen buf mod 3 in
        let buf := slice buf (zlen buf - off) off ++ x pos 168 in
        uniform_loop fuel x (pos + 168) buf (acc ++ rej_uniform (256 - length acc) buf)
    end
  else Some acc.
Definition poly_uniform_x (fuel : nat) (x : xof) : option (list Z) :=
  let buf := x 0 840 in
  uniform_loop fuel x 840 buf (rej_uniform 256 buf).
Definition poly_uniform (fuel : nat) (seed : list Z) (nonce : Z) : option (list Z) :=
  poly_uniform_x fuel (stream128 seed nonce).

(** poly.c L387-412.  The unsigned value 2 - t is stored in an int32_t. *)
Definition eta_coeff (t : Z) : Z := i32 (u32 (2 - u32 (t - Z.shiftr (205 * t) 10 * 5))).
Fixpoint rej_eta (len : nat) (buf : list Z) : list Z :=
  match buf with
  | [] => []
  | b :: rest =>
      match len with
      | O => []
      | S _ =>
          let t0 := Z.land b 0x0F in
          let t1 := Z.shiftr b 4 in
          let a0 := if t0 <? 15 then [eta_coeff t0] else [] in
          let len := (len - length a0)%nat in
          let a1 := if (t1 <? 15) && (0 <? Z.of_nat len) then [eta_coeff t1] else [] in
          a0 ++ a1 ++ rej_eta (len - length a1) rest
      end
  end.
(** poly.c L426-444 *)
Fixpoint eta_loop (fuel : nat) (x : xof) (pos : Z) (acc : list Z) : option (list Z) :=
  if zlen acc <? 256 then
    match fuel with
    | O => None
    | S fuel => eta_loop fuel x (pos + 136) (acc ++ rej_eta (256 - length acc) (x pos 136))
    end
  else Some acc.
Definition poly_uniform_eta_x (fuel : nat) (x : xof) : option (list Z) :=
  eta_loop fuel x 136 (rej_eta 256 (x 0 136)).
Definition poly_uniform_eta (fuel : nat) (seed : list Z) (nonce : Z) : option (list Z) :=
  poly_uniform_eta_x fuel (stream256 seed nonce).

(** poly.c L497-507: the do-while loop returning the next byte b <= i.
    State: current block, position in it, stream position. *)
Fixpoint chal_next (fuel : nat) (x : xof) (i : Z) (st : list Z * Z * Z) : option (Z * (list Z * Z * Z)) :=
  match fuel with
  | O => None
  | S fuel =>
      let '(buf, pos, off) := st in
      let '(buf, pos, off) := if 136 <=? pos then (x off 136, 0, off + 136) else (buf, pos, off) in
      let b := ix buf pos in
      let st := (buf, pos + 1, off) in
      if i <? b then chal_next fuel x i st else Some (b, st)
  end.
(** poly.c L496-512: the loop over i = N-TAU .. N-1 *)
Fixpoint chal_loop (fuel : nat) (x : xof) (is : list Z) (c : list Z) (signs : Z) (st : list Z * Z * Z) : option (list Z) :=
  match is with
  | [] => Some c
  | i :: is =>
      match chal_next fuel x i st with
      | None => None
      | Some (b, st) =>
          let c := upd c (Z.to_nat i) (ix c b) in
          let c := upd c (Z.to_nat b) (i32 (u64 (1 - 2 * Z.land signs 1))) in
          chal_loop fuel x is c (Z.shiftr signs 1) st
      end
  end.
(** poly.c L486-490: the eight sign bytes, little endian *)
Definition signs_of (buf : list Z) : Z :=
  fold_left (fun s i => Z.lor s (Z.shiftl (ix buf i) (8 * i))) [0; 1; 2; 3; 4; 5; 6; 7] 0.
Definition poly_challenge_x (fuel : nat) (x : xof) : option (list Z) :=
  let buf := x 0 136 in
  chal_loop fuel x (zseq 217 39) (zeros 256) (signs_of buf) (buf, 8, 136).
(** poly.c L480-515: the first SEEDBYTES = 32 bytes of the argument are hashed *)
Definition poly_challenge (fuel : nat) (seed : list Z) : option (list Z) :=
  poly_challenge_x fuel (shake256_xof (slice seed 0 32)).

(** ** Packing: one recursive call per group.  [Undef]: an overflowing signed
    subtraction or an undefined signed shift. *)
(** poly.c L526-549 *)
Fixpoint polyeta_pack (a : list Z) : outcome (list Z) :=
  match a with
  | a0 :: a1 :: a2 :: a3 :: a4 :: a5 :: a6 :: a7 :: rest =>
      a0 <- ck32 (ETA - a0) ;; a1 <- ck32 (ETA - a1) ;; a2 <- ck32 (ETA - a2) ;; a3 <- ck32 (ETA - a3) ;;
      a4 <- ck32 (ETA - a4) ;; a5 <- ck32 (ETA - a5) ;; a6 <- ck32 (ETA - a6) ;; a7 <- ck32 (ETA - a7) ;;
      let t0 := u8 a0 in let t1 := u8 a1 in let t2 := u8 a2 in let t3 := u8 a3 in
      let t4 := u8 a4 in let t5 := u8 a5 in let t6 := u8 a6 in let t7 := u8 a7 in
      r <- polyeta_pack rest ;;
      Ret (u8 (Z.lor (Z.lor t0 (Z.shiftl t1 3)) (Z.shiftl t2 6)) ::
           u8 (Z.lor (Z.lor (Z.lor (Z.shiftr t2 2) (Z.shiftl t3 1)) (Z.shiftl t4 4)) (Z.shiftl t5 7)) ::
           u8 (Z.lor (Z.lor (Z.shiftr t5 1) (Z.shiftl t6 2)) (Z.shiftl t7 5)) :: r)
  | _ => Ret []
  end.
(** poly.c L557-585 *)
Fixpoint polyeta_unpack (a : list Z) : list Z :=
  match a with
  | a0 :: a1 :: a2 :: rest =>
      ETA - Z.land a0 7 ::
      ETA - Z.land (Z.shiftr a0 3) 7 ::
      ETA - Z.land (Z.lor (Z.shiftr a0 6) (Z.shiftl a1 2)) 7 ::
      ETA - Z.land (Z.shiftr a1 1) 7 ::
      ETA - Z.land (Z.shiftr a1 4) 7 ::
      ETA - Z.land (Z.lor (Z.shiftr a1 7) (Z.shiftl a2 1)) 7 ::
      ETA - Z.land (Z.shiftr a2 2) 7 ::
      ETA - Z.land (Z.shiftr a2 5) 7 :: polyeta_unpack rest
  | _ => []
  end.
(** poly.c L594-607 *)
Fixpoint polyt1_pack (a : list Z) : outcome (list Z) :=
  match a with
  | a0 :: a1 :: a2 :: a3 :: rest =>
      s1 <- shl32 a1 2 ;; s2 <- shl32 a2 4 ;; s3 <- shl32 a3 6 ;;
      r <- polyt1_pack rest ;;
      Ret (u8 a0 :: u8 (Z.lor (Z.shiftr a0 8) s1) :: u8 (Z.lor (Z.shiftr a1 6) s2) ::
           u8 (Z.lor (Z.shiftr a2 4) s3) :: u8 (Z.shiftr a3 2) :: r)
  | _ => Ret []
  end.
(** poly.c L618-630 *)
Fixpoint polyt1_unpack (a : list Z) : list Z :=
  match a with
  | a0 :: a1 :: a2 :: a3 :: a4 :: rest =>
      Z.land (Z.lor a0 (Z.shiftl a1 8)) 0x3FF ::
      Z.land (Z.lor (Z.shiftr a1 2) (Z.shiftl a2 6)) 0x3FF ::
      Z.land (Z.lor (Z.shiftr a2 4) (Z.shiftl a3 4)) 0x3FF ::
      Z.land (Z.lor (Z.shiftr a3 6) (Z.shiftl a4 2)) 0x3FF :: polyt1_unpack rest
  | _ => []
  end.
(** poly.c L641-680 *)
Fixpoint polyt0_pack (a : list Z) : outcome (list Z) :=
  match a with
  | a0 :: a1 :: a2 :: a3 :: a4 :: a5 :: a6 :: a7 :: rest =>
      a0 <- ck32 (4096 - a0) ;; a1 <- ck32 (4096 - a1) ;; a2 <- ck32 (4096 - a2) ;; a3 <- ck32 (4096 - a3) ;;
      a4 <- ck32 (4096 - a4) ;; a5 <- ck32 (4096 - a5) ;; a6 <- ck32 (4096 - a6) ;; a7 <- ck32 (4096 - a7) ;;
      let t0 := u32 a0 in let t1 := u32 a1 in let t2 := u32 a2 in let t3 := u32 a3 in
      let t4 := u32 a4 in let t5 := u32 a5 in let t6 := u32 a6 in let t7 := u32 a7 in
      r <- polyt0_pack rest ;;
      Ret (u8 t0 ::
           Z.lor (u8 (Z.shiftr t0 8)) (u8 (Z.shiftl t1 5)) ::
           u8 (Z.shiftr t1 3) ::
           Z.lor (u8 (Z.shiftr t1 11)) (u8 (Z.shiftl t2 2)) ::
           Z.lor (u8 (Z.shiftr t2 6)) (u8 (Z.shiftl t3 7)) ::
           u8 (Z.shiftr t3 1) ::
           Z.lor (u8 (Z.shiftr t3 9)) (u8 (Z.shiftl t4 4)) ::
           u8 (Z.shiftr t4 4) ::
           Z.lor (u8 (Z.shiftr t4 12)) (u8 (Z.shiftl t5 1)) ::
           Z.lor (u8 (Z.shiftr t5 7)) (u8 (Z.shiftl t6 6)) ::
           u8 (Z.shiftr t6 2) ::
           Z.lor (u8 (Z.shiftr t6 10)) (u8 (Z.shiftl t7 3)) ::
           u8 (Z.shiftr t7 5) :: r)
  | _ => Ret []
  end.
(** poly.c L689-744 *)
Fixpoint polyt0_unpack (a : list Z) : list Z :=
  match a with
  | a0 :: a1 :: a2 :: a3 :: a4 :: a5 :: a6 :: a7 :: a8 :: a9 :: a10 :: a11 :: a12 :: rest =>
      4096 - Z.land (Z.lor a0 (Z.shiftl a1 8)) 0x1FFF ::
      4096 - Z.land (Z.lor (Z.lor (Z.shiftr a1 5) (Z.shiftl a2 3)) (Z.shiftl a3 11)) 0x1FFF ::
      4096 - Z.land (Z.lor (Z.shiftr a3 2) (Z.shiftl a4 6)) 0x1FFF ::
      4096 - Z.land (Z.lor (Z.lor (Z.shiftr a4 7) (Z.shiftl a5 1)) (Z.shiftl a6 9)) 0x1FFF ::
      4096 - Z.land (Z.lor (Z.lor (Z.shiftr a6 4) (Z.shiftl a7 4)) (Z.shiftl a8 12)) 0x1FFF ::
      4096 - Z.land (Z.lor (Z.shiftr a8 1) (Z.shiftl a9 7)) 0x1FFF ::
      4096 - Z.land (Z.lor (Z.lor (Z.shiftr a9 6) (Z.shiftl a10 2)) (Z.shiftl a11 10)) 0x1FFF ::
      4096 - Z.land (Z.lor (Z.shiftr a11 3) (Z.shiftl a12 5)) 0x1FFF :: polyt0_unpack rest
  | _ => []
  end.
(** poly.c L753-780 *)
Fixpoint polyz_pack (a : list Z) : outcome (list Z) :=
  match a with
  | a0 :: a1 :: a2 :: a3 :: rest =>
      a0 <- ck32 (GAMMA1 - a0) ;; a1 <- ck32 (GAMMA1 - a1) ;; a2 <- ck32 (GAMMA1 - a2) ;; a3 <- ck32 (GAMMA1 - a3) ;;
      let t0 := u32 a0 in let t1 := u32 a1 in let t2 := u32 a2 in let t3 := u32 a3 in
      r <- polyz_pack rest ;;
      Ret (u8 t0 :: u8 (Z.shiftr t0 8) ::
           Z.lor (u8 (Z.shiftr t0 16)) (u8 (Z.shiftl t1 2)) ::
           u8 (Z.shiftr t1 6) ::
           Z.lor (u8 (Z.shiftr t1 14)) (u8 (Z.shiftl t2 4)) ::
           u8 (Z.shiftr t2 4) ::
           Z.lor (u8 (Z.shiftr t2 12)) (u8 (Z.shiftl t3 6)) ::
           u8 (Z.shiftr t3 2) :: u8 (Z.shiftr t3 10) :: r)
  | _ => Ret []
  end.
(** poly.c L790-823 *)
Fixpoint polyz_unpack (a : list Z) : list Z :=
  match a with
  | a0 :: a1 :: a2 :: a3 :: a4 :: a5 :: a6 :: a7 :: a8 :: rest =>
      GAMMA1 - Z.land (Z.lor (Z.lor a0 (Z.shiftl a1 8)) (Z.shiftl a2 16)) 0x3FFFF ::
      GAMMA1 - Z.land (Z.lor (Z.lor (Z.shiftr a2 2) (Z.shiftl a3 6)) (Z.shiftl a4 14)) 0x3FFFF ::
      GAMMA1 - Z.land (Z.lor (Z.lor (Z.shiftr a4 4) (Z.shiftl a5 4)) (Z.shiftl a6 12)) 0x3FFFF ::
      GAMMA1 - Z.land (Z.lor (Z.lor (Z.shiftr a6 6) (Z.shiftl a7 2)) (Z.shiftl a8 10)) 0x3FFFF :: polyz_unpack rest
  | _ => []
  end.
(** poly.c L834-848 *)
Fixpoint polyw1_pack (a : list Z) : outcome (list Z) :=
  match a with
  | a0 :: a1 :: a2 :: a3 :: rest =>
      s1 <- shl32 a1 6 ;; s2 <- shl32 a2 4 ;; s3 <- shl32 a3 2 ;;
      r <- polyw1_pack rest ;;
      Ret (Z.lor (u8 a0) (u8 s1) :: Z.lor (u8 (Z.shiftr a1 2)) (u8 s2) :: Z.lor (u8 (Z.shiftr a2 4)) (u8 s3) :: r)
  | _ => Ret []
  end.

(** poly.c L458-468: five blocks of 136 bytes, of which polyz_unpack reads 576 *)
Definition poly_uniform_gamma1_x (x : xof) : list Z := polyz_unpack (slice (x 0 680) 0 576).
Definition poly_uniform_gamma1 (seed : list Z) (nonce : Z) : list Z := poly_uniform_gamma1_x (stream256 seed nonce).
