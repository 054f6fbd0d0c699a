(** Model of dilithium2/reduce.c and dilithium2/rounding.c.

    [int32_t]/[int64_t] values are integers; every signed operation that C leaves
    undefined on overflow is checked and gives [Undef] when its mathematical result
    does not fit.  Right shifts of negative numbers are arithmetic shifts and
    conversions to a narrower signed type wrap (implementation-defined in ISO C,
    the behaviour of every compiler the project supports). *)
From Verif Require Import Base.

(** dilithium2/params.h and reduce.h *)
Definition Q : Z := 8380417.
Definition QINV : Z := 58728449.
Definition D : Z := 13.
Definition GAMMA1 : Z := 131072.
Definition GAMMA2 : Z := 95232.     (* (Q-1)/88 *)
Definition BETA : Z := 78.
Definition TAU : Z := 39.
Definition ETA : Z := 2.
Definition OMEGA : Z := 80.

(** a signed 32-bit (64-bit) result, undefined when it does not fit *)
Definition ck32 (x : Z) : outcome Z := if (- 2 ^ 31 <=? x) && (x <? 2 ^ 31) then Ret x else Undef.
Definition ck64 (x : Z) : outcome Z := if (- 2 ^ 63 <=? x) && (x <? 2 ^ 63) then Ret x else Undef.
(** [a << n] on a signed 32-bit operand: undefined for negative [a] and on overflow *)
Definition shl32 (a n : Z) : outcome Z := if 0 <=? a then ck32 (Z.shiftl a n) else Undef.

(** reduce.c L15-21 *)
Definition montgomery_reduce (a : Z) : outcome Z :=
  let t := i32 (u64 (u64 a * QINV)) in
  p <- ck64 (t * Q) ;;
  d <- ck64 (a - p) ;;
  Ret (i32 (Z.shiftr d 32)).

(** reduce.c L33-39 *)
Definition reduce32 (a : Z) : outcome Z :=
  s <- ck32 (a + Z.shiftl 1 22) ;;
  let t := Z.shiftr s 23 in
  p <- ck32 (t * Q) ;;
  ck32 (a - p).

(** reduce.c L50-53 *)
Definition caddq (a : Z) : outcome Z := ck32 (a + Z.land (Z.shiftr a 31) Q).

(** reduce.c L65-69 *)
Definition freeze (a : Z) : outcome Z := a <- reduce32 a ;; caddq a.

(** rounding.c L17-23; returns (a1, a0) *)
Definition power2round (a : Z) : outcome (Z * Z) :=
  s <- ck32 (a + Z.shiftl 1 (D - 1)) ;;
  s <- ck32 (s - 1) ;;
  let a1 := Z.shiftr s D in
  h <- shl32 a1 D ;;
  a0 <- ck32 (a - h) ;;
  Ret (a1, a0).

(** rounding.c L39-49; returns (a1, a0) *)
Definition decompose (a : Z) : outcome (Z * Z) :=
  s <- ck32 (a + 127) ;;
  let a1 := Z.shiftr s 7 in
  p <- ck32 (a1 * 11275) ;;
  s <- ck32 (p + Z.shiftl 1 23) ;;
  let a1 := Z.shiftr s 24 in
  d <- ck32 (43 - a1) ;;
  let a1 := Z.lxor a1 (Z.land (Z.shiftr d 31) a1) in
  p <- ck32 (a1 * 2) ;;
  p <- ck32 (p * GAMMA2) ;;
  a0 <- ck32 (a - p) ;;
  d <- ck32 ((Q - 1) / 2 - a0) ;;
  a0 <- ck32 (a0 - Z.land (Z.shiftr d 31) Q) ;;
  Ret (a1, a0).

(** rounding.c L62-68 *)
Definition make_hint (a0 a1 : Z) : Z :=
  if (GAMMA2 <? a0) || (a0 <? - GAMMA2) || ((a0 =? - GAMMA2) && negb (a1 =? 0)) then 1 else 0.

(** rounding.c L80-98 *)
Definition use_hint (a hint : Z) : outcome Z :=
  '(a1, a0) <- decompose a ;;
  if hint =? 0 then Ret a1
  else if 0 <? a0 then (if a1 =? 43 then Ret 0 else Ret (a1 + 1))
  else if a1 =? 0 then Ret 43 else Ret (a1 - 1).

(** ** Pure counterparts: what the functions return on their domains *)
Definition mont (a : Z) : Z :=
  (a - ((u64 a * QINV + 2 ^ 31) mod 2 ^ 32 - 2 ^ 31) * Q) / 2 ^ 32.
Definition red32 (a : Z) : Z := a - (a + 2 ^ 22) / 2 ^ 23 * Q.
Definition cadd (a : Z) : Z := if a <? 0 then a + Q else a.
Definition p2r1 (a : Z) : Z := (a + 4095) / 8192.
Definition p2r0 (a : Z) : Z := a - p2r1 a * 8192.
Definition dec1 (a : Z) : Z :=
  let t := ((a + 127) / 128 * 11275 + 2 ^ 23) / 2 ^ 24 in if 43 <? t then 0 else t.
Definition dec0 (a : Z) : Z :=
  let t := a - dec1 a * 2 * GAMMA2 in if (Q - 1) / 2 <? t then t - Q else t.
Definition uhint (a h : Z) : Z :=
  if h =? 0 then dec1 a
  else if 0 <? dec0 a then (if dec1 a =? 43 then 0 else dec1 a + 1)
  else if dec1 a =? 0 then 43 else dec1 a - 1.
