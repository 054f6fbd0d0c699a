(** dilithium2/*.c, key generation and signing, as instrumented programs (CtBase.v).  The structure
    follows DilReduce.v, DilNtt.v, DilPoly.v, DilVec.v and DilBuf.v, function by function;
    [CtDilProofs.v] shows that the programs compute what those models compute.

    Coefficients, bytes, the number of hints and the sign bits are data.  Loop counters, the number
    of coefficients sampled so far, stream positions, the nonce and the position in the hint area are
    integers; they change only as recorded branches direct.

    Simplification: loops that treat all coefficients alike ([lmap], [lmap2], [lgroup], [lvec], [lvec2] below) record
    the inputs of one step before its outputs; inside a step the C text reads and writes the same
    elements in a fixed order. *)
From Verif Require Import Base Sponge SpongePure Tab DilReduce DilNtt CtBase CtTweet CtKeccak CtSpx.
Local Open Scope Z_scope.

Section Prog.
Context {V : Type} (O : ops V).
(** what the uninitialised local arrays of [n] elements contain *)
Variable loc : Z -> list V.
Notation "# c" := (cst O c) (at level 1, format "# c").
Notation "x +! y" := (bi O Add x y) (at level 50, left associativity).
Notation "x -! y" := (bi O Sub x y) (at level 50, left associativity).
Notation "x *! y" := (bi O Mul x y) (at level 40, left associativity).
Notation "x &! y" := (bi O And x y) (at level 40, left associativity).
Notation "x |! y" := (bi O Or x y) (at level 50, left associativity).
Notation "x ^! y" := (bi O Xor x y) (at level 45, left associativity).
Notation "x >>! c" := (un O (Shr c) x) (at level 38, left associativity).
Notation "x <<! c" := (un O (Shl c) x) (at level 38, left associativity).
Notation wrap n x := (un O (Wrap n) x).
Notation swrap n x := (un O (SWrap n) x).
Notation rd := (lrd O).
Notation wr := lwr.
Notation arr := (list V).
Notation vec := (list (list V)).

(** [if (x < y)], [if (x >= y)], [if (x > y)] *)
Definition lless (x y : V) : L bool := ([EBr (reveal O x <? reveal O y)], reveal O x <? reveal O y).
Definition lgeq (x y : V) : L bool := ([EBr (reveal O y <=? reveal O x)], reveal O y <=? reveal O x).
(** [a && b] on public conditions: the second is tested if the first holds *)
Definition land2 (a b : bool) : L bool := (EBr a :: (if a then [EBr b] else []), a && b).
Definition tick (l : list event) : L unit := (l, tt).

(** The trace of a loop of [n] steps, step [i] of which touches [ev i] *)
Definition steps (n : Z) (ev : Z -> list event) : list event := trace (lfor n (fun i u => (ev i, u)) tt).
(** for (i = 0; i < N; ++i) b[i] = f(a[i]) *)
Definition lmap {B} (f : V -> B) (a : arr) : L (list B) := (steps 256 (fun i => [ERd i; EWr i]), map f a).
(** for (i = 0; i < N; ++i) c[i] = f(a[i], b[i]) *)
Definition lmap2 {B} (f : V -> V -> B) (a b : arr) : L (list B) := (steps 256 (fun i => [ERd i; ERd i; EWr i]), map2 f a b).
(** a loop of [n] steps, each from [gi] elements to [go] elements *)
Definition lgroup (n gi go : Z) (f : arr -> arr) (a : arr) : L arr :=
  (steps n (fun i => map ERd (zseq (gi * i) (Z.to_nat gi)) ++ map EWr (zseq (go * i) (Z.to_nat go))), f a).
(** for (i = 0; i < 4; ++i) w[i] = f(v[i]), the loops over the components of a vector *)
Definition lvec {A B} (d : A) (f : A -> L B) (v : list A) : L (list B) :=
  (steps 4 (fun i => trace (f (nth (Z.to_nat i) v d))), map (fun p => value (f p)) v).
Definition lvec2 {B} (f : arr -> arr -> L B) (u v : vec) : L (list B) :=
  (steps 4 (fun i => trace (f (nth (Z.to_nat i) u []) (nth (Z.to_nat i) v []))), map2 (fun p q => value (f p q)) u v).

(** ** reduce.c L15-21, L33-39, L50-53; rounding.c L17-23, L39-49: straight-line arithmetic *)
Definition mont_l (a : V) : V :=
  let t := swrap 32 (wrap 64 (wrap 64 a *! #QINV)) in swrap 32 ((a -! t *! #Q) >>! 32).
Definition reduce32_l (a : V) : V := let t := (a +! #(Z.shiftl 1 22)) >>! 23 in a -! t *! #Q.
Definition caddq_l (a : V) : V := a +! ((a >>! 31) &! #Q).
Definition power2round_l (a : V) : V * V :=
  let a1 := ((a +! #(Z.shiftl 1 (D - 1))) -! #1) >>! D in (a1, a -! (a1 <<! D)).
Definition decompose_l (a : V) : V * V :=
  let a1 := (a +! #127) >>! 7 in
  let a1 := (a1 *! #11275 +! #(Z.shiftl 1 23)) >>! 24 in
  let a1 := a1 ^! (((#43 -! a1) >>! 31) &! a1) in
  let a0 := a -! a1 *! #2 *! #GAMMA2 in
  (a1, a0 -! (((#((Q - 1) / 2) -! a0) >>! 31) &! #Q)).
(** rounding.c L62-68: the three tests in turn *)
Definition make_hint_l (a0 a1 : V) : L V :=
  b <~ lless #GAMMA2 a0 ;;; if b : bool then lret #1 else
  b <~ lless a0 #(- GAMMA2) ;;; if b : bool then lret #1 else
  b <~ lcmp O a0 #(- GAMMA2) ;;; if negb b then lret #0 else
  b <~ lcmp O a1 #0 ;;; if b : bool then lret #0 else lret #1.

(** ** ntt.c *)
Definition butterfly_l (zeta : V) (len j : Z) (a : arr) : L arr :=
  hi <~ rd a (j + len) ;;;
  let t := mont_l (zeta *! hi) in
  lo <~ rd a j ;;;
  a <~ wr a (j + len) (lo -! t) ;;;
  lo <~ rd a j ;;;
  wr a j (lo +! t).
Definition ntt_layer_l (len : Z) (st : arr * Z) : L (arr * Z) :=
  lfor (128 / len) (fun b '(a, k) =>
    let start := 2 * len * b in
    let k := k + 1 in
    zeta <~ rd (karr O zetas) k ;;;
    a <~ lfor len (fun m a => butterfly_l zeta len (start + m) a) a ;;;
    lret (a, k)) st.
Definition poly_ntt_l (a : arr) : L arr :=
  st <~ ntt_layer_l 128 (a, 0) ;;; st <~ ntt_layer_l 64 st ;;; st <~ ntt_layer_l 32 st ;;; st <~ ntt_layer_l 16 st ;;;
  st <~ ntt_layer_l 8 st ;;; st <~ ntt_layer_l 4 st ;;; st <~ ntt_layer_l 2 st ;;; st <~ ntt_layer_l 1 st ;;;
  lret (fst st).
Definition inv_butterfly_l (zeta : V) (len j : Z) (a : arr) : L arr :=
  t <~ rd a j ;;;
  hi <~ rd a (j + len) ;;;
  a <~ wr a j (t +! hi) ;;;
  hi <~ rd a (j + len) ;;;
  a <~ wr a (j + len) (t -! hi) ;;;
  hi <~ rd a (j + len) ;;;
  wr a (j + len) (mont_l (zeta *! hi)).
Definition invntt_layer_l (len : Z) (st : arr * Z) : L (arr * Z) :=
  lfor (128 / len) (fun b '(a, k) =>
    let start := 2 * len * b in
    let k := k - 1 in
    z <~ rd (karr O zetas) k ;;;
    let zeta := un O Neg z in
    a <~ lfor len (fun m a => inv_butterfly_l zeta len (start + m) a) a ;;;
    lret (a, k)) st.
Definition poly_invntt_l (a : arr) : L arr :=
  st <~ invntt_layer_l 1 (a, 256) ;;; st <~ invntt_layer_l 2 st ;;; st <~ invntt_layer_l 4 st ;;; st <~ invntt_layer_l 8 st ;;;
  st <~ invntt_layer_l 16 st ;;; st <~ invntt_layer_l 32 st ;;; st <~ invntt_layer_l 64 st ;;; st <~ invntt_layer_l 128 st ;;;
  lfor 256 (fun j a => x <~ rd a j ;;; wr a j (mont_l (#41978 *! x))) (fst st).

(** ** poly.c: arithmetic, L20-28, L39-47, L59-67, L81-89, L155-163, L178-186, L202-210 *)
Definition poly_reduce_l := lmap reduce32_l.
Definition poly_caddq_l := lmap caddq_l.
Definition poly_add_l := lmap2 (fun x y => x +! y).
Definition poly_sub_l := lmap2 (fun x y => x -! y).
Definition poly_pointwise_l := lmap2 (fun x y => mont_l (x *! y)).
Definition poly_power2round_l (a : arr) : L (arr * arr) := r <~ lmap power2round_l a ;;; lret (map fst r, map snd r).
Definition poly_decompose_l (a : arr) : L (arr * arr) := r <~ lmap decompose_l a ;;; lret (map fst r, map snd r).
(** L226-236 *)
Fixpoint make_hints_l (i : Z) (a0 a1 : arr) : L arr :=
  match a0, a1 with
  | x :: a0, y :: a1 =>
      _ <~ tick [EBr true; ERd i; ERd i] ;;;
      h <~ make_hint_l x y ;;;
      _ <~ tick [EWr i; ERd i] ;;;
      r <~ make_hints_l (i + 1) a0 a1 ;;;
      lret (h :: r)
  | _, _ => ([EBr false], [])
  end.
Definition poly_make_hint_l (a0 a1 : arr) : L (arr * V) :=
  h <~ make_hints_l 0 a0 a1 ;;; lret (h, fold_left (fun s x => wrap 32 (s +! x)) h #0).
(** L270-295; true: a coefficient is too large *)
Fixpoint chknorm_l (i : Z) (a : arr) (B : Z) : L bool :=
  match a with
  | [] => ([EBr false], false)
  | x :: a =>
      _ <~ tick [EBr true; ERd i; ERd i; ERd i] ;;;
      let t := x >>! 31 in
      let t := x -! (t &! (#2 *! x)) in
      b <~ lgeq t #B ;;;
      if b : bool then lret true else chknorm_l (i + 1) a B
  end.
Definition poly_chknorm_l (a : arr) (B : Z) : L bool := lif ((Q - 1) / 8 <? B) (lret true) (chknorm_l 0 a B).

(** ** symmetric-shake.c L6-26 *)
Definition stream_init_l (r : Z) (seed : arr) (seedlen nonce : Z) : L inc_l :=
  _ <~ tick [EWr 0; EWr 1] ;;;
  s <~ linit O 25 ;;;
  c <~ inc_absorb_l O (s, 0) r seed seedlen ;;;
  c <~ inc_absorb_l O c r [#(u8 nonce); #(u8 (Z.shiftr nonce 8))] 2 ;;;
  inc_finalize_l O c r 0x1F.
(** ** poly.c L311-333 *)
Fixpoint rej_uniform_l (fuel : nat) (a : arr) (aoff len : Z) (buf : arr) (buflen ctr pos : Z) : L (arr * Z) :=
  go <~ land2 (ctr <? len) (u32 (pos + 3) <=? buflen) ;;;
  if go : bool then
    match fuel with
    | Datatypes.O => lret (a, ctr)
    | S fuel =>
        b0 <~ rd buf pos ;;;
        b1 <~ rd buf (pos + 1) ;;;
        b2 <~ rd buf (pos + 2) ;;;
        let t := ((b0 |! (b1 <<! 8)) |! (b2 <<! 16)) &! #0x7FFFFF in
        ok <~ lless t #Q ;;;
        if ok : bool
        then a <~ wr a (aoff + ctr) t ;;; rej_uniform_l fuel a aoff len buf buflen (ctr + 1) (pos + 3)
        else rej_uniform_l fuel a aoff len buf buflen ctr (pos + 3)
    end
  else lret (a, ctr).
(** L359-369 and L347-371; None: the fuel did not suffice *)
Fixpoint poly_uniform_while_l (fuel : nat) (a : arr) (ctr : Z) (buf : arr) (buflen : Z) (st : inc_l) : L (option arr) :=
  if ctr <? 256 then
    _ <~ tick [EBr true] ;;;
    match fuel with
    | Datatypes.O => lret None
    | S fuel =>
        let off := buflen mod 3 in
        buf <~ lfor off (fun i buf => b <~ rd buf (buflen - off + i) ;;; wr buf i b) buf ;;;
        '(buf, st) <~ inc_squeeze_l O buf off 168 st SHAKE128_RATE ;;;
        let buflen := 168 + off in
        '(a, n) <~ rej_uniform_l (Z.to_nat buflen) a ctr (256 - ctr) buf buflen 0 0 ;;;
        poly_uniform_while_l fuel a (ctr + n) buf buflen st
    end
  else ([EBr false], Some a).
Definition poly_uniform_l (fuel : nat) (seed : arr) (nonce : Z) : L (option arr) :=
  st <~ stream_init_l SHAKE128_RATE seed 32 nonce ;;;
  '(buf, st) <~ inc_squeeze_l O (loc 842) 0 840 st SHAKE128_RATE ;;;
  '(a, ctr) <~ rej_uniform_l (Z.to_nat 840) (loc 256) 0 256 buf 840 0 0 ;;;
  poly_uniform_while_l fuel a ctr buf 840 st.
(** L387-412; the arithmetic of L399-401 *)
Definition eta_coeff_l (t : V) : V := swrap 32 (wrap 32 (#2 -! wrap 32 (t -! ((#205 *! t) >>! 10) *! #5))).
Fixpoint rej_eta_l (fuel : nat) (a : arr) (aoff len : Z) (buf : arr) (buflen ctr pos : Z) : L (arr * Z) :=
  go <~ land2 (ctr <? len) (pos <? buflen) ;;;
  if go : bool then
    match fuel with
    | Datatypes.O => lret (a, ctr)
    | S fuel =>
        b <~ rd buf pos ;;;
        let t0 := b &! #0x0F in
        let t1 := b >>! 4 in
        ok <~ lless t0 #15 ;;;
        '(a, ctr) <~ (if ok : bool then a <~ wr a (aoff + ctr) (eta_coeff_l t0) ;;; lret (a, ctr + 1) else lret (a, ctr)) ;;;
        ok <~ lless t1 #15 ;;;
        ok <~ (if ok : bool then ([EBr (ctr <? len)], ctr <? len) else lret false) ;;;
        '(a, ctr) <~ (if ok : bool then a <~ wr a (aoff + ctr) (eta_coeff_l t1) ;;; lret (a, ctr + 1) else lret (a, ctr)) ;;;
        rej_eta_l fuel a aoff len buf buflen ctr (pos + 1)
    end
  else lret (a, ctr).
(** L439-442 and L426-444 *)
Fixpoint poly_eta_while_l (fuel : nat) (a : arr) (ctr : Z) (buf : arr) (st : inc_l) : L (option arr) :=
  if ctr <? 256 then
    _ <~ tick [EBr true] ;;;
    match fuel with
    | Datatypes.O => lret None
    | S fuel =>
        '(buf, st) <~ inc_squeeze_l O buf 0 136 st SHAKE256_RATE ;;;
        '(a, n) <~ rej_eta_l (Z.to_nat 136) a ctr (256 - ctr) buf 136 0 0 ;;;
        poly_eta_while_l fuel a (ctr + n) buf st
    end
  else ([EBr false], Some a).
Definition poly_eta_l (fuel : nat) (seed : arr) (nonce : Z) : L (option arr) :=
  st <~ stream_init_l SHAKE256_RATE seed 64 nonce ;;;
  '(buf, st) <~ inc_squeeze_l O (loc 136) 0 136 st SHAKE256_RATE ;;;
  '(a, ctr) <~ rej_eta_l (Z.to_nat 136) (loc 256) 0 256 buf 136 0 0 ;;;
  poly_eta_while_l fuel a ctr buf st.

(** ** poly.c: encodings, one recursive call per group *)
Fixpoint eta_pack_l (a : arr) : arr :=
  match a with
  | a0 :: a1 :: a2 :: a3 :: a4 :: a5 :: a6 :: a7 :: rest =>
      let t0 := wrap 8 (#ETA -! a0) in let t1 := wrap 8 (#ETA -! a1) in let t2 := wrap 8 (#ETA -! a2) in let t3 := wrap 8 (#ETA -! a3) in
      let t4 := wrap 8 (#ETA -! a4) in let t5 := wrap 8 (#ETA -! a5) in let t6 := wrap 8 (#ETA -! a6) in let t7 := wrap 8 (#ETA -! a7) in
      wrap 8 ((t0 |! (t1 <<! 3)) |! (t2 <<! 6)) ::
      wrap 8 ((((t2 >>! 2) |! (t3 <<! 1)) |! (t4 <<! 4)) |! (t5 <<! 7)) ::
      wrap 8 (((t5 >>! 1) |! (t6 <<! 2)) |! (t7 <<! 5)) :: eta_pack_l rest
  | _ => []
  end.
Fixpoint eta_unpack_l (a : arr) : arr :=
  match a with
  | a0 :: a1 :: a2 :: rest =>
      (#ETA -! (a0 &! #7)) ::
      (#ETA -! ((a0 >>! 3) &! #7)) ::
      (#ETA -! (((a0 >>! 6) |! (a1 <<! 2)) &! #7)) ::
      (#ETA -! ((a1 >>! 1) &! #7)) ::
      (#ETA -! ((a1 >>! 4) &! #7)) ::
      (#ETA -! (((a1 >>! 7) |! (a2 <<! 1)) &! #7)) ::
      (#ETA -! ((a2 >>! 2) &! #7)) ::
      (#ETA -! ((a2 >>! 5) &! #7)) :: eta_unpack_l rest
  | _ => []
  end.
Fixpoint t1_pack_l (a : arr) : arr :=
  match a with
  | a0 :: a1 :: a2 :: a3 :: rest =>
      wrap 8 a0 :: wrap 8 ((a0 >>! 8) |! (a1 <<! 2)) :: wrap 8 ((a1 >>! 6) |! (a2 <<! 4)) ::
      wrap 8 ((a2 >>! 4) |! (a3 <<! 6)) :: wrap 8 (a3 >>! 2) :: t1_pack_l rest
  | _ => []
  end.
Fixpoint t0_pack_l (a : arr) : arr :=
  match a with
  | a0 :: a1 :: a2 :: a3 :: a4 :: a5 :: a6 :: a7 :: rest =>
      let t0 := wrap 32 (#4096 -! a0) in let t1 := wrap 32 (#4096 -! a1) in let t2 := wrap 32 (#4096 -! a2) in let t3 := wrap 32 (#4096 -! a3) in
      let t4 := wrap 32 (#4096 -! a4) in let t5 := wrap 32 (#4096 -! a5) in let t6 := wrap 32 (#4096 -! a6) in let t7 := wrap 32 (#4096 -! a7) in
      wrap 8 t0 ::
      (wrap 8 (t0 >>! 8) |! wrap 8 (t1 <<! 5)) ::
      wrap 8 (t1 >>! 3) ::
      (wrap 8 (t1 >>! 11) |! wrap 8 (t2 <<! 2)) ::
      (wrap 8 (t2 >>! 6) |! wrap 8 (t3 <<! 7)) ::
      wrap 8 (t3 >>! 1) ::
      (wrap 8 (t3 >>! 9) |! wrap 8 (t4 <<! 4)) ::
      wrap 8 (t4 >>! 4) ::
      (wrap 8 (t4 >>! 12) |! wrap 8 (t5 <<! 1)) ::
      (wrap 8 (t5 >>! 7) |! wrap 8 (t6 <<! 6)) ::
      wrap 8 (t6 >>! 2) ::
      (wrap 8 (t6 >>! 10) |! wrap 8 (t7 <<! 3)) ::
      wrap 8 (t7 >>! 5) :: t0_pack_l rest
  | _ => []
  end.
Fixpoint t0_unpack_l (a : arr) : arr :=
  match a with
  | a0 :: a1 :: a2 :: a3 :: a4 :: a5 :: a6 :: a7 :: a8 :: a9 :: a10 :: a11 :: a12 :: rest =>
      (#4096 -! ((a0 |! (a1 <<! 8)) &! #0x1FFF)) ::
      (#4096 -! ((((a1 >>! 5) |! (a2 <<! 3)) |! (a3 <<! 11)) &! #0x1FFF)) ::
      (#4096 -! (((a3 >>! 2) |! (a4 <<! 6)) &! #0x1FFF)) ::
      (#4096 -! ((((a4 >>! 7) |! (a5 <<! 1)) |! (a6 <<! 9)) &! #0x1FFF)) ::
      (#4096 -! ((((a6 >>! 4) |! (a7 <<! 4)) |! (a8 <<! 12)) &! #0x1FFF)) ::
      (#4096 -! (((a8 >>! 1) |! (a9 <<! 7)) &! #0x1FFF)) ::
      (#4096 -! ((((a9 >>! 6) |! (a10 <<! 2)) |! (a11 <<! 10)) &! #0x1FFF)) ::
      (#4096 -! (((a11 >>! 3) |! (a12 <<! 5)) &! #0x1FFF)) :: t0_unpack_l rest
  | _ => []
  end.
Fixpoint z_pack_l (a : arr) : arr :=
  match a with
  | a0 :: a1 :: a2 :: a3 :: rest =>
      let t0 := wrap 32 (#GAMMA1 -! a0) in let t1 := wrap 32 (#GAMMA1 -! a1) in let t2 := wrap 32 (#GAMMA1 -! a2) in let t3 := wrap 32 (#GAMMA1 -! a3) in
      wrap 8 t0 :: wrap 8 (t0 >>! 8) ::
      (wrap 8 (t0 >>! 16) |! wrap 8 (t1 <<! 2)) ::
      wrap 8 (t1 >>! 6) ::
      (wrap 8 (t1 >>! 14) |! wrap 8 (t2 <<! 4)) ::
      wrap 8 (t2 >>! 4) ::
      (wrap 8 (t2 >>! 12) |! wrap 8 (t3 <<! 6)) ::
      wrap 8 (t3 >>! 2) :: wrap 8 (t3 >>! 10) :: z_pack_l rest
  | _ => []
  end.
Fixpoint z_unpack_l (a : arr) : arr :=
  match a with
  | a0 :: a1 :: a2 :: a3 :: a4 :: a5 :: a6 :: a7 :: a8 :: rest =>
      (#GAMMA1 -! (((a0 |! (a1 <<! 8)) |! (a2 <<! 16)) &! #0x3FFFF)) ::
      (#GAMMA1 -! ((((a2 >>! 2) |! (a3 <<! 6)) |! (a4 <<! 14)) &! #0x3FFFF)) ::
      (#GAMMA1 -! ((((a4 >>! 4) |! (a5 <<! 4)) |! (a6 <<! 12)) &! #0x3FFFF)) ::
      (#GAMMA1 -! ((((a6 >>! 6) |! (a7 <<! 2)) |! (a8 <<! 10)) &! #0x3FFFF)) :: z_unpack_l rest
  | _ => []
  end.
Fixpoint w1_pack_l (a : arr) : arr :=
  match a with
  | a0 :: a1 :: a2 :: a3 :: rest =>
      (wrap 8 a0 |! wrap 8 (a1 <<! 6)) :: (wrap 8 (a1 >>! 2) |! wrap 8 (a2 <<! 4)) :: (wrap 8 (a2 >>! 4) |! wrap 8 (a3 <<! 2)) :: w1_pack_l rest
  | _ => []
  end.
(** L526-549, L557-585, L594-607, L641-680, L689-744, L753-780, L790-823, L834-848 *)
Definition polyeta_pack_l := lgroup 32 8 3 eta_pack_l.
Definition polyeta_unpack_l := lgroup 32 3 8 eta_unpack_l.
Definition polyt1_pack_l := lgroup 64 4 5 t1_pack_l.
Definition polyt0_pack_l := lgroup 32 8 13 t0_pack_l.
Definition polyt0_unpack_l := lgroup 32 13 8 t0_unpack_l.
Definition polyz_pack_l := lgroup 64 4 9 z_pack_l.
Definition polyz_unpack_l := lgroup 64 9 4 z_unpack_l.
Definition polyw1_pack_l := lgroup 64 4 3 w1_pack_l.
(** poly.c L458-468 *)
Definition poly_gamma1_l (seed : arr) (nonce : Z) : L arr :=
  st <~ stream_init_l SHAKE256_RATE seed 64 nonce ;;;
  '(buf, st) <~ inc_squeeze_l O (loc 680) 0 680 st SHAKE256_RATE ;;;
  polyz_unpack_l (lptr buf 0 576).

(** ** poly.c L497-507: do { ... } while (b > i); then L509-510 index by b *)
Fixpoint chal_next_l (fuel : nat) (i : Z) (buf : arr) (pos : Z) (st : inc_l) : L (option (V * (arr * Z * inc_l))) :=
  match fuel with
  | Datatypes.O => lret None
  | S fuel =>
      '(buf, pos, st) <~ lif (136 <=? pos) ('(buf, st) <~ inc_squeeze_l O buf 0 136 st SHAKE256_RATE ;;; lret (buf, 0, st))
                          (lret (buf, pos, st)) ;;;
      b <~ rd buf pos ;;;
      gt <~ lless #i b ;;;
      if gt : bool then chal_next_l fuel i buf (pos + 1) st else lret (Some (b, (buf, pos + 1, st)))
  end.
Fixpoint chal_loop_l (fuel n : nat) (i : Z) (c : arr) (signs : V) (buf : arr) (pos : Z) (st : inc_l) : L (option arr) :=
  match n with
  | Datatypes.O => ([EBr false], Some c)
  | S n =>
      _ <~ tick [EBr true] ;;;
      r <~ chal_next_l fuel i buf pos st ;;;
      match r with
      | None => lret None
      | Some (b, (buf, pos, st)) =>
          v <~ lrd_at O c b ;;;
          c <~ wr c i v ;;;
          c <~ lwr_at O c b (swrap 32 (wrap 64 (#1 -! #2 *! (signs &! #1)))) ;;;
          chal_loop_l fuel n (i + 1) c (signs >>! 1) buf pos st
      end
  end.
(** L480-515 *)
Definition poly_challenge_l (fuel : nat) (seed : arr) : L (option arr) :=
  s <~ linit O 25 ;;;
  st <~ inc_absorb_l O (s, 0) SHAKE256_RATE seed 32 ;;;
  st <~ inc_finalize_l O st SHAKE256_RATE 0x1F ;;;
  '(buf, st) <~ inc_squeeze_l O (loc 136) 0 136 st SHAKE256_RATE ;;;
  signs <~ lfor 8 (fun i s => b <~ rd buf i ;;; lret (s |! wrap 64 (b <<! (8 * i)))) #0 ;;;
  c <~ lfor 256 (fun i c => wr c i #0) (loc 256) ;;;
  chal_loop_l fuel 39 217 c signs buf 8 st.

(** ** polyvec.c *)
Fixpoint lvecO {A B} (f : A -> L (option B)) (l : list A) : L (option (list B)) :=
  match l with
  | [] => ([EBr false], Some [])
  | x :: l =>
      _ <~ tick [EBr true] ;;;
      y <~ f x ;;;
      match y with
      | None => lret None
      | Some y => r <~ lvecO f l ;;; lret (match r with None => None | Some r => Some (y :: r) end)
      end
  end.
(** L16-24, L38-44 and L164-170, L46-52 *)
Definition matrix_expand_l (fuel : nat) (rho : arr) : L (option (list vec)) :=
  lvecO (fun i => lvecO (fun j => poly_uniform_l fuel rho (u16 (Z.shiftl i 8 + j))) [0; 1; 2; 3]) [0; 1; 2; 3].
Definition vec_eta_l (fuel : nat) (seed : arr) (nonce : Z) : L (option vec) :=
  lvecO (fun i => poly_eta_l fuel seed (u16 (nonce + i))) [0; 1; 2; 3].
Definition vec_gamma1_l (seed : arr) (nonce : Z) : L vec :=
  lvec 0 (fun i => poly_gamma1_l seed (u16 (4 * nonce + i))) [0; 1; 2; 3].
(** L54-60, L196-202, L72-78, L233-239, L88-94, L96-102, L104-110 *)
Definition vec_reduce_l : vec -> L vec := lvec [] poly_reduce_l.
Definition vec_caddq_l : vec -> L vec := lvec [] poly_caddq_l.
Definition vec_add_l : vec -> vec -> L vec := lvec2 poly_add_l.
Definition vec_sub_l : vec -> vec -> L vec := lvec2 poly_sub_l.
Definition vec_ntt_l : vec -> L vec := lvec [] poly_ntt_l.
Definition vec_invntt_l : vec -> L vec := lvec [] poly_invntt_l.
Definition vec_pointwise_poly_l (a : arr) : vec -> L vec := lvec [] (poly_pointwise_l a).
(** L123-134: w = u0*v0; for (i = 1; i < 4; ++i) { t = ui*vi; w += t; } *)
Fixpoint acc_value (w : arr) (u v : vec) : arr :=
  match u, v with
  | a :: u, b :: v => acc_value (value (poly_add_l w (value (poly_pointwise_l a b)))) u v
  | _, _ => w
  end.
Definition vec_pointwise_acc_l (u v : vec) : L arr :=
  (trace (poly_pointwise_l [] []) ++ steps 3 (fun i => trace (poly_pointwise_l [] []) ++ trace (poly_add_l [] [])),
   acc_value (value (poly_pointwise_l (nth 0 u []) (nth 0 v []))) (tl u) (tl v)).
(** L26-32 *)
Definition matrix_pointwise_l (mat : list vec) (v : vec) : L vec := lvec [] (fun row => vec_pointwise_acc_l row v) mat.
(** L148-158 *)
Fixpoint vec_chknorm_l (v : vec) (B : Z) : L bool :=
  match v with
  | [] => ([EBr false], false)
  | p :: v => _ <~ tick [EBr true] ;;; b <~ poly_chknorm_l p B ;;; lif b (lret true) (vec_chknorm_l v B)
  end.
(** L336-342, L359-365, L378-390, L408-414 *)
Definition vec_power2round_l (v : vec) : L (vec * vec) := r <~ lvec [] poly_power2round_l v ;;; lret (map fst r, map snd r).
Definition vec_decompose_l (v : vec) : L (vec * vec) := r <~ lvec [] poly_decompose_l v ;;; lret (map fst r, map snd r).
Definition vec_make_hint_l (v0 v1 : vec) : L (vec * V) :=
  r <~ lvec2 poly_make_hint_l v0 v1 ;;; lret (map fst r, fold_left (fun s x => wrap 32 (s +! x)) (map snd r) #0).
Definition vec_pack_w1_l (v : vec) : L arr := r <~ lvec [] polyw1_pack_l v ;;; lret (concat r).

(** ** packing.c *)
(** a loop that copies [n] bytes *)
Definition lmove (n : Z) : L unit := tick (steps n (fun i => [ERd i; EWr i])).
Definition blocks_l (b : arr) (off len : Z) : list arr := map (fun i => lptr b (off + i * len) len) [0; 1; 2; 3].
(** L15-28, L67-104, L119-156 *)
Definition pack_pk_l (rho : arr) (t1 : vec) : L arr :=
  _ <~ lmove 32 ;;; r <~ lvec [] polyt1_pack_l t1 ;;; lret (rho ++ concat r).
Definition pack_sk_l (rho tr key : arr) (t0 s1 s2 : vec) : L arr :=
  _ <~ lmove 32 ;;; _ <~ lmove 32 ;;; _ <~ lmove 64 ;;;
  a <~ lvec [] polyeta_pack_l s1 ;;; b <~ lvec [] polyeta_pack_l s2 ;;; c <~ lvec [] polyt0_pack_l t0 ;;;
  lret (rho ++ key ++ tr ++ concat a ++ concat b ++ concat c).
Definition unpack_sk_l (sk : arr) : L (arr * arr * arr * vec * vec * vec) :=
  _ <~ lmove 32 ;;; _ <~ lmove 32 ;;; _ <~ lmove 64 ;;;
  s1 <~ lvec [] polyeta_unpack_l (blocks_l sk 128 96) ;;;
  s2 <~ lvec [] polyeta_unpack_l (blocks_l sk 512 96) ;;;
  t0 <~ lvec [] polyt0_unpack_l (blocks_l sk 896 416) ;;;
  lret (lptr sk 0 32, lptr sk 64 64, lptr sk 32 32, t0, s1, s2).
(** L184-198: [if (h[j] != 0)]; the position k in the hint area is an integer *)
Definition hint_pack_poly_l (h : arr) (st : arr * Z) : L (arr * Z) :=
  lfor 256 (fun j '(hb, k) =>
    c <~ rd h j ;;;
    z <~ lcmp O c #0 ;;;
    if z : bool then lret (hb, k) else hb <~ wr hb k #(u8 j) ;;; lret (hb, k + 1)) st.
Fixpoint hint_pack_loop_l (i : Z) (h : vec) (st : arr * Z) : L (arr * Z) :=
  match h with
  | [] => ([EBr false], st)
  | p :: h => _ <~ tick [EBr true] ;;; '(hb, k) <~ hint_pack_poly_l p st ;;; hb <~ wr hb (80 + i) #(u8 k) ;;; hint_pack_loop_l (i + 1) h (hb, k)
  end.
Definition hint_pack_l (h : vec) : L arr :=
  hb <~ linit O 84 ;;; '(hb, _) <~ hint_pack_loop_l 0 h (hb, 0) ;;; lret hb.
(** L168-199 *)
Definition pack_sig_l (c : arr) (z h : vec) : L arr :=
  _ <~ lmove 32 ;;; a <~ lvec [] polyz_pack_l z ;;; hb <~ hint_pack_l h ;;; lret (c ++ concat a ++ hb).

(** ** sign.c L23-68; [seedbuf], [tr]: local arrays.  Result: return value, pk, sk *)
Definition keypair_seed_l (fuel : nat) (pk sk seed : arr) : L (option (Z * arr * arr)) :=
  seedbuf <~ lfor 32 (fun i sb => b <~ rd seed i ;;; wr sb i b) (loc 128) ;;;
  seedbuf <~ shake256_at_l O seedbuf 0 128 seedbuf 0 32 ;;;
  let rho := lptr seedbuf 0 32 in
  let rhoprime := lptr seedbuf 32 64 in
  let key := lptr seedbuf 96 32 in
  mat <~ matrix_expand_l fuel rho ;;;
  match mat with None => lret None | Some mat =>
  s1 <~ vec_eta_l fuel rhoprime 0 ;;;
  match s1 with None => lret None | Some s1 =>
  s2 <~ vec_eta_l fuel rhoprime 4 ;;;
  match s2 with None => lret None | Some s2 =>
  s1hat <~ vec_ntt_l s1 ;;;
  t <~ matrix_pointwise_l mat s1hat ;;;
  t <~ vec_reduce_l t ;;;
  t <~ vec_invntt_l t ;;;
  t <~ vec_add_l t s2 ;;;
  t <~ vec_caddq_l t ;;;
  '(t1, t0) <~ vec_power2round_l t ;;;
  b <~ pack_pk_l rho t1 ;;;
  let pk := lput O pk 0 b 1312 in
  tr <~ shake256_at_l O (loc 64) 0 64 pk 0 1312 ;;;
  let tr := lptr tr 0 64 in
  b <~ pack_sk_l rho tr key t0 s1 s2 ;;;
  let sk := lput O sk 0 b 2560 in
  lret (Some (0, pk, sk))
  end end end.

(** ** sign.c L148-205, one attempt, in the parts between its data-dependent branches *)
(** L150-170: mask, commitment, challenge seed (in the signature buffer) *)
Definition commit_l (mat : list vec) (mu rhoprime : arr) (nonce so : Z) (mem : arr) : L (vec * vec * vec * arr) :=
  y <~ vec_gamma1_l rhoprime nonce ;;;
  z <~ vec_ntt_l y ;;;
  w <~ matrix_pointwise_l mat z ;;;
  w <~ vec_reduce_l w ;;;
  w <~ vec_invntt_l w ;;;
  w <~ vec_caddq_l w ;;;
  '(w1, w0) <~ vec_decompose_l w ;;;
  b <~ vec_pack_w1_l w1 ;;;
  let mem := lput O mem so b 768 in
  mem <~ shake256_pieces_l O mem so 32 [mu; lptr mem so 768] ;;;
  lret (y, w1, w0, mem).
(** L174-178: z *)
Definition response_l (cp : arr) (s1 y : vec) : L vec :=
  z <~ vec_pointwise_poly_l cp s1 ;;;
  z <~ vec_invntt_l z ;;;
  z <~ vec_add_l z y ;;;
  vec_reduce_l z.
(** L183-188: w0 - c s2 *)
Definition lowpart_l (cp : arr) (s2 w0 : vec) : L vec :=
  h <~ vec_pointwise_poly_l cp s2 ;;;
  h <~ vec_invntt_l h ;;;
  w0 <~ vec_sub_l w0 h ;;;
  vec_reduce_l w0.
(** L192-196: c t0 *)
Definition hintpart_l (cp : arr) (t0 : vec) : L vec :=
  h <~ vec_pointwise_poly_l cp t0 ;;;
  h <~ vec_invntt_l h ;;;
  vec_reduce_l h.
Definition sign_attempt_l (fuel : nat) (mat : list vec) (s1 s2 t0 : vec) (mu rhoprime : arr) (nonce so : Z) (mem : arr)
  : L (option (bool * arr)) :=
  '(y, w1, w0, mem) <~ commit_l mat mu rhoprime nonce so mem ;;;
  cp <~ poly_challenge_l fuel (lptr mem so 32) ;;;
  match cp with None => lret None | Some cp =>
  cp <~ poly_ntt_l cp ;;;
  z <~ response_l cp s1 y ;;;
  r <~ vec_chknorm_l z (GAMMA1 - BETA) ;;;
  lif r (lret (Some (false, mem))) (
  w0 <~ lowpart_l cp s2 w0 ;;;
  r <~ vec_chknorm_l w0 (GAMMA2 - BETA) ;;;
  lif r (lret (Some (false, mem))) (
  h <~ hintpart_l cp t0 ;;;
  r <~ vec_chknorm_l h GAMMA2 ;;;
  lif r (lret (Some (false, mem))) (
  w0 <~ vec_add_l w0 h ;;;
  '(h, n) <~ vec_make_hint_l w0 w1 ;;;
  r <~ lless #OMEGA n ;;;
  if r : bool then lret (Some (false, mem)) else
  b <~ pack_sig_l (lptr mem so 32) z h ;;;
  lret (Some (true, lput O mem so b 2420)))))
  end.
Fixpoint rej_loop_l (att : Z -> arr -> L (option (bool * arr))) (fuel : nat) (nonce : Z) (mem : arr) : L (option arr) :=
  match fuel with
  | Datatypes.O => lret None
  | S fuel =>
      r <~ att nonce mem ;;;
      match r with
      | None => lret None
      | Some (done, mem) => if done : bool then lret (Some mem) else rej_loop_l att fuel (u16 (nonce + 1)) mem
      end
  end.
(** sign.c L108-211; [seedbuf]: local array.  Result: return value, memory, *siglen *)
Definition sign_signature_l (fuel : nat) (mem : arr) (so mo mlen : Z) (sk : arr) : L (option (Z * arr * Z)) :=
  '(rho, tr, key, t0, s1, s2) <~ unpack_sk_l (lptr sk 0 2560) ;;;
  let sb := lput O (loc 288) 0 rho 32 in
  let sb := lput O sb 96 key 32 in
  let sb := lput O sb 32 tr 64 in
  sb <~ shake256_pieces_l O sb 160 64 [lptr sb 32 64; lptr mem mo mlen] ;;;
  sb <~ lfor 32 (fun n sb => wr sb (128 + n) #0) sb ;;;
  sb <~ shake256_at_l O sb 224 64 sb 96 128 ;;;
  let rho := lptr sb 0 32 in
  let mu := lptr sb 160 64 in
  let rhoprime := lptr sb 224 64 in
  mat <~ matrix_expand_l fuel rho ;;;
  match mat with None => lret None | Some mat =>
  s1 <~ vec_ntt_l s1 ;;;
  s2 <~ vec_ntt_l s2 ;;;
  t0 <~ vec_ntt_l t0 ;;;
  r <~ rej_loop_l (fun nonce => sign_attempt_l fuel mat s1 s2 t0 mu rhoprime nonce so) fuel 0 mem ;;;
  match r with None => lret None | Some mem => lret (Some (0, mem, 2420)) end
  end.
(** sign.c L229-242 *)
Definition crypto_sign_l (fuel : nat) (mem : arr) (so mo mlen : Z) (sk : arr) : L (option (Z * arr * Z)) :=
  mem <~ lfor mlen (fun i mem => b <~ rd mem (mo + (mlen - 1 - i)) ;;; wr mem (so + (2420 + mlen - 1 - i)) b) mem ;;;
  r <~ sign_signature_l fuel mem so (so + 2420) mlen sk ;;;
  match r with None => lret None | Some (_, mem, smlen) => lret (Some (0, mem, u64 (smlen + mlen))) end.
End Prog.
