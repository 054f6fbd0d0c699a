(** common/fips202.c and common/shake_prng.c as instrumented programs (CtBase.v): the branches taken
    and the array elements touched by the Keccak permutation, the sponge, the SHAKE / SHA-3
    functions and the seed expander.  The structure follows Keccak.v, Sponge.v and ShakePrng.v;
    [CtKeccakProofs.v] shows that the programs compute what those models compute. *)
From Verif Require Import Base Keccak Sponge ShakePrng CtBase CtTweet.

(** L117-306: the straight-line body of the round loop (two rounds); the variables are locals *)
Definition round_gen {V} (xorl andl : V -> V -> V) (ROLl : V -> Z -> V) (notl : V -> V) (rc0 rc1 : V) (state : list V) : list V :=
  match state with
  | [Aba; Abe; Abi; Abo; Abu; Aga; Age; Agi; Ago; Agu; Aka; Ake; Aki; Ako; Aku; Ama; Ame; Ami; Amo; Amu; Asa; Ase; Asi; Aso; Asu] =>
    (* L117: prepareTheta *)
    let BCa := xorl (xorl (xorl (xorl Aba Aga) Aka) Ama) Asa in
    let BCe := xorl (xorl (xorl (xorl Abe Age) Ake) Ame) Ase in
    let BCi := xorl (xorl (xorl (xorl Abi Agi) Aki) Ami) Asi in
    let BCo := xorl (xorl (xorl (xorl Abo Ago) Ako) Amo) Aso in
    let BCu := xorl (xorl (xorl (xorl Abu Agu) Aku) Amu) Asu in
    (* L124: thetaRhoPiChiIotaPrepareTheta(round  , A, E) *)
    let Da := xorl BCu (ROLl BCe 1) in
    let De := xorl BCa (ROLl BCi 1) in
    let Di := xorl BCe (ROLl BCo 1) in
    let Do := xorl BCi (ROLl BCu 1) in
    let Du := xorl BCo (ROLl BCa 1) in
    let Aba := xorl Aba Da in
    let BCa := Aba in
    let Age := xorl Age De in
    let BCe := ROLl Age 44 in
    let Aki := xorl Aki Di in
    let BCi := ROLl Aki 43 in
    let Amo := xorl Amo Do in
    let BCo := ROLl Amo 21 in
    let Asu := xorl Asu Du in
    let BCu := ROLl Asu 14 in
    let Eba := xorl BCa (andl (notl BCe) BCi) in
    let Eba := xorl Eba rc0 in
    let Ebe := xorl BCe (andl (notl BCi) BCo) in
    let Ebi := xorl BCi (andl (notl BCo) BCu) in
    let Ebo := xorl BCo (andl (notl BCu) BCa) in
    let Ebu := xorl BCu (andl (notl BCa) BCe) in
    let Abo := xorl Abo Do in
    let BCa := ROLl Abo 28 in
    let Agu := xorl Agu Du in
    let BCe := ROLl Agu 20 in
    let Aka := xorl Aka Da in
    let BCi := ROLl Aka 3 in
    let Ame := xorl Ame De in
    let BCo := ROLl Ame 45 in
    let Asi := xorl Asi Di in
    let BCu := ROLl Asi 61 in
    let Ega := xorl BCa (andl (notl BCe) BCi) in
    let Ege := xorl BCe (andl (notl BCi) BCo) in
    let Egi := xorl BCi (andl (notl BCo) BCu) in
    let Ego := xorl BCo (andl (notl BCu) BCa) in
    let Egu := xorl BCu (andl (notl BCa) BCe) in
    let Abe := xorl Abe De in
    let BCa := ROLl Abe 1 in
    let Agi := xorl Agi Di in
    let BCe := ROLl Agi 6 in
    let Ako := xorl Ako Do in
    let BCi := ROLl Ako 25 in
    let Amu := xorl Amu Du in
    let BCo := ROLl Amu 8 in
    let Asa := xorl Asa Da in
    let BCu := ROLl Asa 18 in
    let Eka := xorl BCa (andl (notl BCe) BCi) in
    let Eke := xorl BCe (andl (notl BCi) BCo) in
    let Eki := xorl BCi (andl (notl BCo) BCu) in
    let Eko := xorl BCo (andl (notl BCu) BCa) in
    let Eku := xorl BCu (andl (notl BCa) BCe) in
    let Abu := xorl Abu Du in
    let BCa := ROLl Abu 27 in
    let Aga := xorl Aga Da in
    let BCe := ROLl Aga 36 in
    let Ake := xorl Ake De in
    let BCi := ROLl Ake 10 in
    let Ami := xorl Ami Di in
    let BCo := ROLl Ami 15 in
    let Aso := xorl Aso Do in
    let BCu := ROLl Aso 56 in
    let Ema := xorl BCa (andl (notl BCe) BCi) in
    let Eme := xorl BCe (andl (notl BCi) BCo) in
    let Emi := xorl BCi (andl (notl BCo) BCu) in
    let Emo := xorl BCo (andl (notl BCu) BCa) in
    let Emu := xorl BCu (andl (notl BCa) BCe) in
    let Abi := xorl Abi Di in
    let BCa := ROLl Abi 62 in
    let Ago := xorl Ago Do in
    let BCe := ROLl Ago 55 in
    let Aku := xorl Aku Du in
    let BCi := ROLl Aku 39 in
    let Ama := xorl Ama Da in
    let BCo := ROLl Ama 41 in
    let Ase := xorl Ase De in
    let BCu := ROLl Ase 2 in
    let Esa := xorl BCa (andl (notl BCe) BCi) in
    let Ese := xorl BCe (andl (notl BCi) BCo) in
    let Esi := xorl BCi (andl (notl BCo) BCu) in
    let Eso := xorl BCo (andl (notl BCu) BCa) in
    let Esu := xorl BCu (andl (notl BCa) BCe) in
    (* L212: prepareTheta *)
    let BCa := xorl (xorl (xorl (xorl Eba Ega) Eka) Ema) Esa in
    let BCe := xorl (xorl (xorl (xorl Ebe Ege) Eke) Eme) Ese in
    let BCi := xorl (xorl (xorl (xorl Ebi Egi) Eki) Emi) Esi in
    let BCo := xorl (xorl (xorl (xorl Ebo Ego) Eko) Emo) Eso in
    let BCu := xorl (xorl (xorl (xorl Ebu Egu) Eku) Emu) Esu in
    (* L219: thetaRhoPiChiIotaPrepareTheta(round+1, E, A) *)
    let Da := xorl BCu (ROLl BCe 1) in
    let De := xorl BCa (ROLl BCi 1) in
    let Di := xorl BCe (ROLl BCo 1) in
    let Do := xorl BCi (ROLl BCu 1) in
    let Du := xorl BCo (ROLl BCa 1) in
    let Eba := xorl Eba Da in
    let BCa := Eba in
    let Ege := xorl Ege De in
    let BCe := ROLl Ege 44 in
    let Eki := xorl Eki Di in
    let BCi := ROLl Eki 43 in
    let Emo := xorl Emo Do in
    let BCo := ROLl Emo 21 in
    let Esu := xorl Esu Du in
    let BCu := ROLl Esu 14 in
    let Aba := xorl BCa (andl (notl BCe) BCi) in
    let Aba := xorl Aba rc1 in
    let Abe := xorl BCe (andl (notl BCi) BCo) in
    let Abi := xorl BCi (andl (notl BCo) BCu) in
    let Abo := xorl BCo (andl (notl BCu) BCa) in
    let Abu := xorl BCu (andl (notl BCa) BCe) in
    let Ebo := xorl Ebo Do in
    let BCa := ROLl Ebo 28 in
    let Egu := xorl Egu Du in
    let BCe := ROLl Egu 20 in
    let Eka := xorl Eka Da in
    let BCi := ROLl Eka 3 in
    let Eme := xorl Eme De in
    let BCo := ROLl Eme 45 in
    let Esi := xorl Esi Di in
    let BCu := ROLl Esi 61 in
    let Aga := xorl BCa (andl (notl BCe) BCi) in
    let Age := xorl BCe (andl (notl BCi) BCo) in
    let Agi := xorl BCi (andl (notl BCo) BCu) in
    let Ago := xorl BCo (andl (notl BCu) BCa) in
    let Agu := xorl BCu (andl (notl BCa) BCe) in
    let Ebe := xorl Ebe De in
    let BCa := ROLl Ebe 1 in
    let Egi := xorl Egi Di in
    let BCe := ROLl Egi 6 in
    let Eko := xorl Eko Do in
    let BCi := ROLl Eko 25 in
    let Emu := xorl Emu Du in
    let BCo := ROLl Emu 8 in
    let Esa := xorl Esa Da in
    let BCu := ROLl Esa 18 in
    let Aka := xorl BCa (andl (notl BCe) BCi) in
    let Ake := xorl BCe (andl (notl BCi) BCo) in
    let Aki := xorl BCi (andl (notl BCo) BCu) in
    let Ako := xorl BCo (andl (notl BCu) BCa) in
    let Aku := xorl BCu (andl (notl BCa) BCe) in
    let Ebu := xorl Ebu Du in
    let BCa := ROLl Ebu 27 in
    let Ega := xorl Ega Da in
    let BCe := ROLl Ega 36 in
    let Eke := xorl Eke De in
    let BCi := ROLl Eke 10 in
    let Emi := xorl Emi Di in
    let BCo := ROLl Emi 15 in
    let Eso := xorl Eso Do in
    let BCu := ROLl Eso 56 in
    let Ama := xorl BCa (andl (notl BCe) BCi) in
    let Ame := xorl BCe (andl (notl BCi) BCo) in
    let Ami := xorl BCi (andl (notl BCo) BCu) in
    let Amo := xorl BCo (andl (notl BCu) BCa) in
    let Amu := xorl BCu (andl (notl BCa) BCe) in
    let Ebi := xorl Ebi Di in
    let BCa := ROLl Ebi 62 in
    let Ego := xorl Ego Do in
    let BCe := ROLl Ego 55 in
    let Eku := xorl Eku Du in
    let BCi := ROLl Eku 39 in
    let Ema := xorl Ema Da in
    let BCo := ROLl Ema 41 in
    let Ese := xorl Ese De in
    let BCu := ROLl Ese 2 in
    let Asa := xorl BCa (andl (notl BCe) BCi) in
    let Ase := xorl BCe (andl (notl BCi) BCo) in
    let Asi := xorl BCi (andl (notl BCo) BCu) in
    let Aso := xorl BCo (andl (notl BCu) BCa) in
    let Asu := xorl BCu (andl (notl BCa) BCe) in
    [Aba; Abe; Abi; Abo; Abu; Aga; Age; Agi; Ago; Agu; Aka; Ake; Aki; Ako; Aku; Ama; Ame; Ami; Amo; Amu; Asa; Ase; Asi; Aso; Asu]
  | _ => state
  end.

Section Prog.
Context {V : Type} (O : ops V).
Notation "# c" := (cst O c) (at level 1, format "# c").
Notation arr := (list V).
Notation rd := (lrd O).
Notation wr := lwr.
Notation xorl := (bi O Xor).
Notation andl := (bi O And).
(** L16 and the operator ~ on uint64_t *)
Definition w64l (x : V) : V := andl x #mask64.
Definition ROLl (a : V) (offset : Z) : V := xorl (w64l (un O (Shl offset) a)) (un O (Shr (64 - offset)) a).
Definition notl (a : V) : V := w64l (un O Not a).
Definition round_pair_l : V -> V -> arr -> arr := round_gen xorl andl ROLl notl.

(** L90-114 and L308-333: the 25 lanes are read and written one after the other *)
Definition lanes_rd (s : arr) : L arr := (map ERd [0;1;2;3;4;5;6;7;8;9;10;11;12;13;14;15;16;17;18;19;20;21;22;23;24], s).
Definition lanes_wr (s : arr) : L arr := (map EWr [0;1;2;3;4;5;6;7;8;9;10;11;12;13;14;15;16;17;18;19;20;21;22;23;24], s).
(** L73-334 *)
Definition perm_l (s : arr) : L arr :=
  s <~ lanes_rd s ;;;
  s <~ lfor 12 (fun k s =>
         rc0 <~ rd (karr O KeccakF_RoundConstants) (2 * k) ;;;
         rc1 <~ rd (karr O KeccakF_RoundConstants) (2 * k + 1) ;;;
         lret (round_pair_l rc0 rc1 s)) s ;;;
  lanes_wr s.

(** L28-48 *)
Definition load64_l (x : arr) (off : Z) : L V :=
  lfor 8 (fun i r => b <~ rd x (off + i) ;;; lret (bi O Or r (un O (Shl (8 * i)) b))) #0.
Definition store64_l (x : arr) (off : Z) (u : V) : L arr :=
  lfor 8 (fun i x => wr x (off + i) (un O (Wrap 8) (un O (Shr (8 * i)) u))) x.
Definition xor_lane_l (s : arr) (i : Z) (v : V) : L arr := a <~ rd s i ;;; wr s i (xorl a v).
(** L359-367 *)
Fixpoint absorb_loop_l (fuel : nat) (s : arr) (r : Z) (m : arr) (off mlen : Z) : L (arr * (Z * Z)) :=
  if mlen >=? r then
    match fuel with
    | Datatypes.O => lret (s, (off, mlen))
    | S fuel' =>
        _ <~ ([EBr true], tt) ;;;
        s <~ lfor (r / 8) (fun i s => v <~ load64_l m (off + 8 * i) ;;; xor_lane_l s i v) s ;;;
        s <~ perm_l s ;;;
        absorb_loop_l fuel' s r m (off + r) (mlen - r)
    end
  else ([EBr false], (s, (off, mlen))).
(** L349-380; L355-357 and L369-371 clear the state and the buffer *)
Definition absorb_l (r : Z) (m : arr) (mlen p : Z) : L arr :=
  s <~ linit O 25 ;;;
  '(s, (off, mlen)) <~ absorb_loop_l (S (Z.to_nat (mlen / r))) s r m 0 mlen ;;;
  t <~ linit O r ;;;
  t <~ lcopy O t 0 m off mlen ;;;
  t <~ wr t mlen #p ;;;
  b <~ rd t (r - 1) ;;;
  t <~ wr t (r - 1) (bi O Or b #128) ;;;
  lfor (r / 8) (fun i s => v <~ load64_l t (8 * i) ;;; xor_lane_l s i v) s.
(** L395-405 *)
Fixpoint squeezeblocks_l (h : arr) (off : Z) (nblocks : nat) (s : arr) (r : Z) : L (arr * arr) :=
  match nblocks with
  | Datatypes.O => ([EBr false], (h, s))
  | S n =>
      _ <~ ([EBr true], tt) ;;;
      s <~ perm_l s ;;;
      h <~ lfor (Z.shiftr r 3) (fun i h => v <~ rd s i ;;; store64_l h (off + 8 * i) v) h ;;;
      squeezeblocks_l h (off + r) n s r
  end.

(** The incremental context: 25 lanes and the (public) position. *)
Definition inc_l : Type := (arr * Z)%type.
(** L450, L460 *)
Definition xor_byte_l (s : arr) (j : Z) (b : V) : L arr :=
  xor_lane_l s (Z.shiftr j 3) (un O (Shl (8 * Z.land j 7)) b).
(** L445-457 *)
Fixpoint inc_absorb_loop_l (fuel : nat) (s : arr) (pos r : Z) (m : arr) (off mlen : Z) : L (arr * (Z * Z * Z)) :=
  if mlen + pos >=? r then
    match fuel with
    | Datatypes.O => lret (s, (pos, off, mlen))
    | S fuel' =>
        _ <~ ([EBr true], tt) ;;;
        s <~ lfor (r - pos) (fun i s => b <~ rd m (off + i) ;;; xor_byte_l s (pos + i) b) s ;;;
        s <~ perm_l s ;;;
        inc_absorb_loop_l fuel' s 0 r m (off + (r - pos)) (mlen - (r - pos))
    end
  else ([EBr false], (s, (pos, off, mlen))).
(** L440-462 *)
Definition inc_absorb_l (c : inc_l) (r : Z) (m : arr) (mlen : Z) : L inc_l :=
  let '(s, pos) := c in
  '(s, (pos, off, mlen)) <~ inc_absorb_loop_l (S (Z.to_nat ((mlen + pos) / r))) s pos r m 0 mlen ;;;
  s <~ lfor mlen (fun i s => b <~ rd m (off + i) ;;; xor_byte_l s (pos + i) b) s ;;;
  lret (s, pos + mlen).
(** L477-483 *)
Definition inc_finalize_l (c : inc_l) (r p : Z) : L inc_l :=
  let '(s, pos) := c in
  s <~ xor_byte_l s pos #p ;;;
  s <~ xor_byte_l s (r - 1) #128 ;;;
  lret (s, 0).
(** L506, L518 *)
Definition get_byte_l (s : arr) (j : Z) : L V :=
  v <~ rd s (Z.shiftr j 3) ;;; lret (un O (Wrap 8) (un O (Shr (8 * Z.land j 7)) v)).
(** L513-522 *)
Fixpoint inc_squeeze_loop_l (fuel : nat) (h : arr) (off outlen : Z) (s : arr) (pos r : Z) : L (arr * inc_l) :=
  if outlen >? 0 then
    match fuel with
    | Datatypes.O => lret (h, (s, pos))
    | S fuel' =>
        _ <~ ([EBr true], tt) ;;;
        s <~ perm_l s ;;;
        let n := Z.min outlen r in
        h <~ lfor n (fun i h => b <~ get_byte_l s i ;;; wr h (off + i) b) h ;;;
        inc_squeeze_loop_l fuel' h (off + n) (outlen - n) s (r - n) r
    end
  else ([EBr false], (h, (s, pos))).
(** L498-523 *)
Definition inc_squeeze_l (h : arr) (off outlen : Z) (c : inc_l) (r : Z) : L (arr * inc_l) :=
  let '(s, pos) := c in
  let n := Z.max 0 (Z.min outlen pos) in
  h <~ lfor n (fun i h => b <~ get_byte_l s (r - pos + i) ;;; wr h (off + i) b) h ;;;
  inc_squeeze_loop_l (Z.to_nat (outlen / r + 2)) h (off + n) (outlen - n) s (pos - n) r.

(** L695-745 *)
Definition shake_l (r : Z) (output : arr) (outlen : Z) (input : arr) (inlen : Z) : L arr :=
  let nblocks := outlen / r in
  s <~ absorb_l r input inlen 0x1F ;;;
  '(output, s) <~ squeezeblocks_l output 0 (Z.to_nat nblocks) s r ;;;
  let off := nblocks * r in
  let outlen := outlen - nblocks * r in
  lif (outlen =? 0) (lret output)
    ('(t, _) <~ squeezeblocks_l (vzeros O r) 0 1 s r ;;;
     lcopy O output off t 0 outlen).
(** L793-806, L854-867, L915-928 *)
Definition sha3_l (r d : Z) (output input : arr) (inlen : Z) : L arr :=
  s <~ absorb_l r input inlen 0x06 ;;;
  '(t, _) <~ squeezeblocks_l (vzeros O r) 0 1 s r ;;;
  lcopy O output 0 t 0 d.

(** shake_prng.c L19-25 *)
Definition seedexpander_init_l (seed : arr) (seedlen : Z) : L inc_l :=
  s <~ linit O 25 ;;;
  c <~ inc_absorb_l (s, 0) SHAKE256_RATE seed seedlen ;;;
  c <~ inc_absorb_l c SHAKE256_RATE [#SEEDEXPANDER_DOMAIN] 1 ;;;
  inc_finalize_l c SHAKE256_RATE 0x1F.
(** shake_prng.c L37-50 *)
Definition seedexpander_l (c : inc_l) (output : arr) (outlen : Z) : L (arr * inc_l) :=
  let remainder := outlen mod 8 in
  '(output, c) <~ inc_squeeze_l output 0 (outlen - remainder) c SHAKE256_RATE ;;;
  lif (remainder =? 0) (lret (output, c))
    ('(tmp, c) <~ inc_squeeze_l (vzeros O 8) 0 8 c SHAKE256_RATE ;;;
     output <~ lcopy O output (outlen - remainder) tmp 0 remainder ;;;
     lret (output, c)).
(** shake_prng.c L67-83, for pointers that are not NULL *)
Definition seedexpander_wrapper_l (seed : arr) (seedlen : Z) (out : arr) (outlen : Z) : L (Z * arr) :=
  lif (seedlen <? 32) (lret (-2, out)) (
  lif (outlen <=? seedlen) (lret (-3, out)) (
  c <~ seedexpander_init_l seed seedlen ;;;
  '(out, _) <~ seedexpander_l c out outlen ;;;
  lret (0, out))).
End Prog.
