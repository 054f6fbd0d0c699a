(** Model of KeccakF1600_StatePermute (common/fips202.c L15-334).

    The body of [round_pair] is transcribed statement by statement from the C code
    (assignments become shadowing [let]s; the comments give the C line numbers). *)
From Verif Require Import Base.

(** uint64_t truncation of a non-negative or negative mathematical integer; equal to
    [mod 2^64] (lemma [w64_mod] in KeccakProofs.v). *)
Definition mask64 : Z := 0xFFFFFFFFFFFFFFFF.
Definition w64 (x : Z) : Z := Z.land x mask64.
(** fips202.c L16: #define ROL(a, offset) *)
Definition ROL (a offset : Z) : Z := Z.lxor (w64 (Z.shiftl a offset)) (Z.shiftr a (64 - offset)).
(** the C operator ~ on uint64_t *)
Definition not64 (a : Z) : Z := w64 (Z.lnot a).

(** fips202.c L51-64 *)
Definition KeccakF_RoundConstants : list Z := [
  0x0000000000000001;
  0x0000000000008082;
  0x800000000000808a;
  0x8000000080008000;
  0x000000000000808b;
  0x0000000080000001;
  0x8000000080008081;
  0x8000000000008009;
  0x000000000000008a;
  0x0000000000000088;
  0x0000000080008009;
  0x000000008000000a;
  0x000000008000808b;
  0x800000000000008b;
  0x8000000000008089;
  0x8000000000008003;
  0x8000000000008002;
  0x8000000000000080;
  0x000000000000800a;
  0x800000008000000a;
  0x8000000080008081;
  0x8000000000008080;
  0x0000000080000001;
  0x8000000080008008].

(** fips202.c L116-306: one iteration of the loop (rounds [round] and [round + 1]);
    [rc0], [rc1] are KeccakF_RoundConstants[round], [..][round + 1]. *)
Definition round_pair (rc0 rc1 : Z) (state : list Z) : list Z :=
  match state with
  | [Aba; Abe; Abi; Abo; Abu; Aga; Age; Agi; Ago; Agu; Aka; Ake; Aki; Ako; Aku; Ama; Ame; Ami; Amo; Amu; Asa; Ase; Asi; Aso; Asu] =>
    (* L117: prepareTheta *)
    let BCa := Z.lxor (Z.lxor (Z.lxor (Z.lxor Aba Aga) Aka) Ama) Asa in
    let BCe := Z.lxor (Z.lxor (Z.lxor (Z.lxor Abe Age) Ake) Ame) Ase in
    let BCi := Z.lxor (Z.lxor (Z.lxor (Z.lxor Abi Agi) Aki) Ami) Asi in
    let BCo := Z.lxor (Z.lxor (Z.lxor (Z.lxor Abo Ago) Ako) Amo) Aso in
    let BCu := Z.lxor (Z.lxor (Z.lxor (Z.lxor Abu Agu) Aku) Amu) Asu in
    (* L124: thetaRhoPiChiIotaPrepareTheta(round  , A, E) *)
    let Da := Z.lxor BCu (ROL BCe 1) in
    let De := Z.lxor BCa (ROL BCi 1) in
    let Di := Z.lxor BCe (ROL BCo 1) in
    let Do := Z.lxor BCi (ROL BCu 1) in
    let Du := Z.lxor BCo (ROL BCa 1) in
    let Aba := Z.lxor Aba Da in
    let BCa := Aba in
    let Age := Z.lxor Age De in
    let BCe := ROL Age 44 in
    let Aki := Z.lxor Aki Di in
    let BCi := ROL Aki 43 in
    let Amo := Z.lxor Amo Do in
    let BCo := ROL Amo 21 in
    let Asu := Z.lxor Asu Du in
    let BCu := ROL Asu 14 in
    let Eba := Z.lxor BCa (Z.land (not64 BCe) BCi) in
    let Eba := Z.lxor Eba rc0 in
    let Ebe := Z.lxor BCe (Z.land (not64 BCi) BCo) in
    let Ebi := Z.lxor BCi (Z.land (not64 BCo) BCu) in
    let Ebo := Z.lxor BCo (Z.land (not64 BCu) BCa) in
    let Ebu := Z.lxor BCu (Z.land (not64 BCa) BCe) in
    let Abo := Z.lxor Abo Do in
    let BCa := ROL Abo 28 in
    let Agu := Z.lxor Agu Du in
    let BCe := ROL Agu 20 in
    let Aka := Z.lxor Aka Da in
    let BCi := ROL Aka 3 in
    let Ame := Z.lxor Ame De in
    let BCo := ROL Ame 45 in
    let Asi := Z.lxor Asi Di in
    let BCu := ROL Asi 61 in
    let Ega := Z.lxor BCa (Z.land (not64 BCe) BCi) in
    let Ege := Z.lxor BCe (Z.land (not64 BCi) BCo) in
    let Egi := Z.lxor BCi (Z.land (not64 BCo) BCu) in
    let Ego := Z.lxor BCo (Z.land (not64 BCu) BCa) in
    let Egu := Z.lxor BCu (Z.land (not64 BCa) BCe) in
    let Abe := Z.lxor Abe De in
    let BCa := ROL Abe 1 in
    let Agi := Z.lxor Agi Di in
    let BCe := ROL Agi 6 in
    let Ako := Z.lxor Ako Do in
    let BCi := ROL Ako 25 in
    let Amu := Z.lxor Amu Du in
    let BCo := ROL Amu 8 in
    let Asa := Z.lxor Asa Da in
    let BCu := ROL Asa 18 in
    let Eka := Z.lxor BCa (Z.land (not64 BCe) BCi) in
    let Eke := Z.lxor BCe (Z.land (not64 BCi) BCo) in
    let Eki := Z.lxor BCi (Z.land (not64 BCo) BCu) in
    let Eko := Z.lxor BCo (Z.land (not64 BCu) BCa) in
    let Eku := Z.lxor BCu (Z.land (not64 BCa) BCe) in
    let Abu := Z.lxor Abu Du in
    let BCa := ROL Abu 27 in
    let Aga := Z.lxor Aga Da in
    let BCe := ROL Aga 36 in
    let Ake := Z.lxor Ake De in
    let BCi := ROL Ake 10 in
    let Ami := Z.lxor Ami Di in
    let BCo := ROL Ami 15 in
    let Aso := Z.lxor Aso Do in
    let BCu := ROL Aso 56 in
    let Ema := Z.lxor BCa (Z.land (not64 BCe) BCi) in
    let Eme := Z.lxor BCe (Z.land (not64 BCi) BCo) in
    let Emi := Z.lxor BCi (Z.land (not64 BCo) BCu) in
    let Emo := Z.lxor BCo (Z.land (not64 BCu) BCa) in
    let Emu := Z.lxor BCu (Z.land (not64 BCa) BCe) in
    let Abi := Z.lxor Abi Di in
    let BCa := ROL Abi 62 in
    let Ago := Z.lxor Ago Do in
    let BCe := ROL Ago 55 in
    let Aku := Z.lxor Aku Du in
    let BCi := ROL Aku 39 in
    let Ama := Z.lxor Ama Da in
    let BCo := ROL Ama 41 in
    let Ase := Z.lxor Ase De in
    let BCu := ROL Ase 2 in
    let Esa := Z.lxor BCa (Z.land (not64 BCe) BCi) in
    let Ese := Z.lxor BCe (Z.land (not64 BCi) BCo) in
    let Esi := Z.lxor BCi (Z.land (not64 BCo) BCu) in
    let Eso := Z.lxor BCo (Z.land (not64 BCu) BCa) in
    let Esu := Z.lxor BCu (Z.land (not64 BCa) BCe) in
    (* L212: prepareTheta *)
    let BCa := Z.lxor (Z.lxor (Z.lxor (Z.lxor Eba Ega) Eka) Ema) Esa in
    let BCe := Z.lxor (Z.lxor (Z.lxor (Z.lxor Ebe Ege) Eke) Eme) Ese in
    let BCi := Z.lxor (Z.lxor (Z.lxor (Z.lxor Ebi Egi) Eki) Emi) Esi in
    let BCo := Z.lxor (Z.lxor (Z.lxor (Z.lxor Ebo Ego) Eko) Emo) Eso in
    let BCu := Z.lxor (Z.lxor (Z.lxor (Z.lxor Ebu Egu) Eku) Emu) Esu in
    (* L219: thetaRhoPiChiIotaPrepareTheta(round+1, E, A) *)
    let Da := Z.lxor BCu (ROL BCe 1) in
    let De := Z.lxor BCa (ROL BCi 1) in
    let Di := Z.lxor BCe (ROL BCo 1) in
    let Do := Z.lxor BCi (ROL BCu 1) in
    let Du := Z.lxor BCo (ROL BCa 1) in
    let Eba := Z.lxor Eba Da in
    let BCa := Eba in
    let Ege := Z.lxor Ege De in
    let BCe := ROL Ege 44 in
    let Eki := Z.lxor Eki Di in
    let BCi := ROL Eki 43 in
    let Emo := Z.lxor Emo Do in
    let BCo := ROL Emo 21 in
    let Esu := Z.lxor Esu Du in
    let BCu := ROL Esu 14 in
    let Aba := Z.lxor BCa (Z.land (not64 BCe) BCi) in
    let Aba := Z.lxor Aba rc1 in
    let Abe := Z.lxor BCe (Z.land (not64 BCi) BCo) in
    let Abi := Z.lxor BCi (Z.land (not64 BCo) BCu) in
    let Abo := Z.lxor BCo (Z.land (not64 BCu) BCa) in
    let Abu := Z.lxor BCu (Z.land (not64 BCa) BCe) in
    let Ebo := Z.lxor Ebo Do in
    let BCa := ROL Ebo 28 in
    let Egu := Z.lxor Egu Du in
    let BCe := ROL Egu 20 in
    let Eka := Z.lxor Eka Da in
    let BCi := ROL Eka 3 in
    let Eme := Z.lxor Eme De in
    let BCo := ROL Eme 45 in
    let Esi := Z.lxor Esi Di in
    let BCu := ROL Esi 61 in
    let Aga := Z.lxor BCa (Z.land (not64 BCe) BCi) in
    let Age := Z.lxor BCe (Z.land (not64 BCi) BCo) in
    let Agi := Z.lxor BCi (Z.land (not64 BCo) BCu) in
    let Ago := Z.lxor BCo (Z.land (not64 BCu) BCa) in
    let Agu := Z.lxor BCu (Z.land (not64 BCa) BCe) in
    let Ebe := Z.lxor Ebe De in
    let BCa := ROL Ebe 1 in
    let Egi := Z.lxor Egi Di in
    let BCe := ROL Egi 6 in
    let Eko := Z.lxor Eko Do in
    let BCi := ROL Eko 25 in
    let Emu := Z.lxor Emu Du in
    let BCo := ROL Emu 8 in
    let Esa := Z.lxor Esa Da in
    let BCu := ROL Esa 18 in
    let Aka := Z.lxor BCa (Z.land (not64 BCe) BCi) in
    let Ake := Z.lxor BCe (Z.land (not64 BCi) BCo) in
    let Aki := Z.lxor BCi (Z.land (not64 BCo) BCu) in
    let Ako := Z.lxor BCo (Z.land (not64 BCu) BCa) in
    let Aku := Z.lxor BCu (Z.land (not64 BCa) BCe) in
    let Ebu := Z.lxor Ebu Du in
    let BCa := ROL Ebu 27 in
    let Ega := Z.lxor Ega Da in
    let BCe := ROL Ega 36 in
    let Eke := Z.lxor Eke De in
    let BCi := ROL Eke 10 in
    let Emi := Z.lxor Emi Di in
    let BCo := ROL Emi 15 in
    let Eso := Z.lxor Eso Do in
    let BCu := ROL Eso 56 in
    let Ama := Z.lxor BCa (Z.land (not64 BCe) BCi) in
    let Ame := Z.lxor BCe (Z.land (not64 BCi) BCo) in
    let Ami := Z.lxor BCi (Z.land (not64 BCo) BCu) in
    let Amo := Z.lxor BCo (Z.land (not64 BCu) BCa) in
    let Amu := Z.lxor BCu (Z.land (not64 BCa) BCe) in
    let Ebi := Z.lxor Ebi Di in
    let BCa := ROL Ebi 62 in
    let Ego := Z.lxor Ego Do in
    let BCe := ROL Ego 55 in
    let Eku := Z.lxor Eku Du in
    let BCi := ROL Eku 39 in
    let Ema := Z.lxor Ema Da in
    let BCo := ROL Ema 41 in
    let Ese := Z.lxor Ese De in
    let BCu := ROL Ese 2 in
    let Asa := Z.lxor BCa (Z.land (not64 BCe) BCi) in
    let Ase := Z.lxor BCe (Z.land (not64 BCi) BCo) in
    let Asi := Z.lxor BCi (Z.land (not64 BCo) BCu) in
    let Aso := Z.lxor BCo (Z.land (not64 BCu) BCa) in
    let Asu := Z.lxor BCu (Z.land (not64 BCa) BCe) in
    [Aba; Abe; Abi; Abo; Abu; Aga; Age; Agi; Ago; Agu; Aka; Ake; Aki; Ako; Aku; Ama; Ame; Ami; Amo; Amu; Asa; Ase; Asi; Aso; Asu]
  | _ => state
  end.

(** fips202.c L116: for (round = 0; round < NROUNDS; round += 2) *)
Fixpoint rounds (rcs : list Z) (state : list Z) : list Z :=
  match rcs with
  | rc0 :: rc1 :: rest => rounds rest (round_pair rc0 rc1 state)
  | _ => state
  end.

(** fips202.c L73-334.  [state] is the array of 25 lanes; copyFromState/copyToState
    (L90-114, L308-333) are the list pattern and the list result. *)
Definition KeccakF1600_StatePermute (state : list Z) : list Z :=
  rounds KeccakF_RoundConstants state.
