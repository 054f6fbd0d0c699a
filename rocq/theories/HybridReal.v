(** The hybrid API with its actual components: the models of tweetnacl.c
    (Tweet.v), dilithium2 (DilSign.v), SPHINCS+ (Spx.v) and fips202.c (Sponge.v)
    plugged into Hybrid.v.

    - A C array holds bytes, so component calls on lists with other entries never
      happen; the guards [bytesb] make such a call fail.
    - Output arrays of the callees are the zero-initialised local arrays of hybrid.c.
    - [f] is the fuel of the Dilithium rejection loops: a call that needs more
      iterations is shown as a failure with code -99 (in C it would still be
      running); code -98 marks undefined behaviour in a component.  Neither code is
      0, so "returns 0" means: terminated normally with 0.
    - [u] are the contents of the uninitialised local arrays of the SPHINCS+ code. *)
From Coq Require Import ZifyBool ZifyNat.
From Verif Require Import Base Hybrid HybridSpec.
From Verif Require Tweet DilSign Spx Sponge ShakePrng SpongePure.
Local Open Scope Z_scope.

Definition bytesb (l : list Z) : bool := forallb (fun b => (0 <=? b) && (b <? 256)) l.

Record uninit := { u_stack : list Z; u_auth : list Z; u_stkf : Z -> list Z; u_stkm : Z -> list Z; u_skseed : list Z }.
Definition uninit_ok (u : uninit) : Prop :=
  zlen (u_stack u) = 128 /\ zlen (u_auth u) = 2272 /\ (forall i, zlen (u_stkf u i) = 288) /\ (forall i, zlen (u_stkm u i) = 128).

Definition fail_key (c np ns : Z) : Z * list Z * list Z := (c, zeros np, zeros ns).
Definition fail_res (c : Z) : cres := {| code := c; olen := 0; obytes := [] |}.

(** tweetnacl.c L658-678, called at hybrid.c L202 *)
Definition real_ed_keypair (seed : list Z) : Z * list Z * list Z :=
  if bytesb seed then match Tweet.ed_keypair_seed seed with Ret r => r | Undef => fail_key (-98) 32 64 end else fail_key (-97) 32 64.
(** dilithium2/sign.c L23-68, called at hybrid.c L215 *)
Definition real_dil_keypair (f : nat) (seed : list Z) : Z * list Z * list Z :=
  if bytesb seed then
    match DilSign.keypair_seed f seed with
    | Ret (Some (pk, sk)) => (0, pk, sk)
    | Ret None => fail_key (-99) 1312 2560
    | Undef => fail_key (-98) 1312 2560
    end
  else fail_key (-97) 1312 2560.
(** sphincs/sign.c L50-75, called at hybrid.c L230 *)
Definition real_spx_keypair (u : uninit) (seed : list Z) : Z * list Z * list Z :=
  if bytesb seed then
    match Spx.seed_keypair SpongePure.shake256_bytes (u_stack u) (u_auth u) (zeros 64) (zeros 128) seed with
    | Ret r => r | Undef => fail_key (-98) 64 128
    end
  else fail_key (-97) 64 128.
(** tweetnacl.c L728-758, called at hybrid.c L294 and L518; [sig1] has 128 bytes *)
Definition real_ed_sign (m sk : list Z) : cres :=
  if bytesb m && bytesb sk then
    match Tweet.ed_sign (zeros 128) m (zlen m) sk with
    | Ret (r, l, sm) => {| code := r; olen := l; obytes := slice sm 0 (64 + zlen m) |}
    | Undef => fail_res (-98)
    end
  else fail_res (-97).
(** dilithium2/sign.c L108-211, called at hybrid.c L295 and L519 *)
Definition real_dil_sign (f : nat) (m sk : list Z) : cres :=
  if bytesb m && bytesb sk then
    match DilSign.sign_signature f m sk with
    | Ret (Some sig) => {| code := 0; olen := 2420; obytes := sig |}
    | Ret None => fail_res (-99)
    | Undef => fail_res (-98)
    end
  else fail_res (-97).
(** sphincs/sign.c L96-163, called at hybrid.c L296; [sig3] has 49856 bytes *)
Definition real_spx_sign (u : uninit) (rb : rnd) (m sk : list Z) : cres :=
  if bytesb m && bytesb sk then
    match Spx.sign_signature SpongePure.shake256_bytes rb (u_stkf u) (u_stkm u) (zeros 49856) 0 m sk with
    | Ret (r, l, sig) => {| code := r; olen := l; obytes := sig |}
    | Undef => fail_res (-98)
    end
  else fail_res (-97).
(** tweetnacl.c L796-825, called at hybrid.c L390 and L628; the message array has 128 bytes *)
Definition real_ed_open (sm pk : list Z) : cres :=
  if bytesb sm && bytesb pk then
    match Tweet.ed_open (zeros 128) sm (zlen sm) pk with
    | Ret (r, l, m) => {| code := r; olen := l; obytes := m |}
    | Undef => fail_res (-98)
    end
  else fail_res (-97).
(** dilithium2/sign.c L257-328, called at hybrid.c L410, L654 and L705 *)
Definition real_dil_verify (f : nat) (sig m pk : list Z) : Z :=
  if bytesb sig && bytesb m && bytesb pk then
    match DilSign.sign_verify f sig (zlen sig) m pk with
    | Ret (Some r) => r
    | Ret None => -99
    | Undef => -98
    end
  else -97.
(** sphincs/sign.c L168-247, called at hybrid.c L425 *)
Definition real_spx_verify (u : uninit) (sig m pk : list Z) : Z :=
  if bytesb sig && bytesb m && bytesb pk then
    match Spx.sign_verify SpongePure.shake256_bytes (u_skseed u) sig (zlen sig) m pk with
    | Ret r => r | Undef => -98
    end
  else -97.
(** common/fips202.c L897-928, called at hybrid.c L515 and L610 *)
Definition real_sha3_512 (x : list Z) : list Z :=
  if bytesb x then match Sponge.sha3_512 (zeros 64) x (zlen x) with Ret h => h | Undef => zeros 64 end else zeros 64.

Definition real (f : nat) (u : uninit) : comps := {|
  ed_keypair := real_ed_keypair; dil_keypair := real_dil_keypair f; spx_keypair := real_spx_keypair u;
  ed_sign := real_ed_sign; dil_sign := real_dil_sign f; spx_sign := real_spx_sign u;
  ed_open := real_ed_open; dil_verify := real_dil_verify f; spx_verify := real_spx_verify u;
  sha3_512 := real_sha3_512 |}.

(** common/shake_prng.c L61-83, called at hybrid.c L151; a call on something else
    than [slen] readable bytes (never made) is code -98 *)
Definition real_expander (s : list Z) (slen : Z) (o : list Z) (n : Z) : Z * list Z :=
  if bytesb s && (slen <=? zlen s) then
    match ShakePrng.seedexpander_wrapper (Some s) slen (Some o) n with
    | Ret (r, Some out) => (r, out)
    | _ => (-98, o)
    end
  else (-98, o).
