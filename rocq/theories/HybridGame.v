(** Specification vocabulary for unforgeability of the hybrid scheme (C74): the chosen-message game of the
    hybrid API, the same game for one component scheme, and the reduction between them.  The only code in
    these games is that of hybrid.c as modelled in Hybrid.v (signing and verification calls). *)
From Verif Require Import Base Hybrid HybridSpec.
Local Open Scope Z_scope.

(** ** The game of the hybrid API *)
Inductive mode := Full | Compact.
(** What a caller sees of a signing call: return value, output buffer, length. *)
Definition answer := outcome (Z * ptr * option Z).
(** hybrid.c L259-344 and L468-564, called with an output buffer of the exact size *)
Definition ask (P : comps) (md : mode) (rb : rnd) (m sk : list Z) : answer :=
  match md with
  | Full => sign_full P rb (Some (zeros (52342 + zlen m))) (Some 0) (Some m) (zlen m) (Some sk)
  | Compact => sign_compact P rb (Some (zeros (2526 + zlen m))) (Some 0) (Some m) (zlen m) (Some sk)
  end.
(** hybrid.c L439-466 and L669-696 *)
Definition accepts (P : comps) (md : mode) (m sm pk : list Z) : Prop :=
  match md with
  | Full => verify_full P (Some m) (zlen m) (Some sm) (zlen sm) (Some pk) = Ret 0
  | Compact => verify_compact P (Some m) (zlen m) (Some sm) (zlen sm) (Some pk) = Ret 0
  end.

(** An adversary asks for any number of signatures, each request depending on the answers so far, and
    finally names a mode, a message and a signed message.  (It knows the public key: it is an arbitrary
    mathematical object chosen after the key.) *)
Inductive adversary :=
| Ask (md : mode) (m : list Z) (next : answer -> adversary)
| Forge (md : mode) (m sm : list Z).

(** One signing request: mode, message and the random source of the call. *)
Record query := { q_mode : mode; q_msg : list Z; q_rnd : rnd }.

(** [coins md i] is the random source of the [i]-th call in mode [md]; [nf] and [nc] count the calls. *)
Fixpoint play (P : comps) (coins : mode -> nat -> rnd) (sk : list Z) (nf nc : nat) (A : adversary)
  : list query * (mode * list Z * list Z) :=
  match A with
  | Forge md m sm => ([], (md, m, sm))
  | Ask md m next =>
    let rb := coins md (match md with Full => nf | Compact => nc end) in
    let '(qs, out) := play P coins sk (match md with Full => S nf | Compact => nf end) (match md with Full => nc | Compact => S nc end)
                           (next (ask P md rb m sk)) in
    ({| q_mode := md; q_msg := m; q_rnd := rb |} :: qs, out)
  end.

(** [A] asks [qs] and ends with a signed message that verification accepts for [m] in mode [md],
    although [m] was never signed in that mode. *)
Definition forges (P : comps) (coins : mode -> nat -> rnd) (pk sk : list Z) (A : adversary)
    (qs : list query) (md : mode) (m sm : list Z) : Prop :=
  play P coins sk 0 0 A = (qs, (md, m, sm)) /\ accepts P md m sm pk /\
  forall q, In q qs -> q_mode q = md -> q_msg q <> m.

(** ** The game of one component *)
Inductive scheme := Ed | Dil | Spx.
(** the key pair a component makes from its part of the 160-byte seed *)
Definition keypair_of (P : comps) (x : scheme) (seed : list Z) : Z * list Z * list Z :=
  match x with
  | Ed => ed_keypair P (slice seed 0 32)
  | Dil => dil_keypair P (slice seed 32 32)
  | Spx => spx_keypair P (slice seed 64 96)
  end.
Definition sign_of (P : comps) (x : scheme) (rb : rnd) (m sk : list Z) : cres :=
  match x with Ed => ed_sign P m sk | Dil => dil_sign P m sk | Spx => spx_sign P rb m sk end.
Definition valid_of (P : comps) (x : scheme) (sig m pk : list Z) : Prop :=
  match x with Ed => ed_valid P sig m pk | Dil => dil_verify P sig m pk = 0 | Spx => spx_verify P sig m pk = 0 end.

Inductive attacker :=
| CAsk (m : list Z) (next : cres -> attacker)
| CForge (m sig : list Z).
Fixpoint cplay (P : comps) (x : scheme) (coins : nat -> rnd) (sk : list Z) (n : nat) (B : attacker)
  : list (list Z) * (list Z * list Z) :=
  match B with
  | CForge m sig => ([], (m, sig))
  | CAsk m next =>
    let '(ms, out) := cplay P x coins sk (S n) (next (sign_of P x (coins n) m sk)) in (m :: ms, out)
  end.
(** The usual notion: a valid signature on a message that was never submitted for signing. *)
Definition cforges (P : comps) (x : scheme) (coins : nat -> rnd) (pk sk : list Z) (B : attacker) : Prop :=
  exists ms m sig, cplay P x coins sk 0 B = (ms, (m, sig)) /\ valid_of P x sig m pk /\ ~ In m ms.

(** ** The reduction *)
(** A composite secret key without the secret of scheme [x] (zeros in its place).  The second half of a
    SPHINCS+ secret key is its public key and stays. *)
Definition without (x : scheme) (sk : list Z) : list Z :=
  match x with
  | Ed => zeros 64 ++ slice sk 64 4000
  | Dil => slice sk 0 64 ++ zeros 2560 ++ slice sk 2624 1440
  | Spx => slice sk 0 3936 ++ zeros 64 ++ slice sk 4000 64
  end.
(** The components with the signing function of [x] replaced by a given answer. *)
Definition answering (x : scheme) (a : cres) (P : comps) : comps :=
  {| ed_keypair := ed_keypair P; dil_keypair := dil_keypair P; spx_keypair := spx_keypair P;
     ed_sign := match x with Ed => fun _ _ => a | _ => ed_sign P end;
     dil_sign := match x with Dil => fun _ _ => a | _ => dil_sign P end;
     spx_sign := match x with Spx => fun _ _ _ => a | _ => spx_sign P end;
     ed_open := ed_open P; dil_verify := dil_verify P; spx_verify := spx_verify P; sha3_512 := sha3_512 P |}.

(** The hash that compact mode signs. *)
Definition compact_hash (P : comps) (nonce m spxpk : list Z) : list Z := sha3_512 P (compact_hash_input nonce m spxpk).
Definition query_hash (P : comps) (q : query) (spxpk : list Z) : list Z := compact_hash P (snd (q_rnd q 40)) (q_msg q) spxpk.
(** The nonce inside a compact signed message (documented layout). *)
Definition nonce_of (sm : list Z) : list Z := slice sm 2486 40.
(** Where the signature of [x] lies in a signed message (documented layouts). *)
Definition part_of (x : scheme) (md : mode) (m sm : list Z) : list Z :=
  match x, md with
  | Ed, _ => slice sm 2 64
  | Dil, Full => slice sm (66 + zlen m) 2420
  | Dil, Compact => slice sm 66 2420
  | Spx, _ => slice sm (2486 + zlen m) 49856
  end.

(** Turns an adversary against the hybrid scheme into one against [x].  It holds the key material [K] of
    the other two schemes, the SPHINCS+ public key [spxpk] and random sources [own]; signatures of [x] come
    from its oracle. *)
Fixpoint reduce (P : comps) (x : scheme) (own : mode -> nat -> rnd) (K spxpk : list Z) (nf nc : nat) (A : adversary) : attacker :=
  match A with
  | Forge md m sm =>
    CForge (match md with Full => m | Compact => compact_hash P (nonce_of sm) m spxpk end) (part_of x md m sm)
  | Ask Full m next =>
    CAsk m (fun a => reduce P x own K spxpk (S nf) nc (next (ask (answering x a P) Full (own Full nf) m K)))
  | Ask Compact m next =>
    match x with
    | Spx => reduce P x own K spxpk nf (S nc) (next (ask P Compact (own Compact nc) m K))
    | _ => CAsk (compact_hash P (snd (own Compact nc 40)) m spxpk)
             (fun a => reduce P x own K spxpk nf (S nc) (next (ask (answering x a P) Compact (own Compact nc) m K)))
    end
  end.
(** The random sources of the hybrid game when scheme [x] has its own: SPHINCS+ signing is the only
    component that draws randomness, and only full mode calls it. *)
Definition joint (x : scheme) (own : mode -> nat -> rnd) (theirs : nat -> rnd) : mode -> nat -> rnd :=
  fun md n => match x, md with Spx, Full => theirs n | _, _ => own md n end.
(** The messages that scheme [x] signs in answering the requests [qs]. *)
Fixpoint submitted (P : comps) (x : scheme) (spxpk : list Z) (qs : list query) : list (list Z) :=
  match qs with
  | [] => []
  | q :: qs =>
    match q_mode q, x with
    | Full, _ => [q_msg q]
    | Compact, Spx => []
    | Compact, _ => [query_hash P q spxpk]
    end ++ submitted P x spxpk qs
  end.
