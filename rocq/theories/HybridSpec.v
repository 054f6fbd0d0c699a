(** Specification vocabulary for the hybrid API: the documented layouts (comment
    at the top of hybrid.c, L48-114) and what is assumed of the component schemes.
    Nothing here mentions how the C code works. *)
From Verif Require Import Base Hybrid.

(** ** Documented layouts (hybrid.c L48-114) *)
Definition pk_layout (edpk dilpk spxpk : list Z) : list Z := edpk ++ dilpk ++ spxpk.
Definition sk_layout (edsk dilsk dilpk spxsk : list Z) : list Z := edsk ++ dilsk ++ dilpk ++ spxsk.
(** id 2 | message length | ed25519 signature | message | dilithium signature | sphincs signature *)
Definition full_layout (edsig msg dilsig spxsig : list Z) : list Z :=
  [2; zlen msg] ++ edsig ++ msg ++ dilsig ++ spxsig.
(** id 1 | message length | ed25519 signature | dilithium signature | nonce | message *)
Definition compact_layout (edsig dilsig nonce msg : list Z) : list Z :=
  [1; zlen msg] ++ edsig ++ dilsig ++ nonce ++ msg.
(** random nonce | original message | sphincs public key (L88-94) *)
Definition compact_hash_input (nonce msg spxpk : list Z) : list Z := nonce ++ msg ++ spxpk.

(** The documented parts of a composite public key. *)
Definition pk_ed (pk : list Z) := slice pk 0 32.
Definition pk_dil (pk : list Z) := slice pk 32 1312.
Definition pk_spx (pk : list Z) := slice pk 1344 64.
(** The documented parts of a composite secret key. *)
Definition sk_ed (sk : list Z) := slice sk 0 64.
Definition sk_dil (sk : list Z) := slice sk 64 2560.
Definition sk_spx (sk : list Z) := slice sk 3936 128.
(** The SPHINCS+ public key stored inside the composite secret key. *)
Definition sk_spxpk (sk : list Z) := slice sk 4000 64.

(** The part of a caller's buffer behind the first [n] bytes. *)
Definition tail_from (n : Z) (buf : list Z) : list Z := slice buf n (zlen buf - n).

(** ** Component contracts *)

(** A component never writes more than the size of the array it is given
    (whatever it returns). *)
Record comps_fit (P : comps) : Prop := {
  fit_ed_keypair : forall s, zlen s = 32 ->
    let '(_, pk, sk) := ed_keypair P s in zlen pk = 32 /\ zlen sk = 64;
  fit_dil_keypair : forall s, zlen s = 32 ->
    let '(_, pk, sk) := dil_keypair P s in zlen pk = 1312 /\ zlen sk = 2560;
  fit_spx_keypair : forall s, zlen s = 96 ->
    let '(_, pk, sk) := spx_keypair P s in zlen pk = 64 /\ zlen sk = 128;
  fit_ed_sign : forall m k, 1 <= zlen m <= 64 -> zlen k = 64 -> zlen (obytes (ed_sign P m k)) <= 128;
  fit_dil_sign : forall m k, 1 <= zlen m <= 64 -> zlen k = 2560 -> zlen (obytes (dil_sign P m k)) <= 2420;
  fit_spx_sign : forall rb m k, 1 <= zlen m <= 64 -> zlen k = 128 -> zlen (obytes (spx_sign P rb m k)) <= 49856;
  fit_ed_open : forall s k, 65 <= zlen s <= 128 -> zlen k = 32 -> zlen (obytes (ed_open P s k)) <= 128;
  fit_sha : forall x, zlen (sha3_512 P x) = 64
}.

(** When a component reports success it produced what its header documents. *)
Record comps_faithful (P : comps) : Prop := {
  ok_ed_sign : forall m k, 1 <= zlen m <= 64 -> zlen k = 64 -> code (ed_sign P m k) = 0 ->
    olen (ed_sign P m k) = 64 + zlen m /\
    exists s, zlen s = 64 /\ obytes (ed_sign P m k) = s ++ m;
  ok_dil_sign : forall m k, 1 <= zlen m <= 64 -> zlen k = 2560 -> code (dil_sign P m k) = 0 ->
    olen (dil_sign P m k) = 2420 /\ zlen (obytes (dil_sign P m k)) = 2420;
  ok_spx_sign : forall rb m k, 1 <= zlen m <= 64 -> zlen k = 128 -> code (spx_sign P rb m k) = 0 ->
    olen (spx_sign P rb m k) = 49856 /\ zlen (obytes (spx_sign P rb m k)) = 49856;
  (* a successful open returns the embedded message *)
  ok_ed_open : forall sig m k, zlen sig = 64 -> 1 <= zlen m <= 64 -> zlen k = 32 ->
    code (ed_open P (sig ++ m) k) = 0 ->
    olen (ed_open P (sig ++ m) k) = zlen m /\
    exists junk, obytes (ed_open P (sig ++ m) k) = m ++ junk
}.

(** Correctness of the component schemes: what they sign they accept. *)
Record comps_complete (P : comps) : Prop := {
  cmp_ed : forall seed m, zlen seed = 32 -> 1 <= zlen m <= 64 ->
    let '(r, pk, sk) := ed_keypair P seed in
    r = 0 -> code (ed_sign P m sk) = 0 -> code (ed_open P (obytes (ed_sign P m sk)) pk) = 0;
  cmp_dil : forall seed m, zlen seed = 32 -> 1 <= zlen m <= 64 ->
    let '(r, pk, sk) := dil_keypair P seed in
    r = 0 -> code (dil_sign P m sk) = 0 -> dil_verify P (obytes (dil_sign P m sk)) m pk = 0;
  cmp_spx : forall seed rb m, zlen seed = 96 -> 1 <= zlen m <= 64 ->
    let '(r, pk, sk) := spx_keypair P seed in
    r = 0 -> code (spx_sign P rb m sk) = 0 -> spx_verify P (obytes (spx_sign P rb m sk)) m pk = 0;
  (* the last 64 bytes of a SPHINCS+ secret key are the public key *)
  cmp_spx_pk : forall seed, zlen seed = 96 ->
    let '(r, pk, sk) := spx_keypair P seed in r = 0 -> slice sk 64 64 = pk
}.

(** "(edsig) is a valid ed25519 signature of [msg]": the open function accepts
    the signed message [edsig | msg]. *)
Definition ed_valid (P : comps) (edsig msg pk : list Z) : Prop := code (ed_open P (edsig ++ msg) pk) = 0.
