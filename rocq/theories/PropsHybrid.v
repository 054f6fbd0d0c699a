(** Property theorems about the hybrid signature API (properties C01-C18).

    [P : comps] ranges over every possible behaviour of the component schemes
    (ed25519, Dilithium, SPHINCS+, SHA3-512); the contracts assumed of them are the
    records of HybridSpec.v.  The models of the C functions are in Hybrid.v.
    Each theorem is followed by an [Example] showing that its hypotheses are met
    by concrete data (the instance of HybridToy.v). *)
From Verif Require Import Base Hybrid HybridSpec HybridProofs HybridProofs2 HybridToy.

(** ** C01 *)
Theorem C01_keypair_seed_layout :
  forall P pk0 sk0 seed, comps_fit P -> 1408 <= zlen pk0 -> 4064 <= zlen sk0 -> zlen seed = 160 ->
  forall edpk edsk dilpk dilsk spxpk spxsk,
  ed_keypair P (slice seed 0 32) = (0, edpk, edsk) ->
  dil_keypair P (slice seed 32 32) = (0, dilpk, dilsk) ->
  spx_keypair P (slice seed 64 96) = (0, spxpk, spxsk) ->
  keypair_seed P (Some pk0) (Some sk0) (Some seed) =
  Ret (0, Some (pk_layout edpk dilpk spxpk ++ tail_from 1408 pk0),
          Some (sk_layout edsk dilsk dilpk spxsk ++ tail_from 4064 sk0)).
Proof. exact keypair_seed_layout. Qed.
Print Assumptions C01_keypair_seed_layout.

Theorem C01_keypair_seed_null :
  forall P pk sk seed, pk = None \/ sk = None \/ seed = None ->
  keypair_seed P pk sk seed = Ret (-1, pk, sk).
Proof. exact keypair_seed_null. Qed.
Print Assumptions C01_keypair_seed_null.

Example C01_hypotheses_met :
  comps_fit toy /\ zlen toy_seed = 160 /\
  keypair_seed toy (Some (zeros 1408)) (Some (zeros 4064)) (Some toy_seed) = Ret (0, Some toy_pk, Some toy_sk).
Proof. split; [exact toy_fit|]. split; [reflexivity|]. exact toy_keys_ok. Qed.

(** ** C02: false of the code.  The first 64 bytes of the seed reach the expander
    only at even positions ([i++] occurs twice in the copy loop). *)
Theorem C02_expander_ignores_odd_bytes_refuted :
  forall E s1 s2 out,
  zlen s1 = 96 -> zlen s2 = 96 -> 160 <= zlen out ->
  (forall s o, zlen o = 128 -> zlen (snd (E s 64 o 128)) = 128) ->
  (* the seeds agree at the even positions below 64 and from 64 on *)
  (forall i, (i < 64)%nat -> Nat.even i = true -> nth i s1 0 = nth i s2 0) ->
  slice s1 64 32 = slice s2 64 32 ->
  keypair_seed_expander E (Some s1) (Some out) = keypair_seed_expander E (Some s2) (Some out).
Proof. exact expander_ignores_odd. Qed.
Print Assumptions C02_expander_ignores_odd_bytes_refuted.

Theorem C02_distinct_seeds_collide_refuted :
  exists s1 s2, zlen s1 = 96 /\ zlen s2 = 96 /\ bytes_ok s1 /\ bytes_ok s2 /\ s1 <> s2 /\
  forall E out, 160 <= zlen out -> (forall s o, zlen o = 128 -> zlen (snd (E s 64 o 128)) = 128) ->
  keypair_seed_expander E (Some s1) (Some out) = keypair_seed_expander E (Some s2) (Some out).
Proof. exact expander_collision. Qed.
Print Assumptions C02_distinct_seeds_collide_refuted.

(** What the expander does compute. *)
Theorem C02_expander_output_partial :
  forall E seed out, zlen seed = 96 -> 160 <= zlen out ->
  (forall s o, zlen o = 128 -> zlen (snd (E s 64 o 128)) = 128) ->
  keypair_seed_expander E (Some seed) (Some out) =
  let '(r, x) := E (even_only seed) 64 (zeros 128) 128 in
  if negb (r =? 0) then Ret (r, Some out)
  else Ret (0, Some (slice x 0 32 ++ slice seed 64 32 ++ slice x 32 96 ++ tail_from 160 out)).
Proof. exact expander_char. Qed.
Print Assumptions C02_expander_output_partial.

(** ** C03, C04: round trips *)
Theorem C03_full_sign_then_open :
  forall P rb seed pk0 sk0 pk sk sm0 l0 m sm' smlen,
  comps_fit P -> comps_faithful P -> comps_complete P ->
  zlen pk0 = 1408 -> zlen sk0 = 4064 -> zlen seed = 160 -> 52342 + zlen m <= zlen sm0 ->
  keypair_seed P (Some pk0) (Some sk0) (Some seed) = Ret (0, Some pk, Some sk) ->
  sign_full P rb (Some sm0) (Some l0) (Some m) (zlen m) (Some sk) = Ret (0, Some sm', Some smlen) ->
  (forall m0 l1, 64 <= zlen m0 ->
     open_full P (Some m0) (Some l1) (Some sm') smlen (Some pk)
     = Ret (0, Some (m ++ tail_from (zlen m) m0), Some (zlen m))) /\
  verify_full P (Some m) (zlen m) (Some sm') smlen (Some pk) = Ret 0.
Proof. exact full_roundtrip. Qed.
Print Assumptions C03_full_sign_then_open.

(** Signing does succeed when the components do (so C03 is not about nothing). *)
Theorem C03_full_sign_succeeds :
  forall P rb sm0 l mb mlen skb, comps_fit P -> comps_faithful P ->
  52342 + mlen <= zlen sm0 -> 1 <= mlen <= 64 -> mlen <= zlen mb -> zlen skb = 4064 ->
  code (ed_sign P (slice mb 0 mlen) (sk_ed skb)) = 0 ->
  code (dil_sign P (slice mb 0 mlen) (sk_dil skb)) = 0 ->
  code (spx_sign P rb (slice mb 0 mlen) (sk_spx skb)) = 0 ->
  exists sm' l', sign_full P rb (Some sm0) (Some l) (Some mb) mlen (Some skb) = Ret (0, Some sm', Some l').
Proof. exact sign_full_runs. Qed.
Print Assumptions C03_full_sign_succeeds.

Example C03_hypotheses_met :
  comps_fit toy /\ comps_faithful toy /\ comps_complete toy /\
  keypair_seed toy (Some (zeros 1408)) (Some (zeros 4064)) (Some toy_seed) = Ret (0, Some toy_pk, Some toy_sk) /\
  exists sm l, sign_full toy toy_rnd (Some (zeros 52406)) (Some 0) (Some toy_msg) 5 (Some toy_sk)
               = Ret (0, Some sm, Some l).
Proof.
  split; [exact toy_fit|]. split; [exact toy_faithful|]. split; [exact toy_complete|].
  split; [exact toy_keys_ok|]. exact toy_full_ok.
Qed.

Theorem C04_compact_sign_then_open :
  forall P rb seed pk0 sk0 pk sk sm0 l0 m sm' smlen,
  comps_fit P -> comps_faithful P -> comps_complete P ->
  zlen pk0 = 1408 -> zlen sk0 = 4064 -> zlen seed = 160 -> 2526 + zlen m <= zlen sm0 ->
  zlen (snd (rb 40)) = 40 ->
  keypair_seed P (Some pk0) (Some sk0) (Some seed) = Ret (0, Some pk, Some sk) ->
  sign_compact P rb (Some sm0) (Some l0) (Some m) (zlen m) (Some sk) = Ret (0, Some sm', Some smlen) ->
  (forall m0 l1, 64 <= zlen m0 ->
     open_compact P (Some m0) (Some l1) (Some sm') smlen (Some pk)
     = Ret (0, Some (m ++ tail_from (zlen m) m0), Some (zlen m))) /\
  verify_compact P (Some m) (zlen m) (Some sm') smlen (Some pk) = Ret 0.
Proof. exact compact_roundtrip. Qed.
Print Assumptions C04_compact_sign_then_open.

Theorem C04_compact_sign_succeeds :
  forall P rb sm0 l mb mlen skb, comps_fit P -> comps_faithful P ->
  2526 + mlen <= zlen sm0 -> 1 <= mlen <= 64 -> mlen <= zlen mb -> zlen skb = 4064 ->
  zlen (snd (rb 40)) = 40 -> fst (rb 40) = 0 ->
  let h := sha3_512 P (compact_hash_input (snd (rb 40)) (slice mb 0 mlen) (sk_spxpk skb)) in
  code (ed_sign P h (sk_ed skb)) = 0 -> code (dil_sign P h (sk_dil skb)) = 0 ->
  exists sm' l', sign_compact P rb (Some sm0) (Some l) (Some mb) mlen (Some skb) = Ret (0, Some sm', Some l').
Proof. exact sign_compact_runs. Qed.
Print Assumptions C04_compact_sign_succeeds.

Example C04_hypotheses_met :
  exists sm l, sign_compact toy toy_rnd (Some (zeros 2590)) (Some 0) (Some toy_msg) 5 (Some toy_sk)
               = Ret (0, Some sm, Some l).
Proof. exact toy_compact_ok. Qed.

(** ** C05, C06: layouts of signed messages *)
Theorem C05_full_layout :
  forall P rb sm0 l mb mlen skb sm' l', comps_fit P -> comps_faithful P ->
  52342 + mlen <= zlen sm0 -> mlen <= zlen mb -> zlen skb = 4064 ->
  sign_full P rb (Some sm0) (Some l) (Some mb) mlen (Some skb) = Ret (0, sm', l') ->
  exists edsig dilsig spxsig,
    let msg := slice mb 0 mlen in
    1 <= mlen <= 64 /\
    ed_sign P msg (sk_ed skb) = {| code := 0; olen := 64 + mlen; obytes := edsig ++ msg |} /\
    dil_sign P msg (sk_dil skb) = {| code := 0; olen := 2420; obytes := dilsig |} /\
    spx_sign P rb msg (sk_spx skb) = {| code := 0; olen := 49856; obytes := spxsig |} /\
    zlen edsig = 64 /\ zlen dilsig = 2420 /\ zlen spxsig = 49856 /\
    sm' = Some (full_layout edsig msg dilsig spxsig ++ tail_from (52342 + mlen) sm0) /\
    l' = Some (52342 + mlen).
Proof. exact sign_full_success. Qed.
Print Assumptions C05_full_layout.

Theorem C06_compact_layout :
  forall P rb sm0 l mb mlen skb sm' l', comps_fit P -> comps_faithful P ->
  2526 + mlen <= zlen sm0 -> mlen <= zlen mb -> zlen skb = 4064 -> zlen (snd (rb 40)) = 40 ->
  sign_compact P rb (Some sm0) (Some l) (Some mb) mlen (Some skb) = Ret (0, sm', l') ->
  exists edsig dilsig,
    let msg := slice mb 0 mlen in
    let nonce := snd (rb 40) in
    let h := sha3_512 P (compact_hash_input nonce msg (sk_spxpk skb)) in
    1 <= mlen <= 64 /\ fst (rb 40) = 0 /\
    ed_sign P h (sk_ed skb) = {| code := 0; olen := 128; obytes := edsig ++ h |} /\
    dil_sign P h (sk_dil skb) = {| code := 0; olen := 2420; obytes := dilsig |} /\
    zlen edsig = 64 /\ zlen dilsig = 2420 /\
    sm' = Some (compact_layout edsig dilsig nonce msg ++ tail_from (2526 + mlen) sm0) /\
    l' = Some (2526 + mlen).
Proof. exact sign_compact_success. Qed.
Print Assumptions C06_compact_layout.

(** ** C07, C08: what open accepts *)
Theorem C07_full_open_iff :
  forall P m0 l smb smlen pkb m' l', comps_fit P -> comps_faithful P ->
  64 <= zlen m0 -> smlen <= zlen smb -> zlen pkb = 1408 ->
  open_full P (Some m0) (Some l) (Some smb) smlen (Some pkb) = Ret (0, m', l') <->
  exists edsig msg dilsig spxsig,
    slice smb 0 smlen = full_layout edsig msg dilsig spxsig /\ smlen = 52342 + zlen msg /\
    1 <= zlen msg <= 64 /\ zlen edsig = 64 /\ zlen dilsig = 2420 /\ zlen spxsig = 49856 /\
    ed_valid P edsig msg (pk_ed pkb) /\
    dil_verify P dilsig msg (pk_dil pkb) = 0 /\
    spx_verify P spxsig msg (pk_spx pkb) = 0 /\
    m' = Some (msg ++ tail_from (zlen msg) m0) /\ l' = Some (zlen msg).
Proof. exact open_full_iff. Qed.
Print Assumptions C07_full_open_iff.

Theorem C08_compact_open_iff :
  forall P m0 l smb smlen pkb m' l', comps_fit P -> comps_faithful P ->
  64 <= zlen m0 -> smlen <= zlen smb -> zlen pkb = 1408 ->
  open_compact P (Some m0) (Some l) (Some smb) smlen (Some pkb) = Ret (0, m', l') <->
  exists edsig dilsig nonce msg,
    let h := sha3_512 P (compact_hash_input nonce msg (pk_spx pkb)) in
    slice smb 0 smlen = compact_layout edsig dilsig nonce msg /\ smlen = 2526 + zlen msg /\
    1 <= zlen msg <= 64 /\ zlen edsig = 64 /\ zlen dilsig = 2420 /\ zlen nonce = 40 /\
    ed_valid P edsig h (pk_ed pkb) /\
    dil_verify P dilsig h (pk_dil pkb) = 0 /\
    m' = Some (msg ++ tail_from (zlen msg) m0) /\ l' = Some (zlen msg).
Proof. exact open_compact_iff. Qed.
Print Assumptions C08_compact_open_iff.

Example C07_C08_hypotheses_met : comps_fit toy /\ comps_faithful toy /\ zlen toy_pk = 1408.
Proof. split; [exact toy_fit|]. split; [exact toy_faithful|]. reflexivity. Qed.

(** ** C09: verify agrees with open *)
Theorem C09_full_verify_iff_open :
  forall P mb mlen smb smlen pkb, comps_fit P -> comps_faithful P ->
  0 <= mlen <= zlen mb -> smlen <= zlen smb -> zlen pkb = 1408 ->
  exists r, verify_full P (Some mb) mlen (Some smb) smlen (Some pkb) = Ret r /\ -4 <= r <= 0 /\
  (r = 0 <-> exists m1, open_full P (Some (zeros 224)) (Some 0) (Some smb) smlen (Some pkb)
                        = Ret (0, Some m1, Some mlen) /\ slice m1 0 mlen = slice mb 0 mlen).
Proof. exact verify_full_iff. Qed.
Print Assumptions C09_full_verify_iff_open.

Theorem C09_compact_verify_iff_open :
  forall P mb mlen smb smlen pkb, comps_fit P -> comps_faithful P ->
  0 <= mlen <= zlen mb -> smlen <= zlen smb -> zlen pkb = 1408 ->
  exists r, verify_compact P (Some mb) mlen (Some smb) smlen (Some pkb) = Ret r /\ -4 <= r <= 0 /\
  (r = 0 <-> exists m1, open_compact P (Some (zeros 64)) (Some 0) (Some smb) smlen (Some pkb)
                        = Ret (0, Some m1, Some mlen) /\ slice m1 0 mlen = slice mb 0 mlen).
Proof. exact verify_compact_iff. Qed.
Print Assumptions C09_compact_verify_iff_open.

(** ** C10: malformed signed messages: exact codes, outputs untouched, never
    undefined behaviour *)
Theorem C10_full_malformed :
  forall P m0 l smb smlen pkb,
  comps_fit P -> 64 <= zlen m0 -> 0 <= smlen <= zlen smb -> 1408 <= zlen pkb ->
  let open := open_full P (Some m0) (Some l) (Some smb) smlen (Some pkb) in
  let fails c := open = Ret (c, Some m0, Some l) in
  let id := nth 0 smb 0 in let n := nth 1 smb 0 in
  (smlen < 52343 \/ 52406 < smlen -> fails (-1)) /\
  (52343 <= smlen <= 52406 -> id <> 2 -> fails (-2)) /\
  (52343 <= smlen <= 52406 -> id = 2 -> ~ 1 <= n <= 64 -> fails (-3)) /\
  (52343 <= smlen <= 52406 -> id = 2 -> 1 <= n <= 64 -> smlen <> 52342 + n -> fails (-4)) /\
  (exists c m' l', open = Ret (c, m', l') /\ -8 <= c <= 0).
Proof. exact open_full_malformed. Qed.
Print Assumptions C10_full_malformed.

Theorem C10_compact_malformed :
  forall P m0 l smb smlen pkb,
  comps_fit P -> 64 <= zlen m0 -> 0 <= smlen <= zlen smb -> 1408 <= zlen pkb ->
  let open := open_compact P (Some m0) (Some l) (Some smb) smlen (Some pkb) in
  let fails c := open = Ret (c, Some m0, Some l) in
  let id := nth 0 smb 0 in let n := nth 1 smb 0 in
  (smlen < 2527 \/ 2590 < smlen -> fails (-1)) /\
  (2527 <= smlen <= 2590 -> id <> 1 -> fails (-2)) /\
  (2527 <= smlen <= 2590 -> id = 1 -> ~ 1 <= n <= 64 -> fails (-3)) /\
  (2527 <= smlen <= 2590 -> id = 1 -> 1 <= n <= 64 -> smlen <> 2526 + n -> fails (-4)) /\
  (exists c m' l', open = Ret (c, m', l') /\ -8 <= c <= 0).
Proof. exact open_compact_malformed. Qed.
Print Assumptions C10_compact_malformed.

Theorem C10_null_full : forall P m l sm smlen pk,
  m = None \/ l = None \/ sm = None \/ pk = None -> open_full P m l sm smlen pk = Ret (-1, m, l).
Proof. exact open_full_null. Qed.
Print Assumptions C10_null_full.

Theorem C10_null_compact : forall P m l sm smlen pk,
  m = None \/ l = None \/ sm = None \/ pk = None -> open_compact P m l sm smlen pk = Ret (-1, m, l).
Proof. exact open_compact_null. Qed.
Print Assumptions C10_null_compact.

Example C10_hypotheses_met : forall smb : list Z, zlen smb = 52400 ->
  comps_fit toy /\ 64 <= zlen (zeros 64) /\ 0 <= 52400 <= zlen smb /\ 1408 <= zlen toy_pk.
Proof. intros smb H. split; [exact toy_fit|]. split; [rewrite zlen_zeros; lia|]. split; [lia|]. vm_compute; congruence. Qed.

(** ** C11: failure leaves outputs untouched (no hypothesis on the components) *)
Theorem C11_full_open_failure : forall P m l sm smlen pk r m' l',
  open_full P m l sm smlen pk = Ret (r, m', l') -> r <> 0 -> m' = m /\ l' = l.
Proof. exact open_full_failure. Qed.
Print Assumptions C11_full_open_failure.
Theorem C11_compact_open_failure : forall P m l sm smlen pk r m' l',
  open_compact P m l sm smlen pk = Ret (r, m', l') -> r <> 0 -> m' = m /\ l' = l.
Proof. exact open_compact_failure. Qed.
Print Assumptions C11_compact_open_failure.
Theorem C11_full_sign_failure : forall P rb sm l m mlen sk r sm' l',
  sign_full P rb sm l m mlen sk = Ret (r, sm', l') -> r <> 0 -> sm' = sm /\ l' = l.
Proof. exact sign_full_failure. Qed.
Print Assumptions C11_full_sign_failure.
Theorem C11_compact_sign_failure : forall P rb sm l m mlen sk r sm' l',
  sign_compact P rb sm l m mlen sk = Ret (r, sm', l') -> r <> 0 -> sm' = sm /\ l' = l.
Proof. exact sign_compact_failure. Qed.
Print Assumptions C11_compact_sign_failure.

Example C11_failure_occurs :
  sign_compact toy bad_rnd (Some (zeros 2590)) (Some 7) (Some toy_msg) 5 (Some toy_sk)
  = Ret (-1, Some (zeros 2590), Some 7).
Proof. vm_compute. reflexivity. Qed.

(** ** C12: argument checks *)
Theorem C12_full_sign_args : forall P rb sm l m mlen sk,
  sm = None \/ l = None \/ m = None \/ sk = None \/ mlen <= 0 \/ 64 < mlen ->
  sign_full P rb sm l m mlen sk = Ret (-1, sm, l).
Proof. exact sign_full_args. Qed.
Print Assumptions C12_full_sign_args.
Theorem C12_compact_sign_args : forall P rb sm l m mlen sk,
  sm = None \/ l = None \/ m = None \/ sk = None \/ mlen <= 0 \/ 64 < mlen ->
  sign_compact P rb sm l m mlen sk = Ret (-1, sm, l).
Proof. exact sign_compact_args. Qed.
Print Assumptions C12_compact_sign_args.
Theorem C12_full_verify_args : forall P m mlen sm smlen pk,
  m = None \/ sm = None \/ pk = None \/ mlen <= 0 \/ 64 < mlen -> verify_full P m mlen sm smlen pk = Ret (-1).
Proof. exact verify_full_args. Qed.
Print Assumptions C12_full_verify_args.
Theorem C12_compact_verify_args : forall P m mlen sm smlen pk,
  m = None \/ sm = None \/ pk = None \/ mlen <= 0 \/ 64 < mlen -> verify_compact P m mlen sm smlen pk = Ret (-1).
Proof. exact verify_compact_args. Qed.
Print Assumptions C12_compact_verify_args.
Theorem C12_verify_dilithium_args : forall P m mlen sm smlen pk,
  m = None \/ sm = None \/ pk = None \/ mlen <= 0 \/ 64 < mlen -> verify_dilithium P m mlen sm smlen pk = Ret (-1).
Proof. exact verify_dilithium_args. Qed.
Print Assumptions C12_verify_dilithium_args.
Theorem C12_verify_dilithium_iff : forall P mb mlen smb smlen pkb,
  0 <= mlen <= zlen mb -> 0 <= smlen <= zlen smb -> 1312 <= zlen pkb ->
  exists r, verify_dilithium P (Some mb) mlen (Some smb) smlen (Some pkb) = Ret r /\ -2 <= r <= 0 /\
  (r = 0 <-> 1 <= mlen <= 64 /\ smlen = 2420 /\
             dil_verify P (slice smb 0 2420) (slice mb 0 mlen) (slice pkb 0 1312) = 0).
Proof. exact verify_dilithium_iff. Qed.
Print Assumptions C12_verify_dilithium_iff.

(** ** C13: entropy failure *)
Theorem C13_keypair_entropy_failure : forall P rb pk sk,
  fst (rb 160) <> 0 -> keypair P rb pk sk = Ret (-1, pk, sk).
Proof. exact keypair_entropy. Qed.
Print Assumptions C13_keypair_entropy_failure.
Theorem C13_compact_sign_entropy_failure : forall P rb smb l mb mlen skb,
  comps_fit P -> 2526 + mlen <= zlen smb -> mlen <= zlen mb -> 4064 <= zlen skb ->
  zlen (snd (rb 40)) = 40 -> fst (rb 40) <> 0 ->
  sign_compact P rb (Some smb) (Some l) (Some mb) mlen (Some skb) = Ret (-1, Some smb, Some l).
Proof. exact sign_compact_entropy. Qed.
Print Assumptions C13_compact_sign_entropy_failure.
Theorem C13_full_sign_entropy_failure : forall P rb smb l mb mlen skb,
  comps_fit P -> 52342 + mlen <= zlen smb -> mlen <= zlen mb -> 4064 <= zlen skb ->
  (* the SPHINCS+ component reports the failed random source *)
  (forall m k, code (spx_sign P rb m k) <> 0) ->
  exists c, c < 0 /\
  sign_full P rb (Some smb) (Some l) (Some mb) mlen (Some skb) = Ret (c, Some smb, Some l).
Proof. exact sign_full_entropy. Qed.
Print Assumptions C13_full_sign_entropy_failure.

Example C13_hypotheses_met : fst (bad_rnd 160) <> 0 /\ fst (bad_rnd 40) <> 0 /\ zlen (snd (bad_rnd 40)) = 40 /\
  forall m k, code (spx_sign toy bad_rnd m k) <> 0.
Proof. repeat split; discriminate. Qed.

(** ** C14: modes are disjoint *)
Theorem C14_modes_disjoint : forall P1 P2 m1 l1 m2 l2 sm smlen pk1 pk2 a b c d,
  open_full P1 m1 l1 sm smlen pk1 = Ret (0, a, b) ->
  open_compact P2 m2 l2 sm smlen pk2 = Ret (0, c, d) -> False.
Proof. exact modes_disjoint. Qed.
Print Assumptions C14_modes_disjoint.

(** ** C15: false of the code.  For every key pair and every target message [msg'],
    one full-mode signature (on a 64-byte message computable from public data) can
    be rearranged into a compact-mode signature on [msg']. *)
Theorem C15_full_to_compact_repackaging_refuted :
  forall P rb seed pk0 sk0 pk sk sm0 l0 nonce msg' sm' smlen,
  comps_fit P -> comps_faithful P -> comps_complete P ->
  zlen pk0 = 1408 -> zlen sk0 = 4064 -> zlen seed = 160 ->
  zlen nonce = 40 -> 1 <= zlen msg' <= 64 -> 52406 <= zlen sm0 ->
  keypair_seed P (Some pk0) (Some sk0) (Some seed) = Ret (0, Some pk, Some sk) ->
  let M := sha3_512 P (compact_hash_input nonce msg' (pk_spx pk)) in
  sign_full P rb (Some sm0) (Some l0) (Some M) 64 (Some sk) = Ret (0, Some sm', Some smlen) ->
  forall m0 l1, 64 <= zlen m0 ->
  open_compact P (Some m0) (Some l1) (Some (repackage sm' nonce msg')) (2526 + zlen msg') (Some pk)
  = Ret (0, Some (msg' ++ tail_from (zlen msg') m0), Some (zlen msg')).
Proof. exact mode_confusion. Qed.
Print Assumptions C15_full_to_compact_repackaging_refuted.

(** ** C16: no undefined behaviour for documented buffer sizes *)
Theorem C16_keypair_seed_safe : forall P pk sk seed,
  comps_fit P -> 1408 <= zlen pk -> 4064 <= zlen sk -> 160 <= zlen seed ->
  keypair_seed P (Some pk) (Some sk) (Some seed) <> Undef.
Proof. exact keypair_seed_safe. Qed.
Print Assumptions C16_keypair_seed_safe.
Theorem C16_seed_expander_safe : forall E seed out,
  zlen seed = 96 -> 160 <= zlen out ->
  (forall s o, zlen o = 128 -> zlen (snd (E s 64 o 128)) = 128) ->
  keypair_seed_expander E (Some seed) (Some out) <> Undef.
Proof. exact expander_safe. Qed.
Print Assumptions C16_seed_expander_safe.
Theorem C16_full_sign_safe : forall P rb sm l m mlen sk,
  comps_fit P -> 52342 + mlen <= zlen sm -> mlen <= zlen m -> 4064 <= zlen sk ->
  sign_full P rb (Some sm) l (Some m) mlen (Some sk) <> Undef.
Proof. exact sign_full_safe. Qed.
Print Assumptions C16_full_sign_safe.
Theorem C16_compact_sign_safe : forall P rb sm l m mlen sk,
  comps_fit P -> 2526 + mlen <= zlen sm -> mlen <= zlen m -> 4064 <= zlen sk -> zlen (snd (rb 40)) = 40 ->
  sign_compact P rb (Some sm) l (Some m) mlen (Some sk) <> Undef.
Proof. exact sign_compact_safe. Qed.
Print Assumptions C16_compact_sign_safe.
(** open and verify: see C10 and C09, whose statements give a normal result. *)

(** ** C17, C18 *)
Theorem C17_compact_hash_input_injective : forall n1 m1 k1 n2 m2 k2,
  zlen n1 = 40 -> zlen n2 = 40 -> zlen k1 = 64 -> zlen k2 = 64 ->
  compact_hash_input n1 m1 k1 = compact_hash_input n2 m2 k2 -> n1 = n2 /\ m1 = m2 /\ k1 = k2.
Proof. exact compact_hash_input_inj. Qed.
Print Assumptions C17_compact_hash_input_injective.
Theorem C18_full_layout_injective : forall e1 m1 d1 s1 e2 m2 d2 s2,
  zlen e1 = 64 -> zlen e2 = 64 -> zlen d1 = 2420 -> zlen d2 = 2420 ->
  full_layout e1 m1 d1 s1 = full_layout e2 m2 d2 s2 -> e1 = e2 /\ m1 = m2 /\ d1 = d2 /\ s1 = s2.
Proof. exact full_layout_inj. Qed.
Print Assumptions C18_full_layout_injective.
Theorem C18_compact_layout_injective : forall e1 d1 n1 m1 e2 d2 n2 m2,
  zlen e1 = 64 -> zlen e2 = 64 -> zlen d1 = 2420 -> zlen d2 = 2420 -> zlen n1 = 40 -> zlen n2 = 40 ->
  compact_layout e1 d1 n1 m1 = compact_layout e2 d2 n2 m2 -> e1 = e2 /\ d1 = d2 /\ n1 = n2 /\ m1 = m2.
Proof. exact compact_layout_inj. Qed.
Print Assumptions C18_compact_layout_injective.
(** That an accepted string is the serialisation of what it is parsed into is part of
    C07 and C08 ([slice smb 0 smlen = ..._layout ...]). *)
