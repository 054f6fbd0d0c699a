(** C77: what the branches and addresses of hybrid key generation and signing reveal.

    The programs are those of CtHybrid.v; [trace] is what an observer of branches and addresses sees,
    [value] what the call returns ([None]: [fuel] rounds of a Dilithium rejection loop were not enough).
    [splice h o l] is [h] with [l] at offset [o].  [stack_ok]: uninitialised local arrays have the right
    sizes and otherwise arbitrary contents. *)
From Coq Require Import ZifyBool ZifyNat.
From Verif Require Import Base SpongePure SpongeProofs2 BufLemmas HybridSpec HybridProgSpec EdSig SpxSpec DilFips CtBase CtKeccak CtDilSpec CtHybrid CtHybridProofs.
From Verif Require CtDil PropsCtDil PropsCtSpx PropsTweetBuf SpxBufTop HybridProofs DilSignProofs.
Import PropsCtSpx.
Local Open Scope Z_scope.
Ltac Zify.zify_post_hook ::= idtac.
#[local] Opaque Keccak.KeccakF1600_StatePermute zeros slice splice.

(** a key pair made from a 160-byte seed *)
Definition key_pair (seed pk sk : list Z) : Prop := zlen seed = 160 /\ bytes_ok seed /\ hybrid_keys seed pk sk.
(** [S] is the full-mode signature of [m] with the FIPS 205 randomness [optrand], and [l] lists the attempts
    Dilithium made ([Leak.history], CtDilSpec.v); the same for the compact mode *)
Definition full_history (sk optrand m S : list Z) (l : list (list Z * Leak.fate)) : Prop :=
  exists dilsig, Leak.history (sk_dil sk) m dilsig l /\
  S = full_layout (ed_signature (slice sk 0 32) m) m dilsig (slh_sign_sk shake256_bytes m (sk_spx sk) optrand).
Definition compact_history (sk nonce m S : list Z) (l : list (list Z * Leak.fate)) : Prop :=
  let h := compact_digest nonce m (sk_spxpk sk) in
  exists dilsig, Leak.history (sk_dil sk) h dilsig l /\
  S = compact_layout (ed_signature (slice sk 0 32) h) dilsig nonce m.
(** Every signature has such a history. *)
Theorem C77_histories_exist : forall sk r m S,
  (full_signed sk r m S <-> exists l, full_history sk r m S l) /\ (compact_signed sk r m S <-> exists l, compact_history sk r m S l).
Proof.
  intros sk r m S. split; split.
  - intros (d & HS & E). apply PropsCtDil.C70_history_exists in HS. destruct HS as (l & H). exists l, d. auto.
  - intros (l & d & H & E). exists d. split; [|exact E]. apply PropsCtDil.C70_history_exists. now exists l.
  - intros (d & HS & E). apply PropsCtDil.C70_history_exists in HS. destruct HS as (l & H). exists l, d. auto.
  - intros (l & d & H & E). exists d. split; [|exact E]. apply PropsCtDil.C70_history_exists. now exists l.
Qed.
Print Assumptions C77_histories_exist.

(** The seed expander: one trace for all seeds. *)
Theorem C77_seed_expander : exists T, forall seed out, zlen seed = 96 -> bytes_ok seed -> 160 <= zlen out ->
  trace (keypair_seed_expander_l Zops seed out) = T /\
  let key := map (fun i => if Nat.even i then nth i seed 0 else 0) (seq 0 64) in
  let x := shake256_bytes (key ++ [2]) 128 in
  value (keypair_seed_expander_l Zops seed out) = (0, splice out 0 (slice x 0 32 ++ slice seed 64 32 ++ slice x 32 96)).
Proof.
  exists (trace (keypair_seed_expander_l Zops (zeros 96) (zeros 160))). intros seed out L B H.
  destruct (expander_two seed out (zeros 96) (zeros 160) B (bytes_ok_zeros 96) L) as (T & V & _); try (rewrite zlen_zeros; lia); try lia.
  split; [exact T|exact V].
Qed.
Print Assumptions C77_seed_expander.

(** Key generation: two seeds whose Dilithium parts have the same public matrix seed and the same rejected
    half-bytes give one trace, whatever their Ed25519 and SPHINCS+ parts, the stacks and the outputs are. *)
Theorem C77_keygen : forall loc locw loc' locw' pk sk seed pk' sk' seed' PK SK PK' SK',
  stack_ok loc locw -> stack_ok loc' locw' -> 1408 <= zlen pk -> 4064 <= zlen sk -> 1408 <= zlen pk' -> 4064 <= zlen sk' ->
  key_pair seed PK SK -> key_pair seed' PK' SK' -> Leak.same_rejections (slice seed 32 32) (slice seed' 32 32) ->
  exists f, forall fuel, (f <= fuel)%nat ->
    let run := keypair_seed_l Zops loc locw fuel pk sk seed in
    let run' := keypair_seed_l Zops loc' locw' fuel pk' sk' seed' in
    trace run = trace run' /\ value run = Some (0, splice pk 0 PK, splice sk 0 SK) /\ value run' = Some (0, splice pk' 0 PK', splice sk' 0 SK').
Proof. intros until SK'. intros ST ST' A B C D (L & Bs & HK) (L' & Bs' & HK') SR. exact (keygen_two loc locw loc' locw' pk sk seed pk' sk' seed' PK SK PK' SK' ST ST' A B C D L Bs L' Bs' HK HK' SR). Qed.
Print Assumptions C77_keygen.
(** The form that draws the seed itself; when the random generator fails, the run reveals just that. *)
Theorem C77_keypair : forall loc locw loc' locw' pk sk seed pk' sk' seed' PK SK PK' SK',
  stack_ok loc locw -> stack_ok loc' locw' -> 1408 <= zlen pk -> 4064 <= zlen sk -> 1408 <= zlen pk' -> 4064 <= zlen sk' ->
  key_pair seed PK SK -> key_pair seed' PK' SK' -> Leak.same_rejections (slice seed 32 32) (slice seed' 32 32) ->
  exists f, forall fuel, (f <= fuel)%nat ->
    let run := keypair_l Zops loc locw fuel 0 seed pk sk in
    let run' := keypair_l Zops loc' locw' fuel 0 seed' pk' sk' in
    trace run = trace run' /\ value run = Some (0, splice pk 0 PK, splice sk 0 SK) /\ value run' = Some (0, splice pk' 0 PK', splice sk' 0 SK').
Proof.
  intros until SK'. intros ST ST' A B C D (L & Bs & HK) (L' & Bs' & HK') SR.
  destruct (keygen_two loc locw loc' locw' pk sk seed pk' sk' seed' PK SK PK' SK' ST ST' A B C D L Bs L' Bs' HK HK' SR) as (f & F). exists f. intros fuel Hf.
  cbv zeta. change (two (keypair_l Zops loc locw fuel 0 seed pk sk) (keypair_l Zops loc' locw' fuel 0 seed' pk' sk') (Some (0, splice pk 0 PK, splice sk 0 SK)) (Some (0, splice pk' 0 PK', splice sk' 0 SK'))).
  unfold keypair_l. eapply two_bind; [apply two_fill; try lia; [apply ST; lia|apply ST'; lia]|]. rewrite !(slice_all _ 160) by lia. apply two_false; [reflexivity|]. exact (F fuel Hf).
Qed.
Print Assumptions C77_keypair.
Theorem C77_keypair_failed : exists T, forall loc locw fuel rc bs pk sk, rc <> 0 ->
  trace (keypair_l Zops loc locw fuel rc bs pk sk) = T /\ value (keypair_l Zops loc locw fuel rc bs pk sk) = Some (-1, pk, sk).
Proof.
  exists (trace (keypair_l Zops zeros zeros 0 1 [] [] [])). intros loc locw fuel rc bs pk sk R.
  assert (X : two (keypair_l Zops loc locw fuel rc bs pk sk) (keypair_l Zops zeros zeros 0 1 [] [] []) (Some (-1, pk, sk)) (Some (-1, [], []))).
  { unfold keypair_l. eapply two_bind; [split; [apply ct_copy|split; reflexivity]|]. replace (negb (rc =? 0)) with true by lia. apply two_true; [reflexivity|apply two_ret]. }
  destruct X as (T & V & _). auto.
Qed.
Print Assumptions C77_keypair_failed.

(** ** Full signing *)
Lemma full_inj e e' m d d' x x' : zlen e = 64 -> zlen e' = 64 -> zlen d = 2420 -> zlen d' = 2420 -> full_layout e m d x = full_layout e' m d' x' -> d = d' /\ x = x'.
Proof.
  unfold full_layout. intros L1 L2 L3 L4 E. apply app_inv_head in E.
  assert (A : forall (a b c d : list Z), zlen a = zlen b -> a ++ c = b ++ d -> a = b /\ c = d).
  { induction a as [|y a IH]; intros [|z b] c0 d0 L E0; try (rewrite ?zlen_cons in L; pose proof (zlen_nonneg a); unfold zlen in L; cbn [length] in L; lia); [auto|unfold zlen in L; cbn [length] in L; lia|].
    cbn [app] in E0. injection E0 as -> E0. destruct (IH b c0 d0) as [-> ->]; auto. unfold zlen in *. cbn [length] in L. lia. }
  apply A in E; [|lia]. destruct E as (_ & E). apply app_inv_head in E. apply A in E; [exact E|lia].
Qed.
Lemma compact_inj e e' d d' o o' m m' : zlen e = 64 -> zlen e' = 64 -> zlen d = 2420 -> zlen d' = 2420 -> compact_layout e d o m = compact_layout e' d' o' m' -> d = d'.
Proof.
  unfold compact_layout. intros L1 L2 L3 L4 E.
  assert (G : forall e d (y : list Z) x, zlen e = 64 -> zlen d = 2420 -> slice ([1; x] ++ e ++ d ++ y) 66 2420 = d).
  { clear. intros e d y x Le Ld. pose proof (zlen_nonneg y). assert (zlen [1; x] = 2) by reflexivity. rewrite slice_app_r by lia. rewrite slice_app_r by lia. rewrite slice_app_l by lia. replace (66 - zlen [1; x] - zlen e) with 0 by lia. apply slice_all. lia. }
  apply (f_equal (fun l => slice l 66 2420)) in E. rewrite !G in E by assumption. exact E.
Qed.
(** what the observer learns follows from the public key, the message, the signature and the rejected
    attempts: two runs with these in common have one trace, whatever the secret keys, the random bytes,
    the stacks and the output arrays are *)
Theorem C77_sign_trace_follows_from_public_data : forall loc locw loc' locw' seed seed' pk sk sk' optrand optrand' sm sm' smlen smlen' m S l l',
  stack_ok loc locw -> stack_ok loc' locw' -> key_pair seed pk sk -> key_pair seed' pk sk' ->
  1 <= zlen m <= 64 -> bytes_ok m -> zlen optrand = 32 -> zlen optrand' = 32 -> 52342 + zlen m <= zlen sm -> 52342 + zlen m <= zlen sm' ->
  full_history sk optrand m S l -> full_history sk' optrand' m S l' -> removelast l = removelast l' ->
  exists f, forall fuel, (f <= fuel)%nat ->
    let run := sign_l Zops loc locw fuel 0 optrand sm smlen m (zlen m) sk in
    let run' := sign_l Zops loc' locw' fuel 0 optrand' sm' smlen' m (zlen m) sk' in
    trace run = trace run' /\ value run = Some (0, splice sm 0 S, 52342 + zlen m) /\ value run' = Some (0, splice sm' 0 S, 52342 + zlen m).
Proof.
  intros until l'. intros ST ST' GK GK' Hn Bm Lo Lo' Hsm Hsm' (d & HH & E) (d' & HH' & E') ER.
  destruct (good_parts _ _ _ GK) as (e & dx & Le & Be & Ld & Bd & LS & BS & E1 & E2 & HD & E3).
  destruct (good_parts _ _ _ GK') as (e' & dx' & Le' & Be' & Ld' & Bd' & LS' & BS' & E1' & E2' & HD' & E3').
  assert (HS : MLDSA.sign (sk_dil sk) m d) by (apply PropsCtDil.C70_history_exists; now exists l).
  assert (HS' : MLDSA.sign (sk_dil sk') m d') by (apply PropsCtDil.C70_history_exists; now exists l').
  pose proof (dil_sig_shape _ _ _ _ _ Ld Bd HD HS) as Lg. pose proof (dil_sig_shape _ _ _ _ _ Ld' Bd' HD' HS') as Lg'.
  assert (J : d = d' /\ slh_sign_sk shake256_bytes m (sk_spx sk) optrand = slh_sign_sk shake256_bytes m (sk_spx sk') optrand').
  { rewrite E in E'. apply full_inj in E'; [exact E'|apply PropsTweetBuf.sig_len|apply PropsTweetBuf.sig_len|assumption|assumption]. }
  destruct J as (<- & J).
  destruct (full_two loc locw loc' locw' ST ST' seed pk sk seed' pk sk' 0 0 optrand optrand' sm sm' smlen smlen' m (zlen m) d d GK GK' eq_refl eq_refl Hn Bm Lo Lo' Hsm Hsm' HS HS') as (f & F).
  { intros fuel. assert (LZ: zlen (vzeros Zops 2420) = 2420) by (apply zlen_vz; lia). pose proof (zlen_nonneg m).
    assert (SM: slice (vzeros Zops 2420 ++ m) 2420 (zlen m) = m) by (rewrite slice_app_r by lia; rewrite LZ; apply slice_all; lia).
    apply (PropsCtDil.C70_sign_trace_follows_from_public_data loc loc' fuel (vzeros Zops 2420 ++ m) 0 2420 (zlen m) dx (sk_dil sk) (vzeros Zops 2420 ++ m) dx' (sk_dil sk') (pk_dil pk) d l l' (proj1 ST) (proj1 ST') (conj Ld Bd) (conj Ld' Bd') HD HD'); try (rewrite ?zlen_app; lia); [rewrite SM; exact HH|rewrite SM; exact HH'|exact ER]. }
  { left. auto. }
  exists f. intros fuel Hf. specialize (F fuel Hf). change (0 =? 0) with true in F. cbv iota in F. unfold full_out in F. rewrite <- E, <- E' in F. exact F.
Qed.
Print Assumptions C77_sign_trace_follows_from_public_data.
(** More generally the Dilithium parts of the two keys need only share their matrix seed, and the two
    signatures only their SPHINCS+ part, if all attempts look alike.  When SPHINCS+ gets no randomness both
    runs give -4 and one trace. *)
Theorem C77_sign_trace : forall loc locw loc' locw' seed seed' pk sk pk' sk' rc rc' optrand optrand' sm sm' smlen smlen' m S S' l,
  stack_ok loc locw -> stack_ok loc' locw' -> key_pair seed pk sk -> key_pair seed' pk' sk' ->
  pk_spx pk = pk_spx pk' -> firstn 32 (sk_dil sk) = firstn 32 (sk_dil sk') ->
  1 <= zlen m <= 64 -> bytes_ok m -> zlen optrand = 32 -> zlen optrand' = 32 -> 52342 + zlen m <= zlen sm -> 52342 + zlen m <= zlen sm' ->
  full_history sk optrand m S l -> full_history sk' optrand' m S' l ->
  (rc = 0 /\ rc' = 0 /\ slh_sign_sk shake256_bytes m (sk_spx sk) optrand = slh_sign_sk shake256_bytes m (sk_spx sk') optrand') \/ (rc <> 0 /\ rc' <> 0) ->
  exists f, forall fuel, (f <= fuel)%nat ->
    let run := sign_l Zops loc locw fuel rc optrand sm smlen m (zlen m) sk in
    let run' := sign_l Zops loc' locw' fuel rc' optrand' sm' smlen' m (zlen m) sk' in
    trace run = trace run' /\
    value run = (if rc =? 0 then Some (0, splice sm 0 S, 52342 + zlen m) else Some (-4, sm, smlen)) /\
    value run' = (if rc' =? 0 then Some (0, splice sm' 0 S', 52342 + zlen m) else Some (-4, sm', smlen')).
Proof.
  intros until l. intros ST ST' GK GK' EP ER Hn Bm Lo Lo' Hsm Hsm' (d & HH & E) (d' & HH' & E') HC.
  destruct (good_parts _ _ _ GK) as (_ & dx & _ & _ & Ld & Bd & _ & _ & _ & _ & HD & _).
  destruct (good_parts _ _ _ GK') as (_ & dx' & _ & _ & Ld' & Bd' & _ & _ & _ & _ & HD' & _).
  destruct (dil_len _ _ _ Ld Bd HD) as (_ & Lk & _). destruct (dil_len _ _ _ Ld' Bd' HD') as (_ & Lk' & _).
  assert (HS : MLDSA.sign (sk_dil sk) m d) by (apply PropsCtDil.C70_history_exists; now exists l).
  assert (HS' : MLDSA.sign (sk_dil sk') m d') by (apply PropsCtDil.C70_history_exists; now exists l).
  destruct (full_two loc locw loc' locw' ST ST' seed pk sk seed' pk' sk' rc rc' optrand optrand' sm sm' smlen smlen' m (zlen m) d d' GK GK' EP eq_refl Hn Bm Lo Lo' Hsm Hsm' HS HS') as (f & F).
  { intros fuel. assert (LZ: zlen (vzeros Zops 2420) = 2420) by (apply zlen_vz; lia). pose proof (zlen_nonneg m).
    assert (SM: slice (vzeros Zops 2420 ++ m) 2420 (zlen m) = m) by (rewrite slice_app_r by lia; rewrite LZ; apply slice_all; lia).
    apply (PropsCtDil.C70_sign_trace loc loc' fuel (vzeros Zops 2420 ++ m) 0 2420 (zlen m) (sk_dil sk) (vzeros Zops 2420 ++ m) (sk_dil sk') d d' l (proj1 ST) (proj1 ST') Lk Lk' ER); try (rewrite ?zlen_app; lia); [rewrite SM; exact HH|rewrite SM; exact HH']. }
  { exact HC. }
  exists f. intros fuel Hf. specialize (F fuel Hf). unfold full_out in F. rewrite <- E, <- E' in F. exact F.
Qed.
Print Assumptions C77_sign_trace.

(** ** Compact signing: here the messages and nonces may differ too; only the message lengths, the attempts
    and the matrix seed show. *)
Theorem C77_compact_trace : forall loc locw loc' locw' seed seed' pk sk pk' sk' nonce nonce' sm sm' smlen smlen' m m' S S' l,
  stack_ok loc locw -> stack_ok loc' locw' -> key_pair seed pk sk -> key_pair seed' pk' sk' ->
  firstn 32 (sk_dil sk) = firstn 32 (sk_dil sk') ->
  1 <= zlen m <= 64 -> zlen m' = zlen m -> bytes_ok m -> bytes_ok m' -> zlen nonce = 40 -> zlen nonce' = 40 -> bytes_ok nonce -> bytes_ok nonce' ->
  2526 + zlen m <= zlen sm -> 2526 + zlen m <= zlen sm' ->
  compact_history sk nonce m S l -> compact_history sk' nonce' m' S' l ->
  exists f, forall fuel, (f <= fuel)%nat ->
    let run := sign_compact_l Zops loc fuel 0 nonce sm smlen m (zlen m) sk in
    let run' := sign_compact_l Zops loc' fuel 0 nonce' sm' smlen' m' (zlen m) sk' in
    trace run = trace run' /\ value run = Some (0, splice sm 0 S, 2526 + zlen m) /\ value run' = Some (0, splice sm' 0 S', 2526 + zlen m).
Proof.
  intros until l. intros ST ST' GK GK' ER Hn Lm' Bm Bm' Lo Lo' Bo Bo' Hsm Hsm' HF HF'. unfold compact_history in HF, HF'. cbv zeta in HF, HF'.
  destruct HF as (d & HH & E). destruct HF' as (d' & HH' & E').
  destruct (good_parts _ _ _ GK) as (_ & dx & _ & _ & Ld & Bd & _ & _ & _ & _ & HD & _).
  destruct (good_parts _ _ _ GK') as (_ & dx' & _ & _ & Ld' & Bd' & _ & _ & _ & _ & HD' & _).
  destruct (dil_len _ _ _ Ld Bd HD) as (_ & Lk & _). destruct (dil_len _ _ _ Ld' Bd' HD') as (_ & Lk' & _).
  set (h := compact_digest nonce m (sk_spxpk sk)) in *. set (h' := compact_digest nonce' m' (sk_spxpk sk')) in *.
  assert (Lh: zlen h = 64) by (apply (DilSignProofs.sponge_bytes_len 72 0x06); lia). assert (Lh': zlen h' = 64) by (apply (DilSignProofs.sponge_bytes_len 72 0x06); lia).
  assert (HS : MLDSA.sign (sk_dil sk) h d) by (apply PropsCtDil.C70_history_exists; now exists l).
  assert (HS' : MLDSA.sign (sk_dil sk') h' d') by (apply PropsCtDil.C70_history_exists; now exists l).
  destruct (compact_two loc locw loc' locw' ST ST' seed pk sk seed' pk' sk' nonce nonce' sm sm' smlen smlen' m m' (zlen m) d d' GK GK' eq_refl Lm' Hn Bm Bm' Lo Lo' Bo Bo' Hsm Hsm' HS HS') as (f & F).
  { fold h h'. intros fuel. assert (LZ: zlen (vzeros Zops 2420) = 2420) by (apply zlen_vz; lia).
    assert (SM: forall x, zlen x = 64 -> slice (vzeros Zops 2420 ++ x) 2420 64 = x) by (intros x Hx; rewrite slice_app_r by lia; rewrite LZ; apply slice_all; lia).
    apply (PropsCtDil.C70_sign_trace loc loc' fuel (vzeros Zops 2420 ++ h) 0 2420 64 (sk_dil sk) (vzeros Zops 2420 ++ h') (sk_dil sk') d d' l (proj1 ST) (proj1 ST') Lk Lk' ER); try (rewrite ?zlen_app; lia); [rewrite SM by exact Lh; exact HH|rewrite SM by exact Lh'; exact HH']. }
  exists f. intros fuel Hf. specialize (F fuel Hf). unfold compact_out in F. fold h h' in F. rewrite <- E, <- E' in F. exact F.
Qed.
Print Assumptions C77_compact_trace.
Theorem C77_compact_trace_follows_from_public_data : forall loc locw loc' locw' seed seed' pk sk sk' nonce sm sm' smlen smlen' m S l l',
  stack_ok loc locw -> stack_ok loc' locw' -> key_pair seed pk sk -> key_pair seed' pk sk' ->
  1 <= zlen m <= 64 -> bytes_ok m -> zlen nonce = 40 -> bytes_ok nonce -> 2526 + zlen m <= zlen sm -> 2526 + zlen m <= zlen sm' ->
  compact_history sk nonce m S l -> compact_history sk' nonce m S l' -> removelast l = removelast l' ->
  exists f, forall fuel, (f <= fuel)%nat ->
    let run := sign_compact_l Zops loc fuel 0 nonce sm smlen m (zlen m) sk in
    let run' := sign_compact_l Zops loc' fuel 0 nonce sm' smlen' m (zlen m) sk' in
    trace run = trace run' /\ value run = Some (0, splice sm 0 S, 2526 + zlen m) /\ value run' = Some (0, splice sm' 0 S, 2526 + zlen m).
Proof.
  intros until l'. intros ST ST' GK GK' Hn Bm Lo Bo Hsm Hsm' HF HF' ER. unfold compact_history in HF, HF'. cbv zeta in HF, HF'.
  destruct HF as (d & HH & E). destruct HF' as (d' & HH' & E').
  destruct (good_parts _ _ _ GK) as (_ & dx & _ & _ & Ld & Bd & _ & _ & _ & _ & HD & _).
  destruct (good_parts _ _ _ GK') as (_ & dx' & _ & _ & Ld' & Bd' & _ & _ & _ & _ & HD' & _).
  set (h := compact_digest nonce m (sk_spxpk sk)) in *. set (h' := compact_digest nonce m (sk_spxpk sk')) in *.
  assert (Lh: zlen h = 64) by (apply (DilSignProofs.sponge_bytes_len 72 0x06); lia). assert (Lh': zlen h' = 64) by (apply (DilSignProofs.sponge_bytes_len 72 0x06); lia).
  assert (HS : MLDSA.sign (sk_dil sk) h d) by (apply PropsCtDil.C70_history_exists; now exists l).
  assert (HS' : MLDSA.sign (sk_dil sk') h' d') by (apply PropsCtDil.C70_history_exists; now exists l').
  pose proof (dil_sig_shape _ _ _ _ _ Ld Bd HD HS) as Lg. pose proof (dil_sig_shape _ _ _ _ _ Ld' Bd' HD' HS') as Lg'.
  assert (J : d = d') by (rewrite E in E'; apply compact_inj in E'; [exact E'|apply PropsTweetBuf.sig_len|apply PropsTweetBuf.sig_len|assumption|assumption]). subst d'.
  destruct (compact_two loc locw loc' locw' ST ST' seed pk sk seed' pk sk' nonce nonce sm sm' smlen smlen' m m (zlen m) d d GK GK' eq_refl eq_refl Hn Bm Bm Lo Lo Bo Bo Hsm Hsm' HS HS') as (f & F).
  { fold h h'. intros fuel. assert (LZ: zlen (vzeros Zops 2420) = 2420) by (apply zlen_vz; lia).
    assert (SM: forall x, zlen x = 64 -> slice (vzeros Zops 2420 ++ x) 2420 64 = x) by (intros x Hx; rewrite slice_app_r by lia; rewrite LZ; apply slice_all; lia).
    apply (PropsCtDil.C70_sign_trace_follows_from_public_data loc loc' fuel (vzeros Zops 2420 ++ h) 0 2420 64 dx (sk_dil sk) (vzeros Zops 2420 ++ h') dx' (sk_dil sk') (pk_dil pk) d l l' (proj1 ST) (proj1 ST') (conj Ld Bd) (conj Ld' Bd') HD HD'); try (rewrite ?zlen_app; lia); [rewrite SM by exact Lh; exact HH|rewrite SM by exact Lh'; exact HH'|exact ER]. }
  exists f. intros fuel Hf. specialize (F fuel Hf). unfold compact_out in F. fold h h' in F. rewrite <- E, <- E' in F. exact F.
Qed.
Print Assumptions C77_compact_trace_follows_from_public_data.
(** Without randomness compact signing gives -1, and for each message length one trace. *)
Theorem C77_compact_failed : forall n, 1 <= n <= 64 -> exists T, forall loc fuel rc bs sm smlen m sk, rc <> 0 ->
  trace (sign_compact_l Zops loc fuel rc bs sm smlen m n sk) = T /\ value (sign_compact_l Zops loc fuel rc bs sm smlen m n sk) = Some (-1, sm, smlen).
Proof.
  intros n Hn. exists (trace (sign_compact_l Zops zeros 0 1 [] [] 0 [] n [])). intros loc fuel rc bs sm smlen m sk R.
  assert (X : two (sign_compact_l Zops loc fuel rc bs sm smlen m n sk) (sign_compact_l Zops zeros 0 1 [] [] 0 [] n []) (Some (-1, sm, smlen)) (Some (-1, [], 0))).
  { unfold sign_compact_l. apply two_false; [lia|]. do 3 (eapply two_bind; [split; [apply ct_copy|split; reflexivity]|]). replace (negb (rc =? 0)) with true by lia. apply two_true; [reflexivity|apply two_ret]. }
  destruct X as (T & V & _). auto.
Qed.
Print Assumptions C77_compact_failed.
(** A message of a wrong length gives -1 and one trace, in both modes. *)
Theorem C77_bad_length : exists T, forall loc locw fuel rc bs sm smlen m n sk, n <= 0 \/ 64 < n ->
  trace (sign_l Zops loc locw fuel rc bs sm smlen m n sk) = T /\ value (sign_l Zops loc locw fuel rc bs sm smlen m n sk) = Some (-1, sm, smlen) /\
  trace (sign_compact_l Zops loc fuel rc bs sm smlen m n sk) = T /\ value (sign_compact_l Zops loc fuel rc bs sm smlen m n sk) = Some (-1, sm, smlen).
Proof.
  exists [EBr true]. intros loc locw fuel rc bs sm smlen m n sk H.
  assert (E : (n <=? 0) || (64 <? n) = true) by lia. unfold sign_l, sign_compact_l. rewrite E. cbn [lif trace value fst snd lret]. auto.
Qed.
Print Assumptions C77_bad_length.

(** ** The hypotheses are met: every key pair and every signature, run on two different stacks and with two
    different output arrays. *)
Example C77_ex_keygen : forall seed pk sk, key_pair seed pk sk -> exists f, forall fuel, (f <= fuel)%nat ->
  trace (keypair_seed_l Zops zeros zeros fuel (zeros 1408) (zeros 4064) seed) = trace (keypair_seed_l Zops ones ones fuel (ones 1500) (ones 5000) seed).
Proof.
  intros seed pk sk GK. destruct ones_ok as (O1 & O2 & O3).
  assert (SR : Leak.same_rejections (slice seed 32 32) (slice seed 32 32)) by (destruct GK as (_ & _ & dp & ds & HD & _); eapply PropsCtDil.self_rejections; exact HD).
  destruct (C77_keygen zeros zeros ones ones (zeros 1408) (zeros 4064) seed (ones 1500) (ones 5000) seed pk sk pk sk zeros_ok ones_ok) as (f & F); try assumption; try (rewrite zlen_zeros; lia); try (rewrite O1; lia).
  exists f. intros fuel Hf. exact (proj1 (F fuel Hf)).
Qed.
Example C77_ex_sign : forall seed pk sk r m S, key_pair seed pk sk -> 1 <= zlen m <= 64 -> bytes_ok m -> zlen r = 32 -> full_signed sk r m S ->
  exists f, forall fuel, (f <= fuel)%nat ->
  trace (sign_l Zops zeros zeros fuel 0 r (zeros 60000) 0 m (zlen m) sk) = trace (sign_l Zops ones ones fuel 0 r (ones 70000) 7 m (zlen m) sk).
Proof.
  intros seed pk sk r m S GK Hn Bm Lr HS. destruct (proj1 (proj1 (C77_histories_exist sk r m S)) HS) as (l & HF). destruct ones_ok as (O1 & O2 & O3).
  destruct (C77_sign_trace_follows_from_public_data zeros zeros ones ones seed seed pk sk sk r r (zeros 60000) (ones 70000) 0 7 m S l l zeros_ok ones_ok GK GK Hn Bm Lr Lr ltac:(rewrite zlen_zeros; lia) ltac:(rewrite O1; lia) HF HF eq_refl) as (f & F).
  exists f. intros fuel Hf. exact (proj1 (F fuel Hf)).
Qed.
Example C77_ex_compact : forall seed pk sk r m S, key_pair seed pk sk -> 1 <= zlen m <= 64 -> bytes_ok m -> zlen r = 40 -> bytes_ok r -> compact_signed sk r m S ->
  exists f, forall fuel, (f <= fuel)%nat ->
  trace (sign_compact_l Zops zeros fuel 0 r (zeros 3000) 0 m (zlen m) sk) = trace (sign_compact_l Zops ones fuel 0 r (ones 4000) 7 m (zlen m) sk).
Proof.
  intros seed pk sk r m S GK Hn Bm Lr Br HS. destruct (proj1 (proj2 (C77_histories_exist sk r m S)) HS) as (l & HF). destruct ones_ok as (O1 & O2 & O3).
  destruct (C77_compact_trace_follows_from_public_data zeros zeros ones ones seed seed pk sk sk r (zeros 3000) (ones 4000) 0 7 m S l l zeros_ok ones_ok GK GK Hn Bm Lr Br ltac:(rewrite zlen_zeros; lia) ltac:(rewrite O1; lia) HF HF eq_refl) as (f & F).
  exists f. intros fuel Hf. exact (proj1 (F fuel Hf)).
Qed.
(** The observer does see something: a rejected length differs from an accepted one. *)
Example C77_visible : trace (sign_compact_l Zops zeros 0 0 [] [] 0 [] 0 []) <> trace (sign_compact_l Zops zeros 0 0 [] [] 0 [] 1 []).
Proof. intros H. apply (f_equal (fun l => nth 0 l (ERd 0))) in H. discriminate H. Qed.
