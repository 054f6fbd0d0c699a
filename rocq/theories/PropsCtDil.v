(** C70: what the branches and addresses of Dilithium key generation and signing reveal.
    [fuel] bounds the rejection loops.  The hypotheses about keys, signatures and histories are
    met by the run of KatDilithium.v (a key pair and a signature with one rejected attempt). *)
From Coq Require Import ZifyBool ZifyNat.
From Verif Require Import Base SpongePure SpongeProofs2 Tab DilReduce DilPoly DilVec DilSign DilSampleSpec DilEncSpec DilEncProofs DilSignProofs DilPacking DilSample DilSpec DilFips DilFipsProofs DilFipsProofs2 DilFipsProofs3
  BufLemmas DilBuf DilBufSign CtBase CtKeccak CtSpx CtDil CtDilProofs CtDilSpec CtDilTrace4 CtDilTrace5 CtDilTrace6.
Local Open Scope Z_scope.
Ltac Zify.zify_post_hook ::= idtac.
#[local] Opaque Keccak.KeccakF1600_StatePermute.
Import MLDSA.

(** What a run finds in its uninitialised local arrays of [n] bytes. *)
Definition stack_ok (loc : Z -> list Z) : Prop := forall n, 0 <= n -> zlen (loc n) = n.

(** The recorded programs compute the key pair and the signature of the specification. *)
Theorem C70_keygen_value : forall loc pk sk seed P S, stack_ok loc -> 1312 <= zlen pk -> 2560 <= zlen sk -> Enc.bytes 32 seed ->
  keygen seed P S ->
  exists f, forall fuel, (f <= fuel)%nat -> value (keypair_seed_l Zops loc fuel pk sk seed) = Some (0, splice pk 0 P, splice sk 0 S).
Proof.
  intros loc pk sk seed P S LOC Lp Ls [Ld Bd] HK. destruct (keygen_complete seed P S Ld HK) as (f & F). exists f. intros fuel Hf.
  destruct (keypair_seed_c_ok fuel (loc 128) (loc 64) pk sk seed (LOC 128 ltac:(lia)) (LOC 64 ltac:(lia)) Lp Ls ltac:(unfold zlen; lia) Bd) as (r & E & EC).
  rewrite (F fuel Hf) in E. apply Ret_inj in E. subst r. exact (era_keypair_seed loc LOC fuel pk sk seed _ EC).
Qed.
Print Assumptions C70_keygen_value.
Theorem C70_sign_value : forall loc mem so mo mlen sk sig, stack_ok loc -> zlen sk = 2560 -> bytes_ok sk ->
  0 <= so -> so + 2420 <= zlen mem -> 0 <= mo -> 0 <= mlen -> mo + mlen <= zlen mem -> sign sk (slice mem mo mlen) sig ->
  exists f, forall fuel, (f <= fuel)%nat -> value (sign_signature_l Zops loc fuel mem so mo mlen sk) = Some (0, splice mem so sig, 2420).
Proof.
  intros loc mem so mo mlen sk sig LOC Ls Bs Hso Hm Hmo Hml Hmm HS. destruct (sign_complete _ _ _ HS) as (f & F). exists f. intros fuel Hf.
  destruct (sign_signature_c_ok fuel (loc 288) mem so mo mlen sk (LOC 288 ltac:(lia)) ltac:(lia) Bs Hso Hm Hmo Hml Hmm) as (r & E & EC & _).
  rewrite (slice_all sk 2560) in E by (symmetry; exact Ls). rewrite (F fuel Hf) in E. apply Ret_inj in E. subst r. exact (era_sign_signature loc LOC fuel mem so mo mlen sk _ EC).
Qed.
Print Assumptions C70_sign_value.

(** Key generation.  The trace reveals the (public) matrix seed and which half-bytes of the eight
    streams that the secret polynomials are drawn from were rejected; it does not depend on the
    values of the accepted ones, on the signing key K, on the stack or on the output arrays. *)
Theorem C70_keygen_trace : forall loc loc' fuel pk sk seed pk' sk' seed', stack_ok loc -> stack_ok loc' ->
  Enc.bytes 32 seed -> Enc.bytes 32 seed' -> Leak.same_rejections seed seed' ->
  trace (keypair_seed_l Zops loc fuel pk sk seed) = trace (keypair_seed_l Zops loc' fuel pk' sk' seed').
Proof.
  intros loc loc' fuel pk sk seed pk' sk' seed' LOC LOC' [L B] [L' B'] E. apply (keypair_same loc loc' LOC LOC'); try (unfold zlen; lia); try assumption.
  rewrite !slice_all by (unfold zlen; lia). exact E.
Qed.
Print Assumptions C70_keygen_trace.

(** Signing.  Every signature has exactly one history: the list of the attempts with, for each,
    the challenge seed and how the attempt fared ([Leak.history]). *)
Theorem C70_history_exists : forall sk m sig, sign sk m sig <-> exists l, Leak.history sk m sig l.
Proof. intros sk m sig. split; [apply history_exists|]. intros (l & HH). exact (history_sign _ _ _ _ HH). Qed.
Print Assumptions C70_history_exists.
Theorem C70_history_unique : forall sk m sig sig' l l', Leak.history sk m sig l -> Leak.history sk m sig' l' -> l = l' /\ sig = sig'.
Proof. exact history_unique. Qed.
Print Assumptions C70_history_unique.
(** Two signing runs with the same history, message length and first 32 bytes of the key (the public
    matrix seed) have the same trace, whatever the rest of the two secret keys, the messages, the
    memory around them and the stack contain. *)
Theorem C70_sign_trace : forall loc loc' fuel mem so mo mlen sk mem' sk' sig sig' l, stack_ok loc -> stack_ok loc' ->
  zlen sk = 2560 -> zlen sk' = 2560 -> firstn 32 sk = firstn 32 sk' ->
  zlen mem = zlen mem' -> 0 <= so -> so + 2420 <= zlen mem -> 0 <= mo -> 0 <= mlen -> mo + mlen <= zlen mem ->
  Leak.history sk (slice mem mo mlen) sig l -> Leak.history sk' (slice mem' mo mlen) sig' l ->
  trace (sign_signature_l Zops loc fuel mem so mo mlen sk) = trace (sign_signature_l Zops loc' fuel mem' so mo mlen sk').
Proof.
  intros loc loc' fuel mem so mo mlen sk mem' sk' sig sig' l LOC LOC' Ls Ls' ER Lm H1 H2 H3 H4 H5 HH HH'.
  assert (SA : slice sk 0 2560 = sk) by (apply slice_all; symmetry; exact Ls). assert (SA' : slice sk' 0 2560 = sk') by (apply slice_all; symmetry; exact Ls'). assert (ER' : slice sk 0 32 = slice sk' 0 32) by exact ER.
  refine (sign_signature_same loc loc' LOC LOC' fuel mem so mo mlen sk mem' sk' sig sig' l Lm H1 H2 H3 H4 H5 ER' _ _); [rewrite SA; exact HH|rewrite SA'; exact HH'].
Qed.
Print Assumptions C70_sign_trace.
(** The same for the form that writes signature and message, where the arrays may overlap. *)
Theorem C70_crypto_sign_trace : forall loc loc' fuel mem so mo mlen sk mem' sk' sig sig' l, stack_ok loc -> stack_ok loc' ->
  zlen sk = 2560 -> zlen sk' = 2560 -> firstn 32 sk = firstn 32 sk' ->
  zlen mem = zlen mem' -> 0 <= so -> 0 <= mlen -> so + 2420 + mlen <= zlen mem -> 0 <= mo -> mo + mlen <= zlen mem ->
  mo <= so + 2420 \/ so + 2420 + mlen <= mo ->
  Leak.history sk (slice mem mo mlen) sig l -> Leak.history sk' (slice mem' mo mlen) sig' l ->
  trace (crypto_sign_l Zops loc fuel mem so mo mlen sk) = trace (crypto_sign_l Zops loc' fuel mem' so mo mlen sk').
Proof.
  intros loc loc' fuel mem so mo mlen sk mem' sk' sig sig' l LOC LOC' Ls Ls' ER Lm H1 H2 H3 H4 H5 H6 HH HH'.
  assert (SA : slice sk 0 2560 = sk) by (apply slice_all; symmetry; exact Ls). assert (SA' : slice sk' 0 2560 = sk') by (apply slice_all; symmetry; exact Ls'). assert (ER' : slice sk 0 32 = slice sk' 0 32) by exact ER.
  refine (crypto_sign_same loc loc' LOC LOC' fuel mem so mo mlen sk mem' sk' sig sig' l Lm H1 H2 H3 H4 H5 H6 ER' _ _); [rewrite SA; exact HH|rewrite SA'; exact HH'].
Qed.
Print Assumptions C70_crypto_sign_trace.
(** The last entry of a history is known to everyone: it follows from the public key and the
    signature by the computation the verifier does. *)
Theorem C70_accepted_attempt_is_public : forall xi pk sk m sig l o, Enc.bytes 32 xi -> keygen xi pk sk ->
  Leak.history sk m sig (l ++ [o]) -> Leak.accepted pk sig o /\ forall o', Leak.accepted pk sig o' -> o' = o.
Proof.
  intros xi pk sk m sig l o [Lx _] HK HH. pose proof (history_last xi pk sk m sig (l ++ [o]) o Lx HK HH) as A. rewrite last_last in A.
  split; [exact A|]. intros o' A'. exact (accepted_unique _ _ _ _ A' A).
Qed.
Print Assumptions C70_accepted_attempt_is_public.
(** Hence the trace of signing reveals nothing beyond the public key, the signature, the message
    length and the rejected attempts: two generated keys with the same public key that give the
    same signature after rejected attempts that look alike have the same trace. *)
Theorem C70_sign_trace_follows_from_public_data : forall loc loc' fuel mem so mo mlen xi sk mem' xi' sk' pk sig l l',
  stack_ok loc -> stack_ok loc' -> Enc.bytes 32 xi -> Enc.bytes 32 xi' -> keygen xi pk sk -> keygen xi' pk sk' ->
  zlen mem = zlen mem' -> 0 <= so -> so + 2420 <= zlen mem -> 0 <= mo -> 0 <= mlen -> mo + mlen <= zlen mem ->
  Leak.history sk (slice mem mo mlen) sig l -> Leak.history sk' (slice mem' mo mlen) sig l' -> removelast l = removelast l' ->
  trace (sign_signature_l Zops loc fuel mem so mo mlen sk) = trace (sign_signature_l Zops loc' fuel mem' so mo mlen sk').
Proof.
  intros loc loc' fuel mem so mo mlen xi sk mem' xi' sk' pk sig l l' LOC LOC' [Lx Bx] [Lx' Bx'] HK HK'. intros Lm Hso Hm Hmo Hml Hmm HH HH' E.
  pose proof (history_public xi xi' pk sk sk' (slice mem mo mlen) (slice mem' mo mlen) sig l l' Lx Lx' HK HK' HH HH' E) as EL.
  subst l'. clear E.
  assert (G : forall xi sk, zlen xi = 32 -> keygen xi pk sk -> zlen sk = 2560 /\ firstn 32 sk = pk_rho pk).
  { clear. intros xi sk Lx HK. destruct (keygen_fields _ _ _ Lx HK) as (rho & K & A & s1 & s2 & HF & E & _ & P & _). split.
    - destruct HF as ([L1 B1] & [L2 B2] & [L3 B3] & I1 & I2 & I0).
      assert (W: forall v, Enc.vec_in (-2) 2 v -> eta_vec v).
      { intros v [L F]. split; [exact L|]. eapply Forall_impl; [|exact F]. intros a [La Fa]. split; [exact La|]. eapply Forall_impl; [|exact Fa]. cbv beta. intros; lia. }
      destruct (pack_sk_ok rho (H pk 64) K _ s1 s2 L1 L3 L2 B1 B3 B2 I0 (W _ I1) (W _ I2)) as (sk0 & E0 & L & _). rewrite (sk_enc _ _ _ _ _ _ I0 I1 I2) in E0. apply Ret_inj in E0. rewrite E, E0. exact L.
    - rewrite P, E. unfold sk_encode. rewrite firstn_app. destruct HF as ([L1 _] & _). replace (32 - length rho)%nat with 0%nat by lia. rewrite firstn_all2 by lia. cbn [firstn]. apply app_nil_r. }
  destruct (G xi sk Lx HK) as [S1 S2]. destruct (G xi' sk' Lx' HK') as [S1' S2'].
  refine (C70_sign_trace loc loc' fuel mem so mo mlen sk mem' sk' sig sig l LOC LOC' S1 S1' _ Lm Hso Hm Hmo Hml Hmm HH HH'). now rewrite S2, S2'.
Qed.
Print Assumptions C70_sign_trace_follows_from_public_data.

(** The hypotheses are met. *)
Definition ones (n : Z) : list Z := repeat 255 (Z.to_nat n).
Lemma zeros_ok : stack_ok zeros. Proof. intros n Hn. now apply zlen_zeros. Qed.
Lemma ones_ok : stack_ok ones. Proof. intros n Hn. unfold ones, zlen. rewrite repeat_length. lia. Qed.
(** A seed that gives a key pair looks like itself, so its trace is the same on any two stacks and
    with any two output arrays. *)
Lemma self_rejections xi pk sk : keygen xi pk sk -> Leak.same_rejections xi xi.
Proof.
  intros (A & s1 & s2 & _ & (_ & _ & HS) & _). split; [reflexivity|].
  assert (G : forall seed a, rej_bounded seed a -> Leak.alike seed seed).
  { intros seed a (n & E & L). exists n. split; [reflexivity|]. unfold Leak.accepts. subst a. rewrite firstn_length in L.
    assert (C : forall l, length (Sample.eta_accepted l) = count_occ bool_dec (map (fun z => z <? 15) (Sample.half_bytes l)) true).
    { intros l. unfold Sample.eta_accepted. rewrite map_length. generalize (Sample.half_bytes l). induction l0 as [|x l0 IH]; [reflexivity|]. cbn [filter map count_occ]. destruct (x <? 15); cbn [length]; [destruct (bool_dec true true); [now rewrite IH|congruence]|destruct (bool_dec false true); [congruence|exact IH]]. }
    rewrite <- C. lia. }
  intros r Hr. destruct (Z.lt_ge_cases r 4) as [R|R].
  - apply (G _ (nth (Z.to_nat r) s1 [])). destruct (HS (Z.to_nat r) ltac:(lia)) as [X _]. now rewrite Z2Nat.id in X by lia.
  - apply (G _ (nth (Z.to_nat (r - 4)) s2 [])). destruct (HS (Z.to_nat (r - 4)) ltac:(lia)) as [_ X]. rewrite Z2Nat.id in X by lia. now replace (r - 4 + 4) with r in X by lia.
Qed.
Example C70_ex_keygen : forall fuel seed P S, Enc.bytes 32 seed -> keygen seed P S ->
  trace (keypair_seed_l Zops zeros fuel (zeros 1312) (zeros 2560) seed) = trace (keypair_seed_l Zops ones fuel (ones 1312) (ones 2560) seed).
Proof. intros fuel seed P S B HK. apply C70_keygen_trace; [apply zeros_ok|apply ones_ok|exact B|exact B|]. eapply self_rejections; exact HK. Qed.
(** The rejection pattern does not determine the accepted values: two streams of 128 bytes with the
    same pattern of 256 accepted half-bytes that give different polynomials. *)
Example C70_ex_pattern : let p s := map (fun z => z <? 15) (Sample.half_bytes s) in
  p (repeat 0 128) = p (repeat 0x41 128) /\ count_occ bool_dec (p (repeat 0 128)) true = 256%nat /\
  firstn 4 (Sample.eta_accepted (repeat 0 128)) = [2; 2; 2; 2] /\ firstn 4 (Sample.eta_accepted (repeat 0x41 128)) = [1; -2; 1; -2].
Proof. cbv zeta. repeat split; vm_compute; reflexivity. Qed.
(** One key and one message in two memories and on two stacks. *)
Example C70_ex_sign : forall fuel xi pk sk sig, let M := [1; 2; 3; 4; 5] in Enc.bytes 32 xi -> keygen xi pk sk -> sign sk M sig ->
  trace (sign_signature_l Zops zeros fuel (M ++ zeros 2420) 5 0 5 sk) = trace (sign_signature_l Zops ones fuel (M ++ ones 2420) 5 0 5 sk).
Proof.
  intros fuel xi pk sk sig M B HK HS. assert (LM : zlen M = 5) by reflexivity.
  assert (L1 : zlen (M ++ zeros 2420) = 2425) by (rewrite zlen_app, zlen_zeros by lia; lia).
  assert (L2 : zlen (M ++ ones 2420) = 2425) by (rewrite zlen_app, ones_ok by lia; lia).
  assert (S1 : slice (M ++ zeros 2420) 0 5 = M) by (rewrite slice_app_l by lia; apply slice_all; lia).
  assert (S2 : slice (M ++ ones 2420) 0 5 = M) by (rewrite slice_app_l by lia; apply slice_all; lia).
  destruct (history_exists _ _ _ HS) as (l & HH). clearbody M.
  refine (C70_sign_trace_follows_from_public_data zeros ones fuel (M ++ zeros 2420) 5 0 5 xi sk (M ++ ones 2420) xi sk pk sig l l zeros_ok ones_ok B B HK HK _ _ _ _ _ _ _ _ eq_refl).
  1: now rewrite L1, L2. 1,3,4: lia. 1,2: rewrite L1; lia. 1: rewrite S1; exact HH. rewrite S2; exact HH.
Qed.
