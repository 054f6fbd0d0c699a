(** Property theorems: dilithium2/sign.c computes the algorithms of DilFips.v (C55).
    [fuel] arguments bound the rejection loops; [Ret None] means "bound reached".  The
    hypotheses of these theorems are met by the run of KatDilithium.v (the key pair, a
    signature with one rejected attempt, and its verification). *)
From Verif Require Import Base SpongePure Tab DilReduce DilPoly DilVec DilSign DilEncSpec DilEncProofs DilSignProofs DilPacking DilSample DilSpec DilFips DilFipsProofs DilFipsProofs2 DilFipsProofs3.
From Verif Require HybridRealProofs.

(** A key pair that the code returns for a seed is the one the specification defines ... *)
Theorem C55_keygen_sound : forall f seed pk sk, Enc.bytes 32 seed ->
  keypair_seed f seed = Ret (Some (pk, sk)) -> MLDSA.keygen seed pk sk.
Proof. intros f seed pk sk [L _]. now apply keygen_sound. Qed.
Print Assumptions C55_keygen_sound.

(** ... and whenever the specification defines one, the code returns it. *)
Theorem C55_keygen_complete : forall seed pk sk, Enc.bytes 32 seed -> MLDSA.keygen seed pk sk ->
  exists f, forall f', (f <= f')%nat -> keypair_seed f' seed = Ret (Some (pk, sk)).
Proof. intros seed pk sk [L _]. now apply keygen_complete. Qed.
Print Assumptions C55_keygen_complete.

(** The secret keys for which the signing theorems are stated include every generated one. *)
Theorem C55_generated_keys : forall f seed pk sk, Enc.bytes 32 seed ->
  keypair_seed f seed = Ret (Some (pk, sk)) -> MLDSA.secret_key sk.
Proof. intros f seed pk sk [L B] E. eapply keygen_secret_key; [exact L|]. eapply keygen_sound; eassumption. Qed.
Print Assumptions C55_generated_keys.

(** A signature that the code returns is that of the first attempt which the specification
    does not reject ... *)
Theorem C55_sign_sound : forall f m sk sig, MLDSA.secret_key sk ->
  sign_signature f m sk = Ret (Some sig) -> MLDSA.sign sk m sig.
Proof. exact sign_sound. Qed.
Print Assumptions C55_sign_sound.

(** ... and whenever the specification defines a signature, the code returns it. *)
Theorem C55_sign_complete : forall m sk sig, MLDSA.sign sk m sig ->
  exists f, forall f', (f <= f')%nat -> sign_signature f' m sk = Ret (Some sig).
Proof. exact sign_complete. Qed.
Print Assumptions C55_sign_complete.

(** Verification returns 0 exactly on the signatures that satisfy the specification, and -1
    exactly on the others (for every public key and signature of the right length). *)
Theorem C55_verify_exact : forall f sig m pk v, Enc.bytes 1312 pk -> Enc.bytes 2420 sig ->
  sign_verify f sig 2420 m pk = Ret (Some v) -> (v = 0 /\ MLDSA.verify pk m sig) \/ (v = -1 /\ ~ MLDSA.verify pk m sig).
Proof.
  intros f sig m pk v [Lp Bp] [Ls Bs] E.
  assert (V: v = 0 \/ v = -1).
  { destruct (verify_spec f sig m pk Lp Bp Ls Bs) as (r & E' & HN & HS). rewrite E in E'. apply Ret_inj in E'. subst r.
    destruct (unpack_sig_sound sig Ls Bs) as (s & EU & HU). destruct s as [[[c z] h]|]; [|specialize (HN EU); apply Some_inj in HN; now right].
    destruct (HU c z h eq_refl) as (Lc & Bc & Hz & Hh & EP). destruct (HS c z h EU) as (H1 & H2 & H3).
    destruct (poly_challenge f c) as [cp|] eqn:EC, (matrix_expand f (slice pk 0 32)) as [mat|] eqn:EM.
    2-4: destruct (small_z_dec z Hz) as [Hs|Hs]; [specialize (H3 Hs ltac:(auto)); discriminate H3|specialize (H1 Hs); apply Some_inj in H1; now right].
    destruct (small_z_dec z Hz) as [Hs|Hs]; [|specialize (H1 Hs); apply Some_inj in H1; now right].
    destruct (H2 Hs cp mat eq_refl eq_refl) as (w & u & buf & v' & _ & _ & Ev & Hv & _). apply Some_inj in Ev. subst v'. exact Hv. }
  destruct V as [->| ->]; [left; split; [reflexivity|]; eapply verify_sound; eassumption|]. right. split; [reflexivity|]. intros HV.
  destruct (verify_complete sig m pk Lp Bp HV) as [HA _]. destruct (HA f) as [X|X]; rewrite X in E; apply Ret_inj in E; discriminate E.
Qed.
Print Assumptions C55_verify_exact.

(** Verification reaches its verdict on every signature that satisfies the specification. *)
Theorem C55_verify_complete : forall sig m pk, Enc.bytes 1312 pk -> MLDSA.verify pk m sig ->
  exists f, forall f', (f <= f')%nat -> sign_verify f' sig 2420 m pk = Ret (Some 0).
Proof. intros sig m pk [L B] HV. now apply verify_complete. Qed.
Print Assumptions C55_verify_complete.

(** Consequence about the specification alone: its signatures verify. *)
Theorem C55_specification_round_trip : forall seed pk sk m sig, Enc.bytes 32 seed ->
  MLDSA.keygen seed pk sk -> MLDSA.sign sk m sig -> MLDSA.verify pk m sig.
Proof.
  intros seed pk sk m sig [L B] HK HS. destruct (keygen_complete seed pk sk L HK) as (f1 & F1). destruct (sign_complete m sk sig HS) as (f2 & F2).
  pose proof (F1 f1 (le_n _)) as EK. pose proof (F2 f2 (le_n _)) as ES.
  destruct (sign_verify_correct f1 f2 f2 seed m pk sk sig L B EK ES (le_n _)) as [Lg EV].
  destruct (HybridRealProofs.dil_key_shape f1 seed pk sk EK) as (Lp & Bp & Lk & Bk).
  destruct (HybridRealProofs.dil_sig_shape f2 m sk sig Lk Bk ES) as [_ Bg].
  exact (verify_sound f2 sig m pk Lp Bp Lg Bg EV).
Qed.
Print Assumptions C55_specification_round_trip.

(** Not vacuous: a signature of zeros decodes, is refused, and does not satisfy the specification. *)
Example C55_verify_nonvacuous : sign_verify 1 (repeat 0 2420) 2420 [] (repeat 0 1312) = Ret (Some (-1)) /\ ~ MLDSA.verify (repeat 0 1312) [] (repeat 0 2420).
Proof.
  assert (E: sign_verify 1 (repeat 0 2420) 2420 [] (repeat 0 1312) = Ret (Some (-1))) by (vm_compute; reflexivity).
  split; [exact E|]. apply C55_verify_exact in E as [[E _]|[_ E]]; [discriminate E|exact E| |]; (split; [reflexivity|]); apply Forall_forall; intros x Hx; apply repeat_spec in Hx; lia.
Qed.
