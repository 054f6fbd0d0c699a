(** Property theorems about dilithium2/sign.c as a whole (C28).  [fuel] arguments bound the
    rejection loops; [Ret None] means "bound reached", [Ret (Some x)] that the call returned x. *)
From Verif Require Import Base SpongePure Tab DilReduce DilPoly DilVec DilSign DilEncSpec DilEncProofs DilSignProofs DilPacking DilSample.

(** Every signature that crypto_sign_signature returns under a key pair generated from any
    seed is accepted by crypto_sign_verify, whatever the number of rejection iterations. *)
Theorem C28_sign_then_verify : forall f1 f2 f3 seed m pk sk sig, Enc.bytes 32 seed ->
  keypair_seed f1 seed = Ret (Some (pk, sk)) ->
  sign_signature f2 m sk = Ret (Some sig) -> (f2 <= f3)%nat ->
  length sig = Z.to_nat 2420 /\ sign_verify f3 sig 2420 m pk = Ret (Some 0).
Proof.
  intros f1 f2 f3 seed m pk sk sig [HL HB] HK HS Hf. destruct (sign_verify_correct f1 f2 f3 seed m pk sk sig HL HB HK HS Hf) as [H1 H2].
  split; [unfold zlen in H1; lia|exact H2].
Qed.
Print Assumptions C28_sign_then_verify.

(** crypto_sign followed by crypto_sign_open returns the message and its length. *)
Theorem C28_sign_then_open : forall f1 f2 f3 seed m pk sk sm mbuf mlen, Enc.bytes 32 seed ->
  keypair_seed f1 seed = Ret (Some (pk, sk)) -> crypto_sign f2 m sk = Ret (Some sm) -> (f2 <= f3)%nat ->
  zlen m <= zlen mbuf ->
  zlen sm = zlen m + 2420 /\
  sign_open f3 mbuf mlen sm (zlen sm) pk = Ret (Some (0, m ++ slice mbuf (zlen m) (zlen mbuf - zlen m), zlen m)).
Proof.
  intros f1 f2 f3 seed m pk sk sm mbuf mlen [HL HB] HK HS Hf Hm. unfold crypto_sign in HS.
  destruct (sign_signature f2 m sk) as [[sig|]|] eqn:ES; cbn [bind] in HS; [|discriminate HS|discriminate HS]. apply Ret_inj, Some_inj in HS. subst sm.
  destruct (sign_verify_correct f1 f2 f3 seed m pk sk sig HL HB HK ES Hf) as [H1 H2].
  pose proof (zlen_nonneg m). rewrite zlen_app. split; [lia|]. unfold sign_open.
  destruct (Z.ltb_spec (zlen sig + zlen m) 2420); [lia|]. cbv zeta.
  replace (zlen sig + zlen m - 2420) with (zlen m) by lia.
  rewrite slice_app_l, (slice_all sig), slice_app_r by lia. rewrite H1, Z.sub_diag, (slice_all m) by reflexivity. rewrite H2. cbn [bind]. change (negb (0 =? 0)) with false. cbv iota.
  rewrite copy_ok by (rewrite ?zlen_app; lia). cbn [bind]. rewrite slice_0, slice_app_r by lia. rewrite H1, Z.sub_diag, (slice_all m) by reflexivity. cbn [app]. rewrite !Z.add_0_l, Z.sub_0_r. reflexivity.
Qed.
Print Assumptions C28_sign_then_open.

(** None of the calls has undefined behaviour, on any key, message or signature bytes of the
    documented sizes (no signed overflow, no access outside an array). *)
Theorem C28_no_undefined_behaviour : forall fuel seed m sk pk sig,
  Enc.bytes 32 seed -> Enc.bytes 2560 sk -> Enc.bytes 1312 pk -> Enc.bytes 2420 sig ->
  keypair_seed fuel seed <> Undef /\ sign_signature fuel m sk <> Undef /\ sign_verify fuel sig 2420 m pk <> Undef.
Proof.
  intros fuel seed m sk pk sig [Ls Bs] [Lk Bk] [Lp Bp] [Lg Bg]. split; [|split].
  - unfold keypair_seed. cbv zeta. set (sb := shake256_bytes (slice seed 0 32) 128).
    assert (Lb: zlen sb = 128) by (apply (sponge_bytes_len 136 0x1F); lia). assert (Bb: bytes_ok sb) by (apply (sponge_bytes_ok 136 0x1F); lia).
    destruct (keygen_spec fuel (slice sb 0 32) (slice sb 32 64) (slice sb 96 32)) as (r & E & _); try (apply bytes_ok_slice; exact Bb); try (apply zlen_slice; lia).
    rewrite E. discriminate.
  - destruct (sign_signature_spec fuel m sk Lk Bk) as (r & E & _). rewrite E. discriminate.
  - destruct (verify_spec fuel sig m pk Lp Bp Lg Bg) as (r & E & _). rewrite E. discriminate.
Qed.
Print Assumptions C28_no_undefined_behaviour.

