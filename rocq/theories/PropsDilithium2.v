(** Property theorems about the Dilithium-2 encodings, samplers and open/verify decision
    rules (C26, C27, C29, C30).  Specifications: [Enc] (DilEncSpec.v), [Sample]
    (DilSampleSpec.v), both independent of the model. *)
From Verif Require Import Base Keccak SpongePure SpongeProofs Tab DilReduce DilPoly DilPack DilVec DilHint DilPacking DilSign DilEncSpec DilEncProofs DilSampleSpec DilSample.

(** ** C26: encodings *)
(** The packed bytes of a polynomial are the little-endian base-2^w number whose digits are
    the (shifted) coefficients; unpacking gives the polynomial back. *)
Theorem C26_eta : forall a, Enc.poly_in (-2) 2 a ->
  exists b, polyeta_pack a = Ret b /\ Enc.bytes 96 b /\ polyeta_unpack b = a /\ Enc.value 8 b = Enc.value 3 (map (fun x => 2 - x) a).
Proof. exact eta_enc. Qed.
Print Assumptions C26_eta.
Theorem C26_t1 : forall a, Enc.poly_in 0 1023 a ->
  exists b, polyt1_pack a = Ret b /\ Enc.bytes 320 b /\ polyt1_unpack b = a /\ Enc.value 8 b = Enc.value 10 a.
Proof. exact t1_enc. Qed.
Print Assumptions C26_t1.
Theorem C26_t0 : forall a, Enc.poly_in (-4095) 4096 a ->
  exists b, polyt0_pack a = Ret b /\ Enc.bytes 416 b /\ polyt0_unpack b = a /\ Enc.value 8 b = Enc.value 13 (map (fun x => 4096 - x) a).
Proof. exact t0_enc. Qed.
Print Assumptions C26_t0.
Theorem C26_z : forall a, Enc.poly_in (-131071) 131072 a ->
  exists b, polyz_pack a = Ret b /\ Enc.bytes 576 b /\ polyz_unpack b = a /\ Enc.value 8 b = Enc.value 18 (map (fun x => 131072 - x) a).
Proof. exact z_enc. Qed.
Print Assumptions C26_z.
(** w1 has no decoder; the encoding is injective because of the value equation. *)
Theorem C26_w1 : forall a, Enc.poly_in 0 63 a ->
  exists b, polyw1_pack a = Ret b /\ Enc.bytes 192 b /\ Enc.value 8 b = Enc.value 6 a.
Proof. exact w1_enc. Qed.
Print Assumptions C26_w1.
Theorem C26_w1_injective : forall a a' b, Enc.poly_in 0 63 a -> Enc.poly_in 0 63 a' ->
  polyw1_pack a = Ret b -> polyw1_pack a' = Ret b -> a = a'.
Proof. exact w1_pack_inj. Qed.
Print Assumptions C26_w1_injective.
(** Every byte string decodes to coefficients in the coding range, and re-encodes to itself. *)
Theorem C26_decode_any : forall b,
  (Enc.bytes 320 b -> Enc.poly_in 0 1023 (polyt1_unpack b) /\ polyt1_pack (polyt1_unpack b) = Ret b) /\
  (Enc.bytes 416 b -> Enc.poly_in (-4095) 4096 (polyt0_unpack b) /\ polyt0_pack (polyt0_unpack b) = Ret b) /\
  (Enc.bytes 576 b -> Enc.poly_in (-131071) 131072 (polyz_unpack b) /\ polyz_pack (polyz_unpack b) = Ret b) /\
  (Enc.bytes 96 b -> Enc.poly_in (-5) 2 (polyeta_unpack b) /\ polyeta_pack (polyeta_unpack b) = Ret b).
Proof.
  intros b. repeat split; intros; match goal with H : Enc.bytes _ _ |- _ => destruct H as [HL HB] end;
  (apply t1_unpack_in || apply t1_canon || apply t0_unpack_in || apply t0_canon || apply z_unpack_in || apply z_canon || apply eta_unpack_in || apply eta_canon); (exact HB || (clear - HL; lia)).
Qed.
Print Assumptions C26_decode_any.

Theorem C26_public_key : forall rho t1, Enc.bytes 32 rho -> Enc.vec_in 0 1023 t1 ->
  exists pk, pack_pk rho t1 = Ret pk /\ Enc.bytes 1312 pk /\ unpack_pk pk = (rho, t1).
Proof.
  intros rho t1 [HL HB] HV. destruct (pack_pk_ok rho t1 HL HB HV) as (pk & E & H1 & H2 & H3). exists pk. repeat split; assumption.
Qed.
Print Assumptions C26_public_key.
Theorem C26_public_key_any_bytes : forall pk, Enc.bytes 1312 pk ->
  Enc.vec_in 0 1023 (snd (unpack_pk pk)) /\ pack_pk (fst (unpack_pk pk)) (snd (unpack_pk pk)) = Ret pk.
Proof. intros pk [HL HB]. split; [now apply unpack_pk_in|now apply pk_canonical]. Qed.
Print Assumptions C26_public_key_any_bytes.
Theorem C26_secret_key : forall rho tr key t0 s1 s2,
  Enc.bytes 32 rho -> Enc.bytes 64 tr -> Enc.bytes 32 key -> Enc.vec_in (-4095) 4096 t0 -> Enc.vec_in (-2) 2 s1 -> Enc.vec_in (-2) 2 s2 ->
  exists sk, pack_sk rho tr key t0 s1 s2 = Ret sk /\ Enc.bytes 2560 sk /\ unpack_sk sk = (rho, tr, key, t0, s1, s2).
Proof.
  intros rho tr key t0 s1 s2 [HR HRb] [HT HTb] [HK HKb] H0 [L1 H1] [L2 H2].
  assert (W: forall v, Forall (Enc.poly_in (-2) 2) v -> Forall (poly_in (-5) 2) v).
  { intros v HF. eapply Forall_imp; [|exact HF]. intros a [HL Ha]. split; [exact HL|]. eapply Forall_imp; [|exact Ha]. cbv beta. lia. }
  destruct (pack_sk_ok rho tr key t0 s1 s2 HR HT HK HRb HTb HKb H0 (conj L1 (W _ H1)) (conj L2 (W _ H2))) as (sk & E & A1 & A2 & A3).
  exists sk. repeat split; assumption.
Qed.
Print Assumptions C26_secret_key.
Theorem C26_signature : forall c z h, Enc.bytes 32 c -> Enc.vec_in (-131071) 131072 z -> Enc.hints h ->
  exists sig, pack_sig c z h = Ret sig /\ Enc.bytes 2420 sig /\ unpack_sig sig = Ret (Some (c, z, h)).
Proof.
  intros c z h [HC HCb] HZ HH. apply hints_eq in HH. destruct (pack_sig_ok c z h HC HCb HZ HH) as (sig & E & A1 & A2 & A3).
  exists sig. repeat split; assumption.
Qed.
Print Assumptions C26_signature.
(** a concrete instance of the hypotheses of C26_signature *)
Definition sample_hints : list (list Z) :=
  map (fun i => map (fun j => if (j mod 64 =? i) && (0 <? i) then 1 else 0) (zseq 0 256)) [0; 1; 2; 3].
Example C26_witness : Enc.bytes 32 (zseq 100 32) /\ Enc.vec_in (-131071) 131072 (map (fun i => zseq (1000 * i - 2000) 256) [0; 1; 2; 3]) /\
  Enc.hints sample_hints /\ Enc.hint_bytes sample_hints =
    [1; 65; 129; 193; 2; 66; 130; 194; 3; 67; 131; 195] ++ repeat 0 68 ++ [0; 4; 8; 12].
Proof.
  split; [|split; [|split]].
  - split; [reflexivity|]. apply Forall_forall. intros x Hx. apply in_zseq in Hx. lia.
  - split; [reflexivity|]. apply Forall_map, Forall_forall. intros i Hi. split; [reflexivity|]. apply Forall_forall. intros x Hx. apply in_zseq in Hx.
    assert (0 <= i <= 3) by (cbn in Hi; lia). lia.
  - split; [split; [reflexivity|]|vm_compute; discriminate]. unfold sample_hints. apply Forall_map, Forall_forall. intros i Hi. split; [reflexivity|].
    apply Forall_map, Forall_forall. intros j _. destruct (_ && _); lia.
  - vm_compute. reflexivity.
Qed.

(** ** C27: signature decoding is canonical *)
Theorem C27_decode_total_and_canonical : forall sig, Enc.bytes 2420 sig ->
  exists r, unpack_sig sig = Ret r /\
  forall c z h, r = Some (c, z, h) ->
    Enc.bytes 32 c /\ Enc.vec_in (-131071) 131072 z /\ Enc.hints h /\
    slice sig 2336 84 = Enc.hint_bytes h /\ pack_sig c z h = Ret sig.
Proof.
  intros sig [HL HB]. change (zlen sig = 2420) in HL. destruct (unpack_sig_sound sig HL HB) as (r & E & H). exists r. split; [exact E|]. intros c z h Er.
  destruct (H c z h Er) as (H1 & H2 & H3 & H4 & H5). split; [split; assumption|]. split; [exact H3|]. split; [now apply hints_eq|]. split; [|exact H5].
  destruct (hint_unpack_sound (slice sig 2336 84)) as (r' & E' & G); [apply zlen_slice; lia|now apply bytes_ok_slice|].
  unfold unpack_sig in E. rewrite E' in E. cbn [bind] in E. apply Ret_inj in E. rewrite Er in E. destruct r' as [h'|]; [|discriminate E].
  apply Some3_inj in E as (_ & _ & Eh). subst h'. destruct (G h eq_refl) as (G1 & _ & _ & G4). rewrite hint_bytes_eq by exact G1. exact G4.
Qed.
Print Assumptions C27_decode_total_and_canonical.
Theorem C27_injective : forall s1 s2 x, Enc.bytes 2420 s1 -> Enc.bytes 2420 s2 ->
  unpack_sig s1 = Ret (Some x) -> unpack_sig s2 = Ret (Some x) -> s1 = s2.
Proof.
  intros s1 s2 [[c z] h] [L1 B1] [L2 B2] E1 E2.
  destruct (unpack_sig_sound s1 L1 B1) as (r1 & F1 & H1). destruct (unpack_sig_sound s2 L2 B2) as (r2 & F2 & H2).
  rewrite E1 in F1. rewrite E2 in F2. apply Ret_inj in F1. apply Ret_inj in F2.
  destruct (H1 c z h (eq_sym F1)) as (_ & _ & _ & _ & P1). destruct (H2 c z h (eq_sym F2)) as (_ & _ & _ & _ & P2).
  rewrite P1 in P2. now apply Ret_inj in P2.
Qed.
Print Assumptions C27_injective.
(** Not every byte string decodes: a repeated hint position is refused. *)
Example C27_witness : unpack_sig (zeros 2336 ++ [7; 7] ++ zeros 78 ++ [2; 2; 2; 2]) = Ret None
  /\ exists x, unpack_sig (zeros 2336 ++ [7; 9] ++ zeros 78 ++ [2; 2; 2; 2]) = Ret (Some x).
Proof. split; [vm_compute; reflexivity|]. eexists. vm_compute. reflexivity. Qed.

(** ** C29: samplers, for every byte stream produced by the extendable output function *)
(** [xof_of s] hands out the stream [s]; the result is determined by the specification:
    the first 256 accepted candidates, once the stream prefix read contains that many. *)
Theorem C29_uniform : forall s fuel, (forall k, 0 <= k -> 0 <= s k < 256) ->
  poly_uniform_x fuel (xof_of s) =
    (let a := firstn 256 (Sample.uniform_accepted (Sample.prefix s (840 + 168 * fuel))) in
     if (length a =? 256)%nat then Some a else None).
Proof. intros s fuel Hs. rewrite (poly_uniform_spec s fuel Hs). generalize (firstn 256 (Sample.uniform_accepted (Sample.prefix s (840 + 168 * fuel)))). reflexivity. Qed.
Print Assumptions C29_uniform.
Theorem C29_uniform_range : forall s fuel a, (forall k, 0 <= k -> 0 <= s k < 256) ->
  poly_uniform_x fuel (xof_of s) = Some a -> Enc.poly_in 0 (8380417 - 1) a.
Proof.
  intros s fuel a Hs E. destruct (poly_uniform_in s fuel a Hs E) as [HL HF]. split; [exact HL|]. eapply Forall_imp; [|exact HF]. unfold Q. cbv beta. lia.
Qed.
Print Assumptions C29_uniform_range.
Theorem C29_eta : forall s fuel, (forall k, 0 <= k -> 0 <= s k < 256) ->
  poly_uniform_eta_x fuel (xof_of s) =
    (let a := firstn 256 (Sample.eta_accepted (Sample.prefix s (136 + 136 * fuel))) in
     if (length a =? 256)%nat then Some a else None).
Proof. intros s fuel Hs. rewrite (poly_uniform_eta_spec s fuel Hs). generalize (firstn 256 (Sample.eta_accepted (Sample.prefix s (136 + 136 * fuel)))). reflexivity. Qed.
Print Assumptions C29_eta.
Theorem C29_eta_range : forall s fuel a, (forall k, 0 <= k -> 0 <= s k < 256) ->
  poly_uniform_eta_x fuel (xof_of s) = Some a -> Enc.poly_in (-2) 2 a.
Proof. intros s fuel a Hs E. exact (poly_uniform_eta_in s fuel a Hs E). Qed.
Print Assumptions C29_eta_range.
Theorem C29_mask : forall s, (forall k, 0 <= k -> 0 <= s k < 256) ->
  Enc.poly_in (-131071) 131072 (poly_uniform_gamma1_x (xof_of s)) /\
  Enc.value 18 (map (fun x => 131072 - x) (poly_uniform_gamma1_x (xof_of s))) = Enc.value 8 (Sample.prefix s 576).
Proof.
  intros s Hs. split; [exact (poly_uniform_gamma1_in s Hs)|]. rewrite prefix_zseq, !value_leval. unfold poly_uniform_gamma1_x.
  assert (E: slice (xof_of s 0 680) 0 576 = map s (zseq 0 576)).
  { unfold xof_of. change (Z.to_nat 680) with (576 + 104)%nat. rewrite zseq_app, map_app.
    rewrite slice_app_l by (rewrite ?zlen_map, ?zlen_zseq; lia). apply slice_all. now rewrite zlen_map, zlen_zseq. }
  rewrite E. apply (z_unpack_ok 64); [now rewrite map_length, zseq_length|]. apply bytes_stream; [exact Hs|lia].
Qed.
Print Assumptions C29_mask.
Theorem C29_challenge_sound : forall s fuel c, (forall k, 0 <= k -> 0 <= s k < 256) ->
  poly_challenge_x fuel (xof_of s) = Some c ->
  Enc.poly_in (-1) 1 c /\ Sample.nonzero c = 39 /\
  exists n, forall n', (n <= n')%nat -> Sample.challenge (Sample.prefix s n') = Some c.
Proof.
  intros s fuel c Hs E. destruct (poly_challenge_in s fuel c Hs E) as (HL & HF & HN).
  split; [split; [unfold zlen in HL; lia|]|split; [exact HN|exact (poly_challenge_sound s fuel c Hs E)]]. eapply Forall_imp; [|exact HF]. unfold pm1. intros; lia.
Qed.
Print Assumptions C29_challenge_sound.
Theorem C29_challenge_terminates : forall s n c fuel, (forall k, 0 <= k -> 0 <= s k < 256) -> (8 <= n <= fuel)%nat ->
  Sample.challenge (Sample.prefix s n) = Some c -> poly_challenge_x fuel (xof_of s) = Some c.
Proof. intros s n c fuel Hs Hn E. apply (poly_challenge_complete s n c fuel Hs); [lia|lia|exact E]. Qed.
Print Assumptions C29_challenge_terminates.
(** The streams the code uses are of this form. *)
Theorem C29_shake_streams : forall seed nonce,
  (exists s, (forall k, 0 <= k -> 0 <= s k < 256) /\ forall fuel, poly_uniform fuel seed nonce = poly_uniform_x fuel (xof_of s)) /\
  (exists s, (forall k, 0 <= k -> 0 <= s k < 256) /\ (forall fuel, poly_uniform_eta fuel seed nonce = poly_uniform_eta_x fuel (xof_of s)) /\
             poly_uniform_gamma1 seed nonce = poly_uniform_gamma1_x (xof_of s)) /\
  (exists s, (forall k, 0 <= k -> 0 <= s k < 256) /\ forall fuel, poly_challenge fuel seed = poly_challenge_x fuel (xof_of s)).
Proof.
  intros seed nonce. split; [|split].
  - destruct (stream128_xof seed nonce) as (s & Hs & E). exists s. split; [exact Hs|]. intros fuel. now apply poly_uniform_x_ext.
  - destruct (stream256_xof seed nonce) as (s & Hs & E). exists s. split; [exact Hs|]. split; [intros fuel; now apply poly_uniform_eta_x_ext|].
    unfold poly_uniform_gamma1, poly_uniform_gamma1_x. now rewrite E by lia.
  - destruct (shake256_xof_of (slice seed 0 32)) as (s & Hs & E). exists s. split; [exact Hs|]. intros fuel. now apply poly_challenge_x_ext.
Qed.
Print Assumptions C29_shake_streams.
(** a stream on which all samplers succeed, and one with rejections *)
Definition some_stream (k : Z) : Z := (k * k * 7 + k * 31 + 5) mod 256.
Example C29_witness : (forall k, 0 <= k -> 0 <= some_stream k < 256) /\
  (exists a, poly_uniform_x 3 (xof_of some_stream) = Some a) /\ (exists a, poly_uniform_eta_x 3 (xof_of some_stream) = Some a) /\
  (exists c, poly_challenge_x 99 (xof_of some_stream) = Some c).
Proof.
  split; [intros k _; apply Z.mod_pos_bound; lia|]. repeat split; eexists; vm_compute; reflexivity.
Qed.

(** ** C30: lengths and failure *)
Theorem C30_verify_length : forall fuel sig siglen m pk, siglen <> 2420 -> sign_verify fuel sig siglen m pk = Ret (Some (-1)).
Proof. intros fuel sig siglen m pk H. unfold sign_verify. destruct (Z.eqb_spec siglen 2420); [contradiction|reflexivity]. Qed.
Print Assumptions C30_verify_length.
Theorem C30_open_short : forall fuel mbuf mlen sm smlen pk, smlen < 2420 ->
  sign_open fuel mbuf mlen sm smlen pk = Ret (Some (-1, mbuf, mlen)).
Proof. intros fuel mbuf mlen sm smlen pk H. unfold sign_open. destruct (Z.ltb_spec smlen 2420); [reflexivity|lia]. Qed.
Print Assumptions C30_open_short.
(** On failure the return value is negative and the caller's message buffer is untouched. *)
Theorem C30_open_failure_partial : forall fuel mbuf mlen sm smlen pk r mbuf' mlen',
  sign_open fuel mbuf mlen sm smlen pk = Ret (Some (r, mbuf', mlen')) -> r <> 0 -> r < 0 /\ mbuf' = mbuf.
Proof.
  intros fuel mbuf mlen sm smlen pk r mbuf' mlen' E Hr. unfold sign_open in E. destruct (smlen <? 2420).
  - apply Ret_inj, Some3_inj in E as (<- & <- & <-). split; [lia|reflexivity].
  - cbv zeta in E. destruct (sign_verify fuel (slice sm 0 2420) 2420 (slice sm 2420 (smlen - 2420)) pk) as [[v|]|]; cbn [bind] in E; [|discriminate E|discriminate E].
    destruct (negb (v =? 0)).
    + apply Ret_inj, Some3_inj in E as (<- & <- & <-). split; [lia|reflexivity].
    + destruct (copy mbuf 0 sm 2420 (smlen - 2420)); cbn [bind] in E; [|discriminate E]. apply Ret_inj, Some3_inj in E as (<- & <- & <-). now elim Hr.
Qed.
Print Assumptions C30_open_failure_partial.
(** Success means that the signature verifies and the message is the rest of the input. *)
Theorem C30_open_success : forall fuel mbuf mlen sm smlen pk mbuf' mlen', smlen <= zlen sm ->
  sign_open fuel mbuf mlen sm smlen pk = Ret (Some (0, mbuf', mlen')) ->
  mlen' = smlen - 2420 /\ 0 <= mlen' <= zlen mbuf /\
  sign_verify fuel (slice sm 0 2420) 2420 (slice sm 2420 mlen') pk = Ret (Some 0) /\
  mbuf' = slice sm 2420 mlen' ++ slice mbuf mlen' (zlen mbuf - mlen').
Proof.
  intros fuel mbuf mlen sm smlen pk mbuf' mlen' HS E. unfold sign_open in E. destruct (Z.ltb_spec smlen 2420).
  - apply Ret_inj, Some3_inj in E as (E & _). discriminate E.
  - cbv zeta in E. destruct (sign_verify fuel (slice sm 0 2420) 2420 (slice sm 2420 (smlen - 2420)) pk) as [[v|]|] eqn:EV; cbn [bind] in E; [|discriminate E|discriminate E].
    destruct (Z.eqb_spec v 0) as [->|]; cbn [negb] in E.
    + destruct (copy mbuf 0 sm 2420 (smlen - 2420)) as [mb|] eqn:EC; cbn [bind] in E; [|discriminate E]. apply Ret_inj, Some3_inj in E as (_ & <- & <-).
      split; [reflexivity|]. unfold copy in EC. pose proof (zlen_nonneg mbuf). destruct (Z.leb_spec (smlen - 2420) 0) as [L|L].
      * apply Ret_inj in EC. subst mb. replace (smlen - 2420) with 0 by lia. replace smlen with 2420 in EV by lia. change (2420 - 2420) with 0 in EV.
        split; [lia|]. split; [exact EV|]. rewrite !slice_0 by lia. rewrite Z.sub_0_r, slice_all by reflexivity. reflexivity.
      * destruct (_ && _) eqn:EB in EC; [|discriminate EC]. rewrite !andb_true_iff in EB.
        split; [lia|]. split; [exact EV|]. apply Ret_inj in EC. rewrite <- EC. rewrite slice_0. cbn [app]. do 2 f_equal. lia.
    + apply Ret_inj, Some3_inj in E as (E & _). discriminate E.
Qed.
Print Assumptions C30_open_success.
(** The property is false for the length variable: after a failed verification it holds
    the length of the unverified message. *)
Theorem C30_no_length_on_failure_refuted :
  ~ (forall fuel mbuf mlen sm smlen pk r mbuf' mlen', smlen = zlen sm ->
     sign_open fuel mbuf mlen sm smlen pk = Ret (Some (r, mbuf', mlen')) -> r <> 0 -> mlen' = 0 \/ mlen' = mlen).
Proof.
  intros H. specialize (H 0%nat (zeros 8) 17 (repeat 255 2423) 2423 (zeros 1312) (-2) (zeros 8) 3 eq_refl).
  destruct H as [H|H]; [vm_compute; reflexivity|lia|lia|lia].
Qed.
Print Assumptions C30_no_length_on_failure_refuted.
