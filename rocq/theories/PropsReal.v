(** C53, C54: the hybrid API with its actual components (HybridReal.v), without
    any assumption about them.  [f] bounds the Dilithium rejection loops, [u] is
    the content of uninitialised SPHINCS+ stack arrays; both are arbitrary. *)
From Coq Require Import ZifyBool ZifyNat.
From Verif Require Import Base Hybrid HybridSpec HybridReal HybridRealProofs PropsHybrid.
From Verif Require HybridProofs2 SpongeProofs2 SpongePure ShakePrng SpxSpec PropsSpx DilSign DilSignProofs EdSpec EdDecode EdSig EdOrder EdExt TweetField TweetEd PropsEd PropsSponge.
Local Open Scope Z_scope.
Ltac Zify.zify_post_hook ::= idtac.

(** ** C53: round trips with the actual components *)
Theorem C53_full_round_trip : forall f u rb seed pk0 sk0 pk sk sm0 l0 m sm' smlen, uninit_ok u ->
  zlen pk0 = 1408 -> zlen sk0 = 4064 -> zlen seed = 160 -> 52342 + zlen m <= zlen sm0 ->
  keypair_seed (real f u) (Some pk0) (Some sk0) (Some seed) = Ret (0, Some pk, Some sk) ->
  sign_full (real f u) rb (Some sm0) (Some l0) (Some m) (zlen m) (Some sk) = Ret (0, Some sm', Some smlen) ->
  (forall m0 l1, 64 <= zlen m0 ->
     open_full (real f u) (Some m0) (Some l1) (Some sm') smlen (Some pk) = Ret (0, Some (m ++ tail_from (zlen m) m0), Some (zlen m))) /\
  verify_full (real f u) (Some m) (zlen m) (Some sm') smlen (Some pk) = Ret 0.
Proof. intros f u rb seed pk0 sk0 pk sk sm0 l0 m sm' smlen U. apply C03_full_sign_then_open; [now apply real_fit|now apply real_faithful|now apply real_complete]. Qed.
Print Assumptions C53_full_round_trip.

Theorem C53_compact_round_trip : forall f u rb seed pk0 sk0 pk sk sm0 l0 m sm' smlen, uninit_ok u ->
  zlen pk0 = 1408 -> zlen sk0 = 4064 -> zlen seed = 160 -> 2526 + zlen m <= zlen sm0 -> zlen (snd (rb 40)) = 40 ->
  keypair_seed (real f u) (Some pk0) (Some sk0) (Some seed) = Ret (0, Some pk, Some sk) ->
  sign_compact (real f u) rb (Some sm0) (Some l0) (Some m) (zlen m) (Some sk) = Ret (0, Some sm', Some smlen) ->
  (forall m0 l1, 64 <= zlen m0 ->
     open_compact (real f u) (Some m0) (Some l1) (Some sm') smlen (Some pk) = Ret (0, Some (m ++ tail_from (zlen m) m0), Some (zlen m))) /\
  verify_compact (real f u) (Some m) (zlen m) (Some sm') smlen (Some pk) = Ret 0.
Proof. intros f u rb seed pk0 sk0 pk sk sm0 l0 m sm' smlen U. apply C04_compact_sign_then_open; [now apply real_fit|now apply real_faithful|now apply real_complete]. Qed.
Print Assumptions C53_compact_round_trip.

(** The calls do return 0: key generation whenever the Dilithium matrix and
    secret sampling finish within the fuel, ... *)
Theorem C53_keypair_seed : forall f u pk0 sk0 seed dilpk dilsk, uninit_ok u ->
  1408 <= zlen pk0 -> 4064 <= zlen sk0 -> zlen seed = 160 -> bytes_ok seed ->
  DilSign.keypair_seed f (slice seed 32 32) = Ret (Some (dilpk, dilsk)) ->
  let edseed := slice seed 0 32 in
  let '(spxpk, spxsk) := SpxSpec.slh_keygen SpongePure.shake256_bytes (slice seed 64 96) in
  keypair_seed (real f u) (Some pk0) (Some sk0) (Some seed) =
  Ret (0, Some (pk_layout (EdSig.ed_public edseed) dilpk spxpk ++ tail_from 1408 pk0),
          Some (sk_layout (edseed ++ EdSig.ed_public edseed) dilsk dilpk spxsk ++ tail_from 4064 sk0)).
Proof.
  intros f u pk0 sk0 seed dilpk dilsk U Lp Lk Ls Bs HD edseed. destruct (SpxSpec.slh_keygen _ _) as [spxpk spxsk] eqn:EK.
  apply C01_keypair_seed_layout; try assumption; [now apply real_fit| | |]; cbn [ed_keypair dil_keypair spx_keypair real].
  - apply real_ed_keys; [apply zlen_slice; lia|now apply bytes_ok_slice].
  - unfold real_dil_keypair. rewrite (proj2 (bytesb_ok _)) by now apply bytes_ok_slice. now rewrite HD.
  - rewrite spx_keys; [|assumption|apply zlen_slice; lia|now apply bytes_ok_slice]. unfold SH. now rewrite EK.
Qed.
Print Assumptions C53_keypair_seed.

(** ... full signing whenever the Dilithium rejection loop does and the random
    source delivers 32 bytes, ... *)
Theorem C53_full_sign_succeeds : forall f u rb sm0 l0 m sk, uninit_ok u -> 52342 + zlen m <= zlen sm0 -> 1 <= zlen m <= 64 -> bytes_ok m ->
  zlen sk = 4064 -> bytes_ok sk -> (exists sig, DilSign.sign_signature f m (sk_dil sk) = Ret (Some sig)) -> fst (rb 32) = 0 ->
  exists sm' l', sign_full (real f u) rb (Some sm0) (Some l0) (Some m) (zlen m) (Some sk) = Ret (0, Some sm', Some l').
Proof.
  intros f u rb sm0 l0 m sk U L1 Lm Bm Lk Bk [sig HS] Hr. apply C03_full_sign_succeeds; try assumption; try lia; [now apply real_fit|now apply real_faithful| | |]; rewrite slice_all by reflexivity; cbn [ed_sign dil_sign spx_sign real].
  - destruct (real_ed_sign_gen m (sk_ed sk)) as (s & _ & _ & -> & _); try reflexivity; try assumption; [now apply bytes_ok_slice|lia|apply zlen_slice; lia].
  - unfold real_dil_sign. rewrite (proj2 (bytesb_ok m) Bm), (proj2 (bytesb_ok (sk_dil sk))) by now apply bytes_ok_slice. cbn [andb]. now rewrite HS.
  - destruct (spx_sign_gen u rb m (sk_spx sk)) as [[_ ->]|[N _]]; try reflexivity; try assumption; [now apply bytes_ok_slice|apply zlen_slice; lia|contradiction].
Qed.
Print Assumptions C53_full_sign_succeeds.

(** ... and compact signing whenever the rejection loop does and the random
    source delivers the 40-byte nonce. *)
Theorem C53_compact_sign_succeeds : forall f u rb sm0 l0 m sk, uninit_ok u -> 2526 + zlen m <= zlen sm0 -> 1 <= zlen m <= 64 -> bytes_ok m ->
  zlen sk = 4064 -> bytes_ok sk -> zlen (snd (rb 40)) = 40 -> bytes_ok (snd (rb 40)) -> fst (rb 40) = 0 ->
  let h := SpongePure.sha3_512_bytes (compact_hash_input (snd (rb 40)) m (sk_spxpk sk)) in
  (exists sig, DilSign.sign_signature f h (sk_dil sk) = Ret (Some sig)) ->
  exists sm' l', sign_compact (real f u) rb (Some sm0) (Some l0) (Some m) (zlen m) (Some sk) = Ret (0, Some sm', Some l').
Proof.
  intros f u rb sm0 l0 m sk U L1 Lm Bm Lk Bk Ln Bn Hr h [sig HS].
  assert (Bi: bytes_ok (compact_hash_input (snd (rb 40)) m (sk_spxpk sk))) by (repeat (apply bytes_ok_app; split); try assumption; now apply bytes_ok_slice).
  assert (Eh: h = real_sha3_512 (compact_hash_input (snd (rb 40)) m (sk_spxpk sk))) by (symmetry; now apply real_sha_val).
  assert (Lh: zlen h = 64) by (rewrite Eh; apply real_sha_len). assert (Bh: bytes_ok h) by (rewrite Eh; apply real_sha_bytes). clearbody h.
  apply C04_compact_sign_succeeds; try assumption; try lia; [now apply real_fit|now apply real_faithful| |]; rewrite slice_all by reflexivity; cbn [ed_sign dil_sign sha3_512 real]; rewrite <- Eh.
  - destruct (real_ed_sign_gen h (sk_ed sk)) as (s & _ & _ & -> & _); try reflexivity; try assumption; [now apply bytes_ok_slice|lia|apply zlen_slice; lia].
  - unfold real_dil_sign. rewrite (proj2 (bytesb_ok h) Bh), (proj2 (bytesb_ok (sk_dil sk))) by now apply bytes_ok_slice. cbn [andb]. now rewrite HS.
Qed.
Print Assumptions C53_compact_sign_succeeds.

(** ** Acceptance in terms of the component specifications *)
Lemma ed_valid_real f u edsig msg pk : bytes_ok edsig -> bytes_ok msg -> bytes_ok pk -> zlen edsig = 64 -> 1 <= zlen msg <= 64 -> zlen pk = 32 ->
  ed_valid (real f u) edsig msg pk <-> EdSig.ed_valid pk edsig msg.
Proof.
  intros B1 B2 B3 L1 L2 L3. unfold ed_valid. cbn [ed_open real].
  destruct (real_ed_open_gen (edsig ++ msg) pk) as (rc & l & m' & -> & _ & H); try assumption; [apply bytes_ok_app; now split|rewrite zlen_app; lia|].
  rewrite zlen_app, L1 in H. replace (64 + zlen msg - 64) with (zlen msg) in H by lia. rewrite slice_app_l, slice_app_r in H by lia. rewrite L1 in H. change (64 - 64) with 0 in H. rewrite !slice_all in H by (lia || reflexivity).
  cbn [code]. destruct H as [(-> & _ & V & _)|[-> V]]; split; intros; try lia; try assumption; try reflexivity. contradiction.
Qed.
Lemma dil_valid_real f u sig msg pk : bytes_ok sig -> bytes_ok msg -> bytes_ok pk -> zlen sig = 2420 ->
  dil_verify (real f u) sig msg pk = 0 <-> DilSign.sign_verify f sig 2420 msg pk = Ret (Some 0).
Proof.
  intros B1 B2 B3 L1. cbn [dil_verify real]. unfold real_dil_verify. rewrite (proj2 (bytesb_ok _) B1), (proj2 (bytesb_ok _) B2), (proj2 (bytesb_ok _) B3), L1. cbn [andb].
  destruct (DilSign.sign_verify f sig 2420 msg pk) as [[r|]|]; split; intros H; try discriminate; congruence.
Qed.
Lemma spx_valid_real f u sig msg pk : bytes_ok sig -> bytes_ok msg -> bytes_ok pk -> zlen pk = 64 ->
  spx_verify (real f u) sig msg pk = 0 <-> SpxSpec.slh_verify SpongePure.shake256_bytes msg sig pk.
Proof.
  intros B1 B2 B3 L1. cbn [spx_verify real]. unfold real_spx_verify. rewrite (proj2 (bytesb_ok _) B1), (proj2 (bytesb_ok _) B2), (proj2 (bytesb_ok _) B3). cbn [andb].
  destruct (PropsSpx.C50_verify_is_fips205 SpongePure.shake256_bytes (u_skseed u) sig msg pk PropsSpx.shake256_hash_like L1) as [[-> V]|[-> V]]; split; intros H; try discriminate; try assumption; try reflexivity. contradiction.
Qed.

(** Full mode: the open call accepts exactly the byte strings in the documented
    layout whose three signatures are valid for the embedded message: ed25519 by
    the verification equation, SPHINCS+ by FIPS 205, Dilithium by its own
    verification function. *)
Theorem C53_full_open_accepts_iff : forall f u m0 l smb smlen pk m' l', uninit_ok u ->
  64 <= zlen m0 -> smlen <= zlen smb -> bytes_ok smb -> zlen pk = 1408 -> bytes_ok pk ->
  open_full (real f u) (Some m0) (Some l) (Some smb) smlen (Some pk) = Ret (0, m', l') <->
  exists edsig msg dilsig spxsig,
    slice smb 0 smlen = full_layout edsig msg dilsig spxsig /\ smlen = 52342 + zlen msg /\
    1 <= zlen msg <= 64 /\ zlen edsig = 64 /\ zlen dilsig = 2420 /\ zlen spxsig = 49856 /\
    EdSig.ed_valid (pk_ed pk) edsig msg /\
    DilSign.sign_verify f dilsig 2420 msg (pk_dil pk) = Ret (Some 0) /\
    SpxSpec.slh_verify SpongePure.shake256_bytes msg spxsig (pk_spx pk) /\
    m' = Some (msg ++ tail_from (zlen msg) m0) /\ l' = Some (zlen msg).
Proof.
  intros f u m0 l smb smlen pk m' l' U Lm Ls Bs Lp Bp.
  assert (P1: bytes_ok (pk_ed pk)) by now apply bytes_ok_slice. assert (P2: bytes_ok (pk_dil pk)) by now apply bytes_ok_slice. assert (P3: bytes_ok (pk_spx pk)) by now apply bytes_ok_slice.
  rewrite (C07_full_open_iff (real f u)) by (first [assumption | now apply real_fit | now apply real_faithful]).
  split; intros (edsig & msg & dilsig & spxsig & E & R); exists edsig, msg, dilsig, spxsig; (split; [exact E|]);
  (assert (B: bytes_ok (full_layout edsig msg dilsig spxsig)) by (rewrite <- E; now apply bytes_ok_slice));
  unfold full_layout in B; repeat (apply bytes_ok_app in B; destruct B as [? B]);
  destruct R as (R1 & R2 & R3 & R4 & R5 & R6 & R7 & R8 & R9); repeat (split; [assumption|]);
  (split; [apply (ed_valid_real f u); try assumption; apply zlen_slice; lia|]); (split; [apply (dil_valid_real f u); assumption|]); (split; [apply (spx_valid_real f u); try assumption; apply zlen_slice; lia|]); exact R9.
Qed.
Print Assumptions C53_full_open_accepts_iff.

(** Compact mode: ed25519 and Dilithium over SHA3-512(nonce | message | SPHINCS+ public key). *)
Theorem C53_compact_open_accepts_iff : forall f u m0 l smb smlen pk m' l', uninit_ok u ->
  64 <= zlen m0 -> smlen <= zlen smb -> bytes_ok smb -> zlen pk = 1408 -> bytes_ok pk ->
  open_compact (real f u) (Some m0) (Some l) (Some smb) smlen (Some pk) = Ret (0, m', l') <->
  exists edsig dilsig nonce msg,
    let h := SpongePure.sha3_512_bytes (compact_hash_input nonce msg (pk_spx pk)) in
    slice smb 0 smlen = compact_layout edsig dilsig nonce msg /\ smlen = 2526 + zlen msg /\
    1 <= zlen msg <= 64 /\ zlen edsig = 64 /\ zlen dilsig = 2420 /\ zlen nonce = 40 /\
    EdSig.ed_valid (pk_ed pk) edsig h /\
    DilSign.sign_verify f dilsig 2420 h (pk_dil pk) = Ret (Some 0) /\
    m' = Some (msg ++ tail_from (zlen msg) m0) /\ l' = Some (zlen msg).
Proof.
  intros f u m0 l smb smlen pk m' l' U Lm Ls Bs Lp Bp.
  assert (P1: bytes_ok (pk_ed pk)) by now apply bytes_ok_slice. assert (P2: bytes_ok (pk_dil pk)) by now apply bytes_ok_slice. assert (P3: bytes_ok (pk_spx pk)) by now apply bytes_ok_slice.
  rewrite (C08_compact_open_iff (real f u)) by (first [assumption | now apply real_fit | now apply real_faithful]).
  split; intros (edsig & dilsig & nonce & msg & E & R); exists edsig, dilsig, nonce, msg; (split; [exact E|]);
  (assert (B: bytes_ok (compact_layout edsig dilsig nonce msg)) by (rewrite <- E; now apply bytes_ok_slice));
  unfold compact_layout in B; repeat (apply bytes_ok_app in B; destruct B as [? B]);
  (assert (Bi: bytes_ok (compact_hash_input nonce msg (pk_spx pk))) by (repeat (apply bytes_ok_app; split); assumption));
  (assert (Eh: sha3_512 (real f u) (compact_hash_input nonce msg (pk_spx pk)) = SpongePure.sha3_512_bytes (compact_hash_input nonce msg (pk_spx pk))) by now apply real_sha_val);
  pose proof (real_sha_len (compact_hash_input nonce msg (pk_spx pk))) as Lh; pose proof (real_sha_bytes (compact_hash_input nonce msg (pk_spx pk))) as Bh; rewrite real_sha_val in Lh, Bh by exact Bi;
  rewrite ?Eh in *; clear Eh; set (h := SpongePure.sha3_512_bytes _) in *; clearbody h;
  destruct R as (R1 & R2 & R3 & R4 & R5 & R6 & R7 & R8); repeat (split; [assumption|]);
  (split; [apply (ed_valid_real f u); try assumption; try lia; apply zlen_slice; lia|]); (split; [apply (dil_valid_real f u); assumption|]); exact R8.
Qed.
Print Assumptions C53_compact_open_accepts_iff.

(** ** C54: signed messages are malleable *)
(** Adding the group order L to the number stored in bytes 34..65 (the S part of
    the ed25519 signature). *)
Definition add_L (sm : list Z) : list Z :=
  slice sm 0 34 ++ EdSpec.le_bytes 32 (EdSpec.le_val (slice sm 34 32) + EdSpec.edL) ++ slice sm 66 (zlen sm - 66).
Lemma ed_valid_add_L pk R S M : zlen R = 32 -> zlen S = 32 -> bytes_ok S -> EdSpec.le_val S + EdSpec.edL < 2 ^ 256 ->
  EdSig.ed_valid pk (R ++ S) M -> EdSig.ed_valid pk (R ++ EdSpec.le_bytes 32 (EdSpec.le_val S + EdSpec.edL)) M.
Proof.
  intros LR LS BS HS (A & D & E). exists A. split; [exact D|].
  rewrite !slice_app_l, !slice_app_r in * by (rewrite ?TweetEd.zlen_le_bytes; lia). rewrite LR in *. change (32 - 32) with 0 in *. rewrite !slice_all in * by (rewrite ?TweetEd.zlen_le_bytes; lia || reflexivity).
  pose proof (TweetField.le_val_range S BS) as RS. pose proof TweetEd.edL_lt as RL.
  rewrite TweetField.le_val_bytes by (change (256 ^ Z.of_nat 32) with (2 ^ 256); lia).
  unfold EdSig.ed_equation in *. rewrite <- (EdDecode.smul_mod (EdSpec.le_val S + EdSpec.edL)) by lia. replace (EdSpec.le_val S + EdSpec.edL) with (EdSpec.le_val S + 1 * EdSpec.edL) by lia. rewrite Z.mod_add by lia. rewrite EdDecode.smul_mod by lia. exact E.
Qed.

Lemma add_L_shape sm A S B : sm = A ++ S ++ B -> zlen A = 34 -> zlen S = 32 ->
  add_L sm = A ++ EdSpec.le_bytes 32 (EdSpec.le_val S + EdSpec.edL) ++ B /\ slice sm 34 32 = S.
Proof.
  intros -> LA LS. pose proof (zlen_nonneg B). assert (E: slice (A ++ S ++ B) 34 32 = S). { rewrite slice_app_r by lia. rewrite LA. change (34 - 34) with 0. rewrite slice_app_l by lia. apply slice_all. lia. }
  split; [|exact E]. unfold add_L. rewrite E. f_equal; [rewrite slice_app_l by lia; apply slice_all; lia|]. f_equal. rewrite !zlen_app, LA, LS. rewrite slice_app_r by lia. rewrite slice_app_r by lia. rewrite LA, LS. change (66 - 34 - 32) with 0. apply slice_all. lia.
Qed.
Lemma add_L_neq sm A S B : sm = A ++ S ++ B -> add_L sm = A ++ EdSpec.le_bytes 32 (EdSpec.le_val S + EdSpec.edL) ++ B -> zlen S = 32 -> bytes_ok S ->
  EdSpec.le_val S + EdSpec.edL < 2 ^ 256 -> add_L sm <> sm.
Proof.
  intros E EA LS BS HS N. rewrite EA in N. rewrite E in N. apply app_inv_head in N. apply HybridProofs2.app_inj_len in N as [N _]; [|rewrite TweetEd.zlen_le_bytes; lia].
  pose proof (TweetField.le_val_range S BS) as RS. pose proof TweetEd.edL_lt as RL. assert (Q: EdSpec.le_val S + EdSpec.edL = EdSpec.le_val S) by (rewrite <- N at 2; symmetry; apply TweetField.le_val_bytes; change (256 ^ Z.of_nat 32) with (2 ^ 256); lia). lia.
Qed.

(** Anybody can turn an accepted full-mode signed message into a different one
    accepted for the same message and key, without any key; the condition on S
    holds for every message signed by this library (next theorem). *)
Theorem C54_full_malleable_refuted : forall f u m0 l smb pk m' l', uninit_ok u ->
  64 <= zlen m0 -> bytes_ok smb -> zlen pk = 1408 -> bytes_ok pk ->
  EdSpec.le_val (slice smb 34 32) + EdSpec.edL < 2 ^ 256 ->
  open_full (real f u) (Some m0) (Some l) (Some smb) (zlen smb) (Some pk) = Ret (0, m', l') ->
  add_L smb <> smb /\ zlen (add_L smb) = zlen smb /\
  open_full (real f u) (Some m0) (Some l) (Some (add_L smb)) (zlen (add_L smb)) (Some pk) = Ret (0, m', l').
Proof.
  intros f u m0 l smb pk m' l' U Lm Bs Lp Bp HS HO.
  apply C53_full_open_accepts_iff in HO; try assumption; try lia.
  destruct HO as (edsig & msg & dilsig & spxsig & E & R1 & R2 & R3 & R4 & R5 & R6 & R7 & R8 & R9). rewrite slice_all in E by reflexivity.
  assert (Hsm: smb = ([2; zlen msg] ++ slice edsig 0 32) ++ slice edsig 32 32 ++ (msg ++ dilsig ++ spxsig)).
  { rewrite E. unfold full_layout. rewrite <- !app_assoc. f_equal. rewrite (app_assoc (slice edsig 0 32)). f_equal. rewrite <- (slice_all edsig 64) at 1 by lia. apply (slice_split edsig 0 64 32); lia. }
  pose proof (add_L_shape smb _ _ _ Hsm) as (EA & ES). { rewrite zlen_app, zlen_slice by lia. reflexivity. } { apply zlen_slice; lia. }
  rewrite ES in *. clear ES.
  assert (Be: bytes_ok edsig) by (rewrite E in Bs; unfold full_layout in Bs; repeat (apply bytes_ok_app in Bs; destruct Bs as [? Bs]); assumption).
  pose proof (ed_valid_add_L (pk_ed pk) (slice edsig 0 32) (slice edsig 32 32) msg ltac:(apply zlen_slice; lia) ltac:(apply zlen_slice; lia) ltac:(now apply bytes_ok_slice) HS) as V.
  assert (Q: slice edsig 0 32 ++ slice edsig 32 32 = edsig) by (rewrite <- (slice_all edsig 64) at 3 by lia; symmetry; apply (slice_split edsig 0 64 32); lia). rewrite Q in V. specialize (V R6).
  assert (LA: zlen (add_L smb) = zlen smb). { rewrite EA. rewrite Hsm. rewrite !zlen_app, !zlen_slice, TweetEd.zlen_le_bytes by lia. reflexivity. }
  split; [exact (add_L_neq smb _ _ _ Hsm EA ltac:(apply zlen_slice; lia) ltac:(now apply bytes_ok_slice) HS)|]. split; [exact LA|].
  assert (BA: bytes_ok (add_L smb)). { rewrite EA. rewrite Hsm in Bs. apply bytes_ok_app in Bs as [B1 Bs]. apply bytes_ok_app in Bs as [B2 B3]. apply bytes_ok_app; split; [exact B1|]. apply bytes_ok_app; split; [apply TweetField.le_bytes_ok|exact B3]. }
  apply C53_full_open_accepts_iff; try assumption; try lia.
  exists (slice edsig 0 32 ++ EdSpec.le_bytes 32 (EdSpec.le_val (slice edsig 32 32) + EdSpec.edL)), msg, dilsig, spxsig. rewrite slice_all by reflexivity.
  split; [rewrite EA; unfold full_layout; now rewrite <- !app_assoc|]. split; [lia|]. split; [exact R2|]. split; [rewrite zlen_app, zlen_slice, TweetEd.zlen_le_bytes by lia; reflexivity|]. tauto.
Qed.
Print Assumptions C54_full_malleable_refuted.

Theorem C54_compact_malleable_refuted : forall f u m0 l smb pk m' l', uninit_ok u ->
  64 <= zlen m0 -> bytes_ok smb -> zlen pk = 1408 -> bytes_ok pk ->
  EdSpec.le_val (slice smb 34 32) + EdSpec.edL < 2 ^ 256 ->
  open_compact (real f u) (Some m0) (Some l) (Some smb) (zlen smb) (Some pk) = Ret (0, m', l') ->
  add_L smb <> smb /\ zlen (add_L smb) = zlen smb /\
  open_compact (real f u) (Some m0) (Some l) (Some (add_L smb)) (zlen (add_L smb)) (Some pk) = Ret (0, m', l').
Proof.
  intros f u m0 l smb pk m' l' U Lm Bs Lp Bp HS HO.
  apply C53_compact_open_accepts_iff in HO; try assumption; try lia.
  destruct HO as (edsig & dilsig & nonce & msg & E & R1 & R2 & R3 & R4 & R5 & R6 & R7 & R8). rewrite slice_all in E by reflexivity.
  assert (Hsm: smb = ([1; zlen msg] ++ slice edsig 0 32) ++ slice edsig 32 32 ++ (dilsig ++ nonce ++ msg)).
  { rewrite E. unfold compact_layout. rewrite <- !app_assoc. f_equal. rewrite (app_assoc (slice edsig 0 32)). f_equal. rewrite <- (slice_all edsig 64) at 1 by lia. apply (slice_split edsig 0 64 32); lia. }
  pose proof (add_L_shape smb _ _ _ Hsm) as (EA & ES). { rewrite zlen_app, zlen_slice by lia. reflexivity. } { apply zlen_slice; lia. }
  rewrite ES in *. clear ES.
  assert (Be: bytes_ok edsig) by (rewrite E in Bs; unfold compact_layout in Bs; repeat (apply bytes_ok_app in Bs; destruct Bs as [? Bs]); assumption).
  pose proof (fun h => ed_valid_add_L (pk_ed pk) (slice edsig 0 32) (slice edsig 32 32) h ltac:(apply zlen_slice; lia) ltac:(apply zlen_slice; lia) ltac:(now apply bytes_ok_slice) HS) as V.
  assert (Q: slice edsig 0 32 ++ slice edsig 32 32 = edsig) by (rewrite <- (slice_all edsig 64) at 3 by lia; symmetry; apply (slice_split edsig 0 64 32); lia). rewrite Q in V. specialize (V _ R6).
  assert (LA: zlen (add_L smb) = zlen smb). { rewrite EA. rewrite Hsm. rewrite !zlen_app, !zlen_slice, TweetEd.zlen_le_bytes by lia. reflexivity. }
  split; [exact (add_L_neq smb _ _ _ Hsm EA ltac:(apply zlen_slice; lia) ltac:(now apply bytes_ok_slice) HS)|]. split; [exact LA|].
  assert (BA: bytes_ok (add_L smb)). { rewrite EA. rewrite Hsm in Bs. apply bytes_ok_app in Bs as [B1 Bs]. apply bytes_ok_app in Bs as [B2 B3]. apply bytes_ok_app; split; [exact B1|]. apply bytes_ok_app; split; [apply TweetField.le_bytes_ok|exact B3]. }
  apply C53_compact_open_accepts_iff; try assumption; try lia.
  exists (slice edsig 0 32 ++ EdSpec.le_bytes 32 (EdSpec.le_val (slice edsig 32 32) + EdSpec.edL)), dilsig, nonce, msg. rewrite slice_all by reflexivity. cbv zeta.
  split; [rewrite EA; unfold compact_layout; now rewrite <- !app_assoc|]. split; [lia|]. split; [exact R2|]. split; [rewrite zlen_app, zlen_slice, TweetEd.zlen_le_bytes by lia; reflexivity|]. tauto.
Qed.
Print Assumptions C54_compact_malleable_refuted.

Lemma Some_inj {A} (x y : A) : Some x = Some y -> x = y. Proof. congruence. Qed.
(** Every message signed by the library can be modified this way. *)
Theorem C54_full_signed_malleable_refuted : forall f u rb sm0 l0 m sk sm' smlen, uninit_ok u -> zlen sk = 4064 -> zlen sm0 = 52342 + zlen m ->
  sign_full (real f u) rb (Some sm0) (Some l0) (Some m) (zlen m) (Some sk) = Ret (0, Some sm', Some smlen) ->
  zlen sm' = smlen /\ EdSpec.le_val (slice sm' 34 32) + EdSpec.edL < 2 ^ 256.
Proof.
  intros f u rb sm0 l0 m sk sm' smlen U Lk Ls HS.
  apply C05_full_layout in HS; [|now apply real_fit|now apply real_faithful|lia|lia|exact Lk].
  destruct HS as (edsig & dilsig & spxsig & HL & HE & HD & HX & L1 & L2 & L3 & Esm & El). rewrite (slice_all m) in * by reflexivity. apply Some_inj in Esm, El. subst sm' smlen.
  unfold full_layout. split. { rewrite !zlen_app, L1, L2, L3. unfold tail_from. rewrite zlen_slice by lia. change (zlen [2; zlen m]) with 2. lia. }
  cbn [ed_sign real] in HE. assert (B: bytesb m && bytesb (sk_ed sk) = true) by (unfold real_ed_sign in HE; destruct (bytesb m && bytesb (sk_ed sk)); [reflexivity|discriminate HE]). bb.
  destruct (real_ed_sign_gen m (sk_ed sk)) as (s & Lg & _ & Es & _ & HSL); try assumption; [lia|apply zlen_slice; lia|]. rewrite Es in HE. apply (f_equal obytes) in HE. cbn [obytes] in HE. apply app_inv_tail in HE. subst s.
  rewrite <- !app_assoc. rewrite slice_app_r by (change (zlen [2; zlen m]) with 2; lia). change (34 - zlen [2; zlen m]) with 32. rewrite slice_app_l by lia. pose proof TweetEd.edL_lt. lia.
Qed.
Print Assumptions C54_full_signed_malleable_refuted.
Theorem C54_compact_signed_malleable_refuted : forall f u rb sm0 l0 m sk sm' smlen, uninit_ok u -> zlen sk = 4064 -> zlen sm0 = 2526 + zlen m -> zlen (snd (rb 40)) = 40 ->
  sign_compact (real f u) rb (Some sm0) (Some l0) (Some m) (zlen m) (Some sk) = Ret (0, Some sm', Some smlen) ->
  zlen sm' = smlen /\ EdSpec.le_val (slice sm' 34 32) + EdSpec.edL < 2 ^ 256.
Proof.
  intros f u rb sm0 l0 m sk sm' smlen U Lk Ls Ln HS.
  apply C06_compact_layout in HS; [|now apply real_fit|now apply real_faithful|lia|lia|exact Lk|exact Ln].
  destruct HS as (edsig & dilsig & HL & _ & HE & HD & L1 & L2 & Esm & El). rewrite (slice_all m) in * by reflexivity. apply Some_inj in Esm, El. subst sm' smlen.
  unfold compact_layout. split. { rewrite !zlen_app, L1, L2, Ln. unfold tail_from. rewrite zlen_slice by lia. change (zlen [1; zlen m]) with 2. lia. }
  cbn [ed_sign sha3_512 real] in HE. set (h := real_sha3_512 _) in *. assert (Lh: zlen h = 64) by apply real_sha_len. clearbody h.
  assert (B: bytesb h && bytesb (sk_ed sk) = true) by (unfold real_ed_sign in HE; destruct (bytesb h && bytesb (sk_ed sk)); [reflexivity|discriminate HE]). bb.
  destruct (real_ed_sign_gen h (sk_ed sk)) as (s & Lg & _ & Es & _ & HSL); try assumption; [lia|apply zlen_slice; lia|]. rewrite Es in HE. apply (f_equal obytes) in HE. cbn [obytes] in HE. apply app_inv_tail in HE. subst s.
  rewrite <- !app_assoc. rewrite slice_app_r by (change (zlen [1; zlen m]) with 2; lia). change (34 - zlen [1; zlen m]) with 32. rewrite slice_app_l by lia. pose proof TweetEd.edL_lt. lia.
Qed.
Print Assumptions C54_compact_signed_malleable_refuted.

(** ** C02 with the actual expander *)
Lemma real_expander_val s o n : bytes_ok s -> zlen s = 64 -> 64 < n -> zlen o = n ->
  real_expander s 64 o n = (0, SpongePure.shake256_bytes (s ++ [2]) n).
Proof.
  intros Bs Ls Hn Lo. unfold real_expander. rewrite (proj2 (bytesb_ok s) Bs), Ls. cbn [andb]. change (64 <=? 64) with true. cbv iota.
  rewrite ShakePrng.wrapper_ok by (assumption || lia). f_equal. rewrite slice_all by lia.
  set (x := SpongePure.shake256_bytes _ _). assert (L: zlen x = n) by (apply (DilSignProofs.sponge_bytes_len 136 0x1F); lia).
  unfold SpongeProofs2.splice. rewrite L. rewrite slice_0, app_nil_l. rewrite slice_neg by lia. apply app_nil_r.
Qed.
Lemma real_expander_len s o : zlen o = 128 -> zlen (snd (real_expander s 64 o 128)) = 128.
Proof.
  intros Lo. unfold real_expander. destruct (bytesb s && (64 <=? zlen s)) eqn:B; [|exact Lo]. bb.
  rewrite ShakePrng.wrapper_ok by (assumption || lia). cbn [snd]. rewrite SpongeProofs2.zlen_splice; [exact Lo|lia|].
  rewrite (DilSignProofs.sponge_bytes_len 136 0x1F) by lia. lia.
Qed.
(** What the API computes from every seed: SHAKE256 of the 64 bytes in which every
    second byte of the seed is replaced by 0 (and the domain byte 2). *)
Theorem C02_expander_concrete_partial : forall seed out, zlen seed = 96 -> bytes_ok seed -> 160 <= zlen out ->
  let x := SpongePure.shake256_bytes (map (fun i => if Nat.even i then nth i seed 0 else 0) (seq 0 64) ++ [2]) 128 in
  keypair_seed_expander real_expander (Some seed) (Some out) =
  Ret (0, Some (slice x 0 32 ++ slice seed 64 32 ++ slice x 32 96 ++ tail_from 160 out)).
Proof.
  intros seed out Ls Bs Lo x. rewrite (C02_expander_output_partial real_expander) by (assumption || apply real_expander_len).
  assert (Be: bytes_ok (HybridProofs.even_only seed)).
  { apply Forall_forall. intros y Hy. apply in_map_iff in Hy. destruct Hy as (i & <- & Hi). apply in_seq in Hi. destruct (Nat.even i); [|split; lia]. unfold bytes_ok in Bs. rewrite Forall_forall in Bs. apply Bs. apply nth_In. unfold zlen in Ls. lia. }
  rewrite real_expander_val; [reflexivity|exact Be|unfold HybridProofs.even_only, zlen; now rewrite map_length, seq_length|lia|reflexivity].
Qed.
Print Assumptions C02_expander_concrete_partial.
(** Two different 96-byte seeds that the API expands to the same 160 bytes, hence
    to the same key pair. *)
Theorem C02_same_keys_refuted : exists s1 s2, zlen s1 = 96 /\ zlen s2 = 96 /\ bytes_ok s1 /\ bytes_ok s2 /\ s1 <> s2 /\
  exists x, zlen x = 160 /\ forall out, zlen out = 160 ->
  keypair_seed_expander real_expander (Some s1) (Some out) = Ret (0, Some x) /\
  keypair_seed_expander real_expander (Some s2) (Some out) = Ret (0, Some x).
Proof.
  exists (zeros 96), ([0; 1] ++ zeros 94). split; [reflexivity|]. split; [reflexivity|]. split; [apply bytes_ok_zeros|].
  assert (B2: bytes_ok ([0; 1] ++ zeros 94)) by (apply bytes_ok_app; split; [repeat constructor; lia|apply bytes_ok_zeros]). split; [exact B2|]. split; [discriminate|].
  set (x := SpongePure.shake256_bytes (zeros 64 ++ [2]) 128). assert (Lx: zlen x = 128) by (apply (DilSignProofs.sponge_bytes_len 136 0x1F); lia).
  exists (slice x 0 32 ++ zeros 32 ++ slice x 32 96). split; [rewrite !zlen_app, !zlen_slice by lia; reflexivity|]. intros out Lo.
  split; (rewrite C02_expander_concrete_partial by (assumption || reflexivity || apply bytes_ok_zeros || lia)); f_equal; f_equal; f_equal; unfold tail_from; rewrite Lo, slice_0, app_nil_r; reflexivity.
Qed.
Print Assumptions C02_same_keys_refuted.
(** The claim of C54 is about something that happens: for every key and message the
    ed25519 part meets the condition on S. *)
Example C54_condition_met : forall seed m, EdSpec.le_val (slice (EdSig.ed_signature seed m) 32 32) + EdSpec.edL < 2 ^ 256.
Proof.
  intros seed m. pose proof (TweetEd.sigS_range seed m) as R. pose proof TweetEd.edL_lt as RL. unfold EdSig.ed_signature. destruct (TweetEd.sig_halves seed m (EdSig.ed_sigS seed m)) as [_ ->].
  rewrite TweetField.le_val_bytes by (change (256 ^ Z.of_nat 32) with (2 ^ 256); lia). lia.
Qed.
Example C53_uninit_met : uninit_ok {| u_stack := repeat 7 128; u_auth := repeat 7 2272; u_stkf := fun _ => repeat 7 288; u_stkm := fun _ => repeat 7 128; u_skseed := [] |}.
Proof. repeat split. Qed.
