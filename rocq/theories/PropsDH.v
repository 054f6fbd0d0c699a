(** Property theorems about X25519 and the public-key box of tweetnacl/tweetnacl.c (C57 - C59).
    Specifications: X25519Spec.v (RFC 7748), BoxSpec.v, EdSpec.v (the Edwards curve and its group). *)
From Verif Require Import Base Wp NumTheory EdSpec EdCurve EdExt EdOrder Tab BoxSpec X25519Spec TweetField TweetCurve Tweet TweetBox TweetDH PolyProofs PolyProofs2 SalsaProofs StreamProofs PropsBox X25519Proofs MontEd.
Ltac Zify.zify_post_hook ::= idtac.
Local Opaque x25519 xsalsa20_stream poly1305 box_cipher box_tag hsalsa20 core crypto_scalarmult crypto_secretbox crypto_secretbox_open.

Lemma x25519_bytes k u : bytes_ok (x25519 k u). Proof. Transparent x25519. unfold x25519, encodeUCoordinate. Opaque x25519. apply le_bytes_ok. Qed.
Lemma x25519_len k u : zlen (x25519 k u) = 32. Proof. Transparent x25519. unfold x25519, encodeUCoordinate. Opaque x25519. unfold zlen. now rewrite le_bytes_length. Qed.

(** ** C57: crypto_scalarmult is X25519, and X25519 is multiplication on the curve *)
Theorem C57_scalarmult_is_x25519 : forall n p, zlen n = 32 -> bytes_ok n -> zlen p = 32 -> bytes_ok p ->
  crypto_scalarmult n p = Ret (0, x25519 n p).
Proof. exact scalarmult_spec. Qed.
Print Assumptions C57_scalarmult_is_x25519.
Theorem C57_x25519_multiplies_on_the_curve : forall n P, zlen n = 32 -> bytes_ok n -> on_curve P ->
  crypto_scalarmult n (encodeUCoordinate (ucoord P)) = Ret (0, encodeUCoordinate (ucoord (smul (decodeScalar25519 n) P))).
Proof.
  intros n P Ln Bn HP. rewrite scalarmult_spec; [|assumption|assumption|unfold encodeUCoordinate, zlen; now rewrite le_bytes_length|apply le_bytes_ok]. now rewrite x25519_smul.
Qed.
Print Assumptions C57_x25519_multiplies_on_the_curve.
Theorem C57_base_multiplies_the_base_point : forall n, zlen n = 32 -> bytes_ok n ->
  crypto_scalarmult_base n = Ret (0, encodeUCoordinate (ucoord (smul (decodeScalar25519 n) edB))).
Proof.
  intros n Ln Bn. unfold crypto_scalarmult_base. change nine32 with base9. rewrite base9_encode. apply C57_x25519_multiplies_on_the_curve; try assumption. exact edB_on_curve.
Qed.
Print Assumptions C57_base_multiplies_the_base_point.
(** the scalar used is always in [2^254, 2^255) and a multiple of 8 *)
Theorem C57_scalar_is_clamped : forall n, 2 ^ 254 <= decodeScalar25519 n < 2 ^ 255 /\ (8 | decodeScalar25519 n).
Proof.
  intros n. split; [apply decodeScalar_range|]. unfold decodeScalar25519. apply Z.divide_add_r; [exists (2 ^ 251); vm_compute; reflexivity|apply Z.divide_factor_l].
Qed.
Print Assumptions C57_scalar_is_clamped.
Example C57_nonvacuous : zlen (zeros 32) = 32 /\ bytes_ok (zeros 32) /\ on_curve edB /\ fst edB <> 0 /\ ucoord edB = 9.
Proof. split; [reflexivity|]. split; [apply bytes_ok_zeros|]. split; [exact edB_on_curve|]. split; [discriminate|exact ucoord_B]. Qed.

(** ** C58: key agreement and the public-key box *)
Theorem C58_key_agreement : forall a b, zlen a = 32 -> bytes_ok a -> zlen b = 32 -> bytes_ok b ->
  exists A B s, crypto_scalarmult_base a = Ret (0, A) /\ crypto_scalarmult_base b = Ret (0, B) /\
    crypto_scalarmult a B = Ret (0, s) /\ crypto_scalarmult b A = Ret (0, s).
Proof.
  intros a b La Ba Lb Bb. unfold crypto_scalarmult_base. change nine32 with base9. assert (L9: zlen base9 = 32) by reflexivity. assert (B9: bytes_ok base9) by (apply Forall_cons; [unfold byte_ok; lia|apply (bytes_ok_zeros 31)]).
  rewrite !scalarmult_spec by assumption. exists (x25519 a base9), (x25519 b base9), (x25519 a (x25519 b base9)). split; [reflexivity|]. split; [reflexivity|].
  rewrite !scalarmult_spec by (assumption || apply x25519_len || apply x25519_bytes). split; [reflexivity|]. rewrite base9_encode. rewrite x25519_commutes by exact edB_on_curve. reflexivity.
Qed.
Print Assumptions C58_key_agreement.
Lemma beforenm_ok w y x : word_size w -> zlen y = 32 -> bytes_ok y -> zlen x = 32 -> bytes_ok x -> crypto_box_beforenm w y x = Ret (0, box_shared x y).
Proof.
  intros W Ly By Lx Bx. unfold crypto_box_beforenm, crypto_core_hsalsa20. rewrite scalarmult_spec by assumption. cbn [bind]. cbv iota.
  rewrite (core_ok w zero16 (x25519 x y) true); [|exact W|apply bytes_ok_zeros|apply x25519_bytes|unfold zero16; rewrite zlen_zeros; lia|apply x25519_len]. cbn [bind]. cbv iota. assert (E0: slice zero16 0 16 = repeat 0 16) by reflexivity. rewrite E0. reflexivity.
Qed.
Lemma box_shared_ok x y : zlen (box_shared x y) = 32 /\ bytes_ok (box_shared x y).
Proof. split; [apply hsalsa20_len|apply hsalsa20_ok]. Qed.
Local Opaque box_shared.
(** the box is the secret-key box under the specified shared key *)
Theorem C58_box_is_the_specified_box : forall w c msg n pk sk,
  word_size w -> bytes_ok msg -> bytes_ok n -> bytes_ok pk -> bytes_ok sk -> zlen c = 32 + zlen msg -> zlen n = 24 -> zlen pk = 32 -> zlen sk = 32 ->
  let k := box_shared sk pk in
  crypto_box w c (zeros 32 ++ msg) (32 + zlen msg) n pk sk = Ret (0, zeros 16 ++ box_tag k n (box_cipher k n msg) ++ box_cipher k n msg).
Proof.
  intros w c msg n pk sk W Bm Bn Bp Bs Lc Ln Lp Ls k. unfold crypto_box, crypto_box_afternm. rewrite beforenm_ok by assumption. cbn [bind]. cbv iota. fold k. destruct (box_shared_ok sk pk). now apply C44_secretbox_is_the_specified_box.
Qed.
Print Assumptions C58_box_is_the_specified_box.
Theorem C58_box_open_exact : forall w m c n pk sk,
  word_size w -> bytes_ok c -> bytes_ok n -> bytes_ok pk -> bytes_ok sk -> zlen m = zlen c -> zlen n = 24 -> zlen pk = 32 -> zlen sk = 32 ->
  let k := box_shared sk pk in
  exists rc m', crypto_box_open w m c (zlen c) n pk sk = Ret (rc, m') /\
    ((rc = 0 /\ 32 <= zlen c /\ slice c 16 16 = box_tag k n (slice c 32 (zlen c - 32)) /\ m' = zeros 32 ++ box_cipher k n (slice c 32 (zlen c - 32))) \/
     (rc = -1 /\ ~ (32 <= zlen c /\ slice c 16 16 = box_tag k n (slice c 32 (zlen c - 32))) /\ m' = m)).
Proof.
  intros w m c n pk sk W Bc Bn Bp Bs Lm Ln Lp Ls k. unfold crypto_box_open, crypto_box_open_afternm. rewrite beforenm_ok by assumption. cbn [bind]. cbv iota. fold k. destruct (box_shared_ok sk pk). now apply C44_secretbox_open_exact.
Qed.
Print Assumptions C58_box_open_exact.
(** A sends to B: key pairs from the library's own key generation, A's secret key and B's public
    key to seal, B's secret key and A's public key to open *)
Theorem C58_box_round_trip : forall w ya yb ra rb c m msg n,
  word_size w -> zlen ra = 32 -> bytes_ok ra -> zlen rb = 32 -> bytes_ok rb -> bytes_ok msg -> bytes_ok n -> zlen n = 24 -> zlen c = 32 + zlen msg -> zlen m = 32 + zlen msg ->
  exists pka ska pkb skb ct,
    crypto_box_keypair ya (0, ra) = Ret (0, pka, ska) /\ crypto_box_keypair yb (0, rb) = Ret (0, pkb, skb) /\ ska = ra /\ skb = rb /\
    crypto_box w c (zeros 32 ++ msg) (32 + zlen msg) n pkb ska = Ret (0, ct) /\ zlen ct = 32 + zlen msg /\
    crypto_box_open w m ct (32 + zlen msg) n pka skb = Ret (0, zeros 32 ++ msg).
Proof.
  intros w ya yb ra rb c m msg n W Lra Bra Lrb Brb Bm Bn Ln Lc Lm. unfold crypto_box_keypair. change (negb (0 =? 0)) with false. cbv iota.
  unfold crypto_scalarmult_base. change nine32 with base9. assert (L9: zlen base9 = 32) by reflexivity. assert (B9: bytes_ok base9) by (apply Forall_cons; [unfold byte_ok; lia|apply (bytes_ok_zeros 31)]).
  rewrite !scalarmult_spec by assumption. cbn [bind]. cbv iota. set (A := x25519 ra base9). set (B := x25519 rb base9).
  assert (LA: zlen A = 32) by apply x25519_len. assert (BA: bytes_ok A) by apply x25519_bytes. assert (LB: zlen B = 32) by apply x25519_len. assert (BB: bytes_ok B) by apply x25519_bytes.
  assert (E: box_shared ra B = box_shared rb A). { Transparent box_shared. unfold box_shared. Opaque box_shared. f_equal. unfold A, B. rewrite base9_encode. apply x25519_commutes. exact edB_on_curve. }
  clearbody A B. exists A, ra, B, rb. unfold crypto_box, crypto_box_open, crypto_box_afternm, crypto_box_open_afternm. rewrite !beforenm_ok by assumption. cbn [bind]. cbv iota. rewrite <- E. destruct (box_shared_ok ra B) as [Lk Bk].
  destruct (C44_secretbox_round_trip w c m msg n (box_shared ra B) W Bm Bn Bk Lc Lm Ln Lk) as (ct & E1 & E2 & _ & E3). exists ct. repeat (split; [reflexivity || assumption|]). exact E3.
Qed.
Print Assumptions C58_box_round_trip.
(** a failing random source is reported and no public key is written *)
Theorem C58_keypair_reports_failure : forall y rc x, rc <> 0 -> crypto_box_keypair y (rc, x) = Ret (-1, y, x).
Proof. intros y rc x H. unfold crypto_box_keypair. destruct (Z.eqb_spec rc 0); [contradiction|reflexivity]. Qed.
Print Assumptions C58_keypair_reports_failure.
(** the public key of every secret key is a point other than the ones of order 1 and 2 *)
Theorem C58_public_keys_nondegenerate : forall n, zlen n = 32 -> bytes_ok n -> exists y, crypto_scalarmult_base n = Ret (0, y) /\ decodeUCoordinate y <> 0.
Proof.
  intros n Ln Bn. rewrite C57_base_multiplies_the_base_point by assumption. eexists. split; [reflexivity|]. rewrite decode_encode, Z.mod_small by apply ucoord_range. apply x25519_base_nonzero.
Qed.
Print Assumptions C58_public_keys_nondegenerate.
Example C58_nonvacuous : word_size 64 /\ zlen (zeros 32) = 32 /\ bytes_ok (zeros 32) /\ bytes_ok (9 :: zeros 31) /\ zlen (9 :: zeros 31) = 32 /\ zlen (zeros 34) = 32 + zlen [1; 2].
Proof. split; [right; reflexivity|]. repeat split; try apply bytes_ok_zeros. apply Forall_cons; [unfold byte_ok; lia|apply bytes_ok_zeros]. Qed.

(** ** C59: degenerate public keys *)
(** the claim "crypto_box refuses public keys for which the result does not depend on the secret
    key" is false of the code: for the all-zero public key (and for the encoding of p) every secret
    key gives the same shared key, and crypto_box returns success *)
Theorem C59_degenerate_public_key_refused_refuted :
  exists pk, zlen pk = 32 /\ bytes_ok pk /\
    (forall sk, zlen sk = 32 -> bytes_ok sk -> crypto_scalarmult sk pk = Ret (0, zeros 32)) /\
    (forall w sk sk' c m msg n, word_size w -> zlen sk = 32 -> bytes_ok sk -> zlen sk' = 32 -> bytes_ok sk' -> bytes_ok msg -> bytes_ok n -> zlen n = 24 -> zlen c = 32 + zlen msg -> zlen m = 32 + zlen msg ->
       exists ct, crypto_box w c (zeros 32 ++ msg) (32 + zlen msg) n pk sk = Ret (0, ct) /\
                  crypto_box_open w m ct (32 + zlen msg) n pk sk' = Ret (0, zeros 32 ++ msg)).
Proof.
  assert (X: forall sk, x25519 sk (zeros 32) = zeros 32).
  { intros sk. Transparent x25519. unfold x25519. Opaque x25519. replace (decodeUCoordinate (zeros 32)) with 0 by (vm_compute; reflexivity). rewrite ladder_of_zero by apply eqp_refl. unfold encodeUCoordinate. rewrite Z.mod_0_l by (pose proof edp_pos; lia). vm_compute. reflexivity. }
  assert (L0: zlen (zeros 32) = 32) by reflexivity. pose proof (bytes_ok_zeros 32) as B0. exists (zeros 32). split; [exact L0|]. split; [exact B0|]. split.
  - intros sk Ls Bs. rewrite scalarmult_spec by assumption. now rewrite X.
  - intros w sk sk' c m msg n W Ls Bs Ls' Bs' Bm Bn Ln Lc Lm. unfold crypto_box, crypto_box_open, crypto_box_afternm, crypto_box_open_afternm. rewrite !beforenm_ok by assumption. cbn [bind]. cbv iota.
    assert (E: box_shared sk' (zeros 32) = box_shared sk (zeros 32)). { Transparent box_shared. unfold box_shared. Opaque box_shared. now rewrite !X. } rewrite E. destruct (box_shared_ok sk (zeros 32)) as [Lk Bk].
    destruct (C44_secretbox_round_trip w c m msg n _ W Bm Bn Bk Lc Lm Ln Lk) as (ct & E1 & _ & _ & E3). exists ct. split; assumption.
Qed.
Print Assumptions C59_degenerate_public_key_refused_refuted.
