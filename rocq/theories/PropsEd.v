(** Property theorems about the Ed25519 part of tweetnacl/tweetnacl.c (C39 - C43, C46 - C49).
    Specifications: EdSpec.v (curve, point encoding), Sha512Spec.v (FIPS 180-4), EdSig.v (RFC 8032).
    [gval l] is the sum of l_i * 65536^i; [bounded B l]: 16 limbs, each in [-B, B]. *)
From Verif Require Import Base Wp NumTheory EdSpec EdCurve EdExt Sha512Spec EdSig Tweet TweetField TweetField2 TweetCurve TweetModL TweetSha EdDecode EdOrder TweetEd.

(** ** C39: round trip *)
Theorem C39_ed25519_sign_then_open : forall seed m smbuf mbuf,
  zlen seed = 32 -> bytes_ok seed -> bytes_ok m -> bytes_ok smbuf -> bytes_ok mbuf ->
  zlen m + 64 < 2 ^ 31 -> zlen m + 64 <= zlen smbuf -> zlen m + 64 <= zlen mbuf ->
  exists pk sk sm m', ed_keypair_seed seed = Ret (0, pk, sk) /\ zlen pk = 32 /\ zlen sk = 64 /\
    ed_sign smbuf m (zlen m) sk = Ret (0, zlen m + 64, sm) /\ zlen sm = zlen smbuf /\ slice sm 64 (zlen m) = m /\
    ed_open mbuf sm (zlen m + 64) pk = Ret (0, zlen m, m') /\ slice m' 0 (zlen m) = m.
Proof.
  intros seed m smbuf mbuf Ls Bs Bm Bsm Bmb Hn L1 L2. pose proof (zlen_nonneg m) as Hm. set (n := zlen m) in *.
  set (rest := slice smbuf (64 + n) (zlen smbuf - 64 - n)). assert (Lrest: zlen rest = zlen smbuf - 64 - n) by (apply zlen_slice; lia). assert (Brest: bytes_ok rest) by now apply bytes_ok_slice.
  pose proof (ed_sign_ok smbuf m n seed Ls Bs Bsm Bm Hm ltac:(lia) ltac:(lia) ltac:(lia)) as ES. cbv zeta in ES. fold rest in ES. rewrite (slice_all m) in ES by reflexivity.
  set (sig := ed_signature seed m) in *. assert (Lsig: zlen sig = 64) by (unfold sig, ed_signature; rewrite zlen_app, zlen_le_bytes; unfold ed_sigR; rewrite zlen_penc; reflexivity).
  assert (Bsig: bytes_ok sig) by (apply bytes_ok_app; split; [apply penc_bytes|apply le_bytes_ok]).
  pose proof (ed_open_ok mbuf (sig ++ m ++ rest) (n + 64) (ed_public seed) (zlen_penc _) (penc_bytes _) Bmb ltac:(rewrite !bytes_ok_app; tauto) ltac:(lia) ltac:(lia) ltac:(rewrite !zlen_app; fold n; lia)) as EO.
  apply wp_ex in EO. destruct EO as ([[rc mlen] m'] & EO & _ & _ & P). rewrite slice_mid0 in P by lia. rewrite slice_mid in P by (fold n; lia).
  exists (ed_public seed), (seed ++ ed_public seed), (sig ++ m ++ rest), m'. split; [now apply ed_keypair_seed_ok|]. split; [apply zlen_penc|]. split; [rewrite zlen_app; unfold ed_public; rewrite zlen_penc; lia|]. split; [exact ES|].
  split; [rewrite !zlen_app; fold n; lia|]. split; [apply slice_mid; (reflexivity || (symmetry; exact Lsig))|].
  destruct P as [(-> & -> & _ & _ & P)|(_ & _ & NV & _)]; [replace (n + 64 - 64) with n in * by lia; split; assumption|].
  exfalso. apply (NV ltac:(lia)). apply ed_valid_weaken, ed_signature_valid.
Qed.
Print Assumptions C39_ed25519_sign_then_open.
Example C39_nonvacuous : zlen (zeros 32) = 32 /\ bytes_ok (zeros 32) /\ bytes_ok [104; 105] /\ zlen [104; 105] + 64 < 2 ^ 31 /\ zlen [104; 105] + 64 <= zlen (zeros 66).
Proof. repeat split; try (apply bytes_ok_zeros); try lia; try (vm_compute; congruence). repeat constructor; unfold byte_ok; lia. Qed.

(** ** C40: field and scalar arithmetic *)
Theorem C40_field_addition : forall a b, bounded (2 ^ 61) a -> bounded (2 ^ 61) b -> exists o, gfA a b = Ret o /\ gval o = gval a + gval b.
Proof. intros a b Ha Hb. pose proof (gfA_ok _ _ a b Ha Hb ltac:(lia) ltac:(lia) ltac:(lia)) as H. apply wp_ex in H. destruct H as (o & E & _ & V). now exists o. Qed.
Theorem C40_field_subtraction : forall a b, bounded (2 ^ 61) a -> bounded (2 ^ 61) b -> exists o, gfZ a b = Ret o /\ gval o = gval a - gval b.
Proof. intros a b Ha Hb. pose proof (gfZ_ok _ _ a b Ha Hb ltac:(lia) ltac:(lia) ltac:(lia)) as H. apply wp_ex in H. destruct H as (o & E & _ & V). now exists o. Qed.
(** products, squares: no overflow for limbs up to 2^18, and the result is again small *)
Theorem C40_field_multiplication : forall a b, bounded (2 ^ 18) a -> bounded (2 ^ 18) b ->
  exists o, gfM a b = Ret o /\ bounded 65574 o /\ gval o mod (2 ^ 255 - 19) = (gval a * gval b) mod (2 ^ 255 - 19).
Proof.
  intros a b Ha Hb. pose proof (gfM_ok a b Ha Hb) as H. apply wp_ex in H. destruct H as (o & E & F). exists o. split; [exact E|]. split; [eapply fe_bounded; exact F|]. apply eqp_iff, F.
Qed.
Theorem C40_field_inversion : forall a, bounded (2 ^ 18) a -> exists o, inv25519 a = Ret o /\ bounded 65574 o /\
  (gval a mod (2 ^ 255 - 19) <> 0 -> (gval a * gval o) mod (2 ^ 255 - 19) = 1).
Proof.
  intros a Ha. pose proof (inv_fe _ a (gval a) Ha ltac:(lia) ltac:(reflexivity)) as H. apply wp_ex in H. destruct H as (o & E & F). exists o. split; [exact E|]. split; [eapply fe_bounded; exact F|]. intros N.
  destruct F as [_ F]. change (2 ^ 255 - 19) with edp in *. assert (G: gval a * gval o == 1).
  { rewrite F. rewrite <- Z.pow_succ_r by (rewrite edp_val; lia). replace (Z.succ (edp - 2)) with (edp - 1) by lia. apply fermat_p. intros D. apply eqp_iff in D. apply N. exact D. }
  apply eqp_iff in G. exact G.
Qed.
(** packing gives the canonical little-endian bytes of the value modulo p, for limbs up to 2^55 *)
Theorem C40_field_packing : forall a, bounded (2 ^ 55) a -> pack25519 a = Ret (le_bytes 32 (gval a mod (2 ^ 255 - 19))).
Proof. exact pack25519_ok. Qed.
Theorem C40_field_unpacking : forall bs, zlen bs = 32 -> bytes_ok bs -> exists o, unpack25519 bs = Ret o /\ bounded 65535 o /\ gval o = le_val bs mod 2 ^ 255.
Proof. intros bs L B. pose proof (unpack_ok bs L B) as H. apply wp_ex in H. destruct H as (o & E & Hb & V). now exists o. Qed.
(** reduction modulo the group order, of a 64-byte hash and of the accumulated product in signing *)
Theorem C40_scalar_reduction : forall r, zlen r = 64 -> bytes_ok r -> ed_reduce r = Ret (le_bytes 32 (le_val r mod edL) ++ zeros 32).
Proof. exact ed_reduce_ok. Qed.
Theorem C40_scalar_reduction_wide : forall x, zlen x = 64 -> (forall j, 0 <= j < 64 -> 0 <= znth x j <= 2 ^ 21) ->
  modL x = Ret (le_bytes 32 (bval 256 x mod edL)).
Proof. exact modL_ok. Qed.
(** scalar multiplication and point encoding *)
Theorem C40_base_point_multiples : forall s, zlen s = 32 -> bytes_ok s ->
  (p <- scalarbase s ;; ed_pack p) = Ret (penc (smul (le_val s) edB)).
Proof.
  intros s L B. apply wp_is. apply wp_bind. eapply wp_mono; [apply scalarbase_ok; [lia|exact B]|]. intros p R. cbv beta. rewrite pre_all in R by lia. eapply ed_pack_ok; [exact R|lia].
Qed.
(** the points form a group, in which the base point has prime order L *)
Theorem C40_point_group : forall P Q R, on_curve P -> on_curve Q -> on_curve R ->
  on_curve (padd P Q) /\ padd P Q = padd Q P /\ padd (padd P Q) R = padd P (padd Q R) /\ padd pzero P = P /\ padd P (pneg P) = pzero.
Proof. intros P Q R CP CQ CR. split; [now apply padd_closed|]. split; [apply padd_comm|]. split; [now apply padd_assoc|]. split; [now apply padd_0_l|now apply padd_neg_r]. Qed.
Theorem C40_base_point_order : Znumtheory.prime edL /\ forall n m, 0 <= n -> 0 <= m -> (smul n edB = smul m edB <-> n mod edL = m mod edL).
Proof. split; [exact prime_edL|]. intros n m Hn Hm. split; [now apply smul_B_inj|]. intros E. rewrite <- (smul_mod n Hn), <- (smul_mod m Hm). now rewrite E. Qed.
Print Assumptions C40_field_multiplication. Print Assumptions C40_field_inversion. Print Assumptions C40_scalar_reduction_wide. Print Assumptions C40_base_point_multiples. Print Assumptions C40_base_point_order.
Example C40_nonvacuous : bounded (2 ^ 18) gfX /\ bounded (2 ^ 18) gfD /\ gval gfX mod (2 ^ 255 - 19) <> 0.
Proof. split; [apply (bounded_le 65574); [apply gfX_ok|lia]|]. split; [apply (bounded_le 65574); [apply gfD_ok|lia]|]. vm_compute. discriminate. Qed.

(** ** C41: what crypto_sign_open does on every input *)
Theorem C41_ed25519_open : forall m sm n pk, zlen pk = 32 -> bytes_ok pk -> bytes_ok m -> bytes_ok sm ->
  0 <= n < 2 ^ 31 -> n <= zlen m -> n <= zlen sm ->
  exists rc mlen m', ed_open m sm n pk = Ret (rc, mlen, m') /\ zlen m' = zlen m /\
    slice m' n (zlen m - n) = slice m n (zlen m - n) /\
    let sig := slice sm 0 64 in let M := slice sm 64 (n - 64) in
    ((rc = 0 /\ mlen = n - 64 /\ 64 <= n /\ ed_valid pk sig M /\ slice m' 0 (n - 64) = M) \/
     (rc = -1 /\ mlen = 2 ^ 64 - 1 /\ (64 <= n -> ~ ed_valid pk sig M) /\ ((m' = m /\ (n < 64 \/ forall A, ~ decodes pk A)) \/ slice m' 0 (n - 64) = zeros (n - 64)))).
Proof.
  intros m sm n pk Lp Bp Bm Bs Hn Lm Lsm. pose proof (ed_open_ok m sm n pk Lp Bp Bm Bs Hn Lm Lsm) as H. apply wp_ex in H. destruct H as ([[rc mlen] m'] & E & H). exists rc, mlen, m'. split; [exact E|exact H].
Qed.
Theorem C41_ed25519_open_short : forall m sm n pk, n < 64 -> ed_open m sm n pk = Ret (-1, 2 ^ 64 - 1, m).
Proof. intros m sm n pk H. unfold ed_open. replace (n <? 64) with true by lia. reflexivity. Qed.
Theorem C41_ed25519_open_bad_key : forall m sm n pk, zlen pk = 32 -> bytes_ok pk -> (forall A, ~ decodes pk A) -> ed_open m sm n pk = Ret (-1, 2 ^ 64 - 1, m).
Proof.
  intros m sm n pk Lp Bp ND. unfold ed_open. cbv zeta. destruct (n <? 64); [reflexivity|]. pose proof (unpackneg_ok pk Lp Bp) as H. apply wp_ex in H. destruct H as ([q|] & E & H); rewrite E; [|reflexivity]. destruct H as (A & D & _). exfalso. exact (ND A D).
Qed.
(** on a signature mismatch the n - 64 message bytes are zero *)
Theorem C41_ed25519_open_clears : forall m sm n pk A, zlen pk = 32 -> bytes_ok pk -> bytes_ok m -> bytes_ok sm ->
  64 <= n < 2 ^ 31 -> n <= zlen m -> n <= zlen sm -> decodes pk A -> ~ ed_valid pk (slice sm 0 64) (slice sm 64 (n - 64)) ->
  exists m', ed_open m sm n pk = Ret (-1, 2 ^ 64 - 1, m') /\ slice m' 0 (n - 64) = zeros (n - 64).
Proof.
  intros m sm n pk A Lp Bp Bm Bs Hn Lm Lsm D NV. destruct (C41_ed25519_open m sm n pk Lp Bp Bm Bs ltac:(lia) Lm Lsm) as (rc & mlen & m' & E & _ & _ & [(_ & _ & _ & V & _)|(-> & -> & _ & [[_ [H|H]]|H])]); [contradiction|lia|destruct (H A D)|]. exists m'. split; [exact E|exact H].
Qed.
Print Assumptions C41_ed25519_open. Print Assumptions C41_ed25519_open_clears.
(** a decodable key, a valid and an invalid signature, and an undecodable key exist *)
Example C41_nonvacuous : decodes (penc edB) edB /\ (forall seed M, ed_valid (ed_public seed) (ed_signature seed M) M) /\ ~ ed_valid (penc edB) (repeat 255 64) [].
Proof.
  split; [apply decodes_strict_decodes, decodes_penc, edB_on_curve|]. split; [intros; apply ed_valid_weaken, ed_signature_valid|].
  intros (A & D & E). unfold ed_equation in E. set (P := padd _ _) in E. assert (C: on_curve P) by (apply padd_closed; [apply smul_closed, edB_on_curve|apply pneg_on_curve, smul_closed, D]). clearbody P. destruct P as [x y]. apply on_curve_eqp in C as (Hx & Hy & CV).
  apply (f_equal le_val) in E. rewrite penc_val in E by assumption. change (le_val (slice (repeat 255 64) 0 32)) with (2 ^ 256 - 1) in E. rewrite edp_val in Hy. clear - E Hy. pose proof (Z.mod_pos_bound x 2 ltac:(lia)). lia.
Qed.

(** ** C42: the signature is malleable *)
(** For every key and message, replacing S by S + L in the produced signature gives a different byte
    string that crypto_sign_open accepts for the same message and key. *)
Theorem C42_ed25519_malleable_refuted : forall seed m mbuf, zlen seed = 32 -> bytes_ok seed -> bytes_ok m -> bytes_ok mbuf ->
  zlen m + 64 < 2 ^ 31 -> zlen m + 64 <= zlen mbuf ->
  let sig := ed_signature seed m in let sig' := ed_sigR seed m ++ le_bytes 32 (ed_sigS seed m + edL) in
  sig' <> sig /\ exists m1 m2, ed_open mbuf (sig ++ m) (zlen m + 64) (ed_public seed) = Ret (0, zlen m, m1) /\ slice m1 0 (zlen m) = m /\
    ed_open mbuf (sig' ++ m) (zlen m + 64) (ed_public seed) = Ret (0, zlen m, m2) /\ slice m2 0 (zlen m) = m.
Proof.
  intros seed m mbuf Ls Bs Bm Bmb Hn L2 sig sig'. pose proof (zlen_nonneg m) as Hm. pose proof (sigS_range seed m) as RS. pose proof edL_lt as RL.
  assert (G: forall S, 0 <= S < 2 ^ 256 -> S mod edL = ed_sigS seed m -> exists m', ed_open mbuf ((ed_sigR seed m ++ le_bytes 32 S) ++ m) (zlen m + 64) (ed_public seed) = Ret (0, zlen m, m') /\ slice m' 0 (zlen m) = m).
  { intros S HS ES. set (s := ed_sigR seed m ++ le_bytes 32 S). assert (L: zlen s = 64) by (unfold s, ed_sigR; rewrite zlen_app, zlen_penc, zlen_le_bytes; reflexivity). assert (B: bytes_ok s) by (apply bytes_ok_app; split; [apply penc_bytes|apply le_bytes_ok]).
    destruct (C41_ed25519_open mbuf (s ++ m) (zlen m + 64) (ed_public seed)) as (rc & mlen & m' & E & _ & _ & H); try assumption; [apply zlen_penc|apply penc_bytes|apply bytes_ok_app; now split|lia|rewrite zlen_app; lia|].
    cbv zeta in H. replace (zlen m + 64 - 64) with (zlen m) in H by lia. rewrite slice_mid0, slice_app_r in H by lia. rewrite L in H. change (64 - 64) with 0 in H. rewrite (slice_all m) in H by reflexivity.
    destruct H as [(-> & -> & _ & _ & H)|(_ & _ & NV & _)]; [exists m'; split; assumption|]. exfalso. apply (NV ltac:(lia)). exists (smul (ed_scalar seed) edB). split; [apply decodes_strict_decodes, ed_public_decodes|]. unfold s. destruct (sig_halves seed m S) as [-> ->]. rewrite le_val_bytes by exact HS. apply ed_equation_gen; [lia|exact ES]. }
  split.
  - intros E. apply app_inv_head in E. apply le_bytes_inj in E; change (256 ^ Z.of_nat 32) with (2 ^ 256); lia.
  - destruct (G (ed_sigS seed m)) as (m1 & E1 & H1); [lia|apply Z.mod_small; lia|]. destruct (G (ed_sigS seed m + edL)) as (m2 & E2 & H2); [lia|rewrite <- (Z.mul_1_l edL) at 1; rewrite Z.mod_add by lia; apply Z.mod_small; lia|]. exists m1, m2. now repeat split.
Qed.
Print Assumptions C42_ed25519_malleable_refuted.
(** What does hold: for the same R, key and message every accepted S is the same modulo L. *)
Theorem C42_ed25519_unique_mod_order_partial : forall pk R S S' M, zlen pk = 32 -> bytes_ok pk -> zlen R = 32 -> zlen S = 32 -> zlen S' = 32 -> bytes_ok S -> bytes_ok S' ->
  ed_valid pk (R ++ S) M -> ed_valid pk (R ++ S') M -> le_val S mod edL = le_val S' mod edL.
Proof.
  intros pk R S S' M Lp Bp LR LS LS' BS BS' (A & D & E) (A' & D' & E'). assert (A' = A) as -> by exact (decodes_unique pk A' A Bp Lp D' D).
  rewrite slice_mid0, slice_app_r in * by lia. rewrite LR in *. change (32 - 32) with 0 in *. rewrite slice_all in * by lia.
  unfold ed_equation in *. pose proof (le_val_range S BS). pose proof (le_val_range S' BS'). set (N := pneg _) in *. assert (CN: on_curve N) by (apply pneg_on_curve, smul_closed, D). pose proof edB_on_curve as CB.
  apply smul_B_inj; try lia. apply (padd_cancel_r _ _ N); try assumption; try (apply smul_closed; exact CB). apply penc_inj; try (apply padd_closed; try assumption; apply smul_closed; exact CB). now rewrite <- E, <- E'.
Qed.
Print Assumptions C42_ed25519_unique_mod_order_partial.

(** ** C43: SHA-512 *)
Theorem C43_sha512 : forall m off n, bytes_ok m -> 0 <= off -> 0 <= n < 2 ^ 64 -> off + n <= zlen m -> crypto_hash m off n = Ret (sha512 (slice m off n)).
Proof. exact crypto_hash_ok. Qed.
Print Assumptions C43_sha512.
Example C43_nonvacuous : bytes_ok [97; 98; 99] /\ 0 + 3 <= zlen [97; 98; 99].
Proof. split; [repeat constructor; unfold byte_ok; lia|vm_compute; congruence]. Qed.

(** ** C46: constant-time comparison *)
Theorem C46_verify_32 : forall x y, zlen x = 32 -> zlen y = 32 -> bytes_ok x -> bytes_ok y -> exists r, crypto_verify_32 x y = Ret r /\ (x = y -> r = 0) /\ (x <> y -> r = -1).
Proof.
  intros x y Lx Ly Bx By. rewrite verify_32_ok by assumption. eexists. split; [reflexivity|]. destruct (list_eqb x y) eqn:E; split; intros H; try reflexivity; exfalso; [apply list_eqb_eq in E; contradiction|apply list_eqb_eq in H; congruence].
Qed.
Theorem C46_verify_16 : forall x y, zlen x = 16 -> zlen y = 16 -> bytes_ok x -> bytes_ok y -> exists r, crypto_verify_16 x y = Ret r /\ (x = y -> r = 0) /\ (x <> y -> r = -1).
Proof.
  intros x y Lx Ly Bx By. rewrite verify_16_ok by assumption. eexists. split; [reflexivity|]. destruct (list_eqb x y) eqn:E; split; intros H; try reflexivity; exfalso; [apply list_eqb_eq in E; contradiction|apply list_eqb_eq in H; congruence].
Qed.
Print Assumptions C46_verify_32. Print Assumptions C46_verify_16.
Example C46_nonvacuous : zlen (zeros 32) = 32 /\ bytes_ok (zeros 32) /\ repeat 7 32 <> zeros 32.
Proof. split; [reflexivity|]. split; [apply bytes_ok_zeros|discriminate]. Qed.

(** ** C47: key generation and signing are those of RFC 8032 *)
Theorem C47_keygen_is_rfc8032 : forall seed, zlen seed = 32 -> bytes_ok seed -> ed_keypair_seed seed = Ret (0, ed_public seed, seed ++ ed_public seed).
Proof. exact ed_keypair_seed_ok. Qed.
Theorem C47_sign_is_rfc8032 : forall sm m n seed, zlen seed = 32 -> bytes_ok seed -> bytes_ok sm -> bytes_ok m -> 0 <= n -> n <= zlen m -> 64 + n <= zlen sm -> 64 + n < 2 ^ 64 ->
  let M := slice m 0 n in ed_sign sm m n (seed ++ ed_public seed) = Ret (0, n + 64, ed_signature seed M ++ M ++ slice sm (64 + n) (zlen sm - 64 - n)).
Proof. exact ed_sign_ok. Qed.
(** the produced signatures satisfy the strict RFC 8032 conditions, including S < L and canonical encodings *)
Theorem C47_signatures_strictly_valid : forall seed M, ed_valid_rfc (ed_public seed) (ed_signature seed M) M.
Proof. exact ed_signature_valid. Qed.
(** keygen from the random source: the outcome is that of the seed drawn, and a failing source is reported with nothing written *)
Theorem C47_keypair_random : forall r seed, zlen seed = 32 -> bytes_ok seed ->
  ed_keypair (r, seed) = if r =? 0 then Ret (0, Some (ed_public seed, seed ++ ed_public seed)) else Ret (r, None).
Proof. intros r seed L B. unfold ed_keypair. destruct (r =? 0); cbn [negb]; [|reflexivity]. rewrite ed_keypair_seed_ok by assumption. reflexivity. Qed.
Print Assumptions C47_keygen_is_rfc8032. Print Assumptions C47_sign_is_rfc8032. Print Assumptions C47_signatures_strictly_valid. Print Assumptions C47_keypair_random.
Example C47_nonvacuous : zlen (repeat 9 32) = 32 /\ bytes_ok (repeat 9 32).
Proof. split; [reflexivity|]. apply Forall_forall. intros x H. apply repeat_spec in H. subst. unfold byte_ok. lia. Qed.

(** ** C48: verification is not the RFC 8032 verification *)
(** The byte string of the value p + 1 is no RFC 8032 encoding of any point, but is accepted as a public key; under it every
    message is accepted with a signature made without any secret. *)
Theorem C48_noncanonical_key_refuted : let pk := le_bytes 32 (2 ^ 255 - 18) in
  (forall A, ~ decodes_strict pk A) /\
  forall M mbuf r, bytes_ok M -> bytes_ok mbuf -> zlen M + 64 < 2 ^ 31 -> zlen M + 64 <= zlen mbuf -> 0 <= r < 2 ^ 256 ->
    exists m', ed_open mbuf ((penc (smul r edB) ++ le_bytes 32 r) ++ M) (zlen M + 64) pk = Ret (0, zlen M, m') /\ slice m' 0 (zlen M) = M.
Proof.
  intros pk. assert (Lpk: zlen pk = 32) by apply zlen_le_bytes. assert (Bpk: bytes_ok pk) by apply le_bytes_ok. assert (V: le_val pk = 2 ^ 255 - 18) by (apply le_val_bytes; change (256 ^ Z.of_nat 32) with (2 ^ 256); lia). clearbody pk. split.
  - intros [x y] (C & EY & _). cbn [fst snd] in *. apply on_curve_eqp in C as (_ & Hy & _). rewrite V in EY. rewrite edp_val in Hy. change ((2 ^ 255 - 18) mod 2 ^ 255) with (2 ^ 255 - 18) in EY. lia.
  - intros M mbuf r BM Bmb Hn L2 Hr. pose proof (zlen_nonneg M) as HM. set (R := penc (smul r edB)). set (s := R ++ le_bytes 32 r). assert (LR: zlen R = 32) by apply zlen_penc. assert (L: zlen s = 64) by (unfold s; rewrite zlen_app, zlen_le_bytes, LR; reflexivity). assert (B: bytes_ok s) by (apply bytes_ok_app; split; [apply penc_bytes|apply le_bytes_ok]).
    destruct (C41_ed25519_open mbuf (s ++ M) (zlen M + 64) pk) as (rc & mlen & m' & E & _ & _ & H); try assumption; [apply bytes_ok_app; now split|lia|rewrite zlen_app; lia|].
    cbv zeta in H. replace (zlen M + 64 - 64) with (zlen M) in H by lia. rewrite slice_mid0, slice_app_r in H by lia. rewrite L in H. change (64 - 64) with 0 in H. rewrite (slice_all M) in H by reflexivity.
    destruct H as [(-> & -> & _ & _ & H)|(_ & _ & NV & _)]; [exists m'; split; assumption|]. exfalso. apply (NV ltac:(lia)). exists pzero. split.
    + split; [apply pzero_on_curve|]. rewrite V. split; [reflexivity|]. now left.
    + unfold s. rewrite slice_mid0, slice_app_r by lia. rewrite LR. change (32 - 32) with 0. rewrite (slice_all (le_bytes 32 r)) by (now rewrite zlen_le_bytes). rewrite le_val_bytes by exact Hr. unfold ed_equation. rewrite smul_zero. change (pneg pzero) with pzero. rewrite padd_0_r by (apply smul_closed, edB_on_curve). reflexivity.
Qed.
Print Assumptions C48_noncanonical_key_refuted.
(** One direction does hold: everything RFC 8032 accepts (with the check "without cofactor") is accepted. *)
Theorem C48_accepts_all_rfc_valid_partial : forall m sm n pk, zlen pk = 32 -> bytes_ok pk -> bytes_ok m -> bytes_ok sm ->
  64 <= n < 2 ^ 31 -> n <= zlen m -> n <= zlen sm -> ed_valid_rfc pk (slice sm 0 64) (slice sm 64 (n - 64)) ->
  exists m', ed_open m sm n pk = Ret (0, n - 64, m') /\ slice m' 0 (n - 64) = slice sm 64 (n - 64).
Proof.
  intros m sm n pk Lp Bp Bm Bs Hn Lm Lsm V. destruct (C41_ed25519_open m sm n pk Lp Bp Bm Bs ltac:(lia) Lm Lsm) as (rc & mlen & m' & E & _ & _ & [(-> & -> & _ & _ & H)|(_ & _ & NV & _)]); [exists m'; split; assumption|]. exfalso. apply (NV ltac:(lia)). now apply ed_valid_weaken.
Qed.
Print Assumptions C48_accepts_all_rfc_valid_partial.

(** ** C49: messages of 2^31 - 64 bytes or more can be signed but not opened *)
(** The counter of the copying loop of crypto_sign_open is an int: for n >= 2^31 it overflows, which is undefined. *)
Theorem C49_large_message_open_refuted : forall seed m mbuf smbuf, zlen seed = 32 -> bytes_ok seed -> bytes_ok m -> bytes_ok smbuf ->
  2 ^ 31 <= zlen m + 64 < 2 ^ 64 -> zlen m + 64 <= zlen smbuf ->
  exists sm, ed_sign smbuf m (zlen m) (seed ++ ed_public seed) = Ret (0, zlen m + 64, sm) /\ ed_open mbuf sm (zlen m + 64) (ed_public seed) = Undef.
Proof.
  intros seed m mbuf smbuf Ls Bs Bm Bsm Hn Lsm. pose proof (zlen_nonneg m) as Hm. eexists. split; [apply ed_sign_ok; (assumption || lia)|].
  unfold ed_open. cbv zeta. replace (zlen m + 64 <? 64) with false by lia. pose proof (unpackneg_ok (ed_public seed) (zlen_penc _) (penc_bytes _)) as H. apply wp_ex in H. destruct H as ([q|] & E & H); rewrite E; cbn [bind].
  - replace (2 ^ 31 <=? zlen m + 64) with true by lia. reflexivity.
  - exfalso. exact (H _ (decodes_strict_decodes _ _ (ed_public_decodes seed))).
Qed.
Print Assumptions C49_large_message_open_refuted.
Example C49_nonvacuous : bytes_ok (zeros (2 ^ 31)) /\ 2 ^ 31 <= zlen (zeros (2 ^ 31)) + 64 < 2 ^ 64.
Proof. split; [apply bytes_ok_zeros|]. rewrite zlen_zeros by lia. lia. Qed.
