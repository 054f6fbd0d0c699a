(** Property theorems about sphincs/*.c (C31 - C36, C50, C51).
    Specification: SpxSpec.v (FIPS 205, SLH-DSA-SHAKE-256f).  [H x n] stands for
    SHAKE256(x) truncated to n bytes; all theorems hold for every function [H]
    that returns n bytes ([hash_like]); [shake256_bytes] (proved equal to the
    library's shake256, C21) is one. *)
From Coq Require Import ZifyBool ZifyNat.
From Verif Require Import Base Wp Sha512Spec SpongePure DilSignProofs SpxSpec Spx SpxTree SpxWots SpxWots2 SpxSign SpxTop SpxExtra.
Local Open Scope Z_scope.
Ltac Zify.zify_post_hook ::= idtac.

Definition hash_like (H : list Z -> Z -> list Z) : Prop :=
  (forall x n, 0 <= n -> zlen (H x n) = n) /\ (forall x n, bytes_ok (H x n)).
Lemma shake256_hash_like : hash_like shake256_bytes.
Proof.
  split; intros x n; [intros; apply (sponge_bytes_len 136 0x1F); lia|]. destruct (Z.le_gt_cases 0 n) as [h|h]; [apply (sponge_bytes_ok 136 0x1F); lia|].
  unfold shake256_bytes, sponge_bytes, squeeze. rewrite slice_neg by lia. constructor.
Qed.

(** Buffers as the callers provide them: [pk], [sk] and [sig] of the documented
    sizes with arbitrary contents, and uninitialised local arrays of the callees. *)
Definition keygen_buffers (stack0 auth0 pk sk : list Z) : Prop :=
  zlen stack0 = 128 /\ zlen auth0 = 2272 /\ zlen pk = 64 /\ zlen sk = 128 /\ bytes_ok sk.
Definition sign_buffers (stkf stkm : Z -> list Z) (sig : list Z) : Prop :=
  (forall i, zlen (stkf i) = 288) /\ (forall i, zlen (stkm i) = 128) /\ zlen sig = 49856.

(** ** C50: key generation, signing and verification are those of FIPS 205 *)
Theorem C50_keygen_is_fips205 : forall H stack0 auth0 pk sk seed, hash_like H -> keygen_buffers stack0 auth0 pk sk -> zlen seed = 96 ->
  seed_keypair H stack0 auth0 pk sk seed = Ret (0, fst (slh_keygen H seed), snd (slh_keygen H seed)).
Proof. intros H stack0 auth0 pk sk seed [HH HB] (H1 & H2 & H3 & H4 & H5) Hs. apply seed_keypair_ok; assumption. Qed.
Print Assumptions C50_keygen_is_fips205.

Theorem C50_random_keygen_is_fips205 : forall H rb seed stack0 auth0 pk sk, hash_like H -> keygen_buffers stack0 auth0 pk sk -> rb 96 = (0, seed) -> zlen seed = 96 ->
  keypair H rb stack0 auth0 pk sk = Ret (0, fst (slh_keygen H seed), snd (slh_keygen H seed)).
Proof. intros H rb seed stack0 auth0 pk sk HL HK Hr Hs. unfold keypair. rewrite Hr. change (negb (0 =? 0)) with false. cbv iota. rewrite C50_keygen_is_fips205 by assumption. reflexivity. Qed.
Print Assumptions C50_random_keygen_is_fips205.

(** The signature buffer is filled with exactly the FIPS 205 signature; bytes
    behind the first 49856 are left alone. *)
Theorem C50_sign_is_fips205 : forall H rb stkf stkm sig siglen m sk optrand, hash_like H ->
  (forall i, zlen (stkf i) = 288) -> (forall i, zlen (stkm i) = 128) -> 49856 <= zlen sig -> zlen sk = 128 -> rb 32 = (0, optrand) ->
  sign_signature H rb stkf stkm sig siglen m sk = Ret (0, 49856, slh_sign_sk H m sk optrand ++ slice sig 49856 (zlen sig - 49856)).
Proof.
  intros H rb stkf stkm sig siglen m sk optrand [HH HB] H1 H2 H3 H4 H5.
  pose proof (sign_signature_ok H HH HB rb stkf stkm sig siglen m sk optrand H1 H2 H3 H4 H5) as W. apply wp_ex in W. destruct W as ([[r sl] sig'] & E & -> & -> & [HL HO] & ES). rewrite E. f_equal. f_equal.
  rewrite <- ES, <- (HO 49856 (zlen sig - 49856)) by lia. rewrite <- HL. replace 49856 with (0 + 49856) at 2 by lia. rewrite <- (slice_split sig' 0 (zlen sig') 49856) by lia. symmetry. apply slice_all. reflexivity.
Qed.
Print Assumptions C50_sign_is_fips205.

Theorem C50_verify_is_fips205 : forall H ss sig m pk, hash_like H -> zlen pk = 64 ->
  (sign_verify H ss sig (zlen sig) m pk = Ret 0 /\ slh_verify H m sig pk) \/
  (sign_verify H ss sig (zlen sig) m pk = Ret (-1) /\ ~ slh_verify H m sig pk).
Proof.
  intros H ss sig m pk [HH HB] Hp. unfold slh_verify. destruct (Z.eq_dec (zlen sig) 49856) as [E|E].
  - rewrite E. rewrite sign_verify_root by (assumption || lia). rewrite (slice_all sig) by lia. destruct (list_eq_dec Z.eq_dec _ _) as [e|e]; [left|right]; split; try reflexivity; [split; [reflexivity|exact e]|tauto].
  - right. split; [|tauto]. unfold sign_verify, SPX_BYTES. destruct (Z.eqb_spec (zlen sig) 49856) as [e|e]; [contradiction|reflexivity].
Qed.
Print Assumptions C50_verify_is_fips205.
(** The premises are met by SHAKE256 and zeroed buffers. *)
Example C50_nonvacuous : hash_like shake256_bytes /\ keygen_buffers (zeros 128) (zeros 2272) (zeros 64) (zeros 128) /\
  sign_buffers (fun _ => zeros 288) (fun _ => zeros 128) (zeros 49856) /\ zlen (zeros 96) = 96.
Proof.
  split; [apply shake256_hash_like|]. unfold keygen_buffers, sign_buffers. rewrite !zlen_zeros by lia. repeat (split; try lia); try (intros; rewrite zlen_zeros; lia). apply bytes_ok_zeros.
Qed.

(** ** C31: signatures produced by signing verify *)
Theorem C31_spx_sign_then_verify : forall H, hash_like H -> forall seed m optrand rb stack0 auth0 pk0 sk0 stkf stkm sig0 siglen0 ss0,
  keygen_buffers stack0 auth0 pk0 sk0 -> sign_buffers stkf stkm sig0 -> zlen seed = 96 -> rb 32 = (0, optrand) ->
  exists pk sk sig, seed_keypair H stack0 auth0 pk0 sk0 seed = Ret (0, pk, sk) /\ zlen pk = 64 /\ zlen sk = 128 /\
    sign_signature H rb stkf stkm sig0 siglen0 m sk = Ret (0, 49856, sig) /\ zlen sig = 49856 /\
    sign_verify H ss0 sig 49856 m pk = Ret 0.
Proof.
  intros H HL seed m optrand rb stack0 auth0 pk0 sk0 stkf stkm sig0 siglen0 ss0 HK (S1 & S2 & S3) Hs Hr. pose proof HL as [HH HB].
  pose proof (slh_correct H HH HB seed m optrand Hs) as HV. pose proof (C50_keygen_is_fips205 H stack0 auth0 pk0 sk0 seed HL HK Hs) as EK.
  assert (LP: zlen (fst (slh_keygen H seed)) = 64 /\ zlen (snd (slh_keygen H seed)) = 128).
  { unfold slh_keygen. cbn [fst snd]. rewrite !zlen_app, zlen_slice by lia. rewrite (zlen_slh_root H HH HB), Hs. lia. }
  destruct (slh_keygen H seed) as [pk sk]. cbn [fst snd] in *. destruct LP as [Lp Lk]. exists pk, sk, (slh_sign_sk H m sk optrand).
  assert (Lsig: zlen (slh_sign_sk H m sk optrand) = 49856) by apply (zlen_slh_sign H HH HB).
  split; [exact EK|]. split; [exact Lp|]. split; [exact Lk|]. split.
  { rewrite (C50_sign_is_fips205 H rb stkf stkm sig0 siglen0 m sk optrand) by (assumption || lia). rewrite S3, Z.sub_diag, slice_0, app_nil_r. reflexivity. }
  split; [exact Lsig|]. destruct (C50_verify_is_fips205 H ss0 (slh_sign_sk H m sk optrand) m pk HL Lp) as [[E _]|[_ N]]; [rewrite Lsig in E; exact E|contradiction].
Qed.
Print Assumptions C31_spx_sign_then_verify.
(** The instance used by the library. *)
Theorem C31_spx_sign_then_verify_shake256 : forall seed m optrand rb stack0 auth0 pk0 sk0 stkf stkm sig0 siglen0 ss0,
  keygen_buffers stack0 auth0 pk0 sk0 -> sign_buffers stkf stkm sig0 -> zlen seed = 96 -> rb 32 = (0, optrand) ->
  exists pk sk sig, seed_keypair shake256_bytes stack0 auth0 pk0 sk0 seed = Ret (0, pk, sk) /\ zlen pk = 64 /\ zlen sk = 128 /\
    sign_signature shake256_bytes rb stkf stkm sig0 siglen0 m sk = Ret (0, 49856, sig) /\ zlen sig = 49856 /\
    sign_verify shake256_bytes ss0 sig 49856 m pk = Ret 0.
Proof. exact (C31_spx_sign_then_verify shake256_bytes shake256_hash_like). Qed.
Print Assumptions C31_spx_sign_then_verify_shake256.
Example C31_nonvacuous : exists rb : Z -> Z * list Z, rb 32 = (0, zeros 32).
Proof. exists (fun n => (0, zeros n)). reflexivity. Qed.

(** ** C32: key generation does not depend on uninitialised memory *)
Theorem C32_keygen_ignores_uninitialised : forall H, hash_like H -> forall seed stack0 auth0 pk0 sk0 stack1 auth1 pk1 sk1,
  zlen seed = 96 -> keygen_buffers stack0 auth0 pk0 sk0 -> keygen_buffers stack1 auth1 pk1 sk1 ->
  exists pk sk, seed_keypair H stack0 auth0 pk0 sk0 seed = Ret (0, pk, sk) /\ seed_keypair H stack1 auth1 pk1 sk1 seed = Ret (0, pk, sk) /\
    zlen pk = 64 /\ zlen sk = 128 /\ slice sk 0 96 = seed /\ slice sk 64 64 = pk.
Proof.
  intros H HL seed stack0 auth0 pk0 sk0 stack1 auth1 pk1 sk1 Hs K0 K1. pose proof HL as [HH HB]. exists (fst (slh_keygen H seed)), (snd (slh_keygen H seed)).
  split; [apply C50_keygen_is_fips205; assumption|]. split; [apply C50_keygen_is_fips205; assumption|].
  unfold slh_keygen. cbn [fst snd]. set (rt := slh_root H _ _). assert (Lr: zlen rt = 32) by apply (zlen_slh_root H HH HB).
  rewrite !zlen_app, zlen_slice by lia. split; [lia|]. split; [lia|]. split; [rewrite slice_app_l by lia; apply slice_all; lia|].
  rewrite (slice_split _ 64 64 32) by (rewrite ?zlen_app; lia). f_equal; [apply slice_app_l; lia|]. change (64 + 32) with 96. change (64 - 32) with 32. rewrite slice_app_r by lia. rewrite Hs. apply slice_all. lia.
Qed.
Print Assumptions C32_keygen_ignores_uninitialised.
Example C32_nonvacuous : keygen_buffers (zeros 128) (zeros 2272) (zeros 64) (repeat 255 128) /\ keygen_buffers (repeat 7 128) (repeat 9 2272) (zeros 64) (zeros 128).
Proof. unfold keygen_buffers. repeat split; try reflexivity; try (vm_compute; reflexivity); apply Forall_forall; intros x Hx; (apply repeat_spec in Hx || (unfold zeros in Hx; apply repeat_spec in Hx)); subst; unfold byte_ok; lia. Qed.

(** ** C33: the WOTS+ checksum *)
Theorem C33_wots_checksum : forall M M', bytes_ok M -> bytes_ok M' -> zlen M = 32 -> zlen M' = 32 ->
  exists L L', chain_lengths M = Ret L /\ chain_lengths M' = Ret L' /\ zlen L = 67 /\ zlen L' = 67 /\
    Forall (fun d => 0 <= d < 16) L /\ Forall (fun d => 0 <= d < 16) L' /\
    (M <> M' -> exists c, 0 <= c < 67 /\ znth L' c < znth L c).
Proof.
  intros M M' HM HM' LM LM'. exists (wots_digits M), (wots_digits M'). rewrite !chain_lengths_ok by assumption. rewrite !zlen_wots_digits. repeat (split; try reflexivity); try apply wots_digits_range.
  intros Hne.
  assert (D: forall n, (forall c, 0 <= c < Z.of_nat n -> znth (wots_digits M) c <= znth (wots_digits M') c) \/ exists c, 0 <= c < Z.of_nat n /\ znth (wots_digits M') c < znth (wots_digits M) c).
  { induction n as [|n [IH|(c & Hc & E)]]; [left; intros; lia| |right; exists c; split; [lia|exact E]].
    destruct (Z.le_gt_cases (znth (wots_digits M) (Z.of_nat n)) (znth (wots_digits M') (Z.of_nat n))) as [h|h].
    - left. intros c Hc. destruct (Z.eq_dec c (Z.of_nat n)) as [->|]; [exact h|apply IH; lia].
    - right. exists (Z.of_nat n). split; [lia|exact h]. }
  destruct (D 67%nat) as [A|A]; [|exact A]. exfalso. apply Hne. apply wots_digits_antichain; assumption.
Qed.
Print Assumptions C33_wots_checksum.
Example C33_nonvacuous : exists c, 0 <= c < 67 /\ znth (wots_digits (repeat 255 32)) c < znth (wots_digits (zeros 32)) c.
Proof. exists 65. vm_compute. split; [split|]; congruence. Qed.

(** ** C34: tree hashing *)
(** The hash of the node of height z and (tree-local) index i: [thash] under the
    caller's address with height field z and index field i + off / 2^z. *)
Definition node_hash (H : list Z -> Z -> list Z) (ctx : spx_ctx) (addr : list Z) (off : Z) (z i : Z) (X : list Z) : list Z :=
  H (pub_seed ctx ++ (slice addr 0 27 ++ [z] ++ be_bytes 4 (i + off / 2 ^ z)) ++ X) 32.
Theorem C34_treehash_root_and_path : forall H ctx (leaf : Z -> list Z) (T : Type) (st : T) stack0 addr addr2 sig aoff leaf_idx off h,
  hash_like H -> (forall i, zlen (leaf i) = 32) -> 1 <= h <= 30 -> 0 <= off -> off + 2 ^ h <= 2 ^ 32 -> 0 <= leaf_idx < 2 ^ h ->
  zlen stack0 = 32 * h -> zlen addr = 32 -> zlen addr2 = 32 -> slice addr2 0 27 = slice addr 0 27 -> 0 <= aoff -> aoff + 32 * h <= zlen sig ->
  exists root addr' addr2' sig',
    treehashx1 H ctx (fun i sg s => Ret (leaf (i - off), sg, s)) stack0 aoff leaf_idx off h addr sig st = Ret (root, addr', sig', st) /\
    root = tree_node (node_hash H ctx addr off) leaf (Z.to_nat h) 0 /\
    slice sig' aoff (32 * h) = auth_path (node_hash H ctx addr off) leaf (Z.to_nat h) leaf_idx /\
    same_outside sig sig' aoff (aoff + 32 * h) /\
    compute_root H ctx (leaf leaf_idx) leaf_idx off sig' aoff h addr2 = Ret (root, addr2').
Proof.
  intros H ctx leaf T st stack0 addr addr2 sig aoff leaf_idx off h [HH HB] Hleaf Hh Ho Hoff Hli Hst Ha Ha2 E2 Hao Hsig.
  assert (W: wp (treehashx1 H ctx (fun i sg s => Ret (leaf (i - off), sg, s)) stack0 aoff leaf_idx off h addr sig st) (fun '(root, addr', sig', st') => 
      root = tree_node (node_hash H ctx addr off) leaf (Z.to_nat h) 0 /\ st' = st /\ same_outside sig sig' aoff (aoff + 32 * h) /\ slice sig' aoff (32 * h) = auth_path (node_hash H ctx addr off) leaf (Z.to_nat h) leaf_idx)).
  { eapply wp_mono.
    - apply (treehashx1_ok H HH ctx _ addr leaf off h aoff leaf_idx (fun _ sg s => s = st /\ same_outside sig sg aoff (aoff + 32 * h))); try assumption; try lia.
      + intros _ sg s [_ [L _]]. lia.
      + intros _ sg s k v [-> HS] Hk Hv. split; [reflexivity|]. pose proof HS as [L _]. eapply same_outside_trans; [exact HS|]. apply same_outside_splice; lia.
      + intros i sg s Hi [-> HS]. apply wp_ret. replace (i + off - off) with i by lia. split; [reflexivity|]. split; [split; [reflexivity|exact HS]|reflexivity].
      + apply tbase_refl. exact Ha.
      + split; [reflexivity|apply same_outside_refl].
    - intros [[[root a'] sg] s] (E & _ & [-> HS] & EA). split; [exact E|]. split; [reflexivity|]. split; [exact HS|]. apply EA. lia. }
  apply wp_ex in W. destruct W as ([[[root a'] sg] s] & E & ER & -> & HS & EA). pose proof HS as [HL _].
  assert (W: wp (compute_root H ctx (leaf leaf_idx) leaf_idx off sg aoff h addr2) (fun '(r, a) => r = root)).
  { eapply wp_mono; [apply (compute_root_ok H ctx addr addr2); try assumption; try lia; split; assumption|].
    - intros [r a] [Er _]. rewrite Er, EA, ER. fold (node_hash H ctx addr off). change (fun z i M => thash H ctx M (tad addr z (i + off / 2 ^ z))) with (node_hash H ctx addr off).
      rewrite climb_auth; [|intros; apply HH; lia|exact Hleaf]. f_equal. rewrite Z2Nat.id by lia. apply Z.div_small. exact Hli. }
  apply wp_ex in W. destruct W as ([r a] & E3 & ->). exists root, a', a, sg. split; [exact E|]. split; [exact ER|]. split; [exact EA|]. split; [exact HS|exact E3].
Qed.
Print Assumptions C34_treehash_root_and_path.
Example C34_nonvacuous : hash_like (fun _ n => zeros n) /\ (forall i, zlen ((fun _ : Z => zeros 32) i) = 32) /\ zlen (zeros (32 * 5)) = 32 * 5 /\ 7 + 2 ^ 5 <= 2 ^ 32.
Proof. split; [split; intros; [apply zlen_zeros; lia|apply bytes_ok_zeros]|]. split; [reflexivity|]. split; [reflexivity|]. vm_compute. congruence. Qed.

(** ** C35: signing failure is not reported *)
(** For every failing random source, crypto_sign nevertheless returns 0, leaves the
    first 49856 bytes of the output as they were, and stores a length computed from
    an uninitialised variable [siglen0]. *)
Theorem C35_sign_failure_unreported_refuted : forall H rb r bs stkf stkm sm smlen siglen0 m sk,
  rb 32 = (r, bs) -> r <> 0 -> zlen sk = 128 -> zlen sm = 49856 + zlen m ->
  crypto_sign H rb stkf stkm sm smlen siglen0 m sk = Ret (0, (siglen0 + zlen m) mod 2 ^ 64, slice sm 0 49856 ++ m).
Proof.
  intros H rb r bs stkf stkm sm smlen siglen0 m sk Hr Hne Hsk Hsm. unfold crypto_sign, sign_signature, SPX_N, SPX_BYTES. rewrite !rdrange_ok by lia. cbn [bind]. rewrite Hr.
  replace (negb (r =? 0)) with true by lia. cbv iota. cbn [bind]. pose proof (zlen_nonneg m). rewrite copy_ok by lia. cbn [bind]. rewrite (slice_all m) by reflexivity.
  rewrite Hsm. replace (49856 + zlen m - 49856 - zlen m) with 0 by lia. rewrite slice_0, app_nil_r. reflexivity.
Qed.
Print Assumptions C35_sign_failure_unreported_refuted.
(** crypto_sign_signature itself does report it, and writes nothing. *)
Theorem C35_sign_signature_reports_partial : forall H rb r bs stkf stkm sig siglen m sk,
  rb 32 = (r, bs) -> r <> 0 -> zlen sk = 128 -> sign_signature H rb stkf stkm sig siglen m sk = Ret (-1, siglen, sig).
Proof.
  intros H rb r bs stkf stkm sig siglen m sk Hr Hne Hsk. unfold sign_signature, SPX_N. rewrite !rdrange_ok by lia. cbn [bind]. rewrite Hr. replace (negb (r =? 0)) with true by lia. reflexivity.
Qed.
Print Assumptions C35_sign_signature_reports_partial.
(** So does crypto_sign_keypair. *)
Theorem C35_keypair_reports_partial : forall H rb r bs stack0 auth0 pk sk, rb 96 = (r, bs) -> r <> 0 -> keypair H rb stack0 auth0 pk sk = Ret (-1, pk, sk).
Proof. intros H rb r bs stack0 auth0 pk sk Hr Hne. unfold keypair. rewrite Hr. replace (negb (r =? 0)) with true by lia. reflexivity. Qed.
Print Assumptions C35_keypair_reports_partial.
Example C35_nonvacuous : exists (sm : list Z) siglen0 siglen1, siglen0 <> siglen1 /\ zlen sm = 49856 + zlen [1;2;3] /\
  (siglen0 + zlen [1;2;3]) mod 2 ^ 64 <> (siglen1 + zlen [1;2;3]) mod 2 ^ 64.
Proof. exists (zeros 49859), 0, 5. split; [lia|]. split; [rewrite zlen_zeros by lia; reflexivity|vm_compute; congruence]. Qed.

(** ** C36: indices and addresses *)
(** Indices derived from a digest exist. *)
Theorem C36_indices_in_range : forall H, hash_like H -> forall R pk m md tree leaf, hash_message H R pk m = (md, tree, leaf) ->
  0 <= tree < 2 ^ 64 /\ 0 <= leaf < 16 /\ exists idx, message_to_indices md = Ret idx /\ zlen idx = 35 /\ Forall (fun i => 0 <= i < 512) idx.
Proof.
  intros H [HH HB] R pk m md tree leaf E. rewrite <- (app_nil_r pk) in E. rewrite (hash_message_ok H HH HB) in E. cbv zeta in E. injection E; intros <- <- <-. clear E. split; [apply digest_tree_range|]. split; [apply digest_leaf_range|].
  set (dg := H_msg H pk R [] m). assert (Ld: zlen dg = 49) by (apply HH; lia). exists (base_2b (digest_md dg) 9 35). split; [apply message_to_indices_ok; [apply bytes_ok_slice, HB|unfold digest_md; rewrite zlen_slice; lia]|]. split; [apply zlen_base_2b|].
  apply Forall_forall. intros x Hx. unfold base_2b in Hx. apply in_map_iff in Hx as (i & <- & _). apply Z.mod_pos_bound. reflexivity.
Qed.
Print Assumptions C36_indices_in_range.

(** Different roles have different addresses. *)
Theorem C36_addresses_are_injective : forall r r', role_exists r -> role_exists r' -> role_adrs r = role_adrs r' -> r = r'.
Proof. exact role_adrs_inj. Qed.
Print Assumptions C36_addresses_are_injective.

(** Key generation, signing and verification call the keyed hash only in
    existing roles: hash functions agreeing on the calls PK.seed || ADRS(role) || X
    and on the two message hashes give the same outcome. *)
Theorem C36_only_existing_roles_are_hashed : forall H H', hash_like H -> hash_like H' ->
  forall ps, (forall r X, role_exists r -> H (ps ++ role_adrs r ++ X) 32 = H' (ps ++ role_adrs r ++ X) 32) ->
  (forall stack0 auth0 pk sk seed, keygen_buffers stack0 auth0 pk sk -> zlen seed = 96 -> slice seed 64 32 = ps ->
     seed_keypair H stack0 auth0 pk sk seed = seed_keypair H' stack0 auth0 pk sk seed) /\
  (forall rb optrand stkf stkm sig siglen m sk, sign_buffers stkf stkm sig -> zlen sk = 128 -> slice sk 64 32 = ps -> rb 32 = (0, optrand) ->
     (forall X, H (slice sk 32 32 ++ X) 32 = H' (slice sk 32 32 ++ X) 32) ->
     (forall R, H (R ++ slice sk 64 64 ++ m) 49 = H' (R ++ slice sk 64 64 ++ m) 49) ->
     sign_signature H rb stkf stkm sig siglen m sk = sign_signature H' rb stkf stkm sig siglen m sk) /\
  (forall ss sig m pk, zlen pk = 64 -> zlen sig = 49856 -> slice pk 0 32 = ps ->
     (forall R, H (R ++ pk ++ m) 49 = H' (R ++ pk ++ m) 49) ->
     sign_verify H ss sig 49856 m pk = sign_verify H' ss sig 49856 m pk).
Proof.
  intros H H' HL HL' ps HA. pose proof HL as [HH HB]. pose proof HL' as [HH' HB']. split; [|split].
  - intros stack0 auth0 pk sk seed HK Hs Hps. rewrite !C50_keygen_is_fips205 by assumption. unfold slh_keygen. cbv zeta. cbn [fst snd]. rewrite Hps. rewrite (slh_root_agree H H' ps (slice seed 0 32) HA). reflexivity.
  - intros rb optrand stkf stkm sig siglen m sk (S1 & S2 & S3) Hsk Hps Hr A1 A2. rewrite (C50_sign_is_fips205 H rb stkf stkm sig siglen m sk optrand), (C50_sign_is_fips205 H' rb stkf stkm sig siglen m sk optrand) by (assumption || lia).
    unfold slh_sign_sk. rewrite Hps. rewrite (slh_sign_agree H H' ps (slice sk 0 32) HA); [reflexivity|exact A1|]. intros R. rewrite (slice_split sk 64 64 32) in A2 by lia. rewrite Hps in A2. specialize (A2 R). rewrite <- !app_assoc in A2. exact A2.
  - intros ss sig m pk Lp Ls Hps A2. rewrite (sign_verify_root H HH HB), (sign_verify_root H' HH' HB') by (assumption || lia). rewrite Hps.
    rewrite (slh_verify_root_agree H H' ps ss HA); [reflexivity|]. intros R. replace (ps ++ slice pk 32 32 ++ m) with (pk ++ m); [apply A2|]. rewrite <- Hps, app_assoc. f_equal. change (slice pk 32 32) with (slice pk (0 + 32) (64 - 32)). rewrite <- (slice_split pk 0 64 32) by lia. symmetry. apply slice_all. lia.
Qed.
Print Assumptions C36_only_existing_roles_are_hashed.
Example C36_nonvacuous : role_exists (RWotsHash 16 0 15 66 14) /\ role_exists (RForsTree (2 ^ 64 - 1) 15 0 17919) /\
  role_adrs (RTree 3 5 1 0) <> role_adrs (RWotsPk 3 5 1).
Proof. split; [cbn [role_exists]; lia|]. split; [cbn [role_exists]; change (2 ^ (9 - 0)) with 512; lia|vm_compute; congruence]. Qed.

(** ** C51: the combined interface crypto_sign / crypto_sign_open *)
Theorem C51_open_accepts_iff_valid : forall H ss m mlen sm pk, hash_like H -> zlen pk = 64 -> zlen sm <= zlen m + 49856 ->
  (slh_verify H (slice sm 49856 (zlen sm - 49856)) (slice sm 0 49856) pk /\ 49856 <= zlen sm /\
     crypto_sign_open H ss m mlen sm pk = Ret (0, zlen sm - 49856, slice sm 49856 (zlen sm - 49856) ++ slice m (zlen sm - 49856) (zlen m - (zlen sm - 49856)))) \/
  ((zlen sm < 49856 \/ ~ slh_verify H (slice sm 49856 (zlen sm - 49856)) (slice sm 0 49856) pk) /\
     crypto_sign_open H ss m mlen sm pk = Ret (-1, 0, m)).
Proof.
  intros H ss m mlen sm pk HL Lp Lm. pose proof HL as [HH HB]. unfold crypto_sign_open, SPX_BYTES. destruct (Z.ltb_spec (zlen sm) 49856) as [h|h]; [right; split; [left; exact h|reflexivity]|].
  rewrite rdrange_ok by lia. cbn [bind]. set (msg := slice sm 49856 (zlen sm - 49856)). assert (Lmsg: zlen msg = zlen sm - 49856) by (unfold msg; rewrite zlen_slice; lia).
  rewrite (sign_verify_root H HH HB) by (assumption || lia). cbn [bind]. unfold slh_verify. rewrite zlen_slice by lia.
  destruct (list_eq_dec Z.eq_dec _ _) as [e|e].
  - left. split; [split; [reflexivity|exact e]|]. split; [exact h|]. change (negb (0 =? 0)) with false. cbv iota.
    destruct (Z.eq_dec (zlen sm - 49856) 0) as [z|z].
    + unfold copy. rewrite z. change (0 <=? 0) with true. cbv iota. cbn [bind]. assert (Em: msg = []) by (destruct msg; [reflexivity|rewrite zlen_cons in Lmsg; pose proof (zlen_nonneg msg); lia]). rewrite Em, app_nil_l, Z.sub_0_r. rewrite slice_all by reflexivity. reflexivity.
    + rewrite copy_ok by lia. cbn [bind]. rewrite slice_0, app_nil_l. rewrite (slice_all msg) by lia. rewrite Z.add_0_l, Z.sub_0_r. reflexivity.
  - right. split; [right; tauto|reflexivity].
Qed.
Print Assumptions C51_open_accepts_iff_valid.
Theorem C51_sign_then_open : forall H, hash_like H -> forall seed m optrand rb stkf stkm sm0 smlen0 siglen0 mbuf mlen0 ss0,
  (forall i, zlen (stkf i) = 288) -> (forall i, zlen (stkm i) = 128) -> zlen seed = 96 -> rb 32 = (0, optrand) ->
  zlen sm0 = 49856 + zlen m -> zlen m <= zlen mbuf -> 49856 + zlen m < 2 ^ 64 ->
  exists sm m', crypto_sign H rb stkf stkm sm0 smlen0 siglen0 m (snd (slh_keygen H seed)) = Ret (0, 49856 + zlen m, sm) /\ zlen sm = 49856 + zlen m /\
    crypto_sign_open H ss0 mbuf mlen0 sm (fst (slh_keygen H seed)) = Ret (0, zlen m, m') /\ slice m' 0 (zlen m) = m.
Proof.
  intros H HL seed m optrand rb stkf stkm sm0 smlen0 siglen0 mbuf mlen0 ss0 S1 S2 Hs Hr L0 Lb Hlt. pose proof HL as [HH HB]. pose proof (zlen_nonneg m) as Hm.
  pose proof (slh_correct H HH HB seed m optrand Hs) as HV.
  assert (LP: zlen (fst (slh_keygen H seed)) = 64 /\ zlen (snd (slh_keygen H seed)) = 128).
  { unfold slh_keygen. cbn [fst snd]. rewrite !zlen_app, zlen_slice by lia. rewrite (zlen_slh_root H HH HB), Hs. lia. }
  destruct (slh_keygen H seed) as [pk sk]. cbn [fst snd] in *. destruct LP as [Lp Lk]. set (sg := slh_sign_sk H m sk optrand) in *. assert (Lsig: zlen sg = 49856) by apply (zlen_slh_sign H HH HB).
  exists (sg ++ m). unfold crypto_sign. rewrite (C50_sign_is_fips205 H rb stkf stkm sm0 siglen0 m sk optrand) by (assumption || lia). cbn [bind]. fold sg. rewrite L0. replace (49856 + zlen m - 49856) with (zlen m) by lia.
  assert (EC: copy (sg ++ slice sm0 49856 (zlen m)) 49856 m 0 (zlen m) = Ret (sg ++ m)).
  { assert (LT: zlen (slice sm0 49856 (zlen m)) = zlen m) by (rewrite zlen_slice; lia). rewrite copy_ok by (rewrite ?zlen_app; lia). rewrite slice_app_l by lia. rewrite (slice_all sg) by lia. rewrite (slice_all m) by reflexivity. rewrite zlen_app, Lsig, LT. replace (49856 + zlen m - 49856 - zlen m) with 0 by lia. rewrite slice_0, app_nil_r. reflexivity. }
  unfold SPX_BYTES. rewrite EC. cbn [bind]. assert (LS: zlen (sg ++ m) = 49856 + zlen m) by (rewrite zlen_app; lia).
  destruct (C51_open_accepts_iff_valid H ss0 mbuf mlen0 (sg ++ m) pk HL Lp ltac:(lia)) as [(V & _ & E)|([h|NV] & _)]; [|lia|].
  - rewrite LS in E. replace (49856 + zlen m - 49856) with (zlen m) in E by lia. rewrite (slice_app_r sg m) in E by lia. rewrite Lsig in E. change (49856 - 49856) with 0 in E. rewrite (slice_all m) in E by reflexivity.
    eexists. split; [unfold u64; rewrite Z.mod_small by lia; reflexivity|]. split; [exact LS|]. split; [exact E|]. rewrite slice_app_l by lia. apply slice_all. reflexivity.
  - exfalso. apply NV. rewrite LS. replace (49856 + zlen m - 49856) with (zlen m) by lia. rewrite (slice_app_r sg m) by lia. rewrite Lsig. change (49856 - 49856) with 0. rewrite (slice_all m) by reflexivity. rewrite slice_app_l by lia. rewrite (slice_all sg) by lia. exact HV.
Qed.
Print Assumptions C51_sign_then_open.
Example C51_nonvacuous : zlen (zeros (49856 + 3)) = 49856 + zlen [1;2;3] /\ 49856 + zlen [1;2;3] < 2 ^ 64.
Proof. rewrite zlen_zeros by lia. split; [reflexivity|]. vm_compute. reflexivity. Qed.
