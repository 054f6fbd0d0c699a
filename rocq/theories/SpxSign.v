(** SPHINCS+: Merkle signatures, FORS, and the agreement of key generation,
    signing and verification with FIPS 205. *)
From Coq Require Import ZifyBool ZifyNat.
From Verif Require Import Base Wp Sha512Spec TweetSha SpxSpec Spx SpxTree SpxWots SpxWots2.
Local Open Scope Z_scope.
Ltac Zify.zify_post_hook ::= idtac.
Ltac mlia := Z.div_mod_to_equations; lia.

(** ** extensionality of the tree functions *)
Lemma tree_node_ext g g' lf lf' n : (forall z i M, 0 <= z <= Z.of_nat n -> g z i M = g' z i M) -> (forall i, lf i = lf' i) -> forall z i, (z <= n)%nat -> tree_node g lf z i = tree_node g' lf' z i.
Proof. intros Hg Hl. induction z as [|z IH]; intros i Hz; cbn [tree_node]; [apply Hl|]. rewrite Hg by lia. rewrite !IH by lia. reflexivity. Qed.
Lemma auth_path_ext g g' lf lf' n i : (forall z i M, 0 <= z <= Z.of_nat n -> g z i M = g' z i M) -> (forall i, lf i = lf' i) -> auth_path g lf n i = auth_path g' lf' n i.
Proof. intros Hg Hl. unfold auth_path. apply flat_map_ext_in. intros j Hj. apply in_seq in Hj. apply (tree_node_ext g g' lf lf' n); try assumption. lia. Qed.
Lemma climb_ext g g' : forall n z i node auth, (forall y i M, z <= y <= z + Z.of_nat n -> g y i M = g' y i M) -> climb g n z i node auth = climb g' n z i node auth.
Proof. induction n as [|n IH]; intros z i node auth Hg; [reflexivity|]. cbn [climb]. rewrite Hg by lia. apply IH. intros; apply Hg. lia. Qed.

Lemma zlen_flat_map (f : Z -> list Z) b n : (forall i, 0 <= i < Z.of_nat n -> zlen (f i) = b) -> zlen (flat_map f (zseq n)) = b * Z.of_nat n.
Proof. induction n as [|n IH]; intros Hf; [rewrite Z.mul_0_r; reflexivity|]. rewrite zseq_S, flat_map_app, zlen_app. cbn [flat_map]. rewrite app_nil_r, Hf, IH by (try (intros; apply Hf); lia). lia. Qed.

Section S.
Variable H : list Z -> Z -> list Z.
Hypothesis HH : forall x n, 0 <= n -> zlen (H x n) = n.
Hypothesis HB : forall x n, bytes_ok (H x n).

(** ** facts about the specification *)
Section Spec.
Variables ps ss : list Z.
Lemma zlen_wots_pk l t i : zlen (wots_pk H ps ss l t i) = 32. Proof. apply HH. lia. Qed.
Lemma zlen_fors_leaf t kp i : zlen (fors_leaf H ps ss t kp i) = 32. Proof. apply HH. lia. Qed.
Lemma zlen_fors_sk t kp i : zlen (fors_sk H ps ss t kp i) = 32. Proof. apply HH. lia. Qed.
Lemma zlen_xmss_hash l t z i M : zlen (xmss_hash H ps l t z i M) = 32. Proof. apply HH. lia. Qed.
Lemma zlen_fors_hash t kp z i M : zlen (fors_hash H ps t kp z i M) = 32. Proof. apply HH. lia. Qed.
Lemma zlen_chain' l t kp c : forall s X i, zlen X = 32 -> zlen (chain H ps l t kp c X i s) = 32.
Proof. exact (zlen_chain H HH HB {| pub_seed := ps; sk_seed := ss |} l t kp c). Qed.
Lemma zlen_wots_sign M l t i : zlen (wots_sign H ps ss M l t i) = 2144.
Proof. unfold wots_sign. rewrite (zlen_flat_map _ 32); [reflexivity|]. intros c _. apply zlen_chain', HH. lia. Qed.
Lemma zlen_xmss_sign M i l t : zlen (xmss_sign H ps ss M i l t) = 2272.
Proof. unfold xmss_sign. rewrite zlen_app, zlen_wots_sign, zlen_auth_path; [reflexivity|intros; apply zlen_xmss_hash|intros; apply zlen_wots_pk]. Qed.
Lemma zlen_ht_sign : forall n l M t leaf, zlen (ht_sign H ps ss n l M t leaf) = 2272 * Z.of_nat n.
Proof. induction n as [|n IH]; intros l M t leaf; [reflexivity|]. cbn [ht_sign]. rewrite zlen_app, IH, zlen_xmss_sign. lia. Qed.
Lemma zlen_fors_tree_sign t kp idx : zlen (fors_sk H ps ss t kp idx ++ auth_path (fors_hash H ps t kp) (fors_leaf H ps ss t kp) 9 idx) = 320.
Proof. rewrite zlen_app, zlen_fors_sk, zlen_auth_path; [reflexivity|intros; apply zlen_fors_hash|intros; apply zlen_fors_leaf]. Qed.
Lemma zlen_fors_sign md t kp : zlen (SpxSpec.fors_sign H ps ss md t kp) = 11200.
Proof. unfold SpxSpec.fors_sign. rewrite (zlen_flat_map _ 320); [reflexivity|]. intros; apply zlen_fors_tree_sign. Qed.
Lemma zlen_slh_sign M prf root r : zlen (slh_sign H ps ss M prf root r) = 49856.
Proof. unfold slh_sign. cbv zeta. rewrite !zlen_app, zlen_fors_sign, zlen_ht_sign, HH by lia. reflexivity. Qed.

Lemma slice_flat_map (f : Z -> list Z) b n i r : 0 <= b -> (forall j, 0 <= j < Z.of_nat n -> zlen (f j) = b) -> 0 <= i < Z.of_nat n -> slice (flat_map f (zseq n) ++ r) (b * i) b = f i.
Proof.
  intros Hb. revert r. induction n as [|n IH]; intros r Hf Hi; [lia|]. rewrite zseq_S, flat_map_app, <- app_assoc. cbn [flat_map]. rewrite app_nil_r.
  destruct (Z.eq_dec i (Z.of_nat n)) as [->|Hne].
  - assert (HL: zlen (flat_map f (zseq n)) = b * Z.of_nat n) by (apply zlen_flat_map; intros; apply Hf; lia). rewrite slice_app_r by lia. rewrite HL, Z.sub_diag. rewrite slice_app_l by (rewrite ?Hf by lia; lia). apply slice_all. rewrite Hf by lia. reflexivity.
  - apply IH; [intros; apply Hf; lia|lia].
Qed.
(** the WOTS+ public key recovered from a signature is the key itself *)
Lemma wots_pk_of_sign M l t kp : wots_pk_of_sig H ps (wots_sign H ps ss M l t kp) M l t kp = wots_pk H ps ss l t kp.
Proof.
  unfold wots_pk_of_sig, wots_pk. f_equal. apply flat_map_ext_in. intros c Hc. apply in_zseq in Hc. cbv zeta.
  unfold wots_sign. rewrite <- (app_nil_r (flat_map _ (zseq 67))). rewrite (slice_flat_map _ 32 67 c []); [|lia| |exact Hc].
  2:{ intros; apply zlen_chain', HH. lia. }
  pose proof (wots_digit_range M c) as Hd. set (d := nth (Z.to_nat c) (wots_digits M) 0) in *.
  pose proof (chain_app H HH HB {| pub_seed := ps; sk_seed := ss |} l t kp c (Z.to_nat d) (Z.to_nat (15 - d)) (wots_sk H ps ss l t kp c) 0) as E. cbn [pub_seed] in E.
  replace (0 + Z.of_nat (Z.to_nat d)) with d in E by lia. rewrite E. f_equal. lia.
Qed.
Lemma xmss_pk_of_sign M idx l t : 0 <= idx < 16 -> xmss_pk_of_sig H ps idx (xmss_sign H ps ss M idx l t) M l t = xmss_node H ps ss l t 4 0.
Proof.
  intros Hi. unfold xmss_pk_of_sig, xmss_sign. pose proof (zlen_wots_sign M l t idx) as Hz.
  assert (Ha: zlen (auth_path (xmss_hash H ps l t) (wots_pk H ps ss l t) 4 idx) = 128) by (rewrite zlen_auth_path; [reflexivity|intros; apply zlen_xmss_hash|intros; apply zlen_wots_pk]).
  rewrite slice_app_l by lia. rewrite slice_all by lia. rewrite slice_app_r by lia. rewrite Hz, Z.sub_diag. rewrite slice_all by lia. rewrite wots_pk_of_sign.
  rewrite climb_auth; [|intros; apply zlen_xmss_hash|intros; apply zlen_wots_pk]. unfold xmss_node. f_equal. change (2 ^ Z.of_nat 4) with 16. apply Z.div_small. exact Hi.
Qed.
Lemma ht_root_of_sign : forall n l M t leaf, 0 <= leaf < 16 -> 0 <= t -> ht_root_of_sig H ps (S n) l M (ht_sign H ps ss (S n) l M t leaf) t leaf = xmss_node H ps ss (l + Z.of_nat n) (t / 16 ^ Z.of_nat n) 4 0.
Proof.
  induction n as [|n IH]; intros l M t leaf Hl Ht.
  - cbn [ht_root_of_sig ht_sign]. rewrite app_nil_r. pose proof (zlen_xmss_sign M leaf l t) as Hz. rewrite slice_all by lia. rewrite xmss_pk_of_sign by exact Hl. change (16 ^ Z.of_nat 0) with 1. rewrite Z.div_1_r. f_equal. lia.
  - pose proof (zlen_xmss_sign M leaf l t) as Hz. set (m := S n) in *.
    change (ht_sign H ps ss (S m) l M t leaf) with (xmss_sign H ps ss M leaf l t ++ ht_sign H ps ss m (l + 1) (xmss_pk_of_sig H ps leaf (xmss_sign H ps ss M leaf l t) M l t) (t / 16) (t mod 16)).
    set (r := ht_sign H ps ss m (l + 1) (xmss_pk_of_sig H ps leaf (xmss_sign H ps ss M leaf l t) M l t) (t / 16) (t mod 16)).
    change (ht_root_of_sig H ps (S m) l M (xmss_sign H ps ss M leaf l t ++ r) t leaf) with
      (ht_root_of_sig H ps m (l + 1) (xmss_pk_of_sig H ps leaf (slice (xmss_sign H ps ss M leaf l t ++ r) 0 2272) M l t) (slice (xmss_sign H ps ss M leaf l t ++ r) 2272 (zlen (xmss_sign H ps ss M leaf l t ++ r) - 2272)) (t / 16) (t mod 16)).
    rewrite slice_app_l by lia. rewrite slice_all by lia. pose proof (zlen_nonneg r). rewrite slice_app_r by (rewrite ?zlen_app; lia). rewrite zlen_app, Hz, Z.sub_diag. rewrite (slice_all r) by lia. unfold r.
    unfold m. rewrite IH; [|mlia|apply Z.div_pos; lia]. rewrite Z.div_div by (try lia; apply Z.pow_pos_nonneg; lia). f_equal; [lia|]. f_equal. replace (Z.of_nat (S n)) with (1 + Z.of_nat n) by lia. rewrite Z.pow_add_r by lia. reflexivity.
Qed.
Lemma fors_pk_of_sign md t kp : fors_pk_of_sig H ps (SpxSpec.fors_sign H ps ss md t kp) md t kp =
  Th H ps (adrs_fors_roots t kp) (flat_map (fun i => tree_node (fors_hash H ps t kp) (fors_leaf H ps ss t kp) 9 i) (zseq 35)).
Proof.
  unfold fors_pk_of_sig. f_equal. apply flat_map_ext_in. intros i Hi. apply in_zseq in Hi. cbv zeta. unfold SpxSpec.fors_sign.
  rewrite <- (app_nil_r (flat_map _ (zseq 35))). rewrite (slice_flat_map _ 320 35 i []); [|lia|intros; apply zlen_fors_tree_sign|exact Hi].
  pose proof (base_2b_range md 9 35 i ltac:(lia)) as Hd. unfold znth in Hd. set (d := nth (Z.to_nat i) (base_2b md 9 35) 0) in *. set (idx := i * 512 + d).
  pose proof (zlen_fors_sk t kp idx) as Hz.
  assert (Ha: zlen (auth_path (fors_hash H ps t kp) (fors_leaf H ps ss t kp) 9 idx) = 288) by (rewrite zlen_auth_path; [reflexivity|intros; apply zlen_fors_hash|intros; apply zlen_fors_leaf]).
  rewrite slice_app_l by lia. rewrite slice_all by lia. rewrite slice_app_r by lia. rewrite Hz, Z.sub_diag. rewrite slice_all by lia.
  change (Th H ps (adrs_fors_tree t kp 0 idx) (fors_sk H ps ss t kp idx)) with (fors_leaf H ps ss t kp idx).
  rewrite climb_auth; [|intros; apply zlen_fors_hash|intros; apply zlen_fors_leaf]. f_equal. change (2 ^ Z.of_nat 9) with 512. change (2 ^ 9) with 512 in Hd. unfold idx. mlia.
Qed.
End Spec.

(** ** Merkle trees *)
Section M.
Variable ctx : spx_ctx.
Let ps := pub_seed ctx.
Let ss := sk_seed ctx.
Lemma xmss_base l t c W z i M : 0 <= l < 256 -> 0 <= t < 2 ^ 64 -> zlen W = 4 -> 0 <= z < 256 -> thash H ctx M (tad (A l (be_bytes 8 t) 2 0 c W) z i) = xmss_hash H ps l t z i M.
Proof. intros Hl Ht HW Hz. rewrite tad_A by (try apply zlen_be_bytes; assumption). unfold xmss_hash, adrs_tree. rewrite adrs_A by lia. reflexivity. Qed.
Lemma fors_base t kp c W z i M : 0 <= kp < 256 -> 0 <= t < 2 ^ 64 -> zlen W = 4 -> 0 <= z < 256 -> thash H ctx M (tad (A 0 (be_bytes 8 t) 3 kp c W) z i) = fors_hash H ps t kp z i M.
Proof. intros Hl Ht HW Hz. rewrite tad_A by (try apply zlen_be_bytes; assumption). unfold fors_hash, adrs_fors_tree. rewrite adrs_A by lia. reflexivity. Qed.

Lemma merkle_sign_ok stack0 sig off M l t idx ty kp c W ty2 c2 W2 : zlen stack0 = 128 -> bytes_ok M -> zlen M = 32 -> 0 <= l < 256 -> 0 <= t < 2 ^ 64 ->
  0 <= idx < 16 \/ idx = 2 ^ 32 - 1 -> zlen W = 4 -> zlen W2 = 4 -> 0 <= off -> off + 2272 <= zlen sig ->
  wp (merkle_sign H ctx stack0 sig off M (A l (be_bytes 8 t) ty kp c W) (A l (be_bytes 8 t) ty2 0 c2 W2) idx) (fun '(sig', root, ta) =>
    root = xmss_node H ps ss l t 4 0 /\ (exists c' W', ta = A l (be_bytes 8 t) 2 0 c' W' /\ zlen W' = 4) /\ same_outside sig sig' off (off + 2272) /\
    (idx < 16 -> slice sig' off 2272 = xmss_sign H ps ss M idx l t)).
Proof.
  intros Hst HMb HM Hl Ht Hidx HW HW2 Ho Hlen. unfold merkle_sign. rewrite chain_lengths_ok by assumption. cbn [bind].
  assert (HT: zlen (be_bytes 8 t) = 8) by apply zlen_be_bytes. set (T := be_bytes 8 t) in *.
  rewrite set_type_A by assumption. rewrite addr0_A. rewrite set_type_A by reflexivity. rewrite !copy_subtree_A by (assumption || reflexivity).
  change (u8 ADDR_HASHTREE) with 2. change (u8 ADDR_WOTSPK) with 1. unfold SPX_TREE_HEIGHT, SPX_WOTS_BYTES. apply wp_bind.
  set (P := fun (i : Z) (sg : list Z) (st : list Z * list Z) => same_outside sig sg off (off + 2272) /\ leaf_state l t st /\ (idx < i -> slice sg off 2144 = wots_sign H ps ss M l t idx)).
  eapply wp_mono.
  { apply (treehashx1_ok H HH ctx _ (A l T 2 0 c2 W2) (wots_pk H ps ss l t) 0 4 (off + 2144) idx P).
    - apply zlen_A; assumption.
    - lia.
    - vm_compute; split; congruence.
    - destruct Hidx as [Hi|Hi]; [lia|subst idx; vm_compute; congruence].
    - lia.
    - intros; apply zlen_wots_pk.
    - intros i sg st [[HL _] _]. lia.
    - intros i sg st h v [HS [Hst' Hw]] Hh Hv. pose proof HS as [HSl _]. split; [eapply same_outside_trans; [exact HS|]; apply same_outside_splice; lia|]. split; [exact Hst'|]. intros Hlt. rewrite slice_splice_before by lia. apply Hw, Hlt.
    - intros i sg st Hi [HS [Hst' Hw]]. pose proof HS as [HSl _]. change (2 ^ 4) with 16 in Hi. rewrite Z.add_0_r.
      eapply wp_mono; [apply (wots_gen_leafx1_ok H HH HB ctx l t Hl Ht off idx (wots_digits M) M i sg st); [apply wots_digits_range|apply zlen_wots_digits|reflexivity|lia|lia|lia|exact Hst']|].
      intros [[leaf sg'] st'] (-> & Hst2 & HS2 & Hne & Heq). pose proof HS2 as [HSl2 HSo2]. split; [reflexivity|]. split.
      + split; [eapply same_outside_trans; [exact HS|]; eapply same_outside_weaken; [exact HS2|lia|lia]|]. split; [exact Hst2|]. intros Hlt. destruct (Z.eq_dec i idx) as [->|Hn]; [apply Heq; reflexivity|]. rewrite Hne by exact Hn. apply Hw. lia.
      + apply HSo2; lia.
    - exact Hst.
    - apply tbase_refl, zlen_A; assumption.
    - split; [apply same_outside_refl|]. split; [|intros; lia]. split; cbn [fst snd]; [exists 0, 0, 0, 0; reflexivity|exists 0; reflexivity]. }
  intros [[[root ta] sg] st] (-> & Hta & [HS [_ Hw]] & HA). apply wp_ret. cbv beta.
  split; [unfold xmss_node; apply (tree_node_ext _ _ _ _ 4); [intros z i X Hz; rewrite Z.div_0_l by (apply Z.pow_nonzero; lia); rewrite Z.add_0_r; apply xmss_base; (assumption || lia)|reflexivity|lia]|].
  split; [apply tbase_A in Hta; assumption|]. split; [exact HS|].
  intros Hlt. pose proof HS as [HSl _]. change (2 ^ 4) with 16 in *. rewrite (slice_split sg off 2272 2144) by lia. rewrite Hw by lia. unfold xmss_sign. f_equal. change (2272 - 2144) with (32 * 4). rewrite HA by lia.
  apply auth_path_ext; [|reflexivity]. intros z i X Hz. rewrite Z.div_0_l by (apply Z.pow_nonzero; lia). rewrite Z.add_0_r. apply xmss_base; (assumption || lia).
Qed.

Lemma merkle_gen_root_ok stack0 auth0 root0 : zlen stack0 = 128 -> zlen auth0 = 2272 -> bytes_ok root0 -> zlen root0 = 32 ->
  merkle_gen_root H ctx stack0 auth0 root0 = Ret (slh_root H ps ss).
Proof.
  intros Hs Ha Hb Hz. apply wp_is. unfold merkle_gen_root. rewrite addr0_A. rewrite set_layer_A by reflexivity. change (u8 (SPX_D - 1)) with 16. apply wp_bind. change (zeros 8) with (be_bytes 8 0).
  eapply wp_mono; [apply merkle_sign_ok; try assumption; try lia; try reflexivity; right; reflexivity|]. intros [[sg root] ta] (-> & _). apply wp_ret. reflexivity.
Qed.

(** ** FORS *)
Lemma fors_sign_ok stk sig off md t kp l0 ty c W : (forall i, zlen (stk i) = 288) -> bytes_ok md -> zlen md = 40 -> 0 <= t < 2 ^ 64 -> 0 <= kp < 256 -> l0 = 0 -> zlen W = 4 -> 0 <= off -> off + 11200 <= zlen sig ->
  wp (fors_sign H ctx stk sig off md (A l0 (be_bytes 8 t) ty kp c W)) (fun '(sig', pk) =>
    same_outside sig sig' off (off + 11200) /\ slice sig' off 11200 = SpxSpec.fors_sign H ps ss md t kp /\ pk = fors_pk_of_sig H ps (SpxSpec.fors_sign H ps ss md t kp) md t kp).
Proof.
  intros Hstk Hmb Hm Ht Hk -> HW Ho Hlen. unfold fors_sign. rewrite message_to_indices_ok by assumption. cbn [bind]. rewrite fors_pk_of_sign.
  assert (HT: zlen (be_bytes 8 t) = 8) by apply zlen_be_bytes. rewrite addr0_A. rewrite !copy_keypair_A by (assumption || reflexivity). rewrite set_type_A by (assumption || reflexivity). change (u8 ADDR_FORSPK) with 4.
  set (T := be_bytes 8 t) in *.
  set (f := fun i => let idx := i * 512 + nth (Z.to_nat i) (base_2b md 9 35) 0 in fors_sk H ps ss t kp idx ++ auth_path (fors_hash H ps t kp) (fors_leaf H ps ss t kp) 9 idx).
  set (g := fun i => tree_node (fors_hash H ps t kp) (fors_leaf H ps ss t kp) 9 i).
  assert (Hf: forall i, zlen (f i) = 320) by (intros i; unfold f; cbv zeta; apply (zlen_fors_tree_sign ps ss t kp)).
  apply wp_bind. unfold SPX_FORS_TREES, SPX_FORS_HEIGHT, SPX_N.
  eapply (wp_for_loop (fun i '(sg, o, roots, ta, la) => o = off + 320 * i /\ same_outside sig sg off (off + 11200) /\ slice sg off (320 * i) = flat_map f (zseq (Z.to_nat i)) /\ roots = flat_map g (zseq (Z.to_nat i)) /\
     (exists ty c W, ta = A 0 T ty kp c W /\ zlen W = 4) /\ (exists ty W, la = A 0 T ty kp 0 W /\ zlen W = 4))); [lia| | |].
  - split; [lia|]. split; [apply same_outside_refl|]. split; [rewrite Z.mul_0_r, slice_0; reflexivity|]. split; [reflexivity|]. split; [exists 0, 0, [0;0;0;0]; split; reflexivity|exists 0, [0;0;0;0]; split; reflexivity].
  - clear ty c W HW. intros i [[[[sg o] roots] ta] la] Hi (-> & HS & Hsl & -> & (ty & c & W & -> & HW) & (ty2 & W2 & -> & HW2)). pose proof HS as [HSl _].
    apply wp_bind, wp_rd; [rewrite zlen_base_2b; lia|]. pose proof (base_2b_range md 9 35 i ltac:(lia)) as Hd. change (2 ^ 9) with 512 in Hd. set (d := znth (base_2b md 9 35) i) in *.
    replace (u32 (d + i * 512)) with (d + i * 512) by (unfold u32; rewrite Z.mod_small by (change (2 ^ 32) with 4294967296; lia); reflexivity).
    rewrite set_height_A by assumption. rewrite set_index_A by (try assumption; change (2 ^ 32) with 4294967296; lia). rewrite !set_type_A by (try assumption; apply zlen_be_bytes). change (u8 0) with 0. change (u8 ADDR_FORSPRF) with 6. change (u8 ADDR_FORSTREE) with 3.
    rewrite prf_PRF. fold ps ss. replace (PRF H ps ss (A 0 T 6 kp 0 (be_bytes 4 (d + i * 512)))) with (fors_sk H ps ss t kp (i * 512 + d)) by (unfold fors_sk, adrs_fors_prf; rewrite adrs_A by lia; rewrite (Z.add_comm (i * 512)); reflexivity).
    pose proof (zlen_fors_sk ps ss t kp (i * 512 + d)) as Hzk. apply wp_bind. eapply wp_eq; [apply copy_splice; lia|].
    set (sg1 := splice sg (off + 320 * i) (fors_sk H ps ss t kp (i * 512 + d))).
    assert (HS1: same_outside sg sg1 (off + 320 * i) (off + 320 * (i + 1))) by (apply same_outside_splice; lia). pose proof HS1 as [HSl1 _].
    apply wp_bind. eapply wp_mono.
    { apply (treehashx1_ok H HH ctx (fors_gen_leafx1 H ctx) (A 0 T 3 kp 0 (be_bytes 4 (d + i * 512))) (fun j => fors_leaf H ps ss t kp (j + i * 512)) (i * 512) 9 (off + 320 * i + 32) d
        (fun _ sg' la => same_outside sg1 sg' (off + 320 * i + 32) (off + 320 * (i + 1)) /\ exists ty W, la = A 0 T ty kp 0 W /\ zlen W = 4)).
      - apply zlen_A; [exact HT|apply zlen_be_bytes].
      - lia.
      - change (2 ^ 9) with 512. change (2 ^ 32) with 4294967296. lia.
      - lia.
      - lia.
      - intros; apply zlen_fors_leaf.
      - intros _ sg' la [[HL _] _]. lia.
      - intros _ sg' la h v [HS' Hla] Hh Hv. pose proof HS' as [HL _]. split; [|exact Hla]. eapply same_outside_trans; [exact HS'|]. apply same_outside_splice; lia.
      - intros j sg' la Hj [HS' (ty' & W' & -> & HW')]. change (2 ^ 9) with 512 in Hj. unfold fors_gen_leafx1. rewrite set_index_A by (try assumption; change (2 ^ 32) with 4294967296; lia). rewrite !set_type_A by (try assumption; apply zlen_be_bytes).
        change (u8 ADDR_FORSPRF) with 6. change (u8 ADDR_FORSTREE) with 3. apply wp_ret. split.
        + rewrite prf_PRF, thash_Th. fold ps ss. unfold fors_leaf, fors_sk, adrs_fors_tree, adrs_fors_prf. rewrite !adrs_A by lia. reflexivity.
        + split; [|reflexivity]. split; [exact HS'|]. exists 3, (be_bytes 4 (j + i * 512)). split; [reflexivity|apply zlen_be_bytes].
      - apply Hstk.
      - apply tbase_refl, zlen_A; [exact HT|apply zlen_be_bytes].
      - split; [apply same_outside_refl|]. exists ty2, W2. split; [reflexivity|exact HW2]. }
    intros [[[root ta'] sg2] la'] (-> & Hta & [HS2 Hla] & HA). apply wp_ret. pose proof HS2 as [HSl2 HSo2]. change (2 ^ 9) with 512 in HA.
    assert (Hmul: (i * 512) mod 2 ^ 9 = 0) by (change (2 ^ 9) with 512; apply Z.mod_mul; lia).
    split; [lia|]. split; [eapply same_outside_trans; [exact HS|]; eapply same_outside_trans; [eapply same_outside_weaken; [exact HS1|lia|lia]|eapply same_outside_weaken; [exact HS2|lia|lia]]|].
    split.
    { rewrite flat_map_zseq_S by lia. replace (320 * (i + 1)) with (320 * i + 320) by lia. rewrite (slice_split _ _ _ (320 * i)) by lia. f_equal.
      - rewrite HSo2 by lia. unfold sg1. rewrite slice_splice_before by lia. exact Hsl.
      - replace (320 * i + 320 - 320 * i) with 320 by lia. rewrite (slice_split _ _ 320 32) by lia. unfold f. cbv zeta. change (nth (Z.to_nat i) (base_2b md 9 35) 0) with d. f_equal.
        + rewrite HSo2 by lia. unfold sg1. apply slice_splice_at; lia.
        + change (320 - 32) with (32 * 9). rewrite HA by lia. change (Z.to_nat 9) with 9%nat.
          rewrite (auth_path_ext _ (fun z j M => fors_hash H ps t kp z (j + i * 512 / 2 ^ z) M) _ (fun j => fors_leaf H ps ss t kp (j + i * 512))); [|intros; apply fors_base; [lia|lia|apply zlen_be_bytes|lia]|reflexivity].
          rewrite (auth_path_off (fors_hash H ps t kp) (fors_leaf H ps ss t kp) (i * 512) 9) by (assumption || lia). f_equal. lia. }
    split.
    { rewrite flat_map_zseq_S by lia. f_equal. unfold g. change (Z.to_nat 9) with 9%nat.
      rewrite (tree_node_ext _ (fun z j M => fors_hash H ps t kp z (j + i * 512 / 2 ^ z) M) _ (fun j => fors_leaf H ps ss t kp (j + i * 512)) 9); [|intros; apply fors_base; [lia|lia|apply zlen_be_bytes|lia]|reflexivity|lia].
      rewrite (tree_node_off (fors_hash H ps t kp) (fors_leaf H ps ss t kp) (i * 512) 9) by (assumption || lia). f_equal. change (2 ^ Z.of_nat 9) with 512. rewrite Z.div_mul by lia. lia. }
    split; [|exact Hla]. apply tbase_A in Hta; [|exact HT|apply zlen_be_bytes]. destruct Hta as (c' & W' & -> & HW'). exists 3, c', W'. split; [reflexivity|exact HW'].
  - intros [[[[sg o] roots] ta] la] (_ & HS & Hsl & -> & _). apply wp_ret. split; [exact HS|]. split; [exact Hsl|]. rewrite thash_Th. unfold adrs_fors_roots. rewrite adrs_A by lia. reflexivity.
Qed.

Lemma fors_pk_from_sig_ok sig off md t kp l0 ty c W : bytes_ok md -> zlen md = 40 -> 0 <= t < 2 ^ 64 -> 0 <= kp < 256 -> l0 = 0 -> zlen W = 4 -> 0 <= off -> off + 11200 <= zlen sig ->
  fors_pk_from_sig H ctx sig off md (A l0 (be_bytes 8 t) ty kp c W) = Ret (fors_pk_of_sig H ps (slice sig off 11200) md t kp).
Proof.
  intros Hmb Hm Ht Hk -> HW Ho Hlen. apply wp_is. unfold fors_pk_from_sig. rewrite message_to_indices_ok by assumption. cbn [bind].
  assert (HT: zlen (be_bytes 8 t) = 8) by apply zlen_be_bytes. rewrite addr0_A. rewrite !copy_keypair_A by (assumption || reflexivity). rewrite !set_type_A by (assumption || reflexivity). change (u8 ADDR_FORSPK) with 4. change (u8 ADDR_FORSTREE) with 3.
  set (T := be_bytes 8 t) in *.
  set (g := fun i => let idx := i * 512 + nth (Z.to_nat i) (base_2b md 9 35) 0 in let s := slice (slice sig off 11200) (320 * i) 320 in
        climb (fors_hash H ps t kp) 9 0 idx (Th H ps (adrs_fors_tree t kp 0 idx) (slice s 0 32)) (slice s 32 288)).
  apply wp_bind. unfold SPX_FORS_TREES, SPX_FORS_HEIGHT, SPX_N.
  eapply (wp_for_loop (fun i '(o, roots, ta) => o = off + 320 * i /\ roots = flat_map g (zseq (Z.to_nat i)) /\ (exists c W, ta = A 0 T 3 kp c W /\ zlen W = 4))); [lia| | |].
  - split; [lia|]. split; [reflexivity|]. exists 0, [0;0;0;0]; split; reflexivity.
  - clear ty c W HW. intros i [[o roots] ta] Hi (-> & -> & (c & W & -> & HW)).
    apply wp_bind, wp_rd; [rewrite zlen_base_2b; lia|]. pose proof (base_2b_range md 9 35 i ltac:(lia)) as Hd. change (2 ^ 9) with 512 in Hd. set (d := znth (base_2b md 9 35) i) in *.
    replace (u32 (d + i * 512)) with (d + i * 512) by (unfold u32; rewrite Z.mod_small by (change (2 ^ 32) with 4294967296; lia); reflexivity).
    rewrite set_height_A by assumption. rewrite set_index_A by (try assumption; change (2 ^ 32) with 4294967296; lia). change (u8 0) with 0. rewrite rdrange_ok by lia. cbn [bind]. apply wp_bind.
    eapply wp_mono; [apply (compute_root_ok H ctx (A 0 T 3 kp 0 (be_bytes 4 (d + i * 512)))); [apply zlen_A; [exact HT|apply zlen_be_bytes]|apply tbase_refl, zlen_A; [exact HT|apply zlen_be_bytes]|lia|change (2 ^ 32) with 4294967296; lia|lia|change (2 ^ 32) with 4294967296; lia|lia|lia]|].
    intros [root ta] (-> & Hta). apply wp_ret. split; [lia|]. split.
    + rewrite flat_map_zseq_S by lia. f_equal. change (Z.to_nat 9) with 9%nat.
      rewrite (climb_ext _ (fun z j M => fors_hash H ps t kp z (j + i * 512 / 2 ^ z) M)) by (intros; apply fors_base; [lia|lia|apply zlen_be_bytes|lia]).
      assert (Hmul: (i * 512) mod 2 ^ 9 = 0) by (change (2 ^ 9) with 512; apply Z.mod_mul; lia).
      rewrite (climb_off (fors_hash H ps t kp) (i * 512) 9) by (assumption || lia). rewrite Z.pow_0_r, Z.div_1_r. unfold g. cbv zeta. change (nth (Z.to_nat i) (base_2b md 9 35) 0) with d. rewrite (Z.add_comm d). f_equal.
      * rewrite thash_Th. unfold adrs_fors_tree. rewrite adrs_A by lia. rewrite !slice_slice by lia. f_equal. f_equal. lia.
      * rewrite !slice_slice by lia. f_equal. lia.
    + apply tbase_A in Hta; [exact Hta|exact HT|apply zlen_be_bytes].
  - intros [[o roots] ta] (_ & -> & _). apply wp_ret. rewrite thash_Th. unfold fors_pk_of_sig, adrs_fors_roots. rewrite adrs_A by lia. reflexivity.
Qed.
End M.
End S.
