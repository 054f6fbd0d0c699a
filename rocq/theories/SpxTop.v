(** SPHINCS+: key generation, signing, verification, and the combined-message
    interface, proved equal to the FIPS 205 specification of [SpxSpec.v]. *)
From Coq Require Import ZifyBool ZifyNat.
From Verif Require Import Base Wp Sha512Spec TweetSha SpxSpec Spx SpxTree SpxWots SpxWots2 SpxSign.
Local Open Scope Z_scope.
Ltac Zify.zify_post_hook ::= idtac.
Ltac mlia := Z.div_mod_to_equations; lia.

Lemma bytes_to_ull_ok l : bytes_ok l -> zlen l <= 8 -> bytes_to_ull l (length l) = be_val l.
Proof.
  intros Hb Hl. unfold bytes_to_ull. set (n := length l). assert (Hn: zlen l = Z.of_nat n) by reflexivity.
  enough (E: forall k, (k <= n)%nat -> fold_left (fun r i => Z.lor r (u64 (Z.shiftl (nth i l 0) (8 * (Z.of_nat n - 1 - Z.of_nat i))))) (seq 0 k) 0 = be_val (firstn k l) * 2 ^ (8 * (Z.of_nat n - Z.of_nat k))).
  { rewrite E by lia. rewrite Z.sub_diag, Z.mul_0_r, Z.pow_0_r, Z.mul_1_r. unfold n. rewrite firstn_all. reflexivity. }
  induction k as [|k IH]; intros Hk; [reflexivity|]. rewrite seq_S, fold_left_app, Nat.add_0_l. cbn [fold_left]. rewrite IH by lia. clear IH.
  rewrite (firstn_S_nth l k) by (fold n; lia). rewrite be_val_snoc.
  assert (Hx: 0 <= nth k l 0 < 256) by (apply (proj1 (Forall_forall byte_ok l) Hb); apply nth_In; fold n; lia).
  set (x := nth k l 0) in *. set (a := be_val (firstn k l)). set (e := 8 * (Z.of_nat n - 1 - Z.of_nat k)).
  assert (He: 0 <= e <= 56) by lia. replace (8 * (Z.of_nat n - Z.of_nat k)) with (8 + e) by lia. replace (8 * (Z.of_nat n - Z.of_nat (S k))) with e by lia.
  rewrite Z.shiftl_mul_pow2 by lia. rewrite Z.pow_add_r by lia. change (2 ^ 8) with 256.
  assert (Hp: 0 < 2 ^ e) by (apply Z.pow_pos_nonneg; lia).
  assert (Hp2: 2 ^ e <= 2 ^ 56) by (apply Z.pow_le_mono_r; lia).
  assert (Hm: 0 <= x * 2 ^ e < 2 ^ (8 + e)) by (rewrite Z.pow_add_r by lia; change (2 ^ 8) with 256; nia).
  assert (Hu: u64 (x * 2 ^ e) = x * 2 ^ e). { unfold u64. apply Z.mod_small. split; [lia|]. eapply Z.lt_le_trans; [apply Hm|]. apply Z.pow_le_mono_r; lia. }
  rewrite Hu. rewrite Z.lor_comm. rewrite (lor_disj (8 + e)).
  - ring.
  - lia.
  - exact Hm.
  - rewrite Z.pow_add_r by lia. change (2 ^ 8) with 256. replace (a * (256 * 2 ^ e)) with (a * (256 * 2 ^ e)) by ring. apply Z.mod_mul. nia.
Qed.

Section T.
Variable H : list Z -> Z -> list Z.
Hypothesis HH : forall x n, 0 <= n -> zlen (H x n) = n.
Hypothesis HB : forall x n, bytes_ok (H x n).

Lemma digest_tree_range dg : 0 <= digest_tree dg < 2 ^ 64. Proof. apply Z.mod_pos_bound. reflexivity. Qed.
Lemma digest_leaf_range dg : 0 <= digest_leaf dg < 16. Proof. apply Z.mod_pos_bound. reflexivity. Qed.
Lemma hash_message_ok R ps root m : hash_message H R (ps ++ root) m =
  (let dg := H_msg H ps R root m in (digest_md dg, digest_tree dg, digest_leaf dg)).
Proof.
  unfold hash_message, H_msg. rewrite <- app_assoc. cbv zeta. set (dg := H (R ++ ps ++ root ++ m) 49). assert (Hz: zlen dg = 49) by (apply HH; lia).
  assert (Hb: bytes_ok dg) by apply HB. unfold digest_md, digest_tree, digest_leaf. 
  assert (E8: bytes_to_ull (slice dg 40 8) 8 = be_val (slice dg 40 8)).
  { assert (Hz8: zlen (slice dg 40 8) = 8) by (rewrite zlen_slice; lia). rewrite <- (bytes_to_ull_ok (slice dg 40 8)) by (try apply bytes_ok_slice; assumption || lia). f_equal. unfold zlen in Hz8. lia. }
  assert (E1: bytes_to_ull (slice dg 48 1) 1 = be_val (slice dg 48 1)).
  { assert (Hz8: zlen (slice dg 48 1) = 1) by (rewrite zlen_slice; lia). rewrite <- (bytes_to_ull_ok (slice dg 48 1)) by (try apply bytes_ok_slice; assumption || lia). f_equal. unfold zlen in Hz8. lia. }
  rewrite E8, E1. unfold SPX_FORS_MSG_BYTES, SPX_TREE_HEIGHT.
  change (Z.shiftr (2 ^ 64 - 1) (64 - 64)) with (Z.ones 64). change (Z.shiftr (2 ^ 32 - 1) (32 - 4)) with (Z.ones 4). rewrite !Z.land_ones by lia.
  pose proof (be_val_range (slice dg 48 1) (bytes_ok_slice _ _ _ Hb)) as R1. rewrite zlen_slice in R1 by lia. change (256 ^ 1) with 256 in R1.
  f_equal. f_equal. unfold u32. apply Z.mod_small. lia.
Qed.

(** ** key generation *)
Lemma zlen_slh_root ps ss : zlen (slh_root H ps ss) = 32.
Proof. unfold slh_root, xmss_node. cbn [tree_node]. apply HH. lia. Qed.
Lemma bytes_slh_root ps ss : bytes_ok (slh_root H ps ss).
Proof. unfold slh_root, xmss_node. cbn [tree_node]. apply HB. Qed.

Lemma seed_keypair_ok stack0 auth0 pk sk seed : zlen stack0 = 128 -> zlen auth0 = 2272 -> zlen pk = 64 -> zlen sk = 128 -> bytes_ok sk -> zlen seed = 96 ->
  seed_keypair H stack0 auth0 pk sk seed = Ret (0, fst (slh_keygen H seed), snd (slh_keygen H seed)).
Proof.
  intros Hst Ha Hp Hs Hsb Hd. unfold seed_keypair, SPX_N. rewrite (copy_splice sk 0 seed 96) by lia. cbn [bind].
  assert (E1: splice sk 0 seed = seed ++ slice sk 96 32) by (unfold splice; rewrite slice_0, Hd, Hs; reflexivity). rewrite E1.
  assert (Hz1: zlen (slice sk 96 32) = 32) by (rewrite zlen_slice; lia). assert (Hb1: bytes_ok (slice sk 96 32)) by (apply bytes_ok_slice; exact Hsb).
  generalize dependent (slice sk 96 32). intros s1 E1 Hz1 Hb1. clear E1.
  assert (HL1: zlen (seed ++ s1) = 128) by (rewrite zlen_app; lia).
  rewrite copy_ok by lia. cbn [bind]. rewrite slice_0. change (([] : list Z) ++ ?x) with x. rewrite (slice_app_l seed s1 64 32) by lia. change (0 + 32) with 32. rewrite Hp. change (64 - 0 - 32) with 32.
  set (pseed := slice seed 64 32). assert (Hzp: zlen pseed = 32) by (unfold pseed; rewrite zlen_slice; lia). assert (Hzr: zlen (slice pk 32 32) = 32) by (rewrite zlen_slice; lia).
  generalize dependent (slice pk 32 32). intros p1 Hzr.
  rewrite !rdrange_ok by (rewrite ?zlen_app; lia). cbn [bind]. rewrite (slice_app_l pseed p1 0 32) by lia. rewrite (slice_all pseed) by lia.
  rewrite (slice_app_l seed s1 0 32) by lia. rewrite (slice_app_r seed s1 96 32) by lia. rewrite Hd. change (96 - 96) with 0. rewrite (slice_all s1) by lia.
  rewrite (merkle_gen_root_ok H HH HB) by assumption. cbn [bind pub_seed sk_seed]. set (root := slh_root H pseed (slice seed 0 32)).
  assert (Hzo: zlen root = 32) by apply zlen_slh_root. rewrite copy_ok by lia. cbn [bind]. rewrite (slice_app_l seed s1 0 96) by lia. rewrite (slice_all seed) by lia. rewrite (slice_all root) by lia. rewrite HL1. change (128 - 96 - 32) with 0. rewrite slice_0, app_nil_r.
  rewrite copy_ok by (rewrite ?zlen_app; lia). cbn [bind]. rewrite (slice_app_l pseed p1 0 32) by lia. rewrite (slice_all pseed) by lia. rewrite (slice_app_r seed root 96 32) by lia. rewrite Hd. change (96 - 96) with 0. rewrite (slice_all root) by lia.
  rewrite zlen_app, Hzp, Hzr. change (32 + 32 - 32 - 32) with 0. rewrite slice_0, app_nil_r. reflexivity.
Qed.

(** ** hypertree *)
Lemma fors_pk_len ps sg md t kp : zlen (fors_pk_of_sig H ps sg md t kp) = 32. Proof. apply HH. lia. Qed.
Lemma fors_pk_bytes ps sg md t kp : bytes_ok (fors_pk_of_sig H ps sg md t kp). Proof. apply HB. Qed.
Lemma xmss_root_len ps ss l t : zlen (xmss_node H ps ss l t 4 0) = 32. Proof. unfold xmss_node. cbn [tree_node]. apply HH. lia. Qed.
Lemma xmss_root_bytes ps ss l t : bytes_ok (xmss_node H ps ss l t 4 0). Proof. unfold xmss_node. cbn [tree_node]. apply HB. Qed.
Lemma leaf_next t : 0 <= t -> u32 (Z.land t (Z.shiftl 1 SPX_TREE_HEIGHT - 1)) = t mod 16.
Proof. intros Ht. change (Z.shiftl 1 SPX_TREE_HEIGHT - 1) with (Z.ones 4). rewrite Z.land_ones by lia. change (2 ^ 4) with 16. unfold u32. apply Z.mod_small. change (2 ^ 32) with 4294967296. mlia. Qed.
Lemma tree_next t : Z.shiftr t SPX_TREE_HEIGHT = t / 16.
Proof. unfold SPX_TREE_HEIGHT. rewrite Z.shiftr_div_pow2 by lia. reflexivity. Qed.
Lemma ht_sign_S ps ss n l M t leaf : ht_sign H ps ss (S n) l M t leaf = xmss_sign H ps ss M leaf l t ++ ht_sign H ps ss n (l + 1) (xmss_pk_of_sig H ps leaf (xmss_sign H ps ss M leaf l t) M l t) (t / 16) (t mod 16).
Proof. reflexivity. Qed.
Lemma ht_root_S ps n l M sg t leaf : ht_root_of_sig H ps (S n) l M sg t leaf = ht_root_of_sig H ps n (l + 1) (xmss_pk_of_sig H ps leaf (slice sg 0 2272) M l t) (slice sg 2272 (zlen sg - 2272)) (t / 16) (t mod 16).
Proof. reflexivity. Qed.

Lemma sign_signature_ok rb stkf stkm sig siglen m sk optrand : (forall i, zlen (stkf i) = 288) -> (forall i, zlen (stkm i) = 128) -> 49856 <= zlen sig -> zlen sk = 128 ->
  rb 32 = (0, optrand) ->
  wp (sign_signature H rb stkf stkm sig siglen m sk) (fun '(r, sl, sig') => r = 0 /\ sl = 49856 /\ same_outside sig sig' 0 49856 /\ slice sig' 0 49856 = slh_sign_sk H m sk optrand).
Proof.
  intros Hf Hm Hsig Hsk Hrb. unfold sign_signature, SPX_N. rewrite !rdrange_ok by lia. cbn [bind]. rewrite Hrb. change (negb (0 =? 0)) with false. cbv iota.
  cbn [bind]. unfold slh_sign_sk, slh_sign. set (ps := slice sk 64 32). set (ss := slice sk 0 32).
  replace (slice sk 64 64) with (ps ++ slice sk 96 32) by (symmetry; apply (slice_split sk 64 64 32); lia). set (prf := slice sk 32 32). set (rt := slice sk 96 32).
  unfold gen_message_random, SPX_N. set (R := H (prf ++ optrand ++ m) 32). assert (HR: zlen R = 32) by (apply HH; lia).
  rewrite copy_splice by lia. cbn [bind]. set (sig1 := splice sig 0 R). assert (HS1: same_outside sig sig1 0 32) by (apply same_outside_splice; lia). pose proof HS1 as [HL1 _].
  rewrite rdrange_ok by lia. cbn [bind]. assert (E0: slice sig1 0 32 = R) by (apply slice_splice_at; lia). rewrite E0.
  rewrite hash_message_ok. cbv zeta. set (dg := H_msg H ps R rt m). pose proof (digest_tree_range dg) as Ht. pose proof (digest_leaf_range dg) as Hlf.
  assert (Hdg: zlen dg = 49) by (apply HH; lia). assert (Hmd: zlen (digest_md dg) = 40) by (unfold digest_md; rewrite zlen_slice by lia; reflexivity).
  assert (Hmb: bytes_ok (digest_md dg)) by (apply bytes_ok_slice, HB).
  set (md := digest_md dg) in *. set (t := digest_tree dg) in *. set (leaf := digest_leaf dg) in *.
  rewrite addr0_A. rewrite !set_type_A by reflexivity. rewrite set_tree_A by (reflexivity || lia). rewrite set_kp_A by (try apply zlen_be_bytes; reflexivity). rewrite (u8_id leaf) by lia. change (u8 ADDR_WOTS) with 0. change (u8 ADDR_HASHTREE) with 2.
  apply wp_bind. eapply wp_mono; [apply (fors_sign_ok H HH HB {| pub_seed := ps; sk_seed := ss |}); try assumption; try reflexivity; lia|].
  cbn [pub_seed sk_seed]. intros [sig2 pkf] (HS2 & E2 & ->). set (sf := SpxSpec.fors_sign H ps ss md t leaf) in *. set (M0 := fors_pk_of_sig H ps sf md t leaf). pose proof HS2 as [HL2 HO2]. cbv beta. unfold SPX_FORS_BYTES.
  apply wp_bind. eapply (wp_for_loop (fun i '(sg, off, root, wa, ta, tr, lf) => off = 11232 + 2272 * i /\ same_outside sig2 sg 11232 49856 /\ bytes_ok root /\ zlen root = 32 /\ 0 <= tr < 2 ^ 64 /\ 0 <= lf < 16 /\
      (exists l T kp c W, wa = A l T 0 kp c W /\ zlen T = 8 /\ zlen W = 4) /\ (exists l T c W, ta = A l T 2 0 c W /\ zlen T = 8 /\ zlen W = 4) /\
      ht_sign H ps ss 17 0 M0 t leaf = slice sg 11232 (2272 * i) ++ ht_sign H ps ss (Z.to_nat (17 - i)) i root tr lf)); [unfold SPX_D; lia| | |].
  - split; [reflexivity|]. split; [apply same_outside_refl|]. split; [apply fors_pk_bytes|]. split; [apply fors_pk_len|]. split; [exact Ht|]. split; [exact Hlf|]. split; [|split].
    + do 5 eexists. split; [reflexivity|]. split; [apply zlen_be_bytes|reflexivity].
    + exists 0, (zeros 8), 0, [0;0;0;0]. repeat split.
    + rewrite Z.mul_0_r, slice_0, app_nil_l. change (Z.to_nat (17 - 0)) with 17%nat. reflexivity.
  - unfold SPX_D. intros i [[[[[[sg off] root] wa] ta] tr] lf] Hi (-> & HS & Hrb' & Hrl & Htr & Hlf' & (l1 & T1 & k1 & c1 & W1 & -> & HT1 & HW1) & (l2 & T2 & c2 & W2 & -> & HT2 & HW2) & E).
    pose proof HS as [HL HO]. unfold sign_layer. rewrite set_layer_A by assumption. rewrite set_tree_A by (try assumption; lia). rewrite copy_subtree_A by (try assumption; apply zlen_be_bytes). rewrite set_kp_A by (try assumption; apply zlen_be_bytes). rewrite !u8_id by lia.
    apply wp_bind. eapply wp_mono; [apply (merkle_sign_ok H HH HB {| pub_seed := ps; sk_seed := ss |}); try assumption; try apply Hm; lia|].
    cbn [pub_seed sk_seed]. intros [[sg' root'] ta'] (-> & (c' & W' & -> & HW') & HS' & Esg). specialize (Esg ltac:(lia)). pose proof HS' as [HL' HO']. apply wp_ret.
    unfold SPX_WOTS_BYTES, SPX_TREE_HEIGHT, SPX_N. split; [lia|]. split; [eapply same_outside_trans; [exact HS|]; eapply same_outside_weaken; [exact HS'|lia|lia]|].
    split; [apply xmss_root_bytes|]. split; [apply xmss_root_len|]. change 4 with SPX_TREE_HEIGHT. rewrite tree_next, leaf_next by lia. split; [clear -Htr; mlia|]. split; [clear -Htr; mlia|]. split; [|split].
    + do 5 eexists. split; [reflexivity|]. split; [apply zlen_be_bytes|assumption].
    + do 4 eexists. split; [reflexivity|]. split; [apply zlen_be_bytes|assumption].
    + rewrite E. replace (Z.to_nat (17 - i)) with (S (Z.to_nat (17 - (i + 1)))) by lia. rewrite ht_sign_S. rewrite xmss_pk_of_sign by (assumption || lia).
      replace (2272 * (i + 1)) with (2272 * i + 2272) by lia. rewrite (slice_split sg' 11232 (2272 * i + 2272) (2272 * i)) by lia. replace (2272 * i + 2272 - 2272 * i) with 2272 by lia. rewrite <- app_assoc. f_equal; [symmetry; apply HO'; lia|]. rewrite Esg. reflexivity.
  - intros [[[[[[sg off] root] wa] ta] tr] lf] (_ & HS & _ & _ & _ & _ & _ & _ & E). apply wp_ret. pose proof HS as [HL HO]. split; [reflexivity|]. split; [reflexivity|]. split.
    + eapply same_outside_trans; [eapply same_outside_weaken; [exact HS1|lia|lia]|]. eapply same_outside_trans; [eapply same_outside_weaken; [exact HS2|lia|lia]|]. eapply same_outside_weaken; [exact HS|lia|lia].
    + unfold SPX_D in E. change (Z.to_nat (17 - 17)) with 0%nat in E. change (ht_sign H ps ss 0 17 root tr lf) with (@nil Z) in E. rewrite app_nil_r in E. rewrite E. change (2272 * 17) with 38624.
      rewrite (slice_split sg 0 49856 32) by lia. rewrite (slice_split sg (0 + 32) (49856 - 32) 11200) by lia. f_equal; [|f_equal].
      * rewrite HO by lia. rewrite HO2 by lia. exact E0.
      * change (0 + 32) with 32. rewrite HO by lia. exact E2.
Qed.

(** ** verification *)
Lemma sign_verify_root ss sig m pk : 49856 <= zlen sig -> zlen pk = 64 ->
  sign_verify H ss sig 49856 m pk = Ret (if list_eq_dec Z.eq_dec (slh_verify_root H (slice pk 0 32) m (slice sig 0 49856) (slice pk 32 32)) (slice pk 32 32) then 0 else -1).
Proof.
  intros Hsig Hpk. apply wp_is. unfold sign_verify, SPX_N, SPX_BYTES. change (negb (49856 =? 49856)) with false. cbv iota. rewrite !rdrange_ok by lia. cbn [bind]. unfold slh_verify_root.
  rewrite (slice_split pk 0 64 32) by lia. change (64 - 32) with 32. change (0 + 32) with 32. set (ps := slice pk 0 32). set (rt := slice pk 32 32).
  rewrite !(slice_slice sig) by lia. rewrite !Z.add_0_l. set (R := slice sig 0 32). rewrite hash_message_ok. cbv zeta. set (dg := H_msg H ps R rt m). pose proof (digest_tree_range dg) as Ht. pose proof (digest_leaf_range dg) as Hlf.
  assert (Hdg: zlen dg = 49) by (apply HH; lia). assert (Hmd: zlen (digest_md dg) = 40) by (unfold digest_md; rewrite zlen_slice by lia; reflexivity).
  assert (Hmb: bytes_ok (digest_md dg)) by (apply bytes_ok_slice, HB).
  set (md := digest_md dg) in *. set (t := digest_tree dg) in *. set (leaf := digest_leaf dg) in *.
  rewrite addr0_A. rewrite !set_type_A by reflexivity. rewrite set_tree_A by (reflexivity || lia). rewrite set_kp_A by (try apply zlen_be_bytes; reflexivity). rewrite (u8_id leaf) by lia. change (u8 ADDR_WOTS) with 0. change (u8 ADDR_HASHTREE) with 2. change (u8 ADDR_WOTSPK) with 1.
  rewrite (fors_pk_from_sig_ok H HH HB {| pub_seed := ps; sk_seed := ss |}) by (try assumption; try reflexivity; lia). cbn [bind pub_seed]. set (M0 := fors_pk_of_sig H ps (slice sig 32 11200) md t leaf). unfold SPX_FORS_BYTES.
  apply wp_bind. eapply (wp_for_loop (fun i '(off, root, wa, ta, pa, tr, lf) => off = 11232 + 2272 * i /\ bytes_ok root /\ zlen root = 32 /\ 0 <= tr < 2 ^ 64 /\ 0 <= lf < 16 /\
      (exists l T kp c x, wa = A l T 0 kp c [0;0;0;x] /\ zlen T = 8) /\ (exists l T c W, ta = A l T 2 0 c W /\ zlen T = 8 /\ zlen W = 4) /\ (exists l T kp, pa = A l T 1 kp 0 [0;0;0;0] /\ zlen T = 8) /\
      ht_root_of_sig H ps 17 0 M0 (slice sig 11232 38624) t leaf = ht_root_of_sig H ps (Z.to_nat (17 - i)) i root (slice sig off (49856 - off)) tr lf)); [unfold SPX_D; lia| | |].
  - split; [reflexivity|]. split; [apply fors_pk_bytes|]. split; [apply fors_pk_len|]. split; [exact Ht|]. split; [exact Hlf|]. split; [|split; [|split]].
    + do 5 eexists. split; [reflexivity|]. apply zlen_be_bytes.
    + exists 0, (zeros 8), 0, [0;0;0;0]. repeat split.
    + exists 0, (zeros 8), 0. repeat split.
    + change (Z.to_nat (17 - 0)) with 17%nat. change (49856 - (32 + 11200)) with 38624. change (32 + 11200) with 11232. reflexivity.
  - unfold SPX_D. intros i [[[[[[off root] wa] ta] pa] tr] lf] Hi (-> & Hrb' & Hrl & Htr & Hlf' & (l1 & T1 & k1 & c1 & x1 & -> & HT1) & (l2 & T2 & c2 & W2 & -> & HT2 & HW2) & (l3 & T3 & k3 & -> & HT3) & E).
    unfold verify_layer. rewrite set_layer_A by assumption. rewrite set_tree_A by (try assumption; lia). rewrite copy_subtree_A by (try assumption; try apply zlen_be_bytes; reflexivity). rewrite set_kp_A by (try assumption; try apply zlen_be_bytes; reflexivity). rewrite !u8_id by lia.
    rewrite copy_keypair_A by (try assumption; try apply zlen_be_bytes; try reflexivity; lia). apply wp_bind.
    eapply wp_mono; [apply (wots_pk_from_sig_ok H HH HB {| pub_seed := ps; sk_seed := ss |}); try assumption; lia|]. cbn [pub_seed]. intros [wpk wa'] (Ew & (c' & x' & ->)). cbv beta. unfold SPX_WOTS_BYTES, SPX_TREE_HEIGHT, SPX_N.
    apply wp_bind. eapply wp_mono; [apply (compute_root_ok H {| pub_seed := ps; sk_seed := ss |} (A i (be_bytes 8 tr) 2 0 c2 W2)); [apply zlen_A; [apply zlen_be_bytes|assumption]|apply tbase_refl, zlen_A; [apply zlen_be_bytes|assumption]|lia|change (2 ^ 32) with 4294967296; lia|lia|change (2 ^ 32) with 4294967296; lia|lia|lia]|].
    intros [root' ta'] (-> & Hta). apply tbase_A in Hta; [|apply zlen_be_bytes|assumption]. destruct Hta as (c3 & W3 & -> & HW3). apply wp_ret.
    change (Z.to_nat 4) with 4%nat. change (32 * 4) with 128.
    rewrite (climb_ext _ (xmss_hash H ps i tr)) by (intros; rewrite Z.div_0_l by (apply Z.pow_nonzero; lia); rewrite Z.add_0_r; apply (xmss_base H HH HB {| pub_seed := ps; sk_seed := ss |}); (assumption || lia)).
    rewrite thash_Th. cbn [pub_seed]. replace (A i (be_bytes 8 tr) 1 lf 0 [0;0;0;0]) with (adrs_wots_pk i tr lf) by (unfold adrs_wots_pk; rewrite adrs_A by lia; reflexivity). rewrite Ew.
    set (s1 := slice sig (11232 + 2272 * i) (49856 - (11232 + 2272 * i))) in *. assert (Hz1: zlen s1 = 49856 - (11232 + 2272 * i)) by (unfold s1; rewrite zlen_slice; lia).
    assert (Ex: climb (xmss_hash H ps i tr) 4 0 lf (wots_pk_of_sig H ps (slice sig (11232 + 2272 * i) 2144) root i tr lf) (slice sig (11232 + 2272 * i + 2144) 128) = xmss_pk_of_sig H ps lf (slice s1 0 2272) root i tr).
    { unfold xmss_pk_of_sig. rewrite !(slice_slice s1) by lia. unfold s1. rewrite !slice_slice by lia. rewrite ?Z.add_0_l, ?Z.add_0_r. reflexivity. }
    rewrite Ex. set (X := xmss_pk_of_sig H ps lf (slice s1 0 2272) root i tr).
    assert (HX: exists y, X = H y 32) by (unfold X, xmss_pk_of_sig; cbn [climb]; eexists; reflexivity). destruct HX as [y HX].
    change 4 with SPX_TREE_HEIGHT. rewrite tree_next, leaf_next by lia. unfold SPX_TREE_HEIGHT.
    split; [lia|]. split; [rewrite HX; apply HB|]. split; [rewrite HX; apply HH; lia|]. split; [clear -Htr; mlia|]. split; [clear -Htr; mlia|]. split; [|split; [|split]].
    + do 5 eexists. split; [reflexivity|]. apply zlen_be_bytes.
    + do 4 eexists. split; [reflexivity|]. split; [apply zlen_be_bytes|assumption].
    + exists i, (be_bytes 8 tr), lf. split; [unfold adrs_wots_pk; rewrite adrs_A by lia; reflexivity|]. apply zlen_be_bytes.
    + rewrite E. replace (Z.to_nat (17 - i)) with (S (Z.to_nat (17 - (i + 1)))) by lia. rewrite ht_root_S. fold X. rewrite Hz1. replace (slice s1 2272 (49856 - (11232 + 2272 * i) - 2272)) with (slice sig (11232 + 2272 * i + 2144 + 4 * 32) (49856 - (11232 + 2272 * i + 2144 + 4 * 32))); [reflexivity|]. unfold s1. rewrite slice_slice by lia. f_equal; lia.
  - intros [[[[[[off root] wa] ta] pa] tr] lf] (_ & _ & _ & _ & _ & _ & _ & _ & E). cbv beta. unfold SPX_D in E. change (Z.to_nat (17 - 17)) with 0%nat in E. change (ht_root_of_sig H ps 0 17 root (slice sig off (49856 - off)) tr lf) with root in E.
    apply wp_ret. unfold rt. rewrite E. reflexivity.
Qed.

(** ** the specification: every signature produced by signing verifies *)
Theorem slh_correct seed M addrnd : zlen seed = 96 ->
  let '(pk, sk) := slh_keygen H seed in slh_verify H M (slh_sign_sk H M sk addrnd) pk.
Proof.
  intros Hs. unfold slh_keygen. cbv zeta. set (ps := slice seed 64 32). set (ss := slice seed 0 32). set (rt := slh_root H ps ss). assert (Hrt: zlen rt = 32) by apply zlen_slh_root.
  assert (Hps: zlen ps = 32) by (unfold ps; rewrite zlen_slice; lia). unfold slh_verify, slh_sign_sk.
  rewrite !(slice_app_l seed rt) by lia. rewrite (slice_app_r seed rt) by lia. rewrite Hs. change (96 - 96) with 0. rewrite (slice_all rt) by lia. rewrite (slice_app_l ps rt) by lia. rewrite (slice_all ps) by lia. rewrite (slice_app_r ps rt) by lia. rewrite Hps, Z.sub_diag. rewrite (slice_all rt) by lia.
  fold ps ss. set (prf := slice seed 32 32). split; [apply (zlen_slh_sign H HH HB)|].
  unfold slh_verify_root, slh_sign. cbv zeta. set (R := H (prf ++ addrnd ++ M) 32). assert (HR: zlen R = 32) by (apply HH; lia). set (dg := H_msg H ps R rt M). pose proof (digest_tree_range dg) as Ht. pose proof (digest_leaf_range dg) as Hlf.
  set (md := digest_md dg). set (t := digest_tree dg) in *. set (leaf := digest_leaf dg) in *. set (sf := SpxSpec.fors_sign H ps ss md t leaf). assert (Hsf: zlen sf = 11200) by apply (zlen_fors_sign H HH HB).
  set (h := ht_sign H ps ss 17 0 (fors_pk_of_sig H ps sf md t leaf) t leaf). assert (Hh: zlen h = 38624) by (unfold h; rewrite (zlen_ht_sign H HH HB); reflexivity).
  rewrite (slice_app_l R _ 0 32) by lia. rewrite (slice_all R) by lia. fold dg. fold md t leaf. rewrite !(slice_app_r R) by lia. rewrite HR. change (32 - 32) with 0. rewrite (slice_app_l sf _ 0 11200) by lia. rewrite (slice_all sf) by lia.
  rewrite (slice_app_r sf) by lia. rewrite Hsf. change (11232 - 32 - 11200) with 0. rewrite (slice_all h) by lia. unfold h. rewrite (ht_root_of_sign H HH HB) by lia. change (0 + Z.of_nat 16) with 16. rewrite Z.div_small; [reflexivity|]. change (16 ^ Z.of_nat 16) with (2 ^ 64). exact Ht.
Qed.
End T.
