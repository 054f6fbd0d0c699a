(** SPHINCS+: addresses, digit extraction, WOTS+ chains and leaves. *)
From Coq Require Import ZifyBool ZifyNat.
From Verif Require Import Base Wp Sha512Spec TweetSha SpxSpec Spx SpxTree.
Local Open Scope Z_scope.
Ltac Zify.zify_post_hook ::= idtac.
Ltac mlia := Z.div_mod_to_equations; lia.

(** ** addresses *)
Definition A (l : Z) (T : list Z) (ty kp c : Z) (W : list Z) : list Z :=
  [0;0;0;l;0;0;0;0] ++ T ++ [0;0;0;ty;0;0;0;kp;0;0;0;c] ++ W.
Lemma list8 (T : list Z) : zlen T = 8 -> exists a b c d e f g h, T = [a;b;c;d;e;f;g;h].
Proof. unfold zlen. intros H. do 8 (destruct T as [|? T]; [cbn [length] in H; lia|]). destruct T; [|cbn [length] in H; lia]. repeat eexists. Qed.
Lemma list4 (T : list Z) : zlen T = 4 -> exists a b c d, T = [a;b;c;d].
Proof. unfold zlen. intros H. do 4 (destruct T as [|? T]; [cbn [length] in H; lia|]). destruct T; [|cbn [length] in H; lia]. repeat eexists. Qed.
Ltac addr_solve T W := 
  let HT := fresh in let HW := fresh in
  intros HT HW; destruct (list8 T HT) as (?&?&?&?&?&?&?&?&->); destruct (list4 W HW) as (?&?&?&?&->); reflexivity.
Lemma set_layer_A l T ty kp c W v : zlen T = 8 -> zlen W = 4 -> set_layer_addr (A l T ty kp c W) v = A (u8 v) T ty kp c W. Proof. addr_solve T W. Qed.
Lemma set_type_A l T ty kp c W v : zlen T = 8 -> zlen W = 4 -> set_type (A l T ty kp c W) v = A l T (u8 v) kp c W. Proof. addr_solve T W. Qed.
Lemma set_kp_A l T ty kp c W v : zlen T = 8 -> zlen W = 4 -> set_keypair_addr (A l T ty kp c W) v = A l T ty (u8 v) c W. Proof. addr_solve T W. Qed.
Lemma set_chain_A l T ty kp c W v : zlen T = 8 -> zlen W = 4 -> set_chain_addr (A l T ty kp c W) v = A l T ty kp (u8 v) W. Proof. addr_solve T W. Qed.
Lemma set_height_A l T ty kp c W v : zlen T = 8 -> zlen W = 4 -> set_tree_height (A l T ty kp c W) v = A l T ty kp (u8 v) W. Proof. addr_solve T W. Qed.
Lemma set_hash_A l T ty kp c x v : zlen T = 8 -> set_hash_addr (A l T ty kp c [0;0;0;x]) v = A l T ty kp c [0;0;0;u8 v].
Proof. intros HT; destruct (list8 T HT) as (?&?&?&?&?&?&?&?&->); reflexivity. Qed.
Lemma set_index_A l T ty kp c W v : zlen T = 8 -> zlen W = 4 -> 0 <= v < 2 ^ 32 -> set_tree_index (A l T ty kp c W) v = A l T ty kp c (be_bytes 4 v).
Proof.
  intros HT HW Hv. unfold set_tree_index. rewrite u32_to_bytes_be by exact Hv. revert HT HW. generalize (be_bytes 4 v). intros b HT HW.
  destruct (list8 T HT) as (?&?&?&?&?&?&?&?&->); destruct (list4 W HW) as (?&?&?&?&->); reflexivity.
Qed.
Lemma ull_loop_be n : forall v acc, 0 <= v -> ull_to_bytes_loop n v acc = be_bytes n v ++ acc.
Proof.
  assert (Hs: forall n v, 0 <= v -> be_bytes (S n) v = be_bytes n (v / 256) ++ [v mod 256]).
  { clear. induction n as [|n IH]; intros v Hv; [cbn [be_bytes app]; change (256 ^ Z.of_nat 0) with 1; rewrite Z.div_1_r; reflexivity|].
    change (be_bytes (S (S n)) v) with ((v / 256 ^ Z.of_nat (S n)) mod 256 :: be_bytes (S n) v). rewrite IH by exact Hv.
    change (be_bytes (S n) (v / 256)) with ((v / 256 / 256 ^ Z.of_nat n) mod 256 :: be_bytes n (v / 256)). cbn [app]. f_equal.
    rewrite Z.div_div by (try lia; apply Z.pow_pos_nonneg; lia). f_equal. f_equal. replace (Z.of_nat (S n)) with (1 + Z.of_nat n) by lia. rewrite Z.pow_add_r, Z.pow_1_r by lia. reflexivity. }
  induction n as [|n IH]; intros v acc Hv; [reflexivity|]. cbn [ull_to_bytes_loop]. rewrite Z.shiftr_div_pow2 by lia. change (2 ^ 8) with 256. rewrite IH by (apply Z.div_pos; lia).
  rewrite Hs by exact Hv. rewrite <- app_assoc. cbn [app]. change 255 with (Z.ones 8). rewrite Z.land_ones by lia. reflexivity.
Qed.
Lemma ull_to_bytes_be n v : 0 <= v -> ull_to_bytes n v = be_bytes n v.
Proof. intros Hv. unfold ull_to_bytes. rewrite ull_loop_be by exact Hv. apply app_nil_r. Qed.
Lemma set_tree_A l T ty kp c W t : zlen T = 8 -> zlen W = 4 -> 0 <= t -> set_tree_addr (A l T ty kp c W) t = A l (be_bytes 8 t) ty kp c W.
Proof.
  intros HT HW Ht. unfold set_tree_addr. rewrite ull_to_bytes_be by exact Ht. revert HT HW. generalize (be_bytes 8 t). intros b HT HW.
  destruct (list8 T HT) as (?&?&?&?&?&?&?&?&->); destruct (list4 W HW) as (?&?&?&?&->); reflexivity.
Qed.
Lemma copy_subtree_A l T ty kp c W l' T' ty' kp' c' W' : zlen T = 8 -> zlen W = 4 -> zlen T' = 8 -> zlen W' = 4 ->
  copy_subtree_addr (A l T ty kp c W) (A l' T' ty' kp' c' W') = A l' T' ty kp c W.
Proof.
  intros HT HW HT' HW'. destruct (list8 T HT) as (?&?&?&?&?&?&?&?&->); destruct (list4 W HW) as (?&?&?&?&->).
  destruct (list8 T' HT') as (?&?&?&?&?&?&?&?&->); destruct (list4 W' HW') as (?&?&?&?&->); reflexivity.
Qed.
Lemma copy_keypair_A l T ty kp c W l' T' ty' kp' c' W' : zlen T = 8 -> zlen W = 4 -> zlen T' = 8 -> zlen W' = 4 -> 0 <= kp' < 256 ->
  copy_keypair_addr (A l T ty kp c W) (A l' T' ty' kp' c' W') = A l' T' ty kp' c W.
Proof.
  intros HT HW HT' HW' Hk. replace (A l' T' ty kp' c W) with (A l' T' ty (u8 kp') c W) by (unfold u8; rewrite Z.mod_small by (change (2 ^ 8) with 256; lia); reflexivity).
  destruct (list8 T HT) as (?&?&?&?&?&?&?&?&->); destruct (list4 W HW) as (?&?&?&?&->).
  destruct (list8 T' HT') as (?&?&?&?&?&?&?&?&->); destruct (list4 W' HW') as (?&?&?&?&->); reflexivity.
Qed.
Lemma addr0_A : addr0 = A 0 (zeros 8) 0 0 0 [0;0;0;0]. Proof. reflexivity. Qed.
Lemma zlen_A l T ty kp c W : zlen T = 8 -> zlen W = 4 -> zlen (A l T ty kp c W) = 32.
Proof. intros HT HW. unfold A. rewrite !zlen_app, HT, HW. reflexivity. Qed.
Lemma tad_A l T ty kp c W z i : zlen T = 8 -> zlen W = 4 -> tad (A l T ty kp c W) z i = A l T ty kp z (be_bytes 4 i).
Proof. intros HT HW. unfold tad. generalize (be_bytes 4 i). intros b. destruct (list8 T HT) as (?&?&?&?&?&?&?&?&->); destruct (list4 W HW) as (?&?&?&?&->); reflexivity. Qed.
Lemma tbase_A l T ty kp c W a : zlen T = 8 -> zlen W = 4 -> tbase (A l T ty kp c W) a -> exists c' W', a = A l T ty kp c' W' /\ zlen W' = 4.
Proof.
  intros HT HW [HL HS]. assert (E: a = slice a 0 27 ++ slice a 27 5) by (change (slice a 27 5) with (slice a (0 + 27) (32 - 27)); rewrite <- (slice_split a 0 32 27) by lia; symmetry; apply slice_all; lia).
  rewrite HS in E. assert (Hz: zlen (slice a 27 5) = 5) by (rewrite zlen_slice; lia). revert E Hz. generalize (slice a 27 5). intros r E Hz. subst a.
  destruct r as [|c' W']; [cbv in Hz; lia|]. rewrite zlen_cons in Hz. exists c', W'. split; [|lia].
  destruct (list8 T HT) as (?&?&?&?&?&?&?&?&->); destruct (list4 W HW) as (?&?&?&?&->); reflexivity.
Qed.
Lemma be_bytes_small x : 0 <= x < 256 -> be_bytes 4 x = [0;0;0;x].
Proof.
  intros H. cbn [be_bytes]. change (256 ^ Z.of_nat 3) with 16777216. change (256 ^ Z.of_nat 2) with 65536. change (256 ^ Z.of_nat 1) with 256. change (256 ^ Z.of_nat 0) with 1.
  rewrite !Z.div_small by lia. rewrite Z.div_1_r, (Z.mod_small x) by lia. reflexivity.
Qed.
Lemma be_bytes_tree t : 0 <= t < 2 ^ 64 -> be_bytes 12 t = [0;0;0;0] ++ be_bytes 8 t.
Proof.
  intros H. change (be_bytes 12 t) with ([(t / 256 ^ 11) mod 256; (t / 256 ^ 10) mod 256; (t / 256 ^ 9) mod 256; (t / 256 ^ 8) mod 256] ++ be_bytes 8 t).
  assert (H8: 2 ^ 64 = 256 ^ 8) by reflexivity. rewrite H8 in H. assert (H9: 256 ^ 8 < 256 ^ 9 < 256 ^ 10) by (vm_compute; split; reflexivity). assert (H11: 256 ^ 10 < 256 ^ 11) by reflexivity.
  rewrite !Z.div_small by lia. reflexivity.
Qed.
Lemma adrs_A l t ty kp c h : 0 <= l < 256 -> 0 <= t < 2 ^ 64 -> 0 <= ty < 256 -> 0 <= kp < 256 -> 0 <= c < 256 ->
  adrs l t ty kp c h = A l (be_bytes 8 t) ty kp c (be_bytes 4 h).
Proof. intros Hl Ht Hty Hk Hc. unfold adrs, A. rewrite (be_bytes_small l), (be_bytes_small ty), (be_bytes_small kp), (be_bytes_small c), be_bytes_tree by lia. rewrite <- !app_assoc. reflexivity. Qed.
Lemma u8_id v : 0 <= v < 256 -> u8 v = v. Proof. intros H. unfold u8. apply Z.mod_small. exact H. Qed.

(** ** zseq *)
Lemma zseq_S n : zseq (S n) = zseq n ++ [Z.of_nat n].
Proof. unfold zseq. rewrite seq_S, map_app. reflexivity. Qed.
Lemma zlen_zseq n : zlen (zseq n) = Z.of_nat n. Proof. unfold zseq, zlen. rewrite map_length, seq_length. reflexivity. Qed.
Lemma nth_map_zseq (f : Z -> Z) n i : 0 <= i < Z.of_nat n -> nth (Z.to_nat i) (map f (zseq n)) 0 = f i.
Proof.
  intros H. unfold zseq. rewrite map_map. rewrite (nth_indep _ 0 (f (Z.of_nat 0))) by (rewrite map_length, seq_length; lia). rewrite (map_nth (fun x => f (Z.of_nat x))). rewrite seq_nth by lia. f_equal. lia.
Qed.
Lemma in_zseq n i : In i (zseq n) <-> 0 <= i < Z.of_nat n.
Proof. unfold zseq. rewrite in_map_iff. split; [intros (k & <- & Hk); apply in_seq in Hk; lia|]. intros H. exists (Z.to_nat i). rewrite in_seq. lia. Qed.
Lemma zseq_to_nat_S k : 0 <= k -> zseq (Z.to_nat (k + 1)) = zseq (Z.to_nat k) ++ [k].
Proof. intros H. replace (Z.to_nat (k + 1)) with (S (Z.to_nat k)) by lia. rewrite zseq_S. rewrite Z2Nat.id by lia. reflexivity. Qed.

(** ** bits of a big-endian byte string *)
Lemma be_val_nonneg l : bytes_ok l -> 0 <= be_val l. Proof. intros H. pose proof (be_val_range l H). lia. Qed.
Lemma be_val_testbit l : bytes_ok l -> forall p, 0 <= p < 8 * zlen l -> Z.testbit (be_val l) p = Z.testbit (znth l (zlen l - 1 - p / 8)) (p mod 8).
Proof.
  induction l as [|x l IH] using rev_ind; intros HB p Hp; [change (zlen (@nil Z)) with 0 in Hp; lia|]. apply bytes_ok_app in HB. destruct HB as [HB Hx]. inversion Hx as [|? ? Hx' _]; subst.
  rewrite be_val_snoc. rewrite zlen_app in *. change (zlen [x]) with 1 in *. unfold byte_ok in Hx'.
  assert (Hnc: 256 * be_val l + x = Z.lor (Z.shiftl (be_val l) 8) x).
  { rewrite Z.shiftl_mul_pow2 by lia. rewrite <- Z.lxor_lor, <- Z.add_nocarry_lxor; try (change (2 ^ 8) with 256; lia);
    apply Z.bits_inj'; intros k Hk; rewrite Z.land_spec, Z.bits_0, <- Z.shiftl_mul_pow2, Z.shiftl_spec by lia;
    (destruct (Z.lt_ge_cases k 8); [rewrite (Z.testbit_neg_r _ (k - 8)) by lia; reflexivity|]);
    rewrite (Z.bits_above_log2 x); [apply Bool.andb_false_r|lia| |apply Bool.andb_false_r|lia|];
    (destruct (Z.eq_dec x 0) as [->|]; [cbn; lia|]; apply Z.log2_lt_pow2; [lia|]; pose proof (Z.pow_le_mono_r 2 8 k); change (2 ^ 8) with 256 in *; lia). }
  rewrite Hnc, Z.lor_spec, Z.shiftl_spec by lia. destruct (Z.lt_ge_cases p 8) as [h|h].
  - rewrite (Z.testbit_neg_r _ (p - 8)) by lia. rewrite Z.div_small, Z.mod_small by lia. rewrite Bool.orb_false_l. f_equal. unfold znth. rewrite app_nth2 by (unfold zlen in *; lia). unfold zlen.
    replace (Z.to_nat (Z.of_nat (length l) + 1 - 1 - 0) - length l)%nat with 0%nat by lia. reflexivity.
  - rewrite IH by (try assumption; lia). rewrite (Z.bits_above_log2 x); [|lia|].
    + rewrite Bool.orb_false_r. replace ((p - 8) / 8) with (p / 8 - 1) by (clear; mlia). replace ((p - 8) mod 8) with (p mod 8) by (clear; mlia). f_equal. unfold znth. pose proof (zlen_nonneg l).
      rewrite app_nth1; [f_equal; lia|]. assert (1 <= p / 8) by (clear -h; mlia). unfold zlen in *. lia.
    + destruct (Z.eq_dec x 0) as [->|]; [cbn; lia|]. apply Z.log2_lt_pow2; [lia|]. pose proof (Z.pow_le_mono_r 2 8 p). change (2 ^ 8) with 256 in *. lia.
Qed.
Lemma group_testbit V p b k : 0 <= p -> 0 <= b -> 0 <= k -> Z.testbit ((V / 2 ^ p) mod 2 ^ b) k = (k <? b) && Z.testbit V (p + k).
Proof.
  intros Hp Hb Hk. rewrite <- Z.land_ones by lia. rewrite Z.land_spec, <- Z.shiftr_div_pow2 by lia. rewrite Z.shiftr_spec by lia. rewrite (Z.add_comm k p).
  destruct (Z.ltb_spec k b); [rewrite Z.ones_spec_low by lia|rewrite Z.ones_spec_high by lia]; cbn [andb]; [apply Bool.andb_true_r|apply Bool.andb_false_r].
Qed.
Lemma nibble X j : bytes_ok X -> 0 <= j < 2 * zlen X -> Z.land (Z.shiftr (znth X (j / 2)) (4 * (1 - j mod 2))) 15 = (be_val X / 2 ^ (8 * zlen X - 4 * (j + 1))) mod 2 ^ 4.
Proof.
  intros HB Hj. apply Z.bits_inj'. intros k Hk. rewrite group_testbit by lia. change 15 with (Z.ones 4). rewrite Z.land_spec.
  destruct (Z.ltb_spec k 4); [rewrite Z.ones_spec_low by lia|rewrite Z.ones_spec_high by lia; apply Bool.andb_false_r]. rewrite Bool.andb_true_r. cbn [andb].
  rewrite Z.shiftr_spec by lia. rewrite be_val_testbit; [|exact HB|lia]. f_equal; [f_equal|]; mlia.
Qed.
Lemma base_w_ok n X : bytes_ok X -> 0 <= n <= 2 * zlen X -> base_w n X = Ret (base_2b X 4 (Z.to_nat n)).
Proof.
  intros HB Hn. apply wp_is. unfold base_w. apply wp_bind.
  eapply (wp_for_loop (fun j '(inn, total, bits, out) => inn = (j + 1) / 2 /\ bits = 4 * (j mod 2) /\ (j mod 2 = 1 -> total = znth X (j / 2)) /\ out = base_2b X 4 (Z.to_nat j))); [lia| | |].
  - split; [reflexivity|]. split; [reflexivity|]. split; [cbn; lia|reflexivity].
  - intros j [[[inn total] bits] out] Hj (-> & -> & Ht & ->). apply wp_bind.
    apply (wp_mono _ (fun '(inn, total, bits) => inn = (j + 2) / 2 /\ total = znth X (j / 2) /\ bits = 4 * (1 - j mod 2) + 4)).
    + destruct (Z.eqb_spec (4 * (j mod 2)) 0).
      * apply wp_bind, wp_rd; [mlia|]. apply wp_ret. split; [mlia|]. split; [f_equal; mlia|mlia].
      * apply wp_ret. split; [mlia|]. split; [apply Ht; mlia|mlia].
    + intros [[inn total'] bits] (-> & -> & ->). apply wp_ret. split; [f_equal; lia|]. split; [mlia|]. split; [intros; f_equal; mlia|].
      unfold base_2b. rewrite zseq_to_nat_S by lia. rewrite map_app. f_equal. cbn [map]. f_equal. replace (4 * (1 - j mod 2) + 4 - 4) with (4 * (1 - j mod 2)) by lia. apply nibble; [exact HB|lia].
  - intros [[[inn total] bits] out] (_ & _ & _ & ->). apply wp_ret. reflexivity.
Qed.
Lemma zlen_base_2b X b n : zlen (base_2b X b n) = Z.of_nat n. Proof. unfold base_2b. rewrite zlen_map. apply zlen_zseq. Qed.
Lemma base_2b_nth X b n i : 0 <= i < Z.of_nat n -> znth (base_2b X b n) i = (be_val X / 2 ^ (8 * zlen X - b * (i + 1))) mod 2 ^ b.
Proof. intros H. unfold znth, base_2b. rewrite nth_map_zseq by exact H. reflexivity. Qed.
Lemma base_2b_range X b n i : 0 <= b -> 0 <= znth (base_2b X b n) i < 2 ^ b.
Proof.
  intros Hb. pose proof (Z.pow_pos_nonneg 2 b). destruct (Z.lt_ge_cases (Z.max 0 i) (Z.of_nat n)) as [h|h].
  - replace (znth (base_2b X b n) i) with (znth (base_2b X b n) (Z.max 0 i)) by (unfold znth; f_equal; lia). rewrite base_2b_nth by lia. apply Z.mod_pos_bound. lia.
  - unfold znth. rewrite nth_overflow; [lia|]. pose proof (zlen_base_2b X b n) as HL. unfold zlen in HL. lia.
Qed.

Lemma csum_range l : Forall (fun d => 0 <= d < 16) l -> 0 <= csum l <= 15 * zlen l.
Proof. induction 1; cbn [csum fold_right]; [change (zlen (@nil Z)) with 0; lia|]. rewrite zlen_cons. fold (csum l). lia. Qed.
Lemma csum_app a b : csum (a ++ b) = csum a + csum b.
Proof. unfold csum. induction a as [|x a IH]; cbn [app fold_right]; [lia|]. rewrite IH. lia. Qed.
Lemma Forall_znth (P : Z -> Prop) l : (forall i, 0 <= i < zlen l -> P (znth l i)) -> Forall P l.
Proof.
  intros H. apply Forall_forall. intros x Hx. apply (In_nth _ _ 0) in Hx. destruct Hx as (n & Hn & <-). specialize (H (Z.of_nat n)). unfold znth in H. rewrite Nat2Z.id in H. apply H. unfold zlen. lia.
Qed.
Lemma base_2b_digits X n : Forall (fun d => 0 <= d < 16) (base_2b X 4 n).
Proof. apply Forall_znth. intros i _. apply (base_2b_range X 4 n i). lia. Qed.
Lemma pre_S l i : 0 <= i < zlen l -> pre l (i + 1) = pre l i ++ [znth l i].
Proof. intros H. unfold pre, znth. replace (Z.to_nat (i + 1)) with (S (Z.to_nat i)) by lia. apply firstn_S_nth. unfold zlen in H. lia. Qed.
Lemma Forall_pre (P : Z -> Prop) l i : Forall P l -> Forall P (pre l i). Proof. apply Forall_firstn'. Qed.

Lemma chain_lengths_ok M : bytes_ok M -> zlen M = 32 -> chain_lengths M = Ret (wots_digits M).
Proof.
  intros HB HL. unfold chain_lengths. unfold SPX_WOTS_LEN1. rewrite base_w_ok by (try assumption; lia). cbn [bind].
  change (Z.to_nat 64) with 64%nat. unfold wots_digits. pose proof (base_2b_digits M 64) as HD. pose proof (zlen_base_2b M 4 64) as HZ. change (Z.of_nat 64) with 64 in HZ. set (D := base_2b M 4 64) in *. clearbody D.
  assert (HC: for_loop SPX_WOTS_LEN1 (fun i csum => m <- rd 0 D i ;; Ret (u32 (csum + u32 (15 - m)))) 0 = Ret (csum D)).
  { apply wp_is. eapply (wp_for_loop (fun i s => s = csum (pre D i))); [unfold SPX_WOTS_LEN1; lia|reflexivity| |].
    - intros j s Hj ->. unfold SPX_WOTS_LEN1 in Hj. apply wp_bind, wp_rd; [lia|]. apply wp_ret. rewrite pre_S, csum_app by lia. cbn [csum fold_right].
      assert (Hd: 0 <= znth D j < 16) by (rewrite Forall_forall in HD; apply HD; unfold znth; apply nth_In; unfold zlen in HZ; lia).
      pose proof (csum_range (pre D j) (Forall_pre _ _ _ HD)) as Hr. assert (zlen (pre D j) = j) by (unfold pre; rewrite zlen_firstn; lia).
      unfold u32. rewrite (Z.mod_small (15 - _)) by (change (2 ^ 32) with 4294967296; lia). rewrite Z.mod_small by (change (2 ^ 32) with 4294967296; lia). lia.
    - intros s ->. f_equal. unfold pre. apply firstn_all2. unfold zlen in HZ. unfold SPX_WOTS_LEN1. lia. }
  unfold wots_checksum. rewrite HC. cbn [bind]. pose proof (csum_range D HD) as Hr. rewrite Z.shiftl_mul_pow2 by lia.
  unfold u32. change (2 ^ 4) with 16. rewrite Z.mod_small by (change (2 ^ 32) with 4294967296; lia). rewrite ull_to_bytes_be by lia. unfold SPX_WOTS_LEN2. rewrite base_w_ok; [|apply be_bytes_ok|rewrite zlen_be_bytes; lia].
  cbn [bind]. rewrite (Z.mul_comm 16). reflexivity.
Qed.
Lemma zlen_wots_digits M : zlen (wots_digits M) = 67. Proof. unfold wots_digits. rewrite zlen_app, !zlen_base_2b. reflexivity. Qed.
Lemma wots_digits_range M : Forall (fun d => 0 <= d < 16) (wots_digits M).
Proof. unfold wots_digits. apply Forall_app. split; apply base_2b_digits. Qed.
Lemma wots_digit_range M c : 0 <= nth (Z.to_nat c) (wots_digits M) 0 < 16.
Proof.
  destruct (Nat.lt_ge_cases (Z.to_nat c) (length (wots_digits M))) as [h|h]; [|rewrite nth_overflow by lia; lia].
  pose proof (wots_digits_range M) as HF. rewrite Forall_forall in HF. apply HF. apply nth_In. exact h.
Qed.

Lemma zseq_base X b i : 0 <= i -> base_2b X b (Z.to_nat (i + 1)) = base_2b X b (Z.to_nat i) ++ [(be_val X / 2 ^ (8 * zlen X - b * (i + 1))) mod 2 ^ b].
Proof. intros H. unfold base_2b. rewrite zseq_to_nat_S by exact H. rewrite map_app. reflexivity. Qed.

(** ** message_to_indices *)
Lemma message_to_indices_ok m : bytes_ok m -> zlen m = 40 -> message_to_indices m = Ret (base_2b m 9 35).
Proof.
  intros HB HL. apply wp_is. unfold message_to_indices. apply wp_bind. unfold SPX_FORS_TREES, SPX_FORS_HEIGHT.
  eapply (wp_for_loop (fun i '(offset, out) => offset = 9 * i /\ out = base_2b m 9 (Z.to_nat i))); [lia|split; reflexivity| |].
  2:{ intros [offset out] [_ ->]. apply wp_ret. reflexivity. }
  intros i [offset out] Hi [-> ->]. apply wp_bind.
  eapply (wp_for_loop (fun j '(offset, x) => offset = 9 * i + j /\ forall k, 0 <= k -> Z.testbit x k = (8 - j <? k) && (k <=? 8) && Z.testbit (be_val m) (8 * 40 - 9 * (i + 1) + k))); [lia| | |].
  - split; [lia|]. intros k Hk. rewrite Z.bits_0. destruct (Z.ltb_spec (8 - 0) k), (Z.leb_spec k 8); try lia; reflexivity.
  - intros j [offset x] Hj [-> Hx]. assert (Hr: 0 <= Z.shiftr (9 * i + j) 3 < 40) by (rewrite Z.shiftr_div_pow2 by lia; change (2 ^ 3) with 8; mlia).
    apply wp_bind, wp_rd; [lia|]. apply wp_ret. split; [lia|]. intros k Hk. rewrite Z.lxor_spec, Hx by exact Hk.
    assert (Hbit: Z.land (Z.shiftr (znth m (Z.shiftr (9 * i + j) 3)) (Z.land (Z.lnot (9 * i + j)) 7)) 1 = Z.b2z (Z.testbit (be_val m) (8 * 40 - 1 - (9 * i + j)))).
    { rewrite be_val_testbit by (try assumption; lia). rewrite HL. rewrite (Z.shiftr_div_pow2 (9 * i + j) 3) by lia. change (2 ^ 3) with 8. change 7 with (Z.ones 3). rewrite Z.land_ones by lia. unfold Z.lnot, Z.pred. change (2 ^ 3) with 8.
      set (o := 9 * i + j) in *. replace ((- o + -1) mod 8) with ((8 * 40 - 1 - o) mod 8) by (clear; mlia). replace (o / 8) with (40 - 1 - (8 * 40 - 1 - o) / 8) by (clear; mlia).
      set (y := znth m _). set (q := (8 * 40 - 1 - o) mod 8) in *. assert (0 <= q) by (unfold q; mlia). clearbody y q.
      rewrite land1_mod. rewrite <- Z.bit0_mod. rewrite Z.shiftr_spec by lia. rewrite Z.add_0_l. reflexivity. }
    rewrite Hbit. rewrite Z.shiftl_spec by lia. destruct (Z.eq_dec k (8 - j)) as [->|Hne].
    + replace (8 - j - (9 - 1 - j)) with 0 by lia. rewrite Z.b2z_bit0.
      destruct (Z.ltb_spec (8 - j) (8 - j)); [lia|]. destruct (Z.ltb_spec (8 - (j + 1)) (8 - j)); [|lia]. destruct (Z.leb_spec (8 - j) 8); [|lia]. cbn [andb]. rewrite Bool.xorb_false_l. f_equal. lia.
    + replace (Z.testbit (Z.b2z _) (k - (9 - 1 - j))) with false.
      2:{ symmetry. destruct (Z.lt_ge_cases (k - (9 - 1 - j)) 0); [apply Z.testbit_neg_r; lia|]. apply Z.bits_above_log2; destruct (Z.testbit _ _); cbn [Z.b2z]; change (Z.log2 1) with 0; change (Z.log2 0) with 0; lia. }
      rewrite Bool.xorb_false_r. f_equal. f_equal. lia.
  - intros [offset x] [-> Hx]. apply wp_ret. split; [lia|]. rewrite zseq_base by lia. f_equal. f_equal. apply Z.bits_inj'. intros k Hk. rewrite Hx by exact Hk. rewrite group_testbit by lia. rewrite HL.
    destruct (Z.ltb_spec (8 - 9) k); [|lia]. cbn [andb]. f_equal. lia.
Qed.
