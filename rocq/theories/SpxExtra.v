(** SPHINCS+: the WOTS+ checksum, and injectivity of the address encoding. *)
From Coq Require Import ZifyBool ZifyNat.
From Verif Require Import Base Wp Sha512Spec TweetSha SpxSpec Spx SpxTree SpxWots.
Local Open Scope Z_scope.
Ltac Zify.zify_post_hook ::= idtac.
Ltac mlia := Z.div_mod_to_equations; lia.

Lemma be_val_inj : forall a b, bytes_ok a -> bytes_ok b -> zlen a = zlen b -> be_val a = be_val b -> a = b.
Proof.
  induction a as [|x a IH] using rev_ind; intros b Ha Hb Hl E.
  - destruct b as [|y b]; [reflexivity|]. rewrite zlen_cons in Hl. change (zlen (@nil Z)) with 0 in Hl. pose proof (zlen_nonneg b). lia.
  - destruct b as [|y b _] using rev_ind; [rewrite zlen_app in Hl; change (zlen [x]) with 1 in Hl; change (zlen (@nil Z)) with 0 in Hl; pose proof (zlen_nonneg a); lia|].
    rewrite !be_val_snoc in E. rewrite !zlen_app in Hl. change (zlen [x]) with 1 in Hl. change (zlen [y]) with 1 in Hl.
    apply bytes_ok_app in Ha as [Ha1 Ha2]. apply bytes_ok_app in Hb as [Hb1 Hb2]. inversion Ha2 as [|? ? Hx _]; subst. inversion Hb2 as [|? ? Hy _]; subst. unfold byte_ok in Hx, Hy.
    assert (be_val a = be_val b /\ x = y) as [E1 ->] by lia. rewrite (IH b) by (assumption || lia). reflexivity.
Qed.

Lemma digits_inj b : 1 < b -> forall n x y, 0 <= x < b ^ Z.of_nat n -> 0 <= y < b ^ Z.of_nat n ->
  (forall k, 0 <= k < Z.of_nat n -> (x / b ^ k) mod b = (y / b ^ k) mod b) -> x = y.
Proof.
  intros Hb. induction n as [|n IH]; intros x y Hx Hy E; [change (b ^ Z.of_nat 0) with 1 in *; lia|].
  assert (Hp: b ^ Z.of_nat (S n) = b * b ^ Z.of_nat n) by (replace (Z.of_nat (S n)) with (Z.of_nat n + 1) by lia; rewrite Z.pow_add_r by lia; lia).
  assert (Hpos: 0 < b ^ Z.of_nat n) by (apply Z.pow_pos_nonneg; lia). rewrite Hp in *.
  assert (Eq: x / b = y / b).
  { apply IH.
    - split; [apply Z.div_pos; lia|]. apply Z.div_lt_upper_bound; lia.
    - split; [apply Z.div_pos; lia|]. apply Z.div_lt_upper_bound; lia.
    - intros k Hk. assert (0 < b ^ k) by (apply Z.pow_pos_nonneg; lia). rewrite !Z.div_div by lia. replace (b * b ^ k) with (b ^ (k + 1)) by (rewrite Z.pow_add_r by lia; lia). apply E. lia. }
  pose proof (E 0 ltac:(lia)) as E0. rewrite Z.pow_0_r, !Z.div_1_r in E0.
  rewrite (Z.div_mod x b), (Z.div_mod y b) by lia. rewrite Eq, E0. reflexivity.
Qed.

Lemma base_2b_inj a b : bytes_ok a -> bytes_ok b -> zlen a = 32 -> zlen b = 32 -> base_2b a 4 64 = base_2b b 4 64 -> a = b.
Proof.
  intros Ha Hb La Lb E. pose proof (be_val_range a Ha) as Ra. pose proof (be_val_range b Hb) as Rb. rewrite La in Ra. rewrite Lb in Rb.
  apply be_val_inj; [assumption|assumption|lia|]. apply (digits_inj 16 ltac:(lia) 64).
  - change (16 ^ Z.of_nat 64) with (256 ^ 32). exact Ra.
  - change (16 ^ Z.of_nat 64) with (256 ^ 32). exact Rb.
  - intros k Hk. pose proof (base_2b_nth a 4 64 (63 - k) ltac:(lia)) as Ea. pose proof (base_2b_nth b 4 64 (63 - k) ltac:(lia)) as Eb.
    rewrite La in Ea. rewrite Lb in Eb. rewrite E in Ea. rewrite Ea in Eb. replace (8 * 32 - 4 * (63 - k + 1)) with (4 * k) in Eb by lia.
    rewrite Z.pow_mul_r in Eb by lia. exact Eb.
Qed.

Lemma csum_mono : forall a b, length a = length b -> (forall c, 0 <= c < zlen a -> znth a c <= znth b c) -> csum b <= csum a /\ (csum a = csum b -> a = b).
Proof.
  induction a as [|x a IH]; intros [|y b] Hl Hc; cbn [length] in Hl; try discriminate; [split; [lia|reflexivity]|].
  assert (Hxy: x <= y) by (apply (Hc 0); rewrite zlen_cons; pose proof (zlen_nonneg a); lia).
  destruct (IH b ltac:(lia)) as [I1 I2].
  { intros c Hc'. specialize (Hc (c + 1)). rewrite zlen_cons in Hc. specialize (Hc ltac:(lia)). unfold znth in *. replace (Z.to_nat (c + 1)) with (S (Z.to_nat c)) in Hc by lia. exact Hc. }
  cbn [csum fold_right]. fold (csum a) (csum b). split; [lia|]. intros E. f_equal; [lia|]. apply I2. lia.
Qed.

(** If no chain of [M'] is shorter than the corresponding chain of [M], the digests are equal. *)
Lemma wots_digits_antichain M M' : bytes_ok M -> bytes_ok M' -> zlen M = 32 -> zlen M' = 32 ->
  (forall c, 0 <= c < 67 -> znth (wots_digits M) c <= znth (wots_digits M') c) -> M = M'.
Proof.
  intros HM HM' LM LM' Hc. unfold wots_digits in Hc. set (D := base_2b M 4 64) in *. set (D' := base_2b M' 4 64) in *.
  assert (HLD: zlen D = 64) by apply zlen_base_2b. assert (HLD': zlen D' = 64) by apply zlen_base_2b.
  assert (RD: Forall (fun d => 0 <= d < 16) D) by (apply (base_2b_digits M 64)). assert (RD': Forall (fun d => 0 <= d < 16) D') by (apply (base_2b_digits M' 64)).
  pose proof (csum_range D RD) as C1. pose proof (csum_range D' RD') as C2. rewrite HLD in C1. rewrite HLD' in C2.
  destruct (csum_mono D D') as [Hle Heq].
  { unfold zlen in *. lia. }
  { intros c Hc'. rewrite HLD in Hc'. specialize (Hc c ltac:(lia)). unfold znth in *. rewrite !app_nth1 in Hc by (unfold zlen in *; lia). exact Hc. }
  apply base_2b_inj; try assumption. apply Heq.
  assert (Hd: forall (X : list Z) e j, zlen X = 64 -> 0 <= j < 3 -> 0 <= e <= 960 -> znth (X ++ base_2b (be_bytes 2 (16 * e)) 4 3) (64 + j) = (e / 16 ^ (2 - j)) mod 16).
  { intros X e j HX Hj He. unfold znth. rewrite app_nth2 by (unfold zlen in *; lia). replace (Z.to_nat (64 + j) - length X)%nat with (Z.to_nat j) by (unfold zlen in *; lia).
    change (nth (Z.to_nat j) ?l 0) with (znth l j). rewrite (base_2b_nth _ 4 3 j) by lia. rewrite zlen_be_bytes.
    assert (Hv: be_val (be_bytes 2 (16 * e)) = 16 * e).
    { cbv [be_bytes be_val rev seq map app fold_left]. change (256 ^ Z.of_nat 0) with 1. change (256 ^ Z.of_nat 1) with 256. clear -He. mlia. }
    rewrite Hv. change (Z.of_nat 2) with 2. replace (8 * 2 - 4 * (j + 1)) with (4 + 4 * (2 - j)) by lia. rewrite Z.pow_add_r, Z.pow_mul_r by lia. change (2 ^ 4) with 16. rewrite <- Z.div_div by (try lia; apply Z.pow_pos_nonneg; lia). rewrite (Z.mul_comm 16 e), Z.div_mul by lia. reflexivity. }
  pose proof (Hc 64 ltac:(lia)) as K0. pose proof (Hc 65 ltac:(lia)) as K1. pose proof (Hc 66 ltac:(lia)) as K2.
  change 64 with (64 + 0) in K0. change 65 with (64 + 1) in K1. change 66 with (64 + 2) in K2. rewrite !Hd in K0, K1, K2 by (assumption || lia).
  change (16 ^ (2 - 0)) with 256 in K0. change (16 ^ (2 - 1)) with 16 in K1. change (16 ^ (2 - 2)) with 1 in K2. rewrite !Z.div_1_r in K2.
  clear -K0 K1 K2 C1 C2 Hle. mlia.
Qed.

(** ** addresses *)
Lemma be_bytes_head n x x' r r' : 0 <= x < 256 ^ Z.of_nat n -> 0 <= x' < 256 ^ Z.of_nat n -> be_bytes n x ++ r = be_bytes n x' ++ r' -> x = x' /\ r = r'.
Proof.
  intros Hx Hx' E. pose proof (f_equal (firstn n) E) as E1. pose proof (f_equal (skipn n) E) as E2.
  rewrite !firstn_app, !be_bytes_length, Nat.sub_diag, !firstn_O, !app_nil_r, (firstn_all2 (be_bytes n x)), (firstn_all2 (be_bytes n x')) in E1 by (rewrite be_bytes_length; lia).
  rewrite !skipn_app, !be_bytes_length, Nat.sub_diag, (skipn_all2 (be_bytes n x)), (skipn_all2 (be_bytes n x')) in E2 by (rewrite be_bytes_length; lia). split; [|exact E2].
  apply (f_equal be_val) in E1. rewrite !be_val_bytes, !Z.mod_small in E1 by assumption. exact E1.
Qed.
Lemma adrs_inj l t ty a b c l' t' ty' a' b' c' :
  0 <= l < 2 ^ 32 -> 0 <= t < 2 ^ 96 -> 0 <= ty < 2 ^ 32 -> 0 <= a < 2 ^ 32 -> 0 <= b < 2 ^ 32 -> 0 <= c < 2 ^ 32 ->
  0 <= l' < 2 ^ 32 -> 0 <= t' < 2 ^ 96 -> 0 <= ty' < 2 ^ 32 -> 0 <= a' < 2 ^ 32 -> 0 <= b' < 2 ^ 32 -> 0 <= c' < 2 ^ 32 ->
  adrs l t ty a b c = adrs l' t' ty' a' b' c' -> l = l' /\ t = t' /\ ty = ty' /\ a = a' /\ b = b' /\ c = c'.
Proof.
  intros. unfold adrs in *. match goal with E : _ ++ _ = _ |- _ => rename E into E0 end.
  apply be_bytes_head in E0 as [-> E]; [|assumption|assumption]. apply be_bytes_head in E as [-> E]; [|assumption|assumption]. apply be_bytes_head in E as [-> E]; [|assumption|assumption].
  apply be_bytes_head in E as [-> E]; [|assumption|assumption]. apply be_bytes_head in E as [-> E]; [|assumption|assumption].
  rewrite <- (app_nil_r (be_bytes 4 c)), <- (app_nil_r (be_bytes 4 c')) in E. apply be_bytes_head in E as [-> E]; [|assumption|assumption]. repeat split.
Qed.

(** ** which hash calls signing makes *)

(** The roles a keyed hash call of SLH-DSA can have (FIPS 205 section 4.2). *)
Inductive role :=
| RWotsHash (layer tree keypair chain position : Z)
| RWotsPk (layer tree keypair : Z)
| RTree (layer tree height index : Z)
| RForsTree (tree keypair height index : Z)
| RForsRoots (tree keypair : Z)
| RWotsPrf (layer tree keypair chain : Z)
| RForsPrf (tree keypair index : Z).

Definition role_adrs (r : role) : list Z :=
  match r with
  | RWotsHash l t kp c h => adrs l t 0 kp c h
  | RWotsPk l t kp => adrs l t 1 kp 0 0
  | RTree l t z i => adrs l t 2 0 z i
  | RForsTree t kp z i => adrs 0 t 3 kp z i
  | RForsRoots t kp => adrs 0 t 4 kp 0 0
  | RWotsPrf l t kp c => adrs l t 5 kp c 0
  | RForsPrf t kp i => adrs 0 t 6 kp 0 i
  end.

(** The objects that exist: 17 layers; the trees of layer l are numbered below
    2^(64 - 4 l), each with 16 WOTS+ key pairs of 67 chains with 15 steps; every
    leaf of layer 0 has 35 FORS trees of height 9. *)
Definition role_exists (r : role) : Prop :=
  match r with
  | RWotsHash l t kp c h => 0 <= l < 17 /\ 0 <= t < 2 ^ (64 - 4 * l) /\ 0 <= kp < 16 /\ 0 <= c < 67 /\ 0 <= h < 15
  | RWotsPk l t kp => 0 <= l < 17 /\ 0 <= t < 2 ^ (64 - 4 * l) /\ 0 <= kp < 16
  | RTree l t z i => 0 <= l < 17 /\ 0 <= t < 2 ^ (64 - 4 * l) /\ 1 <= z <= 4 /\ 0 <= i < 2 ^ (4 - z)
  | RForsTree t kp z i => 0 <= t < 2 ^ 64 /\ 0 <= kp < 16 /\ 0 <= z <= 9 /\ 0 <= i < 35 * 2 ^ (9 - z)
  | RForsRoots t kp => 0 <= t < 2 ^ 64 /\ 0 <= kp < 16
  | RWotsPrf l t kp c => 0 <= l < 17 /\ 0 <= t < 2 ^ (64 - 4 * l) /\ 0 <= kp < 16 /\ 0 <= c < 67
  | RForsPrf t kp i => 0 <= t < 2 ^ 64 /\ 0 <= kp < 16 /\ 0 <= i < 35 * 512
  end.

Lemma tree_bound l t : 0 <= l < 17 -> 0 <= t < 2 ^ (64 - 4 * l) -> 0 <= t < 2 ^ 96.
Proof. intros Hl Ht. split; [lia|]. eapply Z.lt_le_trans; [apply Ht|]. apply Z.pow_le_mono_r; lia. Qed.
Lemma pow_le_512 z : 0 <= z <= 9 -> 0 < 2 ^ (9 - z) <= 512.
Proof. intros Hz. split; [apply Z.pow_pos_nonneg; lia|]. change 512 with (2 ^ 9). apply Z.pow_le_mono_r; lia. Qed.
Lemma pow_le_16 z : 0 <= z <= 4 -> 0 < 2 ^ (4 - z) <= 16.
Proof. intros Hz. split; [apply Z.pow_pos_nonneg; lia|]. change 16 with (2 ^ 4). apply Z.pow_le_mono_r; lia. Qed.
Definition role_fields (r : role) : Z * Z * Z * Z * Z * Z :=
  match r with
  | RWotsHash l t kp c h => (l, t, 0, kp, c, h)
  | RWotsPk l t kp => (l, t, 1, kp, 0, 0)
  | RTree l t z i => (l, t, 2, 0, z, i)
  | RForsTree t kp z i => (0, t, 3, kp, z, i)
  | RForsRoots t kp => (0, t, 4, kp, 0, 0)
  | RWotsPrf l t kp c => (l, t, 5, kp, c, 0)
  | RForsPrf t kp i => (0, t, 6, kp, 0, i)
  end.
Lemma role_fields_inj r r' : role_fields r = role_fields r' -> r = r'.
Proof. destruct r, r'; cbn [role_fields]; intros E; injection E; intros; subst; (reflexivity || discriminate). Qed.
Lemma role_adrs_fields r : role_adrs r = let '(l, t, ty, a, b, c) := role_fields r in adrs l t ty a b c.
Proof. destruct r; reflexivity. Qed.
Lemma role_fields_range r : role_exists r -> let '(l, t, ty, a, b, c) := role_fields r in
  0 <= l < 2 ^ 32 /\ 0 <= t < 2 ^ 96 /\ 0 <= ty < 2 ^ 32 /\ 0 <= a < 2 ^ 32 /\ 0 <= b < 2 ^ 32 /\ 0 <= c < 2 ^ 32.
Proof.
  change (2 ^ 32) with 4294967296.
  destruct r; cbn [role_exists role_fields]; intros Hr.
  - destruct Hr as (h1 & h2 & h3 & h4 & h5). pose proof (tree_bound _ _ h1 h2). lia.
  - destruct Hr as (h1 & h2 & h3). pose proof (tree_bound _ _ h1 h2). lia.
  - destruct Hr as (h1 & h2 & h3 & h4). pose proof (tree_bound _ _ h1 h2). pose proof (pow_le_16 height ltac:(lia)). lia.
  - destruct Hr as (h1 & h2 & h3 & h4). pose proof (tree_bound 0 tree ltac:(lia) h1). pose proof (pow_le_512 height ltac:(lia)). lia.
  - destruct Hr as (h1 & h2). pose proof (tree_bound 0 tree ltac:(lia) h1). lia.
  - destruct Hr as (h1 & h2 & h3 & h4). pose proof (tree_bound _ _ h1 h2). lia.
  - destruct Hr as (h1 & h2 & h3). pose proof (tree_bound 0 tree ltac:(lia) h1). lia.
Qed.
Lemma role_adrs_inj r r' : role_exists r -> role_exists r' -> role_adrs r = role_adrs r' -> r = r'.
Proof.
  intros H1 H2 E. apply role_fields_inj. pose proof (role_fields_range r H1) as R1. pose proof (role_fields_range r' H2) as R2. rewrite !role_adrs_fields in E.
  destruct (role_fields r) as [[[[[l t] ty] a] b] c]. destruct (role_fields r') as [[[[[l' t'] ty'] a'] b'] c']. apply adrs_inj in E; [|tauto..]. destruct E as (-> & -> & -> & -> & -> & ->). reflexivity.
Qed.

Section Tree.
Variables (g g' : Z -> Z -> list Z -> list Z) (lf lf' : Z -> list Z) (n : nat) (K : Z).
Hypothesis Hg : forall z i X, 1 <= z <= Z.of_nat n -> 0 <= i < K * 2 ^ (Z.of_nat n - z) -> g z i X = g' z i X.
Hypothesis Hlf : forall i, 0 <= i < K * 2 ^ Z.of_nat n -> lf i = lf' i.
Lemma tree_node_agree : forall z i, (z <= n)%nat -> 0 <= i < K * 2 ^ (Z.of_nat n - Z.of_nat z) -> tree_node g lf z i = tree_node g' lf' z i.
Proof.
  induction z as [|z IH]; intros i Hz Hi; cbn [tree_node].
  - apply Hlf. replace (Z.of_nat n - Z.of_nat 0) with (Z.of_nat n) in Hi by lia. exact Hi.
  - assert (Hp: 2 ^ (Z.of_nat n - Z.of_nat z) = 2 * 2 ^ (Z.of_nat n - Z.of_nat (S z))) by (replace (Z.of_nat n - Z.of_nat z) with (1 + (Z.of_nat n - Z.of_nat (S z))) by lia; rewrite Z.pow_add_r by lia; reflexivity).
    rewrite Hg by lia. rewrite !IH by lia. reflexivity.
Qed.
Lemma auth_path_agree i : 0 <= i < K * 2 ^ Z.of_nat n -> auth_path g lf n i = auth_path g' lf' n i.
Proof.
  intros Hi. unfold auth_path. apply flat_map_ext_in. intros j Hj. apply in_seq in Hj. apply tree_node_agree; [lia|].
  assert (Hp: 2 ^ Z.of_nat n = 2 ^ (Z.of_nat n - Z.of_nat j) * 2 ^ Z.of_nat j) by (rewrite <- Z.pow_add_r by lia; f_equal; lia).
  assert (Hq: 2 ^ (Z.of_nat n - Z.of_nat j) = 2 * 2 ^ (Z.of_nat n - Z.of_nat j - 1)) by (replace (Z.of_nat n - Z.of_nat j) with (1 + (Z.of_nat n - Z.of_nat j - 1)) at 1 by lia; rewrite Z.pow_add_r by lia; reflexivity).
  assert (Hpj: 0 < 2 ^ Z.of_nat j) by (apply Z.pow_pos_nonneg; lia).
  assert (Hx: 0 <= i / 2 ^ Z.of_nat j < K * 2 ^ (Z.of_nat n - Z.of_nat j)). { split; [apply Z.div_pos; lia|]. apply Z.div_lt_upper_bound; [lia|]. rewrite Hp in Hi. lia. }
  rewrite lxor1_val by lia. rewrite Hq in *. set (x := i / 2 ^ Z.of_nat j) in *. set (p := 2 ^ (Z.of_nat n - Z.of_nat j - 1)) in *. clearbody x p. clear -Hx. destruct (Z.even x) eqn:E.
  - apply Z.even_spec in E as [k ->]. nia.
  - rewrite <- Z.negb_odd in E. apply Bool.negb_false_iff, Z.odd_spec in E as [k ->]. lia.
Qed.
Lemma climb_agree : forall m z i node auth, 0 <= z -> z + Z.of_nat m = Z.of_nat n -> 0 <= i < K * 2 ^ (Z.of_nat n - z) -> climb g m z i node auth = climb g' m z i node auth.
Proof.
  clear lf lf' Hlf.
  induction m as [|m IH]; intros z i node auth Hz Hm Hi; [reflexivity|]. cbn [climb].
  assert (Hp: 2 ^ (Z.of_nat n - z) = 2 * 2 ^ (Z.of_nat n - (z + 1))) by (replace (Z.of_nat n - z) with (1 + (Z.of_nat n - (z + 1))) by lia; rewrite Z.pow_add_r by lia; reflexivity).
  assert (Hi2: 0 <= i / 2 < K * 2 ^ (Z.of_nat n - (z + 1))). { split; [apply Z.div_pos; lia|]. apply Z.div_lt_upper_bound; lia. }
  rewrite Hg by lia. apply IH; lia.
Qed.
End Tree.

(** Two hash functions that agree on the calls with existing roles give the same results. *)
Section Calls.
Variables H H' : list Z -> Z -> list Z.
Variables ps ss : list Z.
Hypothesis Hagree : forall r X, role_exists r -> H (ps ++ role_adrs r ++ X) 32 = H' (ps ++ role_adrs r ++ X) 32.

Lemma Th_agree r X : role_exists r -> Th H ps (role_adrs r) X = Th H' ps (role_adrs r) X.
Proof. apply Hagree. Qed.
Lemma PRF_agree r : role_exists r -> PRF H ps ss (role_adrs r) = PRF H' ps ss (role_adrs r).
Proof. apply Hagree. Qed.
Lemma chain_agree l t kp c : 0 <= l < 17 -> 0 <= t < 2 ^ (64 - 4 * l) -> 0 <= kp < 16 -> 0 <= c < 67 ->
  forall s X i, 0 <= i -> i + Z.of_nat s <= 15 -> chain H ps l t kp c X i s = chain H' ps l t kp c X i s.
Proof.
  intros Hl Ht Hk Hc. induction s as [|s IH]; intros X i Hi Hs; [reflexivity|]. cbn [chain].
  change (adrs_wots_hash l t kp c i) with (role_adrs (RWotsHash l t kp c i)). rewrite Th_agree by (cbn [role_exists]; lia). apply IH; lia.
Qed.
Lemma wots_sk_agree l t kp c : 0 <= l < 17 -> 0 <= t < 2 ^ (64 - 4 * l) -> 0 <= kp < 16 -> 0 <= c < 67 -> wots_sk H ps ss l t kp c = wots_sk H' ps ss l t kp c.
Proof. intros. apply (PRF_agree (RWotsPrf l t kp c)). cbn [role_exists]; lia. Qed.
Lemma wots_pk_agree l t kp : 0 <= l < 17 -> 0 <= t < 2 ^ (64 - 4 * l) -> 0 <= kp < 16 -> wots_pk H ps ss l t kp = wots_pk H' ps ss l t kp.
Proof.
  intros. unfold wots_pk. change (adrs_wots_pk l t kp) with (role_adrs (RWotsPk l t kp)). rewrite Th_agree by (cbn [role_exists]; lia). f_equal. apply flat_map_ext_in. intros c Hc. apply in_zseq in Hc.
  rewrite wots_sk_agree by lia. apply chain_agree; lia.
Qed.
Lemma wots_sign_agree M l t kp : 0 <= l < 17 -> 0 <= t < 2 ^ (64 - 4 * l) -> 0 <= kp < 16 -> wots_sign H ps ss M l t kp = wots_sign H' ps ss M l t kp.
Proof.
  intros. unfold wots_sign. apply flat_map_ext_in. intros c Hc. apply in_zseq in Hc. rewrite wots_sk_agree by lia. pose proof (wots_digit_range M c). apply chain_agree; lia.
Qed.
Lemma wots_pk_of_sig_agree sg M l t kp : 0 <= l < 17 -> 0 <= t < 2 ^ (64 - 4 * l) -> 0 <= kp < 16 -> wots_pk_of_sig H ps sg M l t kp = wots_pk_of_sig H' ps sg M l t kp.
Proof.
  intros. unfold wots_pk_of_sig. change (adrs_wots_pk l t kp) with (role_adrs (RWotsPk l t kp)). rewrite Th_agree by (cbn [role_exists]; lia). f_equal. apply flat_map_ext_in. intros c Hc. apply in_zseq in Hc. cbv zeta.
  pose proof (wots_digit_range M c). apply chain_agree; lia.
Qed.
Lemma xmss_hash_agree l t z i X : 0 <= l < 17 -> 0 <= t < 2 ^ (64 - 4 * l) -> 1 <= z <= Z.of_nat 4 -> 0 <= i < 1 * 2 ^ (Z.of_nat 4 - z) -> xmss_hash H ps l t z i X = xmss_hash H' ps l t z i X.
Proof. intros. apply (Th_agree (RTree l t z i)). cbn [role_exists]. change (Z.of_nat 4) with 4 in *. lia. Qed.
Lemma xmss_sign_agree M i l t : 0 <= l < 17 -> 0 <= t < 2 ^ (64 - 4 * l) -> 0 <= i < 16 -> xmss_sign H ps ss M i l t = xmss_sign H' ps ss M i l t.
Proof.
  intros. unfold xmss_sign. rewrite wots_sign_agree by assumption. f_equal. apply (auth_path_agree _ _ _ _ 4 1); [intros; apply xmss_hash_agree; assumption|intros j Hj; change (1 * 2 ^ Z.of_nat 4) with 16 in Hj; apply wots_pk_agree; (assumption || lia)|change (1 * 2 ^ Z.of_nat 4) with 16; lia].
Qed.
Lemma xmss_pk_of_sig_agree i sg M l t : 0 <= l < 17 -> 0 <= t < 2 ^ (64 - 4 * l) -> 0 <= i < 16 -> xmss_pk_of_sig H ps i sg M l t = xmss_pk_of_sig H' ps i sg M l t.
Proof.
  intros. unfold xmss_pk_of_sig. rewrite wots_pk_of_sig_agree by assumption. apply (climb_agree _ _ 4 1); [intros; apply xmss_hash_agree; assumption|lia|reflexivity|change (1 * 2 ^ (Z.of_nat 4 - 0)) with 16; lia].
Qed.
Lemma tree_up l t : 0 <= l < 16 -> 0 <= t < 2 ^ (64 - 4 * l) -> 0 <= t / 16 < 2 ^ (64 - 4 * (l + 1)).
Proof. intros Hl Ht. split; [apply Z.div_pos; lia|]. apply Z.div_lt_upper_bound; [lia|]. replace (64 - 4 * l) with (4 + (64 - 4 * (l + 1))) in Ht by lia. rewrite Z.pow_add_r in Ht by lia. exact (proj2 Ht). Qed.
Lemma ht_sign_agree : forall n l M t leaf, 0 <= l -> l + Z.of_nat n <= 17 -> 0 <= t < 2 ^ (64 - 4 * l) -> 0 <= leaf < 16 -> ht_sign H ps ss n l M t leaf = ht_sign H' ps ss n l M t leaf.
Proof.
  induction n as [|n IH]; intros l M t leaf Hl Hn Ht Hlf; [reflexivity|]. cbn [ht_sign]. rewrite xmss_sign_agree, xmss_pk_of_sig_agree by (assumption || lia). f_equal.
  destruct n as [|n]; [reflexivity|]. apply IH; [lia|lia|apply tree_up; (assumption || lia)|apply Z.mod_pos_bound; lia].
Qed.
Lemma ht_root_agree : forall n l M sg t leaf, 0 <= l -> l + Z.of_nat n <= 17 -> 0 <= t < 2 ^ (64 - 4 * l) -> 0 <= leaf < 16 -> ht_root_of_sig H ps n l M sg t leaf = ht_root_of_sig H' ps n l M sg t leaf.
Proof.
  induction n as [|n IH]; intros l M sg t leaf Hl Hn Ht Hlf; [reflexivity|]. cbn [ht_root_of_sig]. rewrite xmss_pk_of_sig_agree by (assumption || lia).
  destruct n as [|n]; [reflexivity|]. apply IH; [lia|lia|apply tree_up; (assumption || lia)|apply Z.mod_pos_bound; lia].
Qed.
Lemma fors_hash_agree t kp z i X : 0 <= t < 2 ^ 64 -> 0 <= kp < 16 -> 0 <= z <= 9 -> 0 <= i < 35 * 2 ^ (9 - z) -> fors_hash H ps t kp z i X = fors_hash H' ps t kp z i X.
Proof. intros. apply (Th_agree (RForsTree t kp z i)). cbn [role_exists]. lia. Qed.
Lemma fors_sk_agree t kp i : 0 <= t < 2 ^ 64 -> 0 <= kp < 16 -> 0 <= i < 35 * 512 -> fors_sk H ps ss t kp i = fors_sk H' ps ss t kp i.
Proof. intros. apply (PRF_agree (RForsPrf t kp i)). cbn [role_exists]. lia. Qed.
Lemma fors_leaf_agree t kp i : 0 <= t < 2 ^ 64 -> 0 <= kp < 16 -> 0 <= i < 35 * 512 -> fors_leaf H ps ss t kp i = fors_leaf H' ps ss t kp i.
Proof. intros. unfold fors_leaf. rewrite fors_sk_agree by assumption. apply (Th_agree (RForsTree t kp 0 i)). cbn [role_exists]. change (2 ^ (9 - 0)) with 512. lia. Qed.
Lemma fors_idx_range md i : 0 <= i < 35 -> 0 <= i * 512 + nth (Z.to_nat i) (base_2b md 9 35) 0 < 35 * 512.
Proof. intros Hi. pose proof (base_2b_range md 9 35 i ltac:(lia)) as Hd. unfold znth in Hd. change (2 ^ 9) with 512 in Hd. lia. Qed.
Lemma fors_sign_agree md t kp : 0 <= t < 2 ^ 64 -> 0 <= kp < 16 -> SpxSpec.fors_sign H ps ss md t kp = SpxSpec.fors_sign H' ps ss md t kp.
Proof.
  intros Ht Hk. unfold SpxSpec.fors_sign. apply flat_map_ext_in. intros i Hi. apply in_zseq in Hi. cbv zeta. pose proof (fors_idx_range md i Hi) as Hx. set (idx := i * 512 + nth (Z.to_nat i) (base_2b md 9 35) 0) in *. clearbody idx.
  rewrite fors_sk_agree by assumption. f_equal. apply (auth_path_agree _ _ _ _ 9 35); [intros z j X Hz Hj; change (Z.of_nat 9) with 9 in *; apply fors_hash_agree; (assumption || lia)|intros j Hj; change (2 ^ Z.of_nat 9) with 512 in Hj; apply fors_leaf_agree; assumption|exact Hx].
Qed.
Lemma fors_pk_of_sig_agree sg md t kp : 0 <= t < 2 ^ 64 -> 0 <= kp < 16 -> fors_pk_of_sig H ps sg md t kp = fors_pk_of_sig H' ps sg md t kp.
Proof.
  intros Ht Hk. unfold fors_pk_of_sig. change (adrs_fors_roots t kp) with (role_adrs (RForsRoots t kp)). rewrite Th_agree by (cbn [role_exists]; lia). f_equal. apply flat_map_ext_in. intros i Hi. apply in_zseq in Hi. cbv zeta. pose proof (fors_idx_range md i Hi) as Hx. set (idx := i * 512 + nth (Z.to_nat i) (base_2b md 9 35) 0) in *. clearbody idx.
  change (adrs_fors_tree t kp 0 idx) with (role_adrs (RForsTree t kp 0 idx)). rewrite Th_agree by (cbn [role_exists]; change (2 ^ (9 - 0)) with 512; lia).
  apply (climb_agree _ _ 9 35); [intros z j X Hz Hj; change (Z.of_nat 9) with 9 in *; apply fors_hash_agree; (assumption || lia)|lia|reflexivity|exact Hx].
Qed.
Lemma slh_root_agree : slh_root H ps ss = slh_root H' ps ss.
Proof.
  unfold slh_root, xmss_node. apply (tree_node_agree _ _ _ _ 4 1); [intros; apply xmss_hash_agree; (assumption || lia)|intros j Hj; change (1 * 2 ^ Z.of_nat 4) with 16 in Hj; apply wots_pk_agree; (assumption || lia)|lia|change (1 * 2 ^ (Z.of_nat 4 - Z.of_nat 4)) with 1; lia].
Qed.
Lemma slh_sign_agree M prf rt rnd : (forall X, H (prf ++ X) 32 = H' (prf ++ X) 32) -> (forall R, H (R ++ ps ++ rt ++ M) 49 = H' (R ++ ps ++ rt ++ M) 49) ->
  slh_sign H ps ss M prf rt rnd = slh_sign H' ps ss M prf rt rnd.
Proof.
  intros H1 H2. unfold slh_sign, H_msg. rewrite H1, H2. cbv zeta. set (dg := H' _ 49). assert (Ht: 0 <= digest_tree dg < 2 ^ 64) by (apply Z.mod_pos_bound; reflexivity). assert (Hl: 0 <= digest_leaf dg < 16) by (apply Z.mod_pos_bound; reflexivity).
  rewrite fors_sign_agree, fors_pk_of_sig_agree by assumption. f_equal. f_equal. apply ht_sign_agree; (assumption || lia).
Qed.
Lemma slh_verify_root_agree M sg rt : (forall R, H (R ++ ps ++ rt ++ M) 49 = H' (R ++ ps ++ rt ++ M) 49) -> slh_verify_root H ps M sg rt = slh_verify_root H' ps M sg rt.
Proof.
  intros H2. unfold slh_verify_root, H_msg. rewrite H2. cbv zeta. set (dg := H' _ 49). assert (Ht: 0 <= digest_tree dg < 2 ^ 64) by (apply Z.mod_pos_bound; reflexivity). assert (Hl: 0 <= digest_leaf dg < 16) by (apply Z.mod_pos_bound; reflexivity).
  rewrite fors_pk_of_sig_agree by assumption. apply ht_root_agree; (assumption || lia).
Qed.
End Calls.
