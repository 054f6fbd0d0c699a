(** SPHINCS+: WOTS+ chains, public keys from signatures, leaf generation. *)
From Coq Require Import ZifyBool ZifyNat.
From Verif Require Import Base Wp Sha512Spec TweetSha SpxSpec Spx SpxTree SpxWots.
Local Open Scope Z_scope.
Ltac Zify.zify_post_hook ::= idtac.

(** [b] differs from [a] at most in the bytes [lo, hi). *)
Definition same_outside (a b : list Z) (lo hi : Z) : Prop :=
  zlen b = zlen a /\ forall o n, 0 <= o -> o + n <= zlen a -> o + n <= lo \/ hi <= o -> slice b o n = slice a o n.
Lemma same_outside_refl a lo hi : same_outside a a lo hi. Proof. split; [reflexivity|]. reflexivity. Qed.
Lemma same_outside_trans a b c lo hi : same_outside a b lo hi -> same_outside b c lo hi -> same_outside a c lo hi.
Proof. intros [L1 E1] [L2 E2]. split; [lia|]. intros o n Ho Hn Hd. rewrite E2 by (try assumption; lia). apply E1; assumption. Qed.
Lemma same_outside_weaken a b lo hi lo' hi' : same_outside a b lo hi -> lo' <= lo -> hi <= hi' -> same_outside a b lo' hi'.
Proof. intros [L1 E1] Hl Hh. split; [exact L1|]. intros o n Ho Hn Hd. apply E1; try assumption. lia. Qed.
Lemma same_outside_splice a off v lo hi : 0 <= off -> off + zlen v <= zlen a -> lo <= off -> off + zlen v <= hi -> same_outside a (splice a off v) lo hi.
Proof.
  intros Ho Hl H1 H2. split; [apply zlen_splice; assumption|]. intros o n Hoo Hn Hd. pose proof (zlen_nonneg v). destruct Hd; [apply slice_splice_before; lia|apply slice_splice_after; lia].
Qed.

Section W.
Variable H : list Z -> Z -> list Z.
Hypothesis HH : forall x n, 0 <= n -> zlen (H x n) = n.
Hypothesis HB : forall x n, bytes_ok (H x n).
Variable ctx : spx_ctx.
Let ps := pub_seed ctx.
Let ss := sk_seed ctx.
Lemma thash_Th M ad : thash H ctx M ad = Th H ps ad M. Proof. reflexivity. Qed.
Lemma prf_PRF ad : prf_addr H ctx ad = PRF H ps ss ad. Proof. reflexivity. Qed.
Lemma zlen_Th ad M : zlen (Th H ps ad M) = 32. Proof. apply HH. lia. Qed.
Lemma bytes_Th ad M : bytes_ok (Th H ps ad M). Proof. apply HB. Qed.
Lemma zlen_PRF ad : zlen (PRF H ps ss ad) = 32. Proof. apply HH. lia. Qed.

Lemma chain_snoc l t kp c : forall s X i, chain H ps l t kp c X i (S s) = Th H ps (adrs_wots_hash l t kp c (i + Z.of_nat s)) (chain H ps l t kp c X i s).
Proof.
  induction s as [|s IH]; intros X i; [cbn [chain]; rewrite Z.add_0_r; reflexivity|].
  replace (chain H ps l t kp c X i (S (S s))) with (chain H ps l t kp c (Th H ps (adrs_wots_hash l t kp c i) X) (i + 1) (S s)) by reflexivity.
  rewrite IH. replace (i + 1 + Z.of_nat s) with (i + Z.of_nat (S s)) by lia. reflexivity.
Qed.
Lemma chain_app l t kp c : forall s s' X i, chain H ps l t kp c (chain H ps l t kp c X i s) (i + Z.of_nat s) s' = chain H ps l t kp c X i (s + s')%nat.
Proof.
  induction s as [|s IH]; intros s' X i; [cbn [chain Nat.add]; f_equal; lia|]. cbn [chain Nat.add]. rewrite <- IH. f_equal. lia.
Qed.
Lemma zlen_chain l t kp c : forall s X i, zlen X = 32 -> zlen (chain H ps l t kp c X i s) = 32.
Proof. induction s as [|s IH]; intros X i HX; cbn [chain]; [exact HX|]. apply IH, zlen_Th. Qed.

Variables l t : Z.
Hypothesis Hl : 0 <= l < 256.
Hypothesis Ht : 0 <= t < 2 ^ 64.
Let T := be_bytes 8 t.
Lemma zT : zlen T = 8. Proof. apply zlen_be_bytes. Qed.

Lemma hash_adr kp c i x : 0 <= kp < 256 -> 0 <= c < 256 -> 0 <= i < 256 -> set_hash_addr (A l T 0 kp c [0;0;0;x]) i = adrs_wots_hash l t kp c i.
Proof.
  intros Hk Hc Hi. unfold adrs_wots_hash. rewrite adrs_A by lia. rewrite set_hash_A by apply zT. rewrite u8_id by lia. rewrite be_bytes_small by lia. reflexivity.
Qed.
Lemma hash_adr' kp c i : 0 <= kp < 256 -> 0 <= c < 256 -> 0 <= i < 256 -> adrs_wots_hash l t kp c i = A l T 0 kp c [0;0;0;i].
Proof. intros Hk Hc Hi. unfold adrs_wots_hash. rewrite adrs_A by lia. rewrite be_bytes_small by lia. reflexivity. Qed.

Lemma gen_chain_loop_ok kp c : 0 <= kp < 256 -> 0 <= c < 256 -> forall fuel i stop out x, 0 <= i -> stop <= 16 -> stop - i <= Z.of_nat fuel ->
  wp (gen_chain_loop H ctx fuel i stop out (A l T 0 kp c [0;0;0;x])) (fun '(o, a) => o = chain H ps l t kp c out i (Z.to_nat (stop - i)) /\ exists x', a = A l T 0 kp c [0;0;0;x']).
Proof.
  intros Hk Hc. induction fuel as [|fuel IH]; intros i stop out x Hi Hs Hf; cbn [gen_chain_loop].
  - destruct (Z.ltb_spec i stop); [lia|]. cbn [andb]. apply wp_ret. replace (Z.to_nat (stop - i)) with 0%nat by lia. split; [reflexivity|eauto].
  - destruct (Z.ltb_spec i stop); cbn [andb].
    + destruct (Z.ltb_spec i 16); [|lia]. rewrite hash_adr by lia. rewrite thash_Th. rewrite hash_adr' at 2 by lia. 
      eapply wp_mono; [apply IH; lia|]. intros [o a] [-> Ha]. split; [|exact Ha].
      replace (Z.to_nat (stop - i)) with (S (Z.to_nat (stop - (i + 1)))) by lia. reflexivity.
    + apply wp_ret. replace (Z.to_nat (stop - i)) with 0%nat by lia. split; [reflexivity|eauto].
Qed.

Lemma wots_pk_from_sig_ok sig off M kp c x : bytes_ok M -> zlen M = 32 -> 0 <= kp < 256 -> 0 <= off -> off + 2144 <= zlen sig ->
  wp (wots_pk_from_sig H ctx sig off M (A l T 0 kp c [0;0;0;x])) (fun '(pk, a) =>
    Th H ps (adrs_wots_pk l t kp) pk = wots_pk_of_sig H ps (slice sig off 2144) M l t kp /\ exists c' x', a = A l T 0 kp c' [0;0;0;x']).
Proof.
  intros HMb HM Hk Ho Hlen. unfold wots_pk_from_sig. rewrite chain_lengths_ok by assumption. cbn [bind].
  eapply (wp_for_loop (fun i '(pk, a) => pk = flat_map (fun c => let d := nth (Z.to_nat c) (wots_digits M) 0 in chain H ps l t kp c (slice (slice sig off 2144) (32 * c) 32) d (Z.to_nat (15 - d))) (zseq (Z.to_nat i)) /\ exists c' x', a = A l T 0 kp c' [0;0;0;x'])); [unfold SPX_WOTS_LEN; lia|split; [reflexivity|eauto]| |].
  - unfold SPX_WOTS_LEN, SPX_N. intros i [pk a] Hi (-> & c' & x' & ->). rewrite set_chain_A by (try apply zT; reflexivity). rewrite u8_id by lia.
    rewrite rdrange_ok by lia. cbn [bind]. apply wp_bind. pose proof (zlen_wots_digits M). apply wp_rd; [lia|]. apply wp_bind. unfold znth. pose proof (wots_digit_range M i) as Hd. set (d := nth (Z.to_nat i) (wots_digits M) 0) in *.
    unfold gen_chain. unfold u32. rewrite (Z.mod_small (15 - d)) by (change (2 ^ 32) with 4294967296; lia). rewrite Z.mod_small by (change (2 ^ 32) with 4294967296; lia).
    eapply wp_mono; [apply gen_chain_loop_ok; lia|]. intros [o a] (-> & x2 & ->). apply wp_ret. split; [|eauto].
    rewrite zseq_to_nat_S by lia. rewrite flat_map_app. f_equal. cbn [flat_map]. rewrite app_nil_r. fold d. cbv zeta. rewrite slice_slice by lia. f_equal; [f_equal; lia|f_equal; lia].
  - intros [pk a] [-> Ha]. split; [reflexivity|exact Ha].
Qed.

(** ** leaves *)
Lemma leaf_chain_ok kp c wk dst : 0 <= kp < 256 -> 0 <= c < 256 -> 0 <= wk -> forall n k sig x X, 0 <= k -> k + Z.of_nat n < 256 -> zlen X = 32 -> 0 <= dst -> dst + 32 <= zlen sig ->
  wp (leaf_chain H ctx n k wk dst sig (chain H ps l t kp c X 0 (Z.to_nat k)) (A l T 0 kp c [0;0;0;x])) (fun '(sig', buf, a) =>
    buf = chain H ps l t kp c X 0 (Z.to_nat k + n) /\ (exists x', a = A l T 0 kp c [0;0;0;x']) /\
    sig' = if (k <=? wk) && (wk <=? k + Z.of_nat n) then splice sig dst (chain H ps l t kp c X 0 (Z.to_nat wk)) else sig).
Proof.
  intros Hk Hc Hw. induction n as [|n IH]; intros k sig x X Hk0 Hk1 HX Hd Hs; cbn [leaf_chain].
  - apply wp_bind. change (Z.of_nat 0) with 0 in *. rewrite Z.add_0_r. destruct (Z.eqb_spec k wk) as [->|Hne].
    + unfold SPX_N. pose proof (zlen_chain l t kp c (Z.to_nat wk) X 0 HX). eapply wp_eq; [apply copy_splice; lia|]. apply wp_ret. split; [f_equal; lia|]. split; [eauto|].
      destruct (Z.leb_spec wk wk); [|lia]. reflexivity.
    + apply wp_ret, wp_ret. split; [f_equal; lia|]. split; [eauto|]. destruct (Z.leb_spec k wk), (Z.leb_spec wk k); try lia; reflexivity.
  - apply wp_bind. rewrite hash_adr by lia. rewrite thash_Th.
    replace (Th H ps (adrs_wots_hash l t kp c k) (chain H ps l t kp c X 0 (Z.to_nat k))) with (chain H ps l t kp c X 0 (Z.to_nat (k + 1)))
      by (replace (Z.to_nat (k + 1)) with (S (Z.to_nat k)) by lia; rewrite chain_snoc; f_equal; f_equal; lia).
    rewrite hash_adr' by lia. pose proof (zlen_chain l t kp c (Z.to_nat wk) X 0 HX). destruct (Z.eqb_spec k wk) as [->|Hne].
    + unfold SPX_N. eapply wp_eq; [apply copy_splice; lia|]. eapply wp_mono; [apply IH; try lia; rewrite zlen_splice by lia; lia|].
      intros [[sig' buf] a] (-> & Ha & ->). split; [f_equal; lia|]. split; [exact Ha|]. destruct (Z.leb_spec (wk + 1) wk); [lia|]. cbn [andb]. destruct (Z.leb_spec wk wk); [|lia]. destruct (Z.leb_spec wk (wk + Z.of_nat (S n))); [|lia]. reflexivity.
    + apply wp_ret. eapply wp_mono; [apply IH; lia|]. intros [[sig' buf] a] (-> & Ha & ->). split; [f_equal; lia|]. split; [exact Ha|].
      replace (k + 1 + Z.of_nat n) with (k + Z.of_nat (S n)) by lia. destruct (Z.leb_spec (k + 1) wk), (Z.leb_spec k wk); try lia; reflexivity.
Qed.

Lemma lor_mask s : 0 <= s < 2 ^ 32 -> Z.lor s (2 ^ 32 - 1) = 2 ^ 32 - 1.
Proof.
  intros Hs. replace (2 ^ 32 - 1) with (Z.ones 32) by reflexivity. apply Z.bits_inj'. intros k Hk. rewrite Z.lor_spec. destruct (Z.lt_ge_cases k 32); [rewrite Z.ones_spec_low by lia; apply Bool.orb_true_r|].
  rewrite Z.ones_spec_high by lia. rewrite Bool.orb_false_r. destruct (Z.eq_dec s 0) as [->|]; [apply Z.bits_0|]. apply Z.bits_above_log2; [lia|]. apply Z.log2_lt_pow2; [lia|]. pose proof (Z.pow_le_mono_r 2 32 k). lia.
Qed.
Lemma flat_map_zseq_S (f : Z -> list Z) k : 0 <= k -> flat_map f (zseq (Z.to_nat (k + 1))) = flat_map f (zseq (Z.to_nat k)) ++ f k.
Proof. intros Hk. rewrite zseq_to_nat_S by exact Hk. rewrite flat_map_app. cbn [flat_map]. rewrite app_nil_r. reflexivity. Qed.
Lemma zlen_flat_map (f : Z -> list Z) b n : (forall i, 0 <= i < Z.of_nat n -> zlen (f i) = b) -> zlen (flat_map f (zseq n)) = b * Z.of_nat n.
Proof. induction n as [|n IH]; intros Hf; [change (zlen (flat_map f (zseq 0))) with 0; lia|]. rewrite zseq_S, flat_map_app, zlen_app, IH by (intros; apply Hf; lia). cbn [flat_map]. rewrite app_nil_r, Hf by lia. lia. Qed.

Definition leaf_state (st : list Z * list Z) : Prop :=
  (exists ty kp c x, fst st = A l T ty kp c [0;0;0;x]) /\ (exists kp, snd st = A l T 1 kp 0 [0;0;0;0]).

Lemma wots_gen_leafx1_ok woff sl steps M i sig st : Forall (fun d => 0 <= d < 16) steps -> zlen steps = 67 -> (sl < 256 -> steps = wots_digits M) -> 0 <= i < 256 ->
  0 <= woff -> woff + 2144 <= zlen sig -> leaf_state st ->
  wp (wots_gen_leafx1 H ctx {| wots_sig_off := woff; wots_sign_leaf := sl; wots_steps := steps |} i sig st) (fun '(leaf, sig', st') =>
    leaf = wots_pk H ps ss l t i /\ leaf_state st' /\ same_outside sig sig' woff (woff + 2144) /\
    (i <> sl -> sig' = sig) /\ (i = sl -> slice sig' woff 2144 = wots_sign H ps ss M l t i)).
Proof.
  intros HD HZ HM Hi Hwo Hlen [(ty & kp & c & x & E1) (kp' & E2)]. destruct st as [la pa]. cbn [fst snd] in E1, E2. subst la pa.
  unfold wots_gen_leafx1. cbn [wots_sig_off wots_sign_leaf wots_steps]. rewrite !set_kp_A by (try apply zT; reflexivity). rewrite !u8_id by lia. apply wp_bind.
  set (sgn := fun c => chain H ps l t i c (wots_sk H ps ss l t i c) 0 (Z.to_nat (nth (Z.to_nat c) (wots_digits M) 0))).
  set (ful := fun c => chain H ps l t i c (wots_sk H ps ss l t i c) 0 15).
  assert (Hsgn: forall c, zlen (sgn c) = 32) by (intros; apply zlen_chain, zlen_PRF).
  eapply (wp_for_loop (fun j '(sig', pkb, la) => pkb = flat_map ful (zseq (Z.to_nat j)) /\ (exists ty c x, la = A l T ty i c [0;0;0;x]) /\ same_outside sig sig' woff (woff + 2144) /\
     (i <> sl -> sig' = sig) /\ (i = sl -> slice sig' woff (32 * j) = flat_map sgn (zseq (Z.to_nat j))))); [unfold SPX_WOTS_LEN; lia| | |].
  - split; [reflexivity|]. split; [eauto|]. split; [apply same_outside_refl|]. split; [reflexivity|]. intros _. rewrite Z.mul_0_r, slice_0. reflexivity.
  - clear ty c x. unfold SPX_WOTS_LEN, SPX_N. intros j [[sig' pkb] la] Hj (-> & (ty & c & x & ->) & HS & H1 & H2).
    pose proof HS as [HSl _]. apply wp_bind, wp_rd; [lia|].
    assert (Hst: 0 <= znth steps j < 16) by (rewrite Forall_forall in HD; apply HD; unfold znth; apply nth_In; unfold zlen in HZ; lia).
    rewrite set_chain_A by (try apply zT; reflexivity). rewrite u8_id by lia. rewrite set_hash_A by apply zT. rewrite !set_type_A by (try apply zT; reflexivity). change (u8 0) with 0. change (u8 ADDR_WOTS) with 0. change (u8 ADDR_WOTSPRF) with 5.
    rewrite prf_PRF. replace (PRF H ps ss (A l T 5 i j [0;0;0;0])) with (wots_sk H ps ss l t i j) by (unfold wots_sk, adrs_wots_prf; rewrite adrs_A by lia; reflexivity).
    apply wp_bind. change (wots_sk H ps ss l t i j) with (chain H ps l t i j (wots_sk H ps ss l t i j) 0 (Z.to_nat 0)).
    set (wk := Z.lor (znth steps j) (if i =? sl then 0 else 2 ^ 32 - 1)).
    assert (Hwk: wk = if i =? sl then znth steps j else 2 ^ 32 - 1).
    { unfold wk. destruct (i =? sl); [apply Z.lor_0_r|]. apply lor_mask. change (2 ^ 32) with 4294967296. lia. }
    eapply wp_mono; [apply leaf_chain_ok; try lia; try apply zlen_PRF; rewrite Hwk; destruct (i =? sl); change (2 ^ 32) with 4294967296; lia|].
    intros [[sig2 buf] la] (-> & (x2 & ->) & E2). apply wp_ret. split; [rewrite flat_map_zseq_S by lia; reflexivity|]. split; [eauto|].
    rewrite Hwk in E2. destruct (Z.eqb_spec i sl) as [Ei|Ei].
    + destruct (Z.leb_spec 0 (znth steps j)); [|lia]. destruct (Z.leb_spec (znth steps j) (0 + Z.of_nat 15)); [|lia]. cbn [andb] in E2.
      assert (Ec: chain H ps l t i j (wots_sk H ps ss l t i j) 0 (Z.to_nat (znth steps j)) = sgn j) by (unfold sgn, znth; rewrite HM by lia; reflexivity).
      rewrite Ec in E2. clear Ec. subst sig2. split; [eapply same_outside_trans; [exact HS|]; apply same_outside_splice; rewrite ?Hsgn; lia|]. split; [contradiction|]. intros _.
      rewrite flat_map_zseq_S by lia. replace (32 * (j + 1)) with (32 * j + 32) by lia. rewrite (slice_split _ _ _ (32 * j)) by lia. rewrite slice_splice_before by (rewrite ?Hsgn; lia). rewrite H2 by exact Ei. f_equal.
      replace (32 * j + 32 - 32 * j) with 32 by lia. rewrite (Z.mul_comm 32 j). apply slice_splice_at; rewrite ?Hsgn; lia.
    + destruct (Z.leb_spec 0 (2 ^ 32 - 1)); [|change (2 ^ 32) with 4294967296 in *; lia]. destruct (Z.leb_spec (2 ^ 32 - 1) (0 + Z.of_nat 15)); [change (2 ^ 32) with 4294967296 in *; lia|]. cbn [andb] in E2. subst sig2.
      split; [exact HS|]. split; [exact H1|]. intros; contradiction.
  - intros [[sig' pkb] la] (-> & (ty2 & c2 & x2 & ->) & HS & H1 & H2). apply wp_ret. split.
    { rewrite thash_Th. unfold wots_pk, adrs_wots_pk. rewrite adrs_A by lia. reflexivity. }
    split; [split; cbn [fst snd]; [repeat eexists|eexists; reflexivity]|]. split; [exact HS|]. split; [exact H1|]. exact H2.
Qed.
End W.
