(** Field operations of tweetnacl.c, continued: addition, subtraction, multiplication, powers, comparison. *)
From Verif Require Import Base Wp NumTheory EdSpec EdCurve Tweet TweetField.
From Coq Require Import Znumtheory Setoid Morphisms.
Ltac Zify.zify_post_hook ::= Z.div_mod_to_equations.

Lemma gfA_ok Ba Bb a b : bounded Ba a -> bounded Bb b -> 0 <= Ba -> 0 <= Bb -> Ba + Bb <= 2 ^ 62 -> wp (gfA a b) (fun o => bounded (Ba + Bb) o /\ gval o = gval a + gval b).
Proof.
  intros [La Ha] [Lb Hb] H0 H1 H2. unfold gfA. apply (wp_for_loop (fun i o => zlen o = 16 /\ (forall j, 0 <= j < 16 -> - (Ba + Bb) <= znth o j <= Ba + Bb) /\ bps 65536 o i = bps 65536 a i + bps 65536 b i)); [lia| | |].
  - split; [reflexivity|]. split; [|reflexivity]. intros j Hj. rewrite znth_zeros. lia.
  - intros i o Hi (Lo & Bo & V). pose proof (Ha i Hi). pose proof (Hb i Hi). apply wp_bind, wp_rd; [lia|]. apply wp_bind, wp_rd; [lia|]. apply wp_bind, wp_ck; [lia|]. apply wp_wr; [lia|].
    split; [now rewrite zlen_zupd|]. split; [intros j Hj; rewrite znth_zupd by lia; destruct (j =? i); [lia|now apply Bo]|]. rewrite !bps_succ by (rewrite ?zlen_zupd; lia). rewrite bps_zupd_ge, znth_zupd_same by lia. rewrite V. ring.
  - intros o (Lo & Bo & V). rewrite !bps_full in V by lia. split; [split; assumption|exact V].
Qed.
Lemma gfZ_ok Ba Bb a b : bounded Ba a -> bounded Bb b -> 0 <= Ba -> 0 <= Bb -> Ba + Bb <= 2 ^ 62 -> wp (gfZ a b) (fun o => bounded (Ba + Bb) o /\ gval o = gval a - gval b).
Proof.
  intros [La Ha] [Lb Hb] H0 H1 H2. unfold gfZ. apply (wp_for_loop (fun i o => zlen o = 16 /\ (forall j, 0 <= j < 16 -> - (Ba + Bb) <= znth o j <= Ba + Bb) /\ bps 65536 o i = bps 65536 a i - bps 65536 b i)); [lia| | |].
  - split; [reflexivity|]. split; [|reflexivity]. intros j Hj. rewrite znth_zeros. lia.
  - intros i o Hi (Lo & Bo & V). pose proof (Ha i Hi). pose proof (Hb i Hi). apply wp_bind, wp_rd; [lia|]. apply wp_bind, wp_rd; [lia|]. apply wp_bind, wp_ck; [lia|]. apply wp_wr; [lia|].
    split; [now rewrite zlen_zupd|]. split; [intros j Hj; rewrite znth_zupd by lia; destruct (j =? i); [lia|now apply Bo]|]. rewrite !bps_succ by (rewrite ?zlen_zupd; lia). rewrite bps_zupd_ge, znth_zupd_same by lia. rewrite V. ring.
  - intros o (Lo & Bo & V). rewrite !bps_full in V by lia. split; [split; assumption|exact V].
Qed.

(** the product: schoolbook rows, then folding 2^256 = 38 *)
Definition CB : Z := 2 ^ 36.
Lemma mul_rows a b : bounded (2 ^ 18) a -> bounded (2 ^ 18) b ->
  wp (for_loop 16 (fun i t => for_loop 16 (fun j t =>
         x <- rd 0 a i ;; y <- rd 0 b j ;; v <- ck (x * y) ;;
         u <- rd 0 t (i + j) ;; w <- ck (u + v) ;; wr t (i + j) w) t) (zeros 31))
  (fun t => zlen t = 31 /\ (forall k, 0 <= k < 31 -> - (16 * CB) <= znth t k <= 16 * CB) /\ gval t = gval a * gval b).
Proof.
  intros [La Ha] [Lb Hb]. pose proof (eq_refl : CB = 2 ^ 36) as HC.
  apply (wp_for_loop (fun i t => zlen t = 31 /\ (forall k, 0 <= k < 31 -> - (i * CB) <= znth t k <= i * CB) /\ gval t = bps 65536 a i * gval b)); [lia| | |].
  - split; [reflexivity|]. split; [intros k Hk; rewrite znth_zeros; lia|]. unfold gval. rewrite bval_zeros, bps_0. ring.
  - intros i t Hi (Lt & Bt & V). pose proof (Ha i Hi) as Hai.
    apply (wp_for_loop (fun j t => zlen t = 31 /\ (forall k, 0 <= k < 31 -> - ((if k <? i + j then i + 1 else i) * CB) <= znth t k <= (if k <? i + j then i + 1 else i) * CB) /\ gval t = bps 65536 a i * gval b + 65536 ^ i * znth a i * bps 65536 b j)); [lia| | |].
    + split; [exact Lt|]. split; [|rewrite bps_0, V; ring]. intros k Hk. pose proof (Bt k Hk). destruct (k <? i + 0); lia.
    + intros j t1 Hj (L1 & B1 & V1). pose proof (Hb j Hj) as Hbj. set (x := znth a i) in *. set (y := znth b j) in *.
      assert (Hxy: - CB <= x * y <= CB) by (rewrite HC; change (2 ^ 36) with (2 ^ 18 * 2 ^ 18); set (q := 2 ^ 18) in *; clearbody q; nia).
      apply wp_bind, wp_rd; [lia|]. apply wp_bind, wp_rd; [lia|]. fold x y. apply wp_bind, wp_ck; [lia|]. apply wp_bind, wp_rd; [lia|]. pose proof (B1 (i + j) ltac:(lia)) as Bij. replace (i + j <? i + j) with false in Bij by lia.
      apply wp_bind, wp_ck; [lia|]. apply wp_wr; [lia|]. split; [now rewrite zlen_zupd|]. split.
      * intros k Hk. rewrite znth_zupd by lia. destruct (Z.eqb_spec k (i + j)) as [->|Hn]; [replace (i + j <? i + (j + 1)) with true by lia; lia|]. replace (k <? i + (j + 1)) with (k <? i + j) by lia. now apply B1.
      * unfold gval. rewrite bval_zupd by lia. fold (gval t1). rewrite V1. rewrite bps_succ by lia. fold y. rewrite Z.pow_add_r by lia. unfold gval. ring.
    + intros t1 (L1 & B1 & V1). split; [exact L1|]. split; [intros k Hk; pose proof (B1 k Hk); destruct (k <? i + 16); lia|]. rewrite V1, bps_succ by lia. rewrite (bps_full 65536 b) by lia. unfold gval. ring.
  - intros t (Lt & Bt & V). split; [exact Lt|]. split; [exact Bt|]. rewrite bps_full in V by lia. exact V.
Qed.
Lemma bval_split b l k : 0 <= k <= zlen l -> bval b l = bps b l k + b ^ k * bval b (skipn (Z.to_nat k) l).
Proof.
  intros H. rewrite <- (firstn_skipn (Z.to_nat k) l) at 1. rewrite bval_app. unfold bps, pre. replace (zlen (firstn (Z.to_nat k) l)) with k by (unfold zlen in *; rewrite firstn_length; lia). reflexivity.
Qed.
Lemma znth_skipn l k i : 0 <= k -> 0 <= i -> znth (skipn (Z.to_nat k) l) i = znth l (k + i).
Proof. intros Hk Hi. unfold znth. replace (Z.to_nat (k + i)) with (Z.to_nat k + Z.to_nat i)%nat by lia. generalize (Z.to_nat k) as n. intros n. revert l. induction n as [|n IH]; intros l; [reflexivity|]. destruct l; [destruct (Z.to_nat i); reflexivity|]. cbn [skipn Nat.add nth]. apply IH. Qed.
Lemma mul_fold t : zlen t = 31 -> (forall k, 0 <= k < 31 -> - (16 * CB) <= znth t k <= 16 * CB) ->
  wp (t <- for_loop 15 (fun i t =>
         x <- rd 0 t (i + 16) ;; v <- ck (38 * x) ;; u <- rd 0 t i ;; w <- ck (u + v) ;; wr t i w) t ;;
      for_loop 16 (fun i o => x <- rd 0 t i ;; wr o i x) (zeros 16))
  (fun o => bounded (2 ^ 46) o /\ gval o == gval t).
Proof.
  intros Lt Bt. pose proof (eq_refl : CB = 2 ^ 36) as HC. apply wp_bind. set (h := skipn (Z.to_nat 16) t).
  assert (Lh: zlen h = 15) by (unfold h; rewrite zlen_skipn; change (Z.of_nat (Z.to_nat 16)) with 16; lia).
  apply (wp_for_loop (fun i t' => zlen t' = 31 /\ (forall k, i <= k < 31 -> znth t' k = znth t k) /\ (forall k, 0 <= k < 31 -> - (39 * 16 * CB) <= znth t' k <= 39 * 16 * CB) /\ bps 65536 t' 16 = bps 65536 t 16 + 38 * bps 65536 h i)); [lia| | |].
  - split; [exact Lt|]. split; [reflexivity|]. split; [intros k Hk; pose proof (Bt k Hk); lia|]. rewrite bps_0. ring.
  - intros i t' Hi (L' & E' & B' & V'). apply wp_bind, wp_rd; [lia|]. rewrite E' by lia. pose proof (Bt (i + 16) ltac:(lia)). apply wp_bind, wp_ck; [lia|]. apply wp_bind, wp_rd; [lia|]. rewrite E' by lia. pose proof (Bt i ltac:(lia)).
    apply wp_bind, wp_ck; [lia|]. apply wp_wr; [lia|]. split; [now rewrite zlen_zupd|]. split; [intros k Hk; rewrite znth_zupd_other by lia; apply E'; lia|]. split; [intros k Hk; rewrite znth_zupd by lia; destruct (k =? i); [lia|now apply B']|].
    rewrite bps_zupd by lia. rewrite V', E' by lia. rewrite (bps_succ 65536 h) by lia. replace (znth h i) with (znth t (i + 16)) by (unfold h; rewrite znth_skipn by lia; f_equal; lia). ring.
  - intros t' (L' & E' & B' & V'). apply (wp_for_loop (fun i o => zlen o = 16 /\ (forall j, 0 <= j < 16 -> - 2 ^ 46 <= znth o j <= 2 ^ 46) /\ bps 65536 o i = bps 65536 t' i)); [lia| | |].
    + split; [reflexivity|]. split; [|reflexivity]. intros j Hj. rewrite znth_zeros. lia.
    + intros i o Hi (Lo & Bo & Vo). apply wp_bind, wp_rd; [lia|]. apply wp_wr; [lia|]. split; [now rewrite zlen_zupd|]. pose proof (B' i ltac:(lia)). split; [intros j Hj; rewrite znth_zupd by lia; destruct (j =? i); [lia|now apply Bo]|].
      rewrite !bps_succ by (rewrite ?zlen_zupd; lia). rewrite bps_zupd_ge, znth_zupd_same by lia. now rewrite Vo.
    + intros o (Lo & Bo & Vo). split; [split; assumption|]. unfold gval. rewrite <- (bps_full 65536 o 16) by lia. rewrite Vo, V'. rewrite (bval_split 65536 t 16) by lia. fold h. rewrite zpow256, p256. rewrite (bps_full 65536 h) by lia. reflexivity.
Qed.
(** result of a multiplication: nearly reduced limbs and the right residue *)
Definition fe (l : list Z) (v : Z) : Prop := norm 1 l /\ gval l == v.
Lemma fe_bounded l v : fe l v -> bounded 65574 l.
Proof. intros [N _]. apply (norm_bounded 1) in N; [exact N|lia]. Qed.
Lemma bounded_le B B' l : bounded B l -> B <= B' -> bounded B' l.
Proof. intros [L H] HB. split; [exact L|]. intros i Hi. pose proof (H i Hi). lia. Qed.
Lemma gfM_ok a b : bounded (2 ^ 18) a -> bounded (2 ^ 18) b -> wp (gfM a b) (fun o => fe o (gval a * gval b)).
Proof.
  intros Ha Hb. unfold gfM. apply wp_bind. eapply wp_mono; [apply mul_rows; assumption|]. intros t (Lt & Bt & Vt). cbv beta.
  pose proof (mul_fold t Lt Bt) as F.
  assert (A: forall (e : outcome (list Z)) (k : list Z -> outcome (list Z)) (k2 : list Z -> outcome (list Z)) Q, wp (x <- (y <- e ;; k y) ;; k2 x) Q -> wp (y <- e ;; x <- k y ;; k2 x) Q) by (intros e k k2 Q; destruct e; exact (fun H => H)).
  apply A. clear A. apply wp_bind. eapply wp_mono; [exact F|]. clear F. intros o (Bo & Vo). cbv beta.
  rewrite car_carf by (apply (bounded_le (2 ^ 46)); [exact Bo|lia]). cbn [bind]. pose proof (carf_norm (2 ^ 46) (2 ^ 32) o Bo ltac:(lia) ltac:(lia) ltac:(lia)) as N1.
  pose proof (norm_bounded (2 ^ 32) _ ltac:(lia) N1) as B1. rewrite car_carf by (apply (bounded_le _ _ _ B1); lia). apply wp_ret. split; [apply (norm_carf (2 ^ 32)); [exact N1|lia]|].
  rewrite !carf_val by (try apply N1; apply Bo). rewrite Vo. apply eqp_of_eq. exact Vt.
Qed.
Lemma fe_eqp l v w : fe l v -> v == w -> fe l w.
Proof. intros [N E] H. split; [exact N|]. now rewrite E. Qed.
(** the form used below: operands known up to congruence *)
Lemma gfM_fe Ba Bb a b va vb : bounded Ba a -> bounded Bb b -> Ba <= 2 ^ 18 -> Bb <= 2 ^ 18 -> gval a == va -> gval b == vb -> wp (gfM a b) (fun o => fe o (va * vb)).
Proof.
  intros Ha Hb HA HB Ea Eb. eapply wp_mono; [apply gfM_ok; eapply bounded_le; eassumption|]. intros o Ho. eapply fe_eqp; [exact Ho|]. now rewrite Ea, Eb.
Qed.
Lemma gfM_fe2 a b va vb : fe a va -> fe b vb -> wp (gfM a b) (fun o => fe o (va * vb)).
Proof. intros Ha Hb. apply (gfM_fe 65574 65574); try (eapply fe_bounded; eassumption); try lia; [apply Ha|apply Hb]. Qed.
Lemma gfS_fe a va : fe a va -> wp (gfS a) (fun o => fe o (va * va)).
Proof. intros H. now apply gfM_fe2. Qed.

(** ** powers *)
Lemma inv_fe B i v : bounded B i -> B <= 2 ^ 18 -> gval i == v -> wp (inv25519 i) (fun o => fe o (v ^ (edp - 2))).
Proof.
  intros HB HB' HV. unfold inv25519.
  (* exponent after k steps *)
  set (ex := fun k : Z => 2 ^ (k + 1) - 1 - (if 252 <=? k then 2 ^ (k - 252) else 0) - (if 250 <=? k then 2 ^ (k - 250) else 0)).
  assert (Hex: forall k, 0 <= k < 254 -> ex (k + 1) = 2 * ex k + (if negb (253 - k =? 2) && negb (253 - k =? 4) then 1 else 0)).
  { intros k Hk. unfold ex. replace (k + 1 + 1) with (Z.succ (k + 1)) by lia. rewrite Z.pow_succ_r by lia.
    destruct (Z.leb_spec 252 (k + 1)), (Z.leb_spec 250 (k + 1)), (Z.leb_spec 252 k), (Z.leb_spec 250 k); try lia;
    destruct (Z.eqb_spec (253 - k) 2), (Z.eqb_spec (253 - k) 4); try lia; cbn [negb andb];
    rewrite ?(Z.add_sub_swap k 1), ?(Z.pow_add_r 2 (k - 252) 1), ?(Z.pow_add_r 2 (k - 250) 1), ?Z.pow_1_r by lia;
    try (replace k with 251 by lia); try (replace k with 249 by lia); try lia; try reflexivity. }
  assert (Hpos: forall k, 0 <= k <= 254 -> 0 <= ex k).
  { intros k [Hk Hk']. revert Hk'. pattern k. revert k Hk. apply natlike_ind; [intros _; unfold ex; cbn; lia|]. intros k Hk IH Hk'. unfold Z.succ. rewrite Hex by lia. specialize (IH ltac:(lia)). destruct (negb (253 - k =? 2) && negb (253 - k =? 4)); lia. }
  apply (wp_for_loop (fun k c => if k =? 0 then c = i else fe c (v ^ ex k))); [lia|reflexivity| |].
  - intros k c Hk Hc. cbv zeta. assert (Hc': bounded (2 ^ 18) c /\ gval c == v ^ ex k).
    { destruct (Z.eqb_spec k 0) as [->|Hn]; [subst c; split; [eapply bounded_le; eassumption|rewrite HV; unfold ex; apply eqp_of_eq; symmetry; apply Z.pow_1_r]|]. split; [eapply bounded_le; [eapply fe_bounded; exact Hc|lia]|apply Hc]. }
    destruct Hc' as [Bc Vc]. replace (k + 1 =? 0) with false by lia. rewrite Hex by lia. pose proof (Hpos k ltac:(lia)).
    assert (HS: wp (gfS c) (fun o => fe o (v ^ (2 * ex k)))).
    { eapply wp_mono; [apply (gfM_fe (2 ^ 18) (2 ^ 18) c c); [exact Bc|exact Bc|lia|lia|exact Vc|exact Vc]|]. intros o Ho. eapply fe_eqp; [exact Ho|]. apply eqp_of_eq. rewrite <- Z.pow_add_r by lia. f_equal. lia. }
    apply wp_bind. eapply wp_mono; [exact HS|]. intros c1 H1. cbv beta. destruct (negb (253 - k =? 2) && negb (253 - k =? 4)).
    + eapply wp_mono; [apply (gfM_fe 65574 B c1 i); [eapply fe_bounded; exact H1|exact HB|lia|exact HB'|apply H1|exact HV]|]. intros o Ho. eapply fe_eqp; [exact Ho|]. apply eqp_of_eq. rewrite Z.pow_add_r, Z.pow_1_r by lia. reflexivity.
    + apply wp_ret. rewrite Z.add_0_r. exact H1.
  - intros c Hc. cbn [Z.eqb] in Hc. replace (ex 254) with (edp - 2) in Hc by (vm_compute; reflexivity). exact Hc.
Qed.
Lemma pow2523_fe B i v : bounded B i -> B <= 2 ^ 18 -> gval i == v -> wp (pow2523 i) (fun o => fe o (v ^ ((edp - 5) / 8))).
Proof.
  intros HB HB' HV. unfold pow2523.
  set (ex := fun k : Z => 2 ^ (k + 1) - 1 - (if 250 <=? k then 2 ^ (k - 250) else 0)).
  assert (Hex: forall k, 0 <= k < 251 -> ex (k + 1) = 2 * ex k + (if negb (250 - k =? 1) then 1 else 0)).
  { intros k Hk. unfold ex. replace (k + 1 + 1) with (Z.succ (k + 1)) by lia. rewrite Z.pow_succ_r by lia.
    destruct (Z.leb_spec 250 (k + 1)), (Z.leb_spec 250 k); try lia;
    destruct (Z.eqb_spec (250 - k) 1); try lia; cbn [negb andb];
    rewrite ?(Z.add_sub_swap k 1), ?(Z.pow_add_r 2 (k - 250) 1), ?Z.pow_1_r by lia;
    try (replace k with 249 by lia); try lia; try reflexivity. }
  assert (Hpos: forall k, 0 <= k <= 251 -> 0 <= ex k).
  { intros k [Hk Hk']. revert Hk'. pattern k. revert k Hk. apply natlike_ind; [intros _; unfold ex; cbn; lia|]. intros k Hk IH Hk'. unfold Z.succ. rewrite Hex by lia. specialize (IH ltac:(lia)). destruct (negb (250 - k =? 1)); lia. }
  apply (wp_for_loop (fun k c => if k =? 0 then c = i else fe c (v ^ ex k))); [lia|reflexivity| |].
  - intros k c Hk Hc. cbv zeta. assert (Hc': bounded (2 ^ 18) c /\ gval c == v ^ ex k).
    { destruct (Z.eqb_spec k 0) as [->|Hn]; [subst c; split; [eapply bounded_le; eassumption|rewrite HV; unfold ex; apply eqp_of_eq; symmetry; apply Z.pow_1_r]|]. split; [eapply bounded_le; [eapply fe_bounded; exact Hc|lia]|apply Hc]. }
    destruct Hc' as [Bc Vc]. replace (k + 1 =? 0) with false by lia. rewrite Hex by lia. pose proof (Hpos k ltac:(lia)).
    assert (HS: wp (gfS c) (fun o => fe o (v ^ (2 * ex k)))).
    { eapply wp_mono; [apply (gfM_fe (2 ^ 18) (2 ^ 18) c c); [exact Bc|exact Bc|lia|lia|exact Vc|exact Vc]|]. intros o Ho. eapply fe_eqp; [exact Ho|]. apply eqp_of_eq. rewrite <- Z.pow_add_r by lia. f_equal. lia. }
    apply wp_bind. eapply wp_mono; [exact HS|]. intros c1 H1. cbv beta. destruct (negb (250 - k =? 1)).
    + eapply wp_mono; [apply (gfM_fe 65574 B c1 i); [eapply fe_bounded; exact H1|exact HB|lia|exact HB'|apply H1|exact HV]|]. intros o Ho. eapply fe_eqp; [exact Ho|]. apply eqp_of_eq. rewrite Z.pow_add_r, Z.pow_1_r by lia. reflexivity.
    + apply wp_ret. rewrite Z.add_0_r. exact H1.
  - intros c Hc. cbn [Z.eqb] in Hc. replace (ex 251) with ((edp - 5) / 8) in Hc by (vm_compute; reflexivity). exact Hc.
Qed.
