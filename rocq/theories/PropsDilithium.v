(** Property theorems about the Dilithium-2 implementation (C22-C30).

    The model is in DilReduce.v, DilNtt.v and following files; the specification
    [Spec] (DilSpec.v) does not depend on the model.  A result [Ret r] also says
    that no signed operation overflowed on the way. *)
From Verif Require Import Base SpongePure SpongeProofs DilReduce DilReduceProofs Tab DilNtt DilNttProofs DilNttAlg DilSpec DilSpecProofs DilPoly DilPolyProofs.

(** ** C22: modular reductions *)
Theorem C22_montgomery_reduce : forall a, - 2 ^ 31 * Spec.q < a < 2 ^ 31 * Spec.q ->
  exists r, montgomery_reduce a = Ret r /\ Spec.cong (2 ^ 32 * r) a /\ - Spec.q < r < Spec.q.
Proof.
  intros a H. exists (mont a). split; [apply montgomery_reduce_ok; unfold Q; unfold Spec.q in H; lia|].
  split; [apply cg_cong; constructor; apply mont_cong|now apply mont_range_strict].
Qed.
Print Assumptions C22_montgomery_reduce.
Example C22_montgomery_witness : montgomery_reduce (-123456789012345) = Ret 3424520.
Proof. reflexivity. Qed.

(** The source comment includes the end points |a| = 2^31 q; there the result is +-q,
    outside the documented open interval. *)
Theorem C22_montgomery_documented_bound_refuted :
  ~ (forall a, - 2 ^ 31 * Spec.q <= a <= 2 ^ 31 * Spec.q ->
     exists r, montgomery_reduce a = Ret r /\ - Spec.q < r < Spec.q).
Proof.
  intros H. destruct (H (2 ^ 31 * Spec.q)) as (r & E & R); [unfold Spec.q; lia|].
  vm_compute in E. injection E as <-. unfold Spec.q in R. lia.
Qed.
Print Assumptions C22_montgomery_documented_bound_refuted.

Theorem C22_reduce32 : forall a, - 2 ^ 31 <= a <= 2 ^ 31 - 2 ^ 22 - 1 ->
  exists r, reduce32 a = Ret r /\ Spec.cong r a /\ - 6283009 <= r <= 6283008.
Proof.
  intros a H. exists (red32 a). split; [now apply reduce32_ok|]. split; [apply cg_cong, red32_eqm|now apply red32_range].
Qed.
Print Assumptions C22_reduce32.
Example C22_reduce32_witness : reduce32 (-2147483648) = Ret (-2096896). Proof. reflexivity. Qed.

(** The source comment states r <= 6283007; the largest admitted input gives 6283008. *)
Theorem C22_reduce32_documented_bound_refuted :
  ~ (forall a, - 2 ^ 31 <= a <= 2 ^ 31 - 2 ^ 22 - 1 -> exists r, reduce32 a = Ret r /\ - 6283009 <= r <= 6283007).
Proof.
  intros H. destruct (H (2 ^ 31 - 2 ^ 22 - 1)) as (r & E & R); [lia|]. vm_compute in E. injection E as <-. lia.
Qed.
Print Assumptions C22_reduce32_documented_bound_refuted.

Theorem C22_caddq : forall a, - Spec.q < a < Spec.q -> caddq a = Ret (a mod Spec.q).
Proof.
  intros a H. rewrite caddq_ok by (unfold Spec.q in H; lia). f_equal. now apply cadd_mod.
Qed.
Print Assumptions C22_caddq.
Theorem C22_freeze : forall a, - 2 ^ 31 <= a <= 2 ^ 31 - 2 ^ 22 - 1 -> freeze a = Ret (a mod Spec.q).
Proof. exact freeze_ok. Qed.
Print Assumptions C22_freeze.
Example C22_freeze_witness : freeze (-5) = Ret 8380412. Proof. reflexivity. Qed.

(** ** C23: rounding *)
Theorem C23_power2round : forall a, 0 <= a < Spec.q ->
  power2round a = Ret (Spec.Power2Round a) /\
  (let '(a1, a0) := Spec.Power2Round a in a = a1 * 2 ^ 13 + a0 /\ - 2 ^ 12 < a0 <= 2 ^ 12 /\ 0 <= a1 < 2 ^ 10).
Proof.
  intros a H. change Spec.q with Q in H. rewrite <- power2round_spec by exact H. split.
  - apply power2round_ok. unfold Q in H. lia.
  - split; [apply p2r_recombine|]. split; [pose proof (p2r0_range a); lia|]. pose proof (p2r1_range a). unfold Q in *. lia.
Qed.
Print Assumptions C23_power2round.
Example C23_power2round_witness : power2round 8380416 = Ret (1023, 0) /\ power2round 4097 = Ret (1, -4095).
Proof. split; vm_compute; reflexivity. Qed.

Theorem C23_decompose : forall a, 0 <= a < Spec.q ->
  decompose a = Ret (Spec.Decompose a) /\
  (let '(a1, a0) := Spec.Decompose a in
   Spec.cong (a1 * (2 * Spec.gamma2) + a0) a /\ - Spec.gamma2 <= a0 <= Spec.gamma2 /\ 0 <= a1 < 44 /\
   (a0 = - Spec.gamma2 -> a1 = 0)).
Proof.
  intros a H. change Spec.q with Q in H. rewrite <- decompose_spec by exact H. split; [now apply decompose_ok|].
  destruct (dec_range a H) as (R1 & R0 & R2 & R3). change Spec.gamma2 with GAMMA2.
  split; [|split; [exact R0|split; [lia|exact R2]]].
  unfold Spec.cong. change Spec.q with Q. destruct R3; [exists 0|exists (-1)]; lia.
Qed.
Print Assumptions C23_decompose.
Example C23_decompose_witness : decompose 8380416 = Ret (0, -1) /\ decompose 8285185 = Ret (0, -95232) /\ decompose 8285184 = Ret (43, 95232).
Proof. repeat split; reflexivity. Qed.

(** ** C24: hints *)
Theorem C24_use_hint_spec : forall a h, 0 <= a < Spec.q -> use_hint a h = Ret (Spec.UseHint (negb (h =? 0)) a).
Proof. intros a h H. rewrite use_hint_ok by exact H. f_equal. now apply use_hint_spec. Qed.
Print Assumptions C24_use_hint_spec.

(** make_hint(a0, a1) is set exactly when adding a0 to a1*2*gamma2 changes the high part *)
Theorem C24_make_hint_spec : forall a0 a1, 0 <= a1 < 44 -> - (2 * Spec.gamma2) < a0 < 2 * Spec.gamma2 ->
  make_hint a0 a1 = Z.b2z (Spec.MakeHint (- a0) (a1 * (2 * Spec.gamma2) + a0)).
Proof.
  intros a0 a1 H1 H0. unfold Spec.MakeHint.
  rewrite make_hint_exact; [|lia|exact H0]. change Spec.gamma2 with GAMMA2.
  replace (a1 * (2 * GAMMA2) + a0 + - a0) with (a1 * (2 * GAMMA2)) by lia.
  replace (Spec.HighBits (a1 * (2 * GAMMA2))) with a1; [destruct (_ =? a1); reflexivity|].
  rewrite HighBits_any. assert (0 <= a1 * (2 * GAMMA2) < Q) by (unfold GAMMA2, Q; lia). rewrite Z.mod_small by lia.
  destruct (dec_unique (a1 * (2 * GAMMA2)) a1 0) as [E _]; [lia|unfold GAMMA2; lia|lia| |now rewrite E].
  rewrite Z.add_0_r. now apply Z.mod_small.
Qed.
Print Assumptions C24_make_hint_spec.

(** For every residue w with high part w1 and low part w0, and every perturbation e such
    that |w0 + e| < 2*gamma2: applying the hint computed from (w0 + e, w1) to w + e
    gives back w1. *)
Theorem C24_hint_recovers : forall w e, 0 <= w < Spec.q ->
  Z.abs (Spec.LowBits w + e) < 2 * Spec.gamma2 ->
  use_hint ((w + e) mod Spec.q) (make_hint (Spec.LowBits w + e) (Spec.HighBits w)) = Ret (Spec.HighBits w).
Proof.
  intros w e Hw He. unfold Spec.LowBits, Spec.HighBits in *. rewrite <- decompose_spec in * by exact Hw. cbn [fst snd] in *.
  destruct (dec_range w Hw) as (R1 & R0 & _ & R3). change Spec.q with Q. change Spec.gamma2 with GAMMA2 in *.
  rewrite use_hint_ok by (apply Z.mod_pos_bound; reflexivity). f_equal.
  apply hint_recovers; [lia|lia|apply Z.mod_pos_bound; reflexivity|].
  destruct R3 as [R3|R3]; [f_equal; lia|]. rewrite <- (Z_mod_plus_full (dec1 w * (2 * GAMMA2) + (dec0 w + e)) 1 Q). f_equal. lia.
Qed.
Print Assumptions C24_hint_recovers.
Example C24_hint_witness :
  use_hint ((95000 + 400) mod 8380417) (make_hint (95000 + 400) 0) = Ret 0 /\ make_hint 95400 0 = 1 /\ decompose 95400 = Ret (1, -95064).
Proof. repeat split; reflexivity. Qed.

Theorem C24_no_hint : forall a, 0 <= a < Spec.q -> use_hint a 0 = Ret (Spec.HighBits a).
Proof. intros a H. rewrite use_hint_ok by exact H. now rewrite (HighBits_dec a H). Qed.
Print Assumptions C24_no_hint.
(** a hint moves the high part by one step modulo 44 *)
Theorem C24_hint_step : forall a h, 0 <= a < Spec.q -> h <> 0 ->
  exists r, use_hint a h = Ret r /\ 0 <= r < 44 /\
    (r = (Spec.HighBits a + 1) mod 44 \/ r = (Spec.HighBits a - 1) mod 44).
Proof.
  intros a h H Hh. exists (uhint a h). split; [now apply use_hint_ok|].
  split; [pose proof (uhint_range a h H); lia|]. rewrite use_hint_spec by exact H. unfold Spec.UseHint, Spec.HighBits.
  replace (h =? 0) with false by lia. cbn [negb andb]. destruct (Spec.Decompose a) as [r1 r0]. cbn [fst].
  destruct (0 <? r0) eqn:E; [now left|]. replace (r0 <=? 0) with true by lia. now right.
Qed.
Print Assumptions C24_hint_step.

(** ** C25: number-theoretic transform *)
(** position i of ntt(a) is a(1753^(2 brv(i) + 1)), as in FIPS 204 section 7.5 *)
Theorem C25_ntt_evaluates : forall a B, Spec.poly_within B a -> 0 <= B -> B + 8 * Spec.q < 2 ^ 31 ->
  exists r, ntt a = Ret r /\ Spec.poly_within (B + 8 * Spec.q) r /\
    (forall i, 0 <= i < 256 -> Spec.cong (nth (Z.to_nat i) r 0) (Spec.eval a (1753 ^ (2 * Spec.brv8 i + 1)))).
Proof.
  intros a B Ha HB0 HB. apply spec_within in Ha. destruct Ha as [HL Hb].
  destruct (ntt_ok a B HL HB0 HB Hb) as (E & Hb' & HL'). exists (nttp a). split; [exact E|]. split.
  - split; [unfold zlen in HL'; lia|]. apply Forall_ix. rewrite HL'. exact Hb'.
  - intros i Hi. apply cg_cong. fold (ix (nttp a) i). unfold nttp. rewrite ix_tab by lia.
    destruct (ntt_eval (ix a) i Hi) as [Ee _]. rewrite Ee, spec_eval. apply evalp_cong. now apply omega_spec.
Qed.
Print Assumptions C25_ntt_evaluates.

Example C25_ntt_witness : exists r, ntt (zeros 255 ++ [1]) = Ret r /\ nth 3 r 0 = -1054478.
Proof. eexists. split; vm_compute; reflexivity. Qed.

(** The inverse transform of the transform is the polynomial times 2^32 (the Montgomery
    factor); the reduction in between keeps the values in the inverse's domain. *)
Theorem C25_inverse : forall a B, Spec.poly_within B a -> 0 <= B -> B + 8 * Spec.q < 2 ^ 31 - 2 ^ 22 ->
  exists x y r, ntt a = Ret x /\ poly_reduce x = Ret y /\ invntt_tomont y = Ret r /\
    Spec.poly_within (Spec.q - 1) r /\
    (forall i, (i < 256)%nat -> Spec.cong (nth i r 0) (2 ^ 32 * nth i a 0)).
Proof.
  intros a B Ha HB0 HB. apply spec_within in Ha. destruct Ha as [HL Hb]. change Spec.q with Q in *.
  destruct (ntt_ok a B HL HB0 ltac:(lia) Hb) as (E & Hb' & HL'). exists (nttp a).
  exists (tab 256 (fun i => red32 (ix (nttp a) i))). set (y := tab 256 _).
  assert (Hy: bounded Q y).
  { apply bounded_tab. intros i Hi. specialize (Hb' i Hi). pose proof (red32_small_bound (ix (nttp a) i)). unfold Q in *. lia. }
  destruct (invntt_ok y (zlen_tab256 _) Hy) as (E2 & Hb2 & HL2). exists (inttp y).
  split; [exact E|]. split; [apply poly_reduce_ok; [exact HL'|]; eapply bounded_le; [|exact Hb']; lia|]. split; [exact E2|]. split.
  - split; [unfold zlen in HL2; lia|]. apply Forall_ix. rewrite HL2. exact Hb2.
  - intros i Hi. apply cg_cong. rewrite <- (Nat2Z.id i). fold (ix (inttp y) (Z.of_nat i)) (ix a (Z.of_nat i)).
    unfold inttp. rewrite ix_tab by lia. apply intt_ntt; [|lia]. intros k Hk. unfold y. rewrite ix_tab by lia. rewrite red32_eqm.
    unfold nttp. now rewrite ix_tab by lia.
Qed.
Print Assumptions C25_inverse.

(** Transform, multiply pointwise, transform back: the product modulo X^256 + 1 and q *)
Theorem C25_multiply : forall a b A B, Spec.poly_within A a -> Spec.poly_within B b -> 0 <= A -> 0 <= B ->
  (A + 8 * Spec.q) * (B + 8 * Spec.q) < 2 ^ 31 * Spec.q ->
  exists x y p r, ntt a = Ret x /\ ntt b = Ret y /\ poly_pointwise_montgomery x y = Ret p /\ invntt_tomont p = Ret r /\
    Spec.poly_within (Spec.q - 1) r /\
    (forall k, (k < 256)%nat -> Spec.cong (nth k r 0) (Spec.negacyclic a b k)).
Proof.
  intros a b A B Ha Hb HA HB HAB. apply spec_within in Ha, Hb. destruct Ha as [HLa Ha], Hb as [HLb Hb]. change Spec.q with Q in *.
  assert (A + 8 * Q < 2 ^ 31 /\ B + 8 * Q < 2 ^ 31) as [HA2 HB2] by (unfold Q in *; nia).
  destruct (ntt_ok a A HLa HA HA2 Ha) as (E1 & Ha' & HLa'). destruct (ntt_ok b B HLb HB HB2 Hb) as (E2 & Hb' & HLb').
  destruct (pointwise_ok (nttp a) (nttp b) _ _ HLa' HLb' Ha' Hb' HAB) as [E3 Hp].
  set (p := tab 256 (fun i => mont (ix (nttp a) i * ix (nttp b) i))) in *.
  assert (Hp': bounded Q p) by (eapply bounded_le; [|exact Hp]; lia).
  destruct (invntt_ok p (zlen_tab256 _) Hp') as (E4 & Hr & HLr).
  exists (nttp a), (nttp b), p, (inttp p). repeat (split; [assumption|]). split.
  - split; [unfold zlen in HLr; lia|]. apply Forall_ix. rewrite HLr. exact Hr.
  - intros k Hk. apply cg_cong. rewrite <- (Nat2Z.id k). rewrite spec_negacyclic by lia. fold (ix (inttp p) (Z.of_nat k)).
    unfold inttp. rewrite ix_tab by lia. apply ntt_mul; [|lia]. intros i Hi. unfold p, nttp. now rewrite !ix_tab by lia.
Qed.
Print Assumptions C25_multiply.
(** the bounds that occur in signing (challenge times secret, matrix times masking vector) meet the hypothesis *)
Example C25_multiply_witness :
  (1 + 8 * Spec.q) * (2 + 8 * Spec.q) < 2 ^ 31 * Spec.q /\ (2 ^ 17 + 8 * Spec.q) * (8380416 + 8 * Spec.q) < 2 ^ 31 * Spec.q /\
  Spec.poly_within 1 (zeros 255 ++ [1]) /\ Spec.negacyclic (zeros 255 ++ [1]) (zeros 255 ++ [1]) 254 = -1.
Proof. split; [reflexivity|]. split; [reflexivity|]. split; [|reflexivity]. split; [reflexivity|]. repeat constructor; lia. Qed.
