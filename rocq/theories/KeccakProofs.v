(** KeccakF1600_StatePermute computes Keccak-f[1600] of FIPS 202. *)
From Verif Require Import Base Keccak KeccakSpec.

(** *** 64-bit words *)
Definition word64 (a : Z) : Prop := 0 <= a < 2 ^ 64.
Lemma w64_mod x : w64 x = x mod 2 ^ 64.
Proof. unfold w64. change mask64 with (Z.ones 64). now rewrite Z.land_ones by lia. Qed.
Lemma w64_word x : word64 (w64 x).
Proof. unfold word64. rewrite w64_mod. apply Z.mod_pos_bound. lia. Qed.
Lemma w64_id x : word64 x -> w64 x = x.
Proof. intros H. rewrite w64_mod. apply Z.mod_small. exact H. Qed.
Lemma w64_testbit x z : 0 <= z -> Z.testbit (w64 x) z = (Z.testbit x z && (z <? 64))%bool.
Proof.
  intros H. unfold w64. rewrite Z.land_spec. change mask64 with (Z.ones 64).
  rewrite Z.testbit_ones by lia. f_equal. lia.
Qed.
Lemma word64_testbit x z : word64 x -> 64 <= z -> Z.testbit x z = false.
Proof. intros H Hz. rewrite <- (w64_id x H), w64_testbit by lia. replace (z <? 64) with false by lia. apply andb_false_r. Qed.
Lemma word64_bits_eq x : (forall z, 64 <= z -> Z.testbit x z = false) -> w64 x = x.
Proof.
  intros H. apply Z.bits_inj'. intros z Hz. rewrite w64_testbit by lia.
  destruct (Z.ltb_spec z 64); [apply andb_true_r|]. rewrite H by lia. reflexivity.
Qed.
Lemma word64_lxor a b : word64 a -> word64 b -> word64 (Z.lxor a b).
Proof.
  intros Ha Hb. rewrite <- (word64_bits_eq (Z.lxor a b)); [apply w64_word|].
  intros z Hz. rewrite Z.lxor_spec, !word64_testbit by assumption. reflexivity.
Qed.
Lemma word64_land_l a b : word64 a -> word64 (Z.land a b).
Proof.
  intros Ha. rewrite <- (word64_bits_eq (Z.land a b)); [apply w64_word|].
  intros z Hz. rewrite Z.land_spec, (word64_testbit a) by assumption. reflexivity.
Qed.
Lemma word64_not a : word64 (not64 a).
Proof. apply w64_word. Qed.
Lemma not64_testbit a z : 0 <= z < 64 -> Z.testbit (not64 a) z = negb (Z.testbit a z).
Proof.
  intros H. unfold not64. rewrite w64_testbit, Z.lnot_spec by lia.
  replace (z <? 64) with true by lia. apply andb_true_r.
Qed.
Lemma ROL_testbit a n z : word64 a -> 0 < n < 64 -> 0 <= z < 64 ->
  Z.testbit (ROL a n) z = Z.testbit a ((z + (64 - n)) mod 64).
Proof.
  intros Ha Hn Hz. unfold ROL. rewrite Z.lxor_spec, w64_testbit, Z.shiftl_spec, Z.shiftr_spec by lia.
  replace (z <? 64) with true by lia. rewrite andb_true_r.
  destruct (Z.ltb_spec z n).
  - rewrite (Z.testbit_neg_r a (z - n)) by lia. rewrite xorb_false_l.
    rewrite Z.mod_small by lia. reflexivity.
  - rewrite (word64_testbit a (z + (64 - n))) by (assumption || lia). rewrite xorb_false_r.
    f_equal. replace (z + (64 - n)) with ((z - n) + 1 * 64) by lia.
    rewrite Z.mod_add, Z.mod_small by lia. reflexivity.
Qed.
Lemma word64_ROL a n : word64 a -> 0 < n < 64 -> word64 (ROL a n).
Proof.
  intros Ha Hn. unfold ROL. apply word64_lxor; [apply w64_word|].
  unfold word64 in *. rewrite Z.shiftr_div_pow2 by lia.
  assert (0 < 2 ^ (64 - n)) by (apply Z.pow_pos_nonneg; lia).
  split; [apply Z.div_pos; lia|]. apply Z.div_lt_upper_bound; [lia|]. nia.
Qed.

(** *** The round at lane level, as functions of the coordinates *)
Local Open Scope nat_scope.
Definition larray := nat -> nat -> Z.
Definition lane_of (S : list Z) : larray := fun x y => nth (5 * y + x) S 0%Z.
Definition to_lanes (A : larray) : list Z :=
  flat_map (fun y => map (fun x => A x y) (seq 0 5)) (seq 0 5).
Definition rot (a : Z) (n : nat) : Z := match n with O => a | _ => ROL a (Z.of_nat n) end.
Definition theta_l (A : larray) : larray :=
  let C x := Z.lxor (Z.lxor (Z.lxor (Z.lxor (A x 0) (A x 1)) (A x 2)) (A x 3)) (A x 4) in
  let D x := Z.lxor (C ((x + 4) mod 5)) (ROL (C ((x + 1) mod 5)) 1) in
  fun x y => Z.lxor (A x y) (D x).
Definition rho_l (A : larray) : larray := fun x y => rot (A x y) (rho_offset x y).
Definition pi_l (A : larray) : larray := fun x y => A ((x + 3 * y) mod 5) x.
Definition chi_l (A : larray) : larray :=
  fun x y => Z.lxor (A x y) (Z.land (not64 (A ((x + 1) mod 5) y)) (A ((x + 2) mod 5) y)).
Definition iota_l (c : Z) (A : larray) : larray :=
  fun x y => if Nat.eqb x 0 && Nat.eqb y 0 then Z.lxor (A x y) c else A x y.
Definition round_l (c : Z) (S : list Z) : list Z :=
  to_lanes (iota_l c (chi_l (pi_l (rho_l (theta_l (lane_of S)))))).

Lemma round_pair_lanes c0 c1 S : length S = 25 -> round_pair c0 c1 S = round_l c1 (round_l c0 S).
Proof.
  intros H. do 25 (destruct S as [|? S]; [discriminate H|]). destruct S; [|discriminate H].
  cbv -[Z.lxor Z.land ROL not64]. reflexivity.
Qed.

(** *** Bits against lanes *)
Definition bits_of_lane (a : Z) : list bool := map (fun z => Z.testbit a (Z.of_nat z)) (seq 0 64).
Definition bits_of_lanes (S : list Z) : list bool := flat_map bits_of_lane S.
Definition lanes_ok (S : list Z) : Prop := length S = 25 /\ Forall word64 S.

Definition R (A : sarray) (L : larray) : Prop :=
  forall x y, x < 5 -> y < 5 ->
  word64 (L x y) /\ forall z, z < 64 -> A x y z = Z.testbit (L x y) (Z.of_nat z).

Lemma nth_flat_map_const {A B} (f : A -> list B) n (dA : A) (dB : B) S k z :
  (forall a, length (f a) = n) -> z < n -> k < length S ->
  nth (n * k + z) (flat_map f S) dB = nth z (f (nth k S dA)) dB.
Proof.
  intros Hf Hz. revert k; induction S as [|a S IH]; intros k Hk; [cbn in Hk; lia|].
  cbn [flat_map]. destruct k as [|k].
  - rewrite Nat.mul_0_r. cbn [Nat.add nth]. rewrite app_nth1 by (rewrite Hf; lia). reflexivity.
  - rewrite app_nth2 by (rewrite Hf; nia). rewrite Hf. cbn [nth].
    replace (n * Datatypes.S k + z - n) with (n * k + z) by nia. apply IH. cbn in Hk. lia.
Qed.
Lemma length_bits_of_lane a : length (bits_of_lane a) = 64.
Proof. unfold bits_of_lane. now rewrite map_length, seq_length. Qed.
Lemma nth_bits_of_lane a z : z < 64 -> nth z (bits_of_lane a) false = Z.testbit a (Z.of_nat z).
Proof.
  intros H. unfold bits_of_lane.
  rewrite (nth_indep _ _ (Z.testbit a (Z.of_nat 0))) by (rewrite map_length, seq_length; lia).
  rewrite (map_nth (fun z => Z.testbit a (Z.of_nat z))). now rewrite seq_nth by lia.
Qed.

Lemma R_to_array S : lanes_ok S -> R (to_array (bits_of_lanes S)) (lane_of S).
Proof.
  intros [HL HF] x y Hx Hy. split.
  - rewrite Forall_forall in HF. apply HF. unfold lane_of. apply nth_In. lia.
  - intros z Hz. unfold to_array, bits_of_lanes.
    rewrite (nth_flat_map_const bits_of_lane 64 0%Z) by (try apply length_bits_of_lane; lia).
    now rewrite nth_bits_of_lane.
Qed.
Lemma mod5 x : x mod 5 < 5.  Proof. apply Nat.mod_upper_bound. lia. Qed.
Lemma R_theta A L : R A L -> R (theta A) (theta_l L).
Proof.
  intros HR. unfold theta, theta_l.
  set (Cb := fun x z => xorb (xorb (xorb (xorb (A x 0 z) (A x 1 z)) (A x 2 z)) (A x 3 z)) (A x 4 z)).
  set (Cl := fun x => Z.lxor (Z.lxor (Z.lxor (Z.lxor (L x 0) (L x 1)) (L x 2)) (L x 3)) (L x 4)).
  assert (HC: forall x, x < 5 -> word64 (Cl x) /\ forall z, z < 64 -> Cb x z = Z.testbit (Cl x) (Z.of_nat z)).
  { intros x Hx. split.
    - unfold Cl. repeat apply word64_lxor; apply HR; lia.
    - intros z Hz. unfold Cb, Cl. rewrite !Z.lxor_spec.
      rewrite !(fun y Hy => proj2 (HR x y Hx Hy) z Hz) by lia. reflexivity. }
  intros x y Hx Hy. destruct (HR x y Hx Hy) as [W B].
  destruct (HC ((x + 4) mod 5) (mod5 _)) as [W4 B4]. destruct (HC ((x + 1) mod 5) (mod5 _)) as [W1 B1].
  split.
  - apply word64_lxor; [exact W|]. apply word64_lxor; [exact W4|]. apply word64_ROL; [exact W1|lia].
  - intros z Hz. fold (Cl ((x + 4) mod 5)) (Cl ((x + 1) mod 5)). 
    change (xorb (A x y z) (xorb (Cb ((x + 4) mod 5) z) (Cb ((x + 1) mod 5) ((z + 63) mod 64)))
            = Z.testbit (Z.lxor (L x y) (Z.lxor (Cl ((x + 4) mod 5)) (ROL (Cl ((x + 1) mod 5)) 1))) (Z.of_nat z)).
    rewrite !Z.lxor_spec, ROL_testbit by (assumption || lia).
    rewrite B, B4, B1 by (assumption || (apply Nat.mod_upper_bound; lia)).
    rewrite Nat2Z.inj_mod. repeat f_equal. lia.
Qed.
Lemma rho_offset_lt x y : rho_offset x y < 64.
Proof. unfold rho_offset. apply Nat.mod_upper_bound. lia. Qed.
Lemma R_rho A L : R A L -> R (rho A) (rho_l L).
Proof.
  intros HR x y Hx Hy. destruct (HR x y Hx Hy) as [W B]. unfold rho, rho_l.
  pose proof (rho_offset_lt x y) as Ho. destruct (rho_offset x y) as [|o]; cbn [rot].
  - split; [exact W|]. intros z Hz. rewrite B by (apply Nat.mod_upper_bound; lia). f_equal.
    rewrite Nat.sub_0_r. f_equal. replace (z + 64) with (z + 1 * 64) by lia.
    rewrite Nat.mod_add by lia. apply Nat.mod_small; lia.
  - split; [apply word64_ROL; [exact W|lia]|]. intros z Hz.
    rewrite ROL_testbit by (assumption || lia). rewrite B by (apply Nat.mod_upper_bound; lia).
    rewrite Nat2Z.inj_mod. do 2 f_equal. lia.
Qed.
Lemma R_pi A L : R A L -> R (pi A) (pi_l L).
Proof. intros HR x y Hx Hy. unfold pi, pi_l. apply HR; [apply mod5|exact Hx]. Qed.
Lemma R_chi A L : R A L -> R (chi A) (chi_l L).
Proof.
  intros HR x y Hx Hy. unfold chi, chi_l.
  destruct (HR x y Hx Hy) as [W B]. destruct (HR ((x + 1) mod 5) y (mod5 _) Hy) as [W1 B1].
  destruct (HR ((x + 2) mod 5) y (mod5 _) Hy) as [W2 B2]. split.
  - apply word64_lxor; [exact W|]. apply word64_land_l. apply word64_not.
  - intros z Hz. rewrite Z.lxor_spec, Z.land_spec, not64_testbit, B, B1, B2 by lia.
    now rewrite xorb_true_r.
Qed.
Definition rc_ok (ir : nat) (c : Z) : Prop :=
  word64 c /\ forall z, z < 64 -> RC ir z = Z.testbit c (Z.of_nat z).
Lemma R_iota A L ir c : rc_ok ir c -> R A L -> R (iota ir A) (iota_l c L).
Proof.
  intros [Wc Bc] HR x y Hx Hy. destruct (HR x y Hx Hy) as [W B]. unfold iota, iota_l.
  destruct (Nat.eqb x 0 && Nat.eqb y 0)%bool; [|split; assumption]. split.
  - now apply word64_lxor.
  - intros z Hz. now rewrite Z.lxor_spec, B, Bc.
Qed.
Lemma R_to_string A L : R A L -> to_string A = bits_of_lanes (to_lanes L).
Proof.
  intros HR.
  assert (HL: forall x y, x < 5 -> y < 5 -> map (fun z => A x y z) (seq 0 64) = bits_of_lane (L x y)).
  { intros x y Hx Hy. unfold bits_of_lane. apply map_ext_in. intros z Hz. apply in_seq in Hz.
    apply HR; lia. }
  unfold to_string, bits_of_lanes, to_lanes.
  assert (HS: seq 0 5 = [0; 1; 2; 3; 4]) by reflexivity. rewrite HS. cbn [flat_map map app].
  rewrite !HL by lia. rewrite ?app_nil_r, <- ?app_assoc. reflexivity.
Qed.
Lemma R_lanes_ok L A : R A L -> lanes_ok (to_lanes L).
Proof.
  intros HR. split; [reflexivity|]. unfold to_lanes.
  apply Forall_forall. intros a Ha. apply in_flat_map in Ha. destruct Ha as (y & Hy & Ha).
  apply in_map_iff in Ha. destruct Ha as (x & <- & Hx). apply in_seq in Hx, Hy. apply HR; lia.
Qed.
Lemma round_l_bits ir c S : rc_ok ir c -> lanes_ok S ->
  lanes_ok (round_l c S) /\ to_string (Rnd (to_array (bits_of_lanes S)) ir) = bits_of_lanes (round_l c S).
Proof.
  intros Hc HS. pose proof (R_to_array S HS) as HR.
  apply R_theta, R_rho, R_pi, R_chi, (R_iota _ _ ir c Hc) in HR.
  split; [now apply R_lanes_ok in HR|]. now apply R_to_string.
Qed.

(** All 24 round constants agree with the LFSR of the standard. *)
Definition rc_check (ir : nat) (c : Z) : bool :=
  ((0 <=? c) && (c <? 2 ^ 64))%Z &&
  forallb (fun z => Bool.eqb (RC ir z) (Z.testbit c (Z.of_nat z))) (seq 0 64).
Lemma rc_check_ok ir c : rc_check ir c = true -> rc_ok ir c.
Proof.
  unfold rc_check. intros H. apply andb_true_iff in H. destruct H as [H1 H2].
  split; [unfold word64; lia|]. intros z Hz. rewrite forallb_forall in H2.
  apply eqb_prop, H2, in_seq. lia.
Qed.
Lemma rcs_ok : Forall2 rc_ok (seq 0 24) KeccakF_RoundConstants.
Proof.
  assert (H: forallb (fun p => rc_check (fst p) (snd p)) (combine (seq 0 24) KeccakF_RoundConstants) = true)
    by (vm_compute; reflexivity).
  unfold KeccakF_RoundConstants in *. cbn [seq combine forallb fst snd] in H.
  repeat (apply andb_true_iff in H; destruct H as [?H H]).
  cbn [seq]. repeat (constructor; [apply rc_check_ok; assumption|]). constructor.
Qed.

Lemma rounds_bits : forall n irs cs, length cs = 2 * n -> Forall2 rc_ok irs cs -> forall S, lanes_ok S ->
  lanes_ok (rounds cs S) /\
  fold_left (fun T ir => to_string (Rnd (to_array T) ir)) irs (bits_of_lanes S) = bits_of_lanes (rounds cs S).
Proof.
  induction n as [|n IH]; intros irs cs Hn H S HS.
  - destruct cs; [|discriminate]. inversion H; subst. split; [exact HS|reflexivity].
  - destruct cs as [|c0 [|c1 cs]]; cbn [length] in Hn; try lia.
    inversion H as [|i0 ? irs0 ? H0 H']; subst. inversion H' as [|i1 ? irs1 ? H1 H'']; subst.
    cbn [fold_left rounds]. rewrite round_pair_lanes by apply HS.
    destruct (round_l_bits i0 c0 S H0 HS) as [HS0 ->].
    destruct (round_l_bits i1 c1 (round_l c0 S) H1 HS0) as [HS1 ->].
    apply IH; try assumption. lia.
Qed.

Theorem keccakf_correct S : lanes_ok S ->
  lanes_ok (KeccakF1600_StatePermute S) /\
  keccak_f_bits (bits_of_lanes S) = bits_of_lanes (KeccakF1600_StatePermute S).
Proof. intros HS. apply (rounds_bits 12); [reflexivity|apply rcs_ok|exact HS]. Qed.
