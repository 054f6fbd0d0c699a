(** The arithmetic of reduce.c, rounding.c and ntt.c agrees with the specification. *)
From Verif Require Import Base SpongePure SpongeProofs DilReduce DilReduceProofs Tab DilNtt DilNttProofs DilNttAlg DilSpec.
From Coq Require Import Zpow_facts.
Ltac Zify.zify_post_hook ::= Z.div_mod_to_equations.

Lemma cg_cong a b : a == b <-> Spec.cong a b.
Proof.
  rewrite cg_iff. unfold Spec.cong. change Spec.q with Q. split.
  - intros H. exists (a / Q - b / Q). unfold Q in *. lia.
  - intros (k & ->). apply Z.mod_add. discriminate.
Qed.

Lemma power2round_spec a : 0 <= a < Q -> (p2r1 a, p2r0 a) = Spec.Power2Round a.
Proof.
  intros H. unfold Spec.Power2Round, Spec.mods. cbv zeta. change Spec.q with Q. rewrite (Z.mod_small a Q) by lia.
  change (2 ^ 13) with 8192.
  assert (E0: p2r0 a = if 8192 <? 2 * (a mod 8192) then a mod 8192 - 8192 else a mod 8192).
  { unfold p2r0, p2r1. destruct (Z.ltb_spec 8192 (2 * (a mod 8192))); lia. }
  rewrite <- E0. f_equal. unfold p2r0. replace (a - (a - p2r1 a * 8192)) with (p2r1 a * 8192) by lia.
  now rewrite Z.div_mul by lia.
Qed.

Lemma decompose_spec a : 0 <= a < Q -> (dec1 a, dec0 a) = Spec.Decompose a.
Proof.
  intros H. unfold Spec.Decompose, Spec.mods. cbv zeta. change Spec.q with Q. rewrite (Z.mod_small a Q) by lia.
  change (2 * Spec.gamma2) with 190464. unfold dec0. rewrite (dec1_div a H). cbv zeta. unfold GAMMA2, Q in *.
  change ((8380417 - 1) / 2) with 4190208. change (2 * 95232) with 190464.
  set (k := (a + 95232 - 1) / 190464). set (m := a mod 190464).
  assert (Hk: 190464 * k <= a + 95231 < 190464 * k + 190464) by (subst k; lia).
  assert (Hm: exists t, a = 190464 * t + m /\ 0 <= m < 190464) by (exists (a / 190464); subst m; lia).
  clearbody k m. destruct Hm as (t & Ha & Hm).
  destruct (Z.ltb_spec 190464 (2 * m)).
  - assert (k = t + 1) by lia. subst k.
    destruct (Z.eqb_spec (t + 1) 44) as [E|E].
    + replace (a - (m - 190464) =? 8380417 - 1) with true by lia.
      replace (4190208 <? a - 0 * 2 * 95232) with true by lia. f_equal. lia.
    + replace (a - (m - 190464) =? 8380417 - 1) with false by lia.
      replace (4190208 <? a - (t + 1) * 2 * 95232) with false by lia.
      replace (a - (m - 190464)) with ((t + 1) * 190464) by lia. rewrite Z.div_mul by lia. f_equal. lia.
  - assert (k = t) by lia. subst k.
    destruct (Z.eqb_spec t 44) as [E|E].
    + replace (a - m =? 8380417 - 1) with true by lia.
      replace (4190208 <? a - 0 * 2 * 95232) with true by lia. f_equal. lia.
    + replace (a - m =? 8380417 - 1) with false by lia.
      replace (4190208 <? a - t * 2 * 95232) with false by lia.
      replace (a - m) with (t * 190464) by lia. rewrite Z.div_mul by lia. f_equal. lia.
Qed.
Lemma HighBits_dec a : 0 <= a < Q -> Spec.HighBits a = dec1 a.
Proof. intros H. unfold Spec.HighBits. now rewrite <- decompose_spec. Qed.
Lemma HighBits_mod a : Spec.HighBits a = Spec.HighBits (a mod Q).
Proof. unfold Spec.HighBits, Spec.Decompose. change Spec.q with Q. cbv zeta. now rewrite Zmod_mod. Qed.
Lemma HighBits_any a : Spec.HighBits a = dec1 (a mod Q).
Proof. rewrite HighBits_mod. apply HighBits_dec. apply Z.mod_pos_bound. reflexivity. Qed.

Lemma use_hint_spec a h : 0 <= a < Q -> uhint a h = Spec.UseHint (negb (h =? 0)) a.
Proof.
  intros H. unfold Spec.UseHint. rewrite <- decompose_spec by exact H. unfold uhint.
  pose proof (dec_range a H) as (R & _). destruct (h =? 0); cbn [negb andb]; [reflexivity|].
  destruct (Z.ltb_spec 0 (dec0 a)).
  - destruct (Z.eqb_spec (dec1 a) 43) as [->|]; [reflexivity|]. rewrite Z.mod_small; lia.
  - replace (dec0 a <=? 0) with true by lia. destruct (Z.eqb_spec (dec1 a) 0) as [->|]; [reflexivity|]. rewrite Z.mod_small; lia.
Qed.

(** the hint bit is set exactly when the perturbation changes the high part *)
Lemma make_hint_exact a0 a1 : 0 <= a1 <= 43 -> - (2 * GAMMA2) < a0 < 2 * GAMMA2 ->
  make_hint a0 a1 = if Spec.HighBits (a1 * (2 * GAMMA2) + a0) =? a1 then 0 else 1.
Proof.
  intros H1 H0. rewrite HighBits_any. set (a := (a1 * (2 * GAMMA2) + a0) mod Q).
  assert (Ha: 0 <= a < Q) by (apply Z.mod_pos_bound; reflexivity).
  assert (Ea: a = a1 * (2 * GAMMA2) + a0 \/ a = a1 * (2 * GAMMA2) + a0 + Q).
  { subst a. unfold GAMMA2, Q in *. lia. }
  pose proof (dec1_div a Ha) as HD. rewrite HD. clearbody a. unfold make_hint, GAMMA2, Q in *.
  set (k := (a + 95232 - 1) / (2 * 95232)).
  assert (Hk: 190464 * k <= a + 95231 < 190464 * k + 190464) by (subst k; lia). clearbody k. clear HD.
  destruct (Z.eqb_spec k 44) as [E|E].
  - destruct (Z.eqb_spec 0 a1) as [E1|E1]; repeat (match goal with |- context [if ?b then _ else _] => destruct b eqn:? end); lia.
  - destruct (Z.eqb_spec k a1) as [E1|E1]; repeat (match goal with |- context [if ?b then _ else _] => destruct b eqn:? end); lia.
Qed.

(** *** Finite sums of the specification *)
Lemma spec_sum n (f : nat -> Z) g : (forall i, (i < n)%nat -> f i = g (Z.of_nat i)) -> Spec.sum n f = sumz (Z.of_nat n) g.
Proof.
  induction n as [|n IH]; intros H; cbn [Spec.sum]; [reflexivity|].
  rewrite Nat2Z.inj_succ. unfold Z.succ. rewrite sumz_S by lia. rewrite IH by (intros; apply H; lia). now rewrite H by lia.
Qed.
Lemma spec_negacyclic a b k : 0 <= k < 256 -> Spec.negacyclic a b (Z.to_nat k) = negmul (ix a) (ix b) k.
Proof.
  intros Hk. unfold Spec.negacyclic, negmul. change 256 with (Z.of_nat 256) at 2. apply spec_sum. intros i Hi. unfold ix.
  destruct (Nat.leb_spec i (Z.to_nat k)).
  - replace (Z.of_nat i <=? k) with true by lia. rewrite Nat2Z.id. do 2 f_equal. lia.
  - replace (Z.of_nat i <=? k) with false by lia. rewrite Nat2Z.id. do 3 f_equal. lia.
Qed.
Lemma spec_eval a x : Spec.eval a x = evalp (ix a) x.
Proof.
  unfold Spec.eval, evalp. change 256 with (Z.of_nat 256). apply spec_sum. intros i Hi. unfold ix. now rewrite Nat2Z.id.
Qed.
Lemma omega_spec i : 0 <= i < 256 -> omega i == 1753 ^ (2 * Spec.brv8 i + 1).
Proof.
  intros Hi. assert (T: forallb (fun i => omega i mod Q =? Zpow_mod 1753 (2 * Spec.brv8 i + 1) Q) (zseq 0 256) = true).
  { vm_compute. reflexivity. }
  rewrite forallb_forall in T. specialize (T i). rewrite in_zseq in T. specialize (T ltac:(lia)).
  apply Z.eqb_eq in T. rewrite Zpow_mod_correct in T by discriminate. now constructor.
Qed.
Lemma evalp_cong g x y : x == y -> evalp g x == evalp g y.
Proof.
  intros H. unfold evalp. apply eqm_sum; [lia|]. intros i Hi. apply eqm_mul; [reflexivity|]. apply eqm_pow; [lia|exact H].
Qed.
Lemma spec_within B a : Spec.poly_within B a -> zlen a = 256 /\ bounded B a.
Proof.
  intros [H1 H2]. assert (HL: zlen a = 256) by (unfold zlen; lia). split; [exact HL|].
  intros i Hi. rewrite Forall_ix in H2. apply (H2 i). lia.
Qed.
