(** The order of the Ed25519 base point is exactly the prime L. *)
From Verif Require Import Base NumTheory EdSpec EdCurve EdExt TweetModL EdDecode.
From Coq Require Import Znumtheory Setoid Morphisms.

Lemma prL1 : prime 1224481. Proof. apply (pocklington _ [(2551, 2)]); [vm_compute; reflexivity|]. constructor; [small|constructor]. Qed.
Lemma prL2 : prime 1257559732178653. Proof. apply (pocklington _ [(1224481, 2); (531581, 2)]); [vm_compute; reflexivity|]. constructor; [apply prL1|constructor; [small|constructor]]. Qed.
Lemma prL3 : prime 4434155615661930479. Proof. apply (pocklington _ [(1257559732178653, 2)]); [vm_compute; reflexivity|]. constructor; [apply prL2|constructor]. Qed.
Lemma prL4 : prime 172054593956031949258510691. Proof. apply (pocklington _ [(4434155615661930479, 2)]); [vm_compute; reflexivity|]. constructor; [apply prL3|constructor]. Qed.
Lemma prL5 : prime 19757330305831588566944191468367130476339. Proof. apply (pocklington _ [(172054593956031949258510691, 2)]); [vm_compute; reflexivity|]. constructor; [apply prL4|constructor]. Qed.
Lemma prL6 : prime 276602624281642239937218680557139826668747. Proof. apply (pocklington _ [(19757330305831588566944191468367130476339, 2)]); [vm_compute; reflexivity|]. constructor; [apply prL5|constructor]. Qed.
Lemma prime_edL : prime edL. Proof. apply (pocklington _ [(276602624281642239937218680557139826668747, 2)]); [vm_compute; reflexivity|]. constructor; [apply prL6|constructor]. Qed.

Lemma smul_B_zero n : 0 <= n -> smul n edB = pzero -> (edL | n).
Proof.
  intros Hn E. pose proof edL_pos as HL. pose proof edB_on_curve as CB. destruct (Zdivide_dec edL n) as [D|D]; [exact D|exfalso].
  assert (RP: rel_prime edL n) by (apply prime_rel_prime; [apply prime_edL|exact D]). apply rel_prime_bezout in RP. destruct RP as [u v EB].
  assert (EX: exists x y, 0 <= x /\ 0 <= y /\ x * n = y * edL + 1).
  { exists (v + edL * (Z.abs u + Z.abs v)), (- u + n * (Z.abs u + Z.abs v)). destruct (Z.eq_dec n 0) as [->|]; [exfalso; apply D; apply Z.divide_0_r|]. repeat split; nia. }
  destruct EX as (x & y & Hx & Hy & EX).
  assert (E1: smul (x * n) edB = pzero) by (rewrite smul_mul, E, smul_zero by assumption; reflexivity).
  rewrite EX, smul_add, smul_mul, smul_L_B, smul_zero in E1 by (assumption || lia). rewrite padd_0_l in E1 by (apply smul_closed; exact CB).
  assert (E2: smul 1 edB = edB) by (change (smul 1 edB) with (padd edB pzero); apply padd_0_r; exact CB).
  rewrite E2 in E1. discriminate E1.
Qed.
Lemma smul_B_inj n m : 0 <= n -> 0 <= m -> smul n edB = smul m edB -> n mod edL = m mod edL.
Proof.
  intros Hn Hm E. pose proof edL_pos as HL. pose proof edB_on_curve as CB. rewrite <- (smul_mod n Hn), <- (smul_mod m Hm) in E.
  pose proof (Z.mod_pos_bound n edL ltac:(lia)) as A. pose proof (Z.mod_pos_bound m edL ltac:(lia)) as B. set (a := n mod edL) in *. set (b := m mod edL) in *. clearbody a b. clear n m Hn Hm.
  assert (G: forall a b, 0 <= a -> a <= b < edL -> smul a edB = smul b edB -> a = b).
  { clear - CB HL. intros a b Ha Hb E. assert (Z0: smul (b - a) edB = pzero).
    { replace b with (b - a + a) in E by lia. rewrite smul_add in E by (assumption || lia). pose proof (smul_closed a edB CB) as Ca. pose proof (smul_closed (b - a) edB CB) as Cb.
      assert (F: padd (smul a edB) (pneg (smul a edB)) = padd (padd (smul (b - a) edB) (smul a edB)) (pneg (smul a edB))) by (rewrite <- E; reflexivity).
      rewrite padd_assoc in F by (try assumption; now apply pneg_on_curve). rewrite padd_neg_r, padd_0_r in F by assumption. now symmetry. }
    apply smul_B_zero in Z0; [|lia]. destruct (Z.eq_dec (b - a) 0) as [|N]; [lia|]. apply Z.divide_pos_le in Z0; lia. }
  destruct (Z.le_ge_cases a b); [apply G; (lia || assumption)|symmetry; apply G; [lia|lia|now symmetry]].
Qed.
(** cancellation on the left *)
Lemma padd_cancel_r P Q R : on_curve P -> on_curve Q -> on_curve R -> padd P R = padd Q R -> P = Q.
Proof.
  intros CP CQ CR E. rewrite <- (padd_0_r P CP), <- (padd_0_r Q CQ), <- (padd_neg_r R CR). rewrite <- !padd_assoc by (try assumption; now apply pneg_on_curve). now rewrite E.
Qed.
