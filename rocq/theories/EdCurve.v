(** The points of the Ed25519 curve form a commutative group under [padd]. *)
From Verif Require Import Base NumTheory EdSpec.
From Coq Require Import Znumtheory Setoid Morphisms.
Global Opaque Z.pow.

Lemma edp_val : edp = 57896044618658097711785492504343953926634992332820282019728792003956564819949.
Proof. vm_compute. reflexivity. Qed.
Lemma edp_prime : prime edp. Proof. exact prime_25519. Qed.
Lemma edp_pos : 0 < edp. Proof. rewrite edp_val. lia. Qed.
Lemma edp_big : 2 ^ 254 < edp. Proof. vm_compute. reflexivity. Qed.
Global Opaque edp.

(** ** Congruence modulo p *)
Definition eqp (a b : Z) : Prop := (edp | a - b).
Infix "==" := eqp (at level 70, no associativity).
Lemma eqp_refl a : a == a. Proof. unfold eqp. rewrite Z.sub_diag. apply Z.divide_0_r. Qed.
Lemma eqp_sym a b : a == b -> b == a. Proof. unfold eqp. intros H. replace (b - a) with (- (a - b)) by ring. now apply Z.divide_opp_r. Qed.
Lemma eqp_trans a b c : a == b -> b == c -> a == c.
Proof. unfold eqp. intros H1 H2. replace (a - c) with ((a - b) + (b - c)) by ring. now apply Z.divide_add_r. Qed.
#[global] Instance eqp_equiv : Equivalence eqp.
Proof. split; [exact eqp_refl|exact eqp_sym|exact eqp_trans]. Qed.
#[global] Instance eqp_add : Proper (eqp ==> eqp ==> eqp) Z.add.
Proof. intros a b H c d H'. unfold eqp in *. replace (a + c - (b + d)) with ((a - b) + (c - d)) by ring. now apply Z.divide_add_r. Qed.
#[global] Instance eqp_opp : Proper (eqp ==> eqp) Z.opp.
Proof. intros a b H. unfold eqp in *. replace (- a - - b) with (- (a - b)) by ring. now apply Z.divide_opp_r. Qed.
#[global] Instance eqp_sub : Proper (eqp ==> eqp ==> eqp) Z.sub.
Proof. intros a b H c d H'. unfold Z.sub. now rewrite H, H'. Qed.
#[global] Instance eqp_mul : Proper (eqp ==> eqp ==> eqp) Z.mul.
Proof.
  intros a b H c d H'. unfold eqp in *. replace (a * c - b * d) with ((a - b) * c + b * (c - d)) by ring.
  apply Z.divide_add_r; [now apply Z.divide_mul_l|now apply Z.divide_mul_r].
Qed.
Lemma eqp_mod a : a mod edp == a.
Proof. apply eqp_sym. unfold eqp. exists (a / edp). pose proof (Z.div_mod a edp). pose proof edp_pos. lia. Qed.
Lemma eqp_iff a b : a == b <-> a mod edp = b mod edp.
Proof. unfold eqp. symmetry. apply mod_eq_divide, edp_pos. Qed.
Lemma eqp_small a b : 0 <= a < edp -> 0 <= b < edp -> a == b -> a = b.
Proof. intros Ha Hb H. apply eqp_iff in H. now rewrite !Z.mod_small in H by assumption. Qed.
Lemma mod_range a : 0 <= a mod edp < edp. Proof. apply Z.mod_pos_bound, edp_pos. Qed.
Lemma eqp_of_eq a b : a = b -> a == b. Proof. intros ->. apply eqp_refl. Qed.
Lemma eqp0 a : a == 0 <-> (edp | a). Proof. unfold eqp. now rewrite Z.sub_0_r. Qed.
Lemma eqp_move a b : a - b == 0 <-> a == b. Proof. unfold eqp. now rewrite Z.sub_0_r. Qed.
Lemma eqp_integral a b : a * b == 0 -> a == 0 \/ b == 0.
Proof. rewrite !eqp0. apply prime_mult, edp_prime. Qed.
Lemma eqp_nz_mul a b : ~ a == 0 -> ~ b == 0 -> ~ a * b == 0.
Proof. intros Ha Hb H. apply eqp_integral in H. tauto. Qed.
Lemma eqp_cancel c a b : ~ c == 0 -> c * a == c * b -> a == b.
Proof. intros Hc H. apply eqp_move. apply eqp_move in H. assert (H': c * (a - b) == 0) by (rewrite <- H; apply eqp_of_eq; ring). apply eqp_integral in H'. tauto. Qed.
Lemma eqp_comb2 f c1 e1 c2 e2 : f = c1 * e1 + c2 * e2 -> e1 == 0 -> e2 == 0 -> f == 0.
Proof. intros -> H1 H2. rewrite H1, H2. apply eqp_of_eq. ring. Qed.
Lemma eqp_comb3 f c1 e1 c2 e2 c3 e3 : f = c1 * e1 + c2 * e2 + c3 * e3 -> e1 == 0 -> e2 == 0 -> e3 == 0 -> f == 0.
Proof. intros -> H1 H2 H3. rewrite H1, H2, H3. apply eqp_of_eq. ring. Qed.
Lemma one_nz : ~ 1 == 0.
Proof. intros H. apply eqp_iff in H. pose proof edp_val. rewrite Z.mod_0_l, Z.mod_small in H by lia. discriminate. Qed.
Lemma two_nz : ~ 2 == 0.
Proof. intros H. apply eqp_iff in H. pose proof edp_val. rewrite Z.mod_0_l, Z.mod_small in H by lia. discriminate. Qed.

(** ** Inverses, the constants *)
Lemma powm_eqp a e : powm_pos edp a e == a ^ Z.pos e.
Proof. rewrite powm_pos_ok by apply edp_pos. apply eqp_mod. Qed.
Lemma eqp_pow a b n : a == b -> 0 <= n -> a ^ n == b ^ n.
Proof. intros H. revert n. apply natlike_ind; [rewrite !Z.pow_0_r; reflexivity|]. intros n Hn IH. rewrite !Z.pow_succ_r by lia. rewrite IH. now rewrite H. Qed.
Lemma fermat_p a : ~ a == 0 -> a ^ (edp - 1) == 1.
Proof.
  intros H. apply eqp_iff. rewrite fermat; [|exact edp_prime|now rewrite <- eqp0]. pose proof edp_val. rewrite Z.mod_small by lia. reflexivity.
Qed.
Lemma finv_ok a : ~ a == 0 -> a * finv a == 1.
Proof.
  intros H. unfold finv. rewrite powm_eqp. pose proof edp_val. rewrite Z2Pos.id by lia. rewrite <- Z.pow_succ_r by lia.
  replace (Z.succ (edp - 2)) with (edp - 1) by lia. now apply fermat_p.
Qed.
Lemma finv_eqp a b : a == b -> finv a == finv b.
Proof. intros H. unfold finv. rewrite !powm_eqp. apply eqp_pow; [exact H|lia]. Qed.
#[global] Instance finv_proper : Proper (eqp ==> eqp) finv. Proof. intros a b. apply finv_eqp. Qed.
Global Opaque finv.
Lemma div_eq a b c : ~ b == 0 -> a == b * c -> a * finv b == c.
Proof. intros Hb H. rewrite H. pose proof (finv_ok b Hb) as E. transitivity (c * (b * finv b)); [apply eqp_of_eq; ring|]. rewrite E. apply eqp_of_eq. ring. Qed.
Lemma mul_div a b : ~ b == 0 -> b * (a * finv b) == a.
Proof. intros Hb. transitivity (a * (b * finv b)); [apply eqp_of_eq; ring|]. rewrite finv_ok by exact Hb. apply eqp_of_eq. ring. Qed.

Definition edI : Z := 19681161376707505956807079304988542015446066515923890162744021073123829784752.
Lemma edI_sq : edI * edI == -1.
Proof. apply eqp_iff. vm_compute. reflexivity. Qed.
Lemma edd_ok : 121666 * edd == -121665.
Proof. apply eqp_iff. vm_compute. reflexivity. Qed.
Lemma edd_nonsquare r : ~ r * r == edd.
Proof.
  intros H. pose proof edp_val as V.
  assert (E: edd ^ ((edp - 1) / 2) == -1).
  { assert (P: 0 < (edp - 1) / 2) by (rewrite V; reflexivity). assert (Q: edd ^ ((edp - 1) / 2) = edd ^ Z.pos (Z.to_pos ((edp - 1) / 2))) by (rewrite Z2Pos.id; [reflexivity|exact P]). rewrite Q. clear P Q.
    rewrite <- powm_eqp. apply eqp_iff. vm_compute. reflexivity. }
  assert (R: ~ r == 0).
  { intros R. rewrite R, Z.mul_0_l in H. apply eqp_sym in H. rewrite (eqp_pow _ _ ((edp - 1) / 2) H) in E by (rewrite V; vm_compute; discriminate). rewrite Z.pow_0_l in E by (rewrite V; reflexivity). apply one_nz. apply eqp_sym in E. transitivity (- (-1)); [reflexivity|]. rewrite E. reflexivity. }
  pose proof (fermat_p r R) as F. assert (X: edp - 1 = 2 * ((edp - 1) / 2)) by (rewrite V; reflexivity).
  rewrite X in F. rewrite Z.pow_mul_r in F by (try lia; rewrite V; vm_compute; discriminate). rewrite Z.pow_2_r in F.
  rewrite (eqp_pow _ _ ((edp - 1) / 2) H) in F by (rewrite V; vm_compute; discriminate). rewrite E in F. apply two_nz. apply eqp_sym in F. apply eqp_move in F. exact F.
Qed.
Lemma edd_square_zero r s : r * r == edd * (s * s) -> s == 0.
Proof.
  intros H. destruct (Zdivide_dec edp s) as [D|D]; [now apply eqp0|exfalso]. rewrite <- eqp0 in D.
  apply (edd_nonsquare (r * finv s)). transitivity ((r * r) * (finv s * finv s)); [apply eqp_of_eq; ring|]. rewrite H.
  transitivity (edd * (s * finv s) * (s * finv s)); [apply eqp_of_eq; ring|]. rewrite (finv_ok s D). apply eqp_of_eq. ring.
Qed.
Global Opaque edd edI.

(** ** The curve *)
Definition ecv (x y : Z) : Z := edd * x * x * y * y + x * x - y * y + 1.
Lemma on_curve_eqp x y : on_curve (x, y) <-> (0 <= x < edp /\ 0 <= y < edp /\ ecv x y == 0).
Proof.
  unfold on_curve. rewrite <- eqp_iff. split; intros (H1 & H2 & H3); (split; [exact H1|split; [exact H2|]]).
  - apply eqp_sym in H3. apply eqp_move in H3. rewrite <- H3. apply eqp_of_eq. unfold ecv. ring.
  - apply eqp_sym. apply eqp_move. rewrite <- H3. apply eqp_of_eq. unfold ecv. ring.
Qed.
(** completeness: no denominators vanish *)
Lemma denom_aux x1 y1 x2 y2 e : ecv x1 y1 == 0 -> ecv x2 y2 == 0 -> e * e == 1 -> edd * x1 * x2 * y1 * y2 == e -> False.
Proof.
  intros H1 H2 He Hk. set (s := edI). assert (Hs: s * s == -1) by apply edI_sq.
  assert (K: forall t, t * t == 1 -> s * x2 + t * y2 == 0).
  { intros t Ht. assert (X: x1 * y1 * (s * x2 + t * y2) == 0).
    { apply (edd_square_zero (s * x1 + t * e * y1)). apply eqp_move.
      pose proof H1 as A1. pose proof H2 as A2. apply eqp_move in He, Ht, Hs, Hk.
      replace ((s * x1 + t * e * y1) * (s * x1 + t * e * y1) - edd * (x1 * y1 * (s * x2 + t * y2) * (x1 * y1 * (s * x2 + t * y2))))
        with ((s * s - -1) * (x1 * x1 - edd * x1 * x1 * y1 * y1 * x2 * x2)
              + (t * t - 1) * (e * e * y1 * y1 - edd * x1 * x1 * y1 * y1 * y2 * y2)
              + (e * e - 1) * (y1 * y1)
              + - (ecv x1 y1) + (edd * x1 * x1 * y1 * y1) * ecv x2 y2
              + (edd * x1 * x2 * y1 * y2 - e) * (- 2 * s * t * x1 * y1) - (e * e - 1) - (edd * x1 * x2 * y1 * y2 - e) * (edd * x1 * x2 * y1 * y2 + e)) by (unfold ecv; ring).
      rewrite He, Ht, Hs, A1, A2, Hk. apply eqp_of_eq. ring. }
    apply eqp_integral in X. destruct X as [X|X]; [|exact X]. exfalso.
    assert (E0: e == 0). { rewrite <- Hk. transitivity (edd * x2 * y2 * (x1 * y1)); [apply eqp_of_eq; ring|]. rewrite X. apply eqp_of_eq. ring. }
    rewrite E0 in He. apply one_nz. now rewrite <- He. }
  pose proof (K 1 ltac:(reflexivity)) as K1. pose proof (K (-1) ltac:(reflexivity)) as K2.
  assert (Y0: y2 == 0).
  { apply (eqp_cancel 2); [exact two_nz|]. rewrite Z.mul_0_r. transitivity ((s * x2 + 1 * y2) - (s * x2 + -1 * y2)); [apply eqp_of_eq; ring|]. rewrite K1, K2. reflexivity. }
  assert (E0: e == 0). { rewrite <- Hk, Y0. apply eqp_of_eq. ring. }
  rewrite E0 in He. apply one_nz. now rewrite <- He.
Qed.
Lemma denom_p x1 y1 x2 y2 : ecv x1 y1 == 0 -> ecv x2 y2 == 0 -> ~ 1 + edd * x1 * x2 * y1 * y2 == 0.
Proof. intros H1 H2 H. apply (denom_aux x1 y1 x2 y2 (-1) H1 H2); [reflexivity|]. apply eqp_move. rewrite <- H. apply eqp_of_eq. ring. Qed.
Lemma denom_m x1 y1 x2 y2 : ecv x1 y1 == 0 -> ecv x2 y2 == 0 -> ~ 1 - edd * x1 * x2 * y1 * y2 == 0.
Proof. intros H1 H2 H. apply (denom_aux x1 y1 x2 y2 1 H1 H2); [reflexivity|]. apply eqp_move. transitivity (- (1 - edd * x1 * x2 * y1 * y2)); [apply eqp_of_eq; ring|]. rewrite H. reflexivity. Qed.

(** coordinates of a sum, characterised by cross-multiplication *)
Lemma padd_spec x1 y1 x2 y2 : ecv x1 y1 == 0 -> ecv x2 y2 == 0 -> exists x y, padd (x1, y1) (x2, y2) = (x, y) /\ 0 <= x < edp /\ 0 <= y < edp /\
  (1 + edd * x1 * x2 * y1 * y2) * x == x1 * y2 + x2 * y1 /\ (1 - edd * x1 * x2 * y1 * y2) * y == y1 * y2 + x1 * x2.
Proof.
  intros H1 H2. unfold padd. do 2 eexists. split; [reflexivity|]. split; [apply mod_range|]. split; [apply mod_range|].
  split; rewrite eqp_mod; apply mul_div; [now apply denom_p|now apply denom_m].
Qed.

Lemma cert_closure x1 y1 x2 y2 :
  let X := x1 * y2 + x2 * y1 in let Y := y1 * y2 + x1 * x2 in let k := edd * x1 * x2 * y1 * y2 in
  Y * Y * ((1 + k) * (1 + k)) - X * X * ((1 - k) * (1 - k)) - ((1 + k) * (1 + k) * ((1 - k) * (1 - k)) + edd * (X * X) * (Y * Y))
  = (-y2*y2*y2*y2+4*x2*x2*y2*y2-2*x2*x2*y2*y2*y2*y2-x2*x2*x2*x2+2*x2*x2*x2*x2*y2*y2+2*edd*x2*x2*y2*y2+2*edd*x2*x2*x2*x2*y2*y2*y2*y2+edd*y1*y1*x2*x2*y2*y2*y2*y2-edd*y1*y1*x2*x2*x2*x2*y2*y2-edd*x1*x1*x2*x2*y2*y2*y2*y2+edd*x1*x1*x2*x2*x2*x2*y2*y2+edd*edd*x2*x2*x2*x2*y2*y2*y2*y2-edd*edd*y1*y1*x2*x2*x2*x2*y2*y2*y2*y2+edd*edd*x1*x1*x2*x2*x2*x2*y2*y2*y2*y2-edd*edd*edd*x1*x1*y1*y1*x2*x2*x2*x2*y2*y2*y2*y2) * ecv x1 y1 + (-1-y2*y2+x2*x2-2*x2*x2*y2*y2+y1*y1*y2*y2-y1*y1*x2*x2+2*y1*y1*x2*x2*y2*y2-x1*x1*y2*y2+x1*x1*x2*x2-2*x1*x1*x2*x2*y2*y2-edd*x2*x2*y2*y2+2*edd*y1*y1*x2*x2*y2*y2-edd*y1*y1*y1*y1*x2*x2*y2*y2-2*edd*x1*x1*x2*x2*y2*y2-edd*x1*x1*x1*x1*x2*x2*y2*y2) * ecv x2 y2.
Proof. unfold ecv. cbv zeta. ring. Qed.

Lemma cert_assoc_x x1 y1 x2 y2 x3 y3 :
  let X12 := x1 * y2 + x2 * y1 in let Y12 := y1 * y2 + x1 * x2 in let k12 := edd * x1 * x2 * y1 * y2 in
  let X23 := x2 * y3 + x3 * y2 in let Y23 := y2 * y3 + x2 * x3 in let k23 := edd * x2 * x3 * y2 * y3 in
  (X12 * (1 - k12) * y3 + x3 * Y12 * (1 + k12)) * ((1 + k23) * (1 - k23) + edd * x1 * y1 * X23 * Y23)
  - (x1 * Y23 * (1 + k23) + X23 * (1 - k23) * y1) * ((1 + k12) * (1 - k12) + edd * X12 * Y12 * x3 * y3)
  = (edd*y1*x2*y2*y2*y2*y2*x3*x3*y3+edd*y1*x2*x2*y2*y2*y2*x3+edd*y1*x2*x2*y2*y2*y2*x3*x3*x3+edd*y1*x2*x2*x2*y2*y2*y3-edd*y1*x2*x2*x2*y2*y2*y3*y3*y3-edd*y1*x2*x2*x2*x2*y2*x3*y3*y3-edd*x1*x2*y2*y2*y2*y2*x3*y3*y3+edd*x1*x2*x2*y2*y2*y2*y3-edd*x1*x2*x2*y2*y2*y2*y3*y3*y3+edd*x1*x2*x2*x2*y2*y2*x3+edd*x1*x2*x2*x2*y2*y2*x3*x3*x3+edd*x1*x2*x2*x2*x2*y2*x3*x3*y3-edd*edd*y1*x2*x2*x2*y2*y2*y2*y2*x3*x3*y3-edd*edd*y1*x2*x2*x2*x2*y2*y2*y2*x3*y3*y3+edd*edd*x1*x2*x2*x2*y2*y2*y2*y2*x3*y3*y3+edd*edd*x1*x2*x2*x2*x2*y2*y2*y2*x3*x3*y3) * ecv x1 y1 + (-y1*y2*x3+y1*y2*x3*y3*y3-y1*y2*x3*x3*x3-y1*x2*y3+y1*x2*y3*y3*y3-y1*x2*x3*x3*y3+y1*y1*y1*y2*x3-y1*y1*y1*y2*x3*y3*y3+y1*y1*y1*y2*x3*x3*x3+y1*y1*y1*x2*y3-y1*y1*y1*x2*y3*y3*y3+y1*y1*y1*x2*x3*x3*y3-x1*y2*y3+x1*y2*y3*y3*y3-x1*y2*x3*x3*y3-x1*x2*x3+x1*x2*x3*y3*y3-x1*x2*x3*x3*x3+x1*y1*y1*y2*y3-x1*y1*y1*y2*y3*y3*y3+x1*y1*y1*y2*x3*x3*y3+x1*y1*y1*x2*x3-x1*y1*y1*x2*x3*y3*y3+x1*y1*y1*x2*x3*x3*x3-x1*x1*y1*y2*x3+x1*x1*y1*y2*x3*y3*y3-x1*x1*y1*y2*x3*x3*x3-x1*x1*y1*x2*y3+x1*x1*y1*x2*y3*y3*y3-x1*x1*y1*x2*x3*x3*y3-x1*x1*x1*y2*y3+x1*x1*x1*y2*y3*y3*y3-x1*x1*x1*y2*x3*x3*y3-x1*x1*x1*x2*x3+x1*x1*x1*x2*x3*y3*y3-x1*x1*x1*x2*x3*x3*x3-edd*y1*y2*x3*x3*x3*y3*y3-edd*y1*x2*x3*x3*y3*y3*y3+edd*y1*x2*y2*y2*x3*x3*y3+edd*y1*x2*x2*y2*x3*y3*y3+edd*y1*y1*y1*y2*x3*x3*x3*y3*y3+edd*y1*y1*y1*x2*x3*x3*y3*y3*y3-edd*y1*y1*y1*x2*y2*y2*x3*x3*y3-edd*y1*y1*y1*x2*x2*y2*x3*y3*y3-edd*x1*y2*x3*x3*y3*y3*y3-edd*x1*x2*x3*x3*x3*y3*y3-edd*x1*x2*y2*y2*x3*y3*y3-edd*x1*x2*x2*y2*x3*x3*y3+edd*x1*y1*y1*y2*x3*x3*y3*y3*y3+edd*x1*y1*y1*x2*x3*x3*x3*y3*y3+edd*x1*y1*y1*x2*y2*y2*x3*y3*y3+edd*x1*y1*y1*x2*x2*y2*x3*x3*y3-edd*x1*x1*y1*y2*x3*x3*x3*y3*y3-edd*x1*x1*y1*x2*x3*x3*y3*y3*y3+edd*x1*x1*y1*x2*y2*y2*x3*x3*y3+edd*x1*x1*y1*x2*x2*y2*x3*y3*y3-edd*x1*x1*x1*y2*x3*x3*y3*y3*y3-edd*x1*x1*x1*x2*x3*x3*x3*y3*y3-edd*x1*x1*x1*x2*y2*y2*x3*y3*y3-edd*x1*x1*x1*x2*x2*y2*x3*x3*y3-edd*edd*x1*y1*y1*x2*y2*y2*x3*x3*x3*y3*y3+edd*edd*x1*y1*y1*x2*x2*y2*x3*x3*y3*y3*y3+edd*edd*x1*x1*y1*x2*y2*y2*x3*x3*y3*y3*y3-edd*edd*x1*x1*y1*x2*x2*y2*x3*x3*x3*y3*y3) * ecv x2 y2 + (y1*y2*x3-y1*y2*y2*y2*x3+y1*x2*y3-y1*x2*y2*y2*y3+y1*x2*x2*y2*x3+y1*x2*x2*x2*y3-y1*y1*y1*y2*x3+y1*y1*y1*y2*y2*y2*x3-y1*y1*y1*x2*y3+y1*y1*y1*x2*y2*y2*y3-y1*y1*y1*x2*x2*y2*x3-y1*y1*y1*x2*x2*x2*y3+x1*y2*y3-x1*y2*y2*y2*y3+x1*x2*x3-x1*x2*y2*y2*x3+x1*x2*x2*y2*y3+x1*x2*x2*x2*x3-x1*y1*y1*y2*y3+x1*y1*y1*y2*y2*y2*y3-x1*y1*y1*x2*x3+x1*y1*y1*x2*y2*y2*x3-x1*y1*y1*x2*x2*y2*y3-x1*y1*y1*x2*x2*x2*x3+x1*x1*y1*y2*x3-x1*x1*y1*y2*y2*y2*x3+x1*x1*y1*x2*y3-x1*x1*y1*x2*y2*y2*y3+x1*x1*y1*x2*x2*y2*x3+x1*x1*y1*x2*x2*x2*y3+x1*x1*x1*y2*y3-x1*x1*x1*y2*y2*y2*y3+x1*x1*x1*x2*x3-x1*x1*x1*x2*y2*y2*x3+x1*x1*x1*x2*x2*y2*y3+x1*x1*x1*x2*x2*x2*x3+edd*x1*y1*y1*x2*y2*y2*x3-edd*x1*y1*y1*x2*x2*y2*y3-edd*x1*x1*y1*x2*y2*y2*y3+edd*x1*x1*y1*x2*x2*y2*x3) * ecv x3 y3.
Proof. unfold ecv. cbv zeta. ring. Qed.

Lemma cert_assoc_y x1 y1 x2 y2 x3 y3 :
  let X12 := x1 * y2 + x2 * y1 in let Y12 := y1 * y2 + x1 * x2 in let k12 := edd * x1 * x2 * y1 * y2 in
  let X23 := x2 * y3 + x3 * y2 in let Y23 := y2 * y3 + x2 * x3 in let k23 := edd * x2 * x3 * y2 * y3 in
  (Y12 * (1 + k12) * y3 + X12 * x3 * (1 - k12)) * ((1 + k23) * (1 - k23) - edd * x1 * y1 * X23 * Y23)
  - (y1 * Y23 * (1 + k23) + x1 * X23 * (1 - k23)) * ((1 + k12) * (1 - k12) - edd * X12 * Y12 * x3 * y3)
  = (-edd*y1*x2*y2*y2*y2*y2*x3*y3*y3+edd*y1*x2*x2*y2*y2*y2*y3-edd*y1*x2*x2*y2*y2*y2*y3*y3*y3+edd*y1*x2*x2*x2*y2*y2*x3+edd*y1*x2*x2*x2*y2*y2*x3*x3*x3+edd*y1*x2*x2*x2*x2*y2*x3*x3*y3+edd*x1*x2*y2*y2*y2*y2*x3*x3*y3+edd*x1*x2*x2*y2*y2*y2*x3+edd*x1*x2*x2*y2*y2*y2*x3*x3*x3+edd*x1*x2*x2*x2*y2*y2*y3-edd*x1*x2*x2*x2*y2*y2*y3*y3*y3-edd*x1*x2*x2*x2*x2*y2*x3*y3*y3+edd*edd*y1*x2*x2*x2*y2*y2*y2*y2*x3*y3*y3+edd*edd*y1*x2*x2*x2*x2*y2*y2*y2*x3*x3*y3-edd*edd*x1*x2*x2*x2*y2*y2*y2*y2*x3*x3*y3-edd*edd*x1*x2*x2*x2*x2*y2*y2*y2*x3*y3*y3) * ecv x1 y1 + (-y1*y2*y3+y1*y2*y3*y3*y3-y1*y2*x3*x3*y3-y1*x2*x3+y1*x2*x3*y3*y3-y1*x2*x3*x3*x3+y1*y1*y1*y2*y3-y1*y1*y1*y2*y3*y3*y3+y1*y1*y1*y2*x3*x3*y3+y1*y1*y1*x2*x3-y1*y1*y1*x2*x3*y3*y3+y1*y1*y1*x2*x3*x3*x3-x1*y2*x3+x1*y2*x3*y3*y3-x1*y2*x3*x3*x3-x1*x2*y3+x1*x2*y3*y3*y3-x1*x2*x3*x3*y3+x1*y1*y1*y2*x3-x1*y1*y1*y2*x3*y3*y3+x1*y1*y1*y2*x3*x3*x3+x1*y1*y1*x2*y3-x1*y1*y1*x2*y3*y3*y3+x1*y1*y1*x2*x3*x3*y3-x1*x1*y1*y2*y3+x1*x1*y1*y2*y3*y3*y3-x1*x1*y1*y2*x3*x3*y3-x1*x1*y1*x2*x3+x1*x1*y1*x2*x3*y3*y3-x1*x1*y1*x2*x3*x3*x3-x1*x1*x1*y2*x3+x1*x1*x1*y2*x3*y3*y3-x1*x1*x1*y2*x3*x3*x3-x1*x1*x1*x2*y3+x1*x1*x1*x2*y3*y3*y3-x1*x1*x1*x2*x3*x3*y3-edd*y1*y2*x3*x3*y3*y3*y3-edd*y1*x2*x3*x3*x3*y3*y3-edd*y1*x2*y2*y2*x3*y3*y3-edd*y1*x2*x2*y2*x3*x3*y3+edd*y1*y1*y1*y2*x3*x3*y3*y3*y3+edd*y1*y1*y1*x2*x3*x3*x3*y3*y3+edd*y1*y1*y1*x2*y2*y2*x3*y3*y3+edd*y1*y1*y1*x2*x2*y2*x3*x3*y3-edd*x1*y2*x3*x3*x3*y3*y3-edd*x1*x2*x3*x3*y3*y3*y3+edd*x1*x2*y2*y2*x3*x3*y3+edd*x1*x2*x2*y2*x3*y3*y3+edd*x1*y1*y1*y2*x3*x3*x3*y3*y3+edd*x1*y1*y1*x2*x3*x3*y3*y3*y3-edd*x1*y1*y1*x2*y2*y2*x3*x3*y3-edd*x1*y1*y1*x2*x2*y2*x3*y3*y3-edd*x1*x1*y1*y2*x3*x3*y3*y3*y3-edd*x1*x1*y1*x2*x3*x3*x3*y3*y3-edd*x1*x1*y1*x2*y2*y2*x3*y3*y3-edd*x1*x1*y1*x2*x2*y2*x3*x3*y3-edd*x1*x1*x1*y2*x3*x3*x3*y3*y3-edd*x1*x1*x1*x2*x3*x3*y3*y3*y3+edd*x1*x1*x1*x2*y2*y2*x3*x3*y3+edd*x1*x1*x1*x2*x2*y2*x3*y3*y3-edd*edd*x1*y1*y1*x2*y2*y2*x3*x3*y3*y3*y3+edd*edd*x1*y1*y1*x2*x2*y2*x3*x3*x3*y3*y3+edd*edd*x1*x1*y1*x2*y2*y2*x3*x3*x3*y3*y3-edd*edd*x1*x1*y1*x2*x2*y2*x3*x3*y3*y3*y3) * ecv x2 y2 + (y1*y2*y3-y1*y2*y2*y2*y3+y1*x2*x3-y1*x2*y2*y2*x3+y1*x2*x2*y2*y3+y1*x2*x2*x2*x3-y1*y1*y1*y2*y3+y1*y1*y1*y2*y2*y2*y3-y1*y1*y1*x2*x3+y1*y1*y1*x2*y2*y2*x3-y1*y1*y1*x2*x2*y2*y3-y1*y1*y1*x2*x2*x2*x3+x1*y2*x3-x1*y2*y2*y2*x3+x1*x2*y3-x1*x2*y2*y2*y3+x1*x2*x2*y2*x3+x1*x2*x2*x2*y3-x1*y1*y1*y2*x3+x1*y1*y1*y2*y2*y2*x3-x1*y1*y1*x2*y3+x1*y1*y1*x2*y2*y2*y3-x1*y1*y1*x2*x2*y2*x3-x1*y1*y1*x2*x2*x2*y3+x1*x1*y1*y2*y3-x1*x1*y1*y2*y2*y2*y3+x1*x1*y1*x2*x3-x1*x1*y1*x2*y2*y2*x3+x1*x1*y1*x2*x2*y2*y3+x1*x1*y1*x2*x2*x2*x3+x1*x1*x1*y2*x3-x1*x1*x1*y2*y2*y2*x3+x1*x1*x1*x2*y3-x1*x1*x1*x2*y2*y2*y3+x1*x1*x1*x2*x2*y2*x3+x1*x1*x1*x2*x2*x2*y3+edd*x1*y1*y1*x2*y2*y2*y3-edd*x1*y1*y1*x2*x2*y2*x3-edd*x1*x1*y1*x2*y2*y2*x3+edd*x1*x1*y1*x2*x2*y2*y3) * ecv x3 y3.
Proof. unfold ecv. cbv zeta. ring. Qed.

Lemma padd_closed P Q : on_curve P -> on_curve Q -> on_curve (padd P Q).
Proof.
  destruct P as [x1 y1], Q as [x2 y2]. rewrite !on_curve_eqp. intros (_ & _ & H1) (_ & _ & H2).
  destruct (padd_spec x1 y1 x2 y2 H1 H2) as (x & y & E & Hx & Hy & Ex & Ey). rewrite E. apply on_curve_eqp. split; [exact Hx|]. split; [exact Hy|].
  pose proof (denom_p _ _ _ _ H1 H2) as Np. pose proof (denom_m _ _ _ _ H1 H2) as Nm. pose proof (cert_closure x1 y1 x2 y2) as C. cbv zeta in C.
  set (k := edd * x1 * x2 * y1 * y2) in *. set (X := x1 * y2 + x2 * y1) in *. set (Y := y1 * y2 + x1 * x2) in *.
  match type of C with _ = ?c1 * _ + ?c2 * _ => pose proof (eqp_comb2 _ c1 (ecv x1 y1) c2 (ecv x2 y2) C H1 H2) as C' end. clear C.
  apply (eqp_cancel ((1 + k) * (1 + k) * ((1 - k) * (1 - k)))); [repeat apply eqp_nz_mul; assumption|]. rewrite Z.mul_0_r. rewrite <- Ex, <- Ey in C'.
  transitivity (- 0); [|reflexivity]. rewrite <- C'. apply eqp_of_eq. unfold ecv. ring.
Qed.
Lemma padd_comm P Q : padd P Q = padd Q P.
Proof.
  destruct P as [x1 y1], Q as [x2 y2]. unfold padd.
  replace (edd * x2 * x1 * y2 * y1) with (edd * x1 * x2 * y1 * y2) by ring.
  replace (x2 * y1 + x1 * y2) with (x1 * y2 + x2 * y1) by ring. replace (y2 * y1 + x2 * x1) with (y1 * y2 + x1 * x2) by ring. reflexivity.
Qed.
Lemma pzero_on_curve : on_curve pzero.
Proof. apply on_curve_eqp. pose proof edp_val. split; [lia|]. split; [lia|]. unfold ecv. apply eqp_of_eq. ring. Qed.
Lemma point_eq x y x' y' : 0 <= x < edp -> 0 <= y < edp -> 0 <= x' < edp -> 0 <= y' < edp -> x == x' -> y == y' -> (x, y) = (x', y').
Proof. intros. f_equal; now apply eqp_small. Qed.
Lemma padd_0_l P : on_curve P -> padd pzero P = P.
Proof.
  intros H. pose proof pzero_on_curve as H0. destruct P as [x y]. unfold pzero in *. apply on_curve_eqp in H as (Hx & Hy & H). apply on_curve_eqp in H0 as (_ & _ & H0).
  destruct (padd_spec _ _ _ _ H0 H) as (x' & y' & E & Hx' & Hy' & Ex & Ey). rewrite E. apply point_eq; try assumption.
  - transitivity ((1 + edd * 0 * x * 1 * y) * x'); [apply eqp_of_eq; ring|]. rewrite Ex. apply eqp_of_eq. ring.
  - transitivity ((1 - edd * 0 * x * 1 * y) * y'); [apply eqp_of_eq; ring|]. rewrite Ey. apply eqp_of_eq. ring.
Qed.
Lemma padd_0_r P : on_curve P -> padd P pzero = P.
Proof. intros. rewrite padd_comm. now apply padd_0_l. Qed.
Lemma pneg_on_curve P : on_curve P -> on_curve (pneg P).
Proof.
  destruct P as [x y]. rewrite on_curve_eqp. intros (Hx & Hy & H). unfold pneg. apply on_curve_eqp. split; [apply mod_range|]. split; [exact Hy|].
  unfold ecv in *. rewrite eqp_mod. rewrite <- H. apply eqp_of_eq. ring.
Qed.
Lemma padd_neg_r P : on_curve P -> padd P (pneg P) = pzero.
Proof.
  intros H. pose proof (pneg_on_curve P H) as HN. destruct P as [x y]. unfold pneg, pzero in *. apply on_curve_eqp in H as (Hx & Hy & H). apply on_curve_eqp in HN as (_ & _ & HN).
  destruct (padd_spec _ _ _ _ H HN) as (x' & y' & E & Hx' & Hy' & Ex & Ey). rewrite E. pose proof edp_val.
  pose proof (denom_p _ _ _ _ H HN) as Np. pose proof (denom_m _ _ _ _ H HN) as Nm. apply point_eq; try assumption; try lia.
  - apply (eqp_cancel _ _ _ Np). rewrite Ex. rewrite eqp_mod. apply eqp_of_eq. ring.
  - apply (eqp_cancel _ _ _ Nm). rewrite Ey. rewrite eqp_mod. apply eqp_move. transitivity (- ecv x y); [apply eqp_of_eq; unfold ecv; ring|]. rewrite H. reflexivity.
Qed.
(** associativity *)
Lemma padd_assoc P Q R : on_curve P -> on_curve Q -> on_curve R -> padd (padd P Q) R = padd P (padd Q R).
Proof.
  intros HP HQ HR. pose proof (padd_closed P Q HP HQ) as HPQ. pose proof (padd_closed Q R HQ HR) as HQR.
  destruct P as [x1 y1], Q as [x2 y2], R as [x3 y3]. apply on_curve_eqp in HP as (_ & _ & H1). apply on_curve_eqp in HQ as (_ & _ & H2). apply on_curve_eqp in HR as (_ & _ & H3).
  destruct (padd_spec x1 y1 x2 y2 H1 H2) as (x & y & E & Hx & Hy & Ex & Ey). rewrite E in *. apply on_curve_eqp in HPQ as (_ & _ & H12).
  destruct (padd_spec x2 y2 x3 y3 H2 H3) as (x' & y' & E' & Hx' & Hy' & Ex' & Ey'). rewrite E' in *. apply on_curve_eqp in HQR as (_ & _ & H23).
  destruct (padd_spec x y x3 y3 H12 H3) as (u & v & F & Hu & Hv & Fu & Fv). rewrite F.
  destruct (padd_spec x1 y1 x' y' H1 H23) as (u' & v' & F' & Hu' & Hv' & Fu' & Fv'). rewrite F'.
  pose proof (denom_p _ _ _ _ H1 H2) as N1. pose proof (denom_m _ _ _ _ H1 H2) as N2. pose proof (denom_p _ _ _ _ H2 H3) as N3. pose proof (denom_m _ _ _ _ H2 H3) as N4.
  pose proof (denom_p _ _ _ _ H12 H3) as N5. pose proof (denom_m _ _ _ _ H12 H3) as N6. pose proof (denom_p _ _ _ _ H1 H23) as N7. pose proof (denom_m _ _ _ _ H1 H23) as N8.
  pose proof (cert_assoc_x x1 y1 x2 y2 x3 y3) as CX. pose proof (cert_assoc_y x1 y1 x2 y2 x3 y3) as CY. cbv zeta in CX, CY.
  match type of CX with _ = ?c1 * _ + ?c2 * _ + ?c3 * _ => apply (fun E => eqp_comb3 _ c1 (ecv x1 y1) c2 (ecv x2 y2) c3 (ecv x3 y3) E H1 H2 H3) in CX end.
  match type of CY with _ = ?c1 * _ + ?c2 * _ + ?c3 * _ => apply (fun E => eqp_comb3 _ c1 (ecv x1 y1) c2 (ecv x2 y2) c3 (ecv x3 y3) E H1 H2 H3) in CY end.
  clear H1 H2 H3 H12 H23 E E' F F'.
  set (k12 := edd * x1 * x2 * y1 * y2) in *. set (k23 := edd * x2 * x3 * y2 * y3) in *.
  rewrite <- Ex, <- Ey, <- Ex', <- Ey' in CX, CY. clear Ex Ey Ex' Ey'.
  set (kl := edd * x * x3 * y * y3) in *. set (kr := edd * x1 * x' * y1 * y') in *.
  apply point_eq; try assumption.
  - apply (eqp_cancel ((1 + kl) * (1 + kr))); [now apply eqp_nz_mul|].
    transitivity ((1 + kr) * ((1 + kl) * u)); [apply eqp_of_eq; ring|]. transitivity ((1 + kl) * ((1 + kr) * u')); [|apply eqp_of_eq; ring]. rewrite Fu, Fu'.
    apply (eqp_cancel ((1 + k12) * (1 - k12) * ((1 + k23) * (1 - k23)))); [repeat apply eqp_nz_mul; assumption|]. apply eqp_move. rewrite <- CX. apply eqp_of_eq. unfold kl, kr. ring.
  - apply (eqp_cancel ((1 - kl) * (1 - kr))); [now apply eqp_nz_mul|].
    transitivity ((1 - kr) * ((1 - kl) * v)); [apply eqp_of_eq; ring|]. transitivity ((1 - kl) * ((1 - kr) * v')); [|apply eqp_of_eq; ring]. rewrite Fv, Fv'.
    apply (eqp_cancel ((1 + k12) * (1 - k12) * ((1 + k23) * (1 - k23)))); [repeat apply eqp_nz_mul; assumption|]. apply eqp_move. rewrite <- CY. apply eqp_of_eq. unfold kl, kr. ring.
Qed.
Global Opaque padd.

(** ** Scalar multiples *)
Lemma smul_0 P : smul 0 P = pzero. Proof. reflexivity. Qed.
Lemma smul_succ n P : 0 <= n -> smul (n + 1) P = padd P (smul n P).
Proof.
  intros H. unfold smul. destruct n as [|n|n]; [reflexivity| |lia]. change (Z.pos n + 1) with (Z.pos (n + 1)). cbn [Z.iter]. rewrite Pos.add_1_r. apply Pos.iter_succ.
Qed.
Lemma smul_closed n P : on_curve P -> on_curve (smul n P).
Proof.
  intros H. destruct (Z.le_gt_cases 0 n) as [Hn|Hn].
  - revert n Hn. apply natlike_ind; [exact pzero_on_curve|]. intros n Hn IH. unfold Z.succ. rewrite smul_succ by lia. now apply padd_closed.
  - destruct n; try lia. exact pzero_on_curve.
Qed.
Lemma smul_1 P : on_curve P -> smul 1 P = P.
Proof. intros H. change 1 with (0 + 1). rewrite smul_succ, smul_0 by lia. now apply padd_0_r. Qed.
Lemma smul_add n m P : on_curve P -> 0 <= n -> 0 <= m -> smul (n + m) P = padd (smul n P) (smul m P).
Proof.
  intros H Hn Hm. revert n Hn. apply natlike_ind.
  - rewrite smul_0, padd_0_l by (now apply smul_closed). f_equal.
  - intros n Hn IH. unfold Z.succ. replace (n + 1 + m) with ((n + m) + 1) by ring. rewrite !smul_succ by lia. rewrite IH.
    symmetry. apply padd_assoc; try assumption; now apply smul_closed.
Qed.
Lemma smul_zero n : smul n pzero = pzero.
Proof.
  destruct (Z.le_gt_cases 0 n) as [Hn|Hn]; [|destruct n; try lia; reflexivity].
  revert n Hn. apply natlike_ind; [reflexivity|]. intros n Hn IH. unfold Z.succ. rewrite smul_succ, IH by lia. apply padd_0_l, pzero_on_curve.
Qed.
Lemma smul_mul n m P : on_curve P -> 0 <= n -> 0 <= m -> smul (n * m) P = smul n (smul m P).
Proof.
  intros H Hn Hm. revert n Hn. apply natlike_ind; [reflexivity|]. intros n Hn IH. unfold Z.succ. replace ((n + 1) * m) with (m + n * m) by ring.
  rewrite smul_add by (try assumption; nia). rewrite smul_succ, IH by lia. reflexivity.
Qed.
Lemma smul_padd n P Q : on_curve P -> on_curve Q -> 0 <= n -> smul n (padd P Q) = padd (smul n P) (smul n Q).
Proof.
  intros HP HQ. revert n. apply natlike_ind; [rewrite !smul_0, padd_0_l; [reflexivity|exact pzero_on_curve]|].
  intros n Hn IH. unfold Z.succ. rewrite !smul_succ, IH by lia. pose proof (smul_closed n P HP) as HnP. pose proof (smul_closed n Q HQ) as HnQ.
  rewrite (padd_assoc P Q) by (try assumption; now apply padd_closed). rewrite (padd_assoc P (smul n P)) by (try assumption; now apply padd_closed).
  f_equal. rewrite <- (padd_assoc Q), (padd_comm Q (smul n P)), padd_assoc by assumption. reflexivity.
Qed.
Lemma smul_neg n P : on_curve P -> 0 <= n -> padd (smul n (pneg P)) (smul n P) = pzero.
Proof.
  intros HP Hn. rewrite <- smul_padd by (try assumption; now apply pneg_on_curve). rewrite padd_comm, padd_neg_r by assumption. apply smul_zero.
Qed.
Global Opaque smul.
