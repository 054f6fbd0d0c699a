(** The Montgomery ladder of RFC 7748 computes the u-coordinate of a scalar multiple on the
    Edwards curve; Diffie-Hellman agreement. *)
From Verif Require Import Base NumTheory EdSpec EdCurve EdExt EdOrder BoxSpec X25519Spec.
From Coq Require Import Znumtheory Setoid Morphisms.
Ltac Zify.zify_post_hook ::= idtac.

(** (X : Z) represents the u-coordinate of [P] *)
Definition urep (X Z : Z) (P : point) : Prop := ~ X + Z == 0 /\ X - Z == (X + Z) * snd P.

Ltac eqring := apply eqp_of_eq; ring.

Lemma T_eq x y : ecv x y == 0 -> (121666 - 121665 * (y * y)) * (1 + x * x) == y * y.
Proof.
  intros H. apply eqp_move. pose proof edd_ok as D. apply eqp_move in D.
  apply (eqp_comb2 _ 121666 (ecv x y) (- (x * x * (y * y))) (121666 * edd - -121665)); [unfold ecv; ring|exact H|exact D].
Qed.
Lemma const_nz c : 0 < c < 2 ^ 254 -> ~ c == 0.
Proof. intros Hc H. apply eqp_iff in H. pose proof edp_big. rewrite Z.mod_0_l, Z.mod_small in H by lia. lia. Qed.
Lemma T_nz x y : ecv x y == 0 -> ~ 121666 - 121665 * (y * y) == 0.
Proof.
  intros H T. pose proof (T_eq x y H) as E. rewrite T, Z.mul_0_l in E. rewrite <- E in T. apply (const_nz 121666); [vm_compute; split; reflexivity|]. rewrite <- T. eqring.
Qed.

(** ** Doubling *)
Lemma double_urep X Z P : on_curve P -> urep X Z P ->
  let AA := (X + Z) * (X + Z) in let BB := (X - Z) * (X - Z) in let E := AA - BB in
  urep (AA * BB) (E * (AA + a24 * E)) (padd P P).
Proof.
  destruct P as [x y]. intros H [NA HB]. apply on_curve_eqp in H as (_ & _ & H). cbn [snd] in HB. cbv zeta.
  destruct (padd_spec x y x y H H) as (x' & y' & EP & _ & _ & _ & Ey). rewrite EP. unfold urep. cbn [snd]. clear EP x'.
  set (A := X + Z) in *. pose proof (T_eq x y H) as T. pose proof (T_nz x y H) as NT. set (t := 121666 - 121665 * (y * y)) in *.
  pose proof (denom_m x y x y H H) as Nm. set (dn := 1 - edd * x * x * y * y) in *.
  assert (D: dn == 2 + x * x - y * y). { apply eqp_move. transitivity (- ecv x y); [unfold dn, ecv; eqring|]. rewrite H. reflexivity. }
  assert (X2: A * A * ((X - Z) * (X - Z)) == A * A * A * A * t * (1 + x * x)). { rewrite HB. transitivity (A * A * A * A * (y * y)); [eqring|]. rewrite <- T. eqring. }
  assert (Z2: (A * A - (X - Z) * (X - Z)) * (A * A + a24 * (A * A - (X - Z) * (X - Z))) == A * A * A * A * t * (1 - y * y)). { rewrite HB. unfold a24, t. eqring. }
  rewrite X2, Z2. assert (NK: ~ A * A * A * A * t == 0) by (repeat apply eqp_nz_mul; assumption). set (K := A * A * A * A * t) in *. clearbody K A t.
  assert (S: K * (1 + x * x) + K * (1 - y * y) == K * dn) by (rewrite D; eqring). rewrite S. split; [now apply eqp_nz_mul|].
  transitivity (K * (dn * y')); [|eqring]. rewrite Ey. eqring.
Qed.

(** ** Differential addition *)
Lemma x_from_y x y : ecv x y == 0 -> x * x * (edd * (y * y) + 1) == y * y - 1.
Proof. intros H. apply eqp_move. rewrite <- H. unfold ecv. eqring. Qed.
Lemma edd1_nz : ~ edd + 1 == 0.
Proof.
  intros H. apply (const_nz 1); [vm_compute; split; reflexivity|]. transitivity (121666 * edd + 121666); [rewrite edd_ok; eqring|]. transitivity (121666 * (edd + 1)); [eqring|]. rewrite H. eqring.
Qed.
Lemma w_nz x y : ecv x y == 0 -> ~ edd * (y * y) + 1 == 0.
Proof.
  intros H W. pose proof (x_from_y x y H) as E. rewrite W, Z.mul_0_r in E. apply edd1_nz. rewrite <- W. assert (Y: y * y == 1) by (apply eqp_move; symmetry; exact E). rewrite Y. eqring.
Qed.
Lemma key_identity x1 y1 x2 y2 : ecv x1 y1 == 0 -> ecv x2 y2 == 0 ->
  let t := edd * x1 * x2 * y1 * y2 in let p := y1 * y2 in let q := x1 * x2 in
  (y1 + y2) * (y1 + y2) * ((1 - t - p - q) * (1 + t - p + q)) == (y2 - y1) * (y2 - y1) * ((1 - t + p + q) * (1 + t + p - q)).
Proof.
  intros H1 H2. cbv zeta. pose proof (x_from_y _ _ H1) as E1. pose proof (x_from_y _ _ H2) as E2. pose proof (w_nz _ _ H1) as W1. pose proof (w_nz _ _ H2) as W2.
  set (w1 := edd * (y1 * y1) + 1) in *. set (w2 := edd * (y2 * y2) + 1) in *. set (t := edd * x1 * x2 * y1 * y2). set (p := y1 * y2). set (q := x1 * x2).
  apply (eqp_cancel (w1 * w2)); [now apply eqp_nz_mul|].
  assert (Q: w1 * w2 * (q * q) == (y1 * y1 - 1) * (y2 * y2 - 1)) by (rewrite <- E1, <- E2; unfold q; eqring).
  assert (F1: w1 * w2 * ((1 - t - p - q) * (1 + t - p + q)) == (y1 - y2) * (y1 - y2) * ((1 + edd * p) * (1 + edd * p) + edd * ((1 - p) * (1 - p)))).
  { transitivity (w1 * w2 * ((1 - p) * (1 - p)) - w1 * w2 * (q * q) * ((1 + edd * p) * (1 + edd * p))); [unfold t, p, q; eqring|]. rewrite Q. unfold w1, w2, p. eqring. }
  assert (F2: w1 * w2 * ((1 - t + p + q) * (1 + t + p - q)) == (y1 + y2) * (y1 + y2) * ((1 - edd * p) * (1 - edd * p) + edd * ((1 + p) * (1 + p)))).
  { transitivity (w1 * w2 * ((1 + p) * (1 + p)) - w1 * w2 * (q * q) * ((1 - edd * p) * (1 - edd * p))); [unfold t, p, q; eqring|]. rewrite Q. unfold w1, w2, p. eqring. }
  transitivity ((y1 + y2) * (y1 + y2) * (w1 * w2 * ((1 - t - p - q) * (1 + t - p + q)))); [eqring|]. rewrite F1.
  transitivity ((y2 - y1) * (y2 - y1) * (w1 * w2 * ((1 - t + p + q) * (1 + t + p - q)))); [|eqring]. rewrite F2. eqring.
Qed.
Lemma sq_zero a : a * a == 0 -> a == 0.
Proof. intros H. apply eqp_integral in H. tauto. Qed.
Lemma diffadd_urep u P0 X1 Z1 P1 X2 Z2 P2 : on_curve P0 -> on_curve P1 -> on_curve P2 -> P2 = padd P1 P0 ->
  ~ u == 0 -> urep u 1 P0 -> urep X1 Z1 P1 -> urep X2 Z2 P2 ->
  let A := X1 + Z1 in let B := X1 - Z1 in let C := X2 + Z2 in let D := X2 - Z2 in
  urep ((D * A + C * B) * (D * A + C * B)) (u * ((D * A - C * B) * (D * A - C * B))) (padd P1 P2).
Proof.
  intros H0 H1 H2 EP Nu [NU HU] [NA HB] [NC HD]. cbv zeta.
  assert (ED: P0 = padd P2 (pneg P1)).
  { rewrite EP, (padd_comm P1 P0), padd_assoc, padd_neg_r, padd_0_r; (assumption || (now apply pneg_on_curve) || reflexivity). }
  pose proof (pneg_on_curve P1 H1) as HN. destruct P0 as [x0 y0], P1 as [x1 y1], P2 as [x2 y2]. unfold pneg in *. cbn [snd] in *.
  apply on_curve_eqp in H1 as (_ & _ & H1). apply on_curve_eqp in H2 as (_ & _ & H2). apply on_curve_eqp in HN as (_ & _ & HN). apply on_curve_eqp in H0 as (_ & _ & H0).
  destruct (padd_spec _ _ _ _ H2 HN) as (x0' & y0' & E0 & _ & _ & _ & Ey0). rewrite E0 in ED. inversion ED; subst x0' y0'. clear ED E0.
  destruct (padd_spec _ _ _ _ H1 H2) as (x' & ys & ES & _ & _ & _ & Eys). rewrite ES. clear ES EP. unfold urep. cbn [snd].
  pose proof (denom_p _ _ _ _ H1 H2) as Np. pose proof (denom_m _ _ _ _ H1 H2) as Nm. pose proof (key_identity _ _ _ _ H1 H2) as KI. cbv zeta in KI.
  rewrite eqp_mod in Ey0. assert (Ey0': (1 + edd * x1 * x2 * y1 * y2) * y0 == y1 * y2 - x1 * x2).
  { transitivity (y2 * y1 + x2 * - x1); [rewrite <- Ey0|]; eqring. }
  clear Ey0. set (t := edd * x1 * x2 * y1 * y2) in *. set (A := X1 + Z1) in *. set (C := X2 + Z2) in *.
  assert (NK: ~ A * C == 0) by now apply eqp_nz_mul. set (K := A * C) in *.
  assert (EX: ((X2 - Z2) * A + C * (X1 - Z1)) == K * (y1 + y2)) by (rewrite HB, HD; unfold K; eqring).
  assert (EZ: ((X2 - Z2) * A - C * (X1 - Z1)) == K * (y2 - y1)) by (rewrite HB, HD; unfold K; eqring).
  rewrite EX, EZ. clear EX EZ. clearbody K.
  assert (NY: ~ 1 - y0 == 0).
  { intros Y. apply two_nz. assert (Y1: y0 == 1) by (apply eqp_move; transitivity (- (1 - y0)); [eqring|]; rewrite Y; reflexivity). rewrite Y1 in HU. transitivity ((u + 1) * 1 - (u - 1)); [eqring|]. rewrite <- HU. eqring. }
  assert (NY2: ~ 1 + y0 == 0).
  { intros Y. assert (Y1: y0 == -1) by (apply eqp_move; rewrite <- Y; eqring). rewrite Y1 in HU. apply Nu. apply (eqp_cancel 2); [exact two_nz|]. transitivity (u - 1 - (u + 1) * -1); [eqring|]. rewrite HU. eqring. }
  assert (UY: u * (1 - y0) == 1 + y0).
  { apply (eqp_cancel 1); [exact one_nz|]. transitivity (u - 1 - (u + 1) * y0 + (1 + y0)); [eqring|]. rewrite HU. eqring. }
  set (X3 := K * (y1 + y2) * (K * (y1 + y2))). set (Z3 := u * (K * (y2 - y1) * (K * (y2 - y1)))).
  assert (CM: X3 * (1 - ys) == Z3 * (1 + ys)).
  { apply (eqp_cancel ((1 - t) * ((1 + t) * (1 - y0)))); [repeat apply eqp_nz_mul; assumption|].
    assert (M: (1 - t) * (1 - ys) == 1 - t - y1 * y2 - x1 * x2) by (transitivity (1 - t - (1 - t) * ys); [eqring|]; rewrite Eys; eqring).
    assert (N: (1 - t) * (1 + ys) == 1 - t + y1 * y2 + x1 * x2) by (transitivity (1 - t + (1 - t) * ys); [eqring|]; rewrite Eys; eqring).
    assert (M0: (1 + t) * (1 - y0) == 1 + t - y1 * y2 + x1 * x2) by (transitivity (1 + t - (1 + t) * y0); [eqring|]; rewrite Ey0'; eqring).
    assert (N0: (1 + t) * (1 + y0) == 1 + t + y1 * y2 - x1 * x2) by (transitivity (1 + t + (1 + t) * y0); [eqring|]; rewrite Ey0'; eqring).
    transitivity (K * K * ((y1 + y2) * (y1 + y2) * ((1 - t) * (1 - ys) * ((1 + t) * (1 - y0))))); [unfold X3; eqring|]. rewrite M, M0, KI, <- N, <- N0, <- UY. unfold Z3. rewrite <- M0. eqring. }
  assert (NZ: ~ (X3 == 0 /\ Z3 == 0)).
  { intros [ZX ZZ]. unfold X3 in ZX. apply sq_zero in ZX. apply eqp_integral in ZX. destruct ZX as [ZX|ZX]; [contradiction|].
    unfold Z3 in ZZ. apply eqp_integral in ZZ. destruct ZZ as [ZZ|ZZ]; [contradiction|]. apply sq_zero, eqp_integral in ZZ. destruct ZZ as [ZZ|ZZ]; [contradiction|].
    assert (Y1: y1 == 0). { apply (eqp_cancel 2); [exact two_nz|]. transitivity (y1 + y2 - (y2 - y1)); [eqring|]. rewrite ZX, ZZ. eqring. }
    assert (Y2: y2 == 0). { transitivity (y1 + y2 - y1); [eqring|]. rewrite ZX, Y1. eqring. }
    assert (S1: x1 * x1 == -1). { apply eqp_move. rewrite <- H1. unfold ecv. rewrite Y1. eqring. }
    assert (S2: x2 * x2 == -1). { apply eqp_move. rewrite <- H2. unfold ecv. rewrite Y2. eqring. }
    assert (T0: t == 0). { unfold t. rewrite Y1. eqring. } rewrite T0 in Ey0'. rewrite Y1 in Ey0'.
    assert (Y0: y0 == - (x1 * x2)). { transitivity ((1 + 0) * y0); [eqring|]. rewrite Ey0'. eqring. }
    assert (YY: (1 - y0) * (1 + y0) == 0). { transitivity (1 - y0 * y0); [eqring|]. rewrite Y0. transitivity (1 - (x1 * x1) * (x2 * x2)); [eqring|]. rewrite S1, S2. eqring. }
    apply eqp_integral in YY. tauto. }
  assert (CM2: X3 - Z3 == (X3 + Z3) * ys). { apply eqp_move. transitivity (X3 * (1 - ys) - Z3 * (1 + ys)); [eqring|]. rewrite CM. eqring. }
  split; [|exact CM2]. intros S. apply NZ. rewrite S in CM2. split; (apply (eqp_cancel 2); [exact two_nz|]).
  - transitivity (X3 + Z3 + (X3 - Z3)); [eqring|]. rewrite S, CM2. eqring.
  - transitivity (X3 + Z3 - (X3 - Z3)); [eqring|]. rewrite S, CM2. eqring.
Qed.

(** ** The ladder *)
Definition st_rep (m : Z) (P : point) (st : Z * Z * Z * Z) : Prop :=
  let '(x2, z2, x3, z3) := st in urep x2 z2 (smul m P) /\ urep x3 z3 (smul (m + 1) P).
Lemma urep_eqp X Z X' Z' P : urep X Z P -> X' == X -> Z' == Z -> urep X' Z' P.
Proof. intros [N E] HX HZ. unfold urep. rewrite HX, HZ. split; assumption. Qed.
Lemma ladder_core u P m x2 z2 x3 z3 : on_curve P -> 0 <= m -> ~ u == 0 -> urep u 1 P ->
  urep x2 z2 (smul m P) -> urep x3 z3 (smul (m + 1) P) ->
  let '(a, c, b, d) := ladder_step u false (x2, z2, x3, z3) in urep a c (smul (2 * m) P) /\ urep b d (smul (2 * m + 1) P).
Proof.
  intros HP Hm Nu HU H2 H3. unfold ladder_step. cbv beta iota zeta.
  pose proof (smul_closed m P HP) as C2. pose proof (smul_closed (m + 1) P HP) as C3. split.
  - replace (2 * m) with (m + m) by lia. rewrite smul_add by (assumption || lia). eapply urep_eqp; [apply (double_urep x2 z2 _ C2 H2)| |]; rewrite !eqp_mod; apply eqp_refl.
  - replace (2 * m + 1) with (m + (m + 1)) by lia. rewrite smul_add by (assumption || lia).
    eapply urep_eqp; [apply (diffadd_urep u P x2 z2 (smul m P) x3 z3 (smul (m + 1) P)); try assumption|rewrite !Z.pow_2_r, !eqp_mod; apply eqp_refl|rewrite !Z.pow_2_r, !eqp_mod; apply eqp_refl].
    rewrite smul_add, smul_1 by (assumption || lia). reflexivity.
Qed.
Lemma ladder_core_rev u P m x2 z2 x3 z3 : on_curve P -> 0 <= m -> ~ u == 0 -> urep u 1 P ->
  urep x2 z2 (smul m P) -> urep x3 z3 (smul (m + 1) P) ->
  let '(a, c, b, d) := ladder_step u false (x3, z3, x2, z2) in urep a c (smul (2 * m + 2) P) /\ urep b d (smul (2 * m + 1) P).
Proof.
  intros HP Hm Nu HU H2 H3. unfold ladder_step. cbv beta iota zeta.
  pose proof (smul_closed m P HP) as C2. pose proof (smul_closed (m + 1) P HP) as C3. split.
  - replace (2 * m + 2) with (m + 1 + (m + 1)) by lia. rewrite smul_add by (assumption || lia). eapply urep_eqp; [apply (double_urep x3 z3 _ C3 H3)| |]; rewrite !eqp_mod; apply eqp_refl.
  - replace (2 * m + 1) with (m + (m + 1)) by lia. rewrite smul_add by (assumption || lia).
    eapply urep_eqp; [apply (diffadd_urep u P x2 z2 (smul m P) x3 z3 (smul (m + 1) P)); try assumption|rewrite !Z.pow_2_r, !eqp_mod; eqring|rewrite !Z.pow_2_r, !eqp_mod; eqring].
    rewrite smul_add, smul_1 by (assumption || lia). reflexivity.
Qed.
Lemma ladder_step_rep u P m st b : on_curve P -> 0 <= m -> ~ u == 0 -> urep u 1 P -> st_rep m P st ->
  st_rep (2 * m + Z.b2z b) P (ladder_step u b st).
Proof.
  intros HP Hm Nu HU. destruct st as [[[x2 z2] x3] z3]. intros [H2 H3]. destruct b; cbn [Z.b2z].
  - pose proof (ladder_core_rev u P m x2 z2 x3 z3 HP Hm Nu HU H2 H3) as L.
    change (ladder_step u true (x2, z2, x3, z3)) with (let '(a, c, b, d) := ladder_step u false (x3, z3, x2, z2) in (b, d, a, c)).
    destruct (ladder_step u false (x3, z3, x2, z2)) as [[[a c] b] d]. destruct L as [L1 L2]. split; [exact L2|]. replace (2 * m + 1 + 1) with (2 * m + 2) by lia. exact L1.
  - pose proof (ladder_core u P m x2 z2 x3 z3 HP Hm Nu HU H2 H3) as L. destruct (ladder_step u false (x2, z2, x3, z3)) as [[[a c] b] d]. rewrite Z.add_0_r. exact L.
Qed.
Lemma ladder_rep u P k : on_curve P -> ~ u == 0 -> urep u 1 P -> 0 <= k -> forall t st,
  st_rep (k / 2 ^ Z.of_nat t) P st -> st_rep k P (ladder u k t st).
Proof.
  intros HP Nu HU Hk. induction t as [|t IH]; intros st H.
  - change (2 ^ Z.of_nat 0) with 1 in H. rewrite Z.div_1_r in H. exact H.
  - cbn [ladder]. apply IH. replace (k / 2 ^ Z.of_nat t) with (2 * (k / 2 ^ Z.of_nat (S t)) + Z.b2z (Z.testbit k (Z.of_nat t))).
    + apply ladder_step_rep; try assumption. apply Z.div_pos; [exact Hk|apply Z.pow_pos_nonneg; lia].
    + rewrite Z.testbit_spec' by lia. replace (Z.of_nat (S t)) with (Z.of_nat t + 1) by lia. rewrite Z.pow_add_r, Z.pow_1_r by lia. assert (0 < 2 ^ Z.of_nat t) by (apply Z.pow_pos_nonneg; lia). rewrite <- Z.div_div by lia. symmetry. apply Z.div_mod. lia.
Qed.

(** ** u-coordinates *)
Lemma finv_0 a : a == 0 -> finv a == 0.
Proof.
  intros H. rewrite (finv_eqp _ _ H). Transparent finv. unfold finv. Opaque finv. rewrite powm_eqp. pose proof edp_val. rewrite Z2Pos.id by lia. rewrite Z.pow_0_l by lia. apply eqp_refl.
Qed.
Lemma eqp_dec a b : a == b \/ ~ a == b.
Proof. destruct (Z.eq_dec (a mod edp) (b mod edp)) as [E|E]; [left; now apply eqp_iff|right; intros H; apply E; now apply eqp_iff]. Qed.
Lemma urep_ucoord X Z P : urep X Z P -> (X * finv Z) mod edp = ucoord P.
Proof.
  intros [N E]. unfold ucoord. apply eqp_iff. destruct P as [x y]. cbn [snd] in *. destruct (eqp_dec (1 - y) 0) as [Y|Y].
  - assert (Y1: y == 1) by (apply eqp_move; transitivity (- (1 - y)); [eqring|]; rewrite Y; reflexivity).
    assert (Z0: Z == 0). { rewrite Y1 in E. apply (eqp_cancel 2); [exact two_nz|]. transitivity ((X + Z) * 1 - (X - Z)); [eqring|]. rewrite <- E. eqring. }
    rewrite (finv_0 _ Z0), (finv_0 _ Y). eqring.
  - assert (CM: X * (1 - y) == Z * (1 + y)). { apply eqp_move. transitivity (X - Z - (X + Z) * y); [eqring|]. rewrite E. eqring. }
    assert (NZ: ~ Z == 0). { intros Z0. rewrite Z0, Z.mul_0_l in CM. apply eqp_integral in CM. destruct CM as [X0|]; [|contradiction]. apply N. rewrite X0, Z0. eqring. }
    apply div_eq; [exact NZ|]. apply (eqp_cancel (1 - y)); [exact Y|]. transitivity (X * (1 - y)); [eqring|]. rewrite CM. transitivity (Z * ((1 - y) * ((1 + y) * finv (1 - y)))); [|eqring]. rewrite mul_div by exact Y. eqring.
Qed.
Lemma y_not_1 x y : on_curve (x, y) -> x <> 0 -> ~ 1 - y == 0 /\ ~ 1 + y == 0.
Proof.
  intros H Nx. apply on_curve_eqp in H as (Hx & Hy & H).
  assert (G: ~ 1 - y * y == 0).
  { intros Y. apply Nx. apply eqp_small; [exact Hx|pose proof edp_pos; lia|]. apply sq_zero. apply (eqp_cancel (edd + 1)); [exact edd1_nz|].
    assert (Y1: y * y == 1) by (apply eqp_move; transitivity (- (1 - y * y)); [eqring|]; rewrite Y; reflexivity).
    pose proof (x_from_y x y H) as E. rewrite Y1 in E. transitivity (x * x * (edd * 1 + 1)); [eqring|]. rewrite E. eqring. }
  split; intros Y; apply G; [transitivity ((1 - y) * (1 + y))|transitivity ((1 + y) * (1 - y))]; try eqring; rewrite Y; eqring.
Qed.
Lemma ucoord_urep x y : on_curve (x, y) -> x <> 0 -> ~ ucoord (x, y) == 0 /\ urep (ucoord (x, y)) 1 (x, y).
Proof.
  intros H Nx. destruct (y_not_1 x y H Nx) as [N1 N2]. unfold ucoord, urep. cbn [snd]. rewrite !eqp_mod. set (v := (1 + y) * finv (1 - y)). assert (V: (1 - y) * v == 1 + y) by (apply mul_div; exact N1). clearbody v.
  split; [intros Z; apply N2; rewrite <- V, Z; eqring|]. split.
  - intros Z. apply two_nz. transitivity (1 + y + (1 - y)); [eqring|]. rewrite <- V. transitivity ((1 - y) * (v + 1)); [eqring|]. rewrite Z. eqring.
  - apply eqp_move. transitivity ((1 - y) * v - (1 + y)); [eqring|]. rewrite V. eqring.
Qed.
Lemma ladder_is_smul_nz k P : on_curve P -> fst P <> 0 -> 0 <= k < 2 ^ 255 ->
  montgomery_ladder k (ucoord P) = ucoord (smul k P).
Proof.
  intros HP Nx Hk. destruct P as [x y]. cbn [fst] in Nx. destruct (ucoord_urep x y HP Nx) as [Nu HU]. set (u := ucoord (x, y)) in *. set (P := (x, y)) in *.
  unfold montgomery_ladder. pose proof (ladder_rep u P k HP Nu HU ltac:(lia) 255%nat (1, 0, u, 1)) as L.
  destruct (ladder u k 255 (1, 0, u, 1)) as [[[x2 z2] x3] z3]. apply urep_ucoord. apply L.
  change (2 ^ Z.of_nat 255) with (2 ^ 255). rewrite Z.div_small by lia. split.
  - rewrite smul_0. unfold urep, pzero. cbn [snd]. split; [intros Z; apply one_nz; rewrite <- Z; eqring|eqring].
  - rewrite Z.add_0_l, smul_1 by exact HP. exact HU.
Qed.

(** the input u = 0 gives 0 for every scalar *)
Lemma ladder_step_zero u x2 z2 x3 z3 : u == 0 -> x2 * z2 == 0 ->
  let '(a, c, b, d) := ladder_step u false (x2, z2, x3, z3) in a * c == 0 /\ b * d == 0.
Proof.
  intros Hu H. unfold ladder_step. cbv beta iota zeta.
  match goal with |- ?a * ?c == 0 /\ ?b * ?d == 0 => assert (C: c == 0); [|assert (D: d == 0)] end.
  - rewrite !eqp_mod. transitivity (x2 * z2 * (4 * ((x2 + z2) * (x2 + z2) + a24 * ((x2 + z2) * (x2 + z2) - (x2 - z2) * (x2 - z2))))); [eqring|]. rewrite H. eqring.
  - rewrite !Z.pow_2_r, !eqp_mod. rewrite Hu. eqring.
  - rewrite C, D. split; eqring.
Qed.
Lemma ladder_zero k t u : u == 0 -> forall st, (let '(x2, z2, x3, z3) := st in x2 * z2 == 0 /\ x3 * z3 == 0) ->
  let '(x2, z2, x3, z3) := ladder u k t st in x2 * z2 == 0 /\ x3 * z3 == 0.
Proof.
  intros Hu. induction t as [|t IH]; intros st H; [exact H|]. cbn [ladder]. apply IH. destruct st as [[[x2 z2] x3] z3]. destruct H as [H2 H3]. destruct (Z.testbit k (Z.of_nat t)).
  - change (ladder_step u true (x2, z2, x3, z3)) with (let '(a, c, b, d) := ladder_step u false (x3, z3, x2, z2) in (b, d, a, c)).
    pose proof (ladder_step_zero u x3 z3 x2 z2 Hu H3) as L. destruct (ladder_step u false (x3, z3, x2, z2)) as [[[a c] b] d]. tauto.
  - exact (ladder_step_zero u x2 z2 x3 z3 Hu H2).
Qed.
Theorem ladder_of_zero k u : u == 0 -> montgomery_ladder k u = 0.
Proof.
  intros Hu. unfold montgomery_ladder. pose proof (ladder_zero k 255 u Hu (1, 0, u, 1)) as L. destruct (ladder u k 255 (1, 0, u, 1)) as [[[x2 z2] x3] z3]. destruct L as [L _]; [split; [eqring|rewrite Hu; eqring]|].
  transitivity (0 mod edp); [apply eqp_iff|apply Z.mod_0_l; pose proof edp_pos; lia]. apply eqp_integral in L. destruct L as [L|L]; [rewrite L|rewrite (finv_0 _ L)]; eqring.
Qed.

(** ** Points with x = 0 *)
Lemma x0_ucoord P : on_curve P -> fst P = 0 -> ucoord P = 0.
Proof.
  destruct P as [x y]. intros H Hx. cbn [fst] in Hx. subst x. apply on_curve_eqp in H as (_ & _ & H). unfold ucoord. cbn [snd].
  transitivity (0 mod edp); [apply eqp_iff|apply Z.mod_0_l; pose proof edp_pos; lia].
  assert (Y: (1 - y) * (1 + y) == 0) by (rewrite <- H; unfold ecv; eqring). apply eqp_integral in Y. destruct Y as [Y|Y]; [rewrite (finv_0 _ Y)|rewrite Y]; eqring.
Qed.
Lemma x0_padd P Q : fst P = 0 -> fst Q = 0 -> fst (padd P Q) = 0.
Proof. destruct P as [x1 y1], Q as [x2 y2]. cbn [fst]. intros -> ->. Transparent padd. unfold padd. Opaque padd. cbn [fst]. match goal with |- (?a * _) mod _ = _ => change a with 0 end. rewrite Z.mul_0_l. apply Z.mod_0_l. pose proof edp_pos. lia. Qed.
Lemma x0_smul k P : 0 <= k -> fst P = 0 -> fst (smul k P) = 0.
Proof. intros Hk HP. revert k Hk. apply natlike_ind; [reflexivity|]. intros k Hk IH. unfold Z.succ. rewrite smul_succ by lia. now apply x0_padd. Qed.
Theorem ladder_is_smul k P : on_curve P -> 0 <= k < 2 ^ 255 -> montgomery_ladder k (ucoord P) = ucoord (smul k P).
Proof.
  intros HP Hk. destruct (Z.eq_dec (fst P) 0) as [X|X]; [|now apply ladder_is_smul_nz].
  rewrite (x0_ucoord P HP X). rewrite ladder_of_zero by apply eqp_refl. symmetry. apply x0_ucoord; [now apply smul_closed|apply x0_smul; [lia|exact X]].
Qed.

(** ** X25519 on encodings *)
Lemma decodeScalar_range k : 2 ^ 254 <= decodeScalar25519 k < 2 ^ 255.
Proof.
  unfold decodeScalar25519. set (v := le_val k). pose proof (Z.mod_pos_bound v (2 ^ 254) ltac:(apply Z.pow_pos_nonneg; lia)) as R. set (r := v mod 2 ^ 254) in *. clearbody r.
  change (2 ^ 255) with (2 * 2 ^ 254). set (B := 2 ^ 254) in *. clearbody B. pose proof (Z.div_mod r 8 ltac:(lia)). pose proof (Z.mod_pos_bound r 8 ltac:(lia)). lia.
Qed.
Lemma le_val_le_bytes n : forall v, 0 <= v < 256 ^ Z.of_nat n -> le_val (le_bytes n v) = v.
Proof.
  induction n as [|n IH]; intros v Hv; cbn [le_bytes le_val]; [change (256 ^ Z.of_nat 0) with 1 in Hv; lia|]. rewrite Nat2Z.inj_succ, Z.pow_succ_r in Hv by lia.
  rewrite IH by (split; [apply Z.div_pos; lia|apply Z.div_lt_upper_bound; lia]). pose proof (Z.div_mod v 256 ltac:(lia)). lia.
Qed.
Lemma decode_encode v : decodeUCoordinate (encodeUCoordinate v) = v mod edp.
Proof.
  unfold decodeUCoordinate, encodeUCoordinate. pose proof (mod_range v) as R. assert (EB: edp < 2 ^ 255) by (rewrite edp_val; vm_compute; reflexivity).
  rewrite le_val_le_bytes by (change (256 ^ Z.of_nat 32) with (2 * 2 ^ 255); lia). rewrite (Z.mod_small _ (2 ^ 255)) by lia. apply Z.mod_small. exact R.
Qed.
Lemma ucoord_range P : 0 <= ucoord P < edp. Proof. apply mod_range. Qed.
Theorem x25519_smul k P : on_curve P -> x25519 k (encodeUCoordinate (ucoord P)) = encodeUCoordinate (ucoord (smul (decodeScalar25519 k) P)).
Proof.
  intros HP. unfold x25519. rewrite decode_encode, Z.mod_small by apply ucoord_range. pose proof (decodeScalar_range k) as R. rewrite ladder_is_smul; [reflexivity|exact HP|]. assert (0 < 2 ^ 254) by (apply Z.pow_pos_nonneg; lia). lia.
Qed.
Lemma ucoord_B : ucoord edB = 9.
Proof.
  unfold ucoord, edB. cbn [snd]. set (y := 46316835694926478169428394003475163141307993866256225615783033603165251855960).
  assert (E: 1 + y == (1 - y) * 9) by (apply eqp_iff; vm_compute; reflexivity). assert (N: ~ 1 - y == 0) by (intros N; apply eqp_iff in N; vm_compute in N; discriminate).
  apply (eqp_small _ 9); [apply mod_range|pose proof edp_val; lia|]. rewrite eqp_mod. apply div_eq; [exact N|exact E].
Qed.
Definition base9 : list Z := 9 :: repeat 0 31.
Lemma base9_encode : base9 = encodeUCoordinate (ucoord edB).
Proof. rewrite ucoord_B. unfold encodeUCoordinate. rewrite Z.mod_small by (pose proof edp_val; lia). vm_compute. reflexivity. Qed.
Lemma decode_pos k : 0 <= decodeScalar25519 k. Proof. pose proof (decodeScalar_range k). assert (0 < 2 ^ 254) by (apply Z.pow_pos_nonneg; lia). lia. Qed.
Theorem x25519_commutes a b P : on_curve P ->
  x25519 a (x25519 b (encodeUCoordinate (ucoord P))) = x25519 b (x25519 a (encodeUCoordinate (ucoord P))).
Proof.
  intros HP. rewrite !x25519_smul by (try apply smul_closed; exact HP). rewrite <- !smul_mul by (exact HP || apply decode_pos). now rewrite Z.mul_comm.
Qed.
(** public keys are never the degenerate u = 0 *)
Theorem x25519_base_nonzero k : ucoord (smul (decodeScalar25519 k) edB) <> 0.
Proof.
  pose proof (decodeScalar_range k) as R. pose proof (decode_pos k) as P0. pose proof (smul_closed (decodeScalar25519 k) edB edB_on_curve) as C.
  assert (X: fst (smul (decodeScalar25519 k) edB) <> 0).
  { intros X. assert (D: smul (2 * decodeScalar25519 k) edB = pzero).
    { replace (2 * decodeScalar25519 k) with (decodeScalar25519 k + decodeScalar25519 k) by lia. rewrite smul_add by (exact edB_on_curve || exact P0).
      destruct (smul (decodeScalar25519 k) edB) as [x y]. cbn [fst] in X. subst x. apply on_curve_eqp in C as (_ & Hy & H). destruct (padd_spec 0 y 0 y H H) as (x' & y' & E & Hx' & Hy' & Ex & Ey). rewrite E. unfold pzero. pose proof edp_val.
      apply point_eq; try assumption; try lia.
      - transitivity ((1 + edd * 0 * 0 * y * y) * x'); [eqring|]. rewrite Ex. eqring.
      - transitivity ((1 - edd * 0 * 0 * y * y) * y'); [eqring|]. rewrite Ey. apply eqp_move. transitivity (- ecv 0 y); [unfold ecv; eqring|]. rewrite H. reflexivity. }
    apply smul_B_zero in D; [|lia]. unfold decodeScalar25519 in *. set (j := le_val k mod 2 ^ 254 / 8) in *.
    assert (Hj: 0 <= 2 ^ 251 + j < edL). { unfold edL. change (2 ^ 252) with (2 * 2 ^ 251). change (2 ^ 254) with (8 * 2 ^ 251) in R. change (2 ^ 255) with (16 * 2 ^ 251) in R. clearbody j. set (B := 2 ^ 251) in *. clearbody B. lia. }
    assert (Hp: 0 < 2 ^ 251 + j). { change (2 ^ 254) with (8 * 2 ^ 251) in R. assert (0 < 2 ^ 251) by (apply Z.pow_pos_nonneg; lia). clearbody j. set (B := 2 ^ 251) in *. clearbody B. lia. }
    replace (2 * (2 ^ 254 + 8 * j)) with (16 * (2 ^ 251 + j)) in D by (change (2 ^ 254) with (8 * 2 ^ 251); ring).
    apply prime_mult in D; [|exact prime_edL]. destruct D as [D|D]; apply Z.divide_pos_le in D; try lia. }
  destruct (smul (decodeScalar25519 k) edB) as [x y]. cbn [fst] in X. destruct (ucoord_urep x y C X) as [N _]. intros E. apply N. rewrite E. apply eqp_refl.
Qed.
