(** Extended coordinates (X : Y : Z : T) for Ed25519 points, and the order of the base point. *)
From Verif Require Import Base NumTheory EdSpec EdCurve.
From Coq Require Import Znumtheory Setoid Morphisms.

Definition rep (X Y Z T : Z) (P : point) : Prop :=
  on_curve P /\ ~ Z == 0 /\ X == fst P * Z /\ Y == snd P * Z /\ T == fst P * snd P * Z.

(** the unified addition formulas used by the code represent the sum *)
Lemma rep_add X1 Y1 Z1 T1 P1 X2 Y2 Z2 T2 P2 a b c d :
  rep X1 Y1 Z1 T1 P1 -> rep X2 Y2 Z2 T2 P2 ->
  a == (Y1 - X1) * (Y2 - X2) -> b == (X1 + Y1) * (X2 + Y2) -> c == T1 * T2 * (2 * edd) -> d == Z1 * Z2 ->
  rep ((b - a) * (2 * d - c)) ((b + a) * (2 * d + c)) ((2 * d + c) * (2 * d - c)) ((b - a) * (b + a)) (padd P1 P2).
Proof.
  destruct P1 as [x1 y1], P2 as [x2 y2]. intros (C1 & N1 & EX1 & EY1 & ET1) (C2 & N2 & EX2 & EY2 & ET2) Ha Hb Hc Hd. cbn [fst snd] in *.
  pose proof (padd_closed _ _ C1 C2) as C3. apply on_curve_eqp in C1 as (_ & _ & H1). apply on_curve_eqp in C2 as (_ & _ & H2).
  destruct (padd_spec x1 y1 x2 y2 H1 H2) as (x & y & E & Hx & Hy & Ex & Ey). rewrite E in *. pose proof (denom_p _ _ _ _ H1 H2) as Np. pose proof (denom_m _ _ _ _ H1 H2) as Nm.
  set (k := edd * x1 * x2 * y1 * y2) in *.
  assert (Eba: b - a == 2 * (x1 * y2 + x2 * y1) * (Z1 * Z2)). { rewrite Ha, Hb, EX1, EX2, EY1, EY2. apply eqp_of_eq. ring. }
  assert (Ebpa: b + a == 2 * (y1 * y2 + x1 * x2) * (Z1 * Z2)). { rewrite Ha, Hb, EX1, EX2, EY1, EY2. apply eqp_of_eq. ring. }
  assert (Em: 2 * d - c == 2 * (Z1 * Z2) * (1 - k)). { rewrite Hc, Hd, ET1, ET2. apply eqp_of_eq. unfold k. ring. }
  assert (Ep: 2 * d + c == 2 * (Z1 * Z2) * (1 + k)). { rewrite Hc, Hd, ET1, ET2. apply eqp_of_eq. unfold k. ring. }
  assert (NZ: ~ Z1 * Z2 == 0) by (now apply eqp_nz_mul). rewrite <- Ex in Eba. rewrite <- Ey in Ebpa.
  unfold rep. split; [exact C3|]. cbn [fst snd]. split; [|split; [|split]].
  - rewrite Ep, Em. repeat apply eqp_nz_mul; try assumption; exact two_nz.
  - rewrite Eba, Em, Ep. apply eqp_of_eq. ring.
  - rewrite Ebpa, Em, Ep. apply eqp_of_eq. ring.
  - rewrite Eba, Ebpa, Em, Ep. apply eqp_of_eq. ring.
Qed.
Lemma rep_eqp X Y Z T X' Y' Z' T' P : rep X Y Z T P -> X' == X -> Y' == Y -> Z' == Z -> T' == T -> rep X' Y' Z' T' P.
Proof. intros (C & N & EX & EY & ET) HX HY HZ HT. unfold rep. rewrite HX, HY, HZ, HT. repeat split; assumption. Qed.
Lemma rep_zero : rep 0 1 1 0 pzero.
Proof. unfold rep, pzero; cbn [fst snd]. split; [exact pzero_on_curve|]. split; [exact one_nz|]. repeat split; apply eqp_of_eq; ring. Qed.
Lemma rep_affine x y t : on_curve (x, y) -> t == x * y -> rep x y 1 t (x, y).
Proof. intros C Ht. unfold rep; cbn [fst snd]. split; [exact C|]. split; [exact one_nz|]. rewrite Ht. repeat split; apply eqp_of_eq; ring. Qed.

(** ** L B = O, by computation in extended coordinates with cheap reductions *)
Definition fred (x : Z) : Z := Z.land x (Z.ones 255) + 19 * Z.shiftr x 255.
Lemma fred_ok x : fred x == x.
Proof.
  unfold fred. rewrite Z.land_ones, Z.shiftr_div_pow2 by lia. apply eqp_sym. unfold eqp. exists (x / 2 ^ 255).
  pose proof (Z.div_mod x (2 ^ 255) ltac:(vm_compute; discriminate)) as E. change edp with (2 ^ 255 - 19).
  set (q := x / 2 ^ 255) in *. set (r := x mod 2 ^ 255) in *. rewrite E. ring.
Qed.
Definition fm (a b : Z) : Z := fred (fred (a * b)).
Lemma fm_ok a b : fm a b == a * b. Proof. unfold fm. now rewrite !fred_ok. Qed.
Definition ext : Type := (Z * Z * Z * Z)%type.
Definition edd2 : Z := 16295367250680780974490674513165176452449235426866156013048779062215315747161.
Lemma edd2_ok : edd2 == 2 * edd. Proof. apply eqp_iff. vm_compute. reflexivity. Qed.
Definition ext_add (P Q : ext) : ext :=
  let '(X1, Y1, Z1, T1) := P in let '(X2, Y2, Z2, T2) := Q in
  let a := fm (Y1 + edp - X1) (Y2 + edp - X2) in
  let b := fm (X1 + Y1) (X2 + Y2) in
  let c := fm (fm T1 T2) edd2 in
  let d := fm Z1 Z2 in
  let e := b + 2 * edp - a in let f := 2 * d + 2 * edp - c in let g := 2 * d + c in let h := b + a in
  (fm e f, fm h g, fm g f, fm e h).
Definition rep4 (Q : ext) (P : point) : Prop := let '(X, Y, Z, T) := Q in rep X Y Z T P.
Lemma edp_0 k : k * edp == 0. Proof. apply eqp0. exists k. ring. Qed.
Lemma ext_add_ok Q1 P1 Q2 P2 : rep4 Q1 P1 -> rep4 Q2 P2 -> rep4 (ext_add Q1 Q2) (padd P1 P2).
Proof.
  destruct Q1 as [[[X1 Y1] Z1] T1], Q2 as [[[X2 Y2] Z2] T2]. unfold rep4, ext_add. intros H1 H2.
  pose proof (edp_0 1) as E1. rewrite Z.mul_1_l in E1. pose proof (edp_0 2) as E2.
  eapply rep_eqp; [eapply (rep_add _ _ _ _ P1 _ _ _ _ P2 (fm (Y1 + edp - X1) (Y2 + edp - X2)) (fm (X1 + Y1) (X2 + Y2)) (fm (fm T1 T2) edd2) (fm Z1 Z2) H1 H2)|..].
  - rewrite fm_ok, E1. apply eqp_of_eq. ring.
  - apply fm_ok.
  - rewrite !fm_ok, edd2_ok. reflexivity.
  - apply fm_ok.
  - rewrite fm_ok. rewrite E2. apply eqp_of_eq. ring.
  - apply fm_ok.
  - rewrite fm_ok. rewrite E2. apply eqp_of_eq. ring.
  - rewrite fm_ok. rewrite E2. apply eqp_of_eq. ring.
Qed.
Fixpoint ext_mul (n : positive) (Q : ext) : ext :=
  match n with
  | xH => Q
  | xO n => let R := ext_mul n Q in ext_add R R
  | xI n => let R := ext_mul n Q in ext_add Q (ext_add R R)
  end.
Lemma ext_mul_ok n Q P : rep4 Q P -> rep4 (ext_mul n Q) (smul (Z.pos n) P).
Proof.
  intros H. assert (C: on_curve P) by (destruct Q as [[[X Y] Z] T]; apply H). induction n as [n IH|n IH|]; cbn [ext_mul].
  - replace (Z.pos n~1) with ((Z.pos n + Z.pos n) + 1) by lia. rewrite smul_succ, smul_add by (try assumption; lia). apply ext_add_ok; [exact H|]. now apply ext_add_ok.
  - replace (Z.pos n~0) with (Z.pos n + Z.pos n) by lia. rewrite smul_add by (try assumption; lia). now apply ext_add_ok.
  - now rewrite smul_1.
Qed.
Lemma edB_on_curve : on_curve edB.
Proof. unfold on_curve, edB. pose proof edp_val. split; [lia|]. split; [lia|]. vm_compute. reflexivity. Qed.
Definition edB4 : ext := (fst edB, snd edB, 1, fst edB * snd edB).
Definition is_zero4 (Q : ext) : bool := let '(X, Y, Z, T) := Q in (X mod edp =? 0) && ((Y - Z) mod edp =? 0).
Lemma is_zero4_ok Q P : rep4 Q P -> is_zero4 Q = true -> P = pzero.
Proof.
  destruct Q as [[[X Y] Z] T], P as [x y]. intros (C & N & EX & EY & _) H. cbn [fst snd] in *. apply on_curve_eqp in C as (Hx & Hy & _).
  unfold is_zero4 in H. apply andb_prop in H as [H1 H2]. apply Z.eqb_eq in H1, H2. pose proof edp_val. apply point_eq; try assumption; try lia.
  - apply (eqp_cancel Z); [exact N|]. rewrite Z.mul_0_r, Z.mul_comm, <- EX, <- eqp_mod, H1. reflexivity.
  - apply (eqp_cancel Z); [exact N|]. rewrite Z.mul_1_r, Z.mul_comm, <- EY. apply eqp_move. rewrite <- eqp_mod, H2. reflexivity.
Qed.
Lemma smul_L_B : smul edL edB = pzero.
Proof.
  apply (is_zero4_ok (ext_mul (Z.to_pos edL) edB4)).
  - replace edL with (Z.pos (Z.to_pos edL)) at 2 by (vm_compute; reflexivity). apply ext_mul_ok. unfold edB4, rep4. apply (rep_affine (fst edB) (snd edB)); [exact edB_on_curve|reflexivity].
  - vm_compute. reflexivity.
Qed.
