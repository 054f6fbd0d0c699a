(** Proofs about reduce.c and rounding.c. *)
From Verif Require Import Base DilReduce.
From Coq Require Import Znumtheory.
Ltac Zify.zify_post_hook ::= Z.div_mod_to_equations.

Lemma ck32_ok x : - 2 ^ 31 <= x < 2 ^ 31 -> ck32 x = Ret x.
Proof. intros. unfold ck32. replace (_ && _) with true; [reflexivity|]. lia. Qed.
Lemma ck64_ok x : - 2 ^ 63 <= x < 2 ^ 63 -> ck64 x = Ret x.
Proof. intros. unfold ck64. replace (_ && _) with true; [reflexivity|]. lia. Qed.
Lemma shl32_ok a n : 0 <= a -> 0 <= n -> a * 2 ^ n < 2 ^ 31 -> shl32 a n = Ret (a * 2 ^ n).
Proof.
  intros H0 Hn H. unfold shl32. replace (0 <=? a) with true by lia. rewrite Z.shiftl_mul_pow2 by lia.
  apply ck32_ok. assert (0 < 2 ^ n) by (apply Z.pow_pos_nonneg; lia). nia.
Qed.
Lemma i32_id x : - 2 ^ 31 <= x < 2 ^ 31 -> i32 x = x.
Proof. intros. unfold i32. rewrite Z.mod_small by lia. lia. Qed.
Lemma i32_range x : - 2 ^ 31 <= i32 x < 2 ^ 31.
Proof. unfold i32. pose proof (Z.mod_pos_bound (x + 2 ^ 31) (2 ^ 32) ltac:(lia)). lia. Qed.

(** *** Montgomery reduction *)
Lemma qinv : (Q * QINV) mod 2 ^ 32 = 1.
Proof. reflexivity. Qed.
Lemma mod_mod_64_32 x : (x mod 2 ^ 64) mod 2 ^ 32 = x mod 2 ^ 32.
Proof. symmetry. apply Znumtheory.Zmod_div_mod; [lia|lia|]. exists (2 ^ 32). reflexivity. Qed.
Lemma add_mod_l32 x y : (x mod 2 ^ 32 + y) mod 2 ^ 32 = (x + y) mod 2 ^ 32.
Proof. apply Zplus_mod_idemp_l. Qed.
Definition mont_t (a : Z) : Z := (u64 a * QINV + 2 ^ 31) mod 2 ^ 32 - 2 ^ 31.
Lemma mont_t_code a : i32 (u64 (u64 a * QINV)) = mont_t a.
Proof.
  unfold i32, mont_t. f_equal. unfold u64 at 1.
  rewrite <- add_mod_l32, mod_mod_64_32, add_mod_l32. reflexivity.
Qed.
Lemma mont_t_range a : - 2 ^ 31 <= mont_t a < 2 ^ 31.
Proof. unfold mont_t. pose proof (Z.mod_pos_bound (u64 a * QINV + 2 ^ 31) (2 ^ 32) ltac:(lia)). lia. Qed.
Lemma mont_t_cong a : (a - mont_t a * Q) mod 2 ^ 32 = 0.
Proof.
  unfold mont_t. set (m := 2 ^ 32).
  assert (E: ((u64 a * QINV + 2 ^ 31) mod m - 2 ^ 31) mod m = (a * QINV) mod m).
  { rewrite Zminus_mod_idemp_l. replace (u64 a * QINV + 2 ^ 31 - 2 ^ 31) with (u64 a * QINV) by lia.
    unfold u64. rewrite <- Zmult_mod_idemp_l. unfold m. rewrite mod_mod_64_32. now rewrite Zmult_mod_idemp_l. }
  rewrite <- Zminus_mod_idemp_r. rewrite <- (Zmult_mod_idemp_l _ Q). rewrite E.
  rewrite Zmult_mod_idemp_l. replace (a * QINV * Q) with (a * (Q * QINV)) by ring.
  rewrite <- (Zmult_mod_idemp_r (Q * QINV)). unfold m. rewrite qinv, Z.mul_1_r.
  rewrite Zminus_mod_idemp_r. now rewrite Z.sub_diag.
Qed.

(** The documented domain of montgomery_reduce: -2^31 Q <= a <= 2^31 Q *)
Lemma montgomery_reduce_ok a : - 2 ^ 31 * Q <= a <= 2 ^ 31 * Q -> montgomery_reduce a = Ret (mont a).
Proof.
  intros H. unfold montgomery_reduce. rewrite mont_t_code. pose proof (mont_t_range a) as HT.
  pose proof (mont_t_cong a) as HC. fold (mont_t a) in *. unfold Q in *.
  rewrite ck64_ok by lia. cbn [bind]. rewrite ck64_ok by lia. cbn [bind].
  rewrite Z.shiftr_div_pow2 by lia. f_equal. unfold mont. fold (mont_t a). apply i32_id.
  unfold Q in *. lia.
Qed.
Lemma mont_spec a : 2 ^ 32 * mont a = a - mont_t a * Q.
Proof. unfold mont. fold (mont_t a). pose proof (mont_t_cong a). lia. Qed.
Lemma mont_cong a : (2 ^ 32 * mont a) mod Q = a mod Q.
Proof. rewrite mont_spec. replace (a - mont_t a * Q) with (a + (- mont_t a) * Q) by ring. apply Z.mod_add. discriminate. Qed.
(** bounds: |mont a| <= (|a| + 2^31 Q) / 2^32, strictly less than Q on the domain *)
Lemma mont_range a : - 2 ^ 31 * Q <= a <= 2 ^ 31 * Q -> - Q <= mont a <= Q.
Proof. intros H. pose proof (mont_spec a). pose proof (mont_t_range a). unfold Q in *. lia. Qed.
Lemma mont_range_strict a : - 2 ^ 31 * Q < a < 2 ^ 31 * Q -> - Q < mont a < Q.
Proof. intros H. pose proof (mont_spec a). pose proof (mont_t_range a). unfold Q in *. lia. Qed.

(** *** reduce32, caddq, freeze *)
Lemma reduce32_ok a : - 2 ^ 31 <= a <= 2 ^ 31 - 2 ^ 22 - 1 -> reduce32 a = Ret (red32 a).
Proof.
  intros H. unfold reduce32, red32. change (Z.shiftl 1 22) with (2 ^ 22). unfold Q.
  rewrite ck32_ok by lia. cbn [bind]. rewrite Z.shiftr_div_pow2 by lia.
  rewrite ck32_ok by lia. cbn [bind]. rewrite ck32_ok by lia. reflexivity.
Qed.
Lemma red32_range a : - 2 ^ 31 <= a <= 2 ^ 31 - 2 ^ 22 - 1 -> - 6283009 <= red32 a <= 6283008.
Proof. intros H. unfold red32, Q. lia. Qed.
Lemma red32_cong a : red32 a mod Q = a mod Q.
Proof. unfold red32. replace (a - (a + 2 ^ 22) / 2 ^ 23 * Q) with (a + (- ((a + 2 ^ 22) / 2 ^ 23)) * Q) by ring. apply Z.mod_add. discriminate. Qed.

Lemma shiftr31_neg a : - 2 ^ 31 <= a < 0 -> Z.shiftr a 31 = -1.
Proof. intros. rewrite Z.shiftr_div_pow2 by lia. lia. Qed.
Lemma shiftr31_pos a : 0 <= a < 2 ^ 31 -> Z.shiftr a 31 = 0.
Proof. intros. rewrite Z.shiftr_div_pow2 by lia. lia. Qed.
Lemma caddq_ok a : - 2 ^ 31 <= a < 2 ^ 31 -> caddq a = Ret (cadd a).
Proof.
  intros H. unfold caddq, cadd. destruct (Z.ltb_spec a 0).
  - rewrite shiftr31_neg, Z.land_m1_l by lia. apply ck32_ok. unfold Q. lia.
  - rewrite shiftr31_pos, Z.land_0_l, Z.add_0_r by lia. apply ck32_ok. lia.
Qed.
Lemma cadd_cong a : cadd a mod Q = a mod Q.
Proof. unfold cadd. destruct (a <? 0); [|reflexivity]. replace (a + Q) with (a + 1 * Q) by lia. apply Z.mod_add. discriminate. Qed.
Lemma cadd_range a : - Q < a < Q -> 0 <= cadd a < Q.
Proof. intros. unfold cadd. destruct (Z.ltb_spec a 0); unfold Q in *; lia. Qed.
Lemma cadd_mod a : - Q < a < Q -> cadd a = a mod Q.
Proof. intros H. rewrite <- cadd_cong. symmetry. apply Z.mod_small. now apply cadd_range. Qed.
Lemma freeze_ok a : - 2 ^ 31 <= a <= 2 ^ 31 - 2 ^ 22 - 1 -> freeze a = Ret (a mod Q).
Proof.
  intros H. unfold freeze. rewrite reduce32_ok by lia. cbn [bind]. pose proof (red32_range a H).
  rewrite caddq_ok by lia. f_equal. rewrite <- (red32_cong a). apply cadd_mod. unfold Q. lia.
Qed.

(** *** power2round *)
Lemma power2round_ok a : - 4095 <= a < 2 ^ 31 - 4096 -> power2round a = Ret (p2r1 a, p2r0 a).
Proof.
  intros H. unfold power2round, p2r1, p2r0, p2r1, D. change (Z.shiftl 1 (13 - 1)) with 4096.
  rewrite ck32_ok by lia. cbn [bind]. rewrite ck32_ok by lia. cbn [bind].
  rewrite Z.shiftr_div_pow2 by lia. change (2 ^ 13) with 8192. replace (a + 4096 - 1) with (a + 4095) by lia.
  rewrite shl32_ok by lia. cbn [bind]. change (2 ^ 13) with 8192.
  rewrite ck32_ok by lia. reflexivity.
Qed.
Lemma p2r_recombine a : a = p2r1 a * 8192 + p2r0 a.
Proof. unfold p2r0. lia. Qed.
Lemma p2r0_range a : - 4096 < p2r0 a <= 4096.
Proof. unfold p2r0, p2r1. lia. Qed.
Lemma p2r1_range a : - 4095 <= a < Q + 4095 -> 0 <= p2r1 a < 1024.
Proof. unfold p2r1, Q. lia. Qed.

(** *** decompose: a1 is the nearest multiple of 2*GAMMA2 (ties downwards), with wrap at the top *)
Lemma dec1_div a : 0 <= a < Q ->
  dec1 a = if (a + GAMMA2 - 1) / (2 * GAMMA2) =? 44 then 0 else (a + GAMMA2 - 1) / (2 * GAMMA2).
Proof.
  intros H. unfold dec1. cbv zeta. unfold GAMMA2, Q in *.
  set (c := (a + 127) / 128). set (k := (a + 95232 - 1) / (2 * 95232)).
  assert (Hc: c = (a + 127) / 128) by reflexivity. assert (Hk: k = (a + 95232 - 1) / (2 * 95232)) by reflexivity.
  clearbody c k.
  assert (E: (c * 11275 + 2 ^ 23) / 2 ^ 24 = k).
  { (* 190464 = 128 * 1488 *)
    assert (Hk2: k = (c + 743) / 1488).
    { subst c k. clear. lia. }
    assert (0 <= c <= 65473) by lia. clear Hc Hk H. subst k. lia. }
  rewrite E. assert (0 <= k <= 44) by lia.
  destruct (Z.ltb_spec 43 k); destruct (Z.eqb_spec k 44); lia.
Qed.

Lemma dec_range a : 0 <= a < Q ->
  0 <= dec1 a <= 43 /\ - GAMMA2 <= dec0 a <= GAMMA2 /\ (dec0 a = - GAMMA2 -> dec1 a = 0) /\
  (a - (dec1 a * (2 * GAMMA2) + dec0 a) = 0 \/ a - (dec1 a * (2 * GAMMA2) + dec0 a) = Q).
Proof.
  intros H. unfold dec0. rewrite (dec1_div a H). cbv zeta. unfold GAMMA2, Q in *.
  change ((8380417 - 1) / 2) with 4190208.
  destruct (Z.eqb_spec ((a + 95232 - 1) / (2 * 95232)) 44).
  - destruct (Z.ltb_spec 4190208 (a - 0 * 2 * 95232)); lia.
  - destruct (Z.ltb_spec 4190208 (a - (a + 95232 - 1) / (2 * 95232) * 2 * 95232)); lia.
Qed.
(** characterisation: the split is the only one with the remainder in (-GAMMA2, GAMMA2] *)
Lemma dec_unique a r1 r0 : 0 <= r1 <= 43 -> - GAMMA2 < r0 <= GAMMA2 -> 0 <= a < Q ->
  (r1 * (2 * GAMMA2) + r0) mod Q = a -> dec1 a = r1 /\ dec0 a = r0.
Proof.
  intros H1 H0 Ha E. pose proof (dec1_div a Ha) as HD. unfold dec0, GAMMA2, Q in *. cbv zeta.
  change ((8380417 - 1) / 2) with 4190208. rewrite HD.
  destruct (Z.eqb_spec ((a + 95232 - 1) / (2 * 95232)) 44).
  - destruct (Z.ltb_spec 4190208 (a - 0 * 2 * 95232)); lia.
  - destruct (Z.ltb_spec 4190208 (a - (a + 95232 - 1) / (2 * 95232) * 2 * 95232)); lia.
Qed.

Lemma decompose_ok a : 0 <= a < Q -> decompose a = Ret (dec1 a, dec0 a).
Proof.
  intros H. pose proof (dec_range a H) as (R1 & R0 & _).
  unfold decompose. change (Z.shiftl 1 23) with (2 ^ 23). unfold Q, GAMMA2 in *.
  rewrite ck32_ok by lia. cbn [bind]. rewrite !Z.shiftr_div_pow2 by lia. change (2 ^ 7) with 128.
  rewrite ck32_ok by lia. cbn [bind]. rewrite ck32_ok by lia. cbn [bind].
  rewrite !Z.shiftr_div_pow2 by lia. rewrite ck32_ok by lia. cbn [bind]. rewrite !Z.shiftr_div_pow2 by lia.
  assert (E: Z.lxor (((a + 127) / 128 * 11275 + 2 ^ 23) / 2 ^ 24)
        (Z.land ((43 - ((a + 127) / 128 * 11275 + 2 ^ 23) / 2 ^ 24) / 2 ^ 31)
        (((a + 127) / 128 * 11275 + 2 ^ 23) / 2 ^ 24)) = dec1 a).
  { unfold dec1. cbv zeta. set (t := ((a + 127) / 128 * 11275 + 2 ^ 23) / 2 ^ 24).
    assert (0 <= t <= 44) by (subst t; lia). destruct (Z.ltb_spec 43 t).
    - replace ((43 - t) / 2 ^ 31) with (-1) by lia. rewrite Z.land_m1_l. apply Z.lxor_nilpotent.
    - replace ((43 - t) / 2 ^ 31) with 0 by lia. rewrite Z.land_0_l. apply Z.lxor_0_r. }
  rewrite E. rewrite ck32_ok by lia. cbn [bind]. rewrite ck32_ok by lia. cbn [bind].
  rewrite ck32_ok by lia. cbn [bind]. unfold dec0 in *. unfold Q, GAMMA2 in *. cbv zeta in *.
  change ((8380417 - 1) / 2) with 4190208 in *. set (t := a - dec1 a * 2 * 95232) in *.
  rewrite ck32_ok by lia. cbn [bind].
  assert (E2: Z.land (Z.shiftr (4190208 - t) 31) 8380417 = if 4190208 <? t then 8380417 else 0).
  { rewrite Z.shiftr_div_pow2 by lia. destruct (Z.ltb_spec 4190208 t).
    - replace ((4190208 - t) / 2 ^ 31) with (-1) by lia. apply Z.land_m1_l.
    - replace ((4190208 - t) / 2 ^ 31) with 0 by lia. reflexivity. }
  rewrite E2. destruct (4190208 <? t); (rewrite ck32_ok by lia); cbn [bind]; [reflexivity|]. rewrite Z.sub_0_r. reflexivity.
Qed.

Lemma use_hint_ok a h : 0 <= a < Q -> use_hint a h = Ret (uhint a h).
Proof.
  intros H. unfold use_hint, uhint. rewrite decompose_ok by exact H. cbn [bind].
  repeat (match goal with |- context [if ?b then _ else _] => destruct b end); reflexivity.
Qed.
Lemma uhint_range a h : 0 <= a < Q -> 0 <= uhint a h <= 43.
Proof.
  intros H. pose proof (dec_range a H) as (R & _). unfold uhint.
  destruct (h =? 0); [lia|]. destruct (0 <? dec0 a).
  - destruct (Z.eqb_spec (dec1 a) 43); lia.
  - destruct (Z.eqb_spec (dec1 a) 0); lia.
Qed.
Lemma make_hint_01 a0 a1 : make_hint a0 a1 = 0 \/ make_hint a0 a1 = 1.
Proof. unfold make_hint. destruct (_ || _ || _); auto. Qed.

(** the hint recovers the high part that was perturbed *)
Lemma hint_recovers r1 a0 a : 0 <= r1 <= 43 -> - (2 * GAMMA2) < a0 < 2 * GAMMA2 -> 0 <= a < Q ->
  (r1 * (2 * GAMMA2) + a0) mod Q = a -> uhint a (make_hint a0 r1) = r1.
Proof.
  intros H1 H0 Ha E. pose proof (dec1_div a Ha) as HD. unfold uhint, make_hint, dec0. rewrite HD.
  unfold GAMMA2, Q in *. cbv zeta. change ((8380417 - 1) / 2) with 4190208.
  assert (Ea: a = r1 * (2 * 95232) + a0 \/ a = r1 * (2 * 95232) + a0 + 8380417 \/ a = r1 * (2 * 95232) + a0 - 8380417) by lia.
  clear E HD. set (k := (a + 95232 - 1) / (2 * 95232)).
  assert (Hk: 190464 * k <= a + 95231 < 190464 * k + 190464) by (subst k; lia). clearbody k.
  destruct (Z.ltb_spec 95232 a0) as [|]; cbn [orb].
  { replace (1 =? 0) with false by reflexivity.
    destruct (Z.eqb_spec k 44); destruct (Z.ltb_spec 4190208 (a - 0 * 2 * 95232)); destruct (Z.ltb_spec 4190208 (a - k * 2 * 95232));
    repeat (match goal with |- context [if ?b then _ else _] => destruct b eqn:? end); lia. }
  destruct (Z.ltb_spec a0 (- (95232))) as [|]; cbn [orb].
  { replace (1 =? 0) with false by reflexivity.
    destruct (Z.eqb_spec k 44); destruct (Z.ltb_spec 4190208 (a - 0 * 2 * 95232)); destruct (Z.ltb_spec 4190208 (a - k * 2 * 95232));
    repeat (match goal with |- context [if ?b then _ else _] => destruct b eqn:? end); lia. }
  destruct (Z.eqb_spec a0 (- (95232))) as [|]; destruct (Z.eqb_spec r1 0) as [|]; cbn [andb negb].
  all: try replace (1 =? 0) with false by reflexivity; try replace (0 =? 0) with true by reflexivity.
  all: destruct (Z.eqb_spec k 44); destruct (Z.ltb_spec 4190208 (a - 0 * 2 * 95232)); destruct (Z.ltb_spec 4190208 (a - k * 2 * 95232)).
  all: repeat (match goal with |- context [if ?b then _ else _] => destruct b eqn:? end); lia.
Qed.
