(** Comparison, encoding and curve operations of tweetnacl.c against the affine curve. *)
From Verif Require Import Base Wp NumTheory EdSpec EdCurve EdExt Tweet TweetField TweetField2.
From Coq Require Import Znumtheory Setoid Morphisms.
Ltac Zify.zify_post_hook ::= Z.div_mod_to_equations.

(** ** byte comparison *)
Lemma byte_at l i : bytes_ok l -> 0 <= i < zlen l -> 0 <= znth l i < 256.
Proof. intros H Hi. exact (proj1 (bytes_ok_znth l) H i Hi). Qed.
Lemma lor_byte a b : 0 <= a < 256 -> 0 <= b < 256 -> 0 <= Z.lor a b < 256.
Proof.
  intros Ha Hb. assert (0 <= Z.lor a b) by (apply Z.lor_nonneg; lia). split; [assumption|].
  replace (Z.lor a b) with (Z.lor a b mod 2 ^ 8); [lia|]. rewrite <- Z.land_ones by lia. rewrite Z.land_lor_distr_l, !Z.land_ones by lia. change (2 ^ 8) with 256. now rewrite !Z.mod_small by lia.
Qed.
Lemma lxor_byte a b : 0 <= a < 256 -> 0 <= b < 256 -> 0 <= Z.lxor a b < 256.
Proof.
  intros Ha Hb. assert (0 <= Z.lxor a b) by (apply Z.lxor_nonneg; lia). split; [assumption|].
  assert (E: Z.lxor a b = Z.lxor (Z.land a (Z.ones 8)) (Z.land b (Z.ones 8))) by (rewrite !Z.land_ones, !Z.mod_small by lia; reflexivity).
  rewrite E. replace (Z.lxor (Z.land a (Z.ones 8)) (Z.land b (Z.ones 8))) with (Z.land (Z.lxor a b) (Z.ones 8)); [rewrite Z.land_ones by lia; lia|].
  apply Z.bits_inj'. intros n Hn. rewrite ?Z.land_spec, ?Z.lxor_spec, ?Z.land_spec. now destruct (Z.testbit a n), (Z.testbit b n), (Z.testbit (Z.ones 8) n).
Qed.
Lemma bytes_ok_pre l n : bytes_ok l -> bytes_ok (pre l n).
Proof. intros H. rewrite <- (firstn_skipn (Z.to_nat n) l) in H. apply bytes_ok_app in H as [H _]. exact H. Qed.
Definition list_eqb (a b : list Z) : bool := if list_eq_dec Z.eq_dec a b then true else false.
Lemma list_eqb_eq a b : list_eqb a b = true <-> a = b.
Proof. unfold list_eqb. destruct (list_eq_dec Z.eq_dec a b); split; congruence. Qed.
Lemma vn_ok x y n : 0 <= n -> n <= zlen x -> n <= zlen y -> bytes_ok x -> bytes_ok y ->
  vn x y n = Ret (if list_eqb (pre x n) (pre y n) then 0 else -1).
Proof.
  intros Hn Lx Ly Bx By. apply wp_is. unfold vn. apply wp_bind.
  apply (wp_for_loop (fun i d => 0 <= d < 256 /\ (d = 0 <-> pre x i = pre y i))); [lia| | |].
  - split; [lia|]. split; reflexivity.
  - intros i d Hi (Hd & Ed). pose proof (byte_at x i Bx ltac:(lia)). pose proof (byte_at y i By ltac:(lia)). apply wp_bind, wp_rd; [lia|]. apply wp_bind, wp_rd; [lia|]. apply wp_ret.
    split; [apply lor_byte; [lia|]; now apply lxor_byte|]. unfold pre in *. replace (Z.to_nat (i + 1)) with (S (Z.to_nat i)) by lia. unfold zlen in *. rewrite !firstn_S_nth by lia. fold (znth x i) (znth y i). split.
    + intros E. apply Z.lor_eq_0_iff in E as [E1 E2]. apply Z.lxor_eq in E2. rewrite E2. f_equal. now apply Ed.
    + intros E. apply app_inj_tail in E as [E1 E2]. apply Z.lor_eq_0_iff. split; [now apply Ed|]. rewrite E2. apply Z.lxor_nilpotent.
  - intros d (Hd & Ed). cbv beta. apply wp_ret. destruct (list_eqb (pre x n) (pre y n)) eqn:E.
    + apply list_eqb_eq, Ed in E. subst d. reflexivity.
    + assert (d <> 0) by (intros H; apply Ed, list_eqb_eq in H; congruence). replace (u64 (d - 1)) with (d - 1) by (unfold u64; lia). replace (Z.shiftr (d - 1) 8) with 0 by (rewrite Z.shiftr_div_pow2 by lia; change (2 ^ 8) with 256; lia). reflexivity.
Qed.
Lemma pre_all l n : n = zlen l -> pre l n = l.
Proof. intros ->. unfold pre, zlen. rewrite Nat2Z.id. apply firstn_all. Qed.
Lemma verify_32_ok x y : zlen x = 32 -> zlen y = 32 -> bytes_ok x -> bytes_ok y -> crypto_verify_32 x y = Ret (if list_eqb x y then 0 else -1).
Proof. intros Lx Ly Bx By. unfold crypto_verify_32. rewrite vn_ok by (assumption || lia). now rewrite !pre_all by lia. Qed.
Lemma verify_16_ok x y : zlen x = 16 -> zlen y = 16 -> bytes_ok x -> bytes_ok y -> crypto_verify_16 x y = Ret (if list_eqb x y then 0 else -1).
Proof. intros Lx Ly Bx By. unfold crypto_verify_16. rewrite vn_ok by (assumption || lia). now rewrite !pre_all by lia. Qed.

Lemma le_bytes_inj n a b : 0 <= a < 256 ^ Z.of_nat n -> 0 <= b < 256 ^ Z.of_nat n -> le_bytes n a = le_bytes n b -> a = b.
Proof. intros Ha Hb E. rewrite <- (le_val_bytes n a Ha), <- (le_val_bytes n b Hb). now rewrite E. Qed.
Lemma fe_pack l v : fe l v -> pack25519 l = Ret (le_bytes 32 (v mod edp)).
Proof. intros H. rewrite pack25519_ok by (eapply bounded_le; [eapply fe_bounded; exact H|lia]). do 2 f_equal. apply eqp_iff. apply H. Qed.
Lemma neq_ok a b : bounded (2 ^ 55) a -> bounded (2 ^ 55) b -> neq25519 a b = Ret (if gval a mod edp =? gval b mod edp then 0 else -1).
Proof.
  intros Ha Hb. unfold neq25519. rewrite !pack25519_ok by assumption. cbn [bind]. rewrite verify_32_ok; [|unfold zlen; now rewrite le_bytes_length|unfold zlen; now rewrite le_bytes_length|apply le_bytes_ok|apply le_bytes_ok].
  f_equal. assert (R: forall x, 0 <= x mod edp < 256 ^ Z.of_nat 32) by (intros x; pose proof (mod_range x); change (256 ^ Z.of_nat 32) with (2 ^ 256); rewrite edp_val in *; lia).
  destruct (Z.eqb_spec (gval a mod edp) (gval b mod edp)) as [E|E]; [rewrite E|]; destruct (list_eqb _ _) eqn:Q; try reflexivity.
  - exfalso. assert (list_eqb (le_bytes 32 (gval b mod edp)) (le_bytes 32 (gval b mod edp)) = true) by now apply list_eqb_eq. congruence.
  - exfalso. apply list_eqb_eq, le_bytes_inj in Q; auto.
Qed.
Lemma land_1 x : Z.land x 1 = x mod 2. Proof. exact (Z.land_ones x 1 ltac:(lia)). Qed.
Lemma par_ok a : bounded (2 ^ 55) a -> par25519 a = Ret ((gval a mod edp) mod 2).
Proof.
  intros Ha. apply wp_is. unfold par25519. rewrite pack25519_ok by assumption. apply wp_bind, wp_ret, wp_bind, wp_rd; [unfold zlen; rewrite le_bytes_length; lia|].
  apply wp_ret. rewrite land_1. change (znth (le_bytes 32 (gval a mod edp)) 0) with ((gval a mod edp) mod 256). lia.
Qed.
(** ** unpack25519 *)
Lemma unpack_ok n : zlen n = 32 -> bytes_ok n -> wp (unpack25519 n) (fun o => bounded 65535 o /\ gval o = le_val n mod 2 ^ 255).
Proof.
  intros L B. unfold unpack25519. apply wp_bind.
  apply (wp_for_loop (fun i o => zlen o = 16 /\ (forall j, 0 <= j < 16 -> 0 <= znth o j <= 65535) /\ bps 65536 o i = bps 256 n (2 * i) /\ (forall j, i <= j < 16 -> znth o j = 0))); [lia| | |].
  - split; [reflexivity|]. split; [intros; rewrite znth_zeros; lia|]. split; [reflexivity|]. intros; apply znth_zeros.
  - intros i o Hi (Lo & Bo & V & Z0). pose proof (byte_at n (2 * i) B ltac:(lia)). pose proof (byte_at n (2 * i + 1) B ltac:(lia)). apply wp_bind, wp_rd; [lia|]. apply wp_bind, wp_rd; [lia|]. apply wp_wr; [lia|]. change (2 ^ 8) with 256.
    split; [now rewrite zlen_zupd|]. split; [intros j Hj; rewrite znth_zupd by lia; destruct (j =? i); [lia|now apply Bo]|].
    split; [|intros j Hj; rewrite znth_zupd_other by lia; apply Z0; lia]. rewrite bps_succ by (rewrite ?zlen_zupd; lia). rewrite bps_zupd_ge, znth_zupd_same by lia. replace (2 * (i + 1)) with (2 * i + 1 + 1) by lia. rewrite !bps_succ by lia. rewrite V. change 65536 with (256 ^ 2). rewrite <- Z.pow_mul_r by lia. rewrite (Z.pow_add_r 256 (2 * i) 1), Z.pow_1_r by lia. ring.
  - intros o (Lo & Bo & V & _). cbv beta. rewrite bps_full in V by lia. rewrite bps_full in V by lia. apply wp_bind, wp_rd; [lia|]. apply wp_wr; [lia|]. change 0x7fff with (Z.ones 15). rewrite Z.land_ones by lia. pose proof (Bo 15 ltac:(lia)).
    split; [split; [now rewrite zlen_zupd|]; intros j Hj; rewrite znth_zupd by lia; pose proof (Bo j Hj); destruct (j =? 15); lia|]. unfold gval. rewrite bval_zupd by lia. rewrite V, le_val_bval.
    set (h := znth o 15) in *. set (W := bval 256 n) in *.
    assert (E: W = bps 65536 o 15 + 65536 ^ 15 * h) by (rewrite <- V, <- (bps_full 65536 o 16) by lia; apply (bps_succ 65536 o 15); lia).
    assert (R: 0 <= bps 65536 o 15 < 65536 ^ 15).
    { assert (G: forall k, 0 <= k -> k <= 15 -> 0 <= bps 65536 o k < 65536 ^ k).
      { apply (natlike_ind (fun k => k <= 15 -> 0 <= bps 65536 o k < 65536 ^ k)); [intros _; rewrite bps_0; cbn; lia|]. intros k Hk IH Hk'. unfold Z.succ. rewrite bps_succ by lia. rewrite Z.pow_add_r, Z.pow_1_r by lia. specialize (IH ltac:(lia)). pose proof (Bo k ltac:(lia)). nia. }
      apply G; lia. }
    rewrite E. set (lo := bps 65536 o 15) in *. clearbody lo W. clear E. change (65536 ^ 15) with (2 ^ 240) in *. change (2 ^ 15) with 32768. lia.
Qed.

(** ** points *)
Definition reps (B : Z) (Q : gf4) (P : point) : Prop :=
  let '(x, y, z, t) := Q in
  bounded B x /\ bounded B y /\ bounded B z /\ bounded B t /\ rep (gval x) (gval y) (gval z) (gval t) P.
Lemma reps_le B B' Q P : reps B Q P -> B <= B' -> reps B' Q P.
Proof. destruct Q as [[[x y] z] t]. intros (Bx & By & Bz & Bt & R) H. repeat split; try (eapply bounded_le; eassumption); try apply Bx; try apply By; try apply Bz; try apply Bt; try apply R; pose proof (proj2 Bx i); pose proof (proj2 By i); pose proof (proj2 Bz i); pose proof (proj2 Bt i); intuition lia. Qed.
Lemma gfD2_ok : bounded 65536 gfD2 /\ gval gfD2 == 2 * edd.
Proof.
  split.
  - split; [reflexivity|]. intros i Hi. assert (F: Forall (fun x => -65536 <= x <= 65536) gfD2) by (unfold gfD2; repeat (constructor; [lia|]); constructor). rewrite Forall_forall in F. apply F. unfold znth. apply nth_In. change (length gfD2) with 16%nat. lia.
  - apply eqp_iff. vm_compute. reflexivity.
Qed.
Lemma ed_add_ok p q P Q : reps 65574 p P -> reps 65574 q Q -> wp (ed_add p q) (fun r => reps 65574 r (padd P Q)).
Proof.
  destruct p as [[[p0 p1] p2] p3], q as [[[q0 q1] q2] q3]. intros (Bp0 & Bp1 & Bp2 & Bp3 & Rp) (Bq0 & Bq1 & Bq2 & Bq3 & Rq). unfold ed_add.
  pose proof gfD2_ok as [BD VD].
  apply wp_bind. eapply wp_mono; [apply (gfZ_ok 65574 65574); [eassumption|eassumption|lia|lia|lia]|]. intros a1 [Ba1 Va1]. cbv beta.
  apply wp_bind. eapply wp_mono; [apply (gfZ_ok 65574 65574); [eassumption|eassumption|lia|lia|lia]|]. intros t1 [Bt1 Vt1]. cbv beta.
  apply wp_bind. eapply wp_mono; [eapply gfM_fe; [exact Ba1|exact Bt1|lia|lia|apply eqp_of_eq; exact Va1|apply eqp_of_eq; exact Vt1]|]. intros a Ha. cbv beta. clear a1 Ba1 Va1 t1 Bt1 Vt1.
  apply wp_bind. eapply wp_mono; [apply (gfA_ok 65574 65574); [eassumption|eassumption|lia|lia|lia]|]. intros a1 [Ba1 Va1]. cbv beta.
  apply wp_bind. eapply wp_mono; [apply (gfA_ok 65574 65574); [eassumption|eassumption|lia|lia|lia]|]. intros t1 [Bt1 Vt1]. cbv beta.
  apply wp_bind. eapply wp_mono; [eapply gfM_fe; [exact Ba1|exact Bt1|lia|lia|apply eqp_of_eq; exact Va1|apply eqp_of_eq; exact Vt1]|]. intros b Hb. cbv beta. clear a1 Ba1 Va1 t1 Bt1 Vt1.
  apply wp_bind. eapply wp_mono; [eapply gfM_fe; [exact Bp3|exact Bq3|lia|lia|reflexivity|reflexivity]|]. intros c0 Hc0. cbv beta.
  apply wp_bind. eapply wp_mono; [eapply gfM_fe; [eapply fe_bounded; exact Hc0|exact BD|lia|lia|apply Hc0|exact VD]|]. intros c Hc. cbv beta. clear c0 Hc0.
  apply wp_bind. eapply wp_mono; [eapply gfM_fe; [exact Bp2|exact Bq2|lia|lia|reflexivity|reflexivity]|]. intros d0 Hd0. cbv beta.
  pose proof (fe_bounded _ _ Ha) as Ba. pose proof (fe_bounded _ _ Hb) as Bb. pose proof (fe_bounded _ _ Hc) as Bc. pose proof (fe_bounded _ _ Hd0) as Bd0.
  apply wp_bind. eapply wp_mono; [apply (gfA_ok 65574 65574 d0 d0); [eassumption|eassumption|lia|lia|lia]|]. intros d [Bd Vd]. cbv beta.
  apply wp_bind. eapply wp_mono; [apply (gfZ_ok 65574 65574 b a); [eassumption|eassumption|lia|lia|lia]|]. intros e [Be Ve]. cbv beta.
  apply wp_bind. eapply wp_mono; [apply (gfZ_ok (65574 + 65574) 65574 d c); [eassumption|eassumption|lia|lia|lia]|]. intros f [Bf Vf]. cbv beta.
  apply wp_bind. eapply wp_mono; [apply (gfA_ok (65574 + 65574) 65574 d c); [eassumption|eassumption|lia|lia|lia]|]. intros g [Bg Vg]. cbv beta.
  apply wp_bind. eapply wp_mono; [apply (gfA_ok 65574 65574 b a); [eassumption|eassumption|lia|lia|lia]|]. intros h [Bh Vh]. cbv beta.
  apply wp_bind. eapply wp_mono; [eapply gfM_fe; [exact Be|exact Bf|lia|lia|reflexivity|reflexivity]|]. intros r0 H0. cbv beta.
  apply wp_bind. eapply wp_mono; [eapply gfM_fe; [exact Bh|exact Bg|lia|lia|reflexivity|reflexivity]|]. intros r1 H1. cbv beta.
  apply wp_bind. eapply wp_mono; [eapply gfM_fe; [exact Bg|exact Bf|lia|lia|reflexivity|reflexivity]|]. intros r2 H2. cbv beta.
  apply wp_bind. eapply wp_mono; [eapply gfM_fe; [exact Be|exact Bh|lia|lia|reflexivity|reflexivity]|]. intros r3 H3. cbv beta.
  apply wp_ret. unfold reps. split; [eapply fe_bounded; exact H0|]. split; [eapply fe_bounded; exact H1|]. split; [eapply fe_bounded; exact H2|]. split; [eapply fe_bounded; exact H3|].
  eapply rep_eqp; [apply (rep_add _ _ _ _ P _ _ _ _ Q (gval a) (gval b) (gval c) (gval d0) Rp Rq)|..].
  - apply Ha.
  - apply Hb.
  - apply Hc.
  - apply Hd0.
  - rewrite (proj2 H0), Ve, Vf, Vd. apply eqp_of_eq. ring.
  - rewrite (proj2 H1), Vh, Vg, Vd. apply eqp_of_eq. ring.
  - rewrite (proj2 H2), Vg, Vf, Vd. apply eqp_of_eq. ring.
  - rewrite (proj2 H3), Ve, Vh. apply eqp_of_eq. ring.
Qed.
Lemma cswap_ok B p q P Q b : reps B p P -> reps B q Q -> b = 0 \/ b = 1 -> cswap p q b = Ret (if b =? 1 then (q, p) else (p, q)).
Proof.
  destruct p as [[[p0 p1] p2] p3], q as [[[q0 q1] q2] q3]. intros (Bp0 & Bp1 & Bp2 & Bp3 & Rp) (Bq0 & Bq1 & Bq2 & Bq3 & Rq) Hb. unfold cswap.
  rewrite !sel_ok by (try assumption; try apply Bp0; try apply Bp1; try apply Bp2; try apply Bp3; try apply Bq0; try apply Bq1; try apply Bq2; try apply Bq3).
  destruct Hb as [-> | ->]; [change (0 =? 1) with false|change (1 =? 1) with true]; reflexivity.
Qed.

(** ** bits of a little-endian byte string *)
Lemma bit_of_bytes s i : bytes_ok s -> 0 <= i < 8 * zlen s -> u8 (Z.land (Z.shiftr (znth s (i / 8)) (Z.land i 7)) 1) = (le_val s / 2 ^ i) mod 2.
Proof.
  intros Hs Hi. rewrite land_1. replace (Z.land i 7) with (i mod 8) by (symmetry; exact (Z.land_ones i 3 ltac:(lia))). rewrite Z.shiftr_div_pow2 by lia. rewrite le_val_bval, (bval_split 256 s (i / 8)) by lia.
  assert (R: 0 <= bps 256 s (i / 8) < 256 ^ (i / 8)).
  { assert (G: forall k, 0 <= k -> k <= zlen s -> 0 <= bps 256 s k < 256 ^ k).
    { apply (natlike_ind (fun k => k <= zlen s -> 0 <= bps 256 s k < 256 ^ k)); [intros _; rewrite bps_0, Z.pow_0_r; lia|]. intros k Hk IH Hk'. unfold Z.succ. rewrite bps_succ by lia. rewrite Z.pow_add_r, Z.pow_1_r by lia. specialize (IH ltac:(lia)). pose proof (byte_at s k Hs ltac:(lia)). nia. }
    apply G; lia. }
  set (q := i / 8) in *. set (lo := bps 256 s q) in *.
  assert (E: exists r, bval 256 (skipn (Z.to_nat q) s) = znth s q + 256 * r).
  { destruct (skipn (Z.to_nat q) s) as [|h r] eqn:E; [apply (f_equal zlen) in E; rewrite zlen_skipn in E; change (zlen (@nil Z)) with 0 in E; lia|]. exists (bval 256 r). cbn [bval]. replace (znth s q) with h; [ring|]. pose proof (znth_skipn s q 0 ltac:(lia) ltac:(lia)) as G. rewrite E, Z.add_0_r in G. exact G. }
  destruct E as [r ->]. pose proof (byte_at s q Hs ltac:(lia)) as Hb. set (h := znth s q) in *.
  assert (E2: 2 ^ i = 256 ^ q * 2 ^ (i mod 8)) by (change 256 with (2 ^ 8); rewrite <- Z.pow_mul_r, <- Z.pow_add_r by lia; f_equal; lia). rewrite E2. clear E2. rewrite <- Z.div_div by (try lia; apply Z.pow_pos_nonneg; lia).
  replace ((lo + 256 ^ q * (h + 256 * r)) / 256 ^ q) with (h + 256 * r) by (rewrite (Z.mul_comm (256 ^ q)), Z.div_add, Z.div_small by lia; lia).
  assert (H8: 0 <= i mod 8 < 8) by lia. set (e := i mod 8) in *. clearbody e lo h q. 
  assert (e = 0 \/ e = 1 \/ e = 2 \/ e = 3 \/ e = 4 \/ e = 5 \/ e = 6 \/ e = 7) as C by lia. unfold u8.
  destruct C as [-> |[-> |[-> |[-> |[-> |[-> |[-> | ->]]]]]]]; rewrite ?Z.pow_0_r; match goal with |- context [2 ^ ?k] => let v := eval vm_compute in (2 ^ k) in change (2 ^ k) with v | _ => idtac end; lia.
Qed.
Lemma reps_zero : reps 65574 (gf0, gf1, gf1, gf0) pzero.
Proof.
  unfold reps. assert (B0: bounded 65574 gf0). { split; [reflexivity|]. intros i Hi. assert (F: Forall (fun x => -65574 <= x <= 65574) gf0) by (unfold gf0; repeat (constructor; [lia|]); constructor). rewrite Forall_forall in F. apply F. unfold znth. apply nth_In. change (length gf0) with 16%nat. lia. }
  assert (B1: bounded 65574 gf1). { split; [reflexivity|]. intros i Hi. assert (F: Forall (fun x => -65574 <= x <= 65574) gf1) by (unfold gf1; repeat (constructor; [lia|]); constructor). rewrite Forall_forall in F. apply F. unfold znth. apply nth_In. change (length gf1) with 16%nat. lia. }
  repeat (split; [assumption|]). exact rep_zero.
Qed.
Lemma zlen_pre l n : 0 <= n <= zlen l -> zlen (pre l n) = n.
Proof. intros H. unfold pre, zlen in *. rewrite firstn_length. lia. Qed.
Lemma znth_pre l n i : 0 <= i < n -> znth (pre l n) i = znth l i.
Proof.
  intros Hi. unfold znth, pre. destruct (Nat.le_gt_cases (length l) (Z.to_nat i)) as [H|H]; [rewrite !nth_overflow; [reflexivity|lia|rewrite firstn_length; lia]|].
  rewrite <- (firstn_skipn (Z.to_nat n) l) at 2. rewrite app_nth1; [reflexivity|]. rewrite firstn_length. lia.
Qed.
Lemma scalarmult_ok q Q s' : reps 65574 q Q -> on_curve Q -> 32 <= zlen s' -> bytes_ok s' -> wp (scalarmult q s') (fun r => reps 65574 r (smul (le_val (pre s' 32)) Q)).
Proof.
  intros Rq CQ Ls' Bs'. pose proof (bytes_ok_pre s' 32 Bs') as Bs. pose proof (zlen_pre s' 32 ltac:(lia)) as Ls. assert (EZ: forall i, 0 <= i < 32 -> znth s' i = znth (pre s' 32) i) by (intros; symmetry; now apply znth_pre). set (s := pre s' 32) in *. clearbody s.
  unfold scalarmult. apply wp_bind. pose proof (le_val_range s Bs) as RV. rewrite Ls in RV. change (256 ^ 32) with (2 ^ 256) in RV. set (V := le_val s) in *.
  apply (wp_for_loop (fun k '(p, q) => reps 65574 p (smul (V / 2 ^ (256 - k)) Q) /\ reps 65574 q (smul (V / 2 ^ (256 - k) + 1) Q))); [lia| | |].
  - change (256 - 0) with 256. rewrite Z.div_small by lia. rewrite smul_0. split; [exact reps_zero|]. rewrite Z.add_0_l, smul_1 by assumption. exact Rq.
  - intros k [p r] Hk [Hp Hr]. cbv zeta. apply wp_bind, wp_rd; [lia|]. rewrite EZ by lia. rewrite bit_of_bytes by (assumption || lia). fold V.
    assert (E: V / 2 ^ (256 - (k + 1)) = 2 * (V / 2 ^ (256 - k)) + (V / 2 ^ (255 - k)) mod 2).
    { replace (256 - (k + 1)) with (255 - k) by lia. replace (256 - k) with (255 - k + 1) by lia. rewrite Z.pow_add_r, Z.pow_1_r by lia. rewrite <- Z.div_div by lia. lia. }
    rewrite E. set (b := (V / 2 ^ (255 - k)) mod 2). assert (Hb: b = 0 \/ b = 1) by (unfold b; lia). set (n := V / 2 ^ (256 - k)) in *. assert (Hn: 0 <= n) by (unfold n; apply Z.div_pos; [lia|apply Z.pow_pos_nonneg; lia]). clearbody b n. clear E.
    rewrite (cswap_ok _ _ _ _ _ _ Hp Hr Hb). destruct Hb as [-> | ->]; [change (0 =? 1) with false|change (1 =? 1) with true]; cbn [bind].
    + apply wp_bind. eapply wp_mono; [apply ed_add_ok; [exact Hr|exact Hp]|]. intros q1 H1. cbv beta. apply wp_bind. eapply wp_mono; [apply ed_add_ok; [exact Hp|exact Hp]|]. intros p1 H2. cbv beta.
      rewrite (cswap_ok _ _ _ _ _ _ H2 H1) by (left; reflexivity). change (0 =? 1) with false. apply wp_ret. rewrite <- smul_add in H1, H2 by (assumption || lia). replace (2 * n + 0) with (n + n) by lia. replace (n + n + 1) with (n + 1 + n) by lia. split; assumption.
    + apply wp_bind. eapply wp_mono; [apply ed_add_ok; [exact Hp|exact Hr]|]. intros q1 H1. cbv beta. apply wp_bind. eapply wp_mono; [apply ed_add_ok; [exact Hr|exact Hr]|]. intros p1 H2. cbv beta.
      rewrite (cswap_ok _ _ _ _ _ _ H2 H1) by (right; reflexivity). change (1 =? 1) with true. apply wp_ret. rewrite <- smul_add in H1, H2 by (assumption || lia). replace (2 * n + 1) with (n + (n + 1)) by lia. replace (n + (n + 1) + 1) with (n + 1 + (n + 1)) by lia. split; assumption.
  - intros [p r] [Hp _]. cbv beta iota. apply wp_ret. change (256 - 256) with 0 in Hp. rewrite Z.pow_0_r, Z.div_1_r in Hp. exact Hp.
Qed.
Lemma gfX_ok : bounded 65574 gfX /\ gval gfX == fst edB.
Proof.
  split; [split; [reflexivity|]|]. intros i Hi. assert (F: Forall (fun x => -65574 <= x <= 65574) gfX) by (unfold gfX; repeat (constructor; [lia|]); constructor). rewrite Forall_forall in F. apply F. unfold znth. apply nth_In. change (length gfX) with 16%nat. lia.
  apply eqp_of_eq. vm_compute. reflexivity.
Qed.
Lemma gfY_ok : bounded 65574 gfY /\ gval gfY == snd edB.
Proof.
  split; [split; [reflexivity|]|]. intros i Hi. assert (F: Forall (fun x => -65574 <= x <= 65574) gfY) by (unfold gfY; repeat (constructor; [lia|]); constructor). rewrite Forall_forall in F. apply F. unfold znth. apply nth_In. change (length gfY) with 16%nat. lia.
  apply eqp_of_eq. vm_compute. reflexivity.
Qed.
Lemma gf1_ok : bounded 65574 gf1 /\ gval gf1 = 1.
Proof.
  split; [apply reps_zero|reflexivity].
Qed.
Lemma scalarbase_ok s : 32 <= zlen s -> bytes_ok s -> wp (scalarbase s) (fun r => reps 65574 r (smul (le_val (pre s 32)) edB)).
Proof.
  intros Ls Bs. unfold scalarbase. pose proof gfX_ok as [BX VX]. pose proof gfY_ok as [BY VY]. pose proof gf1_ok as [B1 V1].
  apply wp_bind. eapply wp_mono; [eapply gfM_fe; [exact BX|exact BY|lia|lia|exact VX|exact VY]|]. intros t Ht. cbv beta. apply scalarmult_ok; try assumption; [|exact edB_on_curve].
  unfold reps. repeat (split; [assumption|]). split; [eapply fe_bounded; exact Ht|]. pose proof edB_on_curve as C. destruct edB as [x y] eqn:E. cbn [fst snd] in *.
  eapply rep_eqp; [apply (rep_affine x y (gval t) C)|exact VX|exact VY|apply eqp_of_eq; exact V1|reflexivity]. apply Ht.
Qed.
Lemma edp_lt : edp < 2 ^ 255. Proof. rewrite edp_val. lia. Qed.
Lemma ed_pack_ok B p P : reps B p P -> B <= 2 ^ 18 -> wp (ed_pack p) (fun r => r = penc P).
Proof.
  destruct p as [[[x y] z] t], P as [u v]. intros (Bx & By & Bz & Bt & C & N & EX & EY & _) HB. cbn [fst snd] in *. unfold ed_pack. apply on_curve_eqp in C as (Hu & Hv & _).
  apply wp_bind. eapply wp_mono; [apply (inv_fe B z (gval z) Bz HB); reflexivity|]. intros zi Hzi. cbv beta.
  apply wp_bind. eapply wp_mono; [eapply gfM_fe; [exact Bx|eapply fe_bounded; exact Hzi|lia|lia|exact EX|apply Hzi]|]. intros tx Htx. cbv beta.
  apply wp_bind. eapply wp_mono; [eapply gfM_fe; [exact By|eapply fe_bounded; exact Hzi|lia|lia|exact EY|apply Hzi]|]. intros ty Hty. cbv beta.
  assert (EI: gval z * gval z ^ (edp - 2) == 1). { rewrite <- (fermat_p (gval z) N). replace (edp - 1) with (1 + (edp - 2)) by ring. rewrite Z.pow_add_r, Z.pow_1_r by (rewrite ?edp_val; lia). reflexivity. }
  assert (Ex: u * gval z * gval z ^ (edp - 2) == u). { rewrite <- Z.mul_assoc, EI. apply eqp_of_eq; ring. }
  assert (Ey: v * gval z * gval z ^ (edp - 2) == v). { rewrite <- Z.mul_assoc, EI. apply eqp_of_eq; ring. }
  apply (fe_eqp _ _ u) in Htx; [|exact Ex]. apply (fe_eqp _ _ v) in Hty; [|exact Ey]. clear Ex Ey EI.
  apply wp_bind. rewrite (fe_pack _ _ Hty). apply wp_ret. rewrite Z.mod_small by assumption. apply wp_bind. rewrite par_ok by (eapply bounded_le; [eapply fe_bounded; exact Htx|lia]). apply wp_ret.
  replace (gval tx mod edp) with u by (rewrite (proj1 (eqp_iff _ _) (proj2 Htx)); rewrite Z.mod_small; [reflexivity|assumption]).
  pose proof edp_lt as HL. assert (L32: zlen (le_bytes 32 v) = 32) by (unfold zlen; now rewrite le_bytes_length). apply wp_bind, wp_rd; [lia|]. apply wp_wr; [lia|].
  pose proof (byte_at (le_bytes 32 v) 31 (le_bytes_ok _ _) ltac:(lia)) as Hb. unfold penc.
  assert (Hval: le_val (le_bytes 32 v) = v) by (apply le_val_bytes; change (256 ^ Z.of_nat 32) with (2 ^ 256); lia).
  assert (Hlow: znth (le_bytes 32 v) 31 < 128).
  { assert (E: bps 256 (le_bytes 32 v) (31 + 1) = v) by (rewrite bps_full by lia; rewrite <- le_val_bval; exact Hval). rewrite bps_succ in E by lia.
    assert (0 <= bps 256 (le_bytes 32 v) 31). { unfold bps. rewrite <- le_val_bval. apply (le_val_range (pre (le_bytes 32 v) 31)). apply bytes_ok_pre, le_bytes_ok. }
    change (256 ^ 31) with (2 ^ 248) in E. lia. }
  set (h := znth (le_bytes 32 v) 31) in *. set (b := u mod 2). assert (Hbb: b = 0 \/ b = 1) by (unfold b; lia).
  assert (Ex: u8 (Z.lxor h (Z.shiftl b 7)) = h + 128 * b).
  { destruct Hbb as [-> | ->]; [change (Z.shiftl 0 7) with 0; rewrite Z.lxor_0_r; unfold u8; lia|]. change (Z.shiftl 1 7) with 128.
    replace (Z.lxor h 128) with (h + 128); [unfold u8; lia|]. rewrite Z.add_nocarry_lxor; [reflexivity|]. apply Z.bits_inj'. intros n Hn. rewrite Z.land_spec, Z.bits_0. change 128 with (2 ^ 7). rewrite Z.pow2_bits_eqb by lia. destruct (Z.eqb_spec 7 n) as [<-|_]; [|apply andb_false_r].
    rewrite andb_true_r. rewrite <- (Z.mod_small h (2 ^ 7)) by lia. apply Z.mod_pow2_bits_high. lia. }
  rewrite Ex. apply le_val_inj.
  - apply (bytes_ok_upd (le_bytes 32 v)); [apply le_bytes_ok|]. unfold byte_ok. lia.
  - apply le_bytes_ok.
  - rewrite le_bytes_length. apply (f_equal Z.to_nat) in L32. pose proof (zlen_zupd (le_bytes 32 v) 31 (h + 128 * b)) as G. unfold zlen in G. apply Nat2Z.inj in G. rewrite G. now rewrite le_bytes_length.
  - rewrite le_val_bytes by (change (256 ^ Z.of_nat 32) with (2 ^ 256); lia). rewrite le_val_bval, bval_zupd by lia. rewrite <- le_val_bval, Hval. change (256 ^ 31) with (2 ^ 248). fold h. lia.
Qed.
