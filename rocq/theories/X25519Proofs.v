(** crypto_scalarmult of tweetnacl.c computes X25519 of RFC 7748. *)
From Verif Require Import Base Wp NumTheory EdSpec EdCurve Tweet TweetField TweetField2 TweetCurve TweetEd TweetBox TweetDH BoxSpec X25519Spec.
From Coq Require Import Znumtheory Setoid Morphisms.
Ltac Zify.zify_post_hook ::= idtac.
Local Opaque gfM gfS gfA gfZ inv25519 pack25519 unpack25519 sel25519.

Definition fb (l : list Z) (v : Z) : Prop := bounded 65574 l /\ gval l == v.
Lemma fe_fb l v : fe l v -> fb l v. Proof. intros H. split; [eapply fe_bounded; exact H|apply H]. Qed.
Lemma fb_eqp l v v' : fb l v -> v == v' -> fb l v'. Proof. intros [B E] H. split; [exact B|now rewrite E]. Qed.
Lemma fbA a b va vb : fb a va -> fb b vb -> wp (gfA a b) (fun o => bounded (2 ^ 18) o /\ gval o == va + vb).
Proof. intros [Ba Ea] [Bb Eb]. eapply wp_mono; [apply (gfA_ok _ _ _ _ Ba Bb); (lia || (vm_compute; discriminate))|]. intros o [Bo Eo]. split; [eapply bounded_le; [exact Bo|vm_compute; discriminate]|]. now rewrite Eo, Ea, Eb. Qed.
Lemma fbZ a b va vb : fb a va -> fb b vb -> wp (gfZ a b) (fun o => bounded (2 ^ 18) o /\ gval o == va - vb).
Proof. intros [Ba Ea] [Bb Eb]. eapply wp_mono; [apply (gfZ_ok _ _ _ _ Ba Bb); (lia || (vm_compute; discriminate))|]. intros o [Bo Eo]. split; [eapply bounded_le; [exact Bo|vm_compute; discriminate]|]. now rewrite Eo, Ea, Eb. Qed.
Definition fw (l : list Z) (v : Z) : Prop := bounded (2 ^ 18) l /\ gval l == v.
Lemma fb_fw l v : fb l v -> fw l v. Proof. intros [B E]. split; [eapply bounded_le; [exact B|vm_compute; discriminate]|exact E]. Qed.
Lemma fwM a b va vb : fw a va -> fw b vb -> wp (gfM a b) (fun o => fb o (va * vb)).
Proof. intros [Ba Ea] [Bb Eb]. eapply wp_mono; [apply (gfM_fe _ _ _ _ va vb Ba Bb); (lia || assumption)|]. intros o H. now apply fe_fb. Qed.
Lemma fwS a va : fw a va -> wp (gfS a) (fun o => fb o (va * va)).
Proof. intros H. Transparent gfS. unfold gfS. Opaque gfS. now apply fwM. Qed.
Lemma gf121665_ok : fw gf121665 121665.
Proof.
  split; [split; [reflexivity|]|apply eqp_of_eq; reflexivity]. intros i Hi. assert (F: Forall (fun x => -262144 <= x <= 262144) gf121665) by (unfold gf121665; repeat (constructor; [lia|]); constructor). rewrite Forall_forall in F. change (2 ^ 18) with 262144. apply F. unfold znth. apply nth_In. change (length gf121665) with 16%nat. lia.
Qed.
Lemma sel_fb p q vp vq r : fb p vp -> fb q vq -> r = 0 \/ r = 1 -> sel25519 p q r = Ret (if r =? 1 then (q, p) else (p, q)).
Proof. intros [[Lp _] _] [[Lq _] _] H. now apply sel_ok. Qed.


Lemma step_ok x a b c d vx va vb vc vd : fb x vx -> fb a va -> fb b vb -> fb c vc -> fb d vd ->
  wp (sm_step x a b c d) (fun '(a', b', c', d') =>
    let '(x2, z2, x3, z3) := ladder_step vx false (va, vc, vb, vd) in fb a' x2 /\ fb b' x3 /\ fb c' z2 /\ fb d' z3).
Proof.
  intros Hx Ha Hb Hc Hd. unfold sm_step.
  apply wp_bind; eapply wp_mono; [apply (fbA _ _ _ _ Ha Hc)|]; cbv beta. intros e1 He1.
  apply wp_bind; eapply wp_mono; [apply (fbZ _ _ _ _ Ha Hc)|]; cbv beta. intros a1 Ha1.
  apply wp_bind; eapply wp_mono; [apply (fbA _ _ _ _ Hb Hd)|]; cbv beta. intros c1 Hc1.
  apply wp_bind; eapply wp_mono; [apply (fbZ _ _ _ _ Hb Hd)|]; cbv beta. intros b1 Hb1.
  apply wp_bind; eapply wp_mono; [apply (fwS _ _ He1)|]; cbv beta. intros d1 Hd1.
  apply wp_bind; eapply wp_mono; [apply (fwS _ _ Ha1)|]; cbv beta. intros f Hf.
  apply wp_bind; eapply wp_mono; [apply (fwM _ _ _ _ Hc1 Ha1)|]; cbv beta. intros a2 Ha2.
  apply wp_bind; eapply wp_mono; [apply (fwM _ _ _ _ Hb1 He1)|]; cbv beta. intros c2 Hc2.
  apply wp_bind; eapply wp_mono; [apply (fbA _ _ _ _ Ha2 Hc2)|]; cbv beta. intros e2 He2.
  apply wp_bind; eapply wp_mono; [apply (fbZ _ _ _ _ Ha2 Hc2)|]; cbv beta. intros a3 Ha3.
  apply wp_bind; eapply wp_mono; [apply (fwS _ _ Ha3)|]; cbv beta. intros b2 Hb2.
  apply wp_bind; eapply wp_mono; [apply (fbZ _ _ _ _ Hd1 Hf)|]; cbv beta. intros c3 Hc3.
  apply wp_bind; eapply wp_mono; [apply (fwM _ _ _ _ Hc3 gf121665_ok)|]; cbv beta. intros a4 Ha4.
  apply wp_bind; eapply wp_mono; [apply (fbA _ _ _ _ Ha4 Hd1)|]; cbv beta. intros a5 Ha5.
  apply wp_bind; eapply wp_mono; [apply (fwM _ _ _ _ Hc3 Ha5)|]; cbv beta. intros c4 Hc4.
  apply wp_bind; eapply wp_mono; [apply (fwM _ _ _ _ (fb_fw _ _ Hd1) (fb_fw _ _ Hf))|]; cbv beta. intros a6 Ha6.
  apply wp_bind; eapply wp_mono; [apply (fwM _ _ _ _ (fb_fw _ _ Hb2) (fb_fw _ _ Hx))|]; cbv beta. intros d2 Hd2.
  apply wp_bind; eapply wp_mono; [apply (fwS _ _ He2)|]; cbv beta. intros b3 Hb3.
  apply wp_ret. unfold ladder_step, a24. cbv beta iota zeta.
  split; [|split; [|split]]; (eapply fb_eqp; [eassumption|]); rewrite ?Z.pow_2_r; rewrite !eqp_mod; apply eqp_of_eq; ring.
Qed.

Lemma ladder_step_swap vx x2 z2 x3 z3 : ladder_step vx true (x2, z2, x3, z3) =
  let '(a, c, b, d) := ladder_step vx false (x3, z3, x2, z2) in (b, d, a, c).
Proof. reflexivity. Qed.
Definition st_ok (s : list Z * list Z * list Z * list Z) (v : Z * Z * Z * Z) : Prop :=
  let '(a, b, c, d) := s in let '(x2, z2, x3, z3) := v in fb a x2 /\ fb b x3 /\ fb c z2 /\ fb d z3.
Lemma body_ok x vx r a b c d v : fb x vx -> r = 0 \/ r = 1 -> st_ok (a, b, c, d) v ->
  wp ('(a, b) <- sel25519 a b r ;;
     '(c, d) <- sel25519 c d r ;;
     '(a, b, c, d) <- sm_step x a b c d ;;
     '(a, b) <- sel25519 a b r ;;
     '(c, d) <- sel25519 c d r ;;
     Ret (a, b, c, d)) (fun s => st_ok s (ladder_step vx (r =? 1) v)).
Proof.
  intros Hx Hr. destruct v as [[[x2 z2] x3] z3]. intros (Ha & Hb & Hc & Hd).
  rewrite (sel_fb a b _ _ r Ha Hb Hr), (sel_fb c d _ _ r Hc Hd Hr). destruct Hr as [-> | ->].
  - change (0 =? 1) with false. cbv beta iota. cbn [bind]. apply wp_bind. eapply wp_mono; [apply (step_ok x a b c d vx x2 x3 z2 z3); assumption|].
    intros [[[a' b'] c'] d']. cbv beta. destruct (ladder_step vx false (x2, z2, x3, z3)) as [[[u2 w2] u3] w3]. intros (A & B & C & D).
    rewrite (sel_fb a' b' _ _ 0 A B (or_introl eq_refl)), (sel_fb c' d' _ _ 0 C D (or_introl eq_refl)). change (0 =? 1) with false. cbv beta iota. cbn [bind]. apply wp_ret. exact (conj A (conj B (conj C D))).
  - change (1 =? 1) with true. cbv beta iota. cbn [bind]. apply wp_bind. eapply wp_mono; [apply (step_ok x b a d c vx x3 x2 z3 z2); assumption|].
    rewrite ladder_step_swap. intros [[[a' b'] c'] d']. cbv beta. destruct (ladder_step vx false (x3, z3, x2, z2)) as [[[u2 w2] u3] w3]. intros (A & B & C & D).
    rewrite (sel_fb a' b' _ _ 1 A B (or_intror eq_refl)), (sel_fb c' d' _ _ 1 C D (or_intror eq_refl)). change (1 =? 1) with true. cbv beta iota. cbn [bind]. apply wp_ret. exact (conj B (conj A (conj D C))).
Qed.
Lemma clamp_z n : zlen n = 32 -> bytes_ok n -> wp (sm_clamp n) (fun z => zlen z = 32 /\ bytes_ok z /\ le_val z = decodeScalar25519 n).
Proof.
  intros Ln Bn. unfold sm_clamp.
  apply wp_bind. apply (wp_for_loop (fun i z => zlen z = 32 /\ forall j, 0 <= j < i -> znth z j = znth n j)); [lia| | |].
  - split; [apply zlen_zeros; lia|intros; lia].
  - intros i z Hi (Lz & Hz). apply wp_bind, wp_rd; [lia|]. apply wp_wr; [lia|]. split; [now rewrite zlen_zupd|]. intros j Hj. destruct (Z.eq_dec j i) as [->|]; [rewrite znth_zupd_same by lia; reflexivity|rewrite znth_zupd_other by lia; apply Hz; lia].
  - intros z (Lz & Hz). pose proof (byte_at n 0 Bn ltac:(lia)) as H0. pose proof (byte_at n 31 Bn ltac:(lia)) as H31.
    apply wp_bind, wp_rd; [lia|]. rewrite clamp_31 by exact H31. assert (R31: 0 <= 64 + znth n 31 mod 64 < 256) by (pose proof (Z.mod_pos_bound (znth n 31) 64 ltac:(lia)); lia). unfold u8 at 1. rewrite Z.mod_small by lia.
    apply wp_bind, wp_wr; [lia|]. apply wp_bind, wp_rd; [rewrite zlen_zupd; lia|]. rewrite znth_zupd_other by lia. rewrite Hz by lia. rewrite land_248 by exact H0.
    assert (R0: 0 <= 8 * (znth n 0 / 8) < 256) by (pose proof (Z.div_mod (znth n 0) 8 ltac:(lia)); pose proof (Z.mod_pos_bound (znth n 0) 8 ltac:(lia)); lia). unfold u8. rewrite (Z.mod_small (8 * (znth n 0 / 8))) by lia. apply wp_wr; [rewrite zlen_zupd; lia|].
    set (d0 := znth n 0) in *. set (d31 := znth n 31) in *. set (z1 := zupd z 31 (64 + d31 mod 64)). assert (L1: zlen z1 = 32) by (unfold z1; now rewrite zlen_zupd).
    set (z2 := zupd z1 0 (8 * (d0 / 8))). assert (L2: zlen z2 = 32) by (unfold z2; now rewrite zlen_zupd). split; [exact L2|].
    assert (N2: forall j, 0 <= j < 32 -> znth z2 j = if j =? 0 then 8 * (d0 / 8) else if j =? 31 then 64 + d31 mod 64 else znth n j).
    { intros j Hj. unfold z2. destruct (Z.eqb_spec j 0) as [->|]; [apply znth_zupd_same; lia|]. rewrite znth_zupd_other by lia. unfold z1. destruct (Z.eqb_spec j 31) as [->|]; [apply znth_zupd_same; lia|]. rewrite znth_zupd_other by lia. apply Hz. lia. }
    split.
    { apply bytes_ok_znth. rewrite L2. intros j Hj. rewrite N2 by lia. destruct (j =? 0); [exact R0|]. destruct (j =? 31); [exact R31|]. apply (byte_at n j Bn). lia. }
    unfold decodeScalar25519. assert (E2: z2 = zupd (zupd n 31 (64 + d31 mod 64)) 0 (8 * (d0 / 8))).
    { apply list_ext_z; [rewrite !zlen_zupd; lia|]. rewrite L2. intros j Hj. rewrite N2 by lia. destruct (Z.eqb_spec j 0) as [->|]; [symmetry; apply znth_zupd_same; rewrite zlen_zupd; lia|]. rewrite znth_zupd_other by (rewrite ?zlen_zupd; lia). destruct (Z.eqb_spec j 31) as [->|]; [symmetry; apply znth_zupd_same; lia|]. now rewrite znth_zupd_other by lia. }
    rewrite E2. clear E2 N2. rewrite !le_val_bval.
    assert (BP: forall l, zlen l = 32 -> bval 256 l = bps 256 l 32). { intros l Hl. unfold bps, pre. rewrite firstn_all2 by (unfold zlen in Hl; lia). reflexivity. }
    rewrite !BP by (rewrite ?zlen_zupd; lia). rewrite bps_zupd by (rewrite ?zlen_zupd; lia). rewrite znth_zupd_other by lia. rewrite bps_zupd by (rewrite ?zlen_zupd; lia). fold d0 d31.
    pose proof (bps_succ 256 n 31 ltac:(lia)) as E. change (31 + 1) with 32 in E. fold d31 in E.
    assert (E1: exists M, bps 256 n 31 = d0 + 256 * M /\ 0 <= M < 2 ^ 240).
    { assert (R: 0 <= bps 256 n 31 < 2 ^ 248). { unfold bps. rewrite <- le_val_bval. pose proof (le_val_range (pre n 31) (bytes_ok_pre n 31 Bn)) as R. rewrite zlen_pre in R by lia. exact R. }
      clear - R Ln H0. unfold bps, pre in *. change (Z.to_nat 31) with 31%nat in *. destruct n as [|h t]; [cbn in Ln; discriminate|]. cbn [firstn bval] in *. unfold d0, znth in *. change (Z.to_nat 0) with 0%nat in *. cbn [nth] in *. eexists. split; [reflexivity|]. change (2 ^ 248) with (256 * 2 ^ 240) in R. lia. }
    destruct E1 as (M & E1 & HM). rewrite E1 in E. rewrite E. change (256 ^ 31) with (2 ^ 248). change (256 ^ 0) with 1. rewrite <- (clamp_arith d0 M d31) by assumption. ring.
Qed.
Lemma gf0_fb : fb gf0 0. Proof. split; [apply reps_zero|apply eqp_of_eq; reflexivity]. Qed.
Lemma gf1_fb : fb gf1 1. Proof. split; [apply reps_zero|apply eqp_of_eq; reflexivity]. Qed.
Local Opaque ladder_step sm_clamp.
Theorem scalarmult_spec n p : zlen n = 32 -> bytes_ok n -> zlen p = 32 -> bytes_ok p -> crypto_scalarmult n p = Ret (0, x25519 n p).
Proof.
  intros Ln Bn Lp Bp. apply wp_is. unfold crypto_scalarmult. apply wp_bind. eapply wp_mono; [apply (clamp_z n Ln Bn)|]. intros z (Lz & Bz & Vz). cbv beta.
  apply wp_bind. eapply wp_mono; [apply (unpack_ok p Lp Bp)|]. intros x (Bx & Vx). cbv beta. set (u := decodeUCoordinate p). set (k := decodeScalar25519 n) in *.
  assert (Hx: fb x u). { split; [eapply bounded_le; [exact Bx|lia]|]. rewrite Vx. unfold u, decodeUCoordinate. now rewrite eqp_mod. }
  remember (ladder u k 255 (1, 0, u, 1)) as R eqn:ER0.
  apply wp_bind. apply (wp_for_loop (fun t s => exists v, st_ok s v /\ ladder u k (Z.to_nat (255 - t)) v = R)); [lia| | |].
  - exists (1, 0, u, 1). split; [exact (conj gf1_fb (conj Hx (conj gf0_fb gf1_fb)))|symmetry; exact ER0].
  - intros t [[[a b] c] d] Ht (v & Hs & Hl). cbv zeta. apply wp_bind, wp_rd; [split; [apply Z.div_pos; lia|rewrite Lz; apply Z.div_lt_upper_bound; lia]|].
    pose proof (bit_of_bytes z (254 - t) Bz ltac:(lia)) as BB. rewrite Vz in BB.
    set (r := Z.land (Z.shiftr (znth z ((254 - t) / 8)) (Z.land (254 - t) 7)) 1) in *.
    assert (Hr: r = 0 \/ r = 1). { unfold r. generalize (Z.shiftr (znth z ((254 - t) / 8)) (Z.land (254 - t) 7)). intros y. pose proof (Z.land_ones y 1 ltac:(lia)) as Y. change (Z.ones 1) with 1 in Y. rewrite Y. change (2 ^ 1) with 2. pose proof (Z.mod_pos_bound y 2 ltac:(lia)). lia. }
    assert (ER: (r =? 1) = Z.testbit k (Z.of_nat (Z.to_nat (254 - t)))).
    { rewrite Z2Nat.id by lia. rewrite Z.testbit_eqb by lia. rewrite <- BB. unfold u8. rewrite Z.mod_small by lia. reflexivity. }
    clearbody r. eapply wp_mono; [apply (body_ok x u r a b c d v Hx Hr Hs)|]. intros s' Hs'. cbv beta. rewrite ER in Hs'. eexists. split; [exact Hs'|].
    rewrite <- Hl. replace (255 - (t + 1)) with (254 - t) by lia. replace (Z.to_nat (255 - t)) with (S (Z.to_nat (254 - t))) by lia. reflexivity.
  - intros [[[a b] c] d] (v & Hs & Hl). cbv beta iota. change (v = R) in Hl. destruct v as [[[x2 z2] x3] z3]. destruct Hs as (Ha & _ & Hc & _).
    apply wp_bind. eapply wp_mono; [apply (inv_fe _ _ z2 (proj1 Hc)); [vm_compute; discriminate|apply Hc]|]. intros i Hi. cbv beta. apply fe_fb in Hi.
    apply wp_bind. eapply wp_mono; [apply (fwM _ _ _ _ (fb_fw _ _ Ha) (fb_fw _ _ Hi))|]. intros q [Bq Eq]. cbv beta.
    rewrite pack25519_ok by (eapply bounded_le; [exact Bq|vm_compute; discriminate]). cbn [bind]. apply wp_ret.
    unfold x25519, montgomery_ladder. fold u k. rewrite <- ER0, <- Hl. unfold encodeUCoordinate. f_equal. f_equal. apply eqp_iff. rewrite Eq, eqp_mod. Transparent finv. unfold finv. Opaque finv. rewrite powm_eqp. pose proof edp_val. rewrite Z2Pos.id by lia. reflexivity.
Qed.
