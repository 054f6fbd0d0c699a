(** Decoding of points, group facts used by signing and verification, and unpackneg of tweetnacl.c. *)
From Verif Require Import Base Wp NumTheory EdSpec EdCurve EdExt Sha512Spec EdSig Tweet TweetField TweetField2 TweetCurve TweetModL.
From Coq Require Import Znumtheory Setoid Morphisms.
Ltac Zify.zify_post_hook ::= Z.div_mod_to_equations.

(** ** scalars modulo the order of the base point *)
Lemma smul_mod n : 0 <= n -> smul (n mod edL) edB = smul n edB.
Proof.
  intros Hn. pose proof edL_pos as HL. rewrite (Z.div_mod n edL) at 2 by lia. assert (0 <= n / edL) by (apply Z.div_pos; lia). pose proof (Z.mod_pos_bound n edL ltac:(lia)).
  rewrite smul_add by (try apply edB_on_curve; nia). rewrite (Z.mul_comm edL), smul_mul by (try apply edB_on_curve; lia). rewrite smul_L_B, smul_zero. rewrite padd_0_l; [reflexivity|]. apply smul_closed, edB_on_curve.
Qed.
Lemma smul_pneg n P : on_curve P -> 0 <= n -> smul n (pneg P) = pneg (smul n P).
Proof.
  intros C Hn. pose proof (smul_neg n P C Hn) as E. pose proof (smul_closed n P C) as C1. pose proof (smul_closed n (pneg P) (pneg_on_curve P C)) as C2.
  rewrite <- (padd_0_r (smul n (pneg P)) C2). rewrite <- (padd_neg_r _ C1). rewrite <- padd_assoc by (try assumption; now apply pneg_on_curve). rewrite E. apply padd_0_l. now apply pneg_on_curve.
Qed.

(** ** square roots *)
Lemma mod2_neg x : 0 < x < edp -> ((- x) mod edp) mod 2 = 1 - x mod 2.
Proof. intros H. rewrite edp_val in *. lia. Qed.
Lemma den_nz y : ~ 1 + edd * (y * y) == 0.
Proof.
  intros H. assert (y == 0). { apply (edd_square_zero edI). rewrite edI_sq. apply eqp_move. transitivity (- (1 + edd * (y * y))); [apply eqp_of_eq; ring|]. rewrite H. reflexivity. }
  rewrite H0 in H. apply one_nz. rewrite <- H. apply eqp_of_eq. ring.
Qed.
(** the curve equation solved for x^2 *)
Lemma ecv_sqrt x y : ecv x y == 0 <-> x * x * (1 + edd * (y * y)) == y * y - 1.
Proof.
  split; intros H.
  - apply eqp_move. rewrite <- H. apply eqp_of_eq. unfold ecv. ring.
  - apply eqp_move in H. rewrite <- H. apply eqp_of_eq. unfold ecv. ring.
Qed.
Lemma sq_eq a b : a * a == b * b -> a == b \/ a == - b.
Proof.
  intros H. apply eqp_move in H. replace (a * a - b * b) with ((a - b) * (a + b)) in H by ring. apply eqp_integral in H as [H|H]; [left; now apply eqp_move|right]. apply eqp_move. rewrite <- H. apply eqp_of_eq. ring.
Qed.
Lemma sqrt_unique x x' y : ecv x y == 0 -> ecv x' y == 0 -> x == x' \/ x == - x'.
Proof.
  rewrite !ecv_sqrt. intros H H'. apply sq_eq. apply (eqp_cancel (1 + edd * (y * y)) _ _ (den_nz y)). transitivity (x * x * (1 + edd * (y * y))); [apply eqp_of_eq; ring|]. rewrite H, <- H'. apply eqp_of_eq. ring.
Qed.
(** at most one point has a given encoding *)
Lemma decodes_unique pk A A' : bytes_ok pk -> zlen pk = 32 -> decodes pk A -> decodes pk A' -> A = A'.
Proof.
  intros Bp Lp. destruct A as [x y], A' as [x' y']. intros (C & Ey & Es) (C' & Ey' & Es'). cbn [fst snd] in *. apply on_curve_eqp in C as (Hx & Hy & C). apply on_curve_eqp in C' as (Hx' & Hy' & C'). assert (y' = y) as -> by congruence. f_equal. clear Ey Ey'.
  destruct (sqrt_unique x x' y C C') as [E|E]; [now apply eqp_small|].
  destruct (Z.eq_dec x 0) as [->|Hx0].
  { apply eqp_small; try assumption. transitivity (- (- x')); [|apply eqp_of_eq; ring]. rewrite <- E. reflexivity. }
  destruct (Z.eq_dec x' 0) as [->|Hx'0]; [apply eqp_small; try assumption; exact E|].
  exfalso. assert (E2: x = (- x') mod edp) by (apply eqp_small; [assumption|apply mod_range|rewrite eqp_mod; exact E]). pose proof (mod2_neg x' ltac:(lia)) as M. rewrite <- E2 in M. lia.
Qed.
Lemma penc_val x y : 0 <= x < edp -> 0 <= y < edp -> le_val (penc (x, y)) = y + 2 ^ 255 * (x mod 2).
Proof. intros Hx Hy. unfold penc. pose proof edp_lt. apply le_val_bytes. change (256 ^ Z.of_nat 32) with (2 ^ 256). lia. Qed.
Lemma zlen_penc P : zlen (penc P) = 32. Proof. destruct P. unfold penc, zlen. now rewrite le_bytes_length. Qed.
Lemma penc_bytes P : bytes_ok (penc P). Proof. destruct P. apply le_bytes_ok. Qed.
Lemma decodes_penc A : on_curve A -> decodes_strict (penc A) A.
Proof.
  destruct A as [x y]. intros C. split; [exact C|]. apply on_curve_eqp in C as (Hx & Hy & _). cbn [fst snd]. rewrite penc_val by assumption. pose proof edp_lt. split; lia.
Qed.
Lemma decodes_strict_decodes pk A : decodes_strict pk A -> decodes pk A.
Proof. destruct A as [x y]. intros (C & Ey & Es). split; [exact C|]. cbn [fst snd] in *. apply on_curve_eqp in C as (Hx & Hy & _). split; [rewrite <- Ey; symmetry; now apply Z.mod_small|now right]. Qed.
Lemma penc_inj P Q : on_curve P -> on_curve Q -> penc P = penc Q -> P = Q.
Proof.
  intros CP CQ E. apply (decodes_unique (penc P)); [apply penc_bytes|apply zlen_penc|now apply decodes_strict_decodes, decodes_penc|]. rewrite E. now apply decodes_strict_decodes, decodes_penc.
Qed.

(** ** unpackneg *)
Definition n8 : Z := (edp - 5) / 8.
Lemma n8_ok : edp = 8 * n8 + 5. Proof. unfold n8. rewrite edp_val. reflexivity. Qed.
Lemma n8_pos : 0 <= n8. Proof. unfold n8. rewrite edp_val. vm_compute. discriminate. Qed.
Lemma pow_eqp_mul a b n : 0 <= n -> (a * b) ^ n == a ^ n * b ^ n.
Proof. intros. apply eqp_of_eq. apply Z.pow_mul_l. Qed.
(** a root exists: then w = (u v^7)^((p-1)/4) is 1 or -1, unless u = 0 *)
Lemma root_exists x u v : x * x * v == u -> ~ v == 0 -> ~ u == 0 -> let w := (u * (v * v * v * v * v * v * v)) ^ (2 * n8 + 1) in w == 1 \/ w == -1.
Proof.
  intros Hx Hv Hu. pose proof n8_pos as P8. pose proof n8_ok as E8. cbv zeta.
  set (z := x * (v * v * v * v)). assert (Ez: u * (v * v * v * v * v * v * v) == z ^ 2). { rewrite <- Hx. apply eqp_of_eq. unfold z. rewrite Z.pow_2_r. ring. }
  assert (Hz: ~ z == 0). { unfold z. assert (~ x == 0). { intros E. apply Hu. rewrite <- Hx, E. reflexivity. } repeat apply eqp_nz_mul; assumption. }
  rewrite (eqp_pow _ _ (2 * n8 + 1) Ez) by lia. rewrite <- Z.pow_mul_r by lia. pose proof (fermat_p z Hz) as F. replace (edp - 1) with (2 * (2 * n8 + 1) * 2) in F by lia. rewrite Z.pow_mul_r in F by lia. rewrite Z.pow_2_r in F.
  apply (sq_eq _ 1). rewrite F. reflexivity.
Qed.
Lemma gfD_ok : bounded 65574 gfD /\ gval gfD == edd.
Proof.
  split; [split; [reflexivity|]|]. intros i Hi. assert (F: Forall (fun x => -65574 <= x <= 65574) gfD) by (unfold gfD; repeat (constructor; [lia|]); constructor). rewrite Forall_forall in F. apply F. unfold znth. apply nth_In. change (length gfD) with 16%nat. lia.
  apply eqp_of_eq. vm_compute. reflexivity.
Qed.
Lemma gfI_ok : bounded 65574 gfI /\ gval gfI == edI.
Proof.
  split; [split; [reflexivity|]|]. intros i Hi. assert (F: Forall (fun x => -65574 <= x <= 65574) gfI) by (unfold gfI; repeat (constructor; [lia|]); constructor). rewrite Forall_forall in F. apply F. unfold znth. apply nth_In. change (length gfI) with 16%nat. lia.
  apply eqp_of_eq. vm_compute. reflexivity.
Qed.
Lemma gf0_ok : bounded 0 gf0 /\ gval gf0 = 0.
Proof.
  split; [split; [reflexivity|]|reflexivity]. intros i Hi. assert (F: Forall (fun x => -0 <= x <= 0) gf0) by (unfold gf0; repeat (constructor; [lia|]); constructor). rewrite Forall_forall in F. apply F. unfold znth. apply nth_In. change (length gf0) with 16%nat. lia.
Qed.
Lemma neq_eqp a b : bounded (2 ^ 55) a -> bounded (2 ^ 55) b -> exists r, neq25519 a b = Ret r /\ (r = 0 <-> gval a == gval b) /\ (r <> 0 -> ~ gval a == gval b).
Proof.
  intros Ha Hb. rewrite neq_ok by assumption. destruct (Z.eqb_spec (gval a mod edp) (gval b mod edp)) as [E|E]; eexists; (split; [reflexivity|]); rewrite eqp_iff; split; try tauto; split; lia.
Qed.
Lemma sign_range pk : zlen pk = 32 -> bytes_ok pk -> 0 <= Z.shiftr (znth pk 31) 7 <= 1.
Proof. intros Lp Bp. pose proof (byte_at pk 31 Bp ltac:(lia)). rewrite Z.shiftr_div_pow2 by lia. change (2 ^ 7) with 128. lia. Qed.
Lemma sign_bit pk : zlen pk = 32 -> bytes_ok pk -> Z.shiftr (znth pk 31) 7 = le_val pk / 2 ^ 255.
Proof.
  intros Lp Bp. rewrite Z.shiftr_div_pow2 by lia. rewrite le_val_bval, (bval_split 256 pk 31) by lia. pose proof (byte_at pk 31 Bp ltac:(lia)).
  assert (R: 0 <= bps 256 pk 31 < 256 ^ 31). { unfold bps. rewrite <- le_val_bval. pose proof (le_val_range (pre pk 31) (bytes_ok_pre pk 31 Bp)) as R. rewrite zlen_pre in R by lia. exact R. }
  assert (E: bval 256 (skipn (Z.to_nat 31) pk) = znth pk 31). { destruct (skipn (Z.to_nat 31) pk) as [|h l] eqn:E; [apply (f_equal zlen) in E; rewrite zlen_skipn in E; change (zlen (@nil Z)) with 0 in E; lia|]. assert (l = []) as ->. { apply (f_equal zlen) in E. rewrite zlen_skipn, zlen_cons in E. destruct l; [reflexivity|]. rewrite zlen_cons in E. pose proof (zlen_nonneg l). lia. } cbn [bval]. replace (znth pk 31) with h; [ring|]. pose proof (znth_skipn pk 31 0 ltac:(lia) ltac:(lia)) as G. rewrite E in G. exact G. }
  rewrite E. change (256 ^ 31) with (2 ^ 248) in *. change (2 ^ 7) with 128. lia.
Qed.
Lemma unpackneg_ok pk : zlen pk = 32 -> bytes_ok pk ->
  wp (unpackneg pk) (fun o => match o with None => forall A, ~ decodes pk A | Some q => exists A, decodes pk A /\ reps 65574 q (pneg A) end).
Proof.
  intros Lp Bp. unfold unpackneg. pose proof gf1_ok as [B1 V1]. pose proof gfD_ok as [BD VD]. pose proof gfI_ok as [BI VI]. pose proof gf0_ok as [B0 V0].
  apply wp_bind. eapply wp_mono; [apply unpack_ok; assumption|]. intros r1 [Br1 Vr1]. cbv beta. set (y := gval r1) in *.
  apply wp_bind. eapply wp_mono; [apply (gfM_fe 65535 65535 r1 r1 y y); try assumption; try lia; reflexivity|]. intros n0 Hn0. cbv beta.
  apply wp_bind. eapply wp_mono; [apply (gfM_fe 65574 65574 n0 gfD (y * y) edd); [eapply fe_bounded; exact Hn0|exact BD|lia|lia|apply Hn0|exact VD]|]. intros d0 Hd0. cbv beta.
  apply wp_bind. eapply wp_mono; [apply (gfZ_ok 65574 65574 n0 gf1); [eapply fe_bounded; exact Hn0|exact B1|lia|lia|lia]|]. intros num [Bnum Vnum]. cbv beta.
  apply wp_bind. eapply wp_mono; [apply (gfA_ok 65574 65574 gf1 d0); [exact B1|eapply fe_bounded; exact Hd0|lia|lia|lia]|]. intros den [Bden Vden]. cbv beta.
  set (u := y * y - 1). set (v := 1 + edd * (y * y)).
  assert (Eu: gval num == u). { rewrite Vnum, V1. rewrite (proj2 Hn0). reflexivity. }
  assert (Ev: gval den == v). { rewrite Vden, V1. rewrite (proj2 Hd0). apply eqp_of_eq. unfold v. ring. }
  clear Vnum Vden Hn0 Hd0 n0 d0. change (65574 + 65574) with 131148 in *. assert (Hv: ~ v == 0) by apply den_nz.
  apply wp_bind. eapply wp_mono; [apply (gfM_fe 131148 131148 den den v v); try assumption; lia|]. intros den2 H2. cbv beta.
  apply wp_bind. eapply wp_mono; [apply gfS_fe; exact H2|]. intros den4 H4. cbv beta.
  apply wp_bind. eapply wp_mono; [apply gfM_fe2; [exact H4|exact H2]|]. intros den6 H6. cbv beta.
  apply wp_bind. eapply wp_mono; [apply (gfM_fe 65574 131148 den6 num (v * v * (v * v) * (v * v)) u); [eapply fe_bounded; exact H6|exact Bnum|lia|lia|apply H6|exact Eu]|]. intros t1 Ht1. cbv beta.
  apply wp_bind. eapply wp_mono; [eapply (gfM_fe 65574 131148 t1 den); [eapply fe_bounded; exact Ht1|exact Bden|lia|lia|apply Ht1|exact Ev]|]. intros t2 Ht2. cbv beta.
  set (q := u * (v * v * v * v * v * v * v)).
  assert (Et2: gval t2 == q). { rewrite (proj2 Ht2). apply eqp_of_eq. unfold q. ring. }
  apply wp_bind. eapply wp_mono; [apply (pow2523_fe 65574 t2 q); [eapply fe_bounded; exact Ht2|lia|exact Et2]|]. intros t3 Ht3. cbv beta. fold n8 in Ht3. clear H2 H4 H6 Ht1 Ht2 Et2 den2 den4 den6 t1 t2.
  apply wp_bind. eapply wp_mono; [eapply (gfM_fe 65574 131148 t3 num); [eapply fe_bounded; exact Ht3|exact Bnum|lia|lia|apply Ht3|exact Eu]|]. intros t4 Ht4. cbv beta.
  apply wp_bind. eapply wp_mono; [eapply (gfM_fe 65574 131148 t4 den); [eapply fe_bounded; exact Ht4|exact Bden|lia|lia|apply Ht4|exact Ev]|]. intros t5 Ht5. cbv beta.
  apply wp_bind. eapply wp_mono; [eapply (gfM_fe 65574 131148 t5 den); [eapply fe_bounded; exact Ht5|exact Bden|lia|lia|apply Ht5|exact Ev]|]. intros t6 Ht6. cbv beta.
  apply wp_bind. eapply wp_mono; [eapply (gfM_fe 65574 131148 t6 den); [eapply fe_bounded; exact Ht6|exact Bden|lia|lia|apply Ht6|exact Ev]|]. intros r0 Hr0. cbv beta. clear Ht3 Ht4 Ht5 Ht6 t3 t4 t5 t6.
  set (w := q ^ (2 * n8 + 1)). set (s0 := q ^ n8 * u * v * v * v) in *.
  assert (Echk: s0 * s0 * v == u * w).
  { apply eqp_of_eq. unfold w. pose proof n8_pos. replace (2 * n8 + 1) with (n8 + n8 + 1) by ring. rewrite !Z.pow_add_r, Z.pow_1_r by lia. unfold s0. set (qn := q ^ n8). unfold q. ring. }
  apply wp_bind. eapply wp_mono; [apply gfS_fe; exact Hr0|]. intros c0 Hc0. cbv beta.
  apply wp_bind. eapply wp_mono; [eapply (gfM_fe 65574 131148 c0 den); [eapply fe_bounded; exact Hc0|exact Bden|lia|lia|apply Hc0|exact Ev]|]. intros chk Hchk. cbv beta.
  assert (Bn55: bounded (2 ^ 55) num) by (apply (bounded_le 131148); [exact Bnum|lia]).
  destruct (neq_eqp chk num) as (ne & Ene & Hne & Hne'); [eapply bounded_le; [eapply fe_bounded; exact Hchk|lia]|exact Bn55|]. rewrite Ene. cbn [bind].
  (* the candidate after the possible multiplication by I *)
  apply wp_bind. apply (wp_mono _ (fun r => exists s, fe r s /\ (s * s * v == u * w \/ s * s * v == - (u * w)) /\ ((u * w == u \/ u * w == - u) -> s * s * v == u))).
  { destruct (Z.eqb_spec ne 0) as [E0|E0].
    - apply wp_ret. exists s0. split; [exact Hr0|]. split; [left; exact Echk|]. intros _. apply Hne in E0. rewrite <- Eu, <- E0, (proj2 Hchk). reflexivity.
    - eapply wp_mono; [eapply (gfM_fe 65574 65574 r0 gfI); [eapply fe_bounded; exact Hr0|exact BI|lia|lia|apply Hr0|exact VI]|]. intros r Hr. exists (s0 * edI). split; [exact Hr|].
      assert (EM: s0 * edI * (s0 * edI) * v == - (u * w)). { transitivity (s0 * s0 * v * (edI * edI)); [apply eqp_of_eq; ring|]. rewrite Echk, edI_sq. apply eqp_of_eq. ring. }
      split; [right; exact EM|]. intros [G|G]; [exfalso; apply (Hne' E0); rewrite (proj2 Hchk), Eu, <- G; exact Echk|]. rewrite EM, G. apply eqp_of_eq. ring. }
  clear Hchk Ene Hne Hne' chk ne Hc0 c0 Hr0 r0 Echk. clearbody s0. clear s0. intros r0 (s & Hr0 & Hs & Hs'). cbv beta.
  apply wp_bind. eapply wp_mono; [apply gfS_fe; exact Hr0|]. intros c0 Hc0. cbv beta.
  apply wp_bind. eapply wp_mono; [eapply (gfM_fe 65574 131148 c0 den); [eapply fe_bounded; exact Hc0|exact Bden|lia|lia|apply Hc0|exact Ev]|]. intros chk Hchk. cbv beta.
  destruct (neq_eqp chk num) as (ne & Ene & Hne & Hne'); [eapply bounded_le; [eapply fe_bounded; exact Hchk|lia]|exact Bn55|]. rewrite Ene. cbn [bind].
  assert (Ey: y == y mod edp) by (symmetry; apply eqp_mod).
  destruct (Z.eqb_spec ne 0) as [E0|E0]; cbn [negb].
  - (* a square root was found *)
    apply Hne in E0. assert (Root: s * s * v == u) by (rewrite <- Eu, <- E0, (proj2 Hchk); reflexivity).
    assert (OC: forall x, x * x == s * s -> ecv x (y mod edp) == 0).
    { intros x Hx. apply ecv_sqrt. rewrite Hx, !(eqp_mod y). exact Root. }
    rewrite par_ok by (eapply bounded_le; [eapply fe_bounded; exact Hr0|lia]). cbn [bind]. replace (gval r0 mod edp) with (s mod edp) by (symmetry; apply eqp_iff; apply Hr0).
    apply wp_bind, wp_rd; [lia|]. set (sg := Z.shiftr (znth pk 31) 7).
    assert (Hsg: sg = le_val pk / 2 ^ 255) by (apply sign_bit; assumption). assert (Rsg: 0 <= sg <= 1) by (apply sign_range; assumption). clearbody sg.
    (* the x coordinate of the decoded key *)
    set (xs := s mod edp). pose proof (mod_range s) as Rs. fold xs in Rs.
    set (ax := if xs mod 2 =? sg then xs else (- xs) mod edp).
    assert (Rax: 0 <= ax < edp) by (unfold ax; destruct (_ =? _); [exact Rs|apply mod_range]).
    assert (Hax: ax == s \/ ax == - s). { unfold ax, xs. destruct (_ =? _); [left; apply eqp_mod|right; rewrite !eqp_mod; reflexivity]. }
    assert (CA: on_curve (ax, y mod edp)). { apply on_curve_eqp. split; [exact Rax|]. split; [apply mod_range|]. apply OC. destruct Hax as [H|H]; rewrite H; apply eqp_of_eq; ring. }
    assert (DA: decodes pk (ax, y mod edp)).
    { split; [exact CA|]. cbn [fst snd]. split; [now rewrite Vr1|]. rewrite <- Hsg. unfold ax. destruct (Z.eqb_spec (xs mod 2) sg) as [G|G]; [right; exact G|]. destruct (Z.eq_dec xs 0) as [Z0|Z0]; [left; rewrite Z0; reflexivity|]. right. rewrite mod2_neg by lia. clear - Rsg G Rs. lia. }
    apply wp_bind. apply (wp_mono _ (fun r => bounded 65574 r /\ gval r == (- ax) mod edp)).
    { fold xs. unfold ax. destruct (Z.eqb_spec (xs mod 2) sg) as [G|G].
      - eapply wp_mono; [apply (gfZ_ok 0 65574 gf0 r0); [exact B0|eapply fe_bounded; exact Hr0|lia|lia|lia]|]. intros r [Br Vr]. split; [exact Br|]. rewrite Vr, V0, eqp_mod. unfold xs. rewrite (proj2 Hr0), eqp_mod. reflexivity.
      - apply wp_ret. split; [eapply fe_bounded; exact Hr0|]. rewrite (proj2 Hr0). unfold xs. rewrite !eqp_mod. apply eqp_of_eq. ring. }
    intros r [Br Vr]. cbv beta. apply wp_bind. eapply wp_mono; [apply (gfM_fe 65574 65574 r r1 ((- ax) mod edp) (y mod edp)); [exact Br|apply (bounded_le 65535); [exact Br1|lia]|lia|lia|exact Vr|exact Ey]|]. intros r3 Hr3. cbv beta. apply wp_ret.
    exists (ax, y mod edp). split; [exact DA|]. unfold reps. split; [exact Br|]. split; [apply (bounded_le 65535); [exact Br1|lia]|]. split; [exact B1|]. split; [eapply fe_bounded; exact Hr3|].
    pose proof (pneg_on_curve _ CA) as CN. unfold pneg in *. eapply rep_eqp; [apply (rep_affine ((- ax) mod edp) (y mod edp) (gval r3) CN)|exact Vr|exact Ey|apply eqp_of_eq; exact V1|reflexivity]. apply Hr3.
  - (* no root: no point *)
    apply wp_ret. intros [x y'] (C & EY & _). cbn [fst snd] in *. apply on_curve_eqp in C as (_ & _ & C). apply ecv_sqrt in C.
    assert (Ey': y' == y). { rewrite EY. rewrite eqp_mod, Vr1. reflexivity. }
    rewrite Ey' in C. fold u v in C. apply (Hne' E0). rewrite (proj2 Hchk), Eu. apply Hs'.
    destruct (Zdivide_dec edp u) as [D|D].
    + apply eqp0 in D. left. rewrite D. reflexivity.
    + rewrite <- eqp0 in D. destruct (root_exists x u v C Hv D) as [W|W]; fold q w in W; [left|right]; rewrite W; apply eqp_of_eq; ring.
Qed.
