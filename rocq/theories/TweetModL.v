(** modL of tweetnacl.c: reduction modulo the group order. *)
From Verif Require Import Base Wp NumTheory EdSpec EdCurve Tweet TweetField TweetField2 TweetCurve.
From Coq Require Import Znumtheory Setoid Morphisms.
Ltac Zify.zify_post_hook ::= Z.div_mod_to_equations.

Lemma i64_small x : - 2 ^ 63 <= x < 2 ^ 63 -> i64 x = x.
Proof. intros H. unfold i64. rewrite Z.mod_small by lia. lia. Qed.
Lemma i64_u64 x : i64 (u64 x) = i64 x.
Proof. unfold i64, u64. rewrite Z.add_mod_idemp_l by lia. reflexivity. Qed.
Lemma u64_eq a b : (exists k, a = b + k * 2 ^ 64) -> u64 a = u64 b.
Proof. intros [k ->]. unfold u64. apply Z.mod_add. lia. Qed.
Lemma u64_def a : exists k, u64 a = a + k * 2 ^ 64.
Proof. exists (- (a / 2 ^ 64)). unfold u64. lia. Qed.
Lemma mac_ok a b p l : - 2 ^ 63 <= a + b - p * l < 2 ^ 63 -> i64 (u64 (a + u64 (b - u64 (u64 p * l)))) = a + b - p * l.
Proof.
  intros H. rewrite i64_u64. destruct (u64_def p) as [k1 E1]. destruct (u64_def (u64 p * l)) as [k2 E2]. destruct (u64_def (b - u64 (u64 p * l))) as [k3 E3].
  rewrite E3, E2, E1. rewrite <- (i64_small (a + b - p * l)) by lia. unfold i64. f_equal.
  replace (a + (b - ((p + k1 * 2 ^ 64) * l + k2 * 2 ^ 64) + k3 * 2 ^ 64) + 2 ^ 63) with (a + b - p * l + 2 ^ 63 + (k3 - k2 - k1 * l) * 2 ^ 64) by ring. apply Z.mod_add. lia.
Qed.
Lemma sub_ok a b l : - 2 ^ 63 <= a - b * l < 2 ^ 63 -> i64 (u64 (u64 a - u64 (u64 b * l))) = a - b * l.
Proof.
  intros H. rewrite i64_u64. destruct (u64_def b) as [k1 E1]. destruct (u64_def (u64 b * l)) as [k2 E2]. destruct (u64_def a) as [k3 E3].
  rewrite E3, E2, E1. rewrite <- (i64_small (a - b * l)) by lia. unfold i64. f_equal.
  replace (a + k3 * 2 ^ 64 - ((b + k1 * 2 ^ 64) * l + k2 * 2 ^ 64) + 2 ^ 63) with (a - b * l + 2 ^ 63 + (k3 - k2 - k1 * l) * 2 ^ 64) by ring. apply Z.mod_add. lia.
Qed.

Definition edc : Z := 27742317777372353535851937790883648493.
Lemma edL_val : edL = 2 ^ 252 + edc. Proof. reflexivity. Qed.
Lemma Lb k : 0 <= k < 32 -> 0 <= znth Lbytes k < 256.
Proof. intros Hk. apply (byte_at Lbytes k); [|exact Hk]. unfold Lbytes, bytes_ok. repeat (constructor; [unfold byte_ok; lia|]). constructor. Qed.
Lemma Lb_0 k : 16 <= k < 31 -> znth Lbytes k = 0.
Proof. intros H. assert (k = 16 \/ k = 17 \/ k = 18 \/ k = 19 \/ k = 20 \/ k = 21 \/ k = 22 \/ k = 23 \/ k = 24 \/ k = 25 \/ k = 26 \/ k = 27 \/ k = 28 \/ k = 29 \/ k = 30) as C by lia.
  repeat (destruct C as [-> |C]; [reflexivity|]). subst. reflexivity. Qed.
Lemma L_20 : bps 256 Lbytes 20 = edc. Proof. vm_compute. reflexivity. Qed.
Lemma L_32 : bps 256 Lbytes 32 = edL. Proof. vm_compute. reflexivity. Qed.

Definition nrm (v : Z) : Prop := -128 <= v <= 127.
(** bound on the carry out of step [k - 1] *)
Definition cb (tight : bool) (k : Z) : Z :=
  if k <=? 16 then 2 ^ 27 else if k =? 17 then 2 ^ 20 else if tight then (if k =? 18 then 2 ^ 13 else if k =? 19 then 2 ^ 6 else 1) else 2 ^ 14.
Lemma modL_pass_ok tight i x : zlen x = 64 -> 32 <= i < 64 -> - 2 ^ 22 <= znth x i <= 2 ^ 22 ->
  (forall j, i - 32 <= j <= i - 13 -> - 2 ^ 21 <= znth x j <= 2 ^ 21) ->
  (tight = true -> forall j, i - 16 <= j <= i - 13 -> nrm (znth x j)) ->
  - 2 ^ 21 <= znth x (i - 12) <= 2 ^ 21 ->
  wp (modL_pass i x) (fun y => zlen y = 64 /\ (exists m, bval 256 y = bval 256 x + m * edL) /\ znth y i = 0 /\
    (forall j, i - 32 <= j <= i - 13 -> nrm (znth y j)) /\
    - cb tight 20 <= znth y (i - 12) - znth x (i - 12) <= cb tight 20 /\
    (forall j, 0 <= j < 64 -> j < i - 32 \/ (i - 12 < j /\ j <> i) -> znth y j = znth x j)).
Proof.
  intros Lx Hi Hxi HX HN H12. unfold modL_pass. apply wp_bind. set (xi := znth x i) in *.
  apply (wp_for_loop (fun k '(y, carry) => zlen y = 64 /\ - cb tight k <= carry <= cb tight k /\
     bval 256 y + carry * 256 ^ (i - 32 + k) = bval 256 x - 16 * xi * 256 ^ (i - 32) * bps 256 Lbytes k /\
     (forall j, i - 32 <= j < i - 32 + k -> nrm (znth y j)) /\
     (forall j, 0 <= j < 64 -> j < i - 32 \/ i - 32 + k <= j -> znth y j = znth x j))); [lia| | |].
  - split; [exact Lx|]. split; [unfold cb; cbn; lia|]. split; [rewrite bps_0; ring|]. split; [intros; lia|]. reflexivity.
  - intros k [y c] Hk (Ly & Hc & V & N & E). cbv zeta. apply wp_bind, wp_rd; [lia|]. apply wp_bind, wp_rd; [lia|]. rewrite !E by lia. fold xi.
    apply wp_bind, wp_ck; [lia|]. apply wp_bind, wp_rd; [change (zlen Lbytes) with 32; lia|]. replace (i - 32 + k - (i - 32)) with k by lia. pose proof (HX (i - 32 + k) ltac:(lia)) as HXj. pose proof (Lb k ltac:(lia)) as HL.
    set (xj := znth x (i - 32 + k)) in *. set (l := znth Lbytes k) in *.
    assert (Hl0: 16 <= k -> l = 0) by (intros; apply Lb_0; lia).
    assert (Hp: - (16 * 255 * 2 ^ 22) <= 16 * xi * l <= 16 * 255 * 2 ^ 22) by nia.
    assert (Hcb: 0 <= cb tight k <= 2 ^ 27) by (unfold cb; destruct (k <=? 16), (k =? 17), tight, (k =? 18), (k =? 19); lia).
    rewrite mac_ok by lia. set (v := xj + c - 16 * xi * l) in *.
    apply wp_bind, wp_wr; [lia|]. apply wp_bind, wp_ck; [lia|]. rewrite Z.shiftr_div_pow2 by lia. change (2 ^ 8) with 256. set (c' := (v + 128) / 256).
    assert (Hv: nrm (v - c' * 256)) by (unfold nrm, c'; lia).
    apply wp_bind, wp_ck; [unfold c'; lia|]. apply wp_bind, wp_ck; [unfold nrm in Hv; lia|]. apply wp_bind, wp_wr; [rewrite zlen_zupd; lia|]. apply wp_ret.
    split; [now rewrite !zlen_zupd|]. split.
    { assert (Hv2: 16 <= k -> v = xj + c) by (intros G; unfold v; rewrite (Hl0 G); lia). assert (HNj: tight = true -> 16 <= k -> nrm xj) by (intros G G2; apply HN; [exact G|lia]). assert (Hvb: - (16 * 255 * 2 ^ 22 + 2 ^ 21 + 2 ^ 27) <= v <= 16 * 255 * 2 ^ 22 + 2 ^ 21 + 2 ^ 27) by (unfold v; lia). clearbody v xj. unfold c', nrm in *.
      unfold cb in *. destruct (Z.leb_spec k 16).
      - destruct (Z.leb_spec (k + 1) 16); [lia|]. assert (k = 16) as -> by lia. change (16 + 1 =? 17) with true. cbv iota. specialize (Hv2 ltac:(lia)). lia.
      - destruct (Z.leb_spec (k + 1) 16); [lia|]. specialize (Hv2 ltac:(lia)). destruct (Z.eqb_spec (k + 1) 17); [lia|]. destruct tight.
        + specialize (HNj eq_refl ltac:(lia)). destruct (Z.eqb_spec k 17), (Z.eqb_spec k 18), (Z.eqb_spec k 19), (Z.eqb_spec (k + 1) 18), (Z.eqb_spec (k + 1) 19); try lia.
        + destruct (Z.eqb_spec k 17), (Z.eqb_spec (k + 1) 18); lia. }
    split.
    { rewrite !bval_zupd by (rewrite ?zlen_zupd; lia). rewrite znth_zupd_same by lia. rewrite E by lia. fold xj. rewrite bps_succ by (change (zlen Lbytes) with 32; lia). fold l.
      replace (i - 32 + (k + 1)) with (i - 32 + k + 1) by lia. rewrite (Z.pow_add_r 256 (i - 32 + k) 1), Z.pow_1_r by lia. rewrite (Z.pow_add_r 256 (i - 32) k) in * by lia. unfold v. nia. }
    split.
    { intros j Hj. rewrite znth_zupd by (rewrite ?zlen_zupd; lia). destruct (Z.eqb_spec j (i - 32 + k)) as [->|Hn]; [exact Hv|]. rewrite znth_zupd_other by lia. apply N. lia. }
    intros j Hj Hj'. rewrite !znth_zupd_other by (rewrite ?zlen_zupd; lia). apply E; lia.
  - intros [y c] (Ly & Hc & V & N & E). cbv beta iota. replace (i - 32 + 20) with (i - 12) in * by lia. apply wp_bind, wp_rd; [lia|]. rewrite E by lia.
    assert (Hcb: 0 <= cb tight 20 <= 2 ^ 14) by (destruct tight; cbn; lia). apply wp_bind, wp_ck; [lia|]. apply wp_bind, wp_wr; [lia|]. apply wp_wr; [rewrite zlen_zupd; lia|].
    split; [now rewrite !zlen_zupd|]. split.
    { exists (- (16 * xi * 256 ^ (i - 32))). rewrite !bval_zupd by (rewrite ?zlen_zupd; lia). rewrite znth_zupd_other by lia. rewrite !E by lia. fold xi. rewrite L_20 in V. rewrite edL_val.
      replace (256 ^ i) with (256 ^ (i - 32) * 256 ^ 32) by (rewrite <- Z.pow_add_r by lia; f_equal; lia). change (256 ^ 32) with (16 * 2 ^ 252). nia. }
    split; [apply znth_zupd_same; rewrite zlen_zupd; lia|]. split; [intros j Hj; rewrite !znth_zupd_other by (rewrite ?zlen_zupd; lia); apply N; lia|].
    split; [rewrite znth_zupd_other by (rewrite ?zlen_zupd; lia); rewrite znth_zupd_same by lia; lia|].
    intros j Hj Hj'. rewrite !znth_zupd_other by (rewrite ?zlen_zupd; lia). apply E; lia.
Qed.

(** all passes *)
Lemma modL_1 x : zlen x = 64 -> (forall j, 0 <= j < 64 -> 0 <= znth x j <= 2 ^ 21) ->
  wp (for_loop 32 (fun k x => modL_pass (63 - k) x) x) (fun y => zlen y = 64 /\ (exists m, bval 256 y = bval 256 x + m * edL) /\
    (forall j, 0 <= j < 32 -> -129 <= znth y j <= 128) /\ (forall j, 32 <= j < 64 -> znth y j = 0)).
Proof.
  intros Lx HX.
  apply (wp_for_loop (fun k y => let i := 63 - k in zlen y = 64 /\ (exists m, bval 256 y = bval 256 x + m * edL) /\
    (forall j, i < j < 64 -> znth y j = 0) /\ (forall j, 0 <= j < 64 -> j <= i - 32 -> 0 <= znth y j <= 2 ^ 21) /\
    (k = 0 -> y = x) /\ (0 < k -> forall j, i - 31 <= j <= i - 12 -> nrm (znth y j)) /\
    (forall j, i - 11 <= j <= i -> if j <=? 50 then -129 <= znth y j <= 128 else - 2 ^ 22 <= znth y j <= 2 ^ 22) )); [lia| | |].
  - cbv zeta. change (63 - 0) with 63. split; [exact Lx|]. split; [exists 0; ring|]. split; [intros; lia|]. split; [intros; apply HX; lia|]. split; [reflexivity|]. split; [lia|].
    intros j Hj. pose proof (HX j ltac:(lia)). replace (j <=? 50) with false by lia. lia.
  - intros k y Hk. cbv zeta. set (i := 63 - k) in *. intros (Ly & [m V] & Z0 & HO & HE & HN & HT).
    assert (Hi: - 2 ^ 22 <= znth y i <= 2 ^ 22) by (pose proof (HT i ltac:(lia)); destruct (i <=? 50); lia).
    assert (HA: forall j, i - 32 <= j <= i - 13 -> - 2 ^ 21 <= znth y j <= 2 ^ 21).
    { intros j Hj. destruct (Z.eqb_spec k 0) as [Hk0|Hk0]; [rewrite (HE Hk0); pose proof (HX j ltac:(lia)); lia|]. destruct (Z.eqb_spec j (i - 32)); [pose proof (HO j ltac:(lia) ltac:(lia)); lia|]. pose proof (HN ltac:(lia) j ltac:(lia)) as G. unfold nrm in G. lia. }
    assert (H12: - 2 ^ 21 <= znth y (i - 12) <= 2 ^ 21).
    { destruct (Z.eqb_spec k 0) as [Hk0|Hk0]; [rewrite (HE Hk0); pose proof (HX (i - 12) ltac:(lia)); lia|]. pose proof (HN ltac:(lia) (i - 12) ltac:(lia)) as G. unfold nrm in G. lia. }
    eapply wp_mono; [apply (modL_pass_ok (0 <? k) i y Ly ltac:(lia) Hi HA); [|exact H12]|].
    + intros Ht j Hj. apply HN; lia.
    + intros y' (Ly' & [m' V'] & Z' & N' & C' & E'). replace (63 - (k + 1)) with (i - 1) by lia. split; [exact Ly'|]. split; [exists (m + m'); rewrite V', V; ring|].
      split; [intros j Hj; destruct (Z.eqb_spec j i) as [->|Hn]; [exact Z'|]; rewrite E' by lia; apply Z0; lia|]. split; [intros j Hj Hj'; rewrite E' by lia; apply HO; lia|]. split; [lia|]. split; [intros _ j Hj; apply N'; lia|].
      intros j Hj. destruct (Z.eqb_spec j (i - 12)) as [->|Hn]; [|rewrite E' by lia; apply HT; lia].
      destruct (Z.eqb_spec k 0) as [Hk0|Hk0].
      * replace (0 <? k) with false in C' by lia. unfold i. rewrite Hk0. change (63 - 0 - 12 <=? 50) with false. cbv iota. change (cb false 20) with (2 ^ 14) in C'. unfold i in *. rewrite Hk0 in *. lia.
      * replace (0 <? k) with true in C' by lia. change (cb true 20) with 1 in C'. replace (i - 12 <=? 50) with true by lia. pose proof (HN ltac:(lia) (i - 12) ltac:(lia)) as G. unfold nrm in G. lia.
  - cbv zeta. change (63 - 32) with 31. intros y (Ly & V & Z0 & HO & HE & HN & HT). split; [exact Ly|]. split; [exact V|]. split; [|intros; apply Z0; lia].
    intros j Hj. destruct (Z.ltb_spec j 20) as [H|H].
    + pose proof (HN ltac:(lia) j ltac:(lia)) as G. unfold nrm in G. lia.
    + pose proof (HT j ltac:(lia)) as G. replace (j <=? 50) with true in G by lia. lia.
Qed.
Lemma bps_zero_above b l k n : 0 <= k -> k + Z.of_nat n <= zlen l -> (forall j, k <= j < k + Z.of_nat n -> znth l j = 0) -> bps b l (k + Z.of_nat n) = bps b l k.
Proof.
  intros Hk. induction n as [|n IH]; intros Hn H; [f_equal; lia|]. replace (k + Z.of_nat (S n)) with (k + Z.of_nat n + 1) by lia. rewrite bps_succ by lia. rewrite H by lia. rewrite IH by (try (intros; apply H); lia). ring.
Qed.
Lemma bps_bound l n A : 0 <= n <= zlen l -> (forall j, 0 <= j < n -> - A <= znth l j <= A) -> 0 <= A -> - (A * (256 ^ n - 1)) <= 255 * bps 256 l n <= A * (256 ^ n - 1).
Proof.
  intros [Hn Hl] H HA. revert Hl H. pattern n. revert n Hn. apply natlike_ind; [intros _ _; rewrite bps_0, Z.pow_0_r; lia|]. intros n Hn IH Hl H. unfold Z.succ in *. rewrite bps_succ by lia. specialize (IH ltac:(lia) ltac:(intros; apply H; lia)). pose proof (H n ltac:(lia)).
  rewrite Z.pow_add_r, Z.pow_1_r by lia. assert (0 < 256 ^ n) by (apply Z.pow_pos_nonneg; lia). nia.
Qed.
Lemma modL_2 y : zlen y = 64 -> (forall j, 0 <= j < 32 -> -129 <= znth y j <= 128) ->
  wp (for_loop 32 (fun j '(x, carry) =>
      xj <- rd 0 x j ;; x31 <- rd 0 x 31 ;; l <- rd 0 Lbytes j ;;
      let v := i64 (u64 (xj + u64 (carry - u64 (u64 (Z.shiftr x31 4) * l)))) in
      x <- wr x j (Z.land v 255) ;;
      Ret (x, Z.shiftr v 8)) (y, 0))
  (fun '(w, c) => zlen w = 64 /\ -20 <= c <= 20 /\ bps 256 w 32 + c * 256 ^ 32 = bps 256 y 32 - (znth y 31 / 16) * edL /\
    (forall j, 0 <= j < 32 -> 0 <= znth w j < 256) /\ (forall j, 32 <= j < 64 -> znth w j = znth y j)).
Proof.
  intros Ly HB. set (q := znth y 31 / 16). assert (Hq: -9 <= q <= 8) by (pose proof (HB 31 ltac:(lia)); unfold q; lia).
  apply (wp_for_loop (fun k '(w, c) => zlen w = 64 /\ -20 <= c <= 20 /\ bps 256 w k + c * 256 ^ k = bps 256 y k - q * bps 256 Lbytes k /\
    (forall j, 0 <= j < k -> 0 <= znth w j < 256) /\ (forall j, k <= j < 64 -> znth w j = znth y j))); [lia| | |].
  - split; [exact Ly|]. split; [lia|]. split; [rewrite !bps_0; ring|]. split; [intros; lia|]. reflexivity.
  - intros k [w c] Hk (Lw & Hc & W & HW & E). apply wp_bind, wp_rd; [lia|]. apply wp_bind, wp_rd; [lia|]. apply wp_bind, wp_rd; [change (zlen Lbytes) with 32; lia|]. rewrite !E by lia. rewrite (Z.shiftr_div_pow2 (znth y 31)) by lia. change (2 ^ 4) with 16. fold q. clearbody q.
    pose proof (Lb k ltac:(lia)) as HL. pose proof (HB k ltac:(lia)). set (l := znth Lbytes k) in *. assert (- 9 * 255 <= q * l <= 9 * 255) by nia. rewrite mac_ok by lia. set (v := znth y k + c - q * l). cbv zeta.
    apply wp_bind, wp_wr; [lia|]. apply wp_ret. change 255 with (Z.ones 8). rewrite Z.land_ones, Z.shiftr_div_pow2 by lia. change (2 ^ 8) with 256.
    split; [now rewrite zlen_zupd|]. split; [unfold v; lia|]. split.
    { rewrite !bps_succ by (rewrite ?zlen_zupd; change (zlen Lbytes) with 32; lia). rewrite bps_zupd_ge, znth_zupd_same by lia. rewrite Z.pow_add_r, Z.pow_1_r by lia. fold l.
      assert (v mod 256 + 256 * (v / 256) = v) by lia. assert (v = znth y k + c - q * l) by reflexivity. nia. }
    split; [intros j Hj; rewrite znth_zupd by lia; destruct (Z.eqb_spec j k); [lia|apply HW; lia]|]. intros j Hj. rewrite znth_zupd_other by lia. apply E; lia.
  - intros [w c] H. rewrite L_32 in H. exact H.
Qed.
Lemma modL_3 w c : zlen w = 64 -> c = 0 \/ c = -1 -> (forall j, 0 <= j < 32 -> 0 <= znth w j < 256) ->
  wp (for_loop 32 (fun j x =>
      xj <- rd 0 x j ;; l <- rd 0 Lbytes j ;;
      wr x j (i64 (u64 (u64 xj - u64 (u64 c * l))))) w)
  (fun u => zlen u = 64 /\ bps 256 u 32 = bps 256 w 32 - c * edL /\ (forall j, 0 <= j < 32 -> 0 <= znth u j < 512) /\ (forall j, 32 <= j < 64 -> znth u j = znth w j)).
Proof.
  intros Lw Hcc HW.
  apply (wp_for_loop (fun k u => zlen u = 64 /\ bps 256 u k = bps 256 w k - c * bps 256 Lbytes k /\ (forall j, 0 <= j < k -> 0 <= znth u j < 512) /\ (forall j, k <= j < 64 -> znth u j = znth w j))); [lia| | |].
  - split; [exact Lw|]. split; [rewrite !bps_0; ring|]. split; [intros; lia|reflexivity].
  - intros k u Hk (Lu & U & HU & EU). apply wp_bind, wp_rd; [lia|]. apply wp_bind, wp_rd; [change (zlen Lbytes) with 32; lia|]. rewrite EU by lia. pose proof (HW k ltac:(lia)). pose proof (Lb k ltac:(lia)). set (l := znth Lbytes k) in *.
    assert (0 <= - c * l <= 255) by (destruct Hcc as [-> | ->]; lia). rewrite sub_ok by lia. apply wp_wr; [lia|]. split; [now rewrite zlen_zupd|]. split.
    { rewrite !bps_succ by (rewrite ?zlen_zupd; change (zlen Lbytes) with 32; lia). rewrite bps_zupd_ge, znth_zupd_same by lia. fold l. rewrite U. ring. }
    split; [intros j Hj; rewrite znth_zupd by lia; destruct (Z.eqb_spec j k); [lia|apply HU; lia]|]. intros j Hj. rewrite znth_zupd_other by lia. apply EU; lia.
  - intros u H. rewrite L_32 in H. exact H.
Qed.
Lemma modL_4 u : zlen u = 64 -> (forall j, 0 <= j < 32 -> 0 <= znth u j < 512) -> znth u 32 = 0 ->
  wp (for_loop 32 (fun i '(x, r) =>
      xi <- rd 0 x i ;; xn <- rd 0 x (i + 1) ;;
      v <- ck (xn + Z.shiftr xi 8) ;;
      x <- wr x (i + 1) v ;;
      r <- wr r i (u8 (Z.land xi 255)) ;;
      Ret (x, r)) (u, zeros 32))
  (fun '(_, r) => r = le_bytes 32 (bps 256 u 32)).
Proof.
  intros Lu HU U32.
  apply (wp_for_loop (fun k '(t, r) => zlen t = 64 /\ zlen r = 32 /\ bytes_ok r /\ bps 256 r k + 256 ^ k * znth t k = bps 256 u (k + 1) /\ 0 <= znth t k < 1024 /\ (forall j, k < j < 64 -> znth t j = znth u j))); [lia| | |].
  - split; [exact Lu|]. split; [reflexivity|]. split; [apply bytes_ok_zeros|]. split; [rewrite bps_succ, !bps_0, Z.pow_0_r by lia; ring|]. split; [pose proof (HU 0 ltac:(lia)); lia|reflexivity].
  - intros k [t r] Hk (Lt & Lr & Br & T & HT & ET). apply wp_bind, wp_rd; [lia|]. apply wp_bind, wp_rd; [lia|]. rewrite (ET (k + 1)) by lia. rewrite Z.shiftr_div_pow2 by lia. change (2 ^ 8) with 256.
    assert (0 <= znth u (k + 1) < 512) by (destruct (Z.eqb_spec k 31) as [->|]; [change (31 + 1) with 32; lia|apply HU; lia]).
    apply wp_bind, wp_ck; [lia|]. apply wp_bind, wp_wr; [lia|]. apply wp_bind, wp_wr; [lia|]. apply wp_ret. change 255 with (Z.ones 8). rewrite Z.land_ones by lia. change (2 ^ 8) with 256. set (tk := znth t k) in *.
    assert (Eu8: u8 (tk mod 256) = tk mod 256) by (unfold u8; lia). rewrite Eu8. split; [now rewrite zlen_zupd|]. split; [now rewrite zlen_zupd|]. split; [apply bytes_ok_upd; [exact Br|unfold byte_ok; lia]|]. split.
    { rewrite znth_zupd_same by lia. rewrite bps_succ by (rewrite ?zlen_zupd; lia). rewrite bps_zupd_ge, znth_zupd_same by lia. rewrite (bps_succ 256 u (k + 1)) by lia. rewrite <- T. rewrite (Z.pow_add_r 256 k 1), Z.pow_1_r by lia. assert (tk = tk mod 256 + 256 * (tk / 256)) by lia. nia. }
    split; [rewrite znth_zupd_same by lia; lia|]. intros j Hj. rewrite znth_zupd_other by lia. apply ET; lia.
  - intros [t r] (Lt & Lr & Br & T & HT & ET). rewrite (bps_succ 256 u 32) in T by lia. rewrite U32, (bps_full 256 r 32) in T by lia. change (256 ^ 32) with (2 ^ 256) in T.
    apply le_val_inj; [exact Br|apply le_bytes_ok|rewrite le_bytes_length; unfold zlen in Lr; lia|]. rewrite le_bytes_mod. pose proof (le_val_range r Br) as RR. rewrite Lr in RR. change (256 ^ 32) with (2 ^ 256) in RR. rewrite le_val_bval in *. change (256 ^ Z.of_nat 32) with (2 ^ 256). lia.
Qed.
Lemma bps_bytes w : zlen w = 64 -> (forall j, 0 <= j < 32 -> 0 <= znth w j < 256) -> 0 <= bps 256 w 32 < 2 ^ 256.
Proof.
  intros Lw HW. assert (Lp: zlen (pre w 32) = 32) by (unfold zlen, pre; rewrite firstn_length; unfold zlen in Lw; lia). unfold bps. rewrite <- le_val_bval. change (2 ^ 256) with (256 ^ 32). replace (256 ^ 32) with (256 ^ zlen (pre w 32)) by (now rewrite Lp). apply le_val_range. apply bytes_ok_znth. intros j Hj. rewrite Lp in Hj. replace (znth (pre w 32) j) with (znth w j) by (unfold znth, pre; rewrite <- (firstn_skipn (Z.to_nat 32) w) at 1; rewrite app_nth1; [reflexivity|unfold zlen, pre in Lp; lia]). apply HW. lia.
Qed.
Lemma modL_quot y : zlen y = 64 -> (forall j, 0 <= j < 32 -> -129 <= znth y j <= 128) -> - edL < bps 256 y 32 - (znth y 31 / 16) * edL < edL.
Proof.
  intros Ly HB. change (bps 256 y 32) with (bps 256 y (31 + 1)). rewrite bps_succ by lia. pose proof (bps_bound y 31 129 ltac:(lia) ltac:(intros; pose proof (HB j ltac:(lia)); lia) ltac:(lia)) as BB. change (256 ^ 31) with (2 ^ 248) in *. rewrite edL_val. unfold edc. pose proof (HB 31 ltac:(lia)). set (lo := bps 256 y 31) in *. set (h := znth y 31) in *. clearbody lo h. clear HB Ly. assert (Hh: h = 16 * (h / 16) + h mod 16) by lia. assert (0 <= h mod 16 < 16) by lia. assert (-9 <= h / 16 <= 8) by lia. set (r := h mod 16) in *. set (q := h / 16) in *. clearbody r q. subst h. lia.
Qed.
Lemma edL_pos : 0 < edL < 2 ^ 253. Proof. rewrite edL_val. unfold edc. lia. Qed.
Lemma modL_ok x : zlen x = 64 -> (forall j, 0 <= j < 64 -> 0 <= znth x j <= 2 ^ 21) -> modL x = Ret (le_bytes 32 (bval 256 x mod edL)).
Proof.
  intros Lx HX. apply wp_is. unfold modL. apply wp_bind. eapply wp_mono; [apply modL_1; assumption|]. intros y (Ly & [m V] & HB & Z0). cbv beta. apply wp_bind.
  assert (VY: bval 256 y = bps 256 y 32). { rewrite <- (bps_full 256 y 64) by lia. exact (bps_zero_above 256 y 32 32 ltac:(lia) ltac:(lia) ltac:(intros; apply Z0; lia)). }
  pose proof (modL_quot y Ly HB) as HV2. pose proof edL_pos as HLp.
  eapply wp_mono; [apply modL_2; assumption|]. intros [w c] (Lw & Hc & W & HW & E). cbv beta iota. set (q := znth y 31 / 16) in *. clearbody q. pose proof (bps_bytes w Lw HW) as RW. change (256 ^ 32) with (2 ^ 256) in W.
  set (V2 := bps 256 y 32 - q * edL) in *.
  assert (Hcc: (0 <= V2 /\ c = 0) \/ (V2 < 0 /\ c = -1)) by (clearbody V2; lia).
  assert (Hres: V2 + (if V2 <? 0 then edL else 0) = bval 256 x mod edL).
  { assert (EV: V2 = bval 256 x + (m - q) * edL) by (unfold V2; rewrite <- VY, V; ring). replace (bval 256 x) with (V2 + (q - m) * edL) by (rewrite EV; ring). rewrite Z.mod_add by lia. clear EV. clearbody V2.
    destruct (Z.ltb_spec V2 0); [|rewrite Z.mod_small by lia; lia]. replace V2 with (V2 + edL + (-1) * edL) at 2 by ring. rewrite Z.mod_add by lia. rewrite Z.mod_small by lia. reflexivity. }
  apply wp_bind. eapply wp_mono; [apply (modL_3 w c Lw); [tauto|exact HW]|]. intros u (Lu & U & HU & EU). cbv beta. apply wp_bind. eapply wp_mono; [apply (modL_4 u Lu HU); rewrite EU, E by lia; apply Z0; lia|].
  intros [t r] Hr. cbv beta iota. apply wp_ret. subst r. rewrite U. rewrite <- Hres.
  apply le_val_inj; [apply le_bytes_ok|apply le_bytes_ok|now rewrite !le_bytes_length|]. rewrite !le_bytes_mod. change (256 ^ Z.of_nat 32) with (2 ^ 256).
  set (D := bps 256 w 32) in *. clearbody D V2. clear - W Hcc HLp. destruct Hcc as [[G ->]|[G ->]].
  - replace (V2 <? 0) with false by lia. f_equal. lia.
  - replace (V2 <? 0) with true by lia. replace (D - -1 * edL) with (V2 + edL + 1 * 2 ^ 256) by lia. apply Z.mod_add. lia.
Qed.
