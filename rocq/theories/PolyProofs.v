(** crypto_onetimeauth computes Poly1305, for words of 32 and of 64 bits. *)
From Verif Require Import Base Wp Tab EdSpec BoxSpec Tweet TweetField TweetField2 TweetCurve TweetBox.
Ltac Zify.zify_post_hook ::= idtac.

Definition word_size (w : Z) : Prop := w = 32 \/ w = 64.
Lemma uw_small w x : word_size w -> 0 <= x < 4294967296 -> uw w x = x.
Proof. intros [-> | ->] H; unfold uw; apply Z.mod_small; lia. Qed.
Lemma land255 u : Z.land u 255 = u mod 256.
Proof. change 255 with (Z.ones 8). now rewrite Z.land_ones by lia. Qed.
Lemma shr8 u : Z.shiftr u 8 = u / 256.
Proof. now rewrite Z.shiftr_div_pow2 by lia. Qed.
Lemma p256p i : 0 <= i -> 256 ^ (i + 1) = 256 * 256 ^ i.
Proof. intros. rewrite Z.pow_add_r by lia. lia. Qed.
Lemma bval_sum b l : bval b l = sumz (zlen l) (fun i => b ^ i * znth l i).
Proof.
  rewrite <- (bps_full b l (zlen l)) by reflexivity. assert (H: forall n, 0 <= n -> n <= zlen l -> bps b l n = sumz n (fun i => b ^ i * znth l i)).
  { apply (sumz_ind (fun n => n <= zlen l -> bps b l n = sumz n (fun i => b ^ i * znth l i))); [reflexivity|]. intros n Hn IH HL. rewrite bps_succ, sumz_S, IH by lia. reflexivity. }
  apply H; [apply zlen_nonneg|lia].
Qed.
Definition limbs (B : Z) (l : list Z) : Prop := zlen l = 17 /\ forall i, 0 <= i < 17 -> 0 <= znth l i <= B.
Lemma limbs_le B B' l : limbs B l -> B <= B' -> limbs B' l.
Proof. intros [L H] HB. split; [exact L|]. intros i Hi. pose proof (H i Hi). lia. Qed.
Lemma bps_limbs B l k : limbs B l -> B <= 255 -> 0 <= k <= 17 -> 0 <= bps 256 l k < 256 ^ k.
Proof.
  intros [L H] HB [Hk Hk']. revert Hk'. revert k Hk. apply (sumz_ind (fun k => k <= 17 -> 0 <= bps 256 l k < 256 ^ k)); [intros _; rewrite bps_0; lia|].
  intros n Hn IH Hk. rewrite bps_succ, p256p by lia. pose proof (H n ltac:(lia)). assert (0 < 256 ^ n) by (apply Z.pow_pos_nonneg; lia). specialize (IH ltac:(lia)). nia.
Qed.

Lemma add1305_ok w h c B : word_size w -> limbs B h -> limbs B c -> 0 <= B <= 2 ^ 29 ->
  wp (add1305 w h c) (fun o => limbs 255 o /\ bval 256 o = (bval 256 h + bval 256 c) mod 256 ^ 17).
Proof.
  intros W [Lh Hh] [Lc Hc] HB. unfold add1305. apply wp_bind.
  apply (wp_for_loop (fun j '(o, u) => zlen o = 17 /\ (forall k, 0 <= k < j -> 0 <= znth o k <= 255) /\ (forall k, j <= k < 17 -> znth o k = znth h k) /\ 0 <= u <= 2 ^ 29 /\ bps 256 o j + 256 ^ j * u = bps 256 h j + bps 256 c j)); [lia| | |].
  - split; [exact Lh|]. split; [lia|]. split; [reflexivity|]. split; [lia|]. rewrite !bps_0. lia.
  - intros j [o u] Hj (Lo & Bo & Eo & Bu & V). apply wp_bind, wp_rd; [lia|]. apply wp_bind, wp_rd; [lia|]. rewrite Eo by lia. pose proof (Hh j Hj). pose proof (Hc j Hj).
    rewrite !uw_small by (assumption || (rewrite ?uw_small by (assumption || lia); lia)). set (s := u + (znth h j + znth c j)) in *. assert (0 <= s <= 2 ^ 29 + 2 ^ 29 + 2 ^ 29) by lia.
    rewrite land255, shr8. pose proof (Z.div_mod s 256 ltac:(lia)). pose proof (Z.mod_pos_bound s 256 ltac:(lia)).
    apply wp_bind, wp_wr; [lia|]. apply wp_ret. split; [now rewrite zlen_zupd|]. split; [intros k Hk; rewrite znth_zupd by lia; destruct (Z.eqb_spec k j); [lia|apply Bo; lia]|].
    split; [intros k Hk; rewrite znth_zupd_other by lia; apply Eo; lia|]. split; [lia|].
    rewrite !bps_succ by (rewrite ?zlen_zupd; lia). rewrite bps_zupd_ge, znth_zupd_same, p256p by lia. set (P := 256 ^ j) in *. set (A := bps 256 o j) in *. clearbody P A.
    transitivity (A + P * s); [|unfold s; lia]. rewrite (Z.div_mod s 256) at 3 by lia. ring.
  - intros [o u] (Lo & Bo & Eo & Bu & V). cbv beta iota. apply wp_ret. rewrite !(bps_full 256 _ 17) in V by lia. assert (LB: limbs 255 o) by (split; assumption). split; [exact LB|].
    pose proof (bps_limbs 255 o 17 LB ltac:(lia) ltac:(lia)) as R. rewrite bps_full in R by lia.
    rewrite <- V. rewrite (Z.mul_comm (256 ^ 17)), Z.mod_add by lia. symmetry. now apply Z.mod_small.
Qed.

(** the product *)
Definition cf (r : list Z) (i j : Z) : Z := if j <=? i then znth r (i - j) else 320 * znth r (i + 17 - j).
Lemma cf_bound r i j : limbs 255 r -> 0 <= i < 17 -> 0 <= j < 17 -> 0 <= cf r i j <= 320 * 255.
Proof. intros [L H] Hi Hj. unfold cf. destruct (Z.leb_spec j i); [pose proof (H (i - j) ltac:(lia)); lia|pose proof (H (i + 17 - j) ltac:(lia)); lia]. Qed.
Lemma poly_mul_ok w h r : word_size w -> limbs 255 h -> limbs 255 r ->
  wp (poly_mul w h r) (fun x => zlen x = 17 /\ forall i, 0 <= i < 17 -> znth x i = sumz 17 (fun j => znth h j * cf r i j) /\ 0 <= znth x i <= 17 * (255 * (320 * 255))).
Proof.
  intros W [Lh Hh] Hr. pose proof Hr as [Lr Br]. unfold poly_mul.
  apply (wp_for_loop (fun i x => zlen x = 17 /\ forall k, 0 <= k < i -> znth x k = sumz 17 (fun j => znth h j * cf r k j) /\ 0 <= znth x k <= 17 * (255 * (320 * 255)))); [lia| | |].
  - split; [reflexivity|]. lia.
  - intros i x Hi (Lx & Ex). apply wp_bind. apply (wp_for_loop (fun j v => v = sumz j (fun j => znth h j * cf r i j) /\ 0 <= v <= j * (255 * (320 * 255)))); [lia| | |].
    + split; [reflexivity|lia].
    + intros j v Hj (Ev & Bv). apply wp_bind, wp_rd; [lia|]. pose proof (cf_bound r i j Hr Hi Hj) as CB. pose proof (Hh j Hj).
      apply wp_bind. apply wp_eq with (a := cf r i j).
      { unfold cf. destruct (Z.leb_spec j i); [apply wp_is, wp_rd; [lia|reflexivity]|]. apply wp_is, wp_bind, wp_rd; [lia|]. apply wp_ret. apply uw_small; [exact W|]. pose proof (Br (i + 17 - j) ltac:(lia)). lia. }
      apply wp_ret. assert (0 <= znth h j * cf r i j <= 255 * (320 * 255)) by nia. rewrite !uw_small by (assumption || (rewrite ?uw_small by (assumption || lia); lia)).
      split; [rewrite sumz_S by lia; lia|lia].
    + intros v (Ev & Bv). apply wp_wr; [lia|]. split; [now rewrite zlen_zupd|]. intros k Hk. rewrite znth_zupd by lia. destruct (Z.eqb_spec k i); [subst k; split; [exact Ev|lia]|apply Ex; lia].
  - intros x (Lx & Ex). split; [exact Lx|exact Ex].
Qed.
Lemma row_sum r j : zlen r = 17 -> 0 <= j < 17 ->
  sumz 17 (fun i => 256 ^ i * cf r i j) = 256 ^ j * bval 256 r - 64 * poly_p * sumz j (fun k => 256 ^ k * znth r (17 - j + k)).
Proof.
  intros Lr Hj. rewrite bval_sum, Lr. replace (sumz 17 (fun i => 256 ^ i * cf r i j)) with (sumz (j + (17 - j)) (fun i => 256 ^ i * cf r i j)) by (f_equal; lia).
  replace (sumz 17 (fun i => 256 ^ i * znth r i)) with (sumz ((17 - j) + j) (fun i => 256 ^ i * znth r i)) by (f_equal; lia).
  rewrite !sumz_split by lia. rewrite Z.mul_add_distr_l, <- !sumz_scale by lia.
  rewrite (sumz_ext j (fun i => 256 ^ i * cf r i j) (fun k => 320 * (256 ^ k * znth r (17 - j + k)))).
  2:{ intros i Hi. unfold cf. destruct (Z.leb_spec j i); [lia|]. replace (i + 17 - j) with (17 - j + i) by lia. ring. }
  rewrite (sumz_ext (17 - j) (fun i => 256 ^ (j + i) * cf r (j + i) j) (fun i => 256 ^ j * (256 ^ i * znth r i))).
  2:{ intros i Hi. unfold cf. destruct (Z.leb_spec j (j + i)); [|lia]. replace (j + i - j) with i by lia. rewrite Z.pow_add_r by lia. ring. }
  rewrite (sumz_ext j (fun i => 256 ^ j * (256 ^ (17 - j + i) * znth r (17 - j + i))) (fun k => 256 ^ 17 * (256 ^ k * znth r (17 - j + k)))).
  2:{ intros i Hi. replace (256 ^ 17) with (256 ^ j * 256 ^ (17 - j)) by (rewrite <- Z.pow_add_r by lia; f_equal; lia). rewrite (Z.pow_add_r 256 (17 - j)) by lia. ring. }
  rewrite !sumz_scale by lia. set (S1 := sumz (17 - j) _). set (S2 := sumz j _). replace (64 * poly_p) with (256 ^ 17 - 320) by reflexivity. ring.
Qed.
Lemma mul_value h r x : zlen h = 17 -> zlen r = 17 -> zlen x = 17 -> (forall i, 0 <= i < 17 -> znth x i = sumz 17 (fun j => znth h j * cf r i j)) ->
  exists q, bval 256 x = bval 256 h * bval 256 r - poly_p * q.
Proof.
  intros Lh Lr Lx Ex. exists (64 * sumz 17 (fun j => znth h j * sumz j (fun k => 256 ^ k * znth r (17 - j + k)))).
  rewrite (bval_sum 256 x), Lx. rewrite (sumz_ext 17 _ (fun i => sumz 17 (fun j => znth h j * (256 ^ i * cf r i j)))).
  2:{ intros i Hi. rewrite Ex by exact Hi. rewrite <- sumz_scale by lia. apply sumz_ext. intros. ring. }
  rewrite sumz_swap by lia. rewrite (sumz_ext 17 _ (fun j => (256 ^ j * znth h j) * bval 256 r + (- (64 * poly_p)) * (znth h j * sumz j (fun k => 256 ^ k * znth r (17 - j + k))))).
  2:{ intros j Hj. rewrite sumz_scale by lia. rewrite row_sum by assumption. ring. }
  rewrite sumz_add, sumz_scale, sumz_scale_r by lia. rewrite (bval_sum 256 h), Lh. generalize (sumz 17 (fun i => 256 ^ i * znth h i)) (sumz 17 (fun j => znth h j * sumz j (fun k => 256 ^ k * znth r (17 - j + k)))) (bval 256 r) poly_p. intros. ring.
Qed.

(** carrying *)
Lemma poly_carry_ok w h u B : word_size w -> limbs B h -> 0 <= B <= 2 ^ 29 -> 0 <= u <= 2 ^ 31 ->
  wp (poly_carry w h u) (fun '(o, u') => zlen o = 17 /\ (forall k, 0 <= k < 16 -> 0 <= znth o k <= 255) /\ znth o 16 = znth h 16 /\ 0 <= u' <= 2 ^ 24 /\ bps 256 o 16 + 256 ^ 16 * u' = bps 256 h 16 + u).
Proof.
  intros W [Lh Hh] HB HU. unfold poly_carry.
  apply (wp_for_loop (fun j '(o, v) => zlen o = 17 /\ (forall k, 0 <= k < j -> 0 <= znth o k <= 255) /\ (forall k, j <= k < 17 -> znth o k = znth h k) /\ 0 <= v <= (if j =? 0 then 2 ^ 31 else 2 ^ 24) /\ bps 256 o j + 256 ^ j * v = bps 256 h j + u)); [lia| | |].
  - split; [exact Lh|]. split; [lia|]. split; [reflexivity|]. split; [cbn [Z.eqb]; lia|]. rewrite !bps_0. lia.
  - intros j [o v] Hj (Lo & Bo & Eo & Bv & V). apply wp_bind, wp_rd; [lia|]. rewrite Eo by lia. pose proof (Hh j ltac:(lia)). assert (0 <= v <= 2 ^ 31) by (destruct (j =? 0); lia).
    rewrite uw_small by (assumption || lia). set (s := v + znth h j) in *. assert (0 <= s <= 2 ^ 31 + 2 ^ 29) by lia.
    rewrite land255, shr8. pose proof (Z.div_mod s 256 ltac:(lia)). pose proof (Z.mod_pos_bound s 256 ltac:(lia)).
    apply wp_bind, wp_wr; [lia|]. apply wp_ret. split; [now rewrite zlen_zupd|]. split; [intros k Hk; rewrite znth_zupd by lia; destruct (Z.eqb_spec k j); [lia|apply Bo; lia]|].
    split; [intros k Hk; rewrite znth_zupd_other by lia; apply Eo; lia|]. split; [destruct (Z.eqb_spec (j + 1) 0); lia|].
    rewrite !bps_succ by (rewrite ?zlen_zupd; lia). rewrite bps_zupd_ge, znth_zupd_same, p256p by lia. set (P := 256 ^ j) in *. set (A := bps 256 o j) in *. clearbody P A.
    transitivity (A + P * s); [|unfold s; lia]. rewrite (Z.div_mod s 256) at 3 by lia. ring.
  - intros [o v] (Lo & Bo & Eo & Bv & V). cbn [Z.eqb] in Bv. split; [exact Lo|]. split; [exact Bo|]. split; [apply Eo; lia|]. split; [exact Bv|exact V].
Qed.
Lemma bval17 l : zlen l = 17 -> bval 256 l = bps 256 l 16 + 256 ^ 16 * znth l 16.
Proof. intros L. rewrite <- (bps_full 256 l 17) by lia. change 17 with (16 + 1) at 1. now rewrite bps_succ by lia. Qed.
(** the accumulator between blocks *)
Definition polyst (h : list Z) (a : Z) : Prop :=
  zlen h = 17 /\ (forall k, 0 <= k < 16 -> 0 <= znth h k <= 255) /\ 0 <= znth h 16 <= 4 /\ bval 256 h mod poly_p = a mod poly_p.
Lemma polyst_limbs h a : polyst h a -> limbs 255 h.
Proof. intros (L & B & T & _). split; [exact L|]. intros i Hi. destruct (Z.eq_dec i 16); [subst; lia|apply B; lia]. Qed.
Lemma bps16_range l : zlen l = 17 -> (forall k, 0 <= k < 16 -> 0 <= znth l k <= 255) -> 0 <= bps 256 l 16 < 256 ^ 16.
Proof.
  intros L B. assert (LB: limbs 255 (zupd l 16 0)) by (split; [now rewrite zlen_zupd|]; intros i Hi; rewrite znth_zupd by lia; destruct (Z.eqb_spec i 16); [lia|apply B; lia]).
  pose proof (bps_limbs 255 _ 16 LB ltac:(lia) ltac:(lia)) as R. rewrite bps_zupd_ge in R by lia. exact R.
Qed.
Lemma red_arith P b1 b2 x0 x16 u1 u2 s : 2 ^ 31 < P -> 0 <= b1 < P -> 0 <= b2 < P -> s = u1 + x16 -> 0 <= s <= 2 ^ 29 -> b1 + P * u1 = x0 -> b2 + P * u2 = b1 + 5 * (s / 4) ->
  u2 <= 1 /\ (b2 + P * (u2 + s mod 4)) mod (4 * P - 5) = (x0 + P * x16) mod (4 * P - 5).
Proof.
  intros HP R1 R2 Es Bs V1 V2. pose proof (Z.div_mod s 4 ltac:(lia)) as DM. pose proof (Z.mod_pos_bound s 4 ltac:(lia)) as MB. set (q := s / 4) in *. set (t := s mod 4) in *. clearbody q t. split.
  - destruct (Z.le_gt_cases u2 1) as [|G]; [assumption|]. exfalso. assert (P * 2 <= P * u2) by (apply Z.mul_le_mono_nonneg_l; lia). lia.
  - replace (x0 + P * x16) with (b2 + P * (u2 + t) + q * (4 * P - 5)); [rewrite Z.mod_add by lia; reflexivity|].
    subst x0. replace x16 with (s - u1) by lia. rewrite DM. replace b1 with (b2 + P * u2 - 5 * q) by lia. ring.
Qed.
Lemma reduce_ok w x v : word_size w -> zlen x = 17 -> (forall i, 0 <= i < 17 -> 0 <= znth x i <= 17 * (255 * (320 * 255))) -> bval 256 x mod poly_p = v mod poly_p ->
  wp ('(h, u) <- poly_carry w x 0 ;;
  a <- rd 0 h 16 ;; let u := uw w (u + a) in
  h <- wr h 16 (Z.land u 3) ;;
  let u := uw w (5 * Z.shiftr u 2) in
  '(h, u) <- poly_carry w h u ;;
  a <- rd 0 h 16 ;;
  wr h 16 (uw w (u + a))) (fun h => polyst h v).
Proof.
  intros W Lx Bx V. apply wp_bind. eapply wp_mono; [apply (poly_carry_ok w x 0 (2 ^ 29)); [exact W|split; [exact Lx|intros i Hi; pose proof (Bx i Hi); lia]|lia|lia]|].
  intros [h1 u1] (L1 & B1 & E1 & U1 & V1). cbv beta iota zeta. apply wp_bind, wp_rd; [lia|]. rewrite E1. pose proof (Bx 16 ltac:(lia)) as Bx16. rewrite uw_small by (assumption || lia).
  set (s := u1 + znth x 16) in *. assert (0 <= s <= 2 ^ 29) by lia. apply wp_bind, wp_wr; [lia|]. change 3 with (Z.ones 2). rewrite Z.land_ones, Z.shiftr_div_pow2 by lia. change (2 ^ 2) with 4.
  pose proof (Z.div_mod s 4 ltac:(lia)) as DM. pose proof (Z.mod_pos_bound s 4 ltac:(lia)) as MB. rewrite uw_small by (assumption || lia).
  assert (Ls: limbs 255 (zupd h1 16 (s mod 4))) by (split; [now rewrite zlen_zupd|]; intros i Hi; rewrite znth_zupd by lia; destruct (Z.eqb_spec i 16); [lia|apply B1; lia]).
  apply wp_bind. eapply wp_mono; [apply (poly_carry_ok w _ (5 * (s / 4)) 255); [exact W|exact Ls|lia|lia]|].
  intros [h2 u2] (L2 & B2 & E2 & U2 & V2). cbv beta iota zeta. rewrite znth_zupd_same in E2 by lia. rewrite bps_zupd_ge in V2 by lia. apply wp_bind, wp_rd; [lia|]. rewrite E2, uw_small by (assumption || lia).
  pose proof (bps16_range h1 L1 B1) as R1. pose proof (bps16_range h2 L2 B2) as R2.
  assert (HP: 2 ^ 31 < 256 ^ 16) by (vm_compute; reflexivity).
  destruct (red_arith (256 ^ 16) (bps 256 h1 16) (bps 256 h2 16) (bps 256 x 16) (znth x 16) u1 u2 s HP R1 R2 eq_refl ltac:(lia) ltac:(rewrite V1; ring) V2) as [U M]. rewrite (bval17 x) in V by lia.
  clear HP R1 R2 V1 V2. apply wp_wr; [lia|].
  split; [now rewrite zlen_zupd|]. split; [intros k Hk; rewrite znth_zupd_other by lia; now apply B2|]. split; [rewrite znth_zupd_same by lia; clear - U U2 MB; lia|].
  rewrite <- V, bval17 by (rewrite zlen_zupd; exact L2). rewrite bps_zupd_ge, znth_zupd_same by lia. exact M.
Qed.

(** one block *)
Lemma fill_ok (m : list Z) off n l : 0 <= off -> 0 <= n -> off + n <= zlen m -> n <= zlen l ->
  for_loop n (fun i c => a <- rd 0 m (off + i) ;; wr c i a) l = Ret (slice m off n ++ slice l n (zlen l - n)).
Proof.
  intros Ho Hn HL HLl. apply wp_is. apply (wp_for_loop (fun i c => c = slice m off i ++ slice l i (zlen l - i))); [lia| | |].
  - rewrite slice_0, Z.sub_0_r. now rewrite slice_all.
  - intros i c Hi ->. apply wp_bind, wp_rd; [lia|]. pose proof (zlen_nonneg l). apply wp_wr; [rewrite zlen_app, !zlen_slice by lia; lia|].
    rewrite slice_snoc by lia. rewrite <- app_assoc. rewrite (slice_cons l i) by lia. unfold zupd. set (y := nth (Z.to_nat i) l 0). replace (Z.to_nat i) with (length (slice m off i)) by (pose proof (zlen_slice m off i ltac:(lia) ltac:(lia) ltac:(lia)) as E; unfold zlen in E; lia). rewrite upd_app_r.
    cbn [app]. f_equal. f_equal. f_equal; lia.
  - intros c ->. reflexivity.
Qed.
Lemma slice_zeros n o k : 0 <= o -> 0 <= k -> o + k <= n -> slice (zeros n) o k = zeros k.
Proof.
  intros Ho Hk HL. apply list_ext_z.
  - rewrite zlen_slice; [rewrite zlen_zeros; lia|lia|lia|rewrite zlen_zeros; lia].
  - intros i Hi. rewrite znth_zeros. rewrite zlen_slice in Hi by (rewrite ?zlen_zeros; lia). pose proof (ix_slice (zeros n) o k i Ho ltac:(lia)) as E. unfold ix in E. unfold znth. rewrite E. apply znth_zeros.
Qed.
Lemma zeros_cons n : 0 < n -> zeros n = 0 :: zeros (n - 1).
Proof. intros H. unfold zeros. replace (Z.to_nat n) with (S (Z.to_nat (n - 1))) by lia. reflexivity. Qed.
Lemma block_limbs m off j : 0 <= off -> 0 <= j <= 16 -> off + j <= zlen m -> bytes_ok m ->
  wp (c <- for_loop j (fun i c => a <- rd 0 m (off + i) ;; wr c i a) (zeros 17) ;; wr c j 1)
  (fun c => limbs 255 c /\ bval 256 c = le_val (slice m off j ++ [1]) /\ 0 <= bval 256 c < 2 * 256 ^ 16).
Proof.
  intros Ho Hj HL Bm. rewrite fill_ok by (rewrite ?zlen_zeros; lia). cbn [bind]. rewrite zlen_zeros, slice_zeros by lia.
  assert (Ls: zlen (slice m off j) = j) by (apply zlen_slice; lia).
  apply wp_wr; [rewrite zlen_app, zlen_zeros; lia|]. replace (zeros (17 - j)) with (0 :: zeros (16 - j)) by (rewrite (zeros_cons (17 - j)) by lia; f_equal; f_equal; lia).
  unfold zupd. replace (Z.to_nat j) with (length (slice m off j)) by (unfold zlen in Ls; lia). rewrite upd_app_r.
  assert (BS: bytes_ok (slice m off j)) by (now apply bytes_ok_slice).
  assert (BA: bytes_ok (slice m off j ++ 1 :: zeros (16 - j))).
  { apply bytes_ok_app. split; [exact BS|]. constructor; [unfold byte_ok; lia|]. apply bytes_ok_znth. intros i Hi. rewrite znth_zeros. unfold byte_ok; lia. }
  assert (LA: zlen (slice m off j ++ 1 :: zeros (16 - j)) = 17) by (rewrite zlen_app, zlen_cons, zlen_zeros; lia).
  assert (EV: bval 256 (slice m off j ++ 1 :: zeros (16 - j)) = le_val (slice m off j ++ [1])) by (rewrite le_val_bval, !bval_app; cbn [bval]; rewrite bval_zeros; ring).
  split; [|split; [exact EV|]].
  - split; [exact LA|]. intros i Hi. rewrite bytes_ok_znth in BA. specialize (BA i ltac:(lia)). unfold byte_ok in BA. lia.
  - rewrite EV, le_val_bval, bval_app, <- le_val_bval. pose proof (le_val_range _ BS) as R. rewrite Ls in *. cbn [bval]. rewrite Z.mul_0_r, Z.add_0_r, Z.mul_1_r. assert (256 ^ j <= 256 ^ 16) by (apply Z.pow_le_mono_r; lia). lia.
Qed.
Lemma mulp_cong a b c : (a * b - poly_p * c) mod poly_p = (a * b) mod poly_p.
Proof. replace (a * b - poly_p * c) with (a * b + (- c) * poly_p) by ring. rewrite Z.mod_add by (vm_compute; discriminate). reflexivity. Qed.
Lemma poly_block_ok w m off n r h a : word_size w -> bytes_ok m -> 0 <= off -> 0 <= n -> off + Z.min 16 n <= zlen m -> limbs 255 r -> polyst h a ->
  wp (poly_block w m off n r h) (fun h' => polyst h' ((a + le_val (slice m off (Z.min 16 n) ++ [1])) * bval 256 r)).
Proof.
  intros W Bm Ho Hn HL Hr Hh. unfold poly_block. set (j := Z.min 16 n) in *. assert (Hj: 0 <= j <= 16) by lia. clearbody j. pose proof (block_limbs m off j Ho Hj HL Bm) as BL. apply wp_ex in BL as (c & Ec & Lc & Vc & Rc).
  cbv zeta. destruct (for_loop j _ (zeros 17)) as [c0|]; [|discriminate Ec]. cbn [bind] in Ec |- *. rewrite Ec. cbn [bind].
  apply wp_bind. eapply wp_mono; [apply (add1305_ok w h c 255 W (polyst_limbs _ _ Hh) Lc); lia|]. intros s (Ls & Vs). cbv beta.
  destruct Hh as (Lh & Bh & Th & Mh). pose proof (bps16_range h Lh Bh) as Rh. rewrite Z.mod_small in Vs.
  2:{ rewrite bval17 by exact Lh. replace (256 ^ 17) with (256 * 256 ^ 16) by reflexivity. set (P := 256 ^ 16) in *. clearbody P. nia. }
  apply wp_bind. eapply wp_mono; [apply (poly_mul_ok w s r W Ls Hr)|]. intros x (Lx & Hx). cbv beta.
  destruct (mul_value s r x) as (q & Eq); [apply Ls|apply Hr|exact Lx|intros i Hi; apply Hx; exact Hi|].
  apply reduce_ok; [exact W|exact Lx|intros i Hi; apply Hx; exact Hi|].
  rewrite Eq, mulp_cong, Vs, Vc. rewrite Z.mul_mod by (vm_compute; discriminate). rewrite (Z.add_mod (bval 256 h)) by (vm_compute; discriminate). rewrite Mh. rewrite <- Z.add_mod, <- Z.mul_mod by (vm_compute; discriminate). reflexivity.
Qed.

(** the clamped multiplier *)
Lemma testbit_cons x a n : 0 <= x < 256 -> 0 <= n -> Z.testbit (x + 256 * a) n = if n <? 8 then Z.testbit x n else Z.testbit a (n - 8).
Proof.
  intros Hx Hn. destruct (Z.ltb_spec n 8).
  - rewrite <- (Z.mod_pow2_bits_low (x + 256 * a) 8 n) by lia. f_equal. change (2 ^ 8) with 256. rewrite (Z.mul_comm 256), Z.mod_add by lia. now apply Z.mod_small.
  - replace a with ((x + 256 * a) / 2 ^ 8) at 2.
    + rewrite Z.div_pow2_bits by lia. f_equal. lia.
    + change (2 ^ 8) with 256. rewrite (Z.mul_comm 256), Z.div_add, Z.div_small by lia. lia.
Qed.
Lemma land_byte x y : 0 <= x < 256 -> 0 <= Z.land x y < 256.
Proof.
  intros H. replace x with (Z.land x 255) by (change 255 with (Z.ones 8); rewrite Z.land_ones by lia; now apply Z.mod_small). rewrite <- Z.land_assoc, (Z.land_comm 255), Z.land_assoc. rewrite land255. apply Z.mod_pos_bound. lia.
Qed.
Lemma le_val_land : forall a b, bytes_ok a -> bytes_ok b -> length a = length b -> le_val (map2 Z.land a b) = Z.land (le_val a) (le_val b).
Proof.
  induction a as [|x a IH]; intros [|y b] Ha Hb HL; try discriminate HL; [reflexivity|]. inversion Ha; subst. inversion Hb; subst. cbn [map2 le_val]. rewrite IH by (try assumption; now injection HL).
  unfold byte_ok in *. apply Z.bits_inj'. intros n Hn. rewrite Z.land_spec, !testbit_cons by (try lia; now apply land_byte). destruct (n <? 8); now rewrite Z.land_spec.
Qed.
Definition clamp_bytes : list Z := [255;255;255;15;252;255;255;15;252;255;255;15;252;255;255;15].
Lemma fill0_ok (m : list Z) n l : 0 <= n -> n <= zlen m -> n <= zlen l ->
  for_loop n (fun i c => a <- rd 0 m i ;; wr c i a) l = Ret (slice m 0 n ++ slice l n (zlen l - n)).
Proof. intros Hn HL HLl. exact (fill_ok m 0 n l ltac:(lia) Hn HL HLl). Qed.
Lemma poly_r_ok k : 16 <= zlen k -> bytes_ok k -> wp (poly_r k) (fun r => limbs 255 r /\ bval 256 r = poly_clamp (le_val (slice k 0 16))).
Proof.
  intros Lk Bk. unfold poly_r. rewrite fill0_ok by (rewrite ?zlen_zeros; lia). cbn [bind]. rewrite zlen_zeros, slice_zeros by lia. change (zeros (17 - 16)) with [0].
  assert (Ls: length (slice k 0 16) = 16%nat) by (pose proof (zlen_slice k 0 16 ltac:(lia) ltac:(lia) ltac:(lia)) as E; unfold zlen in E; lia).
  assert (Bs: bytes_ok (slice k 0 16)) by (now apply bytes_ok_slice). set (s := slice k 0 16) in *. clearbody s. clear Lk Bk k.
  unfold poly_clamp. change 0x0ffffffc0ffffffc0ffffffc0fffffff with (le_val clamp_bytes). rewrite <- le_val_land; [|exact Bs|repeat constructor; unfold byte_ok; lia|exact Ls].
  assert (Bl: limbs 255 (map2 Z.land s clamp_bytes ++ [0])).
  { split; [rewrite zlen_app; unfold zlen; rewrite map2_length by exact Ls; rewrite Ls; reflexivity|]. intros i Hi. apply (Forall_ix (fun x => 0 <= x <= 255)); [|unfold zlen; rewrite app_length, map2_length by exact Ls; rewrite Ls; cbn; lia].
    apply Forall_app. split; [|repeat constructor; lia]. clear Hi. revert Ls. generalize clamp_bytes. change 16%nat with (length clamp_bytes). generalize clamp_bytes. intros l1 l HL. clear HL. revert l. induction Bs as [|x s Hx _ IH]; intros [|y l]; cbn [map2]; constructor; [pose proof (land_byte x y Hx); lia|apply IH]. }
  destruct s as [|b0 s]; [discriminate Ls|]. do 15 (destruct s as [|? s]; [discriminate Ls|]). destruct s; [|discriminate Ls].
  assert (E: forall x, byte_ok x -> Z.land x 255 = x) by (intros x Hx; rewrite land255; apply Z.mod_small; exact Hx).
  repeat match goal with H : bytes_ok (_ :: _) |- _ => inversion H; clear H; subst | H : Forall byte_ok (_ :: _) |- _ => inversion H; clear H; subst end.
  unfold clamp_bytes in *. cbn [map2] in *. rewrite !E in * by assumption. cbn [app] in *.
  apply wp_eq with (a := [b0; z; z0; Z.land z1 15; Z.land z2 252; z3; z4; Z.land z5 15; Z.land z6 252; z7; z8; Z.land z9 15; Z.land z10 252; z11; z12; Z.land z13 15; 0]); [reflexivity|].
  split; [exact Bl|]. rewrite le_val_bval. cbn [bval]. ring.
Qed.
