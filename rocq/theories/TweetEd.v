(** crypto_sign_keypair_seed, crypto_sign and crypto_sign_open of tweetnacl.c against RFC 8032. *)
From Verif Require Import Base Wp NumTheory EdSpec EdCurve EdExt Sha512Spec EdSig Tweet TweetField TweetField2 TweetCurve TweetModL TweetSha EdDecode.
From Coq Require Import Znumtheory Setoid Morphisms.
Ltac Zify.zify_post_hook ::= Z.div_mod_to_equations.

Lemma pre_slice l n : pre l n = slice l 0 n. Proof. reflexivity. Qed.
Lemma zlen_le_bytes n v : zlen (le_bytes n v) = Z.of_nat n. Proof. unfold zlen. now rewrite le_bytes_length. Qed.

(** ** clamping *)
Lemma byte_cases (f : Z -> bool) : forallb f (map Z.of_nat (seq 0 256)) = true -> forall b, 0 <= b < 256 -> f b = true.
Proof. intros H b Hb. rewrite forallb_forall in H. apply H. apply in_map_iff. exists (Z.to_nat b). split; [lia|]. apply in_seq. lia. Qed.
Lemma land_248 b : 0 <= b < 256 -> Z.land b 248 = 8 * (b / 8).
Proof. intros H. apply Z.eqb_eq. apply (byte_cases (fun b => Z.land b 248 =? 8 * (b / 8))); [reflexivity|exact H]. Qed.
Lemma clamp_31 b : 0 <= b < 256 -> Z.lor (Z.land b 127) 64 = 64 + b mod 64.
Proof. intros H. apply Z.eqb_eq. apply (byte_cases (fun b => Z.lor (Z.land b 127) 64 =? 64 + b mod 64)); [reflexivity|exact H]. Qed.
Lemma clamp_arith d0 M d31 : 0 <= d0 < 256 -> 0 <= M < 2 ^ 240 -> 0 <= d31 < 256 ->
  8 * (d0 / 8) + 256 * M + 2 ^ 248 * (64 + d31 mod 64) = 2 ^ 254 + 8 * (((d0 + 256 * M + 2 ^ 248 * d31) mod 2 ^ 254) / 8).
Proof.
  intros H0 HM H1. change (2 ^ 254) with (2 ^ 248 * 64).
  replace ((d0 + 256 * M + 2 ^ 248 * d31) mod (2 ^ 248 * 64)) with (d0 + 256 * M + 2 ^ 248 * (d31 mod 64)) by lia. lia.
Qed.
Lemma clamp_ok d : zlen d = 64 -> bytes_ok d ->
  wp (clamp d) (fun e => zlen e = 64 /\ bytes_ok e /\ slice e 32 32 = slice d 32 32 /\ le_val (pre e 32) = 2 ^ 254 + 8 * ((le_val (slice d 0 32) mod 2 ^ 254) / 8)).
Proof.
  intros Ld Bd. unfold clamp. apply wp_bind, wp_rd; [lia|]. pose proof (byte_at d 0 Bd ltac:(lia)) as H0. pose proof (byte_at d 31 Bd ltac:(lia)) as H31. set (d0 := znth d 0) in *. rewrite land_248 by exact H0.
  apply wp_bind, wp_wr; [lia|]. assert (L1: zlen (zupd d 0 (8 * (d0 / 8))) = 64) by (rewrite zlen_zupd; exact Ld). apply wp_bind, wp_rd; [lia|]. rewrite znth_zupd_other by lia. set (d31 := znth d 31) in *.
  apply wp_bind, wp_wr; [lia|]. apply wp_bind, wp_rd; [rewrite zlen_zupd; lia|]. rewrite znth_zupd_same by lia. apply wp_wr; [rewrite zlen_zupd; lia|].
  set (d1 := zupd d 0 (8 * (d0 / 8))) in *. set (d2 := zupd d1 31 (Z.land d31 127)). assert (L2: zlen d2 = 64) by (unfold d2; rewrite zlen_zupd; exact L1).
  rewrite clamp_31 by exact H31.
  split; [rewrite zlen_zupd; exact L2|]. split; [|split].
  - unfold d2, d1, zupd. apply bytes_ok_upd; [apply bytes_ok_upd; [apply bytes_ok_upd; [exact Bd|]|]|]; unfold byte_ok; try lia. change 127 with (Z.ones 7). rewrite Z.land_ones by lia. change (2 ^ 7) with 128. lia.
  - apply list_ext_z; [rewrite !zlen_slice; rewrite ?zlen_zupd; lia|]. rewrite zlen_slice by (rewrite ?zlen_zupd; lia). intros i Hi. unfold znth. rewrite !nth_slice by lia. replace (Z.to_nat 32 + Z.to_nat i)%nat with (Z.to_nat (32 + i)) by lia. fold (znth d (32 + i)). change (nth (Z.to_nat (32 + i)) (zupd d2 31 (64 + d31 mod 64)) 0) with (znth (zupd d2 31 (64 + d31 mod 64)) (32 + i)).
    rewrite znth_zupd_other by lia. unfold d2. rewrite znth_zupd_other by lia. unfold d1. rewrite znth_zupd_other by lia. reflexivity.
  - rewrite <- pre_slice, !le_val_bval. change (bps 256 (zupd d2 31 (64 + d31 mod 64)) 32 = 2 ^ 254 + 8 * ((bps 256 d 32 mod 2 ^ 254) / 8)).
    rewrite bps_zupd by lia. unfold d2 at 2. rewrite znth_zupd_same by lia. unfold d2. rewrite bps_zupd by lia. unfold d1 at 2. rewrite znth_zupd_other by lia. fold d31. unfold d1. rewrite bps_zupd by lia. fold d0.
    pose proof (bps_succ 256 d 31 ltac:(lia)) as E. change (31 + 1) with 32 in E. fold d31 in E.
    assert (E1: exists M, bps 256 d 31 = d0 + 256 * M /\ 0 <= M < 2 ^ 240).
    { assert (R: 0 <= bps 256 d 31 < 2 ^ 248). { unfold bps. rewrite <- le_val_bval. pose proof (le_val_range (pre d 31) (bytes_ok_pre d 31 Bd)) as R. rewrite zlen_pre in R by lia. exact R. }
      unfold bps, pre in *. change (Z.to_nat 31) with 31%nat in *. destruct d as [|h t]; [cbn in Ld; discriminate|]. cbn [firstn bval] in *. unfold d0, znth in *. change (Z.to_nat 0) with 0%nat in *. cbn [nth] in *. eexists. split; [reflexivity|]. lia. }
    destruct E1 as (M & E1 & HM). rewrite E1 in E. rewrite E. change (256 ^ 31) with (2 ^ 248). change (256 ^ 0) with 1. rewrite <- clamp_arith by assumption. ring.
Qed.

(** ** reduction of a 64-byte value *)
Lemma fill_ok r n : 0 <= n <= 64 -> n <= zlen r -> for_loop n (fun i x => b <- rd 0 r i ;; wr x i b) (zeros 64) = Ret (slice r 0 n ++ zeros (64 - n)).
Proof.
  intros Hn Lr. pose proof (zlen_zeros 64 ltac:(lia)) as LZ. pose proof (copy_is_loop (zeros 64) 0 r 0 n ltac:(lia) ltac:(lia) ltac:(lia) ltac:(lia)) as E. unfold copy_loop in E. cbn [Z.add] in E. etransitivity; [symmetry; exact E|]. rewrite copy_ok by lia. rewrite slice_0. cbn [app]. rewrite LZ, Z.sub_0_r, Z.add_0_l. do 2 f_equal.
  apply list_ext_z; [rewrite zlen_slice, zlen_zeros; lia|]. rewrite zlen_slice by lia. intros i Hi. rewrite znth_zeros. unfold znth. rewrite nth_slice by lia. unfold zeros. apply nth_repeat.
Qed.
Lemma ed_reduce_ok r : zlen r = 64 -> bytes_ok r -> ed_reduce r = Ret (le_bytes 32 (le_val r mod edL) ++ zeros 32).
Proof.
  intros Lr Br. unfold ed_reduce. rewrite fill_ok by lia. cbn [bind]. change (64 - 64) with 0. unfold zeros at 1. cbn [repeat Z.to_nat]. rewrite app_nil_r, slice_all by lia.
  rewrite modL_ok; [|exact Lr|intros j Hj; pose proof (byte_at r j Br ltac:(lia)); lia]. cbn [bind]. rewrite <- le_val_bval. pose proof (zlen_zeros 64 ltac:(lia)) as LZ. pose proof (zlen_le_bytes 32 (le_val r mod edL)) as LB. rewrite copy_ok by lia. rewrite slice_0, slice_all by lia. cbn [app]. reflexivity.
Qed.
Lemma pre_app_all a b n : zlen a = n -> pre (a ++ b) n = a.
Proof. intros <-. rewrite pre_slice. pose proof (zlen_nonneg a). rewrite slice_app_l by lia. apply slice_all. reflexivity. Qed.
Lemma edL_lt : 0 < edL < 2 ^ 253. Proof. split; vm_compute; reflexivity. Qed.
Lemma modL_range v : 0 <= v mod edL < 2 ^ 253.
Proof. pose proof edL_lt. pose proof (Z.mod_pos_bound v edL). lia. Qed.
Lemma le_val_modL v : le_val (le_bytes 32 (v mod edL)) = v mod edL.
Proof. apply le_val_bytes. pose proof (modL_range v). change (256 ^ Z.of_nat 32) with (2 ^ 256). lia. Qed.

(** ** the product loop of crypto_sign *)
Definition prod_loop (h d x : list Z) : outcome (list Z) :=
  for_loop 32 (fun i x => for_loop 32 (fun j x =>
         hi <- rd 0 h i ;; dj <- rd 0 d j ;; u <- rd 0 x (i + j) ;;
         wr x (i + j) (i64 (u64 (u + u64 (hi * dj))))) x) x.
Lemma i64_mac u p : 0 <= u + p < 2 ^ 63 -> i64 (u64 (u + u64 p)) = u + p.
Proof. intros H. rewrite i64_u64. destruct (u64_def p) as [k E]. rewrite E. rewrite <- (i64_small (u + p)) by lia. unfold i64. f_equal. replace (u + (p + k * 2 ^ 64) + 2 ^ 63) with (u + p + 2 ^ 63 + k * 2 ^ 64) by ring. apply Z.mod_add. lia. Qed.
Lemma prod_inner h d i x V : 32 <= zlen h -> 32 <= zlen d -> bytes_ok h -> bytes_ok d -> 0 <= i < 32 -> zlen x = 64 ->
  (forall k, 0 <= k < 64 -> 0 <= znth x k <= 255 + 65025 * i) -> bval 256 x = V ->
  wp (for_loop 32 (fun j x => hi <- rd 0 h i ;; dj <- rd 0 d j ;; u <- rd 0 x (i + j) ;; wr x (i + j) (i64 (u64 (u + u64 (hi * dj))))) x)
     (fun y => zlen y = 64 /\ (forall k, 0 <= k < 64 -> 0 <= znth y k <= 255 + 65025 * (i + 1)) /\ bval 256 y = V + 256 ^ i * (znth h i * bps 256 d 32)).
Proof.
  intros Lh Ld Bh Bd Hi Lx Hx HV. pose proof (byte_at h i Bh ltac:(lia)) as Hh. set (hi := znth h i) in *.
  apply (wp_for_loop (fun j y => zlen y = 64 /\ (forall k, 0 <= k < 64 -> 0 <= znth y k <= 255 + 65025 * (if k <? i + j then i + 1 else i)) /\ bval 256 y = V + 256 ^ i * (hi * bps 256 d j))); [lia| | |].
  - split; [exact Lx|]. split; [|rewrite bps_0, HV; ring]. intros k Hk. specialize (Hx k Hk). destruct (k <? i + 0); lia.
  - intros j y Hj (Ly & By & Vy). apply wp_bind, wp_rd; [lia|]. fold hi. apply wp_bind, wp_rd; [lia|]. pose proof (byte_at d j Bd ltac:(lia)) as Hd. set (dj := znth d j) in *. apply wp_bind, wp_rd; [lia|].
    pose proof (By (i + j) ltac:(lia)) as Hu. replace (i + j <? i + j) with false in Hu by lia. set (u := znth y (i + j)) in *. assert (0 <= hi * dj <= 65025) by nia. rewrite i64_mac by lia. apply wp_wr; [lia|].
    split; [now rewrite zlen_zupd|]. split.
    + intros k Hk. rewrite znth_zupd by lia. destruct (Z.eqb_spec k (i + j)) as [->|N]; [replace (i + j <? i + (j + 1)) with true by lia; lia|]. specialize (By k Hk). replace (k <? i + (j + 1)) with (k <? i + j) by lia. exact By.
    + rewrite bval_zupd by lia. fold u. rewrite Vy, bps_succ by lia. fold dj. rewrite Z.pow_add_r by lia. ring.
  - intros y (Ly & By & Vy). split; [exact Ly|]. split; [|exact Vy]. intros k Hk. specialize (By k Hk). destruct (k <? i + 32); lia.
Qed.
Lemma prod_ok h d x : 32 <= zlen h -> 32 <= zlen d -> bytes_ok h -> bytes_ok d -> zlen x = 64 -> bytes_ok x ->
  wp (prod_loop h d x) (fun y => zlen y = 64 /\ (forall k, 0 <= k < 64 -> 0 <= znth y k <= 2 ^ 21) /\ bval 256 y = bval 256 x + bps 256 h 32 * bps 256 d 32).
Proof.
  intros Lh Ld Bh Bd Lx Bx. unfold prod_loop.
  apply (wp_for_loop (fun i y => zlen y = 64 /\ (forall k, 0 <= k < 64 -> 0 <= znth y k <= 255 + 65025 * i) /\ bval 256 y = bval 256 x + bps 256 h i * bps 256 d 32)); [lia| | |].
  - split; [exact Lx|]. split; [|rewrite bps_0; ring]. intros k Hk. pose proof (byte_at x k Bx ltac:(lia)). lia.
  - intros i y Hi (Ly & By & Vy). eapply wp_mono; [apply prod_inner; try eassumption; reflexivity|]. intros z (Lz & Bz & Vz). split; [exact Lz|]. split; [exact Bz|]. rewrite Vz, bps_succ by lia. ring.
  - intros y (Ly & By & Vy). split; [exact Ly|]. split; [|exact Vy]. intros k Hk. specialize (By k Hk). lia.
Qed.

(** ** key generation *)
Lemma ed_keypair_seed_ok seed : zlen seed = 32 -> bytes_ok seed -> ed_keypair_seed seed = Ret (0, ed_public seed, seed ++ ed_public seed).
Proof.
  intros Ls Bs. apply wp_is. unfold ed_keypair_seed. pose proof (zlen_zeros 64 ltac:(lia)) as LZ. rewrite copy_ok by lia. cbn [bind]. rewrite slice_0, slice_all by lia. cbn [app].
  set (z := slice (zeros 64) (0 + 32) (zlen (zeros 64) - 0 - 32)). assert (Lz: zlen z = 32) by (unfold z; rewrite zlen_slice; lia). assert (Bz: bytes_ok z) by (apply bytes_ok_slice, bytes_ok_zeros). clearbody z.
  rewrite crypto_hash_ok; [|apply bytes_ok_app; now split|lia|lia|rewrite zlen_app; lia]. cbn [bind]. rewrite slice_app_l, slice_all by lia.
  apply wp_bind. eapply wp_mono; [apply clamp_ok; [apply sha512_len|apply sha512_bytes]|]. intros d (Ld & Bd & _ & Vd). cbv beta.
  apply wp_bind. eapply wp_mono; [apply scalarbase_ok; [lia|exact Bd]|]. intros p Rp. cbv beta. rewrite Vd in Rp. fold (ed_scalar seed) in Rp.
  apply wp_bind. eapply wp_mono; [eapply ed_pack_ok; [exact Rp|lia]|]. intros pk ->. cbv beta. fold (ed_public seed). assert (LP: zlen (ed_public seed) = 32) by apply zlen_penc.
  rewrite copy_ok by (rewrite ?zlen_app; lia). cbn [bind]. apply wp_ret. rewrite zlen_app, slice_app_l, !slice_all by lia. rewrite slice_neg by lia. now rewrite app_nil_r.
Qed.

(** ** signing *)
Lemma copy_mid a b c src soff : zlen b <= zlen src - soff -> 0 <= soff -> copy (a ++ b ++ c) (zlen a) src soff (zlen b) = Ret (a ++ slice src soff (zlen b) ++ c).
Proof.
  intros H Hs. pose proof (zlen_nonneg a). pose proof (zlen_nonneg b). pose proof (zlen_nonneg c). rewrite copy_ok by (rewrite ?zlen_app; lia). rewrite slice_app_l, slice_all by lia. rewrite !zlen_app. rewrite slice_app_r by lia. replace (zlen a + zlen b - zlen a) with (zlen b) by lia. rewrite slice_app_r by lia. rewrite Z.sub_diag. rewrite slice_all by lia. reflexivity.
Qed.
Lemma copy_at a b c src soff off n : off = zlen a -> n = zlen b -> zlen b <= zlen src - soff -> 0 <= soff -> copy (a ++ b ++ c) off src soff n = Ret (a ++ slice src soff n ++ c).
Proof. intros -> ->. apply copy_mid. Qed.
Lemma copy_at0 b c src soff n : n = zlen b -> zlen b <= zlen src - soff -> 0 <= soff -> copy (b ++ c) 0 src soff n = Ret (slice src soff n ++ c).
Proof. intros. apply (copy_at [] b c src soff 0 n); [reflexivity|lia|lia|lia]. Qed.
Lemma slice_mid0 (b c : list Z) n : n = zlen b -> slice (b ++ c) 0 n = b.
Proof. intros ->. pose proof (zlen_nonneg b). rewrite slice_app_l by lia. apply slice_all. reflexivity. Qed.
Lemma slice_mid (a b c : list Z) off n : off = zlen a -> n = zlen b -> slice (a ++ b ++ c) off n = b.
Proof. intros -> ->. pose proof (zlen_nonneg b). rewrite slice_app_r, Z.sub_diag by lia. rewrite slice_app_l by lia. apply slice_all. reflexivity. Qed.
Lemma u64_id x : 0 <= x < 2 ^ 64 -> u64 x = x. Proof. intros. unfold u64. now apply Z.mod_small. Qed.
Lemma split4 (l : list Z) n : 0 <= n -> 64 + n <= zlen l -> exists a b c t, l = a ++ b ++ c ++ t /\ zlen a = 32 /\ zlen b = 32 /\ zlen c = n /\ t = slice l (64 + n) (zlen l - 64 - n).
Proof.
  intros Hn Hl. exists (slice l 0 32), (slice l 32 32), (slice l 64 n), (slice l (64 + n) (zlen l - 64 - n)). repeat split; try (rewrite zlen_slice; lia).
  rewrite (slice_whole_split l 32) at 1 by lia. f_equal. rewrite (slice_split l 32 (zlen l - 32) 32) by lia. f_equal. change (32 + 32) with 64. rewrite (slice_split l 64 (zlen l - 32 - 32) n) by lia. f_equal. f_equal. lia.
Qed.
Opaque sha512 crypto_hash clamp ed_reduce scalarbase scalarmult ed_pack modL ed_add.
(** [seed] and [pk] are the two halves of the secret key *)
Lemma ed_sign_gen sm m n seed pk : zlen seed = 32 -> bytes_ok seed -> zlen pk = 32 -> bytes_ok pk -> bytes_ok sm -> bytes_ok m ->
  0 <= n -> n <= zlen m -> 64 + n <= zlen sm -> 64 + n < 2 ^ 64 ->
  let M := slice m 0 n in
  ed_sign sm m n (seed ++ pk) = Ret (0, n + 64, ed_sigR seed M ++ le_bytes 32 ((ed_nonce seed M + ed_challenge (ed_sigR seed M) pk M * ed_scalar seed) mod edL) ++ M ++ slice sm (64 + n) (zlen sm - 64 - n)).
Proof.
  intros Ls Bs Lp Bp Bsm Bm Hn Lm Lsm H64 M. assert (LM: zlen M = n) by (apply zlen_slice; lia). assert (BM: bytes_ok M) by (now apply bytes_ok_slice).
  destruct (split4 sm n Hn Lsm) as (a & b & c & t & Esm & La & Lb & Lc & Et). rewrite <- Et. assert (Ball: bytes_ok a /\ bytes_ok b /\ bytes_ok c /\ bytes_ok t) by (rewrite Esm in Bsm; rewrite !bytes_ok_app in Bsm; exact Bsm). destruct Ball as (Ba & Bb & Bc & Bt). clear Et Bsm Lsm. subst sm.
  apply wp_is. unfold ed_sign. rewrite crypto_hash_ok; [|apply bytes_ok_app; now split|lia|lia|rewrite zlen_app; lia]. cbn [bind]. rewrite slice_app_l, (slice_all seed) by lia.
  apply wp_bind. eapply wp_mono; [apply clamp_ok; [apply sha512_len|apply sha512_bytes]|]. intros d (Ld & Bd & Hd & Vd). cbv beta zeta. fold (ed_prefix seed) in Hd. fold (ed_scalar seed) in Vd.
  rewrite (app_assoc a b). rewrite (copy_at (a ++ b) c t m 0 64 n) by (rewrite ?zlen_app; lia). fold M. cbn [bind]. rewrite <- (app_assoc a b).
  rewrite (copy_at a b (M ++ t) d 32 32 32) by lia. cbn [bind]. rewrite Hd. assert (LPf: zlen (ed_prefix seed) = 32) by (rewrite <- Hd; apply zlen_slice; lia). assert (BPf: bytes_ok (ed_prefix seed)) by (rewrite <- Hd; now apply bytes_ok_slice).
  rewrite !u64_id by lia. rewrite crypto_hash_ok; [|repeat (apply bytes_ok_app; split); assumption|lia|lia|rewrite !zlen_app; pose proof (zlen_nonneg t); lia]. cbn [bind].
  rewrite (app_assoc (ed_prefix seed) M t), (slice_mid a (ed_prefix seed ++ M) t 32 (n + 32)) by (rewrite ?zlen_app; lia).
  rewrite ed_reduce_ok by (apply sha512_len || apply sha512_bytes). cbn [bind]. fold (ed_nonce seed M). set (r := ed_nonce seed M).
  assert (Hr: 0 <= r) by (apply le_val_range, sha512_bytes). pose proof (zlen_le_bytes 32 (r mod edL)) as Lr. change (Z.of_nat 32) with 32 in Lr. pose proof (le_bytes_ok 32 (r mod edL)) as Br. pose proof (zlen_zeros 32 ltac:(lia)) as LZ. pose proof (bytes_ok_zeros 32) as BZ.
  apply wp_bind. eapply wp_mono; [apply scalarbase_ok; [rewrite zlen_app; lia|apply bytes_ok_app; now split]|]. intros p Rp. cbv beta. rewrite pre_app_all, le_val_modL in Rp by exact Lr. rewrite smul_mod in Rp by exact Hr.
  apply wp_bind. eapply wp_mono; [eapply ed_pack_ok; [exact Rp|lia]|]. intros R ER. cbv beta in *. change (penc (smul r edB)) with (ed_sigR seed M) in ER. subst R. set (R := ed_sigR seed M). assert (LR: zlen R = 32) by apply zlen_penc. assert (BR: bytes_ok R) by apply penc_bytes.
  rewrite <- (app_assoc (ed_prefix seed) M t). rewrite (copy_at0 a (ed_prefix seed ++ M ++ t) R 0 32) by lia. cbn [bind]. rewrite (slice_all R) by lia.
  rewrite (copy_at R (ed_prefix seed) (M ++ t) (seed ++ pk) 32 32 32) by (rewrite ?zlen_app; lia). cbn [bind]. rewrite (slice_app_r seed pk) by lia. rewrite Ls, (slice_all pk) by lia.
  rewrite crypto_hash_ok; [|repeat (apply bytes_ok_app; split); assumption|lia|lia|rewrite !zlen_app; pose proof (zlen_nonneg t); lia]. cbn [bind].
  replace (R ++ pk ++ M ++ t) with ((R ++ pk ++ M) ++ t) at 1 by (now rewrite <- !app_assoc). rewrite (slice_mid0 (R ++ pk ++ M) t (n + 64)) by (rewrite ?zlen_app; lia || reflexivity).
  rewrite ed_reduce_ok by (apply sha512_len || apply sha512_bytes). cbn [bind]. fold (ed_challenge R pk M). set (k := ed_challenge R pk M). pose proof (zlen_le_bytes 32 (k mod edL)) as Lk. change (Z.of_nat 32) with 32 in Lk. pose proof (le_bytes_ok 32 (k mod edL)) as Bk.
  rewrite fill_ok by (rewrite ?zlen_app; lia). cbn [bind]. rewrite (slice_app_l (le_bytes 32 (r mod edL))), slice_all by lia. change (64 - 32) with 32. fold (prod_loop (le_bytes 32 (k mod edL) ++ zeros 32) d (le_bytes 32 (r mod edL) ++ zeros 32)).
  apply wp_bind. eapply wp_mono; [apply prod_ok; rewrite ?zlen_app; try lia; try (apply bytes_ok_app; now split); assumption|]. intros x (Lx & Bx & Vx). cbv beta.
  rewrite modL_ok by assumption. cbn [bind].
  assert (Ex: bval 256 x mod edL = (r + k * ed_scalar seed) mod edL).
  { rewrite Vx. unfold bps. rewrite pre_app_all by exact Lk. rewrite bval_app, bval_zeros, Z.mul_0_r, Z.add_0_r, <- !le_val_bval, !le_val_modL, Vd. pose proof edL_pos. rewrite <- (Z.add_mod_idemp_r _ (_ * _)) by lia. rewrite Z.mul_mod_idemp_l by lia. rewrite <- Z.add_mod by lia. reflexivity. }
  rewrite Ex. set (S := le_bytes 32 ((r + k * ed_scalar seed) mod edL)). assert (LS: zlen S = 32) by apply zlen_le_bytes. clear Ex Vx Vd Bx Lx Lk Bk Lr Br H64 Hr. clearbody S.
  rewrite (copy_at R pk (M ++ t) S 0 32 32) by lia. cbn [bind]. apply wp_ret. rewrite (slice_all S) by lia. reflexivity.
Qed.
Theorem ed_sign_ok sm m n seed : zlen seed = 32 -> bytes_ok seed -> bytes_ok sm -> bytes_ok m -> 0 <= n -> n <= zlen m -> 64 + n <= zlen sm -> 64 + n < 2 ^ 64 ->
  let M := slice m 0 n in ed_sign sm m n (seed ++ ed_public seed) = Ret (0, n + 64, ed_signature seed M ++ M ++ slice sm (64 + n) (zlen sm - 64 - n)).
Proof.
  intros Ls Bs Bsm Bm Hn Lm Lsm H64 M. rewrite ed_sign_gen; try assumption; [|apply zlen_penc|apply penc_bytes]. fold M. fold (ed_sigS seed M). unfold ed_signature. now rewrite <- app_assoc.
Qed.

(** ** the signature equation holds for produced signatures *)
Lemma ed_scalar_nonneg seed : 0 <= ed_scalar seed.
Proof. unfold ed_scalar. cbv zeta. pose proof (Z.mod_pos_bound (le_val (slice (sha512 seed) 0 32)) (2 ^ 254) ltac:(lia)). assert (0 <= (le_val (slice (sha512 seed) 0 32) mod 2 ^ 254) / 8) by (apply Z.div_pos; lia). lia. Qed.
Lemma challenge_nonneg R A M : 0 <= ed_challenge R A M. Proof. apply le_val_range, sha512_bytes. Qed.
Lemma nonce_nonneg s M : 0 <= ed_nonce s M. Proof. apply le_val_range, sha512_bytes. Qed.
(** any S congruent to the produced one satisfies the equation *)
Lemma ed_equation_gen seed M S : 0 <= S -> S mod edL = ed_sigS seed M -> ed_equation (ed_sigR seed M) S (ed_public seed) M (smul (ed_scalar seed) edB).
Proof.
  intros HS ES. unfold ed_equation. set (R := ed_sigR seed M). set (k := ed_challenge R (ed_public seed) M). set (a := ed_scalar seed). set (r := ed_nonce seed M). unfold R, ed_sigR. fold r. f_equal.
  pose proof (ed_scalar_nonneg seed) as Ha. fold a in Ha. assert (Hk: 0 <= k) by apply challenge_nonneg. assert (Hr: 0 <= r) by apply nonce_nonneg. pose proof edB_on_curve as CB. pose proof edL_pos as HL.
  assert (EK: smul (k mod edL) (smul a edB) = smul (k * a) edB).
  { pose proof (Z.mod_pos_bound k edL (proj1 HL)). rewrite <- smul_mul by (assumption || lia). rewrite <- (smul_mod (_ * _)) by nia. rewrite Z.mul_mod_idemp_l by lia. apply smul_mod. nia. }
  rewrite EK. rewrite <- (smul_mod S HS), ES. unfold ed_sigS. fold R r a k. rewrite smul_mod by nia. rewrite smul_add by (assumption || nia).
  rewrite padd_assoc by (try apply pneg_on_curve; apply smul_closed; exact CB). rewrite padd_neg_r, padd_0_r by (apply smul_closed; exact CB). reflexivity.
Qed.
Lemma ed_public_decodes seed : decodes_strict (ed_public seed) (smul (ed_scalar seed) edB).
Proof. apply decodes_penc, smul_closed, edB_on_curve. Qed.
Lemma sigS_range seed M : 0 <= ed_sigS seed M < edL. Proof. apply Z.mod_pos_bound. apply edL_lt. Qed.
Lemma sig_halves seed M S : slice (ed_sigR seed M ++ le_bytes 32 S) 0 32 = ed_sigR seed M /\ slice (ed_sigR seed M ++ le_bytes 32 S) 32 32 = le_bytes 32 S.
Proof. assert (L: zlen (ed_sigR seed M) = 32) by apply zlen_penc. split; [rewrite slice_app_l, slice_all by lia; reflexivity|]. rewrite slice_app_r by lia. rewrite L. change (32 - 32) with 0. apply slice_all. now rewrite zlen_le_bytes. Qed.
Lemma ed_signature_valid seed M : ed_valid_rfc (ed_public seed) (ed_signature seed M) M.
Proof.
  exists (smul (ed_scalar seed) edB). split; [apply ed_public_decodes|]. unfold ed_signature. destruct (sig_halves seed M (ed_sigS seed M)) as [-> ->]. rewrite (le_val_bytes 32) by (pose proof (sigS_range seed M); pose proof edL_lt; change (256 ^ Z.of_nat 32) with (2 ^ 256); lia). pose proof (sigS_range seed M). split; [lia|]. apply ed_equation_gen; [lia|]. apply Z.mod_small. lia.
Qed.
Lemma ed_valid_weaken pk sig M : ed_valid_rfc pk sig M -> ed_valid pk sig M.
Proof. intros (A & D & _ & E). exists A. split; [now apply decodes_strict_decodes|exact E]. Qed.

(** ** verification *)
Lemma split3 (l : list Z) n : 64 <= n -> n <= zlen l -> exists a b c t, l = a ++ b ++ c ++ t /\ zlen a = 32 /\ zlen b = 32 /\ zlen c = n - 64 /\ t = slice l n (zlen l - n).
Proof.
  intros H1 H2. destruct (split4 l (n - 64) ltac:(lia) ltac:(lia)) as (a & b & c & t & E & La & Lb & Lc & Et). exists a, b, c, t. repeat split; try assumption. rewrite Et. f_equal; lia.
Qed.
(** the state after crypto_sign_open *)
Definition open_post (m sm : list Z) (n : Z) (pk : list Z) (out : Z * Z * list Z) : Prop :=
  let '(rc, mlen, m') := out in
  let sig := slice sm 0 64 in let M := slice sm 64 (n - 64) in
  zlen m' = zlen m /\ slice m' n (zlen m - n) = slice m n (zlen m - n) /\
  ((rc = 0 /\ mlen = n - 64 /\ 64 <= n /\ ed_valid pk sig M /\ slice m' 0 (n - 64) = M) \/
   (rc = -1 /\ mlen = 2 ^ 64 - 1 /\ (64 <= n -> ~ ed_valid pk sig M) /\ ((m' = m /\ (n < 64 \/ forall A, ~ decodes pk A)) \/ slice m' 0 (n - 64) = zeros (n - 64)))).
Theorem ed_open_ok m sm n pk : zlen pk = 32 -> bytes_ok pk -> bytes_ok m -> bytes_ok sm -> 0 <= n < 2 ^ 31 -> n <= zlen m -> n <= zlen sm -> wp (ed_open m sm n pk) (open_post m sm n pk).
Proof.
  intros Lp Bp Bm Bsm Hn Lm Lsm. unfold ed_open. cbv zeta. change (u64 (-1)) with (2 ^ 64 - 1). destruct (Z.ltb_spec n 64) as [C|C].
  { apply wp_ret. split; [reflexivity|]. split; [reflexivity|]. right. split; [reflexivity|]. split; [reflexivity|]. split; [lia|]. left. split; [reflexivity|now left]. }
  apply wp_bind. eapply wp_mono; [apply unpackneg_ok; assumption|]. intros [q|]; cbv beta iota.
  2:{ intros ND. apply wp_ret. split; [reflexivity|]. split; [reflexivity|]. right. split; [reflexivity|]. split; [reflexivity|]. split; [|left; split; [reflexivity|now right]]. intros _ (A & D & _). exact (ND A D). }
  intros (A & DA & Rq). replace (2 ^ 31 <=? n) with false by lia.
  destruct (split3 sm n C Lsm) as (R & S & M & st & Esm & LR & LS & LM & _). destruct (split3 m n C Lm) as (a & b & c & t & Em & La & Lb & Lc & Et).
  assert (Bs4: bytes_ok R /\ bytes_ok S /\ bytes_ok M /\ bytes_ok st) by (rewrite Esm in Bsm; rewrite !bytes_ok_app in Bsm; exact Bsm). destruct Bs4 as (BR & BS & BM & Bst).
  assert (Bm4: bytes_ok a /\ bytes_ok b /\ bytes_ok c /\ bytes_ok t) by (rewrite Em in Bm; rewrite !bytes_ok_app in Bm; exact Bm). destruct Bm4 as (Ba & Bb & Bc & Bt).
  assert (Lall: zlen m = n + zlen t) by (rewrite Em, !zlen_app; lia). assert (Lalls: zlen sm = n + zlen st) by (rewrite Esm, !zlen_app; lia). pose proof (zlen_nonneg t). pose proof (zlen_nonneg st).
  assert (ESn: slice sm 0 n = R ++ S ++ M). { rewrite Esm. replace (R ++ S ++ M ++ st) with ((R ++ S ++ M) ++ st) by (now rewrite <- !app_assoc). apply slice_mid0; rewrite ?zlen_app; lia || reflexivity. }
  assert (E64: slice sm 0 64 = R ++ S). { rewrite Esm. replace (R ++ S ++ M ++ st) with ((R ++ S) ++ M ++ st) by (now rewrite <- !app_assoc). apply slice_mid0; rewrite ?zlen_app; lia || reflexivity. }
  assert (EM: slice sm 64 (n - 64) = M). { rewrite Esm. replace (R ++ S ++ M ++ st) with ((R ++ S) ++ M ++ st) by (now rewrite <- !app_assoc). apply slice_mid; rewrite ?zlen_app; lia || reflexivity. }
  assert (E32: slice sm 32 32 = S). { rewrite Esm. apply slice_mid; lia. }
  assert (E32s: pre sm 32 = R). { rewrite Esm. apply pre_app_all. exact LR. }
  assert (Et2: slice m n (zlen m - n) = t) by now symmetry.
  rewrite Em at 1. replace (a ++ b ++ c ++ t) with ((a ++ b ++ c) ++ t) by (now rewrite <- !app_assoc). rewrite (copy_at0 (a ++ b ++ c) t sm 0 n) by (rewrite ?zlen_app; lia). cbn [bind]. rewrite ESn.
  replace ((R ++ S ++ M) ++ t) with (R ++ S ++ M ++ t) by now rewrite <- !app_assoc. rewrite (copy_at R S (M ++ t) pk 0 32 32) by lia. cbn [bind]. rewrite (slice_all pk) by lia.
  rewrite crypto_hash_ok; [|repeat (apply bytes_ok_app; split); assumption|lia|lia|rewrite !zlen_app; lia]. cbn [bind].
  replace (R ++ pk ++ M ++ t) with ((R ++ pk ++ M) ++ t) at 1 by (now rewrite <- !app_assoc). rewrite (slice_mid0 (R ++ pk ++ M) t n) by (rewrite ?zlen_app; lia || reflexivity).
  rewrite ed_reduce_ok by (apply sha512_len || apply sha512_bytes). cbn [bind]. fold (ed_challenge R pk M). set (k := ed_challenge R pk M). pose proof (zlen_le_bytes 32 (k mod edL)) as Lk. change (Z.of_nat 32) with 32 in Lk. pose proof (le_bytes_ok 32 (k mod edL)) as Bk. pose proof (zlen_zeros 32 ltac:(lia)) as LZ. pose proof (bytes_ok_zeros 32) as BZ.
  pose proof (proj1 DA) as CA. pose proof (pneg_on_curve A CA) as CN.
  apply wp_bind. eapply wp_mono; [apply (scalarmult_ok q (pneg A)); [exact Rq|exact CN|rewrite zlen_app; lia|apply bytes_ok_app; now split]|]. intros p Rp. cbv beta. rewrite pre_app_all, le_val_modL in Rp by exact Lk.
  rewrite E32. apply wp_bind. eapply wp_mono; [apply scalarbase_ok; [lia|exact BS]|]. intros q' Rq'. cbv beta. rewrite pre_all in Rq' by lia.
  apply wp_bind. eapply wp_mono; [apply ed_add_ok; [exact Rp|exact Rq']|]. intros p' Rp'. cbv beta.
  apply wp_bind. eapply wp_mono; [eapply ed_pack_ok; [exact Rp'|lia]|]. intros T ->. cbv beta.
  assert (ET: padd (smul (k mod edL) (pneg A)) (smul (le_val S) edB) = padd (smul (le_val S) edB) (pneg (smul (k mod edL) A))). { rewrite padd_comm, smul_pneg; [reflexivity|exact CA|pose proof (modL_range k); lia]. }
  rewrite ET. clear Rp Rq' Rp' Rq ET p q' p' q. set (T := penc _).
  assert (LT: zlen T = 32) by apply zlen_penc. assert (BT: bytes_ok T) by apply penc_bytes.
  assert (EV: crypto_verify_32 sm T = Ret (if list_eqb R T then 0 else -1)). { unfold crypto_verify_32. rewrite vn_ok by (assumption || lia). rewrite E32s, pre_all by lia. reflexivity. }
  rewrite EV. cbn [bind].
  assert (HV: ed_valid pk (slice sm 0 64) (slice sm 64 (n - 64)) <-> R = T).
  { rewrite E64, EM. unfold ed_valid. rewrite (slice_app_l R S 0 32), (slice_all R), (slice_app_r R S 32 32) by lia. rewrite LR, (slice_all S) by lia. split.
    - intros (A' & D' & E'). assert (A' = A) as -> by exact (decodes_unique pk A' A Bp Lp D' DA). exact E'.
    - intros E'. exists A. split; [exact DA|exact E']. }
  destruct (list_eqb R T) eqn:EQ.
  - change (negb (0 =? 0)) with false. cbv beta iota. apply list_eqb_eq in EQ. assert (EC: copy (R ++ pk ++ M ++ t) 0 sm 64 (n - 64) = Ret (M ++ slice (R ++ pk ++ M ++ t) (n - 64) (zlen (R ++ pk ++ M ++ t) - 0 - (n - 64)))). { rewrite copy_ok by (rewrite ?zlen_app; lia). rewrite slice_0, EM. cbn [app]. reflexivity. }
    rewrite EC. cbn [bind]. apply wp_ret. set (W := slice (R ++ pk ++ M ++ t) (n - 64) _). assert (LW: zlen W = 64 + zlen t) by (unfold W; rewrite zlen_slice by (rewrite ?zlen_app; lia); rewrite !zlen_app; lia).
    split; [rewrite zlen_app; lia|]. split.
    + rewrite Et2. rewrite slice_app_r by lia. unfold W. rewrite slice_slice by (rewrite ?zlen_app; lia). replace (R ++ pk ++ M ++ t) with ((R ++ pk ++ M) ++ t ++ []) by (rewrite app_nil_r, <- !app_assoc; reflexivity). apply slice_mid; rewrite ?zlen_app; lia.
    + left. split; [reflexivity|]. split; [reflexivity|]. split; [exact C|]. split; [now apply HV|]. rewrite slice_app_l, EM by lia. apply slice_all. lia.
  - change (negb (-1 =? 0)) with true. cbv beta iota. assert (NE: R <> T) by (intros E; rewrite (proj2 (list_eqb_eq _ _) E) in EQ; discriminate).
    assert (LZn: zlen (zeros (n - 64)) = n - 64) by (apply zlen_zeros; lia). assert (EC: copy (R ++ pk ++ M ++ t) 0 (zeros (n - 64)) 0 (n - 64) = Ret (zeros (n - 64) ++ slice (R ++ pk ++ M ++ t) (n - 64) (zlen (R ++ pk ++ M ++ t) - 0 - (n - 64)))). { rewrite copy_ok by (rewrite ?zlen_app; lia). rewrite slice_0, slice_all by lia. cbn [app]. reflexivity. }
    rewrite EC. cbn [bind]. apply wp_ret. set (W := slice (R ++ pk ++ M ++ t) (n - 64) _). assert (LW: zlen W = 64 + zlen t) by (unfold W; rewrite zlen_slice by (rewrite ?zlen_app; lia); rewrite !zlen_app; lia).
    split; [rewrite zlen_app; lia|]. split.
    + rewrite Et2. rewrite slice_app_r by lia. unfold W. rewrite slice_slice by (rewrite ?zlen_app; lia). replace (R ++ pk ++ M ++ t) with ((R ++ pk ++ M) ++ t ++ []) by (rewrite app_nil_r, <- !app_assoc; reflexivity). apply slice_mid; rewrite ?zlen_app; lia.
    + right. split; [reflexivity|]. split; [reflexivity|]. split; [intros _ G; apply NE; now apply HV|]. right. rewrite slice_app_l by lia. apply slice_all. lia.
Qed.
