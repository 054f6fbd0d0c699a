(** crypto_stream_xor computes XSalsa20; secretbox and its opening. *)
From Verif Require Import Base Wp Tab EdSpec BoxSpec Tweet TweetField TweetField2 TweetCurve TweetBox PolyProofs PolyProofs2 SalsaProofs.
Ltac Zify.zify_post_hook ::= idtac.

Lemma bytes_of_ok l : bytes_ok (bytes_of l).
Proof. unfold bytes_of. induction l as [|x l IH]; cbn [flat_map]; [constructor|]. apply bytes_ok_app. split; [apply le_bytes_ok|exact IH]. Qed.
Lemma bytes_of_length l : length (bytes_of l) = (4 * length l)%nat.
Proof. unfold bytes_of. induction l as [|x l IH]; [reflexivity|]. cbn [flat_map]. rewrite app_length, le_bytes_length, IH. cbn [length]. lia. Qed.
Lemma words_len k n : zlen k = 32 -> zlen n = 16 -> length (words_of (salsa_input k n)) = 16%nat.
Proof. intros Hk Hn. rewrite <- (slice_all n 16) by lia. rewrite <- input_words_spec by lia. reflexivity. Qed.
Lemma dr10_len l : length l = 16%nat -> length (doubleround10 l) = 16%nat.
Proof. intros L. exact (proj2 (iter_half 10 l L)). Qed.
Lemma salsa20_k_len k n : zlen k = 32 -> zlen n = 16 -> length (salsa20_k k n) = 64%nat.
Proof.
  intros Hk Hn. unfold salsa20_k, salsa20. pose proof (words_len k n Hk Hn) as L. pose proof (dr10_len _ L) as L2. set (wl := words_of _) in *. clearbody wl. rewrite bytes_of_length, map2_length by congruence. rewrite L. reflexivity.
Qed.
Lemma hsalsa20_len k n : zlen (hsalsa20 k n) = 32.
Proof. unfold hsalsa20, zlen. rewrite bytes_of_length, map_length. reflexivity. Qed.
Lemma hsalsa20_ok k n : bytes_ok (hsalsa20 k n). Proof. apply bytes_of_ok. Qed.
Lemma salsa20_k_ok k n : bytes_ok (salsa20_k k n). Proof. apply bytes_of_ok. Qed.

(** the key stream, byte by byte *)
Lemma nth_flat_map_64 (f : nat -> list Z) (Hf : forall i, length (f i) = 64%nat) : forall N s j, (j < 64 * N)%nat ->
  nth j (flat_map f (seq s N)) 0 = nth (j mod 64) (f (s + j / 64)%nat) 0.
Proof.
  induction N as [|N IH]; intros s j Hj; [lia|]. cbn [seq flat_map]. destruct (Nat.lt_ge_cases j 64).
  - rewrite app_nth1 by (rewrite Hf; exact H). rewrite Nat.mod_small, Nat.div_small by exact H. now rewrite Nat.add_0_r.
  - rewrite app_nth2 by (rewrite Hf; exact H). rewrite Hf, IH by lia. replace j with (j - 64 + 1 * 64)%nat at 3 4 by lia. rewrite Nat.mod_add, Nat.div_add by lia. f_equal. f_equal. lia.
Qed.
Lemma flat_map_64_len (f : nat -> list Z) (Hf : forall i, length (f i) = 64%nat) : forall N s, length (flat_map f (seq s N)) = (64 * N)%nat.
Proof. induction N as [|N IH]; intros s; [reflexivity|]. cbn [seq flat_map]. rewrite app_length, Hf, IH. lia. Qed.
Definition blk (k v : list Z) (t : Z) : list Z := salsa20_k k (v ++ le_bytes 8 t).
Definition ksb (k v : list Z) (j : Z) : Z := znth (blk k v (j / 64)) (j mod 64).
Lemma blk_len k v t : zlen k = 32 -> zlen v = 8 -> zlen (blk k v t) = 64.
Proof. intros Hk Hv. unfold blk, zlen. rewrite salsa20_k_len; [reflexivity|exact Hk|]. rewrite zlen_app, Hv. unfold zlen. now rewrite le_bytes_length. Qed.
Lemma salsa_blk_len k v i : zlen k = 32 -> zlen v = 8 -> length (salsa20_k k (v ++ le_bytes 8 i)) = 64%nat.
Proof. intros Hk Hv. apply salsa20_k_len; [exact Hk|]. rewrite zlen_app, Hv. unfold zlen. now rewrite le_bytes_length. Qed.
Lemma stream_len k v n : zlen k = 32 -> zlen v = 8 -> length (salsa20_stream k v n) = n.
Proof.
  intros Hk Hv. unfold salsa20_stream. rewrite firstn_length, flat_map_64_len.
  - pose proof (Nat.div_mod n 64 ltac:(lia)). pose proof (Nat.mod_upper_bound n 64 ltac:(lia)). lia.
  - intros i. now apply salsa_blk_len.
Qed.
Lemma znth_firstn l n j : 0 <= j < Z.of_nat n -> znth (firstn n l) j = znth l j.
Proof. intros H. pose proof (ix_slice l 0 (Z.of_nat n) j ltac:(lia) ltac:(lia)) as E. unfold ix, slice in E. rewrite Nat2Z.id in E. cbn [Z.to_nat skipn] in E. exact E. Qed.
Lemma stream_znth k v n j : zlen k = 32 -> zlen v = 8 -> 0 <= j < Z.of_nat n -> znth (salsa20_stream k v n) j = ksb k v j.
Proof.
  intros Hk Hv Hj. unfold salsa20_stream. rewrite znth_firstn by exact Hj. unfold znth. rewrite nth_flat_map_64.
  - unfold ksb, znth, blk. rewrite Nat.add_0_l. assert (E1: Z.of_nat (Z.to_nat j / 64) = j / 64) by (rewrite Nat2Z.inj_div; f_equal; lia). assert (E2: (Z.to_nat j mod 64)%nat = Z.to_nat (j mod 64)) by (rewrite Z2Nat.inj_mod by lia; reflexivity). rewrite E1, E2. reflexivity.
  - intros i. now apply salsa_blk_len.
  - pose proof (Nat.div_mod n 64 ltac:(lia)). pose proof (Nat.mod_upper_bound n 64 ltac:(lia)). lia.
Qed.
Lemma stream_ok k v n : bytes_ok (salsa20_stream k v n).
Proof.
  unfold salsa20_stream. assert (G: forall s N, bytes_ok (flat_map (fun i => salsa20_k k (v ++ le_bytes 8 (Z.of_nat i))) (seq s N))).
  { intros s N. revert s. induction N as [|N IH]; intros s; cbn [seq flat_map]; [constructor|]. apply bytes_ok_app. split; [apply salsa20_k_ok|apply IH]. }
  pose proof (bytes_ok_pre _ (Z.of_nat n) (G 0%nat (S (n / 64)))) as B. unfold pre in B. rewrite Nat2Z.id in B. exact B.
Qed.

(** the counter *)
Lemma ctr_inc_ok w v t : word_size w -> zlen v = 8 -> ctr_inc w (v ++ le_bytes 8 t) = Ret (v ++ le_bytes 8 (t + 1)).
Proof.
  intros W Lv. unfold ctr_inc.
  assert (G: wp (for_loop 8 (fun t '(z, u) => a <- rd 0 z (8 + t) ;; let u := uw w (u + a) in z <- wr z (8 + t) (u8 u) ;; Ret (z, Z.shiftr u 8)) (v ++ le_bytes 8 t, 1))
    (fun '(z, _) => z = v ++ le_bytes 8 (t + 1))).
  { pose proof (le_bytes_ok 8 t) as Bc. pose proof (le_bytes_length 8 t) as Lc. pose proof (le_bytes_mod 8 t) as Vc. set (c := le_bytes 8 t) in *.
    assert (Lc': zlen c = 8) by (unfold zlen; rewrite Lc; reflexivity).
    apply (wp_for_loop (fun j '(z, u) => exists d, z = v ++ d /\ zlen d = 8 /\ bytes_ok d /\ (forall i, j <= i < 8 -> znth d i = znth c i) /\ 0 <= u <= 1 /\ bps 256 d j + 256 ^ j * u = bps 256 c j + 1)); [lia| | |].
    - exists c. split; [reflexivity|]. split; [exact Lc'|]. split; [exact Bc|]. split; [reflexivity|]. split; [lia|]. rewrite !bps_0. lia.
    - intros j [z u] Hj (d & -> & Ld & Bd & Ed & Bu & V). assert (Bj: byte_ok (znth c j)) by (apply bytes_ok_znth; [exact Bc|lia]). unfold byte_ok in Bj.
      assert (EN: znth (v ++ d) (8 + j) = znth d j) by (unfold znth; rewrite app_nth2 by (unfold zlen in Lv; lia); f_equal; unfold zlen in Lv; lia).
      apply wp_bind, wp_rd; [rewrite zlen_app; lia|]. rewrite EN, Ed by lia. rewrite uw_small by (assumption || lia). set (s := u + znth c j) in *.
      apply wp_bind, wp_wr; [rewrite zlen_app; lia|]. apply wp_ret. unfold u8. rewrite shr8. change (2 ^ 8) with 256. pose proof (Z.div_mod s 256 ltac:(lia)). pose proof (Z.mod_pos_bound s 256 ltac:(lia)).
      exists (zupd d j (s mod 256)). split. { unfold zupd. replace (Z.to_nat (8 + j)) with (length v + Z.to_nat j)%nat by (unfold zlen in Lv; lia). clear. induction v as [|x v IH]; [reflexivity|]. cbn [app length Nat.add upd]. now rewrite IH. }
      split; [now rewrite zlen_zupd|]. split; [apply bytes_ok_znth; intros i Hi; rewrite zlen_zupd in Hi; rewrite znth_zupd by lia; destruct (Z.eqb_spec i j); [unfold byte_ok; lia|apply bytes_ok_znth; [exact Bd|lia]]|].
      split; [intros i Hi; rewrite znth_zupd_other by lia; apply Ed; lia|]. split; [lia|].
      rewrite !bps_succ by (rewrite ?zlen_zupd; lia). rewrite bps_zupd_ge, znth_zupd_same, p256p by lia. set (P := 256 ^ j) in *. set (A := bps 256 d j) in *. clearbody P A. transitivity (A + P * s); [|unfold s; lia]. rewrite (Z.div_mod s 256) at 3 by lia. ring.
    - intros [z u] (d & -> & Ld & Bd & _ & Bu & V). f_equal. rewrite !(bps_full 256 _ 8), <- !le_val_bval in V by lia. rewrite <- (le_bytes_val d Bd). replace (length d) with 8%nat by (unfold zlen in Ld; lia).
      rewrite <- (le_bytes_modP 8 (t + 1) 0), <- (le_bytes_modP 8 (le_val d) 0) by lia. f_equal. change (256 ^ (Z.of_nat 8 + 0)) with (256 ^ 8). change (256 ^ Z.of_nat 8) with (256 ^ 8) in Vc.
      replace (le_val d) with (le_val c + 1 + (- u) * 256 ^ 8) by lia. rewrite Z.mod_add by lia. rewrite Vc. now rewrite Z.add_mod_idemp_l by lia. }
  apply wp_is, wp_bind. eapply wp_mono; [exact G|]. intros [z u] ->. reflexivity.
Qed.

(** xor into the buffer *)
Definition srcb (m : option (list Z)) (j : Z) : Z := match m with Some m => znth m j | None => 0 end.
Definition src_ok (m : option (list Z)) (b : Z) : Prop := match m with Some m => bytes_ok m /\ b <= zlen m | None => True end.
Lemma srcb_byte m b j : src_ok m b -> 0 <= j < b -> byte_ok (srcb m j).
Proof. destruct m as [m|]; cbn; [intros [B L] H; apply bytes_ok_znth; [exact B|lia]|intros; unfold byte_ok; lia]. Qed.
Lemma xor_into_ok c m x off cnt b : src_ok m b -> bytes_ok x -> 0 <= off -> 0 <= cnt <= zlen x -> off + cnt <= b -> b <= zlen c ->
  wp (xor_into c m x off cnt) (fun d => zlen d = zlen c /\ forall j, 0 <= j < zlen c -> znth d j = if (off <=? j) && (j <? off + cnt) then Z.lxor (srcb m j) (znth x (j - off)) else znth c j).
Proof.
  intros Hm Bx Ho Hc Hb HL. unfold xor_into.
  apply (wp_for_loop (fun i d => zlen d = zlen c /\ forall j, 0 <= j < zlen c -> znth d j = if (off <=? j) && (j <? off + i) then Z.lxor (srcb m j) (znth x (j - off)) else znth c j)); [lia| | |auto].
  - split; [reflexivity|]. intros j Hj. destruct (Z.leb_spec off j), (Z.ltb_spec j (off + 0)); cbn [andb]; try lia; reflexivity.
  - intros i d Hi (Ld & Hd). apply wp_bind. apply wp_eq with (a := srcb m (off + i)).
    { destruct m as [m|]; cbn [srcb src_ok] in *; [|reflexivity]. apply wp_is, wp_rd; [lia|reflexivity]. }
    apply wp_bind, wp_rd; [lia|]. apply wp_wr; [lia|]. split; [now rewrite zlen_zupd|]. intros j Hj. rewrite znth_zupd by lia. destruct (Z.eqb_spec j (off + i)) as [->|Hn].
    + replace ((off <=? off + i) && (off + i <? off + (i + 1))) with true by lia. replace (off + i - off) with i by lia. unfold u8. apply Z.mod_small. change (2 ^ 8) with 256. apply lxor_byte; [apply (srcb_byte m b); [exact Hm|lia]|apply bytes_ok_znth; [exact Bx|lia]].
    + rewrite Hd by lia. replace (j <? off + (i + 1)) with (j <? off + i) by lia. reflexivity.
Qed.
Lemma salsa20_xor_ok w c m b n no k : word_size w -> src_ok m b -> bytes_ok n -> bytes_ok k -> 0 <= b <= zlen c -> 0 <= no -> no + 8 <= zlen n -> zlen k = 32 ->
  wp (crypto_stream_salsa20_xor w c m b n no k) (fun d => zlen d = zlen c /\ forall j, 0 <= j < zlen c -> znth d j = if j <? b then Z.lxor (srcb m j) (ksb k (slice n no 8) j) else znth c j).
Proof.
  intros W Hm Bn Bk Hb Hno HLn Lk. unfold crypto_stream_salsa20_xor. destruct (Z.eqb_spec b 0) as [->|Hb0].
  { apply wp_ret. split; [reflexivity|]. intros j Hj. destruct (Z.ltb_spec j 0); [lia|reflexivity]. }
  rewrite fill_ok by (rewrite ?zlen_zeros; lia). cbn [bind]. rewrite zlen_zeros, slice_zeros by lia. set (v := slice n no 8). assert (Lv: zlen v = 8) by (apply zlen_slice; lia). assert (Bv: bytes_ok v) by (now apply bytes_ok_slice). clearbody v.
  change (zeros (16 - 8)) with (le_bytes 8 0). pose proof (Z.div_mod b 64 ltac:(lia)) as DM. pose proof (Z.mod_pos_bound b 64 ltac:(lia)) as MB. set (q := b / 64) in *. set (r := b mod 64) in *. clearbody q r.
  assert (Core: forall t, crypto_core_salsa20 w (v ++ le_bytes 8 t) k sigma = Ret (blk k v t)).
  { intros t. unfold crypto_core_salsa20. assert (L16: zlen (v ++ le_bytes 8 t) = 16) by (rewrite zlen_app, Lv; unfold zlen; rewrite le_bytes_length; reflexivity). rewrite core_ok; [|exact W|apply bytes_ok_app; split; [exact Bv|apply le_bytes_ok]|exact Bk|lia|exact Lk]. cbv iota. rewrite slice_all by (symmetry; exact L16). unfold blk. reflexivity. }
  apply wp_bind. apply (wp_for_loop (fun t '(d, z) => z = v ++ le_bytes 8 t /\ zlen d = zlen c /\ forall j, 0 <= j < zlen c -> znth d j = if j <? 64 * t then Z.lxor (srcb m j) (ksb k v j) else znth c j)); [lia| | |].
  - split; [reflexivity|]. split; [reflexivity|]. intros j Hj. destruct (Z.ltb_spec j (64 * 0)); [lia|reflexivity].
  - intros t [d z] Ht (-> & Ld & Hd). rewrite Core. cbn [bind]. apply wp_bind. pose proof (blk_len k v t Lk Lv) as LB. eapply wp_mono; [apply (xor_into_ok d m (blk k v t) (64 * t) 64 b); try assumption; try lia; apply salsa20_k_ok|].
    intros d' (Ld' & Hd'). cbv beta. rewrite ctr_inc_ok by assumption. cbn [bind]. apply wp_ret. split; [reflexivity|]. split; [lia|]. intros j Hj. rewrite Hd' by lia.
    destruct (Z.leb_spec (64 * t) j), (Z.ltb_spec j (64 * t + 64)); cbn [andb].
    + replace (j <? 64 * (t + 1)) with true by lia. unfold ksb. assert (E: t = j / 64) by (apply (Z.div_unique j 64 t (j - 64 * t)); lia). rewrite <- E. replace (j mod 64) with (j - 64 * t) by (rewrite E; pose proof (Z.div_mod j 64 ltac:(lia)); lia). reflexivity.
    + rewrite Hd by lia. replace (j <? 64 * t) with false by lia. replace (j <? 64 * (t + 1)) with false by lia. reflexivity.
    + rewrite Hd by lia. replace (j <? 64 * t) with true by lia. replace (j <? 64 * (t + 1)) with true by lia. reflexivity.
    + lia.
  - intros [d z] (-> & Ld & Hd). cbv beta iota. destruct (Z.eqb_spec r 0) as [Hr|Hr].
    + apply wp_ret. split; [exact Ld|]. intros j Hj. rewrite Hd by lia. replace (64 * q) with b by lia. reflexivity.
    + rewrite Core. cbn [bind]. pose proof (blk_len k v q Lk Lv) as LB. eapply wp_mono; [apply (xor_into_ok d m (blk k v q) (64 * q) r b); try assumption; try lia; apply salsa20_k_ok|].
      intros d' (Ld' & Hd'). cbv beta. split; [lia|]. intros j Hj. rewrite Hd' by lia.
      destruct (Z.leb_spec (64 * q) j), (Z.ltb_spec j (64 * q + r)); cbn [andb].
      * replace (j <? b) with true by lia. unfold ksb. assert (E: q = j / 64) by (apply (Z.div_unique j 64 q (j - 64 * q)); lia). rewrite <- E. replace (j mod 64) with (j - 64 * q) by (rewrite E; pose proof (Z.div_mod j 64 ltac:(lia)); lia). reflexivity.
      * rewrite Hd by lia. replace (j <? 64 * q) with false by lia. replace (j <? b) with false by lia. reflexivity.
      * rewrite Hd by lia. replace (j <? 64 * q) with true by lia. replace (j <? b) with true by lia. reflexivity.
      * lia.
Qed.

(** ** XSalsa20 *)
Lemma xsalsa_len k n len : zlen n = 24 -> length (xsalsa20_stream k n len) = len.
Proof. intros Hn. unfold xsalsa20_stream. apply stream_len; [apply hsalsa20_len|apply zlen_slice; lia]. Qed.
Lemma xsalsa_ok k n len : bytes_ok (xsalsa20_stream k n len). Proof. apply stream_ok. Qed.
Definition xks (k n : list Z) (j : Z) : Z := ksb (hsalsa20 k (slice n 0 16)) (slice n 16 8) j.
Lemma xsalsa_znth k n len j : zlen n = 24 -> 0 <= j < Z.of_nat len -> znth (xsalsa20_stream k n len) j = xks k n j.
Proof. intros Hn Hj. unfold xsalsa20_stream, xks. apply stream_znth; [apply hsalsa20_len|apply zlen_slice; lia|exact Hj]. Qed.
Lemma znth_map2_lxor a b j : zlen a = zlen b -> 0 <= j < zlen a -> znth (xor_bytes a b) j = Z.lxor (znth a j) (znth b j).
Proof. intros HL Hj. exact (ix_map2 Z.lxor a b j HL Hj). Qed.
Lemma zlen_xor a b : zlen a = zlen b -> zlen (xor_bytes a b) = zlen a. Proof. apply zlen_map2. Qed.
Lemma xor_ok a b : bytes_ok a -> bytes_ok b -> zlen a = zlen b -> bytes_ok (xor_bytes a b).
Proof. intros Ha Hb HL. apply bytes_ok_znth. intros i Hi. rewrite zlen_xor in Hi by exact HL. rewrite znth_map2_lxor by assumption. apply lxor_byte; apply bytes_ok_znth; try assumption; lia. Qed.
Lemma stream_xor_ok w c m d n k : word_size w -> bytes_ok m -> bytes_ok n -> bytes_ok k -> zlen c = d -> zlen m = d -> zlen n = 24 -> zlen k = 32 ->
  crypto_stream_xor w c m d n k = Ret (xor_bytes m (xsalsa20_stream k n (length m))).
Proof.
  intros W Bm Bn Bk Lc Lm Ln Lk. unfold crypto_stream_xor, crypto_core_hsalsa20. rewrite core_ok by (assumption || lia). cbn [bind]. cbv iota. apply wp_is. pose proof (zlen_nonneg m) as H0.
  eapply wp_mono; [apply (salsa20_xor_ok w c (Some m) d n 16 (hsalsa20 k (slice n 0 16))); [exact W|split; [exact Bm|lia]|exact Bn|apply hsalsa20_ok|lia|lia|lia|apply hsalsa20_len]|].
  assert (LX: zlen (xsalsa20_stream k n (length m)) = zlen m) by (unfold zlen; now rewrite xsalsa_len).
  intros o (Lo & Ho). apply list_ext_z; [rewrite zlen_xor by (symmetry; exact LX); lia|]. intros i Hi. rewrite Ho by lia. replace (i <? d) with true by lia. rewrite znth_map2_lxor by lia. rewrite xsalsa_znth by (unfold zlen in *; lia). unfold xks. cbn [srcb]. reflexivity.
Qed.
Lemma crypto_stream_ok w c n k : word_size w -> bytes_ok n -> bytes_ok k -> zlen n = 24 -> zlen k = 32 ->
  crypto_stream w c (zlen c) n k = Ret (xsalsa20_stream k n (length c)).
Proof.
  intros W Bn Bk Ln Lk. unfold crypto_stream, crypto_stream_salsa20, crypto_core_hsalsa20. rewrite core_ok by (assumption || lia). cbn [bind]. cbv iota. apply wp_is. pose proof (zlen_nonneg c) as H0.
  eapply wp_mono; [apply (salsa20_xor_ok w c None (zlen c) n 16 (hsalsa20 k (slice n 0 16))); [exact W|exact I|exact Bn|apply hsalsa20_ok|lia|lia|lia|apply hsalsa20_len]|].
  assert (LX: zlen (xsalsa20_stream k n (length c)) = zlen c) by (unfold zlen; now rewrite xsalsa_len).
  intros o (Lo & Ho). apply list_ext_z; [lia|]. intros i Hi. rewrite Ho by lia. replace (i <? zlen c) with true by lia. cbn [srcb]. rewrite Z.lxor_0_l. rewrite xsalsa_znth by (unfold zlen in *; lia). unfold xks. cbn [srcb]. reflexivity.
Qed.
(** the stream for a longer request starts with the stream for a shorter one *)
Lemma xsalsa_prefix k n a b : zlen n = 24 -> (a <= b)%nat -> firstn a (xsalsa20_stream k n b) = xsalsa20_stream k n a.
Proof.
  intros Ln H. apply list_ext_z; [unfold zlen; rewrite firstn_length, !xsalsa_len by exact Ln; lia|]. intros i Hi. unfold zlen in Hi. rewrite firstn_length, xsalsa_len in Hi by exact Ln. rewrite znth_firstn by lia. rewrite !xsalsa_znth by (assumption || lia). reflexivity.
Qed.

(** ** secretbox *)
Lemma zero_loop c n : 0 <= n <= zlen c -> for_loop n (fun i c => wr c i 0) c = Ret (zeros n ++ slice c n (zlen c - n)).
Proof.
  intros Hn. apply wp_is. apply (wp_for_loop (fun i d => d = zeros i ++ slice c i (zlen c - i))); [lia| | |].
  - rewrite Z.sub_0_r, slice_all by reflexivity. reflexivity.
  - intros i d Hi ->. apply wp_wr; [rewrite zlen_app, zlen_slice, zlen_zeros by lia; lia|]. rewrite slice_cons by lia. unfold zupd. replace (Z.to_nat i) with (length (zeros i)) at 2 by (unfold zeros; rewrite repeat_length; reflexivity). rewrite upd_app_r.
    assert (E: zeros (i + 1) = zeros i ++ [0]) by (unfold zeros; replace (Z.to_nat (i + 1)) with (Z.to_nat i + 1)%nat by lia; apply repeat_app). rewrite E, <- app_assoc. cbn [app]. f_equal. f_equal. f_equal. lia.
  - intros d ->. reflexivity.
Qed.
Lemma poly1305_len k m : zlen (poly1305 k m) = 16.
Proof. unfold poly1305, zlen. rewrite le_bytes_length. reflexivity. Qed.
Lemma poly1305_key k m : poly1305 k m = poly1305 (slice k 0 32) m.
Proof. unfold poly1305. rewrite !slice_slice by lia. reflexivity. Qed.
Lemma map2_skipn (f : Z -> Z -> Z) : forall n a b, skipn n (map2 f a b) = map2 f (skipn n a) (skipn n b).
Proof. induction n as [|n IH]; intros a b; [reflexivity|]. destruct a as [|x a]; [reflexivity|]. destruct b as [|y b]; [cbn [map2 skipn]; destruct (skipn n a); reflexivity|]. cbn [map2 skipn]. apply IH. Qed.
Lemma map2_firstn (f : Z -> Z -> Z) : forall n a b, firstn n (map2 f a b) = map2 f (firstn n a) (firstn n b).
Proof. induction n as [|n IH]; intros a b; [reflexivity|]. destruct a as [|x a]; [reflexivity|]. destruct b as [|y b]; [reflexivity|]. cbn [map2 firstn]. f_equal. apply IH. Qed.
Lemma xor_zeros l : xor_bytes (zeros (zlen l)) l = l.
Proof. unfold xor_bytes, zeros, zlen. rewrite Nat2Z.id. induction l as [|x l IH]; [reflexivity|]. cbn [length repeat map2]. rewrite IH. reflexivity. Qed.
Lemma skipn32_slice (l : list Z) d : zlen l = d -> skipn 32 l = slice l 32 (d - 32).
Proof. intros <-. unfold slice. change (Z.to_nat 32) with 32%nat. symmetry. apply firstn_all2. pose proof (skipn_length 32 l) as E. unfold zlen. lia. Qed.
Lemma box_cipher_len k n msg : zlen n = 24 -> zlen (box_cipher k n msg) = zlen msg.
Proof. intros Hn. unfold box_cipher. apply zlen_xor. unfold zlen. rewrite skipn_length, xsalsa_len by exact Hn. lia. Qed.
Lemma box_cipher_ok k n msg : zlen n = 24 -> bytes_ok msg -> bytes_ok (box_cipher k n msg).
Proof.
  intros Hn Hm. unfold box_cipher. apply xor_ok; [exact Hm| |unfold zlen; rewrite skipn_length, xsalsa_len by exact Hn; lia].
  pose proof (xsalsa_ok k n (32 + length msg)) as B. rewrite <- (firstn_skipn 32) in B. now apply bytes_ok_app in B as [_ B].
Qed.
Lemma box_cipher_invol k n msg : zlen n = 24 -> box_cipher k n (box_cipher k n msg) = msg.
Proof.
  intros Hn. pose proof (box_cipher_len k n msg Hn) as L. unfold box_cipher at 1. assert (EL: length (box_cipher k n msg) = length msg) by (unfold zlen in L; lia). rewrite EL.
  assert (LX: zlen (skipn 32 (xsalsa20_stream k n (32 + length msg))) = zlen msg) by (unfold zlen; rewrite skipn_length, xsalsa_len by exact Hn; lia).
  apply list_ext_z; [rewrite zlen_xor by lia; exact L|]. intros i Hi. rewrite zlen_xor in Hi by lia. rewrite znth_map2_lxor by lia. unfold box_cipher. rewrite znth_map2_lxor by lia. rewrite Z.lxor_assoc, Z.lxor_nilpotent. apply Z.lxor_0_r.
Qed.
Lemma xor_split k n l d : zlen n = 24 -> zlen l = d -> 32 <= d ->
  slice (xor_bytes l (xsalsa20_stream k n (length l))) 32 (d - 32) = box_cipher k n (slice l 32 (d - 32)).
Proof.
  intros Ln Ll Hd. assert (E: length l = (32 + length (slice l 32 (d - 32)))%nat) by (pose proof (zlen_slice l 32 (d - 32) ltac:(lia) ltac:(lia) ltac:(lia)) as E; unfold zlen in *; lia).
  rewrite <- (skipn32_slice (xor_bytes _ _)) by (rewrite zlen_xor by (unfold zlen; now rewrite xsalsa_len); exact Ll). unfold xor_bytes. rewrite map2_skipn. unfold box_cipher, xor_bytes. rewrite <- E. rewrite <- (skipn32_slice l) by exact Ll. reflexivity.
Qed.
Local Opaque xsalsa20_stream poly1305 box_cipher.
Theorem secretbox_ok w c m d n k : word_size w -> bytes_ok m -> bytes_ok n -> bytes_ok k -> zlen c = d -> zlen m = d -> zlen n = 24 -> zlen k = 32 ->
  32 <= d -> slice m 0 32 = zeros 32 ->
  crypto_secretbox w c m d n k = Ret (0, zeros 16 ++ box_tag k n (box_cipher k n (slice m 32 (d - 32))) ++ box_cipher k n (slice m 32 (d - 32))).
Proof.
  intros W Bm Bn Bk Lc Lm Ln Lk Hd Z0. unfold crypto_secretbox. replace (d <? 32) with false by lia. rewrite stream_xor_ok by assumption. cbn [bind].
  pose proof (xor_split k n m d Ln Lm Hd) as ES. assert (LX: zlen (xsalsa20_stream k n (length m)) = zlen m) by (unfold zlen; now rewrite xsalsa_len).
  assert (EK: slice (xor_bytes m (xsalsa20_stream k n (length m))) 0 32 = xsalsa20_stream k n 32).
  { unfold slice in Z0 |- *. change (Z.to_nat 0) with 0%nat in *. change (Z.to_nat 32) with 32%nat in *. cbn [skipn] in *. unfold xor_bytes. rewrite map2_firstn, Z0. rewrite xsalsa_prefix by (try exact Ln; unfold zlen in *; lia).
    pose proof (xor_zeros (xsalsa20_stream k n 32)) as XZ. pose proof (xsalsa_len k n 32 Ln) as L32. unfold xor_bytes, zlen in XZ. rewrite L32 in XZ. exact XZ. }
  set (c1 := xor_bytes m (xsalsa20_stream k n (length m))) in *. assert (L1: zlen c1 = d) by (unfold c1; rewrite zlen_xor by (symmetry; exact LX); exact Lm). assert (B1: bytes_ok c1) by (apply xor_ok; [exact Bm|apply xsalsa_ok|symmetry; exact LX]). clearbody c1.
  rewrite onetimeauth_ok by (try assumption; lia). cbn [bind]. rewrite poly1305_key, EK, ES. set (ct := box_cipher k n (slice m 32 (d - 32))) in *. fold (box_tag k n ct). assert (Lt: zlen (box_tag k n ct) = 16) by (unfold box_tag; apply poly1305_len).
  rewrite copy_ok by lia. cbn [bind]. rewrite (slice_all (box_tag k n ct)) by lia. rewrite L1. replace (d - 16 - 16) with (d - 32) by lia. change (16 + 16) with 32. rewrite ES.
  assert (LC: zlen ct = d - 32) by (unfold ct; rewrite box_cipher_len by exact Ln; apply zlen_slice; lia).
  assert (L0: zlen (slice c1 0 16) = 16) by (apply zlen_slice; lia).
  rewrite zero_loop by (rewrite !zlen_app, L0, Lt, LC; lia). cbn [bind]. f_equal. f_equal. f_equal. rewrite slice_app_r by (rewrite ?zlen_app, ?L0, ?Lt, ?LC; lia). rewrite L0. change (16 - 16) with 0. apply slice_all. rewrite !zlen_app, L0. lia.
Qed.
Theorem secretbox_open_ok w m c d n k : word_size w -> bytes_ok c -> bytes_ok n -> bytes_ok k -> zlen c = d -> zlen m = d -> zlen n = 24 -> zlen k = 32 -> 32 <= d ->
  crypto_secretbox_open w m c d n k =
  Ret (if list_eqb (slice c 16 16) (box_tag k n (slice c 32 (d - 32))) then (0, zeros 32 ++ box_cipher k n (slice c 32 (d - 32))) else (-1, m)).
Proof.
  intros W Bc Bn Bk Lc Lm Ln Lk Hd. unfold crypto_secretbox_open. replace (d <? 32) with false by lia.
  pose proof (crypto_stream_ok w (zeros 32) n k W Bn Bk Ln Lk) as CS. change (zlen (zeros 32)) with 32 in CS. change (length (zeros 32)) with 32%nat in CS. rewrite CS. cbn [bind].
  assert (LX: zlen (xsalsa20_stream k n 32) = 32) by (unfold zlen; now rewrite xsalsa_len).
  rewrite onetimeauth_verify_ok; try assumption; try lia; [|apply xsalsa_ok]. cbn [bind]. fold (box_tag k n (slice c 32 (d - 32))).
  destruct (list_eqb (slice c 16 16) (box_tag k n (slice c 32 (d - 32)))); cbn [Z.eqb negb]; [|reflexivity].
  rewrite stream_xor_ok by assumption. cbn [bind]. assert (L1: zlen (xor_bytes c (xsalsa20_stream k n (length c))) = d) by (rewrite zlen_xor by (unfold zlen; now rewrite xsalsa_len); exact Lc).
  rewrite zero_loop by lia. cbn [bind]. rewrite L1, xor_split by assumption. reflexivity.
Qed.
