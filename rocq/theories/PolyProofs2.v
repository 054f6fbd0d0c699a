(** crypto_onetimeauth computes Poly1305: the loop over the message and the final reduction. *)
From Verif Require Import Base Wp Tab EdSpec BoxSpec Tweet TweetField TweetField2 TweetCurve TweetBox PolyProofs.
Ltac Zify.zify_post_hook ::= idtac.

Lemma for_loop_ext {S} n (f g : Z -> S -> outcome S) s : (forall i s, 0 <= i < n -> f i s = g i s) -> for_loop n f s = for_loop n g s.
Proof.
  intros H. unfold for_loop. assert (G: forall k i s, 0 <= i -> i + Z.of_nat k <= Z.max 0 n -> for_from k i f s = for_from k i g s).
  { induction k as [|k IH]; intros i t Hi Hk; cbn [for_from]; [reflexivity|]. rewrite H by lia. destruct (g i t); cbn [bind]; [|reflexivity]. apply IH; lia. }
  apply G; lia.
Qed.
Lemma sel_mask w s a b : word_size w -> 0 <= a <= 255 -> 0 <= b <= 255 -> s = 0 \/ s = 1 ->
  Z.lxor b (Z.land (uw w (- s)) (Z.lxor a b)) = if s =? 1 then a else b.
Proof.
  intros W Ha Hb [-> | ->].
  - change (- 0) with 0. rewrite uw_small by (assumption || lia). cbn [Z.land Z.eqb]. apply Z.lxor_0_r.
  - assert (Hx: 0 <= Z.lxor a b < 256) by (apply lxor_byte; unfold byte_ok; lia). cbn [Z.eqb].
    assert (E: Z.land (uw w (- (1))) (Z.lxor a b) = Z.lxor a b).
    { destruct W as [-> | ->]; rewrite Z.land_comm; [change (uw 32 (- (1))) with (Z.ones 32)|change (uw 64 (- (1))) with (Z.ones 64)]; rewrite Z.land_ones by lia; apply Z.mod_small; lia. }
    rewrite E. rewrite Z.lxor_comm, Z.lxor_assoc, Z.lxor_nilpotent. apply Z.lxor_0_r.
Qed.
Lemma freeze_arith P h q : h = q -> 0 <= q -> 256 <= P -> q < 5 * P ->
  let v := (q + (5 + 252 * P)) mod (256 * P) in
  (v / P < 128 /\ 4 * P - 5 <= q /\ v = q - (4 * P - 5)) \/ (128 <= v / P < 256 /\ q < 4 * P - 5).
Proof.
  intros -> Hq HP Hq5 v. destruct (Z.le_gt_cases (4 * P - 5) q).
  - left. assert (E: v = q - (4 * P - 5)) by (unfold v; replace (q + (5 + 252 * P)) with ((q - (4 * P - 5)) + 1 * (256 * P)) by lia; rewrite Z.mod_add, Z.mod_small by lia; reflexivity).
    split; [|split; [lia|exact E]]. rewrite E. apply Z.div_lt_upper_bound; lia.
  - right. assert (E: v = q + (5 + 252 * P)) by (unfold v; apply Z.mod_small; lia). rewrite E. split; [|lia]. split; [apply Z.div_le_lower_bound; lia|apply Z.div_lt_upper_bound; lia].
Qed.
Lemma poly_freeze_ok w h a : word_size w -> polyst h a -> wp (poly_freeze w h) (fun o => limbs 255 o /\ bval 256 o = a mod poly_p).
Proof.
  intros W Hh. pose proof (polyst_limbs _ _ Hh) as Ll. destruct Hh as (Lh & Bh & Th & Mh). unfold poly_freeze. cbv zeta. apply wp_bind.
  eapply wp_mono; [apply (add1305_ok w h minusp 255 W Ll); [split; [reflexivity|]|lia]|].
  { intros i Hi. apply (Forall_ix (fun x => 0 <= x <= 255) minusp); [repeat constructor; lia|exact Hi]. }
  intros o (Lo & Vo). cbv beta. apply wp_bind, wp_rd; [destruct Lo as [Lo _]; lia|].
  pose proof (bps16_range h Lh Bh) as Rh. assert (Ro: 0 <= bps 256 o 16 < 256 ^ 16) by (apply bps16_range; [apply Lo|intros k Hk; apply Lo; lia]).
  replace (bval 256 minusp) with (5 + 252 * 256 ^ 16) in Vo by reflexivity. replace (256 ^ 17) with (256 * 256 ^ 16) in Vo by reflexivity.
  assert (Vo2: bval 256 o / 256 ^ 16 = znth o 16) by (rewrite (bval17 o) by apply Lo; rewrite Z.add_comm, (Z.mul_comm (256 ^ 16)), Z.div_add_l by lia; rewrite Z.div_small by exact Ro; lia).
  assert (Vh: bval 256 h < 5 * 256 ^ 16 /\ 0 <= bval 256 h) by (rewrite (bval17 h) by exact Lh; assert (0 < 256 ^ 16) by (vm_compute; reflexivity); clear - Rh Th H; generalize dependent (256 ^ 16); intros P Rh HP; assert (P * znth h 16 <= P * 4) by (apply Z.mul_le_mono_nonneg_l; lia); assert (0 <= P * znth h 16) by (apply Z.mul_nonneg_nonneg; lia); lia).
  pose proof (freeze_arith (256 ^ 16) _ (bval 256 h) eq_refl (proj2 Vh) ltac:(vm_compute; discriminate) (proj1 Vh)) as FA. cbv zeta in FA. rewrite <- Vo, Vo2 in FA. replace (4 * 256 ^ 16 - 5) with poly_p in FA by reflexivity.
  assert (P2: 5 * 256 ^ 16 <= 2 * poly_p) by (vm_compute; discriminate). assert (P0: 0 < poly_p) by (vm_compute; reflexivity).
  set (b := if bval 256 h <? poly_p then 1 else 0).
  assert (Eb: Z.shiftr (znth o 16) 7 = b).
  { rewrite Z.shiftr_div_pow2 by lia. change (2 ^ 7) with 128. assert (B16: 0 <= znth o 16 <= 255) by (apply Lo; lia). unfold b. destruct (Z.ltb_spec (bval 256 h) poly_p); destruct FA as [(F1 & F2 & _)|(F1 & F2)]; try (exfalso; clear - H F2; lia).
    - symmetry. apply (Z.div_unique (znth o 16) 128 1 (znth o 16 - 128)); clear - F1; lia.
    - apply Z.div_small. clear - F1 B16; lia. }
  rewrite Eb. assert (Hb: b = 0 \/ b = 1) by (unfold b; destruct (_ <? _); [right|left]; reflexivity).
  assert (Er: bval 256 (if b =? 1 then h else o) = a mod poly_p).
  { rewrite <- Mh. unfold b. destruct (Z.ltb_spec (bval 256 h) poly_p); cbn [Z.eqb].
    - symmetry. apply Z.mod_small. destruct Vh as [V1 V0]. split; [exact V0|exact H].
    - destruct FA as [(F1 & F2 & F3)|(F1 & F2)]; [|exfalso; clear - H F2; lia]. rewrite F3. symmetry. replace (bval 256 h) with (bval 256 h - poly_p + 1 * poly_p) at 1 by ring. rewrite Z.mod_add by (clear - P0; lia). apply Z.mod_small. clear - F2 Vh P2. lia. }
  apply wp_eq with (a := if b =? 1 then h else o); [|split; [destruct (b =? 1); assumption|exact Er]].
  clear - W Ll Lo Hb. destruct Ll as [Lh Hh], Lo as [Lo Ho]. apply wp_is.
  apply (wp_for_loop (fun j x => zlen x = 17 /\ forall i, 0 <= i < 17 -> znth x i = if i <? j then znth (if b =? 1 then h else o) i else znth o i)); [lia| | |].
  - split; [exact Lo|]. intros i Hi. destruct (Z.ltb_spec i 0); [lia|reflexivity].
  - intros j x Hj (Lx & Hx). apply wp_bind, wp_rd; [lia|]. apply wp_bind, wp_rd; [lia|]. rewrite (Hx j Hj). destruct (Z.ltb_spec j j); [lia|]. rewrite sel_mask by (try assumption; (apply Hh || apply Ho); assumption).
    apply wp_wr; [lia|]. split; [now rewrite zlen_zupd|]. intros i Hi. rewrite znth_zupd by lia. destruct (Z.eqb_spec i j) as [->|]; [destruct (Z.ltb_spec j (j + 1)); [|lia]; destruct (b =? 1); reflexivity|]. rewrite Hx by exact Hi. destruct (Z.ltb_spec i j), (Z.ltb_spec i (j + 1)); try lia; reflexivity.
  - intros x (Lx & Hx). apply list_ext_z; [destruct (b =? 1); lia|]. intros i Hi. rewrite Hx by lia. destruct (Z.ltb_spec i 17); [reflexivity|lia].
Qed.

(** blocks *)
Lemma blocks16_fuel : forall f m, (length m <= f)%nat -> blocks16 f m = blocks16 (length m) m.
Proof.
  assert (G: forall f g m, (length m <= f)%nat -> (length m <= g)%nat -> blocks16 f m = blocks16 g m).
  { induction f as [|f IH]; intros [|g] m Hf Hg; destruct m as [|x m]; try reflexivity; cbn [length] in *; try lia.
    cbn [blocks16]. f_equal. apply IH; pose proof (skipn_length 16 (x :: m)) as E; cbn [length] in E; lia. }
  intros f m H. apply G; lia.
Qed.
Lemma blocks16_cons m : m <> [] -> blocks16 (length m) m = firstn 16 m :: blocks16 (length (skipn 16 m)) (skipn 16 m).
Proof.
  destruct m as [|x m]; [congruence|]. intros _. cbn [length blocks16]. f_equal. apply blocks16_fuel. pose proof (skipn_length 16 (x :: m)) as E; cbn [length] in E; lia.
Qed.
Definition pstep (r a : Z) (b : list Z) : Z := ((a + le_val (b ++ [1])) * r) mod poly_p.
Lemma poly_acc_step r a m : m <> [] ->
  fold_left (pstep r) (blocks16 (length m) m) a = fold_left (pstep r) (blocks16 (length (skipn 16 m)) (skipn 16 m)) (pstep r a (firstn 16 m)).
Proof. intros H. rewrite blocks16_cons by exact H. reflexivity. Qed.
Lemma polyst_mod h a : polyst h a -> polyst h (a mod poly_p).
Proof. intros (L & B & T & M). repeat (split; [assumption|]). now rewrite Z.mod_mod by (vm_compute; discriminate). Qed.
Lemma firstn_slice {A} (l : list A) off n k : 0 <= off -> 0 <= k <= n -> firstn (Z.to_nat k) (slice l off n) = slice l off k.
Proof. intros Ho Hk. unfold slice. rewrite firstn_firstn. f_equal. lia. Qed.
Lemma skipn_slice {A} (l : list A) off n k : 0 <= off -> 0 <= k <= n -> skipn (Z.to_nat k) (slice l off n) = slice l (off + k) (n - k).
Proof. intros Ho Hk. unfold slice. rewrite skipn_firstn_comm, skipn_skipn'. f_equal; [lia|]. f_equal. lia. Qed.
Lemma poly_loop_ok w m off n r : word_size w -> bytes_ok m -> 0 <= off -> 0 <= n -> off + n <= zlen m -> limbs 255 r ->
  wp (for_loop ((n + 15) / 16) (fun t h => poly_block w m (off + 16 * t) (n - 16 * t) r h) (zeros 17))
  (fun h => polyst h (poly_acc (bval 256 r) (slice m off n))).
Proof.
  intros W Bm Ho Hn HL Hr. set (R := bval 256 r).
  pose proof (Z.div_mod (n + 15) 16 ltac:(lia)) as DM. pose proof (Z.mod_pos_bound (n + 15) 16 ltac:(lia)) as MB. set (T := (n + 15) / 16) in *. clearbody T.
  apply (wp_for_loop (fun t h => exists a, polyst h a /\ fold_left (pstep R) (blocks16 (length (skipn (Z.to_nat (16 * t)) (slice m off n))) (skipn (Z.to_nat (16 * t)) (slice m off n))) a = poly_acc R (slice m off n))); [lia| | |].
  - exists 0. split; [|reflexivity]. split; [reflexivity|]. split; [intros k Hk; rewrite znth_zeros; lia|]. split; [rewrite znth_zeros; lia|reflexivity].
  - intros t h Ht (a & Hh & Ea). eapply wp_mono; [apply (poly_block_ok w m (off + 16 * t) (n - 16 * t) r h a); try assumption; lia|].
    intros h' Hh'. cbv beta. exists (pstep R a (slice m (off + 16 * t) (Z.min 16 (n - 16 * t)))). split; [apply polyst_mod in Hh'; exact Hh'|]. rewrite <- Ea.
    rewrite (skipn_slice m off n (16 * t)) by lia.
    rewrite (poly_acc_step R a (slice m (off + 16 * t) (n - 16 * t))).
    2:{ intros E. apply (f_equal (@zlen Z)) in E. rewrite zlen_slice in E by lia. change (zlen (@nil Z)) with 0 in E. lia. }
    assert (E1: firstn 16 (slice m (off + 16 * t) (n - 16 * t)) = slice m (off + 16 * t) (Z.min 16 (n - 16 * t))).
    { unfold slice. rewrite firstn_firstn. f_equal. lia. }
    rewrite E1. assert (E2: skipn 16 (slice m (off + 16 * t) (n - 16 * t)) = skipn (Z.to_nat (16 * (t + 1))) (slice m off n)).
    { unfold slice. rewrite !skipn_firstn_comm, !skipn_skipn'. f_equal; [lia|]. f_equal. lia. }
    rewrite E2. reflexivity.
  - intros h (a & Hh & Ea). rewrite (skipn_all2 (slice m off n)) in Ea by (pose proof (zlen_slice m off n Ho Hn HL) as E; unfold zlen in E; lia). cbn [length blocks16 fold_left] in Ea. rewrite <- Ea. exact Hh.
Qed.
Lemma poly_acc_range r m : 0 <= poly_acc r m < poly_p.
Proof.
  unfold poly_acc. assert (G: forall l a, 0 <= a < poly_p -> 0 <= fold_left (fun a b => ((a + le_val (b ++ [1])) * r) mod poly_p) l a < poly_p).
  { induction l as [|b l IH]; intros a Ha; cbn [fold_left]; [exact Ha|]. apply IH. apply Z.mod_pos_bound. vm_compute; reflexivity. }
  apply G. split; [discriminate|vm_compute; reflexivity].
Qed.
Lemma le_bytes_modP n v k : 0 <= k -> le_bytes n (v mod 256 ^ (Z.of_nat n + k)) = le_bytes n v.
Proof.
  intros Hk. revert v. induction n as [|n IH]; intros v; [reflexivity|]. cbn [le_bytes]. rewrite Nat2Z.inj_succ. replace (Z.succ (Z.of_nat n) + k) with (1 + (Z.of_nat n + k)) by lia. rewrite Z.pow_add_r by lia. rewrite Z.pow_1_r. assert (0 < 256 ^ (Z.of_nat n + k)) by (apply Z.pow_pos_nonneg; lia).
  rewrite Z.rem_mul_r by lia. f_equal.
  - rewrite (Z.mul_comm 256), Z.mod_add by lia. apply Z.mod_mod. lia.
  - rewrite (Z.mul_comm 256), Z.div_add by lia. rewrite (Z.div_small (v mod 256)) by (apply Z.mod_pos_bound; lia). rewrite Z.add_0_l. apply IH.
Qed.
Theorem onetimeauth_ok w m off n k : word_size w -> bytes_ok m -> bytes_ok k -> 0 <= off -> 0 <= n -> off + n <= zlen m -> 32 <= zlen k ->
  crypto_onetimeauth w m off n k = Ret (poly1305 k (slice m off n)).
Proof.
  intros W Bm Bk Ho Hn HL Lk. apply wp_is. unfold crypto_onetimeauth. apply wp_bind. eapply wp_mono; [apply poly_r_ok; [lia|exact Bk]|]. intros r (Lr & Vr). cbv beta.
  apply wp_bind. eapply wp_mono; [apply poly_loop_ok; assumption|]. intros h Hh. cbv beta. apply wp_bind. eapply wp_mono; [apply (poly_freeze_ok w h _ W Hh)|]. intros o (Lo & Vo). cbv beta.
  rewrite Z.mod_small in Vo by apply poly_acc_range. rewrite Vr in Vo.
  assert (EC: for_loop 16 (fun j c => a <- rd 0 k (j + 16) ;; wr c j a) (zeros 17) = Ret (slice k 16 16 ++ [0])).
  { transitivity (for_loop 16 (fun i c => a <- rd 0 k (16 + i) ;; wr c i a) (zeros 17)); [|rewrite fill_ok by (rewrite ?zlen_zeros; lia); reflexivity].
    apply for_loop_ext. intros i c Hi. now rewrite (Z.add_comm i 16). }
  rewrite EC. cbn [bind]. assert (Bc: bytes_ok (slice k 16 16 ++ [0])) by (apply bytes_ok_app; split; [now apply bytes_ok_slice|repeat constructor; unfold byte_ok; lia]).
  assert (Ls: zlen (slice k 16 16) = 16) by (apply zlen_slice; lia).
  assert (Lc: limbs 255 (slice k 16 16 ++ [0])). { split; [rewrite zlen_app, Ls; reflexivity|]. intros i Hi. rewrite bytes_ok_znth in Bc. specialize (Bc i). rewrite zlen_app, Ls in Bc. specialize (Bc Hi). unfold byte_ok in Bc. lia. }
  apply wp_bind. eapply wp_mono; [apply (add1305_ok w o _ 255 W Lo Lc); lia|]. intros f (Lf & Vf). cbv beta.
  assert (Ec: bval 256 (slice k 16 16 ++ [0]) = le_val (slice k 16 16)) by (rewrite bval_app, le_val_bval; cbn [bval]; ring). rewrite Ec, Vo in Vf.
  unfold poly1305. change (2 ^ 128) with (256 ^ (Z.of_nat 16 + 0)). rewrite le_bytes_modP by lia.
  rewrite <- (le_bytes_modP 16 _ 1) by lia. change (256 ^ (Z.of_nat 16 + 1)) with (256 ^ 17). rewrite <- Vf.
  destruct Lf as [Lf Bf]. apply (wp_for_loop (fun j out => zlen out = 16 /\ forall i, 0 <= i < j -> znth out i = znth f i)); [lia|split; [reflexivity|lia]| |].
  - intros j out Hj (Lo' & Ho'). apply wp_bind, wp_rd; [lia|]. apply wp_wr; [lia|]. split; [now rewrite zlen_zupd|]. intros i Hi. rewrite znth_zupd by lia. destruct (Z.eqb_spec i j) as [->|]; [|apply Ho'; lia]. unfold u8. apply Z.mod_small. pose proof (Bf j ltac:(lia)). change (2 ^ 8) with 256. lia.
  - intros out (Lo' & Ho'). assert (E: out = pre f 16). { apply list_ext_z; [unfold pre; rewrite zlen_firstn; lia|]. intros i Hi. rewrite Ho' by lia. pose proof (ix_slice f 0 16 i ltac:(lia) ltac:(lia)) as E. unfold ix, slice in E. cbn [Z.to_nat skipn] in E. unfold pre, znth. symmetry. exact E. }
    assert (Bo: bytes_ok out) by (apply bytes_ok_znth; intros i Hi; rewrite Ho' by lia; pose proof (Bf i ltac:(lia)); unfold byte_ok; lia).
    rewrite <- (le_bytes_val out Bo). replace (length out) with 16%nat by (unfold zlen in Lo'; lia). rewrite le_val_bval, E. fold (bps 256 f 16). rewrite bval17 by exact Lf. rewrite (Z.mul_comm (256 ^ 16)).
    rewrite <- (le_bytes_modP 16 (bps 256 f 16 + _) 0) by lia. change (256 ^ (Z.of_nat 16 + 0)) with (256 ^ 16). rewrite Z.mod_add by (vm_compute; discriminate). rewrite Z.mod_small by (apply bps16_range; [exact Lf|intros i Hi; apply Bf; lia]). reflexivity.
Qed.
Theorem onetimeauth_verify_ok w h ho m off n k : word_size w -> bytes_ok h -> bytes_ok m -> bytes_ok k -> 0 <= ho -> ho + 16 <= zlen h -> 0 <= off -> 0 <= n -> off + n <= zlen m -> 32 <= zlen k ->
  crypto_onetimeauth_verify w h ho m off n k = Ret (if list_eqb (slice h ho 16) (poly1305 k (slice m off n)) then 0 else -1).
Proof.
  intros W Bh Bm Bk Hho HLh Ho Hn HL Lk. unfold crypto_onetimeauth_verify. rewrite onetimeauth_ok by assumption. cbn [bind]. unfold rdrange. replace (16 <=? 0) with false by reflexivity. replace ((0 <=? ho) && (ho + 16 <=? zlen h)) with true by lia. cbn [bind].
  apply verify_16_ok; [apply zlen_slice; lia|unfold poly1305, zlen; now rewrite le_bytes_length|now apply bytes_ok_slice|apply le_bytes_ok].
Qed.
