(** crypto_hash of tweetnacl.c computes SHA-512 (FIPS 180-4). *)
From Verif Require Import Base Wp Tweet Sha512Spec.
Ltac Zify.zify_post_hook ::= Z.div_mod_to_equations.

Definition w64 (x : Z) : Prop := 0 <= x < W64.
Lemma W64_val : W64 = 2 ^ 64. Proof. reflexivity. Qed.
Lemma w64_bits x : w64 x <-> 0 <= x /\ forall n, 64 <= n -> Z.testbit x n = false.
Proof.
  unfold w64, W64. split.
  - intros H. split; [lia|]. intros n Hn. rewrite <- (Z.mod_small x (2 ^ 64)) by lia. apply Z.mod_pow2_bits_high. lia.
  - intros [H0 H]. split; [exact H0|]. destruct (Z.eq_dec x 0) as [->|Hx]; [lia|]. apply Z.log2_lt_pow2; [lia|]. destruct (Z.lt_ge_cases (Z.log2 x) 64) as [G|G]; [exact G|]. specialize (H _ G). rewrite Z.bit_log2 in H by lia. discriminate.
Qed.
Lemma w64_lxor x y : w64 x -> w64 y -> w64 (Z.lxor x y).
Proof. rewrite !w64_bits. intros [Hx Bx] [Hy By]. split; [apply Z.lxor_nonneg; lia|]. intros n Hn. now rewrite Z.lxor_spec, Bx, By. Qed.
Lemma w64_land x y : w64 x -> w64 y -> w64 (Z.land x y).
Proof. rewrite !w64_bits. intros [Hx Bx] [Hy By]. split; [apply Z.land_nonneg; lia|]. intros n Hn. now rewrite Z.land_spec, Bx, By. Qed.
Lemma w64_add a b : w64 (add64 a b). Proof. unfold w64, add64, W64. lia. Qed.
Lemma lor_disj k a b : 0 <= k -> 0 <= a < 2 ^ k -> b mod 2 ^ k = 0 -> Z.lor a b = a + b.
Proof.
  intros Hk Ha Hb. assert (L: Z.land a b = 0).
  { apply Z.bits_inj'. intros n Hn. rewrite Z.land_spec, Z.bits_0. destruct (Z.lt_ge_cases n k).
    - replace (Z.testbit b n) with false; [apply andb_false_r|]. rewrite <- (Z.mod_pow2_bits_low b k n) by lia. rewrite Hb. symmetry. apply Z.bits_0.
    - replace (Z.testbit a n) with false; [reflexivity|]. rewrite <- (Z.mod_small a (2 ^ k)) by lia. symmetry. apply Z.mod_pow2_bits_high. lia. }
  rewrite Z.add_nocarry_lxor by exact L. rewrite <- Z.lxor_lor by exact L. reflexivity.
Qed.
Lemma Rr_ok x c : w64 x -> 0 < c < 64 -> Rr x c = rotr c x /\ w64 (rotr c x).
Proof.
  unfold w64, W64, Rr, rotr, u64. intros Hx Hc. rewrite Z.shiftr_div_pow2, Z.shiftl_mul_pow2 by lia.
  assert (E: 2 ^ 64 = 2 ^ c * 2 ^ (64 - c)) by (rewrite <- Z.pow_add_r by lia; f_equal; lia). assert (P1: 0 < 2 ^ c) by (apply Z.pow_pos_nonneg; lia). assert (P2: 0 < 2 ^ (64 - c)) by (apply Z.pow_pos_nonneg; lia).
  rewrite E, Zmult_mod_distr_r. assert (0 <= x / 2 ^ c < 2 ^ (64 - c)) by (split; [apply Z.div_pos; lia|apply Z.div_lt_upper_bound; lia]). pose proof (Z.mod_pos_bound x (2 ^ c) P1).
  split; [apply (lor_disj (64 - c)); [lia|assumption|apply Z.mod_mul; lia]|]. nia.
Qed.
Ltac rr := repeat match goal with
  | H : w64 ?x |- context [Rr ?x ?c] => rewrite (proj1 (Rr_ok x c H ltac:(lia)))
  end.
Lemma w64_rotr c x : w64 x -> 0 < c < 64 -> w64 (rotr c x). Proof. intros H Hc. now apply Rr_ok. Qed.
Lemma w64_shr c x : w64 x -> 0 <= c -> w64 (Sha512Spec.shr c x).
Proof. unfold w64, Sha512Spec.shr. intros H Hc. assert (0 < 2 ^ c) by (apply Z.pow_pos_nonneg; lia). split; [apply Z.div_pos; lia|]. apply Z.div_lt_upper_bound; [lia|]. nia. Qed.
Lemma Sigma0_ok x : w64 x -> Sigma0 x = bigS0 x. Proof. intros H. unfold Sigma0, bigS0. rr. reflexivity. Qed.
Lemma Sigma1_ok x : w64 x -> Sigma1 x = bigS1 x. Proof. intros H. unfold Sigma1, bigS1. rr. reflexivity. Qed.
Lemma sigma0_ok x : w64 x -> sigma0 x = smallS0 x. Proof. intros H. unfold sigma0, smallS0. rr. rewrite Z.shiftr_div_pow2 by lia. reflexivity. Qed.
Lemma sigma1_ok x : w64 x -> sigma1 x = smallS1 x. Proof. intros H. unfold sigma1, smallS1. rr. rewrite Z.shiftr_div_pow2 by lia. reflexivity. Qed.
Lemma Ch_ok x y z : w64 x -> Ch x y z = fCh x y z.
Proof. unfold w64. intros H. unfold Ch, fCh, u64. do 2 f_equal. unfold Z.lnot. rewrite W64_val in *. lia. Qed.

(** ** big-endian loads and stores *)
Lemma be_val_snoc l x : be_val (l ++ [x]) = 256 * be_val l + x.
Proof. unfold be_val. rewrite fold_left_app. reflexivity. Qed.
Lemma be_val_range l : bytes_ok l -> 0 <= be_val l < 256 ^ zlen l.
Proof.
  induction l as [|x l IH] using rev_ind; intros H; [change (0 <= 0 < 1); lia|]. apply bytes_ok_app in H as [H1 H2]. inversion H2 as [|? ? Hx _]; subst. specialize (IH H1). rewrite be_val_snoc, zlen_app. change (zlen [x]) with 1. rewrite Z.pow_add_r, Z.pow_1_r by (try apply zlen_nonneg; lia). unfold byte_ok in Hx. lia.
Qed.
Lemma dl64_ok m off : bytes_ok m -> 0 <= off -> off + 8 <= zlen m -> dl64 m off = Ret (be_val (slice m off 8)).
Proof.
  intros Hm Ho Hl. apply wp_is. unfold dl64. apply (wp_for_loop (fun i u => u = be_val (slice m off i))); [lia|reflexivity| |intros u ->; reflexivity].
  intros i u Hi ->. apply wp_bind, wp_rd; [lia|]. apply wp_ret. rewrite slice_snoc by lia. rewrite be_val_snoc. fold (znth m (off + i)).
  pose proof (be_val_range (slice m off i) (bytes_ok_slice _ _ _ Hm)) as R. rewrite zlen_slice in R by lia.
  assert (256 ^ i <= 256 ^ 7) by (apply Z.pow_le_mono_r; lia). change (256 ^ 7) with (2 ^ 56) in *. set (v := be_val (slice m off i)) in *.
  assert (byte_ok (znth m (off + i))) as Hb by apply bytes_ok_nth, Hm. unfold byte_ok in Hb. rewrite Z.shiftl_mul_pow2 by lia. replace (u64 (v * 2 ^ 8)) with (256 * v) by (unfold u64; change (2 ^ 8) with 256; lia).
  rewrite Z.lor_comm, (lor_disj 8) by (change (2 ^ 8) with 256; lia). lia.
Qed.
Lemma wr_app (p r : list Z) i v : 0 <= i < zlen r -> wr (p ++ r) (zlen p + i) v = Ret (p ++ upd r (Z.to_nat i) v).
Proof.
  intros Hi. pose proof (zlen_nonneg p). rewrite wr_ok by (rewrite zlen_app; lia). f_equal. replace (Z.to_nat (zlen p + i)) with (length p + Z.to_nat i)%nat by (unfold zlen; lia).
  clear. induction p as [|x p IH]; [reflexivity|]. cbn [length Nat.add app upd]. now rewrite IH.
Qed.
Lemma ts64_ok p x0 x1 x2 x3 x4 x5 x6 x7 r u : ts64 (p ++ x0 :: x1 :: x2 :: x3 :: x4 :: x5 :: x6 :: x7 :: r) (zlen p) u = Ret (p ++ be_bytes 8 u ++ r).
Proof.
  unfold ts64, for_loop. change (Z.to_nat 8) with 8%nat. cbn [for_from]. pose proof (zlen_nonneg r).
  assert (HS: forall a b c d e f g h, zlen (a :: b :: c :: d :: e :: f :: g :: h :: r) = 8 + zlen r) by (intros; rewrite !zlen_cons; lia).
  repeat (rewrite wr_app by (rewrite HS; lia); cbn [bind]; match goal with |- context [upd ?l (Z.to_nat ?e) ?v] => let n := eval vm_compute in (Z.to_nat e) in change (Z.to_nat e) with n end; cbn [upd]).
  rewrite !Z.shiftr_div_pow2 by lia. rewrite !Z.div_div by lia. cbn [be_bytes app]. change (256 ^ Z.of_nat 0) with 1. rewrite Z.div_1_r. reflexivity.
Qed.
Lemma wr_snoc (p : list Z) x r v n : zlen p = n -> wr (p ++ x :: r) n v = Ret (p ++ v :: r).
Proof. intros <-. rewrite <- (Z.add_0_r (zlen p)). rewrite wr_app by (rewrite zlen_cons; pose proof (zlen_nonneg r); lia). reflexivity. Qed.
Lemma be_bytes_length n v : length (be_bytes n v) = n. Proof. induction n; cbn [be_bytes length]; congruence. Qed.
Lemma be_bytes_ok n v : bytes_ok (be_bytes n v). Proof. induction n; constructor; [unfold byte_ok; lia|assumption]. Qed.
Lemma be_val_cons x l : be_val (x :: l) = x * 256 ^ zlen l + be_val l.
Proof.
  induction l as [|y l IH] using rev_ind; [change (zlen (@nil Z)) with 0; cbn; lia|]. change (x :: l ++ [y]) with ((x :: l) ++ [y]). rewrite !be_val_snoc, IH, zlen_app. change (zlen [y]) with 1. rewrite Z.pow_add_r, Z.pow_1_r by (try apply zlen_nonneg; lia). ring.
Qed.
Lemma be_val_bytes n v : be_val (be_bytes n v) = v mod 256 ^ Z.of_nat n.
Proof.
  induction n as [|n IH]; cbn [be_bytes]; [change (256 ^ Z.of_nat 0) with 1; rewrite Z.mod_1_r; reflexivity|]. rewrite be_val_cons, IH. unfold zlen. rewrite be_bytes_length, Nat2Z.inj_succ, Z.pow_succ_r by lia. rewrite (Z.mul_comm 256). rewrite Z.rem_mul_r by (try lia; apply Z.pow_pos_nonneg; lia). lia.
Qed.

(** ** one round *)
Definition words_ok (l : list Z) : Prop := Forall w64 l.
Lemma add64_l a b c : add64 (add64 a b) c = add64 (a + b) c.
Proof. unfold add64, W64. apply Z.add_mod_idemp_l. lia. Qed.
Lemma add64_5 a b c d e : u64 (a + b + c + d + e) = add64 (add64 (add64 (add64 a b) c) d) e.
Proof. rewrite (add64_l a b c), (add64_l (a + b) c d), (add64_l (a + b + c) d e). reflexivity. Qed.
Lemma add64_3 a b c : u64 (a + b + c) = add64 a (add64 b c).
Proof. unfold u64, add64, W64. rewrite Z.add_mod_idemp_r by lia. f_equal. ring. Qed.
Lemma add64_2 a b : u64 (a + b) = add64 a b. Proof. reflexivity. Qed.
Lemma add64_4 a b c d : u64 (a + b + c + d) = add64 (add64 d b) (add64 c a).
Proof. unfold u64, add64, W64. rewrite Z.add_mod_idemp_l, Z.add_mod_idemp_r by lia. f_equal. ring. Qed.
Lemma shift8 b0 b1 b2 b3 b4 b5 b6 b7 a0 a1 a2 a3 a4 a5 a6 a7 :
  for_loop 8 (fun j a => bj <- rd 0 [b0;b1;b2;b3;b4;b5;b6;b7] j ;; wr a ((j + 1) mod 8) bj) [a0;a1;a2;a3;a4;a5;a6;a7] = Ret [b7;b0;b1;b2;b3;b4;b5;b6].
Proof. vm_compute. reflexivity. Qed.
Definition vok (s : vars) : Prop := words_ok (list_of s).
Lemma sha_step_ok s kw : vok s -> vok (sha_step s kw).
Proof.
  destruct s as [[[[[[[a b] c] d] e] f] g] h], kw as [k w]. unfold vok, words_ok. cbn [list_of sha_step]. intros H.
  repeat match goal with H : Forall _ (_ :: _) |- _ => inversion H as [|? ? ? ?]; subst; clear H end. repeat (apply Forall_cons; [first [assumption|apply w64_add]|]); apply Forall_nil.
Qed.
(** the schedule update after every sixteenth round *)
Section Sched.
Context (ws : list Z) (Hlen : length ws = 16%nat) (Hok : words_ok ws).
Definition Wf (t : Z) : Z := nth (Z.to_nat t) (sched 80 ws) 0.
End Sched.
Lemma sched_length n w : length (sched n w) = (n + length w)%nat.
Proof. revert w; induction n as [|n IH]; intros w; [reflexivity|]. cbn [sched]. rewrite IH, app_length. cbn [length]. lia. Qed.
Lemma sched_prefix n w t : (t < length w)%nat -> nth t (sched n w) 0 = nth t w 0.
Proof. revert w; induction n as [|n IH]; intros w Ht; [reflexivity|]. cbn [sched]. rewrite IH by (rewrite app_length; lia). apply app_nth1. exact Ht. Qed.
Lemma sched_more n k w t : (t < n + length w)%nat -> nth t (sched (n + k) w) 0 = nth t (sched n w) 0.
Proof.
  revert w; induction n as [|n IH]; intros w Ht; cbn [Nat.add sched]; [apply sched_prefix; lia|]. apply IH. rewrite app_length. cbn [length]. lia.
Qed.
Lemma sched_rec n w t : (16 <= length w <= t)%nat -> (t < n + length w)%nat ->
  nth t (sched n w) 0 = add64 (add64 (smallS1 (nth (t - 2) (sched n w) 0)) (nth (t - 7) (sched n w) 0)) (add64 (smallS0 (nth (t - 15) (sched n w) 0)) (nth (t - 16) (sched n w) 0)).
Proof.
  revert w; induction n as [|n IH]; intros w Hw Ht; [lia|]. cbn [sched]. set (x := add64 _ _). destruct (Nat.eq_dec t (length w)) as [->|Hn].
  - rewrite !sched_prefix by (rewrite app_length; cbn [length]; lia). rewrite app_nth2, Nat.sub_diag by lia. cbn [nth]. rewrite !app_nth1 by lia. reflexivity.
  - apply IH; rewrite app_length; cbn [length]; lia.
Qed.
Lemma Wf_rec ws t : length ws = 16%nat -> 16 <= t < 96 -> Wf ws t = add64 (add64 (smallS1 (Wf ws (t - 2))) (Wf ws (t - 7))) (add64 (smallS0 (Wf ws (t - 15))) (Wf ws (t - 16))).
Proof.
  intros HL Ht. unfold Wf. rewrite sched_rec by lia. repeat f_equal; lia.
Qed.
Lemma Wf_ok ws t : length ws = 16%nat -> words_ok ws -> 0 <= t < 96 -> w64 (Wf ws t).
Proof.
  intros HL Hw Ht. destruct (Z.lt_ge_cases t 16); [|rewrite Wf_rec by lia; apply w64_add].
  unfold Wf. rewrite sched_prefix by lia. unfold words_ok in Hw. rewrite Forall_forall in Hw. apply Hw, nth_In. lia.
Qed.
Lemma w_update ws q w : length ws = 16%nat -> words_ok ws -> 0 <= q < 5 -> zlen w = 16 -> (forall m, 0 <= m < 16 -> znth w m = Wf ws (16 * q + m)) ->
  wp (for_loop 16 (fun j w =>
               wj <- rd 0 w j ;; w9 <- rd 0 w ((j + 9) mod 16) ;;
               w1 <- rd 0 w ((j + 1) mod 16) ;; w14 <- rd 0 w ((j + 14) mod 16) ;;
               wr w j (u64 (wj + w9 + sigma0 w1 + sigma1 w14))) w)
  (fun w' => zlen w' = 16 /\ forall m, 0 <= m < 16 -> znth w' m = Wf ws (16 * (q + 1) + m)).
Proof.
  intros HL Hok Hq Lw Hw.
  apply (wp_for_loop (fun j w' => zlen w' = 16 /\ forall m, 0 <= m < 16 -> znth w' m = Wf ws (if m <? j then 16 * (q + 1) + m else 16 * q + m))); [lia| | |].
  - split; [exact Lw|]. intros m Hm. replace (m <? 0) with false by lia. now apply Hw.
  - intros j w' Hj [L' H']. apply wp_bind, wp_rd; [lia|]. apply wp_bind, wp_rd; [lia|]. apply wp_bind, wp_rd; [lia|]. apply wp_bind, wp_rd; [lia|]. apply wp_wr; [lia|]. split; [now rewrite zlen_zupd|].
    intros m Hm. rewrite znth_zupd by lia. destruct (Z.eqb_spec m j) as [->|Hn]; [|rewrite H' by lia; f_equal; destruct (Z.ltb_spec m j), (Z.ltb_spec m (j + 1)); lia].
    replace (j <? j + 1) with true by lia. rewrite !H' by lia. replace (j <? j) with false by lia.
    set (t := 16 * (q + 1) + j). replace (16 * q + j) with (t - 16) by lia.
    replace (if (j + 9) mod 16 <? j then 16 * (q + 1) + (j + 9) mod 16 else 16 * q + (j + 9) mod 16) with (t - 7) by (destruct (Z.ltb_spec ((j + 9) mod 16) j); lia).
    replace (if (j + 1) mod 16 <? j then 16 * (q + 1) + (j + 1) mod 16 else 16 * q + (j + 1) mod 16) with (t - 15) by (destruct (Z.ltb_spec ((j + 1) mod 16) j); lia).
    replace (if (j + 14) mod 16 <? j then 16 * (q + 1) + (j + 14) mod 16 else 16 * q + (j + 14) mod 16) with (t - 2) by (destruct (Z.ltb_spec ((j + 14) mod 16) j); lia).
    rewrite sigma0_ok, sigma1_ok by (apply Wf_ok; (assumption || lia)). rewrite (Wf_rec ws t HL) by lia. apply add64_4.
  - intros w' [L' H']. split; [exact L'|]. intros m Hm. rewrite H' by lia. replace (m <? 16) with true by lia. reflexivity.
Qed.
Lemma K_eq : K512 = sha_K. Proof. vm_compute. reflexivity. Qed.
Opaque sha_K sched.
Lemma sha_round_ok ws i s w : length ws = 16%nat -> words_ok ws -> 0 <= i < 80 -> vok s -> zlen w = 16 -> (forall m, 0 <= m < 16 -> znth w m = Wf ws (16 * (i / 16) + m)) ->
  wp (sha_round i (list_of s) w) (fun '(a', w') => a' = list_of (sha_step s (nth (Z.to_nat i) sha_K 0, Wf ws i)) /\ zlen w' = 16 /\ forall m, 0 <= m < 16 -> znth w' m = Wf ws (16 * ((i + 1) / 16) + m)).
Proof.
  intros HL Hok Hi Hs Lw Hw. destruct s as [[[[[[[a b] c] d] e] f] g] h]. unfold vok, words_ok in Hs. cbn [list_of] in *.
  assert (Ha: w64 a) by (inversion Hs; assumption). assert (He: w64 e) by (do 4 (apply Forall_inv_tail in Hs); inversion Hs; assumption). unfold sha_round.
  change (rd 0 [a; b; c; d; e; f; g; h] 0) with (Ret a). change (rd 0 [a; b; c; d; e; f; g; h] 1) with (Ret b). change (rd 0 [a; b; c; d; e; f; g; h] 2) with (Ret c). change (rd 0 [a; b; c; d; e; f; g; h] 4) with (Ret e). change (rd 0 [a; b; c; d; e; f; g; h] 5) with (Ret f). change (rd 0 [a; b; c; d; e; f; g; h] 6) with (Ret g). change (rd 0 [a; b; c; d; e; f; g; h] 7) with (Ret h). cbn [bind].
  apply wp_bind, wp_rd; [change (zlen K512) with 80; lia|]. apply wp_bind, wp_rd; [lia|]. rewrite Hw by lia. replace (16 * (i / 16) + i mod 16) with i by lia. rewrite K_eq. change (znth sha_K i) with (nth (Z.to_nat i) sha_K 0). set (k := nth (Z.to_nat i) sha_K 0). cbv zeta.
  rewrite Sigma0_ok, Sigma1_ok, Ch_ok by assumption. rewrite add64_5. set (T1 := add64 (add64 (add64 (add64 h (bigS1 e)) (fCh e f g)) k) (Wf ws i)). rewrite (add64_3 T1).
  set (v7 := add64 T1 _). change (wr [a; b; c; d; e; f; g; h] 7 v7) with (Ret [a; b; c; d; e; f; g; v7]). cbn [bind]. change (rd 0 [a; b; c; d; e; f; g; v7] 3) with (Ret d). cbn [bind]. rewrite (add64_2 d T1). set (v3 := add64 d T1). change (wr [a; b; c; d; e; f; g; v7] 3 v3) with (Ret [a; b; c; v3; e; f; g; v7]). cbn [bind].
  rewrite shift8. cbn [bind].
  assert (HF: forall (o : outcome (list Z)), wp o (fun w' => zlen w' = 16 /\ forall m, 0 <= m < 16 -> znth w' m = Wf ws (16 * ((i + 1) / 16) + m)) ->
     wp (w0 <- o ;; Ret ([v7; a; b; c; v3; e; f; g], w0)) (fun '(a', w') => a' = list_of (sha_step (a, b, c, d, e, f, g, h) (k, Wf ws i)) /\ zlen w' = 16 /\ forall m, 0 <= m < 16 -> znth w' m = Wf ws (16 * ((i + 1) / 16) + m))).
  { intros o Ho. apply wp_bind. eapply wp_mono; [exact Ho|]. intros w' H'. apply wp_ret. split; [reflexivity|exact H']. }
  apply HF. destruct (Z.eqb_spec (i mod 16) 15) as [E|E].
  - replace ((i + 1) / 16) with (i / 16 + 1) by lia. apply w_update; try assumption. lia.
  - apply wp_ret. split; [exact Lw|]. replace ((i + 1) / 16) with (i / 16) by lia. exact Hw.
Qed.

(** ** one block *)
Lemma map8 (g : Z -> Z -> Z) z0 z1 z2 z3 z4 z5 z6 z7 a0 a1 a2 a3 a4 a5 a6 a7 :
  for_loop 8 (fun i '(z, a) =>
    ai <- rd 0 a i ;; zi <- rd 0 z i ;;
    let v := g ai zi in
    a <- wr a i v ;; z <- wr z i v ;; Ret (z, a)) ([z0;z1;z2;z3;z4;z5;z6;z7], [a0;a1;a2;a3;a4;a5;a6;a7]) =
  let r := [g a0 z0; g a1 z1; g a2 z2; g a3 z3; g a4 z4; g a5 z5; g a6 z6; g a7 z7] in Ret (r, r).
Proof. vm_compute. reflexivity. Qed.
Lemma add8 z0 z1 z2 z3 z4 z5 z6 z7 a0 a1 a2 a3 a4 a5 a6 a7 :
  for_loop 8 (fun i '(z, a) =>
    ai <- rd 0 a i ;; zi <- rd 0 z i ;;
    let v := u64 (ai + zi) in
    a <- wr a i v ;; z <- wr z i v ;; Ret (z, a)) ([z0;z1;z2;z3;z4;z5;z6;z7], [a0;a1;a2;a3;a4;a5;a6;a7]) =
  let r := [add64 a0 z0; add64 a1 z1; add64 a2 z2; add64 a3 z3; add64 a4 z4; add64 a5 z5; add64 a6 z6; add64 a7 z7] in Ret (r, r).
Proof. exact (map8 add64 z0 z1 z2 z3 z4 z5 z6 z7 a0 a1 a2 a3 a4 a5 a6 a7). Qed.
Definition hok (H : list Z) : Prop := length H = 8%nat /\ words_ok H.
Lemma hok_vars H : hok H -> exists a b c d e f g h, H = [a; b; c; d; e; f; g; h] /\ vok (a, b, c, d, e, f, g, h).
Proof.
  intros [HL HW]. destruct H as [|a [|b [|c [|d [|e [|f [|g [|h [|? ?]]]]]]]]]; try discriminate HL. exists a, b, c, d, e, f, g, h. split; [reflexivity|exact HW].
Qed.
Lemma block_words_ok blk : bytes_ok blk -> zlen blk = 128 -> length (block_words blk) = 16%nat /\ words_ok (block_words blk).
Proof.
  intros HB HL. split; [reflexivity|]. unfold words_ok, block_words. apply Forall_forall. intros x Hx. apply in_map_iff in Hx as (i & <- & Hi). apply in_seq in Hi. pose proof (be_val_range (slice blk (8 * Z.of_nat i) 8) (bytes_ok_slice _ _ _ HB)) as R. rewrite zlen_slice in R by lia. exact R.
Qed.
Lemma fold_vok l s : vok s -> vok (fold_left sha_step l s).
Proof. revert s; induction l as [|x l IH]; intros s H; [exact H|]. cbn [fold_left]. apply IH, sha_step_ok, H. Qed.
Lemma combine_firstn_nth (a b : list Z) i : (i < length a)%nat -> (i < length b)%nat -> firstn (S i) (combine a b) = firstn i (combine a b) ++ [(nth i a 0, nth i b 0)].
Proof.
  revert a b; induction i as [|i IH]; intros [|x a] [|y b] Ha Hb; cbn [length] in *; try lia; [reflexivity|]. cbn [combine]. rewrite !firstn_cons. cbn [app nth]. f_equal. apply IH; lia.
Qed.
Lemma sha_block_ok m off H : bytes_ok m -> 0 <= off -> off + 128 <= zlen m -> hok H -> sha_block m off H H = Ret (compress H (slice m off 128), compress H (slice m off 128)).
Proof.
  intros Hm Ho Hl HH. apply wp_is. unfold sha_block. set (blk := slice m off 128). assert (LB: zlen blk = 128) by (apply zlen_slice; lia). assert (BB: bytes_ok blk) by apply bytes_ok_slice, Hm.
  destruct (block_words_ok blk BB LB) as [LW OW]. set (ws := block_words blk) in *. apply wp_bind.
  apply (wp_for_loop (fun i w => zlen w = 16 /\ forall j, 0 <= j < i -> znth w j = nth (Z.to_nat j) ws 0)); [lia| | |].
  - split; [reflexivity|]. intros; lia.
  - intros i w Hi [Lw Hw]. rewrite dl64_ok by (assumption || lia). cbn [bind]. apply wp_wr; [lia|]. split; [now rewrite zlen_zupd|]. intros j Hj. rewrite znth_zupd by lia. destruct (Z.eqb_spec j i) as [->|Hn]; [|apply Hw; lia].
    unfold ws, block_words. rewrite nth_indep with (d' := be_val (slice blk (8 * Z.of_nat 0) 8)) by (rewrite map_length, seq_length; lia). rewrite (map_nth (fun i => be_val (slice blk (8 * Z.of_nat i) 8))). rewrite seq_nth by lia. unfold blk. rewrite slice_slice by lia. do 2 f_equal. lia.
  - intros w [Lw Hw]. cbv beta. destruct (hok_vars H HH) as (a & b & c & d & e & f & g & h & -> & Hv). set (s0 := (a, b, c, d, e, f, g, h)) in *. apply wp_bind.
    apply (wp_for_loop (fun i '(aa, w) => aa = list_of (fold_left sha_step (firstn (Z.to_nat i) (combine sha_K (sched 64 ws))) s0) /\ zlen w = 16 /\ forall j, 0 <= j < 16 -> znth w j = Wf ws (16 * (i / 16) + j))); [lia| | |].
    + split; [reflexivity|]. split; [exact Lw|]. intros j Hj. change (16 * (0 / 16) + j) with j. rewrite Hw by lia. unfold Wf. rewrite sched_prefix by lia. reflexivity.
    + intros i [aa w'] Hi (-> & Lw' & Hw'). set (s := fold_left sha_step _ s0). assert (Hs: vok s) by (apply fold_vok, Hv).
      eapply wp_mono; [apply (sha_round_ok ws); assumption|]. intros [a' w''] (-> & L'' & H''). split; [|split; assumption]. f_equal. replace (Z.to_nat (i + 1)) with (S (Z.to_nat i)) by lia.
      rewrite combine_firstn_nth by (change (length sha_K) with 80%nat || rewrite sched_length; lia). rewrite fold_left_app. cbn [fold_left]. fold s. do 2 f_equal. unfold Wf. change 80%nat with (64 + 16)%nat. apply sched_more. lia.
    + intros [aa w'] (-> & _ & _). cbv beta iota. change (Z.to_nat 80) with 80%nat. rewrite firstn_all2 by (rewrite combine_length, sched_length; change (length sha_K) with 80%nat; lia).
      unfold compress. fold ws. change (vars_of [a; b; c; d; e; f; g; h]) with s0. set (s := fold_left sha_step _ s0). destruct s as [[[[[[[a' b'] c'] d'] e'] f'] g'] h']. cbn [list_of]. rewrite add8. apply wp_ret. reflexivity.
Qed.
Lemma compress_hok H blk : length H = 8%nat -> hok (compress H blk).
Proof.
  intros HL. unfold compress, hok. set (s := fold_left _ _ _). clearbody s. split.
  - rewrite map_length, combine_length, HL. destruct s as [[[[[[[a b] c] d] e] f] g] h]. reflexivity.
  - unfold words_ok. apply Forall_forall. intros x Hx. apply in_map_iff in Hx as (p & <- & _). apply w64_add.
Qed.
Opaque compress.
Lemma blocks_fold_S H P n : blocks_fold H P (S n) = compress (blocks_fold H P n) (slice P (128 * Z.of_nat n) 128).
Proof. unfold blocks_fold. rewrite seq_S, fold_left_app. reflexivity. Qed.
Lemma blocks_hok H P n : hok H -> hok (blocks_fold H P n).
Proof. intros HH. induction n as [|n IH]; [exact HH|]. rewrite blocks_fold_S. apply compress_hok. apply IH. Qed.
Definition ser (H : list Z) : list Z := flat_map (be_bytes 8) H.
Lemma store8 h0 h1 h2 h3 h4 h5 h6 h7 x : zlen x = 64 ->
  for_loop 8 (fun i x => v <- rd 0 [h0;h1;h2;h3;h4;h5;h6;h7] i ;; ts64 x (8 * i) v) x = Ret (ser [h0;h1;h2;h3;h4;h5;h6;h7]).
Proof.
  intros Lx. apply wp_is. set (H := [h0;h1;h2;h3;h4;h5;h6;h7]).
  assert (LS: forall k, (k <= 8)%nat -> zlen (ser (firstn k H)) = 8 * Z.of_nat k).
  { intros k Hk. unfold ser, zlen. rewrite flat_map_concat_map. do 9 (destruct k as [|k]; [reflexivity|]). lia. }
  apply (wp_for_loop (fun i x => zlen x = 64 /\ slice x 0 (8 * i) = ser (firstn (Z.to_nat i) H))); [lia|split; [exact Lx|reflexivity]| |].
  - intros i y Hi [Ly Hy]. apply wp_bind, wp_rd; [exact Hi|].
    rewrite (slice_whole_split y (8 * i)) by lia. rewrite Hy. set (p := ser _). assert (Lp: zlen p = 8 * i) by (unfold p; rewrite LS by lia; lia). set (r := slice y (8 * i) (zlen y - 8 * i)). assert (Lr: 8 <= zlen r) by (unfold r; rewrite zlen_slice by lia; lia).
    destruct r as [|x0 [|x1 [|x2 [|x3 [|x4 [|x5 [|x6 [|x7 rr]]]]]]]] eqn:Er; try (repeat rewrite zlen_cons in Lr; change (zlen (@nil Z)) with 0 in Lr; lia).
    rewrite <- Lp at 1. rewrite ts64_ok. apply wp_ret. split.
    + rewrite !zlen_app. apply (f_equal zlen) in Er. unfold r in Er. rewrite zlen_slice in Er by lia. rewrite !zlen_cons in Er. change (zlen (be_bytes 8 (znth H i))) with 8. lia.
    + rewrite app_assoc, slice_app_l, slice_all; rewrite ?zlen_app; change (zlen (be_bytes 8 (znth H i))) with 8; try lia. replace (Z.to_nat (i + 1)) with (S (Z.to_nat i)) by lia. rewrite firstn_S_nth by (change (length H) with 8%nat; lia). unfold ser. rewrite flat_map_app. cbn [flat_map]. rewrite app_nil_r. reflexivity.
  - intros y [Ly Hy]. rewrite slice_all in Hy by lia. rewrite Hy. reflexivity.
Qed.
Lemma ser_word h0 h1 h2 h3 h4 h5 h6 h7 i : words_ok [h0;h1;h2;h3;h4;h5;h6;h7] -> 0 <= i < 8 -> be_val (slice (ser [h0;h1;h2;h3;h4;h5;h6;h7]) (8 * i) 8) = nth (Z.to_nat i) [h0;h1;h2;h3;h4;h5;h6;h7] 0.
Proof.
  intros HW Hi. set (H := [h0;h1;h2;h3;h4;h5;h6;h7]) in *. assert (E: slice (ser H) (8 * i) 8 = be_bytes 8 (nth (Z.to_nat i) H 0)).
  { assert (i = 0 \/ i = 1 \/ i = 2 \/ i = 3 \/ i = 4 \/ i = 5 \/ i = 6 \/ i = 7) as C by lia. destruct C as [-> |[-> |[-> |[-> |[-> |[-> |[-> | ->]]]]]]]; reflexivity. }
  rewrite E, be_val_bytes. change (256 ^ Z.of_nat 8) with (2 ^ 64). apply Z.mod_small. unfold words_ok in HW. rewrite Forall_forall in HW. apply HW, nth_In. change (length H) with 8%nat. lia.
Qed.
Lemma zlen_ser H : length H = 8%nat -> zlen (ser H) = 64.
Proof. intros HL. destruct H as [|a [|b [|c [|d [|e [|f [|g [|h [|? ?]]]]]]]]]; try discriminate HL. reflexivity. Qed.
Lemma bytes_ok_ser H : bytes_ok (ser H).
Proof. unfold ser. induction H as [|h H IH]; [constructor|]. cbn [flat_map]. apply bytes_ok_app. split; [apply be_bytes_ok|exact IH]. Qed.
Lemma hashblocks_ok H m off n : hok H -> bytes_ok m -> 0 <= off -> 0 <= n -> off + n <= zlen m ->
  crypto_hashblocks (ser H) m off n = Ret (ser (blocks_fold H (slice m off n) (Z.to_nat (n / 128)))).
Proof.
  intros HH Hm Ho Hn Hl. apply wp_is. unfold crypto_hashblocks. apply wp_bind. pose proof (zlen_ser H (proj1 HH)) as L64.
  apply (wp_for_loop (fun i a => zlen a = 8 /\ forall j, 0 <= j < i -> znth a j = znth H j)); [lia| | |].
  - split; [reflexivity|intros; lia].
  - intros i a Hi [La Ha]. rewrite dl64_ok by (try apply bytes_ok_ser; lia). cbn [bind]. apply wp_wr; [lia|]. split; [now rewrite zlen_zupd|]. intros j Hj. rewrite znth_zupd by lia. destruct (Z.eqb_spec j i) as [->|]; [|apply Ha; lia].
    destruct (hok_vars H HH) as (? & ? & ? & ? & ? & ? & ? & ? & -> & Hv). apply ser_word; [exact Hv|lia].
  - intros a [La Ha]. cbv beta. assert (a = H) as -> by (apply list_ext_z; [rewrite La; unfold zlen; now rewrite (proj1 HH)|intros i Hi; apply Ha; lia]). apply wp_bind.
    apply (wp_for_loop (fun k '(z, a) => z = blocks_fold H (slice m off n) (Z.to_nat k) /\ a = z)); [apply Z.div_pos; lia|split; reflexivity| |].
    + intros k [z a] Hk [-> ->]. rewrite sha_block_ok; try assumption; try lia; [|now apply blocks_hok]. apply wp_ret. replace (Z.to_nat (k + 1)) with (S (Z.to_nat k)) by lia. rewrite blocks_fold_S. rewrite slice_slice by lia. replace (128 * Z.of_nat (Z.to_nat k)) with (128 * k) by lia. split; reflexivity.
    + intros [z a] [-> _]. cbv beta iota. pose proof (blocks_hok H (slice m off n) (Z.to_nat (n / 128)) HH) as HB. destruct (hok_vars _ HB) as (? & ? & ? & ? & ? & ? & ? & ? & E & _). rewrite E. rewrite store8 by exact L64. apply wp_ret. reflexivity.
Qed.

(** ** the padded message *)
Lemma IV_eq : iv512 = ser sha_IV. Proof. vm_compute. reflexivity. Qed.
Lemma IV_hok : hok sha_IV.
Proof. split; [reflexivity|]. unfold words_ok. unfold sha_IV. apply Forall_forall. intros x Hx. apply in_map_iff in Hx as (p & <- & _). unfold w64, W64. apply Z.mod_pos_bound. lia. Qed.
Lemma be_bytes_16 n : 0 <= n < 2 ^ 64 -> be_bytes 16 (8 * n) = zeros 7 ++ [n / 2 ^ 61] ++ be_bytes 8 ((n * 2 ^ 3) mod 2 ^ 64).
Proof.
  intros Hn. change (be_bytes 16 (8 * n)) with ((8 * n / 256 ^ Z.of_nat 15) mod 256 :: (8 * n / 256 ^ Z.of_nat 14) mod 256 :: (8 * n / 256 ^ Z.of_nat 13) mod 256 :: (8 * n / 256 ^ Z.of_nat 12) mod 256 :: (8 * n / 256 ^ Z.of_nat 11) mod 256 :: (8 * n / 256 ^ Z.of_nat 10) mod 256 :: (8 * n / 256 ^ Z.of_nat 9) mod 256 :: (8 * n / 256 ^ Z.of_nat 8) mod 256 :: be_bytes 8 (8 * n)).
  change (zeros 7) with [0;0;0;0;0;0;0]. cbn [app].
  assert (Z0: forall k, (9 <= k)%nat -> (8 * n / 256 ^ Z.of_nat k) mod 256 = 0).
  { intros k Hk. rewrite Z.div_small; [reflexivity|]. assert (256 ^ 9 <= 256 ^ Z.of_nat k) by (apply Z.pow_le_mono_r; lia). change (256 ^ 9) with (2 ^ 72) in *. lia. }
  rewrite !Z0 by lia. replace ((8 * n / 256 ^ Z.of_nat 8) mod 256) with (n / 2 ^ 61) by (change (256 ^ Z.of_nat 8) with (2 ^ 64); lia).
  do 8 f_equal. assert (G: forall (k : nat) a, (k <= 8)%nat -> be_bytes k a = be_bytes k (a mod 2 ^ 64)).
  { induction k as [|k IH]; intros a Hk; [reflexivity|]. cbn [be_bytes]. f_equal; [|apply IH; lia].
    assert (E: 2 ^ 64 = 256 ^ Z.of_nat k * 256 ^ (8 - Z.of_nat k)) by (rewrite <- Z.pow_add_r by lia; change (2 ^ 64) with (256 ^ 8); f_equal; lia). assert (0 < 256 ^ Z.of_nat k) by (apply Z.pow_pos_nonneg; lia). assert (0 < 256 ^ (8 - Z.of_nat k)) by (apply Z.pow_pos_nonneg; lia).
    rewrite E. rewrite Z.rem_mul_r by lia. rewrite (Z.mul_comm (256 ^ Z.of_nat k)), Z.div_add by lia. rewrite (Z.div_small (a mod 256 ^ Z.of_nat k)) by (apply Z.mod_pos_bound; lia). rewrite Z.add_0_l.
    replace (8 - Z.of_nat k) with (1 + (7 - Z.of_nat k)) by lia. rewrite Z.pow_add_r, Z.pow_1_r by lia. assert (0 < 256 ^ (7 - Z.of_nat k)) by (apply Z.pow_pos_nonneg; lia). rewrite Z.rem_mul_r by lia. rewrite (Z.mul_comm 256), Z.mod_add, Z.mod_mod by lia. reflexivity. }
  rewrite (G 8%nat) by lia. do 2 f_equal. lia.
Qed.
Lemma zeros_split n k : 0 <= k <= n -> zeros n = zeros k ++ zeros (n - k).
Proof. intros H. unfold zeros. rewrite <- repeat_app. f_equal. lia. Qed.
Lemma zeros_cons n : 0 < n -> zeros n = 0 :: zeros (n - 1).
Proof. intros H. unfold zeros. replace (Z.to_nat n) with (S (Z.to_nat (n - 1))) by lia. reflexivity. Qed.
Lemma fold_ext {A B} (f g : A -> B -> A) l a : (forall a x, In x l -> f a x = g a x) -> fold_left f l a = fold_left g l a.
Proof. revert a; induction l as [|x l IH]; intros a E; cbn [fold_left]; [reflexivity|]. rewrite E by (left; reflexivity). apply IH. intros b y Hy. apply E. now right. Qed.
Lemma blocks_ext H P Q n : (forall k, (k < n)%nat -> slice P (128 * Z.of_nat k) 128 = slice Q (128 * Z.of_nat k) 128) -> blocks_fold H P n = blocks_fold H Q n.
Proof. intros E. unfold blocks_fold. apply fold_ext. intros a k Hk. apply in_seq in Hk. rewrite (E k) by lia. reflexivity. Qed.
Lemma blocks_app H A B a b : zlen A = 128 * Z.of_nat a -> blocks_fold H (A ++ B) (a + b) = blocks_fold (blocks_fold H A a) B b.
Proof.
  intros LA. induction b as [|b IH].
  - rewrite Nat.add_0_r. change (blocks_fold (blocks_fold H A a) B 0) with (blocks_fold H A a). apply blocks_ext. intros k Hk. apply slice_app_l; lia.
  - rewrite Nat.add_succ_r, !blocks_fold_S, IH. f_equal. rewrite slice_app_r by lia. f_equal. lia.
Qed.
Lemma blocks_prefix H A B a : 128 * Z.of_nat a <= zlen A -> blocks_fold H (A ++ B) a = blocks_fold H A a.
Proof. intros LA. apply blocks_ext. intros k Hk. apply slice_app_l; lia. Qed.
Lemma land_127 n : Z.land n 127 = n mod 128. Proof. exact (Z.land_ones n 7 ltac:(lia)). Qed.
Theorem crypto_hash_ok m off n : bytes_ok m -> 0 <= off -> 0 <= n < 2 ^ 64 -> off + n <= zlen m -> crypto_hash m off n = Ret (sha512 (slice m off n)).
Proof.
  intros Hm Ho Hn Hl. unfold crypto_hash. set (M := slice m off n). assert (LM: zlen M = n) by (apply zlen_slice; lia).
  rewrite copy_fill by (try reflexivity; change (zlen iv512) with 64; lia). cbn [bind]. rewrite slice_all by reflexivity. rewrite IV_eq. rewrite (hashblocks_ok sha_IV m off n IV_hok Hm Ho) by lia. cbn [bind]. fold M. set (a := Z.to_nat (n / 128)). cbv zeta. rewrite land_127. set (r := n mod 128).
  assert (Hr: 0 <= r < 128) by (unfold r; lia). rewrite (copy_ok (zeros 256) 0 m) by (rewrite ?zlen_zeros; lia). cbn [bind]. rewrite slice_0. cbn [app]. rewrite Z.add_0_l, zlen_zeros by lia. rewrite Z.sub_0_r.
  set (tl := slice m (off + n - r) r). assert (Lt: zlen tl = r) by (apply zlen_slice; lia).
  assert (SZ: forall i k N, 0 <= i -> 0 <= k -> i + k <= N -> slice (zeros N) i k = zeros k).
  { intros i k N Hi Hk HN. rewrite (zeros_split N i) by lia. rewrite slice_app_r by (try rewrite zlen_zeros by lia; lia). rewrite zlen_zeros by lia. replace (i - i) with 0 by lia. rewrite (zeros_split (N - i) k) by lia. rewrite slice_app_l by (rewrite ?zlen_zeros; lia). apply slice_all. now rewrite zlen_zeros by lia. }
  rewrite SZ by lia. rewrite (zeros_cons (256 - r)) by lia.
  rewrite (wr_snoc tl 0 _ 128 r Lt). cbn [bind].
  set (n2 := 256 - 128 * Z.b2z (r <? 112)). assert (Hn2: (r < 112 /\ n2 = 128) \/ (112 <= r /\ n2 = 256)) by (unfold n2; destruct (Z.ltb_spec r 112); cbn [Z.b2z]; lia). clearbody n2.
  (* split the zeros: up to n2-9, the byte, eight bytes, the rest *)
  set (k1 := n2 - 9 - r - 1). assert (Hk1: 0 <= k1) by lia.
  assert (EZ: tl ++ 128 :: zeros (256 - r - 1) = (tl ++ [128] ++ zeros k1) ++ 0 :: 0 :: 0 :: 0 :: 0 :: 0 :: 0 :: 0 :: 0 :: zeros (256 - n2)).
  { rewrite <- !app_assoc. cbn [app]. do 2 f_equal. rewrite (zeros_split (256 - r - 1) k1) by lia. f_equal. rewrite (zeros_split _ 9) by lia. change (zeros 9) with [0;0;0;0;0;0;0;0;0]. cbn [app]. do 9 f_equal. f_equal. lia. }
  rewrite EZ. set (p := tl ++ [128] ++ zeros k1). assert (Lp: zlen p = n2 - 9) by (unfold p; rewrite !zlen_app, zlen_zeros by lia; change (zlen [128]) with 1; lia).
  rewrite (wr_snoc p 0 _ _ (n2 - 9) Lp). cbn [bind].
  set (top := u8 (Z.shiftr n 61)). assert (Etop: top = n / 2 ^ 61) by (unfold top, u8; rewrite Z.shiftr_div_pow2 by lia; lia).
  assert (EA: p ++ top :: 0 :: 0 :: 0 :: 0 :: 0 :: 0 :: 0 :: 0 :: zeros (256 - n2) = (p ++ [top]) ++ 0 :: 0 :: 0 :: 0 :: 0 :: 0 :: 0 :: 0 :: zeros (256 - n2)) by (rewrite <- app_assoc; reflexivity). rewrite EA.
  assert (Lp2: zlen (p ++ [top]) = n2 - 8) by (rewrite zlen_app; change (zlen [top]) with 1; lia). rewrite <- Lp2. rewrite ts64_ok. cbn [bind].
  set (v := u64 (Z.shiftl n 3)). assert (Ev: v = (n * 2 ^ 3) mod 2 ^ 64) by (unfold v, u64; rewrite Z.shiftl_mul_pow2 by lia; reflexivity).
  set (T := (p ++ [top]) ++ be_bytes 8 v). assert (LT: zlen T = n2) by (unfold T; rewrite zlen_app; change (zlen (be_bytes 8 v)) with 8; lia).
  rewrite app_assoc. fold T.
  assert (BT: bytes_ok T). { unfold T, p. repeat (apply bytes_ok_app; split); try apply be_bytes_ok; try apply bytes_ok_zeros; try (repeat constructor; unfold byte_ok; lia). apply bytes_ok_slice, Hm. }
  rewrite hashblocks_ok; [|apply blocks_hok, IV_hok|apply bytes_ok_app; split; [exact BT|apply bytes_ok_zeros]|lia|lia|rewrite zlen_app, LT, zlen_zeros; lia].
  f_equal. unfold sha512. fold (ser (blocks_fold sha_IV (sha_pad M) (Z.to_nat (zlen (sha_pad M) / 128)))). f_equal.
  rewrite slice_app_l, slice_all by lia.
  (* the padded message is the full blocks followed by T *)
  set (A := slice M 0 (n - r)). assert (LA: zlen A = 128 * Z.of_nat a) by (unfold A; rewrite zlen_slice by lia; unfold a, r; lia).
  assert (EM: M = A ++ tl). { unfold A, tl, M. rewrite slice_slice by lia. rewrite Z.add_0_r. rewrite (slice_split m off n (n - r)) by lia. f_equal. f_equal; lia. }
  assert (EP: sha_pad M = A ++ T).
  { unfold sha_pad. rewrite LM. rewrite be_bytes_16 by lia. unfold T, p. rewrite Etop, Ev. rewrite EM at 1. rewrite <- !app_assoc. do 3 f_equal. rewrite (zeros_split k1 ((111 - n) mod 128)) by (unfold k1, r in *; lia). rewrite <- !app_assoc. f_equal. f_equal. f_equal. unfold k1, r in *; lia. }
  rewrite EP. rewrite zlen_app, LA, LT. replace (Z.to_nat ((128 * Z.of_nat a + n2) / 128)) with (a + Z.to_nat (n2 / 128))%nat by lia. rewrite (blocks_app _ A T) by exact LA.
  assert (E2: blocks_fold sha_IV M a = blocks_fold sha_IV A a) by (rewrite EM; apply blocks_prefix; lia). rewrite E2. reflexivity.
Qed.
Lemma sha512_len M : zlen (sha512 M) = 64.
Proof. unfold sha512. apply zlen_ser. apply blocks_hok, IV_hok. Qed.
Lemma sha512_bytes M : bytes_ok (sha512 M). Proof. apply bytes_ok_ser. Qed.
