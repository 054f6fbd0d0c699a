(** One signing attempt: the values that its branches test, in terms of the specification. *)
From Coq Require Import ZifyBool ZifyNat Setoid Morphisms.
From Verif Require Import Base Sponge SpongePure SpongeProofs SpongeProofs2 Tab DilReduce DilReduceProofs DilNtt DilNttProofs DilNttAlg DilPoly DilPolyProofs DilPack DilVec DilHint DilSign DilPacking DilSampleSpec DilSample DilEncSpec DilEncProofs DilVecProofs DilSpec DilSpecProofs DilSignProofs DilFips DilFipsProofs DilFipsProofs2 DilFipsProofs3
  DilBuf BufLemmas DilBufProofs DilBufSign CtDilSpec CtBase CtTweet CtTweetProofs CtKeccak CtKeccakProofs CtSpx CtSpxProofs CtSpxTrace CtDil CtDilProofs CtDilTrace CtDilTrace2.
Local Open Scope Z_scope.
Ltac Zify.zify_post_hook ::= idtac.
#[local] Opaque Keccak.KeccakF1600_StatePermute.
Opaque fl il mont red32 cadd nttf inttf sumz Z.pow shake256_bytes shake128_bytes.
Import MLDSA.

Lemma absv_abs x : - 2 ^ 31 < x < 2 ^ 31 -> absv x = Z.abs x.
Proof.
  Transparent Z.pow. intros H. unfold absv. rewrite Z.shiftr_div_pow2 by lia. change (2 ^ 31) with 2147483648 in *. destruct (Z.leb_spec 0 x).
  - rewrite Z.div_small by lia. rewrite Z.land_0_l. lia.
  - replace (x / 2147483648) with (-1) by (apply (Z.div_unique x 2147483648 (-1) (x + 2147483648)); lia). rewrite Z.land_m1_l. lia.
Qed.
Opaque Z.pow.
Lemma first_map {A B} (p : B -> bool) (f : A -> B) l : Leak.first p (map f l) = Leak.first (fun x => p (f x)) l.
Proof. induction l as [|x l IH]; cbn [map Leak.first]; [reflexivity|]. now rewrite IH. Qed.
Lemma first_concat (p q : Z -> bool) v w : vlen v -> vlen w -> (forall r i, (r < 4)%nat -> 0 <= i < 256 -> p (cf v r i) = q (cf w r i)) ->
  Leak.first p (concat v) = Leak.first q (concat w).
Proof.
  intros [L V] [L' V'] H. rewrite <- (first_map (fun b => b) p), <- (first_map (fun b => b) q). f_equal. rewrite !concat_map. f_equal.
  apply nth_ext with (d := []) (d' := []); [rewrite !map_length; lia|]. intros r Hr. rewrite map_length in Hr.
  rewrite (nth_indep (map (map p) v) [] (map p [])) by (rewrite map_length; lia). rewrite (nth_indep (map (map q) w) [] (map q [])) by (rewrite map_length; lia). rewrite (map_nth (map p)), (map_nth (map q)).
  assert (Hr4 : (r < 4)%nat) by lia. specialize (V r Hr4). specialize (V' r Hr4). unfold zlen in V, V'.
  apply nth_ext with (d := false) (d' := false); [rewrite !map_length; lia|]. intros i Hi. rewrite map_length in Hi.
  rewrite (nth_indep (map p _) false (p 0)) by (rewrite map_length; lia). rewrite (nth_indep (map q _) false (q 0)) by (rewrite map_length; lia). rewrite (map_nth p), (map_nth q).
  specialize (H r (Z.of_nat i) Hr4 ltac:(lia)). unfold cf, ix in H. now rewrite Nat2Z.id in H.
Qed.
Lemma first_none (p : Z -> bool) v : vlen v -> Leak.first p (concat v) = None -> forall r i, (r < 4)%nat -> 0 <= i < 256 -> p (cf v r i) = false.
Proof.
  intros [L V] H r i Hr Hi. specialize (V r Hr). unfold zlen in V. assert (I : In (cf v r i) (concat v)).
  { apply in_concat. exists (nth r v []). split; [apply nth_In; lia|]. unfold cf, ix. apply nth_In. lia. }
  revert I H. generalize (cf v r i) as x. generalize (concat v) as l. clear. induction l as [|y l IH]; intros x I H; [destruct I|]. cbn [Leak.first] in H.
  destruct (p y) eqn:E; [discriminate H|]. destruct I as [->|I]; [exact E|]. apply IH; [exact I|]. now destruct (Leak.first p l).
Qed.
Lemma big_none B v : vlen v -> Leak.first_big B v = None -> forall r i, (r < 4)%nat -> 0 <= i < 256 -> Z.abs (Spec.mods (cf v r i) Q) < B.
Proof. intros V N r i Hr Hi. pose proof (first_none (fun x => B <=? Z.abs (Spec.mods x Spec.q)) v V N r i Hr Hi) as F. cbv beta in F. change Spec.q with Q in F. lia. Qed.
Definition hcase_at (R T : list (list Z)) (r : nat) (i : Z) : Leak.hcase :=
  let w := Spec.HighBits (cf R r i) in Leak.hint_case w (Spec.mods (cf R r i + cf T r i - w * (2 * Spec.gamma2)) Spec.q).
Lemma hint_cases_at R T r i : (r < 4)%nat -> 0 <= i < 256 ->
  nth (Z.to_nat i) (nth r (Leak.hint_cases (vmap Spec.HighBits R) (vadd R T)) []) Leak.Inside = hcase_at R T r i.
Proof.
  intros Hr Hi. unfold Leak.hint_cases. set (g := fun r : nat => _). rewrite (nth_indep _ [] (g 0%nat)) by (rewrite map_length, seq_length; lia). rewrite (map_nth g), seq_nth by lia. unfold g.
  set (h := fun i : nat => _). rewrite (nth_indep _ Leak.Inside (h 0%nat)) by (rewrite map_length, seq_length; lia). rewrite (map_nth h), seq_nth by lia. unfold h.
  cbn [Nat.add]. rewrite !coef_cf by lia. rewrite Z2Nat.id by lia. unfold vadd. rewrite cf_vmap, cf_vmap2 by assumption. reflexivity.
Qed.

Lemma lput_splice d o s n : 0 < n -> zlen s = n -> 0 <= o -> o + n <= zlen d -> lput Zops d o s n = splice d o s.
Proof.
  intros Hn Ls Ho Hd. pose proof (copy_splice d o s 0 n ltac:(lia) ltac:(lia) ltac:(lia) ltac:(lia) ltac:(lia)) as EC. rewrite (slice_all s) in EC by lia.
  unfold lput. exact (era_copy _ _ _ _ _ _ EC).
Qed.
Section Facts.
Variable loc : Z -> list Z.
Hypothesis LOC : forall n, 0 <= n -> zlen (loc n) = n.
Lemma attempt_facts mat A s1 s2 t0 s1h s2h t0h mu rhop nonce so mem : matb mat -> is_ntt A mat ->
  Enc.vec_in (-2) 2 s2 -> hats s1 s1h -> hats s2 s2h -> hats t0 t0h ->
  vb (8 * Q + 5) s1h -> vb (8 * Q + 5) s2h -> vb (8 * Q + 4096) t0h -> zlen rhop = 64 -> 0 <= so -> so + 2420 <= zlen mem ->
  let Y := expand_mask rhop (4 * nonce) in let W := matvec A Y in
  let c := H (mu ++ w1_encode (vmap Spec.HighBits W)) 32 in
  exists y w1 w0 mem1, value (commit_l Zops loc mat mu rhop nonce so mem) = (y, w1, w0, mem1) /\ slice mem1 so 32 = c /\ zlen c = 32 /\ vlen w1 /\
  forall fuel cp, poly_challenge fuel c = Some cp ->
    let Zs := vadd Y (cmul cp s1) in let Rs := vsub W (cmul cp s2) in let Ts := cmul cp t0 in
    let ch := value (poly_ntt_l Zops cp) in
    let z := value (response_l Zops ch s1h y) in
    let v2 := value (lowpart_l Zops ch s2h w0) in
    let g3 := value (hintpart_l Zops ch t0h) in
    let a0 := value (vec_add_l Zops v2 g3) in
    sample_in_ball c cp /\
    (vlen z /\ Leak.first (fun x => GAMMA1 - BETA <=? absv x) (concat z) = Leak.first_big (gamma1 - beta) Zs) /\
    (vlen v2 /\ Leak.first (fun x => GAMMA2 - BETA <=? absv x) (concat v2) = Leak.first_big (Spec.gamma2 - beta) (vmap Spec.LowBits Rs)) /\
    (vlen g3 /\ Leak.first (fun x => GAMMA2 <=? absv x) (concat g3) = Leak.first_big Spec.gamma2 Ts) /\
    (Leak.first_big (Spec.gamma2 - beta) (vmap Spec.LowBits Rs) = None -> Leak.first_big Spec.gamma2 Ts = None ->
     vlen a0 /\ forall r i, (r < 4)%nat -> 0 <= i < 256 -> Leak.hint_case (cf w1 r i) (cf a0 r i) = hcase_at Rs Ts r i).
Proof.
  intros HM HA I2 T1 T2 T0 B1 B2 B0 Lrh Hso Hmem Y W c. subst c W. unfold commit_l.
  destruct (vec_uniform_gamma1_in rhop nonce) as [Ly Iy]. rewrite mask_eq in *. fold Y in Ly, Iy.
  rewrite value_bind, vec_gamma1_v by assumption. rewrite mask_eq. fold Y.
  remember Y as y eqn:Ey. clear Ey Y.
  pose proof (vb_of_in _ _ 131072 _ Ly Iy ltac:(lia) ltac:(lia)) as By.
  destruct (vec_ntt_ok y _ By) as (yh & E & Byh & Syh); [lia|q32|]. rewrite value_bind, (era_vntt _ _ E). clear E.
  destruct (matrix_pointwise_ok mat yh _ HM Byh) as (w & E & Bw & Sw); [q32|]. rewrite value_bind, (era_matrix _ _ _ E). clear E.
  destruct (vec_reduce_ok w) as (wr' & E & Bwr & Swr); [eapply vb_le; [|exact Bw]; q32|]. rewrite value_bind, (era_vreduce _ _ E). clear E.
  destruct (vec_invntt_ok wr') as (wi & E & Bwi & Swi); [eapply vb_le; [|exact Bwr]; q32|]. rewrite value_bind, (era_vinvntt _ _ E). clear E.
  destruct (vec_caddq_ok wi) as (wc & E & Vwc & Swc); [eapply vb_le; [|exact Bwi]; q32|]. rewrite value_bind, (era_vcaddq _ _ E). clear E.
  assert (Rwc: forall r i, (r < 4)%nat -> 0 <= i < 256 -> 0 <= cf wc r i < Q).
  { intros r i Hr Hi. rewrite (Swc r Hr i Hi). apply cadd_range. pose proof (vb_cf _ _ r Bwi Hr i Hi). q32. }
  remember (matvec A y) as W eqn:EW.
  assert (CW: forall r, (r < 4)%nat -> eqf (cf wc r) (cf W r)).
  { intros r Hr. apply ntt_inj. eapply eqf_trans; [apply (ntt_ext _ (cf wi r)); intros i Hi; rewrite (Swc r Hr i Hi); apply cadd_eqm|].
    assert (A1: eqf (nttf (cf wi r)) (dot (nth r mat []) (cf yh))).
    { apply (ntt_of_intt_dot _ (cf wr' r)); [apply eqf_same, Swi, Hr|]. intros i Hi. rewrite (Swr r Hr i Hi), red32_eqm, (Sw r Hr i Hi). reflexivity. }
    intros i Hi. etransitivity; [exact (A1 i Hi)|]. rewrite EW. etransitivity; [|symmetry; exact (ntt_matvec_dot A mat y r HA Hr i Hi)]. apply dot_ext. intros k Hk. rewrite (Syh k Hk i Hi). reflexivity. }
  destruct (vec_decompose_ok wc Vwc Rwc) as (w1 & w0 & E & V1 & V0 & S10). rewrite value_bind, (era_vdecompose _ _ E). clear E. cbv beta iota.
  assert (E1: w1 = vmap Spec.HighBits W).
  { apply vec_is_vmap; [exact V1|]. intros r i Hr Hi. destruct (S10 r Hr) as [S _]. rewrite (S i Hi). rewrite <- HighBits_dec by (now apply Rwc). apply HighBits_cg. now apply CW. }
  assert (R1: forall r i, (r < 4)%nat -> 0 <= i < 256 -> 0 <= cf w1 r i <= 43 /\ - GAMMA2 <= cf w0 r i <= GAMMA2 /\ cf wc r i == cf w1 r i * (2 * GAMMA2) + cf w0 r i).
  { intros r i Hr Hi. destruct (S10 r Hr) as [S S']. rewrite (S i Hi), (S' i Hi). destruct (dec_range _ (Rwc r i Hr Hi)) as (D1 & D0 & _ & DD). split; [exact D1|]. split; [exact D0|].
    destruct DD as [D|D]; [apply eq_eqm; lia|]. apply (eqm_of_diff _ _ 1). lia. }
  assert (I1: Enc.vec_in 0 43 w1) by (split; [apply V1|]; apply vin_of_cf; [exact V1|]; intros; now apply R1).
  pose proof (w1_enc_vec w1 I1) as EW1. destruct (vec_pack_w1_ok w1 V1) as (pw1 & EW' & Lpw & Bpw); [intros r i Hr Hi; apply R1; assumption|].
  assert (pw1 = w1_encode w1) as -> by (rewrite EW' in EW1; now apply ret_inj in EW1). clear EW'. rewrite value_bind, (era_pack_w1 _ _ EW1). cbv zeta. rewrite <- E1.
  rewrite lput_splice by lia. unfold lptr. replace (slice (splice mem so (w1_encode w1)) so 768) with (w1_encode w1) by (symmetry; rewrite <- Lpw; apply slice_splice; lia).
  rewrite value_bind. match goal with |- context [value (shake256_pieces_l Zops ?a ?b ?c ?d)] => pose proof (shake256_pieces_ok a b c d ltac:(lia) ltac:(lia) ltac:(rewrite ?zlen_splice; lia)) as EH end.
  apply era_shake256_pieces in EH. rewrite EH. clear EH. cbn [concat]. rewrite app_nil_r. change shake256_bytes with H. set (c := H (mu ++ w1_encode w1) 32).
  assert (Lc: zlen c = 32) by (apply H_len; lia). assert (Bc: bytes_ok c) by (apply H_ok; lia).
  exists y, w1, w0, (splice (splice mem so (w1_encode w1)) so c). split; [reflexivity|]. split; [rewrite <- Lc; apply slice_splice; rewrite ?zlen_splice; lia|]. split; [exact Lc|]. split; [exact V1|]. clearbody c.
  intros fuel cp EC. destruct (poly_challenge_real _ _ _ EC) as [Ic Nc].
  set (Zs := vadd y (cmul cp s1)). set (Rs := vsub W (cmul cp s2)). set (Ts := cmul cp t0). split; [eapply ball_sound; eassumption|].
  destruct (poly_ntt_ok1 cp 1 (pb_of_in _ _ 1 _ Ic ltac:(lia) ltac:(lia))) as (ch & E & Bch & Sch); [lia|q32|]. rewrite (era_ntt _ _ E). clear E.
  assert (DZ: Zs = vadd y (cmul cp s1)) by reflexivity. assert (DR: Rs = vsub W (cmul cp s2)) by reflexivity. assert (DT: Ts = cmul cp t0) by reflexivity.
  clearbody Zs Rs Ts.
  (* z *)
  unfold response_l. rewrite value_bind.
  destruct (vec_pointwise_poly_ok ch s1h _ _ Bch B1) as (z1 & E & Bz1 & Sz1); [q32|]. rewrite (era_vpointwise _ _ _ E). clear E. rewrite value_bind.
  destruct (vec_invntt_ok z1) as (z2 & E & Bz2 & Sz2); [eapply vb_le; [|exact Bz1]; q32|]. rewrite (era_vinvntt _ _ E). clear E. rewrite value_bind.
  destruct (vec_add_ok z2 y _ _ Bz2 By) as (z3 & E & Bz3 & Sz3); [q32|]. rewrite (era_vadd _ _ _ E). clear E.
  destruct (vec_reduce_ok z3) as (z & E & Bz & Sz); [eapply vb_le; [|exact Bz3]; q32|]. rewrite (era_vreduce _ _ E). clear E.
  assert (CZ: forall r, (r < 4)%nat -> eqf (cf z r) (cf Zs r)).
  { intros r Hr i Hi. rewrite (Sz r Hr i Hi), red32_eqm, (Sz3 r Hr i Hi). rewrite DZ. unfold vadd. rewrite cf_vmap2 by assumption. rewrite (prod_ntt cp ch s1 s1h z1 z2 Sch T1 Sz1 Sz2 r Hr i Hi). apply eq_eqm; ring. }
  assert (VZ: vlen Zs) by (rewrite DZ; apply vlen_vmap2).
  assert (TEST: forall x y B, x == y -> - 6283009 <= x <= 6283009 -> B <= 131072 -> (B <=? absv x) = (B <=? Z.abs (Spec.mods y Spec.q))).
  { intros x y' B Exy Hx HB. rewrite absv_abs by q32. pose proof (norm_rep x y' B Exy Hx HB). change Spec.q with Q. lia. }
  split.
  { split; [apply (vb_vlen _ _ Bz)|]. apply first_concat; [apply (vb_vlen _ _ Bz)|exact VZ|]. intros r i Hr Hi. change (gamma1 - beta) with (GAMMA1 - BETA).
    apply TEST; [now apply CZ|exact (vb_cf _ _ r Bz Hr i Hi)|now vm_compute]. }
  (* w0 - c s2 *)
  assert (Bw0: vb GAMMA2 w0) by (apply vb_of_cf; [exact V0|]; intros r Hr i Hi; pose proof (R1 r i Hr Hi); lia).
  unfold lowpart_l. rewrite !(value_bind (vec_pointwise_poly_l _ _ s2h)).
  destruct (vec_pointwise_poly_ok ch s2h _ _ Bch B2) as (h1 & E & Bh1 & Sh1); [q32|]. rewrite (era_vpointwise _ _ _ E). clear E. rewrite !(value_bind (vec_invntt_l Zops h1)).
  destruct (vec_invntt_ok h1) as (h2 & E & Bh2 & Sh2); [eapply vb_le; [|exact Bh1]; q32|]. rewrite (era_vinvntt _ _ E). clear E. rewrite !(value_bind (vec_sub_l Zops w0 h2)).
  destruct (vec_sub_ok w0 h2 _ _ Bw0 Bh2) as (v1 & E & Bv1 & Sv1); [q32|]. rewrite (era_vsub _ _ _ E). clear E.
  destruct (vec_reduce_ok v1) as (v2 & E & Bv2 & Sv2); [eapply vb_le; [|exact Bv1]; q32|]. rewrite (era_vreduce _ _ E). clear E.
  destruct I2 as [L2 J2]. destruct (vin_vlen _ _ _ L2 J2) as [_ R2].
  assert (LB: forall r i, (r < 4)%nat -> 0 <= i < 256 ->
    (- 95154 < cf v2 r i < 95154 <-> Z.abs (Spec.mods (Spec.LowBits (cf Rs r i)) Q) < 95154) /\ (- 95154 < cf v2 r i < 95154 -> Spec.HighBits (cf Rs r i) = dec1 (cf wc r i))).
  { intros r i Hr Hi. apply (lowbits_check (cf wc r i) (cf (cmul cp s2) r i)).
    - now apply Rwc.
    - rewrite cf_cmul by assumption. pose proof (negmul_short cp (cf s2 r) 2 i Ic Nc ltac:(intros j Hj; specialize (R2 r j Hr Hj); lia) Hi). lia.
    - rewrite (Sv2 r Hr i Hi), red32_eqm, (Sv1 r Hr i Hi), (prod_ntt cp ch s2 s2h h1 h2 Sch T2 Sh1 Sh2 r Hr i Hi). destruct (S10 r Hr) as [_ S']. rewrite (S' i Hi). reflexivity.
    - exact (vb_cf _ _ r Bv2 Hr i Hi).
    - rewrite DR. unfold vsub. rewrite cf_vmap2 by assumption. rewrite (CW r Hr i Hi). reflexivity. }
  assert (VL: vlen (vmap Spec.LowBits Rs)) by apply vlen_vmap.
  split.
  { split; [apply (vb_vlen _ _ Bv2)|]. apply first_concat; [apply (vb_vlen _ _ Bv2)|exact VL|]. intros r i Hr Hi. rewrite cf_vmap by assumption. change (Spec.gamma2 - beta) with 95154. change (GAMMA2 - BETA) with 95154.
    rewrite absv_abs by (pose proof (vb_cf _ _ r Bv2 Hr i Hi); q32). pose proof (proj1 (LB r i Hr Hi)). change Spec.q with Q. lia. }
  (* c t0 *)
  unfold hintpart_l. rewrite !(value_bind (vec_pointwise_poly_l _ _ t0h)).
  destruct (vec_pointwise_poly_ok ch t0h _ _ Bch B0) as (g1 & E & Bg1 & Sg1); [q32|]. rewrite (era_vpointwise _ _ _ E). clear E. rewrite !(value_bind (vec_invntt_l Zops g1)).
  destruct (vec_invntt_ok g1) as (g2 & E & Bg2 & Sg2); [eapply vb_le; [|exact Bg1]; q32|]. rewrite (era_vinvntt _ _ E). clear E.
  destruct (vec_reduce_ok g2) as (g3 & E & Bg3 & Sg3); [eapply vb_le; [|exact Bg2]; q32|]. rewrite (era_vreduce _ _ E). clear E.
  assert (CT: forall r, (r < 4)%nat -> eqf (cf g3 r) (cf Ts r)).
  { intros r Hr i Hi. rewrite (Sg3 r Hr i Hi), red32_eqm. rewrite DT. exact (prod_ntt cp ch t0 t0h g1 g2 Sch T0 Sg1 Sg2 r Hr i Hi). }
  assert (VT: vlen Ts) by (rewrite DT; apply vlen_cmul).
  split.
  { split; [apply (vb_vlen _ _ Bg3)|]. apply first_concat; [apply (vb_vlen _ _ Bg3)|exact VT|]. intros r i Hr Hi. change Spec.gamma2 with GAMMA2.
    apply TEST; [now apply CT|exact (vb_cf _ _ r Bg3 Hr i Hi)|now vm_compute]. }
  (* hint *)
  intros N2 N3. destruct (vec_add_ok v2 g3 _ _ Bv2 Bg3) as (a0 & E & Ba0 & Sa0); [q32|]. rewrite (era_vadd _ _ _ E). clear E.
  split; [apply (vb_vlen _ _ Ba0)|]. intros r i Hr Hi. unfold hcase_at. cbv zeta.
  assert (HNv: - 95154 < cf v2 r i < 95154).
  { apply (proj1 (LB r i Hr Hi)). rewrite <- cf_vmap by assumption. exact (big_none _ _ VL N2 r i Hr Hi). }
  assert (HNg: - 95232 < cf g3 r i < 95232).
  { apply (norm_rep (cf g3 r i) (cf Ts r i) 95232 (CT r Hr i Hi) (vb_cf _ _ r Bg3 Hr i Hi) ltac:(lia)). exact (big_none _ _ VT N3 r i Hr Hi). }
  rewrite (proj2 (LB r i Hr Hi) HNv). destruct (S10 r Hr) as [S S']. rewrite (S i Hi), (Sa0 r Hr i Hi). f_equal. symmetry. change Spec.q with Q. change Spec.gamma2 with GAMMA2.
  rewrite (mods_eq _ (cf v2 r i + cf g3 r i)); [apply mods_small; lia|].
  rewrite (CT r Hr i Hi). rewrite DR. unfold vsub. rewrite cf_vmap2 by assumption. rewrite <- (CW r Hr i Hi). destruct (R1 r i Hr Hi) as (_ & _ & C). rewrite (S i Hi) in C. set (d := dec1 (cf wc r i)) in *. clearbody d. rewrite C.
  rewrite (Sv2 r Hr i Hi), red32_eqm, (Sv1 r Hr i Hi), (prod_ntt cp ch s2 s2h h1 h2 Sch T2 Sh1 Sh2 r Hr i Hi). apply eq_eqm; ring.
Qed.
End Facts.
