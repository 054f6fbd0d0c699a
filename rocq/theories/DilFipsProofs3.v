(** Signing of dilithium2/sign.c meets the specification of DilFips.v. *)
From Coq Require Import Setoid Morphisms.
From Verif Require Import Base SpongePure SpongeProofs SpongeProofs2 Tab DilReduce DilReduceProofs DilNtt DilNttProofs DilNttAlg DilPoly DilPolyProofs DilPack DilVec DilHint DilSign DilPacking DilSampleSpec DilSample DilEncSpec DilEncProofs DilVecProofs DilSpec DilSpecProofs DilSignProofs DilFips DilFipsProofs DilFipsProofs2.
Ltac Zify.zify_post_hook ::= idtac.
Opaque fl il mont red32 cadd nttf inttf sumz Z.pow shake256_bytes shake128_bytes.
Import MLDSA.

(** ** The product with the challenge is short *)
Lemma sumz_abs n f g : 0 <= n -> (forall i, 0 <= i < n -> Z.abs (f i) <= g i) -> Z.abs (sumz n f) <= sumz n g.
Proof.
  intros Hn. revert n Hn f g. refine (sumz_ind _ _ _); [intros; rewrite !sumz_0; lia|].
  intros n Hn IH f g H. rewrite !sumz_S by lia. specialize (IH f g ltac:(intros; apply H; lia)). specialize (H n ltac:(lia)). lia.
Qed.
Lemma sumz_abs_list c : Forall (fun x => -1 <= x <= 1) c -> sumz (zlen c) (fun i => Z.abs (ix c i)) = Sample.nonzero c.
Proof.
  induction c as [|x c IH] using rev_ind; intros HF; [reflexivity|]. apply Forall_app in HF as [HF Hx]. apply Forall_inv in Hx. pose proof (zlen_nonneg c).
  rewrite zlen_app. change (zlen [x]) with 1. rewrite sumz_S by lia.
  rewrite (sumz_ext _ _ (fun i => Z.abs (ix c i))).
  - rewrite IH by exact HF. unfold Sample.nonzero. rewrite filter_app, app_length, Nat2Z.inj_add. f_equal. rewrite ix_app by lia. rewrite Z.ltb_irrefl, Z.sub_diag. change (ix [x] 0) with x.
    cbn [filter]. destruct (Z.eqb_spec x 0) as [->|N]; cbn [negb length]; lia.
  - intros i Hi. rewrite ix_app by lia. replace (i <? zlen c) with true by lia. reflexivity.
Qed.
Lemma negmul_short c s B k : Enc.poly_in (-1) 1 c -> Sample.nonzero c = 39 -> (forall i, 0 <= i < 256 -> - B <= s i <= B) -> 0 <= k < 256 ->
  - (39 * B) <= negmul (ix c) s k <= 39 * B.
Proof.
  intros [HL HF] HN HB Hk. assert (HB0: 0 <= B) by (specialize (HB 0 ltac:(lia)); lia). assert (HZ: zlen c = 256) by (unfold zlen; lia).
  assert (A: Z.abs (negmul (ix c) s k) <= sumz 256 (fun i => Z.abs (ix c i) * B)).
  { unfold negmul. apply sumz_abs; [lia|]. intros i Hi. destruct (Z.leb_spec i k).
    - rewrite Z.abs_mul. specialize (HB (k - i) ltac:(lia)). nia.
    - rewrite Z.abs_opp, Z.abs_mul. specialize (HB (256 + k - i) ltac:(lia)). nia. }
  rewrite sumz_scale_r in A by lia. rewrite <- HZ, sumz_abs_list, HN in A by exact HF. lia.
Qed.

(** ** Coefficient-wise facts about the three checks and the hint *)
Lemma HighBits_cg x y : x == y -> Spec.HighBits x = Spec.HighBits y.
Proof. intros H. unfold Spec.HighBits. now rewrite (Decompose_cg x y H). Qed.
Lemma decompose_any x : Spec.Decompose x = (dec1 (x mod Q), dec0 (x mod Q)).
Proof. rewrite Decompose_mod. symmetry. apply decompose_spec. apply Z.mod_pos_bound. reflexivity. Qed.
Lemma lowbits_check wc e v2 R : 0 <= wc < Q -> - 78 <= e <= 78 -> v2 == dec0 wc - e -> - 6283009 <= v2 <= 6283009 -> R == wc - e ->
  (- 95154 < v2 < 95154 <-> Z.abs (Spec.mods (Spec.LowBits R) Q) < 95154) /\ (- 95154 < v2 < 95154 -> Spec.HighBits R = dec1 wc).
Proof.
  intros Hw He Hv2 Bv HR.
  destruct (dec_range wc Hw) as (D1 & D0 & _ & DD).
  assert (Cw: wc == dec1 wc * (2 * GAMMA2) + dec0 wc) by (destruct DD as [D|D]; [apply eq_eqm; lia|apply (eqm_of_diff _ _ 1); lia]).
  assert (HRm: 0 <= R mod Q < Q) by (apply Z.mod_pos_bound; reflexivity).
  destruct (dec_range (R mod Q) HRm) as (E1 & E0 & _ & EE).
  assert (CR: R == dec1 (R mod Q) * (2 * GAMMA2) + dec0 (R mod Q)).
  { transitivity (R mod Q); [apply cg_iff; symmetry; apply Zmod_mod|]. destruct EE as [D|D]; [apply eq_eqm; lia|apply (eqm_of_diff _ _ 1); lia]. }
  unfold Spec.LowBits, Spec.HighBits. rewrite decompose_any. cbn [fst snd].
  assert (G2: GAMMA2 = 95232) by reflexivity.
  assert (Fwd: - 95154 < v2 < 95154 -> dec1 (R mod Q) = dec1 wc /\ dec0 (R mod Q) = v2).
  { intros Hs. apply dec_unique; [exact D1|rewrite G2; lia|exact HRm|]. apply (proj1 (cg_iff _ R)).
    rewrite HR, Hv2. transitivity (dec1 wc * (2 * GAMMA2) + dec0 wc - e); [apply eq_eqm; ring|]. rewrite <- Cw. reflexivity. }
  split; [split|].
  - intros Hs. destruct (Fwd Hs) as [_ ->]. rewrite mods_small by lia. lia.
  - intros Hs. rewrite mods_small in Hs by (rewrite G2 in *; lia).
    assert (U: dec1 wc = dec1 (R mod Q) /\ dec0 wc = dec0 (R mod Q) + e).
    { apply dec_unique; [exact E1|rewrite G2; lia|exact Hw|]. transitivity (wc mod Q); [|now apply Z.mod_small]. apply (proj1 (cg_iff _ wc)).
      transitivity (dec1 (R mod Q) * (2 * GAMMA2) + dec0 (R mod Q) + e); [apply eq_eqm; ring|]. rewrite <- CR, HR. apply eq_eqm; ring. }
    destruct U as [_ U]. assert (v2 = dec0 (R mod Q)); [|lia]. apply cg_close; [rewrite Hv2, U; apply eq_eqm; ring|]. rewrite Q_val in *. lia.
  - intros Hs. now apply Fwd.
Qed.
Lemma hint_check wc v2 g3 R T : 0 <= wc < Q -> - 95154 < v2 < 95154 -> - GAMMA2 < g3 < GAMMA2 -> Spec.HighBits R = dec1 wc -> R == dec1 wc * (2 * GAMMA2) + v2 -> g3 == T ->
  make_hint (v2 + g3) (dec1 wc) = if Spec.MakeHint (- T) (R + T) then 1 else 0.
Proof.
  intros Hw Hv Hg HH HR HT. destruct (dec_range wc Hw) as (D1 & _). assert (G2: GAMMA2 = 95232) by reflexivity.
  rewrite make_hint_exact; [|exact D1|rewrite G2 in *; lia].
  unfold Spec.MakeHint. replace (R + T + - T) with R by ring. rewrite HH.
  rewrite (HighBits_cg (R + T) (dec1 wc * (2 * GAMMA2) + (v2 + g3))); [|rewrite HR, HT; apply eq_eqm; ring].
  destruct (_ =? _); reflexivity.
Qed.

(** ** One attempt *)
Definition hats (s sh : list (list Z)) : Prop := forall r, (r < 4)%nat -> same (cf sh r) (nttf (cf s r)).
(* the product of the challenge with a vector, through the transform *)
Lemma prod_ntt cp ch s sh p q : same (ix ch) (nttf (ix cp)) -> hats s sh -> (forall r, (r < 4)%nat -> same (cf p r) (fun i => mont (ix ch i * cf sh r i))) -> (forall r, (r < 4)%nat -> same (cf q r) (inttf (cf p r))) ->
  forall r, (r < 4)%nat -> eqf (cf q r) (cf (cmul cp s) r).
Proof.
  intros Sch Hh Hp Hq r Hr. apply ntt_inj. eapply eqf_trans; [apply (ntt_of_intt _ (cf p r)); apply eqf_same; [now apply Hq|now apply Hp]|].
  intros i Hi. cbv beta. rewrite (ntt_cmul cp s r Hr i Hi), (Sch i Hi), (Hh r Hr i Hi). reflexivity.
Qed.
Lemma attempt_exact fuel mat A s1 s2 t0 s1h s2h t0h mu rhop nonce : matb mat -> is_ntt A mat ->
  Enc.vec_in (-2) 2 s2 -> hats s1 s1h -> hats s2 s2h -> hats t0 t0h ->
  vb (8 * Q + 5) s1h -> vb (8 * Q + 5) s2h -> vb (8 * Q + 4096) t0h ->
  let c := H (mu ++ w1_encode (vmap Spec.HighBits (matvec A (expand_mask rhop (4 * nonce))))) 32 in
  match poly_challenge fuel c with
  | None => sign_attempt fuel mat s1h s2h t0h mu rhop nonce = Ret None
  | Some _ => exists res, sign_attempt fuel mat s1h s2h t0h mu rhop nonce = Ret (Some res) /\ attempt A s1 s2 t0 mu rhop (4 * nonce) res
  end.
Proof.
  intros HM HA I2 T1 T2 T0 B1 B2 B0 c. unfold sign_attempt, attempt, c. clear c. cbv zeta.
  destruct (vec_uniform_gamma1_in rhop nonce) as [Ly Iy]. rewrite mask_eq in *.
  remember (expand_mask rhop (4 * nonce)) as y eqn:Ey. clear Ey.
  pose proof (vb_of_in _ _ 131072 _ Ly Iy ltac:(lia) ltac:(lia)) as By.
  destruct (vec_ntt_ok y _ By) as (yh & E & Byh & Syh); [lia|q32|]. rewrite E. cbn [bind]. clear E.
  destruct (matrix_pointwise_ok mat yh _ HM Byh) as (w & E & Bw & Sw); [q32|]. rewrite E. cbn [bind]. clear E.
  destruct (vec_reduce_ok w) as (wr' & E & Bwr & Swr); [eapply vb_le; [|exact Bw]; q32|]. rewrite E. cbn [bind]. clear E.
  destruct (vec_invntt_ok wr') as (wi & E & Bwi & Swi); [eapply vb_le; [|exact Bwr]; q32|]. rewrite E. cbn [bind]. clear E.
  destruct (vec_caddq_ok wi) as (wc & E & Vwc & Swc); [eapply vb_le; [|exact Bwi]; q32|]. rewrite E. cbn [bind]. clear E.
  assert (Rwc: forall r i, (r < 4)%nat -> 0 <= i < 256 -> 0 <= cf wc r i < Q).
  { intros r i Hr Hi. rewrite (Swc r Hr i Hi). apply cadd_range. pose proof (vb_cf _ _ r Bwi Hr i Hi). q32. }
  remember (matvec A y) as W eqn:EW.
  assert (CW: forall r, (r < 4)%nat -> eqf (cf wc r) (cf W r)).
  { intros r Hr. apply ntt_inj. eapply eqf_trans; [apply (ntt_ext _ (cf wi r)); intros i Hi; rewrite (Swc r Hr i Hi); apply cadd_eqm|].
    assert (A1: eqf (nttf (cf wi r)) (dot (nth r mat []) (cf yh))).
    { apply (ntt_of_intt_dot _ (cf wr' r)); [apply eqf_same, Swi, Hr|]. intros i Hi. rewrite (Swr r Hr i Hi), red32_eqm, (Sw r Hr i Hi). reflexivity. }
    intros i Hi. etransitivity; [exact (A1 i Hi)|]. rewrite EW. etransitivity; [|symmetry; exact (ntt_matvec_dot A mat y r HA Hr i Hi)]. apply dot_ext. intros k Hk. rewrite (Syh k Hk i Hi). reflexivity. }
  destruct (vec_decompose_ok wc Vwc Rwc) as (w1 & w0 & E & V1 & V0 & S10). rewrite E. cbn [bind]. clear E.
  assert (E1: w1 = vmap Spec.HighBits W).
  { apply vec_is_vmap; [exact V1|]. intros r i Hr Hi. destruct (S10 r Hr) as [S _]. rewrite (S i Hi). rewrite <- HighBits_dec by (now apply Rwc). apply HighBits_cg. now apply CW. }
  assert (R1: forall r i, (r < 4)%nat -> 0 <= i < 256 -> 0 <= cf w1 r i <= 43 /\ - GAMMA2 <= cf w0 r i <= GAMMA2 /\ cf wc r i == cf w1 r i * (2 * GAMMA2) + cf w0 r i).
  { intros r i Hr Hi. destruct (S10 r Hr) as [S S']. rewrite (S i Hi), (S' i Hi). destruct (dec_range _ (Rwc r i Hr Hi)) as (D1 & D0 & _ & DD). split; [exact D1|]. split; [exact D0|].
    destruct DD as [D|D]; [apply eq_eqm; lia|]. apply (eqm_of_diff _ _ 1). lia. }
  assert (I1: Enc.vec_in 0 43 w1) by (split; [apply V1|]; apply vin_of_cf; [exact V1|]; intros; now apply R1).
  rewrite (w1_enc_vec w1 I1). cbn [bind]. change shake256_bytes with H. rewrite <- E1. set (c := H (mu ++ w1_encode w1) 32).
  assert (Lc: zlen c = 32) by (apply H_len; lia). assert (Bc: bytes_ok c) by (apply H_ok; lia). clearbody c.
  destruct (poly_challenge fuel c) as [cp|] eqn:EC; [|reflexivity]. destruct (poly_challenge_real _ _ _ EC) as [Ic Nc].
  destruct (poly_ntt_ok1 cp 1 (pb_of_in _ _ 1 _ Ic ltac:(lia) ltac:(lia))) as (ch & E & Bch & Sch); [lia|q32|]. rewrite E. cbn [bind]. clear E.
  set (Zs := vadd y (cmul cp s1)). set (Rs := vsub W (cmul cp s2)). set (Ts := cmul cp t0).
  set (Hs := vmap2 (fun r t => if Spec.MakeHint (- t) (r + t) then 1 else 0) Rs Ts).
  match goal with |- exists res, @?O res /\ @?P res => set (Att := P); enough (XX: exists res, O res /\ Att res) by exact XX; cbv beta end.
  (* how a result of the specification looks *)
  assert (Spec_no: ~ (norm_lt (gamma1 - beta) Zs /\ norm_lt (Spec.gamma2 - beta) (vmap Spec.LowBits Rs) /\ norm_lt Spec.gamma2 Ts /\ Enc.weight Hs <= 80) ->
    Att None).
  { intros HN. exists cp. split; [eapply ball_sound; eassumption|]. exact HN. }
  assert (Spec_yes: norm_lt (gamma1 - beta) Zs -> norm_lt (Spec.gamma2 - beta) (vmap Spec.LowBits Rs) -> norm_lt Spec.gamma2 Ts -> Enc.weight Hs <= 80 ->
    Att (Some (sig_encode c (vmap (fun x => Spec.mods x Spec.q) Zs) Hs))).
  { intros G1 G2 G3 G4. exists cp. split; [eapply ball_sound; eassumption|]. split; [|reflexivity]. repeat split; assumption. }
  clearbody Att.
  assert (DZ: Zs = vadd y (cmul cp s1)) by reflexivity. assert (DR: Rs = vsub W (cmul cp s2)) by reflexivity. assert (DT: Ts = cmul cp t0) by reflexivity.
  assert (DH: Hs = vmap2 (fun r t => if Spec.MakeHint (- t) (r + t) then 1 else 0) Rs Ts) by reflexivity. clearbody Zs Rs Ts Hs.
  (* z *)
  destruct (vec_pointwise_poly_ok ch s1h _ _ Bch B1) as (z1 & E & Bz1 & Sz1); [q32|]. rewrite E. cbn [bind]. clear E.
  destruct (vec_invntt_ok z1) as (z2 & E & Bz2 & Sz2); [eapply vb_le; [|exact Bz1]; q32|]. rewrite E. cbn [bind]. clear E.
  destruct (vec_add_ok z2 y _ _ Bz2 By) as (z3 & E & Bz3 & Sz3); [q32|]. rewrite E. cbn [bind]. clear E.
  destruct (vec_reduce_ok z3) as (z & E & Bz & Sz); [eapply vb_le; [|exact Bz3]; q32|]. rewrite E. cbn [bind]. clear E.
  assert (CZ: forall r, (r < 4)%nat -> eqf (cf z r) (cf Zs r)).
  { intros r Hr i Hi. rewrite (Sz r Hr i Hi), red32_eqm, (Sz3 r Hr i Hi). rewrite DZ. unfold vadd. rewrite cf_vmap2 by assumption. rewrite (prod_ntt cp ch s1 s1h z1 z2 Sch T1 Sz1 Sz2 r Hr i Hi). apply eq_eqm; ring. }
  destruct (vec_chknorm_ok z (GAMMA1 - BETA)) as (r1 & E & _ & Nz); [now vm_compute|eapply vb_le; [|exact Bz]; q32|]. rewrite E. cbn [bind]. clear E.
  assert (F1: r1 = 0 <-> norm_lt (gamma1 - beta) Zs).
  { rewrite Nz, norm_lt_cf. change (GAMMA1 - BETA) with 130994. change (gamma1 - beta) with 130994.
    split; intros HN r Hr i Hi; pose proof (norm_rep (cf z r i) (cf Zs r i) 130994 (CZ r Hr i Hi) (vb_cf _ _ r Bz Hr i Hi) ltac:(lia)) as [N1 N2]; [exact (N1 (HN r Hr i Hi))|exact (N2 (HN r Hr i Hi))]. }
  destruct (r1 =? 0) eqn:Er1; cbn [negb]; [apply Z.eqb_eq in Er1|apply Z.eqb_neq in Er1].
  2:{ eexists. split; [reflexivity|]. apply Spec_no. intros (G & _). apply Er1. now apply F1. }
  pose proof (proj1 Nz Er1) as HNz. apply F1 in Er1. clear Nz F1.
  (* w0 - c s2 *)
  assert (Bw0: vb GAMMA2 w0) by (apply vb_of_cf; [exact V0|]; intros r Hr i Hi; pose proof (R1 r i Hr Hi); lia).
  destruct (vec_pointwise_poly_ok ch s2h _ _ Bch B2) as (h1 & E & Bh1 & Sh1); [q32|]. rewrite E. cbn [bind]. clear E.
  destruct (vec_invntt_ok h1) as (h2 & E & Bh2 & Sh2); [eapply vb_le; [|exact Bh1]; q32|]. rewrite E. cbn [bind]. clear E.
  destruct (vec_sub_ok w0 h2 _ _ Bw0 Bh2) as (v1 & E & Bv1 & Sv1); [q32|]. rewrite E. cbn [bind]. clear E.
  destruct (vec_reduce_ok v1) as (v2 & E & Bv2 & Sv2); [eapply vb_le; [|exact Bv1]; q32|]. rewrite E. cbn [bind]. clear E.
  destruct I2 as [L2 J2]. destruct (vin_vlen _ _ _ L2 J2) as [_ R2].
  assert (LB: forall r i, (r < 4)%nat -> 0 <= i < 256 ->
    (- 95154 < cf v2 r i < 95154 <-> Z.abs (Spec.mods (Spec.LowBits (cf Rs r i)) Q) < 95154) /\ (- 95154 < cf v2 r i < 95154 -> Spec.HighBits (cf Rs r i) = dec1 (cf wc r i))).
  { intros r i Hr Hi. apply (lowbits_check (cf wc r i) (cf (cmul cp s2) r i)).
    - now apply Rwc.
    - rewrite cf_cmul by assumption. pose proof (negmul_short cp (cf s2 r) 2 i Ic Nc ltac:(intros j Hj; specialize (R2 r j Hr Hj); lia) Hi). lia.
    - rewrite (Sv2 r Hr i Hi), red32_eqm, (Sv1 r Hr i Hi), (prod_ntt cp ch s2 s2h h1 h2 Sch T2 Sh1 Sh2 r Hr i Hi). destruct (S10 r Hr) as [_ S']. rewrite (S' i Hi). reflexivity.
    - exact (vb_cf _ _ r Bv2 Hr i Hi).
    - rewrite DR. unfold vsub. rewrite cf_vmap2 by assumption. rewrite (CW r Hr i Hi). reflexivity. }
  destruct (vec_chknorm_ok v2 (GAMMA2 - BETA)) as (r2 & E & _ & Nv); [now vm_compute|eapply vb_le; [|exact Bv2]; q32|]. rewrite E. cbn [bind]. clear E.
  assert (F2: r2 = 0 <-> norm_lt (Spec.gamma2 - beta) (vmap Spec.LowBits Rs)).
  { rewrite Nv, norm_lt_cf. change (GAMMA2 - BETA) with 95154. change (Spec.gamma2 - beta) with 95154.
    split; intros HN r Hr i Hi; specialize (HN r Hr i Hi); rewrite ?cf_vmap in * by assumption; now apply (proj1 (LB r i Hr Hi)). }
  destruct (r2 =? 0) eqn:Er2; cbn [negb]; [apply Z.eqb_eq in Er2|apply Z.eqb_neq in Er2].
  2:{ eexists. split; [reflexivity|]. apply Spec_no. intros (_ & G & _). apply Er2. now apply F2. }
  pose proof (proj1 Nv Er2) as HNv. apply F2 in Er2. clear Nv F2.
  (* c t0 *)
  destruct (vec_pointwise_poly_ok ch t0h _ _ Bch B0) as (g1 & E & Bg1 & Sg1); [q32|]. rewrite E. cbn [bind]. clear E.
  destruct (vec_invntt_ok g1) as (g2 & E & Bg2 & Sg2); [eapply vb_le; [|exact Bg1]; q32|]. rewrite E. cbn [bind]. clear E.
  destruct (vec_reduce_ok g2) as (g3 & E & Bg3 & Sg3); [eapply vb_le; [|exact Bg2]; q32|]. rewrite E. cbn [bind]. clear E.
  assert (CT: forall r, (r < 4)%nat -> eqf (cf g3 r) (cf Ts r)).
  { intros r Hr i Hi. rewrite (Sg3 r Hr i Hi), red32_eqm. rewrite DT. exact (prod_ntt cp ch t0 t0h g1 g2 Sch T0 Sg1 Sg2 r Hr i Hi). }
  destruct (vec_chknorm_ok g3 GAMMA2) as (r3 & E & _ & Ng); [now vm_compute|eapply vb_le; [|exact Bg3]; q32|]. rewrite E. cbn [bind]. clear E.
  assert (F3: r3 = 0 <-> norm_lt Spec.gamma2 Ts).
  { rewrite Ng, norm_lt_cf. change GAMMA2 with 95232. change Spec.gamma2 with 95232.
    split; intros HN r Hr i Hi; pose proof (norm_rep (cf g3 r i) (cf Ts r i) 95232 (CT r Hr i Hi) (vb_cf _ _ r Bg3 Hr i Hi) ltac:(lia)) as [N1 N2]; [exact (N1 (HN r Hr i Hi))|exact (N2 (HN r Hr i Hi))]. }
  destruct (r3 =? 0) eqn:Er3; cbn [negb]; [apply Z.eqb_eq in Er3|apply Z.eqb_neq in Er3].
  2:{ eexists. split; [reflexivity|]. apply Spec_no. intros (_ & _ & G & _). apply Er3. now apply F3. }
  pose proof (proj1 Ng Er3) as HNg. apply F3 in Er3. clear Ng F3.
  (* hint *)
  destruct (vec_add_ok v2 g3 _ _ Bv2 Bg3) as (a0 & E & Ba0 & Sa0); [q32|]. rewrite E. cbn [bind]. clear E.
  destruct (vec_make_hint_ok a0 w1 (vb_vlen _ _ Ba0) V1) as (h & n & E & Vh & Fh & -> & Sh). rewrite E. cbn [bind]. clear E.
  assert (EH: h = Hs).
  { rewrite DH. apply vec_is_vmap2; [exact Vh|]. intros r i Hr Hi. rewrite (Sh r Hr i Hi), (Sa0 r Hr i Hi). destruct (S10 r Hr) as [S S']. rewrite (S i Hi).
    apply hint_check; [now apply Rwc|exact (HNv r Hr i Hi)|exact (HNg r Hr i Hi)|apply (LB r i Hr Hi); exact (HNv r Hr i Hi)| |now apply CT].
    rewrite DR. unfold vsub. rewrite cf_vmap2 by assumption. rewrite <- (CW r Hr i Hi). destruct (R1 r i Hr Hi) as (_ & _ & C). rewrite (S i Hi) in C. set (d := dec1 (cf wc r i)) in *. clearbody d. rewrite C.
    rewrite (Sv2 r Hr i Hi), red32_eqm, (Sv1 r Hr i Hi), (prod_ntt cp ch s2 s2h h1 h2 Sch T2 Sh1 Sh2 r Hr i Hi). apply eq_eqm; ring. }
  rewrite <- weight_eq, EH. unfold OMEGA. destruct (Z.ltb_spec 80 (Enc.weight Hs)) as [Eo|Eo].
  { eexists. split; [reflexivity|]. apply Spec_no. intros (_ & _ & _ & G). lia. }
  assert (Hh: Enc.hints Hs).
  { rewrite <- EH in *. apply hints_eq. split; [apply Vh|]. split; [exact Fh|]. now rewrite <- weight_eq. }
  assert (Ez: z = vmap (fun x => Spec.mods x Spec.q) Zs).
  { apply vec_is_vmap; [apply (vb_vlen _ _ Bz)|]. intros r i Hr Hi. change Spec.q with Q. rewrite <- (mods_eq _ _ (CZ r Hr i Hi)). symmetry. apply mods_small. specialize (HNz r Hr i Hi). q32. }
  assert (Hz: Enc.vec_in (-131071) 131072 z).
  { split; [apply Bz|]. apply vin_of_cf; [apply (vb_vlen _ _ Bz)|]. intros r i Hr Hi. specialize (HNz r Hr i Hi). q32. }
  rewrite (sig_enc c z Hs Hz Hh Lc Bc). cbn [bind]. eexists. split; [reflexivity|]. rewrite Ez. now apply Spec_yes.
Qed.

(** ** The counter of the masks *)
Lemma int2_mod x y : x mod 65536 = y mod 65536 -> int2 x = int2 y.
Proof.
  intros E. unfold int2. assert (G: forall a, a mod 256 = (a mod 65536) mod 256 /\ (a / 256) mod 256 = (a mod 65536) / 256).
  { intros a. change 65536 with (256 * 256). rewrite Z.rem_mul_r by lia. rewrite (Z.mul_comm 256 ((a / 256) mod 256)). split.
    - rewrite Z.mod_add by lia. now rewrite Z.mod_mod by lia.
    - rewrite Z.div_add by lia. rewrite (Z.div_small (a mod 256)) by (apply Z.mod_pos_bound; lia). lia. }
  destruct (G x) as [-> ->]. destruct (G y) as [-> ->]. now rewrite E.
Qed.
Lemma mask_mod rhop n : expand_mask rhop (4 * (n mod 65536)) = expand_mask rhop (4 * n).
Proof.
  unfold expand_mask, mkvec. apply map_ext. intros r. rewrite (int2_mod (4 * (n mod 65536) + Z.of_nat r) (4 * n + Z.of_nat r)); [reflexivity|].
  rewrite <- Z.add_mod_idemp_l by lia. rewrite Z.mul_mod_idemp_r by lia. now rewrite Z.add_mod_idemp_l by lia.
Qed.
Lemma attempt_mod A s1 s2 t0 mu rhop n res : attempt A s1 s2 t0 mu rhop (4 * (n mod 65536)) res <-> attempt A s1 s2 t0 mu rhop (4 * n) res.
Proof. unfold attempt. rewrite mask_mod. reflexivity. Qed.
Lemma ball_unique c cp cp' : zlen c = 32 -> sample_in_ball c cp -> sample_in_ball c cp' -> cp = cp'.
Proof.
  intros Lc H1 H2. destruct (ball_complete c cp Lc H1) as (f & F). destruct (ball_complete c cp' Lc H2) as (f' & F').
  specialize (F (f + f')%nat ltac:(lia)). specialize (F' (f + f')%nat ltac:(lia)). rewrite F in F'. now apply Some_inj in F'.
Qed.
Lemma attempt_fun A s1 s2 t0 mu rhop k res res' : attempt A s1 s2 t0 mu rhop k res -> attempt A s1 s2 t0 mu rhop k res' -> res = res'.
Proof.
  unfold attempt. cbv zeta. intros (cp & B & R) (cp' & B' & R'). rewrite <- (ball_unique _ cp cp' (H_len _ 32 ltac:(lia)) B B') in R'. clear B B'.
  destruct res as [s|], res' as [s'|]; [destruct R as [_ ->]; destruct R' as [_ ->]; reflexivity|destruct R as [R _]; contradiction|destruct R' as [R' _]; contradiction|reflexivity].
Qed.

(** ** The rejection loop *)
Lemma rej_sound (att : Z -> outcome (option (option (list Z)))) (P : Z -> option (list Z) -> Prop) :
  (forall n r, att (n mod 65536) = Ret (Some r) -> P n r) ->
  forall fuel n sig, rej_loop att fuel (n mod 65536) = Ret (Some sig) ->
  exists k, n <= k /\ (forall j, n <= j < k -> P j None) /\ P k (Some sig).
Proof.
  intros HP. induction fuel as [|fuel IH]; intros n sig; cbn [rej_loop]; [intros E; apply Ret_inj in E; discriminate E|].
  destruct (att (n mod 65536)) as [r|] eqn:EA; cbn [bind]; [|discriminate]. destruct r as [[s|]|]; [| |intros E; apply Ret_inj in E; discriminate E].
  - intros E. apply Ret_inj, Some_inj in E. subst s. exists n. split; [lia|]. split; [intros j Hj; lia|]. now apply HP.
  - unfold u16. change (2 ^ 16) with 65536. rewrite Z.add_mod_idemp_l by lia. intros E. destruct (IH _ _ E) as (k & Hk & HN & HS). exists k. split; [lia|]. split; [|exact HS].
    intros j Hj. destruct (Z.eq_dec j n) as [->|]; [now apply HP|apply HN; lia].
Qed.
Lemma rej_complete (att : Z -> outcome (option (option (list Z)))) sig (d : nat) : forall fuel n, (d < fuel)%nat ->
  (forall j, n <= j < n + Z.of_nat d -> att (j mod 65536) = Ret (Some None)) -> att ((n + Z.of_nat d) mod 65536) = Ret (Some (Some sig)) ->
  rej_loop att fuel (n mod 65536) = Ret (Some sig).
Proof.
  induction d as [|d IH]; intros fuel n Hf HN HS; (destruct fuel as [|fuel]; [lia|]); cbn [rej_loop].
  - replace (n + Z.of_nat 0) with n in HS by lia. rewrite HS. reflexivity.
  - rewrite (HN n) by lia. cbn [bind]. unfold u16. change (2 ^ 16) with 65536. rewrite Z.add_mod_idemp_l by lia. apply IH; [lia| |].
    + intros j Hj. apply HN. lia.
    + replace (n + 1 + Z.of_nat d) with (n + Z.of_nat (S d)) by lia. exact HS.
Qed.
Lemma bound_upto (P : Z -> nat -> Prop) (d : nat) : (forall j, 0 <= j <= Z.of_nat d -> exists f, forall f', (f <= f')%nat -> P j f') ->
  exists f, forall f', (f <= f')%nat -> forall j, 0 <= j <= Z.of_nat d -> P j f'.
Proof.
  induction d as [|d IH]; intros HP.
  - destruct (HP 0 ltac:(lia)) as (f & F). exists f. intros f' Hf j Hj. replace j with 0 by lia. now apply F.
  - destruct IH as (f1 & F1); [intros j Hj; apply HP; lia|]. destruct (HP (Z.of_nat (S d)) ltac:(lia)) as (f2 & F2). exists (f1 + f2)%nat. intros f' Hf j Hj.
    destruct (Z.eq_dec j (Z.of_nat (S d))) as [->|]; [apply F2; lia|apply F1; lia].
Qed.

(** ** Signing *)
Lemma fields_unpack rho K tr s1 s2 t0 : fields rho K tr s1 s2 t0 -> unpack_sk (sk_encode rho K tr s1 s2 t0) = (rho, tr, K, t0, s1, s2).
Proof.
  intros ([L1 B1] & [L2 B2] & [L3 B3] & I1 & I2 & I0).
  assert (W: forall v, Enc.vec_in (-2) 2 v -> eta_vec v).
  { intros v [L F]. split; [exact L|]. eapply Forall_impl; [|exact F]. intros a [La Fa]. split; [exact La|]. eapply Forall_impl; [|exact Fa]. cbv beta. intros; lia. }
  destruct (pack_sk_ok rho tr K t0 s1 s2) as (sk & E & _ & _ & U); try assumption; try (apply W; assumption).
  rewrite (sk_enc rho tr K t0 s1 s2 I0 I1 I2) in E. apply Ret_inj in E. now rewrite E.
Qed.
Lemma sign_signature_fields f m rho K tr s1 s2 t0 : fields rho K tr s1 s2 t0 ->
  let mu := H (tr ++ m) 64 in let rhop := H (K ++ repeat 0 32 ++ mu) 64 in
  match matrix_expand f rho with
  | None => sign_signature f m (sk_encode rho K tr s1 s2 t0) = Ret None
  | Some mat => exists s1h s2h t0h, (hats s1 s1h /\ hats s2 s2h /\ hats t0 t0h /\ vb (8 * Q + 5) s1h /\ vb (8 * Q + 5) s2h /\ vb (8 * Q + 4096) t0h) /\
      sign_signature f m (sk_encode rho K tr s1 s2 t0) = rej_loop (sign_attempt f mat s1h s2h t0h mu rhop) f 0
  end.
Proof.
  intros HF. cbv zeta. pose proof (fields_unpack _ _ _ _ _ _ HF) as EU. destruct HF as (_ & _ & _ & [L1 I1] & [L2 I2] & [L0 I0]).
  unfold sign_signature. rewrite EU. cbv zeta. change shake256_bytes with H.
  destruct (matrix_expand f rho) as [mat|]; [|reflexivity].
  destruct (vec_ntt_ok s1 5 (vb_of_in _ _ 5 _ L1 I1 ltac:(lia) ltac:(lia))) as (s1h & E & B1 & S1); [lia|q32|]. rewrite E. cbn [bind]. clear E.
  destruct (vec_ntt_ok s2 5 (vb_of_in _ _ 5 _ L2 I2 ltac:(lia) ltac:(lia))) as (s2h & E & B2 & S2); [lia|q32|]. rewrite E. cbn [bind]. clear E.
  destruct (vec_ntt_ok t0 4096 (vb_of_in _ _ 4096 _ L0 I0 ltac:(lia) ltac:(lia))) as (t0h & E & B0 & S0); [lia|q32|]. rewrite E. cbn [bind]. clear E.
  exists s1h, s2h, t0h. split; [|reflexivity]. split; [exact S1|]. split; [exact S2|]. split; [exact S0|]. split; [eapply vb_le; [|exact B1]; lia|]. split; [eapply vb_le; [|exact B2]; lia|eapply vb_le; [|exact B0]; lia].
Qed.
Theorem sign_sound f m sk sig : secret_key sk -> sign_signature f m sk = Ret (Some sig) -> sign sk m sig.
Proof.
  intros (rho & K & tr & s1 & s2 & t0 & HF & ->) E. pose proof (sign_signature_fields f m _ _ _ _ _ _ HF) as G. cbv zeta in G.
  destruct (matrix_expand f rho) as [mat|] eqn:EM; [|rewrite G in E; apply Ret_inj in E; discriminate E].
  destruct G as (s1h & s2h & t0h & (T1 & T2 & T0 & B1 & B2 & B0) & G). rewrite G in E. clear G.
  destruct (expand_A_sound _ _ _ EM) as (A & EA & HA). pose proof (matrix_expand_in _ _ _ EM) as HM.
  exists rho, K, tr, s1, s2, t0. split; [exact HF|]. split; [reflexivity|]. cbv zeta.
  set (mu := H (tr ++ m) 64) in *. set (rhop := H (K ++ repeat 0 32 ++ mu) 64) in *. clearbody rhop mu.
  change 0 with (0 mod 65536) in E.
  destruct (rej_sound (sign_attempt f mat s1h s2h t0h mu rhop) (fun n r => attempt A s1 s2 t0 mu rhop (4 * n) r)) with (2 := E) as (n & Hn & HN & HS).
  { intros n r Er. pose proof (attempt_exact f mat A s1 s2 t0 s1h s2h t0h mu rhop (n mod 65536) HM HA ltac:(apply HF) T1 T2 T0 B1 B2 B0) as X. cbv zeta in X.
    destruct (poly_challenge f _) as [cp|]; [|rewrite X in Er; apply Ret_inj in Er; discriminate Er].
    destruct X as (res & EX & HX). rewrite EX in Er. apply Ret_inj, Some_inj in Er. subst r. exact (proj1 (attempt_mod A s1 s2 t0 mu rhop n res) HX). }
  exists A, n. split; [exact EA|]. split; [exact HN|]. split; [exact Hn|exact HS].
Qed.
Theorem sign_complete m sk sig : sign sk m sig -> exists f, forall f', (f <= f')%nat -> sign_signature f' m sk = Ret (Some sig).
Proof.
  intros (rho & K & tr & s1 & s2 & t0 & HF & -> & A & n & EA & HS). cbv zeta in HS. destruct HS as (HN & Hn & HS).
  destruct (expand_A_complete _ _ EA) as (f1 & mat & HA & F1). pose proof (matrix_expand_in _ _ _ (F1 f1 (le_n _))) as HM.
  set (mu := H (tr ++ m) 64) in *. set (rhop := H (K ++ repeat 0 32 ++ mu) 64) in *.
  set (c := fun n => H (mu ++ w1_encode (vmap Spec.HighBits (matvec A (expand_mask rhop (4 * n))))) 32).
  destruct (bound_upto (fun j f => exists cp, poly_challenge f (c j) = Some cp) (Z.to_nat n)) as (f2 & F2).
  { intros j Hj. assert (HB: exists cp, sample_in_ball (c j) cp).
    { destruct (Z.eq_dec j n) as [->|]; [destruct HS as (cp & B & _); exists cp; exact B|]. destruct (HN j ltac:(lia)) as (cp & B & _). exists cp. exact B. }
    destruct HB as (cp & B). destruct (ball_complete (c j) cp (H_len _ 32 ltac:(lia)) B) as (f & F). exists f. intros f' Hf. exists cp. now apply F. }
  exists (f1 + f2 + S (Z.to_nat n))%nat. intros f' Hf.
  pose proof (sign_signature_fields f' m _ _ _ _ _ _ HF) as G. cbv zeta in G. rewrite (F1 f') in G by lia.
  destruct G as (s1h & s2h & t0h & (T1 & T2 & T0 & B1 & B2 & B0) & G). rewrite G. clear G. fold mu. fold rhop.
  assert (HX: forall j res, 0 <= j <= n -> attempt A s1 s2 t0 mu rhop (4 * j) res -> sign_attempt f' mat s1h s2h t0h mu rhop (j mod 65536) = Ret (Some res)).
  { intros j res Hj Hres. pose proof (attempt_exact f' mat A s1 s2 t0 s1h s2h t0h mu rhop (j mod 65536) HM HA ltac:(apply HF) T1 T2 T0 B1 B2 B0) as X. cbv zeta in X. rewrite mask_mod in X.
    destruct (F2 f' ltac:(lia) j ltac:(lia)) as (cp & EC). unfold c in EC. rewrite EC in X. destruct X as (r & EX & HX). apply (proj1 (attempt_mod A s1 s2 t0 mu rhop j r)) in HX. rewrite EX. rewrite (attempt_fun A s1 s2 t0 mu rhop (4 * j) r res HX Hres). reflexivity. }
  change 0 with (0 mod 65536) at 1. apply (rej_complete _ sig (Z.to_nat n)); [lia| |].
  - intros j Hj. apply HX; [lia|]. apply HN. lia.
  - replace (0 + Z.of_nat (Z.to_nat n)) with n by lia. now apply HX; [lia|].
Qed.
Lemma small_z_dec z : z_vec z -> small_z z \/ ~ small_z z.
Proof.
  intros [Lz Iz]. pose proof (vb_of_in _ _ 131072 _ Lz Iz ltac:(lia) ltac:(lia)) as Bz.
  destruct (vec_chknorm_ok z (GAMMA1 - BETA)) as (r1 & _ & _ & Nz); [now vm_compute|eapply vb_le; [|exact Bz]; q32|].
  destruct (Z.eq_dec r1 0) as [E|E]; [left|right].
  - split; [apply (vb_vlen _ _ Bz)|]. intros r i Hr Hi. now apply (proj1 Nz E).
  - intros [_ HS]. apply E, Nz. intros k Hk i Hi. now apply HS.
Qed.
