(** Key generation and signing of dilithium2/sign.c meet the specification of DilFips.v. *)
From Coq Require Import Setoid Morphisms.
From Verif Require Import Base SpongePure SpongeProofs SpongeProofs2 Tab DilReduce DilReduceProofs DilNtt DilNttProofs DilNttAlg DilPoly DilPolyProofs DilPack DilVec DilHint DilSign DilPacking DilSampleSpec DilSample DilEncSpec DilEncProofs DilVecProofs DilSpec DilSpecProofs DilSignProofs DilFips DilFipsProofs.
Ltac Zify.zify_post_hook ::= idtac.
Opaque fl il mont red32 cadd nttf inttf sumz Z.pow shake256_bytes shake128_bytes.
Import MLDSA.

(** ** A tighter bound for the inverse transform: its output never wraps around *)
Transparent inttf.
Lemma intt_tight g : within Q g -> within 4300000 (inttf g).
Proof.
  intros W. assert (HQ: Q = 8380417) by reflexivity.
  assert (W': within (256 * Q) (il 128 (il 64 (il 32 (il 16 (il 8 (il 4 (il 2 (il 1 g))))))))).
  { replace (256 * Q) with (2 * (2 * (2 * (2 * (2 * (2 * (2 * (2 * Q)))))))) by lia.
    apply il_within; [inlens|lia|lia|]. apply il_within; [inlens|lia|lia|]. apply il_within; [inlens|lia|lia|]. apply il_within; [inlens|lia|lia|].
    apply il_within; [inlens|lia|lia|]. apply il_within; [inlens|lia|lia|]. apply il_within; [inlens|lia|lia|]. apply il_within; [inlens|lia|lia|]. exact W. }
  intros i Hi. specialize (W' i Hi). unfold inttf. set (x := il _ _ i) in *. clearbody x.
  pose proof (mont_spec (41978 * x)) as E. pose proof (mont_t_range (41978 * x)) as T. rewrite HQ in *. change (2 ^ 31) with 2147483648 in *. change (2 ^ 32) with 4294967296 in *. lia.
Qed.
Opaque inttf.
Lemma vec_invntt_tight v u : vb Q v -> vlen u -> (forall r, (r < 4)%nat -> same (cf u r) (inttf (cf v r))) -> vb 4300000 u.
Proof.
  intros Bv Vu Su. apply vb_of_cf; [exact Vu|]. intros r Hr i Hi. rewrite (Su r Hr i Hi). apply intt_tight; [|exact Hi]. now apply vb_cf.
Qed.

(** ** Key generation *)
Lemma Power2Round_cg x y : x == y -> Spec.Power2Round x = Spec.Power2Round y.
Proof. intros E. apply cg_iff in E. unfold Spec.Power2Round. change Spec.q with Q. now rewrite E. Qed.
Lemma keygen_exact f rho rhop key mat s1 s2 A : zlen rho = 32 -> bytes_ok rho -> zlen key = 32 -> bytes_ok key ->
  matrix_expand f rho = Some mat -> vec_uniform_eta f rhop 0 = Some s1 -> vec_uniform_eta f rhop 4 = Some s2 -> is_ntt A mat ->
  let t := vadd (matvec A s1) s2 in
  let t1 := vmap (fun x => fst (Spec.Power2Round x)) t in
  let t0 := vmap (fun x => snd (Spec.Power2Round x)) t in
  Enc.vec_in (-2) 2 s1 /\ Enc.vec_in (-2) 2 s2 /\ Enc.vec_in 0 1023 t1 /\ Enc.vec_in (-4095) 4096 t0 /\
  keypair_from f rho rhop key = Ret (Some (pk_encode rho t1, sk_encode rho key (H (pk_encode rho t1) 64) s1 s2 t0)).
Proof.
  intros Lr Br Lk Bk EM E1 E2 HA t T1' T0'. unfold keypair_from. rewrite EM, E1, E2. pose proof (matrix_expand_in _ _ _ EM) as HM.
  apply vec_uniform_eta_in in E1 as [L1 I1]. apply vec_uniform_eta_in in E2 as [L2 I2].
  pose proof (vb_of_in _ _ 2 _ L1 I1 ltac:(lia) ltac:(lia)) as B1. pose proof (vb_of_in _ _ 2 _ L2 I2 ltac:(lia) ltac:(lia)) as B2.
  destruct (vec_ntt_ok s1 2 B1) as (sh & E & Bsh & Ssh); [lia|q32|]. rewrite E. cbn [bind]. clear E.
  destruct (matrix_pointwise_ok mat sh _ HM Bsh) as (t' & E & Bt & St); [q32|]. rewrite E. cbn [bind]. clear E.
  destruct (vec_reduce_ok t') as (t2 & E & Bt' & St'); [eapply vb_le; [|exact Bt]; q32|]. rewrite E. cbn [bind]. clear E.
  assert (Bt2: vb Q t2) by (eapply vb_le; [|exact Bt']; q32).
  destruct (vec_invntt_ok t2 Bt2) as (u & E & Bu & Su). rewrite E. cbn [bind]. clear E.
  apply vb_vlen in Bu. pose proof (vec_invntt_tight t2 u Bt2 Bu Su) as Bu'.
  destruct (vec_add_ok u s2 _ _ Bu' B2) as (a & E & Ba & Sa); [q32|]. rewrite E. cbn [bind]. clear E.
  destruct (vec_caddq_ok a) as (b & E & Vb & Sb); [eapply vb_le; [|exact Ba]; q32|]. rewrite E. cbn [bind]. clear E.
  assert (Rb: forall r i, (r < 4)%nat -> 0 <= i < 256 -> 0 <= cf b r i < Q).
  { intros r i Hr Hi. rewrite (Sb r Hr i Hi). apply cadd_range. pose proof (vb_cf _ _ r Ba Hr i Hi) as W. q32. }
  assert (Cb: forall r, (r < 4)%nat -> eqf (cf b r) (cf t r)).
  { intros r Hr. apply ntt_inj. eapply eqf_trans; [apply (ntt_add _ (cf u r) (cf s2 r))|].
    { intros i Hi. rewrite (Sb r Hr i Hi), cadd_eqm, (Sa r Hr i Hi). reflexivity. }
    apply eqf_sym. eapply eqf_trans; [apply (ntt_add _ (cf (matvec A s1) r) (cf s2 r))|].
    { intros i Hi. unfold t, vadd. rewrite cf_vmap2 by assumption. reflexivity. }
    assert (A1: eqf (nttf (cf u r)) (dot (nth r mat []) (cf sh))).
    { apply (ntt_of_intt_dot _ (cf t2 r)); [apply eqf_same, Su, Hr|]. intros i Hi. rewrite (St' r Hr i Hi), red32_eqm, (St r Hr i Hi). reflexivity. }
    intros i Hi. cbv beta. rewrite (ntt_matvec_dot A mat s1 r HA Hr i Hi), (A1 i Hi).
    assert (D: dot (nth r mat []) (cf sh) i == dot (nth r mat []) (fun c => nttf (cf s1 c)) i). { apply dot_ext. intros c Hc. rewrite (Ssh c Hc i Hi). reflexivity. }
    rewrite D. reflexivity. }
  destruct (vec_power2round_ok b Vb) as (t1 & t0 & E & V1 & V0 & S10); [intros r i Hr Hi; specialize (Rb r i Hr Hi); q32|]. rewrite E. cbn [bind]. clear E.
  assert (P: forall r i, (r < 4)%nat -> 0 <= i < 256 -> (cf t1 r i, cf t0 r i) = Spec.Power2Round (cf t r i)).
  { intros r i Hr Hi. destruct (S10 r Hr) as [S S']. rewrite (S i Hi), (S' i Hi). rewrite power2round_spec by (now apply Rb). apply Power2Round_cg. now apply Cb. }
  assert (ET1: t1 = T1') by (apply vec_is_vmap; [exact V1|]; intros r i Hr Hi; rewrite <- (P r i Hr Hi); reflexivity).
  assert (ET0: t0 = T0') by (apply vec_is_vmap; [exact V0|]; intros r i Hr Hi; rewrite <- (P r i Hr Hi); reflexivity).
  rewrite <- ET1, <- ET0.
  assert (IT1: Enc.vec_in 0 1023 t1).
  { split; [apply V1|]. apply vin_of_cf; [exact V1|]. intros r i Hr Hi. destruct (S10 r Hr) as [S _]. rewrite (S i Hi). assert (X: - 4095 <= cf b r i < Q + 4095) by (specialize (Rb r i Hr Hi); lia). pose proof (p2r1_range _ X). lia. }
  assert (IT0: Enc.vec_in (-4095) 4096 t0).
  { split; [apply V0|]. apply vin_of_cf; [exact V0|]. intros r i Hr Hi. destruct (S10 r Hr) as [_ S]. rewrite (S i Hi). pose proof (p2r0_range (cf b r i)). lia. }
  split; [split; assumption|]. split; [split; assumption|]. split; [exact IT1|]. split; [exact IT0|].
  rewrite (pk_enc rho t1 IT1). cbn [bind]. cbv zeta. rewrite H_fold. rewrite (sk_enc _ _ _ _ _ _ IT0 (conj L1 I1) (conj L2 I2)). reflexivity.
Qed.
Lemma seed_parts xi : let s := H xi 128 in
  firstn 32 s = slice s 0 32 /\ firstn 64 (skipn 32 s) = slice s 32 64 /\ skipn 96 s = slice s 96 32.
Proof.
  cbv zeta. split; [reflexivity|]. split; [reflexivity|]. unfold slice. symmetry. apply firstn_all2. rewrite skipn_length. pose proof (H_len xi 128 ltac:(lia)) as L. unfold zlen in L. lia.
Qed.
Lemma keygen_sound f seed pk sk : zlen seed = 32 -> keypair_seed f seed = Ret (Some (pk, sk)) -> keygen seed pk sk.
Proof.
  intros Ls E. unfold keypair_seed in E. rewrite (slice_all seed 32) in E by lia. rewrite H_fold in E. unfold keygen.
  destruct (seed_parts seed) as (-> & -> & ->). pose proof (H_len seed 128 ltac:(lia)) as L. pose proof (H_ok seed 128 ltac:(lia)) as B. set (s := H seed 128) in *. clearbody s.
  assert (Hb: forall o n, bytes_ok (slice s o n)) by (intros; now apply bytes_ok_slice).
  destruct (matrix_expand f (slice s 0 32)) as [mat|] eqn:EM; [|unfold keypair_from in E; rewrite EM in E; discriminate E].
  destruct (vec_uniform_eta f (slice s 32 64) 0) as [s1|] eqn:E1; [|unfold keypair_from in E; rewrite EM, E1 in E; discriminate E].
  destruct (vec_uniform_eta f (slice s 32 64) 4) as [s2|] eqn:E2; [|unfold keypair_from in E; rewrite EM, E1, E2 in E; discriminate E].
  destruct (expand_A_sound _ _ _ EM) as (A & HA & HN).
  destruct (keygen_exact f (slice s 0 32) (slice s 32 64) (slice s 96 32) mat s1 s2 A) as (_ & _ & _ & _ & EK); try apply Hb; try (apply zlen_slice; lia); try assumption.
  rewrite EK in E. apply Ret_inj, Some_inj, pair_equal_spec in E as [<- <-].
  exists A, s1, s2. split; [exact HA|]. split; [eapply expand_S_sound; eassumption|]. cbv zeta. split; reflexivity.
Qed.
Lemma keygen_complete seed pk sk : zlen seed = 32 -> keygen seed pk sk -> exists f, forall f', (f <= f')%nat -> keypair_seed f' seed = Ret (Some (pk, sk)).
Proof.
  intros Ls E. unfold keypair_seed. rewrite (slice_all seed 32) by lia. rewrite H_fold. unfold keygen in E.
  destruct (seed_parts seed) as (R1 & R2 & R3). rewrite R1, R2, R3 in E. clear R1 R2 R3. pose proof (H_len seed 128 ltac:(lia)) as L. pose proof (H_ok seed 128 ltac:(lia)) as B. set (s := H seed 128) in *. clearbody s.
  assert (Hb: forall o n, bytes_ok (slice s o n)) by (intros; now apply bytes_ok_slice).
  destruct E as (A & s1 & s2 & HA & HS & EE). cbv zeta in EE. destruct EE as [Epk Esk].
  destruct (expand_A_complete _ _ HA) as (f1 & mat & HN & H1). destruct (expand_S_complete _ _ _ HS) as (f2 & H2). exists (f1 + f2)%nat. intros f Hf.
  destruct (H2 f ltac:(lia)) as [E1 E2].
  destruct (keygen_exact f (slice s 0 32) (slice s 32 64) (slice s 96 32) mat s1 s2 A) as (_ & _ & _ & _ & EK); try apply Hb; try (apply zlen_slice; lia); try assumption; try (apply H1; lia).
  rewrite EK. rewrite <- Epk, <- Esk. reflexivity.
Qed.
Lemma keygen_secret_key seed pk sk : zlen seed = 32 -> keygen seed pk sk -> secret_key sk.
Proof.
  intros Ls E. unfold keygen in E.
  destruct (seed_parts seed) as (R1 & R2 & R3). rewrite R1, R2, R3 in E. clear R1 R2 R3. pose proof (H_len seed 128 ltac:(lia)) as L. pose proof (H_ok seed 128 ltac:(lia)) as B. set (s := H seed 128) in *. clearbody s.
  assert (Hb: forall o n, bytes_ok (slice s o n)) by (intros; now apply bytes_ok_slice).
  destruct E as (A & s1 & s2 & HA & HS & EE). cbv zeta in EE. destruct EE as [Epk Esk].
  destruct (expand_A_complete _ _ HA) as (f1 & mat & HN & H1). destruct (expand_S_complete _ _ _ HS) as (f2 & H2).
  destruct (H2 (f1 + f2)%nat ltac:(lia)) as [E1 E2].
  destruct (keygen_exact (f1 + f2) (slice s 0 32) (slice s 32 64) (slice s 96 32) mat s1 s2 A) as (I1 & I2 & _ & I0 & _); try apply Hb; try (apply zlen_slice; lia); try assumption; try (apply H1; lia).
  do 6 eexists. split; [|exact Esk]. split; [split; [apply zlen_slice; lia|apply Hb]|]. split; [split; [apply zlen_slice; lia|apply Hb]|].
  split; [split; [apply H_len; lia|apply H_ok; lia]|]. split; [exact I1|]. split; [exact I2|exact I0].
Qed.
