(** Correctness of dilithium2/sign.c: key generation, signing, verification. *)
From Coq Require Import Setoid Morphisms.
From Verif Require Import Base SpongePure SpongeProofs SpongeProofs2 Tab DilReduce DilReduceProofs DilNtt DilNttProofs DilNttAlg DilPoly DilPolyProofs DilPack DilVec DilHint DilSign DilPacking DilSampleSpec DilSample DilEncSpec DilEncProofs DilVecProofs.
Opaque fl il mont red32 cadd nttf inttf sumz Z.pow.

(** ** Fuel: a larger bound gives the same result *)
Lemma uniform_loop_mono x : forall f f' pos buf acc a, (f <= f')%nat -> uniform_loop f x pos buf acc = Some a -> uniform_loop f' x pos buf acc = Some a.
Proof.
  induction f as [|f IH]; intros [|f'] pos buf acc a Hf; cbn [uniform_loop]; auto; try lia.
  - destruct (_ <? _); [discriminate|auto].
  - destruct (_ <? _); [|auto]. apply IH. lia.
Qed.
Lemma eta_loop_mono x : forall f f' pos acc a, (f <= f')%nat -> eta_loop f x pos acc = Some a -> eta_loop f' x pos acc = Some a.
Proof.
  induction f as [|f IH]; intros [|f'] pos acc a Hf; cbn [eta_loop]; auto; try lia.
  - destruct (_ <? _); [discriminate|auto].
  - destruct (_ <? _); [|auto]. apply IH. lia.
Qed.
Lemma chal_next_mono x i : forall f f' st r, (f <= f')%nat -> chal_next f x i st = Some r -> chal_next f' x i st = Some r.
Proof.
  induction f as [|f IH]; intros [|f'] [[buf pos] off] r Hf; cbn [chal_next]; try lia; try discriminate.
  destruct (136 <=? pos); (destruct (i <? _); [apply IH; lia|auto]).
Qed.
Transparent chal_loop.
Lemma chal_loop_mono x f f' : (f <= f')%nat -> forall is c s st r, chal_loop f x is c s st = Some r -> chal_loop f' x is c s st = Some r.
Proof.
  intros Hf. induction is as [|i is IH]; intros c s st r; cbn [chal_loop]; [auto|].
  destruct (chal_next f x i st) as [[b st']|] eqn:E; [|discriminate]. rewrite (chal_next_mono _ _ _ _ _ _ Hf E). apply IH.
Qed.
Opaque chal_loop.
Transparent poly_challenge_x.
Lemma poly_challenge_mono f f' s c : (f <= f')%nat -> poly_challenge f s = Some c -> poly_challenge f' s = Some c.
Proof. intros Hf. unfold poly_challenge, poly_challenge_x. now apply chal_loop_mono. Qed.
Opaque poly_challenge_x.
Lemma mapO_mono {A B} (f g : A -> option B) l r : (forall x y, f x = Some y -> g x = Some y) -> mapO f l = Some r -> mapO g l = Some r.
Proof.
  intros H. revert r. induction l as [|x l IH]; intros r; cbn [mapO]; [auto|]. destruct (f x) as [y|] eqn:E; cbn [obind]; [|discriminate]. rewrite (H _ _ E). cbn [obind].
  destruct (mapO f l) as [t|] eqn:E2; cbn [obind]; [|discriminate]. rewrite (IH _ eq_refl). auto.
Qed.
Lemma matrix_expand_mono f f' rho m : (f <= f')%nat -> matrix_expand f rho = Some m -> matrix_expand f' rho = Some m.
Proof. intros Hf. apply mapO_mono. intros x y. apply mapO_mono. intros z p. unfold poly_uniform, poly_uniform_x. now apply uniform_loop_mono. Qed.
Lemma matrix_expand_same f f' rho m m' : matrix_expand f rho = Some m -> matrix_expand f' rho = Some m' -> m = m'.
Proof.
  intros H H'. destruct (Nat.le_ge_cases f f') as [L|L]; [apply (matrix_expand_mono _ _ _ _ L) in H|apply (matrix_expand_mono _ _ _ _ L) in H']; rewrite H in H'; now apply Some_inj in H'.
Qed.
Lemma vec_uniform_eta_mono f f' s n v : (f <= f')%nat -> vec_uniform_eta f s n = Some v -> vec_uniform_eta f' s n = Some v.
Proof. intros Hf. apply mapO_mono. intros x y. unfold poly_uniform_eta, poly_uniform_eta_x. now apply eta_loop_mono. Qed.

(** ** Ranges of the sampled objects *)
Lemma mapO_forall {A B} (f : A -> option B) (P : B -> Prop) l r : (forall x y, f x = Some y -> P y) -> mapO f l = Some r -> length r = length l /\ Forall P r.
Proof.
  intros H. revert r. induction l as [|x l IH]; intros r; cbn [mapO]; [intros E; apply Some_inj in E; subst; auto|].
  destruct (f x) as [y|] eqn:E; cbn [obind]; [|discriminate]. destruct (mapO f l) as [t|] eqn:E2; cbn [obind]; [|discriminate]. intros E3. apply Some_inj in E3. subst r.
  destruct (IH _ eq_refl) as [H1 H2]. split; [cbn [length]; lia|]. constructor; eauto.
Qed.
Lemma vb_of_in lo hi B v : length v = 4%nat -> Forall (poly_in lo hi) v -> - B <= lo -> hi <= B -> vb B v.
Proof.
  intros HL HF H1 H2. destruct (vin_vlen lo hi v HL HF) as [V R]. apply vb_of_cf; [exact V|]. intros r Hr i Hi. specialize (R r i Hr Hi). lia.
Qed.
Lemma matrix_expand_in f rho m : matrix_expand f rho = Some m -> matb m.
Proof.
  intros H. assert (G: length m = 4%nat /\ Forall (fun v => length v = 4%nat /\ Forall (poly_in 0 (Q - 1)) v) m).
  { revert H. apply mapO_forall. intros x v H. revert H. apply (mapO_forall _ (poly_in 0 (Q - 1))). intros z p. apply poly_uniform_real. }
  destruct G as [HL HF]. split; [exact HL|]. intros r Hr. rewrite Forall_forall in HF. destruct (HF (nth r m [])) as [H1 H2]; [apply nth_In; lia|].
  apply (vb_of_in 0 (Q - 1)); [exact H1|exact H2|unfold Q; lia|lia].
Qed.
Lemma vec_uniform_eta_in f s n v : vec_uniform_eta f s n = Some v -> length v = 4%nat /\ Forall (poly_in (-2) 2) v.
Proof. apply mapO_forall. intros x p. apply poly_uniform_eta_real. Qed.
Lemma vec_uniform_gamma1_in s n : length (vec_uniform_gamma1 s n) = 4%nat /\ Forall (poly_in (-131071) 131072) (vec_uniform_gamma1 s n).
Proof. split; [reflexivity|]. unfold vec_uniform_gamma1. apply Forall_map, Forall_forall. intros i _. apply poly_uniform_gamma1_real. Qed.

(** ** Algebra modulo q *)
Lemma eqf_same f g : same f g -> eqf f g.
Proof. intros H i Hi. rewrite (H i Hi). reflexivity. Qed.
Lemma eqf_refl f : eqf f f. Proof. intros i _. reflexivity. Qed.
Lemma eqf_sym f g : eqf f g -> eqf g f. Proof. intros H i Hi. symmetry. now apply H. Qed.
Lemma ntt_of_intt g h x : eqf g (inttf h) -> eqf h (fun i => mont (x i)) -> eqf (nttf g) x.
Proof.
  intros H H2. eapply eqf_trans; [apply (ntt_intt _ _ H)|]. intros i Hi. cbv beta. rewrite (H2 i Hi). cbv beta. rewrite mont_eqm. transitivity (2 ^ 32 * RI * x i); [apply eq_eqm; ring|].
  rewrite R_RI. apply eq_eqm; ring.
Qed.
Lemma ntt_inj f g : eqf (nttf f) (nttf g) -> eqf f g.
Proof.
  intros H. pose proof (intt_ntt (nttf f) f (eqf_refl _)) as H1. pose proof (intt_ntt (nttf f) g H) as H2. intros i Hi. specialize (H1 i Hi). specialize (H2 i Hi). cbv beta in H1, H2.
  rewrite H1 in H2. transitivity (2 ^ 32 * RI * f i); [rewrite R_RI; apply eq_eqm; ring|]. transitivity (2 ^ 32 * f i * RI); [apply eq_eqm; ring|]. rewrite H2.
  transitivity (2 ^ 32 * RI * g i); [apply eq_eqm; ring|rewrite R_RI; apply eq_eqm; ring].
Qed.
(** row times vector *)
Definition dot (row : vec) (f : nat -> Z -> Z) (i : Z) : Z :=
  cf row 0 i * f 0%nat i + cf row 1 i * f 1%nat i + cf row 2 i * f 2%nat i + cf row 3 i * f 3%nat i.
Lemma dot_ext row f g i : (forall r, (r < 4)%nat -> f r i == g r i) -> dot row f i == dot row g i.
Proof. intros H. unfold dot. rewrite (H 0%nat), (H 1%nat), (H 2%nat), (H 3%nat) by lia. reflexivity. Qed.
Lemma dotm_eqm row v i : dotm row v i == dot row (cf v) i * RI.
Proof. unfold dotm, dot. rewrite !mont_eqm. apply eq_eqm. ring. Qed.
Lemma ntt_of_intt_dot g h row v : eqf g (inttf h) -> eqf h (dotm row v) -> eqf (nttf g) (dot row (cf v)).
Proof.
  intros H1 H2. eapply eqf_trans; [apply (ntt_intt _ _ H1)|]. intros i Hi. cbv beta. rewrite (H2 i Hi), dotm_eqm. transitivity (2 ^ 32 * RI * dot row (cf v) i); [apply eq_eqm; ring|].
  rewrite R_RI. apply eq_eqm; ring.
Qed.

(** ** Hash outputs *)
Lemma sponge_bytes_len r p m n : 0 < r -> 0 <= n -> zlen (sponge_bytes r p m n) = n.
Proof. intros Hr Hn. now apply zlen_squeeze. Qed.
Lemma sponge_bytes_ok r p m n : 0 < r -> 0 <= n -> bytes_ok (sponge_bytes r p m n).
Proof. intros Hr Hn. unfold sponge_bytes. rewrite squeeze_stream by assumption. apply bytes_stream; [apply stream_byte|lia]. Qed.
Opaque shake256_bytes.

(** ** Key generation *)
Definition key_relation (mat : list vec) (s1 s2 t0 t1 : vec) : Prop := forall r, (r < 4)%nat ->
  eqf (nttf (fun i => cf t1 r i * 8192)) (fun i => dot (nth r mat []) (fun c => nttf (cf s1 c)) i + nttf (cf s2 r) i - nttf (cf t0 r) i).
Ltac q32 := unfold Q, GAMMA1, GAMMA2, BETA in *; change (2 ^ 31) with 2147483648 in *; change (2 ^ 30) with 1073741824 in *; change (2 ^ 22) with 4194304 in *; lia.
Lemma keygen_spec f rho rhop key : zlen rho = 32 -> bytes_ok rho -> zlen key = 32 -> bytes_ok key ->
  exists r, keypair_from f rho rhop key = Ret r /\
  forall pk sk, r = Some (pk, sk) ->
  exists mat s1 s2 t0 t1, matrix_expand f rho = Some mat /\ zlen pk = 1312 /\ bytes_ok pk /\ zlen sk = 2560 /\ bytes_ok sk /\
    unpack_pk pk = (rho, t1) /\ unpack_sk sk = (rho, shake256_bytes pk 64, key, t0, s1, s2) /\ key_relation mat s1 s2 t0 t1.
Proof.
  intros Lr Br Lk Bk. unfold keypair_from.
  destruct (matrix_expand f rho) as [mat|] eqn:EM; [|eexists; split; [reflexivity|discriminate]]. pose proof (matrix_expand_in _ _ _ EM) as HM.
  destruct (vec_uniform_eta f rhop 0) as [s1|] eqn:E1; [|eexists; split; [reflexivity|discriminate]]. apply vec_uniform_eta_in in E1 as [L1 I1].
  destruct (vec_uniform_eta f rhop 4) as [s2|] eqn:E2; [|eexists; split; [reflexivity|discriminate]]. apply vec_uniform_eta_in in E2 as [L2 I2].
  pose proof (vb_of_in _ _ 2 _ L1 I1 ltac:(lia) ltac:(lia)) as B1. pose proof (vb_of_in _ _ 2 _ L2 I2 ltac:(lia) ltac:(lia)) as B2.
  destruct (vec_ntt_ok s1 2 B1) as (sh & E & Bsh & Ssh); [lia|q32|]. rewrite E. cbn [bind]. clear E.
  destruct (matrix_pointwise_ok mat sh _ HM Bsh) as (t & E & Bt & St); [q32|]. rewrite E. cbn [bind]. clear E.
  destruct (vec_reduce_ok t) as (t' & E & Bt' & St'); [eapply vb_le; [|exact Bt]; q32|]. rewrite E. cbn [bind]. clear E.
  destruct (vec_invntt_ok t') as (u & E & Bu & Su); [eapply vb_le; [|exact Bt']; q32|]. rewrite E. cbn [bind]. clear E.
  destruct (vec_add_ok u s2 _ _ Bu B2) as (a & E & Ba & Sa); [q32|]. rewrite E. cbn [bind]. clear E.
  destruct (vec_caddq_ok a) as (b & E & Vb & Sb); [eapply vb_le; [|exact Ba]; q32|]. rewrite E. cbn [bind]. clear E.
  assert (Rb: forall r i, (r < 4)%nat -> 0 <= i < 256 -> - 4095 <= cf b r i < Q + 4095).
  { intros r i Hr Hi. rewrite (Sb r Hr i Hi). pose proof (vb_cf _ _ r Ba Hr i Hi) as W. Transparent cadd. unfold cadd. Opaque cadd. destruct (cf a r i <? 0) eqn:C; q32. }
  destruct (vec_power2round_ok b Vb) as (t1 & t0 & E & V1 & V0 & S10); [intros r i Hr Hi; specialize (Rb r i Hr Hi); q32|]. rewrite E. cbn [bind]. clear E.
  assert (T1: t1_vec t1). { split; [apply V1|]. apply vin_of_cf; [exact V1|]. intros r i Hr Hi. destruct (S10 r Hr) as [S _]. rewrite (S i Hi). pose proof (p2r1_range _ (Rb r i Hr Hi)). lia. }
  assert (T0: t0_vec t0). { split; [apply V0|]. apply vin_of_cf; [exact V0|]. intros r i Hr Hi. destruct (S10 r Hr) as [_ S]. rewrite (S i Hi). pose proof (p2r0_range (cf b r i)). lia. }
  destruct (pack_pk_ok rho t1 Lr Br T1) as (pk & E & Lpk & Bpk & Upk). rewrite E. cbn [bind]. clear E. cbv zeta.
  assert (Ltr: zlen (shake256_bytes pk 64) = 64) by (apply (sponge_bytes_len 136 0x1F); lia).
  assert (Btr: bytes_ok (shake256_bytes pk 64)) by (apply (sponge_bytes_ok 136 0x1F); lia).
  assert (W: forall v, Forall (poly_in (-2) 2) v -> Forall (poly_in (-5) 2) v).
  { intros v. apply Forall_impl. intros p [H1 H2]. split; [exact H1|]. revert H2. apply Forall_impl. intros; lia. }
  destruct (pack_sk_ok rho (shake256_bytes pk 64) key t0 s1 s2 Lr Ltr Lk Br Btr Bk T0 (conj L1 (W _ I1)) (conj L2 (W _ I2))) as (sk & E & Lsk & Bsk & Usk). rewrite E. cbn [bind]. clear E.
  eexists. split; [reflexivity|]. intros pk' sk' H. apply Some_inj in H. apply pair_equal_spec in H as [<- <-].
  exists mat, s1, s2, t0, t1. do 7 (split; [assumption || reflexivity|]). intros r Hr.
  assert (A1: eqf (nttf (cf u r)) (dot (nth r mat []) (cf sh))).
  { apply (ntt_of_intt_dot _ (cf t' r)); [apply eqf_same, Su, Hr|]. intros i Hi. rewrite (St' r Hr i Hi), red32_eqm, (St r Hr i Hi). reflexivity. }
  assert (A2: eqf (nttf (cf b r)) (fun i => nttf (cf u r) i + 1 * nttf (cf s2 r) i)).
  { apply ntt_lin. intros i Hi. rewrite (Sb r Hr i Hi), cadd_eqm, (Sa r Hr i Hi). apply eq_eqm; ring. }
  assert (A3: eqf (nttf (cf b r)) (fun i => nttf (fun j => cf t1 r j * 8192) i + 1 * nttf (cf t0 r) i)).
  { apply ntt_lin. intros i Hi. destruct (S10 r Hr) as [S S']. rewrite (S i Hi), (S' i Hi). apply eq_eqm. rewrite (p2r_recombine (cf b r i)) at 1. ring. }
  intros i Hi. specialize (A1 i Hi). specialize (A2 i Hi). specialize (A3 i Hi). cbv beta in A2, A3. rewrite A2, A1 in A3.
  assert (D: dot (nth r mat []) (cf sh) i == dot (nth r mat []) (fun c => nttf (cf s1 c)) i). { apply dot_ext. intros c Hc. rewrite (Ssh c Hc i Hi). reflexivity. }
  rewrite D in A3. transitivity (nttf (fun j => cf t1 r j * 8192) i + 1 * nttf (cf t0 r) i - nttf (cf t0 r) i); [apply eq_eqm; ring|]. rewrite <- A3. apply eq_eqm; ring.
Qed.

(** ** One signing attempt *)
Definition small_z (z : vec) : Prop := vlen z /\ forall r i, (r < 4)%nat -> 0 <= i < 256 -> - (GAMMA1 - BETA) < cf z r i < GAMMA1 - BETA.
Definition attempt_facts (fuel : nat) (mat : list vec) (s1h s2h t0h : vec) (mu sig : list Z) : Prop :=
  exists w1 pw1 cp z h a0, let c := shake256_bytes (mu ++ pw1) 32 in
    vlen w1 /\ vec_pack_w1 w1 = Ret pw1 /\ poly_challenge fuel c = Some cp /\ small_z z /\ h_vec h /\ vlen h /\
    pack_sig c z h = Ret sig /\
    (forall r i, (r < 4)%nat -> 0 <= i < 256 -> 0 <= cf w1 r i <= 43 /\ - (2 * GAMMA2) < cf a0 r i < 2 * GAMMA2 /\ cf h r i = make_hint (cf a0 r i) (cf w1 r i)) /\
    (forall r, (r < 4)%nat ->
      eqf (nttf (fun i => cf w1 r i * (2 * GAMMA2) + cf a0 r i))
          (fun i => dot (nth r mat []) (fun c => nttf (cf z c)) i - nttf (ix cp) i * (dot (nth r mat []) (cf s1h) i + cf s2h r i - cf t0h r i))).
Lemma poly_ntt_ok1 a B : pb B a -> 0 <= B -> B + 8 * Q < 2 ^ 31 -> exists a', poly_ntt a = Ret a' /\ pb (B + 8 * Q) a' /\ same (ix a') (nttf (ix a)).
Proof.
  intros [HL HB] H0 H1. destruct (ntt_ok _ B HL H0 H1 HB) as (E & HBB & HZ). eexists. split; [exact E|]. split; [split; assumption|apply same_tab].
Qed.
Lemma pb_of_in lo hi B a : poly_in lo hi a -> - B <= lo -> hi <= B -> pb B a.
Proof.
  intros [HL HF] H1 H2. split; [unfold zlen; lia|]. intros i Hi. rewrite Forall_forall in HF. specialize (HF (ix a i)). assert (lo <= ix a i <= hi); [|lia]. apply HF. unfold ix. apply nth_In. lia.
Qed.
Lemma attempt_spec fuel mat s1h s2h t0h mu rhop nonce : matb mat -> vb (8 * Q + 5) s1h -> vb (8 * Q + 5) s2h -> vb (8 * Q + 4096) t0h ->
  exists r, sign_attempt fuel mat s1h s2h t0h mu rhop nonce = Ret r /\ forall sig, r = Some (Some sig) -> attempt_facts fuel mat s1h s2h t0h mu sig.
Proof.
  intros HM B1 B2 B0. unfold sign_attempt. cbv zeta.
  destruct (vec_uniform_gamma1_in rhop nonce) as [Ly Iy]. set (y := vec_uniform_gamma1 rhop nonce) in *. clearbody y.
  pose proof (vb_of_in _ _ 131072 _ Ly Iy ltac:(lia) ltac:(lia)) as By.
  destruct (vec_ntt_ok y _ By) as (yh & E & Byh & Syh); [lia|q32|]. rewrite E. cbn [bind]. clear E.
  destruct (matrix_pointwise_ok mat yh _ HM Byh) as (w & E & Bw & Sw); [q32|]. rewrite E. cbn [bind]. clear E.
  destruct (vec_reduce_ok w) as (wr' & E & Bwr & Swr); [eapply vb_le; [|exact Bw]; q32|]. rewrite E. cbn [bind]. clear E.
  destruct (vec_invntt_ok wr') as (wi & E & Bwi & Swi); [eapply vb_le; [|exact Bwr]; q32|]. rewrite E. cbn [bind]. clear E.
  destruct (vec_caddq_ok wi) as (wc & E & Vwc & Swc); [eapply vb_le; [|exact Bwi]; q32|]. rewrite E. cbn [bind]. clear E.
  assert (Rwc: forall r i, (r < 4)%nat -> 0 <= i < 256 -> 0 <= cf wc r i < Q).
  { intros r i Hr Hi. rewrite (Swc r Hr i Hi). apply cadd_range. pose proof (vb_cf _ _ r Bwi Hr i Hi). q32. }
  destruct (vec_decompose_ok wc Vwc Rwc) as (w1 & w0 & E & V1 & V0 & S10). rewrite E. cbn [bind]. clear E.
  assert (R1: forall r i, (r < 4)%nat -> 0 <= i < 256 -> 0 <= cf w1 r i <= 43 /\ - GAMMA2 <= cf w0 r i <= GAMMA2 /\ cf wc r i == cf w1 r i * (2 * GAMMA2) + cf w0 r i).
  { intros r i Hr Hi. destruct (S10 r Hr) as [S S']. rewrite (S i Hi), (S' i Hi). destruct (dec_range _ (Rwc r i Hr Hi)) as (D1 & D0 & _ & DD). split; [exact D1|]. split; [exact D0|].
    destruct DD as [D|D]; [apply eq_eqm; lia|]. apply (eqm_of_diff _ _ 1). lia. }
  destruct (vec_pack_w1_ok w1 V1) as (pw1 & EW & Lpw & Bpw); [intros r i Hr Hi; apply R1; assumption|]. rewrite EW. cbn [bind].
  set (c := shake256_bytes (mu ++ pw1) 32).
  assert (Lc: zlen c = 32) by (apply (sponge_bytes_len 136 0x1F); lia). assert (Bc: bytes_ok c) by (apply (sponge_bytes_ok 136 0x1F); lia).
  destruct (poly_challenge fuel c) as [cp|] eqn:EC; [|eexists; split; [reflexivity|discriminate]]. destruct (poly_challenge_real _ _ _ EC) as [Ic _].
  destruct (poly_ntt_ok1 cp 1 (pb_of_in _ _ 1 _ Ic ltac:(lia) ltac:(lia))) as (ch & E & Bch & Sch); [lia|q32|]. rewrite E. cbn [bind]. clear E.
  (* z *)
  destruct (vec_pointwise_poly_ok ch s1h _ _ Bch B1) as (z1 & E & Bz1 & Sz1); [q32|]. rewrite E. cbn [bind]. clear E.
  destruct (vec_invntt_ok z1) as (z2 & E & Bz2 & Sz2); [eapply vb_le; [|exact Bz1]; q32|]. rewrite E. cbn [bind]. clear E.
  destruct (vec_add_ok z2 y _ _ Bz2 By) as (z3 & E & Bz3 & Sz3); [q32|]. rewrite E. cbn [bind]. clear E.
  destruct (vec_reduce_ok z3) as (z & E & Bz & Sz); [eapply vb_le; [|exact Bz3]; q32|]. rewrite E. cbn [bind]. clear E.
  destruct (vec_chknorm_ok z (GAMMA1 - BETA)) as (r1 & E & _ & Nz); [now vm_compute|eapply vb_le; [|exact Bz]; q32|]. rewrite E. cbn [bind]. clear E.
  destruct (r1 =? 0) eqn:Er1; cbn [negb]; [|eexists; split; [reflexivity|discriminate]]. apply Z.eqb_eq in Er1. pose proof (proj1 Nz Er1) as HNz. clear Nz Er1.
  (* w0 - c s2 *)
  assert (Bw0: vb GAMMA2 w0) by (apply vb_of_cf; [exact V0|]; intros r Hr i Hi; pose proof (R1 r i Hr Hi); lia).
  destruct (vec_pointwise_poly_ok ch s2h _ _ Bch B2) as (h1 & E & Bh1 & Sh1); [q32|]. rewrite E. cbn [bind]. clear E.
  destruct (vec_invntt_ok h1) as (h2 & E & Bh2 & Sh2); [eapply vb_le; [|exact Bh1]; q32|]. rewrite E. cbn [bind]. clear E.
  destruct (vec_sub_ok w0 h2 _ _ Bw0 Bh2) as (v1 & E & Bv1 & Sv1); [q32|]. rewrite E. cbn [bind]. clear E.
  destruct (vec_reduce_ok v1) as (v2 & E & Bv2 & Sv2); [eapply vb_le; [|exact Bv1]; q32|]. rewrite E. cbn [bind]. clear E.
  destruct (vec_chknorm_ok v2 (GAMMA2 - BETA)) as (r2 & E & _ & Nv); [now vm_compute|eapply vb_le; [|exact Bv2]; q32|]. rewrite E. cbn [bind]. clear E.
  destruct (r2 =? 0) eqn:Er2; cbn [negb]; [|eexists; split; [reflexivity|discriminate]]. apply Z.eqb_eq in Er2. pose proof (proj1 Nv Er2) as HNv. clear Nv Er2.
  (* c t0 *)
  destruct (vec_pointwise_poly_ok ch t0h _ _ Bch B0) as (g1 & E & Bg1 & Sg1); [q32|]. rewrite E. cbn [bind]. clear E.
  destruct (vec_invntt_ok g1) as (g2 & E & Bg2 & Sg2); [eapply vb_le; [|exact Bg1]; q32|]. rewrite E. cbn [bind]. clear E.
  destruct (vec_reduce_ok g2) as (g3 & E & Bg3 & Sg3); [eapply vb_le; [|exact Bg2]; q32|]. rewrite E. cbn [bind]. clear E.
  destruct (vec_chknorm_ok g3 GAMMA2) as (r3 & E & _ & Ng); [now vm_compute|eapply vb_le; [|exact Bg3]; q32|]. rewrite E. cbn [bind]. clear E.
  destruct (r3 =? 0) eqn:Er3; cbn [negb]; [|eexists; split; [reflexivity|discriminate]]. apply Z.eqb_eq in Er3. pose proof (proj1 Ng Er3) as HNg. clear Ng Er3.
  (* hint *)
  destruct (vec_add_ok v2 g3 _ _ Bv2 Bg3) as (a0 & E & Ba0 & Sa0); [q32|]. rewrite E. cbn [bind]. clear E.
  destruct (vec_make_hint_ok a0 w1 (vb_vlen _ _ Ba0) V1) as (h & n & E & Vh & Fh & -> & Sh). rewrite E. cbn [bind]. clear E.
  destruct (OMEGA <? zlen (all_positions h)) eqn:Eo; [eexists; split; [reflexivity|discriminate]|]. apply Z.ltb_ge in Eo. unfold OMEGA in Eo.
  assert (Hh: h_vec h) by (split; [apply Vh|split; assumption]).
  assert (Hz: z_vec z).
  { split; [apply Bz|]. apply vin_of_cf; [apply (vb_vlen _ _ Bz)|]. intros r i Hr Hi. specialize (HNz r Hr i Hi). q32. }
  destruct (pack_sig_ok c z h Lc Bc Hz Hh) as (sig & EP & _). rewrite EP. cbn [bind].
  eexists. split; [reflexivity|]. intros sig' Heq. apply Some_inj, Some_inj in Heq. subst sig'.
  exists w1, pw1, cp, z, h, a0. fold c. cbv zeta.
  do 3 (split; [assumption|]). split; [split; [apply (vb_vlen _ _ Bz)|]; intros r i Hr Hi; now apply HNz|]. do 3 (split; [assumption|]).
  split.
  { intros r i Hr Hi. split; [now apply R1|]. split; [|now apply Sh]. rewrite (Sa0 r Hr i Hi). specialize (HNv r Hr i Hi). specialize (HNg r Hr i Hi). q32. }
  intros r Hr.
  assert (A1: eqf (nttf (cf wi r)) (dot (nth r mat []) (cf yh))).
  { apply (ntt_of_intt_dot _ (cf wr' r)); [apply eqf_same, Swi, Hr|]. intros i Hi. rewrite (Swr r Hr i Hi), red32_eqm, (Sw r Hr i Hi). reflexivity. }
  assert (A2: forall c, (c < 4)%nat -> eqf (nttf (cf z2 c)) (fun i => ix ch i * cf s1h c i)).
  { intros k Hk. apply (ntt_of_intt _ (cf z1 k)); apply eqf_same; [apply Sz2, Hk|apply Sz1, Hk]. }
  assert (A3: forall c, (c < 4)%nat -> eqf (nttf (cf z c)) (fun i => nttf (cf z2 c) i + 1 * nttf (cf y c) i)).
  { intros k Hk. apply ntt_lin. intros i Hi. rewrite (Sz k Hk i Hi), red32_eqm, (Sz3 k Hk i Hi). apply eq_eqm; ring. }
  assert (A4: eqf (nttf (cf h2 r)) (fun i => ix ch i * cf s2h r i)).
  { apply (ntt_of_intt _ (cf h1 r)); apply eqf_same; [apply Sh2, Hr|apply Sh1, Hr]. }
  assert (A5: eqf (nttf (cf g2 r)) (fun i => ix ch i * cf t0h r i)).
  { apply (ntt_of_intt _ (cf g1 r)); apply eqf_same; [apply Sg2, Hr|apply Sg1, Hr]. }
  assert (A6: eqf (nttf (fun i => cf w1 r i * (2 * GAMMA2) + cf a0 r i)) (fun i => nttf (fun j => cf wi r j + 1 * cf g2 r j) i + (-1) * nttf (cf h2 r) i)).
  { apply ntt_lin. intros i Hi. rewrite (Sa0 r Hr i Hi), (Sv2 r Hr i Hi), (Sg3 r Hr i Hi), !red32_eqm, (Sv1 r Hr i Hi).
    destruct (R1 r i Hr Hi) as (_ & _ & R). rewrite (Swc r Hr i Hi), cadd_eqm in R. rewrite R. apply eq_eqm; ring. }
  assert (A7: eqf (nttf (fun j => cf wi r j + 1 * cf g2 r j)) (fun i => nttf (cf wi r) i + 1 * nttf (cf g2 r) i)) by (apply ntt_lin, eqf_refl).
  intros i Hi. rewrite (A6 i Hi), (A7 i Hi), (A1 i Hi), (A4 i Hi), (A5 i Hi). cbv beta.
  assert (D: dot (nth r mat []) (fun c0 => nttf (cf z c0)) i == dot (nth r mat []) (fun k i => ix ch i * cf s1h k i + cf yh k i) i).
  { apply dot_ext. intros k Hk. rewrite (A3 k Hk i Hi). cbv beta. rewrite (A2 k Hk i Hi), (Syh k Hk i Hi). apply eq_eqm; ring. }
  rewrite D. rewrite <- (Sch i Hi). unfold dot. apply eq_eqm. ring.
Qed.

(** ** The rejection loop and signing *)
Lemma rej_loop_spec (att : Z -> outcome (option (option (list Z)))) (P : list Z -> Prop) :
  (forall n, exists r, att n = Ret r /\ forall sig, r = Some (Some sig) -> P sig) ->
  forall fuel n, exists r, rej_loop att fuel n = Ret r /\ forall sig, r = Some sig -> P sig.
Proof.
  intros H. induction fuel as [|fuel IH]; intros n; cbn [rej_loop]; [eexists; split; [reflexivity|discriminate]|].
  destruct (H n) as (r & E & HP). rewrite E. cbn [bind]. destruct r as [[sig|]|].
  - eexists. split; [reflexivity|]. intros s Hs. apply Some_inj in Hs. subst s. now apply HP.
  - apply IH.
  - eexists. split; [reflexivity|discriminate].
Qed.
Lemma unpack_sk_in sk : zlen sk = 2560 -> bytes_ok sk -> forall rho tr key t0 s1 s2, unpack_sk sk = (rho, tr, key, t0, s1, s2) ->
  t0_vec t0 /\ eta_vec s1 /\ eta_vec s2.
Proof.
  intros HL HB rho tr key t0 s1 s2. unfold unpack_sk. intros H. apply pair_equal_spec in H as [H <-]. apply pair_equal_spec in H as [H <-]. apply pair_equal_spec in H as [_ <-].
  assert (G: forall (unp : list Z -> list Z) lo hi off n, (forall b, length b = Z.to_nat n -> bytes_ok b -> poly_in lo hi (unp b)) -> 0 <= off -> 0 <= n -> off + 4 * n <= 2560 ->
     length (map unp (blocks sk off n)) = 4%nat /\ Forall (poly_in lo hi) (map unp (blocks sk off n))).
  { intros unp lo hi off n Hu H1 H2 H3. split; [reflexivity|]. apply Forall_map. eapply Forall_impl; [|apply (blocks_enc sk off n HB H1 H2 ltac:(lia))].
    intros b [Lb Bb]. apply Hu; [|exact Bb]. unfold zlen in Lb. lia. }
  split; [apply G; [|lia|lia|lia]; intros; now apply t0_unpack_in|].
  split; (apply G; [|lia|lia|lia]; intros; now apply eta_unpack_in).
Qed.
Lemma sign_signature_spec fuel m sk : zlen sk = 2560 -> bytes_ok sk ->
  exists r, sign_signature fuel m sk = Ret r /\
  forall sig, r = Some sig -> forall rho tr key t0 s1 s2, unpack_sk sk = (rho, tr, key, t0, s1, s2) ->
    exists mat s1h s2h t0h, matrix_expand fuel rho = Some mat /\
      (forall r, (r < 4)%nat -> same (cf s1h r) (nttf (cf s1 r)) /\ same (cf s2h r) (nttf (cf s2 r)) /\ same (cf t0h r) (nttf (cf t0 r))) /\
      attempt_facts fuel mat s1h s2h t0h (shake256_bytes (tr ++ m) 64) sig.
Proof.
  intros HL HB. unfold sign_signature. destruct (unpack_sk sk) as [[[[[rho tr] key] t0] s1] s2] eqn:EU. cbv zeta.
  destruct (unpack_sk_in sk HL HB _ _ _ _ _ _ EU) as ([L0 I0] & [L1 I1] & [L2 I2]).
  destruct (matrix_expand fuel rho) as [mat|] eqn:EM; [|eexists; split; [reflexivity|discriminate]]. pose proof (matrix_expand_in _ _ _ EM) as HM.
  destruct (vec_ntt_ok s1 5 (vb_of_in _ _ 5 _ L1 I1 ltac:(lia) ltac:(lia))) as (s1h & E & B1 & S1); [lia|q32|]. rewrite E. cbn [bind]. clear E.
  destruct (vec_ntt_ok s2 5 (vb_of_in _ _ 5 _ L2 I2 ltac:(lia) ltac:(lia))) as (s2h & E & B2 & S2); [lia|q32|]. rewrite E. cbn [bind]. clear E.
  destruct (vec_ntt_ok t0 4096 (vb_of_in _ _ 4096 _ L0 I0 ltac:(lia) ltac:(lia))) as (t0h & E & B0 & S0); [lia|q32|]. rewrite E. cbn [bind]. clear E.
  destruct (rej_loop_spec (sign_attempt fuel mat s1h s2h t0h (shake256_bytes (tr ++ m) 64) (shake256_bytes (key ++ zeros 32 ++ shake256_bytes (tr ++ m) 64) 64))
     (attempt_facts fuel mat s1h s2h t0h (shake256_bytes (tr ++ m) 64))) with (fuel := fuel) (n := 0) as (r & E & HP).
  { intros n. apply attempt_spec; [exact HM| | |]; eapply vb_le; try eassumption; lia. }
  exists r. split; [exact E|]. intros sig Hs rho' tr' key' t0' s1' s2' Heq.
  apply pair_equal_spec in Heq as [Heq <-]. apply pair_equal_spec in Heq as [Heq <-]. apply pair_equal_spec in Heq as [Heq <-]. apply pair_equal_spec in Heq as [Heq <-]. apply pair_equal_spec in Heq as [<- <-].
  exists mat, s1h, s2h, t0h. split; [exact EM|]. split; [intros k Hk; auto|]. now apply HP.
Qed.

(** ** Verification *)
Definition verify_facts (mat : list vec) (t1 : vec) (cp : poly) (z h w u : vec) : Prop :=
  vlen w /\ vlen u /\ forall r, (r < 4)%nat ->
    (forall i, 0 <= i < 256 -> 0 <= cf w r i < Q /\ cf u r i = uhint (cf w r i) (cf h r i)) /\
    eqf (nttf (cf w r)) (fun i => dot (nth r mat []) (fun c => nttf (cf z c)) i - nttf (ix cp) i * nttf (fun j => cf t1 r j * 8192) i).
Lemma bytes_eq_forallb (c d : list Z) : zlen c = 32 -> zlen d = 32 -> forallb (fun i => ix c i =? ix d i) (zseq 0 32) = true <-> c = d.
Proof.
  intros Hc Hd. rewrite forallb_forall. split.
  - intros H. apply list_ext_ix; [lia|]. rewrite Hc. intros i Hi. apply Z.eqb_eq, H. apply in_zseq. lia.
  - intros -> i _. apply Z.eqb_refl.
Qed.
Lemma verify_spec fuel sig m pk : zlen pk = 1312 -> bytes_ok pk -> zlen sig = 2420 -> bytes_ok sig ->
  exists r, sign_verify fuel sig 2420 m pk = Ret r /\
  (unpack_sig sig = Ret None -> r = Some (-1)) /\
  (forall c z h, unpack_sig sig = Ret (Some (c, z, h)) ->
    (~ small_z z -> r = Some (-1)) /\
    (small_z z -> forall cp mat, poly_challenge fuel c = Some cp -> matrix_expand fuel (slice pk 0 32) = Some mat ->
      exists w u buf v, verify_facts mat (snd (unpack_pk pk)) cp z h w u /\ vec_pack_w1 u = Ret buf /\ r = Some v /\ (v = 0 \/ v = -1) /\
        (v = 0 <-> c = shake256_bytes (shake256_bytes (shake256_bytes pk 64 ++ m) 64 ++ buf) 32)) /\
    (small_z z -> poly_challenge fuel c = None \/ matrix_expand fuel (slice pk 0 32) = None -> r = None)).
Proof.
  intros Lpk Bpk Ls Bs. unfold sign_verify. change (negb (2420 =? 2420)) with false. cbv iota.
  pose proof (unpack_pk_in pk Lpk Bpk) as [L1 I1]. assert (Hrho: fst (unpack_pk pk) = slice pk 0 32) by reflexivity. destruct (unpack_pk pk) as [rho t1]. cbn [fst snd] in *. subst rho.
  destruct (unpack_sig_sound sig Ls Bs) as (s & E & HS). rewrite E. cbn [bind]. destruct s as [[[c z] h]|].
  2:{ eexists. split; [reflexivity|]. split; [auto|]. intros c z h H. apply Ret_inj in H. discriminate H. }
  destruct (HS c z h eq_refl) as (Lc & Bc & [Lz Iz] & [Lh [Fh _]] & _). clear HS.
  pose proof (vb_of_in _ _ 131072 _ Lz Iz ltac:(lia) ltac:(lia)) as Bz.
  assert (Vh: vlen h). { split; [exact Lh|]. intros r Hr. rewrite Forall_forall in Fh. destruct (Fh (nth r h [])) as [H _]; [apply nth_In; lia|]. unfold zlen. lia. }
  destruct (vec_chknorm_ok z (GAMMA1 - BETA)) as (r1 & E1 & R01 & Nz); [now vm_compute|eapply vb_le; [|exact Bz]; q32|]. rewrite E1. cbn [bind]. clear E1.
  assert (NS: r1 = 0 <-> small_z z).
  { rewrite Nz. unfold small_z. split; [intros H; split; [apply (vb_vlen _ _ Bz)|]; intros; now apply H|intros [_ H] k Hk i Hi; now apply H]. }
  destruct (r1 =? 0) eqn:Er; cbn [negb].
  2:{ apply Z.eqb_neq in Er. eexists. split; [reflexivity|]. split; [intros H; apply Ret_inj in H; discriminate H|]. intros c' z' h' H. apply Ret_inj, Some3_inj in H as (<- & <- & <-).
      split; [auto|]. split; intros H; apply NS in H; lia. }
  apply Z.eqb_eq in Er. pose proof (proj1 NS Er) as Hsm.
  assert (Y: forall r, (forall cp mat, poly_challenge fuel c = Some cp -> matrix_expand fuel (slice pk 0 32) = Some mat ->
      exists w u buf v, verify_facts mat t1 cp z h w u /\ vec_pack_w1 u = Ret buf /\ r = Some v /\ (v = 0 \/ v = -1) /\
        (v = 0 <-> c = shake256_bytes (shake256_bytes (shake256_bytes pk 64 ++ m) 64 ++ buf) 32)) ->
      (poly_challenge fuel c = None \/ matrix_expand fuel (slice pk 0 32) = None -> r = None) ->
      (Ret (Some (c, z, h)) = Ret None -> r = Some (-1)) /\
      forall c' z' h', Ret (Some (c, z, h)) = Ret (Some (c', z', h')) ->
    (~ small_z z' -> r = Some (-1)) /\
    (small_z z' -> forall cp mat, poly_challenge fuel c' = Some cp -> matrix_expand fuel (slice pk 0 32) = Some mat ->
      exists w u buf v, verify_facts mat t1 cp z' h' w u /\ vec_pack_w1 u = Ret buf /\ r = Some v /\ (v = 0 \/ v = -1) /\
        (v = 0 <-> c' = shake256_bytes (shake256_bytes (shake256_bytes pk 64 ++ m) 64 ++ buf) 32)) /\
    (small_z z' -> poly_challenge fuel c' = None \/ matrix_expand fuel (slice pk 0 32) = None -> r = None)).
  { intros r H1 H2. split; [intros H; apply Ret_inj in H; discriminate H|]. intros c' z' h' H. apply Ret_inj, Some3_inj in H as (<- & <- & <-). split; [intros H; contradiction|]. split; intros _; assumption. }
  cbv zeta.
  destruct (poly_challenge fuel c) as [cp|] eqn:EC.
  2:{ eexists. split; [reflexivity|]. apply Y; [discriminate|auto]. }
  destruct (matrix_expand fuel (slice pk 0 32)) as [mat|] eqn:EM.
  2:{ eexists. split; [reflexivity|]. apply Y; [discriminate|auto]. }
  pose proof (matrix_expand_in _ _ _ EM) as HM. destruct (poly_challenge_real _ _ _ EC) as [Ic _].
  destruct (vec_ntt_ok z _ Bz) as (zh & E1 & Bzh & Szh); [lia|q32|]. rewrite E1. cbn [bind]. clear E1.
  destruct (matrix_pointwise_ok mat zh _ HM Bzh) as (w1 & E1 & Bw1 & Sw1); [q32|]. rewrite E1. cbn [bind]. clear E1.
  destruct (poly_ntt_ok1 cp 1 (pb_of_in _ _ 1 _ Ic ltac:(lia) ltac:(lia))) as (ch & E1 & Bch & Sch); [lia|q32|]. rewrite E1. cbn [bind]. clear E1.
  destruct (vin_vlen _ _ _ L1 I1) as [Vt1 Rt1].
  destruct (vec_shiftl_ok t1 Vt1 Rt1) as (t2 & E1 & Bt2 & St2). rewrite E1. cbn [bind]. clear E1.
  destruct (vec_ntt_ok t2 _ Bt2) as (t3 & E1 & Bt3 & St3); [q32|q32|]. rewrite E1. cbn [bind]. clear E1.
  destruct (vec_pointwise_poly_ok ch t3 _ _ Bch Bt3) as (t4 & E1 & Bt4 & St4); [q32|]. rewrite E1. cbn [bind]. clear E1.
  destruct (vec_sub_ok w1 t4 _ _ Bw1 Bt4) as (w2 & E1 & Bw2 & Sw2); [q32|]. rewrite E1. cbn [bind]. clear E1.
  destruct (vec_reduce_ok w2) as (w3 & E1 & Bw3 & Sw3); [eapply vb_le; [|exact Bw2]; q32|]. rewrite E1. cbn [bind]. clear E1.
  destruct (vec_invntt_ok w3) as (w4 & E1 & Bw4 & Sw4); [eapply vb_le; [|exact Bw3]; q32|]. rewrite E1. cbn [bind]. clear E1.
  destruct (vec_caddq_ok w4) as (w & E1 & Vw & Sw); [eapply vb_le; [|exact Bw4]; q32|]. rewrite E1. cbn [bind]. clear E1.
  assert (Rw: forall r i, (r < 4)%nat -> 0 <= i < 256 -> 0 <= cf w r i < Q).
  { intros r i Hr Hi. rewrite (Sw r Hr i Hi). apply cadd_range. pose proof (vb_cf _ _ r Bw4 Hr i Hi). q32. }
  destruct (vec_use_hint_ok w h Vw Vh Rw) as (u & E1 & Vu & Su). rewrite E1. cbn [bind]. clear E1.
  destruct (vec_pack_w1_ok u Vu) as (buf & EB & _ & _); [intros r i Hr Hi; rewrite (Su r Hr i Hi); apply uhint_range, Rw; assumption|]. rewrite EB. cbn [bind].
  replace (slice pk 0 1312) with pk by (symmetry; apply slice_all; lia).
  eexists. split; [reflexivity|]. apply Y; [|intros [H|H]; discriminate H].
  intros cp' mat' H1 H2. apply Some_inj in H1. apply Some_inj in H2. subst cp' mat'. exists w, u, buf. eexists. split.
  - split; [exact Vw|]. split; [exact Vu|]. intros r Hr. split; [intros i Hi; split; [now apply Rw|now apply Su]|].
    assert (A1: eqf (nttf (cf w r)) (nttf (cf w4 r))). { apply ntt_ext. intros i Hi. rewrite (Sw r Hr i Hi). apply cadd_eqm. }
    eapply eqf_trans; [exact A1|]. eapply eqf_trans; [apply (ntt_intt _ (cf w3 r)), eqf_same, Sw4, Hr|].
    intros i Hi. cbv beta. rewrite (Sw3 r Hr i Hi), red32_eqm, (Sw2 r Hr i Hi), (Sw1 r Hr i Hi), dotm_eqm, (St4 r Hr i Hi), mont_eqm.
    transitivity (2 ^ 32 * RI * (dot (nth r mat []) (cf zh) i - ix ch i * cf t3 r i)); [apply eq_eqm; ring|]. rewrite R_RI.
    assert (D: dot (nth r mat []) (cf zh) i == dot (nth r mat []) (fun c => nttf (cf z c)) i) by (apply dot_ext; intros k Hk; rewrite (Szh k Hk i Hi); reflexivity).
    rewrite D, (Sch i Hi), (St3 r Hr i Hi). assert (D2: nttf (cf t2 r) i == nttf (fun j => cf t1 r j * 8192) i) by (apply ntt_ext; [apply eqf_same, St2, Hr|exact Hi]).
    rewrite D2. apply eq_eqm; ring.
  - split; [exact EB|]. split; [reflexivity|].
    pose proof (bytes_eq_forallb c (shake256_bytes (shake256_bytes (shake256_bytes pk 64 ++ m) 64 ++ buf) 32) Lc (sponge_bytes_len 136 0x1F _ 32 ltac:(lia) ltac:(lia))) as G.
    destruct (forallb _ _).
    + split; [now left|]. split; [intros _; now apply G|reflexivity].
    + split; [now right|]. split; [lia|]. intros H. exfalso. apply G in H. discriminate H.
Qed.

(** ** Every signature produced by crypto_sign_signature verifies *)
Lemma sign_verify_correct f1 f2 f3 seed m pk sk sig : zlen seed = 32 -> bytes_ok seed ->
  keypair_seed f1 seed = Ret (Some (pk, sk)) -> sign_signature f2 m sk = Ret (Some sig) -> (f2 <= f3)%nat ->
  zlen sig = 2420 /\ sign_verify f3 sig 2420 m pk = Ret (Some 0).
Proof.
  intros Ls Bs HK HS Hf. unfold keypair_seed in HK. set (sb := shake256_bytes (slice seed 0 32) 128) in HK.
  assert (Lb: zlen sb = 128) by (apply (sponge_bytes_len 136 0x1F); lia). assert (Bb: bytes_ok sb) by (apply (sponge_bytes_ok 136 0x1F); lia).
  destruct (keygen_spec f1 (slice sb 0 32) (slice sb 32 64) (slice sb 96 32)) as (r & E & HKS); try (apply bytes_ok_slice; exact Bb); try (apply zlen_slice; lia).
  rewrite E in HK. apply Ret_inj in HK. destruct (HKS pk sk HK) as (mat & s1 & s2 & t0 & t1 & EM & Lpk & Bpk & Lsk & Bsk & Upk & Usk & KR). clear HKS HK E.
  destruct (sign_signature_spec f2 m sk Lsk Bsk) as (r' & E & HSS). rewrite E in HS. apply Ret_inj in HS. specialize (HSS sig HS _ _ _ _ _ _ Usk). clear HS E.
  destruct HSS as (mat' & s1h & s2h & t0h & EM' & Sh & w1 & pw1 & cp & z & h & a0 & Vw1 & EW & EC & Hz & Hh & Vh & EP & Hr & Heq).
  assert (mat' = mat) by (eapply matrix_expand_same; eassumption). subst mat'. set (mu := shake256_bytes (shake256_bytes pk 64 ++ m) 64) in *. set (c := shake256_bytes (mu ++ pw1) 32) in *.
  assert (Lc: zlen c = 32) by (apply (sponge_bytes_len 136 0x1F); lia). assert (Bc: bytes_ok c) by (apply (sponge_bytes_ok 136 0x1F); lia).
  assert (Zz: z_vec z). { destruct Hz as [V HB]. split; [apply V|]. apply vin_of_cf; [exact V|]. intros k i Hk Hi. specialize (HB k i Hk Hi). q32. }
  destruct (pack_sig_ok c z h Lc Bc Zz Hh) as (sig' & EP' & Lsig & Bsig & Usig). rewrite EP in EP'. apply Ret_inj in EP'. subst sig'. split; [exact Lsig|].
  assert (Hrho: fst (unpack_pk pk) = slice pk 0 32) by reflexivity. rewrite Upk in Hrho. cbn [fst] in Hrho.
  destruct (verify_spec f3 sig m pk Lpk Bpk Lsig Bsig) as (v & E & _ & HV). rewrite E. f_equal. destruct (HV c z h Usig) as (_ & HV2 & _).
  destruct (HV2 Hz cp mat) as (w & u & buf & v0 & (Vw & Vu & HF) & EB & -> & _ & Hv).
  { eapply poly_challenge_mono; eassumption. } { rewrite <- Hrho. eapply matrix_expand_mono; eassumption. }
  f_equal. apply Hv. rewrite Upk in HF. cbn [snd] in HF.
  assert (u = w1).
  { apply vec_ext; [exact Vu|exact Vw1|]. intros k Hk i Hi. destruct (HF k Hk) as [HF1 HF2]. destruct (HF1 i Hi) as [Rw ->]. destruct (Hr k i Hk Hi) as (R1 & R0 & ->).
    apply hint_recovers; [exact R1|exact R0|exact Rw|].
    assert (G: eqf (cf w k) (fun i => cf w1 k i * (2 * GAMMA2) + cf a0 k i)).
    { apply ntt_inj. intros j Hj. rewrite (HF2 j Hj), (Heq k Hk j Hj). cbv beta. rewrite (KR k Hk j Hj). destruct (Sh k Hk) as (_ & S2 & S0). rewrite (S2 j Hj), (S0 j Hj).
      assert (D: dot (nth k mat []) (cf s1h) j == dot (nth k mat []) (fun c => nttf (cf s1 c)) j).
      { apply dot_ext. intros q Hq. destruct (Sh q Hq) as (S1 & _). rewrite (S1 j Hj). reflexivity. }
      rewrite D. reflexivity. }
    specialize (G i Hi). cbv beta in G. apply cg_iff in G. rewrite <- G. symmetry. symmetry. now apply Z.mod_small. }
  subst u. rewrite EW in EB. apply Ret_inj in EB. subst buf. reflexivity.
Qed.
