(** The buffer-level model of sign.c (DilBuf.v) computes what DilSign.v computes: hash inputs,
    seed-buffer layout, signature buffer, in-place calls. *)
From Verif Require Import Base SpongePure Sponge SpongeProofs SpongeProofs2 Tab DilReduce DilReduceProofs DilNtt DilNttProofs DilNttAlg DilPoly DilPolyProofs DilPack DilVec DilHint DilSign DilPacking DilSampleSpec DilSample DilEncSpec DilEncProofs DilVecProofs DilSignProofs DilBuf BufLemmas DilBufProofs.
Ltac Zify.zify_post_hook ::= idtac.
Opaque fl il mont red32 cadd nttf inttf sumz Z.pow.

Lemma absorb_pieces_ok pieces : forall c x, ctx_ok 136 c -> ctx_pair c = absorb 136 x ->
  exists c', absorb_pieces c pieces = Ret c' /\ ctx_ok 136 c' /\ ctx_pair c' = absorb 136 (x ++ concat pieces).
Proof.
  induction pieces as [|p ps IH]; intros c x Hc Hp; cbn [absorb_pieces concat].
  - exists c. rewrite app_nil_r. auto.
  - destruct (absorb_ok 136 c p (zlen p) x ltac:(lia) Hc Hp) as (c1 & E & Hc1 & Hp1); [pose proof (zlen_nonneg p); lia|].
    unfold shake256_inc_absorb, SHAKE256_RATE. rewrite E. cbn [bind]. rewrite (slice_all p) in Hp1 by reflexivity.
    destruct (IH c1 _ Hc1 Hp1) as (c2 & E2 & H2 & P2). exists c2. rewrite app_assoc. auto.
Qed.
Lemma shake256_pieces_ok out off n pieces : 0 <= off -> 0 <= n -> off + n <= zlen out ->
  shake256_pieces out off n pieces = Ret (splice out off (shake256_bytes (concat pieces) n)).
Proof.
  intros Ho Hn Hl. unfold shake256_pieces.
  destruct (absorb_pieces_ok pieces shake256_inc_init [] ) as (c & E & Hc & Hp).
  { apply (ctx_ok_init 136). lia. } { apply init_pair. }
  rewrite E. cbn [bind]. destruct (finalize_ok 136 0x1F c _ ltac:(lia) Hc Hp) as (c2 & E2 & Hq). unfold shake256_inc_finalize, SHAKE256_RATE. rewrite E2. cbn [bind].
  destruct (sq_ok 136 _ out off n c2 0 ltac:(lia) (zlen_pad 136 _ _ ltac:(lia)) Hq ltac:(lia) Hn Ho Hl) as (c3 & E3 & _).
  unfold shake256_inc_squeeze, SHAKE256_RATE. rewrite E3. cbn [bind]. apply (f_equal Ret). apply (f_equal (splice out off)).
  pose proof (shake256_xof_x (concat pieces) 0 n ltac:(lia) Hn) as X. cbn [app]. rewrite <- X. unfold shake256_xof. 
  rewrite Z.add_0_l. apply slice_all. symmetry. apply (sponge_bytes_len 136 0x1F); lia.
Qed.
Lemma shake256_at_ok out off n inp ioff ilen : 0 <= off -> 0 <= n -> off + n <= zlen out -> 0 <= ioff -> 0 <= ilen -> ioff + ilen <= zlen inp ->
  bytes_ok (slice inp ioff ilen) ->
  shake256_at out off n inp ioff ilen = Ret (splice out off (shake256_bytes (slice inp ioff ilen) n)).
Proof.
  intros Ho Hn Hl Hi Hil Hli HB. unfold shake256_at. rewrite !rdrange_ok by lia. cbn [bind].
  assert (L1: zlen (slice inp ioff ilen) = ilen) by (apply zlen_slice; lia). assert (L2: zlen (slice out off n) = n) by (apply zlen_slice; lia).
  unfold shake256, SHAKE256_RATE. rewrite shake_oneshot_ok by (try lia; assumption). cbn [bind].
  rewrite (slice_all (slice inp ioff ilen)) by lia.
  assert (L3: zlen (shake256_bytes (slice inp ioff ilen) n) = n) by (apply (sponge_bytes_len 136 0x1F); lia).
  change (sponge_bytes 136 31) with shake256_bytes. rewrite splice_whole' by lia.
  rewrite copy_splice by lia. rewrite (slice_all (shake256_bytes _ _)) by lia. reflexivity.
Qed.
Lemma copy_in_loop n : forall dst src, 0 <= n -> n <= zlen dst -> n <= zlen src ->
  for_loop n (fun i sb => b <- rd 0 src i ;; wr sb i b) dst = Ret (splice dst 0 (slice src 0 n)).
Proof.
  intros dst src H0 H1 H2. rewrite <- copy_splice by lia. rewrite copy_is_loop by lia. reflexivity.
Qed.

(** ** Key generation *)
Definition spliced (pk sk : list Z) (r : option (list Z * list Z)) : option (Z * list Z * list Z) :=
  match r with Some (p, s) => Some (0, splice pk 0 p, splice sk 0 s) | None => None end.
Lemma keypair_seed_c_ok fuel seedbuf0 tr0 pk sk seed : zlen seedbuf0 = 128 -> zlen tr0 = 64 -> 1312 <= zlen pk -> 2560 <= zlen sk ->
  32 <= zlen seed -> bytes_ok seed ->
  exists r, keypair_seed fuel seed = Ret r /\ keypair_seed_c fuel seedbuf0 tr0 pk sk seed = Ret (spliced pk sk r).
Proof.
  intros Lsb Ltr0 Lpk Lsk Ls Bs. unfold keypair_seed_c, keypair_seed. cbv zeta.
  rewrite copy_in_loop by lia. cbn [bind]. assert (L0: zlen (slice seed 0 32) = 32) by (apply zlen_slice; lia).
  assert (E0: slice (splice seedbuf0 0 (slice seed 0 32)) 0 32 = slice seed 0 32).
  { rewrite slice_splice_in by lia. apply slice_all. lia. }
  rewrite shake256_at_ok; try lia; try (rewrite zlen_splice; lia). 2:{ rewrite E0. now apply bytes_ok_slice. }
  rewrite E0. cbn [bind]. set (sb := shake256_bytes (slice seed 0 32) 128).
  assert (Lb: zlen sb = 128) by (apply (sponge_bytes_len 136 0x1F); lia). assert (Bb: bytes_ok sb) by (apply (sponge_bytes_ok 136 0x1F); lia).
  rewrite (splice_whole' _ sb) by (rewrite zlen_splice; lia). rewrite !rdrange_ok by lia. cbn [bind].
  assert (Lr: zlen (slice sb 0 32) = 32) by (apply zlen_slice; lia). assert (Lk: zlen (slice sb 96 32) = 32) by (apply zlen_slice; lia).
  assert (Br: bytes_ok (slice sb 0 32)) by (now apply bytes_ok_slice). assert (Bk: bytes_ok (slice sb 96 32)) by (now apply bytes_ok_slice).
  set (rho := slice sb 0 32) in *. set (rhop := slice sb 32 64). set (key := slice sb 96 32) in *. clearbody rho rhop key. clear sb Lb Bb E0.
  unfold keypair_from.
  destruct (matrix_expand fuel rho) as [mat|] eqn:EM; [|exists None; split; reflexivity]. pose proof (matrix_expand_in _ _ _ EM) as HM.
  destruct (vec_uniform_eta fuel rhop 0) as [s1|] eqn:E1; [|exists None; split; reflexivity]. apply vec_uniform_eta_in in E1 as [L1 I1].
  destruct (vec_uniform_eta fuel rhop 4) as [s2|] eqn:E2; [|exists None; split; reflexivity]. apply vec_uniform_eta_in in E2 as [L2 I2].
  pose proof (vb_of_in _ _ 2 _ L1 I1 ltac:(lia) ltac:(lia)) as B1. pose proof (vb_of_in _ _ 2 _ L2 I2 ltac:(lia) ltac:(lia)) as B2.
  destruct (vec_ntt_ok s1 2 B1) as (sh & E & Bsh & Ssh); [lia|q32|]. rewrite E. cbn [bind]. clear E.
  destruct (matrix_pointwise_ok mat sh _ HM Bsh) as (t & E & Bt & St); [q32|]. rewrite E. cbn [bind]. clear E.
  destruct (vec_reduce_ok t) as (t' & E & Bt' & St'); [eapply vb_le; [|exact Bt]; q32|]. rewrite E. cbn [bind]. clear E.
  destruct (vec_invntt_ok t') as (u & E & Bu & Su); [eapply vb_le; [|exact Bt']; q32|]. rewrite E. cbn [bind]. clear E.
  destruct (vec_add_ok u s2 _ _ Bu B2) as (a & E & Ba & Sa); [q32|]. rewrite E. cbn [bind]. clear E.
  destruct (vec_caddq_ok a) as (b & E & Vb & Sb); [eapply vb_le; [|exact Ba]; q32|]. rewrite E. cbn [bind]. clear E.
  assert (Rb: forall r i, (r < 4)%nat -> 0 <= i < 256 -> - 4095 <= cf b r i < Q + 4095).
  { intros r i Hr Hi. rewrite (Sb r Hr i Hi). pose proof (vb_cf _ _ r Ba Hr i Hi) as W. Transparent cadd. unfold cadd. Opaque cadd. destruct (cf a r i <? 0) eqn:C; q32. }
  destruct (vec_power2round_ok b Vb) as (t1 & t0 & E & V1 & V0 & S10); [intros r i Hr Hi; specialize (Rb r i Hr Hi); q32|]. rewrite E. cbn [bind]. clear E.
  assert (T1: t1_vec t1). { split; [apply V1|]. apply vin_of_cf; [exact V1|]. intros r i Hr Hi. destruct (S10 r Hr) as [S _]. rewrite (S i Hi). pose proof (p2r1_range _ (Rb r i Hr Hi)). lia. }
  assert (T0: t0_vec t0). { split; [apply V0|]. apply vin_of_cf; [exact V0|]. intros r i Hr Hi. destruct (S10 r Hr) as [_ S]. rewrite (S i Hi). pose proof (p2r0_range (cf b r i)). lia. }
  destruct (pack_pk_ok rho t1 Lr Br T1) as (p & E & Lp & Bp & _). rewrite E. cbn [bind]. clear E. cbv zeta.
  rewrite copy_splice by lia. cbn [bind]. rewrite (slice_all p) by lia.
  assert (Ep: slice (splice pk 0 p) 0 1312 = p) by (rewrite slice_splice_in by lia; apply slice_all; lia).
  rewrite shake256_at_ok; try lia; try (rewrite zlen_splice; lia). 2:{ now rewrite Ep. }
  rewrite Ep. cbn [bind].
  assert (Ltr: zlen (shake256_bytes p 64) = 64) by (apply (sponge_bytes_len 136 0x1F); lia).
  assert (Btr: bytes_ok (shake256_bytes p 64)) by (apply (sponge_bytes_ok 136 0x1F); lia).
  rewrite splice_whole' by lia. rewrite rdrange_ok by lia. cbn [bind]. rewrite (slice_all (shake256_bytes p 64)) by lia.
  assert (W: forall v, Forall (poly_in (-2) 2) v -> Forall (poly_in (-5) 2) v).
  { intros v. apply Forall_impl. intros q [H1 H2]. split; [exact H1|]. revert H2. apply Forall_impl. intros; lia. }
  destruct (pack_sk_ok rho (shake256_bytes p 64) key t0 s1 s2 Lr Ltr Lk Br Btr Bk T0 (conj L1 (W _ I1)) (conj L2 (W _ I2))) as (s & E & Ls' & Bs' & _). rewrite E. cbn [bind]. clear E.
  rewrite copy_splice by lia. cbn [bind]. rewrite (slice_all s) by lia.
  exists (Some (p, s)). split; reflexivity.
Qed.

(** ** Signing *)
Definition attempt_result (mem mem' : list Z) (so : Z) (r : option (option (list Z))) : option (bool * list Z) :=
  match r with
  | Some (Some sig) => Some (true, splice mem so sig)
  | Some None => Some (false, mem')
  | None => None
  end.
(** two memories that differ at most in the signature buffer *)
Definition outside_same (so : Z) (mem mem' : list Z) : Prop := exists x, zlen x = 2420 /\ mem' = splice mem so x.
Lemma outside_refl so mem : 0 <= so -> so + 2420 <= zlen mem -> outside_same so mem mem.
Proof.
  intros H0 H1. exists (slice mem so 2420). split; [apply zlen_slice; lia|]. unfold splice. rewrite zlen_slice by lia.
  rewrite (slice_whole_split mem so) at 1 by lia. f_equal. rewrite (slice_split mem so (zlen mem - so) 2420) by lia. f_equal.
Qed.
Lemma splice_in_x (x l : list Z) : zlen l <= zlen x -> splice x 0 l = l ++ slice x (zlen l) (zlen x - zlen l).
Proof. intros H. unfold splice. rewrite slice_0. cbn [app]. rewrite Z.add_0_l, Z.sub_0_r. reflexivity. Qed.
Lemma splice_inner mem so x l : 0 <= so -> so + zlen x <= zlen mem -> zlen l <= zlen x ->
  splice (splice mem so x) so l = splice mem so (splice x 0 l).
Proof.
  intros H0 H1 H2. pose proof (zlen_nonneg l). rewrite splice_in_x by assumption.
  unfold splice at 1. rewrite slice_splice_before by lia. rewrite zlen_splice by lia.
  unfold splice at 2. rewrite zlen_app, zlen_slice by lia. rewrite <- app_assoc. f_equal. f_equal.
  replace (zlen mem - so - zlen l) with ((zlen x - zlen l) + (zlen mem - so - zlen x)) by lia.
  rewrite (slice_split _ (so + zlen l) _ (zlen x - zlen l)) by lia. f_equal.
  - rewrite slice_splice_in by lia. f_equal. lia.
  - replace (so + zlen l + (zlen x - zlen l)) with (so + zlen x) by lia. rewrite slice_splice_after by lia. f_equal; lia.
Qed.
Lemma outside_splice so mem mem' l : 0 <= so -> so + 2420 <= zlen mem -> zlen l <= 2420 -> outside_same so mem mem' -> outside_same so mem (splice mem' so l).
Proof.
  intros H0 H1 H2 (x & Lx & ->). exists (splice x 0 l). split; [rewrite zlen_splice; lia|]. apply splice_inner; lia.
Qed.
Lemma outside_cover so mem mem' l : 0 <= so -> so + 2420 <= zlen mem -> zlen l = 2420 -> outside_same so mem mem' -> splice mem' so l = splice mem so l.
Proof. intros H0 H1 H2 (x & Lx & ->). apply splice_cover; lia. Qed.
Lemma outside_len so mem mem' : 0 <= so -> so + 2420 <= zlen mem -> outside_same so mem mem' -> zlen mem' = zlen mem.
Proof. intros H0 H1 (x & Lx & ->). apply zlen_splice; lia. Qed.

Lemma attempt_c_ok fuel mat s1h s2h t0h mu rhop nonce so mem : matb mat -> vb (8 * Q + 5) s1h -> vb (8 * Q + 5) s2h -> vb (8 * Q + 4096) t0h ->
  0 <= so -> so + 2420 <= zlen mem ->
  exists r mem', sign_attempt fuel mat s1h s2h t0h mu rhop nonce = Ret r /\
    sign_attempt_c fuel mat s1h s2h t0h mu rhop nonce so mem = Ret (attempt_result mem mem' so r) /\
    outside_same so mem mem' /\ (forall sig, r = Some (Some sig) -> zlen sig = 2420).
Proof.
  intros HM B1 B2 B0 Hso Hmem. unfold sign_attempt, sign_attempt_c. cbv zeta.
  destruct (vec_uniform_gamma1_in rhop nonce) as [Ly Iy]. set (y := vec_uniform_gamma1 rhop nonce) in *. clearbody y.
  pose proof (vb_of_in _ _ 131072 _ Ly Iy ltac:(lia) ltac:(lia)) as By.
  destruct (vec_ntt_ok y _ By) as (yh & E & Byh & Syh); [lia|q32|]. rewrite E. cbn [bind]. clear E.
  destruct (matrix_pointwise_ok mat yh _ HM Byh) as (w & E & Bw & Sw); [q32|]. rewrite E. cbn [bind]. clear E.
  destruct (vec_reduce_ok w) as (wr' & E & Bwr & Swr); [eapply vb_le; [|exact Bw]; q32|]. rewrite E. cbn [bind]. clear E.
  destruct (vec_invntt_ok wr') as (wi & E & Bwi & Swi); [eapply vb_le; [|exact Bwr]; q32|]. rewrite E. cbn [bind]. clear E.
  destruct (vec_caddq_ok wi) as (wc & E & Vwc & Swc); [eapply vb_le; [|exact Bwi]; q32|]. rewrite E. cbn [bind]. clear E.
  assert (Rwc: forall r i, (r < 4)%nat -> 0 <= i < 256 -> 0 <= cf wc r i < Q).
  { intros r i Hr Hi. rewrite (Swc r Hr i Hi). apply cadd_range. pose proof (vb_cf _ _ r Bwi Hr i Hi). q32. }
  destruct (vec_decompose_ok wc Vwc Rwc) as (w1 & w0 & E & V1 & V0 & S10). rewrite E. cbn [bind]. clear E.
  assert (R1: forall r i, (r < 4)%nat -> 0 <= i < 256 -> 0 <= cf w1 r i <= 43 /\ - GAMMA2 <= cf w0 r i <= GAMMA2).
  { intros r i Hr Hi. destruct (S10 r Hr) as [S S']. rewrite (S i Hi), (S' i Hi). destruct (dec_range _ (Rwc r i Hr Hi)) as (D1 & D0 & _ & _). split; [exact D1|exact D0]. }
  destruct (vec_pack_w1_ok w1 V1) as (pw1 & EW & Lpw & Bpw); [intros r i Hr Hi; apply R1; assumption|]. rewrite EW. cbn [bind].
  (* the packed w1 goes to the signature buffer and is hashed from there *)
  rewrite copy_splice by lia. cbn [bind]. rewrite (slice_all pw1) by lia.
  rewrite rdrange_ok by (rewrite ?zlen_splice; lia). cbn [bind].
  replace (slice (splice mem so pw1) so 768) with pw1 by (symmetry; rewrite <- Lpw; apply slice_splice; lia).
  rewrite shake256_pieces_ok by (rewrite ?zlen_splice; lia). cbn [bind concat]. rewrite app_nil_r.
  set (c := shake256_bytes (mu ++ pw1) 32).
  assert (Lc: zlen c = 32) by (apply (sponge_bytes_len 136 0x1F); lia). assert (Bc: bytes_ok c) by (apply (sponge_bytes_ok 136 0x1F); lia).
  set (mem' := splice (splice mem so pw1) so c).
  assert (Hout: outside_same so mem mem') by (apply outside_splice; try lia; apply outside_splice; try lia; apply outside_refl; lia).
  assert (Lm: zlen mem' = zlen mem) by (eapply outside_len; eassumption).
  assert (Ec: slice mem' so 32 = c) by (rewrite <- Lc; apply slice_splice; rewrite ?zlen_splice; lia).
  clearbody mem' c.
  rewrite !rdrange_ok by lia. cbn [bind]. rewrite Ec.
  destruct (poly_challenge fuel c) as [cp|] eqn:EC; [|exists None, mem'; split; [reflexivity|]; split; [reflexivity|]; split; [assumption|discriminate]]. destruct (poly_challenge_real _ _ _ EC) as [Ic _].
  assert (REJ: forall b : outcome (option (option (list Z))), b = Ret (Some None) -> forall b' : outcome (option (bool * list Z)), b' = Ret (Some (false, mem')) ->
    exists r mem', b = Ret r /\ b' = Ret (attempt_result mem mem' so r) /\ outside_same so mem mem' /\ (forall sig, r = Some (Some sig) -> zlen sig = 2420)).
  { intros b -> b' ->. exists (Some None), mem'. split; [reflexivity|]. split; [reflexivity|]. split; [assumption|discriminate]. }
  destruct (poly_ntt_ok1 cp 1 (pb_of_in _ _ 1 _ Ic ltac:(lia) ltac:(lia))) as (ch & E & Bch & Sch); [lia|q32|]. rewrite E. cbn [bind]. clear E.
  destruct (vec_pointwise_poly_ok ch s1h _ _ Bch B1) as (z1 & E & Bz1 & Sz1); [q32|]. rewrite E. cbn [bind]. clear E.
  destruct (vec_invntt_ok z1) as (z2 & E & Bz2 & Sz2); [eapply vb_le; [|exact Bz1]; q32|]. rewrite E. cbn [bind]. clear E.
  destruct (vec_add_ok z2 y _ _ Bz2 By) as (z3 & E & Bz3 & Sz3); [q32|]. rewrite E. cbn [bind]. clear E.
  destruct (vec_reduce_ok z3) as (z & E & Bz & Sz); [eapply vb_le; [|exact Bz3]; q32|]. rewrite E. cbn [bind]. clear E.
  destruct (vec_chknorm_ok z (GAMMA1 - BETA)) as (r1 & E & _ & Nz); [now vm_compute|eapply vb_le; [|exact Bz]; q32|]. rewrite E. cbn [bind]. clear E.
  destruct (r1 =? 0) eqn:Er1; cbn [negb]; [|apply REJ; reflexivity]. apply Z.eqb_eq in Er1. pose proof (proj1 Nz Er1) as HNz. clear Nz Er1.
  assert (Bw0: vb GAMMA2 w0) by (apply vb_of_cf; [exact V0|]; intros r Hr i Hi; pose proof (R1 r i Hr Hi); lia).
  destruct (vec_pointwise_poly_ok ch s2h _ _ Bch B2) as (h1 & E & Bh1 & Sh1); [q32|]. rewrite E. cbn [bind]. clear E.
  destruct (vec_invntt_ok h1) as (h2 & E & Bh2 & Sh2); [eapply vb_le; [|exact Bh1]; q32|]. rewrite E. cbn [bind]. clear E.
  destruct (vec_sub_ok w0 h2 _ _ Bw0 Bh2) as (v1 & E & Bv1 & Sv1); [q32|]. rewrite E. cbn [bind]. clear E.
  destruct (vec_reduce_ok v1) as (v2 & E & Bv2 & Sv2); [eapply vb_le; [|exact Bv1]; q32|]. rewrite E. cbn [bind]. clear E.
  destruct (vec_chknorm_ok v2 (GAMMA2 - BETA)) as (r2 & E & _ & Nv); [now vm_compute|eapply vb_le; [|exact Bv2]; q32|]. rewrite E. cbn [bind]. clear E.
  destruct (r2 =? 0) eqn:Er2; cbn [negb]; [|apply REJ; reflexivity]. apply Z.eqb_eq in Er2. pose proof (proj1 Nv Er2) as HNv. clear Nv Er2.
  destruct (vec_pointwise_poly_ok ch t0h _ _ Bch B0) as (g1 & E & Bg1 & Sg1); [q32|]. rewrite E. cbn [bind]. clear E.
  destruct (vec_invntt_ok g1) as (g2 & E & Bg2 & Sg2); [eapply vb_le; [|exact Bg1]; q32|]. rewrite E. cbn [bind]. clear E.
  destruct (vec_reduce_ok g2) as (g3 & E & Bg3 & Sg3); [eapply vb_le; [|exact Bg2]; q32|]. rewrite E. cbn [bind]. clear E.
  destruct (vec_chknorm_ok g3 GAMMA2) as (r3 & E & _ & Ng); [now vm_compute|eapply vb_le; [|exact Bg3]; q32|]. rewrite E. cbn [bind]. clear E.
  destruct (r3 =? 0) eqn:Er3; cbn [negb]; [|apply REJ; reflexivity]. apply Z.eqb_eq in Er3. pose proof (proj1 Ng Er3) as HNg. clear Ng Er3.
  destruct (vec_add_ok v2 g3 _ _ Bv2 Bg3) as (a0 & E & Ba0 & Sa0); [q32|]. rewrite E. cbn [bind]. clear E.
  destruct (vec_make_hint_ok a0 w1 (vb_vlen _ _ Ba0) V1) as (h & n & E & Vh & Fh & -> & Sh). rewrite E. cbn [bind]. clear E.
  destruct (OMEGA <? zlen (all_positions h)) eqn:Eo; [apply REJ; reflexivity|]. apply Z.ltb_ge in Eo. unfold OMEGA in Eo.
  assert (Hh: h_vec h) by (split; [apply Vh|split; assumption]).
  assert (Hz: z_vec z).
  { split; [apply Bz|]. apply vin_of_cf; [apply (vb_vlen _ _ Bz)|]. intros r i Hr Hi. specialize (HNz r Hr i Hi). q32. }
  destruct (pack_sig_ok c z h Lc Bc Hz Hh) as (sig & EP & Lsig & _). rewrite EP. cbn [bind].
  rewrite copy_splice by lia. cbn [bind]. rewrite (slice_all sig) by lia.
  exists (Some (Some sig)), mem'. split; [reflexivity|]. split; [|split; [assumption|]; intros s H; apply Some_inj, Some_inj in H; now subst s].
  cbn [attempt_result]. apply (f_equal Ret), (f_equal Some), (f_equal (pair true)). now apply outside_cover.
Qed.

Lemma rej_loop_c_ok (att : Z -> outcome (option (option (list Z)))) (att_c : Z -> list Z -> outcome (option (bool * list Z))) so mem0 :
  0 <= so -> so + 2420 <= zlen mem0 ->
  (forall n mem, zlen mem = zlen mem0 -> exists r mem', att n = Ret r /\ att_c n mem = Ret (attempt_result mem mem' so r) /\ outside_same so mem mem' /\
     (forall sig, r = Some (Some sig) -> zlen sig = 2420)) ->
  forall fuel n mem, outside_same so mem0 mem -> exists r, rej_loop att fuel n = Ret r /\
    rej_loop_c att_c fuel n mem = Ret (match r with Some sig => Some (splice mem0 so sig) | None => None end) /\ (forall sig, r = Some sig -> zlen sig = 2420).
Proof.
  intros Hso Hm H. induction fuel as [|fuel IH]; intros n mem Hout; cbn [rej_loop rej_loop_c]; [exists None; split; [reflexivity|]; split; [reflexivity|discriminate]|].
  pose proof (outside_len _ _ _ Hso Hm Hout) as Lm.
  destruct (H n mem Lm) as (r & mem' & E & E' & Hout' & HL). rewrite E, E'. cbn [bind]. destruct r as [[sig|]|]; cbn [attempt_result].
  - exists (Some sig). split; [reflexivity|]. specialize (HL sig eq_refl). split; [|intros s Hs; apply Some_inj in Hs; now subst s].
    apply (f_equal Ret), (f_equal Some). now apply outside_cover.
  - apply IH. destruct Hout as (x & Lx & ->). destruct Hout' as (x' & Lx' & ->). exists x'. split; [exact Lx'|]. apply splice_cover; lia.
  - exists None. split; [reflexivity|]. split; [reflexivity|discriminate].
Qed.

Definition sig_result (mem : list Z) (so : Z) (r : option (list Z)) : option (Z * list Z * Z) :=
  match r with Some sig => Some (0, splice mem so sig, 2420) | None => None end.
Lemma zero_loop h : zlen h = 288 -> for_loop 32 (fun n sb => wr sb (128 + n) 0) h = Ret (splice h 128 (zeros 32)).
Proof.
  intros H. change (for_loop 32 (fun i h => b <- Ret 0 ;; wr h (128 + i) b) h = Ret (splice h 128 (zeros 32))).
  rewrite (fill_loop (fun _ => Ret 0) (fun _ => 0)) by (lia || reflexivity). reflexivity.
Qed.
Lemma sign_signature_c_ok fuel seedbuf0 mem so mo mlen sk : zlen seedbuf0 = 288 -> 2560 <= zlen sk -> bytes_ok sk ->
  0 <= so -> so + 2420 <= zlen mem -> 0 <= mo -> 0 <= mlen -> mo + mlen <= zlen mem ->
  exists r, sign_signature fuel (slice mem mo mlen) (slice sk 0 2560) = Ret r /\
    sign_signature_c fuel seedbuf0 mem so mo mlen sk = Ret (sig_result mem so r) /\ (forall sig, r = Some sig -> zlen sig = 2420).
Proof.
  intros Lsb Lsk0 Bsk0 Hso Hmem Hmo Hml Hmm. unfold sign_signature, sign_signature_c. rewrite rdrange_ok by lia. cbn [bind].
  assert (Lsk: zlen (slice sk 0 2560) = 2560) by (apply zlen_slice; lia). assert (Bsk: bytes_ok (slice sk 0 2560)) by (now apply bytes_ok_slice).
  set (skb := slice sk 0 2560) in *. clearbody skb. clear sk Lsk0 Bsk0.
  destruct (unpack_sk skb) as [[[[[rho tr] key] t0] s1] s2] eqn:EU. cbv zeta.
  destruct (unpack_sk_in skb Lsk Bsk _ _ _ _ _ _ EU) as ([L0 I0] & [L1 I1] & [L2 I2]).
  assert (FU: rho = slice skb 0 32 /\ key = slice skb 32 32 /\ tr = slice skb 64 64).
  { unfold unpack_sk in EU. apply pair_equal_spec in EU as [EU _]. apply pair_equal_spec in EU as [EU _]. apply pair_equal_spec in EU as [EU _]. apply pair_equal_spec in EU as [EU E1]. apply pair_equal_spec in EU as [E2 E3]. now subst. }
  destruct FU as (-> & -> & ->). clear EU.
  assert (Lrho: zlen (slice skb 0 32) = 32) by (apply zlen_slice; lia). assert (Lkey: zlen (slice skb 32 32) = 32) by (apply zlen_slice; lia). assert (Ltr: zlen (slice skb 64 64) = 64) by (apply zlen_slice; lia).
  assert (Bkey: bytes_ok (slice skb 32 32)) by (now apply bytes_ok_slice).
  set (rho := slice skb 0 32) in *. set (key := slice skb 32 32) in *. set (tr := slice skb 64 64) in *. clearbody rho key tr.
  rewrite copy_splice by lia. cbn [bind]. rewrite (slice_all rho) by lia. set (sb1 := splice seedbuf0 0 rho). assert (S1: zlen sb1 = 288) by (unfold sb1; rewrite zlen_splice; lia).
  rewrite copy_splice by lia. cbn [bind]. rewrite (slice_all key) by lia. set (sb2 := splice sb1 96 key). assert (S2: zlen sb2 = 288) by (unfold sb2; rewrite zlen_splice; lia).
  rewrite copy_splice by lia. cbn [bind]. rewrite (slice_all tr) by lia. set (sb3 := splice sb2 32 tr). assert (S3: zlen sb3 = 288) by (unfold sb3; rewrite zlen_splice; lia).
  rewrite !rdrange_ok by lia. cbn [bind]. replace (slice sb3 32 64) with tr by (symmetry; rewrite <- Ltr; apply slice_splice; lia).
  rewrite shake256_pieces_ok by lia. cbn [bind concat]. rewrite app_nil_r.
  set (mu := shake256_bytes (tr ++ slice mem mo mlen) 64).
  assert (Lmu: zlen mu = 64) by (apply (sponge_bytes_len 136 0x1F); lia). assert (Bmu: bytes_ok mu) by (apply (sponge_bytes_ok 136 0x1F); lia). clearbody mu.
  set (sb4 := splice sb3 160 mu). assert (S4: zlen sb4 = 288) by (unfold sb4; rewrite zlen_splice; lia).
  rewrite zero_loop by assumption. cbn [bind]. assert (Lz: zlen (zeros 32) = 32) by reflexivity.
  set (sb5 := splice sb4 128 (zeros 32)). assert (S5: zlen sb5 = 288) by (unfold sb5; rewrite zlen_splice; lia).
  assert (Ein: slice sb5 96 128 = key ++ zeros 32 ++ mu).
  { rewrite (slice_split sb5 96 128 32) by lia. f_equal.
    - unfold sb5. rewrite slice_splice_before by lia. unfold sb4. rewrite slice_splice_before by lia. unfold sb3. rewrite slice_splice_after by lia. rewrite <- Lkey. apply slice_splice; lia.
    - change (96 + 32) with 128. change (128 - 32) with 96. rewrite (slice_split sb5 128 96 32) by lia. f_equal.
      + rewrite <- Lz at 1. apply slice_splice; lia.
      + change (128 + 32) with 160. change (96 - 32) with 64. unfold sb5. rewrite slice_splice_after by lia. rewrite <- Lmu at 1. apply slice_splice; lia. }
  rewrite shake256_at_ok; try lia. 2:{ rewrite Ein, !bytes_ok_app. split; [exact Bkey|]. split; [apply bytes_ok_zeros|exact Bmu]. }
  rewrite Ein. cbn [bind]. set (rhop := shake256_bytes (key ++ zeros 32 ++ mu) 64).
  assert (Lrp: zlen rhop = 64) by (apply (sponge_bytes_len 136 0x1F); lia). clearbody rhop.
  set (sb6 := splice sb5 224 rhop). assert (S6: zlen sb6 = 288) by (unfold sb6; rewrite zlen_splice; lia).
  rewrite !rdrange_ok by lia. cbn [bind].
  replace (slice sb6 0 32) with rho.
  2:{ symmetry. unfold sb6. rewrite slice_splice_before by lia. unfold sb5. rewrite slice_splice_before by lia. unfold sb4. rewrite slice_splice_before by lia.
      unfold sb3. rewrite slice_splice_before by lia. unfold sb2. rewrite slice_splice_before by lia. rewrite <- Lrho. apply slice_splice; lia. }
  replace (slice sb6 160 64) with mu.
  2:{ symmetry. unfold sb6. rewrite slice_splice_before by lia. unfold sb5. rewrite slice_splice_after by lia. rewrite <- Lmu. apply slice_splice; lia. }
  replace (slice sb6 224 64) with rhop by (symmetry; rewrite <- Lrp; apply slice_splice; lia).
  clearbody sb6. clear sb1 S1 sb2 S2 sb3 S3 sb4 S4 sb5 S5 Ein S6 sb6.
  destruct (matrix_expand fuel rho) as [mat|] eqn:EM; [|exists None; split; [reflexivity|]; split; [reflexivity|discriminate]]. pose proof (matrix_expand_in _ _ _ EM) as HM.
  destruct (vec_ntt_ok s1 5 (vb_of_in _ _ 5 _ L1 I1 ltac:(lia) ltac:(lia))) as (s1h & E & B1 & _); [lia|q32|]. rewrite E. cbn [bind]. clear E.
  destruct (vec_ntt_ok s2 5 (vb_of_in _ _ 5 _ L2 I2 ltac:(lia) ltac:(lia))) as (s2h & E & B2 & _); [lia|q32|]. rewrite E. cbn [bind]. clear E.
  destruct (vec_ntt_ok t0 4096 (vb_of_in _ _ 4096 _ L0 I0 ltac:(lia) ltac:(lia))) as (t0h & E & B0 & _); [lia|q32|]. rewrite E. cbn [bind]. clear E.
  destruct (rej_loop_c_ok (sign_attempt fuel mat s1h s2h t0h mu rhop) (fun nonce => sign_attempt_c fuel mat s1h s2h t0h mu rhop nonce so) so mem Hso Hmem) with (fuel := fuel) (n := 0) (mem := mem) as (r & E & E' & HL).
  { intros n mm Lmm. apply attempt_c_ok; try lia; [exact HM| | |]; eapply vb_le; try eassumption; lia. }
  { apply outside_refl; lia. }
  rewrite E, E'. cbn [bind]. exists r. split; [reflexivity|]. split; [|exact HL]. destruct r; reflexivity.
Qed.

(** ** crypto_sign: descending copy, so that m may be the start of sm *)
Definition signed_result (mem : list Z) (so mlen : Z) (r : option (list Z)) : option (Z * list Z * Z) :=
  match r with Some sm => Some (0, splice mem so sm, u64 (2420 + mlen)) | None => None end.
Lemma for_loop_ext n {S} (f g : Z -> S -> outcome S) s : (forall i s, f i s = g i s) -> for_loop n f s = for_loop n g s.
Proof. intros H. unfold for_loop. generalize 0 as k. revert s. induction (Z.to_nat n) as [|m IH]; intros s k; cbn [for_from]; [reflexivity|]. rewrite H. destruct (g k s); cbn [bind]; [apply IH|reflexivity]. Qed.
Lemma crypto_sign_c_ok fuel seedbuf0 mem so mo mlen sk : zlen seedbuf0 = 288 -> 2560 <= zlen sk -> bytes_ok sk ->
  0 <= so -> 0 <= mlen -> so + 2420 + mlen <= zlen mem -> 0 <= mo -> mo + mlen <= zlen mem ->
  mo <= so + 2420 \/ so + 2420 + mlen <= mo ->
  exists r, crypto_sign fuel (slice mem mo mlen) (slice sk 0 2560) = Ret r /\
    crypto_sign_c fuel seedbuf0 mem so mo mlen sk = Ret (signed_result mem so mlen r) /\ (forall sm, r = Some sm -> zlen sm = 2420 + mlen).
Proof.
  intros Lsb Lsk Bsk Hso Hml Hmem Hmo Hmm Hov. unfold crypto_sign, crypto_sign_c.
  rewrite (for_loop_ext mlen _ (fun i mem => b <- rd 0 mem (mo + (mlen - 1 - i)) ;; wr mem ((so + 2420) + (mlen - 1 - i)) b)).
  2:{ intros i s. replace (so + (2420 + mlen - 1 - i)) with (so + 2420 + (mlen - 1 - i)) by lia. reflexivity. }
  rewrite move_down_ok by lia. cbn [bind]. set (m := slice mem mo mlen). assert (Lm: zlen m = mlen) by (apply zlen_slice; lia).
  assert (Lmem1: zlen (splice mem (so + 2420) m) = zlen mem) by (rewrite zlen_splice; lia).
  destruct (sign_signature_c_ok fuel seedbuf0 (splice mem (so + 2420) m) so (so + 2420) mlen sk) as (r & E & E' & HL); try lia; try assumption.
  replace (slice (splice mem (so + 2420) m) (so + 2420) mlen) with m in E by (symmetry; rewrite <- Lm; apply slice_splice; lia).
  rewrite E, E'. cbn [bind]. destruct r as [sig|]; cbn [sig_result].
  - exists (Some (sig ++ m)). specialize (HL sig eq_refl). split; [reflexivity|]. split; [|intros sm H; apply Some_inj in H; subst sm; rewrite zlen_app; lia].
    cbn [signed_result]. apply (f_equal Ret), (f_equal Some). f_equal. f_equal.
    unfold splice at 1. rewrite slice_splice_before by lia. rewrite Lmem1. unfold splice at 1. rewrite HL. unfold splice at 1.
    rewrite <- app_assoc. f_equal. f_equal. rewrite zlen_app, HL, Lm.
    replace (slice (slice mem 0 (so + 2420) ++ m ++ slice mem (so + 2420 + mlen) (zlen mem - (so + 2420) - mlen)) (so + 2420) (zlen mem - so - 2420))
      with (m ++ slice mem (so + 2420 + mlen) (zlen mem - (so + 2420) - mlen)).
    + f_equal. f_equal; lia.
    + assert (Lf: zlen (slice mem 0 (so + 2420)) = so + 2420) by (apply zlen_slice; lia).
      rewrite slice_app_r by lia. rewrite Lf, Z.sub_diag. symmetry. apply slice_all. rewrite zlen_app, zlen_slice; lia.
  - exists None. split; [reflexivity|]. split; [reflexivity|discriminate].
Qed.

(** ** Verification *)
Lemma cmp_loop c c2 n : 0 <= n -> n <= zlen c -> n <= zlen c2 ->
  for_loop n (fun i r => match r with Some 0 => x <- rd 0 c i ;; y <- rd 0 c2 i ;; Ret (Some (if x =? y then 0 else -1)) | _ => Ret r end) (Some 0)
  = Ret (Some (if forallb (fun i => ix c i =? ix c2 i) (zseq 0 (Z.to_nat n)) then 0 else -1)).
Proof.
  intros Hn H1 H2. unfold for_loop.
  assert (G: forall k i, 0 <= i -> i + Z.of_nat k <= n ->
    for_from k i (fun i r => match r with Some 0 => x <- rd 0 c i ;; y <- rd 0 c2 i ;; Ret (Some (if x =? y then 0 else -1)) | _ => Ret r end) (Some (-1)) = Ret (Some (-1))).
  { induction k as [|k IH]; intros i Hi Hk; cbn [for_from]; [reflexivity|]. cbn [bind]. apply IH; lia. }
  assert (G2: forall k i, 0 <= i -> i + Z.of_nat k <= n ->
    for_from k i (fun i r => match r with Some 0 => x <- rd 0 c i ;; y <- rd 0 c2 i ;; Ret (Some (if x =? y then 0 else -1)) | _ => Ret r end) (Some 0)
    = Ret (Some (if forallb (fun i => ix c i =? ix c2 i) (zseq i k) then 0 else -1))).
  { induction k as [|k IH]; intros i Hi Hk; cbn [for_from]; [reflexivity|]. rewrite !rd_ok by lia. cbn [bind zseq forallb].
    change (nth (Z.to_nat i) c 0) with (ix c i). change (nth (Z.to_nat i) c2 0) with (ix c2 i).
    destruct (ix c i =? ix c2 i); cbn [andb]; [apply IH; lia|apply G; lia]. }
  rewrite G2 by lia. reflexivity.
Qed.
Lemma sign_verify_c_ok fuel mu0 c20 buf0 mem so siglen mo mlen pk : zlen mu0 = 64 -> zlen c20 = 32 -> zlen buf0 = 768 ->
  1312 <= zlen pk -> bytes_ok pk -> bytes_ok mem -> 0 <= so -> (siglen = 2420 -> so + 2420 <= zlen mem /\ 0 <= mo /\ 0 <= mlen /\ mo + mlen <= zlen mem) ->
  sign_verify_c fuel mu0 c20 buf0 mem so siglen mo mlen pk = sign_verify fuel (slice mem so 2420) siglen (slice mem mo mlen) (slice pk 0 1312).
Proof.
  intros Lmu0 Lc20 Lbuf0 Lpk0 Bpk0 Bmem Hso HS. unfold sign_verify_c, sign_verify.
  destruct (Z.eqb_spec siglen 2420) as [->|_]; cbn [negb]; [|reflexivity]. destruct (HS eq_refl) as (Hmem & Hmo & Hml & Hmm). clear HS.
  rewrite (rdrange_ok pk) by lia. cbn [bind].
  assert (Lpk: zlen (slice pk 0 1312) = 1312) by (apply zlen_slice; lia). assert (Bpk: bytes_ok (slice pk 0 1312)) by (now apply bytes_ok_slice).
  pose proof (unpack_pk_in _ Lpk Bpk) as [L1 I1]. destruct (unpack_pk (slice pk 0 1312)) as [rho t1]. cbn [snd] in *.
  rewrite (rdrange_ok mem so) by lia. cbn [bind].
  assert (Ls: zlen (slice mem so 2420) = 2420) by (apply zlen_slice; lia). assert (Bs: bytes_ok (slice mem so 2420)) by (now apply bytes_ok_slice).
  destruct (unpack_sig_sound (slice mem so 2420) Ls Bs) as (s & E & HS). rewrite E. cbn [bind]. destruct s as [[[c z] h]|]; [|reflexivity].
  destruct (HS c z h eq_refl) as (Lc & Bc & [Lz Iz] & [Lh [Fh _]] & _). clear HS.
  pose proof (vb_of_in _ _ 131072 _ Lz Iz ltac:(lia) ltac:(lia)) as Bz.
  assert (Vh: vlen h). { split; [exact Lh|]. intros r Hr. rewrite Forall_forall in Fh. destruct (Fh (nth r h [])) as [H _]; [apply nth_In; lia|]. unfold zlen. lia. }
  destruct (vec_chknorm_ok z (GAMMA1 - BETA)) as (r1 & E1 & R01 & Nz); [now vm_compute|eapply vb_le; [|exact Bz]; q32|]. rewrite E1. cbn [bind]. clear E1.
  destruct (r1 =? 0); cbn [negb]; [|reflexivity].
  rewrite shake256_at_ok; try lia; [|exact Bpk]. cbn [bind]. 
  set (h0 := shake256_bytes (slice pk 0 1312) 64). assert (Lh0: zlen h0 = 64) by (apply (sponge_bytes_len 136 0x1F); lia).
  rewrite (splice_whole' mu0) by lia. rewrite (rdrange_ok h0) by lia. cbn [bind]. rewrite (slice_all h0) by lia.
  rewrite (rdrange_ok mem mo) by lia. cbn [bind]. rewrite shake256_pieces_ok by lia. cbn [bind concat]. rewrite app_nil_r.
  replace (slice (slice pk 0 1312) 0 1312) with (slice pk 0 1312) by (symmetry; apply slice_all; lia). fold h0. cbv zeta.
  set (mu := shake256_bytes (h0 ++ slice mem mo mlen) 64). assert (Lmu: zlen mu = 64) by (apply (sponge_bytes_len 136 0x1F); lia).
  rewrite (splice_whole' h0) by lia. rewrite (rdrange_ok mu) by lia. cbn [bind]. rewrite (slice_all mu) by lia. clearbody mu.
  destruct (poly_challenge fuel c) as [cp|] eqn:EC; [|reflexivity].
  destruct (matrix_expand fuel rho) as [mat|] eqn:EM; [|reflexivity].
  pose proof (matrix_expand_in _ _ _ EM) as HM. destruct (poly_challenge_real _ _ _ EC) as [Ic _].
  destruct (vec_ntt_ok z _ Bz) as (zh & E1 & Bzh & Szh); [lia|q32|]. rewrite E1. cbn [bind]. clear E1.
  destruct (matrix_pointwise_ok mat zh _ HM Bzh) as (w1 & E1 & Bw1 & Sw1); [q32|]. rewrite E1. cbn [bind]. clear E1.
  destruct (poly_ntt_ok1 cp 1 (pb_of_in _ _ 1 _ Ic ltac:(lia) ltac:(lia))) as (ch & E1 & Bch & Sch); [lia|q32|]. rewrite E1. cbn [bind]. clear E1.
  destruct (vin_vlen _ _ _ L1 I1) as [Vt1 Rt1].
  destruct (vec_shiftl_ok t1 Vt1 Rt1) as (t2 & E1 & Bt2 & St2). rewrite E1. cbn [bind]. clear E1.
  destruct (vec_ntt_ok t2 _ Bt2) as (t3 & E1 & Bt3 & St3); [q32|q32|]. rewrite E1. cbn [bind]. clear E1.
  destruct (vec_pointwise_poly_ok ch t3 _ _ Bch Bt3) as (t4 & E1 & Bt4 & St4); [q32|]. rewrite E1. cbn [bind]. clear E1.
  destruct (vec_sub_ok w1 t4 _ _ Bw1 Bt4) as (w2 & E1 & Bw2 & Sw2); [q32|]. rewrite E1. cbn [bind]. clear E1.
  destruct (vec_reduce_ok w2) as (w3 & E1 & Bw3 & Sw3); [eapply vb_le; [|exact Bw2]; q32|]. rewrite E1. cbn [bind]. clear E1.
  destruct (vec_invntt_ok w3) as (w4 & E1 & Bw4 & Sw4); [eapply vb_le; [|exact Bw3]; q32|]. rewrite E1. cbn [bind]. clear E1.
  destruct (vec_caddq_ok w4) as (w & E1 & Vw & Sw); [eapply vb_le; [|exact Bw4]; q32|]. rewrite E1. cbn [bind]. clear E1.
  assert (Rw: forall r i, (r < 4)%nat -> 0 <= i < 256 -> 0 <= cf w r i < Q).
  { intros r i Hr Hi. rewrite (Sw r Hr i Hi). apply cadd_range. pose proof (vb_cf _ _ r Bw4 Hr i Hi). q32. }
  destruct (vec_use_hint_ok w h Vw Vh Rw) as (u & E1 & Vu & Su). rewrite E1. cbn [bind]. clear E1.
  destruct (vec_pack_w1_ok u Vu) as (buf & EB & Lbuf & _); [intros r i Hr Hi; rewrite (Su r Hr i Hi); apply uhint_range, Rw; assumption|]. rewrite EB. cbn [bind].
  rewrite copy_splice by lia. cbn [bind]. rewrite (slice_all buf) by lia. rewrite (splice_whole' buf0) by lia. rewrite (rdrange_ok buf) by lia. cbn [bind]. rewrite (slice_all buf) by lia.
  rewrite shake256_pieces_ok by lia. cbn [bind concat]. rewrite app_nil_r.
  set (c2 := shake256_bytes (mu ++ buf) 32). assert (Lc2: zlen c2 = 32) by (apply (sponge_bytes_len 136 0x1F); lia).
  rewrite (splice_whole' c20) by lia. rewrite (cmp_loop c c2 32) by lia. reflexivity.
Qed.

(** ** crypto_sign_open: ascending copy, so that m may be the start of sm *)
Definition opened_result (mem : list Z) (mo : Z) (sm : list Z) (smlen mlen : Z) (r : option Z) : option (Z * list Z * Z) :=
  match r with
  | Some v => if v =? 0 then Some (0, splice mem mo (slice sm 2420 (smlen - 2420)), smlen - 2420) else Some (-2, mem, smlen - 2420)
  | None => None
  end.
Lemma sign_open_c_ok fuel mu0 c20 buf0 mem so smlen mo mlen pk : zlen mu0 = 64 -> zlen c20 = 32 -> zlen buf0 = 768 ->
  1312 <= zlen pk -> bytes_ok pk -> bytes_ok mem -> 0 <= so -> 2420 <= smlen -> so + smlen <= zlen mem -> 0 <= mo -> mo + (smlen - 2420) <= zlen mem ->
  mo <= so + 2420 \/ so + smlen <= mo ->
  sign_open_c fuel mu0 c20 buf0 mem so smlen mo mlen pk =
    (r <- sign_verify fuel (slice mem so 2420) 2420 (slice mem (so + 2420) (smlen - 2420)) (slice pk 0 1312) ;;
     Ret (opened_result mem mo (slice mem so smlen) smlen mlen r)).
Proof.
  intros Lmu0 Lc20 Lbuf0 Lpk Bpk Bmem Hso Hs1 Hs2 Hmo Hmm Hov. unfold sign_open_c.
  destruct (Z.ltb_spec smlen 2420); [lia|]. cbv zeta. rewrite sign_verify_c_ok by (try assumption; lia).
  destruct (sign_verify _ _ _ _ _) as [[v|]|]; cbn [bind opened_result]; try reflexivity.
  destruct (v =? 0); cbn [negb]; [|reflexivity].
  rewrite (for_loop_ext (smlen - 2420) _ (fun i mem => b <- rd 0 mem ((so + 2420) + i) ;; wr mem (mo + i) b)) by (intros i s; now replace (so + (2420 + i)) with (so + 2420 + i) by lia).
  rewrite move_up_ok by lia. cbn [bind]. rewrite slice_slice by lia. reflexivity.
Qed.
