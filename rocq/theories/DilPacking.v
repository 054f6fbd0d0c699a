(** Round trips of whole keys and signatures (packing.c). *)
From Verif Require Import Base SpongePure SpongeProofs Tab DilReduce DilPoly DilPack DilVec DilHint.

Definition enc_ok (n : Z) (b : list Z) : Prop := zlen b = n /\ bytes_ok b.
Lemma vec_rt (pack : list Z -> outcome (list Z)) (unpack : list Z -> list Z) n (P : list Z -> Prop) :
  (forall a, P a -> exists b, pack a = Ret b /\ length b = Z.to_nat n /\ bytes_ok b /\ unpack b = a) -> 0 <= n ->
  forall v, Forall P v -> exists bs, mapM pack v = Ret bs /\ length bs = length v /\ Forall (enc_ok n) bs /\ map unpack bs = v.
Proof.
  intros H Hn. induction v as [|a v IH]; intros HF; cbn [mapM].
  - exists []. repeat split; constructor.
  - apply Forall_cons_iff in HF as [Ha HF]. destruct (H a Ha) as (b & E & HL & Hb & HU). rewrite E. cbn [bind].
    destruct (IH HF) as (bs & Es & HLs & HFs & HUs). rewrite Es. cbn [bind]. exists (b :: bs). split; [reflexivity|].
    split; [cbn [length]; lia|]. split; [constructor; [|exact HFs]; split; [unfold zlen; lia|exact Hb]|]. cbn [map]. now rewrite HU, HUs.
Qed.
Lemma zlen_concat n bs : Forall (enc_ok n) bs -> zlen (concat bs) = n * zlen bs.
Proof.
  induction 1 as [|b bs [H _] _ IH]; cbn [concat]; [change (zlen (@nil (list Z))) with 0; change (zlen (@nil Z)) with 0; lia|]. rewrite zlen_app, zlen_cons, IH, H. ring.
Qed.
Lemma bytes_concat n bs : Forall (enc_ok n) bs -> bytes_ok (concat bs).
Proof. induction 1 as [|b bs [_ H] _ IH]; cbn [concat]; [constructor|]. apply bytes_ok_app. auto. Qed.
Lemma blocks_concat pre bs post n off : 0 <= n -> off = zlen pre -> length bs = 4%nat -> Forall (enc_ok n) bs ->
  blocks (pre ++ concat bs ++ post) off n = bs.
Proof.
  intros Hn -> HL HF. destruct bs as [|b0 [|b1 [|b2 [|b3 [|? ?]]]]]; try discriminate HL.
  do 4 (apply Forall_cons_iff in HF as [[? _] HF]). unfold blocks. cbn [map concat]. rewrite app_nil_r.
  pose proof (zlen_nonneg pre).
  repeat f_equal.
  - rewrite slice_app_r by lia. replace (_ - _) with 0 by lia. rewrite <- app_assoc. rewrite slice_app_l by lia. now apply slice_all.
  - rewrite slice_app_r by lia. rewrite <- !app_assoc. rewrite slice_app_r by lia. replace (_ - _) with 0 by lia. rewrite slice_app_l by lia. now apply slice_all.
  - rewrite slice_app_r by lia. rewrite <- !app_assoc. rewrite slice_app_r by lia. rewrite slice_app_r by lia. replace (_ - _) with 0 by lia. rewrite slice_app_l by lia. now apply slice_all.
  - rewrite slice_app_r by lia. rewrite <- !app_assoc. rewrite slice_app_r by lia. rewrite slice_app_r by lia. rewrite slice_app_r by lia. replace (_ - _) with 0 by lia. rewrite slice_app_l by lia. now apply slice_all.
Qed.
Lemma concat_blocks b off n : 0 <= off -> 0 <= n -> off + 4 * n <= zlen b -> concat (blocks b off n) = slice b off (4 * n).
Proof.
  intros Ho Hn H. unfold blocks. cbn [map concat]. rewrite app_nil_r.
  rewrite (slice_split b off (4 * n) n) by lia. rewrite (slice_split b (off + n) (4 * n - n) n) by lia. rewrite (slice_split b (off + n + n) (4 * n - n - n) n) by lia.
  replace (off + 0 * n) with off by lia. replace (off + 1 * n) with (off + n) by lia. replace (off + 2 * n) with (off + n + n) by lia.
  replace (off + 3 * n) with (off + n + n + n) by lia. replace (4 * n - n - n - n) with n by lia. reflexivity.
Qed.
Lemma blocks_enc b off n : bytes_ok b -> 0 <= off -> 0 <= n -> off + 4 * n <= zlen b -> Forall (enc_ok n) (blocks b off n).
Proof.
  intros Hb Ho Hn H. unfold blocks. cbn [map]. repeat constructor; try (apply bytes_ok_slice; exact Hb); apply zlen_slice; lia.
Qed.
Lemma mapM_canon (pack : list Z -> outcome (list Z)) (unpack : list Z -> list Z) n bs : (forall b, length b = Z.to_nat n -> bytes_ok b -> pack (unpack b) = Ret b) -> Forall (enc_ok n) bs ->
  mapM pack (map unpack bs) = Ret bs.
Proof.
  intros H. induction 1 as [|b bs [HL Hb] _ IH]; cbn [map mapM]; [reflexivity|]. rewrite H by (unfold zlen in HL; auto; lia). cbn [bind]. now rewrite IH.
Qed.

(** ** Public keys *)
Definition t1_vec (v : vec) : Prop := length v = 4%nat /\ Forall (poly_in 0 1023) v.
Lemma pack_pk_ok rho t1 : zlen rho = 32 -> bytes_ok rho -> t1_vec t1 ->
  exists pk, pack_pk rho t1 = Ret pk /\ zlen pk = 1312 /\ bytes_ok pk /\ unpack_pk pk = (rho, t1).
Proof.
  intros HR HB [HL HF]. destruct (vec_rt polyt1_pack polyt1_unpack 320 _ t1_rt ltac:(lia) t1 HF) as (bs & E & HLb & HFb & HU).
  unfold pack_pk. rewrite E. cbn [bind]. eexists. split; [reflexivity|].
  pose proof (zlen_concat 320 bs HFb) as Z1. replace (zlen bs) with 4 in Z1 by (unfold zlen; lia).
  split; [rewrite zlen_app; lia|]. split; [apply bytes_ok_app; split; [exact HB|eapply bytes_concat; exact HFb]|].
  unfold unpack_pk. f_equal.
  - rewrite slice_app_l by lia. now apply slice_all.
  - rewrite <- (app_nil_r (concat bs)). rewrite blocks_concat; [exact HU|lia|lia|lia|exact HFb].
Qed.
Lemma unpack_pk_in pk : zlen pk = 1312 -> bytes_ok pk -> t1_vec (snd (unpack_pk pk)).
Proof.
  intros HL HB. split; [reflexivity|]. unfold unpack_pk. cbn [snd]. apply Forall_map. eapply Forall_imp; [|apply (blocks_enc pk 32 320 HB)]; try lia.
  intros b [Hb1 Hb2]. apply t1_unpack_in; [unfold zlen in Hb1; lia|exact Hb2].
Qed.
Lemma pk_canonical pk : zlen pk = 1312 -> bytes_ok pk -> pack_pk (fst (unpack_pk pk)) (snd (unpack_pk pk)) = Ret pk.
Proof.
  intros HL HB. unfold unpack_pk, pack_pk. cbn [fst snd]. rewrite (mapM_canon polyt1_pack polyt1_unpack 320).
  - cbn [bind]. f_equal. rewrite concat_blocks by lia. 
    pose proof (slice_split pk 0 1312 32 ltac:(lia) ltac:(lia)) as S. change (0 + 32) with 32 in S. change (1312 - 32) with (4 * 320) in S.
    rewrite <- S. now apply slice_all.
  - exact t1_canon.
  - apply blocks_enc; [exact HB|lia|lia|lia].
Qed.

(** ** Secret keys *)
Definition eta_vec (v : vec) : Prop := length v = 4%nat /\ Forall (poly_in (-5) 2) v.
Definition t0_vec (v : vec) : Prop := length v = 4%nat /\ Forall (poly_in (-4095) 4096) v.
Lemma pack_sk_ok rho tr key t0 s1 s2 : zlen rho = 32 -> zlen tr = 64 -> zlen key = 32 -> bytes_ok rho -> bytes_ok tr -> bytes_ok key ->
  t0_vec t0 -> eta_vec s1 -> eta_vec s2 ->
  exists sk, pack_sk rho tr key t0 s1 s2 = Ret sk /\ zlen sk = 2560 /\ bytes_ok sk /\ unpack_sk sk = (rho, tr, key, t0, s1, s2).
Proof.
  intros HR HT HK HRb HTb HKb [HL0 H0] [HL1 H1] [HL2 H2].
  destruct (vec_rt polyeta_pack polyeta_unpack 96 _ eta_rt ltac:(lia) s1 H1) as (b1 & E1 & L1 & F1 & U1).
  destruct (vec_rt polyeta_pack polyeta_unpack 96 _ eta_rt ltac:(lia) s2 H2) as (b2 & E2 & L2 & F2 & U2).
  destruct (vec_rt polyt0_pack polyt0_unpack 416 _ t0_rt ltac:(lia) t0 H0) as (b3 & E3 & L3 & F3 & U3).
  unfold pack_sk. rewrite E1, E2, E3. cbn [bind]. eexists. split; [reflexivity|].
  pose proof (zlen_concat _ _ F1) as Z1. pose proof (zlen_concat _ _ F2) as Z2. pose proof (zlen_concat _ _ F3) as Z3.
  assert (zlen b1 = 4 /\ zlen b2 = 4 /\ zlen b3 = 4) as (Y1 & Y2 & Y3) by (unfold zlen; lia). rewrite Y1 in Z1. rewrite Y2 in Z2. rewrite Y3 in Z3.
  split; [rewrite !zlen_app; lia|]. split.
  { rewrite !bytes_ok_app. repeat (split; [assumption || (eapply bytes_concat; eassumption)|]). eapply bytes_concat; eassumption. }
  unfold unpack_sk. repeat f_equal.
  - rewrite slice_app_l by lia. now apply slice_all.
  - rewrite slice_app_r by lia. rewrite slice_app_r by lia. rewrite slice_app_l by lia. replace (_ - _) with 0 by lia. now apply slice_all.
  - rewrite slice_app_r by lia. rewrite slice_app_l by lia. replace (_ - _) with 0 by lia. now apply slice_all.
  - rewrite <- (app_nil_r (concat b3)), !app_assoc, <- (app_assoc _ (concat b3)). rewrite blocks_concat; [exact U3|lia| |lia|exact F3]. rewrite !zlen_app. lia.
  - rewrite (app_assoc rho), (app_assoc (rho ++ key)). rewrite blocks_concat; [exact U1|lia| |lia|exact F1]. rewrite !zlen_app. lia.
  - rewrite (app_assoc rho), (app_assoc (rho ++ key)), (app_assoc ((rho ++ key) ++ tr)). rewrite blocks_concat; [exact U2|lia| |lia|exact F2]. rewrite !zlen_app. lia.
Qed.

(** ** Signatures *)
Definition z_vec (v : vec) : Prop := length v = 4%nat /\ Forall (poly_in (-131071) 131072) v.
Definition h_vec (v : vec) : Prop := length v = 4%nat /\ Forall bits01 v /\ zlen (all_positions v) <= 80.
Lemma bits01_len h : bits01 h -> zlen h = 256. Proof. intros [H _]. unfold zlen. lia. Qed.
Lemma pack_sig_ok c z h : zlen c = 32 -> bytes_ok c -> z_vec z -> h_vec h ->
  exists sig, pack_sig c z h = Ret sig /\ zlen sig = 2420 /\ bytes_ok sig /\ unpack_sig sig = Ret (Some (c, z, h)).
Proof.
  intros HC HCb [HLz Hz] (HLh & Hh & HB). destruct (vec_rt polyz_pack polyz_unpack 576 _ z_rt ltac:(lia) z Hz) as (bs & E & L & F & U).
  unfold pack_sig. rewrite E. cbn [bind]. rewrite hint_pack_ok; [|exact HLh| |exact HB].
  2:{ eapply Forall_imp; [|exact Hh]. exact bits01_len. }
  cbn [bind]. eexists. split; [reflexivity|]. pose proof (zlen_concat _ _ F) as Z1. assert (Y: zlen bs = 4) by (unfold zlen; lia). rewrite Y in Z1.
  pose proof (hint_encoding_len h HLh HB) as ZH.
  split; [rewrite !zlen_app; lia|]. split.
  { rewrite !bytes_ok_app. split; [exact HCb|]. split; [eapply bytes_concat; exact F|]. now apply hint_encoding_bytes. }
  unfold unpack_sig. rewrite app_assoc. rewrite slice_app_r by (rewrite ?zlen_app; lia). 
  replace (2336 - zlen (c ++ concat bs)) with 0 by (rewrite zlen_app; lia). rewrite (slice_all (hint_encoding h)) by lia.
  rewrite hint_unpack_complete by assumption. cbn [bind]. f_equal. f_equal. rewrite <- app_assoc. f_equal. f_equal.
  - rewrite slice_app_l by lia. now apply slice_all.
  - rewrite blocks_concat; [exact U|lia|lia|lia|exact F].
Qed.
Lemma Some3_inj {A B C} (a a' : A) (b b' : B) (c c' : C) : Some (a, b, c) = Some (a', b', c') -> a = a' /\ b = b' /\ c = c'.
Proof. now intros [= -> -> ->]. Qed.
Lemma unpack_sig_sound sig : zlen sig = 2420 -> bytes_ok sig ->
  exists r, unpack_sig sig = Ret r /\
  forall c z h, r = Some (c, z, h) -> zlen c = 32 /\ bytes_ok c /\ z_vec z /\ h_vec h /\ pack_sig c z h = Ret sig.
Proof.
  intros HL Hb. unfold unpack_sig.
  destruct (hint_unpack_sound (slice sig 2336 84)) as (r & E & H); [apply zlen_slice; lia|now apply bytes_ok_slice|].
  rewrite E. cbn [bind]. eexists. split; [reflexivity|]. intros c z h E0. destruct r as [h'|]; [|discriminate]. apply Some3_inj in E0 as (<- & <- & <-).
  destruct (H h' eq_refl) as (H1 & H2 & H3 & H4).
  pose proof (blocks_enc sig 32 576 Hb ltac:(lia) ltac:(lia) ltac:(lia)) as F.
  split; [apply zlen_slice; lia|]. split; [now apply bytes_ok_slice|]. split.
  { split; [reflexivity|]. apply Forall_map. eapply Forall_imp; [|exact F]. intros b [B1 B2]. apply z_unpack_in; [unfold zlen in B1; lia|exact B2]. }
  split; [split; [exact H1|split; [exact H2|exact H3]]|].
  unfold pack_sig. rewrite (mapM_canon polyz_pack polyz_unpack 576 _ z_canon F). cbn [bind].
  rewrite hint_pack_ok; [|exact H1| |exact H3].
  2:{ eapply Forall_imp; [|exact H2]. exact bits01_len. }
  cbn [bind]. f_equal. rewrite <- H4, concat_blocks by lia.
  rewrite app_assoc. 
  pose proof (slice_split sig 0 2336 32 ltac:(lia) ltac:(lia)) as S. change (0 + 32) with 32 in S. change (2336 - 32) with (4 * 576) in S.
  rewrite <- S. clear S.
  pose proof (slice_split sig 0 2420 2336 ltac:(lia) ltac:(lia)) as S. change (0 + 2336) with 2336 in S. change (2420 - 2336) with 84 in S.
  rewrite <- S. now apply slice_all.
Qed.
