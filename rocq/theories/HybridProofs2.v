(** More proofs about the hybrid API model: round trips, rejection codes,
    entropy failure, mode separation and mode confusion. *)
From Verif Require Import Base Hybrid HybridNF HybridSpec HybridProofs.
Local Opaque zeros slice copy pad.

Lemma Some_inj {A} (a b : A) : Some a = Some b -> a = b.
Proof. intros H; now injection H. Qed.

(** *** keys produced by keypair_seed *)
Lemma keypair_seed_success P pk0 sk0 seed pk sk :
  comps_fit P -> zlen pk0 = 1408 -> zlen sk0 = 4064 -> zlen seed = 160 ->
  keypair_seed P (Some pk0) (Some sk0) (Some seed) = Ret (0, pk, sk) ->
  exists edpk edsk dilpk dilsk spxpk spxsk,
    ed_keypair P (slice seed 0 32) = (0, edpk, edsk) /\
    dil_keypair P (slice seed 32 32) = (0, dilpk, dilsk) /\
    spx_keypair P (slice seed 64 96) = (0, spxpk, spxsk) /\
    pk = Some (pk_layout edpk dilpk spxpk) /\ sk = Some (sk_layout edsk dilsk dilpk spxsk) /\
    zlen edpk = 32 /\ zlen edsk = 64 /\ zlen dilpk = 1312 /\ zlen dilsk = 2560 /\
    zlen spxpk = 64 /\ zlen spxsk = 128.
Proof.
  intros F Hp Hs Hse H. rewrite keypair_seed_nf_ok in H; [|lia..|now apply fit_keypair_sizes].
  unfold keypair_seed_nf in H.
  pose proof (fit_ed_keypair P F (slice seed 0 32) ltac:(zl)) as S1.
  pose proof (fit_dil_keypair P F (slice seed 32 32) ltac:(zl)) as S2.
  pose proof (fit_spx_keypair P F (slice seed 64 96) ltac:(zl)) as S3.
  destruct (ed_keypair P (slice seed 0 32)) as [[r1 pk1] sk1].
  destruct (dil_keypair P (slice seed 32 32)) as [[r2 pk2] sk2].
  destruct (spx_keypair P (slice seed 64 96)) as [[r3 pk3] sk3].
  destruct (Z.eqb_spec r1 0) as [->|]; cbn [negb] in H; [|discriminate].
  destruct (Z.eqb_spec r2 0) as [->|]; cbn [negb] in H; [|discriminate].
  destruct (Z.eqb_spec r3 0) as [->|]; cbn [negb] in H; [|discriminate].
  apply Ret3_inj in H. destruct H as (_ & <- & <-).
  exists pk1, sk1, pk2, sk2, pk3, sk3. unfold pk_layout, sk_layout.
  rewrite Hp, Hs. rewrite !(slice_neg _ _ (_ - _)) by lia. rewrite !app_nil_r.
  repeat split; tauto.
Qed.

Lemma pk_parts a b c : zlen a = 32 -> zlen b = 1312 -> zlen c = 64 ->
  pk_ed (pk_layout a b c) = a /\ pk_dil (pk_layout a b c) = b /\ pk_spx (pk_layout a b c) = c
  /\ zlen (pk_layout a b c) = 1408.
Proof.
  intros Ha Hb Hc. unfold pk_ed, pk_dil, pk_spx, pk_layout. repeat split.
  - apply (slice_mid [] a); zl.
  - apply slice_mid; zl.
  - rewrite <- (app_nil_r c) at 1. rewrite (app_assoc a b). apply slice_mid; zl.
  - zl.
Qed.
Lemma sk_parts a b c d : zlen a = 64 -> zlen b = 2560 -> zlen c = 1312 -> zlen d = 128 ->
  sk_ed (sk_layout a b c d) = a /\ sk_dil (sk_layout a b c d) = b /\ sk_spx (sk_layout a b c d) = d
  /\ sk_spxpk (sk_layout a b c d) = slice d 64 64 /\ zlen (sk_layout a b c d) = 4064.
Proof.
  intros Ha Hb Hc Hd. unfold sk_ed, sk_dil, sk_spx, sk_spxpk, sk_layout. repeat split.
  - apply (slice_mid [] a); zl.
  - apply slice_mid; zl.
  - rewrite <- (app_nil_r d) at 1. rewrite (app_assoc b c), (app_assoc a). apply slice_mid; zl.
  - rewrite (app_assoc b c), (app_assoc a). rewrite slice_app_r by zl. f_equal. zl.
  - zl.
Qed.

Lemma tail_from_full n (b : list Z) : zlen b = n -> tail_from n b = [].
Proof. intros H. unfold tail_from. apply slice_neg; lia. Qed.

(** *** round trips (C03, C04) *)
Lemma full_roundtrip P rb seed pk0 sk0 pk sk sm0 l0 m sm' smlen :
  comps_fit P -> comps_faithful P -> comps_complete P ->
  zlen pk0 = 1408 -> zlen sk0 = 4064 -> zlen seed = 160 -> 52342 + zlen m <= zlen sm0 ->
  keypair_seed P (Some pk0) (Some sk0) (Some seed) = Ret (0, Some pk, Some sk) ->
  sign_full P rb (Some sm0) (Some l0) (Some m) (zlen m) (Some sk) = Ret (0, Some sm', Some smlen) ->
  (forall m0 l1, 64 <= zlen m0 ->
     open_full P (Some m0) (Some l1) (Some sm') smlen (Some pk)
     = Ret (0, Some (m ++ tail_from (zlen m) m0), Some (zlen m))) /\
  verify_full P (Some m) (zlen m) (Some sm') smlen (Some pk) = Ret 0.
Proof.
  intros F C K Hp Hs Hse Hsm Hk Hsign.
  apply keypair_seed_success in Hk; try assumption.
  destruct Hk as (edpk & edsk & dilpk & dilsk & spxpk & spxsk & G1 & G2 & G3 & Epk & Esk & L1 & L2 & L3 & L4 & L5 & L6).
  apply Some_inj in Epk. apply Some_inj in Esk. subst pk sk.
  destruct (pk_parts edpk dilpk spxpk L1 L3 L5) as (A1 & A2 & A3 & A4).
  destruct (sk_parts edsk dilsk dilpk spxsk L2 L4 L3 L6) as (B1 & B2 & B3 & B4 & B5).
  pose proof (zlen_nonneg m) as Hnn.
  apply sign_full_success in Hsign; try assumption; try lia.
  destruct Hsign as (e & d & s & Hsg). cbn zeta in Hsg. rewrite (slice_all m) in Hsg by lia.
  destruct Hsg as (Hml & S1 & S2 & S3 & Le & Ld & Ls & Esm & El).
  apply Some_inj in Esm. apply Some_inj in El. subst sm' smlen.
  rewrite B1 in S1. rewrite B2 in S2. rewrite B3 in S3.
  pose proof (cmp_ed P K (slice seed 0 32) m ltac:(zl) Hml) as V1. rewrite G1, S1 in V1.
  pose proof (cmp_dil P K (slice seed 32 32) m ltac:(zl) Hml) as V2. rewrite G2, S2 in V2.
  pose proof (cmp_spx P K (slice seed 64 96) rb m ltac:(zl) Hml) as V3. rewrite G3, S3 in V3.
  cbn [code obytes] in V1, V2, V3.
  set (pk := pk_layout edpk dilpk spxpk) in *.
  set (sm := full_layout e m d s ++ tail_from (52342 + zlen m) sm0).
  assert (Hopen: forall m0 l1, 64 <= zlen m0 ->
     open_full P (Some m0) (Some l1) (Some sm) (52342 + zlen m) (Some pk)
     = Ret (0, Some (m ++ tail_from (zlen m) m0), Some (zlen m))).
  { intros m0 l1 Hm0.
    destruct (full_layout_slices e m d s (tail_from (52342 + zlen m) sm0) Le Ld Ls) as (_ & _ & _ & _ & _ & Lsm).
    fold sm in Lsm. pose proof (zlen_nonneg (tail_from (52342 + zlen m) sm0)).
    apply open_full_iff; try assumption; [lia|].
    exists e, m, d, s. rewrite A1, A2, A3.
    assert (zlen (full_layout e m d s) = 52342 + zlen m) by (unfold full_layout; zl).
    unfold sm. rewrite slice_app_l, slice_all by lia.
    unfold ed_valid. repeat split; auto; lia. }
  split; [exact Hopen|].
  destruct (full_layout_slices e m d s (tail_from (52342 + zlen m) sm0) Le Ld Ls) as (_ & _ & _ & _ & _ & Lsm).
  fold sm in Lsm. pose proof (zlen_nonneg (tail_from (52342 + zlen m) sm0)).
  destruct (verify_full_iff P m (zlen m) sm (52342 + zlen m) pk F C) as (r & Hr & _ & Hiff); try lia.
  rewrite Hr. f_equal. apply Hiff. eexists. split.
  - apply Hopen. rewrite zlen_zeros; lia.
  - rewrite slice_app_l by lia. reflexivity.
Qed.

Lemma compact_roundtrip P rb seed pk0 sk0 pk sk sm0 l0 m sm' smlen :
  comps_fit P -> comps_faithful P -> comps_complete P ->
  zlen pk0 = 1408 -> zlen sk0 = 4064 -> zlen seed = 160 -> 2526 + zlen m <= zlen sm0 ->
  zlen (snd (rb 40)) = 40 ->
  keypair_seed P (Some pk0) (Some sk0) (Some seed) = Ret (0, Some pk, Some sk) ->
  sign_compact P rb (Some sm0) (Some l0) (Some m) (zlen m) (Some sk) = Ret (0, Some sm', Some smlen) ->
  (forall m0 l1, 64 <= zlen m0 ->
     open_compact P (Some m0) (Some l1) (Some sm') smlen (Some pk)
     = Ret (0, Some (m ++ tail_from (zlen m) m0), Some (zlen m))) /\
  verify_compact P (Some m) (zlen m) (Some sm') smlen (Some pk) = Ret 0.
Proof.
  intros F C K Hp Hs Hse Hsm Hrb Hk Hsign.
  apply keypair_seed_success in Hk; try assumption.
  destruct Hk as (edpk & edsk & dilpk & dilsk & spxpk & spxsk & G1 & G2 & G3 & Epk & Esk & L1 & L2 & L3 & L4 & L5 & L6).
  apply Some_inj in Epk. apply Some_inj in Esk. subst pk sk.
  destruct (pk_parts edpk dilpk spxpk L1 L3 L5) as (A1 & A2 & A3 & A4).
  destruct (sk_parts edsk dilsk dilpk spxsk L2 L4 L3 L6) as (B1 & B2 & B3 & B4 & B5).
  pose proof (zlen_nonneg m) as Hnn.
  apply sign_compact_success in Hsign; try assumption; try lia.
  destruct Hsign as (e & d & Hsg). cbn zeta in Hsg. rewrite (slice_all m) in Hsg by lia.
  destruct Hsg as (Hml & _ & S1 & S2 & Le & Ld & Esm & El).
  apply Some_inj in Esm. apply Some_inj in El. subst sm' smlen.
  rewrite B1, B4 in S1. rewrite B2, B4 in S2.
  pose proof (cmp_spx_pk P K (slice seed 64 96) ltac:(zl)) as Epk. rewrite G3 in Epk. rewrite (Epk eq_refl) in S1, S2.
  set (nonce := snd (rb 40)) in *.
  set (h := sha3_512 P (compact_hash_input nonce m spxpk)) in *.
  assert (Lh: zlen h = 64) by apply F.
  pose proof (cmp_ed P K (slice seed 0 32) h ltac:(zl) ltac:(lia)) as V1. rewrite G1, S1 in V1.
  pose proof (cmp_dil P K (slice seed 32 32) h ltac:(zl) ltac:(lia)) as V2. rewrite G2, S2 in V2.
  cbn [code obytes] in V1, V2.
  set (pk := pk_layout edpk dilpk spxpk) in *.
  set (sm := compact_layout e d nonce m ++ tail_from (2526 + zlen m) sm0).
  assert (Lsm: 2526 + zlen m <= zlen sm).
  { destruct (compact_layout_slices e d nonce m (tail_from (2526 + zlen m) sm0) Le Ld Hrb) as (_ & _ & _ & _ & _ & _ & Lsm).
    fold sm in Lsm. pose proof (zlen_nonneg (tail_from (2526 + zlen m) sm0)). lia. }
  assert (Hopen: forall m0 l1, 64 <= zlen m0 ->
     open_compact P (Some m0) (Some l1) (Some sm) (2526 + zlen m) (Some pk)
     = Ret (0, Some (m ++ tail_from (zlen m) m0), Some (zlen m))).
  { intros m0 l1 Hm0.
    apply open_compact_iff; try assumption.
    exists e, d, nonce, m. cbn zeta. rewrite A1, A2, A3. fold h.
    assert (zlen (compact_layout e d nonce m) = 2526 + zlen m) by (unfold compact_layout; zl).
    unfold sm. rewrite slice_app_l, slice_all by lia.
    unfold ed_valid. repeat split; auto; lia. }
  split; [exact Hopen|].
  destruct (verify_compact_iff P m (zlen m) sm (2526 + zlen m) pk F C) as (r & Hr & _ & Hiff); try lia.
  rewrite Hr. f_equal. apply Hiff. eexists. split.
  - apply Hopen. rewrite zlen_zeros; lia.
  - rewrite slice_app_l by lia. reflexivity.
Qed.

(** Signing succeeds whenever the components succeed. *)
Lemma sign_full_runs P rb sm0 l mb mlen skb :
  comps_fit P -> comps_faithful P ->
  52342 + mlen <= zlen sm0 -> 1 <= mlen <= 64 -> mlen <= zlen mb -> zlen skb = 4064 ->
  code (ed_sign P (slice mb 0 mlen) (sk_ed skb)) = 0 ->
  code (dil_sign P (slice mb 0 mlen) (sk_dil skb)) = 0 ->
  code (spx_sign P rb (slice mb 0 mlen) (sk_spx skb)) = 0 ->
  exists sm' l', sign_full P rb (Some sm0) (Some l) (Some mb) mlen (Some skb) = Ret (0, Some sm', Some l').
Proof.
  intros F C Hsm Hml Hm Hsk K1 K2 K3.
  rewrite sign_full_nf_ok; try lia; try apply F. unfold sign_full_nf.
  replace ((mlen <=? 0) || (64 <? mlen))%bool with false by lia.
  fold (sk_ed skb) (sk_dil skb) (sk_spx skb).
  assert (Lm: zlen (slice mb 0 mlen) = mlen) by zl.
  destruct (ok_ed_sign P C (slice mb 0 mlen) (sk_ed skb) ltac:(lia) ltac:(unfold sk_ed; zl) K1) as (O1 & _).
  destruct (ok_dil_sign P C (slice mb 0 mlen) (sk_dil skb) ltac:(lia) ltac:(unfold sk_dil; zl) K2) as (O2 & _).
  destruct (ok_spx_sign P C rb (slice mb 0 mlen) (sk_spx skb) ltac:(lia) ltac:(unfold sk_spx; zl) K3) as (O3 & _).
  rewrite K1, K2, K3, O1, O2, O3, Lm, !Z.eqb_refl. cbn [Z.eqb negb].
  eexists _, _. reflexivity.
Qed.

Lemma sign_compact_runs P rb sm0 l mb mlen skb :
  comps_fit P -> comps_faithful P ->
  2526 + mlen <= zlen sm0 -> 1 <= mlen <= 64 -> mlen <= zlen mb -> zlen skb = 4064 ->
  zlen (snd (rb 40)) = 40 -> fst (rb 40) = 0 ->
  let h := sha3_512 P (compact_hash_input (snd (rb 40)) (slice mb 0 mlen) (sk_spxpk skb)) in
  code (ed_sign P h (sk_ed skb)) = 0 -> code (dil_sign P h (sk_dil skb)) = 0 ->
  exists sm' l', sign_compact P rb (Some sm0) (Some l) (Some mb) mlen (Some skb) = Ret (0, Some sm', Some l').
Proof.
  intros F C Hsm Hml Hm Hsk Hrb Hr h0 K1 K2.
  rewrite sign_compact_nf_ok; try lia; try apply F. unfold sign_compact_nf.
  replace ((mlen <=? 0) || (64 <? mlen))%bool with false by lia.
  fold (sk_ed skb) (sk_dil skb) (sk_spx skb).
  destruct (rb 40) as [r nn]. cbn [fst snd] in *. subst r. cbn [Z.eqb negb].
  unfold compact_hash_input, sk_spxpk in h0. fold h0. assert (Lh: zlen h0 = 64) by apply F.
  destruct (ok_ed_sign P C h0 (sk_ed skb) ltac:(lia) ltac:(unfold sk_ed; zl) K1) as (O1 & _).
  destruct (ok_dil_sign P C h0 (sk_dil skb) ltac:(lia) ltac:(unfold sk_dil; zl) K2) as (O2 & _).
  rewrite K1, K2, O1, O2, Lh. cbn [Z.eqb Z.add negb Pos.eqb Pos.add]. 
  eexists _, _. reflexivity.
Qed.

(** *** malformed inputs (C10): exact code, for every content, no hypothesis on the
    component schemes beyond writing inside their arrays *)
Lemma open_full_malformed P m0 l smb smlen pkb :
  comps_fit P -> 64 <= zlen m0 -> 0 <= smlen <= zlen smb -> 1408 <= zlen pkb ->
  let open := open_full P (Some m0) (Some l) (Some smb) smlen (Some pkb) in
  let fails c := open = Ret (c, Some m0, Some l) in
  let id := nth 0 smb 0 in let n := nth 1 smb 0 in
  (smlen < 52343 \/ 52406 < smlen -> fails (-1)) /\
  (52343 <= smlen <= 52406 -> id <> 2 -> fails (-2)) /\
  (52343 <= smlen <= 52406 -> id = 2 -> ~ 1 <= n <= 64 -> fails (-3)) /\
  (52343 <= smlen <= 52406 -> id = 2 -> 1 <= n <= 64 -> smlen <> 52342 + n -> fails (-4)) /\
  (exists c m' l', open = Ret (c, m', l') /\ -8 <= c <= 0).
Proof.
  intros F Hm Hs Hp open fails id n.
  assert (E: open = open_full_nf P m0 smb pkb l smlen).
  { unfold open. apply open_full_nf_ok; try lia. apply F. }
  unfold fails. rewrite E. unfold open_full_nf. fold id n.
  repeat split.
  - intros H. now replace ((smlen <? 52343) || (52406 <? smlen))%bool with true by lia.
  - intros H1 H2. replace ((smlen <? 52343) || (52406 <? smlen))%bool with false by lia.
    now replace (id =? 2) with false by lia.
  - intros H1 H2 H3. replace ((smlen <? 52343) || (52406 <? smlen))%bool with false by lia.
    replace (id =? 2) with true by lia. cbn [negb].
    now replace ((n <=? 0) || (64 <? n))%bool with true by lia.
  - intros H1 H2 H3 H4. replace ((smlen <? 52343) || (52406 <? smlen))%bool with false by lia.
    replace (id =? 2) with true by lia. cbn [negb].
    replace ((n <=? 0) || (64 <? n))%bool with false by lia.
    now replace (smlen =? 52342 + n) with false by lia.
  - repeat match goal with |- context [if ?b then _ else _] => destruct b end;
      eexists _, _, _; (split; [reflexivity|lia]).
Qed.

Lemma open_compact_malformed P m0 l smb smlen pkb :
  comps_fit P -> 64 <= zlen m0 -> 0 <= smlen <= zlen smb -> 1408 <= zlen pkb ->
  let open := open_compact P (Some m0) (Some l) (Some smb) smlen (Some pkb) in
  let fails c := open = Ret (c, Some m0, Some l) in
  let id := nth 0 smb 0 in let n := nth 1 smb 0 in
  (smlen < 2527 \/ 2590 < smlen -> fails (-1)) /\
  (2527 <= smlen <= 2590 -> id <> 1 -> fails (-2)) /\
  (2527 <= smlen <= 2590 -> id = 1 -> ~ 1 <= n <= 64 -> fails (-3)) /\
  (2527 <= smlen <= 2590 -> id = 1 -> 1 <= n <= 64 -> smlen <> 2526 + n -> fails (-4)) /\
  (exists c m' l', open = Ret (c, m', l') /\ -8 <= c <= 0).
Proof.
  intros F Hm Hs Hp open fails id n.
  assert (E: open = open_compact_nf P m0 smb pkb l smlen).
  { unfold open. apply open_compact_nf_ok; try lia; apply F. }
  unfold fails. rewrite E. unfold open_compact_nf. fold id n.
  repeat split.
  - intros H. now replace ((smlen <? 2527) || (2590 <? smlen))%bool with true by lia.
  - intros H1 H2. replace ((smlen <? 2527) || (2590 <? smlen))%bool with false by lia.
    now replace (id =? 1) with false by lia.
  - intros H1 H2 H3. replace ((smlen <? 2527) || (2590 <? smlen))%bool with false by lia.
    replace (id =? 1) with true by lia. cbn [negb].
    now replace ((n <=? 0) || (64 <? n))%bool with true by lia.
  - intros H1 H2 H3 H4. replace ((smlen <? 2527) || (2590 <? smlen))%bool with false by lia.
    replace (id =? 1) with true by lia. cbn [negb].
    replace ((n <=? 0) || (64 <? n))%bool with false by lia.
    now replace (smlen =? 2526 + n) with false by lia.
  - repeat match goal with |- context [if ?b then _ else _] => destruct b end;
      eexists _, _, _; (split; [reflexivity|lia]).
Qed.

Lemma open_full_null P m l sm smlen pk :
  m = None \/ l = None \/ sm = None \/ pk = None -> open_full P m l sm smlen pk = Ret (-1, m, l).
Proof. unfold open_full; intros H; destruct m; [|reflexivity]; destruct l; [|reflexivity]; destruct sm; [|reflexivity]; destruct pk; [|reflexivity]; exfalso; intuition discriminate. Qed.
Lemma open_compact_null P m l sm smlen pk :
  m = None \/ l = None \/ sm = None \/ pk = None -> open_compact P m l sm smlen pk = Ret (-1, m, l).
Proof. unfold open_compact; intros H; destruct m; [|reflexivity]; destruct l; [|reflexivity]; destruct sm; [|reflexivity]; destruct pk; [|reflexivity]; exfalso; intuition discriminate. Qed.

(** *** argument checking of sign and verify (C12); no hypothesis at all *)
Lemma sign_full_args P rb sm l m mlen sk :
  sm = None \/ l = None \/ m = None \/ sk = None \/ mlen <= 0 \/ 64 < mlen ->
  sign_full P rb sm l m mlen sk = Ret (-1, sm, l).
Proof.
  unfold sign_full; intros H. destruct sm; [|reflexivity]; destruct l; [|reflexivity]; destruct m; [|reflexivity]; destruct sk; [|reflexivity].
  hconst. replace ((mlen <=? 0) || (64 <? mlen))%bool with true; [reflexivity|].
  intuition (discriminate || lia).
Qed.
Lemma sign_compact_args P rb sm l m mlen sk :
  sm = None \/ l = None \/ m = None \/ sk = None \/ mlen <= 0 \/ 64 < mlen ->
  sign_compact P rb sm l m mlen sk = Ret (-1, sm, l).
Proof.
  unfold sign_compact; intros H. destruct sm; [|reflexivity]; destruct l; [|reflexivity]; destruct m; [|reflexivity]; destruct sk; [|reflexivity].
  hconst. replace ((mlen <=? 0) || (64 <? mlen))%bool with true; [reflexivity|].
  intuition (discriminate || lia).
Qed.
Lemma verify_full_args P m mlen sm smlen pk :
  m = None \/ sm = None \/ pk = None \/ mlen <= 0 \/ 64 < mlen -> verify_full P m mlen sm smlen pk = Ret (-1).
Proof.
  unfold verify_full; intros H. destruct sm; destruct m; destruct pk; try reflexivity.
  hconst. replace ((mlen <=? 0) || (64 <? mlen))%bool with true; [reflexivity|].
  intuition (discriminate || lia).
Qed.
Lemma verify_compact_args P m mlen sm smlen pk :
  m = None \/ sm = None \/ pk = None \/ mlen <= 0 \/ 64 < mlen -> verify_compact P m mlen sm smlen pk = Ret (-1).
Proof.
  unfold verify_compact; intros H. destruct sm; destruct m; destruct pk; try reflexivity.
  hconst. replace ((mlen <=? 0) || (64 <? mlen))%bool with true; [reflexivity|].
  intuition (discriminate || lia).
Qed.
Lemma verify_dilithium_args P m mlen sm smlen pk :
  m = None \/ sm = None \/ pk = None \/ mlen <= 0 \/ 64 < mlen -> verify_dilithium P m mlen sm smlen pk = Ret (-1).
Proof.
  unfold verify_dilithium; intros H. destruct sm; destruct m; destruct pk; try reflexivity.
  hconst. replace ((mlen <=? 0) || (64 <? mlen))%bool with true; [reflexivity|].
  intuition (discriminate || lia).
Qed.
Lemma verify_dilithium_iff P mb mlen smb smlen pkb :
  0 <= mlen <= zlen mb -> 0 <= smlen <= zlen smb -> 1312 <= zlen pkb ->
  exists r, verify_dilithium P (Some mb) mlen (Some smb) smlen (Some pkb) = Ret r /\ -2 <= r <= 0 /\
  (r = 0 <-> 1 <= mlen <= 64 /\ smlen = 2420 /\
             dil_verify P (slice smb 0 2420) (slice mb 0 mlen) (slice pkb 0 1312) = 0).
Proof.
  intros Hm Hs Hp. unfold verify_dilithium. hconst.
  destruct ((mlen <=? 0) || (64 <? mlen))%bool eqn:E1.
  { exists (-1). repeat split; try lia. }
  destruct (Z.eqb_spec smlen 2420) as [->|E2]; cbn [negb].
  2:{ exists (-2). repeat split; try lia. }
  rewrite !rdrange_ok by lia. cbn [bind].
  destruct (Z.eqb_spec (dil_verify P (slice smb 0 2420) (slice mb 0 mlen) (slice pkb 0 1312)) 0) as [E|E]; cbn [negb].
  - exists 0. repeat split; try lia.
  - exists (-2). repeat split; try lia.
Qed.

(** *** entropy failure (C13) *)
Lemma keypair_entropy P rb pk sk : fst (rb 160) <> 0 -> keypair P rb pk sk = Ret (-1, pk, sk).
Proof.
  intros H. unfold keypair. destruct pk; [|reflexivity]. destruct sk; [|reflexivity].
  destruct (rb 160) as [r s]. cbn [fst] in H. now replace (r =? 0) with false by lia.
Qed.
Lemma sign_compact_entropy P rb smb l mb mlen skb :
  comps_fit P -> 2526 + mlen <= zlen smb -> mlen <= zlen mb -> 4064 <= zlen skb ->
  zlen (snd (rb 40)) = 40 -> fst (rb 40) <> 0 ->
  sign_compact P rb (Some smb) (Some l) (Some mb) mlen (Some skb) = Ret (-1, Some smb, Some l).
Proof.
  intros F Hsm Hm Hsk Hrb Hr. rewrite sign_compact_nf_ok; try lia; try apply F. unfold sign_compact_nf.
  destruct ((mlen <=? 0) || (64 <? mlen))%bool; [reflexivity|].
  destruct (rb 40) as [r s]. cbn [fst snd] in *. now replace (r =? 0) with false by lia.
Qed.
Lemma sign_full_entropy P rb smb l mb mlen skb :
  comps_fit P -> 52342 + mlen <= zlen smb -> mlen <= zlen mb -> 4064 <= zlen skb ->
  (* the SPHINCS+ component reports the failed random source *)
  (forall m k, code (spx_sign P rb m k) <> 0) ->
  exists c, c < 0 /\
  sign_full P rb (Some smb) (Some l) (Some mb) mlen (Some skb) = Ret (c, Some smb, Some l).
Proof.
  intros F Hsm Hm Hsk Hr. rewrite sign_full_nf_ok; try lia; try apply F. unfold sign_full_nf.
  destruct ((mlen <=? 0) || (64 <? mlen))%bool; [exists (-1); split; [lia|reflexivity]|].
  destruct (negb (code (ed_sign P _ _) =? 0)); [exists (-2); split; [lia|reflexivity]|].
  destruct (negb (code (dil_sign P _ _) =? 0)); [exists (-3); split; [lia|reflexivity]|].
  exists (-4); split; [lia|].
  now rewrite (proj2 (Z.eqb_neq _ _) (Hr _ _)).
Qed.

(** *** mode separation (C14), for arbitrary and possibly different components *)
Lemma modes_disjoint P1 P2 m1 l1 m2 l2 sm smlen pk1 pk2 a b c d :
  open_full P1 m1 l1 sm smlen pk1 = Ret (0, a, b) ->
  open_compact P2 m2 l2 sm smlen pk2 = Ret (0, c, d) -> False.
Proof.
  intros H1 H2. unfold open_full in H1. unfold open_compact in H2.
  destruct m1, l1, sm, pk1; try discriminate H1. destruct m2, l2, pk2; try discriminate H2.
  hconst.
  destruct (_ || _)%bool eqn:E1 in H1; [discriminate|].
  destruct (_ || _)%bool eqn:E2 in H2; [discriminate|]. lia.
Qed.

(** *** mode confusion (C15) *)
(** What an attacker does with a full-mode signed message whose embedded 64-byte
    message is SHA3-512(nonce | m' | sphincs pk): reassemble a compact one. *)
Definition repackage (full_sm nonce msg' : list Z) : list Z :=
  compact_layout (slice full_sm 2 64) (slice full_sm 130 2420) nonce msg'.

Lemma mode_confusion P rb seed pk0 sk0 pk sk sm0 l0 nonce msg' sm' smlen :
  comps_fit P -> comps_faithful P -> comps_complete P ->
  zlen pk0 = 1408 -> zlen sk0 = 4064 -> zlen seed = 160 ->
  zlen nonce = 40 -> 1 <= zlen msg' <= 64 -> 52406 <= zlen sm0 ->
  keypair_seed P (Some pk0) (Some sk0) (Some seed) = Ret (0, Some pk, Some sk) ->
  let M := sha3_512 P (compact_hash_input nonce msg' (pk_spx pk)) in
  sign_full P rb (Some sm0) (Some l0) (Some M) 64 (Some sk) = Ret (0, Some sm', Some smlen) ->
  forall m0 l1, 64 <= zlen m0 ->
  open_compact P (Some m0) (Some l1) (Some (repackage sm' nonce msg')) (2526 + zlen msg') (Some pk)
  = Ret (0, Some (msg' ++ tail_from (zlen msg') m0), Some (zlen msg')).
Proof.
  intros F C K Hp Hs Hse Hn Hm' Hsm Hk M Hsign m0 l1 Hm0.
  apply keypair_seed_success in Hk; try assumption.
  destruct Hk as (edpk & edsk & dilpk & dilsk & spxpk & spxsk & G1 & G2 & G3 & Epk & Esk & L1 & L2 & L3 & L4 & L5 & L6).
  apply Some_inj in Epk. apply Some_inj in Esk. subst pk sk.
  destruct (pk_parts edpk dilpk spxpk L1 L3 L5) as (A1 & A2 & A3 & A4).
  destruct (sk_parts edsk dilsk dilpk spxsk L2 L4 L3 L6) as (B1 & B2 & B3 & B4 & B5).
  assert (LM: zlen M = 64) by apply F.
  apply sign_full_success in Hsign; try assumption; try lia.
  destruct Hsign as (e & d & s & Hsg). cbn zeta in Hsg. rewrite (slice_all M) in Hsg by lia.
  destruct Hsg as (_ & S1 & S2 & _ & Le & Ld & Ls & Esm & El).
  apply Some_inj in Esm. apply Some_inj in El. subst sm' smlen.
  rewrite B1 in S1. rewrite B2 in S2.
  pose proof (cmp_ed P K (slice seed 0 32) M ltac:(zl) ltac:(lia)) as V1. rewrite G1, S1 in V1.
  pose proof (cmp_dil P K (slice seed 32 32) M ltac:(zl) ltac:(lia)) as V2. rewrite G2, S2 in V2.
  cbn [code obytes] in V1, V2.
  set (pk := pk_layout edpk dilpk spxpk) in *.
  destruct (full_layout_slices e M d s (tail_from (52342 + 64) sm0) Le Ld Ls) as (_ & _ & Q1 & Q2 & _).
  rewrite LM in Q1, Q2. change (66 + 64) with 130 in Q2. change (64 + 64) with 128 in Q1.
  set (sm := full_layout e M d s ++ tail_from (52342 + 64) sm0) in *.
  assert (Qe: slice sm 2 64 = e).
  { rewrite (slice_split sm 2 128 64) in Q1 by lia.
    assert (Lq: zlen (slice sm 2 64) = 64).
    { rewrite zlen_slice; try lia. unfold sm. rewrite zlen_app. unfold full_layout.
      pose proof (zlen_nonneg (tail_from (52342 + 64) sm0)). zl. }
    apply (f_equal (fun x => slice x 0 64)) in Q1.
    rewrite !slice_app_l, !slice_all in Q1 by lia. exact Q1. }
  unfold repackage. rewrite Qe, Q2.
  assert (Lc: zlen (compact_layout e d nonce msg') = 2526 + zlen msg') by (unfold compact_layout; zl).
  apply open_compact_iff; try assumption; [lia|].
  exists e, d, nonce, msg'. cbn zeta. rewrite A1, A2. fold M.
  rewrite slice_all by lia. unfold ed_valid. repeat split; auto; lia.
Qed.

(** *** injectivity (C17, C18) *)
Lemma app_inj_len {A} (a b c d : list A) : zlen a = zlen c -> a ++ b = c ++ d -> a = c /\ b = d.
Proof.
  unfold zlen. revert c; induction a as [|x a IH]; intros [|y c] HL H; cbn in *; try lia; auto.
  injection H as -> H. destruct (IH c ltac:(lia) H) as [-> ->]. auto.
Qed.
Lemma app_inj_len_r {A} (a b c d : list A) : zlen b = zlen d -> a ++ b = c ++ d -> a = c /\ b = d.
Proof.
  intros HL H. apply app_inj_len; [|exact H].
  apply (f_equal zlen) in H. rewrite !zlen_app in H. lia.
Qed.
Lemma compact_hash_input_inj n1 m1 k1 n2 m2 k2 :
  zlen n1 = 40 -> zlen n2 = 40 -> zlen k1 = 64 -> zlen k2 = 64 ->
  compact_hash_input n1 m1 k1 = compact_hash_input n2 m2 k2 -> n1 = n2 /\ m1 = m2 /\ k1 = k2.
Proof.
  intros H1 H2 H3 H4 H. unfold compact_hash_input in H.
  apply app_inj_len in H; [|lia]. destruct H as [-> H].
  apply app_inj_len_r in H; [|lia]. destruct H as [-> ->]. auto.
Qed.
Lemma full_layout_inj e1 m1 d1 s1 e2 m2 d2 s2 :
  zlen e1 = 64 -> zlen e2 = 64 -> zlen d1 = 2420 -> zlen d2 = 2420 ->
  full_layout e1 m1 d1 s1 = full_layout e2 m2 d2 s2 -> e1 = e2 /\ m1 = m2 /\ d1 = d2 /\ s1 = s2.
Proof.
  intros H1 H2 H3 H4 H. unfold full_layout in H. cbn [app] in H. injection H as Hm H.
  apply app_inj_len in H; [|lia]. destruct H as [-> H].
  apply app_inj_len in H; [|lia]. destruct H as [-> H].
  apply app_inj_len in H; [|lia]. destruct H as [-> ->]. auto.
Qed.
Lemma compact_layout_inj e1 d1 n1 m1 e2 d2 n2 m2 :
  zlen e1 = 64 -> zlen e2 = 64 -> zlen d1 = 2420 -> zlen d2 = 2420 -> zlen n1 = 40 -> zlen n2 = 40 ->
  compact_layout e1 d1 n1 m1 = compact_layout e2 d2 n2 m2 -> e1 = e2 /\ d1 = d2 /\ n1 = n2 /\ m1 = m2.
Proof.
  intros H1 H2 H3 H4 H5 H6 H. unfold compact_layout in H. cbn [app] in H. injection H as Hm H.
  apply app_inj_len in H; [|lia]. destruct H as [-> H].
  apply app_inj_len in H; [|lia]. destruct H as [-> H].
  apply app_inj_len in H; [|lia]. destruct H as [-> ->]. auto.
Qed.

(** *** no undefined behaviour (C16) *)
Lemma keypair_seed_safe P pk sk seed :
  comps_fit P -> 1408 <= zlen pk -> 4064 <= zlen sk -> 160 <= zlen seed ->
  keypair_seed P (Some pk) (Some sk) (Some seed) <> Undef.
Proof.
  intros F H1 H2 H3. rewrite keypair_seed_nf_ok; try assumption; [|now apply fit_keypair_sizes].
  unfold keypair_seed_nf. destruct (ed_keypair P _) as [[? ?] ?]. destruct (dil_keypair P _) as [[? ?] ?].
  destruct (spx_keypair P _) as [[? ?] ?].
  repeat match goal with |- context [if ?b then _ else _] => destruct b end; discriminate.
Qed.
Lemma sign_full_safe P rb sm l m mlen sk :
  comps_fit P -> 52342 + mlen <= zlen sm -> mlen <= zlen m -> 4064 <= zlen sk ->
  sign_full P rb (Some sm) l (Some m) mlen (Some sk) <> Undef.
Proof.
  intros F H1 H2 H3. destruct l as [l|]; [|discriminate].
  rewrite sign_full_nf_ok; try assumption; try apply F. unfold sign_full_nf.
  repeat match goal with |- context [if ?b then _ else _] => destruct b end; discriminate.
Qed.
Lemma sign_compact_safe P rb sm l m mlen sk :
  comps_fit P -> 2526 + mlen <= zlen sm -> mlen <= zlen m -> 4064 <= zlen sk -> zlen (snd (rb 40)) = 40 ->
  sign_compact P rb (Some sm) l (Some m) mlen (Some sk) <> Undef.
Proof.
  intros F H1 H2 H3 H4. destruct l as [l|]; [|discriminate].
  rewrite sign_compact_nf_ok; try assumption; try apply F. unfold sign_compact_nf.
  destruct (rb 40).
  repeat match goal with |- context [if ?b then _ else _] => destruct b end; discriminate.
Qed.

(** *** the seed expander ignores half of the first 64 seed bytes (C02) *)
Lemma expander_ignores_odd E s1 s2 out :
  zlen s1 = 96 -> zlen s2 = 96 -> 160 <= zlen out ->
  (forall s o, zlen o = 128 -> zlen (snd (E s 64 o 128)) = 128) ->
  (forall i, (i < 64)%nat -> Nat.even i = true -> nth i s1 0 = nth i s2 0) ->
  slice s1 64 32 = slice s2 64 32 ->
  keypair_seed_expander E (Some s1) (Some out) = keypair_seed_expander E (Some s2) (Some out).
Proof.
  intros H1 H2 Ho HE Hev Hs. rewrite !expander_char by assumption.
  rewrite (even_only_ext s1 s2 Hev), Hs. reflexivity.
Qed.
Definition coll_seed (b : Z) : list Z := 0 :: b :: repeat 0 94.
Lemma expander_collision :
  exists s1 s2, zlen s1 = 96 /\ zlen s2 = 96 /\ bytes_ok s1 /\ bytes_ok s2 /\ s1 <> s2 /\
  forall E out, 160 <= zlen out -> (forall s o, zlen o = 128 -> zlen (snd (E s 64 o 128)) = 128) ->
  keypair_seed_expander E (Some s1) (Some out) = keypair_seed_expander E (Some s2) (Some out).
Proof.
  exists (coll_seed 0), (coll_seed 255).
  split; [reflexivity|]. split; [reflexivity|]. split; [|split; [|split]].
  - unfold bytes_ok, coll_seed. repeat constructor; lia.
  - unfold bytes_ok, coll_seed. repeat constructor; lia.
  - discriminate.
  - intros E out Ho HE. apply expander_ignores_odd; try reflexivity; try assumption.
    intros [|[|i]] Hi Hev; try discriminate Hev; reflexivity.
Qed.
Lemma expander_safe E seed out :
  zlen seed = 96 -> 160 <= zlen out ->
  (forall s o, zlen o = 128 -> zlen (snd (E s 64 o 128)) = 128) ->
  keypair_seed_expander E (Some seed) (Some out) <> Undef.
Proof.
  intros H1 H2 H3. rewrite expander_char by assumption.
  destruct (E _ _ _ _) as [r x]. destruct (negb _); discriminate.
Qed.
