(** Verification, key generation and the seed expander of HybridProg.v. *)
From Coq Require Import ZifyBool ZifyNat.
From Verif Require Import Base SpongePure SpongeProofs2 BufLemmas Hybrid HybridSpec HybridBuf Heap HeapProofs EdSig DilSign SpxSpec HybridReal HybridProg HybridProgSpec HybridProgProofs.
From Verif Require DilFips PropsDilithium4 PropsBuf PropsReal PropsHybrid HybridProofs HybridBufProofs DilBufSign SpxHeap PropsHeap PropsSpxBuf HybridRealProofs EdDecode TweetEd DilSignProofs DilReduceProofs.
Import PropsHeap.
Local Open Scope Z_scope.
Ltac Zify.zify_post_hook ::= idtac.
#[local] Opaque Keccak.KeccakF1600_StatePermute zeros slice splice.

Lemma full_valid_len pk sm m : full_valid pk sm m -> zlen sm = 52342 + zlen m.
Proof. intros (Hm & e & d & s & Le & Ld & Ls & -> & _). unfold full_layout. rewrite !zlen_app. change (zlen [2; zlen m]) with 2. lia. Qed.
Lemma compact_valid_len pk sm m : compact_valid pk sm m -> zlen sm = 2526 + zlen m.
Proof. intros (Hm & e & d & s & Le & Ld & Ls & -> & _). unfold compact_layout. rewrite !zlen_app. change (zlen [1; zlen m]) with 2. lia. Qed.

Section Comps2.
Variables loc locw : Z -> list Z.
Hypothesis LOC : PropsSpxBuf.locals loc locw.
Variable fuel : nat.

Lemma verify_full_p_rel mem mo mlen so smlen po : bytes_ok mem -> 0 <= so -> 0 <= smlen -> so + smlen <= zlen mem -> 0 <= mo -> 0 <= mlen -> mo + mlen <= zlen mem -> 0 <= po -> po + 1408 <= zlen mem ->
  let pk := slice mem po 1408 in let sm := slice mem so smlen in let m := slice mem mo mlen in
  exists r, releases (verify_full_p loc locw fuel mem mo mlen so smlen po) r /\
  match r with
  | Some c => (c = 0 /\ full_valid pk sm m) \/ (-4 <= c < 0 /\ ~ full_valid pk sm m)
  | None => exists n, n = nth 1 sm 0 /\ sign_verify fuel (slice sm (66 + n) 2420) 2420 (slice sm 66 n) (pk_dil pk) = Ret None
  end.
Proof.
  intros Bm S1 S0 S2 M1 M0 M2 P1 P2 pk sm m. pose proof (zlen_nonneg mem) as HF. assert (Lsm: zlen sm = smlen) by (apply zlen_slice; lia). assert (Lm: zlen m = mlen) by (apply zlen_slice; lia).
  unfold verify_full_p. destruct ((mlen <=? 0) || (64 <? mlen)) eqn:EB.
  { exists (Some (-1)). split; [apply rel_ret|]. right. split; [lia|]. intros [V _]. lia. }
  cbv zeta. destruct ((smlen <? 52343) || (52406 <? smlen)) eqn:EL.
  { exists (Some (-2)). split; [|right; split; [lia|]; intros V; pose proof (full_valid_len _ _ _ V); destruct V; lia].
    eapply (rel_bind _ (-1, mem ++ zeros 224, 0)); [unfold open_full_p; rewrite EL; apply rel_ret|]. apply rel_ret. }
  assert (LZ: zlen (zeros 224) = 224) by (apply zlen_zeros; lia).
  destruct (open_full_p_rel loc locw LOC fuel (mem ++ zeros 224) (zlen mem) 0 so smlen po) as (r & R & HR); try (rewrite ?zlen_app; lia); [rewrite bytes_ok_app; split; [assumption|apply zeros_bytes]|].
  rewrite !sl_out in HR by lia. fold pk sm in HR. destruct r as [[[c fr] len]|].
  2:{ exists None. split; [now apply rel_none|exact HR]. }
  destruct HR as [(-> & m' & V & -> & ->)|(Hc & -> & -> & NV)].
  2:{ exists (Some (-2)). split; [|right; split; [lia|apply NV]]. eapply rel_bind; [exact R|]. cbv beta iota. rewrite (proj2 (Z.eqb_neq c 0)) by lia. apply rel_ret. }
  assert (HV: 1 <= zlen m' <= 64) by apply V.
  eapply rq_bind; [exact R|]. cbv beta iota. change (negb (0 =? 0)) with false. cbv iota.
  destruct (Z.eqb_spec (zlen m') mlen) as [El|El]; cbn [negb].
  2:{ exists (Some (-3)). split; [apply rel_ret|]. right. split; [lia|]. intros V'. apply full_valid_len in V, V'. lia. }
  rewrite DilReduceProofs.i32_id by lia. replace (splice (mem ++ zeros 224) (zlen mem) m') with (mem ++ splice (zeros 224) 0 m') by (rewrite <- sp_in by lia; f_equal; lia).
  eapply rq_lift. { apply same_from_ok; rewrite ?zlen_app, ?zlen_splice; rewrite ?Z2Nat.id; lia. }
  rewrite Z2Nat.id by lia. rewrite (Z.add_0_r mo). rewrite sl_in by (rewrite ?zlen_splice; lia). rewrite slice_splice by lia. rewrite sl_out by lia. rewrite El. fold m.
  destruct (list_eq_dec Z.eq_dec m' m) as [->|NE].
  - exists (Some 0). split; [apply rel_ret|]. left. auto.
  - exists (Some (-4)). split; [apply rel_ret|]. right. split; [lia|]. intros V'. apply NE. apply full_valid_fields in V, V'. cbv zeta in V, V'.
    destruct V as (_ & _ & _ & _ & <- & _), V' as (_ & _ & _ & _ & <- & _). congruence.
Qed.

Lemma verify_compact_p_rel mem mo mlen so smlen po : bytes_ok mem -> 0 <= so -> 0 <= smlen -> so + smlen <= zlen mem -> 0 <= mo -> 0 <= mlen -> mo + mlen <= zlen mem -> 0 <= po -> po + 1408 <= zlen mem ->
  let pk := slice mem po 1408 in let sm := slice mem so smlen in let m := slice mem mo mlen in
  exists r, releases (verify_compact_p loc fuel mem mo mlen so smlen po) r /\
  match r with
  | Some c => (c = 0 /\ compact_valid pk sm m) \/ (-4 <= c < 0 /\ ~ compact_valid pk sm m)
  | None => exists n, n = nth 1 sm 0 /\ sign_verify fuel (slice sm 66 2420) 2420 (compact_digest (slice sm 2486 40) (slice sm 2526 n) (pk_spx pk)) (pk_dil pk) = Ret None
  end.
Proof.
  intros Bm S1 S0 S2 M1 M0 M2 P1 P2 pk sm m. pose proof (zlen_nonneg mem) as HF. assert (Lsm: zlen sm = smlen) by (apply zlen_slice; lia). assert (Lm: zlen m = mlen) by (apply zlen_slice; lia).
  unfold verify_compact_p. destruct ((mlen <=? 0) || (64 <? mlen)) eqn:EB.
  { exists (Some (-1)). split; [apply rel_ret|]. right. split; [lia|]. intros [V _]. lia. }
  cbv zeta. destruct ((smlen <? 2527) || (2590 <? smlen)) eqn:EL.
  { exists (Some (-2)). split; [|right; split; [lia|]; intros V; pose proof (compact_valid_len _ _ _ V); destruct V; lia].
    eapply (rel_bind _ (-1, mem ++ zeros 64, 0)); [unfold open_compact_p; rewrite EL; apply rel_ret|]. apply rel_ret. }
  assert (LZ: zlen (zeros 64) = 64) by (apply zlen_zeros; lia).
  destruct (open_compact_p_rel loc locw LOC fuel (mem ++ zeros 64) (zlen mem) 0 so smlen po) as (r & R & HR); try (rewrite ?zlen_app; lia); [rewrite bytes_ok_app; split; [assumption|apply zeros_bytes]|].
  rewrite !sl_out in HR by lia. fold pk sm in HR. destruct r as [[[c fr] len]|].
  2:{ exists None. split; [now apply rel_none|exact HR]. }
  destruct HR as [(-> & m' & V & -> & ->)|(Hc & -> & -> & NV)].
  2:{ exists (Some (-2)). split; [|right; split; [lia|apply NV]]. eapply rel_bind; [exact R|]. cbv beta iota. rewrite (proj2 (Z.eqb_neq c 0)) by lia. apply rel_ret. }
  assert (HV: 1 <= zlen m' <= 64) by apply V.
  eapply rq_bind; [exact R|]. cbv beta iota. change (negb (0 =? 0)) with false. cbv iota.
  destruct (Z.eqb_spec (zlen m') mlen) as [El|El]; cbn [negb].
  2:{ exists (Some (-3)). split; [apply rel_ret|]. right. split; [lia|]. intros V'. apply compact_valid_len in V, V'. lia. }
  rewrite DilReduceProofs.i32_id by lia. replace (splice (mem ++ zeros 64) (zlen mem) m') with (mem ++ splice (zeros 64) 0 m') by (rewrite <- sp_in by lia; f_equal; lia).
  eapply rq_lift. { apply same_from_ok; rewrite ?zlen_app, ?zlen_splice; rewrite ?Z2Nat.id; lia. }
  rewrite Z2Nat.id by lia. rewrite (Z.add_0_r mo). rewrite sl_in by (rewrite ?zlen_splice; lia). rewrite slice_splice by lia. rewrite sl_out by lia. rewrite El. fold m.
  destruct (list_eq_dec Z.eq_dec m' m) as [->|NE].
  - exists (Some 0). split; [apply rel_ret|]. left. auto.
  - exists (Some (-4)). split; [apply rel_ret|]. right. split; [lia|]. intros V'. apply NE. apply compact_valid_fields in V, V'. cbv zeta in V, V'.
    destruct V as (_ & _ & _ & _ & <- & _), V' as (_ & _ & _ & _ & <- & _). congruence.
Qed.

Lemma verify_dilithium_p_rel mem mo mlen so po : bytes_ok mem -> 0 <= so -> so + 2420 <= zlen mem -> 0 <= mo -> 0 <= mlen -> mo + mlen <= zlen mem -> 0 <= po -> po + 1312 <= zlen mem ->
  let pk := slice mem po 1312 in let sig := slice mem so 2420 in let m := slice mem mo mlen in
  exists r, releases (verify_dilithium_p loc fuel mem mo mlen so 2420 po) r /\
  match r with
  | Some c => (c = 0 /\ 1 <= mlen <= 64 /\ DilFips.MLDSA.verify pk m sig) \/ (-2 <= c < 0 /\ ~ (1 <= mlen <= 64 /\ DilFips.MLDSA.verify pk m sig))
  | None => sign_verify fuel sig 2420 m pk = Ret None
  end.
Proof.
  intros Bm S1 S2 M1 M0 M2 P1 P2 pk sig m. unfold verify_dilithium_p. destruct ((mlen <=? 0) || (64 <? mlen)) eqn:EB.
  { exists (Some (-1)). split; [apply rel_ret|]. right. lia. }
  eapply rq_lift; [apply rdrange_ok; lia|]. fold pk. assert (Lp: zlen pk = 1312) by (apply zlen_slice; lia). assert (Bp: bytes_ok pk) by now apply bytes_ok_slice.
  destruct (dil_verify_rel loc locw LOC fuel mem so mo mlen pk Lp Bp Bm S1 S2 M1 M0 M2) as (r & E & R). fold sig m in E. destruct r as [v|].
  2:{ exists None. split; [now apply rel_none|exact E]. }
  eapply rq_bind; [exact R|]. destruct (PropsDilithium4.C55_verify_exact fuel sig m pk v (conj Lp Bp) (conj (zlen_slice mem so 2420 S1 ltac:(lia) S2) (bytes_ok_slice _ _ _ Bm)) E) as [[-> V]|[-> V]].
  - exists (Some 0). split; [apply rel_ret|]. left. split; [reflexivity|]. split; [lia|exact V].
  - exists (Some (-2)). split; [apply rel_ret|]. right. split; [lia|tauto].
Qed.
(** a signature of any other length is rejected without reading memory *)
Lemma verify_dilithium_p_len mem mo mlen so smlen po : smlen <> 2420 -> 0 <= po -> po + 1312 <= zlen mem ->
  releases (verify_dilithium_p loc fuel mem mo mlen so smlen po) (Some (if (mlen <=? 0) || (64 <? mlen) then -1 else -2)).
Proof.
  intros HN P1 P2. unfold verify_dilithium_p. destruct (_ || _); [apply rel_ret|]. eapply rel_lift; [apply rdrange_ok; lia|].
  eapply (rel_bind _ (-1)); [|apply rel_ret]. unfold sign_verify_h. rewrite (proj2 (Z.eqb_neq smlen 2420)) by assumption. cbn [negb]. apply rel_ret.
Qed.

Definition u0 : uninit := {| u_stack := zeros 128; u_auth := zeros 2272; u_stkf := fun _ => zeros 288; u_stkm := fun _ => zeros 128; u_skseed := [] |}.
Lemma u0_ok : uninit_ok u0. Proof. split; [|split; [|split]]; intros; apply zlen_zeros; lia. Qed.
Lemma copy_key0 m ko n : 0 <= n -> 0 <= ko -> ko + n <= zlen m -> copy (zeros n) 0 m ko n = Ret (slice m ko n).
Proof. intros. rewrite <- (app_nil_r m) at 1. now apply copy_key. Qed.
Lemma put_whole b x : zlen x = zlen b -> put b x = Ret x.
Proof. intros H. unfold put. pose proof (zlen_nonneg x). rewrite copy_splice by lia. rewrite slice_all by reflexivity. now rewrite splice_whole' by lia. Qed.

Lemma keypair_seed_p_rel mem po ko eo : bytes_ok mem -> 0 <= po -> po + 1408 <= zlen mem -> 0 <= ko -> ko + 4064 <= zlen mem -> 0 <= eo -> eo + 160 <= zlen mem -> po + 1408 <= ko \/ ko + 4064 <= po ->
  let seed := slice mem eo 160 in let edseed := slice seed 0 32 in let spx := slh_keygen shake256_bytes (slice seed 64 96) in
  exists r, keypair_seed fuel (slice seed 32 32) = Ret r /\
  releases (keypair_seed_p loc locw fuel mem po ko eo)
   (match r with
    | Some (dilpk, dilsk) => Some (0, splice (splice mem po (pk_layout (ed_public edseed) dilpk (fst spx))) ko (sk_layout (edseed ++ ed_public edseed) dilsk dilpk (snd spx)))
    | None => None end).
Proof.
  intros Bm P1 P2 K1 K2 E1 E2 D seed edseed spx. assert (Lsd: zlen seed = 160) by (apply zlen_slice; lia). assert (Bsd: bytes_ok seed) by now apply bytes_ok_slice.
  assert (SL: forall a n, 0 <= a -> 0 <= n -> a + n <= 160 -> slice seed a n = slice mem (eo + a) n) by (intros; unfold seed; apply slice_slice; lia).
  set (s2 := slice seed 32 32). set (s3 := slice seed 64 96).
  assert (L1: zlen edseed = 32) by (apply zlen_slice; lia). assert (L2: zlen s2 = 32) by (apply zlen_slice; lia). assert (L3: zlen s3 = 96) by (apply zlen_slice; lia).
  assert (B1: bytes_ok edseed) by now apply bytes_ok_slice. assert (B2: bytes_ok s2) by now apply bytes_ok_slice. assert (B3: bytes_ok s3) by now apply bytes_ok_slice.
  assert (Lz: forall n, 0 <= n -> zlen (zeros n) = n) by (intros; now apply zlen_zeros).
  pose proof (TweetEd.ed_keypair_seed_ok edseed L1 B1) as EE.
  destruct (DilBufSign.keypair_seed_c_ok fuel (loc 128) (loc 64) (zeros 1312) (zeros 2560) s2 (locals1_of loc locw LOC 128 ltac:(lia)) (locals1_of loc locw LOC 64 ltac:(lia))) as (r & ED & EDc); try (rewrite ?Lz; lia); [exact B2|].
  assert (RD: releases (keypair_seed_h loc fuel (zeros 1312) (zeros 2560) s2) (DilBufSign.spliced (zeros 1312) (zeros 2560) r)).
  { apply bal_releases. pose proof (keypair_seed_h_bal loc (locals1_of loc locw LOC) fuel (zeros 1312) (zeros 2560) s2) as HB. rewrite EDc in HB. exact HB. }
  destruct (PropsHeap.C71_sphincs_keygen loc locw (zeros 64) (zeros 128) s3 LOC) as (pk3 & sk3 & R3 & W1 & W2); try (unfold PropsSpxBuf.inside; rewrite Lz; lia); try assumption; [apply zeros_bytes|].
  destruct (HybridRealProofs.spx_key_shape s3 L3 B3) as (LP3' & LK3' & _ & _ & _). change (slh_keygen shake256_bytes s3) with spx in W1, W2. assert (LP3: zlen (fst spx) = 64) by exact LP3'. assert (LK3: zlen (snd spx) = 128) by exact LK3'. clear LP3' LK3'.
  apply written_splice in W1; [|lia|rewrite Lz; lia]. apply written_splice in W2; [|lia|rewrite Lz; lia]. rewrite splice_whole' in W1 by (rewrite ?Lz; lia). rewrite splice_whole' in W2 by (rewrite ?Lz; lia). subst pk3 sk3.
  exists r. split; [exact ED|].
  assert (G1: copy (zeros 32) 0 mem eo 32 = Ret edseed) by (unfold edseed; rewrite SL, Z.add_0_r by lia; apply copy_key0; lia).
  assert (G2: copy (zeros 32) 0 mem (eo + 32) 32 = Ret s2) by (unfold s2; rewrite SL by lia; apply copy_key0; lia).
  assert (G3: copy (zeros 96) 0 mem (eo + 64) 96 = Ret s3) by (unfold s3; rewrite SL by lia; apply copy_key0; lia).
  assert (Le: zlen (ed_public edseed) = 32) by (apply EdDecode.zlen_penc).
  assert (LEK: zlen (edseed ++ ed_public edseed) = 64) by (rewrite zlen_app; lia).
  unfold keypair_seed_p. eapply rel_lift; [exact G1|]. eapply rel_lift; [exact G2|]. eapply rel_lift; [exact G3|]. eapply rel_lift; [exact EE|]. cbv beta iota. change (negb (0 =? 0)) with false. cbv iota.
  destruct r as [[dilpk dilsk]|].
  2:{ eapply rel_lift; [rewrite copy_splice by lia; reflexivity|]. eapply rel_lift; [rewrite copy_splice by (rewrite ?zlen_splice; rewrite ?zlen_slice; lia); reflexivity|]. apply rel_none. exact RD. }
  destruct (HybridRealProofs.dil_key_shape fuel s2 dilpk dilsk ED) as (LD & _ & LDK & _).
  assert (HC: keypair_seed_c (real fuel u0) mem po ko eo = Ret (0, splice (splice mem po (pk_layout (ed_public edseed) dilpk (fst spx))) ko (sk_layout (edseed ++ ed_public edseed) dilsk dilpk (snd spx)))).
  { pose proof (PropsReal.C53_keypair_seed fuel u0 (slice mem po 1408) (slice mem ko 4064) seed dilpk dilsk u0_ok) as HP. rewrite !zlen_slice in HP by lia. specialize (HP ltac:(lia) ltac:(lia) Lsd Bsd ED). fold s3 in HP. fold edseed in HP. assert (ES: slh_keygen shake256_bytes s3 = (fst spx, snd spx)) by apply surjective_pairing. rewrite ES in HP. cbv zeta beta iota in HP.
    rewrite HybridBufProofs.keypair_seed_c_ok by lia. fold seed. rewrite HP. unfold tail_from. rewrite !zlen_slice by lia. change (1408 - 1408) with 0. change (4064 - 4064) with 0. rewrite !slice_0, !app_nil_r. reflexivity. }
  unfold keypair_seed_c in HC. rewrite G1, G2, G3 in HC. cbn [bind] in HC. cbn [ed_keypair dil_keypair spx_keypair real] in HC. rewrite HybridRealProofs.real_ed_keys in HC by assumption. cbv beta iota in HC.
  rewrite !put_whole in HC by (rewrite ?Lz; lia). cbn [bind] in HC. change (negb (0 =? 0)) with false in HC. cbv iota in HC.
  assert (HD2: real_dil_keypair fuel s2 = (0, dilpk, dilsk)) by (unfold real_dil_keypair; rewrite (proj2 (HybridRealProofs.bytesb_ok _)) by assumption; now rewrite ED).
  rewrite HD2 in HC. clear HD2.
  destruct (copy mem po (ed_public edseed) 0 32) as [mem1|] eqn:C1; [|discriminate HC]. eapply rel_lift; [reflexivity|]. cbn [bind] in HC.
  destruct (copy mem1 ko (edseed ++ ed_public edseed) 0 64) as [mem2|] eqn:C2; [|discriminate HC]. eapply rel_lift; [reflexivity|]. cbn [bind] in HC.
  eapply rel_bind; [exact RD|]. cbv beta iota. change (negb (0 =? 0)) with false. cbv iota.
  rewrite !put_whole in HC by (rewrite ?Lz; lia). cbn [bind] in HC. change (negb (0 =? 0)) with false in HC. cbv iota in HC.
  rewrite !splice_whole' by (rewrite ?Lz; lia).
  destruct (copy mem2 (ko + 64) dilsk 0 2560) as [mem3|] eqn:C3; [|discriminate HC]. eapply rel_lift; [reflexivity|]. cbn [bind] in HC.
  match type of HC with bind ?l _ = _ => destruct l as [mem4|] eqn:C4; [|discriminate HC] end. eapply rel_lift; [reflexivity|]. cbn [bind] in HC.
  assert (HS3: real_spx_keypair u0 s3 = (0, fst spx, snd spx)).
  { exact (HybridRealProofs.spx_keys u0 s3 u0_ok L3 B3). }
  rewrite HS3 in HC. rewrite !put_whole in HC by (rewrite ?Lz; lia). cbn [bind] in HC. change (negb (0 =? 0)) with false in HC. cbv iota in HC.
  eapply rel_bind; [exact R3|]. cbv beta iota. change (negb (0 =? 0)) with false. cbv iota.
  destruct (copy mem4 (ko + 3936) (snd spx) 0 128) as [mem5|] eqn:C5; [|discriminate HC]. eapply rel_lift; [reflexivity|]. cbn [bind] in HC.
  destruct (copy mem5 (po + 1344) (fst spx) 0 64) as [mem6|] eqn:C6; [|discriminate HC]. eapply rel_lift; [reflexivity|]. cbn [bind] in HC.
  apply Ret_inj in HC. rewrite HC. apply rel_ret.
Qed.

Lemma keypair_p_rel rb rr bs mem po ko : bytes_ok mem -> 0 <= po -> po + 1408 <= zlen mem -> 0 <= ko -> ko + 4064 <= zlen mem -> po + 1408 <= ko \/ ko + 4064 <= po ->
  rb 160 = (rr, bs) -> zlen bs = 160 -> bytes_ok bs ->
  let edseed := slice bs 0 32 in let spx := slh_keygen shake256_bytes (slice bs 64 96) in
  exists r, keypair_seed fuel (slice bs 32 32) = Ret r /\
  releases (keypair_p loc locw fuel rb mem po ko)
   (if rr =? 0 then
      match r with
      | Some (dilpk, dilsk) => Some (0, splice (splice mem po (pk_layout (ed_public edseed) dilpk (fst spx))) ko (sk_layout (edseed ++ ed_public edseed) dilsk dilpk (snd spx)))
      | None => None end
    else Some (-1, mem)).
Proof.
  intros Bm P1 P2 K1 K2 D Hrb Lb Bb edseed spx. pose proof (zlen_nonneg mem) as HF.
  destruct (keypair_seed_p_rel (mem ++ bs) po ko (zlen mem)) as (r & E & R); try (rewrite ?zlen_app; lia); [rewrite bytes_ok_app; auto|].
  assert (ES: slice (mem ++ bs) (zlen mem) 160 = bs). { replace (zlen mem) with (zlen mem + 0) by lia. rewrite sl_in by lia. apply slice_all; lia. }
  rewrite ES in E, R. cbv zeta in E, R. fold edseed spx in R. exists r. split; [exact E|].
  unfold keypair_p. rewrite Hrb. destruct LOC as (LC & _ & _).
  eapply rel_lift; [rewrite copy_splice by (rewrite ?LC; lia); rewrite slice_all, splice_whole' by (rewrite ?LC; lia); reflexivity|].
  destruct (rr =? 0); cbn [negb]; [|apply rel_ret]. destruct r as [[dilpk dilsk]|]; [|now apply rel_none].
  eapply rel_bind; [exact R|]. cbv beta iota.
  destruct (HybridRealProofs.dil_key_shape fuel _ dilpk dilsk E) as (LD & _ & LDK & _).
  destruct (HybridRealProofs.spx_key_shape (slice bs 64 96)) as (LP3 & LK3 & _ & _ & _); [apply zlen_slice; lia|now apply bytes_ok_slice|]. change (zlen (fst spx) = 64) in LP3. change (zlen (snd spx) = 128) in LK3.
  assert (Le: zlen (ed_public edseed) = 32) by (apply EdDecode.zlen_penc). assert (Les: zlen edseed = 32) by (apply zlen_slice; lia).
  assert (LPK: zlen (pk_layout (ed_public edseed) dilpk (fst spx)) = 1408) by (unfold pk_layout; rewrite !zlen_app; lia).
  assert (LSK: zlen (sk_layout (edseed ++ ed_public edseed) dilsk dilpk (snd spx)) = 4064) by (unfold sk_layout; rewrite !zlen_app; lia).
  rewrite sp_out by lia. rewrite sp_out by (rewrite ?zlen_splice; lia).
  set (mem' := splice (splice mem po _) ko _). assert (LM: zlen mem = zlen mem') by (unfold mem'; rewrite !zlen_splice; rewrite ?zlen_splice; lia). rewrite LM.
  rewrite sl_frame. apply rel_ret.
Qed.

(** the 64 bytes the expander is keyed with: every second byte of the seed *)
Lemma even_only_len s : zlen (HybridProofs.even_only s) = 64.
Proof. unfold zlen, HybridProofs.even_only. rewrite map_length, seq_length. reflexivity. Qed.
Lemma expander_p_rel mem eo xo : bytes_ok mem -> 0 <= eo -> eo + 96 <= zlen mem -> 0 <= xo -> xo + 160 <= zlen mem -> xo <= eo + 32 \/ eo + 96 <= xo ->
  let seed := slice mem eo 96 in let x := shake256_bytes (HybridProofs.even_only seed ++ [2]) 128 in
  releases (keypair_seed_expander_p mem eo xo) (Some (0, splice mem xo (slice x 0 32 ++ slice seed 64 32 ++ slice x 32 96))).
Proof.
  intros Bm E1 E2 X1 X2 D seed x. assert (Lx: zlen x = 128) by (apply (DilSignProofs.sponge_bytes_len 136 0x1F); lia).
  assert (Lsd: zlen seed = 96) by (apply zlen_slice; lia). pose proof (even_only_len seed) as Lev.
  set (E := fun (s : list Z) (n : Z) (o : list Z) (k : Z) => (0, if zlen o =? 128 then x else o)).
  assert (HE: forall s n o k, zlen (snd (E s n o k)) = zlen o). { intros. unfold E. cbn [snd]. destruct (Z.eqb_spec (zlen o) 128); lia. }
  assert (Lz: forall n, 0 <= n -> zlen (zeros n) = n) by (intros; now apply zlen_zeros).
  pose proof (HybridBufProofs.keypair_seed_expander_c_ok E mem eo xo HE E1 E2 X1 X2 D) as HC. fold seed in HC.
  rewrite (PropsHybrid.C02_expander_output_partial E seed (slice mem xo 160) Lsd) in HC; [|rewrite zlen_slice; lia|intros s o Ho; rewrite HE; exact Ho].
  unfold E at 2 in HC. rewrite Lz in HC by lia. change (128 =? 128) with true in HC. change (negb (0 =? 0)) with false in HC. cbv beta iota in HC. unfold tail_from in HC. rewrite zlen_slice in HC by lia. change (160 - 160) with 0 in HC. rewrite slice_0, !app_nil_r in HC.
  unfold keypair_seed_expander_c in HC. unfold keypair_seed_expander_p.
  assert (EL: copy_seed_loop_c 64 0 (zeros 64) mem eo = Ret (HybridProofs.even_only seed)) by (rewrite HybridBufProofs.copy_seed_loop_sub by lia; apply HybridProofs.copy_seed_loop_even; fold seed; lia).
  rewrite EL in HC. cbn [bind] in HC. eapply rel_lift; [exact EL|].
  destruct (PropsHeap.C71_seedexpander (Some (HybridProofs.even_only seed)) 64 (Some (zeros 128)) 128) as (rc & o' & R & EW).
  { intros sd out H1 H2. assert (sd = HybridProofs.even_only seed) by congruence. assert (out = zeros 128) by congruence. subst. split; [|rewrite Lz; lia].
    apply Forall_forall. intros b Hb. apply in_map_iff in Hb. destruct Hb as (i & <- & _). destruct (Nat.even i); [|split; reflexivity || lia]. destruct (nth_in_or_default i seed 0) as [Hi| ->]; [|split; reflexivity || lia].
    exact (proj1 (Forall_forall _ _) (bytes_ok_slice mem eo 96 Bm) _ Hi). }
  rewrite ShakePrng.wrapper_ok in EW by (rewrite ?Lz; lia). rewrite slice_all in EW by lia. fold x in EW. rewrite splice_whole' in EW by (rewrite ?Lz; lia).
  assert (rc = 0 /\ o' = Some x) as [-> ->] by (split; congruence). eapply rel_bind; [exact R|]. cbv beta iota. change (negb (0 =? 0)) with false. cbv iota.
  unfold E in HC. rewrite Lz in HC by lia. change (128 =? 128) with true in HC. change (negb (0 =? 0)) with false in HC. cbv beta iota in HC.
  destruct (copy mem xo x 0 32) as [m1|] eqn:C1; [|discriminate HC]. eapply rel_lift; [reflexivity|]. cbn [bind] in HC.
  destruct (move m1 (xo + 32) (eo + 64) 32) as [m2|] eqn:C2; [|discriminate HC]. eapply rel_lift; [reflexivity|]. cbn [bind] in HC.
  destruct (copy m2 (xo + 64) x 32 96) as [m3|] eqn:C3; [|discriminate HC]. eapply rel_lift; [reflexivity|]. cbn [bind] in HC.
  apply HybridBufProofs.Ret_inj in HC. rewrite HC. apply rel_ret.
Qed.
End Comps2.
