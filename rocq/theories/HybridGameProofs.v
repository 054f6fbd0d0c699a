(** Proofs for HybridGame.v. *)
From Coq Require Import ZifyBool ZifyNat.
From Verif Require Import Base Hybrid HybridSpec HybridNF HybridProofs HybridProofs2 HybridGame.
Local Open Scope Z_scope.
Ltac Zify.zify_post_hook ::= idtac.
Local Opaque zeros slice.

(** ** A signing call uses the component signing functions at one message only *)
Lemma sign_full_ext P P' rb rb' smb l mb mlen skb skb' : zlen skb = 4064 -> zlen skb' = 4064 -> mlen <= zlen mb ->
  (1 <= mlen <= 64 -> let m := slice mb 0 mlen in
     ed_sign P m (sk_ed skb) = ed_sign P' m (sk_ed skb') /\ dil_sign P m (sk_dil skb) = dil_sign P' m (sk_dil skb') /\
     spx_sign P rb m (sk_spx skb) = spx_sign P' rb' m (sk_spx skb')) ->
  sign_full P rb (Some smb) (Some l) (Some mb) mlen (Some skb) = sign_full P' rb' (Some smb) (Some l) (Some mb) mlen (Some skb').
Proof.
  intros L L' Lm H. unfold sign_full. hconst.
  destruct ((mlen <=? 0) || (64 <? mlen))%bool eqn:E; [reflexivity|]. destruct H as (H1 & H2 & H3); [lia|].
  unfold sk_ed, sk_dil, sk_spx in *. change (64 + 2560 + 1312) with 3936.
  repeat (rewrite copy_fill by zl; cbn [bind]). rewrite rdrange_ok by zl. cbn [bind]. rewrite H1, H2, H3. reflexivity.
Qed.
Lemma sign_compact_ext P P' rb smb l mb mlen skb skb' : zlen skb = 4064 -> zlen skb' = 4064 -> mlen <= zlen mb ->
  zlen (snd (rb 40)) = 40 -> (forall x, sha3_512 P' x = sha3_512 P x) -> (forall x, zlen (sha3_512 P x) = 64) -> sk_spxpk skb' = sk_spxpk skb ->
  (1 <= mlen <= 64 -> let h := compact_hash P (snd (rb 40)) (slice mb 0 mlen) (sk_spxpk skb) in
     ed_sign P h (sk_ed skb) = ed_sign P' h (sk_ed skb') /\ dil_sign P h (sk_dil skb) = dil_sign P' h (sk_dil skb')) ->
  sign_compact P rb (Some smb) (Some l) (Some mb) mlen (Some skb) = sign_compact P' rb (Some smb) (Some l) (Some mb) mlen (Some skb').
Proof.
  intros L L' Lm Hrb HS Hsha HX H. unfold sign_compact. hconst.
  destruct ((mlen <=? 0) || (64 <? mlen))%bool eqn:E; [reflexivity|]. destruct H as (H1 & H2); [lia|].
  unfold sk_ed, sk_dil, sk_spxpk, compact_hash, compact_hash_input in *.
  repeat (rewrite copy_fill by zl; cbn [bind]). destruct (rb 40) as [r nonce]. cbn [snd] in *.
  rewrite put_full by exact Hrb. cbn [bind]. destruct (negb (r =? 0)); [reflexivity|].
  change (64 + 2560 + 1312 + 128 / 2) with 4000.
  erewrite bind_chain4; [|eapply (hybrid_msg_chain nonce); try reflexivity; try lia; now rewrite slice_all].
  erewrite (bind_chain4 (copy (zeros (40 + 64 + 64)) 0 nonce 0 40)); [|eapply (hybrid_msg_chain nonce); try reflexivity; try lia; now rewrite slice_all].
  rewrite HX, HS. set (h := sha3_512 P _) in *. assert (Hh: zlen h = 64) by apply Hsha.
  rewrite put_full by exact Hh. cbn [bind]. rewrite rdrange_ok by lia. cbn [bind]. rewrite (slice_all h) by lia.
  rewrite H1, H2. reflexivity.
Qed.

(** ** The key material of the reduction *)
Lemma without_parts x sk : zlen sk = 4064 ->
  zlen (without x sk) = 4064 /\ sk_spxpk (without x sk) = sk_spxpk sk /\
  (x <> Ed -> sk_ed (without x sk) = sk_ed sk) /\ (x <> Dil -> sk_dil (without x sk) = sk_dil sk) /\ (x <> Spx -> sk_spx (without x sk) = sk_spx sk).
Proof.
  intros L. unfold sk_spxpk, sk_ed, sk_dil, sk_spx. destruct x; cbn [without].
  - split; [zl|]. split; [rewrite slice_app_r by zl; rewrite zlen_zeros by lia; rewrite slice_slice by lia; reflexivity|].
    split; [congruence|]. split; intros _; rewrite slice_app_r by zl; rewrite zlen_zeros by lia; rewrite slice_slice by lia; reflexivity.
  - assert (LA: zlen (slice sk 0 64 ++ zeros 2560) = 2624) by zl. split; [zl|].
    split; [rewrite app_assoc, slice_app_r, LA, slice_slice by lia; reflexivity|].
    split; [intros _; rewrite slice_app_l, slice_slice by zl; reflexivity|]. split; [congruence|].
    intros _. rewrite app_assoc, slice_app_r, LA, slice_slice by lia. reflexivity.
  - assert (LA: zlen (slice sk 0 3936 ++ zeros 64) = 4000) by zl. split; [zl|].
    split; [rewrite app_assoc, slice_app_r, LA, slice_slice by lia; reflexivity|].
    split; [intros _; rewrite slice_app_l, slice_slice by zl; reflexivity|]. split; [|congruence].
    intros _. rewrite slice_app_l, slice_slice by zl. reflexivity.
Qed.

Lemma spx_or x : x = Spx \/ x <> Spx.
Proof. destruct x; [right; discriminate|right; discriminate|left; reflexivity]. Qed.
Lemma joint_spx x own theirs n : x = Spx -> joint x own theirs Full n = theirs n.
Proof. intros ->. reflexivity. Qed.
Lemma joint_other x own theirs n : x <> Spx -> joint x own theirs Full n = own Full n.
Proof. destruct x; [reflexivity|reflexivity|congruence]. Qed.
Lemma joint_compact x own theirs n : joint x own theirs Compact n = own Compact n.
Proof. destruct x; reflexivity. Qed.
Lemma sign_of_rb P x rb rb' m k : x <> Spx -> sign_of P x rb m k = sign_of P x rb' m k.
Proof. destruct x; [reflexivity|reflexivity|congruence]. Qed.
Lemma reduce_spx P x own K spxpk nf nc m next : x = Spx -> reduce P x own K spxpk nf nc (Ask Compact m next) = reduce P x own K spxpk nf (S nc) (next (ask P Compact (own Compact nc) m K)).
Proof. intros ->. reflexivity. Qed.
Lemma reduce_other P x own K spxpk nf nc m next : x <> Spx -> reduce P x own K spxpk nf nc (Ask Compact m next) =
  CAsk (compact_hash P (snd (own Compact nc 40)) m spxpk) (fun a => reduce P x own K spxpk nf (S nc) (next (ask (answering x a P) Compact (own Compact nc) m K))).
Proof. destruct x; [reflexivity|reflexivity|congruence]. Qed.
Lemma sub_other {A} {a b : A} (x : scheme) : x <> Spx -> match x with Spx => a | _ => b end = b.
Proof. destruct x; [reflexivity|reflexivity|congruence]. Qed.

Section Reduction.
Variables (P : comps) (x : scheme) (own : mode -> nat -> rnd) (theirs : nat -> rnd) (sk skx spxpk : list Z).
Hypothesis Fsha : forall y, zlen (sha3_512 P y) = 64.
Hypothesis Lsk : zlen sk = 4064.
Hypothesis Kx : skx = match x with Ed => sk_ed sk | Dil => sk_dil sk | Spx => sk_spx sk end.
Hypothesis Kp : spxpk = sk_spxpk sk.
Hypothesis Rn : forall n, zlen (snd (own Compact n 40)) = 40.

Lemma ask_full m rb : x <> Spx ->
  ask P Full rb m sk = ask (answering x (sign_of P x rb m skx) P) Full rb m (without x sk).
Proof.
  intros X. destruct (without_parts x sk Lsk) as (W0 & W1 & W2 & W3 & W4). cbn [ask]. apply sign_full_ext; [exact Lsk|exact W0|lia|].
  intros Hm. cbv zeta. rewrite slice_all by reflexivity. rewrite Kx.
  destruct x; cbn [answering ed_sign dil_sign spx_sign sign_of]; [..|congruence]; rewrite ?W2, ?W3, ?W4 by congruence; split; try reflexivity; split; reflexivity.
Qed.
Lemma ask_full_spx m rb rb' : x = Spx ->
  ask P Full rb m sk = ask (answering x (sign_of P x rb m skx) P) Full rb' m (without x sk).
Proof.
  intros X. destruct (without_parts x sk Lsk) as (W0 & W1 & W2 & W3 & W4). cbn [ask]. apply sign_full_ext; [exact Lsk|exact W0|lia|].
  intros Hm. cbv zeta. rewrite slice_all by reflexivity. rewrite Kx, X in *.
  cbn [answering ed_sign dil_sign spx_sign sign_of]. rewrite W2, W3 by congruence. split; [reflexivity|]. split; reflexivity.
Qed.
Lemma ask_compact m rb rb' : x <> Spx -> zlen (snd (rb 40)) = 40 ->
  ask P Compact rb m sk = ask (answering x (sign_of P x rb' (compact_hash P (snd (rb 40)) m spxpk) skx) P) Compact rb m (without x sk).
Proof.
  intros X R. destruct (without_parts x sk Lsk) as (W0 & W1 & W2 & W3 & W4). cbn [ask].
  apply sign_compact_ext; [exact Lsk|exact W0|lia|exact R|reflexivity|exact Fsha|exact W1|].
  intros Hm. cbv zeta. rewrite slice_all by reflexivity. rewrite <- Kp, Kx.
  destruct x; cbn [answering ed_sign dil_sign sign_of]; [..|congruence]; rewrite ?W2, ?W3 by congruence; split; reflexivity.
Qed.
Lemma ask_compact_spx m rb : x = Spx -> zlen (snd (rb 40)) = 40 -> ask P Compact rb m sk = ask P Compact rb m (without x sk).
Proof.
  intros X R. destruct (without_parts x sk Lsk) as (W0 & W1 & W2 & W3 & W4). cbn [ask].
  apply sign_compact_ext; [exact Lsk|exact W0|lia|exact R|reflexivity|exact Fsha|exact W1|].
  intros Hm. cbv zeta. rewrite W2, W3 by congruence. split; reflexivity.
Qed.

Definition outcome_of (f : mode * list Z * list Z) : list Z * list Z :=
  let '(md, m, sm) := f in (match md with Full => m | Compact => compact_hash P (nonce_of sm) m spxpk end, part_of x md m sm).
Lemma simulation : forall A nf nc n, (x = Spx -> n = nf) ->
  cplay P x theirs skx n (reduce P x own (without x sk) spxpk nf nc A) =
  (submitted P x spxpk (fst (play P (joint x own theirs) sk nf nc A)), outcome_of (snd (play P (joint x own theirs) sk nf nc A))).
Proof.
  induction A as [md m next IH|md m sm]; intros nf nc n Hn; [|reflexivity].
  cbn [play]. destruct (spx_or x) as [X|X]; destruct md.
  - cbn [reduce cplay]. rewrite <- ask_full_spx by exact X. rewrite (joint_spx x own theirs nf X), Hn by exact X.
    rewrite IH by reflexivity. destruct (play _ _ _ (S nf) nc _) as [qs out]. reflexivity.
  - rewrite joint_compact, (reduce_spx _ _ _ _ _ _ _ _ _ X). rewrite <- ask_compact_spx by (try exact X; apply Rn). rewrite IH by exact Hn.
    destruct (play _ _ _ nf (S nc) _) as [qs out]. cbn [fst snd submitted q_mode]. rewrite X. reflexivity.
  - cbn [reduce cplay]. rewrite (joint_other x own theirs nf X).
    rewrite (sign_of_rb P x (theirs n) (own Full nf) m skx X). rewrite <- ask_full by congruence.
    rewrite IH by congruence. destruct (play _ _ _ (S nf) nc _) as [qs out]. reflexivity.
  - rewrite joint_compact, (reduce_other _ _ _ _ _ _ _ _ _ X). cbn [cplay]. rewrite <- ask_compact by (try exact X; apply Rn). rewrite IH by congruence.
    destruct (play _ _ _ nf (S nc) _) as [qs out]. cbn [fst snd submitted q_mode]. rewrite (sub_other _ X). reflexivity.
Qed.
End Reduction.

(** ** What an accepted signed message contains *)
Definition pk_of (x : scheme) (pk : list Z) : list Z := match x with Ed => pk_ed pk | Dil => pk_dil pk | Spx => pk_spx pk end.
Lemma accepts_full P m sm pk x : comps_fit P -> comps_faithful P -> zlen pk = 1408 -> accepts P Full m sm pk ->
  valid_of P x (part_of x Full m sm) m (pk_of x pk).
Proof.
  intros HF HT Lp HA. cbn [accepts] in HA. pose proof (zlen_nonneg m).
  destruct (verify_full_iff P m (zlen m) sm (zlen sm) pk HF HT) as (r & E1 & _ & E2); try lia.
  rewrite HA in E1. assert (R: r = 0) by congruence. apply E2 in R. destruct R as (m1 & EO & EQ).
  assert (Lz: zlen (zeros 224) = 224) by zl.
  apply open_full_iff in EO; try assumption; try lia.
  destruct EO as (e & msg & d & s & EL & ELn & Lmsg & L1 & L2 & L3 & V1 & V2 & V3 & Em & El).
  assert (zlen msg = zlen m) by congruence. apply Some_inj in Em. subst m1.
  rewrite slice_app_l, !slice_all in EQ by lia. subst msg.
  rewrite slice_all in EL by reflexivity. destruct (full_layout_slices e m d s [] L1 L2 L3) as (_ & _ & S1 & S2 & S3 & _).
  rewrite app_nil_r, <- EL in S1, S2, S3.
  destruct x; cbn [valid_of part_of pk_of].
  - replace (slice sm 2 64) with e; [exact V1|]. transitivity (slice (slice sm 2 (64 + zlen m)) 0 64).
    + rewrite S1, slice_app_l, slice_all by lia. reflexivity.
    + rewrite slice_slice by lia. reflexivity.
  - rewrite S2. exact V2.
  - rewrite S3. exact V3.
Qed.
Lemma accepts_compact P m sm pk x : comps_fit P -> comps_faithful P -> zlen pk = 1408 -> x <> Spx -> accepts P Compact m sm pk ->
  zlen (nonce_of sm) = 40 /\ valid_of P x (part_of x Compact m sm) (compact_hash P (nonce_of sm) m (pk_spx pk)) (pk_of x pk).
Proof.
  intros HF HT Lp HX HA. cbn [accepts] in HA. pose proof (zlen_nonneg m).
  destruct (verify_compact_iff P m (zlen m) sm (zlen sm) pk HF HT) as (r & E1 & _ & E2); try lia.
  rewrite HA in E1. assert (R: r = 0) by congruence. apply E2 in R. destruct R as (m1 & EO & EQ).
  assert (Lz: zlen (zeros 64) = 64) by zl.
  apply open_compact_iff in EO; try assumption; try lia.
  destruct EO as (e & d & nn & msg & EL & ELn & Lmsg & L1 & L2 & L3 & V1 & V2 & Em & El).
  assert (zlen msg = zlen m) by congruence. apply Some_inj in Em. subst m1.
  rewrite slice_app_l, !slice_all in EQ by lia. subst msg.
  rewrite slice_all in EL by reflexivity. destruct (compact_layout_slices e d nn m [] L1 L2 L3) as (_ & _ & S1 & S2 & S3 & _).
  rewrite app_nil_r, <- EL in S1, S2, S3. unfold nonce_of. rewrite S3. split; [exact L3|].
  destruct x; cbn [valid_of part_of pk_of]; [rewrite S1; exact V1|rewrite S2; exact V2|congruence].
Qed.

(** ** Keys *)
Lemma keys_of P pk0 sk0 seed pk sk x pkx skx : comps_fit P -> comps_complete P -> zlen pk0 = 1408 -> zlen sk0 = 4064 -> zlen seed = 160 ->
  keypair_seed P (Some pk0) (Some sk0) (Some seed) = Ret (0, Some pk, Some sk) -> keypair_of P x seed = (0, pkx, skx) ->
  zlen pk = 1408 /\ zlen sk = 4064 /\ pkx = pk_of x pk /\ skx = match x with Ed => sk_ed sk | Dil => sk_dil sk | Spx => sk_spx sk end /\ pk_spx pk = sk_spxpk sk.
Proof.
  intros HF HC L1 L2 L3 E EX. apply keypair_seed_success in E; try assumption.
  destruct E as (a & b & c & d & e & g & E1 & E2 & E3 & Ep & Es & A1 & A2 & A3 & A4 & A5 & A6).
  apply Some_inj in Ep, Es. subst pk sk. destruct (pk_parts a c e A1 A3 A5) as (P1 & P2 & P3 & P4). destruct (sk_parts b d c g A2 A4 A3 A6) as (S1 & S2 & S3 & S4 & S5).
  pose proof (cmp_spx_pk P HC (slice seed 64 96) ltac:(zl)) as HP. rewrite E3 in HP. specialize (HP eq_refl).
  split; [exact P4|]. split; [exact S5|].
  destruct x; cbn [keypair_of pk_of] in *; (split; [congruence|split; congruence]).
Qed.

(** ** Membership in the submitted messages *)
Lemma in_submitted P x spxpk m : forall qs, In m (submitted P x spxpk qs) ->
  exists q, In q qs /\ ((q_mode q = Full /\ q_msg q = m) \/ (q_mode q = Compact /\ x <> Spx /\ query_hash P q spxpk = m)).
Proof.
  induction qs as [|q qs IH]; cbn [submitted]; [intros []|]. intros H. apply in_app_or in H. destruct H as [H|H].
  - exists q. split; [now left|]. destruct (q_mode q); [left; destruct H as [H|[]]; auto|right]. destruct x; [..|destruct H]; destruct H as [H|[]]; (split; [reflexivity|split; [discriminate|exact H]]).
  - destruct (IH H) as (q' & I & D). exists q'. split; [now right|exact D].
Qed.
(** Queries of the hybrid game have nonces of the right length. *)
Lemma play_nonce P coins sk : (forall n, zlen (snd (coins Compact n 40)) = 40) ->
  forall A nf nc q, In q (fst (play P coins sk nf nc A)) -> q_mode q = Compact -> zlen (snd (q_rnd q 40)) = 40.
Proof.
  intros HR. induction A as [md m next IH|md m sm]; intros nf nc q; [|intros []]. cbn [play]. specialize (IH (ask P md (coins md match md with Full => nf | Compact => nc end) m sk)).
  destruct (play P coins sk _ _ (next _)) as [qs out] eqn:E. cbn [fst]. intros [<-|H] Hq.
  - cbn [q_mode q_rnd] in *. subst md. apply HR.
  - eapply IH; [|exact Hq]. rewrite E. exact H.
Qed.
