(** Property theorems about forging hybrid signatures (C74).  The games and the reduction are in
    HybridGame.v: [forges] is the chosen-message game of the hybrid API (any number of adaptive signing
    requests in both modes, then a signed message that verification accepts for a message not signed in
    that mode), [cforges] the same game for one component. *)
From Coq Require Import ZifyBool ZifyNat.
From Verif Require Import Base Hybrid HybridSpec HybridProofs HybridProofs2 HybridToy HybridGame HybridGameProofs.
From Verif Require PropsHybrid PropsHybridBuf HybridReal HybridRealProofs.
Local Open Scope Z_scope.
Ltac Zify.zify_post_hook ::= idtac.
Local Opaque zeros slice.

(** A forgery in full mode is a forgery of SPHINCS+, without exception: the reduction holds no SPHINCS+
    secret, gets signatures from its oracle only, and wins with the same random choices. *)
Theorem C74_full_forgery_forges_sphincs : forall P own theirs seed pk0 sk0 pk sk pkx skx A qs m sm,
  comps_fit P -> comps_faithful P -> comps_complete P -> zlen pk0 = 1408 -> zlen sk0 = 4064 -> zlen seed = 160 ->
  keypair_seed P (Some pk0) (Some sk0) (Some seed) = Ret (0, Some pk, Some sk) -> keypair_of P Spx seed = (0, pkx, skx) ->
  (forall n, zlen (snd (own Compact n 40)) = 40) ->
  forges P (joint Spx own theirs) pk sk A qs Full m sm ->
  cforges P Spx theirs pkx skx (reduce P Spx own (without Spx sk) pkx 0 0 A).
Proof.
  intros P own theirs seed pk0 sk0 pk sk pkx skx A qs m sm HF HT HC L1 L2 L3 HK HX HR (EP & HA & HN).
  destruct (keys_of _ _ _ _ _ _ _ _ _ HF HC L1 L2 L3 HK HX) as (Lp & Ls & Kp & Kx & KP). cbn [pk_of] in Kp.
  pose proof (simulation P Spx own theirs sk skx pkx (fit_sha P HF) Ls Kx (eq_trans Kp KP) HR A 0%nat 0%nat 0%nat (fun _ => eq_refl)) as S.
  rewrite EP in S. cbn [fst snd outcome_of] in S. eexists _, _, _. split; [exact S|]. split.
  - rewrite Kp. exact (accepts_full P m sm pk Spx HF HT Lp HA).
  - intros I. apply in_submitted in I. destruct I as (q & Iq & [[M1 M2]|[_ [N _]]]); [exact (HN q Iq M1 M2)|now apply N].
Qed.
(** It is a forgery of Ed25519 and of Dilithium as well, unless the message is the hash of a request made
    in compact mode (a 64-byte string that those two schemes did sign). *)
Theorem C74_full_forgery_forges_each : forall P x own theirs seed pk0 sk0 pk sk pkx skx A qs m sm,
  comps_fit P -> comps_faithful P -> comps_complete P -> zlen pk0 = 1408 -> zlen sk0 = 4064 -> zlen seed = 160 ->
  keypair_seed P (Some pk0) (Some sk0) (Some seed) = Ret (0, Some pk, Some sk) -> keypair_of P x seed = (0, pkx, skx) ->
  (forall n, zlen (snd (own Compact n 40)) = 40) ->
  forges P (joint x own theirs) pk sk A qs Full m sm ->
  cforges P x theirs pkx skx (reduce P x own (without x sk) (pk_spx pk) 0 0 A) \/
  (x <> Spx /\ exists q, In q qs /\ q_mode q = Compact /\ m = query_hash P q (pk_spx pk)).
Proof.
  intros P x own theirs seed pk0 sk0 pk sk pkx skx A qs m sm HF HT HC L1 L2 L3 HK HX HR (EP & HA & HN).
  destruct (keys_of _ _ _ _ _ _ _ _ _ HF HC L1 L2 L3 HK HX) as (Lp & Ls & Kp & Kx & KP).
  pose proof (simulation P x own theirs sk skx (pk_spx pk) (fit_sha P HF) Ls Kx KP HR A 0%nat 0%nat 0%nat (fun _ => eq_refl)) as S.
  rewrite EP in S. cbn [fst snd outcome_of] in S.
  destruct (in_dec (list_eq_dec Z.eq_dec) m (submitted P x (pk_spx pk) qs)) as [I|I].
  - apply in_submitted in I. destruct I as (q & Iq & [[M1 M2]|(M & N & Q)]); [exfalso; exact (HN q Iq M1 M2)|].
    right. split; [exact N|]. exists q. split; [exact Iq|]. split; [exact M|congruence].
  - left. eexists _, _, _. split; [exact S|]. split; [|exact I]. rewrite Kp. exact (accepts_full P m sm pk x HF HT Lp HA).
Qed.
(** A forgery in compact mode is a forgery of Ed25519 and of Dilithium, or it contains a SHA3-512 collision
    with a request made in compact mode, or the hash it signs was signed as a message in full mode. *)
Theorem C74_compact_forgery_forges_each : forall P x own theirs seed pk0 sk0 pk sk pkx skx A qs m sm,
  comps_fit P -> comps_faithful P -> comps_complete P -> zlen pk0 = 1408 -> zlen sk0 = 4064 -> zlen seed = 160 -> x <> Spx ->
  keypair_seed P (Some pk0) (Some sk0) (Some seed) = Ret (0, Some pk, Some sk) -> keypair_of P x seed = (0, pkx, skx) ->
  (forall n, zlen (snd (own Compact n 40)) = 40) ->
  forges P (joint x own theirs) pk sk A qs Compact m sm ->
  cforges P x theirs pkx skx (reduce P x own (without x sk) (pk_spx pk) 0 0 A) \/
  (exists q, In q qs /\ q_mode q = Compact /\
     let a := compact_hash_input (snd (q_rnd q 40)) (q_msg q) (pk_spx pk) in let b := compact_hash_input (nonce_of sm) m (pk_spx pk) in
     a <> b /\ sha3_512 P a = sha3_512 P b) \/
  (exists q, In q qs /\ q_mode q = Full /\ q_msg q = compact_hash P (nonce_of sm) m (pk_spx pk)).
Proof.
  intros P x own theirs seed pk0 sk0 pk sk pkx skx A qs m sm HF HT HC L1 L2 L3 NX HK HX HR (EP & HA & HN).
  destruct (keys_of _ _ _ _ _ _ _ _ _ HF HC L1 L2 L3 HK HX) as (Lp & Ls & Kp & Kx & KP).
  pose proof (simulation P x own theirs sk skx (pk_spx pk) (fit_sha P HF) Ls Kx KP HR A 0%nat 0%nat 0%nat (fun _ => eq_refl)) as S.
  rewrite EP in S. cbn [fst snd outcome_of] in S.
  destruct (accepts_compact P m sm pk x HF HT Lp NX HA) as [Ln V].
  destruct (in_dec (list_eq_dec Z.eq_dec) (compact_hash P (nonce_of sm) m (pk_spx pk)) (submitted P x (pk_spx pk) qs)) as [I|I].
  - right. apply in_submitted in I. destruct I as (q & Iq & [[M1 M2]|(M & N & Q)]); [right; exists q; auto|left].
    exists q. split; [exact Iq|]. split; [exact M|]. cbv zeta. split; [|exact Q]. intros E.
    assert (Lk: zlen (pk_spx pk) = 64) by (unfold pk_spx; rewrite zlen_slice; lia).
    apply compact_hash_input_inj in E; [|..|exact Ln|exact Lk|exact Lk].
    + destruct E as (_ & E & _). exact (HN q Iq M E).
    + eapply (play_nonce P (joint x own theirs) sk); [|rewrite EP; exact Iq|exact M]. intros n. rewrite joint_compact. apply HR.
  - left. eexists _, _, _. split; [exact S|]. split; [|exact I]. rewrite Kp. exact V.
Qed.
(** Keys used in one mode only: a full-mode forgery breaks all three schemes, ... *)
Theorem C74_full_only : forall P x own theirs seed pk0 sk0 pk sk pkx skx A qs m sm,
  comps_fit P -> comps_faithful P -> comps_complete P -> zlen pk0 = 1408 -> zlen sk0 = 4064 -> zlen seed = 160 ->
  keypair_seed P (Some pk0) (Some sk0) (Some seed) = Ret (0, Some pk, Some sk) -> keypair_of P x seed = (0, pkx, skx) ->
  (forall n, zlen (snd (own Compact n 40)) = 40) ->
  forges P (joint x own theirs) pk sk A qs Full m sm -> (forall q, In q qs -> q_mode q = Full) ->
  cforges P x theirs pkx skx (reduce P x own (without x sk) (pk_spx pk) 0 0 A).
Proof.
  intros P x own theirs seed pk0 sk0 pk sk pkx skx A qs m sm HF HT HC L1 L2 L3 HK HX HR HW HQ.
  destruct (C74_full_forgery_forges_each P x own theirs seed pk0 sk0 pk sk pkx skx A qs m sm) as [H|(_ & q & I & M & _)]; try assumption.
  apply HQ in I. congruence.
Qed.
(** ... and a compact-mode forgery breaks Ed25519 and Dilithium or SHA3-512. *)
Theorem C74_compact_only : forall P x own theirs seed pk0 sk0 pk sk pkx skx A qs m sm,
  comps_fit P -> comps_faithful P -> comps_complete P -> zlen pk0 = 1408 -> zlen sk0 = 4064 -> zlen seed = 160 -> x <> Spx ->
  keypair_seed P (Some pk0) (Some sk0) (Some seed) = Ret (0, Some pk, Some sk) -> keypair_of P x seed = (0, pkx, skx) ->
  (forall n, zlen (snd (own Compact n 40)) = 40) ->
  forges P (joint x own theirs) pk sk A qs Compact m sm -> (forall q, In q qs -> q_mode q = Compact) ->
  cforges P x theirs pkx skx (reduce P x own (without x sk) (pk_spx pk) 0 0 A) \/
  exists a b, a <> b /\ sha3_512 P a = sha3_512 P b.
Proof.
  intros P x own theirs seed pk0 sk0 pk sk pkx skx A qs m sm HF HT HC L1 L2 L3 NX HK HX HR HW HQ.
  destruct (C74_compact_forgery_forges_each P x own theirs seed pk0 sk0 pk sk pkx skx A qs m sm) as [H|[(q & I & M & a & b)|(q & I & M & _)]]; try assumption.
  - left. exact H.
  - right. eauto.
  - apply HQ in I. congruence.
Qed.
Print Assumptions C74_full_forgery_forges_sphincs. Print Assumptions C74_full_forgery_forges_each. Print Assumptions C74_compact_forgery_forges_each.
Print Assumptions C74_full_only. Print Assumptions C74_compact_only.

(** The reduction asks its oracle for exactly the messages the hybrid signing calls hand to scheme [x]: one
    per request, for SPHINCS+ one per request in full mode. *)
Theorem C74_reduction_requests : forall P x own theirs seed pk0 sk0 pk sk pkx skx A qs out,
  comps_fit P -> comps_complete P -> zlen pk0 = 1408 -> zlen sk0 = 4064 -> zlen seed = 160 ->
  keypair_seed P (Some pk0) (Some sk0) (Some seed) = Ret (0, Some pk, Some sk) -> keypair_of P x seed = (0, pkx, skx) ->
  (forall n, zlen (snd (own Compact n 40)) = 40) ->
  play P (joint x own theirs) sk 0 0 A = (qs, out) ->
  let ms := fst (cplay P x theirs skx 0 (reduce P x own (without x sk) (pk_spx pk) 0 0 A)) in
  ms = submitted P x (pk_spx pk) qs /\ (length ms <= length qs)%nat /\ (x <> Spx -> length ms = length qs).
Proof.
  intros P x own theirs seed pk0 sk0 pk sk pkx skx A qs out HF HC L1 L2 L3 HK HX HR EP ms.
  destruct (keys_of _ _ _ _ _ _ _ _ _ HF HC L1 L2 L3 HK HX) as (Lp & Ls & Kp & Kx & KP).
  pose proof (simulation P x own theirs sk skx (pk_spx pk) (fit_sha P HF) Ls Kx KP HR A 0%nat 0%nat 0%nat (fun _ => eq_refl)) as S.
  rewrite EP in S. cbn [fst snd] in S. assert (E: ms = submitted P x (pk_spx pk) qs) by (unfold ms; rewrite S; reflexivity).
  rewrite E. split; [reflexivity|]. clear. induction qs as [|q qs [IH1 IH2]]; cbn [submitted]; [split; [apply le_n|reflexivity]|].
  rewrite app_length. destruct (q_mode q), x; cbn [length]; (split; [lia|intros N; try (specialize (IH2 N); lia); congruence]).
Qed.
Print Assumptions C74_reduction_requests.

(** The exception for mixed modes is real: whatever the components, one full-mode request suffices to forge
    a compact-mode signature on any message (this is C15, as an adversary in the game). *)
Theorem C74_mixing_modes_forges : forall P coins seed pk0 sk0 pk sk nonce m sm0 l0,
  comps_fit P -> comps_faithful P -> comps_complete P -> zlen pk0 = 1408 -> zlen sk0 = 4064 -> zlen seed = 160 ->
  zlen nonce = 40 -> 1 <= zlen m <= 64 ->
  keypair_seed P (Some pk0) (Some sk0) (Some seed) = Ret (0, Some pk, Some sk) ->
  let M := compact_hash P nonce m (pk_spx pk) in
  ask P Full (coins Full 0%nat) M sk = Ret (0, Some sm0, Some l0) ->
  let A := Ask Full M (fun a => match a with Ret (_, Some sm, _) => Forge Compact m (repackage sm nonce m) | _ => Forge Compact m [] end) in
  exists qs sm, forges P coins pk sk A qs Compact m sm /\ length qs = 1%nat.
Proof.
  intros P coins seed pk0 sk0 pk sk nonce m sm0 l0 HF HT HC L1 L2 L3 Ln Lm HK M HS A.
  exists [{| q_mode := Full; q_msg := M; q_rnd := coins Full 0%nat |}], (repackage sm0 nonce m). split; [|reflexivity].
  assert (LM: zlen M = 64) by apply (fit_sha P HF).
  assert (LP: zlen pk = 1408).
  { apply keypair_seed_success in HK; try assumption. destruct HK as (a & b & c & d & e & g & _ & _ & _ & Ep & _ & A1 & A2 & A3 & A4 & A5 & A6).
    apply Some_inj in Ep. subst pk. apply (pk_parts a c e A1 A3 A5). }
  split; [unfold A; cbn [play]; rewrite HS; reflexivity|]. split.
  - cbn [ask] in HS. rewrite LM in HS.
    pose proof (PropsHybrid.C15_full_to_compact_repackaging_refuted P (coins Full 0%nat) seed pk0 sk0 pk sk (zeros (52342 + 64)) 0 nonce m sm0 l0 HF HT HC L1 L2 L3 Ln Lm) as R.
    cbv zeta in R. specialize (R ltac:(rewrite zlen_zeros; lia) HK HS (zeros 64) 0 ltac:(rewrite zlen_zeros; lia)).
    assert (Lr: zlen (repackage sm0 nonce m) = 2526 + zlen m).
    { apply PropsHybridBuf.sign_full_len in HS. rewrite zlen_zeros in HS by lia. unfold repackage, compact_layout. rewrite ?zlen_app, ?zlen_cons, ?(@zlen_nil Z), ?zlen_slice by lia. lia. }
    cbn [accepts]. rewrite Lr. destruct (verify_compact_iff P m (zlen m) (repackage sm0 nonce m) (2526 + zlen m) pk HF HT) as (r & E1 & _ & E2); try lia.
    rewrite E1. f_equal. apply E2. eexists. split; [exact R|]. rewrite slice_app_l by lia. reflexivity.
  - intros q [<-|[]] E. discriminate E.
Qed.
Print Assumptions C74_mixing_modes_forges.

(** The theorems apply to the actual components (HybridReal.v). *)
Theorem C74_actual_components : forall f u x own theirs seed pk0 sk0 pk sk pkx skx A qs md m sm, HybridReal.uninit_ok u ->
  let P := HybridReal.real f u in
  zlen pk0 = 1408 -> zlen sk0 = 4064 -> zlen seed = 160 ->
  keypair_seed P (Some pk0) (Some sk0) (Some seed) = Ret (0, Some pk, Some sk) -> keypair_of P x seed = (0, pkx, skx) ->
  (forall n, zlen (snd (own Compact n 40)) = 40) ->
  forges P (joint x own theirs) pk sk A qs md m sm -> (forall q, In q qs -> q_mode q = md) -> (md = Compact -> x <> Spx) ->
  cforges P x theirs pkx skx (reduce P x own (without x sk) (pk_spx pk) 0 0 A) \/
  (md = Compact /\ exists a b, a <> b /\ sha3_512 P a = sha3_512 P b).
Proof.
  intros f u x own theirs seed pk0 sk0 pk sk pkx skx A qs md m sm U P L1 L2 L3 HK HX HR HW HQ HM. destruct md.
  - left. eapply C74_full_only; try eassumption; [now apply HybridRealProofs.real_fit|now apply HybridRealProofs.real_faithful|now apply HybridRealProofs.real_complete].
  - destruct (C74_compact_only P x own theirs seed pk0 sk0 pk sk pkx skx A qs m sm) as [H|H]; try assumption;
      [now apply HybridRealProofs.real_fit|now apply HybridRealProofs.real_faithful|now apply HybridRealProofs.real_complete|now apply HM|now left|right; split; [reflexivity|exact H]].
Qed.
Print Assumptions C74_actual_components.

(** Non-vacuity: against the toy components (whose public keys reveal the secrets) there is an adversary
    that asks one full-mode signature on 'hello' and then forges one on another message. *)
Example C74_forger_exists : exists A qs m sm coins pkx skx,
  forges toy coins toy_pk toy_sk A qs Full m sm /\ qs <> [] /\ (forall q, In q qs -> q_mode q = Full) /\ keypair_of toy Spx toy_seed = (0, pkx, skx) /\
  keypair_seed toy (Some (zeros 1408)) (Some (zeros 4064)) (Some toy_seed) = Ret (0, Some toy_pk, Some toy_sk) /\
  comps_fit toy /\ comps_faithful toy /\ comps_complete toy /\ (forall n, zlen (snd (coins Compact n 40)) = 40).
Proof.
  set (m := [1; 2; 3]).
  destruct (PropsHybrid.C03_full_sign_succeeds toy toy_rnd (zeros 52345) 0 m 3 toy_sk toy_fit toy_faithful) as (sm & l & E); try reflexivity; try lia.
  pose proof (PropsHybridBuf.sign_full_len _ _ _ _ _ _ _ _ _ _ E) as LS. rewrite zlen_zeros in LS by lia.
  destruct (PropsHybrid.C05_full_layout toy toy_rnd (zeros 52345) 0 m 3 toy_sk _ _ toy_fit toy_faithful ltac:(rewrite zlen_zeros; lia) ltac:(reflexivity) ltac:(reflexivity) E) as (e & d & s & C).
  cbv zeta in C. destruct C as (_ & _ & _ & _ & _ & _ & _ & _ & El). apply Some_inj in El. change (l = 52345) in El. subst l.
  pose proof (PropsHybrid.C03_full_sign_then_open toy toy_rnd toy_seed (zeros 1408) (zeros 4064) toy_pk toy_sk (zeros 52345) 0 m sm 52345 toy_fit toy_faithful toy_complete) as [_ V]; try reflexivity; try exact toy_keys_ok; try exact E.
  destruct (keypair_of toy Spx toy_seed) as [[c pkx] skx] eqn:EK. assert (c = 0) by (cbn in EK; congruence). subst c.
  exists (Ask Full toy_msg (fun _ => Forge Full m sm)), [{| q_mode := Full; q_msg := toy_msg; q_rnd := toy_rnd |}], m, sm, (fun _ _ => toy_rnd), pkx, skx.
  split.
  - split; [reflexivity|]. split; [cbn [accepts]; rewrite LS; exact V|]. intros q [<-|[]] _. discriminate.
  - split; [discriminate|]. split; [intros q [<-|[]]; reflexivity|]. split; [reflexivity|]. split; [exact toy_keys_ok|].
    split; [exact toy_fit|]. split; [exact toy_faithful|]. split; [exact toy_complete|]. intros n. reflexivity.
Qed.
(** The signing call that [C74_mixing_modes_forges] needs succeeds. *)
Example C74_mixing_request_succeeds : let M := compact_hash toy (zeros 40) toy_msg (pk_spx toy_pk) in
  exists sm l, ask toy Full toy_rnd M toy_sk = Ret (0, Some sm, Some l).
Proof.
  intros M. assert (LM: zlen M = 64) by apply (fit_sha toy toy_fit). cbn [ask]. rewrite LM.
  apply (PropsHybrid.C03_full_sign_succeeds toy toy_rnd _ 0 M 64 toy_sk toy_fit toy_faithful); rewrite ?zlen_zeros; try lia; reflexivity.
Qed.
(** A compact-mode forger: one request on 'hello', then a signed message for another message. *)
Example C74_compact_forger_exists : exists A qs m sm,
  forges toy (fun _ _ => toy_rnd) toy_pk toy_sk A qs Compact m sm /\ qs <> [] /\ (forall q, In q qs -> q_mode q = Compact).
Proof.
  set (m := [1; 2; 3]). assert (R: zlen (snd (toy_rnd 40)) = 40) by reflexivity. assert (Lk: zlen toy_sk = 4064) by reflexivity.
  assert (L0: zlen (zeros 2529) = 2529) by (apply zlen_zeros; lia). assert (Lm: zlen m = 3) by reflexivity.
  destruct (PropsHybrid.C04_compact_sign_succeeds toy toy_rnd (zeros 2529) 0 m 3 toy_sk toy_fit toy_faithful ltac:(lia) ltac:(lia) ltac:(lia) Lk R eq_refl eq_refl eq_refl) as (sm & l & E).
  pose proof (PropsHybridBuf.sign_compact_len _ _ _ _ _ _ _ _ _ _ E) as LS. rewrite L0 in LS.
  destruct (PropsHybrid.C06_compact_layout toy toy_rnd (zeros 2529) 0 m 3 toy_sk _ _ toy_fit toy_faithful ltac:(lia) ltac:(lia) Lk R E) as (e & d & C).
  cbv zeta in C. destruct C as (_ & _ & _ & _ & _ & _ & _ & El). apply Some_inj in El. change (l = 2529) in El. subst l.
  pose proof (PropsHybrid.C04_compact_sign_then_open toy toy_rnd toy_seed (zeros 1408) (zeros 4064) toy_pk toy_sk (zeros 2529) 0 m sm 2529 toy_fit toy_faithful toy_complete
    ltac:(apply zlen_zeros; lia) ltac:(apply zlen_zeros; lia) eq_refl ltac:(lia) R toy_keys_ok E) as [_ V].
  exists (Ask Compact toy_msg (fun _ => Forge Compact m sm)), [{| q_mode := Compact; q_msg := toy_msg; q_rnd := toy_rnd |}], m, sm.
  split; [|split; [discriminate|intros q [<-|[]]; reflexivity]].
  split; [reflexivity|]. split; [cbn [accepts]; rewrite LS; exact V|]. intros q [<-|[]] _. discriminate.
Qed.
