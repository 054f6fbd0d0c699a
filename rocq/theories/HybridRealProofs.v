(** The actual components meet the contracts of HybridSpec.v. *)
From Coq Require Import ZifyBool ZifyNat.
From Verif Require Import Base Wp.
From Verif Require Import Hybrid HybridSpec HybridReal.
From Verif Require HybridProofs2 EdDecode SpongePure SpongeProofs SpongeProofs2 Sponge SpxSpec SpxTop SpxSign Spx DilSign DilSignProofs DilPack DilVec DilVecProofs DilPacking DilReduce Tweet TweetEd TweetField TweetSha Sha512Spec EdSig EdSpec PropsEd PropsSpx.
Local Open Scope Z_scope.
Ltac Zify.zify_post_hook ::= idtac.

Lemma bytesb_ok l : bytesb l = true <-> bytes_ok l.
Proof.
  unfold bytesb, bytes_ok. rewrite forallb_forall, Forall_forall. split; intros H x Hx; specialize (H x Hx); unfold byte_ok in *; lia.
Qed.
Ltac bb := repeat match goal with
  | H : bytesb _ = true |- _ => apply bytesb_ok in H
  | H : _ && _ = true |- _ => apply andb_true_iff in H; destruct H
  end.

(** ** SHA3-512 *)
Lemma real_sha_len x : zlen (real_sha3_512 x) = 64.
Proof.
  unfold real_sha3_512. destruct (bytesb x) eqn:B; [|reflexivity]. bb. unfold Sponge.sha3_512. pose proof (zlen_nonneg x).
  rewrite SpongeProofs2.sha3_oneshot_ok; [|reflexivity|unfold Sponge.SHA3_512_RATE; lia|unfold Sponge.SHA3_512_RATE; lia|reflexivity|lia|exact B].
  assert (L: zlen (SpongePure.sponge_bytes Sponge.SHA3_512_RATE 0x06 (slice x 0 (zlen x)) 64) = 64) by (apply (DilSignProofs.sponge_bytes_len 72 0x06); lia).
  rewrite SpongeProofs2.zlen_splice; [reflexivity|lia|]. rewrite L. reflexivity.
Qed.
Lemma real_sha_val x : bytes_ok x -> real_sha3_512 x = SpongePure.sha3_512_bytes x.
Proof.
  intros B. unfold real_sha3_512. rewrite (proj2 (bytesb_ok x) B). unfold Sponge.sha3_512. pose proof (zlen_nonneg x).
  rewrite SpongeProofs2.sha3_oneshot_ok; [|reflexivity|unfold Sponge.SHA3_512_RATE; lia|unfold Sponge.SHA3_512_RATE; lia|reflexivity|lia|exact B].
  unfold SpongePure.sha3_512_bytes. rewrite (slice_all x) by reflexivity. change Sponge.SHA3_512_RATE with 72. set (s := SpongePure.sponge_bytes 72 0x06 x 64). assert (L: zlen s = 64) by (apply (DilSignProofs.sponge_bytes_len 72 0x06); lia).
  unfold SpongeProofs2.splice. rewrite L. rewrite slice_0, app_nil_l. rewrite slice_neg by (rewrite zlen_zeros; lia). apply app_nil_r.
Qed.
Lemma real_sha_bytes x : bytes_ok (real_sha3_512 x).
Proof.
  destruct (bytesb x) eqn:B; [|unfold real_sha3_512; rewrite B; apply bytes_ok_zeros]. bb. rewrite real_sha_val by exact B. apply (DilSignProofs.sponge_bytes_ok 72 0x06); lia.
Qed.

(** ** ed25519 *)
Lemma real_ed_keys s : zlen s = 32 -> bytes_ok s -> real_ed_keypair s = (0, EdSig.ed_public s, s ++ EdSig.ed_public s).
Proof. intros L B. unfold real_ed_keypair. rewrite (proj2 (bytesb_ok s) B). now rewrite TweetEd.ed_keypair_seed_ok. Qed.
Lemma real_ed_sign_gen m k : bytes_ok m -> bytes_ok k -> zlen m <= 64 -> zlen k = 64 ->
  exists s, zlen s = 64 /\ bytes_ok s /\ real_ed_sign m k = {| code := 0; olen := 64 + zlen m; obytes := s ++ m |} /\
  (forall seed, k = seed ++ EdSig.ed_public seed -> zlen seed = 32 -> bytes_ok seed -> s = EdSig.ed_signature seed m) /\
  EdSpec.le_val (slice s 32 32) < EdSpec.edL.
Proof.
  intros Bm Bk Hm Lk. pose proof (zlen_nonneg m) as Hm0. unfold real_ed_sign. rewrite (proj2 (bytesb_ok m) Bm), (proj2 (bytesb_ok k) Bk). cbn [andb].
  assert (Ek: k = slice k 0 32 ++ slice k 32 32) by (rewrite <- (slice_all k 64) at 1 by lia; apply (slice_split k 0 64 32); lia).
  set (a := slice k 0 32) in *. set (b := slice k 32 32) in *. assert (La: zlen a = 32) by (unfold a; rewrite zlen_slice; lia). assert (Lb: zlen b = 32) by (unfold b; rewrite zlen_slice; lia).
  assert (Ba: bytes_ok a) by now apply bytes_ok_slice. assert (Bb: bytes_ok b) by now apply bytes_ok_slice. clearbody a b. rewrite Ek.
  rewrite (TweetEd.ed_sign_gen (zeros 128) m (zlen m) a b) by (first [assumption | apply bytes_ok_zeros | rewrite ?zlen_zeros; lia]).
  rewrite (slice_all m) by reflexivity. rewrite zlen_zeros by lia.
  set (sg := EdSig.ed_sigR a m ++ EdSpec.le_bytes 32 ((EdSig.ed_nonce a m + EdSig.ed_challenge (EdSig.ed_sigR a m) b m * EdSig.ed_scalar a) mod EdSpec.edL)).
  assert (Lg: zlen sg = 64) by (unfold sg, EdSig.ed_sigR; rewrite zlen_app, TweetEd.zlen_le_bytes, EdDecode.zlen_penc; reflexivity).
  assert (Bg: bytes_ok sg) by (apply bytes_ok_app; split; [apply EdDecode.penc_bytes|apply TweetField.le_bytes_ok]).
  exists sg. split; [exact Lg|]. split; [exact Bg|]. split; [|split].
  - f_equal; [lia|]. rewrite (app_assoc (EdSig.ed_sigR a m)). fold sg. clearbody sg. rewrite (app_assoc sg m). rewrite slice_app_l by (rewrite ?zlen_app; lia). apply slice_all. rewrite zlen_app. lia.
  - intros seed E Ls Bs. assert (E2: a = seed /\ b = EdSig.ed_public seed).
    { apply HybridProofs2.app_inj_len; [lia|exact E]. }
    destruct E2 as [-> ->]. reflexivity.
  - pose proof TweetEd.edL_lt as RL. unfold sg, EdSig.ed_sigR. rewrite slice_app_r by (rewrite ?EdDecode.zlen_penc; lia). rewrite EdDecode.zlen_penc. change (32 - 32) with 0. rewrite slice_all by (rewrite TweetEd.zlen_le_bytes; reflexivity).
    set (x := _ + _). pose proof (Z.mod_pos_bound x EdSpec.edL ltac:(lia)) as Hx. rewrite TweetField.le_val_bytes by (change (256 ^ Z.of_nat 32) with (2 ^ 256); lia). lia.
Qed.
Lemma real_ed_open_gen s k : bytes_ok s -> bytes_ok k -> 64 <= zlen s <= 128 -> zlen k = 32 ->
  exists rc l m', real_ed_open s k = {| code := rc; olen := l; obytes := m' |} /\ zlen m' = 128 /\
  ((rc = 0 /\ l = zlen s - 64 /\ EdSig.ed_valid k (slice s 0 64) (slice s 64 (zlen s - 64)) /\ slice m' 0 (zlen s - 64) = slice s 64 (zlen s - 64)) \/
   (rc = -1 /\ ~ EdSig.ed_valid k (slice s 0 64) (slice s 64 (zlen s - 64)))).
Proof.
  intros Bs Bk Ls Lk. unfold real_ed_open. rewrite (proj2 (bytesb_ok s) Bs), (proj2 (bytesb_ok k) Bk). cbn [andb].
  destruct (PropsEd.C41_ed25519_open (zeros 128) s (zlen s) k Lk Bk (bytes_ok_zeros _) Bs ltac:(lia) ltac:(rewrite zlen_zeros; lia) ltac:(lia)) as (rc & l & m' & E & Lm & _ & H).
  rewrite E. exists rc, l, m'. split; [reflexivity|]. split; [exact Lm|]. cbv zeta in H. destruct H as [(-> & -> & _ & V & Hm)|(-> & _ & V & _)]; [left; repeat split; assumption|right; split; [reflexivity|apply V; lia]].
Qed.

(** ** Dilithium *)
Lemma dil_key_shape f s pk sk : DilSign.keypair_seed f s = Ret (Some (pk, sk)) -> zlen pk = 1312 /\ bytes_ok pk /\ zlen sk = 2560 /\ bytes_ok sk.
Proof.
  intros HK. unfold DilSign.keypair_seed in HK. set (sb := SpongePure.shake256_bytes (slice s 0 32) 128) in HK.
  assert (Lb: zlen sb = 128) by (apply (DilSignProofs.sponge_bytes_len 136 0x1F); lia). assert (Bb: bytes_ok sb) by (apply (DilSignProofs.sponge_bytes_ok 136 0x1F); lia).
  destruct (DilSignProofs.keygen_spec f (slice sb 0 32) (slice sb 32 64) (slice sb 96 32)) as (r & E & HKS); try (apply bytes_ok_slice; exact Bb); try (apply zlen_slice; lia).
  rewrite E in HK. assert (Hr: r = Some (pk, sk)) by congruence. destruct (HKS pk sk Hr) as (mat & s1 & s2 & t0 & t1 & _ & H1 & H2 & H3 & H4 & _). auto.
Qed.
(** signature length and bytes for an arbitrary secret key *)
Lemma dil_sig_shape f m sk sig : zlen sk = 2560 -> bytes_ok sk -> DilSign.sign_signature f m sk = Ret (Some sig) -> zlen sig = 2420 /\ bytes_ok sig.
Proof.
  intros Ls Bs HS. destruct (DilSignProofs.sign_signature_spec f m sk Ls Bs) as (r' & E & HSS). rewrite E in HS. assert (Hr': r' = Some sig) by congruence.
  specialize (HSS sig Hr'). destruct (DilVec.unpack_sk sk) as [[[[[rho tr] key] t0] s1] s2]. specialize (HSS _ _ _ _ _ _ eq_refl).
  destruct HSS as (mat' & s1h & s2h & t0h & EM' & Sh & w1 & pw1 & cp & z & h & a0 & Vw1 & EW & EC & Hz & Hh & Vh & EP & Hr & Heq).
  set (c := SpongePure.shake256_bytes _ 32) in *.
  assert (Lc: zlen c = 32) by (apply (DilSignProofs.sponge_bytes_len 136 0x1F); lia). assert (Bc: bytes_ok c) by (apply (DilSignProofs.sponge_bytes_ok 136 0x1F); lia).
  assert (Zz: DilPacking.z_vec z). { destruct Hz as [V HB]. split; [apply V|]. apply DilVecProofs.vin_of_cf; [exact V|]. intros k i Hk Hi. specialize (HB k i Hk Hi). unfold DilReduce.GAMMA1, DilReduce.BETA in HB. lia. }
  destruct (DilPacking.pack_sig_ok c z h Lc Bc Zz Hh) as (sig' & EP' & Lsig & Bsig & Usig). rewrite EP in EP'. assert (sig' = sig) by congruence. subst sig'. split; assumption.
Qed.

(** ** SPHINCS+ *)
Section Spx.
Variable H : list Z -> Z -> list Z.
Hypothesis HB : forall x n, bytes_ok (H x n).
Lemma bytes_flat_map {A} (g : A -> list Z) l : (forall x, bytes_ok (g x)) -> bytes_ok (flat_map g l).
Proof. clear. intros G. induction l as [|x l IH]; cbn [flat_map]; [constructor|]. apply bytes_ok_app. split; [apply G|exact IH]. Qed.
Lemma bytes_chain ps l t kp c n : forall X i, bytes_ok X -> bytes_ok (SpxSpec.chain H ps l t kp c X i n).
Proof. induction n as [|n IH]; intros X i BX; cbn [SpxSpec.chain]; [exact BX|]. apply IH. apply HB. Qed.
Lemma bytes_tree hash leaf : (forall z i M, bytes_ok (hash z i M)) -> (forall i, bytes_ok (leaf i)) -> forall z i, bytes_ok (SpxSpec.tree_node hash leaf z i).
Proof. clear. intros Hh Hl z i. destruct z; cbn [SpxSpec.tree_node]; [apply Hl|apply Hh]. Qed.
Lemma bytes_auth hash leaf n i : (forall z i M, bytes_ok (hash z i M)) -> (forall i, bytes_ok (leaf i)) -> bytes_ok (SpxSpec.auth_path hash leaf n i).
Proof. clear. intros Hh Hl. apply bytes_flat_map. intros j. now apply bytes_tree. Qed.
Lemma bytes_ht ps ss : forall n l M t leaf, bytes_ok (SpxSpec.ht_sign H ps ss n l M t leaf).
Proof.
  induction n as [|n IH]; intros l M t leaf; cbn [SpxSpec.ht_sign]; [constructor|]. cbv zeta. apply bytes_ok_app. split; [|apply IH].
  unfold SpxSpec.xmss_sign. apply bytes_ok_app. split.
  - apply bytes_flat_map. intros c. apply bytes_chain. apply HB.
  - apply bytes_auth; intros; apply HB.
Qed.
Lemma bytes_slh_sign ps ss M prf root r : bytes_ok (SpxSpec.slh_sign H ps ss M prf root r).
Proof.
  unfold SpxSpec.slh_sign. cbv zeta. apply bytes_ok_app. split; [apply HB|]. apply bytes_ok_app. split; [|apply bytes_ht].
  apply bytes_flat_map. intros i. cbv zeta. apply bytes_ok_app. split; [apply HB|]. apply bytes_auth; intros; apply HB.
Qed.
End Spx.

Definition SH := SpongePure.shake256_bytes.
Lemma spx_keys u s : uninit_ok u -> zlen s = 96 -> bytes_ok s -> real_spx_keypair u s = (0, fst (SpxSpec.slh_keygen SH s), snd (SpxSpec.slh_keygen SH s)).
Proof.
  intros (U1 & U2 & U3 & U4) L B. unfold real_spx_keypair. rewrite (proj2 (bytesb_ok s) B). fold SH.
  rewrite (PropsSpx.C50_keygen_is_fips205 SH (u_stack u) (u_auth u) (zeros 64) (zeros 128) s PropsSpx.shake256_hash_like); [reflexivity| |exact L].
  split; [exact U1|]. split; [exact U2|]. split; [reflexivity|]. split; [reflexivity|apply bytes_ok_zeros].
Qed.
Lemma spx_key_shape s : zlen s = 96 -> bytes_ok s -> let pk := fst (SpxSpec.slh_keygen SH s) in let sk := snd (SpxSpec.slh_keygen SH s) in
  zlen pk = 64 /\ zlen sk = 128 /\ bytes_ok pk /\ bytes_ok sk /\ slice sk 64 64 = pk.
Proof.
  intros L B. unfold SpxSpec.slh_keygen. cbn [fst snd]. set (rt := SpxSpec.slh_root SH _ _). destruct PropsSpx.shake256_hash_like as [HH HB]. assert (Lr: zlen rt = 32) by (apply SpxTop.zlen_slh_root; assumption).
  assert (Br: bytes_ok rt) by (apply SpxTop.bytes_slh_root; assumption).
  rewrite !zlen_app, zlen_slice by lia. split; [lia|]. split; [lia|]. split; [apply bytes_ok_app; split; [now apply bytes_ok_slice|exact Br]|]. split; [apply bytes_ok_app; now split|].
  rewrite (slice_split _ 64 64 32) by (rewrite ?zlen_app; lia). f_equal; [apply slice_app_l; lia|]. change (64 + 32) with 96. change (64 - 32) with 32. rewrite slice_app_r by lia. rewrite L. apply slice_all. lia.
Qed.
Lemma spx_sign_gen u rb m k : uninit_ok u -> bytes_ok m -> bytes_ok k -> zlen k = 128 ->
  (fst (rb 32) = 0 /\ real_spx_sign u rb m k = {| code := 0; olen := 49856; obytes := SpxSpec.slh_sign_sk SH m k (snd (rb 32)) |}) \/
  (fst (rb 32) <> 0 /\ real_spx_sign u rb m k = {| code := -1; olen := 0; obytes := zeros 49856 |}).
Proof.
  intros (U1 & U2 & U3 & U4) Bm Bk Lk. unfold real_spx_sign. rewrite (proj2 (bytesb_ok m) Bm), (proj2 (bytesb_ok k) Bk). cbn [andb]. fold SH. destruct (rb 32) as [r o] eqn:R. cbn [fst snd].
  destruct (Z.eq_dec r 0) as [->|Hr].
  - left. split; [reflexivity|]. rewrite (PropsSpx.C50_sign_is_fips205 SH rb (u_stkf u) (u_stkm u) (zeros 49856) 0 m k o PropsSpx.shake256_hash_like U3 U4) by (rewrite ?zlen_zeros; first [assumption | lia]).
    rewrite slice_neg by (rewrite zlen_zeros; lia). rewrite app_nil_r. reflexivity.
  - right. split; [exact Hr|]. rewrite (PropsSpx.C35_sign_signature_reports_partial SH rb r o) by assumption. reflexivity.
Qed.
Lemma spx_sig_shape m k o : zlen (SpxSpec.slh_sign_sk SH m k o) = 49856 /\ bytes_ok (SpxSpec.slh_sign_sk SH m k o).
Proof. destruct PropsSpx.shake256_hash_like as [HH HB]. split; [apply SpxSign.zlen_slh_sign; assumption|apply bytes_slh_sign; exact HB]. Qed.

(** ** The contracts *)
Theorem real_fit f u : uninit_ok u -> comps_fit (real f u).
Proof.
  intros U. split; cbn [ed_keypair dil_keypair spx_keypair ed_sign dil_sign spx_sign ed_open sha3_512 real].
  - intros s L. destruct (bytesb s) eqn:B; [bb|unfold real_ed_keypair; rewrite B; split; reflexivity]. rewrite real_ed_keys by assumption. rewrite zlen_app. unfold EdSig.ed_public. rewrite EdDecode.zlen_penc. lia.
  - intros s L. unfold real_dil_keypair. destruct (bytesb s) eqn:B; [|split; reflexivity]. destruct (DilSign.keypair_seed f s) as [[[pk sk]|]|] eqn:E; [|split; reflexivity|split; reflexivity]. apply dil_key_shape in E. tauto.
  - intros s L. destruct (bytesb s) eqn:B; [bb|unfold real_spx_keypair; rewrite B; split; reflexivity]. rewrite spx_keys by assumption. pose proof (spx_key_shape s L B) as Q. cbv zeta in Q. tauto.
  - intros m k Lm Lk. destruct (bytesb m && bytesb k) eqn:B; [bb|unfold real_ed_sign; rewrite B; cbn [obytes fail_res]; change (zlen (@nil Z)) with 0; lia]. destruct (real_ed_sign_gen m k) as (s & Ls & _ & -> & _); try assumption; try lia. cbn [obytes]. rewrite zlen_app. lia.
  - intros m k Lm Lk. unfold real_dil_sign. destruct (bytesb m && bytesb k) eqn:B; [bb|cbn [obytes fail_res]; change (zlen (@nil Z)) with 0; lia]. destruct (DilSign.sign_signature f m k) as [[sig|]|] eqn:E; cbn [obytes fail_res]; try (change (zlen (@nil Z)) with 0; lia). apply dil_sig_shape in E; try assumption. lia.
  - intros rb m k Lm Lk. destruct (bytesb m && bytesb k) eqn:B; [bb|unfold real_spx_sign; rewrite B; cbn [obytes fail_res]; change (zlen (@nil Z)) with 0; lia]. destruct (spx_sign_gen u rb m k) as [[_ ->]|[_ ->]]; try assumption; cbn [obytes]; [rewrite (proj1 (spx_sig_shape _ _ _)); lia|rewrite zlen_zeros; lia].
  - intros s k Ls Lk. destruct (bytesb s && bytesb k) eqn:B; [bb|unfold real_ed_open; rewrite B; cbn [obytes fail_res]; change (zlen (@nil Z)) with 0; lia]. destruct (real_ed_open_gen s k) as (rc & l & m' & -> & Lm & _); try assumption; try lia. cbn [obytes]. lia.
  - apply real_sha_len.
Qed.
Theorem real_faithful f u : uninit_ok u -> comps_faithful (real f u).
Proof.
  intros U. split; cbn [ed_keypair dil_keypair spx_keypair ed_sign dil_sign spx_sign ed_open sha3_512 real].
  - intros m k Lm Lk E. destruct (bytesb m && bytesb k) eqn:B; [bb|unfold real_ed_sign in E; rewrite B in E; discriminate E]. destruct (real_ed_sign_gen m k) as (s & Ls & _ & -> & _); try assumption; try lia. cbn [olen obytes]. split; [reflexivity|]. exists s. split; [exact Ls|reflexivity].
  - intros m k Lm Lk. unfold real_dil_sign. destruct (bytesb m && bytesb k) eqn:B; [bb|discriminate]. destruct (DilSign.sign_signature f m k) as [[sig|]|] eqn:E; cbn [code olen obytes fail_res]; try discriminate. intros _. apply dil_sig_shape in E; try assumption. tauto.
  - intros rb m k Lm Lk E. destruct (bytesb m && bytesb k) eqn:B; [bb|unfold real_spx_sign in E; rewrite B in E; discriminate E]. destruct (spx_sign_gen u rb m k) as [[_ G]|[_ G]]; try assumption; rewrite G in E |- *; cbn [code olen obytes] in *; [|discriminate E]. split; [reflexivity|]. apply spx_sig_shape.
  - intros sig m k Lg Lm Lk E. destruct (bytesb (sig ++ m) && bytesb k) eqn:B; [bb|unfold real_ed_open in E; rewrite B in E; discriminate E]. destruct (real_ed_open_gen (sig ++ m) k) as (rc & l & m' & G & L' & [(-> & -> & _ & Hm)|[-> _]]); try assumption; try (rewrite zlen_app; lia); rewrite G in E |- *; cbn [code olen obytes] in *; [|discriminate E].
    rewrite zlen_app, Lg. split; [lia|]. rewrite zlen_app, Lg in Hm. replace (64 + zlen m - 64) with (zlen m) in Hm by lia. rewrite slice_app_r in Hm by lia. rewrite Lg in Hm. change (64 - 64) with 0 in Hm. rewrite (slice_all m) in Hm by reflexivity.
    exists (slice m' (zlen m) (128 - zlen m)). rewrite <- Hm at 1. rewrite <- (slice_all m' 128) at 1 by lia. apply (slice_split m' 0 128 (zlen m)); lia.
Qed.
Theorem real_complete f u : uninit_ok u -> comps_complete (real f u).
Proof.
  intros U. split; cbn [ed_keypair dil_keypair spx_keypair ed_sign dil_sign spx_sign ed_open dil_verify spx_verify sha3_512 real].
  - intros s m L Lm. destruct (bytesb s) eqn:B; [bb|unfold real_ed_keypair; rewrite B; intros E; discriminate E]. rewrite real_ed_keys by assumption. intros _ E.
    destruct (bytesb m && bytesb (s ++ EdSig.ed_public s)) eqn:B2; [bb|unfold real_ed_sign in E; rewrite B2 in E; discriminate E].
    assert (Lpk: zlen (EdSig.ed_public s) = 32) by apply EdDecode.zlen_penc.
    destruct (real_ed_sign_gen m (s ++ EdSig.ed_public s)) as (sg & Lg & Bg & -> & Hs & _); try assumption; [lia|rewrite zlen_app; lia|]. cbn [obytes]. rewrite (Hs s eq_refl L B) in *.
    destruct (real_ed_open_gen (EdSig.ed_signature s m ++ m) (EdSig.ed_public s)) as (rc & l & m' & -> & L' & [(-> & _)|[_ V]]); try assumption; [apply bytes_ok_app; now split|apply EdDecode.penc_bytes|rewrite zlen_app; lia|reflexivity|].
    exfalso. apply V. rewrite zlen_app, Lg. replace (64 + zlen m - 64) with (zlen m) by lia. rewrite slice_app_l by lia. rewrite slice_all by lia. rewrite slice_app_r by lia. rewrite Lg. change (64 - 64) with 0. rewrite slice_all by reflexivity. apply TweetEd.ed_valid_weaken, TweetEd.ed_signature_valid.
  - intros s m L Lm. unfold real_dil_keypair. destruct (bytesb s) eqn:B; [bb|discriminate]. destruct (DilSign.keypair_seed f s) as [[[pk sk]|]|] eqn:E; try discriminate. intros _. unfold real_dil_sign.
    destruct (dil_key_shape f s pk sk E) as (L1 & B1 & L2 & B2).
    destruct (bytesb m && bytesb sk) eqn:B3; [bb|discriminate]. destruct (DilSign.sign_signature f m sk) as [[sig|]|] eqn:ES; try discriminate. intros _. cbn [obytes]. destruct (dil_sig_shape f m sk sig L2 B2 ES) as [L3 B4].
    unfold real_dil_verify. rewrite (proj2 (bytesb_ok sig)), (proj2 (bytesb_ok m)), (proj2 (bytesb_ok pk)) by assumption. cbn [andb]. rewrite L3. destruct (DilSignProofs.sign_verify_correct f f f s m pk sk sig L B E ES (le_n _)) as [_ ->]. reflexivity.
  - intros s rb m L Lm. destruct (bytesb s) eqn:B; [bb|unfold real_spx_keypair; rewrite B; intros E; discriminate E]. rewrite spx_keys by assumption. intros _ E. pose proof (spx_key_shape s L B) as Q. cbv zeta in Q. destruct Q as (Lp & Lk & Bp & Bk & _).
    destruct (bytesb m) eqn:B2; [bb|unfold real_spx_sign in E; rewrite B2 in E; discriminate E].
    destruct (spx_sign_gen u rb m (snd (SpxSpec.slh_keygen SH s))) as [[_ G]|[_ G]]; try assumption; rewrite G in E |- *; cbn [code obytes] in *; [|discriminate E].
    destruct (spx_sig_shape m (snd (SpxSpec.slh_keygen SH s)) (snd (rb 32))) as [L3 B3]. set (sig := SpxSpec.slh_sign_sk SH m _ _) in *.
    unfold real_spx_verify. rewrite (proj2 (bytesb_ok sig)), (proj2 (bytesb_ok m)), (proj2 (bytesb_ok (fst (SpxSpec.slh_keygen SH s)))) by assumption. cbn [andb]. fold SH.
    destruct PropsSpx.shake256_hash_like as [HH HB]. assert (HV: let '(pk, sk) := SpxSpec.slh_keygen SH s in SpxSpec.slh_verify SH m (SpxSpec.slh_sign_sk SH m sk (snd (rb 32))) pk) by (apply SpxTop.slh_correct; assumption).
    destruct (PropsSpx.C50_verify_is_fips205 SH (u_skseed u) sig m (fst (SpxSpec.slh_keygen SH s)) PropsSpx.shake256_hash_like Lp) as [[-> _]|[_ N]]; [reflexivity|]. exfalso. apply N. unfold sig. destruct (SpxSpec.slh_keygen SH s). exact HV.
  - intros s L. destruct (bytesb s) eqn:B; [bb|unfold real_spx_keypair; rewrite B; intros E; discriminate E]. rewrite spx_keys by assumption. intros _. pose proof (spx_key_shape s L B) as Q. cbv zeta in Q. tauto.
Qed.
