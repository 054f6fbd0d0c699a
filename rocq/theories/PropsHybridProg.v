(** Property theorems: hybrid.c run as one program with TweetNaCl, dilithium2, SPHINCS+ and common/
    (HybridProg.v) computes what HybridProgSpec.v says (C75).

    Reading the statements: [releases p (Some x)] (PropsHeap.v) means that, from every heap, the program
    [p] returns [x], has no undefined behaviour and leaves the heap as it found it, or stops with
    [exit(111)] after a failed allocation; [releases p None] means that a Dilithium rejection loop did not
    end within [fuel] rounds.  [written mem o l mem'] (BufSpec.v) says that [mem'] is [mem] with [l] at
    offset [o] and every other byte unchanged.  [loc], [locw]: contents of uninitialised local arrays. *)
From Coq Require Import ZifyBool ZifyNat.
From Verif Require Import Base SpongePure SpongeProofs2 BufLemmas BufSpec Hybrid HybridSpec HybridBuf Heap EdSig DilSign DilEncSpec SpxSpec HybridProg HybridProgSpec HybridProgProofs HybridProgProofs2.
From Verif Require DilFips PropsDilithium4 PropsBuf PropsHeap PropsSpxBuf PropsSpx SpxTop SpxBufTop HybridProofs HybridRealProofs HybridBufProofs PropsTweetBuf EdDecode TweetField TweetEd DilSignProofs.
Import PropsHeap.
Local Open Scope Z_scope.
Ltac Zify.zify_post_hook ::= idtac.
#[local] Opaque Keccak.KeccakF1600_StatePermute zeros slice splice.

Definition inside (mem : list Z) (off n : Z) : Prop := 0 <= off /\ 0 <= n /\ off + n <= zlen mem.
Definition apart (a n b k : Z) : Prop := a + n <= b \/ b + k <= a.
Definition is_seed (n : Z) (s : list Z) : Prop := zlen s = n /\ bytes_ok s.
(** a program reads what it should and writes nothing else: [l] is in [mem] at [o] *)
Definition holds (mem : list Z) (o : Z) (l : list Z) : Prop := inside mem o (zlen l) /\ slice mem o (zlen l) = l.

(** ** What a generated key pair consists of *)
Lemma keys_parts seed pk sk : is_seed 160 seed -> hybrid_keys seed pk sk ->
  zlen pk = 1408 /\ zlen sk = 4064 /\ bytes_ok pk /\ bytes_ok sk /\
  pk_ed pk = ed_public (slice seed 0 32) /\ sk_ed sk = slice seed 0 32 ++ ed_public (slice seed 0 32) /\ slice sk 0 32 = slice seed 0 32 /\
  DilFips.MLDSA.keygen (slice seed 32 32) (pk_dil pk) (sk_dil sk) /\
  pk_spx pk = fst (slh_keygen shake256_bytes (slice seed 64 96)) /\ sk_spx sk = snd (slh_keygen shake256_bytes (slice seed 64 96)) /\ sk_spxpk sk = pk_spx pk.
Proof.
  intros [Ls Bs] (dilpk & dilsk & HK & H). destruct (slh_keygen shake256_bytes (slice seed 64 96)) as [spxpk spxsk] eqn:ES. destruct H as [-> ->].
  destruct (HybridRealProofs.spx_key_shape (slice seed 64 96)) as (LP3 & LK3 & BP3 & BK3 & EP3); [apply zlen_slice; lia|now apply bytes_ok_slice|]. unfold HybridRealProofs.SH in *. rewrite ES in *. cbn [fst snd] in *.
  set (es := slice seed 0 32) in *. assert (Les: zlen es = 32) by (apply zlen_slice; lia). assert (Bes: bytes_ok es) by now apply bytes_ok_slice.
  assert (Lep: zlen (ed_public es) = 32) by apply EdDecode.zlen_penc. assert (Bep: bytes_ok (ed_public es)) by apply EdDecode.penc_bytes.
  assert (S2: Enc.bytes 32 (slice seed 32 32)) by (split; [apply zlen_slice; lia|now apply bytes_ok_slice]).
  destruct (PropsDilithium4.C55_keygen_complete _ _ _ S2 HK) as (f & F). destruct (HybridRealProofs.dil_key_shape f _ _ _ (F f (le_n _))) as (LD & BD & LDK & BDK).
  unfold pk_layout, sk_layout, pk_ed, pk_dil, pk_spx, sk_ed, sk_dil, sk_spx, sk_spxpk.
  set (ep := ed_public es) in *. assert (Lek: zlen (es ++ ep) = 64) by (rewrite zlen_app; lia). assert (Bek: bytes_ok (es ++ ep)) by (rewrite bytes_ok_app; auto).
  assert (X0: slice (es ++ ep) 0 32 = es) by (rewrite slice_app_l by lia; now apply slice_all).
  set (ek := es ++ ep) in *. clearbody ek ep es.
  split; [rewrite !zlen_app; lia|]. split; [rewrite !zlen_app; lia|]. split; [rewrite !bytes_ok_app; auto|]. split; [rewrite !bytes_ok_app; auto|].
  assert (E1: slice (ep ++ dilpk ++ spxpk) 0 32 = ep) by (rewrite slice_app_l by lia; now apply slice_all).
  assert (E2: slice (ep ++ dilpk ++ spxpk) 32 1312 = dilpk). { rewrite slice_app_r by lia. rewrite Lep. rewrite slice_app_l by lia. now apply slice_all. }
  assert (E3: slice (ep ++ dilpk ++ spxpk) 1344 64 = spxpk). { rewrite !slice_app_r by lia. rewrite Lep, LD. now apply slice_all. }
  assert (F1: slice (ek ++ dilsk ++ dilpk ++ spxsk) 0 64 = ek) by (rewrite slice_app_l by lia; now apply slice_all).
  assert (F0: slice (ek ++ dilsk ++ dilpk ++ spxsk) 0 32 = es) by (rewrite slice_app_l by lia; exact X0).
  assert (F2: slice (ek ++ dilsk ++ dilpk ++ spxsk) 64 2560 = dilsk). { rewrite slice_app_r by lia. rewrite Lek. rewrite slice_app_l by lia. now apply slice_all. }
  assert (F3: slice (ek ++ dilsk ++ dilpk ++ spxsk) 3936 128 = spxsk). { rewrite !slice_app_r by lia. rewrite Lek, LD, LDK. now apply slice_all. }
  assert (F4: slice (ek ++ dilsk ++ dilpk ++ spxsk) 4000 64 = spxpk). { rewrite !slice_app_r by lia. rewrite Lek, LD, LDK. exact EP3. }
  rewrite E1, E2, E3, F0, F1, F2, F3, F4. auto 8.
Qed.
Lemma dil_secret seed pk sk : is_seed 160 seed -> hybrid_keys seed pk sk -> DilFips.MLDSA.secret_key (sk_dil sk).
Proof.
  intros HS HK. destruct (keys_parts _ _ _ HS HK) as (_ & _ & _ & _ & _ & _ & _ & HD & _). destruct HS as [Ls Bs].
  assert (S2: Enc.bytes 32 (slice seed 32 32)) by (split; [apply zlen_slice; lia|now apply bytes_ok_slice]).
  destruct (PropsDilithium4.C55_keygen_complete _ _ _ S2 HD) as (f & F). exact (PropsDilithium4.C55_generated_keys f _ _ _ S2 (F f (le_n _))).
Qed.
Lemma dil_sig_len fuel seed pk sk m sig : is_seed 160 seed -> hybrid_keys seed pk sk -> sign_signature fuel m (sk_dil sk) = Ret (Some sig) -> zlen sig = 2420 /\ bytes_ok sig.
Proof.
  intros HS HK E. destruct (keys_parts _ _ _ HS HK) as (_ & LK & _ & BK & _). apply (HybridRealProofs.dil_sig_shape fuel m (sk_dil sk)); [apply zlen_slice; lia|now apply bytes_ok_slice|exact E].
Qed.
Lemma full_len es m dsig sk o n : zlen dsig = 2420 /\ bytes_ok dsig -> zlen m = n -> zlen (full_layout (ed_signature es m) m dsig (slh_sign_sk shake256_bytes m sk o)) = 52342 + n.
Proof.
  intros [Ld _] Lm. unfold full_layout. set (q := [2; zlen m]). assert (zlen q = 2) by reflexivity. rewrite !zlen_app. rewrite PropsTweetBuf.sig_len. rewrite (SpxBufTop.zlen_slh_sign_sk _ eq_refl). lia.
Qed.
Lemma compact_len es h m dsig nonce n : zlen dsig = 2420 /\ bytes_ok dsig -> zlen nonce = 40 -> zlen m = n -> zlen (compact_layout (ed_signature es h) dsig nonce m) = 2526 + n.
Proof.
  intros [Ld _] Ln Lm. unfold compact_layout. set (q := [1; zlen m]). assert (zlen q = 2) by reflexivity. rewrite !zlen_app. rewrite PropsTweetBuf.sig_len. lia.
Qed.

(** ** Key generation from a seed: the public key at [po], the secret key at [ko], the seed at [eo] *)
Theorem C75_keypair_seed : forall loc locw fuel mem po ko eo, PropsSpxBuf.locals loc locw -> bytes_ok mem ->
  inside mem po 1408 -> inside mem ko 4064 -> inside mem eo 160 -> apart po 1408 ko 4064 ->
  exists r, releases (keypair_seed_p loc locw fuel mem po ko eo) r /\
  forall c mem', r = Some (c, mem') ->
    c = 0 /\ exists pk sk mem1, hybrid_keys (slice mem eo 160) pk sk /\ zlen pk = 1408 /\ zlen sk = 4064 /\ written mem po pk mem1 /\ written mem1 ko sk mem'.
Proof.
  intros loc locw fuel mem po ko eo HL Bm (P1 & _ & P2) (K1 & _ & K2) (E1 & _ & E2) HA.
  destruct (keypair_seed_p_rel loc locw HL fuel mem po ko eo Bm P1 P2 K1 K2 E1 E2 HA) as (r & E & R). cbv zeta in E, R. eexists. split; [exact R|].
  set (seed := slice mem eo 160) in *. assert (HS: is_seed 160 seed) by (split; [apply zlen_slice; lia|now apply bytes_ok_slice]).
  intros c mem' Hr. destruct r as [[dilpk dilsk]|]; [|discriminate Hr].
  assert (HC: c = 0) by congruence. split; [exact HC|].
  set (pk := pk_layout _ _ _) in Hr. set (sk := sk_layout _ _ _ _) in Hr. exists pk, sk, (splice mem po pk).
  assert (HK: hybrid_keys seed pk sk).
  { exists dilpk, dilsk. split; [|unfold pk, sk; destruct (slh_keygen shake256_bytes (slice seed 64 96)) as [a b]; cbn [fst snd]; split; reflexivity].
    apply (PropsDilithium4.C55_keygen_sound fuel); [|exact E]. destruct HS as [L B]. split; [apply zlen_slice; lia|now apply bytes_ok_slice]. }
  destruct (keys_parts _ _ _ HS HK) as (LP & LK & _). clearbody pk sk.
  split; [exact HK|]. split; [exact LP|]. split; [exact LK|]. split; [apply PropsBuf.splice_written; lia|].
  assert (HM: mem' = splice (splice mem po pk) ko sk) by congruence. rewrite HM. apply PropsBuf.splice_written; rewrite ?zlen_splice; lia.
Qed.
Print Assumptions C75_keypair_seed.

(** ... and whenever the specification defines a key pair for the seed, the program ends with it. *)
Theorem C75_keypair_seed_ends : forall loc locw mem po ko eo pk sk, PropsSpxBuf.locals loc locw -> bytes_ok mem ->
  inside mem po 1408 -> inside mem ko 4064 -> inside mem eo 160 -> apart po 1408 ko 4064 -> hybrid_keys (slice mem eo 160) pk sk ->
  exists f mem1 mem', written mem po pk mem1 /\ written mem1 ko sk mem' /\
    forall fuel, (f <= fuel)%nat -> releases (keypair_seed_p loc locw fuel mem po ko eo) (Some (0, mem')).
Proof.
  intros loc locw mem po ko eo pk sk HL Bm (P1 & P0 & P2) (K1 & K0 & K2) (E1 & E0 & E2) HA HK.
  set (seed := slice mem eo 160) in *. assert (HS: is_seed 160 seed) by (split; [apply zlen_slice; lia|now apply bytes_ok_slice]).
  destruct (keys_parts _ _ _ HS HK) as (LP & LK & _). destruct HK as (dilpk & dilsk & HD & HE). destruct HS as [L B].
  assert (S2: Enc.bytes 32 (slice seed 32 32)) by (split; [apply zlen_slice; lia|now apply bytes_ok_slice]).
  destruct (PropsDilithium4.C55_keygen_complete _ _ _ S2 HD) as (f & F). exists f, (splice mem po pk), (splice (splice mem po pk) ko sk).
  split; [apply PropsBuf.splice_written; lia|]. split; [apply PropsBuf.splice_written; rewrite ?zlen_splice; lia|]. intros fuel Hf.
  destruct (keypair_seed_p_rel loc locw HL fuel mem po ko eo Bm P1 P2 K1 K2 E1 E2 HA) as (r & E & R). cbv zeta in E, R. fold seed in E, R. rewrite (F fuel Hf) in E. apply HybridBufProofs.Ret_inj in E. subst r. cbv iota in R.
  destruct (slh_keygen shake256_bytes (slice seed 64 96)) as [a b]. cbn [fst snd] in R. destruct HE as [-> ->]. exact R.
Qed.
Print Assumptions C75_keypair_seed_ends.

(** Key generation from the system's randomness: the same with the 160 bytes it delivers, or -1 and nothing written. *)
Theorem C75_keypair : forall loc locw fuel rb rr bs mem po ko, PropsSpxBuf.locals loc locw -> bytes_ok mem ->
  inside mem po 1408 -> inside mem ko 4064 -> apart po 1408 ko 4064 -> rb 160 = (rr, bs) -> is_seed 160 bs ->
  exists r, releases (keypair_p loc locw fuel rb mem po ko) r /\
  forall c mem', r = Some (c, mem') ->
    (rr <> 0 /\ c = -1 /\ mem' = mem) \/
    (rr = 0 /\ c = 0 /\ exists pk sk mem1, hybrid_keys bs pk sk /\ zlen pk = 1408 /\ zlen sk = 4064 /\ written mem po pk mem1 /\ written mem1 ko sk mem').
Proof.
  intros loc locw fuel rb rr bs mem po ko HL Bm (P1 & _ & P2) (K1 & _ & K2) HA Hrb HS. pose proof HS as [Lb Bb].
  destruct (keypair_p_rel loc locw HL fuel rb rr bs mem po ko Bm P1 P2 K1 K2 HA Hrb Lb Bb) as (r & E & R). cbv zeta in E, R. eexists. split; [exact R|]. intros c mem' Hr.
  destruct (Z.eqb_spec rr 0) as [Z0|Z0]; [right|left; split; [exact Z0|split; congruence]]. split; [exact Z0|].
  destruct r as [[dilpk dilsk]|]; [|discriminate Hr]. assert (HC: c = 0) by congruence. split; [exact HC|].
  set (pk := pk_layout _ _ _) in Hr. set (sk := sk_layout _ _ _ _) in Hr. exists pk, sk, (splice mem po pk).
  assert (HK: hybrid_keys bs pk sk).
  { exists dilpk, dilsk. split; [|unfold pk, sk; destruct (slh_keygen shake256_bytes (slice bs 64 96)) as [a b]; cbn [fst snd]; split; reflexivity].
    apply (PropsDilithium4.C55_keygen_sound fuel); [|exact E]. split; [apply zlen_slice; lia|now apply bytes_ok_slice]. }
  destruct (keys_parts _ _ _ HS HK) as (LP & LK & _). clearbody pk sk.
  split; [exact HK|]. split; [exact LP|]. split; [exact LK|]. split; [apply PropsBuf.splice_written; lia|].
  assert (HM: mem' = splice (splice mem po pk) ko sk) by congruence. rewrite HM. apply PropsBuf.splice_written; rewrite ?zlen_splice; lia.
Qed.
Print Assumptions C75_keypair.

(** The seed expander, with the defect of C02: SHAKE256 is keyed with every second byte of the first 64
    (the others count as 0); the bytes 64..95 of the seed become the bytes 32..63 of the result. *)
Theorem C75_seed_expander : forall mem eo xo, bytes_ok mem -> inside mem eo 96 -> inside mem xo 160 -> xo <= eo + 32 \/ eo + 96 <= xo ->
  let seed := slice mem eo 96 in
  let key := map (fun i => if Nat.even i then nth i seed 0 else 0) (seq 0 64) in
  let x := shake256_bytes (key ++ [2]) 128 in
  exists mem', releases (keypair_seed_expander_p mem eo xo) (Some (0, mem')) /\ written mem xo (slice x 0 32 ++ slice seed 64 32 ++ slice x 32 96) mem'.
Proof.
  intros mem eo xo Bm (E1 & _ & E2) (X1 & _ & X2) HA seed key x. eexists. split; [exact (expander_p_rel mem eo xo Bm E1 E2 X1 X2 HA)|].
  assert (Lx: zlen x = 128) by (apply (DilSignProofs.sponge_bytes_len 136 0x1F); lia). assert (Lsd: zlen seed = 96) by (apply zlen_slice; lia).
  apply PropsBuf.splice_written; [lia|]. change (xo + zlen (slice x 0 32 ++ slice seed 64 32 ++ slice x 32 96) <= zlen mem). clearbody x seed. rewrite !zlen_app, !zlen_slice by lia. lia.
Qed.
Print Assumptions C75_seed_expander.

(** ** Signing with a generated key: signed message at [so], message at [mo], secret key at [ko];
    the three may overlap in any way *)
Theorem C75_full_sign : forall loc locw fuel rb rr optrand seed pk sk mem so l mo mlen ko, PropsSpxBuf.locals loc locw -> bytes_ok mem ->
  is_seed 160 seed -> hybrid_keys seed pk sk -> holds mem ko sk ->
  inside mem so (52342 + mlen) -> inside mem mo mlen -> 1 <= mlen <= 64 -> rb 32 = (rr, optrand) -> zlen optrand = 32 ->
  exists r, releases (sign_full_p loc locw fuel rb mem so l mo mlen ko) r /\
  forall c mem' len, r = Some (c, mem', len) ->
    (rr <> 0 /\ c = -4 /\ mem' = mem /\ len = l) \/
    (rr = 0 /\ c = 0 /\ len = 52342 + mlen /\ exists sm, full_signed sk optrand (slice mem mo mlen) sm /\ zlen sm = len /\ written mem so sm mem').
Proof.
  intros loc locw fuel rb rr optrand seed pk sk mem so l mo mlen ko HL Bm HS HK [(K1 & _ & K2) Esk] (S1 & _ & S2) (M1 & M0 & M2) Hm Hrb Lo.
  destruct (keys_parts _ _ _ HS HK) as (LP & LK & _ & _ & _ & Eed & Ees & _ & _ & Espx & _). pose proof (dil_secret _ _ _ HS HK) as HD. rewrite LK in *.
  set (es := slice seed 0 32) in *. assert (Les: zlen es = 32) by (apply zlen_slice; destruct HS; lia). assert (Bes: bytes_ok es) by (apply bytes_ok_slice, HS).
  assert (Y1: slice mem ko 64 = es ++ ed_public es). { rewrite <- Eed. unfold sk_ed. rewrite <- Esk, slice_slice by lia. f_equal; lia. }
  assert (Y2: slice mem (ko + 64) 2560 = sk_dil sk) by (unfold sk_dil; rewrite <- Esk, slice_slice by lia; reflexivity).
  assert (Y3: slice mem (ko + 3936) 128 = sk_spx sk) by (unfold sk_spx; rewrite <- Esk, slice_slice by lia; reflexivity).
  destruct (sign_full_p_rel loc locw HL fuel rb rr optrand mem so l mo mlen ko es Bm Les Bes S1 S2 M1 M2 K1 K2 Hm Y1 Hrb Lo) as (r & E & R). rewrite Y2 in E. rewrite Y3 in R.
  eexists. split; [exact R|]. intros c mem' len Hr. destruct r as [dsig|]; [|discriminate Hr].
  destruct (Z.eqb_spec rr 0) as [Z0|Z0]; [right|left; split; [exact Z0|split; [|split]; congruence]]. split; [exact Z0|].
  set (sm := full_layout _ _ _ _) in Hr. assert (c = 0 /\ mem' = splice mem so sm /\ len = 52342 + mlen) as (-> & -> & ->) by (split; [congruence|split; congruence]).
  split; [reflexivity|]. split; [reflexivity|]. exists sm.
  assert (Lsm: zlen sm = 52342 + mlen).
  { unfold sm. apply full_len; [exact (dil_sig_len fuel _ _ _ _ _ HS HK E)|apply zlen_slice; lia]. }
  split; [|split; [exact Lsm|apply PropsBuf.splice_written; lia]]. exists dsig. split; [exact (PropsDilithium4.C55_sign_sound fuel _ _ _ HD E)|]. unfold sm. rewrite Ees. reflexivity.
Qed.
Print Assumptions C75_full_sign.

Theorem C75_full_sign_ends : forall loc locw rb optrand seed pk sk mem so l mo mlen ko sm, PropsSpxBuf.locals loc locw -> bytes_ok mem ->
  is_seed 160 seed -> hybrid_keys seed pk sk -> holds mem ko sk ->
  inside mem so (52342 + mlen) -> inside mem mo mlen -> 1 <= mlen <= 64 -> rb 32 = (0, optrand) -> zlen optrand = 32 ->
  full_signed sk optrand (slice mem mo mlen) sm ->
  exists f mem', written mem so sm mem' /\ forall fuel, (f <= fuel)%nat -> releases (sign_full_p loc locw fuel rb mem so l mo mlen ko) (Some (0, mem', 52342 + mlen)).
Proof.
  intros loc locw rb optrand seed pk sk mem so l mo mlen ko sm HL Bm HS HK [(K1 & _ & K2) Esk] (S1 & _ & S2) (M1 & M0 & M2) Hm Hrb Lo (dsig & HD & Esm).
  destruct (keys_parts _ _ _ HS HK) as (LP & LK & _ & _ & _ & Eed & Ees & _ & _ & Espx & _). rewrite LK in *.
  set (es := slice seed 0 32) in *. assert (Les: zlen es = 32) by (apply zlen_slice; destruct HS; lia). assert (Bes: bytes_ok es) by (apply bytes_ok_slice, HS).
  assert (Y1: slice mem ko 64 = es ++ ed_public es). { rewrite <- Eed. unfold sk_ed. rewrite <- Esk, slice_slice by lia. f_equal; lia. }
  assert (Y2: slice mem (ko + 64) 2560 = sk_dil sk) by (unfold sk_dil; rewrite <- Esk, slice_slice by lia; reflexivity).
  assert (Y3: slice mem (ko + 3936) 128 = sk_spx sk) by (unfold sk_spx; rewrite <- Esk, slice_slice by lia; reflexivity).
  destruct (PropsDilithium4.C55_sign_complete _ _ _ HD) as (f & F). exists f, (splice mem so sm). rewrite Ees in Esm.
  split. { apply PropsBuf.splice_written; [lia|]. rewrite Esm. rewrite (full_len _ _ _ _ _ mlen); [lia|exact (dil_sig_len f _ _ _ _ _ HS HK (F f (le_n _)))|apply zlen_slice; lia]. }
  intros fuel Hf. destruct (sign_full_p_rel loc locw HL fuel rb 0 optrand mem so l mo mlen ko es Bm Les Bes S1 S2 M1 M2 K1 K2 Hm Y1 Hrb Lo) as (r & E & R). rewrite Y2, (F fuel Hf) in E. rewrite Y3 in R. apply HybridBufProofs.Ret_inj in E. subst r. rewrite Esm. exact R.
Qed.
Print Assumptions C75_full_sign_ends.

Theorem C75_compact_sign : forall loc locw fuel rb rr nonce seed pk sk mem so l mo mlen ko, PropsSpxBuf.locals loc locw -> bytes_ok mem ->
  is_seed 160 seed -> hybrid_keys seed pk sk -> holds mem ko sk ->
  inside mem so (2526 + mlen) -> inside mem mo mlen -> apart mo mlen so 2526 -> 1 <= mlen <= 64 -> rb 40 = (rr, nonce) -> is_seed 40 nonce ->
  exists r, releases (sign_compact_p loc fuel rb mem so l mo mlen ko) r /\
  forall c mem' len, r = Some (c, mem', len) ->
    (rr <> 0 /\ c = -1 /\ mem' = mem /\ len = l) \/
    (rr = 0 /\ c = 0 /\ len = 2526 + mlen /\ exists sm, compact_signed sk nonce (slice mem mo mlen) sm /\ zlen sm = len /\ written mem so sm mem').
Proof.
  intros loc locw fuel rb rr nonce seed pk sk mem so l mo mlen ko HL Bm HS HK [(K1 & _ & K2) Esk] (S1 & _ & S2) (M1 & M0 & M2) HA Hm Hrb [Ln Bn].
  destruct (keys_parts _ _ _ HS HK) as (LP & LK & _ & _ & _ & Eed & Ees & _ & _ & Espx & _). pose proof (dil_secret _ _ _ HS HK) as HD. rewrite LK in *.
  set (es := slice seed 0 32) in *. assert (Les: zlen es = 32) by (apply zlen_slice; destruct HS; lia). assert (Bes: bytes_ok es) by (apply bytes_ok_slice, HS).
  assert (Y1: slice mem ko 64 = es ++ ed_public es). { rewrite <- Eed. unfold sk_ed. rewrite <- Esk, slice_slice by lia. f_equal; lia. }
  assert (Y2: slice mem (ko + 64) 2560 = sk_dil sk) by (unfold sk_dil; rewrite <- Esk, slice_slice by lia; reflexivity).
  assert (Y3: slice mem (ko + 4000) 64 = sk_spxpk sk) by (unfold sk_spxpk; rewrite <- Esk, slice_slice by lia; reflexivity).
  destruct (sign_compact_p_rel loc locw HL fuel rb rr nonce mem so l mo mlen ko es Bm Les Bes S1 S2 M1 M2 K1 K2 Hm HA Y1 Hrb Ln Bn) as (r & E & R). rewrite Y2, Y3 in E. rewrite Y3 in R.
  eexists. split; [exact R|]. intros c mem' len Hr. destruct (Z.eqb_spec rr 0) as [Z0|Z0]; [right|left; split; [exact Z0|split; [|split]; congruence]]. split; [exact Z0|].
  destruct r as [dsig|]; [|discriminate Hr].
  set (sm := compact_layout _ _ _ _) in Hr. assert (c = 0 /\ mem' = splice mem so sm /\ len = 2526 + mlen) as (-> & -> & ->) by (split; [congruence|split; congruence]).
  split; [reflexivity|]. split; [reflexivity|]. exists sm.
  assert (Lsm: zlen sm = 2526 + mlen). { unfold sm. apply compact_len; [exact (dil_sig_len fuel _ _ _ _ _ HS HK E)|exact Ln|apply zlen_slice; lia]. }
  split; [|split; [exact Lsm|apply PropsBuf.splice_written; lia]]. exists dsig. split; [exact (PropsDilithium4.C55_sign_sound fuel _ _ _ HD E)|]. unfold sm. rewrite Ees. reflexivity.
Qed.
Print Assumptions C75_compact_sign.

Theorem C75_compact_sign_ends : forall loc locw rb nonce seed pk sk mem so l mo mlen ko sm, PropsSpxBuf.locals loc locw -> bytes_ok mem ->
  is_seed 160 seed -> hybrid_keys seed pk sk -> holds mem ko sk ->
  inside mem so (2526 + mlen) -> inside mem mo mlen -> apart mo mlen so 2526 -> 1 <= mlen <= 64 -> rb 40 = (0, nonce) -> is_seed 40 nonce ->
  compact_signed sk nonce (slice mem mo mlen) sm ->
  exists f mem', written mem so sm mem' /\ forall fuel, (f <= fuel)%nat -> releases (sign_compact_p loc fuel rb mem so l mo mlen ko) (Some (0, mem', 2526 + mlen)).
Proof.
  intros loc locw rb nonce seed pk sk mem so l mo mlen ko sm HL Bm HS HK [(K1 & _ & K2) Esk] (S1 & _ & S2) (M1 & M0 & M2) HA Hm Hrb [Ln Bn] (dsig & HD & Esm).
  destruct (keys_parts _ _ _ HS HK) as (LP & LK & _ & _ & _ & Eed & Ees & _ & _ & Espx & _). rewrite LK in *.
  set (es := slice seed 0 32) in *. assert (Les: zlen es = 32) by (apply zlen_slice; destruct HS; lia). assert (Bes: bytes_ok es) by (apply bytes_ok_slice, HS).
  assert (Y1: slice mem ko 64 = es ++ ed_public es). { rewrite <- Eed. unfold sk_ed. rewrite <- Esk, slice_slice by lia. f_equal; lia. }
  assert (Y2: slice mem (ko + 64) 2560 = sk_dil sk) by (unfold sk_dil; rewrite <- Esk, slice_slice by lia; reflexivity).
  assert (Y3: slice mem (ko + 4000) 64 = sk_spxpk sk) by (unfold sk_spxpk; rewrite <- Esk, slice_slice by lia; reflexivity).
  destruct (PropsDilithium4.C55_sign_complete _ _ _ HD) as (f & F). exists f, (splice mem so sm). rewrite Ees in Esm.
  split. { apply PropsBuf.splice_written; [lia|]. rewrite Esm. rewrite (compact_len _ _ _ _ _ mlen); [lia|exact (dil_sig_len f _ _ _ _ _ HS HK (F f (le_n _)))|exact Ln|apply zlen_slice; lia]. }
  intros fuel Hf. destruct (sign_compact_p_rel loc locw HL fuel rb 0 nonce mem so l mo mlen ko es Bm Les Bes S1 S2 M1 M2 K1 K2 Hm HA Y1 Hrb Ln Bn) as (r & E & R). rewrite Y2, Y3, (F fuel Hf) in E. rewrite Y3 in R. apply HybridBufProofs.Ret_inj in E. subst r. rewrite Esm. exact R.
Qed.
Print Assumptions C75_compact_sign_ends.

(** ** Opening and verifying, for any public key and any signed message *)
Theorem C75_full_open : forall loc locw fuel mem mo l so smlen po, PropsSpxBuf.locals loc locw -> bytes_ok mem ->
  inside mem so smlen -> 0 <= mo -> mo + (smlen - 52342) <= zlen mem -> inside mem po 1408 ->
  let pk := slice mem po 1408 in let sm := slice mem so smlen in
  exists r, releases (open_full_p loc locw fuel mem mo l so smlen po) r /\
  forall c mem' len, r = Some (c, mem', len) ->
    (c = 0 /\ exists m, full_valid pk sm m /\ written mem mo m mem' /\ len = zlen m) \/
    (-8 <= c < 0 /\ mem' = mem /\ len = l /\ forall m, ~ full_valid pk sm m).
Proof.
  intros loc locw fuel mem mo l so smlen po HL Bm (S1 & S0 & S2) M1 M2 (P1 & _ & P2) pk sm.
  destruct (open_full_p_rel loc locw HL fuel mem mo l so smlen po Bm S1 S0 S2 M1 M2 P1 P2) as (r & R & HR). exists r. split; [exact R|]. intros c mem' len ->.
  destruct HR as [(-> & m & V & -> & ->)|H]; [left|right; exact H]. split; [reflexivity|]. exists m. split; [exact V|]. split; [|reflexivity].
  apply full_valid_len in V. rewrite zlen_slice in V by lia. apply PropsBuf.splice_written; lia.
Qed.
Print Assumptions C75_full_open.
Theorem C75_compact_open : forall loc locw fuel mem mo l so smlen po, PropsSpxBuf.locals loc locw -> bytes_ok mem ->
  inside mem so smlen -> 0 <= mo -> mo + (smlen - 2526) <= zlen mem -> inside mem po 1408 -> mo <= so + 2526 \/ so + smlen <= mo ->
  let pk := slice mem po 1408 in let sm := slice mem so smlen in
  exists r, releases (open_compact_p loc fuel mem mo l so smlen po) r /\
  forall c mem' len, r = Some (c, mem', len) ->
    (c = 0 /\ exists m, compact_valid pk sm m /\ written mem mo m mem' /\ len = zlen m) \/
    (-8 <= c < 0 /\ mem' = mem /\ len = l /\ forall m, ~ compact_valid pk sm m).
Proof.
  intros loc locw fuel mem mo l so smlen po HL Bm (S1 & S0 & S2) M1 M2 (P1 & _ & P2) HA pk sm.
  destruct (open_compact_p_rel loc locw HL fuel mem mo l so smlen po Bm S1 S0 S2 M1 M2 P1 P2 HA) as (r & R & HR). exists r. split; [exact R|]. intros c mem' len ->.
  destruct HR as [(-> & m & V & -> & ->)|H]; [left|right; exact H]. split; [reflexivity|]. exists m. split; [exact V|]. split; [|reflexivity].
  apply compact_valid_len in V. rewrite zlen_slice in V by lia. apply PropsBuf.splice_written; lia.
Qed.
Print Assumptions C75_compact_open.
Theorem C75_full_verify : forall loc locw fuel mem mo mlen so smlen po, PropsSpxBuf.locals loc locw -> bytes_ok mem ->
  inside mem so smlen -> inside mem mo mlen -> inside mem po 1408 ->
  exists r, releases (verify_full_p loc locw fuel mem mo mlen so smlen po) r /\
  forall c, r = Some c -> -4 <= c <= 0 /\ (c = 0 <-> full_valid (slice mem po 1408) (slice mem so smlen) (slice mem mo mlen)).
Proof.
  intros loc locw fuel mem mo mlen so smlen po HL Bm (S1 & S0 & S2) (M1 & M0 & M2) (P1 & _ & P2).
  destruct (verify_full_p_rel loc locw HL fuel mem mo mlen so smlen po Bm S1 S0 S2 M1 M0 M2 P1 P2) as (r & R & HR). exists r. split; [exact R|]. intros c ->.
  destruct HR as [[-> V]|[Hc V]]; (split; [lia|]); split; intros; [exact V|reflexivity|lia|contradiction].
Qed.
Theorem C75_compact_verify : forall loc locw fuel mem mo mlen so smlen po, PropsSpxBuf.locals loc locw -> bytes_ok mem ->
  inside mem so smlen -> inside mem mo mlen -> inside mem po 1408 ->
  exists r, releases (verify_compact_p loc fuel mem mo mlen so smlen po) r /\
  forall c, r = Some c -> -4 <= c <= 0 /\ (c = 0 <-> compact_valid (slice mem po 1408) (slice mem so smlen) (slice mem mo mlen)).
Proof.
  intros loc locw fuel mem mo mlen so smlen po HL Bm (S1 & S0 & S2) (M1 & M0 & M2) (P1 & _ & P2).
  destruct (verify_compact_p_rel loc locw HL fuel mem mo mlen so smlen po Bm S1 S0 S2 M1 M0 M2 P1 P2) as (r & R & HR). exists r. split; [exact R|]. intros c ->.
  destruct HR as [[-> V]|[Hc V]]; (split; [lia|]); split; intros; [exact V|reflexivity|lia|contradiction].
Qed.
(** crypto_verify_dilithium: exactly the messages of 1 to 64 bytes with a valid Dilithium signature *)
Theorem C75_verify_dilithium : forall loc locw fuel mem mo mlen so smlen po, PropsSpxBuf.locals loc locw -> bytes_ok mem ->
  inside mem so smlen -> inside mem mo mlen -> inside mem po 1312 ->
  exists r, releases (verify_dilithium_p loc fuel mem mo mlen so smlen po) r /\
  forall c, r = Some c -> -2 <= c <= 0 /\
    (c = 0 <-> smlen = 2420 /\ 1 <= mlen <= 64 /\ DilFips.MLDSA.verify (slice mem po 1312) (slice mem mo mlen) (slice mem so smlen)).
Proof.
  intros loc locw fuel mem mo mlen so smlen po HL Bm (S1 & S0 & S2) (M1 & M0 & M2) (P1 & _ & P2). destruct (Z.eq_dec smlen 2420) as [->|HN].
  - destruct (verify_dilithium_p_rel loc locw HL fuel mem mo mlen so po Bm S1 S2 M1 M0 M2 P1 P2) as (r & R & HR). exists r. split; [exact R|]. intros c ->.
    destruct HR as [(-> & V1 & V2)|[Hc V]]; (split; [lia|]); split; intros; [auto|reflexivity|lia|tauto].
  - eexists. split; [exact (verify_dilithium_p_len loc fuel mem mo mlen so smlen po HN P1 P2)|]. intros c Hc.
    assert (c = -1 \/ c = -2) as H by (destruct (_ || _); [left|right]; congruence). split; [lia|]. split; [intros ->; lia|]. intros [X _]. contradiction.
Qed.
Print Assumptions C75_full_verify. Print Assumptions C75_compact_verify. Print Assumptions C75_verify_dilithium.

(** ** What is signed with a generated key verifies with its public key *)
Theorem C75_full_round_trip : forall seed pk sk optrand m sm, is_seed 160 seed -> hybrid_keys seed pk sk ->
  1 <= zlen m <= 64 -> full_signed sk optrand m sm -> full_valid pk sm m.
Proof.
  intros seed pk sk optrand m sm HS HK Hm (dsig & HD & ->). destruct (keys_parts _ _ _ HS HK) as (LP & LK & _ & _ & E1 & E2 & Ees & HKD & EP3 & ESK & _). destruct HS as [Ls Bs].
  assert (S2: Enc.bytes 32 (slice seed 32 32)) by (split; [apply zlen_slice; lia|now apply bytes_ok_slice]).
  split; [exact Hm|]. exists (ed_signature (slice sk 0 32) m), dsig, (slh_sign_sk shake256_bytes m (sk_spx sk) optrand).
  split; [apply PropsTweetBuf.sig_len|]. split. { destruct (PropsDilithium4.C55_sign_complete _ _ _ HD) as (f & F). exact (proj1 (dil_sig_len f seed pk sk m dsig (conj Ls Bs) HK (F f (le_n _)))). }
  split; [apply (SpxBufTop.zlen_slh_sign_sk _ eq_refl)|]. split; [reflexivity|]. split; [|split].
  - rewrite E1, Ees. apply TweetEd.ed_valid_weaken, TweetEd.ed_signature_valid.
  - exact (PropsDilithium4.C55_specification_round_trip _ _ _ _ _ S2 HKD HD).
  - rewrite EP3, ESK. destruct PropsSpx.shake256_hash_like as [HH HB]. pose proof (SpxTop.slh_correct shake256_bytes HH HB (slice seed 64 96) m optrand) as HV. destruct (slh_keygen shake256_bytes (slice seed 64 96)) as [a b]. apply HV; apply zlen_slice; lia.
Qed.
Theorem C75_compact_round_trip : forall seed pk sk nonce m sm, is_seed 160 seed -> hybrid_keys seed pk sk -> zlen nonce = 40 ->
  1 <= zlen m <= 64 -> compact_signed sk nonce m sm -> compact_valid pk sm m.
Proof.
  intros seed pk sk nonce m sm HS HK Ln Hm (dsig & HD & ->). destruct (keys_parts _ _ _ HS HK) as (LP & LK & _ & _ & E1 & E2 & Ees & HKD & EP3 & ESK & ESP). destruct HS as [Ls Bs]. rewrite ESP in *.
  assert (S2: Enc.bytes 32 (slice seed 32 32)) by (split; [apply zlen_slice; lia|now apply bytes_ok_slice]).
  split; [exact Hm|]. eexists _, dsig, nonce. split; [|split; [|split; [exact Ln|split; [reflexivity|split]]]].
  - apply PropsTweetBuf.sig_len.
  - destruct (PropsDilithium4.C55_sign_complete _ _ _ HD) as (f & F). exact (proj1 (dil_sig_len f seed pk sk _ dsig (conj Ls Bs) HK (F f (le_n _)))).
  - rewrite E1, Ees. apply TweetEd.ed_valid_weaken, TweetEd.ed_signature_valid.
  - exact (PropsDilithium4.C55_specification_round_trip _ _ _ _ _ S2 HKD HD).
Qed.
Print Assumptions C75_full_round_trip. Print Assumptions C75_compact_round_trip.

(** On a valid signed message opening and verifying end with success. *)
Lemma full_valid_unique pk sm m m' : full_valid pk sm m -> full_valid pk sm m' -> m' = m.
Proof. intros V V'. apply full_valid_fields in V, V'. cbv zeta in V, V'. destruct V as (_ & _ & _ & N & <- & _), V' as (_ & _ & _ & N' & <- & _). congruence. Qed.
Lemma compact_valid_unique pk sm m m' : compact_valid pk sm m -> compact_valid pk sm m' -> m' = m.
Proof. intros V V'. apply compact_valid_fields in V, V'. cbv zeta in V, V'. destruct V as (_ & _ & _ & N & <- & _), V' as (_ & _ & _ & N' & <- & _). congruence. Qed.
Lemma full_fuel pk sm m : zlen pk = 1408 -> bytes_ok pk -> full_valid pk sm m ->
  exists f, forall fuel, (f <= fuel)%nat -> sign_verify fuel (slice sm (66 + nth 1 sm 0) 2420) 2420 (slice sm 66 (nth 1 sm 0)) (pk_dil pk) <> Ret None.
Proof.
  intros LP BP V. apply full_valid_fields in V. cbv zeta in V. destruct V as (_ & _ & _ & N & EM & _ & VD & _).
  destruct (PropsDilithium4.C55_verify_complete _ _ (pk_dil pk) (conj (zlen_slice pk 32 1312 ltac:(lia) ltac:(lia) ltac:(lia)) (bytes_ok_slice _ _ _ BP)) VD) as (f & F). exists f. intros fuel Hf. rewrite N, EM, (F fuel Hf). discriminate.
Qed.
Lemma compact_fuel pk sm m : zlen pk = 1408 -> bytes_ok pk -> compact_valid pk sm m ->
  exists f, forall fuel, (f <= fuel)%nat -> sign_verify fuel (slice sm 66 2420) 2420 (compact_digest (slice sm 2486 40) (slice sm 2526 (nth 1 sm 0)) (pk_spx pk)) (pk_dil pk) <> Ret None.
Proof.
  intros LP BP V. apply compact_valid_fields in V. cbv zeta in V. destruct V as (_ & _ & _ & N & EM & _ & VD).
  destruct (PropsDilithium4.C55_verify_complete _ _ (pk_dil pk) (conj (zlen_slice pk 32 1312 ltac:(lia) ltac:(lia) ltac:(lia)) (bytes_ok_slice _ _ _ BP)) VD) as (f & F). exists f. intros fuel Hf. rewrite N, EM, (F fuel Hf). discriminate.
Qed.
Theorem C75_full_open_ends : forall loc locw mem mo l so smlen po m, PropsSpxBuf.locals loc locw -> bytes_ok mem ->
  inside mem so smlen -> inside mem mo (smlen - 52342) -> inside mem po 1408 -> full_valid (slice mem po 1408) (slice mem so smlen) m ->
  exists f mem', written mem mo m mem' /\ forall fuel, (f <= fuel)%nat ->
    releases (open_full_p loc locw fuel mem mo l so smlen po) (Some (0, mem', zlen m)) /\
    (forall no, inside mem no (zlen m) -> slice mem no (zlen m) = m -> releases (verify_full_p loc locw fuel mem no (zlen m) so smlen po) (Some 0)).
Proof.
  intros loc locw mem mo l so smlen po m HL Bm (S1 & S0 & S2) (M1 & _ & M2) (P1 & _ & P2) V. set (pk := slice mem po 1408) in *. set (sm := slice mem so smlen) in *.
  assert (LP: zlen pk = 1408) by (apply zlen_slice; lia). assert (BP: bytes_ok pk) by now apply bytes_ok_slice. assert (Lsm: zlen sm = smlen) by (apply zlen_slice; lia). pose proof (full_valid_len _ _ _ V) as LV.
  destruct (full_fuel pk sm m LP BP V) as (f & F). exists f, (splice mem mo m). split; [apply PropsBuf.splice_written; lia|]. intros fuel Hf. split.
  - destruct (open_full_p_rel loc locw HL fuel mem mo l so smlen po Bm S1 S0 S2 M1 M2 P1 P2) as (r & R & HR). fold pk sm in HR. destruct r as [[[c mem'] len]|].
    + destruct HR as [(-> & m' & V' & -> & ->)|(_ & _ & _ & NV)]; [|destruct (NV _ V)]. rewrite (full_valid_unique _ _ _ _ V V') in R. exact R.
    + destruct HR as (n & -> & HR). destruct (F fuel Hf HR).
  - intros no (N1 & N0 & N2) EN. destruct (verify_full_p_rel loc locw HL fuel mem no (zlen m) so smlen po Bm S1 S0 S2 N1 N0 N2 P1 P2) as (r & R & HR). fold pk sm in HR. rewrite EN in HR. destruct r as [c|].
    + destruct HR as [[-> _]|[_ NV]]; [exact R|contradiction].
    + destruct HR as (n & -> & HR). destruct (F fuel Hf HR).
Qed.
Theorem C75_compact_open_ends : forall loc locw mem mo l so smlen po m, PropsSpxBuf.locals loc locw -> bytes_ok mem ->
  inside mem so smlen -> inside mem mo (smlen - 2526) -> inside mem po 1408 -> mo <= so + 2526 \/ so + smlen <= mo -> compact_valid (slice mem po 1408) (slice mem so smlen) m ->
  exists f mem', written mem mo m mem' /\ forall fuel, (f <= fuel)%nat ->
    releases (open_compact_p loc fuel mem mo l so smlen po) (Some (0, mem', zlen m)) /\
    (forall no, inside mem no (zlen m) -> slice mem no (zlen m) = m -> releases (verify_compact_p loc fuel mem no (zlen m) so smlen po) (Some 0)).
Proof.
  intros loc locw mem mo l so smlen po m HL Bm (S1 & S0 & S2) (M1 & _ & M2) (P1 & _ & P2) HA V. set (pk := slice mem po 1408) in *. set (sm := slice mem so smlen) in *.
  assert (LP: zlen pk = 1408) by (apply zlen_slice; lia). assert (BP: bytes_ok pk) by now apply bytes_ok_slice. assert (Lsm: zlen sm = smlen) by (apply zlen_slice; lia). pose proof (compact_valid_len _ _ _ V) as LV.
  destruct (compact_fuel pk sm m LP BP V) as (f & F). exists f, (splice mem mo m). split; [apply PropsBuf.splice_written; lia|]. intros fuel Hf. split.
  - destruct (open_compact_p_rel loc locw HL fuel mem mo l so smlen po Bm S1 S0 S2 M1 M2 P1 P2 HA) as (r & R & HR). fold pk sm in HR. destruct r as [[[c mem'] len]|].
    + destruct HR as [(-> & m' & V' & -> & ->)|(_ & _ & _ & NV)]; [|destruct (NV _ V)]. rewrite (compact_valid_unique _ _ _ _ V V') in R. exact R.
    + destruct HR as (n & -> & HR). destruct (F fuel Hf HR).
  - intros no (N1 & N0 & N2) EN. destruct (verify_compact_p_rel loc locw HL fuel mem no (zlen m) so smlen po Bm S1 S0 S2 N1 N0 N2 P1 P2) as (r & R & HR). fold pk sm in HR. rewrite EN in HR. destruct r as [c|].
    + destruct HR as [[-> _]|[_ NV]]; [exact R|contradiction].
    + destruct HR as (n & -> & HR). destruct (F fuel Hf HR).
Qed.
Print Assumptions C75_full_open_ends. Print Assumptions C75_compact_open_ends.

(** ** A client: generate a key pair, sign a message, open the result, all in one memory *)
Section Client.
Local Open Scope heap_scope.
Variables loc locw : Z -> list Z.
Variable fuel : nat.
Definition client_full (rb : rnd) (mem : list Z) (po ko mo mlen so oo : Z) : M (Z * list Z * Z) :=
  '(c, mem) <- keypair_p loc locw fuel rb mem po ko ;;
  if negb (c =? 0) then mret (c, mem, 0) else
  '(c, mem, smlen) <- sign_full_p loc locw fuel rb mem so 0 mo mlen ko ;;
  if negb (c =? 0) then mret (c, mem, 0) else
  open_full_p loc locw fuel mem oo 0 so smlen po.
Definition client_compact (rb : rnd) (mem : list Z) (po ko mo mlen so oo : Z) : M (Z * list Z * Z) :=
  '(c, mem) <- keypair_p loc locw fuel rb mem po ko ;;
  if negb (c =? 0) then mret (c, mem, 0) else
  '(c, mem, smlen) <- sign_compact_p loc fuel rb mem so 0 mo mlen ko ;;
  if negb (c =? 0) then mret (c, mem, 0) else
  open_compact_p loc fuel mem oo 0 so smlen po.
End Client.

Lemma bytes_splice mem o l : bytes_ok mem -> bytes_ok l -> bytes_ok (splice mem o l).
Proof. intros. now apply bytes_ok_splice. Qed.
Lemma signed_bytes_full seed pk sk optrand m sm : is_seed 160 seed -> hybrid_keys seed pk sk -> bytes_ok m -> 1 <= zlen m <= 64 -> full_signed sk optrand m sm -> bytes_ok sm.
Proof.
  intros HS HK Bm Hm (dsig & HD & ->). destruct (PropsDilithium4.C55_sign_complete _ _ _ HD) as (f & F). destruct (dil_sig_len f seed pk sk m dsig HS HK (F f (le_n _))) as [_ Bd].
  unfold full_layout. rewrite !bytes_ok_app. split; [|split; [|split; [exact Bm|split; [exact Bd|apply HybridRealProofs.spx_sig_shape]]]].
  - repeat constructor; unfold byte_ok; lia.
  - unfold ed_signature. rewrite bytes_ok_app. split; [apply EdDecode.penc_bytes|apply TweetField.le_bytes_ok].
Qed.
Theorem C75_full_client : forall loc locw fuel rb bs optrand mem po ko mo mlen so oo, PropsSpxBuf.locals loc locw -> bytes_ok mem ->
  rb 160 = (0, bs) -> is_seed 160 bs -> rb 32 = (0, optrand) -> zlen optrand = 32 ->
  inside mem po 1408 -> inside mem ko 4064 -> inside mem mo mlen -> inside mem so (52342 + mlen) -> inside mem oo mlen -> 1 <= mlen <= 64 ->
  apart po 1408 ko 4064 -> apart mo mlen po 1408 -> apart mo mlen ko 4064 -> apart so (52342 + mlen) po 1408 ->
  exists r, releases (client_full loc locw fuel rb mem po ko mo mlen so oo) r /\
  forall c mem' len, r = Some (c, mem', len) -> c = 0 /\ len = mlen /\ slice mem' oo mlen = slice mem mo mlen.
Proof.
  intros loc locw fuel rb bs optrand mem po ko mo mlen so oo HL Bm Hrb1 HS Hrb2 Lo HP HK HM HO HOO Hm A1 A2 A3 A4.
  pose proof HP as (P1 & _ & P2). pose proof HK as (K1 & _ & K2). pose proof HM as (M1 & _ & M2). pose proof HO as (S1 & _ & S2). pose proof HOO as (O1 & _ & O2). unfold apart in *.
  unfold client_full. destruct (C75_keypair loc locw fuel rb 0 bs mem po ko HL Bm HP HK A1 Hrb1 HS) as (r1 & R1 & HR1). destruct r1 as [[c1 m1]|].
  2:{ exists None. split; [now apply rel_none|discriminate]. }
  destruct (HR1 _ _ eq_refl) as [[X _]|(_ & -> & pk & sk & mem1 & HKK & LP & LK & W1 & W2)]; [congruence|]. eapply rq_bind; [exact R1|]. cbv beta iota. change (negb (0 =? 0)) with false. cbv iota.
  apply written_splice in W1; [|lia|lia]. subst mem1. apply written_splice in W2; [|lia|rewrite ?zlen_splice; lia]. subst m1. set (m1 := splice (splice mem po pk) ko sk).
  assert (Lm1: zlen m1 = zlen mem) by (unfold m1; rewrite !zlen_splice; rewrite ?zlen_splice; lia).
  destruct (keys_parts _ _ _ HS HKK) as (_ & _ & BP & BK & _).
  assert (Bm1: bytes_ok m1) by (unfold m1; apply bytes_splice; [apply bytes_splice|]; assumption).
  assert (EK: slice m1 ko 4064 = sk) by (unfold m1; rewrite <- LK; apply slice_splice; rewrite ?zlen_splice; lia).
  assert (EPK: slice m1 po 1408 = pk). { unfold m1. destruct A1; [rewrite slice_splice_before by (rewrite ?zlen_splice; lia)|rewrite slice_splice_after by (rewrite ?zlen_splice; lia)]; rewrite <- LP; apply slice_splice; lia. }
  assert (EM: slice m1 mo mlen = slice mem mo mlen).
  { unfold m1. transitivity (slice (splice mem po pk) mo mlen); [destruct A3|destruct A2]; first [rewrite slice_splice_before by (rewrite ?zlen_splice; lia); reflexivity|rewrite slice_splice_after by (rewrite ?zlen_splice; lia); reflexivity]. }
  destruct (C75_full_sign loc locw fuel rb 0 optrand bs pk sk m1 so 0 mo mlen ko HL Bm1 HS HKK) as (r2 & R2 & HR2); try assumption; try (unfold inside; rewrite ?Lm1; lia); [unfold holds, inside; rewrite LK, Lm1; split; [lia|exact EK]|].
  destruct r2 as [[[c2 m2] len2]|]. 2:{ exists None. split; [now apply rel_none|discriminate]. }
  destruct (HR2 _ _ _ eq_refl) as [[X _]|(_ & -> & -> & sm & HSG & Lsm & W)]; [congruence|]. eapply rq_bind; [exact R2|]. cbv beta iota. change (negb (0 =? 0)) with false. cbv iota.
  apply written_splice in W; [|lia|lia]. subst m2. rewrite EM in HSG. set (m2 := splice m1 so sm). assert (Lm2: zlen m2 = zlen mem) by (unfold m2; rewrite zlen_splice; lia).
  assert (BM: bytes_ok (slice mem mo mlen)) by now apply bytes_ok_slice. assert (LM: zlen (slice mem mo mlen) = mlen) by (apply zlen_slice; lia).
  assert (Bm2: bytes_ok m2). { unfold m2. apply bytes_splice; [exact Bm1|]. eapply signed_bytes_full; try eassumption. lia. }
  assert (V: full_valid pk sm (slice mem mo mlen)) by (eapply C75_full_round_trip; try eassumption; lia).
  assert (EP2: slice m2 po 1408 = pk). { rewrite <- EPK. unfold m2. destruct A4; [rewrite slice_splice_after by lia|rewrite slice_splice_before by lia]; reflexivity. }
  assert (ESM: slice m2 so (52342 + mlen) = sm) by (unfold m2; rewrite <- Lsm; apply slice_splice; lia).
  destruct (C75_full_open loc locw fuel m2 oo 0 so (52342 + mlen) po HL Bm2) as (r3 & R3 & HR3); try (unfold inside; rewrite ?Lm2; lia). rewrite EP2, ESM in HR3.
  exists r3. split; [exact R3|]. intros c mem' len Hr. destruct (HR3 _ _ _ Hr) as [(-> & m' & V' & W & ->)|(_ & _ & _ & NV)]; [|destruct (NV _ V)].
  rewrite (full_valid_unique _ _ _ _ V V') in *. split; [reflexivity|]. split; [exact LM|]. apply written_splice in W; [|lia|lia]. subst mem'. rewrite slice_splice_in by lia. rewrite Z.sub_diag. now apply slice_all.
Qed.
Print Assumptions C75_full_client.
Lemma signed_bytes_compact seed pk sk nonce m sm : is_seed 160 seed -> hybrid_keys seed pk sk -> is_seed 40 nonce -> bytes_ok m -> 1 <= zlen m <= 64 -> compact_signed sk nonce m sm -> bytes_ok sm.
Proof.
  intros HS HK [_ Bn] Bm Hm (dsig & HD & ->). destruct (PropsDilithium4.C55_sign_complete _ _ _ HD) as (f & F). destruct (dil_sig_len f seed pk sk _ dsig HS HK (F f (le_n _))) as [_ Bd].
  unfold compact_layout. rewrite !bytes_ok_app. split; [|split; [|split; [exact Bd|split; [exact Bn|exact Bm]]]].
  - repeat constructor; unfold byte_ok; lia.
  - unfold ed_signature. rewrite bytes_ok_app. split; [apply EdDecode.penc_bytes|apply TweetField.le_bytes_ok].
Qed.
Theorem C75_compact_client : forall loc locw fuel rb bs nonce mem po ko mo mlen so oo, PropsSpxBuf.locals loc locw -> bytes_ok mem ->
  rb 160 = (0, bs) -> is_seed 160 bs -> rb 40 = (0, nonce) -> is_seed 40 nonce ->
  inside mem po 1408 -> inside mem ko 4064 -> inside mem mo mlen -> inside mem so (2526 + mlen) -> inside mem oo mlen -> 1 <= mlen <= 64 ->
  apart po 1408 ko 4064 -> apart mo mlen po 1408 -> apart mo mlen ko 4064 -> apart so (2526 + mlen) po 1408 ->
  apart mo mlen so 2526 -> oo <= so + 2526 \/ so + (2526 + mlen) <= oo ->
  exists r, releases (client_compact loc locw fuel rb mem po ko mo mlen so oo) r /\
  forall c mem' len, r = Some (c, mem', len) -> c = 0 /\ len = mlen /\ slice mem' oo mlen = slice mem mo mlen.
Proof.
  intros loc locw fuel rb bs nonce mem po ko mo mlen so oo HL Bm Hrb1 HS Hrb2 Lo HP HK HM HO HOO Hm A1 A2 A3 A4 A5 A6.
  pose proof HP as (P1 & _ & P2). pose proof HK as (K1 & _ & K2). pose proof HM as (M1 & _ & M2). pose proof HO as (S1 & _ & S2). pose proof HOO as (O1 & _ & O2). unfold apart in *.
  unfold client_compact. destruct (C75_keypair loc locw fuel rb 0 bs mem po ko HL Bm HP HK A1 Hrb1 HS) as (r1 & R1 & HR1). destruct r1 as [[c1 m1]|].
  2:{ exists None. split; [now apply rel_none|discriminate]. }
  destruct (HR1 _ _ eq_refl) as [[X _]|(_ & -> & pk & sk & mem1 & HKK & LP & LK & W1 & W2)]; [congruence|]. eapply rq_bind; [exact R1|]. cbv beta iota. change (negb (0 =? 0)) with false. cbv iota.
  apply written_splice in W1; [|lia|lia]. subst mem1. apply written_splice in W2; [|lia|rewrite ?zlen_splice; lia]. subst m1. set (m1 := splice (splice mem po pk) ko sk).
  assert (Lm1: zlen m1 = zlen mem) by (unfold m1; rewrite !zlen_splice; rewrite ?zlen_splice; lia).
  destruct (keys_parts _ _ _ HS HKK) as (_ & _ & BP & BK & _).
  assert (Bm1: bytes_ok m1) by (unfold m1; apply bytes_splice; [apply bytes_splice|]; assumption).
  assert (EK: slice m1 ko 4064 = sk) by (unfold m1; rewrite <- LK; apply slice_splice; rewrite ?zlen_splice; lia).
  assert (EPK: slice m1 po 1408 = pk). { unfold m1. destruct A1; [rewrite slice_splice_before by (rewrite ?zlen_splice; lia)|rewrite slice_splice_after by (rewrite ?zlen_splice; lia)]; rewrite <- LP; apply slice_splice; lia. }
  assert (EM: slice m1 mo mlen = slice mem mo mlen).
  { unfold m1. transitivity (slice (splice mem po pk) mo mlen); [destruct A3|destruct A2]; first [rewrite slice_splice_before by (rewrite ?zlen_splice; lia); reflexivity|rewrite slice_splice_after by (rewrite ?zlen_splice; lia); reflexivity]. }
  destruct (C75_compact_sign loc locw fuel rb 0 nonce bs pk sk m1 so 0 mo mlen ko HL Bm1 HS HKK) as (r2 & R2 & HR2); try assumption; try (unfold inside; rewrite ?Lm1; lia); [unfold holds, inside; rewrite LK, Lm1; split; [lia|exact EK]|].
  destruct r2 as [[[c2 m2] len2]|]. 2:{ exists None. split; [now apply rel_none|discriminate]. }
  destruct (HR2 _ _ _ eq_refl) as [[X _]|(_ & -> & -> & sm & HSG & Lsm & W)]; [congruence|]. eapply rq_bind; [exact R2|]. cbv beta iota. change (negb (0 =? 0)) with false. cbv iota.
  apply written_splice in W; [|lia|lia]. subst m2. rewrite EM in HSG. set (m2 := splice m1 so sm). assert (Lm2: zlen m2 = zlen mem) by (unfold m2; rewrite zlen_splice; lia).
  assert (BM: bytes_ok (slice mem mo mlen)) by now apply bytes_ok_slice. assert (LM: zlen (slice mem mo mlen) = mlen) by (apply zlen_slice; lia).
  assert (Bm2: bytes_ok m2). { unfold m2. apply bytes_splice; [exact Bm1|]. eapply signed_bytes_compact; try eassumption. lia. }
  assert (V: compact_valid pk sm (slice mem mo mlen)) by (eapply C75_compact_round_trip; try eassumption; [apply Lo|lia]).
  assert (EP2: slice m2 po 1408 = pk). { rewrite <- EPK. unfold m2. destruct A4; [rewrite slice_splice_after by lia|rewrite slice_splice_before by lia]; reflexivity. }
  assert (ESM: slice m2 so (2526 + mlen) = sm) by (unfold m2; rewrite <- Lsm; apply slice_splice; lia).
  destruct (C75_compact_open loc locw fuel m2 oo 0 so (2526 + mlen) po HL Bm2) as (r3 & R3 & HR3); try (unfold inside; rewrite ?Lm2; lia). rewrite EP2, ESM in HR3.
  exists r3. split; [exact R3|]. intros c mem' len Hr. destruct (HR3 _ _ _ Hr) as [(-> & m' & V' & W & ->)|(_ & _ & _ & NV)]; [|destruct (NV _ V)].
  rewrite (compact_valid_unique _ _ _ _ V V') in *. split; [reflexivity|]. split; [exact LM|]. apply written_splice in W; [|lia|lia]. subst mem'. rewrite slice_splice_in by lia. rewrite Z.sub_diag. now apply slice_all.
Qed.
Print Assumptions C75_compact_client.

(** Not vacuous.  A placement with the signed message over the message and over the secret key, and the
    result over the signed message, meets the hypotheses of [C75_full_client] (locals hold zeros, the
    random generator delivers zeros); that the rejection loops end is seen in KatDilithium.v. *)
Lemma zeros_locals : PropsSpxBuf.locals zeros zeros.
Proof. split; [intros; now apply zlen_zeros|split; [intros; apply zeros_bytes|intros; now apply zlen_zeros]]. Qed.
Definition zrb (n : Z) : Z * list Z := (0, zeros n).
Example C75_full_client_met : exists r,
  releases (client_full zeros zeros 40 zrb (zeros 60000) 0 1408 6000 5 1408 2000) r /\
  forall c mem' len, r = Some (c, mem', len) -> c = 0 /\ len = 5 /\ slice mem' 2000 5 = slice (zeros 60000) 6000 5.
Proof.
  assert (LZ: zlen (zeros 60000) = 60000) by (apply zlen_zeros; lia). assert (IS: forall n, 0 <= n -> is_seed n (zeros n)) by (intros; split; [now apply zlen_zeros|apply zeros_bytes]).
  apply (C75_full_client zeros zeros 40 zrb (zeros 160) (zeros 32)); try reflexivity; try (unfold inside, apart; rewrite ?LZ; lia); [apply zeros_locals|apply zeros_bytes|apply IS; lia].
Qed.
Example C75_compact_client_met : exists r,
  releases (client_compact zeros zeros 40 zrb (zeros 60000) 0 1408 6000 5 8000 8000) r /\
  forall c mem' len, r = Some (c, mem', len) -> c = 0 /\ len = 5 /\ slice mem' 8000 5 = slice (zeros 60000) 6000 5.
Proof.
  assert (LZ: zlen (zeros 60000) = 60000) by (apply zlen_zeros; lia). assert (IS: forall n, 0 <= n -> is_seed n (zeros n)) by (intros; split; [now apply zlen_zeros|apply zeros_bytes]).
  apply (C75_compact_client zeros zeros 40 zrb (zeros 160) (zeros 40)); try reflexivity; try (unfold inside, apart; rewrite ?LZ; lia); [apply zeros_locals|apply zeros_bytes|apply IS; lia|apply IS; lia].
Qed.
(** Verification distinguishes: no key accepts a signed message that starts with 0. *)
Example C75_verify_refuses : forall pk m tail, ~ full_valid pk (0 :: tail) m /\ ~ compact_valid pk (0 :: tail) m.
Proof. intros pk m tail. split; intros V; [apply full_valid_fields in V|apply compact_valid_fields in V]; cbv zeta in V; cbn [nth] in V; lia. Qed.
