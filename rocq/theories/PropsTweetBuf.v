(** Property theorems about crypto_sign and crypto_sign_open of tweetnacl/tweetnacl.c when the message and
    the signed message share memory (C69).  Specifications: EdSig.v (RFC 8032), BufSpec.v ([written mem off l
    mem']: mem' is mem with the bytes l at offset off). *)
From Coq Require Import ZifyBool ZifyNat.
From Verif Require Import Base Wp BufSpec SpongeProofs2 BufLemmas Tweet TweetBuf TweetBufProofs.
From Verif Require Import NumTheory EdSpec EdCurve EdExt Sha512Spec EdSig TweetField TweetField2 TweetCurve TweetModL TweetSha EdDecode EdOrder TweetEd.
From Verif Require PropsBuf PropsEd.
Ltac Zify.zify_post_hook ::= idtac.

Definition inside (mem : list Z) (off n : Z) : Prop := 0 <= off /\ 0 <= n /\ off + n <= zlen mem.

(** ** Signing *)
Lemma sig_len seed M : zlen (ed_signature seed M) = 64.
Proof. unfold ed_signature, ed_sigR. rewrite zlen_app, zlen_penc, zlen_le_bytes. reflexivity. Qed.
(** If the message lies behind the place it is copied to, or ends before it, exactly the signed message
    is written: the RFC 8032 signature and the message as it was. *)
Theorem C69_sign_overlap : forall mem so mo n seed, zlen seed = 32 -> bytes_ok seed -> bytes_ok mem -> n < 2 ^ 63 ->
  inside mem so (64 + n) -> inside mem mo n -> so + 64 <= mo \/ mo + n <= so + 64 ->
  let M := slice mem mo n in
  exists mem', ed_sign_c mem so mo n (seed ++ ed_public seed) = Ret (0, n + 64, mem') /\ written mem so (ed_signature seed M ++ M) mem'.
Proof.
  intros mem so mo n seed Ls Bs Bm Hn (H1 & H2 & H3) (H4 & H5 & H6) Dis M. assert (LM: zlen M = n) by (apply zlen_slice; lia).
  pose proof (ed_sign_c_ok mem so mo n seed Ls Bs Bm H5 ltac:(lia) H1 ltac:(lia) H4 H6) as E. cbv zeta in E.
  assert (ES: signed_text mem so mo n = M). { unfold signed_text. destruct (Z.leb_spec (so + 64) mo); [reflexivity|]. fold M. apply periodic_long. unfold zlen in LM. lia. }
  rewrite ES in E. eexists. split; [exact E|]. apply PropsBuf.splice_written; [lia|]. rewrite zlen_app, sig_len. lia.
Qed.
(** In place ([sm == m]) the copying loop overwrites bytes it has yet to read: what is signed and left in
    the buffer is the first 64 bytes of the message over and over.  The caller's message is lost, and the
    return value is 0. *)
Theorem C69_sign_in_place_refuted : forall mem so n seed, zlen seed = 32 -> bytes_ok seed -> bytes_ok mem -> 0 <= n < 2 ^ 63 -> inside mem so (64 + n) ->
  let M := slice mem so n in
  exists M' mem', ed_sign_c mem so so n (seed ++ ed_public seed) = Ret (0, n + 64, mem') /\ written mem so (ed_signature seed M' ++ M') mem' /\
    length M' = length M /\ (forall i, (i < length M)%nat -> nth i M' 0 = nth (i mod 64) M 0) /\
    ((exists i, (i < length M)%nat /\ nth i M 0 <> nth (i mod 64) M 0) -> M' <> M).
Proof.
  intros mem so n seed Ls Bs Bm Hn (H1 & H2 & H3) M.
    assert (LM: zlen M = n) by (apply zlen_slice; lia). pose proof (ed_sign_c_ok mem so so n seed Ls Bs Bm ltac:(lia) ltac:(lia) H1 ltac:(lia) H1 ltac:(lia)) as E. cbv zeta in E.
    assert (ES: signed_text mem so so n = periodic 64 M). { unfold signed_text. replace (so + 64 <=? so) with false by lia. replace (so + 64 - so) with 64 by lia. reflexivity. }
    rewrite ES in E. exists (periodic 64 M). eexists. split; [exact E|]. split. { apply PropsBuf.splice_written; [lia|]. rewrite zlen_app, sig_len. unfold zlen at 1. rewrite periodic_length. unfold zlen in LM, H3. unfold zlen. lia. }
    split; [apply periodic_length|]. split; [intros i Hi; now apply periodic_nth|]. intros (i & Hi & NE) EQ. apply NE. rewrite <- EQ at 1. now apply periodic_nth.
Qed.
Print Assumptions C69_sign_overlap. Print Assumptions C69_sign_in_place_refuted.
(** a memory with room for an in-place signature on 100 bytes, byte 64 of which is not byte 0 *)
Example C69_sign_nonvacuous : let mem := List.map Z.of_nat (seq 0 164) in
  bytes_ok mem /\ inside mem 0 (64 + 100) /\ inside mem 64 100 /\ (exists i, (i < length (slice mem 0 100))%nat /\ nth i (slice mem 0 100) 0 <> nth (i mod 64) (slice mem 0 100) 0).
Proof. cbv zeta. split; [apply Forall_forall; intros x H; apply in_map_iff in H as (k & <- & H); apply in_seq in H; unfold byte_ok; lia|]. split; [vm_compute; intuition congruence|]. split; [vm_compute; intuition congruence|]. exists 64%nat. vm_compute. split; [lia|discriminate]. Qed.

(** ** Opening *)
(** Message buffer and signed message disjoint: exactly the messages with a valid signature are accepted;
    only the n bytes of the message buffer change. *)
Theorem C69_open_separate : forall mem mo so n pk, zlen pk = 32 -> bytes_ok pk -> bytes_ok mem -> n < 2 ^ 31 ->
  inside mem mo n -> inside mem so n -> so + n <= mo \/ mo + n <= so ->
  let sig := slice mem so 64 in let M := slice mem (so + 64) (n - 64) in
  exists rc mlen w mem', ed_open_c mem mo so n pk = Ret (rc, mlen, mem') /\ zlen w = n /\ written mem mo w mem' /\
    ((rc = 0 /\ mlen = n - 64 /\ 64 <= n /\ ed_valid pk sig M /\ slice mem' mo (n - 64) = M) \/
     (rc = -1 /\ mlen = 2 ^ 64 - 1 /\ (64 <= n -> ~ ed_valid pk sig M) /\ (mem' = mem \/ slice mem' mo (n - 64) = zeros (n - 64)))).
Proof.
  intros mem mo so n pk Lp Bp Bm Hn (H1 & H2 & H3) (H4 & _ & H6) Dis sig M.
  set (p := slice mem 0 mo). set (m := slice mem mo n). set (t := slice mem (mo + n) (zlen mem - (mo + n))). set (sm := slice mem so n).
  assert (Lp': zlen p = mo) by (apply zlen_slice; lia). assert (Lm: zlen m = n) by (apply zlen_slice; lia). assert (Lsm: zlen sm = n) by (apply zlen_slice; lia).
  assert (Emem: mem = p ++ m ++ t). { pose proof (slice_split mem mo (zlen mem - mo) n ltac:(lia) ltac:(lia)) as X1. pose proof (slice_split mem 0 (zlen mem) mo ltac:(lia) ltac:(lia)) as X2. rewrite (slice_all mem) in X2 by reflexivity. rewrite Z.add_0_l, X1 in X2. unfold p, m, t. replace (zlen mem - (mo + n)) with (zlen mem - mo - n) by lia. exact X2. }
  assert (Bm': bytes_ok m) by now apply bytes_ok_slice. assert (Bs: bytes_ok sm) by now apply bytes_ok_slice.
  destruct (PropsEd.C41_ed25519_open m sm n pk Lp Bp Bm' Bs ltac:(lia) ltac:(lia) ltac:(lia)) as (rc & mlen & m' & E & Lm' & _ & H). cbv zeta in H.
  exists rc, mlen, m', (p ++ m' ++ t). split. { eapply (ctx_open p m t so mo n pk mem sm); try eassumption; try lia; reflexivity. } split; [lia|]. split.
  { replace (p ++ m' ++ t) with (splice mem mo m'); [apply PropsBuf.splice_written; lia|]. unfold splice, p, t. rewrite Lm', Lm, Z.sub_add_distr. reflexivity. }
  assert (Em': 64 <= n -> slice (p ++ m' ++ t) mo (n - 64) = slice m' 0 (n - 64)) by (intros; rewrite slice_app_r, slice_app_l by lia; f_equal; lia).
  destruct H as [(-> & -> & C & V & E')|(-> & -> & NV & F)].
  - left. unfold sm in V, E'. rewrite !slice_slice in V by lia. rewrite slice_slice in E' by lia. rewrite Z.add_0_r in V. repeat (split; [first [reflexivity|lia|exact V]|]). rewrite Em' by lia. exact E'.
  - right. split; [reflexivity|]. split; [reflexivity|]. split.
    + intros C V. apply (NV C). unfold sm. rewrite !slice_slice by lia. rewrite Z.add_0_r. exact V.
    + destruct F as [[-> _]|F]; [now left|]. destruct (Z.ltb_spec n 64); [|right; rewrite Em' by lia; exact F].
      right. rewrite !slice_neg by lia. unfold zeros. now replace (Z.to_nat (n - 64)) with 0%nat by lia.
Qed.

(** In place ([m == sm]) the public key is stored over the second half of the signature before that half is
    read: the code accepts exactly when R together with the PUBLIC KEY BYTES as S is a valid signature. *)
Theorem C69_open_in_place_partial : forall p R S M t pk, zlen pk = 32 -> bytes_ok pk -> zlen R = 32 -> zlen S = 32 -> (exists A, decodes pk A) ->
  let mem := p ++ (R ++ S ++ M) ++ t in let n := zlen M + 64 in bytes_ok mem -> n < 2 ^ 31 ->
  exists rc mlen w, ed_open_c mem (zlen p) (zlen p) n pk = Ret (rc, mlen, p ++ w ++ t) /\ zlen w = n /\
    ((rc = 0 /\ mlen = zlen M /\ ed_valid pk (R ++ pk) M /\ slice w 0 (zlen M) = M) \/
     (rc = -1 /\ mlen = 2 ^ 64 - 1 /\ ~ ed_valid pk (R ++ pk) M /\ slice w 0 (zlen M) = zeros (zlen M))).
Proof.
  intros p R S M t pk Lp Bp LR LS (A & D) mem n Bm Hn. pose proof (zlen_nonneg M).
  assert (B5: bytes_ok R /\ bytes_ok M). { unfold mem in Bm. apply bytes_ok_app in Bm as [_ Bm]. apply bytes_ok_app in Bm as [Bm _]. apply bytes_ok_app in Bm as [? Bm]. apply bytes_ok_app in Bm as [_ ?]. auto. } destruct B5 as [BR BM].
  clear H; pose proof (zlen_nonneg M) as HM; set (sm := R ++ pk ++ M). assert (Ls: zlen sm = n) by (unfold sm, n; rewrite !zlen_app; lia). assert (Bs: bytes_ok sm) by (unfold sm; rewrite !bytes_ok_app; auto).
  destruct (PropsEd.C41_ed25519_open sm sm n pk Lp Bp Bs Bs ltac:(lia) ltac:(lia) ltac:(lia)) as (rc & mlen & w & E & Lw & _ & H). cbv zeta in H.
  assert (E1: slice sm 0 64 = R ++ pk). { unfold sm. rewrite app_assoc, slice_app_l, slice_all; rewrite ?zlen_app; try lia; reflexivity. }
  assert (E2: slice sm 64 (n - 64) = M). { unfold sm. rewrite app_assoc, slice_app_r by (rewrite ?zlen_app; lia). rewrite zlen_app, LR, Lp. apply slice_all. lia. }
  rewrite E1, E2 in H. replace (n - 64) with (zlen M) in H by lia. exists rc, mlen, w. split; [|split; [lia|]].
  - apply (inplace_open p R S M t (zlen p) n pk mem rc mlen w); try assumption; try lia; try reflexivity.
    intros EN. pose proof (unpackneg_ok pk Lp Bp) as U. apply wp_ex in U. destruct U as (o & EU & U). rewrite EN in EU. apply ret_inj in EU. subst o. exact (U A D).
  - destruct H as [(-> & -> & _ & V & E')|(-> & -> & NV & F)]; [left; split; [reflexivity|split; [reflexivity|split; [exact V|exact E']]]|right]. split; [reflexivity|]. split; [reflexivity|]. split; [apply NV; lia|].
    destruct F as [[_ [F|F]]|F]; [lia|destruct (F A D)|exact F].
Qed.

(** So in-place opening is not verification: for every key and message, the genuine signature and the one
    with 1 added to S are told apart with separate buffers, but in place the two calls have the same outcome
    (return value, *mlen and memory). *)
Theorem C69_open_in_place_refuted : forall seed m, bytes_ok m -> zlen m + 64 < 2 ^ 31 ->
  let pk := ed_public seed in let n := zlen m + 64 in
  let good := ed_signature seed m ++ m in let bad := (ed_sigR seed m ++ le_bytes 32 (ed_sigS seed m + 1)) ++ m in
  (exists mem', ed_open_c (good ++ zeros n) n 0 n pk = Ret (0, zlen m, mem')) /\
  (exists mem', ed_open_c (bad ++ zeros n) n 0 n pk = Ret (-1, 2 ^ 64 - 1, mem')) /\
  exists rc mlen mem', ed_open_c good 0 0 n pk = Ret (rc, mlen, mem') /\ ed_open_c bad 0 0 n pk = Ret (rc, mlen, mem').
Proof.
  intros seed m Bm Hn pk n good bad. pose proof (zlen_nonneg m). assert (Lpk: zlen pk = 32) by apply zlen_penc. assert (Bpk: bytes_ok pk) by apply penc_bytes.
  set (R := ed_sigR seed m) in *. set (s := ed_sigS seed m) in *. pose proof (sigS_range seed m) as Hs. fold s in Hs. pose proof edL_lt as HL.
  assert (LR: zlen R = 32) by apply zlen_penc. assert (BR: bytes_ok R) by apply penc_bytes.
  assert (LS: forall x, zlen (le_bytes 32 x) = 32) by (intros; apply zlen_le_bytes). assert (BS: forall x, bytes_ok (le_bytes 32 x)) by (intros; apply le_bytes_ok).
  assert (V: ed_valid pk (R ++ le_bytes 32 s) m) by apply ed_valid_weaken, ed_signature_valid.
  assert (NV: ~ ed_valid pk (R ++ le_bytes 32 (s + 1)) m). { intros V'. pose proof (PropsEd.C42_ed25519_unique_mod_order_partial pk R _ _ m Lpk Bpk LR (LS s) (LS (s + 1)) (BS _) (BS _) V V') as E.
    rewrite !(le_val_bytes 32) in E by (change (256 ^ Z.of_nat 32) with (2 ^ 256); lia). rewrite (Z.mod_small s) in E by lia.
    destruct (Z.eq_dec (s + 1) edL) as [E1|]; [rewrite E1, Z.mod_same in E by lia|rewrite Z.mod_small in E by lia]; lia || idtac. assert (1 < edL) by (vm_compute; reflexivity). lia. }
  assert (SEP: forall x, exists rc mlen mem', ed_open_c (((R ++ le_bytes 32 x) ++ m) ++ zeros n) n 0 n pk = Ret (rc, mlen, mem') /\
     ((rc = 0 /\ mlen = zlen m /\ ed_valid pk (R ++ le_bytes 32 x) m) \/ (rc = -1 /\ mlen = 2 ^ 64 - 1 /\ ~ ed_valid pk (R ++ le_bytes 32 x) m))).
  { intros x. set (mem := ((R ++ le_bytes 32 x) ++ m) ++ zeros n). assert (Lr: zlen (R ++ le_bytes 32 x) = 64) by (rewrite zlen_app, LR, LS; lia).
    assert (Lmem: zlen mem = n + n) by (unfold mem; rewrite zlen_app, zlen_app, Lr, zlen_zeros by lia; lia).
    assert (Bmem: bytes_ok mem) by (unfold mem; rewrite !bytes_ok_app; auto using bytes_ok_zeros).
    destruct (C69_open_separate mem n 0 n pk Lpk Bpk Bmem ltac:(lia) ltac:(unfold inside; lia) ltac:(unfold inside; lia) ltac:(lia)) as (rc & mlen & w & mem' & E & _ & _ & H1).
    assert (E1: slice mem 0 64 = R ++ le_bytes 32 x) by (unfold mem; rewrite <- app_assoc, slice_app_l, slice_all by lia; reflexivity).
    assert (E2: slice mem (0 + 64) (n - 64) = m). { unfold mem. rewrite <- app_assoc, slice_app_r by lia. rewrite Lr, slice_app_l by lia. apply slice_all. lia. }
    cbv zeta in H1. rewrite E1, E2 in H1. exists rc, mlen, mem'. split; [exact E|]. destruct H1 as [(-> & -> & _ & V1 & _)|(-> & -> & V1 & _)]; [left; split; [reflexivity|split; [lia|exact V1]]|right; split; [reflexivity|split; [reflexivity|apply V1; lia]]]. }
  split; [|split].
  - destruct (SEP s) as (rc & mlen & mem' & E & [(-> & -> & _)|(_ & _ & F)]); [exists mem'; exact E|contradiction].
  - destruct (SEP (s + 1)) as (rc & mlen & mem' & E & [(_ & _ & F)|(-> & -> & _)]); [contradiction|exists mem'; exact E].
  - assert (Bs: bytes_ok (R ++ pk ++ m)) by (rewrite !bytes_ok_app; auto).
    destruct (PropsEd.C41_ed25519_open (R ++ pk ++ m) (R ++ pk ++ m) n pk Lpk Bpk Bs Bs ltac:(lia) ltac:(rewrite !zlen_app; lia) ltac:(rewrite !zlen_app; lia)) as (rc & mlen & w & E & _).
    assert (IN: forall x, ed_open_c ((R ++ le_bytes 32 x) ++ m) 0 0 n pk = Ret (rc, mlen, w)).
    { intros x. rewrite <- (app_nil_r w). apply (inplace_open [] R (le_bytes 32 x) m [] 0 n pk); try assumption; try reflexivity; try lia; try apply LS.
      - cbn [app]. now rewrite app_nil_r, <- app_assoc.
      - rewrite !bytes_ok_app. auto.
      - intros EN. pose proof (unpackneg_ok pk Lpk Bpk) as U. apply wp_ex in U. destruct U as (o & EU & U). rewrite EN in EU. apply ret_inj in EU. subst o. exact (U _ (decodes_strict_decodes _ _ (ed_public_decodes seed))). }
    exists rc, mlen, w. split; apply IN.
Qed.
Print Assumptions C69_open_separate. Print Assumptions C69_open_in_place_partial. Print Assumptions C69_open_in_place_refuted.
(** keys that decode, and disjoint places in one memory *)
Example C69_open_nonvacuous : (forall seed, zlen (ed_public seed) = 32 /\ exists A, decodes (ed_public seed) A) /\ inside (zeros 300) 150 100 /\ inside (zeros 300) 0 100 /\ bytes_ok (zeros 300).
Proof. split; [intros; split; [apply zlen_penc|eexists; apply decodes_strict_decodes, ed_public_decodes]|]. split; [vm_compute; intuition congruence|]. split; [vm_compute; intuition congruence|]. apply bytes_ok_zeros. Qed.
