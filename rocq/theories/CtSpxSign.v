(** The trace of SPHINCS+ signing is determined by the public key, the message and the signature. *)
From Coq Require Import ZifyBool ZifyNat.
From Verif Require Import Base Wp Sha512Spec TweetSha SpongePure Sponge SpxSpec Spx SpxTree SpxWots SpxWots2 SpxSign SpxTop PropsSpx SpongeProofs SpongeProofs2 DilSignProofs DilBuf BufLemmas DilBufSign SpxBuf SpxBufProofs SpxBufTop
  CtBase CtTweet CtTweetProofs CtKeccak CtKeccakProofs CtSpx CtSpxProofs CtSpxTrace.
Local Open Scope Z_scope.
Ltac Zify.zify_post_hook ::= idtac.
Ltac mlia := Z.div_mod_to_equations; lia.
Local Opaque F.
#[local] Opaque Keccak.KeccakF1600_StatePermute.

Section One.
Variables loc locw : Z -> list Z.
Hypothesis LOC : forall n, 0 <= n -> zlen (loc n) = n.
Hypothesis LOCB : forall n, bytes_ok (loc n).
Hypothesis LOCW : forall n, 0 <= n -> zlen (locw n) = n.
Variable H : list Z -> Z -> list Z.
Hypothesis EH : shake256_bytes = H.
Notation HH := (SpxBufTop.HH H EH).
Notation HB := (SpxBufTop.HB H EH).

Lemma v_copy32 sk o : 0 <= o -> o + 32 <= zlen sk -> value (lcopy Zops (loc 32) 0 sk o 32) = slice sk o 32.
Proof. intros H0 H1. apply (era_copy _ _ _ _ _). eapply local32; eassumption. Qed.
Lemma v_opt bs : zlen bs = 32 -> value (lcopy Zops (loc 32) 0 bs 0 (zlen bs)) = bs.
Proof. intros L. apply (era_copy _ _ _ _ _). eapply local_all; (eassumption || lia). Qed.
Lemma v_type a t : adr a -> value (set_type_l Zops a t) = set_type a t.
Proof. intros Ha. apply (era_set_type _ _ _ (set_type_c_ok _ _ Ha)). Qed.
Lemma v_tree a t : adr a -> value (set_tree_addr_l Zops a t) = set_tree_addr a t.
Proof. intros Ha. apply (era_set_tree _ _ _ (set_tree_c _ _ Ha)). Qed.
Lemma v_keypair a t : adr a -> value (set_keypair_addr_l Zops a t) = set_keypair_addr a t.
Proof. intros Ha. apply (era_set_keypair _ _ _ (set_keypair_c _ _ Ha)). Qed.
Lemma v_random mem so sk opt mo mlen : zlen sk = 128 -> 0 <= so -> so + 32 <= zlen mem -> zlen opt = 32 -> 0 <= mo -> 0 <= mlen -> mo + mlen <= zlen mem ->
  value (gen_message_random_l Zops mem so sk 32 opt mo mlen) = splice mem so (H (slice sk 32 32 ++ opt ++ slice mem mo mlen) 32).
Proof.
  intros Ls H0 H1 Lo Hm Hn Hl. apply (era_gen_random _ _ _ _ _ _ _ _ (s_random loc locw LOC LOCB LOCW H EH mem so sk 32 opt mo mlen ltac:(lia) ltac:(lia) ltac:(lia) ltac:(lia) Lo Hm Hn Hl)).
Qed.
Lemma v_hash mem so sk mo mlen : zlen sk = 128 -> 0 <= so -> so + 32 <= zlen mem -> 0 <= mo -> 0 <= mlen -> mo + mlen <= zlen mem ->
  value (hash_message_l Zops loc (loc 40) mem so sk 64 mo mlen) =
    (let dg := H_msg H (slice sk 64 32) (slice mem so 32) (slice sk 96 32) (slice mem mo mlen) in (digest_md dg, digest_tree dg, digest_leaf dg)).
Proof.
  intros Ls H0 H1 Hm Hn Hl. rewrite <- (hash_message_ok H HH HB). replace (slice sk 64 32 ++ slice sk 96 32) with (slice sk 64 64) by (apply (slice_split sk 64 64 32); lia).
  apply (era_hash_message loc _ _ _ _ _ _ _ _ (s_hash_message loc locw LOC LOCB LOCW H EH (loc 40) mem so sk 64 mo mlen (LOC 40 ltac:(lia)) ltac:(lia) ltac:(lia) ltac:(lia) ltac:(lia) Hm Hn Hl)).
Qed.

(** what one layer of the hypertree needs to run *)
Definition wshape (wa : list Z) : Prop := adr wa /\ exists l T kp c W, wa = A l T 0 kp c W /\ zlen T = 8 /\ zlen W = 4.
Definition tshape (ta : list Z) : Prop := adr ta /\ exists l T c W, ta = A l T 2 0 c W /\ zlen T = 8 /\ zlen W = 4.
Definition lay_ok (n : Z) '((sg, off, root, wa, ta, tr, lf) : list Z * Z * list Z * list Z * list Z * Z * Z) : Prop :=
  0 <= off /\ off + 2272 * n <= zlen sg /\ bytes_ok root /\ zlen root = 32 /\ 0 <= tr < 2 ^ 64 /\ 0 <= lf < 16 /\ wshape wa /\ tshape ta.
Lemma layer_step ps ss i n sg off root wa ta tr lf : zlen ps = 32 -> bytes_ok ps -> zlen ss = 32 -> bytes_ok ss -> 0 <= i < 17 -> 1 <= n ->
  lay_ok n (sg, off, root, wa, ta, tr, lf) ->
  exists sg' wa' ta', value (sign_layer_l Zops loc locw (ps, ss) i (sg, off, root, wa, ta, tr, lf)) = (sg', off + 2272, xmss_node H ps ss i tr 4 0, wa', ta', tr / 16, tr mod 16) /\
    lay_ok (n - 1) (sg', off + 2272, xmss_node H ps ss i tr 4 0, wa', ta', tr / 16, tr mod 16).
Proof.
  intros Lps Bps Lss Bss Hi Hn (Ho & HL & Hrb' & Hrl & Htr & Hlf' & (Haw & l1 & T1 & k1 & c1 & W1 & Ew & HT1 & HW1) & (Hat & l2 & T2 & c2 & W2 & Et & HT2 & HW2)).
  set (ctx := {| pub_seed := ps; sk_seed := ss |}).
  assert (X : wp (sign_layer_c loc locw ctx i (sg, off, root, wa, ta, tr, lf)) (fun s => exists sg' wa' ta', s = (sg', off + 2272, xmss_node H ps ss i tr 4 0, wa', ta', tr / 16, tr mod 16) /\ lay_ok (n - 1) s)).
  { unfold sign_layer_c. addrs. set (ta1 := set_tree_addr (set_layer_addr ta i) tr). set (wa1 := set_keypair_addr (copy_subtree_addr wa ta1) lf).
    assert (Aw1: adr wa1) by (unfold wa1, ta1; sadr). assert (At1: adr ta1) by (unfold ta1; sadr).
    assert (Et1: ta1 = A i (be_bytes 8 tr) 2 0 c2 W2) by (unfold ta1; rewrite Et; rewrite set_layer_A by assumption; rewrite set_tree_A by (try assumption; lia); rewrite u8_id by lia; reflexivity).
    assert (Ew1: wa1 = A i (be_bytes 8 tr) 0 lf c1 W1) by (unfold wa1; rewrite Et1, Ew; rewrite copy_subtree_A by (try assumption; apply zlen_be_bytes); rewrite set_kp_A by (try assumption; apply zlen_be_bytes); rewrite u8_id by lia; reflexivity).
    apply wp_bind. eapply wp_mono.
    { eapply ref_wp; [apply (s_merkle_sign loc locw LOC LOCB LOCW H EH ctx sg off root 0 wa1 ta1 lf (conj Lps Bps) (conj Lss Bss)); (assumption || lia)|].
      rewrite (slice_all root) by lia. rewrite Ew1, Et1. apply (merkle_sign_ok H HH HB ctx); try assumption; try lia. apply LOC. lia. }
    cbn [pub_seed sk_seed ctx]. change (pub_seed ctx) with ps. change (sk_seed ctx) with ss.
    intros [[sg' root'] ta'] ([[sg2 x] ta2] & (-> & -> & -> & [Lx Bx] & Ha2) & -> & (c' & W' & Eta2 & HW') & HS' & Esg). pose proof HS' as [HL' HO']. apply wp_ret.
    rewrite splice_whole' by lia. replace (Z.shiftr tr 4) with (tr / 16) by (symmetry; apply (tree_next H HH HB)). replace (u32 _) with (tr mod 16) by (symmetry; apply (leaf_next H HH HB); lia).
    change (2144 + 4 * 32) with 2272.
    exists sg2, wa1, ta2. split; [reflexivity|]. split; [lia|]. split; [lia|].
    split; [apply (xmss_root_bytes H HB)|]. split; [apply (xmss_root_len H HH HB)|]. split; [clear -Htr; mlia|]. split; [clear -Htr; mlia|]. split.
    + split; [exact Aw1|]. rewrite Ew1. do 5 eexists. split; [reflexivity|]. split; [apply zlen_be_bytes|assumption].
    + split; [exact Ha2|]. rewrite Eta2. do 4 eexists. split; [reflexivity|]. split; [apply zlen_be_bytes|assumption]. }
  destruct (sign_layer_c loc locw ctx i (sg, off, root, wa, ta, tr, lf)) as [r|] eqn:E; [|destruct X].
  destruct X as (sg' & wa' & ta' & -> & HI). exists sg', wa', ta'. split; [|exact HI]. exact (era_sign_layer loc locw ctx i _ _ E).
Qed.
Lemma v_fors ps ss mem off md t kp c W : zlen ps = 32 -> bytes_ok ps -> zlen ss = 32 -> bytes_ok ss ->
  bytes_ok md -> zlen md = 40 -> 0 <= t < 2 ^ 64 -> 0 <= kp < 256 -> adr (A 0 (be_bytes 8 t) 0 kp c W) -> zlen W = 4 -> 0 <= off -> off + 11200 <= zlen mem ->
  exists mm, value (fors_sign_l Zops loc locw (ps, ss) mem off (loc 32) md (A 0 (be_bytes 8 t) 0 kp c W)) = (mm, fors_pk_of_sig H ps (SpxSpec.fors_sign H ps ss md t kp) md t kp) /\ zlen mm = zlen mem.
Proof.
  intros Lps Bps Lss Bss Hmb Hmd Ht Hk Ha HW Ho Hl. set (ctx := {| pub_seed := ps; sk_seed := ss |}).
  assert (X : wp (fors_sign_c loc locw ctx mem off (loc 32) md (A 0 (be_bytes 8 t) 0 kp c W)) (fun r => exists mm, r = (mm, fors_pk_of_sig H ps (SpxSpec.fors_sign H ps ss md t kp) md t kp) /\ zlen mm = zlen mem)).
  { eapply wp_mono.
    { eapply ref_wp; [apply (s_fors_sign loc locw LOC LOCB LOCW H EH ctx mem off (loc 32) md _ (conj Lps Bps) (conj Lss Bss)); [apply LOC; lia|exact Ha]|].
      apply (fors_sign_ok H HH HB ctx); try assumption; try reflexivity; try lia. intros _. apply LOC. lia. }
    intros [m2 r2] ([mm x] & (-> & -> & _) & [HL _] & _ & ->). exists mm. split; [reflexivity|exact HL]. }
  destruct (fors_sign_c loc locw ctx mem off (loc 32) md (A 0 (be_bytes 8 t) 0 kp c W)) as [r|] eqn:E; [|destruct X].
  destruct X as (mm & -> & Hm). exists mm. split; [|exact Hm]. exact (era_fors_sign loc locw ctx _ _ _ _ _ _ E).
Qed.
End One.

Section Runs.
Variables loc locw loc' locw' : Z -> list Z.
Hypothesis LOC : forall n, 0 <= n -> zlen (loc n) = n.
Hypothesis LOCB : forall n, bytes_ok (loc n).
Hypothesis LOCW : forall n, 0 <= n -> zlen (locw n) = n.
Hypothesis LOC' : forall n, 0 <= n -> zlen (loc' n) = n.
Hypothesis LOCB' : forall n, bytes_ok (loc' n).
Hypothesis LOCW' : forall n, 0 <= n -> zlen (locw' n) = n.
Variable H : list Z -> Z -> list Z.
Hypothesis EH : shake256_bytes = H.
Notation HH := (SpxBufTop.HH H EH).
Notation HB := (SpxBufTop.HB H EH).

Lemma trace_lif {A} (b : bool) (x y x' y' : L A) : b = false -> trace y = trace y' -> trace (lif b x y) = trace (lif b x' y').
Proof. intros -> E. unfold lif, trace in *. cbn [fst]. now rewrite E. Qed.
Lemma app_same (a b a' b' : list Z) : a ++ b = a' ++ b' -> zlen a = zlen a' -> a = a' /\ b = b'.
Proof.
  revert a'. induction a as [|x a IH]; intros a' E L; destruct a' as [|y a'].
  - auto.
  - rewrite zlen_cons in L. pose proof (zlen_nonneg a'). change (zlen []) with 0 in L. lia.
  - rewrite zlen_cons in L. pose proof (zlen_nonneg a). change (zlen []) with 0 in L. lia.
  - rewrite !zlen_cons in L. cbn [app] in E. injection E as -> E. destruct (IH a' E ltac:(lia)) as (-> & ->). auto.
Qed.
Definition rel_ok ps ss ss' (i : Z) '((sg, off, root, wa, ta, tr, lf) : list Z * Z * list Z * list Z * list Z * Z * Z) '((sg', off', root', wa', ta', tr', lf') : list Z * Z * list Z * list Z * list Z * Z * Z) : Prop :=
  lay_ok (17 - i) (sg, off, root, wa, ta, tr, lf) /\ lay_ok (17 - i) (sg', off', root', wa', ta', tr', lf') /\
  off' = off /\ root' = root /\ tr' = tr /\ lf' = lf /\
  ht_sign H ps ss (Z.to_nat (17 - i)) i root tr lf = ht_sign H ps ss' (Z.to_nat (17 - i)) i root tr lf.
Lemma layers_trace ps ss ss' s s' : zlen ps = 32 -> bytes_ok ps -> zlen ss = 32 -> bytes_ok ss -> zlen ss' = 32 -> bytes_ok ss' ->
  rel_ok ps ss ss' 0 s s' -> trace (lfor 17 (sign_layer_l Zops loc locw (ps, ss)) s) = trace (lfor 17 (sign_layer_l Zops loc' locw' (ps, ss')) s').
Proof.
  intros Lp Bp Ls Bs Ls' Bs' HR. unfold lfor. change (Z.to_nat 17) with 17%nat. apply (same_from (rel_ok ps ss ss')); [exact HR|].
  intros i [[[[[[sg off] root] wa] ta] tr] lf] [[[[[[sg' off'] root'] wa'] ta'] tr'] lf'] Hi (O1 & O2 & -> & -> & -> & -> & E). change (Z.of_nat 17) with 17 in Hi.
  destruct (layer_step loc locw LOC LOCB LOCW H EH ps ss i (17 - i) _ _ _ _ _ _ _ Lp Bp Ls Bs ltac:(lia) ltac:(lia) O1) as (g1 & w1 & t1 & V1 & P1).
  destruct (layer_step loc' locw' LOC' LOCB' LOCW' H EH ps ss' i (17 - i) _ _ _ _ _ _ _ Lp Bp Ls' Bs' ltac:(lia) ltac:(lia) O2) as (g2 & w2 & t2 & V2 & P2).
  pose proof O1 as (_ & _ & Br & Lr & Ht & Hl & _).
  split; [apply ct_sign_layer; assumption|]. rewrite V1, V2.
  replace (Z.to_nat (17 - i)) with (S (Z.to_nat (17 - (i + 1)))) in E by lia. rewrite !(ht_sign_S H) in E.
  apply app_same in E; [|rewrite !(zlen_xmss_sign H HH HB); reflexivity]. destruct E as (Ex & E). 
  assert (En : xmss_node H ps ss i tr 4 0 = xmss_node H ps ss' i tr 4 0).
  { rewrite <- (xmss_pk_of_sign H HH HB ps ss root lf i tr) by exact Hl. rewrite <- (xmss_pk_of_sign H HH HB ps ss' root lf i tr) by exact Hl. now rewrite Ex. }
  rewrite <- Ex in E. rewrite !(xmss_pk_of_sign H HH HB) in E by exact Hl.
  replace (17 - i - 1) with (17 - (i + 1)) in P1, P2 by lia.
  split; [exact P1|]. split; [exact P2|]. split; [reflexivity|]. split; [now symmetry|]. split; [reflexivity|]. split; [reflexivity|]. exact E.
Qed.

Lemma sign_trace mem mem' so siglen siglen' mo mlen sk sk' opt opt' :
  zlen sk = 128 -> bytes_ok sk -> zlen sk' = 128 -> bytes_ok sk' -> slice sk 64 64 = slice sk' 64 64 ->
  0 <= so -> so + 49856 <= zlen mem -> so + 49856 <= zlen mem' -> 0 <= mo -> 0 <= mlen -> mo + mlen <= zlen mem -> mo + mlen <= zlen mem' ->
  mo + mlen <= so \/ so + 32 <= mo \/ mlen = 0 -> slice mem mo mlen = slice mem' mo mlen ->
  zlen opt = 32 -> zlen opt' = 32 ->
  slh_sign_sk H (slice mem mo mlen) sk opt = slh_sign_sk H (slice mem' mo mlen) sk' opt' ->
  trace (sign_signature_l Zops loc locw 0 opt mem so siglen mo mlen sk) = trace (sign_signature_l Zops loc' locw' 0 opt' mem' so siglen' mo mlen sk').
Proof.
  intros Lsk Bsk Lsk' Bsk' Epk Hso Hl Hl' Hmo Hml Hmm Hmm' Hdis EM Lo Lo' ES.
  rewrite !slh_sign_tail in ES. cbv zeta in ES. rewrite <- EM in ES. set (M := slice mem mo mlen) in *.
  assert (EP : slice sk 64 32 = slice sk' 64 32 /\ slice sk 96 32 = slice sk' 96 32).
  { apply app_same; [|rewrite !zlen_slice by lia; reflexivity].
    replace (slice sk 64 32 ++ slice sk 96 32) with (slice sk 64 64) by (apply (slice_split sk 64 64 32); lia).
    replace (slice sk' 64 32 ++ slice sk' 96 32) with (slice sk' 64 64) by (apply (slice_split sk' 64 64 32); lia). exact Epk. }
  destruct EP as (Eps & Ert).
  apply app_same in ES; [|rewrite !HH by lia; reflexivity]. destruct ES as (ER & ES).
  set (R := H (slice sk 32 32 ++ opt ++ M) 32) in *. assert (LR : zlen R = 32) by (apply HH; lia).
  rewrite <- ER in ES. unfold slh_tail in ES. cbv zeta in ES. rewrite <- Eps, <- Ert in ES.
  set (ps := slice sk 64 32) in *. set (rt := slice sk 96 32) in *. set (ss := slice sk 0 32) in *. set (ss' := slice sk' 0 32) in *.
  set (dg := H_msg H ps R rt M) in *. pose proof (digest_tree_range dg) as Ht. pose proof (digest_leaf_range dg) as Hlf.
  assert (Hdg: zlen dg = 49) by (apply HH; lia). assert (Hmd: zlen (digest_md dg) = 40) by (unfold digest_md; rewrite zlen_slice by lia; reflexivity).
  assert (Hmb: bytes_ok (digest_md dg)) by (apply bytes_ok_slice, HB).
  set (md := digest_md dg) in *. set (t := digest_tree dg) in *. set (leaf := digest_leaf dg) in *.
  apply app_same in ES; [|rewrite !(zlen_fors_sign H HH HB); reflexivity]. destruct ES as (EF & EHt). rewrite <- EF in EHt.
  assert (Lps: zlen ps = 32) by (apply zlen_slice; lia). assert (Bps: bytes_ok ps) by now apply bytes_ok_slice.
  assert (Lss: zlen ss = 32) by (apply zlen_slice; lia). assert (Bss: bytes_ok ss) by now apply bytes_ok_slice.
  assert (Lss': zlen ss' = 32) by (apply zlen_slice; lia). assert (Bss': bytes_ok ss') by now apply bytes_ok_slice.
  unfold sign_signature_l. change (zaddr Zops) with (zeros 32).
  assert (A0 : adr (zeros 32)) by sadr.
  apply trace_split; [apply ct_copy|]. rewrite (v_copy32 loc locw), (v_copy32 loc' locw') by (assumption || lia). fold ss ss'.
  apply trace_split; [apply ct_copy|]. rewrite (v_copy32 loc locw), (v_copy32 loc' locw') by (assumption || lia). rewrite <- Eps. fold ps. cbv zeta.
  apply trace_split; [reflexivity|]. rewrite v_type by exact A0.
  apply trace_split; [reflexivity|]. rewrite v_type by exact A0.
  apply trace_split; [rewrite Lo, Lo'; apply ct_copy|]. rewrite (v_opt loc locw), (v_opt loc' locw') by assumption.
  apply trace_lif; [reflexivity|].
  apply trace_split; [apply ct_pieces; cbn [map]; unfold lptr; rewrite !zlen_slice by lia; reflexivity|].
  rewrite !(v_random loc locw LOC LOCB LOCW H EH) by (assumption || lia). rewrite <- EM. fold M. fold R. rewrite <- ER.
  assert (L1: zlen (splice mem so R) = zlen mem) by (apply zlen_splice; lia). assert (L1': zlen (splice mem' so R) = zlen mem') by (apply zlen_splice; lia).
  assert (M1 : slice (splice mem so R) mo mlen = M) by (unfold M; destruct Hdis as [h|[h| ->]]; [apply slice_splice_before; lia|apply slice_splice_after; lia|rewrite !slice_0; reflexivity]).
  assert (M1' : slice (splice mem' so R) mo mlen = M) by (rewrite EM; destruct Hdis as [h|[h| ->]]; [apply slice_splice_before; lia|apply slice_splice_after; lia|rewrite !slice_0; reflexivity]).
  apply trace_split. { unfold hash_message_l. apply ct_bind; [apply ct_pieces; cbn [map]; unfold lptr; rewrite !zlen_slice by lia; reflexivity|intros]. apply ct_bind; [apply ct_copy|intros]. cbv zeta. apply ct_bind; [apply ct_b2ull|intros]. apply ct_bind; [apply ct_b2ull|reflexivity]. }
  rewrite (v_hash loc locw LOC LOCB LOCW H EH), (v_hash loc' locw' LOC' LOCB' LOCW' H EH) by (assumption || lia). cbv zeta. rewrite M1, M1', !slice_splice_exact by lia. rewrite <- Eps, <- Ert. fold ps rt dg. fold md t leaf. cbv beta iota.
  set (wt := set_type (zeros 32) ADDR_WOTS). assert (Aw : adr wt) by (unfold wt; sadr).
  apply trace_split; [apply ct_tree|]. rewrite v_tree by exact Aw. set (wt1 := set_tree_addr wt t). assert (Aw1 : adr wt1) by (unfold wt1; sadr).
  apply trace_split; [apply ct_keypair|]. rewrite v_keypair by exact Aw1. set (wa0 := set_keypair_addr wt1 leaf). assert (Awa : adr wa0) by (unfold wa0; sadr).
  set (ta0 := set_type (zeros 32) ADDR_HASHTREE). assert (Ata : adr ta0) by (unfold ta0; sadr).
  assert (Ewa: wa0 = A 0 (be_bytes 8 t) 0 leaf 0 [0;0;0;0]).
  { unfold wa0, wt1, wt. change (zeros 32) with addr0. rewrite addr0_A. rewrite !set_type_A by reflexivity. rewrite set_tree_A by (reflexivity || lia). rewrite set_kp_A by (try apply zlen_be_bytes; reflexivity). rewrite (u8_id leaf) by lia. reflexivity. }
  assert (Eta: ta0 = A 0 (zeros 8) 2 0 0 [0;0;0;0]) by (unfold ta0; change (zeros 32) with addr0; rewrite addr0_A; rewrite set_type_A by reflexivity; reflexivity).
  apply trace_split; [apply ct_fors_sign; assumption|].
  rewrite Ewa in *.
  destruct (v_fors loc locw LOC LOCB LOCW H EH ps ss (splice mem so R) (so + 32) md t leaf 0 [0;0;0;0] Lps Bps Lss Bss Hmb Hmd Ht ltac:(lia) Awa eq_refl ltac:(lia) ltac:(lia)) as (mm & -> & Lmm).
  destruct (v_fors loc' locw' LOC' LOCB' LOCW' H EH ps ss' (splice mem' so R) (so + 32) md t leaf 0 [0;0;0;0] Lps Bps Lss' Bss' Hmb Hmd Ht ltac:(lia) Awa eq_refl ltac:(lia) ltac:(lia)) as (mm' & -> & Lmm').
  cbv beta iota. rewrite <- EF. apply ct_bind; [|intros [[[[[[? ?] ?] ?] ?] ?] ?] [[[[[[? ?] ?] ?] ?] ?] ?]; reflexivity].
  apply layers_trace; try assumption.
  assert (W : wshape (A 0 (be_bytes 8 t) 0 leaf 0 [0;0;0;0])) by (split; [exact Awa|]; do 5 eexists; split; [reflexivity|]; split; [apply zlen_be_bytes|reflexivity]).
  assert (T : tshape ta0) by (split; [exact Ata|]; exists 0, (zeros 8), 0, [0;0;0;0]; split; [exact Eta|split; reflexivity]).
  assert (P : forall mx, so + 49856 <= zlen mx -> lay_ok (17 - 0) (mx, so + 32 + 11200, fors_pk_of_sig H ps (SpxSpec.fors_sign H ps ss md t leaf) md t leaf, A 0 (be_bytes 8 t) 0 leaf 0 [0;0;0;0], ta0, t, leaf)).
  { intros mx Hx. split; [lia|]. split; [lia|]. split; [apply (fors_pk_bytes H HB)|]. split; [apply (fors_pk_len H HH HB)|]. split; [exact Ht|]. split; [exact Hlf|]. split; assumption. }
  split; [apply P; lia|]. split; [apply P; lia|]. split; [reflexivity|]. split; [reflexivity|]. split; [reflexivity|]. split; [reflexivity|].
  change (Z.to_nat (17 - 0)) with 17%nat. exact EHt.
Qed.
End Runs.
