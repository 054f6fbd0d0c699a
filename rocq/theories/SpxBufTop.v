(** The buffer-level model of sphincs/sign.c (SpxBuf.v) against the FIPS 205 specification with
    SHAKE256: exact results, exact write sets, in-place use. *)
From Coq Require Import ZifyBool ZifyNat.
From Verif Require Import Base Wp Sha512Spec TweetSha SpongePure Sponge SpxSpec Spx SpxTree SpxWots SpxWots2 SpxSign SpxTop PropsSpx SpongeProofs SpongeProofs2 DilSignProofs DilBuf BufLemmas DilBufSign SpxBuf SpxBufProofs.
Local Open Scope Z_scope.
Ltac Zify.zify_post_hook ::= idtac.
Ltac mlia := Z.div_mod_to_equations; lia.
Local Opaque F.

(* [cbn [bind]] leaves conversion problems on which the kernel unfolds too much *)
Lemma bind_r {A B} (a : A) (k : A -> outcome B) : bind (Ret a) k = k a. Proof. reflexivity. Qed.
Ltac br := repeat (rewrite bind_r; cbv beta iota).
Ltac addrs ::= repeat first [ rewrite set_layer_c by sadr | rewrite set_type_c_ok by sadr | rewrite set_keypair_c by sadr | rewrite set_chain_c by sadr
  | rewrite set_hash_c by sadr | rewrite set_height_c by sadr | rewrite set_tree_c by sadr | rewrite set_index_c by sadr
  | rewrite copy_subtree_c by sadr | rewrite copy_keypair_c by sadr | progress br ].
Lemma ref_wp {A B} (x : outcome A) (y : outcome B) R P : ref x y R -> wp y P -> wp x (fun a => exists b, R a b /\ P b).
Proof. intros Hr Hy. destruct y as [b|]; [|destruct Hy]. destruct (Hr b eq_refl) as (a & -> & HR). exists b. auto. Qed.
Lemma outside_splice (a b : list Z) off n l : same_outside a b off (off + n) -> slice b off n = l -> 0 <= off -> 0 <= n -> off + n <= zlen a -> b = splice a off l.
Proof.
  intros [HL HO] <- Ho Hn Hl. unfold splice. rewrite zlen_slice by lia. rewrite <- (slice_all b (zlen b)) at 1 by reflexivity. rewrite HL. rewrite (slice_split b 0 (zlen a) off) by lia. rewrite Z.add_0_l.
  rewrite (slice_split b off (zlen a - off) n) by lia. f_equal; [apply HO; lia|]. f_equal. apply HO; lia.
Qed.
Lemma outside_of_splice (a : list Z) off v lo hi : 0 <= off -> off + zlen v <= zlen a -> lo <= off -> off + zlen v <= hi -> same_outside a (splice a off v) lo hi.
Proof. exact (same_outside_splice a off v lo hi). Qed.

Lemma slice_1 (l : list Z) i : 0 <= i < zlen l -> slice l i 1 = [nth (Z.to_nat i) l 0].
Proof.
  intros Hi. assert (L: zlen (slice l i 1) = 1) by (apply zlen_slice; lia). destruct (slice l i 1) as [|x [|y r]] eqn:E; [discriminate L| |rewrite !zlen_cons in L; pose proof (zlen_nonneg r); lia].
  f_equal. assert (En: nth 0 (slice l i 1) 0 = nth (Z.to_nat i) l 0) by (rewrite nth_slice by (cbn; lia); f_equal; lia). rewrite E in En. exact En.
Qed.

Section Loc.
Variables loc locw : Z -> list Z.
Hypothesis LOC : forall n, 0 <= n -> zlen (loc n) = n.
Hypothesis LOCB : forall n, bytes_ok (loc n).
Hypothesis LOCW : forall n, 0 <= n -> zlen (locw n) = n.
(* SHAKE256 behind a variable, so that conversion does not unfold it *)
Variable H : list Z -> Z -> list Z.
Hypothesis EH : shake256_bytes = H.
Lemma HH : forall x n, 0 <= n -> zlen (H x n) = n. Proof. rewrite <- EH. apply shake256_hash_like. Qed.
Lemma HB : forall x n, bytes_ok (H x n). Proof. rewrite <- EH. apply shake256_hash_like. Qed.
Ltac shield t := let T := type of t in let T' := eval pattern shake256_bytes in T in
  match T' with ?P _ => let T2 := eval cbv beta in (P H) in exact (eq_rect shake256_bytes P t H EH : T2) end.
Definition s_gen_root := ltac:(shield (merkle_gen_root_c_ok loc locw LOC LOCB LOCW)).
Definition s_random := ltac:(shield (gen_message_random_c_ok loc locw LOC LOCB LOCW)).
Definition s_hash_message := ltac:(shield (hash_message_c_ok loc locw LOC LOCB LOCW)).
Definition s_fors_sign := ltac:(shield (fors_sign_c_ok loc locw LOC LOCB LOCW)).
Definition s_merkle_sign := ltac:(shield (merkle_sign_c_ok loc locw LOC LOCB LOCW)).
Definition s_fors_pk := ltac:(shield (fors_pk_from_sig_c_ok loc locw LOC LOCB LOCW)).
Definition s_wots_pk := ltac:(shield (wots_pk_from_sig_c_ok loc locw LOC LOCB LOCW)).
Definition s_thash := ltac:(shield (thash_c_ok loc locw LOC LOCB LOCW)).
Definition s_zlen_th := ltac:(shield zlen_th).
Definition s_node_th := ltac:(shield node_th).
Definition s_compute_root := ltac:(shield (compute_root_c_ok loc locw LOC LOCB LOCW)).

Lemma local32 src off : 0 <= off -> off + 32 <= zlen src -> copy (loc 32) 0 src off 32 = Ret (slice src off 32).
Proof. intros Ho Hl. assert (L: zlen (loc 32) = 32) by (apply LOC; lia). rewrite copy_splice by lia. rewrite splice_whole' by (rewrite zlen_slice by lia; lia). reflexivity. Qed.
Lemma local_all n src : 0 <= n -> zlen src = n -> copy (loc n) 0 src 0 (zlen src) = Ret src.
Proof. intros Hn Hl. assert (L: zlen (loc n) = n) by (apply LOC; lia). rewrite copy_splice by lia. rewrite (slice_all src) by reflexivity. rewrite splice_whole' by lia. reflexivity. Qed.

(** ** key generation *)
Lemma seed_keypair_c_ok pk sk seed : 64 <= zlen pk -> 128 <= zlen sk -> bytes_ok sk -> zlen seed = 96 -> bytes_ok seed ->
  seed_keypair_c loc locw pk sk seed = Ret (0, splice pk 0 (fst (slh_keygen H seed)), splice sk 0 (snd (slh_keygen H seed))).
Proof.
  intros Lp Ls Bs Ld Bd. unfold seed_keypair_c, slh_keygen. cbn [fst snd]. rewrite copy_splice by lia. cbn [bind]. rewrite (slice_all seed) by lia.
  assert (L1: zlen (splice sk 0 seed) = zlen sk) by (apply zlen_splice; lia).
  assert (S1: forall a n, 0 <= a -> 0 <= n -> a + n <= 96 -> slice (splice sk 0 seed) a n = slice seed a n) by (intros a n Ha Hn Hl; rewrite slice_splice_in by lia; rewrite Z.sub_0_r; reflexivity).
  rewrite copy_splice by lia. cbn [bind]. rewrite S1 by lia. set (ps := slice seed 64 32). assert (Lps: zlen ps = 32) by (apply zlen_slice; lia). assert (Bps: bytes_ok ps) by now apply bytes_ok_slice.
  assert (L2: zlen (splice pk 0 ps) = zlen pk) by (apply zlen_splice; lia).
  rewrite !local32 by lia. cbn [bind]. rewrite S1 by lia. rewrite slice_splice_in by lia. rewrite Z.sub_diag. rewrite (slice_all ps) by lia.
  set (ss := slice seed 0 32). assert (Lss: zlen ss = 32) by (apply zlen_slice; lia). assert (Bss: bytes_ok ss) by now apply bytes_ok_slice.
  set (ctx := {| pub_seed := ps; sk_seed := ss |}). assert (B1: bytes_ok (splice sk 0 seed)) by (apply bytes_ok_splice; assumption).
  destruct (s_gen_root ctx (splice sk 0 seed) 96 (conj Lps Bps) (conj Lss Bss) ltac:(lia) ltac:(lia) _
     (merkle_gen_root_ok H HH HB ctx (loc 128) (loc 2272) _ ltac:(apply LOC; lia) ltac:(apply LOC; lia) (bytes_ok_slice _ 96 32 B1) ltac:(apply zlen_slice; lia))) as (r & -> & -> & [Lr Br]).
  cbn [bind pub_seed sk_seed ctx]. change (pub_seed ctx) with ps. change (sk_seed ctx) with ss. change (pub_seed ctx) with ps in Lr. change (sk_seed ctx) with ss in Lr. set (root := slh_root H ps ss) in *.
  rewrite copy_splice by (rewrite ?zlen_splice by lia; lia). cbn [bind]. rewrite slice_splice_in by lia. rewrite Z.sub_diag. rewrite (slice_all root) by lia.
  pose proof (splice_splice pk 0 ps root ltac:(lia) ltac:(lia)) as E1. rewrite Lps in E1. change (0 + 32) with 32 in E1. rewrite E1.
  pose proof (splice_splice sk 0 seed root ltac:(lia) ltac:(lia)) as E2. rewrite Ld in E2. change (0 + 96) with 96 in E2. rewrite E2. reflexivity.
Qed.

(** ** signing *)
(* the part of a signature after R, for the digest of [M] *)
Definition slh_tail (sk R M : list Z) : list Z :=
  let ps := slice sk 64 32 in let ss := slice sk 0 32 in
  let dg := H_msg H ps R (slice sk 96 32) M in
  let md := digest_md dg in let t := digest_tree dg in let leaf := digest_leaf dg in
  let sf := SpxSpec.fors_sign H ps ss md t leaf in
  sf ++ ht_sign H ps ss 17 0 (fors_pk_of_sig H ps sf md t leaf) t leaf.
Lemma slh_sign_tail M sk o : slh_sign_sk H M sk o = let R := H (slice sk 32 32 ++ o ++ M) 32 in R ++ slh_tail sk R M.
Proof. reflexivity. Qed.
(* message and signature may overlap: the message is read for R before, and for the digest after R is written *)
Lemma sign_signature_c_gen rb mem so siglen mo mlen sk optrand : zlen sk = 128 -> bytes_ok sk -> 0 <= so -> so + 49856 <= zlen mem ->
  0 <= mo -> 0 <= mlen -> mo + mlen <= zlen mem -> rb 32 = (0, optrand) -> zlen optrand = 32 ->
  let R := H (slice sk 32 32 ++ optrand ++ slice mem mo mlen) 32 in
  sign_signature_c loc locw rb mem so siglen mo mlen sk = Ret (0, 49856, splice mem so (R ++ slh_tail sk R (slice (splice mem so R) mo mlen))).
Proof.
  intros Hsk Bsk Hso Hsl Hmo Hml Hmm Hrb Lo. intros R0. apply wp_is. unfold sign_signature_c. rewrite !local32 by lia. br. cbv zeta. addrs. rewrite Hrb.
  rewrite local_all by lia. br. change (negb (0 =? 0)) with false. cbv iota. rewrite (s_random) by lia. br. set (m := slice mem mo mlen).
  unfold gen_message_random, SPX_N. set (ps := slice sk 64 32). set (ss := slice sk 0 32). set (prf := slice sk 32 32). set (R := H (prf ++ optrand ++ m) 32). assert (HR: zlen R = 32) by (apply HH; lia).
  assert (Lps: zlen ps = 32) by (apply zlen_slice; lia). assert (Bps: bytes_ok ps) by now apply bytes_ok_slice. assert (Lss: zlen ss = 32) by (apply zlen_slice; lia). assert (Bss: bytes_ok ss) by now apply bytes_ok_slice.
  set (mem1 := splice mem so R). assert (L1: zlen mem1 = zlen mem) by (apply zlen_splice; lia). assert (HS1: same_outside mem mem1 so (so + 49856)) by (apply outside_of_splice; lia).
  assert (L40: zlen (loc 40) = 40) by (apply LOC; lia).
  rewrite (s_hash_message) by (assumption || lia). br. replace (slice mem1 so 32) with R by (symmetry; apply slice_splice_exact; lia).
  set (m2 := slice mem1 mo mlen).
  replace (slice sk 64 64) with (ps ++ slice sk 96 32) by (symmetry; apply (slice_split sk 64 64 32); lia). set (rt := slice sk 96 32).
  rewrite (hash_message_ok H HH HB). cbv beta iota zeta. set (dg := H_msg H ps R rt m2). pose proof (digest_tree_range dg) as Ht. pose proof (digest_leaf_range dg) as Hlf.
  assert (Hdg: zlen dg = 49) by (apply HH; lia). assert (Hmd: zlen (digest_md dg) = 40) by (unfold digest_md; rewrite zlen_slice by lia; reflexivity).
  assert (Hmb: bytes_ok (digest_md dg)) by (apply bytes_ok_slice, HB).
  set (md := digest_md dg) in *. set (t := digest_tree dg) in *. set (leaf := digest_leaf dg) in *. addrs.
  set (ctx := {| pub_seed := ps; sk_seed := ss |}). set (wa0 := set_keypair_addr _ leaf). set (ta0 := set_type (zeros 32) ADDR_HASHTREE).
  assert (Awa: adr wa0) by (unfold wa0; sadr). assert (Ata: adr ta0) by (unfold ta0; sadr).
  assert (Ewa: wa0 = A 0 (be_bytes 8 t) 0 leaf 0 [0;0;0;0]).
  { unfold wa0. change (zeros 32) with addr0. rewrite addr0_A. rewrite !set_type_A by reflexivity. rewrite set_tree_A by (reflexivity || lia). rewrite set_kp_A by (try apply zlen_be_bytes; reflexivity). rewrite (u8_id leaf) by lia. reflexivity. }
  assert (Eta: ta0 = A 0 (zeros 8) 2 0 0 [0;0;0;0]) by (unfold ta0; change (zeros 32) with addr0; rewrite addr0_A; rewrite set_type_A by reflexivity; reflexivity).
  apply wp_bind. eapply wp_mono.
  { eapply ref_wp; [apply (s_fors_sign ctx mem1 (so + 32) (loc 32) md wa0 (conj Lps Bps) (conj Lss Bss)); [apply LOC; lia|exact Awa]|].
    rewrite Ewa. apply (fors_sign_ok H HH HB ctx); try assumption; try reflexivity; try lia. intros _. apply LOC. lia. }
  cbn [pub_seed sk_seed ctx]. change (pub_seed ctx) with ps. change (sk_seed ctx) with ss.
  intros [mem2 root0] ([mm x] & (-> & -> & _) & HS2 & E2 & ->). set (sf := SpxSpec.fors_sign H ps ss md t leaf) in *. set (M0 := fors_pk_of_sig H ps sf md t leaf). pose proof HS2 as [HL2 HO2]. cbv beta iota.
  apply wp_bind. eapply (wp_for_loop (fun i '(sg, off, root, wa, ta, tr, lf) => off = so + 11232 + 2272 * i /\ same_outside mm sg (so + 11232) (so + 49856) /\ bytes_ok root /\ zlen root = 32 /\ 0 <= tr < 2 ^ 64 /\ 0 <= lf < 16 /\
      (adr wa /\ exists l T kp c W, wa = A l T 0 kp c W /\ zlen T = 8 /\ zlen W = 4) /\ (adr ta /\ exists l T c W, ta = A l T 2 0 c W /\ zlen T = 8 /\ zlen W = 4) /\
      ht_sign H ps ss 17 0 M0 t leaf = slice sg (so + 11232) (2272 * i) ++ ht_sign H ps ss (Z.to_nat (17 - i)) i root tr lf)); [lia| | |].
  - split; [lia|]. split; [apply same_outside_refl|]. split; [apply (fors_pk_bytes H HB)|]. split; [apply (fors_pk_len H HH HB)|]. split; [exact Ht|]. split; [exact Hlf|]. split; [|split].
    + split; [exact Awa|]. rewrite Ewa. do 5 eexists. split; [reflexivity|]. split; [apply zlen_be_bytes|reflexivity].
    + split; [exact Ata|]. exists 0, (zeros 8), 0, [0;0;0;0]. split; [exact Eta|split; reflexivity].
    + rewrite Z.mul_0_r, slice_0, app_nil_l. change (Z.to_nat (17 - 0)) with 17%nat. reflexivity.
  - intros i [[[[[[sg off] root] wa] ta] tr] lf] Hi (-> & HS & Hrb' & Hrl & Htr & Hlf' & (Haw & l1 & T1 & k1 & c1 & W1 & Ew & HT1 & HW1) & (Hat & l2 & T2 & c2 & W2 & Et & HT2 & HW2) & E).
    pose proof HS as [HL HO]. unfold sign_layer_c. addrs. set (ta1 := set_tree_addr (set_layer_addr ta i) tr). set (wa1 := set_keypair_addr (copy_subtree_addr wa ta1) lf).
    assert (Aw1: adr wa1) by (unfold wa1, ta1; sadr). assert (At1: adr ta1) by (unfold ta1; sadr).
    assert (Et1: ta1 = A i (be_bytes 8 tr) 2 0 c2 W2) by (unfold ta1; rewrite Et; rewrite set_layer_A by assumption; rewrite set_tree_A by (try assumption; lia); rewrite u8_id by lia; reflexivity).
    assert (Ew1: wa1 = A i (be_bytes 8 tr) 0 lf c1 W1) by (unfold wa1; rewrite Et1, Ew; rewrite copy_subtree_A by (try assumption; apply zlen_be_bytes); rewrite set_kp_A by (try assumption; apply zlen_be_bytes); rewrite u8_id by lia; reflexivity).
    apply wp_bind. eapply wp_mono.
    { eapply ref_wp; [apply (s_merkle_sign ctx sg (so + 11232 + 2272 * i) root 0 wa1 ta1 lf (conj Lps Bps) (conj Lss Bss)); (assumption || lia)|].
      rewrite (slice_all root) by lia. rewrite Ew1, Et1. apply (merkle_sign_ok H HH HB ctx); try assumption; try lia. apply LOC. lia. }
    cbn [pub_seed sk_seed ctx]. change (pub_seed ctx) with ps. change (sk_seed ctx) with ss.
    intros [[sg' root'] ta'] ([[sg2 x] ta2] & (-> & -> & -> & [Lx Bx] & Ha2) & -> & (c' & W' & Eta2 & HW') & HS' & Esg). specialize (Esg ltac:(lia)). pose proof HS' as [HL' HO']. apply wp_ret.
    rewrite splice_whole' by lia.
    split; [lia|]. split; [eapply same_outside_trans; [exact HS|]; eapply same_outside_weaken; [exact HS'|lia|lia]|].
    split; [apply (xmss_root_bytes H HB)|]. split; [apply (xmss_root_len H HH HB)|]. change 4 with SPX_TREE_HEIGHT. rewrite (tree_next H HH HB), (leaf_next H HH HB) by lia. split; [clear -Htr; mlia|]. split; [clear -Htr; mlia|]. split; [|split].
    + split; [exact Aw1|]. rewrite Ew1. do 5 eexists. split; [reflexivity|]. split; [apply zlen_be_bytes|assumption].
    + split; [exact Ha2|]. rewrite Eta2. do 4 eexists. split; [reflexivity|]. split; [apply zlen_be_bytes|assumption].
    + rewrite E. replace (Z.to_nat (17 - i)) with (S (Z.to_nat (17 - (i + 1)))) by lia. rewrite ht_sign_S. rewrite (xmss_pk_of_sign H HH HB) by (assumption || lia).
      replace (2272 * (i + 1)) with (2272 * i + 2272) by lia. rewrite (slice_split sg2 (so + 11232) (2272 * i + 2272) (2272 * i)) by lia. replace (2272 * i + 2272 - 2272 * i) with 2272 by lia. rewrite <- app_assoc. f_equal; [symmetry; apply HO'; lia|]. rewrite Esg. reflexivity.
  - intros [[[[[[sg off] root] wa] ta] tr] lf] (_ & HS & _ & _ & _ & _ & _ & _ & E). apply wp_ret. pose proof HS as [HL HO]. apply f_equal.
    apply (outside_splice mem sg so 49856); [| |lia|lia|lia].
    + eapply same_outside_trans; [exact HS1|]. eapply same_outside_trans; [eapply same_outside_weaken; [exact HS2|lia|lia]|]. eapply same_outside_weaken; [exact HS|lia|lia].
    + change (Z.to_nat (17 - 17)) with 0%nat in E. change (ht_sign H ps ss 0 17 root tr lf) with (@nil Z) in E. rewrite app_nil_r in E. change (2272 * 17) with 38624 in E.
      unfold R0, slh_tail. fold m ps ss prf rt R mem1 m2. cbv zeta. fold dg. fold md t leaf. fold sf. fold M0. rewrite E.
      rewrite (slice_split sg so 49856 32) by lia. rewrite (slice_split sg (so + 32) (49856 - 32) 11200) by lia. f_equal; [|f_equal].
      * rewrite HO by lia. rewrite HO2 by lia. unfold mem1. apply slice_splice_exact; lia.
      * rewrite HO by lia. exact E2.
      * f_equal; lia.
Qed.
Lemma sign_signature_c_ok rb mem so siglen mo mlen sk optrand : zlen sk = 128 -> bytes_ok sk -> 0 <= so -> so + 49856 <= zlen mem ->
  0 <= mo -> 0 <= mlen -> mo + mlen <= zlen mem -> mo + mlen <= so \/ so + 32 <= mo \/ mlen = 0 -> rb 32 = (0, optrand) -> zlen optrand = 32 ->
  sign_signature_c loc locw rb mem so siglen mo mlen sk = Ret (0, 49856, splice mem so (slh_sign_sk H (slice mem mo mlen) sk optrand)).
Proof.
  intros Hsk Bsk Hso Hsl Hmo Hml Hmm Hdis Hrb Lo. rewrite (sign_signature_c_gen rb mem so siglen mo mlen sk optrand) by assumption. rewrite slh_sign_tail. cbv zeta.
  set (R := H _ 32). assert (HR: zlen R = 32) by (apply HH; lia). replace (slice (splice mem so R) mo mlen) with (slice mem mo mlen); [reflexivity|].
  symmetry. destruct Hdis as [h|[h| ->]]; [apply slice_splice_before; lia|apply slice_splice_after; lia|rewrite !slice_0; reflexivity].
Qed.
Lemma zlen_slh_sign_sk M sk o : zlen (slh_sign_sk H M sk o) = 49856.
Proof. apply (zlen_slh_sign H HH HB). Qed.
Lemma zlen_slh_tail sk R M : zlen (slh_tail sk R M) = 49824.
Proof. unfold slh_tail. cbv zeta. rewrite zlen_app. rewrite (zlen_fors_sign H HH HB), (zlen_ht_sign H HH HB). reflexivity. Qed.
Lemma sign_signature_c_fail rb mem so siglen mo mlen sk r bs : zlen sk = 128 -> rb 32 = (r, bs) -> r <> 0 -> zlen bs = 32 ->
  sign_signature_c loc locw rb mem so siglen mo mlen sk = Ret (-1, siglen, mem).
Proof.
  intros Hsk Hrb Hr Lb. unfold sign_signature_c. rewrite !local32 by lia. br. cbv zeta. addrs. rewrite Hrb. rewrite local_all by lia. br. replace (negb (r =? 0)) with true by lia. reflexivity.
Qed.

(** ** verification *)
Lemma memcmp_c_ok a aoff b boff n : 0 <= n -> 0 <= aoff -> aoff + n <= zlen a -> 0 <= boff -> boff + n <= zlen b ->
  wp (memcmp_c a aoff b boff n) (fun r => r = 0 <-> slice a aoff n = slice b boff n).
Proof.
  intros Hn Ha Hal Hb Hbl. unfold memcmp_c. apply (wp_for_loop (fun i r => r = 0 <-> slice a aoff i = slice b boff i)); [lia| | |].
  - rewrite !slice_0. tauto.
  - intros i r Hi E. rewrite !rd_ok by lia. br. apply wp_ret.
    rewrite (slice_split a aoff (i + 1) i) by lia. rewrite (slice_split b boff (i + 1) i) by lia. replace (i + 1 - i) with 1 by lia.
    rewrite (slice_1 a) by lia. rewrite (slice_1 b) by lia. destruct (Z.eqb_spec r 0) as [e|e].
    + split; [intros h; f_equal; [apply E, e|f_equal; lia]|intros h; apply app_inj_tail in h; lia].
    + split; [intros h; contradiction|intros h; apply app_inj_tail in h; tauto].
  - auto.
Qed.
Lemma sign_verify_c_ok mem so mo mlen pk : zlen pk = 64 -> bytes_ok pk -> bytes_ok mem -> 0 <= so -> so + 49856 <= zlen mem -> 0 <= mo -> 0 <= mlen -> mo + mlen <= zlen mem ->
  sign_verify_c loc locw mem so 49856 mo mlen pk =
  Ret (if list_eq_dec Z.eq_dec (slh_verify_root H (slice pk 0 32) (slice mem mo mlen) (slice mem so 49856) (slice pk 32 32)) (slice pk 32 32) then 0 else -1).
Proof.
  intros Hpk Bpk Bm Hso Hsl Hmo Hml Hmm. apply wp_is. unfold sign_verify_c, SPX_BYTES. change (negb (49856 =? 49856)) with false. cbv iota. rewrite !local32 by lia. br. cbv zeta. addrs. unfold slh_verify_root.
  assert (L40: zlen (loc 40) = 40) by (apply LOC; lia). set (m := slice mem mo mlen). rewrite (s_hash_message) by (assumption || lia). br. fold m.
  rewrite (slice_split pk 0 64 32) by lia. change (64 - 32) with 32. change (0 + 32) with 32. set (ps := slice pk 0 32). set (rt := slice pk 32 32).
  assert (Lps: zlen ps = 32) by (apply zlen_slice; lia). assert (Bps: bytes_ok ps) by now apply bytes_ok_slice.
  rewrite !(slice_slice mem) by lia. rewrite !Z.add_0_r. set (R := slice mem so 32). rewrite (hash_message_ok H HH HB). cbv beta iota zeta. set (dg := H_msg H ps R rt m). pose proof (digest_tree_range dg) as Ht. pose proof (digest_leaf_range dg) as Hlf.
  assert (Hdg: zlen dg = 49) by (apply HH; lia). assert (Hmd: zlen (digest_md dg) = 40) by (unfold digest_md; rewrite zlen_slice by lia; reflexivity).
  assert (Hmb: bytes_ok (digest_md dg)) by (apply bytes_ok_slice, HB).
  set (md := digest_md dg) in *. set (t := digest_tree dg) in *. set (leaf := digest_leaf dg) in *. addrs.
  set (ctx := {| pub_seed := ps; sk_seed := loc 32 |}). set (wa0 := set_keypair_addr _ leaf). set (ta0 := set_type (zeros 32) ADDR_HASHTREE). set (pa0 := set_type (zeros 32) ADDR_WOTSPK).
  assert (Awa: adr wa0) by (unfold wa0; sadr). assert (Ata: adr ta0) by (unfold ta0; sadr). assert (Apa: adr pa0) by (unfold pa0; sadr).
  assert (Ewa: wa0 = A 0 (be_bytes 8 t) 0 leaf 0 [0;0;0;0]).
  { unfold wa0. change (zeros 32) with addr0. rewrite addr0_A. rewrite !set_type_A by reflexivity. rewrite set_tree_A by (reflexivity || lia). rewrite set_kp_A by (try apply zlen_be_bytes; reflexivity). rewrite (u8_id leaf) by lia. reflexivity. }
  assert (Eta: ta0 = A 0 (zeros 8) 2 0 0 [0;0;0;0]) by (unfold ta0; change (zeros 32) with addr0; rewrite addr0_A; rewrite set_type_A by reflexivity; reflexivity).
  assert (Epa: pa0 = A 0 (zeros 8) 1 0 0 [0;0;0;0]) by (unfold pa0; change (zeros 32) with addr0; rewrite addr0_A; rewrite set_type_A by reflexivity; reflexivity).
  assert (Hpub: pub_ok ctx) by (split; assumption). assert (L32: zlen (loc 32) = 32) by (apply LOC; lia).
  assert (EF: fors_pk_from_sig H ctx mem (so + 32) md wa0 = Ret (fors_pk_of_sig H ps (slice mem (so + 32) 11200) md t leaf)).
  { rewrite Ewa. apply (fors_pk_from_sig_ok H HH HB ctx); try assumption; try reflexivity; lia. }
  destruct (s_fors_pk ctx (loc 32) mem (so + 32) md wa0 Hpub L32 Awa Bm ltac:(lia) ltac:(lia) _ EF) as (r0 & -> & -> & _). br. clear EF.
  set (M0 := fors_pk_of_sig H ps (slice mem (so + 32) 11200) md t leaf).
  apply wp_bind. eapply (wp_for_loop (fun i '(off, root, lfb, wpk, wa, ta, pa, tr, lf) => off = so + 11232 + 2272 * i /\ bytes_ok root /\ zlen root = 32 /\ zlen lfb = 32 /\ zlen wpk = 2144 /\ 0 <= tr < 2 ^ 64 /\ 0 <= lf < 16 /\
      (adr wa /\ exists l T kp c x, wa = A l T 0 kp c [0;0;0;x] /\ zlen T = 8) /\ (adr ta /\ exists l T c W, ta = A l T 2 0 c W /\ zlen T = 8 /\ zlen W = 4) /\ (adr pa /\ exists l T kp, pa = A l T 1 kp 0 [0;0;0;0] /\ zlen T = 8) /\
      ht_root_of_sig H ps 17 0 M0 (slice mem (so + 11232) 38624) t leaf = ht_root_of_sig H ps (Z.to_nat (17 - i)) i root (slice mem off (so + 49856 - off)) tr lf)); [lia| | |].
  - split; [lia|]. split; [apply (fors_pk_bytes H HB)|]. split; [apply (fors_pk_len H HH HB)|]. split; [exact L32|]. split; [apply LOC; lia|]. split; [exact Ht|]. split; [exact Hlf|]. split; [|split; [|split]].
    + split; [exact Awa|]. rewrite Ewa. do 5 eexists. split; [reflexivity|]. apply zlen_be_bytes.
    + split; [exact Ata|]. exists 0, (zeros 8), 0, [0;0;0;0]. split; [exact Eta|split; reflexivity].
    + split; [exact Apa|]. exists 0, (zeros 8), 0. split; [exact Epa|reflexivity].
    + change (Z.to_nat (17 - 0)) with 17%nat. replace (so + 32 + 11200) with (so + 11232) by lia. replace (so + 49856 - (so + 11232)) with 38624 by lia. reflexivity.
  - intros i [[[[[[[[off root] lfb] wpk] wa] ta] pa] tr] lf] Hi (-> & Hrb' & Hrl & Llfb & Lwpk & Htr & Hlf' & (Haw & l1 & T1 & k1 & c1 & x1 & Ew & HT1) & (Hat & l2 & T2 & c2 & W2 & Et & HT2 & HW2) & (Hap & l3 & T3 & k3 & Ep & HT3) & E).
    unfold verify_layer_c. addrs. set (ta1 := set_tree_addr (set_layer_addr ta i) tr). set (wa1 := set_keypair_addr (copy_subtree_addr wa ta1) lf). set (pa1 := copy_keypair_addr pa wa1).
    assert (At1: adr ta1) by (unfold ta1; sadr). assert (Aw1: adr wa1) by (unfold wa1; sadr). assert (Ap1: adr pa1) by (unfold pa1; sadr).
    assert (Et1: ta1 = A i (be_bytes 8 tr) 2 0 c2 W2) by (unfold ta1; rewrite Et; rewrite set_layer_A by assumption; rewrite set_tree_A by (try assumption; lia); rewrite u8_id by lia; reflexivity).
    assert (Ew1: wa1 = A i (be_bytes 8 tr) 0 lf c1 [0;0;0;x1]) by (unfold wa1; rewrite Et1, Ew; rewrite copy_subtree_A by (try assumption; try apply zlen_be_bytes; reflexivity); rewrite set_kp_A by (try assumption; try apply zlen_be_bytes; reflexivity); rewrite u8_id by lia; reflexivity).
    assert (Ep1: pa1 = A i (be_bytes 8 tr) 1 lf 0 [0;0;0;0]) by (unfold pa1; rewrite Ew1, Ep; rewrite copy_keypair_A by (try assumption; try apply zlen_be_bytes; try reflexivity; lia); reflexivity).
    apply wp_bind. eapply wp_mono.
    { eapply ref_wp; [apply (s_wots_pk ctx wpk mem (so + 11232 + 2272 * i) root wa1 Hpub); (assumption || lia)|].
      rewrite Ew1. apply (wots_pk_from_sig_ok H HH HB ctx); try assumption; lia. }
    cbn [pub_seed ctx]. change (pub_seed ctx) with ps. intros [wpk' wa'] ([q wa2] & (-> & -> & Lq & Bq & Ha2) & Ewq & (c' & x' & Ewa2)). cbv beta iota zeta.
    rewrite (s_thash) by (try assumption; try lia; now apply bytes_ok_slice). br. rewrite (slice_all q) by lia. rewrite (splice_whole' lfb) by (rewrite (s_zlen_th); lia).
    set (lfn := thash H ctx q pa1). assert (Nl: node32 lfn) by apply (s_node_th). destruct Nl as [Ll Bl].
    apply wp_bind. eapply wp_mono.
    { eapply ref_wp; [apply (s_compute_root ctx root 0 lfn lf 0 mem (so + 11232 + 2272 * i + 2144) 4 ta1 Hpub); try assumption; try lia; change (2 ^ 32) with 4294967296; lia|].
      rewrite Et1. apply (compute_root_ok H ctx (A i (be_bytes 8 tr) 2 0 c2 W2)); [apply zlen_A; [apply zlen_be_bytes|assumption]|apply tbase_refl, zlen_A; [apply zlen_be_bytes|assumption]|lia|change (2 ^ 32) with 4294967296; lia|lia|change (2 ^ 32) with 4294967296; lia|lia|lia]. }
    intros [root' ta'] ([x ta2] & (-> & -> & [Lx Bx] & Hat2) & Ex0 & Hta). apply tbase_A in Hta; [|apply zlen_be_bytes|assumption]. destruct Hta as (c3 & W3 & Eta2 & HW3). apply wp_ret. rewrite (splice_whole' root) by lia.
    change (Z.to_nat 4) with 4%nat in Ex0. change (32 * 4) with 128 in Ex0.
    rewrite (climb_ext _ (xmss_hash H ps i tr)) in Ex0 by (intros; rewrite Z.div_0_l by (apply Z.pow_nonzero; lia); rewrite Z.add_0_r; apply (xmss_base H HH HB ctx); (assumption || lia)).
    unfold lfn in Ex0. rewrite thash_Th in Ex0. change (pub_seed ctx) with ps in Ex0. rewrite Ep1 in Ex0. replace (A i (be_bytes 8 tr) 1 lf 0 [0;0;0;0]) with (adrs_wots_pk i tr lf) in Ex0 by (unfold adrs_wots_pk; rewrite adrs_A by lia; reflexivity). rewrite Ewq in Ex0.
    set (o := so + 11232 + 2272 * i) in *. set (s1 := slice mem o (so + 49856 - o)) in *. assert (Hz1: zlen s1 = so + 49856 - o) by (unfold s1; rewrite zlen_slice; lia).
    assert (Ex: x = xmss_pk_of_sig H ps lf (slice s1 0 2272) root i tr).
    { rewrite Ex0. unfold xmss_pk_of_sig. rewrite !(slice_slice s1) by lia. unfold s1. rewrite !slice_slice by lia. rewrite ?Z.add_0_l, ?Z.add_0_r. reflexivity. }
    split; [lia|]. split; [exact Bx|]. split; [exact Lx|]. split; [exact Ll|]. split; [exact Lq|]. change 4 with SPX_TREE_HEIGHT. rewrite (tree_next H HH HB), (leaf_next H HH HB) by lia. unfold SPX_TREE_HEIGHT. split; [clear -Htr; mlia|]. split; [clear -Htr; mlia|]. split; [|split; [|split]].
    + split; [exact Ha2|]. rewrite Ewa2. do 5 eexists. split; [reflexivity|]. apply zlen_be_bytes.
    + split; [exact Hat2|]. rewrite Eta2. do 4 eexists. split; [reflexivity|]. split; [apply zlen_be_bytes|assumption].
    + split; [exact Ap1|]. rewrite Ep1. exists i, (be_bytes 8 tr), lf. split; [reflexivity|]. apply zlen_be_bytes.
    + rewrite E. replace (Z.to_nat (17 - i)) with (S (Z.to_nat (17 - (i + 1)))) by lia. rewrite ht_root_S. rewrite <- Ex. rewrite Hz1. replace (slice s1 2272 (so + 49856 - o - 2272)) with (slice mem (o + 2144 + 4 * 32) (so + 49856 - (o + 2144 + 4 * 32))); [reflexivity|]. unfold s1. rewrite slice_slice by lia. f_equal; lia.
  - intros [[[[[[[[off root] lfb] wpk] wa] ta] pa] tr] lf] (_ & _ & Lr & _ & _ & _ & _ & _ & _ & _ & E). cbv beta. change (Z.to_nat (17 - 17)) with 0%nat in E. change (ht_root_of_sig H ps 0 17 root (slice mem off (so + 49856 - off)) tr lf) with root in E.
    apply wp_bind. eapply wp_mono; [apply memcmp_c_ok; lia|]. intros r Hr. apply wp_ret. rewrite (slice_all root) in Hr by lia. fold rt in Hr. rewrite E. destruct (list_eq_dec Z.eq_dec root rt) as [e|e].
    + replace r with 0 by (symmetry; apply Hr, e). reflexivity.
    + destruct (Z.eqb_spec r 0) as [e2|e2]; [exfalso; apply e, Hr, e2|reflexivity].
Qed.
End Loc.
