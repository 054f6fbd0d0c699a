(** Proofs about HybridProg.v: the exact result of each function of the hybrid interface run as one
    program with everything it calls. *)
From Coq Require Import ZifyBool ZifyNat.
From Verif Require Import Base SpongePure SpongeProofs2 BufLemmas Hybrid HybridSpec HybridBuf Heap HeapProofs EdSig DilSign SpxSpec HybridProg HybridProgSpec.
From Verif Require DilFips PropsDilithium4 HybridBufProofs TweetBuf TweetBufProofs DilBufSign SpxHeap SpxHeapProofs SpxBufTop PropsHeap PropsSpxBuf PropsEd PropsTweetBuf HybridRealProofs.
Import PropsHeap.
Local Open Scope Z_scope.
Ltac Zify.zify_post_hook ::= idtac.
#[local] Opaque Keccak.KeccakF1600_StatePermute zeros slice splice.

(** ** Composing [releases] *)
Lemma rel_ret {A} (a : A) : releases (mret a) (Some a).
Proof. intros alloc HA n h. split; reflexivity. Qed.
Lemma rel_bind {A B} (m : M A) a (k : A -> M B) r : releases m (Some a) -> releases (k a) r -> releases (mbind m k) r.
Proof.
  intros H1 H2 alloc HA n h. specialize (H1 alloc HA n h). unfold mbind. destruct (m alloc n h) as [b n' h'|c| |]; try assumption.
  - destruct H1 as [E ->]. assert (a = b) by congruence. subst b. apply H2; assumption.
  - discriminate H1.
Qed.
Lemma rel_none {A B} (m : M A) (k : A -> M B) : releases m None -> releases (mbind m k) None.
Proof.
  intros H1 alloc HA n h. specialize (H1 alloc HA n h). unfold mbind. destruct (m alloc n h) as [b n' h'|c| |]; try assumption; [|reflexivity]. destruct H1 as [E _]. discriminate E.
Qed.
Lemma rel_lift {A B} (o : outcome A) a (k : A -> M B) r : o = Ret a -> releases (k a) r -> releases (mbind (lift o) k) r.
Proof. intros -> H. eapply rel_bind; [|exact H]. intros alloc HA n h. split; reflexivity. Qed.

Lemma rq_lift {A B} (o : outcome A) x (k : A -> M B) Q : o = Ret x -> (exists r, releases (k x) r /\ Q r) -> exists r, releases (mbind (lift o) k) r /\ Q r.
Proof. intros E (r & R & HQ). exists r. split; [eapply rel_lift; eassumption|exact HQ]. Qed.
Lemma rq_bind {A B} (m : M A) x (k : A -> M B) Q : releases m (Some x) -> (exists r, releases (k x) r /\ Q r) -> exists r, releases (mbind m k) r /\ Q r.
Proof. intros E (r & R & HQ). exists r. split; [eapply rel_bind; eassumption|exact HQ]. Qed.

(** ** The frame: the caller's memory followed by the local arrays *)
Lemma sp_in m L a x : 0 <= a -> a + zlen x <= zlen L -> splice (m ++ L) (zlen m + a) x = m ++ splice L a x.
Proof.
  intros H1 H2. pose proof (zlen_nonneg x). pose proof (zlen_nonneg m). Local Transparent splice. unfold splice. Local Opaque splice. rewrite zlen_app.
  rewrite (slice_split (m ++ L) 0 (zlen m + a) (zlen m)) by (rewrite ?zlen_app; lia). rewrite slice_app_l by lia. rewrite slice_all by reflexivity. rewrite (slice_app_r m L (0 + zlen m)) by lia.
  rewrite (slice_app_r m L (zlen m + a + zlen x)) by lia. rewrite <- !app_assoc. f_equal. f_equal; [f_equal; lia|]. f_equal. f_equal; lia.
Qed.
Lemma sp_out m L d x : 0 <= d -> d + zlen x <= zlen m -> splice (m ++ L) d x = splice m d x ++ L.
Proof.
  intros H1 H2. pose proof (zlen_nonneg x). pose proof (zlen_nonneg L). Local Transparent splice. unfold splice. Local Opaque splice. rewrite zlen_app.
  rewrite slice_app_l by lia. rewrite <- !app_assoc. f_equal. f_equal.
  rewrite (slice_split (m ++ L) _ _ (zlen m - d - zlen x)) by (rewrite ?zlen_app; lia). rewrite slice_app_l by lia. f_equal. rewrite slice_app_r by lia. transitivity (slice L 0 (zlen L)); [f_equal; lia|now apply slice_all].
Qed.
Lemma sl_in {A} (m L : list A) a n : 0 <= a -> 0 <= n -> slice (m ++ L) (zlen m + a) n = slice L a n.
Proof. intros H1 H2. pose proof (zlen_nonneg m). rewrite slice_app_r by lia. f_equal. lia. Qed.
Lemma sl_out {A} (m L : list A) d n : 0 <= d -> 0 <= n -> d + n <= zlen m -> slice (m ++ L) d n = slice m d n.
Proof. intros. apply slice_app_l; lia. Qed.
Lemma sl_frame {A} (m L : list A) : slice (m ++ L) 0 (zlen m) = m.
Proof. pose proof (zlen_nonneg m). rewrite slice_app_l by lia. now apply slice_all. Qed.
(** loops between the caller's memory and a local array *)
Lemma move_in m L a s n k : 0 <= a -> 0 <= n -> a + n <= zlen L -> 0 <= s -> s + n <= zlen m -> k = zlen m + a ->
  move (m ++ L) k s n = Ret (m ++ splice L a (slice m s n)).
Proof.
  intros H1 H2 H3 H4 H5 ->. unfold move. pose proof (zlen_nonneg L). rewrite move_up_ok by (rewrite ?zlen_app; lia). rewrite sl_out by lia. rewrite sp_in by (rewrite ?zlen_slice; lia). reflexivity.
Qed.
Lemma move_out mem so l L a n k s : 0 <= so -> 0 <= n -> so + zlen l + n <= zlen mem -> 0 <= a -> a + n <= zlen L -> k = so + zlen l -> s = zlen mem + a ->
  move (splice mem so l ++ L) k s n = Ret (splice mem so (l ++ slice L a n) ++ L).
Proof.
  intros H1 H2 H3 H4 H5 -> ->. pose proof (zlen_nonneg l). assert (E: zlen (splice mem so l) = zlen mem) by (apply zlen_splice; lia).
  unfold move. rewrite move_up_ok by (rewrite ?zlen_app, ?E; lia). rewrite <- E at 1. rewrite sl_in by lia. rewrite sp_out by (rewrite ?E, ?zlen_slice; lia). rewrite splice_splice by (rewrite ?zlen_slice; lia). reflexivity.
Qed.
Lemma wr_out mem so l L k b : 0 <= so -> so + zlen l < zlen mem -> k = so + zlen l -> wr (splice mem so l ++ L) k b = Ret (splice mem so (l ++ [b]) ++ L).
Proof.
  intros H1 H2 ->. pose proof (zlen_nonneg l). pose proof (zlen_nonneg L). assert (E: zlen (splice mem so l) = zlen mem) by (apply zlen_splice; lia). assert (L1: zlen [b] = 1) by reflexivity.
  rewrite wr_splice by (rewrite ?zlen_app, ?E; lia). rewrite sp_out by (rewrite ?E; lia). rewrite splice_splice by lia. reflexivity.
Qed.
Lemma copy_key m L ko n : 0 <= n -> 0 <= ko -> ko + n <= zlen m -> copy (zeros n) 0 (m ++ L) ko n = Ret (slice m ko n).
Proof.
  intros H1 H2 H3. pose proof (zlen_nonneg L). rewrite copy_splice by (rewrite ?zlen_app, ?zlen_zeros; lia). rewrite sl_out by lia. rewrite splice_whole' by (rewrite zlen_zeros, zlen_slice; lia). reflexivity.
Qed.
Lemma copy_local m L a src s n k : 0 <= a -> 0 <= n -> a + n <= zlen L -> 0 <= s -> s + n <= zlen src -> k = zlen m + a ->
  copy (m ++ L) k src s n = Ret (m ++ splice L a (slice src s n)).
Proof.
  intros H1 H2 H3 H4 H5 ->. pose proof (zlen_nonneg L). pose proof (zlen_nonneg m). rewrite copy_splice by (rewrite ?zlen_app; lia). rewrite sp_in by (rewrite ?zlen_slice; lia). reflexivity.
Qed.
Lemma move_local m L a b n k j : 0 <= a -> 0 <= b -> 0 <= n -> a + n <= zlen L -> b + n <= zlen L -> a <= b \/ b + n <= a -> k = zlen m + a -> j = zlen m + b ->
  move (m ++ L) k j n = Ret (m ++ splice L a (slice L b n)).
Proof.
  intros H1 H2 H3 H4 H5 H6 -> ->. pose proof (zlen_nonneg m). unfold move. rewrite move_up_ok by (rewrite ?zlen_app; lia). rewrite sl_in by lia. rewrite sp_in by (rewrite ?zlen_slice; lia). reflexivity.
Qed.
Lemma copy_out mem so l L src s n k : 0 <= so -> 0 <= n -> so + zlen l + n <= zlen mem -> 0 <= s -> s + n <= zlen src -> k = so + zlen l ->
  copy (splice mem so l ++ L) k src s n = Ret (splice mem so (l ++ slice src s n) ++ L).
Proof.
  intros H1 H2 H3 H4 H5 ->. pose proof (zlen_nonneg l). pose proof (zlen_nonneg L). assert (E: zlen (splice mem so l) = zlen mem) by (apply zlen_splice; lia).
  rewrite copy_splice by (rewrite ?zlen_app, ?E; lia). rewrite sp_out by (rewrite ?E, ?zlen_slice; lia). rewrite splice_splice by (rewrite ?zlen_slice; lia). reflexivity.
Qed.
Lemma sha_rel out x n : zlen out = 64 -> bytes_ok x -> n = zlen x -> Sponge.sha3_512 out x n = Ret (sha3_512_bytes x).
Proof.
  intros Lo B ->. unfold Sponge.sha3_512. pose proof (zlen_nonneg x).
  rewrite sha3_oneshot_ok; [|reflexivity|unfold Sponge.SHA3_512_RATE; lia|unfold Sponge.SHA3_512_RATE; lia|lia|lia|exact B].
  rewrite (slice_all x) by reflexivity. change Sponge.SHA3_512_RATE with 72. fold (sha3_512_bytes x). rewrite splice_whole'; [reflexivity|]. rewrite Lo. symmetry. apply (DilSignProofs.sponge_bytes_len 72 0x06); lia.
Qed.
Lemma sha_len x : zlen (sha3_512_bytes x) = 64. Proof. apply (DilSignProofs.sponge_bytes_len 72 0x06); lia. Qed.
Lemma sha_bytes x : bytes_ok (sha3_512_bytes x). Proof. apply (DilSignProofs.sponge_bytes_ok 72 0x06); lia. Qed.
Lemma same_from_ok fr a b : 0 <= a -> 0 <= b -> forall n i, 0 <= i -> a + i + Z.of_nat n <= zlen fr -> b + i + Z.of_nat n <= zlen fr ->
  same_from n i fr a b = Ret (if list_eq_dec Z.eq_dec (slice fr (a + i) (Z.of_nat n)) (slice fr (b + i) (Z.of_nat n)) then true else false).
Proof.
  intros Ha Hb. induction n as [|n IH]; intros i Hi H1 H2; cbn [same_from].
  - change (Z.of_nat 0) with 0. rewrite !slice_0. reflexivity.
  - rewrite !rd_ok by lia. cbn [bind]. rewrite (slice_cons fr (a + i)), (slice_cons fr (b + i)) by lia. replace (Z.of_nat (S n) - 1) with (Z.of_nat n) by lia. destruct (Z.eqb_spec (nth (Z.to_nat (a + i)) fr 0) (nth (Z.to_nat (b + i)) fr 0)) as [e|e].
    + rewrite IH by lia. replace (a + (i + 1)) with (a + i + 1) by lia. replace (b + (i + 1)) with (b + i + 1) by lia. f_equal.
      destruct (list_eq_dec _ _ _) as [f|f], (list_eq_dec _ _ _) as [g|g]; try reflexivity; exfalso; [apply g; congruence|apply f; congruence].
    + destruct (list_eq_dec _ _ _) as [g|g]; [exfalso; apply e; congruence|reflexivity].
Qed.
Lemma zeros_bytes n : bytes_ok (zeros n).
Proof. Local Transparent zeros. unfold zeros. Local Opaque zeros. apply Forall_forall. intros x Hx. apply repeat_spec in Hx. subst x. split; [apply Z.le_refl|reflexivity]. Qed.

(** ** Bytes stay bytes when Ed25519 opens *)
Lemma copy_bytes d o s so n x : copy d o s so n = Ret x -> bytes_ok d -> bytes_ok s -> bytes_ok x.
Proof.
  unfold copy. intros E Bd Bs. destruct (n <=? 0); [assert (d = x) by congruence; now subst|]. destruct (_ && _); [|discriminate E].
  match type of E with Ret ?t = Ret _ => assert (t = x) by congruence end. subst x. rewrite !bytes_ok_app. repeat split; now apply bytes_ok_slice.
Qed.
Lemma wr_bytes l i b x : wr l i b = Ret x -> bytes_ok l -> 0 <= b < 256 -> bytes_ok x.
Proof.
  unfold wr. intros E Bl Bb. destruct (_ && _) eqn:C; [|discriminate E].
  match type of E with Ret ?t = Ret _ => assert (EQ: t = x) by congruence end. rewrite <- EQ. clear E EQ.
  assert (Hi: 0 <= i < zlen l) by lia. pose proof (wr_splice l i b Hi) as W. unfold wr in W. rewrite C in W. apply Ret_inj in W. rewrite W. apply bytes_ok_splice; [exact Bl|]. constructor; [exact Bb|constructor].
Qed.
Lemma rd_byte l i x : rd 0 l i = Ret x -> bytes_ok l -> 0 <= x < 256.
Proof.
  unfold rd. intros E B. destruct (_ && _) eqn:C; [|discriminate E]. match type of E with Ret ?t = Ret _ => assert (EQ: t = x) by congruence end. rewrite <- EQ.
  pose proof (proj1 (Forall_forall _ _) B (nth (Z.to_nat i) l 0)) as X. apply X. apply nth_In. unfold zlen in C. lia.
Qed.
Lemma for_bytes f n : forall m x, (forall i m y, f i m = Ret y -> bytes_ok m -> bytes_ok y) -> for_loop n f m = Ret x -> bytes_ok m -> bytes_ok x.
Proof.
  intros m x Hf. unfold for_loop. generalize 0. revert m. generalize (Z.to_nat n). intros k. induction k as [|k IH]; intros m i E B; cbn [for_from] in E.
  - apply Ret_inj in E. now subst x.
  - destruct (f i m) as [y|] eqn:EF; cbn [bind] in E; [|discriminate E]. eapply IH; [exact E|]. eapply Hf; eassumption.
Qed.
Lemma loop_bytes n d s m x : for_loop n (fun i mem => bind (rd 0 mem (s i)) (fun b => wr mem (d i) b)) m = Ret x -> bytes_ok m -> bytes_ok x.
Proof.
  apply for_bytes. intros i l y E B. destruct (rd 0 l (s i)) as [b|] eqn:ER; cbn [bind] in E; [|discriminate E]. eapply wr_bytes; [exact E|exact B|]. eapply rd_byte; eassumption.
Qed.
Ltac take E := match type of E with bind ?o _ = _ => let H := fresh "T" in destruct o eqn:H; cbn [bind] in E; [|discriminate E] end.
Lemma ed_open_c_bytes mem mo so n pk rc l mem' : TweetBuf.ed_open_c mem mo so n pk = Ret (rc, l, mem') -> bytes_ok mem -> bytes_ok pk -> bytes_ok mem'.
Proof.
  unfold TweetBuf.ed_open_c. cbv zeta. intros E B Bk. destruct (n <? 64); [assert (mem = mem') by congruence; now subst|]. take E. match type of E with match ?a with _ => _ end = _ => destruct a end; [|assert (mem = mem') by congruence; now subst].
  destruct (2 ^ 31 <=? n); [discriminate E|]. take E. take E. do 9 take E.
  match goal with T : for_loop n _ mem = Ret ?x |- _ => assert (B0: bytes_ok x) by (eapply (loop_bytes n (fun i => mo + i) (fun i => so + i)); eassumption) end.
  match goal with T : copy _ _ pk _ _ = Ret ?x |- _ => assert (B1: bytes_ok x) by (eapply copy_bytes; eassumption) end.
  destruct (negb _); take E; match type of E with Ret (_, _, ?x) = _ => assert (x = mem') by congruence; subst x end.
  - eapply for_bytes; [|eassumption|exact B1]. intros i v y EW BV. eapply wr_bytes; [exact EW|exact BV|lia].
  - eapply (loop_bytes (n - 64) (fun i => mo + i) (fun i => so + (64 + i))); eassumption.
Qed.

(** ** The components *)
Section Comps.
Variables loc locw : Z -> list Z.
Hypothesis LOC : PropsSpxBuf.locals loc locw.
Variable fuel : nat.
Lemma locals1_of : locals1 loc. Proof. exact (proj1 LOC). Qed.
Lemma dil_sign_rel fr so mo mlen sk : zlen sk = 2560 -> bytes_ok sk -> 0 <= so -> so + 2420 <= zlen fr -> 0 <= mo -> 0 <= mlen -> mo + mlen <= zlen fr ->
  exists r, sign_signature fuel (slice fr mo mlen) sk = Ret r /\
    releases (sign_signature_h loc fuel fr so mo mlen sk) (match r with Some sig => Some (0, splice fr so sig, 2420) | None => None end) /\
    (forall sig, r = Some sig -> zlen sig = 2420 /\ bytes_ok sig).
Proof.
  intros H1 B H2 H3 H4 H5 H6. destruct (DilBufSign.sign_signature_c_ok fuel (loc 288) fr so mo mlen sk (locals1_of 288 ltac:(lia)) ltac:(lia) B H2 H3 H4 H5 H6) as (r & E & Ec & HL).
  rewrite slice_all in E by lia. exists r. split; [exact E|]. split.
  - apply bal_releases. pose proof (sign_signature_h_bal loc locals1_of fuel fr so mo mlen sk) as HB. rewrite Ec in HB. exact HB.
  - intros sig ->. exact (HybridRealProofs.dil_sig_shape fuel _ sk sig H1 B E).
Qed.
Lemma dil_verify_rel fr so mo mlen pk : zlen pk = 1312 -> bytes_ok pk -> bytes_ok fr -> 0 <= so -> so + 2420 <= zlen fr -> 0 <= mo -> 0 <= mlen -> mo + mlen <= zlen fr ->
  exists r, sign_verify fuel (slice fr so 2420) 2420 (slice fr mo mlen) pk = Ret r /\ releases (sign_verify_h loc fuel fr so 2420 mo mlen pk) r.
Proof.
  intros H1 B1 B H2 H3 H4 H5 H6. pose proof (DilBufSign.sign_verify_c_ok fuel (loc 64) (loc 32) (loc 768) fr so 2420 mo mlen pk (locals1_of 64 ltac:(lia)) (locals1_of 32 ltac:(lia)) (locals1_of 768 ltac:(lia)) ltac:(lia) B1 B H2 ltac:(auto)) as Ec.
  rewrite (slice_all pk) in Ec by lia.
  destruct (PropsBuf.C61_verify fuel (loc 64) (loc 32) (loc 768) fr so mo mlen pk (locals1_of 64 ltac:(lia)) (locals1_of 32 ltac:(lia)) (locals1_of 768 ltac:(lia)) ltac:(lia) B1 B H2 H3 H4 H5 H6) as (r & E & _).
  exists r. rewrite <- Ec. split; [exact E|]. apply bal_releases. rewrite <- E. apply (sign_verify_h_bal loc locals1_of).
Qed.

(** ** Full mode *)
Lemma sign_full_p_rel rb rr optrand mem so l mo mlen ko edseed : bytes_ok mem -> zlen edseed = 32 -> bytes_ok edseed ->
  0 <= so -> so + (52342 + mlen) <= zlen mem -> 0 <= mo -> mo + mlen <= zlen mem -> 0 <= ko -> ko + 4064 <= zlen mem -> 1 <= mlen <= 64 ->
  slice mem ko 64 = edseed ++ ed_public edseed -> rb 32 = (rr, optrand) -> zlen optrand = 32 ->
  let M := slice mem mo mlen in
  exists r, sign_signature fuel M (slice mem (ko + 64) 2560) = Ret r /\
  releases (sign_full_p loc locw fuel rb mem so l mo mlen ko)
    (match r with
     | Some dsig => Some (if rr =? 0 then (0, splice mem so (full_layout (ed_signature edseed M) M dsig (slh_sign_sk shake256_bytes M (slice mem (ko + 3936) 128) optrand)), 52342 + mlen)
                          else (-4, mem, l))
     | None => None end).
Proof.
  intros Bm Ls Bs S1 S2 M1 M2 K1 K2 Hm Hk Hrb Lo M.
  set (L0 := zeros 128 ++ zeros 2420 ++ zeros 49856). assert (LL: zlen L0 = 52404) by (unfold L0; rewrite !zlen_app, !zlen_zeros by lia; reflexivity).
  assert (BL: bytes_ok L0) by (unfold L0; rewrite !bytes_ok_app; repeat split; apply zeros_bytes).
  assert (LM: zlen M = mlen) by (apply zlen_slice; lia). assert (BM: bytes_ok M) by (now apply bytes_ok_slice).
  assert (Lsk: zlen (slice mem (ko + 64) 2560) = 2560) by (apply zlen_slice; lia). assert (Bsk: bytes_ok (slice mem (ko + 64) 2560)) by (now apply bytes_ok_slice).
  assert (Lsk3: zlen (slice mem (ko + 3936) 128) = 128) by (apply zlen_slice; lia). assert (Bsk3: bytes_ok (slice mem (ko + 3936) 128)) by (now apply bytes_ok_slice).
  set (s1 := ed_signature edseed M ++ M). assert (Ls1: zlen s1 = 64 + mlen) by (unfold s1; rewrite zlen_app, PropsTweetBuf.sig_len; lia).
  set (L1 := splice L0 0 s1). assert (LL1: zlen L1 = 52404) by (unfold L1; rewrite zlen_splice; lia).
  set (fr1 := mem ++ L1). assert (LF1: zlen fr1 = zlen mem + 52404) by (unfold fr1; rewrite zlen_app; lia).
  pose proof (zlen_nonneg mem) as HF.
  assert (EM1: slice fr1 mo mlen = M) by (unfold fr1; apply sl_out; lia).
  destruct (dil_sign_rel fr1 (zlen mem + 128) mo mlen (slice mem (ko + 64) 2560)) as (r & Er & Rr & Sr); try assumption; try lia. rewrite EM1 in Er.
  exists r. split; [exact Er|]. unfold sign_full_p. replace ((mlen <=? 0) || (64 <? mlen)) with false by lia. cbv zeta. fold L0.
  eapply rel_lift; [apply copy_key; lia|]. eapply rel_lift; [apply copy_key; lia|]. eapply rel_lift; [apply copy_key; lia|].
  eapply rel_lift.
  { rewrite Hk. rewrite (TweetBufProofs.ed_sign_c_ok (mem ++ L0) (zlen mem) mo mlen edseed) by (rewrite ?zlen_app, ?bytes_ok_app; try (split; assumption); (assumption || lia)).
    replace (TweetBufProofs.signed_text (mem ++ L0) (zlen mem) mo mlen) with M.
    2:{ unfold TweetBufProofs.signed_text. replace (zlen mem + 64 <=? mo) with false by lia. rewrite sl_out by lia. symmetry. apply TweetBufProofs.periodic_long. fold M. unfold zlen in LM. lia. }
    fold s1. replace (zlen mem) with (zlen mem + 0) by lia. rewrite sp_in by lia. fold L1 fr1. reflexivity. }
  cbv beta iota. destruct r as [dsig|].
  2:{ apply rel_none. exact Rr. }
  destruct (Sr dsig eq_refl) as [Ld Bd]. eapply rel_bind; [exact Rr|]. cbv beta iota.
  unfold fr1 at 1. rewrite sp_in by lia. set (L2 := splice L1 128 dsig). assert (LL2: zlen L2 = 52404) by (unfold L2; rewrite zlen_splice; lia).
  assert (EM2: slice (mem ++ L2) mo mlen = M) by (apply sl_out; lia).
  destruct (Z.eqb_spec rr 0) as [->|NR].
  - set (s3 := slh_sign_sk shake256_bytes M (slice mem (ko + 3936) 128) optrand). assert (L3: zlen s3 = 49856) by (unfold s3; apply (SpxBufTop.zlen_slh_sign_sk _ eq_refl)).
    eapply rel_bind.
    { eapply spx_rel; [apply SpxHeapProofs.spx_sign_bal|]. destruct LOC as (X1 & X2 & X3). eapply (SpxBufTop.sign_signature_c_ok loc locw X1 X2 X3 _ eq_refl); try eassumption; rewrite ?zlen_app; lia. }
    cbv beta iota. rewrite EM2. fold s3. rewrite sp_in by lia. set (LL3 := splice L2 2548 s3). assert (LL3': zlen LL3 = 52404) by (unfold LL3; rewrite zlen_splice; lia).
    replace (mlen + 64 =? 64 + mlen) with true by lia. change (0 =? 0) with true. change (2420 =? 2420) with true. change (49856 =? 49856) with true. cbn [negb].
    assert (E1: slice LL3 0 (64 + mlen) = s1). { unfold LL3. rewrite slice_splice_before by lia. unfold L2. rewrite slice_splice_before by lia. unfold L1. rewrite <- Ls1. apply slice_splice; lia. }
    assert (E2: slice LL3 128 2420 = dsig). { unfold LL3. rewrite slice_splice_before by lia. unfold L2. rewrite <- Ld. apply slice_splice; lia. }
    assert (E3: slice LL3 2548 49856 = s3). { unfold LL3. rewrite <- L3. apply slice_splice; lia. }
    clearbody LL3 L2 L1. clear Rr Sr.
    replace (i32 (mlen + 64)) with (64 + mlen) by (rewrite DilReduceProofs.i32_id by lia; lia). replace (u8 mlen) with mlen by (rewrite SpxWots.u8_id by lia; reflexivity).
    eapply rel_lift; [rewrite <- (splice_nil mem so) at 1 by lia; apply wr_out; change (zlen (@nil Z)) with 0; lia|].
    eapply rel_lift; [apply wr_out; change (zlen ([] ++ [2])) with 1; lia|].
    assert (Hpf: exists pf, pf = ([] ++ [2]) ++ [mlen] /\ zlen pf = 2) by (eexists; split; reflexivity). destruct Hpf as (pf & Epf & Lpf). rewrite <- Epf.
    eapply rel_lift; [apply (move_out mem so _ LL3 0); lia|]. rewrite E1.
    eapply rel_lift; [apply (move_out mem so _ LL3 128); rewrite ?zlen_app; lia|]. rewrite E2.
    eapply rel_lift; [apply (move_out mem so _ LL3 2548); rewrite ?zlen_app; lia|]. rewrite E3.
    match goal with |- context [splice mem so ?X ++ LL3] => assert (EX: X = full_layout (ed_signature edseed M) M dsig s3) end.
    { unfold full_layout, s1. rewrite LM, Epf, <- !app_assoc. reflexivity. }
    rewrite EX. assert (LX: zlen (full_layout (ed_signature edseed M) M dsig s3) = 52342 + mlen).
    { rewrite <- EX. rewrite !zlen_app. lia. }
    replace (slice (splice mem so (full_layout (ed_signature edseed M) M dsig s3) ++ LL3) 0 (zlen mem)) with (splice mem so (full_layout (ed_signature edseed M) M dsig s3)).
    2:{ symmetry. rewrite <- (zlen_splice mem so (full_layout (ed_signature edseed M) M dsig s3)) by lia. apply sl_frame. }
    apply rel_ret.
  - eapply rel_bind.
    { eapply spx_rel; [apply SpxHeapProofs.spx_sign_bal|]. eapply PropsSpxBuf.C63_sign_no_randomness; eassumption. }
    cbv beta iota. change (0 =? 0) with true. change (-1 =? 0) with false. cbn [negb]. rewrite sl_frame. apply rel_ret.
Qed.

(** a full-mode signed message read field by field *)
Lemma full_valid_fields pk sm m : full_valid pk sm m <->
  let n := zlen m in 1 <= n <= 64 /\ zlen sm = 52342 + n /\ nth 0 sm 0 = 2 /\ nth 1 sm 0 = n /\ slice sm 66 n = m /\
  ed_valid (pk_ed pk) (slice sm 2 64) m /\ DilFips.MLDSA.verify (pk_dil pk) m (slice sm (66 + n) 2420) /\ slh_verify shake256_bytes m (slice sm (2486 + n) 49856) (pk_spx pk).
Proof.
  cbv zeta. split.
  - intros (Hm & e & d & s & Le & Ld & Ls & -> & V1 & V2 & V3). unfold full_layout. set (pf := [2; zlen m]). assert (Lpf: zlen pf = 2) by reflexivity.
    assert (E1: slice (pf ++ e ++ m ++ d ++ s) 2 64 = e). { rewrite slice_app_r by lia. rewrite Lpf. rewrite slice_app_l by lia. now apply slice_all. }
    assert (E2: slice (pf ++ e ++ m ++ d ++ s) 66 (zlen m) = m). { rewrite !slice_app_r by lia. rewrite Lpf, Le. rewrite slice_app_l by lia. now apply slice_all. }
    assert (E3: slice (pf ++ e ++ m ++ d ++ s) (66 + zlen m) 2420 = d). { rewrite !slice_app_r by lia. rewrite Lpf, Le. rewrite slice_app_l by lia. replace (66 + zlen m - 2 - 64 - zlen m) with 0 by lia. now apply slice_all. }
    assert (E4: slice (pf ++ e ++ m ++ d ++ s) (2486 + zlen m) 49856 = s). { rewrite !slice_app_r by lia. rewrite Lpf, Le, Ld. replace (2486 + zlen m - 2 - 64 - zlen m - 2420) with 0 by lia. now apply slice_all. }
    rewrite E1, E2, E3, E4, !zlen_app. split; [exact Hm|]. split; [lia|]. split; [reflexivity|]. split; [reflexivity|]. auto.
  - intros (Hm & Lsm & N0 & N1 & Em & V1 & V2 & V3). split; [exact Hm|]. exists (slice sm 2 64), (slice sm (66 + zlen m) 2420), (slice sm (2486 + zlen m) 49856).
    rewrite !zlen_slice by lia. split; [reflexivity|]. split; [reflexivity|]. split; [reflexivity|]. split; [|auto]. unfold full_layout.
    rewrite <- Em at 2. rewrite <- (slice_all sm (zlen sm)) at 1 by reflexivity. rewrite Lsm.
    rewrite (slice_split sm 0 (52342 + zlen m) 2) by lia. rewrite (slice_split sm (0 + 2) _ 64) by lia. rewrite (slice_split sm (0 + 2 + 64) _ (zlen m)) by lia. rewrite (slice_split sm (0 + 2 + 64 + zlen m) _ 2420) by lia.
    replace (0 + 2 + 64 + zlen m + 2420) with (2486 + zlen m) by lia. replace (0 + 2 + 64 + zlen m) with (66 + zlen m) by lia. change (0 + 2 + 64) with 66. change (0 + 2) with 2. replace (52342 + zlen m - 2 - 64 - zlen m - 2420) with 49856 by lia.
    f_equal. destruct sm as [|a [|b sm]]; [discriminate Lsm + (change (zlen (@nil Z)) with 0 in Lsm; lia)|change (zlen [a]) with 1 in Lsm; lia|]. cbn [nth] in N0, N1. subst a b. reflexivity.
Qed.
Lemma written_splice mem off l mem' : 0 <= off -> off + zlen l <= zlen mem -> BufSpec.written mem off l mem' -> mem' = splice mem off l.
Proof. intros H1 H2 W. eapply PropsBuf.written_det; [exact W|]. now apply PropsBuf.splice_written. Qed.

Lemma open_full_p_rel mem mo l so smlen po : bytes_ok mem -> 0 <= so -> 0 <= smlen -> so + smlen <= zlen mem -> 0 <= mo -> mo + (smlen - 52342) <= zlen mem -> 0 <= po -> po + 1408 <= zlen mem ->
  let pk := slice mem po 1408 in let sm := slice mem so smlen in
  exists r, releases (open_full_p loc locw fuel mem mo l so smlen po) r /\
  match r with
  | Some (c, mem', len) =>
      (c = 0 /\ exists m, full_valid pk sm m /\ mem' = splice mem mo m /\ len = zlen m) \/
      (-8 <= c < 0 /\ mem' = mem /\ len = l /\ forall m, ~ full_valid pk sm m)
  | None => exists n, n = nth 1 sm 0 /\ sign_verify fuel (slice sm (66 + n) 2420) 2420 (slice sm 66 n) (pk_dil pk) = Ret None
  end.
Proof.
  intros Bm S1 S0 S2 M1 M2 P1 P2 pk sm. pose proof (zlen_nonneg mem) as HF. assert (Lsm: zlen sm = smlen) by (apply zlen_slice; lia).
  assert (SL: forall a n, 0 <= a -> 0 <= n -> a + n <= smlen -> slice sm a n = slice mem (so + a) n) by (intros; unfold sm; apply slice_slice; lia).
  assert (PL: forall a n, 0 <= a -> 0 <= n -> a + n <= 1408 -> slice pk a n = slice mem (po + a) n) by (intros; unfold pk; apply slice_slice; lia).
  assert (FAIL: forall c, -8 <= c < 0 -> (forall m, ~ full_valid pk sm m) -> forall k : M (Z * list Z * Z), releases k (Some (c, mem, l)) ->
     exists r, releases k r /\ match r with Some (c, mem', len) => (c = 0 /\ exists m, full_valid pk sm m /\ mem' = splice mem mo m /\ len = zlen m) \/ (-8 <= c < 0 /\ mem' = mem /\ len = l /\ forall m, ~ full_valid pk sm m)
       | None => exists n, n = nth 1 sm 0 /\ sign_verify fuel (slice sm (66 + n) 2420) 2420 (slice sm 66 n) (pk_dil pk) = Ret None end).
  { intros c Hc HN k Hk. exists (Some (c, mem, l)). split; [exact Hk|]. right. auto. }
  unfold open_full_p. destruct ((smlen <? 52343) || (52406 <? smlen)) eqn:EB.
  { apply (FAIL (-1)); [lia| |apply rel_ret]. intros m V. apply full_valid_fields in V. cbv zeta in V. lia. }
  assert (N0: nth 0 sm 0 = nth (Z.to_nat so) mem 0) by (unfold sm; rewrite nth_slice by lia; f_equal; lia).
  assert (N1: nth 1 sm 0 = nth (Z.to_nat (so + 1)) mem 0) by (unfold sm; rewrite nth_slice by lia; f_equal; lia).
  eapply rq_lift; [apply rd_ok; lia|]. rewrite <- N0. destruct (Z.eqb_spec (nth 0 sm 0) 2) as [I2|I2]; cbn [negb].
  2:{ apply (FAIL (-2)); [lia| |apply rel_ret]. intros m V. apply full_valid_fields in V. cbv zeta in V. tauto. }
  eapply rq_lift; [apply rd_ok; lia|]. rewrite <- N1. set (n := nth 1 sm 0) in *.
  destruct ((n <=? 0) || (64 <? n)) eqn:EN.
  { apply (FAIL (-3)); [lia| |apply rel_ret]. intros m V. apply full_valid_fields in V. cbv zeta in V. fold n in V. lia. }
  destruct (Z.eqb_spec smlen (52342 + n)) as [ES|ES]; cbn [negb].
  2:{ apply (FAIL (-4)); [lia| |apply rel_ret]. intros m V. apply full_valid_fields in V. cbv zeta in V. fold n in V. lia. }
  set (m := slice sm 66 n). assert (Lm: zlen m = n) by (apply zlen_slice; lia).
  assert (VF: forall m', full_valid pk sm m' <-> m' = m /\ ed_valid (pk_ed pk) (slice sm 2 64) m /\ DilFips.MLDSA.verify (pk_dil pk) m (slice sm (66 + n) 2420) /\ slh_verify shake256_bytes m (slice sm (2486 + n) 49856) (pk_spx pk)).
  { intros m'. rewrite full_valid_fields. cbv zeta. split.
    - intros (A1 & A2 & A3 & A4 & A5 & A6 & A7 & A8). fold n in A4. rewrite <- A4 in *. fold m in A5. subst m'. auto.
    - intros (-> & A6 & A7 & A8). rewrite Lm. split; [lia|]. split; [lia|]. split; [exact I2|]. split; [reflexivity|]. auto. }
  cbv zeta. set (L0 := zeros 128 ++ zeros 128 ++ zeros 2420 ++ zeros 49856). assert (LL: zlen L0 = 52532) by (unfold L0; rewrite !zlen_app, !zlen_zeros by lia; reflexivity).
  assert (BL: bytes_ok L0) by (unfold L0; rewrite !bytes_ok_app; repeat split; apply zeros_bytes). clearbody L0.
  eapply rq_lift; [apply (move_in mem L0 128); lia|]. rewrite <- SL by lia. set (s1 := slice sm 2 (64 + n)). assert (Ls1: zlen s1 = 64 + n) by (apply zlen_slice; lia).
  assert (Bsm: bytes_ok sm) by now apply bytes_ok_slice. assert (Bs1: bytes_ok s1) by now apply bytes_ok_slice.
  set (L1 := splice L0 128 s1). assert (LL1: zlen L1 = 52532) by (unfold L1; rewrite zlen_splice; lia). assert (BL1: bytes_ok L1) by (unfold L1; now apply bytes_ok_splice).
  eapply rq_lift; [apply copy_key; lia|]. assert (EP1: slice mem po 32 = pk_ed pk) by (unfold pk_ed; rewrite PL by lia; f_equal; lia). rewrite EP1.
  assert (BP: bytes_ok pk) by now apply bytes_ok_slice.
  assert (LP1: zlen (pk_ed pk) = 32) by (rewrite <- EP1; apply zlen_slice; lia). assert (BP1: bytes_ok (pk_ed pk)) by now apply bytes_ok_slice.
  destruct (PropsTweetBuf.C69_open_separate (mem ++ L1) (zlen mem) (zlen mem + 128) (64 + n) (pk_ed pk) LP1 BP1) as (rc & ml & w & fr & EO & Lw & W & HO);
    [rewrite bytes_ok_app; split; assumption|lia|unfold PropsTweetBuf.inside; rewrite zlen_app; lia|unfold PropsTweetBuf.inside; rewrite zlen_app; lia|lia|].
  assert (BFR: bytes_ok fr) by (eapply ed_open_c_bytes; [exact EO|rewrite bytes_ok_app; split; assumption|exact BP1]).
  eapply rq_lift; [exact EO|]. cbv beta iota. apply written_splice in W; [|lia|rewrite zlen_app; lia]. replace (zlen mem) with (zlen mem + 0) in W by lia. rewrite sp_in in W by lia.
  assert (EG: slice (mem ++ L1) (zlen mem + 128) 64 = slice sm 2 64).
  { rewrite sl_in by lia. unfold L1. rewrite slice_splice_in by lia. change (128 - 128) with 0. unfold s1. rewrite slice_slice by lia. reflexivity. }
  assert (EH: slice (mem ++ L1) (zlen mem + 128 + 64) (64 + n - 64) = m).
  { replace (zlen mem + 128 + 64) with (zlen mem + 192) by lia. rewrite sl_in by lia. unfold L1. rewrite slice_splice_in by lia. change (192 - 128) with 64. unfold s1. rewrite slice_slice by lia. unfold m. f_equal; lia. }
  rewrite EG, EH in HO. replace (64 + n - 64) with n in HO by lia.
  destruct HO as [(-> & -> & _ & V1 & EM)|(-> & -> & NV & _)].
  2:{ change (negb (-1 =? 0)) with true. cbv iota. rewrite W, sl_frame. apply (FAIL (-5)); [lia| |apply rel_ret]. intros m' V. apply VF in V. apply NV; [lia|tauto]. }
  change (negb (0 =? 0)) with false. cbv iota. rewrite DilReduceProofs.i32_id by lia. rewrite Z.eqb_refl. cbn [negb].
  set (L2 := splice L1 0 w) in *. subst fr. assert (BL2: bytes_ok L2) by (apply bytes_ok_app in BFR; apply BFR). assert (LL2: zlen L2 = 52532) by (unfold L2; rewrite zlen_splice; lia).
  assert (EM2: slice L2 0 n = m). { rewrite <- EM. replace (zlen mem) with (zlen mem + 0) at 1 by lia. now rewrite sl_in by lia. }
  clearbody L2. eapply rq_lift; [apply (move_in mem L2 256); lia|]. rewrite <- SL by lia. set (d := slice sm (66 + n) 2420) in *. assert (Ld: zlen d = 2420) by (apply zlen_slice; lia).
  set (L3 := splice L2 256 d). assert (LL3: zlen L3 = 52532) by (unfold L3; rewrite zlen_splice; lia).
  eapply rq_lift; [apply copy_key; lia|]. rewrite <- PL by lia. change (slice pk 32 1312) with (pk_dil pk).
  assert (LP2: zlen (pk_dil pk) = 1312) by (unfold pk_dil; rewrite PL by lia; apply zlen_slice; lia). assert (BP2: bytes_ok (pk_dil pk)) by now apply bytes_ok_slice.
  assert (Bd: bytes_ok d) by now apply bytes_ok_slice. assert (BL3: bytes_ok L3) by (unfold L3; now apply bytes_ok_splice).
  assert (EM3: slice (mem ++ L3) (zlen mem) n = m). { replace (zlen mem) with (zlen mem + 0) by lia. rewrite sl_in by lia. unfold L3. rewrite slice_splice_before by lia. exact EM2. }
  assert (ED3: slice (mem ++ L3) (zlen mem + 256) 2420 = d). { rewrite sl_in by lia. unfold L3. rewrite <- Ld. apply slice_splice; lia. }
  destruct (dil_verify_rel (mem ++ L3) (zlen mem + 256) (zlen mem) n (pk_dil pk) LP2 BP2) as (r2 & E2 & R2); try (rewrite ?zlen_app; lia); [rewrite bytes_ok_app; split; assumption|].
  rewrite EM3, ED3 in E2. destruct r2 as [v|].
  2:{ exists None. split; [apply rel_none; exact R2|]. exists n. split; [reflexivity|]. exact E2. }
  eapply rq_bind; [exact R2|]. pose proof (PropsDilithium4.C55_verify_exact fuel d m (pk_dil pk) v (conj LP2 BP2) (conj Ld Bd) E2) as HV.
  destruct HV as [[-> V2]|[-> NV2]].
  2:{ change (negb (-1 =? 0)) with true. cbv iota. rewrite sl_frame. apply (FAIL (-7)); [lia| |apply rel_ret]. intros m' V. apply VF in V. tauto. }
  change (negb (0 =? 0)) with false. cbv iota. eapply rq_lift; [apply (move_in mem L3 2676); lia|]. rewrite <- SL by lia. set (s := slice sm (2486 + n) 49856) in *. assert (Ls: zlen s = 49856) by (apply zlen_slice; lia).
  set (L4 := splice L3 2676 s). assert (LL4: zlen L4 = 52532) by (unfold L4; rewrite zlen_splice; lia). assert (Bs: bytes_ok s) by now apply bytes_ok_slice. assert (BL4: bytes_ok L4) by (unfold L4; now apply bytes_ok_splice).
  eapply rq_lift; [apply copy_key; lia|]. rewrite <- PL by lia. change (slice pk 1344 64) with (pk_spx pk).
  assert (LP3: zlen (pk_spx pk) = 64) by (unfold pk_spx; rewrite PL by lia; apply zlen_slice; lia). assert (BP3: bytes_ok (pk_spx pk)) by now apply bytes_ok_slice.
  assert (EM4: slice (mem ++ L4) (zlen mem) n = m). { replace (zlen mem) with (zlen mem + 0) by lia. rewrite sl_in by lia. unfold L4. rewrite slice_splice_before by lia. unfold L3. rewrite slice_splice_before by lia. exact EM2. }
  assert (ES4: slice (mem ++ L4) (zlen mem + 2676) 49856 = s). { rewrite sl_in by lia. unfold L4. rewrite <- Ls. apply slice_splice; lia. }
  destruct (PropsSpxBuf.C63_verify loc locw (mem ++ L4) (zlen mem + 2676) 49856 (zlen mem) n (pk_spx pk) LOC LP3 BP3) as (r3 & E3 & _ & V3);
    [rewrite bytes_ok_app; split; assumption|intros _; unfold PropsSpxBuf.inside; rewrite zlen_app; lia|]. rewrite EM4, ES4 in V3.
  eapply rq_bind; [eapply spx_rel; [apply SpxHeapProofs.spx_verify_bal|exact E3]|]. destruct (Z.eqb_spec r3 0) as [->|NR]; cbn [negb].
  2:{ rewrite sl_frame. apply (FAIL (-8)); [lia| |apply rel_ret]. intros m' V. apply VF in V. apply NR. apply V3. tauto. }
  assert (V3': slh_verify shake256_bytes m s (pk_spx pk)) by (apply V3; reflexivity).
  assert (EM5: slice L4 0 n = m). { rewrite <- EM4. replace (zlen mem) with (zlen mem + 0) by lia. now rewrite sl_in by lia. }
  eapply rq_lift.
  { rewrite <- (splice_nil mem mo) at 1 by lia. apply (move_out mem mo [] L4 0); change (zlen (@nil Z)) with 0; lia. }
  rewrite EM5. cbn [app]. exists (Some (0, splice mem mo m, n)). split.
  - rewrite <- (zlen_splice mem mo m) by lia. rewrite sl_frame. apply rel_ret.
  - left. split; [reflexivity|]. exists m. split; [|auto]. apply VF. auto.
Qed.

(** ** Compact mode *)
Lemma sign_compact_p_rel rb rr nonce mem so l mo mlen ko edseed : bytes_ok mem -> zlen edseed = 32 -> bytes_ok edseed ->
  0 <= so -> so + (2526 + mlen) <= zlen mem -> 0 <= mo -> mo + mlen <= zlen mem -> 0 <= ko -> ko + 4064 <= zlen mem -> 1 <= mlen <= 64 ->
  mo + mlen <= so \/ so + 2526 <= mo ->
  slice mem ko 64 = edseed ++ ed_public edseed -> rb 40 = (rr, nonce) -> zlen nonce = 40 -> bytes_ok nonce ->
  let M := slice mem mo mlen in let h := compact_digest nonce M (slice mem (ko + 4000) 64) in
  exists r, sign_signature fuel h (slice mem (ko + 64) 2560) = Ret r /\
  releases (sign_compact_p loc fuel rb mem so l mo mlen ko)
    (if rr =? 0 then
       match r with
       | Some dsig => Some (0, splice mem so (compact_layout (ed_signature edseed h) dsig nonce M), 2526 + mlen)
       | None => None end
     else Some (-1, mem, l)).
Proof.
  intros Bm Ls Bs S1 S2 M1 M2 K1 K2 Hm HA Hk Hrb Ln Bn M h. pose proof (zlen_nonneg mem) as HF.
  destruct LOC as (LC & LB & LW).
  set (L0 := zeros 128 ++ zeros 2420 ++ zeros 168 ++ loc 64). assert (LL: zlen L0 = 2780) by (unfold L0; rewrite !zlen_app, !zlen_zeros, LC by lia; reflexivity).
  assert (BL: bytes_ok L0) by (unfold L0; rewrite !bytes_ok_app; repeat split; try apply zeros_bytes; apply LB).
  assert (LM: zlen M = mlen) by (apply zlen_slice; lia). assert (BM: bytes_ok M) by (now apply bytes_ok_slice).
  assert (Lsk: zlen (slice mem (ko + 64) 2560) = 2560) by (apply zlen_slice; lia). assert (Bsk: bytes_ok (slice mem (ko + 64) 2560)) by (now apply bytes_ok_slice).
  set (pk3 := slice mem (ko + 4000) 64) in *. assert (Lpk3: zlen pk3 = 64) by (apply zlen_slice; lia). assert (Bpk3: bytes_ok pk3) by (now apply bytes_ok_slice).
  set (hin := nonce ++ M ++ pk3). assert (Lhin: zlen hin = 104 + mlen) by (unfold hin; rewrite !zlen_app; lia). assert (Bhin: bytes_ok hin) by (unfold hin; rewrite !bytes_ok_app; auto).
  assert (Eh: h = sha3_512_bytes hin) by reflexivity. assert (Lh: zlen h = 64) by apply sha_len. assert (Bh: bytes_ok h) by apply sha_bytes. clearbody h.
  set (L1 := splice L0 2548 hin). assert (LL1: zlen L1 = 2780) by (unfold L1; rewrite zlen_splice; lia). assert (BL1: bytes_ok L1) by (unfold L1; now apply bytes_ok_splice).
  set (L2 := splice L1 2716 h). assert (LL2: zlen L2 = 2780) by (unfold L2; rewrite zlen_splice; lia). assert (BL2: bytes_ok L2) by (unfold L2; now apply bytes_ok_splice).
  set (s1 := ed_signature edseed h ++ h). assert (Ls1: zlen s1 = 128) by (unfold s1; rewrite zlen_app, PropsTweetBuf.sig_len; lia).
  set (L3 := splice L2 0 s1). assert (LL3: zlen L3 = 2780) by (unfold L3; rewrite zlen_splice; lia).
  assert (EH2: slice (mem ++ L2) (zlen mem + 2716) 64 = h) by (rewrite sl_in by lia; unfold L2; rewrite <- Lh; apply slice_splice; lia).
  assert (EH3: slice (mem ++ L3) (zlen mem + 2716) 64 = h). { rewrite sl_in by lia. unfold L3. rewrite slice_splice_after by lia. unfold L2. rewrite <- Lh; apply slice_splice; lia. }
  destruct (dil_sign_rel (mem ++ L3) (zlen mem + 128) (zlen mem + 2716) 64 (slice mem (ko + 64) 2560)) as (r & Er & Rr & Sr); try assumption; try (rewrite ?zlen_app; lia). rewrite EH3 in Er.
  exists r. split; [exact Er|]. unfold sign_compact_p. replace ((mlen <=? 0) || (64 <? mlen)) with false by lia. cbv zeta. fold L0.
  eapply rel_lift; [apply copy_key; lia|]. eapply rel_lift; [apply copy_key; lia|]. rewrite Hrb.
  eapply rel_lift. { rewrite copy_splice by (rewrite ?LC; lia). rewrite (slice_all nonce) by lia. rewrite splice_whole' by (rewrite LC; lia). reflexivity. }
  destruct (Z.eqb_spec rr 0) as [->|NR]; cbn [negb].
  2:{ rewrite sl_frame. apply rel_ret. }
  eapply rel_lift; [apply (copy_local mem L0 2548); lia|]. rewrite (slice_all nonce) by lia.
  eapply rel_lift; [apply (move_in mem _ 2588); rewrite ?zlen_splice; lia|]. fold M. replace 2588 with (2548 + zlen nonce) at 1 by lia. rewrite splice_splice by lia.
  eapply rel_lift; [apply (move_in mem _ (2588 + mlen)); rewrite ?zlen_splice; rewrite ?zlen_app; lia|]. fold pk3. replace (2588 + mlen) with (2548 + zlen (nonce ++ M)) by (rewrite zlen_app; lia). rewrite splice_splice by (rewrite ?zlen_app; lia).
  rewrite <- app_assoc. fold hin L1.
  eapply rel_lift. { rewrite rdrange_ok by (rewrite ?zlen_app; lia). rewrite sl_in by lia. replace (40 + mlen + 64) with (zlen hin) by lia. unfold L1. rewrite slice_splice by lia. reflexivity. }
  eapply rel_lift. { apply sha_rel; [apply LC; lia|exact Bhin|lia]. }
  rewrite <- Eh. eapply rel_lift; [apply (copy_local mem L1 2716); lia|]. rewrite (slice_all h) by lia. fold L2.
  eapply rel_lift.
  { rewrite Hk. rewrite (TweetBufProofs.ed_sign_c_ok (mem ++ L2) (zlen mem) (zlen mem + 2716) 64 edseed) by (rewrite ?zlen_app, ?bytes_ok_app; try (split; assumption); (assumption || lia)).
    replace (TweetBufProofs.signed_text (mem ++ L2) (zlen mem) (zlen mem + 2716) 64) with h.
    2:{ unfold TweetBufProofs.signed_text. replace (zlen mem + 64 <=? zlen mem + 2716) with true by lia. now rewrite EH2. }
    fold s1. replace (zlen mem) with (zlen mem + 0) at 1 by lia. rewrite sp_in by lia. fold L3. reflexivity. }
  cbv beta iota. destruct r as [dsig|].
  2:{ apply rel_none. exact Rr. }
  destruct (Sr dsig eq_refl) as [Ld Bd]. eapply rel_bind; [exact Rr|]. cbv beta iota. rewrite sp_in by lia.
  set (L4 := splice L3 128 dsig). assert (LL4: zlen L4 = 2780) by (unfold L4; rewrite zlen_splice; lia).
  change (0 =? 0) with true. change (64 + 64 =? 128) with true. change (2420 =? 2420) with true. cbn [negb].
  assert (E1: slice L4 0 64 = ed_signature edseed h). { unfold L4. rewrite slice_splice_before by lia. unfold L3. rewrite slice_splice_in by lia. unfold s1. change (0 - 0) with 0. pose proof (PropsTweetBuf.sig_len edseed h). rewrite slice_app_l by lia. apply slice_all. lia. }
  assert (E2: slice L4 128 2420 = dsig). { unfold L4. rewrite <- Ld. apply slice_splice; lia. }
  clearbody L4 L3 L2 L1. clear Rr Sr. replace (u8 mlen) with mlen by (rewrite SpxWots.u8_id by lia; reflexivity). pose proof (PropsTweetBuf.sig_len edseed h) as Le.
  eapply rel_lift; [rewrite <- (splice_nil mem so) at 1 by lia; apply wr_out; change (zlen (@nil Z)) with 0; lia|].
  eapply rel_lift; [apply wr_out; change (zlen ([] ++ [1])) with 1; lia|].
  assert (Hpf: exists pf, pf = ([] ++ [1]) ++ [mlen] /\ zlen pf = 2) by (eexists; split; reflexivity). destruct Hpf as (pf & Epf & Lpf). rewrite <- Epf.
  eapply rel_lift; [apply (move_out mem so _ L4 0); lia|]. rewrite E1.
  eapply rel_lift; [apply (move_out mem so _ L4 128); rewrite ?zlen_app; lia|]. rewrite E2.
  eapply rel_lift; [apply copy_out; rewrite ?zlen_app; lia|]. rewrite (slice_all nonce) by lia.
  set (D := ((pf ++ ed_signature edseed h) ++ dsig) ++ nonce). assert (LD: zlen D = 2526) by (unfold D; rewrite !zlen_app; lia).
  eapply rel_lift.
  { unfold move. rewrite move_up_ok by (rewrite ?zlen_app, ?zlen_splice by lia; lia). rewrite sl_out by (rewrite ?zlen_splice by lia; lia).
    replace (slice (splice mem so D) mo mlen) with M by (symmetry; destruct HA; [apply slice_splice_before|apply slice_splice_after]; lia).
    rewrite sp_out by (rewrite ?zlen_splice by lia; lia). replace (so + 2526) with (so + zlen D) by lia. rewrite splice_splice by lia. reflexivity. }
  assert (EX: D ++ M = compact_layout (ed_signature edseed h) dsig nonce M). { unfold D, compact_layout. rewrite LM, Epf, <- !app_assoc. reflexivity. }
  rewrite EX. assert (LX: zlen (compact_layout (ed_signature edseed h) dsig nonce M) = 2526 + mlen) by (rewrite <- EX, zlen_app; lia).
  rewrite <- (zlen_splice mem so (compact_layout (ed_signature edseed h) dsig nonce M)) by lia. rewrite sl_frame. apply rel_ret.
Qed.

(** a compact-mode signed message read field by field *)
Lemma compact_valid_fields pk sm m : compact_valid pk sm m <->
  let n := zlen m in let h := compact_digest (slice sm 2486 40) m (pk_spx pk) in
  1 <= n <= 64 /\ zlen sm = 2526 + n /\ nth 0 sm 0 = 1 /\ nth 1 sm 0 = n /\ slice sm 2526 n = m /\
  ed_valid (pk_ed pk) (slice sm 2 64) h /\ DilFips.MLDSA.verify (pk_dil pk) h (slice sm 66 2420).
Proof.
  cbv zeta. split.
  - intros (Hm & e & d & s & Le & Ld & Ls & -> & V1 & V2). unfold compact_layout. set (pf := [1; zlen m]). assert (Lpf: zlen pf = 2) by reflexivity.
    assert (E1: slice (pf ++ e ++ d ++ s ++ m) 2 64 = e). { rewrite slice_app_r by lia. rewrite Lpf. rewrite slice_app_l by lia. now apply slice_all. }
    assert (E2: slice (pf ++ e ++ d ++ s ++ m) 66 2420 = d). { rewrite !slice_app_r by lia. rewrite Lpf, Le. rewrite slice_app_l by lia. now apply slice_all. }
    assert (E3: slice (pf ++ e ++ d ++ s ++ m) 2486 40 = s). { rewrite !slice_app_r by lia. rewrite Lpf, Le, Ld. rewrite slice_app_l by lia. now apply slice_all. }
    assert (E4: slice (pf ++ e ++ d ++ s ++ m) 2526 (zlen m) = m). { rewrite !slice_app_r by lia. rewrite Lpf, Le, Ld, Ls. now apply slice_all. }
    rewrite E1, E2, E3, E4, !zlen_app. split; [exact Hm|]. split; [lia|]. split; [reflexivity|]. split; [reflexivity|]. auto.
  - intros (Hm & Lsm & N0 & N1 & Em & V1 & V2). split; [exact Hm|]. exists (slice sm 2 64), (slice sm 66 2420), (slice sm 2486 40).
    rewrite !zlen_slice by lia. split; [reflexivity|]. split; [reflexivity|]. split; [reflexivity|]. split; [|auto]. unfold compact_layout.
    rewrite <- Em at 2. rewrite <- (slice_all sm (zlen sm)) at 1 by reflexivity. rewrite Lsm.
    rewrite (slice_split sm 0 (2526 + zlen m) 2) by lia. rewrite (slice_split sm (0 + 2) _ 64) by lia. rewrite (slice_split sm (0 + 2 + 64) _ 2420) by lia. rewrite (slice_split sm (0 + 2 + 64 + 2420) _ 40) by lia.
    change (0 + 2 + 64 + 2420 + 40) with 2526. change (0 + 2 + 64 + 2420) with 2486. change (0 + 2 + 64) with 66. change (0 + 2) with 2. replace (2526 + zlen m - 2 - 64 - 2420 - 40) with (zlen m) by lia.
    f_equal. destruct sm as [|a [|b sm]]; [change (zlen (@nil Z)) with 0 in Lsm; lia|change (zlen [a]) with 1 in Lsm; lia|]. cbn [nth] in N0, N1. subst a b. reflexivity.
Qed.

Lemma open_compact_p_rel mem mo l so smlen po : bytes_ok mem -> 0 <= so -> 0 <= smlen -> so + smlen <= zlen mem -> 0 <= mo -> mo + (smlen - 2526) <= zlen mem -> 0 <= po -> po + 1408 <= zlen mem ->
  mo <= so + 2526 \/ so + smlen <= mo ->
  let pk := slice mem po 1408 in let sm := slice mem so smlen in
  exists r, releases (open_compact_p loc fuel mem mo l so smlen po) r /\
  match r with
  | Some (c, mem', len) =>
      (c = 0 /\ exists m, compact_valid pk sm m /\ mem' = splice mem mo m /\ len = zlen m) \/
      (-8 <= c < 0 /\ mem' = mem /\ len = l /\ forall m, ~ compact_valid pk sm m)
  | None => exists n, n = nth 1 sm 0 /\ sign_verify fuel (slice sm 66 2420) 2420 (compact_digest (slice sm 2486 40) (slice sm 2526 n) (pk_spx pk)) (pk_dil pk) = Ret None
  end.
Proof.
  intros Bm S1 S0 S2 M1 M2 P1 P2 HA pk sm. pose proof (zlen_nonneg mem) as HF. assert (Lsm: zlen sm = smlen) by (apply zlen_slice; lia).
  destruct LOC as (LC & LB & LW).
  assert (SL: forall a n, 0 <= a -> 0 <= n -> a + n <= smlen -> slice sm a n = slice mem (so + a) n) by (intros; unfold sm; apply slice_slice; lia).
  assert (PL: forall a n, 0 <= a -> 0 <= n -> a + n <= 1408 -> slice pk a n = slice mem (po + a) n) by (intros; unfold pk; apply slice_slice; lia).
  match goal with |- exists r, releases _ r /\ @?Q r => set (QQ := Q) end.
  assert (FAIL: forall c, -8 <= c < 0 -> (forall m, ~ compact_valid pk sm m) -> forall k : M (Z * list Z * Z), releases k (Some (c, mem, l)) -> exists r, releases k r /\ QQ r).
  { intros c Hc HN k Hk. exists (Some (c, mem, l)). split; [exact Hk|]. right. auto. }
  change (exists r, releases (open_compact_p loc fuel mem mo l so smlen po) r /\ QQ r).
  unfold open_compact_p. destruct ((smlen <? 2527) || (2590 <? smlen)) eqn:EB.
  { apply (FAIL (-1)); [lia| |apply rel_ret]. intros m V. apply compact_valid_fields in V. cbv zeta in V. lia. }
  assert (N0: nth 0 sm 0 = nth (Z.to_nat so) mem 0) by (unfold sm; rewrite nth_slice by lia; f_equal; lia).
  assert (N1: nth 1 sm 0 = nth (Z.to_nat (so + 1)) mem 0) by (unfold sm; rewrite nth_slice by lia; f_equal; lia).
  eapply rq_lift; [apply rd_ok; lia|]. rewrite <- N0. destruct (Z.eqb_spec (nth 0 sm 0) 1) as [I2|I2]; cbn [negb].
  2:{ apply (FAIL (-2)); [lia| |apply rel_ret]. intros m V. apply compact_valid_fields in V. cbv zeta in V. tauto. }
  eapply rq_lift; [apply rd_ok; lia|]. rewrite <- N1. set (n := nth 1 sm 0) in *.
  destruct ((n <=? 0) || (64 <? n)) eqn:EN.
  { apply (FAIL (-3)); [lia| |apply rel_ret]. intros m V. apply compact_valid_fields in V. cbv zeta in V. fold n in V. lia. }
  destruct (Z.eqb_spec smlen (2526 + n)) as [ES|ES]; cbn [negb].
  2:{ apply (FAIL (-4)); [lia| |apply rel_ret]. intros m V. apply compact_valid_fields in V. cbv zeta in V. fold n in V. lia. }
  set (m := slice sm 2526 n). assert (Lm: zlen m = n) by (apply zlen_slice; lia).
  set (nonce := slice sm 2486 40). assert (Ln: zlen nonce = 40) by (apply zlen_slice; lia).
  assert (Bsm: bytes_ok sm) by now apply bytes_ok_slice. assert (BP: bytes_ok pk) by now apply bytes_ok_slice. assert (Bn: bytes_ok nonce) by now apply bytes_ok_slice. assert (BM: bytes_ok m) by now apply bytes_ok_slice.
  assert (LP3: zlen (pk_spx pk) = 64) by (unfold pk_spx; rewrite PL by lia; apply zlen_slice; lia). assert (BP3: bytes_ok (pk_spx pk)) by now apply bytes_ok_slice.
  set (h := compact_digest nonce m (pk_spx pk)).
  assert (VF: forall m', compact_valid pk sm m' <-> m' = m /\ ed_valid (pk_ed pk) (slice sm 2 64) h /\ DilFips.MLDSA.verify (pk_dil pk) h (slice sm 66 2420)).
  { intros m'. rewrite compact_valid_fields. cbv zeta. split.
    - intros (A1 & A2 & A3 & A4 & A5 & A6 & A7). fold n in A4. rewrite <- A4 in A5. fold m in A5. subst m'. auto.
    - intros (-> & A6 & A7). rewrite Lm. split; [lia|]. split; [lia|]. split; [exact I2|]. split; [reflexivity|]. auto. }
  set (hin := nonce ++ m ++ pk_spx pk). assert (Lhin: zlen hin = 104 + n) by (unfold hin; rewrite !zlen_app; lia). assert (Bhin: bytes_ok hin) by (unfold hin; rewrite !bytes_ok_app; auto).
  assert (Eh: h = sha3_512_bytes hin) by reflexivity. assert (Lh: zlen h = 64) by apply sha_len. assert (Bh: bytes_ok h) by apply sha_bytes.
  cbv zeta. set (L0 := zeros 128 ++ zeros 128 ++ zeros 2420 ++ zeros 168 ++ loc 64). assert (LL: zlen L0 = 2908) by (unfold L0; rewrite !zlen_app, !zlen_zeros, LC by lia; reflexivity).
  assert (BL: bytes_ok L0) by (unfold L0; rewrite !bytes_ok_app; repeat split; try apply zeros_bytes; apply LB). clearbody L0.
  eapply rq_lift; [apply (move_in mem L0 2676); lia|]. rewrite <- SL by lia. fold nonce.
  eapply rq_lift; [apply (move_in mem _ 2716); rewrite ?zlen_splice; lia|]. rewrite <- SL by lia. fold m. replace (splice (splice L0 2676 nonce) 2716 m) with (splice (splice L0 2676 nonce) (2676 + zlen nonce) m) by (f_equal; lia). rewrite splice_splice by lia.
  eapply rq_lift; [apply (move_in mem _ (2716 + n)); rewrite ?zlen_splice; rewrite ?zlen_app; lia|]. rewrite <- PL by lia. change (slice pk 1344 64) with (pk_spx pk).
  replace (splice (splice L0 2676 (nonce ++ m)) (2716 + n) (pk_spx pk)) with (splice (splice L0 2676 (nonce ++ m)) (2676 + zlen (nonce ++ m)) (pk_spx pk)) by (f_equal; rewrite zlen_app; lia). rewrite splice_splice by (rewrite ?zlen_app; lia). rewrite <- app_assoc. fold hin.
  set (L1 := splice L0 2676 hin). assert (LL1: zlen L1 = 2908) by (unfold L1; rewrite zlen_splice; lia). assert (BL1: bytes_ok L1) by (unfold L1; now apply bytes_ok_splice).
  eapply rq_lift. { rewrite rdrange_ok by (rewrite ?zlen_app; lia). rewrite sl_in by lia. replace (40 + n + 64) with (zlen hin) by lia. unfold L1. rewrite slice_splice by lia. reflexivity. }
  eapply rq_lift. { apply sha_rel; [apply LC; lia|exact Bhin|lia]. }
  rewrite <- Eh. clearbody h. eapply rq_lift; [apply (copy_local mem L1 2844); lia|]. rewrite (slice_all h) by lia.
  set (L2 := splice L1 2844 h). assert (LL2: zlen L2 = 2908) by (unfold L2; rewrite zlen_splice; lia). assert (BL2: bytes_ok L2) by (unfold L2; now apply bytes_ok_splice).
  assert (H2: slice L2 2844 64 = h) by (unfold L2; rewrite <- Lh; apply slice_splice; lia). clearbody L2.
  eapply rq_lift; [apply (move_in mem L2 128); lia|]. rewrite <- SL by lia. set (e := slice sm 2 64) in *. assert (Le: zlen e = 64) by (apply zlen_slice; lia). assert (Be: bytes_ok e) by now apply bytes_ok_slice.
  assert (H3: slice (splice L2 128 e) 2844 64 = h) by (rewrite slice_splice_after by lia; exact H2).
  eapply rq_lift; [apply (move_local mem _ 192 2844); rewrite ?zlen_splice; lia|]. rewrite H3. replace (splice (splice L2 128 e) 192 h) with (splice (splice L2 128 e) (128 + zlen e) h) by (f_equal; lia). rewrite splice_splice by lia.
  set (L3 := splice L2 128 (e ++ h)). assert (LL3: zlen L3 = 2908) by (unfold L3; rewrite zlen_splice; rewrite ?zlen_app; lia).
  assert (BL3: bytes_ok L3) by (unfold L3; apply bytes_ok_splice; [assumption|rewrite bytes_ok_app; split; assumption]).
  assert (H4: slice L3 2844 64 = h) by (unfold L3; rewrite slice_splice_after by (rewrite ?zlen_app; lia); exact H2).
  eapply rq_lift; [apply copy_key; lia|]. assert (EP1: slice mem po 32 = pk_ed pk) by (unfold pk_ed; rewrite PL by lia; f_equal; lia). rewrite EP1.
  assert (LP1: zlen (pk_ed pk) = 32) by (rewrite <- EP1; apply zlen_slice; lia). assert (BP1: bytes_ok (pk_ed pk)) by now apply bytes_ok_slice.
  destruct (PropsTweetBuf.C69_open_separate (mem ++ L3) (zlen mem) (zlen mem + 128) 128 (pk_ed pk) LP1 BP1) as (rc & ml & w & fr & EO & Lw & W & HO);
    [rewrite bytes_ok_app; split; assumption|lia|unfold PropsTweetBuf.inside; rewrite zlen_app; lia|unfold PropsTweetBuf.inside; rewrite zlen_app; lia|lia|].
  assert (BFR: bytes_ok fr) by (eapply ed_open_c_bytes; [exact EO|rewrite bytes_ok_app; split; assumption|exact BP1]).
  eapply rq_lift; [exact EO|]. cbv beta iota. apply written_splice in W; [|lia|rewrite zlen_app; lia]. replace (zlen mem) with (zlen mem + 0) in W by lia. rewrite sp_in in W by lia.
  assert (EG: slice (mem ++ L3) (zlen mem + 128) 64 = e).
  { rewrite sl_in by lia. unfold L3. rewrite slice_splice_in by (rewrite ?zlen_app; lia). change (128 - 128) with 0. rewrite slice_app_l by lia. now apply slice_all. }
  assert (EH: slice (mem ++ L3) (zlen mem + 128 + 64) (128 - 64) = h).
  { replace (zlen mem + 128 + 64) with (zlen mem + 192) by lia. rewrite sl_in by lia. unfold L3. rewrite slice_splice_in by (rewrite ?zlen_app; lia). rewrite slice_app_r by lia. rewrite Le. change (192 - 128 - 64) with 0. now apply slice_all. }
  rewrite EG, EH in HO. change (128 - 64) with 64 in HO.
  destruct HO as [(-> & -> & _ & V1 & EM)|(-> & -> & NV & _)].
  2:{ change (negb (-1 =? 0)) with true. cbv iota. rewrite W, sl_frame. apply (FAIL (-5)); [lia| |apply rel_ret]. intros m' V. apply VF in V. apply NV; [lia|tauto]. }
  change (negb (0 =? 0)) with false. change (negb (64 =? 64)) with false. cbv iota.
  set (L4 := splice L3 0 w) in *. subst fr. assert (BL4: bytes_ok L4) by (apply bytes_ok_app in BFR; apply BFR). assert (LL4: zlen L4 = 2908) by (unfold L4; rewrite zlen_splice; lia).
  assert (H5: slice L4 2844 64 = h) by (unfold L4; rewrite slice_splice_after by lia; exact H4). clearbody L4.
  eapply rq_lift. { apply same_from_ok; rewrite ?zlen_app; change (Z.of_nat 64) with 64; lia. }
  change (Z.of_nat 64) with 64. rewrite !Z.add_0_r, EM. rewrite sl_in by lia. rewrite H5. destruct (list_eq_dec Z.eq_dec h h) as [_|NE]; [|contradiction]. cbn [negb].
  eapply rq_lift; [apply (move_in mem L4 256); lia|]. rewrite <- SL by lia. set (d := slice sm 66 2420) in *. assert (Ld: zlen d = 2420) by (apply zlen_slice; lia). assert (Bd: bytes_ok d) by now apply bytes_ok_slice.
  set (L5 := splice L4 256 d). assert (LL5: zlen L5 = 2908) by (unfold L5; rewrite zlen_splice; lia). assert (BL5: bytes_ok L5) by (unfold L5; now apply bytes_ok_splice).
  eapply rq_lift; [apply copy_key; lia|]. rewrite <- PL by lia. change (slice pk 32 1312) with (pk_dil pk).
  assert (LP2: zlen (pk_dil pk) = 1312) by (unfold pk_dil; rewrite PL by lia; apply zlen_slice; lia). assert (BP2: bytes_ok (pk_dil pk)) by now apply bytes_ok_slice.
  assert (EM3: slice (mem ++ L5) (zlen mem + 2844) 64 = h). { rewrite sl_in by lia. unfold L5. rewrite slice_splice_after by lia. exact H5. }
  assert (ED3: slice (mem ++ L5) (zlen mem + 256) 2420 = d). { rewrite sl_in by lia. unfold L5. rewrite <- Ld. apply slice_splice; lia. }
  destruct (dil_verify_rel (mem ++ L5) (zlen mem + 256) (zlen mem + 2844) 64 (pk_dil pk) LP2 BP2) as (r2 & E2 & R2); try (rewrite ?zlen_app; lia); [rewrite bytes_ok_app; split; assumption|].
  rewrite EM3, ED3 in E2. destruct r2 as [v|].
  2:{ exists None. split; [apply rel_none; exact R2|]. exists n. split; [reflexivity|]. fold nonce m. rewrite Eh in E2. exact E2. }
  eapply rq_bind; [exact R2|]. pose proof (PropsDilithium4.C55_verify_exact fuel d h (pk_dil pk) v (conj LP2 BP2) (conj Ld Bd) E2) as HV.
  destruct HV as [[-> V2]|[-> NV2]].
  2:{ change (negb (-1 =? 0)) with true. cbv iota. rewrite sl_frame. apply (FAIL (-8)); [lia| |apply rel_ret]. intros m' V. apply VF in V. tauto. }
  change (negb (0 =? 0)) with false. cbv iota. eapply rq_lift.
  { unfold move. rewrite move_up_ok by (rewrite ?zlen_app; lia). rewrite sl_out by lia. rewrite <- SL by lia. fold m. rewrite sp_out by lia. reflexivity. }
  exists (Some (0, splice mem mo m, n)). split.
  - rewrite <- (zlen_splice mem mo m) by lia. rewrite sl_frame. apply rel_ret.
  - left. split; [reflexivity|]. exists m. split; [|auto]. apply VF. auto.
Qed.
End Comps.
