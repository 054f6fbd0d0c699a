(** Two runs of Dilithium key generation that reject the same half-bytes have the same trace. *)
From Coq Require Import ZifyBool ZifyNat.
From Verif Require Import Base Sponge SpongePure SpongeProofs SpongeProofs2 DilSignProofs Tab DilReduce DilNtt DilPoly DilPolyProofs DilVec DilSign DilSampleSpec DilSample DilSpec DilFips DilFipsProofs DilVecProofs
  DilBuf BufLemmas DilBufProofs DilBufSign CtDilSpec CtBase CtTweet CtTweetProofs CtKeccak CtKeccakProofs CtSpx CtSpxProofs CtSpxTrace CtDil CtDilProofs CtDilTrace CtDilTrace2 CtDilTrace3.
Local Open Scope Z_scope.
Ltac Zify.zify_post_hook ::= idtac.
#[local] Opaque Keccak.KeccakF1600_StatePermute.
#[local] Hint Resolve ct_shake ct_shake_at ct_ntt ct_invntt ct_vreduce ct_vcaddq ct_vadd ct_vsub ct_vntt ct_vinvntt ct_vpointwise ct_matrix ct_vpower2round ct_vdecompose ct_pack_w1 ct_pack_pk ct_pack_sk ct_unpack_sk : ct.

Definition lo (b : Z) : bool := Z.land b 15 <? 15.
Definition hi (b : Z) : bool := Z.shiftr b 4 <? 15.
Definition cnt (b : Z) : Z := Z.b2z (lo b) + Z.b2z (hi b).
(** [need] more coefficients come from bytes on which the two streams agree *)
Fixpoint near (need : Z) (s s' : list Z) : Prop :=
  match s, s' with
  | b :: s, b' :: s' => need <= 0 \/ (lo b = lo b' /\ hi b = hi b' /\ near (need - cnt b) s s')
  | _, _ => need <= 0
  end.
Lemma near_le need : forall s s', need <= 0 -> near need s s'.
Proof. intros [|b s] [|b' s'] H; cbn [near]; auto. Qed.
Lemma near_app : forall s need s' t t', near need s s' -> length s = length s' -> near need (s ++ t) (s' ++ t').
Proof.
  induction s as [|b s IH]; intros need [|b' s'] t t' H L; try discriminate L; cbn [app near] in *; [now apply near_le|].
  destruct H as [H|(E1 & E2 & H)]; [now left|]. right. split; [exact E1|]. split; [exact E2|]. apply IH; [exact H|]. now injection L.
Qed.


Definition rel {A} (P : A -> A -> Prop) (x x' : L A) : Prop := trace x = trace x' /\ P (value x) (value x').
Lemma rel_split {A B} (P : B -> B -> Prop) (x x' : L A) (k k' : A -> L B) : trace x = trace x' -> rel P (k (value x)) (k' (value x')) -> rel P (lbind x k) (lbind x' k').
Proof. intros E (T & F). unfold rel. rewrite !trace_bind, !value_bind, E, T. auto. Qed.
Lemma rel_bind {A B} (P : B -> B -> Prop) (R : A -> A -> Prop) (x x' : L A) (k k' : A -> L B) : rel R x x' -> (forall a a', R a a' -> rel P (k a) (k' a')) -> rel P (lbind x k) (lbind x' k').
Proof. intros (T & E) K. apply rel_split; [exact T|now apply K]. Qed.

Lemma same_rej_eta fuel : forall a aoff len buf buflen ctr pos a' buf' t t', 0 <= pos <= buflen -> buflen <= zlen buf -> buflen <= zlen buf' -> buflen - pos <= Z.of_nat fuel ->
  near (len - ctr) (slice buf pos (buflen - pos) ++ t) (slice buf' pos (buflen - pos) ++ t') ->
  rel (fun v v' => snd v = snd v' /\ near (len - snd v) t t') (rej_eta_l Zops fuel a aoff len buf buflen ctr pos) (rej_eta_l Zops fuel a' aoff len buf' buflen ctr pos).
Proof.
  induction fuel as [|fuel IH]; intros a aoff len buf buflen ctr pos a' buf' t t' Hp Hb Hb' Hf N; cbn [rej_eta_l]; (apply rel_split; [reflexivity|]); rewrite !land2_v.
  - replace (pos <? buflen) with false by lia. rewrite andb_false_r. split; [reflexivity|]. split; [reflexivity|]. rewrite !slice_neg in N by lia. exact N.
  - destruct ((ctr <? len) && (pos <? buflen)) eqn:G.
    2:{ split; [reflexivity|]. split; [reflexivity|]. cbn [lret value snd].
        destruct (Z.ltb_spec ctr len) as [H|H]; [|apply near_le; lia]. destruct (Z.ltb_spec pos buflen); [discriminate G|]. rewrite !slice_neg in N by lia. exact N. }
    rewrite (slice_cons buf pos (buflen - pos)), (slice_cons buf' pos (buflen - pos)) in N by lia. cbn [app near] in N. destruct N as [N|(E1 & E2 & N)]; [lia|].
    replace (buflen - pos - 1) with (buflen - (pos + 1)) in N by lia.
    set (b := nth (Z.to_nat pos) buf 0) in *. set (b' := nth (Z.to_nat pos) buf' 0) in *.
    apply rel_split; [reflexivity|]. change (value (lrd Zops buf pos)) with b. change (value (lrd Zops buf' pos)) with b'. cbv zeta.
    apply rel_split; [unfold lless; cbn [trace fst reveal cst Zops bi ev2]; fold (lo b) (lo b'); now rewrite E1|].
    change (value (lless Zops (bi Zops And b (cst Zops 15)) (cst Zops 15))) with (lo b). change (value (lless Zops (bi Zops And b' (cst Zops 15)) (cst Zops 15))) with (lo b'). rewrite <- E1.
    apply (rel_bind _ (fun v v' : list Z * Z => snd v = snd v' /\ snd v = ctr + Z.b2z (lo b))).
    { destruct (lo b); (split; [reflexivity|]); cbn [value snd lbind lret]; split; try reflexivity; cbn [Z.b2z]; lia. }
    intros [a1 c1] [a1' c1'] (Ec & E). cbn [snd] in Ec, E. subst c1'.
    apply rel_split; [unfold lless; cbn [trace fst reveal cst Zops bi un ev1 ev2]; fold (hi b) (hi b'); now rewrite E2|].
    change (value (lless Zops (un Zops (Shr 4) b) (cst Zops 15))) with (hi b). change (value (lless Zops (un Zops (Shr 4) b') (cst Zops 15))) with (hi b'). rewrite <- E2.
    apply (rel_bind _ (fun v v' : bool => v = v' /\ v = hi b && (c1 <? len))).
    { destruct (hi b); (split; [reflexivity|]); cbn [value snd lret]; auto. }
    intros v v' (<- & Ev).
    apply (rel_bind _ (fun w w' : list Z * Z => snd w = snd w' /\ snd w = c1 + Z.b2z v)).
    { destruct v; (split; [reflexivity|]); cbn [value snd lbind lret]; split; try reflexivity; cbn [Z.b2z]; lia. }
    intros [a2 c2] [a2' c2'] (Ec & E'). cbn [snd] in Ec, E'. subst c2'. apply IH; try lia.
    unfold cnt in N. destruct (hi b) eqn:Hh; [destruct (Z.ltb_spec c1 len) as [H|H]|]; subst v; cbn [andb Z.b2z] in *.
    + replace (len - c2) with (len - ctr - (Z.b2z (lo b) + 1)) by lia. exact N.
    + apply near_le. lia.
    + replace (len - c2) with (len - ctr - (Z.b2z (lo b) + 0)) by lia. exact N.
Qed.
Lemma squeezing_pos r s s' t c c' : 0 < r -> squeezing r s t c -> squeezing r s' t c' -> pos c = pos c'.
Proof. intros Hr (q & _ & _ & E & B) (q' & _ & _ & E' & B'). assert (q = q') by nia. subst. lia. Qed.
Lemma xof_add s p n m : 0 <= n -> 0 <= m -> xof_of s p (n + m) = xof_of s p n ++ xof_of s (p + n) m.
Proof. intros Hn Hm. unfold xof_of. rewrite Z2Nat.inj_add by lia. rewrite zseq_app, map_app, Z2Nat.id by lia. reflexivity. Qed.
Lemma near_more need s s' p K m : 0 <= K -> 0 <= m -> near need (xof_of s p K) (xof_of s' p K) -> near need (xof_of s p m ++ xof_of s (p + m) K) (xof_of s' p m ++ xof_of s' (p + m) K).
Proof.
  intros HK Hm N. rewrite <- !xof_add by lia. rewrite (Z.add_comm m K), !xof_add by lia. apply near_app; [exact N|]. pose proof (xof_len s p K HK). pose proof (xof_len s' p K HK). unfold zlen in *. lia.
Qed.
Definition both {A} (x x' : option A) : Prop := x = None <-> x' = None.
Lemma eta_squeeze s c t buf s' c' buf' : zlen s = 25 -> zlen s' = 25 -> squeezing 136 s t c -> squeezing 136 s' t c' -> 0 <= t -> zlen buf = 136 -> zlen buf' = 136 ->
  rel (fun v v' => exists d d', v = (xof_of (stream 136 s) t 136, ctx d) /\ v' = (xof_of (stream 136 s') t 136, ctx d') /\ squeezing 136 s (t + 136) d /\ squeezing 136 s' (t + 136) d')
    (inc_squeeze_l Zops buf 0 136 (ctx c) SHAKE256_RATE) (inc_squeeze_l Zops buf' 0 136 (ctx c') SHAKE256_RATE).
Proof.
  intros Hs Hs' Hc Hc' Ht Lb Lb'. unfold SHAKE256_RATE. split.
  - unfold ctx. rewrite (squeezing_pos 136 s s' t c c') by (assumption || lia). apply ct_inc_squeeze.
  - destruct (sq_ok 136 s buf 0 136 c t ltac:(lia) Hs Hc Ht ltac:(lia) ltac:(lia) ltac:(lia)) as (d & E & Hd).
    destruct (sq_ok 136 s' buf' 0 136 c' t ltac:(lia) Hs' Hc' Ht ltac:(lia) ltac:(lia) ltac:(lia)) as (d' & E' & Hd').
    exists d, d'. rewrite (erar_inc_squeeze _ _ _ _ _ _ E), (erar_inc_squeeze _ _ _ _ _ _ E'). unfold octx; cbn [fst snd].
    rewrite !splice_whole' by (rewrite ?xof_len; lia). auto.
Qed.
Lemma eta_while_same s s' : zlen s = 25 -> zlen s' = 25 -> forall fuel a ctr buf c t K a' buf' c',
  squeezing 136 s t c -> squeezing 136 s' t c' -> 0 <= t -> zlen buf = 136 -> zlen buf' = 136 -> 0 <= K ->
  near (256 - ctr) (xof_of (stream 136 s) t K) (xof_of (stream 136 s') t K) ->
  rel both (poly_eta_while_l Zops fuel a ctr buf (ctx c)) (poly_eta_while_l Zops fuel a' ctr buf' (ctx c')).
Proof.
  intros Hs Hs'. induction fuel as [|fuel IH]; intros a ctr buf c t K a' buf' c' Hc Hc' Ht Lb Lb' HK N; cbn [poly_eta_while_l]; destruct (ctr <? 256);
    try (split; [reflexivity|split; intros X; solve [discriminate X|reflexivity]]).
  apply rel_split; [reflexivity|]. eapply rel_bind; [apply (eta_squeeze s c t buf s' c' buf'); assumption|].
  intros v v' (d & d' & -> & -> & Hd & Hd'). cbv beta iota.
  assert (L1 : zlen (xof_of (stream 136 s) t 136) = 136) by (apply xof_len; lia). assert (L2 : zlen (xof_of (stream 136 s') t 136) = 136) by (apply xof_len; lia).
  eapply rel_bind; [apply same_rej_eta with (t := xof_of (stream 136 s) (t + 136) K) (t' := xof_of (stream 136 s') (t + 136) K); try lia|].
  - rewrite !Z.sub_0_r, !slice_all by lia. apply near_more; [lia|lia|exact N].
  - intros [a1 n] [a1' n'] (E & N2). cbn [snd] in E, N2. subst n'. cbv beta iota. apply (IH _ _ _ _ (t + 136) K); try assumption; try lia.
    now replace (256 - (ctr + n)) with (256 - ctr - n) by lia.
Qed.

Section Two.
Variables loc loc' : Z -> list Z.
Hypothesis LOC : forall n, 0 <= n -> zlen (loc n) = n.
Hypothesis LOC' : forall n, 0 <= n -> zlen (loc' n) = n.
Lemma eta_same fuel seed seed' nonce K : zlen seed = 64 -> zlen seed' = 64 -> 0 <= K ->
  near 256 (xof_of (stream 136 (st256 seed nonce)) 0 K) (xof_of (stream 136 (st256 seed' nonce)) 0 K) ->
  rel both (poly_eta_l Zops loc fuel seed nonce) (poly_eta_l Zops loc' fuel seed' nonce).
Proof.
  intros Ls Ls' HK N. unfold poly_eta_l. destruct (init256_ok seed nonce Ls) as (c & E & Hc). destruct (init256_ok seed' nonce Ls') as (c' & E' & Hc').
  assert (H25: zlen (st256 seed nonce) = 25) by (apply zlen_pad; lia). assert (H25': zlen (st256 seed' nonce) = 25) by (apply zlen_pad; lia).
  apply (rel_bind _ (fun v v' => v = ctx c /\ v' = ctx c')).
  { split; [apply ct_stream|]. split; [exact (erar_stream256 _ _ _ E)|exact (erar_stream256 _ _ _ E')]. }
  intros v0 v0' (-> & ->).
  set (s := st256 seed nonce) in *. set (s' := st256 seed' nonce) in *. clearbody s s'.
  eapply rel_bind; [apply (eta_squeeze s c 0 (loc 136) s' c' (loc' 136)); try assumption; [lia|apply LOC; lia|apply LOC'; lia]|].
  intros v v' (d & d' & -> & -> & Hd & Hd'). cbv beta iota.
  assert (L1 : zlen (xof_of (stream 136 s) 0 136) = 136) by (apply xof_len; lia). assert (L2 : zlen (xof_of (stream 136 s') 0 136) = 136) by (apply xof_len; lia).
  eapply rel_bind; [apply same_rej_eta with (t := xof_of (stream 136 s) (0 + 136) K) (t' := xof_of (stream 136 s') (0 + 136) K); try lia|].
  - rewrite !Z.sub_0_r, !slice_all by lia. apply near_more; [lia|lia|exact N].
  - intros [a1 n] [a1' n'] (EE & N2). cbn [snd] in EE, N2. subst n'. cbv beta iota. now apply (eta_while_same s s' H25 H25' fuel a1 n _ d (0 + 136) K).
Qed.
End Two.

(** ** The specification's form of the hypothesis *)
Import MLDSA.
Lemma near_pattern : forall s s' need, bytes_ok s -> bytes_ok s' ->
  map (fun z => z <? 15) (Sample.half_bytes s) = map (fun z => z <? 15) (Sample.half_bytes s') ->
  need <= Z.of_nat (count_occ bool_dec (map (fun z => z <? 15) (Sample.half_bytes s)) true) -> near need s s'.
Proof.
  assert (NB : forall b, byte_ok b -> (b mod 16 <? 15) = lo b /\ (b / 16 <? 15) = hi b).
  { intros b _. unfold lo, hi. rewrite Z.shiftr_div_pow2 by lia. change 15 with (Z.ones 4) at 2. rewrite Z.land_ones by lia. split; reflexivity. }
  induction s as [|b s IH]; intros [|b' s'] need B B' E C.
  - cbn in C |- *. lia.
  - discriminate E.
  - discriminate E.
  - change (Sample.half_bytes (b :: s)) with (b mod 16 :: b / 16 :: Sample.half_bytes s) in *. change (Sample.half_bytes (b' :: s')) with (b' mod 16 :: b' / 16 :: Sample.half_bytes s') in *.
    inversion B as [|? ? Hb Hs]; inversion B' as [|? ? Hb' Hs']; subst. cbn [map] in E, C. destruct (NB b Hb) as [N1 N2]. destruct (NB b' Hb') as [N1' N2']. rewrite N1, N2, N1', N2' in *.
    injection E as E1 E2 E. cbn [near]. right. split; [exact E1|]. split; [exact E2|]. apply IH; try assumption.
    revert C. generalize (map (fun z => z <? 15) (Sample.half_bytes s)). intros l C. unfold cnt. destruct (lo b), (hi b); cbn [count_occ Z.b2z] in *; repeat destruct (bool_dec _ _); try congruence; lia.
Qed.
Lemma alike_near seed seed' n : Leak.alike (seed ++ int2 n) (seed' ++ int2 n) ->
  exists K, 0 <= K /\ near 256 (xof_of (stream 136 (st256 seed (u16 n))) 0 K) (xof_of (stream 136 (st256 seed' (u16 n))) 0 K).
Proof.
  intros (k & E & C). unfold Leak.accepts in E, C. exists (Z.of_nat k). split; [lia|].
  assert (X : forall sd, H (sd ++ int2 n) (Z.of_nat k) = xof_of (stream 136 (st256 sd (u16 n))) 0 (Z.of_nat k)).
  { intros sd. rewrite <- stream256_x by lia. unfold stream256. rewrite nonce_int2. rewrite Z.add_0_l. symmetry. apply slice_all. symmetry. apply (sponge_bytes_len 136 0x1F); lia. }
  rewrite !X in E. rewrite X in C. apply near_pattern; try (apply xof_bytes; lia); [exact E|lia].
Qed.

Section Two.
Variables loc loc' : Z -> list Z.
Hypothesis LOC : forall n, 0 <= n -> zlen (loc n) = n.
Hypothesis LOC' : forall n, 0 <= n -> zlen (loc' n) = n.
Lemma ct_vecO_in {A B C} (f : A -> L (option B)) (g : A -> L (option C)) l : (forall x, In x l -> trace (f x) = trace (g x) /\ (value (f x) = None <-> value (g x) = None)) ->
  trace (lvecO f l) = trace (lvecO g l) /\ (value (lvecO f l) = None <-> value (lvecO g l) = None).
Proof.
  intros H. induction l as [|x l IH]; cbn [lvecO]; [split; [reflexivity|split; discriminate]|]. rewrite !trace_bind, !value_bind. destruct (H x (or_introl eq_refl)) as (T & E). rewrite T.
  destruct (value (f x)) as [y|], (value (g x)) as [y'|]; try (exfalso; destruct E as [E1 E2]; first [discriminate (E1 eq_refl)|discriminate (E2 eq_refl)]); [|split; [reflexivity|split; reflexivity]].
  rewrite !trace_bind, !value_bind. destruct IH as (T2 & E2); [intros; apply H; now right|]. rewrite T2. split; [reflexivity|]. cbn [lret value snd].
  destruct (value (lvecO f l)), (value (lvecO g l)); split; intros X; try discriminate X; try reflexivity; exfalso; [discriminate (proj2 E2 eq_refl)|discriminate (proj1 E2 eq_refl)].
Qed.
Lemma vec_eta_same fuel seed seed' nonce : zlen seed = 64 -> zlen seed' = 64 ->
  (forall i, 0 <= i < 4 -> Leak.alike (seed ++ int2 (nonce + i)) (seed' ++ int2 (nonce + i))) ->
  rel both (vec_eta_l Zops loc fuel seed nonce) (vec_eta_l Zops loc' fuel seed' nonce).
Proof.
  intros Ls Ls' A. apply ct_vecO_in. intros i Hi. assert (0 <= i < 4) by (cbn [In] in Hi; lia).
  destruct (alike_near seed seed' (nonce + i) (A i ltac:(lia))) as (K & HK & N). now apply (eta_same loc loc' LOC LOC' fuel seed seed' (u16 (nonce + i)) K).
Qed.
Lemma kseed_v seed sb0 : zlen sb0 = 128 -> 32 <= zlen seed -> bytes_ok seed ->
  let sb := value (lfor 32 (fun i sb => b <~ lrd Zops seed i ;;; lwr sb i b) sb0) in
  value (shake256_at_l Zops sb 0 128 sb 0 32) = H (slice seed 0 32) 128.
Proof.
  intros L0 Ls Bs. cbv zeta.
  assert (E : value (lfor 32 (fun i sb => b <~ lrd Zops seed i ;;; lwr sb i b) sb0) = splice sb0 0 (slice seed 0 32)).
  { refine ((_ : era (for_loop 32 (fun i sb => b <- rd 0 seed i ;; wr sb i b) sb0) _) _ _); [repeat ds|]. now rewrite copy_in_loop by lia. }
  rewrite E. apply era_shake256_at. assert (L1: zlen (slice seed 0 32) = 32) by (apply zlen_slice; lia).
  assert (E0: slice (splice sb0 0 (slice seed 0 32)) 0 32 = slice seed 0 32) by (rewrite slice_splice_in by lia; apply slice_all; lia).
  rewrite shake256_at_ok; try lia; try (rewrite zlen_splice; lia). 2:{ rewrite E0. now apply bytes_ok_slice. }
  rewrite E0. apply f_equal, splice_whole'. rewrite zlen_splice by lia. rewrite L0. symmetry. apply (sponge_bytes_len 136 0x1F); lia.
Qed.
Lemma keypair_same fuel pk sk seed pk' sk' seed' : 32 <= zlen seed -> 32 <= zlen seed' -> bytes_ok seed -> bytes_ok seed' ->
  Leak.same_rejections (slice seed 0 32) (slice seed' 0 32) ->
  trace (keypair_seed_l Zops loc fuel pk sk seed) = trace (keypair_seed_l Zops loc' fuel pk' sk' seed').
Proof.
  intros Ls Ls' Bs Bs' (ER & EA). unfold keypair_seed_l.
  pose proof (kseed_v seed (loc 128) (LOC 128 ltac:(lia)) Ls Bs) as V. pose proof (kseed_v seed' (loc' 128) (LOC' 128 ltac:(lia)) Ls' Bs') as V'. cbv zeta in V, V'.
  apply trace_split; [apply ct_for; intros; apply ct_bind; intros; reflexivity|]. apply trace_split; [apply ct_shake_at|]. rewrite V, V'. clear V V'. cbv zeta.
  set (sb := H (slice seed 0 32) 128) in *. set (sb' := H (slice seed' 0 32) 128) in *.
  assert (Lb: zlen sb = 128) by (apply (sponge_bytes_len 136 0x1F); lia). assert (Lb': zlen sb' = 128) by (apply (sponge_bytes_len 136 0x1F); lia). clearbody sb sb'.
  change (firstn 32 sb) with (lptr sb 0 32) in ER. change (firstn 32 sb') with (lptr sb' 0 32) in ER. rewrite <- ER. clear ER.
  change (firstn 64 (skipn 32 sb)) with (lptr sb 32 64) in EA. change (firstn 64 (skipn 32 sb')) with (lptr sb' 32 64) in EA.
  assert (Lr : zlen (lptr sb 0 32) = 32) by (apply zlen_slice; lia). assert (Lp : zlen (lptr sb 32 64) = 64) by (apply zlen_slice; lia). assert (Lp' : zlen (lptr sb' 32 64) = 64) by (apply zlen_slice; lia).
  set (rho := lptr sb 0 32) in *. set (rp := lptr sb 32 64) in *. set (rp' := lptr sb' 32 64) in *. set (ky := lptr sb 96 32). set (ky' := lptr sb' 96 32). clearbody rho rp rp' ky ky'.
  apply trace_split; [now apply ct_matrix_expand|]. rewrite (matrix_expand_v loc LOC), (matrix_expand_v loc' LOC') by assumption. destruct (matrix_expand fuel rho) as [mat|]; [|reflexivity].
  destruct (vec_eta_same fuel rp rp' 0 Lp Lp') as (T & N); [intros i Hi; apply EA; lia|]. apply trace_split; [exact T|]. clear T.
  destruct (value (vec_eta_l Zops loc fuel rp 0)) as [s1|], (value (vec_eta_l Zops loc' fuel rp' 0)) as [s1'|]; [clear N|exfalso; discriminate (proj2 N eq_refl)|exfalso; discriminate (proj1 N eq_refl)|reflexivity].
  destruct (vec_eta_same fuel rp rp' 4 Lp Lp') as (T & N); [intros i Hi; apply EA; lia|]. apply trace_split; [exact T|]. clear T.
  destruct (value (vec_eta_l Zops loc fuel rp 4)) as [s2|], (value (vec_eta_l Zops loc' fuel rp' 4)) as [s2'|]; [clear N|exfalso; discriminate (proj2 N eq_refl)|exfalso; discriminate (proj1 N eq_refl)|reflexivity].
  apply ct_bind; [apply ct_vntt|intros]. apply ct_bind; [apply ct_matrix|intros]. apply ct_bind; [apply ct_vreduce|intros]. apply ct_bind; [apply ct_vinvntt|intros].
  apply ct_bind; [apply ct_vadd|intros]. apply ct_bind; [apply ct_vcaddq|intros]. apply ct_bind; [apply ct_vpower2round|intros [t1 t0] [t1' t0']].
  apply ct_bind; [apply ct_pack_pk|intros]. apply ct_bind; [apply ct_shake_at|intros]. apply ct_bind; [apply ct_pack_sk|intros]. reflexivity.
Qed.
End Two.
