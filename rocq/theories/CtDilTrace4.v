(** Two runs of Dilithium signing whose attempts look alike have the same trace. *)
From Coq Require Import ZifyBool ZifyNat Setoid Morphisms.
From Verif Require Import Base Sponge SpongePure SpongeProofs SpongeProofs2 Tab DilReduce DilReduceProofs DilNtt DilNttProofs DilNttAlg DilPoly DilPolyProofs DilPack DilVec DilHint DilSign DilPacking DilSampleSpec DilSample DilEncSpec DilEncProofs DilVecProofs DilSpec DilSpecProofs DilSignProofs DilFips DilFipsProofs DilFipsProofs2 DilFipsProofs3
  DilBuf BufLemmas DilBufProofs DilBufSign CtDilSpec CtBase CtTweet CtTweetProofs CtKeccak CtKeccakProofs CtSpx CtSpxProofs CtSpxTrace CtDil CtDilProofs CtDilTrace CtDilTrace2 CtDilTrace3.
Local Open Scope Z_scope.
Ltac Zify.zify_post_hook ::= idtac.
#[local] Opaque Keccak.KeccakF1600_StatePermute.
Opaque fl il mont red32 cadd nttf inttf sumz Z.pow shake256_bytes shake128_bytes.
Import MLDSA.
#[local] Hint Resolve ct_shake ct_shake_at ct_ntt ct_invntt ct_vreduce ct_vcaddq ct_vadd ct_vsub ct_vntt ct_vinvntt ct_vpointwise ct_matrix ct_vpower2round ct_vdecompose ct_pack_w1 ct_pack_pk ct_pack_sk ct_unpack_sk : ct.

Lemma chk_some v B k : Leak.first (fun x => B <=? absv x) (concat v) = Some k -> value (vec_chknorm_l Zops v B) = true.
Proof.
  revert k. induction v as [|p v IH]; intros k H; cbn [concat] in H; [discriminate H|]. rewrite first_app in H. cbn [vec_chknorm_l]. rewrite !value_bind, value_if.
  destruct (value (poly_chknorm_l Zops p B)) eqn:E; [reflexivity|]. destruct (Leak.first _ p) as [j|] eqn:F.
  - exfalso. clear - E F. revert E. unfold poly_chknorm_l. rewrite value_if. destruct ((Q - 1) / 8 <? B); [discriminate|]. revert j F. generalize 0 as i.
    induction p as [|x p IHp]; intros i j F E; cbn [Leak.first] in F; [discriminate F|]. cbn [chknorm_l] in E. rewrite !value_bind in E. unfold lgeq in E. cbn [value snd reveal cst Zops un bi ev1 ev2] in E. fold (absv x) in E.
    destruct (B <=? absv x); [discriminate E|]. destruct (Leak.first _ p) as [l|]; [|discriminate F]. exact (IHp (i + 1) l eq_refl E).
  - destruct (Leak.first _ (concat v)) as [j|]; [|discriminate H]. exact (IH j eq_refl).
Qed.
Lemma same_true {A P} (g : A -> P) (x y x' y' : L A) : same g x x' -> same g (lif true x y) (lif true x' y').
Proof. intros (E1 & E2). destruct x, x'; unfold same, lif, trace, value in *; cbn [fst snd] in *; subst; auto. Qed.
Lemma vlen_map v : vlen v -> map (@length Z) v = [256; 256; 256; 256]%nat.
Proof.
  intros [L V]. destruct v as [|a [|b [|c [|d [|]]]]]; try discriminate L. pose proof (V 0%nat ltac:(lia)) as V0. pose proof (V 1%nat ltac:(lia)) as V1. pose proof (V 2%nat ltac:(lia)) as V2. pose proof (V 3%nat ltac:(lia)) as V3.
  cbn [nth] in V0, V1, V2, V3. unfold zlen in *. cbn [map]. repeat apply f_equal2; try reflexivity; lia.
Qed.
Lemma ct_pack_sig c z h c' z' : trace (pack_sig_l Zops c z h) = trace (pack_sig_l Zops c' z' h).
Proof. unfold pack_sig_l. apply ct_bind; [reflexivity|intros]. apply ct_bind; [apply ct_lvec; intros; apply ct_lgroup|intros]. apply ct_bind_same; [reflexivity|reflexivity|intros; reflexivity]. Qed.
Lemma fate_z z r t z' r' t' : Leak.fate_of z r t = Leak.fate_of z' r' t' -> Leak.first_big (gamma1 - beta) z = Leak.first_big (gamma1 - beta) z'.
Proof.
  unfold Leak.fate_of. destruct (Leak.first_big (gamma1 - beta) z), (Leak.first_big (gamma1 - beta) z'); try congruence;
    repeat match goal with |- context [match ?x with Some _ => _ | None => _ end] => destruct x end; discriminate.
Qed.
Lemma fate_r z r t z' r' t' : Leak.fate_of z r t = Leak.fate_of z' r' t' -> Leak.first_big (gamma1 - beta) z = None ->
  Leak.first_big (Spec.gamma2 - beta) (vmap Spec.LowBits r) = Leak.first_big (Spec.gamma2 - beta) (vmap Spec.LowBits r').
Proof.
  intros E N. pose proof (fate_z _ _ _ _ _ _ E) as N'. rewrite N in N'. symmetry in N'. unfold Leak.fate_of in E. rewrite N, N' in E. revert E. clear.
  destruct (Leak.first_big _ (vmap _ r)), (Leak.first_big _ (vmap _ r')); try congruence;
    repeat match goal with |- context [match ?x with Some _ => _ | None => _ end] => destruct x end; discriminate.
Qed.
Lemma fate_t z r t z' r' t' : Leak.fate_of z r t = Leak.fate_of z' r' t' -> Leak.first_big (gamma1 - beta) z = None -> Leak.first_big (Spec.gamma2 - beta) (vmap Spec.LowBits r) = None ->
  Leak.first_big Spec.gamma2 t = Leak.first_big Spec.gamma2 t' /\
  (Leak.first_big Spec.gamma2 t = None -> Leak.hint_cases (vmap Spec.HighBits r) (vadd r t) = Leak.hint_cases (vmap Spec.HighBits r') (vadd r' t')).
Proof.
  intros E N R. pose proof (fate_z _ _ _ _ _ _ E) as N'. pose proof (fate_r _ _ _ _ _ _ E N) as R'. rewrite N in N'. symmetry in N'. rewrite R in R'. symmetry in R'.
  unfold Leak.fate_of in E. rewrite N, N', R, R' in E. revert E. clear. generalize (Leak.hint_cases (vmap Spec.HighBits r) (vadd r t)) (Leak.hint_cases (vmap Spec.HighBits r') (vadd r' t')).
  generalize (Leak.first_big Spec.gamma2 t) (Leak.first_big Spec.gamma2 t'). intros x x' l l' E.
  destruct x, x'; try discriminate E; (split; [congruence|]); intros X; [discriminate X|]. now injection E.
Qed.
Lemma ct_commit loc loc' mat mu rhop nonce so mem mat' mu' rhop' mem' : zlen mu = zlen mu' -> zlen mem = zlen mem' -> 0 <= so -> so + 768 <= zlen mem ->
  trace (commit_l Zops loc mat mu rhop nonce so mem) = trace (commit_l Zops loc' mat' mu' rhop' nonce so mem').
Proof.
  intros Em E Hs Hm. unfold commit_l. apply trace_split; [apply ct_vec_gamma1|]. do 5 (apply trace_split; [solve [ct]|]). apply trace_split; [apply ct_vdecompose|].
  match goal with |- trace (match value ?x with _ => _ end) = trace (match value ?y with _ => _ end) => destruct (value x) as [w1 w0], (value y) as [w1' w0'] end.
  apply trace_split; [apply ct_pack_w1|]. cbv zeta. apply trace_split; [|reflexivity]. apply ct_pieces. cbn [map]. unfold lptr. rewrite Em. do 2 f_equal.
  assert (G : forall d s n, zlen (lput Zops d so s n) = zlen d).
  { intros d s n. unfold lput, lcopy. exact (writes_len (Z.to_nat n) (fun i => lrd Zops s (0 + i)) so 0 d). }
  rewrite !zlen_slice by (rewrite ?G; lia). reflexivity.
Qed.

Section Two.
Variables loc loc' : Z -> list Z.
Hypothesis LOC : forall n, 0 <= n -> zlen (loc n) = n.
Hypothesis LOC' : forall n, 0 <= n -> zlen (loc' n) = n.

Lemma attempt_same fuel mat A s1 s2 t0 s1h s2h t0h mu rhop nonce so mem s1' s2' t0' s1h' s2h' t0h' mu' rhop' mem' o :
  matb mat -> is_ntt A mat ->
  Enc.vec_in (-2) 2 s2 -> hats s1 s1h -> hats s2 s2h -> hats t0 t0h -> vb (8 * Q + 5) s1h -> vb (8 * Q + 5) s2h -> vb (8 * Q + 4096) t0h -> zlen rhop = 64 ->
  Enc.vec_in (-2) 2 s2' -> hats s1' s1h' -> hats s2' s2h' -> hats t0' t0h' -> vb (8 * Q + 5) s1h' -> vb (8 * Q + 5) s2h' -> vb (8 * Q + 4096) t0h' -> zlen rhop' = 64 ->
  zlen mu = zlen mu' -> 0 <= so -> so + 2420 <= zlen mem -> zlen mem = zlen mem' ->
  Leak.view A s1 s2 t0 mu rhop (4 * nonce) o -> Leak.view A s1' s2' t0' mu' rhop' (4 * nonce) o ->
  same (option_map fst) (sign_attempt_l Zops loc fuel mat s1h s2h t0h mu rhop nonce so mem) (sign_attempt_l Zops loc' fuel mat s1h' s2h' t0h' mu' rhop' nonce so mem').
Proof.
  intros HM HA I2 T1 T2 T0 B1 B2 B0 Lr I2' T1' T2' T0' B1' B2' B0' Lr' Lmu Hso Hmem Lmem VW VW'.
  pose proof (attempt_facts loc LOC mat A s1 s2 t0 s1h s2h t0h mu rhop nonce so mem HM HA I2 T1 T2 T0 B1 B2 B0 Lr Hso Hmem) as F.
  pose proof (attempt_facts loc' LOC' mat A s1' s2' t0' s1h' s2h' t0h' mu' rhop' nonce so mem' HM HA I2' T1' T2' T0' B1' B2' B0' Lr' Hso ltac:(lia)) as F'.
  unfold Leak.view in VW, VW'. cbv zeta in F, F', VW, VW'.
  destruct VW as (cp & Bcp & EO). destruct VW' as (cp' & Bcp' & EO').
  set (y := expand_mask rhop (4 * nonce)) in *. set (W := matvec A y) in *. set (c := H (mu ++ w1_encode (vmap Spec.HighBits W)) 32) in *.
  set (y' := expand_mask rhop' (4 * nonce)) in *. set (W' := matvec A y') in *. set (c' := H (mu' ++ w1_encode (vmap Spec.HighBits W')) 32) in *.
  rewrite EO in EO'. apply pair_equal_spec in EO' as [Ec Ef]. clear EO o.
  destruct F as (yy & w1 & w0 & m1 & EV & ES & Lc & V1 & F). destruct F' as (yy' & w1' & w0' & m1' & EV' & ES' & Lc' & V1' & F').
  unfold sign_attempt_l. apply same_split; [apply ct_commit; lia|]. rewrite EV, EV'. cbv beta iota. unfold lptr. rewrite ES, ES'. clear EV EV'. clearbody y W y' W'. rewrite <- Ec in *. clear Ec. clearbody c c'. clear c'.
  apply same_split; [now apply ct_challenge|]. rewrite (challenge_v loc LOC) by lia. rewrite (challenge_v loc' LOC') by lia.
  destruct (poly_challenge fuel c) as [cq|] eqn:EC; [|split; reflexivity]. specialize (F fuel cq EC). specialize (F' fuel cq EC). cbv zeta in F, F'.
  destruct F as (Bq & Fz & Fr & Ft & Fh). destruct F' as (_ & Fz' & Fr' & Ft' & Fh').
  assert (cp = cq) as -> by (eapply ball_unique; eassumption). assert (cp' = cq) as -> by (eapply ball_unique; eassumption). clear EC Bcp Bcp' Bq.
  apply same_split; [apply ct_ntt|]. set (ch := value (poly_ntt_l Zops cq)) in *. clearbody ch.
  apply same_split; [apply ct_response|]. destruct Fz as (Vz & Fz). destruct Fz' as (Vz' & Fz').
  set (z := value (response_l Zops ch s1h yy)) in *. set (z' := value (response_l Zops ch s1h' yy')) in *. clearbody z z'.
  rewrite (vec_chknorm_same (GAMMA1 - BETA) z z'); [|rewrite !vlen_map by assumption; reflexivity|rewrite Fz, Fz'; exact (fate_z _ _ _ _ _ _ Ef)].
  apply same_split; [reflexivity|].
  destruct (Leak.first_big (gamma1 - beta) (vadd y (cmul cq s1))) as [k|] eqn:Nz.
  { rewrite (fate_z _ _ _ _ _ _ Ef) in Nz. rewrite Nz in Fz'. rewrite (chk_some _ _ _ Fz'). apply same_true. split; reflexivity. }
  apply same_lif; [split; reflexivity|]. clear Fz Fz'.
  apply same_split; [apply ct_lowpart|]. destruct Fr as (Vr & Fr). destruct Fr' as (Vr' & Fr').
  set (v2 := value (lowpart_l Zops ch s2h w0)) in *. set (v2' := value (lowpart_l Zops ch s2h' w0')) in *. clearbody v2 v2'.
  rewrite (vec_chknorm_same (GAMMA2 - BETA) v2 v2'); [|rewrite !vlen_map by assumption; reflexivity|rewrite Fr, Fr'; exact (fate_r _ _ _ _ _ _ Ef Nz)].
  apply same_split; [reflexivity|].
  destruct (Leak.first_big (Spec.gamma2 - beta) (vmap Spec.LowBits (vsub W (cmul cq s2)))) as [k|] eqn:Nr.
  { rewrite (fate_r _ _ _ _ _ _ Ef Nz) in Nr. rewrite Nr in Fr'. rewrite (chk_some _ _ _ Fr'). apply same_true. split; reflexivity. }
  apply same_lif; [split; reflexivity|]. destruct (fate_t _ _ _ _ _ _ Ef Nz Nr) as (Et & Eh). pose proof (fate_r _ _ _ _ _ _ Ef Nz) as Nr'. rewrite Nr in Nr'. symmetry in Nr'. clear Fr Fr' Ef.
  apply same_split; [apply ct_hintpart|]. destruct Ft as (Vt & Ft). destruct Ft' as (Vt' & Ft').
  set (g := value (hintpart_l Zops ch t0h)) in *. set (g' := value (hintpart_l Zops ch t0h')) in *. clearbody g g'.
  rewrite (vec_chknorm_same GAMMA2 g g'); [|rewrite !vlen_map by assumption; reflexivity|rewrite Ft, Ft'; exact Et].
  apply same_split; [reflexivity|].
  destruct (Leak.first_big Spec.gamma2 (cmul cq t0)) as [k|] eqn:Nt.
  { rewrite <- Et in Ft'. rewrite (chk_some _ _ _ Ft'). apply same_true. split; reflexivity. }
  apply same_lif; [split; reflexivity|]. symmetry in Et. destruct (Fh eq_refl eq_refl) as (Va & Fh1). destruct (Fh' Nr' Et) as (Va' & Fh1'). specialize (Eh eq_refl). clear Fh Fh' Ft Ft'.
  apply same_split; [apply ct_vadd|]. set (a := value (vec_add_l Zops v2 g)) in *. set (a' := value (vec_add_l Zops v2' g')) in *. clearbody a a'.
  rewrite (vec_make_hint_same a w1 a' w1'); try assumption.
  2:{ intros r i Hr Hi. rewrite (Fh1 r i Hr Hi), (Fh1' r i Hr Hi). rewrite <- !hint_cases_at by assumption. now rewrite Eh. }
  apply same_split; [reflexivity|]. destruct (value (vec_make_hint_l Zops a' w1')) as [h n]. apply same_split; [reflexivity|].
  destruct (value (lless Zops _ n)); [split; reflexivity|]. apply same_split; [apply ct_pack_sig|]. split; reflexivity.
Qed.
End Two.

(** ** The loop *)
Lemma u16_next k : u16 (k mod 65536 + 1) = (k + 1) mod 65536.
Proof. unfold u16. change (2 ^ 16) with 65536. now rewrite Z.add_mod_idemp_l by lia. Qed.
Lemma loop_same (att att' : Z -> list Z -> L (option (bool * list Z))) M n :
  (forall k mem mem', 0 <= k < n -> zlen mem = M -> zlen mem' = M ->
     same (option_map fst) (att (k mod 65536) mem) (att' (k mod 65536) mem') /\
     (forall d m, value (att (k mod 65536) mem) = Some (d, m) -> zlen m = M /\ (k = n - 1 -> d = true)) /\
     (forall d m, value (att' (k mod 65536) mem') = Some (d, m) -> zlen m = M)) ->
  forall fuel k mem mem', 0 <= k < n -> zlen mem = M -> zlen mem' = M ->
  trace (rej_loop_l att fuel (k mod 65536) mem) = trace (rej_loop_l att' fuel (k mod 65536) mem').
Proof.
  intros K. induction fuel as [|fuel IH]; intros k mem mem' Hk L1 L2; cbn [rej_loop_l]; [reflexivity|].
  destruct (K k mem mem' Hk L1 L2) as ((T & E) & P & P'). apply trace_split; [exact T|].
  destruct (value (att (k mod 65536) mem)) as [[d m]|], (value (att' (k mod 65536) mem')) as [[d' m']|]; try discriminate E; [|reflexivity].
  cbn [option_map fst] in E. injection E as <-. destruct (P d m eq_refl) as (L3 & D). specialize (P' d m' eq_refl). destruct d; [reflexivity|].
  rewrite u16_next. apply IH; try assumption. destruct (Z.eq_dec k (n - 1)) as [H|H]; [discriminate (D H)|lia].
Qed.

(** ** One run: the seed buffer, the length of the memory, the last attempt *)
Lemma sb_facts sb0 rho K tr mem mo mlen : zlen sb0 = 288 -> zlen rho = 32 -> zlen K = 32 -> bytes_ok K -> zlen tr = 64 -> 0 <= mo -> 0 <= mlen -> mo + mlen <= zlen mem ->
  let sb3 := lput Zops (lput Zops (lput Zops sb0 0 rho 32) 96 K 32) 32 tr 64 in
  let sb4 := value (shake256_pieces_l Zops sb3 160 64 [lptr sb3 32 64; lptr mem mo mlen]) in
  let sb5 := value (lfor 32 (fun n sb => lwr sb (128 + n) (cst Zops 0)) sb4) in
  let sb6 := value (shake256_at_l Zops sb5 224 64 sb5 96 128) in
  let mu := H (tr ++ slice mem mo mlen) 64 in
  zlen (lptr sb3 32 64) = 64 /\ lptr sb6 0 32 = rho /\ lptr sb6 160 64 = mu /\ lptr sb6 224 64 = H (K ++ repeat 0 32 ++ mu) 64.
Proof.
  intros L0 Lrho Lkey Bkey Ltr Hmo Hml Hmm. unfold lptr.
  rewrite (lput_splice sb0 0 rho 32) by lia. set (sb1 := splice sb0 0 rho). assert (S1: zlen sb1 = 288) by (unfold sb1; rewrite zlen_splice; lia).
  rewrite (lput_splice sb1 96 K 32) by lia. set (sb2 := splice sb1 96 K). assert (S2: zlen sb2 = 288) by (unfold sb2; rewrite zlen_splice; lia).
  rewrite (lput_splice sb2 32 tr 64) by lia. set (sb3 := splice sb2 32 tr). assert (S3: zlen sb3 = 288) by (unfold sb3; rewrite zlen_splice; lia).
  replace (slice sb3 32 64) with tr by (symmetry; rewrite <- Ltr; apply slice_splice; lia).
  set (mu := H (tr ++ slice mem mo mlen) 64).
  assert (Lmu: zlen mu = 64) by (apply (sponge_bytes_len 136 0x1F); lia). assert (Bmu: bytes_ok mu) by (apply (sponge_bytes_ok 136 0x1F); lia).
  assert (E4 : value (shake256_pieces_l Zops sb3 160 64 [tr; slice mem mo mlen]) = splice sb3 160 mu).
  { apply era_shake256_pieces. rewrite shake256_pieces_ok by lia. cbn [concat]. now rewrite app_nil_r. }
  rewrite E4. cbv zeta. clear E4. set (sb4 := splice sb3 160 mu). assert (S4: zlen sb4 = 288) by (unfold sb4; rewrite zlen_splice; lia).
  assert (Lz: zlen (zeros 32) = 32) by reflexivity.
  assert (E5 : value (lfor 32 (fun n sb => lwr sb (128 + n) (cst Zops 0)) sb4) = splice sb4 128 (zeros 32)).
  { refine ((_ : era _ _) _ (zero_loop sb4 S4)). repeat ds. }
  rewrite E5. clear E5. set (sb5 := splice sb4 128 (zeros 32)). assert (S5: zlen sb5 = 288) by (unfold sb5; rewrite zlen_splice; lia).
  assert (Ein: slice sb5 96 128 = K ++ zeros 32 ++ mu).
  { rewrite (slice_split sb5 96 128 32) by lia. f_equal.
    - unfold sb5. rewrite slice_splice_before by lia. unfold sb4. rewrite slice_splice_before by lia. unfold sb3. rewrite slice_splice_after by lia. rewrite <- Lkey. apply slice_splice; lia.
    - change (96 + 32) with 128. change (128 - 32) with 96. rewrite (slice_split sb5 128 96 32) by lia. f_equal.
      + rewrite <- Lz at 1. apply slice_splice; lia.
      + change (128 + 32) with 160. change (96 - 32) with 64. unfold sb5. rewrite slice_splice_after by lia. rewrite <- Lmu at 1. apply slice_splice; lia. }
  assert (E6 : value (shake256_at_l Zops sb5 224 64 sb5 96 128) = splice sb5 224 (H (K ++ zeros 32 ++ mu) 64)).
  { apply era_shake256_at. rewrite shake256_at_ok; try lia; [now rewrite Ein|]. rewrite Ein, !bytes_ok_app. split; [exact Bkey|]. split; [apply bytes_ok_zeros|exact Bmu]. }
  rewrite E6. clear E6. change (repeat 0 32) with (zeros 32). set (rhop := H (K ++ zeros 32 ++ mu) 64).
  assert (Lrp: zlen rhop = 64) by (apply (sponge_bytes_len 136 0x1F); lia). clearbody rhop mu.
  set (sb6 := splice sb5 224 rhop). assert (S6: zlen sb6 = 288) by (unfold sb6; rewrite zlen_splice; lia).
  split; [exact Ltr|]. split; [|split].
  - unfold sb6. rewrite slice_splice_before by lia. unfold sb5. rewrite slice_splice_before by lia. unfold sb4. rewrite slice_splice_before by lia.
    unfold sb3. rewrite slice_splice_before by lia. unfold sb2. rewrite slice_splice_before by lia. rewrite <- Lrho. apply slice_splice; lia.
  - unfold sb6. rewrite slice_splice_before by lia. unfold sb5. rewrite slice_splice_after by lia. rewrite <- Lmu. apply slice_splice; lia.
  - unfold sb6. rewrite <- Lrp at 1. apply slice_splice; lia.
Qed.
Lemma attempt_run loc fuel mat A s1 s2 t0 s1h s2h t0h mu rhop nonce so mem d m : (forall n, 0 <= n -> zlen (loc n) = n) -> matb mat -> is_ntt A mat ->
  Enc.vec_in (-2) 2 s2 -> hats s1 s1h -> hats s2 s2h -> hats t0 t0h -> vb (8 * Q + 5) s1h -> vb (8 * Q + 5) s2h -> vb (8 * Q + 4096) t0h -> zlen rhop = 64 ->
  0 <= so -> so + 2420 <= zlen mem ->
  value (sign_attempt_l Zops loc fuel mat s1h s2h t0h mu rhop nonce so mem) = Some (d, m) ->
  zlen m = zlen mem /\ (forall sig, attempt A s1 s2 t0 mu rhop (4 * nonce) (Some sig) -> d = true).
Proof.
  intros LOC HM HA I2 T1 T2 T0 B1 B2 B0 Lr Hso Hmem EV.
  destruct (attempt_c_ok fuel mat s1h s2h t0h mu rhop nonce so mem HM B1 B2 B0 Hso Hmem) as (r & mem' & E & EC & O & HL).
  rewrite (era_attempt loc LOC fuel mat s1h s2h t0h mu rhop nonce so mem Lr _ EC) in EV.
  pose proof (attempt_exact fuel mat A s1 s2 t0 s1h s2h t0h mu rhop nonce HM HA I2 T1 T2 T0 B1 B2 B0) as X. cbv zeta in X.
  destruct (poly_challenge fuel _) as [cp|]; [|rewrite X in E; apply Ret_inj in E; subst r; discriminate EV].
  destruct X as (res & EX & HX). rewrite EX in E. apply Ret_inj in E. subst r. destruct res as [sig|]; cbn [attempt_result] in EV; injection EV as <- <-.
  - split; [|reflexivity]. specialize (HL sig eq_refl). apply zlen_splice; lia.
  - split; [now apply (outside_len so)|]. intros sig HS. discriminate (attempt_fun _ _ _ _ _ _ _ _ _ HX HS).
Qed.
Lemma view_mod A s1 s2 t0 mu rhop n o : Leak.view A s1 s2 t0 mu rhop (4 * n) o -> Leak.view A s1 s2 t0 mu rhop (4 * (n mod 65536)) o.
Proof. unfold Leak.view. now rewrite mask_mod. Qed.
Lemma ntt_run s lo hi B : Enc.vec_in lo hi s -> - B <= lo -> hi <= B -> 0 < B <= 4096 -> exists sh, value (vec_ntt_l Zops s) = sh /\ hats s sh /\ vb (8 * Q + B) sh.
Proof.
  intros [L I] Hlo Hhi HB. destruct (vec_ntt_ok s B (vb_of_in _ _ B _ L I ltac:(lia) ltac:(lia))) as (sh & E & B1 & S1); [lia|unfold Q; lia|].
  exists sh. split; [now apply era_vntt|]. split; [exact S1|]. eapply vb_le; [|exact B1]; lia.
Qed.

(** ** sign.c L108-211 *)
Section Two.
Variables loc loc' : Z -> list Z.
Hypothesis LOC : forall n, 0 <= n -> zlen (loc n) = n.
Hypothesis LOC' : forall n, 0 <= n -> zlen (loc' n) = n.

Lemma sign_signature_same fuel mem so mo mlen sk mem' sk' sig sig' l :
  zlen mem = zlen mem' -> 0 <= so -> so + 2420 <= zlen mem -> 0 <= mo -> 0 <= mlen -> mo + mlen <= zlen mem ->
  slice sk 0 32 = slice sk' 0 32 ->
  Leak.history (slice sk 0 2560) (slice mem mo mlen) sig l -> Leak.history (slice sk' 0 2560) (slice mem' mo mlen) sig' l ->
  trace (sign_signature_l Zops loc fuel mem so mo mlen sk) = trace (sign_signature_l Zops loc' fuel mem' so mo mlen sk').
Proof.
  intros Lm Hso Hmem Hmo Hml Hmm Erho HH HH'.
  destruct HH as (rho & K & tr & s1 & s2 & t0 & HF & Esk & A & EA & HV & _ & Hl & HS).
  destruct HH' as (rho' & K' & tr' & s1' & s2' & t0' & HF' & Esk' & A' & EA' & HV' & _ & _ & _).
  pose proof (fields_unpack _ _ _ _ _ _ HF) as EU. pose proof (fields_unpack _ _ _ _ _ _ HF') as EU'. rewrite <- Esk in EU. rewrite <- Esk' in EU'.
  assert (rho' = rho).
  { assert (Fst : forall l rho tr K t0 s1 s2, unpack_sk (slice l 0 2560) = (rho, tr, K, t0, s1, s2) -> rho = slice l 0 32).
    { clear. intros l rho tr K t0 s1 s2 E. unfold unpack_sk in E. do 5 apply pair_equal_spec, proj1 in E. rewrite <- E. rewrite slice_slice by lia. reflexivity. }
    rewrite (Fst _ _ _ _ _ _ _ EU), (Fst _ _ _ _ _ _ _ EU'). now symmetry. }
  subst rho'. pose proof (expand_A_unique _ _ _ EA EA') as <-.
  destruct HF as ([Lrho _] & [LK BK] & [Ltr _] & I1 & I2 & I0). destruct HF' as (_ & [LK' BK'] & [Ltr' _] & I1' & I2' & I0').
  pose proof (sb_facts (loc 288) rho K tr mem mo mlen (LOC 288 ltac:(lia)) Lrho LK BK Ltr Hmo Hml Hmm) as SB.
  pose proof (sb_facts (loc' 288) rho K' tr' mem' mo mlen (LOC' 288 ltac:(lia)) Lrho LK' BK' Ltr' Hmo Hml ltac:(lia)) as SB'. cbv zeta in SB, SB'.
  destruct SB as (Lt & Sr & Sm & Sp). destruct SB' as (Lt' & Sr' & Sm' & Sp').
  set (mu := H (tr ++ slice mem mo mlen) 64) in *. set (mu' := H (tr' ++ slice mem' mo mlen) 64) in *.
  assert (Lmu: zlen mu = 64) by (apply (sponge_bytes_len 136 0x1F); lia). assert (Lmu': zlen mu' = 64) by (apply (sponge_bytes_len 136 0x1F); lia).
  set (rhop := H (K ++ repeat 0 32 ++ mu) 64) in *. set (rhop' := H (K' ++ repeat 0 32 ++ mu') 64) in *.
  assert (Lrp: zlen rhop = 64) by (apply (sponge_bytes_len 136 0x1F); lia). assert (Lrp': zlen rhop' = 64) by (apply (sponge_bytes_len 136 0x1F); lia).
  unfold sign_signature_l. apply trace_split; [apply ct_unpack_sk|]. rewrite !unpack_sk_v. change (lptr sk 0 2560) with (slice sk 0 2560). change (lptr sk' 0 2560) with (slice sk' 0 2560). rewrite EU, EU'. cbv zeta.
  apply trace_split; [apply ct_pieces; cbn [map]; rewrite Lt, Lt'; unfold lptr; rewrite !zlen_slice by lia; reflexivity|].
  apply trace_split; [reflexivity|]. apply trace_split; [apply ct_shake_at|]. rewrite Sr, Sr', Sm, Sm', Sp, Sp'. clear Sr Sr' Sm Sm' Sp Sp' Lt Lt'.
  apply trace_split; [now apply ct_matrix_expand|]. rewrite (matrix_expand_v loc LOC), (matrix_expand_v loc' LOC') by assumption.
  destruct (matrix_expand fuel rho) as [mat|] eqn:EM; [|reflexivity]. pose proof (matrix_expand_in _ _ _ EM) as HM.
  destruct (expand_A_sound _ _ _ EM) as (A2 & EA2 & HA). pose proof (expand_A_unique _ _ _ EA EA2) as <-.
  destruct (ntt_run s1 (-2) 2 5 I1) as (s1h & E1 & T1 & B1); [lia|lia|lia|]. destruct (ntt_run s2 (-2) 2 5 I2) as (s2h & E2 & T2 & B2); [lia|lia|lia|]. destruct (ntt_run t0 (-4095) 4096 4096 I0) as (t0h & E0 & T0 & B0); [lia|lia|lia|].
  destruct (ntt_run s1' (-2) 2 5 I1') as (s1h' & E1' & T1' & B1'); [lia|lia|lia|]. destruct (ntt_run s2' (-2) 2 5 I2') as (s2h' & E2' & T2' & B2'); [lia|lia|lia|]. destruct (ntt_run t0' (-4095) 4096 4096 I0') as (t0h' & E0' & T0' & B0'); [lia|lia|lia|].
  do 3 (apply trace_split; [apply ct_vntt|]). rewrite E1, E2, E0, E1', E2', E0'. clear E1 E2 E0 E1' E2' E0'.
  clearbody rhop rhop' mu mu'.
  apply ct_bind; [|intros [?|] [?|]; reflexivity].
  assert (Len : (0 < length l)%nat) by (destruct l; [congruence|cbn [length]; lia]).
  assert (EQ : Z.of_nat (length l - 1) = Z.of_nat (length l) - 1) by lia. rewrite EQ in HS. clear EQ.
  refine (loop_same (fun nonce => sign_attempt_l Zops loc fuel mat s1h s2h t0h mu rhop nonce so) (fun nonce => sign_attempt_l Zops loc' fuel mat s1h' s2h' t0h' mu' rhop' nonce so) (zlen mem) (Z.of_nat (length l)) _ fuel 0 mem mem' _ _ _); try lia.
  intros k m m' Hk Lk Lk'.
  assert (NE : exists o, nth_error l (Z.to_nat k) = Some o).
  { destruct (nth_error l (Z.to_nat k)) as [o|] eqn:E; [now exists o|]. apply nth_error_None in E. lia. }
  destruct NE as (o & Eo). pose proof (HV _ _ Eo) as V. pose proof (HV' _ _ Eo) as V'. rewrite Z2Nat.id in V, V' by lia. apply view_mod in V, V'.
  split; [|split].
  - apply (attempt_same loc loc' LOC LOC' fuel mat A s1 s2 t0 s1h s2h t0h mu rhop _ so m s1' s2' t0' s1h' s2h' t0h' mu' rhop' m' o); try assumption; lia.
  - intros d x Ev. destruct (attempt_run loc fuel mat A s1 s2 t0 s1h s2h t0h mu rhop (k mod 65536) so m d x LOC HM HA I2 T1 T2 T0 B1 B2 B0 Lrp Hso ltac:(lia) Ev) as (P & D).
    split; [rewrite P; exact Lk|]. intros ->. apply (D sig). apply (proj2 (attempt_mod A s1 s2 t0 mu rhop (Z.of_nat (length l) - 1) (Some sig))). exact HS.
  - intros d x Ev. destruct (attempt_run loc' fuel mat A s1' s2' t0' s1h' s2h' t0h' mu' rhop' (k mod 65536) so m' d x LOC' HM HA I2' T1' T2' T0' B1' B2' B0' Lrp' Hso ltac:(lia) Ev) as (P & D). rewrite P; exact Lk'.
Qed.

(** ** sign.c L229-242 *)
Lemma crypto_sign_same fuel mem so mo mlen sk mem' sk' sig sig' l :
  zlen mem = zlen mem' -> 0 <= so -> 0 <= mlen -> so + 2420 + mlen <= zlen mem -> 0 <= mo -> mo + mlen <= zlen mem ->
  mo <= so + 2420 \/ so + 2420 + mlen <= mo ->
  slice sk 0 32 = slice sk' 0 32 ->
  Leak.history (slice sk 0 2560) (slice mem mo mlen) sig l -> Leak.history (slice sk' 0 2560) (slice mem' mo mlen) sig' l ->
  trace (crypto_sign_l Zops loc fuel mem so mo mlen sk) = trace (crypto_sign_l Zops loc' fuel mem' so mo mlen sk').
Proof.
  intros Lm Hso Hml Hmem Hmo Hmm Hov Erho HH HH'.
  assert (MV : forall mem, so + 2420 + mlen <= zlen mem -> mo + mlen <= zlen mem ->
    value (lfor mlen (fun i mem => b <~ lrd Zops mem (mo + (mlen - 1 - i)) ;;; lwr mem (so + (2420 + mlen - 1 - i)) b) mem) = splice mem (so + 2420) (slice mem mo mlen)).
  { clear - Hso Hml Hmo Hov. intros mem Hmem Hmm.
    refine ((_ : era (for_loop mlen (fun i mem => b <- rd 0 mem (mo + (mlen - 1 - i)) ;; wr mem (so + (2420 + mlen - 1 - i)) b) mem) _) _ _); [repeat ds|].
    rewrite (for_loop_ext mlen _ (fun i mem => b <- rd 0 mem (mo + (mlen - 1 - i)) ;; wr mem ((so + 2420) + (mlen - 1 - i)) b)).
    2:{ intros i s. replace (so + (2420 + mlen - 1 - i)) with (so + 2420 + (mlen - 1 - i)) by lia. reflexivity. }
    now rewrite move_down_ok by lia. }
  unfold crypto_sign_l. apply trace_split; [apply ct_for; intros; apply ct_bind; intros; reflexivity|].
  rewrite !MV by lia. apply ct_bind; [|intros [[[? ?] ?]|] [[[? ?] ?]|]; reflexivity].
  assert (G : forall mem, so + 2420 + mlen <= zlen mem -> mo + mlen <= zlen mem -> zlen (splice mem (so + 2420) (slice mem mo mlen)) = zlen mem /\ slice (splice mem (so + 2420) (slice mem mo mlen)) (so + 2420) mlen = slice mem mo mlen).
  { clear - Hso Hml Hmo. intros mem Hmem Hmm. assert (Ls : zlen (slice mem mo mlen) = mlen) by (apply zlen_slice; lia). split; [apply zlen_splice; lia|]. rewrite <- Ls at 2. apply slice_splice; lia. }
  destruct (G mem Hmem Hmm) as (G1 & G2). destruct (G mem' ltac:(lia) ltac:(lia)) as (G1' & G2').
  apply sign_signature_same with (sig := sig) (sig' := sig') (l := l); rewrite ?G1, ?G1', ?G2, ?G2'; try assumption; lia.
Qed.
End Two.
