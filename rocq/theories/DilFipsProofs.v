(** The model of dilithium2/sign.c meets the specification of DilFips.v. *)
From Coq Require Import Setoid Morphisms.
From Verif Require Import Base SpongePure SpongeProofs SpongeProofs2 Tab DilReduce DilReduceProofs DilNtt DilNttProofs DilNttAlg DilPoly DilPolyProofs DilPack DilVec DilHint DilSign DilPacking DilSampleSpec DilSample DilEncSpec DilEncProofs DilVecProofs DilSpec DilSpecProofs DilSignProofs DilFips.
Ltac Zify.zify_post_hook ::= idtac.
Opaque fl il mont red32 cadd nttf inttf sumz Z.pow shake256_bytes shake128_bytes.
Import MLDSA.

(** ** Tables *)
Lemma poly_length f : length (mkpoly f) = 256%nat.
Proof. unfold mkpoly. now rewrite map_length, seq_length. Qed.
Lemma ix_poly f i : 0 <= i < 256 -> ix (mkpoly f) i = f (Z.to_nat i).
Proof.
  intros Hi. unfold ix, mkpoly. rewrite (nth_indep _ 0 (f 0%nat)) by (rewrite map_length, seq_length; lia). rewrite map_nth, seq_nth by lia. reflexivity.
Qed.
Lemma nth_vec f r : (r < 4)%nat -> nth r (mkvec f) [] = f r.
Proof. intros Hr. destruct r as [|[|[|[|]]]]; try reflexivity; lia. Qed.
Lemma coef_cf v r i : (i < 256)%nat -> coef v r i = cf v r (Z.of_nat i).
Proof. intros Hi. unfold coef, cf, ix. now rewrite Nat2Z.id. Qed.
Lemma vlen_vec f : (forall r, (r < 4)%nat -> length (f r) = 256%nat) -> vlen (mkvec f).
Proof. intros H. split; [reflexivity|]. intros r Hr. rewrite nth_vec by exact Hr. unfold zlen. rewrite H by exact Hr. reflexivity. Qed.
Lemma vlen_vmap f v : vlen (vmap f v). Proof. apply vlen_vec. intros. apply poly_length. Qed.
Lemma vlen_vmap2 f u v : vlen (vmap2 f u v). Proof. apply vlen_vec. intros. apply poly_length. Qed.
Lemma vlen_cmul f v : vlen (cmul f v). Proof. apply vlen_vec. intros. apply poly_length. Qed.
Lemma vlen_matvec f v : vlen (matvec f v). Proof. apply vlen_vec. intros. apply poly_length. Qed.
Lemma cf_vmap f v r i : (r < 4)%nat -> 0 <= i < 256 -> cf (vmap f v) r i = f (cf v r i).
Proof. intros Hr Hi. unfold cf at 1, vmap. rewrite nth_vec, ix_poly by assumption. reflexivity. Qed.
Lemma cf_vmap2 f u v r i : (r < 4)%nat -> 0 <= i < 256 -> cf (vmap2 f u v) r i = f (cf u r i) (cf v r i).
Proof. intros Hr Hi. unfold cf at 1, vmap2. rewrite nth_vec, ix_poly by assumption. reflexivity. Qed.
Lemma cf_cmul c v r i : (r < 4)%nat -> 0 <= i < 256 -> cf (cmul c v) r i = negmul (ix c) (cf v r) i.
Proof. intros Hr Hi. unfold cf at 1, cmul. rewrite nth_vec, ix_poly by assumption. now apply spec_negacyclic. Qed.
Lemma cf_matvec A v r i : (r < 4)%nat -> 0 <= i < 256 -> cf (matvec A v) r i =
  negmul (cf (nth r A []) 0) (cf v 0) i + negmul (cf (nth r A []) 1) (cf v 1) i + negmul (cf (nth r A []) 2) (cf v 2) i + negmul (cf (nth r A []) 3) (cf v 3) i.
Proof.
  intros Hr Hi. unfold cf at 1, matvec. rewrite nth_vec, ix_poly by assumption. cbn [Spec.sum]. rewrite !spec_negacyclic by exact Hi. unfold cf. ring.
Qed.
Lemma vmap_ext f g v : (forall r i, (r < 4)%nat -> 0 <= i < 256 -> f (cf v r i) = g (cf v r i)) -> vmap f v = vmap g v.
Proof. intros H. apply vec_ext; try apply vlen_vmap. intros r Hr i Hi. rewrite !cf_vmap by assumption. now apply H. Qed.
(** a vector is determined by its coefficients *)
Lemma vec_is_vmap f u v : vlen u -> (forall r i, (r < 4)%nat -> 0 <= i < 256 -> cf u r i = f (cf v r i)) -> u = vmap f v.
Proof. intros V H. apply vec_ext; [exact V|apply vlen_vmap|]. intros r Hr i Hi. rewrite cf_vmap by assumption. now apply H. Qed.
Lemma vec_is_vmap2 f u v w : vlen u -> (forall r i, (r < 4)%nat -> 0 <= i < 256 -> cf u r i = f (cf v r i) (cf w r i)) -> u = vmap2 f v w.
Proof. intros V H. apply vec_ext; [exact V|apply vlen_vmap2|]. intros r Hr i Hi. rewrite cf_vmap2 by assumption. now apply H. Qed.
Lemma norm_lt_cf B v : norm_lt B v <-> forall r, (r < 4)%nat -> forall i, 0 <= i < 256 -> Z.abs (Spec.mods (cf v r i) Q) < B.
Proof.
  unfold norm_lt. change Spec.q with Q. split; intros H r.
  - intros Hr i Hi. specialize (H r (Z.to_nat i) Hr ltac:(lia)). rewrite coef_cf in H by lia. now rewrite Z2Nat.id in H by lia.
  - intros i Hr Hi. rewrite coef_cf by lia. apply H; lia.
Qed.

(** ** Transform of a product *)
Lemma ntt_negmul a b : eqf (nttf (negmul a b)) (fun i => nttf a i * nttf b i).
Proof.
  intros i Hi. destruct (ntt_eval (negmul a b) i Hi) as [E W]. destruct (ntt_eval a i Hi) as [Ea _]. destruct (ntt_eval b i Hi) as [Eb _].
  rewrite E, Ea, Eb. now apply negmul_eval.
Qed.
Lemma ntt_cmul c v r : (r < 4)%nat -> eqf (nttf (cf (cmul c v) r)) (fun i => nttf (ix c) i * nttf (cf v r) i).
Proof.
  intros Hr. eapply eqf_trans; [|apply ntt_negmul]. apply ntt_ext. intros i Hi. rewrite cf_cmul by assumption. reflexivity.
Qed.
Lemma ntt_add f g h : eqf f (fun i => g i + h i) -> eqf (nttf f) (fun i => nttf g i + nttf h i).
Proof.
  intros H. assert (H': eqf f (fun i => g i + 1 * h i)) by (intros i Hi; rewrite (H i Hi); apply eq_eqm; ring).
  intros i Hi. rewrite (ntt_lin f g h 1 H' i Hi). apply eq_eqm. ring.
Qed.
Lemma ntt_sub f g h : eqf f (fun i => g i - h i) -> eqf (nttf f) (fun i => nttf g i - nttf h i).
Proof.
  intros H. assert (H': eqf f (fun i => g i + (-1) * h i)) by (intros i Hi; rewrite (H i Hi); apply eq_eqm; ring).
  intros i Hi. rewrite (ntt_lin f g h (-1) H' i Hi). apply eq_eqm. ring.
Qed.
Lemma ntt_matvec A v r : (r < 4)%nat -> eqf (nttf (cf (matvec A v) r))
  (fun i => nttf (cf (nth r A []) 0) i * nttf (cf v 0) i + nttf (cf (nth r A []) 1) i * nttf (cf v 1) i + nttf (cf (nth r A []) 2) i * nttf (cf v 2) i + nttf (cf (nth r A []) 3) i * nttf (cf v 3) i).
Proof.
  intros Hr. set (a := fun c => cf (nth r A []) c). set (m := fun c => negmul (a c) (cf v c)).
  assert (E: eqf (nttf (cf (matvec A v) r)) (nttf (fun i => m 0%nat i + m 1%nat i + m 2%nat i + m 3%nat i))).
  { apply ntt_ext. intros i Hi. rewrite cf_matvec by assumption. reflexivity. }
  intros i Hi. rewrite (E i Hi).
  rewrite (ntt_add _ (fun i => m 0%nat i + m 1%nat i + m 2%nat i) (m 3%nat) (eqf_refl _) i Hi).
  rewrite (ntt_add _ (fun i => m 0%nat i + m 1%nat i) (m 2%nat) (eqf_refl _) i Hi).
  rewrite (ntt_add _ (m 0%nat) (m 1%nat) (eqf_refl _) i Hi).
  assert (M: forall c, nttf (m c) i == nttf (a c) i * nttf (cf v c) i) by (intros c; apply (ntt_negmul (a c) (cf v c) i Hi)).
  rewrite (M 0%nat), (M 1%nat), (M 2%nat), (M 3%nat). reflexivity.
Qed.
(** the sampled matrix [mat] is the transform of [A] *)
Definition is_ntt (A mat : list (list (list Z))) : Prop := forall r c, (r < 4)%nat -> (c < 4)%nat -> eqf (nttf (cf (nth r A []) c)) (cf (nth r mat []) c).
Lemma ntt_matvec_dot A mat v r : is_ntt A mat -> (r < 4)%nat -> eqf (nttf (cf (matvec A v) r)) (dot (nth r mat []) (fun c => nttf (cf v c))).
Proof.
  intros HA Hr i Hi. rewrite (ntt_matvec A v r Hr i Hi). unfold dot.
  rewrite (HA r 0%nat Hr ltac:(lia) i Hi), (HA r 1%nat Hr ltac:(lia) i Hi), (HA r 2%nat Hr ltac:(lia) i Hi), (HA r 3%nat Hr ltac:(lia) i Hi). reflexivity.
Qed.

(** ** Encodings *)
Lemma le_bytes_S n v : le_bytes (S n) v = v mod 256 :: le_bytes n (v / 256).
Proof.
  unfold le_bytes. cbn [seq map]. change (256 ^ Z.of_nat 0) with 1. rewrite Z.div_1_r. f_equal. rewrite <- seq_shift, map_map. apply map_ext. intros i.
  rewrite Nat2Z.inj_succ, Z.pow_succ_r by lia. rewrite Z.div_div by (try apply Z.pow_pos_nonneg; lia). reflexivity.
Qed.
Lemma le_bytes_value b : bytes_ok b -> le_bytes (length b) (Enc.value 8 b) = b.
Proof.
  induction 1 as [|x b Hx _ IH]; [reflexivity|]. cbn [length Enc.value]. rewrite le_bytes_S. change (2 ^ 8) with 256. unfold byte_ok in Hx.
  rewrite (Z.mul_comm 256), Z.mod_add, Z.div_add by lia. rewrite Z.mod_small, Z.div_small by lia. now rewrite Z.add_0_l, IH.
Qed.
Lemma pack_of w b l : Enc.bytes (Z.of_nat (32 * w)) b -> Enc.value 8 b = Enc.value (Z.of_nat w) l -> b = pack w l.
Proof. intros [HL HB] HV. unfold pack. rewrite <- HV. replace (32 * w)%nat with (length b) by lia. symmetry. now apply le_bytes_value. Qed.
Lemma digit w : 0 < w -> forall l i, Forall (fun x => 0 <= x < 2 ^ w) l -> (i < length l)%nat ->
  (Enc.value w l / 2 ^ (w * Z.of_nat i)) mod 2 ^ w = nth i l 0.
Proof.
  intros Hw. assert (P: 0 < 2 ^ w) by (apply Z.pow_pos_nonneg; lia). induction l as [|x l IH]; intros i HF Hi; [cbn [length] in Hi; lia|].
  apply Forall_cons_iff in HF as [Hx HF]. cbn [Enc.value]. rewrite (Z.mul_comm (2 ^ w)). destruct i as [|i].
  - change (Z.of_nat 0) with 0. rewrite Z.mul_0_r, Z.pow_0_r, Z.div_1_r, Z.mod_add by lia. now apply Z.mod_small.
  - rewrite Nat2Z.inj_succ. replace (w * Z.succ (Z.of_nat i)) with (w + w * Z.of_nat i) by ring. rewrite Z.pow_add_r by nia.
    rewrite <- Z.div_div by (try apply Z.pow_pos_nonneg; nia). rewrite Z.div_add by lia. rewrite (Z.div_small x) by lia. rewrite Z.add_0_l. apply IH; [exact HF|cbn [length] in Hi; lia].
Qed.
Lemma unpack_of w b l : (0 < w)%nat -> length l = 256%nat -> Forall (fun x => 0 <= x < 2 ^ Z.of_nat w) l -> Enc.value 8 b = Enc.value (Z.of_nat w) l -> unpack w b = l.
Proof.
  intros Hw HL HF HV. unfold unpack. rewrite HV. apply nth_ext with (d := 0) (d' := 0); [now rewrite poly_length|]. rewrite poly_length. intros i Hi.
  pose proof (ix_poly (fun i0 => (Enc.value (Z.of_nat w) l / 2 ^ (Z.of_nat w * Z.of_nat i0)) mod 2 ^ Z.of_nat w) (Z.of_nat i) ltac:(lia)) as E. unfold ix in E. rewrite Nat2Z.id in E.
  rewrite E. apply digit; [lia|exact HF|lia].
Qed.

Lemma vmap_map f v : vlen v -> vmap f v = map (map f) v.
Proof.
  intros [HL HV]. destruct v as [|a [|b [|c [|d [|? ?]]]]]; try discriminate HL.
  assert (G: forall r, (r < 4)%nat -> mkpoly (fun i => f (coef [a; b; c; d] r i)) = map f (nth r [a; b; c; d] [])).
  { intros r Hr. specialize (HV r Hr). apply list_ext_ix; [unfold zlen in *; rewrite poly_length, map_length; lia|]. unfold zlen. rewrite poly_length. intros i Hi.
    rewrite ix_poly by lia. unfold coef, ix. unfold zlen in HV. rewrite (nth_indep (map f _) 0 (f 0)) by (rewrite map_length; lia). now rewrite map_nth. }
  unfold vmap, mkvec. cbn [seq map]. rewrite !G by lia. reflexivity.
Qed.
Lemma vmap_id v : vlen v -> vmap (fun x => x) v = v.
Proof. intros V. rewrite vmap_map by exact V. rewrite (map_ext _ (fun x => x)) by (intros; apply map_id). apply map_id. Qed.
Lemma mapM_pack (pk : list Z -> outcome (list Z)) (P : list Z -> Prop) w f v :
  (forall a, P a -> exists b, pk a = Ret b /\ Enc.bytes (Z.of_nat (32 * w)) b /\ Enc.value 8 b = Enc.value (Z.of_nat w) (map f a)) ->
  Forall P v -> vlen v -> exists bs, mapM pk v = Ret bs /\ concat bs = pack_vec w (vmap f v).
Proof.
  intros H HF HV. rewrite vmap_map by exact HV. clear HV. unfold pack_vec. induction HF as [|a v Ha _ (bs & E & IH)]; [exists []; split; reflexivity|].
  destruct (H a Ha) as (b & E1 & HB & HVal). cbn [mapM]. rewrite E1. cbn [bind]. rewrite E. cbn [bind]. eexists. split; [reflexivity|]. cbn [concat map]. rewrite IH. f_equal. now apply pack_of.
Qed.
Lemma vin_vlen' lo hi v : Enc.vec_in lo hi v -> vlen v.
Proof. intros [HL HF]. exact (proj1 (vin_vlen lo hi v HL HF)). Qed.
Lemma pk_enc rho t1 : Enc.vec_in 0 1023 t1 -> pack_pk rho t1 = Ret (pk_encode rho t1).
Proof.
  intros I. pose proof (vin_vlen' _ _ _ I) as V. destruct I as [_ HF]. unfold pack_pk, pk_encode.
  destruct (mapM_pack polyt1_pack (Enc.poly_in 0 1023) 10 (fun x => x) t1) as (bs & E & EC); [|exact HF|exact V|].
  { intros a Ha. destruct (t1_enc a Ha) as (b & E & HB & _ & HV). rewrite map_id. eauto. }
  rewrite E. cbn [bind]. now rewrite EC, vmap_id.
Qed.
Lemma sk_enc rho tr key t0 s1 s2 : Enc.vec_in (-4095) 4096 t0 -> Enc.vec_in (-2) 2 s1 -> Enc.vec_in (-2) 2 s2 ->
  pack_sk rho tr key t0 s1 s2 = Ret (sk_encode rho key tr s1 s2 t0).
Proof.
  intros I0 I1 I2. unfold pack_sk, sk_encode.
  assert (G: forall v, Enc.vec_in (-2) 2 v -> exists bs, mapM polyeta_pack v = Ret bs /\ concat bs = pack_vec 3 (vmap (fun x => 2 - x) v)).
  { intros v I. pose proof (vin_vlen' _ _ _ I) as V. destruct I as [_ HF]. apply mapM_pack with (Enc.poly_in (-2) 2); [|exact HF|exact V].
    intros a Ha. destruct (eta_enc a Ha) as (b & E & HB & _ & HV). eauto. }
  destruct (G s1 I1) as (b1 & E1 & C1). destruct (G s2 I2) as (b2 & E2 & C2). rewrite E1. cbn [bind]. rewrite E2. cbn [bind].
  pose proof (vin_vlen' _ _ _ I0) as V. destruct I0 as [_ HF].
  destruct (mapM_pack polyt0_pack (Enc.poly_in (-4095) 4096) 13 (fun x => 2 ^ 12 - x) t0) as (bs & E & EC); [|exact HF|exact V|].
  { intros a Ha. destruct (t0_enc a Ha) as (b & E & HB & _ & HV). change (2 ^ 12) with 4096. eauto. }
  rewrite E. cbn [bind]. now rewrite EC, C1, C2.
Qed.
Lemma sig_enc c z h : Enc.vec_in (-131071) 131072 z -> Enc.hints h -> zlen c = 32 -> bytes_ok c -> pack_sig c z h = Ret (sig_encode c z h).
Proof.
  intros I Hh Lc Bc. unfold pack_sig, sig_encode. pose proof (vin_vlen' _ _ _ I) as V. destruct I as [_ HF].
  destruct (mapM_pack polyz_pack (Enc.poly_in (-131071) 131072) 18 (fun x => gamma1 - x) z) as (bs & E & EC); [|exact HF|exact V|].
  { intros a Ha. destruct (z_enc a Ha) as (b & E & HB & _ & HV). change gamma1 with 131072. eauto. }
  rewrite E. cbn [bind]. rewrite EC. apply hints_eq in Hh. pose proof Hh as (Lh & Fh & Wh). rewrite hint_bytes_eq by exact Lh.
  rewrite hint_pack_ok; [reflexivity|exact Lh| |exact Wh]. eapply Forall_impl; [|exact Fh]. intros p [H _]. unfold zlen. lia.
Qed.
Lemma w1_enc_vec w1 : Enc.vec_in 0 43 w1 -> vec_pack_w1 w1 = Ret (w1_encode w1).
Proof.
  intros I. pose proof (vin_vlen' _ _ _ I) as V. destruct I as [_ HF]. unfold vec_pack_w1, w1_encode.
  destruct (mapM_pack polyw1_pack (Enc.poly_in 0 43) 6 (fun x => x) w1) as (bs & E & EC); [|exact HF|exact V|].
  { intros a [HL Ha]. destruct (w1_enc a) as (b & E & HB & HV); [split; [exact HL|]; eapply Forall_impl; [|exact Ha]; cbv beta; lia|]. rewrite map_id. eauto. }
  rewrite E. cbn [bind]. now rewrite EC, vmap_id.
Qed.

(** ** The SHAKE streams *)
Transparent shake128_bytes shake256_bytes.
Lemma G_prefix x : exists s, byte_stream s /\ (forall n, G x (Z.of_nat n) = Sample.prefix s n) /\
  forall p n, 0 <= p -> 0 <= n -> slice (shake128_bytes x (p + n)) p n = xof_of s p n.
Proof.
  exists (stream 168 (pad_state 168 0x1F (absorb 168 x))). split; [apply stream_byte|]. split.
  - intros n. unfold G, shake128_bytes, sponge_bytes. rewrite squeeze_stream by lia. now rewrite prefix_zseq, Nat2Z.id.
  - intros p n Hp Hn. apply shake_xof; lia.
Qed.
Lemma H_prefix x : exists s, byte_stream s /\ (forall n, H x (Z.of_nat n) = Sample.prefix s n) /\
  forall p n, 0 <= p -> 0 <= n -> slice (shake256_bytes x (p + n)) p n = xof_of s p n.
Proof.
  exists (stream 136 (pad_state 136 0x1F (absorb 136 x))). split; [apply stream_byte|]. split.
  - intros n. unfold H, shake256_bytes, sponge_bytes. rewrite squeeze_stream by lia. now rewrite prefix_zseq, Nat2Z.id.
  - intros p n Hp Hn. apply shake_xof; lia.
Qed.
Opaque shake128_bytes shake256_bytes.
Lemma H_len x n : 0 <= n -> zlen (H x n) = n.
Proof. intros Hn. apply (sponge_bytes_len 136 0x1F); lia. Qed.
Lemma H_ok x n : 0 <= n -> bytes_ok (H x n).
Proof. intros Hn. apply (sponge_bytes_ok 136 0x1F); lia. Qed.

(** ** Rejection samplers *)
Lemma prefix_app s n k : exists t, Sample.prefix s (n + k) = Sample.prefix s n ++ t.
Proof. unfold Sample.prefix. rewrite seq_app, map_app. eauto. Qed.
Lemma candidates_app t : forall n l, (length l <= n)%nat -> exists t', Sample.three_byte_candidates (l ++ t) = Sample.three_byte_candidates l ++ t'.
Proof.
  induction n as [|n IH]; intros l Hl.
  - destruct l; [|cbn [length] in Hl; lia]. eexists. reflexivity.
  - destruct l as [|a [|b [|c l]]]; try (eexists; reflexivity). destruct (IH l) as (t' & E); [cbn [length] in Hl; lia|]. cbn [app Sample.three_byte_candidates]. rewrite E. eexists. reflexivity.
Qed.
Lemma uniform_app l t : exists t', Sample.uniform_accepted (l ++ t) = Sample.uniform_accepted l ++ t'.
Proof. unfold Sample.uniform_accepted. destruct (candidates_app t (length l) l (le_n _)) as (t' & ->). rewrite filter_app. eauto. Qed.
Lemma eta_app l t : exists t', Sample.eta_accepted (l ++ t) = Sample.eta_accepted l ++ t'.
Proof. unfold Sample.eta_accepted, Sample.half_bytes. rewrite map_app, concat_app, filter_app, map_app. eauto. Qed.
Lemma firstn_full {A} (l t : list A) n : length (firstn n l) = n -> firstn n (l ++ t) = firstn n l.
Proof. intros HL. rewrite firstn_length in HL. rewrite firstn_app. replace (n - length l)%nat with 0%nat by lia. cbn [firstn]. apply app_nil_r. Qed.
Lemma full_some (a b : list Z) : full a = Some b <-> a = b /\ length a = 256%nat.
Proof. unfold full. destruct (Nat.eqb_spec (length a) 256); split; intros E; [split; congruence|destruct E; congruence|discriminate|destruct E; contradiction]. Qed.

Lemma rej_ntt_sound f seed nonce a : poly_uniform f seed nonce = Some a -> rej_ntt (seed ++ nonce_bytes nonce) a.
Proof.
  destruct (G_prefix (seed ++ nonce_bytes nonce)) as (s & Hs & EG & EX). unfold poly_uniform. rewrite (poly_uniform_x_ext _ (xof_of s)) by exact EX. rewrite (poly_uniform_spec s f Hs).
  intros E. apply full_some in E as [E1 E2]. exists (840 + 168 * f)%nat. rewrite EG. split; [now symmetry|congruence].
Qed.
Lemma rej_ntt_complete seed nonce a : rej_ntt (seed ++ nonce_bytes nonce) a -> exists f, forall f', (f <= f')%nat -> poly_uniform f' seed nonce = Some a.
Proof.
  destruct (G_prefix (seed ++ nonce_bytes nonce)) as (s & Hs & EG & EX). intros (n & E & HL). rewrite EG in E. exists n. intros f' Hf. unfold poly_uniform.
  rewrite (poly_uniform_x_ext _ (xof_of s)) by exact EX. rewrite (poly_uniform_spec s f' Hs).
  apply full_some. replace (840 + 168 * f')%nat with (n + (840 + 168 * f' - n))%nat by lia. destruct (prefix_app s n (840 + 168 * f' - n)) as (t & ->). destruct (uniform_app (Sample.prefix s n) t) as (t' & ->).
  rewrite firstn_full by congruence. split; congruence.
Qed.
Lemma rej_bounded_sound f seed nonce a : poly_uniform_eta f seed nonce = Some a -> rej_bounded (seed ++ nonce_bytes nonce) a.
Proof.
  destruct (H_prefix (seed ++ nonce_bytes nonce)) as (s & Hs & EG & EX). unfold poly_uniform_eta. rewrite (poly_uniform_eta_x_ext _ (xof_of s)) by exact EX. rewrite (poly_uniform_eta_spec s f Hs).
  intros E. apply full_some in E as [E1 E2]. exists (136 + 136 * f)%nat. rewrite EG. split; [now symmetry|congruence].
Qed.
Lemma rej_bounded_complete seed nonce a : rej_bounded (seed ++ nonce_bytes nonce) a -> exists f, forall f', (f <= f')%nat -> poly_uniform_eta f' seed nonce = Some a.
Proof.
  destruct (H_prefix (seed ++ nonce_bytes nonce)) as (s & Hs & EG & EX). intros (n & E & HL). rewrite EG in E. exists n. intros f' Hf. unfold poly_uniform_eta.
  rewrite (poly_uniform_eta_x_ext _ (xof_of s)) by exact EX. rewrite (poly_uniform_eta_spec s f' Hs).
  apply full_some. replace (136 + 136 * f')%nat with (n + (136 + 136 * f' - n))%nat by lia. destruct (prefix_app s n (136 + 136 * f' - n)) as (t & ->). destruct (eta_app (Sample.prefix s n) t) as (t' & ->).
  rewrite firstn_full by congruence. split; congruence.
Qed.
Lemma ball_sound f c cp : zlen c = 32 -> poly_challenge f c = Some cp -> sample_in_ball c cp.
Proof.
  intros Lc. destruct (H_prefix c) as (s & Hs & EG & EX). unfold poly_challenge. rewrite (slice_all c 32) by lia. rewrite (poly_challenge_x_ext _ (xof_of s)) by exact EX.
  intros E. destruct (poly_challenge_sound s f cp Hs E) as (n & Hn). exists n. rewrite EG. now apply Hn.
Qed.
Lemma ball_complete c cp : zlen c = 32 -> sample_in_ball c cp -> exists f, forall f', (f <= f')%nat -> poly_challenge f' c = Some cp.
Proof.
  intros Lc. destruct (H_prefix c) as (s & Hs & EG & EX). intros (n & E). rewrite EG in E. exists n. intros f' Hf. unfold poly_challenge. rewrite (slice_all c 32) by lia.
  rewrite (poly_challenge_x_ext _ (xof_of s)) by exact EX. apply (poly_challenge_complete s n cp f' Hs Hf); [|exact E].
  destruct (Nat.le_gt_cases 8 n) as [|L]; [assumption|]. exfalso. unfold Sample.challenge in E.
  rewrite (skipn_all2 (Sample.prefix s n)) in E by (unfold Sample.prefix; rewrite map_length, seq_length; lia). discriminate E.
Qed.

(** ** Expansion of the matrix, the secret vectors and the mask *)
Lemma mapO4 {B} (f : Z -> option B) d v : mapO f [0; 1; 2; 3] = Some v <-> length v = 4%nat /\ forall r, (r < 4)%nat -> f (Z.of_nat r) = Some (nth r v d).
Proof.
  cbn [mapO]. split.
  - intros E. destruct (f 0) as [a|] eqn:E0; cbn [obind] in E; [|discriminate]. destruct (f 1) as [b|] eqn:E1; cbn [obind] in E; [|discriminate].
    destruct (f 2) as [c|] eqn:E2; cbn [obind] in E; [|discriminate]. destruct (f 3) as [e|] eqn:E3; cbn [obind] in E; [|discriminate].
    apply Some_inj in E. subst v. split; [reflexivity|]. intros [|[|[|[|r]]]] Hr; try assumption. lia.
  - intros [HL H]. destruct v as [|a [|b [|c [|e [|? ?]]]]]; try discriminate HL.
    pose proof (H 0%nat ltac:(lia)) as E0. pose proof (H 1%nat ltac:(lia)) as E1. pose proof (H 2%nat ltac:(lia)) as E2. pose proof (H 3%nat ltac:(lia)) as E3.
    cbn [nth] in *. change (Z.of_nat 0) with 0 in E0. change (Z.of_nat 1) with 1 in E1. change (Z.of_nat 2) with 2 in E2. change (Z.of_nat 3) with 3 in E3.
    rewrite E0, E1, E2, E3. reflexivity.
Qed.
Lemma nonce_A (r c : nat) : (r < 4)%nat -> (c < 4)%nat -> nonce_bytes (u16 (Z.shiftl (Z.of_nat r) 8 + Z.of_nat c)) = [Z.of_nat c; Z.of_nat r].
Proof. intros Hr Hc. destruct r as [|[|[|[|]]]]; try lia; destruct c as [|[|[|[|]]]]; try lia; reflexivity. Qed.
Lemma nonce_int2 n : nonce_bytes (u16 n) = int2 n.
Proof.
  unfold nonce_bytes, int2, u8, u16. rewrite Z.shiftr_div_pow2 by lia. change (2 ^ 16) with 65536. change (2 ^ 8) with 256.
  assert (E: n mod 65536 = n mod 256 + 256 * ((n / 256) mod 256)) by (change 65536 with (256 * 256); apply Z.rem_mul_r; lia).
  pose proof (Z.mod_pos_bound n 256 ltac:(lia)). pose proof (Z.mod_pos_bound (n / 256) 256 ltac:(lia)).
  rewrite E. rewrite (Z.mul_comm 256), Z.mod_add, Z.div_add by lia. rewrite (Z.div_small (n mod 256)) by lia. rewrite Z.add_0_l, !Zmod_mod. reflexivity.
Qed.
Lemma eval_ntt a i : 0 <= i < 256 -> Spec.eval a (1753 ^ (2 * Spec.brv8 i + 1)) == nttf (ix a) i.
Proof.
  intros Hi. rewrite spec_eval. destruct (ntt_eval (ix a) i Hi) as [E _]. rewrite E. apply evalp_cong. symmetry. now apply omega_spec.
Qed.
Lemma matrix_cells f rho mat : matrix_expand f rho = Some mat <-> length mat = 4%nat /\
  forall r, (r < 4)%nat -> length (nth r mat []) = 4%nat /\ forall c, (c < 4)%nat -> poly_uniform f rho (u16 (Z.shiftl (Z.of_nat r) 8 + Z.of_nat c)) = Some (nth c (nth r mat []) []).
Proof.
  unfold matrix_expand. rewrite (mapO4 _ []). split; intros [HL H]; (split; [exact HL|]); intros r Hr.
  - specialize (H r Hr). now apply (mapO4 _ []) in H.
  - apply (mapO4 _ []). now apply H.
Qed.
Lemma expand_A_sound f rho mat : matrix_expand f rho = Some mat -> exists A, expand_A rho A /\ is_ntt A mat.
Proof.
  intros E. apply matrix_cells in E as [HL H].
  set (cell := fun r c => mkpoly (fun i => (inttf (fun j => RI * cf (nth r mat []) c j) (Z.of_nat i)) mod Q)).
  set (A := map (fun r => mkvec (cell r)) (seq 0 4)).
  assert (EA: forall r c, (r < 4)%nat -> (c < 4)%nat -> nth c (nth r A []) [] = cell r c).
  { intros r c Hr Hc. destruct r as [|[|[|[|]]]]; try lia; exact (nth_vec _ c Hc). }
  assert (HN: is_ntt A mat).
  { intros r c Hr Hc. eapply eqf_trans; [apply (ntt_intt _ (fun j => RI * cf (nth r mat []) c j))|].
    - intros i Hi. unfold cf at 1. rewrite EA by assumption. unfold cell. rewrite ix_poly by exact Hi. rewrite Z2Nat.id by lia. apply cg_iff. apply Zmod_mod.
    - intros i Hi. cbv beta. transitivity (2 ^ 32 * RI * cf (nth r mat []) c i); [apply eq_eqm; ring|]. rewrite R_RI. apply eq_eqm; ring. }
  exists A. split; [|exact HN]. split; [reflexivity|]. split.
  - apply Forall_map, Forall_forall. intros r _. split; [reflexivity|]. unfold mkvec. apply Forall_map, Forall_forall. intros c _. split; [apply poly_length|].
    unfold cell, mkpoly. apply Forall_map, Forall_forall. intros i _. change Spec.q with Q.
    pose proof (Z.mod_pos_bound (inttf (fun j => RI * cf (nth r mat []) c j) (Z.of_nat i)) Q eq_refl). lia.
  - intros r c Hr Hc. exists (nth c (nth r mat []) []). destruct (H r Hr) as [_ HC]. specialize (HC c Hc). split.
    + apply rej_ntt_sound in HC. now rewrite nonce_A in HC by assumption.
    + intros i Hi. apply cg_cong. rewrite eval_ntt by lia. rewrite (HN r c Hr Hc (Z.of_nat i) ltac:(lia)). unfold cf, ix. rewrite Nat2Z.id. reflexivity.
Qed.
Lemma nat_bound4 (P : nat -> nat -> Prop) : (forall r, (r < 4)%nat -> exists f, forall f', (f <= f')%nat -> P r f') -> exists f, forall r f', (r < 4)%nat -> (f <= f')%nat -> P r f'.
Proof.
  intros H. destruct (H 0%nat ltac:(lia)) as (f0 & H0). destruct (H 1%nat ltac:(lia)) as (f1 & H1). destruct (H 2%nat ltac:(lia)) as (f2 & H2). destruct (H 3%nat ltac:(lia)) as (f3 & H3).
  exists (f0 + f1 + f2 + f3)%nat. intros r f' Hr Hf. destruct r as [|[|[|[|]]]]; [apply H0|apply H1|apply H2|apply H3|]; lia.
Qed.
Lemma expand_A_complete rho A : expand_A rho A -> exists f mat, is_ntt A mat /\ forall f', (f <= f')%nat -> matrix_expand f' rho = Some mat.
Proof.
  intros (_ & _ & H).
  assert (HF: exists f, forall r f', (r < 4)%nat -> (f <= f')%nat -> forall c, (c < 4)%nat -> exists ahat, poly_uniform f' rho (u16 (Z.shiftl (Z.of_nat r) 8 + Z.of_nat c)) = Some ahat).
  { apply nat_bound4. intros r Hr.
    destruct (nat_bound4 (fun c f' => exists ahat, poly_uniform f' rho (u16 (Z.shiftl (Z.of_nat r) 8 + Z.of_nat c)) = Some ahat)) as (f & HF).
    - intros c Hc. destruct (H r c Hr Hc) as (ahat & HR & _). rewrite <- (nonce_A r c Hr Hc) in HR. destruct (rej_ntt_complete _ _ _ HR) as (f & Hf). exists f. intros f' Hf'. exists ahat. now apply Hf.
    - exists f. intros f' Hf' c Hc. now apply HF. }
  destruct HF as (f & HF). exists f.
  assert (EX: exists mat, matrix_expand f rho = Some mat).
  { set (cell := fun r c : nat => match poly_uniform f rho (u16 (Z.shiftl (Z.of_nat r) 8 + Z.of_nat c)) with Some a => a | None => [] end).
    exists (map (fun r => mkvec (cell r)) (seq 0 4)). apply matrix_cells. split; [reflexivity|]. intros r Hr.
    assert (E: nth r (map (fun r0 => mkvec (cell r0)) (seq 0 4)) [] = mkvec (cell r)) by (destruct r as [|[|[|[|]]]]; [reflexivity..|lia]).
    rewrite E. split; [reflexivity|]. intros c Hc. rewrite nth_vec by exact Hc. destruct (HF r f Hr (le_n _) c Hc) as (ahat & EH). unfold cell. rewrite EH. reflexivity. }
  destruct EX as (mat & EM). exists mat. split; [|intros f' Hf'; eapply matrix_expand_mono; eassumption].
  apply matrix_cells in EM as [_ HC]. intros r c Hr Hc i Hi. destruct (HC r Hr) as [_ HC']. specialize (HC' c Hc).
  destruct (H r c Hr Hc) as (ahat & HR & HE). rewrite <- (nonce_A r c Hr Hc) in HR. destruct (rej_ntt_complete _ _ _ HR) as (f2 & Hf2).
  assert (ES: nth c (nth r mat []) [] = ahat).
  { assert (X: poly_uniform (f + f2) rho (u16 (Z.shiftl (Z.of_nat r) 8 + Z.of_nat c)) = Some (nth c (nth r mat []) [])).
    { unfold poly_uniform, poly_uniform_x in *. eapply uniform_loop_mono; [|exact HC']. lia. }
    rewrite Hf2 in X by lia. now apply Some_inj in X. }
  specialize (HE (Z.to_nat i) ltac:(lia)). apply cg_cong in HE. rewrite Z2Nat.id in HE by lia. rewrite eval_ntt in HE by exact Hi. unfold cf. rewrite HE, ES. reflexivity.
Qed.
Lemma expand_A_unique rho A A' : expand_A rho A -> expand_A rho A' -> A = A'.
Proof.
  intros HA HA'. destruct (expand_A_complete _ _ HA) as (f & mat & N & E). destruct (expand_A_complete _ _ HA') as (f' & mat' & N' & E').
  assert (mat' = mat) by (specialize (E (f + f')%nat ltac:(lia)); specialize (E' (f + f')%nat ltac:(lia)); rewrite E in E'; now apply Some_inj in E'). subst mat'.
  destruct HA as (L & F & _). destruct HA' as (L' & F' & _). rewrite Forall_forall in F, F'. apply nth_ext with (d := []) (d' := []); [congruence|]. rewrite L. intros r Hr.
  assert (I: Enc.vec_in 0 (Spec.q - 1) (nth r A [])) by (apply F, nth_In; lia). assert (I': Enc.vec_in 0 (Spec.q - 1) (nth r A' [])) by (apply F', nth_In; lia).
  destruct I as [I1 I2]. destruct I' as [I1' I2']. destruct (vin_vlen _ _ _ I1 I2) as [V R]. destruct (vin_vlen _ _ _ I1' I2') as [V' R'].
  apply vec_ext; [exact V|exact V'|]. intros c Hc i Hi. apply eqm_small; [specialize (R c i Hc Hi); change Spec.q with Q in R; lia|specialize (R' c i Hc Hi); change Spec.q with Q in R'; lia|].
  revert i Hi. apply ntt_inj. eapply eqf_trans; [apply N; assumption|apply eqf_sym, N'; assumption].
Qed.
Lemma expand_S_sound f rho' s1 s2 : vec_uniform_eta f rho' 0 = Some s1 -> vec_uniform_eta f rho' 4 = Some s2 -> expand_S rho' s1 s2.
Proof.
  intros E1 E2. unfold vec_uniform_eta in E1, E2. apply (mapO4 _ []) in E1 as [L1 H1]. apply (mapO4 _ []) in E2 as [L2 H2]. split; [exact L1|]. split; [exact L2|]. intros r Hr.
  rewrite (Z.add_comm _ 4). rewrite <- !nonce_int2. split; eapply rej_bounded_sound; [now apply H1|now apply H2].
Qed.
Lemma expand_S_complete rho' s1 s2 : expand_S rho' s1 s2 -> exists f, forall f', (f <= f')%nat -> vec_uniform_eta f' rho' 0 = Some s1 /\ vec_uniform_eta f' rho' 4 = Some s2.
Proof.
  intros (L1 & L2 & H).
  destruct (nat_bound4 (fun r f' => poly_uniform_eta f' rho' (u16 (0 + Z.of_nat r)) = Some (nth r s1 []) /\ poly_uniform_eta f' rho' (u16 (4 + Z.of_nat r)) = Some (nth r s2 []))) as (f & HF).
  { intros r Hr. destruct (H r Hr) as [H1 H2]. rewrite (Z.add_comm _ 4) in H2. change (Z.of_nat r) with (0 + Z.of_nat r) in H1. rewrite <- nonce_int2 in H1, H2.
    destruct (rej_bounded_complete _ _ _ H1) as (f1 & Hf1). destruct (rej_bounded_complete _ _ _ H2) as (f2 & Hf2). exists (f1 + f2)%nat. intros f' Hf. split; [apply Hf1|apply Hf2]; lia. }
  exists f. intros f' Hf. unfold vec_uniform_eta. split; apply (mapO4 _ []); (split; [assumption|]); intros r Hr; now apply HF.
Qed.
Lemma mask_eq rho'' nonce : vec_uniform_gamma1 rho'' nonce = expand_mask rho'' (4 * nonce).
Proof.
  assert (G: forall r, poly_uniform_gamma1 rho'' (u16 (4 * nonce + Z.of_nat r)) = map (fun d => gamma1 - d) (unpack 18 (H (rho'' ++ int2 (4 * nonce + Z.of_nat r)) 576))).
  { intros r. rewrite <- nonce_int2. set (x := rho'' ++ nonce_bytes (u16 (4 * nonce + Z.of_nat r))).
    unfold poly_uniform_gamma1, poly_uniform_gamma1_x, stream256. fold x. change (0 + 680) with 680.
    destruct (H_prefix x) as (s & Hs & EG & EX). pose proof (EX 0 680 ltac:(lia) ltac:(lia)) as E. change (0 + 680) with 680 in E. rewrite E.
    assert (E2: slice (xof_of s 0 680) 0 576 = H x 576).
    { change 576 with (Z.of_nat 576) at 2. rewrite EG, prefix_zseq. unfold xof_of. change (Z.to_nat 680) with (576 + 104)%nat. rewrite zseq_app, map_app.
      rewrite slice_app_l by (rewrite ?zlen_map, ?zlen_zseq; lia). apply slice_all. now rewrite zlen_map, zlen_zseq. }
    rewrite E2. pose proof (H_len x 576 ltac:(lia)) as LH. pose proof (H_ok x 576 ltac:(lia)) as BH. unfold zlen in LH.
    destruct (z_unpack_ok 64 (H x 576)) as (L & F & V); [lia|exact BH|].
    rewrite (unpack_of 18 (H x 576) (map (fun y => 131072 - y) (polyz_unpack (H x 576)))).
    - rewrite map_map. change gamma1 with 131072. rewrite <- (map_id (polyz_unpack (H x 576))) at 1. apply map_ext. intros; lia.
    - lia.
    - rewrite map_length, L. reflexivity.
    - exact F.
    - rewrite !value_leval. symmetry. exact V. }
  unfold vec_uniform_gamma1, expand_mask, mkvec. cbn [map seq]. rewrite <- !G. reflexivity.
Qed.

(** ** Representatives modulo q *)
Lemma Q_val : Q = 8380417. Proof. reflexivity. Qed.
Lemma mods_range x : - 4190208 <= Spec.mods x Q <= 4190208.
Proof. unfold Spec.mods. cbv zeta. pose proof (Z.mod_pos_bound x Q eq_refl). rewrite Q_val in *. destruct (Z.ltb_spec 8380417 (2 * (x mod 8380417))); lia. Qed.
Lemma mods_cg x : Spec.mods x Q == x.
Proof.
  unfold Spec.mods. cbv zeta. assert (E: x mod Q == x) by (apply cg_iff, Zmod_mod). destruct (Q <? 2 * (x mod Q)); [|exact E].
  transitivity (x mod Q); [|exact E]. apply (eqm_of_diff _ _ (-1)). ring.
Qed.
Lemma cg_close x y : x == y -> - Q < x - y < Q -> x = y.
Proof. intros H HB. apply cg_cong in H as (k & E). change Spec.q with Q in E. rewrite Q_val in *. assert (k = 0) by lia. subst k. lia. Qed.
Lemma mods_small x : - 4190208 <= x <= 4190208 -> Spec.mods x Q = x.
Proof. intros H. apply cg_close; [apply mods_cg|]. pose proof (mods_range x). rewrite Q_val in *. lia. Qed.
Lemma mods_eq x y : x == y -> Spec.mods x Q = Spec.mods y Q.
Proof. intros H. apply cg_iff in H. unfold Spec.mods. now rewrite H. Qed.
Lemma norm_rep x y B : x == y -> - 6283009 <= x <= 6283009 -> B <= 131072 -> (- B < x < B <-> Z.abs (Spec.mods y Q) < B).
Proof.
  intros E Hx HB. rewrite <- (mods_eq x y E). split.
  - intros H. rewrite mods_small by lia. lia.
  - intros H. assert (Spec.mods x Q = x); [|lia]. apply cg_close; [apply mods_cg|]. rewrite Q_val in *. lia.
Qed.
Lemma Decompose_mod x : Spec.Decompose x = Spec.Decompose (x mod Q).
Proof. unfold Spec.Decompose. change Spec.q with Q. cbv zeta. now rewrite Zmod_mod. Qed.
Lemma Decompose_cg x y : x == y -> Spec.Decompose x = Spec.Decompose y.
Proof. intros H. apply cg_iff in H. rewrite Decompose_mod, H. symmetry. apply Decompose_mod. Qed.
Lemma UseHint_cg b x y : x == y -> Spec.UseHint b x = Spec.UseHint b y.
Proof. intros H. unfold Spec.UseHint. now rewrite (Decompose_cg x y H). Qed.
Lemma canon_mod x y : 0 <= x < Q -> x == y -> x = y mod Q.
Proof. intros Hx H. apply cg_iff in H. now rewrite <- H, Z.mod_small. Qed.

(** ** Verification *)
Lemma skipn_twice {A} (l : list A) : forall a b, skipn a (skipn b l) = skipn (a + b) l.
Proof.
  induction l as [|x l IH]; intros a b; [now rewrite !skipn_nil|]. destruct b as [|b]; [now rewrite Nat.add_0_r|]. rewrite Nat.add_succ_r. cbn [skipn]. apply IH.
Qed.
Lemma pk_t1_eq pk : zlen pk = 1312 -> bytes_ok pk -> pk_t1 pk = snd (unpack_pk pk).
Proof.
  intros Lpk Bpk. unfold pk_t1, unpack_pk, unpack_vec, mkvec, blocks. cbn [snd map seq].
  assert (G: forall r : nat, (r < 4)%nat -> unpack 10 (block (32 * 10) r (skipn 32 pk)) = polyt1_unpack (slice pk (32 + Z.of_nat r * 320) 320)).
  { intros r Hr. assert (E: block (32 * 10) r (skipn 32 pk) = slice pk (32 + Z.of_nat r * 320) 320).
    { unfold block, slice. rewrite skipn_twice. change (32 * 10)%nat with 320%nat. replace (320 * r + 32)%nat with (Z.to_nat (32 + Z.of_nat r * 320)) by lia. reflexivity. }
    rewrite E. set (b := slice pk (32 + Z.of_nat r * 320) 320).
    assert (Lb: zlen b = 320) by (apply zlen_slice; lia). assert (Bb: bytes_ok b) by (apply bytes_ok_slice; exact Bpk). unfold zlen in Lb.
    destruct (t1_unpack_ok 64 b) as (L & F & V); [lia|exact Bb|]. rewrite map_id in F, V. apply unpack_of; [lia|exact L|exact F|]. rewrite !value_leval. now symmetry. }
  rewrite (G 0%nat), (G 1%nat), (G 2%nat), (G 3%nat) by lia. reflexivity.
Qed.
Lemma small_z_norm z : Enc.vec_in (-131071) 131072 z -> small_z z <-> norm_lt (gamma1 - beta) z.
Proof.
  intros I. pose proof (vin_vlen' _ _ _ I) as V. destruct I as [L F]. destruct (vin_vlen _ _ _ L F) as [_ R]. rewrite norm_lt_cf. change (gamma1 - beta) with 130994. unfold small_z. change (GAMMA1 - BETA) with 130994.
  split.
  - intros [_ H] r Hr i Hi. apply (norm_rep (cf z r i) (cf z r i) 130994); [reflexivity|specialize (R r i Hr Hi); lia|lia|now apply H].
  - intros H. split; [exact V|]. intros r i Hr Hi. apply (norm_rep (cf z r i) (cf z r i) 130994); [reflexivity|specialize (R r i Hr Hi); lia|lia|now apply H].
Qed.
Lemma verify_w A mat t1 cp z h w u : is_ntt A mat -> verify_facts mat t1 cp z h w u ->
  u = vmap2 (fun b x => Spec.UseHint (negb (b =? 0)) x) h (vsub (matvec A z) (cmul cp (vmap (fun x => x * 2 ^ 13) t1))).
Proof.
  intros HA (Vw & Vu & HF). apply vec_is_vmap2; [exact Vu|]. intros r i Hr Hi. destruct (HF r Hr) as [H1 H2]. destruct (H1 i Hi) as [R ->]. rewrite use_hint_spec by exact R. apply UseHint_cg.
  revert i Hi R. assert (E: eqf (cf w r) (cf (vsub (matvec A z) (cmul cp (vmap (fun x => x * 2 ^ 13) t1))) r)); [|intros i Hi _; now apply E].
  apply ntt_inj. eapply eqf_trans; [exact H2|]. apply eqf_sym. eapply eqf_trans.
  - apply (ntt_sub _ (cf (matvec A z) r) (cf (cmul cp (vmap (fun x => x * 2 ^ 13) t1)) r)). intros i Hi. unfold vsub. rewrite cf_vmap2 by assumption. reflexivity.
  - intros i Hi. cbv beta. rewrite (ntt_matvec_dot A mat z r HA Hr i Hi), (ntt_cmul cp _ r Hr i Hi). cbv beta.
    assert (D: nttf (cf (vmap (fun x => x * 2 ^ 13) t1) r) i == nttf (fun j => cf t1 r j * 8192) i).
    { apply ntt_ext; [|exact Hi]. intros j Hj. rewrite cf_vmap by assumption. reflexivity. }
    rewrite D. reflexivity.
Qed.
Lemma facts_vin mat t1 cp z h w u : verify_facts mat t1 cp z h w u -> Enc.vec_in 0 43 u.
Proof.
  intros (Vw & Vu & HF). split; [apply Vu|]. apply vin_of_cf; [exact Vu|]. intros r i Hr Hi. destruct (HF r Hr) as [H1 _]. destruct (H1 i Hi) as [R ->]. now apply uhint_range.
Qed.
Lemma H_fold x n : shake256_bytes x n = H x n. Proof. reflexivity. Qed.
Lemma verify_sound f sig m pk : zlen pk = 1312 -> bytes_ok pk -> zlen sig = 2420 -> bytes_ok sig ->
  sign_verify f sig 2420 m pk = Ret (Some 0) -> verify pk m sig.
Proof.
  intros Lpk Bpk Ls Bs E. destruct (verify_spec f sig m pk Lpk Bpk Ls Bs) as (r & E' & HN & HS). rewrite E in E'. apply Ret_inj in E'. subst r.
  destruct (unpack_sig_sound sig Ls Bs) as (s & EU & HU). destruct s as [[[c z] h]|]; [|specialize (HN EU); discriminate HN].
  destruct (HU c z h eq_refl) as (Lc & Bc & Hz & Hh & EP). destruct (HS c z h EU) as (H1 & H2 & H3).
  assert (Sz: small_z z \/ ~ small_z z).
  { destruct Hz as [Lz Fz]. pose proof (vb_of_in _ _ 131072 _ Lz Fz ltac:(lia) ltac:(lia)) as Bz.
    destruct (vec_chknorm_ok z (GAMMA1 - BETA)) as (r1 & _ & R01 & Nz); [now vm_compute|eapply vb_le; [|exact Bz]; q32|].
    unfold small_z. destruct R01 as [R|R].
    - left. split; [apply (vb_vlen _ _ Bz)|]. intros k i Hk Hi. now apply (proj1 Nz R).
    - right. intros [_ HB]. assert (r1 = 0) by (apply Nz; intros k Hk i Hi; now apply HB). lia. }
  destruct Sz as [Sz|Sz]; [|specialize (H1 Sz); discriminate H1].
  destruct (poly_challenge f c) as [cp|] eqn:EC; [|specialize (H3 Sz (or_introl eq_refl)); discriminate H3].
  destruct (matrix_expand f (slice pk 0 32)) as [mat|] eqn:EM; [|specialize (H3 Sz (or_intror eq_refl)); discriminate H3].
  destruct (H2 Sz cp mat eq_refl eq_refl) as (w & u & buf & v & HF & EB & Ev & _ & Hv). apply Some_inj in Ev. subst v.
  destruct (expand_A_sound _ _ _ EM) as (A & HA & HN').
  assert (Iz: Enc.vec_in (-131071) 131072 z) by exact Hz. assert (Ih: Enc.hints h) by (now apply hints_eq).
  exists c, z, h, A, cp. split; [split; [exact Lc|exact Bc]|]. split; [exact Iz|]. split; [exact Ih|].
  split; [rewrite (sig_enc c z h Iz Ih Lc Bc) in EP; apply Ret_inj in EP; now symmetry|]. split; [now apply small_z_norm|].
  split; [exact HA|]. split; [eapply ball_sound; eassumption|]. cbv zeta. rewrite pk_t1_eq by assumption. rewrite <- (verify_w A mat _ cp z h w u HN' HF).
  rewrite (w1_enc_vec u (facts_vin _ _ _ _ _ _ _ HF)) in EB. apply Ret_inj in EB. rewrite EB. now apply Hv.
Qed.
Lemma verify_complete sig m pk : zlen pk = 1312 -> bytes_ok pk -> verify pk m sig ->
  (forall f, sign_verify f sig 2420 m pk = Ret None \/ sign_verify f sig 2420 m pk = Ret (Some 0)) /\
  exists f, forall f', (f <= f')%nat -> sign_verify f' sig 2420 m pk = Ret (Some 0).
Proof.
  intros Lpk Bpk (c & z & h & A & cp & [Lc Bc] & Iz & Ih & Es & Nz & HA & HC & EH). cbv zeta in EH.
  assert (EP: pack_sig c z h = Ret sig) by (rewrite Es; now apply sig_enc). apply hints_eq in Ih.
  destruct (pack_sig_ok c z h Lc Bc Iz Ih) as (sig' & EP' & Ls & Bs & EU). rewrite EP in EP'. apply Ret_inj in EP'. subst sig'.
  apply small_z_norm in Nz; [|exact Iz].
  assert (Key: forall f cp' mat, poly_challenge f c = Some cp' -> matrix_expand f (slice pk 0 32) = Some mat -> sign_verify f sig 2420 m pk = Ret (Some 0)).
  { intros f cp' mat EC EM. destruct (verify_spec f sig m pk Lpk Bpk Ls Bs) as (r & E' & _ & HS). rewrite E'. destruct (HS c z h EU) as (_ & H2 & _).
    destruct (H2 Nz cp' mat EC EM) as (w & u & buf & v & HF & EB & -> & _ & Hv). do 2 f_equal. apply Hv.
    destruct (ball_complete c cp Lc HC) as (f1 & Hf1). assert (cp' = cp).
    { assert (X: poly_challenge (f + f1) c = Some cp') by (eapply poly_challenge_mono; [|exact EC]; lia). rewrite Hf1 in X by lia. now apply Some_inj in X. }
    subst cp'. destruct (expand_A_sound _ _ _ EM) as (A' & HA' & HN'). assert (A' = A) by (eapply expand_A_unique; eassumption). subst A'.
    rewrite (w1_enc_vec u (facts_vin _ _ _ _ _ _ _ HF)) in EB. apply Ret_inj in EB. rewrite <- EB. rewrite (verify_w A mat _ cp z h w u HN' HF). rewrite <- pk_t1_eq by assumption. exact EH. }
  split.
  - intros f. destruct (poly_challenge f c) as [cp'|] eqn:EC; [destruct (matrix_expand f (slice pk 0 32)) as [mat|] eqn:EM|].
    + right. eapply Key; eassumption.
    + left. destruct (verify_spec f sig m pk Lpk Bpk Ls Bs) as (r & E' & _ & HS). rewrite E'. f_equal. destruct (HS c z h EU) as (_ & _ & H3). apply H3; auto.
    + left. destruct (verify_spec f sig m pk Lpk Bpk Ls Bs) as (r & E' & _ & HS). rewrite E'. f_equal. destruct (HS c z h EU) as (_ & _ & H3). apply H3; auto.
  - destruct (ball_complete c cp Lc HC) as (f1 & Hf1). destruct (expand_A_complete _ _ HA) as (f2 & mat & _ & Hf2). exists (f1 + f2)%nat. intros f' Hf.
    apply (Key f' cp mat); [apply Hf1; lia|]. apply (Hf2 f'). lia.
Qed.
