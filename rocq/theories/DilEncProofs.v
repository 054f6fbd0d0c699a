(** The encodings of poly.c and packing.c meet the specification of DilEncSpec.v;
    the samplers on the actual SHAKE streams. *)
From Verif Require Import Base Keccak SpongePure SpongeProofs Tab DilReduce DilPoly DilPack DilVec DilHint DilPacking DilEncSpec DilSampleSpec DilSample.

Lemma value_leval w l : Enc.value w l = leval w l.
Proof. induction l as [|x l IH]; [reflexivity|]. cbn [Enc.value]. rewrite IH. reflexivity. Qed.
Lemma enc_bytes n b : Enc.bytes n b <-> zlen b = n /\ bytes_ok b.
Proof. reflexivity. Qed.
Lemma positions_eq h : Enc.positions h = positions h.
Proof.
  unfold Enc.positions, positions, ix. assert (H: map Z.of_nat (seq 0 256) = zseq 0 256) by (rewrite zseq_seq; apply map_ext; intros; lia).
  rewrite H. reflexivity.
Qed.
Opaque positions Enc.positions.
Lemma Ret_inj {A} (a b : A) : Ret a = Ret b -> a = b.
Proof. now intros [= ->]. Qed.
Lemma concat_positions hs : concat (map Enc.positions hs) = all_positions hs.
Proof. unfold all_positions. now rewrite (map_ext _ _ positions_eq). Qed.
Lemma weight_eq hs : Enc.weight hs = zlen (all_positions hs).
Proof. unfold Enc.weight. now rewrite concat_positions. Qed.
Lemma hint_bytes_eq hs : length hs = 4%nat -> Enc.hint_bytes hs = hint_encoding hs.
Proof.
  intros HL. destruct hs as [|a [|b [|c [|d [|? ?]]]]]; try discriminate HL.
  unfold Enc.hint_bytes, hint_encoding. rewrite concat_positions, weight_eq. f_equal. f_equal. cbn [map firstn counts].
  rewrite !weight_eq. unfold all_positions. cbn [map concat]. rewrite ?app_nil_r, ?zlen_app. repeat (apply (f_equal2 (@cons Z)); [lia|]). reflexivity.
Qed.
Lemma bits01_in h : bits01 h <-> Enc.poly_in 0 1 h.
Proof.
  unfold bits01, Enc.poly_in. split; intros [H1 H2]; (split; [exact H1|]); (eapply Forall_imp; [|exact H2]); cbv beta; intros; lia.
Qed.
Lemma hints_eq hs : Enc.hints hs <-> h_vec hs.
Proof.
  unfold Enc.hints, h_vec, Enc.vec_in. rewrite weight_eq. assert (Forall (Enc.poly_in 0 1) hs <-> Forall bits01 hs); [|tauto].
  split; intros H; (eapply Forall_imp; [|exact H]); apply bits01_in.
Qed.

(** One polynomial *)
Lemma rt_value pack unpack n w f (P : list Z -> Prop) (a : list Z) :
  (exists b, pack a = Ret b /\ length b = Z.to_nat n /\ bytes_ok b /\ unpack b = a) -> 0 <= n ->
  (exists b, pack a = Ret b /\ leval 8 b = leval w (map f a)) ->
  exists b, pack a = Ret b /\ Enc.bytes n b /\ unpack b = a /\ Enc.value 8 b = Enc.value w (map f a).
Proof.
  intros (b & E & HL & HB & HU) Hn (b' & E' & HV). rewrite E in E'. apply Ret_inj in E'. subst b'. exists b. split; [exact E|]. split; [split; [unfold zlen; lia|exact HB]|].
  split; [exact HU|]. now rewrite !value_leval.
Qed.
Lemma eta_enc a : Enc.poly_in (-2) 2 a -> exists b, polyeta_pack a = Ret b /\ Enc.bytes 96 b /\ polyeta_unpack b = a /\ Enc.value 8 b = Enc.value 3 (map (fun x => 2 - x) a).
Proof.
  intros [HL HF]. assert (F: Forall (fun x => -5 <= x <= 2) a) by (eapply Forall_imp; [|exact HF]; cbv beta; lia).
  apply rt_value; [exact (fun _ => True)|apply eta_rt; split; assumption|lia|].
  destruct (eta_pack_ok 32 a HL F) as (b & E & _ & _ & V). eauto.
Qed.
Lemma t1_enc a : Enc.poly_in 0 1023 a -> exists b, polyt1_pack a = Ret b /\ Enc.bytes 320 b /\ polyt1_unpack b = a /\ Enc.value 8 b = Enc.value 10 a.
Proof.
  intros [HL HF]. replace (Enc.value 10 a) with (Enc.value 10 (map (fun x => x) a)) by now rewrite map_id.
  apply rt_value; [exact (fun _ => True)|apply t1_rt; split; assumption|lia|].
  destruct (t1_pack_ok 64 a HL) as (b & E & _ & _ & V); [eapply Forall_imp; [|exact HF]; cbv beta; lia|]. eauto.
Qed.
Lemma t0_enc a : Enc.poly_in (-4095) 4096 a -> exists b, polyt0_pack a = Ret b /\ Enc.bytes 416 b /\ polyt0_unpack b = a /\ Enc.value 8 b = Enc.value 13 (map (fun x => 4096 - x) a).
Proof.
  intros [HL HF]. apply rt_value; [exact (fun _ => True)|apply t0_rt; split; assumption|lia|].
  destruct (t0_pack_ok 32 a HL) as (b & E & _ & _ & V); [eapply Forall_imp; [|exact HF]; cbv beta; lia|]. eauto.
Qed.
Lemma z_enc a : Enc.poly_in (-131071) 131072 a -> exists b, polyz_pack a = Ret b /\ Enc.bytes 576 b /\ polyz_unpack b = a /\ Enc.value 8 b = Enc.value 18 (map (fun x => 131072 - x) a).
Proof.
  intros [HL HF]. apply rt_value; [exact (fun _ => True)|apply z_rt; split; assumption|lia|].
  destruct (z_pack_ok 64 a HL) as (b & E & _ & _ & V); [eapply Forall_imp; [|exact HF]; cbv beta; lia|]. eauto.
Qed.
Lemma w1_enc a : Enc.poly_in 0 63 a -> exists b, polyw1_pack a = Ret b /\ Enc.bytes 192 b /\ Enc.value 8 b = Enc.value 6 a.
Proof.
  intros H. destruct (w1_pack_in a H) as (b & E & HL & HB & V). exists b. split; [exact E|]. split; [split; [unfold zlen; lia|exact HB]|]. now rewrite !value_leval.
Qed.

(** ** Samplers on the real streams *)
Lemma uniform_loop_ext x y : (forall p n, 0 <= p -> 0 <= n -> x p n = y p n) -> forall fuel pos buf acc, 0 <= pos ->
  uniform_loop fuel x pos buf acc = uniform_loop fuel y pos buf acc.
Proof.
  intros H. induction fuel as [|fuel IH]; intros pos buf acc Hp; cbn [uniform_loop]; [reflexivity|]. destruct (_ <? _); [|reflexivity]. rewrite H by lia. apply IH. lia.
Qed.
Lemma poly_uniform_x_ext x y fuel : (forall p n, 0 <= p -> 0 <= n -> x p n = y p n) -> poly_uniform_x fuel x = poly_uniform_x fuel y.
Proof. intros H. unfold poly_uniform_x. rewrite H by lia. apply uniform_loop_ext; [exact H|lia]. Qed.
Lemma eta_loop_ext x y : (forall p n, 0 <= p -> 0 <= n -> x p n = y p n) -> forall fuel pos acc, 0 <= pos ->
  eta_loop fuel x pos acc = eta_loop fuel y pos acc.
Proof.
  intros H. induction fuel as [|fuel IH]; intros pos acc Hp; cbn [eta_loop]; [reflexivity|]. destruct (_ <? _); [|reflexivity]. rewrite H by lia. apply IH. lia.
Qed.
Lemma poly_uniform_eta_x_ext x y fuel : (forall p n, 0 <= p -> 0 <= n -> x p n = y p n) -> poly_uniform_eta_x fuel x = poly_uniform_eta_x fuel y.
Proof. intros H. unfold poly_uniform_eta_x. rewrite H by lia. apply eta_loop_ext; [exact H|lia]. Qed.
Lemma chal_next_ext x y i : (forall p n, 0 <= p -> 0 <= n -> x p n = y p n) -> forall fuel buf pos off, 0 <= off ->
  chal_next fuel x i (buf, pos, off) = chal_next fuel y i (buf, pos, off) /\
  (forall b buf' pos' off', chal_next fuel x i (buf, pos, off) = Some (b, (buf', pos', off')) -> 0 <= off').
Proof.
  intros H. induction fuel as [|fuel IH]; intros buf pos off Ho; cbn [chal_next]; [split; [reflexivity|discriminate]|].
  destruct (136 <=? pos).
  - rewrite H by lia. destruct (i <? _); [apply IH; lia|]. split; [reflexivity|]. intros b buf' pos' off' E. injection E. intros; lia.
  - destruct (i <? _); [apply IH; lia|]. split; [reflexivity|]. intros b buf' pos' off' E. injection E. intros; lia.
Qed.
Lemma chal_loop_ext x y fuel : (forall p n, 0 <= p -> 0 <= n -> x p n = y p n) -> forall is c signs buf pos off, 0 <= off ->
  chal_loop fuel x is c signs (buf, pos, off) = chal_loop fuel y is c signs (buf, pos, off).
Proof.
  intros H. induction is as [|i is IH]; intros c signs buf pos off Ho; cbn [chal_loop]; [reflexivity|].
  destruct (chal_next_ext x y i H fuel buf pos off Ho) as [E G]. rewrite <- E. destruct (chal_next fuel x i (buf, pos, off)) as [[b [[buf' pos'] off']]|]; [|reflexivity].
  apply IH. eapply G. reflexivity.
Qed.
Lemma poly_challenge_x_ext x y fuel : (forall p n, 0 <= p -> 0 <= n -> x p n = y p n) -> poly_challenge_x fuel x = poly_challenge_x fuel y.
Proof. intros H. unfold poly_challenge_x. rewrite H by lia. apply chal_loop_ext; [exact H|lia]. Qed.

Lemma stream128_xof seed nonce : exists s, byte_stream s /\ forall p n, 0 <= p -> 0 <= n -> stream128 seed nonce p n = xof_of s p n.
Proof. eexists. split; [|intros p n Hp Hn; apply shake_xof; lia]. apply stream_byte. Qed.
Lemma stream256_xof seed nonce : exists s, byte_stream s /\ forall p n, 0 <= p -> 0 <= n -> stream256 seed nonce p n = xof_of s p n.
Proof. eexists. split; [|intros p n Hp Hn; apply shake_xof; lia]. apply stream_byte. Qed.
Lemma shake256_xof_of seed : exists s, byte_stream s /\ forall p n, 0 <= p -> 0 <= n -> shake256_xof seed p n = xof_of s p n.
Proof. eexists. split; [|intros p n Hp Hn; apply shake_xof; lia]. apply stream_byte. Qed.
Lemma poly_uniform_real fuel seed nonce a : poly_uniform fuel seed nonce = Some a -> poly_in 0 (Q - 1) a.
Proof.
  destruct (stream128_xof seed nonce) as (s & Hs & E). unfold poly_uniform. rewrite (poly_uniform_x_ext _ _ _ E). intros H.
  destruct (poly_uniform_in s fuel a Hs H) as [HL HF]. split; [exact HL|]. eapply Forall_imp; [|exact HF]. cbv beta. lia.
Qed.
Lemma poly_uniform_eta_real fuel seed nonce a : poly_uniform_eta fuel seed nonce = Some a -> poly_in (-2) 2 a.
Proof.
  destruct (stream256_xof seed nonce) as (s & Hs & E). unfold poly_uniform_eta. rewrite (poly_uniform_eta_x_ext _ _ _ E). intros H.
  exact (poly_uniform_eta_in s fuel a Hs H).
Qed.
Lemma poly_challenge_real fuel seed c : poly_challenge fuel seed = Some c -> poly_in (-1) 1 c /\ Sample.nonzero c = 39.
Proof.
  destruct (shake256_xof_of (slice seed 0 32)) as (s & Hs & E). unfold poly_challenge. rewrite (poly_challenge_x_ext _ _ _ E). intros H.
  destruct (poly_challenge_in s fuel c Hs H) as (HL & HF & HN). split; [split; [unfold zlen in HL; lia|]|exact HN]. eapply Forall_imp; [|exact HF]. unfold pm1. intros; lia.
Qed.
Lemma poly_uniform_gamma1_real seed nonce : poly_in (-131071) 131072 (poly_uniform_gamma1 seed nonce).
Proof.
  destruct (stream256_xof seed nonce) as (s & Hs & E). unfold poly_uniform_gamma1, poly_uniform_gamma1_x. rewrite E by lia. exact (poly_uniform_gamma1_in s Hs).
Qed.
