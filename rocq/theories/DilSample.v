(** The samplers of poly.c compute the FIPS 204 samplers of the XOF output stream. *)
From Verif Require Import Base Keccak SpongePure SpongeProofs SpongeProofs2 Tab DilReduce DilPoly DilPack DilSampleSpec.
Ltac Zify.zify_post_hook ::= Z.div_mod_to_equations.

(** The extendable output function whose output is the stream [s] *)
Definition xof_of (s : Z -> Z) : xof := fun pos n => map s (zseq pos (Z.to_nat n)).
Lemma zseq_seq i n : zseq i n = map (fun k => i + Z.of_nat k) (seq 0 n).
Proof.
  apply nth_ext with (d := 0) (d' := i + Z.of_nat 0); [now rewrite zseq_length, map_length, seq_length|].
  intros k Hk. rewrite zseq_length in Hk. rewrite nth_zseq by exact Hk. rewrite (map_nth (fun k => i + Z.of_nat k)), seq_nth by exact Hk. lia.
Qed.
Lemma prefix_zseq s n : Sample.prefix s n = map s (zseq 0 n).
Proof. unfold Sample.prefix. rewrite zseq_seq, map_map. apply map_ext. intros k. f_equal. Qed.
Lemma prefix_add s a b : Sample.prefix s (a + b) = Sample.prefix s a ++ map s (zseq (Z.of_nat a) b).
Proof. rewrite !prefix_zseq, zseq_app, map_app. reflexivity. Qed.
Lemma prefix_len s n : length (Sample.prefix s n) = n.
Proof. unfold Sample.prefix. now rewrite map_length, seq_length. Qed.

(** ** uniform modulo q *)
Lemma cand_val b0 b1 b2 : byte_ok b0 -> byte_ok b1 -> byte_ok b2 ->
  Z.land (Z.lor (Z.lor b0 (Z.shiftl b1 8)) (Z.shiftl b2 16)) 0x7FFFFF = b0 + 2 ^ 8 * b1 + 2 ^ 16 * (b2 mod 2 ^ 7).
Proof.
  unfold byte_ok. intros H0 H1 H2. change 0x7FFFFF with (Z.ones 23). rewrite Z.land_ones by lia.
  rewrite !Z.shiftl_mul_pow2 by lia.
  rewrite (lor_add 8 b0 (b1 * 2 ^ 8)) by lia.
  rewrite (lor_add 16 (b0 + b1 * 2 ^ 8) (b2 * 2 ^ 16)) by lia. lia.
Qed.
Lemma three_ind (P : list Z -> Prop) : P [] -> (forall a, P [a]) -> (forall a b, P [a; b]) ->
  (forall a b c l, P l -> P (a :: b :: c :: l)) -> forall l, P l.
Proof.
  intros H0 H1 H2 H3. fix IH 1. intros [|a [|b [|c l]]]; [exact H0|apply H1|apply H2|apply H3, IH].
Qed.
Lemma rej_uniform_spec buf : forall len, bytes_ok buf -> rej_uniform len buf = firstn len (Sample.uniform_accepted buf).
Proof.
  induction buf as [|a|a b|b0 b1 b2 l IH] using three_ind; intros len HB; try (destruct len; reflexivity).
  destruct len as [|len]; [reflexivity|]. apply Forall_cons_iff in HB as [H0 HB]. apply Forall_cons_iff in HB as [H1 HB]. apply Forall_cons_iff in HB as [H2 HB].
  cbn [rej_uniform]. rewrite cand_val by assumption. unfold Sample.uniform_accepted. cbn [Sample.three_byte_candidates filter]. unfold Q.
  destruct (_ <? 8380417); [cbn [firstn]; f_equal|]; now rewrite IH.
Qed.
Lemma cands_app a b : (length a mod 3 = 0)%nat -> Sample.uniform_accepted (a ++ b) = Sample.uniform_accepted a ++ Sample.uniform_accepted b.
Proof.
  unfold Sample.uniform_accepted. intros H. rewrite <- filter_app. f_equal. revert H.
  induction a as [|x|x y|b0 b1 b2 l IH] using three_ind; intros H; try reflexivity; try discriminate H.
  cbn [app Sample.three_byte_candidates]. f_equal. apply IH. cbn [length] in H. replace (S (S (S (length l)))) with (length l + 1 * 3)%nat in H by lia.
  now rewrite Nat.mod_add in H by lia.
Qed.
Lemma Some_inj {A} (a b : A) : Some a = Some b -> a = b.
Proof. now intros [= ->]. Qed.
Definition full (a : list Z) : option (list Z) := if (length a =? 256)%nat then Some a else None.
Definition byte_stream (s : Z -> Z) : Prop := forall k, 0 <= k -> byte_ok (s k).
Lemma bytes_stream s p n : byte_stream s -> 0 <= p -> bytes_ok (map s (zseq p n)).
Proof. intros H Hp. apply Forall_map. apply Forall_forall. intros k Hk. apply in_zseq in Hk. apply H. lia. Qed.
Lemma firstn_full (a b : list Z) : (256 <= length a)%nat -> firstn 256 (a ++ b) = firstn 256 a.
Proof. intros. rewrite firstn_app. replace (256 - length a)%nat with 0%nat by lia. now rewrite firstn_O, app_nil_r. Qed.
Lemma prefix_cands s p k : (p mod 3 = 0)%nat ->
  Sample.uniform_accepted (Sample.prefix s (p + k)) = Sample.uniform_accepted (Sample.prefix s p) ++ Sample.uniform_accepted (map s (zseq (Z.of_nat p) k)).
Proof. intros H. rewrite prefix_add, cands_app; [reflexivity|now rewrite prefix_len]. Qed.
Lemma uniform_loop_spec s : byte_stream s -> forall fuel p buf, (p mod 3 = 0)%nat -> zlen buf mod 3 = 0 ->
  uniform_loop fuel (xof_of s) (Z.of_nat p) buf (firstn 256 (Sample.uniform_accepted (Sample.prefix s p)))
  = full (firstn 256 (Sample.uniform_accepted (Sample.prefix s (p + 168 * fuel)))).
Proof.
  intros Hs. induction fuel as [|fuel IH]; intros p buf Hp Hb; cbn [uniform_loop].
  - rewrite Nat.mul_0_r, Nat.add_0_r. unfold full. pose proof (firstn_le_length 256 (Sample.uniform_accepted (Sample.prefix s p))).
    destruct (Z.ltb_spec (zlen (firstn 256 (Sample.uniform_accepted (Sample.prefix s p)))) 256) as [L|L]; unfold zlen in L.
    + replace (_ =? 256)%nat with false by (symmetry; apply Nat.eqb_neq; lia). reflexivity.
    + replace (_ =? 256)%nat with true by (symmetry; apply Nat.eqb_eq; lia). reflexivity.
  - pose proof (firstn_le_length 256 (Sample.uniform_accepted (Sample.prefix s p))).
    pose proof (firstn_length 256 (Sample.uniform_accepted (Sample.prefix s p))) as FL.
    destruct (Z.ltb_spec (zlen (firstn 256 (Sample.uniform_accepted (Sample.prefix s p)))) 256) as [L|L]; unfold zlen in L.
    + rewrite Hb. replace (slice buf (zlen buf - 0) 0) with (@nil Z) by (unfold slice; now rewrite firstn_O). cbn [app].
      set (nb := xof_of s (Z.of_nat p) 168).
      assert (Hnb: bytes_ok nb) by (apply bytes_stream; [exact Hs|lia]).
      assert (Lnb: zlen nb = 168) by (unfold nb, xof_of; rewrite zlen_map, zlen_zseq; reflexivity).
      replace (Z.of_nat p + 168) with (Z.of_nat (p + 168)) by lia.
      assert (Hp': ((p + 168) mod 3 = 0)%nat) by (replace (p + 168)%nat with (p + 56 * 3)%nat by lia; now rewrite Nat.mod_add by lia).
      replace (firstn 256 (Sample.uniform_accepted (Sample.prefix s p)) ++ rej_uniform _ nb)
        with (firstn 256 (Sample.uniform_accepted (Sample.prefix s (p + 168)))).
      * rewrite IH; [replace (p + 168 * S fuel)%nat with (p + 168 + 168 * fuel)%nat by lia; reflexivity|exact Hp'|rewrite Lnb; reflexivity].
      * rewrite prefix_cands by exact Hp. rewrite rej_uniform_spec by exact Hnb. rewrite firstn_app, FL.
        f_equal. replace (Init.Nat.min 256 (length (Sample.uniform_accepted (Sample.prefix s p)))) with (length (Sample.uniform_accepted (Sample.prefix s p))) by lia. reflexivity.
    + rewrite prefix_cands by exact Hp. rewrite firstn_full by lia. unfold full. replace (_ =? 256)%nat with true by (symmetry; apply Nat.eqb_eq; lia). reflexivity.
Qed.
Lemma poly_uniform_spec s fuel : byte_stream s ->
  poly_uniform_x fuel (xof_of s) = full (firstn 256 (Sample.uniform_accepted (Sample.prefix s (840 + 168 * fuel)))).
Proof.
  intros Hs. unfold poly_uniform_x. rewrite rej_uniform_spec by (apply bytes_stream; [exact Hs|lia]).
  unfold xof_of at 3. rewrite <- prefix_zseq. change (Z.to_nat 840) with 840%nat. change 840 with (Z.of_nat 840) at 1.
  apply uniform_loop_spec; [exact Hs|reflexivity|]. unfold xof_of. rewrite zlen_map, zlen_zseq. reflexivity.
Qed.

(** ** small secrets *)
Lemma eta_coeff_val t : 0 <= t < 15 -> eta_coeff t = 2 - t mod 5.
Proof.
  intros H. assert (G: forallb (fun t => eta_coeff t =? 2 - t mod 5) (zseq 0 15) = true) by (vm_compute; reflexivity).
  rewrite forallb_forall in G. apply Z.eqb_eq, G, in_zseq. lia.
Qed.
Lemma eta_acc_cons b l : Sample.eta_accepted (b :: l) = Sample.eta_accepted [b] ++ Sample.eta_accepted l.
Proof.
  unfold Sample.eta_accepted, Sample.half_bytes. cbn [map concat]. rewrite app_nil_r, filter_app, map_app. reflexivity.
Qed.
Lemma rej_eta_spec buf : forall len, bytes_ok buf -> rej_eta len buf = firstn len (Sample.eta_accepted buf).
Proof.
  induction buf as [|b l IH]; intros len HB; [now rewrite firstn_nil|]. apply Forall_cons_iff in HB as [Hb HB].
  cbn [rej_eta]. destruct len as [|len]; [reflexivity|]. rewrite eta_acc_cons. unfold byte_ok in Hb.
  change (Z.land b 15) with (Z.land b (Z.ones 4)). rewrite Z.land_ones, Z.shiftr_div_pow2 by lia. change (2 ^ 4) with 16.
  unfold Sample.eta_accepted at 1, Sample.half_bytes. cbn [map concat app filter].
  pose proof (eta_coeff_val (b mod 16)). pose proof (eta_coeff_val (b / 16)).
  destruct (Z.ltb_spec (b mod 16) 15); destruct (Z.ltb_spec (b / 16) 15); cbn [map app length andb].
  - destruct len as [|len]; cbn [Nat.sub Z.of_nat app firstn length].
    + change (0 <? 0) with false. cbn match. cbn [app length Nat.sub]. rewrite IH by exact HB. rewrite H by lia. reflexivity.
    + replace (0 <? Z.pos (Pos.of_succ_nat len)) with true by (symmetry; apply Z.ltb_lt; lia). cbn [app length]. rewrite IH by exact HB. rewrite H, H0 by lia. cbn [Nat.sub]. now rewrite Nat.sub_0_r.
  - cbn [Nat.sub]. rewrite !Nat.sub_0_r. cbn [firstn]. rewrite IH by exact HB. rewrite H by lia. reflexivity.
  - rewrite Nat.sub_0_r. replace (0 <? Z.of_nat (S len)) with true by (symmetry; apply Z.ltb_lt; lia). cbn [app length firstn Nat.sub]. rewrite Nat.sub_0_r, IH by exact HB. rewrite H0 by lia. reflexivity.
  - rewrite !Nat.sub_0_r. rewrite IH by exact HB. reflexivity.
Qed.
Lemma eta_acc_app a b : Sample.eta_accepted (a ++ b) = Sample.eta_accepted a ++ Sample.eta_accepted b.
Proof. induction a as [|x a IH]; [reflexivity|]. cbn [app]. rewrite eta_acc_cons, IH, (eta_acc_cons x a), app_assoc. reflexivity. Qed.
Lemma eta_loop_spec s : byte_stream s -> forall fuel p,
  eta_loop fuel (xof_of s) (Z.of_nat p) (firstn 256 (Sample.eta_accepted (Sample.prefix s p)))
  = full (firstn 256 (Sample.eta_accepted (Sample.prefix s (p + 136 * fuel)))).
Proof.
  intros Hs. induction fuel as [|fuel IH]; intros p; cbn [eta_loop].
  - rewrite Nat.mul_0_r, Nat.add_0_r. unfold full. pose proof (firstn_le_length 256 (Sample.eta_accepted (Sample.prefix s p))).
    destruct (Z.ltb_spec (zlen (firstn 256 (Sample.eta_accepted (Sample.prefix s p)))) 256) as [L|L]; unfold zlen in L.
    + replace (_ =? 256)%nat with false by (symmetry; apply Nat.eqb_neq; lia). reflexivity.
    + replace (_ =? 256)%nat with true by (symmetry; apply Nat.eqb_eq; lia). reflexivity.
  - pose proof (firstn_le_length 256 (Sample.eta_accepted (Sample.prefix s p))).
    pose proof (firstn_length 256 (Sample.eta_accepted (Sample.prefix s p))) as FL.
    destruct (Z.ltb_spec (zlen (firstn 256 (Sample.eta_accepted (Sample.prefix s p)))) 256) as [L|L]; unfold zlen in L.
    + replace (Z.of_nat p + 136) with (Z.of_nat (p + 136)) by lia.
      assert (Hnb: bytes_ok (xof_of s (Z.of_nat p) 136)) by (apply bytes_stream; [exact Hs|lia]).
      replace (firstn 256 (Sample.eta_accepted (Sample.prefix s p)) ++ rej_eta _ (xof_of s (Z.of_nat p) 136))
        with (firstn 256 (Sample.eta_accepted (Sample.prefix s (p + 136)))).
      * rewrite IH. replace (p + 136 * S fuel)%nat with (p + 136 + 136 * fuel)%nat by lia. reflexivity.
      * rewrite prefix_add, eta_acc_app. rewrite rej_eta_spec by exact Hnb. rewrite firstn_app, FL.
        f_equal. replace (Init.Nat.min 256 (length (Sample.eta_accepted (Sample.prefix s p)))) with (length (Sample.eta_accepted (Sample.prefix s p))) by lia. reflexivity.
    + rewrite prefix_add, eta_acc_app. rewrite firstn_full by lia. unfold full. replace (_ =? 256)%nat with true by (symmetry; apply Nat.eqb_eq; lia). reflexivity.
Qed.
Lemma poly_uniform_eta_spec s fuel : byte_stream s ->
  poly_uniform_eta_x fuel (xof_of s) = full (firstn 256 (Sample.eta_accepted (Sample.prefix s (136 + 136 * fuel)))).
Proof.
  intros Hs. unfold poly_uniform_eta_x. rewrite rej_eta_spec by (apply bytes_stream; [exact Hs|lia]).
  unfold xof_of at 2. rewrite <- prefix_zseq. change (Z.to_nat 136) with 136%nat. change 136 with (Z.of_nat 136) at 1.
  now apply eta_loop_spec.
Qed.

(** ** Ranges *)
Lemma in_firstn {A} n (l : list A) x : In x (firstn n l) -> In x l.
Proof. intros H. rewrite <- (firstn_skipn n l). apply in_or_app. now left. Qed.
Lemma three_nonneg b : bytes_ok b -> Forall (fun z => 0 <= z) (Sample.three_byte_candidates b).
Proof.
  induction b as [|a|a b|b0 b1 b2 l IH] using three_ind; intros HB; try constructor.
  - unfold bytes_ok in HB. rewrite !Forall_cons_iff in HB. unfold byte_ok in HB. lia.
  - apply IH. unfold bytes_ok in HB |- *. rewrite !Forall_cons_iff in HB. tauto.
Qed.
Lemma uniform_range b : bytes_ok b -> Forall (fun z => 0 <= z < Q) (Sample.uniform_accepted b).
Proof.
  intros HB. apply Forall_forall. intros z Hz. apply filter_In in Hz as [H1 H2]. pose proof (three_nonneg b HB) as H. rewrite Forall_forall in H.
  apply Z.ltb_lt in H2. apply H in H1. unfold Q. lia.
Qed.
Lemma eta_range b : Forall (fun z => -2 <= z <= 2) (Sample.eta_accepted b).
Proof. apply Forall_map, Forall_forall. intros z _. lia. Qed.
Lemma Forall_firstn {A} (P : A -> Prop) n l : Forall P l -> Forall P (firstn n l).
Proof. rewrite !Forall_forall. eauto using in_firstn. Qed.
Lemma prefix_bytes s n : byte_stream s -> bytes_ok (Sample.prefix s n).
Proof. intros H. rewrite prefix_zseq. now apply bytes_stream. Qed.
Lemma full_inv a b : full a = Some b -> b = a /\ length b = 256%nat.
Proof. unfold full. destruct (Nat.eqb_spec (length a) 256); [|discriminate]. intros H. apply Some_inj in H. subst. auto. Qed.
Lemma poly_uniform_in s fuel a : byte_stream s -> poly_uniform_x fuel (xof_of s) = Some a -> length a = 256%nat /\ Forall (fun z => 0 <= z < Q) a.
Proof.
  intros Hs E. rewrite poly_uniform_spec in E by exact Hs. apply full_inv in E as [-> HL]. split; [exact HL|].
  apply Forall_firstn, uniform_range, prefix_bytes, Hs.
Qed.
Lemma poly_uniform_eta_in s fuel a : byte_stream s -> poly_uniform_eta_x fuel (xof_of s) = Some a -> length a = 256%nat /\ Forall (fun z => -2 <= z <= 2) a.
Proof.
  intros Hs E. rewrite poly_uniform_eta_spec in E by exact Hs. apply full_inv in E as [-> HL]. split; [exact HL|].
  apply Forall_firstn, eta_range.
Qed.

(** ** The challenge *)
(** the state is at stream position [q] *)
Definition at_pos (s : Z -> Z) (st : list Z * Z * Z) (q : Z) : Prop :=
  let '(buf, pos, off) := st in buf = map s (zseq (off - 136) 136) /\ 0 <= pos <= 136 /\ 136 <= off /\ q = off - 136 + pos.
Lemma chal_read s st q i fuel : at_pos s st q -> exists st', at_pos s st' (q + 1) /\
  chal_next (S fuel) (xof_of s) i st = if i <? s q then chal_next fuel (xof_of s) i st' else Some (s q, st').
Proof.
  destruct st as [[buf pos] off]. intros (-> & Hp & Ho & ->). cbn [chal_next].
  destruct (Z.leb_spec 136 pos) as [H|H].
  - exists (xof_of s off 136, 0 + 1, off + 136). split.
    + repeat split; try lia. unfold xof_of. do 2 f_equal. lia.
    + replace (ix (xof_of s off 136) 0) with (s (off - 136 + pos)); [reflexivity|]. unfold ix, xof_of. change (Z.to_nat 136) with 136%nat. change (Z.to_nat 0) with 0%nat. cbn [zseq map nth]. f_equal. lia.
  - exists (map s (zseq (off - 136) 136), pos + 1, off). split; [repeat split; lia|].
    replace (ix (map s (zseq (off - 136) 136)) pos) with (s (off - 136 + pos)); [reflexivity|]. unfold ix.
    rewrite nth_indep with (d' := s 0) by (rewrite map_length, zseq_length; lia). rewrite map_nth, nth_zseq by lia. f_equal. lia.
Qed.
Lemma chal_next_sound s i : forall fuel st q b st', at_pos s st q -> chal_next fuel (xof_of s) i st = Some (b, st') ->
  exists k, at_pos s st' (q + Z.of_nat k + 1) /\ b = s (q + Z.of_nat k) /\ b <= i /\ (forall j, 0 <= j < Z.of_nat k -> i < s (q + j)).
Proof.
  induction fuel as [|fuel IH]; intros st q b st' Hst E; [discriminate E|].
  destruct (chal_read s st q i fuel Hst) as (st1 & Hst1 & E1). rewrite E1 in E. destruct (Z.ltb_spec i (s q)) as [H|H].
  - destruct (IH _ _ _ _ Hst1 E) as (k & P1 & P2 & P3 & P4). exists (S k). split; [replace (q + Z.of_nat (S k) + 1) with (q + 1 + Z.of_nat k + 1) by lia; exact P1|].
    split; [rewrite P2; f_equal; lia|]. split; [exact P3|]. intros j Hj. destruct (Z.eq_dec j 0) as [->|]; [now rewrite Z.add_0_r|]. replace (q + j) with (q + 1 + (j - 1)) by lia. apply P4. lia.
  - apply Some_inj in E. injection E as <- <-. exists 0%nat. change (Z.of_nat 0) with 0. rewrite Z.add_0_r. split; [exact Hst1|]. split; [reflexivity|]. split; [exact H|]. intros j Hj. lia.
Qed.
Lemma chal_next_complete s i : forall k fuel st q, at_pos s st q -> (k < fuel)%nat -> s (q + Z.of_nat k) <= i -> (forall j, 0 <= j < Z.of_nat k -> i < s (q + j)) ->
  exists st', chal_next fuel (xof_of s) i st = Some (s (q + Z.of_nat k), st') /\ at_pos s st' (q + Z.of_nat k + 1).
Proof.
  induction k as [|k IH]; intros fuel st q Hst Hf Hk Hall; (destruct fuel as [|fuel]; [lia|]);
  destruct (chal_read s st q i fuel Hst) as (st1 & Hst1 & E1); rewrite E1.
  - change (Z.of_nat 0) with 0 in *. rewrite Z.add_0_r in *. destruct (Z.ltb_spec i (s q)); [lia|]. eauto.
  - pose proof (Hall 0 ltac:(lia)) as H0. rewrite Z.add_0_r in H0. destruct (Z.ltb_spec i (s q)); [|lia].
    destruct (IH fuel st1 (q + 1) Hst1) as (st' & E2 & H2); [lia|now replace (q + 1 + Z.of_nat k) with (q + Z.of_nat (S k)) by lia| |].
    + intros j Hj. replace (q + 1 + j) with (q + (j + 1)) by lia. apply Hall. lia.
    + exists st'. replace (q + Z.of_nat (S k)) with (q + 1 + Z.of_nat k) by lia. auto.
Qed.
(** the specification skips the same bytes *)
Lemma ball_skip s i n signs c : forall k q m, (forall j, 0 <= j < Z.of_nat k -> i < s (q + j)) ->
  Sample.sample_in_ball (map s (zseq q (k + m))) (S n) i signs c = Sample.sample_in_ball (map s (zseq (q + Z.of_nat k) m)) (S n) i signs c.
Proof.
  induction k as [|k IH]; intros q m H; [cbn [Nat.add]; do 3 f_equal; lia|]. cbn [Nat.add zseq map Sample.sample_in_ball].
  pose proof (H 0 ltac:(lia)) as H0. rewrite Z.add_0_r in H0. destruct (Z.ltb_spec i (s q)); [|lia].
  rewrite IH; [do 3 f_equal; lia|]. intros j Hj. replace (q + 1 + j) with (q + (j + 1)) by lia. apply H. lia.
Qed.
Lemma ball_none s i n signs c m : forall q, Sample.sample_in_ball (map s (zseq q m)) (S n) i signs c <> None ->
  exists k, (k < m)%nat /\ s (q + Z.of_nat k) <= i /\ (forall j, 0 <= j < Z.of_nat k -> i < s (q + j)).
Proof.
  induction m as [|m IH]; intros q H; [now elim H|]. cbn [zseq map Sample.sample_in_ball] in H.
  destruct (Z.ltb_spec i (s q)).
  - destruct (IH (q + 1) H) as (k & K1 & K2 & K3). exists (S k). split; [lia|]. split; [now replace (q + Z.of_nat (S k)) with (q + 1 + Z.of_nat k) by lia|].
    intros j Hj. destruct (Z.eq_dec j 0) as [->|]; [now rewrite Z.add_0_r|]. replace (q + j) with (q + 1 + (j - 1)) by lia. apply K3. lia.
  - exists 0%nat. change (Z.of_nat 0) with 0. rewrite Z.add_0_r. split; [lia|]. split; [assumption|]. intros; lia.
Qed.
Lemma set_upd c i v : 0 <= i < zlen c -> Sample.set c i v = upd c (Z.to_nat i) v.
Proof.
  unfold zlen. intros H. unfold Sample.set. assert (G: forall k (l : list Z), (k < length l)%nat -> firstn k l ++ v :: skipn (k + 1) l = upd l k v).
  { induction k as [|k IH]; intros [|x l] HL; cbn in HL; try lia; cbn [firstn upd app Nat.add skipn]; [reflexivity|]. f_equal. apply IH. lia. }
  apply G. lia.
Qed.
Definition sgn_agree (n : nat) (z : Z) (l : list bool) : Prop := forall k, (k < n)%nat -> Z.testbit z (Z.of_nat k) = nth k l false.
Lemma sgn_step n z l : 0 <= z -> sgn_agree (S n) z l -> i32 (u64 (1 - 2 * Z.land z 1)) = (if hd false l then -1 else 1) /\ sgn_agree n (Z.shiftr z 1) (tl l) /\ 0 <= Z.shiftr z 1.
Proof.
  intros Hz H. split; [|split].
  - pose proof (H 0%nat ltac:(lia)) as H0. change (Z.of_nat 0) with 0 in H0. change (Z.land z 1) with (Z.land z (Z.ones 1)). rewrite Z.land_ones by lia. change (2 ^ 1) with 2.
    rewrite <- Z.bit0_mod, H0. destruct l as [|[] l]; reflexivity.
  - intros k Hk. rewrite Z.shiftr_spec by lia. pose proof (H (S k) ltac:(lia)) as H1. replace (Z.of_nat k + 1) with (Z.of_nat (S k)) by lia. rewrite H1. destruct l; [destruct k; reflexivity|reflexivity].
  - now apply Z.shiftr_nonneg.
Qed.
Lemma chal_loop_sound s : byte_stream s -> forall n fuel i c z sl st q r, at_pos s st q -> 0 <= q -> 0 <= z -> sgn_agree n z sl -> zlen c = 256 -> 0 <= i -> i + Z.of_nat n <= 256 ->
  chal_loop fuel (xof_of s) (zseq i n) c z st = Some r -> exists m, forall m', (m <= m')%nat -> Sample.sample_in_ball (map s (zseq q m')) n i sl c = Some r.
Proof.
  intros Hs. induction n as [|n IH]; intros fuel i c z sl st q r Hst Hq Hz Hsg HL Hi Hn E; cbn [zseq chal_loop] in E.
  - exists 0%nat. intros m' _. destruct (map s (zseq q m')); exact E.
  - destruct (chal_next fuel (xof_of s) i st) as [[b st']|] eqn:EN; [|discriminate E].
    destruct (chal_next_sound _ _ _ _ _ _ _ Hst EN) as (k & K1 & K2 & K3 & K4).
    destruct (sgn_step _ _ _ Hz Hsg) as (S1 & S2 & S3). rewrite S1 in E.
    pose proof (Hs (q + Z.of_nat k) ltac:(lia)) as Hb. rewrite <- K2 in Hb. unfold byte_ok in Hb.
    pose proof (fun H1 H2 H3 H4 => IH _ _ _ _ _ _ _ _ K1 H1 S3 S2 H2 H3 H4 E) as IH'. rewrite !zlen_upd in IH'.
    destruct IH' as (m & Hm); [lia|exact HL|lia|lia|].
    exists (k + S m)%nat. intros m' Hm'. replace m' with (k + S (m' - k - 1))%nat by lia. rewrite ball_skip by exact K4.
    cbn [zseq map Sample.sample_in_ball]. rewrite <- K2. destruct (Z.ltb_spec i b); [lia|].
    rewrite (set_upd c i) by lia. rewrite set_upd by (rewrite zlen_upd; lia). apply Hm. lia.
Qed.
Lemma chal_loop_complete s : byte_stream s -> forall n fuel i c z sl st q m r, at_pos s st q -> 0 <= q -> 0 <= z -> sgn_agree n z sl -> zlen c = 256 -> 0 <= i -> i + Z.of_nat n <= 256 ->
  (m <= fuel)%nat -> Sample.sample_in_ball (map s (zseq q m)) n i sl c = Some r -> chal_loop fuel (xof_of s) (zseq i n) c z st = Some r.
Proof.
  intros Hs. induction n as [|n IH]; intros fuel i c z sl st q m r Hst Hq Hz Hsg HL Hi Hn Hf E; cbn [zseq chal_loop].
  - destruct (map s (zseq q m)); exact E.
  - destruct (ball_none s i n sl c m q) as (k & K1 & K2 & K3); [congruence|].
    destruct (chal_next_complete s i k fuel st q Hst ltac:(lia) K2 K3) as (st' & E1 & H1). rewrite E1.
    destruct (sgn_step _ _ _ Hz Hsg) as (S1 & S2 & S3). rewrite S1.
    pose proof (Hs (q + Z.of_nat k) ltac:(lia)) as Hb. unfold byte_ok in Hb.
    replace m with (k + S (m - k - 1))%nat in E by lia. rewrite ball_skip in E by exact K3.
    cbn [zseq map Sample.sample_in_ball] in E. destruct (Z.ltb_spec i (s (q + Z.of_nat k))); [lia|].
    rewrite (set_upd c i) in E by lia. rewrite set_upd in E by (rewrite zlen_upd; lia).
    eapply (IH fuel _ _ _ _ _ _ (m - k - 1)%nat); try eassumption; [lia|rewrite !zlen_upd; exact HL|lia|lia|lia].
Qed.
Lemma byte_high b k : byte_ok b -> 8 <= k -> Z.testbit b k = false.
Proof.
  unfold byte_ok. intros Hb Hk. destruct (Z.eq_dec b 0) as [->|]; [apply Z.bits_0|]. apply Z.bits_above_log2; [lia|]. apply Z.log2_lt_pow2; [lia|].
  assert (2 ^ 8 <= 2 ^ k) by (apply Z.pow_le_mono_r; lia). lia.
Qed.
Lemma signs_agree b0 b1 b2 b3 b4 b5 b6 b7 l : bytes_ok [b0; b1; b2; b3; b4; b5; b6; b7] ->
  sgn_agree 64 (signs_of (b0 :: b1 :: b2 :: b3 :: b4 :: b5 :: b6 :: b7 :: l)) (Sample.bits [b0; b1; b2; b3; b4; b5; b6; b7])
  /\ 0 <= signs_of (b0 :: b1 :: b2 :: b3 :: b4 :: b5 :: b6 :: b7 :: l).
Proof.
  unfold bytes_ok. rewrite !Forall_cons_iff. intros (H0 & H1 & H2 & H3 & H4 & H5 & H6 & H7 & _).
  unfold signs_of, ix. cbn [fold_left nth Z.to_nat Pos.to_nat Pos.iter_op Nat.add Z.mul Pos.mul]. split.
  - intros k Hk. rewrite !Z.lor_spec, Z.bits_0, !Z.shiftl_spec by lia. unfold Sample.bits. cbn [map concat app].
    do 64 (destruct k as [|k]; [cbn [nth Z.of_nat Pos.of_succ_nat Pos.succ]; cbn [Z.sub Z.add Z.opp Z.pos_sub Pos.pred_double Z.succ_double Z.pred_double Z.double Pos.add Pos.succ];
      rewrite ?Z.testbit_neg_r by lia; rewrite ?(byte_high b0), ?(byte_high b1), ?(byte_high b2), ?(byte_high b3), ?(byte_high b4), ?(byte_high b5), ?(byte_high b6), ?(byte_high b7) by (assumption || lia);
      rewrite ?orb_false_l, ?orb_false_r; reflexivity|]). lia.
  - unfold byte_ok in *. assert (LN: forall a b, 0 <= a -> 0 <= b -> 0 <= Z.lor a b) by (intros; apply Z.lor_nonneg; auto).
    repeat apply LN; try lia; apply Z.shiftl_nonneg; rewrite ?Pos2Nat.inj_1; change (Pos.to_nat 1) with 1%nat; change (Pos.to_nat 2) with 2%nat; change (Pos.to_nat 3) with 3%nat; change (Pos.to_nat 4) with 4%nat; change (Pos.to_nat 5) with 5%nat; change (Pos.to_nat 6) with 6%nat; change (Pos.to_nat 7) with 7%nat; cbv iota beta; lia.
Qed.

Lemma zlen_zeros256 : zlen (zeros 256) = 256. Proof. reflexivity. Qed.
Lemma zeros256 : zeros 256 = repeat 0 256. Proof. reflexivity. Qed.
Lemma challenge_start s buf : byte_stream s -> buf = map s (zseq 0 136) ->
  sgn_agree 39 (signs_of buf) (Sample.bits (map s (zseq 0 8))) /\ 0 <= signs_of buf /\ at_pos s (buf, 8, 136) 8.
Proof.
  intros Hs Ebuf. pose proof (bytes_stream s 0 8 Hs ltac:(lia)) as HB.
  assert (E: buf = map s (zseq 0 8) ++ map s (zseq (0 + Z.of_nat 8) 128)) by (rewrite Ebuf, <- map_app, <- zseq_app; reflexivity).
  split; [|split; [|repeat split; auto; lia]]; rewrite E; clear E Ebuf.
  - generalize (map s (zseq (0 + Z.of_nat 8) 128)) as l. intros l. change (zseq 0 8) with [0; 1; 2; 3; 4; 5; 6; 7] in *. cbn [map app] in *.
    destruct (signs_agree (s 0) (s 1) (s 2) (s 3) (s 4) (s 5) (s 6) (s 7) l HB) as [H1 H2]. intros k Hk; apply H1; lia.
  - generalize (map s (zseq (0 + Z.of_nat 8) 128)) as l. intros l. change (zseq 0 8) with [0; 1; 2; 3; 4; 5; 6; 7] in *. cbn [map app] in *.
    now destruct (signs_agree (s 0) (s 1) (s 2) (s 3) (s 4) (s 5) (s 6) (s 7) l HB) as [H1 H2].
Qed.
Lemma challenge_unfold s fuel : exists buf, buf = map s (zseq 0 136) /\
  poly_challenge_x fuel (xof_of s) = chal_loop fuel (xof_of s) (zseq 217 39) (zeros 256) (signs_of buf) (buf, 8, 136).
Proof. exists (xof_of s 0 136). split; reflexivity. Qed.
Opaque chal_loop Sample.sample_in_ball signs_of zeros repeat poly_challenge_x.
Lemma prefix_split s n : (8 <= n)%nat -> firstn 8 (Sample.prefix s n) = map s (zseq 0 8) /\ skipn 8 (Sample.prefix s n) = map s (zseq 8 (n - 8)).
Proof.
  intros H. replace n with (8 + (n - 8))%nat by lia. rewrite prefix_add, prefix_zseq.
  assert (L: length (map s (zseq 0 8)) = 8%nat) by (now rewrite map_length, zseq_length).
  split; [rewrite firstn_app, L, Nat.sub_diag, firstn_O, app_nil_r; apply firstn_all2; lia|].
  rewrite skipn_app, L, Nat.sub_diag, skipn_all2 by lia. cbn [skipn app]. change (Z.of_nat 8) with 8. do 2 f_equal. lia.
Qed.
Lemma poly_challenge_sound s fuel c : byte_stream s -> poly_challenge_x fuel (xof_of s) = Some c ->
  exists n, forall n', (n <= n')%nat -> Sample.challenge (Sample.prefix s n') = Some c.
Proof.
  intros Hs E. destruct (challenge_unfold s fuel) as (buf & Eb & E'). rewrite E' in E.
  destruct (challenge_start s buf Hs Eb) as (H1 & H2 & H3).
  destruct (chal_loop_sound s Hs 39 fuel 217 (zeros 256) _ _ _ 8 c H3 ltac:(lia) H2 H1 zlen_zeros256 ltac:(lia) ltac:(lia) E) as (m & Hm).
  exists (8 + m)%nat. intros n' Hn. unfold Sample.challenge. destruct (prefix_split s n' ltac:(lia)) as [-> ->].
  rewrite <- zeros256. apply Hm. lia.
Qed.
Lemma poly_challenge_complete s n c fuel : byte_stream s -> (n <= fuel)%nat -> (8 <= n)%nat -> Sample.challenge (Sample.prefix s n) = Some c ->
  poly_challenge_x fuel (xof_of s) = Some c.
Proof.
  intros Hs Hf Hn E. unfold Sample.challenge in E. destruct (prefix_split s n Hn) as [E1 E2]. rewrite E1, E2 in E.
  destruct (challenge_unfold s fuel) as (buf & Eb & ->). destruct (challenge_start s buf Hs Eb) as (H1 & H2 & H3).
  rewrite <- zeros256 in E.
  eapply (chal_loop_complete s Hs 39 fuel 217 (zeros 256) (signs_of buf) _ (buf, 8, 136) 8 (n - 8)%nat c H3); try exact E; try exact H1; try exact H2; try lia.
  exact zlen_zeros256.
Qed.

Transparent Sample.sample_in_ball repeat.
(** exactly 39 nonzero coefficients *)
Definition nz (x : Z) : Z := if x =? 0 then 0 else 1.
Lemma nonzero_cons x c : Sample.nonzero (x :: c) = nz x + Sample.nonzero c.
Proof. unfold Sample.nonzero, nz. cbn [filter]. destruct (x =? 0); cbn [negb length]; lia. Qed.
Lemma nonzero_upd c : forall i v, (i < length c)%nat -> Sample.nonzero (upd c i v) = Sample.nonzero c - nz (nth i c 0) + nz v.
Proof.
  induction c as [|x c IH]; intros [|i] v H; cbn [length] in H; try lia; cbn [upd nth]; rewrite !nonzero_cons; [lia|]. rewrite IH by lia. lia.
Qed.
Definition pm1 (x : Z) : Prop := x = -1 \/ x = 0 \/ x = 1.
Lemma Forall_upd {A} (P : A -> Prop) l : forall i v, Forall P l -> P v -> Forall P (upd l i v).
Proof. induction l as [|x l IH]; intros [|i] v H Hv; cbn [upd]; auto; apply Forall_cons_iff in H as [? ?]; constructor; auto. Qed.
Lemma ball_inv b : forall n i sl c r, bytes_ok b -> zlen c = 256 -> 0 <= i -> i + Z.of_nat n <= 256 -> Forall pm1 c ->
  (forall j, i <= j < 256 -> ix c j = 0) ->
  Sample.sample_in_ball b n i sl c = Some r -> zlen r = 256 /\ Forall pm1 r /\ Sample.nonzero r = Sample.nonzero c + Z.of_nat n.
Proof.
  induction b as [|j b IH]; intros n i sl c r HB HL Hi Hn HP HZ E; (destruct n as [|n]; [apply Some_inj in E; subst r; repeat split; [exact HL|exact HP|lia]|]); [discriminate E|].
  apply Forall_cons_iff in HB as [Hj HB]. unfold byte_ok in Hj. cbn [Sample.sample_in_ball] in E. destruct (Z.ltb_spec i j) as [H|H]; [eauto|].
  rewrite (set_upd c i) in E by lia. rewrite set_upd in E by (rewrite zlen_upd; lia).
  set (v := if hd false sl then -1 else 1) in E. assert (Hv: pm1 v /\ nz v = 1) by (unfold v, pm1, nz; destruct (hd false sl); split; auto).
  assert (Pj: pm1 (nth (Z.to_nat j) c 0)).
  { rewrite Forall_forall in HP. apply HP, nth_In. unfold zlen in HL. lia. }
  apply IH in E; try assumption; try lia.
  - destruct E as (E1 & E2 & E3). split; [exact E1|]. split; [exact E2|]. rewrite E3. unfold zlen in HL.
    rewrite nonzero_upd by (rewrite upd_length; lia). rewrite nonzero_upd by lia.
    replace (nth (Z.to_nat i) c 0) with 0 by (symmetry; apply (HZ i); lia). rewrite nth_upd.
    destruct (Nat.eqb_spec (Z.to_nat i) (Z.to_nat j)) as [Eij|Nij].
    + replace (Z.to_nat i <? length c)%nat with true by (symmetry; apply Nat.ltb_lt; lia). cbn [andb]. change (nz 0) with 0. lia.
    + cbn [andb]. change (nz 0) with 0. lia.
  - rewrite !zlen_upd. exact HL.
  - apply Forall_upd; [apply Forall_upd; [exact HP|exact Pj]|tauto].
  - intros k Hk. rewrite ix_upd by (rewrite ?zlen_upd; lia). rewrite ix_upd by lia.
    destruct (Z.eqb_spec k j); [lia|]. destruct (Z.eqb_spec k i); [lia|]. apply HZ. lia.
Qed.
Lemma challenge_inv b c : bytes_ok b -> Sample.challenge b = Some c -> zlen c = 256 /\ Forall pm1 c /\ Sample.nonzero c = 39.
Proof.
  intros HB E. unfold Sample.challenge in E. apply ball_inv in E; try (reflexivity || lia).
  - exact E.
  - apply Forall_forall. intros x Hx. unfold bytes_ok in HB. rewrite Forall_forall in HB. apply HB. rewrite <- (firstn_skipn 8 b). apply in_or_app. now right.
  - apply Forall_forall. intros x Hx. apply repeat_spec in Hx. subst. right. now left.
  - intros j Hj. unfold ix. apply nth_repeat.
Qed.
Lemma poly_challenge_in s fuel c : byte_stream s -> poly_challenge_x fuel (xof_of s) = Some c -> zlen c = 256 /\ Forall pm1 c /\ Sample.nonzero c = 39.
Proof.
  intros Hs E. destruct (poly_challenge_sound s fuel c Hs E) as (n & Hn). eapply challenge_inv; [apply (prefix_bytes s n Hs)|]. apply Hn. lia.
Qed.

(** ** Masks *)
Lemma poly_uniform_gamma1_in s : byte_stream s -> poly_in (-131071) 131072 (poly_uniform_gamma1_x (xof_of s)).
Proof.
  intros Hs. unfold poly_uniform_gamma1_x. apply z_unpack_in.
  - unfold xof_of. pose proof (zlen_slice (map s (zseq 0 (Z.to_nat 680))) 0 576 ltac:(lia) ltac:(lia)) as H. rewrite zlen_map, zlen_zseq in H. specialize (H ltac:(lia)). unfold zlen in H. lia.
  - apply bytes_ok_slice, bytes_stream; [exact Hs|lia].
Qed.

(** ** The streams actually used *)
Lemma shake_xof r p m pos n : 0 < r -> 0 <= pos -> 0 <= n ->
  slice (sponge_bytes r p m (pos + n)) pos n = xof_of (stream r (pad_state r p (absorb r m))) pos n.
Proof.
  intros Hr Hp Hn. unfold sponge_bytes. rewrite squeeze_stream by lia. unfold xof_of.
  replace (Z.to_nat (pos + n)) with (Z.to_nat pos + Z.to_nat n)%nat by lia. rewrite zseq_app, map_app.
  replace (0 + Z.of_nat (Z.to_nat pos)) with pos by lia.
  assert (L: zlen (map (stream r (pad_state r p (absorb r m))) (zseq 0 (Z.to_nat pos))) = pos) by (rewrite zlen_map, zlen_zseq; lia).
  rewrite slice_app_r by lia. rewrite L, Z.sub_diag. apply slice_all. rewrite zlen_map, zlen_zseq. lia.
Qed.
Lemma stream_byte r s : byte_stream (stream r s).
Proof. intros k _. unfold stream, byte_at, u8, byte_ok. apply Z.mod_pos_bound. lia. Qed.
