(** Every signature has exactly one history; the last entry follows from public key and signature. *)
From Coq Require Import ZifyBool ZifyNat Setoid Morphisms.
From Verif Require Import Base Sponge SpongePure SpongeProofs SpongeProofs2 Tab DilReduce DilReduceProofs DilNtt DilNttProofs DilNttAlg DilPoly DilPolyProofs DilPack DilVec DilHint DilSign DilPacking DilSampleSpec DilSample DilEncSpec DilEncProofs DilVecProofs DilSpec DilSpecProofs DilSignProofs DilFips DilFipsProofs DilFipsProofs2 DilFipsProofs3
  BufLemmas DilBufSign CtDilSpec CtDilTrace2 CtDilTrace3.
Local Open Scope Z_scope.
Ltac Zify.zify_post_hook ::= idtac.
#[local] Opaque Keccak.KeccakF1600_StatePermute.
Opaque fl il mont red32 cadd nttf inttf sumz Z.pow shake256_bytes shake128_bytes.
Import MLDSA.

Lemma choose {A} (P : nat -> A -> Prop) n : (forall k, (k < n)%nat -> exists o, P k o) -> exists l, length l = n /\ forall k o, nth_error l k = Some o -> P k o.
Proof.
  induction n as [|n IH]; intros E; [exists []; split; [reflexivity|intros [|k] o H; discriminate H]|].
  destruct IH as (l & L & F); [intros; apply E; lia|]. destruct (E n ltac:(lia)) as (o & Ho). exists (l ++ [o]). split; [rewrite app_length; cbn [length]; lia|].
  intros k x H. destruct (Nat.lt_ge_cases k n) as [K|K]; [rewrite nth_error_app1 in H by lia; now apply F|]. rewrite nth_error_app2 in H by lia.
  destruct (k - length l)%nat as [|j] eqn:J; [injection H as <-; now replace k with n by lia|destruct j; discriminate H].
Qed.
Lemma view_exists A s1 s2 t0 mu rhop k r : attempt A s1 s2 t0 mu rhop k r -> exists o, Leak.view A s1 s2 t0 mu rhop k o.
Proof. intros (cp & B & _). eexists. exists cp. split; [exact B|reflexivity]. Qed.
Lemma view_fun A s1 s2 t0 mu rhop k o o' : Leak.view A s1 s2 t0 mu rhop k o -> Leak.view A s1 s2 t0 mu rhop k o' -> o = o'.
Proof. intros (cp & B & E) (cp' & B' & E'). rewrite <- (ball_unique _ cp cp' (H_len _ 32 ltac:(lia)) B B') in E'. now rewrite E, E'. Qed.
Theorem history_exists sk m sig : sign sk m sig -> exists l, Leak.history sk m sig l.
Proof.
  intros (rho & K & tr & s1 & s2 & t0 & HF & -> & A & n & EA & HS). cbv zeta in HS. destruct HS as (HN & Hn & HS).
  set (mu := H (tr ++ m) 64) in *. set (rhop := H (K ++ repeat 0 32 ++ mu) 64) in *.
  destruct (choose (fun k o => Leak.view A s1 s2 t0 mu rhop (4 * Z.of_nat k) o) (S (Z.to_nat n))) as (l & L & F).
  { intros k Hk. destruct (Z.eq_dec (Z.of_nat k) n) as [->|]; [exact (view_exists _ _ _ _ _ _ _ _ HS)|]. exact (view_exists _ _ _ _ _ _ _ _ (HN (Z.of_nat k) ltac:(lia))). }
  exists l. exists rho, K, tr, s1, s2, t0. split; [exact HF|]. split; [reflexivity|]. exists A. split; [exact EA|]. cbv zeta. fold mu. fold rhop. split; [exact F|].
  split; [intros k Hk; apply HN; lia|]. split; [intros ->; discriminate L|]. rewrite L. replace (Z.of_nat (S (Z.to_nat n) - 1)) with n by lia. exact HS.
Qed.
Theorem history_sign sk m sig l : Leak.history sk m sig l -> sign sk m sig.
Proof.
  intros (rho & K & tr & s1 & s2 & t0 & HF & -> & A & EA & HS). cbv zeta in HS. destruct HS as (_ & HN & Hl & HS).
  assert (Len : (0 < length l)%nat) by (destruct l; [congruence|cbn [length]; lia]).
  exists rho, K, tr, s1, s2, t0. split; [exact HF|]. split; [reflexivity|]. exists A, (Z.of_nat (length l - 1)). split; [exact EA|]. cbv zeta.
  split; [|split; [lia|exact HS]]. intros k Hk. replace k with (Z.of_nat (Z.to_nat k)) by lia. apply HN. lia.
Qed.
Lemma list_ext {A} : forall l l' : list A, (forall k, nth_error l k = nth_error l' k) -> l = l'.
Proof.
  induction l as [|a l IH]; intros [|b l'] E; [reflexivity|discriminate (E 0%nat)|discriminate (E 0%nat)|]. pose proof (E 0%nat) as E0. injection E0 as <-. apply f_equal, IH. intros k. exact (E (S k)).
Qed.
Theorem history_unique sk m sig sig' l l' : Leak.history sk m sig l -> Leak.history sk m sig' l' -> l = l' /\ sig = sig'.
Proof.
  intros (rho & K & tr & s1 & s2 & t0 & HF & E & A & EA & HS) (rho' & K' & tr' & s1' & s2' & t0' & HF' & E' & A' & EA' & HS'). cbv zeta in HS, HS'.
  pose proof (fields_unpack _ _ _ _ _ _ HF) as U. pose proof (fields_unpack _ _ _ _ _ _ HF') as U'. rewrite <- E in U. rewrite <- E' in U'. rewrite U in U'. clear U E E'.
  apply pair_equal_spec in U' as [U' <-]. apply pair_equal_spec in U' as [U' <-]. apply pair_equal_spec in U' as [U' <-]. apply pair_equal_spec in U' as [U' <-]. apply pair_equal_spec in U' as [<- <-].
  rewrite <- (expand_A_unique _ _ _ EA EA') in *. clear EA' A'.
  set (mu := H (tr ++ m) 64) in *. set (rhop := H (K ++ repeat 0 32 ++ mu) 64) in *. clearbody rhop mu.
  destruct HS as (V & N & Hl & HS). destruct HS' as (V' & N' & Hl' & HS').
  assert (L1 : (0 < length l)%nat) by (destruct l; [congruence|cbn [length]; lia]). assert (L2 : (0 < length l')%nat) by (destruct l'; [congruence|cbn [length]; lia]).
  assert (L : length l = length l').
  { destruct (Nat.lt_trichotomy (length l) (length l')) as [X|[X|X]]; [|exact X|].
    - discriminate (attempt_fun _ _ _ _ _ _ _ _ _ (N' (length l - 1)%nat ltac:(lia)) HS).
    - discriminate (attempt_fun _ _ _ _ _ _ _ _ _ (N (length l' - 1)%nat ltac:(lia)) HS'). }
  split; [|rewrite <- L in HS'; apply Some_inj, (attempt_fun _ _ _ _ _ _ _ _ _ HS HS')].
  apply list_ext. intros k. destruct (nth_error l k) as [o|] eqn:E.
  - destruct (nth_error l' k) as [o'|] eqn:E'; [|apply nth_error_None in E'; pose proof (proj1 (nth_error_Some l k) ltac:(congruence)); lia].
    apply f_equal. exact (view_fun _ _ _ _ _ _ _ _ _ (V k o E) (V' k o' E')).
  - symmetry. apply nth_error_None. apply nth_error_None in E. lia.
Qed.

(** ** The accepted attempt *)
Lemma use_make R T : Z.abs (Spec.mods (Spec.LowBits R) Q) < 95154 -> Z.abs (Spec.mods T Q) < 95232 ->
  Spec.UseHint (Spec.MakeHint (- T) (R + T)) (R + T) = Spec.HighBits R.
Proof.
  intros HL HT. assert (HRm: 0 <= R mod Q < Q) by (apply Z.mod_pos_bound; reflexivity). assert (G2: GAMMA2 = 95232) by reflexivity.
  destruct (dec_range (R mod Q) HRm) as (E1 & E0 & _ & EE).
  assert (CR: R == dec1 (R mod Q) * (2 * GAMMA2) + dec0 (R mod Q)).
  { transitivity (R mod Q); [apply cg_iff; symmetry; apply Zmod_mod|]. destruct EE as [D|D]; [apply eq_eqm; lia|apply (eqm_of_diff _ _ 1); lia]. }
  assert (HH : Spec.HighBits R = dec1 (R mod Q)) by (unfold Spec.HighBits; now rewrite decompose_any).
  unfold Spec.LowBits in HL. rewrite decompose_any in HL. cbn [snd] in HL. rewrite mods_small in HL by lia.
  set (t := Spec.mods T Q) in *. assert (Et : t == T) by apply mods_cg. clearbody t.
  pose proof (hint_check (R mod Q) (dec0 (R mod Q)) t R T HRm ltac:(lia) ltac:(lia) HH CR Et) as HC.
  set (d1 := dec1 (R mod Q)) in *. set (d0 := dec0 (R mod Q)) in *. clearbody d1 d0. rewrite HH.
  assert (HS: 0 <= (R + T) mod Q < Q) by (apply Z.mod_pos_bound; reflexivity).
  rewrite (UseHint_cg _ (R + T) ((R + T) mod Q)) by (apply cg_iff; symmetry; apply Zmod_mod).
  pose proof (hint_recovers d1 (d0 + t) ((R + T) mod Q) E1 ltac:(lia) HS) as HR. rewrite use_hint_spec in HR by exact HS. rewrite HC in HR.
  replace (negb ((if Spec.MakeHint (- T) (R + T) then 1 else 0) =? 0)) with (Spec.MakeHint (- T) (R + T)) in HR by (destruct (Spec.MakeHint _ _); reflexivity).
  apply HR. apply (proj1 (cg_iff _ _)). rewrite CR, Et. apply eq_eqm; ring.
Qed.
Lemma norm_first B v : vlen v -> norm_lt B v -> Leak.first_big B v = None.
Proof.
  intros V N. unfold Leak.first_big. rewrite norm_lt_cf in N.
  assert (G : forall l, (forall x, In x l -> (B <=? Z.abs (Spec.mods x Spec.q)) = false) -> Leak.first (fun x => B <=? Z.abs (Spec.mods x Spec.q)) l = None).
  { induction l as [|x l IH]; intros F; [reflexivity|]. cbn [Leak.first]. rewrite (F x (or_introl eq_refl)). rewrite IH; [reflexivity|]. intros; apply F; now right. }
  apply G. intros x Hx. apply in_concat in Hx as (p & Hp & Hx). apply (In_nth _ _ []) in Hp as (r & Hr & <-). apply (In_nth _ _ 0) in Hx as (i & Hi & <-).
  destruct V as [L4 V]. assert (Hr4 : (r < 4)%nat) by lia. pose proof (V r Hr4) as Lr. unfold zlen in Lr.
  specialize (N r Hr4 (Z.of_nat i) ltac:(lia)). unfold cf, ix in N. rewrite Nat2Z.id in N. change Spec.q with Q. lia.
Qed.

(** the accepted candidate as the verifier sees it *)
Lemma seen A s1 s2 y cp : forall r, (r < 4)%nat ->
  let t := vadd (matvec A s1) s2 in
  let t1 := vmap (fun x => fst (Spec.Power2Round x)) t in
  let t0 := vmap (fun x => snd (Spec.Power2Round x)) t in
  eqf (cf (vadd (vsub (matvec A y) (cmul cp s2)) (cmul cp t0)) r)
      (cf (vsub (matvec A (vmap (fun x => Spec.mods x Spec.q) (vadd y (cmul cp s1)))) (cmul cp (vmap (fun x => x * 2 ^ 13) t1))) r).
Proof.
  intros r Hr t t1 t0. apply ntt_inj.
  assert (ET : eqf (cf t r) (fun i => cf (vmap (fun x => x * 2 ^ 13) t1) r i + cf t0 r i)).
  { intros i Hi. unfold t1, t0. rewrite !cf_vmap by assumption. generalize (cf t r i). intros x. unfold Spec.Power2Round. cbv zeta. cbn [fst snd]. change Spec.q with Q.
    set (a := x mod Q). assert (EA : a == x) by (apply cg_iff; apply Zmod_mod). rewrite <- EA. clearbody a. apply eq_eqm.
    assert (D : (a - Spec.mods a (2 ^ 13)) mod 2 ^ 13 = 0).
    { unfold Spec.mods. cbv zeta. assert (P : 2 ^ 13 = 8192) by reflexivity. rewrite P. pose proof (Z.div_mod a 8192 ltac:(lia)) as DM.
      destruct (8192 <? 2 * (a mod 8192)); [replace (a - (a mod 8192 - 8192)) with ((a / 8192 + 1) * 8192) by lia|replace (a - a mod 8192) with (a / 8192 * 8192) by lia]; apply Z.mod_mul; lia. }
    pose proof (Z.div_mod (a - Spec.mods a (2 ^ 13)) (2 ^ 13) ltac:(now vm_compute)) as DM. rewrite D in DM. lia. }
  pose proof (ntt_add _ _ _ ET) as NT. clear ET.
  assert (ES : eqf (cf t r) (fun i => cf (matvec A s1) r i + cf s2 r i)) by (intros i Hi; unfold t, vadd; rewrite cf_vmap2 by assumption; reflexivity).
  pose proof (ntt_add _ _ _ ES) as NS. clear ES. clearbody t1 t0 t.
  set (zz := vmap (fun x => Spec.mods x Spec.q) (vadd y (cmul cp s1))).
  assert (EZ : forall k, (k < 4)%nat -> eqf (nttf (cf zz k)) (fun i => nttf (cf y k) i + nttf (ix cp) i * nttf (cf s1 k) i)).
  { intros k Hk. assert (E : eqf (cf zz k) (fun i => cf y k i + cf (cmul cp s1) k i)).
    { intros i Hi. unfold zz, vadd. rewrite cf_vmap, cf_vmap2 by assumption. apply mods_cg. }
    intros i Hi. rewrite (ntt_add _ _ _ E i Hi). rewrite (ntt_cmul cp s1 k Hk i Hi). reflexivity. }
  clearbody zz.
  assert (E1 : eqf (cf (vadd (vsub (matvec A y) (cmul cp s2)) (cmul cp t0)) r) (fun i => cf (vsub (matvec A y) (cmul cp s2)) r i + cf (cmul cp t0) r i)) by (intros i Hi; unfold vadd; rewrite cf_vmap2 by assumption; reflexivity).
  assert (E2 : eqf (cf (vsub (matvec A y) (cmul cp s2)) r) (fun i => cf (matvec A y) r i - cf (cmul cp s2) r i)) by (intros i Hi; unfold vsub; rewrite cf_vmap2 by assumption; reflexivity).
  set (u := vmap (fun x => x * 2 ^ 13) t1) in *. clearbody u.
  assert (E3 : eqf (cf (vsub (matvec A zz) (cmul cp u)) r) (fun i => cf (matvec A zz) r i - cf (cmul cp u) r i)) by (intros i Hi; unfold vsub; rewrite cf_vmap2 by assumption; reflexivity).
  intros i Hi. rewrite (ntt_add _ _ _ E1 i Hi), (ntt_sub _ _ _ E2 i Hi), (ntt_sub _ _ _ E3 i Hi). rewrite (ntt_cmul cp s2 r Hr i Hi), (ntt_cmul cp t0 r Hr i Hi), (ntt_cmul cp u r Hr i Hi).
  rewrite (ntt_matvec A y r Hr i Hi), (ntt_matvec A zz r Hr i Hi). specialize (NT i Hi). specialize (NS i Hi). cbv beta in NT, NS. rewrite NT in NS. rewrite (ntt_matvec A s1 r Hr i Hi) in NS.
  rewrite (EZ 0%nat ltac:(lia) i Hi), (EZ 1%nat ltac:(lia) i Hi), (EZ 2%nat ltac:(lia) i Hi), (EZ 3%nat ltac:(lia) i Hi). clear NT E1 E2 E3 EZ.
  generalize dependent (nttf (cf u r) i). generalize dependent (nttf (cf t0 r) i). generalize dependent (nttf (cf s2 r) i). generalize (nttf (ix cp) i). intros c s t0v uv NS.
  set (a0 := nttf (cf (nth r A []) 0) i) in *. set (a1 := nttf (cf (nth r A []) 1) i) in *. set (a2 := nttf (cf (nth r A []) 2) i) in *. set (a3 := nttf (cf (nth r A []) 3) i) in *.
  set (b0 := nttf (cf s1 0) i) in *. set (b1 := nttf (cf s1 1) i) in *. set (b2 := nttf (cf s1 2) i) in *. set (b3 := nttf (cf s1 3) i) in *.
  set (y0 := nttf (cf y 0) i) in *. set (y1 := nttf (cf y 1) i) in *. set (y2 := nttf (cf y 2) i) in *. set (y3 := nttf (cf y 3) i) in *. clearbody a0 a1 a2 a3 b0 b1 b2 b3 y0 y1 y2 y3.
  transitivity (a0 * y0 + a1 * y1 + a2 * y2 + a3 * y3 + c * (uv + t0v) - c * s - c * uv); [apply eq_eqm; ring|].
  rewrite NS. apply eq_eqm; ring.
Qed.
Lemma vec_in_of lo hi v : vlen v -> (forall r i, (r < 4)%nat -> 0 <= i < 256 -> lo <= cf v r i <= hi) -> Enc.vec_in lo hi v.
Proof.
  intros [L V] C. split; [exact L|]. apply Forall_forall. intros p Hp. apply (In_nth _ _ []) in Hp as (r & Hr & <-). assert (R4 : (r < 4)%nat) by lia.
  pose proof (V r R4) as Lr. unfold zlen in Lr. split; [lia|]. apply Forall_forall. intros x Hx. apply (In_nth _ _ 0) in Hx as (i & Hi & <-).
  specialize (C r (Z.of_nat i) R4 ltac:(lia)). unfold cf, ix in C. now rewrite Nat2Z.id in C.
Qed.
Lemma hint_cases_ext h h' s s' : (forall r i, (r < 4)%nat -> 0 <= i < 256 -> cf h r i = cf h' r i) -> (forall r i, (r < 4)%nat -> 0 <= i < 256 -> cf s r i == cf s' r i) ->
  Leak.hint_cases h s = Leak.hint_cases h' s'.
Proof.
  intros E1 E2. unfold Leak.hint_cases. apply map_ext_in. intros r Hr. apply in_seq in Hr. apply map_ext_in. intros i Hi. apply in_seq in Hi.
  rewrite !coef_cf by lia. rewrite (E1 r (Z.of_nat i) ltac:(lia) ltac:(lia)). apply f_equal. change Spec.q with Q. apply mods_eq. now rewrite (E2 r (Z.of_nat i) ltac:(lia) ltac:(lia)).
Qed.
Lemma pk_fields rho t1 : zlen rho = 32 -> bytes_ok rho -> Enc.vec_in 0 1023 t1 -> pk_rho (pk_encode rho t1) = rho /\ pk_t1 (pk_encode rho t1) = t1.
Proof.
  intros L B I. destruct (pack_pk_ok rho t1 L B I) as (pk & E & Lp & Bp & U). rewrite (pk_enc rho t1 I) in E. apply Ret_inj in E. rewrite E, (pk_t1_eq pk Lp Bp), U. split; [|reflexivity].
  rewrite <- E. unfold pk_rho, pk_encode. rewrite firstn_app. replace (32 - length rho)%nat with 0%nat by (unfold zlen in L; lia). rewrite firstn_all2 by (unfold zlen in L; lia). cbn [firstn]. apply app_nil_r.
Qed.
(** what key generation says about the secret key fields *)
Lemma keygen_fields xi pk sk : zlen xi = 32 -> keygen xi pk sk -> exists rho K A s1 s2,
  let t := vadd (matvec A s1) s2 in
  let t1 := vmap (fun x => fst (Spec.Power2Round x)) t in
  let t0 := vmap (fun x => snd (Spec.Power2Round x)) t in
  fields rho K (H pk 64) s1 s2 t0 /\ sk = sk_encode rho K (H pk 64) s1 s2 t0 /\ expand_A rho A /\ pk_rho pk = rho /\ pk_t1 pk = t1.
Proof.
  intros Ls E. unfold keygen in E.
  destruct (seed_parts xi) as (R1 & R2 & R3). rewrite R1, R2, R3 in E. clear R1 R2 R3. pose proof (H_len xi 128 ltac:(lia)) as L. pose proof (H_ok xi 128 ltac:(lia)) as B. set (s := H xi 128) in *. clearbody s.
  assert (Hb: forall o n, bytes_ok (slice s o n)) by (intros; now apply bytes_ok_slice).
  destruct E as (A & s1 & s2 & HA & HS & EE). cbv zeta in EE. destruct EE as [Epk Esk].
  destruct (expand_A_complete _ _ HA) as (f1 & mat & HN & H1). destruct (expand_S_complete _ _ _ HS) as (f2 & H2).
  destruct (H2 (f1 + f2)%nat ltac:(lia)) as [E1 E2].
  destruct (keygen_exact (f1 + f2) (slice s 0 32) (slice s 32 64) (slice s 96 32) mat s1 s2 A) as (I1 & I2 & IT & I0 & _); try apply Hb; try (apply zlen_slice; lia); try assumption; try (apply H1; lia).
  destruct (pk_fields (slice s 0 32) _ ltac:(apply zlen_slice; lia) (Hb _ _) IT) as [P1 P2]. rewrite <- Epk in P1, P2.
  exists (slice s 0 32), (slice s 96 32), A, s1, s2. cbv zeta. split; [|split; [exact Esk|split; [exact HA|split; [exact P1|exact P2]]]].
  split; [split; [apply zlen_slice; lia|apply Hb]|]. split; [split; [apply zlen_slice; lia|apply Hb]|].
  split; [split; [apply H_len; lia|apply H_ok; lia]|]. split; [exact I1|]. split; [exact I2|exact I0].
Qed.
Lemma sig_encode_inj c z h c' z' h' : Enc.bytes 32 c -> Enc.bytes 32 c' -> Enc.vec_in (- (gamma1 - 1)) gamma1 z -> Enc.vec_in (- (gamma1 - 1)) gamma1 z' -> Enc.hints h -> Enc.hints h' ->
  sig_encode c z h = sig_encode c' z' h' -> c = c' /\ z = z' /\ h = h'.
Proof.
  intros [L B] [L' B'] I I' Hh Hh' E. change gamma1 with 131072 in *.
  destruct (pack_sig_ok c z h L B I (proj1 (hints_eq h) Hh)) as (s & P & _ & _ & U). destruct (pack_sig_ok c' z' h' L' B' I' (proj1 (hints_eq h') Hh')) as (s' & P' & _ & _ & U').
  rewrite (sig_enc _ _ _ I Hh L B) in P. rewrite (sig_enc _ _ _ I' Hh' L' B') in P'. apply Ret_inj in P, P'. rewrite <- P, E, P' in U. rewrite U in U'. apply Ret_inj in U'. apply Some_inj in U'.
  apply pair_equal_spec in U' as [U' <-]. apply pair_equal_spec in U' as [<- <-]. now repeat split.
Qed.
Theorem accepted_unique pk sig o o' : Leak.accepted pk sig o -> Leak.accepted pk sig o' -> o = o'.
Proof.
  intros (c & z & h & A & cp & Ic & Iz & Ih & E & EA & EB & Eo) (c' & z' & h' & A' & cp' & Ic' & Iz' & Ih' & E' & EA' & EB' & Eo').
  rewrite E in E'. destruct (sig_encode_inj _ _ _ _ _ _ Ic Ic' Iz Iz' Ih Ih' E') as (<- & <- & <-). rewrite <- (expand_A_unique _ _ _ EA EA') in Eo'.
  rewrite <- (ball_unique _ cp cp' (proj1 Ic) EB EB') in Eo'. now rewrite Eo, Eo'.
Qed.
Theorem accepted_view A s1 s2 mu rhop k sig o pk : let t := vadd (matvec A s1) s2 in
  let t1 := vmap (fun x => fst (Spec.Power2Round x)) t in
  let t0 := vmap (fun x => snd (Spec.Power2Round x)) t in
  expand_A (pk_rho pk) A -> pk_t1 pk = t1 ->
  attempt A s1 s2 t0 mu rhop k (Some sig) -> Leak.view A s1 s2 t0 mu rhop k o -> Leak.accepted pk sig o.
Proof.
  intros t t1 t0 EA ET (cp & EB & HG) HV. cbv zeta in HG. pose proof (view_fun _ _ _ _ _ _ _ _ _ HV (ex_intro _ cp (conj EB eq_refl))) as ->. clear HV.
  set (y := expand_mask rhop k) in *. clearbody y. set (c := H (mu ++ _) 32) in *. assert (Bc : Enc.bytes 32 c) by (split; [apply H_len; lia|apply H_ok; lia]). clearbody c.
  destruct HG as [(G1 & G2 & G3 & G4) ->].
  set (z := vadd y (cmul cp s1)) in *. set (h := vmap2 _ _ _) in *.
  exists c, (vmap (fun x => Spec.mods x Spec.q) z), h, A, cp. split; [exact Bc|].
  assert (Iz : Enc.vec_in (- (gamma1 - 1)) gamma1 (vmap (fun x => Spec.mods x Spec.q) z)).
  { apply vec_in_of; [apply vlen_vmap|]. intros r i Hr Hi. rewrite cf_vmap by assumption. rewrite norm_lt_cf in G1. specialize (G1 r Hr i Hi). change Spec.q with Q. change (gamma1 - beta) with 130994 in G1. change gamma1 with 131072. lia. }
  split; [exact Iz|].
  assert (Ih : Enc.hints h).
  { split; [|exact G4]. apply vec_in_of; [apply vlen_vmap2|]. intros r i Hr Hi. unfold h. rewrite cf_vmap2 by assumption. destruct (Spec.MakeHint _ _); lia. }
  split; [exact Ih|]. split; [reflexivity|]. split; [exact EA|]. split; [exact EB|]. cbv zeta. apply f_equal. unfold Leak.fate_of.
  rewrite (norm_first _ z (vlen_vmap2 _ _ _) G1), (norm_first _ _ (vlen_vmap _ _) G2), (norm_first _ _ (vlen_cmul _ _) G3). apply f_equal. rewrite ET.
  rewrite norm_lt_cf in G2, G3. change (Spec.gamma2 - beta) with 95154 in G2. change Spec.gamma2 with 95232 in G3.
  assert (ES : forall r i, (r < 4)%nat -> 0 <= i < 256 -> cf (vadd (vsub (matvec A y) (cmul cp s2)) (cmul cp t0)) r i ==
     cf (vsub (matvec A (vmap (fun x : Z => Spec.mods x Spec.q) z)) (cmul cp (vmap (fun x : Z => x * 2 ^ 13) t1))) r i) by (intros r i Hr Hi; exact (seen A s1 s2 y cp r Hr i Hi)).
  apply hint_cases_ext; [|exact ES]. intros r i Hr Hi. rewrite cf_vmap, cf_vmap2 by assumption. rewrite <- (UseHint_cg _ _ _ (ES r i Hr Hi)). clear ES. unfold h, vadd. rewrite !cf_vmap2 by assumption.
  specialize (G2 r Hr i Hi). specialize (G3 r Hr i Hi). rewrite cf_vmap in G2 by assumption. set (R := cf (vsub _ _) r i) in *. set (T := cf (cmul cp t0) r i) in *. rewrite <- (use_make R T G2 G3).
  apply (f_equal (fun b => Spec.UseHint b (R + T))). now destruct (Spec.MakeHint (- T) (R + T)).
Qed.
Theorem history_last xi pk sk m sig l d : zlen xi = 32 -> keygen xi pk sk -> Leak.history sk m sig l -> Leak.accepted pk sig (last l d).
Proof.
  intros Lx HK (rho' & K' & tr' & s1' & s2' & t0' & HF' & E' & A' & EA' & HS').
  destruct (keygen_fields _ _ _ Lx HK) as (rho & K & A & s1 & s2 & HF & E & EA & P1 & P2). cbv zeta in HS'.
  pose proof (fields_unpack _ _ _ _ _ _ HF) as U. pose proof (fields_unpack _ _ _ _ _ _ HF') as U'. rewrite <- E in U. rewrite <- E' in U'. rewrite U in U'. clear U E E'.
  apply pair_equal_spec in U' as [U' <-]. apply pair_equal_spec in U' as [U' <-]. apply pair_equal_spec in U' as [U' <-]. apply pair_equal_spec in U' as [U' <-]. apply pair_equal_spec in U' as [<- <-].
  rewrite <- (expand_A_unique _ _ _ EA EA') in *. destruct HS' as (V & _ & NN & HS). rewrite <- P1 in EA.
  eapply accepted_view; [exact EA|exact P2|exact HS|]. apply V.
  destruct l as [|a l] using rev_ind; [congruence|]. rewrite last_last, app_length. cbn [length]. replace (length l + 1 - 1)%nat with (length l) by lia. rewrite nth_error_app2 by lia. now rewrite Nat.sub_diag.
Qed.
Theorem history_public xi xi' pk sk sk' m m' sig l l' : zlen xi = 32 -> zlen xi' = 32 -> keygen xi pk sk -> keygen xi' pk sk' ->
  Leak.history sk m sig l -> Leak.history sk' m' sig l' -> removelast l = removelast l' -> l = l'.
Proof.
  intros L L' HK HK' HS HS' E. set (d := (@nil Z, Leak.BigZ 0)).
  pose proof (accepted_unique _ _ _ _ (history_last _ _ _ _ _ _ d L HK HS) (history_last _ _ _ _ _ _ d L' HK' HS')) as EL.
  assert (N : l <> []) by (destruct HS as (? & ? & ? & ? & ? & ? & _ & _ & ? & _ & HS); apply HS). assert (N' : l' <> []) by (destruct HS' as (? & ? & ? & ? & ? & ? & _ & _ & ? & _ & HS'); apply HS').
  rewrite (app_removelast_last d N), (app_removelast_last d N'). now rewrite E, EL.
Qed.
