(** Property theorems: pages that use the WebAssembly exports with their own buffers in one linear memory (C76).

    Reading the statements: [allowed], [effect], [outputs], [keeps], [session], [wf], [allocator] and
    [random_source] are defined in WasmSessionSpec.v; [releases] is defined in PropsHeap.v. *)
From Coq Require Import ZifyBool ZifyNat.
From Verif Require Import Base BufSpec BufLemmas SpongePure SpongeProofs2 Hybrid Heap HybridProg HybridProgSpec HybridProgProofs WasmSession WasmSessionSpec WasmSessionProofs.
From Verif Require PropsBuf PropsHeap PropsSpxBuf PropsHybridProg DilSignProofs.
Import PropsHeap.
Local Open Scope Z_scope.
Ltac Zify.zify_post_hook ::= idtac.
#[local] Opaque Keccak.KeccakF1600_StatePermute zeros slice splice.

(** Every allowed command ends without undefined behaviour (unless malloc fails inside a hash function),
    leaves the hash contexts as they were, has its effect, and keeps the state well-formed. *)
Theorem C76_command : forall loc locw fuel wm_alloc rbs st c, PropsSpxBuf.locals loc locw -> random_source rbs -> wf st -> allocator (zlen (lin st)) wm_alloc -> allowed st c ->
  exists r, releases (step loc locw fuel wm_alloc rbs st c) r /\
  forall st' x, r = Some (st', x) -> effect rbs st c st' x /\ wf st' /\ zlen (lin st') = zlen (lin st).
Proof. intros loc locw fuel wm_alloc rbs st c HL HR W HA HC. exact (step_ok loc locw HL fuel wm_alloc rbs HR st c W HA HC). Qed.
Print Assumptions C76_command.

(** A command changes no byte outside its output buffers. *)
Lemma written_nth mem o l mem' i : written mem o l mem' -> (i < length mem)%nat -> ~ (o <= Z.of_nat i < o + zlen l) -> nth i mem' 0 = nth i mem 0.
Proof. intros [_ H] Hi N. rewrite (H i Hi). unfold zlen in N. destruct ((o <=? Z.of_nat i) && (Z.of_nat i <? o + Z.of_nat (length l))) eqn:E; [lia|reflexivity]. Qed.
Theorem C76_only_outputs_change : forall rbs st c st' x i, random_source rbs -> wf st -> allowed st c -> effect rbs st c st' x -> (i < length (lin st))%nat ->
  (forall o n, In (o, n) (outputs c) -> ~ (o <= Z.of_nat i < o + n)) -> nth i (lin st') 0 = nth i (lin st) 0.
Proof.
  intros rbs st c st' x i HR W HA HE Hi HO.
  assert (W1: forall o l mem, In (o, zlen l) (outputs c) -> written (lin st) o l mem -> memory st mem st' -> nth i (lin st') 0 = nth i (lin st) 0).
  { intros o l mem HI HW (-> & _). exact (written_nth _ _ _ _ _ HW Hi (HO _ _ HI)). }
  assert (W2: forall o l o2 l2 mem mem2, In (o, zlen l) (outputs c) -> In (o2, zlen l2) (outputs c) -> written (lin st) o l mem -> written mem o2 l2 mem2 -> memory st mem2 st' -> nth i (lin st') 0 = nth i (lin st) 0).
  { intros o l o2 l2 mem mem2 HI HI2 HW HW2 (-> & _). pose proof (proj1 HW) as EL. rewrite (written_nth _ _ _ _ i HW2 ltac:(lia) (HO _ _ HI2)). exact (written_nth _ _ _ _ _ HW Hi (HO _ _ HI)). }
  assert (W0: unchanged st st' -> nth i (lin st') 0 = nth i (lin st) 0) by (intros (-> & _); reflexivity).
  destruct c; cbn [effect allowed outputs] in *.
  - destruct HE as [(_ & HM)|(_ & _ & _ & -> & _)]; [exact (W0 HM)|reflexivity].
  - destruct HE as (_ & HW & _). destruct HA as (k & _ & Hs). apply (written_nth _ _ _ _ _ HW Hi). rewrite zlen_zeros by lia. apply HO. now left.
  - destruct HE as (_ & mem & HW & HM). eapply W1; [|exact HW|exact HM]. now left.
  - destruct HE as [(_ & _ & HM)|(_ & pkb & skb & mem1 & mem2 & _ & LP & LK & HW1 & HW2 & HM)]; [exact (W0 HM)|]. eapply W2; [| |exact HW1|exact HW2|exact HM]; rewrite ?LP, ?LK; [now left|right; now left].
  - destruct HE as [(_ & _ & HM)|(_ & pkb & skb & mem1 & mem2 & _ & LP & LK & HW1 & HW2 & HM)]; [exact (W0 HM)|]. eapply W2; [| |exact HW1|exact HW2|exact HM]; rewrite ?LP, ?LK; [now left|right; now left].
  - destruct HE as [(_ & _ & HM)|(_ & _ & smb & mem1 & mem2 & _ & LS & HW1 & HW2 & HM)]; [exact (W0 HM)|]. eapply W2; [| |exact HW1|exact HW2|exact HM]; rewrite ?LS; [now left|right; now left].
  - destruct HE as (HM & _). exact (W0 HM).
  - destruct HE as (_ & mem & HW & HM). destruct HA as (B1 & B2 & _). destruct (buf_bounds _ _ _ W B1) as (S1 & _ & S2). eapply W1; [|exact HW|exact HM]. left. f_equal.
    set (y := shake256_bytes _ 128). assert (Ly: zlen y = 128) by (apply (DilSignProofs.sponge_bytes_len 136 0x1F); lia). set (s := slice (lin st) seed 96). assert (Ls: zlen s = 96) by (apply zlen_slice; lia).
    clearbody y s. rewrite !zlen_app, !zlen_slice by lia. reflexivity.
  - destruct HE as (_ & mem & HW & HM). destruct HA as (Hn & _). eapply W1; [|exact HW|exact HM]. left. f_equal. symmetry. now apply HR.
  - destruct HE as [(_ & _ & HM)|[(_ & _ & _ & _ & HM)|[(_ & _ & _ & _ & _ & HM)|(_ & _ & HS & _ & mem & HW & HM)]]]; try exact (W0 HM).
    eapply W1; [|exact HW|exact HM]. left. f_equal. symmetry. apply (DilSignProofs.sponge_bytes_len 136 0x1F); lia.
Qed.
Print Assumptions C76_only_outputs_change.

(** Whole pages: a page that keeps to the contract runs without undefined behaviour, does what its commands
    say, and a buffer given back with [mem_free] reads as zero from then on, until malloc hands it out again. *)
Theorem C76_page : forall loc locw fuel wm_alloc rbs pg st, PropsSpxBuf.locals loc locw -> random_source rbs -> wf st -> allocator (zlen (lin st)) wm_alloc -> keeps rbs pg st ->
  exists r, releases (run_page loc locw fuel wm_alloc rbs pg st) r /\
  forall st' res, r = Some (st', res) -> wf st' /\ exists ev, session rbs pg st st' res ev /\
    forall pre p n post, ev = pre ++ Gave p n :: post -> (forall y k, In (Got y k) post -> apart p n y k) -> slice (lin st') p n = zeros n.
Proof.
  intros loc locw fuel wm_alloc rbs pg st HL HR W HA HK. destruct (run_ok loc locw HL fuel wm_alloc rbs HR pg st W HA HK) as (r & R & HP). exists r. split; [exact R|].
  intros st' res E. destruct (HP _ _ E) as (W' & _ & ev & HS). split; [exact W'|]. exists ev. split; [exact HS|].
  intros pre p n post Ee HG. apply (wf_zero st' W'). eapply session_freed; eassumption.
Qed.
Print Assumptions C76_page.

(** What the contract excludes.  A length object of four bytes, as the [size_t *] of the export suggests: on
    success the four bytes after it are cleared, whatever they belong to (C38 in linear memory). *)
Theorem C76_size_t_length_clears_neighbour : forall loc locw fuel rb rr nonce seed pk mem sm smlen m mlen sk, PropsSpxBuf.locals loc locw -> rb 40 = (rr, nonce) ->
  zlen nonce = 40 -> bytes_ok nonce -> bytes_ok mem -> zlen seed = 160 -> bytes_ok seed -> hybrid_keys seed pk (slice mem sk 4064) ->
  0 < sk -> sk + 4064 <= zlen mem -> 0 < sm -> sm + 2526 + mlen <= zlen mem -> 0 < m -> m + mlen <= zlen mem -> apart m mlen sm 2526 -> 1 <= mlen <= 64 ->
  0 < smlen -> smlen + 8 <= zlen mem ->
  exists r, releases (dp_sign loc fuel rb mem sm smlen m mlen sk) r /\
  forall mem', r = Some (0, mem') -> slice mem' (smlen + 4) 4 = [0; 0; 0; 0].
Proof.
  intros loc locw fuel rb rr nonce seed pk mem sm smlen m mlen sk HL Erb LN BN Bm LS BS HK H1 H2 H3 H4 H5 H6 HA Hm H7 H8.
  destruct (dp_sign_rel loc locw HL fuel (fun _ _ _ => 0) rb rr nonce seed pk mem sm smlen m mlen sk Erb (conj LN BN) Bm (conj LS BS) HK) as (r & R & HP); try assumption; try (unfold PropsHybridProg.inside; lia).
  exists r. split; [exact R|]. intros mem' E. destruct (HP _ _ E) as [(_ & X & _)|(_ & _ & smb & mem1 & _ & _ & _ & W1 & W2)]; [discriminate X|].
  pose proof (written_len _ _ _ _ W1) as L1. set (lb := [_; _; 0; 0; 0; 0; 0; 0]) in W2. assert (LB: zlen lb = 8) by reflexivity.
  pose proof (written_in mem1 smlen lb mem' ltac:(lia) ltac:(lia) W2) as EI. rewrite LB in EI. pose proof (written_len _ _ _ _ W2) as L2. assert (E4: slice mem' (smlen + 4) 4 = slice (slice mem' smlen 8) 4 4) by (rewrite slice_slice by lia; reflexivity).
  rewrite E4, EI. reflexivity.
Qed.
Print Assumptions C76_size_t_length_clears_neighbour.
(** [mem_free] clears as many bytes as it is told, also past the end of the block. *)
Theorem C76_free_clears_what_it_is_told : forall loc locw fuel wm_alloc rbs st p size, 0 <= p -> 0 <= size -> p + size <= zlen (lin st) ->
  exists st', releases (step loc locw fuel wm_alloc rbs st (MemFree p size)) (Some (st', 0)) /\ written (lin st) p (zeros size) (lin st').
Proof.
  intros loc locw fuel wm_alloc rbs st p size H1 H2 H3. assert (LZ: zlen (zeros size) = size) by (apply zlen_zeros; lia). eexists. split.
  - cbn [step]. eapply rel_lift; [rewrite <- LZ at 2; apply copy_all; lia|]. apply rel_ret.
  - cbn [lin]. apply PropsBuf.splice_written; lia.
Qed.
Print Assumptions C76_free_clears_what_it_is_told.

(** ** A page: generate a key, sign, wipe the secret key, verify.  [value] reads the length back. *)
Definition value (bs : list Z) : Z := fold_right (fun b acc => b + 256 * acc) 0 bs.
Definition sign_page (msg : list Z) : page :=
  Do (MemAlloc 1408) (fun pk => if pk =? 0 then Done 1 else
  Do (MemAlloc 4064) (fun sk => if sk =? 0 then Done 1 else
  Do (MemAlloc (zlen msg)) (fun m => if m =? 0 then Done 1 else
  Do (MemAlloc 8) (fun len => if len =? 0 then Done 1 else
  Do (MemAlloc (2526 + zlen msg)) (fun sm => if sm =? 0 then Done 1 else
  Do (Poke m msg) (fun _ =>
  Do (Keypair pk sk) (fun c => if negb (c =? 0) then Done 2 else
  Do (Sign sm len m (zlen msg) sk) (fun c => if negb (c =? 0) then Done 3 else
  Do (MemFree sk 4064) (fun _ =>
  Peek len 8 (fun bs =>
  Do (Verify m (zlen msg) sm (value bs) pk) (fun v => Done (if v =? 0 then 0 else 4)))))))))))).

Fixpoint wp (rbs : nat -> rnd) (pg : page) (st : wst) (Q : wst -> Z -> Prop) : Prop :=
  match pg with
  | Done res => Q st res
  | Do c k => allowed st c /\ forall st' x, effect rbs st c st' x -> wp rbs (k x) st' Q
  | Peek p n k => buf st p n /\ wp rbs (k (slice (lin st) p n)) st Q
  end.
Lemma wp_keeps rbs pg : forall st Q, wp rbs pg st Q -> keeps rbs pg st.
Proof. induction pg as [res|c k IH|p n k IH]; cbn [wp keeps]; intros st Q H; [exact I| |]; (split; [apply H|]); [intros st' x HE; eapply IH, H, HE|eapply IH, H]. Qed.
Lemma wp_session rbs pg st st' res ev : session rbs pg st st' res ev -> forall Q, wp rbs pg st Q -> Q st' res.
Proof. induction 1 as [res st|c k st x st1 st' res ev HA HE HS IH|q m k st st' res ev HB HS IH]; cbn [wp]; intros Q HW; [exact HW|apply IH, HW, HE|apply IH, HW]. Qed.

Lemma buf_here st p n l : 0 <= n -> In (p, n) l -> live st = l -> buf st p n.
Proof. intros Hn HI E. split; [exact Hn|]. exists p, n. rewrite E. split; [exact HI|lia]. Qed.
Lemma value_len v : 0 <= v < 65536 -> value [v mod 256; v / 256; 0; 0; 0; 0; 0; 0] = v.
Proof. intros H. unfold value. cbn [fold_right]. pose proof (Z.div_mod v 256 ltac:(lia)). lia. Qed.
Definition signed_and_wiped (rbs : nat -> rnd) (st' : wst) (res : Z) : Prop :=
  res = 0 /\ (exists sk, In (sk, 4064) (wiped st')) \/ res = 1 \/
  res = 2 /\ (exists i, fst (rbs i 160) <> 0) \/ res = 3 /\ (exists i, fst (rbs i 40) <> 0).
Lemma sign_page_wp rbs msg st : random_source rbs -> wf st -> 1 <= zlen msg <= 64 -> bytes_ok msg -> wp rbs (sign_page msg) st (signed_and_wiped rbs).
Proof.
  intros HR W Hm Bmsg. unfold sign_page, signed_and_wiped. cbn [wp allowed]. set (n := zlen msg) in *.
  split; [lia|]. intros st1 pk E1. destruct (Z.eqb_spec pk 0); [cbn [wp]; auto|]. destruct E1 as [[X _]|(P1 & P2 & P3 & ML1 & LV1 & _ & _)]; [contradiction|]. cbn [wp allowed].
  split; [lia|]. intros st2 sk E2. destruct (Z.eqb_spec sk 0); [cbn [wp]; auto|]. destruct E2 as [[X _]|(K1 & K2 & K3 & ML2 & LV2 & _ & _)]; [contradiction|]. cbn [wp allowed].
  split; [lia|]. intros st3 m E3. destruct (Z.eqb_spec m 0); [cbn [wp]; auto|]. destruct E3 as [[X _]|(M1 & M2 & M3 & ML3 & LV3 & _ & _)]; [contradiction|]. cbn [wp allowed].
  split; [lia|]. intros st4 len E4. destruct (Z.eqb_spec len 0); [cbn [wp]; auto|]. destruct E4 as [[X _]|(N1 & N2 & N3 & ML4 & LV4 & _ & _)]; [contradiction|]. cbn [wp allowed].
  split; [lia|]. intros st5 sm E5. destruct (Z.eqb_spec sm 0); [cbn [wp]; auto|]. destruct E5 as [[X _]|(S1 & S2 & S3 & ML5 & LV5 & _ & _)]; [contradiction|]. cbn [wp allowed].
  assert (A12: apart sk 4064 pk 1408) by (apply K3; rewrite LV1; now left).
  assert (A13: apart m n pk 1408) by (apply M3; rewrite LV2, LV1; right; now left). assert (A23: apart m n sk 4064) by (apply M3; rewrite LV2; now left).
  assert (A14: apart len 8 pk 1408) by (apply N3; rewrite LV3, LV2, LV1; cbn [In]; auto). assert (A24: apart len 8 sk 4064) by (apply N3; rewrite LV3, LV2; cbn [In]; auto). assert (A34: apart len 8 m n) by (apply N3; rewrite LV3; cbn [In]; auto).
  assert (A15: apart sm (2526 + n) pk 1408) by (apply S3; rewrite LV4, LV3, LV2, LV1; cbn [In]; auto). assert (A25: apart sm (2526 + n) sk 4064) by (apply S3; rewrite LV4, LV3, LV2; cbn [In]; auto 6). assert (A35: apart sm (2526 + n) m n) by (apply S3; rewrite LV4, LV3; cbn [In]; auto 6). assert (A45: apart sm (2526 + n) len 8) by (apply S3; rewrite LV4; cbn [In]; auto).
  rewrite ?ML4, ?ML3, ?ML2, ?ML1 in *. clear P3 K3 M3 N3 S3.
  set (L5 := [(sm, 2526 + n); (len, 8); (m, n); (sk, 4064); (pk, 1408)]). assert (LV: live st5 = L5 ++ live st) by (rewrite LV5, LV4, LV3, LV2, LV1; reflexivity).
  assert (IN: forall p k, In (p, k) L5 -> In (p, k) (L5 ++ live st)) by (intros; apply in_or_app; now left).
  assert (I1: In (pk, 1408) L5) by (unfold L5; cbn [In]; auto 8). assert (I2: In (sk, 4064) L5) by (unfold L5; cbn [In]; auto 8). assert (I3: In (m, n) L5) by (unfold L5; cbn [In]; auto 8). assert (I4: In (len, 8) L5) by (unfold L5; cbn [In]; auto 8). assert (I5: In (sm, 2526 + n) L5) by (unfold L5; cbn [In]; auto 8).
  apply IN in I1, I2, I3, I4, I5. clear IN LV5 LV4 LV3 LV2 LV1. clearbody L5. set (mem0 := lin st) in *. pose proof (wf_bytes st W) as Bm0. fold mem0 in Bm0. unfold apart in A12, A13, A23, A14, A24, A34, A15, A25, A35, A45.
  split; [split; [eapply buf_here; [|exact I3|exact LV]; lia|exact Bmsg]|]. intros st6 x6 (_ & mem6 & W6 & (ML6 & LV6 & _ & _)). rewrite LV in LV6. rewrite ML5 in W6. cbn [wp allowed].
  apply written_splice in W6; [|lia|fold n; lia]. assert (L6: zlen mem6 = zlen mem0) by (subst mem6; apply zlen_splice; fold n; lia).
  assert (EM6: slice mem6 m n = msg) by (subst mem6; apply slice_splice; fold n; lia).
  split. { right. right. split; [eapply buf_here; [|exact I1|exact LV6]; lia|]. split; [eapply buf_here; [|exact I2|exact LV6]; lia|]. unfold apart. lia. }
  intros st7 x7 [(HX & -> & _)|(-> & pkb & skb & mem71 & mem7 & HK & LP & LK & W71 & W7 & (ML7 & LV7 & _ & _))].
  { change (negb (-1 =? 0)) with true. cbn [wp]. right. right. left. split; [reflexivity|]. exists (count st6). destruct HX as [HX|[HX|HX]]; [lia|lia|exact HX]. }
  change (negb (0 =? 0)) with false. cbn [wp allowed]. rewrite LV6 in LV7. rewrite ML6 in W71. pose proof (HR (count st6) 160 ltac:(lia)) as HS. set (seed := snd (rbs (count st6) 160)) in *.
  apply written_splice in W71; [|lia|lia]. assert (L71: zlen mem71 = zlen mem0) by (subst mem71; rewrite zlen_splice; lia). apply written_splice in W7; [|lia|lia]. assert (L7: zlen mem7 = zlen mem0) by (subst mem7; rewrite zlen_splice; lia).
  assert (EK7: slice mem7 sk 4064 = skb) by (subst mem7; rewrite <- LK; apply slice_splice; lia).
  assert (EP7: slice mem7 pk 1408 = pkb). { subst mem7. destruct A12; [rewrite slice_splice_after by lia|rewrite slice_splice_before by lia]; subst mem71; rewrite <- LP; apply slice_splice; lia. }
  assert (EM7: slice mem7 m n = msg). { rewrite <- EM6. transitivity (slice mem71 m n); [subst mem7; destruct A23; [apply slice_splice_before|apply slice_splice_after]; lia|subst mem71; destruct A13; [apply slice_splice_before|apply slice_splice_after]; lia]. }
  split. { do 6 right. split; [eapply buf_here; [|exact I5|exact LV7]; lia|]. split; [eapply buf_here; [|exact I4|exact LV7]; lia|]. split; [eapply buf_here; [|exact I3|exact LV7]; lia|]. split; [eapply buf_here; [|exact I2|exact LV7]; lia|].
    split; [|unfold apart; lia]. exists seed, pkb. rewrite ML7, EK7. split; [apply HS|]. split; [apply HS|exact HK]. }
  intros st8 x8 [(HX & -> & _)|(-> & _ & smb & mem81 & mem8 & HG & LS & W81 & W8 & (ML8 & LV8 & _ & _))].
  { change (negb (-1 =? 0)) with true. cbn [wp]. right. right. right. split; [reflexivity|]. exists (count st7). destruct HX as [HX|[HX|[HX|[HX|[HX|[HX|HX]]]]]]; lia. }
  change (negb (0 =? 0)) with false. cbn [wp allowed]. rewrite LV7 in LV8. rewrite ML7, EK7, EM7 in *. pose proof (HR (count st7) 40 ltac:(lia)) as HN. set (nonce := snd (rbs (count st7) 40)) in *.
  set (lb := [_; _; 0; 0; 0; 0; 0; 0]) in W8. assert (LB: zlen lb = 8) by reflexivity.
  apply written_splice in W81; [|lia|lia]. assert (L81: zlen mem81 = zlen mem0) by (subst mem81; rewrite zlen_splice; lia). apply written_splice in W8; [|lia|lia]. assert (L8: zlen mem8 = zlen mem0) by (subst mem8; rewrite zlen_splice; lia).
  assert (F8: forall p k, 0 <= p -> 0 <= k -> p + k <= zlen mem0 -> len + 8 <= p \/ p + k <= len -> slice mem8 p k = slice mem81 p k) by (intros p k H1 H2 H3 [H4|H4]; subst mem8; [apply slice_splice_after|apply slice_splice_before]; lia).
  assert (F81: forall p k, 0 <= p -> 0 <= k -> p + k <= zlen mem0 -> sm + (2526 + n) <= p \/ p + k <= sm -> slice mem81 p k = slice mem7 p k) by (intros p k H1 H2 H3 [H4|H4]; subst mem81; [apply slice_splice_after|apply slice_splice_before]; lia).
  assert (ES8: slice mem8 sm (2526 + n) = smb) by (rewrite F8 by lia; subst mem81; rewrite <- LS; apply slice_splice; lia).
  assert (EP8: slice mem8 pk 1408 = pkb) by (rewrite F8, F81 by lia; exact EP7). assert (EM8: slice mem8 m n = msg) by (rewrite F8, F81 by lia; exact EM7).
  assert (EL8: slice mem8 len 8 = lb) by (subst mem8; rewrite <- LB; apply slice_splice; lia).
  split. { exists 4064. rewrite LV8. split; [exact I2|lia]. }
  intros st9 x9 (_ & W9 & _ & WP9 & LV9). rewrite ML8 in W9. rewrite LV8 in LV9. cbn [wp allowed]. assert (LZ: zlen (zeros 4064) = 4064) by (apply zlen_zeros; lia). apply written_splice in W9; [|lia|lia].
  assert (F9: forall p k, 0 <= p -> 0 <= k -> p + k <= zlen mem0 -> sk + 4064 <= p \/ p + k <= sk -> slice (lin st9) p k = slice mem8 p k) by (intros p k H1 H2 H3 [H4|H4]; rewrite W9; [apply slice_splice_after|apply slice_splice_before]; lia).
  assert (B9: forall p k, 0 <= k -> In (p, k) (L5 ++ live st) -> p <> sk -> buf st9 p k) by (intros p k Hk HI HN'; split; [exact Hk|]; exists p, k; rewrite LV9; split; [auto|lia]).
  rewrite F9, EL8 by lia. unfold lb. rewrite value_len by lia.
  split; [apply B9; [lia|exact I4|lia]|].
  split. { right. right. right. split; [apply B9; [lia|exact I3|lia]|]. split; [apply B9; [lia|exact I5|lia]|apply B9; [lia|exact I1|lia]]. }
  intros st10 v (HU & _ & HV). cbn [wp]. rewrite !F9, ES8, EP8, EM8 in HV by lia.
  assert (V: v = 0). { apply HV. repeat (split; [lia|]). apply (PropsHybridProg.C75_compact_round_trip seed pkb skb nonce msg smb HS HK (proj1 HN) ltac:(fold n; lia) HG). }
  rewrite V. left. split; [reflexivity|]. exists sk. destruct HU as (_ & _ & HWP & _). rewrite HWP, WP9. now left.
Qed.
(** On any well-formed state, any message of 1 to 64 bytes, any allocator and any random source: the page never
    sees its own signature refused (result 4); if it gets its buffers and randomness it ends with 0, and then
    the secret key has been wiped from memory. *)
Theorem C76_sign_page : forall loc locw fuel wm_alloc rbs msg st, PropsSpxBuf.locals loc locw -> random_source rbs -> wf st -> allocator (zlen (lin st)) wm_alloc ->
  1 <= zlen msg <= 64 -> bytes_ok msg ->
  exists r, releases (run_page loc locw fuel wm_alloc rbs (sign_page msg) st) r /\
  forall st' res, r = Some (st', res) ->
    res = 0 /\ (exists sk, In (sk, 4064) (wiped st') /\ slice (lin st') sk 4064 = zeros 4064) \/ res = 1 \/
    res = 2 /\ (exists i, fst (rbs i 160) <> 0) \/ res = 3 /\ (exists i, fst (rbs i 40) <> 0).
Proof.
  intros loc locw fuel wm_alloc rbs msg st HL HR W HA Hm Bm. pose proof (sign_page_wp rbs msg st HR W Hm Bm) as HW.
  destruct (C76_page loc locw fuel wm_alloc rbs (sign_page msg) st HL HR W HA (wp_keeps _ _ _ _ HW)) as (r & R & HP). exists r. split; [exact R|]. intros st' res E. destruct (HP _ _ E) as (W' & ev & HS & _).
  destruct (wp_session _ _ _ _ _ _ HS _ HW) as [(H0 & sk & HI)|H]; [left; split; [exact H0|]; exists sk; split; [exact HI|apply (wf_zero st' W' _ _ HI)]|right; exact H].
Qed.
Print Assumptions C76_sign_page.

(** Not vacuous: an allocator that hands out memory from address 16 upwards, and a page of memory with no blocks
    but one range cleared earlier, meet the hypotheses of [C76_sign_page]. *)
Definition bump (size : Z) (i : nat) (l : list (Z * Z)) (n : Z) : Z :=
  let top := fold_right (fun b t => Z.max t (Z.max (fst b) (fst b + snd b) + 1)) 16 l in if top + n <=? size then top else 0.
Lemma bump_ok size : allocator size (bump size).
Proof.
  intros i l n Hn p. unfold p, bump. set (top := fold_right _ 16 l).
  assert (HT: 16 <= top /\ forall q k, In (q, k) l -> q + 1 <= top /\ q + k + 1 <= top).
  { unfold top. induction l as [|[a b] l [IH1 IH2]]; cbn [fold_right fst snd]; [split; [lia|intros q k []]|]. split; [lia|]. intros q k [E|HI]; [injection E as <- <-; lia|specialize (IH2 _ _ HI); lia]. }
  destruct (Z.leb_spec (top + n) size); [right|now left]. split; [lia|]. split; [lia|]. intros q k HI. destruct HT as [_ HT]. specialize (HT _ _ HI). unfold apart. lia.
Qed.
Definition start : wst := {| lin := zeros 65536; live := []; wiped := [(100, 50)]; count := O |}.
Lemma start_wf : wf start.
Proof.
  assert (LZ: zlen (zeros 65536) = 65536) by (apply zlen_zeros; lia). unfold start. constructor; cbn [lin live wiped map].
  - apply zeros_bytes.
  - intros q k [].
  - constructor.
  - intros q k q' k' [].
  - intros p n [E|[]]. injection E as <- <-. rewrite LZ. repeat (split; [lia|]). vm_compute. reflexivity.
  - intros p n q k _ [].
Qed.
Definition zrbs (i : nat) (n : Z) : Z * list Z := (0, zeros n).
Example C76_sign_page_met : exists r,
  releases (run_page zeros zeros 40 (bump 65536) zrbs (sign_page [104; 105]) start) r /\
  forall st' res, r = Some (st', res) -> res = 0 /\ (exists sk, In (sk, 4064) (wiped st') /\ slice (lin st') sk 4064 = zeros 4064) \/ res = 1.
Proof.
  assert (LZ: zlen (lin start) = 65536) by (apply zlen_zeros; lia).
  destruct (C76_sign_page zeros zeros 40 (bump 65536) zrbs [104; 105] start PropsHybridProg.zeros_locals) as (r & R & HP).
  - intros i n Hn. split; [now apply zlen_zeros|apply zeros_bytes].
  - exact start_wf.
  - rewrite LZ. apply bump_ok.
  - change (zlen [104; 105]) with 2. lia.
  - repeat constructor; unfold byte_ok; lia.
  - exists r. split; [exact R|]. intros st' res E. destruct (HP _ _ E) as [H|[H|[(_ & i & H)|(_ & i & H)]]]; [left; exact H|right; exact H|now contradiction H|now contradiction H].
Qed.
(** ... and this allocator does hand out the five buffers, so the result 1 does not occur there. *)
Example C76_buffers_available : let l0 := [] in
  bump 65536 0 l0 1408 = 16 /\ bump 65536 1 [(16, 1408)] 4064 = 1425 /\ bump 65536 2 [(1425, 4064); (16, 1408)] 2 = 5490 /\
  bump 65536 3 [(5490, 2); (1425, 4064); (16, 1408)] 8 = 5493 /\ bump 65536 4 [(5493, 8); (5490, 2); (1425, 4064); (16, 1408)] 2528 = 5502.
Proof. vm_compute. auto 8. Qed.
(** A free with twice the size of the block clears the neighbouring block. *)
Example C76_free_too_long : exists st st', live st = [(16, 4); (20, 4)] /\ slice (lin st) 20 4 = [9; 9; 9; 9] /\
  releases (step zeros zeros 40 (bump 64) zrbs st (MemFree 16 8)) (Some (st', 0)) /\ slice (lin st') 20 4 = [0; 0; 0; 0] /\ ~ allowed st (MemFree 16 8).
Proof.
  set (st := {| lin := zeros 16 ++ [7; 7; 7; 7; 9; 9; 9; 9] ++ zeros 40; live := [(16, 4); (20, 4)]; wiped := []; count := O |}).
  destruct (C76_free_clears_what_it_is_told zeros zeros 40 (bump 64) zrbs st 16 8) as (st' & R & HW); [lia|lia|vm_compute; discriminate|].
  exists st, st'. split; [reflexivity|]. split; [vm_compute; reflexivity|]. split; [exact R|]. split.
  - apply written_splice in HW; [|lia|vm_compute; discriminate]. rewrite HW. vm_compute. reflexivity.
  - intros (k & HI & Hk). cbn [st live In] in HI. destruct HI as [HI|[HI|[]]]; injection HI as; lia.
Qed.
