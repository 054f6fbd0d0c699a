(** Proofs for C76: every allowed command of a page has its specified effect and keeps the state well-formed. *)
From Coq Require Import ZifyBool ZifyNat.
From Verif Require Import Base SpongePure SpongeProofs2 BufLemmas BufSpec Hybrid Heap HybridProg HybridProgSpec HybridProgProofs HybridProgProofs2 WasmSession WasmSessionSpec.
From Verif Require DilSignProofs ShakePrng PropsSponge PropsBuf PropsHeap PropsSpxBuf HybridBufProofs PropsHybridProg Wasm HeapProofs.
Import PropsHeap.
Local Open Scope Z_scope.
Ltac Zify.zify_post_hook ::= idtac.
#[local] Opaque Keccak.KeccakF1600_StatePermute zeros slice splice.

(** ** [written] *)
Lemma written_len mem o l mem' : written mem o l mem' -> zlen mem' = zlen mem.
Proof. intros [H _]. unfold zlen. now rewrite H. Qed.
Lemma written_out mem o l mem' p n : 0 <= o -> o + zlen l <= zlen mem -> 0 <= p -> 0 <= n -> p + n <= zlen mem -> apart p n o (zlen l) -> written mem o l mem' -> slice mem' p n = slice mem p n.
Proof.
  intros H1 H2 H3 H4 H5 [A|A] W; apply written_splice in W; try assumption; subst mem'; [apply slice_splice_before|apply slice_splice_after]; lia.
Qed.
Lemma written_bytes mem o l mem' : 0 <= o -> o + zlen l <= zlen mem -> bytes_ok mem -> bytes_ok l -> written mem o l mem' -> bytes_ok mem'.
Proof. intros H1 H2 B1 B2 W. apply written_splice in W; try assumption. subst mem'. now apply PropsHybridProg.bytes_splice. Qed.
Lemma written_in mem o l mem' : 0 <= o -> o + zlen l <= zlen mem -> written mem o l mem' -> slice mem' o (zlen l) = l.
Proof. intros H1 H2 W. apply written_splice in W; try assumption. subst mem'. apply slice_splice; lia. Qed.
Lemma copy_all mem o l : 0 <= o -> o + zlen l <= zlen mem -> copy mem o l 0 (zlen l) = Ret (splice mem o l).
Proof. intros H1 H2. pose proof (zlen_nonneg l). rewrite copy_splice by lia. now rewrite slice_all by reflexivity. Qed.
Lemma le_bytes_len8 v : 0 <= v < 65536 -> Wasm.le_bytes 8 v = [v mod 256; v / 256; 0; 0; 0; 0; 0; 0].
Proof.
  intros H. unfold Wasm.le_bytes. cbn [map seq]. change (2 ^ (8 * Z.of_nat 0)) with 1. rewrite Z.div_1_r. change (2 ^ (8 * Z.of_nat 1)) with 256.
  assert (Z0: forall k, 65536 <= k -> (v / k) mod 256 = 0) by (intros k Hk; rewrite Z.div_small by lia; reflexivity).
  rewrite (Z.mod_small (v / 256)). { rewrite !Z0 by (vm_compute; discriminate). reflexivity. } split; [apply Z.div_pos; lia|apply Z.div_lt_upper_bound; lia].
Qed.

(** ** Blocks *)
Lemma buf_bounds st p n : wf st -> buf st p n -> 0 < p /\ 0 <= n /\ p + n <= zlen (lin st).
Proof. intros W (Hn & q & k & HI & H1 & H2). destruct (wf_live st W _ _ HI). lia. Qed.
Lemma buf_wiped st p n q k : wf st -> buf st p n -> In (q, k) (wiped st) -> apart q k p n.
Proof. intros W (Hn & b & s & HI & H1 & H2) HW. pose proof (wf_wiped st W _ _ _ _ HW HI). unfold apart in *. lia. Qed.
Lemma In_drop p l q k : NoDup (map fst l) -> (In (q, k) (drop_block p l) <-> In (q, k) l /\ q <> p).
Proof.
  induction l as [|[a b] l IH]; cbn [drop_block map fst]; intros ND; [cbn; tauto|]. inversion_clear ND as [|? ? NI ND'].
  assert (NA: forall b', In (a, b') l -> False) by (intros b' HI; apply NI; change a with (fst (a, b')); now apply in_map).
  destruct (Z.eqb_spec p a) as [->|NE].
  - cbn [In]. split; [intros HI; split; [now right|intros ->; exact (NA _ HI)]|]. intros [[E|HI] N]; [congruence|exact HI].
  - cbn [In]. rewrite (IH ND'). split; [intros [E|[H1 H2]]; [split; [now left|congruence]|tauto]|tauto].
Qed.
Lemma NoDup_drop p l : NoDup (map fst l) -> NoDup (map fst (drop_block p l)).
Proof.
  induction l as [|[a b] l IH]; cbn [drop_block map fst]; intros ND; [exact ND|]. inversion_clear ND as [|? ? NI ND']. destruct (p =? a); [exact ND'|]. cbn [map fst]. constructor; [|now apply IH].
  intros HI. apply NI. apply in_map_iff in HI. destruct HI as ([a' b'] & E & HI). cbn [fst] in E. subst a'. apply (In_drop p l a b' ND') in HI. change a with (fst (a, b')). now apply in_map.
Qed.
(** writing into a live block keeps the state well-formed *)
Lemma wf_write st o l mem st' : wf st -> buf st o (zlen l) -> bytes_ok l -> written (lin st) o l mem -> memory st mem st' -> wf st'.
Proof.
  intros W HB Bl HW (E1 & E2 & E3 & E4). destruct (buf_bounds _ _ _ W HB) as (B1 & B2 & B3). pose proof (written_len _ _ _ _ HW) as EL. constructor; rewrite ?E1, ?E2, ?E3, ?EL.
  - eapply written_bytes; try exact HW; try assumption; [lia|apply W].
  - apply (wf_live st W).
  - apply (wf_addr st W).
  - apply (wf_apart st W).
  - intros p n HI. destruct (wf_zero st W p n HI) as (Z1 & Z2 & Z3 & Z4). repeat (split; [assumption|]). rewrite <- Z4.
    eapply written_out; try exact HW; try assumption; [lia|]. eapply buf_wiped; eassumption.
  - apply (wf_wiped st W).
Qed.
Lemma wf_same st st' : wf st -> unchanged st st' -> wf st'.
Proof. intros W (E1 & E2 & E3 & E4). destruct W. constructor; rewrite ?E1, ?E2, ?E3; assumption. Qed.
Lemma buf_memory st mem st' p n : memory st mem st' -> buf st' p n <-> buf st p n.
Proof. intros (_ & E & _). unfold buf. now rewrite E. Qed.
Lemma wf_write2 st o1 l1 o2 l2 mem1 mem2 st' : wf st -> buf st o1 (zlen l1) -> buf st o2 (zlen l2) -> bytes_ok l1 -> bytes_ok l2 ->
  written (lin st) o1 l1 mem1 -> written mem1 o2 l2 mem2 -> memory st mem2 st' -> wf st'.
Proof.
  intros W HB1 HB2 B1 B2 W1 W2 HM. set (st1 := {| lin := mem1; live := live st; wiped := wiped st; count := count st |}).
  assert (WF1: wf st1). { set (st0 := {| lin := mem1; live := live st; wiped := wiped st; count := S (count st) |}). assert (W0: wf st0) by (eapply (wf_write st o1 l1 mem1 st0); try eassumption; repeat split). destruct W0. constructor; assumption. }
  eapply (wf_write st1 o2 l2 mem2 st'); eassumption.
Qed.

(** ** The commands *)
Section Step.
Variables loc locw : Z -> list Z.
Hypothesis HL : PropsSpxBuf.locals loc locw.
Variable fuel : nat.
Variable wm_alloc : nat -> list (Z * Z) -> Z -> Z.
Variable rbs : nat -> rnd.
Hypothesis HR : random_source rbs.
Definition Post (st : wst) (c : cmd) (r : option (wst * Z)) : Prop := forall st' x, r = Some (st', x) -> effect rbs st c st' x /\ wf st' /\ zlen (lin st') = zlen (lin st).

Lemma upd_memory st mem : memory st mem (upd st mem). Proof. repeat split. Qed.
Lemma wf_upd st mem : wf st -> unchanged st (upd st (lin st)) /\ wf (upd st (lin st)) /\ (mem = lin st -> zlen mem = zlen (lin st)).
Proof. intros W. split; [apply upd_memory|]. split; [eapply wf_same; [exact W|apply upd_memory]|now intros ->]. Qed.
Lemma some_pair {A B} (a a' : A) (b b' : B) : Some (a, b) = Some (a', b') -> a' = a /\ b' = b. Proof. intros H. split; congruence. Qed.

Lemma step_alloc st size : wf st -> allocator (zlen (lin st)) wm_alloc -> 0 <= size -> exists r, releases (step loc locw fuel wm_alloc rbs st (MemAlloc size)) r /\ Post st (MemAlloc size) r.
Proof.
  intros W HA Hs. cbn [step]. specialize (HA (count st) (live st) size Hs). cbv zeta in HA. set (p := wm_alloc (count st) (live st) size) in *. destruct (Z.eqb_spec p 0) as [E|NE].
  - eexists. split; [apply rel_ret|]. intros st' x H. apply some_pair in H. destruct H as [-> ->]. split; [left; split; [reflexivity|apply upd_memory]|]. split; [eapply wf_same; [exact W|apply upd_memory]|reflexivity].
  - destruct HA as [HA|(P1 & P2 & P3)]; [contradiction|]. eexists. split; [apply rel_ret|]. intros st' x H. apply some_pair in H. destruct H as [-> ->].
    assert (HW: forall q n, 0 <= n -> 0 <= q -> In (q, n) (filter (fun w => negb (meets w (p, size))) (wiped st)) <-> In (q, n) (wiped st) /\ ~ (q < p + size /\ p < q + n)).
    { intros q n _ _. rewrite filter_In. unfold meets. cbn [fst snd]. split; intros [H1 H2]; (split; [exact H1|]); lia. }
    split; [|split; [|reflexivity]].
    + right. cbn [lin live count wiped]. split; [exact P1|]. split; [exact P2|]. split; [exact P3|]. split; [reflexivity|]. split; [reflexivity|]. split; [reflexivity|].
      intros q n. rewrite filter_In. unfold meets. cbn [fst snd]. unfold apart. split; intros [H1 H2]; (split; [exact H1|]); lia.
    + constructor; cbn [lin live wiped].
      * apply W.
      * intros q k [E|HI]; [injection E as <- <-; lia|now apply (wf_live st W)].
      * cbn [map fst]. constructor; [|apply W]. intros HI. apply in_map_iff in HI. destruct HI as ([q k] & E & HI). cbn [fst] in E. destruct (P3 _ _ HI). congruence.
      * intros q k q' k' [E|HI] [E'|HI'] N; [congruence| | |now apply (wf_apart st W)].
        { injection E as <- <-. apply P3, HI'. } { injection E' as <- <-. destruct (P3 _ _ HI) as [_ HH]. unfold apart in *. lia. }
      * intros q n HI. apply filter_In in HI. apply (wf_zero st W), HI.
      * intros q n b k HI HB. apply filter_In in HI. destruct HI as [HI HM]. unfold meets in HM. cbn [fst snd] in HM. destruct HB as [E|HB]; [injection E as <- <-; unfold apart; lia|eapply (wf_wiped st W); eassumption].
Qed.
Lemma step_free st p size k : wf st -> In (p, k) (live st) -> 0 <= size <= k -> exists r, releases (step loc locw fuel wm_alloc rbs st (MemFree p size)) r /\ Post st (MemFree p size) r.
Proof.
  intros W HI Hs. destruct (wf_live st W _ _ HI) as (L1 & L2 & L3). cbn [step].
  assert (LZ: zlen (zeros size) = size) by (apply zlen_zeros; lia).
  eapply rq_lift; [rewrite <- LZ at 2; apply copy_all; lia|]. cbv beta. eexists. split; [apply rel_ret|]. intros st' x H. apply some_pair in H. destruct H as [-> ->].
  assert (HW: written (lin st) p (zeros size) (splice (lin st) p (zeros size))) by (apply PropsBuf.splice_written; lia).
  assert (HD: forall q s, In (q, s) (drop_block p (live st)) <-> In (q, s) (live st) /\ q <> p) by (intros; apply In_drop, W).
  assert (EL: zlen (splice (lin st) p (zeros size)) = zlen (lin st)) by (apply zlen_splice; lia).
  split; [|split; [|exact EL]].
  - cbn [effect lin live wiped count]. repeat (split; [first [reflexivity|exact HW]|]). exact HD.
  - constructor; cbn [lin live wiped].
    + eapply written_bytes; try exact HW; [lia|lia|apply W|apply zeros_bytes].
    + intros q s HQ. apply HD in HQ. rewrite EL. now apply (wf_live st W).
    + apply NoDup_drop, W.
    + intros q s q' s' HQ HQ'. apply HD in HQ, HQ'. now apply (wf_apart st W).
    + intros q n [E|HQ].
      * injection E as <- <-. rewrite EL. repeat (split; [lia|]). rewrite <- LZ at 2. apply slice_splice; lia.
      * destruct (wf_zero st W q n HQ) as (Z1 & Z2 & Z3 & Z4). rewrite EL. repeat (split; [assumption|]). rewrite <- Z4. eapply written_out; try exact HW; try lia. rewrite LZ. pose proof (wf_wiped st W _ _ _ _ HQ HI). unfold apart in *. lia.
    + intros q n b s [E|HQ] HB; apply HD in HB; destruct HB as [HB NB]; [|eapply (wf_wiped st W); eassumption].
      injection E as <- <-. pose proof (wf_apart st W _ _ _ _ HI HB ltac:(congruence)). unfold apart in *. lia.
Qed.
Lemma step_poke st p bs : wf st -> buf st p (zlen bs) -> bytes_ok bs -> exists r, releases (step loc locw fuel wm_alloc rbs st (Poke p bs)) r /\ Post st (Poke p bs) r.
Proof.
  intros W HB Bb. destruct (buf_bounds _ _ _ W HB) as (B1 & B2 & B3). cbn [step]. eapply rq_lift; [apply copy_all; lia|]. cbv beta. eexists. split; [apply rel_ret|].
  assert (HW: written (lin st) p bs (splice (lin st) p bs)) by (apply PropsBuf.splice_written; lia).
  intros st' x H. apply some_pair in H. destruct H as [-> ->]. split; [|split; [eapply wf_write; try eassumption; apply upd_memory|exact (written_len _ _ _ _ HW)]].
  cbn [effect]. split; [reflexivity|]. eexists. split; [exact HW|apply upd_memory].
Qed.
(** the two key generators *)
Lemma post_bind st c (m : M (Z * list Z)) r : releases m r ->
  (forall x mem, r = Some (x, mem) -> effect rbs st c (upd st mem) x /\ wf (upd st mem) /\ zlen mem = zlen (lin st)) ->
  exists r, releases (mbind m (fun p => let '(x, mem) := p in mret (upd st mem, x))) r /\ Post st c r.
Proof.
  intros R H. destruct r as [[x mem]|].
  - eapply rq_bind; [exact R|]. cbv beta iota. eexists. split; [apply rel_ret|]. intros st' y E. apply some_pair in E. destruct E as [-> ->]. exact (H _ _ eq_refl).
  - exists None. split; [now apply rel_none|discriminate].
Qed.
Lemma post_keep st c x (m : M (Z * list Z)) : wf st -> m = mret (x, lin st) -> effect rbs st c (upd st (lin st)) x ->
  exists r, releases (mbind m (fun p => let '(x, mem) := p in mret (upd st mem, x))) r /\ Post st c r.
Proof.
  intros W -> HE. eapply post_bind; [apply rel_ret|]. intros y mem E. apply some_pair in E. destruct E as [-> ->]. split; [exact HE|]. split; [eapply wf_same; [exact W|apply upd_memory]|reflexivity].
Qed.
Lemma inside_buf st p n : wf st -> buf st p n -> PropsHybridProg.inside (lin st) p n.
Proof. intros W HB. destruct (buf_bounds _ _ _ W HB). unfold PropsHybridProg.inside. lia. Qed.
Lemma step_keypair_seed st pk sk seed : wf st -> allowed st (KeypairSeed pk sk seed) -> exists r, releases (step loc locw fuel wm_alloc rbs st (KeypairSeed pk sk seed)) r /\ Post st (KeypairSeed pk sk seed) r.
Proof.
  intros W HA. cbn [step]. unfold dp_keypair_seed.
  destruct ((pk =? 0) || (sk =? 0) || (seed =? 0)) eqn:E0.
  { eapply post_keep; [exact W|reflexivity|]. left. split; [lia|]. split; [reflexivity|apply upd_memory]. }
  cbn [allowed] in HA. destruct HA as [HA|[HA|[HA|(B1 & B2 & B3 & A)]]]; [lia|lia|lia|].
  destruct (PropsHybridProg.C75_keypair_seed loc locw fuel (lin st) pk sk seed HL (wf_bytes st W) (inside_buf _ _ _ W B1) (inside_buf _ _ _ W B2) (inside_buf _ _ _ W B3) A) as (r & R & HP).
  eapply post_bind; [exact R|]. intros x mem ->. destruct (HP _ _ eq_refl) as (-> & pkb & skb & mem1 & HK & LP & LK & W1 & W2).
  assert (HS: PropsHybridProg.is_seed 160 (slice (lin st) seed 160)). { destruct (buf_bounds _ _ _ W B3). split; [apply zlen_slice; lia|apply bytes_ok_slice, W]. }
  destruct (PropsHybridProg.keys_parts _ _ _ HS HK) as (_ & _ & BP & BK & _).
  split; [right; split; [reflexivity|]; exists pkb, skb, mem1, mem; auto 10 using upd_memory|]. split.
  - eapply (wf_write2 st pk pkb sk skb mem1 mem); rewrite ?LP, ?LK; try eassumption. apply upd_memory.
  - rewrite (written_len _ _ _ _ W2). exact (written_len _ _ _ _ W1).
Qed.
Lemma step_keypair st pk sk : wf st -> allowed st (Keypair pk sk) -> exists r, releases (step loc locw fuel wm_alloc rbs st (Keypair pk sk)) r /\ Post st (Keypair pk sk) r.
Proof.
  intros W HA. cbn [step]. unfold dp_keypair.
  destruct ((pk =? 0) || (sk =? 0)) eqn:E0.
  { eapply post_keep; [exact W|reflexivity|]. left. split; [lia|]. split; [reflexivity|apply upd_memory]. }
  cbn [allowed] in HA. destruct HA as [HA|[HA|(B1 & B2 & A)]]; [lia|lia|].
  destruct (rbs (count st) 160) as [rr bs] eqn:Erb. pose proof (HR (count st) 160 ltac:(lia)) as HS. rewrite Erb in HS. cbn [snd] in HS.
  destruct (PropsHybridProg.C75_keypair loc locw fuel (rbs (count st)) rr bs (lin st) pk sk HL (wf_bytes st W) (inside_buf _ _ _ W B1) (inside_buf _ _ _ W B2) A Erb HS) as (r & R & HP).
  eapply post_bind; [exact R|]. intros x mem ->. destruct (HP _ _ eq_refl) as [(Hrr & -> & ->)|(-> & -> & pkb & skb & mem1 & HK & LP & LK & W1 & W2)].
  { split; [left; rewrite Erb; cbn [fst]; split; [auto|]; split; [reflexivity|apply upd_memory]|]. split; [eapply wf_same; [exact W|apply upd_memory]|reflexivity]. }
  destruct (PropsHybridProg.keys_parts _ _ _ HS HK) as (_ & _ & BP & BK & _).
  split; [right; split; [reflexivity|]; exists pkb, skb, mem1, mem; rewrite Erb; cbn [snd]; auto 10 using upd_memory|]. split.
  - eapply (wf_write2 st pk pkb sk skb mem1 mem); rewrite ?LP, ?LK; try eassumption. apply upd_memory.
  - rewrite (written_len _ _ _ _ W2). exact (written_len _ _ _ _ W1).
Qed.

(** signing: what [dp_sign] does to the memory, also when the length object is not eight bytes *)
Lemma dp_sign_rel rb rr nonce seed pkb mem sm smlen m mlen sk : rb 40 = (rr, nonce) -> PropsHybridProg.is_seed 40 nonce -> bytes_ok mem ->
  PropsHybridProg.is_seed 160 seed -> hybrid_keys seed pkb (slice mem sk 4064) -> PropsHybridProg.inside mem sk 4064 ->
  0 < sm -> 0 < smlen -> 0 < m -> 0 < sk -> PropsHybridProg.inside mem sm (2526 + mlen) -> PropsHybridProg.inside mem m mlen -> apart m mlen sm 2526 -> 1 <= mlen <= 64 -> PropsHybridProg.inside mem smlen 8 ->
  exists r, releases (dp_sign loc fuel rb mem sm smlen m mlen sk) r /\
  forall x mem', r = Some (x, mem') ->
    (rr <> 0 /\ x = -1 /\ mem' = mem) \/
    (rr = 0 /\ x = 0 /\ exists smb mem1, compact_signed (slice mem sk 4064) nonce (slice mem m mlen) smb /\ zlen smb = 2526 + mlen /\ bytes_ok smb /\
       written mem sm smb mem1 /\ written mem1 smlen [(2526 + mlen) mod 256; (2526 + mlen) / 256; 0; 0; 0; 0; 0; 0] mem').
Proof.
  intros Erb HN Bm HS HK HIk P1 P2 P3 P4 I1 I2 A Hm I3. unfold dp_sign. replace ((sm =? 0) || (smlen =? 0) || (m =? 0) || (sk =? 0)) with false by lia.
  destruct (PropsHybridProg.keys_parts _ _ _ HS HK) as (_ & LK & _).
  destruct (PropsHybridProg.C75_compact_sign loc locw fuel rb rr nonce seed pkb (slice mem sk 4064) mem sm 0 m mlen sk HL Bm HS HK) as (r & R & HP); try assumption.
  { unfold PropsHybridProg.holds. rewrite LK. split; [exact HIk|reflexivity]. }
  destruct r as [[[c mem1] len]|]; [|exists None; split; [now apply rel_none|discriminate]].
  eapply rq_bind; [exact R|]. cbv beta iota. destruct (HP _ _ _ eq_refl) as [(Hrr & -> & -> & ->)|(-> & -> & -> & smb & HG & LS & W1)].
  { change (negb (-1 =? 0)) with true. cbv iota. eexists. split; [apply rel_ret|]. intros x mem' E. apply some_pair in E. destruct E as [-> ->]. left. auto. }
  change (negb (0 =? 0)) with false. cbv iota. rewrite le_bytes_len8 by lia.
  set (lb := [_; _; 0; 0; 0; 0; 0; 0]). assert (LB: zlen lb = 8) by reflexivity. pose proof (written_len _ _ _ _ W1) as E1. unfold PropsHybridProg.inside in I1, I2, I3, HIk.
  eapply rq_lift; [rewrite <- LB at 1; apply copy_all; rewrite ?LB; lia|]. cbv beta. eexists. split; [apply rel_ret|]. intros x mem' E. apply some_pair in E. destruct E as [-> ->].
  right. split; [reflexivity|]. split; [reflexivity|]. exists smb, mem1. split; [exact HG|]. split; [exact LS|]. split; [|split; [exact W1|apply PropsBuf.splice_written; lia]].
  apply (PropsHybridProg.signed_bytes_compact seed pkb _ nonce (slice mem m mlen) smb HS HK HN); [now apply bytes_ok_slice|rewrite zlen_slice; lia|exact HG].
Qed.
Lemma len_bytes_ok mlen : 1 <= mlen <= 64 -> bytes_ok [(2526 + mlen) mod 256; (2526 + mlen) / 256; 0; 0; 0; 0; 0; 0].
Proof.
  intros H. pose proof (Z.mod_pos_bound (2526 + mlen) 256 ltac:(lia)). assert (0 <= (2526 + mlen) / 256 < 256) by (split; [apply Z.div_pos; lia|apply Z.div_lt_upper_bound; lia]).
  repeat (constructor; [unfold byte_ok; lia|]). constructor.
Qed.
Lemma step_sign st sm smlen m mlen sk : wf st -> allowed st (Sign sm smlen m mlen sk) -> exists r, releases (step loc locw fuel wm_alloc rbs st (Sign sm smlen m mlen sk)) r /\ Post st (Sign sm smlen m mlen sk) r.
Proof.
  intros W HA. cbn [step].
  destruct ((sm =? 0) || (smlen =? 0) || (m =? 0) || (sk =? 0)) eqn:E0.
  { unfold dp_sign. rewrite E0. eapply post_keep; [exact W|reflexivity|]. left. split; [lia|]. split; [reflexivity|apply upd_memory]. }
  destruct ((mlen <=? 0) || (64 <? mlen)) eqn:E1.
  { unfold dp_sign. rewrite E0. unfold sign_compact_p. rewrite E1. eapply post_keep; [exact W|reflexivity|]. left. split; [lia|]. split; [reflexivity|apply upd_memory]. }
  cbn [allowed] in HA. destruct HA as [HA|[HA|[HA|[HA|[HA|[HA|(B1 & B2 & B3 & B4 & (seed & pkb & HS1 & HS2 & HK) & A)]]]]]]; try lia.
  destruct (rbs (count st) 40) as [rr nonce] eqn:Erb. pose proof (HR (count st) 40 ltac:(lia)) as HN. rewrite Erb in HN. cbn [snd] in HN.
  destruct (buf_bounds _ _ _ W B1) as (P1 & _ & _). destruct (buf_bounds _ _ _ W B2) as (P2 & _ & _). destruct (buf_bounds _ _ _ W B3) as (P3 & _ & _). destruct (buf_bounds _ _ _ W B4) as (P4 & _ & _).
  assert (Hm: 1 <= mlen <= 64) by lia.
  destruct (dp_sign_rel (rbs (count st)) rr nonce seed pkb (lin st) sm smlen m mlen sk Erb HN (wf_bytes st W) (conj HS1 HS2) HK (inside_buf _ _ _ W B4) P1 P2 P3 P4 (inside_buf _ _ _ W B1) (inside_buf _ _ _ W B3) A Hm (inside_buf _ _ _ W B2)) as (r & R & HP).
  eapply post_bind; [exact R|]. intros x mem ->. destruct (HP _ _ eq_refl) as [(Hrr & -> & ->)|(-> & -> & smb & mem1 & HG & LS & BS & W1 & W2)].
  { split; [left; rewrite Erb; cbn [fst]; split; [auto 10|]; split; [reflexivity|apply upd_memory]|]. split; [eapply wf_same; [exact W|apply upd_memory]|reflexivity]. }
  split; [right; split; [reflexivity|]; split; [exact Hm|]; exists smb, mem1, mem; rewrite Erb; cbn [snd]; auto 10 using upd_memory|]. split.
  - rewrite <- LS in B1. exact (wf_write2 st sm smb smlen [(2526 + mlen) mod 256; (2526 + mlen) / 256; 0; 0; 0; 0; 0; 0] mem1 mem _ W B1 B2 BS (len_bytes_ok mlen Hm) W1 W2 (upd_memory _ _)).
  - rewrite (written_len _ _ _ _ W2). exact (written_len _ _ _ _ W1).
Qed.
Lemma step_verify st m mlen sm smlen pk : wf st -> allowed st (Verify m mlen sm smlen pk) -> exists r, releases (step loc locw fuel wm_alloc rbs st (Verify m mlen sm smlen pk)) r /\ Post st (Verify m mlen sm smlen pk) r.
Proof.
  intros W HA. cbn [step]. unfold dp_verify. destruct ((m =? 0) || (sm =? 0) || (pk =? 0)) eqn:E0.
  { eapply rq_bind; [apply rel_ret|]. cbv beta. eexists. split; [apply rel_ret|]. intros st' x E. apply some_pair in E. destruct E as [-> ->].
    split; [|split; [eapply wf_same; [exact W|apply upd_memory]|reflexivity]]. cbn [effect]. split; [apply upd_memory|]. split; [lia|]. split; [lia|]. intros (H1 & H2 & H3 & _). lia. }
  cbn [allowed] in HA. destruct HA as [HA|[HA|[HA|(B1 & B2 & B3)]]]; try lia.
  destruct (PropsHybridProg.C75_compact_verify loc locw fuel (lin st) m mlen sm smlen pk HL (wf_bytes st W) (inside_buf _ _ _ W B2) (inside_buf _ _ _ W B1) (inside_buf _ _ _ W B3)) as (r & R & HP).
  destruct r as [c|]; [|exists None; split; [now apply rel_none|discriminate]].
  eapply rq_bind; [exact R|]. cbv beta. eexists. split; [apply rel_ret|]. intros st' x E. apply some_pair in E. destruct E as [-> ->].
  split; [|split; [eapply wf_same; [exact W|apply upd_memory]|reflexivity]]. destruct (HP _ eq_refl) as [Hc HV]. cbn [effect]. split; [apply upd_memory|]. split; [exact Hc|]. rewrite HV.
  split; [intros V; repeat (split; [lia|]); exact V|intros (_ & _ & _ & V); exact V].
Qed.
Lemma step_expand st seed out : wf st -> allowed st (Expand seed out) -> exists r, releases (step loc locw fuel wm_alloc rbs st (Expand seed out)) r /\ Post st (Expand seed out) r.
Proof.
  intros W (B1 & B2 & A). cbn [step]. destruct (buf_bounds _ _ _ W B1) as (S1 & _ & S2). destruct (buf_bounds _ _ _ W B2) as (O1 & _ & O2).
  destruct (PropsHybridProg.C75_seed_expander (lin st) seed out (wf_bytes st W) (inside_buf _ _ _ W B1) (inside_buf _ _ _ W B2) A) as (mem & R & HW).
  set (s := slice (lin st) seed 96) in *. set (y := shake256_bytes _ 128) in HW.
  assert (Ly: zlen y = 128) by (apply (DilSignProofs.sponge_bytes_len 136 0x1F); lia). assert (By: bytes_ok y) by (apply (DilSignProofs.sponge_bytes_ok 136 0x1F); lia).
  assert (Ls: zlen s = 96) by (apply zlen_slice; lia). assert (Bs: bytes_ok s) by (apply bytes_ok_slice, W).
  eapply post_bind; [exact R|]. intros x mem' E. apply some_pair in E. destruct E as [-> ->].
  split; [cbn [effect]; split; [reflexivity|]; exists mem; split; [exact HW|apply upd_memory]|]. split; [|exact (written_len _ _ _ _ HW)].
  eapply (wf_write st out); [exact W| |  |exact HW|apply upd_memory].
  - clearbody y s. rewrite !zlen_app, !zlen_slice by lia. exact B2.
  - clearbody y s. rewrite !bytes_ok_app. auto using bytes_ok_slice.
Qed.
Lemma step_random st p n : wf st -> buf st p n -> exists r, releases (step loc locw fuel wm_alloc rbs st (RandomBytes p n)) r /\ Post st (RandomBytes p n) r.
Proof.
  intros W HB. destruct (buf_bounds _ _ _ W HB) as (B1 & B2 & B3). cbn [step]. unfold dp_random. pose proof (HR (count st) n B2) as [LR BR]. destruct (rbs (count st) n) as [rr bs] eqn:Erb. cbn [snd] in *.
  assert (HW: written (lin st) p bs (splice (lin st) p bs)) by (apply PropsBuf.splice_written; lia).
  eapply post_bind. { eapply rel_lift; [rewrite <- LR; apply copy_all; lia|]. apply rel_ret. }
  intros x mem E. apply some_pair in E. destruct E as [-> ->]. split; [cbn [effect]; rewrite Erb; cbn [fst snd]; split; [reflexivity|]; eexists; split; [exact HW|apply upd_memory]|].
  split; [|exact (written_len _ _ _ _ HW)]. eapply (wf_write st p bs); rewrite ?LR; try eassumption. apply upd_memory.
Qed.
Lemma step_seedexpander st seed sl out ol : wf st -> allowed st (SeedExpander seed sl out ol) -> exists r, releases (step loc locw fuel wm_alloc rbs st (SeedExpander seed sl out ol)) r /\ Post st (SeedExpander seed sl out ol) r.
Proof.
  intros W HA. cbn [step]. unfold dp_seedexpander. destruct ((seed =? 0) || (out =? 0)) eqn:E0.
  { eapply post_keep; [exact W|reflexivity|]. left. split; [lia|]. split; [reflexivity|apply upd_memory]. }
  cbn [allowed] in HA. destruct HA as [HA|[HA|(B1 & B2)]]; try lia. destruct (Z.ltb_spec sl 32).
  { eapply post_keep; [exact W|reflexivity|]. right. left. repeat (split; [lia|]). apply upd_memory. }
  destruct (Z.leb_spec ol sl).
  { eapply post_keep; [exact W|reflexivity|]. right. right. left. repeat (split; [lia|]). apply upd_memory. }
  destruct (buf_bounds _ _ _ W B1) as (S1 & _ & S2). destruct (buf_bounds _ _ _ W B2) as (O1 & _ & O2).
  set (sd := slice (lin st) seed sl). set (o := slice (lin st) out ol). assert (Lsd: zlen sd = sl) by (apply zlen_slice; lia). assert (Lo: zlen o = ol) by (apply zlen_slice; lia). assert (Bsd: bytes_ok sd) by (apply bytes_ok_slice, W).
  set (y := shake256_bytes (sd ++ [2]) ol). assert (Ly: zlen y = ol) by (apply (DilSignProofs.sponge_bytes_len 136 0x1F); lia). assert (By: bytes_ok y) by (apply (DilSignProofs.sponge_bytes_ok 136 0x1F); lia).
  assert (HW: written (lin st) out y (splice (lin st) out y)) by (apply PropsBuf.splice_written; lia).
  assert (R: releases (seedexpander_wrapper_h (Some sd) sl (Some o) ol) (Some (0, Some y))).
  { apply bal_releases. pose proof (HeapProofs.seedexpander_wrapper_h_bal (Some sd) sl (Some o) ol) as HB. rewrite (ShakePrng.wrapper_ok sd sl o ol) in HB by (try assumption; lia).
    rewrite slice_all in HB by (symmetry; exact Lsd). fold y in HB. rewrite splice_whole' in HB by lia. exact HB. }
  eapply post_bind.
  { eapply rel_lift; [apply rdrange_ok; lia|]. fold sd. eapply rel_lift; [apply rdrange_ok; lia|]. fold o. eapply rel_bind; [exact R|]. cbv beta iota. eapply rel_lift; [rewrite <- Ly at 1; apply copy_all; lia|]. apply rel_ret. }
  intros x mem E. apply some_pair in E. destruct E as [-> ->]. split; [|split; [|exact (written_len _ _ _ _ HW)]].
  - right. right. right. repeat (split; [lia|]). eexists. split; [exact HW|apply upd_memory].
  - eapply (wf_write st out y); rewrite ?Ly; try eassumption. apply upd_memory.
Qed.
Lemma step_ok st c : wf st -> allocator (zlen (lin st)) wm_alloc -> allowed st c -> exists r, releases (step loc locw fuel wm_alloc rbs st c) r /\ Post st c r.
Proof.
  intros W HA HC. destruct c.
  - now apply step_alloc.
  - destruct HC as (k & HI & Hs). eapply step_free; eassumption.
  - destruct HC. now apply step_poke.
  - now apply step_keypair_seed.
  - now apply step_keypair.
  - now apply step_sign.
  - now apply step_verify.
  - now apply step_expand.
  - now apply step_random.
  - now apply step_seedexpander.
Qed.
Lemma run_ok pg : forall st, wf st -> allocator (zlen (lin st)) wm_alloc -> keeps rbs pg st ->
  exists r, releases (run_page loc locw fuel wm_alloc rbs pg st) r /\ forall st' res, r = Some (st', res) -> wf st' /\ zlen (lin st') = zlen (lin st) /\ exists ev, session rbs pg st st' res ev.
Proof.
  induction pg as [res|c k IH|p n k IH]; intros st W HA HK; cbn [run_page keeps] in *.
  - eexists. split; [apply rel_ret|]. intros st' y E. apply some_pair in E. destruct E as [-> ->]. split; [exact W|]. split; [reflexivity|]. eexists. constructor.
  - destruct HK as [HC HK]. destruct (step_ok st c W HA HC) as (r & R & HP). destruct r as [[st1 x]|]; [|exists None; split; [now apply rel_none|discriminate]].
    destruct (HP _ _ eq_refl) as (HE & W1 & L1). destruct (IH x st1 W1 ltac:(now rewrite L1) (HK _ _ HE)) as (r2 & R2 & HP2). exists r2. split; [eapply rel_bind; [exact R|exact R2]|].
    intros st' res E. destruct (HP2 _ _ E) as (H2 & H3 & ev & H1). split; [exact H2|]. split; [congruence|]. eexists. econstructor; eassumption.
  - destruct HK as [HB HK]. destruct (buf_bounds _ _ _ W HB) as (B1 & B2 & B3). destruct (IH _ st W HA HK) as (r & R & HP). exists r. split; [eapply rel_lift; [apply rdrange_ok; lia|exact R]|].
    intros st' res E. destruct (HP _ _ E) as (H2 & H3 & ev & H1). split; [exact H2|]. split; [exact H3|]. exists ev. now constructor.
Qed.
End Step.

(** ** Cleared ranges stay recorded until they are handed out again *)
Lemma effect_wiped rbs st c st' x p n : effect rbs st c st' x -> In (p, n) (wiped st) -> (forall y k, In (Got y k) (events c x) -> apart p n y k) -> In (p, n) (wiped st').
Proof.
  intros HE HI HG. assert (MM: forall mem, memory st mem st' -> In (p, n) (wiped st')) by (intros mem (_ & _ & -> & _); exact HI).
  destruct c; cbn [effect events] in *.
  - destruct HE as [(_ & HE)|(P & _ & _ & _ & _ & _ & HE)]; [exact (MM _ HE)|]. apply HE. split; [exact HI|]. apply HG. destruct (Z.eqb_spec x 0); [lia|]. now left.
  - destruct HE as (_ & _ & _ & -> & _). now right.
  - destruct HE as (_ & mem & _ & HM). exact (MM _ HM).
  - destruct HE as [(_ & _ & HM)|(_ & ? & ? & ? & ? & _ & _ & _ & _ & _ & HM)]; exact (MM _ HM).
  - destruct HE as [(_ & _ & HM)|(_ & ? & ? & ? & ? & _ & _ & _ & _ & _ & HM)]; exact (MM _ HM).
  - destruct HE as [(_ & _ & HM)|(_ & _ & ? & ? & ? & _ & _ & _ & _ & HM)]; exact (MM _ HM).
  - destruct HE as (HM & _). exact (MM _ HM).
  - destruct HE as (_ & mem & _ & HM). exact (MM _ HM).
  - destruct HE as (_ & mem & _ & HM). exact (MM _ HM).
  - destruct HE as [(_ & _ & HM)|[(_ & _ & _ & _ & HM)|[(_ & _ & _ & _ & _ & HM)|(_ & _ & _ & _ & mem & _ & HM)]]]; exact (MM _ HM).
Qed.
Lemma session_wiped rbs pg st st' res ev : session rbs pg st st' res ev -> forall p n, In (p, n) (wiped st) -> (forall y k, In (Got y k) ev -> apart p n y k) -> In (p, n) (wiped st').
Proof.
  induction 1 as [res st|c k st x st1 st' res ev HA HE HS IH|q m k st st' res ev HB HS IH]; intros p n HI HG; [exact HI| |now apply IH].
  apply IH; [|intros; apply HG, in_or_app; now right]. eapply effect_wiped; try eassumption. intros; apply HG, in_or_app; now left.
Qed.
Lemma session_freed rbs pg st st' res ev : session rbs pg st st' res ev -> forall pre p n post, ev = pre ++ Gave p n :: post -> (forall y k, In (Got y k) post -> apart p n y k) -> In (p, n) (wiped st').
Proof.
  induction 1 as [res st|c k st x st1 st' res ev HA HE HS IH|q m k st st' res ev HB HS IH]; intros pre p n post E HG.
  - destruct pre; discriminate E.
  - assert (CC: (exists e, events c x = [e]) \/ events c x = []).
    { destruct c; cbn [events]; try (now right); [destruct (x =? 0); [now right|left; eexists; reflexivity]|left; eexists; reflexivity]. }
    destruct CC as [[e Ee]|Ee]; rewrite Ee in E; [|exact (IH _ _ _ _ E HG)]. destruct pre as [|e' pre]; cbn [app] in E.
    + injection E as E1 E2. subst e ev. destruct c; cbn [events] in Ee; try discriminate Ee; [destruct (x =? 0); discriminate Ee|]. injection Ee as -> ->.
      destruct HE as (_ & _ & _ & HW & _). eapply session_wiped; [exact HS|rewrite HW; now left|exact HG].
    + injection E as _ E2. exact (IH _ _ _ _ E2 HG).
  - exact (IH _ _ _ _ E HG).
Qed.
