(** C78: what the library leaves in memory that it gives back to the allocator. *)
From Coq Require Import ZifyBool ZifyNat.
From Verif Require Import Base Sponge SpongePure SpongeProofs SpongeProofs2 ShakePrng BufSpec DilSign DilBuf Spx Hybrid HybridSpec Heap HeapProofs HybridProg HybridProgSpec Residue.
From Verif Require BufLemmas SpxBufProofs SpxHeapProofs DilBufSign DilFips DilEncSpec PropsBuf PropsHeap PropsSpxBuf PropsHybridProg HybridProofs HybridBufProofs HybridProgProofs2 DilSignProofs SpxHeap.
Import PropsHeap PropsHybridProg.
Local Open Scope Z_scope.
Ltac Zify.zify_post_hook ::= idtac.
#[local] Opaque Keccak.KeccakF1600_StatePermute zeros splice.
Lemma slice_0_firstn (l : list Z) n : slice l 0 n = firstn (Z.to_nat n) l. Proof. reflexivity. Qed.
Lemma slice_firstn_skipn (l : list Z) o n : slice l o n = firstn (Z.to_nat n) (skipn (Z.to_nat o) l). Proof. reflexivity. Qed.
#[local] Opaque slice.

(** [m] returns the value of [o] (or ends with [exit(111)] after a failed allocation, or is still in a
    rejection loop if [o = None]), and at least one of the blocks that it has given back held the bytes
    [secret] from offset [off] on when it was given back. *)
Definition leaves {A} (m : R A) (o : option A) (off : Z) (secret : list Z) : Prop :=
  forall alloc, honest alloc -> forall n h,
  match m alloc n h with
  | Ok (a, l) _ h' => o = Some a /\ h' = h /\ exists b, In b l /\ slice (contents b) off (zlen secret) = secret
  | More => o = None
  | Exit c => c = 111 /\ exists k h', alloc k h' = None
  | UB => False
  end.
(** the last block of an output of [n] bytes, when the rate is [r] *)
Definition last_block (r : Z) (out : list Z) : list Z := let k := (zlen out - 1) / r * r in slice out k (zlen out - k).

(** ** The recorded programs are the programs of Heap.v, SpxHeap.v and HybridProg.v *)
Definition same {A} (m m' : M A) : Prop := forall alloc n h, m alloc n h = m' alloc n h.
Lemma same_refl {A} (m : M A) : same m m. Proof. intros alloc n h. reflexivity. Qed.
Lemma same_bind {A B} (m m' : M A) (k k' : A -> M B) : same m m' -> (forall a, same (k a) (k' a)) -> same (mbind m k) (mbind m' k').
Proof. intros H K alloc n h. unfold mbind. rewrite H. destruct (m' alloc n h); try reflexivity. apply K. Qed.
Lemma forget_bind {A B} (m : M A) (k : A -> R B) k' : (forall a, same (forget (k a)) (k' a)) -> same (forget (mbind m k)) (mbind m k').
Proof. intros K alloc n h. unfold forget, mbind in *. destruct (m alloc n h); try reflexivity. apply K. Qed.
Lemma forget_call {A B} (m : R A) m' (k : A * list block -> R B) k' : same (forget m) m' -> (forall a l, same (forget (k (a, l))) (k' a)) -> same (forget (mbind m k)) (mbind m' k').
Proof.
  intros H K alloc n h. specialize (H alloc n h). unfold forget, mbind, mret in *. rewrite <- H. destruct (m alloc n h) as [[a l] n1 h1|c| |]; try reflexivity. cbn [fst]. apply K.
Qed.
Lemma forget_ret {A} (a : A) l : same (forget (mret (a, l))) (mret a). Proof. intros alloc n h. reflexivity. Qed.
Lemma release_r_same p : same (forget (release_r p)) (release_h p).
Proof. intros alloc n h. unfold forget, release_r, release_h, load, mfree, mbind, mret. destruct (find p h) as [b|] eqn:E; [|reflexivity]. rewrite E. reflexivity. Qed.
Theorem C78_same_shake : forall r output outlen input inlen, same (forget (shake_r r output outlen input inlen)) (shake_h r output outlen input inlen).
Proof.
  intros. unfold shake_r, shake_h. cbv zeta. do 3 (apply forget_bind; intros). apply forget_call; [apply release_r_same|]. intros [] l. apply forget_ret.
Qed.
Print Assumptions C78_same_shake.
Lemma same_at out off n inp ioff ilen : same (forget (shake256_at_r out off n inp ioff ilen)) (shake256_at_h out off n inp ioff ilen).
Proof.
  unfold shake256_at_r, shake256_at_h. do 2 (apply forget_bind; intros). apply forget_call; [apply C78_same_shake|]. intros d l.
  intros alloc k h. unfold forget, mbind, mret. destruct (copy out off d 0 n); reflexivity.
Qed.
Theorem C78_same_seedexpander : forall seed seedlen output outlen, same (forget (seedexpander_wrapper_r seed seedlen output outlen)) (seedexpander_wrapper_h seed seedlen output outlen).
Proof.
  intros. unfold seedexpander_wrapper_r, seedexpander_wrapper_h. destruct seed as [sd|]; [|apply forget_ret]. destruct output as [out|]; [|apply forget_ret].
  destruct (seedlen <? 32); [apply forget_ret|]. destruct (outlen <=? seedlen); [apply forget_ret|].
  do 2 (apply forget_bind; intros). apply forget_call; [apply release_r_same|]. intros [] l. apply forget_ret.
Qed.
Print Assumptions C78_same_seedexpander.
Theorem C78_same_expander : forall mem eo xo, same (forget (keypair_seed_expander_r mem eo xo)) (keypair_seed_expander_p mem eo xo).
Proof.
  intros. unfold keypair_seed_expander_r, keypair_seed_expander_p. apply forget_bind. intros s. apply forget_call; [apply C78_same_seedexpander|]. intros [ret x] l.
  destruct (negb (ret =? 0)); [apply forget_ret|]. destruct x as [x|]; [|apply same_refl || (intros alloc n h; reflexivity)]. do 3 (apply forget_bind; intros). apply forget_ret.
Qed.
Print Assumptions C78_same_expander.
Theorem C78_same_prf : forall loc ctx out ooff addr, same (forget (prf_addr_r loc ctx out ooff addr)) (SpxHeap.prf_addr_hp loc ctx out ooff addr).
Proof. intros. unfold prf_addr_r, SpxHeap.prf_addr_hp. do 3 (apply forget_bind; intros). apply same_at. Qed.
Print Assumptions C78_same_prf.
Theorem C78_same_dilithium : forall loc fuel pk sk seed, same (forget (keypair_seed_r loc fuel pk sk seed)) (keypair_seed_h loc fuel pk sk seed).
Proof.
  intros. unfold keypair_seed_r, keypair_seed_h. apply forget_bind. intros sb. apply forget_call; [apply same_at|]. intros sb' l. fold (keypair_rest_h loc fuel sb' pk sk).
  intros alloc n h. unfold forget, mbind at 1 2. unfold mret. destruct (keypair_rest_h loc fuel sb' pk sk alloc n h); reflexivity.
Qed.
Print Assumptions C78_same_dilithium.
Theorem C78_same_hybrid : forall loc locw fuel mem po ko eo, same (forget (hybrid_keypair_seed_r loc locw fuel mem po ko eo)) (keypair_seed_p loc locw fuel mem po ko eo).
Proof.
  intros. unfold hybrid_keypair_seed_r, keypair_seed_p. do 3 (apply forget_bind; intros). apply forget_bind. intros [[r1 pk1] sk1]. destruct (negb (r1 =? 0)); [apply forget_ret|].
  do 2 (apply forget_bind; intros). apply forget_call; [apply C78_same_dilithium|]. intros [[r2 pk2] sk2] l. destruct (negb (r2 =? 0)); [apply forget_ret|].
  do 2 (apply forget_bind; intros). apply forget_bind. intros [[r3 pk3] sk3]. destruct (negb (r3 =? 0)); [apply forget_ret|]. do 2 (apply forget_bind; intros). apply forget_ret.
Qed.
Print Assumptions C78_same_hybrid.

(** ** What the record contains *)
Definition logs {A} (m : R A) (P : A -> list block -> Prop) : Prop := forall alloc n h a l n' h', m alloc n h = Ok (a, l) n' h' -> P a l.
Lemma bind_ok {A B} (m : M A) (k : A -> M B) alloc n h x n' h' : mbind m k alloc n h = Ok x n' h' -> exists a n1 h1, m alloc n h = Ok a n1 h1 /\ k a alloc n1 h1 = Ok x n' h'.
Proof. unfold mbind. destruct (m alloc n h) as [a n1 h1|c| |]; intros E; try discriminate E. now exists a, n1, h1. Qed.
Lemma lift_ok {A} (o : outcome A) alloc n h x n' h' : lift o alloc n h = Ok x n' h' -> o = Ret x /\ n' = n /\ h' = h.
Proof. unfold lift. destruct o; intros E; [|discriminate E]. injection E as -> -> ->. auto. Qed.
Lemma leaves_of {A} (m : R A) m' o off secret : same (forget m) m' -> releases m' o ->
  logs m (fun _ l => exists b, In b l /\ slice (contents b) off (zlen secret) = secret) -> leaves m o off secret.
Proof.
  intros S H L alloc HA n h. specialize (H alloc HA n h). specialize (S alloc n h). specialize (L alloc n h).
  rewrite <- S in H. unfold forget, mbind, mret in H. destruct (m alloc n h) as [[a l] n' h'|c| |]; try exact H. cbn [fst] in H. destruct H as [E ->].
  split; [exact E|]. split; [reflexivity|]. exact (L a l n' h eq_refl).
Qed.

Lemma words_bytes s : flat_map word_bytes s = map (byte_at s) (zseq 0 (8 * length s)).
Proof.
  induction s as [|w s IH]; [reflexivity|]. change (length (w :: s)) with (S (length s)). replace (8 * S (length s))%nat with (8 + 8 * length s)%nat by lia.
  rewrite zseq_app, map_app. cbn [flat_map]. f_equal. rewrite IH. change (0 + Z.of_nat 8) with 8. rewrite (map_zseq_shift _ 8). apply map_ext_in. intros j Hj. apply in_zseq in Hj.
  unfold byte_at. rewrite !shiftr3, !land7. replace ((8 + j) / 8) with (j / 8 + 1) by (replace (8 + j) with (j + 1 * 8) by lia; rewrite Z.div_add; lia).
  replace ((8 + j) mod 8) with (j mod 8) by (replace (8 + j) with (j + 1 * 8) by lia; now rewrite Z.mod_add by lia).
  assert (0 <= j / 8) by (apply Z.div_pos; lia). replace (Z.to_nat (j / 8 + 1)) with (S (Z.to_nat (j / 8))) by lia. reflexivity.
Qed.
Lemma state_block r s q t : 0 < r <= 200 -> zlen s = 25 -> 0 < q -> 0 <= t <= r ->
  forall tl, slice (flat_map word_bytes (Nat.iter (Z.to_nat q) F s ++ tl)) 0 t = map (stream r s) (zseq ((q - 1) * r) (Z.to_nat t)).
Proof.
  intros Hr Hs Hq Ht tl. assert (L: zlen (Nat.iter (Z.to_nat q) F s) = 25) by now apply zlen_iter. set (s' := Nat.iter _ F s) in *. unfold zlen in L.
  rewrite flat_map_app, words_bytes. rewrite slice_app_l by (rewrite ?zlen_map, ?zlen_zseq; lia). rewrite slice_zseq_map by lia. rewrite (map_zseq_shift (stream r s)). apply map_ext_in. intros j Hj. apply in_zseq in Hj.
  unfold stream. replace ((q - 1) * r + j) with (j + (q - 1) * r) by lia. rewrite Z.div_add, Z.mod_add by lia. rewrite Z.div_small, Z.mod_small by lia. now replace (0 + (q - 1) + 1) with q by lia.
Qed.
Lemma last_squeeze r s n : 0 < r -> 0 < n -> last_block r (squeeze r n s) = map (stream r s) (zseq ((n - 1) / r * r) (Z.to_nat (n - (n - 1) / r * r))).
Proof.
  intros Hr Hn. unfold last_block. rewrite zlen_squeeze by lia. set (k := (n - 1) / r * r). pose proof (Z.div_mod (n - 1) r ltac:(lia)). pose proof (Z.mod_pos_bound (n - 1) r ltac:(lia)). assert (0 <= (n - 1) / r) by (apply Z.div_pos; lia).
  assert (0 <= k < n) by (unfold k; nia). cbv zeta. fold k. replace n with (k + (n - k)) at 1 by lia. rewrite squeeze_more by lia. rewrite slice_app_r by (rewrite ?zlen_squeeze; lia). rewrite zlen_squeeze, Z.sub_diag by lia. apply slice_all. rewrite zlen_map, zlen_zseq. lia.
Qed.

Definition keeps (l : list block) (bs : list Z) : Prop := exists b, In b l /\ slice (contents b) 0 (zlen bs) = bs.
Lemma shake_logs r output outlen input inlen : r mod 8 = 0 -> 0 < r <= 200 -> 0 < outlen <= zlen output -> 0 <= inlen <= zlen input -> bytes_ok input ->
  logs (shake_r r output outlen input inlen) (fun _ l => keeps l (last_block r (sponge_bytes r 0x1F (slice input 0 inlen) outlen))).
Proof.
  intros H8 Hr Ho Hi Hb alloc n h a l n' h' E. unfold shake_r in E. cbv zeta in E. set (nb := outlen / r) in *. set (rem := outlen - nb * r) in *.
  pose proof (Z.div_mod outlen r ltac:(lia)) as DM. pose proof (Z.mod_pos_bound outlen r ltac:(lia)) as MB. assert (NB: 0 <= nb) by (apply Z.div_pos; lia).
  unfold sponge_bytes. set (s := pad_state r 31 (absorb r (slice input 0 inlen))). assert (Hs: zlen s = 25) by (unfold s; rewrite zlen_pad_state; apply zlen_absorb; lia).
  rewrite last_squeeze by lia.
  apply bind_ok in E. destruct E as (p & n1 & h1 & E1 & E). unfold absorb_h, mbind, malloc in E1. destruct (alloc n h) as [q|]; [|discriminate E1].
  rewrite keccak_absorb_ok in E1 by (assumption || lia). fold s in E1. cbn [lift] in E1. unfold lift, store in E1. rewrite find_hd in E1. cbn [size_of] in E1. change (200 <=? 200) with true in E1. cbv iota in E1. rewrite update_hd in E1. unfold mret in E1. injection E1 as <- <- <-.
  apply bind_ok in E. destruct E as (o1 & n2 & h2 & E2 & E). unfold squeezeblocks_h, mbind, load_state, load, mbind in E2. rewrite find_hd in E2. unfold mret, lift in E2.
  rewrite keccak_squeezeblocks_ok in E2; [|exact H8|exact Hr|exact Hs|lia|unfold nb in *; nia]. unfold store in E2. rewrite find_hd in E2. cbn [size_of] in E2. change (200 <=? 200) with true in E2. cbv iota in E2. rewrite update_hd in E2. injection E2 as <- <- <-.
  apply bind_ok in E. destruct E as (o2 & n3 & h3 & E3 & E).
  assert (X: exists t, 0 < t /\ (t - 1) * r = (outlen - 1) / r * r /\ h3 = (q, State (Nat.iter (Z.to_nat t) F s)) :: h).
  { destruct (Z.eqb_spec rem 0) as [R0|R0].
    - unfold mret in E3. injection E3 as _ _ <-. exists nb. assert (0 < nb) by (unfold rem in R0; nia). split; [assumption|]. split; [|reflexivity]. f_equal. apply (Z.div_unique_pos _ _ _ (r - 1)); unfold rem in R0; nia.
    - apply bind_ok in E3. destruct E3 as (t & n4 & h4 & E4 & E3). apply lift_ok in E3. destruct E3 as (_ & _ & ->).
      unfold squeezeblocks_h, mbind, load_state, load, mbind in E4. rewrite find_hd in E4. unfold mret, lift in E4.
      rewrite keccak_squeezeblocks_ok in E4; [|exact H8|exact Hr|now apply zlen_iter|lia|rewrite zlen_zeros; lia]. unfold store in E4. rewrite find_hd in E4. cbn [size_of] in E4. change (200 <=? 200) with true in E4. cbv iota in E4. rewrite update_hd in E4. injection E4 as _ _ <-.
      exists (nb + 1). split; [lia|]. split; [|replace (Z.to_nat (nb + 1)) with (S (Z.to_nat nb)) by lia; reflexivity]. f_equal. apply (Z.div_unique_pos _ _ _ (rem - 1)); unfold rem in *; nia. }
  destruct X as (t & T0 & T1 & ->). apply bind_ok in E. destruct E as ([[] l'] & n5 & h5 & E5 & E). unfold release_r, mbind, load, release_h, mfree in E5. rewrite !find_hd in E5. unfold mret in E5, E. injection E5 as <- _ _. injection E as _ <- _ _.
  exists (State (Nat.iter (Z.to_nat t) F s)). split; [left; reflexivity|]. rewrite zlen_map, zlen_zseq. cbn [contents]. rewrite <- (app_nil_r (Nat.iter _ F s)).
  pose proof (Z.div_mod (outlen - 1) r ltac:(lia)). pose proof (Z.mod_pos_bound (outlen - 1) r ltac:(lia)).
  set (k := (outlen - 1) / r * r) in *. rewrite (state_block r s t) by (unfold k; lia). rewrite T1. f_equal. f_equal. unfold k; lia.
Qed.

Lemma init_h_ok sd len alloc n h p n1 h1 : 0 <= len <= zlen sd -> seedexpander_init_h sd len alloc n h = Ok p n1 h1 ->
  h1 = (p, Inc {| lanes := pad_state 136 0x1F (absorb 136 (slice sd 0 len ++ [2])); pos := 0 |}) :: h.
Proof.
  intros HL E. unfold seedexpander_init_h in E. apply bind_ok in E. destruct E as (q & n2 & h2 & E1 & E). unfold inc_init_h, mbind, malloc in E1. destruct (alloc n h) as [q'|]; [|discriminate E1].
  unfold store in E1. rewrite find_hd in E1. cbn [size_of] in E1. change (208 <=? 208) with true in E1. cbv iota in E1. rewrite update_hd in E1. unfold mret in E1. injection E1 as <- <- <-.
  destruct (keccak_inc_absorb_ok SHAKE256_RATE keccak_inc_init sd len rate256) as (c1 & X1 & Hc1 & P1); [apply ctx_ok_init; apply rate256|lia|].
  destruct (keccak_inc_absorb_ok SHAKE256_RATE c1 [SEEDEXPANDER_DOMAIN] 1 rate256 Hc1) as (c2 & X2 & Hc2 & P2); [change (zlen [SEEDEXPANDER_DOMAIN]) with 1; lia|].
  assert (A: forall c c' m l k n h, keccak_inc_absorb c SHAKE256_RATE m l = Ret c' -> mbind (inc_absorb_h SHAKE256_RATE q' m l) k alloc n ((q', Inc c) :: h) = k tt alloc n ((q', Inc c') :: h) :> result Z).
  { intros c c' m l k n0 h0 X. unfold inc_absorb_h, mbind, load_inc, mbind, load. rewrite find_hd. unfold mret, lift. rewrite X. unfold store. rewrite find_hd. cbn [size_of]. change (208 <=? 208) with true. cbv iota. now rewrite update_hd. }
  rewrite (A _ _ _ _ _ _ _ X1), (A _ _ _ _ _ _ _ X2) in E. clear A. unfold inc_finalize_h, mbind, load_inc, mbind, load in E. rewrite find_hd in E. unfold mret, lift in E. rewrite keccak_inc_finalize_ok in E by (try apply rate256; assumption).
  unfold store in E. rewrite find_hd in E. cbn [size_of] in E. change (208 <=? 208) with true in E. cbv iota in E. rewrite update_hd in E. injection E as <- _ <-. rewrite P2, P1. rewrite <- absorb_from_app. reflexivity.
Qed.
Lemma wrapper_logs sd len out outlen : 32 <= len <= zlen sd -> len < outlen <= zlen out -> outlen mod 8 = 0 ->
  logs (seedexpander_wrapper_r (Some sd) len (Some out) outlen) (fun _ l => keeps l (last_block 136 (shake256_bytes (slice sd 0 len ++ [2]) outlen))).
Proof.
  intros HL Ho H8 alloc n h a l n' h' E. unfold seedexpander_wrapper_r in E. replace (len <? 32) with false in E by lia. replace (outlen <=? len) with false in E by lia.
  apply bind_ok in E. destruct E as (p & n1 & h1 & E1 & E). apply init_h_ok in E1; [|lia]. subst h1. unfold shake256_bytes, sponge_bytes. set (s := pad_state 136 31 _) in *. assert (Hs: zlen s = 25) by (unfold s; rewrite zlen_pad_state; apply zlen_absorb; lia).
  apply bind_ok in E. destruct E as (o & n2 & h2 & E2 & E). unfold seedexpander_h in E2. cbv zeta in E2. rewrite H8 in E2. change (0 =? 0) with true in E2. cbv iota in E2. rewrite Z.sub_0_r in E2.
  unfold inc_squeeze_h, mbind, load_inc, mbind, load in E2. rewrite find_hd in E2. unfold mret, lift in E2.
  destruct (keccak_inc_squeeze_ok 136 s out 0 outlen {| lanes := s; pos := 0 |} 0) as (c' & X & Hc); try lia; [exists 0; cbn; repeat split; lia|].
  change SHAKE256_RATE with 136 in E2. rewrite X in E2. unfold store in E2. rewrite find_hd in E2. cbn [size_of] in E2. change (208 <=? 208) with true in E2. cbv iota in E2. rewrite update_hd in E2. injection E2 as _ _ <-.
  apply bind_ok in E. destruct E as ([[] l'] & n5 & h5 & E5 & E). unfold release_r, mbind, load, release_h, mfree in E5. rewrite !find_hd in E5. unfold mret in E5, E. injection E5 as <- _ _. injection E as _ <- _ _.
  exists (Inc c'). split; [left; reflexivity|]. rewrite last_squeeze by lia. rewrite zlen_map, zlen_zseq. cbn [contents]. destruct Hc as (q & Q0 & -> & Q1 & Q2). rewrite Z.add_0_l in Q1.
  pose proof (Z.div_mod (outlen - 1) 136 ltac:(lia)). pose proof (Z.mod_pos_bound (outlen - 1) 136 ltac:(lia)). assert (T: q - 1 = (outlen - 1) / 136) by lia. rewrite <- T in *.
  rewrite (state_block 136 s q) by lia. do 2 f_equal. lia.
Qed.
Lemma last_all r m p n : 0 < r -> 0 < n <= r -> last_block r (sponge_bytes r p m n) = sponge_bytes r p m n.
Proof.
  intros Hr Hn. assert (L: zlen (sponge_bytes r p m n) = n) by (unfold sponge_bytes; apply zlen_squeeze; lia). unfold last_block. rewrite L. rewrite Z.div_small by lia. cbv zeta. rewrite Z.sub_0_r. apply slice_all. lia.
Qed.

(** ** The hash functions: the context of every shake128 / shake256 call goes back to the allocator with
    the last block of the output in it; with an output of at most one block that is the whole output. *)
Theorem C78_shake : forall r output outlen input inlen, r = 168 \/ r = 136 -> 0 < outlen <= zlen output -> 0 <= inlen <= zlen input -> bytes_ok input ->
  let out := sponge_bytes r 0x1F (slice input 0 inlen) outlen in
  exists out', written output 0 out out' /\ leaves (shake_r r output outlen input inlen) (Some out') 0 (last_block r out).
Proof.
  intros r output outlen input inlen Hr Ho Hi B out. assert (H8: r mod 8 = 0) by (destruct Hr; subst r; reflexivity).
  destruct (C71_shake r output outlen input inlen H8 ltac:(lia) ltac:(lia) Hi B) as (out' & HR & HW). exists out'. split; [exact HW|].
  eapply leaves_of; [apply C78_same_shake|exact HR|]. apply shake_logs; assumption || lia.
Qed.
Print Assumptions C78_shake.

(** ** The seed expander of shake_prng.c *)
Theorem C78_seedexpander : forall sd len out outlen, bytes_ok sd -> 32 <= len <= zlen sd -> len < outlen <= zlen out -> outlen mod 8 = 0 ->
  let x := shake256_bytes (slice sd 0 len ++ [2]) outlen in
  exists out', written out 0 x out' /\ leaves (seedexpander_wrapper_r (Some sd) len (Some out) outlen) (Some (0, Some out')) 0 (last_block 136 x).
Proof.
  intros sd len out outlen B HL Ho H8 x. assert (L: zlen x = outlen) by (apply (DilSignProofs.sponge_bytes_len 136 0x1F); lia). exists (splice out 0 x). split; [apply PropsBuf.splice_written; lia|].
  eapply leaves_of; [apply C78_same_seedexpander| |apply wrapper_logs; assumption || lia].
  apply bal_releases. pose proof (seedexpander_wrapper_h_bal (Some sd) len (Some out) outlen) as HB. rewrite wrapper_ok in HB by lia. exact HB.
Qed.
Print Assumptions C78_seedexpander.

(** ** The seed expander of the hybrid interface: one block given back holds the Ed25519 seed of the
    expanded seed (its bytes 0..31) and the three SPHINCS+ seeds (its bytes 64..159). *)
Theorem C78_expander : forall mem eo xo, bytes_ok mem -> inside mem eo 96 -> inside mem xo 160 -> xo <= eo + 32 \/ eo + 96 <= xo ->
  exists mem', (exists x, written mem xo x mem' /\ zlen x = 160) /\
    leaves (keypair_seed_expander_r mem eo xo) (Some (0, mem')) 0 (slice mem' xo 32 ++ slice mem' (xo + 64) 96).
Proof.
  intros mem eo xo Bm (E1 & E0 & E2) (X1 & X0 & X2) HA. pose proof (HybridProgProofs2.expander_p_rel mem eo xo Bm E1 E2 X1 X2 HA) as HR. cbv zeta in HR.
  set (seed := slice mem eo 96) in *. set (x := shake256_bytes _ 128) in *. assert (Lx: zlen x = 128) by (apply (DilSignProofs.sponge_bytes_len 136 0x1F); lia). assert (Lsd: zlen seed = 96) by (apply zlen_slice; lia).
  set (y := slice x 0 32 ++ slice seed 64 32 ++ slice x 32 96) in *. assert (Ly: zlen y = 160) by (unfold y; rewrite !zlen_app, !zlen_slice by lia; lia).
  exists (splice mem xo y). split; [exists y; split; [apply PropsBuf.splice_written; lia|exact Ly]|].
  assert (S: slice (splice mem xo y) xo 160 = y) by (rewrite <- Ly; apply slice_splice; lia).
  assert (S1: slice (splice mem xo y) xo 32 = slice x 0 32).
  { replace (slice (splice mem xo y) xo 32) with (slice (slice (splice mem xo y) xo 160) 0 32) by (rewrite slice_slice by lia; f_equal; lia). rewrite S. unfold y. rewrite slice_app_l by (rewrite ?zlen_slice; lia). rewrite slice_slice by lia. f_equal; lia. }
  assert (S2: slice (splice mem xo y) (xo + 64) 96 = slice x 32 96).
  { replace (slice (splice mem xo y) (xo + 64) 96) with (slice (slice (splice mem xo y) xo 160) 64 96) by (rewrite slice_slice by lia; f_equal; lia). rewrite S. unfold y. rewrite slice_app_r by (rewrite ?zlen_slice; lia). rewrite (zlen_slice x) by lia. rewrite slice_app_r by (rewrite ?zlen_slice; lia). rewrite (zlen_slice seed) by lia. apply slice_all. rewrite zlen_slice; lia. }
  rewrite S1, S2. assert (SX: slice x 0 32 ++ slice x 32 96 = x). { rewrite <- (slice_all x 128) at 3 by lia. symmetry. exact (slice_split x 0 128 32 ltac:(lia) ltac:(lia)). } rewrite SX.
  eapply leaves_of; [apply C78_same_expander|exact HR|]. intros alloc n h a l n' h' E. unfold keypair_seed_expander_r in E.
  apply bind_ok in E. destruct E as (st & n1 & h1 & E3 & E). apply lift_ok in E3. destruct E3 as (E3 & _ & _).
  assert (ES: st = HybridProofs.even_only seed). { rewrite HybridBufProofs.copy_seed_loop_sub in E3 by lia. fold seed in E3. rewrite HybridProofs.copy_seed_loop_even in E3 by lia. now injection E3 as ->. } subst st.
  apply bind_ok in E. destruct E as ([[ret xo'] l'] & n2 & h2 & E4 & E). pose proof (HybridProgProofs2.even_only_len seed) as Lev.
  apply wrapper_logs in E4; [|lia|rewrite zlen_zeros; lia|reflexivity]. rewrite (slice_all _ 64) in E4 by lia. fold x in E4. unfold shake256_bytes in x. unfold x in E4 at 1. rewrite last_all in E4 by lia. fold x in E4.
  assert (EL: l = l'); [|subst l'; exact E4].
  destruct (negb (ret =? 0)); [unfold mret in E; now injection E|]. destruct xo' as [z|]; [|discriminate E].
  apply bind_ok in E. destruct E as (m1 & ? & ? & _ & E). apply bind_ok in E. destruct E as (m2 & ? & ? & _ & E). apply bind_ok in E. destruct E as (m3 & ? & ? & _ & E). unfold mret in E. now injection E.
Qed.
Print Assumptions C78_expander.

Lemma at_logs out off n inp ioff ilen : 0 < n <= 136 -> 0 <= off -> off + n <= zlen out -> 0 <= ioff -> 0 <= ilen -> ioff + ilen <= zlen inp -> bytes_ok (slice inp ioff ilen) ->
  logs (shake256_at_r out off n inp ioff ilen) (fun _ l => keeps l (shake256_bytes (slice inp ioff ilen) n)).
Proof.
  intros Hn Ho1 Ho2 Hi1 Hi2 Hi3 B alloc k h a l n' h' E. unfold shake256_at_r in E. rewrite !rdrange_ok in E by lia.
  apply bind_ok in E. destruct E as (i & n1 & h1 & E1 & E). apply lift_ok in E1. destruct E1 as (E1 & -> & ->). apply HybridBufProofs.Ret_inj in E1. subst i.
  apply bind_ok in E. destruct E as (o & n1 & h1 & E1 & E). apply lift_ok in E1. destruct E1 as (E1 & -> & ->). apply HybridBufProofs.Ret_inj in E1. subst o.
  apply bind_ok in E. destruct E as ([d l'] & n1 & h1 & E1 & E). apply bind_ok in E. destruct E as (x & n2 & h2 & _ & E). unfold mret in E. injection E as _ <- _ _.
  apply shake_logs in E1; [|reflexivity|lia|rewrite zlen_slice; lia|rewrite zlen_slice; lia|exact B]. rewrite slice_slice in E1 by lia. rewrite last_all in E1 by lia. replace (ioff + 0) with ioff in E1 by lia. exact E1.
Qed.

(** ** SPHINCS+: every secret WOTS+ and FORS value that is derived with PRF stays in a block given back *)
Theorem C78_sphincs_secrets : forall loc locw ctx out ooff addr, PropsSpxBuf.locals loc locw ->
  zlen (pub_seed ctx) = 32 -> bytes_ok (pub_seed ctx) -> zlen (sk_seed ctx) = 32 -> bytes_ok (sk_seed ctx) -> zlen addr = 32 -> bytes_ok addr ->
  inside out ooff 32 ->
  let secret := shake256_bytes (pub_seed ctx ++ addr ++ sk_seed ctx) 32 in
  exists out', written out ooff secret out' /\ leaves (prf_addr_r loc ctx out ooff addr) (Some out') 0 secret.
Proof.
  intros loc locw ctx out ooff addr (LOC & LB & LW) Lp Bp Ls Bs La Ba (O1 & _ & O2) secret. assert (L: zlen secret = 32) by (apply (DilSignProofs.sponge_bytes_len 136 0x1F); lia).
  exists (splice out ooff secret). split; [apply PropsBuf.splice_written; lia|].
  eapply leaves_of; [apply C78_same_prf| |].
  - apply bal_releases. pose proof (SpxHeapProofs.prf_bal loc ctx out ooff addr) as HB.
    rewrite (SpxBufProofs.prf_addr_c_ok loc locw LOC LB LW) in HB by (assumption || split; assumption). exact HB.
  - intros alloc n h a l n' h' E. unfold prf_addr_r in E. assert (LL: zlen (loc 96) = 96) by (apply LOC; lia).
    apply bind_ok in E. destruct E as (b1 & n1 & h1 & E1 & E). apply lift_ok in E1. destruct E1 as (E1 & -> & ->). rewrite copy_splice in E1 by lia. apply HybridBufProofs.Ret_inj in E1. rewrite (slice_all (pub_seed ctx)) in E1 by lia.
    assert (L1: zlen b1 = 96) by (subst b1; rewrite zlen_splice; lia).
    apply bind_ok in E. destruct E as (b2 & n1 & h1 & E2 & E). apply lift_ok in E2. destruct E2 as (E2 & -> & ->). rewrite copy_splice in E2 by lia. apply HybridBufProofs.Ret_inj in E2. rewrite (slice_all addr) in E2 by lia.
    assert (L2: zlen b2 = 96) by (subst b2; rewrite zlen_splice; lia).
    apply bind_ok in E. destruct E as (b3 & n1 & h1 & E3 & E). apply lift_ok in E3. destruct E3 as (E3 & -> & ->). rewrite copy_splice in E3 by lia. apply HybridBufProofs.Ret_inj in E3. rewrite (slice_all (sk_seed ctx)) in E3 by lia.
    subst b1 b2. rewrite (SpxBufProofs.fill3 loc locw LOC LB LW _ _ _ _ 32) in E3 by lia. assert (Lx: zlen (pub_seed ctx ++ addr ++ sk_seed ctx) = 96) by (rewrite !zlen_app; lia). subst b3.
    assert (SA: slice (pub_seed ctx ++ addr ++ sk_seed ctx) 0 96 = pub_seed ctx ++ addr ++ sk_seed ctx) by (apply slice_all; lia).
    apply at_logs in E; try lia; [|rewrite SA, !bytes_ok_app; auto]. rewrite SA in E. exact E.
Qed.
Print Assumptions C78_sphincs_secrets.

(** ** Dilithium: the block of the first hash of key generation goes back with rho, rho' (from which the
    secret vectors are sampled) and the signing key K in it *)
Lemma keygen_K xi pk sk : DilFips.MLDSA.keygen xi pk sk -> slice (shake256_bytes xi 128) 96 32 = slice sk 32 32.
Proof.
  intros (A & s1 & s2 & _ & _ & H). cbv zeta in H. destruct H as [_ ->]. unfold DilFips.MLDSA.H, DilFips.MLDSA.sk_encode.
  assert (L: zlen (shake256_bytes xi 128) = 128) by (apply (DilSignProofs.sponge_bytes_len 136 0x1F); lia). set (x := shake256_bytes xi 128) in *. clearbody x.
  assert (L1: zlen (firstn 32 x) = 32) by (unfold zlen in *; rewrite firstn_length; lia). assert (L2: zlen (skipn 96 x) = 32) by (unfold zlen in *; rewrite skipn_length; lia).
  rewrite slice_app_r by lia. rewrite L1. rewrite slice_app_l by lia. rewrite (slice_all (skipn 96 x)) by lia. rewrite slice_firstn_skipn. change (Z.to_nat 96) with 96%nat. apply firstn_all2. unfold zlen in L2. lia.
Qed.
Lemma dil_logs loc fuel pk0 sk0 seed : locals1 loc -> 32 <= zlen seed -> bytes_ok seed -> logs (keypair_seed_r loc fuel pk0 sk0 seed) (fun _ l => keeps l (shake256_bytes (slice seed 0 32) 128)).
Proof.
  intros LOC L B alloc n h a l n' h' E. unfold keypair_seed_r in E. assert (LL: zlen (loc 128) = 128) by (apply LOC; lia).
  apply bind_ok in E. destruct E as (sb & n1 & h1 & E1 & E). apply lift_ok in E1. destruct E1 as (E1 & -> & ->). rewrite DilBufSign.copy_in_loop in E1 by lia. apply HybridBufProofs.Ret_inj in E1.
  assert (L1: zlen (slice seed 0 32) = 32) by (apply zlen_slice; lia). assert (S: slice sb 0 32 = slice seed 0 32) by (subst sb; rewrite <- L1 at 2; apply slice_splice; lia). assert (L2: zlen sb = 128) by (subst sb; rewrite zlen_splice; lia).
  apply bind_ok in E. destruct E as ([sb' l'] & n1 & h1 & E2 & E). apply at_logs in E2; try lia; [|rewrite S; now apply bytes_ok_slice]. rewrite S in E2.
  apply bind_ok in E. destruct E as (x & n2 & h2 & _ & E). unfold mret in E. injection E as _ <- _ _. exact E2.
Qed.
Theorem C78_dilithium_keygen : forall loc fuel pk0 sk0 seed, locals1 loc -> 1312 <= zlen pk0 -> 2560 <= zlen sk0 -> 32 <= zlen seed -> bytes_ok seed ->
  let s := shake256_bytes (firstn 32 seed) 128 in
  exists r, leaves (keypair_seed_r loc fuel pk0 sk0 seed) r 0 s /\
  forall rc pk' sk', r = Some (rc, pk', sk') ->
    rc = 0 /\ exists pk sk, DilFips.MLDSA.keygen (firstn 32 seed) pk sk /\ written pk0 0 pk pk' /\ written sk0 0 sk sk' /\ slice s 96 32 = slice sk 32 32.
Proof.
  intros loc fuel pk0 sk0 seed LOC L1 L2 L3 B s. destruct (C71_dilithium_keygen loc fuel pk0 sk0 seed LOC L1 L2 L3 B) as (r & HR & HP). exists r. split.
  - eapply leaves_of; [apply C78_same_dilithium|exact HR|]. unfold s. change (firstn 32 seed) with (firstn (Z.to_nat 32) seed). rewrite <- slice_0_firstn. now apply dil_logs.
  - intros rc pk' sk' E. destruct (HP rc pk' sk' E) as (-> & pk & sk & HK & W1 & W2). split; [reflexivity|]. exists pk, sk. split; [exact HK|]. split; [exact W1|]. split; [exact W2|]. eapply keygen_K; exact HK.
Qed.
Print Assumptions C78_dilithium_keygen.

Lemma ed_rc seed r p k : Tweet.ed_keypair_seed seed = Ret (r, p, k) -> r = 0.
Proof.
  unfold Tweet.ed_keypair_seed. destruct (copy _ _ _ _ _) as [a|]; [|discriminate]. cbn [bind]. destruct (Tweet.crypto_hash _ _ _) as [b|]; [|discriminate]. cbn [bind]. destruct (Tweet.clamp _) as [c|]; [|discriminate]. cbn [bind].
  destruct (Tweet.scalarbase _) as [d|]; [|discriminate]. cbn [bind]. destruct (Tweet.ed_pack _) as [e|]; [|discriminate]. cbn [bind]. destruct (copy _ _ _ _ _) as [f|]; [|discriminate]. cbn [bind]. intros E. apply HybridBufProofs.Ret_inj in E. congruence.
Qed.
(** ** Key generation of the hybrid interface: a block given back holds K of the Dilithium secret key that
    the call returns (bytes 96..127), after rho' (bytes 32..95). *)
Theorem C78_hybrid_keygen : forall loc locw fuel mem po ko eo, PropsSpxBuf.locals loc locw -> bytes_ok mem ->
  inside mem po 1408 -> inside mem ko 4064 -> inside mem eo 160 -> apart po 1408 ko 4064 ->
  let s := shake256_bytes (slice mem (eo + 32) 32) 128 in
  exists r, leaves (hybrid_keypair_seed_r loc locw fuel mem po ko eo) r 0 s /\
  forall c mem', r = Some (c, mem') ->
    c = 0 /\ exists pk sk mem1, hybrid_keys (slice mem eo 160) pk sk /\ zlen pk = 1408 /\ zlen sk = 4064 /\ written mem po pk mem1 /\ written mem1 ko sk mem' /\
      slice s 96 32 = slice (sk_dil sk) 32 32.
Proof.
  intros loc locw fuel mem po ko eo HL Bm IP IK IE HA s. destruct (C75_keypair_seed loc locw fuel mem po ko eo HL Bm IP IK IE HA) as (r & HR & HP). exists r. destruct IE as (E1 & _ & E2). split.
  - eapply leaves_of; [apply C78_same_hybrid|exact HR|]. clear HR HP. intros alloc n h a l n' h' E. unfold hybrid_keypair_seed_r in E.
    apply bind_ok in E. destruct E as (s1 & n1 & h1 & X & E). clear X.
    apply bind_ok in E. destruct E as (s2 & n2 & h2 & X & E). apply lift_ok in X. destruct X as (X & _ & _). rewrite copy_splice in X by (rewrite ?zlen_zeros; lia). apply HybridBufProofs.Ret_inj in X.
    assert (L2: zlen (slice mem (eo + 32) 32) = 32) by (apply zlen_slice; lia). rewrite BufLemmas.splice_whole' in X by (rewrite zlen_zeros; lia). subst s2.
    apply bind_ok in E. destruct E as (s3 & n3 & h3 & X & E). clear X.
    apply bind_ok in E. destruct E as ([[r1 pk1] sk1] & n4 & h4 & X & E). destruct (Z.eqb_spec r1 0) as [Z1|Z1].
    2:{ exfalso. apply lift_ok in X. destruct X as (X & _). apply ed_rc in X. contradiction. }
    clear X. cbn [negb] in E. apply bind_ok in E. destruct E as (m1 & n5 & h5 & X & E). clear X. apply bind_ok in E. destruct E as (m2 & n6 & h6 & X & E). clear X.
    apply bind_ok in E. destruct E as ([[[r2 pk2] sk2] l'] & n7 & h7 & X & E). destruct HL as (LOC & _). apply dil_logs in X; [|exact LOC|lia|now apply bytes_ok_slice].
    rewrite slice_slice in X by lia. replace (eo + 32 + 0) with (eo + 32) in X by lia. fold s in X. assert (EL: l = l'); [|subst l'; exact X]. clear X.
    destruct (negb (r2 =? 0)); [unfold mret in E; now injection E|].
    apply bind_ok in E. destruct E as (m3 & n8 & h8 & X & E). clear X. apply bind_ok in E. destruct E as (m4 & n9 & h9 & X & E). clear X.
    apply bind_ok in E. destruct E as ([[r3 pk3] sk3] & n10 & h10 & X & E). clear X. destruct (negb (r3 =? 0)); [unfold mret in E; now injection E|].
    apply bind_ok in E. destruct E as (m5 & n11 & h11 & X & E). clear X. apply bind_ok in E. destruct E as (m6 & n12 & h12 & X & E). clear X. unfold mret in E. now injection E.
  - intros c mem' E. destruct (HP c mem' E) as (-> & pk & sk & mem1 & HK & LP & LK & W1 & W2). split; [reflexivity|]. exists pk, sk, mem1.
    do 5 (split; [assumption|]). assert (HS: is_seed 160 (slice mem eo 160)) by (split; [apply zlen_slice; lia|now apply bytes_ok_slice]).
    destruct (keys_parts _ _ _ HS HK) as (_ & _ & _ & _ & _ & _ & _ & HD & _). rewrite slice_slice in HD by lia. unfold s. exact (keygen_K _ _ _ HD).
Qed.
Print Assumptions C78_hybrid_keygen.

(** ** The property as stated fails: with every allocator that has memory left, the expander gives back a
    block that contains the Ed25519 seed it has just delivered. *)
Theorem C78_given_back_clean_refuted :
  ~ (forall mem eo xo, bytes_ok mem -> inside mem eo 96 -> inside mem xo 160 -> xo <= eo + 32 \/ eo + 96 <= xo ->
     forall alloc, honest alloc -> forall n h rc mem' l n' h', keypair_seed_expander_r mem eo xo alloc n h = Ok ((rc, mem'), l) n' h' ->
     forall b, In b l -> forall off, 0 <= off -> slice (contents b) off 32 <> slice mem' xo 32).
Proof.
  intros P. set (mem := map (fun i => (7 * i + 1) mod 256) (zseq 0 256)).
  assert (Lm: zlen mem = 256) by (unfold mem; rewrite zlen_map, zlen_zseq; reflexivity).
  assert (Bm: bytes_ok mem). { unfold bytes_ok. apply Forall_forall. intros x Hx. unfold mem in Hx. apply in_map_iff in Hx. destruct Hx as (i & <- & _). apply Z.mod_pos_bound. lia. }
  clearbody mem. assert (I1: inside mem 0 96) by (unfold inside; lia). assert (I2: inside mem 96 160) by (unfold inside; lia).
  destruct (C78_expander mem 0 96 Bm I1 I2 ltac:(lia)) as (mem' & (x & (Hw & _) & Lx) & HL). destruct C71_witness as (HA & HN & _). specialize (HL next HA 0%nat []).
  pose proof (C71_returns _ _ (HybridProgProofs2.expander_p_rel mem 0 96 Bm ltac:(lia) ltac:(lia) ltac:(lia) ltac:(lia) ltac:(lia)) next HA HN 0%nat []) as (n2 & ER). cbv zeta in ER. rewrite <- C78_same_expander in ER.
  unfold forget, mbind in ER. destruct (keypair_seed_expander_r mem 0 96 next 0%nat []) as [[a l] n' h'|c| |] eqn:E; try discriminate ER. clear ER.
  destruct HL as (Ea & _ & b & Hb & HS). injection Ea as Ea. subst a. apply (P mem 0 96 Bm I1 I2 ltac:(lia) next HA 0%nat [] 0 mem' l n' h' E b Hb 0 ltac:(lia)).
  assert (L': zlen mem' = 256) by (unfold zlen in *; rewrite Hw; exact Lm).
  assert (LS: zlen (slice mem' 96 32 ++ slice mem' (96 + 64) 96) = 128) by (rewrite zlen_app, !zlen_slice; lia). rewrite LS in HS.
  assert (X: slice (slice (contents b) 0 128) 0 32 = slice mem' 96 32). { rewrite HS. rewrite slice_app_l by (rewrite ?zlen_slice; lia). apply slice_all. rewrite zlen_slice; lia. }
  rewrite slice_slice in X by lia. exact X.
Qed.
Print Assumptions C78_given_back_clean_refuted.

(** Hypotheses are met: *)
Example C78_met : bytes_ok (zeros 6000) /\ inside (zeros 6000) 0 1408 /\ inside (zeros 6000) 1408 4064 /\ inside (zeros 6000) 5472 160 /\ apart 0 1408 1408 4064 /\
  PropsSpxBuf.locals zeros zeros /\ honest next /\ (forall k h, next k h <> None).
Proof.
  assert (L: zlen (zeros 6000) = 6000) by (apply zlen_zeros; lia). split; [apply bytes_ok_zeros|]. unfold inside, apart. rewrite L. do 4 (split; [lia|]).
  split; [split; [intros; now apply zlen_zeros|split; [intros; apply bytes_ok_zeros|intros; now apply zlen_zeros]]|]. destruct C71_witness as (A & B & _). split; assumption.
Qed.
(** words are stored least significant byte first; a context has 208 bytes *)
Example C78_contents : firstn 10 (contents (State (zseq 0x0807060504030201 25))) = [1; 2; 3; 4; 5; 6; 7; 8; 2; 2] /\ zlen (contents (Inc {| lanes := zseq 1 25; pos := 8 |})) = 208.
Proof. split; reflexivity. Qed.
