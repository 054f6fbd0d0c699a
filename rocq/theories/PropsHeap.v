(** C71: hash contexts on the heap are released exactly once on every path.
    C72: contexts of a client are independent of each other. *)
From Coq Require Import ZifyBool ZifyNat.
From Verif Require Import Base Sponge SpongePure SpongeProofs2 ShakePrng BufSpec DilFips DilBuf SpxSpec Spx SpxTop PropsSpx.
From Verif Require Heap HeapProofs SpxBuf SpxHeap SpxHeapProofs PropsBuf PropsSpxBuf PropsSponge.
From Verif Require Import Heap HeapProofs HeapClient.
Local Open Scope Z_scope.
Ltac Zify.zify_post_hook ::= idtac.
#[local] Opaque Keccak.KeccakF1600_StatePermute.

(** [m] ends with the value of [o] and exactly the blocks that were live before the call, unchanged;
    or it has not ended yet ([o = None], rejection loops only); or malloc failed and the process ended
    with status 111.  It never touches or frees a block that is not live, reads an uninitialised
    block or writes past its end. *)
Definition releases {A} (m : M A) (o : option A) : Prop :=
  forall alloc, honest alloc -> forall n h,
  match m alloc n h with
  | Ok a _ h' => o = Some a /\ h' = h
  | More => o = None
  | Exit c => c = 111 /\ exists k h', alloc k h' = None
  | UB => False
  end.
Lemma bal_releases {A} (m : M A) o : bal m (Ret o) -> releases m o.
Proof.
  intros H alloc HA n h. specialize (H alloc HA n h). destruct (m alloc n h) as [a n' h'|c| |]; cbn [ends] in H.
  - destruct H as (E & -> & _). split; [injection E as E; exact E|reflexivity].
  - destruct H as (-> & k & h' & _ & E). split; [reflexivity|]. now exists k, h'.
  - discriminate H.
  - injection H as H. exact H.
Qed.
(** With a malloc that always succeeds the call returns. *)
Theorem C71_returns : forall {A} (m : M A) a, releases m (Some a) ->
  forall alloc, honest alloc -> (forall k h, alloc k h <> None) -> forall n h, exists n', m alloc n h = Ok a n' h.
Proof.
  intros A m a H alloc HA HN n h. specialize (H alloc HA n h). destruct (m alloc n h) as [b n' h'|c| |].
  - destruct H as [E ->]. injection E as ->. now exists n'.
  - destruct H as (_ & k & h' & E). now apply HN in E.
  - destruct H.
  - discriminate H.
Qed.
Print Assumptions C71_returns.

(** ** The hash functions *)
Theorem C71_shake : forall r output outlen input inlen, r mod 8 = 0 -> 0 < r <= 200 -> 0 <= outlen <= zlen output -> 0 <= inlen <= zlen input -> bytes_ok input ->
  exists out', releases (shake_h r output outlen input inlen) (Some out') /\ written output 0 (sponge_bytes r 0x1F (slice input 0 inlen) outlen) out'.
Proof.
  intros r output outlen input inlen H8 Hr Ho Hi Hb. eexists. split.
  - apply bal_releases. pose proof (shake_h_bal r output outlen input inlen) as H. rewrite shake_oneshot_ok in H by assumption. exact H.
  - assert (L: zlen (sponge_bytes r 31 (slice input 0 inlen) outlen) = outlen) by (unfold sponge_bytes; apply zlen_squeeze; lia). apply PropsBuf.splice_written; lia.
Qed.
Print Assumptions C71_shake.
Theorem C71_seedexpander : forall seed seedlen output outlen,
  (forall sd out, seed = Some sd -> output = Some out -> bytes_ok sd /\ (32 <= seedlen -> seedlen <= zlen sd) /\ (seedlen < outlen -> outlen <= zlen out)) ->
  exists rc out', releases (seedexpander_wrapper_h seed seedlen output outlen) (Some (rc, out')) /\ seedexpander_wrapper seed seedlen output outlen = Ret (rc, out').
Proof.
  intros seed seedlen output outlen H. assert (E: exists rc out', seedexpander_wrapper seed seedlen output outlen = Ret (rc, out')).
  { destruct seed as [sd|]; [|do 2 eexists; reflexivity]. destruct output as [out|]; [|do 2 eexists; reflexivity].
    destruct (H sd out eq_refl eq_refl) as (B & L1 & L2). destruct (Z.ltb_spec seedlen 32); [do 2 eexists; now apply PropsSponge.C19_short_seed|].
    destruct (Z.leb_spec outlen seedlen); [do 2 eexists; now apply PropsSponge.C19_short_output|].
    destruct (PropsSponge.C19_output_is_shake256 sd seedlen out outlen B ltac:(lia) ltac:(lia)) as (d & o' & E & _). do 2 eexists. exact E. }
  destruct E as (rc & out' & E). exists rc, out'. split; [|exact E]. apply bal_releases. pose proof (seedexpander_wrapper_h_bal seed seedlen output outlen) as HB. rewrite E in HB. exact HB.
Qed.
Print Assumptions C71_seedexpander.

(** ** Dilithium; [loc n] is what an uninitialised local array of [n] elements contains *)
Definition locals1 (loc : Z -> list Z) : Prop := forall n, 0 <= n -> zlen (loc n) = n.
Theorem C71_dilithium_keygen : forall loc fuel pk0 sk0 seed, locals1 loc -> 1312 <= zlen pk0 -> 2560 <= zlen sk0 -> 32 <= zlen seed -> bytes_ok seed ->
  exists r, releases (keypair_seed_h loc fuel pk0 sk0 seed) r /\
  forall rc pk' sk', r = Some (rc, pk', sk') ->
    rc = 0 /\ exists pk sk, MLDSA.keygen (firstn 32 seed) pk sk /\ written pk0 0 pk pk' /\ written sk0 0 sk sk'.
Proof.
  intros loc fuel pk0 sk0 seed L H1 H2 H3 B. destruct (PropsBuf.C61_keygen fuel (loc 128) (loc 64) pk0 sk0 seed (L 128 ltac:(lia)) (L 64 ltac:(lia)) H1 H2 H3 B) as (r & E & HR).
  exists r. split; [apply bal_releases; rewrite <- E; now apply keypair_seed_h_bal|]. intros rc pk' sk' Hr. destruct (HR rc pk' sk' Hr) as (-> & pk & sk & HK & _ & _ & W1 & W2). split; [reflexivity|]. exists pk, sk. auto.
Qed.
Print Assumptions C71_dilithium_keygen.
Theorem C71_dilithium_sign : forall loc fuel mem so mo mlen sk, locals1 loc -> 2560 <= zlen sk -> bytes_ok sk ->
  0 <= so -> so + 2420 <= zlen mem -> 0 <= mo -> 0 <= mlen -> mo + mlen <= zlen mem ->
  exists r, releases (sign_signature_h loc fuel mem so mo mlen sk) r /\
  forall rc mem' siglen, r = Some (rc, mem', siglen) ->
    rc = 0 /\ siglen = 2420 /\ exists sig, length sig = Z.to_nat 2420 /\ written mem so sig mem' /\
      (MLDSA.secret_key (slice sk 0 2560) -> MLDSA.sign (slice sk 0 2560) (slice mem mo mlen) sig).
Proof.
  intros loc fuel mem so mo mlen sk L H1 B H2 H3 H4 H5 H6. destruct (PropsBuf.C61_sign fuel (loc 288) mem so mo mlen sk (L 288 ltac:(lia)) H1 B H2 H3 H4 H5 H6) as (r & E & HR).
  exists r. split; [apply bal_releases; rewrite <- E; now apply sign_signature_h_bal|exact HR].
Qed.
Print Assumptions C71_dilithium_sign.
Theorem C71_dilithium_sign_message : forall loc fuel mem so mo mlen sk, locals1 loc -> 2560 <= zlen sk -> bytes_ok sk ->
  0 <= so -> 0 <= mlen < 2 ^ 63 -> so + 2420 + mlen <= zlen mem -> 0 <= mo -> mo + mlen <= zlen mem -> mo <= so + 2420 \/ so + 2420 + mlen <= mo ->
  exists r, releases (crypto_sign_h loc fuel mem so mo mlen sk) r /\
  forall rc mem' smlen, r = Some (rc, mem', smlen) ->
    rc = 0 /\ smlen = 2420 + mlen /\ exists sig, length sig = Z.to_nat 2420 /\ written mem so (sig ++ slice mem mo mlen) mem' /\
      (MLDSA.secret_key (slice sk 0 2560) -> MLDSA.sign (slice sk 0 2560) (slice mem mo mlen) sig).
Proof.
  intros loc fuel mem so mo mlen sk L H1 B H2 H3 H4 H5 H6 H7. destruct (PropsBuf.C62_sign_in_place fuel (loc 288) mem so mo mlen sk (L 288 ltac:(lia)) H1 B H2 H3 H4 H5 H6 H7) as (r & E & HR).
  exists r. split; [apply bal_releases; rewrite <- E; now apply crypto_sign_h_bal|exact HR].
Qed.
Print Assumptions C71_dilithium_sign_message.
Theorem C71_dilithium_verify : forall loc fuel mem so siglen mo mlen pk, locals1 loc -> 1312 <= zlen pk -> bytes_ok pk -> bytes_ok mem ->
  0 <= so -> so + 2420 <= zlen mem -> 0 <= mo -> 0 <= mlen -> mo + mlen <= zlen mem ->
  exists r, releases (sign_verify_h loc fuel mem so siglen mo mlen pk) r /\
  forall v, r = Some v ->
    (v = 0 /\ siglen = 2420 /\ MLDSA.verify (slice pk 0 1312) (slice mem mo mlen) (slice mem so 2420)) \/
    (v = -1 /\ ~ (siglen = 2420 /\ MLDSA.verify (slice pk 0 1312) (slice mem mo mlen) (slice mem so 2420))).
Proof.
  intros loc fuel mem so siglen mo mlen pk L H1 B1 B2 H2 H3 H4 H5 H6. assert (L64 := L 64 ltac:(lia)). assert (L32 := L 32 ltac:(lia)). assert (L768 := L 768 ltac:(lia)).
  pose proof (sign_verify_h_bal loc L fuel mem so siglen mo mlen pk) as HB. destruct (Z.eq_dec siglen 2420) as [->|e].
  - destruct (PropsBuf.C61_verify fuel (loc 64) (loc 32) (loc 768) mem so mo mlen pk L64 L32 L768 H1 B1 B2 H2 H3 H4 H5 H6) as (r & E & HR). exists r. split; [apply bal_releases; rewrite <- E; exact HB|].
    intros v Hv. destruct (HR v Hv) as [[? ?]|[? ?]]; [left; auto|right; split; [assumption|tauto]].
  - exists (Some (-1)). split; [apply bal_releases; rewrite <- (PropsBuf.C61_verify_length fuel (loc 64) (loc 32) (loc 768) mem so siglen mo mlen pk e); exact HB|].
    intros v Hv. injection Hv as <-. right. split; [reflexivity|tauto].
Qed.
Print Assumptions C71_dilithium_verify.
Theorem C71_dilithium_open : forall loc fuel mem so smlen mo mlen0 pk, locals1 loc -> 1312 <= zlen pk -> bytes_ok pk -> bytes_ok mem ->
  0 <= so -> so + smlen <= zlen mem -> 0 <= mo -> mo + (smlen - 2420) <= zlen mem -> mo <= so + 2420 \/ so + smlen <= mo ->
  exists r, releases (sign_open_h loc fuel mem so smlen mo mlen0 pk) r /\
  forall rc mem' mlen, r = Some (rc, mem', mlen) ->
    (rc = 0 /\ 2420 <= smlen /\ mlen = smlen - 2420 /\ MLDSA.verify (slice pk 0 1312) (slice mem (so + 2420) mlen) (slice mem so 2420) /\
       written mem mo (slice mem (so + 2420) mlen) mem') \/
    (rc < 0 /\ mem' = mem /\ ~ (2420 <= smlen /\ MLDSA.verify (slice pk 0 1312) (slice mem (so + 2420) (smlen - 2420)) (slice mem so 2420))).
Proof.
  intros loc fuel mem so smlen mo mlen0 pk L H1 B1 B2 H2 H3 H4 H5 H6. assert (L64 := L 64 ltac:(lia)). assert (L32 := L 32 ltac:(lia)). assert (L768 := L 768 ltac:(lia)).
  pose proof (sign_open_h_bal loc L fuel mem so smlen mo mlen0 pk) as HB. destruct (Z.ltb_spec smlen 2420) as [e|e].
  - exists (Some (-1, mem, mlen0)). split.
    + apply bal_releases. unfold sign_open_c in HB. replace (smlen <? 2420) with true in HB by lia. exact HB.
    + intros rc mem' mlen Hv. injection Hv as <- <- _. right. split; [lia|]. split; [reflexivity|lia].
  - destruct (PropsBuf.C62_open_in_place fuel (loc 64) (loc 32) (loc 768) mem so smlen mo mlen0 pk L64 L32 L768 H1 B1 B2 H2 e H3 H4 H5 H6) as (r & E & HR). exists r. split; [apply bal_releases; rewrite <- E; exact HB|].
    intros rc mem' mlen Hv. destruct (HR rc mem' mlen Hv) as [(? & ? & ? & ?)|(? & ? & ?)]; [left; auto|right; split; [assumption|split; [assumption|tauto]]].
Qed.
Print Assumptions C71_dilithium_open.

(** ** SPHINCS+ *)
Lemma spx_rel {A} (m : M A) o a : bal m (some o) -> o = Ret a -> releases m (Some a).
Proof. intros H ->. apply bal_releases. exact H. Qed.
Theorem C71_sphincs_keygen : forall loc locw pk sk seed, PropsSpxBuf.locals loc locw -> PropsSpxBuf.inside pk 0 64 -> PropsSpxBuf.inside sk 0 128 -> bytes_ok sk -> zlen seed = 96 -> bytes_ok seed ->
  exists pk' sk', releases (SpxHeap.seed_keypair_hp loc locw pk sk seed) (Some (0, pk', sk')) /\
    written pk 0 (fst (slh_keygen shake256_bytes seed)) pk' /\ written sk 0 (snd (slh_keygen shake256_bytes seed)) sk'.
Proof.
  intros loc locw pk sk seed HL H1 H2 B1 L B. destruct (PropsSpxBuf.C63_keygen loc locw pk sk seed HL H1 H2 B1 L B) as (pk' & sk' & E & W1 & W2). exists pk', sk'.
  split; [|split; assumption]. exact (spx_rel _ _ _ (SpxHeapProofs.spx_keygen_bal loc locw pk sk seed) E).
Qed.
Print Assumptions C71_sphincs_keygen.
Theorem C71_sphincs_sign : forall loc locw rb optrand mem so siglen mo mlen sk, PropsSpxBuf.locals loc locw -> zlen sk = 128 -> bytes_ok sk ->
  PropsSpxBuf.inside mem so 49856 -> PropsSpxBuf.inside mem mo mlen -> mo + mlen <= so \/ so + 32 <= mo \/ mlen = 0 -> rb 32 = (0, optrand) -> zlen optrand = 32 ->
  exists mem', releases (SpxHeap.sign_signature_hp loc locw rb mem so siglen mo mlen sk) (Some (0, 49856, mem')) /\
    written mem so (slh_sign_sk shake256_bytes (slice mem mo mlen) sk optrand) mem'.
Proof.
  intros loc locw rb optrand mem so siglen mo mlen sk HL L B H1 H2 H3 H4 H5. destruct (PropsSpxBuf.C63_sign loc locw rb optrand mem so siglen mo mlen sk HL L B H1 H2 H3 H4 H5) as (mem' & E & W & _). exists mem'.
  split; [|exact W]. exact (spx_rel _ _ _ (SpxHeapProofs.spx_sign_bal loc locw rb mem so siglen mo mlen sk) E).
Qed.
Print Assumptions C71_sphincs_sign.
(** also when the random generator fails *)
Theorem C71_sphincs_sign_no_randomness : forall loc locw rb r bs mem so siglen mo mlen sk, PropsSpxBuf.locals loc locw -> zlen sk = 128 -> rb 32 = (r, bs) -> r <> 0 -> zlen bs = 32 ->
  releases (SpxHeap.sign_signature_hp loc locw rb mem so siglen mo mlen sk) (Some (-1, siglen, mem)).
Proof.
  intros loc locw rb r bs mem so siglen mo mlen sk HL L H1 H2 H3. exact (spx_rel _ _ _ (SpxHeapProofs.spx_sign_bal loc locw rb mem so siglen mo mlen sk) (PropsSpxBuf.C63_sign_no_randomness loc locw rb r bs mem so siglen mo mlen sk HL L H1 H2 H3)).
Qed.
Print Assumptions C71_sphincs_sign_no_randomness.
Theorem C71_sphincs_sign_message : forall loc locw rb optrand mem so siglen0 mo mlen sk, PropsSpxBuf.locals loc locw -> zlen sk = 128 -> bytes_ok sk ->
  PropsSpxBuf.inside mem so (49856 + mlen) -> PropsSpxBuf.inside mem mo mlen -> mo + mlen <= so \/ so + 49856 <= mo -> mlen < 2 ^ 63 -> rb 32 = (0, optrand) -> zlen optrand = 32 ->
  exists mem', releases (SpxHeap.crypto_sign_hp loc locw rb mem so siglen0 mo mlen sk) (Some (0, 49856 + mlen, mem')) /\
    written mem so (slh_sign_sk shake256_bytes (slice mem mo mlen) sk optrand ++ slice mem mo mlen) mem'.
Proof.
  intros loc locw rb optrand mem so siglen0 mo mlen sk HL L B H1 H2 H3 H4 H5 H6. destruct (PropsSpxBuf.C63_sign_message loc locw rb optrand mem so siglen0 mo mlen sk HL L B H1 H2 H3 H4 H5 H6) as (mem' & E & W). exists mem'.
  split; [|exact W]. exact (spx_rel _ _ _ (SpxHeapProofs.spx_crypto_sign_bal loc locw rb mem so siglen0 mo mlen sk) E).
Qed.
Print Assumptions C71_sphincs_sign_message.
Theorem C71_sphincs_verify : forall loc locw mem so siglen mo mlen pk, PropsSpxBuf.locals loc locw -> zlen pk = 64 -> bytes_ok pk -> bytes_ok mem ->
  (siglen = 49856 -> PropsSpxBuf.inside mem so siglen /\ PropsSpxBuf.inside mem mo mlen) ->
  exists rc, releases (SpxHeap.sign_verify_hp loc locw mem so siglen mo mlen pk) (Some rc) /\ (rc = 0 \/ rc = -1) /\
    (rc = 0 <-> siglen = 49856 /\ slh_verify shake256_bytes (slice mem mo mlen) (slice mem so 49856) pk).
Proof.
  intros loc locw mem so siglen mo mlen pk HL L B1 B2 H. destruct (PropsSpxBuf.C63_verify loc locw mem so siglen mo mlen pk HL L B1 B2 H) as (rc & E & HR). exists rc.
  split; [|exact HR]. exact (spx_rel _ _ _ (SpxHeapProofs.spx_verify_bal loc locw mem so siglen mo mlen pk) E).
Qed.
Print Assumptions C71_sphincs_verify.
Theorem C71_sphincs_open : forall loc locw mem so smlen mo pk, PropsSpxBuf.locals loc locw -> zlen pk = 64 -> bytes_ok pk -> bytes_ok mem ->
  PropsSpxBuf.inside mem so smlen -> (49856 <= smlen -> PropsSpxBuf.inside mem mo (smlen - 49856)) ->
  exists rc mlen mem', releases (SpxHeap.crypto_sign_open_hp loc locw mem so smlen mo pk) (Some (rc, mlen, mem')) /\
    ((rc = 0 /\ 49856 <= smlen /\ mlen = smlen - 49856 /\ slh_verify shake256_bytes (slice mem (so + 49856) mlen) (slice mem so 49856) pk /\
        written mem mo (slice mem (so + 49856) mlen) mem') \/
     (rc = -1 /\ mlen = 0 /\ mem' = mem /\ ~ (49856 <= smlen /\ slh_verify shake256_bytes (slice mem (so + 49856) (smlen - 49856)) (slice mem so 49856) pk))).
Proof.
  intros loc locw mem so smlen mo pk HL L B1 B2 H1 H2. destruct (PropsSpxBuf.C64_open_in_place loc locw mem so smlen mo pk HL L B1 B2 H1 H2) as (rc & mlen & mem' & E & HR). exists rc, mlen, mem'.
  split; [|exact HR]. exact (spx_rel _ _ _ (SpxHeapProofs.spx_open_bal loc locw mem so smlen mo pk) E).
Qed.
Print Assumptions C71_sphincs_open.

(** A malloc that meets the hypotheses: the first free address. *)
Fixpoint top (h : heap) : Z := match h with [] => 0 | (p, _) :: h => Z.max p (top h) end.
Definition next (n : nat) (h : heap) : option Z := Some (1 + top h).
Lemma find_top p h : top h < p -> find p h = None.
Proof. induction h as [|[q b] h IH]; [reflexivity|]. cbn [top find]. intros H. destruct (Z.eqb_spec p q); [lia|]. apply IH. lia. Qed.
Example C71_witness : honest next /\ (forall k h, next k h <> None) /\ locals1 zeros.
Proof. split; [intros n h p E; assert (p = 1 + top h) by (unfold next in E; congruence); apply find_top; lia|]. split; [discriminate|]. intros n Hn. now apply zlen_zeros. Qed.
(** and one that fails at its second call *)
Definition once (n : nat) (h : heap) : option Z := match n with O => next n h | S _ => None end.
Example C71_malloc_fails : honest once /\ inc_init_h once 0%nat [] = Ok 1 1%nat [(1, Inc keccak_inc_init)] /\
  shake_h 136 (zeros 1) 1 [1] 1 once 1%nat [(1, Inc keccak_inc_init)] = Exit 111.
Proof.
  split; [intros n h p E; destruct n; [assert (p = 1 + top h) by (unfold once, next in E; congruence); apply find_top; lia|discriminate E]|]. split; reflexivity.
Qed.

(** ** C72 *)

(** [r], [d]: rate and digest length of the function; [ops] any calls that the interface allows. *)
Theorem C72_contexts_independent : forall r d ops outs st, 0 < r <= 200 -> r mod 8 = 0 -> 0 <= d <= r ->
  spec_run r d ops nothing = Some (outs, st) ->
  forall alloc, honest alloc -> forall n h env,
  match run r d ops env alloc n h with
  | Ok outs' _ h' => outs' = outs /\ (exists L, h' = L ++ h) /\ ((forall x, st x = None) -> h' = h)
  | Exit c => c = 111 /\ exists k h', alloc k h' = None
  | UB => False
  | More => False
  end.
Proof.
  intros r d ops outs st Hr H8 Hd HS alloc HA n h env. pose proof (run_good r d Hr H8 Hd alloc HA ops nothing outs st env [] h n HS (inv_nothing r env)) as G.
  cbn [app] in G. destruct (run r d ops env alloc n h) as [o n' h'|c| |]; cbn [good] in G.
  - destruct G as (-> & _ & env' & L & -> & HI). split; [reflexivity|]. split; [now exists L|]. intros HN. now rewrite (inv_all_released r st env' L HI HN).
  - destruct G as (-> & k & h' & _ & E). split; [reflexivity|]. now exists k, h'.
  - exact G.
  - exact G.
Qed.
Print Assumptions C72_contexts_independent.
(** Two SHAKE256 contexts fed alternately, one copied in the middle, the copies continued differently. *)
Example C72_witness : exists outs st,
  spec_run 136 32 [Init 1; Init 2; Absorb 1 [97]; Absorb 2 [120]; Clone 3 1; Absorb 1 [98]; Finalize 1; Absorb 3 [99]; Squeeze 1 5; Release 1;
                   Init 1; Finalize 3; Squeeze 3 4; Clone 4 3; Squeeze 3 7; Squeeze 4 7; Digest 2; Release 3; Release 1; Release 4] nothing = Some (outs, st) /\
  (forall x, st x = None) /\
  outs = [slice (sponge_bytes 136 31 [97; 98] 5) 0 5; slice (sponge_bytes 136 31 [97; 99] 4) 0 4; slice (sponge_bytes 136 31 [97; 99] 11) 4 7; slice (sponge_bytes 136 31 [97; 99] 11) 4 7; sponge_bytes 136 6 [120] 32].
Proof.
  do 2 eexists. split; [reflexivity|]. split; [|reflexivity]. intros x. unfold set, nothing.
  repeat match goal with |- context [x =? ?k] => destruct (x =? k); [reflexivity|] end. reflexivity.
Qed.

(** The model does tell misuse: a released context cannot be used or released again, and
    sha3_*_inc_finalize releases its context. *)
Theorem C72_released_context : forall alloc n h p, NoDup (map fst h) -> find p h <> None ->
  mbind (release_h p) (fun _ => release_h p) alloc n h = UB /\
  (forall r m mlen, mbind (release_h p) (fun _ => inc_absorb_h r p m mlen) alloc n h = UB) /\
  (forall r, mbind (release_h p) (fun _ => inc_finalize_h r p) alloc n h = UB) /\
  (forall r out off len, mbind (release_h p) (fun _ => inc_squeeze_h r out off len p) alloc n h = UB) /\
  (forall r d out o n' h', sha3_inc_finalize_h r d out p alloc n h = Ok o n' h' -> release_h p alloc n' h' = UB).
Proof.
  intros alloc n h p HN HF. destruct (nodup_remove p h HN) as [_ HR]. assert (E: find p (remove p h) = None).
  { destruct (find p (remove p h)) eqn:E; [|reflexivity]. exfalso. apply HR, find_in. congruence. }
  destruct (find p h) as [b|] eqn:Eb; [|contradiction].
  unfold inc_absorb_h, inc_finalize_h, inc_squeeze_h, load_inc, load, mbind, release_h, mfree. rewrite Eb, E. repeat split.
  intros r d out o n' h'. unfold sha3_inc_finalize_h, mbind, load_inc, mbind, load. rewrite Eb. destruct b as [sz|s|c]; try discriminate. unfold mret at 1, lift at 1.
  destruct (keccak_inc_finalize c r 6) as [c1|]; [|discriminate]. unfold store at 1. rewrite Eb. cbn [size_of]. change (208 <=? 208) with true. cbv iota.
  set (h1 := update p (Inc c1) h). assert (F1: find p h1 = Some (Inc c1)) by (apply find_update; congruence). assert (N1: NoDup (map fst h1)) by (unfold h1; change (NoDup (keys (update p (Inc c1) h))); rewrite keys_update; exact HN).
  unfold load_state, mbind, load. rewrite F1. unfold mret at 1, lift at 1. destruct (keccak_squeezeblocks (zeros r) 0 1 (lanes c1) r) as [[t s]|]; [|discriminate]. unfold store at 1. rewrite F1. cbn [size_of]. change (208 <=? 208) with true. cbv iota.
  set (h2 := update p _ h1). assert (F2: find p h2 <> None) by (unfold h2; rewrite find_update; congruence). assert (N2: NoDup (map fst h2)) by (unfold h2; change (NoDup (keys (update p (Inc {| lanes := s; pos := pos c1 |}) h1))); rewrite keys_update; exact N1).
  unfold release_h, mfree. destruct (find p h2) as [b2|] eqn:E2; [|contradiction]. unfold lift. destruct (copy out 0 t 0 d) as [o'|]; [|discriminate]. intros H.
  assert (Eh: h' = remove p h2) by (injection H as _ _ H; now symmetry). rewrite Eh. destruct (nodup_remove p h2 N2) as [_ HR2]. destruct (find p (remove p h2)) eqn:E3; [|reflexivity]. exfalso. apply HR2, find_in. congruence.
Qed.
Print Assumptions C72_released_context.
