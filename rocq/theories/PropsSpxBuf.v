(** Property theorems about the buffer-level model of sphincs/ (C63, C64, C65): keys, signatures and
    verdicts with the actual arrays, what is written where, uninitialised memory, in-place use.
    [loc n] and [locw n] are the contents of an uninitialised array of [n] bytes or words. *)
From Coq Require Import ZifyBool ZifyNat.
From Verif Require Import Base Wp SpongePure Sponge SpxSpec Spx SpxTop PropsSpx SpongeProofs SpongeProofs2 DilBuf BufLemmas DilBufSign SpxBuf SpxBufProofs SpxBufTop BufSpec.
From Verif Require PropsBuf.
Local Open Scope Z_scope.
Ltac Zify.zify_post_hook ::= idtac.
Local Opaque F shake256_bytes slh_keygen slh_sign_sk slh_verify_root slh_tail.

Definition splice_written := PropsBuf.splice_written.

(** Uninitialised arrays have their declared size and, for byte arrays, hold bytes. *)
Definition locals (loc locw : Z -> list Z) : Prop :=
  (forall n, 0 <= n -> zlen (loc n) = n) /\ (forall n, bytes_ok (loc n)) /\ (forall n, 0 <= n -> zlen (locw n) = n).
(** [n] bytes at [off] lie inside [mem]. *)
Definition inside (mem : list Z) (off n : Z) : Prop := 0 <= off /\ 0 <= n /\ off + n <= zlen mem.

(** ** C63: exact results and write sets *)

Theorem C63_keygen : forall loc locw pk sk seed, locals loc locw -> inside pk 0 64 -> inside sk 0 128 -> bytes_ok sk -> zlen seed = 96 -> bytes_ok seed ->
  exists pk' sk', seed_keypair_c loc locw pk sk seed = Ret (0, pk', sk') /\
    written pk 0 (fst (slh_keygen shake256_bytes seed)) pk' /\ written sk 0 (snd (slh_keygen shake256_bytes seed)) sk'.
Proof.
  intros loc locw pk sk seed (L & LB & LW) (_ & _ & Hp) (_ & _ & Hs) Bs Ld Bd. do 2 eexists. split; [apply (seed_keypair_c_ok loc locw L LB LW _ eq_refl); (assumption || lia)|].
  destruct shake256_hash_like as [HH HB].
  Transparent slh_keygen. unfold slh_keygen. cbn [fst snd]. Opaque slh_keygen.
  assert (Lr: forall a b, zlen (slh_root shake256_bytes a b) = 32) by (intros; apply zlen_slh_root; assumption). split; apply splice_written; rewrite ?zlen_app, ?Lr, ?zlen_slice by lia; lia.
Qed.
Print Assumptions C63_keygen.
Theorem C63_keypair : forall loc locw rb r bs pk sk, locals loc locw -> inside pk 0 64 -> inside sk 0 128 -> bytes_ok sk -> rb 96 = (r, bs) -> zlen bs = 96 -> bytes_ok bs ->
  exists rc pk' sk', keypair_c loc locw rb pk sk = Ret (rc, pk', sk') /\
    (r = 0 -> rc = 0 /\ written pk 0 (fst (slh_keygen shake256_bytes bs)) pk' /\ written sk 0 (snd (slh_keygen shake256_bytes bs)) sk') /\
    (r <> 0 -> rc = -1 /\ pk' = pk /\ sk' = sk).
Proof.
  intros loc locw rb r bs pk sk HL Hp Hs Bs Hrb Lb Bb. unfold keypair_c. rewrite Hrb. rewrite (local_all loc locw (proj1 HL) (proj1 (proj2 HL)) (proj2 (proj2 HL))) by lia. rewrite bind_r.
  destruct (C63_keygen loc locw pk sk bs HL Hp Hs Bs Lb Bb) as (pk' & sk' & E & W1 & W2). destruct (Z.eqb_spec r 0) as [e|e]; cbn [negb].
  - rewrite E, bind_r. do 3 eexists. split; [reflexivity|]. split; [auto|intros h; contradiction].
  - do 3 eexists. split; [reflexivity|]. split; [intros h; contradiction|auto].
Qed.
Print Assumptions C63_keypair.

(** Signing: the message may lie anywhere that does not meet the first 32 bytes of the signature. *)
Theorem C63_sign : forall loc locw rb optrand mem so siglen mo mlen sk, locals loc locw -> zlen sk = 128 -> bytes_ok sk ->
  inside mem so 49856 -> inside mem mo mlen -> mo + mlen <= so \/ so + 32 <= mo \/ mlen = 0 -> rb 32 = (0, optrand) -> zlen optrand = 32 ->
  exists mem', sign_signature_c loc locw rb mem so siglen mo mlen sk = Ret (0, 49856, mem') /\
    written mem so (slh_sign_sk shake256_bytes (slice mem mo mlen) sk optrand) mem' /\ zlen (slh_sign_sk shake256_bytes (slice mem mo mlen) sk optrand) = 49856.
Proof.
  intros loc locw rb optrand mem so siglen mo mlen sk (L & LB & LW) Lk Bk (H1 & _ & H2) (H3 & H4 & H5) Hd Hr Lo. eexists. split; [apply (sign_signature_c_ok loc locw L LB LW _ eq_refl rb mem so siglen mo mlen sk optrand); assumption|].
  assert (Lg: zlen (slh_sign_sk shake256_bytes (slice mem mo mlen) sk optrand) = 49856) by (apply (zlen_slh_sign_sk _ eq_refl)). split; [|exact Lg]. apply splice_written; lia.
Qed.
Print Assumptions C63_sign.
Theorem C63_sign_no_randomness : forall loc locw rb r bs mem so siglen mo mlen sk, locals loc locw -> zlen sk = 128 -> rb 32 = (r, bs) -> r <> 0 -> zlen bs = 32 ->
  sign_signature_c loc locw rb mem so siglen mo mlen sk = Ret (-1, siglen, mem).
Proof. intros loc locw rb r bs mem so siglen mo mlen sk (L & LB & LW) Lk Hr Hn Lb. eapply (sign_signature_c_fail loc locw L LB LW); eassumption. Qed.
Print Assumptions C63_sign_no_randomness.

(** Verification reads only; the verdict is that of FIPS 205 on the bytes in memory. *)
Theorem C63_verify : forall loc locw mem so siglen mo mlen pk, locals loc locw -> zlen pk = 64 -> bytes_ok pk -> bytes_ok mem ->
  (siglen = 49856 -> inside mem so siglen /\ inside mem mo mlen) ->
  exists rc, sign_verify_c loc locw mem so siglen mo mlen pk = Ret rc /\ (rc = 0 \/ rc = -1) /\
    (rc = 0 <-> siglen = 49856 /\ slh_verify shake256_bytes (slice mem mo mlen) (slice mem so 49856) pk).
Proof.
  intros loc locw mem so siglen mo mlen pk (L & LB & LW) Lp Bp Bm Hin. destruct (Z.eq_dec siglen 49856) as [->|e].
  - destruct (Hin eq_refl) as ((H1 & _ & H2) & H3 & H4 & H5). rewrite (sign_verify_c_ok loc locw L LB LW _ eq_refl) by assumption. eexists. split; [reflexivity|]. unfold slh_verify. rewrite zlen_slice by lia.
    destruct (list_eq_dec Z.eq_dec _ (slice pk 32 32)) as [e|e]; (split; [tauto|]); split; try tauto; try discriminate.
  - unfold sign_verify_c. replace (negb (siglen =? SPX_BYTES)) with true by (unfold SPX_BYTES; lia). eexists. split; [reflexivity|]. split; [tauto|]. split; [discriminate|tauto].
Qed.
Print Assumptions C63_verify.

(** The combined call: signature and message are written, nothing else. *)
Theorem C63_sign_message : forall loc locw rb optrand mem so siglen0 mo mlen sk, locals loc locw -> zlen sk = 128 -> bytes_ok sk ->
  inside mem so (49856 + mlen) -> inside mem mo mlen -> mo + mlen <= so \/ so + 49856 <= mo -> mlen < 2 ^ 63 -> rb 32 = (0, optrand) -> zlen optrand = 32 ->
  exists mem', crypto_sign_c loc locw rb mem so siglen0 mo mlen sk = Ret (0, 49856 + mlen, mem') /\
    written mem so (slh_sign_sk shake256_bytes (slice mem mo mlen) sk optrand ++ slice mem mo mlen) mem'.
Proof.
  intros loc locw rb optrand mem so siglen0 mo mlen sk (L & LB & LW) Lk Bk (H1 & _ & H2) (H3 & H4 & H5) Hd Hlen Hr Lo. unfold crypto_sign_c.
  rewrite (sign_signature_c_ok loc locw L LB LW _ eq_refl rb mem so siglen0 mo mlen sk optrand) by (try assumption; lia). rewrite bind_r. set (sg := slh_sign_sk _ _ _ _).
  assert (Lg: zlen sg = 49856) by (apply (zlen_slh_sign_sk _ eq_refl)). unfold SPX_BYTES. assert (L1: zlen (splice mem so sg) = zlen mem) by (apply zlen_splice; lia).
  rewrite copy_splice by lia. rewrite bind_r. assert (Em: slice (splice mem so sg) mo mlen = slice mem mo mlen) by (destruct Hd; [apply slice_splice_before; lia|apply slice_splice_after; lia]). rewrite Em.
  pose proof (splice_splice mem so sg (slice mem mo mlen) H1 ltac:(rewrite zlen_slice by lia; lia)) as E2. rewrite Lg in E2. rewrite E2. eexists. split; [|apply splice_written; rewrite ?zlen_app, ?zlen_slice by lia; lia].
  replace (u64 (49856 + mlen)) with (49856 + mlen); [reflexivity|]. unfold u64. change (2 ^ 63) with 9223372036854775808 in Hlen. change (2 ^ 64) with 18446744073709551616. rewrite Z.mod_small; lia.
Qed.
Print Assumptions C63_sign_message.

(** ** C64, C65: in-place use *)

(** Opening may deliver the message anywhere, also over the signed message itself. *)
Theorem C64_open_in_place : forall loc locw mem so smlen mo pk, locals loc locw -> zlen pk = 64 -> bytes_ok pk -> bytes_ok mem ->
  inside mem so smlen -> (49856 <= smlen -> inside mem mo (smlen - 49856)) ->
  exists rc mlen mem', crypto_sign_open_c loc locw mem so smlen mo pk = Ret (rc, mlen, mem') /\
    ((rc = 0 /\ 49856 <= smlen /\ mlen = smlen - 49856 /\ slh_verify shake256_bytes (slice mem (so + 49856) mlen) (slice mem so 49856) pk /\
        written mem mo (slice mem (so + 49856) mlen) mem') \/
     (rc = -1 /\ mlen = 0 /\ mem' = mem /\ ~ (49856 <= smlen /\ slh_verify shake256_bytes (slice mem (so + 49856) (smlen - 49856)) (slice mem so 49856) pk))).
Proof.
  intros loc locw mem so smlen mo pk HL Lp Bp Bm (H1 & H2 & H3) Hmo. unfold crypto_sign_open_c, SPX_BYTES. destruct (Z.ltb_spec smlen 49856) as [h|h].
  { do 3 eexists. split; [reflexivity|]. right. split; [reflexivity|]. split; [reflexivity|]. split; [reflexivity|lia]. }
  specialize (Hmo h). destruct Hmo as (H4 & H5 & H6).
  destruct (C63_verify loc locw mem so 49856 (so + 49856) (smlen - 49856) pk HL Lp Bp Bm) as (rc & -> & Hrc & Hiff); [intros _; unfold inside; lia|]. rewrite bind_r.
  destruct (Z.eqb_spec rc 0) as [e|e]; cbn [negb].
  - rewrite copy_splice by lia. rewrite bind_r. do 3 eexists. split; [reflexivity|]. left. split; [reflexivity|]. split; [exact h|]. split; [reflexivity|]. split; [apply Hiff, e|]. apply splice_written; rewrite ?zlen_slice by lia; lia.
  - do 3 eexists. split; [reflexivity|]. right. split; [reflexivity|]. split; [reflexivity|]. split; [reflexivity|]. intros [_ HV]. apply e, Hiff. auto.
Qed.
Print Assumptions C64_open_in_place.

(** Signing with the message at the start of the signed-message buffer: the call returns 0, and
    the bytes it delivers as the message are the first bytes of the signature. *)
Theorem C65_sign_in_place_result : forall loc locw rb optrand mem so siglen0 mlen sk, locals loc locw -> zlen sk = 128 -> bytes_ok sk ->
  inside mem so (49856 + mlen) -> 0 <= mlen <= 32 -> rb 32 = (0, optrand) -> zlen optrand = 32 ->
  exists mem', crypto_sign_c loc locw rb mem so siglen0 so mlen sk = Ret (0, 49856 + mlen, mem') /\
    slice mem' (so + 49856) mlen = slice (shake256_bytes (slice sk 32 32 ++ optrand ++ slice mem so mlen) 32) 0 mlen.
Proof.
  intros loc locw rb optrand mem so siglen0 mlen sk (L & LB & LW) Lk Bk (H1 & _ & H2) Hlen Hr Lo. unfold crypto_sign_c.
  rewrite (sign_signature_c_gen loc locw L LB LW _ eq_refl rb mem so siglen0 so mlen sk optrand) by (try assumption; lia). rewrite bind_r. set (R := shake256_bytes _ 32).
  destruct shake256_hash_like as [HH _]. assert (LR: zlen R = 32) by (apply HH; lia). set (sg := R ++ _). assert (Lg: zlen sg = 49856) by (unfold sg; rewrite zlen_app, (zlen_slh_tail _ eq_refl); lia).
  unfold SPX_BYTES. assert (L1: zlen (splice mem so sg) = zlen mem) by (apply zlen_splice; lia). rewrite copy_splice by lia. rewrite bind_r.
  eexists. split; [replace (u64 (49856 + mlen)) with (49856 + mlen); [reflexivity|]; unfold u64; change (2 ^ 64) with 18446744073709551616; rewrite Z.mod_small; lia|].
  rewrite slice_splice_in by (rewrite ?zlen_slice by lia; lia). rewrite Z.sub_diag. rewrite slice_slice by lia. rewrite Z.add_0_r. rewrite slice_splice_in by lia. rewrite Z.sub_diag. unfold sg. rewrite slice_app_l by lia. reflexivity.
Qed.
Print Assumptions C65_sign_in_place_result.

(** So the signed message does not contain the message: signing in place destroys it. *)
Theorem C65_sign_in_place_refuted : ~ (forall loc locw rb optrand mem so siglen0 mlen sk, locals loc locw -> zlen sk = 128 -> bytes_ok sk -> bytes_ok mem ->
  inside mem so (49856 + mlen) -> 0 <= mlen -> rb 32 = (0, optrand) -> zlen optrand = 32 ->
  exists smlen mem', crypto_sign_c loc locw rb mem so siglen0 so mlen sk = Ret (0, smlen, mem') /\ slice mem' (so + 49856) mlen = slice mem so mlen).
Proof.
  intros Hall. assert (HL: locals zeros zeros). { split; [intros; apply zlen_zeros; lia|]. split; [intros; apply bytes_ok_zeros|intros; apply zlen_zeros; lia]. }
  assert (Hin: inside (zeros 49858) 0 (49856 + 2)) by (unfold inside; rewrite zlen_zeros; lia).
  destruct (C65_sign_in_place_result zeros zeros (fun n => (0, zeros n)) (zeros 32) (zeros 49858) 0 0 2 (zeros 128) HL ltac:(apply zlen_zeros; lia) (bytes_ok_zeros _) Hin ltac:(lia) eq_refl ltac:(apply zlen_zeros; lia)) as (m1 & E1 & F1).
  destruct (Hall zeros zeros (fun n => (0, zeros n)) (zeros 32) (zeros 49858) 0 0 2 (zeros 128) HL ltac:(apply zlen_zeros; lia) (bytes_ok_zeros _) (bytes_ok_zeros _) Hin ltac:(lia) eq_refl ltac:(apply zlen_zeros; lia)) as (sl & m2 & E2 & F2).
  rewrite E1 in E2. injection E2 as _ <-. rewrite F1 in F2. clear -F2.
  assert (Z1: slice (zeros 49858) 0 2 = [0; 0]) by (vm_compute; reflexivity). rewrite Z1 in F2. assert (Z2: slice (zeros 128) 32 32 = zeros 32) by (vm_compute; reflexivity). rewrite Z2 in F2.
  assert (C: slice (shake256_bytes (zeros 32 ++ zeros 32 ++ [0; 0]) 32) 0 2 <> [0; 0]) by (vm_compute; discriminate). exact (C F2).
Qed.
Print Assumptions C65_sign_in_place_refuted.

(** The hypotheses hold for uninitialised arrays full of 0xA5, a message behind the signature
    buffer, and a message at the place where the combined call puts it. *)
Definition junk (n : Z) : list Z := repeat 165 (Z.to_nat n).
Lemma zlen_junk n : 0 <= n -> zlen (junk n) = n. Proof. intros. unfold zlen, junk. rewrite repeat_length. lia. Qed.
Lemma bytes_junk n : bytes_ok (junk n). Proof. apply Forall_forall. intros x Hx. apply repeat_spec in Hx. subst. split; lia. Qed.
Example C63_witness : locals junk junk /\ inside (junk 60000) 0 (49856 + 1000) /\ inside (junk 60000) 50000 1000 /\ 0 + 49856 <= 50000 /\ inside (junk 60000) 49856 1000 /\ bytes_ok (junk 60000) /\
  zlen (junk 128) = 128 /\ inside (junk 64) 0 64 /\ inside (junk 128) 0 128 /\ (fun n : Z => (0, junk n)) 32 = (0, junk 32).
Proof.
  unfold inside. rewrite !zlen_junk by lia. repeat split; try lia; try apply bytes_junk; intros; apply zlen_junk; lia.
Qed.
