(** The buffer-level model of sphincs/*.c (SpxBuf.v) computes what Spx.v computes with SHAKE256
    as its hash: functions below sign.c. *)
From Coq Require Import ZifyBool ZifyNat.
From Verif Require Import Base Wp SpongePure Sponge Spx SpxWots SpongeProofs SpongeProofs2 DilSignProofs DilBuf BufLemmas DilBufSign SpxBuf.
Local Open Scope Z_scope.
Ltac Zify.zify_post_hook ::= idtac.
Opaque Z.pow.

(** ** refinement: whenever [y] is defined, [x] is defined with a related result *)
Definition ref {A B} (x : outcome A) (y : outcome B) (R : A -> B -> Prop) : Prop :=
  forall b, y = Ret b -> exists a, x = Ret a /\ R a b.
Lemma ref_ret {A B} (a : A) (b : B) (R : A -> B -> Prop) : R a b -> ref (Ret a) (Ret b) R.
Proof. intros H b' [= <-]. eauto. Qed.
Lemma ref_undef {A B} (x : outcome A) (R : A -> B -> Prop) : ref x Undef R.
Proof. intros b [=]. Qed.
Lemma ref_bind {A B C D} (x : outcome A) (y : outcome B) (k : A -> outcome C) (k' : B -> outcome D) R R' :
  ref x y R -> (forall a b, R a b -> ref (k a) (k' b) R') -> ref (bind x k) (bind y k') R'.
Proof.
  intros H HK d E. destruct y as [b|]; [|discriminate E]. destruct (H b eq_refl) as (a & -> & HR). cbn [bind] in *. exact (HK a b HR d E).
Qed.
Lemma bind_assoc {A B C} (x : outcome A) (f : A -> outcome B) (g : B -> outcome C) : bind (bind x f) g = bind x (fun a => bind (f a) g).
Proof. now destruct x. Qed.
Lemma bind_ret {A} (x : outcome A) : bind x Ret = x. Proof. now destruct x. Qed.
Lemma ref_mono {A B} (x : outcome A) (y : outcome B) (R R' : A -> B -> Prop) : ref x y R -> (forall a b, R a b -> R' a b) -> ref x y R'.
Proof. intros H HM b E. destruct (H b E) as (a & -> & HR). eauto. Qed.
Lemma ref_refl {A} (x : outcome A) : ref x x eq.
Proof. intros b ->. eauto. Qed.
Lemma ref_refl_P {A} (x : outcome A) (P : A -> Prop) : (forall a, x = Ret a -> P a) -> ref x x (fun a b => a = b /\ P b).
Proof. intros H b E. exists b. auto. Qed.
Lemma ref_for_from {S T} (R : Z -> S -> T -> Prop) (f : Z -> S -> outcome S) (g : Z -> T -> outcome T) : forall n i s t, R i s t ->
  (forall j s t, i <= j < i + Z.of_nat n -> R j s t -> ref (f j s) (g j t) (R (j + 1))) -> ref (for_from n i f s) (for_from n i g t) (R (i + Z.of_nat n)).
Proof.
  induction n as [|n IH]; intros i s t H HF; cbn [for_from].
  - replace (i + Z.of_nat 0) with i by lia. apply ref_ret, H.
  - eapply ref_bind; [apply (HF i s t); [lia|exact H]|]. intros s' t' H'. replace (i + Z.of_nat (Datatypes.S n)) with (i + 1 + Z.of_nat n) by lia.
    apply IH; [exact H'|]. intros j s2 t2 Hj. apply HF. lia.
Qed.
Lemma ref_for_loop {S T} (R : Z -> S -> T -> Prop) n (f : Z -> S -> outcome S) (g : Z -> T -> outcome T) s t (Q : S -> T -> Prop) : 0 <= n -> R 0 s t ->
  (forall j s t, 0 <= j < n -> R j s t -> ref (f j s) (g j t) (R (j + 1))) -> (forall s t, R n s t -> Q s t) -> ref (for_loop n f s) (for_loop n g t) Q.
Proof.
  intros Hn H HF HQ. unfold for_loop. eapply ref_mono; [apply (ref_for_from R); [exact H|intros j s2 t2 Hj; apply HF; lia]|].
  intros s2 t2 Ht. apply HQ. replace n with (0 + Z.of_nat (Z.to_nat n)) by lia. exact Ht.
Qed.

(** ** addresses *)
Definition adr (a : list Z) : Prop := zlen a = 32 /\ bytes_ok a.
Lemma u8_byte v : byte_ok (u8 v). Proof. unfold u8, byte_ok. apply Z.mod_pos_bound. reflexivity. Qed.
Lemma set_byte_adr a off v : 0 <= off < 32 -> adr a -> adr (set_byte a off v).
Proof.
  intros Ho [L B]. split; [unfold set_byte; rewrite zlen_upd; exact L|]. apply bytes_ok_upd; [exact B|apply u8_byte].
Qed.
Lemma wr_set a off v : 0 <= off < 32 -> adr a -> wr a off (u8 v) = Ret (set_byte a off v).
Proof. intros Ho [L B]. rewrite wr_ok by lia. reflexivity. Qed.
Lemma adr_zeros : adr (zeros 32).
Proof. split; [reflexivity|]. apply bytes_ok_zeros. Qed.
Ltac list32 a := do 32 (destruct a as [|? a]; [discriminate|]); destruct a as [|? a]; [|exfalso; unfold zlen in *; cbn [length] in *; lia].

Lemma set_layer_c a v : adr a -> set_layer_addr_c a v = Ret (set_layer_addr a v). Proof. intros. now apply wr_set. Qed.
Lemma set_type_c_ok a v : adr a -> set_type_c a v = Ret (set_type a v). Proof. intros. now apply wr_set. Qed.
Lemma set_keypair_c a v : adr a -> set_keypair_addr_c a v = Ret (set_keypair_addr a v). Proof. intros. now apply wr_set. Qed.
Lemma set_chain_c a v : adr a -> set_chain_addr_c a v = Ret (set_chain_addr a v). Proof. intros. now apply wr_set. Qed.
Lemma set_hash_c a v : adr a -> set_hash_addr_c a v = Ret (set_hash_addr a v). Proof. intros. now apply wr_set. Qed.
Lemma set_height_c a v : adr a -> set_tree_height_c a v = Ret (set_tree_height a v). Proof. intros. now apply wr_set. Qed.
Lemma set_tree_c a v : adr a -> set_tree_addr_c a v = Ret (set_tree_addr a v).
Proof. intros [L B]. clear B. list32 a. reflexivity. Qed.
Lemma set_index_c a v : adr a -> set_tree_index_c a v = Ret (set_tree_index a v).
Proof. intros [L B]. clear B. list32 a. reflexivity. Qed.
Lemma copy_subtree_c a b : adr a -> adr b -> copy_subtree_addr_c a b = Ret (copy_subtree_addr a b).
Proof. intros [L B] [L' B']. clear B B'. list32 a. list32 b. reflexivity. Qed.
Lemma copy_keypair_c a b : adr a -> adr b -> copy_keypair_addr_c a b = Ret (copy_keypair_addr a b).
Proof.
  intros [L B] [L' B']. unfold copy_keypair_addr_c, copy_keypair_addr. change (copy a 0 b 0 16) with (copy_subtree_addr_c a b). rewrite copy_subtree_c by (split; assumption). cbn [bind].
  rewrite rd_ok by lia. cbn [bind]. change (slice b 0 16 ++ slice a 16 16) with (copy_subtree_addr a b).
  assert (Lc: zlen (copy_subtree_addr a b) = 32) by (unfold copy_subtree_addr; rewrite zlen_app, !zlen_slice by lia; reflexivity).
  rewrite wr_ok by lia. unfold set_byte. change (Z.to_nat 23) with 23%nat. f_equal. f_equal. symmetry. apply u8_id. apply bytes_ok_nth. exact B'.
Qed.
Lemma bytes_u32 v : bytes_ok (u32_to_bytes v). Proof. unfold u32_to_bytes. repeat (apply Forall_cons; [apply u8_byte|]). constructor. Qed.
Lemma bytes_ull n : forall v acc, bytes_ok acc -> bytes_ok (ull_to_bytes_loop n v acc).
Proof.
  induction n as [|n IH]; intros v acc Ha; cbn [ull_to_bytes_loop]; [exact Ha|]. apply IH. constructor; [|exact Ha].
  unfold byte_ok. change 255 with (Z.ones 8). rewrite Z.land_ones by lia. apply Z.mod_pos_bound. reflexivity.
Qed.
Lemma zlen_ull n : forall v acc, zlen (ull_to_bytes_loop n v acc) = Z.of_nat n + zlen acc.
Proof. induction n as [|n IH]; intros v acc; cbn [ull_to_bytes_loop]; [lia|]. rewrite IH, zlen_cons. lia. Qed.
Lemma adr_layer a v : adr a -> adr (set_layer_addr a v). Proof. now apply set_byte_adr. Qed.
Lemma adr_type a v : adr a -> adr (set_type a v). Proof. now apply set_byte_adr. Qed.
Lemma adr_keypair a v : adr a -> adr (set_keypair_addr a v). Proof. now apply set_byte_adr. Qed.
Lemma adr_chain a v : adr a -> adr (set_chain_addr a v). Proof. now apply set_byte_adr. Qed.
Lemma adr_hash a v : adr a -> adr (set_hash_addr a v). Proof. now apply set_byte_adr. Qed.
Lemma adr_height a v : adr a -> adr (set_tree_height a v). Proof. now apply set_byte_adr. Qed.
Lemma adr_tree a v : adr a -> adr (set_tree_addr a v).
Proof.
  intros [L B]. split.
  - unfold set_tree_addr, ull_to_bytes. rewrite !zlen_app, !zlen_slice, zlen_ull by lia. reflexivity.
  - unfold set_tree_addr. apply bytes_ok_app; split; [now apply bytes_ok_slice|]. apply bytes_ok_app; split; [apply bytes_ull; constructor|now apply bytes_ok_slice].
Qed.
Lemma adr_index a v : adr a -> adr (set_tree_index a v).
Proof.
  intros [L B]. split.
  - unfold set_tree_index. rewrite !zlen_app, !zlen_slice by lia. reflexivity.
  - unfold set_tree_index. apply bytes_ok_app; split; [now apply bytes_ok_slice|apply bytes_u32].
Qed.
Lemma adr_subtree a b : adr a -> adr b -> adr (copy_subtree_addr a b).
Proof.
  intros [L B] [L' B']. split; unfold copy_subtree_addr; [rewrite zlen_app, !zlen_slice by lia; reflexivity|]. apply bytes_ok_app; split; now apply bytes_ok_slice.
Qed.
Lemma adr_ckeypair a b : adr a -> adr b -> adr (copy_keypair_addr a b).
Proof. intros A B. unfold copy_keypair_addr. apply set_byte_adr; [lia|]. exact (adr_subtree a b A B). Qed.
Create HintDb adr.
#[export] Hint Resolve adr_layer adr_type adr_keypair adr_chain adr_hash adr_height adr_tree adr_index adr_subtree adr_ckeypair adr_zeros : adr.
Ltac sadr := eauto 20 with adr.
Ltac addrs := repeat first [ rewrite set_layer_c by sadr | rewrite set_type_c_ok by sadr | rewrite set_keypair_c by sadr | rewrite set_chain_c by sadr
  | rewrite set_hash_c by sadr | rewrite set_height_c by sadr | rewrite set_tree_c by sadr | rewrite set_index_c by sadr
  | rewrite copy_subtree_c by sadr | rewrite copy_keypair_c by sadr | progress cbn [bind] ].

(** ** hashing *)
Notation H := shake256_bytes.
Lemma HHl x n : 0 <= n -> zlen (H x n) = n. Proof. intros. apply (sponge_bytes_len 136 0x1F); lia. Qed.
Lemma HBl x n : 0 <= n -> bytes_ok (H x n). Proof. intros. apply (sponge_bytes_ok 136 0x1F); lia. Qed.
Lemma slice_splice_exact h off l n : n = zlen l -> 0 <= off -> off + n <= zlen h -> slice (splice h off l) off n = l.
Proof. intros -> Ho Hl. rewrite slice_splice_in by (pose proof (zlen_nonneg l); lia). rewrite Z.sub_diag. apply slice_all. reflexivity. Qed.
Lemma splice_same h off n : 0 <= off -> 0 <= n -> off + n <= zlen h -> splice h off (slice h off n) = h.
Proof.
  intros Ho Hn Hl. unfold splice. rewrite zlen_slice by lia. rewrite <- (slice_split h off (zlen h - off) n) by lia. pose proof (slice_split h 0 (zlen h) off ltac:(lia) ltac:(lia)) as E. rewrite Z.add_0_l in E. rewrite <- E. apply slice_all. reflexivity.
Qed.

Section Loc.
Variables loc locw : Z -> list Z.
Hypothesis LOC : forall n, 0 <= n -> zlen (loc n) = n.
Hypothesis LOCB : forall n, bytes_ok (loc n).
Hypothesis LOCW : forall n, 0 <= n -> zlen (locw n) = n.

Definition pub_ok (ctx : spx_ctx) : Prop := zlen (pub_seed ctx) = 32 /\ bytes_ok (pub_seed ctx).
Definition sec_ok (ctx : spx_ctx) : Prop := zlen (sk_seed ctx) = 32 /\ bytes_ok (sk_seed ctx).

Lemma fill3 buf a b c n : zlen a = 32 -> zlen b = 32 -> zlen c = n -> zlen buf = 64 + n ->
  splice (splice (splice buf 0 a) 32 b) 64 c = a ++ b ++ c.
Proof.
  intros La Lb Lc L. pose proof (zlen_nonneg c). replace 32 with (0 + zlen a) at 1 by lia. rewrite splice_splice by lia.
  replace 64 with (0 + zlen (a ++ b)) by (rewrite zlen_app; lia). rewrite splice_splice by (rewrite ?zlen_app; lia).
  rewrite splice_whole' by (rewrite !zlen_app; lia). rewrite <- app_assoc. reflexivity.
Qed.
Lemma thash_c_ok ctx out ooff inp ioff inblocks addr : pub_ok ctx -> adr addr -> 0 <= inblocks -> 0 <= ooff -> ooff + 32 <= zlen out ->
  0 <= ioff -> ioff + inblocks * 32 <= zlen inp -> bytes_ok (slice inp ioff (inblocks * 32)) ->
  thash_c loc ctx out ooff inp ioff inblocks addr = Ret (splice out ooff (thash H ctx (slice inp ioff (inblocks * 32)) addr)).
Proof.
  intros [Lp Bp] [La Ba] Hn Ho Hol Hi Hil HB. unfold thash_c. assert (LL: zlen (loc (64 + inblocks * 32)) = 64 + inblocks * 32) by (apply LOC; lia).
  assert (Li: zlen (slice inp ioff (inblocks * 32)) = inblocks * 32) by (apply zlen_slice; lia).
  rewrite copy_splice by lia. cbn [bind]. rewrite (slice_all (pub_seed ctx)) by lia. rewrite copy_splice by (rewrite ?zlen_splice by lia; lia). cbn [bind]. rewrite (slice_all addr) by lia.
  rewrite copy_splice by (rewrite ?zlen_splice by (rewrite ?zlen_splice by lia; lia); lia). cbn [bind].
  rewrite (fill3 _ _ _ _ (inblocks * 32)) by lia. set (x := slice inp ioff (inblocks * 32)) in *.
  assert (Lx: zlen (pub_seed ctx ++ addr ++ x) = 64 + inblocks * 32) by (rewrite !zlen_app; lia).
  rewrite shake256_at_ok by (lia || (rewrite slice_all by lia; apply bytes_ok_app; split; [assumption|apply bytes_ok_app; split; assumption])).
  rewrite slice_all by lia. reflexivity.
Qed.
Lemma prf_addr_c_ok ctx out ooff addr : pub_ok ctx -> sec_ok ctx -> adr addr -> 0 <= ooff -> ooff + 32 <= zlen out ->
  prf_addr_c loc ctx out ooff addr = Ret (splice out ooff (prf_addr H ctx addr)).
Proof.
  intros [Lp Bp] [Ls Bs] [La Ba] Ho Hol. unfold prf_addr_c. assert (LL: zlen (loc 96) = 96) by (apply LOC; lia).
  rewrite copy_splice by lia. cbn [bind]. rewrite (slice_all (pub_seed ctx)) by lia. rewrite copy_splice by (rewrite ?zlen_splice by lia; lia). cbn [bind]. rewrite (slice_all addr) by lia.
  rewrite copy_splice by (rewrite ?zlen_splice by (rewrite ?zlen_splice by lia; lia); lia). cbn [bind]. rewrite (slice_all (sk_seed ctx)) by lia.
  rewrite (fill3 _ _ _ _ 32) by lia.
  assert (Lx: zlen (pub_seed ctx ++ addr ++ sk_seed ctx) = 96) by (rewrite !zlen_app; lia).
  rewrite shake256_at_ok by (lia || (rewrite slice_all by lia; apply bytes_ok_app; split; [assumption|apply bytes_ok_app; split; assumption])).
  rewrite slice_all by lia. reflexivity.
Qed.
Lemma zlen_th ctx x a : zlen (thash H ctx x a) = 32. Proof. apply HHl. unfold SPX_N. lia. Qed.
Lemma bytes_th ctx x a : bytes_ok (thash H ctx x a). Proof. apply HBl. unfold SPX_N. lia. Qed.
Lemma zlen_prf ctx a : zlen (prf_addr H ctx a) = 32. Proof. apply HHl. unfold SPX_N. lia. Qed.
Lemma bytes_prf ctx a : bytes_ok (prf_addr H ctx a). Proof. apply HBl. unfold SPX_N. lia. Qed.
Hint Resolve zlen_th bytes_th zlen_prf bytes_prf : adr.
(** hashing 32 bytes in place *)
Lemma thash_inplace ctx out ooff x addr : pub_ok ctx -> adr addr -> 0 <= ooff -> ooff + 32 <= zlen out -> zlen x = 32 -> bytes_ok x ->
  thash_c loc ctx (splice out ooff x) ooff (splice out ooff x) ooff 1 addr = Ret (splice out ooff (thash H ctx x addr)).
Proof.
  intros Hp Ha Ho Hl Lx Bx. assert (E: slice (splice out ooff x) ooff (1 * 32) = x) by (apply slice_splice_exact; lia).
  rewrite thash_c_ok; try assumption; try lia; rewrite ?E; try assumption; rewrite ?zlen_splice by lia; try lia.
  f_equal. apply splice_cover; rewrite ?zlen_th; lia.
Qed.

(** ** WOTS+ *)
Definition node32 (x : list Z) : Prop := zlen x = 32 /\ bytes_ok x.
Lemma node_th ctx x a : node32 (thash H ctx x a). Proof. split; sadr. Qed.
Lemma node_prf ctx a : node32 (prf_addr H ctx a). Proof. split; sadr. Qed.
Lemma gen_chain_loop_c_ok ctx ooff out : pub_ok ctx -> 0 <= ooff -> ooff + 32 <= zlen out -> forall fuel i stop x addr, node32 x -> adr addr ->
  ref (gen_chain_loop_c loc ctx fuel i stop (splice out ooff x) ooff addr) (gen_chain_loop H ctx fuel i stop x addr)
      (fun '(o, a') '(y, a) => o = splice out ooff y /\ a' = a /\ node32 y /\ adr a).
Proof.
  intros Hp Ho Hl. induction fuel as [|fuel IH]; intros i stop x addr Hx Ha; cbn [gen_chain_loop_c gen_chain_loop].
  - destruct ((i <? stop) && (i <? 16)); [apply ref_undef|]. apply ref_ret. auto.
  - destruct ((i <? stop) && (i <? 16)); [|apply ref_ret; auto]. addrs. destruct Hx as [Lx Bx].
    rewrite thash_inplace by (assumption || sadr). cbn [bind]. apply IH; [apply node_th|sadr].
Qed.
Lemma gen_chain_c_ok ctx ooff out inp ioff start steps addr : pub_ok ctx -> 0 <= ooff -> ooff + 32 <= zlen out -> 0 <= ioff -> ioff + 32 <= zlen inp -> bytes_ok inp -> adr addr ->
  ref (gen_chain_c loc ctx out ooff inp ioff start steps addr) (gen_chain H ctx (slice inp ioff 32) start steps addr)
      (fun '(o, a') '(y, a) => o = splice out ooff y /\ a' = a /\ node32 y /\ adr a).
Proof.
  intros Hp Ho Hl Hi Hil HB Ha. unfold gen_chain_c, gen_chain. rewrite copy_splice by lia. cbn [bind].
  apply gen_chain_loop_c_ok; try assumption. split; [apply zlen_slice; lia|now apply bytes_ok_slice].
Qed.

Lemma base_w_c_ok output ooff out_len input ioff X : 0 <= ooff -> 0 <= out_len -> ooff + out_len <= zlen output -> X = slice input ioff (zlen X) -> 0 <= ioff -> ioff + zlen X <= zlen input ->
  ref (base_w_c output ooff out_len input ioff) (base_w out_len X) (fun o d => o = splice output ooff d /\ zlen d = out_len).
Proof.
  intros Ho Hn Hl EX Hi HiX. unfold base_w_c, base_w.
  eapply ref_bind with (R := fun '(inn, out, total, bits, o) '(inn', total', bits', d) => inn = inn' /\ total = total' /\ bits = bits' /\ o = splice output ooff d /\ zlen d = out_len).
  2:{ intros [[[[inn out] total] bits] o] [[[inn' total'] bits'] d] (_ & _ & _ & -> & Hd). apply ref_ret. auto. }
  eapply ref_for_loop with (R := fun k '(inn, out, total, bits, o) '(inn', total', bits', d) => inn = inn' /\ 0 <= inn /\ out = k /\ total = total' /\ bits = bits' /\ o = splice output ooff d /\ zlen d = k).
  - exact Hn.
  - repeat (split; [try reflexivity; try lia|]); [|reflexivity]. rewrite splice_nil by lia. reflexivity.
  - intros k [[[[inn out] total] bits] o] [[[inn' total'] bits'] d] Hk (-> & Hi0 & -> & -> & -> & -> & Hd).
    eapply ref_bind with (R := fun a b => a = b /\ 0 <= fst (fst b)).
    + destruct (bits' =? 0); [|apply ref_ret; auto]. destruct (Z.lt_ge_cases inn' (zlen X)) as [h|h].
      * rewrite !rd_ok by lia. cbn [bind]. apply ref_ret. split; [|cbn [fst]; lia]. do 2 f_equal. rewrite EX.
        rewrite nth_slice by (rewrite ?Z2Nat.id; lia). f_equal. lia.
      * unfold rd at 2. replace ((0 <=? inn') && (inn' <? zlen X)) with false by lia. apply ref_undef.
    + intros [[inn total] bits] [[? ?] ?] ([= <- <- <-] & Hf). cbn [fst] in Hf. rewrite <- Hd. rewrite splice_snoc by lia. cbn [bind]. apply ref_ret. rewrite zlen_app. cbn. repeat split; lia.
  - intros [[[[inn out] total] bits] o] [[[inn' total'] bits'] d] (-> & _ & _ & -> & -> & -> & Hd). auto.
Qed.
Lemma nth_splice0 l0 l i : 0 <= i < zlen l -> zlen l <= zlen l0 -> nth (Z.to_nat i) (splice l0 0 l) 0 = nth (Z.to_nat i) l 0.
Proof. intros Hi Hl. unfold splice. rewrite slice_0, app_nil_l. apply app_nth1. unfold zlen in *. lia. Qed.
Lemma ull2_c b v : zlen b = 2 -> ull_to_bytes_c b 0 2 v = Ret (ull_to_bytes 2 v).
Proof. intros L. destruct b as [|x [|y [|z b]]]; try discriminate L; [|rewrite !zlen_cons in L; pose proof (zlen_nonneg b); lia]. reflexivity. Qed.
Lemma chain_lengths_c_ok l0 msg moff : zlen l0 = 67 -> 0 <= moff -> moff + 32 <= zlen msg ->
  ref (chain_lengths_c loc l0 msg moff) (chain_lengths (slice msg moff 32)) (fun l d => l = d /\ zlen d = 67).
Proof.
  intros L0 Hm Hl. unfold chain_lengths_c, chain_lengths. assert (Lm: zlen (slice msg moff 32) = 32) by (apply zlen_slice; lia).
  eapply ref_bind; [apply base_w_c_ok; unfold SPX_WOTS_LEN1; rewrite ?Lm; try lia; reflexivity|]. intros o l (-> & Ll). unfold SPX_WOTS_LEN1 in Ll.
  unfold wots_checksum_c, wots_checksum.
  rewrite bind_assoc. eapply ref_bind with (R := eq).
  - apply (ref_for_loop (fun _ => eq) 64); [lia|reflexivity| |auto]. intros j s ? Hj <-. unfold SPX_WOTS_LEN1 in Hj. rewrite !rd_ok by (rewrite ?zlen_splice by lia; lia). cbn [bind]. rewrite nth_splice0 by lia. apply ref_refl.
  - intros cs ? <-. cbv zeta. rewrite ull2_c by (apply LOC; lia). cbn [bind]. rewrite <- (bind_ret (base_w_c _ _ _ _ _)).
    eapply ref_bind; [apply base_w_c_ok; unfold SPX_WOTS_LEN2; try lia; [rewrite zlen_splice by lia; lia|reflexivity]|].
    intros o c (-> & Lc). unfold SPX_WOTS_LEN2 in Lc. apply ref_ret. replace 64 with (0 + zlen l) by lia. rewrite splice_splice by lia. rewrite splice_whole' by (rewrite zlen_app; lia). split; [reflexivity|]. rewrite zlen_app. lia.
Qed.
Lemma wots_pk_from_sig_c_ok ctx pk mem off msg addr : pub_ok ctx -> zlen pk = 2144 -> 0 <= off -> off + 2144 <= zlen mem -> bytes_ok mem -> zlen msg = 32 -> adr addr ->
  ref (wots_pk_from_sig_c loc locw ctx pk mem off msg addr) (wots_pk_from_sig H ctx mem off msg addr)
      (fun '(p, a') '(q, a) => p = q /\ a' = a /\ zlen q = 2144 /\ bytes_ok q /\ adr a).
Proof.
  intros Hp Lpk Ho Hl HB Lm Ha. unfold wots_pk_from_sig_c, wots_pk_from_sig. rewrite <- (slice_all msg 32) at 2 by lia.
  eapply ref_bind; [apply chain_lengths_c_ok; [apply LOCW|..]; lia|]. intros len ? (-> & Ll).
  apply (ref_for_loop (fun i '(p, a') '(q, a) => p = splice pk 0 q /\ a' = a /\ zlen q = 32 * i /\ bytes_ok q /\ adr a) 67).
  - lia.
  - rewrite splice_nil by lia. repeat split; try apply Ha. constructor.
  - intros i [p a'] [q a] Hi (-> & -> & Lq & Bq & Haa). unfold SPX_N. addrs. rewrite rdrange_ok by lia. cbn [bind]. rewrite rd_ok by lia. cbn [bind].
    rewrite <- (bind_ret (gen_chain_c _ _ _ _ _ _ _ _ _)). eapply ref_bind; [apply gen_chain_c_ok; try assumption; try sadr; rewrite ?zlen_splice by lia; lia|].
    intros [o a1] [y a2] (-> & -> & [Ly By] & Ha2). apply ref_ret. split; [|split; [reflexivity|]].
    + replace (i * 32) with (0 + zlen q) by lia. apply splice_splice; lia.
    + rewrite zlen_app. split; [lia|]. split; [|exact Ha2]. apply bytes_ok_app. auto.
  - intros [p a'] [q a] (-> & -> & Lq & Bq & Haa). rewrite splice_whole' by lia. auto 10.
Qed.

Lemma copy_ref (mem : list Z) doff src soff n x : slice src soff n = x -> 0 < n -> 0 <= soff -> soff + n <= zlen src ->
  ref (copy mem doff src soff n) (copy mem doff x 0 n) eq.
Proof.
  intros E Hn Hs Hl b. assert (Lx: zlen x = n) by (rewrite <- E; apply zlen_slice; lia).
  intros Eb. assert (R: 0 <= doff /\ doff + n <= zlen mem).
  { revert Eb. unfold copy. replace (n <=? 0) with false by lia. destruct ((0 <=? doff) && _ && _ && _) eqn:B; [|discriminate]. lia. }
  exists b. split; [|reflexivity]. rewrite <- Eb. rewrite !copy_ok by lia. rewrite E. rewrite (slice_all x) by lia. reflexivity.
Qed.
Lemma leaf_chain_c_ok ctx pb boff wk dst : pub_ok ctx -> 0 <= boff -> boff + 32 <= zlen pb -> forall n k mem x la, node32 x -> adr la ->
  ref (leaf_chain_c loc ctx n k wk dst mem (splice pb boff x) boff la) (leaf_chain H ctx n k wk dst mem x la)
      (fun '(m', b, a') '(m, y, a) => m' = m /\ b = splice pb boff y /\ a' = a /\ node32 y /\ adr a).
Proof.
  intros Hp Hb Hl. induction n as [|n IH]; intros k mem x la [Lx Bx] Ha; cbn [leaf_chain_c leaf_chain];
    (eapply ref_bind with (R := eq); [destruct (k =? wk); [apply copy_ref; [apply slice_splice_exact|..]; unfold SPX_N; rewrite ?zlen_splice by lia; lia|apply ref_refl]|]); intros m ? <-.
  - apply ref_ret. unfold node32. auto 10.
  - addrs. rewrite thash_inplace by (assumption || sadr). cbn [bind]. apply IH; [apply node_th|sadr].
Qed.
Lemma wots_gen_leafx1_c_ok ctx sigoff sl steps dest doff idx mem st : pub_ok ctx -> sec_ok ctx -> zlen steps = 67 -> 0 <= doff -> doff + 32 <= zlen dest -> adr (fst st) -> adr (snd st) ->
  ref (wots_gen_leafx1_c loc ctx sigoff sl steps dest doff idx mem st)
      (wots_gen_leafx1 H ctx {| wots_sig_off := sigoff; wots_sign_leaf := sl; wots_steps := steps |} idx mem st)
      (fun '(d, m', s') '(x, m, s) => d = splice dest doff x /\ m' = m /\ s' = s /\ node32 x /\ adr (fst s) /\ adr (snd s)).
Proof.
  intros Hp Hs Lst Hd Hdl. destruct st as [la pa]. cbn [fst snd]. intros Hla Hpa. unfold wots_gen_leafx1_c, wots_gen_leafx1. cbn [wots_sig_off wots_sign_leaf wots_steps]. addrs.
  assert (L0: zlen (loc 2144) = 2144) by (apply LOC; lia).
  eapply ref_bind with (R := fun '(m', b, a') '(m, q, a) => m' = m /\ b = q /\ a' = a /\ zlen q = 2144 /\ bytes_ok q /\ adr a).
  - apply (ref_for_loop (fun i '(m', b, a') '(m, q, a) => m' = m /\ b = splice (loc 2144) 0 q /\ a' = a /\ zlen q = 32 * i /\ bytes_ok q /\ adr a) 67).
    + lia.
    + rewrite splice_nil by lia. repeat split; try apply adr_keypair, Hla. constructor.
    + intros i [[m' b] a'] [[m q] a] Hi (-> & -> & -> & Lq & Bq & Ha). rewrite rd_ok by lia. cbn [bind]. addrs.
      rewrite prf_addr_c_ok by (try assumption; try sadr; rewrite ?zlen_splice by lia; lia). cbn [bind]. addrs. rewrite <- (bind_ret (leaf_chain_c _ _ _ _ _ _ _ _ _ _)). unfold SPX_N.
      eapply ref_bind; [apply leaf_chain_c_ok; try assumption; try sadr; try apply node_prf; rewrite ?zlen_splice by lia; lia|].
      intros [[m1 b1] a1] [[m2 y] a2] (-> & -> & -> & [Ly By] & Ha2). apply ref_ret. split; [reflexivity|]. split; [|split; [reflexivity|]].
      * replace (i * 32) with (0 + zlen q) by lia. apply splice_splice; lia.
      * rewrite zlen_app. split; [lia|]. split; [|exact Ha2]. apply bytes_ok_app. auto.
    + intros [[m' b] a'] [[m q] a] (-> & -> & -> & Lq & Bq & Ha). rewrite splice_whole' by lia. auto 10.
  - intros [[m' b] a'] [[m q] a] (-> & -> & -> & Lq & Bq & Ha). rewrite thash_c_ok by (try assumption; try sadr; try lia; now apply bytes_ok_slice). cbn [bind].
    rewrite (slice_all q) by lia. apply ref_ret. split; [reflexivity|]. split; [reflexivity|]. split; [reflexivity|]. split; [apply node_th|]. cbn [fst snd]. split; [exact Ha|sadr].
Qed.

(** ** tree hashing *)
Section Tree.
Context {T : Type}.
Variable ctx : spx_ctx.
Hypothesis Hpub : pub_ok ctx.
Variable gl_c : list Z -> Z -> Z -> list Z -> T -> outcome (list Z * list Z * T).
Variable gl : Z -> list Z -> T -> outcome (list Z * list Z * T).
Variable I : T -> Prop.
Hypothesis GL : forall idx mem st, I st -> ref (gl_c (loc 64) 32 idx mem st) (gl idx mem st)
  (fun '(d, m', s') '(x, m, s) => d = splice (loc 64) 32 x /\ m' = m /\ s' = s /\ node32 x /\ I s).

Definition up_rel (root : list Z) (roff : Z) (stack : list Z)
    (a : list Z * (list Z * list Z) + Z * (list Z * list Z * list Z))
    (b : list Z * (list Z * list Z * list Z) + Z * (list Z * list Z * list Z * list Z)) : Prop :=
  match a, b with
  | inl (r, (ta', m')), inl (x, (_, ta, m)) => r = splice root roff x /\ ta' = ta /\ m' = m /\ node32 x /\ adr ta
  | inr (h', (cur, ta', m')), inr (h, (x, stk, ta, m)) => h' = h /\ zlen cur = 64 /\ slice cur 32 32 = x /\ ta' = ta /\ m' = m /\ node32 x /\ adr ta /\ stk = stack
  | _, _ => False
  end.
Lemma treehash_up_c_ok root roff stack idx mx aoff : 0 <= roff -> roff + 32 <= zlen root -> bytes_ok stack ->
  forall n h ioff iidx ileaf cur x ta mem, 0 <= h -> 32 * (h + Z.of_nat n) <= zlen stack -> zlen cur = 64 -> slice cur 32 32 = x -> node32 x -> adr ta ->
  ref (treehash_up_c loc ctx n h idx mx ioff iidx ileaf aoff root roff cur stack ta mem)
      (treehash_up H ctx n h idx mx ioff iidx ileaf aoff x stack ta mem) (up_rel root roff stack).
Proof.
  intros Hr Hrl Bst. induction n as [|n IH]; intros h ioff iidx ileaf cur x ta mem Hh Hst Lc Ec [Lx Bx] Ha; cbn [treehash_up_c treehash_up].
  - rewrite copy_splice by lia. cbn [bind]. apply ref_ret. cbn. rewrite Ec. unfold node32. auto 10.
  - eapply ref_bind with (R := eq); [destruct (Z.lxor iidx ileaf =? 1); [apply copy_ref; unfold SPX_N; (assumption || lia)|apply ref_refl]|]. intros m ? <-.
    destruct ((Z.land iidx 1 =? 0) && (idx <? mx)); [apply ref_ret; cbn; unfold node32; auto 12|]. cbv zeta. addrs. unfold SPX_N.
    rewrite rdrange_ok by lia. cbn [bind]. rewrite copy_splice by lia. cbn [bind]. set (left := slice stack (h * 32) 32). assert (Ll: zlen left = 32) by (apply zlen_slice; lia).
    assert (Bl: bytes_ok left) by now apply bytes_ok_slice.
    assert (Es: splice cur 0 left = left ++ x). { unfold splice. rewrite slice_0, app_nil_l, Ll, Lc. change (0 + 32) with 32. change (64 - 0 - 32) with 32. rewrite Ec. reflexivity. }
    rewrite Es. assert (L2: zlen (left ++ x) = 64) by (rewrite zlen_app; lia). assert (B2: bytes_ok (left ++ x)) by (apply bytes_ok_app; auto).
    rewrite thash_c_ok by (try assumption; try sadr; try lia; now apply bytes_ok_slice). cbn [bind]. rewrite (slice_all (left ++ x)) by lia.
    apply IH; [lia|lia|rewrite zlen_splice; rewrite ?zlen_th; lia| |apply node_th|sadr]. apply slice_splice_exact; rewrite ?zlen_th; lia.
Qed.
Lemma treehash_loop_c_ok root roff lidx ioff ht aoff : 0 <= roff -> roff + 32 <= zlen root -> 0 <= ht ->
  forall fuel idx stack ta mem st, bytes_ok stack -> zlen stack = 32 * ht -> adr ta -> I st ->
  ref (treehash_loop_c loc ctx gl_c fuel idx lidx ioff ht aoff root roff stack ta mem st)
      (treehash_loop H ctx gl fuel idx lidx ioff ht aoff stack ta mem st)
      (fun '(r, ta', m', s') '(x, ta, m, s) => r = splice root roff x /\ ta' = ta /\ m' = m /\ s' = s /\ node32 x /\ adr ta /\ I s).
Proof.
  intros Hr Hrl Hht. induction fuel as [|fuel IH]; intros idx stack ta mem st Bst Lst Ha Hi; cbn [treehash_loop_c treehash_loop]; [apply ref_undef|].
  eapply ref_bind; [apply GL, Hi|]. intros [[d m'] s'] [[x m] s] (-> & -> & -> & Hx & His). destruct Hx as [Lx Bx]. assert (L0: zlen (loc 64) = 64) by (apply LOC; lia).
  eapply ref_bind; [apply treehash_up_c_ok; try assumption; try lia; [rewrite zlen_splice; lia|apply slice_splice_exact; lia|split; assumption]|].
  intros [[r [ta' m']]|[h' [[cur ta'] m']]] [[y [[stk ta2] m2]]|[h [[[y stk] ta2] m2]]]; cbn [up_rel]; try tauto.
  - intros (-> & -> & -> & Hy & Ha2). apply ref_ret. auto 12.
  - intros (-> & Lc & Ec & -> & -> & [Ly By] & Ha2 & ->). 
    eapply ref_bind with (R := fun a b => a = b /\ bytes_ok b /\ zlen b = 32 * ht).
    + unfold SPX_N. intros b Eb. destruct (copy_ref stack (h * 32) cur 32 32 y Ec ltac:(lia) ltac:(lia) ltac:(lia) b Eb) as (a & E1 & ->). exists b. split; [exact E1|]. split; [reflexivity|].
      revert Eb. unfold copy. replace (32 <=? 0) with false by lia. destruct ((0 <=? h * 32) && _ && _ && _) eqn:B; [|discriminate]. intros [= <-].
      change (slice stack 0 (h * 32) ++ slice y 0 32 ++ slice stack (h * 32 + 32) (zlen stack - h * 32 - 32)) with (slice stack 0 (h * 32) ++ slice y 0 32 ++ slice stack (h * 32 + 32) (zlen stack - h * 32 - 32)).
      rewrite (slice_all y) by lia. split; [apply bytes_ok_app; split; [now apply bytes_ok_slice|]; apply bytes_ok_app; split; [exact By|now apply bytes_ok_slice]|]. rewrite !zlen_app, !zlen_slice by lia. lia.
    + intros stk ? (-> & Bk & Lk). apply IH; assumption.
Qed.
Lemma treehashx1_c_ok root roff aoff lidx ioff ht ta mem st : 0 <= roff -> roff + 32 <= zlen root -> 0 <= ht -> adr ta -> I st ->
  ref (treehashx1_c loc ctx gl_c root roff aoff lidx ioff ht ta mem st) (treehashx1 H ctx gl (loc (ht * 32)) aoff lidx ioff ht ta mem st)
      (fun '(r, ta', m', s') '(x, ta, m, s) => r = splice root roff x /\ ta' = ta /\ m' = m /\ s' = s /\ node32 x /\ adr ta /\ I s).
Proof. intros Hr Hrl Hht Ha Hi. apply treehash_loop_c_ok; try assumption; [apply LOCB|rewrite LOC; lia]. Qed.
End Tree.

Lemma compute_root_c_ok ctx root roff leaf lidx ioff mem off ht addr : pub_ok ctx -> 0 <= roff -> roff + 32 <= zlen root -> zlen leaf = 32 -> bytes_ok leaf -> bytes_ok mem ->
  1 <= ht < 2 ^ 32 -> 0 <= off -> off + 32 * ht <= zlen mem -> adr addr ->
  ref (compute_root_c loc ctx root roff leaf lidx ioff mem off ht addr) (compute_root H ctx leaf lidx ioff mem off ht addr)
      (fun '(r, a') '(x, a) => r = splice root roff x /\ a' = a /\ node32 x /\ adr a).
Proof.
  intros Hp Hr Hrl Ll Bl Bm Hht Ho Hol Ha. unfold compute_root_c, compute_root, SPX_N. rewrite rdrange_ok by lia. cbn [bind]. assert (L0: zlen (loc 64) = 64) by (apply LOC; lia).
  set (a0 := slice mem off 32). assert (La: zlen a0 = 32) by (apply zlen_slice; lia). assert (Ba: bytes_ok a0) by now apply bytes_ok_slice.
  assert (two: forall b x y, zlen b = 64 -> zlen x = 32 -> zlen y = 32 -> splice (splice b 0 x) 32 y = x ++ y).
  { intros b x y Lb Lx Ly. replace 32 with (0 + zlen x) by lia. rewrite splice_splice by lia. apply splice_whole'. rewrite zlen_app. lia. }
  assert (two': forall b x y, zlen b = 64 -> zlen x = 32 -> zlen y = 32 -> splice (splice b 32 y) 0 x = x ++ y).
  { intros b x y Lb Lx Ly. unfold splice at 1. rewrite slice_0, app_nil_l, Lx. rewrite zlen_splice by lia. rewrite Lb. change (64 - 0 - 32) with 32. change (0 + 32) with 32. rewrite slice_splice_exact by lia. reflexivity. }
  assert (E1: (if negb (Z.land lidx 1 =? 0) then b <- copy (loc 64) 32 leaf 0 32;; copy b 0 mem off 32 else b <- copy (loc 64) 0 leaf 0 32;; copy b 32 mem off 32)
     = Ret (fst (if negb (Z.land lidx 1 =? 0) then (a0, leaf) else (leaf, a0)) ++ snd (if negb (Z.land lidx 1 =? 0) then (a0, leaf) else (leaf, a0)))).
  { destruct (negb (Z.land lidx 1 =? 0)); cbn [fst snd]; rewrite copy_splice by lia; cbn [bind]; rewrite copy_splice by (rewrite ?zlen_splice by (rewrite ?zlen_slice by lia; lia); lia); rewrite (slice_all leaf) by lia; apply (f_equal Ret); [apply two'|apply two]; (assumption || lia). }
  rewrite E1. cbn [bind]. clear E1. destruct (if negb (Z.land lidx 1 =? 0) then (a0, leaf) else (leaf, a0)) as [b0 b1] eqn:E0. cbn [fst snd].
  assert (N01: node32 b0 /\ node32 b1). { destruct (negb (Z.land lidx 1 =? 0)); injection E0 as <- <-; unfold node32; auto. } clear E0.
  eapply ref_bind with (R := fun '(b, l', o', a') '(b0, b1, l, o, a) => b = b0 ++ b1 /\ l' = l /\ o' = o /\ a' = a /\ node32 b0 /\ node32 b1 /\ adr a).
  - assert (Eh: u32 (ht - 1) = ht - 1) by (unfold u32; apply Z.mod_small; lia). rewrite Eh.
    eapply ref_for_loop with (R := fun i '(b, l', o', a') '(b0, b1, l, o, a) => b = b0 ++ b1 /\ l' = l /\ o' = o /\ a' = a /\ node32 b0 /\ node32 b1 /\ adr a).
    + lia.
    + destruct N01. auto 12.
    + intros i [[[b l'] o'] a'] [[[[c0 c1] l] o] a] Hi (-> & -> & -> & -> & [L1 B1] & [L2 B2] & Haa). cbv zeta. addrs. rewrite rdrange_ok by lia. cbn [bind].
      set (ai := slice mem (off + (i + 1) * 32) 32). assert (Lai: zlen ai = 32) by (apply zlen_slice; lia). assert (Bai: bytes_ok ai) by now apply bytes_ok_slice.
      assert (L12: zlen (c0 ++ c1) = 64) by (rewrite zlen_app; lia). assert (B12: bytes_ok (c0 ++ c1)) by (apply bytes_ok_app; auto).
      destruct (negb (Z.land (Z.shiftr l 1) 1 =? 0)); rewrite thash_c_ok by (try assumption; try sadr; try lia; now apply bytes_ok_slice); cbn [bind]; rewrite copy_splice by (rewrite ?zlen_splice by (rewrite ?zlen_th; lia); lia); cbn [bind];
        rewrite (slice_all (c0 ++ c1)) by lia; fold ai; [rewrite two'|rewrite two]; try assumption; try apply zlen_th; apply ref_ret; (split; [reflexivity|]); repeat (split; [reflexivity|]); (split; [first [apply node_th|split; assumption]|]); (split; [first [apply node_th|split; assumption]|]); sadr.
    + intros [[[b l'] o'] a'] [[[[c0 c1] l] o] a] HR. exact HR.
  - intros [[[b l'] o'] a'] [[[[c0 c1] l] o] a] (-> & -> & -> & -> & [L1 B1] & [L2 B2] & Haa). cbv zeta. addrs.
    assert (L12: zlen (c0 ++ c1) = 64) by (rewrite zlen_app; lia). assert (B12: bytes_ok (c0 ++ c1)) by (apply bytes_ok_app; auto).
    rewrite thash_c_ok by (try assumption; try sadr; try lia; now apply bytes_ok_slice). cbn [bind]. rewrite (slice_all (c0 ++ c1)) by lia. apply ref_ret. split; [reflexivity|]. split; [reflexivity|]. split; [apply node_th|sadr].
Qed.

(** ** merkle.c *)
Lemma merkle_sign_c_ok ctx mem off root roff wa ta idx : pub_ok ctx -> sec_ok ctx -> 0 <= roff -> roff + 32 <= zlen root -> adr wa -> adr ta ->
  ref (merkle_sign_c loc locw ctx mem off root roff wa ta idx) (merkle_sign H ctx (loc 128) mem off (slice root roff 32) wa ta idx)
      (fun '(m', r, a') '(m, x, a) => m' = m /\ r = splice root roff x /\ a' = a /\ node32 x /\ adr a).
Proof.
  intros Hp Hs Hr Hrl Hw Ht. unfold merkle_sign_c, merkle_sign. eapply ref_bind; [apply chain_lengths_c_ok; [apply LOCW|..]; lia|]. intros st ? (-> & Lst).
  cbv zeta. addrs. change addr0 with (zeros 32). unfold SPX_WOTS_BYTES, SPX_TREE_HEIGHT.
  eapply ref_bind; [apply (treehashx1_c_ok ctx Hp _ _ (fun s => adr (fst s) /\ adr (snd s)))|].
  - intros i m s [H1 H2]. assert (L0: zlen (loc 64) = 64) by (apply LOC; lia). eapply ref_mono; [apply wots_gen_leafx1_c_ok; try assumption; lia|]. intros [[d m'] s'] [[x m2] s2]. tauto.
  - lia.
  - lia.
  - lia.
  - sadr.
  - cbn [fst snd]. split; sadr.
  - intros [[[r a'] m'] s'] [[[x a] m] s] (-> & -> & -> & -> & Hx & Ha & _). apply ref_ret. auto 10.
Qed.
Lemma merkle_gen_root_c_ok ctx root roff : pub_ok ctx -> sec_ok ctx -> 0 <= roff -> roff + 32 <= zlen root ->
  ref (merkle_gen_root_c loc locw ctx root roff) (merkle_gen_root H ctx (loc 128) (loc 2272) (slice root roff 32)) (fun r x => r = splice root roff x /\ node32 x).
Proof.
  intros Hp Hs Hr Hrl. unfold merkle_gen_root_c, merkle_gen_root. cbv zeta. addrs. change addr0 with (zeros 32). change (SPX_D - 1) with 16.
  eapply ref_bind; [apply merkle_sign_c_ok; (assumption || sadr)|]. intros [[m' r] a'] [[m x] a] (_ & -> & _ & Hx & _). apply ref_ret. auto.
Qed.

(** ** fors.c *)
Lemma snoc_over l0 out x y : zlen out < zlen l0 -> wr (splice l0 0 (out ++ [x])) (zlen out) y = Ret (splice l0 0 (out ++ [y])).
Proof.
  intros Hl. pose proof (zlen_nonneg out). assert (L1: zlen (out ++ [x]) = zlen out + 1) by (rewrite zlen_app; reflexivity).
  rewrite wr_ok by (rewrite zlen_splice by lia; lia). apply (f_equal Ret). unfold splice. rewrite slice_0, !app_nil_l, L1. replace (zlen (out ++ [y])) with (zlen out + 1) by (rewrite zlen_app; reflexivity).
  rewrite <- !app_assoc. cbn [app]. replace (Z.to_nat (zlen out)) with (length out) by (unfold zlen; lia). apply upd_app_r.
Qed.
Lemma nth_snoc l0 out x : zlen out < zlen l0 -> nth (Z.to_nat (zlen out)) (splice l0 0 (out ++ [x])) 0 = x.
Proof.
  intros Hl. pose proof (zlen_nonneg out). assert (L1: zlen (out ++ [x]) = zlen out + 1) by (rewrite zlen_app; reflexivity).
  rewrite nth_splice0 by lia. rewrite app_nth2 by (unfold zlen; lia). replace (Z.to_nat (zlen out) - length out)%nat with 0%nat by (unfold zlen; lia). reflexivity.
Qed.
Lemma message_to_indices_c_ok l0 m : zlen l0 = 35 ->
  ref (message_to_indices_c l0 m) (message_to_indices m) (fun a b => a = b /\ zlen b = 35).
Proof.
  intros L0. unfold message_to_indices_c, message_to_indices. eapply ref_bind with (R := fun '(o', ind) '(o, out) => ind = out /\ zlen out = 35).
  - apply (ref_for_loop (fun i '(o', ind) '(o, out) => o' = o /\ ind = splice l0 0 out /\ zlen out = i) 35).
    + lia.
    + rewrite splice_nil by lia. auto.
    + intros i [o' ind] [o out] Hi (-> & -> & <-). unfold SPX_FORS_HEIGHT. pose proof (splice_snoc l0 0 out 0 ltac:(lia) ltac:(lia)) as E. rewrite Z.add_0_l in E. rewrite E. cbn [bind]. clear E.
      rewrite <- (bind_ret (for_loop 9 _ (o, splice l0 0 (out ++ [0])))). eapply ref_bind with (R := fun '(o', ind) '(o, x) => o' = o /\ ind = splice l0 0 (out ++ [x])).
      * apply (ref_for_loop (fun _ '(o', ind) '(o, x) => o' = o /\ ind = splice l0 0 (out ++ [x])) 9); [lia|auto| |auto].
        intros j [p' ind] [p x] Hj (-> & ->). eapply ref_bind with (R := eq); [apply ref_refl|]. intros b ? <-.
        assert (L1: zlen (out ++ [x]) = zlen out + 1) by (rewrite zlen_app; reflexivity).
        rewrite rd_ok by (rewrite zlen_splice by lia; lia). cbn [bind]. rewrite nth_snoc by lia. cbv zeta. rewrite snoc_over by lia. cbn [bind]. apply ref_ret. auto.
      * intros [p' ind] [p x] (-> & ->). apply ref_ret. split; [reflexivity|]. split; [reflexivity|]. rewrite zlen_app. reflexivity.
    + intros [o' ind] [o out] (-> & -> & Lo). rewrite splice_whole' by lia. auto.
  - intros [o' ind] [o out] (-> & Lo). apply ref_ret. auto.
Qed.
Lemma prf_copy_ref ctx mem off a : pub_ok ctx -> sec_ok ctx -> adr a -> ref (prf_addr_c loc ctx mem off a) (copy mem off (prf_addr H ctx a) 0 32) eq.
Proof.
  intros Hp Hs Ha b Eb. assert (R: 0 <= off /\ off + 32 <= zlen mem).
  { revert Eb. unfold copy. change (32 <=? 0) with false. cbv iota. destruct ((0 <=? off) && _ && _ && _) eqn:B; [|discriminate]. lia. }
  exists b. split; [|reflexivity]. rewrite <- Eb. rewrite prf_addr_c_ok by (assumption || lia). pose proof (zlen_prf ctx a). rewrite copy_splice by lia. rewrite slice_all by lia. reflexivity.
Qed.
Lemma fors_sign_c_ok ctx mem off pk m fa : pub_ok ctx -> sec_ok ctx -> zlen pk = 32 -> adr fa ->
  ref (fors_sign_c loc locw ctx mem off pk m fa) (fors_sign H ctx (fun _ => loc 288) mem off m fa)
      (fun '(m', p) '(m, x) => m' = m /\ p = x /\ node32 x).
Proof.
  intros Hp Hs Lpk Hf. unfold fors_sign_c, fors_sign. cbv zeta. addrs. change addr0 with (zeros 32).
  eapply ref_bind; [apply message_to_indices_c_ok, LOCW; lia|]. intros ind ? (-> & Li). assert (L0: zlen (loc 1120) = 1120) by (apply LOC; lia).
  eapply ref_bind with (R := fun '(m', o', r', a', l') '(m, o, r, a, l) => m' = m /\ r' = r /\ zlen r = 1120 /\ bytes_ok r).
  - apply (ref_for_loop (fun i '(m', o', r', a', l') '(m, o, r, a, l) => m' = m /\ o' = o /\ r' = splice (loc 1120) 0 r /\ zlen r = 32 * i /\ bytes_ok r /\ a' = a /\ l' = l /\ adr a /\ adr l) 35).
    + lia.
    + rewrite splice_nil by lia. split; [reflexivity|]. split; [reflexivity|]. split; [reflexivity|]. split; [reflexivity|]. split; [constructor|]. split; [reflexivity|]. split; [reflexivity|]. split; sadr.
    + intros i [[[[m1 o1] r1] a1] l1] [[[[m2 o2] r2] a2] l2] Hi (-> & -> & -> & Lr & Br & -> & -> & Ha & Hl). cbv zeta. rewrite rd_ok by lia. cbn [bind]. addrs. unfold SPX_N, SPX_FORS_HEIGHT.
      eapply ref_bind; [apply prf_copy_ref; (assumption || sadr)|]. intros mm ? <-. addrs. change 288 with (9 * 32).
      eapply ref_bind; [apply (treehashx1_c_ok ctx Hp _ _ adr)|].
      * intros x mq s Hq. unfold fors_gen_leafx1_c, fors_gen_leafx1. cbv zeta. assert (L64: zlen (loc 64) = 64) by (apply LOC; lia). addrs. rewrite prf_addr_c_ok by (try assumption; try sadr; lia). cbn [bind]. addrs.
        rewrite thash_inplace by (try assumption; try sadr; lia). cbn [bind]. apply ref_ret. split; [reflexivity|]. split; [reflexivity|]. split; [reflexivity|]. split; [apply node_th|sadr].
      * lia.
      * rewrite zlen_splice by lia. lia.
      * lia.
      * sadr.
      * assumption.
      * intros [[[r a'] m'] s'] [[[x a] mz] s] (-> & -> & -> & -> & [Lx Bx] & Ha2 & Hs2). apply ref_ret. split; [reflexivity|]. split; [reflexivity|]. split; [|split; [rewrite zlen_app; lia|split; [apply bytes_ok_app; auto|auto]]].
        replace (i * 32) with (0 + zlen r2) by lia. apply splice_splice; lia.
    + intros [[[[m1 o1] r1] a1] l1] [[[[m2 o2] r2] a2] l2] (-> & _ & -> & Lr & Br & _). rewrite splice_whole' by lia. auto.
  - intros [[[[m1 o1] r1] a1] l1] [[[[m2 o2] r2] a2] l2] (-> & -> & Lr & Br). rewrite thash_c_ok by (try assumption; try sadr; try lia; now apply bytes_ok_slice). cbn [bind].
    rewrite (slice_all r2) by lia. rewrite splice_whole' by (rewrite zlen_th; lia). apply ref_ret. split; [reflexivity|]. split; [reflexivity|apply node_th].
Qed.
Lemma fors_pk_from_sig_c_ok ctx pk mem off m fa : pub_ok ctx -> zlen pk = 32 -> adr fa -> bytes_ok mem -> 0 <= off -> off + 11200 <= zlen mem ->
  ref (fors_pk_from_sig_c loc locw ctx pk mem off m fa) (fors_pk_from_sig H ctx mem off m fa) (fun p x => p = x /\ node32 x).
Proof.
  intros Hp Lpk Hf Bm Ho Hol. unfold fors_pk_from_sig_c, fors_pk_from_sig. cbv zeta. addrs. change addr0 with (zeros 32).
  eapply ref_bind; [apply message_to_indices_c_ok, LOCW; lia|]. intros ind ? (-> & Li). assert (L0: zlen (loc 1120) = 1120) by (apply LOC; lia). assert (L32: zlen (loc 32) = 32) by (apply LOC; lia).
  eapply ref_bind with (R := fun '(o', lf, r', a') '(o, r, a) => r' = r /\ zlen r = 1120 /\ bytes_ok r).
  - apply (ref_for_loop (fun i '(o', lf, r', a') '(o, r, a) => o' = o /\ o = off + 320 * i /\ zlen lf = 32 /\ r' = splice (loc 1120) 0 r /\ zlen r = 32 * i /\ bytes_ok r /\ a' = a /\ adr a) 35).
    + lia.
    + rewrite splice_nil by lia. split; [reflexivity|]. split; [lia|]. split; [exact L32|]. split; [reflexivity|]. split; [reflexivity|]. split; [constructor|]. split; [reflexivity|]. sadr.
    + intros i [[[o1 lf] r1] a1] [[o2 r2] a2] Hi (-> & -> & Llf & -> & Lr & Br & -> & Ha). cbv zeta. rewrite rd_ok by lia. cbn [bind]. addrs. unfold SPX_N, SPX_FORS_HEIGHT. rewrite rdrange_ok by lia. cbn [bind].
      rewrite thash_c_ok by (try assumption; try sadr; try lia; now apply bytes_ok_slice). cbn [bind]. change (1 * 32) with 32. rewrite (splice_whole' lf) by (rewrite zlen_th; lia).
      eapply ref_bind; [apply compute_root_c_ok; try assumption; try apply zlen_th; try apply bytes_th; try sadr; rewrite ?zlen_splice by lia; try lia; change (2 ^ 32) with 4294967296; lia|].
      intros [r a'] [x a] (-> & -> & [Lx Bx] & Ha2). apply ref_ret. split; [reflexivity|]. split; [lia|]. split; [apply zlen_th|]. split; [|split; [rewrite zlen_app; lia|split; [apply bytes_ok_app; auto|auto]]].
      replace (i * 32) with (0 + zlen r2) by lia. apply splice_splice; lia.
    + intros [[[o1 lf] r1] a1] [[o2 r2] a2] (_ & _ & _ & -> & Lr & Br & _). rewrite splice_whole' by lia. auto.
  - intros [[[o1 lf] r1] a1] [[o2 r2] a2] (-> & Lr & Br). rewrite thash_c_ok by (try assumption; try sadr; try lia; now apply bytes_ok_slice).
    rewrite (slice_all r2) by lia. rewrite splice_whole' by (rewrite zlen_th; lia). apply ref_ret. split; [reflexivity|apply node_th].
Qed.

(** ** hash_shake.c *)
Lemma nth_slice_z l off n i : 0 <= off -> 0 <= i < n -> nth (Z.to_nat i) (slice l off n) 0 = nth (Z.to_nat (off + i)) l 0.
Proof. intros Ho Hi. rewrite nth_slice by (rewrite ?Z2Nat.id; lia). f_equal. lia. Qed.
Lemma bytes_to_ull_8 b : zlen b = 49 -> bytes_to_ull_c b 40 8 = Ret (bytes_to_ull (slice b 40 8) 8).
Proof.
  intros L. unfold bytes_to_ull_c, for_loop. change (Z.to_nat 8) with 8%nat. cbn [for_from]. rewrite !rd_ok by lia. cbn [bind]. unfold bytes_to_ull. cbn [seq fold_left].
  apply (f_equal Ret). change 7%nat with (Z.to_nat 7). change 6%nat with (Z.to_nat 6). change 5%nat with (Z.to_nat 5). change 4%nat with (Z.to_nat 4). change 3%nat with (Z.to_nat 3). change 2%nat with (Z.to_nat 2). change 1%nat with (Z.to_nat 1). change 0%nat with (Z.to_nat 0).
  rewrite !nth_slice_z by lia. reflexivity.
Qed.
Lemma bytes_to_ull_1 b : zlen b = 49 -> bytes_to_ull_c b 48 1 = Ret (bytes_to_ull (slice b 48 1) 1).
Proof.
  intros L. unfold bytes_to_ull_c, for_loop. change (Z.to_nat 1) with 1%nat. cbn [for_from]. rewrite !rd_ok by lia. cbn [bind]. unfold bytes_to_ull. cbn [seq fold_left].
  apply (f_equal Ret). change 0%nat with (Z.to_nat 0). rewrite !nth_slice_z by lia. reflexivity.
Qed.
Lemma hash_message_c_ok dg mem roff pk pkoff mo mlen : zlen dg = 40 -> 0 <= roff -> roff + 32 <= zlen mem -> 0 <= pkoff -> pkoff + 64 <= zlen pk -> 0 <= mo -> 0 <= mlen -> mo + mlen <= zlen mem ->
  hash_message_c loc dg mem roff pk pkoff mo mlen = Ret (hash_message H (slice mem roff 32) (slice pk pkoff 64) (slice mem mo mlen)).
Proof.
  intros Ld Hr Hrl Hk Hkl Hm Hn Hml. unfold hash_message_c, hash_message. rewrite !rdrange_ok by lia. cbn [bind]. assert (L0: zlen (loc 49) = 49) by (apply LOC; lia).
  rewrite shake256_pieces_ok by lia. cbn [bind concat]. rewrite app_nil_r. set (b := H _ 49). assert (Lb: zlen b = 49) by (apply HHl; lia). rewrite splice_whole' by lia.
  rewrite copy_splice by lia. cbn [bind]. rewrite bytes_to_ull_8, bytes_to_ull_1 by assumption. cbn [bind]. cbv zeta. rewrite splice_whole' by (rewrite zlen_slice; lia). reflexivity.
Qed.
Lemma gen_message_random_c_ok mem roff sk skoff opt mo mlen : 0 <= roff -> roff + 32 <= zlen mem -> 0 <= skoff -> skoff + 32 <= zlen sk -> zlen opt = 32 -> 0 <= mo -> 0 <= mlen -> mo + mlen <= zlen mem ->
  gen_message_random_c mem roff sk skoff opt mo mlen = Ret (splice mem roff (gen_message_random H (slice sk skoff 32) opt (slice mem mo mlen))).
Proof.
  intros Hr Hrl Hk Hkl Lo Hm Hn Hml. unfold gen_message_random_c, gen_message_random, SPX_N. rewrite !rdrange_ok by lia. cbn [bind]. rewrite shake256_pieces_ok by lia. cbn [concat]. rewrite app_nil_r.
  rewrite (slice_all opt) by lia. reflexivity.
Qed.

End Loc.
