(** What the traces of Dilithium key generation and signing depend on. *)
From Coq Require Import ZifyBool ZifyNat.
From Verif Require Import Base Sponge SpongePure SpongeProofs2 Tab DilReduce DilNtt DilPoly DilVec BufLemmas
  CtBase CtTweet CtTweetProofs CtKeccak CtKeccakProofs CtSpx CtSpxTrace CtDil CtDilProofs.
Local Open Scope Z_scope.
Ltac Zify.zify_post_hook ::= idtac.
#[local] Opaque Keccak.KeccakF1600_StatePermute.
#[local] Hint Resolve ct_shake : ct.

(** ** Loops with one trace *)
Lemma ct_steps n ev ev' : (forall i, ev i = ev' i) -> steps n ev = steps n ev'.
Proof. intros H. apply ct_for. intros j a a'. cbn [trace fst]. apply H. Qed.
Lemma ct_lmap {B} (f g : Z -> B) a b : trace (lmap f a) = trace (lmap g b). Proof. reflexivity. Qed.
Lemma ct_lmap2 {B} (f g : Z -> Z -> B) a b a' b' : trace (lmap2 f a b) = trace (lmap2 g a' b'). Proof. reflexivity. Qed.
Lemma ct_lgroup n gi go f a g b : trace (lgroup (V := Z) n gi go f a) = trace (lgroup (V := Z) n gi go g b). Proof. reflexivity. Qed.
Lemma ct_lvec {A A' B B'} (d : A) (d' : A') (f : A -> L B) (g : A' -> L B') v w : (forall x y, trace (f x) = trace (g y)) -> trace (lvec d f v) = trace (lvec d' g w).
Proof. intros H. apply ct_steps. intros i. apply H. Qed.
Lemma ct_lvec2 {B} (f g : list Z -> list Z -> L B) u v u' v' : (forall x y x' y', trace (f x y) = trace (g x' y')) -> trace (lvec2 f u v) = trace (lvec2 g u' v').
Proof. intros H. apply ct_steps. intros i. apply H. Qed.

Lemma same_fors {S P} (g : S -> P) n : forall i (f f' : Z -> S -> L S) s s', g s = g s' -> (forall j a a', g a = g a' -> same g (f j a) (f' j a')) ->
  same g (lfrom n i f s) (lfrom n i f' s').
Proof.
  induction n as [|n IH]; intros i f f' s s' H K; [split; [reflexivity|exact H]|]. cbn [lfrom]. cbv zeta.
  destruct (K i s s' H) as (T & E). destruct (IH (i + 1) f f' _ _ E K) as (T2 & E2). split; [|exact E2].
  unfold trace at 1 4; cbn [fst]. now rewrite T, T2.
Qed.
Lemma ct_ntt_layer len st st' : snd st = snd st' -> same snd (ntt_layer_l Zops len st) (ntt_layer_l Zops len st').
Proof.
  intros H. apply same_fors; [exact H|]. intros j [a k] [a' k'] E. cbn [snd] in E. subst k'. cbv zeta. apply same_ct; [reflexivity|intros].
  apply same_ct; [apply ct_for; intros; unfold butterfly_l; ct|intros]. split; reflexivity.
Qed.
Lemma ct_invntt_layer len st st' : snd st = snd st' -> same snd (invntt_layer_l Zops len st) (invntt_layer_l Zops len st').
Proof.
  intros H. apply same_fors; [exact H|]. intros j [a k] [a' k'] E. cbn [snd] in E. subst k'. cbv zeta. apply same_ct; [reflexivity|intros].
  apply same_ct; [apply ct_for; intros; unfold inv_butterfly_l; ct|intros]. split; reflexivity.
Qed.
Lemma ct_ntt a a' : trace (poly_ntt_l Zops a) = trace (poly_ntt_l Zops a').
Proof.
  unfold poly_ntt_l. apply (ct_bind_g snd); [now apply ct_ntt_layer|]. intros st st' H. do 7 (apply (ct_bind_g snd); [now apply ct_ntt_layer|]; clear H st st'; intros st st' H). reflexivity.
Qed.
Lemma ct_invntt a a' : trace (poly_invntt_l Zops a) = trace (poly_invntt_l Zops a').
Proof.
  unfold poly_invntt_l. apply (ct_bind_g snd); [now apply ct_invntt_layer|]. intros st st' H. do 7 (apply (ct_bind_g snd); [now apply ct_invntt_layer|]; clear H st st'; intros st st' H). ct.
Qed.
Lemma ct_vreduce v w : trace (vec_reduce_l Zops v) = trace (vec_reduce_l Zops w). Proof. apply ct_lvec; intros; apply ct_lmap. Qed.
Lemma ct_vcaddq v w : trace (vec_caddq_l Zops v) = trace (vec_caddq_l Zops w). Proof. apply ct_lvec; intros; apply ct_lmap. Qed.
Lemma ct_vadd v w v' w' : trace (vec_add_l Zops v w) = trace (vec_add_l Zops v' w'). Proof. apply ct_lvec2; intros; apply ct_lmap2. Qed.
Lemma ct_vsub v w v' w' : trace (vec_sub_l Zops v w) = trace (vec_sub_l Zops v' w'). Proof. apply ct_lvec2; intros; apply ct_lmap2. Qed.
Lemma ct_vntt v w : trace (vec_ntt_l Zops v) = trace (vec_ntt_l Zops w). Proof. apply ct_lvec, ct_ntt. Qed.
Lemma ct_vinvntt v w : trace (vec_invntt_l Zops v) = trace (vec_invntt_l Zops w). Proof. apply ct_lvec, ct_invntt. Qed.
Lemma ct_vpointwise a v b w : trace (vec_pointwise_poly_l Zops a v) = trace (vec_pointwise_poly_l Zops b w). Proof. apply ct_lvec; intros; apply ct_lmap2. Qed.
Lemma trace_pair {A} t (a b : A) : trace (t, a) = trace (t, b). Proof. reflexivity. Qed.
Lemma ct_acc x v y w : trace (vec_pointwise_acc_l Zops x v) = trace (vec_pointwise_acc_l Zops y w).
Proof. unfold vec_pointwise_acc_l. apply trace_pair. Qed.
Lemma ct_matrix m v m' w : trace (matrix_pointwise_l Zops m v) = trace (matrix_pointwise_l Zops m' w).
Proof. unfold matrix_pointwise_l. apply ct_lvec. intros x y. apply ct_acc. Qed.
Lemma ct_vpower2round v w : trace (vec_power2round_l Zops v) = trace (vec_power2round_l Zops w).
Proof. unfold vec_power2round_l. apply ct_bind; [|reflexivity]. apply ct_lvec. intros x y. unfold poly_power2round_l. apply ct_bind; [apply ct_lmap|reflexivity]. Qed.
Lemma ct_vdecompose v w : trace (vec_decompose_l Zops v) = trace (vec_decompose_l Zops w).
Proof. unfold vec_decompose_l. apply ct_bind; [|reflexivity]. apply ct_lvec. intros x y. unfold poly_decompose_l. apply ct_bind; [apply ct_lmap|reflexivity]. Qed.
Lemma ct_pack_w1 v w : trace (vec_pack_w1_l Zops v) = trace (vec_pack_w1_l Zops w).
Proof. unfold vec_pack_w1_l. apply ct_bind; [apply ct_lvec; intros; apply ct_lgroup|reflexivity]. Qed.
#[local] Hint Resolve ct_ntt ct_invntt ct_vreduce ct_vcaddq ct_vadd ct_vsub ct_vntt ct_vinvntt ct_vpointwise ct_matrix ct_vpower2round ct_vdecompose ct_pack_w1 : ct.
Lemma ct_pack_pk rho v rho' w : trace (pack_pk_l Zops rho v) = trace (pack_pk_l Zops rho' w).
Proof. unfold pack_pk_l. apply ct_bind; [reflexivity|intros]. apply ct_bind; [apply ct_lvec; intros; apply ct_lgroup|reflexivity]. Qed.
Lemma ct_pack_sk rho tr k t s u rho' tr' k' t' s' u' : trace (pack_sk_l Zops rho tr k t s u) = trace (pack_sk_l Zops rho' tr' k' t' s' u').
Proof. unfold pack_sk_l. do 3 (apply ct_bind; [reflexivity|intros]). do 3 (apply ct_bind; [apply ct_lvec; intros; apply ct_lgroup|intros]). reflexivity. Qed.
Lemma ct_unpack_sk sk sk' : trace (unpack_sk_l Zops sk) = trace (unpack_sk_l Zops sk').
Proof. unfold unpack_sk_l. do 3 (apply ct_bind; [reflexivity|intros]). do 3 (apply ct_bind; [apply ct_lvec; intros; apply ct_lgroup|intros]). reflexivity. Qed.
#[local] Hint Resolve ct_pack_pk ct_pack_sk ct_unpack_sk ct_shake_at : ct.
Lemma ct_stream r seed n nonce seed' : same snd (stream_init_l Zops r seed n nonce) (stream_init_l Zops r seed' n nonce).
Proof.
  unfold stream_init_l. do 2 (apply same_ct; [reflexivity|intros]).
  apply (same_bind snd); [apply ct_inc_absorb|]. intros [? ?] [? ?] H; cbn [snd] in H; subst.
  apply (same_bind snd); [apply ct_inc_absorb|]. intros [? ?] [? ?] H; cbn [snd] in H; subst. apply ct_inc_finalize.
Qed.
Lemma ct_response c s y c' s' y' : trace (response_l Zops c s y) = trace (response_l Zops c' s' y'). Proof. unfold response_l; ct. Qed.
Lemma ct_lowpart c s y c' s' y' : trace (lowpart_l Zops c s y) = trace (lowpart_l Zops c' s' y'). Proof. unfold lowpart_l; ct. Qed.
Lemma ct_hintpart c s c' s' : trace (hintpart_l Zops c s) = trace (hintpart_l Zops c' s'). Proof. unfold hintpart_l; ct. Qed.

(** ** What a squeeze writes does not depend on what was there *)
Definition agree (k : Z) (l l' : list Z) : Prop := zlen l = zlen l' /\ forall i, 0 <= i < k -> nth (Z.to_nat i) l 0 = nth (Z.to_nat i) l' 0.
Lemma agree_all l l' : agree (zlen l) l l' -> l = l'.
Proof.
  intros [L E]. apply nth_ext with (d := 0) (d' := 0); [unfold zlen in L; lia|]. intros n H. specialize (E (Z.of_nat n) ltac:(unfold zlen; lia)). now rewrite Nat2Z.id in E.
Qed.
Lemma nth_upd (l : list Z) k v i : nth i (upd l k v) 0 = if (i =? k)%nat && (k <? length l)%nat then v else nth i l 0.
Proof.
  revert k i. induction l as [|x l IH]; intros [|k] [|i]; cbn [upd nth length]; try reflexivity.
  - now destruct (_ =? _)%nat.
  - rewrite IH. reflexivity.
Qed.
Lemma length_upd' (l : list Z) k v : length (upd l k v) = length l.
Proof. revert k. induction l as [|x l IH]; intros [|k]; cbn [upd length]; try reflexivity. now rewrite IH. Qed.
Lemma agree_put k l l' v : agree k l l' -> 0 <= k -> agree (k + 1) (upd l (Z.to_nat k) v) (upd l' (Z.to_nat k) v).
Proof.
  intros [L E] Hk. unfold zlen in *. split; [unfold zlen; rewrite !length_upd'; exact L|]. intros i Hi. rewrite !nth_upd.
  replace (length l') with (length l) by lia. destruct (Nat.eqb_spec (Z.to_nat i) (Z.to_nat k)) as [Ei|Ei]; [|apply E; lia].
  destruct (Nat.ltb_spec (Z.to_nat k) (length l)); [reflexivity|]. rewrite !nth_overflow by lia. reflexivity.
Qed.
Lemma agree_writes n (g : Z -> L Z) : forall off i h h', 0 <= off + i -> agree (off + i) h h' ->
  let f := fun i h => b <~ g i ;;; lwr h (off + i) b in
  trace (lfrom n i f h) = trace (lfrom n i f h') /\ agree (off + i + Z.of_nat n) (value (lfrom n i f h)) (value (lfrom n i f h')).
Proof.
  induction n as [|n IH]; intros off i h h' H0 H f; [split; [reflexivity|]; cbn [lfrom value snd]; replace (off + i + Z.of_nat 0) with (off + i) by lia; exact H|].
  cbn [lfrom]. cbv zeta. assert (A : agree (off + (i + 1)) (value (f i h)) (value (f i h'))).
  { unfold f. rewrite !value_bind. unfold lwr. cbn [value snd]. rewrite Z.add_assoc. now apply agree_put. }
  destruct (IH off (i + 1) _ _ ltac:(lia) A) as (T & E). fold f in T, E. split.
  - unfold trace at 1 4; cbn [fst]. apply f_equal. apply f_equal2; [reflexivity|exact T].
  - unfold value at 1 3; cbn [snd]. replace (off + i + Z.of_nat (S n)) with (off + (i + 1) + Z.of_nat n) by lia. exact E.
Qed.
Lemma agree_squeeze_loop fuel : forall h off n s pos r h', 0 <= off -> 0 <= n -> 0 < r -> n <= Z.of_nat fuel * r -> agree off h h' ->
  let x := inc_squeeze_loop_l Zops fuel h off n s pos r in let x' := inc_squeeze_loop_l Zops fuel h' off n s pos r in
  trace x = trace x' /\ snd (value x) = snd (value x') /\ agree (off + n) (fst (value x)) (fst (value x')).
Proof.
  induction fuel as [|fuel IH]; intros h off n s pos r h' Ho Hn Hr Hf A; cbn [inc_squeeze_loop_l]; destruct (Z.gtb_spec n 0) as [H|H].
  - lia.
  - replace (off + n) with off by lia. cbn [lret trace value fst snd]. auto.
  - cbv zeta. rewrite !trace_bind, !value_bind. set (st := value (perm_l Zops s)).
    destruct (agree_writes (Z.to_nat (Z.min n r)) (fun i => get_byte_l Zops st i) off 0 h h' ltac:(lia) ltac:(now rewrite Z.add_0_r)) as (T & A').
    cbv zeta in T, A'. fold (lfor (Z.min n r) (fun i h => b <~ get_byte_l Zops st i ;;; lwr h (off + i) b) h) in T, A'. fold (lfor (Z.min n r) (fun i h => b <~ get_byte_l Zops st i ;;; lwr h (off + i) b) h') in T, A'.
    rewrite T. replace (off + 0 + Z.of_nat (Z.to_nat (Z.min n r))) with (off + Z.min n r) in A' by lia.
    destruct (IH _ (off + Z.min n r) (n - Z.min n r) st (r - Z.min n r) r _ ltac:(lia) ltac:(lia) Hr ltac:(lia) A') as (T2 & E & A2). cbv zeta in T2, E, A2.
    replace (off + Z.min n r + (n - Z.min n r)) with (off + n) in A2 by lia. rewrite T2. auto.
  - replace (off + n) with off by lia. cbn [lret trace value fst snd]. auto.
Qed.
Lemma agree_squeeze h off n st r h' : 0 <= off -> 0 <= n -> 0 < r -> agree off h h' ->
  let x := inc_squeeze_l Zops h off n st r in let x' := inc_squeeze_l Zops h' off n st r in
  trace x = trace x' /\ snd (value x) = snd (value x') /\ agree (off + n) (fst (value x)) (fst (value x')).
Proof.
  intros Ho Hn Hr A. unfold inc_squeeze_l. destruct st as [s pos]. cbv zeta. rewrite !trace_bind, !value_bind. set (m := Z.max 0 (Z.min n pos)).
  destruct (agree_writes (Z.to_nat m) (fun i => get_byte_l Zops s (r - pos + i)) off 0 h h' ltac:(lia) ltac:(now rewrite Z.add_0_r)) as (T & A').
  cbv zeta in T, A'. fold (lfor m (fun i h => b <~ get_byte_l Zops s (r - pos + i) ;;; lwr h (off + i) b) h) in T, A'. fold (lfor m (fun i h => b <~ get_byte_l Zops s (r - pos + i) ;;; lwr h (off + i) b) h') in T, A'.
  rewrite T. replace (off + 0 + Z.of_nat (Z.to_nat m)) with (off + m) in A' by lia.
  destruct (agree_squeeze_loop (Z.to_nat (n / r + 2)) _ (off + m) (n - m) s (pos - m) r _ ltac:(lia) ltac:(lia) Hr ltac:(pose proof (Z.div_mod n r); pose proof (Z.mod_pos_bound n r); pose proof (Z.div_pos n r); rewrite Z2Nat.id by lia; nia) A') as (T2 & E & A2).
  cbv zeta in T2, E, A2. replace (off + m + (n - m)) with (off + n) in A2 by lia. rewrite T2. auto.
Qed.
