(** The C-level sponge functions of Sponge.v compute the pure functions of
    SpongePure.v, without undefined behaviour. *)
From Verif Require Import Base Keccak KeccakProofs Sponge SpongePure.
Ltac Zify.zify_post_hook ::= Z.div_mod_to_equations.

(** *** loops *)
Lemma for_from_pure {S} (I : S -> Prop) (f : Z -> S -> outcome S) (g : Z -> S -> S) n : forall i s,
  I s -> (forall j s, i <= j < i + Z.of_nat n -> I s -> f j s = Ret (g j s) /\ I (g j s)) ->
  for_from n i f s = Ret (fold_left (fun s j => g j s) (zseq i n) s) /\
  I (fold_left (fun s j => g j s) (zseq i n) s).
Proof.
  induction n as [|n IH]; intros i s HI H; cbn [for_from zseq fold_left]; [auto|].
  destruct (H i s ltac:(lia) HI) as [-> HI']. cbn [bind]. apply IH; [exact HI'|].
  intros j s' Hj. apply H. lia.
Qed.
Lemma for_loop_pure {S} (I : S -> Prop) (f : Z -> S -> outcome S) (g : Z -> S -> S) n s :
  I s -> (forall j s, 0 <= j < n -> I s -> f j s = Ret (g j s) /\ I (g j s)) ->
  for_loop n f s = Ret (fold_left (fun s j => g j s) (zseq 0 (Z.to_nat n)) s) /\
  I (fold_left (fun s j => g j s) (zseq 0 (Z.to_nat n)) s).
Proof. intros HI H. apply for_from_pure; [exact HI|]. intros j s' Hj. apply H. lia. Qed.

Lemma zseq_length i n : length (zseq i n) = n.
Proof. revert i; induction n; intros; cbn; auto. Qed.
Lemma zlen_zseq i n : zlen (zseq i n) = Z.of_nat n.
Proof. unfold zlen. now rewrite zseq_length. Qed.
Lemma nth_zseq i n k d : (k < n)%nat -> nth k (zseq i n) d = i + Z.of_nat k.
Proof.
  revert i k; induction n as [|n IH]; intros i k Hk; [lia|]. cbn [zseq]. destruct k; cbn [nth]; [lia|].
  rewrite IH by lia. lia.
Qed.
Lemma zseq_app i a b : zseq i (a + b) = zseq i a ++ zseq (i + Z.of_nat a) b.
Proof.
  revert i; induction a as [|a IH]; intros i; cbn [zseq Nat.add app].
  - f_equal. lia.
  - rewrite IH. do 2 f_equal. f_equal. lia.
Qed.
Lemma in_zseq i n x : In x (zseq i n) <-> i <= x < i + Z.of_nat n.
Proof.
  revert i; induction n as [|n IH]; intros i; cbn [zseq In]; [lia|]. rewrite IH. lia.
Qed.
Lemma map_zseq_shift {B} (f : Z -> B) i n : map f (zseq i n) = map (fun k => f (i + k)) (zseq 0 n).
Proof.
  assert (H: forall j, map f (zseq (i + j) n) = map (fun k => f (i + k)) (zseq j n)).
  { induction n as [|n IH]; intros j; cbn [zseq map]; [reflexivity|]. f_equal.
    replace (i + j + 1) with (i + (j + 1)) by lia. apply IH. }
  specialize (H 0). now rewrite Z.add_0_r in H.
Qed.
Lemma map_nth_zseq (l : list Z) d : map (fun k => nth (Z.to_nat k) l d) (zseq 0 (length l)) = l.
Proof.
  apply nth_ext with (d := d) (d' := d); [now rewrite map_length, zseq_length|].
  intros n Hn. rewrite map_length, zseq_length in Hn.
  rewrite (nth_indep _ d (nth (Z.to_nat 0) l d)) by (rewrite map_length, zseq_length; exact Hn).
  rewrite (map_nth (fun k => nth (Z.to_nat k) l d)). rewrite nth_zseq by exact Hn. f_equal. lia.
Qed.
Lemma slice_as_map (l : list Z) off n : 0 <= off -> 0 <= n -> off + n <= zlen l ->
  slice l off n = map (fun k => nth (Z.to_nat (off + k)) l 0) (zseq 0 (Z.to_nat n)).
Proof.
  intros H1 H2 H3. rewrite <- (map_nth_zseq (slice l off n) 0).
  rewrite (length_zlen (slice l off n)), zlen_slice by lia.
  apply map_ext_in. intros k Hk. apply in_zseq in Hk. rewrite nth_slice by lia. f_equal. lia.
Qed.

(** *** one byte *)
Lemma shiftr3 j : Z.shiftr j 3 = j / 8.
Proof. now rewrite Z.shiftr_div_pow2 by lia. Qed.
Lemma land7 j : Z.land j 7 = j mod 8.
Proof. change 7 with (Z.ones 3). now rewrite Z.land_ones by lia. Qed.

Lemma zlen_xor_at s j b : zlen (xor_at s j b) = zlen s.
Proof. unfold xor_at. apply zlen_upd. Qed.
Lemma xor_byte_ok s j b : zlen s = 25 -> 0 <= j < 200 -> xor_byte s j b = Ret (xor_at s j b).
Proof.
  intros Hs Hj. unfold xor_byte, xor_lane, xor_at. rewrite !shiftr3.
  rewrite rd_ok by lia. cbn [bind]. rewrite wr_ok by lia. reflexivity.
Qed.
Lemma get_byte_ok s j : zlen s = 25 -> 0 <= j < 200 -> get_byte s j = Ret (byte_at s j).
Proof.
  intros Hs Hj. unfold get_byte, byte_at. rewrite !shiftr3. rewrite rd_ok by lia. reflexivity.
Qed.
Lemma zlen_to_lanes A : zlen (to_lanes A) = 25.
Proof. reflexivity. Qed.
Lemma rounds_length : forall n cs s, (length cs <= n)%nat -> zlen s = 25 -> zlen (rounds cs s) = 25.
Proof.
  induction n as [|n IH]; intros cs s Hn Hs.
  - destruct cs; [exact Hs|cbn in Hn; lia].
  - destruct cs as [|c0 [|c1 cs]]; cbn [rounds]; try exact Hs. apply IH; [cbn in Hn; lia|].
    rewrite round_pair_lanes; [apply zlen_to_lanes|]. unfold zlen in Hs. lia.
Qed.
Lemma F_rounds s : F s = rounds KeccakF_RoundConstants s.
Proof. reflexivity. Qed.
Local Opaque KeccakF1600_StatePermute.
Lemma F_length s : zlen s = 25 -> zlen (F s) = 25.
Proof. intros Hs. rewrite F_rounds. apply (rounds_length 24); [apply Nat.le_refl|exact Hs]. Qed.

(** *** several bytes *)
Fixpoint xor_bytes (s : list Z) (p : Z) (l : list Z) : list Z :=
  match l with [] => s | b :: l' => xor_bytes (xor_at s p b) (p + 1) l' end.
Lemma zlen_xor_bytes l : forall s p, zlen (xor_bytes s p l) = zlen s.
Proof. induction l as [|b l IH]; intros; cbn [xor_bytes]; [reflexivity|]. now rewrite IH, zlen_xor_at. Qed.
Lemma xor_bytes_app a : forall s p b, xor_bytes s p (a ++ b) = xor_bytes (xor_bytes s p a) (p + zlen a) b.
Proof.
  induction a as [|x a IH]; intros s p b; cbn [app xor_bytes].
  - rewrite zlen_nil. f_equal. lia.
  - rewrite IH. rewrite zlen_cons. f_equal. lia.
Qed.
Lemma xor_loop_ok m off p n s : zlen s = 25 -> 0 <= off -> off + n <= zlen m -> 0 <= p -> p + n <= 200 ->
  for_loop n (fun i s => b <- rd 0 m (off + i) ;; xor_byte s (p + i) b) s = Ret (xor_bytes s p (slice m off n)).
Proof.
  intros Hs Ho Hm Hp Hn. destruct (Z.le_gt_cases n 0) as [H0|H0].
  { rewrite slice_neg by lia. unfold for_loop. replace (Z.to_nat n) with O by lia. reflexivity. }
  destruct (for_loop_pure (fun s => zlen s = 25)
    (fun i s => b <- rd 0 m (off + i) ;; xor_byte s (p + i) b)
    (fun i s => xor_at s (p + i) (nth (Z.to_nat (off + i)) m 0)) n s Hs) as [-> _].
  { intros j t Hj Ht. rewrite rd_ok by lia. cbn [bind]. rewrite xor_byte_ok by lia.
    split; [reflexivity|]. now rewrite zlen_xor_at. }
  f_equal. rewrite slice_as_map by lia. clear Hs Hn Hm.
  assert (H: forall k s i, fold_left (fun s j => xor_at s (p + j) (nth (Z.to_nat (off + j)) m 0)) (zseq i k) s
            = xor_bytes s (p + i) (map (fun k => nth (Z.to_nat (off + k)) m 0) (zseq i k))).
  { induction k as [|k IH]; intros t i; cbn [zseq fold_left map xor_bytes]; [reflexivity|].
    rewrite IH. f_equal. lia. }
  rewrite H. f_equal. lia.
Qed.

Lemma absorb_from_app r c a b : absorb_from r c (a ++ b) = absorb_from r (absorb_from r c a) b.
Proof. unfold absorb_from. apply fold_left_app. Qed.
Lemma absorb_from_lt r l : forall s p, p + zlen l < r ->
  absorb_from r (s, p) l = (xor_bytes s p l, p + zlen l).
Proof.
  unfold absorb_from. induction l as [|b l IH]; intros s p H; cbn [fold_left xor_bytes].
  - rewrite zlen_nil, Z.add_0_r. reflexivity.
  - rewrite zlen_cons in *. cbn [absorb_byte]. pose proof (zlen_nonneg l).
    replace (p + 1 =? r) with false by lia. rewrite IH by lia. f_equal. lia.
Qed.
Lemma absorb_from_eq r l s p : 0 < zlen l -> p + zlen l = r ->
  absorb_from r (s, p) l = (F (xor_bytes s p l), 0).
Proof.
  intros H0 H. destruct (exists_last (l := l)) as (a & b & ->); [intros ->; rewrite (@zlen_nil Z) in H0; lia|].
  rewrite zlen_app, zlen_cons, (@zlen_nil Z) in H.
  rewrite absorb_from_app, absorb_from_lt by lia. unfold absorb_from. cbn [fold_left absorb_byte].
  replace (p + zlen a + 1 =? r) with true by lia. rewrite xor_bytes_app. reflexivity.
Qed.
Lemma absorb_from_inv r l : forall c, zlen (fst c) = 25 -> 0 <= snd c < r ->
  zlen (fst (absorb_from r c l)) = 25 /\ 0 <= snd (absorb_from r c l) < r.
Proof.
  unfold absorb_from. induction l as [|b l IH]; intros [s p] Hs Hp; cbn [fold_left]; [auto|].
  cbn [fst snd] in *. apply IH; cbn [absorb_byte]; destruct (Z.eqb_spec (p + 1) r); cbn [fst snd]; try lia.
  - apply F_length. now rewrite zlen_xor_at.
  - now rewrite zlen_xor_at.
Qed.

(** *** keccak_inc_absorb *)
Definition ctx_pair (c : inc_ctx) : list Z * Z := (lanes c, pos c).
Definition ctx_ok (r : Z) (c : inc_ctx) : Prop := zlen (lanes c) = 25 /\ 0 <= pos c < r.

Lemma inc_absorb_loop_ok r m : 0 < r <= 200 -> forall fuel c off mlen,
  ctx_ok r c -> 0 <= off -> 0 <= mlen -> off + mlen <= zlen m -> (mlen + pos c) / r < Z.of_nat fuel ->
  exists c' off' mlen', inc_absorb_loop fuel c r m off mlen = Ret (c', off', mlen') /\
    ctx_ok r c' /\ 0 <= mlen' /\ mlen' + pos c' < r /\ 0 <= off' /\ off' + mlen' = off + mlen /\
    absorb_from r (ctx_pair c) (slice m off mlen) = absorb_from r (ctx_pair c') (slice m off' mlen').
Proof.
  intros Hr. induction fuel as [|fuel IH]; intros c off mlen [Hl Hp] Ho Hn Hm Hf.
  - pose proof (Z.div_pos (mlen + pos c) r ltac:(lia) ltac:(lia)). lia.
  - cbn [inc_absorb_loop]. destruct (Z.geb_spec (mlen + pos c) r) as [Hge|Hlt].
    + rewrite xor_loop_ok by lia. cbn [bind].
      set (c1 := {| lanes := F (xor_bytes (lanes c) (pos c) (slice m off (r - pos c))); pos := 0 |}).
      assert (Hc1: ctx_ok r c1).
      { split; cbn; [|lia]. apply F_length. now rewrite zlen_xor_bytes. }
      destruct (IH c1 (off + (r - pos c)) (mlen - (r - pos c)) Hc1) as (c' & off' & mlen' & E & HH); try lia.
      { cbn [pos c1]. replace (mlen - (r - pos c) + 0) with ((mlen + pos c) + (-1) * r) by lia.
        rewrite Z.div_add by lia. lia. }
      exists c', off', mlen'. split; [exact E|]. destruct HH as (A1 & A2 & A3 & A4 & A5 & A6).
      repeat split; try assumption; try apply A1; try lia.
      rewrite (slice_split m off mlen (r - pos c)) by lia. rewrite absorb_from_app.
      unfold ctx_pair at 1. rewrite absorb_from_eq.
      * fold (ctx_pair c1). exact A6.
      * rewrite zlen_slice; lia.
      * rewrite zlen_slice; lia.
    + exists c, off, mlen. repeat split; try assumption; try lia.
Qed.

Lemma keccak_inc_absorb_ok r c m mlen :
  0 < r <= 200 -> ctx_ok r c -> 0 <= mlen <= zlen m ->
  exists c', keccak_inc_absorb c r m mlen = Ret c' /\ ctx_ok r c' /\
             ctx_pair c' = absorb_from r (ctx_pair c) (slice m 0 mlen).
Proof.
  intros Hr Hc Hm. unfold keccak_inc_absorb.
  assert (H0: 0 <= (mlen + pos c) / r) by (apply Z.div_pos; [destruct Hc|]; lia).
  destruct (inc_absorb_loop_ok r m Hr (S (Z.to_nat ((mlen + pos c) / r))) c 0 mlen Hc)
    as (c' & off' & mlen' & E & [Hl Hp] & Hn' & Hlt & Ho' & Hsum & Habs); try lia.
  rewrite E. cbn [bind]. rewrite xor_loop_ok by lia. cbn [bind].
  eexists. split; [reflexivity|]. split.
  - split; cbn; [now rewrite zlen_xor_bytes|lia].
  - rewrite Habs. unfold ctx_pair at 2. rewrite absorb_from_lt by (rewrite zlen_slice; lia).
    rewrite zlen_slice by lia. reflexivity.
Qed.

Lemma keccak_inc_finalize_ok r p c : 0 < r <= 200 -> ctx_ok r c ->
  keccak_inc_finalize c r p = Ret {| lanes := pad_state r p (ctx_pair c); pos := 0 |}.
Proof.
  intros Hr [Hl Hp]. unfold keccak_inc_finalize. rewrite xor_byte_ok by lia. cbn [bind].
  rewrite xor_byte_ok by (rewrite ?zlen_xor_at; lia). reflexivity.
Qed.

(** *** keccak_absorb: eight bytes at a time *)
Lemma small_bits a k n : 0 <= k -> 0 <= a < 2 ^ k -> k <= n -> Z.testbit a n = false.
Proof. intros Hk Ha Hn. rewrite <- (Z.mod_small a (2 ^ k)) by lia. apply Z.mod_pow2_bits_high. lia. Qed.
Lemma land_disjoint a b k : 0 <= k -> 0 <= a < 2 ^ k -> Z.land a (Z.shiftl b k) = 0.
Proof.
  intros Hk Ha. apply Z.bits_inj'. intros n Hn. rewrite Z.land_spec, Z.bits_0, Z.shiftl_spec by lia.
  destruct (Z.ltb_spec n k).
  - rewrite (Z.testbit_neg_r b) by lia. apply andb_false_r.
  - rewrite (small_bits a k n) by lia. reflexivity.
Qed.
Lemma acc_step a b k : 0 <= k -> 0 <= a < 2 ^ k -> byte_ok b ->
  Z.lor a (Z.shiftl b k) = Z.lxor a (Z.shiftl b k) /\ 0 <= Z.lxor a (Z.shiftl b k) < 2 ^ (k + 8).
Proof.
  intros Hk Ha Hb. pose proof (land_disjoint a b k Hk Ha) as HL. split.
  - symmetry. now apply Z.lxor_lor.
  - rewrite <- Z.add_nocarry_lxor by exact HL. rewrite Z.shiftl_mul_pow2 by lia.
    rewrite Z.pow_add_r by lia. unfold byte_ok in Hb. nia.
Qed.

Lemma nth_upd_same {A} (l : list A) i v d : (i < length l)%nat -> nth i (upd l i v) d = v.
Proof.
  intros H. rewrite nth_upd. rewrite Nat.eqb_refl. cbn [andb].
  destruct (Nat.ltb_spec i (length l)); [reflexivity|lia].
Qed.
Lemma upd_upd_same {A} (l : list A) i v w : upd (upd l i v) i w = upd l i w.
Proof. revert i; induction l as [|x l IH]; intros [|i]; cbn; congruence. Qed.
Lemma upd_nth_id {A} (l : list A) i d : upd l i (nth i l d) = l.
Proof. revert i; induction l as [|x l IH]; intros [|i]; cbn; congruence. Qed.

Lemma xor_at_acc s i v k b : 0 <= i < zlen s -> 0 <= k < 8 ->
  xor_at (upd s (Z.to_nat i) (Z.lxor (nth (Z.to_nat i) s 0) v)) (8 * i + k) b
  = upd s (Z.to_nat i) (Z.lxor (nth (Z.to_nat i) s 0) (Z.lxor v (Z.shiftl b (8 * k)))).
Proof.
  intros Hi Hk. unfold xor_at. rewrite shiftr3, land7.
  replace ((8 * i + k) / 8) with i by lia. replace ((8 * i + k) mod 8) with k by lia.
  rewrite upd_upd_same, nth_upd_same by (unfold zlen in *; lia). now rewrite Z.lxor_assoc.
Qed.

Lemma slice8 (x : list Z) off : 0 <= off -> off + 8 <= zlen x -> exists b0 b1 b2 b3 b4 b5 b6 b7,
  slice x off 8 = [b0; b1; b2; b3; b4; b5; b6; b7] /\
  rd 0 x (off + 0) = Ret b0 /\ rd 0 x (off + (0 + 1)) = Ret b1 /\ rd 0 x (off + (0 + 1 + 1)) = Ret b2 /\
  rd 0 x (off + (0 + 1 + 1 + 1)) = Ret b3 /\ rd 0 x (off + (0 + 1 + 1 + 1 + 1)) = Ret b4 /\
  rd 0 x (off + (0 + 1 + 1 + 1 + 1 + 1)) = Ret b5 /\ rd 0 x (off + (0 + 1 + 1 + 1 + 1 + 1 + 1)) = Ret b6 /\
  rd 0 x (off + (0 + 1 + 1 + 1 + 1 + 1 + 1 + 1)) = Ret b7.
Proof.
  intros Ho Hx. rewrite slice_as_map by lia. change (Z.to_nat 8) with 8%nat. cbn [zseq map].
  do 8 eexists. split; [reflexivity|]. rewrite !rd_ok by lia. repeat split.
Qed.

(** the 64-bit word loaded from eight bytes *)
Definition lane8 (l : list Z) : Z :=
  fold_left (fun v kb => Z.lxor v (Z.shiftl (snd kb) (8 * fst kb))) (combine (zseq 0 8) l) 0.

Lemma load64_ok x off : 0 <= off -> off + 8 <= zlen x -> bytes_ok x ->
  load64 x off = Ret (lane8 (slice x off 8)).
Proof.
  intros Ho Hx Hb. assert (HB: bytes_ok (slice x off 8)) by now apply bytes_ok_slice.
  destruct (slice8 x off Ho Hx) as (b0&b1&b2&b3&b4&b5&b6&b7&E&R0&R1&R2&R3&R4&R5&R6&R7).
  rewrite E in *. unfold bytes_ok in HB.
  repeat match goal with H : Forall _ (_ :: _) |- _ => inversion H; clear H; subst end.
  unfold load64, for_loop. change (Z.to_nat 8) with 8%nat. cbn [for_from].
  rewrite R0. cbn [bind]. rewrite R1. cbn [bind]. rewrite R2. cbn [bind]. rewrite R3. cbn [bind].
  rewrite R4. cbn [bind]. rewrite R5. cbn [bind]. rewrite R6. cbn [bind]. rewrite R7. cbn [bind].
  unfold lane8. cbn [zseq combine fold_left fst snd]. f_equal.
  cbn [Z.add Z.mul Pos.add Pos.mul Pos.succ].
  destruct (acc_step 0 b0 0) as [-> B0]; [lia|cbn; lia|assumption|].
  destruct (acc_step _ b1 8 ltac:(lia) B0) as [-> B1]; [assumption|].
  destruct (acc_step _ b2 16 ltac:(lia) B1) as [-> B2]; [assumption|].
  destruct (acc_step _ b3 24 ltac:(lia) B2) as [-> B3]; [assumption|].
  destruct (acc_step _ b4 32 ltac:(lia) B3) as [-> B4]; [assumption|].
  destruct (acc_step _ b5 40 ltac:(lia) B4) as [-> B5]; [assumption|].
  destruct (acc_step _ b6 48 ltac:(lia) B5) as [-> B6]; [assumption|].
  destruct (acc_step _ b7 56 ltac:(lia) B6) as [-> B7]; [assumption|].
  reflexivity.
Qed.
Lemma xor8 s i l : 0 <= i < zlen s -> zlen l = 8 ->
  xor_bytes s (8 * i) l = upd s (Z.to_nat i) (Z.lxor (nth (Z.to_nat i) s 0) (lane8 l)).
Proof.
  intros Hi Hl. destruct l as [|b0 [|b1 [|b2 [|b3 [|b4 [|b5 [|b6 [|b7 [|? l]]]]]]]]]; try discriminate Hl.
  2:{ exfalso. rewrite !zlen_cons in Hl. pose proof (zlen_nonneg l). lia. }
  cbn [xor_bytes]. unfold lane8. cbn [zseq combine fold_left fst snd].
  rewrite <- (upd_nth_id s (Z.to_nat i) 0) at 1. rewrite <- (Z.lxor_0_r (nth (Z.to_nat i) s 0)) at 1.
  rewrite <- (Z.add_0_r (8 * i)) at 1. rewrite xor_at_acc by lia.
  rewrite xor_at_acc by lia.
  rewrite <- (Z.add_assoc (8 * i) 1 1). rewrite xor_at_acc by lia.
  rewrite <- (Z.add_assoc (8 * i) (1 + 1) 1). rewrite xor_at_acc by lia.
  rewrite <- (Z.add_assoc (8 * i) (1 + 1 + 1) 1). rewrite xor_at_acc by lia.
  rewrite <- (Z.add_assoc (8 * i) (1 + 1 + 1 + 1) 1). rewrite xor_at_acc by lia.
  rewrite <- (Z.add_assoc (8 * i) (1 + 1 + 1 + 1 + 1) 1). rewrite xor_at_acc by lia.
  rewrite <- (Z.add_assoc (8 * i) (1 + 1 + 1 + 1 + 1 + 1) 1). rewrite xor_at_acc by lia.
  reflexivity.
Qed.

Lemma xor_block_ok r s m off : r mod 8 = 0 -> 0 < r <= 200 -> zlen s = 25 -> 0 <= off -> off + r <= zlen m ->
  bytes_ok m ->
  for_loop (r / 8) (fun i s => v <- load64 m (off + 8 * i) ;; xor_lane s i v) s
  = Ret (xor_bytes s 0 (slice m off r)).
Proof.
  intros H8 Hr Hs Ho Hm Hb.
  assert (G: forall n i s, zlen s = 25 -> 0 <= i -> 8 * (i + Z.of_nat n) = r ->
    for_from n i (fun i s => v <- load64 m (off + 8 * i) ;; xor_lane s i v) s
    = Ret (xor_bytes s (8 * i) (slice m (off + 8 * i) (8 * Z.of_nat n)))).
  { induction n as [|n IH]; intros i t Ht Hi Hn.
    - rewrite slice_neg by lia. reflexivity.
    - cbn [for_from]. rewrite load64_ok by (assumption || lia). cbn [bind].
      unfold xor_lane. rewrite rd_ok by lia. cbn [bind]. rewrite wr_ok by lia. cbn [bind].
      rewrite IH; [|now rewrite zlen_upd|lia|lia].
      rewrite (slice_split m (off + 8 * i) (8 * Z.of_nat (S n)) 8) by lia.
      rewrite xor_bytes_app, (xor8 t i (slice m (off + 8 * i) 8)) by (rewrite ?zlen_slice; lia).
      rewrite zlen_slice by lia. do 2 f_equal; [lia|]. f_equal; lia. }
  unfold for_loop. specialize (G (Z.to_nat (r / 8)) 0 s Hs ltac:(lia) ltac:(lia)).
  rewrite G. do 2 f_equal. f_equal; lia.
Qed.

Lemma absorb_loop_ok r m : r mod 8 = 0 -> 0 < r <= 200 -> bytes_ok m -> forall fuel s off mlen,
  zlen s = 25 -> 0 <= off -> 0 <= mlen -> off + mlen <= zlen m -> mlen / r < Z.of_nat fuel ->
  exists s' off' mlen', absorb_loop fuel s r m off mlen = Ret (s', off', mlen') /\
    zlen s' = 25 /\ 0 <= mlen' < r /\ 0 <= off' /\ off' + mlen' = off + mlen /\
    absorb_from r (s, 0) (slice m off mlen) = absorb_from r (s', 0) (slice m off' mlen').
Proof.
  intros H8 Hr Hb. induction fuel as [|fuel IH]; intros s off mlen Hs Ho Hn Hm Hf.
  - pose proof (Z.div_pos mlen r ltac:(lia) ltac:(lia)). lia.
  - cbn [absorb_loop]. destruct (Z.geb_spec mlen r) as [Hge|Hlt].
    + rewrite xor_block_ok by (assumption || lia). cbn [bind].
      assert (Hs1: zlen (F (xor_bytes s 0 (slice m off r))) = 25) by (apply F_length; now rewrite zlen_xor_bytes).
      destruct (IH _ (off + r) (mlen - r) Hs1) as (s' & off' & mlen' & E & A1 & A2 & A3 & A4 & A5); try lia.
      { replace (mlen - r) with (mlen + (-1) * r) by lia. rewrite Z.div_add by lia. lia. }
      exists s', off', mlen'. repeat split; try assumption; try lia.
      rewrite (slice_split m off mlen r) by lia. rewrite absorb_from_app.
      rewrite absorb_from_eq by (rewrite zlen_slice; lia). exact A5.
    + exists s, off, mlen. repeat split; try assumption; try lia.
Qed.

Lemma xor_at_0 s j : xor_at s j 0 = s.
Proof. unfold xor_at. rewrite Z.shiftl_0_l, Z.lxor_0_r. apply upd_nth_id. Qed.
Lemma xor_bytes_zeros n : forall s p, xor_bytes s p (repeat 0 n) = s.
Proof. induction n as [|n IH]; intros; cbn [repeat xor_bytes]; [reflexivity|]. now rewrite xor_at_0, IH. Qed.
Lemma xor_at_comb s j a b : xor_at (xor_at s j a) j b = xor_at s j (Z.lxor a b).
Proof.
  unfold xor_at. destruct (Nat.ltb_spec (Z.to_nat (Z.shiftr j 3)) (length s)).
  - rewrite nth_upd_same, upd_upd_same by assumption. rewrite Z.lxor_assoc. do 2 f_equal.
    apply Z.bits_inj'. intros n Hn. rewrite Z.lxor_spec, !Z.shiftl_spec, Z.lxor_spec by lia. reflexivity.
  - assert (U: forall v, upd s (Z.to_nat (Z.shiftr j 3)) v = s).
    { clear - H. intros v. revert H. generalize (Z.to_nat (Z.shiftr j 3)). induction s as [|x s IH]; intros [|i] Hi; cbn in *; try reflexivity; try lia.
      f_equal. apply IH. lia. }
    now rewrite !U.
Qed.

(** the last block of keccak_absorb *)
Lemma last_block r p rest s : 0 < r <= 200 -> zlen rest < r -> 0 <= p < 128 ->
  let n := zlen rest in
  let t := rest ++ zeros (r - n) in
  let t := upd t (Z.to_nat n) p in
  let t := upd t (Z.to_nat (r - 1)) (Z.lor (nth (Z.to_nat (r - 1)) t 0) 128) in
  xor_bytes s 0 t = pad_state r p (xor_bytes s 0 rest, n).
Proof.
  intros Hr Hn Hp n t0 t1 t2. pose proof (zlen_nonneg rest) as H0. fold n in H0, Hn.
  assert (E0: t0 = rest ++ 0 :: zeros (r - n - 1)).
  { unfold t0, zeros. do 2 f_equal. replace (Z.to_nat (r - n)) with (S (Z.to_nat (r - n - 1))) by lia. reflexivity. }
  assert (E1: t1 = rest ++ p :: zeros (r - n - 1)).
  { unfold t1. rewrite E0. replace (Z.to_nat n) with (length rest) by (unfold n, zlen; lia). apply upd_app_r. }
  unfold pad_state. cbn [fst snd].
  destruct (Z.eq_dec n (r - 1)) as [En|En].
  - assert (E1': t1 = rest ++ [p]) by (rewrite E1; unfold zeros; replace (Z.to_nat (r - n - 1)) with O by lia; reflexivity).
    assert (E2: t2 = rest ++ [Z.lor p 128]).
    { unfold t2. rewrite E1'. replace (Z.to_nat (r - 1)) with (length rest) by (unfold n, zlen in *; lia).
      rewrite upd_app_r. rewrite app_nth2 by lia. rewrite Nat.sub_diag. reflexivity. }
    rewrite E2, xor_bytes_app. cbn [xor_bytes]. fold n. rewrite Z.add_0_l.
    rewrite <- En. rewrite xor_at_comb. f_equal.
    change 128 with (Z.shiftl 1 7). symmetry. apply Z.lxor_lor. apply land_disjoint; [lia|]. change (2^7) with 128. lia.
  - assert (E1': t1 = (rest ++ p :: zeros (r - n - 2)) ++ [0]).
    { rewrite E1, <- app_assoc. cbn [app]. do 2 f_equal. unfold zeros.
      replace (Z.to_nat (r - n - 1)) with (S (Z.to_nat (r - n - 2))) by lia. cbn [repeat]. apply repeat_cons. }
    assert (E2: t2 = (rest ++ p :: zeros (r - n - 2)) ++ [128]).
    { unfold t2. rewrite E1'.
      replace (Z.to_nat (r - 1)) with (length (rest ++ p :: zeros (r - n - 2))).
      2:{ rewrite app_length. cbn [length]. unfold zeros. rewrite repeat_length. unfold n, zlen in *. lia. }
      rewrite upd_app_r, app_nth2, Nat.sub_diag by lia. reflexivity. }
    rewrite E2, !xor_bytes_app. cbn [xor_bytes]. fold n. rewrite Z.add_0_l. unfold zeros at 1.
    rewrite xor_bytes_zeros. f_equal. rewrite zlen_app, zlen_cons, zlen_zeros by lia. fold n. lia.
Qed.

Lemma keccak_absorb_ok r m mlen p :
  r mod 8 = 0 -> 0 < r <= 200 -> 0 <= p < 128 -> 0 <= mlen <= zlen m -> bytes_ok m ->
  keccak_absorb r m mlen p = Ret (pad_state r p (absorb r (slice m 0 mlen))).
Proof.
  intros H8 Hr Hp Hm Hb. unfold keccak_absorb.
  assert (H0: 0 <= mlen / r) by (apply Z.div_pos; lia).
  destruct (absorb_loop_ok r m H8 Hr Hb (S (Z.to_nat (mlen / r))) (zeros 25) 0 mlen)
    as (s' & off' & mlen' & E & A1 & A2 & A3 & A4 & A5); try lia; [apply zlen_zeros; lia|].
  rewrite E. cbn [bind].
  assert (Hc: copy (zeros r) 0 m off' mlen' = Ret (slice m off' mlen' ++ zeros (r - mlen'))).
  { destruct (Z.eq_dec mlen' 0) as [->|Hz].
    - unfold copy. change (0 <=? 0) with true. cbv iota. rewrite Z.sub_0_r. reflexivity.
    - rewrite copy_ok by (rewrite ?zlen_zeros; lia). f_equal. cbn [app].
      rewrite slice_0. cbn [app]. f_equal. rewrite zlen_zeros by lia.
      unfold zeros. unfold slice.
      rewrite Z.add_0_l, Z.sub_0_r.
      replace (Z.to_nat r) with (Z.to_nat mlen' + Z.to_nat (r - mlen'))%nat by lia.
      rewrite repeat_app, skipn_app, skipn_all2, repeat_length by (rewrite repeat_length; lia).
      rewrite Nat.sub_diag. cbn [app skipn]. apply firstn_all2. rewrite repeat_length. lia. }
  rewrite Hc. cbn [bind].
  assert (Lr: zlen (slice m off' mlen') = mlen') by (rewrite zlen_slice; lia).
  set (rest := slice m off' mlen') in *.
  assert (Lt: zlen (rest ++ zeros (r - mlen')) = r) by (rewrite zlen_app, zlen_zeros; lia).
  rewrite wr_ok by lia. cbn [bind]. rewrite rd_ok by (rewrite zlen_upd; lia). cbn [bind].
  rewrite wr_ok by (rewrite zlen_upd; lia). cbn [bind].
  set (t := upd (upd _ _ _) _ _).
  assert (LT: zlen t = r) by (unfold t; rewrite !zlen_upd; lia).
  assert (BT: bytes_ok t).
  { unfold t. assert (B1: bytes_ok (upd (rest ++ zeros (r - mlen')) (Z.to_nat mlen') p)).
    { apply bytes_ok_upd; [|unfold byte_ok; lia]. apply bytes_ok_app. split; [now apply bytes_ok_slice|apply bytes_ok_zeros]. }
    apply bytes_ok_upd; [exact B1|]. pose proof (bytes_ok_nth _ (Z.to_nat (r - 1)) B1) as Hx.
    unfold byte_ok in *. set (x := nth _ _ _) in *.
    assert (Z.lor x 128 = Z.lor 128 x) as -> by apply Z.lor_comm.
    split; [apply Z.lor_nonneg; lia|].
    destruct (Z.eq_dec x 0) as [->|]; [rewrite Z.lor_0_r; lia|].
    apply Z.log2_lt_pow2 with (b := 8); [|rewrite Z.log2_lor by lia].
    - assert (0 <= Z.lor 128 x) by (apply Z.lor_nonneg; lia).
      destruct (Z.eq_dec (Z.lor 128 x) 0) as [Ez|]; [|lia]. apply Z.lor_eq_0_iff in Ez. lia.
    - apply Z.max_lub_lt; [reflexivity|]. apply Z.log2_lt_pow2; lia. }
  pose proof (xor_block_ok r s' t 0 H8 Hr A1 ltac:(lia) ltac:(lia) BT) as HB.
  rewrite (slice_all t r) in HB by lia.
  replace (for_loop (r / 8) (fun (i : Z) (s0 : list Z) => v <- load64 t (8 * i);; xor_lane s0 i v) s')
    with (for_loop (r / 8) (fun (i : Z) (s0 : list Z) => v <- load64 t (0 + 8 * i);; xor_lane s0 i v) s') by reflexivity.
  rewrite HB. f_equal.
  unfold absorb. rewrite A5. fold rest. rewrite absorb_from_lt by (rewrite Lr; lia).
  rewrite Z.add_0_l. subst t.
  pose proof (last_block r p rest s' Hr ltac:(lia) Hp) as HL. cbn zeta in HL. rewrite Lr in *. exact HL.
Qed.
