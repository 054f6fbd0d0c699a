(** The squeezing half of the sponge: the C-level functions of Sponge.v compute
    the pure functions of SpongePure.v. *)
From Verif Require Import Base Keccak KeccakProofs Sponge SpongePure SpongeProofs.
Ltac Zify.zify_post_hook ::= Z.div_mod_to_equations.
Local Opaque KeccakF1600_StatePermute.

(** [h] with the bytes [l] written at offset [off] *)
Definition splice (h : list Z) (off : Z) (l : list Z) : list Z :=
  slice h 0 off ++ l ++ slice h (off + zlen l) (zlen h - off - zlen l).

Lemma zlen_splice h off l : 0 <= off -> off + zlen l <= zlen h -> zlen (splice h off l) = zlen h.
Proof.
  intros H1 H2. pose proof (zlen_nonneg l). unfold splice. rewrite !zlen_app, !zlen_slice by lia. lia.
Qed.
Lemma splice_nil h off : 0 <= off <= zlen h -> splice h off [] = h.
Proof.
  intros H. unfold splice. rewrite (@zlen_nil Z). cbn [app]. rewrite Z.add_0_r, Z.sub_0_r.
  symmetry. apply slice_whole_split. lia.
Qed.
Lemma splice_splice h off a b : 0 <= off -> off + zlen a + zlen b <= zlen h ->
  splice (splice h off a) (off + zlen a) b = splice h off (a ++ b).
Proof.
  intros H1 H2. pose proof (zlen_nonneg a). pose proof (zlen_nonneg b).
  assert (E: splice h off a = (slice h 0 off ++ a) ++ slice h (off + zlen a) (zlen h - off - zlen a))
    by (unfold splice; now rewrite app_assoc).
  assert (L: zlen (slice h 0 off ++ a) = off + zlen a) by (rewrite zlen_app, zlen_slice; lia).
  unfold splice at 1. rewrite zlen_splice by lia. rewrite E.
  rewrite (slice_app_l (slice h 0 off ++ a)) by lia. rewrite (slice_all (slice h 0 off ++ a)) by lia.
  rewrite (slice_app_r (slice h 0 off ++ a)) by lia. rewrite L.
  rewrite slice_slice by lia. unfold splice. rewrite !zlen_app. rewrite <- !app_assoc.
  do 3 f_equal. f_equal; lia.
Qed.
Lemma wr_splice h off b : 0 <= off < zlen h -> wr h off b = Ret (splice h off [b]).
Proof.
  intros H. rewrite wr_ok by lia. f_equal. unfold splice.
  change (zlen [b]) with 1.
  rewrite (slice_whole_split h off) at 1 by lia.
  rewrite (slice_cons h off (zlen h - off)) by lia.
  replace (Z.to_nat off) with (length (slice h 0 off)) at 2.
  2:{ rewrite length_zlen, zlen_slice by lia. reflexivity. }
  rewrite upd_app_r. reflexivity.
Qed.
Lemma copy_splice h off src soff n : 0 <= off -> 0 <= n -> off + n <= zlen h -> 0 <= soff -> soff + n <= zlen src ->
  copy h off src soff n = Ret (splice h off (slice src soff n)).
Proof.
  intros. rewrite copy_ok by lia. unfold splice. rewrite zlen_slice by lia. reflexivity.
Qed.
Lemma slice_splice h off l : 0 <= off -> off + zlen l <= zlen h -> slice (splice h off l) off (zlen l) = l.
Proof.
  intros H1 H2. pose proof (zlen_nonneg l). unfold splice.
  rewrite slice_app_r by (rewrite ?zlen_slice; lia). rewrite zlen_slice by lia.
  rewrite Z.sub_0_r || idtac. replace (off - off) with 0 by lia.
  rewrite slice_app_l by lia. now apply slice_all.
Qed.

(** a loop that writes [f i] at [off + i] *)
Lemma fill_loop f g off n : forall h, 0 <= off -> off + n <= zlen h -> 0 <= n ->
  (forall i, 0 <= i < n -> f i = Ret (g i)) ->
  for_loop n (fun i h => b <- f i ;; wr h (off + i) b) h = Ret (splice h off (map g (zseq 0 (Z.to_nat n)))).
Proof.
  intros h Ho Hn H0 Hf.
  assert (G: forall k i h, 0 <= i -> i + Z.of_nat k <= n -> off + n <= zlen h ->
    for_from k i (fun i h => b <- f i ;; wr h (off + i) b) h = Ret (splice h (off + i) (map g (zseq i k)))).
  { induction k as [|k IH]; intros i t Hi Hk Ht; cbn [for_from zseq map].
    - rewrite splice_nil by lia. reflexivity.
    - rewrite Hf by lia. cbn [bind]. rewrite wr_splice by lia. cbn [bind].
      rewrite IH by (rewrite ?zlen_splice; change (zlen [g i]) with 1; lia). f_equal.
      replace (off + (i + 1)) with (off + i + zlen [g i]) by (change (zlen [g i]) with 1; lia).
      rewrite splice_splice; [reflexivity|lia|].
      rewrite zlen_map, zlen_zseq. change (zlen [g i]) with 1. lia. }
  unfold for_loop. rewrite G by lia. now rewrite Z.add_0_r.
Qed.

Lemma store64_ok h off u : 0 <= off -> off + 8 <= zlen h ->
  store64 h off u = Ret (splice h off (map (fun i => u8 (Z.shiftr u (8 * i))) (zseq 0 8))).
Proof.
  intros. unfold store64.
  pose proof (fill_loop (fun i => Ret (u8 (Z.shiftr u (8 * i)))) (fun i => u8 (Z.shiftr u (8 * i))) off 8 h) as HF.
  cbn [bind] in HF. rewrite HF; try lia; reflexivity || (intros; reflexivity).
Qed.

(** the bytes of the first [k] lanes *)
Lemma lane_bytes s i : 0 <= i ->
  map (fun j => u8 (Z.shiftr (nth (Z.to_nat i) s 0) (8 * j))) (zseq 0 8) = map (byte_at s) (zseq (8 * i) 8).
Proof.
  intros Hi. rewrite (map_zseq_shift (byte_at s)). apply map_ext_in. intros j Hj. apply in_zseq in Hj.
  unfold byte_at. rewrite shiftr3, land7. replace ((8 * i + j) / 8) with i by lia.
  replace ((8 * i + j) mod 8) with j by lia. reflexivity.
Qed.
Lemma store_block_ok s r h off : zlen s = 25 -> r mod 8 = 0 -> 0 < r <= 200 -> 0 <= off -> off + r <= zlen h ->
  for_loop (Z.shiftr r 3) (fun i h => v <- rd 0 s i ;; store64 h (off + 8 * i) v) h
  = Ret (splice h off (map (byte_at s) (zseq 0 (Z.to_nat r)))).
Proof.
  intros Hs H8 Hr Ho Hh. rewrite shiftr3.
  assert (G: forall k i h, 0 <= i -> 8 * (i + Z.of_nat k) = r -> off + r <= zlen h ->
    for_from k i (fun i h => v <- rd 0 s i ;; store64 h (off + 8 * i) v) h
    = Ret (splice h (off + 8 * i) (map (byte_at s) (zseq (8 * i) (8 * k))))).
  { induction k as [|k IH]; intros i t Hi Hk Ht.
    - cbn [for_from]. rewrite Nat.mul_0_r. cbn [zseq map]. rewrite splice_nil by lia. reflexivity.
    - cbn [for_from]. rewrite rd_ok by lia. cbn [bind]. rewrite store64_ok by lia. cbn [bind].
      rewrite lane_bytes by lia.
      assert (L: zlen (map (byte_at s) (zseq (8 * i) 8)) = 8) by (rewrite zlen_map, zlen_zseq; reflexivity).
      rewrite IH; [|lia|lia|rewrite zlen_splice; lia]. f_equal.
      replace (8 * S k)%nat with (8 + 8 * k)%nat by lia. rewrite zseq_app, map_app.
      rewrite <- splice_splice; rewrite ?L; [|lia|rewrite zlen_map, zlen_zseq; lia].
      f_equal; [lia|]. do 2 f_equal. lia. }
  unfold for_loop. rewrite G by lia. do 2 f_equal; [lia|]. f_equal. f_equal. lia.
Qed.

Lemma zlen_iter n : forall s, zlen s = 25 -> zlen (Nat.iter n F s) = 25.
Proof. induction n as [|n IH]; intros s Hs; [exact Hs|]. cbn [Nat.iter nat_rect]. apply F_length. now apply IH. Qed.
Lemma iter_S {A} (f : A -> A) n x : Nat.iter (S n) f x = f (Nat.iter n f x).
Proof. reflexivity. Qed.
Lemma iter_shift {A} (f : A -> A) n : forall x, Nat.iter n f (f x) = f (Nat.iter n f x).
Proof. induction n as [|n IH]; intros x; [reflexivity|]. cbn [Nat.iter nat_rect]. f_equal. apply IH. Qed.

Lemma zlen_squeeze_blocks r k : 0 <= r -> forall s, zlen (squeeze_blocks r k s) = Z.of_nat k * r.
Proof.
  intros Hr. induction k as [|k IH]; intros s; cbn [squeeze_blocks]; [reflexivity|].
  rewrite zlen_app, zlen_map, zlen_zseq, IH. lia.
Qed.

Lemma keccak_squeezeblocks_ok r : r mod 8 = 0 -> 0 < r <= 200 -> forall k h off s,
  zlen s = 25 -> 0 <= off -> off + Z.of_nat k * r <= zlen h ->
  keccak_squeezeblocks h off k s r = Ret (splice h off (squeeze_blocks r k s), Nat.iter k F s).
Proof.
  intros H8 Hr. induction k as [|k IH]; intros h off s Hs Ho Hh; cbn [keccak_squeezeblocks squeeze_blocks].
  - rewrite splice_nil by lia. reflexivity.
  - assert (Hs': zlen (F s) = 25) by now apply F_length.
    rewrite store_block_ok by (assumption || lia). cbn [bind].
    assert (L: zlen (map (byte_at (F s)) (zseq 0 (Z.to_nat r))) = r) by (rewrite zlen_map, zlen_zseq; lia).
    rewrite IH; [|exact Hs'|lia|rewrite zlen_splice; lia]. f_equal. f_equal.
    + rewrite <- splice_splice; rewrite ?L; [reflexivity|lia|rewrite zlen_squeeze_blocks; lia].
    + apply iter_shift.
Qed.

(** *** the output stream *)
Lemma stream_F r s k : 0 < r -> 0 <= k -> stream r (F s) k = stream r s (k + r).
Proof.
  intros Hr Hk. unfold stream. replace (k + r) with (k + 1 * r) by lia. rewrite Z.div_add, Z.mod_add by lia.
  assert (0 <= k / r) by (apply Z.div_pos; lia).
  replace (Z.to_nat (k / r + 1 + 1)) with (S (Z.to_nat (k / r + 1))) by lia.
  rewrite iter_shift. reflexivity.
Qed.
Lemma stream_first r s k : 0 < r -> 0 <= k < r -> stream r s k = byte_at (F s) k.
Proof.
  intros Hr Hk. unfold stream. rewrite Z.div_small, Z.mod_small by lia. reflexivity.
Qed.
Lemma squeeze_blocks_stream r k : 0 < r -> forall s,
  squeeze_blocks r k s = map (stream r s) (zseq 0 (k * Z.to_nat r)).
Proof.
  intros Hr. induction k as [|k IH]; intros s; cbn [squeeze_blocks]; [reflexivity|].
  cbn [Nat.mul]. rewrite zseq_app, map_app. f_equal.
  - apply map_ext_in. intros j Hj. apply in_zseq in Hj. symmetry. apply stream_first; lia.
  - rewrite IH. rewrite (map_zseq_shift (stream r s)). apply map_ext_in. intros j Hj. apply in_zseq in Hj.
    rewrite stream_F by lia. f_equal. lia.
Qed.
Lemma slice_zseq_map (f : Z -> Z) k n : 0 <= n <= Z.of_nat k -> slice (map f (zseq 0 k)) 0 n = map f (zseq 0 (Z.to_nat n)).
Proof.
  intros Hn. replace k with (Z.to_nat n + (k - Z.to_nat n))%nat by lia. rewrite zseq_app, map_app.
  rewrite slice_app_l by (rewrite ?zlen_map, ?zlen_zseq; lia). apply slice_all. rewrite zlen_map, zlen_zseq. lia.
Qed.
Lemma squeeze_stream r n s : 0 < r -> 0 <= n -> squeeze r n s = map (stream r s) (zseq 0 (Z.to_nat n)).
Proof.
  intros Hr Hn. unfold squeeze. rewrite squeeze_blocks_stream by lia. apply slice_zseq_map.
  assert (0 <= n / r) by (apply Z.div_pos; lia). rewrite Nat2Z.inj_mul, !Z2Nat.id by lia.
  pose proof (Z.mod_pos_bound n r Hr). pose proof (Z.div_mod n r ltac:(lia)). nia.
Qed.
Lemma zlen_squeeze r n s : 0 < r -> 0 <= n -> zlen (squeeze r n s) = n.
Proof. intros. rewrite squeeze_stream, zlen_map, zlen_zseq by lia. lia. Qed.
(** a shorter output is a prefix of a longer one *)
Lemma squeeze_prefix r n k s : 0 < r -> 0 <= n <= k -> squeeze r n s = slice (squeeze r k s) 0 n.
Proof. intros. rewrite !squeeze_stream by lia. rewrite slice_zseq_map by lia. reflexivity. Qed.
Lemma squeeze_more r n k s : 0 < r -> 0 <= n -> 0 <= k ->
  squeeze r (n + k) s = squeeze r n s ++ map (stream r s) (zseq n (Z.to_nat k)).
Proof.
  intros. rewrite !squeeze_stream by lia. rewrite Z2Nat.inj_add, zseq_app, map_app by lia.
  rewrite Z2Nat.id by lia. reflexivity.
Qed.

(** *** one-shot functions *)
Lemma zlen_pad_state r p c : zlen (pad_state r p c) = zlen (fst c).
Proof. unfold pad_state. now rewrite !zlen_xor_at. Qed.
Lemma zlen_absorb r m : 0 < r -> zlen (fst (absorb r m)) = 25.
Proof. intros. apply absorb_from_inv; cbn; lia || reflexivity. Qed.

Lemma shake_oneshot_ok r output outlen input inlen :
  r mod 8 = 0 -> 0 < r <= 200 -> 0 <= outlen <= zlen output -> 0 <= inlen <= zlen input -> bytes_ok input ->
  shake_oneshot r output outlen input inlen
  = Ret (splice output 0 (sponge_bytes r 0x1F (slice input 0 inlen) outlen)).
Proof.
  intros H8 Hr Ho Hi Hb. unfold shake_oneshot. rewrite keccak_absorb_ok by (assumption || lia). cbn [bind].
  set (s := pad_state _ _ _). assert (Hs: zlen s = 25) by (unfold s; rewrite zlen_pad_state; apply zlen_absorb; lia).
  assert (D0: 0 <= outlen / r) by (apply Z.div_pos; lia).
  pose proof (Z.mod_pos_bound outlen r ltac:(lia)) as HM. pose proof (Z.div_mod outlen r ltac:(lia)) as HD.
  set (q := outlen / r) in *. set (e := outlen mod r) in *.
  rewrite keccak_squeezeblocks_ok by (assumption || lia). cbn [bind].
  replace (outlen - q * r) with e by lia.
  assert (E: squeeze r outlen s = squeeze_blocks r (Z.to_nat q) s ++ slice (squeeze_blocks r 1 (Nat.iter (Z.to_nat q) F s)) 0 e).
  { replace outlen with (q * r + e) by lia. rewrite squeeze_more by lia. f_equal.
    - rewrite squeeze_stream, squeeze_blocks_stream by lia. do 2 f_equal. lia.
    - rewrite squeeze_blocks_stream by lia. rewrite slice_zseq_map by lia.
      rewrite (map_zseq_shift (stream r s)). apply map_ext_in. intros j Hj. apply in_zseq in Hj.
      unfold stream. replace (q * r + j) with (j + q * r) by lia. rewrite Z.div_add, Z.mod_add by lia.
      rewrite (Z.div_small j r) by lia. replace (Z.to_nat (0 + q + 1)) with (S (Z.to_nat q)) by lia. reflexivity. }
  unfold sponge_bytes. fold s. rewrite E.
  destruct (Z.eqb_spec e 0) as [E0|E0].
  - rewrite E0, slice_0, app_nil_r. reflexivity.
  - rewrite keccak_squeezeblocks_ok; [|exact H8|exact Hr|now apply zlen_iter|lia|rewrite zlen_zeros; lia]. cbn [bind].
    assert (L: zlen (squeeze_blocks r (Z.to_nat q) s) = q * r) by (rewrite zlen_squeeze_blocks; lia).
    assert (L1: zlen (squeeze_blocks r 1 (Nat.iter (Z.to_nat q) F s)) = r) by (rewrite zlen_squeeze_blocks; lia).
    rewrite copy_splice; [|lia|lia|rewrite zlen_splice; lia|lia|rewrite zlen_splice; rewrite ?zlen_zeros; lia].
    f_equal. rewrite <- splice_splice; [|lia|rewrite L, zlen_slice; lia].
    rewrite L, Z.add_0_l. f_equal.
    set (b := squeeze_blocks r 1 _) in *. unfold splice. rewrite zlen_zeros by lia. rewrite L1.
    rewrite slice_0. cbn [app]. rewrite (slice_neg (zeros r)) by lia. now rewrite app_nil_r.
Qed.

Lemma sha3_oneshot_ok r d output input inlen :
  r mod 8 = 0 -> 0 < r <= 200 -> 0 <= d <= r -> d <= zlen output -> 0 <= inlen <= zlen input -> bytes_ok input ->
  sha3_oneshot r d output input inlen
  = Ret (splice output 0 (sponge_bytes r 0x06 (slice input 0 inlen) d)).
Proof.
  intros H8 Hr Hd Ho Hi Hb. unfold sha3_oneshot. rewrite keccak_absorb_ok by (assumption || lia). cbn [bind].
  set (s := pad_state _ _ _). assert (Hs: zlen s = 25) by (unfold s; rewrite zlen_pad_state; apply zlen_absorb; lia).
  rewrite keccak_squeezeblocks_ok; [|exact H8|exact Hr|exact Hs|lia|rewrite zlen_zeros; lia]. cbn [bind].
  assert (L1: zlen (squeeze_blocks r 1 s) = r) by (rewrite zlen_squeeze_blocks; lia).
  rewrite copy_splice; [|lia|lia|lia|lia|rewrite zlen_splice; rewrite ?zlen_zeros; lia].
  f_equal. unfold sponge_bytes. fold s. f_equal.
  assert (E: splice (zeros r) 0 (squeeze_blocks r 1 s) = squeeze_blocks r 1 s).
  { unfold splice. rewrite zlen_zeros by lia. rewrite L1. rewrite slice_0. cbn [app].
    rewrite (slice_neg (zeros r)) by lia. now rewrite app_nil_r. }
  rewrite E. rewrite squeeze_stream, squeeze_blocks_stream by lia. apply slice_zseq_map. lia.
Qed.

Lemma sha3_inc_finalize_ok r d output c m :
  r mod 8 = 0 -> 0 < r <= 200 -> 0 <= d <= r -> d <= zlen output -> ctx_ok r c -> ctx_pair c = absorb r m ->
  sha3_inc_finalize r d output c = Ret (splice output 0 (sponge_bytes r 0x06 m d)).
Proof.
  intros H8 Hr Hd Ho Hc Hm. unfold sha3_inc_finalize. rewrite keccak_inc_finalize_ok by assumption. cbn [bind lanes].
  rewrite Hm.
  set (s := pad_state _ _ _). assert (Hs: zlen s = 25) by (unfold s; rewrite zlen_pad_state; apply zlen_absorb; lia).
  rewrite keccak_squeezeblocks_ok; [|exact H8|exact Hr|exact Hs|lia|rewrite zlen_zeros; lia]. cbn [bind].
  assert (L1: zlen (squeeze_blocks r 1 s) = r) by (rewrite zlen_squeeze_blocks; lia).
  rewrite copy_splice; [|lia|lia|lia|lia|rewrite zlen_splice; rewrite ?zlen_zeros; lia].
  f_equal. unfold sponge_bytes. fold s. f_equal.
  assert (E: splice (zeros r) 0 (squeeze_blocks r 1 s) = squeeze_blocks r 1 s).
  { unfold splice. rewrite zlen_zeros by lia. rewrite L1. rewrite slice_0. cbn [app].
    rewrite (slice_neg (zeros r)) by lia. now rewrite app_nil_r. }
  rewrite E. rewrite squeeze_stream, squeeze_blocks_stream by lia. apply slice_zseq_map. lia.
Qed.

(** *** incremental squeezing *)
(** the context after [t] bytes of output from the padded state [s] *)
Definition squeezing (r : Z) (s : list Z) (t : Z) (c : inc_ctx) : Prop :=
  exists q, 0 <= q /\ lanes c = Nat.iter (Z.to_nat q) F s /\ pos c = q * r - t /\ 0 <= pos c < r.

Lemma inc_squeeze_loop_ok r s : 0 < r <= 200 -> zlen s = 25 -> forall fuel h off outlen c t,
  squeezing r s t c -> 0 <= t -> (0 < outlen -> pos c = 0) -> 0 <= outlen -> 0 <= off -> off + outlen <= zlen h ->
  outlen <= Z.of_nat fuel * r ->
  exists c', inc_squeeze_loop fuel h off outlen c r
    = Ret (splice h off (map (stream r s) (zseq t (Z.to_nat outlen))), c') /\ squeezing r s (t + outlen) c'.
Proof.
  intros Hr Hs. induction fuel as [|fuel IH]; intros h off outlen c t Hc Ht Hp Hn Ho Hh Hf.
  - assert (outlen = 0) as -> by lia. exists c. cbn [inc_squeeze_loop Z.gtb Z.compare Z.to_nat zseq map].
    rewrite splice_nil, Z.add_0_r by lia. auto.
  - cbn [inc_squeeze_loop]. rewrite Z.gtb_ltb. destruct (Z.ltb_spec 0 outlen) as [H0|H0].
    + specialize (Hp H0). destruct Hc as (q & Hq & Hl & Hpos & _). rewrite Hp in Hpos.
      set (s1 := F (lanes c)).
      assert (Hs1: zlen s1 = 25) by (apply F_length; rewrite Hl; now apply zlen_iter).
      set (n := Z.min outlen r).
      rewrite (fill_loop (get_byte s1) (byte_at s1)); [|lia|lia|lia|intros i Hi; apply get_byte_ok; lia]. cbn [bind].
      assert (E: map (byte_at s1) (zseq 0 (Z.to_nat n)) = map (stream r s) (zseq t (Z.to_nat n))).
      { rewrite (map_zseq_shift (stream r s)). apply map_ext_in. intros j Hj. apply in_zseq in Hj.
        unfold stream. replace (t + j) with (j + q * r) by lia. rewrite Z.div_add, Z.mod_add by lia.
        rewrite Z.div_small, Z.mod_small by lia. replace (Z.to_nat (0 + q + 1)) with (S (Z.to_nat q)) by lia.
        rewrite iter_S, <- Hl. reflexivity. }
      rewrite E. assert (L: zlen (map (stream r s) (zseq t (Z.to_nat n))) = n) by (rewrite zlen_map, zlen_zseq; lia).
      destruct (IH (splice h off (map (stream r s) (zseq t (Z.to_nat n)))) (off + n) (outlen - n)
                  {| lanes := s1; pos := r - n |} (t + n)) as (c' & E' & Hc').
      * exists (q + 1). split; [lia|]. cbn [lanes pos]. split; [|lia].
        replace (Z.to_nat (q + 1)) with (S (Z.to_nat q)) by lia. rewrite iter_S. now rewrite <- Hl.
      * lia.
      * cbn [pos]. lia.
      * lia.
      * lia.
      * rewrite zlen_splice; lia.
      * nia.
      * exists c'. rewrite E'. split; [|replace (t + outlen) with (t + n + (outlen - n)) by lia; exact Hc'].
        do 2 f_equal. replace (off + n) with (off + zlen (map (stream r s) (zseq t (Z.to_nat n)))) by (now rewrite L).
        rewrite splice_splice; [|lia|rewrite !zlen_map, !zlen_zseq; lia].
        f_equal. replace (Z.to_nat outlen) with (Z.to_nat n + Z.to_nat (outlen - n))%nat by lia.
        rewrite zseq_app, map_app. do 3 f_equal. lia.
    + exists c. replace outlen with 0 by lia. cbn [Z.to_nat zseq map]. rewrite splice_nil, Z.add_0_r by lia. auto.
Qed.

Lemma keccak_inc_squeeze_ok r s h off outlen c t :
  0 < r <= 200 -> zlen s = 25 -> squeezing r s t c -> 0 <= t -> 0 <= outlen -> 0 <= off -> off + outlen <= zlen h ->
  exists c', keccak_inc_squeeze h off outlen c r
    = Ret (splice h off (map (stream r s) (zseq t (Z.to_nat outlen))), c') /\ squeezing r s (t + outlen) c'.
Proof.
  intros Hr Hs Hc Ht Hn Ho Hh. unfold keccak_inc_squeeze. destruct Hc as (q & Hq & Hl & Hpos & Hb).
  set (n := Z.max 0 (Z.min outlen (pos c))).
  assert (Hlc: zlen (lanes c) = 25) by (rewrite Hl; now apply zlen_iter).
  pose proof (fill_loop (fun i => get_byte (lanes c) (r - pos c + i)) (fun i => byte_at (lanes c) (r - pos c + i)) off n h) as HF.
  rewrite HF; [|lia|lia|lia|intros i Hi; apply get_byte_ok; lia]. clear HF. cbn [bind].
  assert (E: map (fun i => byte_at (lanes c) (r - pos c + i)) (zseq 0 (Z.to_nat n)) = map (stream r s) (zseq t (Z.to_nat n))).
  { rewrite (map_zseq_shift (stream r s)). apply map_ext_in. intros j Hj. apply in_zseq in Hj.
    unfold stream. assert (0 < q) by nia.
    replace (t + j) with ((r - pos c + j) + (q - 1) * r) by lia. rewrite Z.div_add, Z.mod_add by lia.
    rewrite Z.div_small, Z.mod_small by lia. replace (Z.to_nat (0 + (q - 1) + 1)) with (Z.to_nat q) by lia.
    now rewrite <- Hl. }
  rewrite E. assert (L: zlen (map (stream r s) (zseq t (Z.to_nat n))) = n) by (rewrite zlen_map, zlen_zseq; lia).
  assert (D: 0 <= outlen / r) by (apply Z.div_pos; lia).
  destruct (inc_squeeze_loop_ok r s Hr Hs (Z.to_nat (outlen / r + 2)) (splice h off (map (stream r s) (zseq t (Z.to_nat n))))
     (off + n) (outlen - n) {| lanes := lanes c; pos := pos c - n |} (t + n)) as (c' & E' & Hc'); cbn [lanes pos].
  - exists q. cbn [lanes pos]. repeat split; try assumption; lia.
  - lia.
  - lia.
  - lia.
  - lia.
  - rewrite zlen_splice; lia.
  - pose proof (Z.mod_pos_bound outlen r ltac:(lia)). pose proof (Z.div_mod outlen r ltac:(lia)).
    rewrite Z2Nat.id by lia. nia.
  - exists c'. rewrite E'. split; [|replace (t + outlen) with (t + n + (outlen - n)) by lia; exact Hc'].
    do 2 f_equal. replace (off + n) with (off + zlen (map (stream r s) (zseq t (Z.to_nat n)))) by (now rewrite L).
        rewrite splice_splice; [|lia|rewrite !zlen_map, !zlen_zseq; lia].
    f_equal. replace (Z.to_nat outlen) with (Z.to_nat n + Z.to_nat (outlen - n))%nat by lia.
    rewrite zseq_app, map_app. do 3 f_equal. lia.
Qed.

(** *** incremental = one-shot, for any chunking *)
Fixpoint inc_absorb_all (r : Z) (c : inc_ctx) (chunks : list (list Z)) : outcome inc_ctx :=
  match chunks with
  | [] => Ret c
  | m :: rest => c <- keccak_inc_absorb c r m (zlen m) ;; inc_absorb_all r c rest
  end.
(** squeeze pieces of the given sizes, each into a fresh buffer, and concatenate them *)
Fixpoint inc_squeeze_all (r : Z) (c : inc_ctx) (sizes : list Z) : outcome (list Z) :=
  match sizes with
  | [] => Ret []
  | n :: rest =>
      '(h, c) <- keccak_inc_squeeze (zeros n) 0 n c r ;;
      t <- inc_squeeze_all r c rest ;;
      Ret (h ++ t)
  end.

Lemma inc_absorb_all_ok r chunks : 0 < r <= 200 -> forall c, ctx_ok r c ->
  exists c', inc_absorb_all r c chunks = Ret c' /\ ctx_ok r c' /\ ctx_pair c' = absorb_from r (ctx_pair c) (concat chunks).
Proof.
  intros Hr. induction chunks as [|m rest IH]; intros c Hc; cbn [inc_absorb_all concat].
  - exists c. auto.
  - destruct (keccak_inc_absorb_ok r c m (zlen m) Hr Hc) as (c1 & -> & Hc1 & E1); [pose proof (zlen_nonneg m); lia|].
    cbn [bind]. destruct (IH c1 Hc1) as (c2 & -> & Hc2 & E2). exists c2. repeat split; try apply Hc2.
    rewrite E2, E1, absorb_from_app. rewrite slice_all by reflexivity. reflexivity.
Qed.
Lemma splice_whole n l : zlen l = n -> splice (zeros n) 0 l = l.
Proof.
  intros H. pose proof (zlen_nonneg l). unfold splice. rewrite slice_0. cbn [app].
  rewrite slice_neg by (rewrite zlen_zeros; lia). now rewrite app_nil_r.
Qed.
Definition sum (l : list Z) : Z := fold_right Z.add 0 l.
Lemma sum_nonneg l : Forall (fun n => 0 <= n) l -> 0 <= sum l.
Proof. induction 1; cbn [sum fold_right]; [lia|]. unfold sum in *. lia. Qed.
Lemma inc_squeeze_all_ok r s sizes : 0 < r <= 200 -> zlen s = 25 -> Forall (fun n => 0 <= n) sizes -> forall c t,
  squeezing r s t c -> 0 <= t ->
  inc_squeeze_all r c sizes = Ret (map (stream r s) (zseq t (Z.to_nat (sum sizes)))).
Proof.
  intros Hr Hs. induction 1 as [|n sizes Hn Hrest IH]; intros c t Hc Ht; cbn [inc_squeeze_all]; [reflexivity|].
  destruct (keccak_inc_squeeze_ok r s (zeros n) 0 n c t Hr Hs Hc Ht) as (c' & E & Hc'); try lia; [rewrite zlen_zeros; lia|].
  rewrite E. cbn [bind]. rewrite (IH c' (t + n)) by (assumption || lia). cbn [bind]. f_equal.
  rewrite splice_whole by (rewrite zlen_map, zlen_zseq; lia).
  rewrite <- map_app. f_equal. pose proof (sum_nonneg sizes Hrest). cbn [sum fold_right]. fold (sum sizes).
  rewrite Z2Nat.inj_add by lia. rewrite zseq_app. f_equal. f_equal. lia.
Qed.

Lemma ctx_ok_init r : 0 < r -> ctx_ok r keccak_inc_init.
Proof. intros. split; cbn; [reflexivity|lia]. Qed.
Lemma inc_any_chunking r p chunks sizes : 0 < r <= 200 -> Forall (fun n => 0 <= n) sizes ->
  (c <- inc_absorb_all r keccak_inc_init chunks ;;
   c <- keccak_inc_finalize c r p ;;
   inc_squeeze_all r c sizes)
  = Ret (sponge_bytes r p (concat chunks) (sum sizes)).
Proof.
  intros Hr Hsz. destruct (inc_absorb_all_ok r chunks Hr _ (ctx_ok_init r ltac:(lia))) as (c & -> & Hc & E).
  cbn [bind]. rewrite keccak_inc_finalize_ok by assumption. cbn [bind]. rewrite E. fold (absorb r (concat chunks)).
  change (ctx_pair keccak_inc_init) with (zeros 25, 0). fold (absorb r (concat chunks)).
  set (s := pad_state _ _ _).
  assert (Hs: zlen s = 25) by (unfold s; rewrite zlen_pad_state; apply zlen_absorb; lia).
  rewrite (inc_squeeze_all_ok r s sizes Hr Hs Hsz _ 0).
  - unfold sponge_bytes. fold s. rewrite squeeze_stream; [reflexivity|lia|now apply sum_nonneg].
  - exists 0. cbn. repeat split; lia.
  - lia.
Qed.
