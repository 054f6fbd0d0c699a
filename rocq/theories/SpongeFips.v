(** The byte-level sponge of SpongePure.v is the bit-level sponge of FIPS 202. *)
From Verif Require Import Base Keccak KeccakSpec KeccakProofs SpongePure SpongeProofs SpongeProofs2.
Ltac Zify.zify_post_hook ::= Z.div_mod_to_equations.
Local Opaque KeccakF1600_StatePermute keccak_f_bits.
Local Open Scope Z_scope.

Notation lb := bits_of_lanes.

Lemma length_flat_map_const {A B} (f : A -> list B) n l : (forall a, length (f a) = n) -> length (flat_map f l) = (n * length l)%nat.
Proof. intros Hf. induction l as [|a l IH]; cbn [flat_map length]; [lia|]. rewrite app_length, Hf, IH. lia. Qed.
Lemma length_bits_of_byte b : length (bits_of_byte b) = 8%nat.
Proof. reflexivity. Qed.
Lemma length_bits_of_bytes l : length (bits_of_bytes l) = (8 * length l)%nat.
Proof. apply length_flat_map_const. apply length_bits_of_byte. Qed.
Lemma length_lb s : length (lb s) = (64 * length s)%nat.
Proof. apply length_flat_map_const. apply length_bits_of_lane. Qed.
Lemma bits_of_bytes_app a b : bits_of_bytes (a ++ b) = bits_of_bytes a ++ bits_of_bytes b.
Proof. apply flat_map_app. Qed.

Lemma nth_lb s n : (n < 64 * length s)%nat -> nth n (lb s) false = Z.testbit (nth (n / 64) s 0) (Z.of_nat (n mod 64)).
Proof.
  intros H. rewrite (Nat.div_mod n 64) at 1 by lia. unfold bits_of_lanes.
  rewrite (nth_flat_map_const bits_of_lane 64 0%Z).
  - apply nth_bits_of_lane. apply Nat.mod_upper_bound. lia.
  - apply length_bits_of_lane.
  - apply Nat.mod_upper_bound. lia.
  - apply Nat.div_lt_upper_bound; lia.
Qed.
Lemma nth_bits_of_byte b i : (i < 8)%nat -> nth i (bits_of_byte b) false = Z.testbit b (Z.of_nat i).
Proof.
  intros H. unfold bits_of_byte. rewrite (nth_indep _ false (Z.testbit b (Z.of_nat 0))) by (rewrite map_length, seq_length; lia).
  rewrite (map_nth (fun i => Z.testbit b (Z.of_nat i))). rewrite seq_nth by lia. reflexivity.
Qed.
Lemma nth_xor_bits a : forall b n, (n < length a)%nat -> nth n (xor_bits a b) false = xorb (nth n a false) (nth n b false).
Proof.
  induction a as [|x a IH]; intros b n H; [cbn in H; lia|]. destruct b as [|y b]; cbn [xor_bits].
  - destruct n; cbn [nth]; now rewrite xorb_false_r.
  - destruct n; cbn [nth]; [reflexivity|]. apply IH. cbn in H. lia.
Qed.
Lemma length_xor_bits a : forall b, length (xor_bits a b) = length a.
Proof. induction a as [|x a IH]; intros [|y b]; cbn [xor_bits length]; auto. Qed.

Lemma byte_bit_high b n : byte_ok b -> 8 <= n -> Z.testbit b n = false.
Proof. intros Hb Hn. apply (small_bits b 8); unfold byte_ok in Hb; lia. Qed.

(** one byte xored in *)
Lemma nth_lb_xor_at s j b n : zlen s = 25 -> 0 <= j < 200 -> byte_ok b -> (n < 1600)%nat ->
  nth n (lb (xor_at s j b)) false = xorb (nth n (lb s) false) (Z.testbit b (Z.of_nat n - 8 * j)).
Proof.
  intros Hs Hj Hb Hn. assert (Ls: length s = 25%nat) by (unfold zlen in Hs; lia).
  rewrite !nth_lb by (unfold xor_at; rewrite ?upd_length; lia).
  unfold xor_at. rewrite shiftr3, land7, nth_upd.
  assert (Hdm: (n = 64 * (n / 64) + n mod 64)%nat) by (apply Nat.div_mod; lia).
  assert (Hm: (n mod 64 < 64)%nat) by (apply Nat.mod_upper_bound; lia).
  destruct (Nat.eqb_spec (Z.to_nat (j / 8)) (n / 64)) as [E|E].
  - replace (Nat.ltb (Z.to_nat (j / 8)) (length s)) with true by (symmetry; apply Nat.ltb_lt; lia). cbn [andb].
    rewrite E, Z.lxor_spec. f_equal. rewrite Z.shiftl_spec by lia. f_equal.
    remember (n / 64)%nat as q. remember (n mod 64)%nat as e. lia.
  - cbn [andb]. rewrite <- (xorb_false_r (Z.testbit (nth (n / 64) s 0) (Z.of_nat (n mod 64)))) at 1. f_equal.
    symmetry. remember (n / 64)%nat as q. remember (n mod 64)%nat as e.
    destruct (Z.ltb_spec (Z.of_nat n - 8 * j) 0); [apply Z.testbit_neg_r; lia|].
    apply byte_bit_high; [exact Hb|]. lia.
Qed.

Lemma nth_lb_xor_bytes l : bytes_ok l -> forall s p n, zlen s = 25 -> 0 <= p -> p + zlen l <= 200 -> (n < 1600)%nat ->
  nth n (lb (xor_bytes s p l)) false
  = xorb (nth n (lb s) false) (if 8 * p <=? Z.of_nat n then nth (n - Z.to_nat (8 * p)) (bits_of_bytes l) false else false).
Proof.
  induction 1 as [|b l Hb Hl IH]; intros s p n Hs Hp Hle Hn; cbn [xor_bytes].
  - cbn [bits_of_bytes flat_map]. destruct (8 * p <=? Z.of_nat n); destruct (n - Z.to_nat (8 * p))%nat; now rewrite xorb_false_r.
  - rewrite zlen_cons in Hle. pose proof (zlen_nonneg l).
    rewrite IH by (rewrite ?zlen_xor_at; lia). rewrite nth_lb_xor_at by (assumption || lia).
    rewrite xorb_assoc. f_equal.
    cbn [bits_of_bytes flat_map]. fold (bits_of_bytes l).
    destruct (Z.leb_spec (8 * (p + 1)) (Z.of_nat n)) as [H1|H1].
    + replace (8 * p <=? Z.of_nat n) with true by lia.
      rewrite byte_bit_high by (assumption || lia). rewrite xorb_false_l.
      rewrite app_nth2 by (rewrite length_bits_of_byte; lia). rewrite length_bits_of_byte. f_equal. lia.
    + rewrite xorb_false_r. destruct (Z.leb_spec (8 * p) (Z.of_nat n)) as [H2|H2].
      * rewrite app_nth1 by (rewrite length_bits_of_byte; lia). rewrite nth_bits_of_byte by lia. f_equal. lia.
      * apply Z.testbit_neg_r. lia.
Qed.
Lemma length_xor_bytes l s p : length (xor_bytes s p l) = length s.
Proof. pose proof (zlen_xor_bytes l s p) as H. unfold zlen in H. lia. Qed.
Lemma lb_xor_bytes s l : zlen s = 25 -> bytes_ok l -> zlen l <= 200 ->
  lb (xor_bytes s 0 l) = xor_bits (lb s) (bits_of_bytes l).
Proof.
  intros Hs Hl Hn. assert (Ls: length s = 25%nat) by (unfold zlen in Hs; lia).
  apply nth_ext with (d := false) (d' := false).
  - rewrite length_xor_bits, !length_lb, length_xor_bytes. reflexivity.
  - intros n H. rewrite length_lb, length_xor_bytes in H.
    rewrite nth_lb_xor_bytes by (assumption || lia).
    rewrite nth_xor_bits by (rewrite length_lb; lia). f_equal.
    replace (8 * 0 <=? Z.of_nat n) with true by lia. f_equal. lia.
Qed.

(** the state stays within 64-bit words *)
Lemma lanes_ok_zlen s : lanes_ok s -> zlen s = 25.
Proof. intros [H _]. unfold zlen. lia. Qed.
Lemma lanes_ok_xor_at s j b : lanes_ok s -> 0 <= j -> byte_ok b -> lanes_ok (xor_at s j b).
Proof.
  intros [Hl Hw] Hj Hb. split; unfold xor_at.
  - rewrite upd_length. exact Hl.
  - rewrite shiftr3, land7. set (i := Z.to_nat (j / 8)).
    assert (G: forall (t : list Z) k v, Forall word64 t -> word64 v -> Forall word64 (upd t k v)).
    { clear. intros t. induction t as [|x t IH]; intros [|k] v Ht Hv; cbn [upd]; inversion Ht; subst; constructor; auto. }
    apply G; [exact Hw|]. apply word64_lxor.
    + destruct (Nat.ltb_spec i (length s)) as [H|H].
      * rewrite Forall_forall in Hw. apply Hw. now apply nth_In.
      * rewrite nth_overflow by lia. unfold word64. lia.
    + unfold word64. rewrite Z.shiftl_mul_pow2 by lia. unfold byte_ok in Hb.
      assert (0 <= j mod 8 < 8) as Hm by (apply Z.mod_pos_bound; lia).
      assert (2 ^ (8 * (j mod 8)) <= 2 ^ 56) by (apply Z.pow_le_mono_r; lia).
      assert (0 < 2 ^ (8 * (j mod 8))) by (apply Z.pow_pos_nonneg; lia).
      change (2 ^ 64) with (256 * 2 ^ 56). nia.
Qed.
Lemma lanes_ok_xor_bytes l : bytes_ok l -> forall s p, lanes_ok s -> 0 <= p -> lanes_ok (xor_bytes s p l).
Proof. induction 1; intros s p Hs Hp; cbn [xor_bytes]; [exact Hs|]. apply IHForall; [now apply lanes_ok_xor_at|lia]. Qed.
Lemma lanes_ok_F s : lanes_ok s -> lanes_ok (F s).
Proof. intros H. apply keccakf_correct. exact H. Qed.
Lemma lb_F s : lanes_ok s -> keccak_f_bits (lb s) = lb (F s).
Proof. intros H. apply keccakf_correct. exact H. Qed.
Lemma lanes_ok_zeros : lanes_ok (zeros 25).
Proof. split; [reflexivity|]. apply Forall_forall. intros x Hx. apply repeat_spec in Hx. subst. unfold word64. lia. Qed.
Lemma lb_zeros : lb (zeros 25) = repeat false 1600.
Proof. vm_compute. reflexivity. Qed.
Lemma lanes_ok_absorb_byte r c b : lanes_ok (fst c) -> 0 <= snd c -> byte_ok b ->
  lanes_ok (fst (absorb_byte r c b)) /\ 0 <= snd (absorb_byte r c b).
Proof.
  destruct c as [s p]. cbn [fst snd absorb_byte]. intros. destruct (p + 1 =? r); cbn [fst snd]; split; try lia.
  - apply lanes_ok_F. now apply lanes_ok_xor_at.
  - now apply lanes_ok_xor_at.
Qed.
Lemma lanes_ok_absorb_from r m : bytes_ok m -> forall c, lanes_ok (fst c) -> 0 <= snd c ->
  lanes_ok (fst (absorb_from r c m)) /\ 0 <= snd (absorb_from r c m).
Proof.
  unfold absorb_from. induction 1; intros c H1 H2; cbn [fold_left]; [auto|].
  destruct (lanes_ok_absorb_byte r c x H1 H2 H). now apply IHForall.
Qed.

(** *** absorbing and padding *)
(** the padding bytes appended to a message of [n] bytes modulo [r] *)
Definition pad_bytes (r p n : Z) : list Z :=
  if n =? r - 1 then [Z.lor p 128] else p :: zeros (r - n - 2) ++ [128].
Lemma zlen_pad_bytes r p n : 0 <= n < r -> zlen (pad_bytes r p n) = r - n.
Proof.
  intros H. unfold pad_bytes. destruct (Z.eqb_spec n (r - 1)); [change (zlen [Z.lor p 128]) with 1; lia|].
  rewrite zlen_cons, zlen_app, zlen_zeros by lia. change (zlen [128]) with 1. lia.
Qed.
Lemma lor128 p : 0 <= p < 128 -> Z.lor p 128 = p + 128.
Proof.
  intros H. change 128 with (Z.shiftl 1 7) at 1. rewrite <- Z.lxor_lor by (apply land_disjoint; [lia|change (2 ^ 7) with 128; lia]).
  rewrite <- Z.add_nocarry_lxor by (apply land_disjoint; [lia|change (2 ^ 7) with 128; lia]). reflexivity.
Qed.
Lemma bytes_ok_pad_bytes r p n : 0 <= p < 128 -> bytes_ok (pad_bytes r p n).
Proof.
  intros Hp. unfold pad_bytes. destruct (n =? r - 1).
  - constructor; [|constructor]. rewrite lor128 by lia. unfold byte_ok. lia.
  - constructor; [unfold byte_ok; lia|]. apply bytes_ok_app. split; [apply bytes_ok_zeros|].
    constructor; [|constructor]. unfold byte_ok. lia.
Qed.
Lemma pad_state_bytes r p rest s : 0 < r <= 200 -> zlen rest < r -> 0 <= p < 128 ->
  pad_state r p (absorb_from r (s, 0) rest) = xor_bytes s 0 (rest ++ pad_bytes r p (zlen rest)).
Proof.
  intros Hr Hn Hp. rewrite absorb_from_lt by lia. unfold pad_state. cbn [fst snd].
  rewrite xor_bytes_app. unfold pad_bytes. rewrite !Z.add_0_l. destruct (Z.eqb_spec (zlen rest) (r - 1)) as [E|E].
  - cbn [xor_bytes]. rewrite E. rewrite xor_at_comb. f_equal.
    change 128 with (Z.shiftl 1 7). apply Z.lxor_lor. apply land_disjoint; [lia|]. change (2^7) with 128. lia.
  - cbn [xor_bytes]. rewrite xor_bytes_app. unfold zeros at 1. rewrite xor_bytes_zeros. cbn [xor_bytes].
    f_equal. pose proof (zlen_nonneg rest). rewrite zlen_zeros by lia. lia.
Qed.

Lemma skipn_bits n l : skipn (8 * n) (bits_of_bytes l) = bits_of_bytes (skipn n l).
Proof.
  revert l; induction n as [|n IH]; intros l; [reflexivity|].
  destruct l as [|b l]; [now rewrite !skipn_nil|]. replace (8 * S n)%nat with (8 + 8 * n)%nat by lia.
  change (bits_of_bytes (b :: l)) with (bits_of_byte b ++ bits_of_bytes l).
  rewrite <- skipn_skipn'. rewrite (skipn_app 8), (skipn_all2 (n:=8) (bits_of_byte b)) by (rewrite length_bits_of_byte; lia).
  rewrite length_bits_of_byte. cbn [Nat.sub app skipn]. rewrite <- IH. reflexivity.
Qed.
Lemma firstn_bits n l : firstn (8 * n) (bits_of_bytes l) = bits_of_bytes (firstn n l).
Proof.
  revert l; induction n as [|n IH]; intros l; [reflexivity|].
  destruct l as [|b l]; [now rewrite !firstn_nil|].
  change (bits_of_bytes (b :: l)) with (bits_of_byte b ++ bits_of_bytes l).
  rewrite firstn_app, firstn_all2 by (rewrite length_bits_of_byte; lia).
  rewrite length_bits_of_byte. replace (8 * S n - 8)%nat with (8 * n)%nat by lia. rewrite IH. reflexivity.
Qed.

Lemma absorb_bits_nil f r fuel S : absorb_bits f r fuel [] S = S.
Proof. destruct fuel; reflexivity. Qed.
Lemma absorb_bits_step f r fuel P S : P <> [] ->
  absorb_bits f r (Datatypes.S fuel) P S = absorb_bits f r fuel (skipn r P) (f (xor_bits S (firstn r P))).
Proof. intros H. destruct P; [contradiction|reflexivity]. Qed.
Lemma bits_nonempty l : 0 < zlen l -> bits_of_bytes l <> [].
Proof.
  intros H E. apply (f_equal (@length bool)) in E. rewrite length_bits_of_bytes in E. cbn in E. unfold zlen in H. lia.
Qed.

Lemma absorb_pad r p : 0 < r <= 200 -> 0 <= p < 128 -> forall fuel m s,
  bytes_ok m -> lanes_ok s -> zlen m < Z.of_nat fuel ->
  absorb_bits keccak_f_bits (8 * Z.to_nat r) fuel (bits_of_bytes (m ++ pad_bytes r p (zlen m mod r))) (lb s)
  = lb (F (pad_state r p (absorb_from r (s, 0) m))).
Proof.
  intros Hr Hp. induction fuel as [|fuel IH]; intros m s Hm Hs Hf.
  - pose proof (zlen_nonneg m). lia.
  - pose proof (zlen_nonneg m) as H0.
    pose proof (Z.mod_pos_bound (zlen m) r ltac:(lia)) as HM.
    assert (NE: bits_of_bytes (m ++ pad_bytes r p (zlen m mod r)) <> []).
    { apply bits_nonempty. rewrite zlen_app, zlen_pad_bytes by lia. lia. }
    rewrite absorb_bits_step by exact NE. rewrite skipn_bits, firstn_bits.
    destruct (Z.ltb_spec (zlen m) r) as [Hlt|Hge].
    + rewrite Z.mod_small by lia. set (b := m ++ pad_bytes r p (zlen m)).
      assert (Lb: zlen b = r) by (unfold b; rewrite zlen_app, zlen_pad_bytes; lia).
      assert (Bb: bytes_ok b) by (apply bytes_ok_app; split; [exact Hm|now apply bytes_ok_pad_bytes]).
      rewrite skipn_all2, firstn_all2 by (unfold zlen in Lb; lia).
      cbn [bits_of_bytes flat_map]. rewrite absorb_bits_nil.
      rewrite pad_state_bytes by lia. fold b.
      rewrite <- lb_xor_bytes by (try apply lanes_ok_zlen; try assumption; lia).
      apply lb_F. apply lanes_ok_xor_bytes; [assumption|assumption|lia].
    + assert (E: m = slice m 0 r ++ slice m r (zlen m - r)) by (apply slice_whole_split; lia).
      set (m1 := slice m 0 r) in *. set (m2 := slice m r (zlen m - r)) in *.
      assert (L1: zlen m1 = r) by (unfold m1; rewrite zlen_slice; lia).
      assert (L2: zlen m2 = zlen m - r) by (unfold m2; rewrite zlen_slice; lia).
      assert (B1: bytes_ok m1) by now apply bytes_ok_slice.
      assert (B2: bytes_ok m2) by now apply bytes_ok_slice.
      assert (Em: zlen m mod r = zlen m2 mod r).
      { rewrite L2. replace (zlen m) with (zlen m - r + 1 * r) at 1 by lia. apply Z.mod_add. lia. }
      rewrite Em. rewrite E at 1 2. rewrite <- app_assoc.
      rewrite skipn_app, (skipn_all2 m1), firstn_app, (firstn_all2 m1) by (unfold zlen in L1; lia).
      replace (Z.to_nat r - length m1)%nat with O by (unfold zlen in L1; lia). cbn [firstn skipn app].
      rewrite app_nil_r. rewrite <- lb_xor_bytes by (try apply lanes_ok_zlen; try assumption; lia).
      rewrite lb_F by (apply lanes_ok_xor_bytes; assumption || lia).
      rewrite IH; [|exact B2|apply lanes_ok_F; apply lanes_ok_xor_bytes; assumption || lia|lia].
      do 3 f_equal. rewrite E at 1. rewrite absorb_from_app. rewrite (absorb_from_eq r m1 s 0) by lia. reflexivity.
Qed.

(** *** squeezing *)
Lemma nth_lb_byte s j i : zlen s = 25 -> 0 <= j < 200 -> (i < 8)%nat ->
  nth (8 * Z.to_nat j + i) (lb s) false = nth i (bits_of_byte (byte_at s j)) false.
Proof.
  intros Hs Hj Hi. rewrite nth_lb by (unfold zlen in Hs; lia). rewrite nth_bits_of_byte by lia.
  unfold byte_at, u8. rewrite Z.mod_pow2_bits_low by lia. rewrite Z.shiftr_spec by lia. rewrite shiftr3, land7.
  set (n := (8 * Z.to_nat j + i)%nat).
  assert (Hdm: (n = 64 * (n / 64) + n mod 64)%nat) by (apply Nat.div_mod; lia).
  assert (Hm: (n mod 64 < 64)%nat) by (apply Nat.mod_upper_bound; lia).
  remember (n / 64)%nat as q. remember (n mod 64)%nat as e. unfold n in Hdm.
  f_equal; [f_equal; lia|lia].
Qed.
Lemma firstn_lb s k : zlen s = 25 -> (k <= 200)%nat ->
  firstn (8 * k) (lb s) = bits_of_bytes (map (byte_at s) (zseq 0 k)).
Proof.
  intros Hs Hk. assert (Ls: length s = 25%nat) by (unfold zlen in Hs; lia).
  apply nth_ext with (d := false) (d' := false).
  - rewrite firstn_length, length_lb, length_bits_of_bytes, map_length, zseq_length. lia.
  - intros n Hn. rewrite firstn_length, length_lb in Hn.
    assert (Hdm: (n = 8 * (n / 8) + n mod 8)%nat) by (apply Nat.div_mod; lia).
    assert (Hm: (n mod 8 < 8)%nat) by (apply Nat.mod_upper_bound; lia).
    remember (n / 8)%nat as q. remember (n mod 8)%nat as e. clear Heqq Heqe.
    rewrite <- (firstn_skipn (8 * k) (lb s)) in *.
    assert (E: nth n (firstn (8 * k) (lb s)) false = nth n (lb s) false).
    { rewrite <- (firstn_skipn (8 * k) (lb s)) at 2. rewrite app_nth1; [reflexivity|]. rewrite firstn_length, length_lb. lia. }
    rewrite firstn_skipn in *. rewrite E. subst n.
    unfold bits_of_bytes. rewrite (nth_flat_map_const bits_of_byte 8 0%Z) by (try apply length_bits_of_byte; rewrite ?map_length, ?zseq_length; lia).
    rewrite (nth_indep _ 0 (byte_at s 0)) by (rewrite map_length, zseq_length; lia).
    rewrite map_nth, nth_zseq by lia. rewrite <- nth_lb_byte by lia. f_equal. lia.
Qed.
Lemma squeeze_bits_ok r : 0 < r <= 200 -> forall k s, lanes_ok s ->
  squeeze_bits keccak_f_bits (8 * Z.to_nat r) k (lb (F s)) = bits_of_bytes (squeeze_blocks r k s).
Proof.
  intros Hr. induction k as [|k IH]; intros s Hs; cbn [squeeze_bits squeeze_blocks]; [reflexivity|].
  rewrite bits_of_bytes_app. f_equal.
  - apply firstn_lb; [|lia]. apply lanes_ok_zlen. now apply lanes_ok_F.
  - rewrite lb_F by now apply lanes_ok_F. apply IH. now apply lanes_ok_F.
Qed.

(** *** the padding, bit by bit *)
Lemma bits_of_zeros n : bits_of_bytes (zeros n) = repeat false (8 * Z.to_nat n).
Proof.
  unfold zeros. induction (Z.to_nat n) as [|k IH]; [reflexivity|]. cbn [repeat].
  change (bits_of_bytes (0 :: repeat 0 k)) with (bits_of_byte 0 ++ bits_of_bytes (repeat 0 k)). rewrite IH.
  replace (8 * S k)%nat with (8 + 8 * k)%nat by lia. rewrite repeat_app. reflexivity.
Qed.
(** [D] are the domain-separation bits encoded in the byte [p] *)
Definition domain_of (p : Z) (D : list bool) : Prop :=
  0 <= p < 128 /\ (length D <= 5)%nat /\
  bits_of_byte p = D ++ [true] ++ repeat false (6 - length D) ++ [false] /\
  bits_of_byte (Z.lor p 128) = D ++ [true] ++ repeat false (6 - length D) ++ [true].
Lemma domain_shake : domain_of 0x1F [true; true; true; true].
Proof. unfold domain_of. repeat split; try lia; cbn [length]; lia. Qed.
Lemma domain_sha3 : domain_of 0x06 [false; true].
Proof. unfold domain_of. repeat split; try lia; cbn [length]; lia. Qed.

Lemma pad_bits r p D n : 0 < r -> domain_of p D -> 0 <= n ->
  bits_of_bytes (pad_bytes r p (n mod r)) = D ++ pad10star1 (8 * Z.to_nat r) (8 * Z.to_nat n + length D).
Proof.
  intros Hr (Hp & HD & Hb & Hb') Hn.
  pose proof (Z.mod_pos_bound n r Hr) as HM. pose proof (Z.div_mod n r ltac:(lia)) as HDM.
  assert (HQ: 0 <= n / r) by (apply Z.div_pos; lia).
  set (e := n mod r) in *. set (q := n / r) in *.
  assert (J: ((8 * Z.to_nat r - (8 * Z.to_nat n + length D + 2) mod (8 * Z.to_nat r)) mod (8 * Z.to_nat r)
             = 8 * Z.to_nat (r - e - 1) + (6 - length D))%nat).
  { replace (8 * Z.to_nat n + length D + 2)%nat with ((8 * Z.to_nat e + length D + 2) + Z.to_nat q * (8 * Z.to_nat r))%nat.
    2:{ rewrite HDM. rewrite Z2Nat.inj_add, Z2Nat.inj_mul by nia. lia. }
    rewrite Nat.mod_add by lia. rewrite (Nat.mod_small (8 * Z.to_nat e + length D + 2)) by lia.
    rewrite Nat.mod_small by lia. lia. }
  unfold pad10star1. rewrite J. clear J. unfold pad_bytes. destruct (Z.eqb_spec e (r - 1)) as [E|E].
  - cbn [bits_of_bytes flat_map]. rewrite Hb', app_nil_r. do 3 f_equal. f_equal. lia.
  - change (bits_of_bytes (p :: zeros (r - e - 2) ++ [128])) with (bits_of_byte p ++ bits_of_bytes (zeros (r - e - 2) ++ [128])).
    rewrite Hb, bits_of_bytes_app, bits_of_zeros. rewrite <- !app_assoc. do 2 f_equal.
    replace (8 * Z.to_nat (r - e - 1) + (6 - length D))%nat
      with ((6 - length D) + (1 + (8 * Z.to_nat (r - e - 2) + 7)))%nat by lia.
    rewrite (repeat_app false (6 - length D)), (repeat_app false 1), (repeat_app false (8 * Z.to_nat (r - e - 2))).
    rewrite <- !app_assoc. reflexivity.
Qed.

(** *** the sponge *)
Theorem sponge_bytes_correct r p D m n : 0 < r <= 200 -> domain_of p D -> bytes_ok m -> 0 <= n ->
  bits_of_bytes (sponge_bytes r p m n)
  = sponge keccak_f_bits (8 * Z.to_nat r) (bits_of_bytes m ++ D) (8 * Z.to_nat n).
Proof.
  intros Hr HD Hm Hn. unfold sponge. cbv zeta.
  assert (EP: (bits_of_bytes m ++ D) ++ pad10star1 (8 * Z.to_nat r) (length (bits_of_bytes m ++ D))
              = bits_of_bytes (m ++ pad_bytes r p (zlen m mod r))).
  { rewrite bits_of_bytes_app, (pad_bits r p D (zlen m)) by (try assumption; try apply zlen_nonneg; lia).
    rewrite <- app_assoc. do 3 f_equal. rewrite app_length, length_bits_of_bytes. unfold zlen. lia. }
  rewrite EP. rewrite <- lb_zeros.
  rewrite absorb_pad; [|exact Hr|apply HD|exact Hm|apply lanes_ok_zeros|].
  2:{ rewrite length_bits_of_bytes, app_length. pose proof (zlen_pad_bytes r p (zlen m mod r) ltac:(apply Z.mod_pos_bound; lia)).
      pose proof (Z.mod_pos_bound (zlen m) r ltac:(lia)). unfold zlen in *. lia. }
  fold (absorb r m).
  assert (Hs: lanes_ok (pad_state r p (absorb r m))).
  { destruct (lanes_ok_absorb_from r m Hm (zeros 25, 0)) as [A B]; [apply lanes_ok_zeros|cbn; lia|].
    unfold pad_state. destruct HD as (Hp & _). apply lanes_ok_xor_at; [apply lanes_ok_xor_at| |]; try assumption; unfold byte_ok; lia. }
  rewrite squeeze_bits_ok by assumption. rewrite firstn_bits. f_equal.
  unfold sponge_bytes, squeeze, slice. cbn [Z.to_nat skipn]. f_equal. f_equal.
  rewrite Nat.div_mul_cancel_l by lia. rewrite Z2Nat.inj_add, Z2Nat.inj_div by (try apply Z.div_pos; lia). reflexivity.
Qed.
