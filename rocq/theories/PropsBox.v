(** Property theorems about the symmetric part of tweetnacl/tweetnacl.c: C44 (secretbox), C45
    (Poly1305) and C56 (XSalsa20).  Specification: BoxSpec.v.  [word_size w] is [w = 32 \/ w = 64]:
    the width of the C type [unsigned long] used for [u32]; every theorem holds for both. *)
From Verif Require Import Base Wp EdSpec Tab BoxSpec TweetField TweetCurve TweetBox PolyProofs PolyProofs2 SalsaProofs StreamProofs.
Ltac Zify.zify_post_hook ::= idtac.
Lemma box_tag_bytes k n c : bytes_ok (box_tag k n c).
Proof. unfold box_tag, poly1305. apply le_bytes_ok. Qed.
Local Opaque xsalsa20_stream poly1305 box_cipher box_tag crypto_secretbox crypto_secretbox_open crypto_onetimeauth crypto_stream crypto_stream_xor.

(** ** C45: Poly1305 *)
Theorem C45_onetimeauth_is_poly1305 : forall w m k,
  word_size w -> bytes_ok m -> bytes_ok k -> zlen k = 32 ->
  crypto_onetimeauth w m 0 (zlen m) k = Ret (poly1305 k m).
Proof.
  intros w m k W Bm Bk Lk. pose proof (zlen_nonneg m). rewrite onetimeauth_ok by (assumption || lia). now rewrite (slice_all m) by reflexivity.
Qed.
Print Assumptions C45_onetimeauth_is_poly1305.
(** the accumulator of the specification is the polynomial in [r] whose coefficients are the
    message blocks *)
Theorem C45_poly1305_is_the_polynomial : forall r m,
  poly_acc r m = fold_right (fun '(i, b) s => (le_val (b ++ [1]) * r ^ Z.of_nat i + s) mod (2 ^ 130 - 5)) 0
    (combine (rev (seq 1 (length (blocks16 (length m) m)))) (blocks16 (length m) m)).
Proof.
  intros r m. unfold poly_acc. fold poly_p. generalize (blocks16 (length m) m) as bs. intros bs.
  assert (P: 0 < poly_p) by reflexivity. generalize dependent poly_p. intros p P.
  assert (G: forall bs a, 0 <= a < p -> fold_left (fun a b => ((a + le_val (b ++ [1])) * r) mod p) bs a =
    (a * r ^ Z.of_nat (length bs) + fold_right (fun '(i, b) s => (le_val (b ++ [1]) * r ^ Z.of_nat i + s) mod p) 0 (combine (rev (seq 1 (length bs))) bs)) mod p).
  { clear bs. induction bs as [|b bs IH]; intros a Ha; cbn [fold_left length].
    - cbn [seq rev combine fold_right]. rewrite Z.pow_0_r, Z.mul_1_r, Z.add_0_r. symmetry. now apply Z.mod_small.
    - rewrite IH by (apply Z.mod_pos_bound; lia). rewrite seq_S, rev_app_distr. cbn [rev app combine fold_right Nat.add].
      set (T := fold_right _ 0 (combine _ bs)). replace (Z.of_nat (S (length bs))) with (Z.of_nat (length bs) + 1) by lia. rewrite Z.pow_add_r, Z.pow_1_r by lia. set (R := r ^ Z.of_nat (length bs)).
      rewrite <- Z.add_mod_idemp_l, Z.mul_mod_idemp_l, Z.add_mod_idemp_l by lia. rewrite Z.add_mod_idemp_r by lia. f_equal. ring. }
  rewrite G by lia. rewrite Z.mul_0_l, Z.add_0_l. apply Z.mod_small. destruct (combine _ bs) as [|[i b] l]; cbn [fold_right]; [lia|apply Z.mod_pos_bound; lia].
Qed.
Print Assumptions C45_poly1305_is_the_polynomial.
Theorem C45_onetimeauth_verify_exact : forall w h m k,
  word_size w -> bytes_ok h -> bytes_ok m -> bytes_ok k -> zlen h = 16 -> zlen k = 32 ->
  exists rc, crypto_onetimeauth_verify w h 0 m 0 (zlen m) k = Ret rc /\ (rc = 0 \/ rc = -1) /\ (rc = 0 <-> h = poly1305 k m).
Proof.
  intros w h m k W Bh Bm Bk Lh Lk. pose proof (zlen_nonneg m). rewrite onetimeauth_verify_ok by (assumption || lia). rewrite (slice_all m) by reflexivity. rewrite (slice_all h) by lia.
  eexists. split; [reflexivity|]. destruct (list_eqb h (poly1305 k m)) eqn:E; (split; [lia|]).
  - apply list_eqb_eq in E. tauto.
  - split; [discriminate|]. intros ->. assert (X: list_eqb (poly1305 k m) (poly1305 k m) = true) by (apply list_eqb_eq; reflexivity). congruence.
Qed.
Print Assumptions C45_onetimeauth_verify_exact.
Example C45_nonvacuous : word_size 64 /\ bytes_ok [104; 105] /\ bytes_ok (zeros 32) /\ zlen (zeros 32) = 32 /\ zlen (zeros 16) = 16.
Proof. split; [right; reflexivity|]. split; [repeat (apply Forall_cons; [unfold byte_ok; lia|]); apply Forall_nil|]. repeat split; apply bytes_ok_zeros. Qed.

(** ** C56: XSalsa20 *)
Theorem C56_stream_is_xsalsa20 : forall w c n k,
  word_size w -> bytes_ok n -> bytes_ok k -> zlen n = 24 -> zlen k = 32 ->
  crypto_stream w c (zlen c) n k = Ret (xsalsa20_stream k n (length c)).
Proof. intros. now apply crypto_stream_ok. Qed.
Print Assumptions C56_stream_is_xsalsa20.
Theorem C56_stream_xor_is_xsalsa20 : forall w c m n k,
  word_size w -> bytes_ok m -> bytes_ok n -> bytes_ok k -> zlen c = zlen m -> zlen n = 24 -> zlen k = 32 ->
  crypto_stream_xor w c m (zlen m) n k = Ret (xor_bytes m (xsalsa20_stream k n (length m))).
Proof. intros. now apply stream_xor_ok. Qed.
Print Assumptions C56_stream_xor_is_xsalsa20.
Theorem C56_stream_xor_undoes_itself : forall w c c' m n k,
  word_size w -> bytes_ok m -> bytes_ok n -> bytes_ok k -> zlen c = zlen m -> zlen c' = zlen m -> zlen n = 24 -> zlen k = 32 ->
  exists ct, crypto_stream_xor w c m (zlen m) n k = Ret ct /\ zlen ct = zlen m /\ crypto_stream_xor w c' ct (zlen ct) n k = Ret m.
Proof.
  intros w c c' m n k W Bm Bn Bk Lc Lc' Ln Lk. rewrite stream_xor_ok by (assumption || reflexivity). eexists. split; [reflexivity|].
  pose proof (xsalsa_len k n (length m) Ln) as LS. set (s := xsalsa20_stream k n (length m)) in *.
  assert (LL: length (xor_bytes m s) = length m) by (unfold xor_bytes; rewrite map2_length; lia).
  assert (BS: bytes_ok (xor_bytes m s)).
  { assert (bytes_ok s).
    { apply xsalsa_ok. }
    unfold bytes_ok, xor_bytes. clearbody s. clear - Bm H. revert m Bm. induction s as [|y s IH]; intros [|x m] Bm; cbn [map2]; try apply Forall_nil. inversion Bm; inversion H; subst. apply Forall_cons; [apply lxor_byte; assumption|now apply IH]. }
  assert (Z1: zlen (xor_bytes m s) = zlen m) by (unfold zlen; lia). split; [exact Z1|].
  rewrite stream_xor_ok by (assumption || lia). rewrite LL. fold s. f_equal. assert (L: length s = length m) by lia. clearbody s. clear - L. revert m L. unfold xor_bytes.
  induction s as [|y s IH]; intros [|x m] L; cbn [map2 length] in *; try lia; try reflexivity. f_equal; [|apply IH; lia]. rewrite Z.lxor_assoc, Z.lxor_nilpotent. apply Z.lxor_0_r.
Qed.
Print Assumptions C56_stream_xor_undoes_itself.
(** a shorter request yields a prefix of a longer one *)
Theorem C56_stream_prefix : forall w a b n k,
  word_size w -> bytes_ok n -> bytes_ok k -> zlen n = 24 -> zlen k = 32 -> zlen a <= zlen b ->
  exists s, crypto_stream w b (zlen b) n k = Ret s /\ crypto_stream w a (zlen a) n k = Ret (firstn (length a) s).
Proof.
  intros w a b n k W Bn Bk Ln Lk L. rewrite !crypto_stream_ok by assumption. eexists. split; [reflexivity|]. rewrite xsalsa_prefix; [reflexivity|exact Ln|unfold zlen in L; lia].
Qed.
Print Assumptions C56_stream_prefix.
Example C56_nonvacuous : word_size 32 /\ bytes_ok (zeros 24) /\ bytes_ok (zeros 32) /\ zlen (zeros 24) = 24 /\ zlen (zeros 3) <= zlen (zeros 70).
Proof. split; [left; reflexivity|]. repeat split; try apply bytes_ok_zeros. rewrite !zlen_zeros; lia. Qed.

(** ** C44: secretbox *)
Lemma box_layout (t x : list Z) : zlen t = 16 -> let c := zeros 16 ++ t ++ x in
  zlen c = 32 + zlen x /\ slice c 0 16 = zeros 16 /\ slice c 16 16 = t /\ slice c 32 (zlen x) = x.
Proof.
  intros Lt. pose proof (zlen_zeros 16 ltac:(lia)) as Z16. pose proof (zlen_nonneg x) as H0. cbv zeta. split; [rewrite !zlen_app; lia|]. split; [rewrite slice_app_l by lia; apply slice_all; lia|]. split.
  - rewrite slice_app_r by lia. rewrite Z16. rewrite slice_app_l by lia. apply slice_all. lia.
  - rewrite slice_app_r by lia. rewrite Z16. rewrite slice_app_r by lia. rewrite Lt. apply slice_all. lia.
Qed.
Theorem C44_secretbox_is_the_specified_box : forall w c msg n k,
  word_size w -> bytes_ok msg -> bytes_ok n -> bytes_ok k -> zlen c = 32 + zlen msg -> zlen n = 24 -> zlen k = 32 ->
  crypto_secretbox w c (zeros 32 ++ msg) (32 + zlen msg) n k =
  Ret (0, zeros 16 ++ box_tag k n (box_cipher k n msg) ++ box_cipher k n msg).
Proof.
  intros w c msg n k W Bm Bn Bk Lc Ln Lk. pose proof (zlen_nonneg msg) as H0.
  pose proof (zlen_zeros 32 ltac:(lia)) as Z32. assert (Lz: zlen (zeros 32 ++ msg) = 32 + zlen msg) by (rewrite zlen_app; lia).
  assert (S0: slice (zeros 32 ++ msg) 0 32 = zeros 32) by (rewrite slice_app_l by lia; apply slice_all; lia).
  assert (S1: slice (zeros 32 ++ msg) 32 (32 + zlen msg - 32) = msg) by (rewrite slice_app_r by lia; rewrite Z32; apply slice_all; lia).
  rewrite secretbox_ok; try assumption; try lia; [rewrite S1; reflexivity|]. apply bytes_ok_app. split; [apply bytes_ok_zeros|exact Bm].
Qed.
Print Assumptions C44_secretbox_is_the_specified_box.
Theorem C44_secretbox_open_exact : forall w m c n k,
  word_size w -> bytes_ok c -> bytes_ok n -> bytes_ok k -> zlen m = zlen c -> zlen n = 24 -> zlen k = 32 ->
  exists rc m', crypto_secretbox_open w m c (zlen c) n k = Ret (rc, m') /\
    ((rc = 0 /\ 32 <= zlen c /\ slice c 16 16 = box_tag k n (slice c 32 (zlen c - 32)) /\ m' = zeros 32 ++ box_cipher k n (slice c 32 (zlen c - 32))) \/
     (rc = -1 /\ ~ (32 <= zlen c /\ slice c 16 16 = box_tag k n (slice c 32 (zlen c - 32))) /\ m' = m)).
Proof.
  intros w m c n k W Bc Bn Bk Lm Ln Lk. destruct (Z.lt_ge_cases (zlen c) 32) as [S|S].
  { exists (-1), m. split; [|right; split; [reflexivity|]; split; [lia|reflexivity]]. Transparent crypto_secretbox_open. unfold crypto_secretbox_open. replace (zlen c <? 32) with true by lia. reflexivity. }
  Opaque crypto_secretbox_open. rewrite secretbox_open_ok by (assumption || lia). destruct (list_eqb _ _) eqn:E.
  - apply list_eqb_eq in E. do 2 eexists. split; [reflexivity|]. left. repeat split; (assumption || lia).
  - do 2 eexists. split; [reflexivity|]. right. split; [reflexivity|]. split; [|reflexivity]. intros [_ X]. rewrite X in E. assert (Y: forall l, list_eqb l l = true) by (intros; apply list_eqb_eq; reflexivity). rewrite Y in E. discriminate.
Qed.
Print Assumptions C44_secretbox_open_exact.
Theorem C44_secretbox_round_trip : forall w c m msg n k,
  word_size w -> bytes_ok msg -> bytes_ok n -> bytes_ok k -> zlen c = 32 + zlen msg -> zlen m = 32 + zlen msg -> zlen n = 24 -> zlen k = 32 ->
  exists ct, crypto_secretbox w c (zeros 32 ++ msg) (32 + zlen msg) n k = Ret (0, ct) /\ zlen ct = 32 + zlen msg /\ slice ct 0 16 = zeros 16 /\
    crypto_secretbox_open w m ct (32 + zlen msg) n k = Ret (0, zeros 32 ++ msg).
Proof.
  intros w c m msg n k W Bm Bn Bk Lc Lm Ln Lk. pose proof (zlen_nonneg msg) as H0. rewrite C44_secretbox_is_the_specified_box by assumption. eexists. split; [reflexivity|].
  set (x := box_cipher k n msg). assert (Lx: zlen x = zlen msg) by now apply box_cipher_len. assert (Bx: bytes_ok x) by now apply box_cipher_ok.
  assert (Lt: zlen (box_tag k n x) = 16) by apply poly1305_len. set (t := box_tag k n x) in *. assert (Bt: bytes_ok t) by apply box_tag_bytes.
  destruct (box_layout t x Lt) as (Lct & S0 & S1 & S2). set (ct := zeros 16 ++ t ++ x) in *. rewrite Lx in Lct, S2. split; [exact Lct|]. split; [exact S0|].
  rewrite secretbox_open_ok; try assumption; try lia. 2: { unfold ct. rewrite !bytes_ok_app. split; [apply bytes_ok_zeros|tauto]. }
  replace (32 + zlen msg - 32) with (zlen msg) by lia. rewrite S1, S2. fold t. assert (Y: list_eqb t t = true) by (apply list_eqb_eq; reflexivity). rewrite Y. unfold x. rewrite box_cipher_invol by exact Ln. reflexivity.
Qed.
Print Assumptions C44_secretbox_round_trip.
(** replacing the 16 tag bytes by any other value makes opening fail and leaves the output buffer
    as it was *)
Theorem C44_secretbox_rejects_changed_tag : forall w c m msg n k ct t,
  word_size w -> bytes_ok msg -> bytes_ok n -> bytes_ok k -> zlen c = 32 + zlen msg -> zlen m = 32 + zlen msg -> zlen n = 24 -> zlen k = 32 ->
  crypto_secretbox w c (zeros 32 ++ msg) (32 + zlen msg) n k = Ret (0, ct) ->
  zlen t = 16 -> bytes_ok t -> t <> slice ct 16 16 ->
  crypto_secretbox_open w m (slice ct 0 16 ++ t ++ slice ct 32 (zlen msg)) (32 + zlen msg) n k = Ret (-1, m).
Proof.
  intros w c m msg n k ct t W Bm Bn Bk Lc Lm Ln Lk E Lt Bt NE. pose proof (zlen_nonneg msg) as H0. rewrite C44_secretbox_is_the_specified_box in E by assumption.
  assert (E': ct = zeros 16 ++ box_tag k n (box_cipher k n msg) ++ box_cipher k n msg) by (inversion E; reflexivity). clear E.
  set (x := box_cipher k n msg) in *. assert (Lx: zlen x = zlen msg) by now apply box_cipher_len. assert (Bx: bytes_ok x) by now apply box_cipher_ok.
  assert (Lg: zlen (box_tag k n x) = 16) by apply poly1305_len. set (g := box_tag k n x) in *.
  destruct (box_layout g x Lg) as (_ & S0 & S1 & S2). rewrite <- E' in S0, S1, S2. rewrite Lx in S2. rewrite S0, S2. rewrite S1 in NE.
  destruct (box_layout t x Lt) as (Ld & _ & T1 & T2). set (d := zeros 16 ++ t ++ x) in *. rewrite Lx in Ld, T2.
  rewrite secretbox_open_ok; try assumption; try lia. 2: { unfold d. rewrite !bytes_ok_app. split; [apply bytes_ok_zeros|tauto]. }
  replace (32 + zlen msg - 32) with (zlen msg) by lia. rewrite T1, T2. fold g. destruct (list_eqb t g) eqn:Q; [|reflexivity]. apply list_eqb_eq in Q. contradiction.
Qed.
Print Assumptions C44_secretbox_rejects_changed_tag.
(** a buffer of fewer than 32 bytes is refused by both functions without writing anything *)
Theorem C44_short_buffers_refused : forall w c m d n k, d < 32 ->
  crypto_secretbox w c m d n k = Ret (-1, c) /\ crypto_secretbox_open w m c d n k = Ret (-1, m).
Proof.
  intros w c m d n k H. Transparent crypto_secretbox crypto_secretbox_open. unfold crypto_secretbox, crypto_secretbox_open. replace (d <? 32) with true by lia. split; reflexivity.
Qed.
Print Assumptions C44_short_buffers_refused.
Example C44_nonvacuous : word_size 64 /\ bytes_ok [104; 105] /\ zlen (zeros 34) = 32 + zlen [104; 105] /\ zlen (zeros 24) = 24 /\ zlen (zeros 32) = 32 /\ bytes_ok (zeros 24) /\ bytes_ok (zeros 32).
Proof. split; [right; reflexivity|]. split; [repeat (apply Forall_cons; [unfold byte_ok; lia|]); apply Forall_nil|]. repeat split; apply bytes_ok_zeros. Qed.
