(** Property theorems about what an observer of branches and addresses learns (C66).

    [trace p] is the sequence of branch outcomes and accessed indices of the instrumented program
    [p], [value p] its result (CtBase.v).  The programs are in CtTweet.v.  Each theorem says two
    things about the same program: it computes the specified result (so it is the real function,
    not a stand-in) and its trace is one and the same list for all secrets. *)
From Verif Require Import Base EdSpec EdSig Tab BoxSpec X25519Spec Tweet TweetBox TweetDH TweetEd PolyProofs PropsEd PropsBox PropsDH CtBase CtTweet CtTweetProofs.
Ltac Zify.zify_post_hook ::= idtac.

(** ** C66: TweetNaCl *)
(** key generation: one trace for all seeds *)
Theorem C66_ed25519_keygen : exists T, forall seed, zlen seed = 32 -> bytes_ok seed ->
  trace (keypair_seed_l Zops seed) = T /\
  value (keypair_seed_l Zops seed) = (0, ed_public seed, seed ++ ed_public seed).
Proof.
  exists (trace (keypair_seed_l Zops [])). intros seed Ls Bs. split; [apply ct_keypair_seed|].
  apply era_keypair_seed. now apply C47_keygen_is_rfc8032.
Qed.
Print Assumptions C66_ed25519_keygen.
(** signing: the trace depends on the message length only, neither on the key nor on the message *)
Theorem C66_ed25519_sign : forall n, exists T, forall sm m seed,
  zlen seed = 32 -> bytes_ok seed -> bytes_ok sm -> bytes_ok m -> 0 <= n -> n <= zlen m -> 64 + n <= zlen sm -> 64 + n < 2 ^ 64 ->
  trace (sign_l Zops sm m n (seed ++ ed_public seed)) = T /\
  (let M := slice m 0 n in
   value (sign_l Zops sm m n (seed ++ ed_public seed)) = (0, n + 64, ed_signature seed M ++ M ++ slice sm (64 + n) (zlen sm - 64 - n))).
Proof.
  intros n. exists (trace (sign_l Zops [] [] n [])). intros sm m seed Ls Bs Bsm Bm N1 N2 N3 N4. split; [apply ct_sign|].
  apply era_sign. now apply C47_sign_is_rfc8032.
Qed.
Print Assumptions C66_ed25519_sign.
(** scalar multiplication: one trace for all scalars and all points *)
Theorem C66_x25519 : exists T, forall n p, zlen n = 32 -> bytes_ok n -> zlen p = 32 -> bytes_ok p ->
  trace (x25519_l Zops n p) = T /\ value (x25519_l Zops n p) = (0, x25519 n p).
Proof.
  exists (trace (x25519_l Zops [] [])). intros n p Ln Bn Lp Bp. split; [apply ct_x25519|].
  apply era_x25519. now apply C57_scalarmult_is_x25519.
Qed.
Print Assumptions C66_x25519.
(** SHA-512: the trace depends on the length and the position of the message only *)
Theorem C66_sha512 : forall off n, exists T, forall m, bytes_ok m -> 0 <= off -> 0 <= n < 2 ^ 64 -> off + n <= zlen m ->
  trace (hash_l Zops m off n) = T /\ value (hash_l Zops m off n) = Sha512Spec.sha512 (slice m off n).
Proof.
  intros off n. exists (trace (hash_l Zops [] off n)). intros m Bm H0 Hn Hl. split; [apply ct_hash|].
  apply era_hash. now apply C43_sha512.
Qed.
Print Assumptions C66_sha512.
(** Poly1305: the trace depends on the length of the message only *)
Theorem C66_onetimeauth : forall w n, exists T, forall m k, word_size w -> bytes_ok m -> bytes_ok k -> zlen k = 32 -> zlen m = n ->
  trace (onetimeauth_l Zops w m 0 n k) = T /\ value (onetimeauth_l Zops w m 0 n k) = poly1305 k m.
Proof.
  intros w n. exists (trace (onetimeauth_l Zops w [] 0 n [])). intros m k W Bm Bk Lk E. split; [apply ct_onetimeauth|].
  subst n. apply era_onetimeauth. now apply C45_onetimeauth_is_poly1305.
Qed.
Print Assumptions C66_onetimeauth.
(** XSalsa20 *)
Theorem C66_stream_xor : forall w d, exists T, forall c m n k,
  word_size w -> bytes_ok m -> bytes_ok n -> bytes_ok k -> zlen m = d -> zlen c = zlen m -> zlen n = 24 -> zlen k = 32 ->
  trace (stream_xor_l Zops w c m d n k) = T /\ value (stream_xor_l Zops w c m d n k) = xor_bytes m (xsalsa20_stream k n (length m)).
Proof.
  intros w d. exists (trace (stream_xor_l Zops w [] [] d [] [])). intros c m n k W Bm Bn Bk Ld Lc Ln Lk. split; [apply ct_stream_xor|].
  subst d. apply era_stream_xor. now apply C56_stream_xor_is_xsalsa20.
Qed.
Print Assumptions C66_stream_xor.
(** the comparison functions: one trace for all inputs, in particular it does not matter where
    the two strings first differ *)
Theorem C66_verify : exists T16 T32, forall x y, bytes_ok x -> bytes_ok y ->
  (zlen x = 16 -> zlen y = 16 -> trace (verify_16_l Zops x y) = T16 /\ (value (verify_16_l Zops x y) = 0 <-> x = y)) /\
  (zlen x = 32 -> zlen y = 32 -> trace (verify_32_l Zops x y) = T32 /\ (value (verify_32_l Zops x y) = 0 <-> x = y)).
Proof.
  exists (trace (verify_16_l Zops [] [])), (trace (verify_32_l Zops [] [])). intros x y Bx By. split; intros Lx Ly.
  - split; [apply ct_v16|]. destruct (C46_verify_16 x y Lx Ly Bx By) as (r & E & H1 & H2). rewrite (era_v16 x y r E).
    split; [intros ->|exact H1]. destruct (list_eq_dec Z.eq_dec x y) as [e|e]; [exact e|specialize (H2 e); discriminate H2].
  - split; [apply ct_v32|]. destruct (C46_verify_32 x y Lx Ly Bx By) as (r & E & H1 & H2). rewrite (era_v32 x y r E).
    split; [intros ->|exact H1]. destruct (list_eq_dec Z.eq_dec x y) as [e|e]; [exact e|specialize (H2 e); discriminate H2].
Qed.
Print Assumptions C66_verify.
(** sealing a box *)
Theorem C66_secretbox : forall w d, exists T, forall c msg n k,
  word_size w -> bytes_ok msg -> bytes_ok n -> bytes_ok k -> zlen msg = d -> zlen c = 32 + zlen msg -> zlen n = 24 -> zlen k = 32 ->
  trace (secretbox_l Zops w c (zeros 32 ++ msg) (32 + d) n k) = T /\
  value (secretbox_l Zops w c (zeros 32 ++ msg) (32 + d) n k) = (0, zeros 16 ++ box_tag k n (box_cipher k n msg) ++ box_cipher k n msg).
Proof.
  intros w d. exists (trace (secretbox_l Zops w [] [] (32 + d) [] [])). intros c msg n k W Bm Bn Bk Ld Lc Ln Lk. split; [apply ct_secretbox|].
  subst d. apply era_secretbox. now apply C44_secretbox_is_the_specified_box.
Qed.
Print Assumptions C66_secretbox.
Theorem C66_box : forall w d, exists T, forall c msg n pk sk,
  word_size w -> bytes_ok msg -> bytes_ok n -> bytes_ok pk -> bytes_ok sk -> zlen msg = d -> zlen c = 32 + zlen msg -> zlen n = 24 -> zlen pk = 32 -> zlen sk = 32 ->
  let k := box_shared sk pk in
  trace (box_l Zops w c (zeros 32 ++ msg) (32 + d) n pk sk) = T /\
  value (box_l Zops w c (zeros 32 ++ msg) (32 + d) n pk sk) = (0, zeros 16 ++ box_tag k n (box_cipher k n msg) ++ box_cipher k n msg).
Proof.
  intros w d. exists (trace (box_l Zops w [] [] (32 + d) [] [] [])). intros c msg n pk sk W Bm Bn Bp Bs Ld Lc Ln Lp Ls k. split; [apply ct_box|].
  subst d. apply era_box. now apply C58_box_is_the_specified_box.
Qed.
Print Assumptions C66_box.
(** opening a box: the return code, and nothing else, can be read off the trace *)
Theorem C66_secretbox_open : forall w d, exists Tok Tbad, forall m c n k,
  word_size w -> bytes_ok c -> bytes_ok n -> bytes_ok k -> zlen c = d -> zlen m = zlen c -> zlen n = 24 -> zlen k = 32 ->
  let ok := 32 <= d /\ slice c 16 16 = box_tag k n (slice c 32 (d - 32)) in
  (ok -> trace (secretbox_open_l Zops w m c d n k) = Tok /\ value (secretbox_open_l Zops w m c d n k) = (0, zeros 32 ++ box_cipher k n (slice c 32 (d - 32)))) /\
  (~ ok -> trace (secretbox_open_l Zops w m c d n k) = Tbad /\ value (secretbox_open_l Zops w m c d n k) = (-1, m)).
Proof.
  intros w d. exists (open_trace Zops w d false), (open_trace Zops w d true). intros m c n k W Bc Bn Bk Ld Lm Ln Lk ok.
  destruct (secretbox_open_trace Zops w m c d n k) as (E & _). revert E. subst d ok.
  destruct (C44_secretbox_open_exact w m c n k W Bc Bn Bk Lm Ln Lk) as (rc & m' & Eo & D). rewrite (era_secretbox_open w m c (zlen c) n k _ Eo). cbn [fst].
  intros E. rewrite E. destruct D as [(-> & H1 & H2 & ->)|(-> & H & ->)]; cbn [Z.eqb negb].
  - split; [intros _; split; reflexivity|intros N; exfalso; apply N; split; assumption].
  - split; [intros Y; exfalso; exact (H Y)|intros _; split; reflexivity].
Qed.
Print Assumptions C66_secretbox_open.
Theorem C66_box_open : forall w d, exists Tok Tbad, forall m c n pk sk,
  word_size w -> bytes_ok c -> bytes_ok n -> bytes_ok pk -> bytes_ok sk -> zlen c = d -> zlen m = zlen c -> zlen n = 24 -> zlen pk = 32 -> zlen sk = 32 ->
  let k := box_shared sk pk in
  let ok := 32 <= d /\ slice c 16 16 = box_tag k n (slice c 32 (d - 32)) in
  (ok -> trace (box_open_l Zops w m c d n pk sk) = Tok /\ value (box_open_l Zops w m c d n pk sk) = (0, zeros 32 ++ box_cipher k n (slice c 32 (d - 32)))) /\
  (~ ok -> trace (box_open_l Zops w m c d n pk sk) = Tbad /\ value (box_open_l Zops w m c d n pk sk) = (-1, m)).
Proof.
  intros w d. exists (trace (beforenm_l Zops w [] []) ++ open_trace Zops w d false), (trace (beforenm_l Zops w [] []) ++ open_trace Zops w d true).
  intros m c n pk sk W Bc Bn Bp Bs Ld Lm Ln Lp Ls k ok.
  assert (T : trace (box_open_l Zops w m c d n pk sk) = trace (beforenm_l Zops w [] []) ++ open_trace Zops w d (negb (fst (value (box_open_l Zops w m c d n pk sk)) =? 0))).
  { unfold box_open_l. rewrite trace_bind, value_bind. apply f_equal2; [apply ct_beforenm|].
    destruct (value (beforenm_l Zops w pk sk)) as [? kk]. apply secretbox_open_trace. }
  rewrite T. clear T. subst d ok.
  destruct (C58_box_open_exact w m c n pk sk W Bc Bn Bp Bs Lm Ln Lp Ls) as (rc & m' & Eo & D). rewrite (era_box_open w m c (zlen c) n pk sk _ Eo). cbn [fst].
  destruct D as [(-> & H1 & H2 & ->)|(-> & H & ->)]; cbn [Z.eqb negb].
  - split; [intros _; split; reflexivity|intros N; exfalso; apply N; split; assumption].
  - split; [intros Y; exfalso; exact (H Y)|intros _; split; reflexivity].
Qed.
Print Assumptions C66_box_open.

(** Non-vacuity: the observer does see differences when there are any.  A program that branches on
    a data bit, or that looks a data byte up in a table, has different traces for different data;
    the instrumented [if (b) swap] is not the conditional swap of the library. *)
Example C66_observer_sees_branches :
  trace (b <~ lbranch Zops 0 ;;; if b then lwr [1] 0 2 else lret [1]) <> trace (b <~ lbranch Zops 1 ;;; if b then lwr [1] 0 2 else lret [1]).
Proof. discriminate. Qed.
Example C66_observer_sees_indices : trace (lrd_at Zops [10; 20] 0) <> trace (lrd_at Zops [10; 20] 1).
Proof. discriminate. Qed.
(** the trace of a conditional swap: sixteen times two reads, two writes and a loop test, and the
    final loop test *)
Example C66_swap_trace : length (trace (sel_l Zops gf0 gf1 1)) = 81%nat /\ value (sel_l Zops gf0 gf1 1) = (gf1, gf0) /\ value (sel_l Zops gf0 gf1 0) = (gf0, gf1).
Proof. vm_compute. auto. Qed.
(** accepted and rejected boxes have different traces *)
Example C66_verdict_visible : forall w, open_trace Zops w 32 false <> open_trace Zops w 32 true.
Proof.
  intros w H. apply (f_equal (@length event)) in H. unfold open_trace in H. change (32 <? 32) with false in H. cbv beta iota in H. cbn [length] in H.
  rewrite !app_length in H. cbn [length] in H. rewrite trace_bind, app_length in H. unfold stream_xor_l, salsa20_xor_l in H. rewrite !trace_bind, trace_if, app_length in H. cbn [length] in H. lia.
Qed.
