(** Proofs about TweetBuf.v: crypto_sign and crypto_sign_open with overlapping buffers. *)
From Coq Require Import ZifyBool ZifyNat.
From Verif Require Import Base Wp SpongeProofs2 BufLemmas Tweet TweetBuf.
From Verif Require Import NumTheory EdSpec EdCurve EdExt Sha512Spec EdSig TweetField TweetField2 TweetCurve TweetModL TweetSha EdDecode EdOrder TweetEd.
Ltac Zify.zify_post_hook ::= idtac.

(** ** One array inside a larger memory *)
Lemma ctx_copy p sm t so k src j l : zlen p = so -> 0 <= k -> 0 <= l -> k + l <= zlen sm -> 0 <= j -> j + l <= zlen src ->
  exists sm', copy sm k src j l = Ret sm' /\ zlen sm' = zlen sm /\ copy (p ++ sm ++ t) (so + k) src j l = Ret (p ++ sm' ++ t).
Proof.
  intros Lp Hk Hl Hkl Hj Hjl. pose proof (zlen_nonneg p). pose proof (zlen_nonneg t). rewrite !copy_ok by (rewrite ?zlen_app; lia).
  eexists. split; [reflexivity|]. split; [rewrite !zlen_app, !zlen_slice by lia; lia|]. f_equal.
  assert (E: slice (p ++ sm ++ t) 0 (so + k) = p ++ slice sm 0 k).
  { rewrite (slice_split (p ++ sm ++ t) 0 (so + k) so) by (rewrite ?zlen_app; lia). rewrite slice_mid0 by lia. f_equal. rewrite (slice_app_r p) by lia. replace (0 + so - zlen p) with 0 by lia. replace (so + k - so) with k by lia. apply slice_app_l; lia. }
  rewrite E, <- !app_assoc. do 3 f_equal.
  rewrite !zlen_app. rewrite (slice_app_r p (sm ++ t)) by lia. replace (so + k + l - zlen p) with (k + l) by lia.
  replace (zlen p + (zlen sm + zlen t) - (so + k) - l) with ((zlen sm - k - l) + zlen t) by lia.
  rewrite (slice_split (sm ++ t) (k + l) (zlen sm - k - l + zlen t) (zlen sm - k - l)) by (rewrite ?zlen_app; lia).
  rewrite slice_app_l by lia. f_equal. rewrite slice_app_r by lia. replace (k + l + (zlen sm - k - l) - zlen sm) with 0 by lia. apply slice_all. lia.
Qed.
Lemma ctx_slice (p sm t : list Z) so k l : zlen p = so -> 0 <= k -> 0 <= l -> k + l <= zlen sm -> slice (p ++ sm ++ t) (so + k) l = slice sm k l.
Proof. intros Lp Hk Hl H. rewrite slice_app_r by lia. replace (so + k - zlen p) with k by lia. apply slice_app_l; lia. Qed.
Lemma ctx_hash p sm t so k l : bytes_ok p -> bytes_ok sm -> bytes_ok t -> zlen p = so -> 0 <= k -> 0 <= l < 2 ^ 64 -> k + l <= zlen sm ->
  crypto_hash (p ++ sm ++ t) (so + k) l = crypto_hash sm k l.
Proof.
  intros Bp Bs Bt Lp Hk Hl H. pose proof (zlen_nonneg p). pose proof (zlen_nonneg t).
  rewrite !crypto_hash_ok; try assumption; try lia; [now rewrite ctx_slice by lia| |]; [repeat (apply bytes_ok_app; split); assumption|rewrite !zlen_app; lia].
Qed.

(** ** The copying loop on any placement *)
Definition periodic (k : nat) (m : list Z) : list Z := map (fun i => nth (i mod k) m 0) (seq 0 (length m)).
Lemma periodic_nth k m i : (i < length m)%nat -> nth i (periodic k m) 0 = nth (i mod k) m 0.
Proof. intros H. unfold periodic. rewrite (nth_indep _ _ ((fun i => nth (i mod k) m 0) 0%nat)) by (now rewrite map_length, seq_length). rewrite (map_nth (fun i => nth (i mod k) m 0)). now rewrite seq_nth. Qed.
Lemma periodic_length k m : length (periodic k m) = length m. Proof. unfold periodic. now rewrite map_length, seq_length. Qed.
Lemma periodic_long k m : (length m <= k)%nat -> periodic k m = m.
Proof. intros H. apply (nth_ext _ _ 0 0); [apply periodic_length|]. intros i Hi. rewrite periodic_length in Hi. rewrite periodic_nth by exact Hi. now rewrite Nat.mod_small by lia. Qed.
Lemma periodic_bytes k m : bytes_ok m -> bytes_ok (periodic k m).
Proof. intros B. apply Forall_forall. intros x Hx. apply In_nth with (d := 0) in Hx. destruct Hx as (i & Hi & <-). rewrite periodic_length in Hi. rewrite periodic_nth by exact Hi.
  destruct (Nat.ltb_spec (i mod k) (length m)); [apply (proj1 (Forall_forall _ _) B), nth_In; assumption|]. rewrite nth_overflow by assumption. unfold byte_ok. lia. Qed.

Lemma move_up_overlap n : forall mem d s, 0 <= n -> 0 <= s < d -> d + n <= zlen mem ->
  for_loop n (fun i mem => b <- rd 0 mem (s + i) ;; wr mem (d + i) b) mem = Ret (splice mem d (periodic (Z.to_nat (d - s)) (slice mem s n))).
Proof.
  intros mem d s Hn Hs Hdn. unfold for_loop. set (P := periodic (Z.to_nat (d - s)) (slice mem s n)).
  assert (LM: zlen (slice mem s n) = n) by (apply zlen_slice; lia).
  assert (LP: zlen P = n) by (unfold zlen in *; unfold P; now rewrite periodic_length).
  assert (NP: forall i, 0 <= i < n -> nth (Z.to_nat i) P 0 = nth (Z.to_nat (s + i mod (d - s))) mem 0).
  { intros i Hi. unfold P. rewrite periodic_nth by (unfold zlen in LM; lia). pose proof (Z.mod_pos_bound i (d - s) ltac:(lia)). pose proof (Z.mod_le i (d - s) ltac:(lia) ltac:(lia)).
    replace (Z.to_nat i mod Z.to_nat (d - s))%nat with (Z.to_nat (i mod (d - s))) by (rewrite Z2Nat.inj_mod by lia; reflexivity).
    rewrite nth_slice by lia. f_equal. lia. }
  assert (G: forall k i, 0 <= i -> i + Z.of_nat k = n ->
    for_from k i (fun i mem => b <- rd 0 mem (s + i) ;; wr mem (d + i) b) (splice mem d (slice P 0 i)) = Ret (splice mem d P)).
  { induction k as [|k IH]; intros i Hi Hk; cbn [for_from].
    - replace i with n by lia. now rewrite slice_all by lia.
    - assert (L: zlen (slice P 0 i) = i) by (apply zlen_slice; lia).
      rewrite rd_ok by (rewrite zlen_splice by lia; lia). cbn [bind].
      replace (nth (Z.to_nat (s + i)) (splice mem d (slice P 0 i)) 0) with (nth (Z.to_nat i) P 0).
      2:{ destruct (Z.ltb_spec i (d - s)).
          - rewrite nth_splice_lt by lia. rewrite NP by lia. now rewrite Z.mod_small by lia.
          - assert (E: nth (Z.to_nat (s + i)) (splice mem d (slice P 0 i)) 0 = nth (Z.to_nat (i - (d - s))) (slice P 0 i) 0).
            { rewrite <- (slice_splice mem d (slice P 0 i)) at 2 by lia. rewrite L, nth_slice by lia. f_equal. lia. }
            rewrite E. rewrite nth_slice by lia. change (Z.to_nat 0 + Z.to_nat (i - (d - s)))%nat with (Z.to_nat (i - (d - s))). rewrite (NP i) by lia. rewrite (NP (i - (d - s))) by lia. do 2 f_equal. f_equal.
            replace i with ((i - (d - s)) + 1 * (d - s)) at 1 by lia. apply Z.mod_add. lia. }
      replace (d + i) with (d + zlen (slice P 0 i)) by lia. rewrite splice_snoc by lia. cbn [bind].
      replace (slice P 0 i ++ [nth (Z.to_nat i) P 0]) with (slice P 0 (i + 1)).
      + apply IH; lia.
      + rewrite slice_snoc by lia. reflexivity. }
  specialize (G (Z.to_nat n) 0 ltac:(lia) ltac:(lia)). rewrite slice_0, splice_nil in G by lia. exact G.
Qed.

(** ** Signing *)
Opaque sha512 crypto_hash clamp ed_reduce scalarbase scalarmult ed_pack modL ed_add.
Lemma ret_inj {A} (a b : A) : Ret a = Ret b -> a = b. Proof. now intros [= ->]. Qed.
Lemma ctx_copy_ret p sm t so k src j l sm' : zlen p = so -> 0 < l -> copy sm k src j l = Ret sm' ->
  zlen sm' = zlen sm /\ (bytes_ok sm -> bytes_ok src -> bytes_ok sm') /\ copy (p ++ sm ++ t) (so + k) src j l = Ret (p ++ sm' ++ t).
Proof.
  intros Lp Hl E. assert (R: 0 <= k /\ k + l <= zlen sm /\ 0 <= j /\ j + l <= zlen src).
  { unfold copy in E. replace (l <=? 0) with false in E by lia. destruct ((0 <=? k) && (k + l <=? zlen sm) && (0 <=? j) && (j + l <=? zlen src)) eqn:C; [lia|discriminate E]. }
  destruct R as (R1 & R2 & R3 & R4). destruct (ctx_copy p sm t so k src j l Lp R1 ltac:(lia) R2 R3 R4) as (s & Es & Ls & Ec). rewrite Es in E. apply ret_inj in E. subst s.
  split; [exact Ls|]. split; [|exact Ec]. intros B Bs. rewrite copy_ok in Es by lia. apply ret_inj in Es. subst sm'. repeat (apply bytes_ok_app; split); now apply bytes_ok_slice.
Qed.
Lemma ctx_sign p h64 M t so mo n sk mem sm' : zlen p = so -> zlen h64 = 64 -> zlen M = n -> n + 64 < 2 ^ 64 -> 64 <= zlen sk ->
  bytes_ok p -> bytes_ok h64 -> bytes_ok M -> bytes_ok t -> bytes_ok sk ->
  for_loop n (fun i mem => b <- rd 0 mem (mo + i) ;; wr mem (so + 64 + i) b) mem = Ret (p ++ (h64 ++ M) ++ t) ->
  ed_sign (h64 ++ M) M n sk = Ret (0, n + 64, sm') ->
  ed_sign_c mem so mo n sk = Ret (0, n + 64, p ++ sm' ++ t).
Proof.
  intros Lp L64 LM Hn Lsk Bp B64 BM Bt Bsk EL H. pose proof (zlen_nonneg M) as HM. unfold ed_sign in H. unfold ed_sign_c.
  replace (u64 (n + 64)) with (n + 64) in * by (rewrite u64_id; lia). replace (u64 (n + 32)) with (n + 32) in * by (rewrite u64_id; lia).
  destruct (crypto_hash sk 0 32) as [d|] eqn:E1; cbn [bind] in H |- *; [|discriminate H].
  assert (Ld: zlen d = 64 /\ bytes_ok d). { rewrite crypto_hash_ok in E1 by (assumption || lia). apply ret_inj in E1. subst d. split; [apply sha512_len|apply sha512_bytes]. }
  destruct (proj1 (wp_ex _ _) (clamp_ok d (proj1 Ld) (proj2 Ld))) as (d' & E2 & Ld' & Bd' & _). rewrite E2 in H |- *. cbn [bind] in H |- *. clear E1 E2 Ld d. rename d' into d.
  cbv zeta in H |- *. rewrite EL. cbn [bind].
  assert (E64: copy (h64 ++ M) 64 M 0 n = Ret (h64 ++ M)). { pose proof (copy_at h64 M [] M 0 64 n) as C. rewrite !app_nil_r in C. rewrite C by lia. rewrite (slice_all M) by lia. reflexivity. }
  rewrite E64 in H. cbn [bind] in H. set (s0 := h64 ++ M) in *. assert (L0: zlen s0 = 64 + n) by (unfold s0; rewrite zlen_app; lia). assert (B0: bytes_ok s0) by (unfold s0; apply bytes_ok_app; now split). clearbody s0. clear E64 EL.
  destruct (copy s0 32 d 32 32) as [s1|] eqn:E1; cbn [bind] in H; [|discriminate H]. destruct (ctx_copy_ret p s0 t so 32 d 32 32 s1 Lp ltac:(lia) E1) as (L1 & B1 & E1'). specialize (B1 B0 Bd'). rewrite E1'. cbn [bind].
  rewrite (ctx_hash p s1 t so 32 (n + 32)) by (assumption || lia).
  rewrite crypto_hash_ok in H |- * by (assumption || lia). cbn [bind] in H |- *. rewrite ed_reduce_ok in H |- * by (apply sha512_len || apply sha512_bytes). cbn [bind] in H |- *.
  set (r := le_bytes 32 _ ++ zeros 32) in *. assert (Lr: zlen r = 64) by (unfold r; rewrite zlen_app, zlen_le_bytes, zlen_zeros; lia). assert (Br: bytes_ok r) by (apply bytes_ok_app; split; [apply le_bytes_ok|apply bytes_ok_zeros]). clearbody r.
  destruct (proj1 (wp_ex _ _) (scalarbase_ok r ltac:(lia) Br)) as (q & Eq & Rq). rewrite Eq in H |- *. cbn [bind] in H |- *.
  destruct (proj1 (wp_ex _ _) (ed_pack_ok _ _ _ Rq ltac:(lia))) as (R & ER & VR). rewrite ER in H |- *. cbn [bind] in H |- *. assert (BR: bytes_ok R) by (subst R; apply penc_bytes). clear Eq Rq ER VR q.
  destruct (copy s1 0 R 0 32) as [s2|] eqn:E2; cbn [bind] in H; [|discriminate H]. destruct (ctx_copy_ret p s1 t so 0 R 0 32 s2 Lp ltac:(lia) E2) as (L2 & B2 & E2'). specialize (B2 B1 BR). rewrite Z.add_0_r in E2'. rewrite E2'. cbn [bind].
  destruct (copy s2 32 sk 32 32) as [s3|] eqn:E3; cbn [bind] in H; [|discriminate H]. destruct (ctx_copy_ret p s2 t so 32 sk 32 32 s3 Lp ltac:(lia) E3) as (L3 & B3 & E3'). specialize (B3 B2 Bsk). rewrite E3'. cbn [bind].
  pose proof (ctx_hash p s3 t so 0 (n + 64) Bp B3 Bt Lp ltac:(lia) ltac:(lia) ltac:(lia)) as EH. rewrite Z.add_0_r in EH. rewrite EH.
  destruct (crypto_hash s3 0 (n + 64)) as [h|]; cbn [bind] in H |- *; [|discriminate H].
  destruct (ed_reduce h) as [h'|]; cbn [bind] in H |- *; [|discriminate H].
  destruct (for_loop 32 (fun i x => b <- rd 0 r i ;; wr x i b) (zeros 64)) as [x|]; cbn [bind] in H |- *; [|discriminate H].
  match type of H with bind ?e _ = _ => destruct e as [x'|]; cbn [bind] in H |- *; [|discriminate H] end.
  destruct (modL x') as [S|]; cbn [bind] in H |- *; [|discriminate H].
  destruct (copy s3 32 S 0 32) as [s4|] eqn:E4; cbn [bind] in H; [|discriminate H]. destruct (ctx_copy_ret p s3 t so 32 S 0 32 s4 Lp ltac:(lia) E4) as (_ & _ & E4'). rewrite E4'. cbn [bind].
  apply ret_inj in H. now injection H as ->.
Qed.

(** The message that ends up in the signed message buffer *)
Definition signed_text (mem : list Z) (so mo n : Z) : list Z :=
  if so + 64 <=? mo then slice mem mo n else periodic (Z.to_nat (so + 64 - mo)) (slice mem mo n).
Lemma ed_sign_c_ok mem so mo n seed : zlen seed = 32 -> bytes_ok seed -> bytes_ok mem -> 0 <= n -> 64 + n < 2 ^ 64 ->
  0 <= so -> so + 64 + n <= zlen mem -> 0 <= mo -> mo + n <= zlen mem ->
  let M := signed_text mem so mo n in
  ed_sign_c mem so mo n (seed ++ ed_public seed) = Ret (0, n + 64, splice mem so (ed_signature seed M ++ M)).
Proof.
  intros Ls Bs Bm Hn H64 Hso Hsl Hmo Hml M.
  assert (LM: zlen M = n). { unfold M, signed_text. destruct (so + 64 <=? mo); [apply zlen_slice; lia|]. unfold zlen. rewrite periodic_length. change (zlen (slice mem mo n) = n). apply zlen_slice; lia. }
  assert (BM: bytes_ok M). { unfold M, signed_text. destruct (so + 64 <=? mo); [now apply bytes_ok_slice|]. apply periodic_bytes. now apply bytes_ok_slice. }
  assert (EL: for_loop n (fun i mem => b <- rd 0 mem (mo + i) ;; wr mem (so + 64 + i) b) mem = Ret (splice mem (so + 64) M)).
  { unfold M, signed_text. destruct (Z.leb_spec (so + 64) mo); [apply move_up_ok; lia|]. apply (move_up_overlap n mem (so + 64) mo); lia. }
  set (h64 := slice mem so 64). assert (L64: zlen h64 = 64) by (apply zlen_slice; lia). set (t := slice mem (so + 64 + n) (zlen mem - (so + 64) - n)).
  assert (ES: splice mem (so + 64) M = slice mem 0 so ++ (h64 ++ M) ++ t). { unfold splice. rewrite LM. rewrite (slice_split mem 0 (so + 64) so) by lia. replace (so + 64 - so) with 64 by lia. change (0 + so) with so. fold h64. rewrite <- !app_assoc. reflexivity. }
  rewrite ES in EL.
  pose proof (ed_sign_ok (h64 ++ M) M n seed Ls Bs) as SG. cbv zeta in SG. rewrite (slice_all M) in SG by lia. specialize (SG ltac:(apply bytes_ok_app; split; [now apply bytes_ok_slice|exact BM]) BM Hn ltac:(lia) ltac:(rewrite zlen_app; lia) H64).
  rewrite (slice_neg (h64 ++ M)) in SG by (rewrite zlen_app; lia). rewrite app_nil_r in SG.
  rewrite (ctx_sign (slice mem 0 so) h64 M t so mo n (seed ++ ed_public seed) mem _ ltac:(apply zlen_slice; lia) L64 LM ltac:(lia) ltac:(rewrite zlen_app; unfold ed_public; rewrite zlen_penc; lia)
    ltac:(now apply bytes_ok_slice) ltac:(now apply bytes_ok_slice) BM ltac:(now apply bytes_ok_slice) ltac:(apply bytes_ok_app; split; [exact Bs|apply penc_bytes]) EL SG).
  f_equal. f_equal. unfold splice. assert (LS: zlen (ed_signature seed M) = 64) by (unfold ed_signature, ed_sigR; rewrite zlen_app, zlen_penc, zlen_le_bytes; reflexivity). rewrite zlen_app, LS, LM. unfold t. do 3 f_equal; lia.
Qed.

(** ** Opening *)
Lemma move_zero n : forall mem d, 0 <= n -> 0 <= d -> d + n <= zlen mem -> for_loop n (fun i mem => wr mem (d + i) 0) mem = Ret (splice mem d (zeros n)).
Proof.
  intros mem d Hn Hd Hdn. unfold for_loop.
  assert (G: forall k i, 0 <= i -> i + Z.of_nat k = n -> for_from k i (fun i mem => wr mem (d + i) 0) (splice mem d (zeros i)) = Ret (splice mem d (zeros n))).
  { induction k as [|k IH]; intros i Hi Hk; cbn [for_from]; [replace i with n by lia; reflexivity|].
    assert (L: zlen (zeros i) = i) by (apply zlen_zeros; lia). replace (d + i) with (d + zlen (zeros i)) by lia. rewrite splice_snoc by lia. cbn [bind].
    replace (zeros i ++ [0]) with (zeros (i + 1)); [apply IH; lia|]. unfold zeros. rewrite Z2Nat.inj_add by lia. rewrite repeat_app. reflexivity. }
  specialize (G (Z.to_nat n) 0 ltac:(lia) ltac:(lia)). change (zeros 0) with (@nil Z) in G. rewrite splice_nil in G by lia. exact G.
Qed.
Lemma splice_ctx p m t so l : zlen p = so -> zlen l <= zlen m -> splice (p ++ m ++ t) so l = p ++ splice m 0 l ++ t.
Proof.
  intros Lp Hl. destruct (Z.eqb_spec (zlen l) 0) as [e|e].
  - assert (l = []) as -> by (destruct l; [reflexivity|rewrite zlen_cons in e; pose proof (zlen_nonneg l); lia]). pose proof (zlen_nonneg m). pose proof (zlen_nonneg p). pose proof (zlen_nonneg t). rewrite !splice_nil; rewrite ?zlen_app; try lia. reflexivity.
  - pose proof (zlen_nonneg l). pose proof (zlen_nonneg p). pose proof (zlen_nonneg t). destruct (ctx_copy p m t so 0 l 0 (zlen l) Lp) as (m' & E & _ & E'); try lia.
    rewrite Z.add_0_r in E'. rewrite copy_splice in E, E' by (rewrite ?zlen_app; lia). rewrite slice_all in E, E' by lia. apply ret_inj in E, E'. now rewrite E', <- E.
Qed.
Lemma loop_ext {S} n (f g : Z -> S -> outcome S) s : (forall i s, 0 <= i < n -> f i s = g i s) -> for_loop n f s = for_loop n g s.
Proof.
  intros H. unfold for_loop. assert (G: forall k i s, 0 <= i -> i + Z.of_nat k <= Z.max 0 n -> for_from k i f s = for_from k i g s); [|apply G; lia].
  induction k as [|k IH]; intros i s1 Hi Hk; cbn [for_from]; [reflexivity|]. rewrite H by lia. destruct (g i s1); cbn [bind]; [|reflexivity]. apply IH; lia.
Qed.
Lemma verify_pre sm T : 32 <= zlen sm -> crypto_verify_32 sm T = crypto_verify_32 (slice sm 0 32) T.
Proof.
  intros H. assert (zlen (slice sm 0 32) = 32) by (apply zlen_slice; lia). unfold crypto_verify_32, vn. f_equal. apply loop_ext. intros i d Hi. rewrite (rd_ok 0 sm) by lia. rewrite (rd_ok 0 (slice sm 0 32)) by lia. cbn [bind]. rewrite nth_slice by lia. reflexivity.
Qed.

(** message buffer [mo, mo + n) disjoint from the signed message: as with separate arrays *)
Lemma ctx_open p m t so mo n pk mem sm rc l m' : zlen p = mo -> zlen m = n -> mem = p ++ m ++ t -> bytes_ok mem -> zlen pk = 32 -> bytes_ok pk -> 0 <= n ->
  sm = slice mem so n -> 0 <= so -> so + n <= zlen mem -> so + n <= mo \/ mo + n <= so ->
  ed_open m sm n pk = Ret (rc, l, m') -> ed_open_c mem mo so n pk = Ret (rc, l, p ++ m' ++ t).
Proof.
  intros Lp Lm Emem Bmem Lpk Bpk Hn Esm Hso Hsl Dis H. unfold ed_open in H. unfold ed_open_c. cbv zeta in H |- *.
  assert (Lmem: zlen mem = mo + n + zlen t) by (subst mem; rewrite !zlen_app; lia). pose proof (zlen_nonneg t). pose proof (zlen_nonneg p).
  assert (Ls: zlen sm = n) by (subst sm; apply zlen_slice; lia). assert (Bsm: bytes_ok sm) by (subst sm; now apply bytes_ok_slice).
  assert (B3: bytes_ok p /\ bytes_ok m /\ bytes_ok t) by (rewrite Emem in Bmem; now rewrite !bytes_ok_app in Bmem). destruct B3 as (Bp & Bm & Bt).
  destruct (Z.ltb_spec n 64) as [C|C]; [apply ret_inj in H; injection H as <- <- <-; now rewrite <- Emem|].
  destruct (unpackneg pk) as [[q|]|]; cbn [bind] in H |- *; [|apply ret_inj in H; injection H as <- <- <-; now rewrite <- Emem|discriminate H].
  destruct (2 ^ 31 <=? n) eqn:C31; [discriminate H|]. assert (n < 2 ^ 31) by lia. clear C31.
  (* the signed message stays readable whatever the message buffer holds *)
  assert (SM: forall m1, zlen m1 = n -> forall k c, 0 <= k -> 0 <= c -> k + c <= n -> slice (p ++ m1 ++ t) (so + k) c = slice sm k c).
  { intros m1 L1 k c Hk Hc Hkc. rewrite Esm, slice_slice by lia. rewrite Emem. destruct Dis.
    - rewrite !(slice_app_l p) by lia. reflexivity.
    - rewrite !(slice_app_r p) by lia. rewrite !slice_app_r by lia. f_equal. lia. }
  rewrite move_up_ok by lia. rewrite <- Esm, Emem, splice_ctx by lia. rewrite (splice_whole' m sm) by lia. cbn [bind].
  assert (EC: copy m 0 sm 0 n = Ret sm). { rewrite copy_splice by lia. rewrite slice_all by lia. rewrite splice_whole' by lia. reflexivity. }
  rewrite EC in H. cbn [bind] in H.
  destruct (copy sm 32 pk 0 32) as [m1|] eqn:E1; cbn [bind] in H; [|discriminate H]. destruct (ctx_copy_ret p sm t mo 32 pk 0 32 m1 Lp ltac:(lia) E1) as (L1 & B1 & E1'). specialize (B1 Bsm Bpk). rewrite E1'. cbn [bind].
  pose proof (ctx_hash p m1 t mo 0 n Bp B1 Bt Lp ltac:(lia) ltac:(lia) ltac:(lia)) as EH. rewrite Z.add_0_r in EH. rewrite EH. clear EH.
  destruct (crypto_hash m1 0 n) as [h|]; cbn [bind] in H |- *; [|discriminate H].
  destruct (ed_reduce h) as [h'|]; cbn [bind] in H |- *; [|discriminate H].
  destruct (scalarmult q h') as [P1|]; cbn [bind] in H |- *; [|discriminate H].
  rewrite rdrange_ok by (rewrite ?zlen_app; lia). cbn [bind]. rewrite (SM m1) by lia.
  destruct (scalarbase (slice sm 32 32)) as [P2|]; cbn [bind] in H |- *; [|discriminate H].
  destruct (ed_add P1 P2) as [P3|]; cbn [bind] in H |- *; [|discriminate H].
  destruct (ed_pack P3) as [T|]; cbn [bind] in H |- *; [|discriminate H].
  rewrite rdrange_ok by (rewrite ?zlen_app; lia). cbn [bind]. rewrite <- (Z.add_0_r so) at 1. rewrite (SM m1) by lia.
  rewrite <- verify_pre by lia. destruct (crypto_verify_32 sm T) as [v|]; cbn [bind] in H |- *; [|discriminate H].
  destruct (negb (v =? 0)).
  - rewrite move_zero by (rewrite ?zlen_app; lia). assert (LZ: zlen (zeros (n - 64)) = n - 64) by (apply zlen_zeros; lia). rewrite splice_ctx by lia. cbn [bind].
    rewrite copy_splice in H by lia. rewrite (slice_all (zeros _)) in H by lia. cbn [bind] in H. apply ret_inj in H. now injection H as <- <- <-.
  - rewrite (loop_ext _ _ (fun i mem => b <- rd 0 mem (so + 64 + i) ;; wr mem (mo + i) b)) by (intros i s0 _; now replace (so + (64 + i)) with (so + 64 + i) by lia).
    rewrite move_up_ok by (rewrite ?zlen_app; lia). rewrite (SM m1) by lia. assert (LZ: zlen (slice sm 64 (n - 64)) = n - 64) by (apply zlen_slice; lia). rewrite splice_ctx by lia. cbn [bind].
    rewrite copy_splice in H by lia. cbn [bind] in H. apply ret_inj in H. now injection H as <- <- <-.
Qed.

(** ** Opening in place *)
Lemma inplace_open p R S M t mo n pk mem rc l m' : zlen p = mo -> zlen R = 32 -> zlen S = 32 -> zlen M = n - 64 -> mem = p ++ (R ++ S ++ M) ++ t -> bytes_ok mem -> zlen pk = 32 -> bytes_ok pk -> 64 <= n ->
  unpackneg pk <> Ret None ->
  ed_open (R ++ pk ++ M) (R ++ pk ++ M) n pk = Ret (rc, l, m') -> ed_open_c mem mo mo n pk = Ret (rc, l, p ++ m' ++ t).
Proof.
  intros Lp LR LS LM Emem Bmem Lpk Bpk Hn NN H. unfold ed_open in H. unfold ed_open_c. cbv zeta in H |- *.
  assert (Lmem: zlen mem = mo + n + zlen t) by (subst mem; rewrite !zlen_app; lia). pose proof (zlen_nonneg t). pose proof (zlen_nonneg p).
  replace (n <? 64) with false in * by lia. destruct (unpackneg pk) as [[q|]|]; cbn [bind] in H |- *; [|exfalso; now apply NN|discriminate H].
  destruct (2 ^ 31 <=? n) eqn:C31; [discriminate H|]. assert (n < 2 ^ 31) by lia. clear C31.
  set (sm := R ++ pk ++ M) in *. assert (Lsm: zlen sm = n) by (unfold sm; rewrite !zlen_app; lia).
  assert (B3: bytes_ok p /\ bytes_ok (R ++ S ++ M) /\ bytes_ok t). { rewrite Emem in Bmem. apply bytes_ok_app in Bmem as [? Bmem]. apply bytes_ok_app in Bmem as [? ?]. auto. } destruct B3 as (Bp & Bm & Bt).
  assert (Bsm: bytes_ok sm). { apply bytes_ok_app in Bm as [? Bm]. apply bytes_ok_app in Bm as [? ?]. repeat (apply bytes_ok_app; split); assumption. }
  set (m0 := R ++ S ++ M) in *. assert (Lm0: zlen m0 = n) by (unfold m0; rewrite !zlen_app; lia).
  rewrite move_up_ok by lia. rewrite Emem. rewrite (slice_mid p m0 t mo n) by lia. rewrite splice_ctx by lia. rewrite (splice_whole' m0 m0) by lia. cbn [bind].
  assert (EC: copy sm 0 sm 0 n = Ret sm). { rewrite copy_splice by lia. rewrite slice_all by lia. rewrite splice_whole' by lia. reflexivity. }
  rewrite EC in H. cbn [bind] in H.
  assert (E1: copy sm 32 pk 0 32 = Ret sm). { unfold sm. rewrite (copy_at R pk M pk 0 32 32) by lia. now rewrite (slice_all pk) by lia. }
  rewrite E1 in H. cbn [bind] in H.
  assert (E2: copy m0 32 pk 0 32 = Ret sm). { unfold m0, sm. rewrite (copy_at R S M pk 0 32 32) by lia. now rewrite (slice_all pk) by lia. }
  destruct (ctx_copy_ret p m0 t mo 32 pk 0 32 sm Lp ltac:(lia) E2) as (_ & _ & E2'). rewrite E2'. cbn [bind].
  pose proof (ctx_hash p sm t mo 0 n Bp Bsm Bt Lp ltac:(lia) ltac:(lia) ltac:(lia)) as EH. rewrite Z.add_0_r in EH. rewrite EH. clear EH.
  destruct (crypto_hash sm 0 n) as [h|]; cbn [bind] in H |- *; [|discriminate H].
  destruct (ed_reduce h) as [h'|]; cbn [bind] in H |- *; [|discriminate H].
  destruct (scalarmult q h') as [P1|]; cbn [bind] in H |- *; [|discriminate H].
  rewrite rdrange_ok by (rewrite ?zlen_app; lia). cbn [bind]. rewrite (ctx_slice p sm t mo 32 32) by lia.
  destruct (scalarbase (slice sm 32 32)) as [P2|]; cbn [bind] in H |- *; [|discriminate H].
  destruct (ed_add P1 P2) as [P3|]; cbn [bind] in H |- *; [|discriminate H].
  destruct (ed_pack P3) as [T|]; cbn [bind] in H |- *; [|discriminate H].
  rewrite rdrange_ok by (rewrite ?zlen_app; lia). cbn [bind]. rewrite <- (Z.add_0_r mo) at 1. rewrite (ctx_slice p sm t mo 0 32) by lia.
  rewrite <- verify_pre by lia. destruct (crypto_verify_32 sm T) as [v|]; cbn [bind] in H |- *; [|discriminate H].
  destruct (negb (v =? 0)).
  - rewrite move_zero by (rewrite ?zlen_app; lia). assert (LZ: zlen (zeros (n - 64)) = n - 64) by (apply zlen_zeros; lia). rewrite splice_ctx by lia. cbn [bind].
    rewrite copy_splice in H by lia. rewrite (slice_all (zeros _)) in H by lia. cbn [bind] in H. apply ret_inj in H. now injection H as <- <- <-.
  - rewrite (loop_ext _ _ (fun i mem => b <- rd 0 mem (mo + 64 + i) ;; wr mem (mo + i) b)) by (intros i s0 _; now replace (mo + (64 + i)) with (mo + 64 + i) by lia).
    rewrite move_up_ok by (rewrite ?zlen_app; lia). rewrite (ctx_slice p sm t mo 64 (n - 64)) by lia. assert (LZ: zlen (slice sm 64 (n - 64)) = n - 64) by (apply zlen_slice; lia). rewrite splice_ctx by lia. cbn [bind].
    rewrite copy_splice in H by lia. cbn [bind] in H. apply ret_inj in H. now injection H as <- <- <-.
Qed.
