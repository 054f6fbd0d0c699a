(** Normal forms of the hybrid API functions: with buffers of the documented
    sizes each model function equals a pure decision tree over slices of its
    inputs.  (Proof file: the model is in [Hybrid.v].) *)
From Verif Require Import Base Hybrid.


Ltac hconst := unfold MIN_MSG_LEN, MAX_MSG_LEN, LEN_BYTES, SEED_LENGTH_ED25519,
  CRYPTO_ED25519_PUBLICKEY_BYTES, CRYPTO_ED25519_SECRETKEY_BYTES, CRYPTO_ED25519_SIGNATURE_BYTES,
  SEED_LENGTH_DILITHIUM, CRYPTO_DILITHIUM_PUBLICKEY_BYTES, CRYPTO_DILITHIUM_SECRETKEY_BYTES,
  CRYPTO_DILITHIUM_SIGNATURE_BYTES, SEED_LENGTH_SPHINCS, CRYPTO_SPHINCS_PUBLICKEY_BYTES,
  CRYPTO_SPHINCS_SECRETKEY_BYTES, CRYPTO_SPHINCS_SIGNATURE_BYTES, NONCE_BYTES, HASH_LENGTH,
  DILITHIUM_ED25519_SPHINCS_COMPACT_ID, DILITHIUM_ED25519_SPHINCS_FULL_ID in *.

(** Close a length side condition. *)
Ltac zl := rewrite ?zlen_app, ?zlen_cons, ?(@zlen_nil Z);
  repeat (rewrite ?zlen_app; first [rewrite zlen_zeros; [|zl] | rewrite zlen_slice; [|zl|zl|zl]]);
  try reflexivity; try lia.

Lemma copy_next_at p r off src soff n :
  off = zlen p -> 0 <= n -> n <= zlen r -> 0 <= soff -> soff + n <= zlen src ->
  copy (p ++ r) off src soff n = Ret ((p ++ slice src soff n) ++ slice r n (zlen r - n)).
Proof. intros ->; apply copy_next. Qed.

Definition pad (n : Z) (l : list Z) : list Z := l ++ zeros (n - zlen l).

Lemma slice_zeros a b n : 0 <= a -> 0 <= b -> a + b <= n -> slice (zeros n) a b = zeros b.
Proof.
  intros Ha Hb H. unfold slice, zeros.
  assert (S: forall k j, skipn k (repeat 0 j) = repeat 0 (j - k)).
  { intros k; induction k as [|k IH]; intros [|j]; cbn; auto. }
  assert (F: forall k j, (k <= j)%nat -> firstn k (repeat 0 j) = repeat 0 k).
  { intros k; induction k as [|k IH]; intros [|j] Hj; cbn; auto; try lia. f_equal; apply IH; lia. }
  rewrite S, F; [reflexivity|lia].
Qed.

Lemma put_ok n out : zlen out <= n -> put (zeros n) out = Ret (pad n out).
Proof.
  intros H. pose proof (zlen_nonneg out). unfold put, pad.
  rewrite copy_ok by zl.
  rewrite slice_0, slice_all by reflexivity. cbn [app].
  rewrite zlen_zeros by lia. do 2 f_equal.
  rewrite slice_zeros by lia. f_equal; lia.
Qed.
Lemma put_full n out : zlen out = n -> put (zeros n) out = Ret out.
Proof.
  intros H. rewrite put_ok by lia. unfold pad. replace (n - zlen out) with 0 by lia.
  cbn. now rewrite app_nil_r.
Qed.
Lemma zlen_pad n l : zlen l <= n -> zlen (pad n l) = n.
Proof. intros; pose proof (zlen_nonneg l); unfold pad; zl. Qed.
Lemma slice_pad n l k : 0 <= k <= zlen l -> slice (pad n l) 0 k = slice l 0 k.
Proof. intros; unfold pad; rewrite slice_app_l by lia; reflexivity. Qed.

Lemma cmp_from_ok : forall n i a b, 0 <= i -> i + Z.of_nat n <= zlen a -> i + Z.of_nat n <= zlen b ->
  exists r, cmp_from n i a b = Ret r /\ (r = true <-> slice a i (Z.of_nat n) = slice b i (Z.of_nat n)).
Proof.
  induction n as [|n IH]; intros i a b Hi Ha Hb; cbn [cmp_from].
  - exists true. split; [reflexivity|]. rewrite !slice_neg by lia. tauto.
  - rewrite !rd_ok by lia. cbn [bind].
    rewrite (slice_cons a), (slice_cons b) by lia.
    replace (Z.of_nat (S n) - 1) with (Z.of_nat n) by lia.
    destruct (Z.eqb_spec (nth (Z.to_nat i) a 0) (nth (Z.to_nat i) b 0)) as [E|E]; cbn [negb].
    + destruct (IH (i+1) a b) as (r & Hr & Hiff); [lia..|]. exists r; split; [exact Hr|].
      rewrite E. split; [intros Ht; f_equal; now apply Hiff|intros Ht; apply Hiff; congruence].
    + exists false; split; [reflexivity|]. split; [discriminate|congruence].
Qed.

Local Opaque zeros slice copy.

Section NF.
Variable P : comps.

(** *** open, full mode *)
Definition open_full_nf (mb smb pkb : list Z) (l smlen : Z) : outcome (Z * ptr * option Z) :=
  let fail c := Ret (c, Some mb, Some l) in
  if (smlen <? 52343) || (52406 <? smlen) then fail (-1) else
  if negb (nth 0 smb 0 =? 2) then fail (-2) else
  let n := nth 1 smb 0 in
  if (n <=? 0) || (64 <? n) then fail (-3) else
  if negb (smlen =? 52342 + n) then fail (-4) else
  let c1 := ed_open P (slice smb 2 (64 + n)) (slice pkb 0 32) in
  if negb (code c1 =? 0) then fail (-5) else
  if negb (i32 (olen c1) =? n) then fail (-6) else
  let msg := slice (pad 128 (obytes c1)) 0 n in
  if negb (dil_verify P (slice smb (66 + n) 2420) msg (slice pkb 32 1312) =? 0) then fail (-7) else
  if negb (spx_verify P (slice smb (2486 + n) 49856) msg (slice pkb 1344 64) =? 0) then fail (-8) else
  Ret (0, Some (msg ++ slice mb n (zlen mb - n)), Some n).

Lemma open_full_nf_ok mb l smb smlen pkb :
  64 <= zlen mb -> smlen <= zlen smb -> 1408 <= zlen pkb ->
  (forall s k, 65 <= zlen s <= 128 -> zlen k = 32 -> zlen (obytes (ed_open P s k)) <= 128) ->
  open_full P (Some mb) (Some l) (Some smb) smlen (Some pkb) = open_full_nf mb smb pkb l smlen.
Proof.
  intros Hm Hs Hp Hfit. unfold open_full, open_full_nf. hconst.
  change (2 + 64 + 1 + 2420 + 49856) with 52343. change (2 + 64 + 64 + 2420 + 49856) with 52406.
  destruct ((smlen <? 52343) || (52406 <? smlen))%bool eqn:E1; [reflexivity|].
  rewrite rd_ok by lia. cbn [bind].
  change (Z.to_nat 0) with 0%nat.
  destruct (negb (nth 0 smb 0 =? 2)) eqn:E2; [reflexivity|].
  rewrite rd_ok by lia. cbn [bind]. change (Z.to_nat 1) with 1%nat.
  set (n := nth 1 smb 0).
  destruct ((n <=? 0) || (64 <? n))%bool eqn:E3; [reflexivity|].
  replace (smlen =? 2 + 64 + n + 2420 + 49856) with (smlen =? 52342 + n) by lia.
  destruct (negb (smlen =? 52342 + n)) eqn:E4; [reflexivity|].
  rewrite copy_ok by zl. cbn [bind]. rewrite slice_0. cbn [app].
  rewrite copy_fill by zl. cbn [bind].
  rewrite rdrange_ok by (zl; zl). cbn [bind].
  rewrite slice_app_l, slice_all by zl.
  set (c1 := ed_open P (slice smb 2 (64 + n)) (slice pkb 0 32)).
  assert (Hc: zlen (obytes c1) <= 128) by (apply Hfit; zl).
  rewrite put_ok by exact Hc. cbn [bind].
  destruct (negb (code c1 =? 0)) eqn:E5; [reflexivity|].
  destruct (negb (i32 (olen c1) =? n)) eqn:E6; [reflexivity|].
  rewrite copy_fill by zl. cbn [bind].
  rewrite copy_fill by zl. cbn [bind].
  rewrite rdrange_ok by (rewrite ?zlen_pad; lia). cbn [bind].
  change (2 + 64 + n) with (66 + n).
  set (msg := slice (pad 128 (obytes c1)) 0 n).
  destruct (negb (dil_verify P _ _ _ =? 0)) eqn:E7; [reflexivity|].
  rewrite copy_fill by zl. cbn [bind].
  rewrite copy_fill by zl. cbn [bind].
  replace (66 + n + 2420) with (2486 + n) by lia.
  change (32 + 1312) with 1344.
  destruct (negb (spx_verify P _ _ _ =? 0)) eqn:E8; [reflexivity|].
  rewrite copy_ok by (rewrite ?zlen_pad; lia). cbn [bind]. rewrite slice_0. cbn [app].
  fold msg. change (0 + n) with n.
  do 6 f_equal. lia.
Qed.

(** *** open, compact mode *)
Definition open_compact_nf (mb smb pkb : list Z) (l smlen : Z) : outcome (Z * ptr * option Z) :=
  let fail c := Ret (c, Some mb, Some l) in
  if (smlen <? 2527) || (2590 <? smlen) then fail (-1) else
  if negb (nth 0 smb 0 =? 1) then fail (-2) else
  let n := nth 1 smb 0 in
  if (n <=? 0) || (64 <? n) then fail (-3) else
  if negb (smlen =? 2526 + n) then fail (-4) else
  let h := sha3_512 P (slice smb 2486 40 ++ slice smb 2526 n ++ slice pkb 1344 64) in
  let c1 := ed_open P (slice smb 2 64 ++ h) (slice pkb 0 32) in
  if negb (code c1 =? 0) then fail (-5) else
  if negb (olen c1 =? 64) then fail (-6) else
  if negb (if list_eq_dec Z.eq_dec (slice (pad 128 (obytes c1)) 0 64) h then true else false) then fail (-7) else
  if negb (dil_verify P (slice smb 66 2420) h (slice pkb 32 1312) =? 0) then fail (-8) else
  Ret (0, Some (slice smb 2526 n ++ slice mb n (zlen mb - n)), Some n).

Lemma hybrid_msg_chain a b c (n : Z) srcA offA srcB offB srcC offC :
  0 <= n <= 64 ->
  0 <= offA -> offA + 40 <= zlen srcA -> a = slice srcA offA 40 ->
  0 <= offB -> offB + n <= zlen srcB -> b = slice srcB offB n ->
  0 <= offC -> offC + 64 <= zlen srcC -> c = slice srcC offC 64 ->
  (h <- copy (zeros (40 + 64 + 64)) 0 srcA offA 40 ;;
   h <- copy h 40 srcB offB n ;;
   h <- copy h (40 + n) srcC offC 64 ;;
   rdrange h 0 (40 + n + 64)) = Ret (a ++ b ++ c).
Proof.
  intros Hn HA1 HA2 EA HB1 HB2 EB HC1 HC2 EC.
  assert (La: zlen a = 40) by (subst a; zl).
  assert (Lb: zlen b = n) by (subst b; zl).
  assert (Lc: zlen c = 64) by (subst c; zl).
  rewrite copy_ok by zl. rewrite slice_0, <- EA. cbn [app bind].
  rewrite (copy_next_at a) by zl. rewrite <- EB. cbn [bind].
  rewrite (copy_next_at (a ++ b)) by zl. rewrite <- EC. cbn [bind].
  rewrite rdrange_ok; [|lia|lia|zl].
  rewrite slice_app_l, slice_all by zl. now rewrite <- app_assoc.
Qed.

Lemma bind_assoc {A B C} (x : outcome A) (f : A -> outcome B) (g : B -> outcome C) :
  bind (bind x f) g = bind x (fun a => bind (f a) g).
Proof. destruct x; reflexivity. Qed.

Lemma bind_chain4 {A B C D E} (x : outcome A) (f : A -> outcome B) (g : B -> outcome C) (h : C -> outcome D)
   (k : D -> outcome E) (d : D) :
  (a <- x ;; b <- f a ;; c <- g b ;; h c) = Ret d ->
  (a <- x ;; b <- f a ;; c <- g b ;; e <- h c ;; k e) = k d.
Proof.
  destruct x as [a|]; cbn; [|discriminate]. destruct (f a) as [b|]; cbn; [|discriminate].
  destruct (g b) as [c|]; cbn; [|discriminate]. intros ->. reflexivity.
Qed.

Lemma open_compact_nf_ok mb l smb smlen pkb :
  64 <= zlen mb -> smlen <= zlen smb -> 1408 <= zlen pkb ->
  (forall x, zlen (sha3_512 P x) = 64) ->
  (forall s k, 65 <= zlen s <= 128 -> zlen k = 32 -> zlen (obytes (ed_open P s k)) <= 128) ->
  open_compact P (Some mb) (Some l) (Some smb) smlen (Some pkb) = open_compact_nf mb smb pkb l smlen.
Proof.
  intros Hm Hs Hp Hsha Hfit. unfold open_compact, open_compact_nf. hconst.
  change (2 + 64 + 2420 + 40 + 1) with 2527. change (2 + 64 + 2420 + 40 + 64) with 2590.
  destruct ((smlen <? 2527) || (2590 <? smlen))%bool eqn:E1; [reflexivity|].
  rewrite rd_ok by lia. cbn [bind]. change (Z.to_nat 0) with 0%nat.
  destruct (negb (nth 0 smb 0 =? 1)) eqn:E2; [reflexivity|].
  rewrite rd_ok by lia. cbn [bind]. change (Z.to_nat 1) with 1%nat.
  set (n := nth 1 smb 0).
  destruct ((n <=? 0) || (64 <? n))%bool eqn:E3; [reflexivity|].
  change (2 + 64 + 2420 + 40 + n) with (2526 + n).
  destruct (negb (smlen =? 2526 + n)) eqn:E4; [reflexivity|].
  change (2 + 64 + 2420 + 40) with 2526. change (2 + 64 + 2420) with 2486. change (32 + 1312) with 1344.
  change (2 + 64) with 66.
  erewrite bind_chain4; [|eapply hybrid_msg_chain; try reflexivity; lia].
  set (h := sha3_512 P _). assert (Hh: zlen h = 64) by apply Hsha.
  rewrite put_full by exact Hh. cbn [bind].
  rewrite copy_ok by zl. cbn [bind]. rewrite slice_0. cbn [app].
  rewrite (copy_next_at (slice smb 2 64)) by zl. cbn [bind].
  rewrite copy_fill by zl. cbn [bind].
  rewrite rdrange_ok by (zl; zl). cbn [bind].
  change (64 + 64) with 128.
  rewrite slice_app_l, slice_all by zl.
  rewrite (slice_all h) by lia.
  set (c1 := ed_open P (slice smb 2 64 ++ h) (slice pkb 0 32)).
  assert (Hc: zlen (obytes c1) <= 128) by (apply Hfit; zl).
  rewrite put_ok by exact Hc. cbn [bind].
  destruct (negb (code c1 =? 0)) eqn:E5; [reflexivity|].
  destruct (negb (olen c1 =? 64)) eqn:E6; [reflexivity|].
  destruct (cmp_from_ok (Z.to_nat 64) 0 (pad 128 (obytes c1)) h) as (r & Hr & Hiff);
    [lia|rewrite zlen_pad by lia; lia|lia|].
  rewrite Hr. cbn [bind]. rewrite Z2Nat.id in Hiff by lia. rewrite (slice_all h) in Hiff by lia.
  assert (Hr2: r = if list_eq_dec Z.eq_dec (slice (pad 128 (obytes c1)) 0 64) h then true else false).
  { destruct (list_eq_dec _ _ _) as [E|E]; destruct r; try reflexivity.
    - apply Hiff in E; discriminate.
    - exfalso; apply E; now apply Hiff. }
  rewrite <- Hr2.
  destruct (negb r) eqn:E7; [reflexivity|].
  rewrite copy_fill by zl. cbn [bind].
  rewrite copy_fill by zl. cbn [bind].
  rewrite rdrange_ok by lia. cbn [bind]. rewrite (slice_all h) by lia.
  destruct (negb (dil_verify P _ _ _ =? 0)) eqn:E8; [reflexivity|].
  rewrite copy_ok by lia. cbn [bind]. rewrite slice_0. cbn [app].
  change (0 + n) with n. do 6 f_equal. lia.
Qed.

(** *** sign, full mode *)
Lemma two_bytes_then (smb : list Z) (a b : Z) : 2 <= zlen smb ->
  (x <- wr smb 0 a ;; wr x 1 b) = Ret ([a; b] ++ slice smb 2 (zlen smb - 2)).
Proof.
  intros H. rewrite wr_ok by lia. cbn [bind]. rewrite wr_ok by (rewrite zlen_upd; lia).
  destruct smb as [|x [|y t]]; [rewrite zlen_nil in H; lia|rewrite zlen_cons, (@zlen_nil Z) in H; lia|].
  cbn [upd Z.to_nat]. change (Pos.to_nat 1) with 1%nat. cbn [upd app].
  do 3 f_equal. change (x :: y :: t) with ([x; y] ++ t).
  rewrite slice_app_r; rewrite ?zlen_app, ?zlen_cons, ?(@zlen_nil Z); [|lia|pose proof (zlen_nonneg t); lia].
  rewrite slice_all by lia. reflexivity.
Qed.

Definition sign_full_nf (rb : rnd) (smb mb skb : list Z) (l mlen : Z) : outcome (Z * ptr * option Z) :=
  let fail c := Ret (c, Some smb, Some l) in
  if (mlen <=? 0) || (64 <? mlen) then fail (-1) else
  let msg := slice mb 0 mlen in
  let c1 := ed_sign P msg (slice skb 0 64) in
  let c2 := dil_sign P msg (slice skb 64 2560) in
  let c3 := spx_sign P rb msg (slice skb 3936 128) in
  if negb (code c1 =? 0) then fail (-2) else
  if negb (code c2 =? 0) then fail (-3) else
  if negb (code c3 =? 0) then fail (-4) else
  if negb (olen c1 =? 64 + mlen) then fail (-5) else
  if negb (olen c2 =? 2420) then fail (-6) else
  if negb (olen c3 =? 49856) then fail (-6) else
  Ret (0, Some ([2; mlen] ++ slice (pad 128 (obytes c1)) 0 (64 + mlen) ++ pad 2420 (obytes c2)
                ++ pad 49856 (obytes c3) ++ slice smb (52342 + mlen) (zlen smb - (52342 + mlen))),
       Some (52342 + mlen)).

Lemma sign_full_nf_ok rb smb l mb mlen skb :
  52342 + mlen <= zlen smb -> mlen <= zlen mb -> 4064 <= zlen skb ->
  (forall m k, 1 <= zlen m <= 64 -> zlen k = 64 -> zlen (obytes (ed_sign P m k)) <= 128) ->
  (forall m k, 1 <= zlen m <= 64 -> zlen k = 2560 -> zlen (obytes (dil_sign P m k)) <= 2420) ->
  (forall m k, 1 <= zlen m <= 64 -> zlen k = 128 -> zlen (obytes (spx_sign P rb m k)) <= 49856) ->
  sign_full P rb (Some smb) (Some l) (Some mb) mlen (Some skb) = sign_full_nf rb smb mb skb l mlen.
Proof.
  intros Hsm Hm Hsk F1 F2 F3. unfold sign_full, sign_full_nf. hconst.
  destruct ((mlen <=? 0) || (64 <? mlen))%bool eqn:E1; [reflexivity|].
  rewrite copy_fill by zl. cbn [bind].
  rewrite copy_fill by zl. cbn [bind].
  rewrite copy_fill by zl. cbn [bind].
  rewrite rdrange_ok by zl. cbn [bind].
  change (64 + 2560 + 1312) with 3936.
  set (msg := slice mb 0 mlen). assert (Lmsg: zlen msg = mlen) by (unfold msg; zl).
  set (c1 := ed_sign P msg _). set (c2 := dil_sign P msg _). set (c3 := spx_sign P rb msg _).
  assert (G1: zlen (obytes c1) <= 128) by (apply F1; zl).
  assert (G2: zlen (obytes c2) <= 2420) by (apply F2; zl).
  assert (G3: zlen (obytes c3) <= 49856) by (apply F3; zl).
  repeat (rewrite put_ok by assumption; cbn [bind]).
  destruct (negb (code c1 =? 0)); [reflexivity|].
  destruct (negb (code c2 =? 0)); [reflexivity|].
  destruct (negb (code c3 =? 0)); [reflexivity|].
  destruct (Z.eqb_spec (olen c1) (64 + mlen)) as [O1|O1]; cbn [negb]; [|reflexivity].
  destruct (Z.eqb_spec (olen c2) 2420) as [O2|O2]; cbn [negb]; [|reflexivity].
  destruct (Z.eqb_spec (olen c3) 49856) as [O3|O3]; cbn [negb]; [|reflexivity].
  rewrite O1, O2, O3.
  rewrite <- bind_assoc, two_bytes_then by lia. cbn [bind].
  replace (u8 2) with 2 by reflexivity.
  replace (u8 mlen) with mlen by (unfold u8; rewrite Z.mod_small; lia).
  replace (i32 (64 + mlen)) with (64 + mlen) by (unfold i32; rewrite Z.mod_small; lia).
  rewrite (copy_next_at [2; mlen]); [|reflexivity|lia|zl|lia|rewrite zlen_pad; lia]. cbn [bind].
  set (p1 := [2; mlen] ++ slice (pad 128 (obytes c1)) 0 (64 + mlen)).
  assert (L1: zlen p1 = 66 + mlen).
  { unfold p1. rewrite zlen_app, zlen_slice; [change (zlen [2; mlen]) with 2; lia|lia|lia|rewrite zlen_pad; lia]. }
  assert (Ls1: zlen (slice smb 2 (zlen smb - 2)) = zlen smb - 2) by zl.
  rewrite Ls1. rewrite slice_slice by lia.
  rewrite (copy_next_at p1); [|lia|lia|zl|lia|rewrite zlen_pad; lia]. cbn [bind].
  rewrite (slice_all (pad 2420 _)) by (rewrite zlen_pad; lia).
  set (p2 := p1 ++ pad 2420 (obytes c2)).
  assert (L2: zlen p2 = 2486 + mlen) by (unfold p2; rewrite zlen_app, zlen_pad; lia).
  rewrite zlen_slice by lia. rewrite slice_slice by lia.
  rewrite (copy_next_at p2); [|lia|lia|zl|lia|rewrite zlen_pad; lia]. cbn [bind].
  rewrite (slice_all (pad 49856 _)) by (rewrite zlen_pad; lia).
  rewrite zlen_slice by lia. rewrite slice_slice by lia.
  unfold p2, p1. rewrite <- !app_assoc.
  replace (2 + 64 + 2420 + 49856 + mlen) with (52342 + mlen) by lia.
  replace (2 + (64 + mlen) + 2420 + 49856) with (52342 + mlen) by lia.
  replace (zlen smb - 2 - (64 + mlen) - 2420 - 49856) with (zlen smb - (52342 + mlen)) by lia.
  reflexivity.
Qed.

(** *** sign, compact mode *)
Definition sign_compact_nf (rb : rnd) (smb mb skb : list Z) (l mlen : Z) : outcome (Z * ptr * option Z) :=
  let fail c := Ret (c, Some smb, Some l) in
  if (mlen <=? 0) || (64 <? mlen) then fail (-1) else
  let '(r, nonce) := rb 40 in
  if negb (r =? 0) then fail (-1) else
  let h := sha3_512 P (nonce ++ slice mb 0 mlen ++ slice skb 4000 64) in
  let c1 := ed_sign P h (slice skb 0 64) in
  let c2 := dil_sign P h (slice skb 64 2560) in
  if negb (code c1 =? 0) then fail (-2) else
  if negb (code c2 =? 0) then fail (-3) else
  if negb (olen c1 =? 128) then fail (-4) else
  if negb (olen c2 =? 2420) then fail (-5) else
  Ret (0, Some ([1; mlen] ++ slice (pad 128 (obytes c1)) 0 64 ++ pad 2420 (obytes c2)
                ++ nonce ++ slice mb 0 mlen ++ slice smb (2526 + mlen) (zlen smb - (2526 + mlen))),
       Some (2526 + mlen)).

Lemma sign_compact_nf_ok rb smb l mb mlen skb :
  2526 + mlen <= zlen smb -> mlen <= zlen mb -> 4064 <= zlen skb ->
  zlen (snd (rb 40)) = 40 ->
  (forall x, zlen (sha3_512 P x) = 64) ->
  (forall m k, 1 <= zlen m <= 64 -> zlen k = 64 -> zlen (obytes (ed_sign P m k)) <= 128) ->
  (forall m k, 1 <= zlen m <= 64 -> zlen k = 2560 -> zlen (obytes (dil_sign P m k)) <= 2420) ->
  sign_compact P rb (Some smb) (Some l) (Some mb) mlen (Some skb) = sign_compact_nf rb smb mb skb l mlen.
Proof.
  intros Hsm Hm Hsk Hrb Hsha F1 F2. unfold sign_compact, sign_compact_nf. hconst.
  destruct ((mlen <=? 0) || (64 <? mlen))%bool eqn:E1; [reflexivity|].
  rewrite copy_fill by zl. cbn [bind].
  rewrite copy_fill by zl. cbn [bind].
  destruct (rb 40) as [r nonce]. cbn [snd] in Hrb.
  rewrite put_full by exact Hrb. cbn [bind].
  destruct (negb (r =? 0)); [reflexivity|].
  change (64 + 2560 + 1312 + 128 / 2) with 4000.
  erewrite bind_chain4; [|eapply (hybrid_msg_chain nonce); try reflexivity; try lia; now rewrite slice_all].
  set (h := sha3_512 P _). assert (Hh: zlen h = 64) by apply Hsha.
  rewrite put_full by exact Hh. cbn [bind].
  rewrite rdrange_ok by lia. cbn [bind]. rewrite (slice_all h) by lia.
  set (c1 := ed_sign P h _). set (c2 := dil_sign P h _).
  assert (G1: zlen (obytes c1) <= 128) by (apply F1; zl).
  assert (G2: zlen (obytes c2) <= 2420) by (apply F2; zl).
  repeat (rewrite put_ok by assumption; cbn [bind]).
  destruct (negb (code c1 =? 0)); [reflexivity|].
  destruct (negb (code c2 =? 0)); [reflexivity|].
  change (64 + 64) with 128.
  destruct (negb (olen c1 =? 128)); [reflexivity|].
  destruct (negb (olen c2 =? 2420)); [reflexivity|].
  rewrite <- bind_assoc, two_bytes_then by lia. cbn [bind].
  replace (u8 1) with 1 by reflexivity.
  replace (u8 mlen) with mlen by (unfold u8; rewrite Z.mod_small; lia).
  rewrite (copy_next_at [1; mlen]); [|reflexivity|lia|zl|lia|rewrite zlen_pad; lia]. cbn [bind].
  set (p1 := [1; mlen] ++ slice (pad 128 (obytes c1)) 0 64).
  assert (L1: zlen p1 = 66).
  { unfold p1. rewrite zlen_app, zlen_slice; [change (zlen [1; mlen]) with 2; lia|lia|lia|rewrite zlen_pad; lia]. }
  rewrite zlen_slice by lia. rewrite slice_slice by lia.
  rewrite (copy_next_at p1); [|lia|lia|zl|lia|rewrite zlen_pad; lia]. cbn [bind].
  rewrite (slice_all (pad 2420 _)) by (rewrite zlen_pad; lia).
  set (p2 := p1 ++ pad 2420 (obytes c2)).
  assert (L2: zlen p2 = 2486) by (unfold p2; rewrite zlen_app, zlen_pad; lia).
  rewrite zlen_slice by lia. rewrite slice_slice by lia.
  rewrite (copy_next_at p2); [|lia|lia|zl|lia|lia]. cbn [bind].
  rewrite (slice_all nonce) by lia.
  set (p3 := p2 ++ nonce).
  assert (L3: zlen p3 = 2526) by (unfold p3; rewrite zlen_app; lia).
  rewrite zlen_slice by lia. rewrite slice_slice by lia.
  rewrite (copy_next_at p3); [|lia|lia|zl|lia|lia]. cbn [bind].
  rewrite zlen_slice by lia. rewrite slice_slice by lia.
  unfold p3, p2, p1. rewrite <- !app_assoc.
  replace (2 + 64 + 2420 + 40 + mlen) with (2526 + mlen) by lia.
  replace (zlen smb - 2 - 64 - 2420 - 40 - mlen) with (zlen smb - (2526 + mlen)) by lia.
  reflexivity.
Qed.

(** *** keypair_seed *)
Definition keypair_seed_nf (pkb skb seed : list Z) : outcome (Z * ptr * ptr) :=
  let '(r1, pk1, sk1) := ed_keypair P (slice seed 0 32) in
  let '(r2, pk2, sk2) := dil_keypair P (slice seed 32 32) in
  let '(r3, pk3, sk3) := spx_keypair P (slice seed 64 96) in
  if negb (r1 =? 0) then Ret (-2, Some pkb, Some skb) else
  if negb (r2 =? 0) then
    Ret (-3, Some (pk1 ++ slice pkb 32 (zlen pkb - 32)), Some (sk1 ++ slice skb 64 (zlen skb - 64))) else
  if negb (r3 =? 0) then
    Ret (-4, Some (pk1 ++ pk2 ++ slice pkb 1344 (zlen pkb - 1344)),
             Some (sk1 ++ sk2 ++ pk2 ++ slice skb 3936 (zlen skb - 3936))) else
  Ret (0, Some (pk1 ++ pk2 ++ pk3 ++ slice pkb 1408 (zlen pkb - 1408)),
          Some (sk1 ++ sk2 ++ pk2 ++ sk3 ++ slice skb 4064 (zlen skb - 4064))).

Definition keypair_sizes : Prop :=
  (forall s, zlen s = 32 -> let '(_, pk, sk) := ed_keypair P s in zlen pk = 32 /\ zlen sk = 64) /\
  (forall s, zlen s = 32 -> let '(_, pk, sk) := dil_keypair P s in zlen pk = 1312 /\ zlen sk = 2560) /\
  (forall s, zlen s = 96 -> let '(_, pk, sk) := spx_keypair P s in zlen pk = 64 /\ zlen sk = 128).

Lemma keypair_seed_nf_ok pkb skb seed :
  1408 <= zlen pkb -> 4064 <= zlen skb -> 160 <= zlen seed -> keypair_sizes ->
  keypair_seed P (Some pkb) (Some skb) (Some seed) = keypair_seed_nf pkb skb seed.
Proof.
  intros Hp Hs Hseed (S1 & S2 & S3). unfold keypair_seed, keypair_seed_nf. hconst.
  rewrite copy_fill by zl. cbn [bind]. rewrite copy_fill by zl. cbn [bind]. rewrite copy_fill by zl. cbn [bind].
  change (32 + 32) with 64.
  specialize (S1 (slice seed 0 32) ltac:(zl)). specialize (S2 (slice seed 32 32) ltac:(zl)).
  specialize (S3 (slice seed 64 96) ltac:(zl)).
  destruct (ed_keypair P _) as [[r1 pk1] sk1]. destruct (dil_keypair P _) as [[r2 pk2] sk2].
  destruct (spx_keypair P _) as [[r3 pk3] sk3].
  destruct S1 as [P1 K1], S2 as [P2 K2], S3 as [P3 K3].
  repeat (rewrite put_full by lia; cbn [bind]).
  destruct (negb (r1 =? 0)); [reflexivity|].
  rewrite copy_ok by lia. cbn [bind]. rewrite slice_0, (slice_all pk1) by lia. cbn [app].
  rewrite copy_ok by lia. cbn [bind]. rewrite slice_0, (slice_all sk1) by lia. cbn [app].
  repeat (rewrite put_full by lia; cbn [bind]).
  change (0 + 32) with 32. change (0 + 64) with 64.
  replace (zlen pkb - 0 - 32) with (zlen pkb - 32) by lia. replace (zlen skb - 0 - 64) with (zlen skb - 64) by lia.
  destruct (negb (r2 =? 0)); [reflexivity|].
  rewrite (copy_next_at sk1) by zl. cbn [bind]. rewrite (slice_all sk2), zlen_slice, slice_slice by lia.
  rewrite (copy_next_at pk1) by zl. cbn [bind]. rewrite (slice_all pk2), zlen_slice, slice_slice by lia.
  rewrite (copy_next_at (sk1 ++ sk2)) by zl. cbn [bind]. rewrite (slice_all pk2), zlen_slice, slice_slice by lia.
  repeat (rewrite put_full by lia; cbn [bind]).
  destruct (negb (r3 =? 0)).
  { rewrite <- !app_assoc. do 3 f_equal; [f_equal|]; f_equal; f_equal; [|f_equal]; f_equal; lia. }
  rewrite (copy_next_at ((sk1 ++ sk2) ++ pk2)) by zl. cbn [bind]. rewrite (slice_all sk3), zlen_slice, slice_slice by lia.
  rewrite (copy_next_at (pk1 ++ pk2)) by zl. cbn [bind]. rewrite (slice_all pk3), zlen_slice, slice_slice by lia.
  rewrite <- !app_assoc.
  replace (64 + 2560 + 1312 + 128) with 4064 by lia. replace (32 + 1312 + 64) with 1408 by lia.
  replace (zlen skb - 64 - 2560 - 1312 - 128) with (zlen skb - 4064) by lia.
  replace (zlen pkb - 32 - 1312 - 64) with (zlen pkb - 1408) by lia.
  reflexivity.
Qed.

End NF.
