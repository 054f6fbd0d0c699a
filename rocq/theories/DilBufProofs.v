(** The samplers of DilBuf.v compute those of DilPoly.v. *)
From Verif Require Import Base Sponge SpongePure SpongeProofs SpongeProofs2 DilReduce Tab DilPoly DilSample DilBuf BufLemmas.
Ltac Zify.zify_post_hook ::= idtac.
Local Opaque F.

(** ** The streaming context *)
Lemma absorb_ok r c m n x : 0 < r <= 200 -> ctx_ok r c -> ctx_pair c = absorb r x -> 0 <= n <= zlen m ->
  exists c', keccak_inc_absorb c r m n = Ret c' /\ ctx_ok r c' /\ ctx_pair c' = absorb r (x ++ slice m 0 n).
Proof.
  intros Hr Hc Hx Hn. destruct (keccak_inc_absorb_ok r c m n Hr Hc Hn) as (c' & E & Hc' & Ep). exists c'.
  split; [exact E|]. split; [exact Hc'|]. rewrite Ep, Hx. unfold absorb. now rewrite absorb_from_app.
Qed.
Lemma init_pair r : ctx_pair keccak_inc_init = absorb r [].
Proof. reflexivity. Qed.
Lemma finalize_ok r p c x : 0 < r <= 200 -> ctx_ok r c -> ctx_pair c = absorb r x ->
  exists c', keccak_inc_finalize c r p = Ret c' /\ squeezing r (pad_state r p (absorb r x)) 0 c'.
Proof.
  intros Hr Hc Hx. rewrite keccak_inc_finalize_ok by assumption. eexists. split; [reflexivity|].
  rewrite Hx. exists 0. cbn. repeat split; lia.
Qed.
Lemma zlen_pad r p x : 0 < r -> zlen (pad_state r p (absorb r x)) = 25.
Proof. intros. rewrite zlen_pad_state. now apply zlen_absorb. Qed.

Definition st128 (seed : list Z) nonce := pad_state 168 0x1F (absorb 168 (seed ++ nonce_bytes nonce)).
Definition st256 (seed : list Z) nonce := pad_state 136 0x1F (absorb 136 (seed ++ nonce_bytes nonce)).
Lemma stream128_x seed nonce pos n : 0 <= pos -> 0 <= n -> stream128 seed nonce pos n = xof_of (stream 168 (st128 seed nonce)) pos n.
Proof. intros. unfold stream128, st128. apply shake_xof; lia. Qed.
Lemma stream256_x seed nonce pos n : 0 <= pos -> 0 <= n -> stream256 seed nonce pos n = xof_of (stream 136 (st256 seed nonce)) pos n.
Proof. intros. unfold stream256, st256. apply shake_xof; lia. Qed.
Lemma shake256_xof_x seed pos n : 0 <= pos -> 0 <= n ->
  shake256_xof seed pos n = xof_of (stream 136 (pad_state 136 0x1F (absorb 136 seed))) pos n.
Proof. intros. unfold shake256_xof. apply shake_xof; lia. Qed.

Lemma init128_ok seed nonce : zlen seed = 32 ->
  exists c, shake128_stream_init seed nonce = Ret c /\ squeezing 168 (st128 seed nonce) 0 c.
Proof.
  intros Hs. unfold shake128_stream_init, shake128_inc_absorb, shake128_inc_init, shake128_inc_finalize, SHAKE128_RATE.
  change [u8 nonce; u8 (Z.shiftr nonce 8)] with (nonce_bytes nonce). cbv zeta.
  destruct (absorb_ok 168 keccak_inc_init seed 32 [] ltac:(lia) (ctx_ok_init 168 ltac:(lia)) (init_pair _) ltac:(lia)) as (c1 & -> & H1 & E1).
  cbn [bind]. rewrite slice_all in E1 by lia.
  destruct (absorb_ok 168 c1 (nonce_bytes nonce) 2 _ ltac:(lia) H1 E1 ltac:(change (zlen (nonce_bytes nonce)) with 2; lia)) as (c2 & -> & H2 & E2).
  cbn [bind]. rewrite slice_all in E2 by reflexivity.
  destruct (finalize_ok 168 0x1F c2 _ ltac:(lia) H2 E2) as (c3 & -> & H3). exists c3. split; [reflexivity|exact H3].
Qed.
Lemma init256_ok seed nonce : zlen seed = 64 ->
  exists c, shake256_stream_init seed nonce = Ret c /\ squeezing 136 (st256 seed nonce) 0 c.
Proof.
  intros Hs. unfold shake256_stream_init, shake256_inc_absorb, shake256_inc_init, shake256_inc_finalize, SHAKE256_RATE.
  change [u8 nonce; u8 (Z.shiftr nonce 8)] with (nonce_bytes nonce). cbv zeta.
  destruct (absorb_ok 136 keccak_inc_init seed 64 [] ltac:(lia) (ctx_ok_init 136 ltac:(lia)) (init_pair _) ltac:(lia)) as (c1 & -> & H1 & E1).
  cbn [bind]. rewrite slice_all in E1 by lia.
  destruct (absorb_ok 136 c1 (nonce_bytes nonce) 2 _ ltac:(lia) H1 E1 ltac:(change (zlen (nonce_bytes nonce)) with 2; lia)) as (c2 & -> & H2 & E2).
  cbn [bind]. rewrite slice_all in E2 by reflexivity.
  destruct (finalize_ok 136 0x1F c2 _ ltac:(lia) H2 E2) as (c3 & -> & H3). exists c3. split; [reflexivity|exact H3].
Qed.
Lemma xof_len s p n : 0 <= n -> zlen (xof_of s p n) = n.
Proof. intros. unfold xof_of. rewrite zlen_map, zlen_zseq. lia. Qed.
Lemma xof_bytes r s p n : 0 <= p -> bytes_ok (xof_of (stream r s) p n).
Proof. intros. apply bytes_stream; [apply stream_byte|lia]. Qed.
(** squeezing [n] bytes at stream position [t] *)
Lemma sq_ok r s h off n c t : 0 < r <= 200 -> zlen s = 25 -> squeezing r s t c -> 0 <= t -> 0 <= n -> 0 <= off -> off + n <= zlen h ->
  exists c', keccak_inc_squeeze h off n c r = Ret (splice h off (xof_of (stream r s) t n), c') /\ squeezing r s (t + n) c'.
Proof. apply keccak_inc_squeeze_ok. Qed.

(** ** rej_uniform *)
Lemma rej_uniform_len n : forall buf, zlen (rej_uniform n buf) <= Z.of_nat n.
Proof.
  intros buf. remember (length buf) as k eqn:Ek. assert (Hk: (length buf <= k)%nat) by lia. clear Ek. revert n buf Hk.
  induction k as [|k IH]; intros n buf Hk.
  - destruct buf; [|cbn in Hk; lia]. destruct n; cbn [rej_uniform]; rewrite zlen_nil; lia.
  - destruct n as [|n]; [destruct buf; cbn [rej_uniform]; rewrite zlen_nil; lia|].
    destruct buf as [|b0 [|b1 [|b2 rest]]]; cbn [rej_uniform]; try (rewrite zlen_nil; lia).
    cbn [length] in Hk. set (t := Z.land _ _). destruct (t <? Q).
    + rewrite zlen_cons. specialize (IH n rest ltac:(lia)). lia.
    + specialize (IH (S n) rest ltac:(lia)). lia.
Qed.
Lemma slice3 (l : list Z) off n : 0 <= off -> 3 <= n -> off + n <= zlen l ->
  slice l off n = nth (Z.to_nat off) l 0 :: nth (Z.to_nat (off + 1)) l 0 :: nth (Z.to_nat (off + 2)) l 0 :: slice l (off + 3) (n - 3).
Proof.
  intros. rewrite slice_cons by lia. rewrite (slice_cons l (off + 1)) by lia. rewrite (slice_cons l (off + 1 + 1)) by lia.
  do 3 f_equal; [f_equal; lia|f_equal; lia].
Qed.
Lemma rej_uniform_short n buf : zlen buf < 3 -> rej_uniform n buf = [].
Proof. destruct n, buf as [|b0 [|b1 [|b2 rest]]]; try reflexivity. rewrite !zlen_cons. pose proof (zlen_nonneg rest). lia. Qed.

Lemma rej_uniform_loop_ok : forall fuel a aoff len buf buflen ctr pos,
  0 <= ctr <= len -> 0 <= pos -> buflen <= zlen buf -> buflen < 2 ^ 31 -> pos <= buflen -> 0 <= aoff -> aoff + len <= zlen a ->
  buflen - pos <= 3 * Z.of_nat fuel + 2 ->
  rej_uniform_loop fuel a aoff len buf buflen ctr pos
  = Ret (splice a (aoff + ctr) (rej_uniform (Z.to_nat (len - ctr)) (slice buf pos (buflen - pos))),
         ctr + zlen (rej_uniform (Z.to_nat (len - ctr)) (slice buf pos (buflen - pos)))).
Proof.
  induction fuel as [|fuel IH]; intros a aoff len buf buflen ctr pos Hc Hp Hb Hb31 Hpb Ha Hal Hf; cbn [rej_uniform_loop].
  - unfold u32. rewrite Z.mod_small by lia. replace (pos + 3 <=? buflen) with false by lia. rewrite andb_false_r.
    rewrite rej_uniform_short by (rewrite zlen_slice; lia). rewrite splice_nil, zlen_nil, Z.add_0_r by lia. reflexivity.
  - unfold u32. rewrite Z.mod_small by lia. destruct (Z.ltb_spec ctr len) as [H1|H1].
    + destruct (Z.leb_spec (pos + 3) buflen) as [H2|H2]; cbn [andb].
      * rewrite !rd_ok by lia. cbn [bind]. rewrite (slice3 buf pos (buflen - pos)) by lia.
        replace (Z.to_nat (len - ctr)) with (S (Z.to_nat (len - (ctr + 1)))) by lia. cbn [rej_uniform].
        set (t := Z.land _ _). destruct (t <? Q) eqn:Et.
        -- rewrite wr_splice by lia. cbn [bind]. rewrite IH; try lia; [|rewrite zlen_splice by (change (zlen [t]) with 1; lia); lia].
           replace (buflen - (pos + 3)) with (buflen - pos - 3) by lia.
           set (l := rej_uniform _ _). assert (Hl: zlen l <= len - (ctr + 1)) by (pose proof (rej_uniform_len (Z.to_nat (len - (ctr + 1))) (slice buf (pos + 3) (buflen - pos - 3))); fold l in H; lia).
           replace (aoff + (ctr + 1)) with (aoff + ctr + zlen [t]) by (change (zlen [t]) with 1; lia).
           rewrite splice_splice by (change (zlen [t]) with 1; lia). cbn [app]. rewrite zlen_cons.
           do 2 f_equal. lia.
        -- rewrite IH by lia. replace (buflen - (pos + 3)) with (buflen - pos - 3) by lia.
           replace (Z.to_nat (len - ctr)) with (S (Z.to_nat (len - (ctr + 1)))) by lia. reflexivity.
      * rewrite rej_uniform_short by (rewrite zlen_slice; lia). rewrite splice_nil, zlen_nil, Z.add_0_r by lia. reflexivity.
    + cbn [andb]. replace (Z.to_nat (len - ctr)) with O by lia.
      assert (E: rej_uniform 0 (slice buf pos (buflen - pos)) = []) by (destruct (slice buf pos (buflen - pos)); reflexivity).
      rewrite E. rewrite splice_nil, zlen_nil, Z.add_0_r by lia. reflexivity.
Qed.
Lemma rej_uniform_c_ok a aoff len buf buflen : 0 <= len -> 0 <= buflen <= zlen buf -> buflen < 2 ^ 31 -> 0 <= aoff -> aoff + len <= zlen a ->
  rej_uniform_c a aoff len buf buflen = Ret (splice a aoff (rej_uniform (Z.to_nat len) (slice buf 0 buflen)), zlen (rej_uniform (Z.to_nat len) (slice buf 0 buflen))).
Proof.
  intros. unfold rej_uniform_c. rewrite rej_uniform_loop_ok by lia. rewrite !Z.sub_0_r, Z.add_0_r, Z.add_0_l. reflexivity.
Qed.

Lemma slice_splice_next a ctr l : 0 <= ctr -> ctr + zlen l <= zlen a -> slice (splice a ctr l) 0 (ctr + zlen l) = slice a 0 ctr ++ l.
Proof.
  intros Hc Hl. pose proof (zlen_nonneg l). unfold splice. rewrite app_assoc.
  assert (L1: zlen (slice a 0 ctr ++ l) = ctr + zlen l) by (rewrite zlen_app, zlen_slice; lia).
  rewrite slice_app_l by lia. apply slice_all. lia.
Qed.

Lemma uniform_while_ok s : zlen s = 25 -> forall fuel a ctr buf buflen st pos,
  zlen a = 256 -> 0 <= ctr <= 256 -> zlen buf = 842 -> 168 <= buflen <= 840 -> squeezing 168 s pos st -> 0 <= pos ->
  poly_uniform_while fuel a ctr buf buflen st
  = Ret (uniform_loop fuel (xof_of (stream 168 s)) pos (slice buf 0 buflen) (slice a 0 ctr)).
Proof.
  intros Hs. induction fuel as [|fuel IH]; intros a ctr buf buflen st pos Ha Hc Hb Hbl Hst Hp; cbn [poly_uniform_while uniform_loop];
    rewrite (zlen_slice a 0 ctr) by lia; destruct (Z.ltb_spec ctr 256) as [H1|H1].
  - reflexivity.
  - f_equal. f_equal. symmetry. apply slice_all. lia.
  - assert (Ho: 0 <= buflen mod 3 < 3) by (apply Z.mod_pos_bound; lia). set (off := buflen mod 3) in *.
    assert (EL: for_loop off (fun i buf => b <- rd 0 buf (buflen - off + i) ;; wr buf i b) buf = Ret (splice buf 0 (slice buf (buflen - off) off))).
    { rewrite <- (move_up_ok off buf 0 (buflen - off)) by lia. reflexivity. }
    rewrite EL. cbn [bind]. clear EL. set (buf1 := splice buf 0 _).
    assert (Lo: zlen (slice buf (buflen - off) off) = off) by (apply zlen_slice; lia).
    assert (L1: zlen buf1 = 842) by (unfold buf1; rewrite zlen_splice; lia).
    destruct (sq_ok 168 s buf1 off 168 st pos ltac:(lia) Hs Hst Hp ltac:(lia) ltac:(lia) ltac:(lia)) as (st' & E & Hst').
    unfold shake128_inc_squeeze, SHAKE128_RATE. rewrite E. cbn [bind].
    set (x := xof_of (stream 168 s)) in *. assert (Lx: zlen (x pos 168) = 168) by (apply xof_len; lia).
    set (buf2 := splice buf1 off (x pos 168)). assert (L2: zlen buf2 = 842) by (unfold buf2; rewrite zlen_splice; lia).
    assert (E2: slice buf2 0 (168 + off) = slice (slice buf 0 buflen) (zlen (slice buf 0 buflen) - zlen (slice buf 0 buflen) mod 3) (zlen (slice buf 0 buflen) mod 3) ++ x pos 168).
    { rewrite (zlen_slice buf 0 buflen) by lia. fold off. unfold buf2. replace (168 + off) with (off + zlen (x pos 168)) by lia.
      rewrite slice_splice_next by lia. f_equal. unfold buf1. rewrite slice_splice_in by lia. rewrite Z.sub_0_r, slice_all by lia.
      rewrite slice_slice by lia. reflexivity. }
    rewrite rej_uniform_c_ok by lia. cbn [bind]. rewrite E2.
    set (mb := slice (slice buf 0 buflen) _ _ ++ _) in *. set (l := rej_uniform (Z.to_nat (256 - ctr)) mb).
    assert (Hl: zlen l <= 256 - ctr) by (pose proof (rej_uniform_len (Z.to_nat (256 - ctr)) mb); fold l in H; lia).
    pose proof (zlen_nonneg l).
    rewrite (IH (splice a ctr l) (ctr + zlen l) buf2 (168 + off) st' (pos + 168)); try lia; [|rewrite zlen_splice; lia|exact Hst'].
    rewrite slice_splice_next by lia. rewrite E2. do 2 f_equal. unfold l.
    do 2 f_equal. pose proof (zlen_slice a 0 ctr ltac:(lia) ltac:(lia) ltac:(lia)) as La. unfold zlen in La. lia.
  - f_equal. f_equal. symmetry. apply slice_all. lia.
Qed.
Lemma uniform_loop_ext x x' : (forall p n, 0 <= p -> 0 <= n -> x p n = x' p n) -> forall fuel p buf acc, 0 <= p ->
  uniform_loop fuel x p buf acc = uniform_loop fuel x' p buf acc.
Proof.
  intros Hx. induction fuel as [|fuel IH]; intros p buf acc Hp; cbn [uniform_loop]; [reflexivity|].
  destruct (zlen acc <? 256); [|reflexivity]. rewrite Hx by lia. apply IH. lia.
Qed.
Lemma poly_uniform_c_ok fuel a0 buf0 seed nonce : zlen a0 = 256 -> zlen buf0 = 842 -> zlen seed = 32 ->
  poly_uniform_c fuel a0 buf0 seed nonce = Ret (poly_uniform fuel seed nonce).
Proof.
  intros Ha Hb Hs. unfold poly_uniform_c. destruct (init128_ok seed nonce Hs) as (c & -> & Hc). cbn [bind].
  set (s := st128 seed nonce) in *. assert (H25: zlen s = 25) by (apply zlen_pad; lia).
  destruct (sq_ok 168 s buf0 0 840 c 0 ltac:(lia) H25 Hc ltac:(lia) ltac:(lia) ltac:(lia) ltac:(lia)) as (c' & E & Hc').
  unfold shake128_inc_squeeze, SHAKE128_RATE. rewrite E. cbn [bind].
  set (x := xof_of (stream 168 s)) in *. assert (Lx: zlen (x 0 840) = 840) by (apply xof_len; lia).
  assert (Lb: zlen (splice buf0 0 (x 0 840)) = 842) by (rewrite zlen_splice; lia).
  rewrite rej_uniform_c_ok by lia.
  cbn [bind]. rewrite slice_splice_in by lia. rewrite Z.sub_0_r, slice_all by lia.
  change (Z.to_nat 256) with 256%nat. set (l := rej_uniform 256 (x 0 840)).
  assert (Hl: zlen l <= 256) by (pose proof (rej_uniform_len 256 (x 0 840)); fold l in H; lia). pose proof (zlen_nonneg l).
  rewrite (uniform_while_ok s H25 fuel (splice a0 0 l) (zlen l) (splice buf0 0 (x 0 840)) 840 c' 840); try lia; [|rewrite zlen_splice; lia|exact Hc'].
  rewrite slice_splice_in by lia. rewrite Z.sub_0_r, slice_all by lia.
  rewrite slice_splice_in by lia. rewrite Z.sub_0_r, slice_all by lia.
  f_equal. unfold poly_uniform, poly_uniform_x. rewrite (stream128_x seed nonce 0 840) by lia. fold s. fold x. fold l.
  symmetry. apply uniform_loop_ext; [|lia]. intros. apply stream128_x; lia.
Qed.

(** ** rej_eta *)
Lemma rej_eta_len : forall buf n, zlen (rej_eta n buf) <= Z.of_nat n.
Proof.
  induction buf as [|b rest IH]; intros n; cbn [rej_eta]; [rewrite zlen_nil; lia|]. destruct n as [|n]; [rewrite zlen_nil; lia|].
  set (t0 := Z.land b 15). set (t1 := Z.shiftr b 4). rewrite !zlen_app. destruct (t0 <? 15); cbn [length].
  - destruct ((t1 <? 15) && (0 <? Z.of_nat (S n - 1))) eqn:E1; rewrite ?zlen_cons, ?zlen_nil.
    + cbn [length]. specialize (IH (S n - 1 - 1)%nat). lia.
    + cbn [length]. specialize (IH (S n - 1 - 0)%nat). lia.
  - destruct ((t1 <? 15) && (0 <? Z.of_nat (S n - 0))) eqn:E1; rewrite ?zlen_cons, ?zlen_nil.
    + cbn [length]. specialize (IH (S n - 0 - 1)%nat). lia.
    + cbn [length]. specialize (IH (S n - 0 - 0)%nat). lia.
Qed.
Lemma rej_eta_loop_ok : forall fuel a aoff len buf buflen ctr pos,
  0 <= ctr <= len -> 0 <= pos <= buflen -> buflen <= zlen buf -> 0 <= aoff -> aoff + len <= zlen a ->
  buflen - pos <= Z.of_nat fuel ->
  rej_eta_loop fuel a aoff len buf buflen ctr pos
  = Ret (splice a (aoff + ctr) (rej_eta (Z.to_nat (len - ctr)) (slice buf pos (buflen - pos))),
         ctr + zlen (rej_eta (Z.to_nat (len - ctr)) (slice buf pos (buflen - pos)))).
Proof.
  induction fuel as [|fuel IH]; intros a aoff len buf buflen ctr pos Hc Hp Hb Ha Hal Hf; cbn [rej_eta_loop].
  - replace (pos <? buflen) with false by lia. rewrite andb_false_r. rewrite slice_neg by lia. cbn [rej_eta].
    rewrite splice_nil, zlen_nil, Z.add_0_r by lia. reflexivity.
  - destruct (Z.ltb_spec pos buflen) as [H2|H2].
    2:{ rewrite andb_false_r. rewrite slice_neg by lia. cbn [rej_eta]. rewrite splice_nil, zlen_nil, Z.add_0_r by lia. reflexivity. }
    rewrite andb_true_r. rewrite (slice_cons buf pos (buflen - pos)) by lia. cbn [rej_eta].
    destruct (Z.ltb_spec ctr len) as [H1|H1].
    2:{ replace (Z.to_nat (len - ctr)) with O by lia. rewrite splice_nil, zlen_nil, Z.add_0_r by lia. reflexivity. }
    rewrite rd_ok by lia. cbn [bind]. replace (Z.to_nat (len - ctr)) with (S (Z.to_nat (len - (ctr + 1)))) by lia. cbv zeta.
    set (b := nth (Z.to_nat pos) buf 0). set (t0 := Z.land b 15). set (t1 := Z.shiftr b 4).
    replace (buflen - pos - 1) with (buflen - (pos + 1)) by lia.
    assert (STEP: forall a1 n1 l1, zlen l1 <= len - ctr -> zlen a1 = zlen a -> a1 = splice a (aoff + ctr) l1 -> n1 = (Z.to_nat (len - ctr) - length l1)%nat ->
      rej_eta_loop fuel a1 aoff len buf buflen (ctr + zlen l1) (pos + 1)
      = Ret (splice a (aoff + ctr) (l1 ++ rej_eta n1 (slice buf (pos + 1) (buflen - (pos + 1)))),
             ctr + zlen (l1 ++ rej_eta n1 (slice buf (pos + 1) (buflen - (pos + 1)))))).
    { intros a1 n1 l1 Hl1 La1 -> ->. pose proof (zlen_nonneg l1). rewrite IH by lia.
      replace (Z.to_nat (len - (ctr + zlen l1))) with (Z.to_nat (len - ctr) - length l1)%nat by (unfold zlen; lia).
      set (l2 := rej_eta _ _). assert (Hl2: zlen l2 <= len - ctr - zlen l1).
      { pose proof (rej_eta_len (slice buf (pos + 1) (buflen - (pos + 1))) (Z.to_nat (len - ctr) - length l1)) as G. fold l2 in G. unfold zlen in *. lia. }
      rewrite Z.add_assoc, splice_splice by lia. rewrite zlen_app. do 2 f_equal. lia. }
    destruct (t0 <? 15) eqn:E0.
    + rewrite wr_splice by lia. cbn [bind]. cbn [length].
      replace (0 <? Z.of_nat (S (Z.to_nat (len - (ctr + 1))) - 1)) with (ctr + 1 <? len) by lia.
      destruct ((t1 <? 15) && (ctr + 1 <? len)) eqn:E1.
      * rewrite wr_splice by (rewrite zlen_splice by (change (zlen [eta_coeff t0]) with 1; lia); lia). cbn [bind].
        change ([eta_coeff t0] ++ [eta_coeff t1] ++ ?k) with ([eta_coeff t0; eta_coeff t1] ++ k).
        replace (ctr + 1 + 1) with (ctr + zlen [eta_coeff t0; eta_coeff t1]) by (rewrite !zlen_cons, zlen_nil; lia).
        apply STEP; [rewrite !zlen_cons, zlen_nil; lia| | |cbn [length]; lia].
        -- rewrite !zlen_splice; rewrite ?zlen_splice; change (zlen [eta_coeff t0]) with 1; change (zlen [eta_coeff t1]) with 1; lia.
        -- replace (aoff + (ctr + 1)) with (aoff + ctr + zlen [eta_coeff t0]) by (change (zlen [eta_coeff t0]) with 1; lia).
           rewrite splice_splice; [reflexivity|lia|]. change (zlen [eta_coeff t0]) with 1; change (zlen [eta_coeff t1]) with 1; lia.
      * cbn [bind app].
        replace (ctr + 1) with (ctr + zlen [eta_coeff t0]) at 1 by (change (zlen [eta_coeff t0]) with 1; lia).
        apply (STEP _ _ [eta_coeff t0]); [change (zlen [eta_coeff t0]) with 1; lia| |reflexivity|cbn [length]; lia].
        rewrite zlen_splice; change (zlen [eta_coeff t0]) with 1; lia.
    + cbn [bind length app].
      replace (0 <? Z.of_nat (S (Z.to_nat (len - (ctr + 1))) - 0)) with (ctr <? len) by lia.
      destruct ((t1 <? 15) && (ctr <? len)) eqn:E1.
      * rewrite wr_splice by lia. cbn [bind].
        replace (ctr + 1) with (ctr + zlen [eta_coeff t1]) at 1 by (change (zlen [eta_coeff t1]) with 1; lia).
        apply (STEP _ _ [eta_coeff t1]); [change (zlen [eta_coeff t1]) with 1; lia| |reflexivity|cbn [length]; lia].
        rewrite zlen_splice; change (zlen [eta_coeff t1]) with 1; lia.
      * cbn [bind app length]. rewrite <- (Z.add_0_r ctr) at 1. rewrite <- (@zlen_nil Z) at 1.
        apply (STEP _ _ []); [rewrite zlen_nil; lia|reflexivity|now rewrite splice_nil by lia|cbn [length]; lia].
Qed.
Lemma rej_eta_c_ok a aoff len buf buflen : 0 <= len -> 0 <= buflen <= zlen buf -> 0 <= aoff -> aoff + len <= zlen a ->
  rej_eta_c a aoff len buf buflen = Ret (splice a aoff (rej_eta (Z.to_nat len) (slice buf 0 buflen)), zlen (rej_eta (Z.to_nat len) (slice buf 0 buflen))).
Proof.
  intros. unfold rej_eta_c. rewrite rej_eta_loop_ok by lia. rewrite !Z.sub_0_r, Z.add_0_r, Z.add_0_l. reflexivity.
Qed.
Lemma eta_while_ok s : zlen s = 25 -> forall fuel a ctr buf st pos,
  zlen a = 256 -> 0 <= ctr <= 256 -> zlen buf = 136 -> squeezing 136 s pos st -> 0 <= pos ->
  poly_uniform_eta_while fuel a ctr buf st = Ret (eta_loop fuel (xof_of (stream 136 s)) pos (slice a 0 ctr)).
Proof.
  intros Hs. induction fuel as [|fuel IH]; intros a ctr buf st pos Ha Hc Hb Hst Hp; cbn [poly_uniform_eta_while eta_loop];
    rewrite (zlen_slice a 0 ctr) by lia; destruct (Z.ltb_spec ctr 256) as [H1|H1].
  - reflexivity.
  - f_equal. f_equal. symmetry. apply slice_all. lia.
  - destruct (sq_ok 136 s buf 0 136 st pos ltac:(lia) Hs Hst Hp ltac:(lia) ltac:(lia) ltac:(lia)) as (st' & E & Hst').
    unfold shake256_inc_squeeze, SHAKE256_RATE. rewrite E. cbn [bind].
    set (x := xof_of (stream 136 s)) in *. assert (Lx: zlen (x pos 136) = 136) by (apply xof_len; lia).
    rewrite splice_whole' by lia. rewrite rej_eta_c_ok by lia. cbn [bind]. rewrite slice_all by lia.
    set (l := rej_eta (Z.to_nat (256 - ctr)) (x pos 136)).
    assert (Hl: zlen l <= 256 - ctr) by (pose proof (rej_eta_len (x pos 136) (Z.to_nat (256 - ctr))); fold l in H; lia).
    pose proof (zlen_nonneg l).
    rewrite (IH (splice a ctr l) (ctr + zlen l) (x pos 136) st' (pos + 136)); try lia; [|rewrite zlen_splice; lia|exact Hst'].
    rewrite slice_splice_next by lia. do 2 f_equal. unfold l.
    do 2 f_equal. pose proof (zlen_slice a 0 ctr ltac:(lia) ltac:(lia) ltac:(lia)) as La. unfold zlen in La. lia.
  - f_equal. f_equal. symmetry. apply slice_all. lia.
Qed.
Lemma eta_loop_ext x x' : (forall p n, 0 <= p -> 0 <= n -> x p n = x' p n) -> forall fuel p acc, 0 <= p ->
  eta_loop fuel x p acc = eta_loop fuel x' p acc.
Proof.
  intros Hx. induction fuel as [|fuel IH]; intros p acc Hp; cbn [eta_loop]; [reflexivity|].
  destruct (zlen acc <? 256); [|reflexivity]. rewrite Hx by lia. apply IH. lia.
Qed.
Lemma poly_uniform_eta_c_ok fuel a0 buf0 seed nonce : zlen a0 = 256 -> zlen buf0 = 136 -> zlen seed = 64 ->
  poly_uniform_eta_c fuel a0 buf0 seed nonce = Ret (poly_uniform_eta fuel seed nonce).
Proof.
  intros Ha Hb Hs. unfold poly_uniform_eta_c. destruct (init256_ok seed nonce Hs) as (c & -> & Hc). cbn [bind].
  set (s := st256 seed nonce) in *. assert (H25: zlen s = 25) by (apply zlen_pad; lia).
  destruct (sq_ok 136 s buf0 0 136 c 0 ltac:(lia) H25 Hc ltac:(lia) ltac:(lia) ltac:(lia) ltac:(lia)) as (c' & E & Hc').
  unfold shake256_inc_squeeze, SHAKE256_RATE. rewrite E. cbn [bind].
  set (x := xof_of (stream 136 s)) in *. assert (Lx: zlen (x 0 136) = 136) by (apply xof_len; lia).
  rewrite splice_whole' by lia. rewrite rej_eta_c_ok by lia. cbn [bind]. rewrite slice_all by lia.
  change (Z.to_nat 256) with 256%nat. set (l := rej_eta 256 (x 0 136)).
  assert (Hl: zlen l <= 256) by (pose proof (rej_eta_len (x 0 136) 256); fold l in H; lia). pose proof (zlen_nonneg l).
  rewrite (eta_while_ok s H25 fuel (splice a0 0 l) (zlen l) (x 0 136) c' 136); try lia; [|rewrite zlen_splice; lia|exact Hc'].
  rewrite slice_splice_in by lia. rewrite Z.sub_0_r, slice_all by lia.
  f_equal. unfold poly_uniform_eta, poly_uniform_eta_x. rewrite (stream256_x seed nonce 0 136) by lia. fold s. fold x. fold l.
  symmetry. apply eta_loop_ext; [|lia]. intros. apply stream256_x; lia.
Qed.

(** ** mask sampling *)
Lemma poly_uniform_gamma1_c_ok buf0 seed nonce : zlen buf0 = 680 -> zlen seed = 64 ->
  poly_uniform_gamma1_c buf0 seed nonce = Ret (poly_uniform_gamma1 seed nonce).
Proof.
  intros Hb Hs. unfold poly_uniform_gamma1_c. destruct (init256_ok seed nonce Hs) as (c & -> & Hc). cbn [bind].
  set (s := st256 seed nonce) in *. assert (H25: zlen s = 25) by (apply zlen_pad; lia).
  destruct (sq_ok 136 s buf0 0 680 c 0 ltac:(lia) H25 Hc ltac:(lia) ltac:(lia) ltac:(lia) ltac:(lia)) as (c' & E & Hc').
  unfold shake256_inc_squeeze, SHAKE256_RATE. rewrite E. cbn [bind].
  set (x := xof_of (stream 136 s)) in *. assert (Lx: zlen (x 0 680) = 680) by (apply xof_len; lia).
  rewrite splice_whole' by lia. rewrite rdrange_ok by lia. cbn [bind].
  unfold poly_uniform_gamma1, poly_uniform_gamma1_x. rewrite (stream256_x seed nonce 0 680) by lia. reflexivity.
Qed.

(** ** challenge *)
Lemma challenge_next_ok s i : zlen s = 25 -> forall fuel buf pos st off,
  zlen buf = 136 -> 0 <= pos <= 136 -> squeezing 136 s off st -> 0 <= off -> buf = xof_of (stream 136 s) (off - 136) 136 -> 136 <= off ->
  match chal_next fuel (xof_of (stream 136 s)) i (buf, pos, off) with
  | None => challenge_next_c fuel i buf pos st = Ret None
  | Some (b, (buf', pos', off')) =>
      exists st', challenge_next_c fuel i buf pos st = Ret (Some (b, (buf', pos', st'))) /\
        zlen buf' = 136 /\ 0 <= pos' <= 136 /\ squeezing 136 s off' st' /\ buf' = xof_of (stream 136 s) (off' - 136) 136 /\ 136 <= off' /\ 0 <= b <= i
  end.
Proof.
  intros Hs. induction fuel as [|fuel IH]; intros buf pos st off Hb Hp Hst Ho Eb Ho1; cbn [chal_next challenge_next_c]; [reflexivity|].
  set (x := xof_of (stream 136 s)) in *.
  assert (KEY: forall buf1 pos1 off1 st1, zlen buf1 = 136 -> 0 <= pos1 < 136 -> squeezing 136 s off1 st1 -> buf1 = x (off1 - 136) 136 -> 136 <= off1 ->
    match (let b := ix buf1 pos1 in let st0 := (buf1, pos1 + 1, off1) in if i <? b then chal_next fuel x i st0 else Some (b, st0)) with
    | None => (b <- rd 0 buf1 pos1 ;; if i <? b then challenge_next_c fuel i buf1 (pos1 + 1) st1 else Ret (Some (b, (buf1, pos1 + 1, st1)))) = Ret None
    | Some (b, (buf', pos', off')) =>
      exists st', (b <- rd 0 buf1 pos1 ;; if i <? b then challenge_next_c fuel i buf1 (pos1 + 1) st1 else Ret (Some (b, (buf1, pos1 + 1, st1))))
         = Ret (Some (b, (buf', pos', st'))) /\
        zlen buf' = 136 /\ 0 <= pos' <= 136 /\ squeezing 136 s off' st' /\ buf' = x (off' - 136) 136 /\ 136 <= off' /\ 0 <= b <= i
    end).
  { intros buf1 pos1 off1 st1 H1 H2 H3 H4 H5. rewrite rd_ok by lia. cbn [bind]. cbv zeta. unfold ix.
    set (b := nth (Z.to_nat pos1) buf1 0). destruct (Z.ltb_spec i b) as [Hib|Hib].
    - apply IH; try assumption; lia.
    - exists st1. split; [reflexivity|]. split; [exact H1|]. split; [lia|]. split; [exact H3|]. split; [exact H4|]. split; [exact H5|].
      assert (HB: byte_ok b) by (unfold b; rewrite H4; apply bytes_ok_nth, xof_bytes; lia). unfold byte_ok in HB. lia. }
  destruct (Z.leb_spec 136 pos) as [H1|H1].
  - destruct (sq_ok 136 s buf 0 136 st off ltac:(lia) Hs Hst Ho ltac:(lia) ltac:(lia) ltac:(lia)) as (st' & E & Hst').
    fold x in E. unfold shake256_inc_squeeze, SHAKE256_RATE. rewrite E. cbn [bind].
    assert (Lx: zlen (x off 136) = 136) by (apply xof_len; lia). rewrite splice_whole' by lia.
    apply KEY; [exact Lx|lia|exact Hst'|f_equal; lia|lia].
  - cbn [bind]. apply KEY; [exact Hb|lia|exact Hst|exact Eb|exact Ho1].
Qed.
Lemma challenge_loop_ok s fuel : zlen s = 25 -> forall n i c signs buf pos st off,
  zlen c = 256 -> 0 <= i -> i + Z.of_nat n <= 256 ->
  zlen buf = 136 -> 0 <= pos <= 136 -> squeezing 136 s off st -> buf = xof_of (stream 136 s) (off - 136) 136 -> 136 <= off ->
  challenge_loop_c fuel n i c signs buf pos st = Ret (chal_loop fuel (xof_of (stream 136 s)) (zseq i n) c signs (buf, pos, off)).
Proof.
  intros Hs. induction n as [|n IH]; intros i c signs buf pos st off Hc Hi Hin Hb Hp Hst Eb Ho; cbn [challenge_loop_c zseq chal_loop]; [reflexivity|].
  pose proof (challenge_next_ok s i Hs fuel buf pos st off Hb Hp Hst ltac:(lia) Eb Ho) as HN.
  destruct (chal_next fuel (xof_of (stream 136 s)) i (buf, pos, off)) as [[b [[buf' pos'] off']]|] eqn:EN.
  - destruct HN as (st' & -> & A1 & A2 & A3 & A4 & A5 & A6). cbn [bind]. rewrite rd_ok by lia. cbn [bind].
    rewrite wr_ok by lia. cbn [bind]. rewrite wr_ok by (rewrite zlen_upd; lia). cbn [bind].
    change (nth (Z.to_nat b) c 0) with (ix c b).
    apply IH; try assumption; try lia. rewrite !zlen_upd. exact Hc.
  - rewrite HN. reflexivity.
Qed.
Lemma chal_next_ext x x' i : (forall p n, 0 <= p -> 0 <= n -> x p n = x' p n) -> forall fuel st, 0 <= snd st ->
  chal_next fuel x i st = chal_next fuel x' i st /\ (forall b st', chal_next fuel x i st = Some (b, st') -> 0 <= snd st').
Proof.
  intros Hx. induction fuel as [|fuel IH]; intros [[buf pos] off] Ho; cbn [chal_next snd] in *; [split; [reflexivity|discriminate]|].
  destruct (136 <=? pos).
  - rewrite Hx by lia. cbv zeta. destruct (i <? ix (x' off 136) 0).
    + apply (IH (x' off 136, 0 + 1, off + 136)). cbn [snd]. lia.
    + split; [reflexivity|]. intros b st' E. inversion E. cbn [snd]. lia.
  - cbv zeta. destruct (i <? ix buf pos).
    + apply (IH (buf, pos + 1, off)). exact Ho.
    + split; [reflexivity|]. intros b st' E. inversion E. exact Ho.
Qed.
Lemma chal_loop_ext x x' fuel : (forall p n, 0 <= p -> 0 <= n -> x p n = x' p n) -> forall is c signs st, 0 <= snd st ->
  chal_loop fuel x is c signs st = chal_loop fuel x' is c signs st.
Proof.
  intros Hx. induction is as [|i is IH]; intros c signs st Hst; cbn [chal_loop]; [reflexivity|].
  destruct (chal_next_ext x x' i Hx fuel st Hst) as [E H]. rewrite <- E.
  destruct (chal_next fuel x i st) as [[b st']|]; [|reflexivity]. apply IH. now apply (H b st').
Qed.
Lemma signs_ok buf : 8 <= zlen buf -> bytes_ok buf ->
  for_loop 8 (fun i s => b <- rd 0 buf i ;; Ret (Z.lor s (u64 (Z.shiftl b (8 * i))))) 0 = Ret (signs_of buf).
Proof.
  intros Hl Hb. assert (U: forall i, 0 <= i < 8 -> u64 (Z.shiftl (nth (Z.to_nat i) buf 0) (8 * i)) = Z.shiftl (nth (Z.to_nat i) buf 0) (8 * i)).
  { intros i Hi. unfold u64. apply Z.mod_small. pose proof (bytes_ok_nth buf (Z.to_nat i) Hb) as B. unfold byte_ok in B.
    rewrite Z.shiftl_mul_pow2 by lia. assert (2 ^ (8 * i) <= 2 ^ 56) by (apply Z.pow_le_mono_r; lia). assert (0 < 2 ^ (8 * i)) by (apply Z.pow_pos_nonneg; lia). nia. }
  unfold for_loop. change (Z.to_nat 8) with 8%nat. cbn [for_from].
  rewrite !rd_ok by lia. cbn [bind]. change (0 + 1) with 1. change (1 + 1) with 2. change (2 + 1) with 3. change (3 + 1) with 4.
  change (4 + 1) with 5. change (5 + 1) with 6. change (6 + 1) with 7.
  rewrite !U by lia. reflexivity.
Qed.
Lemma zero_fill_ok c0 : zlen c0 = 256 -> for_loop 256 (fun i c => wr c i 0) c0 = Ret (zeros 256).
Proof.
  intros H. change (for_loop 256 (fun i h => b <- Ret 0 ;; wr h (0 + i) b) c0 = Ret (zeros 256)).
  rewrite (fill_loop (fun _ => Ret 0) (fun _ => 0)); [|lia|lia|lia|reflexivity].
  rewrite splice_whole' by (rewrite zlen_map, zlen_zseq; lia). reflexivity.
Qed.
Lemma poly_challenge_c_ok fuel c0 buf0 seed : zlen c0 = 256 -> zlen buf0 = 136 -> 32 <= zlen seed ->
  poly_challenge_c fuel c0 buf0 seed = Ret (poly_challenge fuel seed).
Proof.
  intros Hc Hb Hs. unfold poly_challenge_c, shake256_inc_absorb, shake256_inc_init, shake256_inc_finalize, SHAKE256_RATE.
  destruct (absorb_ok 136 keccak_inc_init seed 32 [] ltac:(lia) (ctx_ok_init 136 ltac:(lia)) (init_pair _) ltac:(lia)) as (c1 & -> & H1 & E1).
  cbn [bind]. cbn [app] in E1.
  destruct (finalize_ok 136 0x1F c1 _ ltac:(lia) H1 E1) as (c2 & -> & H2). cbn [bind].
  set (s := pad_state 136 31 (absorb 136 (slice seed 0 32))) in *. assert (H25: zlen s = 25) by (apply zlen_pad; lia).
  destruct (sq_ok 136 s buf0 0 136 c2 0 ltac:(lia) H25 H2 ltac:(lia) ltac:(lia) ltac:(lia) ltac:(lia)) as (c' & E & Hc').
  unfold shake256_inc_squeeze, SHAKE256_RATE. rewrite E. cbn [bind].
  set (x := xof_of (stream 136 s)) in *. assert (Lx: zlen (x 0 136) = 136) by (apply xof_len; lia).
  rewrite splice_whole' by lia. rewrite signs_ok by (lia || (apply xof_bytes; lia)). cbn [bind].
  rewrite zero_fill_ok by exact Hc. cbn [bind].
  rewrite (challenge_loop_ok s fuel H25 39 217 (zeros 256) (signs_of (x 0 136)) (x 0 136) 8 c' 136);
    [|rewrite zlen_zeros; lia|lia|lia|exact Lx|lia|exact Hc'|change (136 - 136) with 0; fold x; reflexivity|lia].
  unfold poly_challenge, poly_challenge_x. apply (f_equal Ret). rewrite (shake256_xof_x _ 0 136) by lia. fold s. fold x.
  symmetry. apply chal_loop_ext; [|cbn [snd]; lia]. intros. apply shake256_xof_x; lia.
Qed.
