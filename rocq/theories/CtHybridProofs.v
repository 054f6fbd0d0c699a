(** The recorded hybrid programs of CtHybrid.v: two runs side by side. *)
From Coq Require Import ZifyBool ZifyNat.
From Verif Require Import Base SpongePure SpongeProofs2 BufLemmas Hybrid HybridSpec HybridProgSpec EdSig SpxSpec DilFips CtBase CtKeccak.
From Verif Require Import CtHybrid.
From Verif Require CtTweet CtDil CtSpx CtDilSpec PropsCt PropsCtKeccak PropsCtDil PropsCtSpx HybridProofs DilEncSpec PropsHybridProg HybridRealProofs CtKeccakProofs Sponge DilSignProofs HybridProgProofs2 ShakePrng PropsDilithium4 EdDecode DilFipsProofs3 PropsTweetBuf SpxBufTop.
Local Open Scope Z_scope.
Ltac Zify.zify_post_hook ::= idtac.
#[local] Opaque Keccak.KeccakF1600_StatePermute zeros slice splice.

(** Two runs with one trace, and what they return. *)
Definition two {A} (x x' : L A) (v v' : A) : Prop := trace x = trace x' /\ value x = v /\ value x' = v'.
Lemma two_bind {A B} (x x' : L A) (k k' : A -> L B) a a' v v' :
  two x x' a a' -> two (k a) (k' a') v v' -> two (lbind x k) (lbind x' k') v v'.
Proof. intros (E & F & F') (G & K & K'). unfold two. rewrite !trace_bind, !value_bind, F, F', E, G. repeat split; assumption. Qed.
Lemma two_ret {A} (a a' : A) : two (lret a) (lret a') a a'.
Proof. repeat split. Qed.
Lemma two_false {A} b (x x' y y' : L A) v v' : b = false -> two y y' v v' -> two (lif b x y) (lif b x' y') v v'.
Proof. intros -> (E & F & F'). unfold two, lif, trace, value in *. cbn [fst snd]. rewrite E. repeat split; assumption. Qed.
Lemma two_true {A} b (x x' y y' : L A) v v' : b = true -> two x x' v v' -> two (lif b x y) (lif b x' y') v v'.
Proof. intros -> (E & F & F'). unfold two, lif, trace, value in *. cbn [fst snd]. rewrite E. repeat split; assumption. Qed.
Lemma vcopy d o s so n : 0 <= o -> 0 <= n -> o + n <= zlen d -> 0 <= so -> so + n <= zlen s -> value (lcopy Zops d o s so n) = splice d o (slice s so n).
Proof. intros. apply era_copy. apply copy_splice; lia. Qed.
Lemma two_copy d s d' s' o so n : 0 <= o -> 0 <= n -> o + n <= zlen d -> o + n <= zlen d' -> 0 <= so -> so + n <= zlen s -> so + n <= zlen s' ->
  two (lcopy Zops d o s so n) (lcopy Zops d' o s' so n) (splice d o (slice s so n)) (splice d' o (slice s' so n)).
Proof. intros. split; [apply ct_copy|]. split; apply vcopy; lia. Qed.
(** a copy that fills a local array *)
Lemma two_fill d s d' s' so n : 0 <= n -> zlen d = n -> zlen d' = n -> 0 <= so -> so + n <= zlen s -> so + n <= zlen s' ->
  two (lcopy Zops d 0 s so n) (lcopy Zops d' 0 s' so n) (slice s so n) (slice s' so n).
Proof.
  intros N D D' S1 S2 S3. split; [apply ct_copy|].
  split; rewrite vcopy by lia; apply splice_whole'; rewrite zlen_slice; lia.
Qed.
Lemma two_wr l l' i v v' : 0 <= i < zlen l -> i < zlen l' -> two (lwr l i v) (lwr l' i v') (splice l i [v]) (splice l' i [v']).
Proof. intros H H'. split; [reflexivity|]. split; apply era_wr; apply wr_splice; lia. Qed.

(** ** the loop that writes the Dilithium public key twice *)
Lemma copy_both_gen n p a b :
  value (lfor n (fun i '(pk, sk) => v <~ lrd Zops p i ;;; pk <~ lwr pk (32 + i) v ;;; v <~ lrd Zops p i ;;; sk <~ lwr sk (64 + 2560 + i) v ;;; lret (pk, sk)) (a, b))
  = (value (lcopy Zops a 32 p 0 n), value (lcopy Zops b 2624 p 0 n)).
Proof.
  assert (G : forall k i a b, value (lfrom k i (fun i '(pk, sk) => v <~ lrd Zops p i ;;; pk <~ lwr pk (32 + i) v ;;; v <~ lrd Zops p i ;;; sk <~ lwr sk (64 + 2560 + i) v ;;; lret (pk, sk)) (a, b))
    = (value (lfrom k i (fun i d => v <~ lrd Zops p (0 + i) ;;; lwr d (32 + i) v) a), value (lfrom k i (fun i d => v <~ lrd Zops p (0 + i) ;;; lwr d (2624 + i) v) b))).
  { clear. induction k as [|k IH]; intros i a b; [reflexivity|]. cbn [lfrom]. cbv zeta. change (0 + i) with i. exact (IH (i + 1) _ _). }
  exact (G (Z.to_nat n) 0 a b).
Qed.
Lemma copy_both_val pk sk p : 1344 <= zlen pk -> 3936 <= zlen sk -> zlen p = 1312 ->
  value (copy_both_l Zops pk sk p) = (splice pk 32 p, splice sk 2624 p).
Proof. intros H1 H2 H3. unfold copy_both_l. rewrite copy_both_gen. rewrite !vcopy by lia. rewrite slice_all by lia. reflexivity. Qed.
Lemma two_both pk sk p pk' sk' p' : 1344 <= zlen pk -> 3936 <= zlen sk -> zlen p = 1312 -> 1344 <= zlen pk' -> 3936 <= zlen sk' -> zlen p' = 1312 ->
  two (copy_both_l Zops pk sk p) (copy_both_l Zops pk' sk' p') (splice pk 32 p, splice sk 2624 p) (splice pk' 32 p', splice sk' 2624 p').
Proof. intros. split; [unfold copy_both_l; ct|]. split; now apply copy_both_val. Qed.

(** ** the seed expander *)
Lemma seed_loop_trace fuel : forall i t s t' s', trace (copy_seed_loop_l Zops fuel i t s) = trace (copy_seed_loop_l Zops fuel i t' s').
Proof.
  induction fuel as [|fuel IH]; intros; cbn [copy_seed_loop_l]; apply ct_if; try reflexivity.
  apply ct_bind; [reflexivity|]; intros. apply ct_bind; [reflexivity|]; intros. apply IH.
Qed.
Lemma era_seed_loop fuel : forall i t s, era (copy_seed_loop fuel i t s) (copy_seed_loop_l Zops fuel i t s).
Proof.
  induction fuel as [|fuel IH]; intros; cbn [copy_seed_loop copy_seed_loop_l]; (apply era_if; [|apply era_ret]).
  - apply era_undef.
  - apply era_bind; [apply era_rd|]; intros. apply era_bind; [apply era_wr|]; intros. apply IH.
Qed.

Lemma even_only_bytes seed : bytes_ok seed -> bytes_ok (HybridProofs.even_only seed).
Proof.
  intros Bm. apply Forall_forall. intros b Hb. apply in_map_iff in Hb. destruct Hb as (i & <- & _). destruct (Nat.even i); [|split; reflexivity || lia].
  destruct (nth_in_or_default i seed 0) as [Hi| ->]; [|split; reflexivity || lia]. exact (proj1 (Forall_forall _ _) Bm _ Hi).
Qed.
Lemma zlen_vz n : 0 <= n -> zlen (vzeros Zops n) = n. Proof. rewrite vzeros_Z. apply zlen_zeros. Qed.
Lemma expander_two seed out seed' out' : bytes_ok seed -> bytes_ok seed' -> zlen seed = 96 -> zlen seed' = 96 -> 160 <= zlen out -> 160 <= zlen out' ->
  let x := shake256_bytes (HybridProofs.even_only seed ++ [2]) 128 in
  let x' := shake256_bytes (HybridProofs.even_only seed' ++ [2]) 128 in
  two (keypair_seed_expander_l Zops seed out) (keypair_seed_expander_l Zops seed' out')
    (0, splice out 0 (slice x 0 32 ++ slice seed 64 32 ++ slice x 32 96)) (0, splice out' 0 (slice x' 0 32 ++ slice seed' 64 32 ++ slice x' 32 96)).
Proof.
  intros B B' L L' H H' x x'.
  assert (Lx: zlen x = 128) by (apply (DilSignProofs.sponge_bytes_len 136 0x1F); lia).
  assert (Lx': zlen x' = 128) by (apply (DilSignProofs.sponge_bytes_len 136 0x1F); lia).
  pose proof (HybridProgProofs2.even_only_len seed) as Le. pose proof (HybridProgProofs2.even_only_len seed') as Le'.
  assert (W : forall k y, zlen k = 64 -> y = shake256_bytes (k ++ [2]) 128 -> zlen y = 128 -> value (seedexpander_wrapper_l Zops k 64 (vzeros Zops 128) 128) = (0, y)).
  { intros k y Lk -> Ly. assert (Z1 : zlen (vzeros Zops 128) = 128) by (apply zlen_vz; lia).
    pose proof (ShakePrng.wrapper_ok k 64 (vzeros Zops 128) 128 ltac:(lia) ltac:(lia)) as E. rewrite slice_all, splice_whole' in E by lia.
    exact (CtKeccakProofs.era_seedexpander_wrapper _ _ _ _ _ E). }
  unfold keypair_seed_expander_l.
  eapply two_bind.
  { split; [apply seed_loop_trace|]. split; apply era_seed_loop; rewrite vzeros_Z; apply HybridProofs.copy_seed_loop_even; lia. }
  eapply two_bind.
  { split; [apply CtKeccakProofs.ct_seedexpander_wrapper|].
    split.
    - apply (W _ x Le eq_refl Lx).
    - apply (W _ x' Le' eq_refl Lx'). }
  cbv beta iota. apply two_false; [reflexivity|]. clearbody x x'.
  eapply two_bind; [apply two_copy; lia|]. eapply two_bind; [apply two_copy; rewrite ?zlen_splice; rewrite ?zlen_slice; lia|].
  eapply two_bind; [apply two_copy; repeat (rewrite ?zlen_splice; rewrite ?zlen_slice); lia|].
  assert (G : forall o y s, 160 <= zlen o -> zlen y = 128 -> zlen s = 96 ->
     splice (splice (splice o 0 (slice y 0 32)) 32 (slice s 64 32)) 64 (slice y 32 96) = splice o 0 (slice y 0 32 ++ slice s 64 32 ++ slice y 32 96)).
  { clear. intros o y s Ho Hy Hs. assert (A: zlen (slice y 0 32) = 32) by (apply zlen_slice; lia). assert (B: zlen (slice s 64 32) = 32) by (apply zlen_slice; lia). assert (C: zlen (slice y 32 96) = 96) by (apply zlen_slice; lia).
    pose proof (splice_splice o 0 (slice y 0 32) (slice s 64 32)) as S1. rewrite A in S1. change (0 + 32) with 32 in S1. rewrite S1 by lia.
    pose proof (splice_splice o 0 (slice y 0 32 ++ slice s 64 32) (slice y 32 96)) as S2. rewrite zlen_app, A, B in S2. change (0 + (32 + 32)) with 64 in S2. rewrite S2 by lia. now rewrite <- app_assoc. }
  rewrite !G by lia. apply two_ret.
Qed.

(** ** key generation *)
Lemma splices_3 o a b c : 1408 <= zlen o -> zlen a = 32 -> zlen b = 1312 -> zlen c = 64 -> splice (splice (splice o 0 a) 32 b) 1344 c = splice o 0 (a ++ b ++ c).
Proof.
  intros Ho A B C. pose proof (splice_splice o 0 a b) as S1. rewrite A in S1. change (0 + 32) with 32 in S1. rewrite S1 by lia.
  pose proof (splice_splice o 0 (a ++ b) c) as S2. rewrite zlen_app, A, B in S2. change (0 + (32 + 1312)) with 1344 in S2. rewrite S2 by lia. now rewrite <- app_assoc.
Qed.
Lemma splices_4 o a b c d : 4064 <= zlen o -> zlen a = 64 -> zlen b = 2560 -> zlen c = 1312 -> zlen d = 128 -> splice (splice (splice (splice o 0 a) 64 b) 2624 c) 3936 d = splice o 0 (a ++ b ++ c ++ d).
Proof.
  intros Ho A B C D. pose proof (splice_splice o 0 a b) as S1. rewrite A in S1. change (0 + 64) with 64 in S1. rewrite S1 by lia.
  pose proof (splice_splice o 0 (a ++ b) c) as S2. rewrite zlen_app, A, B in S2. change (0 + (64 + 2560)) with 2624 in S2. rewrite S2 by lia.
  pose proof (splice_splice o 0 ((a ++ b) ++ c) d) as S3. rewrite !zlen_app, A, B, C in S3. change (0 + (64 + 2560 + 1312)) with 3936 in S3. rewrite S3 by lia. now rewrite <- !app_assoc.
Qed.
Lemma dil_len xi pk sk : zlen xi = 32 -> bytes_ok xi -> MLDSA.keygen xi pk sk -> zlen pk = 1312 /\ zlen sk = 2560 /\ bytes_ok sk.
Proof.
  intros L B HK. destruct (PropsDilithium4.C55_keygen_complete _ _ _ (conj L B) HK) as (f & F). destruct (HybridRealProofs.dil_key_shape f _ _ _ (F f (le_n _))) as (A & _ & C & D). auto.
Qed.
Lemma keygen_two loc locw loc' locw' pk sk seed pk' sk' seed' PK SK PK' SK' :
  PropsCtSpx.stack_ok loc locw -> PropsCtSpx.stack_ok loc' locw' -> 1408 <= zlen pk -> 4064 <= zlen sk -> 1408 <= zlen pk' -> 4064 <= zlen sk' ->
  zlen seed = 160 -> bytes_ok seed -> zlen seed' = 160 -> bytes_ok seed' -> hybrid_keys seed PK SK -> hybrid_keys seed' PK' SK' ->
  CtDilSpec.Leak.same_rejections (slice seed 32 32) (slice seed' 32 32) ->
  exists f, forall fuel, (f <= fuel)%nat ->
    two (keypair_seed_l Zops loc locw fuel pk sk seed) (keypair_seed_l Zops loc' locw' fuel pk' sk' seed')
      (Some (0, splice pk 0 PK, splice sk 0 SK)) (Some (0, splice pk' 0 PK', splice sk' 0 SK')).
Proof.
  intros ST ST' Hp Hs Hp' Hs' L B L' B' HK HK' SR.
  destruct HK as (dp & ds & HD & HE). destruct HK' as (dp' & ds' & HD' & HE').
  set (e := slice seed 0 32) in *. set (e' := slice seed' 0 32) in *. set (d := slice seed 32 32) in *. set (d' := slice seed' 32 32) in *.
  set (s := slice seed 64 96) in *. set (s' := slice seed' 64 96) in *.
  assert (Le: zlen e = 32) by (apply zlen_slice; lia). assert (Le': zlen e' = 32) by (apply zlen_slice; lia).
  assert (Ld: zlen d = 32) by (apply zlen_slice; lia). assert (Ld': zlen d' = 32) by (apply zlen_slice; lia).
  assert (Ls: zlen s = 96) by (apply zlen_slice; lia). assert (Ls': zlen s' = 96) by (apply zlen_slice; lia).
  assert (Be: bytes_ok e) by now apply bytes_ok_slice. assert (Be': bytes_ok e') by now apply bytes_ok_slice.
  assert (Bd: bytes_ok d) by now apply bytes_ok_slice. assert (Bd': bytes_ok d') by now apply bytes_ok_slice.
  assert (Bs: bytes_ok s) by now apply bytes_ok_slice. assert (Bs': bytes_ok s') by now apply bytes_ok_slice.
  destruct PropsCt.C66_ed25519_keygen as (T1 & K1). destruct (K1 e Le Be) as (T1e & V1e). destruct (K1 e' Le' Be') as (T1e' & V1e').
  assert (Lep: zlen (ed_public e) = 32) by apply EdDecode.zlen_penc. assert (Lep': zlen (ed_public e') = 32) by apply EdDecode.zlen_penc.
  pose proof (proj1 ST) as LOC. pose proof (proj1 ST') as LOC'.
  destruct (dil_len _ _ _ Ld Bd HD) as (Ldp & Lds & Bds). destruct (dil_len _ _ _ Ld' Bd' HD') as (Ldp' & Lds' & Bds').
  destruct (PropsCtDil.C70_keygen_value loc (vzeros Zops 1312) (vzeros Zops 2560) d dp ds LOC ltac:(rewrite zlen_vz; lia) ltac:(rewrite zlen_vz; lia) (conj Ld Bd) HD) as (f & F).
  destruct (PropsCtDil.C70_keygen_value loc' (vzeros Zops 1312) (vzeros Zops 2560) d' dp' ds' LOC' ltac:(rewrite zlen_vz; lia) ltac:(rewrite zlen_vz; lia) (conj Ld' Bd') HD') as (f' & F').
  exists (Nat.max f f'). intros fuel Hf. specialize (F fuel ltac:(lia)). specialize (F' fuel ltac:(lia)).
  pose proof (PropsCtDil.C70_keygen_trace loc loc' fuel (vzeros Zops 1312) (vzeros Zops 2560) d (vzeros Zops 1312) (vzeros Zops 2560) d' LOC LOC' (conj Ld Bd) (conj Ld' Bd') SR) as TD.
  rewrite !splice_whole' in F, F' by (rewrite zlen_vz; lia).
  destruct PropsCtSpx.C68_keygen_has_one_trace as (T3 & K3).
  assert (BZ: bytes_ok (vzeros Zops 128)) by (rewrite vzeros_Z; apply bytes_ok_zeros).
  destruct (K3 loc locw (vzeros Zops 64) (vzeros Zops 128) s ST ltac:(rewrite zlen_vz; lia) ltac:(rewrite zlen_vz; lia) BZ Ls Bs) as (T3s & V3s).
  destruct (K3 loc' locw' (vzeros Zops 64) (vzeros Zops 128) s' ST' ltac:(rewrite zlen_vz; lia) ltac:(rewrite zlen_vz; lia) BZ Ls' Bs') as (T3s' & V3s').
  destruct (HybridRealProofs.spx_key_shape s Ls Bs) as (LP3 & LK3 & _). destruct (HybridRealProofs.spx_key_shape s' Ls' Bs') as (LP3' & LK3' & _). unfold HybridRealProofs.SH in *.
  destruct (slh_keygen shake256_bytes s) as [sp ss]. destruct (slh_keygen shake256_bytes s') as [sp' ss']. cbn [fst snd] in *.
  rewrite !splice_whole' in V3s, V3s' by (rewrite zlen_vz; lia).
  destruct HE as [-> ->]. destruct HE' as [-> ->].
  assert (Lek: zlen (e ++ ed_public e) = 64) by (rewrite zlen_app; lia). assert (Lek': zlen (e' ++ ed_public e') = 64) by (rewrite zlen_app; lia).
  unfold keypair_seed_l.
  eapply two_bind; [apply two_fill; rewrite ?zlen_vz; lia|]. fold e e'.
  eapply two_bind; [apply two_fill; rewrite ?zlen_vz; lia|]. fold d d'.
  eapply two_bind; [apply two_fill; rewrite ?zlen_vz; lia|]. change (32 + 32) with 64. fold s s'.
  eapply two_bind; [split; [rewrite T1e, T1e'; reflexivity|split; [exact V1e|exact V1e']]|].
  cbv beta iota. apply two_false; [reflexivity|].
  clearbody e e' d d' s s'. set (ep := ed_public e) in *. set (ep' := ed_public e') in *. set (ek := e ++ ep) in *. set (ek' := e' ++ ep') in *. clearbody ek ek' ep ep'.
  eapply two_bind; [apply two_copy; lia|]. eapply two_bind; [apply two_copy; lia|].
  rewrite !slice_all by lia.
  eapply two_bind; [split; [exact TD|split; [exact F|exact F']]|]. cbv beta iota. apply two_false; [reflexivity|].
  eapply two_bind; [apply two_copy; rewrite ?zlen_splice; lia|]. rewrite !slice_all by lia.
  eapply two_bind; [apply two_both; rewrite ?zlen_splice; rewrite ?zlen_splice; lia|]. cbv beta iota.
  eapply two_bind; [split; [rewrite T3s, T3s'; reflexivity|split; [exact V3s|exact V3s']]|]. cbv beta iota. apply two_false; [reflexivity|].
  eapply two_bind; [apply two_copy; rewrite ?zlen_splice; rewrite ?zlen_splice; rewrite ?zlen_splice; lia|].
  eapply two_bind; [apply two_copy; rewrite ?zlen_splice; rewrite ?zlen_splice; lia|].
  rewrite !slice_all by lia. change (64 + 2560 + 1312) with 3936. change (32 + 1312) with 1344.
  unfold pk_layout, sk_layout. rewrite !splices_3, !splices_4 by lia. apply two_ret.
Qed.

(** ** full signing *)
Lemma splices_5 o a b s d x : 2 + zlen s + zlen d + zlen x <= zlen o ->
  splice (splice (splice (splice (splice o 0 [a]) 1 [b]) 2 s) (2 + zlen s) d) (2 + zlen s + zlen d) x = splice o 0 ([a; b] ++ s ++ d ++ x).
Proof.
  intros Ho. pose proof (zlen_nonneg s). pose proof (zlen_nonneg d). pose proof (zlen_nonneg x).
  pose proof (splice_splice o 0 [a] [b]) as S1. change (zlen [a]) with 1 in S1. change (zlen [b]) with 1 in S1. change (0 + 1) with 1 in S1. rewrite S1 by lia. cbn [app].
  pose proof (splice_splice o 0 [a; b] s) as S2. change (zlen [a; b]) with 2 in S2. change (0 + 2) with 2 in S2. rewrite S2 by lia.
  pose proof (splice_splice o 0 ([a; b] ++ s) d) as S3. rewrite zlen_app in S3. change (zlen [a; b]) with 2 in S3. change (0 + (2 + zlen s)) with (2 + zlen s) in S3. rewrite S3 by lia.
  pose proof (splice_splice o 0 (([a; b] ++ s) ++ d) x) as S4. rewrite !zlen_app in S4. change (zlen [a; b]) with 2 in S4. change (0 + (2 + zlen s + zlen d)) with (2 + zlen s + zlen d) in S4. rewrite S4 by lia.
  now rewrite <- !app_assoc.
Qed.
Lemma dil_sig_shape xi pk sk m sig : zlen xi = 32 -> bytes_ok xi -> MLDSA.keygen xi pk sk -> MLDSA.sign sk m sig -> zlen sig = 2420.
Proof.
  intros L B HK HS. destruct (dil_len _ _ _ L B HK) as (_ & Lk & Bk). destruct (DilFipsProofs3.sign_complete _ _ _ HS) as (f & F).
  exact (proj1 (HybridRealProofs.dil_sig_shape f m sk sig Lk Bk (F f (le_n _)))).
Qed.
(** what a signing run gets from Ed25519 and Dilithium *)
Definition good_key (seed PK SK : list Z) : Prop := zlen seed = 160 /\ bytes_ok seed /\ hybrid_keys seed PK SK.
Lemma good_parts seed PK SK : good_key seed PK SK ->
  exists e d, zlen e = 32 /\ bytes_ok e /\ zlen d = 32 /\ bytes_ok d /\ zlen SK = 4064 /\ bytes_ok SK /\
    slice SK 0 64 = e ++ ed_public e /\ slice SK 0 32 = e /\ MLDSA.keygen d (pk_dil PK) (slice SK 64 2560) /\ slice SK 4000 64 = pk_spx PK.
Proof.
  intros (L & B & HK). destruct (PropsHybridProg.keys_parts _ _ _ (conj L B) HK) as (_ & LS & _ & BS & _ & E1 & E2 & HD & _ & _ & E3).
  exists (slice seed 0 32), (slice seed 32 32). repeat apply conj; try (apply zlen_slice; lia); try (now apply bytes_ok_slice); assumption.
Qed.
Lemma ed_two n m m' e e' : 0 <= n -> n <= 64 -> zlen m = n -> zlen m' = n -> bytes_ok m -> bytes_ok m' -> zlen e = 32 -> bytes_ok e -> zlen e' = 32 -> bytes_ok e' ->
  exists t t', two (CtTweet.sign_l Zops (vzeros Zops 128) m n (e ++ ed_public e)) (CtTweet.sign_l Zops (vzeros Zops 128) m' n (e' ++ ed_public e'))
    (0, n + 64, (ed_signature e m ++ m) ++ t) (0, n + 64, (ed_signature e' m' ++ m') ++ t').
Proof.
  intros N1 N2 L L' B B' Le Be Le' Be'. destruct (PropsCt.C66_ed25519_sign n) as (T & K).
  assert (BZ: bytes_ok (vzeros Zops 128)) by (rewrite vzeros_Z; apply bytes_ok_zeros). assert (LZ: zlen (vzeros Zops 128) = 128) by (apply zlen_vz; lia).
  destruct (K (vzeros Zops 128) m e) as (A1 & A2); [assumption..|lia|lia|lia|lia|]. destruct (K (vzeros Zops 128) m' e') as (B1 & B2); [assumption..|lia|lia|lia|lia|].
  cbv zeta in A2, B2. rewrite slice_all in A2, B2 by lia. rewrite app_assoc in A2, B2.
  eexists. eexists. split; [rewrite A1, B1; reflexivity|]. split; [exact A2|exact B2].
Qed.
#[local] Transparent splice.
Lemma splice_front a b x : zlen a = zlen b -> splice (a ++ x) 0 b = b ++ x.
Proof.
  intros E. unfold splice. rewrite slice_0. cbn [app]. f_equal. pose proof (zlen_nonneg x). pose proof (zlen_nonneg b).
  rewrite zlen_app. rewrite slice_app_r by lia. replace (0 + zlen b - zlen a) with 0 by lia. apply slice_all; lia.
Qed.
#[local] Opaque splice.
Lemma dil_two loc loc' n m m' sk sk' sig sig' : (forall n, 0 <= n -> zlen (loc n) = n) -> (forall n, 0 <= n -> zlen (loc' n) = n) ->
  zlen m = n -> zlen m' = n -> zlen sk = 2560 -> bytes_ok sk -> zlen sk' = 2560 -> bytes_ok sk' -> zlen sig = 2420 -> zlen sig' = 2420 ->
  MLDSA.sign sk m sig -> MLDSA.sign sk' m' sig' ->
  (forall fuel, trace (CtDil.sign_signature_l Zops loc fuel (vzeros Zops 2420 ++ m) 0 2420 n sk) = trace (CtDil.sign_signature_l Zops loc' fuel (vzeros Zops 2420 ++ m') 0 2420 n sk')) ->
  exists f, forall fuel, (f <= fuel)%nat ->
    two (CtDil.sign_signature_l Zops loc fuel (vzeros Zops 2420 ++ m) 0 2420 n sk) (CtDil.sign_signature_l Zops loc' fuel (vzeros Zops 2420 ++ m') 0 2420 n sk')
      (Some (0, sig ++ m, 2420)) (Some (0, sig' ++ m', 2420)).
Proof.
  intros LOC LOC' L L' Lk Bk Lk' Bk' Lg Lg' HS HS' HT. pose proof (zlen_nonneg m). assert (LZ: zlen (vzeros Zops 2420) = 2420) by (apply zlen_vz; lia).
  assert (SM: forall x, zlen x = n -> slice (vzeros Zops 2420 ++ x) 2420 n = x) by (intros x Lx; rewrite slice_app_r by lia; rewrite LZ; apply slice_all; lia).
  assert (SP: forall x g, zlen g = 2420 -> splice (vzeros Zops 2420 ++ x) 0 g = g ++ x).
  { intros x g Hg. apply splice_front. lia. }
  destruct (PropsCtDil.C70_sign_value loc (vzeros Zops 2420 ++ m) 0 2420 n sk sig LOC Lk Bk) as (f & F); try (rewrite ?zlen_app; lia); [rewrite SM by exact L; exact HS|].
  destruct (PropsCtDil.C70_sign_value loc' (vzeros Zops 2420 ++ m') 0 2420 n sk' sig' LOC' Lk' Bk') as (f' & F'); try (rewrite ?zlen_app; lia); [rewrite SM by exact L'; exact HS'|].
  exists (Nat.max f f'). intros fuel Hf. specialize (F fuel ltac:(lia)). specialize (F' fuel ltac:(lia)). rewrite SP in F, F' by assumption.
  split; [apply HT|]. split; assumption.
Qed.
Definition full_out (sk optrand m dsig : list Z) : list Z := full_layout (ed_signature (slice sk 0 32) m) m dsig (slh_sign_sk shake256_bytes m (sk_spx sk) optrand).

Section Full.
Variables loc locw loc' locw' : Z -> list Z.
Hypothesis ST : PropsCtSpx.stack_ok loc locw. Hypothesis ST' : PropsCtSpx.stack_ok loc' locw'.
Lemma full_two seed PK SK seed' PK' SK' rc rc' o o' sm sm' l l' m n dsig dsig' :
  good_key seed PK SK -> good_key seed' PK' SK' -> pk_spx PK = pk_spx PK' ->
  zlen m = n -> 1 <= n <= 64 -> bytes_ok m -> zlen o = 32 -> zlen o' = 32 -> 52342 + n <= zlen sm -> 52342 + n <= zlen sm' ->
  MLDSA.sign (sk_dil SK) m dsig -> MLDSA.sign (sk_dil SK') m dsig' ->
  (forall fuel, trace (CtDil.sign_signature_l Zops loc fuel (vzeros Zops 2420 ++ m) 0 2420 n (sk_dil SK)) = trace (CtDil.sign_signature_l Zops loc' fuel (vzeros Zops 2420 ++ m) 0 2420 n (sk_dil SK'))) ->
  (rc = 0 /\ rc' = 0 /\ slh_sign_sk shake256_bytes m (sk_spx SK) o = slh_sign_sk shake256_bytes m (sk_spx SK') o') \/ (rc <> 0 /\ rc' <> 0) ->
  exists f, forall fuel, (f <= fuel)%nat ->
    two (sign_l Zops loc locw fuel rc o sm l m n SK) (sign_l Zops loc' locw' fuel rc' o' sm' l' m n SK')
      (if rc =? 0 then Some (0, splice sm 0 (full_out SK o m dsig), 52342 + n) else Some (-4, sm, l))
      (if rc' =? 0 then Some (0, splice sm' 0 (full_out SK' o' m dsig'), 52342 + n) else Some (-4, sm', l')).
Proof.
  intros GK GK' EP Lm Hn Bm Lo Lo' Hsm Hsm' HS HS' HT HC.
  destruct (good_parts _ _ _ GK) as (e & d & Le & Be & Ld & Bd & LS & BS & E1 & E2 & HD & E3).
  destruct (good_parts _ _ _ GK') as (e' & d' & Le' & Be' & Ld' & Bd' & LS' & BS' & E1' & E2' & HD' & E3').
  destruct (dil_len _ _ _ Ld Bd HD) as (_ & Lds & Bds). destruct (dil_len _ _ _ Ld' Bd' HD') as (_ & Lds' & Bds').
  pose proof (dil_sig_shape _ _ _ _ _ Ld Bd HD HS) as Lg. pose proof (dil_sig_shape _ _ _ _ _ Ld' Bd' HD' HS') as Lg'.
  destruct (ed_two n m m e e') as (t & t' & ED); try assumption; try lia.
  destruct (dil_two loc loc' n m m (sk_dil SK) (sk_dil SK') dsig dsig') as (f & DI); try assumption; try apply ST; try apply ST'.
  exists f. intros fuel Hf. specialize (DI fuel Hf).
  set (k3 := sk_spx SK) in *. set (k3' := sk_spx SK') in *.
  assert (L3: zlen k3 = 128) by (apply zlen_slice; lia). assert (L3': zlen k3' = 128) by (apply zlen_slice; lia).
  assert (B3: bytes_ok k3) by now apply bytes_ok_slice. assert (B3': bytes_ok k3') by now apply bytes_ok_slice.
  assert (P3: slice k3 64 64 = slice k3' 64 64). { unfold k3, k3', sk_spx. rewrite !slice_slice by lia. change (3936 + 64) with 4000. rewrite E3, E3'. exact EP. }
  unfold sign_l. apply two_false; [lia|].
  eapply two_bind; [apply two_fill; rewrite ?zlen_vz; lia|]. rewrite E1, E1'.
  eapply two_bind; [apply two_fill; rewrite ?zlen_vz; lia|]. change (slice SK 64 2560) with (sk_dil SK). change (slice SK' 64 2560) with (sk_dil SK').
  eapply two_bind; [apply two_fill; rewrite ?zlen_vz; lia|]. change (64 + 2560 + 1312) with 3936. change (slice SK 3936 128) with k3. change (slice SK' 3936 128) with k3'.
  eapply two_bind; [exact ED|]. cbv beta iota. eapply two_bind; [exact DI|]. cbv beta iota.
  assert (LZ: zlen (vzeros Zops 49856) = 49856) by (apply zlen_vz; lia). set (z3 := vzeros Zops 49856) in *. clearbody z3.
  destruct HC as [(-> & -> & ES)|(R & R')].
  - assert (LM: zlen (z3 ++ m) = 49856 + n) by (rewrite zlen_app; lia).
    assert (SM: slice (z3 ++ m) 49856 n = m) by (rewrite slice_app_r by lia; rewrite LZ; apply slice_all; lia).
    pose proof (PropsCtSpx.C68_sign_trace_follows_from_signature loc locw loc' locw' (z3 ++ m) (z3 ++ m) 0 0 0 49856 n k3 k3' o o' ST ST' L3 B3 L3' B3' P3 ltac:(lia) ltac:(lia) ltac:(lia) ltac:(lia) ltac:(lia) ltac:(lia) ltac:(lia) ltac:(lia) eq_refl Lo Lo') as VT. cbv zeta in VT. destruct VT as (V & V' & T).
    rewrite !SM in V, V', T. specialize (T ES).
    eapply two_bind; [split; [exact T|split; [exact V|exact V']]|]. cbv beta iota.
    set (q := slh_sign_sk shake256_bytes m k3 o) in *. set (q' := slh_sign_sk shake256_bytes m k3' o') in *.
    assert (Lq: zlen q = 49856) by apply (SpxBufTop.zlen_slh_sign_sk _ eq_refl). assert (Lq': zlen q' = 49856) by apply (SpxBufTop.zlen_slh_sign_sk _ eq_refl).
    do 6 (apply two_false; [lia|]).
    set (s1 := ed_signature e m ++ m) in *. set (s1' := ed_signature e' m ++ m) in *.
    assert (L1: zlen s1 = 64 + n) by (unfold s1; rewrite zlen_app, PropsTweetBuf.sig_len; lia). assert (L1': zlen s1' = 64 + n) by (unfold s1'; rewrite zlen_app, PropsTweetBuf.sig_len; lia).
    assert (A1: slice (s1 ++ t) 0 (n + 64) = s1) by (rewrite slice_app_l by lia; apply slice_all; lia). assert (A1': slice (s1' ++ t') 0 (n + 64) = s1') by (rewrite slice_app_l by lia; apply slice_all; lia).
    assert (A2: lptr (dsig ++ m) 0 2420 = dsig) by (unfold lptr; rewrite slice_app_l by lia; apply slice_all; lia). assert (A2': lptr (dsig' ++ m) 0 2420 = dsig') by (unfold lptr; rewrite slice_app_l by lia; apply slice_all; lia).
    assert (A3: forall q, zlen q = 49856 -> lptr (splice (z3 ++ m) 0 q) 0 49856 = q) by (intros q0 H0; unfold lptr; rewrite <- H0; apply slice_splice; lia).
    rewrite A2, A2', !A3 by assumption.
    eapply two_bind; [apply two_wr; lia|]. eapply two_bind; [apply two_wr; rewrite zlen_splice; change (zlen [cst Zops 2]) with 1; lia|].
    rewrite !(Z.mod_small n 256) by lia. change (cst Zops 2) with 2. change (cst Zops n) with n.
    assert (Q1: zlen [2] = 1) by reflexivity. assert (Q2: zlen [n] = 1) by reflexivity.
    assert (T1: 64 + n <= zlen (s1 ++ t)) by (rewrite zlen_app; pose proof (zlen_nonneg t); lia). assert (T1': 64 + n <= zlen (s1' ++ t')) by (rewrite zlen_app; pose proof (zlen_nonneg t'); lia).
    eapply two_bind; [apply two_copy; repeat (rewrite ?zlen_splice; rewrite ?Q1, ?Q2); lia|]. rewrite A1, A1'.
    eapply two_bind; [apply two_copy; repeat (rewrite ?zlen_splice; rewrite ?Q1, ?Q2); lia|].
    rewrite !(slice_all _ 2420) by lia.
    eapply two_bind; [apply two_copy; repeat (rewrite ?zlen_splice; rewrite ?Q1, ?Q2); lia|].
    rewrite !(slice_all _ 49856) by lia.
    pose proof (splices_5 sm 2 n s1 dsig q ltac:(lia)) as X. pose proof (splices_5 sm' 2 n s1' dsig' q' ltac:(lia)) as X'.
    replace (2 + zlen s1) with (2 + (n + 64)) in X by lia. replace (2 + zlen s1') with (2 + (n + 64)) in X' by lia. rewrite Lg in X. rewrite Lg' in X'. rewrite X, X'.
    replace (2 + 64 + 2420 + 49856 + n) with (52342 + n) by lia. change (0 =? 0) with true. cbv iota.
    unfold full_out. rewrite E2, E2'. fold k3 k3' q q'. unfold full_layout. rewrite Lm. unfold s1, s1'. rewrite <- !app_assoc. apply two_ret.
  - destruct PropsCtSpx.C68_failed_sign_has_one_trace as (T & K).
    destruct (K loc locw rc o (z3 ++ m) 0 0 49856 n k3 R Lo) as (T1 & V1). destruct (K loc' locw' rc' o' (z3 ++ m) 0 0 49856 n k3' R' Lo') as (T2 & V2).
    eapply two_bind; [split; [rewrite T1, T2; reflexivity|split; [exact V1|exact V2]]|]. cbv beta iota.
    do 2 (apply two_false; [reflexivity|]). apply two_true; [reflexivity|].
    replace (rc =? 0) with false by lia. replace (rc' =? 0) with false by lia. apply two_ret.
Qed.
End Full.

(** ** compact signing *)
Lemma splices_g o a b c : zlen a + zlen b + zlen c <= zlen o -> splice (splice (splice o 0 a) (zlen a) b) (zlen a + zlen b) c = splice o 0 (a ++ b ++ c).
Proof.
  intros Ho. pose proof (zlen_nonneg a). pose proof (zlen_nonneg b). pose proof (zlen_nonneg c).
  pose proof (splice_splice o 0 a b) as S1. change (0 + zlen a) with (zlen a) in S1. rewrite S1 by lia.
  pose proof (splice_splice o 0 (a ++ b) c) as S2. rewrite zlen_app in S2. change (0 + (zlen a + zlen b)) with (zlen a + zlen b) in S2. rewrite S2 by lia. now rewrite <- app_assoc.
Qed.
Lemma splices_6 o a b s d x y : 2 + zlen s + zlen d + zlen x + zlen y <= zlen o ->
  splice (splice (splice (splice (splice (splice o 0 [a]) 1 [b]) 2 s) (2 + zlen s) d) (2 + zlen s + zlen d) x) (2 + zlen s + zlen d + zlen x) y = splice o 0 ([a; b] ++ s ++ d ++ x ++ y).
Proof.
  intros Ho. pose proof (zlen_nonneg s). pose proof (zlen_nonneg d). pose proof (zlen_nonneg x). pose proof (zlen_nonneg y).
  rewrite splices_5 by lia. pose proof (splice_splice o 0 ([a; b] ++ s ++ d ++ x) y) as S. rewrite !zlen_app in S. change (zlen [a; b]) with 2 in S.
  replace (0 + (2 + (zlen s + (zlen d + zlen x)))) with (2 + zlen s + zlen d + zlen x) in S by lia. rewrite S by lia. now rewrite <- !app_assoc.
Qed.
Lemma sha3_val r x n : zlen r = 64 -> zlen x = n -> bytes_ok x -> forall b, slice b 0 n = x -> bytes_ok b -> n <= zlen b -> value (sha3_l Zops Sponge.SHA3_512_RATE 64 r b n) = sha3_512_bytes x.
Proof.
  intros Lr Lx Bx b E Bb Lb. pose proof (zlen_nonneg x). apply CtKeccakProofs.era_sha3.
  rewrite sha3_oneshot_ok; [|reflexivity|unfold Sponge.SHA3_512_RATE; lia|unfold Sponge.SHA3_512_RATE; lia|lia|lia|exact Bb]. rewrite E. f_equal.
  apply splice_whole'. rewrite Lr. symmetry. apply (DilSignProofs.sponge_bytes_len 72 0x06); lia.
Qed.
Lemma bytes_ok_splice h o l : bytes_ok h -> bytes_ok l -> bytes_ok (splice h o l).
Proof.
  intros A B. Local Transparent splice. unfold splice. Local Opaque splice. rewrite !bytes_ok_app. auto using bytes_ok_slice.
Qed.
Definition compact_out (sk nonce m dsig : list Z) : list Z := compact_layout (ed_signature (slice sk 0 32) (compact_digest nonce m (sk_spxpk sk))) dsig nonce m.
Section Compact.
Variables loc locw loc' locw' : Z -> list Z.
Hypothesis ST : PropsCtSpx.stack_ok loc locw. Hypothesis ST' : PropsCtSpx.stack_ok loc' locw'.
Lemma digest_two o o' m m' n SK SK' hm0 hm0' : zlen m = n -> zlen m' = n -> 1 <= n <= 64 -> bytes_ok m -> bytes_ok m' -> zlen o = 40 -> zlen o' = 40 -> bytes_ok o -> bytes_ok o' ->
  zlen SK = 4064 -> zlen SK' = 4064 -> bytes_ok SK -> bytes_ok SK' -> zlen hm0 = 168 -> zlen hm0' = 168 -> bytes_ok hm0 -> bytes_ok hm0' ->
  forall B (k k' : list Z -> L B) v v',
  two (k (compact_digest o m (sk_spxpk SK))) (k' (compact_digest o' m' (sk_spxpk SK'))) v v' ->
  two (hm <~ lcopy Zops hm0 0 o 0 40 ;;; hm <~ lcopy Zops hm 40 m 0 n ;;; hm <~ lcopy Zops hm (40 + n) SK (64 + 2560 + 1312 + 128 / 2) 64 ;;; h <~ sha3_l Zops Sponge.SHA3_512_RATE 64 (loc 64) hm (40 + n + 64) ;;; k h)
      (hm <~ lcopy Zops hm0' 0 o' 0 40 ;;; hm <~ lcopy Zops hm 40 m' 0 n ;;; hm <~ lcopy Zops hm (40 + n) SK' (64 + 2560 + 1312 + 128 / 2) 64 ;;; h <~ sha3_l Zops Sponge.SHA3_512_RATE 64 (loc' 64) hm (40 + n + 64) ;;; k' h) v v'.
Proof.
  intros Lm Lm' Hn Bm Bm' Lo Lo' Bo Bo' LS LS' BS BS' Lh Lh' Bh Bh' B k k' v v' HK. change (64 + 2560 + 1312 + 128 / 2) with 4000.
  eapply two_bind; [apply two_copy; lia|]. rewrite !(slice_all _ 40) by lia.
  eapply two_bind; [apply two_copy; rewrite ?zlen_splice; lia|]. rewrite !(slice_all _ n) by lia.
  eapply two_bind; [apply two_copy; repeat (rewrite ?zlen_splice); lia|].
  change (slice SK 4000 64) with (sk_spxpk SK). change (slice SK' 4000 64) with (sk_spxpk SK').
  set (p := sk_spxpk SK) in *. set (p' := sk_spxpk SK') in *.
  assert (Lp: zlen p = 64) by (apply zlen_slice; lia). assert (Lp': zlen p' = 64) by (apply zlen_slice; lia).
  assert (Bp: bytes_ok p) by now apply bytes_ok_slice. assert (Bp': bytes_ok p') by now apply bytes_ok_slice.
  pose proof (splices_g hm0 o m p ltac:(lia)) as X. pose proof (splices_g hm0' o' m' p' ltac:(lia)) as X'. rewrite Lo, Lm in X. rewrite Lo', Lm' in X'. rewrite X, X'.
  assert (Lx: zlen (o ++ m ++ p) = 40 + n + 64) by (rewrite !zlen_app; lia). assert (Lx': zlen (o' ++ m' ++ p') = 40 + n + 64) by (rewrite !zlen_app; lia).
  assert (Bx: bytes_ok (o ++ m ++ p)) by (rewrite !bytes_ok_app; auto). assert (Bx': bytes_ok (o' ++ m' ++ p')) by (rewrite !bytes_ok_app; auto).
  eapply two_bind; [|exact HK]. split; [apply CtKeccakProofs.ct_sha3|]. split.
  - apply sha3_val; [apply ST; lia|exact Lx|exact Bx| |now apply bytes_ok_splice|rewrite zlen_splice; lia]. rewrite <- Lx. apply slice_splice; lia.
  - apply sha3_val; [apply ST'; lia|exact Lx'|exact Bx'| |now apply bytes_ok_splice|rewrite zlen_splice; lia]. rewrite <- Lx'. apply slice_splice; lia.
Qed.
Lemma compact_two seed PK SK seed' PK' SK' o o' sm sm' l l' m m' n dsig dsig' :
  let h := compact_digest o m (sk_spxpk SK) in let h' := compact_digest o' m' (sk_spxpk SK') in
  good_key seed PK SK -> good_key seed' PK' SK' ->
  zlen m = n -> zlen m' = n -> 1 <= n <= 64 -> bytes_ok m -> bytes_ok m' -> zlen o = 40 -> zlen o' = 40 -> bytes_ok o -> bytes_ok o' -> 2526 + n <= zlen sm -> 2526 + n <= zlen sm' ->
  MLDSA.sign (sk_dil SK) h dsig -> MLDSA.sign (sk_dil SK') h' dsig' ->
  (forall fuel, trace (CtDil.sign_signature_l Zops loc fuel (vzeros Zops 2420 ++ h) 0 2420 64 (sk_dil SK)) = trace (CtDil.sign_signature_l Zops loc' fuel (vzeros Zops 2420 ++ h') 0 2420 64 (sk_dil SK'))) ->
  exists f, forall fuel, (f <= fuel)%nat ->
    two (sign_compact_l Zops loc fuel 0 o sm l m n SK) (sign_compact_l Zops loc' fuel 0 o' sm' l' m' n SK')
      (Some (0, splice sm 0 (compact_out SK o m dsig), 2526 + n)) (Some (0, splice sm' 0 (compact_out SK' o' m' dsig'), 2526 + n)).
Proof.
  intros h h' GK GK' Lm Lm' Hn Bm Bm' Lo Lo' Bo Bo' Hsm Hsm' HS HS' HT.
  destruct (good_parts _ _ _ GK) as (e & d & Le & Be & Ld & Bd & LS & BS & E1 & E2 & HD & _).
  destruct (good_parts _ _ _ GK') as (e' & d' & Le' & Be' & Ld' & Bd' & LS' & BS' & E1' & E2' & HD' & _).
  destruct (dil_len _ _ _ Ld Bd HD) as (_ & Lds & Bds). destruct (dil_len _ _ _ Ld' Bd' HD') as (_ & Lds' & Bds').
  pose proof (dil_sig_shape _ _ _ _ _ Ld Bd HD HS) as Lg. pose proof (dil_sig_shape _ _ _ _ _ Ld' Bd' HD' HS') as Lg'.
  assert (Lh: zlen h = 64) by (apply (DilSignProofs.sponge_bytes_len 72 0x06); lia). assert (Lh': zlen h' = 64) by (apply (DilSignProofs.sponge_bytes_len 72 0x06); lia).
  assert (Bh: bytes_ok h) by (apply (DilSignProofs.sponge_bytes_ok 72 0x06); lia). assert (Bh': bytes_ok h') by (apply (DilSignProofs.sponge_bytes_ok 72 0x06); lia).
  destruct (ed_two 64 h h' e e') as (t & t' & ED); try assumption; try lia.
  destruct (dil_two loc loc' 64 h h' (sk_dil SK) (sk_dil SK') dsig dsig') as (f & DI); try assumption; try apply ST; try apply ST'.
  exists f. intros fuel Hf. specialize (DI fuel Hf).
  assert (LZ: zlen (vzeros Zops 168) = 168) by (apply zlen_vz; lia). assert (BZ: bytes_ok (vzeros Zops 168)) by (rewrite vzeros_Z; apply bytes_ok_zeros).
  assert (Lc: zlen (loc 40) = 40) by (apply ST; lia). assert (Lc': zlen (loc' 40) = 40) by (apply ST'; lia).
  unfold sign_compact_l. apply two_false; [lia|].
  eapply two_bind; [apply two_fill; rewrite ?zlen_vz; lia|]. rewrite E1, E1'.
  eapply two_bind; [apply two_fill; rewrite ?zlen_vz; lia|]. change (slice SK 64 2560) with (sk_dil SK). change (slice SK' 64 2560) with (sk_dil SK').
  eapply two_bind; [apply two_fill; lia|]. rewrite !(slice_all _ 40) by lia.
  apply two_false; [reflexivity|].
  apply digest_two; try assumption. fold h h'.
  eapply two_bind; [exact ED|]. cbv beta iota. eapply two_bind; [exact DI|]. cbv beta iota.
  do 4 (apply two_false; [reflexivity|]).
  set (s1 := ed_signature e h) in *. set (s1' := ed_signature e' h') in *.
  assert (L1: zlen s1 = 64) by apply PropsTweetBuf.sig_len. assert (L1': zlen s1' = 64) by apply PropsTweetBuf.sig_len.
  assert (A1: slice ((s1 ++ h) ++ t) 0 64 = s1) by (rewrite <- app_assoc; rewrite slice_app_l by lia; apply slice_all; lia). assert (A1': slice ((s1' ++ h') ++ t') 0 64 = s1') by (rewrite <- app_assoc; rewrite slice_app_l by lia; apply slice_all; lia).
  assert (A2: lptr (dsig ++ h) 0 2420 = dsig) by (unfold lptr; rewrite slice_app_l by lia; apply slice_all; lia). assert (A2': lptr (dsig' ++ h') 0 2420 = dsig') by (unfold lptr; rewrite slice_app_l by lia; apply slice_all; lia).
  rewrite A2, A2'.
  eapply two_bind; [apply two_wr; lia|]. eapply two_bind; [apply two_wr; rewrite zlen_splice; change (zlen [cst Zops 1]) with 1; lia|].
  rewrite !(Z.mod_small n 256) by lia. change (cst Zops 1) with 1. change (cst Zops n) with n.
  assert (Q1: zlen [1] = 1) by reflexivity. assert (Q2: zlen [n] = 1) by reflexivity.
  assert (T1: 64 <= zlen ((s1 ++ h) ++ t)) by (rewrite !zlen_app; pose proof (zlen_nonneg t); lia). assert (T1': 64 <= zlen ((s1' ++ h') ++ t')) by (rewrite !zlen_app; pose proof (zlen_nonneg t'); lia).
  eapply two_bind; [apply two_copy; repeat (rewrite ?zlen_splice; rewrite ?Q1, ?Q2); lia|]. rewrite A1, A1'.
  eapply two_bind; [apply two_copy; repeat (rewrite ?zlen_splice; rewrite ?Q1, ?Q2); lia|]. rewrite !(slice_all _ 2420) by lia.
  eapply two_bind; [apply two_copy; repeat (rewrite ?zlen_splice; rewrite ?Q1, ?Q2); lia|]. rewrite !(slice_all _ 40) by lia.
  eapply two_bind; [apply two_copy; repeat (rewrite ?zlen_splice; rewrite ?Q1, ?Q2); lia|]. rewrite !(slice_all _ n) by lia.
  pose proof (splices_6 sm 1 n s1 dsig o m ltac:(lia)) as X. pose proof (splices_6 sm' 1 n s1' dsig' o' m' ltac:(lia)) as X'.
  rewrite L1, Lg, Lo in X. rewrite L1', Lg', Lo' in X'. rewrite X, X'.
  replace (2 + 64 + 2420 + 40 + n) with (2526 + n) by lia.
  unfold compact_out. rewrite E2, E2'. fold h h' s1 s1'. unfold compact_layout. rewrite Lm, Lm'. apply two_ret.
Qed.
Lemma compact_fail fuel rc rc' o o' sm sm' l l' m m' n SK SK' : rc <> 0 -> rc' <> 0 -> 1 <= n <= 64 ->
  two (sign_compact_l Zops loc fuel rc o sm l m n SK) (sign_compact_l Zops loc' fuel rc' o' sm' l' m' n SK') (Some (-1, sm, l)) (Some (-1, sm', l')).
Proof.
  intros R R' Hn. unfold sign_compact_l. apply two_false; [lia|].
  do 3 (eapply two_bind; [split; [apply ct_copy|split; reflexivity]|]). replace (negb (rc =? 0)) with true by lia. replace (negb (rc' =? 0)) with true by lia.
  apply two_true; [reflexivity|]. apply two_ret.
Qed.
End Compact.
Lemma bad_length loc locw loc' locw' fuel fuel' rc rc' o o' sm sm' l l' m m' n SK SK' : n <= 0 \/ 64 < n ->
  two (sign_l Zops loc locw fuel rc o sm l m n SK) (sign_l Zops loc' locw' fuel' rc' o' sm' l' m' n SK') (Some (-1, sm, l)) (Some (-1, sm', l')) /\
  two (sign_compact_l Zops loc fuel rc o sm l m n SK) (sign_compact_l Zops loc' fuel' rc' o' sm' l' m' n SK') (Some (-1, sm, l)) (Some (-1, sm', l')).
Proof. intros H. split; (apply two_true; [lia|apply two_ret]). Qed.
