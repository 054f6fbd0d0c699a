(** Proofs about the hybrid API model. *)
From Verif Require Import Base Hybrid HybridNF HybridSpec.
Local Opaque zeros slice copy pad.

Lemma Ret3_inj {A B C} (a a' : A) (b b' : B) (c c' : C) :
  Ret (a, b, c) = Ret (a', b', c') -> a = a' /\ b = b' /\ c = c'.
Proof. intros H; injection H; auto. Qed.

Lemma fit_keypair_sizes P : comps_fit P -> keypair_sizes P.
Proof. intros [? ? ? _ _ _ _ _]; split; [|split]; assumption. Qed.

Lemma pad_full n l : zlen l = n -> pad n l = l.
Proof. Local Transparent pad. intros H; unfold pad. Local Opaque pad. replace (n - zlen l) with 0 by lia. apply app_nil_r. Qed.

(** *** keypair_seed (C01) *)
Lemma keypair_seed_layout P pk0 sk0 seed :
  comps_fit P -> 1408 <= zlen pk0 -> 4064 <= zlen sk0 -> zlen seed = 160 ->
  forall edpk edsk dilpk dilsk spxpk spxsk,
  ed_keypair P (slice seed 0 32) = (0, edpk, edsk) ->
  dil_keypair P (slice seed 32 32) = (0, dilpk, dilsk) ->
  spx_keypair P (slice seed 64 96) = (0, spxpk, spxsk) ->
  keypair_seed P (Some pk0) (Some sk0) (Some seed) =
  Ret (0, Some (pk_layout edpk dilpk spxpk ++ tail_from 1408 pk0),
          Some (sk_layout edsk dilsk dilpk spxsk ++ tail_from 4064 sk0)).
Proof.
  intros F Hp Hs Hse * E1 E2 E3. rewrite keypair_seed_nf_ok; [|lia..|now apply fit_keypair_sizes].
  unfold keypair_seed_nf. rewrite E1, E2, E3. cbn [Z.eqb negb].
  unfold pk_layout, sk_layout, tail_from. now rewrite <- !app_assoc.
Qed.

Lemma keypair_seed_null P pk sk seed :
  pk = None \/ sk = None \/ seed = None -> keypair_seed P pk sk seed = Ret (-1, pk, sk).
Proof. intros [E | [E | E]]; subst; unfold keypair_seed; try reflexivity; destruct pk; try reflexivity; destruct sk; reflexivity. Qed.

(** Failure codes of the component generators are reported. *)
Lemma keypair_seed_failure P pk0 sk0 seed r pk sk :
  comps_fit P -> 1408 <= zlen pk0 -> 4064 <= zlen sk0 -> zlen seed = 160 ->
  keypair_seed P (Some pk0) (Some sk0) (Some seed) = Ret (r, pk, sk) ->
  (r = 0 <-> fst (fst (ed_keypair P (slice seed 0 32))) = 0 /\
             fst (fst (dil_keypair P (slice seed 32 32))) = 0 /\
             fst (fst (spx_keypair P (slice seed 64 96))) = 0).
Proof.
  intros F Hp Hs Hse. rewrite keypair_seed_nf_ok; [|lia..|now apply fit_keypair_sizes].
  unfold keypair_seed_nf.
  destruct (ed_keypair P _) as [[r1 pk1] sk1]. destruct (dil_keypair P _) as [[r2 pk2] sk2].
  destruct (spx_keypair P _) as [[r3 pk3] sk3]. cbn [fst].
  destruct (Z.eqb_spec r1 0); destruct (Z.eqb_spec r2 0); destruct (Z.eqb_spec r3 0); cbn [negb];
  intros E; injection E as <- <- <-; split; intros H; (lia || (repeat split; lia)).
Qed.

(** *** expander (C02) *)
Definition even_only (s : list Z) : list Z :=
  map (fun i => if Nat.even i then nth i s 0 else 0) (seq 0 64).

Lemma map_seq_ext {A} (f g : nat -> A) a n :
  (forall i, (a <= i < a + n)%nat -> f i = g i) -> map f (seq a n) = map g (seq a n).
Proof. intros H; apply map_ext_in; intros i Hi; apply in_seq in Hi; apply H; lia. Qed.

Lemma list_eq_map_seq (l : list Z) : l = map (fun i => nth i l 0) (seq 0 (length l)).
Proof.
  induction l as [|x l IH]; cbn [length seq map]; [reflexivity|]. f_equal.
  rewrite IH at 1. rewrite <- seq_shift, map_map. reflexivity.
Qed.

Lemma list_ext_Z (a b : list Z) :
  length a = length b -> (forall i, (i < length a)%nat -> nth i a 0 = nth i b 0) -> a = b.
Proof.
  intros HL H. rewrite (list_eq_map_seq a), (list_eq_map_seq b), <- HL.
  apply map_seq_ext. intros i Hi; apply H; lia.
Qed.

Lemma nth_even_only s i : (i < 64)%nat -> nth i (even_only s) 0 = if Nat.even i then nth i s 0 else 0.
Proof.
  intros Hi. unfold even_only. set (f := fun i => if Nat.even i then nth i s 0 else 0).
  rewrite (nth_indep _ 0 (f 0%nat)) by (rewrite map_length, seq_length; lia).
  rewrite map_nth, seq_nth by lia. reflexivity.
Qed.

Lemma copy_seed_loop_gen seed : 64 <= zlen seed -> forall k fuel t,
  (k <= 32)%nat -> (32 - k <= fuel)%nat -> zlen t = 64 ->
  exists t', copy_seed_loop fuel (2 * Z.of_nat k) t seed = Ret t' /\ zlen t' = 64 /\
    forall i, (i < 64)%nat ->
      nth i t' 0 = if (Nat.even i && Nat.leb (2 * k) i)%bool then nth i seed 0 else nth i t 0.
Proof.
  intros Hs k. remember (32 - k)%nat as d. revert k Heqd.
  induction d as [|d IH]; intros k Hd fuel t Hk Hf Ht.
  - assert (k = 32%nat) as -> by lia.
    exists t. split; [|split; [exact Ht|]].
    + destruct fuel; reflexivity.
    + intros i Hi. replace (Nat.leb (2 * 32) i) with false by (symmetry; apply Nat.leb_gt; lia).
      now rewrite andb_false_r.
  - destruct fuel as [|fuel]; [lia|]. cbn [copy_seed_loop].
    replace (2 * Z.of_nat k <? 64) with true by lia.
    rewrite rd_ok by lia. cbn [bind]. rewrite wr_ok by lia. cbn [bind].
    replace (2 * Z.of_nat k + 1 + 1) with (2 * Z.of_nat (S k)) by lia.
    destruct (IH (S k) ltac:(lia) fuel (upd t (Z.to_nat (2 * Z.of_nat k)) (nth (Z.to_nat (2 * Z.of_nat k)) seed 0)))
      as (t' & E & L & N); [lia|lia|rewrite zlen_upd; lia|].
    exists t'. split; [exact E|split; [exact L|]].
    intros i Hi. rewrite N by lia. rewrite nth_upd.
    replace (Z.to_nat (2 * Z.of_nat k)) with (2 * k)%nat by lia.
    assert (Lt: length t = 64%nat) by (unfold zlen in Ht; lia).
    rewrite Lt. replace (Nat.ltb (2 * k) 64) with true by (symmetry; apply Nat.ltb_lt; lia).
    rewrite andb_true_r.
    destruct (Nat.eqb_spec (2 * k) i) as [<-|Hne].
    + replace (Nat.leb (2 * S k) (2 * k)) with false by (symmetry; apply Nat.leb_gt; lia).
      rewrite andb_false_r. rewrite Nat.leb_refl.
      replace (Nat.even (2 * k)) with true; [reflexivity|].
      symmetry. rewrite Nat.even_spec. exists k; lia.
    + destruct (Nat.even i) eqn:Ev; cbn [andb]; [|reflexivity].
      apply Nat.even_spec in Ev. destruct Ev as [j Ej].
      replace (Nat.leb (2 * S k) i) with (Nat.leb (2 * k) i); [reflexivity|].
      apply eq_true_iff_eq. rewrite !Nat.leb_le. lia.
Qed.

Lemma copy_seed_loop_even seed : 64 <= zlen seed ->
  copy_seed_loop 64 0 (zeros 64) seed = Ret (even_only seed).
Proof.
  intros Hs. destruct (copy_seed_loop_gen seed Hs 0 64 (zeros 64)) as (t' & E & L & N); [lia|lia|rewrite zlen_zeros; lia|].
  change (2 * Z.of_nat 0) with 0 in E. rewrite E. f_equal.
  apply list_ext_Z.
  - unfold even_only. rewrite map_length, seq_length. unfold zlen in L; lia.
  - intros i Hi. assert (i < 64)%nat by (unfold zlen in L; lia).
    rewrite N, nth_even_only by lia. replace (Nat.leb (2 * 0) i) with true by reflexivity.
    rewrite andb_true_r. destruct (Nat.even i); [reflexivity|].
    Local Transparent zeros. unfold zeros. apply nth_repeat. Local Opaque zeros.
Qed.

Lemma expander_char E seed out :
  zlen seed = 96 -> 160 <= zlen out ->
  (forall s o, zlen o = 128 -> zlen (snd (E s 64 o 128)) = 128) ->
  keypair_seed_expander E (Some seed) (Some out) =
  let '(r, x) := E (even_only seed) 64 (zeros 128) 128 in
  if negb (r =? 0) then Ret (r, Some out)
  else Ret (0, Some (slice x 0 32 ++ slice seed 64 32 ++ slice x 32 96 ++ tail_from 160 out)).
Proof.
  intros Hs Ho HE. unfold keypair_seed_expander. rewrite copy_seed_loop_even by lia. cbn [bind].
  specialize (HE (even_only seed) (zeros 128) ltac:(zl)).
  destruct (E _ _ _ _) as [r x]. cbn [snd] in HE.
  destruct (negb (r =? 0)); [reflexivity|].
  rewrite copy_ok by lia. cbn [bind]. rewrite slice_0. cbn [app]. change (0 + 32) with 32.
  rewrite (copy_next_at (slice x 0 32)) by zl. cbn [bind]. rewrite zlen_slice, slice_slice by lia.
  rewrite (copy_next_at (slice x 0 32 ++ slice seed 64 32)) by zl. cbn [bind].
  rewrite zlen_slice, slice_slice by lia. rewrite <- !app_assoc. unfold tail_from.
  do 7 f_equal. lia.
Qed.

Lemma even_only_ext s1 s2 :
  (forall i, (i < 64)%nat -> Nat.even i = true -> nth i s1 0 = nth i s2 0) -> even_only s1 = even_only s2.
Proof.
  intros H. unfold even_only. apply map_seq_ext. intros i Hi.
  destruct (Nat.even i) eqn:E; [apply H; [lia|exact E]|reflexivity].
Qed.

(** *** failure leaves outputs untouched (C11); no hypothesis on the components *)
Ltac crush_ret :=
  repeat match goal with
  | H : (x <- ?e ;; _) = Ret _ |- _ => let E := fresh "E" in destruct e eqn:E; cbn [bind] in H; [|discriminate H]
  | H : Undef = Ret _ |- _ => discriminate H
  | H : (if ?b then _ else _) = Ret _ |- _ => destruct b
  | H : (let '(_, _) := ?e in _) = Ret _ |- _ => destruct e
  | H : match ?e with _ => _ end = Ret _ |- _ => destruct e
  | H : Ret _ = Ret _ |- _ => apply Ret3_inj in H; destruct H as (<- & <- & <-)
  end.

Lemma open_full_failure P m l sm smlen pk r m' l' :
  open_full P m l sm smlen pk = Ret (r, m', l') -> r <> 0 -> m' = m /\ l' = l.
Proof.
  intros H Hr. unfold open_full in H. crush_ret; try (split; reflexivity); congruence.
Qed.
Lemma open_compact_failure P m l sm smlen pk r m' l' :
  open_compact P m l sm smlen pk = Ret (r, m', l') -> r <> 0 -> m' = m /\ l' = l.
Proof.
  intros H Hr. unfold open_compact in H. crush_ret; try (split; reflexivity); congruence.
Qed.
Lemma sign_full_failure P rb sm l m mlen sk r sm' l' :
  sign_full P rb sm l m mlen sk = Ret (r, sm', l') -> r <> 0 -> sm' = sm /\ l' = l.
Proof.
  intros H Hr. unfold sign_full in H. crush_ret; try (split; reflexivity); congruence.
Qed.
Lemma sign_compact_failure P rb sm l m mlen sk r sm' l' :
  sign_compact P rb sm l m mlen sk = Ret (r, sm', l') -> r <> 0 -> sm' = sm /\ l' = l.
Proof.
  intros H Hr. unfold sign_compact in H. crush_ret; try (split; reflexivity); congruence.
Qed.

(** *** sign outputs (C05, C06) *)
Lemma sign_full_success P rb sm0 l mb mlen skb sm' l' :
  comps_fit P -> comps_faithful P ->
  52342 + mlen <= zlen sm0 -> mlen <= zlen mb -> zlen skb = 4064 ->
  sign_full P rb (Some sm0) (Some l) (Some mb) mlen (Some skb) = Ret (0, sm', l') ->
  exists edsig dilsig spxsig,
    let msg := slice mb 0 mlen in
    1 <= mlen <= 64 /\
    ed_sign P msg (sk_ed skb) = {| code := 0; olen := 64 + mlen; obytes := edsig ++ msg |} /\
    dil_sign P msg (sk_dil skb) = {| code := 0; olen := 2420; obytes := dilsig |} /\
    spx_sign P rb msg (sk_spx skb) = {| code := 0; olen := 49856; obytes := spxsig |} /\
    zlen edsig = 64 /\ zlen dilsig = 2420 /\ zlen spxsig = 49856 /\
    sm' = Some (full_layout edsig msg dilsig spxsig ++ tail_from (52342 + mlen) sm0) /\
    l' = Some (52342 + mlen).
Proof.
  intros F C Hsm Hm Hsk H.
  rewrite sign_full_nf_ok in H; try lia; try apply F.
  unfold sign_full_nf in H.
  destruct ((mlen <=? 0) || (64 <? mlen))%bool eqn:E1; [discriminate|].
  fold (sk_ed skb) (sk_dil skb) (sk_spx skb) in H.
  set (msg := slice mb 0 mlen) in *. assert (Lm: zlen msg = mlen) by (unfold msg; zl).
  assert (L1: zlen (sk_ed skb) = 64) by (unfold sk_ed; zl).
  assert (L2: zlen (sk_dil skb) = 2560) by (unfold sk_dil; zl).
  assert (L3: zlen (sk_spx skb) = 128) by (unfold sk_spx; zl).
  pose proof (ok_ed_sign P C msg (sk_ed skb) ltac:(lia) L1) as O1.
  pose proof (ok_dil_sign P C msg (sk_dil skb) ltac:(lia) L2) as O2.
  pose proof (ok_spx_sign P C rb msg (sk_spx skb) ltac:(lia) L3) as O3.
  destruct (ed_sign P msg (sk_ed skb)) as [cd1 ol1 ob1] eqn:Qed.
  destruct (dil_sign P msg (sk_dil skb)) as [cd2 ol2 ob2] eqn:Qdi.
  destruct (spx_sign P rb msg (sk_spx skb)) as [cd3 ol3 ob3] eqn:Qsp. cbn [code olen obytes] in *.
  destruct (Z.eqb_spec cd1 0) as [->|]; cbn [negb] in H; [|discriminate].
  destruct (Z.eqb_spec cd2 0) as [->|]; cbn [negb] in H; [|discriminate].
  destruct (Z.eqb_spec cd3 0) as [->|]; cbn [negb] in H; [|discriminate].
  destruct (Z.eqb_spec ol1 (64 + mlen)) as [->|]; cbn [negb] in H; [|discriminate].
  destruct (Z.eqb_spec ol2 2420) as [->|]; cbn [negb] in H; [|discriminate].
  destruct (Z.eqb_spec ol3 49856) as [->|]; cbn [negb] in H; [|discriminate].
  destruct (O1 eq_refl) as (_ & s & Ls & ->). destruct (O2 eq_refl) as (_ & Lo2). destruct (O3 eq_refl) as (_ & Lo3).
  exists s, ob2, ob3. cbn zeta. apply Ret3_inj in H; destruct H as (_ & <- & <-).
  rewrite (pad_full 2420 ob2 Lo2), (pad_full 49856 ob3 Lo3).
  rewrite (slice_pad 128 (s ++ msg) (64 + mlen)) by zl. rewrite (slice_all (s ++ msg)) by zl.
  unfold full_layout. rewrite Lm.
  repeat split; try reflexivity; try assumption; try lia.
  unfold tail_from. rewrite <- !app_assoc. reflexivity.
Qed.

Lemma sign_compact_success P rb sm0 l mb mlen skb sm' l' :
  comps_fit P -> comps_faithful P ->
  2526 + mlen <= zlen sm0 -> mlen <= zlen mb -> zlen skb = 4064 -> zlen (snd (rb 40)) = 40 ->
  sign_compact P rb (Some sm0) (Some l) (Some mb) mlen (Some skb) = Ret (0, sm', l') ->
  exists edsig dilsig,
    let msg := slice mb 0 mlen in
    let nonce := snd (rb 40) in
    let h := sha3_512 P (compact_hash_input nonce msg (sk_spxpk skb)) in
    1 <= mlen <= 64 /\ fst (rb 40) = 0 /\
    ed_sign P h (sk_ed skb) = {| code := 0; olen := 128; obytes := edsig ++ h |} /\
    dil_sign P h (sk_dil skb) = {| code := 0; olen := 2420; obytes := dilsig |} /\
    zlen edsig = 64 /\ zlen dilsig = 2420 /\
    sm' = Some (compact_layout edsig dilsig nonce msg ++ tail_from (2526 + mlen) sm0) /\
    l' = Some (2526 + mlen).
Proof.
  intros F C Hsm Hm Hsk Hrb H.
  rewrite sign_compact_nf_ok in H; try lia; try apply F.
  unfold sign_compact_nf in H.
  destruct ((mlen <=? 0) || (64 <? mlen))%bool eqn:E1; [discriminate|].
  destruct (rb 40) as [rr nonce]. cbn [snd fst] in *.
  destruct (Z.eqb_spec rr 0) as [->|]; cbn [negb] in H; [|discriminate].
  fold (sk_ed skb) (sk_dil skb) (sk_spxpk skb) in H.
  set (msg := slice mb 0 mlen) in *. assert (Lm: zlen msg = mlen) by (unfold msg; zl).
  fold (compact_hash_input nonce msg (sk_spxpk skb)) in H.
  set (h := sha3_512 P _) in *. assert (Lh: zlen h = 64) by apply F.
  assert (L1: zlen (sk_ed skb) = 64) by (unfold sk_ed; zl).
  assert (L2: zlen (sk_dil skb) = 2560) by (unfold sk_dil; zl).
  pose proof (ok_ed_sign P C h (sk_ed skb) ltac:(lia) L1) as O1.
  pose proof (ok_dil_sign P C h (sk_dil skb) ltac:(lia) L2) as O2.
  destruct (ed_sign P h (sk_ed skb)) as [cd1 ol1 ob1] eqn:Qedh.
  destruct (dil_sign P h (sk_dil skb)) as [cd2 ol2 ob2] eqn:Qdih. cbn [code olen obytes] in *.
  destruct (Z.eqb_spec cd1 0) as [->|]; cbn [negb] in H; [|discriminate].
  destruct (Z.eqb_spec cd2 0) as [->|]; cbn [negb] in H; [|discriminate].
  destruct (Z.eqb_spec ol1 128) as [->|]; cbn [negb] in H; [|discriminate].
  destruct (Z.eqb_spec ol2 2420) as [->|]; cbn [negb] in H; [|discriminate].
  destruct (O1 eq_refl) as (_ & s & Ls & ->). destruct (O2 eq_refl) as (_ & Lo2).
  exists s, ob2. cbn zeta. apply Ret3_inj in H; destruct H as (_ & <- & <-).
  rewrite (pad_full 2420 ob2 Lo2).
  rewrite (slice_pad 128 (s ++ h) 64) by zl.
  rewrite slice_app_l, slice_all by lia.
  unfold compact_layout. rewrite Lm.
  repeat split; try reflexivity; try assumption; try lia.
  unfold tail_from. rewrite <- !app_assoc. reflexivity.
Qed.

(** *** slices of the layouts *)
Lemma slice_mid {A} (a b c : list A) o n : o = zlen a -> n = zlen b -> slice (a ++ b ++ c) o n = b.
Proof.
  intros -> ->. pose proof (zlen_nonneg b). rewrite slice_app_r by lia.
  replace (zlen a - zlen a) with 0 by lia. rewrite slice_app_l by lia. apply slice_all; lia.
Qed.

Lemma full_layout_slices e m d s rest :
  zlen e = 64 -> zlen d = 2420 -> zlen s = 49856 ->
  let sm := full_layout e m d s ++ rest in
  let n := zlen m in
  nth 0 sm 0 = 2 /\ nth 1 sm 0 = n /\ slice sm 2 (64 + n) = e ++ m /\
  slice sm (66 + n) 2420 = d /\ slice sm (2486 + n) 49856 = s /\ zlen sm = 52342 + n + zlen rest.
Proof.
  intros He Hd Hs sm n. pose proof (zlen_nonneg m). unfold sm, full_layout.
  split; [reflexivity|]. split; [reflexivity|].
  split; [|split; [|split]].
  - rewrite <- !app_assoc. rewrite (app_assoc e m). apply slice_mid; [reflexivity|zl; unfold n; lia].
  - rewrite <- !app_assoc. rewrite (app_assoc e m), (app_assoc [2; zlen m]). apply slice_mid; zl; unfold n; lia.
  - rewrite <- !app_assoc. rewrite (app_assoc e m), (app_assoc (e ++ m)), (app_assoc [2; zlen m]).
    apply slice_mid; zl; unfold n; lia.
  - zl; unfold n; lia.
Qed.

Lemma full_layout_parse sm n :
  52342 + n <= zlen sm -> 1 <= n -> nth 0 sm 0 = 2 -> nth 1 sm 0 = n ->
  slice sm 0 (52342 + n) =
  full_layout (slice sm 2 64) (slice sm 66 n) (slice sm (66 + n) 2420) (slice sm (2486 + n) 49856).
Proof.
  intros HL Hn H0 H1. unfold full_layout. rewrite zlen_slice by lia.
  rewrite (slice_cons sm 0) by lia. rewrite (slice_cons sm (0 + 1)) by lia.
  change (Z.to_nat 0) with 0%nat. change (Z.to_nat (0 + 1)) with 1%nat. rewrite H0, H1.
  cbn [app]. do 2 f_equal. change (0 + 1 + 1) with 2.
  rewrite (slice_split sm 2 _ 64) by lia. f_equal. change (2 + 64) with 66.
  rewrite (slice_split sm 66 _ n) by lia. f_equal.
  rewrite (slice_split sm (66 + n) _ 2420) by lia. f_equal.
  f_equal; lia.
Qed.

Lemma compact_layout_slices e d nn m rest :
  zlen e = 64 -> zlen d = 2420 -> zlen nn = 40 ->
  let sm := compact_layout e d nn m ++ rest in
  let n := zlen m in
  nth 0 sm 0 = 1 /\ nth 1 sm 0 = n /\ slice sm 2 64 = e /\
  slice sm 66 2420 = d /\ slice sm 2486 40 = nn /\ slice sm 2526 n = m /\ zlen sm = 2526 + n + zlen rest.
Proof.
  intros He Hd Hs sm n. pose proof (zlen_nonneg m). unfold sm, compact_layout.
  split; [reflexivity|]. split; [reflexivity|].
  split; [|split; [|split; [|split]]]; rewrite <- ?app_assoc.
  - apply slice_mid; zl.
  - rewrite (app_assoc [1; zlen m]). apply slice_mid; zl.
  - rewrite (app_assoc e), (app_assoc [1; zlen m]). apply slice_mid; zl.
  - rewrite (app_assoc d), (app_assoc e), (app_assoc [1; zlen m]). apply slice_mid; zl.
  - zl; unfold n; lia.
Qed.

Lemma compact_layout_parse sm n :
  2526 + n <= zlen sm -> 1 <= n -> nth 0 sm 0 = 1 -> nth 1 sm 0 = n ->
  slice sm 0 (2526 + n) =
  compact_layout (slice sm 2 64) (slice sm 66 2420) (slice sm 2486 40) (slice sm 2526 n).
Proof.
  intros HL Hn H0 H1. unfold compact_layout. rewrite zlen_slice by lia.
  rewrite (slice_cons sm 0) by lia. rewrite (slice_cons sm (0 + 1)) by lia.
  change (Z.to_nat 0) with 0%nat. change (Z.to_nat (0 + 1)) with 1%nat. rewrite H0, H1.
  cbn [app]. do 2 f_equal. change (0 + 1 + 1) with 2.
  rewrite (slice_split sm 2 _ 64) by lia. f_equal. change (2 + 64) with 66.
  rewrite (slice_split sm 66 _ 2420) by lia. f_equal.
  rewrite (slice_split sm (66 + 2420) _ 40) by lia. f_equal. f_equal; lia.
Qed.

(** *** open accepts iff (C07, C08) *)
Lemma open_full_iff P m0 l smb smlen pkb m' l' :
  comps_fit P -> comps_faithful P ->
  64 <= zlen m0 -> smlen <= zlen smb -> zlen pkb = 1408 ->
  open_full P (Some m0) (Some l) (Some smb) smlen (Some pkb) = Ret (0, m', l') <->
  exists edsig msg dilsig spxsig,
    slice smb 0 smlen = full_layout edsig msg dilsig spxsig /\ smlen = 52342 + zlen msg /\
    1 <= zlen msg <= 64 /\ zlen edsig = 64 /\ zlen dilsig = 2420 /\ zlen spxsig = 49856 /\
    ed_valid P edsig msg (pk_ed pkb) /\
    dil_verify P dilsig msg (pk_dil pkb) = 0 /\
    spx_verify P spxsig msg (pk_spx pkb) = 0 /\
    m' = Some (msg ++ tail_from (zlen msg) m0) /\ l' = Some (zlen msg).
Proof.
  intros F C Hm Hs Hp.
  rewrite open_full_nf_ok; try lia; try apply F.
  unfold open_full_nf. fold (pk_ed pkb) (pk_dil pkb) (pk_spx pkb).
  assert (Lpk: zlen (pk_ed pkb) = 32) by (unfold pk_ed; zl).
  split.
  - intros H.
    destruct ((smlen <? 52343) || (52406 <? smlen))%bool eqn:E1; [discriminate|].
    destruct (Z.eqb_spec (nth 0 smb 0) 2) as [E2|]; cbn [negb] in H; [|discriminate].
    set (n := nth 1 smb 0) in *.
    destruct ((n <=? 0) || (64 <? n))%bool eqn:E3; [discriminate|].
    destruct (Z.eqb_spec smlen (52342 + n)) as [E4|]; cbn [negb] in H; [|discriminate].
    assert (Esig: slice smb 2 (64 + n) = slice smb 2 64 ++ slice smb 66 n).
    { rewrite (slice_split smb 2 (64 + n) 64) by lia. f_equal. f_equal; lia. }
    rewrite Esig in H.
    assert (Lm: zlen (slice smb 66 n) = n) by zl.
    pose proof (ok_ed_open P C (slice smb 2 64) (slice smb 66 n) (pk_ed pkb) ltac:(zl) ltac:(lia) Lpk) as O.
    pose proof (fit_ed_open P F (slice smb 2 64 ++ slice smb 66 n) (pk_ed pkb) ltac:(zl) Lpk) as Fo.
    destruct (Z.eqb_spec (code (ed_open P (slice smb 2 64 ++ slice smb 66 n) (pk_ed pkb))) 0) as [E5|];
      cbn [negb] in H; [|discriminate].
    destruct (O E5) as (O1 & junk & O2).
    rewrite O1 in H. rewrite Lm in H.
    replace (i32 n) with n in H by (unfold i32; rewrite Z.mod_small; lia).
    rewrite Z.eqb_refl in H. cbn [negb] in H.
    rewrite slice_pad in H by (rewrite O2; zl; pose proof (zlen_nonneg junk); lia).
    rewrite O2, slice_app_l, slice_all in H by lia.
    destruct (Z.eqb_spec (dil_verify P (slice smb (66 + n) 2420) (slice smb 66 n) (pk_dil pkb)) 0) as [E7|];
      cbn [negb] in H; [|discriminate].
    destruct (Z.eqb_spec (spx_verify P (slice smb (2486 + n) 49856) (slice smb 66 n) (pk_spx pkb)) 0) as [E8|];
      cbn [negb] in H; [|discriminate].
    apply Ret3_inj in H; destruct H as (_ & <- & <-).
    exists (slice smb 2 64), (slice smb 66 n), (slice smb (66 + n) 2420), (slice smb (2486 + n) 49856).
    rewrite Lm. rewrite E4, full_layout_parse by (try lia; assumption || reflexivity).
    repeat split; try assumption; try lia; try zl; reflexivity.
  - intros (e & m & d & s & Hl & Hlen & Hmlen & He & Hd & Hsp & V1 & V2 & V3 & -> & ->).
    set (n := zlen m) in *.
    assert (Hsplit: smb = full_layout e m d s ++ slice smb smlen (zlen smb - smlen)).
    { rewrite <- Hl. apply slice_whole_split; lia. }
    destruct (full_layout_slices e m d s (slice smb smlen (zlen smb - smlen)) He Hd Hsp) as (S0 & S1 & S2 & S3 & S4 & _).
    rewrite <- Hsplit in *. fold n in S1, S2, S3, S4.
    rewrite S0, S1.
    replace ((smlen <? 52343) || (52406 <? smlen))%bool with false by lia.
    replace (negb (2 =? 2)) with false by reflexivity.
    replace ((n <=? 0) || (64 <? n))%bool with false by lia.
    replace (smlen =? 52342 + n) with true by lia. cbn [negb].
    rewrite S2.
    pose proof (ok_ed_open P C e m (pk_ed pkb) He Hmlen Lpk V1) as (O1 & junk & O2).
    unfold ed_valid in V1. rewrite V1. cbn [Z.eqb negb].
    rewrite O1. fold n.
    replace (i32 n) with n by (unfold i32; rewrite Z.mod_small; lia).
    rewrite Z.eqb_refl. cbn [negb].
    rewrite O2. rewrite slice_pad by (zl; fold n; pose proof (zlen_nonneg junk); lia).
    rewrite slice_app_l, slice_all by (fold n; lia).
    rewrite S3, S4, V2, V3. cbn [Z.eqb negb]. reflexivity.
Qed.

Lemma open_compact_iff P m0 l smb smlen pkb m' l' :
  comps_fit P -> comps_faithful P ->
  64 <= zlen m0 -> smlen <= zlen smb -> zlen pkb = 1408 ->
  open_compact P (Some m0) (Some l) (Some smb) smlen (Some pkb) = Ret (0, m', l') <->
  exists edsig dilsig nonce msg,
    let h := sha3_512 P (compact_hash_input nonce msg (pk_spx pkb)) in
    slice smb 0 smlen = compact_layout edsig dilsig nonce msg /\ smlen = 2526 + zlen msg /\
    1 <= zlen msg <= 64 /\ zlen edsig = 64 /\ zlen dilsig = 2420 /\ zlen nonce = 40 /\
    ed_valid P edsig h (pk_ed pkb) /\
    dil_verify P dilsig h (pk_dil pkb) = 0 /\
    m' = Some (msg ++ tail_from (zlen msg) m0) /\ l' = Some (zlen msg).
Proof.
  intros F C Hm Hs Hp.
  rewrite open_compact_nf_ok; try lia; try apply F.
  unfold open_compact_nf. fold (pk_ed pkb) (pk_dil pkb) (pk_spx pkb).
  assert (Lpk: zlen (pk_ed pkb) = 32) by (unfold pk_ed; zl).
  split.
  - intros H.
    destruct ((smlen <? 2527) || (2590 <? smlen))%bool eqn:E1; [discriminate|].
    destruct (Z.eqb_spec (nth 0 smb 0) 1) as [E2|]; cbn [negb] in H; [|discriminate].
    set (n := nth 1 smb 0) in *.
    destruct ((n <=? 0) || (64 <? n))%bool eqn:E3; [discriminate|].
    destruct (Z.eqb_spec smlen (2526 + n)) as [E4|]; cbn [negb] in H; [|discriminate].
    fold (compact_hash_input (slice smb 2486 40) (slice smb 2526 n) (pk_spx pkb)) in H.
    set (h := sha3_512 P _) in *. assert (Lh: zlen h = 64) by apply F.
    destruct (Z.eqb_spec (code (ed_open P (slice smb 2 64 ++ h) (pk_ed pkb))) 0) as [E5|];
      cbn [negb] in H; [|discriminate].
    destruct (negb (olen _ =? 64)); [discriminate|].
    destruct (list_eq_dec _ _ _); cbn [negb] in H; [|discriminate].
    destruct (Z.eqb_spec (dil_verify P (slice smb 66 2420) h (pk_dil pkb)) 0) as [E7|];
      cbn [negb] in H; [|discriminate].
    apply Ret3_inj in H; destruct H as (_ & <- & <-).
    exists (slice smb 2 64), (slice smb 66 2420), (slice smb 2486 40), (slice smb 2526 n).
    cbn zeta. fold h.
    assert (Lm: zlen (slice smb 2526 n) = n) by zl. rewrite Lm.
    rewrite E4, compact_layout_parse by (try lia; assumption || reflexivity).
    repeat split; try assumption; try lia; try zl; reflexivity.
  - intros (e & d & nn & m & Hl & Hlen & Hmlen & He & Hd & Hnn & V1 & V2 & -> & ->).
    set (n := zlen m) in *.
    assert (Hsplit: smb = compact_layout e d nn m ++ slice smb smlen (zlen smb - smlen)).
    { rewrite <- Hl. apply slice_whole_split; lia. }
    destruct (compact_layout_slices e d nn m (slice smb smlen (zlen smb - smlen)) He Hd Hnn)
      as (S0 & S1 & S2 & S3 & S4 & S5 & _).
    rewrite <- Hsplit in *. fold n in S1, S5.
    rewrite S0, S1.
    replace ((smlen <? 2527) || (2590 <? smlen))%bool with false by lia.
    replace (negb (1 =? 1)) with false by reflexivity.
    replace ((n <=? 0) || (64 <? n))%bool with false by lia.
    replace (smlen =? 2526 + n) with true by lia. cbn [negb].
    rewrite S2, S3, S4, S5.
    fold (compact_hash_input nn m (pk_spx pkb)).
    set (h := sha3_512 P _) in *. assert (Lh: zlen h = 64) by apply F.
    pose proof (ok_ed_open P C e h (pk_ed pkb) He ltac:(lia) Lpk V1) as (O1 & junk & O2).
    unfold ed_valid in V1. rewrite V1. cbn [Z.eqb negb]. rewrite O1, Lh. cbn [Z.eqb Pos.eqb negb].
    rewrite O2. rewrite slice_pad by (zl; pose proof (zlen_nonneg junk); lia).
    rewrite slice_app_l, slice_all by lia.
    destruct (list_eq_dec _ _ _) as [_|N]; [|congruence]. cbn [negb].
    rewrite V2. cbn [Z.eqb negb]. reflexivity.
Qed.

(** *** verify (C09) *)
Lemma verify_full_iff P mb mlen smb smlen pkb :
  comps_fit P -> comps_faithful P ->
  0 <= mlen <= zlen mb -> smlen <= zlen smb -> zlen pkb = 1408 ->
  exists r, verify_full P (Some mb) mlen (Some smb) smlen (Some pkb) = Ret r /\ -4 <= r <= 0 /\
  (r = 0 <-> exists m1, open_full P (Some (zeros 224)) (Some 0) (Some smb) smlen (Some pkb)
                        = Ret (0, Some m1, Some mlen) /\ slice m1 0 mlen = slice mb 0 mlen).
Proof.
  intros F C Hml Hs Hp. unfold verify_full. hconst.
  change (64 + 64 + 32 + 64) with 224.
  assert (Lz: zlen (zeros 224) = 224) by zl.
  pose proof (open_full_iff P (zeros 224) 0 smb smlen pkb) as I.
  destruct ((mlen <=? 0) || (64 <? mlen))%bool eqn:E1.
  { exists (-1). split; [reflexivity|]. split; [lia|]. split; [lia|].
    intros (m1 & Ho & _). apply I in Ho; try assumption; try lia.
    destruct Ho as (e & m & d & s & _ & _ & Hl & _ & _ & _ & _ & _ & _ & _ & Hl2). injection Hl2 as ->. lia. }
  destruct (open_full P (Some (zeros 224)) (Some 0) (Some smb) smlen (Some pkb)) as [[[r m1] l1]|] eqn:Eo.
  2:{ exfalso. rewrite open_full_nf_ok in Eo; try lia; try apply F. unfold open_full_nf in Eo.
      repeat match type of Eo with (if ?b then _ else _) = _ => destruct b; try discriminate end. }
  cbn [bind]. destruct (Z.eqb_spec r 0) as [->|Hr]; cbn [negb].
  2:{ exists (-2). split; [reflexivity|]. split; [lia|]. split; [lia|].
      intros (m2 & E & _). congruence. }
  pose proof (proj1 (I m1 l1 F C ltac:(lia) Hs Hp) eq_refl) as (e & m & d & s & _ & _ & Hl & _ & _ & _ & _ & _ & _ & -> & ->).
  destruct (Z.eqb_spec (zlen m) mlen) as [El|Hl2]; cbn [negb].
  2:{ exists (-3). split; [reflexivity|]. split; [lia|]. split; [lia|].
      intros (m2 & E & _). congruence. }
  replace (i32 (zlen m)) with mlen by (unfold i32; rewrite Z.mod_small; lia).
  destruct (cmp_from_ok (Z.to_nat mlen) 0 (m ++ tail_from (zlen m) (zeros 224)) mb) as (b & Hb & Hiff);
    [lia|unfold tail_from; zl|lia|].
  rewrite Hb. cbn [bind]. rewrite Z2Nat.id in Hiff by lia.
  destruct b.
  - exists 0. split; [reflexivity|]. split; [lia|]. split; [|tauto]. intros _.
    eexists. rewrite El. split; [reflexivity|]. rewrite El in Hiff. now apply Hiff.
  - exists (-4). split; [reflexivity|]. split; [lia|]. split; [lia|].
    intros (m2 & E & E2). injection E as <- _. apply Hiff in E2. discriminate.
Qed.

Lemma verify_compact_iff P mb mlen smb smlen pkb :
  comps_fit P -> comps_faithful P ->
  0 <= mlen <= zlen mb -> smlen <= zlen smb -> zlen pkb = 1408 ->
  exists r, verify_compact P (Some mb) mlen (Some smb) smlen (Some pkb) = Ret r /\ -4 <= r <= 0 /\
  (r = 0 <-> exists m1, open_compact P (Some (zeros 64)) (Some 0) (Some smb) smlen (Some pkb)
                        = Ret (0, Some m1, Some mlen) /\ slice m1 0 mlen = slice mb 0 mlen).
Proof.
  intros F C Hml Hs Hp. unfold verify_compact. hconst.
  assert (Lz: zlen (zeros 64) = 64) by zl.
  pose proof (open_compact_iff P (zeros 64) 0 smb smlen pkb) as I.
  destruct ((mlen <=? 0) || (64 <? mlen))%bool eqn:E1.
  { exists (-1). split; [reflexivity|]. split; [lia|]. split; [lia|].
    intros (m1 & Ho & _). apply I in Ho; try assumption; try lia.
    destruct Ho as (e & d & nn & m & _ & _ & Hl & _ & _ & _ & _ & _ & _ & Hl2). injection Hl2 as ->. lia. }
  destruct (open_compact P (Some (zeros 64)) (Some 0) (Some smb) smlen (Some pkb)) as [[[r m1] l1]|] eqn:Eo.
  2:{ exfalso. rewrite open_compact_nf_ok in Eo; try lia; try apply F. unfold open_compact_nf in Eo.
      repeat match type of Eo with (if ?b then _ else _) = _ => destruct b; try discriminate end. }
  cbn [bind]. destruct (Z.eqb_spec r 0) as [->|Hr]; cbn [negb].
  2:{ exists (-2). split; [reflexivity|]. split; [lia|]. split; [lia|].
      intros (m2 & E & _). congruence. }
  pose proof (proj1 (I m1 l1 F C ltac:(lia) Hs Hp) eq_refl) as (e & d & nn & m & _ & _ & Hl & _ & _ & _ & _ & _ & -> & ->).
  destruct (Z.eqb_spec (zlen m) mlen) as [El|Hl2]; cbn [negb].
  2:{ exists (-3). split; [reflexivity|]. split; [lia|]. split; [lia|].
      intros (m2 & E & _). congruence. }
  replace (i32 (zlen m)) with mlen by (unfold i32; rewrite Z.mod_small; lia).
  destruct (cmp_from_ok (Z.to_nat mlen) 0 (m ++ tail_from (zlen m) (zeros 64)) mb) as (b & Hb & Hiff);
    [lia|unfold tail_from; zl|lia|].
  rewrite Hb. cbn [bind]. rewrite Z2Nat.id in Hiff by lia.
  destruct b.
  - exists 0. split; [reflexivity|]. split; [lia|]. split; [|tauto]. intros _.
    eexists. rewrite El. split; [reflexivity|]. rewrite El in Hiff. now apply Hiff.
  - exists (-4). split; [reflexivity|]. split; [lia|]. split; [lia|].
    intros (m2 & E & E2). injection E as <- _. apply Hiff in E2. discriminate.
Qed.
