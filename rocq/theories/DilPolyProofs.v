(** The coefficient-wise functions of poly.c, for arguments in range. *)
From Verif Require Import Base SpongePure SpongeProofs DilReduce DilReduceProofs Tab DilNtt DilNttProofs DilNttAlg DilPoly.

Lemma mapM_tab {B} f (g : Z -> B) a : zlen a = 256 -> (forall i, 0 <= i < 256 -> f (ix a i) = Ret (g (ix a i))) ->
  mapM f a = Ret (tab 256 (fun i => g (ix a i))).
Proof.
  intros HL H. rewrite (mapM_ok f g).
  - f_equal. rewrite <- (tab_ix a 256) at 1 by auto. now rewrite map_tab.
  - apply Forall_ix. rewrite HL. exact H.
Qed.
Lemma map2M_tab f (g : Z -> Z -> Z) a b : zlen a = 256 -> zlen b = 256 -> (forall i, 0 <= i < 256 -> f (ix a i) (ix b i) = Ret (g (ix a i) (ix b i))) ->
  map2M f a b = Ret (tab 256 (fun i => g (ix a i) (ix b i))).
Proof.
  intros HL HL2 H. rewrite (map2M_ok f g).
  - f_equal. apply list_ext_ix.
    + rewrite zlen_map2 by lia. now rewrite zlen_tab.
    + intros i Hi. rewrite zlen_map2 in Hi by lia. rewrite ix_map2 by lia. now rewrite ix_tab by lia.
  - apply Forall2_ix; [lia|]. rewrite HL. exact H.
Qed.
Lemma zlen_tab256 {A} (f : Z -> A) : zlen (tab 256 f) = 256. Proof. now apply zlen_tab. Qed.
Lemma bounded_tab B f : within B f -> bounded B (tab 256 f).
Proof. intros H i Hi. rewrite ix_tab by exact Hi. now apply H. Qed.
Lemma bounded_le B C a : B <= C -> bounded B a -> bounded C a.
Proof. intros H Hb i Hi. specialize (Hb i Hi). lia. Qed.

Lemma poly_reduce_ok a : zlen a = 256 -> bounded (2 ^ 31 - 2 ^ 22 - 1) a ->
  poly_reduce a = Ret (tab 256 (fun i => red32 (ix a i))).
Proof. intros HL Hb. apply mapM_tab; [exact HL|]. intros i Hi. apply reduce32_ok. specialize (Hb i Hi). lia. Qed.
Lemma poly_caddq_ok a : zlen a = 256 -> bounded (2 ^ 31 - 1) a -> poly_caddq a = Ret (tab 256 (fun i => cadd (ix a i))).
Proof. intros HL Hb. apply mapM_tab; [exact HL|]. intros i Hi. apply caddq_ok. specialize (Hb i Hi). lia. Qed.
Lemma poly_add_ok a b A B : zlen a = 256 -> zlen b = 256 -> bounded A a -> bounded B b -> A + B < 2 ^ 31 ->
  poly_add a b = Ret (tab 256 (fun i => ix a i + ix b i)).
Proof.
  intros HL HL2 Ha Hb H. apply (map2M_tab (fun x y => ck32 (x + y)) Z.add); [exact HL|exact HL2|].
  intros i Hi. apply ck32_ok. specialize (Ha i Hi). specialize (Hb i Hi). lia.
Qed.
Lemma poly_sub_ok a b A B : zlen a = 256 -> zlen b = 256 -> bounded A a -> bounded B b -> A + B < 2 ^ 31 ->
  poly_sub a b = Ret (tab 256 (fun i => ix a i - ix b i)).
Proof.
  intros HL HL2 Ha Hb H. apply (map2M_tab (fun x y => ck32 (x - y)) Z.sub); [exact HL|exact HL2|].
  intros i Hi. apply ck32_ok. specialize (Ha i Hi). specialize (Hb i Hi). lia.
Qed.
Lemma poly_shiftl_ok a : zlen a = 256 -> (forall i, 0 <= i < 256 -> 0 <= ix a i < 2 ^ 18) ->
  poly_shiftl a = Ret (tab 256 (fun i => ix a i * 8192)).
Proof. intros HL Hb. apply (mapM_tab (fun x => shl32 x D) (fun x => x * 8192)); [exact HL|]. intros i Hi. apply shl32_ok; specialize (Hb i Hi); unfold D; lia. Qed.

(** products of bounded coefficients stay within the domain of the Montgomery reduction *)
Lemma prod_bound x y A B : - A <= x <= A -> - B <= y <= B -> - (A * B) <= x * y <= A * B.
Proof. intros. nia. Qed.
Lemma pointwise_ok a b A B : zlen a = 256 -> zlen b = 256 -> bounded A a -> bounded B b -> A * B < 2 ^ 31 * Q ->
  poly_pointwise_montgomery a b = Ret (tab 256 (fun i => mont (ix a i * ix b i))) /\
  bounded (Q - 1) (tab 256 (fun i => mont (ix a i * ix b i))).
Proof.
  intros HL HL2 Ha Hb H.
  assert (P: forall i, 0 <= i < 256 -> - (A * B) <= ix a i * ix b i <= A * B).
  { intros i Hi. apply prod_bound; [now apply Ha|now apply Hb]. }
  split.
  - apply (map2M_tab _ (fun x y => mont (x * y))); [exact HL|exact HL2|]. intros i Hi. specialize (P i Hi).
    generalize dependent (ix a i * ix b i). intros p P. rewrite ck64_ok by (unfold Q in H; lia). cbn [bind]. apply montgomery_reduce_ok. lia.
  - apply bounded_tab. intros i Hi. specialize (P i Hi). pose proof (mont_range_strict (ix a i * ix b i)). lia.
Qed.
Lemma red32_small_bound x : - (2 ^ 31 - 2 ^ 22 - 1) <= x <= 2 ^ 31 - 2 ^ 22 - 1 -> - 6283009 <= red32 x <= 6283009.
Proof. intros H. pose proof (red32_range x). lia. Qed.

(** The norm check *)
Lemma chknorm_loop_ok B a : 0 <= B -> Forall (fun x => - 2 ^ 30 <= x < 2 ^ 30) a ->
  chknorm_loop a B = Ret (if forallb (fun x => Z.abs x <? B) a then 0 else 1).
Proof.
  intros HB. induction 1 as [|x a Hx _ IH]; cbn [chknorm_loop forallb]; [reflexivity|].
  rewrite ck32_ok by lia. cbn [bind].
  assert (E: x - Z.land (Z.shiftr x 31) (2 * x) = Z.abs x).
  { destruct (Z.leb_spec 0 x).
    - rewrite shiftr31_pos by lia. rewrite Z.land_0_l. lia.
    - rewrite shiftr31_neg by lia. rewrite Z.land_m1_l. lia. }
  rewrite E, ck32_ok by lia. cbn [bind]. rewrite IH. destruct (Z.leb_spec B (Z.abs x)).
  - replace (Z.abs x <? B) with false by lia. reflexivity.
  - replace (Z.abs x <? B) with true by lia. reflexivity.
Qed.
Lemma chknorm_ok B a : 0 <= B <= (Q - 1) / 8 -> Forall (fun x => - 2 ^ 30 <= x < 2 ^ 30) a ->
  poly_chknorm a B = Ret (if forallb (fun x => Z.abs x <? B) a then 0 else 1).
Proof.
  intros HB H. unfold poly_chknorm. replace ((Q - 1) / 8 <? B) with false by lia. apply chknorm_loop_ok; [lia|exact H].
Qed.
