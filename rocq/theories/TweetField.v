(** The limb arithmetic of tweetnacl.c computes in the field modulo 2^255 - 19, without overflow. *)
From Verif Require Import Base Wp NumTheory EdSpec EdCurve Tweet.
From Coq Require Import Znumtheory Setoid Morphisms.
Ltac Zify.zify_post_hook ::= Z.div_mod_to_equations.

Definition gval (l : list Z) : Z := bval 65536 l.
Definition bounded (B : Z) (l : list Z) : Prop := zlen l = 16 /\ forall i, 0 <= i < 16 -> - B <= znth l i <= B.

Lemma wp_ck x (Q : Z -> Prop) : -9223372036854775808 <= x < 9223372036854775808 -> Q x -> wp (ck x) Q.
Proof. intros H HQ. unfold ck. replace ((- 2 ^ 63 <=? x) && (x <? 2 ^ 63)) with true by lia. exact HQ. Qed.

(** ** carrying *)
Fixpoint chain (k : Z) (l : list Z) : list Z * Z :=
  match l with [] => ([], k) | x :: r => let '(o, k') := chain ((x + k) / 65536) r in ((x + k) mod 65536 :: o, k') end.
Definition carf (l : list Z) : list Z := match chain 0 l with (x :: r, k) => (x + 38 * k) :: r | _ => [] end.
Definition digit (x : Z) : Prop := 0 <= x < 65536.
Lemma chain_spec : forall l k o k', chain k l = (o, k') -> length o = length l /\ Forall digit o /\ gval l + k = gval o + k' * 65536 ^ zlen l.
Proof.
  induction l as [|x l IH]; intros k o k' H; cbn [chain] in H.
  - apply pair_equal_spec in H as [<- <-]. split; [reflexivity|]. split; [constructor|]. unfold gval. cbn [bval]. change (zlen (@nil Z)) with 0. rewrite Z.pow_0_r. ring.
  - destruct (chain ((x + k) / 65536) l) as [o1 k1] eqn:E. apply pair_equal_spec in H as [<- <-]. apply IH in E as (E1 & E2 & E3). split; [cbn [length]; lia|]. split; [constructor; [unfold digit; lia|exact E2]|].
    unfold gval in *. cbn [bval]. rewrite zlen_cons, Z.pow_add_r, Z.pow_1_r by (try lia; apply zlen_nonneg).
    transitivity (65536 * (bval 65536 l + (x + k) / 65536) + (x + k) mod 65536); [pose proof (Z.div_mod (x + k) 65536); lia|]. rewrite E3. ring.
Qed.
Lemma chain_bound : forall l k o k' B K, chain k l = (o, k') -> Forall (fun x => - B <= x <= B) l -> - K <= k <= K -> 0 <= B -> B + K + 65536 <= 65536 * K -> - K <= k' <= K.
Proof.
  induction l as [|x l IH]; intros k o k' B K H HF Hk HB HK; cbn [chain] in H.
  - apply pair_equal_spec in H as [_ <-]. exact Hk.
  - destruct (chain ((x + k) / 65536) l) as [o1 k1] eqn:E. apply pair_equal_spec in H as [_ <-]. apply Forall_cons_iff in HF as [Hx HF]. eapply IH; [exact E|exact HF| |exact HB|exact HK]. lia.
Qed.
Lemma chain_small : forall l k o k', chain k l = (o, k') -> Forall digit l -> -1 <= k <= 1 -> -1 <= k' <= 1.
Proof.
  induction l as [|x l IH]; intros k o k' H HF Hk; cbn [chain] in H.
  - apply pair_equal_spec in H as [_ <-]. exact Hk.
  - destruct (chain ((x + k) / 65536) l) as [o1 k1] eqn:E. apply pair_equal_spec in H as [_ <-]. apply Forall_cons_iff in HF as [Hx HF]. unfold digit in Hx. eapply IH; [exact E|exact HF|]. lia.
Qed.

(** one step of the loop *)
Lemma car_step_mid p x y r : zlen p < 15 -> - 2 ^ 61 <= x <= 2 ^ 61 -> - 2 ^ 61 <= y <= 2 ^ 61 ->
  car_step (zlen p) (p ++ x :: y :: r) = Ret (p ++ x mod 65536 :: (y + x / 65536) :: r).
Proof.
  intros Hi Hx Hy. apply wp_is. pose proof (zlen_nonneg p) as Hp. unfold car_step. set (i := zlen p) in *.
  assert (HL: zlen (p ++ x :: y :: r) = i + 2 + zlen r) by (rewrite zlen_app, !zlen_cons; unfold i; lia). pose proof (zlen_nonneg r).
  assert (N0: znth (p ++ x :: y :: r) i = x) by (unfold znth, i, zlen; rewrite Nat2Z.id, app_nth2, Nat.sub_diag by lia; reflexivity).
  assert (N1: znth (p ++ x :: y :: r) (i + 1) = y) by (unfold znth, i, zlen; rewrite app_nth2 by lia; replace (Z.to_nat (Z.of_nat (length p) + 1) - length p)%nat with 1%nat by lia; reflexivity).
  apply wp_bind, wp_rd; [lia|]. rewrite N0. apply wp_bind, wp_ck; [lia|]. apply wp_bind, wp_wr; [lia|]. cbv zeta.
  rewrite Z.shiftr_div_pow2 by lia. change (2 ^ 16) with 65536. set (c := (x + 65536) / 65536). assert (Ec: c = x / 65536 + 1) by (unfold c; lia). clearbody c.
  replace ((i + 1) * Z.b2z (i <? 15)) with (i + 1) by (replace (i <? 15) with true by lia; cbn [Z.b2z]; lia). replace (i =? 15) with false by lia. cbn [Z.b2z].
  apply wp_bind, wp_ck; [lia|]. apply wp_bind, wp_ck; [lia|]. apply wp_bind, wp_ck; [lia|]. apply wp_bind, wp_ck; [lia|].
  apply wp_bind, wp_rd; [rewrite zlen_zupd; lia|]. rewrite znth_zupd_other by lia. rewrite N1. apply wp_bind, wp_ck; [lia|]. apply wp_bind, wp_wr; [rewrite zlen_zupd; lia|].
  apply wp_bind, wp_rd; [rewrite !zlen_zupd; lia|]. rewrite znth_zupd_other by (rewrite ?zlen_zupd; lia). rewrite znth_zupd_same by lia. apply wp_bind, wp_ck; [lia|]. apply wp_bind, wp_ck; [lia|]. apply wp_wr; [rewrite !zlen_zupd; lia|].
  unfold zupd, i, zlen. rewrite !Nat2Z.id. rewrite upd_app_r. change (p ++ x + 65536 :: y :: r) with (p ++ [x + 65536] ++ y :: r). rewrite app_assoc.
  replace (Z.to_nat (Z.of_nat (length p) + 1)) with (length (p ++ [x + 65536])) by (rewrite app_length; cbn [length]; lia). rewrite upd_app_r, <- app_assoc. cbn [app]. rewrite upd_app_r. f_equal. f_equal; [lia|]. f_equal. lia.
Qed.
Lemma car_step_last x0 m x : zlen m = 14 -> - 2 ^ 61 <= x <= 2 ^ 61 -> - 2 ^ 61 <= x0 <= 2 ^ 61 ->
  car_step 15 (x0 :: m ++ [x]) = Ret (x0 + 38 * (x / 65536) :: m ++ [x mod 65536]).
Proof.
  intros Hm Hx Hx0. apply wp_is. unfold car_step. 
  assert (HL: zlen (x0 :: m ++ [x]) = 16) by (rewrite zlen_cons, zlen_app, Hm; reflexivity).
  assert (N0: znth (x0 :: m ++ [x]) 15 = x) by (unfold znth; unfold zlen in Hm; change (Z.to_nat 15) with 15%nat; cbn [nth]; rewrite app_nth2 by lia; replace (14 - length m)%nat with 0%nat by lia; reflexivity).
  apply wp_bind, wp_rd; [lia|]. rewrite N0. apply wp_bind, wp_ck; [lia|]. apply wp_bind, wp_wr; [lia|]. cbv zeta.
  rewrite Z.shiftr_div_pow2 by lia. change (2 ^ 16) with 65536. set (c := (x + 65536) / 65536). assert (Ec: c = x / 65536 + 1) by (unfold c; lia). clearbody c.
  change ((15 + 1) * Z.b2z (15 <? 15)) with 0. change (Z.b2z (15 =? 15)) with 1.
  apply wp_bind, wp_ck; [lia|]. apply wp_bind, wp_ck; [lia|]. apply wp_bind, wp_ck; [lia|]. apply wp_bind, wp_ck; [lia|].
  apply wp_bind, wp_rd; [rewrite zlen_zupd; lia|]. rewrite znth_zupd_other by lia. change (znth (x0 :: m ++ [x]) 0) with x0. apply wp_bind, wp_ck; [lia|]. apply wp_bind, wp_wr; [rewrite zlen_zupd; lia|].
  apply wp_bind, wp_rd; [rewrite !zlen_zupd; lia|]. rewrite znth_zupd_other by (rewrite ?zlen_zupd; lia). rewrite znth_zupd_same by lia. apply wp_bind, wp_ck; [lia|]. apply wp_bind, wp_ck; [lia|]. apply wp_wr; [rewrite !zlen_zupd; lia|].
  unfold zupd. change (Z.to_nat 15) with 15%nat. change (Z.to_nat 0) with 0%nat. cbn [upd]. unfold zlen in Hm. replace 14%nat with (length m) by lia. rewrite !upd_app_r. f_equal; [lia|]. f_equal. f_equal. lia.
Qed.
Lemma car_mid : forall r p x, 0 <= zlen p -> zlen p + zlen r = 15 -> - 2 ^ 60 - 2 ^ 50 <= x <= 2 ^ 60 + 2 ^ 50 -> Forall (fun y => - 2 ^ 60 <= y <= 2 ^ 60) r ->
  for_from (length r) (zlen p) car_step (p ++ x :: r) = Ret (p ++ (let '(o, k) := chain 0 (x :: removelast r) in match r with [] => [x] | _ => o ++ [last r 0 + k] end)).
Proof.
  induction r as [|y r IH]; intros p x Hp HL Hx HF; [reflexivity|]. cbn [length for_from]. pose proof (zlen_nonneg r). rewrite zlen_cons in HL. apply Forall_cons_iff in HF as [Hy HF].
  rewrite car_step_mid by lia. cbn [bind]. replace (zlen p + 1) with (zlen (p ++ [x mod 65536])) by (rewrite zlen_app, zlen_cons, (@zlen_nil Z); lia).
  change (p ++ x mod 65536 :: y + x / 65536 :: r) with (p ++ [x mod 65536] ++ (y + x / 65536) :: r). rewrite app_assoc.
  rewrite IH; [|apply zlen_nonneg|rewrite zlen_app, zlen_cons, (@zlen_nil Z); lia|lia|exact HF]. rewrite <- app_assoc. f_equal. f_equal.
  destruct r as [|z r].
  - cbn [removelast last chain app]. rewrite Z.add_0_r. reflexivity.
  - change (removelast (y :: z :: r)) with (y :: removelast (z :: r)). change (last (y :: z :: r) 0) with (last (z :: r) 0). cbn [chain]. rewrite !Z.add_0_r. destruct (chain ((y + x / 65536) / 65536) (removelast (z :: r))) as [o k]. reflexivity.
Qed.
Lemma chain_snoc : forall l k x, chain k (l ++ [x]) = (let '(o, k') := chain k l in (o ++ [(x + k') mod 65536], (x + k') / 65536)).
Proof. induction l as [|y l IH]; intros k x; [reflexivity|]. cbn [app chain]. rewrite IH. destruct (chain ((y + k) / 65536) l) as [o k']. reflexivity. Qed.
Lemma bounded_Forall B l : bounded B l -> Forall (fun x => - B <= x <= B) l.
Proof. intros [HL H]. apply Forall_forall. intros x Hx. apply (In_nth _ _ 0) in Hx as (n & Hn & <-). specialize (H (Z.of_nat n)). unfold znth, zlen in *. rewrite Nat2Z.id in H. apply H. lia. Qed.
Lemma car_carf l : bounded (2 ^ 60) l -> car25519 l = Ret (carf l).
Proof.
  intros HB. pose proof (bounded_Forall _ _ HB) as HF. destruct HB as [HL _]. unfold car25519, for_loop. change (Z.to_nat 16) with (15 + 1)%nat.
  assert (SP: forall n m (s : list Z) i f, for_from (n + m) i f s = (s' <- for_from n i f s ;; for_from m (i + Z.of_nat n) f s')).
  { induction n as [|n IHn]; intros m s i f; cbn [Nat.add for_from bind]; [now rewrite Z.add_0_r|]. destruct (f i s); cbn [bind]; [|reflexivity]. rewrite IHn. replace (i + 1 + Z.of_nat n) with (i + Z.of_nat (S n)) by lia. reflexivity. }
  rewrite SP. destruct l as [|x r]; [discriminate HL|]. rewrite zlen_cons in HL. apply Forall_cons_iff in HF as [Hx HF].
  pose proof (car_mid r [] x ltac:(apply zlen_nonneg) ltac:(rewrite (@zlen_nil Z); lia) ltac:(lia) HF) as E. unfold zlen in HL. replace (length r) with 15%nat in E by lia. change (zlen (@nil Z)) with 0 in E. cbn [app] in E. rewrite E. cbn [bind]. clear E.
  assert (Er: r = removelast r ++ [last r 0]) by (apply app_removelast_last; intros ->; discriminate HL). set (m := removelast r) in *. set (z := last r 0) in *. assert (Hr: r <> []) by (intros ->; discriminate HL).
  assert (Hm: length m = 14%nat). { apply (f_equal (@length Z)) in Er. rewrite app_length in Er. cbn [length] in Er. lia. }
  assert (Hz: - 2 ^ 60 <= z <= 2 ^ 60). { rewrite Er in HF. apply Forall_app in HF as [_ HF]. now apply Forall_cons_iff in HF as [HF _]. }
  assert (HFm: Forall (fun x => - 2 ^ 60 <= x <= 2 ^ 60) (x :: m)). { constructor; [exact Hx|]. rewrite Er in HF. now apply Forall_app in HF as [HF _]. }
  unfold carf. assert (Ex: chain 0 (x :: r) = chain 0 ((x :: m) ++ [z])) by (cbn [app]; now rewrite <- Er). rewrite Ex, chain_snoc. clear Ex.
  destruct (chain 0 (x :: m)) as [o k] eqn:EC. pose proof (chain_spec _ _ _ _ EC) as (C1 & C2 & _).
  assert (Hk: - 2 ^ 45 <= k <= 2 ^ 45) by (eapply chain_bound; [exact EC|exact HFm|lia|lia|lia]).
  destruct r as [|y0 r0]; [contradiction|]. clear Er HL HF Hr. cbn [length] in C1. destruct o as [|o0 o]; [discriminate C1|]. apply Forall_cons_iff in C2 as [C2 _]. unfold digit in C2. cbn [app].
  change (0 + Z.of_nat 15) with 15. cbn [for_from]. rewrite car_step_last by (unfold zlen; cbn [length] in C1; lia). reflexivity.
Qed.

(** limbs 1..15 are digits, limb 0 nearly so *)
Definition norm (e : Z) (l : list Z) : Prop := zlen l = 16 /\ exists x r, l = x :: r /\ - 38 * e <= x < 65536 + 38 * e /\ Forall digit r.
Lemma zpow256 : 65536 ^ 16 = 2 ^ 256. Proof. vm_compute. reflexivity. Qed.
Lemma p256 : 2 ^ 256 == 38.
Proof. unfold eqp. exists 2. change edp with (2 ^ 255 - 19). vm_compute. reflexivity. Qed.
Lemma carf_val l : zlen l = 16 -> gval (carf l) == gval l.
Proof.
  intros HL. unfold carf. destruct (chain 0 l) as [o k] eqn:E. apply chain_spec in E as (E1 & _ & E3). rewrite HL, zpow256, Z.add_0_r in E3. rewrite E3. unfold zlen in HL.
  destruct o as [|x r]; [cbn [length] in E1; lia|]. rewrite p256. apply eqp_of_eq. unfold gval. cbn [bval]. ring.
Qed.
Lemma carf_norm B K l : bounded B l -> 0 <= B -> 0 <= K -> B + K + 65536 <= 65536 * K -> norm K (carf l).
Proof.
  intros HB H0 HK0 HK. pose proof (bounded_Forall _ _ HB) as HF. destruct HB as [HL _]. unfold carf. destruct (chain 0 l) as [o k] eqn:E. assert (HkK: - K <= k <= K) by (eapply chain_bound; [exact E|exact HF|lia|lia|lia]).
  apply chain_spec in E as (E1 & E2 & _). unfold zlen in HL. destruct o as [|x r]; [cbn [length] in E1; lia|]. split; [unfold zlen; cbn [length] in *; lia|]. exists (x + 38 * k), r. split; [reflexivity|]. apply Forall_cons_iff in E2 as [Hx E2]. unfold digit in Hx. split; [lia|exact E2].
Qed.
Lemma norm_bounded e l : 0 <= e -> norm e l -> bounded (65536 + 38 * e) l.
Proof.
  intros He (HL & x & r & -> & Hx & HF). split; [exact HL|]. intros i Hi. destruct (Z.eq_dec i 0) as [->|Hn]; [change (znth (x :: r) 0) with x; lia|].
  assert (D: digit (znth (x :: r) i)).
  { unfold znth. replace (Z.to_nat i) with (S (Z.to_nat (i - 1))) by lia. cbn [nth]. rewrite Forall_forall in HF. apply HF, nth_In. rewrite zlen_cons in HL. unfold zlen in HL. lia. }
  unfold digit in D. lia.
Qed.
Lemma norm_carf e l : norm e l -> 0 <= e <= 2 ^ 40 -> norm 1 (carf l).
Proof.
  intros (HL & x & r & -> & Hx & HF) He. unfold carf. cbn [chain]. rewrite Z.add_0_r. assert (Hk0: - 2 ^ 31 <= x / 65536 <= 2 ^ 31) by lia. set (k0 := x / 65536) in *.
  rewrite zlen_cons in HL. destruct r as [|y r]; [discriminate HL|]. destruct r as [|z r]; [discriminate HL|]. destruct r as [|w r]; [discriminate HL|]. cbn [chain]. apply Forall_cons_iff in HF as [Hy HF]. apply Forall_cons_iff in HF as [Hz HF]. apply Forall_cons_iff in HF as [Hw HF]. unfold digit in Hy, Hz, Hw.
  assert (Hk1: - 2 ^ 16 <= (y + k0) / 65536 <= 2 ^ 16) by lia. set (k1 := (y + k0) / 65536) in *. assert (Hk2: -2 <= (z + k1) / 65536 <= 2) by lia. set (k2 := (z + k1) / 65536) in *.
  assert (Hk3: -1 <= (w + k2) / 65536 <= 1) by lia. set (k3 := (w + k2) / 65536) in *.
  destruct (chain k3 r) as [o k] eqn:E. pose proof (chain_small _ _ _ _ E HF Hk3) as Hk. apply chain_spec in E as (E1 & E2 & _).
  split; [unfold zlen in *; cbn [length] in *; lia|]. do 2 eexists. split; [reflexivity|]. split; [lia|]. repeat apply Forall_cons; try exact E2; unfold digit; lia.
Qed.
Lemma digits_val r : Forall digit r -> 0 <= gval r < 65536 ^ zlen r.
Proof.
  induction 1 as [|x r Hx _ IH]; [unfold gval; cbn [bval]; change (zlen (@nil Z)) with 0; rewrite Z.pow_0_r; lia|]. unfold gval in *. cbn [bval]. rewrite zlen_cons, Z.pow_add_r, Z.pow_1_r by (try lia; apply zlen_nonneg). unfold digit in Hx. lia.
Qed.
Lemma norm1_carf l : norm 1 l -> zlen (carf l) = 16 /\ Forall digit (carf l).
Proof.
  intros (HL & x & r & -> & Hx & HF). unfold carf. destruct (chain 0 (x :: r)) as [o k] eqn:E.
  assert (Hk: -1 <= k <= 1). { cbn [chain] in E. rewrite Z.add_0_r in E. destruct (chain (x / 65536) r) as [o1 k1] eqn:E1. apply pair_equal_spec in E as [_ <-]. eapply chain_small; [exact E1|exact HF|lia]. }
  apply chain_spec in E as (E1 & E2 & E3). rewrite HL, zpow256 in E3. destruct o as [|y o]; [cbn [length] in E1; lia|]. apply Forall_cons_iff in E2 as [Hy E2]. unfold digit in Hy.
  split; [unfold zlen in *; cbn [length] in *; lia|]. constructor; [|exact E2].
  pose proof (digits_val r HF) as V1. pose proof (digits_val o E2) as V2. rewrite zlen_cons in HL. replace (zlen r) with 15 in V1 by lia. replace (zlen o) with 15 in V2 by (unfold zlen in *; cbn [length] in E1; lia).
  assert (P: 65536 * 65536 ^ 15 = 2 ^ 256) by (vm_compute; reflexivity). unfold gval in *. cbn [bval] in E3. set (T := 65536 ^ 15) in *. set (a := bval 65536 r) in *. set (b := bval 65536 o) in *. rewrite <- P in E3. unfold digit. clearbody T a b. clear P.
  assert (k = -1 \/ k = 0 \/ k = 1) as [->|[->| ->]] by lia; lia.
Qed.

(** ** selection *)
Lemma sel_ok p q b : zlen p = 16 -> zlen q = 16 -> b = 0 \/ b = 1 -> sel25519 p q b = Ret (if b =? 1 then (q, p) else (p, q)).
Proof.
  intros Hp Hq Hb. apply wp_is. unfold sel25519.
  apply (wp_for_loop (fun i '(p', q') => zlen p' = 16 /\ zlen q' = 16 /\ forall j, 0 <= j < 16 ->
     znth p' j = (if (j <? i) && (b =? 1) then znth q j else znth p j) /\ znth q' j = (if (j <? i) && (b =? 1) then znth p j else znth q j))).
  - lia.
  - split; [exact Hp|]. split; [exact Hq|]. intros j Hj. replace (j <? 0) with false by lia. now split.
  - intros i [p' q'] Hi (L1 & L2 & HE). cbv zeta. apply wp_bind, wp_rd; [lia|]. apply wp_bind, wp_rd; [lia|]. apply wp_bind, wp_wr; [lia|]. apply wp_bind, wp_wr; [lia|]. apply wp_ret.
    split; [now rewrite zlen_zupd|]. split; [now rewrite zlen_zupd|]. intros j Hj. rewrite !znth_zupd by lia. destruct (HE j Hj) as [E1 E2]. destruct (HE i Hi) as [F1 F2]. replace (i <? i) with false in F1, F2 by lia. cbn [andb] in F1, F2.
    destruct (Z.eqb_spec j i) as [->|Hne].
    + rewrite F1, F2. replace (i <? i + 1) with true by lia. cbn [andb]. destruct Hb as [->| ->]; [change (0 =? 1) with false in *|change (1 =? 1) with true in *]; cbv iota.
      * change (Z.lnot (0 - 1)) with 0. now rewrite Z.land_0_l, !Z.lxor_0_r.
      * change (Z.lnot (1 - 1)) with (-1). rewrite Z.land_m1_l. rewrite <- Z.lxor_assoc, Z.lxor_nilpotent, Z.lxor_0_l. rewrite (Z.lxor_comm (znth p i)), <- Z.lxor_assoc, Z.lxor_nilpotent, Z.lxor_0_l. now split.
    + replace (j <? i + 1) with (j <? i) by lia. now split.
  - intros [p' q'] (L1 & L2 & HE). destruct Hb as [->| ->]; [change (0 =? 1) with false in *|change (1 =? 1) with true in *]; cbv iota.
    + f_equal; apply list_ext_z; try congruence; rewrite ?L1, ?L2; intros j Hj; destruct (HE j Hj) as [E1 E2]; rewrite andb_false_r in E1, E2; assumption.
    + f_equal; apply list_ext_z; try congruence; rewrite ?L1, ?L2; intros j Hj; destruct (HE j Hj) as [E1 E2]; replace (j <? 16) with true in E1, E2 by lia; cbn [andb] in E1, E2; assumption.
Qed.

(** ** packing *)
Definition digits (l : list Z) : Prop := zlen l = 16 /\ forall i, 0 <= i < 16 -> digit (znth l i).
Lemma digits_Forall l : digits l <-> zlen l = 16 /\ Forall digit l.
Proof.
  unfold digits. split; intros [HL H]; (split; [exact HL|]).
  - apply Forall_forall. intros x Hx. apply (In_nth _ _ 0) in Hx as (n & Hn & <-). specialize (H (Z.of_nat n)). unfold znth, zlen in *. rewrite Nat2Z.id in H. apply H. lia.
  - intros i Hi. rewrite Forall_forall in H. apply H, nth_In. unfold zlen in HL. lia.
Qed.
Definition pdig (i : Z) : Z := if i =? 0 then 0xffed else if i =? 15 then 0x7fff else 0xffff.
Definition plimbs : list Z := [0xffed;0xffff;0xffff;0xffff;0xffff;0xffff;0xffff;0xffff;0xffff;0xffff;0xffff;0xffff;0xffff;0xffff;0xffff;0x7fff].
Lemma plimbs_val : gval plimbs = edp. Proof. vm_compute. reflexivity. Qed.
Lemma plimbs_nth i : 1 <= i < 15 -> znth plimbs i = 65535.
Proof. intros H. assert (i = 1 \/ i = 2 \/ i = 3 \/ i = 4 \/ i = 5 \/ i = 6 \/ i = 7 \/ i = 8 \/ i = 9 \/ i = 10 \/ i = 11 \/ i = 12 \/ i = 13 \/ i = 14) as C by lia. repeat destruct C as [->|C]; try subst; reflexivity. Qed.
Lemma borrow x : -65537 <= x <= 65535 -> Z.land (Z.shiftr x 16) 1 = (if x <? 0 then 1 else 0) \/ x = -65537.
Proof.
  intros H. destruct (Z.eq_dec x (-65537)) as [->|Hn]; [now right|left]. rewrite Z.shiftr_div_pow2 by lia. change (2 ^ 16) with 65536.
  destruct (Z.ltb_spec x 0); [replace (x / 65536) with (-1) by lia|replace (x / 65536) with 0 by lia]; reflexivity.
Qed.
Lemma land_ffff x : Z.land x 65535 = x mod 65536. Proof. change 65535 with (Z.ones 16). rewrite Z.land_ones by lia. reflexivity. Qed.
Lemma pack_pass_ok t m : digits t -> zlen m = 16 -> wp (pack_pass t m) (fun '(t', m') => digits t' /\ zlen m' = 16 /\ gval t' = (if edp <=? gval t then gval t - edp else gval t)).
Proof.
  intros [Lt Ht] Lm. unfold pack_pass, digit in *. pose proof (Ht 0 ltac:(lia)) as H0. pose proof (Ht 15 ltac:(lia)) as H15.
  apply wp_bind, wp_rd; [lia|]. apply wp_bind, wp_ck; [lia|]. apply wp_bind, wp_wr; [lia|]. apply wp_bind.
  pose proof (wp_for_from (fun i m => zlen m = 16 /\ -65536 <= znth m (i - 1) <= 65535 /\ (forall j, 0 <= j < i - 1 -> digit (znth m j)) /\ bps 65536 m i = bps 65536 t i - bps 65536 plimbs i)) as W.
  eapply wp_mono; [apply W|]; clear W.
  - split; [now rewrite zlen_zupd|]. change (1 - 1) with 0. rewrite znth_zupd_same by lia. split; [lia|]. split; [intros; lia|].
    change 1 with (0 + 1). rewrite !bps_succ by (rewrite ?zlen_zupd; try lia; change (zlen plimbs) with 16; lia). rewrite znth_zupd_same by lia. rewrite !bps_0. change (znth plimbs 0) with 0xffed. rewrite Z.pow_0_r. lia.
  - intros i m1 Hi (L1 & Hm & HD & HV). change (Z.of_nat 14) with 14 in Hi. pose proof (Ht i ltac:(lia)) as Hti. apply wp_bind, wp_rd; [lia|]. apply wp_bind, wp_rd; [lia|].
    set (x := znth m1 (i - 1)) in *. destruct (borrow x ltac:(lia)) as [EB|]; [|lia]. rewrite EB. set (b := if x <? 0 then 1 else 0) in *. assert (Hb: (x < 0 /\ b = 1) \/ (0 <= x /\ b = 0)) by (unfold b; destruct (Z.ltb_spec x 0); lia).
    apply wp_bind, wp_ck; [lia|]. apply wp_bind, wp_wr; [lia|]. apply wp_wr; [rewrite zlen_zupd; lia|]. rewrite land_ffff.
    split; [now rewrite !zlen_zupd|]. replace (i + 1 - 1) with i by lia. rewrite znth_zupd_other by (rewrite ?zlen_zupd; lia). rewrite znth_zupd_same by lia. split; [lia|]. split.
    + intros j Hj. destruct (Z.eq_dec j (i - 1)) as [->|Hn]; [rewrite znth_zupd_same by (rewrite zlen_zupd; lia); unfold digit; lia|]. rewrite !znth_zupd_other by (rewrite ?zlen_zupd; lia). apply HD. lia.
    + rewrite bps_zupd by (rewrite ?zlen_zupd; lia). rewrite znth_zupd_other by lia. fold x. rewrite bps_succ by (rewrite zlen_zupd; lia). rewrite bps_zupd_ge, znth_zupd_same by lia. rewrite HV. rewrite !bps_succ by (try lia; change (zlen plimbs) with 16; lia). rewrite plimbs_nth by lia.
      assert (P: 65536 ^ i = 65536 * 65536 ^ (i - 1)) by (rewrite <- Z.pow_succ_r by lia; f_equal; lia). rewrite P. assert (M: x mod 65536 = x + 65536 * b) by lia. rewrite M. ring.
  - cbv beta. change (1 + Z.of_nat 14) with 15. intros m1 (L1 & Hm & HD & HV). change (15 - 1) with 14 in *. apply wp_bind, wp_rd; [lia|]. apply wp_bind, wp_rd; [lia|].
    set (x := znth m1 14) in *. destruct (borrow x ltac:(lia)) as [EB|]; [|lia]. rewrite EB. set (b := if x <? 0 then 1 else 0) in *. assert (Hb: (x < 0 /\ b = 1) \/ (0 <= x /\ b = 0)) by (unfold b; destruct (Z.ltb_spec x 0); lia).
    apply wp_bind, wp_ck; [lia|]. apply wp_bind, wp_wr; [lia|]. apply wp_bind, wp_rd; [rewrite zlen_zupd; lia|]. rewrite znth_zupd_same by lia. set (y := znth t 15 - 32767 - b). cbv zeta. apply wp_bind, wp_wr; [rewrite zlen_zupd; lia|].
    assert (Hy: -65536 <= y <= 65535) by (unfold y; lia). destruct (borrow y ltac:(lia)) as [EB'|]; [|lia]. rewrite EB'. clear EB'. rewrite land_ffff. set (m2 := zupd (zupd m1 15 y) 14 (x mod 65536)).
    assert (L2: zlen m2 = 16) by (unfold m2; now rewrite !zlen_zupd). rewrite sel_ok by (try assumption; destruct (y <? 0); lia).
    assert (V2: gval m2 = gval t - edp).
    { unfold gval, m2. rewrite <- (bps_full 65536 _ 16) by (now rewrite !zlen_zupd). rewrite bps_zupd by (rewrite ?zlen_zupd; lia). rewrite znth_zupd_other by lia. fold x. change 16 with (15 + 1). rewrite bps_succ by (rewrite zlen_zupd; lia). rewrite bps_zupd_ge, znth_zupd_same by lia. rewrite HV.
      rewrite <- plimbs_val. unfold gval. rewrite <- (bps_full 65536 t (15 + 1)), <- (bps_full 65536 plimbs (15 + 1)) by (try lia; reflexivity). rewrite !bps_succ by (try lia; change (zlen plimbs) with 16; lia). change (znth plimbs 15) with 32767.
      change (65536 ^ 15) with (65536 * 65536 ^ 14). assert (M: x mod 65536 = x + 65536 * b) by lia. rewrite M. unfold y. ring. }
    assert (D2: forall j, 0 <= j < 15 -> digit (znth m2 j)).
    { intros j Hj. unfold m2. destruct (Z.eq_dec j 14) as [->|Hn]; [rewrite znth_zupd_same by (rewrite zlen_zupd; lia); unfold digit; lia|]. rewrite !znth_zupd_other by (rewrite ?zlen_zupd; lia). apply HD. lia. }
    assert (Y2: znth m2 15 = y) by (unfold m2; rewrite znth_zupd_other by (rewrite ?zlen_zupd; lia); now rewrite znth_zupd_same by lia).
    assert (S2: 0 <= bps 65536 m2 15 < 65536 ^ 15).
    { assert (G: forall k, 0 <= k -> k <= 15 -> 0 <= bps 65536 m2 k < 65536 ^ k).
      { intros k Hk. pattern k. revert k Hk. apply natlike_ind; [intros _; rewrite bps_0, Z.pow_0_r; lia|]. intros k Hk IH Hk'. unfold Z.succ. rewrite bps_succ, Z.pow_add_r, Z.pow_1_r by lia. specialize (IH ltac:(lia)). pose proof (D2 k ltac:(lia)) as D. unfold digit in D. assert (0 < 65536 ^ k) by (apply Z.pow_pos_nonneg; lia). nia. }
      apply G; lia. }
    assert (V3: gval m2 = bps 65536 m2 15 + 65536 ^ 15 * y) by (unfold gval; rewrite <- (bps_full 65536 _ (15 + 1)) by lia; rewrite bps_succ, Y2 by lia; reflexivity).
    assert (SG: (0 <= y <-> edp <= gval t)) by (assert (0 < 65536 ^ 15) by reflexivity; set (T := 65536 ^ 15) in *; clearbody T; nia).
    destruct (Z.ltb_spec y 0) as [Hy0|Hy0].
    + replace (edp <=? gval t) with false by lia. cbn [Z.sub Z.eqb]. apply wp_ret. split; [split; assumption|]. split; [exact L2|reflexivity].
    + replace (edp <=? gval t) with true by lia. cbn [Z.sub Z.eqb]. apply wp_ret. split; [|split; [exact Lt|exact V2]]. split; [exact L2|]. intros j Hj. destruct (Z.eq_dec j 15) as [->|Hn]; [rewrite Y2; unfold digit; lia|apply D2; lia].
Qed.

Lemma le_val_bval l : le_val l = bval 256 l.
Proof. induction l as [|x l IH]; cbn [le_val bval]; [reflexivity|]. now rewrite IH. Qed.
Lemma le_bytes_val l : bytes_ok l -> le_bytes (length l) (le_val l) = l.
Proof.
  induction 1 as [|x l Hx _ IH]; [reflexivity|]. cbn [length le_val le_bytes]. unfold byte_ok in Hx. f_equal; [lia|]. replace ((x + 256 * le_val l) / 256) with (le_val l) by lia. exact IH.
Qed.
Lemma le_bytes_length n v : length (le_bytes n v) = n. Proof. revert v; induction n as [|n IH]; intros v; cbn [le_bytes length]; [reflexivity|]. now rewrite IH. Qed.
Lemma le_bytes_ok n v : bytes_ok (le_bytes n v). Proof. revert v; induction n as [|n IH]; intros v; cbn [le_bytes]; constructor; [unfold byte_ok; lia|apply IH]. Qed.
Lemma le_val_bytes n v : 0 <= v < 256 ^ Z.of_nat n -> le_val (le_bytes n v) = v.
Proof.
  revert v; induction n as [|n IH]; intros v Hv; cbn [le_bytes le_val]; [change (Z.of_nat 0) with 0 in Hv; rewrite Z.pow_0_r in Hv; lia|].
  rewrite Nat2Z.inj_succ, Z.pow_succ_r in Hv by lia. rewrite IH by lia. lia.
Qed.
Lemma le_bytes_mod n v : le_val (le_bytes n v) = v mod 256 ^ Z.of_nat n.
Proof.
  revert v; induction n as [|n IH]; intros v; cbn [le_bytes le_val]; [change (Z.of_nat 0) with 0; rewrite Z.pow_0_r, Z.mod_1_r; reflexivity|].
  rewrite IH, Nat2Z.inj_succ, Z.pow_succ_r by lia. rewrite Z.rem_mul_r by (try lia; apply Z.pow_pos_nonneg; lia). reflexivity.
Qed.
Lemma le_val_range l : bytes_ok l -> 0 <= le_val l < 256 ^ zlen l.
Proof.
  induction 1 as [|x l Hx _ IH]; [cbn [le_val]; change (zlen (@nil Z)) with 0; rewrite Z.pow_0_r; lia|]. cbn [le_val]. rewrite zlen_cons, Z.pow_add_r, Z.pow_1_r by (try lia; apply zlen_nonneg). unfold byte_ok in Hx. lia.
Qed.
Lemma le_val_inj a b : bytes_ok a -> bytes_ok b -> length a = length b -> le_val a = le_val b -> a = b.
Proof. intros Ha Hb HL HV. rewrite <- (le_bytes_val a Ha), <- (le_bytes_val b Hb). congruence. Qed.
Lemma bytes_ok_znth l : bytes_ok l <-> forall i, 0 <= i < zlen l -> byte_ok (znth l i).
Proof.
  unfold bytes_ok. split.
  - intros H i Hi. rewrite Forall_forall in H. apply H, nth_In. unfold zlen in Hi. lia.
  - intros H. apply Forall_forall. intros x Hx. apply (In_nth _ _ 0) in Hx as (n & Hn & <-). specialize (H (Z.of_nat n)). unfold znth, zlen in *. rewrite Nat2Z.id in H. apply H. lia.
Qed.

Lemma three_cars n : bounded (2 ^ 55) n -> exists t, (t1 <- car25519 n ;; t2 <- car25519 t1 ;; car25519 t2) = Ret t /\ digits t /\ gval t == gval n.
Proof.
  intros HB. assert (HL := proj1 HB). assert (HB': bounded (2 ^ 60) n) by (split; [exact HL|]; intros i Hi; pose proof (proj2 HB i Hi); lia).
  rewrite car_carf by exact HB'. cbn [bind]. pose proof (carf_norm (2 ^ 55) (2 ^ 40) n HB ltac:(lia) ltac:(lia) ltac:(lia)) as N1.
  pose proof (norm_bounded (2 ^ 40) _ ltac:(lia) N1) as B1. rewrite car_carf by (split; [apply N1|]; intros i Hi; pose proof (proj2 B1 i Hi); lia). cbn [bind].
  pose proof (norm_carf (2 ^ 40) _ N1 ltac:(lia)) as N2. pose proof (norm_bounded 1 _ ltac:(lia) N2) as B2. rewrite car_carf by (split; [apply N2|]; intros i Hi; pose proof (proj2 B2 i Hi); lia).
  exists (carf (carf (carf n))). split; [reflexivity|]. split; [apply digits_Forall; now apply norm1_carf|]. rewrite !carf_val by (try exact HL; try apply N1; apply N2). reflexivity.
Qed.
Lemma digits_gval t : digits t -> 0 <= gval t < 2 ^ 256.
Proof. intros H. apply digits_Forall in H as [HL H]. apply digits_val in H. rewrite HL, zpow256 in H. exact H. Qed.
Lemma pack_bytes t : digits t -> wp (for_loop 16 (fun i o => ti <- rd 0 t i ;; o <- wr o (2 * i) (u8 (Z.land ti 0xff)) ;; wr o (2 * i + 1) (u8 (Z.shiftr ti 8))) (zeros 32)) (fun o => o = le_bytes 32 (gval t)).
Proof.
  intros [HL HD]. apply (wp_for_loop (fun i o => zlen o = 32 /\ bytes_ok o /\ bps 256 o (2 * i) = bps 65536 t i)); [lia| | |].
  - split; [reflexivity|]. split; [apply bytes_ok_zeros|reflexivity].
  - intros i o Hi (Lo & Bo & V). pose proof (HD i Hi) as Di. unfold digit in Di. apply wp_bind, wp_rd; [lia|]. set (x := znth t i) in *.
    replace (u8 (Z.land x 255)) with (x mod 256) by (change 255 with (Z.ones 8); rewrite Z.land_ones by lia; unfold u8; change (2 ^ 8) with 256; lia).
    replace (u8 (Z.shiftr x 8)) with (x / 256) by (rewrite Z.shiftr_div_pow2 by lia; unfold u8; change (2 ^ 8) with 256; lia).
    apply wp_bind, wp_wr; [lia|]. apply wp_wr; [rewrite zlen_zupd; lia|]. split; [now rewrite !zlen_zupd|]. split; [apply bytes_ok_upd; [apply bytes_ok_upd; [exact Bo|]|]; unfold byte_ok; lia|].
    replace (2 * (i + 1)) with ((2 * i + 1) + 1) by lia. rewrite !bps_succ by (rewrite ?zlen_zupd; lia). rewrite znth_zupd_same by (rewrite zlen_zupd; lia). rewrite znth_zupd_other by (rewrite ?zlen_zupd; lia). rewrite znth_zupd_same by lia.
    rewrite !bps_zupd_ge by (rewrite ?zlen_zupd; lia). rewrite V. fold x. rewrite Z.pow_add_r, Z.pow_1_r by lia. replace (256 ^ (2 * i)) with (65536 ^ i) by (rewrite Z.pow_mul_r by lia; reflexivity).
    replace x with (x mod 256 + 256 * (x / 256)) at 3 by lia. ring.
  - intros o (Lo & Bo & V). rewrite !bps_full in V by lia. unfold gval. rewrite <- V, <- le_val_bval. unfold zlen in Lo. replace 32%nat with (length o) by lia. symmetry. now apply le_bytes_val.
Qed.
Lemma pack25519_ok n : bounded (2 ^ 55) n -> pack25519 n = Ret (le_bytes 32 (gval n mod edp)).
Proof.
  intros HB. destruct (three_cars n HB) as (t & E & D & V). apply wp_is. unfold pack25519.
  assert (A: forall (k : list Z -> outcome (list Z)), (t0 <- car25519 n;; (t1 <- car25519 t0;; (t2 <- car25519 t1;; k t2))) = (x <- (t1 <- car25519 n ;; t2 <- car25519 t1 ;; car25519 t2) ;; k x)).
  { intros k. destruct (car25519 n); cbn [bind]; [|reflexivity]. destruct (car25519 a); cbn [bind]; reflexivity. }
  rewrite A, E. cbn [bind]. clear A E. pose proof (digits_gval t D) as R. pose proof edp_val as EV.
  apply wp_bind. unfold for_loop at 1. change (Z.to_nat 2) with 2%nat. cbn [for_from]. apply wp_bind. eapply wp_mono; [apply pack_pass_ok; [exact D|reflexivity]|]. intros [t1 m1] (D1 & L1 & V1). apply wp_bind. eapply wp_mono; [apply pack_pass_ok; assumption|]. intros [t2 m2] (D2 & L2 & V2).
  apply wp_ret. eapply wp_mono; [apply pack_bytes; exact D2|]. intros o ->. f_equal. rewrite V1 in V2. apply eqp_iff in V. rewrite <- V.
  assert (H2: edp + edp < 2 ^ 256 < edp + edp + edp) by (rewrite EV; lia). apply (Z.mod_unique_pos _ _ (if edp <=? gval t then if edp <=? gval t - edp then 2 else 1 else 0)).
  - rewrite V2. destruct (Z.leb_spec edp (gval t)); [destruct (Z.leb_spec edp (gval t - edp)); lia|]. destruct (Z.leb_spec edp (gval t)); lia.
  - rewrite V2. destruct (Z.leb_spec edp (gval t)); [destruct (Z.leb_spec edp (gval t - edp)); lia|]. destruct (Z.leb_spec edp (gval t)); lia.
Qed.
