(** Total-correctness reasoning about [outcome] programs. *)
From Verif Require Import Base.

Definition wp {A} (e : outcome A) (Q : A -> Prop) : Prop := match e with Ret a => Q a | Undef => False end.
Lemma wp_ret {A} (a : A) (Q : A -> Prop) : Q a -> wp (Ret a) Q. Proof. exact (fun H => H). Qed.
Lemma wp_bind {A B} (e : outcome A) (k : A -> outcome B) Q : wp e (fun a => wp (k a) Q) -> wp (bind e k) Q.
Proof. destruct e; exact (fun H => H). Qed.
Lemma wp_mono {A} (e : outcome A) (P Q : A -> Prop) : wp e P -> (forall a, P a -> Q a) -> wp e Q.
Proof. destruct e; cbn; auto. Qed.
Lemma wp_ex {A} (e : outcome A) Q : wp e Q <-> exists a, e = Ret a /\ Q a.
Proof. destruct e; cbn; split; [eauto|intros (? & [= ->] & H); exact H|tauto|intros (? & [=] & _)]. Qed.
Lemma wp_eq {A} (e : outcome A) a (Q : A -> Prop) : e = Ret a -> Q a -> wp e Q. Proof. intros ->. exact (fun H => H). Qed.
Lemma wp_is {A} (e : outcome A) a : wp e (fun b => b = a) -> e = Ret a.
Proof. destruct e; cbn; [now intros ->|tauto]. Qed.
Lemma wp_and {A} (e : outcome A) (P Q : A -> Prop) : wp e P -> wp e Q -> wp e (fun a => P a /\ Q a).
Proof. destruct e; cbn; auto. Qed.

Lemma wp_for_from {S} (P : Z -> S -> Prop) (f : Z -> S -> outcome S) : forall n i s, P i s ->
  (forall j s, i <= j < i + Z.of_nat n -> P j s -> wp (f j s) (P (j + 1))) -> wp (for_from n i f s) (P (i + Z.of_nat n)).
Proof.
  induction n as [|n IH]; intros i s H HF; cbn [for_from].
  - replace (i + Z.of_nat 0) with i by lia. exact H.
  - apply wp_bind. eapply wp_mono; [apply (HF i s); [lia|exact H]|]. intros s' H'. cbv beta. replace (i + Z.of_nat (Datatypes.S n)) with (i + 1 + Z.of_nat n) by lia.
    apply IH; [exact H'|]. intros j t Hj. apply HF. lia.
Qed.
Lemma wp_for_loop {S} (P : Z -> S -> Prop) n (f : Z -> S -> outcome S) s (Q : S -> Prop) : 0 <= n -> P 0 s ->
  (forall j s, 0 <= j < n -> P j s -> wp (f j s) (P (j + 1))) -> (forall s, P n s -> Q s) -> wp (for_loop n f s) Q.
Proof.
  intros Hn H HF HQ. unfold for_loop. eapply wp_mono; [apply (wp_for_from P); [exact H|intros j t Hj; apply HF; lia]|].
  intros t Ht. apply HQ. replace n with (0 + Z.of_nat (Z.to_nat n)) by lia. exact Ht.
Qed.

(** element access *)
Definition znth (l : list Z) (i : Z) : Z := nth (Z.to_nat i) l 0.
Definition zupd (l : list Z) (i v : Z) : list Z := upd l (Z.to_nat i) v.
Lemma wp_rd l i (Q : Z -> Prop) : 0 <= i < zlen l -> Q (znth l i) -> wp (rd 0 l i) Q.
Proof. intros H HQ. rewrite rd_ok by exact H. exact HQ. Qed.
Lemma wp_wr l i v (Q : list Z -> Prop) : 0 <= i < zlen l -> Q (zupd l i v) -> wp (wr l i v) Q.
Proof. intros H HQ. rewrite wr_ok by exact H. exact HQ. Qed.
Lemma zlen_zupd l i v : zlen (zupd l i v) = zlen l. Proof. apply zlen_upd. Qed.
Lemma znth_zupd l i v j : 0 <= i < zlen l -> 0 <= j -> znth (zupd l i v) j = if j =? i then v else znth l j.
Proof.
  intros Hi Hj. unfold znth, zupd. rewrite nth_upd. unfold zlen in Hi.
  destruct (Z.eqb_spec j i); [subst; rewrite Nat.eqb_refl; cbn [andb]; destruct (Nat.ltb_spec (Z.to_nat i) (length l)); [reflexivity|lia]|].
  destruct (Nat.eqb_spec (Z.to_nat i) (Z.to_nat j)); [lia|reflexivity].
Qed.
Lemma znth_zupd_same l i v : 0 <= i < zlen l -> znth (zupd l i v) i = v.
Proof. intros H. rewrite znth_zupd by lia. now rewrite Z.eqb_refl. Qed.
Lemma znth_zupd_other l i v j : 0 <= i < zlen l -> 0 <= j -> j <> i -> znth (zupd l i v) j = znth l j.
Proof. intros H Hj Hn. rewrite znth_zupd by lia. destruct (Z.eqb_spec j i); [contradiction|reflexivity]. Qed.
Lemma znth_zeros n i : znth (zeros n) i = 0. Proof. unfold znth, zeros. apply nth_repeat. Qed.
Lemma list_ext_z (a b : list Z) : zlen a = zlen b -> (forall i, 0 <= i < zlen a -> znth a i = znth b i) -> a = b.
Proof.
  intros HL H. apply (nth_ext _ _ 0 0); [unfold zlen in HL; lia|]. intros n Hn. specialize (H (Z.of_nat n)). unfold znth, zlen in H. rewrite Nat2Z.id in H. apply H. lia.
Qed.

(** weighted prefix sums: the value of the first i elements in base b *)
Fixpoint bval (b : Z) (l : list Z) : Z := match l with [] => 0 | x :: r => x + b * bval b r end.
Definition pre (l : list Z) (i : Z) : list Z := firstn (Z.to_nat i) l.
Definition bps (b : Z) (l : list Z) (i : Z) : Z := bval b (pre l i).
Lemma bval_app b l r : bval b (l ++ r) = bval b l + b ^ zlen l * bval b r.
Proof.
  induction l as [|x l IH]; cbn [app bval]; [change (zlen (@nil Z)) with 0; rewrite Z.pow_0_r; ring|]. rewrite IH, zlen_cons, Z.pow_add_r, Z.pow_1_r by (try lia; apply zlen_nonneg). ring.
Qed.
Lemma bps_0 b l : bps b l 0 = 0. Proof. reflexivity. Qed.
Lemma bps_full b l n : n = zlen l -> bps b l n = bval b l.
Proof. intros ->. unfold bps, pre, zlen. rewrite Nat2Z.id, firstn_all. reflexivity. Qed.
Lemma firstn_S_nth (l : list Z) n : (n < length l)%nat -> firstn (S n) l = firstn n l ++ [nth n l 0].
Proof. revert n; induction l as [|x l IH]; intros n H; cbn [length] in H; [lia|]. destruct n; [reflexivity|]. cbn [firstn nth app]. f_equal. apply IH. lia. Qed.
Lemma bps_succ b l i : 0 <= i < zlen l -> bps b l (i + 1) = bps b l i + b ^ i * znth l i.
Proof.
  intros H. unfold bps, pre, znth. replace (Z.to_nat (i + 1)) with (S (Z.to_nat i)) by lia. unfold zlen in H. rewrite firstn_S_nth by lia. rewrite bval_app. cbn [bval].
  replace (zlen (firstn (Z.to_nat i) l)) with i by (unfold zlen; rewrite firstn_length; lia). ring.
Qed.
Lemma bps_ext b l l' i : 0 <= i <= zlen l -> zlen l = zlen l' -> (forall j, 0 <= j < i -> znth l j = znth l' j) -> bps b l i = bps b l' i.
Proof.
  intros [H H'] HL HE. revert H' HE. revert i H. apply (natlike_ind (fun i => i <= zlen l -> (forall j, 0 <= j < i -> znth l j = znth l' j) -> bps b l i = bps b l' i)); [reflexivity|].
  intros i Hi IH Hl HE. unfold Z.succ in *. rewrite !bps_succ by lia. rewrite IH by (try lia; intros; apply HE; lia). rewrite HE by lia. reflexivity.
Qed.
Lemma bps_zupd_ge b l i v j : 0 <= i < zlen l -> 0 <= j <= i -> bps b (zupd l i v) j = bps b l j.
Proof. intros Hi Hj. apply bps_ext; rewrite ?zlen_zupd; try lia. intros k Hk. apply znth_zupd_other; lia. Qed.
Lemma bps_zupd b l i v j : 0 <= i < zlen l -> i < j <= zlen l -> bps b (zupd l i v) j = bps b l j + b ^ i * (v - znth l i).
Proof.
  intros Hi Hj. assert (Hd: exists k, 0 <= k /\ j = i + 1 + k) by (exists (j - (i + 1)); lia). destruct Hd as (k & Hd & ->). revert Hj. revert k Hd.
  apply (natlike_ind (fun k => i < i + 1 + k <= zlen l -> bps b (zupd l i v) (i + 1 + k) = bps b l (i + 1 + k) + b ^ i * (v - znth l i))).
  - intros Hj. rewrite Z.add_0_r. rewrite !bps_succ by (rewrite ?zlen_zupd; lia). rewrite bps_zupd_ge by lia. rewrite znth_zupd_same by lia. ring.
  - intros k Hk IH Hj. replace (i + 1 + Z.succ k) with ((i + 1 + k) + 1) by lia. rewrite !bps_succ by (rewrite ?zlen_zupd; lia). rewrite IH by lia. rewrite znth_zupd_other by lia. ring.
Qed.
Lemma bval_zupd b l i v : 0 <= i < zlen l -> bval b (zupd l i v) = bval b l + b ^ i * (v - znth l i).
Proof. intros H. rewrite <- (bps_full b (zupd l i v) (zlen l)) by (now rewrite zlen_zupd). rewrite bps_zupd, (bps_full b l) by lia. reflexivity. Qed.
Lemma bval_zeros b n : bval b (zeros n) = 0.
Proof. unfold zeros. induction (Z.to_nat n) as [|k IH]; cbn [repeat bval]; [reflexivity|]. rewrite IH. ring. Qed.

Ltac wps := repeat (first [apply wp_bind | apply wp_ret | apply wp_rd; [rewrite ?zlen_zupd; lia|] | apply wp_wr; [rewrite ?zlen_zupd; lia|]]; cbv beta).
