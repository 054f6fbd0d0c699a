(** The vector operations of polyvec.c, coefficient by coefficient. *)
From Coq Require Import Setoid Morphisms.
From Verif Require Import Base SpongePure SpongeProofs Tab DilReduce DilReduceProofs DilNtt DilNttProofs DilNttAlg DilPoly DilPolyProofs DilPack DilVec DilHint.

(** coefficient i of component r *)
Definition cf (v : vec) (r : nat) : Z -> Z := ix (nth r v []).
Definition pb (B : Z) (a : list Z) : Prop := zlen a = 256 /\ bounded B a.
Definition vlen (v : vec) : Prop := length v = 4%nat /\ forall r, (r < 4)%nat -> zlen (nth r v []) = 256.
Definition vb (B : Z) (v : vec) : Prop := length v = 4%nat /\ forall r, (r < 4)%nat -> pb B (nth r v []).
Definition same (f g : Z -> Z) : Prop := forall i, 0 <= i < 256 -> f i = g i.
Lemma vb_vlen B v : vb B v -> vlen v.
Proof. intros [H1 H2]. split; [exact H1|]. intros r Hr. apply H2, Hr. Qed.
Lemma vb_le B C v : B <= C -> vb B v -> vb C v.
Proof. intros H [H1 H2]. split; [exact H1|]. intros r Hr. destruct (H2 r Hr) as [H3 H4]. split; [exact H3|]. eapply bounded_le; eassumption. Qed.
Lemma vb_of_cf B v : vlen v -> (forall r, (r < 4)%nat -> within B (cf v r)) -> vb B v.
Proof. intros [H1 H2] H. split; [exact H1|]. intros r Hr. split; [now apply H2|]. exact (H r Hr). Qed.
Lemma vb_cf B v r : vb B v -> (r < 4)%nat -> within B (cf v r).
Proof. intros [_ H] Hr. apply H, Hr. Qed.
Lemma vec_ext u v : vlen u -> vlen v -> (forall r, (r < 4)%nat -> same (cf u r) (cf v r)) -> u = v.
Proof.
  intros [Lu Hu] [Lv Hv] H. apply nth_ext with (d := []) (d' := []); [lia|]. intros r Hr. rewrite Lu in Hr.
  apply list_ext_ix; [rewrite Hu, Hv by exact Hr; reflexivity|]. rewrite Hu by exact Hr. intros i Hi. now apply H.
Qed.
Lemma vin_vlen lo hi v : length v = 4%nat -> Forall (poly_in lo hi) v -> vlen v /\ forall r i, (r < 4)%nat -> 0 <= i < 256 -> lo <= cf v r i <= hi.
Proof.
  intros HL HF. rewrite Forall_forall in HF. assert (HP: forall r, (r < 4)%nat -> poly_in lo hi (nth r v [])) by (intros r Hr; apply HF, nth_In; lia).
  split; [split; [exact HL|]; intros r Hr; destruct (HP r Hr) as [H _]; unfold zlen; lia|].
  intros r i Hr Hi. destruct (HP r Hr) as [H1 H2]. rewrite Forall_forall in H2. apply H2. unfold cf, ix. apply nth_In. lia.
Qed.
Lemma poly_in_of_cf lo hi (a : list Z) : zlen a = 256 -> (forall i, 0 <= i < 256 -> lo <= ix a i <= hi) -> poly_in lo hi a.
Proof.
  intros HL H. split; [unfold zlen in HL; lia|]. apply Forall_forall. intros x Hx. destruct (In_nth _ _ 0 Hx) as (k & Hk & <-).
  specialize (H (Z.of_nat k)). unfold ix in H. rewrite Nat2Z.id in H. apply H. unfold zlen in HL. lia.
Qed.
Lemma vin_of_cf lo hi v : vlen v -> (forall r i, (r < 4)%nat -> 0 <= i < 256 -> lo <= cf v r i <= hi) -> Forall (poly_in lo hi) v.
Proof.
  intros [HL HV] H. apply Forall_forall. intros a Ha. destruct (In_nth _ _ [] Ha) as (r & Hr & <-). rewrite HL in Hr.
  apply poly_in_of_cf; [now apply HV|]. intros i Hi. now apply H.
Qed.

Lemma mapM_V {A B : Type} (d : A) (d' : B) (f : A -> outcome B) (R : nat -> B -> Prop) : forall v,
  (forall r, (r < length v)%nat -> exists b, f (nth r v d) = Ret b /\ R r b) ->
  exists v', mapM f v = Ret v' /\ length v' = length v /\ forall r, (r < length v)%nat -> R r (nth r v' d').
Proof.
  intros v. revert R. induction v as [|a v IH]; intros R H; cbn [mapM].
  - exists []. split; [reflexivity|]. split; [reflexivity|]. intros r Hr. cbn in Hr. lia.
  - destruct (H 0%nat) as (b & E & Hb); [cbn; lia|]. cbn [nth] in E. rewrite E. cbn [bind].
    destruct (IH (fun r => R (S r))) as (v' & E' & HL & HR). { intros r Hr. apply (H (S r)). cbn. lia. }
    rewrite E'. cbn [bind]. exists (b :: v'). split; [reflexivity|]. split; [cbn; lia|]. intros [|r] Hr; cbn [nth]; [exact Hb|]. apply HR. cbn in Hr. lia.
Qed.
Lemma map2M_V {A B C : Type} (d : A) (e : B) (d' : C) (f : A -> B -> outcome C) (R : nat -> C -> Prop) : forall u v, length u = length v ->
  (forall r, (r < length u)%nat -> exists b, f (nth r u d) (nth r v e) = Ret b /\ R r b) ->
  exists v', map2M f u v = Ret v' /\ length v' = length u /\ forall r, (r < length u)%nat -> R r (nth r v' d').
Proof.
  intros u. revert R. induction u as [|a u IH]; intros R [|a' v] HL H; try discriminate HL; cbn [map2M].
  - exists []. split; [reflexivity|]. split; [reflexivity|]. intros r Hr. cbn in Hr. lia.
  - destruct (H 0%nat) as (b & E & Hb); [cbn; lia|]. cbn [nth] in E. rewrite E. cbn [bind].
    destruct (IH (fun r => R (S r)) v) as (v' & E' & HL' & HR). { cbn in HL. lia. } { intros r Hr. apply (H (S r)). cbn. lia. }
    rewrite E'. cbn [bind]. exists (b :: v'). split; [reflexivity|]. split; [cbn; lia|]. intros [|r] Hr; cbn [nth]; [exact Hb|]. apply HR. cbn in Hr. lia.
Qed.
(** A vector operation defined component-wise, given what it does to a component *)
Lemma vec_map_ok (f : list Z -> outcome (list Z)) (g : nat -> Z -> Z) v : length v = 4%nat ->
  (forall r, (r < 4)%nat -> exists b, f (nth r v []) = Ret b /\ zlen b = 256 /\ same (ix b) (g r)) ->
  exists v', mapM f v = Ret v' /\ vlen v' /\ forall r, (r < 4)%nat -> same (cf v' r) (g r).
Proof.
  intros HL H. destruct (mapM_V [] [] f (fun r b => zlen b = 256 /\ same (ix b) (g r)) v) as (v' & E & HL' & HR).
  { intros r Hr. rewrite HL in Hr. destruct (H r Hr) as (b & ? & ? & ?). eauto. }
  rewrite HL in *. exists v'. split; [exact E|]. split; [split; [lia|]|]; intros r Hr; now apply HR.
Qed.
Lemma vec_map2_ok (f : list Z -> list Z -> outcome (list Z)) (g : nat -> Z -> Z) u v : length u = 4%nat -> length v = 4%nat ->
  (forall r, (r < 4)%nat -> exists b, f (nth r u []) (nth r v []) = Ret b /\ zlen b = 256 /\ same (ix b) (g r)) ->
  exists v', map2M f u v = Ret v' /\ vlen v' /\ forall r, (r < 4)%nat -> same (cf v' r) (g r).
Proof.
  intros HL HL2 H. destruct (map2M_V [] [] [] f (fun r b => zlen b = 256 /\ same (ix b) (g r)) u v) as (v' & E & HL' & HR).
  { lia. } { intros r Hr. rewrite HL in Hr. destruct (H r Hr) as (b & ? & ? & ?). eauto. }
  rewrite HL in *. exists v'. split; [exact E|]. split; [split; [lia|]|]; intros r Hr; now apply HR.
Qed.
Lemma same_tab f : same (ix (tab 256 f)) f.
Proof. intros i Hi. now apply ix_tab. Qed.
Ltac one := eexists; split; [eassumption || (now eauto)|split; [apply zlen_tab256|apply same_tab]].

Lemma vec_reduce_ok v : vb (2 ^ 31 - 2 ^ 22 - 1) v ->
  exists v', vec_reduce v = Ret v' /\ vb 6283009 v' /\ forall r, (r < 4)%nat -> same (cf v' r) (fun i => red32 (cf v r i)).
Proof.
  intros [HL HB]. destruct (vec_map_ok poly_reduce (fun r i => red32 (cf v r i)) v HL) as (v' & E & V & HS).
  { intros r Hr. destruct (HB r Hr) as [H1 H2]. eexists. split; [now apply poly_reduce_ok|]. split; [apply zlen_tab256|apply same_tab]. }
  exists v'. split; [exact E|]. split; [|exact HS]. apply vb_of_cf; [exact V|]. intros r Hr i Hi. rewrite HS by assumption.
  apply red32_small_bound. apply (HB r Hr); exact Hi.
Qed.
Lemma vec_caddq_ok v : vb (2 ^ 31 - 1) v ->
  exists v', vec_caddq v = Ret v' /\ vlen v' /\ forall r, (r < 4)%nat -> same (cf v' r) (fun i => cadd (cf v r i)).
Proof.
  intros [HL HB]. apply vec_map_ok; [exact HL|].
  intros r Hr. destruct (HB r Hr) as [H1 H2]. eexists. split; [now apply poly_caddq_ok|]. split; [apply zlen_tab256|apply same_tab].
Qed.
Lemma vec_add_ok u v A B : vb A u -> vb B v -> A + B < 2 ^ 31 ->
  exists w, vec_add u v = Ret w /\ vb (A + B) w /\ forall r, (r < 4)%nat -> same (cf w r) (fun i => cf u r i + cf v r i).
Proof.
  intros [HL HA] [HL2 HB] HS. destruct (vec_map2_ok poly_add (fun r i => cf u r i + cf v r i) u v HL HL2) as (v' & E & V & HS').
  { intros r Hr. destruct (HA r Hr) as [H1 H2]. destruct (HB r Hr) as [H3 H4]. eexists. split; [eapply poly_add_ok; eassumption|]. split; [apply zlen_tab256|apply same_tab]. }
  exists v'. split; [exact E|]. split; [|exact HS']. apply vb_of_cf; [exact V|]. intros r Hr i Hi. rewrite HS' by assumption.
  destruct (HA r Hr) as [_ H2]. destruct (HB r Hr) as [_ H4]. specialize (H2 i Hi). specialize (H4 i Hi). unfold cf. lia.
Qed.
Lemma vec_sub_ok u v A B : vb A u -> vb B v -> A + B < 2 ^ 31 ->
  exists w, vec_sub u v = Ret w /\ vb (A + B) w /\ forall r, (r < 4)%nat -> same (cf w r) (fun i => cf u r i - cf v r i).
Proof.
  intros [HL HA] [HL2 HB] HS. destruct (vec_map2_ok poly_sub (fun r i => cf u r i - cf v r i) u v HL HL2) as (v' & E & V & HS').
  { intros r Hr. destruct (HA r Hr) as [H1 H2]. destruct (HB r Hr) as [H3 H4]. eexists. split; [eapply poly_sub_ok; eassumption|]. split; [apply zlen_tab256|apply same_tab]. }
  exists v'. split; [exact E|]. split; [|exact HS']. apply vb_of_cf; [exact V|]. intros r Hr i Hi. rewrite HS' by assumption.
  destruct (HA r Hr) as [_ H2]. destruct (HB r Hr) as [_ H4]. specialize (H2 i Hi). specialize (H4 i Hi). unfold cf. lia.
Qed.
Lemma vec_shiftl_ok v : vlen v -> (forall r i, (r < 4)%nat -> 0 <= i < 256 -> 0 <= cf v r i <= 1023) ->
  exists v', vec_shiftl v = Ret v' /\ vb (Q - 1) v' /\ forall r, (r < 4)%nat -> same (cf v' r) (fun i => cf v r i * 8192).
Proof.
  intros [HL HB] H. destruct (vec_map_ok poly_shiftl (fun r i => cf v r i * 8192) v HL) as (v' & E & V & HS).
  { intros r Hr. eexists. split; [apply poly_shiftl_ok; [now apply HB|intros i Hi; specialize (H r i Hr Hi); unfold cf in H; lia]|]. split; [apply zlen_tab256|apply same_tab]. }
  exists v'. split; [exact E|]. split; [|exact HS]. apply vb_of_cf; [exact V|]. intros r Hr i Hi. rewrite HS by assumption. specialize (H r i Hr Hi). unfold Q. lia.
Qed.
Lemma vec_ntt_ok v B : vb B v -> 0 <= B -> B + 8 * Q < 2 ^ 31 ->
  exists v', vec_ntt v = Ret v' /\ vb (B + 8 * Q) v' /\ forall r, (r < 4)%nat -> same (cf v' r) (nttf (cf v r)).
Proof.
  intros [HL HB] H0 H1. destruct (vec_map_ok poly_ntt (fun r => nttf (cf v r)) v HL) as (v' & E & V & HS).
  { intros r Hr. destruct (HB r Hr) as [H2 H3]. destruct (ntt_ok _ B H2 H0 H1 H3) as (E & _ & HZ). eexists. split; [exact E|]. split; [exact HZ|apply same_tab]. }
  exists v'. split; [exact E|]. split; [|exact HS]. apply vb_of_cf; [exact V|]. intros r Hr i Hi. rewrite HS by assumption.
  destruct (HB r Hr) as [H2 H3]. destruct (ntt_ok _ B H2 H0 H1 H3) as (_ & HBB & _). specialize (HBB i Hi). unfold nttp in HBB. rewrite ix_tab in HBB by exact Hi. exact HBB.
Qed.
Lemma vec_invntt_ok v : vb Q v ->
  exists v', vec_invntt_tomont v = Ret v' /\ vb (Q - 1) v' /\ forall r, (r < 4)%nat -> same (cf v' r) (inttf (cf v r)).
Proof.
  intros [HL HB]. destruct (vec_map_ok poly_invntt_tomont (fun r => inttf (cf v r)) v HL) as (v' & E & V & HS).
  { intros r Hr. destruct (HB r Hr) as [H2 H3]. destruct (invntt_ok _ H2 H3) as (E & _ & HZ). eexists. split; [exact E|]. split; [exact HZ|apply same_tab]. }
  exists v'. split; [exact E|]. split; [|exact HS]. apply vb_of_cf; [exact V|]. intros r Hr i Hi. rewrite HS by assumption.
  destruct (HB r Hr) as [H2 H3]. destruct (invntt_ok _ H2 H3) as (_ & HBB & _). specialize (HBB i Hi). unfold inttp in HBB. rewrite ix_tab in HBB by exact Hi. exact HBB.
Qed.
Lemma vec_pointwise_poly_ok a v A B : pb A a -> vb B v -> A * B < 2 ^ 31 * Q ->
  exists v', vec_pointwise_poly a v = Ret v' /\ vb (Q - 1) v' /\ forall r, (r < 4)%nat -> same (cf v' r) (fun i => mont (ix a i * cf v r i)).
Proof.
  intros [HLa Ha] [HL HB] HS. destruct (vec_map_ok (poly_pointwise_montgomery a) (fun r i => mont (ix a i * cf v r i)) v HL) as (v' & E & V & HS').
  { intros r Hr. destruct (HB r Hr) as [H2 H3]. destruct (pointwise_ok _ _ A B HLa H2 Ha H3 HS) as [E _]. eexists. split; [exact E|]. split; [apply zlen_tab256|apply same_tab]. }
  exists v'. split; [exact E|]. split; [|exact HS']. apply vb_of_cf; [exact V|]. intros r Hr i Hi. rewrite HS' by assumption.
  destruct (HB r Hr) as [H2 H3]. destruct (pointwise_ok _ _ A B HLa H2 Ha H3 HS) as [_ HBB]. specialize (HBB i Hi). rewrite ix_tab in HBB by exact Hi. exact HBB.
Qed.

(** ** Matrix times vector *)
Definition dotm (row : vec) (v : vec) (i : Z) : Z :=
  mont (cf row 0 i * cf v 0 i) + mont (cf row 1 i * cf v 1 i) + mont (cf row 2 i * cf v 2 i) + mont (cf row 3 i * cf v 3 i).
Lemma pointwise_acc_ok row v A B : vb A row -> vb B v -> A * B < 2 ^ 31 * Q ->
  exists w, vec_pointwise_acc row v = Ret w /\ zlen w = 256 /\ bounded (4 * (Q - 1)) w /\ same (ix w) (dotm row v).
Proof.
  intros [L1 H1] [L2 H2] HS. destruct row as [|a0 [|a1 [|a2 [|a3 [|? ?]]]]]; try discriminate L1. destruct v as [|b0 [|b1 [|b2 [|b3 [|? ?]]]]]; try discriminate L2.
  destruct (H1 0%nat ltac:(lia)) as [La0 Ba0]. destruct (H1 1%nat ltac:(lia)) as [La1 Ba1]. destruct (H1 2%nat ltac:(lia)) as [La2 Ba2]. destruct (H1 3%nat ltac:(lia)) as [La3 Ba3].
  destruct (H2 0%nat ltac:(lia)) as [Lb0 Bb0]. destruct (H2 1%nat ltac:(lia)) as [Lb1 Bb1]. destruct (H2 2%nat ltac:(lia)) as [Lb2 Bb2]. destruct (H2 3%nat ltac:(lia)) as [Lb3 Bb3].
  cbn [nth] in *. clear H1 H2.
  destruct (pointwise_ok a0 b0 A B) as [E0 M0]; try assumption. destruct (pointwise_ok a1 b1 A B) as [E1 M1]; try assumption.
  destruct (pointwise_ok a2 b2 A B) as [E2 M2]; try assumption. destruct (pointwise_ok a3 b3 A B) as [E3 M3]; try assumption.
  unfold vec_pointwise_acc. cbn [acc_loop]. rewrite E0. cbn [bind]. rewrite E1. cbn [bind].
  set (m0 := tab 256 (fun i => mont (ix a0 i * ix b0 i))) in *. set (m1 := tab 256 (fun i => mont (ix a1 i * ix b1 i))) in *.
  set (m2 := tab 256 (fun i => mont (ix a2 i * ix b2 i))) in *. set (m3 := tab 256 (fun i => mont (ix a3 i * ix b3 i))) in *.
  rewrite (poly_add_ok m0 m1 (Q - 1) (Q - 1)) by (try apply zlen_tab256; try assumption; unfold Q; lia). cbn [bind]. rewrite E2. cbn [bind].
  set (w1 := tab 256 (fun i => ix m0 i + ix m1 i)). assert (W1: bounded (2 * (Q - 1)) w1) by (intros i Hi; unfold w1; rewrite ix_tab by exact Hi; specialize (M0 i Hi); specialize (M1 i Hi); lia).
  rewrite (poly_add_ok w1 m2 (2 * (Q - 1)) (Q - 1)) by (try apply zlen_tab256; try assumption; unfold Q; lia). cbn [bind]. rewrite E3. cbn [bind].
  set (w2 := tab 256 (fun i => ix w1 i + ix m2 i)). assert (W2: bounded (3 * (Q - 1)) w2) by (intros i Hi; unfold w2; rewrite ix_tab by exact Hi; specialize (W1 i Hi); specialize (M2 i Hi); lia).
  rewrite (poly_add_ok w2 m3 (3 * (Q - 1)) (Q - 1)) by (try apply zlen_tab256; try assumption; unfold Q; lia). cbn [bind].
  eexists. split; [reflexivity|]. split; [apply zlen_tab256|]. split.
  - intros i Hi. rewrite ix_tab by exact Hi. specialize (W2 i Hi). specialize (M3 i Hi). lia.
  - intros i Hi. rewrite ix_tab by exact Hi. unfold w2. rewrite ix_tab by exact Hi. unfold w1. rewrite ix_tab by exact Hi. unfold m0, m1, m2, m3. rewrite !ix_tab by exact Hi. reflexivity.
Qed.
Definition matb (mat : list vec) : Prop := length mat = 4%nat /\ forall r, (r < 4)%nat -> vb (Q - 1) (nth r mat []).
Lemma matrix_pointwise_ok mat v B : matb mat -> vb B v -> (Q - 1) * B < 2 ^ 31 * Q ->
  exists w, matrix_pointwise mat v = Ret w /\ vb (4 * (Q - 1)) w /\ forall r, (r < 4)%nat -> same (cf w r) (dotm (nth r mat []) v).
Proof.
  intros [HL HM] HV HS. unfold matrix_pointwise.
  destruct (mapM_V [] [] (fun row => vec_pointwise_acc row v) (fun r b => zlen b = 256 /\ bounded (4 * (Q - 1)) b /\ same (ix b) (dotm (nth r mat []) v)) mat) as (w & E & HL' & HR).
  { intros r Hr. rewrite HL in Hr. apply (pointwise_acc_ok _ _ (Q - 1) B); auto. }
  rewrite HL in *. exists w. split; [exact E|]. split; [split; [exact HL'|]|]; intros r Hr; destruct (HR r Hr) as (R1 & R2 & R3); [split; assumption|exact R3].
Qed.

(** ** Norm check, rounding and hints *)
Lemma vec_chknorm_ok v B : 0 <= B <= (Q - 1) / 8 -> vb (2 ^ 30 - 1) v ->
  exists r, vec_chknorm v B = Ret r /\ (r = 0 \/ r = 1) /\ (r = 0 <-> forall k, (k < 4)%nat -> forall i, 0 <= i < 256 -> - B < cf v k i < B).
Proof.
  intros HB [HL HV]. assert (G: forall v, (forall r, (r < length v)%nat -> pb (2 ^ 30 - 1) (nth r v [])) ->
    exists r, vec_chknorm v B = Ret r /\ (r = 0 \/ r = 1) /\ (r = 0 <-> forall k, (k < length v)%nat -> forall i, 0 <= i < 256 -> - B < cf v k i < B)).
  { clear v HL HV. induction v as [|a v IH]; intros HV; cbn [vec_chknorm].
    - exists 0. split; [reflexivity|]. split; [auto|]. split; [|reflexivity]. intros _ k Hk. cbn in Hk. lia.
    - destruct (HV 0%nat ltac:(cbn; lia)) as [La Ba]. cbn [nth] in La, Ba.
      rewrite chknorm_ok; [|exact HB|].
      2:{ apply Forall_forall. intros x Hx. destruct (In_nth _ _ 0 Hx) as (k & Hk & <-). specialize (Ba (Z.of_nat k)). unfold ix in Ba. rewrite Nat2Z.id in Ba. unfold zlen in La. lia. }
      cbn [bind]. destruct (IH) as (r & E & R1 & R2). { intros r Hr. apply (HV (S r)). cbn. lia. }
      assert (FA: forallb (fun x => Z.abs x <? B) a = true <-> forall i, 0 <= i < 256 -> - B < ix a i < B).
      { rewrite forallb_forall. split.
        - intros H i Hi. specialize (H (ix a i)). assert (In (ix a i) a) by (unfold ix; apply nth_In; unfold zlen in La; lia). specialize (H H0). lia.
        - intros H x Hx. destruct (In_nth _ _ 0 Hx) as (k & Hk & <-). specialize (H (Z.of_nat k)). unfold ix in H. rewrite Nat2Z.id in H. unfold zlen in La. lia. }
      destruct (forallb (fun x => Z.abs x <? B) a).
      + change (0 =? 0) with true. cbv iota. exists r. split; [exact E|]. split; [exact R1|]. rewrite R2. split.
        * intros H [|k] Hk i Hi; [apply FA; auto|]. apply (H k); [cbn in Hk; lia|exact Hi].
        * intros H k Hk i Hi. apply (H (S k)); [cbn; lia|exact Hi].
      + change (1 =? 0) with false. cbv iota. exists 1. split; [reflexivity|]. split; [auto|]. split; [discriminate|]. intros H. exfalso.
        assert (false = true); [|discriminate]. apply FA. intros i Hi. apply (H 0%nat); [cbn; lia|exact Hi]. }
  rewrite <- HL. apply G. intros r Hr. apply HV. lia.
Qed.
Lemma poly_pair_ok (f : Z -> outcome (Z * Z)) g1 g0 (a : list Z) : zlen a = 256 -> (forall i, 0 <= i < 256 -> f (ix a i) = Ret (g1 (ix a i), g0 (ix a i))) ->
  (r <- mapM f a ;; Ret (map fst r, map snd r)) = Ret (tab 256 (fun i => g1 (ix a i)), tab 256 (fun i => g0 (ix a i))).
Proof.
  intros HL H. rewrite (mapM_tab f (fun x => (g1 x, g0 x)) a HL H). cbn [bind]. rewrite !map_tab. reflexivity.
Qed.
Lemma vec_pair_ok (f : list Z -> outcome (list Z * list Z)) (g1 g0 : nat -> Z -> Z) v : length v = 4%nat ->
  (forall r, (r < 4)%nat -> f (nth r v []) = Ret (tab 256 (g1 r), tab 256 (g0 r))) ->
  exists v1 v0, (r <- mapM f v ;; Ret (map fst r, map snd r)) = Ret (v1, v0) /\ vlen v1 /\ vlen v0 /\
  forall r, (r < 4)%nat -> same (cf v1 r) (g1 r) /\ same (cf v0 r) (g0 r).
Proof.
  intros HL H. destruct (mapM_V [] ([], []) f (fun r b => b = (tab 256 (g1 r), tab 256 (g0 r))) v) as (w & E & HL' & HR).
  { intros r Hr. rewrite HL in Hr. eauto. }
  rewrite HL in *. rewrite E. cbn [bind]. eexists. eexists. split; [reflexivity|].
  assert (N1: forall r, (r < 4)%nat -> nth r (map fst w) [] = tab 256 (g1 r)).
  { intros r Hr. change (@nil Z) with (fst (@nil Z, @nil Z)). rewrite map_nth. rewrite HR by exact Hr. reflexivity. }
  assert (N0: forall r, (r < 4)%nat -> nth r (map snd w) [] = tab 256 (g0 r)).
  { intros r Hr. change (@nil Z) with (snd (@nil Z, @nil Z)). rewrite map_nth. rewrite HR by exact Hr. reflexivity. }
  split; [split; [rewrite map_length; lia|intros r Hr; rewrite N1 by exact Hr; apply zlen_tab256]|].
  split; [split; [rewrite map_length; lia|intros r Hr; rewrite N0 by exact Hr; apply zlen_tab256]|].
  intros r Hr. unfold cf. rewrite N1, N0 by exact Hr. split; apply same_tab.
Qed.
Lemma vec_power2round_ok v : vlen v -> (forall r i, (r < 4)%nat -> 0 <= i < 256 -> - 4095 <= cf v r i < 2 ^ 31 - 4096) ->
  exists v1 v0, vec_power2round v = Ret (v1, v0) /\ vlen v1 /\ vlen v0 /\
  forall r, (r < 4)%nat -> same (cf v1 r) (fun i => p2r1 (cf v r i)) /\ same (cf v0 r) (fun i => p2r0 (cf v r i)).
Proof.
  intros [HL HV] H. apply vec_pair_ok; [exact HL|]. intros r Hr. apply (poly_pair_ok power2round p2r1 p2r0); [now apply HV|]. intros i Hi. apply power2round_ok. now apply (H r i).
Qed.
Lemma vec_decompose_ok v : vlen v -> (forall r i, (r < 4)%nat -> 0 <= i < 256 -> 0 <= cf v r i < Q) ->
  exists v1 v0, vec_decompose v = Ret (v1, v0) /\ vlen v1 /\ vlen v0 /\
  forall r, (r < 4)%nat -> same (cf v1 r) (fun i => dec1 (cf v r i)) /\ same (cf v0 r) (fun i => dec0 (cf v r i)).
Proof.
  intros [HL HV] H. apply vec_pair_ok; [exact HL|]. intros r Hr. apply (poly_pair_ok decompose dec1 dec0); [now apply HV|]. intros i Hi. apply decompose_ok. now apply (H r i).
Qed.
Lemma vec_use_hint_ok v h : vlen v -> vlen h -> (forall r i, (r < 4)%nat -> 0 <= i < 256 -> 0 <= cf v r i < Q) ->
  exists w, vec_use_hint v h = Ret w /\ vlen w /\ forall r, (r < 4)%nat -> same (cf w r) (fun i => uhint (cf v r i) (cf h r i)).
Proof.
  intros [HL HV] [HL2 HH] H. apply vec_map2_ok; [exact HL|exact HL2|]. intros r Hr. eexists. split; [|split; [apply zlen_tab256|apply same_tab]].
  unfold poly_use_hint. apply (map2M_tab use_hint uhint); [now apply HV|now apply HH|]. intros i Hi. apply use_hint_ok. now apply (H r i).
Qed.

(** the number of hints *)
Definition sum01 (l : list Z) : Z := fold_right Z.add 0 l.
Lemma fold_u32 l : forall s, 0 <= s -> Forall (fun x => x = 0 \/ x = 1) l -> s + zlen l < 2 ^ 32 -> fold_left (fun s x => u32 (s + x)) l s = s + sum01 l.
Proof.
  induction l as [|x l IH]; intros s Hs HF HL; cbn [fold_left sum01 fold_right]; [lia|]. apply Forall_cons_iff in HF as [Hx HF]. rewrite zlen_cons in HL. pose proof (zlen_nonneg l).
  unfold u32 at 2. rewrite Z.mod_small by lia. rewrite IH; [unfold sum01; lia|lia|exact HF|lia].
Qed.
Lemma sum01_range l : Forall (fun x => x = 0 \/ x = 1) l -> 0 <= sum01 l <= zlen l.
Proof. induction 1 as [|x l Hx _ IH]; [cbn; unfold zlen; cbn; lia|]. rewrite zlen_cons. cbn [sum01 fold_right] in *. fold (sum01 l) in *. lia. Qed.
Lemma filter_zseq_cons (x : Z) (h : list Z) n : filter (fun j => negb (ix (x :: h) j =? 0)) (zseq 1 n) = map Z.succ (filter (fun j => negb (ix h j =? 0)) (zseq 0 n)).
Proof.
  assert (G: forall i, 0 <= i -> filter (fun j => negb (ix (x :: h) j =? 0)) (zseq (i + 1) n) = map Z.succ (filter (fun j => negb (ix h j =? 0)) (zseq i n))); [|apply (G 0); lia].
  induction n as [|n IH]; intros i Hi; [reflexivity|]. cbn [zseq filter].
  replace (ix (x :: h) (i + 1)) with (ix h i) by (unfold ix; replace (Z.to_nat (i + 1)) with (S (Z.to_nat i)) by lia; reflexivity).
  destruct (negb _); cbn [map]; rewrite IH by lia; [f_equal|]; reflexivity.
Qed.
Lemma positions_sum h : Forall (fun x => x = 0 \/ x = 1) h -> zlen (filter (fun j => negb (ix h j =? 0)) (zseq 0 (length h))) = sum01 h.
Proof.
  induction 1 as [|x h Hx HF IH]; [reflexivity|]. cbn [length zseq filter]. change (ix (x :: h) 0) with x. change (0 + 1) with 1.
  rewrite filter_zseq_cons. cbn [sum01 fold_right]. fold (sum01 h). rewrite <- IH. destruct Hx as [->| ->].
  - change (negb (0 =? 0)) with false. cbv iota. rewrite zlen_map. lia.
  - change (negb (1 =? 0)) with true. cbv iota. rewrite zlen_cons, zlen_map. lia.
Qed.
Lemma positions_len h : bits01 h -> zlen (positions h) = sum01 h.
Proof. intros [HL HF]. unfold positions. rewrite <- HL. now apply positions_sum. Qed.
Lemma vec_make_hint_ok v0 v1 : vlen v0 -> vlen v1 ->
  exists h n, vec_make_hint v0 v1 = Ret (h, n) /\ vlen h /\ Forall bits01 h /\ n = zlen (all_positions h) /\
  forall r, (r < 4)%nat -> same (cf h r) (fun i => make_hint (cf v0 r i) (cf v1 r i)).
Proof.
  intros [L0 H0] [L1 H1]. unfold vec_make_hint.
  set (hp := fun r => tab 256 (fun i => make_hint (cf v0 r i) (cf v1 r i))).
  assert (HB: forall r, bits01 (hp r)).
  { intros r. split; [unfold hp, tab; rewrite map_length, zseq_length; reflexivity|]. unfold hp, tab. apply Forall_map, Forall_forall. intros i _. apply make_hint_01. }
  destruct (map2M_V [] [] ([], 0) poly_make_hint (fun r b => b = (hp r, sum01 (hp r))) v0 v1) as (w & E & HL' & HR); [lia| |].
  { intros r Hr. rewrite L0 in Hr. eexists. split; [|reflexivity]. unfold poly_make_hint.
    rewrite (map2M_tab _ make_hint) by (auto). cbn [bind]. fold (cf v0 r). fold (cf v1 r). fold (hp r). f_equal. f_equal.
    destruct (HB r) as [HL HF]. rewrite fold_u32; [lia|lia|exact HF|unfold zlen; rewrite HL; lia]. }
  rewrite L0 in *. rewrite E. cbn [bind]. destruct w as [|x0 [|x1 [|x2 [|x3 [|? ?]]]]]; try discriminate HL'.
  pose proof (HR 0%nat ltac:(lia)) as R0. pose proof (HR 1%nat ltac:(lia)) as R1. pose proof (HR 2%nat ltac:(lia)) as R2. pose proof (HR 3%nat ltac:(lia)) as R3. cbn [nth] in R0, R1, R2, R3. subst x0 x1 x2 x3.
  cbn [map fst snd fold_left]. eexists. eexists. split; [reflexivity|].
  assert (SR: forall r, 0 <= sum01 (hp r) <= 256). { intros r. destruct (HB r) as [HL HF]. pose proof (sum01_range _ HF) as S. unfold zlen in S. lia. }
  split; [split; [reflexivity|]; intros [|[|[|[|r]]]] Hr; try lia; cbn [nth]; destruct (HB 0%nat), (HB 1%nat), (HB 2%nat), (HB 3%nat); unfold zlen; lia|].
  split; [do 4 (apply Forall_cons; [apply HB|]); apply Forall_nil|]. split.
  - unfold all_positions. cbn [map concat]. rewrite !zlen_app, !positions_len by apply HB. change (zlen (@nil Z)) with 0.
    pose proof (SR 0%nat). pose proof (SR 1%nat). pose proof (SR 2%nat). pose proof (SR 3%nat). unfold u32. rewrite !Z.mod_small; lia || (rewrite ?Z.mod_small; lia).
  - intros [|[|[|[|r]]]] Hr; try lia; unfold cf at 1; cbn [nth]; apply same_tab.
Qed.
Lemma vec_pack_w1_ok v : vlen v -> (forall r i, (r < 4)%nat -> 0 <= i < 256 -> 0 <= cf v r i <= 43) ->
  exists b, vec_pack_w1 v = Ret b /\ zlen b = 768 /\ bytes_ok b.
Proof.
  intros [HL HV] H. unfold vec_pack_w1.
  destruct (mapM_V [] [] polyw1_pack (fun r b => zlen b = 192 /\ bytes_ok b) v) as (w & E & HL' & HR).
  { intros r Hr. rewrite HL in Hr. destruct (w1_pack_in (nth r v [])) as (b & E & L & HB & _).
    - apply poly_in_of_cf; [now apply HV|]. intros i Hi. specialize (H r i Hr Hi). unfold cf in H. lia.
    - exists b. split; [exact E|]. split; [unfold zlen; lia|exact HB]. }
  rewrite E. cbn [bind]. rewrite HL in *. eexists. split; [reflexivity|].
  destruct w as [|x0 [|x1 [|x2 [|x3 [|? ?]]]]]; try discriminate HL'.
  pose proof (HR 0%nat ltac:(lia)) as [R0 S0]. pose proof (HR 1%nat ltac:(lia)) as [R1 S1]. pose proof (HR 2%nat ltac:(lia)) as [R2 S2]. pose proof (HR 3%nat ltac:(lia)) as [R3 S3]. cbn [nth] in *.
  cbn [concat]. rewrite !zlen_app, !bytes_ok_app. change (zlen (@nil Z)) with 0. repeat split; try assumption; [lia|constructor].
Qed.
