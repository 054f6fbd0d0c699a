(** Arithmetic meaning of the transforms modulo q. *)
From Verif Require Import Base SpongePure SpongeProofs DilReduce DilReduceProofs Tab DilNtt DilNttProofs.
From Coq Require Import Zdiv Setoid Morphisms.

(** congruence modulo q (a one-constructor inductive, so that it is never unfolded by accident) *)
Inductive cg (a b : Z) : Prop := cg_intro : a mod Q = b mod Q -> cg a b.
Notation "a == b" := (cg a b) (at level 70).
Definition RI : Z := 8265825.     (* 2^-32 mod q *)

Lemma cg_iff a b : a == b <-> a mod Q = b mod Q.
Proof. split; [now intros []|now constructor]. Qed.
#[global] Instance cg_equiv : Equivalence cg.
Proof.
  split.
  - intros a. now constructor.
  - intros a b [H]. now constructor.
  - intros a b c [H] [K]. constructor. congruence.
Qed.
#[global] Instance cg_add : Proper (cg ==> cg ==> cg) Z.add.
Proof. intros a b [H] c d [K]. constructor. now apply Zplus_eqm. Qed.
#[global] Instance cg_sub : Proper (cg ==> cg ==> cg) Z.sub.
Proof. intros a b [H] c d [K]. constructor. now apply Zminus_eqm. Qed.
#[global] Instance cg_mul : Proper (cg ==> cg ==> cg) Z.mul.
Proof. intros a b [H] c d [K]. constructor. now apply Zmult_eqm. Qed.
#[global] Instance cg_opp : Proper (cg ==> cg) Z.opp.
Proof. intros a b [H]. constructor. now apply Zopp_eqm. Qed.
Lemma eqm_refl' a : a == a. Proof. reflexivity. Qed.
Lemma eq_eqm a b : a = b -> a == b. Proof. intros ->. reflexivity. Qed.
Lemma eqm_small a b : 0 <= a < Q -> 0 <= b < Q -> a == b -> a = b.
Proof. intros Ha Hb [H]. now rewrite !Z.mod_small in H. Qed.
Lemma eqm_add a b c d : a == b -> c == d -> a + c == b + d. Proof. intros -> ->. reflexivity. Qed.
Lemma eqm_sub a b c d : a == b -> c == d -> a - c == b - d. Proof. intros -> ->. reflexivity. Qed.
Lemma eqm_mul a b c d : a == b -> c == d -> a * c == b * d. Proof. intros -> ->. reflexivity. Qed.
Lemma eqm_opp a b : a == b -> - a == - b. Proof. intros ->. reflexivity. Qed.
Lemma eqm_pow a b n : 0 <= n -> a == b -> a ^ n == b ^ n.
Proof.
  intros Hn H. revert n Hn. apply sumz_ind; [reflexivity|]. intros n Hn IH.
  rewrite !Z.pow_add_r, !Z.pow_1_r by lia. now apply eqm_mul.
Qed.
Lemma eqm_sum n f g : 0 <= n -> (forall i, 0 <= i < n -> f i == g i) -> sumz n f == sumz n g.
Proof.
  intros Hn. revert n Hn. apply (sumz_ind (fun n => (forall i, 0 <= i < n -> f i == g i) -> sumz n f == sumz n g)).
  - reflexivity.
  - intros n Hn IH H. rewrite !sumz_S by lia. apply eqm_add; [apply IH; intros; apply H; lia|apply H; lia].
Qed.
Lemma eqm_k a k : a + k * Q == a.
Proof. constructor. apply Z.mod_add. discriminate. Qed.
Lemma eqm_of_diff a b k : a - b = k * Q -> a == b.
Proof. intros H. replace a with (b + k * Q) by lia. apply eqm_k. Qed.
Lemma R_RI : 2 ^ 32 * RI == 1. Proof. now constructor. Qed.

Lemma mont_eqm a : mont a == a * RI.
Proof.
  transitivity (2 ^ 32 * RI * mont a); [symmetry; transitivity (1 * mont a); [apply eqm_mul; [apply R_RI|reflexivity]|apply eq_eqm; lia]|].
  transitivity (2 ^ 32 * mont a * RI); [apply eq_eqm; ring|]. apply eqm_mul; [|reflexivity]. constructor. apply mont_cong.
Qed.
Lemma cadd_eqm a : cadd a == a. Proof. constructor. apply cadd_cong. Qed.
Lemma red32_eqm a : red32 a == a. Proof. constructor. apply red32_cong. Qed.

(** *** Layers modulo q *)
Transparent fl il.
Definition zf (len i : Z) : Z := ix zetas (128 / len + i / (2 * len)) * RI.
Definition zi (len i : Z) : Z := - ix zetas (2 * (128 / len) - 1 - i / (2 * len)) * RI.
Lemma fl_eqm len g i :
  fl len g i == if i mod (2 * len) <? len then g i + zf len i * g (i + len) else g (i - len) - zf len i * g i.
Proof.
  unfold fl, zf. cbv zeta. destruct (_ <? _).
  - apply eqm_add; [reflexivity|]. rewrite mont_eqm. apply eq_eqm. ring.
  - apply eqm_sub; [reflexivity|]. rewrite mont_eqm. apply eq_eqm. ring.
Qed.
Lemma il_eqm len g i :
  il len g i == if i mod (2 * len) <? len then g i + g (i + len) else zi len i * (g (i - len) - g i).
Proof. unfold il, zi. cbv zeta. destruct (_ <? _); [reflexivity|]. rewrite mont_eqm. apply eq_eqm. ring. Qed.
Opaque fl il.

(** table fact: forward and inverse factors are inverse to each other *)
Lemma zf_zi len i : In len lens -> 0 <= i < 256 -> zf len i * zi len i == 1.
Proof.
  intros Hl Hi.
  assert (T: forallb (fun len => forallb (fun i => (zf len i * zi len i) mod Q =? 1) (zseq 0 256)) lens = true)
    by (vm_compute; reflexivity).
  rewrite forallb_forall in T. specialize (T len Hl). rewrite forallb_forall in T.
  specialize (T i). rewrite in_zseq in T. specialize (T ltac:(lia)). apply Z.eqb_eq in T. now constructor.
Qed.
(** the factor is the same at the two positions of a butterfly *)
Lemma half_lo len i : In len lens -> 0 <= i < 256 -> i mod (2 * len) < len ->
  (i + len) / (2 * len) = i / (2 * len) /\ (i + len) mod (2 * len) = i mod (2 * len) + len.
Proof.
  intros Hin. unfold lens in Hin. cbn [In] in Hin.
  repeat (destruct Hin as [<-|Hin]; [intros Hi Hm; Z.div_mod_to_equations; lia|]). destruct Hin.
Qed.
Lemma half_hi len i : In len lens -> 0 <= i < 256 -> len <= i mod (2 * len) ->
  (i - len) / (2 * len) = i / (2 * len) /\ (i - len) mod (2 * len) = i mod (2 * len) - len.
Proof.
  intros Hin. unfold lens in Hin. cbn [In] in Hin.
  repeat (destruct Hin as [<-|Hin]; [intros Hi Hm; Z.div_mod_to_equations; lia|]). destruct Hin.
Qed.
Lemma zf_same len i k : i / (2 * len) = k / (2 * len) -> zf len i = zf len k /\ zi len i = zi len k.
Proof. unfold zf, zi. intros ->. auto. Qed.

Definition eqf (g h : Z -> Z) : Prop := forall i, 0 <= i < 256 -> g i == h i.

(** each inverse layer undoes the forward layer, up to a factor 2, and conversely *)
Lemma il_fl len s g h : In len lens -> eqf g (fun i => s * fl len h i) -> eqf (il len g) (fun i => (2 * s) * h i).
Proof.
  intros Hin H i Hi. rewrite il_eqm. destruct (Z.ltb_spec (i mod (2 * len)) len) as [L|L].
  - pose proof (pair_lo len i Hin Hi L) as Hp. destruct (half_lo len i Hin Hi L) as [Ed Em].
    rewrite (H i Hi), (H _ Hp). rewrite !fl_eqm. rewrite Em.
    replace (i mod (2 * len) <? len) with true by lia. replace (i mod (2 * len) + len <? len) with false.
    2:{ pose proof (Z.mod_pos_bound i (2 * len)). destruct (lens_pos len Hin). lia. }
    replace (i + len - len) with i by lia. destruct (zf_same len (i + len) i Ed) as [-> _]. apply eq_eqm. ring.
  - pose proof (pair_hi len i Hin Hi L) as Hp. destruct (half_hi len i Hin Hi L) as [Ed Em].
    rewrite (H i Hi), (H _ Hp). rewrite !fl_eqm. rewrite Em.
    replace (i mod (2 * len) <? len) with false by lia.
    replace (i mod (2 * len) - len <? len) with true.
    2:{ pose proof (Z.mod_pos_bound i (2 * len)). destruct (lens_pos len Hin). lia. }
    replace (i - len + len) with i by lia. destruct (zf_same len (i - len) i Ed) as [-> _].
    transitivity ((zf len i * zi len i) * (2 * s * h i)); [apply eq_eqm; ring|].
    transitivity (1 * (2 * s * h i)); [|apply eq_eqm; ring]. apply eqm_mul; [now apply zf_zi|reflexivity].
Qed.
Lemma fl_il len s g h : In len lens -> eqf g (fun i => s * il len h i) -> eqf (fl len g) (fun i => (2 * s) * h i).
Proof.
  intros Hin H i Hi. rewrite fl_eqm. destruct (Z.ltb_spec (i mod (2 * len)) len) as [L|L].
  - pose proof (pair_lo len i Hin Hi L) as Hp. destruct (half_lo len i Hin Hi L) as [Ed Em].
    rewrite (H i Hi), (H _ Hp). rewrite !il_eqm. rewrite Em.
    replace (i mod (2 * len) <? len) with true by lia. replace (i mod (2 * len) + len <? len) with false.
    2:{ pose proof (Z.mod_pos_bound i (2 * len)). destruct (lens_pos len Hin). lia. }
    replace (i + len - len) with i by lia. destruct (zf_same len (i + len) i Ed) as [_ ->].
    transitivity (s * (h i + h (i + len)) + (zf len i * zi len i) * (s * (h i - h (i + len)))); [apply eq_eqm; ring|].
    transitivity (s * (h i + h (i + len)) + 1 * (s * (h i - h (i + len)))); [|apply eq_eqm; ring].
    apply eqm_add; [reflexivity|]. apply eqm_mul; [now apply zf_zi|reflexivity].
  - pose proof (pair_hi len i Hin Hi L) as Hp. destruct (half_hi len i Hin Hi L) as [Ed Em].
    rewrite (H i Hi), (H _ Hp). rewrite !il_eqm. rewrite Em.
    replace (i mod (2 * len) <? len) with false by lia.
    replace (i mod (2 * len) - len <? len) with true.
    2:{ pose proof (Z.mod_pos_bound i (2 * len)). destruct (lens_pos len Hin). lia. }
    replace (i - len + len) with i by lia. destruct (zf_same len (i - len) i Ed) as [_ Ez].
    transitivity (s * (h (i - len) + h i) - (zf len i * zi len i) * (s * (h (i - len) - h i))); [apply eq_eqm; ring|].
    transitivity (s * (h (i - len) + h i) - 1 * (s * (h (i - len) - h i))); [|apply eq_eqm; ring].
    apply eqm_sub; [reflexivity|]. apply eqm_mul; [now apply zf_zi|reflexivity].
Qed.

Lemma eqf_one g : eqf g (fun i => 1 * g i). Proof. intros i _. apply eq_eqm. ring. Qed.

(** invntt_tomont (ntt a) = 2^32 a, and also ntt (invntt_tomont a) = 2^32 a (mod q) *)
Lemma intt_ntt g h : eqf g (nttf h) -> eqf (inttf g) (fun i => 2 ^ 32 * h i).
Proof.
  intros H i Hi. unfold inttf. rewrite mont_eqm.
  assert (X: eqf (il 128 (il 64 (il 32 (il 16 (il 8 (il 4 (il 2 (il 1 g)))))))) (fun i => 256 * h i)).
  { unfold nttf in H.
    assert (H0: eqf g (fun i => 1 * fl 1 (fl 2 (fl 4 (fl 8 (fl 16 (fl 32 (fl 64 (fl 128 h))))))) i)).
    { intros j Hj. rewrite (H j Hj). apply eq_eqm. ring. }
    apply il_fl in H0; [|inlens]. apply il_fl in H0; [|inlens]. apply il_fl in H0; [|inlens]. apply il_fl in H0; [|inlens].
    apply il_fl in H0; [|inlens]. apply il_fl in H0; [|inlens]. apply il_fl in H0; [|inlens]. apply il_fl in H0; [|inlens].
    exact H0. }
  transitivity (41978 * (256 * h i) * RI); [apply eqm_mul; [apply eqm_mul; [reflexivity|apply (X i Hi)]|reflexivity]|].
  transitivity ((41978 * 256 * RI) * h i); [apply eq_eqm; ring|]. apply eqm_mul; [now constructor|reflexivity].
Qed.
Lemma fl_scale len s g : In len lens -> eqf (fl len (fun i => s * g i)) (fun i => s * fl len g i).
Proof.
  intros Hin i Hi. transitivity (s * (if i mod (2 * len) <? len then g i + zf len i * g (i + len) else g (i - len) - zf len i * g i)).
  - rewrite fl_eqm. apply eq_eqm. destruct (_ <? _); ring.
  - apply eqm_mul; [reflexivity|]. symmetry. apply fl_eqm.
Qed.
Lemma fl_ext len g h : In len lens -> eqf g h -> eqf (fl len g) (fl len h).
Proof.
  intros Hin H i Hi. rewrite !fl_eqm. destruct (Z.ltb_spec (i mod (2 * len)) len) as [L|L].
  - pose proof (pair_lo len i Hin Hi L). apply eqm_add; [now apply H|]. apply eqm_mul; [reflexivity|now apply H].
  - pose proof (pair_hi len i Hin Hi L). apply eqm_sub; [now apply H|]. apply eqm_mul; [reflexivity|now apply H].
Qed.
Lemma fl_lin len g h s : In len lens -> eqf (fl len (fun i => g i + s * h i)) (fun i => fl len g i + s * fl len h i).
Proof.
  intros Hin i Hi. rewrite !fl_eqm. destruct (_ <? _); apply eq_eqm; ring.
Qed.
Lemma eqf_trans f g h : eqf f g -> eqf g h -> eqf f h.
Proof. intros H K i Hi. transitivity (g i); auto. Qed.
Lemma ntt_ext g h : eqf g h -> eqf (nttf g) (nttf h).
Proof. intros H. unfold nttf. do 8 (apply fl_ext; [inlens|]). exact H. Qed.
Lemma fl_lin' len f g h s : In len lens -> eqf f (fun i => g i + s * h i) -> eqf (fl len f) (fun i => fl len g i + s * fl len h i).
Proof. intros Hin H. eapply eqf_trans; [apply fl_ext; [exact Hin|exact H]|]. now apply fl_lin. Qed.
Lemma ntt_lin f g h s : eqf f (fun i => g i + s * h i) -> eqf (nttf f) (fun i => nttf g i + s * nttf h i).
Proof. intros H. unfold nttf. do 8 (apply fl_lin'; [inlens|]). exact H. Qed.
Lemma ntt_intt g h : eqf g (inttf h) -> eqf (nttf g) (fun i => 2 ^ 32 * h i).
Proof.
  intros H. unfold inttf in H.
  assert (H0: eqf g (fun i => 41978 * RI * il 128 (il 64 (il 32 (il 16 (il 8 (il 4 (il 2 (il 1 h))))))) i)).
  { intros j Hj. rewrite (H j Hj). rewrite mont_eqm. apply eq_eqm. ring. }
  unfold nttf.
  apply fl_il in H0; [|inlens]. apply fl_il in H0; [|inlens]. apply fl_il in H0; [|inlens]. apply fl_il in H0; [|inlens].
  apply fl_il in H0; [|inlens]. apply fl_il in H0; [|inlens]. apply fl_il in H0; [|inlens]. apply fl_il in H0; [|inlens].
  eapply eqf_trans; [exact H0|]. intros i Hi. apply eqm_mul; [now constructor|reflexivity].
Qed.

(** *** The forward transform evaluates the polynomial at the roots of X^256 + 1 *)
Definition root (len c : Z) : Z :=
  if len =? 256 then - (1)
  else (if c mod 2 =? 0 then 1 else - (1)) * (ix zetas (128 / len + c / 2) * RI).
Lemma root_square len c : In len lens -> 0 <= c < 256 / len -> root len c ^ 2 == root (2 * len) (c / 2).
Proof.
  intros Hl Hc. assert (HR: 0 <= c < 0 + Z.of_nat (Z.to_nat (256 / len))) by lia.
  assert (T: forallb (fun len => forallb (fun c => (root len c ^ 2) mod Q =? root (2 * len) (c / 2) mod Q)
       (zseq 0 (Z.to_nat (256 / len)))) lens = true) by (vm_compute; reflexivity).
  rewrite forallb_forall in T. specialize (T len Hl). rewrite forallb_forall in T.
  specialize (T c). rewrite in_zseq in T. specialize (T HR). apply Z.eqb_eq in T. now constructor.
Qed.
Definition bev (len : Z) (g : Z -> Z) (x c : Z) : Z := sumz len (fun j => g (c * len + j) * x ^ j).

Lemma bev_layer len g x c : In len lens -> 0 <= c < 256 / len -> x ^ len == root len c ->
  bev len (fl len g) x c == bev (2 * len) g x (c / 2).
Proof.
  intros Hin Hc Hx. destruct (lens_pos len Hin) as (Hl & _ & _). set (b := c / 2).
  assert (Hroot: root len c = (if c mod 2 =? 0 then 1 else - (1)) * zf len (2 * len * b)).
  { unfold root, zf. replace (len =? 256) with false by lia.
    replace (2 * len * b / (2 * len)) with b; [reflexivity|]. rewrite Z.mul_comm, Z.div_mul; lia. }
  assert (Ebev: bev (2 * len) g x b == sumz len (fun j => (g (b * (2 * len) + j) + x ^ len * g (b * (2 * len) + len + j)) * x ^ j)).
  { unfold bev. replace (2 * len) with (len + len) at 1 by lia. rewrite sumz_split by lia. rewrite <- sumz_add by lia.
    apply eqm_sum; [lia|]. intros j Hj. rewrite Z.pow_add_r by lia. rewrite Z.add_assoc. apply eq_eqm. ring. }
  rewrite Ebev. unfold bev. apply eqm_sum; [lia|]. intros j Hj. apply eqm_mul; [|reflexivity].
  rewrite fl_eqm.
  assert (Z2: zf len (c * len + j) = zf len (2 * len * b) /\ (c * len + j) mod (2 * len) = (c mod 2) * len + j).
  { assert (Ec: c = 2 * b + c mod 2) by (subst b; Z.div_mod_to_equations; lia).
    assert (0 <= c mod 2 < 2) by (apply Z.mod_pos_bound; lia).
    destruct (block_pos len b (c * len + j)) as [E1 E2]; [lia|nia|].
    split; [|rewrite E2, Ec at 1; clear; ring_simplify; lia]. apply zf_same. rewrite E1. rewrite (Z.mul_comm (2 * len)), Z.div_mul; lia. }
  destruct Z2 as [-> ->].
  rewrite (eqm_mul _ _ _ _ Hx (eqm_refl' (g (b * (2 * len) + len + j)))). rewrite Hroot.
  assert (Ec: c = 2 * b + c mod 2) by (subst b; Z.div_mod_to_equations; lia).
  destruct (Z.eqb_spec (c mod 2) 0) as [E0|E0].
  - rewrite E0. replace (0 * len + j <? len) with true by lia. rewrite E0 in Ec.
    replace (c * len + j) with (b * (2 * len) + j) by nia.
    replace (b * (2 * len) + j + len) with (b * (2 * len) + len + j) by lia. apply eq_eqm. ring.
  - assert (E1: c mod 2 = 1) by (pose proof (Z.mod_pos_bound c 2); lia). rewrite E1. rewrite E1 in Ec.
    replace (1 * len + j <? len) with false by lia.
    replace (c * len + j - len) with (b * (2 * len) + j) by nia.
    replace (c * len + j) with (b * (2 * len) + len + j) by nia. apply eq_eqm. ring.
Qed.

Lemma root_step len c x : In len lens -> 0 <= c < 256 / len -> x ^ len == root len c -> x ^ (2 * len) == root (2 * len) (c / 2).
Proof.
  intros Hin Hc Hx. destruct (lens_pos len Hin) as (Hl & _ & _).
  replace (2 * len) with (len * 2) at 1 by lia. rewrite Z.pow_mul_r by lia.
  rewrite (eqm_pow _ _ 2 ltac:(lia) Hx). now apply root_square.
Qed.

(** position i of the transform holds a(root_i) *)
Definition omega (i : Z) : Z := root 1 i.
Definition evalp (g : Z -> Z) (x : Z) : Z := sumz 256 (fun j => g j * x ^ j).

Lemma bev_step len len2 nb nb2 c x : In len lens -> len2 = 2 * len -> nb = 256 / len -> nb2 = 256 / len2 -> nb = 2 * nb2 ->
  0 <= c < nb -> x ^ len == root len c ->
  exists c2, c2 = c / 2 /\ 0 <= c2 < nb2 /\ (forall g, bev len (fl len g) x c == bev len2 g x c2) /\ x ^ len2 == root len2 c2.
Proof.
  intros Hin -> -> Hnb2 Hnb Hc Hx. exists (c / 2). split; [reflexivity|]. split; [Z.div_mod_to_equations; lia|]. split.
  - intros g. now apply bev_layer.
  - now apply root_step.
Qed.
Lemma ntt_eval g i : 0 <= i < 256 -> nttf g i == evalp g (omega i) /\ omega i ^ 256 == - (1).
Proof.
  intros Hi. unfold nttf.
  assert (X1: omega i ^ 1 == root 1 i) by (rewrite Z.pow_1_r; reflexivity).
  assert (E0: forall f, f i == bev 1 f (omega i) i).
  { intros f. unfold bev. change (f i == 0 + f (i * 1 + 0) * omega i ^ 0). rewrite Z.pow_0_r. apply eq_eqm.
    replace (i * 1 + 0) with i by lia. ring. }
  rewrite E0. clear E0. revert X1. generalize (omega i). intros x X1.
  destruct (bev_step 1 2 256 128 i x ltac:(inlens) eq_refl eq_refl eq_refl eq_refl ltac:(lia) X1) as (c1 & _ & H1 & E1 & X2). rewrite E1. clear E1 X1. rename X2 into X1.
  destruct (bev_step 2 4 128 64 c1 x ltac:(inlens) eq_refl eq_refl eq_refl eq_refl ltac:(lia) X1) as (c2 & _ & H2 & E2 & X3). rewrite E2. clear E2 X1. rename X3 into X1.
  destruct (bev_step 4 8 64 32 c2 x ltac:(inlens) eq_refl eq_refl eq_refl eq_refl ltac:(lia) X1) as (c3 & _ & H3 & E3 & X4). rewrite E3. clear E3 X1. rename X4 into X1.
  destruct (bev_step 8 16 32 16 c3 x ltac:(inlens) eq_refl eq_refl eq_refl eq_refl ltac:(lia) X1) as (c4 & _ & H4 & E4 & X5). rewrite E4. clear E4 X1. rename X5 into X1.
  destruct (bev_step 16 32 16 8 c4 x ltac:(inlens) eq_refl eq_refl eq_refl eq_refl ltac:(lia) X1) as (c5 & _ & H5 & E5 & X6). rewrite E5. clear E5 X1. rename X6 into X1.
  destruct (bev_step 32 64 8 4 c5 x ltac:(inlens) eq_refl eq_refl eq_refl eq_refl ltac:(lia) X1) as (c6 & _ & H6 & E6 & X7). rewrite E6. clear E6 X1. rename X7 into X1.
  destruct (bev_step 64 128 4 2 c6 x ltac:(inlens) eq_refl eq_refl eq_refl eq_refl ltac:(lia) X1) as (c7 & _ & H7 & E7 & X8). rewrite E7. clear E7 X1. rename X8 into X1.
  destruct (bev_step 128 256 2 1 c7 x ltac:(inlens) eq_refl eq_refl eq_refl eq_refl ltac:(lia) X1) as (c8 & _ & H8 & E8 & X9). rewrite E8. clear E8 X1. rename X9 into X1.
  split; [|exact X1].
  assert (c8 = 0) by lia. subst c8. unfold bev, evalp. apply eqm_sum; [lia|]. intros j Hj. reflexivity.
Qed.

Opaque sumz Z.pow.
(** *** Negacyclic product *)
Definition negmul (a b : Z -> Z) (k : Z) : Z :=
  sumz 256 (fun i => if i <=? k then a i * b (k - i) else - (a i * b (256 + k - i))).

Lemma negmul_eval a b x : x ^ 256 == - (1) -> evalp (negmul a b) x == evalp a x * evalp b x.
Proof.
  intros Hx. unfold evalp at 1, negmul.
  transitivity (sumz 256 (fun k => sumz 256 (fun i => a i * ((if i <=? k then b (k - i) else - b (256 + k - i)) * x ^ k)))).
  { apply eqm_sum; [lia|]. intros k Hk. rewrite <- sumz_scale_r by lia. apply eqm_sum; [lia|]. intros i Hi.
    destruct (i <=? k); apply eq_eqm; ring. }
  rewrite sumz_swap by lia.
  transitivity (sumz 256 (fun i => (a i * x ^ i) * evalp b x)); [|rewrite sumz_scale_r by lia; reflexivity].
  apply eqm_sum; [lia|]. intros i Hi. rewrite sumz_scale by lia.
  rewrite <- Z.mul_assoc. apply eqm_mul; [reflexivity|].
  (* shift by i *)
  unfold evalp. rewrite <- sumz_scale by lia.
  assert (S1: forall h, sumz 256 h = sumz i h + sumz (256 - i) (fun j => h (i + j))).
  { intros h. rewrite <- sumz_split by lia. f_equal. lia. }
  assert (S2: forall h, sumz 256 h = sumz (256 - i) h + sumz i (fun j => h (256 - i + j))).
  { intros h. rewrite <- sumz_split by lia. f_equal. lia. }
  rewrite (S1 (fun k => (if i <=? k then _ else _) * _)), (S2 (fun j => x ^ i * _)). clear S1 S2. rewrite Z.add_comm.
  apply eqm_add; (apply eqm_sum; [lia|]); intros j Hj.
  - replace (i <=? i + j) with true by lia. replace (i + j - i) with j by lia. rewrite Z.pow_add_r by lia. apply eq_eqm. ring.
  - replace (i <=? j) with false by lia. replace (256 + j - i) with (256 - i + j) by lia.
    transitivity (- (1) * (b (256 - i + j) * x ^ j)); [apply eq_eqm; ring|].
    transitivity (x ^ 256 * (b (256 - i + j) * x ^ j)); [apply eqm_mul; [symmetry; exact Hx|reflexivity]|].
    apply eq_eqm. replace (x ^ i * (b (256 - i + j) * x ^ (256 - i + j))) with ((x ^ i * x ^ (256 - i + j)) * b (256 - i + j)) by ring.
    rewrite <- Z.pow_add_r by lia. replace (i + (256 - i + j)) with (256 + j) by lia. rewrite Z.pow_add_r by lia. ring.
Qed.

Lemma evalp_scale s g x : evalp (fun i => s * g i) x == s * evalp g x.
Proof. unfold evalp. rewrite <- sumz_scale by lia. apply eqm_sum; [lia|]. intros; apply eq_eqm; ring. Qed.

(** pointwise multiplication in the transformed domain is negacyclic multiplication *)
Lemma ntt_mul a b c : eqf c (fun i => mont (nttf a i * nttf b i)) -> eqf (inttf c) (negmul a b).
Proof.
  intros Hc. assert (H: eqf c (nttf (fun i => RI * negmul a b i))).
  { intros i Hi. rewrite (Hc i Hi). rewrite mont_eqm.
    destruct (ntt_eval a i Hi) as [Ea Hw]. destruct (ntt_eval b i Hi) as [Eb _].
    destruct (ntt_eval (fun i => RI * negmul a b i) i Hi) as [Ec _].
    rewrite Ec, evalp_scale, negmul_eval by exact Hw. rewrite Ea, Eb. apply eq_eqm. ring. }
  intros i Hi. rewrite (intt_ntt _ _ H i Hi). transitivity ((2 ^ 32 * RI) * negmul a b i); [apply eq_eqm; ring|].
  transitivity (1 * negmul a b i); [apply eqm_mul; [apply R_RI|reflexivity]|apply eq_eqm; ring].
Qed.
