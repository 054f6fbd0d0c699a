(** SPHINCS+ utils.c, [treehash] (the version with a separate stack of heights) computes the Merkle root
    and the authentication path. *)
From Coq Require Import ZifyBool ZifyNat.
From Verif Require Import Base Wp Sha512Spec SpxSpec Spx SpxTree SpxWots2.
Local Open Scope Z_scope.

(** ** lists of heights, top of the stack first *)
Fixpoint sum (hs : list Z) : Z := match hs with [] => 0 | h :: r => 2 ^ h + sum r end.
Fixpoint inc (lo : Z) (hs : list Z) : Prop := match hs with [] => True | h :: r => lo <= h /\ inc (h + 1) r end.
Lemma sum_nonneg lo hs : 0 <= lo -> inc lo hs -> 0 <= sum hs.
Proof. revert lo. induction hs as [|h r IH]; intros lo Hl HI; cbn [sum]; [lia|]. destruct HI as [H1 H2]. specialize (IH (h + 1) ltac:(lia) H2). pose proof (Z.pow_pos_nonneg 2 h). lia. Qed.
Lemma inc_weaken lo lo' hs : lo' <= lo -> inc lo hs -> inc lo' hs.
Proof. destruct hs as [|h r]; cbn [inc]; [trivial|]. intros Hl [H1 H2]. split; [lia|exact H2]. Qed.
Lemma inc_div lo hs : 0 <= lo -> inc lo hs -> exists k, 0 <= k /\ sum hs = k * 2 ^ lo.
Proof.
  revert lo. induction hs as [|h r IH]; intros lo Hl HI; cbn [sum]; [exists 0; lia|]. destruct HI as [H1 H2]. destruct (IH (h + 1) ltac:(lia) H2) as (k & K0 & ->).
  exists (2 ^ (h - lo) + k * 2 ^ (h + 1 - lo)). pose proof (Z.pow_pos_nonneg 2 (h - lo)). pose proof (Z.pow_pos_nonneg 2 (h + 1 - lo)). split; [nia|].
  rewrite Z.mul_add_distr_r, <- Z.mul_assoc, <- !Z.pow_add_r by lia. f_equal; f_equal; f_equal; lia.
Qed.
Lemma inc_len lo hs : 0 <= lo -> inc lo hs -> 2 ^ (lo + zlen hs) <= sum hs + 2 ^ lo.
Proof.
  revert lo. induction hs as [|h r IH]; intros lo Hl HI; cbn [sum]; [change (zlen []) with 0; rewrite Z.add_0_r; lia|]. destruct HI as [H1 H2]. specialize (IH (h + 1) ltac:(lia) H2). rewrite zlen_cons. pose proof (zlen_nonneg r) as Hr.
  set (n := zlen r) in *. replace (lo + (1 + n)) with (lo + 1 + n) by lia. replace h with (lo + (h - lo)) in * by lia. set (d := h - lo) in *.
  rewrite !Z.pow_add_r, ?Z.pow_1_r in * by lia. pose proof (Z.pow_pos_nonneg 2 lo ltac:(lia) ltac:(lia)). pose proof (Z.pow_pos_nonneg 2 d ltac:(lia) ltac:(lia)). pose proof (Z.pow_pos_nonneg 2 n ltac:(lia) ltac:(lia)).
  set (A := 2 ^ lo) in *. set (B := 2 ^ d) in *. set (C := 2 ^ n) in *. clearbody A B C. set (s := sum r) in *. clearbody s. assert (2 * (A * C) <= 2 * (A * B * C)) by nia. assert (A * B <= A * B * C) by nia. nia.
Qed.
Lemma inc_top ht hs : 0 <= ht -> inc 0 hs -> sum hs = 2 ^ ht -> hs = [ht].
Proof.
  intros Hh HI HS. pose proof (Z.pow_pos_nonneg 2 ht ltac:(lia) ltac:(lia)) as Hp. destruct hs as [|h r]; cbn [sum] in HS; [lia|]. destruct HI as [H1 H2].
  destruct (inc_div (h + 1) r ltac:(lia) H2) as (k & K0 & EK). pose proof (Z.pow_pos_nonneg 2 h ltac:(lia) ltac:(lia)) as Hp1.
  assert (Hle: h <= ht). { destruct (Z.le_gt_cases h ht); [assumption|]. pose proof (Z.pow_lt_mono_r 2 ht h ltac:(lia) ltac:(lia) ltac:(lia)). rewrite EK in HS. pose proof (Z.pow_pos_nonneg 2 (h + 1) ltac:(lia) ltac:(lia)). nia. }
  assert (E: h = ht).
  { destruct (Z.eq_dec h ht); [assumption|]. exfalso. rewrite EK in HS. replace ht with (h + (1 + (ht - h - 1))) in HS by lia. rewrite !Z.pow_add_r, !Z.pow_1_r in HS by lia.
    set (q := 2 ^ (ht - h - 1)) in *. set (m := 2 ^ h) in *. clearbody q m. assert (m * (1 + 2 * k) = m * (2 * q)) by lia. apply Z.mul_reg_l in H; lia. }
  subst h. destruct r as [|x r]; [reflexivity|]. exfalso. cbn [sum] in HS. destruct H2 as [H3 H4]. pose proof (sum_nonneg (x + 1) r ltac:(lia) H4). pose proof (Z.pow_pos_nonneg 2 x ltac:(lia) ltac:(lia)). lia.
Qed.

Section T0.
Variable H : list Z -> Z -> list Z.
Hypothesis HH : forall x n, 0 <= n -> zlen (H x n) = n.
Variable ctx : spx_ctx.
Variable gen0 : Z -> list Z -> list Z.
Variables (base : list Z) (leaf : Z -> list Z) (off ht lf : Z) (auth0 : list Z).
Hypothesis Hbase : zlen base = 32.
Hypothesis Hht : 0 <= ht <= 30.
Hypothesis Hoff : 0 <= off /\ off + 2 ^ ht <= 2 ^ 32.
Hypothesis Hlf : 0 <= lf < 2 ^ ht.
Hypothesis Hleaf : forall i, zlen (leaf i) = 32.
Hypothesis Hauth0 : 32 * ht <= zlen auth0.
Hypothesis Hgen : forall i a, 0 <= i < 2 ^ ht -> tbase base a -> gen0 (i + off) a = leaf i.

Let hash (z i : Z) (M : list Z) : list Z := thash H ctx M (tad base z (i + off / 2 ^ z)).
Let node (h i : Z) : list Z := tree_node hash leaf (Z.to_nat h) i.
Let sib (h : Z) : Z := Z.lxor (lf / 2 ^ h) 1.

Lemma n0_S h i : 0 <= h -> node (h + 1) i = hash (h + 1) i (node h (2 * i) ++ node h (2 * i + 1)).
Proof. intros Hh. unfold node. replace (Z.to_nat (h + 1)) with (S (Z.to_nat h)) by lia. cbn [tree_node]. f_equal. lia. Qed.
Lemma n0_len h i : zlen (node h i) = 32.
Proof. unfold node. destruct (Z.to_nat h); cbn [tree_node]; [apply Hleaf|apply (zlen_thash H HH)]. Qed.
Lemma sib_nonneg h : 0 <= h -> 0 <= sib h.
Proof. intros Hh. unfold sib. apply Z.lxor_nonneg. split; [lia|]. intros _. apply Z.div_pos; [lia|]. apply Z.pow_pos_nonneg; lia. Qed.

Fixpoint ent (hs stack : list Z) : Prop :=
  match hs with [] => True | h :: r => slice stack (32 * zlen r) 32 = node h (sum r / 2 ^ h) /\ ent r stack end.
Lemma ent_splice hs : forall stack o v, 32 * zlen hs <= o -> 0 <= o -> o + zlen v <= zlen stack -> ent hs stack -> ent hs (splice stack o v).
Proof.
  induction hs as [|h r IH]; intros stack o v Ho H0 Hl HE; [exact HE|]. rewrite zlen_cons in Ho. destruct HE as [E1 E2]. pose proof (zlen_nonneg r). split; [rewrite slice_splice_before by lia; exact E1|apply IH; lia || assumption].
Qed.
Definition aok (n : Z) (auth : list Z) : Prop := forall j, 0 <= j < ht -> (sib j + 1) * 2 ^ j <= n -> slice auth (0 + j * 32) 32 = node j (sib j).
Definition fits (auth : list Z) : Prop := same_outside auth0 auth 0 (32 * ht).

(** what the while loop of L125-145 leaves behind after [n] leaves *)
Definition post (n : Z) (x : list Z * list Z * list Z * list Z) : Prop :=
  let '(hs, stack, a, auth) := x in
  inc 0 hs /\ sum hs = n /\ zlen stack = 32 * (ht + 1) /\ ent hs stack /\ tbase base a /\ aok n auth /\ fits auth.

Lemma while_ok n : 0 < n <= 2 ^ ht -> forall fuel h1 rest stack a auth, ht - h1 <= Z.of_nat fuel -> 0 <= h1 -> inc h1 rest -> 2 ^ h1 + sum rest = n ->
  zlen stack = 32 * (ht + 1) -> ent (h1 :: rest) stack -> tbase base a -> fits auth ->
  (forall j, 0 <= j < ht -> (sib j + 1) * 2 ^ j < n \/ (j <= h1 /\ (sib j + 1) * 2 ^ j = n) -> slice auth (0 + j * 32) 32 = node j (sib j)) ->
  wp (treehash_while H ctx fuel (n - 1) lf off (h1 :: rest) stack a auth) (post n).
Proof.
  intros Hn. induction fuel as [|fuel IH]; intros h1 rest stack a auth Hf Hh HI HS HL HE HB HF HA.
  all: assert (EXIT: inc (h1 + 1) rest -> post n (h1 :: rest, stack, a, auth)).
  1,3: (intros HI'; split; [split; [lia|exact HI']|]; split; [exact HS|]; split; [exact HL|]; split; [exact HE|]; split; [exact HB|]; split; [|exact HF];
      intros j Hj Hs; apply HA; [exact Hj|]; destruct (Z.lt_ge_cases ((sib j + 1) * 2 ^ j) n) as [h|h]; [left; exact h|right; split; [|lia]];
      destruct (Z.le_gt_cases j h1) as [h0|h0]; [exact h0|exfalso];
      destruct (inc_div (h1 + 1) rest ltac:(lia) HI') as (k & K0 & EK); assert (E: (sib j + 1) * 2 ^ j = 2 ^ h1 + k * 2 ^ (h1 + 1)) by lia;
      replace j with (h1 + (1 + (j - h1 - 1))) in E at 2 by lia; rewrite !Z.pow_add_r, !Z.pow_1_r in E by lia; pose proof (Z.pow_pos_nonneg 2 h1 ltac:(lia) ltac:(lia));
      set (q := 2 ^ (j - h1 - 1)) in *; set (m := 2 ^ h1) in *; set (s := sib j + 1) in *; clearbody q m s;
      assert (E2: m * (2 * (s * q)) = m * (1 + 2 * k)) by lia; apply Z.mul_reg_l in E2; lia).
  all: destruct rest as [|h2 r]; cbn [treehash_while]; [apply wp_ret, EXIT; exact I|]; destruct HI as [HI1 HI2]; destruct (Z.eqb_spec h1 h2) as [E|NE]; [|apply wp_ret, EXIT; split; [lia|exact HI2]].
  - exfalso. subst h2. cbn [sum] in HS. pose proof (sum_nonneg (h1 + 1) r ltac:(lia) HI2) as SN. pose proof (Z.pow_le_mono_r 2 ht h1 ltac:(lia) ltac:(lia)). pose proof (Z.pow_pos_nonneg 2 h1 ltac:(lia) ltac:(lia)). lia.
  - subst h2. clear EXIT. cbn [sum] in HS. destruct (inc_div (h1 + 1) r ltac:(lia) HI2) as (k & K0 & EK).
    pose proof (Z.pow_pos_nonneg 2 h1 ltac:(lia) ltac:(lia)) as Hp. assert (P1: 2 ^ (h1 + 1) = 2 * 2 ^ h1) by (rewrite Z.pow_add_r, Z.pow_1_r by lia; lia).
    assert (Hle: h1 + 1 <= ht). { destruct (Z.le_gt_cases (h1 + 1) ht); [assumption|]. pose proof (Z.pow_lt_mono_r 2 ht (h1 + 1) ltac:(lia) ltac:(lia) ltac:(lia)). nia. }
    assert (En: n = (k + 1) * 2 ^ (h1 + 1)) by nia.
    assert (ET: Z.shiftr (n - 1) (h1 + 1) = k). { rewrite Z.shiftr_div_pow2 by lia. symmetry. apply (Z.div_unique_pos _ _ _ (2 ^ (h1 + 1) - 1)); nia. }
    assert (Zr: zlen r + 2 <= ht + 1).
    { pose proof (inc_len h1 (h1 :: r) ltac:(lia) (conj (Z.le_refl _) HI2)) as IL. cbn [sum] in IL. rewrite zlen_cons in IL. pose proof (zlen_nonneg r). assert (LE: 2 ^ (h1 + (1 + zlen r)) <= 2 ^ ht) by lia.
      apply Z.pow_le_mono_r_iff in LE; lia. }
    pose proof (zlen_nonneg r) as Zr0. rewrite ET. rewrite !zlen_cons. unfold SPX_N.
    destruct HE as [T1 [T2 T3]]. rewrite zlen_cons in T1. cbn [sum] in T1.
    assert (Q1: (2 ^ h1 + sum r) / 2 ^ h1 = 2 * k + 1). { symmetry. apply (Z.div_unique_pos _ _ _ 0); nia. }
    assert (Q2: sum r / 2 ^ h1 = 2 * k). { symmetry. apply (Z.div_unique_pos _ _ _ 0); nia. }
    assert (Q3: sum r / 2 ^ (h1 + 1) = k). { rewrite EK. apply Z.div_mul. lia. }
    rewrite Q1 in T1. rewrite Q2 in T2.
    apply wp_bind. rewrite rdrange_ok by lia. cbn [wp].
    assert (EI: slice stack ((1 + (1 + zlen r) - 2) * 32) (2 * 32) = node h1 (2 * k) ++ node h1 (2 * k + 1)).
    { rewrite (slice_split _ _ _ 32) by lia. f_equal; [rewrite <- T2|rewrite <- T1]; f_equal; lia. }
    rewrite EI.
    assert (EA: set_tree_index (set_tree_height a (h1 + 1)) (u32 (k + Z.shiftr off (h1 + 1))) = tad base (h1 + 1) (k + off / 2 ^ (h1 + 1))).
    { rewrite Z.shiftr_div_pow2 by lia. assert (R: 0 <= k + off / 2 ^ (h1 + 1) < 2 ^ 32).
      { pose proof (div_le_self off (2 ^ (h1 + 1)) ltac:(lia) ltac:(lia)). assert (0 <= off / 2 ^ (h1 + 1)) by (apply Z.div_pos; lia). nia. }
      unfold u32. rewrite Z.mod_small by exact R. apply tad_ok; [exact HB|lia|exact R]. }
    rewrite EA. change (thash H ctx (node h1 (2 * k) ++ node h1 (2 * k + 1)) (tad base (h1 + 1) (k + off / 2 ^ (h1 + 1)))) with (hash (h1 + 1) k (node h1 (2 * k) ++ node h1 (2 * k + 1))).
    rewrite <- n0_S by lia. pose proof (n0_len (h1 + 1) k) as NL. set (v := node (h1 + 1) k) in *.
    apply wp_bind. eapply wp_eq; [apply copy_splice; lia|]. cbv beta. replace ((1 + (1 + zlen r) - 2) * 32) with (32 * zlen r) by lia.
    assert (LS: zlen (splice stack (32 * zlen r) v) = 32 * (ht + 1)) by (rewrite zlen_splice; lia).
    rewrite Z.shiftr_div_pow2 by lia. fold (sib (h1 + 1)).
    assert (NEXT: forall auth', fits auth' -> (forall j, 0 <= j < ht -> (sib j + 1) * 2 ^ j < n \/ (j <= h1 + 1 /\ (sib j + 1) * 2 ^ j = n) -> slice auth' (0 + j * 32) 32 = node j (sib j)) ->
      wp (treehash_while H ctx fuel (n - 1) lf off (h1 + 1 :: r) (splice stack (32 * zlen r) v) (tad base (h1 + 1) (k + off / 2 ^ (h1 + 1))) auth') (post n)).
    { intros auth' HF' HA'. apply IH; try lia; try assumption.
      - cbn [ent]. split; [rewrite slice_splice_at by lia; unfold v; f_equal; symmetry; exact Q3|]. apply ent_splice; lia || assumption.
      - apply tad_base. lia. }
    assert (AUTO: (sib (h1 + 1) + 1) * 2 ^ (h1 + 1) = n <-> sib (h1 + 1) = k). { split; intros E; [|nia]. rewrite En in E. apply Z.mul_reg_r in E; lia. }
    apply wp_bind. destruct (Z.eqb_spec (sib (h1 + 1)) k) as [EQ|NQ].
    + assert (Hlt: h1 + 1 < ht).
      { destruct (Z.eq_dec (h1 + 1) ht) as [ET2|]; [|lia]. exfalso. unfold sib in EQ. rewrite ET2 in EQ, En. rewrite Z.div_small in EQ by lia. change (Z.lxor 0 1) with 1 in EQ. subst k. pose proof (Z.pow_pos_nonneg 2 ht ltac:(lia) ltac:(lia)). nia. }
      pose proof HF as [LF _]. apply wp_bind. rewrite rdrange_ok by lia. cbn [wp]. rewrite slice_splice_at by lia. eapply wp_eq; [apply copy_splice; lia|]. cbv beta. apply NEXT.
      * eapply same_outside_trans; [exact HF|]. apply same_outside_splice; lia.
      * intros j Hj Hs. destruct (Z.eq_dec j (h1 + 1)) as [->|Hne]; [rewrite slice_splice_at by lia; unfold v; f_equal; symmetry; exact EQ|].
        destruct (Z.lt_ge_cases j (h1 + 1)); [rewrite slice_splice_before by lia|rewrite slice_splice_after by lia]; (apply HA; [exact Hj|]; destruct Hs as [Hs|[Hs Hs']]; [left; exact Hs|right; split; [lia|exact Hs']]).
    + apply wp_ret. apply NEXT; [exact HF|]. intros j Hj Hs. apply HA; [exact Hj|]. destruct Hs as [Hs|[Hs Hs']]; [left; exact Hs|right; split; [|exact Hs']].
      destruct (Z.eq_dec j (h1 + 1)) as [->|]; [|lia]. exfalso. apply NQ, AUTO. exact Hs'.
Qed.

Lemma slots auth : aok (2 ^ ht) auth -> 32 * ht <= zlen auth -> forall n, Z.of_nat n <= ht -> slice auth 0 (32 * Z.of_nat n) = auth_path hash leaf n lf.
Proof.
  intros HA Hlen. pose proof Hlf as [_ Hl]. unfold auth_path. induction n as [|n IH]; intros Hn; [reflexivity|].
  rewrite seq_S, flat_map_app. cbn [flat_map Nat.add]. rewrite app_nil_r, <- IH by lia.
  replace (32 * Z.of_nat (S n)) with (32 * Z.of_nat n + 32) by lia. rewrite (slice_split _ _ _ (32 * Z.of_nat n)) by lia. f_equal.
  replace (32 * Z.of_nat n + 32 - 32 * Z.of_nat n) with 32 by lia. specialize (HA (Z.of_nat n)). rewrite (Z.mul_comm 32). rewrite HA; [unfold node; rewrite Nat2Z.id; reflexivity|lia|].
  unfold sib. pose proof (Z.pow_pos_nonneg 2 (Z.of_nat n)) as Hp. set (h := Z.of_nat n) in *.
  assert (Hq: lf / 2 ^ h < 2 * 2 ^ (ht - h - 1)).
  { apply Z.div_lt_upper_bound; [lia|]. replace (2 * 2 ^ (ht - h - 1)) with (2 ^ (1 + (ht - h - 1))) by (rewrite Z.pow_add_r by lia; reflexivity). rewrite <- Z.pow_add_r by lia. replace (h + (1 + (ht - h - 1))) with ht by lia. exact Hl. }
  replace ht with (h + (1 + (ht - h - 1))) at 1 by lia. rewrite Z.pow_add_r, (Z.pow_add_r 2 1), Z.pow_1_r by lia. pose proof (Z.pow_pos_nonneg 2 (ht - h - 1)) as Hp'.
  set (q := 2 ^ (ht - h - 1)) in *. set (m := 2 ^ h) in *. set (x := lf / m) in *. rewrite lxor1_val.
  assert (Hc: (if Z.even x then x + 1 else x - 1) + 1 <= 2 * q).
  { destruct (Z.even x) eqn:Ev; [apply Z.even_spec in Ev; destruct Ev as [k Ek]; lia|lia]. }
  clearbody q m x. nia.
Qed.

Lemma treehash_ok stack0 a : zlen stack0 = 32 * (ht + 1) -> tbase base a ->
  wp (treehash H ctx gen0 stack0 auth0 lf off ht a)
     (fun '(root, auth, a') => root = node ht 0 /\ tbase base a' /\ fits auth /\ slice auth 0 (32 * ht) = auth_path hash leaf (Z.to_nat ht) lf).
Proof.
  intros HL HB. unfold treehash. pose proof (Z.pow_pos_nonneg 2 ht ltac:(lia) ltac:(lia)) as Hp. assert (Hlt: 2 ^ ht <= 2 ^ 30) by (apply Z.pow_le_mono_r; lia).
  assert (Ecount: u32 (Z.shiftl 1 ht) = 2 ^ ht). { rewrite Z.shiftl_mul_pow2, Z.mul_1_l by lia. unfold u32. apply Z.mod_small. lia. } rewrite Ecount.
  apply wp_bind. apply (wp_for_loop (fun i x => post i x)); [lia| | |].
  - unfold post. split; [exact I|]. split; [reflexivity|]. split; [exact HL|]. split; [exact I|]. split; [exact HB|]. split; [|apply same_outside_refl].
    intros j Hj Hc. exfalso. pose proof (sib_nonneg j ltac:(lia)). pose proof (Z.pow_pos_nonneg 2 j ltac:(lia) ltac:(lia)). nia.
  - intros i [[[hs stack] a1] auth] Hi (I1 & I2 & I3 & I4 & I5 & I6 & I7). replace (u32 (i + off)) with (i + off) by (unfold u32; rewrite Z.mod_small; lia). rewrite Hgen by assumption. unfold SPX_N. pose proof (Hleaf i) as Ll.
    assert (Zh: zlen hs <= ht). { pose proof (inc_len 0 hs ltac:(lia) I1) as IL. rewrite Z.add_0_l, Z.pow_0_r in IL. assert (LE: 2 ^ zlen hs <= 2 ^ ht) by lia. apply Z.pow_le_mono_r_iff in LE; lia. }
    pose proof (zlen_nonneg hs) as Zh0. apply wp_bind. eapply wp_eq; [apply copy_splice; lia|]. cbv beta. apply wp_bind.
    assert (NEXT: forall auth', fits auth' -> (forall j, 0 <= j < ht -> (sib j + 1) * 2 ^ j < i + 1 \/ (j <= 0 /\ (sib j + 1) * 2 ^ j = i + 1) -> slice auth' (0 + j * 32) 32 = node j (sib j)) ->
      wp (treehash_while H ctx (Z.to_nat ht) i lf off (0 :: hs) (splice stack (zlen hs * 32) (leaf i)) a1 auth') (post (i + 1))).
    { intros auth' HF HA. replace i with (i + 1 - 1) at 1 by lia. apply while_ok; try lia; try assumption.
      - rewrite zlen_splice; lia.
      - cbn [ent]. split; [rewrite (Z.mul_comm 32), slice_splice_at by lia; rewrite Z.pow_0_r, Z.div_1_r, I2; reflexivity|apply ent_splice; lia || assumption]. }
    assert (S0: sib 0 = Z.lxor lf 1) by (unfold sib; now rewrite Z.pow_0_r, Z.div_1_r).
    destruct (Z.eqb_spec (Z.lxor lf 1) i) as [EQ|NQ].
    + assert (H1: 0 < ht). { destruct (Z.eq_dec ht 0) as [E0|]; [|lia]. exfalso. rewrite E0 in Hi, Hlf. change (2 ^ 0) with 1 in *. assert (L0: lf = 0) by lia. rewrite L0 in EQ. change (Z.lxor 0 1) with 1 in EQ. lia. }
      pose proof I7 as [LF _]. eapply wp_eq; [apply copy_splice; lia|]. cbv beta. apply NEXT.
      * eapply same_outside_trans; [exact I7|]. apply same_outside_splice; lia.
      * intros j Hj Hs. destruct (Z.eq_dec j 0) as [->|]; [change (0 + 0 * 32) with 0; rewrite slice_splice_at by lia; rewrite S0, EQ; reflexivity|]. rewrite slice_splice_after by lia. apply I6; lia.
    + apply wp_ret. apply NEXT; [exact I7|]. intros j Hj [Hs|[Hs Hs']]; [apply I6; lia|]. exfalso. assert (j = 0) by lia. subst j. rewrite Z.pow_0_r in Hs'. apply NQ. lia.
  - intros [[[hs stack] a1] auth] (I1 & I2 & I3 & I4 & I5 & I6 & I7). apply inc_top in I2; [|lia|exact I1]. subst hs. cbn [ent sum] in I4. destruct I4 as [I4 _]. change (32 * zlen []) with 0 in I4. rewrite Z.div_0_l in I4 by lia.
    apply wp_bind. unfold SPX_N. rewrite rdrange_ok by lia. cbn [wp]. rewrite I4. split; [reflexivity|]. split; [exact I5|]. split; [exact I7|].
    pose proof I7 as [LF _]. pose proof (slots auth I6 ltac:(lia) (Z.to_nat ht) ltac:(lia)) as AS. rewrite Z2Nat.id in AS by lia. exact AS.
Qed.
End T0.
