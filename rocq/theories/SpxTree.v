(** SPHINCS+ tree hashing: [treehashx1] computes the Merkle root and the
    authentication path, [compute_root] climbs it. *)
From Coq Require Import ZifyBool ZifyNat.
From Verif Require Import Base Wp Sha512Spec SpxSpec Spx.
Ltac mlia := Z.div_mod_to_equations; lia.
Local Open Scope Z_scope.

(** ** writing a block into a buffer *)
Definition splice (d : list Z) (off : Z) (v : list Z) : list Z :=
  slice d 0 off ++ v ++ slice d (off + zlen v) (zlen d - off - zlen v).
Lemma copy_splice d off v n : n = zlen v -> 0 < n -> 0 <= off -> off + n <= zlen d -> copy d off v 0 n = Ret (splice d off v).
Proof.
  intros -> Hn Ho Hl. rewrite copy_ok by lia. f_equal. unfold splice. rewrite (slice_all v) by reflexivity. reflexivity.
Qed.
Lemma zlen_splice d off v : 0 <= off -> off + zlen v <= zlen d -> zlen (splice d off v) = zlen d.
Proof. intros Ho Hl. unfold splice. rewrite !zlen_app, !zlen_slice by (pose proof (zlen_nonneg v); lia). lia. Qed.
Lemma slice_splice_same d off v : 0 <= off -> off + zlen v <= zlen d -> slice (splice d off v) off (zlen v) = v.
Proof.
  intros Ho Hl. pose proof (zlen_nonneg v). unfold splice. assert (HL: zlen (slice d 0 off) = off) by (rewrite zlen_slice; lia).
  rewrite slice_app_r by lia. rewrite HL, Z.sub_diag. rewrite slice_app_l by lia. apply slice_all. reflexivity.
Qed.
Lemma slice_splice_before d off v o n : 0 <= off -> off + zlen v <= zlen d -> 0 <= o -> o + n <= off -> slice (splice d off v) o n = slice d o n.
Proof.
  intros Ho Hl Ho' Hn. pose proof (zlen_nonneg v). destruct (Z.le_gt_cases n 0) as [h|h]; [rewrite !slice_neg by lia; reflexivity|].
  unfold splice. assert (HL: zlen (slice d 0 off) = off) by (rewrite zlen_slice; lia).
  rewrite slice_app_l by lia. rewrite slice_slice by lia. f_equal; lia.
Qed.
Lemma slice_splice_after d off v o n : 0 <= off -> off + zlen v <= zlen d -> off + zlen v <= o -> o + n <= zlen d -> slice (splice d off v) o n = slice d o n.
Proof.
  intros Ho Hl Ho' Hn. pose proof (zlen_nonneg v). destruct (Z.le_gt_cases n 0) as [h|h]; [rewrite !slice_neg by lia; reflexivity|].
  unfold splice. assert (HL: zlen (slice d 0 off) = off) by (rewrite zlen_slice; lia).
  rewrite slice_app_r by lia. rewrite slice_app_r by lia. rewrite HL. rewrite slice_slice by lia. f_equal; lia.
Qed.

Lemma slice_splice_at d off v n : n = zlen v -> 0 <= off -> off + n <= zlen d -> slice (splice d off v) off n = v.
Proof. intros ->. apply slice_splice_same. Qed.

Lemma slice_all_eq {A} (l : list A) o n : o = 0 -> n = zlen l -> slice l o n = l.
Proof. intros -> ->. apply slice_all. reflexivity. Qed.
Lemma flat_map_ext_in {A B} (f g : A -> list B) l : (forall x, In x l -> f x = g x) -> flat_map f l = flat_map g l.
Proof. intros H. rewrite !flat_map_concat_map. f_equal. apply map_ext_in. exact H. Qed.

(** ** addresses of tree nodes *)
Definition tad (base : list Z) (z i : Z) : list Z := slice base 0 27 ++ [z] ++ be_bytes 4 i.
Definition tbase (base a : list Z) : Prop := zlen a = 32 /\ slice a 0 27 = slice base 0 27.
Lemma zlen_be_bytes n v : zlen (be_bytes n v) = Z.of_nat n.
Proof. induction n; cbn [be_bytes]; [reflexivity|]. rewrite zlen_cons. lia. Qed.
Lemma set_byte_split a off v : 0 <= off < zlen a -> set_byte a off v = slice a 0 off ++ [u8 v] ++ slice a (off + 1) (zlen a - off - 1).
Proof. intros H. unfold set_byte. rewrite upd_at by lia. cbn [app]. repeat (f_equal; try lia). Qed.
Lemma u32_to_bytes_be i : 0 <= i < 2 ^ 32 -> u32_to_bytes i = be_bytes 4 i.
Proof.
  intros H. unfold u32_to_bytes, u8. cbn [be_bytes]. rewrite !Z.shiftr_div_pow2 by lia. change (Z.of_nat 3) with 3. change (Z.of_nat 2) with 2. change (Z.of_nat 1) with 1. change (Z.of_nat 0) with 0.
  change (256 ^ 3) with (2 ^ 24). change (256 ^ 2) with (2 ^ 16). change (256 ^ 1) with (2 ^ 8). change (256 ^ 0) with 1. rewrite Z.div_1_r. reflexivity.
Qed.
Lemma tad_ok base a z i : tbase base a -> 0 <= z < 256 -> 0 <= i < 2 ^ 32 -> set_tree_index (set_tree_height a z) i = tad base z i.
Proof.
  intros [HL HB] Hz Hi. unfold set_tree_index, set_tree_height, tad. rewrite set_byte_split by lia. rewrite HL. rewrite <- HB.
  assert (HL': zlen (slice a 0 27) = 27) by (rewrite zlen_slice; lia).
  rewrite (app_assoc (slice a 0 27) [u8 z] (slice _ _ _)). assert (HL2: zlen (slice a 0 27 ++ [u8 z]) = 28) by (rewrite zlen_app, HL'; reflexivity).
  rewrite slice_app_l by lia.
  rewrite slice_all by lia. rewrite <- app_assoc. unfold u8. rewrite Z.mod_small by lia. f_equal. f_equal. apply u32_to_bytes_be; lia.
Qed.
Lemma tad_base base z i : 27 <= zlen base -> tbase base (tad base z i).
Proof.
  intros HL. unfold tbase, tad. assert (HL': zlen (slice base 0 27) = 27) by (rewrite zlen_slice; lia). split.
  - rewrite !zlen_app, zlen_be_bytes, HL'. reflexivity.
  - rewrite slice_app_l by lia. rewrite slice_slice by lia. f_equal; lia.
Qed.
Lemma tbase_refl a : zlen a = 32 -> tbase a a. Proof. split; [assumption|reflexivity]. Qed.

Lemma lxor_one a b : Z.lxor a b = 1 <-> a = Z.lxor b 1.
Proof.
  split; intros E.
  - rewrite <- E, (Z.lxor_comm a b), <- Z.lxor_assoc, Z.lxor_nilpotent, Z.lxor_0_l. reflexivity.
  - rewrite E, Z.lxor_comm, <- Z.lxor_assoc, Z.lxor_nilpotent, Z.lxor_0_l. reflexivity.
Qed.
Lemma land1_mod a : Z.land a 1 = a mod 2. Proof. change 1 with (Z.ones 1). rewrite Z.land_ones by lia. reflexivity. Qed.
Lemma lxor1_val a : Z.lxor a 1 = if Z.even a then a + 1 else a - 1.
Proof.
  destruct (Z.even a) eqn:E.
  - apply Z.even_spec in E. destruct E as [k ->]. rewrite Z.add_nocarry_lxor; [reflexivity|]. rewrite land1_mod. mlia.
  - apply (f_equal negb) in E. rewrite Z.negb_even in E. apply Z.odd_spec in E. destruct E as [k ->].
    replace (2 * k + 1 - 1) with (2 * k) by lia. rewrite (Z.add_nocarry_lxor (2 * k) 1) by (rewrite land1_mod; mlia). rewrite Z.lxor_assoc, Z.lxor_nilpotent, Z.lxor_0_r. reflexivity.
Qed.

(** arithmetic on a counter written in binary: [i / 2^h] *)
Lemma div_pow2_succ i h : 0 <= h -> i / 2 ^ (h + 1) = i / 2 ^ h / 2.
Proof. intros Hh. rewrite Z.pow_add_r, Z.pow_1_r by lia. rewrite Z.div_div by (try lia; apply Z.pow_pos_nonneg; lia). reflexivity. Qed.
Lemma low_ones_succ i h : 0 <= h -> (i + 1) mod 2 ^ h = 0 -> (i / 2 ^ h) mod 2 = 1 -> (i + 1) mod 2 ^ (h + 1) = 0.
Proof.
  intros Hh H1 H2. rewrite Z.pow_add_r, Z.pow_1_r by lia. pose proof (Z.pow_pos_nonneg 2 h). set (m := 2 ^ h) in *. clearbody m.
  apply Z.mod_divide in H1; [|lia]. destruct H1 as [k E]. apply Z.mod_divide; [lia|].
  assert (Hq: i / m = k - 1) by (symmetry; apply (Z.div_unique _ _ _ (m - 1)); [lia|]; nia).
  rewrite Hq in H2. clear Hq. exists (k / 2). rewrite E. assert (Hk: k = 2 * (k / 2)) by (clear -H2; mlia). rewrite Hk at 1. ring.
Qed.
Lemma low_ones_next i h : 0 <= h -> 0 <= i -> (i + 1) mod 2 ^ h = 0 -> (i + 1) / 2 ^ h = i / 2 ^ h + 1.
Proof.
  intros Hh Hi H1. pose proof (Z.pow_pos_nonneg 2 h). set (m := 2 ^ h) in *. clearbody m.
  apply Z.mod_divide in H1; [|lia]. destruct H1 as [k E]. rewrite E, Z.div_mul by lia.
  assert (Hq: i / m = k - 1) by (symmetry; apply (Z.div_unique _ _ _ (m - 1)); [lia|]; nia). lia.
Qed.

Lemma div_le_self x m : 0 <= x -> 0 < m -> x / m <= x.
Proof. intros Hx Hm. apply Z.div_le_upper_bound; nia. Qed.

Section Tree.
Variable H : list Z -> Z -> list Z.
Hypothesis HH : forall x n, 0 <= n -> zlen (H x n) = n.
Variable ctx : spx_ctx.

Lemma zlen_thash x a : zlen (thash H ctx x a) = 32. Proof. apply HH. unfold SPX_N. lia. Qed.

(** ** treehashx1 *)
Section TH.
Context {T : Type}.
Variable gen_leaf : Z -> list Z -> T -> outcome (list Z * list Z * T).
Variables (base : list Z) (leaf : Z -> list Z) (off ht aoff lf : Z).
Variable P : Z -> list Z -> T -> Prop.
Hypothesis Hbase : zlen base = 32.
Hypothesis Hht : 0 <= ht <= 30.
Hypothesis Hoff : 0 <= off /\ off + 2 ^ ht <= 2 ^ 32.
Hypothesis Hlf : 0 <= lf.
Hypothesis Haoff : 0 <= aoff.
Hypothesis Hleaf : forall i, zlen (leaf i) = 32.
Hypothesis Plen : forall i sig t, P i sig t -> aoff + 32 * ht <= zlen sig.
Hypothesis Pauth : forall i sig t h v, P i sig t -> 0 <= h < ht -> zlen v = 32 -> P i (splice sig (aoff + h * 32) v) t.
Hypothesis Pgen : forall i sig t, 0 <= i < 2 ^ ht -> P i sig t ->
  wp (gen_leaf (i + off) sig t) (fun '(l, sig', t') => l = leaf i /\ P (i + 1) sig' t' /\ slice sig' aoff (32 * ht) = slice sig aoff (32 * ht)).

Let hash (z i : Z) (M : list Z) : list Z := thash H ctx M (tad base z (i + off / 2 ^ z)).
Let node (h i : Z) : list Z := tree_node hash leaf (Z.to_nat h) i.
Let sib (h : Z) : Z := Z.lxor (lf / 2 ^ h) 1.

Lemma node_0 i : node 0 i = leaf i. Proof. reflexivity. Qed.
Lemma node_S h i : 0 <= h -> node (h + 1) i = hash (h + 1) i (node h (2 * i) ++ node h (2 * i + 1)).
Proof. intros Hh. unfold node. replace (Z.to_nat (h + 1)) with (S (Z.to_nat h)) by lia. cbn [tree_node]. f_equal. lia. Qed.
Lemma zlen_node h i : zlen (node h i) = 32.
Proof. unfold node. destruct (Z.to_nat h); cbn [tree_node]; [apply Hleaf|apply zlen_thash]. Qed.

Definition stack_ok (idx : Z) (stack : list Z) : Prop :=
  zlen stack = 32 * ht /\ forall h, 0 <= h < ht -> (idx / 2 ^ h) mod 2 = 1 -> slice stack (32 * h) 32 = node h (idx / 2 ^ h - 1).
Definition auth_ok (idx : Z) (sig : list Z) : Prop :=
  forall h, 0 <= h < ht -> (sib h + 1) * 2 ^ h <= idx -> slice sig (aoff + h * 32) 32 = node h (sib h).

Lemma up_ok idx stack t : 0 <= idx < 2 ^ ht -> stack_ok idx stack ->
  forall n h ioff iidx ileaf cur a sig, Z.of_nat n = ht - h -> 0 <= h -> ioff = off / 2 ^ h -> iidx = idx / 2 ^ h -> ileaf = lf / 2 ^ h ->
  (idx + 1) mod 2 ^ h = 0 -> cur = node h (idx / 2 ^ h) -> tbase base a -> P (idx + 1) sig t ->
  (forall j, 0 <= j < ht -> (sib j + 1) * 2 ^ j <= idx \/ (j < h /\ (sib j + 1) * 2 ^ j = idx + 1) -> slice sig (aoff + j * 32) 32 = node j (sib j)) ->
  wp (treehash_up H ctx n h idx (u32 (Z.shiftl 1 ht - 1)) ioff iidx ileaf aoff cur stack a sig)
     (fun r => match r with
       | inl (root, (stack', a', sig')) => idx + 1 = 2 ^ ht /\ root = node ht 0 /\ auth_ok (idx + 1) sig' /\ P (idx + 1) sig' t /\ tbase base a'
       | inr (h', (cur', stack', a', sig')) => idx + 1 < 2 ^ ht /\ 0 <= h' < ht /\ (idx + 1) mod 2 ^ h' = 0 /\ (idx / 2 ^ h') mod 2 = 0
           /\ cur' = node h' (idx / 2 ^ h') /\ stack' = stack /\ auth_ok (idx + 1) sig' /\ P (idx + 1) sig' t /\ tbase base a'
       end).
Proof.
  intros Hidx [HSl HS]. assert (Hmax: u32 (Z.shiftl 1 ht - 1) = 2 ^ ht - 1).
  { rewrite Z.shiftl_mul_pow2, Z.mul_1_l by lia. unfold u32. pose proof (Z.pow_le_mono_r 2 ht 30). pose proof (Z.pow_pos_nonneg 2 ht). apply Z.mod_small. change (2 ^ 32) with 4294967296. change (2 ^ 30) with 1073741824 in *. lia. }
  rewrite Hmax. clear Hmax.
  induction n as [|n IH]; intros h ioff iidx ileaf cur a sig Hn Hh -> -> -> Hlow -> Ha HP HA; cbn [treehash_up].
  - assert (h = ht) by lia. subst h. apply wp_ret. pose proof (Z.pow_pos_nonneg 2 ht).
    assert (E: idx + 1 = 2 ^ ht).
    { set (m := 2 ^ ht) in *. clearbody m. apply Z.mod_divide in Hlow; [|lia]. destruct Hlow as [k E]. assert (k = 1) by nia. nia. }
    split; [exact E|]. split; [f_equal; apply Z.div_small; lia|]. split; [|now split].
    intros j Hj Hs. apply HA; [exact Hj|]. assert (Hc: (sib j + 1) * 2 ^ j <= idx \/ (sib j + 1) * 2 ^ j = idx + 1) by lia. destruct Hc; [left; assumption|right]. split; [lia|assumption].
  - apply wp_bind.
    assert (Hw: wp (if Z.lxor (idx / 2 ^ h) (lf / 2 ^ h) =? 1 then copy sig (aoff + h * SPX_N) (node h (idx / 2 ^ h)) 0 SPX_N else Ret sig)
      (fun sig' => P (idx + 1) sig' t /\ (forall j, 0 <= j < ht -> (sib j + 1) * 2 ^ j <= idx \/ (j < h + 1 /\ (sib j + 1) * 2 ^ j = idx + 1) -> slice sig' (aoff + j * 32) 32 = node j (sib j)))).
    { pose proof (Plen _ _ _ HP) as HPl. pose proof (Z.pow_pos_nonneg 2 h) as Hph.
      assert (Hpm: (idx / 2 ^ h + 1) * 2 ^ h = idx + 1).
      { pose proof (low_ones_next idx h Hh (proj1 Hidx) Hlow) as E. rewrite <- E. set (m := 2 ^ h) in *. clearbody m. clear -Hlow Hph. mlia. }
      destruct (Z.eqb_spec (Z.lxor (idx / 2 ^ h) (lf / 2 ^ h)) 1) as [E|E].
      - apply lxor_one in E. fold (sib h) in E. unfold SPX_N. pose proof (zlen_node h (idx / 2 ^ h)) as Hzl.
        eapply wp_eq; [apply copy_splice; lia|]. split; [apply Pauth; [assumption|lia|assumption]|].
        intros j Hj Hs. destruct (Z.eq_dec j h) as [->|Hne].
        + rewrite slice_splice_at by lia. f_equal. exact E.
        + destruct (Z.lt_ge_cases j h).
          * rewrite slice_splice_before by lia. apply HA; [exact Hj|]. destruct Hs as [Hs|[Hs Hs']]; [left; exact Hs|right; split; [lia|exact Hs']].
          * rewrite slice_splice_after by lia. apply HA; [exact Hj|]. destruct Hs as [Hs|[Hs Hs']]; [left; exact Hs|lia].
      - apply wp_ret. split; [exact HP|]. intros j Hj Hs. apply HA; [exact Hj|].
        destruct Hs as [Hs|[Hs Hs']]; [left; exact Hs|]. right. split; [|exact Hs'].
        destruct (Z.eq_dec j h) as [->|]; [|lia]. exfalso. apply E, lxor_one. fold (sib h). rewrite <- Hpm in Hs'. apply Z.mul_reg_r in Hs'; lia. }
    eapply wp_mono; [exact Hw|]. clear Hw HA HP sig. intros sig [HP HA]. rewrite land1_mod.
    pose proof (Z.pow_pos_nonneg 2 h) as Hph.
    destruct (Z.eqb_spec ((idx / 2 ^ h) mod 2) 0) as [Ev|Od].
    + assert (Hlt: idx + 1 < 2 ^ ht).
      { assert (idx + 1 <> 2 ^ ht); [|lia]. intros E. pose proof (low_ones_next idx h Hh (proj1 Hidx) Hlow) as E2. rewrite E in E2.
        replace ht with (h + (1 + (ht - h - 1))) in E2 by lia. rewrite Z.pow_add_r in E2 by lia. rewrite Z.mul_comm, Z.div_mul in E2 by lia. rewrite Z.pow_add_r, Z.pow_1_r in E2 by lia.
        set (q := 2 ^ (ht - h - 1)) in *. clearbody q. clear -E2 Ev. mlia. }
      destruct (Z.ltb_spec idx (2 ^ ht - 1)); [|lia]. cbn [andb]. apply wp_ret.
      split; [exact Hlt|]. split; [lia|]. split; [exact Hlow|]. split; [exact Ev|]. split; [reflexivity|]. split; [reflexivity|]. split; [|now split].
      intros j Hj Hs. apply HA; [exact Hj|]. assert (Hc: (sib j + 1) * 2 ^ j <= idx \/ (sib j + 1) * 2 ^ j = idx + 1) by lia. destruct Hc as [Hc|Hc]; [left; exact Hc|]. right. split; [|exact Hc].
      destruct (Z.lt_ge_cases j (h + 1)) as [|Hgt]; [assumption|]. exfalso.
      pose proof (low_ones_next idx h Hh (proj1 Hidx) Hlow) as E2. rewrite <- Hc in E2.
      replace j with (h + (1 + (j - h - 1))) in E2 at 2 by lia. rewrite Z.pow_add_r in E2 by lia. rewrite (Z.mul_comm (2 ^ h)), Z.mul_assoc, Z.div_mul in E2 by lia. rewrite Z.pow_add_r, Z.pow_1_r in E2 by lia.
      set (q := 2 ^ (j - h - 1)) in *. set (sj := sib j + 1) in *. clearbody q sj. clear -E2 Ev. replace (sj * (2 * q)) with (2 * (sj * q)) in E2 by ring. lia.
    + assert (Hod: (idx / 2 ^ h) mod 2 = 1) by lia. cbn [andb]. apply wp_bind.
      assert (Hhlt: h < ht) by lia. unfold SPX_N. rewrite rdrange_ok by lia. cbn [wp]. rewrite (Z.mul_comm h 32). rewrite HS by (try lia; exact Hod).
      assert (Hadr: set_tree_index (set_tree_height a (h + 1)) (u32 (idx / 2 ^ h / 2 + Z.shiftr (off / 2 ^ h) 1)) = tad base (h + 1) (idx / 2 ^ (h + 1) + off / 2 ^ (h + 1))).
      { rewrite Z.shiftr_div_pow2 by lia. change (2 ^ 1) with 2. rewrite <- !div_pow2_succ by lia.
        assert (Hr: 0 <= idx / 2 ^ (h + 1) + off / 2 ^ (h + 1) < 2 ^ 32).
        { pose proof (Z.pow_pos_nonneg 2 (h + 1)) as Hp. split; [apply Z.add_nonneg_nonneg; apply Z.div_pos; lia|].
          pose proof (div_le_self idx _ (proj1 Hidx) (Hp ltac:(lia) ltac:(lia))) as H1. pose proof (div_le_self off _ (proj1 Hoff) (Hp ltac:(lia) ltac:(lia))) as H2. clear -H1 H2 Hoff Hidx. lia. }
        unfold u32. rewrite Z.mod_small by exact Hr. apply tad_ok; [exact Ha|clear -Hh Hht Hhlt; lia|exact Hr]. }
      rewrite Hadr. clear Hadr.
      apply IH.
      * lia.
      * lia.
      * rewrite Z.shiftr_div_pow2 by lia. rewrite div_pow2_succ by lia. reflexivity.
      * rewrite Z.shiftr_div_pow2 by lia. rewrite div_pow2_succ by lia. reflexivity.
      * rewrite Z.shiftr_div_pow2 by lia. rewrite div_pow2_succ by lia. reflexivity.
      * apply low_ones_succ; assumption.
      * rewrite node_S by lia. unfold hash. f_equal. rewrite div_pow2_succ by lia.
        set (x := idx / 2 ^ h) in *. clearbody x. f_equal; f_equal; clear -Hod; mlia.
      * apply tad_base. lia.
      * exact HP.
      * intros j Hj Hs. apply HA; [exact Hj|]. exact Hs.
Qed.

Lemma loop_ok : forall n idx stack a sig t, Z.of_nat n = 2 ^ ht - idx -> 0 <= idx < 2 ^ ht -> stack_ok idx stack -> auth_ok idx sig -> tbase base a -> P idx sig t ->
  wp (treehash_loop H ctx gen_leaf n idx lf off ht aoff stack a sig t)
     (fun '(root, a', sig', t') => root = node ht 0 /\ tbase base a' /\ auth_ok (2 ^ ht) sig' /\ P (2 ^ ht) sig' t').
Proof.
  induction n as [|n IH]; intros idx stack a sig t Hn Hidx HS HA Ha HP; [lia|]. cbn [treehash_loop]. apply wp_bind.
  assert (Hlt32: 2 ^ ht <= 2 ^ 30) by (apply Z.pow_le_mono_r; lia).
  replace (u32 (idx + off)) with (idx + off) by (unfold u32; rewrite Z.mod_small; lia).
  eapply wp_mono; [apply Pgen; [exact Hidx|exact HP]|]. intros [[l sig'] t'] (-> & HP' & Hsl). cbv beta.
  apply wp_bind. pose proof (Z.pow_pos_nonneg 2 ht) as Hp.
  assert (Hsl': forall j, 0 <= j < ht -> slice sig' (aoff + j * 32) 32 = slice sig (aoff + j * 32) 32).
  { intros j Hj. pose proof (f_equal (fun l => slice l (j * 32) 32) Hsl) as E. cbv beta in E. rewrite !slice_slice in E by lia.
    exact E. }
  eapply wp_mono; [apply (up_ok idx stack t' Hidx HS (Z.to_nat ht) 0); try lia; try (rewrite Z.pow_0_r, ?Z.div_1_r; reflexivity || apply Z.mod_1_r); try assumption|].
  - intros j Hj [Hs|Hs]; [|lia]. rewrite Hsl' by exact Hj. apply HA; assumption.
  - intros [[root [[stack' a'] sig2]]|[h [[[cur stack'] a'] sig2]]].
    + intros (E & -> & HA' & HP2 & Ha'). apply wp_ret. rewrite <- E. repeat split; try assumption; apply Ha'.
    + intros (Hlt & Hh & Hlow & Hev & -> & -> & HA' & HP2 & Ha'). apply wp_bind. destruct HS as [HSl HS]. pose proof (zlen_node h (idx / 2 ^ h)) as Hzl. unfold SPX_N.
      eapply wp_eq; [apply copy_splice; lia|]. replace (u32 (idx + 1)) with (idx + 1) by (unfold u32; rewrite Z.mod_small; lia).
      apply IH; try lia; try assumption. split; [rewrite zlen_splice by lia; exact HSl|].
      intros j Hj Hjo. destruct (Z.eq_dec j h) as [->|Hne].
      * rewrite (Z.mul_comm 32 h). rewrite slice_splice_at by lia. rewrite low_ones_next by lia. f_equal. lia.
      * destruct (Z.lt_ge_cases j h).
        -- exfalso. assert (Ez: ((idx + 1) / 2 ^ j) mod 2 = 0); [|lia].
           pose proof (Z.pow_pos_nonneg 2 h) as Hp1. pose proof (Z.pow_pos_nonneg 2 j) as Hp2.
           apply Z.mod_divide in Hlow; [|lia]. destruct Hlow as [k Ek]. rewrite Ek. replace h with (j + (1 + (h - j - 1))) by lia. rewrite Z.pow_add_r by lia.
           rewrite (Z.mul_comm (2 ^ j)), Z.mul_assoc, Z.div_mul by lia. rewrite Z.pow_add_r, Z.pow_1_r by lia. rewrite (Z.mul_comm 2), Z.mul_assoc, Z.mod_mul by lia. reflexivity.
        -- assert (Eq: (idx + 1) / 2 ^ j = idx / 2 ^ j).
           { replace j with (h + 1 + (j - h - 1)) by lia. rewrite Z.pow_add_r by lia. rewrite <- !Z.div_div by (try lia; apply Z.pow_pos_nonneg; lia). f_equal. rewrite !div_pow2_succ by lia. rewrite low_ones_next by lia.
             set (x := idx / 2 ^ h) in *. clearbody x. clear -Hev. mlia. }
           rewrite Eq in *. rewrite slice_splice_after by (clear -Hh Hj HSl Hzl Hne H0; lia). apply HS; [exact Hj|exact Hjo].
Qed.

Lemma auth_slots sig : auth_ok (2 ^ ht) sig -> lf < 2 ^ ht -> aoff + 32 * ht <= zlen sig ->
  forall n, Z.of_nat n <= ht -> slice sig aoff (32 * Z.of_nat n) = auth_path hash leaf n lf.
Proof.
  intros HA Hl Hlen. unfold auth_path. induction n as [|n IH]; intros Hn; [reflexivity|].
  rewrite seq_S, flat_map_app. cbn [flat_map Nat.add]. rewrite app_nil_r, <- IH by lia.
  replace (32 * Z.of_nat (S n)) with (32 * Z.of_nat n + 32) by lia. rewrite (slice_split _ _ _ (32 * Z.of_nat n)) by lia. f_equal.
  replace (32 * Z.of_nat n + 32 - 32 * Z.of_nat n) with 32 by lia. specialize (HA (Z.of_nat n)). rewrite (Z.mul_comm 32). rewrite HA; [unfold node; rewrite Nat2Z.id; reflexivity|lia|].
  unfold sib. pose proof (Z.pow_pos_nonneg 2 (Z.of_nat n)) as Hp. set (h := Z.of_nat n) in *.
  assert (Hq: lf / 2 ^ h < 2 * 2 ^ (ht - h - 1)).
  { apply Z.div_lt_upper_bound; [lia|]. replace (2 * 2 ^ (ht - h - 1)) with (2 ^ (1 + (ht - h - 1))) by (rewrite Z.pow_add_r by lia; reflexivity). rewrite <- Z.pow_add_r by lia. replace (h + (1 + (ht - h - 1))) with ht by lia. exact Hl. }
  replace ht with (h + (1 + (ht - h - 1))) at 1 by lia. rewrite Z.pow_add_r, (Z.pow_add_r 2 1), Z.pow_1_r by lia. pose proof (Z.pow_pos_nonneg 2 (ht - h - 1)) as Hp'.
  set (q := 2 ^ (ht - h - 1)) in *. set (m := 2 ^ h) in *. set (x := lf / m) in *. rewrite lxor1_val.
  assert (Hc: (if Z.even x then x + 1 else x - 1) + 1 <= 2 * q).
  { destruct (Z.even x) eqn:Ev; [apply Z.even_spec in Ev; destruct Ev as [k Ek]; lia|lia]. }
  clearbody q m x. nia.
Qed.

Lemma treehashx1_ok stack0 a sig t : zlen stack0 = 32 * ht -> tbase base a -> P 0 sig t ->
  wp (treehashx1 H ctx gen_leaf stack0 aoff lf off ht a sig t)
     (fun '(root, a', sig', t') => root = node ht 0 /\ tbase base a' /\ P (2 ^ ht) sig' t'
        /\ (lf < 2 ^ ht -> slice sig' aoff (32 * ht) = auth_path hash leaf (Z.to_nat ht) lf)).
Proof.
  intros Hs Ha HP. unfold treehashx1. pose proof (Z.pow_pos_nonneg 2 ht).
  eapply wp_mono; [apply loop_ok; try assumption; try lia|].
  - split; [exact Hs|]. intros h Hh. rewrite Z.div_0_l by (apply Z.pow_nonzero; lia). cbn. lia.
  - intros h Hh Hc. exfalso. assert (0 <= sib h).
    { unfold sib. apply Z.lxor_nonneg. split; [lia|]. intros _. apply Z.div_pos; [lia|]. apply Z.pow_pos_nonneg; lia. }
    pose proof (Z.pow_pos_nonneg 2 h). nia.
  - intros [[[root a'] sig'] t'] (-> & Ha' & HA & HP'). split; [reflexivity|]. split; [exact Ha'|]. split; [exact HP'|].
    intros Hl. rewrite <- (auth_slots sig' HA Hl (Plen _ _ _ HP')) by lia. rewrite Z2Nat.id by lia. reflexivity.
Qed.
End TH.
End Tree.

(** ** climbing *)
Definition opair (i : Z) (node sib : list Z) : list Z := if Z.even i then node ++ sib else sib ++ node.
Lemma climb_snoc hash : forall n z i node auth, 32 * Z.of_nat (S n) <= zlen auth ->
  climb hash (S n) z i node auth = hash (z + Z.of_nat n + 1) (i / 2 ^ (Z.of_nat n + 1)) (opair (i / 2 ^ Z.of_nat n) (climb hash n z i node auth) (slice auth (32 * Z.of_nat n) 32)).
Proof.
  induction n as [|n IH]; intros z i node auth Hl.
  - cbn [climb]. change (Z.of_nat 0) with 0. rewrite Z.pow_0_r, Z.div_1_r, Z.add_0_r, Z.mul_0_r, Z.add_0_l, Z.pow_1_r. reflexivity.
  - replace (climb hash (S (S n)) z i node auth) with (climb hash (S n) (z + 1) (i / 2) (hash (z + 1) (i / 2) (opair i node (slice auth 0 32))) (slice auth 32 (zlen auth - 32))) by reflexivity.
    replace (climb hash (S n) z i node auth) with (climb hash n (z + 1) (i / 2) (hash (z + 1) (i / 2) (opair i node (slice auth 0 32))) (slice auth 32 (zlen auth - 32))) by reflexivity.
    rewrite IH by (rewrite zlen_slice by lia; lia). rewrite slice_slice by lia.
    assert (Hd: forall k, 0 <= k -> i / 2 / 2 ^ k = i / 2 ^ (k + 1)) by (intros k Hk; rewrite Z.div_div by (try lia; apply Z.pow_pos_nonneg; lia); f_equal; rewrite Z.pow_add_r by lia; change (2 ^ 1) with 2; lia).
    rewrite !Hd by lia. replace (Z.of_nat (S n)) with (Z.of_nat n + 1) by lia. f_equal; [lia|]. f_equal. f_equal. lia.
Qed.
Lemma climb_auth_ext hash : forall n z i node a r, zlen a = 32 * Z.of_nat n -> climb hash n z i node (a ++ r) = climb hash n z i node a.
Proof.
  induction n as [|n IH]; intros z i node a r Hl; [reflexivity|]. cbn [climb]. rewrite slice_app_l by lia. pose proof (zlen_nonneg r).
  replace (slice (a ++ r) 32 (zlen (a ++ r) - 32)) with (slice a 32 (zlen a - 32) ++ r); [rewrite IH; [reflexivity|rewrite zlen_slice by lia; lia]|].
  rewrite zlen_app. rewrite (slice_split (a ++ r) 32 _ (zlen a - 32)) by lia. rewrite slice_app_l by lia. f_equal. rewrite slice_app_r by lia. symmetry. apply slice_all_eq; lia.
Qed.
Lemma zlen_auth_path hash leaf : (forall z i M, zlen (hash z i M) = 32) -> (forall i, zlen (leaf i) = 32) -> forall n i, zlen (auth_path hash leaf n i) = 32 * Z.of_nat n.
Proof.
  intros Hh Hl n i. unfold auth_path. induction n as [|n IH]; [reflexivity|]. rewrite seq_S, flat_map_app, zlen_app, IH. cbn [flat_map Nat.add]. rewrite app_nil_r.
  destruct n; cbn [tree_node]; rewrite ?Hh, ?Hl; lia.
Qed.
(** the authentication path leads to the root *)
Lemma climb_auth hash leaf i : (forall z i M, zlen (hash z i M) = 32) -> (forall i, zlen (leaf i) = 32) ->
  forall n, climb hash n 0 i (leaf i) (auth_path hash leaf n i) = tree_node hash leaf n (i / 2 ^ Z.of_nat n).
Proof.
  intros Hh Hl. induction n as [|n IH]; [cbn [climb tree_node]; change (Z.of_nat 0) with 0; rewrite Z.pow_0_r, Z.div_1_r; reflexivity|].
  pose proof (zlen_auth_path hash leaf Hh Hl n i) as Hz. pose proof (zlen_auth_path hash leaf Hh Hl (S n) i) as Hz'.
  rewrite climb_snoc by lia. unfold auth_path in *. rewrite seq_S, flat_map_app in *. cbn [flat_map Nat.add] in *. rewrite app_nil_r in *.
  rewrite climb_auth_ext by exact Hz. rewrite IH. rewrite slice_app_r by lia. rewrite Hz, Z.sub_diag.
  rewrite slice_all by (rewrite zlen_app, Hz in Hz'; lia). cbn [tree_node].
  replace (Z.of_nat (S n)) with (Z.of_nat n + 1) by lia. rewrite Z.add_0_l. rewrite div_pow2_succ by lia. f_equal.
  unfold opair. rewrite lxor1_val. set (x := i / 2 ^ Z.of_nat n). clearbody x. destruct (Z.even x) eqn:Ev.
  - apply Z.even_spec in Ev. destruct Ev as [k ->]. rewrite Z.mul_comm, Z.div_mul by lia. rewrite (Z.mul_comm k 2). reflexivity.
  - apply (f_equal negb) in Ev. rewrite Z.negb_even in Ev. apply Z.odd_spec in Ev. destruct Ev as [k ->].
    replace ((2 * k + 1) / 2) with k by (clear; mlia). replace (2 * k + 1 - 1) with (2 * k) by lia. reflexivity.
Qed.

(** ** trees at an offset *)
Lemma tree_node_off g lf off h : 0 <= h -> off mod 2 ^ h = 0 -> forall z i, Z.of_nat z <= h ->
  tree_node (fun z i M => g z (i + off / 2 ^ z) M) (fun i => lf (i + off)) z i = tree_node g lf z (i + off / 2 ^ Z.of_nat z).
Proof.
  intros Hh Ho. induction z as [|z IH]; intros i Hz.
  - cbn [tree_node]. change (Z.of_nat 0) with 0. rewrite Z.pow_0_r, Z.div_1_r. reflexivity.
  - cbn [tree_node]. rewrite !IH by lia. f_equal. replace (Z.of_nat (S z)) with (Z.of_nat z + 1) in * by lia. rewrite div_pow2_succ by lia.
    assert (He: (off / 2 ^ Z.of_nat z) mod 2 = 0).
    { pose proof (Z.pow_pos_nonneg 2 (Z.of_nat z)) as Hp1. pose proof (Z.pow_pos_nonneg 2 h) as Hp2. apply Z.mod_divide in Ho; [|lia]. destruct Ho as [k ->]. replace h with (Z.of_nat z + (1 + (h - Z.of_nat z - 1))) by lia. rewrite Z.pow_add_r by lia.
      rewrite (Z.mul_comm (2 ^ _)), Z.mul_assoc, Z.div_mul by lia. rewrite Z.pow_add_r, Z.pow_1_r by lia. rewrite (Z.mul_comm 2), Z.mul_assoc, Z.mod_mul by lia. reflexivity. }
    set (x := off / 2 ^ Z.of_nat z) in *. clearbody x. f_equal; f_equal; clear -He; mlia.
Qed.
Lemma off_even off h j : 0 <= j < h -> off mod 2 ^ h = 0 -> (off / 2 ^ j) mod 2 = 0.
Proof.
  intros Hj Ho. pose proof (Z.pow_pos_nonneg 2 j) as Hp1. pose proof (Z.pow_pos_nonneg 2 h) as Hp2. apply Z.mod_divide in Ho; [|lia]. destruct Ho as [k ->]. replace h with (j + (1 + (h - j - 1))) by lia. rewrite Z.pow_add_r by lia.
  rewrite (Z.mul_comm (2 ^ _)), Z.mul_assoc, Z.div_mul by lia. rewrite Z.pow_add_r, Z.pow_1_r by lia. rewrite (Z.mul_comm 2), Z.mul_assoc, Z.mod_mul by lia. reflexivity.
Qed.
Lemma div_off i off h j : 0 <= j <= h -> off mod 2 ^ h = 0 -> (i + off) / 2 ^ j = i / 2 ^ j + off / 2 ^ j.
Proof.
  intros Hj Ho. pose proof (Z.pow_pos_nonneg 2 j) as Hp1. pose proof (Z.pow_pos_nonneg 2 h) as Hp2. apply Z.mod_divide in Ho; [|lia]. destruct Ho as [k ->]. replace h with ((h - j) + j) by lia. rewrite Z.pow_add_r by lia.
  rewrite Z.mul_assoc, Z.div_add, Z.div_mul by lia. reflexivity.
Qed.
Lemma auth_path_off g lf off h i : 0 <= h -> off mod 2 ^ h = 0 -> forall n, Z.of_nat n <= h ->
  auth_path (fun z i M => g z (i + off / 2 ^ z) M) (fun i => lf (i + off)) n i = auth_path g lf n (i + off).
Proof.
  intros Hh Ho n Hn. unfold auth_path. apply flat_map_ext_in. intros j Hj. apply in_seq in Hj. rewrite (tree_node_off g lf off h) by lia. f_equal.
  rewrite (div_off i off h) by lia. pose proof (off_even off h (Z.of_nat j) ltac:(lia) Ho) as He. set (x := i / 2 ^ Z.of_nat j). set (y := off / 2 ^ Z.of_nat j) in *. clearbody x y.
  rewrite !lxor1_val. apply Z.mod_divide in He; [|lia]. destruct He as [k ->]. rewrite Z.even_add, (Z.even_mul k 2). change (Z.even 2) with true. rewrite Bool.orb_true_r. destruct (Z.even x); cbn [Bool.eqb]; lia.
Qed.
Lemma climb_off g off h : 0 <= h -> off mod 2 ^ h = 0 -> forall n z i node auth, 0 <= z -> z + Z.of_nat n <= h ->
  climb (fun z i M => g z (i + off / 2 ^ z) M) n z i node auth = climb g n z (i + off / 2 ^ z) node auth.
Proof.
  intros Hh Ho. induction n as [|n IH]; intros z i node auth Hz Hn; [reflexivity|]. cbn [climb]. rewrite IH by lia.
  pose proof (off_even off h z ltac:(lia) Ho) as He. rewrite div_pow2_succ by lia. set (y := off / 2 ^ z) in *. clearbody y.
  assert (Ed: (i + y) / 2 = i / 2 + y / 2) by (clear -He; mlia).
  assert (Ee: Z.even (i + y) = Z.even i). { rewrite Z.even_add. replace (Z.even y) with true by (symmetry; apply Z.even_spec; exists (y / 2); clear -He; mlia). destruct (Z.even i); reflexivity. }
  rewrite Ed, Ee. reflexivity.
Qed.

(** ** compute_root *)
Section CR.
Variable H : list Z -> Z -> list Z.
Variable ctx : spx_ctx.
Lemma compute_root_ok base a leaf lf off sig o ht : zlen base = 32 -> tbase base a -> 1 <= ht <= 30 -> 0 <= lf < 2 ^ 32 -> 0 <= off -> lf + off < 2 ^ 32 ->
  0 <= o -> o + 32 * ht <= zlen sig ->
  wp (compute_root H ctx leaf lf off sig o ht a) (fun '(root, a') =>
    root = climb (fun z i M => thash H ctx M (tad base z (i + off / 2 ^ z))) (Z.to_nat ht) 0 lf leaf (slice sig o (32 * ht)) /\ tbase base a').
Proof.
  intros Hb Ha Hht Hlf Hoff Hsum Ho Hl. unfold compute_root. set (hash := fun z i M => thash H ctx M (tad base z (i + off / 2 ^ z))). set (auth := slice sig o (32 * ht)).
  assert (Hzl: zlen auth = 32 * ht) by (unfold auth; rewrite zlen_slice; lia).
  assert (Hpair: forall x (n s : list Z), (if negb (Z.land x 1 =? 0) then (s, n) else (n, s)) = (if Z.even x then (n, s) else (s, n))).
  { intros x n s. rewrite land1_mod, Zmod_even. destruct (Z.even x); reflexivity. }
  assert (Hadr: forall a k, tbase base a -> 0 <= k < 30 -> set_tree_index (set_tree_height a (k + 1)) (u32 (Z.shiftr (lf / 2 ^ k) 1 + Z.shiftr (off / 2 ^ k) 1)) = tad base (k + 1) (lf / 2 ^ (k + 1) + off / 2 ^ (k + 1))).
  { intros b k Hbb Hk. rewrite !Z.shiftr_div_pow2 by lia. change (2 ^ 1) with 2. rewrite <- !div_pow2_succ by lia.
    pose proof (Z.pow_pos_nonneg 2 (k + 1) ltac:(lia) ltac:(lia)) as Hp.
    assert (Hr: 0 <= lf / 2 ^ (k + 1) + off / 2 ^ (k + 1) < 2 ^ 32).
    { pose proof (div_le_self lf _ (proj1 Hlf) Hp). pose proof (div_le_self off _ Hoff Hp). split; [apply Z.add_nonneg_nonneg; apply Z.div_pos; lia|lia]. }
    unfold u32. rewrite Z.mod_small by exact Hr. apply tad_ok; [exact Hbb|lia|exact Hr]. }
  unfold SPX_N. rewrite rdrange_ok by lia. cbn [bind]. rewrite Hpair. replace (slice sig o 32) with (slice auth (32 * 0) 32) by (unfold auth; rewrite slice_slice by lia; f_equal; lia).
  destruct (if Z.even lf then (leaf, slice auth (32 * 0) 32) else (slice auth (32 * 0) 32, leaf)) as [b0 b1] eqn:Eb. apply wp_bind.
  replace (u32 (ht - 1)) with (ht - 1) by (unfold u32; rewrite Z.mod_small; lia).
  eapply (wp_for_loop (fun k '(b0, b1, li, io, a) => li = lf / 2 ^ k /\ io = off / 2 ^ k /\ tbase base a /\ b0 ++ b1 = opair (lf / 2 ^ k) (climb hash (Z.to_nat k) 0 lf leaf auth) (slice auth (32 * k) 32))); [lia| | |].
  - rewrite Z.pow_0_r, !Z.div_1_r. split; [reflexivity|]. split; [reflexivity|]. split; [exact Ha|]. cbn [climb Z.to_nat]. unfold opair. destruct (Z.even lf); injection Eb as <- <-; reflexivity.
  - clear b0 b1 Eb a Ha. intros k [[[[b0 b1] li] io] a] Hk (-> & -> & Ha & Eb). rewrite Hadr by (try assumption; lia).
    rewrite rdrange_ok by lia. cbn [bind]. replace (slice sig (o + (k + 1) * 32) 32) with (slice auth (32 * (k + 1)) 32) by (unfold auth; rewrite slice_slice by lia; f_equal; lia).
    assert (En: thash H ctx (b0 ++ b1) (tad base (k + 1) (lf / 2 ^ (k + 1) + off / 2 ^ (k + 1))) = climb hash (Z.to_nat (k + 1)) 0 lf leaf auth).
    { replace (Z.to_nat (k + 1)) with (S (Z.to_nat k)) by lia. rewrite climb_snoc by lia. rewrite Eb. rewrite Z2Nat.id by lia. reflexivity. }
    rewrite En. set (nd := climb hash (Z.to_nat (k + 1)) 0 lf leaf auth) in *. rewrite !Z.shiftr_div_pow2 by lia. change (2 ^ 1) with 2. rewrite <- !div_pow2_succ by lia.
    rewrite land1_mod, Zmod_even. destruct (Z.even (lf / 2 ^ (k + 1))) eqn:Ev; cbn [negb Z.eqb]; apply wp_ret; (split; [reflexivity|split; [reflexivity|split; [apply tad_base; lia|]]]); unfold opair; rewrite Ev; reflexivity.
  - clear b0 b1 Eb a Ha. intros [[[[b0 b1] li] io] a] (-> & -> & Ha & Eb). apply wp_ret. specialize (Hadr a (ht - 1) Ha ltac:(lia)). replace (ht - 1 + 1) with ht in Hadr by lia. rewrite Hadr. split; [|apply tad_base; lia].
    replace (Z.to_nat ht) with (S (Z.to_nat (ht - 1))) by lia. rewrite climb_snoc by lia. rewrite Eb. rewrite Z2Nat.id by lia. unfold hash at 2. rewrite Z.add_0_l. replace (ht - 1 + 1) with ht by lia. reflexivity.
Qed.
End CR.
