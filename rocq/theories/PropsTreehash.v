(** * C79: the exported [treehash] of utils.c computes the Merkle root and the authentication path.

    The specification is that of C34: [tree_node] is the textbook Merkle tree over [leaf] with
    [node_hash] at inner nodes, [auth_path] the siblings on the way from a leaf to the root.
    The leaf generator is any callback that, given an address whose first 27 bytes (layer, tree and
    type) are those of the caller, writes the leaf of the index it is given. *)
From Coq Require Import ZifyBool ZifyNat.
From Verif Require Import Base Wp Sha512Spec SpxSpec Spx SpxTree SpxWots2 SpxTree0 PropsSpx.
Local Open Scope Z_scope.

(** a callback that produces [leaf i] for the tree-local index i, for every address of this tree *)
Definition generates (gen : Z -> list Z -> list Z) (addr : list Z) (off h : Z) (leaf : Z -> list Z) : Prop :=
  forall i a, 0 <= i < 2 ^ h -> zlen a = 32 -> slice a 0 27 = slice addr 0 27 -> gen (i + off) a = leaf i.

Theorem C79_treehash_root_and_path : forall H ctx gen (leaf : Z -> list Z) stack0 addr addr2 auth leaf_idx off h,
  hash_like H -> (forall i, zlen (leaf i) = 32) -> 0 <= h <= 30 -> 0 <= off -> off + 2 ^ h <= 2 ^ 32 -> 0 <= leaf_idx < 2 ^ h ->
  zlen stack0 = 32 * (h + 1) -> zlen addr = 32 -> 32 * h <= zlen auth -> generates gen addr off h leaf ->
  exists root auth' addr',
    treehash H ctx gen stack0 auth leaf_idx off h addr = Ret (root, auth', addr') /\
    root = tree_node (node_hash H ctx addr off) leaf (Z.to_nat h) 0 /\
    slice auth' 0 (32 * h) = auth_path (node_hash H ctx addr off) leaf (Z.to_nat h) leaf_idx /\
    same_outside auth auth' 0 (32 * h) /\
    zlen addr' = 32 /\ slice addr' 0 27 = slice addr 0 27 /\
    (1 <= h -> zlen addr2 = 32 -> slice addr2 0 27 = slice addr 0 27 ->
     exists addr2', compute_root H ctx (leaf leaf_idx) leaf_idx off auth' 0 h addr2 = Ret (root, addr2')).
Proof.
  intros H ctx gen leaf stack0 addr addr2 auth leaf_idx off h [HH HB] Hleaf Hh Ho Hoff Hli Hst Ha Hau Hg.
  assert (W := treehash_ok H HH ctx gen addr leaf off h leaf_idx auth Ha Hh (conj Ho Hoff) Hli Hleaf Hau (fun i a Hi '(conj L E) => Hg i a Hi L E) stack0 addr Hst (tbase_refl addr Ha)).
  apply wp_ex in W. destruct W as ([[root auth'] a'] & E & ER & [LA EB] & HS & EA).
  change (fun z i M => thash H ctx M (tad addr z (i + off / 2 ^ z))) with (node_hash H ctx addr off) in *.
  exists root, auth', a'. split; [exact E|]. split; [exact ER|]. split; [exact EA|]. split; [exact HS|]. split; [exact LA|]. split; [exact EB|].
  intros Hh1 Ha2 E2. pose proof HS as [HL _].
  assert (W: wp (compute_root H ctx (leaf leaf_idx) leaf_idx off auth' 0 h addr2) (fun '(r, a) => r = root)).
  { eapply wp_mono; [apply (compute_root_ok H ctx addr addr2); try assumption; try lia; split; assumption|].
    - intros [r a] [Er _]. rewrite Er, EA, ER. change (fun z i M => thash H ctx M (tad addr z (i + off / 2 ^ z))) with (node_hash H ctx addr off).
      rewrite climb_auth; [|intros; apply HH; lia|exact Hleaf]. f_equal. rewrite Z2Nat.id by lia. apply Z.div_small. exact Hli. }
  apply wp_ex in W. destruct W as ([r a] & E3 & ->). exists a. exact E3.
Qed.
Print Assumptions C79_treehash_root_and_path.

(** The two tree-hashing functions of the library compute the same root and the same path. *)
Theorem C79_agrees_with_treehashx1 : forall H ctx gen (leaf : Z -> list Z) stack0 stack1 addr auth sig aoff leaf_idx off h,
  hash_like H -> (forall i, zlen (leaf i) = 32) -> 1 <= h <= 30 -> 0 <= off -> off + 2 ^ h <= 2 ^ 32 -> 0 <= leaf_idx < 2 ^ h ->
  zlen stack0 = 32 * (h + 1) -> zlen stack1 = 32 * h -> zlen addr = 32 -> 32 * h <= zlen auth -> 0 <= aoff -> aoff + 32 * h <= zlen sig -> generates gen addr off h leaf ->
  exists root auth' addr' sig' addr'',
    treehash H ctx gen stack0 auth leaf_idx off h addr = Ret (root, auth', addr') /\
    treehashx1 H ctx (fun i sg (s : unit) => Ret (leaf (i - off), sg, s)) stack1 aoff leaf_idx off h addr sig tt = Ret (root, addr'', sig', tt) /\
    slice auth' 0 (32 * h) = slice sig' aoff (32 * h).
Proof.
  intros H ctx gen leaf stack0 stack1 addr auth sig aoff leaf_idx off h HH Hleaf Hh Ho Hoff Hli Hst Hst1 Ha Hau Hao Hsig Hg.
  destruct (C79_treehash_root_and_path H ctx gen leaf stack0 addr addr auth leaf_idx off h) as (root & auth' & a' & E & ER & EA & _); try assumption; try lia.
  destruct (C34_treehash_root_and_path H ctx leaf unit tt stack1 addr addr sig aoff leaf_idx off h) as (root1 & b' & b2 & sig' & E' & ER' & EA' & _); try assumption; try lia; try reflexivity.
  exists root, auth', a', sig', b'. split; [exact E|]. split; [rewrite E', ER, ER'; reflexivity|]. rewrite EA, EA'. reflexivity.
Qed.
Print Assumptions C79_agrees_with_treehashx1.

(** Distinct leaves of the same tree: every leaf's path, as stored by the function, leads to the root that the function returned for any other leaf. *)
Theorem C79_all_leaves_one_root : forall H ctx gen (leaf : Z -> list Z) stack0 stack1 addr auth0 auth1 i j off h,
  hash_like H -> (forall k, zlen (leaf k) = 32) -> 1 <= h <= 30 -> 0 <= off -> off + 2 ^ h <= 2 ^ 32 -> 0 <= i < 2 ^ h -> 0 <= j < 2 ^ h ->
  zlen stack0 = 32 * (h + 1) -> zlen stack1 = 32 * (h + 1) -> zlen addr = 32 -> 32 * h <= zlen auth0 -> 32 * h <= zlen auth1 -> generates gen addr off h leaf ->
  exists root authi a1 authj a2 a3,
    treehash H ctx gen stack0 auth0 i off h addr = Ret (root, authi, a1) /\
    treehash H ctx gen stack1 auth1 j off h addr = Ret (root, authj, a2) /\
    compute_root H ctx (leaf j) j off authj 0 h addr = Ret (root, a3).
Proof.
  intros H ctx gen leaf stack0 stack1 addr auth0 auth1 i j off h HH Hleaf Hh Ho Hoff Hi Hj Hs0 Hs1 Ha Ha0 Ha1 Hg.
  destruct (C79_treehash_root_and_path H ctx gen leaf stack0 addr addr auth0 i off h) as (r1 & au1 & a1 & E1 & R1 & _); try assumption; try lia.
  destruct (C79_treehash_root_and_path H ctx gen leaf stack1 addr addr auth1 j off h) as (r2 & au2 & a2 & E2 & R2 & _ & _ & _ & _ & CR); try assumption; try lia.
  destruct (CR ltac:(lia) Ha eq_refl) as (a3 & E3). rewrite <- R1 in R2. subst r2. exists r1, au1, a1, au2, a2, a3. split; [exact E1|]. split; [exact E2|exact E3].
Qed.
Print Assumptions C79_all_leaves_one_root.

(** The bound on [leaf_idx] is the caller's duty: for a tree of height 1 and the first index beyond
    it the function stores 32 bytes past the end of a path buffer of the documented size. *)
Theorem C79_index_beyond_tree_overflows : forall H ctx gen (leaf : Z -> list Z) stack0 addr auth,
  hash_like H -> (forall i, zlen (leaf i) = 32) -> zlen stack0 = 64 -> zlen addr = 32 -> zlen auth = 32 -> generates gen addr 0 1 leaf ->
  treehash H ctx gen stack0 auth 2 0 1 addr = Undef.
Proof.
  intros H ctx gen leaf stack0 addr auth [HH HB] Hleaf Hs Ha Hau Hg. pose proof (Hleaf 0) as L0. pose proof (Hleaf 1) as L1.
  assert (G0: gen 0 addr = leaf 0) by (apply (Hg 0); [lia|exact Ha|reflexivity]). assert (G1: gen 1 addr = leaf 1) by (apply (Hg 1); [lia|exact Ha|reflexivity]).
  unfold treehash, for_loop. change (Z.to_nat (u32 (Z.shiftl 1 1))) with 2%nat. cbn [for_from]. change (u32 (0 + 0)) with 0. change (u32 (0 + 1 + 0)) with 1. rewrite G0.
  change (zlen [] * SPX_N) with 0. unfold SPX_N. rewrite (copy_splice stack0) by lia. cbn [bind]. change (Z.lxor 2 1 =? 0) with false. change (Z.lxor 2 1 =? 0 + 1) with false. change (Z.to_nat 1) with 1%nat. cbn [bind treehash_while Z.eqb]. 
  rewrite G1. change (zlen [0] * 32) with 32. assert (LS: zlen (splice stack0 0 (leaf 0)) = 64) by (rewrite zlen_splice; lia). rewrite (copy_splice (splice stack0 0 (leaf 0))) by lia. cbn [bind].
  assert (LS2: zlen (splice (splice stack0 0 (leaf 0)) 32 (leaf 1)) = 64) by (rewrite zlen_splice; lia). set (st := splice (splice stack0 0 (leaf 0)) 32 (leaf 1)) in *. clearbody st.
  unfold SPX_N. change ((zlen [0; 0] - 2) * 32) with 0. change (2 * 32) with 64. rewrite rdrange_ok by lia. cbn [bind]. change ((zlen [0; 0] - 2) * 32) with 0. 
  match goal with |- context [thash H ctx ?x ?y] => pose proof (zlen_thash H HH ctx x y) as LT; set (v := thash H ctx x y) in * end. rewrite copy_splice by lia. cbn [bind].
  change (Z.lxor (Z.shiftr 2 (0 + 1)) 1 =? Z.shiftr (0 + 1) (0 + 1)) with true. cbn iota. rewrite rdrange_ok by (rewrite ?zlen_splice; lia). cbn [bind].
  unfold copy. rewrite Hau. reflexivity.
Qed.
Print Assumptions C79_index_beyond_tree_overflows.

Definition demo_hash (x : list Z) (n : Z) : list Z := repeat (fold_left Z.add x 7 mod 256) (Z.to_nat n).
Definition demo_leaf (i : Z) : list Z := repeat (i mod 256) 32.
Lemma demo_hash_like : hash_like demo_hash.
Proof.
  split; [intros x n Hn; unfold zlen, demo_hash; rewrite repeat_length; lia|]. intros x n. apply Forall_forall. intros y Hy. apply repeat_spec in Hy. subst y. apply Z.mod_pos_bound. lia.
Qed.
Example C79_met : hash_like demo_hash /\ (forall i, zlen (demo_leaf i) = 32) /\ generates (fun i _ => demo_leaf (i - 40)) (zeros 32) 40 3 demo_leaf /\ 40 + 2 ^ 3 <= 2 ^ 32 /\ 0 <= 5 < 2 ^ 3.
Proof.
  split; [apply demo_hash_like|]. split; [reflexivity|]. split; [intros i a _ _ _; f_equal; lia|]. split; [vm_compute; congruence|]. split; [lia|reflexivity].
Qed.
(** the hypotheses' instance, run: three levels of siblings, and the extra byte behind the path keeps its value *)
Example C79_run : exists root auth' a',
  treehash demo_hash {| pub_seed := zeros 32; sk_seed := zeros 32 |} (fun i _ => demo_leaf (i - 40)) (zeros 128) (repeat 9 97) 5 40 3 (zeros 32) = Ret (root, auth', a') /\
  slice auth' 0 32 = demo_leaf 4 /\ nth 96 auth' 0 = 9 /\ root <> demo_leaf 0.
Proof. eexists _, _, _. split; [vm_compute; reflexivity|]. vm_compute. split; [reflexivity|]. split; [reflexivity|]. congruence. Qed.
