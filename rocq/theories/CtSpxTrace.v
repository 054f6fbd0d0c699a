(** What the traces of SPHINCS+ key generation and signing depend on. *)
From Coq Require Import ZifyBool ZifyNat.
From Verif Require Import Base Wp Sha512Spec TweetSha SpongePure Sponge SpxSpec Spx SpxTree SpxWots SpxWots2 SpxSign SpxTop PropsSpx SpongeProofs SpongeProofs2 DilSignProofs DilBuf BufLemmas DilBufSign SpxBuf SpxBufProofs SpxBufTop
  CtBase CtTweet CtTweetProofs CtKeccak CtKeccakProofs CtSpx CtSpxProofs.
Local Open Scope Z_scope.
Ltac Zify.zify_post_hook ::= idtac.
Ltac mlia := Z.div_mod_to_equations; lia.
Local Opaque F.
#[local] Opaque Keccak.KeccakF1600_StatePermute.

#[local] Hint Resolve ct_shake : ct.
Lemma same_from {S} (I : Z -> S -> S -> Prop) (f f' : Z -> S -> L S) : forall n i s s', I i s s' ->
  (forall j a a', i <= j < i + Z.of_nat n -> I j a a' -> trace (f j a) = trace (f' j a') /\ I (j + 1) (value (f j a)) (value (f' j a'))) ->
  trace (lfrom n i f s) = trace (lfrom n i f' s').
Proof.
  induction n as [|n IH]; intros i s s' H K; [reflexivity|]. destruct (K i s s' ltac:(lia) H) as (E & H').
  cbn [lfrom]. cbv zeta. apply (f_equal (cons (EBr true))). rewrite E. apply f_equal. apply (IH (i + 1)); [exact H'|]. intros j a a' Hj. apply K. lia.
Qed.

Section Two.
Variables loc locw loc' locw' : Z -> list Z.
Lemma ct_ull out o n x out' x' : trace (ull_to_bytes_l Zops out o n x) = trace (ull_to_bytes_l Zops out' o n x').
Proof. unfold ull_to_bytes_l; ct. Qed.
Lemma ct_u32b out o x out' x' : trace (u32_to_bytes_l Zops out o x) = trace (u32_to_bytes_l Zops out' o x').
Proof. unfold u32_to_bytes_l; ct. Qed.
Lemma ct_b2ull l o n l' : trace (bytes_to_ull_l Zops l o n) = trace (bytes_to_ull_l Zops l' o n).
Proof. unfold bytes_to_ull_l; ct. Qed.
#[local] Hint Resolve ct_ull ct_u32b ct_b2ull : ct.
Lemma ct_layer a x a' x' : trace (set_layer_addr_l Zops a x) = trace (set_layer_addr_l Zops a' x'). Proof. reflexivity. Qed.
Lemma ct_tree a x a' x' : trace (set_tree_addr_l Zops a x) = trace (set_tree_addr_l Zops a' x'). Proof. apply ct_ull. Qed.
Lemma ct_type a x a' x' : trace (set_type_l Zops a x) = trace (set_type_l Zops a' x'). Proof. reflexivity. Qed.
Lemma ct_subtree a x a' x' : trace (copy_subtree_addr_l Zops a x) = trace (copy_subtree_addr_l Zops a' x'). Proof. apply ct_copy. Qed.
Lemma ct_keypair a x a' x' : trace (set_keypair_addr_l Zops a x) = trace (set_keypair_addr_l Zops a' x'). Proof. reflexivity. Qed.
Lemma ct_ckeypair a x a' x' : trace (copy_keypair_addr_l Zops a x) = trace (copy_keypair_addr_l Zops a' x'). Proof. unfold copy_keypair_addr_l; ct. Qed.
Lemma ct_chain a x a' x' : trace (set_chain_addr_l Zops a x) = trace (set_chain_addr_l Zops a' x'). Proof. reflexivity. Qed.
Lemma ct_hashad a x a' x' : trace (set_hash_addr_l Zops a x) = trace (set_hash_addr_l Zops a' x'). Proof. reflexivity. Qed.
Lemma ct_height a x a' x' : trace (set_tree_height_l Zops a x) = trace (set_tree_height_l Zops a' x'). Proof. reflexivity. Qed.
Lemma ct_index a x a' x' : trace (set_tree_index_l Zops a x) = trace (set_tree_index_l Zops a' x'). Proof. apply ct_u32b. Qed.
#[local] Hint Resolve ct_layer ct_tree ct_type ct_subtree ct_keypair ct_ckeypair ct_chain ct_hashad ct_height ct_index : ct.
Lemma ct_shake_at out off n inp io il out' inp' : trace (shake256_at_l Zops out off n inp io il) = trace (shake256_at_l Zops out' off n inp' io il).
Proof. unfold shake256_at_l; ct. Qed.
#[local] Hint Resolve ct_shake_at : ct.
Lemma ct_thash c out o inp i n a c' out' inp' a' : trace (thash_l Zops loc c out o inp i n a) = trace (thash_l Zops loc' c' out' o inp' i n a').
Proof. unfold thash_l; ct. Qed.
Lemma ct_prf c out o a c' out' a' : trace (prf_addr_l Zops loc c out o a) = trace (prf_addr_l Zops loc' c' out' o a').
Proof. unfold prf_addr_l; ct. Qed.
#[local] Hint Resolve ct_thash ct_prf : ct.
Lemma ct_absorb_pieces : forall l l' s pos s', map zlen l = map zlen l' -> same snd (absorb_pieces_l Zops (s, pos) l) (absorb_pieces_l Zops (s', pos) l').
Proof.
  induction l as [|m l IH]; intros [|m' l'] s pos s' H; try discriminate H; cbn [absorb_pieces_l].
  - split; reflexivity.
  - cbn [map] in H. injection H as E H. rewrite E. apply (same_bind snd); [apply ct_inc_absorb|].
    intros [? ?] [? ?] F; cbn [snd] in F; subst. apply IH, H.
Qed.
Lemma ct_pieces out off n l out' l' : map zlen l = map zlen l' -> trace (shake256_pieces_l Zops out off n l) = trace (shake256_pieces_l Zops out' off n l').
Proof.
  intros H. unfold shake256_pieces_l. apply ct_bind; [reflexivity|intros].
  apply (ct_bind_g snd); [now apply ct_absorb_pieces|]. intros [? ?] [? ?] F; cbn [snd] in F; subst.
  apply (ct_bind_g snd); [apply ct_inc_finalize|]. intros [? ?] [? ?] F; cbn [snd] in F; subst.
  apply (ct_bind_g (fun x => snd (snd x))); [apply ct_inc_squeeze|]. intros (? & ? & ?) (? & ? & ?) F. reflexivity.
Qed.
(** the position in [base_w] is public *)
Lemma ct_base_w out o n inp i out' inp' : trace (base_w_l Zops out o n inp i) = trace (base_w_l Zops out' o n inp' i).
Proof.
  unfold base_w_l. apply ct_bind; [|intros [[[[? ?] ?] ?] ?] [[[[? ?] ?] ?] ?]; reflexivity].
  apply (same_from (fun _ '(a, b, _, c, _) '(a', b', _, c', _) => a = a' /\ b = b' /\ c = c')); [auto|].
  intros j [[[[a b] t] c] ou] [[[[a' b'] t'] c'] ou'] _ (-> & -> & ->). destruct (c' =? 0); cbn [lif]; (split; [reflexivity|]); cbv [lbind value snd fst lrd lwr lret trace]; auto.
Qed.
#[local] Hint Resolve ct_base_w : ct.
Lemma ct_checksum l l' : trace (wots_checksum_l Zops loc l) = trace (wots_checksum_l Zops loc' l').
Proof. unfold wots_checksum_l; ct. Qed.
#[local] Hint Resolve ct_checksum : ct.
Lemma ct_chain_lengths l m o l' m' : trace (chain_lengths_l Zops loc l m o) = trace (chain_lengths_l Zops loc' l' m' o).
Proof. unfold chain_lengths_l; ct. Qed.

(** the WOTS+ chains: only whether the counter has reached the wanted position shows *)
Lemma ct_leaf_chain c c' d b n : forall k wk wk' mem pkb la mem' pkb' la',
  (forall j, k <= j <= k + Z.of_nat n -> (j =? wk) = (j =? wk')) ->
  trace (leaf_chain_l Zops loc c n k wk d mem pkb b la) = trace (leaf_chain_l Zops loc' c' n k wk' d mem' pkb' b la').
Proof.
  induction n as [|n IH]; intros k wk wk' mem pkb la mem' pkb' la' H; cbn [leaf_chain_l];
    (apply ct_bind_same; [unfold lcmp; cbn [trace fst reveal Zops cst]; rewrite H by lia; reflexivity|unfold lcmp; cbn [value snd reveal Zops cst]; apply H; lia|]); intros e.
  - apply ct_bind; [destruct e; ct|reflexivity].
  - apply ct_bind; [destruct e; ct|intros]. apply ct_bind; [reflexivity|intros]. apply ct_bind; [ct|intros]. apply ct_bind; [ct|intros].
    apply IH. intros j Hj. apply H. lia.
Qed.
Lemma trace_split {A B A' B'} (x : L A) (k : A -> L B) (x' : L A') (k' : A' -> L B') :
  trace x = trace x' -> trace (k (value x)) = trace (k' (value x')) -> trace (lbind x k) = trace (lbind x' k').
Proof. intros E F. rewrite !trace_bind. now apply f_equal2. Qed.
Lemma same_lif {A P} (g : A -> P) (b : bool) (x y x' y' : L A) : same g x x' -> same g y y' -> same g (lif b x y) (lif b x' y').
Proof. intros (E1 & E2) (F1 & F2). destruct b, x, y, x', y'; unfold same, lif, trace, value in *; cbn [fst snd] in *; subst; auto. Qed.
Lemma masked_differs j s : 0 <= j <= 15 -> (j =? Z.lor s (2 ^ 32 - 1)) = false.
Proof.
  intros Hj. apply Z.eqb_neq. intros E. apply (f_equal (fun x => Z.testbit x 31)) in E. rewrite Z.lor_spec in E.
  change (Z.testbit (2 ^ 32 - 1) 31) with true in E. rewrite orb_true_r in E.
  rewrite <- (Z.mod_small j (2 ^ 4)) in E by lia. rewrite Z.mod_pow2_bits_high in E by lia. discriminate E.
Qed.
Lemma ct_gen_leaf c so sl steps c' steps' dest doff li mem st dest' mem' st' : (li = sl -> steps = steps') ->
  trace (wots_gen_leafx1_l Zops loc c so sl steps dest doff li mem st) = trace (wots_gen_leafx1_l Zops loc' c' so sl steps' dest' doff li mem' st').
Proof.
  intros H. unfold wots_gen_leafx1_l. destruct st as [la pa], st' as [la' pa']. apply trace_split; [reflexivity|].
  assert (E : value (lcmp Zops (cst Zops li) sl) = (li =? sl)) by reflexivity. rewrite E. clear E. cbv zeta.
  do 2 (apply ct_bind; [ct|intros]). apply ct_bind; [|intros [[? ?] ?] [[? ?] ?]; ct]. apply ct_for.
  intros j [[mm pp] aa] [[mm1 pp1] aa1].
  destruct (Z.eqb_spec li sl) as [Hl|Hl].
  - rewrite <- (H Hl). apply ct_bind_same; [reflexivity|reflexivity|]. intros s. do 5 (apply ct_bind; [ct|intros]). apply ct_leaf_chain. reflexivity.
  - apply ct_bind; [reflexivity|]. intros s s'. do 5 (apply ct_bind; [ct|intros]). apply ct_leaf_chain. intros k Hk. cbn [bi Zops ev2 cst].
    rewrite !masked_differs by lia. reflexivity.
Qed.

Section TH.
Context {T : Type}.
Variables gl gl' : list Z -> Z -> Z -> list Z -> T -> L (list Z * list Z * T).
Hypothesis GL : forall i a b d a' b' d', 0 <= i < 2 ^ 32 - 1 -> trace (gl a 32 i b d) = trace (gl' a' 32 i b' d').
Definition up_pub (x : list Z * (list Z * list Z) + Z * (list Z * list Z * list Z)) : option Z := match x with inl _ => None | inr (h, _) => Some h end.
Lemma ct_treehash_up c c' n : forall h idx mx io ii il ao ro root cur st ta mem root' cur' st' ta' mem',
  same up_pub (treehash_up_l Zops loc c n h idx mx io ii il ao root ro cur st ta mem) (treehash_up_l Zops loc' c' n h idx mx io ii il ao root' ro cur' st' ta' mem').
Proof.
  induction n as [|n IH]; intros; cbn [treehash_up_l].
  - do 2 (apply same_ct; [st|intros]). split; reflexivity.
  - apply same_ct; [st|intros]. apply (same_bind (fun e => e)); [split; reflexivity|]. intros e ? <-.
    apply same_ct; [destruct e; ct|intros]. apply same_lif; [split; reflexivity|].
    cbv zeta. do 4 (apply same_ct; [ct|intros]). apply IH.
Qed.
Lemma ct_treehash_loop c c' fuel : forall idx li io th ao ro root st ta mem s root' st' ta' mem' s',
  0 <= idx -> idx + Z.of_nat fuel <= 2 ^ 20 -> 0 <= io < 2 ^ 20 ->
  trace (treehash_loop_l Zops loc c gl fuel idx li io th ao root ro st ta mem s) = trace (treehash_loop_l Zops loc' c' gl' fuel idx li io th ao root' ro st' ta' mem' s').
Proof.
  induction fuel as [|n IH]; intros idx li io th ao ro root st ta mem s root' st' ta' mem' s' H1 H2 H3; cbn [treehash_loop_l]; [reflexivity|]. cbv zeta.
  assert (U : u32 (idx + io) = idx + io) by (unfold u32; apply Z.mod_small; lia). assert (U2 : u32 (idx + 1) = idx + 1) by (unfold u32; apply Z.mod_small; lia).
  apply ct_bind; [apply GL; lia|]. intros [[cur m] sx] [[cur' m'] sx'].
  apply (ct_bind_g up_pub); [apply ct_treehash_up|]. intros [(r & t & m2)|(h & [[cu t] m2])] [(r' & t' & m2')|(h' & [[cu' t'] m2'])] E; cbn [up_pub] in E; try discriminate E; [reflexivity|].
  injection E as <-. apply ct_bind; [ct|intros]. rewrite U2. apply IH; lia.
Qed.
Lemma ct_treehashx1 c c' root ro ao li io th ta mem s root' ta' mem' s' : 0 <= th <= 9 -> 0 <= io < 2 ^ 20 ->
  trace (treehashx1_l Zops loc c gl root ro ao li io th ta mem s) = trace (treehashx1_l Zops loc' c' gl' root' ro ao li io th ta' mem' s').
Proof.
  intros Ht Hi. apply ct_treehash_loop; [lia| |exact Hi]. pose proof (Z.pow_le_mono_r 2 th 9 ltac:(lia) ltac:(lia)). pose proof (Z.pow_pos_nonneg 2 th ltac:(lia) ltac:(lia)). rewrite Z2Nat.id; lia.
Qed.
End TH.

Hypothesis LOC : forall n, 0 <= n -> zlen (loc n) = n.
Hypothesis LOCB : forall n, bytes_ok (loc n).
Hypothesis LOCW : forall n, 0 <= n -> zlen (locw n) = n.
Hypothesis LOC' : forall n, 0 <= n -> zlen (loc' n) = n.
Hypothesis LOCB' : forall n, bytes_ok (loc' n).
Hypothesis LOCW' : forall n, 0 <= n -> zlen (locw' n) = n.

(** chain lengths are a function of the message *)
Lemma steps_value lc lw m o : (forall n, 0 <= n -> zlen (lc n) = n) -> (forall n, bytes_ok (lc n)) -> (forall n, 0 <= n -> zlen (lw n) = n) ->
  0 <= o -> o + 32 <= zlen m -> bytes_ok m -> value (chain_lengths_l Zops lc (lw 67) m o) = wots_digits (slice m o 32).
Proof.
  intros L1 L2 L3 Ho Hl Hb.
  assert (Z1 : zlen (slice m o 32) = 32) by (apply zlen_slice; lia).
  destruct (chain_lengths_c_ok lc lw L1 L2 L3 (lw 67) m o (L3 67 ltac:(lia)) Ho Hl _ (chain_lengths_ok (slice m o 32) (bytes_ok_slice _ _ _ Hb) Z1)) as (a & E & -> & _).
  apply (era_chain_lengths lc _ _ _ _ E).
Qed.
Lemma ct_merkle_sign c mem off root ro wa ta il c' mem' root' wa' ta' :
  0 <= ro -> ro + 32 <= zlen root -> bytes_ok root -> ro + 32 <= zlen root' -> bytes_ok root' ->
  (0 <= il < 2 ^ 32 - 1 -> slice root ro 32 = slice root' ro 32) ->
  trace (merkle_sign_l Zops loc locw c mem off root ro wa ta il) = trace (merkle_sign_l Zops loc' locw' c' mem' off root' ro wa' ta' il).
Proof.
  intros H0 H1 B1 H2 B2 E. unfold merkle_sign_l. apply trace_split; [apply ct_chain_lengths|].
  rewrite !steps_value by assumption.
  do 4 (apply ct_bind; [ct|intros]). apply ct_bind; [|intros [[[? ?] ?] ?] [[[? ?] ?] ?]; reflexivity].
  apply ct_treehashx1; [|lia|lia]. intros i x b d x' b' d' Hi. apply ct_gen_leaf. intros ->. now rewrite (E Hi).
Qed.
Lemma ct_gen_root c root ro c' root' : 0 <= ro -> ro + 32 <= zlen root -> bytes_ok root -> ro + 32 <= zlen root' -> bytes_ok root' ->
  trace (merkle_gen_root_l Zops loc locw c root ro) = trace (merkle_gen_root_l Zops loc' locw' c' root' ro).
Proof.
  intros H0 H1 B1 H2 B2. unfold merkle_gen_root_l. do 2 (apply ct_bind; [ct|intros]).
  apply ct_bind; [|intros [[? ?] ?] [[? ?] ?]; reflexivity]. apply ct_merkle_sign; try assumption. cbn [cst Zops]. lia.
Qed.
Lemma ct_indices ind m ind' m' : trace (message_to_indices_l Zops ind m) = trace (message_to_indices_l Zops ind' m').
Proof.
  unfold message_to_indices_l. apply ct_bind; [|intros [? ?] [? ?]; reflexivity].
  assert (IN : forall i n j o x x', trace (lfrom n j (fun j '(offset, indices) =>
        b <~ lrd Zops m (Z.shiftr offset 3) ;;; x <~ lrd Zops indices i ;;;
        let bit := bi Zops And (un Zops (Shr (Z.land (Z.lnot offset) 7)) b) (cst Zops 1) in
        indices <~ lwr indices i (bi Zops Xor x (un Zops (Shl (9 - 1 - j)) bit)) ;;; lret (offset + 1, indices)) (o, x)) =
      trace (lfrom n j (fun j '(offset, indices) =>
        b <~ lrd Zops m' (Z.shiftr offset 3) ;;; x <~ lrd Zops indices i ;;;
        let bit := bi Zops And (un Zops (Shr (Z.land (Z.lnot offset) 7)) b) (cst Zops 1) in
        indices <~ lwr indices i (bi Zops Xor x (un Zops (Shl (9 - 1 - j)) bit)) ;;; lret (offset + 1, indices)) (o, x'))).
  { intros i n j o x x'. apply (same_from (fun _ a a' => fst a = fst a')); [reflexivity|]. intros k [a b] [a' b'] _ E; cbn [fst] in E; subst. split; reflexivity. }
  assert (IO : forall i mm n j o x, fst (value (lfrom n j (fun j '(offset, indices) =>
        b <~ lrd Zops mm (Z.shiftr offset 3) ;;; x <~ lrd Zops indices i ;;;
        let bit := bi Zops And (un Zops (Shr (Z.land (Z.lnot offset) 7)) b) (cst Zops 1) in
        indices <~ lwr indices i (bi Zops Xor x (un Zops (Shl (9 - 1 - j)) bit)) ;;; lret (offset + 1, indices)) (o, x))) = o + Z.of_nat n).
  { intros i mm n. induction n as [|n IH]; intros j o x; [cbn [lfrom value snd fst]; lia|]. rewrite value_from_S. cbv zeta. rewrite !value_bind. unfold lret, value at 2; cbn [snd]. rewrite IH. lia. }
  apply (same_from (fun _ a a' => fst a = fst a')); [reflexivity|]. intros k [a b] [a' b'] _ E; cbn [fst] in E; subst. split.
  - apply ct_bind; [reflexivity|intros]. apply IN.
  - rewrite !value_bind. unfold lfor. rewrite !IO. reflexivity.
Qed.
Lemma indices_value lw m : (forall n, 0 <= n -> zlen (lw n) = n) -> bytes_ok m -> zlen m = 40 -> value (message_to_indices_l Zops (lw 35) m) = base_2b m 9 35.
Proof.
  intros L Hb Hl. destruct (message_to_indices_c_ok loc lw LOC LOCB L (lw 35) m (L 35 ltac:(lia)) _ (message_to_indices_ok m Hb Hl)) as (a & E & -> & _).
  apply (era_indices _ _ _ E).
Qed.
Lemma ct_fors_leaf c leaf lo ai mem a c' leaf' mem' a' :
  trace (fors_gen_leafx1_l Zops loc c leaf lo ai mem a) = trace (fors_gen_leafx1_l Zops loc' c' leaf' lo ai mem' a').
Proof. unfold fors_gen_leafx1_l; ct. Qed.
Lemma ct_fors_sign c mem off pk m fa c' mem' pk' fa' : bytes_ok m -> zlen m = 40 ->
  trace (fors_sign_l Zops loc locw c mem off pk m fa) = trace (fors_sign_l Zops loc' locw' c' mem' off pk' m fa').
Proof.
  intros Hb Hl. unfold fors_sign_l. do 4 (apply ct_bind; [ct|intros]). apply trace_split; [apply ct_indices|].
  rewrite !indices_value by assumption. apply ct_bind; [|intros [[[[? ?] ?] ?] ?] [[[[? ?] ?] ?] ?]; ct].
  apply (same_from (fun _ '(_, o, _, _, _) '(_, o', _, _, _) => o = o')); [reflexivity|].
  intros i [[[[ma oa] ra] aa] la] [[[[mb ob] rb] ab] lb] Hi <-. cbv zeta.
  match goal with |- trace ?X = trace ?Y /\ _ => assert (S : same (fun '(_, o, _, _, _) => o) X Y); [|set (vx := X) in *; set (vy := Y) in *; clearbody vx vy] end.
  { apply (same_bind (fun e => e)); [split; reflexivity|]. intros x ? <-. do 5 (apply same_ct; [ct|intros]).
    apply same_ct; [apply ct_treehashx1; [intros; apply ct_fors_leaf|lia|lia]|]. intros [[[? ?] ?] ?] [[[? ?] ?] ?]. split; reflexivity. }
  destruct S as (E & F). split; [exact E|]. revert F.
  destruct (value vx) as [[[[? ?] ?] ?] ?], (value vy) as [[[[? ?] ?] ?] ?]. exact (fun F => F).
Qed.
Lemma ct_sign_layer c i mem off root wa ta tr lf c' mem' wa' ta' tr' : zlen root = 32 -> bytes_ok root ->
  trace (sign_layer_l Zops loc locw c i (mem, off, root, wa, ta, tr, lf)) = trace (sign_layer_l Zops loc' locw' c' i (mem', off, root, wa', ta', tr', lf)).
Proof.
  intros Hr Hb. unfold sign_layer_l. do 4 (apply ct_bind; [ct|intros]). apply ct_bind; [|intros [[? ?] ?] [[? ?] ?]; reflexivity].
  apply ct_merkle_sign; (assumption || lia || reflexivity).
Qed.
Lemma ct_seed_keypair pk sk seed pk' sk' seed' : 128 <= zlen sk -> bytes_ok sk -> 128 <= zlen sk' -> bytes_ok sk' ->
  zlen seed = 96 -> bytes_ok seed -> zlen seed' = 96 -> bytes_ok seed' ->
  trace (seed_keypair_l Zops loc locw pk sk seed) = trace (seed_keypair_l Zops loc' locw' pk' sk' seed').
Proof.
  intros Ls Bs Ls' Bs' Ld Bd Ld' Bd'.
  assert (V : forall k x, 128 <= zlen k -> zlen x = 96 -> value (lcopy Zops k 0 x 0 96) = splice k 0 x).
  { intros k x Lk Lx. apply era_copy. rewrite copy_splice by lia. rewrite (slice_all x) by lia. reflexivity. }
  unfold seed_keypair_l. apply trace_split; [apply ct_copy|]. rewrite !V by assumption.
  do 3 (apply ct_bind; [apply ct_copy|intros]). apply ct_bind; [|intros; apply ct_bind; [apply ct_copy|reflexivity]].
  apply ct_gen_root; try (rewrite zlen_splice by lia); try lia; apply bytes_ok_splice; assumption.
Qed.
End Two.
