(** The instrumented SPHINCS+ programs: what their traces depend on, and they compute what the
    models of SpxBuf.v compute. *)
From Verif Require Import Base Keccak Sponge Spx DilBuf SpxBuf CtBase CtTweet CtTweetProofs CtKeccak CtKeccakProofs CtSpx.
Ltac Zify.zify_post_hook ::= idtac.
#[local] Opaque KeccakF1600_StatePermute.

(** ** Results *)
Lemma vz32 : vzeros Zops 32 = zeros 32. Proof. reflexivity. Qed.
Lemma era_cmp {A} (c : bool) x y (X X' : outcome A) (k : bool -> L A) : c = (x =? y) -> era X (k true) -> era X' (k false) ->
  era (if c then X else X') (lbind (lcmp Zops x y) k).
Proof.
  intros -> E F r H. rewrite value_bind. unfold lcmp, value at 2; cbn [snd reveal Zops]. destruct (x =? y); [exact (E r H)|exact (F r H)].
Qed.
Section Era.
Variables loc locw : Z -> list Z.
Definition cx (c : spx_ctx) : list Z * list Z := (pub_seed c, sk_seed c).
#[local] Hint Resolve era_rd era_wr era_copy : era.
Lemma era_ull_to_bytes out o n x : era (ull_to_bytes_c out o n x) (ull_to_bytes_l Zops out o n x).
Proof. unfold ull_to_bytes_c, ull_to_bytes_l; eras. Qed.
Lemma era_u32_to_bytes out o x : era (u32_to_bytes_c out o x) (u32_to_bytes_l Zops out o x).
Proof. unfold u32_to_bytes_c, u32_to_bytes_l; eras. Qed.
Lemma era_bytes_to_ull l o n : era (bytes_to_ull_c l o n) (bytes_to_ull_l Zops l o n).
Proof. unfold bytes_to_ull_c, bytes_to_ull_l; eras. Qed.
#[local] Hint Resolve era_ull_to_bytes era_u32_to_bytes era_bytes_to_ull : era.
Lemma era_set_layer a x : era (set_layer_addr_c a x) (set_layer_addr_l Zops a x). Proof. apply era_wr. Qed.
Lemma era_set_tree a x : era (set_tree_addr_c a x) (set_tree_addr_l Zops a x). Proof. apply era_ull_to_bytes. Qed.
Lemma era_set_type a x : era (set_type_c a x) (set_type_l Zops a x). Proof. apply era_wr. Qed.
Lemma era_copy_subtree a x : era (copy_subtree_addr_c a x) (copy_subtree_addr_l Zops a x). Proof. apply era_copy. Qed.
Lemma era_set_keypair a x : era (set_keypair_addr_c a x) (set_keypair_addr_l Zops a x). Proof. apply era_wr. Qed.
Lemma era_copy_keypair a x : era (copy_keypair_addr_c a x) (copy_keypair_addr_l Zops a x).
Proof. unfold copy_keypair_addr_c, copy_keypair_addr_l; eras. Qed.
Lemma era_set_chain a x : era (set_chain_addr_c a x) (set_chain_addr_l Zops a x). Proof. apply era_wr. Qed.
Lemma era_set_hash a x : era (set_hash_addr_c a x) (set_hash_addr_l Zops a x). Proof. apply era_wr. Qed.
Lemma era_set_height a x : era (set_tree_height_c a x) (set_tree_height_l Zops a x). Proof. apply era_wr. Qed.
Lemma era_set_index a x : era (set_tree_index_c a x) (set_tree_index_l Zops a x). Proof. apply era_u32_to_bytes. Qed.
#[local] Hint Resolve era_set_layer era_set_tree era_set_type era_copy_subtree era_set_keypair era_copy_keypair era_set_chain era_set_hash era_set_height era_set_index : era.

Lemma rdrange_slice l a n v : rdrange l a n = Ret v -> v = slice l a n.
Proof. unfold rdrange. destruct (Z.leb_spec n 0); [intros E; injection E as <-; now rewrite slice_neg|]. destruct (_ && _); [intros E; injection E as <-; reflexivity|discriminate]. Qed.
Lemma era_rdrange {A} l a n (k : list Z -> outcome A) y : era (k (slice l a n)) y -> era (bind (rdrange l a n) k) y.
Proof. apply era_pure. intros v. apply rdrange_slice. Qed.
Lemma era_shake256_at out off n inp ioff ilen : era (shake256_at out off n inp ioff ilen) (shake256_at_l Zops out off n inp ioff ilen).
Proof.
  unfold shake256_at, shake256_at_l, lptr. do 2 apply era_rdrange. apply era_bind; [apply era_shake|]. intros d r H.
  unfold lput, lret, value at 1; cbn [snd]. exact (era_copy _ _ _ _ _ r H).
Qed.
Lemma erar_absorb_pieces l : forall c, erar ctx (absorb_pieces c l) (absorb_pieces_l Zops (ctx c) l).
Proof.
  induction l as [|p l IH]; intros c; cbn [absorb_pieces absorb_pieces_l]; [now apply erar_ret|].
  apply (erar_bind ctx); [apply erar_inc_absorb|intros; apply IH].
Qed.
Lemma era_shake256_pieces out off n l : era (shake256_pieces out off n l) (shake256_pieces_l Zops out off n l).
Proof.
  unfold shake256_pieces, shake256_pieces_l. apply era_skip with (b := zeros 25); [reflexivity|].
  apply (erar_bind ctx (fun x => x)); [apply (erar_absorb_pieces l shake256_inc_init)|intros c].
  apply (erar_bind ctx (fun x => x)); [apply erar_inc_finalize|intros c'].
  apply (erar_bind octx (fun x => x)); [apply erar_inc_squeeze|]. intros [h c2]. unfold octx; cbn [fst snd]. now apply erar_ret.
Qed.
#[local] Hint Resolve era_shake256_at era_shake256_pieces : era.
Lemma era_thash c out o inp i n a : era (thash_c loc c out o inp i n a) (thash_l Zops loc (cx c) out o inp i n a).
Proof. unfold thash_c, thash_l, cx; cbn [fst]; eras. Qed.
Lemma era_prf_addr c out o a : era (prf_addr_c loc c out o a) (prf_addr_l Zops loc (cx c) out o a).
Proof. unfold prf_addr_c, prf_addr_l, cx; cbn [fst snd]; eras. Qed.
#[local] Hint Resolve era_thash era_prf_addr : era.
Lemma era_gen_random mem ro sk so opt mo ml : era (gen_message_random_c mem ro sk so opt mo ml) (gen_message_random_l Zops mem ro sk so opt mo ml).
Proof. unfold gen_message_random_c, gen_message_random_l, lptr. do 3 apply era_rdrange. eras. Qed.
Lemma era_hash_message d mem ro pk po mo ml : era (hash_message_c loc d mem ro pk po mo ml) (hash_message_l Zops loc d mem ro pk po mo ml).
Proof. unfold hash_message_c, hash_message_l, lptr. do 3 apply era_rdrange. eras. Qed.
Lemma era_base_w out o n inp i : era (base_w_c out o n inp i) (base_w_l Zops out o n inp i).
Proof. unfold base_w_c, base_w_l. eras. Qed.
#[local] Hint Resolve era_gen_random era_hash_message era_base_w : era.
Lemma era_checksum l : era (wots_checksum_c loc l) (wots_checksum_l Zops loc l).
Proof. unfold wots_checksum_c, wots_checksum_l. eras. Qed.
#[local] Hint Resolve era_checksum : era.
Lemma era_chain_lengths l m o : era (chain_lengths_c loc l m o) (chain_lengths_l Zops loc l m o).
Proof. unfold chain_lengths_c, chain_lengths_l. eras. Qed.
#[local] Hint Resolve era_chain_lengths : era.
Lemma era_cmp_pre {A B} (c : bool) x y (X X' : outcome A) (Y Y' : L A) (k : A -> outcome B) (k' : A -> L B) :
  c = (x =? y) -> era X Y -> era X' Y' -> (forall a, era (k a) (k' a)) ->
  era (bind (if c then X else X') k) (lbind (lcmp Zops x y) (fun e : bool => lbind (if e then Y else Y') k')).
Proof.
  intros -> E F K r H. rewrite value_bind. unfold lcmp, value at 2; cbn [snd reveal Zops]. revert r H.
  destruct (x =? y); apply era_bind; assumption.
Qed.
Lemma era_leaf_chain c n : forall k wk d mem pkb b la,
  era (leaf_chain_c loc c n k wk d mem pkb b la) (leaf_chain_l Zops loc (cx c) n k wk d mem pkb b la).
Proof.
  induction n as [|n IH]; intros; cbn [leaf_chain_c leaf_chain_l]; apply era_cmp_pre; try reflexivity; try apply era_copy; try apply era_ret; intros m.
  - intros r H. injection H as <-. reflexivity.
  - eapply era_skip; [reflexivity|]. eras.
Qed.
#[local] Hint Resolve era_leaf_chain : era.
Lemma era_gen_leaf c so sl st dest d li mem s :
  era (wots_gen_leafx1_c loc c so sl st dest d li mem s) (wots_gen_leafx1_l Zops loc (cx c) so sl st dest d li mem s).
Proof.
  unfold wots_gen_leafx1_c, wots_gen_leafx1_l. destruct s as [la pa]. cbv zeta. apply era_skip with (b := li =? sl); [reflexivity|].
  destruct (li =? sl); eras.
Qed.
#[local] Hint Resolve era_gen_leaf : era.
Section TH.
Context {T : Type}.
Variable c : spx_ctx.
Variable gl : list Z -> Z -> Z -> list Z -> T -> outcome (list Z * list Z * T).
Variable gl' : list Z -> Z -> Z -> list Z -> T -> L (list Z * list Z * T).
Hypothesis GL : forall a b d e f, era (gl a b d e f) (gl' a b d e f).
Lemma era_treehash_up n : forall h idx mx io ii il ao root ro cur st ta mem,
  era (treehash_up_c loc c n h idx mx io ii il ao root ro cur st ta mem) (treehash_up_l Zops loc (cx c) n h idx mx io ii il ao root ro cur st ta mem).
Proof.
  induction n as [|n IH]; intros; cbn [treehash_up_c treehash_up_l]; (eapply era_skip; [reflexivity|]).
  - eras.
  - apply era_cmp_pre; try reflexivity; try apply era_copy; try apply era_ret; intros m. eras.
Qed.
Lemma era_treehash_loop fuel : forall idx li io th ao root ro st ta mem s,
  era (treehash_loop_c loc c gl fuel idx li io th ao root ro st ta mem s) (treehash_loop_l Zops loc (cx c) gl' fuel idx li io th ao root ro st ta mem s).
Proof.
  induction fuel as [|n IH]; intros; cbn [treehash_loop_c treehash_loop_l]; [apply era_undef|]. cbv zeta.
  apply era_bind; [apply GL|]. intros [[cur m] s']. apply era_bind; [apply era_treehash_up|].
  intros [(r & t & m2)|(h & [[cu t] m2])]; eras.
Qed.
Lemma era_treehashx1 root ro ao li io th ta mem s :
  era (treehashx1_c loc c gl root ro ao li io th ta mem s) (treehashx1_l Zops loc (cx c) gl' root ro ao li io th ta mem s).
Proof. apply era_treehash_loop. Qed.
End TH.
Lemma era_merkle_sign c mem off root ro wa ta il : era (merkle_sign_c loc locw c mem off root ro wa ta il) (merkle_sign_l Zops loc locw (cx c) mem off root ro wa ta il).
Proof.
  unfold merkle_sign_c, merkle_sign_l, zaddr. rewrite vz32. do 5 (apply era_bind; [eras|intros]).
  apply era_bind; [apply era_treehashx1; intros; apply era_gen_leaf|]. eras.
Qed.
#[local] Hint Resolve era_merkle_sign : era.
Lemma era_merkle_gen_root c root ro : era (merkle_gen_root_c loc locw c root ro) (merkle_gen_root_l Zops loc locw (cx c) root ro).
Proof. unfold merkle_gen_root_c, merkle_gen_root_l, zaddr. rewrite vz32. eras. Qed.
Lemma era_indices ind m : era (message_to_indices_c ind m) (message_to_indices_l Zops ind m).
Proof. unfold message_to_indices_c, message_to_indices_l. eras. Qed.
Lemma era_fors_leaf c leaf lo ai mem a : era (fors_gen_leafx1_c loc c leaf lo ai mem a) (fors_gen_leafx1_l Zops loc (cx c) leaf lo ai mem a).
Proof. unfold fors_gen_leafx1_c, fors_gen_leafx1_l. eras. Qed.
#[local] Hint Resolve era_merkle_gen_root era_indices era_fors_leaf : era.
Lemma era_fors_tree c root ro ao li io th ta mem s :
  era (treehashx1_c loc c (fors_gen_leafx1_c loc c) root ro ao li io th ta mem s) (treehashx1_l Zops loc (cx c) (fors_gen_leafx1_l Zops loc (cx c)) root ro ao li io th ta mem s).
Proof. apply era_treehashx1. intros. apply era_fors_leaf. Qed.
#[local] Hint Resolve era_fors_tree : era.
Lemma era_fors_sign c mem off pk m fa : era (fors_sign_c loc locw c mem off pk m fa) (fors_sign_l Zops loc locw (cx c) mem off pk m fa).
Proof. unfold fors_sign_c, fors_sign_l, zaddr. rewrite vz32. eras. Qed.
#[local] Hint Resolve era_fors_sign : era.
Lemma era_seed_keypair pk sk seed : era (seed_keypair_c loc locw pk sk seed) (seed_keypair_l Zops loc locw pk sk seed).
Proof.
  unfold seed_keypair_c, seed_keypair_l. do 4 (apply era_bind; [eras|intros]).
  apply era_bind; [apply (era_merkle_gen_root {| pub_seed := _; sk_seed := _ |})|intros]. eras.
Qed.
Lemma era_sign_layer c i s : era (sign_layer_c loc locw c i s) (sign_layer_l Zops loc locw (cx c) i s).
Proof. unfold sign_layer_c, sign_layer_l. destruct s as [[[[[[? ?] ?] ?] ?] ?] ?]. eras. Qed.
Lemma era_sign_signature rc bs mem so sl mo ml sk :
  era (sign_signature_c loc locw (fun _ => (rc, bs)) mem so sl mo ml sk) (sign_signature_l Zops loc locw rc bs mem so sl mo ml sk).
Proof.
  unfold sign_signature_c, sign_signature_l, zaddr. rewrite vz32. cbv beta iota zeta. apply era_bind; [eras|intros ss]. apply era_bind; [eras|intros ps].
  do 3 (apply era_bind; [eras|intros]). apply era_if; [eras|]. apply era_bind; [eras|intros]. apply era_bind; [eras|]. intros [[? ?] ?].
  do 2 (apply era_bind; [eras|intros]).
  apply era_bind; [apply (era_fors_sign {| pub_seed := ps; sk_seed := ss |})|]. intros [? ?].
  apply era_bind; [|intros [[[[[[? ?] ?] ?] ?] ?] ?]; eras].
  apply era_for. intros. apply (era_sign_layer {| pub_seed := ps; sk_seed := ss |}).
Qed.
End Era.
