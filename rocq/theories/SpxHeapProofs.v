(** The programs of SpxHeap.v compute what those of SpxBuf.v compute and release every context. *)
From Verif Require Import Base Sponge Spx DilBuf SpxBuf Heap HeapProofs SpxHeap.
Local Open Scope Z_scope.
Ltac Zify.zify_post_hook ::= idtac.

Lemma sbal_o {A B} (o : outcome A) (k : A -> M B) f : (forall a, bal (k a) (some (f a))) -> bal (mbind (lift o) k) (some (bind o f)).
Proof. intros H. unfold some. rewrite bind_assoc. apply bal_o. intros a _. apply H. Qed.
Lemma sbal_call {A B} (m : M A) o (k : A -> M B) f : bal m (some o) -> (forall a, bal (k a) (some (f a))) -> bal (mbind m k) (some (bind o f)).
Proof. intros Hm H. unfold some at 1. rewrite bind_assoc. apply bal_call; [exact Hm|]. intros a _. apply H. Qed.
Lemma sbal_ret {A} (a : A) : bal (mret a) (some (Ret a)).
Proof. apply bal_ret. Qed.
Lemma sbal_for {S} n (f : Z -> S -> M S) g s : (forall i s, bal (f i s) (some (g i s))) -> bal (mfor n f s) (some (for_loop n g s)).
Proof.
  intros H. unfold mfor, for_loop. generalize 0. revert s. induction (Z.to_nat n) as [|k IH]; intros s i; cbn [mfor_from for_from]; [apply sbal_ret|].
  apply sbal_call; [apply H|]. intros s'. apply IH.
Qed.

Section Buf.
Variables loc locw : Z -> list Z.
Create HintDb sbal.
Ltac dpair x := try (destruct x as [x ?]; dpair x).
Ltac sstep := cbv beta iota zeta; lazymatch goal with
  | |- bal (mret _) _ => apply sbal_ret
  | |- bal (lift _) _ => apply bal_lift
  | |- bal (mbind (lift _) _) _ => apply sbal_o; let v := fresh "v" in intros v; dpair v
  | |- bal (mbind _ _) _ => apply sbal_call; [|let v := fresh "v" in intros v; dpair v]
  | |- bal (mfor _ _ _) _ => apply sbal_for; let i := fresh "i" in let s := fresh "s" in intros i s; dpair s
  | |- bal (if ?b then _ else _) _ => destruct b
  | |- bal (let '(_, _) := ?r in _) _ => destruct r
  | |- bal (shake256_at_h _ _ _ _ _ _) _ => apply shake256_at_h_bal
  | |- bal (shake256_pieces_h _ _ _ _) _ => apply shake256_pieces_h_bal
  | |- _ => solve [auto with sbal]
  end.
Lemma thash_bal ctx out ooff inp ioff nb addr : bal (thash_hp loc ctx out ooff inp ioff nb addr) (some (thash_c loc ctx out ooff inp ioff nb addr)).
Proof. unfold thash_hp, thash_c. repeat sstep. Qed.
Hint Resolve thash_bal : sbal.
Lemma prf_bal ctx out ooff addr : bal (prf_addr_hp loc ctx out ooff addr) (some (prf_addr_c loc ctx out ooff addr)).
Proof. unfold prf_addr_hp, prf_addr_c. repeat sstep. Qed.
Hint Resolve prf_bal : sbal.
Lemma gmr_bal mem roff sk skoff optrand mo mlen : bal (gen_message_random_hp mem roff sk skoff optrand mo mlen) (some (gen_message_random_c mem roff sk skoff optrand mo mlen)).
Proof. unfold gen_message_random_hp, gen_message_random_c. repeat sstep. Qed.
Hint Resolve gmr_bal : sbal.
Lemma hm_bal d mem roff pk pkoff mo mlen : bal (hash_message_hp loc d mem roff pk pkoff mo mlen) (some (hash_message_c loc d mem roff pk pkoff mo mlen)).
Proof. unfold hash_message_hp, hash_message_c. repeat sstep. Qed.
Hint Resolve hm_bal : sbal.
Lemma gcl_bal ctx fuel : forall i stop out ooff addr, bal (gen_chain_loop_hp loc ctx fuel i stop out ooff addr) (some (gen_chain_loop_c loc ctx fuel i stop out ooff addr)).
Proof. induction fuel as [|fuel IH]; intros i stop out ooff addr; cbn [gen_chain_loop_hp gen_chain_loop_c]; repeat sstep. Qed.
Hint Resolve gcl_bal : sbal.
Lemma gc_bal ctx out ooff inp ioff start steps addr : bal (gen_chain_hp loc ctx out ooff inp ioff start steps addr) (some (gen_chain_c loc ctx out ooff inp ioff start steps addr)).
Proof. unfold gen_chain_hp, gen_chain_c. repeat sstep. Qed.
Hint Resolve gc_bal : sbal.
Lemma wpk_bal ctx pk mem off msg addr : bal (wots_pk_from_sig_hp loc locw ctx pk mem off msg addr) (some (wots_pk_from_sig_c loc locw ctx pk mem off msg addr)).
Proof. unfold wots_pk_from_sig_hp, wots_pk_from_sig_c. repeat sstep. Qed.
Hint Resolve wpk_bal : sbal.
Lemma lc_bal ctx n : forall k wk doff mem pb boff la, bal (leaf_chain_hp loc ctx n k wk doff mem pb boff la) (some (leaf_chain_c loc ctx n k wk doff mem pb boff la)).
Proof. induction n as [|n IH]; intros; cbn [leaf_chain_hp leaf_chain_c]; repeat sstep. Qed.
Hint Resolve lc_bal : sbal.
Lemma wgl_bal ctx sigoff sl steps dest doff li mem st : bal (wots_gen_leafx1_hp loc ctx sigoff sl steps dest doff li mem st) (some (wots_gen_leafx1_c loc ctx sigoff sl steps dest doff li mem st)).
Proof. unfold wots_gen_leafx1_hp, wots_gen_leafx1_c. destruct st. repeat sstep. Qed.
Hint Resolve wgl_bal : sbal.
Section TH.
Context {T : Type}.
Variable ctx : spx_ctx.
Variable g : list Z -> Z -> Z -> list Z -> T -> M (list Z * list Z * T).
Variable g' : list Z -> Z -> Z -> list Z -> T -> outcome (list Z * list Z * T).
Hypothesis Hg : forall a b c d e, bal (g a b c d e) (some (g' a b c d e)).
Lemma up_bal n : forall h idx mx io ii il ao root roff cur st ta mem, bal (treehash_up_hp loc ctx n h idx mx io ii il ao root roff cur st ta mem) (some (treehash_up_c loc ctx n h idx mx io ii il ao root roff cur st ta mem)).
Proof. induction n as [|n IH]; intros; cbn [treehash_up_hp treehash_up_c]; repeat sstep. Qed.
Hint Resolve up_bal : sbal.
Lemma tl_bal fuel : forall idx li io th ao root roff st ta mem s, bal (treehash_loop_hp loc ctx g fuel idx li io th ao root roff st ta mem s) (some (treehash_loop_c loc ctx g' fuel idx li io th ao root roff st ta mem s)).
Proof.
  induction fuel as [|fuel IH]; intros; cbn [treehash_loop_hp treehash_loop_c]; [apply bal_lift|]. cbv zeta.
  apply sbal_call; [apply Hg|]. intros [[cur mm] s']. cbv beta iota. apply sbal_call; [apply up_bal|].
  intros [[r1 [r2 r3]]|[h [[c2 t2] m2]]]; cbv beta iota; [apply sbal_ret|]. apply sbal_o. intros stk. apply IH.
Qed.
Lemma th_bal root roff ao li io th ta mem s : bal (treehashx1_hp loc ctx g root roff ao li io th ta mem s) (some (treehashx1_c loc ctx g' root roff ao li io th ta mem s)).
Proof. apply tl_bal. Qed.
End TH.
Lemma cr_bal ctx root roff leaf li io mem off th addr : bal (compute_root_hp loc ctx root roff leaf li io mem off th addr) (some (compute_root_c loc ctx root roff leaf li io mem off th addr)).
Proof. unfold compute_root_hp, compute_root_c. repeat sstep. Qed.
Hint Resolve cr_bal : sbal.
Lemma ms_bal ctx mem off root roff wa ta il : bal (merkle_sign_hp loc locw ctx mem off root roff wa ta il) (some (merkle_sign_c loc locw ctx mem off root roff wa ta il)).
Proof. unfold merkle_sign_hp, merkle_sign_c. do 5 sstep. apply sbal_call; [apply th_bal; intros; apply wgl_bal|]. intros r. dpair r. sstep. Qed.
Hint Resolve ms_bal : sbal.
Lemma mgr_bal ctx root roff : bal (merkle_gen_root_hp loc locw ctx root roff) (some (merkle_gen_root_c loc locw ctx root roff)).
Proof. unfold merkle_gen_root_hp, merkle_gen_root_c. repeat sstep. Qed.
Hint Resolve mgr_bal : sbal.
Lemma fgl_bal ctx leaf loff ai mem fa : bal (fors_gen_leafx1_hp loc ctx leaf loff ai mem fa) (some (fors_gen_leafx1_c loc ctx leaf loff ai mem fa)).
Proof. unfold fors_gen_leafx1_hp, fors_gen_leafx1_c. repeat sstep. Qed.
Hint Resolve fgl_bal : sbal.
Lemma fth_bal ctx root roff ao li io th ta mem s : bal (treehashx1_hp loc ctx (fors_gen_leafx1_hp loc ctx) root roff ao li io th ta mem s) (some (treehashx1_c loc ctx (fors_gen_leafx1_c loc ctx) root roff ao li io th ta mem s)).
Proof. apply th_bal. intros. apply fgl_bal. Qed.
Hint Resolve fth_bal : sbal.
Lemma fs_bal ctx mem off pk m fa : bal (fors_sign_hp loc locw ctx mem off pk m fa) (some (fors_sign_c loc locw ctx mem off pk m fa)).
Proof. unfold fors_sign_hp, fors_sign_c. repeat sstep. Qed.
Hint Resolve fs_bal : sbal.
Lemma fp_bal ctx pk mem off m fa : bal (fors_pk_from_sig_hp loc locw ctx pk mem off m fa) (some (fors_pk_from_sig_c loc locw ctx pk mem off m fa)).
Proof. unfold fors_pk_from_sig_hp, fors_pk_from_sig_c. repeat sstep. Qed.
Hint Resolve fp_bal : sbal.
Lemma spx_keygen_bal pk sk seed : bal (seed_keypair_hp loc locw pk sk seed) (some (seed_keypair_c loc locw pk sk seed)).
Proof. unfold seed_keypair_hp, seed_keypair_c. repeat sstep. Qed.
Hint Resolve spx_keygen_bal : sbal.
Lemma spx_keypair_bal rb pk sk : bal (keypair_hp loc locw rb pk sk) (some (keypair_c loc locw rb pk sk)).
Proof. unfold keypair_hp, keypair_c. destruct (rb 96). repeat sstep. Qed.
Lemma sl_bal ctx i s : bal (sign_layer_hp loc locw ctx i s) (some (sign_layer_c loc locw ctx i s)).
Proof. unfold sign_layer_hp, sign_layer_c. dpair s. repeat sstep. Qed.
Hint Resolve sl_bal : sbal.
Lemma spx_sign_bal rb mem so sl mo mlen sk : bal (sign_signature_hp loc locw rb mem so sl mo mlen sk) (some (sign_signature_c loc locw rb mem so sl mo mlen sk)).
Proof. unfold sign_signature_hp, sign_signature_c. do 4 sstep. destruct (rb 32). repeat sstep. Qed.
Hint Resolve spx_sign_bal : sbal.
Lemma spx_crypto_sign_bal rb mem so sl mo mlen sk : bal (crypto_sign_hp loc locw rb mem so sl mo mlen sk) (some (crypto_sign_c loc locw rb mem so sl mo mlen sk)).
Proof. unfold crypto_sign_hp, crypto_sign_c. repeat sstep. Qed.
Lemma vl_bal ctx mem i s : bal (verify_layer_hp loc locw ctx mem i s) (some (verify_layer_c loc locw ctx mem i s)).
Proof. unfold verify_layer_hp, verify_layer_c. dpair s. repeat sstep. Qed.
Hint Resolve vl_bal : sbal.
Lemma spx_verify_bal mem so sl mo mlen pk : bal (sign_verify_hp loc locw mem so sl mo mlen pk) (some (sign_verify_c loc locw mem so sl mo mlen pk)).
Proof. unfold sign_verify_hp, sign_verify_c. repeat sstep. Qed.
Hint Resolve spx_verify_bal : sbal.
Lemma spx_open_bal mem so sl mo pk : bal (crypto_sign_open_hp loc locw mem so sl mo pk) (some (crypto_sign_open_c loc locw mem so sl mo pk)).
Proof. unfold crypto_sign_open_hp, crypto_sign_open_c. repeat sstep. Qed.
End Buf.
