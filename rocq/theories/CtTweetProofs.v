(** The instrumented TweetNaCl programs: their traces do not depend on data, and they compute what
    the models compute. *)
From Verif Require Import Base CtBase Tweet TweetBox TweetDH CtTweet.

(** ** Traces *)
Section CT.
Context {V : Type} (O : ops V).
Lemma ct_vn x y n x' y' : trace (vn_l O x y n) = trace (vn_l O x' y' n). Proof. unfold vn_l; ct. Qed.
#[local] Hint Resolve ct_vn : ct.
Lemma ct_v16 x y x' y' : trace (verify_16_l O x y) = trace (verify_16_l O x' y'). Proof. apply ct_vn. Qed.
Lemma ct_v32 x y x' y' : trace (verify_32_l O x y) = trace (verify_32_l O x' y'). Proof. apply ct_vn. Qed.
Lemma ct_car o o' : trace (car_l O o) = trace (car_l O o'). Proof. unfold car_l; ct. Qed.
Lemma ct_sel p q b p' q' b' : trace (sel_l O p q b) = trace (sel_l O p' q' b'). Proof. unfold sel_l; ct. Qed.
#[local] Hint Resolve ct_v16 ct_v32 ct_car ct_sel : ct.
Lemma ct_pack_pass t m t' m' : trace (pack_pass_l O t m) = trace (pack_pass_l O t' m'). Proof. unfold pack_pass_l; ct. Qed.
#[local] Hint Resolve ct_pack_pass : ct.
Lemma ct_pack25519 n n' : trace (pack25519_l O n) = trace (pack25519_l O n'). Proof. unfold pack25519_l; ct. Qed.
#[local] Hint Resolve ct_pack25519 : ct.
Lemma ct_par n n' : trace (par_l O n) = trace (par_l O n'). Proof. unfold par_l; ct. Qed.
Lemma ct_unpack n n' : trace (unpack_l O n) = trace (unpack_l O n'). Proof. unfold unpack_l; ct. Qed.
Lemma ct_A a b a' b' : trace (A_l O a b) = trace (A_l O a' b'). Proof. unfold A_l; ct. Qed.
Lemma ct_Z a b a' b' : trace (Z_l O a b) = trace (Z_l O a' b'). Proof. unfold Z_l; ct. Qed.
Lemma ct_M a b a' b' : trace (M_l O a b) = trace (M_l O a' b'). Proof. unfold M_l; ct. Qed.
Lemma ct_S a a' : trace (S_l O a) = trace (S_l O a'). Proof. apply ct_M. Qed.
#[local] Hint Resolve ct_par ct_unpack ct_A ct_Z ct_M ct_S : ct.
Lemma ct_inv a a' : trace (inv_l O a) = trace (inv_l O a'). Proof. unfold inv_l; ct. Qed.
Lemma ct_sm_clamp n n' : trace (sm_clamp_l O n) = trace (sm_clamp_l O n'). Proof. unfold sm_clamp_l; ct. Qed.
Lemma ct_sm_step x a b c d x' a' b' c' d' : trace (sm_step_l O x a b c d) = trace (sm_step_l O x' a' b' c' d').
Proof. unfold sm_step_l; ct. Qed.
#[local] Hint Resolve ct_inv ct_sm_clamp ct_sm_step : ct.
Lemma ct_x25519 n p n' p' : trace (x25519_l O n p) = trace (x25519_l O n' p'). Proof. unfold x25519_l; ct. Qed.
#[local] Hint Resolve ct_x25519 : ct.

Lemma ct_dl64 x off x' : trace (dl64_l O x off) = trace (dl64_l O x' off). Proof. unfold dl64_l; ct. Qed.
Lemma ct_ts64 x off u x' u' : trace (ts64_l O x off u) = trace (ts64_l O x' off u'). Proof. unfold ts64_l; ct. Qed.
Lemma ct_round i a w a' w' : trace (round_l O i a w) = trace (round_l O i a' w'). Proof. unfold round_l; ct. Qed.
#[local] Hint Resolve ct_dl64 ct_ts64 ct_round : ct.
Lemma ct_block m off z a m' z' a' : trace (block_l O m off z a) = trace (block_l O m' off z' a'). Proof. unfold block_l; ct. Qed.
#[local] Hint Resolve ct_block : ct.
Lemma ct_hashblocks x m off n x' m' : trace (hashblocks_l O x m off n) = trace (hashblocks_l O x' m' off n).
Proof. unfold hashblocks_l; ct. Qed.
#[local] Hint Resolve ct_hashblocks : ct.
Lemma ct_hash m off n m' : trace (hash_l O m off n) = trace (hash_l O m' off n). Proof. unfold hash_l; ct. Qed.
#[local] Hint Resolve ct_hash : ct.

Lemma ct_add p q p' q' : trace (add_l O p q) = trace (add_l O p' q'). Proof. unfold add_l; ct. Qed.
Lemma ct_cswap p q b p' q' b' : trace (cswap_l O p q b) = trace (cswap_l O p' q' b'). Proof. unfold cswap_l; ct. Qed.
Lemma ct_epack p p' : trace (epack_l O p) = trace (epack_l O p'). Proof. unfold epack_l; ct. Qed.
#[local] Hint Resolve ct_add ct_cswap ct_epack : ct.
Lemma ct_scalarmult q s q' s' : trace (scalarmult_l O q s) = trace (scalarmult_l O q' s'). Proof. unfold scalarmult_l; ct. Qed.
#[local] Hint Resolve ct_scalarmult : ct.
Lemma ct_scalarbase s s' : trace (scalarbase_l O s) = trace (scalarbase_l O s'). Proof. unfold scalarbase_l; ct. Qed.
Lemma ct_clamp s s' : trace (clamp_l O s) = trace (clamp_l O s'). Proof. unfold clamp_l; ct. Qed.
#[local] Hint Resolve ct_scalarbase ct_clamp : ct.
Lemma ct_keypair_seed s s' : trace (keypair_seed_l O s) = trace (keypair_seed_l O s'). Proof. unfold keypair_seed_l; ct. Qed.
Lemma ct_modL_pass i x x' : trace (modL_pass_l O i x) = trace (modL_pass_l O i x'). Proof. unfold modL_pass_l; ct. Qed.
#[local] Hint Resolve ct_modL_pass : ct.
Lemma ct_modL x x' : trace (modL_l O x) = trace (modL_l O x'). Proof. unfold modL_l; ct. Qed.
#[local] Hint Resolve ct_modL : ct.
Lemma ct_reduce x x' : trace (reduce_l O x) = trace (reduce_l O x'). Proof. unfold reduce_l; ct. Qed.
#[local] Hint Resolve ct_reduce : ct.
Lemma ct_sign sm m n sk sm' m' sk' : trace (sign_l O sm m n sk) = trace (sign_l O sm' m' n sk'). Proof. unfold sign_l; ct. Qed.

Context (w : Z).
Lemma ct_ld32 x o x' : trace (ld32_l O w x o) = trace (ld32_l O w x' o). Proof. unfold ld32_l; ct. Qed.
Lemma ct_st32 x o u x' u' : trace (st32_l O x o u) = trace (st32_l O x' o u'). Proof. unfold st32_l; ct. Qed.
Lemma ct_quarter x j v x' v' : trace (quarter_l O w x j v) = trace (quarter_l O w x' j v'). Proof. unfold quarter_l; ct. Qed.
#[local] Hint Resolve ct_ld32 ct_st32 ct_quarter : ct.
Lemma ct_core_round x v x' v' : trace (core_round_l O w x v) = trace (core_round_l O w x' v'). Proof. unfold core_round_l; ct. Qed.
#[local] Hint Resolve ct_core_round : ct.
Lemma ct_core i k c h i' k' c' : trace (core_l O w i k c h) = trace (core_l O w i' k' c' h). Proof. unfold core_l; ct. Qed.
#[local] Hint Resolve ct_core : ct.
Lemma ct_salsa i k c i' k' c' : trace (salsa20_l O w i k c) = trace (salsa20_l O w i' k' c'). Proof. apply ct_core. Qed.
Lemma ct_hsalsa i k c i' k' c' : trace (hsalsa20_l O w i k c) = trace (hsalsa20_l O w i' k' c'). Proof. apply ct_core. Qed.
#[local] Hint Resolve ct_salsa ct_hsalsa : ct.
Definition same_null {A} (m m' : option A) : Prop := m = None <-> m' = None.
Lemma ct_xor_into c m x off n c' m' x' : same_null m m' -> trace (xor_into_l O c m x off n) = trace (xor_into_l O c' m' x' off n).
Proof. intros [E F]. unfold xor_into_l; ct. destruct m, m'; ct; [now specialize (F eq_refl)|now specialize (E eq_refl)]. Qed.
Lemma ct_ctr z z' : trace (ctr_inc_l O w z) = trace (ctr_inc_l O w z'). Proof. unfold ctr_inc_l; ct. Qed.
#[local] Hint Resolve ct_xor_into ct_ctr : ct.
Lemma ct_salsa_xor c m b n no k c' m' n' k' : same_null m m' ->
  trace (salsa20_xor_l O w c m b n no k) = trace (salsa20_xor_l O w c' m' b n' no k').
Proof. intros E. unfold salsa20_xor_l; ct. Qed.
#[local] Hint Resolve ct_salsa_xor : ct.
Lemma same_some {A} (a b : A) : same_null (Some a) (Some b). Proof. split; discriminate. Qed.
Lemma same_none {A} : same_null (@None A) None. Proof. split; auto. Qed.
#[local] Hint Resolve same_some same_none : ct.
Lemma ct_stream c d n k c' n' k' : trace (stream_l O w c d n k) = trace (stream_l O w c' d n' k'). Proof. unfold stream_l; ct. Qed.
Lemma ct_stream_xor c m d n k c' m' n' k' : trace (stream_xor_l O w c m d n k) = trace (stream_xor_l O w c' m' d n' k').
Proof. unfold stream_xor_l; ct. Qed.
Lemma ct_add1305 h c h' c' : trace (add1305_l O w h c) = trace (add1305_l O w h' c'). Proof. unfold add1305_l; ct. Qed.
Lemma ct_and_at r i v r' : trace (and_at_l O r i v) = trace (and_at_l O r' i v). Proof. unfold and_at_l; ct. Qed.
#[local] Hint Resolve ct_stream ct_stream_xor ct_add1305 ct_and_at : ct.
Lemma ct_poly_r k k' : trace (poly_r_l O k) = trace (poly_r_l O k'). Proof. unfold poly_r_l; ct. Qed.
Lemma ct_poly_mul h r h' r' : trace (poly_mul_l O w h r) = trace (poly_mul_l O w h' r'). Proof. unfold poly_mul_l; ct. Qed.
Lemma ct_poly_carry h r h' r' : trace (poly_carry_l O w h r) = trace (poly_carry_l O w h' r'). Proof. unfold poly_carry_l; ct. Qed.
#[local] Hint Resolve ct_poly_r ct_poly_mul ct_poly_carry : ct.
Lemma ct_poly_block m off n r h m' r' h' : trace (poly_block_l O w m off n r h) = trace (poly_block_l O w m' off n r' h').
Proof. unfold poly_block_l; ct. Qed.
Lemma ct_poly_freeze h h' : trace (poly_freeze_l O w h) = trace (poly_freeze_l O w h'). Proof. unfold poly_freeze_l; ct. Qed.
#[local] Hint Resolve ct_poly_block ct_poly_freeze : ct.
Lemma ct_onetimeauth m off n k m' k' : trace (onetimeauth_l O w m off n k) = trace (onetimeauth_l O w m' off n k').
Proof. unfold onetimeauth_l; ct. Qed.
#[local] Hint Resolve ct_onetimeauth : ct.
Lemma ct_otv h ho m off n k h' m' k' : trace (onetimeauth_verify_l O w h ho m off n k) = trace (onetimeauth_verify_l O w h' ho m' off n k').
Proof. unfold onetimeauth_verify_l; ct. Qed.
Lemma ct_secretbox c m d n k c' m' n' k' : trace (secretbox_l O w c m d n k) = trace (secretbox_l O w c' m' d n' k').
Proof. unfold secretbox_l; ct. Qed.
#[local] Hint Resolve ct_otv ct_secretbox : ct.
(** Opening: the verdict is the only thing the trace reveals. *)
Lemma ct_secretbox_open m c d n k m' c' n' k' :
  fst (value (secretbox_open_l O w m c d n k)) = fst (value (secretbox_open_l O w m' c' d n' k')) ->
  trace (secretbox_open_l O w m c d n k) = trace (secretbox_open_l O w m' c' d n' k').
Proof.
  unfold secretbox_open_l. rewrite !trace_if, !value_if. destruct (d <? 32); [reflexivity|].
  rewrite !trace_bind, !value_bind. intros E. apply (f_equal (cons _)). apply f_equal2; [apply ct_stream|]. apply f_equal2; [apply ct_otv|].
  revert E. generalize (value (onetimeauth_verify_l O w c 16 c 32 (d - 32) (value (stream_l O w (vzeros O 32) 32 n k)))).
  generalize (value (onetimeauth_verify_l O w c' 16 c' 32 (d - 32) (value (stream_l O w (vzeros O 32) 32 n' k')))). intros b a.
  change (value (lbranch O a)) with (negb (reveal O a =? 0)). change (value (lbranch O b)) with (negb (reveal O b =? 0)).
  change (trace (lbranch O a)) with [EBr (negb (reveal O a =? 0))]. change (trace (lbranch O b)) with [EBr (negb (reveal O b =? 0))].
  destruct (reveal O a =? 0), (reveal O b =? 0); cbn [negb]; intros E; try discriminate E; [|reflexivity].
  apply (f_equal (app _)). ct.
Qed.
(** The two traces of an opening. *)
Definition open_trace (d : Z) (bad : bool) : list event :=
  EBr (d <? 32) :: if d <? 32 then [] else
  trace (stream_l O w (vzeros O 32) 32 [] []) ++ trace (onetimeauth_verify_l O w [] 16 [] 32 (d - 32) []) ++
  [EBr bad] ++ if bad then [] else trace (m <~ stream_xor_l O w [] [] d [] [] ;;; m <~ lfor 32 (fun i m => lwr m i (cst O 0)) m ;;; lret (0, m)).
Lemma secretbox_open_trace m c d n k :
  let r := fst (value (secretbox_open_l O w m c d n k)) in
  trace (secretbox_open_l O w m c d n k) = open_trace d (negb (r =? 0)) /\ (d < 32 -> r = -1).
Proof.
  cbv zeta. unfold secretbox_open_l, open_trace. rewrite !trace_if, !value_if. destruct (Z.ltb_spec d 32); [split; [reflexivity|intros _; reflexivity]|].
  rewrite !trace_bind, !value_bind. split; [|lia]. apply (f_equal (cons _)).
  apply f_equal2; [apply ct_stream|]. apply f_equal2; [apply ct_otv|].
  generalize (value (onetimeauth_verify_l O w c 16 c 32 (d - 32) (value (stream_l O w (vzeros O 32) 32 n k)))). intros a.
  change (value (lbranch O a)) with (negb (reveal O a =? 0)). change (trace (lbranch O a)) with [EBr (negb (reveal O a =? 0))].
  destruct (reveal O a =? 0); cbn [negb]; [|reflexivity].
  match goal with |- context [fst (value ?t) =? 0] => assert (E : fst (value t) = 0) by (rewrite !value_bind; reflexivity) end.
  rewrite E. cbn [Z.eqb negb]. apply (f_equal (app _)). rewrite !trace_bind, !trace_ret.
  apply f_equal2; [apply ct_stream_xor|]. apply f_equal2; [ct|reflexivity].
Qed.
Lemma ct_beforenm y x y' x' : trace (beforenm_l O w y x) = trace (beforenm_l O w y' x'). Proof. unfold beforenm_l; ct. Qed.
#[local] Hint Resolve ct_beforenm : ct.
Lemma ct_box c m d n y x c' m' n' y' x' : trace (box_l O w c m d n y x) = trace (box_l O w c' m' d n' y' x').
Proof. unfold box_l; ct. Qed.
Lemma ct_box_open m c d n y x m' c' n' y' x' :
  fst (value (box_open_l O w m c d n y x)) = fst (value (box_open_l O w m' c' d n' y' x')) ->
  trace (box_open_l O w m c d n y x) = trace (box_open_l O w m' c' d n' y' x').
Proof.
  unfold box_open_l. rewrite !trace_bind, !value_bind. intros E. apply f_equal2; [apply ct_beforenm|]. revert E.
  destruct (value (beforenm_l O w y x)) as [? a], (value (beforenm_l O w y' x')) as [? b]. apply ct_secretbox_open.
Qed.
End CT.

(** ** Results *)
Lemma karr_Z l : karr Zops l = l. Proof. apply map_id. Qed.
Ltac zred := rewrite ?karr_Z, ?vzeros_Z;
  cbv beta zeta delta [lptr R_l Ch_l Maj_l S0_l S1_l s0_l s1_l L32_l addw_l subw_l ldcat_l
    Rr Ch Maj Sigma0 Sigma1 sigma0 sigma1 L32 addw subw ldcat u8 u64 i64 i32 uw];
  cbn [un bi cst Zops ev1 ev2].
Lemma era_ck {B} e (k : Z -> outcome B) y : era (k e) y -> era (bind (ck e) k) y.
Proof. apply era_pure. unfold ck; intros a. destruct (_ && _); [now injection 1|discriminate]. Qed.
Lemma era_ldup_end {A} (x : outcome A) (y : L A) k : era x y -> (forall a, value (k a) = a) -> era x (lbind y k).
Proof. intros E K r H. rewrite value_bind, K. exact (E r H). Qed.
Ltac era1 :=
  match goal with
  | |- forall _, _ => intro
  | a : (_ * _)%type |- _ => destruct a
  | |- era (match ?x with (_, _) => _ end) _ => destruct x
  | |- era (bind (ck _) _) _ => apply era_ck; cbv beta
  | |- era _ (lbind (linit _ _) _) => eapply era_skip; [reflexivity|]; cbv beta; rewrite ?vzeros_Z
  | |- era _ (lbind (ldup _ _ _) _) => eapply era_skip; [reflexivity|]; cbv beta
  | |- era _ (lbind _ (fun h => ldup _ _ h)) => apply era_ldup_end; [|reflexivity]
  | |- era (Ret _) (lret _) => apply era_ret
  | |- era (rd _ _ _) (lrd _ _ _) => apply era_rd
  | |- era (wr _ _ _) (lwr _ _ _) => apply era_wr
  | |- era (copy _ _ _ _ _) (lcopy _ _ _ _ _ _) => apply era_copy
  | |- era (for_loop _ _ _) (lfor _ _ _) => apply era_for
  | |- era (for_from _ _ _ _) (lfrom _ _ _ _) => apply era_from
  | |- era (if _ then _ else _) (lif _ _ _) => apply era_if
  | |- era (bind _ _) (lbind _ _) => apply era_bind
  | |- era _ _ => solve [auto 2 with era nocore]
  | |- _ => progress cbv beta iota zeta
  end.
Ltac eras := zred; repeat era1.

Lemma era_vn x y n : era (vn x y n) (vn_l Zops x y n). Proof. unfold vn, vn_l; eras. Qed.
#[local] Hint Resolve era_vn : era.
Lemma era_v16 x y : era (crypto_verify_16 x y) (verify_16_l Zops x y). Proof. apply era_vn. Qed.
Lemma era_v32 x y : era (crypto_verify_32 x y) (verify_32_l Zops x y). Proof. apply era_vn. Qed.
Lemma era_car o : era (car25519 o) (car_l Zops o). Proof. unfold car25519, car_step, car_l; eras. Qed.
Lemma era_sel p q b : era (sel25519 p q b) (sel_l Zops p q b). Proof. unfold sel25519, sel_l; eras. Qed.
#[local] Hint Resolve era_v16 era_v32 era_car era_sel : era.
Lemma era_pack_pass t m : era (pack_pass t m) (pack_pass_l Zops t m). Proof. unfold pack_pass, pack_pass_l; eras. Qed.
#[local] Hint Resolve era_pack_pass : era.
Lemma era_pack25519 n : era (pack25519 n) (pack25519_l Zops n). Proof. unfold pack25519, pack25519_l; eras. Qed.
#[local] Hint Resolve era_pack25519 : era.

Lemma era_par n : era (par25519 n) (par_l Zops n). Proof. unfold par25519, par_l; eras. Qed.
Lemma era_unpack n : era (unpack25519 n) (unpack_l Zops n). Proof. unfold unpack25519, unpack_l; eras. Qed.
Lemma era_A a b : era (gfA a b) (A_l Zops a b). Proof. unfold gfA, A_l; eras. Qed.
Lemma era_Z a b : era (gfZ a b) (Z_l Zops a b). Proof. unfold gfZ, Z_l; eras. Qed.
Lemma era_M a b : era (gfM a b) (M_l Zops a b). Proof. unfold gfM, M_l; eras. Qed.
#[local] Hint Resolve era_par era_unpack era_A era_Z era_M : era.
Lemma era_S a : era (gfS a) (S_l Zops a). Proof. apply era_M. Qed.
#[local] Hint Resolve era_S : era.
Lemma era_inv i : era (inv25519 i) (inv_l Zops i).
Proof.
  unfold inv25519, inv_l. eapply era_skip; [reflexivity|]. cbv beta.
  apply era_ldup_end; [eras|reflexivity].
Qed.
Lemma era_sm_clamp n : era (sm_clamp n) (sm_clamp_l Zops n). Proof. unfold sm_clamp, sm_clamp_l; eras. Qed.
Lemma era_sm_step x a b c d : era (sm_step x a b c d) (sm_step_l Zops x a b c d). Proof. unfold sm_step, sm_step_l; eras. Qed.
#[local] Hint Resolve era_inv era_sm_clamp era_sm_step : era.
Lemma era_x25519 n p : era (crypto_scalarmult n p) (x25519_l Zops n p). Proof. unfold crypto_scalarmult, x25519_l; eras. Qed.
#[local] Hint Resolve era_x25519 : era.

Lemma era_dl64 x o : era (dl64 x o) (dl64_l Zops x o). Proof. unfold dl64, dl64_l; eras. Qed.
Lemma era_ts64 x o u : era (ts64 x o u) (ts64_l Zops x o u). Proof. unfold ts64, ts64_l; eras. Qed.
Lemma era_round i a w : era (sha_round i a w) (round_l Zops i a w). Proof. unfold sha_round, round_l; eras. Qed.
#[local] Hint Resolve era_dl64 era_ts64 era_round : era.
Lemma era_block m o z a : era (sha_block m o z a) (block_l Zops m o z a). Proof. unfold sha_block, block_l; eras. Qed.
#[local] Hint Resolve era_block : era.
Lemma era_hashblocks x m o n : era (crypto_hashblocks x m o n) (hashblocks_l Zops x m o n).
Proof. unfold crypto_hashblocks, hashblocks_l; eras. Qed.
#[local] Hint Resolve era_hashblocks : era.
Lemma era_hash m o n : era (crypto_hash m o n) (hash_l Zops m o n).
Proof. unfold crypto_hash, hash_l; eras. Qed.
#[local] Hint Resolve era_hash : era.
Lemma era_add p q : era (ed_add p q) (add_l Zops p q). Proof. unfold ed_add, add_l; eras. Qed.
Lemma era_cswap p q b : era (cswap p q b) (cswap_l Zops p q b). Proof. unfold cswap, cswap_l; eras. Qed.
Lemma era_epack p : era (ed_pack p) (epack_l Zops p). Proof. unfold ed_pack, epack_l; eras. Qed.
#[local] Hint Resolve era_add era_cswap era_epack : era.
Lemma era_scalarmult q s : era (scalarmult q s) (scalarmult_l Zops q s). Proof. unfold scalarmult, scalarmult_l; eras. Qed.
#[local] Hint Resolve era_scalarmult : era.
Lemma era_scalarbase s : era (scalarbase s) (scalarbase_l Zops s). Proof. unfold scalarbase, scalarbase_l; eras. Qed.
Lemma era_clamp s : era (clamp s) (clamp_l Zops s). Proof. unfold clamp, clamp_l; eras. Qed.
#[local] Hint Resolve era_scalarbase era_clamp : era.
Lemma era_keypair_seed s : era (ed_keypair_seed s) (keypair_seed_l Zops s). Proof. unfold ed_keypair_seed, keypair_seed_l; eras. Qed.
Lemma era_modL_pass i x : era (modL_pass i x) (modL_pass_l Zops i x). Proof. unfold modL_pass, modL_pass_l; eras. Qed.
#[local] Hint Resolve era_modL_pass : era.
Lemma era_modL x : era (modL x) (modL_l Zops x). Proof. unfold modL, modL_l; eras. Qed.
#[local] Hint Resolve era_modL : era.
Lemma era_reduce x : era (ed_reduce x) (reduce_l Zops x). Proof. unfold ed_reduce, reduce_l; eras. Qed.
#[local] Hint Resolve era_reduce : era.
Lemma era_sign sm m n sk : era (ed_sign sm m n sk) (sign_l Zops sm m n sk). Proof. unfold ed_sign, sign_l; eras. Qed.

Section ERA.
Context (w : Z).
Lemma era_ld32 x o : era (ld32 w x o) (ld32_l Zops w x o). Proof. unfold ld32, ld32_l; eras. Qed.
Lemma era_st32 x o u : era (st32 x o u) (st32_l Zops x o u). Proof. unfold st32, st32_l; eras. Qed.
Lemma era_quarter x j v : era (core_quarter w x j v) (quarter_l Zops w x j v). Proof. unfold core_quarter, quarter_l; eras. Qed.
#[local] Hint Resolve era_ld32 era_st32 era_quarter : era.
Lemma era_core_round x v : era (core_round w x v) (core_round_l Zops w x v). Proof. unfold core_round, core_round_l; eras. Qed.
#[local] Hint Resolve era_core_round : era.
Lemma era_core i k c h : era (core w i k c h) (core_l Zops w i k c h). Proof. unfold core, core_init, core_l; eras. Qed.
#[local] Hint Resolve era_core : era.
Lemma era_salsa i k c : era (crypto_core_salsa20 w i k c) (salsa20_l Zops w i k c). Proof. apply era_core. Qed.
Lemma era_hsalsa i k c : era (crypto_core_hsalsa20 w i k c) (hsalsa20_l Zops w i k c). Proof. apply era_core. Qed.
#[local] Hint Resolve era_salsa era_hsalsa : era.
Lemma era_xor_into c m x o n : era (xor_into c m x o n) (xor_into_l Zops c m x o n).
Proof. unfold xor_into, xor_into_l; destruct m; eras; intros r H; [exact (era_rd _ _ r H)|now injection H as <-]. Qed.
Lemma era_ctr z : era (ctr_inc w z) (ctr_inc_l Zops w z). Proof. unfold ctr_inc, ctr_inc_l; eras. Qed.
#[local] Hint Resolve era_xor_into era_ctr : era.
Lemma era_salsa_xor c m b n no k : era (crypto_stream_salsa20_xor w c m b n no k) (salsa20_xor_l Zops w c m b n no k).
Proof. unfold crypto_stream_salsa20_xor, salsa20_xor_l; eras. Qed.
#[local] Hint Resolve era_salsa_xor : era.
Lemma era_stream c d n k : era (crypto_stream w c d n k) (stream_l Zops w c d n k).
Proof. unfold crypto_stream, crypto_stream_salsa20, stream_l; eras. Qed.
Lemma era_stream_xor c m d n k : era (crypto_stream_xor w c m d n k) (stream_xor_l Zops w c m d n k).
Proof. unfold crypto_stream_xor, stream_xor_l; eras. Qed.
Lemma era_add1305 h c : era (add1305 w h c) (add1305_l Zops w h c). Proof. unfold add1305, add1305_l; eras. Qed.
Lemma era_and_at r i v : era (and_at r i v) (and_at_l Zops r i v). Proof. unfold and_at, and_at_l; eras. Qed.
#[local] Hint Resolve era_stream era_stream_xor era_add1305 era_and_at : era.
Lemma era_poly_r k : era (poly_r k) (poly_r_l Zops k). Proof. unfold poly_r, poly_r_l; eras. Qed.
Lemma era_poly_mul h r : era (poly_mul w h r) (poly_mul_l Zops w h r). Proof. unfold poly_mul, poly_mul_l; eras. Qed.
Lemma era_poly_carry h u : era (poly_carry w h u) (poly_carry_l Zops w h u). Proof. unfold poly_carry, poly_carry_l; eras. Qed.
#[local] Hint Resolve era_poly_r era_poly_mul era_poly_carry : era.
Lemma era_poly_block m o n r h : era (poly_block w m o n r h) (poly_block_l Zops w m o n r h).
Proof. unfold poly_block, poly_block_l; eras. Qed.
Lemma era_poly_freeze h : era (poly_freeze w h) (poly_freeze_l Zops w h). Proof. unfold poly_freeze, poly_freeze_l; eras. Qed.
#[local] Hint Resolve era_poly_block era_poly_freeze : era.
Lemma era_onetimeauth m o n k : era (crypto_onetimeauth w m o n k) (onetimeauth_l Zops w m o n k).
Proof. unfold crypto_onetimeauth, onetimeauth_l; eras. Qed.
#[local] Hint Resolve era_onetimeauth : era.
Lemma era_otv h ho m o n k : era (crypto_onetimeauth_verify w h ho m o n k) (onetimeauth_verify_l Zops w h ho m o n k).
Proof.
  unfold crypto_onetimeauth_verify, onetimeauth_verify_l. zred. apply era_bind; [auto with era|]. intros x.
  apply era_pure with (v := slice h ho 16); [|apply era_v16].
  unfold rdrange. cbn [Z.leb Z.compare]. intros a. destruct (_ && _); [now injection 1|discriminate].
Qed.
#[local] Hint Resolve era_otv : era.
Lemma era_secretbox c m d n k : era (crypto_secretbox w c m d n k) (secretbox_l Zops w c m d n k).
Proof. unfold crypto_secretbox, secretbox_l; eras. Qed.
Lemma era_secretbox_open m c d n k : era (crypto_secretbox_open w m c d n k) (secretbox_open_l Zops w m c d n k).
Proof.
  unfold crypto_secretbox_open, secretbox_open_l. zred. apply era_if; [apply era_ret|].
  apply era_bind; [auto with era|intros x]. apply era_bind; [auto with era|intros v].
  apply era_branch; [reflexivity|intros _; apply era_ret|intros _]. eras.
Qed.
#[local] Hint Resolve era_secretbox era_secretbox_open : era.
Lemma era_beforenm y x : era (crypto_box_beforenm w y x) (beforenm_l Zops w y x).
Proof. unfold crypto_box_beforenm, beforenm_l; eras. Qed.
#[local] Hint Resolve era_beforenm : era.
Lemma era_box c m d n y x : era (crypto_box w c m d n y x) (box_l Zops w c m d n y x).
Proof. unfold crypto_box, crypto_box_afternm, box_l; eras. Qed.
Lemma era_box_open m c d n y x : era (crypto_box_open w m c d n y x) (box_open_l Zops w m c d n y x).
Proof. unfold crypto_box_open, crypto_box_open_afternm, box_open_l; eras. Qed.
End ERA.
