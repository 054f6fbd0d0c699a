(** The instrumented lattice programs of CtDil.v compute what the models compute. *)
From Verif Require Import Base Keccak Sponge SpongePure DilReduce Tab DilNtt DilPoly DilVec DilSign DilBuf DilBufProofs CtBase CtTweet CtKeccak CtKeccakProofs CtSpx CtSpxProofs CtDil.
Ltac Zify.zify_post_hook ::= idtac.
#[local] Opaque KeccakF1600_StatePermute.

(** ** Arithmetic *)
Lemma ck32_v x r : ck32 x = Ret r -> r = x. Proof. unfold ck32. destruct (_ && _); [intros H; now injection H|discriminate]. Qed.
Lemma ck64_v x r : ck64 x = Ret r -> r = x. Proof. unfold ck64. destruct (_ && _); [intros H; now injection H|discriminate]. Qed.
Lemma shl32_v a n r : shl32 a n = Ret r -> r = Z.shiftl a n. Proof. unfold shl32. destruct (_ <=? _); [apply ck32_v|discriminate]. Qed.
Lemma ret_inj {A} (a b : A) : Ret a = Ret b -> a = b. Proof. intros H. now injection H. Qed.
Lemma b_ck32 {A} x (k : Z -> outcome A) r : bind (ck32 x) k = Ret r -> k x = Ret r.
Proof. destruct (ck32 x) as [y|] eqn:E; [apply ck32_v in E as ->; auto|discriminate]. Qed.
Lemma b_ck64 {A} x (k : Z -> outcome A) r : bind (ck64 x) k = Ret r -> k x = Ret r.
Proof. destruct (ck64 x) as [y|] eqn:E; [apply ck64_v in E as ->; auto|discriminate]. Qed.
Lemma b_shl32 {A} x n (k : Z -> outcome A) r : bind (shl32 x n) k = Ret r -> k (Z.shiftl x n) = Ret r.
Proof. destruct (shl32 x n) as [y|] eqn:E; [apply shl32_v in E as ->; auto|discriminate]. Qed.
Ltac inv_ck := repeat (match goal with
  | H : bind (ck32 _) _ = Ret _ |- _ => apply b_ck32 in H; cbv beta in H
  | H : bind (ck64 _) _ = Ret _ |- _ => apply b_ck64 in H; cbv beta in H
  | H : bind (shl32 _ _) _ = Ret _ |- _ => apply b_shl32 in H; cbv beta in H
  | H : ck32 _ = Ret _ |- _ => apply ck32_v in H
  | H : Ret _ = Ret _ |- _ => apply ret_inj in H
  end).
Lemma i32_swrap x : un Zops (SWrap 32) x = i32 x. Proof. reflexivity. Qed.
Lemma mont_v a r : montgomery_reduce a = Ret r -> mont_l Zops a = r.
Proof. unfold montgomery_reduce. cbv zeta. intros H. inv_ck. now subst r. Qed.
Lemma reduce32_v a r : reduce32 a = Ret r -> reduce32_l Zops a = r.
Proof. unfold reduce32. cbv zeta. intros H. inv_ck. now subst r. Qed.
Lemma caddq_v a r : caddq a = Ret r -> caddq_l Zops a = r.
Proof. unfold caddq. intros H. inv_ck. now subst r. Qed.
Lemma power2round_v a r : power2round a = Ret r -> power2round_l Zops a = r.
Proof. unfold power2round. cbv zeta. intros H. inv_ck. now subst r. Qed.
Lemma decompose_v a r : decompose a = Ret r -> decompose_l Zops a = r.
Proof. unfold decompose. cbv zeta. intros H. inv_ck. now subst r. Qed.
Lemma make_hint_v x y : value (make_hint_l Zops x y) = make_hint x y.
Proof.
  unfold make_hint_l, make_hint, lless, lcmp. rewrite value_bind. unfold value at 2; cbn [snd reveal cst Zops].
  destruct (GAMMA2 <? x); [reflexivity|]. rewrite value_bind. unfold value at 2; cbn [snd reveal cst Zops].
  destruct (x <? - GAMMA2); [reflexivity|]. rewrite value_bind. unfold value at 2; cbn [snd reveal cst Zops].
  destruct (x =? - GAMMA2); [|reflexivity]. cbn [negb orb andb]. rewrite value_bind. unfold value at 2; cbn [snd reveal cst Zops].
  destruct (y =? 0); reflexivity.
Qed.

(** ** Loops *)
Lemma mapM_v {A B} (f : A -> outcome B) g : (forall x y, f x = Ret y -> g x = y) -> forall l r, mapM f l = Ret r -> map g l = r.
Proof.
  intros F. induction l as [|x l IH]; intros r H; cbn [mapM map] in *; [now injection H|].
  destruct (f x) as [y|] eqn:E; [|discriminate H]. cbn [bind] in H. destruct (mapM f l) as [t|]; [|discriminate H]. cbn [bind] in H. injection H as <-.
  rewrite (F _ _ E), (IH t eq_refl). reflexivity.
Qed.
Lemma map2M_v {A B C} (f : A -> B -> outcome C) g : (forall x y z, f x y = Ret z -> g x y = z) -> forall l m r, map2M f l m = Ret r -> map2 g l m = r.
Proof.
  intros F. induction l as [|x l IH]; intros [|y m] r H; cbn [map2M map2] in *; try discriminate H; [now injection H|].
  destruct (f x y) as [z|] eqn:E; [|discriminate H]. cbn [bind] in H. destruct (map2M f l m) as [t|] eqn:E2; [|discriminate H]. cbn [bind] in H. injection H as <-.
  rewrite (F _ _ _ E), (IH m t E2). reflexivity.
Qed.
Lemma era_lmap {B} (f : Z -> outcome B) g l : (forall x y, f x = Ret y -> g x = y) -> era (mapM f l) (lmap g l).
Proof. intros F r H. exact (mapM_v f g F l r H). Qed.
Lemma era_lmap2 {B} (f : Z -> Z -> outcome B) g l m : (forall x y z, f x y = Ret z -> g x y = z) -> era (map2M f l m) (lmap2 g l m).
Proof. intros F r H. exact (map2M_v f g F l m r H). Qed.
Lemma era_lvec {A B} (d : A) (f : A -> outcome B) g l : (forall x, era (f x) (g x)) -> era (mapM f l) (lvec d g l).
Proof. intros F r H. refine (mapM_v f (fun p => value (g p)) _ l r H). intros x y E. now apply F. Qed.
Lemma era_lvec_in {A B} (d : A) (f : A -> outcome B) g l : (forall x, In x l -> era (f x) (g x)) -> era (mapM f l) (lvec d g l).
Proof.
  intros F r H. unfold lvec, value; cbn [snd]. revert r H. induction l as [|x l IH]; intros r H; cbn [mapM map] in *; [now injection H|].
  destruct (f x) as [y|] eqn:E; [|discriminate H]. cbn [bind] in H. destruct (mapM f l) as [t|]; [|discriminate H]. cbn [bind] in H. injection H as <-.
  rewrite (IH ltac:(intros; apply F; now right) t eq_refl). f_equal. apply F; [now left|exact E].
Qed.
Lemma era_lvec2 {B} (f : list Z -> list Z -> outcome B) g l m : (forall x y, era (f x y) (g x y)) -> era (map2M f l m) (lvec2 g l m).
Proof. intros F r H. refine (map2M_v f (fun p q => value (g p q)) _ l m r H). intros x y z E. now apply F. Qed.

(** What [lmap], [lmap2], [lvec] abbreviate. *)
Lemma upd_next {A} (l : list A) x r v : upd (l ++ x :: r) (length l) v = l ++ v :: r.
Proof. induction l as [|y l IH]; cbn [app length upd]; [reflexivity|]. now rewrite IH. Qed.
Section Loops.
Context {V : Type} (O : ops V).
Lemma map_loop (f : V -> V) : forall (b a pre : list V) n i, length b = n -> i = zlen pre ->
  lfrom n i (fun i a => x <~ lrd O a i ;;; lwr a i (f x)) (pre ++ b) =
  (trace (lfrom n i (fun i u => ([ERd i; EWr i], u)) tt), pre ++ map f b).
Proof.
  set (F := fun i a => x <~ lrd O a i ;;; lwr a i (f x)).
  assert (ST : forall pre x b, F (zlen pre) (pre ++ x :: b) = ([ERd (zlen pre); EWr (zlen pre)], (pre ++ [f x]) ++ b)).
  { intros pre x b. unfold F, lbind, lrd, lwr. cbn [trace value fst snd app]. replace (Z.to_nat (zlen pre)) with (length pre) by (unfold zlen; lia).
    rewrite app_nth2, Nat.sub_diag by lia. cbn [nth]. rewrite upd_next, <- app_assoc. reflexivity. }
  clearbody F. induction b as [|x b IH]; intros a pre n i Hn Hi; subst n i; cbn [length lfrom map]; [reflexivity|].
  cbv zeta. rewrite ST. cbn [trace value fst snd].
  rewrite (IH a) by (reflexivity || (unfold zlen; rewrite app_length; cbn [length]; lia)). cbn [trace value fst snd]. rewrite <- app_assoc. reflexivity.
Qed.
(** the loop [for (i = 0; i < 256; ++i) a[i] = f(a[i])] *)
Lemma lmap_is_loop (f : V -> V) (a : list V) : length a = 256%nat ->
  lfor 256 (fun i a => x <~ lrd O a i ;;; lwr a i (f x)) a = lmap f a.
Proof. intros H. exact (map_loop f a a [] 256 0 H eq_refl). Qed.
(** the loop over four components *)
Lemma lvec_is_loop {A B} (d : A) (f : A -> L B) v : length v = 4%nat ->
  lfor 4 (fun i r => q <~ f (nth (Z.to_nat i) v d) ;;; lret (r ++ [q])) [] = lvec d f v.
Proof.
  intros H. destruct v as [|a [|b [|c [|e [|? ?]]]]]; try discriminate H.
  unfold lvec, steps, lfor. change (Z.to_nat 4) with 4%nat. cbn [lfrom]. cbv zeta. unfold lbind, lret. cbn [trace value fst snd map app].
  rewrite !app_nil_r. reflexivity.
Qed.
End Loops.

(** ** NTT *)
Lemma era_ck32 {A} x (k : Z -> outcome A) y : era (k x) y -> era (bind (ck32 x) k) y.
Proof. apply era_pure. apply ck32_v. Qed.
Lemma era_ck64 {A} x (k : Z -> outcome A) y : era (k x) y -> era (bind (ck64 x) k) y.
Proof. apply era_pure. apply ck64_v. Qed.
Lemma era_mont {A} x (k : Z -> outcome A) y : era (k (mont_l Zops x)) y -> era (bind (montgomery_reduce x) k) y.
Proof. apply era_pure. intros a E. symmetry. now apply mont_v. Qed.
Ltac ds := match goal with
  | |- forall _, _ => intro
  | a : (_ * _)%type |- _ => destruct a
  | |- era (bind (ck32 _) _) _ => apply era_ck32
  | |- era (bind (ck64 _) _) _ => apply era_ck64
  | |- era (bind (montgomery_reduce _) _) _ => apply era_mont
  | |- era (Ret _) (lret _) => apply era_ret
  | |- era (for_loop _ _ _) (lfor _ _ _) => apply era_for
  | |- era (rd _ _ _) _ => apply era_rd
  | |- era (wr _ _ _) _ => apply era_wr
  | |- era (bind _ _) (lbind _ _) => apply era_bind
  | |- era _ _ => solve [auto 2 with era nocore]
  end.
Lemma era_butterfly z len j a : era (butterfly z len j a) (butterfly_l Zops z len j a).
Proof. unfold butterfly, butterfly_l. cbv zeta. repeat ds. Qed.
Lemma era_inv_butterfly z len j a : era (inv_butterfly z len j a) (inv_butterfly_l Zops z len j a).
Proof. unfold inv_butterfly, inv_butterfly_l. repeat ds. Qed.
#[local] Hint Resolve era_butterfly era_inv_butterfly : era.
Lemma era_ntt_layer len st : era (ntt_layer len st) (ntt_layer_l Zops len st).
Proof. unfold ntt_layer, ntt_layer_l. rewrite karr_Z. cbv zeta. repeat ds. Qed.
Lemma era_invntt_layer len st : era (invntt_layer len st) (invntt_layer_l Zops len st).
Proof. unfold invntt_layer, invntt_layer_l. rewrite karr_Z. cbv zeta. repeat ds. Qed.
#[local] Hint Resolve era_ntt_layer era_invntt_layer : era.
Lemma era_ntt a : era (poly_ntt a) (poly_ntt_l Zops a).
Proof. unfold poly_ntt, ntt, poly_ntt_l. do 8 (apply era_bind; [apply era_ntt_layer|intros]). apply era_ret. Qed.
Lemma era_invntt a : era (poly_invntt_tomont a) (poly_invntt_l Zops a).
Proof. unfold poly_invntt_tomont, invntt_tomont, poly_invntt_l. do 8 (apply era_bind; [apply era_invntt_layer|intros]). repeat ds. Qed.

(** ** Polynomials and vectors *)
Lemma era_reduce a : era (poly_reduce a) (poly_reduce_l Zops a). Proof. apply era_lmap, reduce32_v. Qed.
Lemma era_caddq a : era (poly_caddq a) (poly_caddq_l Zops a). Proof. apply era_lmap, caddq_v. Qed.
Lemma era_add a b : era (poly_add a b) (poly_add_l Zops a b). Proof. apply era_lmap2. intros x y z E. now apply ck32_v in E. Qed.
Lemma era_sub a b : era (poly_sub a b) (poly_sub_l Zops a b). Proof. apply era_lmap2. intros x y z E. now apply ck32_v in E. Qed.
Lemma era_pointwise a b : era (poly_pointwise_montgomery a b) (poly_pointwise_l Zops a b).
Proof. apply era_lmap2. intros x y z E. apply b_ck64 in E. now apply mont_v. Qed.
Lemma era_power2round a : era (poly_power2round a) (poly_power2round_l Zops a).
Proof. unfold poly_power2round, poly_power2round_l. apply era_bind; [apply era_lmap, power2round_v|intros; apply era_ret]. Qed.
Lemma era_decompose a : era (poly_decompose a) (poly_decompose_l Zops a).
Proof. unfold poly_decompose, poly_decompose_l. apply era_bind; [apply era_lmap, decompose_v|intros; apply era_ret]. Qed.
Lemma make_hints_v : forall a0 a1 i r, map2M (fun x y => Ret (make_hint x y)) a0 a1 = Ret r -> value (make_hints_l Zops i a0 a1) = r.
Proof.
  induction a0 as [|x a0 IH]; intros [|y a1] i r H; cbn [map2M make_hints_l] in *; try discriminate H; [now apply ret_inj in H|].
  cbn [bind] in H. destruct (map2M _ a0 a1) as [t|] eqn:E; [|discriminate H]. cbn [bind] in H. apply ret_inj in H. subst r.
  rewrite !value_bind, make_hint_v, (IH _ _ _ E). reflexivity.
Qed.
Lemma era_make_hint a b : era (poly_make_hint a b) (poly_make_hint_l Zops a b).
Proof. unfold poly_make_hint, poly_make_hint_l. apply era_bind; [|intros h; apply era_ret]. intros r H. now apply make_hints_v. Qed.
Lemma lgeq_v x y : value (lgeq Zops x y) = (y <=? x). Proof. reflexivity. Qed.
Lemma lless_v x y : value (lless Zops x y) = (x <? y). Proof. reflexivity. Qed.
Lemma lcmp_v x y : value (lcmp Zops x y) = (x =? y). Proof. reflexivity. Qed.
Lemma chknorm_v B : forall a i r, chknorm_loop a B = Ret r -> value (chknorm_l Zops i a B) = negb (r =? 0).
Proof.
  induction a as [|x a IH]; intros i r H; cbn [chknorm_loop chknorm_l] in *; [now apply ret_inj in H as <-|].
  cbv zeta in *. apply b_ck32, b_ck32 in H. rewrite !value_bind, lgeq_v. cbn [cst bi un Zops ev1 ev2].
  destruct (B <=? _); [now apply ret_inj in H as <-|]. now apply IH.
Qed.
Lemma poly_chknorm_v a B r : poly_chknorm a B = Ret r -> value (poly_chknorm_l Zops a B) = negb (r =? 0).
Proof. unfold poly_chknorm, poly_chknorm_l. rewrite value_if. destruct (_ <? _); [intros H; now apply ret_inj in H as <-|apply chknorm_v]. Qed.
Lemma vec_chknorm_v B : forall v r, vec_chknorm v B = Ret r -> value (vec_chknorm_l Zops v B) = negb (r =? 0).
Proof.
  induction v as [|p v IH]; intros r H; cbn [vec_chknorm vec_chknorm_l] in *; [now apply ret_inj in H as <-|].
  destruct (poly_chknorm p B) as [s|] eqn:E; [|discriminate H]. cbn [bind] in H. rewrite !value_bind, value_if, (poly_chknorm_v _ _ _ E).
  destruct (s =? 0); cbn [negb] in *; [now apply IH|now apply ret_inj in H as <-].
Qed.
Lemma era_vreduce v : era (vec_reduce v) (vec_reduce_l Zops v). Proof. apply era_lvec, era_reduce. Qed.
Lemma era_vcaddq v : era (vec_caddq v) (vec_caddq_l Zops v). Proof. apply era_lvec, era_caddq. Qed.
Lemma era_vadd u v : era (vec_add u v) (vec_add_l Zops u v). Proof. apply era_lvec2, era_add. Qed.
Lemma era_vsub u v : era (vec_sub u v) (vec_sub_l Zops u v). Proof. apply era_lvec2, era_sub. Qed.
Lemma era_vntt v : era (vec_ntt v) (vec_ntt_l Zops v). Proof. apply era_lvec, era_ntt. Qed.
Lemma era_vinvntt v : era (vec_invntt_tomont v) (vec_invntt_l Zops v). Proof. apply era_lvec, era_invntt. Qed.
Lemma era_vpointwise a v : era (vec_pointwise_poly a v) (vec_pointwise_poly_l Zops a v). Proof. apply era_lvec, era_pointwise. Qed.
Lemma acc_v : forall u w v r, acc_loop w u v = Ret r -> acc_value Zops w u v = r.
Proof.
  induction u as [|a u IH]; intros w [|b v] r H; cbn [acc_loop acc_value] in *; try (now apply ret_inj in H).
  destruct (poly_pointwise_montgomery a b) as [t|] eqn:E; [|discriminate H]. cbn [bind] in H. destruct (poly_add w t) as [w'|] eqn:E'; [|discriminate H]. cbn [bind] in H.
  rewrite (era_pointwise _ _ _ E), (era_add _ _ _ E'). now apply IH.
Qed.
Lemma era_acc u v : era (vec_pointwise_acc u v) (vec_pointwise_acc_l Zops u v).
Proof.
  intros r H. unfold vec_pointwise_acc_l, value at 1. cbn [snd]. destruct u as [|a u], v as [|b v]; cbn [vec_pointwise_acc nth tl] in *; try discriminate H.
  destruct (poly_pointwise_montgomery a b) as [t|] eqn:E; [|discriminate H]. cbn [bind] in H. rewrite (era_pointwise _ _ _ E). now apply acc_v.
Qed.
Lemma era_matrix m v : era (matrix_pointwise m v) (matrix_pointwise_l Zops m v). Proof. apply era_lvec. intros. apply era_acc. Qed.
Lemma era_vpower2round v : era (vec_power2round v) (vec_power2round_l Zops v).
Proof. unfold vec_power2round, vec_power2round_l. apply era_bind; [apply era_lvec, era_power2round|intros; apply era_ret]. Qed.
Lemma era_vdecompose v : era (vec_decompose v) (vec_decompose_l Zops v).
Proof. unfold vec_decompose, vec_decompose_l. apply era_bind; [apply era_lvec, era_decompose|intros; apply era_ret]. Qed.
Lemma era_vmake_hint u v : era (vec_make_hint u v) (vec_make_hint_l Zops u v).
Proof. unfold vec_make_hint, vec_make_hint_l. apply era_bind; [apply era_lvec2, era_make_hint|intros; apply era_ret]. Qed.

(** ** Encodings *)
Lemma group_ind {A} (m : nat) (P : list A -> Prop) : (forall a, (length a < S m)%nat -> P a) -> (forall p r, length p = S m -> P r -> P (p ++ r)) -> forall a, P a.
Proof.
  set (n := S m). assert (Hn : (0 < n)%nat) by (unfold n; lia). clearbody n. intros H0 HS a. remember (length a) as k eqn:Hk. revert a Hk. induction k as [k IH] using (well_founded_induction Nat.lt_wf_0). intros a ->.
  destruct (Nat.lt_ge_cases (length a) n) as [C|C]; [now apply H0|]. rewrite <- (firstn_skipn n a). apply HS; [apply firstn_length_le; lia|].
  apply (IH (length (skipn n a))); [rewrite skipn_length; lia|reflexivity].
Qed.
Lemma eta_pack_v a : forall r, polyeta_pack a = Ret r -> eta_pack_l Zops a = r.
Proof.
  induction a as [a Ha|p t Hp IH] using (@group_ind Z 7); intros r H.
  - do 8 (destruct a as [|? a]; [now apply ret_inj in H|]). cbn [length] in Ha. lia.
  - do 8 (destruct p as [|? p]; [discriminate Hp|]). destruct p; [|discriminate Hp]. cbn [app polyeta_pack eta_pack_l] in *. cbv zeta in *.
    do 8 apply b_ck32 in H. destruct (polyeta_pack t) as [s|]; [|discriminate H]. cbn [bind] in H. apply ret_inj in H. subst r. rewrite (IH s eq_refl). reflexivity.
Qed.
Lemma t1_pack_v a : forall r, polyt1_pack a = Ret r -> t1_pack_l Zops a = r.
Proof.
  induction a as [a Ha|p t Hp IH] using (@group_ind Z 3); intros r H.
  - do 4 (destruct a as [|? a]; [now apply ret_inj in H|]). cbn [length] in Ha. lia.
  - do 4 (destruct p as [|? p]; [discriminate Hp|]). destruct p; [|discriminate Hp]. cbn [app polyt1_pack t1_pack_l] in *. cbv zeta in *.
    do 3 apply b_shl32 in H. destruct (polyt1_pack t) as [s|]; [|discriminate H]. cbn [bind] in H. apply ret_inj in H. subst r. rewrite (IH s eq_refl). reflexivity.
Qed.
Lemma t0_pack_v a : forall r, polyt0_pack a = Ret r -> t0_pack_l Zops a = r.
Proof.
  induction a as [a Ha|p t Hp IH] using (@group_ind Z 7); intros r H.
  - do 8 (destruct a as [|? a]; [now apply ret_inj in H|]). cbn [length] in Ha. lia.
  - do 8 (destruct p as [|? p]; [discriminate Hp|]). destruct p; [|discriminate Hp]. cbn [app polyt0_pack t0_pack_l] in *. cbv zeta in *.
    do 8 apply b_ck32 in H. destruct (polyt0_pack t) as [s|]; [|discriminate H]. cbn [bind] in H. apply ret_inj in H. subst r. rewrite (IH s eq_refl). reflexivity.
Qed.
Lemma z_pack_v a : forall r, polyz_pack a = Ret r -> z_pack_l Zops a = r.
Proof.
  induction a as [a Ha|p t Hp IH] using (@group_ind Z 3); intros r H.
  - do 4 (destruct a as [|? a]; [now apply ret_inj in H|]). cbn [length] in Ha. lia.
  - do 4 (destruct p as [|? p]; [discriminate Hp|]). destruct p; [|discriminate Hp]. cbn [app polyz_pack z_pack_l] in *. cbv zeta in *.
    do 4 apply b_ck32 in H. destruct (polyz_pack t) as [s|]; [|discriminate H]. cbn [bind] in H. apply ret_inj in H. subst r. rewrite (IH s eq_refl). reflexivity.
Qed.
Lemma w1_pack_v a : forall r, polyw1_pack a = Ret r -> w1_pack_l Zops a = r.
Proof.
  induction a as [a Ha|p t Hp IH] using (@group_ind Z 3); intros r H.
  - do 4 (destruct a as [|? a]; [now apply ret_inj in H|]). cbn [length] in Ha. lia.
  - do 4 (destruct p as [|? p]; [discriminate Hp|]). destruct p; [|discriminate Hp]. cbn [app polyw1_pack w1_pack_l] in *. cbv zeta in *.
    do 3 apply b_shl32 in H. destruct (polyw1_pack t) as [s|]; [|discriminate H]. cbn [bind] in H. apply ret_inj in H. subst r. rewrite (IH s eq_refl). reflexivity.
Qed.
Lemma eta_unpack_v a : eta_unpack_l Zops a = polyeta_unpack a.
Proof.
  induction a as [a Ha|p t Hp IH] using (@group_ind Z 2).
  - do 3 (destruct a as [|? a]; [reflexivity|]). cbn [length] in Ha. lia.
  - do 3 (destruct p as [|? p]; [discriminate Hp|]). destruct p; [|discriminate Hp]. cbn [app polyeta_unpack eta_unpack_l]. rewrite IH. reflexivity.
Qed.
Lemma t0_unpack_v a : t0_unpack_l Zops a = polyt0_unpack a.
Proof.
  induction a as [a Ha|p t Hp IH] using (@group_ind Z 12).
  - do 13 (destruct a as [|? a]; [reflexivity|]). cbn [length] in Ha. lia.
  - do 13 (destruct p as [|? p]; [discriminate Hp|]). destruct p; [|discriminate Hp]. cbn [app polyt0_unpack t0_unpack_l]. rewrite IH. reflexivity.
Qed.
Lemma z_unpack_v a : z_unpack_l Zops a = polyz_unpack a.
Proof.
  induction a as [a Ha|p t Hp IH] using (@group_ind Z 8).
  - do 9 (destruct a as [|? a]; [reflexivity|]). cbn [length] in Ha. lia.
  - do 9 (destruct p as [|? p]; [discriminate Hp|]). destruct p; [|discriminate Hp]. cbn [app polyz_unpack z_unpack_l]. rewrite IH. reflexivity.
Qed.

(** ** Sampling *)
Lemma era_test {A} (y : L bool) (b : bool) (X X' : outcome A) (k : bool -> L A) : value y = b -> era X (k true) -> era X' (k false) ->
  era (if b then X else X') (lbind y k).
Proof. intros E F G r H. rewrite value_bind, E. destruct b; [exact (F r H)|exact (G r H)]. Qed.
Lemma land2_v a b : value (land2 a b) = a && b. Proof. reflexivity. Qed.
Lemma era_erar {A} (x : outcome A) y : erar (fun a => a) x y -> era x y. Proof. intros H; exact H. Qed.
Lemma era_rej_uniform fuel : forall a aoff len buf buflen ctr pos,
  era (rej_uniform_loop fuel a aoff len buf buflen ctr pos) (rej_uniform_l Zops fuel a aoff len buf buflen ctr pos).
Proof.
  induction fuel as [|fuel IH]; intros; cbn [rej_uniform_loop rej_uniform_l]; (apply era_test; [apply land2_v| |apply era_ret]); [apply era_undef|].
  do 3 (apply era_bind; [apply era_rd|intros]). cbv zeta. apply era_test; [reflexivity| |apply IH]. apply era_bind; [apply era_wr|intros; apply IH].
Qed.
Lemma erar_stream128 seed nonce : erar ctx (shake128_stream_init seed nonce) (stream_init_l Zops SHAKE128_RATE seed 32 nonce).
Proof.
  unfold shake128_stream_init, stream_init_l. cbv zeta. eapply erar_skip; [reflexivity|]. apply erar_skip with (b := zeros 25); [reflexivity|].
  apply (erar_bind ctx); [apply (erar_inc_absorb shake128_inc_init)|intros c]. apply (erar_bind ctx); [apply erar_inc_absorb|intros c']. apply erar_inc_finalize.
Qed.
Lemma erar_stream256 seed nonce : erar ctx (shake256_stream_init seed nonce) (stream_init_l Zops SHAKE256_RATE seed 64 nonce).
Proof.
  unfold shake256_stream_init, stream_init_l. cbv zeta. eapply erar_skip; [reflexivity|]. apply erar_skip with (b := zeros 25); [reflexivity|].
  apply (erar_bind ctx); [apply (erar_inc_absorb shake256_inc_init)|intros c]. apply (erar_bind ctx); [apply erar_inc_absorb|intros c']. apply erar_inc_finalize.
Qed.
Lemma era_uniform_while fuel : forall a ctr buf buflen st,
  era (poly_uniform_while fuel a ctr buf buflen st) (poly_uniform_while_l Zops fuel a ctr buf buflen (ctx st)).
Proof.
  induction fuel as [|fuel IH]; intros; cbn [poly_uniform_while poly_uniform_while_l]; destruct (ctr <? 256); try (intros r H; apply ret_inj in H as <-; reflexivity).
  eapply era_skip; [reflexivity|]. cbv zeta. apply era_bind; [repeat ds|intros b].
  apply (erar_bind octx (fun x => x)); [apply erar_inc_squeeze|intros [b' st']]. unfold octx; cbn [fst snd].
  apply era_erar, era_bind; [apply era_rej_uniform|intros [a' n]]. apply IH.
Qed.
Lemma era_rej_eta fuel : forall a aoff len buf buflen ctr pos,
  era (rej_eta_loop fuel a aoff len buf buflen ctr pos) (rej_eta_l Zops fuel a aoff len buf buflen ctr pos).
Proof.
  induction fuel as [|fuel IH]; intros; cbn [rej_eta_loop rej_eta_l]; (apply era_test; [apply land2_v| |apply era_ret]); [apply era_undef|].
  apply era_bind; [apply era_rd|intros b]. cbv zeta. eapply era_skip; [reflexivity|].
  apply era_bind; [change (value (lless Zops (bi Zops And b (cst Zops 15)) (cst Zops 15))) with (Z.land b 15 <? 15); destruct (Z.land b 15 <? 15); repeat ds|].
  intros [a1 c1]. apply era_skip with (b := Z.shiftr b 4 <? 15); [reflexivity|]. apply era_skip with (b := (Z.shiftr b 4 <? 15) && (c1 <? len)); [destruct (_ <? 15); reflexivity|].
  apply era_bind; [destruct (_ && _); repeat ds|]. intros [a2 c2]. apply IH.
Qed.
Lemma era_eta_while fuel : forall a ctr buf st,
  era (poly_uniform_eta_while fuel a ctr buf st) (poly_eta_while_l Zops fuel a ctr buf (ctx st)).
Proof.
  induction fuel as [|fuel IH]; intros; cbn [poly_uniform_eta_while poly_eta_while_l]; destruct (ctr <? 256); try (intros r H; apply ret_inj in H as <-; reflexivity).
  eapply era_skip; [reflexivity|]. apply (erar_bind octx (fun x => x)); [apply erar_inc_squeeze|intros [b' st']]. unfold octx; cbn [fst snd].
  apply era_erar, era_bind; [apply era_rej_eta|intros [a' n]]. apply IH.
Qed.
Definition nx (r : option (Z * (list Z * Z * inc_ctx))) : option (Z * (list Z * Z * (list Z * Z))) :=
  match r with Some (b, (buf, pos, st)) => Some (b, (buf, pos, ctx st)) | None => None end.
Lemma erar_chal_next i fuel : forall buf pos st,
  erar nx (challenge_next_c fuel i buf pos st) (chal_next_l Zops fuel i buf pos (ctx st)).
Proof.
  induction fuel as [|fuel IH]; intros; cbn [challenge_next_c chal_next_l]; [now apply erar_ret|].
  apply (erar_bind (fun '(b, p, s) => (b, p, ctx s))).
  - apply erar_if; [|now apply erar_ret]. apply (erar_bind octx); [apply erar_inc_squeeze|intros [b s]]. now apply erar_ret.
  - intros [[b p] s]. apply erar_of; [apply era_rd|intros v]. intros r H. rewrite value_bind, lless_v. cbn [cst Zops].
    destruct (i <? v); [now apply IH|]. now apply ret_inj in H as <-.
Qed.
Lemma era_chal_loop fuel n : forall i c signs buf pos st,
  era (challenge_loop_c fuel n i c signs buf pos st) (chal_loop_l Zops fuel n i c signs buf pos (ctx st)).
Proof.
  induction n as [|n IH]; intros; cbn [challenge_loop_c chal_loop_l]; [intros r H; now apply ret_inj in H as <-|].
  eapply era_skip; [reflexivity|]. apply (erar_bind nx (fun x => x)); [apply erar_chal_next|intros [[b [[bf p] s]]|]; cbn [nx]; [|now apply erar_ret]].
  apply era_erar. apply era_bind; [apply era_rd|intros v]. apply era_bind; [apply era_wr|intros c1]. apply era_bind; [apply era_wr|intros c2]. apply IH.
Qed.

Section Samplers.
Variable loc : Z -> list Z.
Hypothesis LOC : forall n, 0 <= n -> zlen (loc n) = n.
Lemma era_uniform_c fuel seed nonce : era (poly_uniform_c fuel (loc 256) (loc 842) seed nonce) (poly_uniform_l Zops loc fuel seed nonce).
Proof.
  unfold poly_uniform_c, poly_uniform_l. apply (erar_bind ctx (fun x => x)); [apply erar_stream128|intros st].
  apply (erar_bind octx (fun x => x)); [apply erar_inc_squeeze|intros [b' st']]. unfold octx; cbn [fst snd].
  apply era_erar, era_bind; [apply era_rej_uniform|intros [a' n]]. apply era_uniform_while.
Qed.
Lemma era_eta_c fuel seed nonce : era (poly_uniform_eta_c fuel (loc 256) (loc 136) seed nonce) (poly_eta_l Zops loc fuel seed nonce).
Proof.
  unfold poly_uniform_eta_c, poly_eta_l. apply (erar_bind ctx (fun x => x)); [apply erar_stream256|intros st].
  apply (erar_bind octx (fun x => x)); [apply erar_inc_squeeze|intros [b' st']]. unfold octx; cbn [fst snd].
  apply era_erar, era_bind; [apply era_rej_eta|intros [a' n]]. apply era_eta_while.
Qed.
Lemma era_gamma1_c seed nonce : era (poly_uniform_gamma1_c (loc 680) seed nonce) (poly_gamma1_l Zops loc seed nonce).
Proof.
  unfold poly_uniform_gamma1_c, poly_gamma1_l. apply (erar_bind ctx (fun x => x)); [apply erar_stream256|intros st].
  apply (erar_bind octx (fun x => x)); [apply erar_inc_squeeze|intros [b' st']]. unfold octx; cbn [fst snd].
  apply era_erar, era_rdrange. intros r H. apply ret_inj in H as <-. apply z_unpack_v.
Qed.
Lemma era_challenge_c fuel seed : era (poly_challenge_c fuel (loc 256) (loc 136) seed) (poly_challenge_l Zops loc fuel seed).
Proof.
  unfold poly_challenge_c, poly_challenge_l. apply era_skip with (b := zeros 25); [reflexivity|].
  apply (erar_bind ctx (fun x => x)); [apply (erar_inc_absorb shake256_inc_init)|intros st]. apply (erar_bind ctx (fun x => x)); [apply erar_inc_finalize|intros st1].
  apply (erar_bind octx (fun x => x)); [apply erar_inc_squeeze|intros [b' st']]. unfold octx; cbn [fst snd].
  apply era_erar. apply era_bind; [repeat ds|intros s]. apply era_bind; [repeat ds|intros c]. apply era_chal_loop.
Qed.
Lemma uniform_v fuel seed nonce : zlen seed = 32 -> value (poly_uniform_l Zops loc fuel seed nonce) = poly_uniform fuel seed nonce.
Proof. intros H. apply era_uniform_c. apply poly_uniform_c_ok; try assumption; apply LOC; lia. Qed.
Lemma eta_v fuel seed nonce : zlen seed = 64 -> value (poly_eta_l Zops loc fuel seed nonce) = poly_uniform_eta fuel seed nonce.
Proof. intros H. apply era_eta_c. apply poly_uniform_eta_c_ok; try assumption; apply LOC; lia. Qed.
Lemma gamma1_v seed nonce : zlen seed = 64 -> value (poly_gamma1_l Zops loc seed nonce) = poly_uniform_gamma1 seed nonce.
Proof. intros H. apply era_gamma1_c. apply poly_uniform_gamma1_c_ok; try assumption; apply LOC; lia. Qed.
Lemma challenge_v fuel seed : 32 <= zlen seed -> value (poly_challenge_l Zops loc fuel seed) = poly_challenge fuel seed.
Proof. intros H. apply era_challenge_c. apply poly_challenge_c_ok; try assumption; apply LOC; lia. Qed.
Lemma lvecO_v {A B} (f : A -> option B) g l : (forall x, value (g x) = f x) -> value (lvecO g l) = mapO f l.
Proof.
  intros F. induction l as [|x l IH]; cbn [lvecO mapO]; [reflexivity|]. rewrite !value_bind, F. destruct (f x) as [y|]; cbn [obind]; [|reflexivity].
  rewrite value_bind, IH. destruct (mapO f l); reflexivity.
Qed.
Lemma matrix_expand_v fuel rho : zlen rho = 32 -> value (matrix_expand_l Zops loc fuel rho) = matrix_expand fuel rho.
Proof. intros H. apply lvecO_v. intros i. apply lvecO_v. intros j. now apply uniform_v. Qed.
Lemma vec_eta_v fuel seed nonce : zlen seed = 64 -> value (vec_eta_l Zops loc fuel seed nonce) = vec_uniform_eta fuel seed nonce.
Proof. intros H. apply lvecO_v. intros i. now apply eta_v. Qed.
Lemma vec_gamma1_v seed nonce : zlen seed = 64 -> value (vec_gamma1_l Zops loc seed nonce) = vec_uniform_gamma1 seed nonce.
Proof. intros H. unfold vec_gamma1_l, vec_uniform_gamma1, lvec, value at 1. cbn [snd]. apply map_ext. intros i. now apply gamma1_v. Qed.

(** ** packing.c *)
Lemma era_pack_w1 v : era (vec_pack_w1 v) (vec_pack_w1_l Zops v).
Proof. unfold vec_pack_w1, vec_pack_w1_l. apply era_bind; [apply era_lvec; intros x r H; now apply w1_pack_v|intros; apply era_ret]. Qed.
Lemma era_pack_pk rho t : era (pack_pk rho t) (pack_pk_l Zops rho t).
Proof. unfold pack_pk, pack_pk_l. eapply era_skip; [reflexivity|]. apply era_bind; [apply era_lvec; intros x r H; now apply t1_pack_v|intros; apply era_ret]. Qed.
Lemma era_pack_sk rho tr key t0 s1 s2 : era (pack_sk rho tr key t0 s1 s2) (pack_sk_l Zops rho tr key t0 s1 s2).
Proof.
  unfold pack_sk, pack_sk_l. do 3 (eapply era_skip; [reflexivity|]). do 2 (apply era_bind; [apply era_lvec; intros x r H; now apply eta_pack_v|intros]).
  apply era_bind; [apply era_lvec; intros x r H; now apply t0_pack_v|intros; apply era_ret].
Qed.
Lemma unpack_sk_v sk : value (unpack_sk_l Zops sk) = unpack_sk sk.
Proof.
  unfold unpack_sk_l, unpack_sk. rewrite !value_bind. unfold lret, lvec, lptr, value; cbn [snd]. unfold polyeta_unpack_l, polyt0_unpack_l, lgroup, blocks_l, lptr, blocks; cbn [snd].
  assert (E : forall l, map (fun p => eta_unpack_l Zops p) l = map polyeta_unpack l) by (intros; apply map_ext, eta_unpack_v).
  assert (T : forall l, map (fun p => t0_unpack_l Zops p) l = map polyt0_unpack l) by (intros; apply map_ext, t0_unpack_v).
  repeat apply f_equal2; try reflexivity; first [apply T|apply E].
Qed.
Lemma era_hint_pack_poly h st : era (hint_pack_poly h st) (hint_pack_poly_l Zops h st).
Proof.
  unfold hint_pack_poly, hint_pack_poly_l. apply era_for. intros j [hb k]. apply era_bind; [apply era_rd|intros c]. apply era_test; [apply lcmp_v|apply era_ret|repeat ds].
Qed.
Lemma era_hint_pack_loop h : forall i st, era (hint_pack_loop i h st) (hint_pack_loop_l Zops i h st).
Proof.
  induction h as [|p h IH]; intros; cbn [hint_pack_loop hint_pack_loop_l]; [intros r H; now apply ret_inj in H as <-|].
  eapply era_skip; [reflexivity|]. apply era_bind; [apply era_hint_pack_poly|intros [hb k]]. apply era_bind; [apply era_wr|intros; apply IH].
Qed.
Lemma era_hint_pack h : era (hint_pack h) (hint_pack_l Zops h).
Proof. unfold hint_pack, hint_pack_l. apply era_skip with (b := zeros 84); [reflexivity|]. apply era_bind; [apply era_hint_pack_loop|intros [hb k]; apply era_ret]. Qed.
Lemma era_pack_sig c z h : era (pack_sig c z h) (pack_sig_l Zops c z h).
Proof.
  unfold pack_sig, pack_sig_l. eapply era_skip; [reflexivity|]. apply era_bind; [apply era_lvec; intros x r H; now apply z_pack_v|intros].
  apply era_bind; [apply era_hint_pack|intros; apply era_ret].
Qed.

(** ** sign.c *)
Lemma era_rdlen {A} l a n (k : list Z -> outcome A) y : 0 < n -> (zlen (slice l a n) = n -> era (k (slice l a n)) y) -> era (bind (rdrange l a n) k) y.
Proof.
  intros Hn K r H. destruct (rdrange l a n) as [v|] eqn:E; [|discriminate H]. pose proof (rdrange_slice _ _ _ _ E) as ->. cbn [bind] in H. refine (K _ r H).
  unfold rdrange in E. replace (n <=? 0) with false in E by lia. destruct ((0 <=? a) && (a + n <=? zlen l)) eqn:B; [|discriminate E]. apply zlen_slice; lia.
Qed.
Lemma era_put {A} d o s n (k : list Z -> outcome A) y : era (k (lput Zops d o s n)) y -> era (bind (copy d o s 0 n) k) y.
Proof. apply era_pure. intros v E. symmetry. exact (era_copy _ _ _ _ _ v E). Qed.
Lemma era_some {A B} (o : option A) (k : A -> outcome (option B)) (x : L (option A)) k' : value x = o -> (forall a, o = Some a -> era (k a) (k' (Some a))) -> k' None = lret None ->
  era (match o with Some a => k a | None => Ret None end) (lbind x k').
Proof. intros E K N r H. rewrite value_bind, E. destruct o as [a|]; [exact (K a eq_refl r H)|]. rewrite N. now apply ret_inj in H as <-. Qed.
Lemma era_lassoc {A B C} (x : outcome C) (y : L A) (f : A -> L B) k : era x (lbind y (fun a => lbind (f a) k)) -> era x (lbind (lbind y f) k).
Proof. intros H r E. specialize (H r E). rewrite !value_bind in *. exact H. Qed.
Ltac eb l := repeat match goal with |- era _ (lbind (lbind _ _) _) => apply era_lassoc end; apply era_bind; [apply l|intros; repeat match goal with a : (_ * _)%type |- _ => destruct a end; cbv beta iota].
Lemma era_keypair_seed fuel pk sk seed : era (keypair_seed_c fuel (loc 128) (loc 64) pk sk seed) (keypair_seed_l Zops loc fuel pk sk seed).
Proof.
  unfold keypair_seed_c, keypair_seed_l. apply era_bind; [repeat ds|intros sb0]. apply era_bind; [apply era_shake256_at|intros sb]. cbv zeta. unfold lptr.
  apply era_rdlen; [lia|intros L1]. apply era_rdlen; [lia|intros L2]. apply era_rdlen; [lia|intros L3].
  apply era_some; [now apply matrix_expand_v| |reflexivity]. intros mat _. apply era_some; [now apply vec_eta_v| |reflexivity]. intros s1 _.
  apply era_some; [now apply vec_eta_v| |reflexivity]. intros s2 _.
  apply era_bind; [apply era_vntt|intros]. apply era_bind; [apply era_matrix|intros]. apply era_bind; [apply era_vreduce|intros]. apply era_bind; [apply era_vinvntt|intros].
  apply era_bind; [apply era_vadd|intros]. apply era_bind; [apply era_vcaddq|intros]. apply era_bind; [apply era_vpower2round|intros [t1 t0]].
  apply era_bind; [apply era_pack_pk|intros b]. apply era_put. apply era_bind; [apply era_shake256_at|intros tr]. apply era_rdrange.
  apply era_bind; [apply era_pack_sk|intros b']. apply era_put. apply era_ret.
Qed.
Lemma era_chk {A} v B (X X' : outcome A) Y Y' : era X Y -> era X' Y' ->
  era (bind (vec_chknorm v B) (fun r => if negb (r =? 0) then X else X')) (lbind (vec_chknorm_l Zops v B) (fun r => lif r Y Y')).
Proof.
  intros E F r H. destruct (vec_chknorm v B) as [s|] eqn:ES; [|discriminate H]. cbn [bind] in H. rewrite value_bind, value_if, (vec_chknorm_v _ _ _ ES).
  destruct (negb (s =? 0)); [exact (E r H)|exact (F r H)].
Qed.
Lemma era_attempt fuel mat s1 s2 t0 mu rhop nonce so mem : zlen rhop = 64 ->
  era (sign_attempt_c fuel mat s1 s2 t0 mu rhop nonce so mem) (sign_attempt_l Zops loc fuel mat s1 s2 t0 mu rhop nonce so mem).
Proof.
  intros Hr. unfold sign_attempt_c, sign_attempt_l, commit_l, response_l, lowpart_l, hintpart_l. cbv zeta.
  apply era_lassoc. eapply era_skip; [now apply vec_gamma1_v|]. eb era_vntt. eb era_matrix. eb era_vreduce. eb era_vinvntt. eb era_vcaddq. eb era_vdecompose. eb era_pack_w1.
  apply era_put, era_rdrange. eb era_shake256_pieces. eapply era_skip; [reflexivity|]. cbv beta iota. unfold lptr. apply era_rdlen; [lia|intros L1].
  apply era_some; [apply challenge_v; lia| |reflexivity]. intros cp _. eb era_ntt.
  eb era_vpointwise. eb era_vinvntt. eb era_vadd. eb era_vreduce. apply era_chk; [apply era_ret|].
  eb era_vpointwise. eb era_vinvntt. eb era_vsub. eb era_vreduce. apply era_chk; [apply era_ret|].
  eb era_vpointwise. eb era_vinvntt. eb era_vreduce. apply era_chk; [apply era_ret|].
  eb era_vadd. eb era_vmake_hint. apply era_test; [reflexivity|apply era_ret|]. apply era_rdrange. eb era_pack_sig. apply era_put. apply era_ret.
Qed.
Lemma era_rej_loop att att' : (forall n m, era (att n m) (att' n m)) -> forall fuel n mem, era (rej_loop_c att fuel n mem) (rej_loop_l att' fuel n mem).
Proof.
  intros A. induction fuel as [|fuel IH]; intros n mem; cbn [rej_loop_c rej_loop_l]; [apply era_ret|]. apply era_bind; [apply A|intros [[[|] m]|]]; [apply era_ret|apply IH|apply era_ret].
Qed.
Lemma era_sign_signature fuel mem so mo mlen sk :
  era (sign_signature_c fuel (loc 288) mem so mo mlen sk) (sign_signature_l Zops loc fuel mem so mo mlen sk).
Proof.
  unfold sign_signature_c, sign_signature_l. apply era_rdrange. unfold lptr at 1. eapply era_skip; [apply unpack_sk_v|]. destruct (unpack_sk _) as [[[[[rho tr] key] t0] s1] s2].
  cbv zeta. do 3 apply era_put. do 2 apply era_rdrange. unfold lptr. eb era_shake256_pieces. apply era_bind; [repeat ds|intros sb1]. eb era_shake256_at.
  apply era_rdlen; [lia|intros L1]. apply era_rdlen; [lia|intros L2]. apply era_rdlen; [lia|intros L3].
  apply era_some; [now apply matrix_expand_v| |reflexivity]. intros mat _. eb era_vntt. eb era_vntt. eb era_vntt.
  apply era_bind; [apply era_rej_loop; intros; now apply era_attempt|intros [m|]; apply era_ret].
Qed.
Lemma era_crypto_sign fuel mem so mo mlen sk :
  era (crypto_sign_c fuel (loc 288) mem so mo mlen sk) (crypto_sign_l Zops loc fuel mem so mo mlen sk).
Proof.
  unfold crypto_sign_c, crypto_sign_l. apply era_bind; [repeat ds|intros m]. apply era_bind; [apply era_sign_signature|intros [[[z m'] l]|]; apply era_ret].
Qed.
End Samplers.
