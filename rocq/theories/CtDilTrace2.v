(** The data-dependent branches of Dilithium signing: samplers, norm checks, hints. *)
From Coq Require Import ZifyBool ZifyNat.
From Verif Require Import Base Sponge SpongePure SpongeProofs2 Tab DilReduce DilNtt DilPoly DilVec BufLemmas DilSpec DilFips DilFipsProofs DilVecProofs CtDilSpec
  CtBase CtTweet CtTweetProofs CtKeccak CtKeccakProofs CtSpx CtSpxTrace CtDil CtDilProofs CtDilTrace.
Local Open Scope Z_scope.
Ltac Zify.zify_post_hook ::= idtac.
#[local] Opaque Keccak.KeccakF1600_StatePermute.
Notation same := CtKeccakProofs.same.

Lemma same_split {A B P} (h : B -> P) (x x' : L A) (k k' : A -> L B) : trace x = trace x' -> same h (k (value x)) (k' (value x')) -> same h (lbind x k) (lbind x' k').
Proof. intros E (T & F). unfold same. rewrite !trace_bind, !value_bind, E, T, F. auto. Qed.

Lemma writes_len n (g : Z -> L Z) off : forall i h, zlen (value (lfrom n i (fun i h => b <~ g i ;;; lwr h (off + i) b) h)) = zlen h.
Proof.
  induction n as [|n IH]; intros i h; [reflexivity|]. cbn [lfrom]. cbv zeta. unfold value at 1; cbn [snd]. change (@snd (list event) (list Z)) with (@value (list Z)). rewrite IH.
  rewrite value_bind. unfold lwr, zlen. cbn [value snd]. now rewrite length_upd'.
Qed.
Lemma squeeze_len h off n st r : zlen (fst (value (inc_squeeze_l Zops h off n st r))) = zlen h.
Proof.
  assert (G : forall fuel h off n s pos, zlen (fst (value (inc_squeeze_loop_l Zops fuel h off n s pos r))) = zlen h).
  { induction fuel as [|fuel IH]; intros; cbn [inc_squeeze_loop_l]; destruct (_ >? 0); try reflexivity. rewrite !value_bind. rewrite IH. apply writes_len. }
  unfold inc_squeeze_l. destruct st as [s pos]. cbv zeta. rewrite value_bind, G. apply writes_len.
Qed.
Section Two.
Variables loc loc' : Z -> list Z.
Hypothesis LOC : forall n, 0 <= n -> zlen (loc n) = n.
Hypothesis LOC' : forall n, 0 <= n -> zlen (loc' n) = n.
Lemma ct_gamma1 seed seed' nonce : trace (poly_gamma1_l Zops loc seed nonce) = trace (poly_gamma1_l Zops loc' seed' nonce).
Proof.
  unfold poly_gamma1_l. apply (ct_bind_g snd); [apply ct_stream|]. intros [? ?] [? ?] H; cbn [snd] in H; subst.
  apply (ct_bind_g (fun x => snd (snd x))); [apply ct_inc_squeeze|]. intros (? & ? & ?) (? & ? & ?) H. apply ct_lgroup.
Qed.
Lemma ct_vec_gamma1 seed seed' nonce : trace (vec_gamma1_l Zops loc seed nonce) = trace (vec_gamma1_l Zops loc' seed' nonce).
Proof. apply ct_steps. intros i. apply ct_gamma1. Qed.

(** ** The matrix: the same seed *)
Lemma uni_u32 p : 0 <= p <= 1000 -> u32 (p + 3) = p + 3. Proof. intros H. apply Z.mod_small. lia. Qed.
Lemma same_rej_uniform fuel : forall a aoff len buf buflen ctr pos a' buf', agree buflen buf buf' -> 0 <= pos <= buflen -> buflen <= 1000 ->
  same snd (rej_uniform_l Zops fuel a aoff len buf buflen ctr pos) (rej_uniform_l Zops fuel a' aoff len buf' buflen ctr pos).
Proof.
  induction fuel as [|fuel IH]; intros a aoff len buf buflen ctr pos a' buf' A Hp Hb; cbn [rej_uniform_l]; apply same_split; try reflexivity; unfold land2; cbn [value snd].
  - destruct (_ && _); split; reflexivity.
  - rewrite uni_u32 by lia. destruct ((ctr <? len) && (pos + 3 <=? buflen)) eqn:E; [|split; reflexivity].
    do 3 (apply same_split; [reflexivity|]). unfold lrd; cbn [value snd cst Zops]. rewrite !(proj2 A) by lia.
    apply same_split; [reflexivity|]. unfold lless; cbn [value snd]. destruct (reveal Zops _ <? _).
    + apply same_ct; [reflexivity|]. intros. apply IH; [exact A|lia|exact Hb].
    + apply IH; [exact A|lia|exact Hb].
Qed.
Lemma ct_uniform_while fuel : forall a ctr buf buflen st a' buf', buflen mod 3 = 0 -> agree 0 buf buf' ->
  trace (poly_uniform_while_l Zops fuel a ctr buf buflen st) = trace (poly_uniform_while_l Zops fuel a' ctr buf' buflen st).
Proof.
  induction fuel as [|fuel IH]; intros a ctr buf buflen st a' buf' M A; cbn [poly_uniform_while_l]; destruct (ctr <? 256); try reflexivity.
  apply trace_split; [reflexivity|]. cbv zeta. rewrite M. change (168 + 0) with 168. apply trace_split; [reflexivity|].
  change (value (lfor 0 ?f ?s)) with s. destruct (agree_squeeze buf 0 168 st SHAKE128_RATE buf' ltac:(lia) ltac:(lia) ltac:(reflexivity) A) as (T & E & A'). cbv zeta in T, E, A'.
  apply trace_split; [exact T|]. destruct (value (inc_squeeze_l Zops buf 0 168 st SHAKE128_RATE)) as [b1 s1], (value (inc_squeeze_l Zops buf' 0 168 st SHAKE128_RATE)) as [b1' s1'].
  cbn [fst snd] in E, A'. subst s1'. pose proof (same_rej_uniform (Z.to_nat 168) a ctr (256 - ctr) b1 168 0 0 a' b1' A' ltac:(lia) ltac:(lia)) as (T2 & E2).
  apply trace_split; [exact T2|]. destruct (value (rej_uniform_l Zops (Z.to_nat 168) a ctr (256 - ctr) b1 168 0 0)) as [a1 n], (value (rej_uniform_l Zops (Z.to_nat 168) a' ctr (256 - ctr) b1' 168 0 0)) as [a1' n'].
  cbn [snd] in E2. subst n'. apply IH; [reflexivity|]. split; [apply A'|lia].
Qed.
Lemma ct_uniform fuel seed nonce : trace (poly_uniform_l Zops loc fuel seed nonce) = trace (poly_uniform_l Zops loc' fuel seed nonce).
Proof.
  unfold poly_uniform_l. apply trace_split; [reflexivity|]. set (st := value (stream_init_l Zops SHAKE128_RATE seed 32 nonce)).
  assert (A : agree 0 (loc 842) (loc' 842)) by (split; [rewrite LOC, LOC' by lia; reflexivity|lia]).
  destruct (agree_squeeze (loc 842) 0 840 st SHAKE128_RATE (loc' 842) ltac:(lia) ltac:(lia) ltac:(reflexivity) A) as (T & E & A'). cbv zeta in T, E, A'.
  apply trace_split; [exact T|]. destruct (value (inc_squeeze_l Zops (loc 842) 0 840 st SHAKE128_RATE)) as [b1 s1], (value (inc_squeeze_l Zops (loc' 842) 0 840 st SHAKE128_RATE)) as [b1' s1'].
  cbn [fst snd] in E, A'. subst s1'. pose proof (same_rej_uniform (Z.to_nat 840) (loc 256) 0 256 b1 840 0 0 (loc' 256) b1' A' ltac:(lia) ltac:(lia)) as (T2 & E2).
  apply trace_split; [exact T2|]. destruct (value (rej_uniform_l Zops (Z.to_nat 840) (loc 256) 0 256 b1 840 0 0)) as [a1 n], (value (rej_uniform_l Zops (Z.to_nat 840) (loc' 256) 0 256 b1' 840 0 0)) as [a1' n'].
  cbn [snd] in E2. subst n'. apply ct_uniform_while; [reflexivity|]. split; [apply A'|lia].
Qed.
Lemma ct_vecO {A B C} (f : A -> L (option B)) (g : A -> L (option C)) l : (forall x, trace (f x) = trace (g x) /\ (value (f x) = None <-> value (g x) = None)) ->
  trace (lvecO f l) = trace (lvecO g l) /\ (value (lvecO f l) = None <-> value (lvecO g l) = None).
Proof.
  intros H. induction l as [|x l IH]; cbn [lvecO]; [split; [reflexivity|split; discriminate]|]. rewrite !trace_bind, !value_bind. destruct (H x) as (T & E). rewrite T.
  destruct (value (f x)) as [y|], (value (g x)) as [y'|]; try (exfalso; destruct E as [E1 E2]; first [discriminate (E1 eq_refl)|discriminate (E2 eq_refl)]); [|split; [reflexivity|split; reflexivity]].
  rewrite !trace_bind, !value_bind. destruct IH as (T2 & E2). rewrite T2. split; [reflexivity|]. cbn [lret value snd].
  destruct (value (lvecO f l)), (value (lvecO g l)); split; intros X; try discriminate X; try reflexivity; exfalso; [discriminate (proj2 E2 eq_refl)|discriminate (proj1 E2 eq_refl)].
Qed.
Lemma ct_matrix_expand fuel rho : zlen rho = 32 -> trace (matrix_expand_l Zops loc fuel rho) = trace (matrix_expand_l Zops loc' fuel rho).
Proof.
  intros H. apply ct_vecO. intros i. apply ct_vecO. intros j. split; [apply ct_uniform|]. now rewrite !uniform_v by assumption.
Qed.

(** ** The challenge: the same seed *)
Lemma chal_next_same fuel : forall i buf pos st buf', zlen buf = 136 -> agree 136 buf buf' ->
  chal_next_l Zops fuel i buf pos st = chal_next_l Zops fuel i buf' pos st.
Proof. intros i buf pos st buf' L A. rewrite <- L in A. now apply agree_all in A as <-. Qed.
Lemma ct_chal_loop fuel n : forall i c signs buf pos st c' signs', trace (chal_loop_l Zops fuel n i c signs buf pos st) = trace (chal_loop_l Zops fuel n i c' signs' buf pos st).
Proof.
  induction n as [|n IH]; intros; cbn [chal_loop_l]; [reflexivity|]. apply trace_split; [reflexivity|]. apply trace_split; [reflexivity|].
  destruct (value (chal_next_l Zops fuel i buf pos st)) as [[b [[bf ps] s]]|]; [|reflexivity]. apply trace_split; [reflexivity|]. apply trace_split; [reflexivity|].
  apply trace_split; [reflexivity|]. apply IH.
Qed.
Lemma ct_challenge fuel seed : trace (poly_challenge_l Zops loc fuel seed) = trace (poly_challenge_l Zops loc' fuel seed).
Proof.
  unfold poly_challenge_l. do 3 (apply trace_split; [reflexivity|]). set (st := value (inc_finalize_l Zops _ _ _)).
  assert (A : agree 0 (loc 136) (loc' 136)) by (split; [rewrite LOC, LOC' by lia; reflexivity|lia]).
  destruct (agree_squeeze (loc 136) 0 136 st SHAKE256_RATE (loc' 136) ltac:(lia) ltac:(lia) ltac:(reflexivity) A) as (T & E & A'). cbv zeta in T, E, A'.
  pose proof (squeeze_len (loc 136) 0 136 st SHAKE256_RATE) as Ls.
  apply trace_split; [exact T|]. destruct (value (inc_squeeze_l Zops (loc 136) 0 136 st SHAKE256_RATE)) as [b1 s1], (value (inc_squeeze_l Zops (loc' 136) 0 136 st SHAKE256_RATE)) as [b1' s1'].
  cbn [fst snd] in E, A', Ls. subst s1'. rewrite LOC in Ls by lia. change (0 + 136) with 136 in A'. rewrite <- Ls in A'. apply agree_all in A' as <-.
  apply trace_split; [reflexivity|]. apply trace_split; [ct|]. apply ct_chal_loop.
Qed.
End Two.

(** ** Norm checks: the position of the first violation *)
Definition absv (x : Z) : Z := x - Z.land (Z.shiftr x 31) (2 * x).
Lemma chknorm_same B : forall a i a', length a = length a' -> Leak.first (fun x => B <=? absv x) a = Leak.first (fun x => B <=? absv x) a' ->
  chknorm_l Zops i a B = chknorm_l Zops i a' B.
Proof.
  induction a as [|x a IH]; intros i [|y a'] L E; try discriminate L; [reflexivity|]. cbn [Leak.first] in E. injection L as L.
  cbn [chknorm_l]. unfold lgeq. cbn [reveal cst Zops un bi ev1 ev2]. fold (absv x). fold (absv y).
  destruct (B <=? absv x), (B <=? absv y); try (destruct (Leak.first _ a); discriminate E); try (destruct (Leak.first _ a'); discriminate E); [reflexivity|].
  assert (F : Leak.first (fun x => B <=? absv x) a = Leak.first (fun x => B <=? absv x) a').
  { destruct (Leak.first _ a), (Leak.first _ a'); cbn [option_map] in E; try discriminate E; [injection E as ->; reflexivity|reflexivity]. }
  unfold lbind. cbn [trace value fst snd tick]. rewrite (IH (i + 1) a' L F). reflexivity.
Qed.
Lemma first_app {A} (p : A -> bool) l m : Leak.first p (l ++ m) = match Leak.first p l with Some k => Some k | None => option_map (Nat.add (length l)) (Leak.first p m) end.
Proof.
  induction l as [|x l IH]; cbn [app Leak.first length]; [now destruct (Leak.first p m)|]. destruct (p x); [reflexivity|]. rewrite IH.
  destruct (Leak.first p l); [reflexivity|]. now destruct (Leak.first p m).
Qed.
Lemma first_lt {A} (p : A -> bool) l k : Leak.first p l = Some k -> (k < length l)%nat.
Proof. revert k. induction l as [|x l IH]; intros k H; cbn [Leak.first] in H; [discriminate H|]. cbn [length]. destruct (p x); [injection H as <-; lia|]. destruct (Leak.first p l) as [j|]; [|discriminate H]. injection H as <-. specialize (IH j eq_refl). lia. Qed.
Lemma vec_chknorm_same B : forall v v', map (@length Z) v = map (@length Z) v' ->
  Leak.first (fun x => B <=? absv x) (concat v) = Leak.first (fun x => B <=? absv x) (concat v') ->
  vec_chknorm_l Zops v B = vec_chknorm_l Zops v' B.
Proof.
  induction v as [|p v IH]; intros [|p' v'] L E; try discriminate L; [reflexivity|]. cbn [map] in L. injection L as L1 L2. cbn [concat] in E. rewrite !first_app in E.
  assert (F : Leak.first (fun x => B <=? absv x) p = Leak.first (fun x => B <=? absv x) p' /\
    (Leak.first (fun x => B <=? absv x) p = None -> Leak.first (fun x => B <=? absv x) (concat v) = Leak.first (fun x => B <=? absv x) (concat v'))).
  { destruct (Leak.first _ p) as [k|] eqn:E1, (Leak.first _ p') as [k'|] eqn:E2; try apply first_lt in E1; try apply first_lt in E2;
      destruct (Leak.first _ (concat v)) as [j|], (Leak.first _ (concat v')) as [j'|]; cbn [option_map] in E; try discriminate E; try (injection E as E); split; intros; try discriminate; try lia; try (f_equal; lia); reflexivity. }
  destruct F as (F1 & F2). cbn [vec_chknorm_l]. assert (P : poly_chknorm_l Zops p B = poly_chknorm_l Zops p' B).
  { unfold poly_chknorm_l. now rewrite (chknorm_same B p 0 p' L1 F1). }
  rewrite P. destruct (Leak.first (fun x => B <=? absv x) p) as [k|] eqn:E1; [|now rewrite (IH v' L2 (F2 eq_refl))].
  (* rejected already *)
  unfold lbind, lif. cbn [tick trace value fst snd]. assert (V : snd (poly_chknorm_l Zops p' B) = true).
  { rewrite <- P. unfold poly_chknorm_l, lif. destruct ((Q - 1) / 8 <? B); [reflexivity|]. cbn [value snd]. clear - E1. revert k E1. generalize 0 as i. induction p as [|x p IHp]; intros i k E1; cbn [Leak.first] in E1; [discriminate E1|].
    cbn [chknorm_l]. unfold lgeq, lbind. cbn [trace value fst snd tick reveal cst Zops un bi ev1 ev2]. fold (absv x). destruct (B <=? absv x); [reflexivity|].
    destruct (Leak.first _ p) as [j|]; [|discriminate E1]. cbn [snd]. exact (IHp (i + 1) j eq_refl). }
  unfold value, trace in *. rewrite V. reflexivity.
Qed.

(** ** Hints: the outcome of the comparisons *)
Lemma make_hint_same x y x' y' : Leak.hint_case y x = Leak.hint_case y' x' -> make_hint_l Zops x y = make_hint_l Zops x' y'.
Proof.
  unfold Leak.hint_case, make_hint_l, lless, lcmp. cbn [reveal cst Zops]. change Spec.gamma2 with GAMMA2. intros E.
  destruct (GAMMA2 <? x), (GAMMA2 <? x'), (x <? - GAMMA2), (x' <? - GAMMA2), (x =? - GAMMA2), (x' =? - GAMMA2), (y =? 0), (y' =? 0); try discriminate E; reflexivity.
Qed.
Lemma make_hints_same : forall a0 a1 i b0 b1, length a0 = length a1 -> length b0 = length b1 -> map2 (fun x y => Leak.hint_case y x) a0 a1 = map2 (fun x y => Leak.hint_case y x) b0 b1 ->
  make_hints_l Zops i a0 a1 = make_hints_l Zops i b0 b1.
Proof.
  induction a0 as [|x a0 IH]; intros [|y a1] i [|x' b0] [|y' b1] L L' E; try discriminate L; try discriminate L'; try discriminate E; [reflexivity|].
  cbn [map2] in E. injection E as E1 E2. injection L as L. injection L' as L'. cbn [make_hints_l]. now rewrite (make_hint_same _ _ _ _ E1), (IH a1 (i + 1) b0 b1 L L' E2).
Qed.
Lemma vec_make_hint_same v0 v1 u0 u1 : vlen v0 -> vlen v1 -> vlen u0 -> vlen u1 ->
  (forall r i, (r < 4)%nat -> 0 <= i < 256 -> Leak.hint_case (cf v1 r i) (cf v0 r i) = Leak.hint_case (cf u1 r i) (cf u0 r i)) ->
  vec_make_hint_l Zops v0 v1 = vec_make_hint_l Zops u0 u1.
Proof.
  intros V0 V1 U0 U1 H.
  assert (P : forall r, (r < 4)%nat -> poly_make_hint_l Zops (nth r v0 []) (nth r v1 []) = poly_make_hint_l Zops (nth r u0 []) (nth r u1 [])).
  { intros r Hr. unfold poly_make_hint_l. pose proof (proj2 V0 r Hr). pose proof (proj2 V1 r Hr). pose proof (proj2 U0 r Hr). pose proof (proj2 U1 r Hr). unfold zlen in *.
    rewrite (make_hints_same (nth r v0 []) (nth r v1 []) 0 (nth r u0 []) (nth r u1 [])); [reflexivity|lia|lia|].
    assert (G : forall a b a' b', length a = length b -> length a' = length b' -> length a = length a' -> (forall i, (i < length a)%nat -> Leak.hint_case (nth i b 0) (nth i a 0) = Leak.hint_case (nth i b' 0) (nth i a' 0)) ->
      map2 (fun x y => Leak.hint_case y x) a b = map2 (fun x y => Leak.hint_case y x) a' b').
    { clear. induction a as [|x a IH]; intros [|y b] [|x' a'] [|y' b'] L1 L2 L3 K; try discriminate L1; try discriminate L2; try discriminate L3; [reflexivity|].
      cbn [map2]. rewrite (K 0%nat ltac:(cbn [length]; lia) : Leak.hint_case y x = Leak.hint_case y' x'). rewrite (IH b a' b'); [reflexivity|now injection L1|now injection L2|now injection L3|].
      intros i Hi. exact (K (S i) ltac:(cbn [length]; lia)). }
    apply G; [lia|lia|lia|]. intros i Hi. specialize (H r (Z.of_nat i) Hr ltac:(lia)). unfold cf, ix in H. now rewrite Nat2Z.id in H. }
  unfold vec_make_hint_l. assert (E : lvec2 (poly_make_hint_l Zops) v0 v1 = lvec2 (poly_make_hint_l Zops) u0 u1); [|now rewrite E].
  destruct V0 as [L0 _], V1 as [L1 _], U0 as [K0 _], U1 as [K1 _].
  destruct v0 as [|a0 [|a1 [|a2 [|a3 [|]]]]]; try discriminate L0. destruct v1 as [|b0 [|b1 [|b2 [|b3 [|]]]]]; try discriminate L1.
  destruct u0 as [|c0 [|c1 [|c2 [|c3 [|]]]]]; try discriminate K0. destruct u1 as [|d0 [|d1 [|d2 [|d3 [|]]]]]; try discriminate K1.
  pose proof (P 0%nat ltac:(lia)) as P0. pose proof (P 1%nat ltac:(lia)) as P1. pose proof (P 2%nat ltac:(lia)) as P2. pose proof (P 3%nat ltac:(lia)) as P3. cbn [nth] in P0, P1, P2, P3.
  unfold lvec2. apply f_equal2.
  - unfold steps, lfor. change (Z.to_nat 4) with 4%nat. cbn [lfrom]. cbv zeta. change (0 + 1) with 1. change (1 + 1) with 2. change (2 + 1) with 3.
    change (Z.to_nat 0) with 0%nat. change (Z.to_nat 1) with 1%nat. change (Z.to_nat 2) with 2%nat. change (Z.to_nat 3) with 3%nat. cbn [nth]. now rewrite P0, P1, P2, P3.
  - cbn [map2]. now rewrite P0, P1, P2, P3.
Qed.
