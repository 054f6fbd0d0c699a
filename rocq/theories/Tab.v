(** Tables (arrays given by a function), loop invariants and finite sums. *)
From Verif Require Import Base SpongePure SpongeProofs.

(** ** Arrays as tabulated functions *)
Definition tab {A} (n : Z) (f : Z -> A) : list A := map f (zseq 0 (Z.to_nat n)).
Definition ix (l : list Z) (i : Z) : Z := nth (Z.to_nat i) l 0.

Lemma zlen_tab {A} n (f : Z -> A) : 0 <= n -> zlen (tab n f) = n.
Proof. intros. unfold tab. rewrite zlen_map, zlen_zseq. lia. Qed.
Lemma nth_tab {A} n (f : Z -> A) i d : 0 <= i < n -> nth (Z.to_nat i) (tab n f) d = f i.
Proof.
  intros H. unfold tab. rewrite nth_indep with (d' := f 0) by (rewrite map_length, zseq_length; lia).
  rewrite map_nth, nth_zseq by lia. f_equal. lia.
Qed.
Lemma ix_tab n f i : 0 <= i < n -> ix (tab n f) i = f i.
Proof. intros. unfold ix. now apply nth_tab. Qed.
Lemma tab_ext {A} n (f g : Z -> A) : (forall i, 0 <= i < n -> f i = g i) -> tab n f = tab n g.
Proof. intros H. unfold tab. apply map_ext_in. intros i Hi. apply in_zseq in Hi. apply H. lia. Qed.
Lemma tab_ix l n : n = zlen l -> tab n (ix l) = l.
Proof. intros ->. unfold tab, ix, zlen. rewrite Nat2Z.id. apply map_nth_zseq. Qed.
Lemma tab_nth {A} (l : list A) n d : n = zlen l -> tab n (fun i => nth (Z.to_nat i) l d) = l.
Proof.
  intros ->. apply nth_ext with (d := d) (d' := d).
  - apply Nat2Z.inj. fold (zlen (tab (zlen l) (fun i => nth (Z.to_nat i) l d))). rewrite zlen_tab; [reflexivity|apply zlen_nonneg].
  - intros k Hk. assert (Z.of_nat k < zlen l).
    { fold (zlen (tab (zlen l) (fun i => nth (Z.to_nat i) l d))) in Hk.
      assert (Hk': Z.of_nat k < zlen (tab (zlen l) (fun i => nth (Z.to_nat i) l d))) by (unfold zlen at 1; lia).
      rewrite zlen_tab in Hk'; [exact Hk'|apply zlen_nonneg]. }
    rewrite <- (Nat2Z.id k) at 1. rewrite nth_tab by lia. now rewrite Nat2Z.id.
Qed.
Lemma list_ext_ix (a b : list Z) : zlen a = zlen b -> (forall i, 0 <= i < zlen a -> ix a i = ix b i) -> a = b.
Proof.
  intros HL H. rewrite <- (tab_ix a (zlen a)), <- (tab_ix b (zlen a)) by auto. now apply tab_ext.
Qed.
Lemma ix_upd l j v i : 0 <= j < zlen l -> 0 <= i -> ix (upd l (Z.to_nat j) v) i = if i =? j then v else ix l i.
Proof.
  intros Hj Hi. unfold ix. rewrite nth_upd. unfold zlen in Hj.
  destruct (Z.eqb_spec i j) as [->|Hne].
  - rewrite Nat.eqb_refl. replace (Nat.ltb _ _) with true by (symmetry; apply Nat.ltb_lt; lia). reflexivity.
  - replace (Nat.eqb _ _) with false by (symmetry; apply Nat.eqb_neq; lia). reflexivity.
Qed.
Lemma upd_tab {A} n (f : Z -> A) j v : 0 <= j < n ->
  upd (tab n f) (Z.to_nat j) v = tab n (fun i => if i =? j then v else f i).
Proof.
  intros Hj. apply nth_ext with (d := v) (d' := v).
  - rewrite upd_length. unfold tab. now rewrite !map_length.
  - intros k Hk. rewrite upd_length in Hk.
    assert (Hk2: Z.of_nat k < n) by (unfold tab in Hk; rewrite map_length, zseq_length in Hk; lia).
    assert (N: forall g : Z -> A, nth k (tab n g) v = g (Z.of_nat k)).
    { intros g. rewrite <- (Nat2Z.id k) at 1. apply nth_tab. lia. }
    rewrite nth_upd, !N.
    destruct (Z.eqb_spec (Z.of_nat k) j) as [E|E].
    + replace (Nat.eqb _ _) with true by (symmetry; apply Nat.eqb_eq; lia).
      replace (Nat.ltb _ _) with true by (symmetry; apply Nat.ltb_lt; unfold tab; rewrite map_length, zseq_length; lia). reflexivity.
    + replace (Nat.eqb _ _) with false by (symmetry; apply Nat.eqb_neq; lia). reflexivity.
Qed.
Lemma map_tab {A B} n (f : Z -> A) (g : A -> B) : map g (tab n f) = tab n (fun i => g (f i)).
Proof. unfold tab. now rewrite map_map. Qed.
Lemma ix_map f l i : 0 <= i < zlen l -> ix (map f l) i = f (ix l i).
Proof. intros H. unfold ix. rewrite nth_indep with (d' := f 0) by (rewrite map_length; unfold zlen in H; lia). now rewrite map_nth. Qed.
Lemma ix_app a b i : 0 <= i -> ix (a ++ b) i = if i <? zlen a then ix a i else ix b (i - zlen a).
Proof.
  intros Hi. unfold ix, zlen. destruct (Z.ltb_spec i (Z.of_nat (length a))).
  - now rewrite app_nth1 by lia.
  - rewrite app_nth2 by lia. f_equal. lia.
Qed.
Lemma ix_slice l off n i : 0 <= off -> 0 <= i < n -> ix (slice l off n) i = ix l (off + i).
Proof. intros. unfold ix. rewrite nth_slice by lia. f_equal. lia. Qed.
Lemma rd_ix l i : 0 <= i < zlen l -> rd 0 l i = Ret (ix l i).
Proof. apply rd_ok. Qed.

(** ** Loop invariants *)
Lemma for_from_inv {S} (P : Z -> S -> Prop) f : forall n i s,
  P i s -> (forall j s, i <= j < i + Z.of_nat n -> P j s -> exists s', f j s = Ret s' /\ P (j + 1) s') ->
  exists s', for_from n i f s = Ret s' /\ P (i + Z.of_nat n) s'.
Proof.
  induction n as [|n IH]; intros i s H Hs; cbn [for_from].
  - exists s. rewrite Z.add_0_r. auto.
  - destruct (Hs i s ltac:(lia) H) as (s1 & E & H1). rewrite E. cbn [bind].
    destruct (IH (i + 1) s1 H1) as (s2 & E2 & H2).
    { intros j t Hj. apply Hs. lia. }
    exists s2. split; [exact E2|]. replace (i + Z.of_nat (Datatypes.S n)) with (i + 1 + Z.of_nat n) by lia. exact H2.
Qed.
Lemma for_loop_inv {S} (P : Z -> S -> Prop) f n s :
  0 <= n -> P 0 s -> (forall j s, 0 <= j < n -> P j s -> exists s', f j s = Ret s' /\ P (j + 1) s') ->
  exists s', for_loop n f s = Ret s' /\ P n s'.
Proof.
  intros Hn H Hs. unfold for_loop. destruct (for_from_inv P f (Z.to_nat n) 0 s H) as (s' & E & H').
  { intros. apply Hs; [lia|auto]. }
  exists s'. split; [exact E|]. replace n with (0 + Z.of_nat (Z.to_nat n)) by lia. exact H'.
Qed.
(** the invariant determines the state exactly *)
Lemma for_loop_state {S} (st : Z -> S) f n :
  0 <= n -> (forall j, 0 <= j < n -> f j (st j) = Ret (st (j + 1))) -> for_loop n f (st 0) = Ret (st n).
Proof.
  intros Hn H. destruct (for_loop_inv (fun j s => s = st j) f n (st 0) Hn eq_refl) as (s' & E & ->); [|exact E].
  intros j s Hj ->. exists (st (j + 1)). auto.
Qed.

(** ** Element-wise loops over arrays *)
Fixpoint mapM {A B} (f : A -> outcome B) (l : list A) : outcome (list B) :=
  match l with [] => Ret [] | x :: l => y <- f x ;; r <- mapM f l ;; Ret (y :: r) end.
Fixpoint map2M {A B C} (f : A -> B -> outcome C) (l : list A) (m : list B) : outcome (list C) :=
  match l, m with
  | x :: l, y :: m => z <- f x y ;; r <- map2M f l m ;; Ret (z :: r)
  | [], [] => Ret []
  | _, _ => Undef   (* arrays of different length: a read outside one of them *)
  end.
Fixpoint map2 {A B C} (f : A -> B -> C) (l : list A) (m : list B) : list C :=
  match l, m with x :: l, y :: m => f x y :: map2 f l m | _, _ => [] end.
Lemma mapM_ok {A B} (f : A -> outcome B) g l : Forall (fun x => f x = Ret (g x)) l -> mapM f l = Ret (map g l).
Proof. induction 1 as [|x l H _ IH]; cbn [mapM map]; [reflexivity|]. rewrite H. cbn [bind]. rewrite IH. reflexivity. Qed.
Lemma map2M_ok {A B C} (f : A -> B -> outcome C) g l m : Forall2 (fun x y => f x y = Ret (g x y)) l m ->
  map2M f l m = Ret (map2 g l m).
Proof. induction 1 as [|x y l m H _ IH]; cbn [map2M map2]; [reflexivity|]. rewrite H. cbn [bind]. rewrite IH. reflexivity. Qed.
Lemma map2_length {A B C} (f : A -> B -> C) l m : length l = length m -> length (map2 f l m) = length l.
Proof. revert m; induction l as [|x l IH]; intros [|y m] H; cbn in *; try discriminate; auto. Qed.
Lemma zlen_map2 {A B C} (f : A -> B -> C) l m : zlen l = zlen m -> zlen (map2 f l m) = zlen l.
Proof. unfold zlen. intros. rewrite map2_length; lia. Qed.
Lemma nth_map2 {A B C} (f : A -> B -> C) l m i da db dc : length l = length m -> (i < length l)%nat ->
  nth i (map2 f l m) dc = f (nth i l da) (nth i m db).
Proof.
  revert m i; induction l as [|x l IH]; intros [|y m] i H Hi; cbn in *; try discriminate; try lia.
  destruct i; [reflexivity|]. apply IH; lia.
Qed.
Lemma ix_map2 f l m i : zlen l = zlen m -> 0 <= i < zlen l -> ix (map2 f l m) i = f (ix l i) (ix m i).
Proof. intros H Hi. unfold ix. unfold zlen in *. apply nth_map2; lia. Qed.
Lemma Forall_ix (P : Z -> Prop) l : Forall P l <-> (forall i, 0 <= i < zlen l -> P (ix l i)).
Proof.
  rewrite Forall_forall. split.
  - intros H i Hi. apply H. unfold ix, zlen in *. apply nth_In. lia.
  - intros H x Hx. destruct (In_nth _ _ 0 Hx) as (k & Hk & <-).
    specialize (H (Z.of_nat k)). unfold ix in H. rewrite Nat2Z.id in H. apply H. unfold zlen. lia.
Qed.
Lemma Forall2_ix (P : Z -> Z -> Prop) l m : zlen l = zlen m ->
  (forall i, 0 <= i < zlen l -> P (ix l i) (ix m i)) -> Forall2 P l m.
Proof.
  revert m; induction l as [|x l IH]; intros [|y m] HL H; unfold zlen in HL; cbn in HL; try discriminate; constructor.
  - apply (H 0). unfold zlen. cbn. lia.
  - apply IH; [unfold zlen; lia|]. intros i Hi. specialize (H (i + 1)). unfold ix in *.
    replace (Z.to_nat (i + 1)) with (Datatypes.S (Z.to_nat i)) in H by lia. cbn [nth] in H. apply H. rewrite zlen_cons. lia.
Qed.

(** ** Finite sums: [sumz n f] is f 0 + ... + f (n-1) *)
Fixpoint sumn (n : nat) (f : Z -> Z) : Z :=
  match n with O => 0 | Datatypes.S n' => sumn n' f + f (Z.of_nat n') end.
Definition sumz (n : Z) (f : Z -> Z) : Z := sumn (Z.to_nat n) f.
Lemma sumz_0 f : sumz 0 f = 0. Proof. reflexivity. Qed.
Lemma sumz_S n f : 0 <= n -> sumz (n + 1) f = sumz n f + f n.
Proof. intros. unfold sumz. replace (Z.to_nat (n + 1)) with (Datatypes.S (Z.to_nat n)) by lia. cbn [sumn]. f_equal. f_equal. lia. Qed.
Lemma sumz_ext n f g : (forall i, 0 <= i < n -> f i = g i) -> sumz n f = sumz n g.
Proof.
  unfold sumz. intros H. assert (Hn: Z.of_nat (Z.to_nat n) <= Z.max 0 n) by lia. revert Hn.
  generalize (Z.to_nat n). induction n0 as [|k IH]; intros Hk; cbn [sumn]; [reflexivity|].
  rewrite IH by lia. f_equal. apply H. lia.
Qed.
Lemma sumz_ind (P : Z -> Prop) : P 0 -> (forall n, 0 <= n -> P n -> P (n + 1)) -> forall n, 0 <= n -> P n.
Proof. intros H0 HS n Hn. revert n Hn. apply natlike_ind; [exact H0|]. intros x Hx. unfold Z.succ. now apply HS. Qed.
Lemma sumz_add n f g : 0 <= n -> sumz n (fun i => f i + g i) = sumz n f + sumz n g.
Proof. revert n. apply sumz_ind; [reflexivity|]. intros n Hn IH. rewrite !sumz_S by lia. lia. Qed.
Lemma sumz_scale n c f : 0 <= n -> sumz n (fun i => c * f i) = c * sumz n f.
Proof. revert n. apply sumz_ind; [rewrite !sumz_0; lia|]. intros n Hn IH. rewrite !sumz_S by lia. lia. Qed.
Lemma sumz_scale_r n c f : 0 <= n -> sumz n (fun i => f i * c) = sumz n f * c.
Proof. revert n. apply sumz_ind; [rewrite !sumz_0; lia|]. intros n Hn IH. rewrite !sumz_S by lia. lia. Qed.
Lemma sumz_zero n f : 0 <= n -> (forall i, 0 <= i < n -> f i = 0) -> sumz n f = 0.
Proof. intros Hn H. rewrite (sumz_ext n f (fun i => 0 * 0)) by (intros; rewrite H; lia). rewrite sumz_scale; lia. Qed.
Lemma sumz_split a b f : 0 <= a -> 0 <= b -> sumz (a + b) f = sumz a f + sumz b (fun i => f (a + i)).
Proof.
  intros Ha. revert b. apply sumz_ind; [rewrite sumz_0, Z.add_0_r; lia|]. intros b Hb IH.
  rewrite Z.add_assoc, !sumz_S by lia. lia.
Qed.
Lemma sumz_swap n m f : 0 <= n -> 0 <= m ->
  sumz n (fun i => sumz m (fun j => f i j)) = sumz m (fun j => sumz n (fun i => f i j)).
Proof.
  intros Hn Hm. revert n Hn. apply sumz_ind.
  - rewrite sumz_0. symmetry. apply sumz_zero; [lia|]. intros; apply sumz_0.
  - intros n Hn IH. rewrite sumz_S, IH, <- sumz_add by lia. apply sumz_ext. intros j Hj. now rewrite sumz_S.
Qed.
