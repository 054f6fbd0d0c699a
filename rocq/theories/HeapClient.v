(** Client programs that use several hash contexts of common/fips202.c at once.

    Specification: a context is the bytes it was fed, or those and the number of bytes read so far
    ([life]); [spec_run] says which calls the interface allows and what they return.
    Model: variables hold the pointers of Heap.v ([run]). *)
From Coq Require Import ZifyBool ZifyNat.
From Verif Require Import Base Keccak Sponge SpongePure SpongeProofs SpongeProofs2 Heap HeapProofs.
Local Open Scope Z_scope.
Ltac Zify.zify_post_hook ::= idtac.
#[local] Opaque Keccak.KeccakF1600_StatePermute.

(** ** Specification *)
Inductive call :=
| Init (x : Z) | Absorb (x : Z) (m : list Z) | Finalize (x : Z) | Squeeze (x n : Z)
| Clone (x y : Z)                                                  (* x becomes a copy of y *)
| Release (x : Z)
| Digest (x : Z).                                                  (* sha3_*_inc_finalize *)
Inductive life := Fed (m : list Z) | Read (m : list Z) (t : Z).
Definition set {A} (f : Z -> A) (x : Z) (v : A) (y : Z) : A := if y =? x then v else f y.
(** [r]: rate of the function, [d]: digest length for SHA-3 *)
Fixpoint spec_run (r d : Z) (ops : list call) (st : Z -> option life) : option (list (list Z) * (Z -> option life)) :=
  match ops with
  | [] => Some ([], st)
  | Init x :: ops => match st x with None => spec_run r d ops (set st x (Some (Fed []))) | _ => None end
  | Absorb x m :: ops => match st x with Some (Fed m') => spec_run r d ops (set st x (Some (Fed (m' ++ m)))) | _ => None end
  | Finalize x :: ops => match st x with Some (Fed m) => spec_run r d ops (set st x (Some (Read m 0))) | _ => None end
  | Squeeze x n :: ops =>
      match st x with
      | Some (Read m t) =>
          if n <? 0 then None else
          match spec_run r d ops (set st x (Some (Read m (t + n)))) with
          | Some (outs, st') => Some (slice (sponge_bytes r 0x1F m (t + n)) t n :: outs, st')
          | None => None
          end
      | _ => None
      end
  | Clone x y :: ops => match st x, st y with None, Some l => spec_run r d ops (set st x (Some l)) | _, _ => None end
  | Release x :: ops => match st x with Some _ => spec_run r d ops (set st x None) | _ => None end
  | Digest x :: ops =>
      match st x with
      | Some (Fed m) =>
          match spec_run r d ops (set st x None) with
          | Some (outs, st') => Some (sponge_bytes r 0x06 m d :: outs, st')
          | None => None
          end
      | _ => None
      end
  end.
Definition nothing : Z -> option life := fun _ => None.

(** ** The program: [env] gives the pointer in each variable *)
Fixpoint run (r d : Z) (ops : list call) (env : Z -> Z) : M (list (list Z)) :=
  match ops with
  | [] => mret []
  | Init x :: ops => mbind inc_init_h (fun p => run r d ops (set env x p))
  | Absorb x m :: ops => mbind (inc_absorb_h r (env x) m (zlen m)) (fun _ => run r d ops env)
  | Finalize x :: ops => mbind (inc_finalize_h r (env x)) (fun _ => run r d ops env)
  | Squeeze x n :: ops => mbind (inc_squeeze_h r (zeros n) 0 n (env x)) (fun o => mbind (run r d ops env) (fun os => mret (o :: os)))
  | Clone x y :: ops => mbind (inc_clone_h (env y)) (fun p => run r d ops (set env x p))
  | Release x :: ops => mbind (release_h (env x)) (fun _ => run r d ops env)
  | Digest x :: ops => mbind (sha3_inc_finalize_h r d (zeros d) (env x)) (fun o => mbind (run r d ops env) (fun os => mret (o :: os)))
  end.

(** ** Proofs *)
Definition keys (L : heap) : list Z := map fst L.
Lemma find_in p L : find p L <> None <-> In p (keys L).
Proof.
  induction L as [|[q b] L IH]; cbn [find keys map fst In]; [split; [contradiction|intros []]|]. fold (keys L).
  destruct (Z.eqb_spec p q) as [->|e]; [split; [now left|discriminate]|]. rewrite IH. split; [now right|]. intros [H|H]; [congruence|exact H].
Qed.
Lemma find_app p L h : find p (L ++ h) = match find p L with Some b => Some b | None => find p h end.
Proof. induction L as [|[q b] L IH]; [reflexivity|]. cbn [app find]. now destruct (p =? q). Qed.
Lemma update_app p b L h : find p L <> None -> update p b (L ++ h) = update p b L ++ h.
Proof. induction L as [|[q c] L IH]; cbn [find]; [contradiction|]. cbn [app update]. destruct (p =? q); [reflexivity|]. intros H. now rewrite IH. Qed.
Lemma remove_app p L h : find p L <> None -> remove p (L ++ h) = remove p L ++ h.
Proof. induction L as [|[q c] L IH]; cbn [find]; [contradiction|]. cbn [app remove]. destruct (p =? q); [reflexivity|]. intros H. now rewrite IH. Qed.
Lemma keys_update p b L : keys (update p b L) = keys L.
Proof. induction L as [|[q c] L IH]; [reflexivity|]. cbn [update]. destruct (p =? q); [reflexivity|]. cbn [keys map fst]. f_equal. exact IH. Qed.
Lemma find_update p b L : find p L <> None -> find p (update p b L) = Some b.
Proof. induction L as [|[q c] L IH]; cbn [find]; [contradiction|]. cbn [update]. destruct (p =? q) eqn:E; cbn [find]; rewrite E; [reflexivity|exact IH]. Qed.
Lemma find_update_other p q b L : q <> p -> find q (update p b L) = find q L.
Proof.
  intros H. induction L as [|[k c] L IH]; [reflexivity|]. cbn [update]. destruct (Z.eqb_spec p k) as [->|e]; cbn [find]; [replace (q =? k) with false by lia; reflexivity|]. now rewrite IH.
Qed.
Lemma find_remove_other p q L : q <> p -> find q (remove p L) = find q L.
Proof.
  intros H. induction L as [|[k c] L IH]; [reflexivity|]. cbn [remove]. destruct (Z.eqb_spec p k) as [->|e]; cbn [find]; [replace (q =? k) with false by lia; reflexivity|]. now rewrite IH.
Qed.
Lemma keys_remove p L q : In q (keys (remove p L)) -> In q (keys L).
Proof. induction L as [|[k c] L IH]; [exact (fun H => H)|]. cbn [remove]. destruct (p =? k); cbn [keys map fst In]; [now right|]. intros [H|H]; [now left|right; now apply IH]. Qed.
Lemma nodup_remove p L : NoDup (keys L) -> NoDup (keys (remove p L)) /\ ~ In p (keys (remove p L)).
Proof.
  induction L as [|[k c] L IH]; intros H; [split; [exact H|intros []]|]. cbn [keys map fst] in H. fold (keys L) in H. inversion H as [|? ? Hk HN]; subst. cbn [remove].
  destruct (Z.eqb_spec p k) as [->|e]; [split; assumption|]. destruct (IH HN) as [N1 N2]. cbn [keys map fst]. fold (keys (remove p L)). split.
  - constructor; [|exact N1]. intros HI. apply Hk. now apply (keys_remove p).
  - intros [HI|HI]; [congruence|contradiction].
Qed.

Section Run.
Variables r d : Z.
Hypothesis Hr : 0 < r <= 200.
Hypothesis H8 : r mod 8 = 0.
Hypothesis Hd : 0 <= d <= r.
Variable alloc : nat -> heap -> option Z.
Hypothesis HA : honest alloc.

Definition rel (l : life) (c : inc_ctx) : Prop :=
  match l with
  | Fed m => ctx_ok r c /\ ctx_pair c = absorb r m
  | Read m t => 0 <= t /\ squeezing r (pad_state r 0x1F (absorb r m)) t c
  end.
Definition inv (st : Z -> option life) (env : Z -> Z) (L : heap) : Prop :=
  NoDup (keys L) /\
  (forall x l, st x = Some l -> exists c, find (env x) L = Some (Inc c) /\ rel l c) /\
  (forall x y, st x <> None -> st y <> None -> env x = env y -> x = y) /\
  (forall p, In p (keys L) -> exists x, st x <> None /\ env x = p).

Lemma inv_fresh st env L x l p c : inv st env L -> find p L = None -> st x = None -> rel l c ->
  inv (set st x (Some l)) (set env x p) ((p, Inc c) :: L).
Proof.
  intros (N & F & I & K) Hp Hx Hc. assert (Hn: ~ In p (keys L)) by (intros HI; apply find_in in HI; contradiction).
  assert (E: forall y, y <> x -> set env x p y = env y) by (intros y Hy; unfold set; destruct (Z.eqb_spec y x); [contradiction|reflexivity]).
  assert (Ex: set env x p x = p) by (unfold set; now rewrite Z.eqb_refl).
  assert (O: forall y, y <> x -> set st x (Some l) y = st y) by (intros y Hy; unfold set; destruct (Z.eqb_spec y x); [contradiction|reflexivity]).
  assert (Live: forall y, st y <> None -> env y <> p). { intros y Hy He. destruct (st y) as [ly|] eqn:Ey; [|contradiction]. destruct (F y ly Ey) as (cy & Fy & _). rewrite He in Fy. congruence. }
  split; [cbn [keys map fst]; constructor; assumption|]. split; [|split].
  - intros y ly Hy. destruct (Z.eq_dec y x) as [->|Hne].
    + unfold set in Hy. rewrite Z.eqb_refl in Hy. injection Hy as <-. exists c. rewrite Ex. split; [apply find_hd|exact Hc].
    + rewrite O in Hy by exact Hne. rewrite E by exact Hne. destruct (F y ly Hy) as (cy & Fy & Ry). exists cy. split; [|exact Ry]. cbn [find]. destruct (Z.eqb_spec (env y) p) as [He|He]; [|exact Fy]. exfalso. apply (Live y); congruence.
  - intros y z Hy Hz He. destruct (Z.eq_dec y x) as [->|Hy']; destruct (Z.eq_dec z x) as [->|Hz']; [reflexivity| | |].
    + rewrite Ex, E in He by exact Hz'. rewrite O in Hz by exact Hz'. exfalso. apply (Live z Hz). congruence.
    + rewrite Ex, E in He by exact Hy'. rewrite O in Hy by exact Hy'. exfalso. apply (Live y Hy). congruence.
    + rewrite !E in He by assumption. rewrite O in Hy, Hz by assumption. now apply I.
  - intros q Hq. cbn [keys map fst In] in Hq. destruct Hq as [<-|Hq].
    + exists x. rewrite Ex. split; [unfold set; now rewrite Z.eqb_refl|reflexivity].
    + destruct (K q Hq) as (y & Hy & Ey). assert (y <> x) by (intros ->; contradiction). exists y. rewrite O, E by assumption. split; assumption.
Qed.
Lemma inv_update st env L x l c : inv st env L -> st x <> None -> rel l c -> inv (set st x (Some l)) env (update (env x) (Inc c) L).
Proof.
  intros (N & F & I & K) Hx Hc. destruct (st x) as [lx|] eqn:Ex; [|contradiction]. destruct (F x lx Ex) as (cx & Fx & _).
  assert (O: forall y, y <> x -> set st x (Some l) y = st y) by (intros y Hy; unfold set; destruct (Z.eqb_spec y x); [contradiction|reflexivity]).
  assert (S: forall y, set st x (Some l) y <> None -> st y <> None). { intros y Hy. destruct (Z.eq_dec y x) as [->|Hn]; [congruence|now rewrite O in Hy]. }
  split; [now rewrite keys_update|]. split; [|split].
  - intros y ly Hy. destruct (Z.eq_dec y x) as [->|Hne].
    + unfold set in Hy. rewrite Z.eqb_refl in Hy. injection Hy as <-. exists c. split; [apply find_update; congruence|exact Hc].
    + rewrite O in Hy by exact Hne. destruct (F y ly Hy) as (cy & Fy & Ry). exists cy. split; [|exact Ry]. rewrite find_update_other; [exact Fy|]. intros He. apply Hne, I; congruence.
  - intros y z Hy Hz. apply I; now apply S.
  - intros q Hq. rewrite keys_update in Hq. destruct (K q Hq) as (y & Hy & Ey). exists y. split; [|exact Ey]. destruct (Z.eq_dec y x) as [->|Hn]; [unfold set; now rewrite Z.eqb_refl|now rewrite O].
Qed.
Lemma inv_remove st env L x : inv st env L -> st x <> None -> inv (set st x None) env (remove (env x) L).
Proof.
  intros (N & F & I & K) Hx.
  assert (O: forall y, y <> x -> set st x (@None life) y = st y) by (intros y Hy; unfold set; destruct (Z.eqb_spec y x); [contradiction|reflexivity]).
  assert (X: set st x (@None life) x = None) by (unfold set; now rewrite Z.eqb_refl).
  assert (Y: forall y, set st x (@None life) y <> None -> y <> x /\ st y <> None). { intros y Hy. destruct (Z.eq_dec y x) as [->|Hn]; [contradiction|]. rewrite O in Hy by exact Hn. split; assumption. }
  destruct (nodup_remove (env x) L N) as [N1 N2]. split; [exact N1|]. split; [|split].
  - intros y ly Hy. destruct (Y y) as [Hne Hl]; [congruence|]. rewrite O in Hy by exact Hne. destruct (F y ly Hy) as (cy & Fy & Ry). exists cy. split; [|exact Ry]. rewrite find_remove_other; [exact Fy|]. intros He. apply Hne, I; assumption.
  - intros y z Hy Hz. apply I; [now apply Y|now apply Y].
  - intros q Hq. destruct (K q (keys_remove _ _ _ Hq)) as (y & Hy & Ey). exists y. split; [|exact Ey]. rewrite O; [exact Hy|]. intros ->. subst q. contradiction.
Qed.

Definition good (outs : list (list Z)) (st : Z -> option life) (h0 : heap) (n : nat) (res : result (list (list Z))) : Prop :=
  match res with
  | Ok outs' n' h' => outs' = outs /\ (n <= n')%nat /\ exists env' L, h' = L ++ h0 /\ inv st env' L
  | Exit c => c = 111 /\ exists k h', (n <= k)%nat /\ alloc k h' = None
  | UB => False
  | More => False
  end.
Lemma good_mono outs st h0 n n' res : (n <= n')%nat -> good outs st h0 n' res -> good outs st h0 n res.
Proof. intros Hn. destruct res; cbn; [|intros (? & k & h' & ? & ?); split; [assumption|]; exists k, h'; split; [lia|assumption]|exact (fun H => H)|exact (fun H => H)]. intros (? & ? & ?). split; [assumption|]. split; [lia|assumption]. Qed.
Lemma good_cons o outs st h0 n (m : M (list (list Z))) h : good outs st h0 n (m alloc n h) -> good (o :: outs) st h0 n (mbind m (fun os => mret (o :: os)) alloc n h).
Proof. unfold mbind. destruct (m alloc n h); cbn; auto. intros (-> & ? & ?). auto. Qed.

Lemma load_live p c L h0 n : find p L = Some (Inc c) -> load_inc p alloc n (L ++ h0) = Ok c n (L ++ h0).
Proof. intros H. unfold load_inc, mbind, load. rewrite find_app, H. reflexivity. Qed.
Lemma store_live p c c' L h0 n : find p L = Some (Inc c) -> store p (Inc c') alloc n (L ++ h0) = Ok tt n (update p (Inc c') L ++ h0).
Proof. intros H. unfold store. rewrite find_app, H. cbn [size_of]. change (208 <=? 208) with true. cbv iota. rewrite update_app by congruence. reflexivity. Qed.
Lemma free_live p c L h0 n : find p L = Some (Inc c) -> release_h p alloc n (L ++ h0) = Ok tt n (remove p L ++ h0).
Proof. intros H. unfold release_h, mfree. rewrite find_app, H. rewrite remove_app by congruence. reflexivity. Qed.

Lemma pad_len m : zlen (pad_state r 31 (absorb r m)) = 25.
Proof. rewrite zlen_pad_state. apply zlen_absorb. lia. Qed.
Lemma read_slice m t n : 0 <= t -> 0 <= n -> slice (sponge_bytes r 31 m (t + n)) t n = map (stream r (pad_state r 31 (absorb r m))) (zseq t (Z.to_nat n)).
Proof.
  intros Ht Hn. unfold sponge_bytes. set (s := pad_state r 31 (absorb r m)). rewrite squeeze_stream by lia.
  rewrite Z2Nat.inj_add by lia. rewrite zseq_app, map_app. rewrite slice_app_r by (rewrite ?zlen_map, ?zlen_zseq; lia). rewrite !zlen_map, zlen_zseq.
  replace (t - Z.of_nat (Z.to_nat t)) with 0 by lia. rewrite slice_all by (rewrite zlen_map, zlen_zseq; lia). do 2 f_equal. lia.
Qed.

Lemma run_good ops : forall st outs st' env L h0 n, spec_run r d ops st = Some (outs, st') -> inv st env L -> good outs st' h0 n (run r d ops env alloc n (L ++ h0)).
Proof.
  induction ops as [|op ops IH]; intros st outs st' env L h0 n HS HI.
  - cbn in HS. injection HS as <- <-. cbn. split; [reflexivity|]. split; [lia|]. exists env, L. split; [reflexivity|exact HI].
  - destruct op as [x|x m|x|x len|x y|x|x]; cbn [spec_run run] in *.
    + destruct (st x) as [|] eqn:Ex; [discriminate HS|]. unfold mbind at 1, inc_init_h, mbind, malloc. destruct (alloc n (L ++ h0)) as [p|] eqn:Ep; [|cbn; split; [reflexivity|]; exists n, (L ++ h0); split; [lia|exact Ep]].
      unfold store. rewrite find_hd. cbn [size_of]. change (208 <=? 208) with true. cbv iota. rewrite update_hd. unfold mret.
      apply good_mono with (n' := S n); [lia|]. change ((p, Inc keccak_inc_init) :: L ++ h0) with (((p, Inc keccak_inc_init) :: L) ++ h0). apply IH with (st := set st x (Some (Fed []))); [exact HS|].
      apply HA in Ep. rewrite find_app in Ep. apply inv_fresh; [exact HI|destruct (find p L); [discriminate Ep|reflexivity]|exact Ex|]. split; [apply ctx_ok_init; lia|reflexivity].
    + destruct (st x) as [[m'|]|] eqn:Ex; try discriminate HS. destruct (proj1 (proj2 HI) x _ Ex) as (c & Fx & [Rc1 Rc2]). unfold mbind at 1, inc_absorb_h, mbind. rewrite (load_live _ c) by exact Fx. unfold lift.
      destruct (keccak_inc_absorb_ok r c m (zlen m) Hr Rc1) as (c' & -> & C1 & C2); [pose proof (zlen_nonneg m); lia|]. rewrite (store_live _ c) by exact Fx.
      apply IH with (st := set st x (Some (Fed (m' ++ m)))); [exact HS|]. apply inv_update; [exact HI|congruence|]. split; [exact C1|]. rewrite C2, Rc2. rewrite slice_all by reflexivity. unfold absorb. now rewrite absorb_from_app.
    + destruct (st x) as [[m'|]|] eqn:Ex; try discriminate HS. destruct (proj1 (proj2 HI) x _ Ex) as (c & Fx & [Rc1 Rc2]). unfold mbind at 1, inc_finalize_h, mbind. rewrite (load_live _ c) by exact Fx. unfold lift.
      rewrite keccak_inc_finalize_ok by assumption. rewrite (store_live _ c) by exact Fx.
      apply IH with (st := set st x (Some (Read m' 0))); [exact HS|]. apply inv_update; [exact HI|congruence|]. split; [lia|]. rewrite Rc2. exists 0. cbn. repeat split; lia.
    + destruct (st x) as [[|m' t]|] eqn:Ex; try discriminate HS. destruct (len <? 0) eqn:El; [discriminate HS|]. destruct (spec_run r d ops _) as [[outs1 st1]|] eqn:E1; [|discriminate HS]. injection HS as <- <-.
      destruct (proj1 (proj2 HI) x _ Ex) as (c & Fx & [Rt Rc]). unfold mbind at 1, inc_squeeze_h, mbind at 1. rewrite (load_live _ c) by exact Fx. unfold mbind at 1, lift.
      destruct (keccak_inc_squeeze_ok r _ (zeros len) 0 len c t Hr (pad_len m') Rc Rt) as (c' & -> & C1); [lia|lia|rewrite zlen_zeros; lia|]. cbv beta iota. unfold mbind at 1. rewrite (store_live _ c) by exact Fx. unfold mret at 1.
      rewrite splice_whole by (rewrite zlen_map, zlen_zseq; lia). rewrite read_slice by lia. apply good_cons. apply IH with (st := set st x (Some (Read m' (t + len)))); [exact E1|]. apply inv_update; [exact HI|congruence|]. split; [lia|exact C1].
    + destruct (st x) as [|] eqn:Ex; [discriminate HS|]. destruct (st y) as [ly|] eqn:Ey; [|discriminate HS]. destruct (proj1 (proj2 HI) y _ Ey) as (c & Fy & Rc).
      unfold mbind at 1, inc_clone_h, mbind, malloc. destruct (alloc n (L ++ h0)) as [p|] eqn:Ep; [|cbn; split; [reflexivity|]; exists n, (L ++ h0); split; [lia|exact Ep]].
      apply HA in Ep. rewrite find_app in Ep. assert (Fp: find p L = None) by (destruct (find p L); [discriminate Ep|reflexivity]).
      unfold load_inc, mbind, load. cbn [find]. destruct (Z.eqb_spec (env y) p) as [He|He]; [congruence|]. rewrite find_app, Fy. unfold mret at 1. unfold store. rewrite find_hd. cbn [size_of]. change (208 <=? 208) with true. cbv iota. rewrite update_hd. unfold mret.
      apply good_mono with (n' := S n); [lia|]. change ((p, Inc c) :: L ++ h0) with (((p, Inc c) :: L) ++ h0). apply IH with (st := set st x (Some ly)); [exact HS|]. apply inv_fresh; assumption.
    + destruct (st x) as [lx|] eqn:Ex; [|discriminate HS]. destruct (proj1 (proj2 HI) x _ Ex) as (c & Fx & _). unfold mbind at 1. rewrite (free_live _ c) by exact Fx.
      apply IH with (st := set st x None); [exact HS|]. apply inv_remove; [exact HI|congruence].
    + destruct (st x) as [[m'|]|] eqn:Ex; try discriminate HS. destruct (spec_run r d ops _) as [[outs1 st1]|] eqn:E1; [|discriminate HS]. injection HS as <- <-.
      destruct (proj1 (proj2 HI) x _ Ex) as (c & Fx & [Rc1 Rc2]).
      pose proof (sha3_inc_finalize_ok r d (zeros d) c m' H8 Hr Hd ltac:(rewrite zlen_zeros; lia) Rc1 Rc2) as ED. rewrite splice_whole in ED by (unfold sponge_bytes; apply zlen_squeeze; lia). unfold sha3_inc_finalize in ED.
      unfold mbind at 1, sha3_inc_finalize_h, mbind at 1. rewrite (load_live _ c) by exact Fx. unfold mbind at 1, lift. rewrite keccak_inc_finalize_ok in * by assumption. cbn [bind lanes] in ED. set (c1 := {| lanes := _; pos := 0 |}) in *.
      unfold mbind at 1. rewrite (store_live _ c) by exact Fx. assert (F1: find (env x) (update (env x) (Inc c1) L) = Some (Inc c1)) by (apply find_update; congruence).
      unfold mbind at 1, load_state, mbind at 1, load. rewrite find_app, F1. unfold mret at 1. unfold mbind at 1, lift. change (lanes c1) with (pad_state r 6 (ctx_pair c)).
      destruct (keccak_squeezeblocks (zeros r) 0 1 (pad_state r 6 (ctx_pair c)) r) as [[t s]|]; [|discriminate ED]. cbn [bind] in ED. cbv beta iota. unfold mbind at 1. rewrite (store_live _ c1) by exact F1. set (c2 := {| lanes := s; pos := _ |}).
      set (L1 := update (env x) (Inc c1) L) in *. assert (F2: find (env x) (update (env x) (Inc c2) L1) = Some (Inc c2)) by (apply find_update; congruence).
      unfold mbind at 1. rewrite (free_live _ c2) by exact F2. rewrite ED. apply good_cons. apply IH with (st := set st x None); [exact E1|].
      assert (R0: forall b L', remove (env x) (update (env x) b L') = remove (env x) L'). { intros b L'. induction L' as [|[q w] L' IHL]; [reflexivity|]. cbn [update]. destruct (env x =? q) eqn:Eq; cbn [remove]; rewrite Eq; [reflexivity|now f_equal]. }
      unfold L1. rewrite !R0. apply inv_remove; [exact HI|congruence].
Qed.
Lemma inv_nothing env : inv nothing env [].
Proof. split; [constructor|]. split; [discriminate|]. split; [intros x y H; now destruct H|intros p []]. Qed.
Lemma inv_all_released st env L : inv st env L -> (forall x, st x = None) -> L = [].
Proof. intros (_ & _ & _ & K) H. destruct L as [|[p b] L]; [reflexivity|]. destruct (K p (or_introl eq_refl)) as (x & Hx & _). now rewrite H in Hx. Qed.
End Run.
