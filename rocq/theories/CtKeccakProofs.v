(** The instrumented programs of CtKeccak.v: their traces depend on lengths and positions only, and
    they compute what the models of Keccak.v, Sponge.v and ShakePrng.v compute. *)
From Verif Require Import Base Keccak Sponge SpongeProofs2 ShakePrng CtBase CtTweet CtTweetProofs CtKeccak.
Ltac Zify.zify_post_hook ::= idtac.

(** ** Two runs: same trace, and the public part [g] of the results agrees *)
Definition same {A P} (g : A -> P) (x x' : L A) : Prop := trace x = trace x' /\ g (value x) = g (value x').
Lemma same_bind {A B P Q} (g : A -> P) (h : B -> Q) x x' k k' :
  same g x x' -> (forall a a', g a = g a' -> same h (k a) (k' a')) -> same h (lbind x k) (lbind x' k').
Proof.
  intros (E & F) K. destruct (K _ _ F) as (E2 & F2). unfold same. rewrite !trace_bind, !value_bind, E, E2, F2. split; reflexivity.
Qed.
Lemma same_ct {A B Q} (h : B -> Q) (x x' : L A) k k' :
  trace x = trace x' -> (forall a a', same h (k a) (k' a')) -> same h (lbind x k) (lbind x' k').
Proof. intros E K. apply (same_bind (fun _ => tt)); [split; [exact E|reflexivity]|intros; apply K]. Qed.
Lemma same_trace {A P} (g : A -> P) x x' : same g x x' -> trace x = trace x'. Proof. intros H; apply H. Qed.
Lemma ct_bind_g {A B P} (g : A -> P) (x x' : L A) (k k' : A -> L B) :
  same g x x' -> (forall a a', g a = g a' -> trace (k a) = trace (k' a')) -> trace (lbind x k) = trace (lbind x' k').
Proof. intros (E & F) K. rewrite !trace_bind, E. apply f_equal. now apply K. Qed.

Ltac st := match goal with |- trace (_, _) = _ => reflexivity | _ => solve [ct] end.
Section CT.
Context {V : Type} (O : ops V).
Lemma ct_perm s s' : trace (perm_l O s) = trace (perm_l O s').
Proof. unfold perm_l. apply ct_bind; [reflexivity|]; intros. apply ct_bind; [|reflexivity]. ct. Qed.
#[local] Hint Resolve ct_perm : ct.
Lemma ct_load64 x off x' : trace (load64_l O x off) = trace (load64_l O x' off). Proof. unfold load64_l; ct. Qed.
Lemma ct_store64 x off u x' u' : trace (store64_l O x off u) = trace (store64_l O x' off u'). Proof. unfold store64_l; ct. Qed.
Lemma ct_xor_lane s i v s' v' : trace (xor_lane_l O s i v) = trace (xor_lane_l O s' i v'). Proof. unfold xor_lane_l; ct. Qed.
#[local] Hint Resolve ct_load64 ct_store64 ct_xor_lane : ct.
Lemma ct_xor_byte s j v s' v' : trace (xor_byte_l O s j v) = trace (xor_byte_l O s' j v'). Proof. unfold xor_byte_l; ct. Qed.
Lemma ct_get_byte s j s' : trace (get_byte_l O s j) = trace (get_byte_l O s' j). Proof. unfold get_byte_l; ct. Qed.
#[local] Hint Resolve ct_xor_byte ct_get_byte : ct.

Lemma ct_absorb_loop fuel : forall s r m off mlen s' m',
  same snd (absorb_loop_l O fuel s r m off mlen) (absorb_loop_l O fuel s' r m' off mlen).
Proof.
  induction fuel as [|n IH]; intros; cbn [absorb_loop_l]; destruct (mlen >=? r); try (split; reflexivity).
  repeat (apply same_ct; [st|intros]). apply IH.
Qed.
Lemma ct_absorb r m mlen p m' : trace (absorb_l O r m mlen p) = trace (absorb_l O r m' mlen p).
Proof.
  unfold absorb_l. apply ct_bind; [reflexivity|]; intros. apply (ct_bind_g snd); [apply ct_absorb_loop|].
  intros (? & ? & ?) (? & ? & ?) H; cbn [snd] in H; injection H as -> ->. ct.
Qed.
#[local] Hint Resolve ct_absorb : ct.
Lemma ct_squeezeblocks n : forall h off s r h' s', trace (squeezeblocks_l O h off n s r) = trace (squeezeblocks_l O h' off n s' r).
Proof. induction n as [|n IH]; intros; cbn [squeezeblocks_l]; [reflexivity|]. apply ct_bind; [reflexivity|intros]. ct. Qed.
#[local] Hint Resolve ct_squeezeblocks : ct.
Lemma ct_shake r out outlen inp inlen out' inp' : trace (shake_l O r out outlen inp inlen) = trace (shake_l O r out' outlen inp' inlen).
Proof. unfold shake_l. ct. Qed.
Lemma ct_sha3 r d out inp inlen out' inp' : trace (sha3_l O r d out inp inlen) = trace (sha3_l O r d out' inp' inlen).
Proof. unfold sha3_l. ct. Qed.

Lemma ct_inc_absorb_loop fuel : forall s pos r m off mlen s' m',
  same snd (inc_absorb_loop_l O fuel s pos r m off mlen) (inc_absorb_loop_l O fuel s' pos r m' off mlen).
Proof.
  induction fuel as [|n IH]; intros; cbn [inc_absorb_loop_l]; destruct (mlen + pos >=? r); try (split; reflexivity).
  repeat (apply same_ct; [st|intros]). apply IH.
Qed.
Lemma ct_inc_absorb s pos r m mlen s' m' : same snd (inc_absorb_l O (s, pos) r m mlen) (inc_absorb_l O (s', pos) r m' mlen).
Proof.
  unfold inc_absorb_l. cbv beta iota. apply (same_bind snd); [apply ct_inc_absorb_loop|].
  intros (? & (? & ?) & ?) (? & (? & ?) & ?) H; cbn [snd] in H; injection H as -> -> ->.
  apply same_ct; [st|intros; split; reflexivity].
Qed.
Lemma ct_inc_finalize s pos r p s' : same snd (inc_finalize_l O (s, pos) r p) (inc_finalize_l O (s', pos) r p).
Proof. unfold inc_finalize_l. cbv beta iota. repeat (apply same_ct; [st|intros]). split; reflexivity. Qed.
Lemma ct_inc_squeeze_loop fuel : forall h off outlen s pos r h' s',
  same (fun x => snd (snd x)) (inc_squeeze_loop_l O fuel h off outlen s pos r) (inc_squeeze_loop_l O fuel h' off outlen s' pos r).
Proof.
  induction fuel as [|n IH]; intros; cbn [inc_squeeze_loop_l]; destruct (outlen >? 0); try (split; reflexivity).
  repeat (apply same_ct; [st|intros]). apply IH.
Qed.
Lemma ct_inc_squeeze h off outlen s pos r h' s' :
  same (fun x => snd (snd x)) (inc_squeeze_l O h off outlen (s, pos) r) (inc_squeeze_l O h' off outlen (s', pos) r).
Proof. unfold inc_squeeze_l. cbv beta iota zeta. apply same_ct; [st|intros]. apply ct_inc_squeeze_loop. Qed.

Lemma ct_seedexpander_init seed n seed' : same snd (seedexpander_init_l O seed n) (seedexpander_init_l O seed' n).
Proof.
  unfold seedexpander_init_l. apply same_ct; [reflexivity|intros].
  apply (same_bind snd); [apply ct_inc_absorb|]. intros [? ?] [? ?] H; cbn [snd] in H; subst.
  apply (same_bind snd); [apply ct_inc_absorb|]. intros [? ?] [? ?] H; cbn [snd] in H; subst.
  apply ct_inc_finalize.
Qed.
Lemma ct_seedexpander s pos out n s' out' :
  same (fun x => snd (snd x)) (seedexpander_l O (s, pos) out n) (seedexpander_l O (s', pos) out' n).
Proof.
  unfold seedexpander_l. cbv zeta. apply (same_bind (fun x => snd (snd x))); [apply ct_inc_squeeze|].
  intros (? & ? & ?) (? & ? & ?) H; cbn [snd] in H; subst. destruct (n mod 8 =? 0); cbn [lif]; [split; reflexivity|].
  assert (S : forall X X' : L (list V * (list V * Z)), same (fun x => snd (snd x)) X X' ->
    same (fun x => snd (snd x)) (EBr false :: trace X, value X) (EBr false :: trace X', value X')).
  { intros X X' (E & F). split; [exact (f_equal (cons (EBr false)) E)|exact F]. }
  apply S. apply (same_bind (fun x => snd (snd x))); [apply ct_inc_squeeze|].
  intros (? & ? & ?) (? & ? & ?) H; cbn [snd] in H; subst. apply same_ct; [st|intros; split; reflexivity].
Qed.
Lemma ct_seedexpander_wrapper seed sl out ol seed' out' :
  trace (seedexpander_wrapper_l O seed sl out ol) = trace (seedexpander_wrapper_l O seed' sl out' ol).
Proof.
  unfold seedexpander_wrapper_l. repeat (apply ct_if; [reflexivity|]).
  apply (ct_bind_g snd); [apply ct_seedexpander_init|]. intros [? ?] [? ?] H; cbn [snd] in H; subst.
  apply (ct_bind_g (fun x => snd (snd x))); [apply ct_seedexpander|]. intros (? & ? & ?) (? & ? & ?) H. reflexivity.
Qed.
End CT.

(** ** Results *)
(** [x] returns [r] implies that [y] returns [g r] *)
Definition erar {A B} (g : A -> B) (x : outcome A) (y : L B) : Prop := forall r, x = Ret r -> value y = g r.
Lemma erar_bind {A B C D} (g : A -> B) (h : C -> D) x y k k' :
  erar g x y -> (forall a, erar h (k a) (k' (g a))) -> erar h (bind x k) (lbind y k').
Proof. intros E K r H. destruct x as [a|]; [|discriminate H]. rewrite value_bind, (E a eq_refl). exact (K a r H). Qed.
Lemma erar_of {A C D} (h : C -> D) (x : outcome A) y k k' :
  era x y -> (forall a, erar h (k a) (k' a)) -> erar h (bind x k) (lbind y k').
Proof. intros E K. apply (erar_bind (fun a => a)); [exact E|exact K]. Qed.
Lemma erar_skip {A B C} (h : A -> C) (x : outcome A) (y : L B) k' b : value y = b -> erar h x (k' b) -> erar h x (lbind y k').
Proof. intros E K r H. rewrite value_bind, E. exact (K r H). Qed.
Lemma erar_ret {A B} (g : A -> B) a b : b = g a -> erar g (Ret a) (lret b).
Proof. intros -> r H. injection H as <-. reflexivity. Qed.
Lemma erar_pure {A B} (g : A -> B) a l b : b = g a -> erar g (Ret a) (l, b).
Proof. intros -> r H. injection H as <-. reflexivity. Qed.

Lemma round_pair_Z rc0 rc1 s : round_pair_l Zops rc0 rc1 s = round_pair rc0 rc1 s.
Proof.
  unfold round_pair_l. assert (E1 : ROLl Zops = ROL) by reflexivity. assert (E2 : notl Zops = not64) by reflexivity.
  assert (E3 : bi Zops Xor = Z.lxor) by reflexivity. assert (E4 : bi Zops And = Z.land) by reflexivity.
  rewrite E1, E2, E3, E4. reflexivity.
Qed.
Lemma value_from_S {S} n i (f : Z -> S -> L S) s : value (lfrom (Datatypes.S n) i f s) = value (lfrom n (i + 1) f (value (f i s))).
Proof. reflexivity. Qed.
Lemma value_from_0 {S} i (f : Z -> S -> L S) s : value (lfrom 0 i f s) = s. Proof. reflexivity. Qed.
Lemma rounds_cons a b l s : rounds (a :: b :: l) s = rounds l (round_pair a b s). Proof. reflexivity. Qed.
Lemma rounds_nil s : rounds [] s = s. Proof. reflexivity. Qed.
Lemma perm_unrolled s : KeccakF1600_StatePermute s = rounds KeccakF_RoundConstants s. Proof. reflexivity. Qed.
#[local] Opaque round_pair rounds KeccakF1600_StatePermute round_gen.
Lemma lanes_bind (s : list Z) (k : list Z -> L (list Z)) : value (lbind (lanes_rd s) k) = value (k s). Proof. reflexivity. Qed.
Lemma lanes_bind' (x : L (list Z)) : value (lbind x lanes_wr) = value x. Proof. reflexivity. Qed.
Lemma perm_body (RC : list Z) i t :
  value (rc0 <~ lrd Zops RC (2 * i) ;;; rc1 <~ lrd Zops RC (2 * i + 1) ;;; lret (round_pair_l Zops rc0 rc1 t))
  = round_pair (nth (Z.to_nat (2 * i)) RC 0) (nth (Z.to_nat (2 * i + 1)) RC 0) t.
Proof. rewrite <- round_pair_Z. reflexivity. Qed.
Lemma perm_steps (RC : list Z) f s : (forall i t, value (f i t) = round_pair (nth (Z.to_nat (2 * i)) RC 0) (nth (Z.to_nat (2 * i + 1)) RC 0) t) ->
  forall n i, value (lfrom n (Z.of_nat i) f s) = rounds (flat_map (fun j => [nth (Z.to_nat (2 * Z.of_nat j)) RC 0; nth (Z.to_nat (2 * Z.of_nat j + 1)) RC 0]) (seq i n)) s.
Proof.
  intros H n. revert s. induction n as [|n IH]; intros s i.
  - cbn [seq flat_map]. rewrite rounds_nil. apply value_from_0.
  - rewrite value_from_S, H. cbn [seq flat_map app]. rewrite rounds_cons. replace (Z.of_nat i + 1) with (Z.of_nat (S i)) by lia. apply IH.
Qed.
Lemma rc_pairs : flat_map (fun j => [nth (Z.to_nat (2 * Z.of_nat j)) KeccakF_RoundConstants 0; nth (Z.to_nat (2 * Z.of_nat j + 1)) KeccakF_RoundConstants 0]) (seq 0 12) = KeccakF_RoundConstants.
Proof. vm_compute. reflexivity. Qed.
Lemma karr_Z l : karr Zops l = l. Proof. unfold karr. cbn [cst Zops]. apply map_id. Qed.
Lemma perm_Z s : value (perm_l Zops s) = KeccakF1600_StatePermute s.
Proof.
  unfold perm_l. rewrite lanes_bind. cbv beta. rewrite lanes_bind', karr_Z, perm_unrolled. unfold lfor.
  etransitivity; [exact (perm_steps KeccakF_RoundConstants _ s (perm_body KeccakF_RoundConstants) 12%nat 0%nat)|].
  apply (f_equal (fun l => rounds l s) rc_pairs).
Qed.

Lemma era_load64 x off : era (load64 x off) (load64_l Zops x off).
Proof. unfold load64, load64_l. eras. Qed.
Lemma era_store64 x off u : era (store64 x off u) (store64_l Zops x off u).
Proof. unfold store64, store64_l. eras. Qed.
Lemma era_xor_lane s i v : era (xor_lane s i v) (xor_lane_l Zops s i v).
Proof. unfold xor_lane, xor_lane_l. eras. Qed.
#[local] Hint Resolve era_load64 era_store64 era_xor_lane : era.
Lemma era_xor_byte s i v : era (xor_byte s i v) (xor_byte_l Zops s i v).
Proof. unfold xor_byte, xor_byte_l. eras. Qed.
Lemma era_get_byte s i : era (get_byte s i) (get_byte_l Zops s i).
Proof. unfold get_byte, get_byte_l. eras. Qed.
#[local] Hint Resolve era_xor_byte era_get_byte : era.

Lemma erar_perm {A B} (g : A -> B) (x : outcome A) s k : erar g x (k (KeccakF1600_StatePermute s)) -> erar g x (lbind (perm_l Zops s) k).
Proof. apply erar_skip, perm_Z. Qed.
Lemma erar_tick {A B} (g : A -> B) (x : outcome A) e k : erar g x (k tt) -> erar g x (lbind (e, tt) k).
Proof. apply erar_skip. reflexivity. Qed.
Lemma erar_absorb_loop fuel : forall s r m off mlen,
  erar (fun '(s, off, mlen) => (s, (off, mlen))) (absorb_loop fuel s r m off mlen) (absorb_loop_l Zops fuel s r m off mlen).
Proof.
  induction fuel as [|n IH]; intros; cbn [absorb_loop absorb_loop_l]; destruct (mlen >=? r); try (apply erar_pure; reflexivity).
  - intros r' H; discriminate H.
  - apply erar_tick. apply erar_of; [eras|intros]. apply erar_perm. apply IH.
Qed.
Lemma era_absorb r m mlen p : era (keccak_absorb r m mlen p) (absorb_l Zops r m mlen p).
Proof.
  unfold keccak_absorb, absorb_l. cbv zeta. apply era_skip with (b := zeros 25); [reflexivity|].
  apply (erar_bind (fun '(s, off, mlen) => (s, (off, mlen))) (fun x => x)); [apply erar_absorb_loop|]. intros [[s off] n].
  apply era_skip with (b := zeros r); [reflexivity|]. eras.
Qed.
Lemma era_squeezeblocks n : forall h off s r, era (keccak_squeezeblocks h off n s r) (squeezeblocks_l Zops h off n s r).
Proof.
  induction n as [|n IH]; intros; cbn [keccak_squeezeblocks squeezeblocks_l]; [intros r' H; injection H as <-; reflexivity|].
  eapply era_skip; [reflexivity|]. eapply era_skip; [apply perm_Z|]. cbv zeta. apply era_bind; [eras|intros; apply IH].
Qed.
#[local] Hint Resolve era_absorb era_squeezeblocks : era.
Lemma era_shake r out ol inp il : era (shake_oneshot r out ol inp il) (shake_l Zops r out ol inp il).
Proof. unfold shake_oneshot, shake_l. eras. Qed.
Lemma era_sha3 r d out inp il : era (sha3_oneshot r d out inp il) (sha3_l Zops r d out inp il).
Proof. unfold sha3_oneshot, sha3_l. eras. Qed.

(** the incremental context as a pair *)
Definition ctx (c : inc_ctx) : list Z * Z := (lanes c, pos c).
Lemma erar_inc_absorb_loop fuel : forall c r m off mlen,
  erar (fun '(c, off, mlen) => (lanes c, (pos c, off, mlen))) (inc_absorb_loop fuel c r m off mlen) (inc_absorb_loop_l Zops fuel (lanes c) (pos c) r m off mlen).
Proof.
  induction fuel as [|n IH]; intros; cbn [inc_absorb_loop inc_absorb_loop_l]; destruct (mlen + pos c >=? r); try (apply erar_pure; reflexivity).
  - intros r' H; discriminate H.
  - apply erar_tick. apply erar_of; [eras|intros]. apply erar_perm. apply (IH {| lanes := _; pos := 0 |}).
Qed.
Lemma erar_inc_absorb c r m mlen : erar ctx (keccak_inc_absorb c r m mlen) (inc_absorb_l Zops (ctx c) r m mlen).
Proof.
  unfold keccak_inc_absorb, inc_absorb_l, ctx. cbv beta iota.
  apply (erar_bind (fun '(c, off, mlen) => (lanes c, (pos c, off, mlen)))); [apply erar_inc_absorb_loop|]. intros [[c' off] n]. cbv beta iota.
  apply erar_of; [eras|intros]. apply erar_ret. reflexivity.
Qed.
Lemma erar_inc_finalize c r p : erar ctx (keccak_inc_finalize c r p) (inc_finalize_l Zops (ctx c) r p).
Proof. unfold keccak_inc_finalize, inc_finalize_l, ctx. cbv beta iota. do 2 (apply erar_of; [eras|intros]). apply erar_ret. reflexivity. Qed.
Definition octx (x : list Z * inc_ctx) : list Z * (list Z * Z) := (fst x, ctx (snd x)).
Lemma erar_inc_squeeze_loop fuel : forall h off outlen c r,
  erar octx (inc_squeeze_loop fuel h off outlen c r) (inc_squeeze_loop_l Zops fuel h off outlen (lanes c) (pos c) r).
Proof.
  induction fuel as [|n IH]; intros; cbn [inc_squeeze_loop inc_squeeze_loop_l]; destruct (outlen >? 0); try (apply erar_pure; reflexivity).
  - intros r' H; discriminate H.
  - apply erar_tick, erar_perm. cbv zeta. apply erar_of; [eras|intros]. apply (IH _ _ _ {| lanes := _; pos := _ |}).
Qed.
Lemma erar_inc_squeeze h off outlen c r : erar octx (keccak_inc_squeeze h off outlen c r) (inc_squeeze_l Zops h off outlen (ctx c) r).
Proof.
  unfold keccak_inc_squeeze, inc_squeeze_l, ctx. cbv beta iota zeta. apply erar_of; [eras|intros].
  apply (erar_inc_squeeze_loop _ _ _ _ {| lanes := _; pos := _ |}).
Qed.
Lemma erar_seedexpander_init seed n : erar ctx (seedexpander_init seed n) (seedexpander_init_l Zops seed n).
Proof.
  unfold seedexpander_init, seedexpander_init_l. apply erar_skip with (b := zeros 25); [reflexivity|].
  apply (erar_bind ctx); [apply (erar_inc_absorb shake256_inc_init)|intros c].
  apply (erar_bind ctx); [apply (erar_inc_absorb c)|intros c']. apply erar_inc_finalize.
Qed.
Lemma erar_if {A B} (g : A -> B) (b : bool) x x' y y' : erar g x y -> erar g x' y' -> erar g (if b then x else x') (lif b y y').
Proof. destruct b; intros E F r H; unfold lif, value; cbn [snd]; [exact (E r H)|exact (F r H)]. Qed.
Lemma erar_seedexpander c out n : erar octx (seedexpander c out n) (seedexpander_l Zops (ctx c) out n).
Proof.
  unfold seedexpander, seedexpander_l, shake256_inc_squeeze. cbv zeta.
  apply (erar_bind octx); [apply erar_inc_squeeze|]. intros [o c']. unfold octx at 2; cbn [fst snd].
  apply erar_if; [now apply erar_ret|]. apply (erar_bind octx); [apply erar_inc_squeeze|]. intros [o2 c2]. unfold octx at 2; cbn [fst snd].
  apply erar_of; [eras|intros; now apply erar_ret].
Qed.
Lemma era_seedexpander_wrapper seed sl out ol :
  erar (fun x => (fst x, match snd x with Some b => b | None => [] end)) (seedexpander_wrapper (Some seed) sl (Some out) ol) (seedexpander_wrapper_l Zops seed sl out ol).
Proof.
  unfold seedexpander_wrapper, seedexpander_wrapper_l. apply erar_if; [now apply erar_ret|]. apply erar_if; [now apply erar_ret|].
  apply (erar_bind ctx); [apply erar_seedexpander_init|intros c]. apply (erar_bind octx); [apply erar_seedexpander|].
  intros [o c']. unfold octx; cbn [fst snd]. now apply erar_ret.
Qed.

(** ** Sequences of calls of the incremental functions (any chunking) *)
Section All.
Context {V : Type} (O : ops V).
Fixpoint inc_absorb_all_l (r : Z) (c : inc_l (V := V)) (chunks : list (list V)) : L inc_l :=
  match chunks with
  | [] => lret c
  | m :: rest => c <~ inc_absorb_l O c r m (zlen m) ;;; inc_absorb_all_l r c rest
  end.
Fixpoint inc_squeeze_all_l (r : Z) (c : inc_l (V := V)) (sizes : list Z) : L (list V) :=
  match sizes with
  | [] => lret []
  | n :: rest =>
      '(h, c) <~ inc_squeeze_l O (vzeros O n) 0 n c r ;;;
      t <~ inc_squeeze_all_l r c rest ;;;
      lret (h ++ t)
  end.
Definition inc_shake_l (r : Z) (chunks : list (list V)) (sizes : list Z) : L (list V) :=
  s <~ linit O 25 ;;;
  c <~ inc_absorb_all_l r (s, 0) chunks ;;;
  c <~ inc_finalize_l O c r 0x1F ;;;
  inc_squeeze_all_l r c sizes.
Lemma ct_inc_absorb_all r : forall chunks chunks' s pos s', map zlen chunks = map zlen chunks' ->
  same snd (inc_absorb_all_l r (s, pos) chunks) (inc_absorb_all_l r (s', pos) chunks').
Proof.
  induction chunks as [|m l IH]; intros [|m' l'] s pos s' H; try discriminate H; cbn [inc_absorb_all_l].
  - split; reflexivity.
  - cbn [map] in H. injection H as E H. rewrite E. apply (same_bind snd); [apply ct_inc_absorb|].
    intros [? ?] [? ?] F; cbn [snd] in F; subst. apply IH, H.
Qed.
Lemma ct_inc_squeeze_all r sizes : forall s pos s', trace (inc_squeeze_all_l r (s, pos) sizes) = trace (inc_squeeze_all_l r (s', pos) sizes).
Proof.
  induction sizes as [|n l IH]; intros s pos s'; cbn [inc_squeeze_all_l]; [reflexivity|].
  apply (ct_bind_g (fun x => snd (snd x))); [apply ct_inc_squeeze|]. intros (? & ? & ?) (? & ? & ?) F; cbn [snd] in F; subst.
  apply ct_bind; [apply IH|reflexivity].
Qed.
Lemma ct_inc_shake r chunks chunks' sizes : map zlen chunks = map zlen chunks' -> trace (inc_shake_l r chunks sizes) = trace (inc_shake_l r chunks' sizes).
Proof.
  intros H. unfold inc_shake_l. apply ct_bind; [reflexivity|intros].
  apply (ct_bind_g snd); [now apply ct_inc_absorb_all|]. intros [? ?] [? ?] F; cbn [snd] in F; subst.
  apply (ct_bind_g snd); [apply ct_inc_finalize|]. intros [? ?] [? ?] F; cbn [snd] in F; subst. apply ct_inc_squeeze_all.
Qed.
End All.
Lemma erar_inc_absorb_all r chunks : forall c, erar ctx (inc_absorb_all r c chunks) (inc_absorb_all_l Zops r (ctx c) chunks).
Proof.
  induction chunks as [|m l IH]; intros c; cbn [inc_absorb_all inc_absorb_all_l]; [now apply erar_ret|].
  apply (erar_bind ctx); [apply erar_inc_absorb|intros; apply IH].
Qed.
Lemma era_inc_squeeze_all r sizes : forall c, era (inc_squeeze_all r c sizes) (inc_squeeze_all_l Zops r (ctx c) sizes).
Proof.
  induction sizes as [|n l IH]; intros c; cbn [inc_squeeze_all inc_squeeze_all_l]; [now apply erar_ret|].
  apply (erar_bind octx (fun x => x)); [apply erar_inc_squeeze|]. intros [h c']. unfold octx; cbn [fst snd].
  apply era_bind; [apply IH|intros; apply era_ret].
Qed.
Lemma era_inc_shake r chunks sizes :
  era (c <- inc_absorb_all r keccak_inc_init chunks ;; c <- keccak_inc_finalize c r 0x1F ;; inc_squeeze_all r c sizes) (inc_shake_l Zops r chunks sizes).
Proof.
  unfold inc_shake_l. apply era_skip with (b := zeros 25); [reflexivity|].
  apply (erar_bind ctx (fun x => x)); [apply (erar_inc_absorb_all r chunks keccak_inc_init)|intros c].
  apply (erar_bind ctx (fun x => x)); [apply erar_inc_finalize|intros c']. apply era_inc_squeeze_all.
Qed.
