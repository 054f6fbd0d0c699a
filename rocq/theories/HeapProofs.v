(** Every hash context that the programs of Heap.v allocate is released once and used only before. *)
From Coq Require Import ZifyBool ZifyNat.
From Verif Require Import Base Keccak Sponge SpongePure SpongeProofs SpongeProofs2 ShakePrng DilReduce Tab DilNtt DilPoly DilVec DilSign DilBuf DilBufProofs Heap.
Local Open Scope Z_scope.
Ltac Zify.zify_post_hook ::= idtac.
#[local] Opaque Keccak.KeccakF1600_StatePermute.

(** malloc never hands out the address of a live block *)
Definition honest (alloc : nat -> heap -> option Z) : Prop := forall n h p, alloc n h = Some p -> find p h = None.

(** [m] computes [o] and leaves the heap as it found it, or ends the process because malloc failed. *)
Definition ends {A} (alloc : nat -> heap -> option Z) (n : nat) (h : heap) (o : outcome (option A)) (r : result A) : Prop :=
  match r with
  | Ok a n' h' => o = Ret (Some a) /\ h' = h /\ (n <= n')%nat
  | Exit c => c = 111 /\ exists k h', (n <= k)%nat /\ alloc k h' = None
  | UB => o = Undef
  | More => o = Ret None
  end.
Definition bal {A} (m : M A) (o : outcome (option A)) : Prop := forall alloc, honest alloc -> forall n h, ends alloc n h o (m alloc n h).
(** The same for the rest of a program that holds the context [c] at [p] and must release it. *)
Definition fin {A} (p : Z) (c : inc_ctx) (m : M A) (o : outcome (option A)) : Prop :=
  forall alloc, honest alloc -> forall n h, ends alloc n h o (m alloc n ((p, Inc c) :: h)).
Definition some {A} (o : outcome A) : outcome (option A) := bind o (fun a => Ret (Some a)).
(** an option-valued computation followed by the rest *)
Definition obnd {A B} (o : outcome (option A)) (f : A -> outcome (option B)) : outcome (option B) :=
  bind o (fun r => match r with None => Ret None | Some a => f a end).

Lemma ends_bind {A B} alloc n h (r : result A) o (k : A -> M B) f : ends alloc n h o r -> (forall a n', o = Ret (Some a) -> (n <= n')%nat -> ends alloc n' h (f a) (k a alloc n' h)) ->
  ends alloc n h (obnd o f) (match r with Ok a n h => k a alloc n h | Exit c => Exit c | UB => UB | More => More end).
Proof.
  intros E K. destruct r as [a n' h'|c| |]; cbn [ends] in *.
  - destruct E as (-> & -> & L). cbn [obnd bind]. specialize (K a n' eq_refl L). destruct (k a alloc n' h) as [b n'' h''|c| |]; cbn [ends] in *; [destruct K as (? & ? & ?); repeat split; try assumption; lia| |assumption|assumption].
    destruct K as (? & j & hj & ? & ?). split; [assumption|]. exists j, hj. split; [lia|assumption].
  - exact E. - subst o. reflexivity. - subst o. reflexivity.
Qed.
Lemma bal_bind {A B} (m : M A) o (k : A -> M B) f : bal m o -> (forall a, o = Ret (Some a) -> bal (k a) (f a)) -> bal (mbind m k) (obnd o f).
Proof. intros Hm Hk alloc HA n h. unfold mbind. apply ends_bind; [now apply Hm|]. intros a n' E _. now apply Hk. Qed.
Lemma bal_ret {A} (a : A) : bal (mret a) (Ret (Some a)).
Proof. intros alloc HA n h. cbn. repeat split. lia. Qed.
Lemma bal_more {A} : bal (A := A) mmore (Ret None).
Proof. intros alloc HA n h. reflexivity. Qed.
Lemma bal_lift {A} (o : outcome A) : bal o (some o).
Proof. intros alloc HA n h. unfold lift, some. destruct o; cbn; [repeat split; lia|reflexivity]. Qed.
Lemma bal_o {A B} (o : outcome A) (k : A -> M B) f : (forall a, o = Ret a -> bal (k a) (f a)) -> bal (mbind (lift o) k) (bind o f).
Proof. intros Hk alloc HA n h. unfold mbind, lift. destruct o as [a|]; [|reflexivity]. cbn [bind]. now apply Hk. Qed.
Lemma bal_assoc {A B C} (m : M A) (f : A -> M B) (k : B -> M C) o : bal (mbind m (fun a => mbind (f a) k)) o -> bal (mbind (mbind m f) k) o.
Proof. intros H alloc HA n h. specialize (H alloc HA n h). unfold mbind in *. now destruct (m alloc n h). Qed.
(** a call that returns a value, and one that may not have ended *)
Lemma bal_call {A B} (m : M A) o (k : A -> M B) f : bal m (some o) -> (forall a, o = Ret a -> bal (k a) (f a)) -> bal (mbind m k) (bind o f).
Proof.
  intros Hm Hk alloc HA n h. specialize (Hm alloc HA n h). unfold mbind. destruct o as [a|].
  - pose proof (ends_bind alloc n h _ _ k f Hm) as E. cbn [some bind obnd] in E. apply E. intros a' n' Ea _. injection Ea as <-. now apply Hk.
  - pose proof (ends_bind alloc n h _ _ k f Hm) as E. cbn [some bind obnd] in E. apply E. intros a' n' Ea _. discriminate Ea.
Qed.
Lemma bal_opt {A B} (m : M A) r (k : A -> M B) f : bal m (Ret r) -> (forall a, r = Some a -> bal (k a) (f a)) ->
  bal (mbind m k) (match r with Some a => f a | None => Ret None end).
Proof.
  intros Hm Hk alloc HA n h. specialize (Hm alloc HA n h). unfold mbind. pose proof (ends_bind alloc n h _ _ k f Hm) as E. destruct r as [a|]; cbn [obnd bind] in E; apply E; intros a' n' Ea _; [injection Ea as <-; now apply Hk|discriminate Ea].
Qed.
Lemma bal_val {A B} (m : M A) v (k : A -> M B) o : bal m (Ret (Some v)) -> bal (k v) o -> bal (mbind m k) o.
Proof. intros Hm Hk. apply (bal_opt m (Some v) k (fun _ => o) Hm). intros a E. injection E as <-. exact Hk. Qed.
Lemma bal_cases {A} (b : bool) (m m' : M A) o o' : (b = true -> bal m o) -> (b = false -> bal m' o') -> bal (if b then m else m') (if b then o else o').
Proof. destruct b; auto. Qed.

(** ** Holding a context *)
Lemma find_hd p b h : find p ((p, b) :: h) = Some b. Proof. cbn [find]. now rewrite Z.eqb_refl. Qed.
Lemma update_hd p b b' h : update p b' ((p, b) :: h) = (p, b') :: h. Proof. cbn [update]. now rewrite Z.eqb_refl. Qed.
Lemma remove_hd p b h : remove p ((p, b) :: h) = h. Proof. cbn [remove]. now rewrite Z.eqb_refl. Qed.
Lemma bal_init {A} (k : Z -> M A) o : (forall p, fin p keccak_inc_init (k p) o) -> bal (mbind inc_init_h k) o.
Proof.
  intros Hk alloc HA n h. unfold mbind, inc_init_h, mbind, malloc. destruct (alloc n h) as [p|] eqn:E; [|cbn; split; [reflexivity|]; exists n, h; split; [lia|exact E]].
  unfold store. rewrite find_hd. cbn [size_of]. change (208 <=? 208) with true. cbv iota. rewrite update_hd. unfold mret.
  specialize (Hk p alloc HA (S n) h). destruct (k p alloc (S n) ((p, Inc keccak_inc_init) :: h)) as [a n' h'|c| |]; cbn [ends] in *; [destruct Hk as (? & ? & ?); repeat split; try assumption; lia| |assumption|assumption].
  destruct Hk as (? & j & hj & ? & ?). split; [assumption|]. exists j, hj. split; [lia|assumption].
Qed.
Section Hold.
Variable p : Z.
Lemma fin_assoc {A B C} c (m : M A) (f : A -> M B) (k : B -> M C) o : fin p c (mbind m (fun a => mbind (f a) k)) o -> fin p c (mbind (mbind m f) k) o.
Proof. intros H alloc HA n h. specialize (H alloc HA n h). unfold mbind in *. now destruct (m alloc n ((p, Inc c) :: h)). Qed.
Lemma fin_ret {A B} c (a : A) (k : A -> M B) o : fin p c (k a) o -> fin p c (mbind (mret a) k) o.
Proof. intros H. exact H. Qed.
Lemma fin_o {A B} c (o : outcome A) (k : A -> M B) f : (forall a, o = Ret a -> fin p c (k a) (f a)) -> fin p c (mbind (lift o) k) (bind o f).
Proof. intros Hk alloc HA n h. unfold mbind, lift. destruct o as [a|]; [|reflexivity]. cbn [bind]. now apply Hk. Qed.
Lemma load_hd c alloc n h : load_inc p alloc n ((p, Inc c) :: h) = Ok c n ((p, Inc c) :: h).
Proof. unfold load_inc, mbind, load. rewrite find_hd. reflexivity. Qed.
Lemma store_hd c c' alloc n h : store p (Inc c') alloc n ((p, Inc c) :: h) = Ok tt n ((p, Inc c') :: h).
Proof. unfold store. rewrite find_hd. cbn [size_of]. change (208 <=? 208) with true. cbv iota. now rewrite update_hd. Qed.
Lemma fin_absorb {A} c r m mlen (k : M A) f : (forall c', fin p c' k (f c')) -> fin p c (mbind (inc_absorb_h r p m mlen) (fun _ => k)) (bind (keccak_inc_absorb c r m mlen) f).
Proof.
  intros Hk alloc HA n h. unfold inc_absorb_h, mbind at 1 2. rewrite load_hd. unfold mbind, lift. destruct (keccak_inc_absorb c r m mlen) as [c'|]; [|reflexivity]. cbn [bind]. rewrite store_hd. now apply Hk.
Qed.
Lemma fin_finalize {A} c r (k : M A) f : (forall c', fin p c' k (f c')) -> fin p c (mbind (inc_finalize_h r p) (fun _ => k)) (bind (keccak_inc_finalize c r 0x1F) f).
Proof.
  intros Hk alloc HA n h. unfold inc_finalize_h, mbind at 1 2. rewrite load_hd. unfold mbind, lift. destruct (keccak_inc_finalize c r 31) as [c'|]; [|reflexivity]. cbn [bind]. rewrite store_hd. now apply Hk.
Qed.
Lemma fin_squeeze {A} c r out off len (k : list Z -> M A) f : (forall out c', fin p c' (k out) (f (out, c'))) -> fin p c (mbind (inc_squeeze_h r out off len p) k) (bind (keccak_inc_squeeze out off len c r) f).
Proof.
  intros Hk alloc HA n h. unfold inc_squeeze_h, mbind at 1 2. rewrite load_hd. unfold mbind, lift. destruct (keccak_inc_squeeze out off len c r) as [[o' c']|]; [|reflexivity]. cbn [bind]. rewrite store_hd. unfold mret. now apply Hk.
Qed.
Lemma fin_release {A} c (k : M A) o : bal k o -> fin p c (mbind (release_h p) (fun _ => k)) o.
Proof. intros Hk alloc HA n h. unfold mbind, release_h, mfree. rewrite find_hd, remove_hd. now apply Hk. Qed.
End Hold.
Arguments fin_assoc {p A B C}. Arguments fin_ret {p A B}. Arguments fin_o {p A B}. Arguments fin_absorb {p A}. Arguments fin_finalize {p A}. Arguments fin_squeeze {p A}. Arguments fin_release {p A}.

Lemma bind_assoc {A B C} (a : outcome A) (f : A -> outcome B) (g : B -> outcome C) : bind (bind a f) g = bind a (fun x => bind (f x) g).
Proof. now destruct a. Qed.

(** ** fips202.c: the one-shot functions *)
Lemma shake_h_bal r output outlen input inlen : bal (shake_h r output outlen input inlen) (some (shake_oneshot r output outlen input inlen)).
Proof.
  intros alloc HA n h. unfold shake_h, shake_oneshot, absorb_h, mbind, malloc. set (nb := outlen / r). set (rem := outlen - nb * r).
  destruct (alloc n h) as [p|] eqn:E; [|cbn; split; [reflexivity|]; exists n, h; split; [lia|exact E]].
  unfold lift. destruct (keccak_absorb r input inlen 31) as [s|]; [|reflexivity]. cbn [bind].
  unfold store at 1. rewrite find_hd. cbn [size_of]. change (200 <=? 200) with true. cbv iota. rewrite update_hd. unfold mret.
  unfold squeezeblocks_h, mbind, load_state, load, mbind. rewrite find_hd. unfold mret, lift.
  destruct (keccak_squeezeblocks output 0 (Z.to_nat nb) s r) as [[out s']|]; [|reflexivity]. cbn [bind].
  unfold store at 1. rewrite find_hd. cbn [size_of]. change (200 <=? 200) with true. cbv iota. rewrite update_hd. cbv zeta. fold rem.
  destruct (Z.eqb_spec rem 0) as [R|R].
  - cbn [negb some bind]. unfold release_h, mfree. rewrite find_hd, remove_hd. cbn. repeat split. lia.
  - cbn [negb]. rewrite find_hd. change (Z.to_nat 1) with 1%nat. destruct (keccak_squeezeblocks (zeros r) 0 1 s' r) as [[t s2]|]; [|reflexivity]. cbn [bind].
    unfold store. rewrite find_hd. cbn [size_of]. change (200 <=? 200) with true. cbv iota. rewrite update_hd.
    destruct (copy out (nb * r) t 0 rem) as [o|]; [|reflexivity]. cbn [some bind]. unfold release_h, mfree. rewrite find_hd, remove_hd. cbn. repeat split. lia.
Qed.

(** ** shake_prng.c *)
Lemma seedexpander_wrapper_h_bal seed seedlen output outlen : bal (seedexpander_wrapper_h seed seedlen output outlen) (some (seedexpander_wrapper seed seedlen output outlen)).
Proof.
  unfold seedexpander_wrapper_h, seedexpander_wrapper, seedexpander_init_h, seedexpander_init, shake256_inc_absorb, shake256_inc_init, shake256_inc_finalize.
  destruct seed as [sd|]; [|exact (bal_ret _)]. destruct output as [out|]; [|exact (bal_ret _)].
  destruct (seedlen <? 32); [exact (bal_ret _)|]. destruct (outlen <=? seedlen); [exact (bal_ret _)|].
  unfold some. rewrite !bind_assoc. apply bal_assoc, bal_init. intros p.
  apply fin_assoc, fin_absorb. intros c1. rewrite ?bind_assoc. apply fin_assoc, fin_absorb. intros c2. rewrite ?bind_assoc. apply fin_assoc, fin_finalize. intros c3.
  apply fin_ret. unfold seedexpander_h, seedexpander, shake256_inc_squeeze. cbv zeta. rewrite ?bind_assoc. apply fin_assoc, fin_squeeze. intros o c4. cbv beta iota.
  destruct (outlen mod 8 =? 0).
  - apply fin_ret, fin_release, bal_ret.
  - rewrite ?bind_assoc. apply fin_assoc, fin_squeeze. intros t c5. cbv beta iota. rewrite ?bind_assoc. apply fin_o. intros o' _. cbn [bind]. apply fin_release, bal_ret.
Qed.

(** ** dilithium2/poly.c *)
Section Samplers.
Variable loc : Z -> list Z.
Hypothesis Lloc : forall n, 0 <= n -> zlen (loc n) = n.
Variable fuel0 : nat.

Lemma uniform_while_fin {B} p (k : list Z -> M B) f : (forall a c, fin p c (k a) (f a)) ->
  forall fuel a ctr buf buflen c, fin p c (mbind (poly_uniform_while_h fuel a ctr buf buflen p) k) (obnd (poly_uniform_while fuel a ctr buf buflen c) f).
Proof.
  intros Hk fuel. induction fuel as [|fuel IH]; intros a ctr buf buflen c; cbn [poly_uniform_while_h poly_uniform_while]; (destruct (ctr <? 256); [|apply fin_ret, Hk]).
  - intros alloc HA n h. reflexivity.
  - cbv zeta. unfold obnd. rewrite bind_assoc. apply fin_assoc, fin_o. intros b1 _. unfold shake128_inc_squeeze. rewrite bind_assoc. apply fin_assoc, fin_squeeze. intros b2 c2. cbv beta iota.
    rewrite bind_assoc. apply fin_assoc, fin_o. intros [a' m] _. apply IH.
Qed.
Lemma eta_while_fin {B} p (k : list Z -> M B) f : (forall a c, fin p c (k a) (f a)) ->
  forall fuel a ctr buf c, fin p c (mbind (poly_uniform_eta_while_h fuel a ctr buf p) k) (obnd (poly_uniform_eta_while fuel a ctr buf c) f).
Proof.
  intros Hk fuel. induction fuel as [|fuel IH]; intros a ctr buf c; cbn [poly_uniform_eta_while_h poly_uniform_eta_while]; (destruct (ctr <? 256); [|apply fin_ret, Hk]).
  - intros alloc HA n h. reflexivity.
  - unfold obnd. unfold shake256_inc_squeeze. rewrite bind_assoc. apply fin_assoc, fin_squeeze. intros b2 c2. cbv beta iota.
    rewrite bind_assoc. apply fin_assoc, fin_o. intros [a' m] _. apply IH.
Qed.
Lemma obnd_ret {A} (o : outcome (option A)) : obnd o (fun a => Ret (Some a)) = o.
Proof. destruct o as [[a|]|]; reflexivity. Qed.
Lemma poly_uniform_h_bal seed nonce : zlen seed = 32 -> bal (poly_uniform_h loc fuel0 seed nonce) (Ret (poly_uniform fuel0 seed nonce)).
Proof.
  intros Hs. rewrite <- (poly_uniform_c_ok fuel0 (loc 256) (loc 842) seed nonce (Lloc 256 ltac:(lia)) (Lloc 842 ltac:(lia)) Hs).
  unfold poly_uniform_h, poly_uniform_c, stream_init_h, shake128_stream_init, shake128_inc_absorb, shake128_inc_init, shake128_inc_finalize, shake128_inc_squeeze, SHAKE128_RATE. cbv zeta.
  rewrite !bind_assoc. apply bal_assoc, bal_init. intros p.
  apply fin_assoc, fin_absorb. intros c1. rewrite ?bind_assoc. apply fin_assoc, fin_absorb. intros c2. rewrite ?bind_assoc. apply fin_assoc, fin_finalize. intros c3. apply fin_ret.
  apply fin_squeeze. intros buf c4. cbv beta iota. apply fin_o. intros [a ctr] _.
  rewrite <- (obnd_ret (poly_uniform_while _ _ _ _ _ _)). apply uniform_while_fin. intros a' c'. apply fin_release, bal_ret.
Qed.
Lemma poly_uniform_eta_h_bal seed nonce : zlen seed = 64 -> bal (poly_uniform_eta_h loc fuel0 seed nonce) (Ret (poly_uniform_eta fuel0 seed nonce)).
Proof.
  intros Hs. rewrite <- (poly_uniform_eta_c_ok fuel0 (loc 256) (loc 136) seed nonce (Lloc 256 ltac:(lia)) (Lloc 136 ltac:(lia)) Hs).
  unfold poly_uniform_eta_h, poly_uniform_eta_c, stream_init_h, shake256_stream_init, shake256_inc_absorb, shake256_inc_init, shake256_inc_finalize, shake256_inc_squeeze, SHAKE256_RATE. cbv zeta.
  rewrite !bind_assoc. apply bal_assoc, bal_init. intros p.
  apply fin_assoc, fin_absorb. intros c1. rewrite ?bind_assoc. apply fin_assoc, fin_absorb. intros c2. rewrite ?bind_assoc. apply fin_assoc, fin_finalize. intros c3. apply fin_ret.
  apply fin_squeeze. intros buf c4. cbv beta iota. apply fin_o. intros [a ctr] _.
  rewrite <- (obnd_ret (poly_uniform_eta_while _ _ _ _ _)). apply eta_while_fin. intros a' c'. apply fin_release, bal_ret.
Qed.
Lemma poly_uniform_gamma1_h_bal seed nonce : zlen seed = 64 -> bal (poly_uniform_gamma1_h loc seed nonce) (Ret (Some (poly_uniform_gamma1 seed nonce))).
Proof.
  intros Hs. change (Ret (Some (poly_uniform_gamma1 seed nonce))) with (some (Ret (poly_uniform_gamma1 seed nonce))).
  rewrite <- (poly_uniform_gamma1_c_ok (loc 680) seed nonce (Lloc 680 ltac:(lia)) Hs).
  unfold poly_uniform_gamma1_h, poly_uniform_gamma1_c, some, stream_init_h, shake256_stream_init, shake256_inc_absorb, shake256_inc_init, shake256_inc_finalize, shake256_inc_squeeze, SHAKE256_RATE. cbv zeta.
  rewrite !bind_assoc. apply bal_assoc, bal_init. intros p.
  apply fin_assoc, fin_absorb. intros c1. rewrite ?bind_assoc. apply fin_assoc, fin_absorb. intros c2. rewrite ?bind_assoc. apply fin_assoc, fin_finalize. intros c3. apply fin_ret.
  rewrite ?bind_assoc. apply fin_squeeze. intros buf c4. cbv beta iota. rewrite ?bind_assoc. apply fin_release, bal_o. intros b _. apply bal_ret.
Qed.
Lemma challenge_next_fin {B} p (k : Z * (list Z * Z) -> M B) f : (forall b buf pos c, fin p c (k (b, (buf, pos))) (f (b, (buf, pos, c)))) ->
  forall fuel i buf pos c, fin p c (mbind (challenge_next_h fuel i buf pos p) k) (obnd (challenge_next_c fuel i buf pos c) f).
Proof.
  intros Hk fuel i. induction fuel as [|fuel IH]; intros buf pos c; cbn [challenge_next_h challenge_next_c].
  - intros alloc HA n h. reflexivity.
  - unfold obnd, shake256_inc_squeeze. rewrite ?bind_assoc. destruct (136 <=? pos).
    + rewrite ?bind_assoc. apply fin_assoc, fin_assoc, fin_squeeze. intros buf' c'. cbv beta iota. apply fin_ret. cbn [bind]. rewrite bind_assoc. apply fin_assoc, fin_o. intros b _.
      destruct (i <? b); [apply IH|apply fin_ret, Hk].
    + cbn [bind]. apply fin_assoc, fin_ret. cbv beta iota. rewrite bind_assoc. apply fin_assoc, fin_o. intros b _. destruct (i <? b); [apply IH|apply fin_ret, Hk].
Qed.
Lemma challenge_loop_fin {B} p (k : list Z -> M B) f : (forall a c, fin p c (k a) (f a)) ->
  forall n i cc signs buf pos c, fin p c (mbind (challenge_loop_h fuel0 n i cc signs buf pos p) k) (obnd (challenge_loop_c fuel0 n i cc signs buf pos c) f).
Proof.
  intros Hk n. induction n as [|n IH]; intros i cc signs buf pos c; cbn [challenge_loop_h challenge_loop_c].
  - apply fin_ret, Hk.
  - unfold obnd at 1. rewrite bind_assoc.
    match goal with |- fin _ _ _ (bind (challenge_next_c ?u ?v ?w ?x ?y) ?g) => 
      assert (E: bind (challenge_next_c u v w x y) g = obnd (challenge_next_c u v w x y) (fun r => g (Some r)))
        by (unfold obnd; destruct (challenge_next_c u v w x y) as [[r|]|]; reflexivity); rewrite E; clear E end.
    apply fin_assoc, challenge_next_fin. intros b buf' pos' c'. cbv beta iota.
    rewrite ?bind_assoc. apply fin_assoc, fin_o. intros v _. rewrite ?bind_assoc. apply fin_assoc, fin_o. intros c1 _. rewrite ?bind_assoc. apply fin_assoc, fin_o. intros c2 _. apply IH.
Qed.
Lemma poly_challenge_h_bal seed : 32 <= zlen seed -> bal (poly_challenge_h loc fuel0 seed) (Ret (poly_challenge fuel0 seed)).
Proof.
  intros Hs. rewrite <- (poly_challenge_c_ok fuel0 (loc 256) (loc 136) seed (Lloc 256 ltac:(lia)) (Lloc 136 ltac:(lia)) Hs).
  unfold poly_challenge_h, poly_challenge_c, shake256_inc_absorb, shake256_inc_init, shake256_inc_finalize, shake256_inc_squeeze, SHAKE256_RATE. cbv zeta.
  apply bal_init. intros p. apply fin_absorb. intros c1. apply fin_finalize. intros c2. apply fin_squeeze. intros buf c3. cbv beta iota.
  apply fin_o. intros signs _. apply fin_o. intros cc _. rewrite <- (obnd_ret (challenge_loop_c _ _ _ _ _ _ _ _)). apply challenge_loop_fin. intros a c. apply fin_release, bal_ret.
Qed.

(** ** dilithium2/polyvec.c *)
Lemma mmap_bal {A B} (f : A -> M B) g l : (forall x, bal (f x) (Ret (g x))) -> bal (mmap f l) (Ret (mapO g l)).
Proof.
  intros H. induction l as [|x l IH]; cbn [mmap mapO]; [apply bal_ret|].
  assert (E: Ret (obind (g x) (fun y => obind (mapO g l) (fun r => Some (y :: r))))
     = match g x with Some y => match mapO g l with Some r => Ret (Some (y :: r)) | None => Ret None end | None => Ret None end) by (destruct (g x); [cbn; destruct (mapO g l)|]; reflexivity).
  rewrite E. apply bal_opt; [apply H|]. intros y _. apply bal_opt; [apply IH|]. intros r _. apply bal_ret.
Qed.
Lemma matrix_expand_h_bal rho : zlen rho = 32 -> bal (matrix_expand_h loc fuel0 rho) (Ret (matrix_expand fuel0 rho)).
Proof. intros H. unfold matrix_expand_h, matrix_expand. apply mmap_bal. intros i. apply mmap_bal. intros j. now apply poly_uniform_h_bal. Qed.
Lemma vec_uniform_eta_h_bal seed nonce : zlen seed = 64 -> bal (vec_uniform_eta_h loc fuel0 seed nonce) (Ret (vec_uniform_eta fuel0 seed nonce)).
Proof. intros H. unfold vec_uniform_eta_h, vec_uniform_eta. apply mmap_bal. intros i. now apply poly_uniform_eta_h_bal. Qed.
Lemma mapO_map {A B} (f : A -> B) l : mapO (fun x => Some (f x)) l = Some (map f l).
Proof. induction l as [|x l IH]; [reflexivity|]. cbn [mapO map obind]. now rewrite IH. Qed.
Lemma vec_uniform_gamma1_h_bal seed nonce : zlen seed = 64 -> bal (vec_uniform_gamma1_h loc seed nonce) (Ret (Some (vec_uniform_gamma1 seed nonce))).
Proof.
  intros H. unfold vec_uniform_gamma1_h, vec_uniform_gamma1. rewrite <- mapO_map. apply (mmap_bal _ (fun i => Some (poly_uniform_gamma1 seed (u16 (4 * nonce + i))))). intros i. now apply poly_uniform_gamma1_h_bal.
Qed.

(** ** dilithium2/sign.c *)
Lemma pieces_fin {A} p (k : M A) f : (forall c, fin p c k (f c)) -> forall l c, fin p c (mbind (absorb_pieces_h p l) (fun _ => k)) (bind (absorb_pieces c l) f).
Proof.
  intros Hk l. induction l as [|x l IH]; intros c; cbn [absorb_pieces_h absorb_pieces]; [apply fin_ret, Hk|].
  rewrite bind_assoc. apply fin_assoc, fin_absorb. intros c'. apply IH.
Qed.
Lemma shake256_pieces_h_bal out off n l : bal (shake256_pieces_h out off n l) (some (shake256_pieces out off n l)).
Proof.
  unfold shake256_pieces_h, shake256_pieces, some, shake256_inc_init, shake256_inc_finalize, shake256_inc_squeeze, SHAKE256_RATE. rewrite ?bind_assoc. apply bal_init. intros p.
  apply pieces_fin. intros c. rewrite ?bind_assoc. apply fin_finalize. intros c2. rewrite ?bind_assoc. apply fin_squeeze. intros o c3. apply fin_release, bal_ret.
Qed.
Lemma shake256_at_h_bal out off n inp ioff ilen : bal (shake256_at_h out off n inp ioff ilen) (some (shake256_at out off n inp ioff ilen)).
Proof.
  unfold shake256_at_h, shake256_at, some. rewrite ?bind_assoc. apply bal_o. intros i _. rewrite ?bind_assoc. apply bal_o. intros o _. rewrite ?bind_assoc.
  apply bal_call; [apply shake_h_bal|]. intros d _. apply bal_lift.
Qed.

Lemma Ret_inj {A} (x y : A) : Ret x = Ret y -> x = y.
Proof. intros E. now injection E. Qed.
Lemma rdlen l a n v : rdrange l a n = Ret v -> 0 <= n -> zlen v = n.
Proof.
  intros H Hn. unfold rdrange in H. destruct (n <=? 0) eqn:E0; [apply Ret_inj in H; subst v; change (zlen (@nil Z)) with 0; lia|].
  destruct ((0 <=? a) && (a + n <=? zlen l)) eqn:E; [|discriminate H]. apply Ret_inj in H. subst v. apply zlen_slice; lia.
Qed.
Ltac len := first [assumption | lia | match goal with E : rdrange _ _ ?n = Ret ?v |- zlen ?v = ?n => exact (rdlen _ _ _ _ E ltac:(lia)) end
  | match goal with E : rdrange _ _ ?n = Ret ?v |- ?n <= zlen ?v => rewrite (rdlen _ _ _ _ E ltac:(lia)); lia end ].
Ltac bstep := cbv beta iota zeta; lazymatch goal with
  | |- bal (mret _) _ => exact (bal_ret _)
  | |- bal (mbind (shake256_at_h _ _ _ _ _ _) _) _ => apply bal_call; [apply shake256_at_h_bal|intros ? _]
  | |- bal (mbind (shake256_pieces_h _ _ _ _) _) _ => apply bal_call; [apply shake256_pieces_h_bal|intros ? _]
  | |- bal (mbind (matrix_expand_h _ _ _) _) _ => apply bal_opt; [apply matrix_expand_h_bal; len|intros ? _]
  | |- bal (mbind (vec_uniform_eta_h _ _ _ _) _) _ => apply bal_opt; [apply vec_uniform_eta_h_bal; len|intros ? _]
  | |- bal (mbind (poly_challenge_h _ _ _) _) _ => apply bal_opt; [apply poly_challenge_h_bal; len|intros ? _]
  | |- bal (mbind (lift (rdrange _ _ _)) _) _ => apply bal_o; let v := fresh "v" in let E := fresh "E" in intros v E
  | |- bal (mbind (lift _) _) _ => apply bal_o; let v := fresh "v" in intros v _; try (destruct v as [? ?])
  | |- bal (if ?b then _ else _) _ => destruct b
  end.
Lemma keypair_seed_h_bal pk sk seed : bal (keypair_seed_h loc fuel0 pk sk seed) (keypair_seed_c fuel0 (loc 128) (loc 64) pk sk seed).
Proof. unfold keypair_seed_h, keypair_seed_c. do 60 try bstep. Qed.

Lemma sign_attempt_h_bal mat s1 s2 t0 mu rhoprime nonce so mem : zlen rhoprime = 64 ->
  bal (sign_attempt_h loc fuel0 mat s1 s2 t0 mu rhoprime nonce so mem) (sign_attempt_c fuel0 mat s1 s2 t0 mu rhoprime nonce so mem).
Proof.
  intros Hr. unfold sign_attempt_h, sign_attempt_c.
  refine (bal_val _ _ _ _ (vec_uniform_gamma1_h_bal rhoprime nonce Hr) _). do 60 try bstep.
Qed.
Lemma rej_loop_h_bal att att' : (forall nonce mem, bal (att nonce mem) (att' nonce mem)) -> forall fuel nonce mem, bal (rej_loop_h att fuel nonce mem) (rej_loop_c att' fuel nonce mem).
Proof.
  intros H fuel. induction fuel as [|fuel IH]; intros nonce mem; cbn [rej_loop_h rej_loop_c]; [apply bal_more|].
  match goal with |- bal _ (bind (att' nonce mem) ?g) => 
    assert (E: bind (att' nonce mem) g = obnd (att' nonce mem) (fun r => g (Some r))) by (unfold obnd; destruct (att' nonce mem) as [[r|]|]; reflexivity); rewrite E; clear E end.
  apply bal_bind; [apply H|]. intros [d m'] _. cbv beta iota. destruct d; [apply bal_ret|apply IH].
Qed.
Lemma sign_signature_h_bal mem so mo mlen sk : bal (sign_signature_h loc fuel0 mem so mo mlen sk) (sign_signature_c fuel0 (loc 288) mem so mo mlen sk).
Proof.
  unfold sign_signature_h, sign_signature_c. bstep. destruct (unpack_sk v) as [[[[[rho tr] key] t0] s1] s2]. do 40 (try bstep).
  match goal with |- bal _ (bind ?o ?g) => 
    assert (E5: bind o g = obnd o (fun r => g (Some r))) by (unfold obnd; destruct o as [[r|]|]; reflexivity); rewrite E5; clear E5 end.
  apply bal_bind; [|intros m' _; apply bal_ret]. apply rej_loop_h_bal. intros nonce mm. apply sign_attempt_h_bal. len.
Qed.
Lemma crypto_sign_h_bal mem so mo mlen sk : bal (crypto_sign_h loc fuel0 mem so mo mlen sk) (crypto_sign_c fuel0 (loc 288) mem so mo mlen sk).
Proof.
  unfold crypto_sign_h, crypto_sign_c. apply bal_o. intros m' _.
  match goal with |- bal _ (bind ?o ?g) => 
    assert (E5: bind o g = obnd o (fun r => g (Some r))) by (unfold obnd; destruct o as [[r|]|]; reflexivity); rewrite E5; clear E5 end.
  apply bal_bind; [apply sign_signature_h_bal|]. intros [[r m2] sl] _. apply bal_ret.
Qed.
Lemma unpack_sig_len sig c z h : zlen sig = 2420 -> unpack_sig sig = Ret (Some (c, z, h)) -> zlen c = 32.
Proof.
  intros HL H. unfold unpack_sig in H. destruct (hint_unpack (slice sig 2336 84)) as [[hh|]|]; cbn [bind] in H; try discriminate H. apply Ret_inj in H. injection H as <- _ _. apply zlen_slice; lia.
Qed.
Lemma sign_verify_h_bal mem so siglen mo mlen pk : bal (sign_verify_h loc fuel0 mem so siglen mo mlen pk) (sign_verify_c fuel0 (loc 64) (loc 32) (loc 768) mem so siglen mo mlen pk).
Proof.
  unfold sign_verify_h, sign_verify_c. bstep; [bstep|]. bstep. unfold unpack_pk. assert (Lr: zlen (slice v 0 32) = 32) by (apply zlen_slice; try lia; rewrite (rdlen _ _ _ _ E ltac:(lia)); lia). bstep.
  cbv beta iota zeta. apply bal_o. intros s Es. destruct s as [[[c z] h]|]; [|bstep].
  assert (Lc: zlen c = 32) by (refine (unpack_sig_len _ _ _ _ _ Es); len).
  do 40 (try bstep).
  match goal with |- bal (mbind (lift ?o) _) _ => apply (eq_ind (bind o Ret) (fun x => bal _ x)); [|destruct o; reflexivity] end.
  apply bal_o. intros [r|] _; [apply bal_ret|apply bal_more].
Qed.
Lemma sign_open_h_bal mem so smlen mo mlen pk : bal (sign_open_h loc fuel0 mem so smlen mo mlen pk) (sign_open_c fuel0 (loc 64) (loc 32) (loc 768) mem so smlen mo mlen pk).
Proof.
  unfold sign_open_h, sign_open_c. bstep; [bstep|]. cbv zeta.
  match goal with |- bal _ (bind ?o ?g) => 
    assert (E5: bind o g = obnd o (fun r => g (Some r))) by (unfold obnd; destruct o as [[r|]|]; reflexivity); rewrite E5; clear E5 end.
  apply bal_bind; [apply sign_verify_h_bal|]. intros r _. do 3 (try bstep).
Qed.
End Samplers.
