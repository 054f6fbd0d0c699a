(** Number theory used for Ed25519: Fermat's little theorem, Pocklington's primality
    criterion, and the primality of 2^255 - 19. *)
From Coq Require Import Bool ZArith List Lia Znumtheory Permutation FinFun.
Import ListNotations.
Local Open Scope Z_scope.

Lemma divide_mod m a : 0 < m -> (m | a) <-> a mod m = 0.
Proof. intros H. split; [apply Zdivide_mod|apply Zmod_divide; lia]. Qed.
Lemma mod_eq_divide m a b : 0 < m -> a mod m = b mod m <-> (m | a - b).
Proof.
  intros H. rewrite (divide_mod m (a - b) H). rewrite Zminus_mod. split.
  - intros ->. now rewrite Z.sub_diag, Z.mod_0_l by lia.
  - intros E. pose proof (Z.mod_pos_bound a m H). pose proof (Z.mod_pos_bound b m H). apply Z.mod_divide in E; [|lia]. destruct E as [k E]. assert (k = 0) by nia. subst k. lia.
Qed.

(** ** Fermat's little theorem *)
Definition prodl (l : list Z) : Z := fold_right Z.mul 1 l.
Lemma prodl_perm l l' : Permutation l l' -> prodl l = prodl l'.
Proof. unfold prodl. induction 1; cbn [fold_right]; lia. Qed.
Lemma prodl_scale m a l : 0 < m -> prodl (map (fun i => (a * i) mod m) l) mod m = (a ^ Z.of_nat (length l) * prodl l) mod m.
Proof.
  intros Hm. induction l as [|x l IH]; [reflexivity|]. cbn [map prodl fold_right length]. fold (prodl l). fold (prodl (map (fun i => (a * i) mod m) l)).
  rewrite Zmult_mod, IH, <- Zmult_mod. rewrite Zmult_mod, Z.mod_mod, <- Zmult_mod by lia. f_equal. rewrite Nat2Z.inj_succ, Z.pow_succ_r by lia. ring.
Qed.
Lemma prime_prodl p l : prime p -> Forall (fun x => ~ (p | x)) l -> ~ (p | prodl l).
Proof.
  intros Hp. induction 1 as [|x l Hx _ IH]; cbn [prodl fold_right].
  - intros H. apply Zdivide_1 in H. destruct Hp. lia.
  - intros H. apply prime_mult in H; [|exact Hp]. destruct H; contradiction.
Qed.
Lemma NoDup_map_in (f : Z -> Z) l : (forall x y, In x l -> In y l -> f x = f y -> x = y) -> NoDup l -> NoDup (map f l).
Proof.
  induction l as [|x l IH]; intros HI HN; cbn [map]; [constructor|]. apply NoDup_cons_iff in HN as [N1 N2]. constructor.
  - intros H. apply in_map_iff in H as (y & E & Hy). apply HI in E; [subst; contradiction|now right|now left].
  - apply IH; [intros; apply HI; try (now right); assumption|exact N2].
Qed.
Definition nums (p : Z) : list Z := map Z.of_nat (seq 1 (Z.to_nat (p - 1))).
Lemma in_nums p x : In x (nums p) <-> 1 <= x < p.
Proof.
  unfold nums. rewrite in_map_iff. split.
  - intros (k & <- & H). apply in_seq in H. lia.
  - intros H. exists (Z.to_nat x). split; [lia|]. apply in_seq. lia.
Qed.
Lemma small_not_div p x : 1 <= x < p -> ~ (p | x).
Proof. intros H D. apply Z.divide_pos_le in D; lia. Qed.
Lemma fermat p a : prime p -> ~ (p | a) -> a ^ (p - 1) mod p = 1.
Proof.
  intros Hp Ha. assert (H1: 1 < p) by apply Hp.
  assert (PM: Permutation (map (fun i => (a * i) mod p) (nums p)) (nums p)).
  { apply NoDup_Permutation_bis.
    - apply NoDup_map_in.
      + intros x y Hx Hy E. apply in_nums in Hx, Hy. apply mod_eq_divide in E; [|lia]. replace (a * x - a * y) with (a * (x - y)) in E by ring.
        apply prime_mult in E; [|exact Hp]. destruct E as [E|E]; [contradiction|]. destruct E as [k E]. assert (k = 0) by nia. subst k. lia.
      + unfold nums. apply FinFun.Injective_map_NoDup; [intros x y; apply Nat2Z.inj|apply seq_NoDup].
    - rewrite map_length. lia.
    - intros x Hx. apply in_map_iff in Hx as (y & <- & Hy). apply in_nums in Hy. apply in_nums. pose proof (Z.mod_pos_bound (a * y) p ltac:(lia)).
      assert ((a * y) mod p <> 0); [|lia]. intros E. apply Zmod_divide in E; [|lia]. apply prime_mult in E; [|exact Hp]. destruct E as [E|E]; [contradiction|]. revert E. now apply small_not_div. }
  apply prodl_perm in PM. pose proof (prodl_scale p a (nums p) ltac:(lia)) as S. rewrite PM in S.
  assert (L: Z.of_nat (length (nums p)) = p - 1) by (unfold nums; rewrite map_length, seq_length; lia). rewrite L in S.
  symmetry in S. apply mod_eq_divide in S; [|lia]. replace (a ^ (p - 1) * prodl (nums p) - prodl (nums p)) with ((a ^ (p - 1) - 1) * prodl (nums p)) in S by ring.
  apply prime_mult in S; [|exact Hp]. destruct S as [S|S].
  - apply mod_eq_divide in S; [|lia]. rewrite S. apply Z.mod_small. lia.
  - exfalso. revert S. apply prime_prodl; [exact Hp|]. apply Forall_forall. intros x Hx. apply in_nums in Hx. now apply small_not_div.
Qed.

(** ** Modular exponentiation, for computing *)
Fixpoint powm_pos (m a : Z) (e : positive) : Z :=
  match e with
  | xH => a mod m
  | xO e => let t := powm_pos m a e in (t * t) mod m
  | xI e => let t := powm_pos m a e in ((t * t) mod m * a) mod m
  end.
Lemma powm_pos_ok m a e : 0 < m -> powm_pos m a e = a ^ Z.pos e mod m.
Proof.
  intros Hm. induction e as [e IH|e IH|]; cbn [powm_pos].
  - rewrite IH. rewrite <- Zmult_mod. rewrite Zmult_mod, Z.mod_mod, <- Zmult_mod by lia. f_equal. rewrite <- Z.pow_add_r by lia.
    replace (Z.pos e~1) with (Z.pos e + Z.pos e + 1) by lia. rewrite (Z.pow_add_r a (Z.pos e + Z.pos e) 1) by lia. ring.
  - rewrite IH. rewrite <- Zmult_mod. f_equal. rewrite <- Z.pow_add_r by lia. f_equal. lia.
  - now rewrite Z.pow_1_r.
Qed.

(** ** Pocklington *)
Lemma prime_divisor : forall n, 1 < n -> exists q, prime q /\ (q | n).
Proof.
  intros n. assert (Hn: 0 <= n \/ n < 0) by lia. destruct Hn as [Hn|Hn]; [|lia]. revert n Hn. apply (Zlt_0_ind (fun n => 1 < n -> exists q, prime q /\ (q | n))).
  intros n IH _ H1. destruct (prime_dec n) as [Hp|Hp]; [exists n; split; [exact Hp|apply Z.divide_refl]|].
  destruct (not_prime_divide n H1 Hp) as (k & Hk & Dk). destruct (IH k ltac:(lia) ltac:(lia)) as (q & Hq & Dq). exists q. split; [exact Hq|]. eapply Z.divide_trans; eassumption.
Qed.
Lemma small_prime_divisor n : 1 < n -> ~ prime n -> exists q, prime q /\ (q | n) /\ q * q <= n.
Proof.
  intros H1 Hp. destruct (not_prime_divide n H1 Hp) as (k & Hk & [m Em]).
  assert (G: exists k, 1 < k /\ (k | n) /\ k * k <= n).
  { destruct (Z.le_gt_cases (k * k) n); [exists k; split; [lia|]; split; [exists m; lia|lia]|]. exists m. assert (1 < m) by nia. split; [lia|]. split; [exists k; lia|nia]. }
  destruct G as (j & Hj & Dj & Sj). destruct (prime_divisor j Hj) as (q & Hq & Dq). exists q. split; [exact Hq|]. split; [eapply Z.divide_trans; eassumption|].
  assert (q <= j) by (apply Z.divide_pos_le; [lia|exact Dq]). assert (1 < q) by apply Hq. nia.
Qed.
Lemma pow_mod_divisor q n a e b : 1 < q -> 1 < n -> (q | n) -> a ^ e mod n = b mod n -> a ^ e mod q = b mod q.
Proof.
  intros Hq Hn D E. apply mod_eq_divide in E; [|lia]. apply mod_eq_divide; [lia|]. eapply Z.divide_trans; eassumption.
Qed.
Lemma pow_mod_1 q b e : 1 < q -> 0 <= e -> b mod q = 1 -> b ^ e mod q = 1.
Proof.
  intros Hq He Hb. revert e He. apply natlike_ind; [rewrite Z.pow_0_r; now apply Z.mod_small|]. intros e He IH. rewrite Z.pow_succ_r, Zmult_mod, Hb, IH by lia. now apply Z.mod_small.
Qed.
(** a prime r divides q - 1 for every prime divisor q of n *)
Lemma pock_step n r a q : 1 < n -> prime r -> (r | n - 1) -> 0 < a ->
  a ^ (n - 1) mod n = 1 -> Z.gcd (a ^ ((n - 1) / r) mod n - 1) n = 1 -> prime q -> (q | n) -> (r | q - 1).
Proof.
  intros Hn Hr Dr Ha E1 G Hq Dq. destruct (Zdivide_dec r (q - 1)) as [D|ND]; [exact D|exfalso].
  assert (Hq1: 1 < q) by apply Hq. assert (Hr1: 1 < r) by apply Hr.
  set (k := (n - 1) / r) in *. assert (Ek: n - 1 = k * r) by (destruct Dr as [c Ec]; unfold k; rewrite Ec, Z.div_mul by lia; reflexivity). assert (Hk: 0 < k) by nia.
  assert (Na: ~ (q | a)).
  { intros D. assert (a ^ (n - 1) mod q = 1 mod q) by (apply (pow_mod_divisor q n); [lia|lia|exact Dq|rewrite (Z.mod_small 1 n) by lia; exact E1]).
    replace (n - 1) with (Z.succ (n - 2)) in H by lia. rewrite Z.pow_succ_r in H by lia. apply divide_mod in D; [|lia]. rewrite Zmult_mod, D, Z.mul_0_l, Z.mod_0_l, Z.mod_small in H by lia. discriminate H. }
  set (b := a ^ k).
  assert (B1: b ^ r mod q = 1).
  { unfold b. rewrite <- Z.pow_mul_r by lia. rewrite <- Ek. rewrite (pow_mod_divisor q n a (n - 1) 1); [apply Z.mod_small; lia|lia|lia|exact Dq|rewrite (Z.mod_small 1 n) by lia; exact E1]. }
  assert (B2: b ^ (q - 1) mod q = 1).
  { unfold b. rewrite <- Z.pow_mul_r by lia. rewrite Z.mul_comm, Z.pow_mul_r by lia. apply pow_mod_1; [lia|lia|]. now apply fermat. }
  assert (RP: rel_prime r (q - 1)) by (apply prime_rel_prime; assumption).
  apply rel_prime_bezout in RP. destruct RP as [u v E].
  (* u r + v (q-1) = 1: pick nonnegative exponents *)
  assert (EX: exists x y, 0 <= x /\ 0 <= y /\ x * r = 1 + y * (q - 1)).
  { exists (u + (q - 1) * (Z.abs u + Z.abs v)), (- v + r * (Z.abs u + Z.abs v)). repeat split; nia. }
  destruct EX as (x & y & Hx & Hy & EX).
  assert (B3: b mod q = 1).
  { assert (X1: b ^ (x * r) mod q = 1) by (rewrite Z.mul_comm, Z.pow_mul_r by lia; now apply pow_mod_1).
    rewrite EX in X1. rewrite Z.pow_add_r, Z.pow_1_r, (Z.mul_comm y), Z.pow_mul_r in X1 by nia. rewrite Zmult_mod, (pow_mod_1 q (b ^ (q - 1)) y), Z.mul_1_r, Z.mod_mod in X1 by (lia || assumption). exact X1. }
  assert (D1: (q | a ^ k mod n - 1)).
  { apply mod_eq_divide; [lia|]. rewrite <- (Z.mod_small 1 q) in B3 by lia. rewrite <- B3. unfold b. symmetry. apply mod_eq_divide; [lia|].
    eapply Z.divide_trans; [exact Dq|]. apply mod_eq_divide; [lia|]. now rewrite Z.mod_mod by lia. }
  pose proof (Z.gcd_greatest _ _ _ D1 Dq) as D2. rewrite G in D2. apply Zdivide_1 in D2. lia.
Qed.
(** certificate: pairs (prime factor, base) *)
Definition pock_check (n : Z) (c : list (Z * Z)) : bool :=
  (1 <? n) && (n <? prodl (map fst c) * prodl (map fst c)) &&
  forallb (fun '(r, a) => (0 <? a) && ((n - 1) mod r =? 0) && (powm_pos n a (Z.to_pos (n - 1)) =? 1) && (Z.gcd (powm_pos n a (Z.to_pos ((n - 1) / r)) - 1) n =? 1)) c &&
  (fix distinct l := match l with [] => true | x :: l => forallb (fun y => negb (x =? y)) l && distinct l end) (map fst c).
Lemma primes_product q l : Forall prime l -> (fix distinct l := match l with [] => true | x :: l => forallb (fun y => negb (x =? y)) l && distinct l end) l = true ->
  Forall (fun r => (r | q)) l -> (prodl l | q).
Proof.
  induction l as [|r l IH]; intros HP HD HF; cbn [prodl fold_right].
  - apply Z.divide_1_l.
  - apply Forall_cons_iff in HP as [Hr HP]. apply Forall_cons_iff in HF as [Dr HF]. apply andb_prop in HD as [HD1 HD2]. specialize (IH HP HD2 HF). fold (prodl l).
    destruct IH as [k Ek]. assert (D: (r | k)).
    { assert (D: (r | k * prodl l)) by (rewrite <- Ek; exact Dr). apply prime_mult in D; [|exact Hr]. destruct D as [D|D]; [exact D|exfalso].
      revert D. apply prime_prodl; [exact Hr|]. rewrite forallb_forall in HD1. rewrite Forall_forall in HP. apply Forall_forall. intros s Hs D.
      pose proof (prime_div_prime r s Hr (HP s Hs) D). specialize (HD1 s Hs). apply Bool.negb_true_iff, Z.eqb_neq in HD1. contradiction. }
    destruct D as [j ->]. exists j. rewrite Ek. ring.
Qed.
Lemma prodl_pos l : Forall prime l -> 0 < prodl l.
Proof. unfold prodl. induction 1 as [|x l H _ IH]; cbn [fold_right]; [lia|]. destruct H. nia. Qed.
Lemma pocklington n c : pock_check n c = true -> Forall prime (map fst c) -> prime n.
Proof.
  intros HC HP. unfold pock_check in HC. rewrite !Bool.andb_true_iff in HC. destruct HC as [[[H1 H2] H3] H4]. apply Z.ltb_lt in H1, H2.
  destruct (prime_dec n) as [Hp|Hp]; [exact Hp|exfalso]. destruct (small_prime_divisor n H1 Hp) as (q & Hq & Dq & Sq).
  assert (D: (prodl (map fst c) | q - 1)).
  { apply primes_product; [exact HP|exact H4|]. apply Forall_map, Forall_forall. intros [r a] Hin. cbn [fst]. rewrite forallb_forall in H3. specialize (H3 _ Hin). cbv beta iota in H3.
    rewrite !Bool.andb_true_iff in H3. destruct H3 as [[[A1 A2] A3] A4]. apply Z.ltb_lt in A1. apply Z.eqb_eq in A2, A3, A4.
    assert (Hr: prime r) by (rewrite Forall_map, Forall_forall in HP; exact (HP _ Hin)). assert (Hr1: 1 < r) by apply Hr.
    assert (Dr: (r | n - 1)) by (apply Zmod_divide; lia). rewrite !powm_pos_ok in A3, A4 by lia.
    assert (0 < (n - 1) / r) by (destruct Dr as [k Ek]; rewrite Ek, Z.div_mul by lia; nia). rewrite Z2Pos.id in A3, A4 by lia.
    apply (pock_step n r a q); try assumption. }
  assert (1 < q) by apply Hq. pose proof (prodl_pos _ HP). apply Z.divide_pos_le in D; [|lia]. nia.
Qed.
(** trial division for small numbers *)
Definition trial (n : Z) : bool := (1 <? n) && forallb (fun k => negb (n mod Z.of_nat k =? 0)) (seq 2 (Z.to_nat (Z.sqrt n))).
Lemma trial_ok n : trial n = true -> prime n.
Proof.
  intros H. apply andb_prop in H as [H1 H2]. apply Z.ltb_lt in H1. destruct (prime_dec n) as [Hp|Hp]; [exact Hp|exfalso].
  destruct (small_prime_divisor n H1 Hp) as (q & Hq & Dq & Sq). assert (1 < q) by apply Hq. rewrite forallb_forall in H2.
  assert (q <= Z.sqrt n) by (apply Z.sqrt_le_square; lia).
  assert (Hin: In (Z.to_nat q) (seq 2 (Z.to_nat (Z.sqrt n)))) by (apply in_seq; lia). specialize (H2 _ Hin). rewrite Z2Nat.id in H2 by lia.
  apply Bool.negb_true_iff, Z.eqb_neq in H2. apply H2. now apply Zdivide_mod.
Qed.
Ltac small := apply trial_ok; vm_compute; reflexivity.
Lemma pr1 : prime 8574133. Proof. apply (pocklington _ [(991, 2); (103, 2)]); [vm_compute; reflexivity|]. constructor; [small|constructor; [small|constructor]]. Qed.
Lemma pr2 : prime 1919519569386763. Proof. apply (pocklington _ [(8574133, 2); (127, 2)]); [vm_compute; reflexivity|]. constructor; [apply pr1|]. constructor; [small|constructor]. Qed.
Lemma pr3 : prime 2773320623. Proof. apply (pocklington _ [(569003, 2)]); [vm_compute; reflexivity|]. constructor; [small|constructor]. Qed.
Lemma pr4 : prime 72106336199. Proof. apply (pocklington _ [(2773320623, 2)]); [vm_compute; reflexivity|]. constructor; [apply pr3|constructor]. Qed.
Lemma pr5 : prime 75445702479781427272750846543864801.
Proof. apply (pocklington _ [(1919519569386763, 2); (72106336199, 2)]); [vm_compute; reflexivity|]. constructor; [apply pr2|constructor; [apply pr4|constructor]]. Qed.
Lemma pr6 : prime 31757755568855353. Proof. apply (pocklington _ [(430751, 2); (4153, 2)]); [vm_compute; reflexivity|]. constructor; [small|constructor; [small|constructor]]. Qed.
Lemma pr7 : prime 74058212732561358302231226437062788676166966415465897661863160754340907.
Proof. apply (pocklington _ [(75445702479781427272750846543864801, 2); (31757755568855353, 2)]); [vm_compute; reflexivity|]. constructor; [apply pr5|constructor; [apply pr6|constructor]]. Qed.
Lemma prime_25519 : prime (2 ^ 255 - 19).
Proof. apply (pocklington _ [(74058212732561358302231226437062788676166966415465897661863160754340907, 2)]); [vm_compute; reflexivity|]. constructor; [apply pr7|constructor]. Qed.
