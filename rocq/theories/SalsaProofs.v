(** core computes Salsa20 and HSalsa20, for words of 32 and of 64 bits. *)
From Verif Require Import Base Wp Tab EdSpec BoxSpec Tweet TweetField TweetCurve TweetSha TweetBox PolyProofs PolyProofs2.
Ltac Zify.zify_post_hook ::= idtac.

(** the low 32 bits of a [u32] *)
Definition low (x : Z) : Z := x mod 2 ^ 32.
Lemma low_land x : low x = Z.land x (Z.ones 32).
Proof. unfold low. now rewrite Z.land_ones by lia. Qed.
Lemma low_uw w x : word_size w -> low (uw w x) = low x.
Proof.
  intros [-> | ->]; unfold low, uw; [apply Z.mod_mod; lia|]. change (2 ^ 64) with (2 ^ 32 * 2 ^ 32). rewrite Z.rem_mul_r by lia. rewrite (Z.mul_comm (2 ^ 32)), Z.mod_add by lia. apply Z.mod_mod. lia.
Qed.
Lemma low_addw w a b : word_size w -> low (addw w a b) = add32 (low a) (low b).
Proof. intros W. unfold addw. rewrite low_uw by exact W. unfold low, add32. apply Z.add_mod. lia. Qed.
Lemma low_subw w a b : word_size w -> low (subw w (addw w a b) b) = low a.
Proof.
  intros W. unfold subw. rewrite low_uw by exact W. unfold addw, low. rewrite Zminus_mod. change (uw w (a + b) mod 2 ^ 32) with (low (uw w (a + b))). rewrite low_uw by exact W. unfold low. rewrite <- Zminus_mod. f_equal. lia.
Qed.
Lemma low_lxor a b : low (Z.lxor a b) = Z.lxor (low a) (low b).
Proof.
  rewrite !low_land. apply Z.bits_inj'. intros n Hn. rewrite !Z.land_spec, !Z.lxor_spec, !Z.land_spec. destruct (Z.testbit a n), (Z.testbit b n), (Z.testbit (Z.ones 32) n); reflexivity.
Qed.
Lemma low_lor a b : low (Z.lor a b) = Z.lor (low a) (low b).
Proof.
  rewrite !low_land. apply Z.bits_inj'. intros n Hn. rewrite !Z.land_spec, !Z.lor_spec, !Z.land_spec. destruct (Z.testbit a n), (Z.testbit b n), (Z.testbit (Z.ones 32) n); reflexivity.
Qed.
Lemma low_range x : 0 <= low x < 2 ^ 32. Proof. apply Z.mod_pos_bound. lia. Qed.
Lemma low_small x : 0 <= x < 2 ^ 32 -> low x = x. Proof. apply Z.mod_small. Qed.
Lemma low_L32 w x c : word_size w -> 0 < c < 32 -> low (L32 w x c) = rotl32 (low x) c.
Proof.
  intros W Hc. unfold L32. rewrite low_uw, low_lor, low_uw by exact W. change 0xffffffff with (Z.ones 32). rewrite <- low_land. rewrite Z.shiftl_mul_pow2, Z.shiftr_div_pow2 by lia.
  pose proof (low_range x) as R. assert (P: 2 ^ 32 = 2 ^ c * 2 ^ (32 - c)) by (rewrite <- Z.pow_add_r by lia; f_equal; lia).
  assert (0 < 2 ^ c) by (apply Z.pow_pos_nonneg; lia). assert (0 < 2 ^ (32 - c)) by (apply Z.pow_pos_nonneg; lia).
  assert (D: 0 <= low x / 2 ^ (32 - c) < 2 ^ c) by (split; [apply Z.div_pos; lia|apply Z.div_lt_upper_bound; [lia|]; rewrite (Z.mul_comm (2 ^ (32 - c))), <- P; lia]).
  assert (D32: 2 ^ c <= 2 ^ 32) by (apply Z.pow_le_mono_r; lia). rewrite (low_small (low x / _)) by lia.
  unfold rotl32. replace (low (x * 2 ^ c)) with ((low x * 2 ^ c) mod 2 ^ 32) by (unfold low; rewrite Z.mul_mod_idemp_l by lia; reflexivity).
  rewrite Z.lor_comm, Z.add_comm. apply (lor_disj c); [lia|exact D|]. rewrite P. rewrite (Z.mul_comm (low x)), Z.mul_mod_distr_l by lia. rewrite Z.mul_comm. apply Z.mod_mul. lia.
Qed.

(** little-endian words *)
Lemma ldcat_ok w u a : word_size w -> 0 <= u < 2 ^ 24 -> byte_ok a -> ldcat w u a = a + 256 * u.
Proof.
  intros W Hu Ha. unfold ldcat, byte_ok in *. rewrite Z.shiftl_mul_pow2 by lia. rewrite uw_small by (assumption || lia). rewrite Z.lor_comm, (lor_disj 8); [lia|lia|lia|]. apply Z.mod_mul. lia.
Qed.
Lemma ld32_ok w x o : word_size w -> bytes_ok x -> 0 <= o -> o + 4 <= zlen x -> ld32 w x o = Ret (le_val (slice x o 4)).
Proof.
  intros W Bx Ho HL. apply wp_is. unfold ld32. pose proof (byte_at x) as B. assert (B0: byte_ok (znth x o)) by (apply B; [assumption|lia]). assert (B1: byte_ok (znth x (o + 1))) by (apply B; [assumption|lia]). assert (B2: byte_ok (znth x (o + 2))) by (apply B; [assumption|lia]). assert (B3: byte_ok (znth x (o + 3))) by (apply B; [assumption|lia]).
  apply wp_bind, wp_rd; [lia|]. apply wp_bind, wp_rd; [lia|]. apply wp_bind, wp_rd; [lia|]. apply wp_bind, wp_rd; [lia|]. apply wp_ret.
  unfold byte_ok in *. rewrite !ldcat_ok by (try assumption; rewrite ?ldcat_ok by (try assumption; rewrite ?ldcat_ok by (try assumption; lia); lia); lia).
  rewrite !slice_cons by lia. fold (znth x o) (znth x (o + 1)). replace (o + 1 + 1) with (o + 2) by lia. replace (o + 2 + 1) with (o + 3) by lia. fold (znth x (o + 2)) (znth x (o + 3)). rewrite slice_neg by lia. cbn [le_val]. ring.
Qed.

(** one pass: the column round, transposed *)
Definition transpose (x : list Z) : list Z :=
  match x with
  | [x0;x1;x2;x3;x4;x5;x6;x7;x8;x9;x10;x11;x12;x13;x14;x15] => [x0;x4;x8;x12;x1;x5;x9;x13;x2;x6;x10;x14;x3;x7;x11;x15]
  | _ => x
  end.
Ltac d16 l L := do 16 (destruct l as [|? l]; [discriminate L|]); destruct l; [|discriminate L].
Lemma core_round_ok w x v : word_size w -> length x = 16%nat -> length v = 16%nat ->
  exists y, core_round w x v = Ret (y, y) /\ length y = 16%nat /\ map low y = transpose (columnround (map low x)).
Proof.
  intros W Lx Lv. d16 x Lx. d16 v Lv. eexists. split; [cbv -[addw L32 Z.lxor]; reflexivity|]. split; [reflexivity|].
  cbn [map]. cbv beta iota delta [columnround quarterround transpose].
  rewrite !low_lxor, !low_L32 by (assumption || lia). rewrite !low_addw by exact W. rewrite !low_lxor, !low_L32 by (assumption || lia). rewrite !low_addw by exact W. rewrite !low_lxor, !low_L32 by (assumption || lia). rewrite !low_addw by exact W. rewrite !low_lxor, !low_L32 by (assumption || lia). rewrite !low_addw by exact W. reflexivity.
Qed.
Lemma row_col y : length y = 16%nat -> rowround y = transpose (columnround (transpose y)).
Proof. intros L. d16 y L. reflexivity. Qed.
Lemma len_col x : length x = 16%nat -> length (columnround x) = 16%nat.
Proof. intros L. d16 x L. reflexivity. Qed.
Definition half (l : list Z) : list Z := transpose (columnround l).
Lemma len_half l : length l = 16%nat -> length (half l) = 16%nat.
Proof. intros L. d16 l L. reflexivity. Qed.
Lemma half_half l : length l = 16%nat -> half (half l) = doubleround l.
Proof. intros L. unfold doubleround. rewrite row_col by (now apply len_col). reflexivity. Qed.
Lemma iter_half : forall n l, length l = 16%nat -> Nat.iter (n + n) half l = Nat.iter n doubleround l /\ length (Nat.iter n doubleround l) = 16%nat.
Proof.
  induction n as [|n IH]; intros l L; [split; [reflexivity|exact L]|]. destruct (IH l L) as [E1 E2]. replace (S n + S n)%nat with (S (S (n + n))) by lia. cbn [Nat.iter nat_rect] in *. change (nat_rect (fun _ => list Z) l (fun _ => half) (n + n)) with (Nat.iter (n + n) half l). change (nat_rect (fun _ => list Z) l (fun _ => doubleround) n) with (Nat.iter n doubleround l) in *.
  rewrite E1. rewrite half_half by exact E2. split; [reflexivity|]. rewrite <- half_half by exact E2. now apply len_half, len_half.
Qed.
Lemma rounds_ok w x : word_size w -> length x = 16%nat ->
  wp (for_loop 20 (fun _ '(x, wv) => core_round w x wv) (x, zeros 16)) (fun '(y, _) => length y = 16%nat /\ map low y = doubleround10 (map low x)).
Proof.
  intros W L. apply (wp_for_loop (fun i '(y, v) => length y = 16%nat /\ length v = 16%nat /\ map low y = Nat.iter (Z.to_nat i) half (map low x))); [lia|split; [exact L|split; reflexivity]| |].
  - intros j [y v] Hj (Ly & Lv & Ey). destruct (core_round_ok w y v W Ly Lv) as (y' & E & L' & M). rewrite E. apply wp_ret. split; [exact L'|]. split; [exact L'|]. rewrite M, Ey. replace (Z.to_nat (j + 1)) with (S (Z.to_nat j)) by lia. reflexivity.
  - intros [y v] (Ly & Lv & Ey). split; [exact Ly|]. rewrite Ey. change (Z.to_nat 20) with (10 + 10)%nat. apply iter_half. now rewrite map_length.
Qed.
Lemma le4 u : le_bytes 4 (low u) = [u8 u; u8 (Z.shiftr u 8); u8 (Z.shiftr (Z.shiftr u 8) 8); u8 (Z.shiftr (Z.shiftr (Z.shiftr u 8) 8) 8)].
Proof.
  unfold low. change (2 ^ 32) with (256 ^ (Z.of_nat 4 + 0)). rewrite le_bytes_modP by lia. rewrite !shr8. reflexivity.
Qed.
Lemma add32_comm a b : add32 a b = add32 b a. Proof. unfold add32. f_equal. lia. Qed.
Lemma out64_ok w x y : word_size w -> length x = 16%nat -> length y = 16%nat ->
  for_loop 16 (fun i out => a <- rd 0 x i ;; b <- rd 0 y i ;; st32 out (4 * i) (addw w a b)) (zeros 64) = Ret (bytes_of (map2 add32 (map low y) (map low x))).
Proof.
  intros W Lx Ly. assert (E: map2 add32 (map low y) (map low x) = map low (map2 (addw w) x y)).
  { d16 x Lx. d16 y Ly. cbn [map map2]. rewrite !low_addw by exact W. repeat (apply f_equal2; [apply add32_comm|]). reflexivity. }
  rewrite E. clear E. d16 x Lx. d16 y Ly. cbn [map map2]. unfold bytes_of. cbn [flat_map]. rewrite !le4. cbn [app]. cbv -[addw u8 Z.shiftr]. reflexivity.
Qed.
Lemma bind_ext {A B} (e : outcome A) (f g : A -> outcome B) : (forall a, f a = g a) -> bind e f = bind e g.
Proof. intros H. destruct e; cbn [bind]; [apply H|reflexivity]. Qed.
Lemma out32_ok w x y inp c : word_size w -> length x = 16%nat -> length y = 16%nat ->
  (forall i, 0 <= i < 4 -> ld32 w c (4 * i) = Ret (znth y (5 * i))) -> (forall i, 0 <= i < 4 -> ld32 w inp (4 * i) = Ret (znth y (6 + i))) ->
  (x <- for_loop 16 (fun i x => a <- rd 0 x i ;; b <- rd 0 y i ;; wr x i (addw w a b)) x ;;
    x <- for_loop 4 (fun i x =>
      a <- rd 0 x (5 * i) ;; b <- ld32 w c (4 * i) ;; x <- wr x (5 * i) (subw w a b) ;;
      a <- rd 0 x (6 + i) ;; b <- ld32 w inp (4 * i) ;; wr x (6 + i) (subw w a b)) x ;;
    for_loop 4 (fun i out =>
      a <- rd 0 x (5 * i) ;; out <- st32 out (4 * i) a ;;
      a <- rd 0 x (6 + i) ;; st32 out (16 + 4 * i) a) (zeros 32))
  = Ret (bytes_of (map (fun i => nth i (map low x) 0) [0; 5; 10; 15; 6; 7; 8; 9]%nat)).
Proof.
  intros W Lx Ly Hc Hi.
  transitivity (x <- for_loop 16 (fun i x => a <- rd 0 x i ;; b <- rd 0 y i ;; wr x i (addw w a b)) x ;;
    x <- for_loop 4 (fun i x =>
      a <- rd 0 x (5 * i) ;; x <- wr x (5 * i) (subw w a (znth y (5 * i))) ;;
      a <- rd 0 x (6 + i) ;; wr x (6 + i) (subw w a (znth y (6 + i)))) x ;;
    for_loop 4 (fun i out =>
      a <- rd 0 x (5 * i) ;; out <- st32 out (4 * i) a ;;
      a <- rd 0 x (6 + i) ;; st32 out (16 + 4 * i) a) (zeros 32)).
  { apply bind_ext. intros x1. f_equal. apply for_loop_ext. intros i x2 H. apply bind_ext. intros a. rewrite Hc by exact H. cbn [bind]. apply bind_ext. intros x3. apply bind_ext. intros a'. rewrite Hi by exact H. reflexivity. }
  clear Hc Hi. set (is := [0; 5; 10; 15; 6; 7; 8; 9]%nat).
  assert (E: map (fun i => nth i (map low x) 0) is = map low (map (fun i => subw w (addw w (nth i x 0) (nth i y 0)) (nth i y 0)) is)).
  { d16 x Lx. d16 y Ly. unfold is. cbn [map nth]. rewrite !low_subw by exact W. reflexivity. }
  rewrite E. clear E. d16 x Lx. d16 y Ly. unfold is, bytes_of. cbn [map nth flat_map]. rewrite !le4. cbn [app]. cbv -[addw subw u8 Z.shiftr]. reflexivity.
Qed.

(** the input words *)
Definition input_words (inp k c : list Z) : list Z :=
  let W l i := le_val (slice l (4 * i) 4) in
  [W c 0; W k 0; W k 1; W k 2; W k 3; W c 1; W inp 0; W inp 1; W inp 2; W inp 3; W c 2; W k 4; W k 5; W k 6; W k 7; W c 3].
Lemma core_init_ok w inp k c : word_size w -> bytes_ok inp -> bytes_ok k -> bytes_ok c -> 16 <= zlen inp -> 32 <= zlen k -> 16 <= zlen c ->
  core_init w inp k c = Ret (input_words inp k c).
Proof.
  intros W Bi Bk Bc Li Lk Lc. unfold core_init. transitivity (for_loop 4 (fun i x => x <- wr x (5 * i) (le_val (slice c (4 * i) 4)) ;; x <- wr x (1 + i) (le_val (slice k (4 * i) 4)) ;;
    x <- wr x (6 + i) (le_val (slice inp (4 * i) 4)) ;; wr x (11 + i) (le_val (slice k (16 + 4 * i) 4))) (zeros 16)).
  { apply for_loop_ext. intros i x Hi. rewrite !ld32_ok by (assumption || lia). reflexivity. }
  unfold input_words. cbv -[le_val slice]. reflexivity.
Qed.
Lemma sigma_ok : bytes_ok sigma. Proof. repeat constructor; unfold byte_ok; lia. Qed.
Lemma list_split_16 (l : list Z) : 16 <= zlen l -> exists b0 b1 b2 b3 b4 b5 b6 b7 b8 b9 b10 b11 b12 b13 b14 b15 r, l = b0 :: b1 :: b2 :: b3 :: b4 :: b5 :: b6 :: b7 :: b8 :: b9 :: b10 :: b11 :: b12 :: b13 :: b14 :: b15 :: r.
Proof. intros H. unfold zlen in H. do 16 (destruct l as [|? l]; [cbn [length] in H; lia|]). repeat eexists. Qed.
Lemma input_words_spec inp k : 16 <= zlen inp -> zlen k = 32 -> input_words inp k sigma = words_of (salsa_input k (slice inp 0 16)).
Proof.
  intros Li Lk. apply list_split_16 in Li as (? & ? & ? & ? & ? & ? & ? & ? & ? & ? & ? & ? & ? & ? & ? & ? & ri & ->).
  assert (Lk1: 16 <= zlen k) by lia. apply list_split_16 in Lk1 as (? & ? & ? & ? & ? & ? & ? & ? & ? & ? & ? & ? & ? & ? & ? & ? & rk & ->).
  assert (Lk2: 16 <= zlen rk) by (rewrite !zlen_cons in Lk; lia). apply list_split_16 in Lk2 as (? & ? & ? & ? & ? & ? & ? & ? & ? & ? & ? & ? & ? & ? & ? & ? & rk2 & ->). reflexivity.
Qed.
Lemma words_range b : bytes_ok b -> Forall (fun x => 0 <= x < 2 ^ 32) (words_of b).
Proof.
  assert (G: forall n b, (length b <= n)%nat -> bytes_ok b -> Forall (fun x => 0 <= x < 2 ^ 32) (words_of b)).
  { induction n as [|n IH]; intros l HL Hl; destruct l as [|b0 [|b1 [|b2 [|b3 r]]]]; cbn [words_of length] in *; try (constructor; fail); try lia. constructor.
    - assert (B4: bytes_ok [b0; b1; b2; b3]) by (repeat match goal with H : bytes_ok (_ :: _) |- _ => inversion H; clear H; subst | H : Forall byte_ok (_ :: _) |- _ => inversion H; clear H; subst end; repeat (apply Forall_cons; [assumption|]); apply Forall_nil). apply le_val_range in B4. exact B4.
    - apply IH; [lia|]. repeat match goal with H : bytes_ok (_ :: _) |- _ => inversion H; clear H; subst | H : Forall byte_ok (_ :: _) |- _ => inversion H; clear H; subst end. assumption. }
  intros Hb. now apply (G (length b)).
Qed.
Lemma salsa_input_ok k n : bytes_ok k -> bytes_ok n -> bytes_ok (salsa_input k n).
Proof. intros Hk Hn. unfold salsa_input. repeat (apply bytes_ok_app; split); try (now apply bytes_ok_slice); try assumption; repeat constructor; unfold byte_ok; lia. Qed.
Lemma map_low_id l : Forall (fun x => 0 <= x < 2 ^ 32) l -> map low l = l.
Proof. induction 1 as [|x l Hx _ IH]; cbn [map]; [reflexivity|]. now rewrite low_small, IH. Qed.
Lemma copy16 x : length x = 16%nat -> for_loop 16 (fun i y => a <- rd 0 x i ;; wr y i a) (zeros 16) = Ret x.
Proof. intros L. d16 x L. reflexivity. Qed.
Lemma core_ok w inp k h : word_size w -> bytes_ok inp -> bytes_ok k -> 16 <= zlen inp -> zlen k = 32 ->
  core w inp k sigma h = Ret (if h : bool then hsalsa20 k (slice inp 0 16) else salsa20_k k (slice inp 0 16)).
Proof.
  intros W Bi Bk Li Lk. unfold core. rewrite core_init_ok; [|assumption|assumption|assumption|apply sigma_ok|lia|lia|reflexivity || (vm_compute; discriminate)]. cbn [bind].
  pose proof (input_words_spec inp k Li Lk) as IW. set (x := input_words inp k sigma) in *. assert (Lx: length x = 16%nat) by reflexivity.
  assert (Hx: map low x = words_of (salsa_input k (slice inp 0 16))). { rewrite map_low_id; [exact IW|]. rewrite IW. apply words_range, salsa_input_ok; [assumption|now apply bytes_ok_slice]. }
  assert (Hc: forall i, 0 <= i < 4 -> ld32 w sigma (4 * i) = Ret (znth x (5 * i))).
  { intros i Hi. rewrite ld32_ok; [|exact W|apply sigma_ok|lia|change (zlen sigma) with 16; lia]. assert (C: i = 0 \/ i = 1 \/ i = 2 \/ i = 3) by lia. destruct C as [-> | [-> | [-> | ->]]]; reflexivity. }
  assert (Hi: forall i, 0 <= i < 4 -> ld32 w inp (4 * i) = Ret (znth x (6 + i))).
  { intros i Hi. rewrite ld32_ok by (assumption || lia). assert (C: i = 0 \/ i = 1 \/ i = 2 \/ i = 3) by lia. destruct C as [-> | [-> | [-> | ->]]]; reflexivity. }
  clearbody x. rewrite copy16 by exact Lx. cbn [bind]. apply wp_is, wp_bind. eapply wp_mono; [apply rounds_ok; assumption|]. intros [y v] (Ly & Ey). cbv beta iota. destruct h.
  - rewrite out32_ok by assumption. unfold hsalsa20. rewrite <- Hx, <- Ey. reflexivity.
  - rewrite out64_ok by assumption. unfold salsa20_k, salsa20. rewrite <- Hx, <- Ey. reflexivity.
Qed.
