(** The transforms of ntt.c as pure functions, without overflow. *)
From Verif Require Import Base SpongePure SpongeProofs DilReduce DilReduceProofs Tab DilNtt.

Definition within (B : Z) (f : Z -> Z) : Prop := forall i, 0 <= i < 256 -> - B <= f i <= B.
Definition bounded (B : Z) (a : list Z) : Prop := forall i, 0 <= i < 256 -> - B <= ix a i <= B.

Lemma zetas_len : zlen zetas = 256. Proof. reflexivity. Qed.
Lemma zetas_range k : - 4190208 <= ix zetas k <= 4190208.
Proof.
  assert (H: forallb (fun z => (- 4190208 <=? z) && (z <=? 4190208)) zetas = true) by (vm_compute; reflexivity).
  rewrite forallb_forall in H. unfold ix.
  destruct (Nat.lt_ge_cases (Z.to_nat k) (length zetas)) as [L|L].
  - specialize (H _ (nth_In zetas 0 L)). lia.
  - rewrite nth_overflow by exact L. lia.
Qed.

(** *** one butterfly *)
Lemma zeta_prod z x : - 4190208 <= z <= 4190208 -> - 2 ^ 31 <= x <= 2 ^ 31 ->
  - 2 ^ 31 * Q < z * x < 2 ^ 31 * Q /\ - 2 ^ 63 <= z * x < 2 ^ 63.
Proof. intros Hz Hx. unfold Q. assert (- (4190208 * 2 ^ 31) <= z * x <= 4190208 * 2 ^ 31) by nia. lia. Qed.

Lemma butterfly_ok z len j B a : 0 <= j -> 0 < len -> j + len < 256 -> zlen a = 256 ->
  - 4190208 <= z <= 4190208 -> 0 <= B -> B + Q < 2 ^ 31 ->
  - B <= ix a j <= B -> - B <= ix a (j + len) <= B ->
  butterfly z len j a = Ret (upd (upd a (Z.to_nat (j + len)) (ix a j - mont (z * ix a (j + len))))
                                 (Z.to_nat j) (ix a j + mont (z * ix a (j + len)))).
Proof.
  intros Hj Hl Hjl HL Hz HB0 HB H1 H2. unfold butterfly.
  assert (Z31: - 2 ^ 31 <= ix a (j + len) <= 2 ^ 31) by (unfold Q in *; lia).
  destruct (zeta_prod z _ Hz Z31) as [P1 P2]. pose proof (mont_range_strict _ P1) as PM.
  rewrite rd_ix by lia. cbn [bind]. rewrite ck64_ok by exact P2. cbn [bind].
  rewrite montgomery_reduce_ok by lia. cbn [bind]. rewrite rd_ix by lia. cbn [bind].
  rewrite ck32_ok by lia. cbn [bind]. rewrite wr_ok by lia. cbn [bind].
  rewrite rd_ix by (rewrite zlen_upd; lia). cbn [bind].
  rewrite ix_upd by lia. replace (j =? j + len) with false by lia.
  rewrite ck32_ok by lia. cbn [bind]. rewrite wr_ok by (rewrite zlen_upd; lia). reflexivity.
Qed.

Lemma inv_butterfly_ok z len j B a : 0 <= j -> 0 < len -> j + len < 256 -> zlen a = 256 ->
  - 4190208 <= z <= 4190208 -> 0 <= B -> 2 * B < 2 ^ 31 ->
  - B <= ix a j <= B -> - B <= ix a (j + len) <= B ->
  inv_butterfly z len j a = Ret (upd (upd a (Z.to_nat j) (ix a j + ix a (j + len)))
                                 (Z.to_nat (j + len)) (mont (z * (ix a j - ix a (j + len))))).
Proof.
  intros Hj Hl Hjl HL Hz HB0 HB H1 H2. unfold inv_butterfly.
  assert (Z31: - 2 ^ 31 <= ix a j - ix a (j + len) <= 2 ^ 31) by lia.
  destruct (zeta_prod z _ Hz Z31) as [P1 P2].
  rewrite rd_ix by lia. cbn [bind]. rewrite rd_ix by lia. cbn [bind]. rewrite ck32_ok by lia. cbn [bind].
  rewrite wr_ok by lia. cbn [bind]. rewrite rd_ix by (rewrite zlen_upd; lia). cbn [bind].
  rewrite ix_upd by lia. replace (j + len =? j) with false by lia.
  rewrite ck32_ok by lia. cbn [bind]. rewrite wr_ok by (rewrite zlen_upd; lia). cbn [bind].
  rewrite rd_ix by (rewrite !zlen_upd; lia). cbn [bind]. rewrite ix_upd by (rewrite ?zlen_upd; lia).
  rewrite Z.eqb_refl. rewrite ck64_ok by exact P2. cbn [bind]. rewrite montgomery_reduce_ok by lia. cbn [bind].
  rewrite wr_ok by (rewrite !zlen_upd; lia). rewrite upd_upd_same. reflexivity.
Qed.

(** *** one block *)
Definition blockf (z s len m : Z) (g : Z -> Z) (i : Z) : Z :=
  if (s <=? i) && (i <? s + m) then g i + mont (z * g (i + len))
  else if (s + len <=? i) && (i <? s + len + m) then g (i - len) - mont (z * g i)
  else g i.
Definition blocki (z s len m : Z) (g : Z -> Z) (i : Z) : Z :=
  if (s <=? i) && (i <? s + m) then g i + g (i + len)
  else if (s + len <=? i) && (i <? s + len + m) then mont (z * (g (i - len) - g i))
  else g i.

Lemma block_loop z s len B g : 0 <= s -> 0 < len -> s + 2 * len <= 256 -> - 4190208 <= z <= 4190208 ->
  0 <= B -> B + Q < 2 ^ 31 -> (forall i, s <= i < s + 2 * len -> - B <= g i <= B) ->
  for_loop len (fun m a => butterfly z len (s + m) a) (tab 256 g) = Ret (tab 256 (blockf z s len len g)).
Proof.
  intros Hs Hl Hsl Hz HB0 HB Hg.
  replace (tab 256 g) with (tab 256 (blockf z s len 0 g)).
  2:{ apply tab_ext. intros i Hi. unfold blockf. replace ((s <=? i) && (i <? s + 0)) with false by lia.
      replace ((s + len <=? i) && (i <? s + len + 0)) with false by lia. reflexivity. }
  apply (for_loop_state (fun m => tab 256 (blockf z s len m g))); [lia|]. intros m Hm.
  assert (E1: ix (tab 256 (blockf z s len m g)) (s + m) = g (s + m)).
  { rewrite ix_tab by lia. unfold blockf. replace ((s <=? s + m) && (s + m <? s + m)) with false by lia.
    replace ((s + len <=? s + m) && (s + m <? s + len + m)) with false by lia. reflexivity. }
  assert (E2: ix (tab 256 (blockf z s len m g)) (s + m + len) = g (s + m + len)).
  { rewrite ix_tab by lia. unfold blockf. replace ((s <=? s + m + len) && (s + m + len <? s + m)) with false by lia.
    replace ((s + len <=? s + m + len) && (s + m + len <? s + len + m)) with false by lia. reflexivity. }
  assert (HL: zlen (tab 256 (blockf z s len m g)) = 256) by (apply zlen_tab; lia).
  rewrite (butterfly_ok z len (s + m) B); rewrite ?E1, ?E2; try lia.
  2,3: apply Hg; lia.
  rewrite !upd_tab by lia. f_equal. apply tab_ext. intros i Hi. unfold blockf.
  destruct (Z.eqb_spec i (s + m)) as [->|N1].
  { replace ((s <=? s + m) && (s + m <? s + (m + 1))) with true by lia. reflexivity. }
  destruct (Z.eqb_spec i (s + m + len)) as [->|N2].
  { replace ((s <=? s + m + len) && (s + m + len <? s + (m + 1))) with false by lia.
    replace ((s + len <=? s + m + len) && (s + m + len <? s + len + (m + 1))) with true by lia.
    replace (s + m + len - len) with (s + m) by lia. reflexivity. }
  replace ((s <=? i) && (i <? s + (m + 1))) with ((s <=? i) && (i <? s + m)) by lia.
  replace ((s + len <=? i) && (i <? s + len + (m + 1))) with ((s + len <=? i) && (i <? s + len + m)) by lia.
  reflexivity.
Qed.

Lemma iblock_loop z s len B g : 0 <= s -> 0 < len -> s + 2 * len <= 256 -> - 4190208 <= z <= 4190208 ->
  0 <= B -> 2 * B < 2 ^ 31 -> (forall i, s <= i < s + 2 * len -> - B <= g i <= B) ->
  for_loop len (fun m a => inv_butterfly z len (s + m) a) (tab 256 g) = Ret (tab 256 (blocki z s len len g)).
Proof.
  intros Hs Hl Hsl Hz HB0 HB Hg.
  replace (tab 256 g) with (tab 256 (blocki z s len 0 g)).
  2:{ apply tab_ext. intros i Hi. unfold blocki. replace ((s <=? i) && (i <? s + 0)) with false by lia.
      replace ((s + len <=? i) && (i <? s + len + 0)) with false by lia. reflexivity. }
  apply (for_loop_state (fun m => tab 256 (blocki z s len m g))); [lia|]. intros m Hm.
  assert (E1: ix (tab 256 (blocki z s len m g)) (s + m) = g (s + m)).
  { rewrite ix_tab by lia. unfold blocki. replace ((s <=? s + m) && (s + m <? s + m)) with false by lia.
    replace ((s + len <=? s + m) && (s + m <? s + len + m)) with false by lia. reflexivity. }
  assert (E2: ix (tab 256 (blocki z s len m g)) (s + m + len) = g (s + m + len)).
  { rewrite ix_tab by lia. unfold blocki. replace ((s <=? s + m + len) && (s + m + len <? s + m)) with false by lia.
    replace ((s + len <=? s + m + len) && (s + m + len <? s + len + m)) with false by lia. reflexivity. }
  assert (HL: zlen (tab 256 (blocki z s len m g)) = 256) by (apply zlen_tab; lia).
  rewrite (inv_butterfly_ok z len (s + m) B); rewrite ?E1, ?E2; try lia.
  2,3: apply Hg; lia.
  rewrite !upd_tab by lia. f_equal. apply tab_ext. intros i Hi. unfold blocki.
  destruct (Z.eqb_spec i (s + m + len)) as [->|N2].
  { replace ((s <=? s + m + len) && (s + m + len <? s + (m + 1))) with false by lia.
    replace ((s + len <=? s + m + len) && (s + m + len <? s + len + (m + 1))) with true by lia.
    replace (s + m + len - len) with (s + m) by lia. reflexivity. }
  destruct (Z.eqb_spec i (s + m)) as [->|N1].
  { replace ((s <=? s + m) && (s + m <? s + (m + 1))) with true by lia. reflexivity. }
  replace ((s <=? i) && (i <? s + (m + 1))) with ((s <=? i) && (i <? s + m)) by lia.
  replace ((s + len <=? i) && (i <? s + len + (m + 1))) with ((s + len <=? i) && (i <? s + len + m)) by lia.
  reflexivity.
Qed.

(** *** one layer; [nb] blocks of size 2 len *)
Definition fl (len : Z) (g : Z -> Z) (i : Z) : Z :=
  let z := ix zetas (128 / len + i / (2 * len)) in
  if i mod (2 * len) <? len then g i + mont (z * g (i + len)) else g (i - len) - mont (z * g i).
Definition il (len : Z) (g : Z -> Z) (i : Z) : Z :=
  let z := - ix zetas (2 * (128 / len) - 1 - i / (2 * len)) in
  if i mod (2 * len) <? len then g i + g (i + len) else mont (z * (g (i - len) - g i)).

Definition lens : list Z := [128; 64; 32; 16; 8; 4; 2; 1].
Lemma lens_pos len : In len lens -> 0 < len <= 128 /\ len * (128 / len) = 128 /\ 0 < 128 / len.
Proof. unfold lens. cbn [In]. intros H. repeat (destruct H as [<-|H]; [repeat split; reflexivity || lia|]). destruct H. Qed.

Lemma block_pos len b i : 0 < len -> 2 * len * b <= i < 2 * len * b + 2 * len ->
  i / (2 * len) = b /\ i mod (2 * len) = i - 2 * len * b.
Proof.
  intros Hl Hi. split.
  - symmetry. apply Z.div_unique with (r := i - 2 * len * b); lia.
  - symmetry. apply Z.mod_unique with (q := b); lia.
Qed.

Lemma ntt_layer_ok len B g : In len lens -> 0 <= B -> B + Q < 2 ^ 31 -> within B g ->
  ntt_layer len (tab 256 g, 128 / len - 1) = Ret (tab 256 (fl len g), 2 * (128 / len) - 1).
Proof.
  intros Hin HB0 HB Hg. destruct (lens_pos len Hin) as (Hl & Hnb & Hnb0). unfold ntt_layer.
  set (nb := 128 / len) in *.
  set (st := fun b => (tab 256 (fun i => if i <? 2 * len * b then fl len g i else g i), nb - 1 + b)).
  transitivity (for_loop nb (fun b '(a, k) =>
    let start := 2 * len * b in
    let k := k + 1 in
    zeta <- rd 0 zetas k ;;
    a <- for_loop len (fun m a => butterfly zeta len (start + m) a) a ;;
    Ret (a, k)) (st 0)).
  { f_equal. unfold st. f_equal; [|lia]. apply tab_ext. intros i Hi. replace (i <? 2 * len * 0) with false by lia. reflexivity. }
  rewrite (for_loop_state st); [|lia|].
  { unfold st. f_equal. f_equal; [|lia]. apply tab_ext. intros i Hi. replace (i <? 2 * len * nb) with true by lia. reflexivity. }
  intros b Hb. unfold st. cbv zeta. assert (Hbl: 2 * len * b + 2 * len <= 256) by nia.
  assert (nb <= 128) by nia.
  rewrite rd_ix by (rewrite zetas_len; lia). cbn [bind].
  rewrite (block_loop _ (2 * len * b) len B); try lia.
  2: apply zetas_range.
  2:{ intros i Hi. replace (i <? 2 * len * b) with false by lia. apply Hg. lia. }
  cbn [bind]. f_equal. f_equal; [|lia]. apply tab_ext. intros i Hi. unfold blockf.
  destruct (Z.ltb_spec i (2 * len * b)) as [L|L].
  { replace ((2 * len * b <=? i) && (i <? 2 * len * b + len)) with false by lia.
    replace ((2 * len * b + len <=? i) && (i <? 2 * len * b + len + len)) with false by lia.
    replace (i <? 2 * len * (b + 1)) with true by lia. reflexivity. }
  destruct (Z.ltb_spec i (2 * len * b + 2 * len)) as [L2|L2].
  2:{ replace ((2 * len * b <=? i) && (i <? 2 * len * b + len)) with false by lia.
    replace ((2 * len * b + len <=? i) && (i <? 2 * len * b + len + len)) with false by lia.
    replace (i <? 2 * len * (b + 1)) with false by lia. reflexivity. }
  replace (i <? 2 * len * (b + 1)) with true by lia. unfold fl. cbv zeta.
  destruct (block_pos len b i) as [-> ->]; [lia|lia|]. fold nb.
  replace (nb - 1 + b + 1) with (nb + b) by lia.
  replace ((2 * len * b <=? i) && (i <? 2 * len * b + len)) with (i - 2 * len * b <? len) by lia.
  destruct (Z.ltb_spec (i - 2 * len * b) len) as [L3|L3].
  - replace (i + len <? 2 * len * b) with false by lia. reflexivity.
  - replace ((2 * len * b + len <=? i) && (i <? 2 * len * b + len + len)) with true by lia.
    replace (i - len <? 2 * len * b) with false by lia. reflexivity.
Qed.

Lemma invntt_layer_ok len B g : In len lens -> 0 <= B -> 2 * B < 2 ^ 31 -> within B g ->
  invntt_layer len (tab 256 g, 2 * (128 / len)) = Ret (tab 256 (il len g), 128 / len).
Proof.
  intros Hin HB0 HB Hg. destruct (lens_pos len Hin) as (Hl & Hnb & Hnb0). unfold invntt_layer.
  set (nb := 128 / len) in *.
  set (st := fun b => (tab 256 (fun i => if i <? 2 * len * b then il len g i else g i), 2 * nb - b)).
  transitivity (for_loop nb (fun b '(a, k) =>
    let start := 2 * len * b in
    let k := k - 1 in
    z <- rd 0 zetas k ;;
    zeta <- ck32 (- z) ;;
    a <- for_loop len (fun m a => inv_butterfly zeta len (start + m) a) a ;;
    Ret (a, k)) (st 0)).
  { f_equal. unfold st. f_equal; [|lia]. apply tab_ext. intros i Hi. replace (i <? 2 * len * 0) with false by lia. reflexivity. }
  rewrite (for_loop_state st); [|lia|].
  { unfold st. f_equal. f_equal; [|lia]. apply tab_ext. intros i Hi. replace (i <? 2 * len * nb) with true by lia. reflexivity. }
  intros b Hb. unfold st. cbv zeta. assert (Hbl: 2 * len * b + 2 * len <= 256) by nia.
  assert (nb <= 128) by nia.
  rewrite rd_ix by (rewrite zetas_len; lia). cbn [bind]. pose proof (zetas_range (2 * nb - b - 1)) as HZ.
  rewrite ck32_ok by lia. cbn [bind].
  rewrite (iblock_loop _ (2 * len * b) len B); try lia.
  2:{ intros i Hi. replace (i <? 2 * len * b) with false by lia. apply Hg. lia. }
  cbn [bind]. f_equal. f_equal; [|lia]. apply tab_ext. intros i Hi. unfold blocki.
  destruct (Z.ltb_spec i (2 * len * b)) as [L|L].
  { replace ((2 * len * b <=? i) && (i <? 2 * len * b + len)) with false by lia.
    replace ((2 * len * b + len <=? i) && (i <? 2 * len * b + len + len)) with false by lia.
    replace (i <? 2 * len * (b + 1)) with true by lia. reflexivity. }
  destruct (Z.ltb_spec i (2 * len * b + 2 * len)) as [L2|L2].
  2:{ replace ((2 * len * b <=? i) && (i <? 2 * len * b + len)) with false by lia.
    replace ((2 * len * b + len <=? i) && (i <? 2 * len * b + len + len)) with false by lia.
    replace (i <? 2 * len * (b + 1)) with false by lia. reflexivity. }
  replace (i <? 2 * len * (b + 1)) with true by lia. unfold il. cbv zeta.
  destruct (block_pos len b i) as [-> ->]; [lia|lia|]. fold nb.
  replace (2 * nb - b - 1) with (2 * nb - 1 - b) by lia.
  replace ((2 * len * b <=? i) && (i <? 2 * len * b + len)) with (i - 2 * len * b <? len) by lia.
  destruct (Z.ltb_spec (i - 2 * len * b) len) as [L3|L3].
  - replace (i + len <? 2 * len * b) with false by lia. reflexivity.
  - replace ((2 * len * b + len <=? i) && (i <? 2 * len * b + len + len)) with true by lia.
    replace (i - len <? 2 * len * b) with false by lia. reflexivity.
Qed.

(** positions paired by a layer stay inside the array *)
Lemma pair_lo len i : In len lens -> 0 <= i < 256 -> i mod (2 * len) < len -> 0 <= i + len < 256.
Proof.
  intros Hin. unfold lens in Hin. cbn [In] in Hin.
  repeat (destruct Hin as [<-|Hin]; [intros Hi Hm; Z.div_mod_to_equations; lia|]). destruct Hin.
Qed.
Lemma pair_hi len i : In len lens -> 0 <= i < 256 -> len <= i mod (2 * len) -> 0 <= i - len < 256.
Proof.
  intros Hin. unfold lens in Hin. cbn [In] in Hin.
  repeat (destruct Hin as [<-|Hin]; [intros Hi Hm; Z.div_mod_to_equations; lia|]). destruct Hin.
Qed.

Lemma fl_within len B g : In len lens -> 0 <= B -> B + Q < 2 ^ 31 -> within B g -> within (B + Q) (fl len g).
Proof.
  intros Hin HB0 HB Hg i Hi. unfold fl. cbv zeta.
  destruct (Z.ltb_spec (i mod (2 * len)) len) as [L|L].
  - pose proof (pair_lo len i Hin Hi L) as Hp. pose proof (Hg _ Hp). pose proof (Hg _ Hi).
    destruct (zeta_prod (ix zetas (128 / len + i / (2 * len))) (g (i + len)) (zetas_range _)) as [P1 P2]; [unfold Q in *; lia|].
    pose proof (mont_range_strict _ P1). lia.
  - pose proof (pair_hi len i Hin Hi L) as Hp. pose proof (Hg _ Hp). pose proof (Hg _ Hi).
    destruct (zeta_prod (ix zetas (128 / len + i / (2 * len))) (g i) (zetas_range _)) as [P1 P2]; [unfold Q in *; lia|].
    pose proof (mont_range_strict _ P1). lia.
Qed.
Lemma il_within len B g : In len lens -> Q <= 2 * B -> 2 * B < 2 ^ 31 -> within B g -> within (2 * B) (il len g).
Proof.
  intros Hin HB0 HB Hg i Hi. unfold il. cbv zeta.
  destruct (Z.ltb_spec (i mod (2 * len)) len) as [L|L].
  - pose proof (pair_lo len i Hin Hi L) as Hp. pose proof (Hg _ Hp). pose proof (Hg _ Hi). lia.
  - pose proof (pair_hi len i Hin Hi L) as Hp. pose proof (Hg _ Hp). pose proof (Hg _ Hi).
    pose proof (zetas_range (2 * (128 / len) - 1 - i / (2 * len))).
    destruct (zeta_prod (- ix zetas (2 * (128 / len) - 1 - i / (2 * len))) (g (i - len) - g i)) as [P1 P2]; [lia|lia|].
    pose proof (mont_range_strict _ P1). lia.
Qed.

(** *** whole transforms *)
Definition nttf (g : Z -> Z) : Z -> Z := fl 1 (fl 2 (fl 4 (fl 8 (fl 16 (fl 32 (fl 64 (fl 128 g))))))).
Definition inttf (g : Z -> Z) : Z -> Z :=
  fun i => mont (41978 * il 128 (il 64 (il 32 (il 16 (il 8 (il 4 (il 2 (il 1 g))))))) i).
Definition nttp (a : list Z) : list Z := tab 256 (nttf (ix a)).
Definition inttp (a : list Z) : list Z := tab 256 (inttf (ix a)).

Ltac inlens := unfold lens; cbn [In]; auto 10.

Opaque fl il mont ntt_layer invntt_layer.
Lemma ntt_layer_ok' len B g k k' : In len lens -> 0 <= B -> B + Q < 2 ^ 31 -> within B g ->
  k = 128 / len - 1 -> k' = 2 * (128 / len) - 1 ->
  ntt_layer len (tab 256 g, k) = Ret (tab 256 (fl len g), k') /\ within (B + Q) (fl len g).
Proof. intros H1 H2 H3 H4 -> ->. split; [now apply ntt_layer_ok with B|now apply fl_within]. Qed.
Lemma invntt_layer_ok' len B g k k' : In len lens -> Q <= 2 * B -> 2 * B < 2 ^ 31 -> within B g ->
  k = 2 * (128 / len) -> k' = 128 / len ->
  invntt_layer len (tab 256 g, k) = Ret (tab 256 (il len g), k') /\ within (2 * B) (il len g).
Proof. intros H1 H2 H3 H4 -> ->. split; [apply invntt_layer_ok with B; auto; unfold Q in *; lia|now apply il_within]. Qed.

Lemma ntt_ok a B : zlen a = 256 -> 0 <= B -> B + 8 * Q < 2 ^ 31 -> bounded B a ->
  ntt a = Ret (nttp a) /\ bounded (B + 8 * Q) (nttp a) /\ zlen (nttp a) = 256.
Proof.
  intros HL HB0 HB Hb. unfold ntt, nttp, nttf. rewrite <- (tab_ix a 256) at 1 by auto.
  assert (HQ: Q = 8380417) by reflexivity.
  assert (W: within B (ix a)) by exact Hb. clear Hb HL. revert W. generalize (ix a). clear a. intros g W.
  destruct (ntt_layer_ok' 128 B _ 0 1 ltac:(inlens) ltac:(lia) ltac:(lia) W eq_refl eq_refl) as (-> & W1). cbn [bind]. clear W. rename W1 into W. revert W. generalize (fl 128 g). clear g. intros g W.
  destruct (ntt_layer_ok' 64 (B + Q) _ 1 3 ltac:(inlens) ltac:(lia) ltac:(lia) W eq_refl eq_refl) as (-> & W2). cbn [bind]. clear W. rename W2 into W. revert W. generalize (fl 64 g). clear g. intros g W.
  destruct (ntt_layer_ok' 32 ((B + Q) + Q) _ 3 7 ltac:(inlens) ltac:(lia) ltac:(lia) W eq_refl eq_refl) as (-> & W3). cbn [bind]. clear W. rename W3 into W. revert W. generalize (fl 32 g). clear g. intros g W.
  destruct (ntt_layer_ok' 16 (((B + Q) + Q) + Q) _ 7 15 ltac:(inlens) ltac:(lia) ltac:(lia) W eq_refl eq_refl) as (-> & W4). cbn [bind]. clear W. rename W4 into W. revert W. generalize (fl 16 g). clear g. intros g W.
  destruct (ntt_layer_ok' 8 ((((B + Q) + Q) + Q) + Q) _ 15 31 ltac:(inlens) ltac:(lia) ltac:(lia) W eq_refl eq_refl) as (-> & W5). cbn [bind]. clear W. rename W5 into W. revert W. generalize (fl 8 g). clear g. intros g W.
  destruct (ntt_layer_ok' 4 (((((B + Q) + Q) + Q) + Q) + Q) _ 31 63 ltac:(inlens) ltac:(lia) ltac:(lia) W eq_refl eq_refl) as (-> & W6). cbn [bind]. clear W. rename W6 into W. revert W. generalize (fl 4 g). clear g. intros g W.
  destruct (ntt_layer_ok' 2 ((((((B + Q) + Q) + Q) + Q) + Q) + Q) _ 63 127 ltac:(inlens) ltac:(lia) ltac:(lia) W eq_refl eq_refl) as (-> & W7). cbn [bind]. clear W. rename W7 into W. revert W. generalize (fl 2 g). clear g. intros g W.
  destruct (ntt_layer_ok' 1 (((((((B + Q) + Q) + Q) + Q) + Q) + Q) + Q) _ 127 255 ltac:(inlens) ltac:(lia) ltac:(lia) W eq_refl eq_refl) as (-> & W8). cbn [bind]. clear W. rename W8 into W. revert W. generalize (fl 1 g). clear g. intros g W.
  cbn [fst]. split; [reflexivity|]. split.
  - intros i Hi. rewrite ix_tab by lia. pose proof (W i Hi). lia.
  - apply zlen_tab. lia.
Qed.

Lemma scale_loop g : within (256 * Q) g ->
  for_loop 256 (fun j a => x <- rd 0 a j ;; p <- ck64 (41978 * x) ;; r <- montgomery_reduce p ;; wr a j r) (tab 256 g)
  = Ret (tab 256 (fun i => mont (41978 * g i))).
Proof.
  intros Hg. set (st := fun m => tab 256 (fun i => if i <? m then mont (41978 * g i) else g i)).
  replace (tab 256 g) with (st 0) by (apply tab_ext; intros i Hi; replace (i <? 0) with false by lia; reflexivity).
  replace (tab 256 (fun i => mont (41978 * g i))) with (st 256) by (apply tab_ext; intros i Hi; replace (i <? 256) with true by lia; reflexivity).
  apply (for_loop_state st); [lia|].
  intros m Hm. unfold st. assert (HL: forall h : Z -> Z, zlen (tab 256 h) = 256) by (intros; apply zlen_tab; lia).
  rewrite rd_ix by (rewrite HL; lia). rewrite ix_tab by lia. rewrite Z.ltb_irrefl. cbn [bind].
  pose proof (Hg m ltac:(lia)) as B. unfold Q in B.
  rewrite ck64_ok by lia. cbn [bind]. rewrite montgomery_reduce_ok by (unfold Q; lia). cbn [bind].
  rewrite wr_ok by (rewrite HL; lia). rewrite upd_tab by lia. f_equal. apply tab_ext. intros i Hi.
  destruct (Z.eqb_spec i m) as [->|N].
  - replace (m <? m + 1) with true by lia. reflexivity.
  - replace (i <? m + 1) with (i <? m) by lia. reflexivity.
Qed.

Lemma invntt_ok a : zlen a = 256 -> bounded Q a ->
  invntt_tomont a = Ret (inttp a) /\ bounded (Q - 1) (inttp a) /\ zlen (inttp a) = 256.
Proof.
  intros HL Hb. unfold invntt_tomont, inttp, inttf. rewrite <- (tab_ix a 256) at 1 by auto.
  assert (HQ: Q = 8380417) by reflexivity.
  assert (W: within Q (ix a)) by exact Hb. clear Hb HL. revert W. generalize (ix a). clear a. intros g W.
  destruct (invntt_layer_ok' 1 Q _ 256 128 ltac:(inlens) ltac:(lia) ltac:(lia) W eq_refl eq_refl) as (-> & W1). cbn [bind]. clear W. rename W1 into W. revert W. generalize (il 1 g). clear g. intros g W.
  destruct (invntt_layer_ok' 2 (2 * Q) _ 128 64 ltac:(inlens) ltac:(lia) ltac:(lia) W eq_refl eq_refl) as (-> & W2). cbn [bind]. clear W. rename W2 into W. revert W. generalize (il 2 g). clear g. intros g W.
  destruct (invntt_layer_ok' 4 (2 * (2 * Q)) _ 64 32 ltac:(inlens) ltac:(lia) ltac:(lia) W eq_refl eq_refl) as (-> & W3). cbn [bind]. clear W. rename W3 into W. revert W. generalize (il 4 g). clear g. intros g W.
  destruct (invntt_layer_ok' 8 (2 * (2 * (2 * Q))) _ 32 16 ltac:(inlens) ltac:(lia) ltac:(lia) W eq_refl eq_refl) as (-> & W4). cbn [bind]. clear W. rename W4 into W. revert W. generalize (il 8 g). clear g. intros g W.
  destruct (invntt_layer_ok' 16 (2 * (2 * (2 * (2 * Q)))) _ 16 8 ltac:(inlens) ltac:(lia) ltac:(lia) W eq_refl eq_refl) as (-> & W5). cbn [bind]. clear W. rename W5 into W. revert W. generalize (il 16 g). clear g. intros g W.
  destruct (invntt_layer_ok' 32 (2 * (2 * (2 * (2 * (2 * Q))))) _ 8 4 ltac:(inlens) ltac:(lia) ltac:(lia) W eq_refl eq_refl) as (-> & W6). cbn [bind]. clear W. rename W6 into W. revert W. generalize (il 32 g). clear g. intros g W.
  destruct (invntt_layer_ok' 64 (2 * (2 * (2 * (2 * (2 * (2 * Q)))))) _ 4 2 ltac:(inlens) ltac:(lia) ltac:(lia) W eq_refl eq_refl) as (-> & W7). cbn [bind]. clear W. rename W7 into W. revert W. generalize (il 64 g). clear g. intros g W.
  destruct (invntt_layer_ok' 128 (2 * (2 * (2 * (2 * (2 * (2 * (2 * Q))))))) _ 2 1 ltac:(inlens) ltac:(lia) ltac:(lia) W eq_refl eq_refl) as (-> & W8). cbn [bind]. clear W. rename W8 into W. revert W. generalize (il 128 g). clear g. intros g W.
  cbn [fst]. assert (W': within (256 * Q) g) by (intros i Hi; pose proof (W i Hi); lia). clear W.
  rewrite (scale_loop _ W'). split; [reflexivity|]. split.
  - intros i Hi. rewrite ix_tab by lia. pose proof (W' i Hi) as B.
    assert (P: - 2 ^ 31 * Q < 41978 * g i < 2 ^ 31 * Q) by lia.
    pose proof (mont_range_strict _ P). lia.
  - apply zlen_tab. lia.
Qed.
