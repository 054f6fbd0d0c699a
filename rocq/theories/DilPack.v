(** The packing functions of poly.c write and read little-endian fixed-width fields. *)
From Verif Require Import Base SpongePure SpongeProofs DilReduce DilReduceProofs Tab DilPoly.
Ltac Zify.zify_post_hook ::= Z.div_mod_to_equations.

(** Little-endian value of a list of [w]-bit fields *)
Definition leval (w : Z) (l : list Z) : Z := fold_right (fun x acc => x + 2 ^ w * acc) 0 l.
Lemma leval_nil w : leval w [] = 0. Proof. reflexivity. Qed.
Lemma leval_cons w x l : leval w (x :: l) = x + 2 ^ w * leval w l. Proof. reflexivity. Qed.
Definition fields (w : Z) (l : list Z) : Prop := Forall (fun x => 0 <= x < 2 ^ w) l.
Lemma leval_inj w : 0 < w -> forall a b, length a = length b -> fields w a -> fields w b -> leval w a = leval w b -> a = b.
Proof.
  intros Hw. assert (P: 0 < 2 ^ w) by (apply Z.pow_pos_nonneg; lia).
  induction a as [|x a IH]; intros [|y b] HL Ha Hb E; try discriminate HL; [reflexivity|].
  apply Forall_inv in Ha as Hx. apply Forall_inv in Hb as Hy. apply Forall_inv_tail in Ha, Hb. rewrite !leval_cons in E.
  assert (x = y).
  { apply (f_equal (fun v => v mod 2 ^ w)) in E. rewrite !(Z.mul_comm (2 ^ w)), !Z_mod_plus_full, !Z.mod_small in E by lia. exact E. }
  subst y. f_equal. apply IH; auto. apply (Z.mul_reg_l _ _ (2 ^ w)); lia.
Qed.
Lemma bytes_fields l : bytes_ok l <-> fields 8 l. Proof. reflexivity. Qed.

(** Bit operations as arithmetic *)
Lemma lor_add k a b : 0 <= k -> 0 <= a < 2 ^ k -> b mod 2 ^ k = 0 -> Z.lor a b = a + b.
Proof.
  intros Hk Ha Hb. rewrite Z.add_nocarry_lxor.
  - rewrite <- Z.lxor_lor; [reflexivity|]. apply Z.bits_inj'. intros n Hn. rewrite Z.land_spec, Z.bits_0.
    destruct (Z.lt_ge_cases n k).
    + replace (Z.testbit b n) with false; [apply andb_false_r|]. rewrite <- (Z.mod_pow2_bits_low b k n) by lia. rewrite Hb. symmetry. apply Z.bits_0.
    + replace (Z.testbit a n) with false; [reflexivity|]. rewrite <- (Z.mod_small a (2 ^ k)) by lia. symmetry. apply Z.mod_pow2_bits_high. lia.
  - apply Z.bits_inj'. intros n Hn. rewrite Z.land_spec, Z.bits_0.
    destruct (Z.lt_ge_cases n k).
    + replace (Z.testbit b n) with false; [apply andb_false_r|]. rewrite <- (Z.mod_pow2_bits_low b k n) by lia. rewrite Hb. symmetry. apply Z.bits_0.
    + replace (Z.testbit a n) with false; [reflexivity|]. rewrite <- (Z.mod_small a (2 ^ k)) by lia. symmetry. apply Z.mod_pow2_bits_high. lia.
Qed.
Lemma shr k a : 0 <= k -> Z.shiftr a k = a / 2 ^ k. Proof. intros. now apply Z.shiftr_div_pow2. Qed.
Lemma shl k a : 0 <= k -> Z.shiftl a k = a * 2 ^ k. Proof. intros. now apply Z.shiftl_mul_pow2. Qed.
Lemma land_mask k m a : 0 <= k -> m = 2 ^ k - 1 -> Z.land a m = a mod 2 ^ k.
Proof. intros Hk ->. rewrite <- Z.land_ones by exact Hk. f_equal. rewrite Z.ones_equiv. lia. Qed.

(** ** One group of each encoding, as arithmetic *)
Ltac pow2 := repeat match goal with |- context [2 ^ ?k] => let v := eval vm_compute in (2 ^ k) in change (2 ^ k) with v end.
Ltac clr := repeat match goal with E : _ = _ |- _ => clear E end.
Ltac dlin :=
  repeat match goal with
         | |- context [?a / ?b] => let d := fresh "d" in set (d := a / b) in *; clearbody d
         | |- context [?a mod ?b] => let d := fresh "d" in set (d := a mod b) in *; clearbody d
         end; lia.
Lemma eta_pack_val t0 t1 t2 t3 t4 t5 t6 t7 : 0 <= t0 < 8 -> 0 <= t1 < 8 -> 0 <= t2 < 8 -> 0 <= t3 < 8 -> 0 <= t4 < 8 -> 0 <= t5 < 8 -> 0 <= t6 < 8 -> 0 <= t7 < 8 ->
  leval 8 [t0 + 8 * (t1) + 64 * (t2 mod 4); t2 / 4 + 2 * (t3) + 16 * (t4) + 128 * (t5 mod 2); t5 / 2 + 4 * (t6) + 32 * (t7)] = leval 3 [t0; t1; t2; t3; t4; t5; t6; t7] /\
  bytes_ok [t0 + 8 * (t1) + 64 * (t2 mod 4); t2 / 4 + 2 * (t3) + 16 * (t4) + 128 * (t5 mod 2); t5 / 2 + 4 * (t6) + 32 * (t7)].
Proof.
  intros. rewrite !leval_cons, !leval_nil.
  assert (E0: t0 = 1 * (t0)) by lia.
  assert (E1: t1 = 1 * (t1)) by lia.
  assert (E2: t2 = 1 * (t2 mod 4) + 4 * (t2 / 4)) by lia.
  assert (E3: t3 = 1 * (t3)) by lia.
  assert (E4: t4 = 1 * (t4)) by lia.
  assert (E5: t5 = 1 * (t5 mod 2) + 2 * (t5 / 2)) by lia.
  assert (E6: t6 = 1 * (t6)) by lia.
  assert (E7: t7 = 1 * (t7)) by lia.
  split.
  - pow2. dlin.
  - clr. unfold bytes_ok, byte_ok. repeat (constructor; [lia|]). constructor.
Qed.
Lemma eta_unpack_val b0 b1 b2 : 0 <= b0 < 256 -> 0 <= b1 < 256 -> 0 <= b2 < 256 ->
  leval 3 [b0 mod 8; (b0 / 8) mod 8; b0 / 64 + 4 * (b1 mod 2); (b1 / 2) mod 8; (b1 / 16) mod 8; b1 / 128 + 2 * (b2 mod 4); (b2 / 4) mod 8; b2 / 32] = leval 8 [b0; b1; b2] /\
  fields 3 [b0 mod 8; (b0 / 8) mod 8; b0 / 64 + 4 * (b1 mod 2); (b1 / 2) mod 8; (b1 / 16) mod 8; b1 / 128 + 2 * (b2 mod 4); (b2 / 4) mod 8; b2 / 32].
Proof.
  intros. rewrite !leval_cons, !leval_nil.
  assert (E0: b0 = 1 * (b0 mod 8) + 8 * ((b0 / 8) mod 8) + 64 * (b0 / 64)) by lia.
  assert (E1: b1 = 1 * (b1 mod 2) + 2 * ((b1 / 2) mod 8) + 16 * ((b1 / 16) mod 8) + 128 * (b1 / 128)) by lia.
  assert (E2: b2 = 1 * (b2 mod 4) + 4 * ((b2 / 4) mod 8) + 32 * (b2 / 32)) by lia.
  split.
  - pow2. dlin.
  - clr. unfold fields. pow2. repeat (constructor; [lia|]). constructor.
Qed.

Lemma t1_pack_val t0 t1 t2 t3 : 0 <= t0 < 1024 -> 0 <= t1 < 1024 -> 0 <= t2 < 1024 -> 0 <= t3 < 1024 ->
  leval 8 [t0 mod 256; t0 / 256 + 4 * (t1 mod 64); t1 / 64 + 16 * (t2 mod 16); t2 / 16 + 64 * (t3 mod 4); t3 / 4] = leval 10 [t0; t1; t2; t3] /\
  bytes_ok [t0 mod 256; t0 / 256 + 4 * (t1 mod 64); t1 / 64 + 16 * (t2 mod 16); t2 / 16 + 64 * (t3 mod 4); t3 / 4].
Proof.
  intros. rewrite !leval_cons, !leval_nil.
  assert (E0: t0 = 1 * (t0 mod 256) + 256 * (t0 / 256)) by lia.
  assert (E1: t1 = 1 * (t1 mod 64) + 64 * (t1 / 64)) by lia.
  assert (E2: t2 = 1 * (t2 mod 16) + 16 * (t2 / 16)) by lia.
  assert (E3: t3 = 1 * (t3 mod 4) + 4 * (t3 / 4)) by lia.
  split.
  - pow2. dlin.
  - clr. unfold bytes_ok, byte_ok. repeat (constructor; [lia|]). constructor.
Qed.
Lemma t1_unpack_val b0 b1 b2 b3 b4 : 0 <= b0 < 256 -> 0 <= b1 < 256 -> 0 <= b2 < 256 -> 0 <= b3 < 256 -> 0 <= b4 < 256 ->
  leval 10 [b0 + 256 * (b1 mod 4); b1 / 4 + 64 * (b2 mod 16); b2 / 16 + 16 * (b3 mod 64); b3 / 64 + 4 * (b4)] = leval 8 [b0; b1; b2; b3; b4] /\
  fields 10 [b0 + 256 * (b1 mod 4); b1 / 4 + 64 * (b2 mod 16); b2 / 16 + 16 * (b3 mod 64); b3 / 64 + 4 * (b4)].
Proof.
  intros. rewrite !leval_cons, !leval_nil.
  assert (E0: b0 = 1 * (b0)) by lia.
  assert (E1: b1 = 1 * (b1 mod 4) + 4 * (b1 / 4)) by lia.
  assert (E2: b2 = 1 * (b2 mod 16) + 16 * (b2 / 16)) by lia.
  assert (E3: b3 = 1 * (b3 mod 64) + 64 * (b3 / 64)) by lia.
  assert (E4: b4 = 1 * (b4)) by lia.
  split.
  - pow2. dlin.
  - clr. unfold fields. pow2. repeat (constructor; [lia|]). constructor.
Qed.

Lemma t0_pack_val t0 t1 t2 t3 t4 t5 t6 t7 : 0 <= t0 < 8192 -> 0 <= t1 < 8192 -> 0 <= t2 < 8192 -> 0 <= t3 < 8192 -> 0 <= t4 < 8192 -> 0 <= t5 < 8192 -> 0 <= t6 < 8192 -> 0 <= t7 < 8192 ->
  leval 8 [t0 mod 256; t0 / 256 + 32 * (t1 mod 8); (t1 / 8) mod 256; t1 / 2048 + 4 * (t2 mod 64); t2 / 64 + 128 * (t3 mod 2); (t3 / 2) mod 256; t3 / 512 + 16 * (t4 mod 16); (t4 / 16) mod 256; t4 / 4096 + 2 * (t5 mod 128); t5 / 128 + 64 * (t6 mod 4); (t6 / 4) mod 256; t6 / 1024 + 8 * (t7 mod 32); t7 / 32] = leval 13 [t0; t1; t2; t3; t4; t5; t6; t7] /\
  bytes_ok [t0 mod 256; t0 / 256 + 32 * (t1 mod 8); (t1 / 8) mod 256; t1 / 2048 + 4 * (t2 mod 64); t2 / 64 + 128 * (t3 mod 2); (t3 / 2) mod 256; t3 / 512 + 16 * (t4 mod 16); (t4 / 16) mod 256; t4 / 4096 + 2 * (t5 mod 128); t5 / 128 + 64 * (t6 mod 4); (t6 / 4) mod 256; t6 / 1024 + 8 * (t7 mod 32); t7 / 32].
Proof.
  intros. rewrite !leval_cons, !leval_nil.
  assert (E0: t0 = 1 * (t0 mod 256) + 256 * (t0 / 256)) by lia.
  assert (E1: t1 = 1 * (t1 mod 8) + 8 * ((t1 / 8) mod 256) + 2048 * (t1 / 2048)) by lia.
  assert (E2: t2 = 1 * (t2 mod 64) + 64 * (t2 / 64)) by lia.
  assert (E3: t3 = 1 * (t3 mod 2) + 2 * ((t3 / 2) mod 256) + 512 * (t3 / 512)) by lia.
  assert (E4: t4 = 1 * (t4 mod 16) + 16 * ((t4 / 16) mod 256) + 4096 * (t4 / 4096)) by lia.
  assert (E5: t5 = 1 * (t5 mod 128) + 128 * (t5 / 128)) by lia.
  assert (E6: t6 = 1 * (t6 mod 4) + 4 * ((t6 / 4) mod 256) + 1024 * (t6 / 1024)) by lia.
  assert (E7: t7 = 1 * (t7 mod 32) + 32 * (t7 / 32)) by lia.
  split.
  - pow2. dlin.
  - clr. unfold bytes_ok, byte_ok. repeat (constructor; [lia|]). constructor.
Qed.
Lemma t0_unpack_val b0 b1 b2 b3 b4 b5 b6 b7 b8 b9 b10 b11 b12 : 0 <= b0 < 256 -> 0 <= b1 < 256 -> 0 <= b2 < 256 -> 0 <= b3 < 256 -> 0 <= b4 < 256 -> 0 <= b5 < 256 -> 0 <= b6 < 256 -> 0 <= b7 < 256 -> 0 <= b8 < 256 -> 0 <= b9 < 256 -> 0 <= b10 < 256 -> 0 <= b11 < 256 -> 0 <= b12 < 256 ->
  leval 13 [b0 + 256 * (b1 mod 32); b1 / 32 + 8 * (b2) + 2048 * (b3 mod 4); b3 / 4 + 64 * (b4 mod 128); b4 / 128 + 2 * (b5) + 512 * (b6 mod 16); b6 / 16 + 16 * (b7) + 4096 * (b8 mod 2); b8 / 2 + 128 * (b9 mod 64); b9 / 64 + 4 * (b10) + 1024 * (b11 mod 8); b11 / 8 + 32 * (b12)] = leval 8 [b0; b1; b2; b3; b4; b5; b6; b7; b8; b9; b10; b11; b12] /\
  fields 13 [b0 + 256 * (b1 mod 32); b1 / 32 + 8 * (b2) + 2048 * (b3 mod 4); b3 / 4 + 64 * (b4 mod 128); b4 / 128 + 2 * (b5) + 512 * (b6 mod 16); b6 / 16 + 16 * (b7) + 4096 * (b8 mod 2); b8 / 2 + 128 * (b9 mod 64); b9 / 64 + 4 * (b10) + 1024 * (b11 mod 8); b11 / 8 + 32 * (b12)].
Proof.
  intros. rewrite !leval_cons, !leval_nil.
  assert (E0: b0 = 1 * (b0)) by lia.
  assert (E1: b1 = 1 * (b1 mod 32) + 32 * (b1 / 32)) by lia.
  assert (E2: b2 = 1 * (b2)) by lia.
  assert (E3: b3 = 1 * (b3 mod 4) + 4 * (b3 / 4)) by lia.
  assert (E4: b4 = 1 * (b4 mod 128) + 128 * (b4 / 128)) by lia.
  assert (E5: b5 = 1 * (b5)) by lia.
  assert (E6: b6 = 1 * (b6 mod 16) + 16 * (b6 / 16)) by lia.
  assert (E7: b7 = 1 * (b7)) by lia.
  assert (E8: b8 = 1 * (b8 mod 2) + 2 * (b8 / 2)) by lia.
  assert (E9: b9 = 1 * (b9 mod 64) + 64 * (b9 / 64)) by lia.
  assert (E10: b10 = 1 * (b10)) by lia.
  assert (E11: b11 = 1 * (b11 mod 8) + 8 * (b11 / 8)) by lia.
  assert (E12: b12 = 1 * (b12)) by lia.
  split.
  - pow2. dlin.
  - clr. unfold fields. pow2. repeat (constructor; [lia|]). constructor.
Qed.

Lemma z_pack_val t0 t1 t2 t3 : 0 <= t0 < 262144 -> 0 <= t1 < 262144 -> 0 <= t2 < 262144 -> 0 <= t3 < 262144 ->
  leval 8 [t0 mod 256; (t0 / 256) mod 256; t0 / 65536 + 4 * (t1 mod 64); (t1 / 64) mod 256; t1 / 16384 + 16 * (t2 mod 16); (t2 / 16) mod 256; t2 / 4096 + 64 * (t3 mod 4); (t3 / 4) mod 256; t3 / 1024] = leval 18 [t0; t1; t2; t3] /\
  bytes_ok [t0 mod 256; (t0 / 256) mod 256; t0 / 65536 + 4 * (t1 mod 64); (t1 / 64) mod 256; t1 / 16384 + 16 * (t2 mod 16); (t2 / 16) mod 256; t2 / 4096 + 64 * (t3 mod 4); (t3 / 4) mod 256; t3 / 1024].
Proof.
  intros. rewrite !leval_cons, !leval_nil.
  assert (E0: t0 = 1 * (t0 mod 256) + 256 * ((t0 / 256) mod 256) + 65536 * (t0 / 65536)) by lia.
  assert (E1: t1 = 1 * (t1 mod 64) + 64 * ((t1 / 64) mod 256) + 16384 * (t1 / 16384)) by lia.
  assert (E2: t2 = 1 * (t2 mod 16) + 16 * ((t2 / 16) mod 256) + 4096 * (t2 / 4096)) by lia.
  assert (E3: t3 = 1 * (t3 mod 4) + 4 * ((t3 / 4) mod 256) + 1024 * (t3 / 1024)) by lia.
  split.
  - pow2. dlin.
  - clr. unfold bytes_ok, byte_ok. repeat (constructor; [lia|]). constructor.
Qed.
Lemma z_unpack_val b0 b1 b2 b3 b4 b5 b6 b7 b8 : 0 <= b0 < 256 -> 0 <= b1 < 256 -> 0 <= b2 < 256 -> 0 <= b3 < 256 -> 0 <= b4 < 256 -> 0 <= b5 < 256 -> 0 <= b6 < 256 -> 0 <= b7 < 256 -> 0 <= b8 < 256 ->
  leval 18 [b0 + 256 * (b1) + 65536 * (b2 mod 4); b2 / 4 + 64 * (b3) + 16384 * (b4 mod 16); b4 / 16 + 16 * (b5) + 4096 * (b6 mod 64); b6 / 64 + 4 * (b7) + 1024 * (b8)] = leval 8 [b0; b1; b2; b3; b4; b5; b6; b7; b8] /\
  fields 18 [b0 + 256 * (b1) + 65536 * (b2 mod 4); b2 / 4 + 64 * (b3) + 16384 * (b4 mod 16); b4 / 16 + 16 * (b5) + 4096 * (b6 mod 64); b6 / 64 + 4 * (b7) + 1024 * (b8)].
Proof.
  intros. rewrite !leval_cons, !leval_nil.
  assert (E0: b0 = 1 * (b0)) by lia.
  assert (E1: b1 = 1 * (b1)) by lia.
  assert (E2: b2 = 1 * (b2 mod 4) + 4 * (b2 / 4)) by lia.
  assert (E3: b3 = 1 * (b3)) by lia.
  assert (E4: b4 = 1 * (b4 mod 16) + 16 * (b4 / 16)) by lia.
  assert (E5: b5 = 1 * (b5)) by lia.
  assert (E6: b6 = 1 * (b6 mod 64) + 64 * (b6 / 64)) by lia.
  assert (E7: b7 = 1 * (b7)) by lia.
  assert (E8: b8 = 1 * (b8)) by lia.
  split.
  - pow2. dlin.
  - clr. unfold fields. pow2. repeat (constructor; [lia|]). constructor.
Qed.

Lemma w1_pack_val t0 t1 t2 t3 : 0 <= t0 < 64 -> 0 <= t1 < 64 -> 0 <= t2 < 64 -> 0 <= t3 < 64 ->
  leval 8 [t0 + 64 * (t1 mod 4); t1 / 4 + 16 * (t2 mod 16); t2 / 16 + 4 * (t3)] = leval 6 [t0; t1; t2; t3] /\
  bytes_ok [t0 + 64 * (t1 mod 4); t1 / 4 + 16 * (t2 mod 16); t2 / 16 + 4 * (t3)].
Proof.
  intros. rewrite !leval_cons, !leval_nil.
  assert (E0: t0 = 1 * (t0)) by lia.
  assert (E1: t1 = 1 * (t1 mod 4) + 4 * (t1 / 4)) by lia.
  assert (E2: t2 = 1 * (t2 mod 16) + 16 * (t2 / 16)) by lia.
  assert (E3: t3 = 1 * (t3)) by lia.
  split.
  - pow2. dlin.
  - clr. unfold bytes_ok, byte_ok. repeat (constructor; [lia|]). constructor.
Qed.
Lemma w1_unpack_val b0 b1 b2 : 0 <= b0 < 256 -> 0 <= b1 < 256 -> 0 <= b2 < 256 ->
  leval 6 [b0 mod 64; b0 / 64 + 4 * (b1 mod 16); b1 / 16 + 16 * (b2 mod 4); b2 / 4] = leval 8 [b0; b1; b2] /\
  fields 6 [b0 mod 64; b0 / 64 + 4 * (b1 mod 16); b1 / 16 + 16 * (b2 mod 4); b2 / 4].
Proof.
  intros. rewrite !leval_cons, !leval_nil.
  assert (E0: b0 = 1 * (b0 mod 64) + 64 * (b0 / 64)) by lia.
  assert (E1: b1 = 1 * (b1 mod 16) + 16 * (b1 / 16)) by lia.
  assert (E2: b2 = 1 * (b2 mod 4) + 4 * (b2 / 4)) by lia.
  split.
  - pow2. dlin.
  - clr. unfold fields. pow2. repeat (constructor; [lia|]). constructor.
Qed.

(** ** The code computes these bytes and fields *)
Lemma sub_sub c x : c - (c - x) = x. Proof. ring. Qed.
Ltac lora k := match goal with |- context [Z.lor ?a ?b] =>
  lazymatch a with context [Z.lor _ _] => fail | _ => rewrite (lor_add k a b) by lia end end.
Ltac arith := unfold u8; rewrite ?shr, ?shl by lia; pow2.
Lemma leval_app w a b : 0 <= w -> leval w (a ++ b) = leval w a + 2 ^ (w * zlen a) * leval w b.
Proof.
  intros Hw. induction a as [|x a IH]; [change (zlen []) with 0; rewrite Z.mul_0_r, Z.pow_0_r; cbn [app]; change (leval w []) with 0; lia|].
  cbn [app]. rewrite !leval_cons, IH, zlen_cons. pose proof (zlen_nonneg a). replace (w * (1 + zlen a)) with (w + w * zlen a) by ring. rewrite Z.pow_add_r by nia. ring.
Qed.
Lemma leval_step w v g1 r1 g2 r2 : 0 <= w -> 0 <= v -> v * zlen g1 = w * zlen g2 -> leval v g1 = leval w g2 -> leval v r1 = leval w r2 ->
  leval v (g1 ++ r1) = leval w (g2 ++ r2).
Proof. intros Hw Hv E1 E2 E3. rewrite !leval_app by assumption. now rewrite E1, E2, E3. Qed.

Lemma eta_pack_code t0 t1 t2 t3 t4 t5 t6 t7 r : 0 <= t0 < 8 -> 0 <= t1 < 8 -> 0 <= t2 < 8 -> 0 <= t3 < 8 -> 0 <= t4 < 8 -> 0 <= t5 < 8 -> 0 <= t6 < 8 -> 0 <= t7 < 8 ->
  u8 (Z.lor (Z.lor t0 (Z.shiftl t1 3)) (Z.shiftl t2 6)) :: u8 (Z.lor (Z.lor (Z.lor (Z.shiftr t2 2) (Z.shiftl t3 1)) (Z.shiftl t4 4)) (Z.shiftl t5 7)) :: u8 (Z.lor (Z.lor (Z.shiftr t5 1) (Z.shiftl t6 2)) (Z.shiftl t7 5)) :: r =
  [t0 + 8 * (t1) + 64 * (t2 mod 4); t2 / 4 + 2 * (t3) + 16 * (t4) + 128 * (t5 mod 2); t5 / 2 + 4 * (t6) + 32 * (t7)] ++ r.
Proof.
  intros. cbn [app].
  assert (E0: u8 (Z.lor (Z.lor t0 (Z.shiftl t1 3)) (Z.shiftl t2 6)) = t0 + 8 * (t1) + 64 * (t2 mod 4)) by (clr; arith; lora 3; lora 6; lia).
  assert (E1: u8 (Z.lor (Z.lor (Z.lor (Z.shiftr t2 2) (Z.shiftl t3 1)) (Z.shiftl t4 4)) (Z.shiftl t5 7)) = t2 / 4 + 2 * (t3) + 16 * (t4) + 128 * (t5 mod 2)) by (clr; arith; lora 1; lora 4; lora 7; lia).
  assert (E2: u8 (Z.lor (Z.lor (Z.shiftr t5 1) (Z.shiftl t6 2)) (Z.shiftl t7 5)) = t5 / 2 + 4 * (t6) + 32 * (t7)) by (clr; arith; lora 2; lora 5; lia).
  now rewrite E0, E1, E2.
Qed.
Lemma eta_pack_ok : forall k a, length a = (8 * k)%nat -> Forall (fun x => -5 <= x <= 2) a ->
  exists b, polyeta_pack a = Ret b /\ length b = (3 * k)%nat /\ bytes_ok b /\ leval 8 b = leval 3 (map (fun x => 2 - x) a).
Proof.
  induction k as [|k IH]; intros a HL Ha.
  - assert (a = []) as -> by (apply length_zero_iff_nil; lia). exists []. split; [reflexivity|]. split; [cbn [length]; lia|]. split; [constructor|reflexivity].
  - destruct a as [|a0 [|a1 [|a2 [|a3 [|a4 [|a5 [|a6 [|a7 a]]]]]]]]; try (exfalso; cbn [length] in HL; lia).
    do 8 (apply Forall_cons_iff in Ha as [? Ha]). cbn [length] in HL.
    destruct (IH a ltac:(lia) Ha) as (b & E & HLb & Hb & HV). cbn [polyeta_pack]. unfold ETA, GAMMA1.
    rewrite (ck32_ok (2 - a0)), (ck32_ok (2 - a1)), (ck32_ok (2 - a2)), (ck32_ok (2 - a3)), (ck32_ok (2 - a4)), (ck32_ok (2 - a5)), (ck32_ok (2 - a6)), (ck32_ok (2 - a7)) by lia. cbn [bind].
    assert (U: forall x, 0 <= x < 8 -> u8 x = x) by (intros; unfold u8; apply Z.mod_small; lia).
    rewrite (U (2 - a0)), (U (2 - a1)), (U (2 - a2)), (U (2 - a3)), (U (2 - a4)), (U (2 - a5)), (U (2 - a6)), (U (2 - a7)) by lia. clear U.
    rewrite E. cbn [bind]. rewrite (eta_pack_code (2 - a0) (2 - a1) (2 - a2) (2 - a3) (2 - a4) (2 - a5) (2 - a6) (2 - a7) b) by lia.
    destruct (eta_pack_val (2 - a0) (2 - a1) (2 - a2) (2 - a3) (2 - a4) (2 - a5) (2 - a6) (2 - a7)) as [V B]; try lia.
    eexists. split; [reflexivity|]. split; [cbn [app length]; lia|]. split; [apply Forall_app; now split|].
    cbn [map]. change (2 - a0 :: 2 - a1 :: 2 - a2 :: 2 - a3 :: 2 - a4 :: 2 - a5 :: 2 - a6 :: 2 - a7 :: map (fun x => 2 - x) a) with ([2 - a0; 2 - a1; 2 - a2; 2 - a3; 2 - a4; 2 - a5; 2 - a6; 2 - a7] ++ map (fun x => 2 - x) a).
    apply leval_step; [lia|lia|reflexivity|exact V|exact HV].
Qed.
Lemma eta_unpack_code b0 b1 b2 : 0 <= b0 < 256 -> 0 <= b1 < 256 -> 0 <= b2 < 256 ->
  [Z.land b0 7; Z.land (Z.shiftr b0 3) 7; Z.land (Z.lor (Z.shiftr b0 6) (Z.shiftl b1 2)) 7; Z.land (Z.shiftr b1 1) 7; Z.land (Z.shiftr b1 4) 7; Z.land (Z.lor (Z.shiftr b1 7) (Z.shiftl b2 1)) 7; Z.land (Z.shiftr b2 2) 7; Z.land (Z.shiftr b2 5) 7] =
  [b0 mod 8; (b0 / 8) mod 8; b0 / 64 + 4 * (b1 mod 2); (b1 / 2) mod 8; (b1 / 16) mod 8; b1 / 128 + 2 * (b2 mod 4); (b2 / 4) mod 8; b2 / 32].
Proof.
  intros.
  assert (E0: Z.land b0 7 = b0 mod 8) by (clr; rewrite (land_mask 3) by (lia||reflexivity); arith; lia).
  assert (E1: Z.land (Z.shiftr b0 3) 7 = (b0 / 8) mod 8) by (clr; rewrite (land_mask 3) by (lia||reflexivity); arith; lia).
  assert (E2: Z.land (Z.lor (Z.shiftr b0 6) (Z.shiftl b1 2)) 7 = b0 / 64 + 4 * (b1 mod 2)) by (clr; rewrite (land_mask 3) by (lia||reflexivity); arith; lora 2; lia).
  assert (E3: Z.land (Z.shiftr b1 1) 7 = (b1 / 2) mod 8) by (clr; rewrite (land_mask 3) by (lia||reflexivity); arith; lia).
  assert (E4: Z.land (Z.shiftr b1 4) 7 = (b1 / 16) mod 8) by (clr; rewrite (land_mask 3) by (lia||reflexivity); arith; lia).
  assert (E5: Z.land (Z.lor (Z.shiftr b1 7) (Z.shiftl b2 1)) 7 = b1 / 128 + 2 * (b2 mod 4)) by (clr; rewrite (land_mask 3) by (lia||reflexivity); arith; lora 1; lia).
  assert (E6: Z.land (Z.shiftr b2 2) 7 = (b2 / 4) mod 8) by (clr; rewrite (land_mask 3) by (lia||reflexivity); arith; lia).
  assert (E7: Z.land (Z.shiftr b2 5) 7 = b2 / 32) by (clr; rewrite (land_mask 3) by (lia||reflexivity); arith; lia).
  now rewrite E0, E1, E2, E3, E4, E5, E6, E7.
Qed.
Lemma eta_unpack_ok : forall k b, length b = (3 * k)%nat -> bytes_ok b ->
  length (polyeta_unpack b) = (8 * k)%nat /\ fields 3 (map (fun x => 2 - x) (polyeta_unpack b)) /\
  leval 3 (map (fun x => 2 - x) (polyeta_unpack b)) = leval 8 b.
Proof.
  induction k as [|k IH]; intros b HL Hb.
  - assert (b = []) as -> by (apply length_zero_iff_nil; lia). split; [cbn [polyeta_unpack length]; lia|]. split; [constructor|reflexivity].
  - destruct b as [|b0 [|b1 [|b2 b]]]; try (exfalso; cbn [length] in HL; lia).
    do 3 (apply Forall_cons_iff in Hb as [? Hb]). unfold byte_ok in *. cbn [length] in HL.
    destruct (IH b ltac:(lia) Hb) as (HLb & HF & HV). cbn [polyeta_unpack]. split; [cbn [length]; lia|].
    destruct (eta_unpack_val b0 b1 b2) as [V F]; try assumption.
    rewrite <- (eta_unpack_code b0 b1 b2) in V, F by assumption.
    match goal with |- fields _ (map ?f ?l) /\ _ => assert (M: map f l = [Z.land b0 7; Z.land (Z.shiftr b0 3) 7; Z.land (Z.lor (Z.shiftr b0 6) (Z.shiftl b1 2)) 7; Z.land (Z.shiftr b1 1) 7; Z.land (Z.shiftr b1 4) 7; Z.land (Z.lor (Z.shiftr b1 7) (Z.shiftl b2 1)) 7; Z.land (Z.shiftr b2 2) 7; Z.land (Z.shiftr b2 5) 7] ++ map f (polyeta_unpack b)) end.
    { cbn [map app]. unfold ETA, GAMMA1. rewrite !sub_sub. reflexivity. }
    rewrite M. split; [apply Forall_app; now split|].
    change (b0 :: b1 :: b2 :: b) with ([b0; b1; b2] ++ b). apply leval_step; [lia|lia|reflexivity|exact V|exact HV].
Qed.
Lemma t1_pack_code t0 t1 t2 t3 r : 0 <= t0 < 1024 -> 0 <= t1 < 1024 -> 0 <= t2 < 1024 -> 0 <= t3 < 1024 ->
  u8 t0 :: u8 (Z.lor (Z.shiftr t0 8) (t1 * 2 ^ 2)) :: u8 (Z.lor (Z.shiftr t1 6) (t2 * 2 ^ 4)) :: u8 (Z.lor (Z.shiftr t2 4) (t3 * 2 ^ 6)) :: u8 (Z.shiftr t3 2) :: r =
  [t0 mod 256; t0 / 256 + 4 * (t1 mod 64); t1 / 64 + 16 * (t2 mod 16); t2 / 16 + 64 * (t3 mod 4); t3 / 4] ++ r.
Proof.
  intros. cbn [app].
  assert (E0: u8 t0 = t0 mod 256) by (clr; arith; lia).
  assert (E1: u8 (Z.lor (Z.shiftr t0 8) (t1 * 2 ^ 2)) = t0 / 256 + 4 * (t1 mod 64)) by (clr; arith; lora 2; lia).
  assert (E2: u8 (Z.lor (Z.shiftr t1 6) (t2 * 2 ^ 4)) = t1 / 64 + 16 * (t2 mod 16)) by (clr; arith; lora 4; lia).
  assert (E3: u8 (Z.lor (Z.shiftr t2 4) (t3 * 2 ^ 6)) = t2 / 16 + 64 * (t3 mod 4)) by (clr; arith; lora 6; lia).
  assert (E4: u8 (Z.shiftr t3 2) = t3 / 4) by (clr; arith; lia).
  now rewrite E0, E1, E2, E3, E4.
Qed.
Lemma t1_pack_ok : forall k a, length a = (4 * k)%nat -> Forall (fun x => 0 <= x < 1024) a ->
  exists b, polyt1_pack a = Ret b /\ length b = (5 * k)%nat /\ bytes_ok b /\ leval 8 b = leval 10 (map (fun x => x) a).
Proof.
  induction k as [|k IH]; intros a HL Ha.
  - assert (a = []) as -> by (apply length_zero_iff_nil; lia). exists []. split; [reflexivity|]. split; [cbn [length]; lia|]. split; [constructor|reflexivity].
  - destruct a as [|a0 [|a1 [|a2 [|a3 a]]]]; try (exfalso; cbn [length] in HL; lia).
    do 4 (apply Forall_cons_iff in Ha as [? Ha]). cbn [length] in HL.
    destruct (IH a ltac:(lia) Ha) as (b & E & HLb & Hb & HV). cbn [polyt1_pack]. unfold ETA, GAMMA1.
    rewrite (shl32_ok a1 2), (shl32_ok a2 4), (shl32_ok a3 6) by lia. cbn [bind].
    rewrite E. cbn [bind]. rewrite (t1_pack_code (a0) (a1) (a2) (a3) b) by lia.
    destruct (t1_pack_val (a0) (a1) (a2) (a3)) as [V B]; try lia.
    eexists. split; [reflexivity|]. split; [cbn [app length]; lia|]. split; [apply Forall_app; now split|].
    cbn [map]. change (a0 :: a1 :: a2 :: a3 :: map (fun x => x) a) with ([a0; a1; a2; a3] ++ map (fun x => x) a).
    apply leval_step; [lia|lia|reflexivity|exact V|exact HV].
Qed.
Lemma t1_unpack_code b0 b1 b2 b3 b4 : 0 <= b0 < 256 -> 0 <= b1 < 256 -> 0 <= b2 < 256 -> 0 <= b3 < 256 -> 0 <= b4 < 256 ->
  [Z.land (Z.lor b0 (Z.shiftl b1 8)) 0x3FF; Z.land (Z.lor (Z.shiftr b1 2) (Z.shiftl b2 6)) 0x3FF; Z.land (Z.lor (Z.shiftr b2 4) (Z.shiftl b3 4)) 0x3FF; Z.land (Z.lor (Z.shiftr b3 6) (Z.shiftl b4 2)) 0x3FF] =
  [b0 + 256 * (b1 mod 4); b1 / 4 + 64 * (b2 mod 16); b2 / 16 + 16 * (b3 mod 64); b3 / 64 + 4 * (b4)].
Proof.
  intros.
  assert (E0: Z.land (Z.lor b0 (Z.shiftl b1 8)) 0x3FF = b0 + 256 * (b1 mod 4)) by (clr; rewrite (land_mask 10) by (lia||reflexivity); arith; lora 8; lia).
  assert (E1: Z.land (Z.lor (Z.shiftr b1 2) (Z.shiftl b2 6)) 0x3FF = b1 / 4 + 64 * (b2 mod 16)) by (clr; rewrite (land_mask 10) by (lia||reflexivity); arith; lora 6; lia).
  assert (E2: Z.land (Z.lor (Z.shiftr b2 4) (Z.shiftl b3 4)) 0x3FF = b2 / 16 + 16 * (b3 mod 64)) by (clr; rewrite (land_mask 10) by (lia||reflexivity); arith; lora 4; lia).
  assert (E3: Z.land (Z.lor (Z.shiftr b3 6) (Z.shiftl b4 2)) 0x3FF = b3 / 64 + 4 * (b4)) by (clr; rewrite (land_mask 10) by (lia||reflexivity); arith; lora 2; lia).
  now rewrite E0, E1, E2, E3.
Qed.
Lemma t1_unpack_ok : forall k b, length b = (5 * k)%nat -> bytes_ok b ->
  length (polyt1_unpack b) = (4 * k)%nat /\ fields 10 (map (fun x => x) (polyt1_unpack b)) /\
  leval 10 (map (fun x => x) (polyt1_unpack b)) = leval 8 b.
Proof.
  induction k as [|k IH]; intros b HL Hb.
  - assert (b = []) as -> by (apply length_zero_iff_nil; lia). split; [cbn [polyt1_unpack length]; lia|]. split; [constructor|reflexivity].
  - destruct b as [|b0 [|b1 [|b2 [|b3 [|b4 b]]]]]; try (exfalso; cbn [length] in HL; lia).
    do 5 (apply Forall_cons_iff in Hb as [? Hb]). unfold byte_ok in *. cbn [length] in HL.
    destruct (IH b ltac:(lia) Hb) as (HLb & HF & HV). cbn [polyt1_unpack]. split; [cbn [length]; lia|].
    destruct (t1_unpack_val b0 b1 b2 b3 b4) as [V F]; try assumption.
    rewrite <- (t1_unpack_code b0 b1 b2 b3 b4) in V, F by assumption.
    match goal with |- fields _ (map ?f ?l) /\ _ => assert (M: map f l = [Z.land (Z.lor b0 (Z.shiftl b1 8)) 0x3FF; Z.land (Z.lor (Z.shiftr b1 2) (Z.shiftl b2 6)) 0x3FF; Z.land (Z.lor (Z.shiftr b2 4) (Z.shiftl b3 4)) 0x3FF; Z.land (Z.lor (Z.shiftr b3 6) (Z.shiftl b4 2)) 0x3FF] ++ map f (polyt1_unpack b)) end.
    { cbn [map app]. unfold ETA, GAMMA1. reflexivity. }
    rewrite M. split; [apply Forall_app; now split|].
    change (b0 :: b1 :: b2 :: b3 :: b4 :: b) with ([b0; b1; b2; b3; b4] ++ b). apply leval_step; [lia|lia|reflexivity|exact V|exact HV].
Qed.
Lemma t0_pack_code t0 t1 t2 t3 t4 t5 t6 t7 r : 0 <= t0 < 8192 -> 0 <= t1 < 8192 -> 0 <= t2 < 8192 -> 0 <= t3 < 8192 -> 0 <= t4 < 8192 -> 0 <= t5 < 8192 -> 0 <= t6 < 8192 -> 0 <= t7 < 8192 ->
  u8 t0 :: Z.lor (u8 (Z.shiftr t0 8)) (u8 (Z.shiftl t1 5)) :: u8 (Z.shiftr t1 3) :: Z.lor (u8 (Z.shiftr t1 11)) (u8 (Z.shiftl t2 2)) :: Z.lor (u8 (Z.shiftr t2 6)) (u8 (Z.shiftl t3 7)) :: u8 (Z.shiftr t3 1) :: Z.lor (u8 (Z.shiftr t3 9)) (u8 (Z.shiftl t4 4)) :: u8 (Z.shiftr t4 4) :: Z.lor (u8 (Z.shiftr t4 12)) (u8 (Z.shiftl t5 1)) :: Z.lor (u8 (Z.shiftr t5 7)) (u8 (Z.shiftl t6 6)) :: u8 (Z.shiftr t6 2) :: Z.lor (u8 (Z.shiftr t6 10)) (u8 (Z.shiftl t7 3)) :: u8 (Z.shiftr t7 5) :: r =
  [t0 mod 256; t0 / 256 + 32 * (t1 mod 8); (t1 / 8) mod 256; t1 / 2048 + 4 * (t2 mod 64); t2 / 64 + 128 * (t3 mod 2); (t3 / 2) mod 256; t3 / 512 + 16 * (t4 mod 16); (t4 / 16) mod 256; t4 / 4096 + 2 * (t5 mod 128); t5 / 128 + 64 * (t6 mod 4); (t6 / 4) mod 256; t6 / 1024 + 8 * (t7 mod 32); t7 / 32] ++ r.
Proof.
  intros. cbn [app].
  assert (E0: u8 t0 = t0 mod 256) by (clr; arith; lia).
  assert (E1: Z.lor (u8 (Z.shiftr t0 8)) (u8 (Z.shiftl t1 5)) = t0 / 256 + 32 * (t1 mod 8)) by (clr; arith; lora 5; lia).
  assert (E2: u8 (Z.shiftr t1 3) = (t1 / 8) mod 256) by (clr; arith; lia).
  assert (E3: Z.lor (u8 (Z.shiftr t1 11)) (u8 (Z.shiftl t2 2)) = t1 / 2048 + 4 * (t2 mod 64)) by (clr; arith; lora 2; lia).
  assert (E4: Z.lor (u8 (Z.shiftr t2 6)) (u8 (Z.shiftl t3 7)) = t2 / 64 + 128 * (t3 mod 2)) by (clr; arith; lora 7; lia).
  assert (E5: u8 (Z.shiftr t3 1) = (t3 / 2) mod 256) by (clr; arith; lia).
  assert (E6: Z.lor (u8 (Z.shiftr t3 9)) (u8 (Z.shiftl t4 4)) = t3 / 512 + 16 * (t4 mod 16)) by (clr; arith; lora 4; lia).
  assert (E7: u8 (Z.shiftr t4 4) = (t4 / 16) mod 256) by (clr; arith; lia).
  assert (E8: Z.lor (u8 (Z.shiftr t4 12)) (u8 (Z.shiftl t5 1)) = t4 / 4096 + 2 * (t5 mod 128)) by (clr; arith; lora 1; lia).
  assert (E9: Z.lor (u8 (Z.shiftr t5 7)) (u8 (Z.shiftl t6 6)) = t5 / 128 + 64 * (t6 mod 4)) by (clr; arith; lora 6; lia).
  assert (E10: u8 (Z.shiftr t6 2) = (t6 / 4) mod 256) by (clr; arith; lia).
  assert (E11: Z.lor (u8 (Z.shiftr t6 10)) (u8 (Z.shiftl t7 3)) = t6 / 1024 + 8 * (t7 mod 32)) by (clr; arith; lora 3; lia).
  assert (E12: u8 (Z.shiftr t7 5) = t7 / 32) by (clr; arith; lia).
  now rewrite E0, E1, E2, E3, E4, E5, E6, E7, E8, E9, E10, E11, E12.
Qed.
Lemma t0_pack_ok : forall k a, length a = (8 * k)%nat -> Forall (fun x => -4096 < x <= 4096) a ->
  exists b, polyt0_pack a = Ret b /\ length b = (13 * k)%nat /\ bytes_ok b /\ leval 8 b = leval 13 (map (fun x => 4096 - x) a).
Proof.
  induction k as [|k IH]; intros a HL Ha.
  - assert (a = []) as -> by (apply length_zero_iff_nil; lia). exists []. split; [reflexivity|]. split; [cbn [length]; lia|]. split; [constructor|reflexivity].
  - destruct a as [|a0 [|a1 [|a2 [|a3 [|a4 [|a5 [|a6 [|a7 a]]]]]]]]; try (exfalso; cbn [length] in HL; lia).
    do 8 (apply Forall_cons_iff in Ha as [? Ha]). cbn [length] in HL.
    destruct (IH a ltac:(lia) Ha) as (b & E & HLb & Hb & HV). cbn [polyt0_pack]. unfold ETA, GAMMA1.
    rewrite (ck32_ok (4096 - a0)), (ck32_ok (4096 - a1)), (ck32_ok (4096 - a2)), (ck32_ok (4096 - a3)), (ck32_ok (4096 - a4)), (ck32_ok (4096 - a5)), (ck32_ok (4096 - a6)), (ck32_ok (4096 - a7)) by lia. cbn [bind].
    assert (U: forall x, 0 <= x < 8192 -> u32 x = x) by (intros; unfold u32; apply Z.mod_small; lia).
    rewrite (U (4096 - a0)), (U (4096 - a1)), (U (4096 - a2)), (U (4096 - a3)), (U (4096 - a4)), (U (4096 - a5)), (U (4096 - a6)), (U (4096 - a7)) by lia. clear U.
    rewrite E. cbn [bind]. rewrite (t0_pack_code (4096 - a0) (4096 - a1) (4096 - a2) (4096 - a3) (4096 - a4) (4096 - a5) (4096 - a6) (4096 - a7) b) by lia.
    destruct (t0_pack_val (4096 - a0) (4096 - a1) (4096 - a2) (4096 - a3) (4096 - a4) (4096 - a5) (4096 - a6) (4096 - a7)) as [V B]; try lia.
    eexists. split; [reflexivity|]. split; [cbn [app length]; lia|]. split; [apply Forall_app; now split|].
    cbn [map]. change (4096 - a0 :: 4096 - a1 :: 4096 - a2 :: 4096 - a3 :: 4096 - a4 :: 4096 - a5 :: 4096 - a6 :: 4096 - a7 :: map (fun x => 4096 - x) a) with ([4096 - a0; 4096 - a1; 4096 - a2; 4096 - a3; 4096 - a4; 4096 - a5; 4096 - a6; 4096 - a7] ++ map (fun x => 4096 - x) a).
    apply leval_step; [lia|lia|reflexivity|exact V|exact HV].
Qed.
Lemma t0_unpack_code b0 b1 b2 b3 b4 b5 b6 b7 b8 b9 b10 b11 b12 : 0 <= b0 < 256 -> 0 <= b1 < 256 -> 0 <= b2 < 256 -> 0 <= b3 < 256 -> 0 <= b4 < 256 -> 0 <= b5 < 256 -> 0 <= b6 < 256 -> 0 <= b7 < 256 -> 0 <= b8 < 256 -> 0 <= b9 < 256 -> 0 <= b10 < 256 -> 0 <= b11 < 256 -> 0 <= b12 < 256 ->
  [Z.land (Z.lor b0 (Z.shiftl b1 8)) 0x1FFF; Z.land (Z.lor (Z.lor (Z.shiftr b1 5) (Z.shiftl b2 3)) (Z.shiftl b3 11)) 0x1FFF; Z.land (Z.lor (Z.shiftr b3 2) (Z.shiftl b4 6)) 0x1FFF; Z.land (Z.lor (Z.lor (Z.shiftr b4 7) (Z.shiftl b5 1)) (Z.shiftl b6 9)) 0x1FFF; Z.land (Z.lor (Z.lor (Z.shiftr b6 4) (Z.shiftl b7 4)) (Z.shiftl b8 12)) 0x1FFF; Z.land (Z.lor (Z.shiftr b8 1) (Z.shiftl b9 7)) 0x1FFF; Z.land (Z.lor (Z.lor (Z.shiftr b9 6) (Z.shiftl b10 2)) (Z.shiftl b11 10)) 0x1FFF; Z.land (Z.lor (Z.shiftr b11 3) (Z.shiftl b12 5)) 0x1FFF] =
  [b0 + 256 * (b1 mod 32); b1 / 32 + 8 * (b2) + 2048 * (b3 mod 4); b3 / 4 + 64 * (b4 mod 128); b4 / 128 + 2 * (b5) + 512 * (b6 mod 16); b6 / 16 + 16 * (b7) + 4096 * (b8 mod 2); b8 / 2 + 128 * (b9 mod 64); b9 / 64 + 4 * (b10) + 1024 * (b11 mod 8); b11 / 8 + 32 * (b12)].
Proof.
  intros.
  assert (E0: Z.land (Z.lor b0 (Z.shiftl b1 8)) 0x1FFF = b0 + 256 * (b1 mod 32)) by (clr; rewrite (land_mask 13) by (lia||reflexivity); arith; lora 8; lia).
  assert (E1: Z.land (Z.lor (Z.lor (Z.shiftr b1 5) (Z.shiftl b2 3)) (Z.shiftl b3 11)) 0x1FFF = b1 / 32 + 8 * (b2) + 2048 * (b3 mod 4)) by (clr; rewrite (land_mask 13) by (lia||reflexivity); arith; lora 3; lora 11; lia).
  assert (E2: Z.land (Z.lor (Z.shiftr b3 2) (Z.shiftl b4 6)) 0x1FFF = b3 / 4 + 64 * (b4 mod 128)) by (clr; rewrite (land_mask 13) by (lia||reflexivity); arith; lora 6; lia).
  assert (E3: Z.land (Z.lor (Z.lor (Z.shiftr b4 7) (Z.shiftl b5 1)) (Z.shiftl b6 9)) 0x1FFF = b4 / 128 + 2 * (b5) + 512 * (b6 mod 16)) by (clr; rewrite (land_mask 13) by (lia||reflexivity); arith; lora 1; lora 9; lia).
  assert (E4: Z.land (Z.lor (Z.lor (Z.shiftr b6 4) (Z.shiftl b7 4)) (Z.shiftl b8 12)) 0x1FFF = b6 / 16 + 16 * (b7) + 4096 * (b8 mod 2)) by (clr; rewrite (land_mask 13) by (lia||reflexivity); arith; lora 4; lora 12; lia).
  assert (E5: Z.land (Z.lor (Z.shiftr b8 1) (Z.shiftl b9 7)) 0x1FFF = b8 / 2 + 128 * (b9 mod 64)) by (clr; rewrite (land_mask 13) by (lia||reflexivity); arith; lora 7; lia).
  assert (E6: Z.land (Z.lor (Z.lor (Z.shiftr b9 6) (Z.shiftl b10 2)) (Z.shiftl b11 10)) 0x1FFF = b9 / 64 + 4 * (b10) + 1024 * (b11 mod 8)) by (clr; rewrite (land_mask 13) by (lia||reflexivity); arith; lora 2; lora 10; lia).
  assert (E7: Z.land (Z.lor (Z.shiftr b11 3) (Z.shiftl b12 5)) 0x1FFF = b11 / 8 + 32 * (b12)) by (clr; rewrite (land_mask 13) by (lia||reflexivity); arith; lora 5; lia).
  now rewrite E0, E1, E2, E3, E4, E5, E6, E7.
Qed.
Lemma t0_unpack_ok : forall k b, length b = (13 * k)%nat -> bytes_ok b ->
  length (polyt0_unpack b) = (8 * k)%nat /\ fields 13 (map (fun x => 4096 - x) (polyt0_unpack b)) /\
  leval 13 (map (fun x => 4096 - x) (polyt0_unpack b)) = leval 8 b.
Proof.
  induction k as [|k IH]; intros b HL Hb.
  - assert (b = []) as -> by (apply length_zero_iff_nil; lia). split; [cbn [polyt0_unpack length]; lia|]. split; [constructor|reflexivity].
  - destruct b as [|b0 [|b1 [|b2 [|b3 [|b4 [|b5 [|b6 [|b7 [|b8 [|b9 [|b10 [|b11 [|b12 b]]]]]]]]]]]]]; try (exfalso; cbn [length] in HL; lia).
    do 13 (apply Forall_cons_iff in Hb as [? Hb]). unfold byte_ok in *. cbn [length] in HL.
    destruct (IH b ltac:(lia) Hb) as (HLb & HF & HV). cbn [polyt0_unpack]. split; [cbn [length]; lia|].
    destruct (t0_unpack_val b0 b1 b2 b3 b4 b5 b6 b7 b8 b9 b10 b11 b12) as [V F]; try assumption.
    rewrite <- (t0_unpack_code b0 b1 b2 b3 b4 b5 b6 b7 b8 b9 b10 b11 b12) in V, F by assumption.
    match goal with |- fields _ (map ?f ?l) /\ _ => assert (M: map f l = [Z.land (Z.lor b0 (Z.shiftl b1 8)) 0x1FFF; Z.land (Z.lor (Z.lor (Z.shiftr b1 5) (Z.shiftl b2 3)) (Z.shiftl b3 11)) 0x1FFF; Z.land (Z.lor (Z.shiftr b3 2) (Z.shiftl b4 6)) 0x1FFF; Z.land (Z.lor (Z.lor (Z.shiftr b4 7) (Z.shiftl b5 1)) (Z.shiftl b6 9)) 0x1FFF; Z.land (Z.lor (Z.lor (Z.shiftr b6 4) (Z.shiftl b7 4)) (Z.shiftl b8 12)) 0x1FFF; Z.land (Z.lor (Z.shiftr b8 1) (Z.shiftl b9 7)) 0x1FFF; Z.land (Z.lor (Z.lor (Z.shiftr b9 6) (Z.shiftl b10 2)) (Z.shiftl b11 10)) 0x1FFF; Z.land (Z.lor (Z.shiftr b11 3) (Z.shiftl b12 5)) 0x1FFF] ++ map f (polyt0_unpack b)) end.
    { cbn [map app]. unfold ETA, GAMMA1. rewrite !sub_sub. reflexivity. }
    rewrite M. split; [apply Forall_app; now split|].
    change (b0 :: b1 :: b2 :: b3 :: b4 :: b5 :: b6 :: b7 :: b8 :: b9 :: b10 :: b11 :: b12 :: b) with ([b0; b1; b2; b3; b4; b5; b6; b7; b8; b9; b10; b11; b12] ++ b). apply leval_step; [lia|lia|reflexivity|exact V|exact HV].
Qed.
Lemma z_pack_code t0 t1 t2 t3 r : 0 <= t0 < 262144 -> 0 <= t1 < 262144 -> 0 <= t2 < 262144 -> 0 <= t3 < 262144 ->
  u8 t0 :: u8 (Z.shiftr t0 8) :: Z.lor (u8 (Z.shiftr t0 16)) (u8 (Z.shiftl t1 2)) :: u8 (Z.shiftr t1 6) :: Z.lor (u8 (Z.shiftr t1 14)) (u8 (Z.shiftl t2 4)) :: u8 (Z.shiftr t2 4) :: Z.lor (u8 (Z.shiftr t2 12)) (u8 (Z.shiftl t3 6)) :: u8 (Z.shiftr t3 2) :: u8 (Z.shiftr t3 10) :: r =
  [t0 mod 256; (t0 / 256) mod 256; t0 / 65536 + 4 * (t1 mod 64); (t1 / 64) mod 256; t1 / 16384 + 16 * (t2 mod 16); (t2 / 16) mod 256; t2 / 4096 + 64 * (t3 mod 4); (t3 / 4) mod 256; t3 / 1024] ++ r.
Proof.
  intros. cbn [app].
  assert (E0: u8 t0 = t0 mod 256) by (clr; arith; lia).
  assert (E1: u8 (Z.shiftr t0 8) = (t0 / 256) mod 256) by (clr; arith; lia).
  assert (E2: Z.lor (u8 (Z.shiftr t0 16)) (u8 (Z.shiftl t1 2)) = t0 / 65536 + 4 * (t1 mod 64)) by (clr; arith; lora 2; lia).
  assert (E3: u8 (Z.shiftr t1 6) = (t1 / 64) mod 256) by (clr; arith; lia).
  assert (E4: Z.lor (u8 (Z.shiftr t1 14)) (u8 (Z.shiftl t2 4)) = t1 / 16384 + 16 * (t2 mod 16)) by (clr; arith; lora 4; lia).
  assert (E5: u8 (Z.shiftr t2 4) = (t2 / 16) mod 256) by (clr; arith; lia).
  assert (E6: Z.lor (u8 (Z.shiftr t2 12)) (u8 (Z.shiftl t3 6)) = t2 / 4096 + 64 * (t3 mod 4)) by (clr; arith; lora 6; lia).
  assert (E7: u8 (Z.shiftr t3 2) = (t3 / 4) mod 256) by (clr; arith; lia).
  assert (E8: u8 (Z.shiftr t3 10) = t3 / 1024) by (clr; arith; lia).
  now rewrite E0, E1, E2, E3, E4, E5, E6, E7, E8.
Qed.
Lemma z_pack_ok : forall k a, length a = (4 * k)%nat -> Forall (fun x => -131072 < x <= 131072) a ->
  exists b, polyz_pack a = Ret b /\ length b = (9 * k)%nat /\ bytes_ok b /\ leval 8 b = leval 18 (map (fun x => 131072 - x) a).
Proof.
  induction k as [|k IH]; intros a HL Ha.
  - assert (a = []) as -> by (apply length_zero_iff_nil; lia). exists []. split; [reflexivity|]. split; [cbn [length]; lia|]. split; [constructor|reflexivity].
  - destruct a as [|a0 [|a1 [|a2 [|a3 a]]]]; try (exfalso; cbn [length] in HL; lia).
    do 4 (apply Forall_cons_iff in Ha as [? Ha]). cbn [length] in HL.
    destruct (IH a ltac:(lia) Ha) as (b & E & HLb & Hb & HV). cbn [polyz_pack]. unfold ETA, GAMMA1.
    rewrite (ck32_ok (131072 - a0)), (ck32_ok (131072 - a1)), (ck32_ok (131072 - a2)), (ck32_ok (131072 - a3)) by lia. cbn [bind].
    assert (U: forall x, 0 <= x < 262144 -> u32 x = x) by (intros; unfold u32; apply Z.mod_small; lia).
    rewrite (U (131072 - a0)), (U (131072 - a1)), (U (131072 - a2)), (U (131072 - a3)) by lia. clear U.
    rewrite E. cbn [bind]. rewrite (z_pack_code (131072 - a0) (131072 - a1) (131072 - a2) (131072 - a3) b) by lia.
    destruct (z_pack_val (131072 - a0) (131072 - a1) (131072 - a2) (131072 - a3)) as [V B]; try lia.
    eexists. split; [reflexivity|]. split; [cbn [app length]; lia|]. split; [apply Forall_app; now split|].
    cbn [map]. change (131072 - a0 :: 131072 - a1 :: 131072 - a2 :: 131072 - a3 :: map (fun x => 131072 - x) a) with ([131072 - a0; 131072 - a1; 131072 - a2; 131072 - a3] ++ map (fun x => 131072 - x) a).
    apply leval_step; [lia|lia|reflexivity|exact V|exact HV].
Qed.
Lemma z_unpack_code b0 b1 b2 b3 b4 b5 b6 b7 b8 : 0 <= b0 < 256 -> 0 <= b1 < 256 -> 0 <= b2 < 256 -> 0 <= b3 < 256 -> 0 <= b4 < 256 -> 0 <= b5 < 256 -> 0 <= b6 < 256 -> 0 <= b7 < 256 -> 0 <= b8 < 256 ->
  [Z.land (Z.lor (Z.lor b0 (Z.shiftl b1 8)) (Z.shiftl b2 16)) 0x3FFFF; Z.land (Z.lor (Z.lor (Z.shiftr b2 2) (Z.shiftl b3 6)) (Z.shiftl b4 14)) 0x3FFFF; Z.land (Z.lor (Z.lor (Z.shiftr b4 4) (Z.shiftl b5 4)) (Z.shiftl b6 12)) 0x3FFFF; Z.land (Z.lor (Z.lor (Z.shiftr b6 6) (Z.shiftl b7 2)) (Z.shiftl b8 10)) 0x3FFFF] =
  [b0 + 256 * (b1) + 65536 * (b2 mod 4); b2 / 4 + 64 * (b3) + 16384 * (b4 mod 16); b4 / 16 + 16 * (b5) + 4096 * (b6 mod 64); b6 / 64 + 4 * (b7) + 1024 * (b8)].
Proof.
  intros.
  assert (E0: Z.land (Z.lor (Z.lor b0 (Z.shiftl b1 8)) (Z.shiftl b2 16)) 0x3FFFF = b0 + 256 * (b1) + 65536 * (b2 mod 4)) by (clr; rewrite (land_mask 18) by (lia||reflexivity); arith; lora 8; lora 16; lia).
  assert (E1: Z.land (Z.lor (Z.lor (Z.shiftr b2 2) (Z.shiftl b3 6)) (Z.shiftl b4 14)) 0x3FFFF = b2 / 4 + 64 * (b3) + 16384 * (b4 mod 16)) by (clr; rewrite (land_mask 18) by (lia||reflexivity); arith; lora 6; lora 14; lia).
  assert (E2: Z.land (Z.lor (Z.lor (Z.shiftr b4 4) (Z.shiftl b5 4)) (Z.shiftl b6 12)) 0x3FFFF = b4 / 16 + 16 * (b5) + 4096 * (b6 mod 64)) by (clr; rewrite (land_mask 18) by (lia||reflexivity); arith; lora 4; lora 12; lia).
  assert (E3: Z.land (Z.lor (Z.lor (Z.shiftr b6 6) (Z.shiftl b7 2)) (Z.shiftl b8 10)) 0x3FFFF = b6 / 64 + 4 * (b7) + 1024 * (b8)) by (clr; rewrite (land_mask 18) by (lia||reflexivity); arith; lora 2; lora 10; lia).
  now rewrite E0, E1, E2, E3.
Qed.
Lemma z_unpack_ok : forall k b, length b = (9 * k)%nat -> bytes_ok b ->
  length (polyz_unpack b) = (4 * k)%nat /\ fields 18 (map (fun x => 131072 - x) (polyz_unpack b)) /\
  leval 18 (map (fun x => 131072 - x) (polyz_unpack b)) = leval 8 b.
Proof.
  induction k as [|k IH]; intros b HL Hb.
  - assert (b = []) as -> by (apply length_zero_iff_nil; lia). split; [cbn [polyz_unpack length]; lia|]. split; [constructor|reflexivity].
  - destruct b as [|b0 [|b1 [|b2 [|b3 [|b4 [|b5 [|b6 [|b7 [|b8 b]]]]]]]]]; try (exfalso; cbn [length] in HL; lia).
    do 9 (apply Forall_cons_iff in Hb as [? Hb]). unfold byte_ok in *. cbn [length] in HL.
    destruct (IH b ltac:(lia) Hb) as (HLb & HF & HV). cbn [polyz_unpack]. split; [cbn [length]; lia|].
    destruct (z_unpack_val b0 b1 b2 b3 b4 b5 b6 b7 b8) as [V F]; try assumption.
    rewrite <- (z_unpack_code b0 b1 b2 b3 b4 b5 b6 b7 b8) in V, F by assumption.
    match goal with |- fields _ (map ?f ?l) /\ _ => assert (M: map f l = [Z.land (Z.lor (Z.lor b0 (Z.shiftl b1 8)) (Z.shiftl b2 16)) 0x3FFFF; Z.land (Z.lor (Z.lor (Z.shiftr b2 2) (Z.shiftl b3 6)) (Z.shiftl b4 14)) 0x3FFFF; Z.land (Z.lor (Z.lor (Z.shiftr b4 4) (Z.shiftl b5 4)) (Z.shiftl b6 12)) 0x3FFFF; Z.land (Z.lor (Z.lor (Z.shiftr b6 6) (Z.shiftl b7 2)) (Z.shiftl b8 10)) 0x3FFFF] ++ map f (polyz_unpack b)) end.
    { cbn [map app]. unfold ETA, GAMMA1. rewrite !sub_sub. reflexivity. }
    rewrite M. split; [apply Forall_app; now split|].
    change (b0 :: b1 :: b2 :: b3 :: b4 :: b5 :: b6 :: b7 :: b8 :: b) with ([b0; b1; b2; b3; b4; b5; b6; b7; b8] ++ b). apply leval_step; [lia|lia|reflexivity|exact V|exact HV].
Qed.
Lemma w1_pack_code t0 t1 t2 t3 r : 0 <= t0 < 64 -> 0 <= t1 < 64 -> 0 <= t2 < 64 -> 0 <= t3 < 64 ->
  Z.lor (u8 t0) (u8 (t1 * 2 ^ 6)) :: Z.lor (u8 (Z.shiftr t1 2)) (u8 (t2 * 2 ^ 4)) :: Z.lor (u8 (Z.shiftr t2 4)) (u8 (t3 * 2 ^ 2)) :: r =
  [t0 + 64 * (t1 mod 4); t1 / 4 + 16 * (t2 mod 16); t2 / 16 + 4 * (t3)] ++ r.
Proof.
  intros. cbn [app].
  assert (E0: Z.lor (u8 t0) (u8 (t1 * 2 ^ 6)) = t0 + 64 * (t1 mod 4)) by (clr; arith; lora 6; lia).
  assert (E1: Z.lor (u8 (Z.shiftr t1 2)) (u8 (t2 * 2 ^ 4)) = t1 / 4 + 16 * (t2 mod 16)) by (clr; arith; lora 4; lia).
  assert (E2: Z.lor (u8 (Z.shiftr t2 4)) (u8 (t3 * 2 ^ 2)) = t2 / 16 + 4 * (t3)) by (clr; arith; lora 2; lia).
  now rewrite E0, E1, E2.
Qed.
Lemma w1_pack_ok : forall k a, length a = (4 * k)%nat -> Forall (fun x => 0 <= x < 64) a ->
  exists b, polyw1_pack a = Ret b /\ length b = (3 * k)%nat /\ bytes_ok b /\ leval 8 b = leval 6 (map (fun x => x) a).
Proof.
  induction k as [|k IH]; intros a HL Ha.
  - assert (a = []) as -> by (apply length_zero_iff_nil; lia). exists []. split; [reflexivity|]. split; [cbn [length]; lia|]. split; [constructor|reflexivity].
  - destruct a as [|a0 [|a1 [|a2 [|a3 a]]]]; try (exfalso; cbn [length] in HL; lia).
    do 4 (apply Forall_cons_iff in Ha as [? Ha]). cbn [length] in HL.
    destruct (IH a ltac:(lia) Ha) as (b & E & HLb & Hb & HV). cbn [polyw1_pack]. unfold ETA, GAMMA1.
    rewrite (shl32_ok a1 6), (shl32_ok a2 4), (shl32_ok a3 2) by lia. cbn [bind].
    rewrite E. cbn [bind]. rewrite (w1_pack_code (a0) (a1) (a2) (a3) b) by lia.
    destruct (w1_pack_val (a0) (a1) (a2) (a3)) as [V B]; try lia.
    eexists. split; [reflexivity|]. split; [cbn [app length]; lia|]. split; [apply Forall_app; now split|].
    cbn [map]. change (a0 :: a1 :: a2 :: a3 :: map (fun x => x) a) with ([a0; a1; a2; a3] ++ map (fun x => x) a).
    apply leval_step; [lia|lia|reflexivity|exact V|exact HV].
Qed.

(** ** Round trips for one polynomial *)
Lemma map_inj_list (f g : Z -> Z) : (forall x, g (f x) = x) -> forall a b, map f a = map f b -> a = b.
Proof.
  intros H a b E. rewrite <- (map_id a), <- (map_id b).
  replace (map (fun x => x) a) with (map g (map f a)) by (rewrite map_map; apply map_ext; exact H).
  rewrite E, map_map. apply map_ext. intros; apply H.
Qed.
Section Roundtrip.
  Variables (w : Z) (f : Z -> Z) (nf nb : nat) (pack : list Z -> outcome (list Z)) (unpack : list Z -> list Z).
  Hypothesis Hw : 0 < w.
  Hypothesis Hf : forall x, f (f x) = x.
  Hypothesis Pok : forall k a, length a = (nf * k)%nat -> Forall (fun x => 0 <= f x < 2 ^ w) a ->
    exists b, pack a = Ret b /\ length b = (nb * k)%nat /\ bytes_ok b /\ leval 8 b = leval w (map f a).
  Hypothesis Uok : forall k b, length b = (nb * k)%nat -> bytes_ok b ->
    length (unpack b) = (nf * k)%nat /\ fields w (map f (unpack b)) /\ leval w (map f (unpack b)) = leval 8 b.
  Lemma rt_unpack_pack k a : length a = (nf * k)%nat -> Forall (fun x => 0 <= f x < 2 ^ w) a ->
    exists b, pack a = Ret b /\ length b = (nb * k)%nat /\ bytes_ok b /\ unpack b = a.
  Proof.
    intros HL Ha. destruct (Pok k a HL Ha) as (b & E & HLb & Hb & V). exists b. repeat (split; [assumption|]).
    destruct (Uok k b HLb Hb) as (HLu & HF & HV). apply (map_inj_list f f Hf).
    apply (leval_inj w Hw); [rewrite !map_length; lia|exact HF| |congruence].
    apply Forall_map. exact Ha.
  Qed.
  Lemma rt_pack_unpack k b : length b = (nb * k)%nat -> bytes_ok b -> pack (unpack b) = Ret b.
  Proof.
    intros HLb Hb. destruct (Uok k b HLb Hb) as (HLu & HF & HV).
    destruct (Pok k (unpack b) HLu) as (b' & E & HLb' & Hb' & V).
    { unfold fields in HF. rewrite Forall_map in HF. exact HF. }
    rewrite E. f_equal. apply (leval_inj 8); [lia|lia|exact Hb'|exact Hb|congruence].
  Qed.
End Roundtrip.
Definition poly_in (lo hi : Z) (a : list Z) : Prop := length a = 256%nat /\ Forall (fun x => lo <= x <= hi) a.
Lemma Forall_imp {A} (P R : A -> Prop) l : (forall x, P x -> R x) -> Forall P l -> Forall R l.
Proof. intros H. apply Forall_impl. exact H. Qed.

Lemma eta_rt a : poly_in (-5) 2 a -> exists b, polyeta_pack a = Ret b /\ length b = 96%nat /\ bytes_ok b /\ polyeta_unpack b = a.
Proof.
  intros [HL H]. apply (rt_unpack_pack 3 (fun x => 2 - x) 8 3 polyeta_pack polyeta_unpack) with (k := 32%nat); [lia|intros; ring| |apply eta_unpack_ok|exact HL|].
  - intros k a0 HL0 H0. apply eta_pack_ok; [exact HL0|]. eapply Forall_imp; [|exact H0]. cbv beta. intros x. pow2. lia.
  - eapply Forall_imp; [|exact H]. cbv beta. intros x. pow2. lia.
Qed.
Lemma t1_rt a : poly_in 0 1023 a -> exists b, polyt1_pack a = Ret b /\ length b = 320%nat /\ bytes_ok b /\ polyt1_unpack b = a.
Proof.
  intros [HL H]. apply (rt_unpack_pack 10 (fun x => x) 4 5 polyt1_pack polyt1_unpack) with (k := 64%nat); [lia|intros; ring| |apply t1_unpack_ok|exact HL|].
  - intros k a0 HL0 H0. apply t1_pack_ok; [exact HL0|]. eapply Forall_imp; [|exact H0]. cbv beta. intros x. pow2. lia.
  - eapply Forall_imp; [|exact H]. cbv beta. intros x. pow2. lia.
Qed.
Lemma t0_rt a : poly_in (-4095) 4096 a -> exists b, polyt0_pack a = Ret b /\ length b = 416%nat /\ bytes_ok b /\ polyt0_unpack b = a.
Proof.
  intros [HL H]. apply (rt_unpack_pack 13 (fun x => 4096 - x) 8 13 polyt0_pack polyt0_unpack) with (k := 32%nat); [lia|intros; ring| |apply t0_unpack_ok|exact HL|].
  - intros k a0 HL0 H0. apply t0_pack_ok; [exact HL0|]. eapply Forall_imp; [|exact H0]. cbv beta. intros x. pow2. lia.
  - eapply Forall_imp; [|exact H]. cbv beta. intros x. pow2. lia.
Qed.
Lemma z_rt a : poly_in (-131071) 131072 a -> exists b, polyz_pack a = Ret b /\ length b = 576%nat /\ bytes_ok b /\ polyz_unpack b = a.
Proof.
  intros [HL H]. apply (rt_unpack_pack 18 (fun x => 131072 - x) 4 9 polyz_pack polyz_unpack) with (k := 64%nat); [lia|intros; ring| |apply z_unpack_ok|exact HL|].
  - intros k a0 HL0 H0. apply z_pack_ok; [exact HL0|]. eapply Forall_imp; [|exact H0]. cbv beta. intros x. pow2. lia.
  - eapply Forall_imp; [|exact H]. cbv beta. intros x. pow2. lia.
Qed.
Lemma z_canon b : length b = 576%nat -> bytes_ok b -> polyz_pack (polyz_unpack b) = Ret b.
Proof.
  intros HL H. apply (rt_pack_unpack 18 (fun x => 131072 - x) 4 9 polyz_pack polyz_unpack) with (k := 64%nat); [lia| |apply z_unpack_ok|exact HL|exact H].
  intros k a0 HL0 H0. apply z_pack_ok; [exact HL0|]. eapply Forall_imp; [|exact H0]. cbv beta. intros x. pow2. lia.
Qed.
Lemma t1_canon b : length b = 320%nat -> bytes_ok b -> polyt1_pack (polyt1_unpack b) = Ret b.
Proof.
  intros HL H. apply (rt_pack_unpack 10 (fun x => x) 4 5 polyt1_pack polyt1_unpack) with (k := 64%nat); [lia| |apply t1_unpack_ok|exact HL|exact H].
  intros k a0 HL0 H0. apply t1_pack_ok; [exact HL0|]. eapply Forall_imp; [|exact H0]. cbv beta. intros x. pow2. lia.
Qed.
Lemma t0_canon b : length b = 416%nat -> bytes_ok b -> polyt0_pack (polyt0_unpack b) = Ret b.
Proof.
  intros HL H. apply (rt_pack_unpack 13 (fun x => 4096 - x) 8 13 polyt0_pack polyt0_unpack) with (k := 32%nat); [lia| |apply t0_unpack_ok|exact HL|exact H].
  intros k a0 HL0 H0. apply t0_pack_ok; [exact HL0|]. eapply Forall_imp; [|exact H0]. cbv beta. intros x. pow2. lia.
Qed.
Lemma eta_canon b : length b = 96%nat -> bytes_ok b -> polyeta_pack (polyeta_unpack b) = Ret b.
Proof.
  intros HL H. apply (rt_pack_unpack 3 (fun x => 2 - x) 8 3 polyeta_pack polyeta_unpack) with (k := 32%nat); [lia| |apply eta_unpack_ok|exact HL|exact H].
  intros k a0 HL0 H0. apply eta_pack_ok; [exact HL0|]. eapply Forall_imp; [|exact H0]. cbv beta. intros x. pow2. lia.
Qed.
(** every 576/320/416/96-byte string decodes to an in-range polynomial *)
Lemma fields_map_range w c l lo hi : (forall x, 0 <= c - x < 2 ^ w -> lo <= x <= hi) -> fields w (map (fun x => c - x) l) -> Forall (fun x => lo <= x <= hi) l.
Proof. intros H F. unfold fields in F. rewrite Forall_map in F. eapply Forall_imp; [|exact F]. exact H. Qed.
Lemma z_unpack_in b : length b = 576%nat -> bytes_ok b -> poly_in (-131071) 131072 (polyz_unpack b).
Proof.
  intros HL H. destruct (z_unpack_ok 64 b HL H) as (E & F & _). split; [exact E|]. eapply fields_map_range; [|exact F]. intros x. pow2. lia.
Qed.
Lemma t1_unpack_in b : length b = 320%nat -> bytes_ok b -> poly_in 0 1023 (polyt1_unpack b).
Proof.
  intros HL H. destruct (t1_unpack_ok 64 b HL H) as (E & F & _). split; [exact E|]. unfold fields in F. rewrite map_id in F.
  eapply Forall_imp; [|exact F]. cbv beta. intros x. pow2. lia.
Qed.
Lemma t0_unpack_in b : length b = 416%nat -> bytes_ok b -> poly_in (-4095) 4096 (polyt0_unpack b).
Proof.
  intros HL H. destruct (t0_unpack_ok 32 b HL H) as (E & F & _). split; [exact E|]. eapply fields_map_range; [|exact F]. intros x. pow2. lia.
Qed.
Lemma eta_unpack_in b : length b = 96%nat -> bytes_ok b -> poly_in (-5) 2 (polyeta_unpack b).
Proof.
  intros HL H. destruct (eta_unpack_ok 32 b HL H) as (E & F & _). split; [exact E|]. eapply fields_map_range; [|exact F]. intros x. pow2. lia.
Qed.
Lemma w1_pack_in a : poly_in 0 63 a -> exists b, polyw1_pack a = Ret b /\ length b = 192%nat /\ bytes_ok b /\ leval 8 b = leval 6 a.
Proof.
  intros [HL H]. destruct (w1_pack_ok 64 a HL) as (b & E & HLb & Hb & V).
  - eapply Forall_imp; [|exact H]. cbv beta. lia.
  - exists b. rewrite map_id in V. auto.
Qed.
Lemma w1_pack_inj a a' b : poly_in 0 63 a -> poly_in 0 63 a' -> polyw1_pack a = Ret b -> polyw1_pack a' = Ret b -> a = a'.
Proof.
  intros Ha Ha' E E'. destruct (w1_pack_in a Ha) as (b1 & E1 & _ & _ & V1). destruct (w1_pack_in a' Ha') as (b2 & E2 & _ & _ & V2).
  rewrite E in E1. rewrite E' in E2. assert (b1 = b2) by congruence. subst. destruct Ha as [HL H], Ha' as [HL' H'].
  apply (leval_inj 6); [lia|lia| | |congruence].
  - eapply Forall_imp; [|exact H]. cbv beta. intros x. pow2. lia.
  - eapply Forall_imp; [|exact H']. cbv beta. intros x. pow2. lia.
Qed.
