(** Property theorems about wasm/hybrid-pqc.c (C38). *)
From Coq Require Import ZifyBool ZifyNat.
From Verif Require Import Base Hybrid HybridSpec HybridProofs HybridProofs2 HybridToy Wasm.
Local Open Scope Z_scope.

(** ** C38: false of the code.  Every successful [dp_sign] stores 8 bytes through
    a pointer to a 4-byte [size_t]: undefined behaviour, an overrun by 4 bytes. *)
Theorem C38_dp_sign_overruns_size_t_refuted : forall P rb sm obj m mlen sk sm' l',
  zlen obj = 4 ->
  sign_compact P rb sm (Some 0) m mlen sk = Ret (0, sm', Some l') ->
  dp_sign P rb sm (Some obj) m mlen sk = Undef.
Proof.
  intros P rb sm obj m mlen sk sm' l' Ho E. unfold dp_sign. rewrite E. cbn [bind]. unfold store_u64, copy.
  rewrite Ho. reflexivity.
Qed.
Print Assumptions C38_dp_sign_overruns_size_t_refuted.
(** This happens: signing with the toy components of HybridToy.v. *)
Example C38_refuted_nonvacuous : exists sm l, sign_compact toy toy_rnd (Some (zeros 2590)) (Some 0) (Some toy_msg) 5 (Some toy_sk) = Ret (0, Some sm, Some l) /\
  dp_sign toy toy_rnd (Some (zeros 2590)) (Some (zeros 4)) (Some toy_msg) 5 (Some toy_sk) = Undef.
Proof.
  destruct toy_compact_ok as (sm & l & E). exists sm, l. split; [exact E|]. eapply C38_dp_sign_overruns_size_t_refuted; [reflexivity|exact E].
Qed.

Lemma le_bytes_zlen n v : zlen (le_bytes n v) = Z.of_nat n.
Proof. unfold le_bytes, zlen. rewrite map_length, seq_length. reflexivity. Qed.

(** With an object of at least 8 bytes (as from [mem_alloc_long_long(8)]) the
    wrapper does what the native function does: same code, same signed message;
    the object then holds the signed length, bytes 4..7 are zero and nothing
    behind byte 8 changes; on failure it is untouched. *)
Theorem C38_dp_sign_with_8_byte_length_partial : forall P rb smb obj mb mlen skb, comps_fit P -> comps_faithful P ->
  8 <= zlen obj -> 2526 + mlen <= zlen smb -> mlen <= zlen mb -> zlen skb = 4064 -> zlen (snd (rb 40)) = 40 ->
  exists r sm' l', sign_compact P rb (Some smb) (Some 0) (Some mb) mlen (Some skb) = Ret (r, sm', l') /\
  exists obj', dp_sign P rb (Some smb) (Some obj) (Some mb) mlen (Some skb) = Ret (r, sm', Some obj') /\
    (r <> 0 -> obj' = obj) /\
    (r = 0 -> load_size_t obj' = Ret (2526 + mlen) /\ l' = Some (2526 + mlen) /\ slice obj' 4 4 = zeros 4 /\ slice obj' 8 (zlen obj - 8) = slice obj 8 (zlen obj - 8) /\ zlen obj' = zlen obj).
Proof.
  intros P rb smb obj mb mlen skb HF HH Ho Hs Hm Hk Hr.
  destruct (sign_compact P rb (Some smb) (Some 0) (Some mb) mlen (Some skb)) as [[[r sm'] l']|] eqn:E.
  - exists r, sm', l'. split; [reflexivity|]. unfold dp_sign. rewrite E. cbn [bind]. destruct (Z.eq_dec r 0) as [->|Hr0].
    + assert (Hml: 1 <= mlen <= 64).
      { unfold sign_compact in E. destruct ((mlen <=? 0) || (MAX_MSG_LEN <? mlen)) eqn:G; [discriminate E|]. unfold MAX_MSG_LEN in G. lia. }
      destruct (sign_compact_success P rb smb 0 mb mlen skb sm' l' HF HH ltac:(lia) ltac:(lia) Hk Hr E) as (edsig & dilsig & Q). cbv zeta in Q. destruct Q as (_ & _ & _ & _ & _ & _ & _ & ->).
      unfold store_u64. pose proof (le_bytes_zlen 8 (2526 + mlen)) as L8. change (Z.of_nat 8) with 8 in L8. rewrite copy_ok by lia. cbn [bind]. rewrite slice_0, app_nil_l, Z.add_0_l, Z.sub_0_r. rewrite (slice_all (le_bytes 8 (2526 + mlen))) by lia.
      eexists. split; [reflexivity|]. split; [intros C; now elim C|]. intros _.
      assert (B: le_bytes 8 (2526 + mlen) = [(2526 + mlen) mod 256; (2526 + mlen) / 256; 0; 0; 0; 0; 0; 0]).
      { unfold le_bytes. cbn [seq map]. change (2 ^ (8 * Z.of_nat 0)) with 1. change (2 ^ (8 * Z.of_nat 1)) with 256. rewrite Z.div_1_r.
        assert (Z0: forall i, (2 <= i)%nat -> ((2526 + mlen) / 2 ^ (8 * Z.of_nat i)) mod 256 = 0).
        { intros i Hi. assert (2 ^ 16 <= 2 ^ (8 * Z.of_nat i)) by (apply Z.pow_le_mono_r; lia). change (2 ^ 16) with 65536 in *. rewrite Z.div_small by lia. reflexivity. }
        rewrite !Z0 by lia. rewrite (Z.mod_small ((2526 + mlen) / 256)); [reflexivity|]. split; [apply Z.div_pos; lia|apply Z.div_lt_upper_bound; lia]. }
      rewrite B. set (rest := slice obj 8 (zlen obj - 8)). assert (Lr: zlen rest = zlen obj - 8) by (unfold rest; rewrite zlen_slice; lia).
      set (a := (2526 + mlen) mod 256). set (b := (2526 + mlen) / 256). assert (Eab: a + 256 * b = 2526 + mlen) by (unfold a, b; pose proof (Z.div_mod (2526 + mlen) 256); lia). clearbody a b rest.
      split.
      { unfold load_size_t. rewrite rdrange_ok by (rewrite ?zlen_app; change (zlen [a; b; 0; 0; 0; 0; 0; 0]) with 8; lia). cbn [bind]. rewrite slice_app_l by (change (zlen [a; b; 0; 0; 0; 0; 0; 0]) with 8; lia). change (slice [a; b; 0; 0; 0; 0; 0; 0] 0 4) with [a; b; 0; 0]. cbn [fold_right]. f_equal. lia. }
      split; [reflexivity|]. split; [rewrite slice_app_l by (change (zlen [a; b; 0; 0; 0; 0; 0; 0]) with 8; lia); reflexivity|]. split.
      * rewrite slice_app_r by (change (zlen [a; b; 0; 0; 0; 0; 0; 0]) with 8; lia). change (zlen [a; b; 0; 0; 0; 0; 0; 0]) with 8. apply slice_all. lia.
      * rewrite zlen_app. change (zlen [a; b; 0; 0; 0; 0; 0; 0]) with 8. lia.
    + exists obj. split; [destruct r; try reflexivity; now elim Hr0|]. split; [reflexivity|intros; contradiction].
  - exfalso. revert E. apply sign_compact_safe; try assumption; lia.
Qed.
Print Assumptions C38_dp_sign_with_8_byte_length_partial.

(** The other wrappers forward their arguments unchanged. *)
Theorem C38_other_wrappers_forward_partial : forall P rb pk sk seed m mlen sm smlen,
  dp_sign_keypair_seed P pk sk seed = keypair_seed P pk sk seed /\ dp_sign_keypair P rb pk sk = keypair P rb pk sk /\
  dp_sign_verify P m mlen sm smlen pk = verify_compact P m mlen sm smlen pk.
Proof. intros. split; [|split]; reflexivity. Qed.
Print Assumptions C38_other_wrappers_forward_partial.
Example C38_nonvacuous : comps_fit toy /\ comps_faithful toy /\ zlen (snd (toy_rnd 40)) = 40 /\ zlen toy_sk = 4064.
Proof. split; [exact toy_fit|]. split; [exact toy_faithful|]. split; reflexivity. Qed.
