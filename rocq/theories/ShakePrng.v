(** Model of common/shake_prng.c, and its proof. *)
From Verif Require Import Base Keccak Sponge SpongePure SpongeProofs SpongeProofs2.
Ltac Zify.zify_post_hook ::= Z.div_mod_to_equations.
Local Opaque KeccakF1600_StatePermute.

(** common/domains.h: SEEDEXPANDER_DOMAIN *)
Definition SEEDEXPANDER_DOMAIN : Z := 2.

(** shake_prng.c L19-25: seedexpander_init *)
Definition seedexpander_init (seed : list Z) (seedlen : Z) : outcome inc_ctx :=
  c <- shake256_inc_absorb shake256_inc_init seed seedlen ;;
  c <- shake256_inc_absorb c [SEEDEXPANDER_DOMAIN] 1 ;;
  shake256_inc_finalize c.

(** shake_prng.c L37-50: seedexpander.  [tmp] starts uninitialised in C; all eight
    bytes are written before any is read, so its initial content is irrelevant. *)
Definition seedexpander (c : inc_ctx) (output : list Z) (outlen : Z) : outcome (list Z * inc_ctx) :=
  let remainder := outlen mod 8 in
  '(output, c) <- shake256_inc_squeeze output 0 (outlen - remainder) c ;;
  if remainder =? 0 then Ret (output, c)
  else
    '(tmp, c) <- shake256_inc_squeeze (zeros 8) 0 8 c ;;
    output <- copy output (outlen - remainder) tmp 0 remainder ;;
    Ret (output, c).

(** shake_prng.c L67-83: seedexpander_wrapper; returns (code, output buffer).
    seedexpander_release only frees the context. *)
Definition seedexpander_wrapper (seed : ptr) (seedlen : Z) (output : ptr) (outlen : Z) : outcome (Z * ptr) :=
  match seed, output with
  | Some sd, Some out =>
      if seedlen <? 32 then Ret (-2, output)
      else if outlen <=? seedlen then Ret (-3, output)
      else
        c <- seedexpander_init sd seedlen ;;
        '(out, _) <- seedexpander c out outlen ;;
        Ret (0, Some out)
  | _, _ => Ret (-1, output)
  end.

(** ** Proofs *)
Lemma rate256 : 0 < SHAKE256_RATE <= 200. Proof. unfold SHAKE256_RATE. lia. Qed.

Lemma seedexpander_init_ok seed seedlen : 0 <= seedlen <= zlen seed ->
  seedexpander_init seed seedlen
  = Ret {| lanes := pad_state 136 0x1F (absorb 136 (slice seed 0 seedlen ++ [2])); pos := 0 |}.
Proof.
  intros H. unfold seedexpander_init, shake256_inc_absorb, shake256_inc_init, shake256_inc_finalize.
  destruct (keccak_inc_absorb_ok SHAKE256_RATE keccak_inc_init seed seedlen rate256) as (c1 & E1 & Hc1 & P1); [apply ctx_ok_init; apply rate256|lia|].
  rewrite E1. cbn [bind].
  destruct (keccak_inc_absorb_ok SHAKE256_RATE c1 [SEEDEXPANDER_DOMAIN] 1 rate256 Hc1) as (c2 & E2 & Hc2 & P2); [change (zlen [SEEDEXPANDER_DOMAIN]) with 1; lia|].
  rewrite E2. cbn [bind]. rewrite keccak_inc_finalize_ok by (try apply rate256; assumption).
  rewrite P2, P1. rewrite <- absorb_from_app. reflexivity.
Qed.

Lemma seedexpander_ok s c t output outlen : zlen s = 25 -> squeezing 136 s t c -> 0 <= t -> 0 <= outlen <= zlen output ->
  exists c', seedexpander c output outlen = Ret (splice output 0 (map (stream 136 s) (zseq t (Z.to_nat outlen))), c').
Proof.
  intros Hs Hc Ht Ho. unfold seedexpander, shake256_inc_squeeze.
  set (e := outlen mod 8). assert (He: 0 <= e < 8) by (apply Z.mod_pos_bound; lia).
  assert (Hle: e <= outlen) by (apply Z.mod_le; lia).
  destruct (keccak_inc_squeeze_ok SHAKE256_RATE s output 0 (outlen - e) c t rate256 Hs Hc Ht) as (c1 & E1 & Hc1); try lia.
  rewrite E1. cbn [bind]. destruct (Z.eqb_spec e 0) as [E0|E0].
  - exists c1. rewrite E0, Z.sub_0_r. reflexivity.
  - destruct (keccak_inc_squeeze_ok SHAKE256_RATE s (zeros 8) 0 8 c1 (t + (outlen - e)) rate256 Hs Hc1) as (c2 & E2 & Hc2); try lia.
    { rewrite zlen_zeros; lia. }
    rewrite E2. cbn [bind].
    rewrite splice_whole by (rewrite zlen_map, zlen_zseq; lia).
    set (a := map _ (zseq t _)). assert (La: zlen a = outlen - e) by (unfold a; rewrite zlen_map, zlen_zseq; lia).
    rewrite copy_splice; [|lia|lia|rewrite zlen_splice; lia|lia|rewrite zlen_map, zlen_zseq; lia]. cbn [bind].
    exists c2. do 2 f_equal. replace (outlen - e) with (0 + zlen a) at 1 by lia.
    assert (Es: slice (map (stream SHAKE256_RATE s) (zseq (t + (outlen - e)) (Z.to_nat 8))) 0 e
                = map (stream SHAKE256_RATE s) (zseq (t + (outlen - e)) (Z.to_nat e))).
    { rewrite (map_zseq_shift _ _ (Z.to_nat 8)), slice_zseq_map by lia. now rewrite <- map_zseq_shift. }
    rewrite Es. rewrite splice_splice; [|lia|rewrite La, zlen_map, zlen_zseq; lia].
    f_equal. unfold a. rewrite <- map_app. unfold SHAKE256_RATE. f_equal.
    replace (Z.to_nat outlen) with (Z.to_nat (outlen - e) + Z.to_nat e)%nat by lia.
    rewrite zseq_app. do 2 f_equal. lia.
Qed.

Lemma wrapper_ok sd seedlen out outlen :
  32 <= seedlen <= zlen sd -> seedlen < outlen <= zlen out ->
  seedexpander_wrapper (Some sd) seedlen (Some out) outlen
  = Ret (0, Some (splice out 0 (shake256_bytes (slice sd 0 seedlen ++ [2]) outlen))).
Proof.
  intros Hs Ho. unfold seedexpander_wrapper.
  replace (seedlen <? 32) with false by lia. replace (outlen <=? seedlen) with false by lia.
  rewrite seedexpander_init_ok by lia. cbn [bind].
  set (s := pad_state _ _ _).
  assert (L: zlen s = 25) by (unfold s; rewrite zlen_pad_state; apply zlen_absorb; lia).
  destruct (seedexpander_ok s {| lanes := s; pos := 0 |} 0 out outlen L) as (c' & E); try lia.
  { exists 0. cbn. repeat split; lia. }
  rewrite E. cbn [bind]. unfold shake256_bytes, sponge_bytes. fold s. rewrite squeeze_stream by lia. reflexivity.
Qed.
