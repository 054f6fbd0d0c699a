(** Property theorems about SHA-3/SHAKE and the seed expander (C19-C21).

    The models of the C functions are in Sponge.v and ShakePrng.v, on top of the
    transcription of the permutation in Keccak.v.  The specification is the
    bit-level transcription of FIPS 202 in KeccakSpec.v, which does not depend on
    the models. *)
From Verif Require Import Base Keccak KeccakSpec KeccakProofs Sponge SpongePure SpongeProofs SpongeProofs2 SpongeFips ShakePrng.
Local Opaque KeccakF1600_StatePermute keccak_f_bits.

(** [h'] is [h] with its first [n] bytes replaced by [d]. *)
Definition overwritten (h : list Z) (n : Z) (d h' : list Z) : Prop :=
  zlen d = n /\ h' = d ++ slice h n (zlen h - n).

Lemma splice_overwritten h n d : 0 <= n <= zlen h -> zlen d = n -> overwritten h n d (splice h 0 d).
Proof.
  intros Hn Hd. split; [exact Hd|]. unfold splice. rewrite slice_0. cbn [app]. rewrite Hd. f_equal. f_equal; lia.
Qed.

(** ** C21 *)
Lemma shake_fips r rate output outlen input inlen :
  r mod 8 = 0 -> 0 < r <= 200 -> (8 * Z.to_nat r = rate)%nat ->
  0 <= outlen <= zlen output -> 0 <= inlen <= zlen input -> bytes_ok input ->
  exists d output', shake_oneshot r output outlen input inlen = Ret output' /\
    overwritten output outlen d output' /\
    bits_of_bytes d = sponge keccak_f_bits rate (bits_of_bytes (slice input 0 inlen) ++ [true; true; true; true]) (8 * Z.to_nat outlen).
Proof.
  intros H8 Hr <- Ho Hi Hb.
  exists (sponge_bytes r 0x1F (slice input 0 inlen) outlen), (splice output 0 (sponge_bytes r 0x1F (slice input 0 inlen) outlen)).
  split; [now apply shake_oneshot_ok|]. split.
  - apply splice_overwritten; [lia|]. apply zlen_squeeze; lia.
  - apply sponge_bytes_correct; [exact Hr|exact domain_shake|now apply bytes_ok_slice|lia].
Qed.
Lemma sha3_fips r rate d output input inlen :
  r mod 8 = 0 -> 0 < r <= 200 -> (8 * Z.to_nat r = rate)%nat -> 0 <= d <= r ->
  d <= zlen output -> 0 <= inlen <= zlen input -> bytes_ok input ->
  exists h output', sha3_oneshot r d output input inlen = Ret output' /\
    overwritten output d h output' /\
    bits_of_bytes h = sponge keccak_f_bits rate (bits_of_bytes (slice input 0 inlen) ++ [false; true]) (8 * Z.to_nat d).
Proof.
  intros H8 Hr <- Hd Ho Hi Hb.
  exists (sponge_bytes r 0x06 (slice input 0 inlen) d), (splice output 0 (sponge_bytes r 0x06 (slice input 0 inlen) d)).
  split; [now apply sha3_oneshot_ok|]. split.
  - apply splice_overwritten; [lia|]. apply zlen_squeeze; lia.
  - apply sponge_bytes_correct; [exact Hr|exact domain_sha3|now apply bytes_ok_slice|lia].
Qed.

Theorem C21_shake128_is_fips202 : forall output outlen input inlen,
  0 <= outlen <= zlen output -> 0 <= inlen <= zlen input -> bytes_ok input ->
  exists d output', shake128 output outlen input inlen = Ret output' /\
    overwritten output outlen d output' /\
    bits_of_bytes d = SHAKE128 (bits_of_bytes (slice input 0 inlen)) (8 * Z.to_nat outlen).
Proof. intros. apply shake_fips; try assumption; unfold SHAKE128_RATE; reflexivity || lia. Qed.
Print Assumptions C21_shake128_is_fips202.

Theorem C21_shake256_is_fips202 : forall output outlen input inlen,
  0 <= outlen <= zlen output -> 0 <= inlen <= zlen input -> bytes_ok input ->
  exists d output', shake256 output outlen input inlen = Ret output' /\
    overwritten output outlen d output' /\
    bits_of_bytes d = SHAKE256 (bits_of_bytes (slice input 0 inlen)) (8 * Z.to_nat outlen).
Proof. intros. apply shake_fips; try assumption; unfold SHAKE256_RATE; reflexivity || lia. Qed.
Print Assumptions C21_shake256_is_fips202.

Theorem C21_sha3_256_is_fips202 : forall output input inlen,
  32 <= zlen output -> 0 <= inlen <= zlen input -> bytes_ok input ->
  exists d output', sha3_256 output input inlen = Ret output' /\
    overwritten output 32 d output' /\
    bits_of_bytes d = SHA3_256 (bits_of_bytes (slice input 0 inlen)).
Proof. intros. apply (sha3_fips 136 1088 32); try assumption; reflexivity || lia. Qed.
Print Assumptions C21_sha3_256_is_fips202.

Theorem C21_sha3_384_is_fips202 : forall output input inlen,
  48 <= zlen output -> 0 <= inlen <= zlen input -> bytes_ok input ->
  exists d output', sha3_384 output input inlen = Ret output' /\
    overwritten output 48 d output' /\
    bits_of_bytes d = SHA3_384 (bits_of_bytes (slice input 0 inlen)).
Proof. intros. apply (sha3_fips 104 832 48); try assumption; reflexivity || lia. Qed.
Print Assumptions C21_sha3_384_is_fips202.

Theorem C21_sha3_512_is_fips202 : forall output input inlen,
  64 <= zlen output -> 0 <= inlen <= zlen input -> bytes_ok input ->
  exists d output', sha3_512 output input inlen = Ret output' /\
    overwritten output 64 d output' /\
    bits_of_bytes d = SHA3_512 (bits_of_bytes (slice input 0 inlen)).
Proof. intros. apply (sha3_fips 72 576 64); try assumption; reflexivity || lia. Qed.
Print Assumptions C21_sha3_512_is_fips202.

(** The permutation alone: [bits_of_lanes] is the FIPS 202 bit string of 25 words. *)
Theorem C21_permutation_is_keccak_f : forall S, length S = 25%nat -> Forall (fun a => 0 <= a < 2 ^ 64) S ->
  bits_of_lanes (KeccakF1600_StatePermute S) = keccak_f_bits (bits_of_lanes S).
Proof. intros S H1 H2. symmetry. apply keccakf_correct. now split. Qed.
Print Assumptions C21_permutation_is_keccak_f.

(** Published digests: SHA3-256("abc"), SHA3-512(""), SHAKE128("abc", 200 bytes). *)
Example C21_sha3_256_abc :
  sha3_256 (zeros 32) [97; 98; 99] 3 = Ret [58; 152; 93; 167; 79; 226; 37; 178; 4; 92; 23; 45; 107; 211; 144; 189; 133; 95; 8; 110; 62; 157; 82; 91; 70; 191; 226; 69; 17; 67; 21; 50].
Proof. vm_compute. reflexivity. Qed.
Example C21_sha3_384_abc :
  sha3_384 (zeros 48) [97; 98; 99] 3 = Ret [236; 1; 73; 130; 136; 81; 111; 201; 38; 69; 159; 88; 226; 198; 173; 141; 249; 180; 115; 203; 15; 192; 140; 37; 150; 218; 124; 240; 228; 155; 228; 178; 152; 216; 140; 234; 146; 122; 199; 245; 57; 241; 237; 242; 40; 55; 109; 37].
Proof. vm_compute. reflexivity. Qed.
Example C21_sha3_512_empty :
  sha3_512 (zeros 64) [] 0 = Ret [166; 159; 115; 204; 162; 58; 154; 197; 200; 181; 103; 220; 24; 90; 117; 110; 151; 201; 130; 22; 79; 226; 88; 89; 224; 209; 220; 193; 71; 92; 128; 166; 21; 178; 18; 58; 241; 245; 249; 76; 17; 227; 233; 64; 44; 58; 197; 88; 245; 0; 25; 157; 149; 182; 211; 227; 1; 117; 133; 134; 40; 29; 205; 38].
Proof. vm_compute. reflexivity. Qed.
Example C21_shake128_abc :
  shake128 (zeros 200) 200 [97; 98; 99] 3 = Ret [88; 129; 9; 45; 216; 24; 191; 92; 248; 163; 221; 183; 147; 251; 203; 167; 64; 151; 213; 197; 38; 166; 211; 95; 151; 184; 51; 81; 148; 15; 44; 200; 68; 197; 10; 243; 42; 205; 63; 44; 221; 6; 101; 104; 112; 111; 80; 155; 193; 189; 222; 88; 41; 93; 174; 63; 137; 26; 154; 15; 202; 87; 131; 120; 154; 65; 248; 97; 18; 20; 206; 97; 35; 148; 223; 40; 106; 98; 209; 162; 37; 42; 169; 77; 185; 197; 56; 149; 108; 113; 125; 194; 190; 212; 242; 50; 160; 41; 76; 133; 124; 115; 10; 161; 96; 103; 172; 16; 98; 241; 32; 31; 176; 211; 119; 207; 185; 205; 228; 198; 53; 153; 178; 127; 52; 98; 187; 164; 160; 237; 41; 108; 128; 31; 159; 247; 245; 115; 2; 187; 48; 118; 238; 20; 95; 151; 163; 42; 230; 142; 118; 171; 102; 196; 141; 81; 103; 91; 212; 154; 204; 41; 8; 47; 86; 71; 88; 78; 106; 160; 27; 63; 90; 240; 87; 128; 95; 151; 63; 248; 236; 184; 178; 38; 172; 50; 173; 166; 240; 28; 31; 205; 72; 24; 203; 0; 106; 165; 180; 205].
Proof. vm_compute. reflexivity. Qed.

(** ** C20: any chunking of the input and of the output.
    [inc_absorb_all] feeds the chunks one after another through keccak_inc_absorb;
    [inc_squeeze_all] asks for pieces of the given sizes and concatenates them
    (SpongeProofs2.v). *)
Theorem C20_incremental_is_oneshot_shake : forall r chunks sizes output,
  r = SHAKE128_RATE \/ r = SHAKE256_RATE ->
  Forall bytes_ok chunks -> Forall (fun n => 0 <= n) sizes -> zlen output = sum sizes ->
  (c <- inc_absorb_all r keccak_inc_init chunks ;;
   c <- keccak_inc_finalize c r 0x1F ;;
   inc_squeeze_all r c sizes)
  = shake_oneshot r output (sum sizes) (concat chunks) (zlen (concat chunks)).
Proof.
  intros r chunks sizes output Hr Hb Hs Ho.
  assert (H: r mod 8 = 0 /\ 0 < r <= 200) by (destruct Hr as [-> | ->]; split; reflexivity || (unfold SHAKE128_RATE, SHAKE256_RATE; lia)).
  destruct H as [H8 H2]. rewrite inc_any_chunking by assumption.
  pose proof (sum_nonneg sizes Hs). pose proof (zlen_nonneg (concat chunks)).
  rewrite shake_oneshot_ok; try assumption; try lia.
  - f_equal. rewrite slice_all by reflexivity. unfold splice. rewrite slice_0. cbn [app].
    rewrite slice_neg, app_nil_r; [reflexivity|]. unfold sponge_bytes. rewrite zlen_squeeze; lia.
  - apply Forall_concat. exact Hb.
Qed.
Print Assumptions C20_incremental_is_oneshot_shake.

(** The incremental SHA3 functions end with sha3_*_inc_finalize, which returns the digest. *)
Theorem C20_incremental_is_oneshot_sha3 : forall r d chunks output,
  (r, d) = (SHA3_256_RATE, 32) \/ (r, d) = (SHA3_384_RATE, 48) \/ (r, d) = (SHA3_512_RATE, 64) ->
  Forall bytes_ok chunks -> d <= zlen output ->
  (c <- inc_absorb_all r keccak_inc_init chunks ;; sha3_inc_finalize r d output c)
  = sha3_oneshot r d output (concat chunks) (zlen (concat chunks)).
Proof.
  intros r d chunks output Hr Hb Ho.
  assert (H: r mod 8 = 0 /\ 0 < r <= 200 /\ 0 <= d <= r).
  { destruct Hr as [E|[E|E]]; injection E as -> ->; unfold SHA3_256_RATE, SHA3_384_RATE, SHA3_512_RATE; repeat split; reflexivity || lia. }
  destruct H as (H8 & H2 & Hd).
  destruct (inc_absorb_all_ok r chunks H2 keccak_inc_init (ctx_ok_init r ltac:(lia))) as (c & -> & Hc & E). cbn [bind].
  pose proof (zlen_nonneg (concat chunks)).
  rewrite (sha3_inc_finalize_ok r d output c (concat chunks)) by assumption.
  rewrite sha3_oneshot_ok; try assumption; try lia.
  - rewrite slice_all by reflexivity. reflexivity.
  - apply Forall_concat. exact Hb.
Qed.
Print Assumptions C20_incremental_is_oneshot_sha3.

(** A shorter output is a prefix of a longer one, so output requests may also differ in total size. *)
Theorem C20_shorter_output_is_prefix : forall r m n k,
  0 < r -> 0 <= n <= k -> sponge_bytes r 0x1F m n = slice (sponge_bytes r 0x1F m k) 0 n.
Proof. intros. apply squeeze_prefix; lia. Qed.
Print Assumptions C20_shorter_output_is_prefix.

Example C20_hypotheses_met :
  (c <- inc_absorb_all 136 keccak_inc_init [[97]; []; [98; 99]] ;;
   c <- keccak_inc_finalize c 136 0x1F ;;
   inc_squeeze_all 136 c [1; 0; 150; 49])
  = shake256 (zeros 200) 200 [97; 98; 99] 3.
Proof. vm_compute. reflexivity. Qed.

(** ** C19 *)
Theorem C19_null_pointer : forall seed seedlen output outlen,
  seed = None \/ output = None -> seedexpander_wrapper seed seedlen output outlen = Ret (-1, output).
Proof. intros [sd|] seedlen [out|] outlen [H|H]; try discriminate H; reflexivity. Qed.
Print Assumptions C19_null_pointer.
Theorem C19_short_seed : forall sd seedlen out outlen,
  seedlen < 32 -> seedexpander_wrapper (Some sd) seedlen (Some out) outlen = Ret (-2, Some out).
Proof. intros. unfold seedexpander_wrapper. now replace (seedlen <? 32) with true by lia. Qed.
Print Assumptions C19_short_seed.
Theorem C19_short_output : forall sd seedlen out outlen,
  32 <= seedlen -> outlen <= seedlen -> seedexpander_wrapper (Some sd) seedlen (Some out) outlen = Ret (-3, Some out).
Proof.
  intros. unfold seedexpander_wrapper. replace (seedlen <? 32) with false by lia.
  now replace (outlen <=? seedlen) with true by lia.
Qed.
Print Assumptions C19_short_output.
Theorem C19_output_is_shake256 : forall sd seedlen out outlen,
  bytes_ok sd -> 32 <= seedlen <= zlen sd -> seedlen < outlen <= zlen out ->
  exists d out', seedexpander_wrapper (Some sd) seedlen (Some out) outlen = Ret (0, Some out') /\
    overwritten out outlen d out' /\
    bits_of_bytes d = SHAKE256 (bits_of_bytes (slice sd 0 seedlen ++ [2])) (8 * Z.to_nat outlen).
Proof.
  intros sd seedlen out outlen Hb Hs Ho.
  exists (shake256_bytes (slice sd 0 seedlen ++ [2]) outlen), (splice out 0 (shake256_bytes (slice sd 0 seedlen ++ [2]) outlen)).
  split; [now apply wrapper_ok|]. split.
  - apply splice_overwritten; [lia|]. apply zlen_squeeze; lia.
  - apply (sponge_bytes_correct 136 0x1F); [lia|exact domain_shake| |lia].
    apply bytes_ok_app. split; [now apply bytes_ok_slice|]. constructor; [unfold byte_ok; lia|constructor].
Qed.
Print Assumptions C19_output_is_shake256.

(** The vector of tests/shake_prng_test.c L36-37. *)
Example C19_test_vector :
  seedexpander_wrapper (Some [128; 245; 157; 176; 4; 176; 176; 211; 170; 189; 114; 189; 47; 149; 238; 116; 229; 104; 165; 220; 127; 79; 27; 161; 21; 100; 210; 42; 55; 109; 236; 97]) 32 (Some (zeros 96)) 96
  = Ret (0, Some [42; 69; 166; 190; 134; 52; 115; 60; 114; 28; 58; 189; 38; 1; 241; 41; 17; 231; 66; 106; 190; 30; 57; 229; 27; 81; 147; 251; 182; 120; 212; 239; 171; 249; 76; 129; 14; 151; 187; 219; 222; 162; 174; 50; 140; 40; 9; 138; 56; 225; 228; 57; 150; 208; 74; 95; 71; 233; 238; 1; 217; 220; 201; 152; 201; 65; 85; 103; 70; 106; 170; 229; 23; 202; 51; 100; 63; 240; 119; 222; 182; 98; 244; 31; 103; 193; 139; 232; 77; 198; 216; 160; 213; 49; 156; 101]).
Proof. vm_compute. reflexivity. Qed.
(** an output length that is not a multiple of eight *)
Example C19_odd_length : exists d,
  seedexpander_wrapper (Some (zeros 32)) 32 (Some (zeros 45)) 43 = Ret (0, Some (d ++ [0; 0])) /\ zlen d = 43.
Proof.
  exists (shake256_bytes (zeros 32 ++ [2]) 43). split; vm_compute; reflexivity.
Qed.
