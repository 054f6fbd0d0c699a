{
 "claims": [
  {
   "property": "C01",
   "status": "proved",
   "theorems": [
    "C01_keypair_seed_layout",
    "C01_keypair_seed_null"
   ],
   "note": "For every behaviour of the three component key generators that respects its output sizes. Determinism is inherent in the model being a function of the seed and the old buffer contents, and the theorem shows the result depends on the seed only."
  },
  {
   "property": "C02",
   "status": "partial",
   "theorems": [
    "C02_expander_ignores_odd_bytes_refuted",
    "C02_distinct_seeds_collide_refuted",
    "C02_expander_output_partial",
    "C02_expander_concrete_partial",
    "C02_same_keys_refuted"
   ],
   "note": "REFUTED: the property is false of the code (double i++ in the copy loop); the odd-indexed bytes of seed[0,64) never reach the expander, so two different seeds give the same keys with the actual SHAKE-256 expander. The _partial theorems characterise exactly what is computed."
  },
  {
   "property": "C03",
   "status": "proved",
   "theorems": [
    "C03_full_sign_then_open",
    "C03_full_sign_succeeds"
   ],
   "note": "Conditional on the component contracts of HybridSpec.v."
  },
  {
   "property": "C04",
   "status": "proved",
   "theorems": [
    "C04_compact_sign_then_open",
    "C04_compact_sign_succeeds"
   ],
   "note": "Conditional on the component contracts of HybridSpec.v."
  },
  {
   "property": "C05",
   "status": "proved",
   "theorems": [
    "C05_full_layout"
   ],
   "note": ""
  },
  {
   "property": "C06",
   "status": "proved",
   "theorems": [
    "C06_compact_layout"
   ],
   "note": ""
  },
  {
   "property": "C07",
   "status": "proved",
   "theorems": [
    "C07_full_open_iff"
   ],
   "note": ""
  },
  {
   "property": "C08",
   "status": "proved",
   "theorems": [
    "C08_compact_open_iff"
   ],
   "note": ""
  },
  {
   "property": "C09",
   "status": "proved",
   "theorems": [
    "C09_full_verify_iff_open",
    "C09_compact_verify_iff_open"
   ],
   "note": ""
  },
  {
   "property": "C10",
   "status": "proved",
   "theorems": [
    "C10_full_malformed",
    "C10_compact_malformed",
    "C10_null_full",
    "C10_null_compact"
   ],
   "note": ""
  },
  {
   "property": "C11",
   "status": "proved",
   "theorems": [
    "C11_full_open_failure",
    "C11_compact_open_failure",
    "C11_full_sign_failure",
    "C11_compact_sign_failure"
   ],
   "note": ""
  },
  {
   "property": "C12",
   "status": "proved",
   "theorems": [
    "C12_full_sign_args",
    "C12_compact_sign_args",
    "C12_full_verify_args",
    "C12_compact_verify_args",
    "C12_verify_dilithium_args",
    "C12_verify_dilithium_iff"
   ],
   "note": ""
  },
  {
   "property": "C13",
   "status": "proved",
   "theorems": [
    "C13_keypair_entropy_failure",
    "C13_compact_sign_entropy_failure",
    "C13_full_sign_entropy_failure"
   ],
   "note": "For full sign, conditional on the SPHINCS+ component reporting the failure."
  },
  {
   "property": "C14",
   "status": "proved",
   "theorems": [
    "C14_modes_disjoint"
   ],
   "note": ""
  },
  {
   "property": "C15",
   "status": "partial",
   "theorems": [
    "C15_full_to_compact_repackaging_refuted"
   ],
   "note": "REFUTED: the property is false of the code; a full-mode signature on SHA3-512(nonce|m'|spxpk) is repackaged into a valid compact signature on m'."
  },
  {
   "property": "C16",
   "status": "proved",
   "theorems": [
    "C16_keypair_seed_safe",
    "C16_seed_expander_safe",
    "C16_full_sign_safe",
    "C16_compact_sign_safe"
   ],
   "note": "open/verify: definedness is part of C09/C10."
  },
  {
   "property": "C17",
   "status": "proved",
   "theorems": [
    "C17_compact_hash_input_injective"
   ],
   "note": ""
  },
  {
   "property": "C18",
   "status": "proved",
   "theorems": [
    "C18_full_layout_injective",
    "C18_compact_layout_injective"
   ],
   "note": ""
  },
  {
   "property": "C19",
   "status": "proved",
   "theorems": [
    "C19_null_pointer",
    "C19_short_seed",
    "C19_short_output",
    "C19_output_is_shake256"
   ],
   "note": ""
  },
  {
   "property": "C20",
   "status": "proved",
   "theorems": [
    "C20_incremental_is_oneshot_shake",
    "C20_incremental_is_oneshot_sha3",
    "C20_shorter_output_is_prefix"
   ],
   "note": ""
  },
  {
   "property": "C21",
   "status": "proved",
   "theorems": [
    "C21_shake128_is_fips202",
    "C21_shake256_is_fips202",
    "C21_sha3_256_is_fips202",
    "C21_sha3_384_is_fips202",
    "C21_sha3_512_is_fips202",
    "C21_permutation_is_keccak_f"
   ],
   "note": ""
  },
  {
   "property": "C22",
   "status": "proved",
   "theorems": [
    "C22_montgomery_reduce",
    "C22_montgomery_documented_bound_refuted",
    "C22_reduce32",
    "C22_reduce32_documented_bound_refuted",
    "C22_caddq",
    "C22_freeze"
   ],
   "note": ""
  },
  {
   "property": "C23",
   "status": "proved",
   "theorems": [
    "C23_power2round",
    "C23_decompose"
   ],
   "note": ""
  },
  {
   "property": "C24",
   "status": "proved",
   "theorems": [
    "C24_use_hint_spec",
    "C24_make_hint_spec",
    "C24_hint_recovers",
    "C24_no_hint",
    "C24_hint_step"
   ],
   "note": ""
  },
  {
   "property": "C25",
   "status": "proved",
   "theorems": [
    "C25_ntt_evaluates",
    "C25_inverse",
    "C25_multiply"
   ],
   "note": ""
  },
  {
   "property": "C26",
   "status": "proved",
   "theorems": [
    "C26_eta",
    "C26_t1",
    "C26_t0",
    "C26_z",
    "C26_w1",
    "C26_w1_injective",
    "C26_decode_any",
    "C26_public_key",
    "C26_public_key_any_bytes",
    "C26_secret_key",
    "C26_signature"
   ],
   "note": "eta encoding: keys of the scheme (coefficients -2..2); any 3-bit value decodes to -5..2."
  },
  {
   "property": "C27",
   "status": "proved",
   "theorems": [
    "C27_decode_total_and_canonical",
    "C27_injective"
   ],
   "note": ""
  },
  {
   "property": "C28",
   "status": "proved",
   "theorems": [
    "C28_sign_then_verify",
    "C28_sign_then_open",
    "C28_no_undefined_behaviour"
   ],
   "note": ""
  },
  {
   "property": "C29",
   "status": "proved",
   "theorems": [
    "C29_uniform",
    "C29_uniform_range",
    "C29_eta",
    "C29_eta_range",
    "C29_mask",
    "C29_challenge_sound",
    "C29_challenge_terminates",
    "C29_shake_streams"
   ],
   "note": "Exact functional specification for every byte stream; unbounded loops take fuel, the fuel needed is stated."
  },
  {
   "property": "C30",
   "status": "partial",
   "theorems": [
    "C30_verify_length",
    "C30_open_short",
    "C30_open_failure_partial",
    "C30_open_success",
    "C30_no_length_on_failure_refuted"
   ],
   "note": "REFUTED for the length variable: after a failed verification *mlen holds the length of the unverified message. Return values and message buffer are as claimed (_partial)."
  },
  {
   "property": "C31",
   "status": "proved",
   "theorems": [
    "C31_spx_sign_then_verify",
    "C31_spx_sign_then_verify_shake256"
   ],
   "note": ""
  },
  {
   "property": "C32",
   "status": "proved",
   "theorems": [
    "C32_keygen_ignores_uninitialised"
   ],
   "note": ""
  },
  {
   "property": "C33",
   "status": "proved",
   "theorems": [
    "C33_wots_checksum"
   ],
   "note": ""
  },
  {
   "property": "C34",
   "status": "proved",
   "theorems": [
    "C34_treehash_root_and_path"
   ],
   "note": "Heights 1..30 (1 << 31 would be undefined in the C code)."
  },
  {
   "property": "C35",
   "status": "partial",
   "theorems": [
    "C35_sign_failure_unreported_refuted",
    "C35_sign_signature_reports_partial",
    "C35_keypair_reports_partial"
   ],
   "note": "REFUTED: crypto_sign ignores the return code, returns 0 and stores a length computed from an uninitialised variable. crypto_sign_signature and crypto_sign_keypair do report the failure (_partial)."
  },
  {
   "property": "C36",
   "status": "proved",
   "theorems": [
    "C36_indices_in_range",
    "C36_addresses_are_injective",
    "C36_only_existing_roles_are_hashed"
   ],
   "note": "Indices, injectivity of the address encoding over all existing roles, and extensionality: only calls in existing roles matter."
  },
  {
   "property": "C37",
   "status": "proved",
   "theorems": [
    "C37_getrandom_fills_or_reports",
    "C37_urandom_fills_or_reports",
    "C37_getrandom_completes",
    "C37_js_fills_or_reports"
   ],
   "note": "Linux getrandom and urandom variants and the JavaScript variant, against an adversarial list of system call results; termination needs the system to keep delivering (C37_getrandom_completes). arc4random_buf variants (BSD, WASI) cannot fail by their API and are not modelled. Windows: C52."
  },
  {
   "property": "C38",
   "status": "partial",
   "theorems": [
    "C38_dp_sign_overruns_size_t_refuted",
    "C38_dp_sign_with_8_byte_length_partial",
    "C38_other_wrappers_forward_partial"
   ],
   "note": "REFUTED: on wasm32 dp_sign stores 8 bytes through a pointer to a 4-byte size_t. With an 8-byte object it is equivalent to the native function (_partial); the other wrappers forward."
  },
  {
   "property": "C39",
   "status": "proved",
   "theorems": [
    "C39_ed25519_sign_then_open"
   ],
   "note": ""
  },
  {
   "property": "C40",
   "status": "proved",
   "theorems": [
    "C40_field_addition",
    "C40_field_subtraction",
    "C40_field_multiplication",
    "C40_field_inversion",
    "C40_field_packing",
    "C40_field_unpacking",
    "C40_scalar_reduction",
    "C40_scalar_reduction_wide",
    "C40_base_point_multiples",
    "C40_point_group",
    "C40_base_point_order"
   ],
   "note": ""
  },
  {
   "property": "C41",
   "status": "proved",
   "theorems": [
    "C41_ed25519_open",
    "C41_ed25519_open_short",
    "C41_ed25519_open_bad_key",
    "C41_ed25519_open_clears"
   ],
   "note": "Exact decision rule ed_valid (EdSig.v), for signed messages shorter than 2^31 bytes."
  },
  {
   "property": "C42",
   "status": "partial",
   "theorems": [
    "C42_ed25519_malleable_refuted",
    "C42_ed25519_unique_mod_order_partial"
   ],
   "note": "REFUTED: for every produced signature (R,S), (R,S+L) is accepted as well. What holds (_partial): for the same R, key and message all accepted S agree modulo L."
  },
  {
   "property": "C43",
   "status": "proved",
   "theorems": [
    "C43_sha512"
   ],
   "note": ""
  },
  {
   "property": "C44",
   "status": "proved",
   "theorems": [
    "C44_secretbox_is_the_specified_box",
    "C44_secretbox_open_exact",
    "C44_secretbox_round_trip",
    "C44_secretbox_rejects_changed_tag",
    "C44_short_buffers_refused"
   ],
   "note": "For 32- and 64-bit unsigned long. The output is proved equal to the NaCl definition (XSalsa20 + Poly1305 in BoxSpec.v); opening succeeds exactly when the tag is the Poly1305 of the ciphertext; the first 16 bytes of the ciphertext buffer are ignored by opening."
  },
  {
   "property": "C45",
   "status": "proved",
   "theorems": [
    "C45_onetimeauth_is_poly1305",
    "C45_poly1305_is_the_polynomial",
    "C45_onetimeauth_verify_exact"
   ],
   "note": "For every message length and both widths of unsigned long; RFC 8439 definition in BoxSpec.v."
  },
  {
   "property": "C46",
   "status": "proved",
   "theorems": [
    "C46_verify_32",
    "C46_verify_16"
   ],
   "note": ""
  },
  {
   "property": "C47",
   "status": "proved",
   "theorems": [
    "C47_keygen_is_rfc8032",
    "C47_sign_is_rfc8032",
    "C47_signatures_strictly_valid",
    "C47_keypair_random"
   ],
   "note": ""
  },
  {
   "property": "C48",
   "status": "partial",
   "theorems": [
    "C48_noncanonical_key_refuted",
    "C48_accepts_all_rfc_valid_partial"
   ],
   "note": "REFUTED: non-canonical public keys are accepted (and S >= L, see C42). What holds (_partial): everything RFC 8032 accepts is accepted."
  },
  {
   "property": "C49",
   "status": "partial",
   "theorems": [
    "C49_large_message_open_refuted"
   ],
   "note": "REFUTED: the int counter of the copy loop overflows (undefined behaviour) for n >= 2^31."
  },
  {
   "property": "C50",
   "status": "proved",
   "theorems": [
    "C50_keygen_is_fips205",
    "C50_random_keygen_is_fips205",
    "C50_sign_is_fips205",
    "C50_verify_is_fips205"
   ],
   "note": ""
  },
  {
   "property": "C51",
   "status": "proved",
   "theorems": [
    "C51_open_accepts_iff_valid",
    "C51_sign_then_open"
   ],
   "note": ""
  },
  {
   "property": "C52",
   "status": "partial",
   "theorems": [
    "C52_windows_large_request_refuted",
    "C52_windows_fills_or_reports_partial"
   ],
   "note": "REFUTED for n >= 2^32: BCryptGenRandom's ULONG length truncates n, the tail stays zero and 0 is returned. Proved for n < 2^32 (_partial)."
  },
  {
   "property": "C53",
   "status": "proved",
   "theorems": [
    "C53_full_round_trip",
    "C53_compact_round_trip",
    "C53_keypair_seed",
    "C53_full_sign_succeeds",
    "C53_compact_sign_succeeds",
    "C53_full_open_accepts_iff",
    "C53_compact_open_accepts_iff"
   ],
   "note": "No hypothesis on the components. The bound f on the Dilithium rejection loops is arbitrary; exceeding it shows as a non-zero code. The Dilithium conjunct of the acceptance theorems is its modelled verification function."
  },
  {
   "property": "C54",
   "status": "partial",
   "theorems": [
    "C54_full_malleable_refuted",
    "C54_compact_malleable_refuted",
    "C54_full_signed_malleable_refuted",
    "C54_compact_signed_malleable_refuted"
   ],
   "note": "REFUTED: adding the group order to the S part (bytes 34..65) of any signed message produced by the library gives a different byte string that open accepts for the same message and key, in both modes."
  },
  {
   "property": "C55",
   "status": "proved",
   "theorems": [
    "C55_keygen_sound",
    "C55_keygen_complete",
    "C55_generated_keys",
    "C55_sign_sound",
    "C55_sign_complete",
    "C55_verify_exact",
    "C55_verify_complete",
    "C55_specification_round_trip"
   ],
   "note": "DilFips.v states key generation, signing and verification over schoolbook ring arithmetic, the FIPS 202 functions, and independent encodings, without the NTT, Montgomery arithmetic or any function of the model. The code follows the draft standard (no context string, no k and l bytes in the seed hash, 64-byte tr, zero randomness), and so does DilFips.v. Termination of the rejection loops is not claimed: soundness speaks about returned results, completeness says the result is returned whenever the specification defines one."
  },
  {
   "property": "C56",
   "status": "proved",
   "theorems": [
    "C56_stream_is_xsalsa20",
    "C56_stream_xor_is_xsalsa20",
    "C56_stream_xor_undoes_itself",
    "C56_stream_prefix"
   ],
   "note": "Salsa20, HSalsa20 and XSalsa20 from Bernstein's specifications in BoxSpec.v; the NaCl secretbox vector is run at build time in KatBox.v."
  },
  {
   "property": "C57",
   "status": "proved",
   "theorems": [
    "C57_scalarmult_is_x25519",
    "C57_x25519_multiplies_on_the_curve",
    "C57_base_multiplies_the_base_point",
    "C57_scalar_is_clamped"
   ],
   "note": "RFC 7748 ladder in X25519Spec.v; the ladder itself is proved to compute u([k]P) on the Edwards curve of EdSpec.v (MontEd.v), for every point including small order."
  },
  {
   "property": "C58",
   "status": "proved",
   "theorems": [
    "C58_key_agreement",
    "C58_box_is_the_specified_box",
    "C58_box_open_exact",
    "C58_box_round_trip",
    "C58_keypair_reports_failure",
    "C58_public_keys_nondegenerate"
   ],
   "note": "randombytes is an argument: its return value and the bytes it leaves."
  },
  {
   "property": "C59",
   "status": "partial",
   "theorems": [
    "C59_degenerate_public_key_refused_refuted"
   ],
   "note": "REFUTED: with the all-zero public key the shared key is the same for every secret key and crypto_box returns 0 (this is NaCl's documented behaviour; the RFC makes the check optional)."
  },
  {
   "property": "C60",
   "status": "proved",
   "theorems": [
    "C60_uniform",
    "C60_uniform_eta",
    "C60_uniform_gamma1",
    "C60_challenge"
   ],
   "note": "DilBuf.v is the literal model (arrays, context, leftover bytes). The result is stated with the FIPS 202 output function and DilSampleSpec.v."
  },
  {
   "property": "C61",
   "status": "proved",
   "theorems": [
    "C61_keygen",
    "C61_keygen_complete",
    "C61_sign",
    "C61_sign_complete",
    "C61_verify",
    "C61_verify_length"
   ],
   "note": "Stated with DilFips.v and BufSpec.written (the call wrote these bytes there and nothing else). The samplers and vector functions inside are the list-level ones, related to the buffer-level ones by C60."
  },
  {
   "property": "C62",
   "status": "proved",
   "theorems": [
    "C62_sign_in_place",
    "C62_open_in_place"
   ],
   "note": "One memory holds both buffers; the loops copy byte by byte in the order of the code."
  },
  {
   "property": "C63",
   "status": "proved",
   "theorems": [
    "C63_keygen",
    "C63_keypair",
    "C63_sign",
    "C63_sign_no_randomness",
    "C63_verify",
    "C63_sign_message"
   ],
   "note": "SpxBuf.v is the literal model of sphincs/*.c (SHAKE256 itself is the streaming model of C20-C24). The list-level model Spx.v (C50) is proved to be refined by it."
  },
  {
   "property": "C64",
   "status": "proved",
   "theorems": [
    "C64_open_in_place"
   ],
   "note": "One memory holds both buffers."
  },
  {
   "property": "C65",
   "status": "partial",
   "theorems": [
    "C65_sign_in_place_result",
    "C65_sign_in_place_refuted"
   ],
   "note": "REFUTED: the signature is written over the message before the message is moved; the call returns 0 and delivers the first bytes of the signature as the message. C65_sign_in_place_result states what is delivered."
  },
  {
   "property": "C66",
   "status": "proved",
   "theorems": [
    "C66_ed25519_keygen",
    "C66_ed25519_sign",
    "C66_x25519",
    "C66_sha512",
    "C66_onetimeauth",
    "C66_stream_xor",
    "C66_verify",
    "C66_secretbox",
    "C66_box",
    "C66_secretbox_open",
    "C66_box_open"
   ],
   "note": "Programs of CtTweet.v are written for an abstract type of data values, so they cannot branch or index on data without recording it; era_* lemmas (CtTweetProofs.v) prove that they compute what the checked model computes. Arithmetic on data (including multiplication) is taken not to leak its operands; compiler behaviour is outside the model."
  },
  {
   "property": "C67",
   "status": "proved",
   "theorems": [
    "C67_shake128",
    "C67_shake256",
    "C67_sha3",
    "C67_incremental",
    "C67_seedexpander"
   ],
   "note": "Same method as C66 (CtKeccak.v, CtKeccakProofs.v)."
  },
  {
   "property": "C68",
   "status": "proved",
   "theorems": [
    "C68_keygen_has_one_trace",
    "C68_sign_trace_follows_from_signature",
    "C68_failed_sign_has_one_trace",
    "C68_randomiser_trace",
    "C68_fors_trace",
    "C68_layer_trace"
   ],
   "note": "CtSpx.v, CtSpxProofs.v, CtSpxTrace.v, CtSpxSign.v. The signing theorem is relational (equal signatures give equal traces); the per-step theorems compare runs with unrelated secrets."
  },
  {
   "property": "C69",
   "status": "partial",
   "theorems": [
    "C69_sign_overlap",
    "C69_sign_in_place_refuted",
    "C69_open_separate",
    "C69_open_in_place_partial",
    "C69_open_in_place_refuted"
   ],
   "note": "REFUTED for equal buffers: in-place signing of more than 64 bytes signs the first 64 bytes repeated (C69_sign_in_place_refuted); in-place opening ignores the S half of the signature, because the public key is stored over it before it is read (C69_open_in_place_partial is the exact condition, C69_open_in_place_refuted the consequence). Proved for every placement in which the message lies behind its destination or ends before it (C69_sign_overlap) and for disjoint buffers when opening (C69_open_separate)."
  },
  {
   "property": "C70",
   "status": "proved",
   "theorems": [
    "C70_keygen_value",
    "C70_sign_value",
    "C70_keygen_trace",
    "C70_history_exists",
    "C70_history_unique",
    "C70_sign_trace",
    "C70_crypto_sign_trace",
    "C70_accepted_attempt_is_public",
    "C70_sign_trace_follows_from_public_data"
   ],
   "note": "Two-run theorems over instrumented key generation and signing, which are also proved to compute the specified key pair and signature. Leak.history lists, over the specification only, what each attempt may reveal; it exists and is unique for every signature, and its last entry is determined by public key and signature (C70_accepted_attempt_is_public). That rejected attempts reveal nothing useful is the usual assumption on Dilithium and is not claimed."
  },
  {
   "property": "C71",
   "status": "proved",
   "theorems": [
    "C71_returns",
    "C71_shake",
    "C71_seedexpander",
    "C71_dilithium_keygen",
    "C71_dilithium_sign",
    "C71_dilithium_sign_message",
    "C71_dilithium_verify",
    "C71_dilithium_open",
    "C71_sphincs_keygen",
    "C71_sphincs_sign",
    "C71_sphincs_sign_no_randomness",
    "C71_sphincs_sign_message",
    "C71_sphincs_verify",
    "C71_sphincs_open"
   ],
   "note": "Heap.v, SpxHeap.v: the programs of DilBuf.v, SpxBuf.v, Sponge.v and ShakePrng.v with contexts behind pointers. `releases` in PropsHeap.v is the whole claim about the heap; the results are those of C61 to C64. `More` (rejection loop not finished in `fuel` steps) occurs for Dilithium only. Temporary heap contents between calls of one function are not exposed; sha3_*_inc_* is covered by C72. The hybrid layer and TweetNaCl do not allocate."
  },
  {
   "property": "C72",
   "status": "proved",
   "theorems": [
    "C72_contexts_independent",
    "C72_released_context"
   ],
   "note": "HeapClient.v: specification spec_run (bytes fed, bytes read), program run over pointers; induction over the calls with an invariant that relates every live variable to its own block."
  },
  {
   "property": "C73",
   "status": "partial",
   "theorems": [
    "C73_full_sign_any_overlap",
    "C73_full_open_any_overlap",
    "C73_compact_open_overlap",
    "C73_compact_sign_overlap_partial",
    "C73_compact_sign_in_place_refuted",
    "C73_keypair_seed_overlap",
    "C73_seed_expander_overlap"
   ],
   "note": "REFUTED for compact signing in place (sm == m): the header and signatures are written over the message before it is copied, the call returns 0, the embedded message is the start of the output, and no public key verifies the output against the caller's message unless that starts with byte 1 (C73_compact_sign_in_place_refuted). Proved for any overlap in full mode; compact opening for every placement except a message buffer that starts inside the embedded message; compact signing when the message does not meet the first 2526 output bytes; key generation with the seed anywhere; seed expansion in place."
  },
  {
   "property": "C74",
   "status": "proved",
   "theorems": [
    "C74_full_forgery_forges_sphincs",
    "C74_full_forgery_forges_each",
    "C74_compact_forgery_forges_each",
    "C74_full_only",
    "C74_compact_only",
    "C74_reduction_requests",
    "C74_mixing_modes_forges",
    "C74_actual_components"
   ],
   "note": "The statement is pointwise in all random choices (joint only says which party draws which), so it carries over to probabilities. Running time is not modelled: `reduce` calls the adversary and the two remaining signers once per request. C74_mixing_modes_forges shows that the mode-mixing exception is real (it is the attack of C15)."
  },
  {
   "property": "C75",
   "status": "proved",
   "theorems": [
    "C75_keypair_seed",
    "C75_keypair_seed_ends",
    "C75_keypair",
    "C75_seed_expander",
    "C75_full_sign",
    "C75_full_sign_ends",
    "C75_compact_sign",
    "C75_compact_sign_ends",
    "C75_full_open",
    "C75_compact_open",
    "C75_full_verify",
    "C75_compact_verify",
    "C75_verify_dilithium",
    "C75_full_round_trip",
    "C75_compact_round_trip",
    "C75_full_open_ends",
    "C75_compact_open_ends",
    "C75_full_client",
    "C75_compact_client"
   ],
   "note": "NULL pointers are covered by C05 to C13 on the array model. Compact signing needs a message that does not overlap the first 2526 bytes of the signed message (C73 shows what happens otherwise), compact opening a message buffer that does not start inside the embedded message. C75_seed_expander states what the expander does, including the defect of C02. Whether a Dilithium rejection loop ends is not decided: the `_ends` theorems start from the existence of the specified key or signature."
  },
  {
   "property": "C76",
   "status": "proved",
   "theorems": [
    "C76_command",
    "C76_only_outputs_change",
    "C76_page",
    "C76_size_t_length_clears_neighbour",
    "C76_free_clears_what_it_is_told",
    "C76_sign_page"
   ],
   "note": "Memory is a fixed linear memory; malloc's bookkeeping, memory growth, the stack and the hash contexts are outside it. Whether a compiler removes the memset before free as a dead store is not modelled: the theorem is about the source. The wiped-buffer theorem covers the bytes the page passes to mem_free. The field `wiped` of the state is a ghost; C76_page states the result without it, from the events of the session."
  },
  {
   "property": "C77",
   "status": "proved",
   "theorems": [
    "C77_histories_exist",
    "C77_seed_expander",
    "C77_keygen",
    "C77_keypair",
    "C77_keypair_failed",
    "C77_sign_trace_follows_from_public_data",
    "C77_sign_trace",
    "C77_compact_trace",
    "C77_compact_trace_follows_from_public_data",
    "C77_compact_failed",
    "C77_bad_length"
   ],
   "note": "The caller's arrays are separate and not NULL (overlap is C73). Verification is not covered: its inputs are public. Two-run theorems, with the results also proved equal to the documented keys and signatures; every key pair and every signature meets the hypotheses (C77_histories_exist and the Examples). That rejected Dilithium attempts reveal nothing useful is the usual assumption and is not claimed."
  },
  {
   "property": "C78",
   "status": "partial",
   "theorems": [
    "C78_same_shake",
    "C78_same_seedexpander",
    "C78_same_expander",
    "C78_same_prf",
    "C78_same_dilithium",
    "C78_same_hybrid",
    "C78_shake",
    "C78_seedexpander",
    "C78_expander",
    "C78_sphincs_secrets",
    "C78_dilithium_keygen",
    "C78_hybrid_keygen",
    "C78_given_back_clean_refuted"
   ],
   "note": "REFUTED (C78_given_back_clean_refuted): contexts are passed to free without being cleared, and a context ends with the last block of output in it. For every seed the context of the hybrid seed expander goes back with the Ed25519 seed and the three SPHINCS+ seeds of the expanded seed in clear (C78_expander); that of the first hash of Dilithium key generation with rho, rho' and the signing key K, also inside hybrid key generation (C78_dilithium_keygen, C78_hybrid_keygen); that of every PRF call of SPHINCS+ with the secret value (C78_sphincs_secrets); in general every shake128/shake256 call leaves the last output block (C78_shake, C78_seedexpander). The C78_same theorems show that the recorded programs are those of C71 and C75. Words are read least significant byte first. For key generation only the first Dilithium context is recorded, which is enough for the refutation. What stays on the stack is not modelled."
  },
  {
   "property": "C79",
   "status": "proved",
   "theorems": [
    "C79_treehash_root_and_path",
    "C79_agrees_with_treehashx1",
    "C79_all_leaves_one_root",
    "C79_index_beyond_tree_overflows"
   ],
   "note": "Heights 0..30 (1 << 31 would be undefined in the C code); the comparison with compute_root and treehashx1 for heights 1..30. The index must lie in the tree: C79_index_beyond_tree_overflows shows the overflow otherwise (height 1)."
  },
  {
   "property": "C80",
   "status": "proved",
   "theorems": [
    "C80_bytes_and_entropy"
   ],
   "note": "Linux variant without SYS_getrandom. The theorem is about every bound on the number of rounds of the loops (fuel) and every reply list; a call that has not returned is covered too."
  },
  {
   "property": "C81",
   "status": "partial",
   "theorems": [
    "C81_success_closes_all_partial",
    "C81_failure_keeps_descriptor_refuted",
    "C81_descriptors_accumulate",
    "C81_only_undefined_partial",
    "C81_interrupted_fclose_refuted",
    "C81_interrupted_close_refuted",
    "C81_stale_errno_refuted"
   ],
   "note": "REFUTED: every failed call whose open succeeded keeps the descriptor of /dev/urandom (C81_failure_keeps_descriptor_refuted, accumulating: C81_descriptors_accumulate); close and fclose are repeated after EINTR, the latter being undefined; a stale errno of EINTR makes read_entropy_proc loop for ever. Proved: successful calls give everything back; the second fclose is the only undefined behaviour."
  }
 ]
}