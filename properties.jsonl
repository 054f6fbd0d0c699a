{"id": "C01", "title": "Key generation from a seed is deterministic and lays the keys out as documented", "statement": "keypair_seed(pk, sk, seed) with non-NULL 1408/4064/160-byte buffers returns 0 and the 1408-byte pk is ed25519_pk(32) | dilithium_pk(1312) | sphincs_pk(64) and the 4064-byte sk is ed25519_sk(64) | dilithium_sk(2560) | dilithium_pk(1312) | sphincs_sk(128), where the three component key pairs are generated from seed[0,32), seed[32,64) and seed[64,160) and from nothing else; a NULL argument gives -1 and writes nothing.", "quantifier": "every 160-byte seed, every previous content of the output buffers (any size >= the documented one), every component key generator", "why_tests_cant": "2^1280 seeds; tests check one vector", "anchors": ["hybrid-dilithium-sphincs/hybrid.c: crypto_sign_dilithium_ed25519_sphincs_keypair_seed L174-245", "common/hybrid-common.c"]}
{"id": "C02", "title": "The seed expander uses every byte of the 96-byte seed", "statement": "keypair_seed_expander(seed, out) derives bytes [0,32) and [64,160) of the expanded seed from SHAKE-256 of the whole first 64 bytes of the seed and copies seed[64,96) to out[32,64), so two seeds that differ produce different inputs to the expansion.", "quantifier": "every 96-byte seed, every pair of distinct seeds", "why_tests_cant": "a test compares a few vectors produced by the code itself; whether any seed byte is ignored is a statement about all pairs of seeds", "anchors": ["hybrid-dilithium-sphincs/hybrid.c: crypto_sign_dilithium_ed25519_sphincs_keypair_seed_expander L140-172", "common/shake_prng.c"]}
{"id": "C03", "title": "Full mode: what is signed can be opened", "statement": "For every key pair produced by keypair_seed, a message of 1..64 bytes signed with the full-mode sign function (return 0) opens with the matching public key: open returns 0, *mlen is the message length and the message bytes are recovered; verify returns 0 on it.", "quantifier": "every seed, every message of length 1..64, every entropy returned during signing", "why_tests_cant": "infinitely many keys/messages/randomness; tests sample a handful", "anchors": ["hybrid-dilithium-sphincs/hybrid.c: crypto_sign_dilithium_ed25519_sphincs L259-344", "hybrid-dilithium-sphincs/hybrid.c: crypto_sign_dilithium_ed25519_sphincs_open L346-437", "hybrid-dilithium-sphincs/hybrid.c: crypto_verify_dilithium_ed25519_sphincs L439-466"]}
{"id": "C04", "title": "Compact mode: what is signed can be opened", "statement": "For every key pair produced by keypair_seed, a message of 1..64 bytes signed with the compact sign function (return 0) opens with the matching public key: open returns 0 and recovers exactly the message; compact verify returns 0 on it.", "quantifier": "every seed, every message of length 1..64, every 40-byte nonce", "why_tests_cant": "infinitely many keys/messages/nonces", "anchors": ["hybrid-dilithium-sphincs/hybrid.c: crypto_sign_compact_dilithium_ed25519_sphincs L468-564", "hybrid-dilithium-sphincs/hybrid.c: ..._compact_..._open L566-667", "hybrid-dilithium-sphincs/hybrid.c: crypto_verify_compact_... L669-696"]}
{"id": "C05", "title": "Full-mode signature layout and length are exact", "statement": "When full-mode sign returns 0 the output is byte 2, byte mlen, the 64-byte ed25519 signature, the message, the 2420-byte Dilithium signature, the 49856-byte SPHINCS+ signature, in this order; *smlen = 52342 + mlen, and bytes of sm beyond *smlen are unchanged. Each component signature is made over exactly the message.", "quantifier": "every message length, secret key and buffer content", "why_tests_cant": "all sizes/contents", "anchors": ["hybrid-dilithium-sphincs/hybrid.c: crypto_sign_dilithium_ed25519_sphincs L322-343"]}
{"id": "C06", "title": "Compact-mode signature layout and length are exact", "statement": "When compact sign returns 0 the output is byte 1, byte mlen, 64-byte ed25519 signature, 2420-byte Dilithium signature, 40-byte nonce, message; *smlen = 2526 + mlen and bytes beyond are unchanged. Both component signatures are made over SHA3-512(nonce | message | sphincs public key).", "quantifier": "every message length, secret key, nonce and buffer content", "why_tests_cant": "all sizes/contents", "anchors": ["hybrid-dilithium-sphincs/hybrid.c: crypto_sign_compact_dilithium_ed25519_sphincs L497-563"]}
{"id": "C07", "title": "Full open accepts only if all three component signatures verify on the same message", "statement": "Full open returns 0 if and only if the buffer is well-formed (length, id 2, message length byte, exact total length) and the ed25519 signature, the Dilithium signature and the SPHINCS+ signature at their documented offsets all verify, under the corresponding parts of pk, for the one embedded message; that message is what is returned.", "quantifier": "every byte string offered as signature, every public key, every component verifier", "why_tests_cant": "the space of adversarial signatures is unbounded; fuzzing flips one byte at a time", "anchors": ["hybrid-dilithium-sphincs/hybrid.c: crypto_sign_dilithium_ed25519_sphincs_open L346-437"]}
{"id": "C08", "title": "Compact open accepts only if both component signatures verify on the hash that binds nonce, message and SPHINCS+ key", "statement": "Compact open returns 0 if and only if the buffer is well-formed (length, id 1, message length byte, exact total length) and the ed25519 and Dilithium signatures at their offsets verify for SHA3-512(nonce | message | sphincs part of pk); the returned message is the embedded one.", "quantifier": "every byte string offered as signature, every public key, every component verifier", "why_tests_cant": "adversarial input space", "anchors": ["hybrid-dilithium-sphincs/hybrid.c: ..._compact_..._open L566-667"]}
{"id": "C09", "title": "verify agrees with open", "statement": "verify(m, mlen, sm, smlen, pk) returns 0 exactly when open(sm, smlen, pk) returns 0 with length mlen and bytes m (both modes), and otherwise returns one of -1..-4 identifying the cause.", "quantifier": "every message, claimed signature and key", "why_tests_cant": "quantifies over all inputs incl. near misses in length", "anchors": ["hybrid-dilithium-sphincs/hybrid.c: crypto_verify_dilithium_ed25519_sphincs L439-466", "hybrid-dilithium-sphincs/hybrid.c: crypto_verify_compact_... L669-696"]}
{"id": "C10", "title": "Malformed signed messages are rejected without reading past the buffer", "statement": "For any sm of smlen bytes whose length, id byte, message-length byte or total length is inconsistent, open returns the documented negative code (-1..-4), and for every sm with smlen accessible bytes no read falls outside sm, pk or the local arrays.", "quantifier": "every smlen in the 64-bit range, every buffer content, NULL pointers", "why_tests_cant": "out-of-bounds reads are invisible to functional tests and depend on attacker-chosen lengths", "anchors": ["hybrid-dilithium-sphincs/hybrid.c: crypto_sign_dilithium_ed25519_sphincs_open L350-367", "hybrid-dilithium-sphincs/hybrid.c: ..._compact_..._open L570-587"]}
{"id": "C11", "title": "A failed open or sign leaves the caller's outputs untouched", "statement": "Whenever open (either mode) returns non-zero, neither the message buffer nor *mlen has been written; whenever sign (either mode) returns non-zero, neither sm nor *smlen has been written.", "quantifier": "every input and every failure cause, including failures inside component schemes", "why_tests_cant": "each failure path must be considered for every input", "anchors": ["hybrid-dilithium-sphincs/hybrid.c: L259-696"]}
{"id": "C12", "title": "Sign refuses messages outside 1..64 bytes and NULL arguments", "statement": "Both sign functions return -1 and write nothing if any pointer is NULL, mlen = 0 or mlen > 64; both verify functions and crypto_verify_dilithium return -1 in the corresponding cases.", "quantifier": "every mlen in the 64-bit range, every combination of NULLs", "why_tests_cant": "2^64 lengths", "anchors": ["hybrid-dilithium-sphincs/hybrid.c: L263, L443, L472, L673, L701"]}
{"id": "C13", "title": "Entropy failure is reported and never yields a key or signature", "statement": "If the random source reports failure, keypair returns -1 without writing keys, compact sign returns -1 and full sign returns -4, both without writing a signature.", "quantifier": "every failure code and every partial content left behind by the failed random source", "why_tests_cant": "the failing random source is an environment behaviour tests do not inject", "anchors": ["hybrid-dilithium-sphincs/hybrid.c: L253-255, L296-308, L498-500", "sphincs/sign.c: crypto_sign_signature L96-163"]}
{"id": "C14", "title": "A signature of one mode is never accepted in the other mode", "statement": "If a byte string opens in full mode it does not open in compact mode and vice versa, whatever the keys.", "quantifier": "every byte string, length and pair of public keys", "why_tests_cant": "all byte strings", "anchors": ["hybrid-dilithium-sphincs/hybrid.c: L350-358, L570-578"]}
{"id": "C15", "title": "A full-mode signature cannot be repackaged into a compact-mode signature on another message", "statement": "From a full-mode signature on a message M nobody can assemble, without the secret key, a compact-mode signature that opens under the same public key to a different message M'.", "quantifier": "every key pair and every pair of messages", "why_tests_cant": "requires reasoning about how the two modes derive the signed strings", "anchors": ["hybrid-dilithium-sphincs/hybrid.c: L294-296 (full signs raw message)", "hybrid-dilithium-sphincs/hybrid.c: L498-519 (compact signs a 64-byte hash)"]}
{"id": "C16", "title": "No out-of-bounds access for documented buffer sizes", "statement": "Called with buffers of the documented sizes (pk 1408, sk 4064, seed 160/96, sm 52342+mlen or 2526+mlen, m >= 64), no hybrid API function reads or writes outside a caller buffer or a local array, whatever the contents.", "quantifier": "every content, message length and component behaviour that respects its own output size", "why_tests_cant": "memory errors depend on all length combinations", "anchors": ["hybrid-dilithium-sphincs/hybrid.c: all functions"]}
{"id": "C17", "title": "Compact mode binds nonce, message and SPHINCS+ key unambiguously", "statement": "Two compact-mode hash inputs are equal only if nonce, message (including its length) and SPHINCS+ public key are all equal, so two different (nonce, message, key) triples never share a hash preimage.", "quantifier": "every pair of triples", "why_tests_cant": "pairs of arbitrary strings", "anchors": ["hybrid-dilithium-sphincs/hybrid.c: L502-515, L599-610"]}
{"id": "C18", "title": "A signed message has exactly one reading", "statement": "Each mode's signed-message string determines the message, nonce and component signatures uniquely and vice versa: two different tuples never serialise to the same bytes, and any string that opens is the serialisation of the tuple it was parsed into (no slack or ignored bytes).", "quantifier": "every accepted byte string and every tuple", "why_tests_cant": "all byte strings", "anchors": ["hybrid-dilithium-sphincs/hybrid.c: L322-341, L369-423, L537-561, L599-647"]}
{"id": "C19", "title": "seedexpander argument checking and output", "statement": "seedexpander_wrapper returns -1 for a NULL pointer, -2 for seedlen < 32, -3 for outlen <= seedlen, writing nothing; otherwise it returns 0 and output is the first outlen bytes of SHAKE-256(seed | 0x02).", "quantifier": "every seed, seed length and output length", "why_tests_cant": "all lengths, including output lengths that are not multiples of 8", "anchors": ["common/shake_prng.c: seedexpander_wrapper, seedexpander_init, seedexpander L19-83"]}
{"id": "C20", "title": "Incremental hashing equals one-shot hashing for every chunking", "statement": "Feeding any sequence of chunks through the incremental SHAKE/SHA3 API (init, absorb*, finalize, squeeze*) gives the same output as the one-shot function on the concatenation, however the input is split and however the output requests are split.", "quantifier": "every message, every way to split the input, every way to split the output, every rate", "why_tests_cant": "exponentially many splittings, block-boundary cases at unbounded sizes", "anchors": ["common/fips202.c: keccak_inc_absorb L440, keccak_inc_finalize L477, keccak_inc_squeeze L498, keccak_absorb L349, keccak_squeezeblocks L395, shake256 L726, sha3_512 L897"]}
{"id": "C21", "title": "SHA-3/SHAKE functions compute the FIPS 202 sponge", "statement": "shake128, shake256, sha3_256, sha3_384, sha3_512 return, for every input and output length, the FIPS 202 sponge output: pad10*1 with the right domain bits, the Keccak-f[1600] permutation with all 24 rounds, correct rate.", "quantifier": "every input of every length, every output length, every 1600-bit state", "why_tests_cant": "KATs cover a few lengths", "anchors": ["common/fips202.c: KeccakF1600_StatePermute L73-334, keccak_absorb L349-380, keccak_squeezeblocks L395-405, L695-928"]}
{"id": "C22", "title": "Dilithium modular reductions are exact and never overflow", "statement": "montgomery_reduce, reduce32, caddq and freeze return, for every input in their documented domain, a value congruent to the required residue inside the documented interval, and no intermediate signed operation overflows.", "quantifier": "every int32/int64 input in the domain", "why_tests_cant": "2^32..2^63 inputs", "anchors": ["dilithium2/reduce.c L15-69"]}
{"id": "C23", "title": "Dilithium rounding functions split and recombine values exactly", "statement": "power2round and decompose return a = a1*2^13 + a0 resp. a = a1*2*gamma2 + a0 (mod q) with a0 and a1 in the documented ranges for every standard representative a; no overflow.", "quantifier": "every a in [0, q)", "why_tests_cant": "8.4 million inputs times identities", "anchors": ["dilithium2/rounding.c: power2round L17-23, decompose L39-49"]}
{"id": "C24", "title": "Dilithium hints recover the high bits", "statement": "If ||z||_inf <= gamma2-bounded as required by the signer, use_hint(r + z, make_hint(...)) equals the high bits of r; use_hint with no hint returns the high bits; the hint is 0/1 and changes the high part by at most one step modulo 44.", "quantifier": "every residue and every admissible perturbation", "why_tests_cant": "pairs of residues: > 10^12 cases", "anchors": ["dilithium2/rounding.c: make_hint L62-68, use_hint L80-98"]}
{"id": "C25", "title": "Dilithium NTT multiplication is negacyclic polynomial multiplication and does not overflow", "statement": "invntt_tomont(pointwise_montgomery(ntt(a), ntt(b))) is congruent coefficientwise mod q to a*b mod (X^256+1) for all coefficient vectors within the bounds used by the scheme, and no 32-bit intermediate overflows.", "quantifier": "every pair of polynomials with bounded coefficients", "why_tests_cant": "q^512 inputs", "anchors": ["dilithium2/ntt.c: ntt L49-64, invntt_tomont L77-98", "dilithium2/poly.c: pointwise_montgomery"]}
{"id": "C26", "title": "Dilithium key and signature encodings round-trip and occupy the documented sizes", "statement": "For in-range polynomials, unpack(pack(x)) = x for eta, t0, t1, z, w1 encodings and for whole public keys, secret keys and signatures; every packed string has exactly the documented size; packing uses disjoint bit fields.", "quantifier": "every in-range polynomial vector", "why_tests_cant": "q^n inputs", "anchors": ["dilithium2/poly.c: polyeta/t1/t0/z/w1 pack+unpack L526-848", "dilithium2/packing.c L15-260"]}
{"id": "C27", "title": "Dilithium signature decoding is canonical", "statement": "unpack_sig accepts a byte string only if re-encoding the decoded (c, z, h) gives the same bytes: hint positions strictly increasing per polynomial, counts monotone and <= 80, unused slots zero; so no two different byte strings decode to the same signature.", "quantifier": "every 2420-byte string", "why_tests_cant": "2^19360 strings", "anchors": ["dilithium2/packing.c: unpack_sig L214-260, pack_sig L168-199"]}
{"id": "C28", "title": "Dilithium: signatures produced by sign verify", "statement": "For every 32-byte seed and message, if keypair_seed gives (pk, sk) and crypto_sign_signature(m, sk) returns a signature then crypto_sign_verify(sig, 2420, m, pk) returns 0.", "quantifier": "every seed, every message of any length, every number of rejection iterations", "why_tests_cant": "infinitely many; failure probability could hide in rare carries", "anchors": ["dilithium2/sign.c: keypair_seed L23-68, sign_signature L108-211, verify L257-328"]}
{"id": "C29", "title": "Dilithium samplers stay in range and terminate with full polynomials", "statement": "Matrix entries are uniform candidates < q, secret coefficients lie in [-2,2], masks in (-2^17, 2^17], and the challenge polynomial has exactly 39 coefficients equal to +-1 and the rest 0, for every output of the XOF.", "quantifier": "every XOF output stream", "why_tests_cant": "all byte streams", "anchors": ["dilithium2/poly.c: rej_uniform L311, poly_uniform L347, rej_eta L387, poly_uniform_gamma1 L458, poly_challenge L480"]}
{"id": "C30", "title": "Dilithium open/verify reject wrong lengths and report no message on failure", "statement": "crypto_sign_verify returns -1 unless siglen is 2420; crypto_sign_open returns a negative value for short or invalid input, and on failure the caller must not be handed a message length.", "quantifier": "every length and content", "why_tests_cant": "all lengths", "anchors": ["dilithium2/sign.c: crypto_sign_verify L257-328, crypto_sign_open L344-365"]}
{"id": "C31", "title": "SPHINCS+: signatures produced by sign verify", "statement": "For every 96-byte seed, message and 32-byte optrand, the signature made with the generated secret key is 49856 bytes long and crypto_sign_verify returns 0 for it under the generated public key.", "quantifier": "every seed, message of any length, randomness, and every hash function in place of SHAKE-256", "why_tests_cant": "infinitely many; index-dependent bugs appear only for some of the 2^68 leaves", "anchors": ["sphincs/sign.c L50-247", "sphincs/merkle.c", "sphincs/fors.c", "sphincs/wots.c", "sphincs/wotsx1.c", "sphincs/utilsx1.c", "sphincs/utils.c"]}
{"id": "C32", "title": "SPHINCS+ key generation does not depend on uninitialised memory", "statement": "The root computed at key generation is a function of the seed only: the WOTS signature step run on the uninitialised root buffer does not influence any output byte, and no read of the indeterminate bytes affects an address or index.", "quantifier": "every content of the uninitialised buffers", "why_tests_cant": "uninitialised contents cannot be enumerated by tests", "anchors": ["sphincs/merkle.c: merkle_sign L18-42, merkle_gen_root L45-59", "sphincs/wotsx1.c L18-76"]}
{"id": "C33", "title": "WOTS+ checksum prevents pure forward forgery", "statement": "For any two different 32-byte digests, at least one chain length of the second is strictly smaller than that of the first, so knowing one WOTS signature never lets anyone advance all chains to sign another digest; all chain lengths are < 16.", "quantifier": "every pair of distinct digests", "why_tests_cant": "2^512 pairs", "anchors": ["sphincs/wots.c: base_w L45, wots_checksum L66, chain_lengths L85"]}
{"id": "C34", "title": "SPHINCS+ tree hashing returns the Merkle root and a correct authentication path", "statement": "treehashx1 returns the root of the full binary tree over its 2^h leaves and the sibling path of the requested leaf; compute_root applied to that leaf and path gives the same root, for every height, leaf index and index offset.", "quantifier": "every tree height, leaf index, offset, leaf generator and hash", "why_tests_cant": "all heights/indices", "anchors": ["sphincs/utilsx1.c: treehashx1 L24-100", "sphincs/utils.c: compute_root L48-90, treehash L100-148"]}
{"id": "C35", "title": "SPHINCS+ crypto_sign reports signing failure", "statement": "If signing fails because no randomness is available, SPHINCS+ crypto_sign returns a non-zero code.", "quantifier": "every failing random source", "why_tests_cant": "environment failure", "anchors": ["sphincs/sign.c: crypto_sign L252-263, crypto_sign_signature L96-163"]}
{"id": "C36", "title": "SPHINCS+ index arithmetic stays in range", "statement": "The tree index, leaf index and FORS indices derived from any digest select existing trees and leaves (tree < 2^64, leaf < 16, each FORS index < 512), and each hash call in a signature uses an address distinct from the others with a different role (type/layer/tree/leaf/chain/hash fields never overlap).", "quantifier": "every digest", "why_tests_cant": "2^512 digests", "anchors": ["sphincs/hash_shake.c: hash_message L50-82", "sphincs/fors.c: message_to_indices L49", "sphincs/address.c"]}
{"id": "C37", "title": "randombytes fills the whole buffer or reports an error", "statement": "randombytes(buf, n) returns 0 only if all n bytes were written by the operating system source, whatever sequence of short reads and EINTR results occurs; any other error is returned as non-zero; bytes outside [0,n) are never written.", "quantifier": "every n and every finite sequence of syscall results", "why_tests_cant": "schedules of partial reads/errors cannot be enumerated", "anchors": ["random/randombytes.c: randombytes_linux_randombytes_getrandom L141-161, ..._urandom L278-304"]}
{"id": "C38", "title": "WebAssembly wrappers forward faithfully", "statement": "dp_sign / dp_sign_verify / dp_sign_keypair_seed behave like the native functions, in particular dp_sign writes only the sizeof(size_t) bytes of *smlen.", "quantifier": "every call on a platform with 32-bit size_t", "why_tests_cant": "the test-suite runs on 64-bit hosts", "anchors": ["wasm/hybrid-pqc.c L13-62"]}
{"id": "C39", "title": "Ed25519 sign produces a signed message that open accepts", "statement": "For every 32-byte seed and message shorter than 2^31-64 bytes, crypto_sign_ed25519 with the generated secret key outputs 64 bytes of signature followed by the message, and crypto_sign_ed25519_open with the generated public key returns 0 and gives the message back.", "quantifier": "every seed and every message of up to 2^31-65 bytes (C49 covers longer ones)", "why_tests_cant": "2^256 keys, unbounded messages", "anchors": ["tweetnacl/tweetnacl.c: crypto_sign_keypair_seed L658-678, crypto_sign L728-758, crypto_sign_open L796-825"]}
{"id": "C40", "title": "Ed25519 field and scalar arithmetic is exact", "statement": "Field multiplication, squaring, addition, subtraction, carrying, packing and inversion compute the corresponding operation modulo 2^255-19 and scalar reduction computes the residue modulo the group order, for every input limb vector reachable in signing, without 64-bit overflow.", "quantifier": "every limb vector within the stated bounds", "why_tests_cant": "carry-propagation bugs hit with probability 2^-50 or less", "anchors": ["tweetnacl/tweetnacl.c: car25519 L273, pack25519 L295, A/Z/M/S L342-375, inv25519 L376, pow2523, modL L694-718, reduce L720"]}
{"id": "C41", "title": "Ed25519 open clears the message on failure and accepts only valid points", "statement": "crypto_sign_ed25519_open returns -1 for n < 64, for an undecodable public key or for a mismatching R; on signature mismatch it zeroes the n-64 message bytes and never reports a message length other than all-ones.", "quantifier": "every signed message and public key", "why_tests_cant": "all byte strings", "anchors": ["tweetnacl/tweetnacl.c: crypto_sign_open L796-825, unpackneg L760-794"]}
{"id": "C42", "title": "Ed25519 signatures are not malleable", "statement": "Given a valid signature (R,S) on a message, no other S' derived without the key verifies for the same R, message and key.", "quantifier": "every valid signature", "why_tests_cant": "requires reasoning about all S in 2^256", "anchors": ["tweetnacl/tweetnacl.c: crypto_sign_open L796-825 (no S < L check)"]}
{"id": "C43", "title": "SHA-512 in TweetNaCl computes FIPS 180-4 SHA-512", "statement": "crypto_hash returns for every byte string the FIPS 180-4 SHA-512 digest: padding, length encoding and the compression loop agree with the standard for every length.", "quantifier": "every byte string", "why_tests_cant": "all lengths incl. block boundaries", "anchors": ["tweetnacl/tweetnacl.c: crypto_hashblocks L518-558, crypto_hash L568-588"]}
{"id": "C44", "title": "secretbox round-trips and rejects tampering of its tag", "statement": "crypto_secretbox_open(crypto_secretbox(m)) returns 0 and m for every zero-padded message, key and nonce; any change of the 16 tag bytes is rejected.", "quantifier": "every message, nonce, key", "why_tests_cant": "all lengths/contents", "anchors": ["tweetnacl/tweetnacl.c: crypto_stream_salsa20_xor L125, crypto_onetimeauth L185, crypto_secretbox L245, crypto_secretbox_open L255"]}
{"id": "C45", "title": "Poly1305 computes the polynomial MAC modulo 2^130-5", "statement": "crypto_onetimeauth returns ((sum of clamped-r powers times message blocks) mod 2^130-5 + s) mod 2^128 for every message and key without 32-bit overflow affecting the result.", "quantifier": "every message of any length and every key", "why_tests_cant": "carry bugs are rare events", "anchors": ["tweetnacl/tweetnacl.c: crypto_onetimeauth L185-236"]}
{"id": "C46", "title": "Constant-time comparison is exact", "statement": "crypto_verify_16/32 return 0 exactly when the two strings are equal and -1 otherwise.", "quantifier": "every pair of strings", "why_tests_cant": "2^512 pairs", "anchors": ["tweetnacl/tweetnacl.c: vn L54-59, crypto_verify_16/32 L61-69"]}
{"id": "C47", "title": "Ed25519 key generation and signing are those of RFC 8032", "statement": "crypto_sign_ed25519_keypair_seed outputs the RFC 8032 public key of the seed and the secret key seed|public; crypto_sign_ed25519 outputs the RFC 8032 signature (R, S) followed by the message; every produced signature satisfies S < L and the strict encodings. A failing random source makes crypto_sign_ed25519_keypair return its code and write nothing.", "quantifier": "every seed and message", "why_tests_cant": "2^256 keys", "anchors": ["tweetnacl/tweetnacl.c: crypto_sign_keypair_seed L658-678, crypto_sign_keypair L680-690, crypto_sign L728-758"]}
{"id": "C48", "title": "Ed25519 open accepts exactly what RFC 8032 accepts", "statement": "crypto_sign_ed25519_open accepts a signature exactly when RFC 8032 verification (canonical public key encoding, S < L, group equation) accepts it.", "quantifier": "every public key and signed message", "why_tests_cant": "all byte strings, including non-canonical encodings", "anchors": ["tweetnacl/tweetnacl.c: crypto_sign_open L796-825, unpackneg L760-794"]}
{"id": "C49", "title": "Ed25519 open handles every message length that sign handles", "statement": "Every message that crypto_sign_ed25519 signs can be opened again, also when it has 2^31-64 bytes or more.", "quantifier": "every message length", "why_tests_cant": "needs messages of more than 2 GB", "anchors": ["tweetnacl/tweetnacl.c: crypto_sign_open L796-825 (int i), crypto_sign L728-758 (i64 i)"]}
{"id": "C50", "title": "SPHINCS+ key generation, signing and verification are those of FIPS 205", "statement": "For every seed, message, randomness and key, SPHINCS+ key generation returns the SLH-DSA-SHAKE-256f key pair of FIPS 205, signing fills exactly the first 49856 bytes of the signature buffer with the FIPS 205 signature (slh_sign_internal), and crypto_sign_verify returns 0 exactly when FIPS 205 verification (slh_verify_internal) accepts, -1 otherwise; none of them reads or writes outside its buffers.", "quantifier": "every seed, message, randomness, signature, public key, buffer contents and every hash function in place of SHAKE-256", "why_tests_cant": "a signature takes about 10^5 hash calls with distinct addresses; one wrong address field still verifies against itself", "anchors": ["sphincs/sign.c: crypto_sign_seed_keypair L50-75, crypto_sign_signature L96-163, crypto_sign_verify L168-247", "sphincs/wots.c, wotsx1.c, fors.c, merkle.c, utilsx1.c, utils.c, address.c, hash_shake.c"]}
{"id": "C51", "title": "SPHINCS+ crypto_sign_open returns the signed message exactly when the signature is valid", "statement": "crypto_sign_open returns 0 and the message exactly when the input has at least 49856 bytes and the signature verifies; otherwise it returns -1, sets *mlen to 0 and leaves the message buffer alone. It recovers every message signed with crypto_sign.", "quantifier": "every signed message, key and buffer", "why_tests_cant": "all byte strings", "anchors": ["sphincs/sign.c: crypto_sign L251-263, crypto_sign_open L268-289"]}
{"id": "C52", "title": "Windows random source fills requests of any size", "statement": "On Windows, randombytes(buf, n) returning 0 means all n bytes came from the system generator, for every n representable in size_t.", "quantifier": "All request sizes (including >= 2^32), all outcomes of BCryptGenRandom and of the CryptGenRandom fallback, all prior buffer contents.", "why_tests_cant": "A test would have to allocate more than 4 GiB on 64-bit Windows and inspect the tail; ordinary tests use small buffers.", "anchors": ["random/randombytes.c:randombytes_win32_randombytes"]}
{"id": "C53", "title": "The hybrid API works with its actual components", "statement": "With the library's own ed25519, Dilithium and SPHINCS+ code underneath: key generation from a 160-byte seed returns the three standard key pairs in the documented layout; a message of 1..64 bytes signed in full or compact mode opens and verifies; open accepts a byte string exactly when it has the documented layout and all its component signatures are valid for the embedded message (compact: for SHA3-512 of nonce, message and SPHINCS+ public key).", "quantifier": "Every seed, message, random source, signed byte string, public key, old buffer contents, content of uninitialised stack arrays, and every bound on the Dilithium rejection loops.", "why_tests_cant": "Tests run a handful of keys; the claim is about all keys, messages and byte strings at once, and about acceptance of arbitrary forged inputs.", "anchors": ["hybrid-dilithium-sphincs/hybrid.c: crypto_sign_dilithium_ed25519_sphincs_*", "tweetnacl/tweetnacl.c", "dilithium2/sign.c", "sphincs/sign.c"]}
{"id": "C54", "title": "Hybrid signed messages cannot be modified without the key", "statement": "Nobody without the secret key can turn a signed message accepted by open into a different signed message accepted for the same message and public key.", "quantifier": "Every accepted signed message of either mode.", "why_tests_cant": "A test suite checks random bit flips, which are all rejected; the accepted modification is one point in 2^256.", "anchors": ["hybrid-dilithium-sphincs/hybrid.c: crypto_sign_dilithium_ed25519_sphincs_open, crypto_sign_compact_dilithium_ed25519_sphincs_open", "tweetnacl/tweetnacl.c: crypto_sign_open L796-825"]}
{"id": "C55", "title": "Dilithium computes the specified key pairs, signatures and verdicts", "statement": "Key generation from a seed returns exactly the key pair that the Dilithium / draft ML-DSA-44 algorithms define over the ring Z_q[X]/(X^256+1); signing returns exactly the signature of the first attempt those algorithms do not reject; verification returns 0 exactly on the signatures they accept and -1 exactly on all others.", "quantifier": "Every seed, every message, every secret key in the range of the key encoding, every public key and signature of the right length, any number of rejected attempts.", "why_tests_cant": "A conformance test compares a few vectors; the claim covers every coefficient reaching a rounding boundary, every hint position and every number of rejections.", "anchors": ["dilithium2/sign.c: crypto_sign_keypair, crypto_sign_signature, crypto_sign_verify", "dilithium2/poly.c", "dilithium2/polyvec.c", "dilithium2/packing.c", "dilithium2/rounding.c", "dilithium2/ntt.c"]}
{"id": "C56", "title": "The stream functions produce XSalsa20", "statement": "crypto_stream(c, n, nonce, key) writes the first n bytes of the XSalsa20 key stream; crypto_stream_xor writes the input XORed with that stream; applying it twice gives back the input; a shorter request yields a prefix of a longer one. The result does not depend on the width of unsigned long.", "quantifier": "Every output length, message, 24-byte nonce and 32-byte key; unsigned long of 32 or 64 bits.", "why_tests_cant": "The block counter and the partial last block depend on the length; a word-width dependency shows only on another platform.", "anchors": ["tweetnacl/tweetnacl.c: crypto_stream_salsa20_xor, crypto_stream, crypto_stream_xor, core"]}
{"id": "C57", "title": "crypto_scalarmult computes X25519 and multiplies on the curve", "statement": "crypto_scalarmult(q, n, p) returns 0 and writes the X25519 function of RFC 7748 for every 32-byte n and p (including non-canonical and twist inputs). On the u-coordinate of a curve point P it yields the u-coordinate of [k]P, k the clamped scalar; crypto_scalarmult_base multiplies the Ed25519 base point.", "quantifier": "Every scalar, every 32-byte input string, every point of the curve including those of small order.", "why_tests_cant": "Limb overflow, a wrong carry or a wrong ladder swap shows on rare inputs; vectors cover a few.", "anchors": ["tweetnacl/tweetnacl.c: crypto_scalarmult L394-443, crypto_scalarmult_base L445-448"]}
{"id": "C58", "title": "Two parties derive the same box key and can open each other's boxes", "statement": "For any two key pairs produced by crypto_box_keypair, both sides compute the same shared secret, and crypto_box_open with (public key of A, secret key of B) returns the message sealed by crypto_box with (public key of B, secret key of A). Opening succeeds exactly when the tag is right, otherwise -1 with the output untouched. A failing random source makes key generation return -1.", "quantifier": "Every pair of random 32-byte strings, message, nonce, and both widths of unsigned long.", "why_tests_cant": "Agreement is an algebraic identity over 2^502 pairs of keys.", "anchors": ["tweetnacl/tweetnacl.c: crypto_box_keypair L450-456, crypto_box_beforenm L458-463, crypto_box L475-480, crypto_box_open L482-487"]}
{"id": "C59", "title": "crypto_box refuses degenerate public keys", "statement": "crypto_box and crypto_box_open return an error for public keys for which the shared key does not depend on the caller's secret key.", "quantifier": "Every 32-byte public key.", "why_tests_cant": "A test with honestly generated keys never meets these values.", "anchors": ["tweetnacl/tweetnacl.c: crypto_box_beforenm L458-463 (ignores the value of the shared point), crypto_box L475-480"]}
{"id": "C60", "title": "Dilithium samplers handle their real buffers correctly", "statement": "poly_uniform, poly_uniform_eta, poly_uniform_gamma1 and poly_challenge, with the streaming SHAKE context, the leftover bytes carried from one block to the next and the refill in place, return exactly the polynomial that the sampling algorithm defines on the whole output stream of SHAKE(seed | nonce), whatever the local buffers and the coefficient array held before; no access is out of bounds.", "quantifier": "Every seed, nonce, previous content of the arrays, and any number of extra blocks.", "why_tests_cant": "The leftover handling runs only when the first five blocks yield fewer than 256 candidates, which happens for a vanishing fraction of the seeds.", "anchors": ["dilithium2/poly.c: rej_uniform L311-333, poly_uniform L347-371, rej_eta L387-412, poly_uniform_eta L426-444, poly_uniform_gamma1 L458-468, poly_challenge L480-515", "dilithium2/symmetric-shake.c: dilithium_shake128_stream_init, dilithium_shake256_stream_init"]}
{"id": "C61", "title": "Dilithium reads and writes exactly the documented buffers", "statement": "crypto_sign_keypair_seed, crypto_sign_signature and crypto_sign_verify, with their real local buffers (the shared seed buffer, hashing in place, the signature buffer used as scratch space for the packed w1), compute the specified keys, signatures and verdicts, write exactly the first 1312/2560/2420 bytes of the caller's buffers and nothing else, and do not depend on uninitialised memory. The message may lie inside the signature buffer.", "quantifier": "Every seed, key, message, position of message and signature in memory, content of local arrays and caller buffers.", "why_tests_cant": "An offset error in the seed buffer or a hash over stale bytes gives self-consistent results that round-trip; memory outside the result is not inspected by tests.", "anchors": ["dilithium2/sign.c: crypto_sign_keypair_seed L23-68, crypto_sign_signature L108-211, crypto_sign_verify L257-328"]}
{"id": "C62", "title": "Dilithium signing and opening work in place", "statement": "crypto_sign with the message anywhere that does not lie strictly inside its destination (in particular m == sm) produces the signature followed by the original message. crypto_sign_open with m == sm (or any m not strictly inside the source) restores the message on success and changes no byte on failure.", "quantifier": "Every memory content, message length and relative position of the two buffers allowed by the condition.", "why_tests_cant": "Overlap bugs depend on the distance between the buffers and on the length.", "anchors": ["dilithium2/sign.c: crypto_sign L229-242, crypto_sign_open L344-365"]}
{"id": "C63", "title": "SPHINCS+ reads and writes exactly the documented buffers", "statement": "crypto_sign_seed_keypair, crypto_sign_keypair, crypto_sign_signature, crypto_sign_verify and crypto_sign, with their real arrays (hashing in place, the tree-hash stack, the auth path written into the signature while the tree is built, the address arrays), compute exactly the FIPS 205 keys, signature and verdict with SHAKE256, write exactly the 64/128/49856 (+ message) bytes of the caller's buffers and nothing else, do not depend on uninitialised memory, and report a failed random source with the buffers unchanged.", "quantifier": "Every seed, key, message, randomizer, position of message and signature in one memory (the message not meeting the first 32 bytes of the signature), content of local arrays and caller buffers.", "why_tests_cant": "Reading a stale stack slot or an uninitialised byte shows on some machines only; memory outside the result is not inspected by tests.", "anchors": ["sphincs/sign.c: crypto_sign_seed_keypair L50-75, crypto_sign_signature L96-163, crypto_sign_verify L168-247, crypto_sign L252-263", "sphincs/fors.c", "sphincs/wots.c", "sphincs/wotsx1.c", "sphincs/merkle.c", "sphincs/utils.c: compute_root L48-90", "sphincs/utilsx1.c", "sphincs/address.c", "sphincs/hash_shake.c", "sphincs/thash_shake_simple.c"]}
{"id": "C64", "title": "SPHINCS+ opening works in place", "statement": "crypto_sign_open delivers exactly the message bytes at m, wherever m lies (also over the signed message itself), exactly when the signature is valid under FIPS 205; otherwise it returns -1, sets the length to 0 and changes no byte.", "quantifier": "Every memory content, length and relative position of the two buffers, valid or not.", "why_tests_cant": "Overlap bugs depend on the distance between the buffers and on the length.", "anchors": ["sphincs/sign.c: crypto_sign_open L268-289"]}
{"id": "C65", "title": "SPHINCS+ signing works in place", "statement": "crypto_sign with the message at the start of the signed-message buffer (m == sm, the case its memmove suggests) produces a signed message that contains the original message.", "quantifier": "Every key, randomizer and message.", "why_tests_cant": "The result is well formed and the call returns 0; only an in-place caller that opens it again notices.", "anchors": ["sphincs/sign.c: crypto_sign L252-263 (signature written before the memmove)"]}
{"id": "C66", "title": "TweetNaCl's secret-handling functions reveal no secret through branches or addresses", "statement": "The sequence of branch outcomes and of array indices accessed by Ed25519 key generation, crypto_sign, crypto_scalarmult, crypto_hash, crypto_onetimeauth, crypto_stream_xor, crypto_verify_16/32, crypto_secretbox and crypto_box is one fixed sequence for all keys, messages and nonces of the same length (for the comparison functions: wherever the strings first differ). Opening a box reveals the return code and nothing else.", "quantifier": "Every pair of secrets, messages, nonces and points; every message length; both widths of unsigned long.", "why_tests_cant": "A functional test sees results, not the executed path; a statistical timing test samples a few keys.", "anchors": ["tweetnacl/tweetnacl.c: sel25519, crypto_scalarmult, scalarmult, modL, crypto_sign_keypair_seed, crypto_sign, crypto_hash, crypto_onetimeauth, vn, crypto_secretbox_open"]}
{"id": "C67", "title": "The hash functions and the seed expander reveal lengths only", "statement": "The sequence of branch outcomes and array indices of shake128, shake256, sha3_256/384/512, of any sequence of incremental absorb / finalize / squeeze calls and of the seed expander depends on the lengths of inputs and outputs only, not on the hashed bytes or the seed.", "quantifier": "Every input and seed of a given length, every chunking, every output length.", "why_tests_cant": "A functional test sees results, not the executed path.", "anchors": ["common/fips202.c: KeccakF1600_StatePermute, keccak_absorb, keccak_squeezeblocks, keccak_inc_absorb, keccak_inc_finalize, keccak_inc_squeeze", "common/shake_prng.c"]}
{"id": "C68", "title": "SPHINCS+ key generation and signing reveal nothing beyond the signature through branches or addresses", "statement": "Key generation executes one fixed sequence of branches and array indices for every seed. Signing (which does branch on chain positions and leaf indices, and indexes by them) follows a sequence that is the same for any two runs over one message whose keys share the public half and whose outputs are the same signature, whatever their secret seeds, PRF keys and random inputs: it reveals nothing that public key, message and signature do not determine. In detail: the randomiser's trace depends on lengths only, the FORS part's on the message digest only, a hypertree layer's on the root it signs and the leaf index only. A failing random source has one trace.", "quantifier": "Every pair of secret keys, random inputs, uninitialised stack contents and memory contents; every message and length, every placement of message and signature in which the message does not meet the first 32 signature bytes.", "why_tests_cant": "A functional test sees results, not the executed path; here the path is not even constant, so a trace-equality test on random keys would fail although nothing leaks.", "anchors": ["sphincs/sign.c: crypto_sign_seed_keypair L50-75, crypto_sign_signature L96-163", "sphincs/wotsx1.c: wots_gen_leafx1", "sphincs/utilsx1.c: treehashx1", "sphincs/merkle.c", "sphincs/fors.c: fors_sign", "sphincs/hash_shake.c", "sphincs/thash_shake_simple.c"]}
{"id": "C69", "title": "Ed25519 signing and opening work when the buffers overlap", "statement": "crypto_sign of TweetNaCl with message and signed message in one memory writes the RFC 8032 signature followed by the message, and crypto_sign_open accepts exactly the valid signatures, also when the two buffers are the same.", "quantifier": "Every key, message, length and relative position of the two buffers in one memory.", "why_tests_cant": "The calls return 0 and leave well-formed data; short messages (up to 64 bytes) survive in-place signing, so the usual small test does not notice.", "anchors": ["tweetnacl/tweetnacl.c: crypto_sign L728-758, crypto_sign_open L796-825"]}
{"id": "C70", "title": "Dilithium key generation and signing reveal only rejections and public data through branches or addresses", "statement": "The sequence of branch outcomes and array indices of key generation depends only on the public matrix seed and on which half-bytes of the eight secret sampling streams are rejected, not on the accepted values, the signing key or the stack. That of signing depends only on the public matrix seed, the message length and, per attempt, the challenge seed and how the attempt fared: the position of the first coefficient that is too large in the first vector that has one or, if there is none, which of the comparisons that make up the hint hold for each coefficient. Of the accepted attempt all this follows from public key and signature. So two signing runs with the same public key, signature and message length whose rejected attempts look alike have the same sequence.", "quantifier": "Every pair of seeds, secret keys, messages, uninitialised stack contents and memory contents; every message length and placement; any number of attempts.", "why_tests_cant": "A functional test sees results, not the executed path; the path varies from message to message by design, so a trace-equality test cannot tell a harmless rejection from a leak.", "anchors": ["dilithium2/sign.c: crypto_sign_keypair_seed L23-68, crypto_sign_signature L108-213, crypto_sign L229-244", "dilithium2/poly.c: poly_chknorm, rej_eta, poly_uniform_eta, poly_challenge, poly_make_hint", "dilithium2/rounding.c: make_hint, decompose, power2round", "dilithium2/reduce.c", "dilithium2/ntt.c", "dilithium2/packing.c: pack_sig"]}
{"id": "C71", "title": "Hash contexts are released exactly once on every path", "statement": "SHAKE, the seed expander, Dilithium and SPHINCS+ key generation, signing, combined signing, verification and opening keep their hash states in malloc'ed blocks. Each call leaves the heap exactly as it found it (no block leaked, no foreign block changed or freed), also on its early-return paths (wrong length, malformed signature, norm check, failing random source, rejected attempts); it never reads an uninitialised block, writes past a block, uses a block after free or frees one twice. If malloc fails the process ends with status 111 at that point; otherwise the result is the specified one.", "quantifier": "Every input, every number of rejected attempts, every heap before the call and every malloc that does not hand out live addresses, including one that fails at any call.", "why_tests_cant": "A leak or a double free on a rare path (a sampler that needs a second block, a malformed hint) needs that path; failing allocations are not injected by any test.", "anchors": ["common/fips202.c: shake128, shake256, *_absorb, *_ctx_release, *_inc_init, *_inc_ctx_release", "common/shake_prng.c", "dilithium2/poly.c: poly_uniform, poly_uniform_eta, poly_uniform_gamma1, poly_challenge", "dilithium2/sign.c", "sphincs/hash_shake.c", "sphincs/sign.c"]}
{"id": "C72", "title": "Hash contexts of a client are independent", "statement": "A program that uses any number of incremental SHAKE or SHA-3 contexts in any interleaving of init, absorb, finalize, squeeze, clone, release and SHA-3 finalize calls that the interface allows reads from each context exactly the bytes its own inputs determine; a clone continues from the state of its source and neither affects the other. When every context is released (SHA-3 finalize releases its context) the heap is as it was. Using or releasing a released context is undefined, also after SHA-3 finalize.", "quantifier": "Every finite sequence of calls on any number of contexts, every input and output length, every rate, every malloc that does not hand out live addresses.", "why_tests_cant": "Interleavings and clone points are unbounded; a shared or shallow-copied state shows only when both copies are used again.", "anchors": ["common/fips202.c: *_inc_init, *_inc_absorb, *_inc_finalize, *_inc_squeeze, *_inc_ctx_clone, *_inc_ctx_release L525-587, L747-905"]}
{"id": "C73", "title": "Every hybrid call gives its specified result when the caller's buffers overlap", "statement": "Seed expansion, key generation from a seed, signing and opening in both modes give the same return code, length and output bytes when the caller's buffers share memory (in particular when input and output are the same buffer) as on separate buffers, and write nothing else.", "quantifier": "Every component algorithm, random source, memory content, length and relative position of the caller's buffers.", "why_tests_cant": "The calls return 0 and produce well-formed data whatever the overlap; only a check of the embedded message against the original notices, and the number of placements is unbounded.", "anchors": ["hybrid-dilithium-sphincs/hybrid.c: crypto_sign_dilithium_ed25519_sphincs_keypair_seed_expander L140-172, ..._keypair_seed L174-245, ..._sign, ..._open, crypto_sign_compact_dilithium_ed25519_sphincs, ..._compact_..._open"]}
{"id": "C74", "title": "A hybrid forgery is a forgery of its components", "statement": "An adversary who may ask for signatures in both modes, adaptively and on messages of its choice, and then produces a signed message that verification accepts for a message never signed in that mode, yields (by a reduction that holds only the other schemes' keys, uses the same random choices and makes at most as many requests) a forger of SPHINCS+ if the forgery is in full mode, and of Ed25519 and of Dilithium in either mode, except in two cases. In full mode the message may be the 64-byte hash of a compact-mode request; in compact mode the hash may have been signed as a full-mode message or collide under SHA3-512 with that of a compact-mode request. For a key used in one mode only, full-mode forgery breaks all three schemes, and compact-mode forgery breaks Ed25519 and Dilithium or yields a SHA3-512 collision. Mixing modes does allow a forgery from one full-mode request.", "quantifier": "Every adversary (any number of adaptive requests), every seed and key pair, every random source, every component algorithm with the documented contracts, and the actual components.", "why_tests_cant": "The claim ranges over all adversaries; no test enumerates them.", "anchors": ["hybrid-dilithium-sphincs/hybrid.c: crypto_sign_dilithium_ed25519_sphincs L259-344, crypto_verify_dilithium_ed25519_sphincs L439-466, crypto_sign_compact_dilithium_ed25519_sphincs L468-564, crypto_verify_compact_dilithium_ed25519_sphincs L669-696"]}
{"id": "C75", "title": "The hybrid interface, run together with all three schemes, computes the documented signatures", "statement": "Run as one program with TweetNaCl, Dilithium, SPHINCS+ and the hash functions (their locals uninitialised, their hash contexts on the heap, the caller's buffers in one memory), key generation writes exactly the RFC 8032, draft FIPS 204 and FIPS 205 keys of the three parts of the seed; signing writes exactly the documented layout of the three (or two) signatures of the message (or of its SHA3-512 digest with nonce and SPHINCS+ public key); opening and verifying return 0 exactly when the layout is right and all component specifications accept, and otherwise a negative code with the caller's memory and length untouched. No call has undefined behaviour, writes elsewhere, leaks a context, or reads uninitialised data into its result. A client that generates a key pair, signs a message and opens the result gets its message back.", "quantifier": "Every memory content, placement of the buffers within the stated overlap conditions, seed, random source, key, signed message of any length, heap, malloc that does not hand out live addresses and content of uninitialised locals; the Dilithium rejection loops up to any bound on their rounds.", "why_tests_cant": "The composition of seven source directories with all placements, heaps and uninitialised contents is not enumerable, and 'accepts exactly the valid signatures' quantifies over all byte strings.", "anchors": ["hybrid-dilithium-sphincs/hybrid.c (all functions)", "dilithium2/sign.c", "sphincs/sign.c", "tweetnacl/tweetnacl.c: crypto_sign, crypto_sign_open, crypto_sign_keypair_seed", "common/fips202.c", "common/shake_prng.c"]}
{"id": "C76", "title": "A web page that keeps to the buffer contract can use the WebAssembly exports for ever without harming its own memory, and freed buffers stay wiped", "statement": "A page that obtains buffers with mem_alloc, fills them, calls the dp_ functions on them and returns them with mem_free, and that never passes a range outside a live buffer, never frees more than the buffer, and gives dp_sign an 8-byte length object and a generated secret key, has no undefined behaviour. Each call returns its documented code, writes exactly its documented result and changes no byte outside its output buffers (NULL pointers give -1 and no change). A buffer given back with its size reads as zero from then on until malloc hands it out again. A page that generates a key, signs a message, frees the secret key and verifies gets 0 and the key is gone. With a 4-byte length object the four bytes after it are cleared, and mem_free clears as many bytes as it is told, also those of neighbouring buffers.", "quantifier": "Every page (any number of commands, each chosen from the results and buffer contents so far), every allocator that returns NULL or a fresh block, every random source, memory content, message of 1 to 64 bytes, heap and content of uninitialised locals.", "why_tests_cant": "Sequences of allocations, frees and calls are unbounded, and a stray write or an unwiped byte shows only in a buffer that nobody compares.", "anchors": ["wasm/hybrid-pqc.c: mem_alloc, mem_alloc_long_long, mem_free, dp_sign_keypair_seed, dp_sign_keypair, dp_sign, dp_sign_verify, dp_sign_seedexpander, dp_randombytes, dp_seedexpander_wrapper L13-62", "hybrid-dilithium-sphincs/hybrid.c", "common/shake_prng.c: seedexpander_wrapper L67-85"]}
{"id": "C77", "title": "Branches and memory addresses of hybrid key generation and signing reveal only public data and the shape of rejected Dilithium attempts", "statement": "The sequence of branches and of accessed indices of the hybrid seed expander is the same for all seeds. That of key generation is the same for any two seeds whose Dilithium parts share the public matrix seed and the rejected half-bytes of the secret sampling. That of full signing is the same for any two keys with the same public key that sign the same message to the same signed message after Dilithium attempts that were rejected alike; that of compact signing likewise, and there even message, nonce and signature may differ if all attempts look alike. When the random generator fails or the message length is refused, the sequence depends on nothing but that (and, for full signing, the Dilithium attempts). The recorded programs return exactly the documented key pair and signatures.", "quantifier": "Every pair of seeds, key pairs, messages of 1 to 64 bytes, random inputs, contents of uninitialised locals and output arrays; the rejection loops for every sufficiently large bound.", "why_tests_cant": "The property compares pairs of runs over all secrets; timing tests sample a few and see noise.", "anchors": ["hybrid-dilithium-sphincs/hybrid.c: crypto_sign_dilithium_ed25519_sphincs_keypair_seed_expander L140-172, ..._keypair_seed L174-245, ..._keypair L247-257, crypto_sign_dilithium_ed25519_sphincs L259-344, crypto_sign_compact_dilithium_ed25519_sphincs L468-564"]}
{"id": "C78", "title": "Memory given back to the allocator holds no key material", "statement": "When the library returns a block of memory to the allocator (the contexts of its hash functions), the block does not contain secret data of the call: not the expanded seed that the seed expander delivers, not the secret seed and signing key of a Dilithium key pair, not the secret WOTS+ and FORS values of SPHINCS+.", "quantifier": "Every seed, key, address, buffer placement, heap and malloc that does not hand out live addresses; the contents of each block at the moment it is passed to free.", "why_tests_cant": "free() leaves no trace that a functional test can see; which bytes remain in a freed block depends on all inputs, and reading it is outside the language.", "anchors": ["common/fips202.c: shake256_inc_ctx_release L585-587, shake256_ctx_release L681-683, shake128, shake256 L695-745", "common/shake_prng.c: seedexpander_wrapper L67-85", "hybrid-dilithium-sphincs/hybrid.c: crypto_sign_dilithium_ed25519_sphincs_keypair_seed_expander L140-172, ..._keypair_seed L174-245", "dilithium2/sign.c: crypto_sign_keypair_seed L23-68", "sphincs/hash_shake.c: prf_addr L14-23"]}
{"id": "C79", "title": "The exported treehash function returns the Merkle root and the authentication path, like the function used for signing", "statement": "Called with a tree height h, an index below 2^h and a callback that writes the leaves, treehash returns the root of the Merkle tree over these leaves, stores the sibling nodes of the index's way to the root in the first 32*h bytes of the path buffer and no byte behind them, and keeps the layer, tree and type of the address. Recomputing the root from the leaf and this path gives the same root; the function that signing uses gives the same root and path.", "quantifier": "Every hash function with 32-byte outputs, set of leaves, height up to 30, index in the tree, index offset, address, content of the uninitialised node stack and of the path buffer.", "why_tests_cant": "Trees of all heights with all leaf contents and indices cannot be enumerated, and an error at one level shows only for indices that need this level's node.", "anchors": ["sphincs/utils.c: treehash L100-148, compute_root L46-90", "sphincs/utilsx1.c: treehashx1"]}
{"id": "C80", "title": "The /dev/urandom random source delivers bytes only after the system has reported enough entropy", "statement": "On systems without getrandom, randombytes(buf, n) returns 0 only if all n bytes came from the device and the system had, in the same call, reported at least 128 bits of entropy; no byte is read before such a report. Otherwise it returns -1. In every outcome the buffer holds the bytes read so far followed by its old contents.", "quantifier": "Every request size and buffer, every sequence of replies of the system (errors, interruptions, short reads, entropy counts, poll results), every initial errno and history of earlier calls.", "why_tests_cant": "Sequences of system call results are unbounded, and a read without the report shows only on a machine that has just booted.", "anchors": ["random/randombytes.c: randombytes_linux_read_entropy_ioctl L167-170, randombytes_linux_read_entropy_proc L172-183, randombytes_linux_wait_for_entropy L185-274, randombytes_linux_randombytes_urandom L278-304"]}
{"id": "C81", "title": "The /dev/urandom random source gives back every descriptor, uses none that it has given back, and ends when the system fails for good", "statement": "When randombytes returns, every file that it opened (/dev/urandom, /dev/random, the entropy file under /proc) is closed; it never closes a file twice; and it returns an error when the entropy file has no number.", "quantifier": "Every sequence of replies of the system, every sequence of calls.", "why_tests_cant": "Descriptor leaks show only after many failing calls, and interrupted system calls at the right place cannot be scheduled by a test.", "anchors": ["random/randombytes.c: randombytes_linux_read_entropy_proc L172-183, randombytes_linux_wait_for_entropy L185-274, randombytes_linux_randombytes_urandom L278-304"]}
