# Formal model of DogeProtocol/hybrid-pqc in Rocq (Coq 8.16.1)

This file says what is modelled, how each property of `properties.jsonl` is
stated and proved, and what the results rest on.  `MANIFEST.json` maps each
property to the exact theorem names.  `seeded/LOG.jsonl` records the wrong
programs the theorems were tested against.

## 1. How C is modelled

* A byte is a `Z` in `[0,256)`.  A buffer is a `list Z`.  A nullable pointer to
  a buffer is an `option (list Z)`.
* Every access to a caller's buffer is bounds-checked.  An access outside the
  buffer makes the call return `Undef`, the outcome that stands for C undefined
  behaviour.  A theorem that concludes `... = Ret v` therefore also says that no
  access was out of bounds.
* Unsigned wrap-around is written explicitly (`u8`, `u16`, `u32`, `u64`, i.e.
  `mod 2^n`).  Signed arithmetic goes through checked operations (Dilithium
  reductions, NTT and vectors; TweetNaCl `i64` limbs and `int` counters) that
  return `Undef` on overflow, so "no overflow" is part of the theorem.
* A function that writes through pointers returns the new buffer contents.
* Counted loops are folds or structural recursion over the index range of the C
  loop.  Loops without a static bound (rejection sampling, retrying a system
  call) take a fuel argument.  Running out of fuel is a separate result, never a
  normal-looking value, and theorems quantify over all fuels.
* Uninitialised local arrays are universally quantified initial contents where
  their contents could be read (C32, C60, C61, C63).
* Buffers passed to one call are assumed not to overlap, except in the theorems
  that are about overlap (C62, C64, C65, C69, C73) and where the code itself hashes in place (C61).
* Below C71 hash contexts are values and `malloc` is assumed to succeed.  C71 and C72
  put them on a heap with an arbitrary, possibly failing `malloc` (`Heap.v`).
* Leakage (C66, C67, C68, C70) is modelled as the sequence of branch outcomes and of array
  indices (`CtBase.v`).  Operations on data, multiplication included, are taken
  not to leak their operands.  The instrumented programs are generic in the type
  of data values, so their text cannot use data for control flow or addresses
  without recording it.
* Not expressible in this model: operand-dependent instruction latency, stack
  clearing, compiler behaviour, thread interleavings.

External behaviour enters as universally quantified arguments, never as axioms:
the results of system calls (`Random.v`), the bytes `randombytes` leaves and its
return code, and, in the hybrid layer, the three component schemes.  The
components are then modelled themselves, and `HybridReal.v` instantiates the
hybrid layer with them, so C53 has no hypothesis about components.

## 2. Layers

Model files follow the code.  Specification files are written from the published
standards and do not import the model (except `Base.v` for lists and outcomes).
`Props*.v` hold the property theorems with `Print Assumptions` and concrete
non-vacuity examples.

| code in `/repo` | model | specification | proofs | property theorems |
|---|---|---|---|---|
| `hybrid-dilithium-sphincs/hybrid.c`, `common/hybrid-common.c` | `Hybrid` | `HybridSpec` | `HybridNF` (the same code with pointer plumbing removed, proved equal), `HybridProofs`, `HybridProofs2`, `HybridToy` (components that satisfy the contracts) | `PropsHybrid` |
| the same with its real components | `HybridReal` | `HybridSpec` | `HybridRealProofs` | `PropsReal` |
| `common/fips202.c` | `Keccak`, `Sponge` | `KeccakSpec` (theta, rho, pi, chi, iota; bit-string sponge), `SpongePure` (byte-at-a-time sponge) | `KeccakProofs`, `SpongeProofs`, `SpongeProofs2`, `SpongeFips` | `PropsSponge` |
| `common/shake_prng.c` | `ShakePrng` | in the statement | `ShakePrng` | `PropsSponge` |
| `dilithium2/*.c` | `DilReduce`, `DilNtt`, `DilPoly`, `DilVec`, `DilSign` | `DilSpec` (rounding), `DilEncSpec` (bit strings), `DilSampleSpec` (samplers of a byte stream), `DilFips` (whole scheme over the schoolbook ring) | `DilReduceProofs`, `Tab`, `DilNttProofs`, `DilNttAlg`, `DilSpecProofs`, `DilPolyProofs`, `DilPack`, `DilPacking`, `DilHint`, `DilSample`, `DilEncProofs`, `DilVecProofs`, `DilSignProofs`, `DilFipsProofs*` | `PropsDilithium`, `2`, `3`, `4` |
| `sphincs/*.c` | `Spx` | `SpxSpec` (FIPS 205 algorithms) | `SpxTree`, `SpxWots`, `SpxWots2`, `SpxSign`, `SpxTop`, `SpxExtra` | `PropsSpx` |
| `tweetnacl/tweetnacl.c`: field, points, scalars, SHA-512, signatures | `Tweet` | `EdSpec`, `EdSig` (RFC 8032), `Sha512Spec` | `Wp` (weakest preconditions), `NumTheory`, `EdCurve` (group law), `EdExt`, `EdOrder`, `EdDecode`, `TweetField`, `TweetField2`, `TweetCurve`, `TweetModL`, `TweetSha`, `TweetEd` | `PropsEd` |
| `tweetnacl/tweetnacl.c`: Salsa20, Poly1305, secretbox | `TweetBox` | `BoxSpec` | `PolyProofs`, `PolyProofs2`, `SalsaProofs`, `StreamProofs` | `PropsBox` |
| `tweetnacl/tweetnacl.c`: X25519, box | `TweetDH` | `X25519Spec` (RFC 7748) | `X25519Proofs`, `MontEd` (ladder = multiplication on the Edwards curve) | `PropsDH` |
| `tweetnacl/tweetnacl.c`: crypto_sign, crypto_sign_open on shared memory | `TweetBuf` | `BufSpec`, `EdSig` | `TweetBufProofs` | `PropsTweetBuf` |
| samplers, hash call sites and in-place calls of `dilithium2/` with their real buffers | `DilBuf` | `BufSpec`, the layers above | `BufLemmas`, `DilBufProofs`, `DilBufSign` | `PropsBuf` |
| all of `sphincs/*.c` with its real arrays | `SpxBuf` | `BufSpec`, `SpxSpec` | `SpxBufProofs`, `SpxBufTop` | `PropsSpxBuf` |
| `tweetnacl/tweetnacl.c`, `common/fips202.c`, `common/shake_prng.c`, SPHINCS+ and Dilithium key generation and signing, with branches and addresses recorded | `CtBase` (vocabulary), `CtTweet`, `CtKeccak`, `CtSpx`, `CtDil` | `CtBase` (traces), `CtDilSpec` (what a Dilithium attempt may reveal), the layers above (results) | `CtTweetProofs`, `CtKeccakProofs`, `CtSpxProofs`, `CtSpxTrace`, `CtSpxSign`, `CtDilProofs`, `CtDilTrace` to `CtDilTrace6` | `PropsCt`, `PropsCtKeccak`, `PropsCtSpx`, `PropsCtDil` |
| hash contexts on the heap: `common/fips202.c`, `common/shake_prng.c`, `dilithium2/`, `sphincs/`, client programs | `Heap`, `SpxHeap`, `HeapClient` (`run`) | `HeapClient` (`spec_run`), `PropsHeap` (`releases`), the layers above (results) | `HeapProofs`, `SpxHeapProofs`, `HeapClient` | `PropsHeap` |
| overlapping caller buffers: `hybrid-dilithium-sphincs/hybrid.c` | `HybridBuf` | `BufSpec` (`written`), `Hybrid` (array version) | `HybridBufProofs` | `PropsHybridBuf` |
| forging hybrid signatures: `hybrid-dilithium-sphincs/hybrid.c` | `Hybrid` | `HybridGame` (games, reduction) | `HybridGameProofs` | `PropsHybridGame` |
| `hybrid-dilithium-sphincs/hybrid.c` as one program with `tweetnacl/`, `dilithium2/`, `sphincs/`, `common/` | `HybridProg` (on `Heap`, `SpxHeap`, `TweetBuf`) | `HybridProgSpec` (over `EdSig`, `DilFips`, `SpxSpec`), `BufSpec`, `PropsHeap` (`releases`) | `HybridProgProofs`, `HybridProgProofs2` | `PropsHybridProg` |
| `random/randombytes.c` | `Random`, `RandomDev` (entropy wait) | in the statement, `RandomDevSpec` | `PropsRandom`, `RandomDevProofs` | `PropsRandom`, `PropsRandomDev` |
| `wasm/hybrid-pqc.c` | `Wasm` | in the statement | `PropsWasm` | `PropsWasm` |
| `wasm/hybrid-pqc.c` as used by a page: linear memory, mem_alloc, mem_free | `WasmSession` | `WasmSessionSpec` | `WasmSessionProofs` | `PropsWasmSession` |
| `hybrid.c` key generation and signing with branches and addresses recorded | `CtHybrid` | `CtDilSpec`, `HybridProgSpec` | `CtHybridProofs` | `PropsCtHybrid` |
| contents of the hash contexts when they are passed to free | `Residue` | in `PropsResidue` | in `PropsResidue` | `PropsResidue` |

`KatVectors`, `KatDilithium`, `KatBox`, `KatDH` run published test vectors
through the models while the project builds.  They are tests of the reading of
the code, not proofs.

Not modelled: `tests/`, `scripts/`, the HTML page, the build files,
`random/randombytes_test.c`, the `arc4random_buf` and WASI variants of
`randombytes` (they cannot fail by their interface), TweetNaCl's
`crypto_hash`-style aliases, `DBENCH` macros (empty).

## 3. Per property

| id | model and proof |
|---|---|
| C01 | `keypair_seed` over abstract component generators: output buffers equal the documented concatenation, bytes beyond are unchanged, NULL is refused |
| C02 | REFUTED. Literal model of the copy loop with its double increment. Two different seeds give the same key pair, with the real SHAKE-256 expander. The exact function computed is stated in the `_partial` theorems |
| C03, C04 | round trips from the component contracts of `HybridSpec`; C53 removes the contracts |
| C05, C06 | output buffer = documented concatenation, exact length |
| C07, C08 | `open` returns 0 iff the input is well formed and the component verifications succeed, stated on slices of the input |
| C09 | verify returns 0 iff open returns 0 with that message |
| C10, C16 | no `Undef` for any contents and length; exact return code of each malformed case |
| C11 | outputs unchanged whenever the return code is non-zero |
| C12, C13 | argument and entropy decision rules |
| C14 | the two identifiers and lengths never satisfy the other mode's test |
| C15 | REFUTED by an explicit repackaging function that works for every key and message |
| C17, C18 | injectivity of the hash input and of the layouts |
| C19 | `seedexpander` checks and output against SHAKE-256 |
| C20 | incremental state machine refined to the byte sponge, for every chunking of input and output |
| C21 | all five functions equal FIPS 202 on bit strings, permutation included |
| C22-C25 | checked 32/64-bit arithmetic; NTT = evaluation at the 256 odd powers of the root, multiplication = negacyclic product. Two documented input bounds of `reduce.c` are refuted |
| C26, C27 | bit-string specification of the encodings; decoding is total and canonical |
| C28 | what sign produces verify accepts, every fuel, no `Undef` |
| C29 | samplers equal the filter specification of the stream, with the exact fuel needed |
| C30 | REFUTED for `*mlen`; the rest `_partial` |
| C31, C34, C50, C51 | parametric in the hash function; Merkle/WOTS/FORS induction against `SpxSpec`; instantiated with SHAKE-256 |
| C32 | result independent of the uninitialised root |
| C33 | checksum arithmetic: a different message lowers some chain |
| C35 | REFUTED: `crypto_sign` ignores the return code |
| C36 | index ranges, injectivity of addresses over all roles |
| C37, C52 | small-step system-call model with adversarial results; C52 REFUTED for 2^32 bytes or more on Windows |
| C38 | REFUTED on wasm32: 8-byte store through a 4-byte object |
| C39-C43, C46-C49 | TweetNaCl Ed25519 and SHA-512 against RFC 8032 / FIPS 180-4, down to the limbs. C42, C48, C49 REFUTED (S + L, non-canonical keys, `int` counter) with the true part as `_partial` |
| C44, C45, C56 | secretbox, Poly1305, XSalsa20 for every length and both widths of `unsigned long` |
| C53, C54 | the hybrid API with its real components; C54 (non-malleability) REFUTED |
| C55 | Dilithium key generation, signing and verification equal the ring-level scheme of `DilFips`, both directions |
| C57-C59 | X25519 is RFC 7748 and multiplies on the curve; key agreement; C59 (refusing degenerate keys) REFUTED |
| C60 | the samplers of `poly.c` with their real arrays, streaming context and leftover bytes: always defined, equal to the stream-level samplers, independent of what the arrays held |
| C61 | the functions of `sign.c` with their real local buffers: the hash inputs are the documented concatenations, outputs go exactly where documented |
| C62 | signing and opening when message and signed message share memory |
| C63 | every function of `sphincs/*.c` on byte arrays refines the list-level model: relation `ref` (whenever the abstract function is defined, so is the literal one, with the same result spliced into the array); top level redone with the signature at any offset of a memory that also holds the message |
| C64 | same, `memmove` as a simultaneous copy |
| C65 | refuted: the delivered message is the prefix of R |
| C66 | instrumented programs with a trace; trace equality by structural congruence over the program, results by erasure to the checked model |
| C67 | the same for the sponge: positions and remaining lengths are public results that agree in two runs |
| C68 | instrumented SPHINCS+ key generation and signing; two-run induction over the 17 layers whose invariant says the rest of the hypertree signature agrees, so the next signed root agrees |
| C69 | crypto_sign / crypto_sign_open on one memory at arbitrary offsets, copying loops in C order (`TweetBuf.v`); the ascending copy onto itself is proved to yield a periodic message, in-place opening to verify with the key bytes as S |
| C70 | instrumented Dilithium key generation and signing (`CtDil.v`); what may be learnt per attempt is specified over `DilFips.v` only (`CtDilSpec.v`); two-run simulation of the rejection loops; the accepted attempt is shown to be computable by the verifier (UseHint of MakeHint, A z - c t1 2^13 = w - c s2 + c t0) |
| C71 | the buffer-level programs in a monad with a heap, an arbitrary malloc and exit; each refines its heap-free version and restores the heap, by rules that hold a context from init to release |
| C72 | arbitrary call sequences over variables that hold pointers; invariant: every live variable owns one block that represents its own history |
| C73 | hybrid.c on one shared memory with offsets; each call compared with the array version of C01 to C15; compact signing in place is refuted |
| C74 | chosen-message games as interaction trees over the modelled API; an explicit reduction, proved to simulate the hybrid signer without the attacked secret, by induction over the adversary |
| C75 | hybrid.c in the heap monad, calling the heap- and buffer-level models of all components on one memory that also holds its local arrays; exact results composed from C55, C61, C63, C69, C71; specification over RFC 8032, FIPS 204 and FIPS 205 only; a client program run end to end |
| C76 | pages as interaction trees over commands on one linear memory with an arbitrary allocator; per-command effects from C75 and C71, a well-formedness invariant (live blocks apart, cleared ranges zero and unowned), induction over the page; a sign-wipe-verify page by weakest preconditions |
| C77 | the hybrid programs over the recorded component programs (C66-C68, C70); two runs side by side with a relation on traces and results that composes along the program, results identified with the specification of C75 |
| C78 | Residue.v: the heap programs of C71 and C75 with a record of the contents of blocks at free; shown equal to the unrecorded programs; the contents computed from the sponge invariant. Refuted: freed contexts hold the last output block |
| C79 | Spx.v `treehash` (utils.c, exported, not called by the library); SpxTree0.v: invariant over the stack of heights (strictly increasing from the top, the number of leaves so far as the sum of the powers of two), same specification as C34; agreement with treehashx1 and compute_root |
| C80, C81 | RandomDev.v: the /dev/urandom variant with its entropy wait, one system call at a time against an adversarial list of replies, errno as state, and a log of all calls; properties stated on the log (RandomDevSpec.v). C81 REFUTED: failed calls keep a descriptor, interrupted close and fclose are repeated (the second fclose is undefined), a stale EINTR makes the /proc loop endless |
A property whose claim is false of the code has the status `partial`, theorems
named `_refuted` that exhibit the counterexample, and `_partial` theorems for
what does hold.

## 4. Simplifications worth knowing

* Dilithium polynomials and vectors are lists, and vector functions are written
  over lists of polynomials instead of pointers to structures.
* In `DilSign.v` and `Spx.v` hash calls are written as one function of the
  concatenated input.  The literal call sequences (incremental absorption, local
  buffers, in-place hashing, the layout of `seedbuf`) are modelled separately in
  `DilBuf.v` and `SpxBuf.v` and proved to compute the same values (C60-C65).
* In `Spx.v` address writers are plain updates at constant offsets of a 32-byte
  list; `SpxBuf.v` writes them through the checked array access.
* `uint32_t` stores into the address on a big-endian or little-endian machine:
  the code only uses byte access, so endianness does not enter.
* The TweetNaCl model covers `unsigned long` of 32 and of 64 bits by a parameter
  where it matters (Salsa20, Poly1305).
* Dilithium follows the draft of FIPS 204: no context string, and no k, l bytes
  in the seed hash.  `DilFips.v` specifies that scheme.

## 5. Trusted base

* Coq 8.16.1's kernel, and its virtual machine for proofs by `vm_compute`
  (`coqchk` re-checks those without the virtual machine).
* Axioms: none.  Under every theorem of `Props*.v`, `Print Assumptions` prints
  "Closed under the global context".  A whole-library listing (`coqchk -o`)
  also names seven constants of `Coq.ssr.ssrunder` (`Under_rel.*`).  They are
  fields of a module type in Coq's standard library that is loaded along with
  `List` and `ZArith`; no theorem here depends on them.
* The reading of `/repo` that produced the definitions.  Each definition cites
  file and lines; the code was not run.
* The specification files: `HybridSpec`, `KeccakSpec`, `DilSpec`, `DilEncSpec`,
  `DilSampleSpec`, `DilFips`, `SpxSpec`, `EdSpec`, `EdSig`, `Sha512Spec`,
  `BoxSpec`, `X25519Spec`.

## 6. How to read seeded/LOG.jsonl

Each line is one edit of the model, made in a scratch copy and rebuilt.

* `first_failing_lemmas` are the proofs that stopped compiling.  Each was then
  replaced by `Admitted` in the scratch copy so that the build could go on.
* `theorems_failed` are the theorems whose `Print Assumptions` then lists one of
  those lemmas.  In 176 of 271 lines no proof in a `Props` file failed itself;
  the theorems are listed only because they depend on a failed lemma.
* A failed proof script does not show that the theorem is false of the edited
  program.  Another proof of the same statement might exist.  The log therefore
  gives evidence that the theorems constrain the edited code, not a proof of it.
* `statements_proved_false`, in the 24 lines about `RandomDev.v` and the 11 about
  `treehash`, is stronger: in the edited copy the negation of the named theorem's
  statement was proved, from a concrete run.  The scripts are
  `seeded/RandomDevRefute.txt` (six of the C80 and C81 statements) and
  `seeded/TreehashRefute.txt` (the first C79 statement).  On the unedited model
  they refute nothing.  For `RandomDev.v` one statement per line was shown false
  where `theorems_failed` mostly names five or more, so `theorems_failed` may
  overstate which claims an edit breaks.  The first run of the treehash script
  left two edits open because its toy hash could not tell the children apart;
  the hash was replaced.  The other lines have not been checked in this way.
* No edit left all theorems standing, so `theorems_tightened` is empty
  throughout.
* The edits were chosen by the author of the theorems.  One prepared edit
  (`inv_l`, third batch) was dropped before it was run.  Runs on `RandomDev.v`
  that hit the time limit were repeated after the proofs had been made faster;
  only the repeated run is listed.
