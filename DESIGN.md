# Formal model of pq-crystals/kyber (ref and avx2) in Rocq/Coq 8.16.1

## 1. Approach

The C reference implementation (`/repo/ref`) and the AVX2 variant (`/repo/avx2`) are transcribed function by function into
Gallina, in a small *C monad* (`CMonad.v`):

* a computation is `Ok value trace`, `UB reason` (undefined behaviour), `Abort` (the
  program called `abort()`) or `Timeout` (the fuel of the only unbounded loops, the refill
  loops of `gen_matrix`, or the schedule of kernel replies ran out);
* signed `int` arithmetic that leaves the 32-bit range, left shifts of negative values,
  out-of-range shift counts and array accesses outside the bounds yield `UB`: undefined
  behaviour is an outcome, not an assumption;
* every array access appends its index to the trace, every branch its outcome, every
  loop its continuation tests, every run-time division its operands.  The trace is the
  leakage of the usual constant-time model.  One more event, `EvNoise nonce`, is a log
  entry written by each call of the noise sampler (for C31);
* integers are `Z`; every conversion to a C integer type is an explicit wrap
  (`i16`, `u8`, `u32`, ...).  Arrays are `list Z`; a pointer parameter into a buffer is
  the buffer plus an offset, so out-of-bounds writes and stale bytes are visible;
* uninitialised locals hold arbitrary values (`Class Junk`, a function all theorems
  quantify over); output buffers arrive with arbitrary contents.

The specification (`Spec_*.v`) is written from FIPS 202 and FIPS 203, without reference to
the model: bit strings, step mappings, sponge, ByteEncode/Decode, Compress/Decompress with
exact rational rounding, NTT as residues modulo `X^2 - zeta^(2 BitRev7(i)+1)`, negacyclic
schoolbook product, SampleNTT as a relation on the infinite SHAKE128 stream, K-PKE, ML-KEM.
`Spec_Noise.v` defines the decryption noise and its window, `Spec_Failure.v` the same noise as a
function of the strings it is sampled from, `Spec_Games.v` the hiding game and the Module-LWE
experiments, `Spec_Checks.v` the input checks of FIPS 203 section 7.  `Vocab.v` holds the few
predicates the statements use (byte arrays, coefficient ranges); `Vocab_Code.v` those that
mention modelled functions (sequences of absorb calls, kernel schedules).

For each function one *adequacy* lemma says: under the stated precondition the monadic
function equals `Ok (pure result) T` where the trace `T` is the same for all inputs with
the same public part.  It gives memory safety, absence of UB, full-output-write and
constant time at once.  A second lemma relates the pure result to the specification.

Files: `CMonad.v`, `Model_*.v` (model), `Spec_*.v` (specification), `Vocab*.v`
(vocabulary), `Proof_*.v`, `WP.v`, `Modq.v`, `Sums.v`, `Levels.v` (proofs), `Run_Kem.v` (one
complete ML-KEM-512 exchange by computation, used by the examples), `Cases.v` and
`Proof_Cases.v` (example data), `Prop_*.v` (property theorems only: each closed by `exact`,
followed by `Print Assumptions`, with an example meeting its hypotheses).

## 2. Plan per property

| id | modelled | proof |
|----|----------|-------|
| C01 | kem.c, indcpa.c and all below | ring algebra on the FIPS-level spec (linearity of NTT, bilinearity of the NTT product, transposition), exact decoding window; transferred to the code by C02-C04 |
| C02-C04 | same | composition of adequacy lemmas; every C function refined to its FIPS 203 algorithm |
| C05 | kem.c, verify.c, symmetric-shake.c | from C04, C26, C27 |
| C06 | kem.c, params.h, api.h | explicit buffers with arbitrary stale contents |
| C07 | all | adequacy lemmas never yield UB; coefficient bounds carried along the pipeline |
| C08, C09 | all | traces of adequacy lemmas; gen_matrix is the only function whose trace depends on data (public seed) |
| C10-C13 | fips202.c | unrolled permutation against the bit-level step mappings; sponge invariant by induction on the message/chunks |
| C14-C16 | ntt.c, poly.c, polyvec.c | bounds invariant per layer; linearity plus evaluation on the 256 unit vectors (finite, complete by linearity); algebra for the product |
| C17 | reduce.c | arithmetic (lia on the defining equations) |
| C18 | reduce.c | finite domain sweep over all int16 |
| C19, C20 | poly.c, polyvec.c | finite sweep over all coefficients / all d-bit fields, lifted to arrays by induction |
| C21, C32 | poly.c, polyvec.c, indcpa.c | bit-level reasoning on groups (2 coeffs/3 bytes, 4/5, 8/11, 8/5, 2/1), lifted by induction |
| C22 | poly.c | sweep over the noise interval, lifted |
| C23 | cbd.c | bit-level reasoning on 32/24-bit words |
| C24, C25 | indcpa.c | loop invariant against a list filter; prefix property of SHAKE128 |
| C26, C27 | verify.c | induction |
| C28 | randombytes.c | syscall results as an arbitrary schedule (list of replies); induction; the Windows branch likewise |
| C29 | kem.c | randombytes as an oracle argument |
| C30 | kem.c | witness for acceptance, C03 for the reduction statement |
| C31 | indcpa.c | the model logs the sampler nonces; distinctness shown on the log |
| C33 | indcpa.c | as C01, with the exact window: both directions |
| C34-C36 | avx2/*.S, fq.inc, shuffle.inc, consts.c | the instruction interpreter is parametric in the lane type; it is run once on symbolic linear terms, a verified interval/congruence checker compares the result with the symbolic transform, and a soundness lemma transfers this to all inputs |
| C37-C41 | avx2/poly.c, polyvec.c, cbd.c, verify.c | vectors are 256 bits; each loop body is a straight-line program over intrinsics, evaluated once on symbolic bits by a verified evaluator (`Proof_AvxBits.v`), per-lane functions swept over their finite domain, loops by induction |
| C42-C43 | avx2/keccak4x, fips202x4.c | the unrolled macros as a straight-line program, parametric in the word type: run on single lanes it is checked against the round function, lanewise evaluation gives four instances; sponge invariant as for C10-C13 |
| C44 | avx2/rejsample.c | loop bodies as for C37; the 256-row shuffle table is checked row by row; invariant: the array starts with the accepted candidates |
| C45 | avx2/indcpa.c, avx2/poly.c | loop invariant over the four instances, each of which is the reference's refill loop on its own stream |
| C46-C47 | avx2/indcpa.c, kem.c | composition as for C02-C04; vectors in the AVX2 order are carried as images of the specification's vectors |
| C48 | ref/ and avx2/ | both equal the same function of the inputs |
| C49, C50 | avx2/ | as C08, C09, C31 |
| C51 | kem.c of both variants | case analysis on C05: accepted or rejected on either side |
| C52 | kem.c of both variants | C04 for the values, C08 for termination on all keys with the same seed |
| C53 | avx2/rejsample.c with BMI | as C44; the pdep/pext shuffle control is computed for all 256 masks |
| C54, C55 | nistkat/rng.c | the block cipher is a parameter; V as a big-endian number; induction over blocks and over sequences of calls |
| C56, C57 | ref/test/test_kyber.c, test_vectors.c | the programs over an abstract source of random bytes; a rule for sequencing runs without undefined behaviour; C05, C51 for the meaning of a failure |
| C58, C59 | ref/nistkat/PQCgenKAT_kem.c | sliding-window search and nibble shifting as list functions; the generator after a seed is a source with the requests 64, 32, so the exchange lemmas of C56 apply |
| C60, C61 | ref/kem.c | a simulation between a run and the run with bytes appended to every buffer; for short buffers, two different appended bytes would have to give the same result; C61: the component lemmas of C02 at arbitrary offsets of one memory |
| C62, C63 | ref/test/speed_print.c, cpucycles.c, test_speed.c | sortedness determines the median; sums modulo 2^64; the sequencing rule of C56; safety of the vector code without input bounds by the symbolic runs of C34 |
| C64, C65 | ref/cbd.c, avx2/cbd.c, rej_uniform, avx2/rejsample.c | explicit lists without repetition of the byte strings leading to an output (`counted`): bits are dealt to coefficients by a bijection; rejected 12-bit values are counted by position |
| C66 | ref/kem.c, ref/indcpa.c | the component lemmas of key generation at arbitrary offsets of one memory; writes to disjoint ranges commute; overlapping memcpy is the outcome `UB Overlap` |
| C67 | ref/indcpa.c, avx2/indcpa.c, the KEM | the strings as lists of bit fields; an exponential-moment bound with a rational base (6/5 or 5/4) kept in integers, independent coefficients as a product, the rounding error of u at its worst over Z_q (swept), a union bound over coefficients and signs, the numbers by repeated squaring in 64-bit fixed point |
| C68 | ref/indcpa.c, avx2/indcpa.c, the KEM | lists of candidates by number accepted, packed into bytes; an exponential bound on the binomial tail by induction; the tails for 3 and 4 blocks computed exactly (Horner) |
| C69 | AVX2 KEM, polyvec, poly, verify, cmov | every load and store commutes with appending bytes to the buffer, so whole runs do; short buffers by comparing with the extended run |
| C70 | AVX2 KEM with one memory (Model_AvxShared.v) | step by step against the reference version; both leave the same memory after K-PKE |
| C71 | fips202.c with unsigned int and size_t counters (Model_Fips202Width.v) | simulation of the nat loops, exact including leakage; wrapping cases by computation on the sums |
| C72 | rej_uniform, verify, cmov with such counters (Model_RejWidth.v) | the same simulation; pos is a multiple of 3, as is 2^32 - 1 |
| C73 | indcpa_keypair_derand, indcpa_enc (both implementations), Spec_Games.v | four game hops over averages of rationals on finite lists; the last is a shift permutation of the polynomials |
| C74 | avx2/fips202x4.c, avx2/verify.c with machine-width counters (Model_AvxWidth.v) | as C71 |
| C75 | kem.c crypto_kem_dec over the set of all ciphertexts of a key, both versions (Vocab_Accept.v) | none |
| C76 | key generation and encapsulation against the input checks of FIPS 203 section 7 (Spec_Checks.v), both versions | none |
| C77 | poly_add and poly_sub of both versions, with every overlap of the arguments (Model_AvxArith.v) | none |
| C78 | fips202.c: every sequence of squeeze and squeezeblocks calls (Vocab_Draw.v) | none |
| C79 | namespace macros of all headers, external definitions and references of all sources, both Makefiles, api.h (Model_Names.v) | the tables are read off the text; names MacOS/Windows decorate with an underscore are written without it |
| C80-C82 | the rest of avx2/keccak4x/KeccakP-1600-times4-SIMD256.c and the macro AddByte (Model_AvxSnP.v) | the state is 800 bytes; lanes, vectors and bytes of it are views of the same bytes; the caller's buffers have an address, UINT64 accesses are checked for alignment and pointer arithmetic for staying in the buffer; unsigned int products wrap |
| C83 | the compression functions of C19 and C37 outside the ranges used there | nothing new is modelled; Vocab_Ranges.v lists the intervals |
| C84 | the serialisation functions of C21 and C36 outside the ranges used there | nothing new is modelled |

## 3. Trusted base

* Coq 8.16.1's kernel (including `vm_compute`); `coqchk` re-checks everything without the VM.
* `Print Assumptions` is printed under every property theorem.  It reports "Closed under
  the global context" for all of them: no axiom of the standard library is used either.
  (The standard library file `Coq.ssr.ssrunder`, loaded by `lia`'s support files, declares
  the parameters of a module type; `coqchk` lists them in its context.  No theorem here
  depends on them.)
* The transcription of C into the monad (checked by hand, cited per definition).
* Implementation-defined behaviour of gcc/clang: two's complement, conversion to a narrower
  signed type wraps, `>>` on negative values is arithmetic, `int` is 32 bits, `size_t` 64.

### 3.1 Modelled

All of `ref/`: reduce.c, ntt.c, poly.c, polyvec.c, cbd.c, verify.c, fips202.c,
symmetric-shake.c, indcpa.c, kem.c, randombytes.c (Linux/NetBSD getrandom, the
/dev/urandom fallback and the Windows branch), the constants of params.h and api.h, for KYBER_K = 2, 3, 4.

Of `avx2/`: the assembly (fq.inc, shuffle.inc, ntt.S, invntt.S, basemul.S, fq.S, shuffle.S)
and the table consts.c, instruction by instruction (`Model_AvxAsm.v`, `Model_AvxCode.v`).
Registers are sixteen 16-bit lanes; 32-byte alignment of `vmovdqa` operands is checked, a
misaligned access is `UB Misaligned`; initial register contents are arbitrary.
The vectorised C code of cbd.c, poly.c, polyvec.c and verify.c: one constructor per
intrinsic, with the bit-level meaning of the Intel manual (`Model_AvxIntrin.v`,
`Model_AvxC.v`, `Model_AvxPolyvec.v`).  Accesses by whole vectors are bounds-checked
against the array; those beyond the documented end are visible (C37-C39).
rejsample.c without the macro BMI, which the file leaves undefined (`Model_AvxRej.v`), and
with it (`Model_AvxRejBmi.v`).
keccak4x/KeccakP-1600-times4-SIMD256.c with its macros: the permutation the library calls
(`Model_AvxKeccak.v`) and all other functions of the file (`Model_AvxSnP.v`); and
fips202x4.c (`Model_AvxFips202x4.v`); vectors are four 64-bit lanes, the 8-byte gather loads
and stores are bounds-checked byte loops.
indcpa.c and the noise samplers of poly.c (`Model_AvxIndcpa.v`), kem.c (`Model_AvxKem.v`).
The files avx2/ shares with ref/ (fips202.c, symmetric-shake.c, randombytes.c, and the
scalar rej_uniform, the same text) are modelled once.

nistkat/rng.c (`Model_Rng.v`), with OpenSSL's AES as a parameter.

ref/test/test_kyber.c and test_vectors.c (`Model_Tests.v`; avx2/test links to them), over any
randombytes; standard output is a list of characters, standard error is dropped.

nistkat/PQCgenKAT_kem.c (`Model_Kat.v`) on top of `Model_Rng.v`: files are lists of bytes kept in
a map from names, each of the three fopen calls succeeds or fails arbitrarily, reading and writing
an open file does not fail, standard output is dropped, an `fscanf` number outside `int` is UB.

`Model_Shared.v` and `Model_SharedKey.v` repeat `crypto_kem_enc_derand`, `crypto_kem_dec` and
`crypto_kem_keypair_derand` of ref/kem.c with all buffers in one memory; `Model_AvxShared.v` does
so for avx2/.

ref/test/test_speed.c, speed_print.c and cpucycles.c (`Model_Speed.v`; avx2/test links to them):
the cycle counter is an arbitrary sequence of 64-bit values, `qsort` a parameter with its C
contract, uninitialised locals hold arbitrary values, standard error is dropped.

### 3.2 Simplifications (also stated at the definitions)

* Loops whose bounds are compile-time constants run a `for_` over an iteration number; the
  nested loops of ntt.c are indexed by (layer, block, butterfly) instead of (len, start, j).
  `Model_NTTLoops.v` has these loops as written, with wrapping `unsigned int` counters;
  `C14_loops_as_written` and `C15_loops_as_written` prove both forms equal on all arrays.
* Buffer lengths and counters are `nat` (no wrap-around of `unsigned int`/`size_t`).  For the
  functions that take a length (fips202.c, fips202x4.c, rej_uniform, verify, cmov)
  `Model_Fips202Width.v`, `Model_RejWidth.v` and `Model_AvxWidth.v` have the counters as declared;
  C71, C72 and C74 prove the two forms equal and exhibit the lengths where they would differ.  All
  other loops have constant bounds, except those of randombytes (which only subtracts what was
  delivered) and rng.c (modelled on Z with its `int` index checked for overflow).
* avx2/indcpa.c handles four instances by writing each statement four times; this is a loop
  over the instance number.  The destination polynomials of such a group are taken out of
  the matrix before it and put back after it.
* At the KEM API the buffers have the documented lengths and do not overlap; C60, C61 and
  C66 lift this for the reference functions, C69 and C70 for the AVX2 functions.  The places where the code itself aliases
  arguments are modelled with the alias (`poly_add(&v, &v, &epp)`, `hash_g(buf, buf, ..)`).
* `!fail` in kem.c is taken to be branch-free (setz), as the code intends.  The inline
  assembly barriers of verify.c have no effect on values and are dropped.
* Locals of struct type (keccak_state) are values; `unsigned int pos` is the returned state.
* randombytes: the operating system is an arbitrary finite schedule of replies (bytes,
  EINTR, failure); a schedule that ends too early is `Timeout` ("still waiting").
* `fuel` of `gen_matrix` counts evaluations of the refill loop's test.  `C24_finishes`
  characterises `Timeout` exactly, and every KEM theorem holds for every fuel.

### 3.3 Not modelled

The compiler, the operating system beyond the schedule of system-call results, caches and
microarchitecture, stack contents after return, compiler and linker flags (the names given to
the linker are modelled: `Model_Names.v`).

### 3.4 Validation (tests, not part of any proof)

`validation/mlkem.py` is ML-KEM transcribed from FIPS 203, as `Spec_FIPS203.v` is. Driven like
test_vectors.c it reproduces the three tvecs digests of the repository's SHA256SUMS (all 10000
vectors each). `validation/mkcheck.py` writes a Coq file that runs the model of test_vectors.c
(either variant, all parameter sets) and compares its whole output with the first vector of
`mlkem.py`; all six runs agree. These guard against a misreading of the standard shared by model
and specification.
