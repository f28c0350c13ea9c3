{"id": "C01", "title": "Encapsulate/decapsulate agreement", "statement": "If a key pair is produced by crypto_kem_keypair_derand and a ciphertext by crypto_kem_enc_derand under that public key, and the accumulated decryption noise of that run stays below the decoding threshold (every coefficient of e'y - s'(e1+du) + e2 + dv, reduced to the centred range mod q, is within the q/4 window), then crypto_kem_dec with the secret key returns the very same 32-byte shared secret that encapsulation returned.", "quantifier": "for all three parameter sets, all 64-byte key coins and all 32-byte encapsulation coins whose noise is inside the window and whose matrix sampling terminates", "why_tests_cant": "2^768 coin combinations; tests try about 1000 random runs and say nothing about the exact threshold or rare noise values.", "anchors": ["ref/kem.c: crypto_kem_keypair_derand, crypto_kem_enc_derand, crypto_kem_dec", "ref/indcpa.c: indcpa_enc, indcpa_dec"]}
{"id": "C02", "title": "Key generation computes ML-KEM.KeyGen_internal", "statement": "crypto_kem_keypair_derand writes exactly the (ek, dk) that FIPS 203 ML-KEM.KeyGen_internal(d, z) defines, with d = coins[0..31], z = coins[32..63].", "quantifier": "for all parameter sets and all 64-byte coins for which SampleNTT terminates", "why_tests_cant": "Known-answer tests compare finitely many coin values; a lazily reduced coefficient or a carry that only fails for rare values is not met.", "anchors": ["ref/kem.c: crypto_kem_keypair_derand", "ref/indcpa.c: indcpa_keypair_derand, gen_matrix, pack_pk, pack_sk"]}
{"id": "C03", "title": "Encapsulation computes ML-KEM.Encaps_internal, for every byte string used as public key", "statement": "crypto_kem_enc_derand writes exactly the (K, c) of FIPS 203 ML-KEM.Encaps_internal(ek, m), even when ek is not the output of key generation or contains 12-bit fields >= q.", "quantifier": "for all parameter sets, all public-key byte strings of the right length, all 32-byte coins (matrix sampling terminating)", "why_tests_cant": "Tests only use honestly generated keys; the set of byte strings is infinite for practical purposes and non-canonical ones stress the lazy-reduction bounds.", "anchors": ["ref/kem.c: crypto_kem_enc_derand", "ref/indcpa.c: indcpa_enc, unpack_pk"]}
{"id": "C04", "title": "Decapsulation computes ML-KEM.Decaps_internal, for every byte string", "statement": "crypto_kem_dec writes exactly the key FIPS 203 ML-KEM.Decaps_internal(dk, c) defines, for any dk and c of the right length, including malformed ones.", "quantifier": "for all parameter sets, all secret-key and ciphertext byte strings of the right length (matrix sampling terminating)", "why_tests_cant": "Adversarial ciphertexts and corrupted keys form an astronomically large space that unit tests sample with one flipped byte.", "anchors": ["ref/kem.c: crypto_kem_dec", "ref/indcpa.c: indcpa_dec, unpack_sk, unpack_ciphertext"]}
{"id": "C05", "title": "Implicit rejection", "statement": "crypto_kem_dec always returns 0; when the ciphertext is exactly the re-encryption of the decrypted message it outputs the re-derived key, and for every other ciphertext of that length it outputs SHAKE256(z || ct, 32), where z is the last 32 bytes of the secret key; no other value is ever output.", "quantifier": "for all secret keys and all ciphertexts of the right length", "why_tests_cant": "A test flips one random byte and only checks that the keys differ, not that the rejection key has the specified value, nor that all differing positions are detected.", "anchors": ["ref/kem.c: crypto_kem_dec", "ref/verify.c: verify, cmov", "ref/symmetric-shake.c: kyber_shake256_rkprf"]}
{"id": "C06", "title": "Secret-key layout and published sizes", "statement": "After key generation the secret key is the PKE secret key, followed by the public key, followed by SHA3-256(public key), followed by coins[32..63]; pk, sk, ct and ss have exactly the lengths promised in api.h and every byte of each is written.", "quantifier": "for all parameter sets, all coins, all initial contents of the output buffers", "why_tests_cant": "Unwritten bytes are only visible for particular stale buffer contents, and offsets must be right for all parameter sets.", "anchors": ["ref/kem.c: crypto_kem_keypair_derand", "ref/params.h", "ref/api.h"]}
{"id": "C07", "title": "No undefined behaviour or out-of-bounds access in the KEM", "statement": "crypto_kem_keypair_derand, crypto_kem_enc_derand and crypto_kem_dec never overflow a signed integer, never left-shift a negative value, never shift by an out-of-range amount and never access an array outside its bounds.", "quantifier": "for all parameter sets and all input byte strings of the documented length, however malformed", "why_tests_cant": "Sanitizer runs only see the executed inputs; the coefficient bounds behind lazy reductions have to hold for every input.", "anchors": ["ref/kem.c", "ref/indcpa.c", "ref/poly.c", "ref/polyvec.c", "ref/ntt.c", "ref/reduce.c", "ref/cbd.c", "ref/fips202.c", "ref/verify.c"]}
{"id": "C08", "title": "Decapsulation timing independence", "statement": "The sequence of branch outcomes, loop trip counts, memory indices and division operands of crypto_kem_dec is the same for any two runs whose stored public matrix seed is the same: it does not depend on the secret polynomials, the rejection value z, the stored hash or the ciphertext.", "quantifier": "for all pairs of (secret key, ciphertext) with equal 32-byte matrix seed", "why_tests_cant": "Non-interference relates pairs of executions; timing tests are statistical and cannot cover all pairs.", "anchors": ["ref/kem.c: crypto_kem_dec", "ref/indcpa.c: indcpa_dec, indcpa_enc", "ref/poly.c: poly_tomsg, poly_frommsg", "ref/verify.c"]}
{"id": "C09", "title": "Key-generation and encapsulation timing independence", "statement": "The branch/index/division trace of crypto_kem_keypair_derand depends on its coins only through the public matrix seed that is published in pk, and that of crypto_kem_enc_derand only through the public key's matrix seed (never through the coins).", "quantifier": "for all pairs of runs agreeing on the public seed", "why_tests_cant": "As C08: a statement about pairs of executions.", "anchors": ["ref/kem.c: crypto_kem_keypair_derand, crypto_kem_enc_derand", "ref/indcpa.c: indcpa_keypair_derand, indcpa_enc"]}
{"id": "C10", "title": "SHA3/SHAKE one-shot functions equal FIPS 202", "statement": "sha3_256, sha3_512, shake128 and shake256 write exactly the FIPS 202 digest / output of the requested length for the input.", "quantifier": "for all input byte strings of any length and all output lengths", "why_tests_cant": "Input lengths and contents are unbounded; padding bugs hide at block boundaries (len mod rate in {0, rate-1}).", "anchors": ["ref/fips202.c: sha3_256, sha3_512, shake128, shake256, keccak_absorb_once, keccak_squeezeblocks"]}
{"id": "C11", "title": "Unrolled Keccak-f[1600] equals the FIPS 202 permutation", "statement": "The unrolled 24-round permutation maps every 1600-bit state to what the five step mappings theta, rho, pi, chi, iota of FIPS 202 (with rotation offsets and round constants from their defining recurrences) give.", "quantifier": "for all 2^1600 states", "why_tests_cant": "The state space cannot be enumerated; a wrong rotation may affect few test vectors' observed bits.", "anchors": ["ref/fips202.c: KeccakF1600_StatePermute, KeccakF_RoundConstants"]}
{"id": "C12", "title": "Incremental absorbing is independent of chunking", "statement": "Any sequence of shake128_absorb/shake256_absorb calls followed by finalize leaves a state that squeezes the same bytes as one absorb of the concatenated input.", "quantifier": "for all message lengths and all ways of splitting the message into finitely many (possibly empty) chunks", "why_tests_cant": "The number of call histories is unbounded; bugs show only when a chunk ends at particular offsets.", "anchors": ["ref/fips202.c: keccak_absorb, keccak_finalize, shake128_absorb, shake256_absorb"]}
{"id": "C13", "title": "Incremental squeezing is independent of chunking", "statement": "Any sequence of shake*_squeeze calls yields consecutive pieces of one output stream, and shake*_squeezeblocks(n) directly after absorb yields its first n*rate bytes; outputs of different total length are prefixes of one another.", "quantifier": "for all inputs and all finite sequences of squeeze lengths", "why_tests_cant": "Unbounded histories; off-by-one at the rate boundary occurs only for particular sequences.", "anchors": ["ref/fips202.c: keccak_squeeze, keccak_squeezeblocks, shake128_squeeze, shake256_squeeze, shake128_squeezeblocks, shake256_squeezeblocks"]}
{"id": "C14", "title": "Forward NTT is the mathematical NTT", "statement": "poly_ntt maps the coefficients of f to the residues of f modulo the 128 quadratic factors of X^256+1 in bit-reversed order, congruent mod q, and no intermediate value leaves the int16 range.  The len/start/j loops as written in ntt.c, with unsigned int counters, compute the same result (value, trace and undefined behaviour) on every array as the layer-wise form the other statements use.", "quantifier": "for all polynomials with coefficients in (-q, q), and more generally up to the documented lazy bound", "why_tests_cant": "3329^256 inputs; overflow of a lazily reduced coefficient is only reachable by special inputs.", "anchors": ["ref/ntt.c: ntt, zetas", "ref/poly.c: poly_ntt"]}
{"id": "C15", "title": "Inverse NTT inverts the forward NTT", "statement": "poly_invntt_tomont after poly_ntt returns the original polynomial multiplied by 2^16 mod q, for every polynomial, with all outputs in (-q, q).  The len/start/j loops as written in ntt.c, with unsigned int counters, compute the same result (value, trace and undefined behaviour) on every array as the layer-wise form the other statements use.", "quantifier": "for all polynomials within the documented coefficient bounds", "why_tests_cant": "Input space 3329^256.", "anchors": ["ref/ntt.c: ntt, invntt", "ref/poly.c: poly_invntt_tomont"]}
{"id": "C16", "title": "NTT-domain multiplication is negacyclic polynomial multiplication", "statement": "poly_invntt_tomont(poly_basemul_montgomery(poly_ntt(a), poly_ntt(b))) is congruent mod q to the schoolbook product of a and b in Z_q[X]/(X^256+1).", "quantifier": "for all pairs of polynomials a, b within the documented coefficient bounds", "why_tests_cant": "Pairs of 256-coefficient polynomials cannot be enumerated.", "anchors": ["ref/ntt.c: basemul", "ref/poly.c: poly_basemul_montgomery, poly_ntt, poly_invntt_tomont", "ref/polyvec.c: polyvec_basemul_acc_montgomery"]}
{"id": "C17", "title": "Montgomery reduction contract", "statement": "montgomery_reduce(a) is in (-q, q) and congruent to a*2^-16 mod q for every a in [-q*2^15, q*2^15 - 1], without signed overflow; for inputs near the ends of int32 the subtraction overflows.", "quantifier": "for all 2^32 int32 values a", "why_tests_cant": "Exhaustive unit tests over int32 are not part of the suite and could not detect signed-overflow UB by observing values.", "anchors": ["ref/reduce.c: montgomery_reduce", "ref/ntt.c: fqmul"]}
{"id": "C18", "title": "Barrett reduction contract", "statement": "barrett_reduce(a) is the centred representative of a mod q, i.e. in [-(q-1)/2, (q-1)/2] and congruent to a, for every int16 a.", "quantifier": "for all 65536 int16 values", "why_tests_cant": "No test in the suite covers it; a wrong rounding constant shows on few values.", "anchors": ["ref/reduce.c: barrett_reduce"]}
{"id": "C19", "title": "Ciphertext compression equals FIPS 203 rounding", "statement": "The division-free compressors behind ciphertext packing compute round(2^d*x/q) mod 2^d for d = 4, 5, 10, 11 and the message decoder computes it for d = 1, for every representative the pipeline can produce (negative ones included).", "quantifier": "for all coefficients in (-q, q) (all of [-(q-1)/2,(q-1)/2] for d=1), all positions", "why_tests_cant": "The multiply-shift constants are exact only on a bounded range; a wrong constant disagrees on isolated coefficients.", "anchors": ["ref/poly.c: poly_compress, poly_tomsg", "ref/polyvec.c: polyvec_compress"]}
{"id": "C20", "title": "Decompression equals FIPS 203 and has bounded error", "statement": "poly_decompress/polyvec_decompress compute round(q*y/2^d); decompressing a compressed coefficient returns a value within round(q/2^(d+1)) of the original mod q; compressing a decompressed field returns the field.", "quantifier": "for all byte strings and all polynomials in range, all d used", "why_tests_cant": "Quantifies over all byte strings of the compressed length.", "anchors": ["ref/poly.c: poly_compress, poly_decompress", "ref/polyvec.c: polyvec_compress, polyvec_decompress"]}
{"id": "C21", "title": "Polynomial serialization round-trips", "statement": "poly_frombytes(poly_tobytes(a)) is the canonical representative of a for every a with coefficients in (-q, q), the bytes equal FIPS 203 ByteEncode_12, and poly_tobytes(poly_frombytes(b)) = b for every 384-byte string b.", "quantifier": "for all polynomials in range and all 384-byte strings", "why_tests_cant": "2^3072 byte strings.", "anchors": ["ref/poly.c: poly_tobytes, poly_frombytes", "ref/polyvec.c: polyvec_tobytes, polyvec_frombytes"]}
{"id": "C22", "title": "Message encoding tolerates noise", "statement": "poly_tomsg recovers every 32-byte message from poly_frommsg(m) perturbed by any noise polynomial with coefficients in [-832, 831]; the interval is the exact tolerance.", "quantifier": "for all messages and all admissible noise polynomials", "why_tests_cant": "2^256 messages times 1664^256 noise vectors.", "anchors": ["ref/poly.c: poly_frommsg, poly_tomsg"]}
{"id": "C23", "title": "Centred binomial sampling equals FIPS 203", "statement": "poly_getnoise_eta1/eta2 output coefficient i equal to the difference of two sums of eta consecutive bits of SHAKE256(seed || nonce) as in SamplePolyCBD, hence in [-eta, eta].", "quantifier": "for all 32-byte seeds and all nonces (all byte buffers for the sampler itself)", "why_tests_cant": "All buffers of 128/192 bytes; masks and shifts must be right for all bits simultaneously.", "anchors": ["ref/cbd.c: cbd2, cbd3, load24_littleendian, load32_littleendian", "ref/poly.c: poly_getnoise_eta1, poly_getnoise_eta2"]}
{"id": "C24", "title": "Matrix expansion equals SampleNTT on the SHAKE128 stream", "statement": "Each entry of the expanded matrix consists of the first 256 twelve-bit candidates < q of SHAKE128(seed || j || i), in order, independently of how the stream is cut into blocks; every coefficient is in [0, q); the transposed flag yields exactly the transpose; sampling stops as soon as enough candidates are found.", "quantifier": "for all seeds, all entries, all parameter sets, any number of extra squeezed blocks", "why_tests_cant": "The number of rejections is unbounded; the refill path is taken rarely in tests.", "anchors": ["ref/indcpa.c: rej_uniform, gen_matrix"]}
{"id": "C25", "title": "Rejection sampler never overruns", "statement": "rej_uniform writes at most len coefficients and reads at most buflen bytes, returns the number written, and that number is min(len, number of acceptable candidates in the buffer).", "quantifier": "for all buffers, all buffer lengths, all len", "why_tests_cant": "All buffers; the odd case where the second candidate of a triple arrives when the output is full is rare.", "anchors": ["ref/indcpa.c: rej_uniform"]}
{"id": "C26", "title": "verify is an equality test", "statement": "verify(a,b,len) returns 0 when the first len bytes agree and 1 otherwise, and reads all of them in either case.", "quantifier": "for all byte strings and lengths", "why_tests_cant": "All pairs of byte strings; accumulator bugs cancel only for particular pairs.", "anchors": ["ref/verify.c: verify"]}
{"id": "C27", "title": "Conditional moves select all-or-nothing", "statement": "cmov(r,x,len,b) leaves r unchanged for b = 0 and copies all len bytes for b = 1; cmov_int16 likewise; nothing outside the first len bytes changes; the index trace does not depend on b or the data.", "quantifier": "for all byte strings, all lengths, both selector values", "why_tests_cant": "All byte strings.", "anchors": ["ref/verify.c: cmov, cmov_int16"]}
{"id": "C28", "title": "randombytes fills the whole buffer or aborts", "statement": "For every schedule of kernel replies (short reads, EINTR interruptions, errors) the Linux randombytes either aborts on a non-EINTR error or returns after writing exactly outlen bytes, which are the bytes delivered by the kernel in order, and writes nowhere else.  The Windows branch, when it returns, has written exactly outlen bytes generated in order by ceil(outlen / 2^20) requests of at most 2^20 bytes, writes nowhere else, and aborts as soon as a system function fails.", "quantifier": "for all requested lengths and all finite/infinite schedules of system-call results that respect the kernel contract 0 <= ret <= requested", "why_tests_cant": "Tests cannot script the kernel's short reads and interruptions; schedules are unbounded.", "anchors": ["ref/randombytes.c: randombytes"]}
{"id": "C29", "title": "Randomized API is the derandomized API on fresh bytes", "statement": "crypto_kem_keypair and crypto_kem_enc produce exactly what crypto_kem_keypair_derand / crypto_kem_enc_derand produce on the 64 / 32 bytes delivered by randombytes, and use no other entropy.", "quantifier": "for all byte strings delivered by randombytes, all public keys", "why_tests_cant": "Quantifies over all random strings; the tests compare no relation between the two APIs.", "anchors": ["ref/kem.c: crypto_kem_keypair, crypto_kem_enc"]}
{"id": "C30", "title": "Non-canonical public keys are accepted", "statement": "Encapsulation does not validate its public key: there are byte strings that are not the encoding of any polynomial vector with coefficients below q (FIPS 203's modulus check rejects them) for which crypto_kem_enc_derand nevertheless returns 0; its matrix-vector result is then the one for the coefficients reduced mod q.", "quantifier": "exists a malformed public key; for all public keys the reduction statement", "why_tests_cant": "Tests never feed malformed public keys.", "anchors": ["ref/kem.c: crypto_kem_enc_derand", "ref/indcpa.c: unpack_pk", "ref/poly.c: poly_frombytes"]}
{"id": "C31", "title": "Noise seeds are never reused", "statement": "Within one key generation or one encryption every call of the noise sampler uses a different (seed, nonce) pair, so no two noise polynomials come from the same SHAKE256 input.", "quantifier": "for all parameter sets and inputs", "why_tests_cant": "A repeated nonce produces plausible-looking, interoperable-with-itself output that round-trip tests accept.", "anchors": ["ref/indcpa.c: indcpa_keypair_derand, indcpa_enc"]}
{"id": "C32", "title": "The ciphertext encoding loses nothing but the rounding", "statement": "Unpacking a packed ciphertext gives the decompression of the compression of each coefficient, and packing an unpacked ciphertext returns the same bytes, for every byte string: every byte of a ciphertext is significant to the re-encryption check.", "quantifier": "for all ciphertext byte strings and all polynomial (vectors) in range", "why_tests_cant": "All byte strings of 768/1088/1568 bytes.", "anchors": ["ref/indcpa.c: pack_ciphertext, unpack_ciphertext"]}
{"id": "C33", "title": "The encryption layer computes K-PKE and fails exactly outside the noise window", "statement": "indcpa_keypair_derand, indcpa_enc and indcpa_dec write exactly what FIPS 203 K-PKE.KeyGen, K-PKE.Encrypt and K-PKE.Decrypt define, and decrypting an honest ciphertext returns the encrypted message if and only if every coefficient of the accumulated noise lies in the decoding window of its message bit ([-832, 831] for a 1, [-832, 832] for a 0).", "quantifier": "every key seed, every message, every encryption randomness (not only the hash-derived ones), every parameter set", "why_tests_cant": "decryption failures have probability below 2^-138; no test run meets one, so tests can neither show that the noise condition is sufficient nor that it is necessary", "anchors": ["ref/indcpa.c:indcpa_keypair_derand", "ref/indcpa.c:indcpa_enc", "ref/indcpa.c:indcpa_dec"]}
{"id": "C34", "title": "The AVX2 number-theoretic transform computes the FIPS 203 transform", "statement": "The assembly routines ntt_avx and invntt_avx compute, modulo q, the FIPS 203 NTT and 2^16 times its inverse, with the transformed polynomial kept in the vector order of the AVX2 code; no 16-bit lane carries a wrong value because of wrap-around, every access stays inside its buffer and the alignment requirements of vmovdqa are met.  Applying one after the other gives back 2^16 times the input.  The execution trace is the same for all inputs.", "quantifier": "all polynomials with coefficients in [-3329,3329] (forward), all int16 polynomials except -32768 (inverse), all initial register contents", "why_tests_cant": "The input space has 6659^256 elements; 16-bit wrap-around in one butterfly shows only for particular combinations of coefficients.", "anchors": ["avx2/ntt.S: ntt_avx", "avx2/invntt.S: invntt_avx", "avx2/fq.inc", "avx2/consts.c: qdata"]}
{"id": "C35", "title": "The AVX2 base multiplication and reductions are correct", "statement": "basemul_avx computes the FIPS 203 MultiplyNTTs up to the Montgomery factor 2^-16, reduce_avx maps every coefficient to a representative in [0,q], tomont_avx multiplies by 2^16; transforming, reducing, multiplying and transforming back gives the product in Z_q[X]/(X^256+1).", "quantifier": "all polynomials within the stated coefficient bounds, all old contents of the result buffer and of the stack slot", "why_tests_cant": "Pairs of polynomials of 256 coefficients each; intermediate 16-bit overflow depends on rare combinations.", "anchors": ["avx2/basemul.S: basemul_avx", "avx2/fq.S: reduce_avx, tomont_avx"]}
{"id": "C36", "title": "The AVX2 byte packing agrees with ByteEncode and ByteDecode", "statement": "nttunpack_avx puts a polynomial into vector order; ntttobytes_avx writes exactly the 384 bytes of ByteEncode_12 of the coefficients in standard order (reduced modulo q) and nothing else; nttfrombytes_avx reads exactly 384 bytes and yields, in vector order, the twelve-bit fields that ByteDecode_12 reduces modulo q.", "quantifier": "all polynomials with coefficients in [0,2q-1], all byte strings, any position in a larger buffer", "why_tests_cant": "All polynomials and all 384-byte strings.", "anchors": ["avx2/shuffle.S: nttunpack_avx, ntttobytes_avx, nttfrombytes_avx", "avx2/shuffle.inc"]}
{"id": "C37", "title": "The vectorised AVX2 compression functions compute Compress and ByteEncode", "statement": "poly_compress, polyvec_compress and poly_tomsg of avx2/ write exactly the ByteEncode of the Compress of the coefficients (the same bytes as ref/), reading nothing outside their arguments and writing nothing else, except that polyvec_compress for Kyber1024 needs and zeroes two further bytes.  The trace is the same for all inputs.", "quantifier": "all polynomials with coefficients in [0,q] (the output range of poly_reduce, with both representatives of 0), every parameter set, any position in a larger buffer", "why_tests_cant": "256 coefficients of 3330 values each go through rounding by mulhi/mulhrs whose error shows for single values and lanes only", "anchors": ["avx2/poly.c:poly_compress", "avx2/poly.c:poly_tomsg", "avx2/polyvec.c:poly_compress10", "avx2/polyvec.c:poly_compress11", "avx2/polyvec.c:polyvec_compress"]}
{"id": "C38", "title": "The vectorised AVX2 decompression functions compute ByteDecode and Decompress", "statement": "poly_decompress, polyvec_decompress and poly_frommsg of avx2/ yield exactly the Decompress of the ByteDecode of their input bytes; polyvec_decompress additionally reads 12 (Kyber512, Kyber768) or 10 (Kyber1024) bytes after the vector, whose values do not matter.  The trace is the same for all inputs.", "quantifier": "all byte strings, every parameter set, any position in a larger buffer, all contents of the bytes after the vector", "why_tests_cant": "2^1024 or more byte strings; the influence of the bytes read beyond the end shows only for particular contents", "anchors": ["avx2/poly.c:poly_decompress", "avx2/poly.c:poly_frommsg", "avx2/polyvec.c:poly_decompress10", "avx2/polyvec.c:poly_decompress11", "avx2/polyvec.c:polyvec_decompress"]}
{"id": "C39", "title": "The vectorised AVX2 noise samplers compute SamplePolyCBD", "statement": "cbd2 and cbd3 of avx2/cbd.c, as selected by poly_cbd_eta1 and poly_cbd_eta2, turn their input bytes into the polynomial of FIPS 203 SamplePolyCBD with small signed coefficients; cbd3 reads eight bytes beyond the 192 it uses.  The trace is the same for all inputs.", "quantifier": "all byte strings, all contents of the bytes read beyond the end", "why_tests_cant": "2^1024 or 2^1536 byte strings per call; lanes interact through carries of byte-wise additions", "anchors": ["avx2/cbd.c:cbd2", "avx2/cbd.c:cbd3"]}
{"id": "C40", "title": "The vectorised AVX2 comparison and conditional move are exact and oblivious", "statement": "verify of avx2/verify.c returns 0 exactly when the two byte strings are equal and 1 otherwise; cmov copies exactly len bytes when b is 1 and changes nothing when b is 0.  For any length, the trace does not depend on the contents nor on b.", "quantifier": "all byte strings of any length, any positions in larger buffers", "why_tests_cant": "every length combines whole vectors with a scalar tail; a difference in one bit of one byte must be seen", "anchors": ["avx2/verify.c:verify", "avx2/verify.c:cmov"]}
{"id": "C41", "title": "The AVX2 polynomial sums, differences and inner products are exact", "statement": "poly_add and poly_sub of avx2/poly.c give the coefficientwise sum and difference, also when the result overlaps an argument; polyvec_basemul_acc_montgomery gives the inner product in the NTT domain up to the Montgomery factor 2^-16, without 16-bit overflow in the unreduced accumulation.", "quantifier": "all polynomials whose sums fit into 16 bits; all vectors with coefficients within 4095 and 16182", "why_tests_cant": "pairs of vectors of up to four polynomials; overflow of the unreduced sum needs extreme coefficients in all of them", "anchors": ["avx2/poly.c:poly_add", "avx2/poly.c:poly_sub", "avx2/polyvec.c:polyvec_basemul_acc_montgomery"]}
{"id": "C42", "title": "The four-way AVX2 Keccak permutation is Keccak-f[1600] on each instance", "statement": "KeccakF1600_StatePermute4x (keccak4x/KeccakP-1600-times4-SIMD256.c) applied to four interleaved states applies the permutation of FIPS 202 to each of them, independently of the others.  The trace is the same for all states.", "quantifier": "all quadruples of 1600-bit states", "why_tests_cant": "2^6400 inputs; the macros are unrolled over 24 rounds with renamed variables", "anchors": ["avx2/keccak4x/KeccakP-1600-times4-SIMD256.c:KeccakF1600_StatePermute4x"]}
{"id": "C43", "title": "The four-way AVX2 SHAKE functions compute SHAKE128/SHAKE256 of each input", "statement": "shake128x4 and shake256x4, and absorb_once followed by two block-wise squeezes, write to each output buffer the SHAKE output of the corresponding input and leave the bytes after it alone.  The result does not depend on the up to seven bytes after the input that the 8-byte loads read; these bytes must exist.  The trace depends only on the lengths.", "quantifier": "all inputs of all lengths, all output lengths and block counts, all contents of the bytes after the input", "why_tests_cant": "unbounded lengths; the masked last word must be right for every length modulo 8 and every stale content", "anchors": ["avx2/fips202x4.c:keccakx4_absorb_once", "avx2/fips202x4.c:keccakx4_squeezeblocks", "avx2/fips202x4.c:shake128x4", "avx2/fips202x4.c:shake256x4"]}
{"id": "C44", "title": "The vectorised rejection sampler accepts exactly the candidates the reference accepts", "statement": "rej_uniform_avx applied to a 504-byte buffer returns min(256, number of accepted 12-bit candidates of the buffer), its output array starts with these candidates in order, no access leaves the arrays whatever the counts are, and the trace depends on the buffer only.  Count and prefix equal those of the scalar rej_uniform.", "quantifier": "all 504-byte buffers, all initial contents of the output array", "why_tests_cant": "which of the three loops ends when depends on the acceptance pattern; the 16-byte stores run past the accepted candidates and a store past coefficient 256 or over an accepted one happens only for particular patterns", "anchors": ["avx2/rejsample.c:rej_uniform_avx", "avx2/indcpa.c:rej_uniform"]}
{"id": "C45", "title": "AVX2 matrix expansion and noise sampling produce the matrix and noise of FIPS 203", "statement": "gen_matrix of avx2/indcpa.c, if it finishes, returns the matrix (or its transpose) of SampleNTT outputs for the seed, each entry in the AVX2 coefficient order; it finishes exactly when the reference does, with the same number of refill passes, and has no other outcome than finishing or needing more passes. poly_getnoise_eta1_4x, _eta1122_4x and _eta2 return, for each nonce, the centred binomial sample with coefficients in [-eta, eta]; key generation and encryption place the samples with nonces 0..2k-1 (and 2k) into the vectors FIPS 203 puts them in. The noise samplers' trace depends on the nonces only.", "quantifier": "all seeds at any position of any buffer, both orientations, all initial contents, all parameter sets, all nonces", "why_tests_cant": "2^256 seeds; the refill path (fewer than 256 acceptances in three blocks) and the interplay of four instances of which some are complete are rare", "anchors": ["avx2/indcpa.c:gen_matrix", "avx2/poly.c:poly_getnoise_eta1_4x", "avx2/poly.c:poly_getnoise_eta1122_4x", "avx2/poly.c:poly_getnoise_eta2", "avx2/indcpa.c:indcpa_keypair_derand", "avx2/indcpa.c:indcpa_enc"]}
{"id": "C46", "title": "The AVX2 public-key encryption layer computes K-PKE", "statement": "indcpa_keypair_derand, indcpa_enc and indcpa_dec of avx2/ compute K-PKE.KeyGen, K-PKE.Encrypt and K-PKE.Decrypt of FIPS 203 (whenever SampleNTT terminates, for the first two); decryption of an honest ciphertext returns the message if and only if the noise is within the decoding window; encryption treats a public key with unreduced coefficients as the reduced one.", "quantifier": "all seeds, messages, keys, ciphertexts and coins of the right length, all stale buffer contents, all parameter sets", "why_tests_cant": "input space of kilobytes; vector loads past the ends of the parts of the ciphertext read bytes whose value must not matter", "anchors": ["avx2/indcpa.c:indcpa_keypair_derand", "avx2/indcpa.c:indcpa_enc", "avx2/indcpa.c:indcpa_dec"]}
{"id": "C47", "title": "The AVX2 key encapsulation computes ML-KEM of FIPS 203 without undefined behaviour", "statement": "crypto_kem_keypair_derand, crypto_kem_enc_derand and crypto_kem_dec of avx2/ finish exactly when SampleNTT terminates on the matrix seed, return 0 and the values of ML-KEM.KeyGen_internal, Encaps_internal and Decaps_internal; decapsulation of a ciphertext that is not re-encrypted to itself gives SHAKE256(z || ct); no run has undefined behaviour or aborts; crypto_kem_keypair and crypto_kem_enc do the same with the bytes delivered by the kernel and abort if the kernel fails.", "quantifier": "all inputs of the documented lengths, honest or not, all stale buffer contents and uninitialised locals, all kernel schedules, all parameter sets", "why_tests_cant": "input space of kilobytes; the behaviour on invalid keys and ciphertexts is not exercised by honest exchanges", "anchors": ["avx2/kem.c:crypto_kem_keypair_derand", "avx2/kem.c:crypto_kem_keypair", "avx2/kem.c:crypto_kem_enc_derand", "avx2/kem.c:crypto_kem_enc", "avx2/kem.c:crypto_kem_dec"]}
{"id": "C48", "title": "Reference and AVX2 implementations are interchangeable", "statement": "On equal inputs the reference and the AVX2 functions (K-PKE layer, derandomised and randomised KEM) both finish with the same output and return code, or both need more fuel, or (randomised ones) both abort; this holds whatever is in the output buffers and uninitialised locals of either. Keys, ciphertexts and secrets of one implementation work with the other: for every choice of implementation for the three steps the secrets agree when the noise is in the decoding window.", "quantifier": "all inputs of the documented lengths (valid or not), all fuels, all stale contents, all 8 mixtures, all parameter sets", "why_tests_cant": "the implementations share hardly any code below the API; equality on all inputs cannot be sampled, in particular on malformed keys and ciphertexts", "anchors": ["ref/kem.c", "avx2/kem.c", "ref/indcpa.c", "avx2/indcpa.c"]}
{"id": "C49", "title": "The AVX2 key encapsulation is constant time up to the public matrix seed", "statement": "The trace (branch outcomes, loop tests, array indices including those of vector and table accesses, division operands) of AVX2 key generation, encapsulation and decapsulation is the same for any two runs with the same public matrix seed: it does not depend on secrets, messages, the validity of the ciphertext, or the rest of the key.", "quantifier": "all pairs of inputs with the same matrix seed, all fuels and stale contents, all parameter sets", "why_tests_cant": "a statement about pairs of executions", "anchors": ["avx2/kem.c:crypto_kem_keypair_derand", "avx2/kem.c:crypto_kem_enc_derand", "avx2/kem.c:crypto_kem_dec", "avx2/indcpa.c:gen_matrix"]}
{"id": "C50", "title": "The AVX2 noise samplers never reuse a nonce", "statement": "Within one finished run of AVX2 key generation the sampler is used with the nonces 0..3 (ML-KEM-512) or 0..7, in encapsulation and decapsulation 0..4, 0..7 or 0..8, each exactly once and each a byte; some results are discarded, none is used twice.", "quantifier": "all inputs, all parameter sets, all fuels", "why_tests_cant": "reuse would be invisible in the output format", "anchors": ["avx2/indcpa.c:indcpa_keypair_derand", "avx2/indcpa.c:indcpa_enc", "avx2/poly.c:poly_getnoise_eta1_4x"]}
{"id": "C51", "title": "A shared secret binds the ciphertext, the message and the public key up to hash collisions", "statement": "If two finished decapsulations under the same secret key (of any contents) with different ciphertexts return the same secret, or a receiver holding a different ciphertext from the sender's obtains the sender's secret, or two secret keys whose stored hash matches their public key, or two encapsulations, yield the same secret for different inputs, then the inputs written out in the theorem are a collision of SHA3-256, of the first half of SHA3-512, of SHAKE256, or of the last two with each other. Two decapsulations may also agree when both reject the same ciphertext with the same rejection value.", "quantifier": "all keys, ciphertexts, messages, fuels, stale contents and parameter sets, each run in either variant", "why_tests_cant": "a statement about all pairs of inputs of several thousand bits", "anchors": ["ref/kem.c:crypto_kem_enc_derand", "ref/kem.c:crypto_kem_dec", "avx2/kem.c:crypto_kem_dec"]}
{"id": "C52", "title": "Keys are not validated: every secret key of the right length is used, and its public-key vector counts modulo q only", "statement": "Decapsulation returns 0 for every secret key of the right length whose matrix exists; in particular the FIPS 203 section 7.3 check that the stored hash is the hash of the stored public key is not made, and a key pair with a replaced hash decapsulates consistently with a sender using that hash. Replacing the stored public-key vector by its reduction modulo q changes no run of decapsulation. Encapsulation in either variant accepts a public key failing the section 7.2 modulus check.", "quantifier": "all secret keys, ciphertexts, fuels, stale contents, parameter sets, both variants", "why_tests_cant": "tests use honestly generated keys", "anchors": ["ref/kem.c:crypto_kem_dec", "avx2/kem.c:crypto_kem_dec", "avx2/kem.c:crypto_kem_enc_derand"]}
{"id": "C53", "title": "Rejection sampling with pdep/pext accepts the same candidates as with the shuffle table", "statement": "With BMI defined, rej_uniform_avx applied to a 504-byte buffer returns min(256, number of accepted 12-bit candidates), its output array starts with these candidates in order, no access leaves the arrays, and the trace depends on the buffer only.  Count and prefix equal those of the table variant.", "quantifier": "all 504-byte buffers, all initial contents of the output array", "why_tests_cant": "the branch is not compiled by default, so no test in the repository runs it; the shuffle control depends on the acceptance pattern of each group of eight candidates", "anchors": ["avx2/rejsample.c:rej_uniform_avx"]}
{"id": "C54", "title": "The generator of the KAT program is CTR_DRBG, within the range of its int variables", "statement": "For every block cipher with 16-byte blocks: randombytes_init puts the state CTR_DRBG_Instantiate(entropy, personalization) of SP 800-90A 10.2.1 (no derivation function) into DRBG_ctx; randombytes with n < 2^31 writes exactly the n bytes of CTR_DRBG_Generate at the destination, leaves the rest of the buffer unchanged, stores the new state and returns 0; so does every sequence of up to 2^31 - 2 calls after initialisation. With n >= 2^31, or when reseed_counter has reached 2^31 - 1, the call has undefined behaviour (signed overflow).", "quantifier": "all ciphers, entropy inputs, personalization strings or NULL, states, buffers, offsets, lengths, sequences of calls", "why_tests_cant": "the KAT program makes only short requests in a fixed order; carries through all 16 bytes of V and the overflow of the int counters are not reached", "anchors": ["ref/nistkat/rng.c:randombytes_init", "ref/nistkat/rng.c:randombytes", "ref/nistkat/rng.c:AES256_CTR_DRBG_Update"]}
{"id": "C55", "title": "The seed expander delivers one fixed byte stream, strictly fewer than maxlen bytes of it", "statement": "After seedexpander_init with maxlen < 2^32 (larger values are refused with -1 and no effect), any sequence of seedexpander calls returns consecutive pieces of one stream, byte j being byte j mod 16 of the encryption of diversifier || maxlen || j / 16, independently of how the requests are cut; a request that would bring the total to maxlen or more returns -3, a null buffer -2, both without effect. Hence maxlen bytes can never be obtained, although the comment calls maxlen the maximum number of bytes generated.", "quantifier": "all ciphers, seeds, diversifiers, maxlen, sequences of requests with arbitrary buffers and offsets", "why_tests_cant": "nothing in the repository calls the seed expander", "anchors": ["ref/nistkat/rng.c:seedexpander_init", "ref/nistkat/rng.c:seedexpander"]}
{"id": "C56", "title": "test_kyber computes exactly the three documented checks, and its failures have a named cause", "statement": "On any source of random bytes that delivers consecutive bytes of a stream, with either variant and any stack contents, test_kyber.c has no undefined behaviour and returns 0 exactly when in every round (1) the exchange on 96 stream bytes agrees, (2) decapsulation under a key made of the next stream bytes gives another secret, (3) decapsulation of the ciphertext with the first nonzero byte exclusive-ored at the drawn position gives another secret. Failure of (1) implies that the decryption noise does not decode; failure of (2) or (3) implies equality of hash values at inputs the theorem names. randombytes.c on any kernel is such a source.", "quantifier": "all sources, streams, stack contents, parameter sets, both variants, numbers of rounds", "why_tests_cant": "this is the test: that its verdict means what its names say, for every sequence of random bytes, is a statement about all runs of it", "anchors": ["ref/test/test_kyber.c:9-116", "ref/randombytes.c:44-72", "ref/kem.c:50-57"]}
{"id": "C57", "title": "test_vectors prints the FIPS 203 values on the SHAKE128 stream of the empty message, in both variants", "statement": "With its own randombytes, test_vectors.c has no undefined behaviour; what it prints and its exit status are those of the relation that, round by round, prints key pair, ciphertext, both shared secrets and the secret of a random ciphertext in hexadecimal, all given by FIPS 203 on consecutive bytes of SHAKE128 of the empty message; every such output is produced. The reference and the AVX2 program print the same characters.", "quantifier": "all parameter sets, both variants, all numbers of rounds, stack contents; arrays reused across rounds", "why_tests_cant": "comparing two runs shows equality for one seed and one compiler; here the output is tied to the standard for all stack contents and any number of rounds", "anchors": ["ref/test/test_vectors.c:14-78", "ref/fips202.c:426-446"]}
{"id": "C58", "title": "The text reader and printer of the KAT program: first occurrence, exact numbers, round trip", "statement": "For every file contents, FindMarker (PQCgenKAT_kem.c) stops just after the first occurrence of the first 49 characters of the marker and returns 1, or returns 0 at the end of the file if there is none. ReadHex stores in its n bytes the hexadecimal number that follows the label, modulo 256^n, big endian, leaves later bytes alone and leaves the text after the character that ended the number; a line without digits is silently read as 0; length 0 clears one byte; an array that is too short is undefined behaviour. fprintBstr writes the label and the bytes in upper case ('00' for no bytes), and ReadHex reads back what fprintBstr wrote, wherever it stands after other text.", "quantifier": "all files, markers, labels, lengths, arrays, stack contents", "why_tests_cant": "the search is a sliding window whose correctness is about all texts, including markers that overlap themselves; a KAT run exercises two labels in one layout", "anchors": ["ref/nistkat/PQCgenKAT_kem.c:133-231"]}
{"id": "C59", "title": "The response file of the KAT program holds the FIPS 203 values for the CTR_DRBG seeds", "statement": "For every block cipher, PQCgenKAT_kem.c has no undefined behaviour. If its three fopen calls succeed, the request file PQCkemKAT_<bytes of the secret key>.req holds the consecutive 48-byte CTR_DRBG outputs for the entropy input 0, ..., 47, and the response file holds the algorithm name and, per request, number, seed, key pair, ciphertext and shared secret given by FIPS 203 for d, z (64 bytes in one call) and m (32 bytes) drawn from CTR_DRBG instantiated with the seed; the exit status is 0, or -4 after the first entry whose decapsulation differs from the shared secret. If an fopen fails the status is -1, with exactly the files written so far. No other file changes. Every such response is produced.", "quantifier": "all block ciphers, parameter sets, up to the 100 rounds of the program, initial files, generator states, stack contents, outcomes of fopen", "why_tests_cant": "the published KAT files fix one cipher, one machine and one compiler; that the program's own write-read-back step and array reuse never distort a value is about all seeds", "anchors": ["ref/nistkat/PQCgenKAT_kem.c:25-123", "ref/nistkat/rng.c:140-186", "ref/kem.c:50-57"]}
{"id": "C60", "title": "The KEM functions touch exactly the documented bytes of their buffers, and need all of them", "statement": "If the buffers passed to crypto_kem_keypair_derand, crypto_kem_enc_derand or crypto_kem_dec are longer than documented, the run (outcome, result, leakage) is the one on the documented lengths and every byte beyond them keeps its value. If any buffer is shorter, the run never returns normally, whatever the other buffers hold, and it is undefined behaviour (an access outside an array) whenever the run on longer buffers would return.", "quantifier": "all parameter sets, buffer lengths, buffer contents, stack contents", "why_tests_cant": "an overrun by one byte is usually invisible in a test run; absence of access beyond the documented length, and necessity of each byte, are about all lengths and contents", "anchors": ["ref/kem.c:25-40", "ref/kem.c:76-96", "ref/kem.c:140-170", "ref/api.h:8-60"]}
{"id": "C61", "title": "Encapsulation and decapsulation tolerate overlapping buffers", "statement": "If all buffers of crypto_kem_enc_derand or crypto_kem_dec lie in one memory at offsets that overlap in any way, the run has the same outcome as on separate copies of the buffers, and afterwards the memory is the old one with the ciphertext written (for encapsulation) and then the shared secret written at their places: all inputs are read before they can be overwritten.", "quantifier": "all memories, offsets, parameter sets, stack contents", "why_tests_cant": "there are as many overlaps as pairs of offsets; tests use separate arrays only", "anchors": ["ref/kem.c:76-96", "ref/kem.c:140-170", "ref/indcpa.c:272-299", "ref/symmetric-shake.c:60-74"]}
{"id": "C62", "title": "What the benchmark printer prints", "statement": "print_results of speed_print.c prints nothing for fewer than two readings. Otherwise, with any sorting algorithm meeting qsort's contract, it prints exactly the label, the median and the mean of the gaps between consecutive readings less the overhead, taken modulo 2^64, in decimal, and the overhead is the least gap of the calibration loop, measured at the first use. If every gap is at least the overhead and the run is shorter than 2^63 ticks, these are the true mean and median rounded down. Without that condition this is false: on a clock that never goes back the printed median can exceed the elapsed time.", "quantifier": "all reading sequences, clocks, overheads, labels, sorting algorithms", "why_tests_cant": "the output depends on a clock no test controls; wrap-around appears only on particular sequences of readings", "anchors": ["ref/test/speed_print.c:8-51", "ref/test/cpucycles.c:4-17"]}
{"id": "C63", "title": "The benchmark program is free of undefined behaviour and its output depends on the clock only", "statement": "The program test_speed.c, which calls gen_matrix, the noise samplers, the transforms, the compression and KEM functions on uninitialised or left-over data, has no undefined behaviour with either variant of the library, exits with 0 and prints the twenty reports of its loops in order; two finished runs on the same clock print the same whatever the random bytes, stack contents, parameter sets, variants and sorting algorithms.", "quantifier": "all clocks, sources of random bytes, stack contents, numbers of tests >= 2, parameter sets, both variants", "why_tests_cant": "the functions are called on data outside the ranges their other callers guarantee (an uninitialised polynomial); absence of overflow there is a statement about all 16-bit inputs", "anchors": ["ref/test/test_speed.c:14-155", "ref/test/speed_print.c:31-51"]}
{"id": "C64", "title": "The noise samplers draw from the centred binomial distribution", "statement": "Among all strings of 64*eta uniformly chosen bytes, the number of those from which poly_cbd_eta1 (poly_cbd_eta2) makes a given polynomial is exactly the product over its coefficients x of the binomial coefficient C(2*eta, eta + x): the 256 coefficients are independent and each has the centred binomial distribution of parameter eta. The same holds for the vectorised samplers, whatever lies behind the string.", "quantifier": "all polynomials, parameter sets, prior contents of the output, bytes behind the input; both variants", "why_tests_cant": "a distribution over 256^192 inputs; sampling cannot tell small biases or correlations between coefficients", "anchors": ["ref/cbd.c:58-128", "avx2/cbd.c:16-144"]}
{"id": "C65", "title": "Rejection sampling is unbiased", "statement": "For every n and m, each list of n coefficients in [0, q) is produced by rej_uniform from the same number of strings of 3*m bytes (a positive number if n <= 2*m): given that the buffer sufficed, the result is exactly uniform. On the 504 bytes gen_matrix first squeezes, the reference and the vectorised sampler make each polynomial from the same positive number of strings.", "quantifier": "all lengths of output and buffer, all outputs, prior contents, bytes behind the input; both variants", "why_tests_cant": "uniformity over 3329^256 outputs; an off-by-one bound gives a bias of 1 in 3329 in one value", "anchors": ["ref/indcpa.c:121-148", "avx2/indcpa.c:134-161", "avx2/rejsample.c:274-398"]}
{"id": "C66", "title": "What overlapping buffers do to key generation", "statement": "Let pk, sk and the coins of crypto_kem_keypair_derand lie in one memory at arbitrary offsets. If pk and sk do not overlap and the second half of the coins overlaps neither, the run has the outcome it has on separate buffers and afterwards the memory is the old one with pk and sk written; the first half of the coins may lie anywhere. If the second half of the coins lies in pk, the run succeeds but the secret z stored in sk is the piece of the public key found there. If pk overlaps its copy inside sk, or the second half of the coins overlaps the place of z, the run is undefined behaviour (memcpy between overlapping ranges).", "quantifier": "all memories, offsets, parameter sets, stack contents", "why_tests_cant": "tests use separate arrays; a coins buffer inside pk gives a key pair that works but whose implicit-rejection secret is public", "anchors": ["ref/kem.c:25-35", "ref/indcpa.c:205-241"]}
{"id": "C67", "title": "How often decryption fails", "statement": "Fix a matrix A and a message m. Of all choices of the byte strings from which s, e, y, e1 and e2 are sampled, at most one in 2^80 (Kyber512), 2^90 (Kyber768), 2^111 (Kyber1024) makes K-PKE decryption return something other than m, and at least one does. indcpa_dec, reference or AVX2, applied to the ciphertext that indcpa_enc makes of m under the key of indcpa_keypair_derand, returns something other than m exactly if the strings those runs expand with the PRF are among these; if the strings of a key encapsulation are not, crypto_kem_dec returns the secret of crypto_kem_enc_derand, whichever of the two implementations does each step.", "quantifier": "all matrices, messages, seeds, coins, parameter sets, stack contents", "why_tests_cant": "no test run is long enough to meet a failure; the bound counts over 2^12288 or more noise strings", "anchors": ["ref/indcpa.c:205-241", "ref/indcpa.c:260-331", "ref/cbd.c:58-128", "ref/poly.c:19-113", "ref/polyvec.c:15-128", "ref/params.h:29-43"]}
{"id": "C68", "title": "How long rejection sampling takes", "statement": "Of the strings of 3m bytes, exactly binomial(2m,a) 3329^a 767^(2m-a) contain a acceptable candidates. So the three SHAKE128 blocks gen_matrix squeezes at first are too few for between 0.832 and 0.833 percent of all strings, four for at most one in 2^105, n for at most one in 2^(200n-765). Key generation, encapsulation and decapsulation (reference and AVX2) finish with at most p refills per matrix entry exactly if none of the k*k streams SHAKE128(rho || j || i) has fewer than 256 acceptable candidates in its first 3+p blocks.", "quantifier": "all strings, seeds, keys, ciphertexts, parameter sets, numbers of blocks, stack contents", "why_tests_cant": "a test sees a few seeds; the chance that a loop without a bound runs long is a count over all strings", "anchors": ["ref/indcpa.c:121-142", "ref/indcpa.c:165-190", "avx2/indcpa.c:134-408", "avx2/rejsample.c:1-398"]}
{"id": "C69", "title": "Sizes of the buffers of the AVX2 KEM functions", "statement": "The AVX2 versions of crypto_kem_keypair_derand, crypto_kem_enc_derand and crypto_kem_dec touch exactly the declared sizes of their buffers, although they load and store 16 and 32 bytes at a time. Bytes behind the declared size are neither read nor changed: result, leakage and outcome are those without them. With any buffer shorter than declared the function never succeeds, and where it would succeed with longer buffers it is an out-of-bounds access.", "quantifier": "all buffers of any length and content, parameter sets, stack contents, fuel", "why_tests_cant": "the vector code reads 12 and writes 2 bytes past a compressed polynomial into its neighbour; whether that ever leaves the caller's buffer depends on every loop, and a test with ordinary buffers does not notice", "anchors": ["avx2/kem.c:25-35", "avx2/kem.c:76-96", "avx2/kem.c:140-170", "avx2/polyvec.c:11-150", "avx2/poly.c:26-150", "avx2/verify.c:18-82"]}
{"id": "C70", "title": "Overlapping buffers with the AVX2 code", "statement": "If all buffers lie in one memory at any offsets, overlapping or not, the AVX2 versions of crypto_kem_keypair_derand, crypto_kem_enc_derand and crypto_kem_dec leave the same memory as the reference versions, and are undefined or endless where those are. In particular for encapsulation and decapsulation overlaps are harmless: the ciphertext and the secret computed from the inputs as they were end up where they should.", "quantifier": "all memories, offsets, parameter sets, stack contents, fuel", "why_tests_cant": "placements of three or four buffers in a memory are a large space and the functions are normally called with separate buffers", "anchors": ["avx2/kem.c:25-35", "avx2/kem.c:76-96", "avx2/kem.c:140-170", "avx2/indcpa.c:424-465", "avx2/indcpa.c:483-526", "avx2/verify.c:55-83"]}
{"id": "C71", "title": "Hashing with counters of the declared widths", "statement": "With unsigned int as numbers modulo 2^32, size_t as numbers modulo 2^64 and the loops of fips202.c as written, sha3_256, sha3_512, shake128 and shake256 return and give the FIPS 202 output for every input and output length a size_t can hold. keccak_absorb and keccak_squeeze behave as with unbounded counters as long as pos + inlen, respectively pos + outlen, is below 2^64; beyond, keccak_absorb ignores its whole input and keccak_squeeze never returns.", "quantifier": "all messages, output lengths, states, positions, rates below 2^32, fuel large enough", "why_tests_cant": "lengths near 2^32 and 2^64 cannot be allocated in a test, and the comparisons that wrap are right for all smaller ones", "anchors": ["ref/fips202.c:373-393", "ref/fips202.c:426-446", "ref/fips202.c:461-485", "ref/fips202.c:500-514", "ref/fips202.c:700-774"]}
{"id": "C72", "title": "Rejection sampling, comparison and conditional move with counters of the declared widths", "statement": "With counters of the declared widths rej_uniform takes exactly the acceptable candidates in order for every buffer of fewer than 2^32 - 1 bytes; for 2^32 - 1 bytes pos + 3 wraps around, and it reads behind the end of every buffer that has fewer acceptable candidates than asked for. verify and cmov are correct for every length a size_t can hold.", "quantifier": "all buffers, lengths below 2^32 (2^64), output positions, fuel large enough", "why_tests_cant": "the wrap-around needs a 4 GB buffer; callers use 504 and 168 bytes", "anchors": ["ref/indcpa.c:121-142", "ref/verify.c:16-25", "ref/verify.c:40-57"]}
{"id": "C73", "title": "Ciphertexts hide the message if Module-LWE is hard", "statement": "Let an adversary see a public key, choose two messages and get the encryption of one of them. The difference of its probabilities of saying yes is at most the sum, over the two messages, of four advantages of explicitly given algorithms built from it: in telling the expanded noise strings of key generation and of encryption from random ones, in telling A s + e from a random vector, and in telling (A' y + e1, t' y + e2) from random ones for random t. The keys and ciphertexts of this game are those indcpa_keypair_derand and indcpa_enc (reference and AVX2) compute from the seeds sigma and r.", "quantifier": "all adversaries, parameter sets, matrices, rho; all code inputs", "why_tests_cant": "a statement about every adversary and about averages over spaces of 2^256 seeds and more", "anchors": ["ref/indcpa.c:205-241", "ref/indcpa.c:260-299", "avx2/indcpa.c:424-465", "avx2/indcpa.c:483-526"]}
{"id": "C74", "title": "AVX2 hashing, comparison and conditional move with counters of the declared widths", "statement": "With size_t and uint64_t as numbers modulo 2^64, unsigned int modulo 2^32 and the loops of avx2/fips202x4.c and avx2/verify.c as written, shake128x4 and shake256x4 give the FIPS 202 output of all four inputs for every length a size_t can hold (with the read slack of C43), keccakx4_absorb_once and keccakx4_squeezeblocks behave as with unbounded counters, and verify and cmov are correct, for every such length.", "quantifier": "all messages, lengths below 2^64, buffers, fuel large enough", "why_tests_cant": "lengths near 2^32 and 2^64 cannot be allocated in a test; the unsigned int index of the final copy loop is compared with a size_t", "anchors": ["avx2/fips202x4.c:12-58", "avx2/fips202x4.c:60-88", "avx2/fips202x4.c:130-200", "avx2/verify.c:18-44", "avx2/verify.c:59-83"]}
{"id": "C75", "title": "Which ciphertexts decapsulation accepts", "statement": "For every secret key, crypto_kem_dec (reference and AVX2) returns the key derived from the decrypted message exactly on the ciphertexts that are the encryption of what they decrypt to, and the rejection key on all others; those ciphertexts are in bijection with the messages that survive encryption and decryption, so there are at most 2^256 of them and no message has two; for a generated key pair these messages are exactly the ones whose decryption noise stays inside the decoding window.", "quantifier": "all secret keys, ciphertexts, messages, seeds, parameter sets, both versions", "why_tests_cant": "the claim is about every one of the 256^768 and more ciphertexts of a key; tests decapsulate a handful of them", "anchors": ["ref/kem.c:140-169", "avx2/kem.c:140-169", "ref/indcpa.c:260-332"]}
{"id": "C76", "title": "Generated keys and ciphertexts pass the input checks of FIPS 203", "statement": "Every public key produced by crypto_kem_keypair_derand (reference and AVX2) passes the type and modulus check of FIPS 203 section 7.2, every secret key the type and hash check of section 7.3 (and its secret vector is reduced as well), and every ciphertext produced by encapsulation, under whatever key, the ciphertext type check. The modulus check accepts exactly the encodings of vectors over Z_q followed by any seed, q^(256k) 2^256 byte strings, and at most one of the keys the code treats alike.", "quantifier": "all seeds, keys, messages, buffers, parameter sets, both versions", "why_tests_cant": "that no generated coefficient is ever left in [q, 4095] is a statement about all seeds; a test sees a handful of them", "anchors": ["ref/kem.c:25-37", "ref/indcpa.c:205-250", "ref/poly.c:124-139", "avx2/kem.c:25-37", "ref/kem.c:76-111"]}
{"id": "C77", "title": "Sums and differences of polynomials for every overlap of their arguments", "statement": "poly_add and poly_sub of the reference and of the AVX2 version give the coefficientwise sum and difference reduced to a 16-bit two's complement number, whichever of the two arguments is the result itself (also both), with the same value in both versions, exactly wherever the true value fits into 16 bits, and with accesses that do not depend on the data.", "quantifier": "all 16-bit polynomials, either argument the result or another polynomial, both functions, both versions", "why_tests_cant": "2^8192 pairs of polynomials; the in-place calls of the scheme use only some of the overlaps", "anchors": ["ref/poly.c:poly_add", "ref/poly.c:poly_sub", "avx2/poly.c:poly_add", "avx2/poly.c:poly_sub"]}
{"id": "C78", "title": "What mixing byte-wise and block-wise squeezing delivers", "statement": "After any absorbing calls (incremental or absorb_once), any sequence of shake*_squeeze and shake*_squeezeblocks calls in any order delivers known parts of one SHAKE output stream: a byte-wise call goes on where the byte count stands, a block-wise call starts at the next block boundary but adds only its own length to that count. The parts are consecutive if every block-wise call starts at a block boundary, in particular if only whole blocks or only byte-wise calls are made. In general they are not: squeezing one byte, then one block, then 167 bytes delivers the last 167 bytes of the block again.", "quantifier": "all messages, all splittings, all finite sequences of calls with all lengths, both rates", "why_tests_cant": "sequences of calls are unbounded, and the scheme itself only ever uses the harmless ones", "anchors": ["ref/fips202.c:426-446", "ref/fips202.c:500-514", "ref/fips202.c:566-569", "ref/fips202.c:598-601", "ref/fips202.c:653-656", "ref/fips202.c:685-688"]}
{"id": "C79", "title": "Linker names: no clashes, nothing unresolved, api.h names what kem.c defines", "statement": "The namespace macros keep the names of the two source trees, of the three parameter sets and of the Keccak code apart, whatever stands behind the prefix. In every executable and shared library of the two Makefiles no name is defined twice; every name an executable refers to is defined in it or is a listed function of the C library or libcrypto; any two shared libraries of either tree have no name in common, so all of them can be loaded together; a KEM library needs from outside only the Keccak libraries of its tree, the C library and randombytes; every name a library defines starts with pqcrystals_kyber. The names api.h publishes are the ones kem.c defines. Every function the reference headers declare is defined; of the AVX2 headers this holds but for nttpack_avx and cmov_int16, which are declared only (and never referred to).", "quantifier": "all names behind the prefixes, all files, both trees, all parameter sets, all targets of the Makefiles", "why_tests_cant": "the tests link one parameter set of one tree at a time; a clash shows only when libraries are loaded together", "anchors": ["ref/params.h:10-18", "avx2/params.h:10-31", "ref/fips202.h:12-51", "avx2/fips202.h:12-51", "avx2/fips202x4.h:8-58", "avx2/poly.h:32", "avx2/ntt.h:12", "ref/kem.h:20-32", "ref/api.h:20-64", "ref/Makefile:7-91", "avx2/Makefile:9-98"]}
{"id": "C80", "title": "Four-way Keccak state: bytes of one instance", "statement": "InitializeAll, AddByte, AddBytes, OverwriteBytes, OverwriteWithZeroes, ExtractBytes and ExtractAndAddBytes of the four-way Keccak state change exactly the stated bytes of the stated instance and nothing of the other three: byte i of instance j lives at position 32*(i/8) + 8*j + i mod 8 of the 800-byte state. They run without undefined behaviour for every instance, offset and length within 200 bytes, provided the whole lanes of the range lie at addresses of the buffer divisible by 8, and which addresses and branches they take depends on instance, offset and length only. ExtractAndAddBytes may work in place or move downwards. A buffer that is itself aligned is not enough: with an offset that is no multiple of 8 the code reads misaligned words.", "quantifier": "all four states, all instances, offsets, lengths, buffers and addresses", "why_tests_cant": "no test of the repository calls these functions; x86 hides the misaligned accesses", "anchors": ["avx2/keccak4x/KeccakP-1600-times4-SIMD256.c:37-122", "avx2/keccak4x/KeccakP-1600-times4-SIMD256.c:168-198", "avx2/keccak4x/KeccakP-1600-times4-SIMD256.c:244-290", "avx2/keccak4x/KeccakP-1600-times4-SIMD256.c:341-379", "avx2/keccak4x/KeccakP-1600-times4-SnP.h:36-37"]}
{"id": "C81", "title": "Four-way Keccak state: lanes of all instances", "statement": "AddLanesAll, OverwriteLanesAll, ExtractLanesAll and ExtractAndAddLanesAll move laneCount lanes between the four instances and four pieces of a buffer that are laneOffset lanes apart: piece j belongs to instance j, in order, and nothing else changes, whether the lanes pass four at a time through the 4x4 transposition or one at a time. No undefined behaviour, and a trace that depends on the counts only, for every laneCount up to 25 and every laneOffset with 24*laneOffset below 2^32 (for the extracting functions laneCount <= laneOffset). With laneOffset = 2^29 the distances wrap to 0 and every instance gets the first piece.", "quantifier": "all four states, all lane counts, offsets, buffers and addresses", "why_tests_cant": "no test calls these functions; 25 lane counts times the strides times all states", "anchors": ["avx2/keccak4x/KeccakP-1600-times4-SIMD256.c:123-166", "avx2/keccak4x/KeccakP-1600-times4-SIMD256.c:199-242", "avx2/keccak4x/KeccakP-1600-times4-SIMD256.c:291-339", "avx2/keccak4x/KeccakP-1600-times4-SIMD256.c:380-442"]}
{"id": "C82", "title": "Four-way Keccak state: permutations and absorbing loops", "statement": "PermuteAll_24rounds and PermuteAll_12rounds apply KECCAK-p[1600,24] and KECCAK-p[1600,12] (rounds 12 to 23) of FIPS 202 to each of the four instances. The absorbing loops FastLoop_Absorb (24 and 12 rounds) take as many blocks as the data allows, add block i of instance j from lane i*laneOffsetSerial + j*laneOffsetParallel and permute after each, and return the number of bytes consumed, for every lane count (21 has its own unrolled code), every pair of strides with 0 < serial <= 3*parallel + count and every length. The conditions are needed: serial = 0 never ends; serial beyond the span of a block makes the unsigned length wrap and the loop run out of the data; for 21 lanes and an exactly sized buffer with the blocks side by side, the code forms pointers beyond the end.", "quantifier": "all four states, lane counts, strides, lengths and buffers", "why_tests_cant": "the library calls only the 24-round permutation; the loops and the 12-round code are never run by a test", "anchors": ["avx2/keccak4x/KeccakP-1600-times4-SIMD256.c:444-1030", "avx2/keccak4x/KeccakP-1600-unrolling.macros:15-57"]}
{"id": "C83", "title": "The exact input ranges of the compression functions", "statement": "For every compression function of both implementations the largest interval of coefficients around 0 on which it writes ByteEncode(Compress(.)) of FIPS 203: with all coefficients in it the bytes are right, and as soon as one coefficient is the next value below or above, they are wrong or the behaviour is undefined. ref/: poly_compress [-3329, 13211] for d = 4 and [-3329, 6709] for d = 5 (any smaller coefficient shifts a negative int left, which is undefined), polyvec_compress [-3329, 5407] for d = 10 and [-3329, 3953] for d = 11, poly_tomsg [-2496, 32767]. avx2/: [-6761, 6761], [-3380, 3380], [-420, 3749], [-471, 3953] and [-832, 4161]. So polyvec_compress and poly_tomsg of avx2/ give other bytes than ref/ on negative representatives that ref/ accepts: the functions are not interchangeable without the reduction before them.", "quantifier": "all polynomials and vectors with coefficients up to one beyond the interval, every parameter set, any position in a larger buffer", "why_tests_cant": "the tests only ever compress reduced coefficients; the edges of the ranges and every mixture of coefficients would have to be tried", "anchors": ["ref/poly.c:19-69", "ref/poly.c:192-210", "ref/polyvec.c:15-75", "avx2/poly.c:26-148", "avx2/poly.c:250-268", "avx2/polyvec.c:11-170"]}
{"id": "C84", "title": "The exact input ranges of the serialisation functions", "statement": "The largest intervals of coefficients around 0 on which poly_tobytes writes ByteEncode_12 of the coefficients modulo q: [-3329, 3328] in ref/ and [0, 6657] in the assembly of avx2/. With all coefficients inside, the 384 bytes are right; as soon as one coefficient is the next value below or above, they are wrong, whatever the other coefficients of that wider interval are. Neither interval contains the other: -1 is serialised wrongly by avx2/ and q by ref/, so the two functions are only interchangeable on [0, q-1].", "quantifier": "all polynomials with coefficients up to one beyond the interval, any position in a larger buffer, any contents of the registers", "why_tests_cant": "the tests only serialise coefficients the reductions have produced; every mixture of coefficients at the edges would have to be tried", "anchors": ["ref/poly.c:115-140", "avx2/shuffle.S:101-182", "avx2/poly.c:152-169"]}
