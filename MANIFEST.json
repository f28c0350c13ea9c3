{
 "claims": [
  {
   "property": "C01",
   "status": "proved",
   "theorems": [
    "C01_agreement",
    "C01_agreement_total"
   ],
   "note": "The window is the exact one per message bit (C33 shows it is necessary and sufficient at the PKE layer)."
  },
  {
   "property": "C02",
   "status": "proved",
   "theorems": [
    "C02_keypair_sound",
    "C02_keypair_complete",
    "C02_keypair_diverges"
   ],
   "note": "KeyGen_internal is a relation because SampleNTT need not terminate; soundness, completeness and divergence are all covered."
  },
  {
   "property": "C03",
   "status": "proved",
   "theorems": [
    "C03_enc_sound",
    "C03_enc_complete",
    "C03_enc_diverges"
   ],
   "note": "pk and m are arbitrary byte strings of the right length."
  },
  {
   "property": "C04",
   "status": "proved",
   "theorems": [
    "C04_dec_sound",
    "C04_dec_complete",
    "C04_dec_diverges"
   ],
   "note": "sk and ct are arbitrary byte strings of the right length."
  },
  {
   "property": "C05",
   "status": "proved",
   "theorems": [
    "C05_implicit_rejection"
   ],
   "note": ""
  },
  {
   "property": "C06",
   "status": "proved",
   "theorems": [
    "C06_published_sizes",
    "C06_secret_key_layout",
    "C06_enc_sizes",
    "C06_dec_sizes",
    "C06_keypair_overwrites",
    "C06_enc_overwrites",
    "C06_dec_overwrites"
   ],
   "note": "\"Every byte written\" is stated as: outputs do not depend on the old contents of the buffers nor on uninitialised locals."
  },
  {
   "property": "C07",
   "status": "proved",
   "theorems": [
    "C07_keypair_safe",
    "C07_enc_safe",
    "C07_dec_safe"
   ],
   "note": "Buffers have exactly the api.h lengths and do not overlap. UB covers out-of-bounds accesses, signed overflow and bad shifts."
  },
  {
   "property": "C08",
   "status": "proved",
   "theorems": [
    "C08_dec_timing",
    "C08_dec_trace"
   ],
   "note": "Source-level leakage model: branch outcomes, loop tests, element indices, division operands."
  },
  {
   "property": "C09",
   "status": "proved",
   "theorems": [
    "C09_keypair_timing",
    "C09_keypair_trace",
    "C09_published_seed",
    "C09_enc_timing",
    "C09_enc_trace"
   ],
   "note": "Source-level leakage model as in C08."
  },
  {
   "property": "C10",
   "status": "proved",
   "theorems": [
    "C10_sha3_256",
    "C10_sha3_512",
    "C10_shake128",
    "C10_shake256"
   ],
   "note": ""
  },
  {
   "property": "C11",
   "status": "proved",
   "theorems": [
    "C11_keccak_permutation"
   ],
   "note": ""
  },
  {
   "property": "C12",
   "status": "proved",
   "theorems": [
    "C12_shake128_session",
    "C12_shake256_session",
    "C12_chunking_irrelevant_128",
    "C12_chunking_irrelevant_256"
   ],
   "note": ""
  },
  {
   "property": "C13",
   "status": "proved",
   "theorems": [
    "C13_shake128_blocks",
    "C13_shake256_blocks",
    "C13_prefix"
   ],
   "note": ""
  },
  {
   "property": "C14",
   "status": "proved",
   "theorems": [
    "C14_ntt",
    "C14_layers_bounded",
    "C14_loops_as_written"
   ],
   "note": "Input bound 9471 = 2^15 - 1 - 7*(q-1), the largest the seven layers admit by this argument."
  },
  {
   "property": "C15",
   "status": "proved",
   "theorems": [
    "C15_invntt",
    "C15_roundtrip",
    "C15_loops_as_written"
   ],
   "note": ""
  },
  {
   "property": "C16",
   "status": "proved",
   "theorems": [
    "C16_multiplication"
   ],
   "note": ""
  },
  {
   "property": "C17",
   "status": "proved",
   "theorems": [
    "C17_montgomery",
    "C17_montgomery_safe",
    "C17_montgomery_overflows"
   ],
   "note": ""
  },
  {
   "property": "C18",
   "status": "proved",
   "theorems": [
    "C18_barrett"
   ],
   "note": ""
  },
  {
   "property": "C19",
   "status": "proved",
   "theorems": [
    "C19_poly_compress",
    "C19_polyvec_compress",
    "C19_poly_tomsg"
   ],
   "note": ""
  },
  {
   "property": "C20",
   "status": "proved",
   "theorems": [
    "C20_poly_decompress",
    "C20_polyvec_decompress",
    "C20_error_bound",
    "C20_decompress_range",
    "C20_compress_decompress"
   ],
   "note": ""
  },
  {
   "property": "C21",
   "status": "proved",
   "theorems": [
    "C21_tobytes",
    "C21_tobytes_frombytes",
    "C21_frombytes_tobytes"
   ],
   "note": ""
  },
  {
   "property": "C22",
   "status": "proved",
   "theorems": [
    "C22_message_tolerance",
    "C22_tolerance_exact"
   ],
   "note": ""
  },
  {
   "property": "C23",
   "status": "proved",
   "theorems": [
    "C23_getnoise_eta1",
    "C23_getnoise_eta2"
   ],
   "note": ""
  },
  {
   "property": "C24",
   "status": "proved",
   "theorems": [
    "C24_matrix",
    "C24_finishes",
    "C24_terminates"
   ],
   "note": "Fuel counts tests of the refill loop; the run finishes exactly when the blocks read contain enough candidates."
  },
  {
   "property": "C25",
   "status": "proved",
   "theorems": [
    "C25_rej_uniform"
   ],
   "note": ""
  },
  {
   "property": "C26",
   "status": "proved",
   "theorems": [
    "C26_verify"
   ],
   "note": ""
  },
  {
   "property": "C27",
   "status": "proved",
   "theorems": [
    "C27_cmov",
    "C27_cmov_int16"
   ],
   "note": ""
  },
  {
   "property": "C28",
   "status": "proved",
   "theorems": [
    "C28_filled",
    "C28_aborted",
    "C28_no_ub",
    "C28_still_waiting",
    "C28_returns",
    "C28_urandom",
    "C28_windows_filled",
    "C28_windows_aborted",
    "C28_windows_failure",
    "C28_windows_no_ub",
    "C28_windows_returns"
   ],
   "note": "Linux getrandom variant, the /dev/urandom fallback and the Windows branch."
  },
  {
   "property": "C29",
   "status": "proved",
   "theorems": [
    "C29_keypair",
    "C29_keypair_derand",
    "C29_keypair_failure",
    "C29_enc",
    "C29_enc_derand",
    "C29_enc_failure"
   ],
   "note": ""
  },
  {
   "property": "C30",
   "status": "proved",
   "theorems": [
    "C30_reduced_key",
    "C30_not_an_encoding",
    "C30_accepted",
    "C30_exists"
   ],
   "note": "Acceptance for every parameter set given that the seed expands; existence for ML-KEM-512."
  },
  {
   "property": "C31",
   "status": "proved",
   "theorems": [
    "C31_keypair_nonces",
    "C31_enc_nonces",
    "C31_dec_nonces"
   ],
   "note": "The model logs the nonce of every sampler call; within one run all nonces are different."
  },
  {
   "property": "C32",
   "status": "proved",
   "theorems": [
    "C32_unpack_pack",
    "C32_pack_unpack"
   ],
   "note": ""
  },
  {
   "property": "C33",
   "status": "proved",
   "theorems": [
    "C33_keypair",
    "C33_keypair_complete",
    "C33_enc",
    "C33_enc_complete",
    "C33_dec",
    "C33_correct_iff"
   ],
   "note": "Exact characterisation of K-PKE decryption failures of the implementation."
  },
  {
   "property": "C34",
   "status": "proved",
   "theorems": [
    "C34_ntt",
    "C34_invntt",
    "C34_roundtrip"
   ],
   "note": "The assembly is modelled instruction by instruction over 16-bit lanes."
  },
  {
   "property": "C35",
   "status": "proved",
   "theorems": [
    "C35_basemul",
    "C35_multiplication",
    "C35_reduce",
    "C35_tomont"
   ],
   "note": "b is the operand that may be unreduced (as in polyvec_basemul_acc_montgomery of avx2/polyvec.c)."
  },
  {
   "property": "C36",
   "status": "proved",
   "theorems": [
    "C36_nttunpack",
    "C36_tobytes",
    "C36_frombytes"
   ],
   "note": ""
  },
  {
   "property": "C37",
   "status": "proved",
   "theorems": [
    "C37_poly_compress",
    "C37_polyvec_compress",
    "C37_poly_tomsg",
    "C37_slack_needed"
   ],
   "note": "Each loop body is proved for all lanes by a symbolic bit-level evaluation that is itself verified in Coq; the per-coefficient rounding is swept over all 3330 inputs."
  },
  {
   "property": "C38",
   "status": "proved",
   "theorems": [
    "C38_poly_decompress",
    "C38_polyvec_decompress",
    "C38_poly_frommsg",
    "C38_slack_needed"
   ],
   "note": "The bytes beyond the vector are inside the ciphertext in every call made by the library."
  },
  {
   "property": "C39",
   "status": "proved",
   "theorems": [
    "C39_cbd_eta1",
    "C39_cbd_eta2",
    "C39_slack_needed"
   ],
   "note": ""
  },
  {
   "property": "C40",
   "status": "proved",
   "theorems": [
    "C40_verify",
    "C40_cmov"
   ],
   "note": ""
  },
  {
   "property": "C41",
   "status": "proved",
   "theorems": [
    "C41_add",
    "C41_add_to",
    "C41_sub_from",
    "C41_basemul_acc"
   ],
   "note": "In-place variants are modelled separately because that is how the library calls them."
  },
  {
   "property": "C42",
   "status": "proved",
   "theorems": [
    "C42_permutation"
   ],
   "note": "The macros of KeccakP-1600-unrolling.macros and the round macros are expanded into a straight-line program over vectors."
  },
  {
   "property": "C43",
   "status": "proved",
   "theorems": [
    "C43_shake128x4",
    "C43_shake256x4",
    "C43_shake128x4_blocks",
    "C43_shake256x4_blocks",
    "C43_slack_needed"
   ],
   "note": "Input and output buffers are distinct objects; the sharing of buffers in poly.c/indcpa.c is sequential (absorb, then squeeze)."
  },
  {
   "property": "C44",
   "status": "proved",
   "theorems": [
    "C44_rej_uniform_avx",
    "C44_reference"
   ],
   "note": "The branch of rejsample.c without BMI (the macro is commented out in the file)."
  },
  {
   "property": "C45",
   "status": "proved",
   "theorems": [
    "C45_matrix",
    "C45_finishes",
    "C45_terminates",
    "C45_getnoise_eta1_4x",
    "C45_getnoise_eta1122_4x",
    "C45_getnoise_eta2",
    "C45_getnoise_eta1",
    "C45_keypair_noise",
    "C45_enc_noise"
   ],
   "note": "The four instances written out in the source are a loop over the instance number in the model."
  },
  {
   "property": "C46",
   "status": "proved",
   "theorems": [
    "C46_keypair",
    "C46_keypair_complete",
    "C46_enc",
    "C46_enc_complete",
    "C46_dec",
    "C46_correct",
    "C46_reduced_key"
   ],
   "note": ""
  },
  {
   "property": "C47",
   "status": "proved",
   "theorems": [
    "C47_keypair_sound",
    "C47_keypair_complete",
    "C47_keypair_diverges",
    "C47_enc_sound",
    "C47_enc_complete",
    "C47_enc_diverges",
    "C47_dec_sound",
    "C47_dec_complete",
    "C47_dec_diverges",
    "C47_implicit_rejection",
    "C47_secret_key_layout",
    "C47_keypair_safe",
    "C47_enc_safe",
    "C47_dec_safe",
    "C47_keypair_random",
    "C47_keypair_random_derand",
    "C47_keypair_random_failure",
    "C47_enc_random",
    "C47_enc_random_derand",
    "C47_enc_random_failure"
   ],
   "note": ""
  },
  {
   "property": "C48",
   "status": "proved",
   "theorems": [
    "C48_keypair_derand",
    "C48_enc_derand",
    "C48_dec",
    "C48_keypair",
    "C48_enc",
    "C48_pke_keypair",
    "C48_pke_enc",
    "C48_pke_dec",
    "C48_agreement",
    "C48_agreement_total"
   ],
   "note": "same_result: both finish with the same value or both are out of fuel."
  },
  {
   "property": "C49",
   "status": "proved",
   "theorems": [
    "C49_dec_timing",
    "C49_dec_trace",
    "C49_keypair_timing",
    "C49_keypair_trace",
    "C49_published_seed",
    "C49_enc_timing",
    "C49_enc_trace"
   ],
   "note": "Source-level leakage model as in C08; vector accesses are logged with their index."
  },
  {
   "property": "C50",
   "status": "proved",
   "theorems": [
    "C50_keypair_nonces",
    "C50_enc_nonces",
    "C50_dec_nonces"
   ],
   "note": "The model logs the four nonces of a four-way call in order."
  },
  {
   "property": "C51",
   "status": "proved",
   "theorems": [
    "C51_tampering",
    "C51_replaced_ciphertext",
    "C51_keys",
    "C51_encapsulation"
   ],
   "note": "The collision alternatives name the two colliding inputs; no hash assumption is made."
  },
  {
   "property": "C52",
   "status": "proved",
   "theorems": [
    "C52_every_key_accepted",
    "C52_hash_check_refuted",
    "C52_any_hash_agrees",
    "C52_reduced_stored_key",
    "C52_noncanonical_accepted"
   ],
   "note": "C52_hash_check_refuted refutes the claim that decapsulation performs the FIPS 203 hash check; the property states the actual behaviour."
  },
  {
   "property": "C53",
   "status": "proved",
   "theorems": [
    "C53_rej_uniform_bmi",
    "C53_same_as_table"
   ],
   "note": "pdep and pext are defined on bit lists as in the Intel manual."
  },
  {
   "property": "C54",
   "status": "proved",
   "theorems": [
    "C54_init",
    "C54_randombytes",
    "C54_undefined",
    "C54_sequence"
   ],
   "note": "AES of OpenSSL is a parameter; its calls are assumed to succeed (else abort())."
  },
  {
   "property": "C55",
   "status": "proved",
   "theorems": [
    "C55_bad_maxlen",
    "C55_stream",
    "C55_fewer_than_maxlen",
    "C55_maximum_refuted"
   ],
   "note": "C55_maximum_refuted refutes the comment at rng.c:22; the property states the actual bound."
  },
  {
   "property": "C56",
   "status": "proved",
   "theorems": [
    "C56_run",
    "C56_complete",
    "C56_linux",
    "C56_exit",
    "C56_keys",
    "C56_sk",
    "C56_ct"
   ],
   "note": "The do loop and rejection sampling have bounds in the model; the theorem holds for all bounds and every verdict is reached by some."
  },
  {
   "property": "C57",
   "status": "proved",
   "theorems": [
    "C57_output",
    "C57_complete",
    "C57_same",
    "C57_any_source"
   ],
   "note": "printf is modelled as the list of characters written; stderr is not modelled."
  },
  {
   "property": "C58",
   "status": "proved",
   "theorems": [
    "C58_find",
    "C58_hex",
    "C58_number",
    "C58_hex_nothing",
    "C58_hex_undefined",
    "C58_print",
    "C58_read_back"
   ],
   "note": "isxdigit is that of the C locale; Length is taken to be nonnegative."
  },
  {
   "property": "C59",
   "status": "proved",
   "theorems": [
    "C59_run",
    "C59_complete",
    "C59_cannot_open"
   ],
   "note": "AES of OpenSSL is a parameter; stdout messages are not modelled; file contents are what was written to them."
  },
  {
   "property": "C60",
   "status": "proved",
   "theorems": [
    "C60_keypair_longer",
    "C60_enc_longer",
    "C60_dec_longer",
    "C60_keypair_short",
    "C60_enc_short",
    "C60_dec_short"
   ],
   "note": "For the reference functions; the AVX2 ones are covered at the documented lengths (C47)."
  },
  {
   "property": "C61",
   "status": "proved",
   "theorems": [
    "C61_enc",
    "C61_dec"
   ],
   "note": "Key generation is not covered: kem.c:30-33 reads pk and coins after writing sk, so overlapping buffers there are an error of the caller."
  },
  {
   "property": "C62",
   "status": "proved",
   "theorems": [
    "C62_report",
    "C62_short",
    "C62_meaning",
    "C62_median_refuted"
   ],
   "note": "C62_median_refuted shows that the condition on the gaps is needed. qsort is a parameter with its C contract."
  },
  {
   "property": "C63",
   "status": "proved",
   "theorems": [
    "C63_speed",
    "C63_clock_only"
   ],
   "note": "Uninitialised bytes are arbitrary bytes; the clock is an arbitrary sequence of values."
  },
  {
   "property": "C64",
   "status": "proved",
   "theorems": [
    "C64_eta1",
    "C64_eta2",
    "C64_eta1_avx2",
    "C64_eta2_avx2"
   ],
   "note": "Counts byte strings; that SHAKE256 output is uniform is not claimed."
  },
  {
   "property": "C65",
   "status": "proved",
   "theorems": [
    "C65_unbiased",
    "C65_both"
   ],
   "note": "Counts byte strings that fill the output; that SHAKE128 output is uniform is not claimed."
  },
  {
   "property": "C66",
   "status": "proved",
   "theorems": [
    "C66_separate",
    "C66_defined",
    "C66_coins_in_pk",
    "C66_undefined",
    "C66_coins_anywhere_refuted"
   ],
   "note": "The functions called read their inputs before they write, as modelled in Model_SharedKey.v. C66_coins_anywhere_refuted: coins inside pk give a different secret key."
  },
  {
   "property": "C67",
   "status": "proved",
   "theorems": [
    "C67_bound",
    "C67_code",
    "C67_code_avx2",
    "C67_agreement",
    "C67_never_zero"
   ],
   "note": "Counts noise strings: that SHAKE256 output behaves like a uniform string is not claimed. The bound holds for every matrix, so it takes the worst rounding error of u for each; it is weaker than the 2^-139, 2^-164, 2^-174 of the Kyber documents, which average over a uniform u."
  },
  {
   "property": "C68",
   "status": "proved",
   "theorems": [
    "C68_accepted",
    "C68_three",
    "C68_four",
    "C68_blocks",
    "C68_keypair",
    "C68_enc",
    "C68_dec"
   ],
   "note": "Counts strings: that SHAKE128 output behaves like a uniform string is not claimed."
  },
  {
   "property": "C69",
   "status": "proved",
   "theorems": [
    "C69_keypair_longer",
    "C69_enc_longer",
    "C69_dec_longer",
    "C69_keypair_short",
    "C69_enc_short",
    "C69_dec_short"
   ],
   "note": "The AVX2 counterpart of C60."
  },
  {
   "property": "C70",
   "status": "proved",
   "theorems": [
    "C70_keypair",
    "C70_enc",
    "C70_dec",
    "C70_enc_overlap",
    "C70_dec_overlap"
   ],
   "note": "The AVX2 counterpart of C61 and C66; Model_AvxShared.v has the functions with one memory."
  },
  {
   "property": "C71",
   "status": "proved",
   "theorems": [
    "C71_sha3_256",
    "C71_sha3_512",
    "C71_shake128",
    "C71_shake256",
    "C71_absorb",
    "C71_squeeze",
    "C71_absorb_wraps",
    "C71_squeeze_wraps"
   ],
   "note": "Model_Fips202Width.v has the functions with machine-width counters; C71_absorb_wraps and C71_squeeze_wraps show that the bounds are sharp."
  },
  {
   "property": "C72",
   "status": "proved",
   "theorems": [
    "C72_rej_uniform",
    "C72_rej_uniform_wraps",
    "C72_verify",
    "C72_cmov"
   ],
   "note": "Model_RejWidth.v has the functions with machine-width counters; C72_rej_uniform_wraps is the one length that goes wrong (no caller uses it)."
  },
  {
   "property": "C73",
   "status": "proved",
   "theorems": [
    "C73_hiding",
    "C73_code",
    "C73_code_avx2"
   ],
   "note": "Game-hopping proof over finite averages for any adversary. sigma and rho are independent in the game, whereas the code takes both from G(d||k) (not a statement about SHA3-512); hardness of Module-LWE and of SHAKE256 as a PRF is not proved, it is what the bound refers to."
  },
  {
   "property": "C74",
   "status": "proved",
   "theorems": [
    "C74_shake128x4",
    "C74_shake256x4",
    "C74_absorb_once",
    "C74_squeezeblocks",
    "C74_verify",
    "C74_cmov"
   ],
   "note": "Model_AvxWidth.v has the functions with machine-width counters; exact including leakage."
  },
  {
   "property": "C75",
   "status": "proved",
   "theorems": [
    "C75_code",
    "C75_count",
    "C75_generated",
    "C75_unique",
    "C75_oracle",
    "C75_no_encryption"
   ],
   "note": "Exact count in terms of the surviving messages; C67 bounds how many messages do not survive for random keys."
  },
  {
   "property": "C76",
   "status": "proved",
   "theorems": [
    "C76_keypair",
    "C76_ciphertext",
    "C76_meaning",
    "C76_count",
    "C76_unique"
   ],
   "note": "Spec_Checks.v has the checks of FIPS 203 section 7, which the code leaves to its caller (C30, C52)."
  },
  {
   "property": "C77",
   "status": "proved",
   "theorems": [
    "C77_add",
    "C77_sub",
    "C77_exact",
    "C77_callers"
   ],
   "note": "Includes the non-overlapping poly_sub of avx2/poly.c, which C41 states only for the overlap used by decryption."
  },
  {
   "property": "C78",
   "status": "proved",
   "theorems": [
    "C78_shake128_session",
    "C78_shake256_session",
    "C78_shake128_once",
    "C78_shake256_once",
    "C78_consecutive",
    "C78_whole_blocks",
    "C78_only_squeeze",
    "C78_mixing_refuted"
   ],
   "note": "C78_mixing_refuted refutes the stronger claim that mixed calls always continue the stream; the statement says what they do instead."
  },
  {
   "property": "C79",
   "status": "proved",
   "theorems": [
    "C79_families_apart",
    "C79_program_one_definition",
    "C79_program_resolves",
    "C79_program_no_override",
    "C79_library_one_definition",
    "C79_libraries_coexist",
    "C79_library_prefixed",
    "C79_kyber_library_needs",
    "C79_keccak_library_needs",
    "C79_api",
    "C79_api_exported",
    "C79_reference_declared",
    "C79_avx2_declared",
    "C79_all_declared_defined_refuted"
   ],
   "note": "The tables of macros, definitions and references are read off the text of the headers, sources and Makefiles. C79_all_declared_defined_refuted: the AVX2 header declares nttpack_avx, which no file defines."
  },
  {
   "property": "C80",
   "status": "proved",
   "theorems": [
    "C80_InitializeAll",
    "C80_AddByte",
    "C80_AddBytes",
    "C80_OverwriteBytes",
    "C80_OverwriteWithZeroes",
    "C80_ExtractBytes",
    "C80_ExtractAndAddBytes",
    "C80_aligned_buffer_refuted"
   ],
   "note": "Accesses to the state through its vector and lane types are byte accesses of the model; the caller buffers are checked for 8-byte alignment at every UINT64 access. C80_aligned_buffer_refuted shows the alignment condition is on the lanes, not on the buffer."
  },
  {
   "property": "C81",
   "status": "proved",
   "theorems": [
    "C81_AddLanesAll",
    "C81_OverwriteLanesAll",
    "C81_ExtractLanesAll",
    "C81_ExtractAndAddLanesAll",
    "C81_wide_stride"
   ],
   "note": "Input and output of ExtractAndAddLanesAll the same or apart. C81_wide_stride says what happens when the unsigned products wrap."
  },
  {
   "property": "C82",
   "status": "proved",
   "theorems": [
    "C82_PermuteAll_24rounds",
    "C82_PermuteAll_12rounds",
    "C82_FastLoop_Absorb",
    "C82_FastLoop_Absorb_12rounds",
    "C82_no_progress",
    "C82_wrap",
    "C82_exact_buffer",
    "C82_exact_buffer_refuted"
   ],
   "note": "C82_no_progress, C82_wrap, C82_exact_buffer and C82_exact_buffer_refuted are about calls outside the conditions. Forming a pointer more than one past the end is undefined behaviour in the model."
  },
  {
   "property": "C83",
   "status": "proved",
   "theorems": [
    "C83_poly_compress",
    "C83_poly_compress_undefined",
    "C83_polyvec_compress",
    "C83_poly_tomsg",
    "C83_poly_compress_avx2",
    "C83_polyvec_compress_avx2",
    "C83_poly_tomsg_avx2",
    "C83_polyvec_compress_differ",
    "C83_poly_tomsg_differ"
   ],
   "note": "The upper end of poly_tomsg in ref/ is the largest int16_t, so only its lower end is tested from outside. Each equivalence looks one value beyond the interval; further out the outputs may be right again by accident."
  },
  {
   "property": "C84",
   "status": "proved",
   "theorems": [
    "C84_poly_tobytes",
    "C84_ntttobytes",
    "C84_differ"
   ],
   "note": "Each equivalence looks one value beyond the interval. The coefficients of avx2/ are in vector order, as in C36."
  }
 ]
}