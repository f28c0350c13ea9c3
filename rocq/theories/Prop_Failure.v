(** * C67: how often decryption fails *)
From Coq Require Import ZArith List.
From Verif Require Import CMonad Levels Model_Params Model_Indcpa Model_Kem Model_AvxIndcpa Model_AvxKem Spec_FIPS202 Spec_FIPS203 Spec_Noise Spec_Failure Vocab Vocab_Code Vocab_Avx Vocab_Dist Vocab_Failure
  Cases Run_Kem Proof_Demo Proof_FailCount Proof_PropFailure.
Import ListNotations.
Open Scope Z_scope.
Local Opaque SHA3_256 SHA3_512 SHAKE128 SHAKE256.
Local Opaque crypto_kem_keypair_derand_avx2 crypto_kem_enc_derand_avx2 crypto_kem_dec_avx2 indcpa_dec_avx2 indcpa_enc_avx2 indcpa_keypair_derand_avx2.

(** Whatever the matrix and the message: at most one in 2^80 (2^90, 2^111) choices of the noise strings makes decryption fail. *)
Theorem C67_bound : forall lv A m, exists N, counted (failing (PS lv) A m) N /\
  N * 2 ^ (match lv with Kyber512 => 80 | Kyber768 => 90 | Kyber1024 => 111 end) <=
  256 ^ Z.of_nat (64 * (3 * eta1 (PS lv) * k (PS lv) + eta2 (PS lv) * (k (PS lv) + 1))).
Proof. exact failure_bound. Qed.
Print Assumptions C67_bound.

(** The code decrypts to something else exactly if the strings it expands from the seeds are among them. *)
Theorem C67_code : forall lv fuel f2 (J1 J2 J3 : Junk) pk sk c mbuf d m r pk' sk' c' T1 T2 A,
  length pk = KYBER_INDCPA_PUBLICKEYBYTES lv -> length sk = KYBER_INDCPA_SECRETKEYBYTES lv -> length c = KYBER_CIPHERTEXTBYTES lv ->
  length mbuf = 32%nat -> byte_array 32 d -> byte_array 32 m -> byte_array 32 r ->
  @indcpa_keypair_derand J1 lv fuel pk 0 sk 0 d 0 = Ok (pk', sk') T1 ->
  @indcpa_enc J2 lv f2 c 0 m 0 pk' 0 r 0 = Ok c' T2 ->
  is_matrix (PS lv) (keygen_rho (PS lv) d) A ->
  exists m' T3, @indcpa_dec J3 lv mbuf 0 c' 0 sk' 0 = Ok m' T3 /\
    (m' <> m <-> failing (PS lv) A m (expanded (PS lv) d r)).
Proof. exact code_failing. Qed.
Print Assumptions C67_code.

Theorem C67_code_avx2 : forall lv fuel f2 (J1 J2 J3 : Junk) pk sk c mbuf d m r pk' sk' c' T1 T2 A,
  length pk = KYBER_INDCPA_PUBLICKEYBYTES lv -> length sk = KYBER_INDCPA_SECRETKEYBYTES lv -> length c = KYBER_CIPHERTEXTBYTES lv ->
  length mbuf = 32%nat -> byte_array 32 d -> byte_array 32 m -> byte_array 32 r ->
  @indcpa_keypair_derand_avx2 J1 lv fuel pk 0 sk 0 d 0 = Ok (pk', sk') T1 ->
  @indcpa_enc_avx2 J2 lv f2 c 0 m 0 pk' 0 r 0 = Ok c' T2 ->
  is_matrix (PS lv) (keygen_rho (PS lv) d) A ->
  exists m' T3, @indcpa_dec_avx2 J3 lv mbuf 0 c' 0 sk' 0 = Ok m' T3 /\
    (m' <> m <-> failing (PS lv) A m (expanded (PS lv) d r)).
Proof. exact code_failing_avx2. Qed.
Print Assumptions C67_code_avx2.

(** Unless they are, decapsulation returns the secret of the encapsulation; each of the three steps by either code *)
Theorem C67_agreement : forall V1 V2 V3 lv d z m f1 f2 f3 (J1 J2 J3 : Junk) pk sk ct ss ss3 pk' sk' ct' ss' ss'' r1 r2 r3 T1 T2 T3 A,
  length pk = KYBER_PUBLICKEYBYTES lv -> length sk = KYBER_SECRETKEYBYTES lv ->
  length ct = KYBER_CIPHERTEXTBYTES lv -> length ss = 32%nat -> length ss3 = 32%nat ->
  byte_array 32 d -> byte_array 32 z -> byte_array 32 m ->
  keypair_derand_of V1 J1 lv f1 pk sk (d ++ z) = Ok (pk', sk', r1) T1 ->
  enc_derand_of V2 J2 lv f2 ct ss pk' m = Ok (ct', ss', r2) T2 ->
  dec_of V3 J3 lv f3 ss3 ct' sk' = Ok (ss'', r3) T3 ->
  is_matrix (PS lv) (keygen_rho (PS lv) d) A ->
  ~ failing (PS lv) A m (expanded (PS lv) d (skipn 32 (SHA3_512 (m ++ SHA3_256 pk')))) ->
  ss'' = ss'.
Proof. exact kem_failing. Qed.
Print Assumptions C67_agreement.

(** For no matrix and message is failure excluded. *)
Theorem C67_never_zero : forall lv A m, exists w, failing (PS lv) A m w.
Proof. exact some_fail. Qed.
Print Assumptions C67_never_zero.

Example C67_case : exists N, counted (failing (PS Kyber768) [] (repeat 0 32)) N /\ 0 < N /\ N * 2 ^ 90 <= 256 ^ 1664.
Proof. exact case_failing. Qed.
(** Strings that do not fail, met by an exchange *)
Example C67_case_exchange : exists A ek dk c K T1 T2 T3,
  is_matrix (PS Kyber512) (keygen_rho (PS Kyber512) demo_d) A /\
  @crypto_kem_keypair_derand_avx2 no_junk Kyber512 2 (repeat 0 800) (repeat 0 1632) (demo_d ++ demo_z) = Ok (ek, dk, 0) T1 /\
  @crypto_kem_enc_derand_avx2 no_junk Kyber512 2 (repeat 0 768) (repeat 0 32) ek demo_m = Ok (c, K, 0) T2 /\
  @crypto_kem_dec_avx2 no_junk Kyber512 2 (repeat 0 32) c dk = Ok (K, 0) T3 /\
  ~ failing (PS Kyber512) A demo_m (expanded (PS Kyber512) demo_d (skipn 32 (SHA3_512 (demo_m ++ SHA3_256 ek)))).
Proof. exact case_exchange_failing. Qed.
