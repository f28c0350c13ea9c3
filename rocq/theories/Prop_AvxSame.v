(** * C48-C50: the AVX2 key encapsulation against the reference, timing and nonces *)
From Coq Require Import ZArith List.
From Verif Require Import CMonad Levels Model_Params Model_Indcpa Model_Randombytes Model_Kem Model_AvxIndcpa Model_AvxKem Spec_FIPS202 Spec_FIPS203 Spec_Noise Vocab Vocab_Code Vocab_Avx Cases Proof_PropKem Run_Kem Proof_Demo Proof_Cases Proof_AvxApi Proof_PropAvxKem Proof_AvxCases.
Import ListNotations.
Open Scope Z_scope.
Open Scope cmonad_scope.
Local Opaque SHA3_256 SHA3_512 SHAKE128 SHAKE256.
Local Opaque crypto_kem_keypair_derand_avx2 crypto_kem_enc_derand_avx2 crypto_kem_dec_avx2 indcpa_dec_avx2 indcpa_enc_avx2 indcpa_keypair_derand_avx2.

(** ** C48: reference and AVX2 code are interchangeable *)

Theorem C48_keypair_derand : forall lv fuel (J1 J2 : Junk) pk1 sk1 pk2 sk2 coins,
  length pk1 = KYBER_PUBLICKEYBYTES lv -> length sk1 = KYBER_SECRETKEYBYTES lv ->
  length pk2 = KYBER_PUBLICKEYBYTES lv -> length sk2 = KYBER_SECRETKEYBYTES lv -> byte_array 64 coins ->
  same_result (@crypto_kem_keypair_derand J1 lv fuel pk1 sk1 coins) (@crypto_kem_keypair_derand_avx2 J2 lv fuel pk2 sk2 coins).
Proof. exact same_keypair_derand. Qed.
Print Assumptions C48_keypair_derand.

Theorem C48_enc_derand : forall lv fuel (J1 J2 : Junk) ct1 ss1 ct2 ss2 pk m,
  length ct1 = KYBER_CIPHERTEXTBYTES lv -> length ss1 = 32%nat -> length ct2 = KYBER_CIPHERTEXTBYTES lv -> length ss2 = 32%nat ->
  byte_array (KYBER_PUBLICKEYBYTES lv) pk -> byte_array 32 m ->
  same_result (@crypto_kem_enc_derand J1 lv fuel ct1 ss1 pk m) (@crypto_kem_enc_derand_avx2 J2 lv fuel ct2 ss2 pk m).
Proof. exact same_enc_derand. Qed.
Print Assumptions C48_enc_derand.

Theorem C48_dec : forall lv fuel (J1 J2 : Junk) ss1 ss2 ct sk,
  length ss1 = 32%nat -> length ss2 = 32%nat -> byte_array (KYBER_CIPHERTEXTBYTES lv) ct -> byte_array (KYBER_SECRETKEYBYTES lv) sk ->
  same_result (@crypto_kem_dec J1 lv fuel ss1 ct sk) (@crypto_kem_dec_avx2 J2 lv fuel ss2 ct sk).
Proof. exact same_dec. Qed.
Print Assumptions C48_dec.

Theorem C48_keypair : forall lv fuel (J1 J2 : Junk) sched pk1 sk1 pk2 sk2,
  kernel_ok sched 64 ->
  length pk1 = KYBER_PUBLICKEYBYTES lv -> length sk1 = KYBER_SECRETKEYBYTES lv ->
  length pk2 = KYBER_PUBLICKEYBYTES lv -> length sk2 = KYBER_SECRETKEYBYTES lv ->
  same_result (@crypto_kem_keypair J1 lv fuel sched pk1 sk1) (@crypto_kem_keypair_avx2 J2 lv fuel sched pk2 sk2) \/
  (@crypto_kem_keypair J1 lv fuel sched pk1 sk1 = Abort /\ @crypto_kem_keypair_avx2 J2 lv fuel sched pk2 sk2 = Abort).
Proof. exact same_keypair. Qed.
Print Assumptions C48_keypair.

Theorem C48_enc : forall lv fuel (J1 J2 : Junk) sched ct1 ss1 ct2 ss2 pk,
  kernel_ok sched 32 ->
  length ct1 = KYBER_CIPHERTEXTBYTES lv -> length ss1 = 32%nat -> length ct2 = KYBER_CIPHERTEXTBYTES lv -> length ss2 = 32%nat ->
  byte_array (KYBER_PUBLICKEYBYTES lv) pk ->
  same_result (@crypto_kem_enc J1 lv fuel sched ct1 ss1 pk) (@crypto_kem_enc_avx2 J2 lv fuel sched ct2 ss2 pk) \/
  (@crypto_kem_enc J1 lv fuel sched ct1 ss1 pk = Abort /\ @crypto_kem_enc_avx2 J2 lv fuel sched ct2 ss2 pk = Abort).
Proof. exact same_enc. Qed.
Print Assumptions C48_enc.

Theorem C48_pke_keypair : forall lv fuel (J1 J2 : Junk) pk1 sk1 pk2 sk2 d,
  length pk1 = KYBER_INDCPA_PUBLICKEYBYTES lv -> length sk1 = KYBER_INDCPA_SECRETKEYBYTES lv ->
  length pk2 = KYBER_INDCPA_PUBLICKEYBYTES lv -> length sk2 = KYBER_INDCPA_SECRETKEYBYTES lv -> byte_array 32 d ->
  same_result (@indcpa_keypair_derand J1 lv fuel pk1 0 sk1 0 d 0) (@indcpa_keypair_derand_avx2 J2 lv fuel pk2 0 sk2 0 d 0).
Proof. exact same_pke_keypair. Qed.
Print Assumptions C48_pke_keypair.

Theorem C48_pke_enc : forall lv fuel (J1 J2 : Junk) c1 c2 m pk r,
  length c1 = KYBER_CIPHERTEXTBYTES lv -> length c2 = KYBER_CIPHERTEXTBYTES lv ->
  byte_array 32 m -> byte_array (KYBER_INDCPA_PUBLICKEYBYTES lv) pk -> byte_array 32 r ->
  same_result (@indcpa_enc J1 lv fuel c1 0 m 0 pk 0 r 0) (@indcpa_enc_avx2 J2 lv fuel c2 0 m 0 pk 0 r 0).
Proof. exact same_pke_enc. Qed.
Print Assumptions C48_pke_enc.

Theorem C48_pke_dec : forall lv (J1 J2 : Junk) m1 m2 c sk,
  length m1 = 32%nat -> length m2 = 32%nat -> byte_array (KYBER_CIPHERTEXTBYTES lv) c -> byte_array (KYBER_INDCPA_SECRETKEYBYTES lv) sk ->
  exists m T1 T2, @indcpa_dec J1 lv m1 0 c 0 sk 0 = Ok m T1 /\ @indcpa_dec_avx2 J2 lv m2 0 c 0 sk 0 = Ok m T2.
Proof. exact same_pke_dec. Qed.
Print Assumptions C48_pke_dec.

(** Any mixture of the two agrees on the secret *)

Theorem C48_agreement : forall V1 V2 V3 lv d z m f1 f2 f3 (J1 J2 J3 : Junk) pk sk ct ss ss3 pk' sk' ct' ss' ss'' r1 r2 r3 T1 T2 T3 A,
  length pk = KYBER_PUBLICKEYBYTES lv -> length sk = KYBER_SECRETKEYBYTES lv ->
  length ct = KYBER_CIPHERTEXTBYTES lv -> length ss = 32%nat -> length ss3 = 32%nat ->
  byte_array 32 d -> byte_array 32 z -> byte_array 32 m ->
  keypair_derand_of V1 J1 lv f1 pk sk (d ++ z) = Ok (pk', sk', r1) T1 ->
  enc_derand_of V2 J2 lv f2 ct ss pk' m = Ok (ct', ss', r2) T2 ->
  dec_of V3 J3 lv f3 ss3 ct' sk' = Ok (ss'', r3) T3 ->
  is_matrix (PS lv) (keygen_rho (PS lv) d) A ->
  noise_decodes m (decryption_noise (PS lv) A d m (skipn 32 (SHA3_512 (m ++ SHA3_256 pk')))) ->
  ss'' = ss'.
Proof. exact mixed_agreement. Qed.
Print Assumptions C48_agreement.

Theorem C48_agreement_total : forall V1 V2 V3 lv d z m A ek dk K c,
  byte_array 32 d -> byte_array 32 z -> byte_array 32 m ->
  is_matrix (PS lv) (keygen_rho (PS lv) d) A ->
  KeyGen_internal (PS lv) d z ek dk -> Encaps_internal (PS lv) ek m K c ->
  noise_decodes m (decryption_noise (PS lv) A d m (skipn 32 (SHA3_512 (m ++ SHA3_256 ek)))) ->
  exists fuel0, forall fuel (J1 J2 J3 : Junk) pk sk ct ss ss3, (fuel0 <= fuel)%nat ->
    length pk = KYBER_PUBLICKEYBYTES lv -> length sk = KYBER_SECRETKEYBYTES lv ->
    length ct = KYBER_CIPHERTEXTBYTES lv -> length ss = 32%nat -> length ss3 = 32%nat ->
    exists T1 T2 T3,
      keypair_derand_of V1 J1 lv fuel pk sk (d ++ z) = Ok (ek, dk, 0) T1 /\
      enc_derand_of V2 J2 lv fuel ct ss ek m = Ok (c, K, 0) T2 /\
      dec_of V3 J3 lv fuel ss3 c dk = Ok (K, 0) T3.
Proof. exact mixed_agreement_total. Qed.
Print Assumptions C48_agreement_total.

(** The case of [C01_case], and [C47_case] for the same inputs, meet the hypotheses *)
Example C48_case : kernel_ok (demo_sched ++ [Failed]) 64 /\ byte_array 64 (demo_d ++ demo_z).
Proof. split; [exact (proj1 demo_sched_ok)|exact (coins_of demo_d demo_z demo_d_bytes demo_z_bytes)]. Qed.

(** ** C49: timing *)

Theorem C49_dec_timing : forall lv fuel rho,
  byte_array 32 rho ->
  (exists T, forall (JJ : Junk) ss ct s t h z, length ss = 32%nat -> byte_array (KYBER_CIPHERTEXTBYTES lv) ct ->
     byte_array (384 * k (PS lv)) s -> byte_array (384 * k (PS lv)) t -> byte_array 32 h -> byte_array 32 z ->
     exists v, crypto_kem_dec_avx2 lv fuel ss ct (s ++ t ++ rho ++ h ++ z) = Ok v T) \/
  (forall (JJ : Junk) ss ct s t h z, length ss = 32%nat -> byte_array (KYBER_CIPHERTEXTBYTES lv) ct ->
     byte_array (384 * k (PS lv)) s -> byte_array (384 * k (PS lv)) t -> byte_array 32 h -> byte_array 32 z ->
     crypto_kem_dec_avx2 lv fuel ss ct (s ++ t ++ rho ++ h ++ z) = Timeout).
Proof. exact avx_dec_timing. Qed.
Print Assumptions C49_dec_timing.

Theorem C49_dec_trace : forall lv rho f1 f2 (J1 J2 : Junk) ss1 ct1 s1 t1 h1 z1 ss2 ct2 s2 t2 h2 z2 v1 v2 T1 T2,
  byte_array 32 rho ->
  length ss1 = 32%nat -> byte_array (KYBER_CIPHERTEXTBYTES lv) ct1 -> byte_array (384 * k (PS lv)) s1 ->
  byte_array (384 * k (PS lv)) t1 -> byte_array 32 h1 -> byte_array 32 z1 ->
  length ss2 = 32%nat -> byte_array (KYBER_CIPHERTEXTBYTES lv) ct2 -> byte_array (384 * k (PS lv)) s2 ->
  byte_array (384 * k (PS lv)) t2 -> byte_array 32 h2 -> byte_array 32 z2 ->
  @crypto_kem_dec_avx2 J1 lv f1 ss1 ct1 (s1 ++ t1 ++ rho ++ h1 ++ z1) = Ok v1 T1 ->
  @crypto_kem_dec_avx2 J2 lv f2 ss2 ct2 (s2 ++ t2 ++ rho ++ h2 ++ z2) = Ok v2 T2 -> T1 = T2.
Proof. exact avx_dec_trace'. Qed.
Print Assumptions C49_dec_trace.

Theorem C49_keypair_timing : forall lv fuel rho,
  (exists T, forall (JJ : Junk) pk sk d z, length pk = KYBER_PUBLICKEYBYTES lv -> length sk = KYBER_SECRETKEYBYTES lv ->
     byte_array 32 d -> byte_array 32 z -> keygen_rho (PS lv) d = rho ->
     exists v, crypto_kem_keypair_derand_avx2 lv fuel pk sk (d ++ z) = Ok v T) \/
  (forall (JJ : Junk) pk sk d z, length pk = KYBER_PUBLICKEYBYTES lv -> length sk = KYBER_SECRETKEYBYTES lv ->
     byte_array 32 d -> byte_array 32 z -> keygen_rho (PS lv) d = rho ->
     crypto_kem_keypair_derand_avx2 lv fuel pk sk (d ++ z) = Timeout).
Proof. exact avx_keypair_timing. Qed.
Print Assumptions C49_keypair_timing.

Theorem C49_keypair_trace : forall lv f1 f2 (J1 J2 : Junk) pk1 sk1 d1 z1 pk2 sk2 d2 z2 v1 v2 T1 T2,
  length pk1 = KYBER_PUBLICKEYBYTES lv -> length sk1 = KYBER_SECRETKEYBYTES lv -> byte_array 32 d1 -> byte_array 32 z1 ->
  length pk2 = KYBER_PUBLICKEYBYTES lv -> length sk2 = KYBER_SECRETKEYBYTES lv -> byte_array 32 d2 -> byte_array 32 z2 ->
  keygen_rho (PS lv) d1 = keygen_rho (PS lv) d2 ->
  @crypto_kem_keypair_derand_avx2 J1 lv f1 pk1 sk1 (d1 ++ z1) = Ok v1 T1 ->
  @crypto_kem_keypair_derand_avx2 J2 lv f2 pk2 sk2 (d2 ++ z2) = Ok v2 T2 -> T1 = T2.
Proof. exact avx_keypair_trace'. Qed.
Print Assumptions C49_keypair_trace.

Theorem C49_published_seed : forall lv fuel (JJ : Junk) pk sk d z ek dk r T,
  length pk = KYBER_PUBLICKEYBYTES lv -> length sk = KYBER_SECRETKEYBYTES lv -> byte_array 32 d -> byte_array 32 z ->
  crypto_kem_keypair_derand_avx2 lv fuel pk sk (d ++ z) = Ok (ek, dk, r) T ->
  exists t, length t = (384 * k (PS lv))%nat /\ ek = t ++ keygen_rho (PS lv) d.
Proof. exact avx_published_seed. Qed.
Print Assumptions C49_published_seed.

Theorem C49_enc_timing : forall lv fuel rho,
  byte_array 32 rho ->
  (exists T, forall (JJ : Junk) ct ss t m, length ct = KYBER_CIPHERTEXTBYTES lv -> length ss = 32%nat ->
     byte_array (384 * k (PS lv)) t -> byte_array 32 m ->
     exists v, crypto_kem_enc_derand_avx2 lv fuel ct ss (t ++ rho) m = Ok v T) \/
  (forall (JJ : Junk) ct ss t m, length ct = KYBER_CIPHERTEXTBYTES lv -> length ss = 32%nat ->
     byte_array (384 * k (PS lv)) t -> byte_array 32 m ->
     crypto_kem_enc_derand_avx2 lv fuel ct ss (t ++ rho) m = Timeout).
Proof. exact avx_enc_timing. Qed.
Print Assumptions C49_enc_timing.

Theorem C49_enc_trace : forall lv rho f1 f2 (J1 J2 : Junk) ct1 ss1 t1 m1 ct2 ss2 t2 m2 v1 v2 T1 T2,
  byte_array 32 rho ->
  length ct1 = KYBER_CIPHERTEXTBYTES lv -> length ss1 = 32%nat -> byte_array (384 * k (PS lv)) t1 -> byte_array 32 m1 ->
  length ct2 = KYBER_CIPHERTEXTBYTES lv -> length ss2 = 32%nat -> byte_array (384 * k (PS lv)) t2 -> byte_array 32 m2 ->
  @crypto_kem_enc_derand_avx2 J1 lv f1 ct1 ss1 (t1 ++ rho) m1 = Ok v1 T1 ->
  @crypto_kem_enc_derand_avx2 J2 lv f2 ct2 ss2 (t2 ++ rho) m2 = Ok v2 T2 -> T1 = T2.
Proof. exact avx_enc_trace'. Qed.
Print Assumptions C49_enc_trace.

Example C49_case_dec : exists T, forall (JJ : Junk) ss ct s t h z, length ss = 32%nat -> byte_array (KYBER_CIPHERTEXTBYTES Kyber512) ct ->
  byte_array (384 * k (PS Kyber512)) s -> byte_array (384 * k (PS Kyber512)) t -> byte_array 32 h -> byte_array 32 z ->
  exists v, crypto_kem_dec_avx2 Kyber512 2 ss ct (s ++ t ++ demo_rho ++ h ++ z) = Ok v T.
Proof. exact avx_case_dec_timing. Qed.
Example C49_case_keypair : exists T, forall (JJ : Junk) pk sk d z, length pk = KYBER_PUBLICKEYBYTES Kyber512 ->
  length sk = KYBER_SECRETKEYBYTES Kyber512 -> byte_array 32 d -> byte_array 32 z -> keygen_rho (PS Kyber512) d = demo_rho ->
  exists v, crypto_kem_keypair_derand_avx2 Kyber512 2 pk sk (d ++ z) = Ok v T.
Proof. exact avx_case_keypair_timing. Qed.
Example C49_case_enc : exists T, forall (JJ : Junk) ct ss t m, length ct = KYBER_CIPHERTEXTBYTES Kyber512 -> length ss = 32%nat ->
  byte_array (384 * k (PS Kyber512)) t -> byte_array 32 m ->
  exists v, crypto_kem_enc_derand_avx2 Kyber512 2 ct ss (t ++ demo_rho) m = Ok v T.
Proof. exact avx_case_enc_timing. Qed.

(** ** C50: nonces *)

Theorem C50_keypair_nonces : forall lv fuel (JJ : Junk) pk sk coins v T,
  crypto_kem_keypair_derand_avx2 lv fuel pk sk coins = Ok v T ->
  nonces_used T = match lv with Kyber512 => [0; 1; 2; 3] | _ => [0; 1; 2; 3; 4; 5; 6; 7] end /\
  NoDup (nonces_used T) /\ forall n, In n (nonces_used T) -> 0 <= n < 256.
Proof. exact avx_keypair_nonces. Qed.
Print Assumptions C50_keypair_nonces.

Theorem C50_enc_nonces : forall lv fuel (JJ : Junk) ct ss pk m v T,
  crypto_kem_enc_derand_avx2 lv fuel ct ss pk m = Ok v T ->
  nonces_used T = match lv with Kyber512 => [0; 1; 2; 3; 4] | Kyber768 => [0; 1; 2; 3; 4; 5; 6; 7] | Kyber1024 => [0; 1; 2; 3; 4; 5; 6; 7; 8] end /\
  NoDup (nonces_used T) /\ forall n, In n (nonces_used T) -> 0 <= n < 256.
Proof. exact avx_enc_nonces. Qed.
Print Assumptions C50_enc_nonces.

Theorem C50_dec_nonces : forall lv fuel (JJ : Junk) ss ct sk v T,
  crypto_kem_dec_avx2 lv fuel ss ct sk = Ok v T ->
  nonces_used T = match lv with Kyber512 => [0; 1; 2; 3; 4] | Kyber768 => [0; 1; 2; 3; 4; 5; 6; 7] | Kyber1024 => [0; 1; 2; 3; 4; 5; 6; 7; 8] end /\
  NoDup (nonces_used T) /\ forall n, In n (nonces_used T) -> 0 <= n < 256.
Proof. exact avx_dec_nonces. Qed.
Print Assumptions C50_dec_nonces.

(** The runs of [C47_case] meet the hypotheses *)
Example C50_case : exists ek dk c K T1 T2 T3,
  @crypto_kem_keypair_derand_avx2 no_junk Kyber512 2 (repeat 0 800) (repeat 0 1632) (demo_d ++ demo_z) = Ok (ek, dk, 0) T1 /\
  @crypto_kem_enc_derand_avx2 no_junk Kyber512 2 (repeat 0 768) (repeat 0 32) ek demo_m = Ok (c, K, 0) T2 /\
  @crypto_kem_dec_avx2 no_junk Kyber512 2 (repeat 0 32) c dk = Ok (K, 0) T3 /\
  nonces_used T1 = [0; 1; 2; 3] /\ nonces_used T2 = [0; 1; 2; 3; 4] /\ nonces_used T3 = [0; 1; 2; 3; 4].
Proof.
  destruct avx_case_exchange as (A & ek & dk & c & K & T1 & T2 & T3 & _ & E1 & E2 & E3 & _).
  exists ek, dk, c, K, T1, T2, T3. refine (conj E1 (conj E2 (conj E3 (conj _ (conj _ _))))).
  - exact (proj1 (avx_keypair_nonces _ _ _ _ _ _ _ _ E1)).
  - exact (proj1 (avx_enc_nonces _ _ _ _ _ _ _ _ _ E2)).
  - exact (proj1 (avx_dec_nonces _ _ _ _ _ _ _ _ E3)).
Qed.
