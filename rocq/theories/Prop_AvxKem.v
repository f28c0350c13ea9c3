(** * C45-C47: the AVX2 key encapsulation *)
From Coq Require Import ZArith List.
From Verif Require Import CMonad Levels Model_Params Model_Indcpa Model_Randombytes Model_Kem Model_AvxIndcpa Model_AvxKem Spec_FIPS202 Spec_FIPS203 Spec_Noise Vocab Vocab_Code Vocab_Avx Cases Proof_PropKem Run_Kem Proof_Demo Proof_Cases Proof_AvxApi Proof_PropAvxKem Proof_AvxCases.
Import ListNotations.
Open Scope Z_scope.
Open Scope cmonad_scope.
Local Opaque SHA3_256 SHA3_512 SHAKE128 SHAKE256.
Local Opaque crypto_kem_keypair_derand_avx2 crypto_kem_enc_derand_avx2 crypto_kem_dec_avx2 indcpa_dec_avx2 indcpa_enc_avx2 indcpa_keypair_derand_avx2.

(** ** C45: matrix expansion and noise *)

Theorem C45_matrix : forall lv fuel (JJ : Junk) a pre rho post transposed A T,
  matrix_shape (KYBER_K lv) a -> length rho = 32%nat -> all_bytes (pre ++ rho ++ post) ->
  gen_matrix_avx2 lv fuel a (pre ++ rho ++ post) (length pre) transposed = Ok A T ->
  exists M, is_matrix (PS lv) rho M /\ A = map (map avx2_order) (if transposed then transpose (PS lv) M else M).
Proof. exact avx_gen_matrix_result. Qed.
Print Assumptions C45_matrix.

(** It finishes on exactly the seeds on which the reference does, with the same number of passes *)

Theorem C45_finishes : forall lv fuel (JJ : Junk) a pre rho post transposed,
  matrix_shape (KYBER_K lv) a -> length rho = 32%nat -> all_bytes (pre ++ rho ++ post) ->
  let run := gen_matrix_avx2 lv fuel a (pre ++ rho ++ post) (length pre) transposed in
  (run = Timeout \/ exists A T, run = Ok A T) /\
  ((exists A T, run = Ok A T) <->
   (0 < fuel)%nat /\ forall i j, (i < KYBER_K lv)%nat -> (j < KYBER_K lv)%nat ->
     (256 <= length (accepted (XOF (rho ++ [Z.of_nat j; Z.of_nat i])) (168 + 56 * (fuel - 1))))%nat).
Proof. exact avx_gen_matrix_finishes. Qed.
Print Assumptions C45_finishes.

Theorem C45_terminates : forall lv rho M,
  length rho = 32%nat -> is_matrix (PS lv) rho M ->
  exists fuel0, forall fuel (JJ : Junk) a pre post transposed, (fuel0 <= fuel)%nat ->
    matrix_shape (KYBER_K lv) a -> all_bytes (pre ++ rho ++ post) ->
    exists T, gen_matrix_avx2 lv fuel a (pre ++ rho ++ post) (length pre) transposed
      = Ok (map (map avx2_order) (if transposed then transpose (PS lv) M else M)) T.
Proof. exact avx_gen_matrix_terminates. Qed.
Print Assumptions C45_terminates.

(** Four samples at once; the trace depends on the nonces only *)

Theorem C45_getnoise_eta1_4x : forall lv so nonces,
  length nonces = 4%nat -> all_bytes nonces ->
  exists T, forall (JJ : Junk) rs pre seed post, length pre = so -> vec_shape 4 rs -> length seed = 32%nat -> all_bytes (pre ++ seed ++ post) ->
    exists r0 r1 r2 r3, poly_getnoise_eta1_4x lv rs (pre ++ seed ++ post) so nonces = Ok [r0; r1; r2; r3] T /\
      cbd_sample (eta1 (PS lv)) seed (nth 0 nonces 0) r0 /\ cbd_sample (eta1 (PS lv)) seed (nth 1 nonces 0) r1 /\
      cbd_sample (eta1 (PS lv)) seed (nth 2 nonces 0) r2 /\ cbd_sample (eta1 (PS lv)) seed (nth 3 nonces 0) r3.
Proof. exact avx_getnoise_eta1_4x. Qed.
Print Assumptions C45_getnoise_eta1_4x.

Theorem C45_getnoise_eta1122_4x : forall lv so nonces,
  length nonces = 4%nat -> all_bytes nonces ->
  exists T, forall (JJ : Junk) rs pre seed post, length pre = so -> vec_shape 4 rs -> length seed = 32%nat -> all_bytes (pre ++ seed ++ post) ->
    exists r0 r1 r2 r3, poly_getnoise_eta1122_4x lv rs (pre ++ seed ++ post) so nonces = Ok [r0; r1; r2; r3] T /\
      cbd_sample (eta1 (PS lv)) seed (nth 0 nonces 0) r0 /\ cbd_sample (eta1 (PS lv)) seed (nth 1 nonces 0) r1 /\
      cbd_sample (eta2 (PS lv)) seed (nth 2 nonces 0) r2 /\ cbd_sample (eta2 (PS lv)) seed (nth 3 nonces 0) r3.
Proof. exact avx_getnoise_eta1122_4x. Qed.
Print Assumptions C45_getnoise_eta1122_4x.

Theorem C45_getnoise_eta2 : forall lv so nonce,
  0 <= nonce < 256 ->
  exists T, forall (JJ : Junk) r pre seed post, length pre = so -> length r = 256%nat -> length seed = 32%nat -> all_bytes (pre ++ seed ++ post) ->
    exists r', poly_getnoise_eta2_avx2 r (pre ++ seed ++ post) so nonce = Ok r' T /\ cbd_sample (eta2 (PS lv)) seed nonce r'.
Proof. exact avx_getnoise_eta2. Qed.
Print Assumptions C45_getnoise_eta2.

(** The single-polynomial function only test_speed.c calls *)
Theorem C45_getnoise_eta1 : forall lv so nonce,
  0 <= nonce < 256 ->
  exists T, forall (JJ : Junk) r pre seed post, length pre = so -> length r = 256%nat -> length seed = 32%nat -> all_bytes (pre ++ seed ++ post) ->
    exists r', poly_getnoise_eta1_avx2 lv r (pre ++ seed ++ post) so nonce = Ok r' T /\ cbd_sample (eta1 (PS lv)) seed nonce r'.
Proof. exact avx_getnoise_eta1. Qed.
Print Assumptions C45_getnoise_eta1.

(** The calls of key generation and encryption put the samples where they belong *)

Theorem C45_keypair_noise : forall lv so,
  exists T, forall (JJ : Junk) s e p pre sigma post, length pre = so -> vec_shape (KYBER_K lv) s -> vec_shape (KYBER_K lv) e ->
    vec_shape (KYBER_K lv) p -> length sigma = 32%nat -> all_bytes (pre ++ sigma ++ post) ->
    exists s' e' p', keypair_noise lv s e p (pre ++ sigma ++ post) so = Ok (s', e', p') T /\
      cbd_vector (eta1 (PS lv)) sigma 0 (KYBER_K lv) s' /\ cbd_vector (eta1 (PS lv)) sigma (KYBER_K lv) (KYBER_K lv) e'.
Proof. exact avx_keypair_noise. Qed.
Print Assumptions C45_keypair_noise.

Theorem C45_enc_noise : forall lv so,
  exists T, forall (JJ : Junk) r e1 e2 b pre coins post, length pre = so -> vec_shape (KYBER_K lv) r -> vec_shape (KYBER_K lv) e1 ->
    length e2 = 256%nat -> vec_shape (KYBER_K lv) b -> length coins = 32%nat -> all_bytes (pre ++ coins ++ post) ->
    exists r' e1' e2' b', enc_noise lv r e1 e2 b (pre ++ coins ++ post) so = Ok (r', e1', e2', b') T /\
      cbd_vector (eta1 (PS lv)) coins 0 (KYBER_K lv) r' /\ cbd_vector (eta2 (PS lv)) coins (KYBER_K lv) (KYBER_K lv) e1' /\
      cbd_sample (eta2 (PS lv)) coins (2 * Z.of_nat (KYBER_K lv)) e2'.
Proof. exact avx_enc_noise. Qed.
Print Assumptions C45_enc_noise.

Example C45_case lv : (exists M, is_matrix (PS Kyber512) demo_rho M) /\ length demo_rho = 32%nat /\
  vec_shape (KYBER_K lv) (repeat (scattered 5000) (KYBER_K lv)) /\ vec_shape 4 (repeat (scattered 5000) 4) /\
  all_bytes [4; 5; 6; 255] /\ all_bytes (some_bytes 3 ++ some_bytes 32 ++ some_bytes 7).
Proof.
  destruct demo_parts as (A & s & t & c & K & T1 & T2 & T3 & T4 & _ & _ & Hr & _ & _ & _ & _ & HA & _).
  split; [exists A; exact HA|]. split; [apply Hr|].
  split; [split; [apply repeat_length|]; intros f Hf; apply repeat_spec in Hf; subst f; reflexivity|].
  split; [split; [apply repeat_length|]; intros f Hf; apply repeat_spec in Hf; subst f; reflexivity|].
  split; [|apply ctx_bytes]. intros x [<-|[<-|[<-|[<-|[]]]]]; split; (discriminate || reflexivity).
Qed.

(** ** C46: the public-key encryption layer *)

Theorem C46_keypair : forall lv fuel (JJ : Junk) pk sk d pk' sk' T,
  length pk = KYBER_INDCPA_PUBLICKEYBYTES lv -> length sk = KYBER_INDCPA_SECRETKEYBYTES lv -> byte_array 32 d ->
  indcpa_keypair_derand_avx2 lv fuel pk 0 sk 0 d 0 = Ok (pk', sk') T ->
  exists A, is_matrix (PS lv) (keygen_rho (PS lv) d) A /\ (pk', sk') = K_PKE_KeyGen (PS lv) A d.
Proof. exact avx_pke_keypair. Qed.
Print Assumptions C46_keypair.

Theorem C46_keypair_complete : forall lv d A,
  byte_array 32 d -> is_matrix (PS lv) (keygen_rho (PS lv) d) A ->
  exists fuel0, forall fuel (JJ : Junk) pk sk, (fuel0 <= fuel)%nat ->
    length pk = KYBER_INDCPA_PUBLICKEYBYTES lv -> length sk = KYBER_INDCPA_SECRETKEYBYTES lv ->
    exists T, indcpa_keypair_derand_avx2 lv fuel pk 0 sk 0 d 0 = Ok (K_PKE_KeyGen (PS lv) A d) T.
Proof. exact avx_pke_keypair_complete. Qed.
Print Assumptions C46_keypair_complete.

Theorem C46_enc : forall lv fuel (JJ : Junk) c m pk r c' T,
  length c = KYBER_CIPHERTEXTBYTES lv -> byte_array 32 m -> byte_array (KYBER_INDCPA_PUBLICKEYBYTES lv) pk -> byte_array 32 r ->
  indcpa_enc_avx2 lv fuel c 0 m 0 pk 0 r 0 = Ok c' T ->
  exists A, is_matrix (PS lv) (ek_rho (PS lv) pk) A /\ c' = K_PKE_Encrypt (PS lv) A pk m r.
Proof. exact avx_pke_enc. Qed.
Print Assumptions C46_enc.

Theorem C46_enc_complete : forall lv m pk r A,
  byte_array 32 m -> byte_array (KYBER_INDCPA_PUBLICKEYBYTES lv) pk -> byte_array 32 r ->
  is_matrix (PS lv) (ek_rho (PS lv) pk) A ->
  exists fuel0, forall fuel (JJ : Junk) c, (fuel0 <= fuel)%nat -> length c = KYBER_CIPHERTEXTBYTES lv ->
    exists T, indcpa_enc_avx2 lv fuel c 0 m 0 pk 0 r 0 = Ok (K_PKE_Encrypt (PS lv) A pk m r) T.
Proof. exact avx_pke_enc_complete. Qed.
Print Assumptions C46_enc_complete.

Theorem C46_dec : forall lv,
  exists T, forall (JJ : Junk) m c sk,
  length m = 32%nat -> byte_array (KYBER_CIPHERTEXTBYTES lv) c -> byte_array (KYBER_INDCPA_SECRETKEYBYTES lv) sk ->
  indcpa_dec_avx2 lv m 0 c 0 sk 0 = Ok (K_PKE_Decrypt (PS lv) sk c) T.
Proof. exact avx_pke_dec. Qed.
Print Assumptions C46_dec.

Theorem C46_correct : forall lv fuel f2 (J1 J2 J3 : Junk) pk sk c mbuf d m r pk' sk' c' T1 T2 A,
  length pk = KYBER_INDCPA_PUBLICKEYBYTES lv -> length sk = KYBER_INDCPA_SECRETKEYBYTES lv -> length c = KYBER_CIPHERTEXTBYTES lv ->
  length mbuf = 32%nat -> byte_array 32 d -> byte_array 32 m -> byte_array 32 r ->
  @indcpa_keypair_derand_avx2 J1 lv fuel pk 0 sk 0 d 0 = Ok (pk', sk') T1 ->
  @indcpa_enc_avx2 J2 lv f2 c 0 m 0 pk' 0 r 0 = Ok c' T2 ->
  is_matrix (PS lv) (keygen_rho (PS lv) d) A ->
  exists m' T3, @indcpa_dec_avx2 J3 lv mbuf 0 c' 0 sk' 0 = Ok m' T3 /\
    (m' = m <-> noise_decodes m (decryption_noise (PS lv) A d m r)).
Proof. exact avx_pke_correct. Qed.
Print Assumptions C46_correct.

Theorem C46_reduced_key : forall lv fuel (JJ : Junk) c m t rho coins,
  length c = KYBER_CIPHERTEXTBYTES lv -> byte_array 32 m -> byte_array (384 * k (PS lv)) t -> byte_array 32 rho -> byte_array 32 coins ->
  indcpa_enc_avx2 lv fuel c 0 m 0 (t ++ rho) 0 coins 0
  = indcpa_enc_avx2 lv fuel c 0 m 0 (canonical_key (PS lv) t ++ rho) 0 coins 0.
Proof. exact avx_enc_sees_reduced_key. Qed.
Print Assumptions C46_reduced_key.

Example C46_case : exists A fuel pk sk c T1 T2,
  is_matrix (PS Kyber512) (keygen_rho (PS Kyber512) demo_d) A /\
  @indcpa_keypair_derand_avx2 no_junk Kyber512 fuel (repeat 0 800) 0 (repeat 0 768) 0 demo_d 0 = Ok (pk, sk) T1 /\
  @indcpa_enc_avx2 no_junk Kyber512 fuel (repeat 0 768) 0 demo_m 0 pk 0 demo_z 0 = Ok c T2.
Proof. exact avx_case_pke. Qed.

(** ** C47: the key encapsulation is that of FIPS 203 *)

Theorem C47_keypair_sound : forall lv fuel (JJ : Junk) pk sk d z ek dk r T,
  length pk = KYBER_PUBLICKEYBYTES lv -> length sk = KYBER_SECRETKEYBYTES lv -> byte_array 32 d -> byte_array 32 z ->
  crypto_kem_keypair_derand_avx2 lv fuel pk sk (d ++ z) = Ok (ek, dk, r) T ->
  r = 0 /\ KeyGen_internal (PS lv) d z ek dk.
Proof. exact avx_keypair_sound'. Qed.
Print Assumptions C47_keypair_sound.

Theorem C47_keypair_complete : forall lv d z ek dk,
  byte_array 32 d -> byte_array 32 z -> KeyGen_internal (PS lv) d z ek dk ->
  exists fuel0, forall fuel (JJ : Junk) pk sk, (fuel0 <= fuel)%nat ->
    length pk = KYBER_PUBLICKEYBYTES lv -> length sk = KYBER_SECRETKEYBYTES lv ->
    exists T, crypto_kem_keypair_derand_avx2 lv fuel pk sk (d ++ z) = Ok (ek, dk, 0) T.
Proof. exact avx_keypair_complete'. Qed.
Print Assumptions C47_keypair_complete.

Theorem C47_keypair_diverges : forall lv d z,
  byte_array 32 d -> byte_array 32 z ->
  (forall A, ~ is_matrix (PS lv) (keygen_rho (PS lv) d) A) ->
  forall fuel (JJ : Junk) pk sk, crypto_kem_keypair_derand_avx2 lv fuel pk sk (d ++ z) = Timeout.
Proof. exact avx_keypair_diverges'. Qed.
Print Assumptions C47_keypair_diverges.

Theorem C47_enc_sound : forall lv fuel (JJ : Junk) ct ss pk m ct' ss' r T,
  length ct = KYBER_CIPHERTEXTBYTES lv -> length ss = 32%nat ->
  byte_array (KYBER_PUBLICKEYBYTES lv) pk -> byte_array 32 m ->
  crypto_kem_enc_derand_avx2 lv fuel ct ss pk m = Ok (ct', ss', r) T ->
  r = 0 /\ Encaps_internal (PS lv) pk m ss' ct'.
Proof. exact avx_enc_sound. Qed.
Print Assumptions C47_enc_sound.

Theorem C47_enc_complete : forall lv pk m K c,
  byte_array (KYBER_PUBLICKEYBYTES lv) pk -> byte_array 32 m ->
  Encaps_internal (PS lv) pk m K c ->
  exists fuel0, forall fuel (JJ : Junk) ct ss, (fuel0 <= fuel)%nat ->
    length ct = KYBER_CIPHERTEXTBYTES lv -> length ss = 32%nat ->
    exists T, crypto_kem_enc_derand_avx2 lv fuel ct ss pk m = Ok (c, K, 0) T.
Proof. exact avx_enc_complete. Qed.
Print Assumptions C47_enc_complete.

Theorem C47_enc_diverges : forall lv pk m,
  byte_array (KYBER_PUBLICKEYBYTES lv) pk -> byte_array 32 m ->
  (forall A, ~ is_matrix (PS lv) (ek_rho (PS lv) pk) A) ->
  forall fuel (JJ : Junk) ct ss, crypto_kem_enc_derand_avx2 lv fuel ct ss pk m = Timeout.
Proof. exact avx_enc_diverges. Qed.
Print Assumptions C47_enc_diverges.

Theorem C47_dec_sound : forall lv fuel (JJ : Junk) ss ct sk ss' r T,
  length ss = 32%nat -> byte_array (KYBER_CIPHERTEXTBYTES lv) ct -> byte_array (KYBER_SECRETKEYBYTES lv) sk ->
  crypto_kem_dec_avx2 lv fuel ss ct sk = Ok (ss', r) T -> r = 0 /\ Decaps_internal (PS lv) sk ct ss'.
Proof. exact avx_dec_sound. Qed.
Print Assumptions C47_dec_sound.

Theorem C47_dec_complete : forall lv ct sk K,
  byte_array (KYBER_CIPHERTEXTBYTES lv) ct -> byte_array (KYBER_SECRETKEYBYTES lv) sk ->
  Decaps_internal (PS lv) sk ct K ->
  exists fuel0, forall fuel (JJ : Junk) ss, (fuel0 <= fuel)%nat -> length ss = 32%nat ->
    exists T, crypto_kem_dec_avx2 lv fuel ss ct sk = Ok (K, 0) T.
Proof. exact avx_dec_complete. Qed.
Print Assumptions C47_dec_complete.

Theorem C47_dec_diverges : forall lv ct sk,
  byte_array (KYBER_CIPHERTEXTBYTES lv) ct -> byte_array (KYBER_SECRETKEYBYTES lv) sk ->
  (forall A, ~ is_matrix (PS lv) (ek_rho (PS lv) (dk_ek (PS lv) sk)) A) ->
  forall fuel (JJ : Junk) ss, crypto_kem_dec_avx2 lv fuel ss ct sk = Timeout.
Proof. exact avx_dec_diverges. Qed.
Print Assumptions C47_dec_diverges.

Theorem C47_implicit_rejection : forall lv fuel (JJ : Junk) ss ct s t rho h z ss' r T,
  length ss = 32%nat -> byte_array (KYBER_CIPHERTEXTBYTES lv) ct ->
  byte_array (384 * k (PS lv)) s -> byte_array (384 * k (PS lv)) t -> byte_array 32 rho -> byte_array 32 h -> byte_array 32 z ->
  crypto_kem_dec_avx2 lv fuel ss ct (s ++ t ++ rho ++ h ++ z) = Ok (ss', r) T ->
  r = 0 /\ exists A, is_matrix (PS lv) rho A /\
    let m := K_PKE_Decrypt (PS lv) s ct in
    let Kr := SHA3_512 (m ++ h) in
    let ct' := K_PKE_Encrypt (PS lv) A (t ++ rho) m (skipn 32 Kr) in
    (ct = ct' /\ ss' = firstn 32 Kr) \/ (ct <> ct' /\ ss' = SHAKE256 (z ++ ct) 32).
Proof. exact avx_implicit_rejection. Qed.
Print Assumptions C47_implicit_rejection.

Theorem C47_secret_key_layout : forall lv fuel (JJ : Junk) pk sk d z ek dk r T,
  length pk = api_PUBLICKEYBYTES lv -> length sk = api_SECRETKEYBYTES lv -> byte_array 32 d -> byte_array 32 z ->
  crypto_kem_keypair_derand_avx2 lv fuel pk sk (d ++ z) = Ok (ek, dk, r) T ->
  byte_array (api_PUBLICKEYBYTES lv) ek /\ byte_array (api_SECRETKEYBYTES lv) dk /\
  exists A, is_matrix (PS lv) (keygen_rho (PS lv) d) A /\ ek = fst (K_PKE_KeyGen (PS lv) A d) /\
    dk = snd (K_PKE_KeyGen (PS lv) A d) ++ ek ++ SHA3_256 ek ++ z.
Proof. exact avx_secret_key_layout. Qed.
Print Assumptions C47_secret_key_layout.

(** No undefined behaviour for valid buffers *)

Theorem C47_keypair_safe : forall lv fuel (JJ : Junk) pk sk coins,
  length pk = KYBER_PUBLICKEYBYTES lv -> length sk = KYBER_SECRETKEYBYTES lv -> byte_array 64 coins ->
  (forall u, crypto_kem_keypair_derand_avx2 lv fuel pk sk coins <> UB u) /\ crypto_kem_keypair_derand_avx2 lv fuel pk sk coins <> Abort /\
  (crypto_kem_keypair_derand_avx2 lv fuel pk sk coins = Timeout <->
   ~ exists ek dk T, crypto_kem_keypair_derand_avx2 lv fuel pk sk coins = Ok (ek, dk, 0) T).
Proof. exact avx_keypair_safe. Qed.
Print Assumptions C47_keypair_safe.

Theorem C47_enc_safe : forall lv fuel (JJ : Junk) ct ss pk m,
  length ct = KYBER_CIPHERTEXTBYTES lv -> length ss = 32%nat -> byte_array (KYBER_PUBLICKEYBYTES lv) pk -> byte_array 32 m ->
  (forall u, crypto_kem_enc_derand_avx2 lv fuel ct ss pk m <> UB u) /\ crypto_kem_enc_derand_avx2 lv fuel ct ss pk m <> Abort /\
  (crypto_kem_enc_derand_avx2 lv fuel ct ss pk m = Timeout <->
   ~ exists c K T, crypto_kem_enc_derand_avx2 lv fuel ct ss pk m = Ok (c, K, 0) T).
Proof. exact avx_enc_safe. Qed.
Print Assumptions C47_enc_safe.

Theorem C47_dec_safe : forall lv fuel (JJ : Junk) ss ct sk,
  length ss = 32%nat -> byte_array (KYBER_CIPHERTEXTBYTES lv) ct -> byte_array (KYBER_SECRETKEYBYTES lv) sk ->
  (forall u, crypto_kem_dec_avx2 lv fuel ss ct sk <> UB u) /\ crypto_kem_dec_avx2 lv fuel ss ct sk <> Abort /\
  (crypto_kem_dec_avx2 lv fuel ss ct sk = Timeout <-> ~ exists K T, crypto_kem_dec_avx2 lv fuel ss ct sk = Ok (K, 0) T).
Proof. exact avx_dec_safe. Qed.
Print Assumptions C47_dec_safe.

(** The randomised functions use the bytes the kernel delivers *)

Theorem C47_keypair_random : forall lv fuel (JJ : Junk) sched pk sk ek dk r rest T,
  kernel_ok sched 64 ->
  crypto_kem_keypair_avx2 lv fuel sched pk sk = Ok (ek, dk, r, rest) T ->
  r = 0 /\ exists used T', sched = used ++ rest /\ ~ In Failed used /\ shortest used 64 /\ byte_array 64 (delivered used) /\
    crypto_kem_keypair_derand_avx2 lv fuel pk sk (delivered used) = Ok (ek, dk, 0) T'.
Proof. exact avx_keypair_random. Qed.
Print Assumptions C47_keypair_random.

Theorem C47_keypair_random_derand : forall lv fuel (JJ : Junk) used rest pk sk,
  kernel_ok (used ++ rest) 64 -> ~ In Failed used ->
  shortest used 64 -> length (delivered used) = 64%nat ->
  match crypto_kem_keypair_derand_avx2 lv fuel pk sk (delivered used) with
  | Ok (ek, dk, _) _ => exists T, crypto_kem_keypair_avx2 lv fuel (used ++ rest) pk sk = Ok (ek, dk, 0, rest) T
  | UB u => crypto_kem_keypair_avx2 lv fuel (used ++ rest) pk sk = UB u
  | Timeout => crypto_kem_keypair_avx2 lv fuel (used ++ rest) pk sk = Timeout
  | Abort => crypto_kem_keypair_avx2 lv fuel (used ++ rest) pk sk = Abort
  end.
Proof. exact avx_keypair_random_derand. Qed.
Print Assumptions C47_keypair_random_derand.

Theorem C47_keypair_random_failure : forall lv fuel (JJ : Junk) used rest pk sk,
  kernel_ok (used ++ Failed :: rest) 64 -> ~ In Failed used ->
  (length (delivered used) < 64)%nat -> crypto_kem_keypair_avx2 lv fuel (used ++ Failed :: rest) pk sk = Abort.
Proof. exact avx_keypair_random_failure. Qed.
Print Assumptions C47_keypair_random_failure.

Theorem C47_enc_random : forall lv fuel (JJ : Junk) sched ct ss pk c K r rest T,
  kernel_ok sched 32 ->
  crypto_kem_enc_avx2 lv fuel sched ct ss pk = Ok (c, K, r, rest) T ->
  r = 0 /\ exists used T', sched = used ++ rest /\ ~ In Failed used /\ shortest used 32 /\ byte_array 32 (delivered used) /\
    crypto_kem_enc_derand_avx2 lv fuel ct ss pk (delivered used) = Ok (c, K, 0) T'.
Proof. exact avx_enc_random. Qed.
Print Assumptions C47_enc_random.

Theorem C47_enc_random_derand : forall lv fuel (JJ : Junk) used rest ct ss pk,
  kernel_ok (used ++ rest) 32 -> ~ In Failed used ->
  shortest used 32 -> length (delivered used) = 32%nat ->
  match crypto_kem_enc_derand_avx2 lv fuel ct ss pk (delivered used) with
  | Ok (c, K, _) _ => exists T, crypto_kem_enc_avx2 lv fuel (used ++ rest) ct ss pk = Ok (c, K, 0, rest) T
  | UB u => crypto_kem_enc_avx2 lv fuel (used ++ rest) ct ss pk = UB u
  | Timeout => crypto_kem_enc_avx2 lv fuel (used ++ rest) ct ss pk = Timeout
  | Abort => crypto_kem_enc_avx2 lv fuel (used ++ rest) ct ss pk = Abort
  end.
Proof. exact avx_enc_random_derand. Qed.
Print Assumptions C47_enc_random_derand.

Theorem C47_enc_random_failure : forall lv fuel (JJ : Junk) used rest ct ss pk,
  kernel_ok (used ++ Failed :: rest) 32 -> ~ In Failed used ->
  (length (delivered used) < 32)%nat -> crypto_kem_enc_avx2 lv fuel (used ++ Failed :: rest) ct ss pk = Abort.
Proof. exact avx_enc_random_failure. Qed.
Print Assumptions C47_enc_random_failure.

Example C47_case : exists A ek dk c K T1 T2 T3,
  is_matrix (PS Kyber512) (keygen_rho (PS Kyber512) demo_d) A /\
  @crypto_kem_keypair_derand_avx2 no_junk Kyber512 2 (repeat 0 800) (repeat 0 1632) (demo_d ++ demo_z) = Ok (ek, dk, 0) T1 /\
  @crypto_kem_enc_derand_avx2 no_junk Kyber512 2 (repeat 0 768) (repeat 0 32) ek demo_m = Ok (c, K, 0) T2 /\
  @crypto_kem_dec_avx2 no_junk Kyber512 2 (repeat 0 32) c dk = Ok (K, 0) T3 /\
  noise_decodes demo_m (decryption_noise (PS Kyber512) A demo_d demo_m (skipn 32 (SHA3_512 (demo_m ++ SHA3_256 ek)))).
Proof. exact avx_case_exchange. Qed.
(** Both branches of decapsulation occur *)
Example C47_case_rejection : exists s t h c c' K T T',
  byte_array (KYBER_CIPHERTEXTBYTES Kyber512) c /\ byte_array (KYBER_CIPHERTEXTBYTES Kyber512) c' /\ c' <> c /\
  byte_array (384 * k (PS Kyber512)) s /\ byte_array (384 * k (PS Kyber512)) t /\ byte_array 32 demo_rho /\ byte_array 32 h /\
  @crypto_kem_dec_avx2 no_junk Kyber512 2 (repeat 0 32) c (s ++ t ++ demo_rho ++ h ++ demo_z) = Ok (K, 0) T /\
  @crypto_kem_dec_avx2 no_junk Kyber512 2 (repeat 0 32) c' (s ++ t ++ demo_rho ++ h ++ demo_z) = Ok (SHAKE256 (demo_z ++ c') 32, 0) T'.
Proof. exact avx_case_rejection. Qed.
Example C47_case_random : exists ek dk T,
  @crypto_kem_keypair_avx2 no_junk Kyber512 2 (demo_sched ++ [Failed]) (repeat 0 800) (repeat 0 1632) = Ok (ek, dk, 0, [Failed]) T.
Proof. exact avx_case_random_keypair. Qed.
