(** * C69: the sizes of the buffers of the AVX2 KEM functions *)
From Coq Require Import ZArith List.
From Verif Require Import CMonad Levels Model_Params Model_AvxKem Vocab Vocab_Rng Vocab_Buffers Run_Kem Proof_Demo Proof_AvxBuffers Proof_PropAvxBuffers.
Import ListNotations.
Open Scope Z_scope.

(** Larger buffers: the extra bytes are neither read nor written. *)
Theorem C69_keypair_longer : forall lv fuel (JJ : Junk) pk sk coins t1 t2 t3,
  length pk = KYBER_PUBLICKEYBYTES lv -> length sk = KYBER_SECRETKEYBYTES lv -> byte_array 64 coins ->
  crypto_kem_keypair_derand_avx2 lv fuel (pk ++ t1) (sk ++ t2) (coins ++ t3) =
  with_value (fun '(ek, dk, r) => (ek ++ t1, dk ++ t2, r)) (crypto_kem_keypair_derand_avx2 lv fuel pk sk coins).
Proof. exact avx_keypair_longer'. Qed.
Print Assumptions C69_keypair_longer.

Theorem C69_enc_longer : forall lv fuel (JJ : Junk) ct ss pk coins t1 t2 t3 t4,
  length ct = KYBER_CIPHERTEXTBYTES lv -> length ss = 32%nat -> byte_array (KYBER_PUBLICKEYBYTES lv) pk -> byte_array 32 coins ->
  crypto_kem_enc_derand_avx2 lv fuel (ct ++ t1) (ss ++ t2) (pk ++ t3) (coins ++ t4) =
  with_value (fun '(c, K, r) => (c ++ t1, K ++ t2, r)) (crypto_kem_enc_derand_avx2 lv fuel ct ss pk coins).
Proof. exact avx_enc_longer'. Qed.
Print Assumptions C69_enc_longer.

Theorem C69_dec_longer : forall lv fuel (JJ : Junk) ss ct sk t1 t2 t3,
  length ss = 32%nat -> byte_array (KYBER_CIPHERTEXTBYTES lv) ct -> byte_array (KYBER_SECRETKEYBYTES lv) sk ->
  crypto_kem_dec_avx2 lv fuel (ss ++ t1) (ct ++ t2) (sk ++ t3) =
  with_value (fun '(K, r) => (K ++ t1, r)) (crypto_kem_dec_avx2 lv fuel ss ct sk).
Proof. exact avx_dec_longer'. Qed.
Print Assumptions C69_dec_longer.

(** One missing byte in any buffer: the run never returns, and it leaves the array as soon as it would return on a longer one. *)
Theorem C69_keypair_short : forall lv fuel (JJ : Junk) pk sk coins,
  all_bytes coins ->
  (length pk < KYBER_PUBLICKEYBYTES lv \/ length sk < KYBER_SECRETKEYBYTES lv \/ length coins < 64)%nat ->
  (forall v T, crypto_kem_keypair_derand_avx2 lv fuel pk sk coins <> Ok v T) /\
  (forall t1 t2 t3 v T, crypto_kem_keypair_derand_avx2 lv fuel (pk ++ t1) (sk ++ t2) (coins ++ t3) = Ok v T ->
     crypto_kem_keypair_derand_avx2 lv fuel pk sk coins = UB OutOfBounds).
Proof. exact keypair_avx_short. Qed.
Print Assumptions C69_keypair_short.

Theorem C69_enc_short : forall lv fuel (JJ : Junk) ct ss pk coins,
  all_bytes pk -> all_bytes coins ->
  (length ct < KYBER_CIPHERTEXTBYTES lv \/ length ss < 32 \/ length pk < KYBER_PUBLICKEYBYTES lv \/ length coins < 32)%nat ->
  (forall v T, crypto_kem_enc_derand_avx2 lv fuel ct ss pk coins <> Ok v T) /\
  (forall t1 t2 t3 t4 v T, crypto_kem_enc_derand_avx2 lv fuel (ct ++ t1) (ss ++ t2) (pk ++ t3) (coins ++ t4) = Ok v T ->
     crypto_kem_enc_derand_avx2 lv fuel ct ss pk coins = UB OutOfBounds).
Proof. exact enc_avx_short. Qed.
Print Assumptions C69_enc_short.

Theorem C69_dec_short : forall lv fuel (JJ : Junk) ss ct sk,
  all_bytes ct -> all_bytes sk ->
  (length ss < 32 \/ length ct < KYBER_CIPHERTEXTBYTES lv \/ length sk < KYBER_SECRETKEYBYTES lv)%nat ->
  (forall v T, crypto_kem_dec_avx2 lv fuel ss ct sk <> Ok v T) /\
  (forall t1 t2 t3 v T, crypto_kem_dec_avx2 lv fuel (ss ++ t1) (ct ++ t2) (sk ++ t3) = Ok v T ->
     crypto_kem_dec_avx2 lv fuel ss ct sk = UB OutOfBounds).
Proof. exact dec_avx_short. Qed.
Print Assumptions C69_dec_short.

Example C69_case : exists ek dk c K T1 T2 T3,
  @crypto_kem_keypair_derand_avx2 no_junk Kyber512 2 (repeat 0 800) (repeat 0 1632) (demo_d ++ demo_z) = Ok (ek, dk, 0) T1 /\
  @crypto_kem_keypair_derand_avx2 no_junk Kyber512 2 (repeat 0 800 ++ [7]) (repeat 0 1632) ((demo_d ++ demo_z) ++ [9]) = Ok (ek ++ [7], dk, 0) T1 /\
  @crypto_kem_keypair_derand_avx2 no_junk Kyber512 2 (repeat 0 799) (repeat 0 1632) (demo_d ++ demo_z) = UB OutOfBounds /\
  @crypto_kem_enc_derand_avx2 no_junk Kyber512 2 (repeat 0 768) (repeat 0 32 ++ [7]) (ek ++ [9]) demo_m = Ok (c, K ++ [7], 0) T2 /\
  @crypto_kem_enc_derand_avx2 no_junk Kyber512 2 (repeat 0 768) (repeat 0 31) ek demo_m = UB OutOfBounds /\
  @crypto_kem_dec_avx2 no_junk Kyber512 2 (repeat 0 32) (c ++ [5]) dk = Ok (K, 0) T3 /\
  @crypto_kem_dec_avx2 no_junk Kyber512 2 (repeat 0 32) (firstn 767 c) dk = UB OutOfBounds.
Proof. exact avx_case_sizes. Qed.
