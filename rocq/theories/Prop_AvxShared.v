(** * C70: overlapping buffers with the AVX2 code *)
From Coq Require Import ZArith List.
From Verif Require Import CMonad Levels Model_Params Model_Kem Model_Shared Model_SharedKey Model_AvxKem Model_AvxShared
  Vocab Vocab_Rng Vocab_Buffers Run_Kem Proof_PropAvxShared.
Import ListNotations.
Open Scope Z_scope.

(** Wherever the buffers lie, the AVX2 function does what the reference function does: the same memory, or undefined behaviour, or no end. *)
Theorem C70_keypair : forall lv fuel (JJ : Junk) mem po sko co,
  all_bytes mem ->
  (po + KYBER_PUBLICKEYBYTES lv <= length mem)%nat -> (sko + KYBER_SECRETKEYBYTES lv <= length mem)%nat -> (co + 64 <= length mem)%nat ->
  same_result (crypto_kem_keypair_derand_avx2_shared lv fuel mem po sko co) (crypto_kem_keypair_derand_shared lv fuel mem po sko co).
Proof. exact avx_keypair_shared'. Qed.
Print Assumptions C70_keypair.

Theorem C70_enc : forall lv fuel (JJ : Junk) mem cto sso po co,
  all_bytes mem ->
  (cto + KYBER_CIPHERTEXTBYTES lv <= length mem)%nat -> (sso + 32 <= length mem)%nat ->
  (po + KYBER_PUBLICKEYBYTES lv <= length mem)%nat -> (co + 32 <= length mem)%nat ->
  same_result (crypto_kem_enc_derand_avx2_shared lv fuel mem cto sso po co) (crypto_kem_enc_derand_shared lv fuel mem cto sso po co).
Proof. exact avx_enc_shared'. Qed.
Print Assumptions C70_enc.

Theorem C70_dec : forall lv fuel (JJ : Junk) mem sso cto sko,
  all_bytes mem ->
  (sso + 32 <= length mem)%nat -> (cto + KYBER_CIPHERTEXTBYTES lv <= length mem)%nat -> (sko + KYBER_SECRETKEYBYTES lv <= length mem)%nat ->
  same_result (crypto_kem_dec_avx2_shared lv fuel mem sso cto sko) (crypto_kem_dec_shared lv fuel mem sso cto sko).
Proof. exact avx_dec_shared'. Qed.
Print Assumptions C70_dec.

(** So for encapsulation and decapsulation overlaps are harmless. *)
Theorem C70_enc_overlap : forall lv fuel (JJ : Junk) mem cto sso po co,
  all_bytes mem ->
  (cto + KYBER_CIPHERTEXTBYTES lv <= length mem)%nat -> (sso + 32 <= length mem)%nat ->
  (po + KYBER_PUBLICKEYBYTES lv <= length mem)%nat -> (co + 32 <= length mem)%nat ->
  same_result (crypto_kem_enc_derand_avx2_shared lv fuel mem cto sso po co)
    (with_value (fun '(c, K, r) => (overwrite (overwrite mem cto c) sso K, r))
       (crypto_kem_enc_derand_avx2 lv fuel (region mem cto (KYBER_CIPHERTEXTBYTES lv)) (region mem sso 32)
          (region mem po (KYBER_PUBLICKEYBYTES lv)) (region mem co 32))).
Proof. exact avx_enc_overlap. Qed.
Print Assumptions C70_enc_overlap.

Theorem C70_dec_overlap : forall lv fuel (JJ : Junk) mem sso cto sko,
  all_bytes mem ->
  (sso + 32 <= length mem)%nat -> (cto + KYBER_CIPHERTEXTBYTES lv <= length mem)%nat -> (sko + KYBER_SECRETKEYBYTES lv <= length mem)%nat ->
  same_result (crypto_kem_dec_avx2_shared lv fuel mem sso cto sko)
    (with_value (fun '(K, r) => (overwrite mem sso K, r))
       (crypto_kem_dec_avx2 lv fuel (region mem sso 32) (region mem cto (KYBER_CIPHERTEXTBYTES lv)) (region mem sko (KYBER_SECRETKEYBYTES lv)))).
Proof. exact avx_dec_overlap. Qed.
Print Assumptions C70_dec_overlap.

(** Keys and coins apart; the public key over its copy in the secret key; the ciphertext over the public key and the
    secret over the coins; the secret over the end of the ciphertext *)
Example C70_case : exists ek dk c K T1 T2 T3 T4,
  @crypto_kem_keypair_derand no_junk Kyber512 2 (repeat 0 800) (repeat 0 1632) (demo_d ++ demo_z) = Ok (ek, dk, 0) T1 /\
  @crypto_kem_keypair_derand_avx2_shared no_junk Kyber512 2 (repeat 0 2432 ++ demo_d ++ demo_z) 0 800 2432 = Ok (ek ++ dk ++ demo_d ++ demo_z, 0) T2 /\
  @crypto_kem_keypair_derand_avx2_shared no_junk Kyber512 2 (repeat 0 2432 ++ demo_d ++ demo_z) 800 0 2432 = UB Overlap /\
  @crypto_kem_enc_derand_avx2_shared no_junk Kyber512 2 (ek ++ demo_m) 0 800 0 800 = Ok (c ++ skipn 768 ek ++ K, 0) T3 /\
  @crypto_kem_dec_avx2_shared no_junk Kyber512 2 (c ++ dk) 736 0 768 = Ok (firstn 736 c ++ K ++ dk, 0) T4.
Proof. exact avx_case_shared. Qed.
