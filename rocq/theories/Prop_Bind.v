(** * C51 and C52: what a shared secret binds *)
From Coq Require Import ZArith List.
From Verif Require Import CMonad Levels Model_Params Model_Kem Model_AvxKem Spec_FIPS202 Spec_FIPS203 Spec_Noise Vocab Vocab_Code Vocab_Avx Vocab_Bind
  Cases Run_Kem Proof_Demo Proof_Cases Proof_Bind.
Import ListNotations.
Open Scope Z_scope.
Local Opaque SHA3_256 SHA3_512 SHAKE128 SHAKE256.
Local Opaque crypto_kem_keypair_derand crypto_kem_enc_derand crypto_kem_dec
  crypto_kem_keypair_derand_avx2 crypto_kem_enc_derand_avx2 crypto_kem_dec_avx2.

(** ** C51: equal secrets mean equal inputs, or a collision at named hash inputs *)

(** Two ciphertexts under one secret key, well formed or not *)
Theorem C51_tampering : forall V1 V2 lv f1 f2 (J1 J2 : Junk) ss1 ss2 ct1 ct2 s t rho h z K1 K2 r1 r2 T1 T2,
  length ss1 = 32%nat -> length ss2 = 32%nat ->
  byte_array (KYBER_CIPHERTEXTBYTES lv) ct1 -> byte_array (KYBER_CIPHERTEXTBYTES lv) ct2 ->
  byte_array (384 * k (PS lv)) s -> byte_array (384 * k (PS lv)) t -> byte_array 32 rho -> byte_array 32 h -> byte_array 32 z ->
  dec_of V1 J1 lv f1 ss1 ct1 (s ++ t ++ rho ++ h ++ z) = Ok (K1, r1) T1 ->
  dec_of V2 J2 lv f2 ss2 ct2 (s ++ t ++ rho ++ h ++ z) = Ok (K2, r2) T2 ->
  ct1 <> ct2 -> K1 = K2 ->
  let m1 := K_PKE_Decrypt (PS lv) s ct1 in
  let m2 := K_PKE_Decrypt (PS lv) s ct2 in
  collide accept_key (m1 ++ h) (m2 ++ h) \/ collide reject_key (z ++ ct1) (z ++ ct2) \/
  accept_key (m1 ++ h) = reject_key (z ++ ct2) \/ reject_key (z ++ ct1) = accept_key (m2 ++ h).
Proof. exact tampering_eq. Qed.
Print Assumptions C51_tampering.

(** A sender, and a receiver who got another ciphertext; no assumption on the decryption noise *)
Theorem C51_replaced_ciphertext : forall V1 V2 lv f1 f2 (J1 J2 : Junk) ctb ss1 ss2 pk m c K1 c' s z K2 r1 r2 T1 T2,
  length ctb = KYBER_CIPHERTEXTBYTES lv -> length ss1 = 32%nat -> byte_array (KYBER_PUBLICKEYBYTES lv) pk -> byte_array 32 m ->
  length ss2 = 32%nat -> byte_array (KYBER_CIPHERTEXTBYTES lv) c' -> byte_array (384 * k (PS lv)) s -> byte_array 32 z ->
  enc_derand_of V1 J1 lv f1 ctb ss1 pk m = Ok (c, K1, r1) T1 ->
  dec_of V2 J2 lv f2 ss2 c' (s ++ pk ++ SHA3_256 pk ++ z) = Ok (K2, r2) T2 ->
  c' <> c -> K1 = K2 ->
  collide accept_key (m ++ SHA3_256 pk) (K_PKE_Decrypt (PS lv) s c' ++ SHA3_256 pk) \/
  accept_key (m ++ SHA3_256 pk) = reject_key (z ++ c').
Proof. exact replaced. Qed.
Print Assumptions C51_replaced_ciphertext.

(** Two secret keys whose stored hash is that of the stored public key *)
Theorem C51_keys : forall V1 V2 lv f1 f2 (J1 J2 : Junk) ss1 ss2 ct1 ct2 s1 s2 pk1 pk2 z1 z2 K1 K2 r1 r2 T1 T2,
  length ss1 = 32%nat -> byte_array (KYBER_CIPHERTEXTBYTES lv) ct1 -> byte_array (384 * k (PS lv)) s1 ->
  byte_array (KYBER_PUBLICKEYBYTES lv) pk1 -> byte_array 32 z1 ->
  length ss2 = 32%nat -> byte_array (KYBER_CIPHERTEXTBYTES lv) ct2 -> byte_array (384 * k (PS lv)) s2 ->
  byte_array (KYBER_PUBLICKEYBYTES lv) pk2 -> byte_array 32 z2 ->
  dec_of V1 J1 lv f1 ss1 ct1 (s1 ++ pk1 ++ SHA3_256 pk1 ++ z1) = Ok (K1, r1) T1 ->
  dec_of V2 J2 lv f2 ss2 ct2 (s2 ++ pk2 ++ SHA3_256 pk2 ++ z2) = Ok (K2, r2) T2 ->
  K1 = K2 ->
  let m1 := K_PKE_Decrypt (PS lv) s1 ct1 in
  let m2 := K_PKE_Decrypt (PS lv) s2 ct2 in
  (ct1 = ct2 /\ (pk1 = pk2 /\ m1 = m2 \/ z1 = z2)) \/
  collide SHA3_256 pk1 pk2 \/
  collide accept_key (m1 ++ SHA3_256 pk1) (m2 ++ SHA3_256 pk2) \/
  collide reject_key (z1 ++ ct1) (z2 ++ ct2) \/
  accept_key (m1 ++ SHA3_256 pk1) = reject_key (z2 ++ ct2) \/
  reject_key (z1 ++ ct1) = accept_key (m2 ++ SHA3_256 pk2).
Proof. exact key_binding_eq. Qed.
Print Assumptions C51_keys.

(** Two encapsulations *)
Theorem C51_encapsulation : forall V1 V2 lv f1 f2 (J1 J2 : Junk) ct1 ct2 ss1 ss2 pk1 pk2 m1 m2 c1 c2 K1 K2 r1 r2 T1 T2,
  length ct1 = KYBER_CIPHERTEXTBYTES lv -> length ss1 = 32%nat -> byte_array (KYBER_PUBLICKEYBYTES lv) pk1 -> byte_array 32 m1 ->
  length ct2 = KYBER_CIPHERTEXTBYTES lv -> length ss2 = 32%nat -> byte_array (KYBER_PUBLICKEYBYTES lv) pk2 -> byte_array 32 m2 ->
  enc_derand_of V1 J1 lv f1 ct1 ss1 pk1 m1 = Ok (c1, K1, r1) T1 ->
  enc_derand_of V2 J2 lv f2 ct2 ss2 pk2 m2 = Ok (c2, K2, r2) T2 ->
  K1 = K2 ->
  (pk1 = pk2 /\ m1 = m2 /\ c1 = c2) \/
  collide SHA3_256 pk1 pk2 \/ collide accept_key (m1 ++ SHA3_256 pk1) (m2 ++ SHA3_256 pk2).
Proof. exact enc_binding_eq. Qed.
Print Assumptions C51_encapsulation.

Example C51_case_tampering : exists s t h c c' K K' T T',
  byte_array (384 * k (PS Kyber512)) s /\ byte_array (384 * k (PS Kyber512)) t /\ byte_array 32 demo_rho /\ byte_array 32 h /\
  byte_array (KYBER_CIPHERTEXTBYTES Kyber512) c /\ byte_array (KYBER_CIPHERTEXTBYTES Kyber512) c' /\ c <> c' /\
  dec_of Reference no_junk Kyber512 2 (repeat 0 32) c (s ++ t ++ demo_rho ++ h ++ demo_z) = Ok (K, 0) T /\
  dec_of Reference no_junk Kyber512 2 (repeat 0 32) c' (s ++ t ++ demo_rho ++ h ++ demo_z) = Ok (K', 0) T'.
Proof. exact case_tampering. Qed.
Example C51_case_replaced : exists pk s c K K' T T',
  byte_array (KYBER_PUBLICKEYBYTES Kyber512) pk /\ byte_array (384 * k (PS Kyber512)) s /\
  byte_array (KYBER_CIPHERTEXTBYTES Kyber512) (tampered c) /\ tampered c <> c /\
  enc_derand_of Reference no_junk Kyber512 2 (repeat 0 768) (repeat 0 32) pk demo_m = Ok (c, K, 0) T /\
  dec_of Reference no_junk Kyber512 2 (repeat 0 32) (tampered c) (s ++ pk ++ SHA3_256 pk ++ demo_z) = Ok (K', 0) T'.
Proof. exact case_replaced. Qed.

(** ** C52: a decapsulation key is not checked *)

(** Whatever the secret vector, the stored vector, the stored hash and the rejection value *)
Theorem C52_every_key_accepted : forall V lv rho A,
  byte_array 32 rho -> is_matrix (PS lv) rho A ->
  exists fuel0, forall fuel (JJ : Junk) ss ct s t h z, (fuel0 <= fuel)%nat -> length ss = 32%nat ->
    byte_array (KYBER_CIPHERTEXTBYTES lv) ct -> byte_array (384 * k (PS lv)) s -> byte_array (384 * k (PS lv)) t ->
    byte_array 32 h -> byte_array 32 z ->
    exists K T, dec_of V JJ lv fuel ss ct (s ++ t ++ rho ++ h ++ z) = Ok (K, 0) T.
Proof. exact any_secret_key. Qed.
Print Assumptions C52_every_key_accepted.

(** A key whose stored hash is not that of its stored public key; the code has no such check *)
Theorem C52_hash_check_refuted : exists s t rho h z fuel0,
  byte_array (384 * k (PS Kyber512)) s /\ byte_array (384 * k (PS Kyber512)) t /\ byte_array 32 rho /\ byte_array 32 h /\ byte_array 32 z /\
  h <> SHA3_256 (t ++ rho) /\
  forall V fuel (JJ : Junk) ss ct, (fuel0 <= fuel)%nat -> length ss = 32%nat -> byte_array (KYBER_CIPHERTEXTBYTES Kyber512) ct ->
    exists K T, dec_of V JJ Kyber512 fuel ss ct (s ++ t ++ rho ++ h ++ z) = Ok (K, 0) T.
Proof. exact wrong_hash_exists. Qed.
Print Assumptions C52_hash_check_refuted.

(** A key pair with another stored hash still decapsulates what a sender using that hash would send *)
Theorem C52_any_hash_agrees : forall V lv d z A h m,
  let P := PS lv in
  byte_array 32 d -> byte_array 32 z -> byte_array 32 h -> byte_array 32 m ->
  is_matrix P (keygen_rho P d) A ->
  let Kr := SHA3_512 (m ++ h) in
  noise_decodes m (decryption_noise P A d m (skipn 32 Kr)) ->
  exists fuel0, forall fuel (JJ : Junk) ss, (fuel0 <= fuel)%nat -> length ss = 32%nat ->
    exists T, dec_of V JJ lv fuel ss (K_PKE_Encrypt P A (fst (K_PKE_KeyGen P A d)) m (skipn 32 Kr))
                (snd (K_PKE_KeyGen P A d) ++ fst (K_PKE_KeyGen P A d) ++ h ++ z) = Ok (firstn 32 Kr, 0) T.
Proof. exact any_hash. Qed.
Print Assumptions C52_any_hash_agrees.

(** The stored vector counts modulo q only: two secret keys, one of them ill formed, with the same runs on everything *)
Theorem C52_reduced_stored_key : forall V (JJ : Junk) lv fuel ss ct s t rho h z,
  length ss = 32%nat -> byte_array (KYBER_CIPHERTEXTBYTES lv) ct ->
  byte_array (384 * k (PS lv)) s -> byte_array (384 * k (PS lv)) t -> byte_array 32 rho -> byte_array 32 h -> byte_array 32 z ->
  dec_of V JJ lv fuel ss ct (s ++ t ++ rho ++ h ++ z) = dec_of V JJ lv fuel ss ct (s ++ canonical_key (PS lv) t ++ rho ++ h ++ z).
Proof. exact dec_reduced_key. Qed.
Print Assumptions C52_reduced_stored_key.

(** Encapsulation, in both variants, takes the key whose vector bytes are all 255 (no modulus check) *)
Theorem C52_noncanonical_accepted : forall V lv rho A m,
  byte_array 32 rho -> is_matrix (PS lv) rho A -> byte_array 32 m ->
  exists fuel0, forall fuel (JJ : Junk) ct ss, (fuel0 <= fuel)%nat -> length ct = KYBER_CIPHERTEXTBYTES lv -> length ss = 32%nat ->
    exists c K T, enc_derand_of V JJ lv fuel ct ss (repeat 255 (384 * k (PS lv)) ++ rho) m = Ok (c, K, 0) T.
Proof. exact of_noncanonical_accepted. Qed.
Print Assumptions C52_noncanonical_accepted.

Example C52_case : exists A h, byte_array 32 h /\ is_matrix (PS Kyber512) (keygen_rho (PS Kyber512) demo_d) A /\
  noise_decodes demo_m (decryption_noise (PS Kyber512) A demo_d demo_m (skipn 32 (SHA3_512 (demo_m ++ h)))).
Proof. exact case_any_hash. Qed.
