(** * C75: which ciphertexts decapsulation accepts *)
From Coq Require Import ZArith List.
From Verif Require Import CMonad Levels Model_Params Model_Kem Model_AvxKem Spec_FIPS202 Spec_FIPS203 Spec_Noise Vocab Vocab_Code Vocab_Avx Vocab_Dist Vocab_Accept
  Cases Run_Kem Proof_Demo Proof_Cases Proof_Accept.
Import ListNotations.
Open Scope Z_scope.
Local Opaque SHA3_256 SHA3_512 SHAKE256 K_PKE_Encrypt K_PKE_Decrypt K_PKE_KeyGen crypto_kem_dec crypto_kem_dec_avx2.

(** Both versions return the key derived from the decrypted message on an accepted ciphertext, and the rejection key on every other. *)
Theorem C75_code : forall V lv fuel (JJ : Junk) ss ct s t rho h z ss' r T A,
  length ss = 32%nat -> byte_array (KYBER_CIPHERTEXTBYTES lv) ct ->
  byte_array (384 * k (PS lv)) s -> byte_array (384 * k (PS lv)) t -> byte_array 32 rho -> byte_array 32 h -> byte_array 32 z ->
  dec_of V JJ lv fuel ss ct (s ++ t ++ rho ++ h ++ z) = Ok (ss', r) T -> is_matrix (PS lv) rho A ->
  (accepted_ciphertext lv A s (t ++ rho) h ct -> ss' = firstn 32 (SHA3_512 (K_PKE_Decrypt (PS lv) s ct ++ h))) /\
  (~ accepted_ciphertext lv A s (t ++ rho) h ct -> ss' = SHAKE256 (z ++ ct) 32).
Proof. exact dec_accepted. Qed.
Print Assumptions C75_code.

(** There are as many accepted ciphertexts as messages that survive encryption and decryption, so at most 2^256 of
    the 256^768, 256^1088 or 256^1568 arrays of the right length, whatever the secret key. *)
Theorem C75_count : forall lv A s ek h, exists N,
  counted (accepted_ciphertext lv A s ek h) N /\ counted (recovered_message lv A s ek h) N /\ N <= 2 ^ 256.
Proof. exact accepted_count. Qed.
Print Assumptions C75_count.

(** For a key pair the code generated, the messages counted are those whose decryption noise stays in the window. *)
Theorem C75_generated : forall V lv fuel (JJ : Junk) pk sk d z ek dk r T A m,
  length pk = KYBER_PUBLICKEYBYTES lv -> length sk = KYBER_SECRETKEYBYTES lv -> byte_array 32 d -> byte_array 32 z ->
  keypair_derand_of V JJ lv fuel pk sk (d ++ z) = Ok (ek, dk, r) T -> is_matrix (PS lv) (keygen_rho (PS lv) d) A ->
  (recovered_message lv A (firstn (384 * k (PS lv)) dk) ek (SHA3_256 ek) m <->
   byte_array 32 m /\ noise_decodes m (decryption_noise (PS lv) A d m (skipn 32 (SHA3_512 (m ++ SHA3_256 ek))))).
Proof. exact generated_messages. Qed.
Print Assumptions C75_generated.

(** No message has two accepted ciphertexts: any other ciphertext decrypting to the same message gets the rejection key. *)
Theorem C75_unique : forall V lv fuel (JJ : Junk) ss c c' s t rho h z ss' r T A,
  length ss = 32%nat -> byte_array (KYBER_CIPHERTEXTBYTES lv) c' ->
  byte_array (384 * k (PS lv)) s -> byte_array (384 * k (PS lv)) t -> byte_array 32 rho -> byte_array 32 h -> byte_array 32 z ->
  accepted_ciphertext lv A s (t ++ rho) h c -> c' <> c -> K_PKE_Decrypt (PS lv) s c' = K_PKE_Decrypt (PS lv) s c ->
  dec_of V JJ lv fuel ss c' (s ++ t ++ rho ++ h ++ z) = Ok (ss', r) T -> is_matrix (PS lv) rho A ->
  ss' = SHAKE256 (z ++ c') 32.
Proof. exact dec_other. Qed.
Print Assumptions C75_unique.

(** So decapsulation is determined by encryption: the key of m on the encryption of a message m that survives, and the
    rejection key on what is no encryption of any message; the secret vector enters only through failures. *)
Theorem C75_oracle : forall V lv fuel (JJ : Junk) ss ct s t rho h z ss' r T A,
  length ss = 32%nat -> byte_array (KYBER_CIPHERTEXTBYTES lv) ct ->
  byte_array (384 * k (PS lv)) s -> byte_array (384 * k (PS lv)) t -> byte_array 32 rho -> byte_array 32 h -> byte_array 32 z ->
  dec_of V JJ lv fuel ss ct (s ++ t ++ rho ++ h ++ z) = Ok (ss', r) T -> is_matrix (PS lv) rho A ->
  (forall m, recovered_message lv A s (t ++ rho) h m -> derandomised (PS lv) A (t ++ rho) h m = ct -> ss' = firstn 32 (SHA3_512 (m ++ h))) /\
  ((forall m, byte_array 32 m -> derandomised (PS lv) A (t ++ rho) h m <> ct) -> ss' = SHAKE256 (z ++ ct) 32).
Proof. exact dec_oracle. Qed.
Print Assumptions C75_oracle.

(** For every key there is such a ciphertext. *)
Theorem C75_no_encryption : forall lv A ek h, exists ct,
  byte_array (KYBER_CIPHERTEXTBYTES lv) ct /\ forall m, byte_array 32 m -> derandomised (PS lv) A ek h m <> ct.
Proof. exact no_encryption. Qed.
Print Assumptions C75_no_encryption.

(** A generated key, the accepted encryption of a message under it, and a different ciphertext of the same message that is rejected. *)
Example C75_case : exists A s t c c' T T',
  byte_array (384 * k (PS Kyber512)) s /\ byte_array (384 * k (PS Kyber512)) t /\ byte_array 32 demo_rho /\ is_matrix (PS Kyber512) demo_rho A /\
  let h := SHA3_256 (t ++ demo_rho) in
  keypair_derand_of Reference no_junk Kyber512 2 (repeat 0 800) (repeat 0 1632) (demo_d ++ demo_z) = Ok (t ++ demo_rho, s ++ t ++ demo_rho ++ h ++ demo_z, 0) T /\
  recovered_message Kyber512 A s (t ++ demo_rho) h demo_m /\
  accepted_ciphertext Kyber512 A s (t ++ demo_rho) h c /\ c = derandomised (PS Kyber512) A (t ++ demo_rho) h demo_m /\
  byte_array (KYBER_CIPHERTEXTBYTES Kyber512) c' /\ c' <> c /\
  K_PKE_Decrypt (PS Kyber512) s c' = K_PKE_Decrypt (PS Kyber512) s c /\
  dec_of Reference no_junk Kyber512 2 (repeat 0 32) c' (s ++ t ++ demo_rho ++ h ++ demo_z) = Ok (SHAKE256 (demo_z ++ c') 32, 0) T'.
Proof. exact case_accept. Qed.
