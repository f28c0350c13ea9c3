(** * C60, C61: the sizes and the overlaps of the KEM buffers *)
From Coq Require Import ZArith List.
From Verif Require Import CMonad Levels Model_Params Model_Kem Model_Shared Vocab Vocab_Rng Vocab_Buffers Run_Kem Proof_Demo Proof_PropBuffers.
Import ListNotations.
Open Scope Z_scope.

(** Larger buffers: the extra bytes are neither read nor written. *)
Theorem C60_keypair_longer : forall lv fuel (JJ : Junk) pk sk coins t1 t2 t3,
  length pk = KYBER_PUBLICKEYBYTES lv -> length sk = KYBER_SECRETKEYBYTES lv -> byte_array 64 coins ->
  crypto_kem_keypair_derand lv fuel (pk ++ t1) (sk ++ t2) (coins ++ t3) =
  with_value (fun '(ek, dk, r) => (ek ++ t1, dk ++ t2, r)) (crypto_kem_keypair_derand lv fuel pk sk coins).
Proof. exact keypair_longer'. Qed.
Print Assumptions C60_keypair_longer.

Theorem C60_enc_longer : forall lv fuel (JJ : Junk) ct ss pk coins t1 t2 t3 t4,
  length ct = KYBER_CIPHERTEXTBYTES lv -> length ss = 32%nat -> byte_array (KYBER_PUBLICKEYBYTES lv) pk -> byte_array 32 coins ->
  crypto_kem_enc_derand lv fuel (ct ++ t1) (ss ++ t2) (pk ++ t3) (coins ++ t4) =
  with_value (fun '(c, K, r) => (c ++ t1, K ++ t2, r)) (crypto_kem_enc_derand lv fuel ct ss pk coins).
Proof. exact enc_longer'. Qed.
Print Assumptions C60_enc_longer.

Theorem C60_dec_longer : forall lv fuel (JJ : Junk) ss ct sk t1 t2 t3,
  length ss = 32%nat -> byte_array (KYBER_CIPHERTEXTBYTES lv) ct -> byte_array (KYBER_SECRETKEYBYTES lv) sk ->
  crypto_kem_dec lv fuel (ss ++ t1) (ct ++ t2) (sk ++ t3) =
  with_value (fun '(K, r) => (K ++ t1, r)) (crypto_kem_dec lv fuel ss ct sk).
Proof. exact dec_longer'. Qed.
Print Assumptions C60_dec_longer.

(** One missing byte in any buffer: the run never returns, and it leaves the array as soon as it would return on a longer one. *)
Theorem C60_keypair_short : forall lv fuel (JJ : Junk) pk sk coins,
  all_bytes coins ->
  (length pk < KYBER_PUBLICKEYBYTES lv \/ length sk < KYBER_SECRETKEYBYTES lv \/ length coins < 64)%nat ->
  (forall v T, crypto_kem_keypair_derand lv fuel pk sk coins <> Ok v T) /\
  (forall t1 t2 t3 v T, crypto_kem_keypair_derand lv fuel (pk ++ t1) (sk ++ t2) (coins ++ t3) = Ok v T ->
     crypto_kem_keypair_derand lv fuel pk sk coins = UB OutOfBounds).
Proof. exact keypair_short. Qed.
Print Assumptions C60_keypair_short.

Theorem C60_enc_short : forall lv fuel (JJ : Junk) ct ss pk coins,
  all_bytes pk -> all_bytes coins ->
  (length ct < KYBER_CIPHERTEXTBYTES lv \/ length ss < 32 \/ length pk < KYBER_PUBLICKEYBYTES lv \/ length coins < 32)%nat ->
  (forall v T, crypto_kem_enc_derand lv fuel ct ss pk coins <> Ok v T) /\
  (forall t1 t2 t3 t4 v T, crypto_kem_enc_derand lv fuel (ct ++ t1) (ss ++ t2) (pk ++ t3) (coins ++ t4) = Ok v T ->
     crypto_kem_enc_derand lv fuel ct ss pk coins = UB OutOfBounds).
Proof. exact enc_short. Qed.
Print Assumptions C60_enc_short.

Theorem C60_dec_short : forall lv fuel (JJ : Junk) ss ct sk,
  all_bytes ct -> all_bytes sk ->
  (length ss < 32 \/ length ct < KYBER_CIPHERTEXTBYTES lv \/ length sk < KYBER_SECRETKEYBYTES lv)%nat ->
  (forall v T, crypto_kem_dec lv fuel ss ct sk <> Ok v T) /\
  (forall t1 t2 t3 v T, crypto_kem_dec lv fuel (ss ++ t1) (ct ++ t2) (sk ++ t3) = Ok v T ->
     crypto_kem_dec lv fuel ss ct sk = UB OutOfBounds).
Proof. exact dec_short. Qed.
Print Assumptions C60_dec_short.

Example C60_case : exists ek dk c K T1 T2 T3,
  @crypto_kem_keypair_derand no_junk Kyber512 2 (repeat 0 800) (repeat 0 1632) (demo_d ++ demo_z) = Ok (ek, dk, 0) T1 /\
  @crypto_kem_keypair_derand no_junk Kyber512 2 (repeat 0 800 ++ [7]) (repeat 0 1632) ((demo_d ++ demo_z) ++ [9]) = Ok (ek ++ [7], dk, 0) T1 /\
  @crypto_kem_keypair_derand no_junk Kyber512 2 (repeat 0 799) (repeat 0 1632) (demo_d ++ demo_z) = UB OutOfBounds /\
  @crypto_kem_enc_derand no_junk Kyber512 2 (repeat 0 768) (repeat 0 32 ++ [7]) (ek ++ [9]) demo_m = Ok (c, K ++ [7], 0) T2 /\
  @crypto_kem_enc_derand no_junk Kyber512 2 (repeat 0 768) (repeat 0 31) ek demo_m = UB OutOfBounds /\
  @crypto_kem_dec no_junk Kyber512 2 (repeat 0 32) (c ++ [5]) dk = Ok (K, 0) T3 /\
  @crypto_kem_dec no_junk Kyber512 2 (repeat 0 32) (firstn 767 c) dk = UB OutOfBounds.
Proof. exact case_sizes. Qed.

(** Buffers anywhere in one memory: the ciphertext, then the secret, lands where it should. *)
Theorem C61_enc : forall lv fuel (JJ : Junk) mem cto sso po co,
  all_bytes mem ->
  (cto + KYBER_CIPHERTEXTBYTES lv <= length mem)%nat -> (sso + 32 <= length mem)%nat ->
  (po + KYBER_PUBLICKEYBYTES lv <= length mem)%nat -> (co + 32 <= length mem)%nat ->
  same_result (crypto_kem_enc_derand_shared lv fuel mem cto sso po co)
    (with_value (fun '(c, K, r) => (overwrite (overwrite mem cto c) sso K, r))
       (crypto_kem_enc_derand lv fuel (region mem cto (KYBER_CIPHERTEXTBYTES lv)) (region mem sso 32)
          (region mem po (KYBER_PUBLICKEYBYTES lv)) (region mem co 32))).
Proof. exact enc_overlap. Qed.
Print Assumptions C61_enc.

Theorem C61_dec : forall lv fuel (JJ : Junk) mem sso cto sko,
  all_bytes mem ->
  (sso + 32 <= length mem)%nat -> (cto + KYBER_CIPHERTEXTBYTES lv <= length mem)%nat -> (sko + KYBER_SECRETKEYBYTES lv <= length mem)%nat ->
  same_result (crypto_kem_dec_shared lv fuel mem sso cto sko)
    (with_value (fun '(K, r) => (overwrite mem sso K, r))
       (crypto_kem_dec lv fuel (region mem sso 32) (region mem cto (KYBER_CIPHERTEXTBYTES lv)) (region mem sko (KYBER_SECRETKEYBYTES lv)))).
Proof. exact dec_overlap. Qed.
Print Assumptions C61_dec.

Example C61_case : exists ek dk c K T1 T2 T3,
  @crypto_kem_keypair_derand no_junk Kyber512 2 (repeat 0 800) (repeat 0 1632) (demo_d ++ demo_z) = Ok (ek, dk, 0) T1 /\
  @crypto_kem_enc_derand_shared no_junk Kyber512 2 (ek ++ demo_m) 0 800 0 800 = Ok (c ++ skipn 768 ek ++ K, 0) T2 /\
  @crypto_kem_dec_shared no_junk Kyber512 2 (c ++ dk) 736 0 768 = Ok (firstn 736 c ++ K ++ dk, 0) T3.
Proof. exact case_overlap. Qed.
