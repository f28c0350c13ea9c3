(** * C68: how long rejection sampling takes *)
From Coq Require Import ZArith List.
From Verif Require Import CMonad Levels Model_Params Model_Indcpa Model_Kem Model_AvxKem Spec_FIPS202 Spec_FIPS203 Vocab Vocab_Code Vocab_Avx Vocab_Dist Vocab_Blocks
  Cases Run_Kem Proof_Demo Proof_Blocks Proof_PropBlocks.
Import ListNotations.
Open Scope Z_scope.
Local Opaque SHA3_256 SHA3_512 SHAKE128 SHAKE256.
Local Opaque crypto_kem_keypair_derand_avx2 crypto_kem_enc_derand_avx2 crypto_kem_dec_avx2.

(** The number of accepted candidates is binomially distributed. *)
Theorem C68_accepted : forall m a, counted (fun B => byte_array (3 * m) B /\ length (accepted (fun i => nth i B 0) m) = a)
  (binomial (2 * m) (Z.of_nat a) * 3329 ^ Z.of_nat a * 767 ^ Z.of_nat (2 * m - a)).
Proof. exact exact_count. Qed.
Print Assumptions C68_accepted.

(** The three blocks squeezed at first are too few for between 0.832 % and 0.833 % of all strings, ... *)
Theorem C68_three : exists N, counted (short 3) N /\ 832 * 256 ^ 504 <= 100000 * N <= 833 * 256 ^ 504.
Proof. exact short_three. Qed.
Print Assumptions C68_three.

(** ... four for one in 2^105, ... *)
Theorem C68_four : exists N, counted (short 4) N /\ N * 2 ^ 105 <= 256 ^ 672.
Proof. exact short_four. Qed.
Print Assumptions C68_four.

(** ... and n of them for at most one in 2^(200 n - 765). *)
Theorem C68_blocks : forall n, exists N, counted (short n) N /\ N * 2 ^ Z.of_nat (200 * n) <= 2 ^ 765 * 256 ^ Z.of_nat (168 * n).
Proof. exact short_blocks. Qed.
Print Assumptions C68_blocks.

(** The functions finish with at most [passes] refills per matrix entry exactly if no entry's stream is short. *)
Theorem C68_keypair : forall V lv passes (JJ : Junk) pk sk d z,
  length pk = KYBER_PUBLICKEYBYTES lv -> length sk = KYBER_SECRETKEYBYTES lv -> byte_array 32 d -> byte_array 32 z ->
  ((exists v T, keypair_derand_of V JJ lv (S passes) pk sk (d ++ z) = Ok v T) <->
   forall i j, (i < k (PS lv))%nat -> (j < k (PS lv))%nat ->
     ~ short (3 + passes) (SHAKE128 (keygen_rho (PS lv) d ++ [Z.of_nat j; Z.of_nat i]) (168 * (3 + passes)))).
Proof. exact keypair_blocks. Qed.
Print Assumptions C68_keypair.

Theorem C68_enc : forall V lv passes (JJ : Junk) ct ss pk m,
  length ct = KYBER_CIPHERTEXTBYTES lv -> length ss = 32%nat -> byte_array (KYBER_PUBLICKEYBYTES lv) pk -> byte_array 32 m ->
  ((exists v T, enc_derand_of V JJ lv (S passes) ct ss pk m = Ok v T) <->
   forall i j, (i < k (PS lv))%nat -> (j < k (PS lv))%nat ->
     ~ short (3 + passes) (SHAKE128 (ek_rho (PS lv) pk ++ [Z.of_nat j; Z.of_nat i]) (168 * (3 + passes)))).
Proof. exact enc_blocks. Qed.
Print Assumptions C68_enc.

Theorem C68_dec : forall V lv passes (JJ : Junk) ss ct sk,
  length ss = 32%nat -> byte_array (KYBER_CIPHERTEXTBYTES lv) ct -> byte_array (KYBER_SECRETKEYBYTES lv) sk ->
  ((exists v T, dec_of V JJ lv (S passes) ss ct sk = Ok v T) <->
   forall i j, (i < k (PS lv))%nat -> (j < k (PS lv))%nat ->
     ~ short (3 + passes) (SHAKE128 (ek_rho (PS lv) (dk_ek (PS lv) sk) ++ [Z.of_nat j; Z.of_nat i]) (168 * (3 + passes)))).
Proof. exact dec_blocks. Qed.
Print Assumptions C68_dec.

(** Both kinds of string exist, and the key of [C01_case] needs no fifth block. *)
Example C68_case : short 3 (repeat 255 504) /\ ~ short 3 (repeat 0 504).
Proof. exact blocks_case. Qed.
Example C68_case_keypair : forall i j, (i < 2)%nat -> (j < 2)%nat ->
  ~ short 4 (SHAKE128 (keygen_rho (PS Kyber512) demo_d ++ [Z.of_nat j; Z.of_nat i]) 672).
Proof. exact blocks_case_keypair. Qed.
