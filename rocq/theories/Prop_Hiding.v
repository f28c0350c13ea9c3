(** * C73: ciphertexts hide the message if Module-LWE is hard *)
From Coq Require Import ZArith QArith List.
From Verif Require Import CMonad Levels Model_Params Model_Indcpa Model_AvxIndcpa Spec_FIPS202 Spec_FIPS203 Spec_Failure Spec_Games Vocab Vocab_Code
  Cases Run_Kem Proof_Games Proof_PropHiding Proof_Demo Proof_Cases.
Import ListNotations.
Open Scope Z_scope.
Local Opaque SHA3_256 SHA3_512 SHAKE128 SHAKE256 strings vectors polynomials.
Local Opaque indcpa_enc_avx2 indcpa_keypair_derand_avx2 indcpa_enc indcpa_keypair_derand.

(** Whoever tells the encryptions of two messages of their choice apart does so with at most the advantages of
    the two pseudorandomness and the two Module-LWE distinguishers they are turned into, for either message. *)
Theorem C73_hiding : forall P A rho choose guess,
  (gap (game P A rho choose guess false) (game P A rho choose guess true) <= loss P A rho choose guess false + loss P A rho choose guess true)%Q.
Proof. exact hiding. Qed.
Print Assumptions C73_hiding.

(** Keys and ciphertexts of the code are those of the game, for the seeds sigma and r. *)
Theorem C73_code : forall lv fuel f2 (J1 J2 : Junk) pk sk c d m r pk' sk' c' T1 T2 A,
  length pk = KYBER_INDCPA_PUBLICKEYBYTES lv -> length sk = KYBER_INDCPA_SECRETKEYBYTES lv -> length c = KYBER_CIPHERTEXTBYTES lv ->
  byte_array 32 d -> byte_array 32 m -> byte_array 32 r ->
  @indcpa_keypair_derand J1 lv fuel pk 0 sk 0 d 0 = Ok (pk', sk') T1 ->
  @indcpa_enc J2 lv f2 c 0 m 0 pk' 0 r 0 = Ok c' T2 ->
  is_matrix (PS lv) (keygen_rho (PS lv) d) A ->
  let P := PS lv in let sigma := keygen_sigma P d in
  pk' = public_key (keygen_rho P d) (key_sample P A (prf_bytes (eta1 P) sigma 0 (k P)) (prf_bytes (eta1 P) sigma (k P) (k P))) /\
  c' = encrypt P A pk' m (prf_bytes (eta1 P) r 0 (k P)) (prf_bytes (eta2 P) r (k P) (k P)) (prf_bytes (eta2 P) r (2 * k P) 1).
Proof. exact code_game. Qed.
Print Assumptions C73_code.

Theorem C73_code_avx2 : forall lv fuel f2 (J1 J2 : Junk) pk sk c d m r pk' sk' c' T1 T2 A,
  length pk = KYBER_INDCPA_PUBLICKEYBYTES lv -> length sk = KYBER_INDCPA_SECRETKEYBYTES lv -> length c = KYBER_CIPHERTEXTBYTES lv ->
  byte_array 32 d -> byte_array 32 m -> byte_array 32 r ->
  @indcpa_keypair_derand_avx2 J1 lv fuel pk 0 sk 0 d 0 = Ok (pk', sk') T1 ->
  @indcpa_enc_avx2 J2 lv f2 c 0 m 0 pk' 0 r 0 = Ok c' T2 ->
  is_matrix (PS lv) (keygen_rho (PS lv) d) A ->
  let P := PS lv in let sigma := keygen_sigma P d in
  pk' = public_key (keygen_rho P d) (key_sample P A (prf_bytes (eta1 P) sigma 0 (k P)) (prf_bytes (eta1 P) sigma (k P) (k P))) /\
  c' = encrypt P A pk' m (prf_bytes (eta1 P) r 0 (k P)) (prf_bytes (eta2 P) r (k P) (k P)) (prf_bytes (eta2 P) r (2 * k P) 1).
Proof. exact code_game_avx2. Qed.
Print Assumptions C73_code_avx2.

(** Without noise and of rank 0, the game is won outright: the left side can be as large as 1. *)
Example C73_case : (gap (game (Params 0 0 0 1 1) [] [] (fun _ => (repeat 0%Z 32, repeat 255%Z 32)) (fun _ c => if list_eq_dec Z.eq_dec c (repeat 0%Z 32) then 1 else 0) false)
  (game (Params 0 0 0 1 1) [] [] (fun _ => (repeat 0%Z 32, repeat 255%Z 32)) (fun _ c => if list_eq_dec Z.eq_dec c (repeat 0%Z 32) then 1 else 0) true) == 1)%Q.
Proof. exact case_hiding. Qed.
Example C73_case_code : exists A fuel pk sk c T1 T2,
  is_matrix (PS Kyber512) (keygen_rho (PS Kyber512) demo_d) A /\
  @indcpa_keypair_derand no_junk Kyber512 fuel (repeat 0 800) 0 (repeat 0 768) 0 demo_d 0 = Ok (pk, sk) T1 /\
  @indcpa_enc no_junk Kyber512 fuel (repeat 0 768) 0 demo_m 0 pk 0 demo_z 0 = Ok c T2.
Proof. exact case_pke. Qed.
