(** * C01-C09, C29-C31 and C33: the KEM interface *)
From Coq Require Import ZArith List.
From Verif Require Import CMonad Levels Model_Params Model_Indcpa Model_Randombytes Model_Kem Spec_FIPS202
  Spec_FIPS203 Spec_Noise Vocab Vocab_Code Cases Run_Kem Proof_Api Proof_PropKem Proof_Demo Proof_Cases.
Import ListNotations.
Open Scope Z_scope.
Open Scope cmonad_scope.
Local Opaque SHA3_256 SHA3_512 SHAKE128 SHAKE256.

(** [fuel] bounds the refill loop of the matrix expansion, the only unbounded
    loop; a run that exhausts it is [Timeout].  [Junk] is the content of
    uninitialised locals. *)

(** ** C01 *)

Theorem C01_agreement : forall lv d z m f1 f2 f3 (J1 J2 J3 : Junk) pk sk ct ss ss3 pk' sk' ct' ss' ss'' r1 r2 r3 T1 T2 T3 A,
  length pk = KYBER_PUBLICKEYBYTES lv -> length sk = KYBER_SECRETKEYBYTES lv ->
  length ct = KYBER_CIPHERTEXTBYTES lv -> length ss = 32%nat -> length ss3 = 32%nat ->
  byte_array 32 d -> byte_array 32 z -> byte_array 32 m ->
  @crypto_kem_keypair_derand J1 lv f1 pk sk (d ++ z) = Ok (pk', sk', r1) T1 ->
  @crypto_kem_enc_derand J2 lv f2 ct ss pk' m = Ok (ct', ss', r2) T2 ->
  @crypto_kem_dec J3 lv f3 ss3 ct' sk' = Ok (ss'', r3) T3 ->
  is_matrix (PS lv) (keygen_rho (PS lv) d) A ->
  noise_decodes m (decryption_noise (PS lv) A d m (skipn 32 (SHA3_512 (m ++ SHA3_256 pk')))) ->
  ss'' = ss'.
Proof. exact kem_agreement'. Qed.
Print Assumptions C01_agreement.

(** ... and all three runs finish if SampleNTT does *)
Theorem C01_agreement_total : forall lv d z m A ek dk K c,
  byte_array 32 d -> byte_array 32 z -> byte_array 32 m ->
  is_matrix (PS lv) (keygen_rho (PS lv) d) A ->
  KeyGen_internal (PS lv) d z ek dk -> Encaps_internal (PS lv) ek m K c ->
  noise_decodes m (decryption_noise (PS lv) A d m (skipn 32 (SHA3_512 (m ++ SHA3_256 ek)))) ->
  exists fuel0, forall fuel (JJ : Junk) pk sk ct ss ss3, (fuel0 <= fuel)%nat ->
    length pk = KYBER_PUBLICKEYBYTES lv -> length sk = KYBER_SECRETKEYBYTES lv ->
    length ct = KYBER_CIPHERTEXTBYTES lv -> length ss = 32%nat -> length ss3 = 32%nat ->
    exists T1 T2 T3,
      crypto_kem_keypair_derand lv fuel pk sk (d ++ z) = Ok (ek, dk, 0) T1 /\
      crypto_kem_enc_derand lv fuel ct ss ek m = Ok (c, K, 0) T2 /\
      crypto_kem_dec lv fuel ss3 c dk = Ok (K, 0) T3.
Proof. exact kem_agreement_total. Qed.
Print Assumptions C01_agreement_total.

Example C01_case : exists A ek dk c K T1 T2 T3,
  is_matrix (PS Kyber512) (keygen_rho (PS Kyber512) demo_d) A /\
  @crypto_kem_keypair_derand no_junk Kyber512 2 (repeat 0 800) (repeat 0 1632) (demo_d ++ demo_z) = Ok (ek, dk, 0) T1 /\
  @crypto_kem_enc_derand no_junk Kyber512 2 (repeat 0 768) (repeat 0 32) ek demo_m = Ok (c, K, 0) T2 /\
  @crypto_kem_dec no_junk Kyber512 2 (repeat 0 32) c dk = Ok (K, 0) T3 /\
  noise_decodes demo_m (decryption_noise (PS Kyber512) A demo_d demo_m (skipn 32 (SHA3_512 (demo_m ++ SHA3_256 ek)))).
Proof. exact case_exchange. Qed.

(** ** C02 *)

Theorem C02_keypair_sound : forall lv fuel (JJ : Junk) pk sk d z ek dk r T,
  length pk = KYBER_PUBLICKEYBYTES lv -> length sk = KYBER_SECRETKEYBYTES lv -> byte_array 32 d -> byte_array 32 z ->
  crypto_kem_keypair_derand lv fuel pk sk (d ++ z) = Ok (ek, dk, r) T ->
  r = 0 /\ KeyGen_internal (PS lv) d z ek dk.
Proof. exact keypair_sound'. Qed.
Print Assumptions C02_keypair_sound.

Theorem C02_keypair_complete : forall lv d z ek dk,
  byte_array 32 d -> byte_array 32 z -> KeyGen_internal (PS lv) d z ek dk ->
  exists fuel0, forall fuel (JJ : Junk) pk sk, (fuel0 <= fuel)%nat ->
    length pk = KYBER_PUBLICKEYBYTES lv -> length sk = KYBER_SECRETKEYBYTES lv ->
    exists T, crypto_kem_keypair_derand lv fuel pk sk (d ++ z) = Ok (ek, dk, 0) T.
Proof. exact keypair_complete'. Qed.
Print Assumptions C02_keypair_complete.

(** If SampleNTT does not terminate on the seed, neither does the code *)
Theorem C02_keypair_diverges : forall lv d z,
  byte_array 32 d -> byte_array 32 z ->
  (forall A, ~ is_matrix (PS lv) (keygen_rho (PS lv) d) A) ->
  forall fuel (JJ : Junk) pk sk, crypto_kem_keypair_derand lv fuel pk sk (d ++ z) = Timeout.
Proof. exact keypair_diverges'. Qed.
Print Assumptions C02_keypair_diverges.

Example C02_case : exists ek dk, KeyGen_internal (PS Kyber512) demo_d demo_z ek dk.
Proof. exact case_KeyGen. Qed.

(** ** C03 *)

Theorem C03_enc_sound : forall lv fuel (JJ : Junk) ct ss pk m ct' ss' r T,
  length ct = KYBER_CIPHERTEXTBYTES lv -> length ss = 32%nat ->
  byte_array (KYBER_PUBLICKEYBYTES lv) pk -> byte_array 32 m ->
  crypto_kem_enc_derand lv fuel ct ss pk m = Ok (ct', ss', r) T ->
  r = 0 /\ Encaps_internal (PS lv) pk m ss' ct'.
Proof. exact enc_sound. Qed.
Print Assumptions C03_enc_sound.

Theorem C03_enc_complete : forall lv pk m K c,
  byte_array (KYBER_PUBLICKEYBYTES lv) pk -> byte_array 32 m ->
  Encaps_internal (PS lv) pk m K c ->
  exists fuel0, forall fuel (JJ : Junk) ct ss, (fuel0 <= fuel)%nat ->
    length ct = KYBER_CIPHERTEXTBYTES lv -> length ss = 32%nat ->
    exists T, crypto_kem_enc_derand lv fuel ct ss pk m = Ok (c, K, 0) T.
Proof. exact enc_complete. Qed.
Print Assumptions C03_enc_complete.

Theorem C03_enc_diverges : forall lv pk m,
  byte_array (KYBER_PUBLICKEYBYTES lv) pk -> byte_array 32 m ->
  (forall A, ~ is_matrix (PS lv) (ek_rho (PS lv) pk) A) ->
  forall fuel (JJ : Junk) ct ss, crypto_kem_enc_derand lv fuel ct ss pk m = Timeout.
Proof. exact enc_diverges. Qed.
Print Assumptions C03_enc_diverges.

Example C03_case : exists ek K c, byte_array (KYBER_PUBLICKEYBYTES Kyber512) ek /\ Encaps_internal (PS Kyber512) ek demo_m K c.
Proof. exact case_Encaps. Qed.

(** ** C04 *)

Theorem C04_dec_sound : forall lv fuel (JJ : Junk) ss ct sk ss' r T,
  length ss = 32%nat -> byte_array (KYBER_CIPHERTEXTBYTES lv) ct -> byte_array (KYBER_SECRETKEYBYTES lv) sk ->
  crypto_kem_dec lv fuel ss ct sk = Ok (ss', r) T -> r = 0 /\ Decaps_internal (PS lv) sk ct ss'.
Proof. exact dec_sound. Qed.
Print Assumptions C04_dec_sound.

Theorem C04_dec_complete : forall lv ct sk K,
  byte_array (KYBER_CIPHERTEXTBYTES lv) ct -> byte_array (KYBER_SECRETKEYBYTES lv) sk ->
  Decaps_internal (PS lv) sk ct K ->
  exists fuel0, forall fuel (JJ : Junk) ss, (fuel0 <= fuel)%nat -> length ss = 32%nat ->
    exists T, crypto_kem_dec lv fuel ss ct sk = Ok (K, 0) T.
Proof. exact dec_complete. Qed.
Print Assumptions C04_dec_complete.

Theorem C04_dec_diverges : forall lv ct sk,
  byte_array (KYBER_CIPHERTEXTBYTES lv) ct -> byte_array (KYBER_SECRETKEYBYTES lv) sk ->
  (forall A, ~ is_matrix (PS lv) (ek_rho (PS lv) (dk_ek (PS lv) sk)) A) ->
  forall fuel (JJ : Junk) ss, crypto_kem_dec lv fuel ss ct sk = Timeout.
Proof. exact dec_diverges. Qed.
Print Assumptions C04_dec_diverges.

Example C04_case : exists dk c c' K K', byte_array (KYBER_SECRETKEYBYTES Kyber512) dk /\
  byte_array (KYBER_CIPHERTEXTBYTES Kyber512) c /\ byte_array (KYBER_CIPHERTEXTBYTES Kyber512) c' /\ c' <> c /\
  Decaps_internal (PS Kyber512) dk c K /\ Decaps_internal (PS Kyber512) dk c' K'.
Proof. exact case_Decaps. Qed.

(** ** C05 *)

Theorem C05_implicit_rejection : forall lv fuel (JJ : Junk) ss ct s t rho h z ss' r T,
  length ss = 32%nat -> byte_array (KYBER_CIPHERTEXTBYTES lv) ct ->
  byte_array (384 * k (PS lv)) s -> byte_array (384 * k (PS lv)) t -> byte_array 32 rho -> byte_array 32 h -> byte_array 32 z ->
  crypto_kem_dec lv fuel ss ct (s ++ t ++ rho ++ h ++ z) = Ok (ss', r) T ->
  r = 0 /\ exists A, is_matrix (PS lv) rho A /\
    let m := K_PKE_Decrypt (PS lv) s ct in
    let Kr := SHA3_512 (m ++ h) in
    let ct' := K_PKE_Encrypt (PS lv) A (t ++ rho) m (skipn 32 Kr) in
    (ct = ct' /\ ss' = firstn 32 Kr) \/ (ct <> ct' /\ ss' = SHAKE256 (z ++ ct) 32).
Proof. exact implicit_rejection. Qed.
Print Assumptions C05_implicit_rejection.

(** Both branches occur *)
Example C05_case : exists s t h c c' K T T',
  byte_array (KYBER_CIPHERTEXTBYTES Kyber512) c /\ byte_array (KYBER_CIPHERTEXTBYTES Kyber512) c' /\ c' <> c /\
  byte_array (384 * k (PS Kyber512)) s /\ byte_array (384 * k (PS Kyber512)) t /\ byte_array 32 demo_rho /\ byte_array 32 h /\
  @crypto_kem_dec no_junk Kyber512 2 (repeat 0 32) c (s ++ t ++ demo_rho ++ h ++ demo_z) = Ok (K, 0) T /\
  @crypto_kem_dec no_junk Kyber512 2 (repeat 0 32) c' (s ++ t ++ demo_rho ++ h ++ demo_z) = Ok (SHAKE256 (demo_z ++ c') 32, 0) T'.
Proof. exact case_rejection. Qed.

(** ** C06 *)

Theorem C06_published_sizes : forall lv,
  (KYBER_PUBLICKEYBYTES lv, KYBER_SECRETKEYBYTES lv, KYBER_CIPHERTEXTBYTES lv)
  = (api_PUBLICKEYBYTES lv, api_SECRETKEYBYTES lv, api_CIPHERTEXTBYTES lv).
Proof. exact published_sizes. Qed.
Print Assumptions C06_published_sizes.

Theorem C06_secret_key_layout : forall lv fuel (JJ : Junk) pk sk d z ek dk r T,
  length pk = api_PUBLICKEYBYTES lv -> length sk = api_SECRETKEYBYTES lv -> byte_array 32 d -> byte_array 32 z ->
  crypto_kem_keypair_derand lv fuel pk sk (d ++ z) = Ok (ek, dk, r) T ->
  byte_array (api_PUBLICKEYBYTES lv) ek /\ byte_array (api_SECRETKEYBYTES lv) dk /\
  exists A, is_matrix (PS lv) (keygen_rho (PS lv) d) A /\ ek = fst (K_PKE_KeyGen (PS lv) A d) /\
    dk = snd (K_PKE_KeyGen (PS lv) A d) ++ ek ++ SHA3_256 ek ++ z.
Proof. exact secret_key_layout. Qed.
Print Assumptions C06_secret_key_layout.

Theorem C06_enc_sizes : forall lv fuel (JJ : Junk) ct ss pk m c K r T,
  length ct = api_CIPHERTEXTBYTES lv -> length ss = 32%nat -> byte_array (api_PUBLICKEYBYTES lv) pk -> byte_array 32 m ->
  crypto_kem_enc_derand lv fuel ct ss pk m = Ok (c, K, r) T ->
  byte_array (api_CIPHERTEXTBYTES lv) c /\ byte_array 32 K.
Proof. exact enc_sizes. Qed.
Print Assumptions C06_enc_sizes.

Theorem C06_dec_sizes : forall lv fuel (JJ : Junk) ss ct sk K r T,
  length ss = 32%nat -> byte_array (api_CIPHERTEXTBYTES lv) ct -> byte_array (api_SECRETKEYBYTES lv) sk ->
  crypto_kem_dec lv fuel ss ct sk = Ok (K, r) T -> byte_array 32 K.
Proof. exact dec_sizes. Qed.
Print Assumptions C06_dec_sizes.

(** Every byte is written: the outputs do not depend on the old contents *)
Theorem C06_keypair_overwrites : forall lv f1 f2 (J1 J2 : Junk) pk1 sk1 pk2 sk2 d z v1 v2 T1 T2,
  length pk1 = KYBER_PUBLICKEYBYTES lv -> length sk1 = KYBER_SECRETKEYBYTES lv ->
  length pk2 = KYBER_PUBLICKEYBYTES lv -> length sk2 = KYBER_SECRETKEYBYTES lv -> byte_array 32 d -> byte_array 32 z ->
  @crypto_kem_keypair_derand J1 lv f1 pk1 sk1 (d ++ z) = Ok v1 T1 ->
  @crypto_kem_keypair_derand J2 lv f2 pk2 sk2 (d ++ z) = Ok v2 T2 -> v1 = v2.
Proof. exact keypair_overwrites. Qed.
Print Assumptions C06_keypair_overwrites.

Theorem C06_enc_overwrites : forall lv f1 f2 (J1 J2 : Junk) ct1 ss1 ct2 ss2 pk m v1 v2 T1 T2,
  length ct1 = KYBER_CIPHERTEXTBYTES lv -> length ss1 = 32%nat -> length ct2 = KYBER_CIPHERTEXTBYTES lv -> length ss2 = 32%nat ->
  byte_array (KYBER_PUBLICKEYBYTES lv) pk -> byte_array 32 m ->
  @crypto_kem_enc_derand J1 lv f1 ct1 ss1 pk m = Ok v1 T1 ->
  @crypto_kem_enc_derand J2 lv f2 ct2 ss2 pk m = Ok v2 T2 -> v1 = v2.
Proof. exact enc_overwrites. Qed.
Print Assumptions C06_enc_overwrites.

Theorem C06_dec_overwrites : forall lv f1 f2 (J1 J2 : Junk) ss1 ss2 ct sk v1 v2 T1 T2,
  length ss1 = 32%nat -> length ss2 = 32%nat -> byte_array (KYBER_CIPHERTEXTBYTES lv) ct -> byte_array (KYBER_SECRETKEYBYTES lv) sk ->
  @crypto_kem_dec J1 lv f1 ss1 ct sk = Ok v1 T1 -> @crypto_kem_dec J2 lv f2 ss2 ct sk = Ok v2 T2 -> v1 = v2.
Proof. exact dec_overwrites. Qed.
Print Assumptions C06_dec_overwrites.

(** The runs of [C01_case] meet the hypotheses *)
Example C06_case : length (repeat 0 800) = api_PUBLICKEYBYTES Kyber512 /\ length (repeat 0 1632) = api_SECRETKEYBYTES Kyber512 /\
  length (repeat 0 768) = api_CIPHERTEXTBYTES Kyber512 /\ byte_array 32 demo_d /\ byte_array 32 demo_z /\ byte_array 32 demo_m.
Proof.
  split; [apply repeat_length|]. split; [apply repeat_length|]. split; [apply repeat_length|].
  split; [exact demo_d_bytes|]. split; [exact demo_z_bytes|exact demo_m_bytes].
Qed.

(** ** C07 *)

Theorem C07_keypair_safe : forall lv fuel (JJ : Junk) pk sk coins,
  length pk = KYBER_PUBLICKEYBYTES lv -> length sk = KYBER_SECRETKEYBYTES lv -> byte_array 64 coins ->
  (forall u, crypto_kem_keypair_derand lv fuel pk sk coins <> UB u) /\ crypto_kem_keypair_derand lv fuel pk sk coins <> Abort /\
  (crypto_kem_keypair_derand lv fuel pk sk coins = Timeout <->
   ~ exists ek dk T, crypto_kem_keypair_derand lv fuel pk sk coins = Ok (ek, dk, 0) T).
Proof. exact keypair_safe. Qed.
Print Assumptions C07_keypair_safe.

Theorem C07_enc_safe : forall lv fuel (JJ : Junk) ct ss pk m,
  length ct = KYBER_CIPHERTEXTBYTES lv -> length ss = 32%nat -> byte_array (KYBER_PUBLICKEYBYTES lv) pk -> byte_array 32 m ->
  (forall u, crypto_kem_enc_derand lv fuel ct ss pk m <> UB u) /\ crypto_kem_enc_derand lv fuel ct ss pk m <> Abort /\
  (crypto_kem_enc_derand lv fuel ct ss pk m = Timeout <->
   ~ exists c K T, crypto_kem_enc_derand lv fuel ct ss pk m = Ok (c, K, 0) T).
Proof. exact enc_safe. Qed.
Print Assumptions C07_enc_safe.

Theorem C07_dec_safe : forall lv fuel (JJ : Junk) ss ct sk,
  length ss = 32%nat -> byte_array (KYBER_CIPHERTEXTBYTES lv) ct -> byte_array (KYBER_SECRETKEYBYTES lv) sk ->
  (forall u, crypto_kem_dec lv fuel ss ct sk <> UB u) /\ crypto_kem_dec lv fuel ss ct sk <> Abort /\
  (crypto_kem_dec lv fuel ss ct sk = Timeout <-> ~ exists K T, crypto_kem_dec lv fuel ss ct sk = Ok (K, 0) T).
Proof. exact dec_safe. Qed.
Print Assumptions C07_dec_safe.

Example C07_case lv : byte_array (KYBER_PUBLICKEYBYTES lv) (some_bytes (KYBER_PUBLICKEYBYTES lv)) /\
  byte_array (KYBER_SECRETKEYBYTES lv) (some_bytes (KYBER_SECRETKEYBYTES lv)) /\
  byte_array (KYBER_CIPHERTEXTBYTES lv) (some_bytes (KYBER_CIPHERTEXTBYTES lv)) /\ byte_array 64 (some_bytes 64).
Proof. do 3 (split; [apply some_bytes_ok|]). apply some_bytes_ok. Qed.

(** ** C08 *)

Theorem C08_dec_timing : forall lv fuel rho,
  byte_array 32 rho ->
  (exists T, forall (JJ : Junk) ss ct s t h z, length ss = 32%nat -> byte_array (KYBER_CIPHERTEXTBYTES lv) ct ->
     byte_array (384 * k (PS lv)) s -> byte_array (384 * k (PS lv)) t -> byte_array 32 h -> byte_array 32 z ->
     exists v, crypto_kem_dec lv fuel ss ct (s ++ t ++ rho ++ h ++ z) = Ok v T) \/
  (forall (JJ : Junk) ss ct s t h z, length ss = 32%nat -> byte_array (KYBER_CIPHERTEXTBYTES lv) ct ->
     byte_array (384 * k (PS lv)) s -> byte_array (384 * k (PS lv)) t -> byte_array 32 h -> byte_array 32 z ->
     crypto_kem_dec lv fuel ss ct (s ++ t ++ rho ++ h ++ z) = Timeout).
Proof. exact dec_timing. Qed.
Print Assumptions C08_dec_timing.

(** Any two finished runs with the same stored matrix seed, whatever the fuel *)
Theorem C08_dec_trace : forall lv rho f1 f2 (J1 J2 : Junk) ss1 ct1 s1 t1 h1 z1 ss2 ct2 s2 t2 h2 z2 v1 v2 T1 T2,
  byte_array 32 rho ->
  length ss1 = 32%nat -> byte_array (KYBER_CIPHERTEXTBYTES lv) ct1 -> byte_array (384 * k (PS lv)) s1 ->
  byte_array (384 * k (PS lv)) t1 -> byte_array 32 h1 -> byte_array 32 z1 ->
  length ss2 = 32%nat -> byte_array (KYBER_CIPHERTEXTBYTES lv) ct2 -> byte_array (384 * k (PS lv)) s2 ->
  byte_array (384 * k (PS lv)) t2 -> byte_array 32 h2 -> byte_array 32 z2 ->
  @crypto_kem_dec J1 lv f1 ss1 ct1 (s1 ++ t1 ++ rho ++ h1 ++ z1) = Ok v1 T1 ->
  @crypto_kem_dec J2 lv f2 ss2 ct2 (s2 ++ t2 ++ rho ++ h2 ++ z2) = Ok v2 T2 -> T1 = T2.
Proof. exact dec_trace'. Qed.
Print Assumptions C08_dec_trace.

Example C08_case : exists T, forall (JJ : Junk) ss ct s t h z, length ss = 32%nat -> byte_array (KYBER_CIPHERTEXTBYTES Kyber512) ct ->
  byte_array (384 * k (PS Kyber512)) s -> byte_array (384 * k (PS Kyber512)) t -> byte_array 32 h -> byte_array 32 z ->
  exists v, crypto_kem_dec Kyber512 2 ss ct (s ++ t ++ demo_rho ++ h ++ z) = Ok v T.
Proof. exact case_dec_timing. Qed.

(** ** C09 *)

Theorem C09_keypair_timing : forall lv fuel rho,
  (exists T, forall (JJ : Junk) pk sk d z, length pk = KYBER_PUBLICKEYBYTES lv -> length sk = KYBER_SECRETKEYBYTES lv ->
     byte_array 32 d -> byte_array 32 z -> keygen_rho (PS lv) d = rho ->
     exists v, crypto_kem_keypair_derand lv fuel pk sk (d ++ z) = Ok v T) \/
  (forall (JJ : Junk) pk sk d z, length pk = KYBER_PUBLICKEYBYTES lv -> length sk = KYBER_SECRETKEYBYTES lv ->
     byte_array 32 d -> byte_array 32 z -> keygen_rho (PS lv) d = rho ->
     crypto_kem_keypair_derand lv fuel pk sk (d ++ z) = Timeout).
Proof. exact keypair_timing. Qed.
Print Assumptions C09_keypair_timing.

Theorem C09_keypair_trace : forall lv f1 f2 (J1 J2 : Junk) pk1 sk1 d1 z1 pk2 sk2 d2 z2 v1 v2 T1 T2,
  length pk1 = KYBER_PUBLICKEYBYTES lv -> length sk1 = KYBER_SECRETKEYBYTES lv -> byte_array 32 d1 -> byte_array 32 z1 ->
  length pk2 = KYBER_PUBLICKEYBYTES lv -> length sk2 = KYBER_SECRETKEYBYTES lv -> byte_array 32 d2 -> byte_array 32 z2 ->
  keygen_rho (PS lv) d1 = keygen_rho (PS lv) d2 ->
  @crypto_kem_keypair_derand J1 lv f1 pk1 sk1 (d1 ++ z1) = Ok v1 T1 ->
  @crypto_kem_keypair_derand J2 lv f2 pk2 sk2 (d2 ++ z2) = Ok v2 T2 -> T1 = T2.
Proof. exact keypair_trace'. Qed.
Print Assumptions C09_keypair_trace.

Theorem C09_published_seed : forall lv fuel (JJ : Junk) pk sk d z ek dk r T,
  length pk = KYBER_PUBLICKEYBYTES lv -> length sk = KYBER_SECRETKEYBYTES lv -> byte_array 32 d -> byte_array 32 z ->
  crypto_kem_keypair_derand lv fuel pk sk (d ++ z) = Ok (ek, dk, r) T ->
  exists t, length t = (384 * k (PS lv))%nat /\ ek = t ++ keygen_rho (PS lv) d.
Proof. exact published_seed. Qed.
Print Assumptions C09_published_seed.

Theorem C09_enc_timing : forall lv fuel rho,
  byte_array 32 rho ->
  (exists T, forall (JJ : Junk) ct ss t m, length ct = KYBER_CIPHERTEXTBYTES lv -> length ss = 32%nat ->
     byte_array (384 * k (PS lv)) t -> byte_array 32 m ->
     exists v, crypto_kem_enc_derand lv fuel ct ss (t ++ rho) m = Ok v T) \/
  (forall (JJ : Junk) ct ss t m, length ct = KYBER_CIPHERTEXTBYTES lv -> length ss = 32%nat ->
     byte_array (384 * k (PS lv)) t -> byte_array 32 m ->
     crypto_kem_enc_derand lv fuel ct ss (t ++ rho) m = Timeout).
Proof. exact enc_timing. Qed.
Print Assumptions C09_enc_timing.

Theorem C09_enc_trace : forall lv rho f1 f2 (J1 J2 : Junk) ct1 ss1 t1 m1 ct2 ss2 t2 m2 v1 v2 T1 T2,
  byte_array 32 rho ->
  length ct1 = KYBER_CIPHERTEXTBYTES lv -> length ss1 = 32%nat -> byte_array (384 * k (PS lv)) t1 -> byte_array 32 m1 ->
  length ct2 = KYBER_CIPHERTEXTBYTES lv -> length ss2 = 32%nat -> byte_array (384 * k (PS lv)) t2 -> byte_array 32 m2 ->
  @crypto_kem_enc_derand J1 lv f1 ct1 ss1 (t1 ++ rho) m1 = Ok v1 T1 ->
  @crypto_kem_enc_derand J2 lv f2 ct2 ss2 (t2 ++ rho) m2 = Ok v2 T2 -> T1 = T2.
Proof. exact enc_trace'. Qed.
Print Assumptions C09_enc_trace.

Example C09_case_keypair : exists T, forall (JJ : Junk) pk sk d z, length pk = KYBER_PUBLICKEYBYTES Kyber512 ->
  length sk = KYBER_SECRETKEYBYTES Kyber512 -> byte_array 32 d -> byte_array 32 z -> keygen_rho (PS Kyber512) d = demo_rho ->
  exists v, crypto_kem_keypair_derand Kyber512 2 pk sk (d ++ z) = Ok v T.
Proof. exact case_keypair_timing. Qed.
Example C09_case_enc : exists T, forall (JJ : Junk) ct ss t m, length ct = KYBER_CIPHERTEXTBYTES Kyber512 -> length ss = 32%nat ->
  byte_array (384 * k (PS Kyber512)) t -> byte_array 32 m ->
  exists v, crypto_kem_enc_derand Kyber512 2 ct ss (t ++ demo_rho) m = Ok v T.
Proof. exact case_enc_timing. Qed.

(** ** C29 *)

Theorem C29_keypair : forall lv fuel (JJ : Junk) sched pk sk ek dk r rest T,
  kernel_ok sched 64 ->
  crypto_kem_keypair lv fuel sched pk sk = Ok (ek, dk, r, rest) T ->
  r = 0 /\ exists used T', sched = used ++ rest /\ ~ In Failed used /\ shortest used 64 /\ byte_array 64 (delivered used) /\
    crypto_kem_keypair_derand lv fuel pk sk (delivered used) = Ok (ek, dk, 0) T'.
Proof. exact keypair_random. Qed.
Print Assumptions C29_keypair.

Theorem C29_keypair_derand : forall lv fuel (JJ : Junk) used rest pk sk,
  kernel_ok (used ++ rest) 64 -> ~ In Failed used ->
  shortest used 64 -> length (delivered used) = 64%nat ->
  match crypto_kem_keypair_derand lv fuel pk sk (delivered used) with
  | Ok (ek, dk, _) _ => exists T, crypto_kem_keypair lv fuel (used ++ rest) pk sk = Ok (ek, dk, 0, rest) T
  | UB u => crypto_kem_keypair lv fuel (used ++ rest) pk sk = UB u
  | Timeout => crypto_kem_keypair lv fuel (used ++ rest) pk sk = Timeout
  | Abort => crypto_kem_keypair lv fuel (used ++ rest) pk sk = Abort
  end.
Proof. exact keypair_random_derand. Qed.
Print Assumptions C29_keypair_derand.

Theorem C29_keypair_failure : forall lv fuel (JJ : Junk) used rest pk sk,
  kernel_ok (used ++ Failed :: rest) 64 -> ~ In Failed used ->
  (length (delivered used) < 64)%nat -> crypto_kem_keypair lv fuel (used ++ Failed :: rest) pk sk = Abort.
Proof. exact keypair_random_failure. Qed.
Print Assumptions C29_keypair_failure.

Theorem C29_enc : forall lv fuel (JJ : Junk) sched ct ss pk c K r rest T,
  kernel_ok sched 32 ->
  crypto_kem_enc lv fuel sched ct ss pk = Ok (c, K, r, rest) T ->
  r = 0 /\ exists used T', sched = used ++ rest /\ ~ In Failed used /\ shortest used 32 /\ byte_array 32 (delivered used) /\
    crypto_kem_enc_derand lv fuel ct ss pk (delivered used) = Ok (c, K, 0) T'.
Proof. exact enc_random. Qed.
Print Assumptions C29_enc.

Theorem C29_enc_derand : forall lv fuel (JJ : Junk) used rest ct ss pk,
  kernel_ok (used ++ rest) 32 -> ~ In Failed used ->
  shortest used 32 -> length (delivered used) = 32%nat ->
  match crypto_kem_enc_derand lv fuel ct ss pk (delivered used) with
  | Ok (c, K, _) _ => exists T, crypto_kem_enc lv fuel (used ++ rest) ct ss pk = Ok (c, K, 0, rest) T
  | UB u => crypto_kem_enc lv fuel (used ++ rest) ct ss pk = UB u
  | Timeout => crypto_kem_enc lv fuel (used ++ rest) ct ss pk = Timeout
  | Abort => crypto_kem_enc lv fuel (used ++ rest) ct ss pk = Abort
  end.
Proof. exact enc_random_derand. Qed.
Print Assumptions C29_enc_derand.

Theorem C29_enc_failure : forall lv fuel (JJ : Junk) used rest ct ss pk,
  kernel_ok (used ++ Failed :: rest) 32 -> ~ In Failed used ->
  (length (delivered used) < 32)%nat -> crypto_kem_enc lv fuel (used ++ Failed :: rest) ct ss pk = Abort.
Proof. exact enc_random_failure. Qed.
Print Assumptions C29_enc_failure.

Example C29_case_sched : kernel_ok (demo_sched ++ [Failed]) 64 /\ ~ In Failed demo_sched /\ shortest demo_sched 64 /\
  delivered demo_sched = demo_d ++ demo_z.
Proof. exact demo_sched_ok. Qed.
Example C29_case_keypair : exists ek dk T,
  @crypto_kem_keypair no_junk Kyber512 2 (demo_sched ++ [Failed]) (repeat 0 800) (repeat 0 1632) = Ok (ek, dk, 0, [Failed]) T.
Proof. exact case_random_keypair. Qed.
Example C29_case_enc : exists t c K T,
  @crypto_kem_enc no_junk Kyber512 2 [Interrupted; Delivered demo_m; Failed] (repeat 0 768) (repeat 0 32) (t ++ demo_rho)
  = Ok (c, K, 0, [Failed]) T.
Proof. exact case_random_enc. Qed.

(** ** C30 *)

(** The encryption under any vector encoding is the one under the reduced vector *)
Theorem C30_reduced_key : forall lv fuel (JJ : Junk) c m t rho coins,
  length c = KYBER_CIPHERTEXTBYTES lv -> byte_array 32 m -> byte_array (384 * k (PS lv)) t -> byte_array 32 rho -> byte_array 32 coins ->
  indcpa_enc lv fuel c 0 m 0 (t ++ rho) 0 coins 0
  = indcpa_enc lv fuel c 0 m 0 (canonical_key (PS lv) t ++ rho) 0 coins 0.
Proof. exact enc_sees_reduced_key. Qed.
Print Assumptions C30_reduced_key.

(** All bytes 255: the encoding of no vector over Z_q *)
Theorem C30_not_an_encoding : forall lv v,
  length v = k (PS lv) ->
  (forall f, In f v -> length f = 256%nat /\ in_range 0 (q - 1) f) -> flat_map (ByteEncode 12) v <> repeat 255 (384 * k (PS lv)).
Proof. exact ff_not_canonical. Qed.
Print Assumptions C30_not_an_encoding.

Theorem C30_accepted : forall lv rho A m,
  byte_array 32 rho -> is_matrix (PS lv) rho A -> byte_array 32 m ->
  exists fuel0, forall fuel (JJ : Junk) ct ss, (fuel0 <= fuel)%nat -> length ct = KYBER_CIPHERTEXTBYTES lv -> length ss = 32%nat ->
    exists c K T, crypto_kem_enc_derand lv fuel ct ss (repeat 255 (384 * k (PS lv)) ++ rho) m = Ok (c, K, 0) T.
Proof. exact noncanonical_accepted. Qed.
Print Assumptions C30_accepted.

(** Such keys exist for the smallest parameter set *)
Theorem C30_exists : exists pk fuel0,
  byte_array (KYBER_PUBLICKEYBYTES Kyber512) pk /\
  (forall v rho, length v = k (PS Kyber512) -> (forall f, In f v -> length f = 256%nat /\ in_range 0 (q - 1) f) -> length rho = 32%nat ->
     pk <> flat_map (ByteEncode 12) v ++ rho) /\
  forall m fuel (JJ : Junk) ct ss, byte_array 32 m -> (fuel0 <= fuel)%nat -> length ct = KYBER_CIPHERTEXTBYTES Kyber512 -> length ss = 32%nat ->
    exists c K T, crypto_kem_enc_derand Kyber512 fuel ct ss pk m = Ok (c, K, 0) T.
Proof. exact noncanonical_exists. Qed.
Print Assumptions C30_exists.

Example C30_case : exists A, is_matrix (PS Kyber512) demo_rho A /\ byte_array 32 demo_rho /\ byte_array 32 demo_m.
Proof.
  destruct demo_parts as (A & s & t & c & K & T1 & T2 & T3 & T4 & _ & _ & Hr & _ & _ & _ & _ & HA & _).
  exists A. split; [exact HA|]. split; [exact Hr|exact demo_m_bytes].
Qed.

(** ** C31 *)

Theorem C31_keypair_nonces : forall lv fuel (JJ : Junk) pk sk coins v T,
  crypto_kem_keypair_derand lv fuel pk sk coins = Ok v T ->
  nonces_used T = map Z.of_nat (seq 0 (2 * KYBER_K lv)) /\ NoDup (nonces_used T) /\ forall n, In n (nonces_used T) -> 0 <= n < 256.
Proof. exact keypair_nonces. Qed.
Print Assumptions C31_keypair_nonces.

Theorem C31_enc_nonces : forall lv fuel (JJ : Junk) ct ss pk m v T,
  crypto_kem_enc_derand lv fuel ct ss pk m = Ok v T ->
  nonces_used T = map Z.of_nat (seq 0 (2 * KYBER_K lv + 1)) /\ NoDup (nonces_used T) /\ forall n, In n (nonces_used T) -> 0 <= n < 256.
Proof. exact enc_nonces. Qed.
Print Assumptions C31_enc_nonces.

Theorem C31_dec_nonces : forall lv fuel (JJ : Junk) ss ct sk v T,
  crypto_kem_dec lv fuel ss ct sk = Ok v T ->
  nonces_used T = map Z.of_nat (seq 0 (2 * KYBER_K lv + 1)) /\ NoDup (nonces_used T) /\ forall n, In n (nonces_used T) -> 0 <= n < 256.
Proof. exact dec_nonces. Qed.
Print Assumptions C31_dec_nonces.

(** The runs of [C01_case] meet the hypotheses *)
Example C31_case : exists ek dk c K T1 T2 T3,
  @crypto_kem_keypair_derand no_junk Kyber512 2 (repeat 0 800) (repeat 0 1632) (demo_d ++ demo_z) = Ok (ek, dk, 0) T1 /\
  @crypto_kem_enc_derand no_junk Kyber512 2 (repeat 0 768) (repeat 0 32) ek demo_m = Ok (c, K, 0) T2 /\
  @crypto_kem_dec no_junk Kyber512 2 (repeat 0 32) c dk = Ok (K, 0) T3 /\
  nonces_used T1 = [0; 1; 2; 3] /\ nonces_used T2 = [0; 1; 2; 3; 4] /\ nonces_used T3 = [0; 1; 2; 3; 4].
Proof.
  destruct case_exchange as (A & ek & dk & c & K & T1 & T2 & T3 & _ & E1 & E2 & E3 & _).
  exists ek, dk, c, K, T1, T2, T3. refine (conj E1 (conj E2 (conj E3 (conj _ (conj _ _))))).
  - exact (proj1 (keypair_nonces _ _ _ _ _ _ _ _ E1)).
  - exact (proj1 (enc_nonces _ _ _ _ _ _ _ _ _ E2)).
  - exact (proj1 (dec_nonces _ _ _ _ _ _ _ _ E3)).
Qed.

(** ** C33: the public-key encryption layer *)

Theorem C33_keypair : forall lv fuel (JJ : Junk) pk sk d pk' sk' T,
  length pk = KYBER_INDCPA_PUBLICKEYBYTES lv -> length sk = KYBER_INDCPA_SECRETKEYBYTES lv -> byte_array 32 d ->
  indcpa_keypair_derand lv fuel pk 0 sk 0 d 0 = Ok (pk', sk') T ->
  exists A, is_matrix (PS lv) (keygen_rho (PS lv) d) A /\ (pk', sk') = K_PKE_KeyGen (PS lv) A d.
Proof. exact pke_keypair. Qed.
Print Assumptions C33_keypair.

Theorem C33_keypair_complete : forall lv d A,
  byte_array 32 d -> is_matrix (PS lv) (keygen_rho (PS lv) d) A ->
  exists fuel0, forall fuel (JJ : Junk) pk sk, (fuel0 <= fuel)%nat ->
    length pk = KYBER_INDCPA_PUBLICKEYBYTES lv -> length sk = KYBER_INDCPA_SECRETKEYBYTES lv ->
    exists T, indcpa_keypair_derand lv fuel pk 0 sk 0 d 0 = Ok (K_PKE_KeyGen (PS lv) A d) T.
Proof. exact pke_keypair_complete. Qed.
Print Assumptions C33_keypair_complete.

Theorem C33_enc : forall lv fuel (JJ : Junk) c m pk r c' T,
  length c = KYBER_CIPHERTEXTBYTES lv -> byte_array 32 m -> byte_array (KYBER_INDCPA_PUBLICKEYBYTES lv) pk -> byte_array 32 r ->
  indcpa_enc lv fuel c 0 m 0 pk 0 r 0 = Ok c' T ->
  exists A, is_matrix (PS lv) (ek_rho (PS lv) pk) A /\ c' = K_PKE_Encrypt (PS lv) A pk m r.
Proof. exact pke_enc. Qed.
Print Assumptions C33_enc.

Theorem C33_enc_complete : forall lv m pk r A,
  byte_array 32 m -> byte_array (KYBER_INDCPA_PUBLICKEYBYTES lv) pk -> byte_array 32 r ->
  is_matrix (PS lv) (ek_rho (PS lv) pk) A ->
  exists fuel0, forall fuel (JJ : Junk) c, (fuel0 <= fuel)%nat -> length c = KYBER_CIPHERTEXTBYTES lv ->
    exists T, indcpa_enc lv fuel c 0 m 0 pk 0 r 0 = Ok (K_PKE_Encrypt (PS lv) A pk m r) T.
Proof. exact pke_enc_complete. Qed.
Print Assumptions C33_enc_complete.

Theorem C33_dec : forall lv,
  exists T, forall (JJ : Junk) m c sk,
  length m = 32%nat -> byte_array (KYBER_CIPHERTEXTBYTES lv) c -> byte_array (KYBER_INDCPA_SECRETKEYBYTES lv) sk ->
  indcpa_dec lv m 0 c 0 sk 0 = Ok (K_PKE_Decrypt (PS lv) sk c) T.
Proof. exact pke_dec. Qed.
Print Assumptions C33_dec.

Theorem C33_correct_iff : forall lv fuel f2 (J1 J2 J3 : Junk) pk sk c mbuf d m r pk' sk' c' T1 T2 A,
  length pk = KYBER_INDCPA_PUBLICKEYBYTES lv -> length sk = KYBER_INDCPA_SECRETKEYBYTES lv -> length c = KYBER_CIPHERTEXTBYTES lv ->
  length mbuf = 32%nat -> byte_array 32 d -> byte_array 32 m -> byte_array 32 r ->
  @indcpa_keypair_derand J1 lv fuel pk 0 sk 0 d 0 = Ok (pk', sk') T1 ->
  @indcpa_enc J2 lv f2 c 0 m 0 pk' 0 r 0 = Ok c' T2 ->
  is_matrix (PS lv) (keygen_rho (PS lv) d) A ->
  exists m' T3, @indcpa_dec J3 lv mbuf 0 c' 0 sk' 0 = Ok m' T3 /\
    (m' = m <-> noise_decodes m (decryption_noise (PS lv) A d m r)).
Proof. exact pke_correct. Qed.
Print Assumptions C33_correct_iff.

Example C33_case : exists A fuel pk sk c T1 T2,
  is_matrix (PS Kyber512) (keygen_rho (PS Kyber512) demo_d) A /\
  @indcpa_keypair_derand no_junk Kyber512 fuel (repeat 0 800) 0 (repeat 0 768) 0 demo_d 0 = Ok (pk, sk) T1 /\
  @indcpa_enc no_junk Kyber512 fuel (repeat 0 768) 0 demo_m 0 pk 0 demo_z 0 = Ok c T2.
Proof. exact case_pke. Qed.
