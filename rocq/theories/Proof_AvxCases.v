(** * Concrete cases for the AVX2 theorems: the demo run of [Run_Kem], carried
    over to the AVX2 code *)
From Coq Require Import ZArith List Lia Bool.
From Verif Require Import CMonad Levels Model_Params Model_Indcpa Model_Randombytes Model_Kem Spec_FIPS202 Spec_FIPS203 Spec_Noise
  Proof_Hash Proof_Keypair Proof_Kem Proof_Correct Proof_Api Vocab Vocab_Code Proof_Vocab Proof_PropSample Proof_PropKem Run_Kem Proof_Demo Proof_Cases
  Model_AvxIndcpa Model_AvxKem Vocab_Avx Proof_AvxApi Proof_PropAvxKem.
Import ListNotations.
Open Scope Z_scope.
Local Opaque SHA3_256 SHA3_512 SHAKE256 SHAKE128.
Local Opaque crypto_kem_keypair_derand crypto_kem_enc_derand crypto_kem_dec indcpa_dec indcpa_enc indcpa_keypair_derand.
Local Opaque crypto_kem_keypair_derand_avx2 crypto_kem_enc_derand_avx2 crypto_kem_dec_avx2 indcpa_dec_avx2 indcpa_enc_avx2 indcpa_keypair_derand_avx2.

Lemma same_ok {A} (m m' : res A) v T : same_result m m' -> m = Ok v T -> exists T', m' = Ok v T'.
Proof.
  intros [(w & U & U' & E & E')|[E _]] EM; rewrite EM in E; [|discriminate]. injection E as -> _. eauto.
Qed.

Lemma avx_case_exchange : exists A ek dk c K T1 T2 T3,
  is_matrix (PS Kyber512) (keygen_rho (PS Kyber512) demo_d) A /\
  @crypto_kem_keypair_derand_avx2 no_junk Kyber512 2 (repeat 0 800) (repeat 0 1632) (demo_d ++ demo_z) = Ok (ek, dk, 0) T1 /\
  @crypto_kem_enc_derand_avx2 no_junk Kyber512 2 (repeat 0 768) (repeat 0 32) ek demo_m = Ok (c, K, 0) T2 /\
  @crypto_kem_dec_avx2 no_junk Kyber512 2 (repeat 0 32) c dk = Ok (K, 0) T3 /\
  noise_decodes demo_m (decryption_noise (PS Kyber512) A demo_d demo_m (skipn 32 (SHA3_512 (demo_m ++ SHA3_256 ek)))).
Proof.
  destruct case_exchange as (A & ek & dk & c & K & T1 & T2 & T3 & HA & E1 & E2 & E3 & HN).
  destruct (keypair_sound' _ _ _ _ _ _ _ _ _ _ _ len_pk len_sk demo_d_bytes demo_z_bytes E1) as [_ HK].
  destruct (KeyGen_internal_sizes _ _ _ _ _ demo_z_bytes HK) as [Hpk Hsk].
  destruct (enc_sound _ _ _ _ _ _ _ _ _ _ _ len_ct len32 Hpk demo_m_bytes E2) as [_ HE].
  destruct (Encaps_internal_sizes _ _ _ _ _ HE) as [Hss Hct].
  destruct (same_ok _ _ _ _ (same_keypair_derand Kyber512 2 no_junk no_junk _ _ _ _ _ len_pk len_sk len_pk len_sk (coins_of _ _ demo_d_bytes demo_z_bytes)) E1) as [U1 F1].
  destruct (same_ok _ _ _ _ (same_enc_derand Kyber512 2 no_junk no_junk _ _ _ _ _ _ len_ct len32 len_ct len32 Hpk demo_m_bytes) E2) as [U2 F2].
  destruct (same_ok _ _ _ _ (same_dec Kyber512 2 no_junk no_junk _ _ _ _ len32 len32 Hct Hsk) E3) as [U3 F3].
  exists A, ek, dk, c, K, U1, U2, U3. exact (conj HA (conj F1 (conj F2 (conj F3 HN)))).
Qed.

Lemma avx_case_rejection : exists s t h c c' K T T',
  byte_array (KYBER_CIPHERTEXTBYTES Kyber512) c /\ byte_array (KYBER_CIPHERTEXTBYTES Kyber512) c' /\ c' <> c /\
  byte_array (384 * k (PS Kyber512)) s /\ byte_array (384 * k (PS Kyber512)) t /\ byte_array 32 demo_rho /\ byte_array 32 h /\
  @crypto_kem_dec_avx2 no_junk Kyber512 2 (repeat 0 32) c (s ++ t ++ demo_rho ++ h ++ demo_z) = Ok (K, 0) T /\
  @crypto_kem_dec_avx2 no_junk Kyber512 2 (repeat 0 32) c' (s ++ t ++ demo_rho ++ h ++ demo_z) = Ok (SHAKE256 (demo_z ++ c') 32, 0) T'.
Proof.
  destruct case_rejection as (s & t & h & c & c' & K & T & T' & Hc & Hc' & NE & Hs & Ht & Hr & Hh & E1 & E2).
  pose proof (sk_of Kyber512 s t demo_rho h demo_z Hs Ht Hr Hh demo_z_bytes) as Hk.
  destruct (same_ok _ _ _ _ (same_dec Kyber512 2 no_junk no_junk _ _ _ _ len32 len32 Hc Hk) E1) as [U1 F1].
  destruct (same_ok _ _ _ _ (same_dec Kyber512 2 no_junk no_junk _ _ _ _ len32 len32 Hc' Hk) E2) as [U2 F2].
  exists s, t, h, c, c', K, U1, U2. refine (conj Hc (conj Hc' (conj NE (conj Hs (conj Ht (conj Hr (conj Hh (conj F1 F2)))))))).
Qed.

Lemma avx_case_pke : exists A fuel pk sk c T1 T2,
  is_matrix (PS Kyber512) (keygen_rho (PS Kyber512) demo_d) A /\
  @indcpa_keypair_derand_avx2 no_junk Kyber512 fuel (repeat 0 800) 0 (repeat 0 768) 0 demo_d 0 = Ok (pk, sk) T1 /\
  @indcpa_enc_avx2 no_junk Kyber512 fuel (repeat 0 768) 0 demo_m 0 pk 0 demo_z 0 = Ok c T2.
Proof.
  destruct case_pke as (A & fuel & pk & sk & c & T1 & T2 & HA & E1 & E2).
  assert (L1 : length (repeat 0 800) = KYBER_INDCPA_PUBLICKEYBYTES Kyber512) by apply repeat_length.
  assert (L2 : length (repeat 0 768) = KYBER_INDCPA_SECRETKEYBYTES Kyber512) by apply repeat_length.
  assert (L3 : length (repeat 0 768) = KYBER_CIPHERTEXTBYTES Kyber512) by apply repeat_length.
  destruct (pke_keypair _ _ _ _ _ _ _ _ _ L1 L2 demo_d_bytes E1) as (A' & HA' & EK).
  assert (LA : length A' = k (PS Kyber512)) by apply HA'.
  assert (Hp : byte_array (KYBER_INDCPA_PUBLICKEYBYTES Kyber512) pk).
  { apply (f_equal fst) in EK. cbn [fst] in EK. rewrite EK.
    apply bytes_bytes_of; [exact (KeyGen_ek_length Kyber512 A' demo_d LA)|apply KeyGen_ek_bytes]. }
  destruct (same_ok _ _ _ _ (same_pke_keypair Kyber512 fuel no_junk no_junk _ _ _ _ _ L1 L2 L1 L2 demo_d_bytes) E1) as [U1 F1].
  destruct (same_ok _ _ _ _ (same_pke_enc Kyber512 fuel no_junk no_junk _ _ _ _ _ L3 L3 demo_m_bytes Hp demo_z_bytes) E2) as [U2 F2].
  exists A, fuel, pk, sk, c, U1, U2. exact (conj HA (conj F1 F2)).
Qed.

Lemma avx_case_dec_timing : exists T, forall (JJ : Junk) ss ct s t h z, length ss = 32%nat -> byte_array (KYBER_CIPHERTEXTBYTES Kyber512) ct ->
  byte_array (384 * k (PS Kyber512)) s -> byte_array (384 * k (PS Kyber512)) t -> byte_array 32 h -> byte_array 32 z ->
  exists v, crypto_kem_dec_avx2 Kyber512 2 ss ct (s ++ t ++ demo_rho ++ h ++ z) = Ok v T.
Proof.
  destruct avx_case_rejection as (s & t & h & c & c' & K & T & T' & Hc & Hc' & NE & Hs & Ht & Hr & Hh & E1 & E2).
  destruct (avx_dec_timing Kyber512 2 demo_rho Hr) as [D|D]; [exact D|].
  rewrite (D no_junk _ _ _ _ _ _ len32 Hc Hs Ht Hh demo_z_bytes) in E1. discriminate.
Qed.
Lemma avx_case_keypair_timing : exists T, forall (JJ : Junk) pk sk d z, length pk = KYBER_PUBLICKEYBYTES Kyber512 ->
  length sk = KYBER_SECRETKEYBYTES Kyber512 -> byte_array 32 d -> byte_array 32 z -> keygen_rho (PS Kyber512) d = demo_rho ->
  exists v, crypto_kem_keypair_derand_avx2 Kyber512 2 pk sk (d ++ z) = Ok v T.
Proof.
  destruct avx_case_exchange as (A & ek & dk & c & K & T1 & T2 & T3 & HA & E1 & _).
  destruct (avx_keypair_timing Kyber512 2 demo_rho) as [D|D]; [exact D|].
  rewrite (D no_junk _ _ _ _ len_pk len_sk demo_d_bytes demo_z_bytes eq_refl) in E1. discriminate.
Qed.
Lemma avx_case_enc_timing : exists T, forall (JJ : Junk) ct ss t m, length ct = KYBER_CIPHERTEXTBYTES Kyber512 -> length ss = 32%nat ->
  byte_array (384 * k (PS Kyber512)) t -> byte_array 32 m ->
  exists v, crypto_kem_enc_derand_avx2 Kyber512 2 ct ss (t ++ demo_rho) m = Ok v T.
Proof.
  demo_open. destruct (avx_enc_timing Kyber512 2 demo_rho Hr) as [D|D]; [exact D|].
  destruct (same_ok _ _ _ _ (same_enc_derand Kyber512 2 no_junk no_junk _ _ _ _ _ _ len_ct len32 len_ct len32 (demo_pk t Ht Hr) demo_m_bytes) E2) as [U2 F2].
  rewrite (D no_junk _ _ _ _ len_ct len32 Ht demo_m_bytes) in F2. discriminate.
Qed.

Lemma avx_case_random_keypair : exists ek dk T,
  @crypto_kem_keypair_avx2 no_junk Kyber512 2 (demo_sched ++ [Failed]) (repeat 0 800) (repeat 0 1632) = Ok (ek, dk, 0, [Failed]) T.
Proof.
  destruct case_random_keypair as (ek & dk & T & E). destruct demo_sched_ok as (KO & _).
  destruct (same_keypair Kyber512 2 no_junk no_junk (demo_sched ++ [Failed]) _ _ _ _ KO len_pk len_sk len_pk len_sk) as [S|[S _]].
  - destruct (same_ok _ _ _ _ S E) as [U F]. exists ek, dk, U. exact F.
  - rewrite S in E. discriminate E.
Qed.
