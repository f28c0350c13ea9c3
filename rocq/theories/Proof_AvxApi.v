(** * The KEM functions of the AVX2 variant against the FIPS 203 internal
    algorithms: the lemmas of Proof_Api and Proof_PropKem, proved for the AVX2 code *)
From Coq Require Import ZArith List Lia Bool.
From Verif Require Import CMonad WP Proof_Base Levels Model_Params Model_Indcpa Model_Randombytes Model_Kem Spec_FIPS202 Spec_FIPS203 Spec_Noise
  Proof_Hash Proof_Bits Proof_GenMatrix Proof_Indcpa Proof_Keypair Proof_Encrypt Proof_Fuel Proof_Kem Proof_Correct Proof_Api
  Proof_Nonce Proof_Random Vocab Vocab_Code Proof_Vocab Proof_PropPoly Proof_PropSample Proof_PropUtil Proof_PropKem
  Model_AvxIndcpa Model_AvxKem Proof_AvxKeypair Proof_AvxEncrypt Proof_AvxKem Proof_AvxFuel.
Import ListNotations.
Open Scope Z_scope.
Local Opaque SHA3_256 SHA3_512 SHAKE256 SHAKE128.

Lemma avx_keypair_sound lv fuel (JJ : Junk) pk sk coins ek dk r T :
  length pk = KYBER_PUBLICKEYBYTES lv -> length sk = KYBER_SECRETKEYBYTES lv -> bytes_of 64 coins ->
  crypto_kem_keypair_derand_avx2 lv fuel pk sk coins = Ok (ek, dk, r) T ->
  r = 0 /\ KeyGen_internal (PS lv) (firstn 32 coins) (firstn 32 (skipn 32 coins)) ek dk.
Proof.
  intros Lp Ls Hc E. pose proof (bytes_of_bytes _ _ Hc) as Bc. destruct Hc as [Lc _].
  destruct (enough_all_dec lv fuel (keygen_rho (PS lv) (firstn 32 coins))) as [HE|HE].
  - destruct (avx2_keypair_derand_wp lv fuel _ HE) as [T' W]. destruct (W JJ pk sk coins Lp Ls Lc Bc eq_refl) as (v & Ev & ->).
    rewrite Ev in E. injection E as <- <- <- <-. split; [reflexivity|]. exact (keypair_internal lv fuel coins HE).
  - rewrite avx2_keypair_derand_timeout in E by auto. discriminate.
Qed.

Lemma avx_keypair_complete lv coins ek dk : bytes_of 64 coins ->
  KeyGen_internal (PS lv) (firstn 32 coins) (firstn 32 (skipn 32 coins)) ek dk ->
  exists fuel0, forall fuel (JJ : Junk) pk sk, (fuel0 <= fuel)%nat ->
    length pk = KYBER_PUBLICKEYBYTES lv -> length sk = KYBER_SECRETKEYBYTES lv ->
    exists T, crypto_kem_keypair_derand_avx2 lv fuel pk sk coins = Ok (ek, dk, 0) T.
Proof.
  intros Hc HK. pose proof (bytes_of_bytes _ _ Hc) as Bc. pose proof Hc as [Lc _].
  assert (HM : exists A, is_matrix (PS lv) (keygen_rho (PS lv) (firstn 32 coins)) A) by (destruct HK as (A & p & M & _); eauto).
  destruct HM as [A HM]. destruct (is_matrix_enough lv _ A HM) as [f0 F0]. exists f0. intros fuel JJ pk sk Lf Lp Ls.
  pose proof (enough_all_mono lv f0 fuel _ Lf F0) as HE.
  destruct (avx2_keypair_derand_wp lv fuel _ HE) as [T' W]. destruct (W JJ pk sk coins Lp Ls Lc Bc eq_refl) as (v & Ev & Ew).
  exists T'. rewrite Ev, Ew. f_equal. f_equal. rewrite (surjective_pairing (kem_keypair _ _ _ _)).
  destruct (KeyGen_internal_functional _ _ _ _ _ _ _ (keypair_internal lv fuel coins HE) HK) as [-> ->]. reflexivity.
Qed.

Lemma avx_keypair_outcome lv fuel (JJ : Junk) pk sk coins :
  length pk = KYBER_PUBLICKEYBYTES lv -> length sk = KYBER_SECRETKEYBYTES lv -> bytes_of 64 coins ->
  (exists ek dk T, crypto_kem_keypair_derand_avx2 lv fuel pk sk coins = Ok (ek, dk, 0) T) \/
  crypto_kem_keypair_derand_avx2 lv fuel pk sk coins = Timeout.
Proof.
  intros Lp Ls Hc. pose proof (bytes_of_bytes _ _ Hc) as Bc. destruct Hc as [Lc _].
  destruct (enough_all_dec lv fuel (keygen_rho (PS lv) (firstn 32 coins))) as [HE|HE]; [left|right; now apply avx2_keypair_derand_timeout].
  destruct (avx2_keypair_derand_wp lv fuel _ HE) as [T' W]. destruct (W JJ pk sk coins Lp Ls Lc Bc eq_refl) as (v & Ev & Ew).
  rewrite Ev, Ew. rewrite (surjective_pairing (kem_keypair _ _ _ _)). eauto.
Qed.

Lemma avx_keypair_diverges lv coins : bytes_of 64 coins ->
  (forall A, ~ is_matrix (PS lv) (keygen_rho (PS lv) (firstn 32 coins)) A) ->
  forall fuel (JJ : Junk) pk sk, crypto_kem_keypair_derand_avx2 lv fuel pk sk coins = Timeout.
Proof.
  intros Hc HN fuel JJ pk sk. pose proof (bytes_of_bytes _ _ Hc) as Bc. destruct Hc as [Lc _].
  apply avx2_keypair_derand_timeout; auto. intros HE. exact (HN _ (matrix_is_matrix lv fuel _ HE)).
Qed.

Lemma avx_keypair_trace lv f1 f2 (J1 J2 : Junk) pk1 sk1 c1 pk2 sk2 c2 v1 v2 T1 T2 :
  length pk1 = KYBER_PUBLICKEYBYTES lv -> length sk1 = KYBER_SECRETKEYBYTES lv -> bytes_of 64 c1 ->
  length pk2 = KYBER_PUBLICKEYBYTES lv -> length sk2 = KYBER_SECRETKEYBYTES lv -> bytes_of 64 c2 ->
  keygen_rho (PS lv) (firstn 32 c1) = keygen_rho (PS lv) (firstn 32 c2) ->
  @crypto_kem_keypair_derand_avx2 J1 lv f1 pk1 sk1 c1 = Ok v1 T1 -> @crypto_kem_keypair_derand_avx2 J2 lv f2 pk2 sk2 c2 = Ok v2 T2 ->
  T1 = T2.
Proof.
  intros Lp1 Ls1 H1 Lp2 Ls2 H2 ER E1 E2.
  pose proof (bytes_of_bytes _ _ H1) as B1. destruct H1 as [L1 _].
  pose proof (bytes_of_bytes _ _ H2) as B2. destruct H2 as [L2 _].
  assert (HE2 : enough_all lv f2 (keygen_rho (PS lv) (firstn 32 c2))).
  { destruct (enough_all_dec lv f2 (keygen_rho (PS lv) (firstn 32 c2))); [assumption|].
    rewrite avx2_keypair_derand_timeout in E2 by auto. discriminate. }
  destruct (avx2_keypair_derand_wp lv f2 _ HE2) as [T W].
  destruct (W J2 pk2 sk2 c2 Lp2 Ls2 L2 B2 eq_refl) as (w2 & Ew2 & _).
  destruct (W J1 pk1 sk1 c1 Lp1 Ls1 L1 B1 ER) as (w1 & Ew1 & _).
  assert (EF : @crypto_kem_keypair_derand_avx2 J1 lv f1 pk1 sk1 c1 = @crypto_kem_keypair_derand_avx2 J1 lv f2 pk1 sk1 c1).
  { apply (fuel_agree (fun f => @crypto_kem_keypair_derand_avx2 J1 lv f pk1 sk1 c1)); [intros; now apply le_keypair_derand_avx2|cbv beta; rewrite E1; discriminate|cbv beta; rewrite Ew1; discriminate]. }
  congruence.
Qed.

Lemma avx_enc_sound lv fuel (JJ : Junk) ct ss pk m ct' ss' r T :
  length ct = KYBER_CIPHERTEXTBYTES lv -> length ss = 32%nat ->
  bytes_of (KYBER_PUBLICKEYBYTES lv) pk -> bytes_of 32 m ->
  crypto_kem_enc_derand_avx2 lv fuel ct ss pk m = Ok (ct', ss', r) T ->
  r = 0 /\ Encaps_internal (PS lv) pk m ss' ct'.
Proof.
  intros Lc Ls Hp Hm E. pose proof (bytes_of_bytes _ _ Hp) as Bp. destruct Hp as [Lp _].
  pose proof (bytes_of_bytes _ _ Hm) as Bm. destruct Hm as [Lm _].
  destruct (enough_all_dec lv fuel (ek_rho (PS lv) pk)) as [HE|HE].
  - destruct (avx2_enc_derand_wp lv fuel _ HE) as [T' W]. destruct (W JJ ct ss pk m Lc Ls Lp Bp Lm Bm eq_refl) as (v & Ev & ->).
    rewrite Ev in E. injection E as <- <- <- <-. split; [reflexivity|]. exact (enc_internal lv fuel pk m HE).
  - rewrite avx2_enc_derand_timeout in E by auto. discriminate.
Qed.

Lemma avx_enc_complete lv pk m K c : bytes_of (KYBER_PUBLICKEYBYTES lv) pk -> bytes_of 32 m ->
  Encaps_internal (PS lv) pk m K c ->
  exists fuel0, forall fuel (JJ : Junk) ct ss, (fuel0 <= fuel)%nat ->
    length ct = KYBER_CIPHERTEXTBYTES lv -> length ss = 32%nat ->
    exists T, crypto_kem_enc_derand_avx2 lv fuel ct ss pk m = Ok (c, K, 0) T.
Proof.
  intros Hp Hm HK. pose proof (bytes_of_bytes _ _ Hp) as Bp. destruct Hp as [Lp _].
  pose proof (bytes_of_bytes _ _ Hm) as Bm. destruct Hm as [Lm _].
  assert (HM : exists A, is_matrix (PS lv) (ek_rho (PS lv) pk) A) by (destruct HK as (A & M & _); eauto).
  destruct HM as [A HM]. destruct (is_matrix_enough lv _ A HM) as [f0 F0]. exists f0. intros fuel JJ ct ss Lf Lc Ls.
  pose proof (enough_all_mono lv f0 fuel _ Lf F0) as HE.
  destruct (avx2_enc_derand_wp lv fuel _ HE) as [T' W]. destruct (W JJ ct ss pk m Lc Ls Lp Bp Lm Bm eq_refl) as (v & Ev & Ew).
  exists T'. rewrite Ev, Ew. f_equal. f_equal. rewrite (surjective_pairing (kem_enc _ _ _ _ _)).
  destruct (Encaps_internal_functional _ _ _ _ _ _ _ (enc_internal lv fuel pk m HE) HK) as [-> ->]. reflexivity.
Qed.

Lemma avx_enc_outcome lv fuel (JJ : Junk) ct ss pk m :
  length ct = KYBER_CIPHERTEXTBYTES lv -> length ss = 32%nat ->
  bytes_of (KYBER_PUBLICKEYBYTES lv) pk -> bytes_of 32 m ->
  (exists ct' ss' T, crypto_kem_enc_derand_avx2 lv fuel ct ss pk m = Ok (ct', ss', 0) T) \/
  crypto_kem_enc_derand_avx2 lv fuel ct ss pk m = Timeout.
Proof.
  intros Lc Ls Hp Hm. pose proof (bytes_of_bytes _ _ Hp) as Bp. destruct Hp as [Lp _].
  pose proof (bytes_of_bytes _ _ Hm) as Bm. destruct Hm as [Lm _].
  destruct (enough_all_dec lv fuel (ek_rho (PS lv) pk)) as [HE|HE]; [left|right; now apply avx2_enc_derand_timeout].
  destruct (avx2_enc_derand_wp lv fuel _ HE) as [T' W]. destruct (W JJ ct ss pk m Lc Ls Lp Bp Lm Bm eq_refl) as (v & Ev & Ew).
  rewrite Ev, Ew. rewrite (surjective_pairing (kem_enc _ _ _ _ _)). eauto.
Qed.

Lemma avx_enc_diverges lv pk m : bytes_of (KYBER_PUBLICKEYBYTES lv) pk -> bytes_of 32 m ->
  (forall A, ~ is_matrix (PS lv) (ek_rho (PS lv) pk) A) ->
  forall fuel (JJ : Junk) ct ss, crypto_kem_enc_derand_avx2 lv fuel ct ss pk m = Timeout.
Proof.
  intros Hp Hm HN fuel JJ ct ss. pose proof (bytes_of_bytes _ _ Hp) as Bp. destruct Hp as [Lp _].
  pose proof (bytes_of_bytes _ _ Hm) as Bm. destruct Hm as [Lm _].
  apply avx2_enc_derand_timeout; auto. intros HE. exact (HN _ (matrix_is_matrix lv fuel _ HE)).
Qed.

Lemma avx_enc_trace lv f1 f2 (J1 J2 : Junk) ct1 ss1 pk1 m1 ct2 ss2 pk2 m2 v1 v2 T1 T2 :
  length ct1 = KYBER_CIPHERTEXTBYTES lv -> length ss1 = 32%nat -> bytes_of (KYBER_PUBLICKEYBYTES lv) pk1 -> bytes_of 32 m1 ->
  length ct2 = KYBER_CIPHERTEXTBYTES lv -> length ss2 = 32%nat -> bytes_of (KYBER_PUBLICKEYBYTES lv) pk2 -> bytes_of 32 m2 ->
  ek_rho (PS lv) pk1 = ek_rho (PS lv) pk2 ->
  @crypto_kem_enc_derand_avx2 J1 lv f1 ct1 ss1 pk1 m1 = Ok v1 T1 -> @crypto_kem_enc_derand_avx2 J2 lv f2 ct2 ss2 pk2 m2 = Ok v2 T2 ->
  T1 = T2.
Proof.
  intros Lc1 Ls1 Hp1 Hm1 Lc2 Ls2 Hp2 Hm2 ER E1 E2.
  pose proof (bytes_of_bytes _ _ Hp1) as Bp1. destruct Hp1 as [Lp1 _].
  pose proof (bytes_of_bytes _ _ Hm1) as Bm1. destruct Hm1 as [Lm1 _].
  pose proof (bytes_of_bytes _ _ Hp2) as Bp2. destruct Hp2 as [Lp2 _].
  pose proof (bytes_of_bytes _ _ Hm2) as Bm2. destruct Hm2 as [Lm2 _].
  assert (HE2 : enough_all lv f2 (ek_rho (PS lv) pk2)).
  { destruct (enough_all_dec lv f2 (ek_rho (PS lv) pk2)); [assumption|].
    rewrite avx2_enc_derand_timeout in E2 by auto. discriminate. }
  destruct (avx2_enc_derand_wp lv f2 _ HE2) as [T W].
  destruct (W J2 ct2 ss2 pk2 m2 Lc2 Ls2 Lp2 Bp2 Lm2 Bm2 eq_refl) as (w2 & Ew2 & _).
  destruct (W J1 ct1 ss1 pk1 m1 Lc1 Ls1 Lp1 Bp1 Lm1 Bm1 ER) as (w1 & Ew1 & _).
  assert (EF : @crypto_kem_enc_derand_avx2 J1 lv f1 ct1 ss1 pk1 m1 = @crypto_kem_enc_derand_avx2 J1 lv f2 ct1 ss1 pk1 m1).
  { apply (fuel_agree (fun f => @crypto_kem_enc_derand_avx2 J1 lv f ct1 ss1 pk1 m1)); [intros; now apply le_enc_derand_avx2|cbv beta; rewrite E1; discriminate|cbv beta; rewrite Ew1; discriminate]. }
  congruence.
Qed.

Lemma avx_dec_sound lv fuel (JJ : Junk) ss ct sk ss' r T :
  length ss = 32%nat -> bytes_of (KYBER_CIPHERTEXTBYTES lv) ct -> bytes_of (KYBER_SECRETKEYBYTES lv) sk ->
  crypto_kem_dec_avx2 lv fuel ss ct sk = Ok (ss', r) T -> r = 0 /\ Decaps_internal (PS lv) sk ct ss'.
Proof.
  intros Ls Hc Hk E. pose proof (bytes_of_bytes _ _ Hc) as Bc. destruct Hc as [Lc _].
  pose proof (bytes_of_bytes _ _ Hk) as Bk. destruct Hk as [Lk _].
  destruct (enough_all_dec lv fuel (ek_rho (PS lv) (dk_ek (PS lv) sk))) as [HE|HE].
  - destruct (avx2_dec_wp lv fuel _ HE) as [T' W]. destruct (W JJ ss ct sk Ls Lc Bc Lk Bk eq_refl) as (v & Ev & ->).
    rewrite Ev in E. injection E as <- <- <-. split; [reflexivity|]. exact (dec_internal lv fuel ct sk HE).
  - rewrite avx2_dec_timeout in E by auto. discriminate.
Qed.

Lemma avx_dec_complete lv ct sk K : bytes_of (KYBER_CIPHERTEXTBYTES lv) ct -> bytes_of (KYBER_SECRETKEYBYTES lv) sk ->
  Decaps_internal (PS lv) sk ct K ->
  exists fuel0, forall fuel (JJ : Junk) ss, (fuel0 <= fuel)%nat -> length ss = 32%nat ->
    exists T, crypto_kem_dec_avx2 lv fuel ss ct sk = Ok (K, 0) T.
Proof.
  intros Hc Hk HK. pose proof (bytes_of_bytes _ _ Hc) as Bc. destruct Hc as [Lc _].
  pose proof (bytes_of_bytes _ _ Hk) as Bk. destruct Hk as [Lk _].
  assert (HM : exists A, is_matrix (PS lv) (ek_rho (PS lv) (dk_ek (PS lv) sk)) A) by (destruct HK as (A & M & _); eauto).
  destruct HM as [A HM]. destruct (is_matrix_enough lv _ A HM) as [f0 F0]. exists f0. intros fuel JJ ss Lf Ls.
  pose proof (enough_all_mono lv f0 fuel _ Lf F0) as HE.
  destruct (avx2_dec_wp lv fuel _ HE) as [T' W]. destruct (W JJ ss ct sk Ls Lc Bc Lk Bk eq_refl) as (v & Ev & Ew).
  exists T'. rewrite Ev, Ew. f_equal. f_equal.
  exact (Decaps_internal_functional _ _ _ _ _ (dec_internal lv fuel ct sk HE) HK).
Qed.

Lemma avx_dec_outcome lv fuel (JJ : Junk) ss ct sk :
  length ss = 32%nat -> bytes_of (KYBER_CIPHERTEXTBYTES lv) ct -> bytes_of (KYBER_SECRETKEYBYTES lv) sk ->
  (exists ss' T, crypto_kem_dec_avx2 lv fuel ss ct sk = Ok (ss', 0) T) \/ crypto_kem_dec_avx2 lv fuel ss ct sk = Timeout.
Proof.
  intros Ls Hc Hk. pose proof (bytes_of_bytes _ _ Hc) as Bc. destruct Hc as [Lc _].
  pose proof (bytes_of_bytes _ _ Hk) as Bk. destruct Hk as [Lk _].
  destruct (enough_all_dec lv fuel (ek_rho (PS lv) (dk_ek (PS lv) sk))) as [HE|HE]; [left|right; now apply avx2_dec_timeout].
  destruct (avx2_dec_wp lv fuel _ HE) as [T' W]. destruct (W JJ ss ct sk Ls Lc Bc Lk Bk eq_refl) as (v & Ev & Ew).
  rewrite Ev, Ew. eauto.
Qed.

Lemma avx_dec_diverges lv ct sk : bytes_of (KYBER_CIPHERTEXTBYTES lv) ct -> bytes_of (KYBER_SECRETKEYBYTES lv) sk ->
  (forall A, ~ is_matrix (PS lv) (ek_rho (PS lv) (dk_ek (PS lv) sk)) A) ->
  forall fuel (JJ : Junk) ss, crypto_kem_dec_avx2 lv fuel ss ct sk = Timeout.
Proof.
  intros Hc Hk HN fuel JJ ss. pose proof (bytes_of_bytes _ _ Hc) as Bc. destruct Hc as [Lc _].
  pose proof (bytes_of_bytes _ _ Hk) as Bk. destruct Hk as [Lk _].
  apply avx2_dec_timeout; auto. intros HE. exact (HN _ (matrix_is_matrix lv fuel _ HE)).
Qed.

Lemma avx_dec_trace lv f1 f2 (J1 J2 : Junk) ss1 ct1 sk1 ss2 ct2 sk2 v1 v2 T1 T2 :
  length ss1 = 32%nat -> bytes_of (KYBER_CIPHERTEXTBYTES lv) ct1 -> bytes_of (KYBER_SECRETKEYBYTES lv) sk1 ->
  length ss2 = 32%nat -> bytes_of (KYBER_CIPHERTEXTBYTES lv) ct2 -> bytes_of (KYBER_SECRETKEYBYTES lv) sk2 ->
  ek_rho (PS lv) (dk_ek (PS lv) sk1) = ek_rho (PS lv) (dk_ek (PS lv) sk2) ->
  @crypto_kem_dec_avx2 J1 lv f1 ss1 ct1 sk1 = Ok v1 T1 -> @crypto_kem_dec_avx2 J2 lv f2 ss2 ct2 sk2 = Ok v2 T2 -> T1 = T2.
Proof.
  intros Ls1 Hc1 Hk1 Ls2 Hc2 Hk2 ER E1 E2.
  pose proof (bytes_of_bytes _ _ Hc1) as Bc1. destruct Hc1 as [Lc1 _].
  pose proof (bytes_of_bytes _ _ Hk1) as Bk1. destruct Hk1 as [Lk1 _].
  pose proof (bytes_of_bytes _ _ Hc2) as Bc2. destruct Hc2 as [Lc2 _].
  pose proof (bytes_of_bytes _ _ Hk2) as Bk2. destruct Hk2 as [Lk2 _].
  assert (HE2 : enough_all lv f2 (ek_rho (PS lv) (dk_ek (PS lv) sk2))).
  { destruct (enough_all_dec lv f2 (ek_rho (PS lv) (dk_ek (PS lv) sk2))); [assumption|].
    rewrite avx2_dec_timeout in E2 by auto. discriminate. }
  destruct (avx2_dec_wp lv f2 _ HE2) as [T W].
  destruct (W J2 ss2 ct2 sk2 Ls2 Lc2 Bc2 Lk2 Bk2 eq_refl) as (w2 & Ew2 & _).
  destruct (W J1 ss1 ct1 sk1 Ls1 Lc1 Bc1 Lk1 Bk1 ER) as (w1 & Ew1 & _).
  assert (EF : @crypto_kem_dec_avx2 J1 lv f1 ss1 ct1 sk1 = @crypto_kem_dec_avx2 J1 lv f2 ss1 ct1 sk1).
  { apply (fuel_agree (fun f => @crypto_kem_dec_avx2 J1 lv f ss1 ct1 sk1)); [intros; now apply le_dec_avx2|cbv beta; rewrite E1; discriminate|cbv beta; rewrite Ew1; discriminate]. }
  congruence.
Qed.

Lemma avx_keypair_sound' lv fuel (JJ : Junk) pk sk d z ek dk r T :
  length pk = KYBER_PUBLICKEYBYTES lv -> length sk = KYBER_SECRETKEYBYTES lv -> byte_array 32 d -> byte_array 32 z ->
  crypto_kem_keypair_derand_avx2 lv fuel pk sk (d ++ z) = Ok (ek, dk, r) T ->
  r = 0 /\ KeyGen_internal (PS lv) d z ek dk.
Proof.
  intros Lp Ls Hd Hz E. pose proof (avx_keypair_sound lv fuel JJ pk sk (d ++ z) ek dk r T Lp Ls (coins_of d z Hd Hz) E) as S.
  now rewrite coins_d, coins_z in S.
Qed.

Lemma avx_keypair_complete' lv d z ek dk : byte_array 32 d -> byte_array 32 z -> KeyGen_internal (PS lv) d z ek dk ->
  exists fuel0, forall fuel (JJ : Junk) pk sk, (fuel0 <= fuel)%nat ->
    length pk = KYBER_PUBLICKEYBYTES lv -> length sk = KYBER_SECRETKEYBYTES lv ->
    exists T, crypto_kem_keypair_derand_avx2 lv fuel pk sk (d ++ z) = Ok (ek, dk, 0) T.
Proof.
  intros Hd Hz K. apply (avx_keypair_complete lv (d ++ z) ek dk (coins_of d z Hd Hz)). now rewrite coins_d, coins_z.
Qed.

Lemma avx_keypair_diverges' lv d z : byte_array 32 d -> byte_array 32 z ->
  (forall A, ~ is_matrix (PS lv) (keygen_rho (PS lv) d) A) ->
  forall fuel (JJ : Junk) pk sk, crypto_kem_keypair_derand_avx2 lv fuel pk sk (d ++ z) = Timeout.
Proof.
  intros Hd Hz N. apply (avx_keypair_diverges lv (d ++ z) (coins_of d z Hd Hz)). rewrite coins_d by exact Hd. exact N.
Qed.

Lemma avx_keypair_trace' lv f1 f2 (J1 J2 : Junk) pk1 sk1 d1 z1 pk2 sk2 d2 z2 v1 v2 T1 T2 :
  length pk1 = KYBER_PUBLICKEYBYTES lv -> length sk1 = KYBER_SECRETKEYBYTES lv -> byte_array 32 d1 -> byte_array 32 z1 ->
  length pk2 = KYBER_PUBLICKEYBYTES lv -> length sk2 = KYBER_SECRETKEYBYTES lv -> byte_array 32 d2 -> byte_array 32 z2 ->
  keygen_rho (PS lv) d1 = keygen_rho (PS lv) d2 ->
  @crypto_kem_keypair_derand_avx2 J1 lv f1 pk1 sk1 (d1 ++ z1) = Ok v1 T1 ->
  @crypto_kem_keypair_derand_avx2 J2 lv f2 pk2 sk2 (d2 ++ z2) = Ok v2 T2 -> T1 = T2.
Proof.
  intros P1 S1 D1 Z1 P2 S2 D2 Z2 E. apply (avx_keypair_trace lv f1 f2 J1 J2); auto.
  - exact (coins_of d1 z1 D1 Z1).
  - exact (coins_of d2 z2 D2 Z2).
  - rewrite (coins_d d1 z1), (coins_d d2 z2) by assumption. exact E.
Qed.

Lemma avx_enc_trace' lv rho f1 f2 (J1 J2 : Junk) ct1 ss1 t1 m1 ct2 ss2 t2 m2 v1 v2 T1 T2 : byte_array 32 rho ->
  length ct1 = KYBER_CIPHERTEXTBYTES lv -> length ss1 = 32%nat -> byte_array (384 * k (PS lv)) t1 -> byte_array 32 m1 ->
  length ct2 = KYBER_CIPHERTEXTBYTES lv -> length ss2 = 32%nat -> byte_array (384 * k (PS lv)) t2 -> byte_array 32 m2 ->
  @crypto_kem_enc_derand_avx2 J1 lv f1 ct1 ss1 (t1 ++ rho) m1 = Ok v1 T1 ->
  @crypto_kem_enc_derand_avx2 J2 lv f2 ct2 ss2 (t2 ++ rho) m2 = Ok v2 T2 -> T1 = T2.
Proof.
  intros Hr C1 S1 U1 M1 C2 S2 U2 M2. apply (avx_enc_trace lv f1 f2 J1 J2); auto.
  - exact (pk_of lv t1 rho U1 Hr).
  - exact (pk_of lv t2 rho U2 Hr).
  - rewrite (sk_rho lv t1 rho), (sk_rho lv t2 rho) by assumption. reflexivity.
Qed.

Lemma avx_dec_trace' lv rho f1 f2 (J1 J2 : Junk) ss1 ct1 s1 t1 h1 z1 ss2 ct2 s2 t2 h2 z2 v1 v2 T1 T2 : byte_array 32 rho ->
  length ss1 = 32%nat -> byte_array (KYBER_CIPHERTEXTBYTES lv) ct1 -> byte_array (384 * k (PS lv)) s1 ->
  byte_array (384 * k (PS lv)) t1 -> byte_array 32 h1 -> byte_array 32 z1 ->
  length ss2 = 32%nat -> byte_array (KYBER_CIPHERTEXTBYTES lv) ct2 -> byte_array (384 * k (PS lv)) s2 ->
  byte_array (384 * k (PS lv)) t2 -> byte_array 32 h2 -> byte_array 32 z2 ->
  @crypto_kem_dec_avx2 J1 lv f1 ss1 ct1 (s1 ++ t1 ++ rho ++ h1 ++ z1) = Ok v1 T1 ->
  @crypto_kem_dec_avx2 J2 lv f2 ss2 ct2 (s2 ++ t2 ++ rho ++ h2 ++ z2) = Ok v2 T2 -> T1 = T2.
Proof.
  intros Hr L1 C1 S1 U1 H1 Z1 L2 C2 S2 U2 H2 Z2.
  apply (avx_dec_trace lv f1 f2 J1 J2); auto.
  - exact (sk_of lv s1 t1 rho h1 z1 S1 U1 Hr H1 Z1).
  - exact (sk_of lv s2 t2 rho h2 z2 S2 U2 Hr H2 Z2).
  - rewrite (sk_ek lv s1 t1 rho h1 z1), (sk_ek lv s2 t2 rho h2 z2) by assumption.
    rewrite (sk_rho lv t1 rho), (sk_rho lv t2 rho) by assumption. reflexivity.
Qed.

Lemma avx_implicit_rejection lv fuel (JJ : Junk) ss ct s t rho h z ss' r T :
  length ss = 32%nat -> byte_array (KYBER_CIPHERTEXTBYTES lv) ct ->
  byte_array (384 * k (PS lv)) s -> byte_array (384 * k (PS lv)) t -> byte_array 32 rho -> byte_array 32 h -> byte_array 32 z ->
  crypto_kem_dec_avx2 lv fuel ss ct (s ++ t ++ rho ++ h ++ z) = Ok (ss', r) T ->
  r = 0 /\ exists A, is_matrix (PS lv) rho A /\
    let m := K_PKE_Decrypt (PS lv) s ct in
    let Kr := SHA3_512 (m ++ h) in
    let ct' := K_PKE_Encrypt (PS lv) A (t ++ rho) m (skipn 32 Kr) in
    (ct = ct' /\ ss' = firstn 32 Kr) \/ (ct <> ct' /\ ss' = SHAKE256 (z ++ ct) 32).
Proof.
  intros Lss Hc Hs Ht Hr Hh Hz E. destruct (avx_dec_sound lv fuel JJ ss ct _ ss' r T Lss Hc (sk_of lv s t rho h z Hs Ht Hr Hh Hz) E) as [-> D].
  split; [reflexivity|]. destruct D as (A & HA & D).
  rewrite sk_ek, sk_s, sk_h, sk_z in * by assumption. rewrite sk_rho in HA by assumption.
  exists A. split; [exact HA|]. cbv zeta in *. destruct D as [D1 D2].
  match type of D1 with ct = ?x -> _ => destruct (list_eq_dec Z.eq_dec ct x) as [e|e] end; [left|right]; auto.
Qed.

Lemma avx_secret_key_layout lv fuel (JJ : Junk) pk sk d z ek dk r T :
  length pk = api_PUBLICKEYBYTES lv -> length sk = api_SECRETKEYBYTES lv -> byte_array 32 d -> byte_array 32 z ->
  crypto_kem_keypair_derand_avx2 lv fuel pk sk (d ++ z) = Ok (ek, dk, r) T ->
  byte_array (api_PUBLICKEYBYTES lv) ek /\ byte_array (api_SECRETKEYBYTES lv) dk /\
  exists A, is_matrix (PS lv) (keygen_rho (PS lv) d) A /\ ek = fst (K_PKE_KeyGen (PS lv) A d) /\
    dk = snd (K_PKE_KeyGen (PS lv) A d) ++ ek ++ SHA3_256 ek ++ z.
Proof.
  intros Lp Ls Hd Hz E. pose proof (published_sizes lv) as PZ. injection PZ as P1 P2 P3. rewrite <- P1, <- P2 in *.
  destruct (avx_keypair_sound' lv fuel JJ pk sk d z ek dk r T Lp Ls Hd Hz E) as [_ HK].
  destruct (KeyGen_internal_sizes lv d z ek dk Hz HK) as [B1 B2]. split; [exact B1|]. split; [exact B2|].
  destruct HK as (A & p & HA & E1 & ->). exists A. rewrite <- E1. auto.
Qed.

Lemma avx_enc_sizes lv fuel (JJ : Junk) ct ss pk m c K r T :
  length ct = api_CIPHERTEXTBYTES lv -> length ss = 32%nat -> byte_array (api_PUBLICKEYBYTES lv) pk -> byte_array 32 m ->
  crypto_kem_enc_derand_avx2 lv fuel ct ss pk m = Ok (c, K, r) T ->
  byte_array (api_CIPHERTEXTBYTES lv) c /\ byte_array 32 K.
Proof.
  pose proof (published_sizes lv) as PZ. injection PZ as P1 P2 P3. rewrite <- P1, <- P3. intros Lc Ls Hp Hm E.
  destruct (avx_enc_sound lv fuel JJ ct ss pk m c K r T Lc Ls Hp Hm E) as [_ HE].
  destruct (Encaps_internal_sizes lv pk m K c HE). auto.
Qed.

Lemma avx_dec_sizes lv fuel (JJ : Junk) ss ct sk K r T :
  length ss = 32%nat -> byte_array (api_CIPHERTEXTBYTES lv) ct -> byte_array (api_SECRETKEYBYTES lv) sk ->
  crypto_kem_dec_avx2 lv fuel ss ct sk = Ok (K, r) T -> byte_array 32 K.
Proof.
  pose proof (published_sizes lv) as PZ. injection PZ as P1 P2 P3. rewrite <- P2, <- P3. intros Ls Hc Hk E.
  destruct (avx_dec_sound lv fuel JJ ss ct sk K r T Ls Hc Hk E) as [_ HD]. exact (Decaps_internal_sizes lv sk ct K HD).
Qed.

Lemma avx_keypair_overwrites lv f1 f2 (J1 J2 : Junk) pk1 sk1 pk2 sk2 d z v1 v2 T1 T2 :
  length pk1 = KYBER_PUBLICKEYBYTES lv -> length sk1 = KYBER_SECRETKEYBYTES lv ->
  length pk2 = KYBER_PUBLICKEYBYTES lv -> length sk2 = KYBER_SECRETKEYBYTES lv -> byte_array 32 d -> byte_array 32 z ->
  @crypto_kem_keypair_derand_avx2 J1 lv f1 pk1 sk1 (d ++ z) = Ok v1 T1 ->
  @crypto_kem_keypair_derand_avx2 J2 lv f2 pk2 sk2 (d ++ z) = Ok v2 T2 -> v1 = v2.
Proof.
  intros L1 L2 L3 L4 Hd Hz E1 E2. destruct v1 as [[e1 k1] r1], v2 as [[e2 k2] r2].
  destruct (avx_keypair_sound' lv f1 J1 _ _ d z _ _ _ _ L1 L2 Hd Hz E1) as [-> K1].
  destruct (avx_keypair_sound' lv f2 J2 _ _ d z _ _ _ _ L3 L4 Hd Hz E2) as [-> K2].
  destruct (KeyGen_internal_functional _ _ _ _ _ _ _ K1 K2) as [-> ->]. reflexivity.
Qed.

Lemma avx_enc_overwrites lv f1 f2 (J1 J2 : Junk) ct1 ss1 ct2 ss2 pk m v1 v2 T1 T2 :
  length ct1 = KYBER_CIPHERTEXTBYTES lv -> length ss1 = 32%nat -> length ct2 = KYBER_CIPHERTEXTBYTES lv -> length ss2 = 32%nat ->
  byte_array (KYBER_PUBLICKEYBYTES lv) pk -> byte_array 32 m ->
  @crypto_kem_enc_derand_avx2 J1 lv f1 ct1 ss1 pk m = Ok v1 T1 ->
  @crypto_kem_enc_derand_avx2 J2 lv f2 ct2 ss2 pk m = Ok v2 T2 -> v1 = v2.
Proof.
  intros L1 L2 L3 L4 Hp Hm E1 E2. destruct v1 as [[e1 k1] r1], v2 as [[e2 k2] r2].
  destruct (avx_enc_sound lv f1 J1 _ _ _ _ _ _ _ _ L1 L2 Hp Hm E1) as [-> K1].
  destruct (avx_enc_sound lv f2 J2 _ _ _ _ _ _ _ _ L3 L4 Hp Hm E2) as [-> K2].
  destruct (Encaps_internal_functional _ _ _ _ _ _ _ K1 K2) as [-> ->]. reflexivity.
Qed.

Lemma avx_dec_overwrites lv f1 f2 (J1 J2 : Junk) ss1 ss2 ct sk v1 v2 T1 T2 :
  length ss1 = 32%nat -> length ss2 = 32%nat -> byte_array (KYBER_CIPHERTEXTBYTES lv) ct -> byte_array (KYBER_SECRETKEYBYTES lv) sk ->
  @crypto_kem_dec_avx2 J1 lv f1 ss1 ct sk = Ok v1 T1 -> @crypto_kem_dec_avx2 J2 lv f2 ss2 ct sk = Ok v2 T2 -> v1 = v2.
Proof.
  intros L1 L2 Hc Hk E1 E2. destruct v1 as [e1 r1], v2 as [e2 r2].
  destruct (avx_dec_sound lv f1 J1 _ _ _ _ _ _ L1 Hc Hk E1) as [-> K1].
  destruct (avx_dec_sound lv f2 J2 _ _ _ _ _ _ L2 Hc Hk E2) as [-> K2].
  now rewrite (Decaps_internal_functional _ _ _ _ _ K1 K2).
Qed.

Lemma avx_keypair_safe lv fuel (JJ : Junk) pk sk coins :
  length pk = KYBER_PUBLICKEYBYTES lv -> length sk = KYBER_SECRETKEYBYTES lv -> byte_array 64 coins ->
  (forall u, crypto_kem_keypair_derand_avx2 lv fuel pk sk coins <> UB u) /\ crypto_kem_keypair_derand_avx2 lv fuel pk sk coins <> Abort /\
  (crypto_kem_keypair_derand_avx2 lv fuel pk sk coins = Timeout <->
   ~ exists ek dk T, crypto_kem_keypair_derand_avx2 lv fuel pk sk coins = Ok (ek, dk, 0) T).
Proof.
  intros Lp Ls Hc. destruct (avx_keypair_outcome lv fuel JJ pk sk coins Lp Ls Hc) as [(a & b & T & E)|E]; rewrite E.
  - refine (conj _ (conj _ (conj _ _))); try discriminate; intros NE; exfalso; apply NE; eauto.
  - refine (conj _ (conj _ (conj _ _))); try discriminate; intros; try reflexivity. intros (a & b & T & X). discriminate.
Qed.

Lemma avx_enc_safe lv fuel (JJ : Junk) ct ss pk m :
  length ct = KYBER_CIPHERTEXTBYTES lv -> length ss = 32%nat -> byte_array (KYBER_PUBLICKEYBYTES lv) pk -> byte_array 32 m ->
  (forall u, crypto_kem_enc_derand_avx2 lv fuel ct ss pk m <> UB u) /\ crypto_kem_enc_derand_avx2 lv fuel ct ss pk m <> Abort /\
  (crypto_kem_enc_derand_avx2 lv fuel ct ss pk m = Timeout <->
   ~ exists c K T, crypto_kem_enc_derand_avx2 lv fuel ct ss pk m = Ok (c, K, 0) T).
Proof.
  intros Lp Ls Hp Hm. destruct (avx_enc_outcome lv fuel JJ ct ss pk m Lp Ls Hp Hm) as [(a & b & T & E)|E]; rewrite E.
  - refine (conj _ (conj _ (conj _ _))); try discriminate; intros NE; exfalso; apply NE; eauto.
  - refine (conj _ (conj _ (conj _ _))); try discriminate; intros; try reflexivity. intros (a & b & T & X). discriminate.
Qed.

Lemma avx_dec_safe lv fuel (JJ : Junk) ss ct sk :
  length ss = 32%nat -> byte_array (KYBER_CIPHERTEXTBYTES lv) ct -> byte_array (KYBER_SECRETKEYBYTES lv) sk ->
  (forall u, crypto_kem_dec_avx2 lv fuel ss ct sk <> UB u) /\ crypto_kem_dec_avx2 lv fuel ss ct sk <> Abort /\
  (crypto_kem_dec_avx2 lv fuel ss ct sk = Timeout <-> ~ exists K T, crypto_kem_dec_avx2 lv fuel ss ct sk = Ok (K, 0) T).
Proof.
  intros Ls Hc Hk. destruct (avx_dec_outcome lv fuel JJ ss ct sk Ls Hc Hk) as [(a & T & E)|E]; rewrite E.
  - refine (conj _ (conj _ (conj _ _))); try discriminate; intros NE; exfalso; apply NE; eauto.
  - refine (conj _ (conj _ (conj _ _))); try discriminate; intros; try reflexivity. intros (a & T & X). discriminate.
Qed.

Lemma avx_dec_timing lv fuel rho : byte_array 32 rho ->
  (exists T, forall (JJ : Junk) ss ct s t h z, length ss = 32%nat -> byte_array (KYBER_CIPHERTEXTBYTES lv) ct ->
     byte_array (384 * k (PS lv)) s -> byte_array (384 * k (PS lv)) t -> byte_array 32 h -> byte_array 32 z ->
     exists v, crypto_kem_dec_avx2 lv fuel ss ct (s ++ t ++ rho ++ h ++ z) = Ok v T) \/
  (forall (JJ : Junk) ss ct s t h z, length ss = 32%nat -> byte_array (KYBER_CIPHERTEXTBYTES lv) ct ->
     byte_array (384 * k (PS lv)) s -> byte_array (384 * k (PS lv)) t -> byte_array 32 h -> byte_array 32 z ->
     crypto_kem_dec_avx2 lv fuel ss ct (s ++ t ++ rho ++ h ++ z) = Timeout).
Proof.
  intros Hr. destruct (enough_all_dec lv fuel rho) as [HE|HE]; [left|right].
  - destruct (avx2_dec_wp lv fuel rho HE) as [T W]. exists T. intros JJ ss ct s t h z Ls Hc Hs Ht Hh Hz.
    pose proof (sk_of lv s t rho h z Hs Ht Hr Hh Hz) as Hk.
    destruct (W JJ ss ct (s ++ t ++ rho ++ h ++ z) Ls (proj1 Hc) (bytes_of_bytes _ _ Hc) (proj1 Hk) (bytes_of_bytes _ _ Hk)) as (v & E & _).
    + rewrite sk_ek by assumption. now apply sk_rho.
    + eauto.
  - intros JJ ss ct s t h z Ls Hc Hs Ht Hh Hz.
    pose proof (sk_of lv s t rho h z Hs Ht Hr Hh Hz) as Hk.
    apply avx2_dec_timeout; [apply Hc|now apply bytes_of_bytes in Hc|apply Hk|now apply bytes_of_bytes in Hk|].
    rewrite sk_ek by assumption. rewrite sk_rho by assumption. exact HE.
Qed.

Lemma avx_keypair_timing lv fuel rho :
  (exists T, forall (JJ : Junk) pk sk d z, length pk = KYBER_PUBLICKEYBYTES lv -> length sk = KYBER_SECRETKEYBYTES lv ->
     byte_array 32 d -> byte_array 32 z -> keygen_rho (PS lv) d = rho ->
     exists v, crypto_kem_keypair_derand_avx2 lv fuel pk sk (d ++ z) = Ok v T) \/
  (forall (JJ : Junk) pk sk d z, length pk = KYBER_PUBLICKEYBYTES lv -> length sk = KYBER_SECRETKEYBYTES lv ->
     byte_array 32 d -> byte_array 32 z -> keygen_rho (PS lv) d = rho ->
     crypto_kem_keypair_derand_avx2 lv fuel pk sk (d ++ z) = Timeout).
Proof.
  destruct (enough_all_dec lv fuel rho) as [HE|HE]; [left|right].
  - destruct (avx2_keypair_derand_wp lv fuel rho HE) as [T W]. exists T. intros JJ pk sk d z Lp Ls Hd Hz Er.
    pose proof (coins_of d z Hd Hz) as Hc.
    destruct (W JJ pk sk (d ++ z) Lp Ls (proj1 Hc) (bytes_of_bytes _ _ Hc)) as (v & E & _).
    + change (sub (d ++ z) 0 32) with (firstn 32 (d ++ z)). now rewrite coins_d.
    + eauto.
  - intros JJ pk sk d z Lp Ls Hd Hz Er. pose proof (coins_of d z Hd Hz) as Hc.
    apply avx2_keypair_derand_timeout; [apply Hc|now apply bytes_of_bytes in Hc|].
    change (sub (d ++ z) 0 32) with (firstn 32 (d ++ z)). rewrite coins_d by assumption. now rewrite Er.
Qed.

Lemma avx_enc_timing lv fuel rho : byte_array 32 rho ->
  (exists T, forall (JJ : Junk) ct ss t m, length ct = KYBER_CIPHERTEXTBYTES lv -> length ss = 32%nat ->
     byte_array (384 * k (PS lv)) t -> byte_array 32 m ->
     exists v, crypto_kem_enc_derand_avx2 lv fuel ct ss (t ++ rho) m = Ok v T) \/
  (forall (JJ : Junk) ct ss t m, length ct = KYBER_CIPHERTEXTBYTES lv -> length ss = 32%nat ->
     byte_array (384 * k (PS lv)) t -> byte_array 32 m ->
     crypto_kem_enc_derand_avx2 lv fuel ct ss (t ++ rho) m = Timeout).
Proof.
  intros Hr. destruct (enough_all_dec lv fuel rho) as [HE|HE]; [left|right].
  - destruct (avx2_enc_derand_wp lv fuel rho HE) as [T W]. exists T. intros JJ ct ss t m Lc Ls Ht Hm.
    pose proof (pk_of lv t rho Ht Hr) as Hk.
    destruct (W JJ ct ss (t ++ rho) m Lc Ls (proj1 Hk) (bytes_of_bytes _ _ Hk) (proj1 Hm) (bytes_of_bytes _ _ Hm)) as (v & E & _).
    + now apply sk_rho.
    + eauto.
  - intros JJ ct ss t m Lc Ls Ht Hm. pose proof (pk_of lv t rho Ht Hr) as Hk.
    apply avx2_enc_derand_timeout; [apply Hk|now apply bytes_of_bytes in Hk|apply Hm|now apply bytes_of_bytes in Hm|].
    rewrite sk_rho by assumption. exact HE.
Qed.

Lemma avx_published_seed lv fuel (JJ : Junk) pk sk d z ek dk r T :
  length pk = KYBER_PUBLICKEYBYTES lv -> length sk = KYBER_SECRETKEYBYTES lv -> byte_array 32 d -> byte_array 32 z ->
  crypto_kem_keypair_derand_avx2 lv fuel pk sk (d ++ z) = Ok (ek, dk, r) T ->
  exists t, length t = (384 * k (PS lv))%nat /\ ek = t ++ keygen_rho (PS lv) d.
Proof.
  intros Lp Ls Hd Hz E. destruct (avx_keypair_sound' lv fuel JJ pk sk d z ek dk r T Lp Ls Hd Hz E) as [_ HK].
  destruct (KeyGen_internal_sizes lv d z ek dk Hz HK) as [[Lek _] _].
  destruct (dk_layout lv d z ek dk Hz HK) as (A & _ & _ & _ & _ & _ & _ & Er).
  exists (firstn (384 * k (PS lv)) ek). split.
  - rewrite firstn_length, Lek, (proj2 (proj2 (sk_sizes lv))). lia.
  - rewrite <- Er. unfold ek_rho. symmetry. apply firstn_skipn.
Qed.

Lemma avx_keypair_ret lv fuel (JJ : Junk) pk sk coins ek dk r T :
  crypto_kem_keypair_derand_avx2 lv fuel pk sk coins = Ok (ek, dk, r) T -> r = 0.
Proof.
  intros E. unfold crypto_kem_keypair_derand_avx2 in E. apply bind_ok in E as ([p s] & ? & ? & _ & E & _).
  repeat (apply bind_ok in E as (? & ? & ? & _ & E & _)). cbn in E. now injection E.
Qed.

Lemma avx_enc_ret lv fuel (JJ : Junk) ct ss pk coins c K r T :
  crypto_kem_enc_derand_avx2 lv fuel ct ss pk coins = Ok (c, K, r) T -> r = 0.
Proof.
  intros E. unfold crypto_kem_enc_derand_avx2 in E. cbv zeta in E.
  repeat (apply bind_ok in E as (? & ? & ? & _ & E & _)). cbn in E. now injection E.
Qed.

Lemma avx_kem_keypair_random lv fuel (JJ : Junk) used rest pk sk : kernel_ok (used ++ rest) 64 -> ~ In Failed used ->
  shortest used 64 -> length (delivered used) = 64%nat ->
  match crypto_kem_keypair_derand_avx2 lv fuel pk sk (delivered used) with
  | Ok (ek, dk, _) _ => exists T, crypto_kem_keypair_avx2 lv fuel (used ++ rest) pk sk = Ok (ek, dk, 0, rest) T
  | UB u => crypto_kem_keypair_avx2 lv fuel (used ++ rest) pk sk = UB u
  | Timeout => crypto_kem_keypair_avx2 lv fuel (used ++ rest) pk sk = Timeout
  | Abort => crypto_kem_keypair_avx2 lv fuel (used ++ rest) pk sk = Abort
  end.
Proof.
  intros HK NF Sh L. unfold crypto_kem_keypair_avx2. change (2 * KYBER_SYMBYTES)%nat with 64%nat.
  destruct (randombytes_exact used rest (local 64) 0 64 HK) as [T ->]; auto; try (rewrite local_length; lia).
  rewrite overwrite_full by (now rewrite L, local_length). cbn [bind].
  destruct (crypto_kem_keypair_derand_avx2 lv fuel pk sk (delivered used)) as [[[p s] r] t'| | |]; cbn [bind ret]; eauto.
Qed.

Lemma avx_kem_enc_random lv fuel (JJ : Junk) used rest ct ss pk : kernel_ok (used ++ rest) 32 -> ~ In Failed used ->
  shortest used 32 -> length (delivered used) = 32%nat ->
  match crypto_kem_enc_derand_avx2 lv fuel ct ss pk (delivered used) with
  | Ok (c, K, _) _ => exists T, crypto_kem_enc_avx2 lv fuel (used ++ rest) ct ss pk = Ok (c, K, 0, rest) T
  | UB u => crypto_kem_enc_avx2 lv fuel (used ++ rest) ct ss pk = UB u
  | Timeout => crypto_kem_enc_avx2 lv fuel (used ++ rest) ct ss pk = Timeout
  | Abort => crypto_kem_enc_avx2 lv fuel (used ++ rest) ct ss pk = Abort
  end.
Proof.
  intros HK NF Sh L. unfold crypto_kem_enc_avx2. change KYBER_SYMBYTES with 32%nat.
  destruct (randombytes_exact used rest (local 32) 0 32 HK) as [T ->]; auto; try (rewrite local_length; lia).
  rewrite overwrite_full by (now rewrite L, local_length). cbn [bind].
  destruct (crypto_kem_enc_derand_avx2 lv fuel ct ss pk (delivered used)) as [[[p s] r] t'| | |]; cbn [bind ret]; eauto.
Qed.

Lemma avx_keypair_random_derand lv fuel (JJ : Junk) used rest pk sk : kernel_ok (used ++ rest) 64 -> ~ In Failed used ->
  shortest used 64 -> length (delivered used) = 64%nat ->
  match crypto_kem_keypair_derand_avx2 lv fuel pk sk (delivered used) with
  | Ok (ek, dk, _) _ => exists T, crypto_kem_keypair_avx2 lv fuel (used ++ rest) pk sk = Ok (ek, dk, 0, rest) T
  | UB u => crypto_kem_keypair_avx2 lv fuel (used ++ rest) pk sk = UB u
  | Timeout => crypto_kem_keypair_avx2 lv fuel (used ++ rest) pk sk = Timeout
  | Abort => crypto_kem_keypair_avx2 lv fuel (used ++ rest) pk sk = Abort
  end.
Proof. apply avx_kem_keypair_random. Qed.

Lemma avx_enc_random_derand lv fuel (JJ : Junk) used rest ct ss pk : kernel_ok (used ++ rest) 32 -> ~ In Failed used ->
  shortest used 32 -> length (delivered used) = 32%nat ->
  match crypto_kem_enc_derand_avx2 lv fuel ct ss pk (delivered used) with
  | Ok (c, K, _) _ => exists T, crypto_kem_enc_avx2 lv fuel (used ++ rest) ct ss pk = Ok (c, K, 0, rest) T
  | UB u => crypto_kem_enc_avx2 lv fuel (used ++ rest) ct ss pk = UB u
  | Timeout => crypto_kem_enc_avx2 lv fuel (used ++ rest) ct ss pk = Timeout
  | Abort => crypto_kem_enc_avx2 lv fuel (used ++ rest) ct ss pk = Abort
  end.
Proof. apply avx_kem_enc_random. Qed.

Lemma avx_keypair_random lv fuel (JJ : Junk) sched pk sk ek dk r rest T : kernel_ok sched 64 ->
  crypto_kem_keypair_avx2 lv fuel sched pk sk = Ok (ek, dk, r, rest) T ->
  r = 0 /\ exists used T', sched = used ++ rest /\ ~ In Failed used /\ shortest used 64 /\ byte_array 64 (delivered used) /\
    crypto_kem_keypair_derand_avx2 lv fuel pk sk (delivered used) = Ok (ek, dk, 0) T'.
Proof.
  intros HK E. unfold crypto_kem_keypair_avx2 in E. change (2 * KYBER_SYMBYTES)%nat with 64%nat in E.
  pose proof (randombytes_spec sched (local 64) 0 64 HK) as S. rewrite local_length in S. specialize (S (le_n _)).
  apply bind_ok in E as ([co rest'] & T1 & T2 & E1 & E & _). rewrite E1 in S. destruct S as (used & -> & NF & L & Ec & Sh).
  rewrite overwrite_full in Ec by (now rewrite L, local_length). subst co.
  apply bind_ok in E as ([[x y] z] & T3 & T4 & E2 & E & _). cbn in E. injection E as -> -> <- -> _.
  split; [reflexivity|]. exists used, T3. rewrite E2. pose proof (avx_keypair_ret _ _ _ _ _ _ _ _ _ _ E2) as ->.
  refine (conj eq_refl (conj NF (conj Sh (conj (conj L _) eq_refl)))). intros b. eapply kernel_ok_bytes; eauto.
Qed.

Lemma avx_keypair_random_failure lv fuel (JJ : Junk) used rest pk sk : kernel_ok (used ++ Failed :: rest) 64 -> ~ In Failed used ->
  (length (delivered used) < 64)%nat -> crypto_kem_keypair_avx2 lv fuel (used ++ Failed :: rest) pk sk = Abort.
Proof.
  intros HK NF L. unfold crypto_kem_keypair_avx2. change (2 * KYBER_SYMBYTES)%nat with 64%nat.
  rewrite (randombytes_fails used rest (local 64) 0 64 HK); auto; try (rewrite local_length; lia).
Qed.

Lemma avx_enc_random lv fuel (JJ : Junk) sched ct ss pk c K r rest T : kernel_ok sched 32 ->
  crypto_kem_enc_avx2 lv fuel sched ct ss pk = Ok (c, K, r, rest) T ->
  r = 0 /\ exists used T', sched = used ++ rest /\ ~ In Failed used /\ shortest used 32 /\ byte_array 32 (delivered used) /\
    crypto_kem_enc_derand_avx2 lv fuel ct ss pk (delivered used) = Ok (c, K, 0) T'.
Proof.
  intros HK E. unfold crypto_kem_enc_avx2 in E. change KYBER_SYMBYTES with 32%nat in E.
  pose proof (randombytes_spec sched (local 32) 0 32 HK) as S. rewrite local_length in S. specialize (S (le_n _)).
  apply bind_ok in E as ([co rest'] & T1 & T2 & E1 & E & _). rewrite E1 in S. destruct S as (used & -> & NF & L & Ec & Sh).
  rewrite overwrite_full in Ec by (now rewrite L, local_length). subst co.
  apply bind_ok in E as ([[x y] z] & T3 & T4 & E2 & E & _). cbn in E. injection E as -> -> <- -> _.
  split; [reflexivity|]. exists used, T3. rewrite E2. pose proof (avx_enc_ret _ _ _ _ _ _ _ _ _ _ _ E2) as ->.
  refine (conj eq_refl (conj NF (conj Sh (conj (conj L _) eq_refl)))). intros b. eapply kernel_ok_bytes; eauto.
Qed.

Lemma avx_enc_random_failure lv fuel (JJ : Junk) used rest ct ss pk : kernel_ok (used ++ Failed :: rest) 32 -> ~ In Failed used ->
  (length (delivered used) < 32)%nat -> crypto_kem_enc_avx2 lv fuel (used ++ Failed :: rest) ct ss pk = Abort.
Proof.
  intros HK NF L. unfold crypto_kem_enc_avx2. change KYBER_SYMBYTES with 32%nat.
  rewrite (randombytes_fails used rest (local 32) 0 32 HK); auto; try (rewrite local_length; lia).
Qed.

Lemma avx_pke_keypair lv fuel (JJ : Junk) pk sk d pk' sk' T :
  length pk = KYBER_INDCPA_PUBLICKEYBYTES lv -> length sk = KYBER_INDCPA_SECRETKEYBYTES lv -> byte_array 32 d ->
  indcpa_keypair_derand_avx2 lv fuel pk 0 sk 0 d 0 = Ok (pk', sk') T ->
  exists A, is_matrix (PS lv) (keygen_rho (PS lv) d) A /\ (pk', sk') = K_PKE_KeyGen (PS lv) A d.
Proof.
  intros Lp Ls Hd E. pose proof (bytes_of_bytes _ _ Hd) as Bd. destruct Hd as [Ld _].
  pose proof (sub_all d 32 Ld) as SD.
  destruct (enough_all_dec lv fuel (keygen_rho (PS lv) d)) as [HE|HE].
  - destruct (indcpa_keypair_derand_avx2_wp lv fuel _ 0 0 0 HE) as [T' W].
    destruct (W JJ pk sk d) as (v & Ev & EQ); rewrite ?SD; auto; try (rewrite ?Lp, ?Ls, ?Ld; apply le_n).
    rewrite Ev in E. injection E as E _. rewrite EQ, SD in E. cbv zeta in E.
    exists (matrix lv fuel (keygen_rho (PS lv) d) false). split; [now apply matrix_is_matrix|].
    assert (M : is_matrix (PS lv) (keygen_rho (PS lv) d) (matrix lv fuel (keygen_rho (PS lv) d) false)) by now apply matrix_is_matrix.
    rewrite !splice0_all in E.
    + rewrite <- E. symmetry. apply surjective_pairing.
    + rewrite Ls, KeyGen_dk_length. reflexivity.
    + rewrite Lp, KeyGen_ek_length by apply M. reflexivity.
  - rewrite indcpa_keypair_derand_avx2_timeout in E; try discriminate; rewrite ?SD, ?Ld; auto.
Qed.

Lemma avx_pke_enc lv fuel (JJ : Junk) c m pk r c' T :
  length c = KYBER_CIPHERTEXTBYTES lv -> byte_array 32 m -> byte_array (KYBER_INDCPA_PUBLICKEYBYTES lv) pk -> byte_array 32 r ->
  indcpa_enc_avx2 lv fuel c 0 m 0 pk 0 r 0 = Ok c' T ->
  exists A, is_matrix (PS lv) (ek_rho (PS lv) pk) A /\ c' = K_PKE_Encrypt (PS lv) A pk m r.
Proof.
  intros Lc Hm Hp Hr E. pose proof (bytes_of_bytes _ _ Hm) as Bm. destruct Hm as [Lm _].
  pose proof (bytes_of_bytes _ _ Hp) as Bp. destruct Hp as [Lp _]. pose proof (bytes_of_bytes _ _ Hr) as Br. destruct Hr as [Lr _].
  pose proof (sub_all m 32 Lm) as Sm. pose proof (sub_all r 32 Lr) as Sr. pose proof (sub_all pk _ Lp) as Sp.
  assert (G1 : (0 + 32 <= length m)%nat) by (rewrite Lm; apply le_n).
  assert (G2 : (0 + KYBER_INDCPA_PUBLICKEYBYTES lv <= length pk)%nat) by (rewrite Lp; apply le_n).
  assert (G3 : (0 + 32 <= length r)%nat) by (rewrite Lr; apply le_n).
  assert (G4 : (0 + KYBER_CIPHERTEXTBYTES lv <= length c)%nat) by (rewrite Lc; apply le_n).
  destruct (enough_all_dec lv fuel (ek_rho (PS lv) pk)) as [HE|HE].
  - destruct (indcpa_enc_avx2_wp lv fuel _ 0 0 0 0 HE) as [T' W].
    assert (G5 : ek_rho (PS lv) (sub pk 0 (KYBER_INDCPA_PUBLICKEYBYTES lv)) = ek_rho (PS lv) pk) by (now rewrite Sp).
    destruct (W JJ c m pk r G4 G1 Bm G2 Bp G3 Br G5) as (v & Ev & EQ).
    rewrite Ev in E. injection E as E _. rewrite EQ, Sm, Sr, Sp in E.
    exists (matrix lv fuel (ek_rho (PS lv) pk) false). split; [now apply matrix_is_matrix|].
    rewrite splice0_all in E by (rewrite Encrypt_length; exact Lc). now symmetry.
  - assert (G5 : ~ enough_all lv fuel (ek_rho (PS lv) (sub pk 0 (KYBER_INDCPA_PUBLICKEYBYTES lv)))) by (now rewrite Sp).
    rewrite (indcpa_enc_avx2_timeout lv fuel 0 0 0 0 JJ c m pk r G1 G2 Bp G5) in E. discriminate.
Qed.

Lemma avx_pke_dec lv : exists T, forall (JJ : Junk) m c sk,
  length m = 32%nat -> byte_array (KYBER_CIPHERTEXTBYTES lv) c -> byte_array (KYBER_INDCPA_SECRETKEYBYTES lv) sk ->
  indcpa_dec_avx2 lv m 0 c 0 sk 0 = Ok (K_PKE_Decrypt (PS lv) sk c) T.
Proof.
  destruct (indcpa_dec_avx2_wp lv 0 0 0) as [T W]. exists T. intros JJ m c sk Lm Hc Hs.
  pose proof (bytes_of_bytes _ _ Hc) as Bc. destruct Hc as [Lc _]. pose proof (bytes_of_bytes _ _ Hs) as Bs. destruct Hs as [Ls _].
  assert (G1 : (0 + 32 <= length m)%nat) by (rewrite Lm; apply le_n).
  assert (G2 : (0 + KYBER_CIPHERTEXTBYTES lv <= length c)%nat) by (rewrite Lc; apply le_n).
  assert (G3 : (0 + KYBER_INDCPA_SECRETKEYBYTES lv <= length sk)%nat) by (rewrite Ls; apply le_n).
  destruct (W JJ m c sk G1 G2 Bc G3 Bs) as (v & Ev & EQ).
  rewrite Ev, EQ, (sub_all c _ Lc), (sub_all sk _ Ls), splice0_all; [reflexivity|]. rewrite Lm, Decrypt_length. reflexivity.
Qed.

Lemma avx_pke_keypair_complete lv d A : byte_array 32 d -> is_matrix (PS lv) (keygen_rho (PS lv) d) A ->
  exists fuel0, forall fuel (JJ : Junk) pk sk, (fuel0 <= fuel)%nat ->
    length pk = KYBER_INDCPA_PUBLICKEYBYTES lv -> length sk = KYBER_INDCPA_SECRETKEYBYTES lv ->
    exists T, indcpa_keypair_derand_avx2 lv fuel pk 0 sk 0 d 0 = Ok (K_PKE_KeyGen (PS lv) A d) T.
Proof.
  intros Hd HA. destruct (is_matrix_enough lv _ A HA) as [f0 F0]. exists f0. intros fuel JJ pk sk Lf Lp Ls.
  pose proof (enough_all_mono lv f0 fuel _ Lf F0) as HE. pose proof Hd as Hd0.
  pose proof (bytes_of_bytes _ _ Hd) as Bd. destruct Hd as [Ld _]. pose proof (sub_all d 32 Ld) as SD.
  destruct (indcpa_keypair_derand_avx2_wp lv fuel _ 0 0 0 HE) as [T' W].
  destruct (W JJ pk sk d) as (v & Ev & EQ); rewrite ?SD; auto; try (rewrite ?Lp, ?Ls, ?Ld; apply le_n).
  exists T'. destruct v as [pk' sk']. destruct (avx_pke_keypair lv fuel JJ pk sk d pk' sk' T' Lp Ls Hd0 Ev) as (A' & HA' & E).
  rewrite (is_matrix_functional _ _ _ _ HA' HA) in E. rewrite <- E. exact Ev.
Qed.

Lemma avx_pke_enc_complete lv m pk r A : byte_array 32 m -> byte_array (KYBER_INDCPA_PUBLICKEYBYTES lv) pk -> byte_array 32 r ->
  is_matrix (PS lv) (ek_rho (PS lv) pk) A ->
  exists fuel0, forall fuel (JJ : Junk) c, (fuel0 <= fuel)%nat -> length c = KYBER_CIPHERTEXTBYTES lv ->
    exists T, indcpa_enc_avx2 lv fuel c 0 m 0 pk 0 r 0 = Ok (K_PKE_Encrypt (PS lv) A pk m r) T.
Proof.
  intros Hm Hp Hr HA. destruct (is_matrix_enough lv _ A HA) as [f0 F0]. exists f0. intros fuel JJ c Lf Lc.
  pose proof (enough_all_mono lv f0 fuel _ Lf F0) as HE.
  pose proof (bytes_of_bytes _ _ Hm) as Bm. pose proof (bytes_of_bytes _ _ Hp) as Bp. pose proof (bytes_of_bytes _ _ Hr) as Br.
  assert (G1 : (0 + 32 <= length m)%nat) by (rewrite (proj1 Hm); apply le_n).
  assert (G2 : (0 + KYBER_INDCPA_PUBLICKEYBYTES lv <= length pk)%nat) by (rewrite (proj1 Hp); apply le_n).
  assert (G3 : (0 + 32 <= length r)%nat) by (rewrite (proj1 Hr); apply le_n).
  assert (G4 : (0 + KYBER_CIPHERTEXTBYTES lv <= length c)%nat) by (rewrite Lc; apply le_n).
  destruct (indcpa_enc_avx2_wp lv fuel _ 0 0 0 0 HE) as [T' W].
  assert (G5 : ek_rho (PS lv) (sub pk 0 (KYBER_INDCPA_PUBLICKEYBYTES lv)) = ek_rho (PS lv) pk) by (now rewrite (sub_all pk _ (proj1 Hp))).
  destruct (W JJ c m pk r G4 G1 Bm G2 Bp G3 Br G5) as (v & Ev & _).
  exists T'. destruct (avx_pke_enc lv fuel JJ c m pk r v T' Lc Hm Hp Hr Ev) as (A' & HA' & E).
  rewrite (is_matrix_functional _ _ _ _ HA' HA) in E. rewrite <- E. exact Ev.
Qed.

Lemma avx_pke_correct lv fuel f2 (J1 J2 J3 : Junk) pk sk c mbuf d m r pk' sk' c' T1 T2 A :
  length pk = KYBER_INDCPA_PUBLICKEYBYTES lv -> length sk = KYBER_INDCPA_SECRETKEYBYTES lv -> length c = KYBER_CIPHERTEXTBYTES lv ->
  length mbuf = 32%nat -> byte_array 32 d -> byte_array 32 m -> byte_array 32 r ->
  @indcpa_keypair_derand_avx2 J1 lv fuel pk 0 sk 0 d 0 = Ok (pk', sk') T1 ->
  @indcpa_enc_avx2 J2 lv f2 c 0 m 0 pk' 0 r 0 = Ok c' T2 ->
  is_matrix (PS lv) (keygen_rho (PS lv) d) A ->
  exists m' T3, @indcpa_dec_avx2 J3 lv mbuf 0 c' 0 sk' 0 = Ok m' T3 /\
    (m' = m <-> noise_decodes m (decryption_noise (PS lv) A d m r)).
Proof.
  intros Lp Ls Lc Lmb Hd Hm Hr E1 E2 HA.
  destruct (avx_pke_keypair lv fuel J1 pk sk d pk' sk' T1 Lp Ls Hd E1) as (A' & HA' & EK).
  rewrite (is_matrix_functional _ _ _ _ HA' HA) in EK. clear A' HA'.
  assert (LA : length A = k (PS lv)) by apply HA.
  assert (Ek : pk' = fst (K_PKE_KeyGen (PS lv) A d)) by (now rewrite <- EK).
  assert (Es : sk' = snd (K_PKE_KeyGen (PS lv) A d)) by (now rewrite <- EK).
  assert (Hpk : byte_array (KYBER_INDCPA_PUBLICKEYBYTES lv) pk').
  { rewrite Ek. apply bytes_bytes_of; [now apply KeyGen_ek_length|apply KeyGen_ek_bytes]. }
  assert (Hsk : byte_array (KYBER_INDCPA_SECRETKEYBYTES lv) sk').
  { rewrite Es. apply bytes_bytes_of; [apply KeyGen_dk_length|apply KeyGen_dk_bytes]. }
  destruct (avx_pke_enc lv f2 J2 c m pk' r c' T2 Lc Hm Hpk Hr E2) as (A' & HA' & EC).
  assert (Er : ek_rho (PS lv) pk' = keygen_rho (PS lv) d).
  { rewrite Ek. now apply ek_rho_KeyGen. }
  rewrite Er in HA'. rewrite (is_matrix_functional _ _ _ _ HA' HA) in EC. clear A' HA'.
  destruct (avx_pke_dec lv) as [T3 D]. 
  assert (Hc' : byte_array (KYBER_CIPHERTEXTBYTES lv) c').
  { rewrite EC. apply bytes_bytes_of; [apply Encrypt_length|apply Encrypt_bytes]. }
  exists (K_PKE_Decrypt (PS lv) sk' c'), T3. split; [exact (D J3 mbuf c' sk' Lmb Hc' Hsk)|].
  rewrite EC, Es, Ek. apply Decrypt_Encrypt_iff; [exact LA| |now apply bytes_of_bytes in Hm|apply Hm].
  intros i Hi. now apply HA.
Qed.

Lemma avx_enc_sees_reduced_key lv fuel (JJ : Junk) c m t rho coins :
  length c = KYBER_CIPHERTEXTBYTES lv -> byte_array 32 m -> byte_array (384 * k (PS lv)) t -> byte_array 32 rho -> byte_array 32 coins ->
  indcpa_enc_avx2 lv fuel c 0 m 0 (t ++ rho) 0 coins 0
  = indcpa_enc_avx2 lv fuel c 0 m 0 (canonical_key (PS lv) t ++ rho) 0 coins 0.
Proof.
  intros Lc Hm Ht Hr Hc. pose proof (pk_of lv t rho Ht Hr) as K1. pose proof (pk_of lv _ rho (canonical_key_array lv t) Hr) as K2.
  assert (S1 : sub (t ++ rho) 0 (KYBER_INDCPA_PUBLICKEYBYTES lv) = t ++ rho).
  { change (firstn (KYBER_INDCPA_PUBLICKEYBYTES lv) (t ++ rho) = t ++ rho). apply firstn_all2. rewrite (proj1 K1).
    unfold KYBER_PUBLICKEYBYTES. lia. }
  assert (S2 : sub (canonical_key (PS lv) t ++ rho) 0 (KYBER_INDCPA_PUBLICKEYBYTES lv) = canonical_key (PS lv) t ++ rho).
  { change (firstn (KYBER_INDCPA_PUBLICKEYBYTES lv) (canonical_key (PS lv) t ++ rho) = canonical_key (PS lv) t ++ rho). apply firstn_all2.
    rewrite (proj1 K2). unfold KYBER_PUBLICKEYBYTES. lia. }
  pose proof (bytes_of_bytes _ _ K1) as B1. pose proof (bytes_of_bytes _ _ K2) as B2.
  destruct K1 as [L1 _], K2 as [L2 _]. unfold KYBER_PUBLICKEYBYTES in *.
  pose proof (bytes_of_bytes _ _ Hm) as Bm. pose proof (bytes_of_bytes _ _ Hc) as Bc. destruct Hm as [Lm _], Hc as [Lc' _].
  pose proof (canonical_key_array lv t) as HT.
  destruct (enough_all_dec lv fuel rho) as [HE|HE].
  - destruct (indcpa_enc_avx2_wp lv fuel rho 0 0 0 0 HE) as [T W].
    destruct (W JJ c m (t ++ rho) coins) as (v1 & E1 & V1); try lia; try assumption.
    { rewrite S1. now apply sk_rho. }
    destruct (W JJ c m (canonical_key (PS lv) t ++ rho) coins) as (v2 & E2 & V2); try lia; try assumption.
    { rewrite S2. now apply sk_rho. }
    rewrite E1, E2, V1, V2, S1, S2.
    assert (EQ : forall A x y, K_PKE_Encrypt (PS lv) A (t ++ rho) x y = K_PKE_Encrypt (PS lv) A (canonical_key (PS lv) t ++ rho) x y).
    { intros A x y. unfold K_PKE_Encrypt.
      rewrite (firstn_l _ t rho (proj1 Ht)), (firstn_l _ (canonical_key (PS lv) t) rho (proj1 HT)), canonical_key_decode. reflexivity. }
    rewrite EQ. reflexivity.
  - assert (G1 : (0 + 32 <= length m)%nat) by (rewrite Lm; lia).
    assert (G2 : (0 + KYBER_INDCPA_PUBLICKEYBYTES lv <= length (t ++ rho))%nat) by (rewrite L1; apply le_n).
    assert (G3 : (0 + KYBER_INDCPA_PUBLICKEYBYTES lv <= length (canonical_key (PS lv) t ++ rho))%nat) by (rewrite L2; apply le_n).
    assert (X1 : indcpa_enc_avx2 lv fuel c 0 m 0 (t ++ rho) 0 coins 0 = Timeout).
    { refine (indcpa_enc_avx2_timeout lv fuel 0 0 0 0 JJ c m (t ++ rho) coins G1 G2 B1 _).
      rewrite S1, (sk_rho lv t rho Ht). exact HE. }
    assert (X2 : indcpa_enc_avx2 lv fuel c 0 m 0 (canonical_key (PS lv) t ++ rho) 0 coins 0 = Timeout).
    { refine (indcpa_enc_avx2_timeout lv fuel 0 0 0 0 JJ c m (canonical_key (PS lv) t ++ rho) coins G1 G3 B2 _).
      rewrite S2, (sk_rho lv (canonical_key (PS lv) t) rho HT). exact HE. }
    rewrite X1. symmetry. exact X2.
Qed.

Lemma avx_noncanonical_accepted lv rho A m : byte_array 32 rho -> is_matrix (PS lv) rho A -> byte_array 32 m ->
  exists fuel0, forall fuel (JJ : Junk) ct ss, (fuel0 <= fuel)%nat -> length ct = KYBER_CIPHERTEXTBYTES lv -> length ss = 32%nat ->
    exists c K T, crypto_kem_enc_derand_avx2 lv fuel ct ss (repeat 255 (384 * k (PS lv)) ++ rho) m = Ok (c, K, 0) T.
Proof.
  intros Hr HA Hm.
  assert (Ht : byte_array (384 * k (PS lv)) (repeat 255 (384 * k (PS lv)))).
  { split; [apply repeat_length|]. intros x Hx. apply repeat_spec in Hx. lia. }
  pose proof (pk_of lv _ _ Ht Hr) as Hk.
  destruct (avx_enc_complete lv _ m (firstn 32 (SHA3_512 (m ++ SHA3_256 (repeat 255 (384 * k (PS lv)) ++ rho))))
     (K_PKE_Encrypt (PS lv) A (repeat 255 (384 * k (PS lv)) ++ rho) m (skipn 32 (SHA3_512 (m ++ SHA3_256 (repeat 255 (384 * k (PS lv)) ++ rho))))) Hk Hm)
     as [f0 F].
  - exists A. rewrite sk_rho by exact Ht. split; [exact HA|]. split; reflexivity.
  - exists f0. intros fuel JJ ct ss Hf Lc Ls. destruct (F fuel JJ ct ss Hf Lc Ls) as [T E]. eauto.
Qed.
