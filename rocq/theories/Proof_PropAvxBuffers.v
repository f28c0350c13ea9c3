(** * C69 as stated, and its case *)
From Coq Require Import ZArith List Lia Bool.
From Verif Require Import CMonad WP Levels Model_Params Model_AvxKem Spec_FIPS202 Spec_FIPS203 Vocab Vocab_Rng Vocab_Buffers
  Proof_Vocab Proof_Api Proof_AvxApi Proof_Sim Proof_Buffers Proof_AvxBuffers Proof_PropUtil Proof_PropKem Run_Kem Proof_Demo Proof_Cases Proof_AvxCases.
Import ListNotations.
Open Scope Z_scope.
Local Opaque SHA3_256 SHA3_512 SHAKE256 SHAKE128.
Local Opaque crypto_kem_keypair_derand_avx2 crypto_kem_enc_derand_avx2 crypto_kem_dec_avx2.

Lemma avx_keypair_longer' lv fuel (JJ : Junk) pk sk coins t1 t2 t3 :
  length pk = KYBER_PUBLICKEYBYTES lv -> length sk = KYBER_SECRETKEYBYTES lv -> byte_array 64 coins ->
  crypto_kem_keypair_derand_avx2 lv fuel (pk ++ t1) (sk ++ t2) (coins ++ t3) =
  with_value (fun '(ek, dk, r) => (ek ++ t1, dk ++ t2, r)) (crypto_kem_keypair_derand_avx2 lv fuel pk sk coins).
Proof. exact (keypair_avx_longer lv fuel pk sk coins t1 t2 t3). Qed.
Lemma avx_enc_longer' lv fuel (JJ : Junk) ct ss pk coins t1 t2 t3 t4 :
  length ct = KYBER_CIPHERTEXTBYTES lv -> length ss = 32%nat -> byte_array (KYBER_PUBLICKEYBYTES lv) pk -> byte_array 32 coins ->
  crypto_kem_enc_derand_avx2 lv fuel (ct ++ t1) (ss ++ t2) (pk ++ t3) (coins ++ t4) =
  with_value (fun '(c, K, r) => (c ++ t1, K ++ t2, r)) (crypto_kem_enc_derand_avx2 lv fuel ct ss pk coins).
Proof. exact (enc_avx_longer lv fuel ct ss pk coins t1 t2 t3 t4). Qed.
Lemma avx_dec_longer' lv fuel (JJ : Junk) ss ct sk t1 t2 t3 :
  length ss = 32%nat -> byte_array (KYBER_CIPHERTEXTBYTES lv) ct -> byte_array (KYBER_SECRETKEYBYTES lv) sk ->
  crypto_kem_dec_avx2 lv fuel (ss ++ t1) (ct ++ t2) (sk ++ t3) =
  with_value (fun '(K, r) => (K ++ t1, r)) (crypto_kem_dec_avx2 lv fuel ss ct sk).
Proof. exact (dec_avx_longer lv fuel ss ct sk t1 t2 t3). Qed.
Lemma avx_case_sizes : exists ek dk c K T1 T2 T3,
  @crypto_kem_keypair_derand_avx2 no_junk Kyber512 2 (repeat 0 800) (repeat 0 1632) (demo_d ++ demo_z) = Ok (ek, dk, 0) T1 /\
  @crypto_kem_keypair_derand_avx2 no_junk Kyber512 2 (repeat 0 800 ++ [7]) (repeat 0 1632) ((demo_d ++ demo_z) ++ [9]) = Ok (ek ++ [7], dk, 0) T1 /\
  @crypto_kem_keypair_derand_avx2 no_junk Kyber512 2 (repeat 0 799) (repeat 0 1632) (demo_d ++ demo_z) = UB OutOfBounds /\
  @crypto_kem_enc_derand_avx2 no_junk Kyber512 2 (repeat 0 768) (repeat 0 32 ++ [7]) (ek ++ [9]) demo_m = Ok (c, K ++ [7], 0) T2 /\
  @crypto_kem_enc_derand_avx2 no_junk Kyber512 2 (repeat 0 768) (repeat 0 31) ek demo_m = UB OutOfBounds /\
  @crypto_kem_dec_avx2 no_junk Kyber512 2 (repeat 0 32) (c ++ [5]) dk = Ok (K, 0) T3 /\
  @crypto_kem_dec_avx2 no_junk Kyber512 2 (repeat 0 32) (firstn 767 c) dk = UB OutOfBounds.
Proof.
  destruct avx_case_exchange as (A & ek & dk & c & K & T1 & T2 & T3 & _ & E1 & E2 & E3 & _).
  assert (Hco : byte_array 64 (demo_d ++ demo_z)).
  { split; [rewrite app_length, (proj1 demo_d_bytes), (proj1 demo_z_bytes); reflexivity|].
    apply all_bytes_app; [apply demo_d_bytes|apply demo_z_bytes]. }
  destruct (avx_keypair_sound' Kyber512 2 no_junk _ _ _ _ _ _ _ _ len_pk len_sk demo_d_bytes demo_z_bytes E1) as [_ HKG].
  destruct (KeyGen_internal_sizes Kyber512 _ _ _ _ demo_z_bytes HKG) as [Hek Hdk].
  destruct (avx_enc_sound Kyber512 2 no_junk _ _ _ _ _ _ _ _ len_ct len32 Hek demo_m_bytes E2) as [_ HEC].
  destruct (Encaps_internal_sizes Kyber512 _ _ _ _ HEC) as [HK Hc].
  exists ek, dk, c, K, T1, T2, T3. split; [exact E1|]. split.
  { pose proof (@keypair_avx_longer no_junk Kyber512 2 _ _ _ [7] [] [9] len_pk len_sk Hco) as X. rewrite E1 in X. cbn [with_value] in X.
    rewrite !(app_nil_r (repeat 0 1632)), (app_nil_r dk) in X. exact X. }
  split.
  { apply (proj2 (keypair_avx_short Kyber512 2 no_junk (repeat 0 799) (repeat 0 1632) (demo_d ++ demo_z) (proj2 Hco)
      ltac:(left; apply Nat.ltb_lt; vm_compute; reflexivity)) [0] [] [] (ek, dk, 0) T1).
    rewrite !app_nil_r. exact E1. }
  split.
  { pose proof (@enc_avx_longer no_junk Kyber512 2 _ _ _ _ [] [7] [9] [] len_ct len32 Hek demo_m_bytes) as X.
    rewrite E2 in X. cbn [with_value] in X. rewrite !(app_nil_r (repeat 0 768)), (app_nil_r demo_m), (app_nil_r c) in X. exact X. }
  split.
  { apply (proj2 (enc_avx_short Kyber512 2 no_junk (repeat 0 768) (repeat 0 31) ek demo_m (proj2 Hek) (proj2 demo_m_bytes)
      ltac:(right; left; apply Nat.ltb_lt; vm_compute; reflexivity)) [] [0] [] [] (c, K, 0) T2).
    rewrite !app_nil_r. exact E2. }
  split.
  { pose proof (@dec_avx_longer no_junk Kyber512 2 _ _ _ [] [5] [] len32 Hc Hdk) as X.
    rewrite E3 in X. cbn [with_value] in X. rewrite !(app_nil_r (repeat 0 32)), (app_nil_r dk), (app_nil_r K) in X. exact X. }
  assert (Lc : length c = 768%nat) by (destruct Hc as [-> _]; vm_compute; reflexivity).
  assert (Bf : all_bytes (firstn 767 c)).
  { intros x Hx. apply (proj2 Hc). rewrite <- (firstn_skipn 767 c). apply in_or_app. now left. }
  assert (Lf : (length (firstn 767 c) < KYBER_CIPHERTEXTBYTES Kyber512)%nat).
  { rewrite firstn_length, Lc. apply Nat.ltb_lt; vm_compute; reflexivity. }
  apply (proj2 (dec_avx_short Kyber512 2 no_junk (repeat 0 32) (firstn 767 c) dk Bf (proj2 Hdk) (or_intror (or_introl Lf))) [] (skipn 767 c) [] (K, 0) T3).
  rewrite !app_nil_r, firstn_skipn. exact E3.
Qed.
