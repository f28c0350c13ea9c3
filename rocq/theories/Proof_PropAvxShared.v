(** * C70 as stated, and its case *)
From Coq Require Import ZArith List Lia Bool.
From Verif Require Import CMonad WP Levels Model_Params Model_Kem Model_Shared Model_SharedKey Model_AvxKem Model_AvxShared Spec_FIPS202 Spec_FIPS203
  Vocab Vocab_Rng Vocab_Buffers Vocab_Overlap
  Proof_Base Proof_Vocab Proof_Hash Proof_GenMatrix Proof_Indcpa Proof_Keypair Proof_Encrypt Proof_Fuel Proof_Kem Proof_Api Proof_Shared Proof_SharedKey
  Proof_AvxKem Proof_AvxShared
  Proof_Buffers Proof_PropUtil Proof_PropKem Run_Kem Proof_Demo Proof_Cases Proof_PropBuffers Proof_PropSharedKey.
Import ListNotations.
Open Scope Z_scope.
Local Opaque SHA3_256 SHA3_512 SHAKE256 SHAKE128.
Local Opaque crypto_kem_keypair_derand crypto_kem_keypair_derand_shared crypto_kem_enc_derand crypto_kem_enc_derand_shared crypto_kem_dec crypto_kem_dec_shared
  crypto_kem_keypair_derand_avx2_shared crypto_kem_enc_derand_avx2_shared crypto_kem_dec_avx2_shared crypto_kem_enc_derand_avx2 crypto_kem_dec_avx2.

Lemma avx_keypair_shared' : forall lv fuel (JJ : Junk) mem po sko co, all_bytes mem ->
  (po + KYBER_PUBLICKEYBYTES lv <= length mem)%nat -> (sko + KYBER_SECRETKEYBYTES lv <= length mem)%nat -> (co + 64 <= length mem)%nat ->
  same_result (crypto_kem_keypair_derand_avx2_shared lv fuel mem po sko co) (crypto_kem_keypair_derand_shared lv fuel mem po sko co).
Proof. intros. now apply keypair_avx_shared. Qed.
Lemma avx_enc_shared' : forall lv fuel (JJ : Junk) mem cto sso po co, all_bytes mem ->
  (cto + KYBER_CIPHERTEXTBYTES lv <= length mem)%nat -> (sso + 32 <= length mem)%nat ->
  (po + KYBER_PUBLICKEYBYTES lv <= length mem)%nat -> (co + 32 <= length mem)%nat ->
  same_result (crypto_kem_enc_derand_avx2_shared lv fuel mem cto sso po co) (crypto_kem_enc_derand_shared lv fuel mem cto sso po co).
Proof. intros. now apply enc_avx_shared. Qed.
Lemma avx_dec_shared' : forall lv fuel (JJ : Junk) mem sso cto sko, all_bytes mem ->
  (sso + 32 <= length mem)%nat -> (cto + KYBER_CIPHERTEXTBYTES lv <= length mem)%nat -> (sko + KYBER_SECRETKEYBYTES lv <= length mem)%nat ->
  same_result (crypto_kem_dec_avx2_shared lv fuel mem sso cto sko) (crypto_kem_dec_shared lv fuel mem sso cto sko).
Proof. intros. now apply dec_avx_shared. Qed.

Lemma same_trans {A} (m1 m2 m3 : res A) : same_result m1 m2 -> same_result m2 m3 -> same_result m1 m3.
Proof. destruct m1, m2, m3; cbn; intros; try contradiction; congruence || exact I. Qed.
Lemma same_with {A B} (g : A -> B) m m' : same_result m m' -> same_result (with_value g m) (with_value g m').
Proof. destruct m, m'; cbn; intros; try contradiction; congruence || exact I. Qed.

Lemma avx_enc_overlap : forall lv fuel (JJ : Junk) mem cto sso po co, all_bytes mem ->
  (cto + KYBER_CIPHERTEXTBYTES lv <= length mem)%nat -> (sso + 32 <= length mem)%nat ->
  (po + KYBER_PUBLICKEYBYTES lv <= length mem)%nat -> (co + 32 <= length mem)%nat ->
  same_result (crypto_kem_enc_derand_avx2_shared lv fuel mem cto sso po co)
    (with_value (fun '(c, K, r) => (overwrite (overwrite mem cto c) sso K, r))
       (crypto_kem_enc_derand_avx2 lv fuel (region mem cto (KYBER_CIPHERTEXTBYTES lv)) (region mem sso 32)
          (region mem po (KYBER_PUBLICKEYBYTES lv)) (region mem co 32))).
Proof.
  intros lv fuel JJ mem cto sso po co Am H1 H2 H3 H4.
  eapply same_trans; [now apply avx_enc_shared'|]. eapply same_trans; [now apply enc_shared|]. apply same_with.
  pose proof (all_bytes_bytes _ Am) as Bm. change (region mem) with (sub mem).
  pose proof (sub_length mem cto _ H1) as L1. pose proof (sub_length mem sso _ H2) as L2.
  pose proof (sub_length mem po _ H3) as L3. pose proof (sub_length mem co _ H4) as L4.
  assert (B3 : bytes (sub mem po (KYBER_PUBLICKEYBYTES lv))) by now apply bnd_sub.
  assert (B4 : bytes (sub mem co 32)) by now apply bnd_sub.
  destruct (enough_all_dec lv fuel (ek_rho (PS lv) (sub mem po (KYBER_PUBLICKEYBYTES lv)))) as [HE|HE].
  - destruct (enc_derand_wp lv fuel _ HE) as [T W]. destruct (avx2_enc_derand_wp lv fuel _ HE) as [T' W'].
    eapply same_wp; [now apply W|now apply W'].
  - rewrite enc_derand_timeout, avx2_enc_derand_timeout by assumption. exact I.
Qed.
Lemma avx_dec_overlap : forall lv fuel (JJ : Junk) mem sso cto sko, all_bytes mem ->
  (sso + 32 <= length mem)%nat -> (cto + KYBER_CIPHERTEXTBYTES lv <= length mem)%nat -> (sko + KYBER_SECRETKEYBYTES lv <= length mem)%nat ->
  same_result (crypto_kem_dec_avx2_shared lv fuel mem sso cto sko)
    (with_value (fun '(K, r) => (overwrite mem sso K, r))
       (crypto_kem_dec_avx2 lv fuel (region mem sso 32) (region mem cto (KYBER_CIPHERTEXTBYTES lv)) (region mem sko (KYBER_SECRETKEYBYTES lv)))).
Proof.
  intros lv fuel JJ mem sso cto sko Am H1 H2 H3.
  eapply same_trans; [now apply avx_dec_shared'|]. eapply same_trans; [now apply dec_shared|]. apply same_with.
  pose proof (all_bytes_bytes _ Am) as Bm. change (region mem) with (sub mem).
  pose proof (sub_length mem cto _ H2) as L1. pose proof (sub_length mem sso _ H1) as L2. pose proof (sub_length mem sko _ H3) as L3.
  assert (B3 : bytes (sub mem sko (KYBER_SECRETKEYBYTES lv))) by now apply bnd_sub.
  assert (B4 : bytes (sub mem cto (KYBER_CIPHERTEXTBYTES lv))) by now apply bnd_sub.
  destruct (enough_all_dec lv fuel (ek_rho (PS lv) (dk_ek (PS lv) (sub mem sko (KYBER_SECRETKEYBYTES lv))))) as [HE|HE].
  - destruct (dec_wp lv fuel _ HE) as [T W]. destruct (avx2_dec_wp lv fuel _ HE) as [T' W'].
    eapply same_wp; [now apply W|now apply W'].
  - rewrite dec_timeout, avx2_dec_timeout by assumption. exact I.
Qed.

Lemma same_ok {A} (m m' : res A) v T : same_result m m' -> m' = Ok v T -> exists T', m = Ok v T'.
Proof. intros S ->. destruct m; cbn in S; try contradiction. subst. eauto. Qed.
Lemma same_ub {A} (m m' : res A) u : same_result m m' -> m' = UB u -> m = UB u.
Proof. intros S ->. destruct m; cbn in S; try contradiction. now subst. Qed.

Lemma avx_enc_ref : forall lv fuel (JJ : Junk) mem cto sso po co, all_bytes mem ->
  (cto + KYBER_CIPHERTEXTBYTES lv <= length mem)%nat -> (sso + 32 <= length mem)%nat ->
  (po + KYBER_PUBLICKEYBYTES lv <= length mem)%nat -> (co + 32 <= length mem)%nat ->
  same_result (crypto_kem_enc_derand_avx2_shared lv fuel mem cto sso po co)
    (with_value (fun '(c, K, r) => (overwrite (overwrite mem cto c) sso K, r))
       (crypto_kem_enc_derand lv fuel (region mem cto (KYBER_CIPHERTEXTBYTES lv)) (region mem sso 32)
          (region mem po (KYBER_PUBLICKEYBYTES lv)) (region mem co 32))).
Proof. intros. eapply same_trans; [now apply avx_enc_shared'|]. now apply enc_shared. Qed.
Lemma avx_dec_ref : forall lv fuel (JJ : Junk) mem sso cto sko, all_bytes mem ->
  (sso + 32 <= length mem)%nat -> (cto + KYBER_CIPHERTEXTBYTES lv <= length mem)%nat -> (sko + KYBER_SECRETKEYBYTES lv <= length mem)%nat ->
  same_result (crypto_kem_dec_avx2_shared lv fuel mem sso cto sko)
    (with_value (fun '(K, r) => (overwrite mem sso K, r))
       (crypto_kem_dec lv fuel (region mem sso 32) (region mem cto (KYBER_CIPHERTEXTBYTES lv)) (region mem sko (KYBER_SECRETKEYBYTES lv)))).
Proof. intros. eapply same_trans; [now apply avx_dec_shared'|]. now apply dec_shared. Qed.

Lemma avx_case_shared : exists ek dk c K T1 T2 T3 T4,
  @crypto_kem_keypair_derand no_junk Kyber512 2 (repeat 0 800) (repeat 0 1632) (demo_d ++ demo_z) = Ok (ek, dk, 0) T1 /\
  @crypto_kem_keypair_derand_avx2_shared no_junk Kyber512 2 (repeat 0 2432 ++ demo_d ++ demo_z) 0 800 2432 = Ok (ek ++ dk ++ demo_d ++ demo_z, 0) T2 /\
  @crypto_kem_keypair_derand_avx2_shared no_junk Kyber512 2 (repeat 0 2432 ++ demo_d ++ demo_z) 800 0 2432 = UB Overlap /\
  @crypto_kem_enc_derand_avx2_shared no_junk Kyber512 2 (ek ++ demo_m) 0 800 0 800 = Ok (c ++ skipn 768 ek ++ K, 0) T3 /\
  @crypto_kem_dec_avx2_shared no_junk Kyber512 2 (c ++ dk) 736 0 768 = Ok (firstn 736 c ++ K ++ dk, 0) T4.
Proof.
  destruct demo as (A & ek & dk & c & K & T1 & T2 & T3 & T4 & HA & E1 & E2 & E3 & _).
  destruct (secret_key_layout Kyber512 2 no_junk _ _ _ _ _ _ _ _ len_pk len_sk demo_d_bytes demo_z_bytes E1) as (Hek & Hdk & _).
  destruct (enc_sizes Kyber512 2 no_junk _ _ _ _ _ _ _ _ len_ct len32 Hek demo_m_bytes E2) as [Hc HK].
  assert (Lc : length c = 768%nat) by (destruct Hc as [-> _]; vm_compute; reflexivity).
  assert (Le : length ek = 800%nat) by (destruct Hek as [-> _]; vm_compute; reflexivity).
  assert (Ld : length dk = 1632%nat) by (destruct Hdk as [-> _]; vm_compute; reflexivity).
  pose proof (proj1 HK) as LK. pose proof (proj1 demo_m_bytes) as Lm.
  assert (C1 : KYBER_CIPHERTEXTBYTES Kyber512 = 768%nat) by (vm_compute; reflexivity).
  assert (C2 : KYBER_PUBLICKEYBYTES Kyber512 = 800%nat) by (vm_compute; reflexivity).
  assert (C3 : KYBER_SECRETKEYBYTES Kyber512 = 1632%nat) by (vm_compute; reflexivity).
  pose proof (avx_enc_ref Kyber512 2 no_junk (ek ++ demo_m) 0 800 0 800) as X.
  rewrite app_length, Le, Lm, C1, C2 in X.
  specialize (X ltac:(apply all_bytes_app; [exact (proj2 Hek)|exact (proj2 demo_m_bytes)]) ltac:(lia) ltac:(lia) ltac:(lia) ltac:(lia)).
  assert (R1 : region (ek ++ demo_m) 0 800 = ek).
  { unfold region. rewrite skipn_O, firstn_app, Le, Nat.sub_diag, firstn_O, app_nil_r. rewrite <- Le. apply firstn_all. }
  assert (R2 : region (ek ++ demo_m) 800 32 = demo_m).
  { pose proof (region_mid ek demo_m [] 32 Lm) as Y. rewrite app_nil_r, Le in Y. exact Y. }
  rewrite R1, R2 in X.
  pose proof (enc_again Kyber512 2 no_junk _ _ (region (ek ++ demo_m) 0 768) demo_m _ _ _ _ len_ct len32
    ltac:(rewrite C1; unfold region; rewrite firstn_length, skipn_O, app_length; lia) Lm Hek demo_m_bytes E2) as Z1.
  rewrite Z1 in X. cbn [with_value] in X.
  match type of X with same_result ?run _ => destruct run as [v1 T5| | |] eqn:Q1; cbn [same_result] in X; try contradiction; subst v1 end.
  pose proof (avx_dec_ref Kyber512 2 no_junk (c ++ dk) 736 0 768) as X.
  rewrite app_length, Lc, Ld, C1, C3 in X.
  specialize (X ltac:(apply all_bytes_app; [exact (proj2 Hc)|exact (proj2 Hdk)]) ltac:(lia) ltac:(lia) ltac:(lia)).
  assert (R3 : region (c ++ dk) 0 768 = c).
  { unfold region. rewrite skipn_O, firstn_app, Lc, Nat.sub_diag, firstn_O, app_nil_r. rewrite <- Lc. apply firstn_all. }
  assert (R4 : region (c ++ dk) 768 1632 = dk).
  { pose proof (region_mid c dk [] 1632 Ld) as Y. rewrite app_nil_r, Lc in Y. exact Y. }
  rewrite R3, R4 in X.
  pose proof (dec_again Kyber512 2 no_junk _ (region (c ++ dk) 736 32) _ _ _ _ len32
    ltac:(unfold region; rewrite firstn_length, skipn_length, app_length; lia) Hc Hdk E3) as Z2.
  rewrite Z2 in X. cbn [with_value] in X.
  match type of X with same_result ?run _ => destruct run as [v1 T6| | |] eqn:Q2; cbn [same_result] in X; try contradiction; subst v1 end.
  destruct case_keypair as (ek' & dk' & T7 & T8 & F1 & F2 & F3 & _).
  rewrite E1 in F1. injection F1 as <- <- <-.
  assert (LM : length (repeat 0 2432 ++ demo_d ++ demo_z) = 2496%nat) by (rewrite app_length, (proj1 demo_co_bytes), repeat_length; reflexivity).
  assert (AM : all_bytes (repeat 0 2432 ++ demo_d ++ demo_z)) by (apply all_bytes_app; [apply zs_bytes|apply demo_co_bytes]).
  destruct (same_ok _ _ _ _ (avx_keypair_shared' Kyber512 2 no_junk (repeat 0 2432 ++ demo_d ++ demo_z) 0 800 2432 AM
    ltac:(rewrite LM, C2; lia) ltac:(rewrite LM, C3; lia) ltac:(rewrite LM; lia)) F2) as [T9 G2].
  pose proof (same_ub _ _ _ (avx_keypair_shared' Kyber512 2 no_junk (repeat 0 2432 ++ demo_d ++ demo_z) 800 0 2432 AM
    ltac:(rewrite LM, C2; lia) ltac:(rewrite LM, C3; lia) ltac:(rewrite LM; lia)) F3) as G3.
  exists ek, dk, c, K, T1, T9, T5, T6. split; [exact E1|]. split; [exact G2|]. split; [exact G3|]. rewrite Q1, Q2. split; f_equal; f_equal.
  - rewrite (overwrite_at0 (ek ++ demo_m) c 768 Lc), skipn_app. replace (768 - length ek)%nat with 0%nat by lia. rewrite skipn_O, app_assoc.
    rewrite (overwrite_tail (c ++ skipn 768 ek) demo_m K 800) by (rewrite ?app_length, ?skipn_length; lia). now rewrite <- app_assoc.
  - rewrite <- (firstn_skipn 736 c) at 1. rewrite <- app_assoc.
    apply (overwrite_mid (firstn 736 c) (skipn 736 c) dk K 736); rewrite ?firstn_length, ?skipn_length; lia.
Qed.
