(** * C60 and C61 as stated, and their cases *)
From Coq Require Import ZArith List Lia Bool.
From Verif Require Import CMonad WP Levels Model_Params Model_Kem Model_Shared Spec_FIPS202 Spec_FIPS203 Vocab Vocab_Rng Vocab_Buffers
  Proof_Base Proof_Vocab Proof_GenMatrix Proof_Indcpa Proof_Keypair Proof_Encrypt Proof_Fuel Proof_Kem Proof_Api Proof_Sim Proof_Buffers Proof_Shared Proof_PropUtil Proof_PropKem Run_Kem Proof_Demo Proof_Cases.
Import ListNotations.
Open Scope Z_scope.
Local Opaque SHA3_256 SHA3_512 SHAKE256 SHAKE128.
Local Opaque crypto_kem_keypair_derand crypto_kem_enc_derand crypto_kem_dec crypto_kem_enc_derand_shared crypto_kem_dec_shared.

Lemma keypair_short lv fuel (JJ : Junk) pk sk coins : all_bytes coins ->
  (length pk < KYBER_PUBLICKEYBYTES lv \/ length sk < KYBER_SECRETKEYBYTES lv \/ length coins < 64)%nat ->
  (forall v T, crypto_kem_keypair_derand lv fuel pk sk coins <> Ok v T) /\
  (forall t1 t2 t3 v T, crypto_kem_keypair_derand lv fuel (pk ++ t1) (sk ++ t2) (coins ++ t3) = Ok v T ->
     crypto_kem_keypair_derand lv fuel pk sk coins = UB OutOfBounds).
Proof.
  intros Bc HL. assert (N : forall v T, crypto_kem_keypair_derand lv fuel pk sk coins <> Ok v T).
  { intros v T. exact (keypair_never lv fuel pk sk coins v T Bc HL). }
  split; [exact N|]. intros t1 t2 t3 v T E. exact (sim_short _ _ _ (keypair_sim t1 t2 t3 lv fuel pk sk coins) N v T E).
Qed.
Lemma enc_short lv fuel (JJ : Junk) ct ss pk coins : all_bytes pk -> all_bytes coins ->
  (length ct < KYBER_CIPHERTEXTBYTES lv \/ length ss < 32 \/ length pk < KYBER_PUBLICKEYBYTES lv \/ length coins < 32)%nat ->
  (forall v T, crypto_kem_enc_derand lv fuel ct ss pk coins <> Ok v T) /\
  (forall t1 t2 t3 t4 v T, crypto_kem_enc_derand lv fuel (ct ++ t1) (ss ++ t2) (pk ++ t3) (coins ++ t4) = Ok v T ->
     crypto_kem_enc_derand lv fuel ct ss pk coins = UB OutOfBounds).
Proof.
  intros Bp Bc HL. assert (N : forall v T, crypto_kem_enc_derand lv fuel ct ss pk coins <> Ok v T).
  { intros v T. exact (enc_never lv fuel ct ss pk coins v T Bp Bc HL). }
  split; [exact N|]. intros t1 t2 t3 t4 v T E. exact (sim_short _ _ _ (enc_sim t1 t2 t3 t4 lv fuel ct ss pk coins) N v T E).
Qed.
Lemma dec_short lv fuel (JJ : Junk) ss ct sk : all_bytes ct -> all_bytes sk ->
  (length ss < 32 \/ length ct < KYBER_CIPHERTEXTBYTES lv \/ length sk < KYBER_SECRETKEYBYTES lv)%nat ->
  (forall v T, crypto_kem_dec lv fuel ss ct sk <> Ok v T) /\
  (forall t1 t2 t3 v T, crypto_kem_dec lv fuel (ss ++ t1) (ct ++ t2) (sk ++ t3) = Ok v T ->
     crypto_kem_dec lv fuel ss ct sk = UB OutOfBounds).
Proof.
  intros Bp Bc HL. assert (N : forall v T, crypto_kem_dec lv fuel ss ct sk <> Ok v T).
  { intros v T. exact (dec_never lv fuel ss ct sk v T Bp Bc HL). }
  split; [exact N|]. intros t1 t2 t3 v T E. exact (sim_short _ _ _ (dec_sim t1 t2 t3 lv fuel ss ct sk) N v T E).
Qed.

Lemma keypair_longer' lv fuel (JJ : Junk) pk sk coins t1 t2 t3 :
  length pk = KYBER_PUBLICKEYBYTES lv -> length sk = KYBER_SECRETKEYBYTES lv -> byte_array 64 coins ->
  crypto_kem_keypair_derand lv fuel (pk ++ t1) (sk ++ t2) (coins ++ t3) =
  with_value (fun '(ek, dk, r) => (ek ++ t1, dk ++ t2, r)) (crypto_kem_keypair_derand lv fuel pk sk coins).
Proof. exact (keypair_longer lv fuel pk sk coins t1 t2 t3). Qed.
Lemma enc_longer' lv fuel (JJ : Junk) ct ss pk coins t1 t2 t3 t4 :
  length ct = KYBER_CIPHERTEXTBYTES lv -> length ss = 32%nat -> byte_array (KYBER_PUBLICKEYBYTES lv) pk -> byte_array 32 coins ->
  crypto_kem_enc_derand lv fuel (ct ++ t1) (ss ++ t2) (pk ++ t3) (coins ++ t4) =
  with_value (fun '(c, K, r) => (c ++ t1, K ++ t2, r)) (crypto_kem_enc_derand lv fuel ct ss pk coins).
Proof. exact (enc_longer lv fuel ct ss pk coins t1 t2 t3 t4). Qed.
Lemma dec_longer' lv fuel (JJ : Junk) ss ct sk t1 t2 t3 :
  length ss = 32%nat -> byte_array (KYBER_CIPHERTEXTBYTES lv) ct -> byte_array (KYBER_SECRETKEYBYTES lv) sk ->
  crypto_kem_dec lv fuel (ss ++ t1) (ct ++ t2) (sk ++ t3) =
  with_value (fun '(K, r) => (K ++ t1, r)) (crypto_kem_dec lv fuel ss ct sk).
Proof. exact (dec_longer lv fuel ss ct sk t1 t2 t3). Qed.

Lemma enc_overlap lv fuel (JJ : Junk) mem cto sso po co : all_bytes mem ->
  (cto + KYBER_CIPHERTEXTBYTES lv <= length mem)%nat -> (sso + 32 <= length mem)%nat ->
  (po + KYBER_PUBLICKEYBYTES lv <= length mem)%nat -> (co + 32 <= length mem)%nat ->
  same_result (crypto_kem_enc_derand_shared lv fuel mem cto sso po co)
    (with_value (fun '(c, K, r) => (overwrite (overwrite mem cto c) sso K, r))
       (crypto_kem_enc_derand lv fuel (region mem cto (KYBER_CIPHERTEXTBYTES lv)) (region mem sso 32)
          (region mem po (KYBER_PUBLICKEYBYTES lv)) (region mem co 32))).
Proof. exact (enc_shared lv fuel mem cto sso po co). Qed.
Lemma dec_overlap lv fuel (JJ : Junk) mem sso cto sko : all_bytes mem ->
  (sso + 32 <= length mem)%nat -> (cto + KYBER_CIPHERTEXTBYTES lv <= length mem)%nat -> (sko + KYBER_SECRETKEYBYTES lv <= length mem)%nat ->
  same_result (crypto_kem_dec_shared lv fuel mem sso cto sko)
    (with_value (fun '(K, r) => (overwrite mem sso K, r))
       (crypto_kem_dec lv fuel (region mem sso 32) (region mem cto (KYBER_CIPHERTEXTBYTES lv)) (region mem sko (KYBER_SECRETKEYBYTES lv)))).
Proof. exact (dec_shared lv fuel mem sso cto sko). Qed.

(** ** Cases *)
Lemma region_mid (a b c : list Z) m : length b = m -> region (a ++ b ++ c) (length a) m = b.
Proof.
  intros <-. unfold region. rewrite skipn_app, skipn_all, Nat.sub_diag, skipn_O. cbn [app].
  rewrite firstn_app, firstn_all, Nat.sub_diag, firstn_O. apply app_nil_r.
Qed.

Lemma case_sizes : exists ek dk c K T1 T2 T3,
  @crypto_kem_keypair_derand no_junk Kyber512 2 (repeat 0 800) (repeat 0 1632) (demo_d ++ demo_z) = Ok (ek, dk, 0) T1 /\
  @crypto_kem_keypair_derand no_junk Kyber512 2 (repeat 0 800 ++ [7]) (repeat 0 1632) ((demo_d ++ demo_z) ++ [9]) = Ok (ek ++ [7], dk, 0) T1 /\
  @crypto_kem_keypair_derand no_junk Kyber512 2 (repeat 0 799) (repeat 0 1632) (demo_d ++ demo_z) = UB OutOfBounds /\
  @crypto_kem_enc_derand no_junk Kyber512 2 (repeat 0 768) (repeat 0 32 ++ [7]) (ek ++ [9]) demo_m = Ok (c, K ++ [7], 0) T2 /\
  @crypto_kem_enc_derand no_junk Kyber512 2 (repeat 0 768) (repeat 0 31) ek demo_m = UB OutOfBounds /\
  @crypto_kem_dec no_junk Kyber512 2 (repeat 0 32) (c ++ [5]) dk = Ok (K, 0) T3 /\
  @crypto_kem_dec no_junk Kyber512 2 (repeat 0 32) (firstn 767 c) dk = UB OutOfBounds.
Proof.
  destruct demo as (A & ek & dk & c & K & T1 & T2 & T3 & T4 & HA & E1 & E2 & E3 & _).
  destruct (secret_key_layout Kyber512 2 no_junk _ _ _ _ _ _ _ _ len_pk len_sk demo_d_bytes demo_z_bytes E1) as (Hek & Hdk & _).
  destruct (enc_sizes Kyber512 2 no_junk _ _ _ _ _ _ _ _ len_ct len32 Hek demo_m_bytes E2) as [Hc HK].
  assert (Hco : byte_array 64 (demo_d ++ demo_z)).
  { split; [rewrite app_length, (proj1 demo_d_bytes), (proj1 demo_z_bytes); reflexivity|].
    apply all_bytes_app; [apply demo_d_bytes|apply demo_z_bytes]. }
  exists ek, dk, c, K, T1, T2, T3. split; [exact E1|]. split.
  { pose proof (keypair_longer' Kyber512 2 no_junk _ _ _ [7] [] [9] len_pk len_sk Hco) as X. rewrite E1 in X. cbn [with_value] in X.
    rewrite !(app_nil_r (repeat 0 1632)), (app_nil_r dk) in X. exact X. }
  split.
  { apply (proj2 (keypair_short Kyber512 2 no_junk (repeat 0 799) (repeat 0 1632) (demo_d ++ demo_z) (proj2 Hco)
      ltac:(left; apply Nat.ltb_lt; vm_compute; reflexivity)) [0] [] [] (ek, dk, 0) T1).
    rewrite !app_nil_r. exact E1. }
  split.
  { pose proof (enc_longer' Kyber512 2 no_junk _ _ _ _ [] [7] [9] [] len_ct len32 Hek demo_m_bytes) as X.
    rewrite E2 in X. cbn [with_value] in X. rewrite !(app_nil_r (repeat 0 768)), (app_nil_r demo_m), (app_nil_r c) in X. exact X. }
  split.
  { apply (proj2 (enc_short Kyber512 2 no_junk (repeat 0 768) (repeat 0 31) ek demo_m (proj2 Hek) (proj2 demo_m_bytes)
      ltac:(right; left; apply Nat.ltb_lt; vm_compute; reflexivity)) [] [0] [] [] (c, K, 0) T2).
    rewrite !app_nil_r. exact E2. }
  split.
  { pose proof (dec_longer' Kyber512 2 no_junk _ _ _ [] [5] [] len32 Hc Hdk) as X.
    rewrite E3 in X. cbn [with_value] in X. rewrite !(app_nil_r (repeat 0 32)), (app_nil_r dk), (app_nil_r K) in X. exact X. }
  assert (Lc : length c = 768%nat) by (destruct Hc as [-> _]; vm_compute; reflexivity).
  assert (Bf : all_bytes (firstn 767 c)).
  { intros x Hx. apply (proj2 Hc). rewrite <- (firstn_skipn 767 c). apply in_or_app. now left. }
  assert (Lf : (length (firstn 767 c) < KYBER_CIPHERTEXTBYTES Kyber512)%nat).
  { rewrite firstn_length, Lc. apply Nat.ltb_lt; vm_compute; reflexivity. }
  apply (proj2 (dec_short Kyber512 2 no_junk (repeat 0 32) (firstn 767 c) dk Bf (proj2 Hdk) (or_intror (or_introl Lf))) [] (skipn 767 c) [] (K, 0) T3).
  rewrite !app_nil_r, firstn_skipn. exact E3.
Qed.

Lemma enc_again lv fuel (JJ : Junk) ct ss ct2 ss2 pk m v T :
  length ct = KYBER_CIPHERTEXTBYTES lv -> length ss = 32%nat -> length ct2 = KYBER_CIPHERTEXTBYTES lv -> length ss2 = 32%nat ->
  byte_array (KYBER_PUBLICKEYBYTES lv) pk -> byte_array 32 m ->
  crypto_kem_enc_derand lv fuel ct ss pk m = Ok v T -> crypto_kem_enc_derand lv fuel ct2 ss2 pk m = Ok v T.
Proof.
  intros L1 L2 L3 L4 [Lp Bp] [Lm Bm] E. apply all_bytes_bytes in Bp. apply all_bytes_bytes in Bm.
  destruct (enough_all_dec lv fuel (ek_rho (PS lv) pk)) as [HE|HE].
  - destruct (enc_derand_wp lv fuel _ HE) as [T' W].
    destruct (W JJ ct ss pk m L1 L2 Lp Bp Lm Bm eq_refl) as (x & Ex & ->).
    destruct (W JJ ct2 ss2 pk m L3 L4 Lp Bp Lm Bm eq_refl) as (y & Ey & ->). congruence.
  - rewrite (enc_derand_timeout lv fuel JJ ct ss pk m Lp Bp Lm Bm HE) in E. discriminate E.
Qed.
Lemma dec_again lv fuel (JJ : Junk) ss ss2 ct sk v T :
  length ss = 32%nat -> length ss2 = 32%nat -> byte_array (KYBER_CIPHERTEXTBYTES lv) ct -> byte_array (KYBER_SECRETKEYBYTES lv) sk ->
  crypto_kem_dec lv fuel ss ct sk = Ok v T -> crypto_kem_dec lv fuel ss2 ct sk = Ok v T.
Proof.
  intros L1 L2 [Lp Bp] [Lm Bm] E. apply all_bytes_bytes in Bp. apply all_bytes_bytes in Bm.
  destruct (enough_all_dec lv fuel (ek_rho (PS lv) (dk_ek (PS lv) sk))) as [HE|HE].
  - destruct (dec_wp lv fuel _ HE) as [T' W].
    destruct (W JJ ss ct sk L1 Lp Bp Lm Bm eq_refl) as (x & Ex & ->).
    destruct (W JJ ss2 ct sk L2 Lp Bp Lm Bm eq_refl) as (y & Ey & ->). congruence.
  - rewrite (dec_timeout lv fuel JJ ss ct sk Lp Bp Lm Bm HE) in E. discriminate E.
Qed.
Lemma overwrite_mid (a b c x : list Z) m : length a = m -> length x = length b -> overwrite (a ++ b ++ c) m x = a ++ x ++ c.
Proof.
  intros <- E. unfold overwrite. rewrite firstn_app, firstn_all, Nat.sub_diag, firstn_O, app_nil_r, E. f_equal. f_equal.
  rewrite app_assoc, <- app_length, skipn_app, skipn_all, Nat.sub_diag. reflexivity.
Qed.
Lemma overwrite_tail (a b x : list Z) m : length a = m -> length x = length b -> overwrite (a ++ b) m x = a ++ x.
Proof. intros L E. pose proof (overwrite_mid a b [] x m L E) as X. now rewrite !app_nil_r in X. Qed.
Lemma overwrite_at0 (a x : list Z) m : length x = m -> overwrite a 0 x = x ++ skipn m a.
Proof. now intros <-. Qed.

(** The ciphertext over the public key and the secret over the coins; the secret over the end of the ciphertext *)
Lemma case_overlap : exists ek dk c K T1 T2 T3,
  @crypto_kem_keypair_derand no_junk Kyber512 2 (repeat 0 800) (repeat 0 1632) (demo_d ++ demo_z) = Ok (ek, dk, 0) T1 /\
  @crypto_kem_enc_derand_shared no_junk Kyber512 2 (ek ++ demo_m) 0 800 0 800 = Ok (c ++ skipn 768 ek ++ K, 0) T2 /\
  @crypto_kem_dec_shared no_junk Kyber512 2 (c ++ dk) 736 0 768 = Ok (firstn 736 c ++ K ++ dk, 0) T3.
Proof.
  destruct demo as (A & ek & dk & c & K & T1 & T2 & T3 & T4 & HA & E1 & E2 & E3 & _).
  destruct (secret_key_layout Kyber512 2 no_junk _ _ _ _ _ _ _ _ len_pk len_sk demo_d_bytes demo_z_bytes E1) as (Hek & Hdk & _).
  destruct (enc_sizes Kyber512 2 no_junk _ _ _ _ _ _ _ _ len_ct len32 Hek demo_m_bytes E2) as [Hc HK].
  assert (Lc : length c = 768%nat) by (destruct Hc as [-> _]; vm_compute; reflexivity).
  assert (Le : length ek = 800%nat) by (destruct Hek as [-> _]; vm_compute; reflexivity).
  assert (Ld : length dk = 1632%nat) by (destruct Hdk as [-> _]; vm_compute; reflexivity).
  pose proof (proj1 HK) as LK. pose proof (proj1 demo_m_bytes) as Lm.
  assert (C1 : KYBER_CIPHERTEXTBYTES Kyber512 = 768%nat) by (vm_compute; reflexivity).
  assert (C2 : KYBER_PUBLICKEYBYTES Kyber512 = 800%nat) by (vm_compute; reflexivity).
  assert (C3 : KYBER_SECRETKEYBYTES Kyber512 = 1632%nat) by (vm_compute; reflexivity).
  pose proof (enc_overlap Kyber512 2 no_junk (ek ++ demo_m) 0 800 0 800) as X.
  rewrite app_length, Le, Lm, C1, C2 in X.
  specialize (X ltac:(apply all_bytes_app; [exact (proj2 Hek)|exact (proj2 demo_m_bytes)]) ltac:(lia) ltac:(lia) ltac:(lia) ltac:(lia)).
  assert (R1 : region (ek ++ demo_m) 0 800 = ek).
  { unfold region. rewrite skipn_O, firstn_app, Le, Nat.sub_diag, firstn_O, app_nil_r. rewrite <- Le. apply firstn_all. }
  assert (R2 : region (ek ++ demo_m) 800 32 = demo_m).
  { pose proof (region_mid ek demo_m [] 32 Lm) as Y. rewrite app_nil_r, Le in Y. exact Y. }
  rewrite R1, R2 in X.
  pose proof (enc_again Kyber512 2 no_junk _ _ (region (ek ++ demo_m) 0 768) demo_m _ _ _ _ len_ct len32
    ltac:(rewrite C1; unfold region; rewrite firstn_length, skipn_O, app_length; lia) Lm Hek demo_m_bytes E2) as Z1.
  rewrite Z1 in X. cbn [with_value] in X.
  match type of X with same_result ?run _ => destruct run as [v1 T5| | |] eqn:Q1; cbn [same_result] in X; try contradiction; subst v1 end.
  pose proof (dec_overlap Kyber512 2 no_junk (c ++ dk) 736 0 768) as X.
  rewrite app_length, Lc, Ld, C1, C3 in X.
  specialize (X ltac:(apply all_bytes_app; [exact (proj2 Hc)|exact (proj2 Hdk)]) ltac:(lia) ltac:(lia) ltac:(lia)).
  assert (R3 : region (c ++ dk) 0 768 = c).
  { unfold region. rewrite skipn_O, firstn_app, Lc, Nat.sub_diag, firstn_O, app_nil_r. rewrite <- Lc. apply firstn_all. }
  assert (R4 : region (c ++ dk) 768 1632 = dk).
  { pose proof (region_mid c dk [] 1632 Ld) as Y. rewrite app_nil_r, Lc in Y. exact Y. }
  rewrite R3, R4 in X.
  pose proof (dec_again Kyber512 2 no_junk _ (region (c ++ dk) 736 32) _ _ _ _ len32
    ltac:(unfold region; rewrite firstn_length, skipn_length, app_length; lia) Hc Hdk E3) as Z2.
  rewrite Z2 in X. cbn [with_value] in X.
  match type of X with same_result ?run _ => destruct run as [v1 T6| | |] eqn:Q2; cbn [same_result] in X; try contradiction; subst v1 end.
  exists ek, dk, c, K, T1, T5, T6. split; [exact E1|]. rewrite Q1, Q2. split; f_equal; f_equal.
  - rewrite (overwrite_at0 (ek ++ demo_m) c 768 Lc), skipn_app. replace (768 - length ek)%nat with 0%nat by lia. rewrite skipn_O, app_assoc.
    rewrite (overwrite_tail (c ++ skipn 768 ek) demo_m K 800) by (rewrite ?app_length, ?skipn_length; lia). now rewrite <- app_assoc.
  - rewrite <- (firstn_skipn 736 c) at 1. rewrite <- app_assoc.
    apply (overwrite_mid (firstn 736 c) (skipn 736 c) dk K 736); rewrite ?firstn_length, ?skipn_length; lia.
Qed.
