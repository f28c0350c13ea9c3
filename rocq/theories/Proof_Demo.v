(** * What the computed exchange of [Run_Kem] establishes *)
From Coq Require Import ZArith List Lia Bool.
From Verif Require Import CMonad WP Proof_Base Levels Model_Params Model_Indcpa Model_Kem Spec_FIPS202 Spec_FIPS203 Spec_Noise
  Proof_Bits Proof_GenMatrix Proof_Indcpa Proof_Encrypt Proof_Kem Proof_Correct Proof_Api Vocab Vocab_Code Proof_Vocab Proof_PropPoly Proof_PropKem Run_Kem.
Import ListNotations.
Open Scope Z_scope.
Local Opaque SHA3_256 SHA3_512 SHAKE256 SHAKE128.
Local Opaque crypto_kem_keypair_derand crypto_kem_enc_derand crypto_kem_dec indcpa_dec.

Lemma on_ok_true {A} (m : res A) f : on_ok m f = true -> exists v T, m = Ok v T /\ f v = true.
Proof. destruct m as [v T|u| |]; cbn [on_ok]; try discriminate. eauto. Qed.

Lemma demo_d_bytes : byte_array 32 demo_d.
Proof. split; [reflexivity|]. intros x Hx. apply in_map_iff in Hx as (i & <- & Hi). apply in_seq in Hi. lia. Qed.
Lemma demo_z_bytes : byte_array 32 demo_z.
Proof. split; [reflexivity|]. intros x Hx. apply in_map_iff in Hx as (i & <- & Hi). apply in_seq in Hi. lia. Qed.
Lemma demo_m_bytes : byte_array 32 demo_m.
Proof. split; [reflexivity|]. intros x Hx. apply repeat_spec in Hx. lia. Qed.

Lemma demo_m_ok nz : noise_decodes demo_m nz -> noise_ok nz.
Proof.
  intros HN i Hi. specialize (HN i Hi).
  assert (E : forall i, (i < 256)%nat -> nth i (ByteDecode 1 demo_m) 0 = 1).
  { assert (B : forallb (fun x => x =? 1) (ByteDecode 1 demo_m) = true) by (vm_compute; reflexivity).
    intros j Hj. rewrite forallb_forall in B. apply Z.eqb_eq. apply B. apply nth_In. now rewrite ByteDecode_length. }
  rewrite (E i Hi) in HN. exact HN.
Qed.

(** Decapsulation with a generated key finishes with the fuel that sufficed for key generation *)
Lemma dec_finishes lv fuel (JJ : Junk) pk sk d z ek dk r1 T1 ss c :
  length pk = KYBER_PUBLICKEYBYTES lv -> length sk = KYBER_SECRETKEYBYTES lv -> byte_array 32 d -> byte_array 32 z ->
  crypto_kem_keypair_derand lv fuel pk sk (d ++ z) = Ok (ek, dk, r1) T1 ->
  length ss = 32%nat -> byte_array (KYBER_CIPHERTEXTBYTES lv) c ->
  exists K T, crypto_kem_dec lv fuel ss c dk = Ok (K, 0) T.
Proof.
  intros Lp Ls Hd Hz E1 Lss Hc.
  destruct (keypair_sound' _ _ _ _ _ _ _ _ _ _ _ Lp Ls Hd Hz E1) as [-> HK].
  destruct (KeyGen_internal_sizes _ _ _ _ _ Hz HK) as [Hek Hdk].
  destruct (dk_layout lv _ _ ek dk Hz HK) as (A & HA & Eek & Epke & Eek' & Eh & Ez & Er).
  destruct (dec_outcome lv fuel JJ ss c dk Lss Hc Hdk) as [E4|E4]; [exact E4|].
  exfalso. destruct (enough_all_dec lv fuel (keygen_rho (PS lv) d)) as [HE'|HE'].
  - destruct (dec_wp lv fuel _ HE') as [T W].
    destruct (W JJ ss c dk Lss (proj1 Hc) (bytes_of_bytes _ _ Hc) (proj1 Hdk) (bytes_of_bytes _ _ Hdk)) as (v & Ev & _).
    + rewrite Eek'. exact Er.
    + rewrite Ev in E4. discriminate.
  - rewrite keypair_derand_timeout in E1; [discriminate|apply (coins_of d z Hd Hz)|apply (bytes_of_bytes _ _ (coins_of d z Hd Hz))|].
    change (sub (d ++ z) 0 32) with (firstn 32 (d ++ z)). rewrite coins_d by exact Hd. exact HE'.
Qed.

Lemma indcpa_dec_kem lv (JJ : Junk) mbuf c dk m T : length mbuf = 32%nat -> byte_array (KYBER_CIPHERTEXTBYTES lv) c ->
  byte_array (KYBER_SECRETKEYBYTES lv) dk -> indcpa_dec lv mbuf 0 c 0 dk 0 = Ok m T -> m = K_PKE_Decrypt (PS lv) (dk_pke (PS lv) dk) c.
Proof.
  intros Lmb Hc Hdk E3. destruct (indcpa_dec_wp lv 0 0 0) as [T' W].
  destruct (W JJ mbuf c dk) as (v & Ev & EQ).
  - rewrite Lmb. apply le_n.
  - rewrite (proj1 Hc). apply le_n.
  - now apply bytes_of_bytes in Hc.
  - rewrite (proj1 Hdk). unfold KYBER_SECRETKEYBYTES. lia.
  - now apply bytes_of_bytes in Hdk.
  - rewrite Ev in E3. injection E3 as E3 _. rewrite EQ in E3.
    rewrite splice0_all in E3 by (rewrite Lmb, Decrypt_length; reflexivity).
    rewrite (sub_all c _ (proj1 Hc)), (proj1 (sk_sizes lv)) in E3. now symmetry.
Qed.

Lemma exchange lv fuel (JJ : Junk) pk sk ct ss mbuf ss3 d z m ek dk r1 c K r2 T1 T2 T3 :
  length pk = KYBER_PUBLICKEYBYTES lv -> length sk = KYBER_SECRETKEYBYTES lv -> length ct = KYBER_CIPHERTEXTBYTES lv ->
  length ss = 32%nat -> length mbuf = 32%nat -> length ss3 = 32%nat -> byte_array 32 d -> byte_array 32 z -> byte_array 32 m ->
  crypto_kem_keypair_derand lv fuel pk sk (d ++ z) = Ok (ek, dk, r1) T1 ->
  crypto_kem_enc_derand lv fuel ct ss ek m = Ok (c, K, r2) T2 ->
  indcpa_dec lv mbuf 0 c 0 dk 0 = Ok m T3 ->
  r1 = 0 /\ r2 = 0 /\ exists A T4, is_matrix (PS lv) (keygen_rho (PS lv) d) A /\
    noise_decodes m (decryption_noise (PS lv) A d m (skipn 32 (SHA3_512 (m ++ SHA3_256 ek)))) /\
    crypto_kem_dec lv fuel ss3 c dk = Ok (K, 0) T4.
Proof.
  intros Lp Ls Lc Lss Lmb Lss3 Hd Hz Hm E1 E2 E3.
  destruct (keypair_sound' _ _ _ _ _ _ _ _ _ _ _ Lp Ls Hd Hz E1) as [-> HK].
  destruct (KeyGen_internal_sizes _ _ _ _ _ Hz HK) as [Hek Hdk].
  destruct (enc_sound _ _ _ _ _ _ _ _ _ _ _ Lc Lss Hek Hm E2) as [-> HE].
  destruct (Encaps_internal_sizes _ _ _ _ _ HE) as [_ Hc].
  destruct (dk_layout lv _ _ ek dk Hz HK) as (A & HA & Eek & Epke & Eek' & Eh & Ez & Er).
  split; [reflexivity|]. split; [reflexivity|]. exists A.
  pose proof HE as (A' & HA' & EK & EC). rewrite Er in HA'. rewrite (is_matrix_functional _ _ _ _ HA' HA) in EC. clear A' HA'.
  assert (HN : noise_decodes m (decryption_noise (PS lv) A d m (skipn 32 (SHA3_512 (m ++ SHA3_256 ek))))).
  { apply Decrypt_Encrypt_iff; [apply HA|intros i Hi; now apply HA|now apply bytes_of_bytes in Hm|apply Hm|].
    rewrite <- Epke, <- Eek. unfold G, H in EC. rewrite <- EC. symmetry. exact (indcpa_dec_kem _ _ _ _ _ _ _ Lmb Hc Hdk E3). }
  destruct (dec_finishes lv fuel JJ pk sk d z ek dk 0 T1 ss3 c Lp Ls Hd Hz E1 Lss3 Hc) as (K' & T4 & E4).
  exists T4. split; [exact HA|]. split; [exact HN|]. rewrite E4. f_equal. f_equal.
  exact (kem_agreement' lv d z m fuel fuel fuel JJ JJ JJ pk sk ct ss ss3 ek dk c K K' 0 0 0 T1 T2 T4 A Lp Ls Lc Lss Lss3 Hd Hz Hm E1 E2 E4 HA HN).
Qed.

(** A different ciphertext that decrypts to the same message is rejected *)
Lemma exchange_reject lv fuel (JJ : Junk) pk sk ct ss mbuf ss3 d z m ek dk r1 c K r2 c' T1 T2 T3 :
  length pk = KYBER_PUBLICKEYBYTES lv -> length sk = KYBER_SECRETKEYBYTES lv -> length ct = KYBER_CIPHERTEXTBYTES lv ->
  length ss = 32%nat -> length mbuf = 32%nat -> length ss3 = 32%nat -> byte_array 32 d -> byte_array 32 z -> byte_array 32 m ->
  crypto_kem_keypair_derand lv fuel pk sk (d ++ z) = Ok (ek, dk, r1) T1 ->
  crypto_kem_enc_derand lv fuel ct ss ek m = Ok (c, K, r2) T2 ->
  byte_array (KYBER_CIPHERTEXTBYTES lv) c' -> c' <> c -> indcpa_dec lv mbuf 0 c' 0 dk 0 = Ok m T3 ->
  exists T4, crypto_kem_dec lv fuel ss3 c' dk = Ok (SHAKE256 (z ++ c') 32, 0) T4.
Proof.
  intros Lp Ls Lc Lss Lmb Lss3 Hd Hz Hm E1 E2 Hc' NE E3.
  destruct (keypair_sound' _ _ _ _ _ _ _ _ _ _ _ Lp Ls Hd Hz E1) as [-> HK].
  destruct (KeyGen_internal_sizes _ _ _ _ _ Hz HK) as [Hek Hdk].
  destruct (enc_sound _ _ _ _ _ _ _ _ _ _ _ Lc Lss Hek Hm E2) as [-> HE].
  destruct (dk_layout lv _ _ ek dk Hz HK) as (A & HA & Eek & Epke & Eek' & Eh & Ez & Er).
  destruct HE as (A' & HA' & EK & EC).
  destruct (dec_finishes lv fuel JJ pk sk d z ek dk 0 T1 ss3 c' Lp Ls Hd Hz E1 Lss3 Hc') as (K' & T4 & E4).
  exists T4. rewrite E4. f_equal. f_equal.
  destruct (dec_sound _ _ _ _ _ _ _ _ _ Lss3 Hc' Hdk E4) as [_ HD].
  destruct HD as (A2 & HA2 & HD). rewrite Eek' in HA2. rewrite (is_matrix_functional _ _ _ _ HA2 HA') in HD.
  cbv zeta in HD. rewrite <- (indcpa_dec_kem _ _ _ _ _ _ _ Lmb Hc' Hdk E3), Eek', Eh, Ez in HD. destruct HD as [_ HD].
  apply HD. rewrite <- EC. exact NE.
Qed.

Lemma indcpa_dec_length lv (JJ : Junk) mbuf c dk m T : length mbuf = 32%nat -> byte_array (KYBER_CIPHERTEXTBYTES lv) c ->
  byte_array (KYBER_SECRETKEYBYTES lv) dk -> indcpa_dec lv mbuf 0 c 0 dk 0 = Ok m T -> length m = 32%nat.
Proof. intros Lmb Hc Hdk E3. rewrite (indcpa_dec_kem _ _ _ _ _ _ _ Lmb Hc Hdk E3). apply Decrypt_length. Qed.

Lemma tampered_array m c : (0 < m)%nat -> byte_array m c -> byte_array m (tampered c) /\ tampered c <> c.
Proof.
  intros Hm [L B]. destruct (exists_last (l := c)) as (c0 & x & ->).
  { intros ->. cbn [length] in L. lia. }
  unfold tampered. rewrite removelast_last, last_last.
  assert (Hx : 0 <= x < 256) by (apply B, in_or_app; right; now left).
  assert (Hn : 0 <= nudge x < 256 /\ nudge x <> x) by (unfold nudge; destruct (x <? 128) eqn:E; [apply Z.ltb_lt in E|apply Z.ltb_ge in E]; lia).
  split; [split|].
  - rewrite app_length in *. exact L.
  - intros y Hy. apply in_app_or in Hy as [Hy|[<-|[]]]; [|apply Hn]. apply B, in_or_app. now left.
  - intros E. apply app_inj_tail in E as [_ E]. now apply Hn.
Qed.

Lemma all255 (m : list Z) : length m = 32%nat -> forallb (fun b => b =? 255) m = true -> m = demo_m.
Proof.
  intros L B. unfold demo_m. rewrite <- L. clear L. induction m as [|x m IH]; [reflexivity|]. cbn [forallb] in B. apply andb_true_iff in B as [Bx B].
  cbn [length repeat]. apply Z.eqb_eq in Bx. subst x. f_equal. auto.
Qed.

Definition demo_facts A ek dk c K T1 T2 T3 T4 : Prop :=
  is_matrix (PS Kyber512) (keygen_rho (PS Kyber512) demo_d) A /\
  @crypto_kem_keypair_derand no_junk Kyber512 2 (repeat 0 800) (repeat 0 1632) (demo_d ++ demo_z) = Ok (ek, dk, 0) T1 /\
  @crypto_kem_enc_derand no_junk Kyber512 2 (repeat 0 768) (repeat 0 32) ek demo_m = Ok (c, K, 0) T2 /\
  @crypto_kem_dec no_junk Kyber512 2 (repeat 0 32) c dk = Ok (K, 0) T3 /\
  noise_ok (decryption_noise (PS Kyber512) A demo_d demo_m (skipn 32 (SHA3_512 (demo_m ++ SHA3_256 ek)))) /\
  tampered c <> c /\
  @crypto_kem_dec no_junk Kyber512 2 (repeat 0 32) (tampered c) dk = Ok (SHAKE256 (demo_z ++ tampered c) 32, 0) T4.

Lemma len_pk : length (repeat 0 800) = KYBER_PUBLICKEYBYTES Kyber512.
Proof. apply repeat_length. Qed.
Lemma len_sk : length (repeat 0 1632) = KYBER_SECRETKEYBYTES Kyber512.
Proof. apply repeat_length. Qed.
Lemma len_ct : length (repeat 0 768) = KYBER_CIPHERTEXTBYTES Kyber512.
Proof. apply repeat_length. Qed.
Definition len32 : length (repeat 0 32) = 32%nat := repeat_length 0 32.

Lemma demo : exists A ek dk c K T1 T2 T3 T4, demo_facts A ek dk c K T1 T2 T3 T4.
Proof.
  pose proof demo_exchange_ok as R. unfold demo_exchange in R.
  apply on_ok_true in R as ([[ek dk] r1] & T1 & E1 & R). cbn [fst snd] in R.
  apply on_ok_true in R as ([[c K] r2] & T2 & E2 & R). cbn [fst snd] in R.
  apply on_ok_true in R as (m & T3 & E3 & R). apply andb_true_iff in R as [R R'].
  apply on_ok_true in R' as (m' & T3' & E3' & R').
  destruct (keypair_sound' _ _ _ _ _ _ _ _ _ _ _ len_pk len_sk demo_d_bytes demo_z_bytes E1) as [-> HK].
  destruct (KeyGen_internal_sizes _ _ _ _ _ demo_z_bytes HK) as [Hek Hdk].
  destruct (enc_sound _ _ _ _ _ _ _ _ _ _ _ len_ct len32 Hek demo_m_bytes E2) as [-> HE].
  destruct (Encaps_internal_sizes _ _ _ _ _ HE) as [_ Hc].
  destruct (tampered_array (KYBER_CIPHERTEXTBYTES Kyber512) c) as [Hc' NE]; [unfold KYBER_CIPHERTEXTBYTES; apply Nat.lt_0_succ|exact Hc|].
  assert (Lm : m = demo_m).
  { apply all255; [|exact R]. exact (indcpa_dec_length _ _ _ _ _ _ _ len32 Hc Hdk E3). }
  assert (Lm' : m' = demo_m).
  { apply all255; [|exact R']. exact (indcpa_dec_length _ _ _ _ _ _ _ len32 Hc' Hdk E3'). }
  rewrite Lm in E3. rewrite Lm' in E3'.
  destruct (exchange Kyber512 2 no_junk _ _ _ _ _ (repeat 0 32) demo_d demo_z demo_m ek dk 0 c K 0 T1 T2 T3 len_pk len_sk len_ct len32
    len32 len32 demo_d_bytes demo_z_bytes demo_m_bytes E1 E2 E3) as (_ & _ & A & T4 & HA & HN & E4).
  destruct (exchange_reject Kyber512 2 no_junk _ _ _ _ _ (repeat 0 32) demo_d demo_z demo_m ek dk 0 c K 0 (tampered c) T1 T2 T3' len_pk len_sk len_ct len32
    len32 len32 demo_d_bytes demo_z_bytes demo_m_bytes E1 E2 Hc' NE E3') as (T5 & E5).
  exists A, ek, dk, c, K, T1, T2, T4, T5. split; [exact HA|]. split; [exact E1|]. split; [exact E2|]. split; [exact E4|].
  split; [now apply demo_m_ok|]. split; [exact NE|exact E5].
Qed.
