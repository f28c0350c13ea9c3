(** * kem.c of the AVX2 variant against the internal algorithms of FIPS 203 *)
From Coq Require Import ZArith List Lia Bool.
From Verif Require Import CMonad WP Modq Sums Proof_Base Proof_Bits Levels Model_Params Model_Fips202
  Model_Symmetric Model_Poly Model_Polyvec Model_Randombytes Spec_FIPS202 Spec_FIPS203
  Proof_Verify Proof_Hash Proof_NTTSpec Proof_Poly Proof_Polyvec Proof_Codec Proof_Symmetric Proof_GenMatrix Proof_Indcpa
  Proof_Keypair Proof_Encrypt Proof_Kem
  Model_AvxC Model_AvxPolyvec Model_AvxIndcpa Model_AvxKem Proof_AvxMisc Proof_AvxKeypair Proof_AvxEncrypt.
Import ListNotations.
Open Scope Z_scope.

Local Opaque SHA3_256 SHA3_512 SHAKE256.

(** ** crypto_kem_keypair_derand_avx2 (kem.c:25-35) *)
Lemma avx2_keypair_derand_wp lv fuel rho : enough_all lv fuel rho ->
  traced (fun T => forall (JJ : Junk) pk sk coins,
    length pk = KYBER_PUBLICKEYBYTES lv -> length sk = KYBER_SECRETKEYBYTES lv ->
    length coins = 64%nat -> bytes coins -> keygen_rho (PS lv) (sub coins 0 32) = rho ->
    wp (crypto_kem_keypair_derand_avx2 lv fuel pk sk coins) T
       (fun st => st = (kem_keypair lv fuel rho coins, 0))).
Proof.
  intros HE.
  destruct (indcpa_keypair_derand_avx2_wp lv fuel rho 0 0 0 HE) as [T1 W1].
  destruct (memcpy_wp (KYBER_INDCPA_SECRETKEYBYTES lv) 0 (KYBER_PUBLICKEYBYTES lv)) as [T2 W2].
  destruct (sha3_256_wp (KYBER_SECRETKEYBYTES lv - 2 * KYBER_SYMBYTES) 0 (KYBER_PUBLICKEYBYTES lv)) as [T3 W3].
  destruct (memcpy_wp (KYBER_SECRETKEYBYTES lv - KYBER_SYMBYTES) 32 32) as [T4 W4].
  eexists. intros JJ pk sk coins Lpk Lsk Lc Bc Er. unfold crypto_kem_keypair_derand_avx2.
  change KYBER_SYMBYTES with 32%nat in *.
  assert (ES : KYBER_SECRETKEYBYTES lv = (KYBER_INDCPA_SECRETKEYBYTES lv + (KYBER_PUBLICKEYBYTES lv + (32 + 32)))%nat).
  { unfold KYBER_SECRETKEYBYTES, KYBER_PUBLICKEYBYTES. change KYBER_SYMBYTES with 32%nat. lia. }
  wstep. eapply wp_conseq.
  { apply (W1 JJ pk sk coins); [unfold KYBER_PUBLICKEYBYTES in Lpk; lia|lia|lia|exact Bc|exact Er]. }
  intros st ->. cbv zeta beta iota. unfold kem_keypair.
  pose proof (KeyGen_ek_length lv (matrix lv fuel rho false) (sub coins 0 32) (matrix_length _ _ _ _)) as Lek.
  pose proof (KeyGen_dk_length lv (matrix lv fuel rho false) (sub coins 0 32)) as Ldk.
  pose proof (KeyGen_ek_bytes (PS lv) (matrix lv fuel rho false) (sub coins 0 32)) as Bek.
  revert Lek Ldk Bek. generalize (K_PKE_KeyGen (PS lv) (matrix lv fuel rho false) (sub coins 0 32)) as K.
  intros [ek dk] Lek Ldk Bek. cbn [fst snd] in *. cbv zeta. cbn [fst snd].
  rewrite (splice_full pk ek) by congruence.
  wstep. eapply wp_conseq; [apply W2; rewrite ?splice_length; lia|].
  intros s1 ->. fold (sub ek 0 (KYBER_PUBLICKEYBYTES lv)). rewrite (sub_all ek) by exact Lek.
  rewrite (splice_splice_next sk 0 dk ek) by lia.
  wstep. eapply wp_conseq.
  { apply (W3 JJ _ ek); [rewrite splice_length; rewrite ?app_length; lia|lia|exact Bek]. }
  intros s2 ->. rewrite (sub_all ek) by exact Lek. fold (H ek).
  assert (LH : length (H ek) = 32%nat) by apply SHA3_256_length. set (h := H ek) in *. clearbody h.
  rewrite (splice_splice_next sk 0 (dk ++ ek) h) by (rewrite ?app_length; lia).
  wstep. eapply wp_conseq.
  { apply W4; [rewrite splice_length; rewrite ?app_length; lia|lia]. }
  intros s3 ->. wstep. fold (sub coins 32 32).
  assert (Lz : length (sub coins 32 32) = 32%nat) by (apply sub_length; lia).
  rewrite (splice_splice_next sk 0 ((dk ++ ek) ++ h) (sub coins 32 32)) by (rewrite ?app_length; lia).
  rewrite splice_full by (rewrite !app_length; lia). now rewrite <- !app_assoc.
Qed.

Lemma avx2_keypair_derand_timeout lv fuel : forall (JJ : Junk) pk sk coins,
  length coins = 64%nat -> bytes coins -> ~ enough_all lv fuel (keygen_rho (PS lv) (sub coins 0 32)) ->
  crypto_kem_keypair_derand_avx2 lv fuel pk sk coins = Timeout.
Proof.
  intros JJ pk sk coins Lc Bc HN. unfold crypto_kem_keypair_derand_avx2. apply bind_timeout_l.
  apply indcpa_keypair_derand_avx2_timeout; [lia|exact Bc|exact HN].
Qed.

(** ** crypto_kem_enc_derand_avx2 (kem.c:76-96) *)



Lemma avx2_enc_split2 `{JJ : Junk} lv fuel ct ss pk coins :
  crypto_kem_enc_derand_avx2 lv fuel ct ss pk coins =
  bind (buf <- memcpy (local (2 * KYBER_SYMBYTES)) 0 coins 0 KYBER_SYMBYTES ;;
        hash_h buf KYBER_SYMBYTES pk 0 (KYBER_PUBLICKEYBYTES lv)) (fun buf =>
  bind (hash_g (local (2 * KYBER_SYMBYTES)) 0 buf 0 (2 * KYBER_SYMBYTES)) (fun kr =>
  bind (indcpa_enc_avx2 lv fuel ct 0 buf 0 pk 0 kr KYBER_SYMBYTES) (fun ct =>
  bind (memcpy ss 0 kr 0 KYBER_SYMBYTES) (fun ss => ret (ct, ss, 0))))).
Proof. unfold crypto_kem_enc_derand_avx2. cbv zeta. now rewrite bind_assoc. Qed.

Lemma avx2_enc_derand_wp lv fuel rho : enough_all lv fuel rho ->
  traced (fun T => forall (JJ : Junk) ct ss pk coins,
    length ct = KYBER_CIPHERTEXTBYTES lv -> length ss = 32%nat ->
    length pk = KYBER_PUBLICKEYBYTES lv -> bytes pk -> length coins = 32%nat -> bytes coins ->
    ek_rho (PS lv) pk = rho ->
    wp (crypto_kem_enc_derand_avx2 lv fuel ct ss pk coins) T
       (fun st => st = (kem_enc lv fuel rho pk coins, 0))).
Proof.
  intros HE.
  destruct (enc_prefix_wp lv) as [T1 W1].
  destruct hash_g_wp as [T2 W2].
  destruct (indcpa_enc_avx2_wp lv fuel rho 0 0 0 32 HE) as [T3 W3].
  destruct (memcpy_wp 0 0 32) as [T4 W4].
  eexists. intros JJ ct ss pk coins Lct Lss Lpk Bpk Lc Bc Er. rewrite avx2_enc_split2.
  wstep. eapply wp_conseq; [apply (W1 JJ pk coins Lpk Bpk Lc Bc)|]. intros buf Eb.
  assert (LH : length (H pk) = 32%nat) by apply SHA3_256_length.
  assert (Lb : length buf = 64%nat) by (rewrite Eb, app_length; lia).
  assert (Bb : bytes buf) by (rewrite Eb; apply bnd_app; [exact Bc|apply SHA3_256_bytes]).
  wstep. eapply wp_conseq; [apply (W2 JJ buf Lb Bb)|]. intros kr Ek.
  destruct (kr_parts buf) as (Lk & Bk & E2 & E1). rewrite <- Ek in *.
  change KYBER_SYMBYTES with 32%nat.
  wstep. eapply wp_conseq.
  { apply (W3 JJ ct buf pk kr); try lia; try assumption.
    - unfold KYBER_PUBLICKEYBYTES in Lpk. lia.
    - rewrite sub_all by exact Lpk. exact Er. }
  intros c ->. wstep. eapply wp_conseq; [apply W4; lia|]. intros s ->. wstep.
  fold (sub kr 0 32). unfold kem_enc. cbv zeta. rewrite <- Eb, <- Ek.
  rewrite (sub_all pk) by exact Lpk. rewrite splice_full by (rewrite Encrypt_length; congruence).
  rewrite (splice_full ss) by (rewrite sub_length; lia).
  rewrite <- E1, <- E2. rewrite Eb at 1. rewrite sub_app_l by exact Lc. reflexivity.
Qed.

Lemma avx2_enc_derand_timeout lv fuel : forall (JJ : Junk) ct ss pk coins,
  length pk = KYBER_PUBLICKEYBYTES lv -> bytes pk -> length coins = 32%nat -> bytes coins ->
  ~ enough_all lv fuel (ek_rho (PS lv) pk) ->
  crypto_kem_enc_derand_avx2 lv fuel ct ss pk coins = Timeout.
Proof.
  intros JJ ct ss pk coins Lpk Bpk Lc Bc HN. rewrite avx2_enc_split2.
  destruct (enc_prefix_wp lv) as [T1 W1].
  destruct hash_g_wp as [T2 W2].
  eapply bind_timeout; [apply (W1 JJ pk coins Lpk Bpk Lc Bc)|]. intros buf Eb.
  assert (LH : length (H pk) = 32%nat) by apply SHA3_256_length.
  assert (Lb : length buf = 64%nat) by (rewrite Eb, app_length; lia).
  assert (Bb : bytes buf) by (rewrite Eb; apply bnd_app; [exact Bc|apply SHA3_256_bytes]).
  eapply bind_timeout; [apply (W2 JJ buf Lb Bb)|]. intros kr Ek.
  apply bind_timeout_l. apply indcpa_enc_avx2_timeout; [lia|unfold KYBER_PUBLICKEYBYTES in Lpk; lia|exact Bpk|].
  now rewrite sub_all by exact Lpk.
Qed.

(** ** crypto_kem_dec_avx2 (kem.c:140-170) *)

Lemma avx2_dec_prefix_wp lv :
  traced (fun T => forall (JJ : Junk) ct sk, length ct = KYBER_CIPHERTEXTBYTES lv -> bytes ct ->
    length sk = KYBER_SECRETKEYBYTES lv -> bytes sk ->
    wp (buf <- indcpa_dec_avx2 lv (local (2 * KYBER_SYMBYTES)) 0 ct 0 sk 0 ;;
        memcpy buf KYBER_SYMBYTES sk (KYBER_SECRETKEYBYTES lv - 2 * KYBER_SYMBYTES) KYBER_SYMBYTES) T
       (fun buf => buf = K_PKE_Decrypt (PS lv) (dk_pke (PS lv) sk) ct ++ dk_h (PS lv) sk)).
Proof.
  destruct (indcpa_dec_avx2_wp lv 0 0 0) as [T1 W1].
  destruct (memcpy_wp 32 (KYBER_SECRETKEYBYTES lv - 2 * 32) 32) as [T2 W2].
  eexists. intros JJ ct sk Lct Bct Lsk Bsk. change (2 * KYBER_SYMBYTES)%nat with 64%nat. change KYBER_SYMBYTES with 32%nat.
  destruct (sk_parts lv sk Lsk) as (E1 & E2 & E3 & E4).
  assert (ES : KYBER_SECRETKEYBYTES lv = (KYBER_INDCPA_SECRETKEYBYTES lv + (KYBER_PUBLICKEYBYTES lv + (32 + 32)))%nat).
  { unfold KYBER_SECRETKEYBYTES, KYBER_PUBLICKEYBYTES. change KYBER_SYMBYTES with 32%nat. lia. }
  wstep. eapply wp_conseq.
  { apply (W1 JJ (local 64) ct sk); try assumption; rewrite ?local_length; lia. }
  intros b ->. rewrite <- E1. rewrite (sub_all ct) by exact Lct.
  pose proof (Decrypt_length (PS lv) (dk_pke (PS lv) sk) ct) as Lm.
  revert Lm. generalize (K_PKE_Decrypt (PS lv) (dk_pke (PS lv) sk) ct) as m. intros m Lm.
  eapply wp_conseq.
  { apply (W2 _ sk); rewrite ?splice_length; rewrite ?local_length; lia. }
  intros b ->. fold (sub sk (KYBER_SECRETKEYBYTES lv - 2 * 32) 32). rewrite <- E3.
  assert (Lh : length (dk_h (PS lv) sk) = 32%nat) by (rewrite E3; apply sub_length; lia).
  rewrite (splice_splice_next (local 64) 0 m) by (rewrite ?local_length; lia).
  apply splice_full. rewrite app_length, local_length. lia.
Qed.

Lemma avx2_dec_split `{JJ : Junk} lv fuel ss ct sk :
  crypto_kem_dec_avx2 lv fuel ss ct sk =
  bind (buf <- indcpa_dec_avx2 lv (local (2 * KYBER_SYMBYTES)) 0 ct 0 sk 0 ;;
        memcpy buf KYBER_SYMBYTES sk (KYBER_SECRETKEYBYTES lv - 2 * KYBER_SYMBYTES) KYBER_SYMBYTES) (fun buf =>
  bind (hash_g (local (2 * KYBER_SYMBYTES)) 0 buf 0 (2 * KYBER_SYMBYTES)) (fun kr =>
  bind (indcpa_enc_avx2 lv fuel (local (KYBER_CIPHERTEXTBYTES lv)) 0 buf 0 sk (KYBER_INDCPA_SECRETKEYBYTES lv) kr KYBER_SYMBYTES)
    (fun cmp =>
  bind (verify_avx2 ct 0 cmp 0 (KYBER_CIPHERTEXTBYTES lv)) (fun fail =>
  bind (kyber_shake256_rkprf lv ss 0 sk (KYBER_SECRETKEYBYTES lv - KYBER_SYMBYTES) ct 0) (fun ss =>
  bind (cmov_avx2 ss 0 kr 0 KYBER_SYMBYTES (if fail =? 0 then 1 else 0)) (fun ss => ret (ss, 0))))))).
Proof. unfold crypto_kem_dec_avx2. cbv zeta. now rewrite bind_assoc. Qed.

Lemma avx2_dec_wp lv fuel rho : enough_all lv fuel rho ->
  traced (fun T => forall (JJ : Junk) ss ct sk,
    length ss = 32%nat -> length ct = KYBER_CIPHERTEXTBYTES lv -> bytes ct ->
    length sk = KYBER_SECRETKEYBYTES lv -> bytes sk ->
    ek_rho (PS lv) (dk_ek (PS lv) sk) = rho ->
    wp (crypto_kem_dec_avx2 lv fuel ss ct sk) T (fun st => st = (kem_dec lv fuel rho ct sk, 0))).
Proof.
  intros HE.
  destruct (avx2_dec_prefix_wp lv) as [T1 W1].
  destruct hash_g_wp as [T2 W2].
  destruct (indcpa_enc_avx2_wp lv fuel rho 0 0 (KYBER_INDCPA_SECRETKEYBYTES lv) 32 HE) as [T3 W3].
  destruct (verify_avx2_wp 0 0 (KYBER_CIPHERTEXTBYTES lv)) as [T4 W4].
  destruct (rkprf_wp lv 0 (KYBER_SECRETKEYBYTES lv - 32) 0) as [T5 W5].
  destruct (cmov_avx2_wp 0 0 32) as [T6 W6].
  eexists. intros JJ ss ct sk Lss Lct Bct Lsk Bsk Er. rewrite avx2_dec_split.
  destruct (sk_parts lv sk Lsk) as (E1 & E2 & E3 & E4).
  assert (ES : KYBER_SECRETKEYBYTES lv = (KYBER_INDCPA_SECRETKEYBYTES lv + (KYBER_INDCPA_PUBLICKEYBYTES lv + (32 + 32)))%nat).
  { unfold KYBER_SECRETKEYBYTES. change KYBER_SYMBYTES with 32%nat. lia. }
  wstep. eapply wp_conseq; [apply (W1 JJ ct sk Lct Bct Lsk Bsk)|]. intros buf Eb.
  unfold kem_dec. cbv zeta. rewrite <- Eb.
  pose proof (Decrypt_length (PS lv) (dk_pke (PS lv) sk) ct) as Lm.
  pose proof (Decrypt_bytes (PS lv) (dk_pke (PS lv) sk) ct) as Bm.
  set (m := K_PKE_Decrypt (PS lv) (dk_pke (PS lv) sk) ct) in *. clearbody m.
  assert (Lh : length (dk_h (PS lv) sk) = 32%nat) by (rewrite E3; apply sub_length; lia).
  assert (Lb : length buf = 64%nat) by (rewrite Eb, app_length; lia).
  assert (Bb : bytes buf) by (rewrite Eb; apply bnd_app; [exact Bm|rewrite E3; now apply bnd_sub]).
  wstep. eapply wp_conseq; [apply (W2 JJ buf Lb Bb)|]. intros kr Ek.
  destruct (kr_parts buf) as (Lk & Bk & P2 & P1). rewrite <- Ek in *.
  change KYBER_SYMBYTES with 32%nat.
  wstep. eapply wp_conseq.
  { apply (W3 JJ (local (KYBER_CIPHERTEXTBYTES lv)) buf sk kr); rewrite ?local_length; try assumption; try lia.
    rewrite <- E2. exact Er. }
  intros cmp Ec. rewrite splice_full in Ec by (now rewrite Encrypt_length, local_length).
  rewrite <- E2, <- P2 in Ec. rewrite Eb in Ec at 1. rewrite sub_app_l in Ec by exact Lm.
  rewrite <- Ec.
  assert (Lcmp : length cmp = KYBER_CIPHERTEXTBYTES lv) by (rewrite Ec; apply Encrypt_length).
  assert (Bcmp : bytes cmp) by (rewrite Ec; apply Encrypt_bytes).
  wstep. eapply wp_conseq.
  { apply (W4 ct cmp); try lia; now apply bnd_sub. }
  intros v Hv. rewrite !sub_all in Hv by assumption.
  wstep. eapply wp_conseq.
  { apply (W5 JJ ss sk ct); try lia; assumption. }
  intros s Es. rewrite <- E4 in Es. rewrite (sub_all ct) in Es by exact Lct.
  assert (LJ : length (J (dk_z (PS lv) sk ++ ct)) = 32%nat) by apply SHAKE256_length.
  assert (BJ : bytes (J (dk_z (PS lv) sk ++ ct))) by apply SHAKE256_bytes.
  rewrite splice_full in Es by congruence.
  assert (Ls : length s = 32%nat) by congruence.
  wstep. eapply wp_conseq.
  { apply (W6 s kr); try lia.
    - apply bnd_sub. rewrite Es. exact BJ.
    - now apply bnd_sub.
    - destruct (v =? 0); auto. }
  intros r ->. wstep. f_equal. rewrite Es.
  destruct Hv as [[-> Hv]|[-> Hv]]; cbn [Z.eqb]; destruct (list_eq_dec Z.eq_dec ct cmp) as [E|E]; try contradiction.
  - change (1 =? 1) with true. cbv iota. rewrite splice_full by (rewrite sub_length; lia). now rewrite P1.
  - reflexivity.
Qed.

Lemma avx2_dec_timeout lv fuel : forall (JJ : Junk) ss ct sk,
  length ct = KYBER_CIPHERTEXTBYTES lv -> bytes ct -> length sk = KYBER_SECRETKEYBYTES lv -> bytes sk ->
  ~ enough_all lv fuel (ek_rho (PS lv) (dk_ek (PS lv) sk)) ->
  crypto_kem_dec_avx2 lv fuel ss ct sk = Timeout.
Proof.
  intros JJ ss ct sk Lct Bct Lsk Bsk HN. rewrite avx2_dec_split.
  destruct (avx2_dec_prefix_wp lv) as [T1 W1].
  destruct hash_g_wp as [T2 W2].
  destruct (sk_parts lv sk Lsk) as (E1 & E2 & E3 & E4).
  assert (ES : KYBER_SECRETKEYBYTES lv = (KYBER_INDCPA_SECRETKEYBYTES lv + (KYBER_INDCPA_PUBLICKEYBYTES lv + (32 + 32)))%nat).
  { unfold KYBER_SECRETKEYBYTES. change KYBER_SYMBYTES with 32%nat. lia. }
  eapply bind_timeout; [apply (W1 JJ ct sk Lct Bct Lsk Bsk)|]. intros buf Eb.
  pose proof (Decrypt_length (PS lv) (dk_pke (PS lv) sk) ct) as Lm.
  pose proof (Decrypt_bytes (PS lv) (dk_pke (PS lv) sk) ct) as Bm.
  set (m := K_PKE_Decrypt (PS lv) (dk_pke (PS lv) sk) ct) in *. clearbody m.
  assert (Lh : length (dk_h (PS lv) sk) = 32%nat) by (rewrite E3; apply sub_length; lia).
  assert (Lb : length buf = 64%nat) by (rewrite Eb, app_length; lia).
  assert (Bb : bytes buf) by (rewrite Eb; apply bnd_app; [exact Bm|rewrite E3; now apply bnd_sub]).
  eapply bind_timeout; [apply (W2 JJ buf Lb Bb)|]. intros kr Ek.
  apply bind_timeout_l. apply indcpa_enc_avx2_timeout; [lia|lia|exact Bsk|]. now rewrite <- E2.
Qed.
