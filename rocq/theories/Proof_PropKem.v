(** * C01-C09 and C29-C31 in the form of the property statements *)
From Coq Require Import ZArith List Lia Bool.
From Verif Require Import CMonad WP Proof_Base Levels Model_Params Model_Indcpa Model_Randombytes Model_Kem Spec_FIPS202 Spec_FIPS203 Spec_Noise
  Proof_Hash Proof_Bits Proof_GenMatrix Proof_Indcpa Proof_Keypair Proof_Encrypt Proof_Fuel Proof_Kem Proof_Correct Proof_Api
  Proof_Nonce Proof_Random Vocab Vocab_Code Proof_Vocab Proof_PropPoly Proof_PropSample Proof_PropUtil.
Import ListNotations.
Open Scope Z_scope.
Local Opaque SHA3_256 SHA3_512 SHAKE256 SHAKE128.

Lemma byte_array_of m l : byte_array m l -> bytes_of m l. Proof. auto. Qed.
Lemma of_byte_array m l : bytes_of m l -> byte_array m l. Proof. auto. Qed.
Lemma byte_array_app m1 m2 a b : byte_array m1 a -> byte_array m2 b -> byte_array (m1 + m2) (a ++ b).
Proof. intros [L1 B1] [L2 B2]. split; [rewrite app_length; lia|]. now apply all_bytes_app. Qed.
Lemma firstn_l {A} m (a b : list A) : length a = m -> firstn m (a ++ b) = a.
Proof. intros <-. rewrite firstn_app, Nat.sub_diag, firstn_all. apply app_nil_r. Qed.
Lemma skipn_l {A} m (a b : list A) : length a = m -> skipn m (a ++ b) = b.
Proof. intros <-. rewrite skipn_app, Nat.sub_diag, skipn_all. reflexivity. Qed.

Section Coins.
Variables d z : list Z.
Hypothesis Hd : byte_array 32 d.
Hypothesis Hz : byte_array 32 z.
Lemma coins_d : firstn 32 (d ++ z) = d. Proof. apply firstn_l, Hd. Qed.
Lemma coins_z : firstn 32 (skipn 32 (d ++ z)) = z.
Proof. rewrite skipn_l by apply Hd. rewrite <- (app_nil_r z) at 1. apply firstn_l, Hz. Qed.
Lemma coins_of : bytes_of 64 (d ++ z). Proof. apply (byte_array_app 32 32); assumption. Qed.
End Coins.

(** ** C02 *)
Lemma keypair_sound' lv fuel (JJ : Junk) pk sk d z ek dk r T :
  length pk = KYBER_PUBLICKEYBYTES lv -> length sk = KYBER_SECRETKEYBYTES lv -> byte_array 32 d -> byte_array 32 z ->
  crypto_kem_keypair_derand lv fuel pk sk (d ++ z) = Ok (ek, dk, r) T ->
  r = 0 /\ KeyGen_internal (PS lv) d z ek dk.
Proof.
  intros Lp Ls Hd Hz E. pose proof (keypair_sound lv fuel JJ pk sk (d ++ z) ek dk r T Lp Ls (coins_of d z Hd Hz) E) as S.
  now rewrite coins_d, coins_z in S.
Qed.
Lemma keypair_complete' lv d z ek dk : byte_array 32 d -> byte_array 32 z -> KeyGen_internal (PS lv) d z ek dk ->
  exists fuel0, forall fuel (JJ : Junk) pk sk, (fuel0 <= fuel)%nat ->
    length pk = KYBER_PUBLICKEYBYTES lv -> length sk = KYBER_SECRETKEYBYTES lv ->
    exists T, crypto_kem_keypair_derand lv fuel pk sk (d ++ z) = Ok (ek, dk, 0) T.
Proof.
  intros Hd Hz K. apply (keypair_complete lv (d ++ z) ek dk (coins_of d z Hd Hz)). now rewrite coins_d, coins_z.
Qed.

(** ** C01 *)
Lemma kem_agreement' lv d z m f1 f2 f3 (J1 J2 J3 : Junk) pk sk ct ss ss3 pk' sk' ct' ss' ss'' r1 r2 r3 T1 T2 T3 A :
  length pk = KYBER_PUBLICKEYBYTES lv -> length sk = KYBER_SECRETKEYBYTES lv ->
  length ct = KYBER_CIPHERTEXTBYTES lv -> length ss = 32%nat -> length ss3 = 32%nat ->
  byte_array 32 d -> byte_array 32 z -> byte_array 32 m ->
  @crypto_kem_keypair_derand J1 lv f1 pk sk (d ++ z) = Ok (pk', sk', r1) T1 ->
  @crypto_kem_enc_derand J2 lv f2 ct ss pk' m = Ok (ct', ss', r2) T2 ->
  @crypto_kem_dec J3 lv f3 ss3 ct' sk' = Ok (ss'', r3) T3 ->
  is_matrix (PS lv) (keygen_rho (PS lv) d) A ->
  noise_decodes m (decryption_noise (PS lv) A d m (skipn 32 (SHA3_512 (m ++ SHA3_256 pk')))) ->
  ss'' = ss'.
Proof.
  intros Lp Ls Lc Lss Lss3 Hd Hz Hm E1 E2 E3 HA HN.
  refine (kem_agreement lv (d ++ z) m f1 f2 f3 J1 J2 J3 pk sk ct ss ss3 pk' sk' ct' ss' ss'' r1 r2 r3 T1 T2 T3 Lp Ls Lc Lss Lss3
    (coins_of d z Hd Hz) Hm E1 E2 _ E3).
  intros A' HA'. rewrite coins_d in * by exact Hd. rewrite (is_matrix_functional _ _ _ _ HA' HA). exact HN.
Qed.
(** ... and the three runs finish if the matrix expansion terminates *)
Lemma kem_agreement_total lv d z m A ek dk K c :
  byte_array 32 d -> byte_array 32 z -> byte_array 32 m ->
  is_matrix (PS lv) (keygen_rho (PS lv) d) A ->
  KeyGen_internal (PS lv) d z ek dk -> Encaps_internal (PS lv) ek m K c ->
  noise_decodes m (decryption_noise (PS lv) A d m (skipn 32 (SHA3_512 (m ++ SHA3_256 ek)))) ->
  exists fuel0, forall fuel (JJ : Junk) pk sk ct ss ss3, (fuel0 <= fuel)%nat ->
    length pk = KYBER_PUBLICKEYBYTES lv -> length sk = KYBER_SECRETKEYBYTES lv ->
    length ct = KYBER_CIPHERTEXTBYTES lv -> length ss = 32%nat -> length ss3 = 32%nat ->
    exists T1 T2 T3,
      crypto_kem_keypair_derand lv fuel pk sk (d ++ z) = Ok (ek, dk, 0) T1 /\
      crypto_kem_enc_derand lv fuel ct ss ek m = Ok (c, K, 0) T2 /\
      crypto_kem_dec lv fuel ss3 c dk = Ok (K, 0) T3.
Proof.
  intros Hd Hz Hm HA HK HE HN. destruct (keypair_complete' lv d z ek dk Hd Hz HK) as [f1 F1].
  destruct (KeyGen_internal_sizes lv d z ek dk Hz HK) as [Be Bd].
  destruct (Encaps_internal_sizes lv ek m K c HE) as [BK Bc].
  destruct (enc_complete lv ek m K c Be Hm HE) as [f2 F2].
  destruct (dk_layout lv d z ek dk Hz HK) as (A' & HA' & _ & _ & Eek & _ & _ & Erho).
  assert (HEn : exists f, enough_all lv f (ek_rho (PS lv) (dk_ek (PS lv) dk))).
  { rewrite Eek, Erho. exact (is_matrix_enough lv _ A' HA'). }
  destruct HEn as [f3 F3]. pose proof (dec_internal lv f3 c dk F3) as HD.
  assert (EK : kem_dec lv f3 (ek_rho (PS lv) (dk_ek (PS lv) dk)) c dk = K).
  { apply (ML_KEM_agreement lv d z m ek dk K c _ Hz Hm HK HE); [|exact HD].
    intros A2 HA2. rewrite (is_matrix_functional _ _ _ _ HA2 HA). exact HN. }
  rewrite EK in HD. destruct (dec_complete lv c dk K Bc Bd HD) as [f4 F4].
  exists (f1 + f2 + f4)%nat. intros fuel JJ pk sk ct ss ss3 Hf Lp Ls Lc Lss Lss3.
  destruct (F1 fuel JJ pk sk ltac:(lia) Lp Ls) as [T1 E1]. destruct (F2 fuel JJ ct ss ltac:(lia) Lc Lss) as [T2 E2].
  destruct (F4 fuel JJ ss3 ltac:(lia) Lss3) as [T3 E3]. exists T1, T2, T3. auto.
Qed.

Lemma sk_sizes lv : KYBER_INDCPA_SECRETKEYBYTES lv = (384 * k (PS lv))%nat /\
  KYBER_SECRETKEYBYTES lv = (384 * k (PS lv) + (384 * k (PS lv) + (32 + (32 + 32))))%nat /\
  KYBER_PUBLICKEYBYTES lv = (384 * k (PS lv) + 32)%nat.
Proof. destruct lv; repeat split. Qed.

(** ** The PKE layer, exact-length buffers *)
Lemma sub_all (l : list Z) m : length l = m -> sub l 0 m = l.
Proof. intros <-. unfold sub. cbn [skipn]. apply firstn_all. Qed.

Lemma pke_keypair lv fuel (JJ : Junk) pk sk d pk' sk' T :
  length pk = KYBER_INDCPA_PUBLICKEYBYTES lv -> length sk = KYBER_INDCPA_SECRETKEYBYTES lv -> byte_array 32 d ->
  indcpa_keypair_derand lv fuel pk 0 sk 0 d 0 = Ok (pk', sk') T ->
  exists A, is_matrix (PS lv) (keygen_rho (PS lv) d) A /\ (pk', sk') = K_PKE_KeyGen (PS lv) A d.
Proof.
  intros Lp Ls Hd E. pose proof (bytes_of_bytes _ _ Hd) as Bd. destruct Hd as [Ld _].
  pose proof (sub_all d 32 Ld) as SD.
  destruct (enough_all_dec lv fuel (keygen_rho (PS lv) d)) as [HE|HE].
  - destruct (indcpa_keypair_derand_wp lv fuel _ 0 0 0 HE) as [T' W].
    destruct (W JJ pk sk d) as (v & Ev & EQ); rewrite ?SD; auto; try (rewrite ?Lp, ?Ls, ?Ld; apply le_n).
    rewrite Ev in E. injection E as E _. rewrite EQ, SD in E. cbv zeta in E.
    exists (matrix lv fuel (keygen_rho (PS lv) d) false). split; [now apply matrix_is_matrix|].
    assert (M : is_matrix (PS lv) (keygen_rho (PS lv) d) (matrix lv fuel (keygen_rho (PS lv) d) false)) by now apply matrix_is_matrix.
    rewrite !splice0_all in E.
    + rewrite <- E. symmetry. apply surjective_pairing.
    + rewrite Ls, KeyGen_dk_length. reflexivity.
    + rewrite Lp, KeyGen_ek_length by apply M. reflexivity.
  - rewrite indcpa_keypair_derand_timeout in E; try discriminate; rewrite ?SD, ?Ld; auto.
Qed.
Lemma pke_enc lv fuel (JJ : Junk) c m pk r c' T :
  length c = KYBER_CIPHERTEXTBYTES lv -> byte_array 32 m -> byte_array (KYBER_INDCPA_PUBLICKEYBYTES lv) pk -> byte_array 32 r ->
  indcpa_enc lv fuel c 0 m 0 pk 0 r 0 = Ok c' T ->
  exists A, is_matrix (PS lv) (ek_rho (PS lv) pk) A /\ c' = K_PKE_Encrypt (PS lv) A pk m r.
Proof.
  intros Lc Hm Hp Hr E. pose proof (bytes_of_bytes _ _ Hm) as Bm. destruct Hm as [Lm _].
  pose proof (bytes_of_bytes _ _ Hp) as Bp. destruct Hp as [Lp _]. pose proof (bytes_of_bytes _ _ Hr) as Br. destruct Hr as [Lr _].
  pose proof (sub_all m 32 Lm) as Sm. pose proof (sub_all r 32 Lr) as Sr. pose proof (sub_all pk _ Lp) as Sp.
  assert (G1 : (0 + 32 <= length m)%nat) by (rewrite Lm; apply le_n).
  assert (G2 : (0 + KYBER_INDCPA_PUBLICKEYBYTES lv <= length pk)%nat) by (rewrite Lp; apply le_n).
  assert (G3 : (0 + 32 <= length r)%nat) by (rewrite Lr; apply le_n).
  assert (G4 : (0 + KYBER_CIPHERTEXTBYTES lv <= length c)%nat) by (rewrite Lc; apply le_n).
  destruct (enough_all_dec lv fuel (ek_rho (PS lv) pk)) as [HE|HE].
  - destruct (indcpa_enc_wp lv fuel _ 0 0 0 0 HE) as [T' W].
    assert (G5 : ek_rho (PS lv) (sub pk 0 (KYBER_INDCPA_PUBLICKEYBYTES lv)) = ek_rho (PS lv) pk) by (now rewrite Sp).
    destruct (W JJ c m pk r G4 G1 Bm G2 Bp G3 Br G5) as (v & Ev & EQ).
    rewrite Ev in E. injection E as E _. rewrite EQ, Sm, Sr, Sp in E.
    exists (matrix lv fuel (ek_rho (PS lv) pk) false). split; [now apply matrix_is_matrix|].
    rewrite splice0_all in E by (rewrite Encrypt_length; exact Lc). now symmetry.
  - assert (G5 : ~ enough_all lv fuel (ek_rho (PS lv) (sub pk 0 (KYBER_INDCPA_PUBLICKEYBYTES lv)))) by (now rewrite Sp).
    rewrite (indcpa_enc_timeout lv fuel 0 0 0 0 JJ c m pk r G1 Bm G2 Bp G5) in E. discriminate.
Qed.
Lemma pke_dec lv : exists T, forall (JJ : Junk) m c sk,
  length m = 32%nat -> byte_array (KYBER_CIPHERTEXTBYTES lv) c -> byte_array (KYBER_INDCPA_SECRETKEYBYTES lv) sk ->
  indcpa_dec lv m 0 c 0 sk 0 = Ok (K_PKE_Decrypt (PS lv) sk c) T.
Proof.
  destruct (indcpa_dec_wp lv 0 0 0) as [T W]. exists T. intros JJ m c sk Lm Hc Hs.
  pose proof (bytes_of_bytes _ _ Hc) as Bc. destruct Hc as [Lc _]. pose proof (bytes_of_bytes _ _ Hs) as Bs. destruct Hs as [Ls _].
  assert (G1 : (0 + 32 <= length m)%nat) by (rewrite Lm; apply le_n).
  assert (G2 : (0 + KYBER_CIPHERTEXTBYTES lv <= length c)%nat) by (rewrite Lc; apply le_n).
  assert (G3 : (0 + KYBER_INDCPA_SECRETKEYBYTES lv <= length sk)%nat) by (rewrite Ls; apply le_n).
  destruct (W JJ m c sk G1 G2 Bc G3 Bs) as (v & Ev & EQ).
  rewrite Ev, EQ, (sub_all c _ Lc), (sub_all sk _ Ls), splice0_all; [reflexivity|]. rewrite Lm, Decrypt_length. reflexivity.
Qed.

Lemma ek_rho_KeyGen lv A d : length A = k (PS lv) -> ek_rho (PS lv) (fst (K_PKE_KeyGen (PS lv) A d)) = keygen_rho (PS lv) d.
Proof.
  intros LA. pose proof (KeyGen_ek_length lv A d LA) as L. unfold K_PKE_KeyGen in *. cbv zeta in *. cbn [fst] in *.
  unfold ek_rho. apply skipn_l. rewrite app_length in L.
  assert (LR : length (keygen_rho (PS lv) d) = 32%nat).
  { unfold keygen_rho, G. rewrite firstn_length, SHA3_512_length. reflexivity. }
  rewrite LR in L. unfold KYBER_PUBLICKEYBYTES, KYBER_INDCPA_PUBLICKEYBYTES, KYBER_SYMBYTES in L.
  change (KYBER_POLYVECBYTES lv) with (KYBER_INDCPA_SECRETKEYBYTES lv) in L.
  rewrite (proj1 (sk_sizes lv)) in L. lia.
Qed.

(** Decryption undoes encryption exactly when the noise is inside the window *)
Lemma pke_correct lv fuel f2 (J1 J2 J3 : Junk) pk sk c mbuf d m r pk' sk' c' T1 T2 A :
  length pk = KYBER_INDCPA_PUBLICKEYBYTES lv -> length sk = KYBER_INDCPA_SECRETKEYBYTES lv -> length c = KYBER_CIPHERTEXTBYTES lv ->
  length mbuf = 32%nat -> byte_array 32 d -> byte_array 32 m -> byte_array 32 r ->
  @indcpa_keypair_derand J1 lv fuel pk 0 sk 0 d 0 = Ok (pk', sk') T1 ->
  @indcpa_enc J2 lv f2 c 0 m 0 pk' 0 r 0 = Ok c' T2 ->
  is_matrix (PS lv) (keygen_rho (PS lv) d) A ->
  exists m' T3, @indcpa_dec J3 lv mbuf 0 c' 0 sk' 0 = Ok m' T3 /\
    (m' = m <-> noise_decodes m (decryption_noise (PS lv) A d m r)).
Proof.
  intros Lp Ls Lc Lmb Hd Hm Hr E1 E2 HA.
  destruct (pke_keypair lv fuel J1 pk sk d pk' sk' T1 Lp Ls Hd E1) as (A' & HA' & EK).
  rewrite (is_matrix_functional _ _ _ _ HA' HA) in EK. clear A' HA'.
  assert (LA : length A = k (PS lv)) by apply HA.
  assert (Ek : pk' = fst (K_PKE_KeyGen (PS lv) A d)) by (now rewrite <- EK).
  assert (Es : sk' = snd (K_PKE_KeyGen (PS lv) A d)) by (now rewrite <- EK).
  assert (Hpk : byte_array (KYBER_INDCPA_PUBLICKEYBYTES lv) pk').
  { rewrite Ek. apply bytes_bytes_of; [now apply KeyGen_ek_length|apply KeyGen_ek_bytes]. }
  assert (Hsk : byte_array (KYBER_INDCPA_SECRETKEYBYTES lv) sk').
  { rewrite Es. apply bytes_bytes_of; [apply KeyGen_dk_length|apply KeyGen_dk_bytes]. }
  destruct (pke_enc lv f2 J2 c m pk' r c' T2 Lc Hm Hpk Hr E2) as (A' & HA' & EC).
  assert (Er : ek_rho (PS lv) pk' = keygen_rho (PS lv) d).
  { rewrite Ek. now apply ek_rho_KeyGen. }
  rewrite Er in HA'. rewrite (is_matrix_functional _ _ _ _ HA' HA) in EC. clear A' HA'.
  destruct (pke_dec lv) as [T3 D]. 
  assert (Hc' : byte_array (KYBER_CIPHERTEXTBYTES lv) c').
  { rewrite EC. apply bytes_bytes_of; [apply Encrypt_length|apply Encrypt_bytes]. }
  exists (K_PKE_Decrypt (PS lv) sk' c'), T3. split; [exact (D J3 mbuf c' sk' Lmb Hc' Hsk)|].
  rewrite EC, Es, Ek. apply Decrypt_Encrypt_iff; [exact LA| |now apply bytes_of_bytes in Hm|apply Hm].
  intros i Hi. now apply HA.
Qed.

(** ** The parts of a secret key *)
Section SecretKey.
Variables (lv : level) (s t rho h z : list Z).
Hypothesis Hs : byte_array (384 * k (PS lv)) s.
Hypothesis Ht : byte_array (384 * k (PS lv)) t.
Hypothesis Hr : byte_array 32 rho.
Hypothesis Hh : byte_array 32 h.
Hypothesis Hz : byte_array 32 z.
Lemma sk_of : bytes_of (KYBER_SECRETKEYBYTES lv) (s ++ t ++ rho ++ h ++ z).
Proof. rewrite (proj1 (proj2 (sk_sizes lv))). repeat (apply byte_array_app; [assumption|]). exact Hz. Qed.
Lemma sk_s : dk_pke (PS lv) (s ++ t ++ rho ++ h ++ z) = s. Proof. apply firstn_l, Hs. Qed.
Lemma sk_ek : dk_ek (PS lv) (s ++ t ++ rho ++ h ++ z) = t ++ rho.
Proof.
  unfold dk_ek. rewrite skipn_l by apply Hs. rewrite app_assoc. apply firstn_l. rewrite app_length.
  destruct Ht as [-> _], Hr as [-> _]. reflexivity.
Qed.
Lemma sk_rho : ek_rho (PS lv) (t ++ rho) = rho. Proof. apply skipn_l, Ht. Qed.
Lemma sk_h : dk_h (PS lv) (s ++ t ++ rho ++ h ++ z) = h.
Proof.
  unfold dk_h. replace (s ++ t ++ rho ++ h ++ z) with ((s ++ t ++ rho) ++ h ++ z) by (now rewrite <- !app_assoc).
  rewrite skipn_l; [apply firstn_l, Hh|]. rewrite !app_length. destruct Hs as [-> _], Ht as [-> _], Hr as [-> _]. lia.
Qed.
Lemma sk_z : dk_z (PS lv) (s ++ t ++ rho ++ h ++ z) = z.
Proof.
  unfold dk_z. replace (s ++ t ++ rho ++ h ++ z) with ((s ++ t ++ rho ++ h) ++ z) by (now rewrite <- !app_assoc).
  rewrite skipn_l; [rewrite <- (app_nil_r z) at 1; apply firstn_l, Hz|]. rewrite !app_length.
  destruct Hs as [-> _], Ht as [-> _], Hr as [-> _], Hh as [-> _]. lia.
Qed.
End SecretKey.

(** ** C05 *)
Lemma implicit_rejection lv fuel (JJ : Junk) ss ct s t rho h z ss' r T :
  length ss = 32%nat -> byte_array (KYBER_CIPHERTEXTBYTES lv) ct ->
  byte_array (384 * k (PS lv)) s -> byte_array (384 * k (PS lv)) t -> byte_array 32 rho -> byte_array 32 h -> byte_array 32 z ->
  crypto_kem_dec lv fuel ss ct (s ++ t ++ rho ++ h ++ z) = Ok (ss', r) T ->
  r = 0 /\ exists A, is_matrix (PS lv) rho A /\
    let m := K_PKE_Decrypt (PS lv) s ct in
    let Kr := SHA3_512 (m ++ h) in
    let ct' := K_PKE_Encrypt (PS lv) A (t ++ rho) m (skipn 32 Kr) in
    (ct = ct' /\ ss' = firstn 32 Kr) \/ (ct <> ct' /\ ss' = SHAKE256 (z ++ ct) 32).
Proof.
  intros Lss Hc Hs Ht Hr Hh Hz E. destruct (dec_sound lv fuel JJ ss ct _ ss' r T Lss Hc (sk_of lv s t rho h z Hs Ht Hr Hh Hz) E) as [-> D].
  split; [reflexivity|]. destruct D as (A & HA & D).
  rewrite sk_ek, sk_s, sk_h, sk_z in * by assumption. rewrite sk_rho in HA by assumption.
  exists A. split; [exact HA|]. cbv zeta in *. destruct D as [D1 D2].
  match type of D1 with ct = ?x -> _ => destruct (list_eq_dec Z.eq_dec ct x) as [e|e] end; [left|right]; auto.
Qed.

(** ** C06 *)
Lemma published_sizes lv :
  (KYBER_PUBLICKEYBYTES lv, KYBER_SECRETKEYBYTES lv, KYBER_CIPHERTEXTBYTES lv)
  = (api_PUBLICKEYBYTES lv, api_SECRETKEYBYTES lv, api_CIPHERTEXTBYTES lv).
Proof. destruct lv; reflexivity. Qed.

Lemma secret_key_layout lv fuel (JJ : Junk) pk sk d z ek dk r T :
  length pk = api_PUBLICKEYBYTES lv -> length sk = api_SECRETKEYBYTES lv -> byte_array 32 d -> byte_array 32 z ->
  crypto_kem_keypair_derand lv fuel pk sk (d ++ z) = Ok (ek, dk, r) T ->
  byte_array (api_PUBLICKEYBYTES lv) ek /\ byte_array (api_SECRETKEYBYTES lv) dk /\
  exists A, is_matrix (PS lv) (keygen_rho (PS lv) d) A /\ ek = fst (K_PKE_KeyGen (PS lv) A d) /\
    dk = snd (K_PKE_KeyGen (PS lv) A d) ++ ek ++ SHA3_256 ek ++ z.
Proof.
  intros Lp Ls Hd Hz E. pose proof (published_sizes lv) as PZ. injection PZ as P1 P2 P3. rewrite <- P1, <- P2 in *.
  destruct (keypair_sound' lv fuel JJ pk sk d z ek dk r T Lp Ls Hd Hz E) as [_ HK].
  destruct (KeyGen_internal_sizes lv d z ek dk Hz HK) as [B1 B2]. split; [exact B1|]. split; [exact B2|].
  destruct HK as (A & p & HA & E1 & ->). exists A. rewrite <- E1. auto.
Qed.

Lemma enc_sizes lv fuel (JJ : Junk) ct ss pk m c K r T :
  length ct = api_CIPHERTEXTBYTES lv -> length ss = 32%nat -> byte_array (api_PUBLICKEYBYTES lv) pk -> byte_array 32 m ->
  crypto_kem_enc_derand lv fuel ct ss pk m = Ok (c, K, r) T ->
  byte_array (api_CIPHERTEXTBYTES lv) c /\ byte_array 32 K.
Proof.
  pose proof (published_sizes lv) as PZ. injection PZ as P1 P2 P3. rewrite <- P1, <- P3. intros Lc Ls Hp Hm E.
  destruct (enc_sound lv fuel JJ ct ss pk m c K r T Lc Ls Hp Hm E) as [_ HE].
  destruct (Encaps_internal_sizes lv pk m K c HE). auto.
Qed.
Lemma dec_sizes lv fuel (JJ : Junk) ss ct sk K r T :
  length ss = 32%nat -> byte_array (api_CIPHERTEXTBYTES lv) ct -> byte_array (api_SECRETKEYBYTES lv) sk ->
  crypto_kem_dec lv fuel ss ct sk = Ok (K, r) T -> byte_array 32 K.
Proof.
  pose proof (published_sizes lv) as PZ. injection PZ as P1 P2 P3. rewrite <- P2, <- P3. intros Ls Hc Hk E.
  destruct (dec_sound lv fuel JJ ss ct sk K r T Ls Hc Hk E) as [_ HD]. exact (Decaps_internal_sizes lv sk ct K HD).
Qed.

(** The outputs do not depend on what was in the buffers, nor on
    uninitialised locals *)
Lemma keypair_overwrites lv f1 f2 (J1 J2 : Junk) pk1 sk1 pk2 sk2 d z v1 v2 T1 T2 :
  length pk1 = KYBER_PUBLICKEYBYTES lv -> length sk1 = KYBER_SECRETKEYBYTES lv ->
  length pk2 = KYBER_PUBLICKEYBYTES lv -> length sk2 = KYBER_SECRETKEYBYTES lv -> byte_array 32 d -> byte_array 32 z ->
  @crypto_kem_keypair_derand J1 lv f1 pk1 sk1 (d ++ z) = Ok v1 T1 ->
  @crypto_kem_keypair_derand J2 lv f2 pk2 sk2 (d ++ z) = Ok v2 T2 -> v1 = v2.
Proof.
  intros L1 L2 L3 L4 Hd Hz E1 E2. destruct v1 as [[e1 k1] r1], v2 as [[e2 k2] r2].
  destruct (keypair_sound' lv f1 J1 _ _ d z _ _ _ _ L1 L2 Hd Hz E1) as [-> K1].
  destruct (keypair_sound' lv f2 J2 _ _ d z _ _ _ _ L3 L4 Hd Hz E2) as [-> K2].
  destruct (KeyGen_internal_functional _ _ _ _ _ _ _ K1 K2) as [-> ->]. reflexivity.
Qed.
Lemma enc_overwrites lv f1 f2 (J1 J2 : Junk) ct1 ss1 ct2 ss2 pk m v1 v2 T1 T2 :
  length ct1 = KYBER_CIPHERTEXTBYTES lv -> length ss1 = 32%nat -> length ct2 = KYBER_CIPHERTEXTBYTES lv -> length ss2 = 32%nat ->
  byte_array (KYBER_PUBLICKEYBYTES lv) pk -> byte_array 32 m ->
  @crypto_kem_enc_derand J1 lv f1 ct1 ss1 pk m = Ok v1 T1 ->
  @crypto_kem_enc_derand J2 lv f2 ct2 ss2 pk m = Ok v2 T2 -> v1 = v2.
Proof.
  intros L1 L2 L3 L4 Hp Hm E1 E2. destruct v1 as [[e1 k1] r1], v2 as [[e2 k2] r2].
  destruct (enc_sound lv f1 J1 _ _ _ _ _ _ _ _ L1 L2 Hp Hm E1) as [-> K1].
  destruct (enc_sound lv f2 J2 _ _ _ _ _ _ _ _ L3 L4 Hp Hm E2) as [-> K2].
  destruct (Encaps_internal_functional _ _ _ _ _ _ _ K1 K2) as [-> ->]. reflexivity.
Qed.
Lemma dec_overwrites lv f1 f2 (J1 J2 : Junk) ss1 ss2 ct sk v1 v2 T1 T2 :
  length ss1 = 32%nat -> length ss2 = 32%nat -> byte_array (KYBER_CIPHERTEXTBYTES lv) ct -> byte_array (KYBER_SECRETKEYBYTES lv) sk ->
  @crypto_kem_dec J1 lv f1 ss1 ct sk = Ok v1 T1 -> @crypto_kem_dec J2 lv f2 ss2 ct sk = Ok v2 T2 -> v1 = v2.
Proof.
  intros L1 L2 Hc Hk E1 E2. destruct v1 as [e1 r1], v2 as [e2 r2].
  destruct (dec_sound lv f1 J1 _ _ _ _ _ _ L1 Hc Hk E1) as [-> K1].
  destruct (dec_sound lv f2 J2 _ _ _ _ _ _ L2 Hc Hk E2) as [-> K2].
  now rewrite (Decaps_internal_functional _ _ _ _ _ K1 K2).
Qed.

(** ** C07 *)
Lemma keypair_safe lv fuel (JJ : Junk) pk sk coins :
  length pk = KYBER_PUBLICKEYBYTES lv -> length sk = KYBER_SECRETKEYBYTES lv -> byte_array 64 coins ->
  (forall u, crypto_kem_keypair_derand lv fuel pk sk coins <> UB u) /\ crypto_kem_keypair_derand lv fuel pk sk coins <> Abort /\
  (crypto_kem_keypair_derand lv fuel pk sk coins = Timeout <->
   ~ exists ek dk T, crypto_kem_keypair_derand lv fuel pk sk coins = Ok (ek, dk, 0) T).
Proof.
  intros Lp Ls Hc. destruct (keypair_outcome lv fuel JJ pk sk coins Lp Ls Hc) as [(a & b & T & E)|E]; rewrite E.
  - refine (conj _ (conj _ (conj _ _))); try discriminate; intros NE; exfalso; apply NE; eauto.
  - refine (conj _ (conj _ (conj _ _))); try discriminate; intros; try reflexivity. intros (a & b & T & X). discriminate.
Qed.
Lemma enc_safe lv fuel (JJ : Junk) ct ss pk m :
  length ct = KYBER_CIPHERTEXTBYTES lv -> length ss = 32%nat -> byte_array (KYBER_PUBLICKEYBYTES lv) pk -> byte_array 32 m ->
  (forall u, crypto_kem_enc_derand lv fuel ct ss pk m <> UB u) /\ crypto_kem_enc_derand lv fuel ct ss pk m <> Abort /\
  (crypto_kem_enc_derand lv fuel ct ss pk m = Timeout <->
   ~ exists c K T, crypto_kem_enc_derand lv fuel ct ss pk m = Ok (c, K, 0) T).
Proof.
  intros Lp Ls Hp Hm. destruct (enc_outcome lv fuel JJ ct ss pk m Lp Ls Hp Hm) as [(a & b & T & E)|E]; rewrite E.
  - refine (conj _ (conj _ (conj _ _))); try discriminate; intros NE; exfalso; apply NE; eauto.
  - refine (conj _ (conj _ (conj _ _))); try discriminate; intros; try reflexivity. intros (a & b & T & X). discriminate.
Qed.
Lemma dec_safe lv fuel (JJ : Junk) ss ct sk :
  length ss = 32%nat -> byte_array (KYBER_CIPHERTEXTBYTES lv) ct -> byte_array (KYBER_SECRETKEYBYTES lv) sk ->
  (forall u, crypto_kem_dec lv fuel ss ct sk <> UB u) /\ crypto_kem_dec lv fuel ss ct sk <> Abort /\
  (crypto_kem_dec lv fuel ss ct sk = Timeout <-> ~ exists K T, crypto_kem_dec lv fuel ss ct sk = Ok (K, 0) T).
Proof.
  intros Ls Hc Hk. destruct (dec_outcome lv fuel JJ ss ct sk Ls Hc Hk) as [(a & T & E)|E]; rewrite E.
  - refine (conj _ (conj _ (conj _ _))); try discriminate; intros NE; exfalso; apply NE; eauto.
  - refine (conj _ (conj _ (conj _ _))); try discriminate; intros; try reflexivity. intros (a & T & X). discriminate.
Qed.

(** ** C08 *)
Lemma dec_timing lv fuel rho : byte_array 32 rho ->
  (exists T, forall (JJ : Junk) ss ct s t h z, length ss = 32%nat -> byte_array (KYBER_CIPHERTEXTBYTES lv) ct ->
     byte_array (384 * k (PS lv)) s -> byte_array (384 * k (PS lv)) t -> byte_array 32 h -> byte_array 32 z ->
     exists v, crypto_kem_dec lv fuel ss ct (s ++ t ++ rho ++ h ++ z) = Ok v T) \/
  (forall (JJ : Junk) ss ct s t h z, length ss = 32%nat -> byte_array (KYBER_CIPHERTEXTBYTES lv) ct ->
     byte_array (384 * k (PS lv)) s -> byte_array (384 * k (PS lv)) t -> byte_array 32 h -> byte_array 32 z ->
     crypto_kem_dec lv fuel ss ct (s ++ t ++ rho ++ h ++ z) = Timeout).
Proof.
  intros Hr. destruct (enough_all_dec lv fuel rho) as [HE|HE]; [left|right].
  - destruct (dec_wp lv fuel rho HE) as [T W]. exists T. intros JJ ss ct s t h z Ls Hc Hs Ht Hh Hz.
    pose proof (sk_of lv s t rho h z Hs Ht Hr Hh Hz) as Hk.
    destruct (W JJ ss ct (s ++ t ++ rho ++ h ++ z) Ls (proj1 Hc) (bytes_of_bytes _ _ Hc) (proj1 Hk) (bytes_of_bytes _ _ Hk)) as (v & E & _).
    + rewrite sk_ek by assumption. now apply sk_rho.
    + eauto.
  - intros JJ ss ct s t h z Ls Hc Hs Ht Hh Hz.
    pose proof (sk_of lv s t rho h z Hs Ht Hr Hh Hz) as Hk.
    apply dec_timeout; [apply Hc|now apply bytes_of_bytes in Hc|apply Hk|now apply bytes_of_bytes in Hk|].
    rewrite sk_ek by assumption. rewrite sk_rho by assumption. exact HE.
Qed.

(** ** C09 *)
Lemma keypair_timing lv fuel rho :
  (exists T, forall (JJ : Junk) pk sk d z, length pk = KYBER_PUBLICKEYBYTES lv -> length sk = KYBER_SECRETKEYBYTES lv ->
     byte_array 32 d -> byte_array 32 z -> keygen_rho (PS lv) d = rho ->
     exists v, crypto_kem_keypair_derand lv fuel pk sk (d ++ z) = Ok v T) \/
  (forall (JJ : Junk) pk sk d z, length pk = KYBER_PUBLICKEYBYTES lv -> length sk = KYBER_SECRETKEYBYTES lv ->
     byte_array 32 d -> byte_array 32 z -> keygen_rho (PS lv) d = rho ->
     crypto_kem_keypair_derand lv fuel pk sk (d ++ z) = Timeout).
Proof.
  destruct (enough_all_dec lv fuel rho) as [HE|HE]; [left|right].
  - destruct (keypair_derand_wp lv fuel rho HE) as [T W]. exists T. intros JJ pk sk d z Lp Ls Hd Hz Er.
    pose proof (coins_of d z Hd Hz) as Hc.
    destruct (W JJ pk sk (d ++ z) Lp Ls (proj1 Hc) (bytes_of_bytes _ _ Hc)) as (v & E & _).
    + change (sub (d ++ z) 0 32) with (firstn 32 (d ++ z)). now rewrite coins_d.
    + eauto.
  - intros JJ pk sk d z Lp Ls Hd Hz Er. pose proof (coins_of d z Hd Hz) as Hc.
    apply keypair_derand_timeout; [apply Hc|now apply bytes_of_bytes in Hc|].
    change (sub (d ++ z) 0 32) with (firstn 32 (d ++ z)). rewrite coins_d by assumption. now rewrite Er.
Qed.
(** The seed is published: it is the last 32 bytes of the public key *)
Lemma published_seed lv fuel (JJ : Junk) pk sk d z ek dk r T :
  length pk = KYBER_PUBLICKEYBYTES lv -> length sk = KYBER_SECRETKEYBYTES lv -> byte_array 32 d -> byte_array 32 z ->
  crypto_kem_keypair_derand lv fuel pk sk (d ++ z) = Ok (ek, dk, r) T ->
  exists t, length t = (384 * k (PS lv))%nat /\ ek = t ++ keygen_rho (PS lv) d.
Proof.
  intros Lp Ls Hd Hz E. destruct (keypair_sound' lv fuel JJ pk sk d z ek dk r T Lp Ls Hd Hz E) as [_ HK].
  destruct (KeyGen_internal_sizes lv d z ek dk Hz HK) as [[Lek _] _].
  destruct (dk_layout lv d z ek dk Hz HK) as (A & _ & _ & _ & _ & _ & _ & Er).
  exists (firstn (384 * k (PS lv)) ek). split.
  - rewrite firstn_length, Lek, (proj2 (proj2 (sk_sizes lv))). lia.
  - rewrite <- Er. unfold ek_rho. symmetry. apply firstn_skipn.
Qed.

Lemma pk_of lv t rho : byte_array (384 * k (PS lv)) t -> byte_array 32 rho -> bytes_of (KYBER_PUBLICKEYBYTES lv) (t ++ rho).
Proof. intros. rewrite (proj2 (proj2 (sk_sizes lv))). now apply byte_array_app. Qed.

Lemma enc_timing lv fuel rho : byte_array 32 rho ->
  (exists T, forall (JJ : Junk) ct ss t m, length ct = KYBER_CIPHERTEXTBYTES lv -> length ss = 32%nat ->
     byte_array (384 * k (PS lv)) t -> byte_array 32 m ->
     exists v, crypto_kem_enc_derand lv fuel ct ss (t ++ rho) m = Ok v T) \/
  (forall (JJ : Junk) ct ss t m, length ct = KYBER_CIPHERTEXTBYTES lv -> length ss = 32%nat ->
     byte_array (384 * k (PS lv)) t -> byte_array 32 m ->
     crypto_kem_enc_derand lv fuel ct ss (t ++ rho) m = Timeout).
Proof.
  intros Hr. destruct (enough_all_dec lv fuel rho) as [HE|HE]; [left|right].
  - destruct (enc_derand_wp lv fuel rho HE) as [T W]. exists T. intros JJ ct ss t m Lc Ls Ht Hm.
    pose proof (pk_of lv t rho Ht Hr) as Hk.
    destruct (W JJ ct ss (t ++ rho) m Lc Ls (proj1 Hk) (bytes_of_bytes _ _ Hk) (proj1 Hm) (bytes_of_bytes _ _ Hm)) as (v & E & _).
    + now apply sk_rho.
    + eauto.
  - intros JJ ct ss t m Lc Ls Ht Hm. pose proof (pk_of lv t rho Ht Hr) as Hk.
    apply enc_derand_timeout; [apply Hk|now apply bytes_of_bytes in Hk|apply Hm|now apply bytes_of_bytes in Hm|].
    rewrite sk_rho by assumption. exact HE.
Qed.

(** ** C29 *)
Lemma keypair_ret lv fuel (JJ : Junk) pk sk coins ek dk r T :
  crypto_kem_keypair_derand lv fuel pk sk coins = Ok (ek, dk, r) T -> r = 0.
Proof.
  intros E. unfold crypto_kem_keypair_derand in E. apply bind_ok in E as ([p s] & ? & ? & _ & E & _).
  repeat (apply bind_ok in E as (? & ? & ? & _ & E & _)). cbn in E. now injection E.
Qed.
Lemma enc_ret lv fuel (JJ : Junk) ct ss pk coins c K r T :
  crypto_kem_enc_derand lv fuel ct ss pk coins = Ok (c, K, r) T -> r = 0.
Proof.
  intros E. unfold crypto_kem_enc_derand in E. cbv zeta in E.
  repeat (apply bind_ok in E as (? & ? & ? & _ & E & _)). cbn in E. now injection E.
Qed.

Lemma keypair_random lv fuel (JJ : Junk) sched pk sk ek dk r rest T : kernel_ok sched 64 ->
  crypto_kem_keypair lv fuel sched pk sk = Ok (ek, dk, r, rest) T ->
  r = 0 /\ exists used T', sched = used ++ rest /\ ~ In Failed used /\ shortest used 64 /\ byte_array 64 (delivered used) /\
    crypto_kem_keypair_derand lv fuel pk sk (delivered used) = Ok (ek, dk, 0) T'.
Proof.
  intros HK E. unfold crypto_kem_keypair in E. change (2 * KYBER_SYMBYTES)%nat with 64%nat in E.
  pose proof (randombytes_spec sched (local 64) 0 64 HK) as S. rewrite local_length in S. specialize (S (le_n _)).
  apply bind_ok in E as ([co rest'] & T1 & T2 & E1 & E & _). rewrite E1 in S. destruct S as (used & -> & NF & L & Ec & Sh).
  rewrite overwrite_full in Ec by (now rewrite L, local_length). subst co.
  apply bind_ok in E as ([[x y] z] & T3 & T4 & E2 & E & _). cbn in E. injection E as -> -> <- -> _.
  split; [reflexivity|]. exists used, T3. rewrite E2. pose proof (keypair_ret _ _ _ _ _ _ _ _ _ _ E2) as ->.
  refine (conj eq_refl (conj NF (conj Sh (conj (conj L _) eq_refl)))). intros b. eapply kernel_ok_bytes; eauto.
Qed.
Lemma keypair_random_derand lv fuel (JJ : Junk) used rest pk sk : kernel_ok (used ++ rest) 64 -> ~ In Failed used ->
  shortest used 64 -> length (delivered used) = 64%nat ->
  match crypto_kem_keypair_derand lv fuel pk sk (delivered used) with
  | Ok (ek, dk, _) _ => exists T, crypto_kem_keypair lv fuel (used ++ rest) pk sk = Ok (ek, dk, 0, rest) T
  | UB u => crypto_kem_keypair lv fuel (used ++ rest) pk sk = UB u
  | Timeout => crypto_kem_keypair lv fuel (used ++ rest) pk sk = Timeout
  | Abort => crypto_kem_keypair lv fuel (used ++ rest) pk sk = Abort
  end.
Proof. apply kem_keypair_random. Qed.
Lemma keypair_random_failure lv fuel (JJ : Junk) used rest pk sk : kernel_ok (used ++ Failed :: rest) 64 -> ~ In Failed used ->
  (length (delivered used) < 64)%nat -> crypto_kem_keypair lv fuel (used ++ Failed :: rest) pk sk = Abort.
Proof.
  intros HK NF L. unfold crypto_kem_keypair. change (2 * KYBER_SYMBYTES)%nat with 64%nat.
  rewrite (randombytes_fails used rest (local 64) 0 64 HK); auto; try (rewrite local_length; lia).
Qed.

Lemma enc_random lv fuel (JJ : Junk) sched ct ss pk c K r rest T : kernel_ok sched 32 ->
  crypto_kem_enc lv fuel sched ct ss pk = Ok (c, K, r, rest) T ->
  r = 0 /\ exists used T', sched = used ++ rest /\ ~ In Failed used /\ shortest used 32 /\ byte_array 32 (delivered used) /\
    crypto_kem_enc_derand lv fuel ct ss pk (delivered used) = Ok (c, K, 0) T'.
Proof.
  intros HK E. unfold crypto_kem_enc in E. change KYBER_SYMBYTES with 32%nat in E.
  pose proof (randombytes_spec sched (local 32) 0 32 HK) as S. rewrite local_length in S. specialize (S (le_n _)).
  apply bind_ok in E as ([co rest'] & T1 & T2 & E1 & E & _). rewrite E1 in S. destruct S as (used & -> & NF & L & Ec & Sh).
  rewrite overwrite_full in Ec by (now rewrite L, local_length). subst co.
  apply bind_ok in E as ([[x y] z] & T3 & T4 & E2 & E & _). cbn in E. injection E as -> -> <- -> _.
  split; [reflexivity|]. exists used, T3. rewrite E2. pose proof (enc_ret _ _ _ _ _ _ _ _ _ _ _ E2) as ->.
  refine (conj eq_refl (conj NF (conj Sh (conj (conj L _) eq_refl)))). intros b. eapply kernel_ok_bytes; eauto.
Qed.
Lemma enc_random_derand lv fuel (JJ : Junk) used rest ct ss pk : kernel_ok (used ++ rest) 32 -> ~ In Failed used ->
  shortest used 32 -> length (delivered used) = 32%nat ->
  match crypto_kem_enc_derand lv fuel ct ss pk (delivered used) with
  | Ok (c, K, _) _ => exists T, crypto_kem_enc lv fuel (used ++ rest) ct ss pk = Ok (c, K, 0, rest) T
  | UB u => crypto_kem_enc lv fuel (used ++ rest) ct ss pk = UB u
  | Timeout => crypto_kem_enc lv fuel (used ++ rest) ct ss pk = Timeout
  | Abort => crypto_kem_enc lv fuel (used ++ rest) ct ss pk = Abort
  end.
Proof. apply kem_enc_random. Qed.
Lemma enc_random_failure lv fuel (JJ : Junk) used rest ct ss pk : kernel_ok (used ++ Failed :: rest) 32 -> ~ In Failed used ->
  (length (delivered used) < 32)%nat -> crypto_kem_enc lv fuel (used ++ Failed :: rest) ct ss pk = Abort.
Proof.
  intros HK NF L. unfold crypto_kem_enc. change KYBER_SYMBYTES with 32%nat.
  rewrite (randombytes_fails used rest (local 32) 0 32 HK); auto; try (rewrite local_length; lia).
Qed.

(** ** C31 *)
Lemma keypair_nonces lv fuel (JJ : Junk) pk sk coins v T : crypto_kem_keypair_derand lv fuel pk sk coins = Ok v T ->
  nonces_used T = map Z.of_nat (seq 0 (2 * KYBER_K lv)) /\ NoDup (nonces_used T) /\ forall n, In n (nonces_used T) -> 0 <= n < 256.
Proof.
  intros E. pose proof (logs_elim _ _ _ _ (l_keypair_derand lv fuel pk sk coins) E) as N. change (nonces T) with (nonces_used T) in N.
  rewrite N. split; [reflexivity|]. apply nonces_distinct. destruct lv; cbn; lia.
Qed.
Lemma enc_nonces lv fuel (JJ : Junk) ct ss pk m v T : crypto_kem_enc_derand lv fuel ct ss pk m = Ok v T ->
  nonces_used T = map Z.of_nat (seq 0 (2 * KYBER_K lv + 1)) /\ NoDup (nonces_used T) /\ forall n, In n (nonces_used T) -> 0 <= n < 256.
Proof.
  intros E. pose proof (logs_elim _ _ _ _ (l_enc_derand lv fuel ct ss pk m) E) as N. change (nonces T) with (nonces_used T) in N.
  rewrite N. split; [reflexivity|]. apply nonces_distinct. destruct lv; cbn; lia.
Qed.
Lemma dec_nonces lv fuel (JJ : Junk) ss ct sk v T : crypto_kem_dec lv fuel ss ct sk = Ok v T ->
  nonces_used T = map Z.of_nat (seq 0 (2 * KYBER_K lv + 1)) /\ NoDup (nonces_used T) /\ forall n, In n (nonces_used T) -> 0 <= n < 256.
Proof.
  intros E. pose proof (logs_elim _ _ _ _ (l_dec lv fuel ss ct sk) E) as N. change (nonces T) with (nonces_used T) in N.
  rewrite N. split; [reflexivity|]. apply nonces_distinct. destruct lv; cbn; lia.
Qed.

(** ** C30 *)
Lemma decode_vec12_range lv t x : In x (decode_vec (PS lv) 12 t) -> length x = 256%nat /\ forall i, (i < 256)%nat -> 0 <= nth i x 0 < dmod 12.
Proof.
  intros Hx. unfold decode_vec in Hx. apply in_map_iff in Hx as (i & <- & _). split; [apply ByteDecode_length|].
  intros j Hj. rewrite ByteDecode_field by exact Hj. apply Z.mod_pos_bound. reflexivity.
Qed.
Lemma canonical_key_array lv t : byte_array (384 * k (PS lv)) (canonical_key (PS lv) t).
Proof.
  split.
  - unfold canonical_key. rewrite (flat_map_len _ _ 384).
    + rewrite decode_vec_length. lia.
    + intros x Hx. apply (ByteEncode_256 12). now apply decode_vec12_range in Hx.
  - intros x Hx. unfold canonical_key in Hx. apply in_flat_map in Hx as (f & _ & Hx). destruct (In_nth _ _ 0 Hx) as (i & _ & <-).
    apply ByteEncode_byte.
Qed.
Lemma canonical_key_decode lv t : decode_vec (PS lv) 12 (canonical_key (PS lv) t) = decode_vec (PS lv) 12 t.
Proof.
  pose proof (decode_vec_encode (PS lv) 12 (decode_vec (PS lv) 12 t) []) as D. rewrite app_nil_r in D.
  fold (canonical_key (PS lv) t) in D. rewrite firstn_all2 in D by (rewrite (proj1 (canonical_key_array lv t)); lia).
  apply D; [apply decode_vec_length|apply decode_vec12_range].
Qed.

Lemma enc_sees_reduced_key lv fuel (JJ : Junk) c m t rho coins :
  length c = KYBER_CIPHERTEXTBYTES lv -> byte_array 32 m -> byte_array (384 * k (PS lv)) t -> byte_array 32 rho -> byte_array 32 coins ->
  indcpa_enc lv fuel c 0 m 0 (t ++ rho) 0 coins 0
  = indcpa_enc lv fuel c 0 m 0 (canonical_key (PS lv) t ++ rho) 0 coins 0.
Proof.
  intros Lc Hm Ht Hr Hc. pose proof (pk_of lv t rho Ht Hr) as K1. pose proof (pk_of lv _ rho (canonical_key_array lv t) Hr) as K2.
  assert (S1 : sub (t ++ rho) 0 (KYBER_INDCPA_PUBLICKEYBYTES lv) = t ++ rho).
  { change (firstn (KYBER_INDCPA_PUBLICKEYBYTES lv) (t ++ rho) = t ++ rho). apply firstn_all2. rewrite (proj1 K1).
    unfold KYBER_PUBLICKEYBYTES. lia. }
  assert (S2 : sub (canonical_key (PS lv) t ++ rho) 0 (KYBER_INDCPA_PUBLICKEYBYTES lv) = canonical_key (PS lv) t ++ rho).
  { change (firstn (KYBER_INDCPA_PUBLICKEYBYTES lv) (canonical_key (PS lv) t ++ rho) = canonical_key (PS lv) t ++ rho). apply firstn_all2.
    rewrite (proj1 K2). unfold KYBER_PUBLICKEYBYTES. lia. }
  pose proof (bytes_of_bytes _ _ K1) as B1. pose proof (bytes_of_bytes _ _ K2) as B2.
  destruct K1 as [L1 _], K2 as [L2 _]. unfold KYBER_PUBLICKEYBYTES in *.
  pose proof (bytes_of_bytes _ _ Hm) as Bm. pose proof (bytes_of_bytes _ _ Hc) as Bc. destruct Hm as [Lm _], Hc as [Lc' _].
  pose proof (canonical_key_array lv t) as HT.
  destruct (enough_all_dec lv fuel rho) as [HE|HE].
  - destruct (indcpa_enc_wp lv fuel rho 0 0 0 0 HE) as [T W].
    destruct (W JJ c m (t ++ rho) coins) as (v1 & E1 & V1); try lia; try assumption.
    { rewrite S1. now apply sk_rho. }
    destruct (W JJ c m (canonical_key (PS lv) t ++ rho) coins) as (v2 & E2 & V2); try lia; try assumption.
    { rewrite S2. now apply sk_rho. }
    rewrite E1, E2, V1, V2, S1, S2.
    assert (EQ : forall A x y, K_PKE_Encrypt (PS lv) A (t ++ rho) x y = K_PKE_Encrypt (PS lv) A (canonical_key (PS lv) t ++ rho) x y).
    { intros A x y. unfold K_PKE_Encrypt.
      rewrite (firstn_l _ t rho (proj1 Ht)), (firstn_l _ (canonical_key (PS lv) t) rho (proj1 HT)), canonical_key_decode. reflexivity. }
    rewrite EQ. reflexivity.
  - assert (G1 : (0 + 32 <= length m)%nat) by (rewrite Lm; lia).
    assert (G2 : (0 + KYBER_INDCPA_PUBLICKEYBYTES lv <= length (t ++ rho))%nat) by (rewrite L1; apply le_n).
    assert (G3 : (0 + KYBER_INDCPA_PUBLICKEYBYTES lv <= length (canonical_key (PS lv) t ++ rho))%nat) by (rewrite L2; apply le_n).
    assert (X1 : indcpa_enc lv fuel c 0 m 0 (t ++ rho) 0 coins 0 = Timeout).
    { refine (indcpa_enc_timeout lv fuel 0 0 0 0 JJ c m (t ++ rho) coins G1 Bm G2 B1 _).
      rewrite S1, (sk_rho lv t rho Ht). exact HE. }
    assert (X2 : indcpa_enc lv fuel c 0 m 0 (canonical_key (PS lv) t ++ rho) 0 coins 0 = Timeout).
    { refine (indcpa_enc_timeout lv fuel 0 0 0 0 JJ c m (canonical_key (PS lv) t ++ rho) coins G1 Bm G3 B2 _).
      rewrite S2, (sk_rho lv (canonical_key (PS lv) t) rho HT). exact HE. }
    rewrite X1. symmetry. exact X2.
Qed.

(** A key that is the encoding of no vector over Z_q *)
Lemma canonical_range lv v t : length v = k (PS lv) ->
  (forall f, In f v -> length f = 256%nat /\ in_range 0 (q - 1) f) -> t = flat_map (ByteEncode 12) v -> canonical_key (PS lv) t = t.
Proof.
  intros L R ->. unfold canonical_key. f_equal.
  pose proof (decode_vec_encode (PS lv) 12 v []) as D. rewrite app_nil_r in D.
  assert (Lf : length (flat_map (ByteEncode 12) v) = (32 * 12 * k (PS lv))%nat).
  { rewrite (flat_map_len _ _ 384); [rewrite L; lia|]. intros x Hx. apply (ByteEncode_256 12). now apply R. }
  rewrite firstn_all2 in D by (rewrite Lf; apply le_n). apply D; [exact L|].
  intros x Hx. destruct (R x Hx) as [Lx Rx]. split; [exact Lx|]. intros i Hi. change (dmod 12) with q.
  assert (0 <= nth i x 0 <= q - 1) by (apply Rx, nth_In; lia). lia.
Qed.
Lemma ff_not_canonical lv v : length v = k (PS lv) ->
  (forall f, In f v -> length f = 256%nat /\ in_range 0 (q - 1) f) -> flat_map (ByteEncode 12) v <> repeat 255 (384 * k (PS lv)).
Proof.
  intros L R E. symmetry in E. pose proof (canonical_range lv v _ L R E) as C. apply (f_equal (hd 0)) in C. revert C.
  assert (K : k (PS lv) = S (pred (k (PS lv)))) by (destruct lv; reflexivity). unfold canonical_key, decode_vec. rewrite K.
  cbn [seq map flat_map]. rewrite Nat.mul_0_r. cbn [skipn].
  replace (384 * S (pred (k (PS lv))))%nat with (384 + 384 * pred (k (PS lv)))%nat by lia. rewrite repeat_app.
  rewrite (firstn_l (32 * 12) (repeat 255 384)) by apply repeat_length.
  generalize (repeat 255 (384 * pred (k (PS lv)))). intros rest C.
  match type of C with hd 0 (?x ++ ?y) = _ => assert (HX : hd 0 (x ++ y) = hd 0 x) end.
  { destruct (ByteEncode 12 (ByteDecode 12 (repeat 255 384))) eqn:E2; [|reflexivity]. exfalso.
    apply (f_equal (@length Z)) in E2. rewrite ByteEncode_256 in E2 by apply ByteDecode_length. discriminate. }
  rewrite HX in C. revert C. vm_compute. discriminate.
Qed.

(** ... is accepted, whatever the matrix seed, the message and the parameter set *)
Lemma noncanonical_accepted lv rho A m : byte_array 32 rho -> is_matrix (PS lv) rho A -> byte_array 32 m ->
  exists fuel0, forall fuel (JJ : Junk) ct ss, (fuel0 <= fuel)%nat -> length ct = KYBER_CIPHERTEXTBYTES lv -> length ss = 32%nat ->
    exists c K T, crypto_kem_enc_derand lv fuel ct ss (repeat 255 (384 * k (PS lv)) ++ rho) m = Ok (c, K, 0) T.
Proof.
  intros Hr HA Hm.
  assert (Ht : byte_array (384 * k (PS lv)) (repeat 255 (384 * k (PS lv)))).
  { split; [apply repeat_length|]. intros x Hx. apply repeat_spec in Hx. lia. }
  pose proof (pk_of lv _ _ Ht Hr) as Hk.
  destruct (enc_complete lv _ m (firstn 32 (SHA3_512 (m ++ SHA3_256 (repeat 255 (384 * k (PS lv)) ++ rho))))
     (K_PKE_Encrypt (PS lv) A (repeat 255 (384 * k (PS lv)) ++ rho) m (skipn 32 (SHA3_512 (m ++ SHA3_256 (repeat 255 (384 * k (PS lv)) ++ rho))))) Hk Hm)
     as [f0 F].
  - exists A. rewrite sk_rho by exact Ht. split; [exact HA|]. split; reflexivity.
  - exists f0. intros fuel JJ ct ss Hf Lc Ls. destruct (F fuel JJ ct ss Hf Lc Ls) as [T E]. eauto.
Qed.

(** ** C33: completeness of the PKE layer *)
Lemma pke_keypair_complete lv d A : byte_array 32 d -> is_matrix (PS lv) (keygen_rho (PS lv) d) A ->
  exists fuel0, forall fuel (JJ : Junk) pk sk, (fuel0 <= fuel)%nat ->
    length pk = KYBER_INDCPA_PUBLICKEYBYTES lv -> length sk = KYBER_INDCPA_SECRETKEYBYTES lv ->
    exists T, indcpa_keypair_derand lv fuel pk 0 sk 0 d 0 = Ok (K_PKE_KeyGen (PS lv) A d) T.
Proof.
  intros Hd HA. destruct (is_matrix_enough lv _ A HA) as [f0 F0]. exists f0. intros fuel JJ pk sk Lf Lp Ls.
  pose proof (enough_all_mono lv f0 fuel _ Lf F0) as HE. pose proof Hd as Hd0.
  pose proof (bytes_of_bytes _ _ Hd) as Bd. destruct Hd as [Ld _]. pose proof (sub_all d 32 Ld) as SD.
  destruct (indcpa_keypair_derand_wp lv fuel _ 0 0 0 HE) as [T' W].
  destruct (W JJ pk sk d) as (v & Ev & EQ); rewrite ?SD; auto; try (rewrite ?Lp, ?Ls, ?Ld; apply le_n).
  exists T'. destruct v as [pk' sk']. destruct (pke_keypair lv fuel JJ pk sk d pk' sk' T' Lp Ls Hd0 Ev) as (A' & HA' & E).
  rewrite (is_matrix_functional _ _ _ _ HA' HA) in E. rewrite <- E. exact Ev.
Qed.

Lemma pke_enc_complete lv m pk r A : byte_array 32 m -> byte_array (KYBER_INDCPA_PUBLICKEYBYTES lv) pk -> byte_array 32 r ->
  is_matrix (PS lv) (ek_rho (PS lv) pk) A ->
  exists fuel0, forall fuel (JJ : Junk) c, (fuel0 <= fuel)%nat -> length c = KYBER_CIPHERTEXTBYTES lv ->
    exists T, indcpa_enc lv fuel c 0 m 0 pk 0 r 0 = Ok (K_PKE_Encrypt (PS lv) A pk m r) T.
Proof.
  intros Hm Hp Hr HA. destruct (is_matrix_enough lv _ A HA) as [f0 F0]. exists f0. intros fuel JJ c Lf Lc.
  pose proof (enough_all_mono lv f0 fuel _ Lf F0) as HE.
  pose proof (bytes_of_bytes _ _ Hm) as Bm. pose proof (bytes_of_bytes _ _ Hp) as Bp. pose proof (bytes_of_bytes _ _ Hr) as Br.
  assert (G1 : (0 + 32 <= length m)%nat) by (rewrite (proj1 Hm); apply le_n).
  assert (G2 : (0 + KYBER_INDCPA_PUBLICKEYBYTES lv <= length pk)%nat) by (rewrite (proj1 Hp); apply le_n).
  assert (G3 : (0 + 32 <= length r)%nat) by (rewrite (proj1 Hr); apply le_n).
  assert (G4 : (0 + KYBER_CIPHERTEXTBYTES lv <= length c)%nat) by (rewrite Lc; apply le_n).
  destruct (indcpa_enc_wp lv fuel _ 0 0 0 0 HE) as [T' W].
  assert (G5 : ek_rho (PS lv) (sub pk 0 (KYBER_INDCPA_PUBLICKEYBYTES lv)) = ek_rho (PS lv) pk) by (now rewrite (sub_all pk _ (proj1 Hp))).
  destruct (W JJ c m pk r G4 G1 Bm G2 Bp G3 Br G5) as (v & Ev & _).
  exists T'. destruct (pke_enc lv fuel JJ c m pk r v T' Lc Hm Hp Hr Ev) as (A' & HA' & E).
  rewrite (is_matrix_functional _ _ _ _ HA' HA) in E. rewrite <- E. exact Ev.
Qed.

(** ** Divergence and pairs of runs, over the parts of the arguments *)
Lemma keypair_diverges' lv d z : byte_array 32 d -> byte_array 32 z ->
  (forall A, ~ is_matrix (PS lv) (keygen_rho (PS lv) d) A) ->
  forall fuel (JJ : Junk) pk sk, crypto_kem_keypair_derand lv fuel pk sk (d ++ z) = Timeout.
Proof.
  intros Hd Hz N. apply (keypair_diverges lv (d ++ z) (coins_of d z Hd Hz)). rewrite coins_d by exact Hd. exact N.
Qed.

Lemma dec_trace' lv rho f1 f2 (J1 J2 : Junk) ss1 ct1 s1 t1 h1 z1 ss2 ct2 s2 t2 h2 z2 v1 v2 T1 T2 : byte_array 32 rho ->
  length ss1 = 32%nat -> byte_array (KYBER_CIPHERTEXTBYTES lv) ct1 -> byte_array (384 * k (PS lv)) s1 ->
  byte_array (384 * k (PS lv)) t1 -> byte_array 32 h1 -> byte_array 32 z1 ->
  length ss2 = 32%nat -> byte_array (KYBER_CIPHERTEXTBYTES lv) ct2 -> byte_array (384 * k (PS lv)) s2 ->
  byte_array (384 * k (PS lv)) t2 -> byte_array 32 h2 -> byte_array 32 z2 ->
  @crypto_kem_dec J1 lv f1 ss1 ct1 (s1 ++ t1 ++ rho ++ h1 ++ z1) = Ok v1 T1 ->
  @crypto_kem_dec J2 lv f2 ss2 ct2 (s2 ++ t2 ++ rho ++ h2 ++ z2) = Ok v2 T2 -> T1 = T2.
Proof.
  intros Hr L1 C1 S1 U1 H1 Z1 L2 C2 S2 U2 H2 Z2.
  apply (dec_trace lv f1 f2 J1 J2); auto.
  - exact (sk_of lv s1 t1 rho h1 z1 S1 U1 Hr H1 Z1).
  - exact (sk_of lv s2 t2 rho h2 z2 S2 U2 Hr H2 Z2).
  - rewrite (sk_ek lv s1 t1 rho h1 z1), (sk_ek lv s2 t2 rho h2 z2) by assumption.
    rewrite (sk_rho lv t1 rho), (sk_rho lv t2 rho) by assumption. reflexivity.
Qed.

Lemma keypair_trace' lv f1 f2 (J1 J2 : Junk) pk1 sk1 d1 z1 pk2 sk2 d2 z2 v1 v2 T1 T2 :
  length pk1 = KYBER_PUBLICKEYBYTES lv -> length sk1 = KYBER_SECRETKEYBYTES lv -> byte_array 32 d1 -> byte_array 32 z1 ->
  length pk2 = KYBER_PUBLICKEYBYTES lv -> length sk2 = KYBER_SECRETKEYBYTES lv -> byte_array 32 d2 -> byte_array 32 z2 ->
  keygen_rho (PS lv) d1 = keygen_rho (PS lv) d2 ->
  @crypto_kem_keypair_derand J1 lv f1 pk1 sk1 (d1 ++ z1) = Ok v1 T1 ->
  @crypto_kem_keypair_derand J2 lv f2 pk2 sk2 (d2 ++ z2) = Ok v2 T2 -> T1 = T2.
Proof.
  intros P1 S1 D1 Z1 P2 S2 D2 Z2 E. apply (keypair_trace lv f1 f2 J1 J2); auto.
  - exact (coins_of d1 z1 D1 Z1).
  - exact (coins_of d2 z2 D2 Z2).
  - rewrite (coins_d d1 z1), (coins_d d2 z2) by assumption. exact E.
Qed.

Lemma enc_trace' lv rho f1 f2 (J1 J2 : Junk) ct1 ss1 t1 m1 ct2 ss2 t2 m2 v1 v2 T1 T2 : byte_array 32 rho ->
  length ct1 = KYBER_CIPHERTEXTBYTES lv -> length ss1 = 32%nat -> byte_array (384 * k (PS lv)) t1 -> byte_array 32 m1 ->
  length ct2 = KYBER_CIPHERTEXTBYTES lv -> length ss2 = 32%nat -> byte_array (384 * k (PS lv)) t2 -> byte_array 32 m2 ->
  @crypto_kem_enc_derand J1 lv f1 ct1 ss1 (t1 ++ rho) m1 = Ok v1 T1 ->
  @crypto_kem_enc_derand J2 lv f2 ct2 ss2 (t2 ++ rho) m2 = Ok v2 T2 -> T1 = T2.
Proof.
  intros Hr C1 S1 U1 M1 C2 S2 U2 M2. apply (enc_trace lv f1 f2 J1 J2); auto.
  - exact (pk_of lv t1 rho U1 Hr).
  - exact (pk_of lv t2 rho U2 Hr).
  - rewrite (sk_rho lv t1 rho), (sk_rho lv t2 rho) by assumption. reflexivity.
Qed.
