(** * The KEM functions against the FIPS 203 internal algorithms: every run,
    every amount of fuel *)
From Coq Require Import ZArith List Lia Bool.
From Verif Require Import CMonad WP Proof_Base Levels Model_Params Model_Kem Spec_FIPS202 Spec_FIPS203 Spec_Noise
  Proof_Hash Proof_Bits Proof_GenMatrix Proof_Indcpa Proof_Keypair Proof_Encrypt Proof_Fuel Proof_Kem Proof_Correct.
Import ListNotations.
Open Scope Z_scope.
Local Opaque SHA3_256 SHA3_512 SHAKE256 SHAKE128.

(** ** Byte arrays *)
(** [bytes_of m l]: an unsigned char array of length [m] *)
Definition bytes_of (m : nat) (l : list Z) : Prop := length l = m /\ forall x, In x l -> 0 <= x < 256.

Lemma bytes_of_bytes m l : bytes_of m l -> bytes l.
Proof. intros [_ B] i Hi. assert (0 <= nth i l 0 < 256) by (apply B; now apply nth_In). lia. Qed.
Lemma bytes_bytes_of m l : length l = m -> bytes l -> bytes_of m l.
Proof.
  intros L B. split; [exact L|]. intros x Hx. apply (In_nth _ _ 0) in Hx. destruct Hx as (i & Hi & <-).
  specialize (B i Hi). lia.
Qed.

Lemma enough_all_mono lv f f' rho : (f <= f')%nat -> enough_all lv f rho -> enough_all lv f' rho.
Proof. intros L E i j Hi Hj. eapply enough_mono; [exact L|]. now apply E. Qed.

(** ** Key generation *)
Lemma firstn_sub {A} (l : list A) m : firstn m l = sub l 0 m. Proof. reflexivity. Qed.

Lemma keypair_internal lv fuel coins : enough_all lv fuel (keygen_rho (PS lv) (firstn 32 coins)) ->
  let K := kem_keypair lv fuel (keygen_rho (PS lv) (firstn 32 coins)) coins in
  KeyGen_internal (PS lv) (firstn 32 coins) (firstn 32 (skipn 32 coins)) (fst K) (snd K).
Proof.
  intros HE. cbv zeta. unfold kem_keypair. cbv zeta. cbn [fst snd].
  exists (matrix lv fuel (keygen_rho (PS lv) (firstn 32 coins)) false). eexists. split; [now apply matrix_is_matrix|].
  split; [symmetry; apply surjective_pairing|reflexivity].
Qed.

Lemma KeyGen_internal_functional P d z ek dk ek' dk' :
  KeyGen_internal P d z ek dk -> KeyGen_internal P d z ek' dk' -> ek = ek' /\ dk = dk'.
Proof.
  intros (A & p & M & E & D) (A' & p' & M' & E' & D').
  rewrite (is_matrix_functional _ _ _ _ M' M) in E'. rewrite <- E in E'. injection E' as -> ->. subst. auto.
Qed.

Lemma keypair_sound lv fuel (JJ : Junk) pk sk coins ek dk r T :
  length pk = KYBER_PUBLICKEYBYTES lv -> length sk = KYBER_SECRETKEYBYTES lv -> bytes_of 64 coins ->
  crypto_kem_keypair_derand lv fuel pk sk coins = Ok (ek, dk, r) T ->
  r = 0 /\ KeyGen_internal (PS lv) (firstn 32 coins) (firstn 32 (skipn 32 coins)) ek dk.
Proof.
  intros Lp Ls Hc E. pose proof (bytes_of_bytes _ _ Hc) as Bc. destruct Hc as [Lc _].
  destruct (enough_all_dec lv fuel (keygen_rho (PS lv) (firstn 32 coins))) as [HE|HE].
  - destruct (keypair_derand_wp lv fuel _ HE) as [T' W]. destruct (W JJ pk sk coins Lp Ls Lc Bc eq_refl) as (v & Ev & ->).
    rewrite Ev in E. injection E as <- <- <- <-. split; [reflexivity|]. exact (keypair_internal lv fuel coins HE).
  - rewrite keypair_derand_timeout in E by auto. discriminate.
Qed.

Lemma keypair_complete lv coins ek dk : bytes_of 64 coins ->
  KeyGen_internal (PS lv) (firstn 32 coins) (firstn 32 (skipn 32 coins)) ek dk ->
  exists fuel0, forall fuel (JJ : Junk) pk sk, (fuel0 <= fuel)%nat ->
    length pk = KYBER_PUBLICKEYBYTES lv -> length sk = KYBER_SECRETKEYBYTES lv ->
    exists T, crypto_kem_keypair_derand lv fuel pk sk coins = Ok (ek, dk, 0) T.
Proof.
  intros Hc HK. pose proof (bytes_of_bytes _ _ Hc) as Bc. pose proof Hc as [Lc _].
  assert (HM : exists A, is_matrix (PS lv) (keygen_rho (PS lv) (firstn 32 coins)) A) by (destruct HK as (A & p & M & _); eauto).
  destruct HM as [A HM]. destruct (is_matrix_enough lv _ A HM) as [f0 F0]. exists f0. intros fuel JJ pk sk Lf Lp Ls.
  pose proof (enough_all_mono lv f0 fuel _ Lf F0) as HE.
  destruct (keypair_derand_wp lv fuel _ HE) as [T' W]. destruct (W JJ pk sk coins Lp Ls Lc Bc eq_refl) as (v & Ev & Ew).
  exists T'. rewrite Ev, Ew. f_equal. f_equal. rewrite (surjective_pairing (kem_keypair _ _ _ _)).
  destruct (KeyGen_internal_functional _ _ _ _ _ _ _ (keypair_internal lv fuel coins HE) HK) as [-> ->]. reflexivity.
Qed.

(** Every run finishes or is out of fuel: no undefined behaviour, no abort *)
Lemma keypair_outcome lv fuel (JJ : Junk) pk sk coins :
  length pk = KYBER_PUBLICKEYBYTES lv -> length sk = KYBER_SECRETKEYBYTES lv -> bytes_of 64 coins ->
  (exists ek dk T, crypto_kem_keypair_derand lv fuel pk sk coins = Ok (ek, dk, 0) T) \/
  crypto_kem_keypair_derand lv fuel pk sk coins = Timeout.
Proof.
  intros Lp Ls Hc. pose proof (bytes_of_bytes _ _ Hc) as Bc. destruct Hc as [Lc _].
  destruct (enough_all_dec lv fuel (keygen_rho (PS lv) (firstn 32 coins))) as [HE|HE]; [left|right; now apply keypair_derand_timeout].
  destruct (keypair_derand_wp lv fuel _ HE) as [T' W]. destruct (W JJ pk sk coins Lp Ls Lc Bc eq_refl) as (v & Ev & Ew).
  rewrite Ev, Ew. rewrite (surjective_pairing (kem_keypair _ _ _ _)). eauto.
Qed.

(** ... and only a non-terminating SampleNTT keeps it from finishing *)
Lemma keypair_diverges lv coins : bytes_of 64 coins ->
  (forall A, ~ is_matrix (PS lv) (keygen_rho (PS lv) (firstn 32 coins)) A) ->
  forall fuel (JJ : Junk) pk sk, crypto_kem_keypair_derand lv fuel pk sk coins = Timeout.
Proof.
  intros Hc HN fuel JJ pk sk. pose proof (bytes_of_bytes _ _ Hc) as Bc. destruct Hc as [Lc _].
  apply keypair_derand_timeout; auto. intros HE. exact (HN _ (matrix_is_matrix lv fuel _ HE)).
Qed.

Lemma keypair_trace lv f1 f2 (J1 J2 : Junk) pk1 sk1 c1 pk2 sk2 c2 v1 v2 T1 T2 :
  length pk1 = KYBER_PUBLICKEYBYTES lv -> length sk1 = KYBER_SECRETKEYBYTES lv -> bytes_of 64 c1 ->
  length pk2 = KYBER_PUBLICKEYBYTES lv -> length sk2 = KYBER_SECRETKEYBYTES lv -> bytes_of 64 c2 ->
  keygen_rho (PS lv) (firstn 32 c1) = keygen_rho (PS lv) (firstn 32 c2) ->
  @crypto_kem_keypair_derand J1 lv f1 pk1 sk1 c1 = Ok v1 T1 -> @crypto_kem_keypair_derand J2 lv f2 pk2 sk2 c2 = Ok v2 T2 ->
  T1 = T2.
Proof.
  intros Lp1 Ls1 H1 Lp2 Ls2 H2 ER E1 E2.
  pose proof (bytes_of_bytes _ _ H1) as B1. destruct H1 as [L1 _].
  pose proof (bytes_of_bytes _ _ H2) as B2. destruct H2 as [L2 _].
  assert (HE2 : enough_all lv f2 (keygen_rho (PS lv) (firstn 32 c2))).
  { destruct (enough_all_dec lv f2 (keygen_rho (PS lv) (firstn 32 c2))); [assumption|].
    rewrite keypair_derand_timeout in E2 by auto. discriminate. }
  destruct (keypair_derand_wp lv f2 _ HE2) as [T W].
  destruct (W J2 pk2 sk2 c2 Lp2 Ls2 L2 B2 eq_refl) as (w2 & Ew2 & _).
  destruct (W J1 pk1 sk1 c1 Lp1 Ls1 L1 B1 ER) as (w1 & Ew1 & _).
  assert (EF : @crypto_kem_keypair_derand J1 lv f1 pk1 sk1 c1 = @crypto_kem_keypair_derand J1 lv f2 pk1 sk1 c1).
  { apply (fuel_agree (fun f => @crypto_kem_keypair_derand J1 lv f pk1 sk1 c1)); [intros; now apply le_keypair_derand|cbv beta; rewrite E1; discriminate|cbv beta; rewrite Ew1; discriminate]. }
  congruence.
Qed.

(** ** Encapsulation *)
Lemma enc_internal lv fuel pk m : enough_all lv fuel (ek_rho (PS lv) pk) ->
  let K := kem_enc lv fuel (ek_rho (PS lv) pk) pk m in Encaps_internal (PS lv) pk m (snd K) (fst K).
Proof.
  intros HE. cbv zeta. unfold kem_enc. cbv zeta. cbn [fst snd].
  exists (matrix lv fuel (ek_rho (PS lv) pk) false). split; [now apply matrix_is_matrix|]. split; reflexivity.
Qed.
Lemma Encaps_internal_functional P ek m K c K' c' :
  Encaps_internal P ek m K c -> Encaps_internal P ek m K' c' -> K = K' /\ c = c'.
Proof.
  intros (A & M & E & D) (A' & M' & E' & D'). rewrite (is_matrix_functional _ _ _ _ M' M) in D'. subst. auto.
Qed.

Lemma enc_sound lv fuel (JJ : Junk) ct ss pk m ct' ss' r T :
  length ct = KYBER_CIPHERTEXTBYTES lv -> length ss = 32%nat ->
  bytes_of (KYBER_PUBLICKEYBYTES lv) pk -> bytes_of 32 m ->
  crypto_kem_enc_derand lv fuel ct ss pk m = Ok (ct', ss', r) T ->
  r = 0 /\ Encaps_internal (PS lv) pk m ss' ct'.
Proof.
  intros Lc Ls Hp Hm E. pose proof (bytes_of_bytes _ _ Hp) as Bp. destruct Hp as [Lp _].
  pose proof (bytes_of_bytes _ _ Hm) as Bm. destruct Hm as [Lm _].
  destruct (enough_all_dec lv fuel (ek_rho (PS lv) pk)) as [HE|HE].
  - destruct (enc_derand_wp lv fuel _ HE) as [T' W]. destruct (W JJ ct ss pk m Lc Ls Lp Bp Lm Bm eq_refl) as (v & Ev & ->).
    rewrite Ev in E. injection E as <- <- <- <-. split; [reflexivity|]. exact (enc_internal lv fuel pk m HE).
  - rewrite enc_derand_timeout in E by auto. discriminate.
Qed.

Lemma enc_complete lv pk m K c : bytes_of (KYBER_PUBLICKEYBYTES lv) pk -> bytes_of 32 m ->
  Encaps_internal (PS lv) pk m K c ->
  exists fuel0, forall fuel (JJ : Junk) ct ss, (fuel0 <= fuel)%nat ->
    length ct = KYBER_CIPHERTEXTBYTES lv -> length ss = 32%nat ->
    exists T, crypto_kem_enc_derand lv fuel ct ss pk m = Ok (c, K, 0) T.
Proof.
  intros Hp Hm HK. pose proof (bytes_of_bytes _ _ Hp) as Bp. destruct Hp as [Lp _].
  pose proof (bytes_of_bytes _ _ Hm) as Bm. destruct Hm as [Lm _].
  assert (HM : exists A, is_matrix (PS lv) (ek_rho (PS lv) pk) A) by (destruct HK as (A & M & _); eauto).
  destruct HM as [A HM]. destruct (is_matrix_enough lv _ A HM) as [f0 F0]. exists f0. intros fuel JJ ct ss Lf Lc Ls.
  pose proof (enough_all_mono lv f0 fuel _ Lf F0) as HE.
  destruct (enc_derand_wp lv fuel _ HE) as [T' W]. destruct (W JJ ct ss pk m Lc Ls Lp Bp Lm Bm eq_refl) as (v & Ev & Ew).
  exists T'. rewrite Ev, Ew. f_equal. f_equal. rewrite (surjective_pairing (kem_enc _ _ _ _ _)).
  destruct (Encaps_internal_functional _ _ _ _ _ _ _ (enc_internal lv fuel pk m HE) HK) as [-> ->]. reflexivity.
Qed.

Lemma enc_outcome lv fuel (JJ : Junk) ct ss pk m :
  length ct = KYBER_CIPHERTEXTBYTES lv -> length ss = 32%nat ->
  bytes_of (KYBER_PUBLICKEYBYTES lv) pk -> bytes_of 32 m ->
  (exists ct' ss' T, crypto_kem_enc_derand lv fuel ct ss pk m = Ok (ct', ss', 0) T) \/
  crypto_kem_enc_derand lv fuel ct ss pk m = Timeout.
Proof.
  intros Lc Ls Hp Hm. pose proof (bytes_of_bytes _ _ Hp) as Bp. destruct Hp as [Lp _].
  pose proof (bytes_of_bytes _ _ Hm) as Bm. destruct Hm as [Lm _].
  destruct (enough_all_dec lv fuel (ek_rho (PS lv) pk)) as [HE|HE]; [left|right; now apply enc_derand_timeout].
  destruct (enc_derand_wp lv fuel _ HE) as [T' W]. destruct (W JJ ct ss pk m Lc Ls Lp Bp Lm Bm eq_refl) as (v & Ev & Ew).
  rewrite Ev, Ew. rewrite (surjective_pairing (kem_enc _ _ _ _ _)). eauto.
Qed.

Lemma enc_diverges lv pk m : bytes_of (KYBER_PUBLICKEYBYTES lv) pk -> bytes_of 32 m ->
  (forall A, ~ is_matrix (PS lv) (ek_rho (PS lv) pk) A) ->
  forall fuel (JJ : Junk) ct ss, crypto_kem_enc_derand lv fuel ct ss pk m = Timeout.
Proof.
  intros Hp Hm HN fuel JJ ct ss. pose proof (bytes_of_bytes _ _ Hp) as Bp. destruct Hp as [Lp _].
  pose proof (bytes_of_bytes _ _ Hm) as Bm. destruct Hm as [Lm _].
  apply enc_derand_timeout; auto. intros HE. exact (HN _ (matrix_is_matrix lv fuel _ HE)).
Qed.

Lemma enc_trace lv f1 f2 (J1 J2 : Junk) ct1 ss1 pk1 m1 ct2 ss2 pk2 m2 v1 v2 T1 T2 :
  length ct1 = KYBER_CIPHERTEXTBYTES lv -> length ss1 = 32%nat -> bytes_of (KYBER_PUBLICKEYBYTES lv) pk1 -> bytes_of 32 m1 ->
  length ct2 = KYBER_CIPHERTEXTBYTES lv -> length ss2 = 32%nat -> bytes_of (KYBER_PUBLICKEYBYTES lv) pk2 -> bytes_of 32 m2 ->
  ek_rho (PS lv) pk1 = ek_rho (PS lv) pk2 ->
  @crypto_kem_enc_derand J1 lv f1 ct1 ss1 pk1 m1 = Ok v1 T1 -> @crypto_kem_enc_derand J2 lv f2 ct2 ss2 pk2 m2 = Ok v2 T2 ->
  T1 = T2.
Proof.
  intros Lc1 Ls1 Hp1 Hm1 Lc2 Ls2 Hp2 Hm2 ER E1 E2.
  pose proof (bytes_of_bytes _ _ Hp1) as Bp1. destruct Hp1 as [Lp1 _].
  pose proof (bytes_of_bytes _ _ Hm1) as Bm1. destruct Hm1 as [Lm1 _].
  pose proof (bytes_of_bytes _ _ Hp2) as Bp2. destruct Hp2 as [Lp2 _].
  pose proof (bytes_of_bytes _ _ Hm2) as Bm2. destruct Hm2 as [Lm2 _].
  assert (HE2 : enough_all lv f2 (ek_rho (PS lv) pk2)).
  { destruct (enough_all_dec lv f2 (ek_rho (PS lv) pk2)); [assumption|].
    rewrite enc_derand_timeout in E2 by auto. discriminate. }
  destruct (enc_derand_wp lv f2 _ HE2) as [T W].
  destruct (W J2 ct2 ss2 pk2 m2 Lc2 Ls2 Lp2 Bp2 Lm2 Bm2 eq_refl) as (w2 & Ew2 & _).
  destruct (W J1 ct1 ss1 pk1 m1 Lc1 Ls1 Lp1 Bp1 Lm1 Bm1 ER) as (w1 & Ew1 & _).
  assert (EF : @crypto_kem_enc_derand J1 lv f1 ct1 ss1 pk1 m1 = @crypto_kem_enc_derand J1 lv f2 ct1 ss1 pk1 m1).
  { apply (fuel_agree (fun f => @crypto_kem_enc_derand J1 lv f ct1 ss1 pk1 m1)); [intros; now apply le_enc_derand|cbv beta; rewrite E1; discriminate|cbv beta; rewrite Ew1; discriminate]. }
  congruence.
Qed.

(** ** Decapsulation *)
Lemma dec_internal lv fuel ct sk : enough_all lv fuel (ek_rho (PS lv) (dk_ek (PS lv) sk)) ->
  Decaps_internal (PS lv) sk ct (kem_dec lv fuel (ek_rho (PS lv) (dk_ek (PS lv) sk)) ct sk).
Proof.
  intros HE. exists (matrix lv fuel (ek_rho (PS lv) (dk_ek (PS lv) sk)) false). split; [now apply matrix_is_matrix|].
  cbv zeta. unfold kem_dec. cbv zeta.
  destruct (list_eq_dec Z.eq_dec ct _) as [e|e]; split; intros E; first [reflexivity|now elim E|now elim e].
Qed.
Lemma Decaps_internal_functional P dk c K K' :
  Decaps_internal P dk c K -> Decaps_internal P dk c K' -> K = K'.
Proof.
  intros (A & M & E1 & E2) (A' & M' & E1' & E2'). rewrite (is_matrix_functional _ _ _ _ M' M) in *.
  match type of E1 with c = ?x -> _ => destruct (list_eq_dec Z.eq_dec c x) as [e|e] end.
  - now rewrite (E1 e), (E1' e).
  - now rewrite (E2 e), (E2' e).
Qed.

Lemma dec_sound lv fuel (JJ : Junk) ss ct sk ss' r T :
  length ss = 32%nat -> bytes_of (KYBER_CIPHERTEXTBYTES lv) ct -> bytes_of (KYBER_SECRETKEYBYTES lv) sk ->
  crypto_kem_dec lv fuel ss ct sk = Ok (ss', r) T -> r = 0 /\ Decaps_internal (PS lv) sk ct ss'.
Proof.
  intros Ls Hc Hk E. pose proof (bytes_of_bytes _ _ Hc) as Bc. destruct Hc as [Lc _].
  pose proof (bytes_of_bytes _ _ Hk) as Bk. destruct Hk as [Lk _].
  destruct (enough_all_dec lv fuel (ek_rho (PS lv) (dk_ek (PS lv) sk))) as [HE|HE].
  - destruct (dec_wp lv fuel _ HE) as [T' W]. destruct (W JJ ss ct sk Ls Lc Bc Lk Bk eq_refl) as (v & Ev & ->).
    rewrite Ev in E. injection E as <- <- <-. split; [reflexivity|]. exact (dec_internal lv fuel ct sk HE).
  - rewrite dec_timeout in E by auto. discriminate.
Qed.

Lemma dec_complete lv ct sk K : bytes_of (KYBER_CIPHERTEXTBYTES lv) ct -> bytes_of (KYBER_SECRETKEYBYTES lv) sk ->
  Decaps_internal (PS lv) sk ct K ->
  exists fuel0, forall fuel (JJ : Junk) ss, (fuel0 <= fuel)%nat -> length ss = 32%nat ->
    exists T, crypto_kem_dec lv fuel ss ct sk = Ok (K, 0) T.
Proof.
  intros Hc Hk HK. pose proof (bytes_of_bytes _ _ Hc) as Bc. destruct Hc as [Lc _].
  pose proof (bytes_of_bytes _ _ Hk) as Bk. destruct Hk as [Lk _].
  assert (HM : exists A, is_matrix (PS lv) (ek_rho (PS lv) (dk_ek (PS lv) sk)) A) by (destruct HK as (A & M & _); eauto).
  destruct HM as [A HM]. destruct (is_matrix_enough lv _ A HM) as [f0 F0]. exists f0. intros fuel JJ ss Lf Ls.
  pose proof (enough_all_mono lv f0 fuel _ Lf F0) as HE.
  destruct (dec_wp lv fuel _ HE) as [T' W]. destruct (W JJ ss ct sk Ls Lc Bc Lk Bk eq_refl) as (v & Ev & Ew).
  exists T'. rewrite Ev, Ew. f_equal. f_equal.
  exact (Decaps_internal_functional _ _ _ _ _ (dec_internal lv fuel ct sk HE) HK).
Qed.

Lemma dec_outcome lv fuel (JJ : Junk) ss ct sk :
  length ss = 32%nat -> bytes_of (KYBER_CIPHERTEXTBYTES lv) ct -> bytes_of (KYBER_SECRETKEYBYTES lv) sk ->
  (exists ss' T, crypto_kem_dec lv fuel ss ct sk = Ok (ss', 0) T) \/ crypto_kem_dec lv fuel ss ct sk = Timeout.
Proof.
  intros Ls Hc Hk. pose proof (bytes_of_bytes _ _ Hc) as Bc. destruct Hc as [Lc _].
  pose proof (bytes_of_bytes _ _ Hk) as Bk. destruct Hk as [Lk _].
  destruct (enough_all_dec lv fuel (ek_rho (PS lv) (dk_ek (PS lv) sk))) as [HE|HE]; [left|right; now apply dec_timeout].
  destruct (dec_wp lv fuel _ HE) as [T' W]. destruct (W JJ ss ct sk Ls Lc Bc Lk Bk eq_refl) as (v & Ev & Ew).
  rewrite Ev, Ew. eauto.
Qed.

Lemma dec_diverges lv ct sk : bytes_of (KYBER_CIPHERTEXTBYTES lv) ct -> bytes_of (KYBER_SECRETKEYBYTES lv) sk ->
  (forall A, ~ is_matrix (PS lv) (ek_rho (PS lv) (dk_ek (PS lv) sk)) A) ->
  forall fuel (JJ : Junk) ss, crypto_kem_dec lv fuel ss ct sk = Timeout.
Proof.
  intros Hc Hk HN fuel JJ ss. pose proof (bytes_of_bytes _ _ Hc) as Bc. destruct Hc as [Lc _].
  pose proof (bytes_of_bytes _ _ Hk) as Bk. destruct Hk as [Lk _].
  apply dec_timeout; auto. intros HE. exact (HN _ (matrix_is_matrix lv fuel _ HE)).
Qed.

Lemma dec_trace lv f1 f2 (J1 J2 : Junk) ss1 ct1 sk1 ss2 ct2 sk2 v1 v2 T1 T2 :
  length ss1 = 32%nat -> bytes_of (KYBER_CIPHERTEXTBYTES lv) ct1 -> bytes_of (KYBER_SECRETKEYBYTES lv) sk1 ->
  length ss2 = 32%nat -> bytes_of (KYBER_CIPHERTEXTBYTES lv) ct2 -> bytes_of (KYBER_SECRETKEYBYTES lv) sk2 ->
  ek_rho (PS lv) (dk_ek (PS lv) sk1) = ek_rho (PS lv) (dk_ek (PS lv) sk2) ->
  @crypto_kem_dec J1 lv f1 ss1 ct1 sk1 = Ok v1 T1 -> @crypto_kem_dec J2 lv f2 ss2 ct2 sk2 = Ok v2 T2 -> T1 = T2.
Proof.
  intros Ls1 Hc1 Hk1 Ls2 Hc2 Hk2 ER E1 E2.
  pose proof (bytes_of_bytes _ _ Hc1) as Bc1. destruct Hc1 as [Lc1 _].
  pose proof (bytes_of_bytes _ _ Hk1) as Bk1. destruct Hk1 as [Lk1 _].
  pose proof (bytes_of_bytes _ _ Hc2) as Bc2. destruct Hc2 as [Lc2 _].
  pose proof (bytes_of_bytes _ _ Hk2) as Bk2. destruct Hk2 as [Lk2 _].
  assert (HE2 : enough_all lv f2 (ek_rho (PS lv) (dk_ek (PS lv) sk2))).
  { destruct (enough_all_dec lv f2 (ek_rho (PS lv) (dk_ek (PS lv) sk2))); [assumption|].
    rewrite dec_timeout in E2 by auto. discriminate. }
  destruct (dec_wp lv f2 _ HE2) as [T W].
  destruct (W J2 ss2 ct2 sk2 Ls2 Lc2 Bc2 Lk2 Bk2 eq_refl) as (w2 & Ew2 & _).
  destruct (W J1 ss1 ct1 sk1 Ls1 Lc1 Bc1 Lk1 Bk1 ER) as (w1 & Ew1 & _).
  assert (EF : @crypto_kem_dec J1 lv f1 ss1 ct1 sk1 = @crypto_kem_dec J1 lv f2 ss1 ct1 sk1).
  { apply (fuel_agree (fun f => @crypto_kem_dec J1 lv f ss1 ct1 sk1)); [intros; now apply le_dec|cbv beta; rewrite E1; discriminate|cbv beta; rewrite Ew1; discriminate]. }
  congruence.
Qed.

(** ** Sizes *)
Lemma KeyGen_internal_sizes lv d z ek dk : bytes_of 32 z -> KeyGen_internal (PS lv) d z ek dk ->
  bytes_of (KYBER_PUBLICKEYBYTES lv) ek /\ bytes_of (KYBER_SECRETKEYBYTES lv) dk.
Proof.
  intros Hz (A & p & M & E & ->). pose proof (bytes_of_bytes _ _ Hz) as Bz. destruct Hz as [Lz _].
  assert (LA : length A = k (PS lv)) by apply M.
  pose proof (KeyGen_ek_length lv A d LA) as L1. pose proof (KeyGen_dk_length lv A d) as L2.
  pose proof (KeyGen_ek_bytes (PS lv) A d) as B1. pose proof (KeyGen_dk_bytes (PS lv) A d) as B2.
  rewrite <- E in *. cbn [fst snd] in *.
  split; [now apply bytes_bytes_of|]. apply bytes_bytes_of.
  - assert (LH : length (H ek) = 32%nat) by apply SHA3_256_length. rewrite !app_length.
    rewrite L1, L2, LH, Lz. unfold KYBER_SECRETKEYBYTES, KYBER_PUBLICKEYBYTES. change KYBER_SYMBYTES with 32%nat. lia.
  - apply bnd_app; [exact B2|]. apply bnd_app; [exact B1|]. apply bnd_app; [apply SHA3_256_bytes|exact Bz].
Qed.

Lemma Encaps_internal_sizes lv ek m K c : Encaps_internal (PS lv) ek m K c ->
  bytes_of 32 K /\ bytes_of (KYBER_CIPHERTEXTBYTES lv) c.
Proof.
  intros (A & M & -> & ->). destruct (kr_parts (m ++ H ek)) as (L & B & _). split; apply bytes_bytes_of.
  - rewrite firstn_length. lia.
  - now apply bnd_firstn.
  - apply Encrypt_length.
  - apply Encrypt_bytes.
Qed.

Lemma Decaps_internal_sizes lv dk c K : Decaps_internal (PS lv) dk c K -> bytes_of 32 K.
Proof.
  intros (A & M & E1 & E2).
  match type of E1 with c = ?x -> _ => destruct (list_eq_dec Z.eq_dec c x) as [e|e] end.
  - rewrite (E1 e). destruct (kr_parts (K_PKE_Decrypt (PS lv) (dk_pke (PS lv) dk) c ++ dk_h (PS lv) dk)) as (L & B & _).
    apply bytes_bytes_of; [rewrite firstn_length; lia|now apply bnd_firstn].
  - rewrite (E2 e). unfold J. apply bytes_bytes_of; [apply SHAKE256_length|apply SHAKE256_bytes].
Qed.

(** ** Agreement *)
Lemma dk_layout lv d z ek dk : bytes_of 32 z -> KeyGen_internal (PS lv) d z ek dk ->
  exists A, is_matrix (PS lv) (keygen_rho (PS lv) d) A /\
    ek = fst (K_PKE_KeyGen (PS lv) A d) /\ dk_pke (PS lv) dk = snd (K_PKE_KeyGen (PS lv) A d) /\
    dk_ek (PS lv) dk = ek /\ dk_h (PS lv) dk = H ek /\ dk_z (PS lv) dk = z /\ ek_rho (PS lv) ek = keygen_rho (PS lv) d.
Proof.
  intros Hz HK. pose proof (KeyGen_internal_sizes lv d z ek dk Hz HK) as [[Lek _] [Ldk _]]. destruct Hz as [Lz _].
  destruct HK as (A & p & M & E & ->). exists A. split; [exact M|].
  assert (LA : length A = k (PS lv)) by apply M.
  pose proof (KeyGen_dk_length lv A d) as L2.
  assert (LH : length (H ek) = 32%nat) by apply SHA3_256_length.
  assert (ER : ek_rho (PS lv) (fst (K_PKE_KeyGen (PS lv) A d)) = keygen_rho (PS lv) d).
  { unfold ek_rho, K_PKE_KeyGen. cbv zeta. cbn [fst].
    match goal with |- skipn ?N (?x ++ ?y) = _ => assert (LN : length x = N) end.
    { rewrite (flat_map_len _ _ (32 * 12)).
      - rewrite Proof_Indcpa.zipadd_length; rewrite !map_length; [|now rewrite noise_length]. rewrite LA. lia.
      - intros x Hx. apply zipadd_In in Hx. now apply ByteEncode_256. }
    rewrite <- LN, skipn_app, Nat.sub_diag, skipn_all. reflexivity. }
  rewrite <- E in *. cbn [fst snd] in *.
  destruct (sk_parts lv (p ++ ek ++ H ek ++ z) Ldk) as (E1 & E2 & E3 & E4). rewrite E1, E2, E3, E4.
  assert (S1 : sub (p ++ ek ++ H ek ++ z) 0 (KYBER_INDCPA_SECRETKEYBYTES lv) = p) by (now apply sub_app_l).
  assert (S2 : sub (p ++ ek ++ H ek ++ z) (KYBER_INDCPA_SECRETKEYBYTES lv) (KYBER_INDCPA_PUBLICKEYBYTES lv) = ek).
  { rewrite <- L2. unfold sub. rewrite skipn_app, Nat.sub_diag, skipn_all. cbn [app skipn]. now apply sub_app_l. }
  assert (ES : KYBER_SECRETKEYBYTES lv = (KYBER_INDCPA_SECRETKEYBYTES lv + (KYBER_PUBLICKEYBYTES lv + (32 + 32)))%nat).
  { unfold KYBER_SECRETKEYBYTES, KYBER_PUBLICKEYBYTES. change KYBER_SYMBYTES with 32%nat. lia. }
  assert (S3 : sub (p ++ ek ++ H ek ++ z) (KYBER_SECRETKEYBYTES lv - 2 * 32) 32 = H ek).
  { replace (p ++ ek ++ H ek ++ z) with ((p ++ ek) ++ H ek ++ z) by now rewrite <- app_assoc.
    replace (KYBER_SECRETKEYBYTES lv - 2 * 32)%nat with (length (p ++ ek)) by (rewrite app_length; lia).
    unfold sub. rewrite skipn_app, Nat.sub_diag, skipn_all. cbn [app skipn]. exact (sub_app_l (H ek) z 32 LH). }
  assert (S4 : sub (p ++ ek ++ H ek ++ z) (KYBER_SECRETKEYBYTES lv - 32) 32 = z).
  { replace (p ++ ek ++ H ek ++ z) with ((p ++ ek ++ H ek) ++ z) by now rewrite <- !app_assoc.
    replace (KYBER_SECRETKEYBYTES lv - 32)%nat with (length (p ++ ek ++ H ek)) by (rewrite !app_length; lia).
    unfold sub. rewrite skipn_app, Nat.sub_diag, skipn_all. cbn [app skipn]. apply firstn_all2; lia. }
  rewrite S1, S2, S3, S4. repeat (split; [reflexivity|]). exact ER.
Qed.

(** The noise of one key generation and encapsulation is in the window *)
Definition noise_within (lv : level) (d m ek : list Z) : Prop :=
  forall A, is_matrix (PS lv) (keygen_rho (PS lv) d) A ->
    noise_decodes m (decryption_noise (PS lv) A d m (skipn 32 (G (m ++ H ek)))).

Lemma ML_KEM_agreement lv d z m ek dk K c K' : bytes_of 32 z -> bytes_of 32 m ->
  KeyGen_internal (PS lv) d z ek dk -> Encaps_internal (PS lv) ek m K c ->
  noise_within lv d m ek -> Decaps_internal (PS lv) dk c K' -> K' = K.
Proof.
  intros Hz Hm HK HE HN HD. pose proof (bytes_of_bytes _ _ Hm) as Bm. destruct Hm as [Lm _].
  destruct (dk_layout lv d z ek dk Hz HK) as (A & M & Eek & Epke & Eek' & Eh & Ez & Er).
  destruct HE as (A1 & M1 & -> & ->). destruct HD as (A2 & M2 & D1 & D2).
  rewrite Er in M1. rewrite Eek', Er in M2.
  rewrite (is_matrix_functional _ _ _ _ M1 M) in *. rewrite (is_matrix_functional _ _ _ _ M2 M) in *.
  specialize (HN A M). rewrite Epke, Eek', Eh in *.
  assert (EM : K_PKE_Decrypt (PS lv) (snd (K_PKE_KeyGen (PS lv) A d))
     (K_PKE_Encrypt (PS lv) A ek m (skipn 32 (G (m ++ H ek)))) = m).
  { rewrite Eek at 1. apply Decrypt_Encrypt_iff; [apply M| |exact Bm|exact Lm|exact HN].
    intros i Hi. now apply M. }
  rewrite EM in D1. apply D1. reflexivity.
Qed.

Lemma kem_agreement lv coins m f1 f2 f3 (J1 J2 J3 : Junk) pk sk ct ss ss3 pk' sk' ct' ss' ss'' r1 r2 r3 T1 T2 T3 :
  length pk = KYBER_PUBLICKEYBYTES lv -> length sk = KYBER_SECRETKEYBYTES lv ->
  length ct = KYBER_CIPHERTEXTBYTES lv -> length ss = 32%nat -> length ss3 = 32%nat ->
  bytes_of 64 coins -> bytes_of 32 m ->
  @crypto_kem_keypair_derand J1 lv f1 pk sk coins = Ok (pk', sk', r1) T1 ->
  @crypto_kem_enc_derand J2 lv f2 ct ss pk' m = Ok (ct', ss', r2) T2 ->
  noise_within lv (firstn 32 coins) m pk' ->
  @crypto_kem_dec J3 lv f3 ss3 ct' sk' = Ok (ss'', r3) T3 ->
  ss'' = ss'.
Proof.
  intros Lpk Lsk Lct Lss Lss3 Hc Hm E1 E2 HN E3.
  destruct (keypair_sound _ _ _ _ _ _ _ _ _ _ Lpk Lsk Hc E1) as [_ HK].
  assert (Hz : bytes_of 32 (firstn 32 (skipn 32 coins))).
  { pose proof (bytes_of_bytes _ _ Hc) as Bc. destruct Hc as [Lc _]. apply bytes_bytes_of; [rewrite firstn_length, skipn_length; lia|].
    apply bnd_firstn. now apply bnd_skipn. }
  destruct (KeyGen_internal_sizes _ _ _ _ _ Hz HK) as [Hpk Hsk].
  destruct (enc_sound _ _ _ _ _ _ _ _ _ _ _ Lct Lss Hpk Hm E2) as [_ HE].
  destruct (Encaps_internal_sizes _ _ _ _ _ HE) as [Hss Hct].
  destruct (dec_sound _ _ _ _ _ _ _ _ _ Lss3 Hct Hsk E3) as [_ HD].
  exact (ML_KEM_agreement lv _ _ m pk' sk' ss' ct' ss'' Hz Hm HK HE HN HD).
Qed.
