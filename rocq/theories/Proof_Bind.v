(** * C51, C52: what a shared secret binds *)
From Coq Require Import ZArith List Lia Bool.
From Verif Require Import CMonad WP Proof_Base Levels Model_Params Model_Kem Spec_FIPS202 Spec_FIPS203 Spec_Noise
  Proof_Hash Proof_Bits Proof_GenMatrix Proof_Indcpa Proof_Encrypt Proof_Kem Proof_Correct Proof_Api Vocab Vocab_Code Proof_Vocab Proof_PropKem Run_Kem Proof_Demo Proof_Cases
  Model_AvxKem Vocab_Avx Proof_AvxApi Proof_PropAvxKem Vocab_Bind.
Import ListNotations.
Open Scope Z_scope.
Local Opaque SHA3_256 SHA3_512 SHAKE256 SHAKE128.
Local Opaque crypto_kem_keypair_derand crypto_kem_enc_derand crypto_kem_dec
  crypto_kem_keypair_derand_avx2 crypto_kem_enc_derand_avx2 crypto_kem_dec_avx2.

Lemma app_eq_app_len {A} (a b c d : list A) : length a = length c -> a ++ b = c ++ d -> a = c /\ b = d.
Proof.
  revert c. induction a as [|x a IH]; intros [|y c] L E; try discriminate L; [now split|].
  cbn [app] in E. injection E as -> E. destruct (IH c) as [-> ->]; [now injection L|exact E|]. now split.
Qed.

Definition reencrypted lv A s t rho h ct : list Z :=
  let m := K_PKE_Decrypt (PS lv) s ct in
  K_PKE_Encrypt (PS lv) A (t ++ rho) m (skipn 32 (SHA3_512 (m ++ h))).

Lemma dec_of_cases V (JJ : Junk) lv fuel ss ct s t rho h z K r T :
  length ss = 32%nat -> byte_array (KYBER_CIPHERTEXTBYTES lv) ct ->
  byte_array (384 * k (PS lv)) s -> byte_array (384 * k (PS lv)) t -> byte_array 32 rho -> byte_array 32 h -> byte_array 32 z ->
  dec_of V JJ lv fuel ss ct (s ++ t ++ rho ++ h ++ z) = Ok (K, r) T ->
  exists A, is_matrix (PS lv) rho A /\
    ((ct = reencrypted lv A s t rho h ct /\ K = accept_key (K_PKE_Decrypt (PS lv) s ct ++ h)) \/
     (ct <> reencrypted lv A s t rho h ct /\ K = reject_key (z ++ ct))).
Proof.
  intros Ls Hc Hs Ht Hr Hh Hz E.
  destruct V; [pose proof (implicit_rejection lv fuel JJ ss ct s t rho h z K r T Ls Hc Hs Ht Hr Hh Hz E) as [_ (A & HA & D)]
              |pose proof (avx_implicit_rejection lv fuel JJ ss ct s t rho h z K r T Ls Hc Hs Ht Hr Hh Hz E) as [_ (A & HA & D)]];
  exists A; exact (conj HA D).
Qed.

(** Two decapsulations with the same result *)
Lemma dec_binding V1 V2 lv f1 f2 (J1 J2 : Junk) ss1 ss2 ct1 ct2 s1 s2 t1 t2 rho1 rho2 h1 h2 z1 z2 K r1 r2 T1 T2 :
  length ss1 = 32%nat -> byte_array (KYBER_CIPHERTEXTBYTES lv) ct1 -> byte_array (384 * k (PS lv)) s1 ->
  byte_array (384 * k (PS lv)) t1 -> byte_array 32 rho1 -> byte_array 32 h1 -> byte_array 32 z1 ->
  length ss2 = 32%nat -> byte_array (KYBER_CIPHERTEXTBYTES lv) ct2 -> byte_array (384 * k (PS lv)) s2 ->
  byte_array (384 * k (PS lv)) t2 -> byte_array 32 rho2 -> byte_array 32 h2 -> byte_array 32 z2 ->
  dec_of V1 J1 lv f1 ss1 ct1 (s1 ++ t1 ++ rho1 ++ h1 ++ z1) = Ok (K, r1) T1 ->
  dec_of V2 J2 lv f2 ss2 ct2 (s2 ++ t2 ++ rho2 ++ h2 ++ z2) = Ok (K, r2) T2 ->
  let m1 := K_PKE_Decrypt (PS lv) s1 ct1 in
  let m2 := K_PKE_Decrypt (PS lv) s2 ct2 in
  (m1 = m2 /\ h1 = h2 /\ (t1 ++ rho1 = t2 ++ rho2 -> ct1 = ct2)) \/
  (z1 = z2 /\ ct1 = ct2) \/
  collide accept_key (m1 ++ h1) (m2 ++ h2) \/
  collide reject_key (z1 ++ ct1) (z2 ++ ct2) \/
  accept_key (m1 ++ h1) = reject_key (z2 ++ ct2) \/
  reject_key (z1 ++ ct1) = accept_key (m2 ++ h2).
Proof.
  intros Ls1 Hc1 Hs1 Ht1 Hr1 Hh1 Hz1 Ls2 Hc2 Hs2 Ht2 Hr2 Hh2 Hz2 E1 E2 m1 m2.
  destruct (dec_of_cases V1 J1 lv f1 ss1 ct1 s1 t1 rho1 h1 z1 K r1 T1 Ls1 Hc1 Hs1 Ht1 Hr1 Hh1 Hz1 E1) as (A1 & HA1 & D1).
  destruct (dec_of_cases V2 J2 lv f2 ss2 ct2 s2 t2 rho2 h2 z2 K r2 T2 Ls2 Hc2 Hs2 Ht2 Hr2 Hh2 Hz2 E2) as (A2 & HA2 & D2).
  fold m1 in D1. fold m2 in D2.
  destruct D1 as [[C1 K1]|[C1 K1]], D2 as [[C2 K2]|[C2 K2]].
  - destruct (list_eq_dec Z.eq_dec (m1 ++ h1) (m2 ++ h2)) as [e|e].
    + left. assert (L : length m1 = length m2) by (unfold m1, m2; rewrite !Decrypt_length; reflexivity).
      apply app_eq_app_len in e as [em eh]; [|exact L].
      split; [exact em|]. split; [exact eh|]. intros ep.
      apply app_eq_app_len in ep as [et er]; [|rewrite (proj1 Ht1), (proj1 Ht2); reflexivity].
      rewrite C1, C2. unfold reencrypted. fold m1 m2. rewrite er in HA1. rewrite (is_matrix_functional _ _ _ _ HA1 HA2), em, eh, et, er. reflexivity.
    + right; right; left. split; [exact e|]. now rewrite <- K1, <- K2.
  - do 4 right. left. now rewrite <- K1, <- K2.
  - do 5 right. now rewrite <- K1, <- K2.
  - destruct (list_eq_dec Z.eq_dec (z1 ++ ct1) (z2 ++ ct2)) as [e|e].
    + right; left. apply app_eq_app_len in e as [ez ec]; [now split|]. rewrite (proj1 Hz1), (proj1 Hz2). reflexivity.
    + do 3 right. left. split; [exact e|]. now rewrite <- K1, <- K2.
Qed.

(** A changed ciphertext, under any secret key *)
Lemma tampering V1 V2 lv f1 f2 (J1 J2 : Junk) ss1 ss2 ct1 ct2 s t rho h z K r1 r2 T1 T2 :
  length ss1 = 32%nat -> length ss2 = 32%nat ->
  byte_array (KYBER_CIPHERTEXTBYTES lv) ct1 -> byte_array (KYBER_CIPHERTEXTBYTES lv) ct2 ->
  byte_array (384 * k (PS lv)) s -> byte_array (384 * k (PS lv)) t -> byte_array 32 rho -> byte_array 32 h -> byte_array 32 z ->
  ct1 <> ct2 ->
  dec_of V1 J1 lv f1 ss1 ct1 (s ++ t ++ rho ++ h ++ z) = Ok (K, r1) T1 ->
  dec_of V2 J2 lv f2 ss2 ct2 (s ++ t ++ rho ++ h ++ z) = Ok (K, r2) T2 ->
  let m1 := K_PKE_Decrypt (PS lv) s ct1 in
  let m2 := K_PKE_Decrypt (PS lv) s ct2 in
  collide accept_key (m1 ++ h) (m2 ++ h) \/ collide reject_key (z ++ ct1) (z ++ ct2) \/
  accept_key (m1 ++ h) = reject_key (z ++ ct2) \/ reject_key (z ++ ct1) = accept_key (m2 ++ h).
Proof.
  intros Ls1 Ls2 Hc1 Hc2 Hs Ht Hr Hh Hz NE E1 E2 m1 m2.
  destruct (dec_binding V1 V2 lv f1 f2 J1 J2 ss1 ss2 ct1 ct2 s s t t rho rho h h z z K r1 r2 T1 T2
    Ls1 Hc1 Hs Ht Hr Hh Hz Ls2 Hc2 Hs Ht Hr Hh Hz E1 E2) as [(_ & _ & E)|[[_ E]|D]].
  - destruct NE. apply E. reflexivity.
  - destruct (NE E).
  - exact D.
Qed.

Lemma pk_split lv pk : byte_array (KYBER_PUBLICKEYBYTES lv) pk ->
  exists t rho, pk = t ++ rho /\ byte_array (384 * k (PS lv)) t /\ byte_array 32 rho.
Proof.
  intros Hp. exists (firstn (384 * k (PS lv)) pk), (skipn (384 * k (PS lv)) pk).
  assert (L : length pk = (384 * k (PS lv) + 32)%nat) by (rewrite (proj1 Hp); destruct lv; reflexivity).
  split; [symmetry; apply firstn_skipn|].
  apply byte_array_split; [rewrite firstn_length, L; lia|]. rewrite firstn_skipn. split; [exact L|apply Hp].
Qed.
Lemma hash_array x : byte_array 32 (SHA3_256 x).
Proof. apply bytes_bytes_of; [apply SHA3_256_length|apply SHA3_256_bytes]. Qed.

(** Different keys whose stored hash is that of the stored public key *)
Lemma key_binding V1 V2 lv f1 f2 (J1 J2 : Junk) ss1 ss2 ct1 ct2 s1 s2 pk1 pk2 z1 z2 K r1 r2 T1 T2 :
  length ss1 = 32%nat -> byte_array (KYBER_CIPHERTEXTBYTES lv) ct1 -> byte_array (384 * k (PS lv)) s1 ->
  byte_array (KYBER_PUBLICKEYBYTES lv) pk1 -> byte_array 32 z1 ->
  length ss2 = 32%nat -> byte_array (KYBER_CIPHERTEXTBYTES lv) ct2 -> byte_array (384 * k (PS lv)) s2 ->
  byte_array (KYBER_PUBLICKEYBYTES lv) pk2 -> byte_array 32 z2 ->
  dec_of V1 J1 lv f1 ss1 ct1 (s1 ++ pk1 ++ SHA3_256 pk1 ++ z1) = Ok (K, r1) T1 ->
  dec_of V2 J2 lv f2 ss2 ct2 (s2 ++ pk2 ++ SHA3_256 pk2 ++ z2) = Ok (K, r2) T2 ->
  let m1 := K_PKE_Decrypt (PS lv) s1 ct1 in
  let m2 := K_PKE_Decrypt (PS lv) s2 ct2 in
  (ct1 = ct2 /\ (pk1 = pk2 /\ m1 = m2 \/ z1 = z2)) \/
  collide SHA3_256 pk1 pk2 \/
  collide accept_key (m1 ++ SHA3_256 pk1) (m2 ++ SHA3_256 pk2) \/
  collide reject_key (z1 ++ ct1) (z2 ++ ct2) \/
  accept_key (m1 ++ SHA3_256 pk1) = reject_key (z2 ++ ct2) \/
  reject_key (z1 ++ ct1) = accept_key (m2 ++ SHA3_256 pk2).
Proof.
  intros Ls1 Hc1 Hs1 Hp1 Hz1 Ls2 Hc2 Hs2 Hp2 Hz2 E1 E2 m1 m2.
  destruct (pk_split lv pk1 Hp1) as (t1 & rho1 & P1 & Ht1 & Hr1).
  destruct (pk_split lv pk2 Hp2) as (t2 & rho2 & P2 & Ht2 & Hr2).
  assert (F1 : dec_of V1 J1 lv f1 ss1 ct1 (s1 ++ t1 ++ rho1 ++ SHA3_256 pk1 ++ z1) = Ok (K, r1) T1).
  { rewrite <- E1. rewrite P1 at 2. rewrite <- !app_assoc. reflexivity. }
  assert (F2 : dec_of V2 J2 lv f2 ss2 ct2 (s2 ++ t2 ++ rho2 ++ SHA3_256 pk2 ++ z2) = Ok (K, r2) T2).
  { rewrite <- E2. rewrite P2 at 2. rewrite <- !app_assoc. reflexivity. }
  destruct (dec_binding V1 V2 lv f1 f2 J1 J2 ss1 ss2 ct1 ct2 s1 s2 t1 t2 rho1 rho2 _ _ z1 z2 K r1 r2 T1 T2
    Ls1 Hc1 Hs1 Ht1 Hr1 (hash_array pk1) Hz1 Ls2 Hc2 Hs2 Ht2 Hr2 (hash_array pk2) Hz2 F1 F2) as [(Em & Eh & E)|[[Ez E]|D]].
  - destruct (list_eq_dec Z.eq_dec pk1 pk2) as [e|e].
    + left. split; [apply E; now rewrite <- P1, <- P2|]. left. split; [exact e|exact Em].
    + right. left. now split.
  - left. split; [exact E|]. now right.
  - right. right. exact D.
Qed.

Lemma enc_binding V1 V2 lv f1 f2 (J1 J2 : Junk) ct1 ct2 ss1 ss2 pk1 pk2 m1 m2 c1 c2 K r1 r2 T1 T2 :
  length ct1 = KYBER_CIPHERTEXTBYTES lv -> length ss1 = 32%nat -> byte_array (KYBER_PUBLICKEYBYTES lv) pk1 -> byte_array 32 m1 ->
  length ct2 = KYBER_CIPHERTEXTBYTES lv -> length ss2 = 32%nat -> byte_array (KYBER_PUBLICKEYBYTES lv) pk2 -> byte_array 32 m2 ->
  enc_derand_of V1 J1 lv f1 ct1 ss1 pk1 m1 = Ok (c1, K, r1) T1 ->
  enc_derand_of V2 J2 lv f2 ct2 ss2 pk2 m2 = Ok (c2, K, r2) T2 ->
  (pk1 = pk2 /\ m1 = m2 /\ c1 = c2) \/
  collide SHA3_256 pk1 pk2 \/ collide accept_key (m1 ++ SHA3_256 pk1) (m2 ++ SHA3_256 pk2).
Proof.
  intros Lc1 Ls1 Hp1 Hm1 Lc2 Ls2 Hp2 Hm2 E1 E2.
  destruct (enc_of_sound _ _ _ _ _ _ _ _ _ _ _ _ Lc1 Ls1 Hp1 Hm1 E1) as [_ H1].
  destruct (enc_of_sound _ _ _ _ _ _ _ _ _ _ _ _ Lc2 Ls2 Hp2 Hm2 E2) as [_ H2].
  pose proof H1 as (A1 & _ & K1 & _). pose proof H2 as (A2 & _ & K2 & _). unfold G, H in K1, K2.
  destruct (list_eq_dec Z.eq_dec (m1 ++ SHA3_256 pk1) (m2 ++ SHA3_256 pk2)) as [e|e].
  - apply app_eq_app_len in e as [em eh]; [|rewrite (proj1 Hm1), (proj1 Hm2); reflexivity].
    destruct (list_eq_dec Z.eq_dec pk1 pk2) as [ep|ep].
    + left. split; [exact ep|]. split; [exact em|]. rewrite ep, em in H1. exact (proj2 (Encaps_internal_functional _ _ _ _ _ _ _ H1 H2)).
    + right. left. now split.
  - right. right. split; [exact e|]. unfold accept_key. now rewrite <- K1, <- K2.
Qed.

(** ** C52: the stored hash is not checked *)
Lemma Encrypt_array lv A ek m r : byte_array (KYBER_CIPHERTEXTBYTES lv) (K_PKE_Encrypt (PS lv) A ek m r).
Proof. apply bytes_bytes_of; [apply Encrypt_length|apply Encrypt_bytes]. Qed.

Lemma any_hash V lv d z A h m : let P := PS lv in
  byte_array 32 d -> byte_array 32 z -> byte_array 32 h -> byte_array 32 m ->
  is_matrix P (keygen_rho P d) A ->
  let Kr := SHA3_512 (m ++ h) in
  noise_decodes m (decryption_noise P A d m (skipn 32 Kr)) ->
  exists fuel0, forall fuel (JJ : Junk) ss, (fuel0 <= fuel)%nat -> length ss = 32%nat ->
    exists T, dec_of V JJ lv fuel ss (K_PKE_Encrypt P A (fst (K_PKE_KeyGen P A d)) m (skipn 32 Kr))
                (snd (K_PKE_KeyGen P A d) ++ fst (K_PKE_KeyGen P A d) ++ h ++ z) = Ok (firstn 32 Kr, 0) T.
Proof.
  intros P Hd Hz Hh Hm HA Kr HN. subst P.
  set (ek := fst (K_PKE_KeyGen (PS lv) A d)). set (s := snd (K_PKE_KeyGen (PS lv) A d)). set (c := K_PKE_Encrypt (PS lv) A ek m (skipn 32 Kr)).
  assert (HK : KeyGen_internal (PS lv) d z ek (s ++ ek ++ H ek ++ z)).
  { exists A, s. split; [exact HA|]. split; [unfold ek, s; destruct (K_PKE_KeyGen (PS lv) A d); reflexivity|reflexivity]. }
  destruct (KeyGen_internal_sizes lv d z ek _ Hz HK) as [Hek Hdk].
  destruct (dk_layout lv d z ek _ Hz HK) as (A' & HA' & _ & _ & _ & _ & _ & Er).
  destruct (pk_split lv ek Hek) as (t & rho & Eek & Ht & Hr).
  assert (Ls : length s = (384 * k (PS lv))%nat).
  { destruct Hdk as [L _]. rewrite !app_length, (proj1 Hz), (proj1 Hek) in L.
    assert (LH : length (H ek) = 32%nat) by apply SHA3_256_length. revert L. rewrite LH. pose proof (sk_sizes lv) as (S1 & S2 & S3).
    rewrite S2, S3. lia. }
  assert (Hs : byte_array (384 * k (PS lv)) s).
  { split; [exact Ls|]. intros x Hx. apply Hdk, in_or_app. now left. }
  assert (HAr : is_matrix (PS lv) rho A).
  { rewrite Eek in Er. unfold ek_rho in Er. rewrite skipn_l in Er by apply Ht. rewrite Er. exact HA. }
  assert (HE : Encaps_internal (PS lv) ek m (firstn 32 (G (m ++ H ek))) (K_PKE_Encrypt (PS lv) A ek m (skipn 32 (G (m ++ H ek))))).
  { exists A. split; [rewrite Er; exact HA|]. split; reflexivity. }
  assert (Hc : byte_array (KYBER_CIPHERTEXTBYTES lv) c).
  { apply (Encrypt_array lv A ek m (skipn 32 Kr)). }
  assert (Em : K_PKE_Decrypt (PS lv) s c = m).
  { apply Decrypt_Encrypt_iff; [apply HA|intros i Hi; now apply HA|now apply bytes_of_bytes in Hm|apply Hm|exact HN]. }
  replace (s ++ ek ++ h ++ z) with (s ++ t ++ rho ++ h ++ z) by (rewrite Eek, <- app_assoc; reflexivity).
  apply dec_of_complete; [exact Hc|now apply sk_of|].
  exists A. rewrite sk_ek, sk_s, sk_h, sk_z by assumption. rewrite sk_rho by assumption. split; [exact HAr|].
  cbv zeta. rewrite Em, <- Eek. fold Kr. unfold G. fold Kr. fold c. split; [reflexivity|]. intros X. now destruct X.
Qed.

Lemma Encrypt_reduced lv A t rho x y : byte_array (384 * k (PS lv)) t ->
  K_PKE_Encrypt (PS lv) A (t ++ rho) x y = K_PKE_Encrypt (PS lv) A (canonical_key (PS lv) t ++ rho) x y.
Proof.
  intros Ht. unfold K_PKE_Encrypt.
  rewrite (firstn_l _ t rho (proj1 Ht)), (firstn_l _ (canonical_key (PS lv) t) rho (proj1 (canonical_key_array lv t))), canonical_key_decode. reflexivity.
Qed.

Lemma dec_reduced_key V (JJ : Junk) lv fuel ss ct s t rho h z :
  length ss = 32%nat -> byte_array (KYBER_CIPHERTEXTBYTES lv) ct ->
  byte_array (384 * k (PS lv)) s -> byte_array (384 * k (PS lv)) t -> byte_array 32 rho -> byte_array 32 h -> byte_array 32 z ->
  dec_of V JJ lv fuel ss ct (s ++ t ++ rho ++ h ++ z) = dec_of V JJ lv fuel ss ct (s ++ canonical_key (PS lv) t ++ rho ++ h ++ z).
Proof.
  intros Ls Hc Hs Ht Hr Hh Hz. pose proof (canonical_key_array lv t) as Ht'.
  assert (W : (exists T v v', dec_of V JJ lv fuel ss ct (s ++ t ++ rho ++ h ++ z) = Ok v T /\
               dec_of V JJ lv fuel ss ct (s ++ canonical_key (PS lv) t ++ rho ++ h ++ z) = Ok v' T) \/
              (dec_of V JJ lv fuel ss ct (s ++ t ++ rho ++ h ++ z) = Timeout /\
               dec_of V JJ lv fuel ss ct (s ++ canonical_key (PS lv) t ++ rho ++ h ++ z) = Timeout)).
  { destruct V; cbn [dec_of].
    - destruct (dec_timing lv fuel rho Hr) as [[T W]|W]; [left; exists T|right].
      + destruct (W JJ ss ct s t h z Ls Hc Hs Ht Hh Hz) as [v E]. destruct (W JJ ss ct s _ h z Ls Hc Hs Ht' Hh Hz) as [v' E'].
        exists v, v'. exact (conj E E').
      + exact (conj (W JJ ss ct s t h z Ls Hc Hs Ht Hh Hz) (W JJ ss ct s _ h z Ls Hc Hs Ht' Hh Hz)).
    - destruct (avx_dec_timing lv fuel rho Hr) as [[T W]|W]; [left; exists T|right].
      + destruct (W JJ ss ct s t h z Ls Hc Hs Ht Hh Hz) as [v E]. destruct (W JJ ss ct s _ h z Ls Hc Hs Ht' Hh Hz) as [v' E'].
        exists v, v'. exact (conj E E').
      + exact (conj (W JJ ss ct s t h z Ls Hc Hs Ht Hh Hz) (W JJ ss ct s _ h z Ls Hc Hs Ht' Hh Hz)). }
  destruct W as [(T & [K r] & [K' r'] & E & E')|[E E']]; rewrite E, E'; [|reflexivity].
  destruct (dec_of_sound _ _ _ _ _ _ _ _ _ _ Ls Hc (sk_of lv s t rho h z Hs Ht Hr Hh Hz) E) as [-> D].
  destruct (dec_of_sound _ _ _ _ _ _ _ _ _ _ Ls Hc (sk_of lv s _ rho h z Hs Ht' Hr Hh Hz) E') as [-> D'].
  replace K' with K; [reflexivity|]. apply (Decaps_internal_functional _ _ _ _ _ D).
  destruct D' as (A & HA & D'). exists A.
  rewrite sk_ek, sk_s, sk_h, sk_z in * by assumption. rewrite sk_rho in * by assumption. split; [exact HA|].
  cbv zeta in *. rewrite (Encrypt_reduced lv A t rho _ _ Ht). exact D'.
Qed.

Lemma dec_of_timing V lv fuel rho : byte_array 32 rho ->
  (exists T, forall (JJ : Junk) ss ct s t h z, length ss = 32%nat -> byte_array (KYBER_CIPHERTEXTBYTES lv) ct ->
     byte_array (384 * k (PS lv)) s -> byte_array (384 * k (PS lv)) t -> byte_array 32 h -> byte_array 32 z ->
     exists v, dec_of V JJ lv fuel ss ct (s ++ t ++ rho ++ h ++ z) = Ok v T) \/
  (forall (JJ : Junk) ss ct s t h z, length ss = 32%nat -> byte_array (KYBER_CIPHERTEXTBYTES lv) ct ->
     byte_array (384 * k (PS lv)) s -> byte_array (384 * k (PS lv)) t -> byte_array 32 h -> byte_array 32 z ->
     dec_of V JJ lv fuel ss ct (s ++ t ++ rho ++ h ++ z) = Timeout).
Proof. destruct V; [apply dec_timing|apply avx_dec_timing]. Qed.

Lemma zeros_array m : byte_array m (repeat 0 m).
Proof. split; [apply repeat_length|]. intros x Hx. apply repeat_spec in Hx. lia. Qed.

(** Every array of the right length with a seed whose matrix exists is accepted as a secret key *)
Lemma any_secret_key V lv rho A : byte_array 32 rho -> is_matrix (PS lv) rho A ->
  exists fuel0, forall fuel (JJ : Junk) ss ct s t h z, (fuel0 <= fuel)%nat -> length ss = 32%nat ->
    byte_array (KYBER_CIPHERTEXTBYTES lv) ct -> byte_array (384 * k (PS lv)) s -> byte_array (384 * k (PS lv)) t ->
    byte_array 32 h -> byte_array 32 z ->
    exists K T, dec_of V JJ lv fuel ss ct (s ++ t ++ rho ++ h ++ z) = Ok (K, 0) T.
Proof.
  intros Hr HA.
  pose proof (zeros_array (384 * k (PS lv))) as H0. pose proof (zeros_array 32) as H3. pose proof (zeros_array (KYBER_CIPHERTEXTBYTES lv)) as Hc0.
  assert (D : exists K, Decaps_internal (PS lv) (repeat 0 (384 * k (PS lv)) ++ repeat 0 (384 * k (PS lv)) ++ rho ++ repeat 0 32 ++ repeat 0 32)
                (repeat 0 (KYBER_CIPHERTEXTBYTES lv)) K).
  { set (c0 := repeat 0 (KYBER_CIPHERTEXTBYTES lv)) in *.
    set (s0 := repeat 0 (384 * k (PS lv))) in *. set (z0 := repeat 0 32) in *.
    set (r0 := reencrypted lv A s0 s0 rho z0 c0).
    destruct (list_eq_dec Z.eq_dec c0 r0) as [e|e].
    - exists (accept_key (K_PKE_Decrypt (PS lv) s0 c0 ++ z0)), A.
      rewrite sk_ek, sk_s, sk_h, sk_z by assumption. rewrite sk_rho by assumption. split; [exact HA|]. cbv zeta.
      split; [reflexivity|]. intros X. destruct (X e).
    - exists (reject_key (z0 ++ c0)), A.
      rewrite sk_ek, sk_s, sk_h, sk_z by assumption. rewrite sk_rho by assumption. split; [exact HA|]. cbv zeta.
      split; [|reflexivity]. intros X. destruct (e X). }
  destruct D as [K0 D]. destruct (dec_of_complete V lv _ _ _ Hc0 (sk_of lv _ _ _ _ _ H0 H0 Hr H3 H3) D) as [fuel0 F].
  exists fuel0. intros fuel JJ ss ct s t h z Lf Ls Hc Hs Ht Hh Hz.
  destruct (dec_of_timing V lv fuel rho Hr) as [[T W]|W].
  - destruct (W JJ ss ct s t h z Ls Hc Hs Ht Hh Hz) as [[K r] E]. exists K, T.
    destruct (dec_of_sound _ _ _ _ _ _ _ _ _ _ Ls Hc (sk_of lv s t rho h z Hs Ht Hr Hh Hz) E) as [-> _]. exact E.
  - destruct (F fuel JJ ss Lf Ls) as [T E]. rewrite (W JJ ss _ _ _ _ _ Ls Hc0 H0 H0 H3 H3) in E. discriminate E.
Qed.

Lemma wrong_hash_exists : exists s t rho h z fuel0,
  byte_array (384 * k (PS Kyber512)) s /\ byte_array (384 * k (PS Kyber512)) t /\ byte_array 32 rho /\ byte_array 32 h /\ byte_array 32 z /\
  h <> SHA3_256 (t ++ rho) /\
  forall V fuel (JJ : Junk) ss ct, (fuel0 <= fuel)%nat -> length ss = 32%nat -> byte_array (KYBER_CIPHERTEXTBYTES Kyber512) ct ->
    exists K T, dec_of V JJ Kyber512 fuel ss ct (s ++ t ++ rho ++ h ++ z) = Ok (K, 0) T.
Proof.
  demo_open. destruct (any_secret_key Reference Kyber512 demo_rho A Hr HA) as [f1 F1].
  destruct (any_secret_key Avx2 Kyber512 demo_rho A Hr HA) as [f2 F2].
  destruct (tampered_array 32 _ (Nat.lt_0_succ 31) Hh) as [Hh' NEh].
  exists s, t, demo_rho, (tampered (SHA3_256 (t ++ demo_rho))), demo_z, (f1 + f2)%nat.
  refine (conj Hs (conj Ht (conj Hr (conj Hh' (conj demo_z_bytes (conj NEh _)))))).
  assert (L1 : (f1 <= f1 + f2)%nat) by apply Nat.le_add_r. assert (L2 : (f2 <= f1 + f2)%nat) by (rewrite Nat.add_comm; apply Nat.le_add_r).
  intros V fuel JJ ss ct Lf Ls Hct. destruct V.
  - exact (F1 fuel JJ ss ct s t _ demo_z (Nat.le_trans _ _ _ L1 Lf) Ls Hct Hs Ht Hh' demo_z_bytes).
  - exact (F2 fuel JJ ss ct s t _ demo_z (Nat.le_trans _ _ _ L2 Lf) Ls Hct Hs Ht Hh' demo_z_bytes).
Qed.

Lemma of_noncanonical_accepted V lv rho A m : byte_array 32 rho -> is_matrix (PS lv) rho A -> byte_array 32 m ->
  exists fuel0, forall fuel (JJ : Junk) ct ss, (fuel0 <= fuel)%nat -> length ct = KYBER_CIPHERTEXTBYTES lv -> length ss = 32%nat ->
    exists c K T, enc_derand_of V JJ lv fuel ct ss (repeat 255 (384 * k (PS lv)) ++ rho) m = Ok (c, K, 0) T.
Proof. destruct V; [apply noncanonical_accepted|apply avx_noncanonical_accepted]. Qed.

(** ** Cases *)
Lemma case_tampering : exists s t h c c' K K' T T',
  byte_array (384 * k (PS Kyber512)) s /\ byte_array (384 * k (PS Kyber512)) t /\ byte_array 32 demo_rho /\ byte_array 32 h /\
  byte_array (KYBER_CIPHERTEXTBYTES Kyber512) c /\ byte_array (KYBER_CIPHERTEXTBYTES Kyber512) c' /\ c <> c' /\
  dec_of Reference no_junk Kyber512 2 (repeat 0 32) c (s ++ t ++ demo_rho ++ h ++ demo_z) = Ok (K, 0) T /\
  dec_of Reference no_junk Kyber512 2 (repeat 0 32) c' (s ++ t ++ demo_rho ++ h ++ demo_z) = Ok (K', 0) T'.
Proof.
  demo_open. exists s, t, (SHA3_256 (t ++ demo_rho)), c, (tampered c), K.
  do 3 eexists. refine (conj Hs (conj Ht (conj Hr (conj Hh (conj Hc (conj Hc' (conj _ (conj E3 E4)))))))).
  intros X. destruct (tampered_array (KYBER_CIPHERTEXTBYTES Kyber512) c) as [_ N]; [unfold KYBER_CIPHERTEXTBYTES; apply Nat.lt_0_succ|exact Hc|].
  apply N. now symmetry.
Qed.

(** ** The statements of C51, with the equality of the secrets last *)
Lemma tampering_eq V1 V2 lv f1 f2 (J1 J2 : Junk) ss1 ss2 ct1 ct2 s t rho h z K1 K2 r1 r2 T1 T2 :
  length ss1 = 32%nat -> length ss2 = 32%nat ->
  byte_array (KYBER_CIPHERTEXTBYTES lv) ct1 -> byte_array (KYBER_CIPHERTEXTBYTES lv) ct2 ->
  byte_array (384 * k (PS lv)) s -> byte_array (384 * k (PS lv)) t -> byte_array 32 rho -> byte_array 32 h -> byte_array 32 z ->
  dec_of V1 J1 lv f1 ss1 ct1 (s ++ t ++ rho ++ h ++ z) = Ok (K1, r1) T1 ->
  dec_of V2 J2 lv f2 ss2 ct2 (s ++ t ++ rho ++ h ++ z) = Ok (K2, r2) T2 ->
  ct1 <> ct2 -> K1 = K2 ->
  let m1 := K_PKE_Decrypt (PS lv) s ct1 in
  let m2 := K_PKE_Decrypt (PS lv) s ct2 in
  collide accept_key (m1 ++ h) (m2 ++ h) \/ collide reject_key (z ++ ct1) (z ++ ct2) \/
  accept_key (m1 ++ h) = reject_key (z ++ ct2) \/ reject_key (z ++ ct1) = accept_key (m2 ++ h).
Proof.
  intros Ls1 Ls2 Hc1 Hc2 Hs Ht Hr Hh Hz E1 E2 NE EK. subst K2.
  exact (tampering V1 V2 lv f1 f2 J1 J2 ss1 ss2 ct1 ct2 s t rho h z K1 r1 r2 T1 T2 Ls1 Ls2 Hc1 Hc2 Hs Ht Hr Hh Hz NE E1 E2).
Qed.

Lemma key_binding_eq V1 V2 lv f1 f2 (J1 J2 : Junk) ss1 ss2 ct1 ct2 s1 s2 pk1 pk2 z1 z2 K1 K2 r1 r2 T1 T2 :
  length ss1 = 32%nat -> byte_array (KYBER_CIPHERTEXTBYTES lv) ct1 -> byte_array (384 * k (PS lv)) s1 ->
  byte_array (KYBER_PUBLICKEYBYTES lv) pk1 -> byte_array 32 z1 ->
  length ss2 = 32%nat -> byte_array (KYBER_CIPHERTEXTBYTES lv) ct2 -> byte_array (384 * k (PS lv)) s2 ->
  byte_array (KYBER_PUBLICKEYBYTES lv) pk2 -> byte_array 32 z2 ->
  dec_of V1 J1 lv f1 ss1 ct1 (s1 ++ pk1 ++ SHA3_256 pk1 ++ z1) = Ok (K1, r1) T1 ->
  dec_of V2 J2 lv f2 ss2 ct2 (s2 ++ pk2 ++ SHA3_256 pk2 ++ z2) = Ok (K2, r2) T2 ->
  K1 = K2 ->
  let m1 := K_PKE_Decrypt (PS lv) s1 ct1 in
  let m2 := K_PKE_Decrypt (PS lv) s2 ct2 in
  (ct1 = ct2 /\ (pk1 = pk2 /\ m1 = m2 \/ z1 = z2)) \/
  collide SHA3_256 pk1 pk2 \/
  collide accept_key (m1 ++ SHA3_256 pk1) (m2 ++ SHA3_256 pk2) \/
  collide reject_key (z1 ++ ct1) (z2 ++ ct2) \/
  accept_key (m1 ++ SHA3_256 pk1) = reject_key (z2 ++ ct2) \/
  reject_key (z1 ++ ct1) = accept_key (m2 ++ SHA3_256 pk2).
Proof.
  intros Ls1 Hc1 Hs1 Hp1 Hz1 Ls2 Hc2 Hs2 Hp2 Hz2 E1 E2 EK. subst K2.
  exact (key_binding V1 V2 lv f1 f2 J1 J2 ss1 ss2 ct1 ct2 s1 s2 pk1 pk2 z1 z2 K1 r1 r2 T1 T2 Ls1 Hc1 Hs1 Hp1 Hz1 Ls2 Hc2 Hs2 Hp2 Hz2 E1 E2).
Qed.

Lemma enc_binding_eq V1 V2 lv f1 f2 (J1 J2 : Junk) ct1 ct2 ss1 ss2 pk1 pk2 m1 m2 c1 c2 K1 K2 r1 r2 T1 T2 :
  length ct1 = KYBER_CIPHERTEXTBYTES lv -> length ss1 = 32%nat -> byte_array (KYBER_PUBLICKEYBYTES lv) pk1 -> byte_array 32 m1 ->
  length ct2 = KYBER_CIPHERTEXTBYTES lv -> length ss2 = 32%nat -> byte_array (KYBER_PUBLICKEYBYTES lv) pk2 -> byte_array 32 m2 ->
  enc_derand_of V1 J1 lv f1 ct1 ss1 pk1 m1 = Ok (c1, K1, r1) T1 ->
  enc_derand_of V2 J2 lv f2 ct2 ss2 pk2 m2 = Ok (c2, K2, r2) T2 ->
  K1 = K2 ->
  (pk1 = pk2 /\ m1 = m2 /\ c1 = c2) \/
  collide SHA3_256 pk1 pk2 \/ collide accept_key (m1 ++ SHA3_256 pk1) (m2 ++ SHA3_256 pk2).
Proof.
  intros Lc1 Ls1 Hp1 Hm1 Lc2 Ls2 Hp2 Hm2 E1 E2 EK. subst K2.
  exact (enc_binding V1 V2 lv f1 f2 J1 J2 ct1 ct2 ss1 ss2 pk1 pk2 m1 m2 c1 c2 K1 r1 r2 T1 T2 Lc1 Ls1 Hp1 Hm1 Lc2 Ls2 Hp2 Hm2 E1 E2).
Qed.

(** A sender and a receiver whose ciphertext was replaced *)
Lemma replaced V1 V2 lv f1 f2 (J1 J2 : Junk) ctb ss1 ss2 pk m c K1 c' s z K2 r1 r2 T1 T2 :
  length ctb = KYBER_CIPHERTEXTBYTES lv -> length ss1 = 32%nat -> byte_array (KYBER_PUBLICKEYBYTES lv) pk -> byte_array 32 m ->
  length ss2 = 32%nat -> byte_array (KYBER_CIPHERTEXTBYTES lv) c' -> byte_array (384 * k (PS lv)) s -> byte_array 32 z ->
  enc_derand_of V1 J1 lv f1 ctb ss1 pk m = Ok (c, K1, r1) T1 ->
  dec_of V2 J2 lv f2 ss2 c' (s ++ pk ++ SHA3_256 pk ++ z) = Ok (K2, r2) T2 ->
  c' <> c -> K1 = K2 ->
  collide accept_key (m ++ SHA3_256 pk) (K_PKE_Decrypt (PS lv) s c' ++ SHA3_256 pk) \/
  accept_key (m ++ SHA3_256 pk) = reject_key (z ++ c').
Proof.
  intros Lc Ls1 Hp Hm Ls2 Hc Hs Hz E1 E2 NE EK. subst K2.
  destruct (enc_of_sound _ _ _ _ _ _ _ _ _ _ _ _ Lc Ls1 Hp Hm E1) as [_ (A1 & HA1 & EK1 & Ec)]. unfold G, H in EK1, Ec.
  destruct (pk_split lv pk Hp) as (t & rho & P & Ht & Hr).
  assert (F2 : dec_of V2 J2 lv f2 ss2 c' (s ++ t ++ rho ++ SHA3_256 pk ++ z) = Ok (K1, r2) T2).
  { rewrite <- E2. rewrite P at 2. rewrite <- !app_assoc. reflexivity. }
  destruct (dec_of_cases V2 J2 lv f2 ss2 c' s t rho _ z K1 r2 T2 Ls2 Hc Hs Ht Hr (hash_array pk) Hz F2) as (A2 & HA2 & [[C D]|[C D]]).
  - left. split.
    + intros X. apply NE. apply app_eq_app_len in X as [Xm _]; [|rewrite Decrypt_length; apply Hm].
      rewrite C, Ec. unfold reencrypted. rewrite <- Xm, <- P.
      rewrite P in HA1. rewrite sk_rho in HA1 by assumption. rewrite (is_matrix_functional _ _ _ _ HA1 HA2). reflexivity.
    + unfold accept_key in *. now rewrite <- EK1, <- D.
  - right. unfold accept_key. now rewrite <- EK1, <- D.
Qed.

Lemma case_replaced : exists pk s c K K' T T',
  byte_array (KYBER_PUBLICKEYBYTES Kyber512) pk /\ byte_array (384 * k (PS Kyber512)) s /\
  byte_array (KYBER_CIPHERTEXTBYTES Kyber512) (tampered c) /\ tampered c <> c /\
  enc_derand_of Reference no_junk Kyber512 2 (repeat 0 768) (repeat 0 32) pk demo_m = Ok (c, K, 0) T /\
  dec_of Reference no_junk Kyber512 2 (repeat 0 32) (tampered c) (s ++ pk ++ SHA3_256 pk ++ demo_z) = Ok (K', 0) T'.
Proof.
  demo_open. exists (t ++ demo_rho), s, c, K. do 3 eexists.
  refine (conj (demo_pk t Ht Hr) (conj Hs (conj Hc' (conj NE (conj E2 _))))).
  etransitivity; [|exact E4]. rewrite <- !app_assoc. reflexivity.
Qed.

Lemma case_any_hash : exists A h, byte_array 32 h /\ is_matrix (PS Kyber512) (keygen_rho (PS Kyber512) demo_d) A /\
  noise_decodes demo_m (decryption_noise (PS Kyber512) A demo_d demo_m (skipn 32 (SHA3_512 (demo_m ++ h)))).
Proof. demo_open. exists A, (SHA3_256 (t ++ demo_rho)). refine (conj Hh (conj HA _)). now apply noise_ok_decodes. Qed.
