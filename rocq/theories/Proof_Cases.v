(** * Concrete cases meeting the hypotheses of the KEM theorems *)
From Coq Require Import ZArith List Lia Bool.
From Verif Require Import CMonad WP Proof_Base Levels Model_Params Model_Indcpa Model_Randombytes Model_Kem Spec_FIPS202 Spec_FIPS203 Spec_Noise
  Proof_Hash Proof_Bits Proof_GenMatrix Proof_Indcpa Proof_Keypair Proof_Encrypt Proof_Kem Proof_Correct Proof_Api Proof_Random Vocab Vocab_Code Proof_Vocab
  Proof_PropPoly Proof_PropSample Proof_PropUtil Proof_PropKem Run_Kem Proof_Demo.
Import ListNotations.
Open Scope Z_scope.
Local Opaque SHA3_256 SHA3_512 SHAKE256 SHAKE128.
Local Opaque crypto_kem_keypair_derand crypto_kem_enc_derand crypto_kem_dec indcpa_dec indcpa_enc indcpa_keypair_derand.

Lemma byte_array_split m1 m2 a b : length a = m1 -> byte_array (m1 + m2) (a ++ b) -> byte_array m1 a /\ byte_array m2 b.
Proof.
  intros L [L' B]. rewrite app_length in L'. split; split; try lia; intros x Hx; apply B, in_or_app; [now left|now right].
Qed.

Definition demo_rho : list Z := keygen_rho (PS Kyber512) demo_d.

(** The run of [Run_Kem] with the keys cut into their parts *)
Lemma demo_parts : exists A s t c K T1 T2 T3 T4,
  let ek := t ++ demo_rho in
  let h := SHA3_256 ek in
  byte_array (384 * k (PS Kyber512)) s /\ byte_array (384 * k (PS Kyber512)) t /\ byte_array 32 demo_rho /\
  byte_array 32 h /\ byte_array (KYBER_CIPHERTEXTBYTES Kyber512) c /\
  byte_array (KYBER_CIPHERTEXTBYTES Kyber512) (tampered c) /\ byte_array 32 K /\
  demo_facts A ek (s ++ t ++ demo_rho ++ h ++ demo_z) c K T1 T2 T3 T4.
Proof.
  destruct demo as (A & ek & dk & c & K & T1 & T2 & T3 & T4 & F).
  pose proof F as (HA & E1 & E2 & E3 & HN & NE & E4).
  destruct (secret_key_layout Kyber512 2 no_junk _ _ _ _ _ _ _ _ len_pk len_sk demo_d_bytes demo_z_bytes E1) as (Hek & Hdk & A' & HA' & Eek & Edk).
  destruct (published_seed Kyber512 2 no_junk _ _ _ _ _ _ _ _ len_pk len_sk demo_d_bytes demo_z_bytes E1) as (t & Lt & Et).
  destruct (enc_sizes Kyber512 2 no_junk _ _ _ _ _ _ _ _ len_ct len32 Hek demo_m_bytes E2) as [Hc HK].
  destruct (tampered_array (KYBER_CIPHERTEXTBYTES Kyber512) c) as [Hc' _]; [unfold KYBER_CIPHERTEXTBYTES; apply Nat.lt_0_succ|exact Hc|].
  fold demo_rho in Et.
  pose proof (sk_sizes Kyber512) as (_ & S2 & S3).
  assert (Hek' : byte_array (384 * k (PS Kyber512) + 32) (t ++ demo_rho)) by (rewrite <- S3, <- Et; exact Hek).
  destruct (byte_array_split _ _ _ _ Lt Hek') as [Ht Hr].
  assert (Hdk' : byte_array (384 * k (PS Kyber512) + (384 * k (PS Kyber512) + (32 + (32 + 32)))) dk) by (rewrite <- S2; exact Hdk).
  assert (Ls : length (snd (K_PKE_KeyGen (PS Kyber512) A' demo_d)) = (384 * k (PS Kyber512))%nat).
  { destruct Hdk' as [L _]. rewrite Edk, !app_length in L. rewrite (proj1 demo_z_bytes) in L.
    destruct Hek' as [L2 _]. rewrite <- Et in L2.
    assert (L3 : length (SHA3_256 ek) = 32%nat) by apply SHA3_256_length. lia. }
  rewrite Edk in Hdk'. destruct (byte_array_split _ _ _ _ Ls Hdk') as [Hs Hrest].
  assert (Hh : byte_array 32 (SHA3_256 ek)) by (split; [apply SHA3_256_length|apply bytes_all_bytes, SHA3_256_bytes]).
  exists A, (snd (K_PKE_KeyGen (PS Kyber512) A' demo_d)), t, c, K, T1, T2, T3, T4. cbv zeta. rewrite <- Et.
  split; [exact Hs|]. split; [exact Ht|]. split; [exact Hr|]. split; [exact Hh|]. split; [exact Hc|]. split; [exact Hc'|]. split; [exact HK|].
  replace (snd (K_PKE_KeyGen (PS Kyber512) A' demo_d) ++ t ++ demo_rho ++ SHA3_256 ek ++ demo_z) with dk; [exact F|].
  rewrite Edk, Et, <- app_assoc. reflexivity.
Qed.

Ltac demo_open :=
  destruct demo_parts as (A & s & t & c & K & T1 & T2 & T3 & T4 & F); cbv zeta in F;
  destruct F as (Hs & Ht & Hr & Hh & Hc & Hc' & HK & HA & E1 & E2 & E3 & HN & NE & E4).

Lemma case_exchange : exists A ek dk c K T1 T2 T3,
  is_matrix (PS Kyber512) (keygen_rho (PS Kyber512) demo_d) A /\
  @crypto_kem_keypair_derand no_junk Kyber512 2 (repeat 0 800) (repeat 0 1632) (demo_d ++ demo_z) = Ok (ek, dk, 0) T1 /\
  @crypto_kem_enc_derand no_junk Kyber512 2 (repeat 0 768) (repeat 0 32) ek demo_m = Ok (c, K, 0) T2 /\
  @crypto_kem_dec no_junk Kyber512 2 (repeat 0 32) c dk = Ok (K, 0) T3 /\
  noise_decodes demo_m (decryption_noise (PS Kyber512) A demo_d demo_m (skipn 32 (SHA3_512 (demo_m ++ SHA3_256 ek)))).
Proof.
  destruct demo as (A & ek & dk & c & K & T1 & T2 & T3 & T4 & HA & E1 & E2 & E3 & HN & _).
  exists A, ek, dk, c, K, T1, T2, T3. repeat (split; [assumption|]). now apply noise_ok_decodes.
Qed.

Lemma case_KeyGen : exists ek dk, KeyGen_internal (PS Kyber512) demo_d demo_z ek dk.
Proof.
  demo_open. do 2 eexists. exact (proj2 (keypair_sound' _ _ _ _ _ _ _ _ _ _ _ len_pk len_sk demo_d_bytes demo_z_bytes E1)).
Qed.

Lemma demo_pk t : byte_array (384 * k (PS Kyber512)) t -> byte_array 32 demo_rho -> byte_array (KYBER_PUBLICKEYBYTES Kyber512) (t ++ demo_rho).
Proof. intros Ht Hr. exact (pk_of Kyber512 t demo_rho Ht Hr). Qed.

Lemma case_Encaps : exists ek K c, byte_array (KYBER_PUBLICKEYBYTES Kyber512) ek /\ Encaps_internal (PS Kyber512) ek demo_m K c.
Proof.
  demo_open. pose proof (demo_pk t Ht Hr) as Hp. exists (t ++ demo_rho), K, c. split; [exact Hp|].
  exact (proj2 (enc_sound _ _ _ _ _ _ _ _ _ _ _ len_ct len32 Hp demo_m_bytes E2)).
Qed.

Lemma case_Decaps : exists dk c c' K K', byte_array (KYBER_SECRETKEYBYTES Kyber512) dk /\
  byte_array (KYBER_CIPHERTEXTBYTES Kyber512) c /\ byte_array (KYBER_CIPHERTEXTBYTES Kyber512) c' /\ c' <> c /\
  Decaps_internal (PS Kyber512) dk c K /\ Decaps_internal (PS Kyber512) dk c' K'.
Proof.
  demo_open. pose proof (sk_of Kyber512 s t demo_rho _ demo_z Hs Ht Hr Hh demo_z_bytes) as Hdk.
  exists (s ++ t ++ demo_rho ++ SHA3_256 (t ++ demo_rho) ++ demo_z), c, (tampered c). do 2 eexists.
  split; [exact Hdk|]. split; [exact Hc|]. split; [exact Hc'|]. split; [exact NE|].
  split; [exact (proj2 (dec_sound _ _ _ _ _ _ _ _ _ len32 Hc Hdk E3))|exact (proj2 (dec_sound _ _ _ _ _ _ _ _ _ len32 Hc' Hdk E4))].
Qed.

Lemma case_rejection : exists s t h c c' K T T',
  byte_array (KYBER_CIPHERTEXTBYTES Kyber512) c /\ byte_array (KYBER_CIPHERTEXTBYTES Kyber512) c' /\ c' <> c /\
  byte_array (384 * k (PS Kyber512)) s /\ byte_array (384 * k (PS Kyber512)) t /\ byte_array 32 demo_rho /\ byte_array 32 h /\
  @crypto_kem_dec no_junk Kyber512 2 (repeat 0 32) c (s ++ t ++ demo_rho ++ h ++ demo_z) = Ok (K, 0) T /\
  @crypto_kem_dec no_junk Kyber512 2 (repeat 0 32) c' (s ++ t ++ demo_rho ++ h ++ demo_z) = Ok (SHAKE256 (demo_z ++ c') 32, 0) T'.
Proof.
  demo_open. exists s, t, (SHA3_256 (t ++ demo_rho)), c, (tampered c), K, T3, T4. repeat (split; [assumption|]). exact E4.
Qed.

Lemma case_dec_timing : exists T, forall (JJ : Junk) ss ct s t h z, length ss = 32%nat -> byte_array (KYBER_CIPHERTEXTBYTES Kyber512) ct ->
  byte_array (384 * k (PS Kyber512)) s -> byte_array (384 * k (PS Kyber512)) t -> byte_array 32 h -> byte_array 32 z ->
  exists v, crypto_kem_dec Kyber512 2 ss ct (s ++ t ++ demo_rho ++ h ++ z) = Ok v T.
Proof.
  demo_open. destruct (dec_timing Kyber512 2 demo_rho Hr) as [D|D]; [exact D|].
  rewrite (D no_junk _ _ _ _ _ _ len32 Hc Hs Ht Hh demo_z_bytes) in E3. discriminate.
Qed.

Lemma case_keypair_timing : exists T, forall (JJ : Junk) pk sk d z, length pk = KYBER_PUBLICKEYBYTES Kyber512 ->
  length sk = KYBER_SECRETKEYBYTES Kyber512 -> byte_array 32 d -> byte_array 32 z -> keygen_rho (PS Kyber512) d = demo_rho ->
  exists v, crypto_kem_keypair_derand Kyber512 2 pk sk (d ++ z) = Ok v T.
Proof.
  demo_open. destruct (keypair_timing Kyber512 2 demo_rho) as [D|D]; [exact D|].
  rewrite (D no_junk _ _ _ _ len_pk len_sk demo_d_bytes demo_z_bytes eq_refl) in E1. discriminate.
Qed.

Lemma case_enc_timing : exists T, forall (JJ : Junk) ct ss t m, length ct = KYBER_CIPHERTEXTBYTES Kyber512 -> length ss = 32%nat ->
  byte_array (384 * k (PS Kyber512)) t -> byte_array 32 m ->
  exists v, crypto_kem_enc_derand Kyber512 2 ct ss (t ++ demo_rho) m = Ok v T.
Proof.
  demo_open. destruct (enc_timing Kyber512 2 demo_rho Hr) as [D|D]; [exact D|].
  rewrite (D no_junk _ _ _ _ len_ct len32 Ht demo_m_bytes) in E2. discriminate.
Qed.

(** Interrupted, 20 bytes, interrupted, the other 44 bytes; one more reply is left unread *)
Definition demo_sched : list reply :=
  [Interrupted; Delivered (firstn 20 (demo_d ++ demo_z)); Interrupted; Delivered (skipn 20 (demo_d ++ demo_z))].
Lemma demo_sched_ok : kernel_ok (demo_sched ++ [Failed]) 64 /\ ~ In Failed demo_sched /\ shortest demo_sched 64 /\
  delivered demo_sched = demo_d ++ demo_z.
Proof.
  assert (B : all_bytes (demo_d ++ demo_z)) by exact (proj2 (coins_of _ _ demo_d_bytes demo_z_bytes)).
  assert (B1 : forall x, In x (firstn 20 (demo_d ++ demo_z)) -> 0 <= x < 256) by (intros x Hx; apply B; rewrite <- (firstn_skipn 20); apply in_or_app; now left).
  assert (B2 : forall x, In x (skipn 20 (demo_d ++ demo_z)) -> 0 <= x < 256) by (intros x Hx; apply B; rewrite <- (firstn_skipn 20); apply in_or_app; now right).
  split; [|split; [|split]].
  - unfold demo_sched. cbn [app kernel_ok]. right. right.
    split; [cbn; lia|]. split; [exact B1|]. right. right. split; [cbn; lia|]. split; [exact B2|]. right. exact I.
  - unfold demo_sched. cbn [In]. intros [E|[E|[E|[E|[]]]]]; discriminate.
  - unfold demo_sched. intros u v E N.
    destruct u as [|a [|b [|c [|d u]]]]; cbn [app] in E.
    + cbn; lia.
    + injection E as E _. subst a. cbn. lia.
    + injection E as E E' _. subst a b. cbn. lia.
    + injection E as E E' E'' _. subst a b c. cbn. lia.
    + injection E as _ _ _ _ E. symmetry in E. apply app_eq_nil in E as [_ E]. contradiction.
  - reflexivity.
Qed.

Lemma case_random_keypair : exists ek dk T,
  @crypto_kem_keypair no_junk Kyber512 2 (demo_sched ++ [Failed]) (repeat 0 800) (repeat 0 1632) = Ok (ek, dk, 0, [Failed]) T.
Proof.
  demo_open. destruct demo_sched_ok as (KO & NF & SH & ED).
  assert (L : length (delivered demo_sched) = 64%nat) by (rewrite ED; reflexivity).
  pose proof (keypair_random_derand Kyber512 2 no_junk demo_sched [Failed] (repeat 0 800) (repeat 0 1632) KO NF SH L) as R.
  rewrite ED, E1 in R. destruct R as [T R]. do 2 eexists. exists T. exact R.
Qed.

Lemma case_random_enc : exists t c K T,
  @crypto_kem_enc no_junk Kyber512 2 [Interrupted; Delivered demo_m; Failed] (repeat 0 768) (repeat 0 32) (t ++ demo_rho)
  = Ok (c, K, 0, [Failed]) T.
Proof.
  demo_open. exists t.
  assert (KO : kernel_ok ([Interrupted; Delivered demo_m] ++ [Failed]) 32).
  { cbn [app kernel_ok]. right. right. split; [cbn; lia|]. split; [exact (proj2 demo_m_bytes)|]. right. exact I. }
  assert (NF : ~ In Failed [Interrupted; Delivered demo_m]) by (intros [E|[E|[]]]; discriminate).
  assert (ED : delivered [Interrupted; Delivered demo_m] = demo_m) by reflexivity.
  assert (SH : shortest [Interrupted; Delivered demo_m] 32).
  { intros u v E N. destruct u as [|a [|b u]]; cbn [app] in E.
    - cbn; lia.
    - injection E as E _. subst a. cbn. lia.
    - injection E as _ _ E. symmetry in E. apply app_eq_nil in E as [_ E]. contradiction. }
  assert (L : length (delivered [Interrupted; Delivered demo_m]) = 32%nat) by reflexivity.
  pose proof (enc_random_derand Kyber512 2 no_junk _ [Failed] (repeat 0 768) (repeat 0 32) (t ++ demo_rho) KO NF SH L) as R.
  rewrite ED, E2 in R. destruct R as [T R]. do 2 eexists. exists T. exact R.
Qed.

Lemma app_same_tail {A} (a b c d : list A) : length b = length d -> a ++ b = c ++ d -> a = c.
Proof.
  intros L E. assert (La : length a = length c) by (apply (f_equal (@length A)) in E; rewrite !app_length in E; lia).
  apply (f_equal (firstn (length a))) in E. rewrite firstn_l in E by reflexivity. rewrite La, firstn_l in E by reflexivity. exact E.
Qed.

(** ** C30: such keys exist and are accepted *)
Lemma noncanonical_exists : exists pk fuel0,
  byte_array (KYBER_PUBLICKEYBYTES Kyber512) pk /\
  (forall v rho, length v = k (PS Kyber512) -> (forall f, In f v -> length f = 256%nat /\ in_range 0 (q - 1) f) -> length rho = 32%nat ->
     pk <> flat_map (ByteEncode 12) v ++ rho) /\
  forall m fuel (JJ : Junk) ct ss, byte_array 32 m -> (fuel0 <= fuel)%nat -> length ct = KYBER_CIPHERTEXTBYTES Kyber512 -> length ss = 32%nat ->
    exists c K T, crypto_kem_enc_derand Kyber512 fuel ct ss pk m = Ok (c, K, 0) T.
Proof.
  demo_open. set (ff := repeat 255 (384 * k (PS Kyber512))).
  assert (Hff : byte_array (384 * k (PS Kyber512)) ff).
  { split; [apply repeat_length|]. intros x Hx. apply repeat_spec in Hx. lia. }
  pose proof (demo_pk ff Hff Hr) as Hp.
  destruct (is_matrix_enough Kyber512 _ A HA) as [f0 F0].
  exists (ff ++ demo_rho), f0. split; [exact Hp|]. split.
  - intros v rho Lv Hv Lr E. apply (ff_not_canonical Kyber512 v Lv Hv). fold ff.
    symmetry. refine (app_same_tail _ _ _ _ _ E). rewrite Lr. apply Hr.
  - intros m fuel JJ ct ss Hm Hf Lct Lss. pose proof (enough_all_mono Kyber512 f0 fuel _ Hf F0) as HE.
    destruct (enc_derand_wp Kyber512 fuel _ HE) as [T W].
    destruct (W JJ ct ss (ff ++ demo_rho) m Lct Lss (proj1 Hp) (bytes_of_bytes _ _ Hp) (proj1 Hm) (bytes_of_bytes _ _ Hm)) as (v & Ev & EQ).
    + exact (sk_rho Kyber512 ff demo_rho Hff).
    + rewrite Ev, EQ. rewrite (surjective_pairing (kem_enc _ _ _ _ _)). do 3 eexists. reflexivity.
Qed.

Lemma case_pke : exists A fuel pk sk c T1 T2,
  is_matrix (PS Kyber512) (keygen_rho (PS Kyber512) demo_d) A /\
  @indcpa_keypair_derand no_junk Kyber512 fuel (repeat 0 800) 0 (repeat 0 768) 0 demo_d 0 = Ok (pk, sk) T1 /\
  @indcpa_enc no_junk Kyber512 fuel (repeat 0 768) 0 demo_m 0 pk 0 demo_z 0 = Ok c T2.
Proof.
  demo_open.
  destruct (pke_keypair_complete Kyber512 demo_d A demo_d_bytes HA) as [f1 F1].
  set (pk := fst (K_PKE_KeyGen (PS Kyber512) A demo_d)).
  assert (LA : length A = k (PS Kyber512)) by apply HA.
  assert (Hp : byte_array (KYBER_INDCPA_PUBLICKEYBYTES Kyber512) pk).
  { apply bytes_bytes_of; [exact (KeyGen_ek_length Kyber512 A demo_d LA)|apply KeyGen_ek_bytes]. }
  assert (HA' : is_matrix (PS Kyber512) (ek_rho (PS Kyber512) pk) A) by (unfold pk; rewrite (ek_rho_KeyGen Kyber512 A demo_d LA); exact HA).
  destruct (pke_enc_complete Kyber512 demo_m pk demo_z A demo_m_bytes Hp demo_z_bytes HA') as [f2 F2].
  destruct (F1 (f1 + f2)%nat no_junk (repeat 0 800) (repeat 0 768)) as [Ta Ea]; [lia|apply repeat_length|apply repeat_length|].
  destruct (F2 (f1 + f2)%nat no_junk (repeat 0 768)) as [Tb Eb]; [lia|apply repeat_length|].
  exists A, (f1 + f2)%nat, pk, (snd (K_PKE_KeyGen (PS Kyber512) A demo_d)), (K_PKE_Encrypt (PS Kyber512) A pk demo_m demo_z), Ta, Tb.
  split; [exact HA|]. split; [|exact Eb]. exact (eq_trans Ea (f_equal (fun v => Ok v Ta) (surjective_pairing (K_PKE_KeyGen (PS Kyber512) A demo_d)))).
Qed.
