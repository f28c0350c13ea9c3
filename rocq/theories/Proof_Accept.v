(** * C75: which ciphertexts are accepted *)
From Coq Require Import ZArith List Lia Bool.
From Verif Require Import CMonad WP Proof_Base Proof_Vocab Proof_Bits Levels Model_Params Model_Indcpa Model_Kem Model_AvxKem Spec_FIPS202 Spec_FIPS203 Spec_Games Vocab Vocab_Code Vocab_Avx Vocab_Dist Vocab_Accept Spec_Noise Proof_Keypair
  Proof_Hash Proof_GenMatrix Proof_Indcpa Proof_Encrypt Proof_Kem Proof_Correct Proof_Api Proof_Dist Proof_Games Proof_PropKem Proof_AvxKem Proof_AvxApi Proof_PropAvxKem Cases Run_Kem Proof_Demo Proof_Cases.
Import ListNotations.
Open Scope Z_scope.
Lemma below_length : length (below 256) = 256%nat.
Proof. reflexivity. Qed.
#[local] Opaque SHAKE256 SHA3_256 SHA3_512 below.
#[local] Opaque crypto_kem_keypair_derand crypto_kem_enc_derand indcpa_dec crypto_kem_dec crypto_kem_dec_avx2 K_PKE_Encrypt K_PKE_Decrypt.

Lemma strings_in m w : In w (strings m) <-> byte_array m w.
Proof.
  unfold strings. rewrite words_in. unfold byte_array, all_bytes. split; intros [L R]; (split; [exact L|]); intros x Hx; apply below_in, R, Hx.
Qed.
Lemma words_length {X} (D : list X) m : length (words D m) = (length D ^ m)%nat.
Proof.
  induction m as [|m IH]; [reflexivity|]. cbn [words Nat.pow]. rewrite <- IH. generalize (words D m). intros W. clear.
  induction D as [|x D IH]; [reflexivity|]. cbn [flat_map length Nat.mul]. now rewrite app_length, map_length, IH.
Qed.
Lemma strings_count : Z.of_nat (length (strings 32)) = 2 ^ 256.
Proof.
  unfold strings. rewrite words_length, Nat2Z.inj_pow.
  rewrite below_length. reflexivity.
Qed.
Lemma strings_length m : Z.of_nat (length (strings m)) = 256 ^ Z.of_nat m.
Proof. unfold strings. rewrite words_length, Nat2Z.inj_pow, below_length. reflexivity. Qed.
Lemma strings_nodup m : NoDup (strings m).
Proof. apply words_nodup, below_nodup. Qed.
#[local] Opaque strings.

Lemma Decrypt_array lv s c : byte_array 32 (K_PKE_Decrypt (PS lv) s c).
Proof. apply bytes_bytes_of; [apply Decrypt_length|apply Decrypt_bytes]. Qed.
Lemma derandomised_array lv A ek h m : byte_array (KYBER_CIPHERTEXTBYTES lv) (derandomised (PS lv) A ek h m).
Proof. apply bytes_bytes_of; [apply Encrypt_length|apply Encrypt_bytes]. Qed.

Lemma accepted_iff lv A s ek h c : accepted_ciphertext lv A s ek h c <-> exists m, recovered_message lv A s ek h m /\ derandomised (PS lv) A ek h m = c.
Proof.
  unfold accepted_ciphertext, recovered_message. split.
  - intros [B E]. exists (K_PKE_Decrypt (PS lv) s c). split; [|now symmetry]. split; [apply Decrypt_array|]. now rewrite <- E.
  - intros (m & [B E] & <-). split; [apply derandomised_array|]. now rewrite E.
Qed.
Lemma accepted_count lv A s ek h : exists N, counted (accepted_ciphertext lv A s ek h) N /\ counted (recovered_message lv A s ek h) N /\ N <= 2 ^ 256.
Proof.
  set (t := fun m => if list_eq_dec Z.eq_dec (K_PKE_Decrypt (PS lv) s (derandomised (PS lv) A ek h m)) m then true else false).
  set (L := filter t (strings 32)).
  assert (IN : forall m, In m L <-> recovered_message lv A s ek h m).
  { intros m. unfold L, recovered_message, t. rewrite filter_In, strings_in. destruct (list_eq_dec _ _ _) as [E|E]; split; intros [H1 H2]; auto; try discriminate. }
  assert (ND : NoDup L) by (apply NoDup_filter, strings_nodup).
  exists (Z.of_nat (length L)). split; [|split].
  - apply (counted_map L (derandomised (PS lv) A ek h)); [exact ND| |].
    + intros m m' Hm Hm' E. apply IN in Hm as [_ Hm]. apply IN in Hm' as [_ Hm']. rewrite <- Hm, <- Hm'. now rewrite E.
    + intros c. rewrite accepted_iff. split; intros (m & Hm & E); exists m; (split; [now apply IN|exact E]).
  - exists L. split; [exact ND|]. split; [exact IN|reflexivity].
  - rewrite <- strings_count. apply Nat2Z.inj_le. unfold L. clear. induction (strings 32) as [|x l IH]; [apply le_n|]. cbn [filter]. destruct (t x); cbn [length]; lia.
Qed.
Lemma accepted_message lv A s ek h c c' : accepted_ciphertext lv A s ek h c -> accepted_ciphertext lv A s ek h c' ->
  K_PKE_Decrypt (PS lv) s c = K_PKE_Decrypt (PS lv) s c' -> c = c'.
Proof. intros [_ E] [_ E'] M. exact (eq_trans E (eq_trans (f_equal (derandomised (PS lv) A ek h) M) (eq_sym E'))). Qed.

Lemma dec_accepted V lv fuel (JJ : Junk) ss ct s t rho h z ss' r T A :
  length ss = 32%nat -> byte_array (KYBER_CIPHERTEXTBYTES lv) ct ->
  byte_array (384 * k (PS lv)) s -> byte_array (384 * k (PS lv)) t -> byte_array 32 rho -> byte_array 32 h -> byte_array 32 z ->
  dec_of V JJ lv fuel ss ct (s ++ t ++ rho ++ h ++ z) = Ok (ss', r) T -> is_matrix (PS lv) rho A ->
  (accepted_ciphertext lv A s (t ++ rho) h ct -> ss' = firstn 32 (SHA3_512 (K_PKE_Decrypt (PS lv) s ct ++ h))) /\
  (~ accepted_ciphertext lv A s (t ++ rho) h ct -> ss' = SHAKE256 (z ++ ct) 32).
Proof.
  intros Ls Hc Hs Ht Hr Hh Hz E HA.
  assert (X : exists A, is_matrix (PS lv) rho A /\
    let m := K_PKE_Decrypt (PS lv) s ct in let Kr := SHA3_512 (m ++ h) in
    let ct' := K_PKE_Encrypt (PS lv) A (t ++ rho) m (skipn 32 Kr) in
    (ct = ct' /\ ss' = firstn 32 Kr) \/ (ct <> ct' /\ ss' = SHAKE256 (z ++ ct) 32)).
  { destruct V; [exact (proj2 (implicit_rejection lv fuel JJ ss ct s t rho h z ss' r T Ls Hc Hs Ht Hr Hh Hz E))
                |exact (proj2 (avx_implicit_rejection lv fuel JJ ss ct s t rho h z ss' r T Ls Hc Hs Ht Hr Hh Hz E))]. }
  destruct X as (A' & HA' & D). cbv zeta in D. rewrite (is_matrix_functional _ _ _ _ HA' HA) in D. unfold accepted_ciphertext, derandomised.
  destruct D as [[D1 D2]|[D1 D2]]; split; intros H; try exact D2.
  - exfalso. apply H. split; [exact Hc|exact D1].
  - exfalso. apply D1. exact (proj2 H).
Qed.
Lemma dec_other V lv fuel (JJ : Junk) ss c c' s t rho h z ss' r T A :
  length ss = 32%nat -> byte_array (KYBER_CIPHERTEXTBYTES lv) c' ->
  byte_array (384 * k (PS lv)) s -> byte_array (384 * k (PS lv)) t -> byte_array 32 rho -> byte_array 32 h -> byte_array 32 z ->
  accepted_ciphertext lv A s (t ++ rho) h c -> c' <> c -> K_PKE_Decrypt (PS lv) s c' = K_PKE_Decrypt (PS lv) s c ->
  dec_of V JJ lv fuel ss c' (s ++ t ++ rho ++ h ++ z) = Ok (ss', r) T -> is_matrix (PS lv) rho A ->
  ss' = SHAKE256 (z ++ c') 32.
Proof.
  intros Ls Hc Hs Ht Hr Hh Hz HC N M E HA.
  apply (proj2 (dec_accepted V lv fuel JJ ss c' s t rho h z ss' r T A Ls Hc Hs Ht Hr Hh Hz E HA)).
  intros HC'. apply N. exact (accepted_message _ _ _ _ _ _ _ HC' HC M).
Qed.

Lemma outside {X} (D : forall x y : X, {x = y} + {x <> y}) (L1 L2 : list X) : NoDup L1 -> (length L2 < length L1)%nat -> exists x, In x L1 /\ ~ In x L2.
Proof.
  intros ND LT. destruct (Exists_dec (fun x => ~ In x L2) L1) as [Y|N].
  - intros x. destruct (in_dec D x L2) as [I|I]; [right; tauto|left; exact I].
  - apply Exists_exists in Y as (x & I & O). eauto.
  - exfalso. assert (I : incl L1 L2).
    { intros x Hx. destruct (in_dec D x L2) as [I|I]; [exact I|]. exfalso. apply N, Exists_exists. eauto. }
    apply (NoDup_incl_length ND) in I. lia.
Qed.
Lemma no_encryption lv A ek h : exists ct, byte_array (KYBER_CIPHERTEXTBYTES lv) ct /\ forall m, byte_array 32 m -> derandomised (PS lv) A ek h m <> ct.
Proof.
  destruct (outside (list_eq_dec Z.eq_dec) (strings (KYBER_CIPHERTEXTBYTES lv)) (map (derandomised (PS lv) A ek h) (strings 32))) as (ct & I & O).
  - apply strings_nodup.
  - rewrite map_length. apply Nat2Z.inj_lt. rewrite strings_count, strings_length. change (2 ^ 256) with (256 ^ 32).
    apply Z.pow_lt_mono_r; [lia|lia|]. destruct lv; cbv; reflexivity.
  - exists ct. split; [now apply strings_in|]. intros m Hm E. apply O, in_map_iff. exists m. split; [exact E|now apply strings_in].
Qed.

Lemma dec_oracle V lv fuel (JJ : Junk) ss ct s t rho h z ss' r T A :
  length ss = 32%nat -> byte_array (KYBER_CIPHERTEXTBYTES lv) ct ->
  byte_array (384 * k (PS lv)) s -> byte_array (384 * k (PS lv)) t -> byte_array 32 rho -> byte_array 32 h -> byte_array 32 z ->
  dec_of V JJ lv fuel ss ct (s ++ t ++ rho ++ h ++ z) = Ok (ss', r) T -> is_matrix (PS lv) rho A ->
  (forall m, recovered_message lv A s (t ++ rho) h m -> derandomised (PS lv) A (t ++ rho) h m = ct -> ss' = firstn 32 (SHA3_512 (m ++ h))) /\
  ((forall m, byte_array 32 m -> derandomised (PS lv) A (t ++ rho) h m <> ct) -> ss' = SHAKE256 (z ++ ct) 32).
Proof.
  intros Ls Hc Hs Ht Hr Hh Hz E HA.
  destruct (dec_accepted V lv fuel JJ ss ct s t rho h z ss' r T A Ls Hc Hs Ht Hr Hh Hz E HA) as [D1 D2]. split.
  - intros m RM EC. assert (AC : accepted_ciphertext lv A s (t ++ rho) h ct) by (apply accepted_iff; exists m; split; assumption).
    etransitivity; [exact (D1 AC)|]. destruct RM as [_ RM]. rewrite EC in RM. now rewrite RM.
  - intros NO. apply D2. intros AC. apply accepted_iff in AC as (m & [Hm _] & EC). exact (NO m Hm EC).
Qed.

(** ** Generated keys *)
Lemma generated_messages V lv fuel (JJ : Junk) pk sk d z ek dk r T A m :
  length pk = KYBER_PUBLICKEYBYTES lv -> length sk = KYBER_SECRETKEYBYTES lv -> byte_array 32 d -> byte_array 32 z ->
  keypair_derand_of V JJ lv fuel pk sk (d ++ z) = Ok (ek, dk, r) T -> is_matrix (PS lv) (keygen_rho (PS lv) d) A ->
  (recovered_message lv A (firstn (384 * k (PS lv)) dk) ek (SHA3_256 ek) m <->
   byte_array 32 m /\ noise_decodes m (decryption_noise (PS lv) A d m (skipn 32 (SHA3_512 (m ++ SHA3_256 ek))))).
Proof.
  intros Lp Ls Hd Hz E HA.
  assert (X : exists A, is_matrix (PS lv) (keygen_rho (PS lv) d) A /\ ek = fst (K_PKE_KeyGen (PS lv) A d) /\ dk = snd (K_PKE_KeyGen (PS lv) A d) ++ ek ++ SHA3_256 ek ++ z).
  { pose proof (published_sizes lv) as PZ. injection PZ as P1 P2 P3. rewrite P1 in Lp. rewrite P2 in Ls.
    destruct V; [exact (proj2 (proj2 (secret_key_layout lv fuel JJ pk sk d z ek dk r T Lp Ls Hd Hz E)))
                |exact (proj2 (proj2 (avx_secret_key_layout lv fuel JJ pk sk d z ek dk r T Lp Ls Hd Hz E)))]. }
  destruct X as (A' & HA' & Eek & Edk). rewrite (is_matrix_functional _ _ _ _ HA' HA) in Eek, Edk. clear A' HA'.
  assert (Es : firstn (384 * k (PS lv)) dk = snd (K_PKE_KeyGen (PS lv) A d)).
  { assert (L : length (snd (K_PKE_KeyGen (PS lv) A d)) = (384 * k (PS lv))%nat).
    { rewrite (KeyGen_dk_length lv A d). destruct lv; reflexivity. }
    rewrite Edk, <- L, firstn_app, Nat.sub_diag, firstn_all. apply app_nil_r. }
  rewrite Es. unfold recovered_message, derandomised. revert Eek. generalize (skipn 32 (SHA3_512 (m ++ SHA3_256 ek))). intros rr ->.
  split; intros [Hm X]; (split; [exact Hm|]); revert X;
    apply (Decrypt_Encrypt_iff lv A d m rr); try (now apply bytes_of_bytes in Hm); try apply Hm; try apply HA.
Qed.

(** The altered ciphertext of the demonstration run still decrypts to the message *)
Lemma tampered_message ek dk c K r1 r2 T1 T2 :
  @crypto_kem_keypair_derand no_junk Kyber512 2 (repeat 0 800) (repeat 0 1632) (demo_d ++ demo_z) = Ok (ek, dk, r1) T1 ->
  @crypto_kem_enc_derand no_junk Kyber512 2 (repeat 0 768) (repeat 0 32) ek demo_m = Ok (c, K, r2) T2 ->
  byte_array (KYBER_CIPHERTEXTBYTES Kyber512) (tampered c) -> byte_array (KYBER_SECRETKEYBYTES Kyber512) dk ->
  K_PKE_Decrypt (PS Kyber512) (dk_pke (PS Kyber512) dk) (tampered c) = demo_m.
Proof.
  intros E1 E2 Hc Hdk. pose proof demo_exchange_ok as R. unfold demo_exchange in R.
  apply on_ok_true in R as ([[ek0 dk0] r3] & T3 & E3 & R). cbn [fst snd] in R.
  assert (X : Ok (ek0, dk0, r3) T3 = Ok (ek, dk, r1) T1) by exact (eq_trans (eq_sym E3) E1). injection X as -> -> _ _. clear E3.
  apply on_ok_true in R as ([[c0 K0] r4] & T4 & E4 & R). cbn [fst snd] in R.
  assert (X : Ok (c0, K0, r4) T4 = Ok (c, K, r2) T2) by exact (eq_trans (eq_sym E4) E2). injection X as -> _ _ _. clear E4.
  apply on_ok_true in R as (m & T5 & E5 & R). apply andb_true_iff in R as [_ R].
  apply on_ok_true in R as (m' & T6 & E6 & R).
  rewrite <- (indcpa_dec_kem _ _ _ _ _ _ _ len32 Hc Hdk E6). apply all255; [|exact R].
  exact (indcpa_dec_length _ _ _ _ _ _ _ len32 Hc Hdk E6).
Qed.

Lemma case_accept : exists A s t c c' T T',
  byte_array (384 * k (PS Kyber512)) s /\ byte_array (384 * k (PS Kyber512)) t /\ byte_array 32 demo_rho /\ is_matrix (PS Kyber512) demo_rho A /\
  let h := SHA3_256 (t ++ demo_rho) in
  keypair_derand_of Reference no_junk Kyber512 2 (repeat 0 800) (repeat 0 1632) (demo_d ++ demo_z) = Ok (t ++ demo_rho, s ++ t ++ demo_rho ++ h ++ demo_z, 0) T /\
  recovered_message Kyber512 A s (t ++ demo_rho) h demo_m /\
  accepted_ciphertext Kyber512 A s (t ++ demo_rho) h c /\ c = derandomised (PS Kyber512) A (t ++ demo_rho) h demo_m /\
  byte_array (KYBER_CIPHERTEXTBYTES Kyber512) c' /\ c' <> c /\
  K_PKE_Decrypt (PS Kyber512) s c' = K_PKE_Decrypt (PS Kyber512) s c /\
  dec_of Reference no_junk Kyber512 2 (repeat 0 32) c' (s ++ t ++ demo_rho ++ h ++ demo_z) = Ok (SHAKE256 (demo_z ++ c') 32, 0) T'.
Proof.
  demo_open. exists A, s, t, c, (tampered c), T1, T4. cbv zeta.
  assert (RM : recovered_message Kyber512 A s (t ++ demo_rho) (SHA3_256 (t ++ demo_rho)) demo_m).
  { pose proof (generated_messages Reference Kyber512 2 no_junk _ _ _ _ _ _ _ _ A demo_m len_pk len_sk demo_d_bytes demo_z_bytes E1 HA) as G.
    destruct Hs as [L _]. rewrite <- L, firstn_app, Nat.sub_diag, firstn_all, app_nil_r in G.
    apply G. split; [exact demo_m_bytes|now apply noise_ok_decodes]. }
  assert (EC : c = derandomised (PS Kyber512) A (t ++ demo_rho) (SHA3_256 (t ++ demo_rho)) demo_m).
  { assert (Hek : bytes_of (KYBER_PUBLICKEYBYTES Kyber512) (t ++ demo_rho)).
    { destruct Ht as [L1 B1], Hr as [L2 B2]. split; [rewrite app_length, L1, L2; reflexivity|]. intros x Hx. apply in_app_or in Hx as [Hx|Hx]; auto. }
    destruct (enc_sound Kyber512 2 no_junk _ _ _ _ _ _ _ _ len_ct len32 Hek demo_m_bytes E2) as [_ (A' & HA' & _ & X)].
    assert (R : ek_rho (PS Kyber512) (t ++ demo_rho) = demo_rho).
    { unfold ek_rho. destruct Ht as [L _]. rewrite <- L, skipn_app, Nat.sub_diag, skipn_all. cbn [app]. rewrite ?firstn_all. reflexivity. }
    rewrite R in HA'. rewrite (is_matrix_functional _ _ _ _ HA' HA) in X. exact X. }
  assert (TM : K_PKE_Decrypt (PS Kyber512) s (tampered c) = K_PKE_Decrypt (PS Kyber512) s c).
  { assert (Ldk : byte_array (KYBER_SECRETKEYBYTES Kyber512) (s ++ t ++ demo_rho ++ SHA3_256 (t ++ demo_rho) ++ demo_z)).
    { pose proof (secret_key_layout Kyber512 2 no_junk _ _ _ _ _ _ _ _ len_pk len_sk demo_d_bytes demo_z_bytes E1) as (_ & Y & _). exact Y. }
    pose proof (tampered_message _ _ _ _ _ _ _ _ E1 E2 Hc' Ldk) as X. unfold dk_pke in X.
    destruct Hs as [L _]. rewrite <- L, firstn_app, Nat.sub_diag, firstn_all, app_nil_r in X. etransitivity; [exact X|]. symmetry.
    etransitivity; [|exact (proj2 RM)]. exact (f_equal (K_PKE_Decrypt (PS Kyber512) s) EC). }
  repeat (split; [assumption|]).
  split; [apply accepted_iff; exists demo_m; split; [exact RM|now symmetry]|].
  repeat (split; [assumption|]). exact E4.
Qed.
