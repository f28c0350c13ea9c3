(** * C45-C50 in the form of the property statements *)
From Coq Require Import ZArith List Lia Bool.
From Verif Require Import CMonad WP Proof_Base Levels Model_Params Model_Symmetric Model_Indcpa Model_Randombytes Model_Kem Spec_FIPS202 Spec_FIPS203 Spec_Noise
  Proof_Hash Proof_Bits Proof_GenMatrix Proof_Indcpa Proof_Keypair Proof_Encrypt Proof_Fuel Proof_Kem Proof_Correct Proof_Api
  Proof_Nonce Proof_Random Vocab Vocab_Code Proof_Vocab Proof_PropPoly Proof_PropSample Proof_PropUtil Proof_PropKem
  Model_AvxIndcpa Model_AvxKem Proof_AvxBits Proof_AvxGenMatrix Proof_AvxNoise Proof_AvxKeypair Proof_AvxEncrypt Proof_AvxKem Proof_AvxFuel Proof_AvxNonce
  Proof_Symmetric Proof_AvxDecompress Proof_AvxShake4
  Vocab_Avx Proof_AvxApi.
Import ListNotations.
Open Scope Z_scope.
Local Opaque SHA3_256 SHA3_512 SHAKE256 SHAKE128.

(** ** C45: the matrix *)
Lemma avx_gen_matrix_result lv fuel (JJ : Junk) a pre rho post transposed A T :
  matrix_shape (KYBER_K lv) a -> length rho = 32%nat -> all_bytes (pre ++ rho ++ post) ->
  gen_matrix_avx2 lv fuel a (pre ++ rho ++ post) (length pre) transposed = Ok A T ->
  exists M, is_matrix (PS lv) rho M /\ A = map (map avx2_order) (if transposed then transpose (PS lv) M else M).
Proof.
  intros HA LR HB E. apply matrix_shape_wf in HA. pose proof (ctx_seed_ok pre rho post LR HB) as HS.
  destruct (enough_all_dec lv fuel rho) as [HE|HE].
  2: { rewrite (gen_matrix_avx2_timeout lv fuel _ rho transposed HE JJ a _ HA HS) in E. discriminate. }
  destruct (gen_matrix_avx2_wp lv fuel (length pre) rho transposed HE) as [T' W].
  destruct (W JJ a _ HA HS) as (v & Ev & EV). rewrite Ev in E. injection E as EA _. rewrite <- EA, EV.
  exists (matrix lv fuel rho false). split; [now apply matrix_is_matrix|].
  change avx2_order with Proof_AvxNTT.avx_order. f_equal. destruct transposed; [apply matrix_transpose|reflexivity].
Qed.

Lemma avx_gen_matrix_finishes lv fuel (JJ : Junk) a pre rho post transposed :
  matrix_shape (KYBER_K lv) a -> length rho = 32%nat -> all_bytes (pre ++ rho ++ post) ->
  let run := gen_matrix_avx2 lv fuel a (pre ++ rho ++ post) (length pre) transposed in
  (run = Timeout \/ exists A T, run = Ok A T) /\
  ((exists A T, run = Ok A T) <->
   (0 < fuel)%nat /\ forall i j, (i < KYBER_K lv)%nat -> (j < KYBER_K lv)%nat ->
     (256 <= length (accepted (XOF (rho ++ [Z.of_nat j; Z.of_nat i])) (168 + 56 * (fuel - 1))))%nat).
Proof.
  intros HA LR HB run. apply matrix_shape_wf in HA. pose proof (ctx_seed_ok pre rho post LR HB) as HS.
  destruct (enough_all_dec lv fuel rho) as [HE|HE].
  - destruct (gen_matrix_avx2_wp lv fuel (length pre) rho transposed HE) as [T' W].
    destruct (W JJ a _ HA HS) as (v & Ev & _). unfold run. rewrite Ev. split; [right; eauto|].
    split; [intros _; now apply enough_all_enough|eauto].
  - unfold run. rewrite (gen_matrix_avx2_timeout lv fuel _ rho transposed HE JJ a _ HA HS). split; [now left|].
    split; [intros (A & T & E); discriminate|]. intros [F G]. exfalso. apply HE. now apply enough_enough_all.
Qed.

Lemma avx_gen_matrix_terminates lv rho M : length rho = 32%nat -> is_matrix (PS lv) rho M ->
  exists fuel0, forall fuel (JJ : Junk) a pre post transposed, (fuel0 <= fuel)%nat ->
    matrix_shape (KYBER_K lv) a -> all_bytes (pre ++ rho ++ post) ->
    exists T, gen_matrix_avx2 lv fuel a (pre ++ rho ++ post) (length pre) transposed
      = Ok (map (map avx2_order) (if transposed then transpose (PS lv) M else M)) T.
Proof.
  intros LR HM. destruct (is_matrix_enough lv rho M HM) as [f0 F0]. exists f0. intros fuel JJ a pre post transposed Lf HA HB.
  pose proof (enough_all_mono lv f0 fuel _ Lf F0) as HE. pose proof (matrix_shape_wf _ _ HA) as HW.
  pose proof (ctx_seed_ok pre rho post LR HB) as HS.
  destruct (gen_matrix_avx2_wp lv fuel (length pre) rho transposed HE) as [T' W].
  destruct (W JJ a _ HW HS) as (v & Ev & _). exists T'.
  destruct (avx_gen_matrix_result lv fuel JJ a pre rho post transposed v T' HA LR HB Ev) as (M' & HM' & E).
  rewrite Ev, E, (is_matrix_functional _ _ _ _ HM' HM). reflexivity.
Qed.

(** ** C45: the noise *)
Lemma cbdpoly_sample eta seed nonce : cbd_sample eta seed nonce (cbdpoly eta seed nonce).
Proof. destruct (getnoise_common eta (SHAKE256 (seed ++ [nonce]) (64 * eta)) _ eq_refl) as (A & B & C & _). exact (conj A (conj B C)). Qed.
Lemma noisez_vector eta seed start K : cbd_vector eta seed start K (noisez eta seed start K).
Proof.
  split; [apply mk_length|]. intros i Hi. rewrite noisez_nth by exact Hi. apply cbdpoly_sample.
Qed.
Lemma vec_shape_shaped K v : vec_shape K v -> shaped K v.
Proof. intros [L H]. split; [exact L|]. intros i Hi. apply H, nth_In. unfold Model_Polyvec.polyvec in *. lia. Qed.
Lemma vec_shape_four rs : vec_shape 4 rs -> four_polys rs.
Proof. intros [L H]. split; [exact L|]. intros i Hi. apply H, nth_In. lia. Qed.

Lemma all_bytes_all_byte l : all_bytes l -> all_byte l.
Proof. intros B. apply Forall_forall. intros x Hx. specialize (B x Hx). lia. Qed.

Lemma avx_getnoise_eta1_4x lv so nonces : length nonces = 4%nat -> all_bytes nonces ->
  exists T, forall (JJ : Junk) rs pre seed post, length pre = so -> vec_shape 4 rs -> length seed = 32%nat -> all_bytes (pre ++ seed ++ post) ->
    exists r0 r1 r2 r3, poly_getnoise_eta1_4x lv rs (pre ++ seed ++ post) so nonces = Ok [r0; r1; r2; r3] T /\
      cbd_sample (eta1 (PS lv)) seed (nth 0 nonces 0) r0 /\ cbd_sample (eta1 (PS lv)) seed (nth 1 nonces 0) r1 /\
      cbd_sample (eta1 (PS lv)) seed (nth 2 nonces 0) r2 /\ cbd_sample (eta1 (PS lv)) seed (nth 3 nonces 0) r3.
Proof.
  intros L B. destruct (poly_getnoise_eta1_4x_wp lv so nonces L (all_bytes_all_byte _ B)) as [T W]. exists T.
  intros JJ rs pre seed post <- HR LS HB.
  destruct (W JJ rs _ seed (vec_shape_four _ HR) (ctx_seed_ok pre seed post LS HB)) as (v & E & EV).
  rewrite EV in E. cbn [mk seq map] in E. do 4 eexists. split; [exact E|].
  refine (conj _ (conj _ (conj _ _))); apply cbdpoly_sample.
Qed.
Lemma avx_getnoise_eta1122_4x lv so nonces : length nonces = 4%nat -> all_bytes nonces ->
  exists T, forall (JJ : Junk) rs pre seed post, length pre = so -> vec_shape 4 rs -> length seed = 32%nat -> all_bytes (pre ++ seed ++ post) ->
    exists r0 r1 r2 r3, poly_getnoise_eta1122_4x lv rs (pre ++ seed ++ post) so nonces = Ok [r0; r1; r2; r3] T /\
      cbd_sample (eta1 (PS lv)) seed (nth 0 nonces 0) r0 /\ cbd_sample (eta1 (PS lv)) seed (nth 1 nonces 0) r1 /\
      cbd_sample (eta2 (PS lv)) seed (nth 2 nonces 0) r2 /\ cbd_sample (eta2 (PS lv)) seed (nth 3 nonces 0) r3.
Proof.
  intros L B. replace (eta2 (PS lv)) with 2%nat by (destruct lv; reflexivity).
  destruct (poly_getnoise_eta1122_4x_wp lv so nonces L (all_bytes_all_byte _ B)) as [T W]. exists T.
  intros JJ rs pre seed post <- HR LS HB.
  destruct (W JJ rs _ seed (vec_shape_four _ HR) (ctx_seed_ok pre seed post LS HB)) as (v & E & EV).
  rewrite EV in E. do 4 eexists. split; [exact E|].
  refine (conj _ (conj _ (conj _ _))); apply cbdpoly_sample.
Qed.
Lemma avx_getnoise_eta2 lv so nonce : 0 <= nonce < 256 ->
  exists T, forall (JJ : Junk) r pre seed post, length pre = so -> length r = 256%nat -> length seed = 32%nat -> all_bytes (pre ++ seed ++ post) ->
    exists r', poly_getnoise_eta2_avx2 r (pre ++ seed ++ post) so nonce = Ok r' T /\ cbd_sample (eta2 (PS lv)) seed nonce r'.
Proof.
  intros HN. replace (eta2 (PS lv)) with 2%nat by (destruct lv; reflexivity).
  destruct (poly_getnoise_eta2_avx2_wp so nonce) as [T W]. exists T. intros JJ r pre seed post <- LR LS HB.
  destruct (W JJ r _ seed LR (ctx_seed_ok pre seed post LS HB)) as (v & E & EV); [lia|].
  rewrite EV in E. eexists. split; [exact E|]. apply cbdpoly_sample.
Qed.

Lemma poly_getnoise_eta1_avx2_wp lv so nonce :
  traced (fun T => forall (JJ : Junk) r seed sigma, length r = 256%nat -> seed_ok so sigma seed -> 0 <= nonce <= 255 ->
    wp (poly_getnoise_eta1_avx2 lv r seed so nonce) T (fun r' => r' = cbdpoly (eta1 (PS lv)) sigma nonce)).
Proof.
  destruct (prf_wp 0 (64 * eta1 (PS lv)) so) as [T1 W1].
  destruct (poly_cbd_eta1_avx2_wp lv) as [T2 W2].
  eexists. intros JJ r seed sigma Hr (H1 & H2 & H3) Hn. unfold poly_getnoise_eta1_avx2. cbv zeta.
  replace (KYBER_ETA1 lv * KYBER_N / 4)%nat with (64 * eta1 (PS lv))%nat by (destruct lv; reflexivity).
  wstep. wstep. wstep. eapply wp_conseq; [apply W1; auto; rewrite local8_length; lia|].
  intros b ->. rewrite H3.
  pose proof (SHAKE256_length (sigma ++ [nonce]) (64 * eta1 (PS lv))) as LS.
  eapply wp_conseq; [apply W2; [exact Hr|]|].
  - rewrite splice_length; rewrite ?LS, ?local8_length; destruct (eta1 (PS lv) =? 3)%nat; lia.
  - intros r' ->. unfold cbdpoly. f_equal. f_equal. unfold PRF.
    set (x := SHAKE256 (sigma ++ [nonce]) (64 * eta1 (PS lv))) in *. rewrite <- LS at 2.
    apply sub_splice_self. rewrite LS, local8_length. lia.
Qed.
Lemma avx_getnoise_eta1 lv so nonce : 0 <= nonce < 256 ->
  exists T, forall (JJ : Junk) r pre seed post, length pre = so -> length r = 256%nat -> length seed = 32%nat -> all_bytes (pre ++ seed ++ post) ->
    exists r', poly_getnoise_eta1_avx2 lv r (pre ++ seed ++ post) so nonce = Ok r' T /\ cbd_sample (eta1 (PS lv)) seed nonce r'.
Proof.
  intros HN. destruct (poly_getnoise_eta1_avx2_wp lv so nonce) as [T W]. exists T. intros JJ r pre seed post <- LR LS HB.
  destruct (W JJ r _ seed LR (ctx_seed_ok pre seed post LS HB)) as (v & E & EV); [lia|].
  rewrite EV in E. eexists. split; [exact E|]. apply cbdpoly_sample.
Qed.

Lemma avx_keypair_noise lv so :
  exists T, forall (JJ : Junk) s e p pre sigma post, length pre = so -> vec_shape (KYBER_K lv) s -> vec_shape (KYBER_K lv) e ->
    vec_shape (KYBER_K lv) p -> length sigma = 32%nat -> all_bytes (pre ++ sigma ++ post) ->
    exists s' e' p', keypair_noise lv s e p (pre ++ sigma ++ post) so = Ok (s', e', p') T /\
      cbd_vector (eta1 (PS lv)) sigma 0 (KYBER_K lv) s' /\ cbd_vector (eta1 (PS lv)) sigma (KYBER_K lv) (KYBER_K lv) e'.
Proof.
  destruct (keypair_noise_wp lv so) as [T W]. exists T. intros JJ s e p pre sigma post <- HS HE HP LS HB.
  destruct (W JJ s e p _ sigma (vec_shape_shaped _ _ HS) (vec_shape_shaped _ _ HE) (vec_shape_shaped _ _ HP) (ctx_seed_ok pre sigma post LS HB))
    as ([[s' e'] p'] & E & E1 & E2 & _).
  exists s', e', p'. split; [exact E|]. rewrite E1, E2. split; apply noisez_vector.
Qed.
Lemma avx_enc_noise lv so :
  exists T, forall (JJ : Junk) r e1 e2 b pre coins post, length pre = so -> vec_shape (KYBER_K lv) r -> vec_shape (KYBER_K lv) e1 ->
    length e2 = 256%nat -> vec_shape (KYBER_K lv) b -> length coins = 32%nat -> all_bytes (pre ++ coins ++ post) ->
    exists r' e1' e2' b', enc_noise lv r e1 e2 b (pre ++ coins ++ post) so = Ok (r', e1', e2', b') T /\
      cbd_vector (eta1 (PS lv)) coins 0 (KYBER_K lv) r' /\ cbd_vector (eta2 (PS lv)) coins (KYBER_K lv) (KYBER_K lv) e1' /\
      cbd_sample (eta2 (PS lv)) coins (2 * Z.of_nat (KYBER_K lv)) e2'.
Proof.
  replace (eta2 (PS lv)) with 2%nat by (destruct lv; reflexivity).
  destruct (enc_noise_wp lv so) as [T W]. exists T. intros JJ r e1 e2 b pre sigma post <- HS HE H2 HP LS HB.
  destruct (W JJ r e1 e2 b _ sigma (vec_shape_shaped _ _ HS) (vec_shape_shaped _ _ HE) H2 (vec_shape_shaped _ _ HP) (ctx_seed_ok pre sigma post LS HB))
    as ([[[s' e'] f'] p'] & E & E1 & E2 & E3 & _).
  exists s', e', f', p'. split; [exact E|]. rewrite E1, E2, E3.
  split; [apply noisez_vector|]. split; [apply noisez_vector|].
  replace (2 * Z.of_nat (KYBER_K lv)) with (Z.of_nat (KYBER_K lv + KYBER_K lv)) by lia. apply cbdpoly_sample.
Qed.

(** ** C48: the two variants *)
Lemma same_pke_keypair lv fuel (J1 J2 : Junk) pk1 sk1 pk2 sk2 d :
  length pk1 = KYBER_INDCPA_PUBLICKEYBYTES lv -> length sk1 = KYBER_INDCPA_SECRETKEYBYTES lv ->
  length pk2 = KYBER_INDCPA_PUBLICKEYBYTES lv -> length sk2 = KYBER_INDCPA_SECRETKEYBYTES lv -> byte_array 32 d ->
  same_result (@indcpa_keypair_derand J1 lv fuel pk1 0 sk1 0 d 0) (@indcpa_keypair_derand_avx2 J2 lv fuel pk2 0 sk2 0 d 0).
Proof.
  intros Lp1 Ls1 Lp2 Ls2 Hd. pose proof Hd as Hd0. pose proof (bytes_of_bytes _ _ Hd) as Bd. destruct Hd as [Ld _].
  pose proof (sub_all d 32 Ld) as SD. assert (GD : (0 + 32 <= length d)%nat) by (rewrite Ld; apply le_n).
  destruct (enough_all_dec lv fuel (keygen_rho (PS lv) d)) as [HE|HE]; [left|right].
  - destruct (indcpa_keypair_derand_wp lv fuel _ 0 0 0 HE) as [T1 W1].
    destruct (indcpa_keypair_derand_avx2_wp lv fuel _ 0 0 0 HE) as [T2 W2].
    destruct (W1 J1 pk1 sk1 d) as (v1 & E1 & _); rewrite ?SD; auto; try (rewrite ?Lp1, ?Ls1, ?Ld; apply le_n).
    destruct (W2 J2 pk2 sk2 d) as (v2 & E2 & _); rewrite ?SD; auto; try (rewrite ?Lp2, ?Ls2, ?Ld; apply le_n).
    destruct v1 as [p1 s1], v2 as [p2 s2].
    destruct (pke_keypair lv fuel J1 pk1 sk1 d p1 s1 T1 Lp1 Ls1 Hd0 E1) as (A1 & M1 & K1).
    destruct (avx_pke_keypair lv fuel J2 pk2 sk2 d p2 s2 T2 Lp2 Ls2 Hd0 E2) as (A2 & M2 & K2).
    rewrite (is_matrix_functional _ _ _ _ M2 M1), <- K1 in K2. exists (p1, s1), T1, T2. split; [exact E1|]. rewrite <- K2. exact E2.
  - assert (HN : ~ enough_all lv fuel (keygen_rho (PS lv) (sub d 0 32))) by (now rewrite SD).
    split; [exact (indcpa_keypair_derand_timeout lv fuel 0 0 0 J1 pk1 sk1 d GD Bd HN)|exact (indcpa_keypair_derand_avx2_timeout lv fuel 0 0 0 J2 pk2 sk2 d GD Bd HN)].
Qed.

Lemma same_pke_enc lv fuel (J1 J2 : Junk) c1 c2 m pk r :
  length c1 = KYBER_CIPHERTEXTBYTES lv -> length c2 = KYBER_CIPHERTEXTBYTES lv ->
  byte_array 32 m -> byte_array (KYBER_INDCPA_PUBLICKEYBYTES lv) pk -> byte_array 32 r ->
  same_result (@indcpa_enc J1 lv fuel c1 0 m 0 pk 0 r 0) (@indcpa_enc_avx2 J2 lv fuel c2 0 m 0 pk 0 r 0).
Proof.
  intros L1 L2 Hm Hp Hr.
  pose proof (bytes_of_bytes _ _ Hm) as Bm. pose proof (bytes_of_bytes _ _ Hp) as Bp. pose proof (bytes_of_bytes _ _ Hr) as Br.
  assert (G1 : (0 + 32 <= length m)%nat) by (rewrite (proj1 Hm); apply le_n).
  assert (G2 : (0 + KYBER_INDCPA_PUBLICKEYBYTES lv <= length pk)%nat) by (rewrite (proj1 Hp); apply le_n).
  assert (G3 : (0 + 32 <= length r)%nat) by (rewrite (proj1 Hr); apply le_n).
  assert (G4 : (0 + KYBER_CIPHERTEXTBYTES lv <= length c1)%nat) by (rewrite L1; apply le_n).
  assert (G5 : (0 + KYBER_CIPHERTEXTBYTES lv <= length c2)%nat) by (rewrite L2; apply le_n).
  pose proof (sub_all pk _ (proj1 Hp)) as Sp.
  destruct (enough_all_dec lv fuel (ek_rho (PS lv) pk)) as [HE|HE]; [left|right].
  - assert (GE : ek_rho (PS lv) (sub pk 0 (KYBER_INDCPA_PUBLICKEYBYTES lv)) = ek_rho (PS lv) pk) by (now rewrite Sp).
    destruct (indcpa_enc_wp lv fuel _ 0 0 0 0 HE) as [T1 W1].
    destruct (indcpa_enc_avx2_wp lv fuel _ 0 0 0 0 HE) as [T2 W2].
    destruct (W1 J1 c1 m pk r G4 G1 Bm G2 Bp G3 Br GE) as (v1 & E1 & _).
    destruct (W2 J2 c2 m pk r G5 G1 Bm G2 Bp G3 Br GE) as (v2 & E2 & _).
    destruct (pke_enc lv fuel J1 c1 m pk r v1 T1 L1 Hm Hp Hr E1) as (A1 & M1 & K1).
    destruct (avx_pke_enc lv fuel J2 c2 m pk r v2 T2 L2 Hm Hp Hr E2) as (A2 & M2 & K2).
    rewrite (is_matrix_functional _ _ _ _ M2 M1), <- K1 in K2. exists v1, T1, T2. split; [exact E1|]. rewrite <- K2. exact E2.
  - assert (GE : ~ enough_all lv fuel (ek_rho (PS lv) (sub pk 0 (KYBER_INDCPA_PUBLICKEYBYTES lv)))) by (now rewrite Sp).
    split; [exact (indcpa_enc_timeout lv fuel 0 0 0 0 J1 c1 m pk r G1 Bm G2 Bp GE)|exact (indcpa_enc_avx2_timeout lv fuel 0 0 0 0 J2 c2 m pk r G1 G2 Bp GE)].
Qed.

Lemma same_pke_dec lv (J1 J2 : Junk) m1 m2 c sk :
  length m1 = 32%nat -> length m2 = 32%nat -> byte_array (KYBER_CIPHERTEXTBYTES lv) c -> byte_array (KYBER_INDCPA_SECRETKEYBYTES lv) sk ->
  exists m T1 T2, @indcpa_dec J1 lv m1 0 c 0 sk 0 = Ok m T1 /\ @indcpa_dec_avx2 J2 lv m2 0 c 0 sk 0 = Ok m T2.
Proof.
  intros L1 L2 Hc Hs. destruct (pke_dec lv) as [T1 P1]. destruct (avx_pke_dec lv) as [T2 P2].
  exists (K_PKE_Decrypt (PS lv) sk c), T1, T2. split; [now apply P1|now apply P2].
Qed.

Lemma same_keypair_derand lv fuel (J1 J2 : Junk) pk1 sk1 pk2 sk2 coins :
  length pk1 = KYBER_PUBLICKEYBYTES lv -> length sk1 = KYBER_SECRETKEYBYTES lv ->
  length pk2 = KYBER_PUBLICKEYBYTES lv -> length sk2 = KYBER_SECRETKEYBYTES lv -> byte_array 64 coins ->
  same_result (@crypto_kem_keypair_derand J1 lv fuel pk1 sk1 coins) (@crypto_kem_keypair_derand_avx2 J2 lv fuel pk2 sk2 coins).
Proof.
  intros Lp1 Ls1 Lp2 Ls2 Hc. pose proof (bytes_of_bytes _ _ Hc) as Bc. destruct Hc as [Lc _].
  destruct (enough_all_dec lv fuel (keygen_rho (PS lv) (sub coins 0 32))) as [HE|HE]; [left|right].
  - destruct (keypair_derand_wp lv fuel _ HE) as [T1 W1]. destruct (avx2_keypair_derand_wp lv fuel _ HE) as [T2 W2].
    destruct (W1 J1 pk1 sk1 coins Lp1 Ls1 Lc Bc eq_refl) as (v1 & E1 & V1).
    destruct (W2 J2 pk2 sk2 coins Lp2 Ls2 Lc Bc eq_refl) as (v2 & E2 & V2).
    exists v1, T1, T2. split; [exact E1|]. rewrite V1, <- V2. exact E2.
  - split; [now apply keypair_derand_timeout|now apply avx2_keypair_derand_timeout].
Qed.
Lemma same_enc_derand lv fuel (J1 J2 : Junk) ct1 ss1 ct2 ss2 pk m :
  length ct1 = KYBER_CIPHERTEXTBYTES lv -> length ss1 = 32%nat -> length ct2 = KYBER_CIPHERTEXTBYTES lv -> length ss2 = 32%nat ->
  byte_array (KYBER_PUBLICKEYBYTES lv) pk -> byte_array 32 m ->
  same_result (@crypto_kem_enc_derand J1 lv fuel ct1 ss1 pk m) (@crypto_kem_enc_derand_avx2 J2 lv fuel ct2 ss2 pk m).
Proof.
  intros Lc1 Ls1 Lc2 Ls2 Hp Hm. pose proof (bytes_of_bytes _ _ Hp) as Bp. destruct Hp as [Lp _].
  pose proof (bytes_of_bytes _ _ Hm) as Bm. destruct Hm as [Lm _].
  destruct (enough_all_dec lv fuel (ek_rho (PS lv) pk)) as [HE|HE]; [left|right].
  - destruct (enc_derand_wp lv fuel _ HE) as [T1 W1]. destruct (avx2_enc_derand_wp lv fuel _ HE) as [T2 W2].
    destruct (W1 J1 ct1 ss1 pk m Lc1 Ls1 Lp Bp Lm Bm eq_refl) as (v1 & E1 & V1).
    destruct (W2 J2 ct2 ss2 pk m Lc2 Ls2 Lp Bp Lm Bm eq_refl) as (v2 & E2 & V2).
    exists v1, T1, T2. split; [exact E1|]. rewrite V1, <- V2. exact E2.
  - split; [now apply enc_derand_timeout|now apply avx2_enc_derand_timeout].
Qed.
Lemma same_dec lv fuel (J1 J2 : Junk) ss1 ss2 ct sk :
  length ss1 = 32%nat -> length ss2 = 32%nat -> byte_array (KYBER_CIPHERTEXTBYTES lv) ct -> byte_array (KYBER_SECRETKEYBYTES lv) sk ->
  same_result (@crypto_kem_dec J1 lv fuel ss1 ct sk) (@crypto_kem_dec_avx2 J2 lv fuel ss2 ct sk).
Proof.
  intros L1 L2 Hc Hk. pose proof (bytes_of_bytes _ _ Hc) as Bc. destruct Hc as [Lc _].
  pose proof (bytes_of_bytes _ _ Hk) as Bk. destruct Hk as [Lk _].
  destruct (enough_all_dec lv fuel (ek_rho (PS lv) (dk_ek (PS lv) sk))) as [HE|HE]; [left|right].
  - destruct (dec_wp lv fuel _ HE) as [T1 W1]. destruct (avx2_dec_wp lv fuel _ HE) as [T2 W2].
    destruct (W1 J1 ss1 ct sk L1 Lc Bc Lk Bk eq_refl) as (v1 & E1 & V1).
    destruct (W2 J2 ss2 ct sk L2 Lc Bc Lk Bk eq_refl) as (v2 & E2 & V2).
    exists v1, T1, T2. split; [exact E1|]. rewrite V1, <- V2. exact E2.
  - split; [now apply dec_timeout|now apply avx2_dec_timeout].
Qed.

(** Randomised functions reading the same replies of the kernel *)
Lemma random_same sched n out1 out2 : kernel_ok sched n -> length out1 = n -> length out2 = n ->
  (exists co rest T1 T2, byte_array n co /\ randombytes sched out1 0 n = Ok (co, rest) T1 /\ randombytes sched out2 0 n = Ok (co, rest) T2) \/
  (randombytes sched out1 0 n = Abort /\ randombytes sched out2 0 n = Abort) \/
  (randombytes sched out1 0 n = Timeout /\ randombytes sched out2 0 n = Timeout).
Proof.
  intros HK L1 L2. pose proof (randombytes_spec sched out1 0 n HK) as S1. rewrite L1 in S1. specialize (S1 (le_n _)).
  pose proof (randombytes_spec sched out2 0 n HK) as S2. rewrite L2 in S2. specialize (S2 (le_n _)).
  assert (G2 : (0 + n <= length out2)%nat) by (rewrite L2; apply le_n).
  destruct (randombytes sched out1 0 n) as [[co rest] T1| | |] eqn:E1; [left|contradiction|right; right|right; left].
  - destruct S1 as (used & -> & NF & Ld & Eo & Sh). destruct (randombytes_exact used rest out2 0 n HK G2 NF Sh Ld) as [T2 E2].
    rewrite overwrite_full in Eo by (now rewrite L1). rewrite overwrite_full in E2 by (now rewrite L2).
    exists co, rest, T1, T2. split; [split; [now rewrite Eo|]|split; [reflexivity|rewrite Eo; exact E2]].
    rewrite Eo. intros b. eapply kernel_ok_bytes; eauto.
  - split; [reflexivity|]. destruct S1 as [NF Ld]. destruct (randombytes sched out2 0 n) as [[co rest] T2| | |] eqn:E2; [|contradiction|reflexivity|].
    + destruct S2 as (used & -> & _ & Ld2 & _). unfold delivered in *. rewrite flat_map_app, app_length in Ld. lia.
    + destruct S2 as (used & rest & -> & _). elim NF. apply in_or_app. right. now left.
  - split; [reflexivity|]. destruct S1 as (used & rest & -> & NF & Ld). now apply randombytes_fails.
Qed.

Lemma same_keypair lv fuel (J1 J2 : Junk) sched pk1 sk1 pk2 sk2 : kernel_ok sched 64 ->
  length pk1 = KYBER_PUBLICKEYBYTES lv -> length sk1 = KYBER_SECRETKEYBYTES lv ->
  length pk2 = KYBER_PUBLICKEYBYTES lv -> length sk2 = KYBER_SECRETKEYBYTES lv ->
  same_result (@crypto_kem_keypair J1 lv fuel sched pk1 sk1) (@crypto_kem_keypair_avx2 J2 lv fuel sched pk2 sk2) \/
  (@crypto_kem_keypair J1 lv fuel sched pk1 sk1 = Abort /\ @crypto_kem_keypair_avx2 J2 lv fuel sched pk2 sk2 = Abort).
Proof.
  intros HK Lp1 Ls1 Lp2 Ls2. unfold crypto_kem_keypair, crypto_kem_keypair_avx2. change (2 * KYBER_SYMBYTES)%nat with 64%nat.
  destruct (random_same sched 64 (@local J1 64) (@local J2 64) HK) as [(co & rest & T1 & T2 & Hc & E1 & E2)|[[E1 E2]|[E1 E2]]];
    try apply local_length; rewrite E1, E2; [left|right; split; reflexivity|left; right; split; reflexivity].
  destruct (same_keypair_derand lv fuel J1 J2 pk1 sk1 pk2 sk2 co Lp1 Ls1 Lp2 Ls2 Hc) as [(v & U1 & U2 & F1 & F2)|[F1 F2]]; cbn [bind].
  - left. rewrite F1, F2. destruct v as [[ek dk] r]. cbn [bind]. unfold ret. cbn [bind]. do 3 eexists. split; reflexivity.
  - right. rewrite F1, F2. split; reflexivity.
Qed.
Lemma same_enc lv fuel (J1 J2 : Junk) sched ct1 ss1 ct2 ss2 pk : kernel_ok sched 32 ->
  length ct1 = KYBER_CIPHERTEXTBYTES lv -> length ss1 = 32%nat -> length ct2 = KYBER_CIPHERTEXTBYTES lv -> length ss2 = 32%nat ->
  byte_array (KYBER_PUBLICKEYBYTES lv) pk ->
  same_result (@crypto_kem_enc J1 lv fuel sched ct1 ss1 pk) (@crypto_kem_enc_avx2 J2 lv fuel sched ct2 ss2 pk) \/
  (@crypto_kem_enc J1 lv fuel sched ct1 ss1 pk = Abort /\ @crypto_kem_enc_avx2 J2 lv fuel sched ct2 ss2 pk = Abort).
Proof.
  intros HK Lc1 Ls1 Lc2 Ls2 Hp. unfold crypto_kem_enc, crypto_kem_enc_avx2. change KYBER_SYMBYTES with 32%nat.
  destruct (random_same sched 32 (@local J1 32) (@local J2 32) HK) as [(co & rest & T1 & T2 & Hc & E1 & E2)|[[E1 E2]|[E1 E2]]];
    try apply local_length; rewrite E1, E2; [left|right; split; reflexivity|left; right; split; reflexivity].
  destruct (same_enc_derand lv fuel J1 J2 ct1 ss1 ct2 ss2 pk co Lc1 Ls1 Lc2 Ls2 Hp Hc) as [(v & U1 & U2 & F1 & F2)|[F1 F2]]; cbn [bind].
  - left. rewrite F1, F2. destruct v as [[ek dk] r]. cbn [bind]. unfold ret. cbn [bind]. do 3 eexists. split; reflexivity.
  - right. rewrite F1, F2. split; reflexivity.
Qed.

(** Keys, ciphertexts and secrets of either variant *)
Lemma keypair_of_sound V (JJ : Junk) lv fuel pk sk d z ek dk r T :
  length pk = KYBER_PUBLICKEYBYTES lv -> length sk = KYBER_SECRETKEYBYTES lv -> byte_array 32 d -> byte_array 32 z ->
  keypair_derand_of V JJ lv fuel pk sk (d ++ z) = Ok (ek, dk, r) T -> r = 0 /\ KeyGen_internal (PS lv) d z ek dk.
Proof. destruct V; [apply keypair_sound'|apply avx_keypair_sound']. Qed.
Lemma enc_of_sound V (JJ : Junk) lv fuel ct ss pk m c K r T :
  length ct = KYBER_CIPHERTEXTBYTES lv -> length ss = 32%nat -> byte_array (KYBER_PUBLICKEYBYTES lv) pk -> byte_array 32 m ->
  enc_derand_of V JJ lv fuel ct ss pk m = Ok (c, K, r) T -> r = 0 /\ Encaps_internal (PS lv) pk m K c.
Proof. destruct V; [apply enc_sound|apply avx_enc_sound]. Qed.
Lemma dec_of_sound V (JJ : Junk) lv fuel ss ct sk K r T :
  length ss = 32%nat -> byte_array (KYBER_CIPHERTEXTBYTES lv) ct -> byte_array (KYBER_SECRETKEYBYTES lv) sk ->
  dec_of V JJ lv fuel ss ct sk = Ok (K, r) T -> r = 0 /\ Decaps_internal (PS lv) sk ct K.
Proof. destruct V; [apply dec_sound|apply avx_dec_sound]. Qed.
Lemma keypair_of_complete V lv d z ek dk : byte_array 32 d -> byte_array 32 z -> KeyGen_internal (PS lv) d z ek dk ->
  exists fuel0, forall fuel (JJ : Junk) pk sk, (fuel0 <= fuel)%nat ->
    length pk = KYBER_PUBLICKEYBYTES lv -> length sk = KYBER_SECRETKEYBYTES lv ->
    exists T, keypair_derand_of V JJ lv fuel pk sk (d ++ z) = Ok (ek, dk, 0) T.
Proof. destruct V; [apply keypair_complete'|apply avx_keypair_complete']. Qed.
Lemma enc_of_complete V lv pk m K c : byte_array (KYBER_PUBLICKEYBYTES lv) pk -> byte_array 32 m ->
  Encaps_internal (PS lv) pk m K c ->
  exists fuel0, forall fuel (JJ : Junk) ct ss, (fuel0 <= fuel)%nat ->
    length ct = KYBER_CIPHERTEXTBYTES lv -> length ss = 32%nat ->
    exists T, enc_derand_of V JJ lv fuel ct ss pk m = Ok (c, K, 0) T.
Proof. destruct V; [apply enc_complete|apply avx_enc_complete]. Qed.
Lemma dec_of_complete V lv ct sk K : byte_array (KYBER_CIPHERTEXTBYTES lv) ct -> byte_array (KYBER_SECRETKEYBYTES lv) sk ->
  Decaps_internal (PS lv) sk ct K ->
  exists fuel0, forall fuel (JJ : Junk) ss, (fuel0 <= fuel)%nat -> length ss = 32%nat ->
    exists T, dec_of V JJ lv fuel ss ct sk = Ok (K, 0) T.
Proof. destruct V; [apply dec_complete|apply avx_dec_complete]. Qed.

Lemma mixed_agreement V1 V2 V3 lv d z m f1 f2 f3 (J1 J2 J3 : Junk) pk sk ct ss ss3 pk' sk' ct' ss' ss'' r1 r2 r3 T1 T2 T3 A :
  length pk = KYBER_PUBLICKEYBYTES lv -> length sk = KYBER_SECRETKEYBYTES lv ->
  length ct = KYBER_CIPHERTEXTBYTES lv -> length ss = 32%nat -> length ss3 = 32%nat ->
  byte_array 32 d -> byte_array 32 z -> byte_array 32 m ->
  keypair_derand_of V1 J1 lv f1 pk sk (d ++ z) = Ok (pk', sk', r1) T1 ->
  enc_derand_of V2 J2 lv f2 ct ss pk' m = Ok (ct', ss', r2) T2 ->
  dec_of V3 J3 lv f3 ss3 ct' sk' = Ok (ss'', r3) T3 ->
  is_matrix (PS lv) (keygen_rho (PS lv) d) A ->
  noise_decodes m (decryption_noise (PS lv) A d m (skipn 32 (SHA3_512 (m ++ SHA3_256 pk')))) ->
  ss'' = ss'.
Proof.
  intros Lpk Lsk Lct Lss Lss3 Hd Hz Hm E1 E2 E3 HA HN.
  destruct (keypair_of_sound _ _ _ _ _ _ _ _ _ _ _ _ Lpk Lsk Hd Hz E1) as [_ HK].
  destruct (KeyGen_internal_sizes _ _ _ _ _ Hz HK) as [Hpk Hsk].
  destruct (enc_of_sound _ _ _ _ _ _ _ _ _ _ _ _ Lct Lss Hpk Hm E2) as [_ HE].
  destruct (Encaps_internal_sizes _ _ _ _ _ HE) as [Hss Hct].
  destruct (dec_of_sound _ _ _ _ _ _ _ _ _ _ Lss3 Hct Hsk E3) as [_ HD].
  refine (ML_KEM_agreement lv d z m pk' sk' ss' ct' ss'' Hz Hm HK HE _ HD).
  intros A' HA'. rewrite (is_matrix_functional _ _ _ _ HA' HA). exact HN.
Qed.

Lemma mixed_agreement_total V1 V2 V3 lv d z m A ek dk K c :
  byte_array 32 d -> byte_array 32 z -> byte_array 32 m ->
  is_matrix (PS lv) (keygen_rho (PS lv) d) A ->
  KeyGen_internal (PS lv) d z ek dk -> Encaps_internal (PS lv) ek m K c ->
  noise_decodes m (decryption_noise (PS lv) A d m (skipn 32 (SHA3_512 (m ++ SHA3_256 ek)))) ->
  exists fuel0, forall fuel (J1 J2 J3 : Junk) pk sk ct ss ss3, (fuel0 <= fuel)%nat ->
    length pk = KYBER_PUBLICKEYBYTES lv -> length sk = KYBER_SECRETKEYBYTES lv ->
    length ct = KYBER_CIPHERTEXTBYTES lv -> length ss = 32%nat -> length ss3 = 32%nat ->
    exists T1 T2 T3,
      keypair_derand_of V1 J1 lv fuel pk sk (d ++ z) = Ok (ek, dk, 0) T1 /\
      enc_derand_of V2 J2 lv fuel ct ss ek m = Ok (c, K, 0) T2 /\
      dec_of V3 J3 lv fuel ss3 c dk = Ok (K, 0) T3.
Proof.
  intros Hd Hz Hm HA HK HE HN.
  destruct (KeyGen_internal_sizes _ _ _ _ _ Hz HK) as [Hpk Hsk]. destruct (Encaps_internal_sizes _ _ _ _ _ HE) as [Hss Hct].
  destruct (kem_agreement_total lv d z m A ek dk K c Hd Hz Hm HA HK HE HN) as [f0 F0].
  assert (HD : Decaps_internal (PS lv) dk c K).
  { destruct (F0 f0 (fun _ : nat => 0) (repeat 0 (KYBER_PUBLICKEYBYTES lv)) (repeat 0 (KYBER_SECRETKEYBYTES lv)) (repeat 0 (KYBER_CIPHERTEXTBYTES lv)) (repeat 0 32) (repeat 0 32) (le_n _))
      as (T1 & T2 & T3 & _ & _ & E); [apply repeat_length..|].
    exact (proj2 (dec_sound _ _ _ _ _ _ _ _ _ (repeat_length 0 32) Hct Hsk E)). }
  destruct (keypair_of_complete V1 lv d z ek dk Hd Hz HK) as [f1 F1].
  destruct (enc_of_complete V2 lv ek m K c Hpk Hm HE) as [f2 F2].
  destruct (dec_of_complete V3 lv c dk K Hct Hsk HD) as [f3 F3].
  exists (f1 + f2 + f3)%nat. intros fuel J1 J2 J3 pk sk ct ss ss3 Lf Lp Ls Lc Lss Lss3.
  destruct (F1 fuel J1 pk sk) as [T1 E1]; [lia|assumption..|].
  destruct (F2 fuel J2 ct ss) as [T2 E2]; [lia|assumption..|].
  destruct (F3 fuel J3 ss3) as [T3 E3]; [lia|assumption|].
  exists T1, T2, T3. exact (conj E1 (conj E2 E3)).
Qed.

(** ** C50: nonces *)
Lemma log_distinct (l : list Z) : forallb (fun n => (0 <=? n) && (n <? 256)) l && (length (nodup Z.eq_dec l) =? length l)%nat = true ->
  NoDup l /\ forall n, In n l -> 0 <= n < 256.
Proof.
  intros E. apply andb_prop in E as [E1 E2]. apply Nat.eqb_eq in E2. split.
  - apply (@NoDup_incl_NoDup Z (nodup Z.eq_dec l) l (NoDup_nodup _ _)); [lia|]. intros x Hx. now apply nodup_In in Hx.
  - intros n Hn. rewrite forallb_forall in E1. specialize (E1 n Hn). apply andb_prop in E1 as [A B].
    apply Z.leb_le in A. apply Z.ltb_lt in B. lia.
Qed.
Lemma avx_keypair_nonces lv fuel (JJ : Junk) pk sk coins v T : crypto_kem_keypair_derand_avx2 lv fuel pk sk coins = Ok v T ->
  nonces_used T = match lv with Kyber512 => [0; 1; 2; 3] | _ => [0; 1; 2; 3; 4; 5; 6; 7] end /\
  NoDup (nonces_used T) /\ forall n, In n (nonces_used T) -> 0 <= n < 256.
Proof.
  intros E. pose proof (logs_elim _ _ _ _ (l_keypair_derand_avx2 lv fuel pk sk coins) E) as N. change (nonces T) with (nonces_used T) in N.
  rewrite N. split; [destruct lv; reflexivity|]. apply log_distinct. destruct lv; reflexivity.
Qed.
Lemma avx_enc_nonces lv fuel (JJ : Junk) ct ss pk m v T : crypto_kem_enc_derand_avx2 lv fuel ct ss pk m = Ok v T ->
  nonces_used T = match lv with Kyber512 => [0; 1; 2; 3; 4] | Kyber768 => [0; 1; 2; 3; 4; 5; 6; 7] | Kyber1024 => [0; 1; 2; 3; 4; 5; 6; 7; 8] end /\
  NoDup (nonces_used T) /\ forall n, In n (nonces_used T) -> 0 <= n < 256.
Proof.
  intros E. pose proof (logs_elim _ _ _ _ (l_enc_derand_avx2 lv fuel ct ss pk m) E) as N. change (nonces T) with (nonces_used T) in N.
  rewrite N. split; [destruct lv; reflexivity|]. apply log_distinct. destruct lv; reflexivity.
Qed.
Lemma avx_dec_nonces lv fuel (JJ : Junk) ss ct sk v T : crypto_kem_dec_avx2 lv fuel ss ct sk = Ok v T ->
  nonces_used T = match lv with Kyber512 => [0; 1; 2; 3; 4] | Kyber768 => [0; 1; 2; 3; 4; 5; 6; 7] | Kyber1024 => [0; 1; 2; 3; 4; 5; 6; 7; 8] end /\
  NoDup (nonces_used T) /\ forall n, In n (nonces_used T) -> 0 <= n < 256.
Proof.
  intros E. pose proof (logs_elim _ _ _ _ (l_dec_avx2 lv fuel ss ct sk) E) as N. change (nonces T) with (nonces_used T) in N.
  rewrite N. split; [destruct lv; reflexivity|]. apply log_distinct. destruct lv; reflexivity.
Qed.
