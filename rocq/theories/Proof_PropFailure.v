(** * Decryption failures: from the strings to the code *)
From Coq Require Import ZArith List Lia Bool.
From Verif Require Import CMonad WP Modq Sums Proof_Base Proof_Vocab Proof_Bits Levels Model_Params Model_Indcpa Model_Kem Model_AvxIndcpa Model_AvxKem Spec_FIPS202 Spec_FIPS203 Spec_Noise Spec_Failure Vocab Vocab_Code Vocab_Avx Vocab_Dist Vocab_Failure
  Proof_CBD Proof_AvxDecompress Proof_Polyvec Proof_Indcpa Proof_Correct Proof_Dist Proof_FailSums Proof_FailBound Proof_FailNum Proof_Failure Proof_FailCount Proof_Hash Proof_PropKem Proof_AvxKem Proof_AvxApi Proof_PropAvxKem Cases Run_Kem Proof_Demo Proof_AvxCases.
Import ListNotations.
Open Scope Z_scope.

#[local] Opaque SHAKE256 SHA3_256 SHA3_512.
#[local] Opaque crypto_kem_keypair_derand_avx2 crypto_kem_enc_derand_avx2 crypto_kem_dec_avx2 indcpa_dec_avx2 indcpa_enc_avx2 indcpa_keypair_derand_avx2.
Lemma PRF_len eta seed b : length (PRF eta seed b) = (64 * eta)%nat.
Proof. apply SHAKE256_length. Qed.
Lemma noise_prf eta seed start count : noise eta seed start count = noise_polys eta count (prf_bytes eta seed start count).
Proof.
  apply (list_eq_nth []); [now rewrite noise_length, noise_polys_length|]. rewrite noise_length. intros i Hi.
  rewrite noise_nth, noise_polys_nth by exact Hi. f_equal. unfold prf_bytes.
  change (firstn (64 * eta) (skipn (64 * eta * i) ?x)) with (sub x (64 * eta * i) (64 * eta)).
  rewrite (sub_flat_map (fun i => PRF eta seed (Z.of_nat i)) (64 * eta) (seq start count) 0%nat i); [|intros; apply PRF_len|now rewrite seq_length].
  now rewrite seq_nth.
Qed.
Lemma prf_bytes_array eta seed start count : byte_array (64 * eta * count) (prf_bytes eta seed start count).
Proof.
  split.
  - unfold prf_bytes. rewrite (Proof_Kem.flat_map_len _ _ (64 * eta)) by (intros; apply PRF_len). now rewrite seq_length.
  - intros x Hx. unfold prf_bytes in Hx. apply in_flat_map in Hx as (i & _ & Hx). apply (In_nth _ _ 0) in Hx as (j & Hj & <-).
    pose proof (SHAKE256_bytes (seed ++ [Z.of_nat i]) (64 * eta) j Hj). unfold PRF. lia.
Qed.
Lemma sampled_link P A d m r : decryption_noise P A d m r =
  sampled_noise P A m (prf_bytes (eta1 P) (keygen_sigma P d) 0 (k P)) (prf_bytes (eta1 P) (keygen_sigma P d) (k P) (k P))
    (prf_bytes (eta1 P) r 0 (k P)) (prf_bytes (eta2 P) r (k P) (k P)) (prf_bytes (eta2 P) r (2 * k P) 1).
Proof.
  unfold decryption_noise, sampled_noise. rewrite <- !noise_prf.
  replace (prf_bytes (eta2 P) r (2 * k P) 1) with (PRF (eta2 P) r (Z.of_nat (2 * k P))) by (unfold prf_bytes; cbn [seq flat_map]; now rewrite app_nil_r).
  reflexivity.
Qed.

Lemma failing_noise lv A d m r : failing (PS lv) A m (expanded (PS lv) d r) <-> ~ noise_decodes m (decryption_noise (PS lv) A d m r).
Proof.
  rewrite sampled_link. unfold failing, expanded. split; [intros (_ & _ & _ & _ & _ & N); exact N|].
  intros N. do 4 (split; [apply prf_bytes_array|]). split; [pose proof (prf_bytes_array (eta2 (PS lv)) r (2 * k (PS lv)) 1) as X; rewrite Nat.mul_1_r in X; exact X|exact N].
Qed.
Lemma decodes_decided m w : noise_decodes m w \/ ~ noise_decodes m w.
Proof.
  destruct (decodesb m w) eqn:E; [left; now apply decodesb_spec|right; intros C; apply decodesb_spec in C; congruence].
Qed.
(** The code fails to decrypt exactly when the strings it expands are failing ones. *)
Lemma code_failing lv fuel f2 (J1 J2 J3 : Junk) pk sk c mbuf d m r pk' sk' c' T1 T2 A :
  length pk = KYBER_INDCPA_PUBLICKEYBYTES lv -> length sk = KYBER_INDCPA_SECRETKEYBYTES lv -> length c = KYBER_CIPHERTEXTBYTES lv ->
  length mbuf = 32%nat -> byte_array 32 d -> byte_array 32 m -> byte_array 32 r ->
  @indcpa_keypair_derand J1 lv fuel pk 0 sk 0 d 0 = Ok (pk', sk') T1 ->
  @indcpa_enc J2 lv f2 c 0 m 0 pk' 0 r 0 = Ok c' T2 ->
  is_matrix (PS lv) (keygen_rho (PS lv) d) A ->
  exists m' T3, @indcpa_dec J3 lv mbuf 0 c' 0 sk' 0 = Ok m' T3 /\
    (m' <> m <-> failing (PS lv) A m (expanded (PS lv) d r)).
Proof.
  intros Lp Ls Lc Lm Hd Hm Hr E1 E2 HA.
  destruct (pke_correct lv fuel f2 J1 J2 J3 pk sk c mbuf d m r pk' sk' c' T1 T2 A Lp Ls Lc Lm Hd Hm Hr E1 E2 HA) as (m' & T3 & E3 & I).
  exists m', T3. split; [exact E3|]. rewrite failing_noise. split; intros N C; apply N; apply I; exact C.
Qed.
Lemma code_failing_avx2 lv fuel f2 (J1 J2 J3 : Junk) pk sk c mbuf d m r pk' sk' c' T1 T2 A :
  length pk = KYBER_INDCPA_PUBLICKEYBYTES lv -> length sk = KYBER_INDCPA_SECRETKEYBYTES lv -> length c = KYBER_CIPHERTEXTBYTES lv ->
  length mbuf = 32%nat -> byte_array 32 d -> byte_array 32 m -> byte_array 32 r ->
  @indcpa_keypair_derand_avx2 J1 lv fuel pk 0 sk 0 d 0 = Ok (pk', sk') T1 ->
  @indcpa_enc_avx2 J2 lv f2 c 0 m 0 pk' 0 r 0 = Ok c' T2 ->
  is_matrix (PS lv) (keygen_rho (PS lv) d) A ->
  exists m' T3, @indcpa_dec_avx2 J3 lv mbuf 0 c' 0 sk' 0 = Ok m' T3 /\
    (m' <> m <-> failing (PS lv) A m (expanded (PS lv) d r)).
Proof.
  intros Lp Ls Lc Lm Hd Hm Hr E1 E2 HA.
  destruct (avx_pke_correct lv fuel f2 J1 J2 J3 pk sk c mbuf d m r pk' sk' c' T1 T2 A Lp Ls Lc Lm Hd Hm Hr E1 E2 HA) as (m' & T3 & E3 & I).
  exists m', T3. split; [exact E3|]. rewrite failing_noise. split; intros N C; apply N; apply I; exact C.
Qed.
Lemma kem_failing : forall V1 V2 V3 lv d z m f1 f2 f3 (J1 J2 J3 : Junk) pk sk ct ss ss3 pk' sk' ct' ss' ss'' r1 r2 r3 T1 T2 T3 A,
  length pk = KYBER_PUBLICKEYBYTES lv -> length sk = KYBER_SECRETKEYBYTES lv ->
  length ct = KYBER_CIPHERTEXTBYTES lv -> length ss = 32%nat -> length ss3 = 32%nat ->
  byte_array 32 d -> byte_array 32 z -> byte_array 32 m ->
  keypair_derand_of V1 J1 lv f1 pk sk (d ++ z) = Ok (pk', sk', r1) T1 ->
  enc_derand_of V2 J2 lv f2 ct ss pk' m = Ok (ct', ss', r2) T2 ->
  dec_of V3 J3 lv f3 ss3 ct' sk' = Ok (ss'', r3) T3 ->
  is_matrix (PS lv) (keygen_rho (PS lv) d) A ->
  ~ failing (PS lv) A m (expanded (PS lv) d (skipn 32 (SHA3_512 (m ++ SHA3_256 pk')))) ->
  ss'' = ss'.
Proof.
  intros V1 V2 V3 lv d z m f1 f2 f3 J1 J2 J3 pk sk ct ss ss3 pk' sk' ct' ss' ss'' r1 r2 r3 T1 T2 T3 A H1 H2 H3 H4 H5 H6 H7 H8 E1 E2 E3 HA N.
  apply (mixed_agreement V1 V2 V3 lv d z m f1 f2 f3 J1 J2 J3 pk sk ct ss ss3 pk' sk' ct' ss' ss'' r1 r2 r3 T1 T2 T3 A H1 H2 H3 H4 H5 H6 H7 H8 E1 E2 E3 HA).
  destruct (decodes_decided m (decryption_noise (PS lv) A d m (skipn 32 (SHA3_512 (m ++ SHA3_256 pk'))))) as [D|D]; [exact D|].
  exfalso. apply N. apply failing_noise. exact D.
Qed.

(** ** Some strings fail *)
Lemma centred_at x y : 0 <= x < q -> x ≡ y -> Z.abs y <= 1664 -> centred x = y.
Proof. intros Hx [z E] Hy. unfold centred, q in *. destruct (Z.ltb_spec (2 * x) 3329); lia. Qed.
Definition loud (eta K : nat) : list Z := repeat (2 ^ Z.of_nat eta - 1) 256 ++ repeat 0 (256 * (K - 1)).
Definition still (m : nat) : list Z := repeat 0 m.
Lemma every_repeat eta m : In (repeat 0 m) (every (fields_of eta) m).
Proof.
  apply every_in. split; [apply repeat_length|]. intros x Hx. apply repeat_spec in Hx as ->. apply fields_in. split; [lia|]. apply Z.pow_pos_nonneg; lia.
Qed.
Lemma loud_in eta K : (1 <= K)%nat -> In (loud eta K) (every (fields_of eta) (256 * K)).
Proof.
  intros HK. apply every_in. unfold loud. split; [rewrite app_length, !repeat_length; lia|]. intros x Hx. apply in_app_or in Hx as [Hx|Hx]; apply repeat_spec in Hx as ->; apply fields_in.
  - assert (0 < 2 ^ Z.of_nat eta) by (apply Z.pow_pos_nonneg; lia). replace (2 * eta)%nat with (eta + eta)%nat by lia. rewrite Nat2Z.inj_add, Z.pow_add_r by lia. nia.
  - split; [lia|]. apply Z.pow_pos_nonneg; lia.
Qed.
Lemma nth_still i m : nth i (still m) 0 = 0.
Proof. unfold still. destruct (Nat.lt_ge_cases i m); [apply nth_repeat_lt || now rewrite nth_repeat|]. apply nth_overflow. now rewrite repeat_length. Qed.
Definition loud_sum (lv : level) : Z :=
  let l := loud (eta1 (PS lv)) (k (PS lv)) in
  sumz (256 * k (PS lv)) (fun i => cf (eta1 (PS lv)) l i * conv 255 (cf (eta1 (PS lv)) l) i).
Lemma loud_value lv : loud_sum lv = match lv with Kyber512 => 2304 | _ => 1024 end.
Proof. destruct lv; vm_compute; reflexivity. Qed.

Lemma some_fail lv A m : exists w, failing (PS lv) A m w.
Proof.
  set (K := k (PS lv)). set (eta := eta1 (PS lv)).
  assert (HK : (1 <= K)%nat) by (unfold K; destruct lv; cbn; lia).
  pose proof (loud_in eta K HK) as IL. pose proof (every_repeat eta (256 * K)) as I0. pose proof (every_repeat 2 (256 * K)) as I1. pose proof (every_repeat 2 256) as I2.
  exists (enc eta (still (256 * K)), enc eta (loud eta K), enc eta (loud eta K), enc 2 (still (256 * K)), enc 2 (still 256)).
  unfold failing. rewrite eta2_two. fold eta K.
  split; [now apply enc_bytes|]. split; [now apply enc_bytes|]. split; [now apply enc_bytes|]. split; [now apply enc_bytes|]. split; [now apply enc_bytes1|].
  intros D. specialize (D 255%nat ltac:(lia)).
  destruct (noise_value lv A m (loud eta K) (still (256 * K)) (still 256) (still (256 * K)) (loud eta K) 255 (eta_pos lv) (eta2_two lv) ltac:(lia) IL I1 I2 I0 IL) as (v & Hv & EN).
  unfold noise_of in EN. fold eta K in EN.
  set (x := nth 255 (sampled_noise _ _ _ _ _ _ _ _) 0) in *.
  assert (Hx : 0 <= x < q) by (unfold x, sampled_noise; apply psub_canon; lia).
  assert (EF : formj eta K (wfun (Z.of_nat (du (PS lv)))) (base lv A) 255 (loud eta K) (still (256 * K)) (still (256 * K)) (loud eta K) = loud_sum lv).
  { unfold formj, form, loud_sum. fold eta K. rewrite (sumz_0 _ (fun i => cf eta (still (256 * K)) i * _)); [apply Z.add_0_r|].
    intros i Hi. unfold cf. rewrite nth_still. replace (cbdf eta 0) with 0; [reflexivity|]. unfold eta. destruct lv; reflexivity. }
  rewrite EF, loud_value in EN. unfold cf in EN. rewrite nth_still in EN. change (cbdf 2 0) with 0 in EN.
  assert (V : Z.abs (verr (Z.of_nat (dv (PS lv))) v) <= 104).
  { clear -Hv. destruct lv; [now apply verr4|now apply verr4|apply Z.le_trans with 52; [exact (verr5 v Hv)|lia]]. }
  set (ve := verr _ v) in *. clearbody ve x.
  destruct lv.
  - rewrite (centred_at x (2304 + 0 + ve - 3329)) in D; [lia|exact Hx| |lia]. rewrite EN. exists 1. lia.
  - rewrite (centred_at x (1024 + 0 + ve)) in D; [destruct (_ =? 1); lia|exact Hx|exact EN|lia].
  - rewrite (centred_at x (1024 + 0 + ve)) in D; [destruct (_ =? 1); lia|exact Hx|exact EN|lia].
Qed.
Lemma case_failing : exists N, counted (failing (PS Kyber768) [] (repeat 0 32)) N /\ 0 < N /\ N * 2 ^ 90 <= 256 ^ 1664.
Proof.
  destruct (failure_bound Kyber768 [] (repeat 0 32)) as (N & C & B). exists N. split; [exact C|]. split; [|exact B].
  destruct (some_fail Kyber768 [] (repeat 0 32)) as (w & F). destruct C as (L & _ & HI & <-). apply HI in F. destruct L; [destruct F|]. cbn [length]. lia.
Qed.
Lemma case_exchange_failing : exists A ek dk c K T1 T2 T3,
  is_matrix (PS Kyber512) (keygen_rho (PS Kyber512) demo_d) A /\
  @crypto_kem_keypair_derand_avx2 no_junk Kyber512 2 (repeat 0 800) (repeat 0 1632) (demo_d ++ demo_z) = Ok (ek, dk, 0) T1 /\
  @crypto_kem_enc_derand_avx2 no_junk Kyber512 2 (repeat 0 768) (repeat 0 32) ek demo_m = Ok (c, K, 0) T2 /\
  @crypto_kem_dec_avx2 no_junk Kyber512 2 (repeat 0 32) c dk = Ok (K, 0) T3 /\
  ~ failing (PS Kyber512) A demo_m (expanded (PS Kyber512) demo_d (skipn 32 (SHA3_512 (demo_m ++ SHA3_256 ek)))).
Proof.
  destruct avx_case_exchange as (A & ek & dk & c & K & T1 & T2 & T3 & HA & E1 & E2 & E3 & D). exists A, ek, dk, c, K, T1, T2, T3.
  split; [exact HA|]. split; [exact E1|]. split; [exact E2|]. split; [exact E3|]. intros F. apply failing_noise in F. exact (F D).
Qed.
