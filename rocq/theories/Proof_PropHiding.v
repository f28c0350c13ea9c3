(** * Hiding of messages: from the games to the code *)
From Coq Require Import ZArith QArith Qabs List Lia.
From Verif Require Import CMonad WP Sums Proof_Base Proof_Vocab Proof_Bits Levels Model_Params Model_Indcpa Model_Kem Model_AvxIndcpa Spec_FIPS202 Spec_FIPS203 Spec_Failure Spec_Games Vocab Vocab_Code Vocab_Avx
  Proof_Indcpa Proof_PropKem Proof_AvxApi Proof_PropFailure Proof_Games Proof_Hash Proof_GenMatrix Proof_Keypair Proof_Encrypt Proof_Kem Proof_Api Cases Run_Kem Proof_Demo Proof_Cases Proof_AvxCases.
Import ListNotations.
Open Scope Z_scope.
#[local] Opaque SHAKE256 SHA3_256 SHA3_512.
#[local] Opaque indcpa_enc_avx2 indcpa_keypair_derand_avx2 indcpa_enc indcpa_keypair_derand.

Lemma KeyGen_public P A d : fst (K_PKE_KeyGen P A d) =
  public_key (keygen_rho P d) (key_sample P A (prf_bytes (eta1 P) (keygen_sigma P d) 0 (k P)) (prf_bytes (eta1 P) (keygen_sigma P d) (k P) (k P))).
Proof. unfold K_PKE_KeyGen, public_key, key_sample. cbv zeta. cbn [fst]. now rewrite <- !noise_prf. Qed.
Lemma Encrypt_encrypt P A ek m r : K_PKE_Encrypt P A ek m r =
  encrypt P A ek m (prf_bytes (eta1 P) r 0 (k P)) (prf_bytes (eta2 P) r (k P) (k P)) (prf_bytes (eta2 P) r (2 * k P) 1).
Proof.
  unfold K_PKE_Encrypt, encrypt, ciphertext, u_sample, v_sample. cbv zeta. rewrite <- !noise_prf.
  replace (prf_bytes (eta2 P) r (2 * k P) 1) with (PRF (eta2 P) r (Z.of_nat (2 * k P))) by (unfold prf_bytes; cbn [seq flat_map]; now rewrite app_nil_r).
  reflexivity.
Qed.

Lemma code_game lv fuel f2 (J1 J2 : Junk) pk sk c d m r pk' sk' c' T1 T2 A :
  length pk = KYBER_INDCPA_PUBLICKEYBYTES lv -> length sk = KYBER_INDCPA_SECRETKEYBYTES lv -> length c = KYBER_CIPHERTEXTBYTES lv ->
  byte_array 32 d -> byte_array 32 m -> byte_array 32 r ->
  @indcpa_keypair_derand J1 lv fuel pk 0 sk 0 d 0 = Ok (pk', sk') T1 ->
  @indcpa_enc J2 lv f2 c 0 m 0 pk' 0 r 0 = Ok c' T2 ->
  is_matrix (PS lv) (keygen_rho (PS lv) d) A ->
  let P := PS lv in let sigma := keygen_sigma P d in
  pk' = public_key (keygen_rho P d) (key_sample P A (prf_bytes (eta1 P) sigma 0 (k P)) (prf_bytes (eta1 P) sigma (k P) (k P))) /\
  c' = encrypt P A pk' m (prf_bytes (eta1 P) r 0 (k P)) (prf_bytes (eta2 P) r (k P) (k P)) (prf_bytes (eta2 P) r (2 * k P) 1).
Proof.
  intros Lp Ls Lc Hd Hm Hr E1 E2 HA. cbv zeta.
  destruct (pke_keypair lv fuel J1 pk sk d pk' sk' T1 Lp Ls Hd E1) as (A1 & M1 & K1).
  rewrite (is_matrix_functional _ _ _ _ M1 HA) in K1. clear A1 M1.
  assert (LA : length A = k (PS lv)) by apply HA.
  assert (K1f : pk' = fst (K_PKE_KeyGen (PS lv) A d)) by (rewrite <- K1; reflexivity).
  split; [rewrite K1f; apply KeyGen_public|].
  assert (Hp : byte_array (KYBER_INDCPA_PUBLICKEYBYTES lv) pk').
  { rewrite K1f. apply bytes_bytes_of; [exact (KeyGen_ek_length lv A d LA)|apply KeyGen_ek_bytes]. }
  destruct (pke_enc lv f2 J2 c m pk' r c' T2 Lc Hm Hp Hr E2) as (A2 & M2 & K2).
  rewrite K1f in M2. rewrite (ek_rho_KeyGen lv A d LA) in M2. rewrite (is_matrix_functional _ _ _ _ M2 HA) in K2.
  rewrite K2. apply Encrypt_encrypt.
Qed.
Lemma code_game_avx2 lv fuel f2 (J1 J2 : Junk) pk sk c d m r pk' sk' c' T1 T2 A :
  length pk = KYBER_INDCPA_PUBLICKEYBYTES lv -> length sk = KYBER_INDCPA_SECRETKEYBYTES lv -> length c = KYBER_CIPHERTEXTBYTES lv ->
  byte_array 32 d -> byte_array 32 m -> byte_array 32 r ->
  @indcpa_keypair_derand_avx2 J1 lv fuel pk 0 sk 0 d 0 = Ok (pk', sk') T1 ->
  @indcpa_enc_avx2 J2 lv f2 c 0 m 0 pk' 0 r 0 = Ok c' T2 ->
  is_matrix (PS lv) (keygen_rho (PS lv) d) A ->
  let P := PS lv in let sigma := keygen_sigma P d in
  pk' = public_key (keygen_rho P d) (key_sample P A (prf_bytes (eta1 P) sigma 0 (k P)) (prf_bytes (eta1 P) sigma (k P) (k P))) /\
  c' = encrypt P A pk' m (prf_bytes (eta1 P) r 0 (k P)) (prf_bytes (eta2 P) r (k P) (k P)) (prf_bytes (eta2 P) r (2 * k P) 1).
Proof.
  intros Lp Ls Lc Hd Hm Hr E1 E2 HA. cbv zeta.
  destruct (avx_pke_keypair lv fuel J1 pk sk d pk' sk' T1 Lp Ls Hd E1) as (A1 & M1 & K1).
  rewrite (is_matrix_functional _ _ _ _ M1 HA) in K1. clear A1 M1.
  assert (LA : length A = k (PS lv)) by apply HA.
  assert (K1f : pk' = fst (K_PKE_KeyGen (PS lv) A d)) by (rewrite <- K1; reflexivity).
  split; [rewrite K1f; apply KeyGen_public|].
  assert (Hp : byte_array (KYBER_INDCPA_PUBLICKEYBYTES lv) pk').
  { rewrite K1f. apply bytes_bytes_of; [exact (KeyGen_ek_length lv A d LA)|apply KeyGen_ek_bytes]. }
  destruct (avx_pke_enc lv f2 J2 c m pk' r c' T2 Lc Hm Hp Hr E2) as (A2 & M2 & K2).
  rewrite K1f in M2. rewrite (ek_rho_KeyGen lv A d LA) in M2. rewrite (is_matrix_functional _ _ _ _ M2 HA) in K2.
  rewrite K2. apply Encrypt_encrypt.
Qed.

(** ** The bound is not vacuous: without noise and with one bit per coefficient the game is won *)
Open Scope Q_scope.
Lemma average_const {X} (l : list X) c : l <> [] -> average l (fun _ => c) == c.
Proof.
  intros N. unfold average.
  assert (S : fold_right (fun (_ : X) a => c + a) 0 l == c * inject_Z (Z.of_nat (length l))).
  { clear N. induction l as [|x l IH]; [cbn; ring|]. cbn [fold_right length]. rewrite IH, Nat2Z.inj_succ. unfold Z.succ. rewrite inject_Z_plus. change (inject_Z 1) with 1. ring. }
  rewrite S. field. intros E. apply N. destruct l; [reflexivity|]. cbn [length] in E. unfold Qeq, inject_Z in E. cbn in E. lia.
Qed.
Lemma strings_nonempty m : strings m <> [].
Proof.
  intros E. assert (In (repeat 0%Z m) (strings m)) as I; [|rewrite E in I; destruct I].
  apply words_in. split; [apply repeat_length|]. intros x Hx. apply repeat_spec in Hx. subst x. apply below_in. lia.
Qed.

Lemma NTTinv_pzero : NTTinv pzero = pzero.
Proof.
  unfold NTTinv, pzero, mkpoly. apply map_ext_in. intros i _. rewrite sumz_0; [reflexivity|]. intros j _.
  assert (Z0 : forall p, coef (map (fun _ : nat => 0%Z) (seq 0 n)) p = 0%Z).
  { intros p. unfold coef. destruct (Nat.lt_ge_cases p n) as [L|L].
    - exact (map_nth (fun _ : nat => 0%Z) (seq 0 n) 0%nat p).
    - rewrite nth_overflow; [reflexivity|]. now rewrite map_length, seq_length. }
  now rewrite Z0.
Qed.
Definition bare := Params 0 0 0 1 1.
Definition constant_messages (_ : list Z) : list Z * list Z := (repeat 0%Z 32, repeat 255%Z 32).
Definition read_off (_ c : list Z) : Q := if list_eq_dec Z.eq_dec c (repeat 0%Z 32) then 1 else 0.
#[local] Opaque strings.
Lemma bare_game b : game bare [] [] constant_messages read_off b == (if b then 0 else 1).
Proof.
  unfold game, over_key_seeds, over_seeds.
  assert (C : forall ek r, encrypt bare [] ek (chosen constant_messages b ek) (prf_bytes (eta1 bare) r 0 (k bare)) (prf_bytes (eta2 bare) r (k bare) (k bare)) (prf_bytes (eta2 bare) r (2 * k bare) 1)
     = if b then repeat 255%Z 32 else repeat 0%Z 32).
  { intros ek r. unfold encrypt. cbn [bare k eta1 eta2 Nat.mul].
    change (prf_bytes 0 r _ 1) with (prf_bytes 0 r 0 1). replace (prf_bytes 0 r 0 1) with (@nil Z).
    - unfold v_sample. change (NTTinv (ntt_dot _ _)) with (NTTinv pzero). rewrite NTTinv_pzero. destruct b; vm_compute; reflexivity.
    - symmetry. apply length_zero_iff_nil. pose proof (proj1 (prf_bytes_array 0 r 0 1)) as L. exact L. }
  etransitivity; [|apply (average_const (strings 32)), strings_nonempty]. apply average_ext. intros s _. cbv zeta.
  etransitivity; [|apply (average_const (strings 32)), strings_nonempty]. apply average_ext. intros r _.
  rewrite C. destruct b; vm_compute; reflexivity.
Qed.
Lemma case_hiding : gap (game bare [] [] constant_messages read_off false) (game bare [] [] constant_messages read_off true) == 1.
Proof. etransitivity; [exact (gap_wd _ _ _ _ (bare_game false) (bare_game true))|reflexivity]. Qed.
