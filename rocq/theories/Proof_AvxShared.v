(** * Overlapping buffers, AVX2 against the reference code *)
From Coq Require Import ZArith List Lia Bool.
From Verif Require Import CMonad WP Modq Sums Levels Model_Params Model_Verify Model_Symmetric Model_Fips202 Model_NTT Model_Poly Model_Polyvec
  Model_Indcpa Model_Kem Model_Shared Model_SharedKey
  Spec_FIPS202 Spec_FIPS203 Vocab Vocab_Rng Vocab_Buffers Vocab_Overlap Proof_Base Proof_Vocab Proof_Hash Proof_Symmetric Proof_Verify
  Proof_NTT Proof_NTTSpec Proof_Poly Proof_Polyvec Proof_Compress Proof_Codec Proof_PolyvecCodec Proof_CBD
  Proof_Bits Proof_GenMatrix Proof_Indcpa Proof_Keypair Proof_Encrypt Proof_Fuel Proof_Kem Proof_Api Proof_Shared Proof_SharedKey.
From Verif Require Model_AvxIntrin.
From Verif Require Import Model_AvxCode Model_AvxC Model_AvxPolyvec Model_AvxIndcpa Model_AvxKem Model_AvxShared
  Proof_AvxNTT Proof_AvxPack Proof_AvxPolyvec Proof_AvxGenMatrix Proof_AvxNoise Proof_AvxKeypair Proof_AvxEncrypt Proof_AvxMisc Proof_AvxKem.
Import ListNotations.
Open Scope Z_scope.
Open Scope cmonad_scope.
Local Opaque SHA3_256 SHA3_512 SHAKE256 SHAKE128.

Lemma same_refl {A} (m : res A) : same_result m m.
Proof. destruct m; cbn; auto. Qed.
Lemma same_bind {A B} (m m' : res A) (P : A -> Prop) (f g : A -> res B) :
  same_result m m' -> (forall v T, m = Ok v T -> P v) -> (forall v, P v -> same_result (f v) (g v)) -> same_result (bind m f) (bind m' g).
Proof.
  intros S HP HF. destruct m as [v T| | |], m' as [v' T'| | |]; cbn [same_result] in S; try contradiction; subst; cbn [bind same_result]; auto.
  specialize (HF v' (HP _ _ eq_refl)). destruct (f v'), (g v'); cbn [same_result] in *; auto.
Qed.
Lemma same_wp_bind {A B} (m m' : res A) T T' v (f g : A -> res B) :
  wp m T (fun x => x = v) -> wp m' T' (fun x => x = v) -> same_result (f v) (g v) -> same_result (bind m f) (bind m' g).
Proof.
  intros W W' S. eapply (same_bind m m' (fun x => x = v)); [exact (same_wp _ _ _ _ _ W W')| |].
  - destruct W as (x & E & ->). intros y S0 E0. rewrite E in E0. now injection E0.
  - intros x ->. exact S.
Qed.

Definition shared_rest_avx2 `{Junk} (lv : level) (mem : list Z) (po sko : nat) (buf : list Z) (a : list polyvec) : res (list Z) :=
  '(skpv, e, pkpv) <- keypair_noise lv (local_polyvec lv) (local_polyvec lv) (local_polyvec lv) buf KYBER_SYMBYTES ;;
  skpv <- polyvec_ntt_avx2 lv skpv ;;
  skpv <- polyvec_reduce_avx2 lv skpv ;;
  e <- polyvec_ntt_avx2 lv e ;;
  pkpv <- for_ (KYBER_K lv) 0 (fun i pkpv =>
    p <- aget pkpv i ;;
    ai <- aget a i ;;
    p <- polyvec_basemul_acc_montgomery_avx2 lv p ai skpv ;;
    p <- tomont_avx p ;;
    aset pkpv i p) pkpv ;;
  pkpv <- polyvec_add_to_avx2 lv pkpv e ;;
  pkpv <- polyvec_reduce_avx2 lv pkpv ;;
  mem <- pack_sk_avx2 lv mem sko skpv ;;
  pack_pk_avx2 lv mem po pkpv buf 0.

Lemma shared_split_avx2 `{JJ : Junk} lv fuel mem po sko co :
  indcpa_keypair_derand_avx2_shared lv fuel mem po sko co =
  bind (keypair_expand lv mem co) (fun buf =>
    bind (gen_matrix_avx2 lv fuel (local_matrix lv) buf 0 false) (fun a => shared_rest_avx2 lv mem po sko buf a)).
Proof.
  unfold keypair_expand, indcpa_keypair_derand_avx2_shared, gen_a_avx2. cbv zeta.
  rewrite bind_assoc. apply bind_ext. intros b1. rewrite bind_assoc. reflexivity.
Qed.

Lemma shared_rest_avx2_wp lv M rho po sko : rows_ok lv M ->
  traced (fun T => forall (JJ : Junk) mem buf sigma,
    (po + KYBER_INDCPA_PUBLICKEYBYTES lv <= length mem)%nat ->
    (sko + KYBER_INDCPA_SECRETKEYBYTES lv <= length mem)%nat ->
    length buf = 64%nat -> bytes buf -> sub buf 0 32 = rho -> sub buf 32 32 = sigma ->
    wp (shared_rest_avx2 lv mem po sko buf (avx_matrix M)) T
       (fun st => st =
          splice (splice mem sko (flat_map (ByteEncode 12) (sec lv sigma))) po (flat_map (ByteEncode 12)
             (zipadd (map (fun row => ntt_dot row (sec lv sigma)) M) (err lv sigma)) ++ rho))).
Proof.
  intros HM. pose proof (K_range lv) as HK.
  destruct (keypair_noise_wp lv 32) as [T3 W3].
  destruct (polyvec_ntt_avx2_wp lv) as [T5 W5].
  destruct (matvec_avx_wp lv M HM) as [T6 W6].
  destruct (polyvec_add_to_avx2_wp lv) as [T7 W7].
  destruct (polyvec_reduce_avx2_wp lv) as [T8 W8].
  destruct (polyvec_tobytes_avx2_wp lv sko) as [T9 W9].
  destruct (polyvec_tobytes_avx2_wp lv po) as [T10 W10].
  destruct (memcpy_wp (po + KYBER_POLYVECBYTES lv) 0 32) as [T11 W11].
  eexists. intros JJ mem buf sigma Hpk Hsk Lb Bb Er Es. unfold shared_rest_avx2.
  unfold KYBER_INDCPA_PUBLICKEYBYTES, KYBER_INDCPA_SECRETKEYBYTES in *. change KYBER_SYMBYTES with 32%nat in *.
  pose proof (eta1_le lv) as He.
  pose proof (sec_canon lv sigma) as Sc.
  wstep. eapply wp_conseq.
  { apply (W3 JJ _ _ _ buf sigma (local_polyvec_shaped lv) (local_polyvec_shaped lv) (local_polyvec_shaped lv)).
    refine (conj _ (conj Bb Es)). lia. }
  intros [[s0 e0] p0] (-> & -> & Sp). cbv beta iota.
  wstep. eapply wp_conseq.
  { apply (W5 JJ). eapply vbnd_weaken; [| |apply noisez_vbnd; exact He]; lia. }
  intros s1 [Bs1 Cs1].
  pose proof (ntt_noise_avx _ _ _ _ _ He Cs1) as Hs1. rewrite <- sec_eq in Hs1.
  wstep. eapply wp_conseq.
  { apply (W8 JJ). eapply vbnd_weaken; [| |exact Bs1]; lia. }
  intros s [Bs Cs]. pose proof (vheld_of _ _ _ _ Hs1 Cs) as Hs.
  wstep. eapply wp_conseq.
  { apply (W5 JJ). eapply vbnd_weaken; [| |apply noisez_vbnd; exact He]; lia. }
  intros e [Be Ce].
  pose proof (ntt_noise_avx _ _ _ _ _ He Ce) as Hee. rewrite <- err_eq in Hee.
  assert (Ws : wfvec (KYBER_K lv) (sec lv sigma)).
  { split; [apply sec_length|]. intros i Hi. now apply Sc. }
  wstep. eapply wp_conseq; [apply (W6 JJ _ s (sec lv sigma) Sp Bs Ws Hs)|].
  intros p [Bp Cp].
  wstep. eapply wp_conseq; [apply (W7 p e 2341 16182 Bp Be); lia|].
  intros p2 [Bp2 Ep2].
  wstep. eapply wp_conseq.
  { apply (W8 JJ). eapply vbnd_weaken; [| |exact Bp2]; lia. }
  intros p3 [Bp3 Cp3].
  assert (LA : length M = KYBER_K lv) by apply HM.
  set (t := zipadd (map (fun row => ntt_dot row (sec lv sigma)) M) (err lv sigma)).
  assert (Lt : length t = KYBER_K lv).
  { unfold t. rewrite zipadd_length; rewrite map_length; [exact LA|]. now rewrite err_length. }
  assert (Nt : forall i, (i < KYBER_K lv)%nat -> nth i t [] = padd (ntt_dot (nth i M []) (sec lv sigma)) (nth i (err lv sigma) [])).
  { intros i Hi. unfold t.
    rewrite zipadd_nth by (unfold polyvec in *; rewrite map_length, ?err_length; lia).
    now rewrite (map_nth_lt (fun row => ntt_dot row (sec lv sigma)) M i [] []) by (unfold polyvec in *; lia). }
  assert (Tc : forall i, (i < KYBER_K lv)%nat -> canon (nth i t [])).
  { intros i Hi. rewrite Nt by auto. apply padd_canon. }
  assert (Wt : wfvec (KYBER_K lv) t).
  { split; [exact Lt|]. intros i Hi. now apply Tc. }
  assert (Ht : vheld (KYBER_K lv) t p3).
  { intros i Hi. eapply lcong_trans; [apply Cp3; exact Hi|]. rewrite (Ep2 i Hi), (Nt i Hi).
    apply avx_order_padd; [apply Cp; exact Hi|apply Hee; exact Hi]. }
  assert (Lsb : length (flat_map (ByteEncode 12) (sec lv sigma)) = KYBER_POLYVECBYTES lv).
  { rewrite <- (canonical_flat _ _ (sec_length lv sigma) Sc). rewrite (flat_map_12_length canonical_bytes _ canonical_bytes_length).
    rewrite sec_length. unfold KYBER_POLYVECBYTES, KYBER_POLYBYTES. lia. }
  assert (Ltb : length (flat_map (ByteEncode 12) t) = KYBER_POLYVECBYTES lv).
  { rewrite <- (canonical_flat _ _ Lt Tc). rewrite (flat_map_12_length canonical_bytes t canonical_bytes_length).
    rewrite Lt. unfold KYBER_POLYVECBYTES, KYBER_POLYBYTES. lia. }
  wstep. unfold pack_sk_avx2. eapply wp_conseq.
  { apply (W9 JJ mem s (sec lv sigma)); [exact Hsk|eapply vbnd_weaken; [| |exact Bs]; lia|exact Ws|exact Hs]. }
  intros m1 ->. rewrite (canonical_flat _ _ (sec_length lv sigma) Sc).
  assert (L1 : length (splice mem sko (flat_map (ByteEncode 12) (sec lv sigma))) = length mem) by (apply splice_length; lia).
  unfold pack_pk_avx2. wstep. eapply wp_conseq.
  { apply (W10 JJ _ p3 t); [lia|eapply vbnd_weaken; [| |exact Bp3]; lia|exact Wt|exact Ht]. }
  intros m2 ->. rewrite (canonical_flat _ _ Lt Tc).
  eapply wp_conseq.
  { apply W11; [rewrite splice_length; lia|lia]. }
  intros m3 ->. fold (sub buf 0 32). rewrite Er.
  apply splice_splice_next; [lia|]. rewrite <- Er, sub_length; lia.
Qed.

Lemma shared_indcpa_avx2_wp lv fuel rho po sko co : enough_all lv fuel rho ->
  traced (fun T => forall (JJ : Junk) mem,
    (po + KYBER_INDCPA_PUBLICKEYBYTES lv <= length mem)%nat ->
    (sko + KYBER_INDCPA_SECRETKEYBYTES lv <= length mem)%nat ->
    (co + 32 <= length mem)%nat -> bytes mem -> keygen_rho (PS lv) (sub mem co 32) = rho ->
    wp (indcpa_keypair_derand_avx2_shared lv fuel mem po sko co) T
       (fun st => let K := K_PKE_KeyGen (PS lv) (matrix lv fuel rho false) (sub mem co 32) in
          st = splice (splice mem sko (snd K)) po (fst K))).
Proof.
  intros HE.
  destruct (expand_wp lv co) as [T1 W1].
  destruct (gen_matrix_avx2_wp lv fuel 0 rho false HE) as [T2 W2].
  destruct (shared_rest_avx2_wp lv (matrix lv fuel rho false) rho po sko (matrix_rows lv fuel rho false HE)) as [T3 W3].
  exists (T1 ++ (T2 ++ T3)). intros JJ mem Hpk Hsk Hc Hb Hrho. rewrite shared_split_avx2.
  apply wp_bind. eapply wp_conseq; [apply (W1 JJ mem Hc Hb)|]. intros buf ->.
  destruct (keygen_seeds lv (sub mem co 32)) as (Lb & Bb & Er & Es). rewrite Hrho in Er.
  set (buf := G _) in *.
  apply wp_bind. eapply wp_conseq; [apply (W2 JJ _ buf (local_matrix_wf lv))|].
  { refine (conj _ (conj Bb Er)). lia. }
  intros a ->. eapply wp_conseq; [apply (W3 JJ mem buf _ Hpk Hsk Lb Bb Er Es)|].
  intros st ->. cbv zeta. unfold K_PKE_KeyGen. rewrite Hrho. reflexivity.
Qed.

Lemma shared_indcpa_avx2_timeout lv fuel po sko co :
  forall (JJ : Junk) mem, (co + 32 <= length mem)%nat -> bytes mem ->
    ~ enough_all lv fuel (keygen_rho (PS lv) (sub mem co 32)) ->
    indcpa_keypair_derand_avx2_shared lv fuel mem po sko co = Timeout.
Proof.
  intros JJ mem Hc Hb HN. rewrite shared_split_avx2.
  destruct (expand_wp lv co) as [T1 W1].
  eapply bind_timeout; [apply (W1 JJ mem Hc Hb)|]. intros buf ->.
  destruct (keygen_seeds lv (sub mem co 32)) as (Lb & Bb & Er & Es).
  apply bind_timeout_l. eapply gen_matrix_avx2_timeout; [exact HN|apply local_matrix_wf|].
  refine (conj _ (conj Bb Er)). lia.
Qed.

Section WithJunk.
Context {JJ : Junk}.

Lemma keypair_avx_shared lv fuel mem po sko co : all_bytes mem ->
  (po + KYBER_PUBLICKEYBYTES lv <= length mem)%nat -> (sko + KYBER_SECRETKEYBYTES lv <= length mem)%nat -> (co + 64 <= length mem)%nat ->
  same_result (crypto_kem_keypair_derand_avx2_shared lv fuel mem po sko co) (crypto_kem_keypair_derand_shared lv fuel mem po sko co).
Proof.
  intros Am Hp Hs Hc. pose proof (all_bytes_bytes _ Am) as Bm.
  assert (ES : KYBER_SECRETKEYBYTES lv = (KYBER_INDCPA_SECRETKEYBYTES lv + (KYBER_PUBLICKEYBYTES lv + (32 + 32)))%nat).
  { unfold KYBER_SECRETKEYBYTES, KYBER_PUBLICKEYBYTES. change KYBER_SYMBYTES with 32%nat. lia. }
  unfold crypto_kem_keypair_derand_avx2_shared, crypto_kem_keypair_derand_shared.
  destruct (enough_all_dec lv fuel (keygen_rho (PS lv) (sub mem co 32))) as [HE|HE].
  - destruct (shared_indcpa_wp lv fuel _ po sko co HE) as [T1 W1].
    destruct (shared_indcpa_avx2_wp lv fuel _ po sko co HE) as [T2 W2].
    eapply same_wp_bind; [apply (W2 JJ mem Hp ltac:(lia) ltac:(lia) Bm eq_refl)|apply (W1 JJ mem Hp ltac:(lia) ltac:(lia) Bm eq_refl)|].
    apply same_refl.
  - rewrite shared_indcpa_avx2_timeout, shared_indcpa_timeout; [exact I|lia|exact Bm|exact HE|lia|exact Bm|exact HE].
Qed.

Lemma enc_avx_shared lv fuel mem cto sso po co : all_bytes mem ->
  (cto + KYBER_CIPHERTEXTBYTES lv <= length mem)%nat -> (sso + 32 <= length mem)%nat ->
  (po + KYBER_PUBLICKEYBYTES lv <= length mem)%nat -> (co + 32 <= length mem)%nat ->
  same_result (crypto_kem_enc_derand_avx2_shared lv fuel mem cto sso po co) (crypto_kem_enc_derand_shared lv fuel mem cto sso po co).
Proof.
  intros Am Hct Hss Hp Hc. pose proof (all_bytes_bytes _ Am) as Bm.
  pose proof (sub_length mem po _ Hp) as Lp. pose proof (sub_length mem co _ Hc) as Lc.
  assert (Bc : bytes (sub mem co 32)) by now apply bnd_sub.
  destruct (enc_shared_prefix lv mem po co Hp Hc Bm) as (T1 & W1).
  destruct hash_g_wp as [T2 W2].
  set (pk := sub mem po (KYBER_PUBLICKEYBYTES lv)) in *. set (m := sub mem co 32) in *.
  assert (Bb : bytes (m ++ H pk)) by (apply bnd_app; [exact Bc|apply SHA3_256_bytes]).
  assert (LH : length (H pk) = 32%nat) by apply SHA3_256_length.
  assert (Lb : length (m ++ H pk) = 64%nat) by (rewrite app_length; lia).
  destruct (kr_parts (m ++ H pk)) as (Lk & Bk & P2 & P1).
  rewrite enc_shared_split. unfold crypto_kem_enc_derand_avx2_shared. cbv zeta. rewrite <- bind_assoc.
  eapply same_wp_bind; [exact W1|exact W1|].
  eapply same_wp_bind; [apply (W2 JJ _ Lb Bb)|apply (W2 JJ _ Lb Bb)|].
  change KYBER_SYMBYTES with 32%nat.
  destruct (enough_all_dec lv fuel (ek_rho (PS lv) pk)) as [HE|HE].
  - destruct (indcpa_enc_wp lv fuel _ cto 0 po 32 HE) as [T3 W3].
    destruct (indcpa_enc_avx2_wp lv fuel _ cto 0 po 32 HE) as [T4 W4].
    eapply same_wp_bind.
    { apply (W4 JJ mem (m ++ H pk) mem (G (m ++ H pk))); try lia; try assumption; reflexivity. }
    { apply (W3 JJ mem (m ++ H pk) mem (G (m ++ H pk))); try lia; try assumption; reflexivity. }
    apply same_refl.
  - rewrite indcpa_enc_avx2_timeout, indcpa_enc_timeout; [exact I|lia|exact Bb|exact Hp|exact Bm|exact HE|lia|exact Hp|exact Bm|exact HE].
Qed.

Lemma dec_avx_shared_prefix lv mem cto sko :
  (cto + KYBER_CIPHERTEXTBYTES lv <= length mem)%nat -> (sko + KYBER_SECRETKEYBYTES lv <= length mem)%nat -> bytes mem ->
  exists T, wp (buf <- indcpa_dec_avx2 lv (local (2 * KYBER_SYMBYTES)) 0 mem cto mem sko ;;
        memcpy buf KYBER_SYMBYTES mem (sko + (KYBER_SECRETKEYBYTES lv - 2 * KYBER_SYMBYTES)) KYBER_SYMBYTES) T
       (fun buf => buf = K_PKE_Decrypt (PS lv) (dk_pke (PS lv) (sub mem sko (KYBER_SECRETKEYBYTES lv)))
                     (sub mem cto (KYBER_CIPHERTEXTBYTES lv)) ++ dk_h (PS lv) (sub mem sko (KYBER_SECRETKEYBYTES lv))).
Proof.
  intros Hct Hsk Bm.
  destruct (indcpa_dec_avx2_wp lv 0 cto sko) as [T1 W1].
  destruct (memcpy_wp 32 (sko + (KYBER_SECRETKEYBYTES lv - 2 * 32)) 32) as [T2 W2].
  eexists. change (2 * KYBER_SYMBYTES)%nat with 64%nat. change KYBER_SYMBYTES with 32%nat.
  destruct (sk_parts lv _ (sub_length mem sko _ Hsk)) as (E1 & E2 & E3 & E4).
  assert (ES : KYBER_SECRETKEYBYTES lv = (KYBER_INDCPA_SECRETKEYBYTES lv + (KYBER_PUBLICKEYBYTES lv + (32 + 32)))%nat).
  { unfold KYBER_SECRETKEYBYTES, KYBER_PUBLICKEYBYTES. change KYBER_SYMBYTES with 32%nat. lia. }
  rewrite sub_sub in E1, E3 by lia. rewrite Nat.add_0_r in E1.
  wstep. eapply wp_conseq.
  { apply (W1 JJ (local 64) mem mem); try assumption; rewrite ?local_length; lia. }
  intros b ->. rewrite <- E1.
  pose proof (Decrypt_length (PS lv) (dk_pke (PS lv) (sub mem sko (KYBER_SECRETKEYBYTES lv))) (sub mem cto (KYBER_CIPHERTEXTBYTES lv))) as Lm.
  revert Lm. generalize (K_PKE_Decrypt (PS lv) (dk_pke (PS lv) (sub mem sko (KYBER_SECRETKEYBYTES lv))) (sub mem cto (KYBER_CIPHERTEXTBYTES lv))) as m.
  intros m Lm. eapply wp_conseq.
  { apply (W2 _ mem); rewrite ?splice_length; rewrite ?local_length; lia. }
  intros b ->. fold (sub mem (sko + (KYBER_SECRETKEYBYTES lv - 2 * 32)) 32). rewrite <- E3.
  assert (Lh : length (dk_h (PS lv) (sub mem sko (KYBER_SECRETKEYBYTES lv))) = 32%nat) by (rewrite E3; apply sub_length; lia).
  rewrite (splice_splice_next (local 64) 0 m) by (rewrite ?local_length; lia).
  apply splice_full. rewrite app_length, local_length. lia.
Qed.

Lemma dec_avx_shared lv fuel mem sso cto sko : all_bytes mem ->
  (sso + 32 <= length mem)%nat -> (cto + KYBER_CIPHERTEXTBYTES lv <= length mem)%nat -> (sko + KYBER_SECRETKEYBYTES lv <= length mem)%nat ->
  same_result (crypto_kem_dec_avx2_shared lv fuel mem sso cto sko) (crypto_kem_dec_shared lv fuel mem sso cto sko).
Proof.
  intros Am Hss Hct Hsk. pose proof (all_bytes_bytes _ Am) as Bm.
  pose proof (sub_length mem cto _ Hct) as Lct. pose proof (sub_length mem sko _ Hsk) as Lsk.
  destruct (dec_avx_shared_prefix lv mem cto sko Hct Hsk Bm) as (T1 & W1).
  destruct (dec_shared_prefix lv mem cto sko Hct Hsk Bm) as (T1' & W1').
  destruct (sk_parts lv _ Lsk) as (E1 & E2 & E3 & E4).
  assert (ES : KYBER_SECRETKEYBYTES lv = (KYBER_INDCPA_SECRETKEYBYTES lv + (KYBER_INDCPA_PUBLICKEYBYTES lv + (32 + 32)))%nat).
  { unfold KYBER_SECRETKEYBYTES. change KYBER_SYMBYTES with 32%nat. lia. }
  rewrite sub_sub in E1, E2, E3, E4 by lia.
  set (ct := sub mem cto (KYBER_CIPHERTEXTBYTES lv)) in *. set (sk := sub mem sko (KYBER_SECRETKEYBYTES lv)) in *.
  pose proof (Decrypt_length (PS lv) (dk_pke (PS lv) sk) ct) as Lm.
  pose proof (Decrypt_bytes (PS lv) (dk_pke (PS lv) sk) ct) as Bm'.
  set (m := K_PKE_Decrypt (PS lv) (dk_pke (PS lv) sk) ct) in *.
  assert (Lh : length (dk_h (PS lv) sk) = 32%nat) by (rewrite E3; apply sub_length; lia).
  set (buf := m ++ dk_h (PS lv) sk) in *.
  assert (Lb : length buf = 64%nat) by (unfold buf; rewrite app_length; lia).
  assert (Bb : bytes buf) by (unfold buf; apply bnd_app; [exact Bm'|rewrite E3; now apply bnd_sub]).
  destruct hash_g_wp as [T2 W2].
  destruct (kr_parts buf) as (Lk & Bk & P2 & P1). rewrite dec_shared_split.
  unfold crypto_kem_dec_avx2_shared. cbv zeta. rewrite <- bind_assoc.
  eapply same_wp_bind; [exact W1|exact W1'|].
  eapply same_wp_bind; [apply (W2 JJ _ Lb Bb)|apply (W2 JJ _ Lb Bb)|].
  change KYBER_SYMBYTES with 32%nat. set (kr := G buf) in *.
  destruct (enough_all_dec lv fuel (ek_rho (PS lv) (dk_ek (PS lv) sk))) as [HE|HE].
  - destruct (indcpa_enc_wp lv fuel _ 0 0 (sko + KYBER_INDCPA_SECRETKEYBYTES lv) 32 HE) as [T3 W3].
    destruct (indcpa_enc_avx2_wp lv fuel _ 0 0 (sko + KYBER_INDCPA_SECRETKEYBYTES lv) 32 HE) as [T3' W3'].
    destruct (verify_wp cto 0 (KYBER_CIPHERTEXTBYTES lv)) as [T4 W4].
    destruct (verify_avx2_wp cto 0 (KYBER_CIPHERTEXTBYTES lv)) as [T4' W4'].
    destruct (rkprf_wp lv sso (sko + (KYBER_SECRETKEYBYTES lv - 32)) cto) as [T5 W5].
    destruct (cmov_wp sso 0 32) as [T6 W6].
    destruct (cmov_avx2_wp sso 0 32) as [T6' W6'].
    eapply same_wp_bind.
    { apply (W3' JJ (local (KYBER_CIPHERTEXTBYTES lv)) buf mem kr); rewrite ?local_length; try assumption; try lia. now rewrite <- E2. }
    { apply (W3 JJ (local (KYBER_CIPHERTEXTBYTES lv)) buf mem kr); rewrite ?local_length; try assumption; try lia. now rewrite <- E2. }
    match goal with |- same_result (bind (verify_avx2 _ _ ?c _ _) _) _ => remember c as cmp eqn:Ec end.
    rewrite splice_full in Ec by (now rewrite Encrypt_length, local_length).
    assert (Lcmp : length cmp = KYBER_CIPHERTEXTBYTES lv) by (rewrite Ec; apply Encrypt_length).
    assert (Bcmp : bytes cmp) by (rewrite Ec; apply Encrypt_bytes). clear Ec.
    destruct (W4 mem cmp) as (v & Ev & Hv); try lia; try (now apply bnd_sub).
    destruct (W4' mem cmp) as (v' & Ev' & Hv'); try lia; try (now apply bnd_sub).
    assert (EV : v' = v) by (destruct Hv as [[-> Hv]|[-> Hv]], Hv' as [[-> Hv']|[-> Hv']]; congruence || contradiction).
    rewrite EV in Ev'. clear v' EV Hv'.
    eapply (same_wp_bind _ _ T4' T4 v); [exists v; auto|exists v; auto|].
    destruct (W5 JJ mem mem mem) as (s & Es & Hs'); try lia; try assumption.
    assert (LJ : length (J (dk_z (PS lv) sk ++ ct)) = 32%nat) by apply SHAKE256_length.
    assert (BJ : bytes (J (dk_z (PS lv) sk ++ ct))) by apply SHAKE256_bytes.
    rewrite <- E4 in Hs'. fold ct in Hs'.
    assert (Ls : length s = length mem) by (rewrite Hs'; apply splice_length; lia).
    assert (BS : bytes (sub s sso 32)).
    { rewrite Hs'. pose proof (sub_splice_same mem sso (J (dk_z (PS lv) sk ++ ct)) ltac:(lia)) as SS. rewrite LJ in SS. rewrite SS. exact BJ. }
    eapply (same_wp_bind _ _ T5 T5 s); [exists s; auto|exists s; auto|].
    eapply same_wp_bind.
    { apply (W6' s kr); try lia; [exact BS|now apply bnd_sub|destruct (v =? 0); auto]. }
    { apply (W6 s kr); try lia; [exact BS|now apply bnd_sub|destruct (v =? 0); auto]. }
    apply same_refl.
  - rewrite indcpa_enc_avx2_timeout, indcpa_enc_timeout; [exact I|lia|exact Bb|lia|exact Bm|now rewrite <- E2|lia|lia|exact Bm|now rewrite <- E2].
Qed.
End WithJunk.
