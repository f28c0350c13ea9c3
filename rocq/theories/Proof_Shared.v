(** * Overlapping buffers *)
From Coq Require Import ZArith List Lia Bool.
From Verif Require Import CMonad WP Levels Model_Params Model_Verify Model_Symmetric Model_Fips202 Model_Indcpa Model_Kem Model_Shared
  Spec_FIPS202 Spec_FIPS203 Vocab Vocab_Rng Vocab_Buffers Proof_Base Proof_Vocab Proof_Hash Proof_Symmetric Proof_Verify
  Proof_Bits Proof_GenMatrix Proof_Indcpa Proof_Keypair Proof_Encrypt Proof_Fuel Proof_Kem Proof_Api.
Import ListNotations.
Open Scope Z_scope.
Open Scope cmonad_scope.
Local Opaque SHA3_256 SHA3_512 SHAKE256 SHAKE128.

Lemma same_wp {A} (m m' : res A) T T' v : wp m T (fun x => x = v) -> wp m' T' (fun x => x = v) -> same_result m m'.
Proof. intros (x & -> & ->) (y & -> & ->). reflexivity. Qed.

Section WithJunk.
Context {JJ : Junk}.

Lemma enc_shared_split lv fuel mem cto sso po co :
  crypto_kem_enc_derand_shared lv fuel mem cto sso po co =
  bind (buf <- memcpy (local (2 * KYBER_SYMBYTES)) 0 mem co KYBER_SYMBYTES ;;
        hash_h buf KYBER_SYMBYTES mem po (KYBER_PUBLICKEYBYTES lv)) (fun buf =>
  bind (hash_g (local (2 * KYBER_SYMBYTES)) 0 buf 0 (2 * KYBER_SYMBYTES)) (fun kr =>
  bind (indcpa_enc lv fuel mem cto buf 0 mem po kr KYBER_SYMBYTES) (fun mem =>
  bind (memcpy mem sso kr 0 KYBER_SYMBYTES) (fun mem => ret (mem, 0))))).
Proof. unfold crypto_kem_enc_derand_shared. cbv zeta. now rewrite bind_assoc. Qed.

Lemma enc_shared_prefix lv mem po co : (po + KYBER_PUBLICKEYBYTES lv <= length mem)%nat -> (co + 32 <= length mem)%nat -> bytes mem ->
  exists T, wp (buf <- memcpy (local (2 * KYBER_SYMBYTES)) 0 mem co KYBER_SYMBYTES ;;
        hash_h buf KYBER_SYMBYTES mem po (KYBER_PUBLICKEYBYTES lv)) T
       (fun buf => buf = sub mem co 32 ++ H (sub mem po (KYBER_PUBLICKEYBYTES lv))).
Proof.
  intros Hp Hc Bm.
  destruct (memcpy_wp 0 co 32) as [T1 W1].
  destruct (sha3_256_wp 32 po (KYBER_PUBLICKEYBYTES lv)) as [T2 W2].
  eexists. change (2 * KYBER_SYMBYTES)%nat with 64%nat. change KYBER_SYMBYTES with 32%nat.
  wstep. eapply wp_conseq; [apply (W1 (local 64) mem); rewrite ?local_length; lia|]. intros b ->.
  fold (sub mem co 32). pose proof (sub_length mem co 32 Hc) as Lm.
  eapply wp_conseq; [apply (W2 JJ _ mem); [rewrite splice_length; rewrite ?local_length; lia|lia|exact Bm]|].
  intros b ->. fold (H (sub mem po (KYBER_PUBLICKEYBYTES lv))).
  assert (LH : length (H (sub mem po (KYBER_PUBLICKEYBYTES lv))) = 32%nat) by apply SHA3_256_length.
  rewrite (splice_splice_next (local 64) 0 (sub mem co 32)) by (rewrite ?local_length; lia).
  apply splice_full. rewrite app_length, local_length. lia.
Qed.

Lemma enc_shared lv fuel mem cto sso po co : all_bytes mem ->
  (cto + KYBER_CIPHERTEXTBYTES lv <= length mem)%nat -> (sso + 32 <= length mem)%nat ->
  (po + KYBER_PUBLICKEYBYTES lv <= length mem)%nat -> (co + 32 <= length mem)%nat ->
  same_result (crypto_kem_enc_derand_shared lv fuel mem cto sso po co)
    (with_value (fun '(c, K, r) => (overwrite (overwrite mem cto c) sso K, r))
       (crypto_kem_enc_derand lv fuel (region mem cto (KYBER_CIPHERTEXTBYTES lv)) (region mem sso 32)
          (region mem po (KYBER_PUBLICKEYBYTES lv)) (region mem co 32))).
Proof.
  intros Am Hct Hss Hp Hc. pose proof (all_bytes_bytes _ Am) as Bm.
  change (region mem) with (sub mem) in *.
  pose proof (sub_length mem cto _ Hct) as Lct. pose proof (sub_length mem sso _ Hss) as Lss.
  pose proof (sub_length mem po _ Hp) as Lp. pose proof (sub_length mem co _ Hc) as Lc.
  assert (Bp : bytes (sub mem po (KYBER_PUBLICKEYBYTES lv))) by now apply bnd_sub.
  assert (Bc : bytes (sub mem co 32)) by now apply bnd_sub.
  destruct (enc_shared_prefix lv mem po co Hp Hc Bm) as (T1 & W1).
  destruct hash_g_wp as [T2 W2].
  set (pk := sub mem po (KYBER_PUBLICKEYBYTES lv)) in *. set (m := sub mem co 32) in *.
  assert (Bb : bytes (m ++ H pk)) by (apply bnd_app; [exact Bc|apply SHA3_256_bytes]).
  assert (LH : length (H pk) = 32%nat) by apply SHA3_256_length.
  assert (Lb : length (m ++ H pk) = 64%nat) by (rewrite app_length; lia).
  destruct (kr_parts (m ++ H pk)) as (Lk & Bk & P2 & P1).
  rewrite enc_shared_split.
  destruct (enough_all_dec lv fuel (ek_rho (PS lv) pk)) as [HE|HE].
  - destruct (enc_derand_wp lv fuel _ HE) as [T W].
    destruct (W JJ _ _ _ _ Lct Lss Lp Bp Lc Bc eq_refl) as (v & -> & ->). cbn [with_value].
    destruct (indcpa_enc_wp lv fuel _ cto 0 po 32 HE) as [T3 W3].
    destruct (memcpy_wp sso 0 32) as [T4 W4].
    assert (X : wp (bind (buf <- memcpy (local (2 * KYBER_SYMBYTES)) 0 mem co KYBER_SYMBYTES ;;
        hash_h buf KYBER_SYMBYTES mem po (KYBER_PUBLICKEYBYTES lv)) (fun buf =>
      bind (hash_g (local (2 * KYBER_SYMBYTES)) 0 buf 0 (2 * KYBER_SYMBYTES)) (fun kr =>
      bind (indcpa_enc lv fuel mem cto buf 0 mem po kr KYBER_SYMBYTES) (fun mem =>
      bind (memcpy mem sso kr 0 KYBER_SYMBYTES) (fun mem => ret (mem, 0)))))) (T1 ++ T2 ++ T3 ++ T4 ++ [])
      (fun x => x = (overwrite (overwrite mem cto (fst (kem_enc lv fuel (ek_rho (PS lv) pk) pk m))) sso
                       (snd (kem_enc lv fuel (ek_rho (PS lv) pk) pk m)), 0))).
    { wstep. eapply wp_conseq; [exact W1|]. intros buf ->.
      wstep. eapply wp_conseq; [apply (W2 JJ _ Lb Bb)|]. intros kr ->.
      change KYBER_SYMBYTES with 32%nat.
      wstep. eapply wp_conseq.
      { apply (W3 JJ mem (m ++ H pk) mem (G (m ++ H pk))); try lia; try assumption; reflexivity. }
      intros c ->. fold pk. unfold kem_enc. cbv zeta. cbn [fst snd].
      rewrite (sub_app_l m) by exact Lc. rewrite <- P2.
      change (KYBER_INDCPA_PUBLICKEYBYTES lv) with (KYBER_PUBLICKEYBYTES lv). fold pk.
      wstep. eapply wp_conseq.
      { apply W4; [rewrite splice_length; rewrite ?Encrypt_length; lia|lia]. }
      intros s ->. wstep. fold (sub (G (m ++ H pk)) 0 32). rewrite <- P1. reflexivity. }
    destruct X as (x & -> & ->). cbn [same_result]. rewrite (surjective_pairing (kem_enc _ _ _ _ _)). reflexivity.
  - rewrite (enc_derand_timeout lv fuel JJ _ _ pk m Lp Bp Lc Bc HE). cbn [with_value].
    erewrite (bind_timeout _ _ _ _ W1); [exact I|]. intros buf ->.
    eapply bind_timeout; [apply (W2 JJ _ Lb Bb)|]. intros kr ->.
    apply bind_timeout_l. apply indcpa_enc_timeout; [lia|exact Bb|exact Hp|exact Bm|exact HE].
Qed.

Lemma splice_same {A} (x : list A) o a b : (o + length a <= length x)%nat -> length a = length b -> splice (splice x o a) o b = splice x o b.
Proof.
  intros Ho E. unfold splice. rewrite firstn_app, firstn_firstn, firstn_length. replace (o - Nat.min o (length x))%nat with 0%nat by lia.
  rewrite firstn_O, app_nil_r, Nat.min_id. f_equal. f_equal. rewrite skipn_app, skipn_all2 by (rewrite firstn_length; lia).
  rewrite firstn_length. replace (o + length b - Nat.min o (length x))%nat with (length a) by lia.
  rewrite skipn_app, Nat.sub_diag, skipn_all, skipn_O. cbn [app]. now rewrite E.
Qed.
Lemma sub_splice_same {A} (x : list A) o a : (o + length a <= length x)%nat -> sub (splice x o a) o (length a) = a.
Proof.
  intros Ho. unfold sub, splice. rewrite skipn_app, skipn_all2 by (rewrite firstn_length; lia). rewrite firstn_length.
  replace (o - Nat.min o (length x))%nat with 0%nat by lia. rewrite skipn_O. cbn [app].
  rewrite firstn_app, firstn_all, Nat.sub_diag, firstn_O. apply app_nil_r.
Qed.

Lemma dec_shared_split lv fuel mem sso cto sko :
  crypto_kem_dec_shared lv fuel mem sso cto sko =
  bind (buf <- indcpa_dec lv (local (2 * KYBER_SYMBYTES)) 0 mem cto mem sko ;;
        memcpy buf KYBER_SYMBYTES mem (sko + (KYBER_SECRETKEYBYTES lv - 2 * KYBER_SYMBYTES)) KYBER_SYMBYTES) (fun buf =>
  bind (hash_g (local (2 * KYBER_SYMBYTES)) 0 buf 0 (2 * KYBER_SYMBYTES)) (fun kr =>
  bind (indcpa_enc lv fuel (local (KYBER_CIPHERTEXTBYTES lv)) 0 buf 0 mem (sko + KYBER_INDCPA_SECRETKEYBYTES lv) kr KYBER_SYMBYTES)
    (fun cmp =>
  bind (verify mem cto cmp 0 (KYBER_CIPHERTEXTBYTES lv)) (fun fail =>
  bind (kyber_shake256_rkprf lv mem sso mem (sko + (KYBER_SECRETKEYBYTES lv - KYBER_SYMBYTES)) mem cto) (fun mem =>
  bind (cmov mem sso kr 0 KYBER_SYMBYTES (if fail =? 0 then 1 else 0)) (fun mem => ret (mem, 0))))))).
Proof. unfold crypto_kem_dec_shared. cbv zeta. now rewrite bind_assoc. Qed.

Lemma dec_shared_prefix lv mem cto sko :
  (cto + KYBER_CIPHERTEXTBYTES lv <= length mem)%nat -> (sko + KYBER_SECRETKEYBYTES lv <= length mem)%nat -> bytes mem ->
  exists T, wp (buf <- indcpa_dec lv (local (2 * KYBER_SYMBYTES)) 0 mem cto mem sko ;;
        memcpy buf KYBER_SYMBYTES mem (sko + (KYBER_SECRETKEYBYTES lv - 2 * KYBER_SYMBYTES)) KYBER_SYMBYTES) T
       (fun buf => buf = K_PKE_Decrypt (PS lv) (dk_pke (PS lv) (sub mem sko (KYBER_SECRETKEYBYTES lv)))
                     (sub mem cto (KYBER_CIPHERTEXTBYTES lv)) ++ dk_h (PS lv) (sub mem sko (KYBER_SECRETKEYBYTES lv))).
Proof.
  intros Hct Hsk Bm.
  destruct (indcpa_dec_wp lv 0 cto sko) as [T1 W1].
  destruct (memcpy_wp 32 (sko + (KYBER_SECRETKEYBYTES lv - 2 * 32)) 32) as [T2 W2].
  eexists. change (2 * KYBER_SYMBYTES)%nat with 64%nat. change KYBER_SYMBYTES with 32%nat.
  destruct (sk_parts lv _ (sub_length mem sko _ Hsk)) as (E1 & E2 & E3 & E4).
  assert (ES : KYBER_SECRETKEYBYTES lv = (KYBER_INDCPA_SECRETKEYBYTES lv + (KYBER_PUBLICKEYBYTES lv + (32 + 32)))%nat).
  { unfold KYBER_SECRETKEYBYTES, KYBER_PUBLICKEYBYTES. change KYBER_SYMBYTES with 32%nat. lia. }
  rewrite sub_sub in E1, E3 by lia. rewrite Nat.add_0_r in E1.
  wstep. eapply wp_conseq.
  { apply (W1 JJ (local 64) mem mem); try assumption; rewrite ?local_length; lia. }
  intros b ->. rewrite <- E1.
  pose proof (Decrypt_length (PS lv) (dk_pke (PS lv) (sub mem sko (KYBER_SECRETKEYBYTES lv))) (sub mem cto (KYBER_CIPHERTEXTBYTES lv))) as Lm.
  revert Lm. generalize (K_PKE_Decrypt (PS lv) (dk_pke (PS lv) (sub mem sko (KYBER_SECRETKEYBYTES lv))) (sub mem cto (KYBER_CIPHERTEXTBYTES lv))) as m.
  intros m Lm. eapply wp_conseq.
  { apply (W2 _ mem); rewrite ?splice_length; rewrite ?local_length; lia. }
  intros b ->. fold (sub mem (sko + (KYBER_SECRETKEYBYTES lv - 2 * 32)) 32). rewrite <- E3.
  assert (Lh : length (dk_h (PS lv) (sub mem sko (KYBER_SECRETKEYBYTES lv))) = 32%nat) by (rewrite E3; apply sub_length; lia).
  rewrite (splice_splice_next (local 64) 0 m) by (rewrite ?local_length; lia).
  apply splice_full. rewrite app_length, local_length. lia.
Qed.

Lemma dec_shared lv fuel mem sso cto sko : all_bytes mem ->
  (sso + 32 <= length mem)%nat -> (cto + KYBER_CIPHERTEXTBYTES lv <= length mem)%nat -> (sko + KYBER_SECRETKEYBYTES lv <= length mem)%nat ->
  same_result (crypto_kem_dec_shared lv fuel mem sso cto sko)
    (with_value (fun '(K, r) => (overwrite mem sso K, r))
       (crypto_kem_dec lv fuel (region mem sso 32) (region mem cto (KYBER_CIPHERTEXTBYTES lv)) (region mem sko (KYBER_SECRETKEYBYTES lv)))).
Proof.
  intros Am Hss Hct Hsk. pose proof (all_bytes_bytes _ Am) as Bm.
  change (region mem) with (sub mem) in *.
  pose proof (sub_length mem cto _ Hct) as Lct. pose proof (sub_length mem sso _ Hss) as Lss. pose proof (sub_length mem sko _ Hsk) as Lsk.
  destruct (dec_shared_prefix lv mem cto sko Hct Hsk Bm) as (T1 & W1).
  destruct (sk_parts lv _ Lsk) as (E1 & E2 & E3 & E4).
  assert (ES : KYBER_SECRETKEYBYTES lv = (KYBER_INDCPA_SECRETKEYBYTES lv + (KYBER_INDCPA_PUBLICKEYBYTES lv + (32 + 32)))%nat).
  { unfold KYBER_SECRETKEYBYTES. change KYBER_SYMBYTES with 32%nat. lia. }
  rewrite sub_sub in E1, E2, E3, E4 by lia.
  assert (Bct : bytes (sub mem cto (KYBER_CIPHERTEXTBYTES lv))) by now apply bnd_sub.
  assert (Bsk : bytes (sub mem sko (KYBER_SECRETKEYBYTES lv))) by now apply bnd_sub.
  set (ct := sub mem cto (KYBER_CIPHERTEXTBYTES lv)) in *. set (sk := sub mem sko (KYBER_SECRETKEYBYTES lv)) in *.
  pose proof (Decrypt_length (PS lv) (dk_pke (PS lv) sk) ct) as Lm.
  pose proof (Decrypt_bytes (PS lv) (dk_pke (PS lv) sk) ct) as Bm'.
  set (m := K_PKE_Decrypt (PS lv) (dk_pke (PS lv) sk) ct) in *.
  assert (Lh : length (dk_h (PS lv) sk) = 32%nat) by (rewrite E3; apply sub_length; lia).
  set (buf := m ++ dk_h (PS lv) sk) in *.
  assert (Lb : length buf = 64%nat) by (unfold buf; rewrite app_length; lia).
  assert (Bb : bytes buf) by (unfold buf; apply bnd_app; [exact Bm'|rewrite E3; now apply bnd_sub]).
  destruct hash_g_wp as [T2 W2].
  destruct (kr_parts buf) as (Lk & Bk & P2 & P1). rewrite dec_shared_split.
  destruct (enough_all_dec lv fuel (ek_rho (PS lv) (dk_ek (PS lv) sk))) as [HE|HE].
  - destruct (dec_wp lv fuel _ HE) as [T W].
    destruct (W JJ (sub mem sso 32) ct sk Lss Lct Bct Lsk Bsk eq_refl) as (v & -> & ->). cbn [with_value].
    destruct (indcpa_enc_wp lv fuel _ 0 0 (sko + KYBER_INDCPA_SECRETKEYBYTES lv) 32 HE) as [T3 W3].
    destruct (verify_wp cto 0 (KYBER_CIPHERTEXTBYTES lv)) as [T4 W4].
    destruct (rkprf_wp lv sso (sko + (KYBER_SECRETKEYBYTES lv - 32)) cto) as [T5 W5].
    destruct (cmov_wp sso 0 32) as [T6 W6].
    match goal with |- same_result ?run (Ok ?v _) =>
      assert (X : wp run (T1 ++ T2 ++ T3 ++ T4 ++ T5 ++ T6 ++ []) (fun x => x = v)) end.
    { wstep. eapply wp_conseq; [exact W1|]. intros b ->.
      wstep. eapply wp_conseq; [apply (W2 JJ _ Lb Bb)|]. intros kr Ek. rewrite <- Ek in *.
      change KYBER_SYMBYTES with 32%nat.
      wstep. eapply wp_conseq.
      { apply (W3 JJ (local (KYBER_CIPHERTEXTBYTES lv)) buf mem kr); rewrite ?local_length; try assumption; try lia.
        now rewrite <- E2. }
      intros cmp Ec. rewrite splice_full in Ec by (now rewrite Encrypt_length, local_length).
      rewrite <- E2, <- P2 in Ec. unfold buf in Ec at 1. rewrite sub_app_l in Ec by exact Lm.
      assert (Lcmp : length cmp = KYBER_CIPHERTEXTBYTES lv) by (rewrite Ec; apply Encrypt_length).
      assert (Bcmp : bytes cmp) by (rewrite Ec; apply Encrypt_bytes).
      wstep. eapply wp_conseq.
      { apply (W4 mem cmp); try lia; now apply bnd_sub. }
      intros v Hv. fold ct in Hv. rewrite (sub_all cmp) in Hv by assumption.
      wstep. eapply wp_conseq.
      { apply (W5 JJ mem mem mem); try lia; assumption. }
      intros s Es. rewrite <- E4 in Es. fold ct in Es.
      assert (LJ : length (J (dk_z (PS lv) sk ++ ct)) = 32%nat) by apply SHAKE256_length.
      assert (BJ : bytes (J (dk_z (PS lv) sk ++ ct))) by apply SHAKE256_bytes.
      assert (Ls : length s = length mem) by (rewrite Es; apply splice_length; lia).
      wstep. eapply wp_conseq.
      { apply (W6 s kr); try lia.
        - rewrite Es. pose proof (sub_splice_same mem sso (J (dk_z (PS lv) sk ++ ct)) ltac:(lia)) as SS. rewrite LJ in SS.
          rewrite SS. exact BJ.
        - now apply bnd_sub.
        - destruct (v =? 0); auto. }
      intros r ->. wstep. f_equal. unfold kem_dec. cbv zeta. fold m. fold buf. rewrite <- Ek, <- Ec.
      change (overwrite mem sso) with (splice mem sso).
      destruct Hv as [[-> Hv]|[-> Hv]]; cbn [Z.eqb]; destruct (list_eq_dec Z.eq_dec ct cmp) as [e|e]; try contradiction.
      - change (1 =? 1) with true. cbv iota. rewrite Es, splice_same; [|lia|rewrite sub_length; lia]. now rewrite P1.
      - exact Es. }
    destruct X as (x & -> & ->). reflexivity.
  - rewrite (dec_timeout lv fuel JJ _ ct sk Lct Bct Lsk Bsk HE). cbn [with_value].
    erewrite (bind_timeout _ _ _ _ W1); [exact I|]. intros b ->.
    eapply bind_timeout; [apply (W2 JJ _ Lb Bb)|]. intros kr ->.
    apply bind_timeout_l. apply indcpa_enc_timeout; [lia|exact Bb|lia|exact Bm|]. now rewrite <- E2.
Qed.
End WithJunk.
