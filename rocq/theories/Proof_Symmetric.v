(** * symmetric-shake.c and the noise samplers of poly.c *)
From Coq Require Import ZArith List Lia Bool.
From Verif Require Import CMonad WP Modq Proof_Base Proof_Bits Levels Model_Params Model_Fips202 Model_CBD Model_Symmetric
  Spec_FIPS202 Spec_FIPS203 Proof_Keccak Proof_Sponge Proof_Shake Proof_Hash Proof_CBD.
Import ListNotations.
Open Scope Z_scope.

Lemma bytes_snoc l x : bytes l -> 0 <= x <= 255 -> bytes (l ++ [x]).
Proof.
  intros Hl Hx. apply bnd_app; auto. intros i Hi. destruct i as [|i]; cbn [length nth] in *; lia.
Qed.

Lemma sub_self {A} (l : list A) m : length l = m -> sub l 0 m = l.
Proof. intros <-. apply sub_full. Qed.

Lemma xof_absorb_wp so :
  traced (fun T => forall (JJ : Junk) st seed x y, length (ks st) = 25%nat -> (so + 32 <= length seed)%nat -> bytes seed ->
    0 <= x <= 255 -> 0 <= y <= 255 ->
    wp (xof_absorb st seed so x y) T (squeezing 168 (sub seed so 32 ++ [x; y]) 0)).
Proof.
  destruct (shake_absorb_once_wp 168 21 0 34 rate168) as [T1 W1].
  eexists. intros JJ st seed x y Hl Hs Hb Hx Hy. unfold xof_absorb, kyber_shake128_absorb. cbv zeta.
  change (KYBER_SYMBYTES + 2)%nat with 34%nat. change KYBER_SYMBYTES with 32%nat.
  wstep. eapply wp_conseq; [apply (proj2_sig (memcpy_wp 0 so 32)); rewrite ?local_length; lia|].
  intros e1 ->. fold (sub seed so 32).
  assert (L : length (sub seed so 32) = 32%nat) by (apply sub_length; lia).
  set (m := sub seed so 32) in *.
  assert (Bm : bytes m) by (apply bnd_sub; auto). clearbody m.
  wstep. wstep. { rewrite splice_length; rewrite ?local_length; lia. }
  rewrite splice_snoc by (rewrite ?local_length; lia).
  wstep. wstep. { rewrite splice_length; rewrite ?local_length, ?app_length; cbn [length]; lia. }
  rewrite splice_snoc by (rewrite ?local_length, ?app_length; cbn [length]; lia).
  rewrite splice_full by (rewrite local_length, !app_length, L; reflexivity).
  rewrite <- app_assoc. cbn [app].
  assert (L34 : length (m ++ [x; y]) = 34%nat) by (rewrite app_length, L; reflexivity).
  eapply wp_conseq; [apply W1; auto; [lia|]|].
  - replace (m ++ [x; y]) with ((m ++ [x]) ++ [y]) by (rewrite <- app_assoc; reflexivity).
    auto using bytes_snoc.
  - intros st' HS. now rewrite sub_self in HS by auto.
Qed.

Lemma prf_wp oo outlen ko :
  traced (fun T => forall (JJ : Junk) out key nonce, (oo + outlen <= length out)%nat -> (ko + 32 <= length key)%nat -> bytes key ->
    0 <= nonce <= 255 ->
    wp (kyber_shake256_prf out oo outlen key ko nonce) T
       (fun out' => out' = splice out oo (SHAKE256 (sub key ko 32 ++ [nonce]) outlen))).
Proof.
  destruct (shake256_wp oo outlen 0 33) as [T1 W1].
  eexists. intros JJ out key x Ho Hk Hb Hx. unfold kyber_shake256_prf. cbv zeta.
  change (KYBER_SYMBYTES + 1)%nat with 33%nat. change KYBER_SYMBYTES with 32%nat.
  wstep. eapply wp_conseq; [apply (proj2_sig (memcpy_wp 0 ko 32)); rewrite ?local_length; lia|].
  intros e1 ->. fold (sub key ko 32).
  assert (L : length (sub key ko 32) = 32%nat) by (apply sub_length; lia).
  set (m := sub key ko 32) in *.
  assert (Bm : bytes m) by (apply bnd_sub; auto). clearbody m.
  wstep. wstep. { rewrite splice_length; rewrite ?local_length; lia. }
  rewrite splice_snoc by (rewrite ?local_length; lia).
  rewrite splice_full by (rewrite local_length, !app_length, L; reflexivity).
  assert (L33 : length (m ++ [x]) = 33%nat) by (rewrite app_length, L; reflexivity).
  eapply wp_conseq; [apply W1; auto using bytes_snoc; lia|].
  intros o ->. now rewrite (sub_self (m ++ [x])) by auto.
Qed.

Lemma rkprf_wp lv oo ko io :
  traced (fun T => forall (JJ : Junk) out key input, (oo + 32 <= length out)%nat -> (ko + 32 <= length key)%nat -> bytes key ->
    (io + KYBER_CIPHERTEXTBYTES lv <= length input)%nat -> bytes input ->
    wp (kyber_shake256_rkprf lv out oo key ko input io) T
       (fun out' => out' = splice out oo (J (sub key ko 32 ++ sub input io (KYBER_CIPHERTEXTBYTES lv))))).
Proof.
  destruct (shake_init_wp 136 ltac:(lia)) as [T1 W1].
  destruct (shake_absorb_wp 136 17 0 ko 32 rate136) as [T2 W2].
  destruct (shake_absorb_wp 136 17 32 io (KYBER_CIPHERTEXTBYTES lv) rate136) as [T3 W3].
  destruct (shake_finalize_wp 136 17 (32 + KYBER_CIPHERTEXTBYTES lv) rate136) as [T4 W4].
  destruct (shake_squeeze_wp 136 17 0 oo 32 rate136) as [T5 W5].
  eexists. intros JJ out key input Ho Hk Bk Hi Bi. unfold kyber_shake256_rkprf.
  wstep. eapply wp_conseq; [apply (W1 local_state), local_length|]. intros s1 S1.
  wstep. eapply wp_conseq; [apply (W2 s1 key []); auto|]. intros s2 S2. cbn [app] in S2.
  assert (L2 : length (sub key ko 32) = 32%nat) by (apply sub_length; lia).
  wstep. eapply wp_conseq; [apply (W3 s2 input); eauto|]. intros s3 S3.
  wstep. eapply wp_conseq; [apply (W4 s3); eauto; rewrite app_length, L2, sub_length by lia; reflexivity|]. intros s4 S4.
  wstep. eapply wp_conseq; [apply (W5 s4 out); eauto|]. intros [o s5] [-> _]. wstep.
  unfold J. rewrite SHAKE256_stream. reflexivity.
Qed.

Lemma poly_getnoise_eta1_wp lv so nonce :
  traced (fun T => forall (JJ : Junk) r seed, length r = 256%nat -> (so + 32 <= length seed)%nat -> bytes seed ->
    0 <= nonce <= 255 ->
    wp (poly_getnoise_eta1 lv r seed so nonce) T
       (fun r' => r' = mk 256 (cbdz (eta1 (PS lv)) (PRF (eta1 (PS lv)) (sub seed so 32) nonce)))).
Proof.
  destruct (prf_wp 0 (64 * eta1 (PS lv)) so) as [T1 W1].
  destruct (poly_cbd_eta1_wp lv) as [T2 W2].
  eexists. intros JJ r seed Hr Hs Hb Hn. unfold poly_getnoise_eta1. cbv zeta.
  replace (KYBER_ETA1 lv * KYBER_N / 4)%nat with (64 * eta1 (PS lv))%nat by (destruct lv; reflexivity).
  wstep. wstep. wstep. eapply wp_conseq; [apply W1; auto; rewrite local_length; lia|].
  intros b ->. rewrite splice_full by (now rewrite SHAKE256_length, local_length).
  apply W2; [exact Hr|apply SHAKE256_length|apply SHAKE256_bytes].
Qed.

Lemma poly_getnoise_eta2_wp so nonce :
  traced (fun T => forall (JJ : Junk) r seed, length r = 256%nat -> (so + 32 <= length seed)%nat -> bytes seed ->
    0 <= nonce <= 255 ->
    wp (poly_getnoise_eta2 r seed so nonce) T
       (fun r' => r' = mk 256 (cbdz 2 (PRF 2 (sub seed so 32) nonce)))).
Proof.
  destruct (prf_wp 0 128 so) as [T1 W1].
  destruct cbd2_wp as [T2 W2].
  eexists. intros JJ r seed Hr Hs Hb Hn. unfold poly_getnoise_eta2. cbv zeta.
  change (KYBER_ETA2 * KYBER_N / 4)%nat with 128%nat.
  wstep. wstep. wstep. eapply wp_conseq; [apply W1; auto; rewrite local_length; lia|].
  intros b ->. rewrite splice_full by (now rewrite SHAKE256_length, local_length).
  apply W2; [exact Hr|apply SHAKE256_length|apply SHAKE256_bytes].
Qed.

