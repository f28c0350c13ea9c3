(** * The length of the rejection loop in the key-encapsulation functions *)
From Coq Require Import ZArith List Lia Bool.
From Verif Require Import CMonad WP Proof_Base Levels Model_Params Model_Indcpa Model_Kem Model_AvxKem Spec_FIPS202 Spec_FIPS203 Vocab Vocab_Code Vocab_Avx Vocab_Dist Vocab_Blocks
  Proof_Vocab Proof_Hash Proof_GenMatrix Proof_Indcpa Proof_Kem Proof_Api Proof_PropKem Proof_AvxKem Proof_AvxApi Proof_PropAvxKem Proof_Blocks Cases Run_Kem Proof_Demo Proof_Cases.
Import ListNotations.
Open Scope Z_scope.
#[local] Opaque SHA3_256 SHA3_512 SHAKE128 SHAKE256.
#[local] Opaque crypto_kem_keypair_derand_avx2 crypto_kem_enc_derand_avx2 crypto_kem_dec_avx2.
#[local] Opaque crypto_kem_keypair_derand crypto_kem_enc_derand crypto_kem_dec.

Lemma accepted_SHAKE B m : accepted (XOF B) m = accepted (fun i => nth i (SHAKE128 B (3 * m)) 0) m.
Proof. apply accepted_ext. intros i Hi. rewrite XOF_stream, SHAKE128_stream, nth_mk by exact Hi. reflexivity. Qed.
Lemma SHAKE128_array B n : byte_array n (SHAKE128 B n).
Proof.
  split; [apply SHAKE128_length|]. intros x Hx. apply (In_nth _ _ 0) in Hx as (i & Hi & <-). rewrite SHAKE128_length in Hi.
  rewrite SHAKE128_stream, nth_mk by exact Hi. pose proof (stream_range 168 shake_sfx B i). lia.
Qed.
Lemma enough_short passes B : enough (S passes) B <-> ~ short (3 + passes) (SHAKE128 B (168 * (3 + passes))).
Proof.
  unfold enough, short, triples. replace (168 + 56 * (S passes - 1))%nat with (56 * (3 + passes))%nat by lia.
  rewrite accepted_SHAKE. replace (3 * (56 * (3 + passes)))%nat with (168 * (3 + passes))%nat by lia.
  pose proof (SHAKE128_array B (168 * (3 + passes))) as A.
  set (m := length (accepted _ _)). split.
  - intros [_ X] [_ Y]. lia.
  - intros X. split; [lia|]. destruct (Nat.lt_ge_cases m 256) as [L|L]; [|exact L]. exfalso. apply X. split; [exact A|exact L].
Qed.
Lemma enough_all_short lv passes rho : enough_all lv (S passes) rho <->
  forall i j, (i < k (PS lv))%nat -> (j < k (PS lv))%nat -> ~ short (3 + passes) (SHAKE128 (rho ++ [Z.of_nat j; Z.of_nat i]) (168 * (3 + passes))).
Proof.
  assert (EK : KYBER_K lv = k (PS lv)) by (destruct lv; reflexivity). unfold enough_all. rewrite EK.
  split; intros X i j Hi Hj; apply enough_short; auto.
Qed.
Lemma keypair_blocks : forall V lv passes (JJ : Junk) pk sk d z,
  length pk = KYBER_PUBLICKEYBYTES lv -> length sk = KYBER_SECRETKEYBYTES lv -> byte_array 32 d -> byte_array 32 z ->
  ((exists v T, keypair_derand_of V JJ lv (S passes) pk sk (d ++ z) = Ok v T) <->
   forall i j, (i < k (PS lv))%nat -> (j < k (PS lv))%nat ->
     ~ short (3 + passes) (SHAKE128 (keygen_rho (PS lv) d ++ [Z.of_nat j; Z.of_nat i]) (168 * (3 + passes)))).
Proof.
  intros V lv passes JJ pk sk d z Lp Ls Hd Hz. rewrite <- enough_all_short.
  assert (Hc : byte_array 64 (d ++ z)).
  { destruct Hd as [Ld Bd], Hz as [Lz Bz]. split; [rewrite app_length; lia|]. intros x Hx. apply in_app_or in Hx as [Hx|Hx]; auto. }
  pose proof (bytes_of_bytes _ _ Hc) as Bc. pose proof Hc as [Lc _].
  assert (ED : sub (d ++ z) 0 32 = d) by (apply sub_app_l; apply Hd).
  assert (T0 : ~ enough_all lv (S passes) (keygen_rho (PS lv) d) -> @crypto_kem_keypair_derand JJ lv (S passes) pk sk (d ++ z) = Timeout).
  { intros N. apply keypair_derand_timeout; [exact Lc|exact Bc|]. rewrite ED. exact N. }
  assert (S0 : enough_all lv (S passes) (keygen_rho (PS lv) d) -> exists v T, @crypto_kem_keypair_derand JJ lv (S passes) pk sk (d ++ z) = Ok v T).
  { intros HE. destruct (keypair_derand_wp lv (S passes) _ HE) as [T1 W1]. destruct (W1 JJ pk sk (d ++ z) Lp Ls Lc Bc) as (v1 & E1 & _); [|eauto]. now rewrite ED. }
  pose proof (same_keypair_derand lv (S passes) JJ JJ pk sk pk sk (d ++ z) Lp Ls Lp Ls Hc) as SR.
  destruct (enough_all_dec lv (S passes) (keygen_rho (PS lv) d)) as [HE|HE].
  - split; [intros _; exact HE|intros _]. destruct (S0 HE) as (v & T & E). destruct V; cbn [keypair_derand_of]; [exists v, T; exact E|].
    destruct SR as [(v' & T1 & T2 & E1 & E2)|[E1 E2]]; [eauto|]. rewrite E in E1. discriminate E1.
  - split; [|intros X; contradiction]. intros (v & T & E). specialize (T0 HE). destruct V; cbn [keypair_derand_of] in E; [rewrite T0 in E; discriminate E|].
    destruct SR as [(v' & T1 & T2 & E1 & E2)|[E1 E2]]; [rewrite T0 in E1; discriminate E1|]. rewrite E2 in E. discriminate E.
Qed.
Lemma enc_blocks : forall V lv passes (JJ : Junk) ct ss pk m,
  length ct = KYBER_CIPHERTEXTBYTES lv -> length ss = 32%nat -> byte_array (KYBER_PUBLICKEYBYTES lv) pk -> byte_array 32 m ->
  ((exists v T, enc_derand_of V JJ lv (S passes) ct ss pk m = Ok v T) <->
   forall i j, (i < k (PS lv))%nat -> (j < k (PS lv))%nat ->
     ~ short (3 + passes) (SHAKE128 (ek_rho (PS lv) pk ++ [Z.of_nat j; Z.of_nat i]) (168 * (3 + passes)))).
Proof.
  intros V lv passes JJ ct ss pk m Lc Ls Hp Hm. rewrite <- enough_all_short.
  pose proof (bytes_of_bytes _ _ Hp) as Bp. pose proof Hp as [Lp _]. pose proof (bytes_of_bytes _ _ Hm) as Bm. pose proof Hm as [Lm _].
  pose proof (same_enc_derand lv (S passes) JJ JJ ct ss ct ss pk m Lc Ls Lc Ls Hp Hm) as SR.
  destruct (enough_all_dec lv (S passes) (ek_rho (PS lv) pk)) as [HE|HE].
  - split; [intros _; exact HE|intros _]. destruct (enc_derand_wp lv (S passes) _ HE) as [T1 W1].
    destruct (W1 JJ ct ss pk m Lc Ls Lp Bp Lm Bm eq_refl) as (v & E & _). destruct V; cbn [enc_derand_of]; [eauto|].
    destruct SR as [(v' & T1' & T2 & E1 & E2)|[E1 E2]]; [eauto|]. rewrite E in E1. discriminate E1.
  - split; [|intros X; contradiction]. intros (v & T & E).
    assert (T0 : @crypto_kem_enc_derand JJ lv (S passes) ct ss pk m = Timeout) by now apply enc_derand_timeout.
    destruct V; cbn [enc_derand_of] in E; [rewrite T0 in E; discriminate E|].
    destruct SR as [(v' & T1 & T2 & E1 & E2)|[E1 E2]]; [rewrite T0 in E1; discriminate E1|]. rewrite E2 in E. discriminate E.
Qed.
Lemma dec_blocks : forall V lv passes (JJ : Junk) ss ct sk,
  length ss = 32%nat -> byte_array (KYBER_CIPHERTEXTBYTES lv) ct -> byte_array (KYBER_SECRETKEYBYTES lv) sk ->
  ((exists v T, dec_of V JJ lv (S passes) ss ct sk = Ok v T) <->
   forall i j, (i < k (PS lv))%nat -> (j < k (PS lv))%nat ->
     ~ short (3 + passes) (SHAKE128 (ek_rho (PS lv) (dk_ek (PS lv) sk) ++ [Z.of_nat j; Z.of_nat i]) (168 * (3 + passes)))).
Proof.
  intros V lv passes JJ ss ct sk Ls Hc Hk. rewrite <- enough_all_short.
  pose proof (bytes_of_bytes _ _ Hc) as Bc. pose proof Hc as [Lc _]. pose proof (bytes_of_bytes _ _ Hk) as Bk. pose proof Hk as [Lk _].
  pose proof (same_dec lv (S passes) JJ JJ ss ss ct sk Ls Ls Hc Hk) as SR.
  destruct (enough_all_dec lv (S passes) (ek_rho (PS lv) (dk_ek (PS lv) sk))) as [HE|HE].
  - split; [intros _; exact HE|intros _]. destruct (dec_wp lv (S passes) _ HE) as [T1 W1].
    destruct (W1 JJ ss ct sk Ls Lc Bc Lk Bk eq_refl) as (v & E & _). destruct V; cbn [dec_of]; [eauto|].
    destruct SR as [(v' & T1' & T2 & E1 & E2)|[E1 E2]]; [eauto|]. rewrite E in E1. discriminate E1.
  - split; [|intros X; contradiction]. intros (v & T & E).
    assert (T0 : @crypto_kem_dec JJ lv (S passes) ss ct sk = Timeout) by now apply dec_timeout.
    destruct V; cbn [dec_of] in E; [rewrite T0 in E; discriminate E|].
    destruct SR as [(v' & T1 & T2 & E1 & E2)|[E1 E2]]; [rewrite T0 in E1; discriminate E1|]. rewrite E2 in E. discriminate E.
Qed.
Lemma repeat_array x n : 0 <= x < 256 -> byte_array n (repeat x n).
Proof. intros Hx. split; [apply repeat_length|]. intros y Hy. apply repeat_spec in Hy. subst y. lia. Qed.
Lemma blocks_case : short 3 (repeat 255 504) /\ ~ short 3 (repeat 0 504).
Proof.
  split.
  - split; [apply repeat_array; lia|]. apply Nat.ltb_lt. vm_compute. reflexivity.
  - intros [_ X]. apply Nat.ltb_lt in X. vm_compute in X. discriminate X.
Qed.
Lemma blocks_case_keypair : forall i j, (i < 2)%nat -> (j < 2)%nat ->
  ~ short 4 (SHAKE128 (keygen_rho (PS Kyber512) demo_d ++ [Z.of_nat j; Z.of_nat i]) 672).
Proof.
  destruct case_exchange as (A & ek & dk & c & K & T1 & T2 & T3 & HA & E1 & _).
  apply (keypair_blocks Reference Kyber512 1 no_junk (repeat 0 800) (repeat 0 1632) demo_d demo_z); [apply repeat_length|apply repeat_length|apply demo_d_bytes|apply demo_z_bytes|].
  exists (ek, dk, 0), T1. exact E1.
Qed.
