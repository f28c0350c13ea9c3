(** * C76: what the code generates passes the checks of FIPS 203 *)
From Coq Require Import ZArith List Lia Bool.
From Verif Require Import CMonad WP Proof_Base Proof_Vocab Proof_Bits Levels Model_Params Model_Indcpa Model_Kem Model_AvxKem Spec_FIPS202 Spec_FIPS203 Spec_Games Spec_Checks Vocab Vocab_Code Vocab_Avx Vocab_Dist
  Proof_Hash Proof_NTTSpec Proof_RingMul Proof_Polyvec Proof_Compress Proof_Codec Proof_GenMatrix Proof_Indcpa Proof_Keypair Proof_Encrypt Proof_Kem Proof_Correct Proof_Api Proof_Dist Proof_Games Proof_PropKem Proof_AvxKem Proof_AvxApi Proof_PropAvxKem Proof_Accept Cases Run_Kem Proof_Demo Proof_Cases.
Import ListNotations.
Open Scope Z_scope.
#[local] Opaque SHAKE256 SHA3_256 SHA3_512.
#[local] Opaque crypto_kem_keypair_derand crypto_kem_enc_derand indcpa_dec crypto_kem_dec crypto_kem_dec_avx2 K_PKE_Encrypt K_PKE_Decrypt.
Notation poly_ok f := (length f = 256%nat /\ in_range 0 (q - 1) f).

Lemma poly_ok_in f : poly_ok f <-> In f polynomials.
Proof.
  unfold polynomials. rewrite words_in. unfold in_range. split; intros [L R]; (split; [exact L|]); intros x Hx; specialize (R x Hx).
  - apply below_in. lia.
  - apply below_in in R. lia.
Qed.
Lemma ok_canon f : poly_ok f -> canon f.
Proof. intros [L R]. split; [exact L|]. intros i Hi. assert (0 <= nth i f 0 <= q - 1) by (apply R, nth_In; lia). lia. Qed.
Lemma canon_ok f : canon f -> poly_ok f.
Proof. intros [L R]. split; [exact L|]. intros x Hx. destruct (In_nth _ _ 0 Hx) as (i & Hi & <-). rewrite L in Hi. specialize (R i Hi). lia. Qed.

Lemma encoded_length v K : length v = K -> (forall f, In f v -> poly_ok f) -> length (flat_map (ByteEncode 12) v) = (384 * K)%nat.
Proof. intros L R. rewrite (flat_map_len _ _ 384); [rewrite L; lia|]. intros x Hx. apply (ByteEncode_256 12). now apply R. Qed.
Lemma encoded_byte v x : In x (flat_map (ByteEncode 12) v) -> 0 <= x < 256.
Proof. intros Hx. apply in_flat_map in Hx as (f & _ & Hx). destruct (In_nth _ _ 0 Hx) as (i & _ & <-). apply ByteEncode_byte. Qed.

Lemma ek_check_iff lv ek : ek_check (PS lv) ek <-> exists v rho, length v = k (PS lv) /\ (forall f, In f v -> poly_ok f) /\ byte_array 32 rho /\ ek = flat_map (ByteEncode 12) v ++ rho.
Proof.
  split.
  - intros (L & B & E). exists (decode_vec (PS lv) 12 (firstn (384 * k (PS lv)) ek)), (skipn (384 * k (PS lv)) ek).
    split; [apply decode_vec_length|]. split; [|split].
    + intros f Hf. apply canon_ok. exact (decode_vec12_range lv _ f Hf).
    + split; [rewrite skipn_length; lia|]. intros x Hx. apply B. rewrite <- (firstn_skipn (384 * k (PS lv)) ek). apply in_or_app. now right.
    + rewrite E. symmetry. apply firstn_skipn.
  - intros (v & rho & L & R & [Lr Br] & ->). pose proof (encoded_length v _ L R) as Le. split; [|split].
    + rewrite app_length, Le, Lr. reflexivity.
    + intros b Hb. apply in_app_or in Hb as [Hb|Hb]; [exact (encoded_byte v b Hb)|exact (Br b Hb)].
    + rewrite (decode_key (PS lv) v rho L) by (intros x Hx; now apply ok_canon, R). rewrite <- Le, firstn_app, Nat.sub_diag, firstn_all. now rewrite app_nil_r.
Qed.

Lemma prod_nodup {X Y} (a : list X) (b : list Y) : NoDup a -> NoDup b -> NoDup (list_prod a b).
Proof.
  intros Na Nb. induction Na as [|x a Nx Na IH]; [constructor|]. cbn [list_prod]. apply NoDup_app_disj; [|exact IH|].
  - apply NoDup_map_on; [intros ? ? _ _ E; now injection E|exact Nb].
  - intros p Hp Hp'. apply in_map_iff in Hp as (y & <- & _). apply in_prod_iff in Hp' as [Hp' _]. contradiction.
Qed.
Lemma polynomials_count : Z.of_nat (length polynomials) = q ^ 256.
Proof.
  unfold polynomials. rewrite words_length, Nat2Z.inj_pow. unfold below. rewrite map_length, seq_length. rewrite Z2Nat.id by (unfold q; lia). reflexivity.
Qed.
#[local] Opaque strings polynomials below.
Lemma ek_count lv : counted (ek_check (PS lv)) (q ^ (256 * Z.of_nat (k (PS lv))) * 2 ^ 256).
Proof.
  replace (q ^ (256 * Z.of_nat (k (PS lv))) * 2 ^ 256) with (Z.of_nat (length (list_prod (vectors (k (PS lv))) (strings 32)))).
  2:{ rewrite prod_length, Nat2Z.inj_mul, strings_count. unfold vectors. rewrite words_length, Nat2Z.inj_pow, polynomials_count, <- Z.pow_mul_r by lia. reflexivity. }
  apply (counted_map _ (fun p => flat_map (ByteEncode 12) (fst p) ++ snd p)).
  - apply prod_nodup; [apply words_nodup, polynomials_nodup|apply strings_nodup].
  - intros [v rho] [v' rho'] Hv Hv' E. cbn [fst snd] in E.
    apply in_prod_iff in Hv as [Hv Hr]. apply in_prod_iff in Hv' as [Hv' Hr']. apply words_in in Hv as [L R]. apply words_in in Hv' as [L' R'].
    assert (C : forall x, In x v -> canon x) by (intros x Hx; now apply ok_canon, poly_ok_in, R).
    assert (C' : forall x, In x v' -> canon x) by (intros x Hx; now apply ok_canon, poly_ok_in, R').
    assert (EV : v = v') by (rewrite <- (decode_key (PS lv) v rho L C), <- (decode_key (PS lv) v' rho' L' C'); now rewrite E).
    rewrite EV in *. apply app_inv_head in E. now rewrite E.
  - intros ek. rewrite ek_check_iff. split.
    + intros (v & rho & L & R & Hr & ->). exists (v, rho). split; [|reflexivity]. apply in_prod; [|now apply strings_in].
      apply words_in. split; [exact L|]. intros x Hx. now apply poly_ok_in, R.
    + intros ([v rho] & Hv & <-). apply in_prod_iff in Hv as [Hv Hr]. apply words_in in Hv as [L R]. exists v, rho. split; [exact L|].
      split; [intros x Hx; now apply poly_ok_in, R|]. split; [now apply strings_in|reflexivity].
Qed.

(** ** Generated keys and ciphertexts *)
Lemma generated_layout V lv fuel (JJ : Junk) pk sk d z ek dk r T :
  length pk = KYBER_PUBLICKEYBYTES lv -> length sk = KYBER_SECRETKEYBYTES lv -> byte_array 32 d -> byte_array 32 z ->
  keypair_derand_of V JJ lv fuel pk sk (d ++ z) = Ok (ek, dk, r) T ->
  byte_array (KYBER_PUBLICKEYBYTES lv) ek /\ byte_array (KYBER_SECRETKEYBYTES lv) dk /\
  exists A, is_matrix (PS lv) (keygen_rho (PS lv) d) A /\ ek = fst (K_PKE_KeyGen (PS lv) A d) /\ dk = snd (K_PKE_KeyGen (PS lv) A d) ++ ek ++ SHA3_256 ek ++ z.
Proof.
  intros Lp Ls Hd Hz E. pose proof (published_sizes lv) as PZ. injection PZ as P1 P2 P3. rewrite P1, P2 in *.
  destruct V; [exact (secret_key_layout lv fuel JJ pk sk d z ek dk r T Lp Ls Hd Hz E)|exact (avx_secret_key_layout lv fuel JJ pk sk d z ek dk r T Lp Ls Hd Hz E)].
Qed.
Lemma firstn_all_app {X} (a b : list X) m : length a = m -> firstn m (a ++ b) = a.
Proof. intros <-. rewrite firstn_app, Nat.sub_diag, firstn_all. apply app_nil_r. Qed.
Lemma skipn_all_app {X} (a b : list X) m : length a = m -> skipn m (a ++ b) = b.
Proof. intros <-. rewrite skipn_app, Nat.sub_diag, skipn_all. reflexivity. Qed.

Lemma generated_checks V lv fuel (JJ : Junk) pk sk d z ek dk r T :
  length pk = KYBER_PUBLICKEYBYTES lv -> length sk = KYBER_SECRETKEYBYTES lv -> byte_array 32 d -> byte_array 32 z ->
  keypair_derand_of V JJ lv fuel pk sk (d ++ z) = Ok (ek, dk, r) T ->
  ek_check (PS lv) ek /\ dk_check (PS lv) dk /\ ek_check (PS lv) (firstn (384 * k (PS lv)) dk ++ keygen_rho (PS lv) d).
Proof.
  intros Lp Ls Hd Hz E. destruct (generated_layout V lv fuel JJ pk sk d z ek dk r T Lp Ls Hd Hz E) as (Hek & Hdk & A & HA & Eek & Edk).
  assert (HR : byte_array 32 (keygen_rho (PS lv) d)).
  { unfold keygen_rho. apply bytes_bytes_of; [rewrite firstn_length; unfold Spec_FIPS203.G; rewrite SHA3_512_length; reflexivity|apply bnd_firstn, SHA3_512_bytes]. }
  assert (LS : length (snd (K_PKE_KeyGen (PS lv) A d)) = (384 * k (PS lv))%nat) by (rewrite (KeyGen_dk_length lv A d); destruct lv; reflexivity).
  assert (LE : length ek = (384 * k (PS lv) + 32)%nat) by (rewrite (proj1 Hek); destruct lv; reflexivity).
  split; [|split].
  - apply ek_check_iff. rewrite Eek. unfold K_PKE_KeyGen. cbv zeta. cbn [fst].
    eexists _, _. split; [|split; [|split; [exact HR|reflexivity]]].
    + rewrite zipadd_length; rewrite !map_length; [exact (proj1 HA)|]. rewrite noise_length. exact (proj1 HA).
    + intros f Hf. apply canon_ok. exact (zipadd_canon _ _ f Hf).
  - split; [rewrite (proj1 Hdk); destruct lv; reflexivity|]. split; [exact (proj2 Hdk)|].
    rewrite Edk. rewrite (skipn_all_app _ _ _ LS), (firstn_all_app _ _ _ LE).
    rewrite app_assoc. rewrite (skipn_all_app (snd (K_PKE_KeyGen (PS lv) A d) ++ ek)) by (rewrite app_length, LS, LE; lia).
    rewrite firstn_all_app by apply SHA3_256_length. reflexivity.
  - rewrite Edk, (firstn_all_app _ _ _ LS). apply ek_check_iff. unfold K_PKE_KeyGen. cbv zeta. cbn [snd].
    eexists _, _. split; [|split; [|split; [exact HR|reflexivity]]].
    + rewrite map_length. apply noise_length.
    + intros f Hf. apply in_map_iff in Hf as (g & <- & _). apply canon_ok. apply NTT_canon.
Qed.
Lemma generated_ct V lv fuel (JJ : Junk) ct ss pk m c K r T :
  length ct = KYBER_CIPHERTEXTBYTES lv -> length ss = 32%nat -> byte_array (KYBER_PUBLICKEYBYTES lv) pk -> byte_array 32 m ->
  enc_derand_of V JJ lv fuel ct ss pk m = Ok (c, K, r) T -> ct_check (PS lv) c.
Proof.
  intros Lc Ls Hp Hm E.
  assert (X : Encaps_internal (PS lv) pk m K c).
  { destruct V; [exact (proj2 (enc_sound lv fuel JJ ct ss pk m c K r T Lc Ls Hp Hm E))|exact (proj2 (avx_enc_sound lv fuel JJ ct ss pk m c K r T Lc Ls Hp Hm E))]. }
  destruct (Encaps_internal_sizes _ _ _ _ _ X) as [_ [L B]]. split; [rewrite L; destruct lv; reflexivity|exact B].
Qed.

(** ** The check tells apart what encapsulation does not *)
Lemma check_unique lv t t' rho : byte_array (384 * k (PS lv)) t -> byte_array (384 * k (PS lv)) t' -> byte_array 32 rho ->
  decode_vec (PS lv) 12 t = decode_vec (PS lv) 12 t' -> ek_check (PS lv) (t ++ rho) -> ek_check (PS lv) (t' ++ rho) -> t = t'.
Proof.
  intros [L _] [L' _] _ D (_ & _ & E) (_ & _ & E'). rewrite (firstn_all_app _ _ _ L) in E. rewrite (firstn_all_app _ _ _ L') in E'.
  rewrite <- E, <- E', D. reflexivity.
Qed.
Lemma case_checks : exists s t c T1 T2 K,
  keypair_derand_of Reference no_junk Kyber512 2 (repeat 0 800) (repeat 0 1632) (demo_d ++ demo_z) = Ok (t ++ demo_rho, s ++ t ++ demo_rho ++ SHA3_256 (t ++ demo_rho) ++ demo_z, 0) T1 /\
  byte_array (KYBER_PUBLICKEYBYTES Kyber512) (t ++ demo_rho) /\
  enc_derand_of Reference no_junk Kyber512 2 (repeat 0 768) (repeat 0 32) (t ++ demo_rho) demo_m = Ok (c, K, 0) T2 /\
  ~ ek_check (PS Kyber512) (repeat 255 768 ++ demo_rho).
Proof.
  demo_open. exists s, t, c, T1, T2, K. split; [exact E1|]. split; [|split; [exact E2|]].
  - destruct Ht as [L1 B1], Hr as [L2 B2]. split; [rewrite app_length, L1, L2; reflexivity|]. intros x Hx. apply in_app_or in Hx as [Hx|Hx]; auto.
  - intros X. apply ek_check_iff in X as (v & rho & L & R & _ & X).
    apply (f_equal (firstn 768)) in X. rewrite (firstn_all_app (repeat 255 768)) in X by apply repeat_length.
    rewrite (firstn_all_app (flat_map _ _)) in X by exact (encoded_length v _ L R).
    exact (ff_not_canonical Kyber512 v L R (eq_sym X)).
Qed.
