(** * Exact sizes of the buffers of the AVX2 KEM functions *)
From Coq Require Import ZArith List Lia Bool.
From Verif Require Import CMonad WP Levels Model_Params Model_Verify Model_Symmetric Model_Fips202
  Model_AvxC Model_AvxIndcpa Model_AvxKem
  Spec_FIPS202 Spec_FIPS203 Vocab Vocab_Rng Vocab_Buffers Proof_Base Proof_Vocab Proof_Hash Proof_Symmetric Proof_Verify
  Proof_Bits Proof_GenMatrix Proof_Indcpa Proof_Keypair Proof_Encrypt Proof_Fuel Proof_Kem Proof_Api Proof_AvxApi Proof_Sim Proof_AvxSim Proof_Buffers.
From Verif Require Model_AvxIntrin.
Import ListNotations.
Open Scope Z_scope.
Open Scope cmonad_scope.
Local Opaque SHA3_256 SHA3_512 SHAKE256 SHAKE128.

Lemma load_bytes_ok x o n v T : Model_AvxIntrin.load_bytes x o n = Ok v T -> (o + n <= length x)%nat.
Proof.
  unfold Model_AvxIntrin.load_bytes, Model_AvxIntrin.mload. destruct (Nat.leb_spec (o + n) (length x)) as [L|L]; [auto|discriminate].
Qed.
Lemma verify_avx_ok a o b p n v T : verify_avx2 a o b p n = Ok v T -> (0 < n)%nat -> (o + n <= length a)%nat.
Proof.
  unfold verify_avx2. intros E Hn. inv E. cbv zeta in E. inv E. clear E.
  pose proof (Nat.div_mod n 32 ltac:(lia)) as D. pose proof (Nat.mod_upper_bound n 32 ltac:(lia)) as M.
  destruct (Nat.eq_dec (n mod 32) 0) as [Z0|Z0].
  - destruct (for_ok _ _ _ _ _ _ E0 (n / 32 - 1) ltac:(lia)) as (s1 & w & T9 & E3).
    inv E3. apply load_bytes_ok in E. lia.
  - destruct (for_ok _ _ _ _ _ _ E1 (n - 32 * (n / 32) - 1) ltac:(lia)) as (s1 & w & T9 & E3).
    inv E3. apply aget_ok in E. lia.
Qed.

Section WithJunk.
Context {JJ : Junk}.

Lemma keypair_avx_longer lv fuel pk sk coins t1 t2 t3 :
  length pk = KYBER_PUBLICKEYBYTES lv -> length sk = KYBER_SECRETKEYBYTES lv -> byte_array 64 coins ->
  crypto_kem_keypair_derand_avx2 lv fuel (pk ++ t1) (sk ++ t2) (coins ++ t3) =
  with_value (fun '(ek, dk, r) => (ek ++ t1, dk ++ t2, r)) (crypto_kem_keypair_derand_avx2 lv fuel pk sk coins).
Proof.
  intros L1 L2 Hc. pose proof (keypair_avx_sim t1 t2 t3 lv fuel pk sk coins) as HS.
  destruct (avx_keypair_outcome lv fuel JJ pk sk coins L1 L2 Hc) as [(ek & dk & T & E)|E]; rewrite E in *; cbn [sim with_value] in *.
  - destruct HS as ([[a b] c] & -> & E1 & E2 & E3). cbn [fst snd] in *. unfold ext in *. now subst.
  - exact HS.
Qed.
Lemma enc_avx_longer lv fuel ct ss pk coins t1 t2 t3 t4 :
  length ct = KYBER_CIPHERTEXTBYTES lv -> length ss = 32%nat -> byte_array (KYBER_PUBLICKEYBYTES lv) pk -> byte_array 32 coins ->
  crypto_kem_enc_derand_avx2 lv fuel (ct ++ t1) (ss ++ t2) (pk ++ t3) (coins ++ t4) =
  with_value (fun '(c, K, r) => (c ++ t1, K ++ t2, r)) (crypto_kem_enc_derand_avx2 lv fuel ct ss pk coins).
Proof.
  intros L1 L2 Hp Hc. pose proof (enc_avx_sim t1 t2 t3 t4 lv fuel ct ss pk coins) as HS.
  destruct (avx_enc_outcome lv fuel JJ ct ss pk coins L1 L2 Hp Hc) as [(c & K & T & E)|E]; rewrite E in *; cbn [sim with_value] in *.
  - destruct HS as ([[a b] r] & -> & E1 & E2 & E3). cbn [fst snd] in *. unfold ext in *. now subst.
  - exact HS.
Qed.
Lemma dec_avx_longer lv fuel ss ct sk t1 t2 t3 :
  length ss = 32%nat -> byte_array (KYBER_CIPHERTEXTBYTES lv) ct -> byte_array (KYBER_SECRETKEYBYTES lv) sk ->
  crypto_kem_dec_avx2 lv fuel (ss ++ t1) (ct ++ t2) (sk ++ t3) =
  with_value (fun '(K, r) => (K ++ t1, r)) (crypto_kem_dec_avx2 lv fuel ss ct sk).
Proof.
  intros L1 Hc Hs. pose proof (dec_avx_sim t1 t2 t3 lv fuel ss ct sk) as HS.
  destruct (avx_dec_outcome lv fuel JJ ss ct sk L1 Hc Hs) as [(K & T & E)|E]; rewrite E in *; cbn [sim with_value] in *.
  - destruct HS as ([a r] & -> & E1 & E2). cbn [fst snd] in *. unfold ext in *. now subst.
  - exact HS.
Qed.
Lemma keypair_avx_padded lv fuel pk sk coins a b r T x y z :
  all_bytes coins -> 0 <= z < 256 -> crypto_kem_keypair_derand_avx2 lv fuel pk sk coins = Ok (a, b, r) T ->
  exists ek dk, length ek = KYBER_PUBLICKEYBYTES lv /\ length dk = KYBER_SECRETKEYBYTES lv /\
    KeyGen_internal (PS lv) (firstn 32 (pad coins 64 z)) (firstn 32 (skipn 32 (pad coins 64 z))) ek dk /\
    a ++ repeat x (KYBER_PUBLICKEYBYTES lv - length pk) = ek ++ skipn (KYBER_PUBLICKEYBYTES lv) pk /\
    b ++ repeat y (KYBER_SECRETKEYBYTES lv - length sk) = dk ++ skipn (KYBER_SECRETKEYBYTES lv) sk.
Proof.
  intros Bc Hz E. set (N1 := KYBER_PUBLICKEYBYTES lv) in *. set (N2 := KYBER_SECRETKEYBYTES lv) in *.
  destruct (sim_ok _ _ _ _ _ (keypair_avx_sim (repeat x (N1 - length pk)) (repeat y (N2 - length sk)) (repeat z (64 - length coins))
    lv fuel pk sk coins) E) as ([[a' b'] r'] & E' & E1 & E2 & E3). cbn [fst snd] in *. unfold ext in *. subst.
  fold (pad pk N1 x) (pad sk N2 y) (pad coins 64 z) in E'.
  pose proof (pad_length pk N1 x) as L1. pose proof (pad_length sk N2 y) as L2. pose proof (pad_length coins 64 z) as L3.
  pose proof (firstn_bytes 64 _ (pad_bytes coins 64 z Bc Hz) L3) as Hc.
  assert (F1 : length (firstn N1 (pad pk N1 x)) = N1) by (rewrite firstn_length; lia).
  assert (F2 : length (firstn N2 (pad sk N2 y)) = N2) by (rewrite firstn_length; lia).
  pose proof (keypair_avx_longer lv fuel (firstn N1 (pad pk N1 x)) (firstn N2 (pad sk N2 y)) (firstn 64 (pad coins 64 z))
    (skipn N1 (pad pk N1 x)) (skipn N2 (pad sk N2 y)) (skipn 64 (pad coins 64 z)) F1 F2 Hc) as EL.
  rewrite !firstn_skipn, E' in EL.
  destruct (crypto_kem_keypair_derand_avx2 lv fuel (firstn N1 (pad pk N1 x)) (firstn N2 (pad sk N2 y)) (firstn 64 (pad coins 64 z)))
    as [[[ek dk] r1] T1| | |] eqn:EX; try discriminate. cbn [with_value] in EL.
  match type of EL with Ok (?a1, ?b1, _) _ = Ok (?a2, ?b2, _) _ => assert (EL1 : a1 = a2) by congruence; assert (EL2 : b1 = b2) by congruence end.
  destruct (avx_keypair_sound lv fuel JJ _ _ _ _ _ _ _ F1 F2 Hc EX) as [_ HK].
  rewrite firstn_firstn, skipn_firstn_comm, firstn_firstn in HK. change (Nat.min 32 64) with 32%nat in HK. change (Nat.min 32 (64 - 32)) with 32%nat in HK.
  assert (HL : length ek = N1 /\ length dk = N2).
  { destruct (KeyGen_lengths lv _ _ _ _ HK) as [A B]; [|split; assumption]. rewrite firstn_length, skipn_length. lia. }
  exists ek, dk. refine (conj (proj1 HL) (conj (proj2 HL) (conj HK (conj _ _)))).
  - rewrite EL1. f_equal. unfold pad. destruct (Nat.le_gt_cases N1 (length pk)) as [G|G].
    + replace (N1 - length pk)%nat with 0%nat by lia. cbn [repeat]. now rewrite app_nil_r.
    + rewrite !skipn_all2; [reflexivity|lia|rewrite app_length, repeat_length; lia].
  - rewrite EL2. f_equal. unfold pad. destruct (Nat.le_gt_cases N2 (length sk)) as [G|G].
    + replace (N2 - length sk)%nat with 0%nat by lia. cbn [repeat]. now rewrite app_nil_r.
    + rewrite !skipn_all2; [reflexivity|lia|rewrite app_length, repeat_length; lia].
Qed.
Lemma keypair_avx_never lv fuel pk sk coins v T : all_bytes coins ->
  (length pk < KYBER_PUBLICKEYBYTES lv)%nat \/ (length sk < KYBER_SECRETKEYBYTES lv)%nat \/ (length coins < 64)%nat ->
  crypto_kem_keypair_derand_avx2 lv fuel pk sk coins <> Ok v T.
Proof.
  intros Bc HL E. destruct v as [[a b] r].
  destruct (keypair_avx_padded lv fuel pk sk coins a b r T 0 0 0 Bc ltac:(lia) E) as (ek & dk & L1 & L2 & HK & E1 & E2).
  destruct (keypair_avx_padded lv fuel pk sk coins a b r T 1 1 0 Bc ltac:(lia) E) as (ek' & dk' & _ & _ & HK' & E1' & E2').
  destruct (KeyGen_internal_functional _ _ _ _ _ _ _ HK HK') as [<- <-].
  assert (G1 : (KYBER_PUBLICKEYBYTES lv <= length pk)%nat).
  { apply Nat.nlt_ge. intros G. apply (pad_differs a pk _ 0 1 ek _ _ G ltac:(lia) L1 E1 E1'); apply skipn_all2; lia. }
  assert (G2 : (KYBER_SECRETKEYBYTES lv <= length sk)%nat).
  { apply Nat.nlt_ge. intros G. apply (pad_differs b sk _ 0 1 dk _ _ G ltac:(lia) L2 E2 E2'); apply skipn_all2; lia. }
  destruct HL as [HL|[HL|HL]]; [lia|lia|].
  destruct (keypair_avx_padded lv fuel pk sk coins a b r T 0 0 1 Bc ltac:(lia) E) as (ek1 & dk1 & _ & L4 & HK1 & _ & E4).
  rewrite E2 in E4. apply app_split in E4; [|congruence]. destruct E4 as [<- _].
  destruct HK as (A & p & _ & _ & D). destruct HK1 as (A1 & p1 & _ & _ & D1). rewrite D in D1.
  rewrite !app_assoc in D1. apply app_split_r in D1.
  - destruct D1 as [_ D1].
    assert (P : forall w, nth 31 (firstn 32 (skipn 32 (pad coins 64 w))) 2 = w).
    { intros w. rewrite <- (pad_last coins 64 w HL) at 2. rewrite <- (firstn_skipn 32 (skipn 32 (pad coins 64 w))) at 1.
      rewrite firstn_app, firstn_firstn, firstn_length, skipn_length, (pad_exact coins 64 w HL).
      change (Nat.min 32 (64 - 32)) with 32%nat. change (Nat.min 32 32) with 32%nat. change (32 - 32)%nat with 0%nat.
      rewrite firstn_O, app_nil_r. rewrite firstn_all2 by (rewrite skipn_length, (pad_exact coins 64 w HL); lia).
      rewrite <- (firstn_skipn 32 (pad coins 64 w)) at 2. rewrite app_nth2; rewrite firstn_length, (pad_exact coins 64 w HL); [|cbn; lia].
      reflexivity. }
    pose proof (P 0) as P0. rewrite D1, (P 1) in P0. discriminate.
  - rewrite !firstn_length, !skipn_length, !(pad_exact coins 64 _ HL). reflexivity.
Qed.
Lemma enc_avx_padded lv fuel ct ss pk coins a b r T x y :
  byte_array (KYBER_PUBLICKEYBYTES lv) (firstn (KYBER_PUBLICKEYBYTES lv) pk) -> byte_array 32 (firstn 32 coins) ->
  crypto_kem_enc_derand_avx2 lv fuel ct ss pk coins = Ok (a, b, r) T ->
  exists c K, length c = KYBER_CIPHERTEXTBYTES lv /\ length K = 32%nat /\
    Encaps_internal (PS lv) (firstn (KYBER_PUBLICKEYBYTES lv) pk) (firstn 32 coins) K c /\
    a ++ repeat x (KYBER_CIPHERTEXTBYTES lv - length ct) = c ++ skipn (KYBER_CIPHERTEXTBYTES lv) ct /\
    b ++ repeat y (32 - length ss) = K ++ skipn 32 ss.
Proof.
  intros Hp Hc E. set (N1 := KYBER_CIPHERTEXTBYTES lv) in *. set (N3 := KYBER_PUBLICKEYBYTES lv) in *.
  destruct (sim_ok _ _ _ _ _ (enc_avx_sim (repeat x (N1 - length ct)) (repeat y (32 - length ss)) [] []
    lv fuel ct ss pk coins) E) as ([[a' b'] r'] & E' & E1 & E2 & E3). cbn [fst snd] in *. unfold ext in *. subst.
  fold (pad ct N1 x) (pad ss 32 y) in E'. rewrite !app_nil_r in E'.
  pose proof (pad_length ct N1 x) as L1. pose proof (pad_length ss 32 y) as L2.
  assert (F1 : length (firstn N1 (pad ct N1 x)) = N1) by (rewrite firstn_length; lia).
  assert (F2 : length (firstn 32 (pad ss 32 y)) = 32%nat) by (rewrite firstn_length; lia).
  pose proof (enc_avx_longer lv fuel (firstn N1 (pad ct N1 x)) (firstn 32 (pad ss 32 y)) (firstn N3 pk) (firstn 32 coins)
    (skipn N1 (pad ct N1 x)) (skipn 32 (pad ss 32 y)) (skipn N3 pk) (skipn 32 coins) F1 F2 Hp Hc) as EL.
  rewrite !firstn_skipn, E' in EL.
  destruct (crypto_kem_enc_derand_avx2 lv fuel (firstn N1 (pad ct N1 x)) (firstn 32 (pad ss 32 y)) (firstn N3 pk) (firstn 32 coins))
    as [[[c K] r1] T1| | |] eqn:EX; try discriminate. cbn [with_value] in EL.
  match type of EL with Ok (?a1, ?b1, _) _ = Ok (?a2, ?b2, _) _ => assert (EL1 : a1 = a2) by congruence; assert (EL2 : b1 = b2) by congruence end.
  destruct (avx_enc_sound lv fuel JJ _ _ _ _ _ _ _ _ F1 F2 Hp Hc EX) as [_ HK].
  destruct (Encaps_lengths lv _ _ _ _ HK) as [LK Lc].
  exists c, K. refine (conj Lc (conj LK (conj HK (conj _ _)))).
  - rewrite EL1. f_equal. apply skipn_pad.
  - rewrite EL2. f_equal. apply skipn_pad.
Qed.
Lemma enc_avx_never lv fuel ct ss pk coins v T : all_bytes pk -> all_bytes coins ->
  (length ct < KYBER_CIPHERTEXTBYTES lv)%nat \/ (length ss < 32)%nat \/ (length pk < KYBER_PUBLICKEYBYTES lv)%nat \/ (length coins < 32)%nat ->
  crypto_kem_enc_derand_avx2 lv fuel ct ss pk coins <> Ok v T.
Proof.
  intros Bp Bc HL E.
  assert (G4 : (32 <= length coins)%nat).
  { pose proof E as X. unfold crypto_kem_enc_derand_avx2 in X. cbv zeta in X. inv X. apply (memcpy_ok _ _ _ _ _ _ _ E0). unfold KYBER_SYMBYTES. lia. }
  assert (G3 : (KYBER_PUBLICKEYBYTES lv <= length pk)%nat).
  { pose proof E as X. unfold crypto_kem_enc_derand_avx2 in X. cbv zeta in X. inv X. clear E0. inv X. clear E0. inv X. clear E0. inv X. clear X.
    rename E0 into X. unfold indcpa_enc_avx2 in X. cbv zeta in X. inv X. clear X. rename E0 into X. unfold unpack_pk_avx2 in X. inv X. clear E0. inv X.
    apply memcpy_ok in E0; [|unfold KYBER_SYMBYTES; lia]. exact E0. }
  destruct v as [[a b] r].
  pose proof (firstn_bytes _ _ Bp G3) as Hp. pose proof (firstn_bytes _ _ Bc G4) as Hc.
  destruct (enc_avx_padded lv fuel ct ss pk coins a b r T 0 0 Hp Hc E) as (c & K & L1 & L2 & HK & E1 & E2).
  destruct (enc_avx_padded lv fuel ct ss pk coins a b r T 1 1 Hp Hc E) as (c' & K' & _ & _ & HK' & E1' & E2').
  destruct (Encaps_internal_functional _ _ _ _ _ _ _ HK HK') as [<- <-].
  destruct HL as [HL|[HL|[HL|HL]]]; [| |lia|lia].
  - apply (pad_differs a ct _ 0 1 c _ _ HL ltac:(lia) L1 E1 E1'); apply skipn_all2; lia.
  - apply (pad_differs b ss _ 0 1 K _ _ HL ltac:(lia) L2 E2 E2'); apply skipn_all2; lia.
Qed.
Lemma dec_avx_padded lv fuel ss ct sk a r T x :
  byte_array (KYBER_CIPHERTEXTBYTES lv) (firstn (KYBER_CIPHERTEXTBYTES lv) ct) ->
  byte_array (KYBER_SECRETKEYBYTES lv) (firstn (KYBER_SECRETKEYBYTES lv) sk) ->
  crypto_kem_dec_avx2 lv fuel ss ct sk = Ok (a, r) T ->
  exists K, length K = 32%nat /\
    Decaps_internal (PS lv) (firstn (KYBER_SECRETKEYBYTES lv) sk) (firstn (KYBER_CIPHERTEXTBYTES lv) ct) K /\
    a ++ repeat x (32 - length ss) = K ++ skipn 32 ss.
Proof.
  intros Hc Hs E. set (N1 := KYBER_CIPHERTEXTBYTES lv) in *. set (N3 := KYBER_SECRETKEYBYTES lv) in *.
  destruct (sim_ok _ _ _ _ _ (dec_avx_sim (repeat x (32 - length ss)) [] [] lv fuel ss ct sk) E) as ([a' r'] & E' & E1 & E3).
  cbn [fst snd] in *. unfold ext in *. subst.
  fold (pad ss 32 x) in E'. rewrite !app_nil_r in E'.
  pose proof (pad_length ss 32 x) as L1.
  assert (F1 : length (firstn 32 (pad ss 32 x)) = 32%nat) by (rewrite firstn_length; lia).
  pose proof (dec_avx_longer lv fuel (firstn 32 (pad ss 32 x)) (firstn N1 ct) (firstn N3 sk)
    (skipn 32 (pad ss 32 x)) (skipn N1 ct) (skipn N3 sk) F1 Hc Hs) as EL.
  rewrite !firstn_skipn, E' in EL.
  destruct (crypto_kem_dec_avx2 lv fuel (firstn 32 (pad ss 32 x)) (firstn N1 ct) (firstn N3 sk))
    as [[K r1] T1| | |] eqn:EX; try discriminate. cbn [with_value] in EL.
  match type of EL with Ok (?a1, _) _ = Ok (?a2, _) _ => assert (EL1 : a1 = a2) by congruence end.
  destruct (avx_dec_sound lv fuel JJ _ _ _ _ _ _ F1 Hc Hs EX) as [_ HK].
  exists K. refine (conj (Decaps_lengths lv _ _ _ HK) (conj HK _)).
  rewrite EL1. f_equal. apply skipn_pad.
Qed.
Lemma dec_avx_never lv fuel ss ct sk v T : all_bytes ct -> all_bytes sk ->
  (length ss < 32)%nat \/ (length ct < KYBER_CIPHERTEXTBYTES lv)%nat \/ (length sk < KYBER_SECRETKEYBYTES lv)%nat ->
  crypto_kem_dec_avx2 lv fuel ss ct sk <> Ok v T.
Proof.
  intros Bc Bs HL E.
  assert (NC : (0 < KYBER_CIPHERTEXTBYTES lv)%nat) by (destruct lv; apply Nat.ltb_lt; vm_compute; reflexivity).
  assert (NS : (32 <= KYBER_SECRETKEYBYTES lv)%nat) by (destruct lv; apply Nat.leb_le; vm_compute; reflexivity).
  pose proof E as X. unfold crypto_kem_dec_avx2 in X. cbv zeta in X. inv X. clear E0. inv X. clear E0. inv X. clear E0. inv X. clear E0.
  inv X. apply (verify_avx_ok _ _ _ _ _ _ _) in E0; [|exact NC]. inv X. clear X. rename E1 into X.
  unfold kyber_shake256_rkprf in X. inv X. unfold shake256_init, shake_init in E1. inv E1. injection E1 as <- _. clear E2.
  inv X. apply absorb0_ok in E1; [|unfold KYBER_SYMBYTES; lia]. clear X. change KYBER_SYMBYTES with 32%nat in E1. cbn [plus] in E0.
  assert (G3 : (KYBER_SECRETKEYBYTES lv <= length sk)%nat) by lia.
  destruct v as [a r].
  pose proof (firstn_bytes _ _ Bc E0) as Hc. pose proof (firstn_bytes _ _ Bs G3) as Hs.
  destruct (dec_avx_padded lv fuel ss ct sk a r T 0 Hc Hs E) as (K & L1 & HK & P1).
  destruct (dec_avx_padded lv fuel ss ct sk a r T 1 Hc Hs E) as (K' & _ & HK' & P2).
  rewrite (Decaps_internal_functional _ _ _ _ _ HK' HK) in P2.
  destruct HL as [HL|[HL|HL]]; [|lia|lia].
  apply (pad_differs a ss _ 0 1 K _ _ HL ltac:(lia) L1 P1 P2); apply skipn_all2; lia.
Qed.
End WithJunk.

Lemma keypair_avx_short lv fuel (JJ : Junk) pk sk coins : all_bytes coins ->
  (length pk < KYBER_PUBLICKEYBYTES lv \/ length sk < KYBER_SECRETKEYBYTES lv \/ length coins < 64)%nat ->
  (forall v T, crypto_kem_keypair_derand_avx2 lv fuel pk sk coins <> Ok v T) /\
  (forall t1 t2 t3 v T, crypto_kem_keypair_derand_avx2 lv fuel (pk ++ t1) (sk ++ t2) (coins ++ t3) = Ok v T ->
     crypto_kem_keypair_derand_avx2 lv fuel pk sk coins = UB OutOfBounds).
Proof.
  intros Bc HL. assert (N : forall v T, crypto_kem_keypair_derand_avx2 lv fuel pk sk coins <> Ok v T).
  { intros v T. exact (keypair_avx_never lv fuel pk sk coins v T Bc HL). }
  split; [exact N|]. intros t1 t2 t3 v T E. exact (sim_short _ _ _ (keypair_avx_sim t1 t2 t3 lv fuel pk sk coins) N v T E).
Qed.
Lemma enc_avx_short lv fuel (JJ : Junk) ct ss pk coins : all_bytes pk -> all_bytes coins ->
  (length ct < KYBER_CIPHERTEXTBYTES lv \/ length ss < 32 \/ length pk < KYBER_PUBLICKEYBYTES lv \/ length coins < 32)%nat ->
  (forall v T, crypto_kem_enc_derand_avx2 lv fuel ct ss pk coins <> Ok v T) /\
  (forall t1 t2 t3 t4 v T, crypto_kem_enc_derand_avx2 lv fuel (ct ++ t1) (ss ++ t2) (pk ++ t3) (coins ++ t4) = Ok v T ->
     crypto_kem_enc_derand_avx2 lv fuel ct ss pk coins = UB OutOfBounds).
Proof.
  intros Bp Bc HL. assert (N : forall v T, crypto_kem_enc_derand_avx2 lv fuel ct ss pk coins <> Ok v T).
  { intros v T. exact (enc_avx_never lv fuel ct ss pk coins v T Bp Bc HL). }
  split; [exact N|]. intros t1 t2 t3 t4 v T E. exact (sim_short _ _ _ (enc_avx_sim t1 t2 t3 t4 lv fuel ct ss pk coins) N v T E).
Qed.
Lemma dec_avx_short lv fuel (JJ : Junk) ss ct sk : all_bytes ct -> all_bytes sk ->
  (length ss < 32 \/ length ct < KYBER_CIPHERTEXTBYTES lv \/ length sk < KYBER_SECRETKEYBYTES lv)%nat ->
  (forall v T, crypto_kem_dec_avx2 lv fuel ss ct sk <> Ok v T) /\
  (forall t1 t2 t3 v T, crypto_kem_dec_avx2 lv fuel (ss ++ t1) (ct ++ t2) (sk ++ t3) = Ok v T ->
     crypto_kem_dec_avx2 lv fuel ss ct sk = UB OutOfBounds).
Proof.
  intros Bp Bc HL. assert (N : forall v T, crypto_kem_dec_avx2 lv fuel ss ct sk <> Ok v T).
  { intros v T. exact (dec_avx_never lv fuel ss ct sk v T Bp Bc HL). }
  split; [exact N|]. intros t1 t2 t3 v T E. exact (sim_short _ _ _ (dec_avx_sim t1 t2 t3 lv fuel ss ct sk) N v T E).
Qed.
