(** * The functions measured by test_speed.c, on every input they meet there *)
From Coq Require Import ZArith List Lia Bool NArith.
From Verif Require Import CMonad WP Modq Proof_Base Proof_Bits Levels Model_Params Model_Randombytes Model_Reduce Model_NTT Model_Symmetric Model_Poly Model_Polyvec Model_Indcpa Model_Kem Model_AvxCode
  Model_AvxFips202x4 Proof_AvxShake4 Model_AvxIntrin Model_AvxC Model_AvxPolyvec Model_AvxIndcpa Model_AvxKem Spec_FIPS202 Spec_FIPS203 Vocab Vocab_Avx Vocab_Rng Vocab_Tests Model_Tests Model_Speed
  Proof_Hash Proof_Poly Proof_NTT Proof_Symmetric Proof_CBD Proof_Codec Proof_Codec2 Proof_Polyvec Proof_PolyvecCodec Proof_GenMatrix Proof_Indcpa
  Proof_Keypair Proof_Encrypt Proof_Kem Proof_Api Proof_PropPoly Proof_AvxBits Proof_AvxVec Proof_AvxCompress Proof_AvxDecompress Proof_AvxNTT Proof_AvxNoise
  Proof_AvxGenMatrix Proof_AvxPolyvec Proof_AvxKeypair Proof_AvxEncrypt Proof_Tests.
Import ListNotations.
Open Scope Z_scope.
Open Scope cmonad_scope.
Notation length := List.length.
Local Opaque SHA3_256 SHA3_512 SHAKE256 SHAKE128 ntt_sym intt_sym.

Lemma safely_wp {A} (m : res A) T (Q : A -> Prop) : wp m T Q -> safely m Q.
Proof. intros (v & -> & H). exact H. Qed.
Lemma safely_timeout {A} (m : res A) (Q : A -> Prop) : m = Timeout -> safely m Q.
Proof. intros ->. exact I. Qed.

(** ** Vector code without bounds on the coefficients *)
Lemma sym_total (JJ : Junk) code S B lo hi ex r : sym_run code [ins 0 256; sqdata] = S -> chk_sym B lo hi ex S = true -> length ex = 256%nat ->
  length r = 256%nat -> wp (run_asm code [r; qdata]) (trace_of S) (fun r' => length r' = 256%nat).
Proof.
  intros Es E Lx Hl. destruct S as [[out t]|]; [|discriminate E]. cbn [chk_sym trace_of] in *.
  exists (map (Proof_AvxSym.eval (env3 JJ r [] [])) out). split.
  - apply (sym_run_spec JJ r [] [] code _ [r; qdata] _ _ Es). cbn [map]. now rewrite eval_r, eval_qdata by auto.
  - unfold check_out in E. apply andb_true_iff in E as [El _]. apply Nat.eqb_eq in El. rewrite map_length. congruence.
Qed.
Lemma ntt_avx_total (JJ : Junk) r : length r = 256%nat -> safely (ntt_avx r) (fun r' => length r' = 256%nat).
Proof.
  intros Hl. eapply safely_wp. unfold ntt_avx. apply (sym_total JJ _ _ _ _ _ _ r ntt_sym_eq ntt_chk); [|exact Hl].
  unfold ntt_ref. now rewrite map_length, seq_length.
Qed.
Lemma xilayers_length l r : length (xilayers (S l) r) = 256%nat.
Proof. cbn [xilayers]. unfold xilayer. now rewrite map_length, seq_length. Qed.
Lemma invntt_avx_total (JJ : Junk) r : length r = 256%nat -> safely (invntt_avx r) (fun r' => length r' = 256%nat).
Proof.
  intros Hl. eapply safely_wp. unfold invntt_avx. apply (sym_total JJ _ _ _ _ _ _ r intt_sym_eq intt_chk); [|exact Hl].
  unfold intt_ref. apply xilayers_length.
Qed.

Lemma words_bits_4 v : length v = 32%nat -> length (words_bits 8 v) = 4%nat /\ bytes (words_bits 8 v).
Proof.
  intros L. unfold words_bits, chunks. rewrite L. change (32 / 8)%nat with 4%nat. rewrite !map_length, seq_length. split; [reflexivity|].
  intros i Hi. rewrite !map_length, seq_length in Hi.
  assert (H : In (nth i (map Model_AvxIntrin.value (map (fun i0 => firstn 8 (skipn (i0 * 8) v)) (seq 0 4))) 0)
    (map Model_AvxIntrin.value (map (fun i0 => firstn 8 (skipn (i0 * 8) v)) (seq 0 4)))) by (apply nth_In; now rewrite !map_length, seq_length).
  apply in_map_iff in H as (c & <- & H). apply in_map_iff in H as (j & <- & H).
  pose proof (value_range (firstn 8 (skipn (j * 8) v))) as R. rewrite firstn_length in R.
  assert (2 ^ Z.of_nat (Nat.min 8 (length (skipn (j * 8) v))) <= 2 ^ 8) by (apply Z.pow_le_mono_r; lia). lia.
Qed.
Lemma tomsg_avx2_total msg a : (32 <= length msg)%nat -> bytes msg -> length a = 256%nat ->
  safely (poly_tomsg_avx2 msg 0 a) (fun m' => length m' = length msg /\ bytes m').
Proof.
  intros Lm Bm La. eapply safely_wp. unfold poly_tomsg_avx2.
  eapply (wp_for _ (fun i s => length s = length msg /\ bytes s)).
  - auto.
  - intros i s Hi [Ls Bs]. repeat vstep. loaded a (32 * i)%nat.
    eapply wp_exec; [apply (check_spec _ [_; _] _ _ tomsg_chk)|].
    cbn [map out nth].
    match goal with |- wp (store_bytes _ _ ?v) _ _ =>
      assert (L : length v = 32%nat) by (rewrite map_length; unfold bexp; now rewrite map_length, seq_length);
      destruct (words_bits_4 v L) as [L4 B4] end.
    eapply wp_store_bytes; [reflexivity|rewrite L4; lia|].
    split; [rewrite splice_length by lia; exact Ls|]. apply bytes_splice; auto. lia.
  - auto.
Qed.
Lemma poly_getnoise_eta1_avx2_wp lv so nonce :
  traced (fun T => forall (JJ : Junk) r seed sigma, length r = 256%nat -> seed_ok so sigma seed -> 0 <= nonce <= 255 ->
    wp (poly_getnoise_eta1_avx2 lv r seed so nonce) T (fun r' => r' = cbdpoly (eta1 (PS lv)) sigma nonce)).
Proof.
  destruct (prf_wp 0 (64 * eta1 (PS lv)) so) as [T1 W1].
  destruct (poly_cbd_eta1_avx2_wp lv) as [T2 W2].
  eexists. intros JJ r seed sigma Hr (H1 & H2 & H3) Hn. unfold poly_getnoise_eta1_avx2. cbv zeta.
  replace (KYBER_ETA1 lv * KYBER_N / 4)%nat with (64 * eta1 (PS lv))%nat by (destruct lv; reflexivity).
  assert (LB : length (splice (local8 (64 * eta1 (PS lv) + 32)) 0 (SHAKE256 (sub seed so 32 ++ [nonce]) (64 * eta1 (PS lv)))) = (64 * eta1 (PS lv) + 32)%nat)
    by (rewrite splice_length; rewrite ?SHAKE256_length, local8_length; lia).
  wstep. wstep. wstep. eapply wp_conseq; [apply W1; auto; rewrite local8_length; lia|].
  intros b ->.
  eapply wp_conseq; [apply W2; [exact Hr|rewrite LB; destruct (eta1 (PS lv) =? 3)%nat; lia]|]. intros r' ->.
  unfold cbdpoly, PRF. f_equal. f_equal. rewrite H3. unfold splice, sub. cbn [firstn skipn app].
  rewrite firstn_app, SHAKE256_length, Nat.sub_diag. cbn [firstn]. rewrite app_nil_r. apply firstn_all2. rewrite SHAKE256_length. lia.
Qed.

(** Every array is the AVX2 order of some polynomial *)
Definition unorder (a : list Z) : list Z := mk 256 (fun m => nth (avx_pos m) a 0).
Lemma order_unorder a : length a = 256%nat -> avx_order (unorder a) = a.
Proof.
  intros L. apply (list_eq_nth 0); [now rewrite avx_order_length|]. intros i Hi. rewrite avx_order_length in Hi. rewrite avx_order_nth by exact Hi.
  assert (avx_ix i < 256)%nat by (apply Nat.ltb_lt; revert i Hi; apply (all256 (fun p => avx_ix p <? 256)%nat); vm_compute; reflexivity).
  unfold unorder. rewrite nth_mk by exact H. now rewrite avx_pos_ix.
Qed.

Lemma overrun_bytes lv : bytes (overrun lv).
Proof. intros i Hi. destruct lv; cbn in *; try lia. destruct i as [|[|i]]; cbn; lia. Qed.

(** ** Both variants *)
Definition byt (m : nat) (l : list Z) : Prop := length l = m /\ bytes l.
Lemma byt_splice m l x : byt m l -> (length x <= m)%nat -> bytes x -> byt m (splice l 0 x).
Proof. intros [L B] Lx Bx. split; [rewrite splice_length; lia|apply bytes_splice; auto; lia]. Qed.
Lemma byt_array m l : byt m l <-> byte_array m l.
Proof.
  split; intros [L B]; split; auto.
  - exact (proj2 (bytes_bytes_of m l L B)).
  - apply (bytes_of_bytes m l). split; auto.
Qed.
Section Parts.
Variables (V : variant) (lv : level) (fuel : nat).
Definition within (B : Z) (l : list Z) : Prop := length l = 256%nat /\ match V with Reference => babs B l | Avx2 => True end.
Lemma within_le B B' l : B <= B' -> within B l -> within B' l.
Proof. intros H [L W]. split; [exact L|]. destruct V; [now apply (babs_weaken B)|exact I]. Qed.
Definition rows (m : list polyvec) : Prop := length m = KYBER_K lv /\ forall i, (i < KYBER_K lv)%nat -> vbnd (KYBER_K lv) 0 3328 (nth i m []).

Lemma seed_is_ok : seed_ok 0 seed seed.
Proof. split; [cbn; lia|]. split; [|reflexivity]. intros i Hi. do 32 (destruct i as [|i]; [cbn; lia|]). cbn in Hi. lia. Qed.
Lemma seed_byt : byt 32 seed. Proof. split; [reflexivity|]. apply seed_is_ok. Qed.
Lemma rows_wf m : rows m -> wfmatrix lv m.
Proof. intros [L H]. split; [exact L|]. intros i Hi. destruct (H i Hi) as [L1 H1]. split; [exact L1|]. intros j Hj. now apply H1. Qed.

Lemma gen_safe (JJ : Junk) a : wfmatrix lv a -> safely (gen_matrix_of V lv fuel JJ a) rows.
Proof.
  intros HW. unfold gen_matrix_of. destruct (enough_all_dec lv fuel seed) as [HE|HE].
  - pose proof (matrix_rows lv fuel seed false HE) as [LR HR]. destruct V.
    + destruct (gen_matrix_wp lv fuel 0 seed false HE) as [T W]. eapply safely_wp. eapply wp_conseq; [apply (W JJ a seed HW seed_is_ok)|].
      intros m ->. split; [exact LR|exact HR].
    + destruct (gen_matrix_avx2_wp lv fuel 0 seed false HE) as [T W]. eapply safely_wp. eapply wp_conseq; [apply (W JJ a seed HW seed_is_ok)|].
      intros m ->. split; [rewrite map_length; exact LR|]. intros i Hi. exact (proj1 (avx_row lv _ i (conj LR HR) Hi)).
  - apply safely_timeout. destruct V; [exact (gen_matrix_timeout lv fuel 0 seed false HE JJ a seed HW seed_is_ok)|exact (gen_matrix_avx2_timeout lv fuel 0 seed false HE JJ a seed HW seed_is_ok)].
Qed.
Lemma eta1_safe (JJ : Junk) r : length r = 256%nat -> safely (getnoise_eta1_of V lv JJ r) (within 3).
Proof.
  intros L. unfold getnoise_eta1_of. destruct V eqn:EV.
  - destruct (getnoise_eta1_spec lv JJ r [] seed [] 0 L eq_refl) as (r' & T & E & L' & _ & R & _).
    { rewrite app_nil_r. exact (proj2 (proj1 (byt_array 32 seed) seed_byt)). }
    { lia. }
    rewrite app_nil_r in E. cbn [app length] in E. rewrite E. cbn [safely]. split; [exact L'|]. rewrite EV. intros i Hi.
    pose proof (R (nth i r' 0) (nth_In _ _ Hi)). destruct lv; cbn in H; lia.
  - destruct (poly_getnoise_eta1_avx2_wp lv 0 0) as [T W]. eapply safely_wp. eapply wp_conseq; [apply (W JJ r seed seed L seed_is_ok); lia|].
    intros r' ->. split; [apply cbdpoly_length|]. now rewrite EV.
Qed.
Lemma eta2_safe (JJ : Junk) r : length r = 256%nat -> safely (getnoise_eta2_of V JJ r) (within 3).
Proof.
  intros L. unfold getnoise_eta2_of. destruct V eqn:EV.
  - destruct (getnoise_eta2_spec lv JJ r [] seed [] 0 L eq_refl) as (r' & T & E & L' & _ & R & _).
    { rewrite app_nil_r. exact (proj2 (proj1 (byt_array 32 seed) seed_byt)). }
    { lia. }
    rewrite app_nil_r in E. cbn [app length] in E. rewrite E. cbn [safely]. split; [exact L'|]. rewrite EV. intros i Hi.
    pose proof (R (nth i r' 0) (nth_In _ _ Hi)). destruct lv; cbn in H; lia.
  - destruct (poly_getnoise_eta2_avx2_wp 0 0) as [T W]. eapply safely_wp. eapply wp_conseq; [apply (W JJ r seed seed L seed_is_ok); lia|].
    intros r' ->. split; [apply cbdpoly_length|]. now rewrite EV.
Qed.
Lemma ntt_safe (JJ : Junk) r : within 9471 r -> safely (poly_ntt_of V JJ r) (within 1664).
Proof.
  unfold within, poly_ntt_of. intros [L B]. destruct V.
  - destruct poly_ntt_wp as [T W]. eapply safely_wp. eapply wp_conseq; [apply (W r L B)|]. intros r' (L' & B' & _). now split.
  - eapply safely_mono; [apply (ntt_avx_total JJ r L)|]. auto.
Qed.
Lemma invntt_safe (JJ : Junk) r : within 16383 r -> safely (poly_invntt_of V JJ r) (within 3328).
Proof.
  unfold within, poly_invntt_of. intros [L B]. destruct V.
  - destruct poly_invntt_tomont_wp as [T W]. eapply safely_wp. eapply wp_conseq; [apply (W r L B)|]. intros r' (L' & B' & _). now split.
  - eapply safely_mono; [apply (invntt_avx_total JJ r L)|]. auto.
Qed.
Lemma basemul_safe (JJ : Junk) r a b : length r = 256%nat -> vbnd (KYBER_K lv) 0 3328 a -> vbnd (KYBER_K lv) 0 3328 b ->
  safely (basemul_of V lv JJ r a b) (within 1664).
Proof.
  unfold within, basemul_of. intros L Ha Hb. destruct V.
  - destruct (polyvec_basemul_acc_montgomery_wp lv) as [T W]. eapply safely_wp.
    eapply wp_conseq; [apply (W JJ r a b L); eapply vbnd_weaken; try eassumption; lia|]. intros r' (L' & B' & _). now split.
  - destruct (polyvec_basemul_acc_montgomery_avx2_wp lv) as [T W]. eapply safely_wp.
    assert (U : forall x, vbnd (KYBER_K lv) 0 3328 x -> wfvec (KYBER_K lv) (map unorder x) /\ vheld (KYBER_K lv) (map unorder x) x).
    { intros x [Lx Hx]. assert (N : forall i, (i < KYBER_K lv)%nat -> nth i (map unorder x) [] = unorder (nth i x [])).
      { intros i Hi. rewrite (nth_indep _ [] (unorder [])) by (rewrite map_length; lia). apply map_nth. }
      split; [split; [now rewrite map_length|]; intros i Hi; rewrite N by exact Hi; apply mk_length|].
      intros i Hi. rewrite N by exact Hi. rewrite order_unorder by (now apply Hx). apply lcong_refl. }
    destruct (U a Ha), (U b Hb).
    eapply wp_conseq; [apply (W JJ r a b (map unorder a) (map unorder b) L); auto; eapply vbnd_weaken; try eassumption; lia|]. intros r' (L' & B' & _). now split.
Qed.
Lemma tomsg_safe m a : byt (KYBER_CIPHERTEXTBYTES lv) m -> within 1664 a -> safely (tomsg_of V m a) (byt (KYBER_CIPHERTEXTBYTES lv)).
Proof.
  intros Hm [L B]. pose proof Hm as [Lm Bm]. unfold tomsg_of.
  assert (32 <= KYBER_CIPHERTEXTBYTES lv)%nat by (destruct lv; cbn; lia). destruct V.
  - destruct (poly_tomsg_wp 0) as [T W]. eapply safely_wp. eapply wp_conseq; [apply (W m a); [lia|exact L|exact B]|]. intros m' ->.
    apply byt_splice; [exact Hm| |apply ByteEncode_bytes]. change (compressed 1 a) with (compressed (Z.of_nat 1) a). rewrite LE. lia.
  - eapply safely_mono; [apply (tomsg_avx2_total m a); [lia|exact Bm|exact L]|]. intros m' [L' B']. split; [congruence|exact B'].
Qed.
Lemma decompressed1_bnd B : bnd 0 3328 (decompressed 1 B).
Proof.
  intros i Hi. rewrite decompressed_length in Hi. rewrite nth_decompressed by (auto; lia).
  assert (H : field 1 B i = 0 \/ field 1 B i = 1).
  { pose proof (field_range 1 B i). cbn in *. lia. }
  destruct H as [->| ->]; vm_compute; split; discriminate.
Qed.
Lemma frommsg_safe r m : length r = 256%nat -> byt (KYBER_CIPHERTEXTBYTES lv) m ->
  safely (frommsg_of V r m) (fun r' => length r' = 256%nat /\ bnd 0 3328 r').
Proof.
  intros L [Lm Bm]. unfold frommsg_of. assert (32 <= KYBER_CIPHERTEXTBYTES lv)%nat by (destruct lv; cbn; lia). destruct V.
  - destruct (poly_frommsg_wp 0) as [T W]. eapply safely_wp. eapply wp_conseq; [apply (W r m L); [lia|exact Bm]|]. intros r' ->.
    split; [apply decompressed_length|apply decompressed1_bnd].
  - destruct (poly_frommsg_avx2_wp 0) as [T W]. eapply safely_wp. eapply wp_conseq; [apply (W r m L); lia|]. intros r' ->.
    split; [apply decompressed_length|apply decompressed1_bnd].
Qed.
Lemma compress_safe (JJ : Junk) c a : byt (KYBER_CIPHERTEXTBYTES lv) c -> length a = 256%nat -> bnd 0 3328 a ->
  safely (compress_of V lv JJ c a) (byt (KYBER_CIPHERTEXTBYTES lv)).
Proof.
  intros Hc L B. pose proof Hc as [Lc Bc]. unfold compress_of.
  assert (HL : (KYBER_POLYCOMPRESSEDBYTES lv <= KYBER_CIPHERTEXTBYTES lv)%nat) by (destruct lv; cbn; lia).
  assert (X : forall r', r' = splice c 0 (ByteEncode (dv (PS lv)) (compressed (Z.of_nat (dv (PS lv))) a)) -> byt (KYBER_CIPHERTEXTBYTES lv) r').
  { intros r' ->. apply byt_splice; [exact Hc| |apply ByteEncode_bytes]. rewrite LE, <- PS_v. exact HL. }
  destruct V.
  - destruct (poly_compress_wp lv 0) as [T W]. eapply safely_wp. eapply wp_conseq; [apply (W JJ c a); [lia|exact L|]|exact X].
    eapply bnd_weaken; [exact B| |]; lia.
  - destruct (poly_compress_avx2_wp lv 0) as [T W]. eapply safely_wp. eapply wp_conseq; [apply (W c a); [lia|exact L|]|exact X].
    eapply bnd_weaken; [exact B| |]; lia.
Qed.
Lemma decompress_safe (JJ : Junk) r c : length r = 256%nat -> byt (KYBER_CIPHERTEXTBYTES lv) c ->
  safely (decompress_of V lv JJ r c) (fun r' => length r' = 256%nat).
Proof.
  intros L [Lc Bc]. unfold decompress_of.
  assert (HL : (KYBER_POLYCOMPRESSEDBYTES lv <= KYBER_CIPHERTEXTBYTES lv)%nat) by (destruct lv; cbn; lia). destruct V.
  - destruct (poly_decompress_wp lv 0) as [T W]. eapply safely_wp. eapply wp_conseq; [apply (W JJ r c L); [lia|exact Bc]|]. intros r' ->. apply decompressed_length.
  - destruct (poly_decompress_avx2_wp lv 0) as [T W]. eapply safely_wp. eapply wp_conseq; [apply (W r c L); lia|]. intros r' ->. apply decompressed_length.
Qed.
Lemma vcompress_safe (JJ : Junk) c a : byt (KYBER_CIPHERTEXTBYTES lv) c -> vbnd (KYBER_K lv) 0 3328 a ->
  safely (vcompress_of V lv JJ c a) (byt (KYBER_CIPHERTEXTBYTES lv)).
Proof.
  intros Hc Ha. pose proof Hc as [Lc Bc]. unfold vcompress_of.
  assert (HL : (KYBER_POLYVECCOMPRESSEDBYTES lv + 2 <= KYBER_CIPHERTEXTBYTES lv)%nat) by (destruct lv; cbn; lia).
  assert (LF : length (flat_map (compressed_bytes (du (PS lv))) a) = KYBER_POLYVECCOMPRESSEDBYTES lv).
  { rewrite (flat_map_len _ _ (32 * du (PS lv))); [|intros; apply compressed_bytes_length]. rewrite PS_u, (proj1 Ha). lia. }
  assert (BF : bytes (flat_map (compressed_bytes (du (PS lv))) a)) by (apply flat_map_bytes_range; intros; apply ByteEncode_bytes).
  destruct V.
  - destruct (polyvec_compress_wp lv 0) as [T W]. eapply safely_wp. eapply wp_conseq; [apply (W JJ c a); [lia|]|].
    + eapply vbnd_weaken; [| |exact Ha]; lia.
    + intros r' ->. apply byt_splice; [exact Hc|lia|exact BF].
  - destruct (polyvec_compress_avx2_wp lv 0) as [T W]. eapply safely_wp.
    assert (LO : (length (overrun lv) <= 2)%nat) by (destruct lv; cbn; lia).
    eapply wp_conseq; [apply (W c a); [lia|]|].
    + eapply vbnd_weaken; [| |exact Ha]; lia.
    + intros r' ->. apply byt_splice; [exact Hc|rewrite app_length; lia|]. apply bnd_app; [exact BF|apply overrun_bytes].
Qed.
Lemma vdecompress_safe (JJ : Junk) x c : length x = KYBER_K lv -> (forall i, (i < KYBER_K lv)%nat -> length (nth i x []) = 256%nat) ->
  byt (KYBER_CIPHERTEXTBYTES lv) c ->
  safely (vdecompress_of V lv JJ x c) (fun x' => length x' = KYBER_K lv /\ forall i, (i < KYBER_K lv)%nat -> length (nth i x' []) = 256%nat).
Proof.
  intros Lx Hx [Lc Bc]. unfold vdecompress_of.
  assert (HL : (KYBER_POLYVECCOMPRESSEDBYTES lv + overread lv <= KYBER_CIPHERTEXTBYTES lv)%nat) by (destruct lv; cbn; lia).
  assert (X : forall x', x' = mk (KYBER_K lv) (fun i => decompressed (du (PS lv)) (sub c (0 + 32 * du (PS lv) * i) (32 * du (PS lv)))) ->
    length x' = KYBER_K lv /\ forall i, (i < KYBER_K lv)%nat -> length (nth i x' []) = 256%nat).
  { intros x' ->. split; [apply mk_length|]. intros i Hi. rewrite nth_mk by exact Hi. apply decompressed_length. }
  destruct V.
  - destruct (polyvec_decompress_wp lv 0) as [T W]. eapply safely_wp. eapply wp_conseq; [apply (W JJ x c Lx Hx); [lia|exact Bc]|exact X].
  - destruct (polyvec_decompress_avx2_wp lv 0) as [T W]. eapply safely_wp. eapply wp_conseq; [apply (W x c Lx Hx); lia|exact X].
Qed.

(** ** The CPA-secure scheme *)
Lemma indcpa_keypair_safe (JJ : Junk) pk sk coins : byt (KYBER_PUBLICKEYBYTES lv) pk -> byt (KYBER_SECRETKEYBYTES lv) sk -> byt 32 coins ->
  safely (indcpa_keypair_of V lv fuel JJ pk sk coins) (fun v => byt (KYBER_PUBLICKEYBYTES lv) (fst v) /\ byt (KYBER_SECRETKEYBYTES lv) (snd v)).
Proof.
  intros Hp Hs [Lc Bc]. pose proof Hp as [Lp Bp]. pose proof Hs as [Ls Bs]. unfold indcpa_keypair_of.
  assert (HL : (KYBER_INDCPA_SECRETKEYBYTES lv <= KYBER_SECRETKEYBYTES lv)%nat) by (destruct lv; cbn; lia).
  assert (HP : KYBER_INDCPA_PUBLICKEYBYTES lv = KYBER_PUBLICKEYBYTES lv) by (destruct lv; reflexivity).
  destruct (enough_all_dec lv fuel (keygen_rho (PS lv) (sub coins 0 32))) as [HE|HE].
  - assert (X : forall v, (let K := K_PKE_KeyGen (PS lv) (matrix lv fuel (keygen_rho (PS lv) (sub coins 0 32)) false) (sub coins 0 32) in
          v = (splice pk 0 (fst K), splice sk 0 (snd K))) -> byt (KYBER_PUBLICKEYBYTES lv) (fst v) /\ byt (KYBER_SECRETKEYBYTES lv) (snd v)).
    { intros v ->. cbn [fst snd]. split.
      - apply byt_splice; [exact Hp|rewrite KeyGen_ek_length by apply matrix_length; lia|apply KeyGen_ek_bytes].
      - apply byt_splice; [exact Hs|rewrite KeyGen_dk_length; exact HL|apply KeyGen_dk_bytes]. }
    destruct V.
    + destruct (indcpa_keypair_derand_wp lv fuel _ 0 0 0 HE) as [T W]. eapply safely_wp. eapply wp_conseq; [apply (W JJ pk sk coins); [lia|lia|lia|exact Bc|reflexivity]|exact X].
    + destruct (indcpa_keypair_derand_avx2_wp lv fuel _ 0 0 0 HE) as [T W]. eapply safely_wp. eapply wp_conseq; [apply (W JJ pk sk coins); [lia|lia|lia|exact Bc|reflexivity]|exact X].
  - apply safely_timeout. destruct V; [apply indcpa_keypair_derand_timeout|apply indcpa_keypair_derand_avx2_timeout]; auto; lia.
Qed.
Lemma indcpa_enc_safe (JJ : Junk) c m pk coins : byt (KYBER_CIPHERTEXTBYTES lv) c -> byt 32 m -> byt (KYBER_PUBLICKEYBYTES lv) pk -> byt 32 coins ->
  safely (indcpa_enc_of V lv fuel JJ c m pk coins) (byt (KYBER_CIPHERTEXTBYTES lv)).
Proof.
  intros Hc [Lm Bm] [Lp Bp] [Lo Bo]. pose proof Hc as [Lc Bc]. unfold indcpa_enc_of.
  assert (HP : KYBER_INDCPA_PUBLICKEYBYTES lv = KYBER_PUBLICKEYBYTES lv) by (destruct lv; reflexivity).
  destruct (enough_all_dec lv fuel (ek_rho (PS lv) (sub pk 0 (KYBER_INDCPA_PUBLICKEYBYTES lv)))) as [HE|HE].
  - assert (X : forall c', c' = splice c 0 (K_PKE_Encrypt (PS lv) (matrix lv fuel (ek_rho (PS lv) (sub pk 0 (KYBER_INDCPA_PUBLICKEYBYTES lv))) false)
          (sub pk 0 (KYBER_INDCPA_PUBLICKEYBYTES lv)) (sub m 0 32) (sub coins 0 32)) -> byt (KYBER_CIPHERTEXTBYTES lv) c').
    { intros c' ->. apply byt_splice; [exact Hc|rewrite Encrypt_length; lia|apply Encrypt_bytes]. }
    destruct V.
    + destruct (indcpa_enc_wp lv fuel _ 0 0 0 0 HE) as [T W]. eapply safely_wp.
      eapply wp_conseq; [apply (W JJ c m pk coins); [lia|lia|exact Bm|lia|exact Bp|lia|exact Bo|reflexivity]|exact X].
    + destruct (indcpa_enc_avx2_wp lv fuel _ 0 0 0 0 HE) as [T W]. eapply safely_wp.
      eapply wp_conseq; [apply (W JJ c m pk coins); [lia|lia|exact Bm|lia|exact Bp|lia|exact Bo|reflexivity]|exact X].
  - apply safely_timeout. destruct V; [apply indcpa_enc_timeout|apply indcpa_enc_avx2_timeout]; auto; lia.
Qed.
Lemma indcpa_dec_safe (JJ : Junk) m c sk : byt 32 m -> byt (KYBER_CIPHERTEXTBYTES lv) c -> byt (KYBER_SECRETKEYBYTES lv) sk ->
  safely (indcpa_dec_of V lv JJ m c sk) (byt 32).
Proof.
  intros Hm [Lc Bc] [Ls Bs]. pose proof Hm as [Lm Bm]. unfold indcpa_dec_of.
  assert (HL : (KYBER_INDCPA_SECRETKEYBYTES lv <= KYBER_SECRETKEYBYTES lv)%nat) by (destruct lv; cbn; lia).
  assert (X : forall m', m' = splice m 0 (K_PKE_Decrypt (PS lv) (sub sk 0 (KYBER_INDCPA_SECRETKEYBYTES lv)) (sub c 0 (KYBER_CIPHERTEXTBYTES lv))) -> byt 32 m').
  { intros m' ->. apply byt_splice; [exact Hm|rewrite Decrypt_length; lia|apply Decrypt_bytes]. }
  destruct V.
  - destruct (indcpa_dec_wp lv 0 0 0) as [T W]. eapply safely_wp. eapply wp_conseq; [apply (W JJ m c sk); [lia|lia|exact Bc|lia|exact Bs]|exact X].
  - destruct (indcpa_dec_avx2_wp lv 0 0 0) as [T W]. eapply safely_wp. eapply wp_conseq; [apply (W JJ m c sk); [lia|lia|exact Bc|lia|exact Bs]|exact X].
Qed.
End Parts.
