(** * indcpa_enc and indcpa_dec of avx2/indcpa.c against K-PKE.Encrypt and K-PKE.Decrypt *)
From Coq Require Import ZArith List Lia Bool.
From Verif Require Import CMonad WP Modq Sums Proof_Base Proof_Bits Levels Model_Params Model_Fips202 Model_Symmetric
  Model_NTT Model_Poly Model_Polyvec Model_Indcpa Spec_FIPS202 Spec_FIPS203 Proof_Keccak Proof_Shake Proof_Hash
  Proof_NTT Proof_NTTSpec Proof_Poly Proof_Polyvec Proof_Compress Proof_Codec Proof_Codec2 Proof_PolyvecCodec Proof_CBD
  Proof_Symmetric Proof_GenMatrix Proof_Indcpa Proof_Keypair Proof_Encrypt
  Model_AvxIntrin Model_AvxAsm Model_AvxCode Model_AvxC Model_AvxPolyvec Model_AvxIndcpa
  Proof_AvxNTT Proof_AvxPack Proof_AvxMisc Proof_AvxCompress Proof_AvxDecompress Proof_AvxPolyvec
  Proof_AvxGenMatrix Proof_AvxNoise Proof_AvxKeypair.
Import ListNotations.
Open Scope Z_scope.

(** ** The products A^T y (indcpa.c:508-509) *)
Lemma matvec2_avx_wp lv M : rows_ok lv M ->
  traced (fun T => forall (JJ : Junk) p0 sk s, shaped (KYBER_K lv) p0 -> vbnd (KYBER_K lv) (-16182) 16182 sk ->
    wfvec (KYBER_K lv) s -> vheld (KYBER_K lv) s sk ->
    wp (for_ (KYBER_K lv) 0 (fun i b =>
          p <- aget b i ;;
          ai <- aget (avx_matrix M) i ;;
          p <- polyvec_basemul_acc_montgomery_avx2 lv p ai sk ;;
          aset b i p) p0) T
       (fun r' => vbnd (KYBER_K lv) (-21400) 21400 r' /\
          vheld (KYBER_K lv) (map (fun row => scale 169 (ntt_dot row s)) M) r')).
Proof.
  intros HM. destruct (polyvec_basemul_acc_montgomery_avx2_wp lv) as [T1 W1].
  eexists. intros JJ p0 sk s [L0 S0] Hsk Ws Cs.
  assert (LM : length M = KYBER_K lv) by apply HM.
  set (P := fun (i : nat) (x y : list Z) => length y = 256%nat /\ babs 21400 y /\
     lcong y (avx_order (scale 169 (ntt_dot (nth i M []) s)))).
  eapply wp_conseq.
  { eapply (wp_pointwise_gen (@nil Z) _ P (KYBER_K lv)); [exact L0|].
    intros i r Hi Lr Er. destruct (avx_row lv M i HM Hi) as (Vb & Wf & Vh).
    assert (LA : length (avx_matrix M) = KYBER_K lv) by (now rewrite avx_matrix_length).
    wstep. eapply (wp_aget []); [lia|]. wstep. eapply (wp_aget []); [unfold polyvec in *; lia|].
    wstep. eapply wp_conseq.
    { apply (W1 JJ _ _ sk (nth i M []) s).
      - rewrite Er. apply S0. lia.
      - eapply vbnd_weaken; [| |exact Vb]; lia.
      - exact Hsk.
      - exact Wf.
      - exact Ws.
      - exact Vh.
      - exact Cs. }
    intros x (Lx & Bx & Cx).
    wstep; [lia|]. exists x. split; [reflexivity|]. split; [exact Lx|]. split; [exact Bx|exact Cx]. }
  intros r' [Lr H]. split.
  - split; [exact Lr|]. intros i Hi. destruct (H i Hi) as (A & B & _). now split.
  - intros i Hi. destruct (H i Hi) as (_ & _ & C).
    rewrite (map_nth_lt (fun row => scale 169 (ntt_dot row s)) M i [] []) by (unfold polyvec in *; lia). exact C.
Qed.

(** ** Decoding and the public key *)
Definition frombytes_avx (lv : level) (B : list Z) (o : nat) : polyvec := map avx_order (frombytes_vec lv B o).

Lemma frombytes_avx_eq lv B o :
  mk (KYBER_K lv) (fun i => avx_order (mk 256 (field 12 (sub B (o + 384 * i) 384)))) = frombytes_avx lv B o.
Proof. unfold frombytes_avx, frombytes_vec, mk. now rewrite map_map. Qed.

Lemma frombytes_avx_length lv B o : length (frombytes_avx lv B o) = KYBER_K lv.
Proof. unfold frombytes_avx. rewrite map_length. apply mk_length. Qed.

Lemma frombytes_avx_nth lv B o i : (i < KYBER_K lv)%nat ->
  nth i (frombytes_avx lv B o) [] = avx_order (nth i (frombytes_vec lv B o) []).
Proof. intros Hi. unfold frombytes_avx. apply map_nth_lt. unfold frombytes_vec. now rewrite mk_length. Qed.

Lemma frombytes_avx_vbnd lv B o : vbnd (KYBER_K lv) 0 4095 (frombytes_avx lv B o).
Proof.
  destruct (frombytes_vec_vbnd lv B o) as [_ H]. split; [apply frombytes_avx_length|]. intros i Hi.
  destruct (H i Hi) as [L Bd]. rewrite frombytes_avx_nth by auto. split; [apply avx_order_length|now apply avx_order_bnd].
Qed.

Lemma frombytes_avx_held lv B o t : vcong (frombytes_vec lv B o) t -> vheld (KYBER_K lv) t (frombytes_avx lv B o).
Proof.
  intros [L C] i Hi. rewrite frombytes_avx_nth by auto. apply avx_order_cong, C.
  unfold frombytes_vec. now rewrite mk_length.
Qed.

Lemma decode_vec_wf lv d B : wfvec (KYBER_K lv) (decode_vec (PS lv) d B).
Proof.
  split; [now rewrite decode_vec_length, PS_k|]. intros i Hi. rewrite decode_vec_nth by (now rewrite PS_k).
  apply ByteDecode_length.
Qed.

Lemma invntt_dot_avx y d : lcong y (scale 65536 (NTTinv (scale 169 d))) -> lcong y (NTTinv d).
Proof. intros H1. eapply invntt_dot; [exact H1|apply lcong_refl]. Qed.

(** ** indcpa_enc after the matrix has been expanded *)
Definition enc_rest_avx2 `{Junk} (lv : level) (c : list Z) (cto : nat) (coins : list Z) (co : nat)
  (pkpv : polyvec) (k : list Z) (at_ : list polyvec) : res (list Z) :=
  '(sp, ep, epp, b) <- enc_noise lv (local_polyvec lv) (local_polyvec lv) local_poly (local_polyvec lv) coins co ;;
  sp <- polyvec_ntt_avx2 lv sp ;;
  b <- for_ (KYBER_K lv) 0 (fun i b =>
    p <- aget b i ;;
    ai <- aget at_ i ;;
    p <- polyvec_basemul_acc_montgomery_avx2 lv p ai sp ;;
    aset b i p) b ;;
  v <- polyvec_basemul_acc_montgomery_avx2 lv local_poly pkpv sp ;;
  b <- polyvec_invntt_tomont_avx2 lv b ;;
  v <- invntt_avx v ;;
  b <- polyvec_add_to_avx2 lv b ep ;;
  v <- poly_add_to_avx2 v epp ;;
  v <- poly_add_to_avx2 v k ;;
  b <- polyvec_reduce_avx2 lv b ;;
  v <- reduce_avx v ;;
  pack_ciphertext_avx2 lv c cto b v.

Lemma enc_split_avx2 `{JJ : Junk} lv fuel c cto m mo pk po coins co :
  indcpa_enc_avx2 lv fuel c cto m mo pk po coins co =
  bind (unpack_pk_avx2 lv (local_polyvec lv) (local KYBER_SYMBYTES) pk po) (fun '(pkpv, seed) =>
  bind (poly_frommsg_avx2 local_poly m mo) (fun k =>
  bind (gen_matrix_avx2 lv fuel (local_matrix lv) seed 0 true) (fun at_ => enc_rest_avx2 lv c cto coins co pkpv k at_))).
Proof. reflexivity. Qed.

Lemma overrun_small lv : (length (overrun lv) <= KYBER_POLYCOMPRESSEDBYTES lv)%nat.
Proof. destruct lv; cbv; lia. Qed.
Lemma overread_small lv : (overread lv <= KYBER_POLYCOMPRESSEDBYTES lv)%nat.
Proof. destruct lv; cbv; lia. Qed.

Lemma pack_ciphertext_avx2_wp lv cto :
  traced (fun T => forall c b v u w, (cto + KYBER_CIPHERTEXTBYTES lv <= length c)%nat ->
    vbnd (KYBER_K lv) 0 3329 b -> length v = 256%nat -> bnd 0 3329 v ->
    length u = KYBER_K lv -> (forall i, (i < KYBER_K lv)%nat -> lcong (nth i b []) (nth i u []) /\ canon (nth i u [])) ->
    lcong v w -> canon w ->
    wp (pack_ciphertext_avx2 lv c cto b v) T
       (fun c' => c' = splice c cto (flat_map (fun f => ByteEncode (du (PS lv)) (map (Compress (Z.of_nat (du (PS lv)))) f)) u
               ++ ByteEncode (dv (PS lv)) (map (Compress (Z.of_nat (dv (PS lv)))) w)))).
Proof.
  destruct (polyvec_compress_avx2_wp lv cto) as [T13 W13].
  destruct (poly_compress_avx2_wp lv (cto + KYBER_POLYVECCOMPRESSEDBYTES lv)) as [T14 W14].
  pose proof (overrun_small lv) as HO.
  eexists. intros c b v u w Hc Vb Lv Bv Lu Cu Cw Nw. unfold pack_ciphertext_avx2.
  unfold KYBER_CIPHERTEXTBYTES, KYBER_INDCPA_BYTES in Hc.
  wstep. eapply wp_conseq; [apply (W13 c b); [lia|exact Vb]|].
  intros c1 Ec1.
  assert (Eu : flat_map (compressed_bytes (du (PS lv))) b =
               flat_map (fun f => ByteEncode (du (PS lv)) (map (Compress (Z.of_nat (du (PS lv)))) f)) u).
  { apply (flat_map_nth [] []); [destruct Vb as [L _]; congruence|]. intros i Hi.
    assert (Hi' : (i < KYBER_K lv)%nat) by (destruct Vb as [L _]; unfold polyvec in *; lia).
    unfold compressed_bytes. f_equal. destruct (Cu i Hi') as [A B]. now apply compressed_cong. }
  assert (Lb : length (flat_map (compressed_bytes (du (PS lv))) b) = KYBER_POLYVECCOMPRESSEDBYTES lv).
  { rewrite PS_u. destruct Vb as [<- _]. clear. induction b as [|x b IH]; [cbn; lia|].
    cbn [flat_map length]. rewrite app_length, IH, compressed_bytes_length. lia. }
  rewrite Eu in Ec1, Lb.
  set (E := flat_map _ u) in *.
  assert (L1 : length c1 = length c) by (rewrite Ec1, splice_length; [reflexivity|rewrite app_length; lia]).
  eapply wp_conseq.
  { apply (W14 c1 v); [lia|exact Lv|exact Bv]. }
  intros c2 ->. rewrite Ec1, <- Lb.
  rewrite (compressed_cong _ v w Cw Nw).
  assert (LF : length (ByteEncode (dv (PS lv)) (map (Compress (Z.of_nat (dv (PS lv)))) w)) = KYBER_POLYCOMPRESSEDBYTES lv).
  { rewrite ByteEncode_length, map_length. destruct Nw as [-> _]. destruct lv; reflexivity. }
  apply splice_overlap; lia.
Qed.

Lemma enc_rest_avx2_wp lv M cto co : rows_ok lv M ->
  traced (fun T => forall (JJ : Junk) c coins pkpv t kp mu,
    (cto + KYBER_CIPHERTEXTBYTES lv <= length c)%nat -> (co + 32 <= length coins)%nat -> bytes coins ->
    vbnd (KYBER_K lv) 0 4095 pkpv -> wfvec (KYBER_K lv) t -> vheld (KYBER_K lv) t pkpv ->
    length kp = 256%nat -> bnd 0 3329 kp -> lcong kp mu ->
    wp (enc_rest_avx2 lv c cto coins co pkpv kp (avx_matrix M)) T
       (fun c' => let r := sub coins co 32 in
          let P := PS lv in
          let y := map NTT (noise (eta1 P) r 0 (k P)) in
          let e1 := noise (eta2 P) r (k P) (k P) in
          let e2 := nth 0 (noise (eta2 P) r (2 * k P) 1) [] in
          let u := zipadd (map (fun row => NTTinv (ntt_dot row y)) M) e1 in
          let v := padd (padd (NTTinv (ntt_dot t y)) e2) mu in
          c' = splice c cto (flat_map (fun f => ByteEncode (du P) (map (Compress (Z.of_nat (du P))) f)) u
               ++ ByteEncode (dv P) (map (Compress (Z.of_nat (dv P))) v)))).
Proof.
  intros HM. pose proof (K_range lv) as HK.
  destruct (enc_noise_wp lv co) as [T1 W1].
  destruct (polyvec_ntt_avx2_wp lv) as [T4 W4].
  destruct (matvec2_avx_wp lv M HM) as [T5 W5].
  destruct (polyvec_basemul_acc_montgomery_avx2_wp lv) as [T6 W6].
  destruct (polyvec_invntt_tomont_avx2_wp lv) as [T7 W7].
  destruct invntt_avx_wp as [T8 W8].
  destruct (polyvec_add_to_avx2_wp lv) as [T9 W9].
  destruct poly_add_to_avx2_wp as [T10 W10].
  destruct (polyvec_reduce_avx2_wp lv) as [T11 W11].
  destruct reduce_avx_wp as [T12 W12].
  destruct (pack_ciphertext_avx2_wp lv cto) as [T13 W13].
  eexists. intros JJ c coins pkpv t kp mu Hc Hco Bc Vp Wt Ht Lk Bk Ck. unfold enc_rest_avx2.
  pose proof (eta1_le lv) as He. set (r := sub coins co 32).
  wstep. eapply wp_conseq.
  { apply (W1 JJ _ _ local_poly _ coins r (local_polyvec_shaped lv) (local_polyvec_shaped lv) (local_length _) (local_polyvec_shaped lv)).
    exact (conj Hco (conj Bc eq_refl)). }
  intros [[[sp0 ep] epp] b0] (Esp & Eep & Eepp & Sb). cbv beta iota.
  assert (Lepp : length epp = 256%nat) by (rewrite Eepp; apply mk_length).
  assert (Bepp : bnd (-3) 3 epp) by (rewrite Eepp; apply cbd_bnd; lia).
  rewrite Esp.
  wstep. eapply wp_conseq.
  { apply (W4 JJ). eapply vbnd_weaken; [| |apply noisez_vbnd; exact He]; lia. }
  intros sp [Bsp Csp]. pose proof (ntt_noise_avx _ _ _ _ _ He Csp) as Hy.
  set (y := map NTT (noise (eta1 (PS lv)) r 0 (KYBER_K lv))) in *.
  assert (Wy : wfvec (KYBER_K lv) y).
  { split; [unfold y; now rewrite map_length, noise_length|]. intros i Hi. unfold y.
    rewrite (map_nth_lt NTT _ i [] []) by (now rewrite noise_length). apply NTT_canon. }
  wstep. eapply wp_conseq; [apply (W5 JJ _ sp y Sb Bsp Wy Hy)|].
  intros b [Bb Cb].
  wstep. eapply wp_conseq.
  { apply (W6 JJ local_poly pkpv sp t y (local_length _)); auto. eapply vbnd_weaken; [| |exact Vp]; lia. }
  intros v (Lv & Bv & Cv).
  wstep. eapply wp_conseq.
  { apply (W7 JJ b (map (fun row => scale 169 (ntt_dot row y)) M)); [|split|exact Cb].
    - eapply vbnd_weaken; [| |exact Bb]; lia.
    - rewrite map_length. apply HM.
    - intros i Hi. rewrite (map_nth_lt (fun row => scale 169 (ntt_dot row y)) M i [] [])
        by (destruct HM as [LM _]; unfold polyvec in *; lia). apply scale_length. }
  intros b1 [Bb1 Cb1].
  wstep. eapply wp_conseq.
  { apply (W8 JJ v (scale 169 (ntt_dot t y)) Lv); [|apply scale_length|exact Cv]. eapply bnd_weaken; [exact Bv|lia|lia]. }
  intros v1 (Lv1 & Bv1 & Cv1).
  pose proof (invntt_dot_avx _ _ Cv1) as Cv2.
  wstep. eapply wp_conseq.
  { eapply (W9 b1 ep 14929 3); [exact Bb1| |lia]. rewrite Eep. apply (noisez_vbnd 2 r). lia. }
  intros b2 [Bb2 Eb2].
  wstep. eapply wp_conseq.
  { apply (W10 v1 epp Lv1 Lepp). intros i Hi.
    pose proof (Proof_Encrypt.bnd_at _ _ _ i Bv1 ltac:(lia)). pose proof (Proof_Encrypt.bnd_at _ _ _ i Bepp ltac:(lia)). lia. }
  intros v2 Ev2. change (v2 = zadd v1 epp) in Ev2.
  assert (Bv2 : bnd (-14932) 14932 v2) by (subst v2; apply (zadd_bnd (-14929) 14929 (-3) 3); auto).
  assert (Lv2 : length v2 = 256%nat) by (subst v2; apply zadd_length).
  wstep. eapply wp_conseq.
  { apply (W10 v2 kp Lv2 Lk). intros i Hi.
    pose proof (Proof_Encrypt.bnd_at _ _ _ i Bv2 ltac:(lia)). pose proof (Proof_Encrypt.bnd_at _ _ _ i Bk ltac:(lia)). lia. }
  intros v3 Ev3. change (v3 = zadd v2 kp) in Ev3.
  assert (Bv3 : bnd (-14932) 18261 v3) by (subst v3; apply (zadd_bnd (-14932) 14932 0 3329); auto).
  assert (Lv3 : length v3 = 256%nat) by (subst v3; apply zadd_length).
  wstep. eapply wp_conseq.
  { apply (W11 JJ). eapply vbnd_weaken; [| |exact Bb2]; lia. }
  intros b3 [Bb3 Cb3].
  wstep. eapply wp_conseq.
  { apply (W12 JJ v3 Lv3). eapply bnd_weaken; [exact Bv3|lia|lia]. }
  intros v4 (Lv4 & Bv4 & Cv4).
  cbv zeta. rewrite !PS_eta2, !PS_k. fold r. fold y.
  set (e1 := noise 2 r (KYBER_K lv) (KYBER_K lv)). set (e2 := nth 0 (noise 2 r (2 * KYBER_K lv) 1) []).
  set (u := zipadd (map (fun row => NTTinv (ntt_dot row y)) M) e1).
  assert (LM : length M = KYBER_K lv) by apply HM.
  assert (Le1 : length e1 = KYBER_K lv) by (unfold e1; apply noise_length).
  assert (Lu : length u = KYBER_K lv).
  { unfold u. unfold polyvec in *. rewrite zipadd_length; rewrite map_length; lia. }
  apply (W13 c b3 v4 u _ Hc Bb3 Lv4 Bv4 Lu).
  - intros i Hi. unfold u. unfold polyvec in *.
    rewrite zipadd_nth by (rewrite map_length; lia).
    rewrite (map_nth_lt (fun row => NTTinv (ntt_dot row y)) M i [] []) by lia.
    split; [|apply padd_canon].
    eapply lcong_trans; [apply Cb3; exact Hi|]. rewrite (Eb2 i Hi). apply padd_cong.
    + apply invntt_dot_avx. pose proof (Cb1 i Hi) as C. cbv beta in C.
      rewrite (map_nth_lt (fun row => scale 169 (ntt_dot row y)) M i [] []) in C by (unfold polyvec in *; lia). exact C.
    + rewrite Eep. apply noisez_lcong. exact Hi.
  - eapply lcong_trans; [exact Cv4|]. rewrite Ev3. apply padd_cong; [|exact Ck]. rewrite Ev2.
    apply padd_cong; [exact Cv2|]. unfold e2. rewrite Eepp, noise_nth by lia.
    replace (2 * KYBER_K lv + 0)%nat with (KYBER_K lv + KYBER_K lv)%nat by lia. apply SamplePolyCBD_cbdz.
  - apply padd_canon.
Qed.

Lemma unpack_pk_avx2_wp lv po :
  traced (fun T => forall (JJ : Junk) pk, (po + KYBER_INDCPA_PUBLICKEYBYTES lv <= length pk)%nat -> bytes pk ->
    wp (unpack_pk_avx2 lv (local_polyvec lv) (local KYBER_SYMBYTES) pk po) T
       (fun st => st = (frombytes_avx lv pk po, sub pk (po + KYBER_POLYVECBYTES lv) 32))).
Proof.
  destruct (polyvec_frombytes_avx2_wp lv po) as [T1 W1].
  destruct (memcpy_wp 0 (po + KYBER_POLYVECBYTES lv) 32) as [T2 W2].
  eexists. intros JJ pk Hpk Bpk. unfold unpack_pk_avx2, KYBER_INDCPA_PUBLICKEYBYTES in *.
  change KYBER_SYMBYTES with 32%nat in *. destruct (local_polyvec_shaped lv) as [L S].
  wstep. eapply wp_conseq; [apply (W1 JJ _ pk L S); [lia|exact Bpk]|]. intros p ->. rewrite frombytes_avx_eq.
  wstep. eapply wp_conseq; [apply W2; rewrite ?local_length; lia|]. intros s ->. wstep.
  f_equal. rewrite splice_full; [reflexivity|].
  rewrite local_length. apply (sub_length pk (po + KYBER_POLYVECBYTES lv) 32). lia.
Qed.

Lemma indcpa_enc_avx2_wp lv fuel rho cto mo po co : enough_all lv fuel rho ->
  traced (fun T => forall (JJ : Junk) c m pk coins,
    (cto + KYBER_CIPHERTEXTBYTES lv <= length c)%nat ->
    (mo + 32 <= length m)%nat -> bytes m ->
    (po + KYBER_INDCPA_PUBLICKEYBYTES lv <= length pk)%nat -> bytes pk ->
    (co + 32 <= length coins)%nat -> bytes coins ->
    ek_rho (PS lv) (sub pk po (KYBER_INDCPA_PUBLICKEYBYTES lv)) = rho ->
    wp (indcpa_enc_avx2 lv fuel c cto m mo pk po coins co) T
       (fun c' => c' = splice c cto (K_PKE_Encrypt (PS lv) (matrix lv fuel rho false)
          (sub pk po (KYBER_INDCPA_PUBLICKEYBYTES lv)) (sub m mo 32) (sub coins co 32)))).
Proof.
  intros HE.
  destruct (unpack_pk_avx2_wp lv po) as [T1 W1].
  destruct (poly_frommsg_avx2_wp mo) as [T2 W2].
  destruct (gen_matrix_avx2_wp lv fuel 0 rho true HE) as [T3 W3].
  destruct (enc_rest_avx2_wp lv _ cto co (matrix_rows lv fuel rho true HE)) as [T4 W4].
  exists (T1 ++ (T2 ++ (T3 ++ T4))). intros JJ c m pk coins Hc Hm Bm Hpk Bpk Hco Bco Er.
  rewrite ek_rho_sub in Er by exact Hpk. rewrite enc_split_avx2.
  apply wp_bind. eapply wp_conseq; [apply (W1 JJ pk Hpk Bpk)|]. intros st ->. cbv beta iota.
  apply wp_bind. eapply wp_conseq; [apply (W2 local_poly m (local_length _) Hm)|]. intros kp ->.
  apply wp_bind. eapply wp_conseq; [apply (W3 JJ _ _ (local_matrix_wf lv))|].
  { unfold KYBER_INDCPA_PUBLICKEYBYTES in *. change KYBER_SYMBYTES with 32%nat in *.
    assert (L : length (sub pk (po + KYBER_POLYVECBYTES lv) 32) = 32%nat) by (apply sub_length; lia).
    refine (conj _ (conj _ _)); [lia|now apply bnd_sub|]. rewrite sub_self by exact L. exact Er. }
  intros a ->. eapply wp_conseq.
  { apply (W4 JJ c coins (frombytes_avx lv pk po)
      (decode_vec (PS lv) 12 (firstn (384 * k (PS lv)) (sub pk po (KYBER_INDCPA_PUBLICKEYBYTES lv))))
      (decompressed 1 (sub m mo 32)) (decompressed 1 (sub m mo 32)) Hc Hco Bco).
    - apply frombytes_avx_vbnd.
    - apply decode_vec_wf.
    - apply frombytes_avx_held, frombytes_vec_cong. unfold KYBER_INDCPA_PUBLICKEYBYTES, KYBER_POLYVECBYTES, KYBER_POLYBYTES. lia.
    - apply decompressed_length.
    - apply decompressed_bnd. lia.
    - apply lcong_refl. }
  intros c' ->. cbv zeta. unfold K_PKE_Encrypt. rewrite <- matrix_transpose. reflexivity.
Qed.

Lemma indcpa_enc_avx2_timeout lv fuel cto mo po co :
  forall (JJ : Junk) c m pk coins, (mo + 32 <= length m)%nat ->
    (po + KYBER_INDCPA_PUBLICKEYBYTES lv <= length pk)%nat -> bytes pk ->
    ~ enough_all lv fuel (ek_rho (PS lv) (sub pk po (KYBER_INDCPA_PUBLICKEYBYTES lv))) ->
    indcpa_enc_avx2 lv fuel c cto m mo pk po coins co = Timeout.
Proof.
  intros JJ c m pk coins Hm Hpk Bpk HN. rewrite ek_rho_sub in HN by exact Hpk. rewrite enc_split_avx2.
  destruct (unpack_pk_avx2_wp lv po) as [T1 W1].
  destruct (poly_frommsg_avx2_wp mo) as [T2 W2].
  eapply bind_timeout; [apply (W1 JJ pk Hpk Bpk)|]. intros st ->. cbv beta iota.
  eapply bind_timeout; [apply (W2 local_poly m (local_length _) Hm)|]. intros kp ->.
  apply bind_timeout_l. eapply gen_matrix_avx2_timeout; [exact HN|apply local_matrix_wf|].
  unfold KYBER_INDCPA_PUBLICKEYBYTES in *. change KYBER_SYMBYTES with 32%nat in *.
  assert (L : length (sub pk (po + KYBER_POLYVECBYTES lv) 32) = 32%nat) by (apply sub_length; lia).
  refine (conj _ (conj _ _)); [lia|now apply bnd_sub|]. now rewrite sub_self by exact L.
Qed.

(** ** indcpa_dec *)
Lemma indcpa_dec_avx2_wp lv mo co sko :
  traced (fun T => forall (JJ : Junk) m c sk,
    (mo + 32 <= length m)%nat ->
    (co + KYBER_CIPHERTEXTBYTES lv <= length c)%nat -> bytes c ->
    (sko + KYBER_INDCPA_SECRETKEYBYTES lv <= length sk)%nat -> bytes sk ->
    wp (indcpa_dec_avx2 lv m mo c co sk sko) T
       (fun m' => m' = splice m mo (K_PKE_Decrypt (PS lv) (sub sk sko (KYBER_INDCPA_SECRETKEYBYTES lv))
                                    (sub c co (KYBER_CIPHERTEXTBYTES lv))))).
Proof.
  pose proof (K_range lv) as HK.
  destruct (polyvec_decompress_avx2_wp lv co) as [T1 W1].
  destruct (poly_decompress_avx2_wp lv (co + KYBER_POLYVECCOMPRESSEDBYTES lv)) as [T2 W2].
  destruct (polyvec_frombytes_avx2_wp lv sko) as [T3 W3].
  destruct (polyvec_ntt_avx2_wp lv) as [T4 W4].
  destruct (polyvec_basemul_acc_montgomery_avx2_wp lv) as [T5 W5].
  destruct invntt_avx_wp as [T6 W6].
  destruct poly_sub_from_avx2_wp as [T7 W7].
  destruct reduce_avx_wp as [T8 W8].
  destruct (poly_tomsg_avx2_wp mo) as [T9 W9].
  pose proof (overread_small lv) as HO.
  eexists. intros JJ m c sk Hm Hc Bc Hsk Bsk. unfold indcpa_dec_avx2. cbv zeta.
  unfold KYBER_CIPHERTEXTBYTES, KYBER_INDCPA_BYTES, KYBER_INDCPA_SECRETKEYBYTES in *.
  destruct (local_polyvec_shaped lv) as [L S].
  assert (Hdu : (0 < du (PS lv) < 12)%nat) by (destruct lv; cbn; lia).
  assert (Hdv : (0 < dv (PS lv) < 12)%nat) by (destruct lv; cbn; lia).
  wstep. unfold unpack_ciphertext_avx2. wstep. eapply wp_conseq; [apply (W1 _ c L S); lia|].
  intros b Eb. wstep. eapply wp_conseq; [apply (W2 local_poly c (local_length _)); lia|].
  intros v Ev. wstep.
  wstep. unfold unpack_sk_avx2. eapply wp_conseq; [apply (W3 JJ _ sk L S Hsk Bsk)|].
  intros s Es. rewrite frombytes_avx_eq in Es. rewrite Es. clear Es s.
  set (u := map (map (Decompress (Z.of_nat (du (PS lv)))))
      (decode_vec (PS lv) (du (PS lv)) (firstn (32 * du (PS lv) * k (PS lv))
         (sub c co (KYBER_POLYVECCOMPRESSEDBYTES lv + KYBER_POLYCOMPRESSEDBYTES lv))))).
  assert (Eu : b = u).
  { rewrite Eb. unfold u. apply (list_eq_nth []).
    - now rewrite mk_length, map_length, decode_vec_length, PS_k.
    - rewrite mk_length. intros i Hi. rewrite nth_mk by auto.
      rewrite (map_nth_lt _ _ i [] []) by (now rewrite decode_vec_length, PS_k).
      rewrite decode_vec_nth by (now rewrite PS_k). unfold decompressed. do 2 f_equal.
      rewrite firstn_sub, PS_k, PS_u. rewrite !sub_sub by nia. f_equal; lia. }
  assert (Vb : vbnd (KYBER_K lv) 0 3329 b).
  { rewrite Eb. split; [apply mk_length|]. intros i Hi. rewrite nth_mk by auto. split; [apply decompressed_length|].
    now apply decompressed_bnd. }
  clear Eb.
  wstep. eapply wp_conseq; [apply (W4 JJ b); eapply vbnd_weaken; [| |exact Vb]; lia|].
  intros b1 [Bb1 Cb1].
  assert (Lu : length u = KYBER_K lv) by (rewrite <- Eu; apply Vb).
  assert (Cy : vheld (KYBER_K lv) (map NTT u) b1).
  { rewrite <- Eu. intros i Hi. destruct Vb as [L2 _].
    rewrite (map_nth_lt NTT b i [] []) by (unfold polyvec in *; lia). apply Cb1. exact Hi. }
  assert (Wy : wfvec (KYBER_K lv) (map NTT u)).
  { split; [now rewrite map_length|]. intros i Hi. rewrite (map_nth_lt NTT u i [] []) by lia. apply NTT_canon. }
  set (t := decode_vec (PS lv) 12 (sub sk sko (KYBER_POLYVECBYTES lv))).
  assert (Ct : vcong (frombytes_vec lv sk sko) t).
  { assert (EK : (KYBER_POLYVECBYTES lv = 384 * k (PS lv))%nat)
      by (rewrite PS_k; unfold KYBER_POLYVECBYTES, KYBER_POLYBYTES; lia).
    pose proof (frombytes_vec_cong lv sk sko (KYBER_POLYVECBYTES lv) ltac:(rewrite EK, PS_k; lia)) as C.
    rewrite firstn_all2 in C by (rewrite sub_length; lia). exact C. }
  wstep. eapply wp_conseq.
  { apply (W5 JJ local_poly (frombytes_avx lv sk sko) b1 t (map NTT u) (local_length _)).
    - eapply vbnd_weaken; [| |apply frombytes_avx_vbnd]; lia.
    - exact Bb1.
    - apply decode_vec_wf.
    - exact Wy.
    - apply frombytes_avx_held. exact Ct.
    - exact Cy. }
  intros mp (Lmp & Bmp & Cmp).
  wstep. eapply wp_conseq.
  { apply (W6 JJ mp (scale 169 (ntt_dot t (map NTT u))) Lmp); [eapply bnd_weaken; [exact Bmp|lia|lia]|apply scale_length|exact Cmp]. }
  intros mp1 (Lmp1 & Bmp1 & Cmp1). pose proof (invntt_dot_avx _ _ Cmp1) as Cmp2.
  assert (Lv : length v = 256%nat) by (rewrite Ev; apply decompressed_length).
  assert (Bv : bnd 0 3329 v) by (rewrite Ev; now apply decompressed_bnd).
  wstep. eapply wp_conseq.
  { apply (W7 mp1 v Lmp1 Lv). intros i Hi.
    pose proof (Proof_Encrypt.bnd_at _ _ _ i Bmp1 ltac:(lia)). pose proof (Proof_Encrypt.bnd_at _ _ _ i Bv ltac:(lia)). lia. }
  intros w1 Ew. change (w1 = zsub v mp1) in Ew.
  assert (Lw : length w1 = 256%nat) by (rewrite Ew; apply mk_length).
  wstep. eapply wp_conseq.
  { apply (W8 JJ w1 Lw). intros i Hi. rewrite Ew. unfold zsub. rewrite nth_mk by lia.
    pose proof (Proof_Encrypt.bnd_at _ _ _ i Bmp1 ltac:(lia)). pose proof (Proof_Encrypt.bnd_at _ _ _ i Bv ltac:(lia)). lia. }
  intros w2 (Lw2 & Bw2 & Cw2).
  eapply wp_conseq; [apply (W9 m w2 Hm Lw2 Bw2)|].
  intros m' ->. f_equal. unfold K_PKE_Decrypt. cbv zeta. fold u. fold t. f_equal.
  apply compressed_cong.
  - eapply lcong_trans; [exact Cw2|]. rewrite Ew. apply psub_cong; [|exact Cmp2].
    rewrite Ev. unfold decompressed. rewrite (skipn_sub _ _ (KYBER_POLYCOMPRESSEDBYTES lv)).
    + rewrite PS_k, <- PS_u, sub_sub by lia. apply lcong_refl.
    + rewrite sub_length by lia. rewrite PS_k, <- PS_u. reflexivity.
  - apply mkpoly_canon. intros. apply Z.mod_pos_bound. reflexivity.
Qed.
