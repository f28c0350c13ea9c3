(** * indcpa_enc and indcpa_dec (indcpa.c:243-332) against K-PKE.Encrypt and K-PKE.Decrypt *)
From Coq Require Import ZArith List Lia Bool.
From Verif Require Import CMonad WP Modq Sums Proof_Base Proof_Bits Levels Model_Params Model_Fips202 Model_Symmetric
  Model_NTT Model_Poly Model_Polyvec Model_Indcpa Spec_FIPS202 Spec_FIPS203 Proof_Keccak Proof_Shake Proof_Hash
  Proof_NTT Proof_NTTSpec Proof_Poly Proof_Polyvec Proof_Compress Proof_Codec Proof_Codec2 Proof_PolyvecCodec Proof_CBD
  Proof_Symmetric Proof_GenMatrix Proof_Indcpa Proof_Keypair.
Import ListNotations.
Open Scope Z_scope.

Lemma PS_eta2 lv : eta2 (PS lv) = 2%nat. Proof. destruct lv; reflexivity. Qed.
Lemma PS_u lv : KYBER_POLYVECCOMPRESSEDBYTES lv = (32 * du (PS lv) * KYBER_K lv)%nat.
Proof. destruct lv; reflexivity. Qed.
Lemma PS_v lv : KYBER_POLYCOMPRESSEDBYTES lv = (32 * dv (PS lv))%nat.
Proof. destruct lv; reflexivity. Qed.

(** ** Decoding *)
Lemma mk_seq {A} n (f : nat -> A) : mk n f = map f (seq 0 n).
Proof. reflexivity. Qed.

Lemma decode_field B : lcong (mk 256 (field 12 B)) (ByteDecode 12 B).
Proof.
  split; [now rewrite mk_length, ByteDecode_length|]. intros i Hi. rewrite mk_length in Hi.
  rewrite nth_mk by auto. rewrite ByteDecode_field by auto. cbn [Nat.eqb]. change q with 3329. now rewrite cong_mod.
Qed.

Lemma decode_vec_length P d B : length (decode_vec P d B) = k P.
Proof. unfold decode_vec. now rewrite map_length, seq_length. Qed.
Lemma decode_vec_nth P d B i : (i < k P)%nat -> nth i (decode_vec P d B) [] = ByteDecode d (sub B (32 * d * i) (32 * d)).
Proof. intros Hi. unfold decode_vec. rewrite <- mk_seq. now rewrite nth_mk. Qed.

Definition frombytes_vec (lv : level) (B : list Z) (o : nat) : polyvec :=
  mk (KYBER_K lv) (fun i => mk 256 (field 12 (sub B (o + 384 * i) 384))).

Lemma frombytes_vec_vbnd lv B o : vbnd (KYBER_K lv) 0 4095 (frombytes_vec lv B o).
Proof.
  split; [apply mk_length|]. intros i Hi. unfold frombytes_vec. rewrite nth_mk by auto. split; [apply mk_length|].
  apply bnd_mk. intros j _. pose proof (field_range 12 (sub B (o + 384 * i) 384) j) as R.
  change (2 ^ Z.of_nat 12) with 4096 in R. lia.
Qed.

Lemma frombytes_vec_cong lv B o n : (384 * KYBER_K lv <= n)%nat ->
  vcong (frombytes_vec lv B o) (decode_vec (PS lv) 12 (firstn (384 * k (PS lv)) (sub B o n))).
Proof.
  intros Hn. split; [now rewrite decode_vec_length, PS_k; unfold frombytes_vec; rewrite mk_length|].
  intros i Hi. unfold frombytes_vec in *. rewrite mk_length in Hi. rewrite nth_mk by auto.
  rewrite decode_vec_nth by (now rewrite PS_k). change (32 * 12)%nat with 384%nat.
  rewrite firstn_sub, PS_k. rewrite sub_sub by lia. rewrite sub_sub by nia. rewrite ?Nat.add_0_r, ?Nat.add_0_l. apply decode_field.
Qed.

Lemma decompressed_bnd d B : (0 < d < 12)%nat -> bnd 0 3329 (decompressed d B).
Proof.
  intros Hd i Hi. rewrite decompressed_length in Hi. rewrite nth_decompressed by (auto; lia).
  pose proof (field_range d B i). rewrite Decompress_floor by lia. apply decomp_bound; lia.
Qed.

(** ** Products followed by the inverse transform *)
Lemma invntt_dot y x d : lcong y (scale 65536 (NTTinv x)) -> lcong x (scale 169 d) -> lcong y (NTTinv d).
Proof.
  intros H1 H2. eapply lcong_trans; [exact H1|]. rewrite (NTTinv_cong _ _ H2).
  eapply lcong_trans; [apply scale_cong; apply NTTinv_scale|]. apply scale_mont, NTTinv_length.
Qed.

Lemma vcong_refl v : vcong v v.
Proof. split; [reflexivity|]. intros; apply lcong_refl. Qed.

Lemma matvec2_wp lv A : length A = KYBER_K lv -> (forall i, (i < KYBER_K lv)%nat -> vbnd (KYBER_K lv) 0 3328 (nth i A [])) ->
  traced (fun T => forall (JJ : Junk) p0 sk s, shaped (KYBER_K lv) p0 -> vbnd (KYBER_K lv) (-1664) 1664 sk -> vcong sk s ->
    wp (for_ (KYBER_K lv) 0 (fun i b =>
          p <- aget b i ;;
          ai <- aget A i ;;
          p <- polyvec_basemul_acc_montgomery lv p ai sk ;;
          aset b i p) p0) T
       (fun r' => vbnd (KYBER_K lv) (-1664) 1664 r' /\
          vrel (KYBER_K lv) (fun i x => lcong x (scale 169 (ntt_dot (nth i A []) s))) r')).
Proof.
  intros LA VA. destruct (polyvec_basemul_acc_montgomery_wp lv) as [T1 W1].
  eexists. intros JJ p0 sk s [L0 S0] Hsk Cs.
  eapply (wp_for _ (fun i r => length r = KYBER_K lv /\
     (forall j, (j < KYBER_K lv)%nat -> length (nth j r []) = 256%nat) /\
     forall j, (j < i)%nat -> bnd (-1664) 1664 (nth j r []) /\ lcong (nth j r []) (scale 169 (ntt_dot (nth j A []) s)))).
  - split; [exact L0|]. split; [exact S0|]. intros; lia.
  - intros i r Hi (Lr & Sr & Pr). wstep. eapply (wp_aget []); [lia|]. wstep. eapply (wp_aget []); [unfold polyvec in *; lia|].
    pose proof (VA i ltac:(lia)) as Vb.
    wstep. eapply wp_conseq.
    { apply (W1 JJ).
      - apply Sr. lia.
      - eapply vbnd_weaken; [| |exact Vb]; lia.
      - eapply vbnd_weaken; [| |exact Hsk]; lia. }
    intros x (Lx & Bx & Cx).
    replace (ntt_dot (nth i A []) sk) with (ntt_dot (nth i A []) s) in Cx.
    2:{ symmetry. apply ntt_dot_cong; [apply vcong_refl|exact Cs|]. destruct Vb as [L1 _], Hsk as [L2 _]. congruence. }
    wstep; [lia|]. split; [now rewrite upd_length|]. split.
    + intros j Hj. destruct (Nat.eq_dec j i) as [->|]; [rewrite nth_upd_eq by lia; exact Lx|].
      rewrite nth_upd_neq by lia. now apply Sr.
    + intros j Hj. destruct (Nat.eq_dec j i) as [->|]; [rewrite nth_upd_eq by lia; now split|].
      rewrite nth_upd_neq by lia. apply Pr. lia.
  - intros r (Lr & Sr & Pr). cbn [Nat.add] in Pr. split.
    + split; [exact Lr|]. intros i Hi. split; [now apply Sr|]. now apply Pr.
    + intros i Hi. now apply Pr.
Qed.

(** ** indcpa_enc after the matrix has been expanded *)
Definition enc_rest `{Junk} (lv : level) (c : list Z) (cto : nat) (coins : list Z) (co : nat)
  (pkpv : polyvec) (k : list Z) (at_ : list polyvec) : res (list Z) :=
  '(sp, nonce) <- getnoise_vec_eta1 lv (local_polyvec lv) coins co 0 ;;
  '(ep, nonce) <- getnoise_vec_eta2 lv (local_polyvec lv) coins co nonce ;;
  epp <- poly_getnoise_eta2 local_poly coins co nonce ;;
  sp <- polyvec_ntt lv sp ;;
  b <- for_ (KYBER_K lv) 0 (fun i b =>
    p <- aget b i ;;
    ai <- aget at_ i ;;
    p <- polyvec_basemul_acc_montgomery lv p ai sp ;;
    aset b i p) (local_polyvec lv) ;;
  v <- polyvec_basemul_acc_montgomery lv local_poly pkpv sp ;;
  b <- polyvec_invntt_tomont lv b ;;
  v <- poly_invntt_tomont v ;;
  b <- polyvec_add lv b VSelf (VOther ep) ;;
  v <- poly_add v Self (Other epp) ;;
  v <- poly_add v Self (Other k) ;;
  b <- polyvec_reduce lv b ;;
  v <- poly_reduce v ;;
  pack_ciphertext lv c cto b v.

Lemma enc_split `{JJ : Junk} lv fuel c cto m mo pk po coins co :
  indcpa_enc lv fuel c cto m mo pk po coins co =
  bind (unpack_pk lv (local_polyvec lv) (local KYBER_SYMBYTES) pk po) (fun '(pkpv, seed) =>
  bind (poly_frommsg local_poly m mo) (fun k =>
  bind (gen_matrix lv fuel (local_matrix lv) seed 0 true) (fun at_ => enc_rest lv c cto coins co pkpv k at_))).
Proof. reflexivity. Qed.

Lemma zadd_length f g : length (zadd f g) = 256%nat. Proof. apply mk_length. Qed.

Lemma enc_rest_wp lv At cto co : length At = KYBER_K lv ->
  (forall i, (i < KYBER_K lv)%nat -> vbnd (KYBER_K lv) 0 3328 (nth i At [])) ->
  traced (fun T => forall (JJ : Junk) c coins pkpv t kp mu,
    (cto + KYBER_CIPHERTEXTBYTES lv <= length c)%nat -> (co + 32 <= length coins)%nat -> bytes coins ->
    vbnd (KYBER_K lv) 0 4095 pkpv -> vcong pkpv t -> length kp = 256%nat -> bnd 0 3329 kp -> lcong kp mu ->
    wp (enc_rest lv c cto coins co pkpv kp At) T
       (fun c' => let r := sub coins co 32 in
          let P := PS lv in
          let y := map NTT (noise (eta1 P) r 0 (k P)) in
          let e1 := noise (eta2 P) r (k P) (k P) in
          let e2 := nth 0 (noise (eta2 P) r (2 * k P) 1) [] in
          let u := zipadd (map (fun row => NTTinv (ntt_dot row y)) At) e1 in
          let v := padd (padd (NTTinv (ntt_dot t y)) e2) mu in
          c' = splice c cto (flat_map (fun f => ByteEncode (du P) (map (Compress (Z.of_nat (du P))) f)) u
               ++ ByteEncode (dv P) (map (Compress (Z.of_nat (dv P))) v)))).
Proof.
  intros LA VA. pose proof (K_range lv) as HK.
  destruct (getnoise_vec_eta1_wp lv co 0 ltac:(lia)) as [T1 W1].
  destruct (getnoise_vec_eta2_wp lv co (0 + KYBER_K lv) ltac:(lia)) as [T2 W2].
  destruct (poly_getnoise_eta2_wp co (Z.of_nat (KYBER_K lv + KYBER_K lv))) as [T3 W3].
  destruct (polyvec_ntt_wp lv) as [T4 W4].
  destruct (matvec2_wp lv At LA VA) as [T5 W5].
  destruct (polyvec_basemul_acc_montgomery_wp lv) as [T6 W6].
  destruct (polyvec_invntt_tomont_wp lv) as [T7 W7].
  destruct poly_invntt_tomont_wp as [T8 W8].
  destruct (polyvec_add_wp lv) as [T9 W9].
  destruct poly_add_wp as [T10 W10].
  destruct (polyvec_reduce_wp lv) as [T11 W11].
  destruct poly_reduce_wp as [T12 W12].
  destruct (polyvec_compress_wp lv cto) as [T13 W13].
  destruct (poly_compress_wp lv (cto + KYBER_POLYVECCOMPRESSEDBYTES lv)) as [T14 W14].
  eexists. intros JJ c coins pkpv t kp mu Hc Hco Bc Vp Cp Lk Bk Ck. unfold enc_rest.
  unfold KYBER_CIPHERTEXTBYTES, KYBER_INDCPA_BYTES in Hc.
  pose proof (eta1_le lv) as He. set (r := sub coins co 32).
  wstep. eapply wp_conseq; [apply (W1 JJ _ coins (local_polyvec_shaped lv) Hco Bc)|].
  intros st ->. fold r. cbv beta iota.
  wstep. eapply wp_conseq; [apply (W2 JJ _ coins (local_polyvec_shaped lv) Hco Bc)|].
  intros st ->. fold r. cbv beta iota. cbn [Nat.add].
  wstep. eapply wp_conseq; [apply (W3 JJ local_poly coins (local_length _) Hco Bc); lia|].
  intros epp ->. fold r. set (epp := mk 256 (cbdz 2 (PRF 2 r (Z.of_nat (KYBER_K lv + KYBER_K lv))))).
  assert (Lepp : length epp = 256%nat) by apply mk_length.
  assert (Bepp : bnd (-3) 3 epp) by (apply cbd_bnd; lia).
  wstep. eapply wp_conseq.
  { apply W4. eapply vbnd_weaken; [| |apply noisez_vbnd; exact He]; lia. }
  intros sp [Bsp Csp]. pose proof (ntt_noise _ _ _ _ _ He Csp) as Csp'.
  set (y := map NTT (noise (eta1 (PS lv)) r 0 (KYBER_K lv))) in *.
  assert (Ly : length y = KYBER_K lv) by (unfold y; now rewrite map_length, noise_length).
  assert (Cy : vcong sp y).
  { destruct Bsp as [L _]. split; [congruence|]. intros i Hi. apply Csp'. lia. }
  wstep. eapply wp_conseq; [apply (W5 JJ _ sp y (local_polyvec_shaped lv) Bsp Cy)|].
  intros b [Bb Cb].
  wstep. eapply wp_conseq.
  { apply (W6 JJ local_poly pkpv sp (local_length _)).
    - eapply vbnd_weaken; [| |exact Vp]; lia.
    - eapply vbnd_weaken; [| |exact Bsp]; lia. }
  intros v (Lv & Bv & Cv).
  replace (ntt_dot pkpv sp) with (ntt_dot t y) in Cv.
  2:{ symmetry. apply ntt_dot_cong; [exact Cp|exact Cy|]. destruct Vp as [L1 _], Bsp as [L2 _]. congruence. }
  wstep. eapply wp_conseq.
  { apply W7. eapply vbnd_weaken; [| |exact Bb]; lia. }
  intros b1 [Bb1 Cb1].
  wstep. eapply wp_conseq.
  { apply (W8 v Lv). eapply bnd_weaken; [exact Bv|lia|lia]. }
  intros v1 (Lv1 & Bv1 & Cv1).
  pose proof (invntt_dot _ _ _ Cv1 Cv) as Cv2.
  wstep. eapply wp_conseq.
  { eapply (W9 b1 _ 3328 3); [exact Bb1| |lia]. apply (noisez_vbnd 2 r). lia. }
  intros b2 [Bb2 Eb2].
  wstep. eapply wp_conseq.
  { apply (W10 v1 Self (Other epp) Lv1 I Lepp). intros i Hi. cbn [oval].
    pose proof (Bv1 i ltac:(lia)). pose proof (Bepp i ltac:(lia)). lia. }
  intros v2 Ev2. cbn [oval] in Ev2. change (v2 = zadd v1 epp) in Ev2.
  assert (Bv2 : bnd (-3331) 3331 v2) by (subst v2; apply (zadd_bnd (-3328) 3328 (-3) 3); auto).
  assert (Lv2 : length v2 = 256%nat) by (subst v2; apply zadd_length).
  wstep. eapply wp_conseq.
  { apply (W10 v2 Self (Other kp) Lv2 I Lk). intros i Hi. cbn [oval].
    pose proof (Bv2 i ltac:(lia)). pose proof (Bk i ltac:(lia)). lia. }
  intros v3 Ev3. cbn [oval] in Ev3. change (v3 = zadd v2 kp) in Ev3.
  assert (Bv3 : bnd (-3331) 6660 v3) by (subst v3; apply (zadd_bnd (-3331) 3331 0 3329); auto).
  assert (Lv3 : length v3 = 256%nat) by (subst v3; apply zadd_length).
  wstep. eapply wp_conseq.
  { apply W11. eapply vbnd_weaken; [| |exact Bb2]; lia. }
  intros b3 [Bb3 Cb3].
  wstep. eapply wp_conseq.
  { apply (W12 v3 Lv3). eapply bnd_weaken; [exact Bv3|lia|lia]. }
  intros v4 (Lv4 & Bv4 & Cv4).
  unfold pack_ciphertext. wstep. eapply wp_conseq.
  { apply (W13 JJ c b3); [lia|]. eapply vbnd_weaken; [| |exact Bb3]; lia. }
  intros c1 Ec1.
  cbv zeta. rewrite !PS_eta2, !PS_k. fold r. fold y.
  set (e1 := noise 2 r (KYBER_K lv) (KYBER_K lv)). set (e2 := nth 0 (noise 2 r (2 * KYBER_K lv) 1) []).
  set (u := zipadd (map (fun row => NTTinv (ntt_dot row y)) At) e1).
  assert (Le1 : length e1 = KYBER_K lv) by (unfold e1; apply noise_length).
  assert (Lu : length u = KYBER_K lv).
  { unfold u. unfold polyvec in *. rewrite zipadd_length; rewrite map_length; lia. }
  assert (Eu : flat_map (compressed_bytes (du (PS lv))) b3 =
               flat_map (fun f => ByteEncode (du (PS lv)) (map (Compress (Z.of_nat (du (PS lv)))) f)) u).
  { apply (flat_map_nth [] []); [destruct Bb3 as [L _]; congruence|]. intros i Hi.
    assert (Hi' : (i < KYBER_K lv)%nat) by (destruct Bb3 as [L _]; unfold polyvec in *; lia).
    unfold compressed_bytes. f_equal. unfold u. unfold polyvec in *.
    rewrite zipadd_nth by (rewrite map_length; lia).
    rewrite (map_nth_lt (fun row => NTTinv (ntt_dot row y)) At i [] []) by lia.
    apply compressed_cong; [|apply padd_canon].
    eapply lcong_trans; [apply Cb3; exact Hi'|]. rewrite (Eb2 i Hi'). apply padd_cong.
    - eapply invntt_dot; [apply Cb1; exact Hi'|]. apply Cb. exact Hi'.
    - apply noisez_lcong. exact Hi'. }
  assert (Lb3 : length (flat_map (compressed_bytes (du (PS lv))) b3) = KYBER_POLYVECCOMPRESSEDBYTES lv).
  { rewrite PS_u. destruct Bb3 as [<- _]. clear. induction b3 as [|x b IH]; [cbn; lia|].
    cbn [flat_map length]. rewrite app_length, IH, compressed_bytes_length. lia. }
  rewrite Eu in Ec1, Lb3.
  eapply wp_conseq.
  { apply (W14 JJ c1 v4); [|exact Lv4|eapply bnd_weaken; [exact Bv4|lia|lia]]. subst c1. rewrite splice_length; lia. }
  intros c2 ->. subst c1.
  rewrite (compressed_cong _ v4 (padd (padd (NTTinv (ntt_dot t y)) e2) mu)); [|..|apply padd_canon].
  - apply splice_splice_next; [lia|]. rewrite ByteEncode_length, map_length, padd_length.
    replace (dv (PS lv) * 256 / 8)%nat with (KYBER_POLYCOMPRESSEDBYTES lv) by (destruct lv; reflexivity). lia.
  - eapply lcong_trans; [exact Cv4|]. rewrite Ev3. apply padd_cong; [|exact Ck]. rewrite Ev2.
    apply padd_cong; [exact Cv2|]. unfold e2, epp. rewrite noise_nth by lia.
    replace (2 * KYBER_K lv + 0)%nat with (KYBER_K lv + KYBER_K lv)%nat by lia. apply SamplePolyCBD_cbdz.
Qed.

Lemma bnd_at lo hi l i : bnd lo hi l -> (i < length l)%nat -> lo <= nth i l 0 <= hi.
Proof. auto. Qed.

Lemma unpack_pk_wp lv po :
  traced (fun T => forall (JJ : Junk) pk, (po + KYBER_INDCPA_PUBLICKEYBYTES lv <= length pk)%nat -> bytes pk ->
    wp (unpack_pk lv (local_polyvec lv) (local KYBER_SYMBYTES) pk po) T
       (fun st => st = (frombytes_vec lv pk po, sub pk (po + KYBER_POLYVECBYTES lv) 32))).
Proof.
  destruct (polyvec_frombytes_wp lv po) as [T1 W1].
  destruct (memcpy_wp 0 (po + KYBER_POLYVECBYTES lv) 32) as [T2 W2].
  eexists. intros JJ pk Hpk Bpk. unfold unpack_pk, KYBER_INDCPA_PUBLICKEYBYTES in *.
  change KYBER_SYMBYTES with 32%nat in *. destruct (local_polyvec_shaped lv) as [L S].
  wstep. eapply wp_conseq; [apply (W1 _ pk L S); [lia|exact Bpk]|]. intros p ->.
  wstep. eapply wp_conseq; [apply W2; rewrite ?local_length; lia|]. intros s ->. wstep.
  fold (frombytes_vec lv pk po). f_equal. rewrite splice_full; [reflexivity|].
  rewrite local_length. apply (sub_length pk (po + KYBER_POLYVECBYTES lv) 32). lia.
Qed.

Lemma ek_rho_sub lv pk po : (po + KYBER_INDCPA_PUBLICKEYBYTES lv <= length pk)%nat ->
  ek_rho (PS lv) (sub pk po (KYBER_INDCPA_PUBLICKEYBYTES lv)) = sub pk (po + KYBER_POLYVECBYTES lv) 32.
Proof.
  intros Hpk. unfold ek_rho. unfold KYBER_INDCPA_PUBLICKEYBYTES, KYBER_POLYVECBYTES, KYBER_POLYBYTES, KYBER_SYMBYTES in *.
  rewrite PS_k. rewrite (skipn_sub _ _ 32) by (rewrite sub_length; lia). rewrite sub_sub by lia. f_equal. lia.
Qed.

Lemma indcpa_enc_wp lv fuel rho cto mo po co : enough_all lv fuel rho ->
  traced (fun T => forall (JJ : Junk) c m pk coins,
    (cto + KYBER_CIPHERTEXTBYTES lv <= length c)%nat ->
    (mo + 32 <= length m)%nat -> bytes m ->
    (po + KYBER_INDCPA_PUBLICKEYBYTES lv <= length pk)%nat -> bytes pk ->
    (co + 32 <= length coins)%nat -> bytes coins ->
    ek_rho (PS lv) (sub pk po (KYBER_INDCPA_PUBLICKEYBYTES lv)) = rho ->
    wp (indcpa_enc lv fuel c cto m mo pk po coins co) T
       (fun c' => c' = splice c cto (K_PKE_Encrypt (PS lv) (matrix lv fuel rho false)
          (sub pk po (KYBER_INDCPA_PUBLICKEYBYTES lv)) (sub m mo 32) (sub coins co 32)))).
Proof.
  intros HE.
  destruct (unpack_pk_wp lv po) as [T1 W1].
  destruct (poly_frommsg_wp mo) as [T2 W2].
  destruct (gen_matrix_wp lv fuel 0 rho true HE) as [T3 W3].
  assert (LA : length (matrix lv fuel rho true) = KYBER_K lv) by apply mk_length.
  destruct (enc_rest_wp lv _ cto co LA (fun i Hi => matrix_vbnd lv fuel rho true i Hi HE)) as [T4 W4].
  exists (T1 ++ (T2 ++ (T3 ++ T4))). intros JJ c m pk coins Hc Hm Bm Hpk Bpk Hco Bco Er.
  rewrite ek_rho_sub in Er by exact Hpk. rewrite enc_split.
  apply wp_bind. eapply wp_conseq; [apply (W1 JJ pk Hpk Bpk)|]. intros st ->. cbv beta iota.
  apply wp_bind. eapply wp_conseq; [apply (W2 local_poly m (local_length _) Hm Bm)|]. intros kp ->.
  apply wp_bind. eapply wp_conseq; [apply (W3 JJ _ _ (local_matrix_wf lv))|].
  { unfold KYBER_INDCPA_PUBLICKEYBYTES in *. change KYBER_SYMBYTES with 32%nat in *.
    assert (L : length (sub pk (po + KYBER_POLYVECBYTES lv) 32) = 32%nat) by (apply sub_length; lia).
    refine (conj _ (conj _ _)); [lia|now apply bnd_sub|]. rewrite sub_self by exact L. exact Er. }
  intros a ->. eapply wp_conseq.
  { apply (W4 JJ c coins (frombytes_vec lv pk po)
      (decode_vec (PS lv) 12 (firstn (384 * k (PS lv)) (sub pk po (KYBER_INDCPA_PUBLICKEYBYTES lv))))
      (decompressed 1 (sub m mo 32)) (decompressed 1 (sub m mo 32)) Hc Hco Bco).
    - apply frombytes_vec_vbnd.
    - apply frombytes_vec_cong. unfold KYBER_INDCPA_PUBLICKEYBYTES, KYBER_POLYVECBYTES, KYBER_POLYBYTES. lia.
    - apply decompressed_length.
    - apply decompressed_bnd. lia.
    - apply lcong_refl. }
  intros c' ->. cbv zeta. unfold K_PKE_Encrypt. rewrite <- matrix_transpose. reflexivity.
Qed.

Lemma indcpa_enc_timeout lv fuel cto mo po co :
  forall (JJ : Junk) c m pk coins, (mo + 32 <= length m)%nat -> bytes m ->
    (po + KYBER_INDCPA_PUBLICKEYBYTES lv <= length pk)%nat -> bytes pk ->
    ~ enough_all lv fuel (ek_rho (PS lv) (sub pk po (KYBER_INDCPA_PUBLICKEYBYTES lv))) ->
    indcpa_enc lv fuel c cto m mo pk po coins co = Timeout.
Proof.
  intros JJ c m pk coins Hm Bm Hpk Bpk HN. rewrite ek_rho_sub in HN by exact Hpk. rewrite enc_split.
  destruct (unpack_pk_wp lv po) as [T1 W1].
  destruct (poly_frommsg_wp mo) as [T2 W2].
  eapply bind_timeout; [apply (W1 JJ pk Hpk Bpk)|]. intros st ->. cbv beta iota.
  eapply bind_timeout; [apply (W2 local_poly m (local_length _) Hm Bm)|]. intros kp ->.
  apply bind_timeout_l. eapply gen_matrix_timeout; [exact HN|apply local_matrix_wf|].
  unfold KYBER_INDCPA_PUBLICKEYBYTES in *. change KYBER_SYMBYTES with 32%nat in *.
  assert (L : length (sub pk (po + KYBER_POLYVECBYTES lv) 32) = 32%nat) by (apply sub_length; lia).
  refine (conj _ (conj _ _)); [lia|now apply bnd_sub|]. now rewrite sub_self by exact L.
Qed.

(** ** indcpa_dec *)
Lemma indcpa_dec_wp lv mo co sko :
  traced (fun T => forall (JJ : Junk) m c sk,
    (mo + 32 <= length m)%nat ->
    (co + KYBER_CIPHERTEXTBYTES lv <= length c)%nat -> bytes c ->
    (sko + KYBER_INDCPA_SECRETKEYBYTES lv <= length sk)%nat -> bytes sk ->
    wp (indcpa_dec lv m mo c co sk sko) T
       (fun m' => m' = splice m mo (K_PKE_Decrypt (PS lv) (sub sk sko (KYBER_INDCPA_SECRETKEYBYTES lv))
                                    (sub c co (KYBER_CIPHERTEXTBYTES lv))))).
Proof.
  pose proof (K_range lv) as HK.
  destruct (polyvec_decompress_wp lv co) as [T1 W1].
  destruct (poly_decompress_wp lv (co + KYBER_POLYVECCOMPRESSEDBYTES lv)) as [T2 W2].
  destruct (polyvec_frombytes_wp lv sko) as [T3 W3].
  destruct (polyvec_ntt_wp lv) as [T4 W4].
  destruct (polyvec_basemul_acc_montgomery_wp lv) as [T5 W5].
  destruct poly_invntt_tomont_wp as [T6 W6].
  destruct poly_sub_wp as [T7 W7].
  destruct poly_reduce_wp as [T8 W8].
  destruct (poly_tomsg_wp mo) as [T9 W9].
  eexists. intros JJ m c sk Hm Hc Bc Hsk Bsk. unfold indcpa_dec. cbv zeta.
  unfold KYBER_CIPHERTEXTBYTES, KYBER_INDCPA_BYTES, KYBER_INDCPA_SECRETKEYBYTES in *.
  destruct (local_polyvec_shaped lv) as [L S].
  assert (Hdu : (0 < du (PS lv) < 12)%nat) by (destruct lv; cbn; lia).
  assert (Hdv : (0 < dv (PS lv) < 12)%nat) by (destruct lv; cbn; lia).
  wstep. unfold unpack_ciphertext. wstep. eapply wp_conseq; [apply (W1 JJ _ c L S); [lia|exact Bc]|].
  intros b Eb. wstep. eapply wp_conseq; [apply (W2 JJ local_poly c (local_length _)); [lia|exact Bc]|].
  intros v Ev. wstep.
  wstep. unfold unpack_sk. eapply wp_conseq; [apply (W3 _ sk L S Hsk Bsk)|].
  intros s Es. change (s = frombytes_vec lv sk sko) in Es. rewrite Es. clear Es s.
  set (u := map (map (Decompress (Z.of_nat (du (PS lv)))))
      (decode_vec (PS lv) (du (PS lv)) (firstn (32 * du (PS lv) * k (PS lv))
         (sub c co (KYBER_POLYVECCOMPRESSEDBYTES lv + KYBER_POLYCOMPRESSEDBYTES lv))))).
  assert (Eu : b = u).
  { rewrite Eb. unfold u. apply (list_eq_nth []).
    - now rewrite mk_length, map_length, decode_vec_length, PS_k.
    - rewrite mk_length. intros i Hi. rewrite nth_mk by auto.
      rewrite (map_nth_lt _ _ i [] []) by (now rewrite decode_vec_length, PS_k).
      rewrite decode_vec_nth by (now rewrite PS_k). unfold decompressed. do 2 f_equal.
      rewrite firstn_sub, PS_k, PS_u. rewrite !sub_sub by nia. f_equal; lia. }
  assert (Vb : vbnd (KYBER_K lv) 0 3329 b).
  { rewrite Eb. split; [apply mk_length|]. intros i Hi. rewrite nth_mk by auto. split; [apply decompressed_length|].
    now apply decompressed_bnd. }
  clear Eb.
  wstep. eapply wp_conseq; [apply (W4 b); eapply vbnd_weaken; [| |exact Vb]; lia|].
  intros b1 [Bb1 Cb1].
  assert (Cy : vcong b1 (map NTT u)).
  { rewrite <- Eu. destruct Bb1 as [L1 _], Vb as [L2 _]. split; [rewrite map_length; congruence|].
    intros i Hi. rewrite (map_nth_lt NTT b i [] []) by (unfold polyvec in *; lia). apply Cb1. lia. }
  wstep. eapply wp_conseq.
  { apply (W5 JJ local_poly (frombytes_vec lv sk sko) b1 (local_length _)).
    - eapply vbnd_weaken; [| |apply frombytes_vec_vbnd]; lia.
    - eapply vbnd_weaken; [| |exact Bb1]; lia. }
  intros mp (Lmp & Bmp & Cmp).
  set (t := decode_vec (PS lv) 12 (sub sk sko (KYBER_POLYVECBYTES lv))).
  assert (Ct : vcong (frombytes_vec lv sk sko) t).
  { assert (EK : (KYBER_POLYVECBYTES lv = 384 * k (PS lv))%nat)
      by (rewrite PS_k; unfold KYBER_POLYVECBYTES, KYBER_POLYBYTES; lia).
    pose proof (frombytes_vec_cong lv sk sko (KYBER_POLYVECBYTES lv) ltac:(rewrite EK, PS_k; lia)) as C.
    rewrite firstn_all2 in C by (rewrite sub_length; lia). exact C. }
  replace (ntt_dot (frombytes_vec lv sk sko) b1) with (ntt_dot t (map NTT u)) in Cmp.
  2:{ symmetry. apply ntt_dot_cong; [exact Ct|exact Cy|]. destruct Bb1 as [L1 _].
      destruct (frombytes_vec_vbnd lv sk sko) as [L2 _]. congruence. }
  wstep. eapply wp_conseq; [apply (W6 mp Lmp); eapply bnd_weaken; [exact Bmp|lia|lia]|].
  intros mp1 (Lmp1 & Bmp1 & Cmp1). pose proof (invntt_dot _ _ _ Cmp1 Cmp) as Cmp2.
  assert (Lv : length v = 256%nat) by (rewrite Ev; apply decompressed_length).
  assert (Bv : bnd 0 3329 v) by (rewrite Ev; now apply decompressed_bnd).
  wstep. eapply wp_conseq.
  { apply (W7 mp1 (Other v) Self Lmp1 Lv I). intros i Hi. cbn [oval].
    pose proof (bnd_at _ _ _ i Bmp1 ltac:(lia)). pose proof (bnd_at _ _ _ i Bv ltac:(lia)). lia. }
  intros w1 Ew. cbn [oval] in Ew. change (w1 = zsub v mp1) in Ew.
  assert (Lw : length w1 = 256%nat) by (rewrite Ew; apply mk_length).
  wstep. eapply wp_conseq.
  { apply (W8 w1 Lw). intros i Hi. rewrite Ew. unfold zsub. rewrite nth_mk by lia.
    pose proof (bnd_at _ _ _ i Bmp1 ltac:(lia)). pose proof (bnd_at _ _ _ i Bv ltac:(lia)). lia. }
  intros w2 (Lw2 & Bw2 & Cw2).
  eapply wp_conseq; [apply (W9 m w2 Hm Lw2 Bw2)|].
  intros m' ->. f_equal. unfold K_PKE_Decrypt. cbv zeta. fold u. fold t. f_equal.
  apply compressed_cong.
  - eapply lcong_trans; [exact Cw2|]. rewrite Ew. apply psub_cong; [|exact Cmp2].
    rewrite Ev. unfold decompressed. rewrite (skipn_sub _ _ (KYBER_POLYCOMPRESSEDBYTES lv)).
    + rewrite PS_k, <- PS_u, sub_sub by lia. apply lcong_refl.
    + rewrite sub_length by lia. rewrite PS_k, <- PS_u. reflexivity.
  - apply mkpoly_canon. intros. apply Z.mod_pos_bound. reflexivity.
Qed.
