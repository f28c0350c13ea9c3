(** * indcpa_keypair_derand of avx2/indcpa.c against K-PKE.KeyGen *)
From Coq Require Import ZArith List Lia Bool.
From Verif Require Import CMonad WP Modq Sums Proof_Base Proof_Bits Levels Model_Params Model_Fips202 Model_Symmetric
  Model_NTT Model_Poly Model_Polyvec Model_Indcpa Spec_FIPS202 Spec_FIPS203 Proof_Keccak Proof_Shake Proof_Hash
  Proof_NTT Proof_NTTSpec Proof_Poly Proof_Polyvec Proof_Compress Proof_Codec Proof_PolyvecCodec Proof_CBD
  Proof_Symmetric Proof_GenMatrix Proof_Indcpa Proof_Keypair
  Model_AvxIntrin Model_AvxAsm Model_AvxCode Model_AvxC Model_AvxPolyvec Model_AvxIndcpa
  Proof_AvxNTT Proof_AvxPack Proof_AvxPolyvec Proof_AvxGenMatrix Proof_AvxNoise.
Import ListNotations.
Open Scope Z_scope.

(** ** The matrix in the vector order *)
Definition avx_matrix (M : list polyvec) : list polyvec := map (map avx_order) M.

Lemma avx_order_bnd lo hi f : length f = 256%nat -> bnd lo hi f -> bnd lo hi (avx_order f).
Proof.
  intros L B. unfold avx_order. apply bnd_mk. intros i Hi. apply B. rewrite L.
  now apply avx_ix_lt.
Qed.

Lemma avx_order_scale c f : length f = 256%nat -> lcong (scale c (avx_order f)) (avx_order (scale c f)).
Proof.
  intros L. split; [now rewrite scale_length, !avx_order_length|]. intros i Hi. rewrite scale_length in Hi.
  rewrite nth_scale by auto. rewrite !avx_order_nth by auto.
  rewrite nth_scale; [reflexivity|]. now apply avx_ix_lt.
Qed.

Lemma avx_order_padd x y f g : lcong x (avx_order f) -> lcong y (avx_order g) -> lcong (zadd x y) (avx_order (padd f g)).
Proof.
  intros A B. split; [unfold zadd; now rewrite mk_length, avx_order_length|]. intros i Hi.
  unfold zadd in *. rewrite mk_length in Hi. rewrite nth_mk by auto. rewrite avx_order_nth by auto.
  unfold padd. rewrite nth_mkpoly by (now apply avx_ix_lt). unfold coef. change q with 3329.
  rewrite cong_mod, (lcong_nth _ _ i A), (lcong_nth _ _ i B). rewrite !avx_order_nth by auto. reflexivity.
Qed.

Definition rows_ok (lv : level) (M : list polyvec) : Prop :=
  length M = KYBER_K lv /\ forall i, (i < KYBER_K lv)%nat -> vbnd (KYBER_K lv) 0 3328 (nth i M []).

Lemma matrix_rows lv fuel rho transposed : enough_all lv fuel rho -> rows_ok lv (matrix lv fuel rho transposed).
Proof. intros HE. split; [apply mk_length|]. intros i Hi. now apply matrix_vbnd. Qed.

Lemma avx_row lv M i : rows_ok lv M -> (i < KYBER_K lv)%nat ->
  vbnd (KYBER_K lv) 0 3328 (nth i (avx_matrix M) []) /\ wfvec (KYBER_K lv) (nth i M []) /\
  vheld (KYBER_K lv) (nth i M []) (nth i (avx_matrix M) []).
Proof.
  intros [LM HM] Hi. destruct (HM i Hi) as [L H]. unfold avx_matrix. unfold polyvec in *.
  rewrite (map_nth_lt (map avx_order) M i [] []) by lia.
  split; [|split].
  - split; [now rewrite map_length|]. intros j Hj. destruct (H j Hj) as [L1 B1].
    rewrite (map_nth_lt avx_order _ j [] []) by lia. split; [apply avx_order_length|now apply avx_order_bnd].
  - split; [exact L|]. intros j Hj. now apply H.
  - intros j Hj. rewrite (map_nth_lt avx_order _ j [] []) by lia. apply lcong_refl.
Qed.

Lemma avx_matrix_length M : length (avx_matrix M) = length M.
Proof. apply map_length. Qed.

(** ** A s in Montgomery form, times the Montgomery factor (indcpa.c:455-458) *)
Lemma matvec_avx_wp lv M : rows_ok lv M ->
  traced (fun T => forall (JJ : Junk) p0 sk s, shaped (KYBER_K lv) p0 -> vbnd (KYBER_K lv) 0 3329 sk ->
    wfvec (KYBER_K lv) s -> vheld (KYBER_K lv) s sk ->
    wp (for_ (KYBER_K lv) 0 (fun i pkpv =>
          p <- aget pkpv i ;;
          ai <- aget (avx_matrix M) i ;;
          p <- polyvec_basemul_acc_montgomery_avx2 lv p ai sk ;;
          p <- tomont_avx p ;;
          aset pkpv i p) p0) T
       (fun r' => vbnd (KYBER_K lv) (-2341) 2341 r' /\
          vrel (KYBER_K lv) (fun i x => lcong x (avx_order (ntt_dot (nth i M []) s))) r')).
Proof.
  intros HM. destruct (polyvec_basemul_acc_montgomery_avx2_wp lv) as [T1 W1].
  destruct tomont_avx_wp as [T2 W2].
  eexists. intros JJ p0 sk s [L0 S0] Hsk Ws Cs.
  set (P := fun (i : nat) (x y : list Z) => length y = 256%nat /\ babs 2341 y /\ lcong y (avx_order (ntt_dot (nth i M []) s))).
  eapply wp_conseq.
  { eapply (wp_pointwise_gen (@nil Z) _ P (KYBER_K lv)); [exact L0|].
    intros i r Hi Lr Er. destruct (avx_row lv M i HM Hi) as (Vb & Wf & Vh).
    assert (LA : length (avx_matrix M) = KYBER_K lv) by (rewrite avx_matrix_length; apply HM).
    wstep. eapply (wp_aget []); [lia|]. wstep. eapply (wp_aget []); [unfold polyvec in *; lia|].
    wstep. eapply wp_conseq.
    { apply (W1 JJ _ _ sk (nth i M []) s).
      - rewrite Er. apply S0. lia.
      - eapply vbnd_weaken; [| |exact Vb]; lia.
      - eapply vbnd_weaken; [| |exact Hsk]; lia.
      - exact Wf.
      - exact Ws.
      - exact Vh.
      - exact Cs. }
    intros x (Lx & Bx & Cx). wstep. eapply wp_conseq.
    { apply (W2 JJ x Lx). eapply bnd_weaken; [exact Bx|lia|lia]. }
    intros y (Ly & By & Cy).
    wstep; [lia|]. exists y. split; [reflexivity|]. split; [exact Ly|]. split; [exact By|].
    eapply lcong_trans; [exact Cy|]. eapply lcong_trans; [apply scale_cong; exact Cx|].
    eapply lcong_trans; [apply avx_order_scale; apply scale_length|].
    apply avx_order_cong, scale_mont, ntt_dot_length. }
  intros r' [Lr H]. split.
  - split; [exact Lr|]. intros i Hi. destruct (H i Hi) as (A & B & _). now split.
  - intros i Hi. now destruct (H i Hi) as (_ & _ & C).
Qed.

(** The secret and error vectors after the forward transform *)
Lemma ntt_noise_avx eta sigma o n v : (eta <= 3)%nat ->
  vrel n (fun i x => lcong x (avx_order (NTT (nth i (noisez eta sigma o n) [])))) v ->
  vheld n (map NTT (noise eta sigma o n)) v.
Proof.
  intros He C i Hi. eapply lcong_trans; [apply C; exact Hi|].
  rewrite (map_nth_lt NTT _ i [] []) by (now rewrite noise_length).
  assert (E : NTT (nth i (noisez eta sigma o n) []) = NTT (nth i (noise eta sigma o n) []));
    [|rewrite E; apply lcong_refl].
  apply NTT_cong. now apply noisez_lcong.
Qed.

Lemma vheld_of n F v w : vheld n F v -> vrel n (fun i x => lcong x (nth i v [])) w -> vheld n F w.
Proof. intros A B i Hi. eapply lcong_trans; [apply B; exact Hi|apply A; exact Hi]. Qed.

Definition keypair_rest_avx2 `{Junk} (lv : level) (pk : list Z) (po : nat) (sk : list Z) (sko : nat)
  (buf : list Z) (a : list polyvec) : res (list Z * list Z) :=
  '(skpv, e, pkpv) <- keypair_noise lv (local_polyvec lv) (local_polyvec lv) (local_polyvec lv) buf KYBER_SYMBYTES ;;
  skpv <- polyvec_ntt_avx2 lv skpv ;;
  skpv <- polyvec_reduce_avx2 lv skpv ;;
  e <- polyvec_ntt_avx2 lv e ;;
  pkpv <- for_ (KYBER_K lv) 0 (fun i pkpv =>
    p <- aget pkpv i ;;
    ai <- aget a i ;;
    p <- polyvec_basemul_acc_montgomery_avx2 lv p ai skpv ;;
    p <- tomont_avx p ;;
    aset pkpv i p) pkpv ;;
  pkpv <- polyvec_add_to_avx2 lv pkpv e ;;
  pkpv <- polyvec_reduce_avx2 lv pkpv ;;
  sk <- pack_sk_avx2 lv sk sko skpv ;;
  pk <- pack_pk_avx2 lv pk po pkpv buf 0 ;;
  ret (pk, sk).

Lemma keypair_split_avx2 `{JJ : Junk} lv fuel pk po sk sko coins co :
  indcpa_keypair_derand_avx2 lv fuel pk po sk sko coins co =
  bind (keypair_expand lv coins co) (fun buf =>
    bind (gen_matrix_avx2 lv fuel (local_matrix lv) buf 0 false) (fun a => keypair_rest_avx2 lv pk po sk sko buf a)).
Proof.
  unfold keypair_expand, indcpa_keypair_derand_avx2, gen_a_avx2. cbv zeta.
  rewrite bind_assoc. apply bind_ext. intros b1. rewrite bind_assoc. reflexivity.
Qed.

Lemma canonical_flat F K : length F = K -> (forall i, (i < K)%nat -> canon (nth i F [])) ->
  flat_map canonical_bytes F = flat_map (ByteEncode 12) F.
Proof.
  intros L C. eapply flat_map_bytes; [exact L|exact L|]. intros i Hi. split; [apply lcong_refl|now apply C].
Qed.

Lemma keypair_rest_avx2_wp lv M rho po sko : rows_ok lv M ->
  traced (fun T => forall (JJ : Junk) pk sk buf sigma,
    (po + KYBER_INDCPA_PUBLICKEYBYTES lv <= length pk)%nat ->
    (sko + KYBER_INDCPA_SECRETKEYBYTES lv <= length sk)%nat ->
    length buf = 64%nat -> bytes buf -> sub buf 0 32 = rho -> sub buf 32 32 = sigma ->
    wp (keypair_rest_avx2 lv pk po sk sko buf (avx_matrix M)) T
       (fun st => st =
          (splice pk po (flat_map (ByteEncode 12)
             (zipadd (map (fun row => ntt_dot row (sec lv sigma)) M) (err lv sigma)) ++ rho),
           splice sk sko (flat_map (ByteEncode 12) (sec lv sigma))))).
Proof.
  intros HM. pose proof (K_range lv) as HK.
  destruct (keypair_noise_wp lv 32) as [T3 W3].
  destruct (polyvec_ntt_avx2_wp lv) as [T5 W5].
  destruct (matvec_avx_wp lv M HM) as [T6 W6].
  destruct (polyvec_add_to_avx2_wp lv) as [T7 W7].
  destruct (polyvec_reduce_avx2_wp lv) as [T8 W8].
  destruct (polyvec_tobytes_avx2_wp lv sko) as [T9 W9].
  destruct (polyvec_tobytes_avx2_wp lv po) as [T10 W10].
  destruct (memcpy_wp (po + KYBER_POLYVECBYTES lv) 0 32) as [T11 W11].
  eexists. intros JJ pk sk buf sigma Hpk Hsk Lb Bb Er Es. unfold keypair_rest_avx2.
  unfold KYBER_INDCPA_PUBLICKEYBYTES, KYBER_INDCPA_SECRETKEYBYTES in *. change KYBER_SYMBYTES with 32%nat in *.
  pose proof (eta1_le lv) as He.
  pose proof (sec_canon lv sigma) as Sc.
  wstep. eapply wp_conseq.
  { apply (W3 JJ _ _ _ buf sigma (local_polyvec_shaped lv) (local_polyvec_shaped lv) (local_polyvec_shaped lv)).
    refine (conj _ (conj Bb Es)). lia. }
  intros [[s0 e0] p0] (-> & -> & Sp). cbv beta iota.
  wstep. eapply wp_conseq.
  { apply (W5 JJ). eapply vbnd_weaken; [| |apply noisez_vbnd; exact He]; lia. }
  intros s1 [Bs1 Cs1].
  pose proof (ntt_noise_avx _ _ _ _ _ He Cs1) as Hs1. rewrite <- sec_eq in Hs1.
  wstep. eapply wp_conseq.
  { apply (W8 JJ). eapply vbnd_weaken; [| |exact Bs1]; lia. }
  intros s [Bs Cs]. pose proof (vheld_of _ _ _ _ Hs1 Cs) as Hs.
  wstep. eapply wp_conseq.
  { apply (W5 JJ). eapply vbnd_weaken; [| |apply noisez_vbnd; exact He]; lia. }
  intros e [Be Ce].
  pose proof (ntt_noise_avx _ _ _ _ _ He Ce) as Hee. rewrite <- err_eq in Hee.
  assert (Ws : wfvec (KYBER_K lv) (sec lv sigma)).
  { split; [apply sec_length|]. intros i Hi. now apply Sc. }
  wstep. eapply wp_conseq; [apply (W6 JJ _ s (sec lv sigma) Sp Bs Ws Hs)|].
  intros p [Bp Cp].
  wstep. eapply wp_conseq; [apply (W7 p e 2341 16182 Bp Be); lia|].
  intros p2 [Bp2 Ep2].
  wstep. eapply wp_conseq.
  { apply (W8 JJ). eapply vbnd_weaken; [| |exact Bp2]; lia. }
  intros p3 [Bp3 Cp3].
  assert (LA : length M = KYBER_K lv) by apply HM.
  set (t := zipadd (map (fun row => ntt_dot row (sec lv sigma)) M) (err lv sigma)).
  assert (Lt : length t = KYBER_K lv).
  { unfold t. rewrite zipadd_length; rewrite map_length; [exact LA|]. now rewrite err_length. }
  assert (Nt : forall i, (i < KYBER_K lv)%nat -> nth i t [] = padd (ntt_dot (nth i M []) (sec lv sigma)) (nth i (err lv sigma) [])).
  { intros i Hi. unfold t.
    rewrite zipadd_nth by (unfold polyvec in *; rewrite map_length, ?err_length; lia).
    now rewrite (map_nth_lt (fun row => ntt_dot row (sec lv sigma)) M i [] []) by (unfold polyvec in *; lia). }
  assert (Tc : forall i, (i < KYBER_K lv)%nat -> canon (nth i t [])).
  { intros i Hi. rewrite Nt by auto. apply padd_canon. }
  assert (Wt : wfvec (KYBER_K lv) t).
  { split; [exact Lt|]. intros i Hi. now apply Tc. }
  assert (Ht : vheld (KYBER_K lv) t p3).
  { intros i Hi. eapply lcong_trans; [apply Cp3; exact Hi|]. rewrite (Ep2 i Hi), (Nt i Hi).
    apply avx_order_padd; [apply Cp; exact Hi|apply Hee; exact Hi]. }
  wstep. unfold pack_sk_avx2. eapply wp_conseq.
  { apply (W9 JJ sk s (sec lv sigma)); [exact Hsk|eapply vbnd_weaken; [| |exact Bs]; lia|exact Ws|exact Hs]. }
  intros sk' ->.
  wstep. unfold pack_pk_avx2. wstep. eapply wp_conseq.
  { apply (W10 JJ pk p3 t); [lia|eapply vbnd_weaken; [| |exact Bp3]; lia|exact Wt|exact Ht]. }
  intros pk' ->.
  rewrite (canonical_flat _ _ (sec_length lv sigma) Sc), (canonical_flat _ _ Lt Tc).
  assert (Ltb : length (flat_map (ByteEncode 12) t) = KYBER_POLYVECBYTES lv).
  { rewrite <- (canonical_flat _ _ Lt Tc). rewrite (flat_map_12_length canonical_bytes t canonical_bytes_length).
    rewrite Lt. unfold KYBER_POLYVECBYTES, KYBER_POLYBYTES. lia. }
  eapply wp_conseq.
  { apply W11; [rewrite splice_length; lia|lia]. }
  intros pk2 ->. wstep. f_equal. fold (sub buf 0 32). rewrite Er.
  apply splice_splice_next; [lia|]. rewrite <- Er, sub_length; lia.
Qed.

Lemma indcpa_keypair_derand_avx2_wp lv fuel rho po sko co : enough_all lv fuel rho ->
  traced (fun T => forall (JJ : Junk) pk sk coins,
    (po + KYBER_INDCPA_PUBLICKEYBYTES lv <= length pk)%nat ->
    (sko + KYBER_INDCPA_SECRETKEYBYTES lv <= length sk)%nat ->
    (co + 32 <= length coins)%nat -> bytes coins -> keygen_rho (PS lv) (sub coins co 32) = rho ->
    wp (indcpa_keypair_derand_avx2 lv fuel pk po sk sko coins co) T
       (fun st => let K := K_PKE_KeyGen (PS lv) (matrix lv fuel rho false) (sub coins co 32) in
          st = (splice pk po (fst K), splice sk sko (snd K)))).
Proof.
  intros HE.
  destruct (expand_wp lv co) as [T1 W1].
  destruct (gen_matrix_avx2_wp lv fuel 0 rho false HE) as [T2 W2].
  destruct (keypair_rest_avx2_wp lv (matrix lv fuel rho false) rho po sko (matrix_rows lv fuel rho false HE)) as [T3 W3].
  exists (T1 ++ (T2 ++ T3)). intros JJ pk sk coins Hpk Hsk Hc Hb Hrho. rewrite keypair_split_avx2.
  apply wp_bind. eapply wp_conseq; [apply (W1 JJ coins Hc Hb)|]. intros buf ->.
  destruct (keygen_seeds lv (sub coins co 32)) as (Lb & Bb & Er & Es). rewrite Hrho in Er.
  set (buf := G _) in *.
  apply wp_bind. eapply wp_conseq; [apply (W2 JJ _ buf (local_matrix_wf lv))|].
  { refine (conj _ (conj Bb Er)). lia. }
  intros a ->. eapply wp_conseq; [apply (W3 JJ pk sk buf _ Hpk Hsk Lb Bb Er Es)|].
  intros st ->. cbv zeta. unfold K_PKE_KeyGen. rewrite Hrho. reflexivity.
Qed.

Lemma indcpa_keypair_derand_avx2_timeout lv fuel po sko co :
  forall (JJ : Junk) pk sk coins, (co + 32 <= length coins)%nat -> bytes coins ->
    ~ enough_all lv fuel (keygen_rho (PS lv) (sub coins co 32)) ->
    indcpa_keypair_derand_avx2 lv fuel pk po sk sko coins co = Timeout.
Proof.
  intros JJ pk sk coins Hc Hb HN. rewrite keypair_split_avx2.
  destruct (expand_wp lv co) as [T1 W1].
  eapply bind_timeout; [apply (W1 JJ coins Hc Hb)|]. intros buf ->.
  destruct (keygen_seeds lv (sub coins co 32)) as (Lb & Bb & Er & Es).
  apply bind_timeout_l. eapply gen_matrix_avx2_timeout; [exact HN|apply local_matrix_wf|].
  refine (conj _ (conj Bb Er)). lia.
Qed.
