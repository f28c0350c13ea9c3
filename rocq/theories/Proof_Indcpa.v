(** * indcpa.c against K-PKE of FIPS 203: shared facts, key generation *)
From Coq Require Import ZArith List Lia Bool.
From Verif Require Import CMonad WP Modq Sums Proof_Base Proof_Bits Levels Model_Params Model_Fips202 Model_Symmetric
  Model_NTT Model_Poly Model_Polyvec Model_Indcpa Spec_FIPS202 Spec_FIPS203 Proof_Keccak Proof_Shake Proof_Hash
  Proof_NTT Proof_NTTSpec Proof_Poly Proof_Polyvec Proof_Compress Proof_Codec Proof_Codec2 Proof_PolyvecCodec Proof_CBD
  Proof_Symmetric Proof_GenMatrix.
Import ListNotations.
Open Scope Z_scope.

(** ** Sub-arrays *)
Lemma sub_sub {A} (l : list A) o n o' n' : (o' + n' <= n)%nat -> sub (sub l o n) o' n' = sub l (o + o') n'.
Proof.
  intros H. unfold sub. rewrite skipn_firstn_comm, firstn_firstn, skipn_skipn.
  now rewrite Nat.min_l by lia.
Qed.
Lemma firstn_sub {A} (l : list A) m : firstn m l = sub l 0 m.
Proof. reflexivity. Qed.
Lemma skipn_sub {A} (l : list A) m n : (m + n = length l)%nat -> skipn m l = sub l m n.
Proof. intros H. unfold sub. rewrite firstn_all2; [reflexivity|]. rewrite skipn_length. lia. Qed.

Lemma sub_app_l {A} (a b : list A) n : length a = n -> sub (a ++ b) 0 n = a.
Proof. intros <-. unfold sub. cbn [skipn]. rewrite firstn_app, Nat.sub_diag, firstn_all. cbn [firstn]. apply app_nil_r. Qed.
Lemma sub_app_r {A} (a b : list A) m n : length a = m -> length b = n -> sub (a ++ b) m n = b.
Proof.
  intros <- <-. unfold sub. rewrite skipn_app, Nat.sub_diag, skipn_all. cbn [skipn app]. apply firstn_all.
Qed.

(** ** Polynomials and vectors up to congruence *)
Lemma canonical_cong x y : lcong x y -> canon y -> canonical x = y.
Proof.
  intros C [Ly Ry]. unfold canonical. apply (list_eq_nth 0); [now rewrite mk_length|].
  intros i Hi. rewrite mk_length in Hi. rewrite nth_mk by auto.
  rewrite (mod_cong _ _ (lcong_nth _ _ i C)). apply Z.mod_small. auto.
Qed.

Lemma compressed_cong d x y : lcong x y -> canon y -> compressed d x = map (Compress d) y.
Proof.
  intros C Cy. rewrite <- (canonical_cong x y C Cy). unfold compressed, canonical. now rewrite map_mk.
Qed.

Lemma flat_map_nth {A B} (d : A) (d' : B) (g : A -> list Z) (g' : B -> list Z) v w :
  length v = length w -> (forall i, (i < length v)%nat -> g (nth i v d) = g' (nth i w d')) ->
  flat_map g v = flat_map g' w.
Proof.
  revert w. induction v as [|x v IH]; intros [|y w] L E; try discriminate; [reflexivity|].
  cbn [flat_map]. f_equal; [apply (E 0%nat); cbn; lia|].
  apply IH; [cbn in L; lia|]. intros i Hi. apply (E (S i)). cbn; lia.
Qed.

Lemma scale_mont r : length r = 256%nat -> lcong (scale 65536 (scale 169 r)) r.
Proof.
  intros L. eapply lcong_trans; [apply scale_scale|]. split; [now rewrite scale_length|].
  intros i Hi. rewrite scale_length in Hi. rewrite nth_scale by auto. rewrite R_Rinv. apply cong_eq. lia.
Qed.

Lemma NTTinv_scale c F : lcong (NTTinv (scale c F)) (scale c (NTTinv F)).
Proof.
  apply lcong_parity; [apply NTTinv_length|apply scale_length|]. intros e b He Hb.
  rewrite nth_scale by (destruct Hb; lia). rewrite !NTTinv_nth by auto.
  rewrite !cong_mod. apply cong_eq. unfold invntt_sum.
  rewrite (sumz_ext 128 (fun i => coef (scale c F) (2 * i + b) * gamma_inv i ^ Z.of_nat e)
     (fun i => c * (coef F (2 * i + b) * gamma_inv i ^ Z.of_nat e))).
  - rewrite sumz_scale. lia.
  - intros i Hi. unfold coef. rewrite nth_scale by (destruct Hb; lia). lia.
Qed.

Lemma padd_cong x y f g : lcong x f -> lcong y g -> lcong (zadd x y) (padd f g).
Proof.
  intros A B. split; [unfold zadd; now rewrite mk_length, padd_length|]. intros i Hi.
  unfold zadd in *. rewrite mk_length in Hi. rewrite nth_mk by auto. unfold padd. rewrite nth_mkpoly by auto.
  unfold coef. change q with 3329. rewrite cong_mod, (lcong_nth _ _ i A), (lcong_nth _ _ i B). reflexivity.
Qed.

Lemma psub_cong x y f g : lcong x f -> lcong y g -> lcong (zsub x y) (psub f g).
Proof.
  intros A B. split; [unfold zsub; now rewrite mk_length, psub_length|]. intros i Hi.
  unfold zsub in *. rewrite mk_length in Hi. rewrite nth_mk by auto. unfold psub. rewrite nth_mkpoly by auto.
  unfold coef. change q with 3329. rewrite cong_mod, (lcong_nth _ _ i A), (lcong_nth _ _ i B). reflexivity.
Qed.

Lemma zipadd_length a b : length a = length b -> length (zipadd a b) = length a.
Proof. revert b. induction a as [|x a IH]; intros [|y b] L; try discriminate; cbn in *; auto. Qed.
Lemma zipadd_nth a b i : length a = length b -> (i < length a)%nat ->
  nth i (zipadd a b) [] = padd (nth i a []) (nth i b []).
Proof.
  revert b i. induction a as [|x a IH]; intros [|y b] i L Hi; try discriminate; cbn in *; [lia|].
  destruct i; [reflexivity|]. apply IH; lia.
Qed.

Lemma map_nth_lt {A B} (g : A -> B) l i d d' : (i < length l)%nat -> nth i (map g l) d = g (nth i l d').
Proof.
  intros H. rewrite (nth_indep _ d (g d')) by (now rewrite map_length). apply map_nth.
Qed.

(** ** Noise vectors *)
Definition noisez (eta : nat) (seed : list Z) (start count : nat) : list (list Z) :=
  mk count (fun i => mk 256 (cbdz eta (PRF eta seed (Z.of_nat (start + i))))).

Lemma noise_mk eta seed start count :
  noise eta seed start count = mk count (fun i => SamplePolyCBD eta (PRF eta seed (Z.of_nat (start + i)))).
Proof.
  unfold noise, mk. revert start. induction count as [|c IH]; intros start; [reflexivity|].
  cbn [seq map]. f_equal; [now rewrite Nat.add_0_r|]. rewrite IH. rewrite <- seq_shift, map_map.
  apply map_ext. intros i. now rewrite Nat.add_succ_r.
Qed.

Lemma noise_length eta seed s c : length (noise eta seed s c) = c.
Proof. now rewrite noise_mk, mk_length. Qed.
Lemma noise_nth eta seed s c i : (i < c)%nat ->
  nth i (noise eta seed s c) [] = SamplePolyCBD eta (PRF eta seed (Z.of_nat (s + i))).
Proof. intros. rewrite noise_mk. now rewrite nth_mk. Qed.
Lemma noisez_nth eta seed s c i : (i < c)%nat ->
  nth i (noisez eta seed s c) [] = mk 256 (cbdz eta (PRF eta seed (Z.of_nat (s + i)))).
Proof. intros. unfold noisez. now rewrite nth_mk. Qed.

Lemma cbd_bnd eta B : (eta <= 3)%nat -> bnd (-3) 3 (mk 256 (cbdz eta B)).
Proof. intros He. apply bnd_mk. intros i _. pose proof (cbdz_range eta B i). lia. Qed.

Lemma noisez_vbnd eta seed s c : (eta <= 3)%nat -> vbnd c (-3) 3 (noisez eta seed s c).
Proof.
  intros He. split; [apply mk_length|]. intros i Hi. rewrite noisez_nth by auto.
  split; [apply mk_length|now apply cbd_bnd].
Qed.

Lemma noisez_lcong eta seed s c i : (i < c)%nat ->
  lcong (nth i (noisez eta seed s c) []) (nth i (noise eta seed s c) []).
Proof. intros. rewrite noisez_nth, noise_nth by auto. apply SamplePolyCBD_cbdz. Qed.

Definition shaped (K : nat) (v : polyvec) : Prop :=
  length v = K /\ forall i, (i < K)%nat -> length (nth i v []) = 256%nat.

Lemma eta1_le lv : (eta1 (PS lv) <= 3)%nat. Proof. destruct lv; cbn; lia. Qed.

Lemma local_polyvec_shaped `{JJ : Junk} lv : shaped (KYBER_K lv) (local_polyvec lv).
Proof.
  split; [apply repeat_length|]. intros i Hi. unfold local_polyvec.
  rewrite (nth_indep _ [] local_poly) by (now rewrite repeat_length).
  rewrite nth_repeat. apply local_length.
Qed.

Lemma local_matrix_wf `{JJ : Junk} lv : wfmatrix lv (local_matrix lv).
Proof.
  split; [apply repeat_length|]. intros i Hi. unfold local_matrix.
  rewrite (nth_indep _ [] (local_polyvec lv)) by (now rewrite repeat_length).
  rewrite nth_repeat. apply local_polyvec_shaped.
Qed.

Lemma upd_mk_step {A} (d : A) (v : list A) (f : nat -> A) i K : length v = K -> (i < K)%nat ->
  upd (splice v 0 (mk i f)) i (f i) = splice v 0 (mk (S i) f).
Proof.
  intros L Hi. rewrite splice_snoc by (rewrite ?mk_length; lia). now rewrite mk_S.
Qed.

Lemma getnoise_vec_eta1_wp lv so n0 : (n0 + KYBER_K lv <= 255)%nat ->
  traced (fun T => forall (JJ : Junk) v seed, shaped (KYBER_K lv) v -> (so + 32 <= length seed)%nat -> bytes seed ->
    wp (getnoise_vec_eta1 lv v seed so (Z.of_nat n0)) T
       (fun st => st = (noisez (eta1 (PS lv)) (sub seed so 32) n0 (KYBER_K lv), Z.of_nat (n0 + KYBER_K lv)))).
Proof.
  intros Hn. pose proof (fun nonce => proj2_sig (poly_getnoise_eta1_wp lv so nonce)) as W1.
  eexists. intros JJ v seed [Lv Sv] Hs Hb. unfold getnoise_vec_eta1, noisez.
  set (f := fun i => mk 256 (cbdz (eta1 (PS lv)) (PRF (eta1 (PS lv)) (sub seed so 32) (Z.of_nat (n0 + i))))).
  eapply (wp_for _ (fun i st => st = (splice v 0 (mk i f), Z.of_nat (n0 + i)))).
  - cbn [mk seq map]. now rewrite splice_nil, Nat.add_0_r.
  - intros i st Hi ->.
    assert (Ls : length (splice v 0 (mk i f)) = KYBER_K lv) by (rewrite splice_length; rewrite ?mk_length; lia).
    wstep. eapply (wp_aget []); [lia|]. wstep. eapply wp_conseq; [apply (W1 (Z.of_nat (n0 + i)) JJ)|].
    + rewrite nth_splice by (rewrite mk_length; lia). rewrite mk_length.
      destruct (Nat.ltb_spec i 0); [lia|]. destruct (Nat.ltb_spec i (0 + i)); [lia|]. apply Sv. lia.
    + exact Hs.
    + exact Hb.
    + lia.
    + intros r ->. wstep. wstep; [lia|]. wstep. fold (f i).
      rewrite (upd_mk_step [] v f i (KYBER_K lv)) by (auto; lia). rewrite u8_small by lia.
      now replace (Z.of_nat (n0 + i) + 1) with (Z.of_nat (n0 + S i)) by lia.
  - intros st ->. cbn [Nat.add]. rewrite splice_full by (rewrite mk_length; auto). reflexivity.
Qed.

Lemma getnoise_vec_eta2_wp lv so n0 : (n0 + KYBER_K lv <= 255)%nat ->
  traced (fun T => forall (JJ : Junk) v seed, shaped (KYBER_K lv) v -> (so + 32 <= length seed)%nat -> bytes seed ->
    wp (getnoise_vec_eta2 lv v seed so (Z.of_nat n0)) T
       (fun st => st = (noisez 2 (sub seed so 32) n0 (KYBER_K lv), Z.of_nat (n0 + KYBER_K lv)))).
Proof.
  intros Hn. pose proof (fun nonce => proj2_sig (poly_getnoise_eta2_wp so nonce)) as W1.
  eexists. intros JJ v seed [Lv Sv] Hs Hb. unfold getnoise_vec_eta2, noisez.
  set (f := fun i => mk 256 (cbdz 2 (PRF 2 (sub seed so 32) (Z.of_nat (n0 + i))))).
  eapply (wp_for _ (fun i st => st = (splice v 0 (mk i f), Z.of_nat (n0 + i)))).
  - cbn [mk seq map]. now rewrite splice_nil, Nat.add_0_r.
  - intros i st Hi ->.
    assert (Ls : length (splice v 0 (mk i f)) = KYBER_K lv) by (rewrite splice_length; rewrite ?mk_length; lia).
    wstep. eapply (wp_aget []); [lia|]. wstep. eapply wp_conseq; [apply (W1 (Z.of_nat (n0 + i)) JJ)|].
    + rewrite nth_splice by (rewrite mk_length; lia). rewrite mk_length.
      destruct (Nat.ltb_spec i 0); [lia|]. destruct (Nat.ltb_spec i (0 + i)); [lia|]. apply Sv. lia.
    + exact Hs.
    + exact Hb.
    + lia.
    + intros r ->. wstep. wstep; [lia|]. wstep. fold (f i).
      rewrite (upd_mk_step [] v f i (KYBER_K lv)) by (auto; lia). rewrite u8_small by lia.
      now replace (Z.of_nat (n0 + i) + 1) with (Z.of_nat (n0 + S i)) by lia.
  - intros st ->. cbn [Nat.add]. rewrite splice_full by (rewrite mk_length; auto). reflexivity.
Qed.

(** NTT of a noise vector *)
Lemma ntt_noise eta seed s c w : (eta <= 3)%nat ->
  vrel c (fun i x => lcong x (NTT (nth i (noisez eta seed s c) []))) w ->
  forall i, (i < c)%nat -> lcong (nth i w []) (nth i (map NTT (noise eta seed s c)) []).
Proof.
  intros He V i Hi. rewrite (map_nth_lt NTT _ i [] []) by (now rewrite noise_length).
  rewrite <- (NTT_cong _ _ (noisez_lcong eta seed s c i Hi)). apply V. exact Hi.
Qed.

(** ** The matrix *)
Lemma matrix_vbnd lv fuel rho transposed i : (i < KYBER_K lv)%nat -> enough_all lv fuel rho ->
  vbnd (KYBER_K lv) 0 3328 (nth i (matrix lv fuel rho transposed) []).
Proof.
  intros Hi HE. unfold matrix. rewrite nth_mk by auto. split; [apply mk_length|]. intros j Hj. rewrite nth_mk by auto.
  split; [apply sampled_length; now apply (entry_input_all lv)|apply sampled_range].
Qed.

Lemma enough_all_dec lv fuel rho : {enough_all lv fuel rho} + {~ enough_all lv fuel rho}.
Proof.
  unfold enough_all. generalize (KYBER_K lv) at 2 4 as r. intros r. generalize (KYBER_K lv) as m. 
  induction m as [|m [IH|IH]].
  - left. intros; lia.
  - assert (D : {forall j, (j < r)%nat -> enough fuel (rho ++ [Z.of_nat j; Z.of_nat m])} +
                {~ forall j, (j < r)%nat -> enough fuel (rho ++ [Z.of_nat j; Z.of_nat m])}).
    { clear IH. induction r as [|r [IH|IH]].
      - left. intros; lia.
      - destruct (enough_dec fuel (rho ++ [Z.of_nat r; Z.of_nat m])) as [E|E].
        + left. intros j Hj. destruct (Nat.eq_dec j r) as [->|]; [exact E|]. apply IH. lia.
        + right. intros HH. apply E. apply HH. lia.
      - right. intros HH. apply IH. intros j Hj. apply HH. lia. }
    destruct D as [D|D].
    + left. intros i j Hi Hj. destruct (Nat.eq_dec i m) as [->|]; [now apply D|]. apply IH; lia.
    + right. intros HH. apply D. intros j Hj. apply HH; lia.
  - right. intros HH. apply IH. intros i j Hi Hj. apply HH; lia.
Qed.
