(** * Proofs about the arithmetic of poly.c and polyvec.c *)
From Coq Require Import ZArith List Lia Bool.
From Verif Require Import CMonad WP Proof_Base Modq Sums Model_Params Model_Reduce Model_NTT Model_Poly
  Model_Polyvec Proof_Reduce Proof_NTT Proof_NTTSpec Proof_RingMul Spec_FIPS203.
Import ListNotations.
Open Scope Z_scope.

(** In-place loops over any element type *)
Lemma wp_pointwise_gen {A} (d : A) (tb : nat -> trace) (Q : nat -> A -> A -> Prop) n body (l : list A) :
  length l = n ->
  (forall i r, (i < n)%nat -> length r = n -> nth i r d = nth i l d ->
     wp (body i r) (tb i) (fun r' => exists v, r' = upd r i v /\ Q i (nth i l d) v)) ->
  wp (for_ n 0 body l) (for_trace tb 0 n)
     (fun l' => length l' = n /\ forall i, (i < n)%nat -> Q i (nth i l d) (nth i l' d)).
Proof.
  intros Hl Hb.
  eapply (wp_for tb (fun i r => length r = n /\
            (forall j, (j < i)%nat -> Q j (nth j l d) (nth j r d)) /\
            (forall j, (i <= j)%nat -> nth j r d = nth j l d))).
  - repeat split; auto. intros; lia.
  - intros i r Hi (Hr & H1 & H2). eapply wp_conseq; [apply Hb; auto; lia|].
    intros r' (v & -> & Hv). split; [now rewrite upd_length|]. split.
    + intros j Hj. destruct (Nat.eq_dec j i) as [->|].
      * now rewrite nth_upd_eq by lia.
      * rewrite nth_upd_neq by lia. apply H1. lia.
    + intros j Hj. rewrite nth_upd_neq by lia. apply H2. lia.
  - intros r (Hr & H1 & H2). split; [lia|]. intros i Hi. apply H1. lia.
Qed.

Definition int16s (r : list Z) : Prop := bnd (-32768) 32767 r.

Lemma babs_int16s B r : B <= 32767 -> babs B r -> int16s r.
Proof. intros. eapply bnd_weaken; eauto; lia. Qed.

Lemma babs_weaken B B' r : B <= B' -> babs B r -> babs B' r.
Proof. intros. eapply bnd_weaken; eauto; lia. Qed.

Lemma int16s_nth r i : int16s r -> -32768 <= nth i r 0 <= 32767.
Proof. intros. apply bnd_nth0; auto. lia. Qed.

Lemma upd_upd {A} (l : list A) i x y : upd (upd l i x) i y = upd l i y.
Proof. revert i; induction l; intros [|i]; simpl; auto. now rewrite IHl. Qed.

(** poly_reduce *)
Lemma poly_reduce_wp :
  traced (fun T => forall r, length r = 256%nat -> int16s r ->
    wp (poly_reduce r) T (fun r' => length r' = 256%nat /\ babs 1664 r' /\ lcong r' r)).
Proof.
  eexists. intros r Hl Hr. unfold poly_reduce, KYBER_N.
  eapply wp_conseq.
  { eapply (wp_pointwise_gen 0 _ (fun i x y => -1664 <= y <= 1664 /\ y ≡ x)); auto.
    intros i r1 Hi Hl1 E. wstep. wstep; [lia|]. wstep.
    eapply wp_conseq; [apply barrett_reduce_wp; rewrite E; apply int16s_nth; auto|].
    intros d (Hd & Ed). wstep; [lia|]. eexists. split; [reflexivity|]. rewrite <- E. auto. }
  intros r' (Hl' & H'). split; auto. split.
  - intros i Hi. apply H'. lia.
  - split; [congruence|]. intros i Hi. apply H'. lia.
Qed.

Lemma poly_ntt_wp :
  traced (fun T => forall r, length r = 256%nat -> babs 9471 r ->
    wp (poly_ntt r) T (fun r' => length r' = 256%nat /\ babs 1664 r' /\ lcong r' (NTT r))).
Proof.
  eexists. intros r Hl Hr. unfold poly_ntt. wstep. eapply wp_conseq.
  { apply (proj2_sig ntt_wp 9471 r); auto; lia. }
  intros r1 (Hl1 & Hb1 & Hc1). eapply wp_conseq.
  { apply (proj2_sig poly_reduce_wp r1); auto. eapply babs_int16s; [|eauto]. lia. }
  intros r2 (Hl2 & Hb2 & Hc2). split; auto. split; auto.
  etransitivity; [exact Hc2|]. etransitivity; [exact Hc1|]. apply ntt_z_spec. auto.
Qed.

Lemma poly_invntt_tomont_wp :
  traced (fun T => forall r, length r = 256%nat -> babs 16383 r ->
    wp (poly_invntt_tomont r) T
       (fun r' => length r' = 256%nat /\ babs 3328 r' /\ lcong r' (scale 65536 (NTTinv r)))).
Proof.
  eexists. intros r Hl Hr. unfold poly_invntt_tomont. eapply wp_conseq.
  { apply (proj2_sig invntt_wp 16383 r); auto; lia. }
  intros r1 (Hl1 & Hb1 & Hc1). split; auto. split; auto.
  etransitivity; [exact Hc1|]. apply invntt_z_spec. auto.
Qed.

(** poly_add / poly_sub *)
Definition oval (r : list Z) (o : operand) (i : nat) : Z :=
  match o with Self => nth i r 0 | Other l => nth i l 0 end.
Definition olen (o : operand) : Prop := match o with Self => True | Other l => length l = 256%nat end.

Lemma oget_wp r o i (Q : Z -> Prop) : (i < 256)%nat -> length r = 256%nat -> olen o ->
  Q (oval r o i) -> wp (oget r o i) [EvIndex i] Q.
Proof. intros Hi Hr Ho HQ. destruct o; simpl in *; eapply (wp_aget 0); auto; lia. Qed.

Lemma poly_add_wp :
  traced (fun T => forall r a b, length r = 256%nat -> olen a -> olen b ->
    (forall i, (i < 256)%nat -> -32768 <= oval r a i + oval r b i <= 32767) ->
    wp (poly_add r a b) T (fun r' => r' = mk 256 (fun i => oval r a i + oval r b i))).
Proof.
  eexists. intros r a b Hl Ha Hb HB. unfold poly_add, KYBER_N.
  eapply wp_conseq.
  { eapply (wp_pointwise_gen 0 _ (fun i x y => y = oval r a i + oval r b i)); auto.
    intros i r1 Hi Hl1 E.
    assert (Ea : oval r1 a i = oval r a i) by (destruct a; simpl; auto).
    assert (Eb : oval r1 b i = oval r b i) by (destruct b; simpl; auto).
    specialize (HB i Hi).
    wstep. eapply oget_wp; auto. wstep. eapply oget_wp; auto. wstep. wstep; [lia|]. wstep; [lia|].
    eexists. split; [reflexivity|]. rewrite i16_small by lia. lia. }
  intros r' (Hl' & H'). apply (list_eq_nth 0); [now rewrite mk_length|].
  intros i Hi. rewrite nth_mk by lia. apply H'. lia.
Qed.

Lemma poly_sub_wp :
  traced (fun T => forall r a b, length r = 256%nat -> olen a -> olen b ->
    (forall i, (i < 256)%nat -> -32768 <= oval r a i - oval r b i <= 32767) ->
    wp (poly_sub r a b) T (fun r' => r' = mk 256 (fun i => oval r a i - oval r b i))).
Proof.
  eexists. intros r a b Hl Ha Hb HB. unfold poly_sub, KYBER_N.
  eapply wp_conseq.
  { eapply (wp_pointwise_gen 0 _ (fun i x y => y = oval r a i - oval r b i)); auto.
    intros i r1 Hi Hl1 E.
    assert (Ea : oval r1 a i = oval r a i) by (destruct a; simpl; auto).
    assert (Eb : oval r1 b i = oval r b i) by (destruct b; simpl; auto).
    specialize (HB i Hi).
    wstep. eapply oget_wp; auto. wstep. eapply oget_wp; auto. wstep. wstep; [lia|]. wstep; [lia|].
    eexists. split; [reflexivity|]. rewrite i16_small by lia. lia. }
  intros r' (Hl' & H'). apply (list_eq_nth 0); [now rewrite mk_length|].
  intros i Hi. rewrite nth_mk by lia. apply H'. lia.
Qed.

(** poly_tomont: multiplication by 2^16 *)
Lemma poly_tomont_wp :
  traced (fun T => forall r, length r = 256%nat -> int16s r ->
    wp (poly_tomont r) T (fun r' => length r' = 256%nat /\ babs 3328 r' /\ lcong r' (scale 65536 r))).
Proof.
  eexists. intros r Hl Hr. unfold poly_tomont, KYBER_N.
  eapply wp_conseq.
  { eapply (wp_pointwise_gen 0 _ (fun i x y => -3328 <= y <= 3328 /\ y ≡ 65536 * x)); auto.
    intros i r1 Hi Hl1 E. pose proof (int16s_nth r i Hr).
    wstep. wstep; [lia|]. change tomont_f with 1353. wstep. wstep; [lia|]. wstep.
    eapply wp_conseq; [apply montgomery_reduce_doc; lia|].
    intros d (Hd & Ed). wstep; [lia|]. eexists. split; [reflexivity|]. split; [lia|].
    apply cong_R_cancel. rewrite Ed, E.
    replace (65536 * nth i r 0 * 65536) with (65536 * 65536 * nth i r 0) by lia.
    rewrite Z.mul_comm. assert (K : 1353 ≡ 65536 * 65536) by (apply cong_dec; reflexivity).
    rewrite <- K. reflexivity. }
  intros r' (Hl' & H'). split; auto. split.
  - intros i Hi. apply H'. lia.
  - split; [now rewrite scale_length|]. intros i Hi. rewrite nth_scale by lia. apply H'. lia.
Qed.

(** basemul: one product modulo X^2 - zeta *)
Lemma basemul_wp ro ao bo :
  traced (fun T => forall r a b zeta z,
    (ro + 1 < length r)%nat -> (ao + 1 < length a)%nat -> (bo + 1 < length b)%nat ->
    (forall i, -32768 <= nth i a 0 <= 32767) -> (forall i, -3328 <= nth i b 0 <= 3328) ->
    -1664 <= zeta <= 1664 -> zeta * 169 ≡ z ->
    wp (basemul r ro a ao b bo zeta) T
       (fun r' => exists v0 v1, r' = upd (upd r ro v0) (ro + 1) v1 /\
          -6656 <= v0 <= 6656 /\ -6656 <= v1 <= 6656 /\
          v0 ≡ 169 * (nth ao a 0 * nth bo b 0 + nth (ao + 1) a 0 * nth (bo + 1) b 0 * z) /\
          v1 ≡ 169 * (nth ao a 0 * nth (bo + 1) b 0 + nth (ao + 1) a 0 * nth bo b 0))).
Proof.
  eexists. intros r a b zeta z Hr Ha Hb Ba Bb Hz Ez. unfold basemul.
  rewrite !Nat.add_0_r.
  pose proof (Ba ao). pose proof (Ba (ao + 1)%nat). pose proof (Bb bo). pose proof (Bb (bo + 1)%nat).
  Ltac lk := wstep; wstep; [slen|].
  Ltac fq L t Ht Et := wstep; eapply wp_conseq; [apply L; lia|]; intros t (Ht & Et); apply mont_unscale in Et.
  lk. lk. fq fqmul_small t1 Ht1 Et1. lk. lk. rewrite nth_upd_eq by lia.
  fq fqmul_small t2 Ht2 Et2. lk. lk. lk.
  fq fqmul_small t3 Ht3 Et3. lk. rewrite upd_upd, nth_upd_eq by lia.
  wstep. wstep; [lia|]. rewrite i16_small by lia. lk. rewrite upd_upd. lk. lk.
  fq fqmul_small t4 Ht4 Et4. lk. lk. lk.
  fq fqmul_small t5 Ht5 Et5. lk. rewrite nth_upd_eq by slen.
  wstep. wstep; [lia|]. rewrite i16_small by lia. wstep; [slen|]. rewrite upd_upd.
  exists (t2 + t3), (t4 + t5). split; auto. split; [lia|]. split; [lia|]. split.
  - rewrite Et2, Et3, Et1, <- Ez. apply cong_eq. lia.
  - rewrite Et4, Et5. apply cong_eq. lia.
Qed.

(** The zetas used by poly_basemul_montgomery are the gammas. *)
Lemma zstd_gamma i : (i < 64)%nat -> zstd (64 + i) ≡ gamma (2 * i) /\ - zstd (64 + i) ≡ gamma (2 * i + 1).
Proof.
  intros Hi.
  assert (H : forallb (fun i => ((zstd (64 + i) - gamma (2 * i)) mod 3329 =? 0) &&
                                ((- zstd (64 + i) - gamma (2 * i + 1)) mod 3329 =? 0)) (seq 0 64) = true)
    by (vm_compute; reflexivity).
  rewrite forallb_forall in H. specialize (H i ltac:(apply in_seq; lia)).
  rewrite andb_true_iff, !Z.eqb_eq in H. destruct H. split; apply cong_dec; auto.
Qed.

Lemma poly_basemul_montgomery_wp :
  traced (fun T => forall r a b,
    length r = 256%nat -> length a = 256%nat -> length b = 256%nat -> int16s a -> babs 3328 b ->
    wp (poly_basemul_montgomery r a b) T
       (fun r' => length r' = 256%nat /\ babs 6656 r' /\ lcong r' (scale 169 (MultiplyNTTs a b)))).
Proof.
  eexists. intros r a b Hr Ha Hb Ba Bb. unfold poly_basemul_montgomery.
  change (KYBER_N / 4)%nat with 64%nat.
  eapply (wp_for _ (fun i r' => length r' = 256%nat /\
    forall j, (j < 4 * i)%nat -> -6656 <= nth j r' 0 <= 6656 /\
                               nth j r' 0 ≡ 169 * nth j (MultiplyNTTs a b) 0)).
  - split; auto. intros; lia.
  - intros i r1 Hi (Hl1 & H1).
    assert (Hz : -1664 <= nth (64 + i) zetas 0 <= 1664).
    { apply zetas_bnd. rewrite zetas_length. lia. }
    pose proof (zstd_cong (64 + i)) as Ez. destruct (zstd_gamma i ltac:(lia)) as [G0 G1].
    wstep. wstep; [rewrite zetas_length; lia|].
    wstep. eapply wp_conseq.
    { apply (proj2_sig (basemul_wp (4 * i) (4 * i) (4 * i)) r1 a b (nth (64 + i) zetas 0) (gamma (2 * i))); try lia.
      - intros. apply int16s_nth; auto.
      - intros. apply bnd_nth0; auto; lia.
      - rewrite Ez. exact G0. }
    intros r2 (v0 & v1 & -> & Hv0 & Hv1 & E0 & E1).
    wstep. wstep; [rewrite zetas_length; lia|]. wstep. wstep; [lia|]. rewrite i16_small by lia.
    eapply wp_conseq.
    { apply (proj2_sig (basemul_wp (4 * i + 2) (4 * i + 2) (4 * i + 2)) _ a b
               (0 - nth (64 + i) zetas 0) (gamma (2 * i + 1))); try slen.
      - intros. apply int16s_nth; auto.
      - intros. apply bnd_nth0; auto; lia.
      - rewrite <- G1, <- Ez. apply cong_eq. lia. }
    intros r3 (v2 & v3 & -> & Hv2 & Hv3 & E2 & E3).
    split; [slen|]. intros j Hj.
    assert (M : forall c b', (b' = 0 \/ b' = 1)%nat -> (c < 128)%nat ->
       nth (2 * c + b') (MultiplyNTTs a b) 0 ≡
       if (b' =? 0)%nat then nth (2 * c) a 0 * nth (2 * c) b 0 + nth (2 * c + 1) a 0 * nth (2 * c + 1) b 0 * gamma c
       else nth (2 * c) a 0 * nth (2 * c + 1) b 0 + nth (2 * c + 1) a 0 * nth (2 * c) b 0).
    { intros c b' Hb' Hc. rewrite MultiplyNTTs_nth by auto.
      destruct Hb' as [-> | ->]; cbn [Nat.eqb]; rewrite cong_mod; reflexivity. }
    destruct (Nat.eq_dec j (4 * i + 2 + 1)) as [->|N3].
    { rewrite nth_upd_eq by slen. split; [lia|].
      replace (4 * i + 2 + 1)%nat with (2 * (2 * i + 1) + 1)%nat in * by lia. rewrite M by (auto; lia).
      cbn [Nat.eqb]. rewrite E3. replace (2 * (2 * i + 1))%nat with (4 * i + 2)%nat by lia. reflexivity. }
    rewrite nth_upd_neq by lia.
    destruct (Nat.eq_dec j (4 * i + 2)) as [->|N2].
    { rewrite nth_upd_eq by slen. split; [lia|].
      replace (4 * i + 2)%nat with (2 * (2 * i + 1) + 0)%nat at 1 by lia. rewrite M by (auto; lia).
      cbn [Nat.eqb]. rewrite E2. replace (2 * (2 * i + 1))%nat with (4 * i + 2)%nat by lia. reflexivity. }
    rewrite nth_upd_neq by lia.
    destruct (Nat.eq_dec j (4 * i + 1)) as [->|N1].
    { rewrite nth_upd_eq by slen. split; [lia|].
      replace (4 * i + 1)%nat with (2 * (2 * i) + 1)%nat at 1 by lia. rewrite M by (auto; lia).
      cbn [Nat.eqb]. rewrite E1. replace (2 * (2 * i))%nat with (4 * i)%nat by lia. reflexivity. }
    rewrite nth_upd_neq by lia.
    destruct (Nat.eq_dec j (4 * i)) as [->|N0].
    { rewrite nth_upd_eq by slen. split; [lia|].
      replace (4 * i)%nat with (2 * (2 * i) + 0)%nat at 1 by lia. rewrite M by (auto; lia).
      cbn [Nat.eqb]. rewrite E0. replace (2 * (2 * i))%nat with (4 * i)%nat by lia. reflexivity. }
    rewrite nth_upd_neq by lia. apply H1. lia.
  - intros r' (Hl & H'). split; auto. split.
    + intros i Hi. apply H'. lia.
    + split; [now rewrite scale_length|]. intros i Hi. rewrite nth_scale by lia. apply H'. lia.
Qed.
