(** * The four-way noise samplers of avx2/poly.c *)
From Coq Require Import ZArith List Lia Bool.
From Verif Require Import CMonad WP Proof_Base Levels Model_Params Model_Fips202 Model_Symmetric Model_Polyvec Model_Indcpa
  Spec_FIPS202 Spec_FIPS203 Proof_Keccak Proof_Shake Proof_Hash Proof_CBD Proof_Symmetric Proof_GenMatrix Proof_Poly Proof_Polyvec Proof_Indcpa
  Model_AvxIntrin Model_AvxC Model_AvxPolyvec Model_AvxFips202x4 Model_AvxIndcpa
  Proof_AvxKeccak Proof_AvxFips202x4 Proof_AvxShake4 Proof_AvxDecompress Proof_AvxPolyvec Proof_AvxGenMatrix.
Import ListNotations.
Open Scope Z_scope.
Local Opaque stream SHAKE256.

(** One sampled polynomial *)
Definition cbdpoly (eta : nat) (seed : list Z) (n : Z) : list Z := mk 256 (cbdz eta (PRF eta seed n)).
Lemma cbdpoly_length eta seed n : length (cbdpoly eta seed n) = 256%nat. Proof. apply mk_length. Qed.

Lemma log_nonces_wp nonces : traced (fun T => wp (log_nonces nonces) T (fun _ => True)).
Proof.
  induction nonces as [|n nonces [T W]]; eexists; cbn [log_nonces].
  - now wstep.
  - wstep. wstep. exact W.
Qed.

Definition NB (lv : level) : nat := match lv with Kyber512 => 2 | _ => 1 end.
Lemma NB_eq lv : NOISE_NBLOCKS lv = NB lv. Proof. destruct lv; reflexivity. Qed.
Lemma NB_pos lv : (1 <= NB lv <= 2)%nat. Proof. destruct lv; cbn; lia. Qed.

Definition all_byte (l : list Z) : Prop := Forall (fun n => 0 <= n <= 255) l.

(** The buffers hold PRF output *)
Definition prf_bufs (n : nat) (seed : list Z) (nonces : list Z) (bufs : list (list Z)) : Prop :=
  length bufs = 4%nat /\ forall j, (j < 4)%nat -> length (nth j bufs []) = n /\
    forall m, (m <= n)%nat -> sub (nth j bufs []) 0 m = SHAKE256 (seed ++ [nth j nonces 0]) m.

Lemma firstn_mk {A} (f : nat -> A) n m : (m <= n)%nat -> firstn m (mk n f) = mk m f.
Proof.
  intros H. unfold mk. rewrite firstn_map. f_equal.
  replace n with (m + (n - m))%nat by lia. rewrite seq_app, firstn_app, seq_length, Nat.sub_diag, firstn_O, app_nil_r.
  apply firstn_all2. rewrite seq_length. lia.
Qed.

Lemma noise_bufs_wp lv so nonces : length nonces = 4%nat -> all_byte nonces ->
  traced (fun T => forall (JJ : Junk) seed sigma, seed_ok so sigma seed ->
    wp (noise_bufs lv seed so nonces) T (prf_bufs (NB lv * 136) sigma nonces)).
Proof.
  intros Ln Bn. pose proof (NB_pos lv) as HN.
  destruct (log_nonces_wp nonces) as [T0 W0].
  destruct (store_seed_wp so) as [T1 W1].
  destruct (set_each_wp 1) as [T2 W2].
  destruct (shakex4_absorb_once_wp 136 17 rate136 33) as [T3 W3].
  destruct (shakex4_squeezeblocks_wp 136 17 rate136 0 (NB lv)) as [T4 W4].
  eexists. intros JJ seed sigma HS. unfold noise_bufs. rewrite NB_eq. change SHAKE256_RATE with 136%nat. cbv zeta.
  assert (Lr : length sigma = 32%nat) by (destruct HS as (? & _ & <-); now apply sub_length).
  assert (Br : bytes sigma) by (destruct HS as (? & Hb & <-); now apply bnd_sub).
  set (n := (NB lv * 136)%nat). assert (Hn : (136 <= n)%nat) by (unfold n; lia).
  set (bufs := repeat (local8 n) 4).
  assert (HB : bufs_ok n bufs).
  { split; [reflexivity|]. intros j Hj. unfold bufs.
    replace (nth j (repeat (local8 n) 4) []) with (local8 n) by (do 4 (destruct j as [|j]; [reflexivity|]); lia).
    split; [apply local8_length|apply local8_bytes]. }
  set (xss := map (fun n => [n]) nonces).
  assert (Ex : forall j, (j < 4)%nat -> nth j xss [] = [nth j nonces 0]).
  { intros j Hj. unfold xss. apply (map_nth_lt (fun n => [n])). lia. }
  assert (Hx : forall j, (j < 4)%nat -> length (nth j xss []) = 1%nat /\ bytes (nth j xss [])).
  { intros j Hj. rewrite Ex by auto. split; [reflexivity|]. apply bnd_Forall. constructor; [|constructor].
    apply Forall_nth; [exact Bn|lia]. }
  wstep. eapply wp_conseq; [exact W0|]. intros _ _.
  wstep. eapply wp_conseq; [apply (W1 bufs seed n sigma HB ltac:(lia) HS)|]. intros bufs1 H1.
  wstep. eapply wp_conseq; [apply (W2 bufs bufs1 xss n sigma HB ltac:(lia) Lr H1); intros; now apply Hx|]. intros bufs2 H2.
  destruct (seeded_bufs n 1 bufs bufs2 sigma xss HB Lr Br ltac:(lia) Hx H2) as [HB2 E2].
  set (B := fun j => sigma ++ nth j xss []).
  wstep. eapply wp_conseq; [apply (W3 JJ local_state4 bufs2 (local_state4_length JJ)); apply (bufs_four n); [change (round8 33) with 40%nat; lia|exact HB2]|].
  intros state1 S1. apply (squeezing4_ext _ _ B) in S1; [|exact E2].
  wstep. eapply wp_conseq; [apply (W4 JJ bufs2 state1 B 0%nat S1); apply (bufs_four n); [unfold n; lia|exact HB2]|].
  intros [bufs3 state2] [[L3 HW] S2]. wstep. split; [exact L3|]. intros j Hj. rewrite HW by auto.
  destruct HB2 as [_ HB2]. destruct (HB2 j Hj) as [Lj _].
  replace (136 * NB lv)%nat with n by (unfold n; lia).
  rewrite splice_full by (now rewrite mk_length). split; [apply mk_length|].
  intros m Hm. rewrite SHAKE256_stream. unfold sub. cbn [skipn]. rewrite firstn_mk by exact Hm.
  unfold B. rewrite Ex by auto. reflexivity.
Qed.

Definition four_polys (rs : list (list Z)) : Prop := length rs = 4%nat /\ forall j, (j < 4)%nat -> length (nth j rs []) = 256%nat.

Lemma four_polys_inv rs : four_polys rs -> exists r0 r1 r2 r3, rs = [r0; r1; r2; r3] /\
  length r0 = 256%nat /\ length r1 = 256%nat /\ length r2 = 256%nat /\ length r3 = 256%nat.
Proof.
  intros [L H]. destruct rs as [|r0 [|r1 [|r2 [|r3 [|]]]]]; try discriminate. exists r0, r1, r2, r3.
  refine (conj eq_refl (conj (H 0%nat _) (conj (H 1%nat _) (conj (H 2%nat _) (H 3%nat _))))); lia.
Qed.

Ltac lit := cbn [length]; lia.

Section Rs.
Variables (lv : level) (so : nat) (nonces : list Z).
Hypotheses (Ln : length nonces = 4%nat) (Bn : all_byte nonces).

Lemma poly_getnoise_eta1_4x_wp :
  traced (fun T => forall (JJ : Junk) rs seed sigma, four_polys rs -> seed_ok so sigma seed ->
    wp (poly_getnoise_eta1_4x lv rs seed so nonces) T
       (fun rs' => rs' = mk 4 (fun j => cbdpoly (eta1 (PS lv)) sigma (nth j nonces 0)))).
Proof.
  destruct (noise_bufs_wp lv so nonces Ln Bn) as [T1 W1].
  destruct (poly_cbd_eta1_avx2_wp lv) as [T2 W2].
  eexists. intros JJ rs seed sigma [Lr Hr] HS. unfold poly_getnoise_eta1_4x.
  wstep. eapply wp_conseq; [apply (W1 JJ seed sigma HS)|]. intros bufs [Lb HB].
  eapply wp_conseq.
  { eapply (wp_pointwise_gen (@nil Z) _ (fun j _ r' => r' = cbdpoly (eta1 (PS lv)) sigma (nth j nonces 0)) 4); [exact Lr|].
    intros j l Hj Ll Hlj. destruct (HB j ltac:(lia)) as [Lj Ej].
    wstep. wstep; [lia|]. wstep. wstep; [lia|]. wstep.
    eapply wp_conseq; [apply W2; [rewrite Hlj; apply Hr; lia|rewrite Lj; destruct lv; cbn; lia]|].
    intros r ->. wstep; [lia|]. eexists. split; [reflexivity|].
    rewrite Ej by (destruct lv; cbn; lia). reflexivity. }
  intros rs' [L' H']. apply (list_eq_nth []); [now rewrite mk_length|].
  intros j Hj. rewrite L' in Hj. rewrite nth_mk by auto. now apply H'.
Qed.


Lemma poly_getnoise_eta1122_4x_wp :
  traced (fun T => forall (JJ : Junk) rs seed sigma, four_polys rs -> seed_ok so sigma seed ->
    wp (poly_getnoise_eta1122_4x lv rs seed so nonces) T
       (fun rs' => rs' = [cbdpoly (eta1 (PS lv)) sigma (nth 0 nonces 0); cbdpoly (eta1 (PS lv)) sigma (nth 1 nonces 0);
                          cbdpoly 2 sigma (nth 2 nonces 0); cbdpoly 2 sigma (nth 3 nonces 0)])).
Proof.
  destruct (noise_bufs_wp lv so nonces Ln Bn) as [T1 W1].
  destruct (poly_cbd_eta1_avx2_wp lv) as [T2 W2].
  destruct cbd2_avx2_wp as [T3 W3].
  eexists. intros JJ rs seed sigma HR HS. apply four_polys_inv in HR as (r0 & r1 & r2 & r3 & -> & L0 & L1 & L2 & L3).
  unfold poly_getnoise_eta1122_4x.
  wstep. eapply wp_conseq; [apply (W1 JJ seed sigma HS)|]. intros bufs [Lb HB].
  assert (C1 : forall j r, (j < 4)%nat -> length r = 256%nat ->
    wp (poly_cbd_eta1_avx2 lv r (nth j bufs [])) T2 (fun r' => r' = cbdpoly (eta1 (PS lv)) sigma (nth j nonces 0))).
  { intros j r Hj Lr. destruct (HB j Hj) as [Lj Ej]. eapply wp_conseq; [apply W2; [exact Lr|rewrite Lj; destruct lv; cbn; lia]|].
    intros r' ->. rewrite Ej by (destruct lv; cbn; lia). reflexivity. }
  assert (C2 : forall j r, (j < 4)%nat -> length r = 256%nat ->
    wp (poly_cbd_eta2_avx2 r (nth j bufs [])) T3 (fun r' => r' = cbdpoly 2 sigma (nth j nonces 0))).
  { intros j r Hj Lr. destruct (HB j Hj) as [Lj Ej]. eapply wp_conseq; [apply W3; [exact Lr|rewrite Lj; destruct lv; cbn; lia]|].
    intros r' ->. rewrite Ej by (destruct lv; cbn; lia). reflexivity. }
  cbn [for_].
  wstep. wstep. wstep. wstep. wstep. wstep; [lit|]. wstep. wstep; [lia|]. wstep.
  eapply wp_conseq; [apply (C1 0%nat); [lia|exact L0]|]. intros r0' ->. wstep; [lit|]. cbn [upd].
  wstep. wstep. wstep. wstep. wstep; [lit|]. wstep. wstep; [lia|]. wstep.
  eapply wp_conseq; [apply (C1 1%nat); [lia|exact L1]|]. intros r1' ->. wstep; [lit|]. cbn [upd].
  wstep. wstep. wstep.
  wstep. wstep. wstep. wstep. wstep; [lit|]. wstep. wstep; [lia|]. wstep.
  eapply wp_conseq; [apply (C2 2%nat); [lia|exact L2]|]. intros r2' ->. wstep; [lit|]. cbn [upd].
  wstep. wstep. wstep. wstep. wstep; [lit|]. wstep. wstep; [lia|]. wstep.
  eapply wp_conseq; [apply (C2 3%nat); [lia|exact L3]|]. intros r3' ->. wstep; [lit|]. cbn [upd].
  wstep. wstep. wstep. reflexivity.
Qed.
End Rs.

(** ** Single polynomial *)
Lemma poly_getnoise_eta2_avx2_wp so nonce :
  traced (fun T => forall (JJ : Junk) r seed sigma, length r = 256%nat -> seed_ok so sigma seed -> 0 <= nonce <= 255 ->
    wp (poly_getnoise_eta2_avx2 r seed so nonce) T (fun r' => r' = cbdpoly 2 sigma nonce)).
Proof.
  destruct (prf_wp 0 128 so) as [T1 W1].
  destruct cbd2_avx2_wp as [T2 W2].
  eexists. intros JJ r seed sigma Hr (H1 & H2 & H3) Hn. unfold poly_getnoise_eta2_avx2. cbv zeta.
  change (KYBER_ETA2 * KYBER_N / 4)%nat with 128%nat.
  wstep. wstep. wstep. eapply wp_conseq; [apply W1; auto; rewrite local8_length; lia|].
  intros b ->. rewrite splice_full by (now rewrite SHAKE256_length, local8_length). rewrite H3.
  eapply wp_conseq; [apply W2; [exact Hr|rewrite SHAKE256_length; lia]|]. intros r' ->.
  rewrite sub_self by apply SHAKE256_length. reflexivity.
Qed.

(** ** The vectors of indcpa.c *)
Lemma shaped_2 v : shaped 2 v -> exists v0 v1, v = [v0; v1] /\ length v0 = 256%nat /\ length v1 = 256%nat.
Proof.
  intros [L H]. destruct v as [|v0 [|v1 [|]]]; try discriminate. exists v0, v1.
  refine (conj eq_refl (conj (H 0%nat _) (H 1%nat _))); lia.
Qed.
Lemma shaped_3 v : shaped 3 v -> exists v0 v1 v2, v = [v0; v1; v2] /\ length v0 = 256%nat /\ length v1 = 256%nat /\ length v2 = 256%nat.
Proof.
  intros [L H]. destruct v as [|v0 [|v1 [|v2 [|]]]]; try discriminate. exists v0, v1, v2.
  refine (conj eq_refl (conj (H 0%nat _) (conj (H 1%nat _) (H 2%nat _)))); lia.
Qed.
Lemma shaped_4 v : shaped 4 v -> exists v0 v1 v2 v3, v = [v0; v1; v2; v3] /\
  length v0 = 256%nat /\ length v1 = 256%nat /\ length v2 = 256%nat /\ length v3 = 256%nat.
Proof. intros [L H]. apply four_polys_inv. split; [exact L|exact H]. Qed.

Lemma four_lit a b c d : length a = 256%nat -> length b = 256%nat -> length c = 256%nat -> length d = 256%nat -> four_polys [a; b; c; d].
Proof. intros. split; [reflexivity|]. intros j Hj. do 4 (destruct j as [|j]; [assumption|]). lia. Qed.

Lemma n0123 : length [0; 1; 2; 3] = 4%nat /\ all_byte [0; 1; 2; 3].
Proof. split; [reflexivity|]. repeat constructor; lia. Qed.
Lemma n4567 : length [4; 5; 6; 7] = 4%nat /\ all_byte [4; 5; 6; 7].
Proof. split; [reflexivity|]. repeat constructor; lia. Qed.

Lemma noisez_2 eta seed s : noisez eta seed s 2 = [cbdpoly eta seed (Z.of_nat s); cbdpoly eta seed (Z.of_nat (s + 1))].
Proof. unfold noisez. cbn [mk seq map]. now rewrite Nat.add_0_r. Qed.

Ltac getlit := wstep; wstep; [lit|]; cbn [nth].
Ltac setlit := wstep; wstep; [lit|]; cbn [upd].

Lemma keypair_noise_wp lv so :
  traced (fun T => forall (JJ : Junk) skpv e pkpv seed sigma, shaped (KYBER_K lv) skpv -> shaped (KYBER_K lv) e ->
    shaped (KYBER_K lv) pkpv -> seed_ok so sigma seed ->
    wp (keypair_noise lv skpv e pkpv seed so) T
       (fun '(skpv', e', pkpv') => skpv' = noisez (eta1 (PS lv)) sigma 0 (KYBER_K lv) /\
          e' = noisez (eta1 (PS lv)) sigma (KYBER_K lv) (KYBER_K lv) /\ shaped (KYBER_K lv) pkpv')).
Proof.
  destruct n0123 as [A1 A2]. destruct n4567 as [B1 B2].
  destruct (poly_getnoise_eta1_4x_wp lv so [0; 1; 2; 3] A1 A2) as [T1 W1].
  destruct (poly_getnoise_eta1_4x_wp lv so [4; 5; 6; 7] B1 B2) as [T2 W2].
  destruct lv; change (KYBER_K Kyber512) with 2%nat in *; change (KYBER_K Kyber768) with 3%nat in *; change (KYBER_K Kyber1024) with 4%nat in *.
  - eexists. intros JJ s e p seed sigma Hs He Hp HS.
    apply shaped_2 in Hs as (s0 & s1 & -> & ? & ?). apply shaped_2 in He as (e0 & e1 & -> & ? & ?).
    unfold keypair_noise. do 4 getlit.
    wstep. eapply wp_conseq; [apply (W1 JJ _ seed sigma); [now apply four_lit|exact HS]|].
    intros rs ->. cbn [mk seq map nth]. do 4 setlit. wstep. refine (conj _ (conj _ Hp)); reflexivity.
  - eexists. intros JJ s e p seed sigma Hs He Hp HS.
    apply shaped_3 in Hs as (s0 & s1 & s2 & -> & ? & ? & ?). apply shaped_3 in He as (e0 & e1 & e2 & -> & ? & ? & ?).
    apply shaped_3 in Hp as (p0 & p1 & p2 & -> & ? & ? & ?).
    unfold keypair_noise. do 4 getlit.
    wstep. eapply wp_conseq; [apply (W1 JJ _ seed sigma); [now apply four_lit|exact HS]|].
    intros rs ->. cbn [mk seq map nth]. do 4 setlit. do 4 getlit.
    wstep. eapply wp_conseq; [apply (W2 JJ _ seed sigma); [now apply four_lit|exact HS]|].
    intros rs ->. cbn [mk seq map nth]. do 4 setlit. wstep.
    refine (conj _ (conj _ _)); [reflexivity|reflexivity|]. split; [reflexivity|].
    intros j Hj. destruct j as [|[|[|]]]; cbn [nth]; [apply cbdpoly_length|apply cbdpoly_length|assumption|lia].
  - eexists. intros JJ s e p seed sigma Hs He Hp HS.
    apply shaped_4 in Hs as (s0 & s1 & s2 & s3 & -> & ? & ? & ? & ?). apply shaped_4 in He as (e0 & e1 & e2 & e3 & -> & ? & ? & ? & ?).
    unfold keypair_noise. do 4 getlit.
    wstep. eapply wp_conseq; [apply (W1 JJ _ seed sigma); [now apply four_lit|exact HS]|].
    intros rs ->. cbn [mk seq map nth]. do 4 setlit. do 4 getlit.
    wstep. eapply wp_conseq; [apply (W2 JJ _ seed sigma); [now apply four_lit|exact HS]|].
    intros rs ->. cbn [mk seq map nth]. do 4 setlit. wstep.
    refine (conj _ (conj _ Hp)); reflexivity.
Qed.

Lemma enc_noise_wp lv so :
  traced (fun T => forall (JJ : Junk) sp ep epp b seed sigma, shaped (KYBER_K lv) sp -> shaped (KYBER_K lv) ep ->
    length epp = 256%nat -> shaped (KYBER_K lv) b -> seed_ok so sigma seed ->
    wp (enc_noise lv sp ep epp b seed so) T
       (fun '(sp', ep', epp', b') => sp' = noisez (eta1 (PS lv)) sigma 0 (KYBER_K lv) /\
          ep' = noisez 2 sigma (KYBER_K lv) (KYBER_K lv) /\
          epp' = cbdpoly 2 sigma (Z.of_nat (KYBER_K lv + KYBER_K lv)) /\ shaped (KYBER_K lv) b')).
Proof.
  destruct n0123 as [A1 A2]. destruct n4567 as [B1 B2].
  destruct (poly_getnoise_eta1_4x_wp lv so [0; 1; 2; 3] A1 A2) as [T1 W1].
  destruct (poly_getnoise_eta1122_4x_wp lv so [0; 1; 2; 3] A1 A2) as [T1' W1'].
  destruct (poly_getnoise_eta1_4x_wp lv so [4; 5; 6; 7] B1 B2) as [T2 W2].
  destruct (poly_getnoise_eta2_avx2_wp so 4) as [T3 W3].
  destruct (poly_getnoise_eta2_avx2_wp so 8) as [T4 W4].
  destruct lv; change (KYBER_K Kyber512) with 2%nat in *; change (KYBER_K Kyber768) with 3%nat in *; change (KYBER_K Kyber1024) with 4%nat in *.
  - eexists. intros JJ s e epp p seed sigma Hs He Hepp Hp HS.
    apply shaped_2 in Hs as (s0 & s1 & -> & ? & ?). apply shaped_2 in He as (e0 & e1 & -> & ? & ?).
    unfold enc_noise. do 4 getlit.
    wstep. eapply wp_conseq; [apply (W1' JJ _ seed sigma); [now apply four_lit|exact HS]|].
    intros rs ->. cbn [nth]. do 4 setlit.
    wstep. eapply wp_conseq; [apply (W3 JJ epp seed sigma Hepp HS); lia|]. intros r ->. wstep.
    refine (conj _ (conj _ (conj _ Hp))); reflexivity.
  - eexists. intros JJ s e epp p seed sigma Hs He Hepp Hp HS.
    apply shaped_3 in Hs as (s0 & s1 & s2 & -> & ? & ? & ?). apply shaped_3 in He as (e0 & e1 & e2 & -> & ? & ? & ?).
    apply shaped_3 in Hp as (p0 & p1 & p2 & -> & ? & ? & ?).
    unfold enc_noise. do 4 getlit.
    wstep. eapply wp_conseq; [apply (W1 JJ _ seed sigma); [now apply four_lit|exact HS]|].
    intros rs ->. cbn [mk seq map nth]. do 4 setlit. do 3 getlit.
    wstep. eapply wp_conseq; [apply (W2 JJ _ seed sigma); [now apply four_lit|exact HS]|].
    intros rs ->. cbn [mk seq map nth]. do 3 setlit. wstep.
    refine (conj _ (conj _ (conj _ _))); [reflexivity|reflexivity|reflexivity|]. split; [reflexivity|].
    intros j Hj. destruct j as [|[|[|]]]; cbn [nth]; [apply cbdpoly_length|assumption|assumption|lia].
  - eexists. intros JJ s e epp p seed sigma Hs He Hepp Hp HS.
    apply shaped_4 in Hs as (s0 & s1 & s2 & s3 & -> & ? & ? & ? & ?). apply shaped_4 in He as (e0 & e1 & e2 & e3 & -> & ? & ? & ? & ?).
    unfold enc_noise. do 4 getlit.
    wstep. eapply wp_conseq; [apply (W1 JJ _ seed sigma); [now apply four_lit|exact HS]|].
    intros rs ->. cbn [mk seq map nth]. do 4 setlit. do 4 getlit.
    wstep. eapply wp_conseq; [apply (W2 JJ _ seed sigma); [now apply four_lit|exact HS]|].
    intros rs ->. cbn [mk seq map nth]. do 4 setlit.
    wstep. eapply wp_conseq; [apply (W4 JJ epp seed sigma Hepp HS); lia|]. intros r ->. wstep.
    refine (conj _ (conj _ (conj _ Hp))); reflexivity.
Qed.
