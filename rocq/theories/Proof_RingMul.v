(** * NTT-domain multiplication is multiplication in Z_q[X]/(X^256+1) *)
From Coq Require Import ZArith List Lia Bool.
From Verif Require Import CMonad WP Proof_Base Modq Sums Proof_NTTSpec Spec_FIPS203.
Import ListNotations.
Open Scope Z_scope.

Lemma gamma128 c : (c < 128)%nat -> gamma c ^ 128 ≡ -1.
Proof.
  intros Hc. rewrite gamma_tab by auto. rewrite <- cong_zpowm by lia. apply congb_spec.
  assert (H : forallb (fun c => congb (zpowm (nth c gammas 0) 128) (-1)) (seq 0 128) = true) by (vm_compute; reflexivity).
  exact (forall_seq _ 128 H c Hc).
Qed.

Definition ind (b : bool) : Z := if b then 1 else 0.

(** The schoolbook product as a double sum over all pairs. *)
Lemma conv_low (f g : nat -> Z) k : (k < 256)%nat ->
  sumz (S k) (fun i => f i * g (k - i)%nat) =
  sumz 256 (fun a => sumz 256 (fun b => ind (a + b =? k)%nat * (f a * g b))).
Proof.
  intros Hk. replace 256%nat with (S k + (255 - k))%nat at 1 by lia. rewrite sumz_app.
  rewrite (sumz_0 (255 - k)).
  2: { intros i Hi. apply sumz_0. intros b _. destruct (Nat.eqb_spec (S k + i + b) k); [lia|]. reflexivity. }
  rewrite Z.add_0_r. apply sumz_ext. intros a Ha.
  rewrite (sumz_ext 256 _ (fun b => if (b =? k - a)%nat then f a * g b else 0)).
  - rewrite (sumz_delta 256 (k - a) (fun b => f a * g b)) by lia. reflexivity.
  - intros b _. destruct (Nat.eqb_spec (a + b) k), (Nat.eqb_spec b (k - a)); unfold ind; try lia.
Qed.

Lemma conv_high (f g : nat -> Z) k : (k < 256)%nat ->
  sumz (255 - k) (fun i => f (k + 1 + i)%nat * g (255 - i)%nat) =
  sumz 256 (fun a => sumz 256 (fun b => ind (a + b =? k + 256)%nat * (f a * g b))).
Proof.
  intros Hk. replace 256%nat with (k + 1 + (255 - k))%nat at 1 by lia. rewrite sumz_app.
  rewrite (sumz_0 (k + 1)).
  2: { intros a Ha. apply sumz_0. intros b Hb. destruct (Nat.eqb_spec (a + b) (k + 256)); [lia|]. reflexivity. }
  rewrite Z.add_0_l. apply sumz_ext. intros i Hi.
  rewrite (sumz_ext 256 _ (fun b => if (b =? 255 - i)%nat then f (k + 1 + i)%nat * g b else 0)).
  - rewrite (sumz_delta 256 (255 - i) (fun b => f (k + 1 + i)%nat * g b)) by lia. reflexivity.
  - intros b _. destruct (Nat.eqb_spec (k + 1 + i + b) (k + 256)), (Nat.eqb_spec b (255 - i)); unfold ind; try lia.
Qed.

(** A linear functional psi applied to the product. *)
Lemma functional_mul (psi : nat -> Z) (f g : nat -> Z) :
  sumz 256 (fun k => (sumz (S k) (fun i => f i * g (k - i)%nat)
                      - sumz (255 - k) (fun i => f (k + 1 + i)%nat * g (255 - i)%nat)) * psi k)
  = sumz 256 (fun a => sumz 256 (fun b => f a * g b *
       (if (a + b <? 256)%nat then psi (a + b)%nat else - psi (a + b - 256)%nat))).
Proof.
  rewrite (sumz_ext 256 _ (fun k => sumz 256 (fun a => sumz 256 (fun b =>
     f a * g b * ((ind (a + b =? k)%nat - ind (a + b =? k + 256)%nat) * psi k))))).
  - rewrite sumz_swap. apply sumz_ext. intros a Ha.
    rewrite sumz_swap. apply sumz_ext. intros b Hb.
    rewrite sumz_scale. f_equal.
    destruct (Nat.ltb_spec (a + b) 256).
    + rewrite (sumz_ext 256 _ (fun k => if (k =? a + b)%nat then psi k else 0)).
      * apply (sumz_delta 256 (a + b) psi). auto.
      * intros k Hk. rewrite Nat.eqb_sym.
        destruct (Nat.eqb_spec k (a + b)), (Nat.eqb_spec (a + b) (k + 256)); unfold ind; lia.
    + rewrite (sumz_ext 256 _ (fun k => if (k =? a + b - 256)%nat then - psi k else 0)).
      * apply (sumz_delta 256 (a + b - 256) (fun k => - psi k)). lia.
      * intros k Hk.
        destruct (Nat.eqb_spec (a + b) k), (Nat.eqb_spec (a + b) (k + 256)),
                 (Nat.eqb_spec k (a + b - 256)); unfold ind; lia.
  - intros k Hk. rewrite conv_low, conv_high by auto.
    rewrite <- sumz_minus, <- sumz_scale_r. apply sumz_ext. intros a Ha.
    rewrite <- sumz_minus, <- sumz_scale_r. apply sumz_ext. intros b Hb. lia.
Qed.

(** psi_b(m) = coefficient of X^b in X^m mod (X^2 - gamma). *)
Definition psi (c b m : nat) : Z :=
  if (m mod 2 =? b)%nat then gamma c ^ Z.of_nat (m / 2) else 0.

Lemma psi_parity c b j b1 : (b1 = 0 \/ b1 = 1)%nat ->
  psi c b (2 * j + b1) = if (b =? b1)%nat then gamma c ^ Z.of_nat j else 0.
Proof.
  intros H. unfold psi. destruct (div2_parity j b1 H) as [-> ->]. now rewrite Nat.eqb_sym.
Qed.

Lemma ntt_sum_psi f c b : (b = 0 \/ b = 1)%nat ->
  ntt_sum f c b = sumz 256 (fun m => coef f m * psi c b m).
Proof.
  intros Hb. change 256%nat with (2 * 128)%nat. rewrite sumz_parity. unfold ntt_sum.
  rewrite (sumz_ext 128 (fun j => coef f (2 * j) * psi c b (2 * j))
     (fun j => coef f (2 * j) * (if (b =? 0)%nat then gamma c ^ Z.of_nat j else 0))).
  2: { intros j _. rewrite <- (psi_parity c b j 0) by auto. now rewrite Nat.add_0_r. }
  rewrite (sumz_ext 128 (fun j => coef f (2 * j + 1) * psi c b (2 * j + 1))
     (fun j => coef f (2 * j + 1) * (if (b =? 1)%nat then gamma c ^ Z.of_nat j else 0))).
  2: { intros j _. rewrite <- (psi_parity c b j 1) by auto. reflexivity. }
  destruct Hb as [-> | ->]; cbn [Nat.eqb].
  - rewrite (sumz_0 128 (fun j => coef f (2 * j + 1) * 0)) by (intros; lia).
    rewrite Z.add_0_r. apply sumz_ext. intros. now rewrite Nat.add_0_r.
  - rewrite (sumz_0 128 (fun j => coef f (2 * j) * 0)) by (intros; lia). reflexivity.
Qed.

(** psi is a ring homomorphism modulo q (and X^256 = -1). *)
Lemma psi_wrap c b m : (c < 128)%nat -> (256 <= m)%nat -> - psi c b (m - 256) ≡ psi c b m.
Proof.
  intros Hc Hm. unfold psi.
  remember (m - 256)%nat as m' eqn:E. replace m with (m' + 128 * 2)%nat by lia.
  rewrite Nat.mod_add, Nat.div_add by lia.
  destruct (_ =? _)%nat; [|reflexivity].
  rewrite Nat2Z.inj_add, Z.pow_add_r by lia. rewrite gamma128 by auto. apply cong_eq. lia.
Qed.

Lemma psi_mul c a b :
  psi c 0 (a + b) = psi c 0 a * psi c 0 b + psi c 1 a * psi c 1 b * gamma c /\
  psi c 1 (a + b) = psi c 0 a * psi c 1 b + psi c 1 a * psi c 0 b.
Proof.
  destruct (nat_parity a) as (ca & ba & -> & Ha & _).
  destruct (nat_parity b) as (cb & bb & -> & Hb & _).
  rewrite !psi_parity by auto.
  destruct Ha as [-> | ->], Hb as [-> | ->]; cbn [Nat.eqb].
  - replace (2 * ca + 0 + (2 * cb + 0))%nat with (2 * (ca + cb) + 0)%nat by lia.
    rewrite !psi_parity by auto. cbn [Nat.eqb].
    rewrite Nat2Z.inj_add, Z.pow_add_r by lia. lia.
  - replace (2 * ca + 0 + (2 * cb + 1))%nat with (2 * (ca + cb) + 1)%nat by lia.
    rewrite !psi_parity by auto. cbn [Nat.eqb].
    rewrite Nat2Z.inj_add, Z.pow_add_r by lia. lia.
  - replace (2 * ca + 1 + (2 * cb + 0))%nat with (2 * (ca + cb) + 1)%nat by lia.
    rewrite !psi_parity by auto. cbn [Nat.eqb].
    rewrite Nat2Z.inj_add, Z.pow_add_r by lia. lia.
  - replace (2 * ca + 1 + (2 * cb + 1))%nat with (2 * (ca + cb + 1) + 0)%nat by lia.
    rewrite !psi_parity by auto. cbn [Nat.eqb].
    rewrite !Nat2Z.inj_add, !Z.pow_add_r by lia. change (Z.of_nat 1) with 1.
    rewrite Z.pow_1_r. lia.
Qed.

Lemma ring_mul_length f g : length (ring_mul f g) = 256%nat. Proof. apply mkpoly_length. Qed.

Lemma ntt_sum_ring_mul f g c b : (b = 0 \/ b = 1)%nat -> (c < 128)%nat ->
  ntt_sum (ring_mul f g) c b ≡
  sumz 256 (fun i => sumz 256 (fun j => coef f i * coef g j * psi c b (i + j))).
Proof.
  intros Hb Hc. rewrite ntt_sum_psi by auto.
  rewrite (sumz_cong 256 _ (fun k => (sumz (S k) (fun i => coef f i * coef g (k - i)%nat)
              - sumz (255 - k) (fun i => coef f (k + 1 + i)%nat * coef g (255 - i)%nat)) * psi c b k)).
  - rewrite functional_mul. apply sumz_cong. intros i Hi. apply sumz_cong. intros j Hj.
    destruct (Nat.ltb_spec (i + j) 256); [reflexivity|].
    rewrite psi_wrap by auto. reflexivity.
  - intros k Hk. unfold ring_mul. rewrite coef_mkpoly by auto. rewrite cong_mod. reflexivity.
Qed.

Lemma ntt_sum_prod f g c b b' : (b = 0 \/ b = 1)%nat -> (b' = 0 \/ b' = 1)%nat ->
  ntt_sum f c b * ntt_sum g c b' =
  sumz 256 (fun i => sumz 256 (fun j => coef f i * coef g j * (psi c b i * psi c b' j))).
Proof.
  intros Hb Hb'. rewrite !ntt_sum_psi by auto. rewrite sumz_mul.
  apply sumz_ext. intros i _. apply sumz_ext. intros j _. lia.
Qed.

Lemma MultiplyNTTs_nth F G c b : (b = 0 \/ b = 1)%nat -> (c < 128)%nat ->
  nth (2 * c + b) (MultiplyNTTs F G) 0 =
  (if (b =? 0)%nat
   then (coef F (2 * c) * coef G (2 * c) + coef F (2 * c + 1) * coef G (2 * c + 1) * gamma c) mod q
   else (coef F (2 * c) * coef G (2 * c + 1) + coef F (2 * c + 1) * coef G (2 * c)) mod q).
Proof.
  intros Hb Hc. unfold MultiplyNTTs. rewrite nth_mkpoly by lia.
  cbv zeta. rewrite even_parity by auto. destruct (div2_parity c b Hb) as [-> _]. reflexivity.
Qed.

Lemma MultiplyNTTs_canon F G : canon (MultiplyNTTs F G).
Proof. apply mkpoly_canon. intros. destruct (Nat.even i); apply mod_q_range. Qed.
Lemma ring_mul_canon F G : canon (ring_mul F G).
Proof. apply mkpoly_canon. intros. apply mod_q_range. Qed.

Lemma coef_NTT f c b : (b = 0 \/ b = 1)%nat -> (c < 128)%nat -> coef (NTT f) (2 * c + b) ≡ ntt_sum f c b.
Proof. intros. unfold coef. rewrite NTT_nth by auto. apply cong_mod. Qed.

Theorem NTT_ring_mul f g : NTT (ring_mul f g) = MultiplyNTTs (NTT f) (NTT g).
Proof.
  apply canon_eq; [apply NTT_canon|apply MultiplyNTTs_canon|].
  apply lcong_parity; [apply NTT_length|apply MultiplyNTTs_canon|].
  intros c b Hc Hb. rewrite NTT_nth, MultiplyNTTs_nth by auto. rewrite cong_mod.
  rewrite ntt_sum_ring_mul by auto.
  pose proof (coef_NTT f c 0 ltac:(auto) Hc) as F0. rewrite Nat.add_0_r in F0.
  pose proof (coef_NTT f c 1 ltac:(auto) Hc) as F1.
  pose proof (coef_NTT g c 0 ltac:(auto) Hc) as G0. rewrite Nat.add_0_r in G0.
  pose proof (coef_NTT g c 1 ltac:(auto) Hc) as G1.
  destruct Hb as [-> | ->]; cbn [Nat.eqb]; rewrite cong_mod; rewrite F0, F1, G0, G1.
  - replace (ntt_sum f c 1 * ntt_sum g c 1 * gamma c) with (gamma c * (ntt_sum f c 1 * ntt_sum g c 1)) by lia.
    rewrite !ntt_sum_prod by auto. rewrite <- sumz_scale, <- sumz_plus. apply cong_eq, sumz_ext. intros i _.
    rewrite <- sumz_scale, <- sumz_plus. apply sumz_ext. intros j _.
    destruct (psi_mul c i j) as [-> _]. lia.
  - rewrite !ntt_sum_prod by auto. rewrite <- sumz_plus. apply cong_eq, sumz_ext. intros i _.
    rewrite <- sumz_plus. apply sumz_ext. intros j _.
    destruct (psi_mul c i j) as [_ ->]. lia.
Qed.

Theorem NTTinv_MultiplyNTTs f g : NTTinv (MultiplyNTTs (NTT f) (NTT g)) = ring_mul f g.
Proof.
  rewrite <- NTT_ring_mul. apply canon_eq; [apply NTTinv_canon|apply ring_mul_canon|].
  apply NTTinv_NTT, ring_mul_length.
Qed.
