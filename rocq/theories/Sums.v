(** * Finite sums [sumz] of Spec_FIPS203 *)
From Coq Require Import ZArith List Lia Bool.
From Verif Require Import CMonad WP Proof_Base Modq Spec_FIPS203.
Import ListNotations.
Open Scope Z_scope.

Lemma sumz_ext m f g : (forall i, (i < m)%nat -> f i = g i) -> sumz m f = sumz m g.
Proof. induction m; intros H; simpl; auto. rewrite IHm, H by (intros; try apply H; lia). reflexivity. Qed.

Lemma sumz_cong m f g : (forall i, (i < m)%nat -> f i ≡ g i) -> sumz m f ≡ sumz m g.
Proof.
  induction m; intros H; simpl; [reflexivity|].
  rewrite IHm by (intros; apply H; lia). rewrite H by lia. reflexivity.
Qed.

Lemma sumz_0 m f : (forall i, (i < m)%nat -> f i = 0) -> sumz m f = 0.
Proof. induction m; intros H; simpl; auto. rewrite IHm, H by (intros; try apply H; lia). lia. Qed.

Lemma sumz_plus m f g : sumz m (fun i => f i + g i) = sumz m f + sumz m g.
Proof. induction m; simpl; lia. Qed.

Lemma sumz_minus m f g : sumz m (fun i => f i - g i) = sumz m f - sumz m g.
Proof. induction m; simpl; lia. Qed.

Lemma sumz_scale m c f : sumz m (fun i => c * f i) = c * sumz m f.
Proof. induction m; simpl; lia. Qed.

Lemma sumz_scale_r m c f : sumz m (fun i => f i * c) = sumz m f * c.
Proof. induction m; simpl; lia. Qed.

Lemma sumz_swap m p f :
  sumz m (fun i => sumz p (fun j => f i j)) = sumz p (fun j => sumz m (fun i => f i j)).
Proof.
  induction m; simpl.
  - symmetry. apply sumz_0. auto.
  - rewrite IHm. rewrite <- sumz_plus. reflexivity.
Qed.

Lemma sumz_delta m k f : (k < m)%nat -> sumz m (fun i => if (i =? k)%nat then f i else 0) = f k.
Proof.
  induction m; intros H; [lia|]. simpl.
  destruct (Nat.eqb_spec m k) as [->|].
  - rewrite sumz_0; [lia|]. intros i Hi. destruct (Nat.eqb_spec i k); auto; lia.
  - rewrite IHm by lia. lia.
Qed.

Lemma sumz_app m p f : sumz (m + p) f = sumz m f + sumz p (fun i => f (m + i)%nat).
Proof.
  induction p; simpl. rewrite Nat.add_0_r; lia.
  rewrite Nat.add_succ_r. simpl. rewrite IHp. lia.
Qed.

Lemma sumz_first m f : sumz (S m) f = f 0%nat + sumz m (fun i => f (S i)).
Proof.
  change (S m) with (1 + m)%nat. rewrite sumz_app. cbn [sumz]. rewrite Z.add_0_l. reflexivity.
Qed.

Lemma sumz_parity m f :
  sumz (2 * m) f = sumz m (fun j => f (2 * j)%nat) + sumz m (fun j => f (2 * j + 1)%nat).
Proof.
  induction m; [reflexivity|].
  replace (2 * S m)%nat with (S (S (2 * m))) by lia. cbn [sumz]. rewrite IHm.
  replace (S (2 * m)) with (2 * m + 1)%nat by lia. lia.
Qed.

Lemma sumz_mul m p f g :
  sumz m f * sumz p g = sumz m (fun i => sumz p (fun j => f i * g j)).
Proof.
  rewrite <- sumz_scale_r. apply sumz_ext. intros i _. now rewrite sumz_scale.
Qed.

Lemma sumz_rev m f : sumz m f = sumz m (fun i => f (m - 1 - i)%nat).
Proof.
  induction m; [reflexivity|].
  rewrite (sumz_first m (fun i => f (S m - 1 - i)%nat)). cbn [sumz]. rewrite IHm.
  rewrite (sumz_ext m (fun i => f (m - 1 - i)%nat) (fun i => f (S m - 1 - S i)%nat)).
  - replace (S m - 1 - 0)%nat with m by lia. lia.
  - intros i Hi. f_equal. lia.
Qed.

Lemma sumz_bound m f lo hi :
  (forall i, (i < m)%nat -> lo <= f i <= hi) -> Z.of_nat m * lo <= sumz m f <= Z.of_nat m * hi.
Proof.
  induction m; intros H; cbn [sumz]; [lia|].
  specialize (IHm ltac:(intros; apply H; lia)). specialize (H m ltac:(lia)). lia.
Qed.

Lemma mod_cong x y : x ≡ y -> x mod q = y mod q.
Proof. apply cong_mod_eq. Qed.

(** mkpoly *)
Lemma mkpoly_mk f : mkpoly f = mk 256 f.
Proof. reflexivity. Qed.
Lemma mkpoly_length f : length (mkpoly f) = 256%nat.
Proof. apply mk_length. Qed.
Lemma nth_mkpoly f i : (i < 256)%nat -> nth i (mkpoly f) 0 = f i.
Proof. apply nth_mk. Qed.
Lemma coef_mkpoly f i : (i < 256)%nat -> coef (mkpoly f) i = f i.
Proof. apply nth_mk. Qed.

(** ** Linear maps on polynomials (lists of 256 integers) *)
Definition lin (F : list Z -> list Z) : Prop :=
  exists M : nat -> nat -> Z, forall r, length r = 256%nat ->
    length (F r) = 256%nat /\
    forall k, (k < 256)%nat -> nth k (F r) 0 = sumz 256 (fun i => M k i * nth i r 0).

Definition unit_vec (i : nat) : list Z := mk 256 (fun j => if (j =? i)%nat then 1 else 0).

Lemma lin_compose F G : lin F -> lin G -> lin (fun r => G (F r)).
Proof.
  intros [MF HF] [MG HG].
  exists (fun k i => sumz 256 (fun j => MG k j * MF j i)). intros r Hr.
  destruct (HF r Hr) as [L1 H1]. destruct (HG (F r) L1) as [L2 H2]. split; auto.
  intros k Hk. rewrite H2 by auto.
  rewrite (sumz_ext 256 _ (fun j => sumz 256 (fun i => MG k j * MF j i * nth i r 0))).
  - rewrite sumz_swap. apply sumz_ext. intros i Hi. now rewrite <- sumz_scale_r.
  - intros j Hj. rewrite H1 by auto. rewrite <- sumz_scale. apply sumz_ext. intros; lia.
Qed.

Lemma lin_basis F : lin F -> forall r, length r = 256%nat -> forall k, (k < 256)%nat ->
  nth k (F r) 0 = sumz 256 (fun i => nth k (F (unit_vec i)) 0 * nth i r 0).
Proof.
  intros [M H] r Hr k Hk. destruct (H r Hr) as [_ H1]. rewrite H1 by auto.
  apply sumz_ext. intros i Hi. f_equal.
  destruct (H (unit_vec i) (mk_length _ _)) as [_ H2]. rewrite H2 by auto.
  rewrite (sumz_ext 256 _ (fun j => if (j =? i)%nat then M k j else 0)).
  - symmetry. apply (sumz_delta 256 i (fun j => M k j) Hi).
  - intros j Hj. unfold unit_vec. rewrite nth_mk by auto. destruct (_ =? _)%nat; lia.
Qed.

Lemma lin_length F : lin F -> forall r, length r = 256%nat -> length (F r) = 256%nat.
Proof. intros [M H] r Hr. apply H; auto. Qed.

(** A linear map respects congruence. *)
Lemma lin_lcong F : lin F -> forall r r', length r = 256%nat -> lcong r r' -> lcong (F r) (F r').
Proof.
  intros HF r r' Hr Hc. assert (length r' = 256%nat) by (destruct Hc; lia).
  split. rewrite !(lin_length F HF); auto.
  intros k Hk. rewrite (lin_length F HF) in Hk by auto.
  rewrite (lin_basis F HF r), (lin_basis F HF r') by auto.
  apply sumz_cong. intros i Hi. rewrite (lcong_nth _ _ i Hc). reflexivity.
Qed.

(** Equality of linear maps modulo q from equality on the basis. *)
Definition lcongb (l l' : list Z) : bool :=
  ((length l =? length l')%nat &&
   forallb (fun p => (fst p - snd p) mod 3329 =? 0) (combine l l'))%bool.

Lemma lcongb_spec l l' : lcongb l l' = true -> lcong l l'.
Proof.
  unfold lcongb. rewrite andb_true_iff, Nat.eqb_eq. intros [E H]. split; auto.
  intros i Hi. rewrite forallb_forall in H. apply cong_dec.
  specialize (H (nth i l 0, nth i l' 0)). simpl in H. apply Z.eqb_eq, H.
  rewrite <- combine_nth by auto. apply nth_In. rewrite combine_length. lia.
Qed.

Definition basis_check (F G : list Z -> list Z) : bool :=
  forallb (fun i => lcongb (F (unit_vec i)) (G (unit_vec i))) (seq 0 256).

Lemma lin_eq F G : lin F -> lin G -> basis_check F G = true ->
  forall r, length r = 256%nat -> lcong (F r) (G r).
Proof.
  intros HF HG Hb r Hr. split. rewrite !lin_length; auto.
  intros k Hk. rewrite lin_length in Hk by auto.
  rewrite (lin_basis F HF), (lin_basis G HG) by auto.
  apply sumz_cong. intros i Hi.
  unfold basis_check in Hb. rewrite forallb_forall in Hb.
  specialize (Hb i ltac:(apply in_seq; lia)). apply lcongb_spec in Hb.
  rewrite (lcong_nth _ _ k Hb). reflexivity.
Qed.

Lemma sumz_O f : sumz 0 f = 0. Proof. reflexivity. Qed.
Lemma sumz_S m f : sumz (S m) f = sumz m f + f m. Proof. reflexivity. Qed.
Global Opaque sumz.
