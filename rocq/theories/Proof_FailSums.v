(** * Finite sums, products and the exponential bound *)
From Coq Require Import ZArith List Lia Bool.
From Verif Require Import CMonad Spec_FIPS203 Proof_Base Sums Proof_Dist.
Import ListNotations.
Open Scope Z_scope.

(** ** Sums over lists *)
Fixpoint lsum {A} (L : list A) (F : A -> Z) : Z :=
  match L with [] => 0 | x :: L => F x + lsum L F end.
Lemma lsum_ext {A} (L : list A) F G : (forall x, In x L -> F x = G x) -> lsum L F = lsum L G.
Proof. intros E. induction L as [|x L IH]; [reflexivity|]. cbn [lsum]. rewrite E by (cbn; auto). rewrite IH; [reflexivity|]. intros; apply E; cbn; auto. Qed.
Lemma lsum_le {A} (L : list A) F G : (forall x, In x L -> F x <= G x) -> lsum L F <= lsum L G.
Proof.
  intros E. induction L as [|x L IH]; [cbn [lsum]; lia|]. cbn [lsum]. pose proof (E x (or_introl eq_refl)).
  assert (lsum L F <= lsum L G) by (apply IH; intros; apply E; cbn; auto). lia.
Qed.
Lemma lsum_scale {A} (L : list A) c F : lsum L (fun x => c * F x) = c * lsum L F.
Proof. induction L as [|x L IH]; cbn [lsum]; [lia|]. rewrite IH. lia. Qed.
Lemma lsum_scale_r {A} (L : list A) c F : lsum L (fun x => F x * c) = lsum L F * c.
Proof. induction L as [|x L IH]; cbn [lsum]; [lia|]. rewrite IH. lia. Qed.
Lemma lsum_plus {A} (L : list A) F G : lsum L (fun x => F x + G x) = lsum L F + lsum L G.
Proof. induction L as [|x L IH]; cbn [lsum]; [lia|]. rewrite IH. lia. Qed.
Lemma lsum_app {A} (L M : list A) F : lsum (L ++ M) F = lsum L F + lsum M F.
Proof. induction L as [|x L IH]; cbn [lsum app]; [lia|]. rewrite IH. lia. Qed.
Lemma lsum_map {A B} (f : A -> B) L F : lsum (map f L) F = lsum L (fun x => F (f x)).
Proof. induction L as [|x L IH]; cbn [lsum map]; [reflexivity|]. now rewrite IH. Qed.
Lemma lsum_const {A} (L : list A) c : lsum L (fun _ => c) = Z.of_nat (length L) * c.
Proof. induction L as [|x L IH]; cbn [lsum length]; [lia|]. rewrite IH. lia. Qed.
Lemma lsum_nonneg {A} (L : list A) F : (forall x, In x L -> 0 <= F x) -> 0 <= lsum L F.
Proof. intros E. replace 0 with (lsum L (fun _ => 0)); [now apply lsum_le|]. rewrite lsum_const. lia. Qed.
Lemma lsum_prod {A B} (L : list A) (M : list B) F : lsum (list_prod L M) F = lsum L (fun x => lsum M (fun y => F (x, y))).
Proof. induction L as [|x L IH]; cbn [lsum list_prod]; [reflexivity|]. now rewrite lsum_app, lsum_map, IH. Qed.
Lemma lsum_prefixed {A} (D : list A) L F : lsum (prefixed D L) F = lsum D (fun g => lsum L (fun l => F (g :: l))).
Proof.
  unfold prefixed. induction D as [|x D IH]; cbn [lsum flat_map]; [reflexivity|]. now rewrite lsum_app, lsum_map, IH.
Qed.
Lemma lsum_sumz {A} (L : list A) m F : lsum L (fun x => sumz m (F x)) = sumz m (fun i => lsum L (fun x => F x i)).
Proof.
  induction m as [|m IH]; [cbn [sumz]; rewrite lsum_const; lia|]. cbn [sumz]. now rewrite lsum_plus, IH.
Qed.
Lemma count_lsum {A} (p : A -> bool) L : Z.of_nat (length (filter p L)) = lsum L (fun x => if p x then 1 else 0).
Proof. induction L as [|x L IH]; [reflexivity|]. cbn [filter lsum]. destruct (p x); cbn [length]; lia. Qed.
Lemma sumz_le m f g : (forall i, (i < m)%nat -> f i <= g i) -> sumz m f <= sumz m g.
Proof.
  induction m as [|m IH]; intros E; [cbn [sumz]; lia|]. cbn [sumz]. pose proof (E m ltac:(lia)).
  assert (sumz m f <= sumz m g) by (apply IH; intros; apply E; lia). lia.
Qed.
Lemma sumz_const m c : sumz m (fun _ => c) = Z.of_nat m * c.
Proof. induction m as [|m IH]; cbn [sumz]; [lia|]. rewrite IH. lia. Qed.

(** ** Products *)
Fixpoint prodz (m : nat) (f : nat -> Z) : Z :=
  match m with O => 1 | S m => prodz m f * f m end.
Lemma prodz_S m f : prodz (S m) f = prodz m f * f m. Proof. reflexivity. Qed.
Lemma prodz_ext m f g : (forall i, (i < m)%nat -> f i = g i) -> prodz m f = prodz m g.
Proof. induction m as [|m IH]; intros E; [reflexivity|]. cbn [prodz]. rewrite E, IH by (intros; try apply E; lia). reflexivity. Qed.
Lemma prodz_app m p f : prodz (m + p) f = prodz m f * prodz p (fun i => f (m + i)%nat).
Proof.
  induction p as [|p IH]; [rewrite Nat.add_0_r; cbn [prodz]; lia|]. rewrite Nat.add_succ_r. cbn [prodz]. rewrite IH. lia.
Qed.
Lemma prodz_first m f : prodz (S m) f = f 0%nat * prodz m (fun i => f (S i)).
Proof. change (S m) with (1 + m)%nat. rewrite prodz_app. cbn [prodz]. rewrite Z.mul_1_l. f_equal. Qed.
Lemma prodz_rev m : forall f, prodz m f = prodz m (fun i => f (m - 1 - i)%nat).
Proof.
  induction m as [|m IH]; intros f; [reflexivity|]. rewrite prodz_first. rewrite prodz_S. rewrite IH.
  replace (f (S m - 1 - m)%nat) with (f 0%nat) by (f_equal; lia). rewrite Z.mul_comm. f_equal.
  apply prodz_ext. intros i Hi. f_equal. lia.
Qed.
Lemma prodz_le m f g : (forall i, (i < m)%nat -> 0 <= f i <= g i) -> 0 <= prodz m f <= prodz m g.
Proof.
  induction m as [|m IH]; intros E; [cbn [prodz]; lia|]. cbn [prodz]. pose proof (E m ltac:(lia)).
  assert (0 <= prodz m f <= prodz m g) by (apply IH; intros; apply E; lia).
  split; [apply Z.mul_nonneg_nonneg; lia|]. apply Z.mul_le_mono_nonneg; lia.
Qed.
Lemma prodz_const m c : prodz m (fun _ => c) = c ^ Z.of_nat m.
Proof. induction m as [|m IH]; [reflexivity|]. cbn [prodz]. rewrite IH. rewrite Nat2Z.inj_succ, Z.pow_succ_r by lia. lia. Qed.
Lemma prodz_blocks b m f : prodz (b * m) f = prodz m (fun a => prodz b (fun i => f (b * a + i)%nat)).
Proof.
  induction m as [|m IH]; [now rewrite Nat.mul_0_r|]. rewrite Nat.mul_succ_r, prodz_app, IH. reflexivity.
Qed.
Lemma sumz_blocks b m f : sumz (b * m) f = sumz m (fun a => sumz b (fun i => f (b * a + i)%nat)).
Proof.
  induction m as [|m IH]; [now rewrite Nat.mul_0_r|]. rewrite Nat.mul_succ_r, sumz_app, IH. reflexivity.
Qed.

(** ** All lists over a set *)
Fixpoint every (D : list Z) (m : nat) : list (list Z) :=
  match m with O => [[]] | S m => prefixed D (every D m) end.
Lemma every_in D m : forall w, In w (every D m) <-> length w = m /\ forall x, In x w -> In x D.
Proof.
  induction m as [|m IH]; intros w; cbn [every].
  - split; [intros [<-|[]]; split; [reflexivity|intros x []]|]. intros [L _]. destruct w; [left; reflexivity|discriminate].
  - rewrite prefixed_in. split.
    + intros (g & l & -> & Hg & Hl). apply IH in Hl as [L HL]. split; [cbn; lia|]. intros x [<-|Hx]; auto.
    + intros [L HL]. destruct w as [|g l]; [discriminate|]. exists g, l. split; [reflexivity|]. split; [apply HL; cbn; auto|].
      apply IH. split; [cbn in L; lia|]. intros; apply HL; cbn; auto.
Qed.
Lemma every_NoDup D m : NoDup D -> NoDup (every D m).
Proof. intros ND. induction m as [|m IH]; cbn [every]; [repeat constructor; intros []|]. now apply prefixed_NoDup. Qed.
Lemma every_length D m : Z.of_nat (length (every D m)) = Z.of_nat (length D) ^ Z.of_nat m.
Proof. induction m as [|m IH]; [reflexivity|]. cbn [every]. rewrite prefixed_length, IH. rewrite Nat2Z.inj_succ, Z.pow_succ_r by lia. reflexivity. Qed.

(** A sum of products over independent choices is the product of the sums. *)
Lemma lsum_every_prod D m : forall phi, lsum (every D m) (fun l => prodz m (fun i => phi i (nth i l 0))) = prodz m (fun i => lsum D (phi i)).
Proof.
  induction m as [|m IH]; intros phi; [reflexivity|]. cbn [every]. rewrite lsum_prefixed, prodz_first.
  rewrite <- lsum_scale_r. apply lsum_ext. intros g _. rewrite <- (IH (fun i => phi (S i))). rewrite <- lsum_scale.
  apply lsum_ext. intros l _. now rewrite prodz_first.
Qed.

(** ** The exponential p^x r^-x, made integral on [-M, M] *)
Section Exp.
Context (p r : Z).
Definition Ex (M x : Z) : Z := p ^ (M + x) * r ^ (M - x).
Lemma Ex_mul M N x y : Z.abs x <= M -> Z.abs y <= N -> Ex M x * Ex N y = Ex (M + N) (x + y).
Proof.
  intros HM HN. unfold Ex. replace (M + N + (x + y)) with ((M + x) + (N + y)) by lia.
  replace (M + N - (x + y)) with ((M - x) + (N - y)) by lia.
  rewrite (Z.pow_add_r p (M + x) (N + y)), (Z.pow_add_r r (M - x) (N - y)) by lia. ring.
Qed.
Lemma Ex_prod m M f : 0 <= M -> (forall i, (i < m)%nat -> Z.abs (f i) <= M) -> 
  Z.abs (sumz m f) <= Z.of_nat m * M /\ prodz m (fun i => Ex M (f i)) = Ex (Z.of_nat m * M) (sumz m f).
Proof.
  intros HM. induction m as [|m IH]; intros B; [split; [exact (Z.le_refl 0)|reflexivity]|].
  destruct IH as [I1 I2]; [intros; apply B; lia|]. specialize (B m ltac:(lia)). cbn [prodz sumz]. rewrite Nat2Z.inj_succ.
  split; [lia|]. rewrite I2, Ex_mul by assumption. f_equal. lia.
Qed.
Context (Hr : 0 < r) (Hp : r <= p).
Lemma Ex_pos M x : Z.abs x <= M -> 0 < Ex M x.
Proof. intros A. unfold Ex. apply Z.mul_pos_pos; apply Z.pow_pos_nonneg; lia. Qed.
Lemma Ex_mono M x y : Z.abs x <= M -> Z.abs y <= M -> x <= y -> Ex M x <= Ex M y.
Proof.
  intros A B C. unfold Ex. replace (M + y) with ((M + x) + (y - x)) by lia. replace (M - x) with ((M - y) + (y - x)) by lia.
  rewrite (Z.pow_add_r p (M + x) (y - x)), (Z.pow_add_r r (M - y) (y - x)) by lia.
  assert (r ^ (y - x) <= p ^ (y - x)) by (apply Z.pow_le_mono_l; lia).
  assert (0 < p ^ (M + x)) by (apply Z.pow_pos_nonneg; lia).
  assert (0 < r ^ (M - y)) by (apply Z.pow_pos_nonneg; lia).
  assert (0 < p ^ (M + x) * r ^ (M - y)) by (apply Z.mul_pos_pos; lia).
  replace (p ^ (M + x) * (r ^ (M - y) * r ^ (y - x))) with (p ^ (M + x) * r ^ (M - y) * r ^ (y - x)) by ring.
  replace (p ^ (M + x) * p ^ (y - x) * r ^ (M - y)) with (p ^ (M + x) * r ^ (M - y) * p ^ (y - x)) by ring.
  apply Z.mul_le_mono_nonneg_l; lia.
Qed.
Lemma Ex_tail M t x : 0 <= t <= M -> Z.abs x <= M -> (if t <=? Z.abs x then 1 else 0) * Ex M t <= Ex M x + Ex M (- x).
Proof.
  intros A B. pose proof (Ex_pos M x B). pose proof (Ex_pos M (- x) ltac:(lia)).
  destruct (Z.leb_spec t (Z.abs x)) as [L|L]; [|lia].
  destruct (Z.abs_spec x) as [[S E]|[S E]].
  - pose proof (Ex_mono M t x ltac:(lia) B ltac:(lia)). lia.
  - pose proof (Ex_mono M t (- x) ltac:(lia) ltac:(lia) ltac:(lia)). lia.
Qed.
End Exp.
