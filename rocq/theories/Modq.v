(** * Congruence modulo q = 3329 *)
From Coq Require Import ZArith List Lia Bool Morphisms Setoid.
Import ListNotations.
Open Scope Z_scope.

Definition cong (a b : Z) : Prop := exists k, a = b + k * 3329.
Infix "≡" := cong (at level 70, no associativity).

Lemma cong_refl a : a ≡ a. Proof. exists 0; lia. Qed.
Lemma cong_sym a b : a ≡ b -> b ≡ a. Proof. intros [k ->]. exists (-k); lia. Qed.
Lemma cong_trans a b c : a ≡ b -> b ≡ c -> a ≡ c.
Proof. intros [k ->] [l ->]. exists (k + l); lia. Qed.

#[export] Instance cong_equiv : Equivalence cong.
Proof. split; red; [apply cong_refl|apply cong_sym|apply cong_trans]. Qed.

#[export] Instance cong_add : Proper (cong ==> cong ==> cong) Z.add.
Proof. intros a b [k ->] c d [l ->]. exists (k + l). lia. Qed.
#[export] Instance cong_sub : Proper (cong ==> cong ==> cong) Z.sub.
Proof. intros a b [k ->] c d [l ->]. exists (k - l). lia. Qed.
#[export] Instance cong_opp : Proper (cong ==> cong) Z.opp.
Proof. intros a b [k ->]. exists (- k). lia. Qed.
#[export] Instance cong_mul : Proper (cong ==> cong ==> cong) Z.mul.
Proof. intros a b [k ->] c d [l ->]. exists (b * l + k * d + k * l * 3329). lia. Qed.

Lemma cong_mod_iff a b : a ≡ b <-> a mod 3329 = b mod 3329.
Proof.
  split.
  - intros [k ->]. apply Z_mod_plus_full.
  - intros H. exists (a / 3329 - b / 3329).
    pose proof (Z.div_mod a 3329). pose proof (Z.div_mod b 3329). lia.
Qed.

Lemma cong_mod a : a mod 3329 ≡ a.
Proof. apply cong_mod_iff. apply Z.mod_mod. lia. Qed.

Lemma cong_dec a b : (a - b) mod 3329 = 0 -> a ≡ b.
Proof.
  intros H. exists ((a - b) / 3329). pose proof (Z.div_mod (a - b) 3329). lia.
Qed.

Lemma cong_eq a b : a = b -> a ≡ b. Proof. intros ->; reflexivity. Qed.

(** 2^16 is invertible mod q: 169 * 2^16 = 1 + 3327 * 3329. *)
Definition Rinv : Z := 169.
Lemma R_Rinv : 65536 * 169 ≡ 1. Proof. exists 3327. reflexivity. Qed.

Lemma cong_R_cancel a b : a * 65536 ≡ b * 65536 -> a ≡ b.
Proof.
  intros H.
  assert (E : forall x, x * 65536 * 169 ≡ x).
  { intros x. replace (x * 65536 * 169) with (x * (65536 * 169)) by lia.
    rewrite R_Rinv. apply cong_eq; lia. }
  rewrite <- (E a), <- (E b), H. reflexivity.
Qed.

(** Canonical representatives are unique. *)
Lemma cong_canon a b : 0 <= a < 3329 -> 0 <= b < 3329 -> a ≡ b -> a = b.
Proof. intros ? ? [k H]. assert (k = 0) by lia. lia. Qed.

Lemma cong_mod_eq a b : a ≡ b -> a mod 3329 = b mod 3329.
Proof. apply cong_mod_iff. Qed.

(** Pointwise congruence of lists (same length). *)
Definition lcong (l l' : list Z) : Prop :=
  length l = length l' /\ forall i, (i < length l)%nat -> nth i l 0 ≡ nth i l' 0.

Lemma lcong_refl l : lcong l l. Proof. split; auto; reflexivity. Qed.
Lemma lcong_sym l l' : lcong l l' -> lcong l' l.
Proof. intros [E H]. split; auto. intros i Hi. symmetry. apply H. lia. Qed.
Lemma lcong_trans l l' l'' : lcong l l' -> lcong l' l'' -> lcong l l''.
Proof.
  intros [E H] [E' H']. split; [congruence|].
  intros i Hi. rewrite H by auto. apply H'. lia.
Qed.
#[export] Instance lcong_equiv : Equivalence lcong.
Proof. split; red; [apply lcong_refl|apply lcong_sym|apply lcong_trans]. Qed.

Lemma lcong_nth l l' i : lcong l l' -> nth i l 0 ≡ nth i l' 0.
Proof.
  intros [E H]. destruct (Nat.ltb_spec i (length l)); auto.
  rewrite !nth_overflow by lia. reflexivity.
Qed.
