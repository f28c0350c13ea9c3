(** * The AVX2 code: more fuel never changes a result *)
From Coq Require Import ZArith List Lia Bool.
From Verif Require Import CMonad Model_Params Model_Randombytes Model_AvxIndcpa Model_AvxKem Proof_Fuel.
Import ListNotations.
Open Scope Z_scope.

Section Fuel.
Context (fuel fuel' : nat) (LE : (fuel <= fuel')%nat) (JJ : Junk) (lv : level).

Lemma le_gen_four ps bufs st seed so t xt xn :
  le_res (gen_four fuel ps bufs st seed so t xt xn) (gen_four fuel' ps bufs st seed so t xt xn).
Proof.
  unfold gen_four. apply le_bind; [apply le_refl|]. intros b1. apply le_bind; [apply le_refl|]. intros c.
  apply le_bind; [apply le_refl|]. intros b2. apply le_bind; [apply le_refl|]. intros s1.
  apply le_bind; [apply le_refl|]. intros [b3 s2]. apply le_bind; [apply le_refl|]. intros [cs ps'].
  apply le_bind; [now apply le_while|]. intros x. apply le_refl.
Qed.
Lemma le_gen_one p b seed so xs : le_res (gen_one fuel p b seed so xs) (gen_one fuel' p b seed so xs).
Proof.
  unfold gen_one. apply le_bind; [apply le_refl|]. intros f. apply le_bind; [apply le_refl|]. intros b1.
  apply le_bind; [apply le_refl|]. intros b2. apply le_bind; [apply le_refl|]. intros s1.
  apply le_bind; [apply le_refl|]. intros [b3 s2]. apply le_bind; [apply le_refl|]. intros [c p'].
  apply le_bind; [now apply le_while|]. intros x. apply le_refl.
Qed.
Lemma le_gen_group seed so t pos xt xn s :
  le_res (gen_group fuel seed so t pos xt xn s) (gen_group fuel' seed so t pos xt xn s).
Proof.
  unfold gen_group. destruct s as [[a bufs] st]. apply le_bind; [apply le_refl|]. intros ps.
  apply le_bind; [apply le_gen_four|]. intros x. apply le_refl.
Qed.

Lemma le_gen_matrix_avx2 a seed so t :
  le_res (gen_matrix_avx2 lv fuel a seed so t) (gen_matrix_avx2 lv fuel' a seed so t).
Proof.
  unfold gen_matrix_avx2. destruct lv.
  - apply le_bind; [apply le_gen_group|]. intros x. apply le_refl.
  - apply le_bind; [apply le_gen_group|]. intros s. apply le_bind; [apply le_gen_group|]. intros [[a1 bufs] st].
    apply le_bind; [apply le_refl|]. intros b. apply le_bind; [apply le_refl|]. intros a2.
    apply le_bind; [apply le_refl|]. intros p. apply le_bind; [apply le_gen_one|]. intros x. apply le_refl.
  - apply le_bind; [|intros x; apply le_refl]. apply le_for. intros i s. apply le_gen_group.
Qed.

Lemma le_indcpa_keypair_avx2 pk po sk sko coins co :
  le_res (indcpa_keypair_derand_avx2 lv fuel pk po sk sko coins co) (indcpa_keypair_derand_avx2 lv fuel' pk po sk sko coins co).
Proof.
  unfold indcpa_keypair_derand_avx2, gen_a_avx2. do 3 le_step. apply le_bind; [apply le_gen_matrix_avx2|]. intros a. apply le_refl.
Qed.
Lemma le_indcpa_enc_avx2 c cto m mo pk po coins co :
  le_res (indcpa_enc_avx2 lv fuel c cto m mo pk po coins co) (indcpa_enc_avx2 lv fuel' c cto m mo pk po coins co).
Proof.
  unfold indcpa_enc_avx2, gen_at_avx2. do 2 le_step. apply le_bind; [apply le_gen_matrix_avx2|]. intros a. apply le_refl.
Qed.

Lemma le_keypair_derand_avx2 pk sk coins :
  le_res (crypto_kem_keypair_derand_avx2 lv fuel pk sk coins) (crypto_kem_keypair_derand_avx2 lv fuel' pk sk coins).
Proof. unfold crypto_kem_keypair_derand_avx2. apply le_bind; [apply le_indcpa_keypair_avx2|]. intros [? ?]. apply le_refl. Qed.
Lemma le_enc_derand_avx2 ct ss pk coins :
  le_res (crypto_kem_enc_derand_avx2 lv fuel ct ss pk coins) (crypto_kem_enc_derand_avx2 lv fuel' ct ss pk coins).
Proof.
  unfold crypto_kem_enc_derand_avx2. do 3 le_step. apply le_bind; [apply le_indcpa_enc_avx2|]. intros a. apply le_refl.
Qed.
Lemma le_dec_avx2 ss ct sk : le_res (crypto_kem_dec_avx2 lv fuel ss ct sk) (crypto_kem_dec_avx2 lv fuel' ss ct sk).
Proof.
  unfold crypto_kem_dec_avx2. do 3 le_step. apply le_bind; [apply le_indcpa_enc_avx2|]. intros a. apply le_refl.
Qed.
End Fuel.
