(** * More fuel never changes a result: the bound on the refill loop of
    gen_matrix (indcpa.c:182-186) only separates [Timeout] from the rest *)
From Coq Require Import ZArith List Lia Bool.
From Verif Require Import CMonad Model_Params Model_Indcpa Model_Randombytes Model_Kem.
Import ListNotations.
Open Scope Z_scope.

(** [m'] has the outcome of [m], trace included, unless [m] ran out of fuel *)
Definition le_res {A} (m m' : res A) : Prop := m = Timeout \/ m' = m.

Lemma le_refl {A} (m : res A) : le_res m m. Proof. now right. Qed.

Lemma le_bind {A B} (m m' : res A) (f f' : A -> res B) :
  le_res m m' -> (forall x, le_res (f x) (f' x)) -> le_res (bind m f) (bind m' f').
Proof.
  intros [->| ->] Hf; [left; reflexivity|]. destruct m as [v t|u| |]; try (right; reflexivity).
  cbn [bind]. destruct (Hf v) as [->| ->]; [left; reflexivity|now right].
Qed.

Lemma le_for {S} n : forall lo (f f' : nat -> S -> res S) s, (forall i s, le_res (f i s) (f' i s)) ->
  le_res (for_ n lo f s) (for_ n lo f' s).
Proof.
  induction n as [|n IH]; intros lo f f' s Hf; [apply le_refl|].
  cbn [for_]. apply le_bind; [apply le_refl|]. intros _. apply le_bind; [apply Hf|]. intros x. now apply IH.
Qed.

Lemma le_while {S} (c : S -> res bool) (b : S -> res S) : forall fuel fuel' s, (fuel <= fuel')%nat ->
  le_res (while_ fuel c b s) (while_ fuel' c b s).
Proof.
  induction fuel as [|fuel IH]; intros fuel' s Hf; [left; reflexivity|].
  destruct fuel' as [|fuel']; [lia|]. cbn [while_]. apply le_bind; [apply le_refl|].
  intros [|]; [|apply le_refl]. apply le_bind; [apply le_refl|]. intros x. apply IH. lia.
Qed.

Ltac le_step := apply le_bind; [apply le_refl|];
  let x := fresh in intros x; repeat match goal with p : (_ * _)%type |- _ => destruct p end.

Section Fuel.
Context (fuel fuel' : nat) (LE : (fuel <= fuel')%nat) (JJ : Junk) (lv : level).

Lemma le_entry c b st seed so x y :
  le_res (gen_matrix_entry fuel c b st seed so x y) (gen_matrix_entry fuel' c b st seed so x y).
Proof. unfold gen_matrix_entry. do 3 le_step. apply le_bind; [now apply le_while|]. intros x0. apply le_refl. Qed.

Lemma le_gen_matrix a seed so t : le_res (gen_matrix lv fuel a seed so t) (gen_matrix lv fuel' a seed so t).
Proof.
  unfold gen_matrix. apply le_bind; [|intros; apply le_refl].
  apply le_for. intros i s. apply le_for. intros j [[a1 b1] st1].
  apply le_bind; [apply le_refl|]. intros c. apply le_bind; [apply le_refl|]. intros ai.
  apply le_bind; [apply le_refl|]. intros aij. apply le_bind; [destruct c; apply le_entry|].
  intros [[? ?] ?]. apply le_refl.
Qed.

Lemma le_indcpa_keypair pk po sk sko coins co :
  le_res (indcpa_keypair_derand lv fuel pk po sk sko coins co) (indcpa_keypair_derand lv fuel' pk po sk sko coins co).
Proof.
  unfold indcpa_keypair_derand, gen_a. do 3 le_step. apply le_bind; [apply le_gen_matrix|]. intros a. apply le_refl.
Qed.

Lemma le_indcpa_enc c cto m mo pk po coins co :
  le_res (indcpa_enc lv fuel c cto m mo pk po coins co) (indcpa_enc lv fuel' c cto m mo pk po coins co).
Proof.
  unfold indcpa_enc, gen_at. do 2 le_step. apply le_bind; [apply le_gen_matrix|]. intros a. apply le_refl.
Qed.

Lemma le_keypair_derand pk sk coins :
  le_res (crypto_kem_keypair_derand lv fuel pk sk coins) (crypto_kem_keypair_derand lv fuel' pk sk coins).
Proof. unfold crypto_kem_keypair_derand. apply le_bind; [apply le_indcpa_keypair|]. intros [? ?]. apply le_refl. Qed.

Lemma le_keypair sched pk sk :
  le_res (crypto_kem_keypair lv fuel sched pk sk) (crypto_kem_keypair lv fuel' sched pk sk).
Proof.
  unfold crypto_kem_keypair. apply le_bind; [apply le_refl|]. intros [? ?].
  apply le_bind; [apply le_keypair_derand|]. intros [[? ?] ?]. apply le_refl.
Qed.

Lemma le_enc_derand ct ss pk coins :
  le_res (crypto_kem_enc_derand lv fuel ct ss pk coins) (crypto_kem_enc_derand lv fuel' ct ss pk coins).
Proof.
  unfold crypto_kem_enc_derand. do 3 le_step. apply le_bind; [apply le_indcpa_enc|]. intros a. apply le_refl.
Qed.

Lemma le_enc sched ct ss pk :
  le_res (crypto_kem_enc lv fuel sched ct ss pk) (crypto_kem_enc lv fuel' sched ct ss pk).
Proof.
  unfold crypto_kem_enc. apply le_bind; [apply le_refl|]. intros [? ?].
  apply le_bind; [apply le_enc_derand|]. intros [[? ?] ?]. apply le_refl.
Qed.

Lemma le_dec ss ct sk : le_res (crypto_kem_dec lv fuel ss ct sk) (crypto_kem_dec lv fuel' ss ct sk).
Proof.
  unfold crypto_kem_dec. do 3 le_step. apply le_bind; [apply le_indcpa_enc|]. intros a. apply le_refl.
Qed.

End Fuel.

(** Two runs that both finish agree, whatever their fuel *)
Lemma fuel_agree {A} (f : nat -> res A) : (forall n n', (n <= n')%nat -> le_res (f n) (f n')) ->
  forall n n', f n <> Timeout -> f n' <> Timeout -> f n = f n'.
Proof.
  intros HM n n' H1 H2. destruct (Nat.le_ge_cases n n') as [L|L]; destruct (HM _ _ L); congruence.
Qed.
