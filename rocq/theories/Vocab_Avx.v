(** * Vocabulary for comparing the reference and the AVX2 variant *)
From Coq Require Import ZArith List.
From Verif Require Import CMonad Model_Params Model_Kem Model_AvxKem Spec_FIPS202 Spec_FIPS203 Vocab.
Import ListNotations.
Open Scope Z_scope.

(** Both runs finish with the same value, or both run out of fuel.  The traces
    are those of different programs and need not agree. *)
Definition same_result {A} (m m' : res A) : Prop :=
  (exists v T T', m = Ok v T /\ m' = Ok v T') \/ (m = Timeout /\ m' = Timeout).

(** A vector of [K] polynomials *)
Definition vec_shape (K : nat) (v : list (list Z)) : Prop :=
  length v = K /\ forall f, In f v -> length f = 256%nat.

(** [r] is the centred binomial sample with parameter [eta] of the given seed
    and nonce, with small signed coefficients *)
Definition cbd_sample (eta : nat) (seed : list Z) (nonce : Z) (r : list Z) : Prop :=
  length r = 256%nat /\ modq r = SamplePolyCBD eta (SHAKE256 (seed ++ [nonce]) (64 * eta)) /\
  in_range (- Z.of_nat eta) (Z.of_nat eta) r.
(** ... for the nonces [start], [start + 1], ... *)
Definition cbd_vector (eta : nat) (seed : list Z) (start K : nat) (v : list (list Z)) : Prop :=
  length v = K /\ forall i, (i < K)%nat -> cbd_sample eta seed (Z.of_nat (start + i)) (nth i v []).

Inductive variant := Reference | Avx2.
Definition keypair_derand_of (V : variant) (JJ : Junk) (lv : level) (fuel : nat) (pk sk coins : list Z) :=
  match V with
  | Reference => crypto_kem_keypair_derand lv fuel pk sk coins
  | Avx2 => crypto_kem_keypair_derand_avx2 lv fuel pk sk coins
  end.
Definition enc_derand_of (V : variant) (JJ : Junk) (lv : level) (fuel : nat) (ct ss pk coins : list Z) :=
  match V with
  | Reference => crypto_kem_enc_derand lv fuel ct ss pk coins
  | Avx2 => crypto_kem_enc_derand_avx2 lv fuel ct ss pk coins
  end.
Definition dec_of (V : variant) (JJ : Junk) (lv : level) (fuel : nat) (ss ct sk : list Z) :=
  match V with
  | Reference => crypto_kem_dec lv fuel ss ct sk
  | Avx2 => crypto_kem_dec_avx2 lv fuel ss ct sk
  end.
