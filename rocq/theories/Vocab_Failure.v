(** * Vocabulary for decryption failures *)
From Coq Require Import ZArith List.
From Verif Require Import Spec_FIPS203 Spec_Noise Spec_Failure Vocab.
Import ListNotations.
Open Scope Z_scope.

(** Strings for s, e, y, e1, e2 that make decryption of [m] fail *)
Definition failing (P : params) (A : list (list (list Z))) (m : list Z)
  (w : list Z * list Z * list Z * list Z * list Z) : Prop :=
  let '(SB, EB, YB, E1B, E2B) := w in
  byte_array (64 * eta1 P * k P) SB /\ byte_array (64 * eta1 P * k P) EB /\ byte_array (64 * eta1 P * k P) YB /\
  byte_array (64 * eta2 P * k P) E1B /\ byte_array (64 * eta2 P) E2B /\
  ~ noise_decodes m (sampled_noise P A m SB EB YB E1B E2B).

(** The strings K-PKE expands: s and e from the key seed [d], y, e1 and e2 from the encryption coins [r] *)
Definition expanded (P : params) (d r : list Z) : list Z * list Z * list Z * list Z * list Z :=
  (prf_bytes (eta1 P) (keygen_sigma P d) 0 (k P), prf_bytes (eta1 P) (keygen_sigma P d) (k P) (k P),
   prf_bytes (eta1 P) r 0 (k P), prf_bytes (eta2 P) r (k P) (k P), prf_bytes (eta2 P) r (2 * k P) 1).
