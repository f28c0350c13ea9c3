(** * Vocabulary for the set of accepted ciphertexts *)
From Coq Require Import ZArith List.
From Verif Require Import Model_Params Levels Spec_FIPS202 Spec_FIPS203 Vocab.
Import ListNotations.
Open Scope Z_scope.

(** The encryption of [m] with the coins derived from [m] and the hash [h] of the key *)
Definition derandomised (P : params) (A : list (list (list Z))) (ek h m : list Z) : list Z :=
  K_PKE_Encrypt P A ek m (skipn 32 (SHA3_512 (m ++ h))).
(** A ciphertext that is the encryption of what it decrypts to *)
Definition accepted_ciphertext (lv : level) (A : list (list (list Z))) (s ek h c : list Z) : Prop :=
  byte_array (KYBER_CIPHERTEXTBYTES lv) c /\ c = derandomised (PS lv) A ek h (K_PKE_Decrypt (PS lv) s c).
(** A message that survives encryption and decryption *)
Definition recovered_message (lv : level) (A : list (list (list Z))) (s ek h m : list Z) : Prop :=
  byte_array 32 m /\ K_PKE_Decrypt (PS lv) s (derandomised (PS lv) A ek h m) = m.
