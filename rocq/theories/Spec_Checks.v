(** * FIPS 203 section 7: the checks on keys and ciphertexts *)
From Coq Require Import ZArith List.
From Verif Require Import Spec_FIPS202 Spec_FIPS203.
Import ListNotations.
Open Scope Z_scope.

(** Section 7.2, type check and modulus check *)
Definition ek_check (P : params) (ek : list Z) : Prop :=
  length ek = (384 * k P + 32)%nat /\ (forall b, In b ek -> 0 <= b < 256) /\
  flat_map (ByteEncode 12) (decode_vec P 12 (firstn (384 * k P) ek)) = firstn (384 * k P) ek.
(** Section 7.3, type checks and hash check *)
Definition dk_check (P : params) (dk : list Z) : Prop :=
  length dk = (768 * k P + 96)%nat /\ (forall b, In b dk -> 0 <= b < 256) /\
  SHA3_256 (firstn (384 * k P + 32) (skipn (384 * k P) dk)) = firstn 32 (skipn (768 * k P + 32) dk).
Definition ct_check (P : params) (c : list Z) : Prop :=
  length c = (32 * (du P * k P + dv P))%nat /\ (forall b, In b c -> 0 <= b < 256).
