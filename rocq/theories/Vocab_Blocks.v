(** * Vocabulary for the length of the rejection loop *)
From Coq Require Import ZArith List.
From Verif Require Import Spec_FIPS203 Vocab.
Import ListNotations.
Open Scope Z_scope.

(** [blocks] blocks of SHAKE128 output with fewer than 256 acceptable candidates *)
Definition short (blocks : nat) (B : list Z) : Prop :=
  byte_array (168 * blocks) B /\ (length (accepted (fun i => nth i B 0%Z) (56 * blocks)) < 256)%nat.
