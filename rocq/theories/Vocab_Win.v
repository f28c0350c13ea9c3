(** * Vocabulary for the Windows branch of randombytes *)
From Coq Require Import ZArith List.
From Verif Require Import Model_RandomWin.
Import ListNotations.
Open Scope Z_scope.

(** The requests of a call: at most 2^20 bytes each, all but the last of them full *)
Definition chunk_sizes (lens : list nat) : Prop :=
  (forall l, In l lens -> 0 < Z.of_nat l <= 2 ^ 20) /\ (forall l, In l (removelast lens) -> Z.of_nat l = 2 ^ 20).
(** What the replies [srcs] to requests of lengths [lens] store *)
Definition generated (srcs : list (nat -> Z)) (lens : list nat) : list Z :=
  flat_map (fun p => map (fst p) (seq 0 (snd p))) (combine srcs lens).
(** Number of requests for [n] bytes *)
Definition requests (n : nat) : nat := Z.to_nat ((Z.of_nat n + 2 ^ 20 - 1) / 2 ^ 20).
