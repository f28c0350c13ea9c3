(** * Vocabulary for the four-way functions of avx2/ *)
From Coq Require Import ZArith List Bool.
From Verif Require Import CMonad Vocab.
Import ListNotations.
Open Scope Z_scope.

(** Four lists as one list of quadruples: a keccakx4_state holding four states *)
Fixpoint interleave (s0 s1 s2 s3 : list Z) : list (list Z) :=
  match s0, s1, s2, s3 with
  | a :: s0', b :: s1', c :: s2', d :: s3' => [a; b; c; d] :: interleave s0' s1' s2' s3'
  | _, _, _, _ => []
  end.

(** Bytes beyond the end of an n-byte input that the 8-byte loads reach *)
Definition slack8 (n : nat) : nat := ((8 - n mod 8) mod 8)%nat.

(** Four byte arrays of at least m bytes each *)
Definition buffers (m : nat) (bufs : list (list Z)) : Prop :=
  length bufs = 4%nat /\ forall b, In b bufs -> all_bytes b /\ (m <= length b)%nat.

(** Each array with its first elements replaced *)
Definition overwrite (outs new : list (list Z)) : list (list Z) :=
  map (fun p => snd p ++ skipn (length (snd p)) (fst p)) (combine outs new).
