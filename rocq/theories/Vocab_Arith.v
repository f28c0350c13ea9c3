(** * Vocabulary for sums and differences of polynomials *)
From Coq Require Import ZArith List.
From Verif Require Import Model_Poly Vocab.
Import ListNotations.
Open Scope Z_scope.

(** The value of an argument that may be the object being written *)
Definition argument (r : list Z) (o : operand) : list Z := match o with Self => r | Other l => l end.
(** Sixteen-bit two's complement *)
Definition wrap16 (x : Z) : Z := (x + 32768) mod 65536 - 32768.
Definition int16_poly (f : list Z) : Prop := length f = 256%nat /\ in_range (-32768) 32767 f.
Definition coefficientwise (op : Z -> Z -> Z) (f g : list Z) : list Z := map (fun p => wrap16 (op (fst p) (snd p))) (combine f g).
