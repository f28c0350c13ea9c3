(** * Vocabulary for counting the inputs that lead to an output *)
From Coq Require Import ZArith List.
Import ListNotations.
Open Scope Z_scope.

(** Exactly [n] values satisfy [P]. *)
Definition counted {A} (P : A -> Prop) (n : Z) : Prop :=
  exists L, NoDup L /\ (forall x, In x L <-> P x) /\ Z.of_nat (length L) = n.
(** Binomial coefficients *)
Fixpoint binomial (n : nat) (k : Z) : Z :=
  match n with
  | O => if k =? 0 then 1 else 0
  | S n => binomial n (k - 1) + binomial n k
  end.
(** The number of ways to draw each coefficient of [f] as the difference of two
    sums of [eta] bits *)
Definition centred_binomial (eta : nat) (f : list Z) : Z :=
  fold_right Z.mul 1 (map (fun x => binomial (2 * eta) (Z.of_nat eta + x)) f).
