(** * Vocabulary for the binding properties: collisions of the hash functions at
    named inputs *)
From Coq Require Import ZArith List.
From Verif Require Import Spec_FIPS202.
Import ListNotations.
Open Scope Z_scope.

(** [x] and [y] are a collision of [f] *)
Definition collide (f : list Z -> list Z) (x y : list Z) : Prop := x <> y /\ f x = f y.
(** The secret of an accepted ciphertext and of a rejected one *)
Definition accept_key (x : list Z) : list Z := firstn 32 (SHA3_512 x).
Definition reject_key (x : list Z) : list Z := SHAKE256 x 32.
