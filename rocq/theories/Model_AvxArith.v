(** * poly_add and poly_sub of /repo/avx2/poly.c with arguments that may be the result

    As [Model_Poly.poly_add]: each argument is either the object being written
    or another one. *)
From Coq Require Import ZArith List.
From Verif Require Import CMonad Model_Params Model_AvxIntrin Model_AvxCode Model_AvxC Model_Poly.
Import ListNotations.
Open Scope Z_scope.
Open Scope cmonad_scope.

Definition oload (r : list Z) (o : operand) (i : nat) : res (list bool) :=
  match o with Self => load_vec r i | Other l => load_vec l i end.
(** avx2/poly.c:480-491 *)
Definition poly_add_any_avx2 (r : list Z) (a b : operand) : res (list Z) :=
  for_ 16 0 (fun i r =>
    f0 <- oload r a i ;;
    f1 <- oload r b i ;;
    o <- exec_c add_body [f0; f1] [0%nat] ;;
    store_vec r i (out o 0)) r.
(** avx2/poly.c:503-514 *)
Definition poly_sub_any_avx2 (r : list Z) (a b : operand) : res (list Z) :=
  for_ 16 0 (fun i r =>
    f0 <- oload r a i ;;
    f1 <- oload r b i ;;
    o <- exec_c sub_body [f0; f1] [0%nat] ;;
    store_vec r i (out o 0)) r.
