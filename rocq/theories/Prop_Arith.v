(** * C77: sums and differences of polynomials, with every overlap of the arguments *)
From Coq Require Import ZArith List.
From Verif Require Import CMonad Model_Params Model_Poly Model_AvxC Model_AvxArith Vocab Vocab_Arith Cases Proof_Arith.
Import ListNotations.
Open Scope Z_scope.

(** Sums: both versions, each argument the result itself or another polynomial; the trace never depends on the data. *)
Theorem C77_add : exists T1 T2, forall r a b,
  length r = 256%nat -> int16_poly (argument r a) -> int16_poly (argument r b) ->
  poly_add r a b = Ok (coefficientwise Z.add (argument r a) (argument r b)) T1 /\
  poly_add_any_avx2 r a b = Ok (coefficientwise Z.add (argument r a) (argument r b)) T2.
Proof. exact both_add. Qed.
Print Assumptions C77_add.

Theorem C77_sub : exists T1 T2, forall r a b,
  length r = 256%nat -> int16_poly (argument r a) -> int16_poly (argument r b) ->
  poly_sub r a b = Ok (coefficientwise Z.sub (argument r a) (argument r b)) T1 /\
  poly_sub_any_avx2 r a b = Ok (coefficientwise Z.sub (argument r a) (argument r b)) T2.
Proof. exact both_sub. Qed.
Print Assumptions C77_sub.

(** The wrapped result is the true one modulo 2^16 and is the true one wherever that fits. *)
Theorem C77_exact : forall op f g i,
  length f = 256%nat -> length g = 256%nat -> (i < 256)%nat ->
  let c := nth i (coefficientwise op f g) 0 in let t := op (nth i f 0) (nth i g 0) in
  -32768 <= c <= 32767 /\ (c - t) mod 65536 = 0 /\ (-32768 <= t <= 32767 -> c = t).
Proof. exact wrapped_meaning. Qed.
Print Assumptions C77_exact.

(** The AVX2 functions called by the rest of the model are these, with the overlaps of their callers. *)
Theorem C77_callers : forall r a b,
  poly_add_avx2 r a b = poly_add_any_avx2 r (Other a) (Other b) /\
  poly_add_to_avx2 r b = poly_add_any_avx2 r Self (Other b) /\
  poly_sub_from_avx2 r a = poly_sub_any_avx2 r (Other a) Self.
Proof. exact any_forms'. Qed.
Print Assumptions C77_callers.

(** Polynomials whose sum wraps in some coefficients and not in others; both arguments the result. *)
Example C77_case : int16_poly (scattered 32000) /\ argument (scattered 32000) Self = scattered 32000 /\
  (exists i, (i < 256)%nat /\ nth i (coefficientwise Z.add (scattered 32000) (scattered 32000)) 0 <> 2 * nth i (scattered 32000) 0) /\
  (exists i, (i < 256)%nat /\ nth i (coefficientwise Z.add (scattered 32000) (scattered 32000)) 0 = 2 * nth i (scattered 32000) 0).
Proof. exact arith_case. Qed.
