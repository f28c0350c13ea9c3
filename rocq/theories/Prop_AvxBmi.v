(** * C53: vectorised rejection sampling with BMI defined *)
From Coq Require Import ZArith List.
From Verif Require Import CMonad Model_AvxRej Model_AvxRejBmi Spec_FIPS203 Vocab Proof_PropAvxBmi.
Import ListNotations.
Open Scope Z_scope.
Open Scope cmonad_scope.

Theorem C53_rej_uniform_bmi : forall buf extra,
  byte_array 504 buf ->
  let taken := firstn 256 (accepted (fun i => nth i buf 0) 168) in
  exists T, forall r, length r = 256%nat ->
  exists rest, rej_uniform_avx_bmi r (buf ++ extra) = Ok (length taken, taken ++ rest) T /\
    length (taken ++ rest) = 256%nat.
Proof. exact rej_uniform_avx_bmi_spec. Qed.
Print Assumptions C53_rej_uniform_bmi.

Theorem C53_same_as_table : forall buf extra r r',
  byte_array 504 buf -> length r = 256%nat -> length r' = 256%nat ->
  exists n out out' T T', rej_uniform_avx_bmi r (buf ++ extra) = Ok (n, out) T /\
    rej_uniform_avx r' (buf ++ extra) = Ok (n, out') T' /\
    firstn n out = firstn n out' /\ length out = 256%nat /\ length out' = 256%nat.
Proof. exact rej_uniform_avx_bmi_table. Qed.
Print Assumptions C53_same_as_table.

Example C53_case :
  let half := flat_map (fun _ => [5; 209; 255]) (seq 0 168) in
  byte_array 504 half /\ length (accepted (fun i => nth i half 0) 168) = 168%nat /\
  bmi_row 0x2D 0x0101010101010101 = 0x0A060400 /\ bmi_row 0x0451 0x1111111111111111 = 0x0A060400.
Proof.
  intros half. split; [|split; [vm_compute; reflexivity|split; vm_compute; reflexivity]].
  split; [reflexivity|]. intros x Hx. apply in_flat_map in Hx as (y & _ & [<-|[<-|[<-|[]]]]); split; (discriminate || reflexivity).
Qed.
