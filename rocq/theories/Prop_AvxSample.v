(** * C44: vectorised rejection sampling *)
From Coq Require Import ZArith List.
From Verif Require Import CMonad Model_Indcpa Model_AvxRej Spec_FIPS202 Spec_FIPS203 Vocab Cases Proof_PropAvxSample.
Import ListNotations.
Open Scope Z_scope.
Open Scope cmonad_scope.
Local Opaque SHA3_256 SHA3_512 SHAKE128 SHAKE256.

(** ** C44: the coefficients after the accepted ones are unspecified.  The trace depends on the buffer only. *)

Theorem C44_rej_uniform_avx : forall buf extra,
  byte_array 504 buf ->
  let taken := firstn 256 (accepted (fun i => nth i buf 0) 168) in
  exists T, forall r, length r = 256%nat ->
  exists rest, rej_uniform_avx r (buf ++ extra) = Ok (length taken, taken ++ rest) T /\
    length (taken ++ rest) = 256%nat.
Proof. exact rej_uniform_avx_spec. Qed.
Print Assumptions C44_rej_uniform_avx.

Theorem C44_reference : forall buf extra r r',
  byte_array 504 buf -> length r = 256%nat -> length r' = 256%nat ->
  exists n out out' T T', rej_uniform_avx r (buf ++ extra) = Ok (n, out) T /\
    rej_uniform r' 0 256 (buf ++ extra) 504 = Ok (n, out') T' /\
    firstn n out = firstn n out' /\ length out = 256%nat /\ length out' = 256%nat.
Proof. exact rej_uniform_avx_reference. Qed.
Print Assumptions C44_reference.

Example C44_case :
  let half := flat_map (fun _ => [5; 209; 255]) (seq 0 168) in
  byte_array 504 half /\ length (accepted (fun i => nth i half 0) 168) = 168%nat /\
  byte_array 504 (repeat 255 504) /\ length (accepted (fun i => nth i (repeat 255 504) 0) 168) = 0%nat.
Proof.
  intros half. split; [|split; [vm_compute; reflexivity|split; [|vm_compute; reflexivity]]].
  - split; [reflexivity|]. intros x Hx. apply in_flat_map in Hx as (y & _ & [<-|[<-|[<-|[]]]]); split; (discriminate || reflexivity).
  - split; [reflexivity|]. intros x Hx. apply repeat_spec in Hx. subst x. split; [discriminate|reflexivity].
Qed.
