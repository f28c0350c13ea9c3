(** * C24 and C25: the public matrix *)
From Coq Require Import ZArith List.
From Verif Require Import CMonad Levels Model_Params Model_Indcpa Spec_FIPS202 Spec_FIPS203 Vocab Cases Run_Kem
  Proof_Demo Proof_Cases Proof_PropSample.
Import ListNotations.
Open Scope Z_scope.
Open Scope cmonad_scope.
Local Opaque SHA3_256 SHA3_512 SHAKE128 SHAKE256.

(** ** C24 *)

(** Whatever a finished run returns is the matrix of FIPS 203, or its transpose *)
Theorem C24_matrix : forall lv fuel (JJ : Junk) a pre rho post transposed A T,
  matrix_shape (KYBER_K lv) a -> length rho = 32%nat -> all_bytes (pre ++ rho ++ post) ->
  gen_matrix lv fuel a (pre ++ rho ++ post) (length pre) transposed = Ok A T ->
  exists M, is_matrix (PS lv) rho M /\ A = (if transposed then transpose (PS lv) M else M) /\
    matrix_shape (KYBER_K lv) A /\ forall v f, In v A -> In f v -> in_range 0 (q - 1) f.
Proof. exact gen_matrix_result. Qed.
Print Assumptions C24_matrix.

(** A run finishes exactly when its blocks contain 256 acceptable candidates for every
    entry (504 bytes first, then 168 bytes per pass); it never has another outcome *)
Theorem C24_finishes : forall lv fuel (JJ : Junk) a pre rho post transposed,
  matrix_shape (KYBER_K lv) a -> length rho = 32%nat -> all_bytes (pre ++ rho ++ post) ->
  let run := gen_matrix lv fuel a (pre ++ rho ++ post) (length pre) transposed in
  (run = Timeout \/ exists A T, run = Ok A T) /\
  ((exists A T, run = Ok A T) <->
   (0 < fuel)%nat /\ forall i j, (i < KYBER_K lv)%nat -> (j < KYBER_K lv)%nat ->
     (256 <= length (accepted (XOF (rho ++ [Z.of_nat j; Z.of_nat i])) (168 + 56 * (fuel - 1))))%nat).
Proof. exact gen_matrix_finishes. Qed.
Print Assumptions C24_finishes.

Theorem C24_terminates : forall lv rho M,
  length rho = 32%nat -> is_matrix (PS lv) rho M ->
  exists fuel0, forall fuel (JJ : Junk) a pre post transposed, (fuel0 <= fuel)%nat ->
    matrix_shape (KYBER_K lv) a -> all_bytes (pre ++ rho ++ post) ->
    exists T, gen_matrix lv fuel a (pre ++ rho ++ post) (length pre) transposed
      = Ok (if transposed then transpose (PS lv) M else M) T.
Proof. exact gen_matrix_terminates. Qed.
Print Assumptions C24_terminates.

Example C24_case : (exists M, is_matrix (PS Kyber512) demo_rho M) /\ matrix_shape (KYBER_K Kyber512) (zero_matrix (KYBER_K Kyber512)) /\
  length demo_rho = 32%nat.
Proof.
  destruct demo_parts as (A & s & t & c & K & T1 & T2 & T3 & T4 & _ & _ & Hr & _ & _ & _ & _ & HA & _).
  split; [exists A; exact HA|]. split; [apply zero_matrix_shape|apply Hr].
Qed.

(** ** C25 *)

(** [extra] is whatever follows the first buflen bytes, possibly nothing *)
Theorem C25_rej_uniform : forall pre r post buf extra,
  all_bytes buf ->
  let len := length r in
  let taken := firstn len (accepted (fun i => nth i buf 0) (length buf / 3)) in
  exists T, rej_uniform (pre ++ r ++ post) (length pre) len (buf ++ extra) (length buf)
    = Ok (length taken, pre ++ taken ++ skipn (length taken) r ++ post) T /\
  (length taken <= len)%nat.
Proof. exact rej_uniform_spec. Qed.
Print Assumptions C25_rej_uniform.

Example C25_case : all_bytes (some_bytes 504) /\ length (accepted (fun i => nth i (some_bytes 504) 0) (504 / 3)) = 275%nat.
Proof. split; [apply some_bytes_ok|vm_compute; reflexivity]. Qed.
