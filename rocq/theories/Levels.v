(** * The FIPS 203 parameter set of each security level of the C code *)
From Verif Require Import Model_Params Spec_FIPS203.

Definition PS (lv : level) : params :=
  match lv with
  | Kyber512 => ML_KEM_512
  | Kyber768 => ML_KEM_768
  | Kyber1024 => ML_KEM_1024
  end.
