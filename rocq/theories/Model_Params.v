(** * Parameters: /repo/ref/params.h and /repo/ref/api.h *)
From Coq Require Import ZArith List.
From Verif Require Import CMonad.
Open Scope Z_scope.

(** KYBER_K selects the parameter set (params.h:4-18). *)
Inductive level : Type := Kyber512 | Kyber768 | Kyber1024.

(** params.h:4-18 *)
Definition KYBER_K (lv : level) : nat :=
  match lv with Kyber512 => 2 | Kyber768 => 3 | Kyber1024 => 4 end.
(** params.h:20-21 *)
Definition KYBER_N : nat := 256.
Definition KYBER_Q : Z := 3329.
(** params.h:23-24 *)
Definition KYBER_SYMBYTES : nat := 32.
Definition KYBER_SSBYTES : nat := 32.
(** params.h:26-27 *)
Definition KYBER_POLYBYTES : nat := 384.
Definition KYBER_POLYVECBYTES (lv : level) : nat := KYBER_K lv * KYBER_POLYBYTES.
(** params.h:29-43 *)
Definition KYBER_ETA1 (lv : level) : nat :=
  match lv with Kyber512 => 3 | Kyber768 => 2 | Kyber1024 => 2 end.
Definition KYBER_POLYCOMPRESSEDBYTES (lv : level) : nat :=
  match lv with Kyber512 => 128 | Kyber768 => 128 | Kyber1024 => 160 end.
Definition KYBER_POLYVECCOMPRESSEDBYTES (lv : level) : nat :=
  match lv with
  | Kyber512 => KYBER_K lv * 320
  | Kyber768 => KYBER_K lv * 320
  | Kyber1024 => KYBER_K lv * 352
  end.
Definition KYBER_ETA2 : nat := 2.
(** params.h:45-53 *)
Definition KYBER_INDCPA_MSGBYTES : nat := KYBER_SYMBYTES.
Definition KYBER_INDCPA_PUBLICKEYBYTES lv : nat := KYBER_POLYVECBYTES lv + KYBER_SYMBYTES.
Definition KYBER_INDCPA_SECRETKEYBYTES lv : nat := KYBER_POLYVECBYTES lv.
Definition KYBER_INDCPA_BYTES lv : nat :=
  KYBER_POLYVECCOMPRESSEDBYTES lv + KYBER_POLYCOMPRESSEDBYTES lv.
Definition KYBER_PUBLICKEYBYTES lv : nat := KYBER_INDCPA_PUBLICKEYBYTES lv.
Definition KYBER_SECRETKEYBYTES lv : nat :=
  KYBER_INDCPA_SECRETKEYBYTES lv + KYBER_INDCPA_PUBLICKEYBYTES lv + 2 * KYBER_SYMBYTES.
Definition KYBER_CIPHERTEXTBYTES lv : nat := KYBER_INDCPA_BYTES lv.

(** The sizes published in api.h:6-11, 26-31, 46-51 (literals there). *)
Definition api_SECRETKEYBYTES (lv : level) : nat :=
  match lv with Kyber512 => 1632 | Kyber768 => 2400 | Kyber1024 => 3168 end.
Definition api_PUBLICKEYBYTES (lv : level) : nat :=
  match lv with Kyber512 => 800 | Kyber768 => 1184 | Kyber1024 => 1568 end.
Definition api_CIPHERTEXTBYTES (lv : level) : nat :=
  match lv with Kyber512 => 768 | Kyber768 => 1088 | Kyber1024 => 1568 end.
Definition api_KEYPAIRCOINBYTES : nat := 64.
Definition api_ENCCOINBYTES : nat := 32.
Definition api_BYTES : nat := 32.
