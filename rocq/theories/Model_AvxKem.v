(** * /repo/avx2/kem.c (the text of ref/kem.c, linked with the AVX2 indcpa.c and
    verify.c).  Every function also returns the C return value. *)
From Coq Require Import ZArith List.
From Verif Require Import CMonad Model_Params Model_Symmetric Model_Randombytes Model_AvxC Model_AvxIndcpa.
Import ListNotations.
Open Scope Z_scope.
Open Scope cmonad_scope.

Section WithJunk.
Context `{Junk}.

(** kem.c:25-35; returns (pk, sk, return value) *)
Definition crypto_kem_keypair_derand_avx2 (lv : level) (fuel : nat) (pk sk coins : list Z)
  : res (list Z * list Z * Z) :=
  '(pk, sk) <- indcpa_keypair_derand_avx2 lv fuel pk 0 sk 0 coins 0 ;;
  sk <- memcpy sk (KYBER_INDCPA_SECRETKEYBYTES lv) pk 0 (KYBER_PUBLICKEYBYTES lv) ;;
  sk <- hash_h sk (KYBER_SECRETKEYBYTES lv - 2 * KYBER_SYMBYTES) pk 0 (KYBER_PUBLICKEYBYTES lv) ;;
  sk <- memcpy sk (KYBER_SECRETKEYBYTES lv - KYBER_SYMBYTES) coins KYBER_SYMBYTES KYBER_SYMBYTES ;;
  ret (pk, sk, 0).

(** kem.c:50-57; the schedule of kernel replies is threaded through
    randombytes; returns (pk, sk, return value, unused replies) *)
Definition crypto_kem_keypair_avx2 (lv : level) (fuel : nat) (sched : list reply) (pk sk : list Z)
  : res (list Z * list Z * Z * list reply) :=
  '(coins, sched) <- randombytes sched (local (2 * KYBER_SYMBYTES)) 0 (2 * KYBER_SYMBYTES) ;;
  '(pk, sk, _) <- crypto_kem_keypair_derand_avx2 lv fuel pk sk coins ;;
  ret (pk, sk, 0, sched).

(** kem.c:76-96; returns (ct, ss, return value) *)
Definition crypto_kem_enc_derand_avx2 (lv : level) (fuel : nat) (ct ss pk coins : list Z)
  : res (list Z * list Z * Z) :=
  let buf := local (2 * KYBER_SYMBYTES) in
  let kr := local (2 * KYBER_SYMBYTES) in
  buf <- memcpy buf 0 coins 0 KYBER_SYMBYTES ;;
  buf <- hash_h buf KYBER_SYMBYTES pk 0 (KYBER_PUBLICKEYBYTES lv) ;;
  kr <- hash_g kr 0 buf 0 (2 * KYBER_SYMBYTES) ;;
  ct <- indcpa_enc_avx2 lv fuel ct 0 buf 0 pk 0 kr KYBER_SYMBYTES ;;
  ss <- memcpy ss 0 kr 0 KYBER_SYMBYTES ;;
  ret (ct, ss, 0).

(** kem.c:113-121 *)
Definition crypto_kem_enc_avx2 (lv : level) (fuel : nat) (sched : list reply) (ct ss pk : list Z)
  : res (list Z * list Z * Z * list reply) :=
  '(coins, sched) <- randombytes sched (local KYBER_SYMBYTES) 0 KYBER_SYMBYTES ;;
  '(ct, ss, _) <- crypto_kem_enc_derand_avx2 lv fuel ct ss pk coins ;;
  ret (ct, ss, 0, sched).

(** kem.c:140-170; returns (ss, return value).  [!fail] is computed without a
    branch (as compilers do for a flag of type int). *)
Definition crypto_kem_dec_avx2 (lv : level) (fuel : nat) (ss ct sk : list Z) : res (list Z * Z) :=
  let buf := local (2 * KYBER_SYMBYTES) in
  let kr := local (2 * KYBER_SYMBYTES) in
  let cmp := local (KYBER_CIPHERTEXTBYTES lv) in
  let pko := KYBER_INDCPA_SECRETKEYBYTES lv in
  buf <- indcpa_dec_avx2 lv buf 0 ct 0 sk 0 ;;
  buf <- memcpy buf KYBER_SYMBYTES sk (KYBER_SECRETKEYBYTES lv - 2 * KYBER_SYMBYTES)
           KYBER_SYMBYTES ;;
  kr <- hash_g kr 0 buf 0 (2 * KYBER_SYMBYTES) ;;
  cmp <- indcpa_enc_avx2 lv fuel cmp 0 buf 0 sk pko kr KYBER_SYMBYTES ;;
  fail <- verify_avx2 ct 0 cmp 0 (KYBER_CIPHERTEXTBYTES lv) ;;
  ss <- kyber_shake256_rkprf lv ss 0 sk (KYBER_SECRETKEYBYTES lv - KYBER_SYMBYTES) ct 0 ;;
  ss <- cmov_avx2 ss 0 kr 0 KYBER_SYMBYTES (if fail =? 0 then 1 else 0) ;;
  ret (ss, 0).

End WithJunk.
