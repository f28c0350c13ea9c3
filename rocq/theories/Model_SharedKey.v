(** * crypto_kem_keypair_derand of /repo/ref/kem.c when pk, sk and coins lie in
    one memory [mem], at offsets that may overlap

    The functions called with a pointer into [mem] read it as it was at the
    call: hash_h absorbs all of pk before it writes (fips202.c:745-754). *)
From Coq Require Import ZArith List Bool.
From Verif Require Import CMonad Model_Params Model_Symmetric Model_Poly Model_Polyvec Model_Indcpa.
Import ListNotations.
Open Scope Z_scope.
Open Scope cmonad_scope.

(** memcpy(mem+d, mem+s, n): undefined if the ranges overlap (C11 7.24.2.1) *)
Definition memcpy_within (mem : list Z) (d s n : nat) : res (list Z) :=
  if ((d + n <=? s) || (s + n <=? d))%nat then memcpy mem d mem s n else UB Overlap.

Section WithJunk.
Context `{Junk}.

(** indcpa.c:205-241 *)
Definition indcpa_keypair_derand_shared (lv : level) (fuel : nat) (mem : list Z) (po sko co : nat) : res (list Z) :=
  let buf := local (2 * KYBER_SYMBYTES) in
  let a := local_matrix lv in
  let e := local_polyvec lv in
  let pkpv := local_polyvec lv in
  let skpv := local_polyvec lv in
  buf <- memcpy buf 0 mem co KYBER_SYMBYTES ;;
  buf <- aset buf KYBER_SYMBYTES (u8 (Z.of_nat (KYBER_K lv))) ;;
  buf <- hash_g buf 0 buf 0 (KYBER_SYMBYTES + 1) ;;
  a <- gen_a lv fuel a buf 0 ;;
  '(skpv, nonce) <- getnoise_vec_eta1 lv skpv buf KYBER_SYMBYTES 0 ;;
  '(e, nonce) <- getnoise_vec_eta1 lv e buf KYBER_SYMBYTES nonce ;;
  skpv <- polyvec_ntt lv skpv ;;
  e <- polyvec_ntt lv e ;;
  pkpv <- for_ (KYBER_K lv) 0 (fun i pkpv =>
    p <- aget pkpv i ;;
    ai <- aget a i ;;
    p <- polyvec_basemul_acc_montgomery lv p ai skpv ;;
    p <- poly_tomont p ;;
    aset pkpv i p) pkpv ;;
  pkpv <- polyvec_add lv pkpv VSelf (VOther e) ;;
  pkpv <- polyvec_reduce lv pkpv ;;
  mem <- pack_sk lv mem sko skpv ;;
  pack_pk lv mem po pkpv buf 0.

(** kem.c:25-35; pk, sk, coins at the given offsets *)
Definition crypto_kem_keypair_derand_shared (lv : level) (fuel : nat) (mem : list Z) (po sko co : nat) : res (list Z * Z) :=
  mem <- indcpa_keypair_derand_shared lv fuel mem po sko co ;;
  mem <- memcpy_within mem (sko + KYBER_INDCPA_SECRETKEYBYTES lv) po (KYBER_PUBLICKEYBYTES lv) ;;
  mem <- hash_h mem (sko + (KYBER_SECRETKEYBYTES lv - 2 * KYBER_SYMBYTES)) mem po (KYBER_PUBLICKEYBYTES lv) ;;
  mem <- memcpy_within mem (sko + (KYBER_SECRETKEYBYTES lv - KYBER_SYMBYTES)) (co + KYBER_SYMBYTES) KYBER_SYMBYTES ;;
  ret (mem, 0).

End WithJunk.
