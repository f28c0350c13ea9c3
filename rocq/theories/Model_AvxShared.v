(** * crypto_kem_keypair_derand, crypto_kem_enc_derand and crypto_kem_dec of
    /repo/avx2/kem.c when all buffers lie in one memory [mem], at offsets that
    may overlap

    As in Model_Shared.v, a called function gets [mem] for every pointer and
    its model reads the memory as it was at the call; the AVX2 functions that
    have both an input and an output in [mem] read all of the input first:
    indcpa_enc unpacks pk first and packs c last (avx2/indcpa.c:493, 525),
    hash_h and kyber_shake256_rkprf absorb before they write
    (avx2/fips202.c:750-753, avx2/symmetric-shake.c:68-73), cmov reads only kr
    and the bytes it writes (avx2/verify.c:72-82).  [restrict] occurs in the
    called functions only on pointers to locals or, in cmov, on the pointer to
    ss beside one to kr. *)
From Coq Require Import ZArith List Bool.
From Verif Require Import CMonad Model_Params Model_Symmetric Model_Polyvec Model_Indcpa Model_SharedKey
  Model_AvxCode Model_AvxC Model_AvxPolyvec Model_AvxIndcpa.
Import ListNotations.
Open Scope Z_scope.
Open Scope cmonad_scope.

Section WithJunk.
Context `{Junk}.

(** kem.c:76-96; ct, ss, pk, coins at the given offsets *)
Definition crypto_kem_enc_derand_avx2_shared (lv : level) (fuel : nat) (mem : list Z) (cto sso po co : nat)
  : res (list Z * Z) :=
  let buf := local (2 * KYBER_SYMBYTES) in
  let kr := local (2 * KYBER_SYMBYTES) in
  buf <- memcpy buf 0 mem co KYBER_SYMBYTES ;;
  buf <- hash_h buf KYBER_SYMBYTES mem po (KYBER_PUBLICKEYBYTES lv) ;;
  kr <- hash_g kr 0 buf 0 (2 * KYBER_SYMBYTES) ;;
  mem <- indcpa_enc_avx2 lv fuel mem cto buf 0 mem po kr KYBER_SYMBYTES ;;
  mem <- memcpy mem sso kr 0 KYBER_SYMBYTES ;;
  ret (mem, 0).

(** kem.c:140-170; ss, ct, sk at the given offsets *)
Definition crypto_kem_dec_avx2_shared (lv : level) (fuel : nat) (mem : list Z) (sso cto sko : nat) : res (list Z * Z) :=
  let buf := local (2 * KYBER_SYMBYTES) in
  let kr := local (2 * KYBER_SYMBYTES) in
  let cmp := local (KYBER_CIPHERTEXTBYTES lv) in
  let pko := (sko + KYBER_INDCPA_SECRETKEYBYTES lv)%nat in
  buf <- indcpa_dec_avx2 lv buf 0 mem cto mem sko ;;
  buf <- memcpy buf KYBER_SYMBYTES mem (sko + (KYBER_SECRETKEYBYTES lv - 2 * KYBER_SYMBYTES)) KYBER_SYMBYTES ;;
  kr <- hash_g kr 0 buf 0 (2 * KYBER_SYMBYTES) ;;
  cmp <- indcpa_enc_avx2 lv fuel cmp 0 buf 0 mem pko kr KYBER_SYMBYTES ;;
  fail <- verify_avx2 mem cto cmp 0 (KYBER_CIPHERTEXTBYTES lv) ;;
  mem <- kyber_shake256_rkprf lv mem sso mem (sko + (KYBER_SECRETKEYBYTES lv - KYBER_SYMBYTES)) mem cto ;;
  mem <- cmov_avx2 mem sso kr 0 KYBER_SYMBYTES (if fail =? 0 then 1 else 0) ;;
  ret (mem, 0).

(** indcpa.c:424-465 *)
Definition indcpa_keypair_derand_avx2_shared (lv : level) (fuel : nat) (mem : list Z) (po sko co : nat) : res (list Z) :=
  let buf := local (2 * KYBER_SYMBYTES) in
  let a := local_matrix lv in
  let e := local_polyvec lv in
  let pkpv := local_polyvec lv in
  let skpv := local_polyvec lv in
  buf <- memcpy buf 0 mem co KYBER_SYMBYTES ;;
  buf <- aset buf KYBER_SYMBYTES (u8 (Z.of_nat (KYBER_K lv))) ;;
  buf <- hash_g buf 0 buf 0 (KYBER_SYMBYTES + 1) ;;
  a <- gen_a_avx2 lv fuel a buf 0 ;;
  '(skpv, e, pkpv) <- keypair_noise lv skpv e pkpv buf KYBER_SYMBYTES ;;
  skpv <- polyvec_ntt_avx2 lv skpv ;;
  skpv <- polyvec_reduce_avx2 lv skpv ;;
  e <- polyvec_ntt_avx2 lv e ;;
  pkpv <- for_ (KYBER_K lv) 0 (fun i pkpv =>
    p <- aget pkpv i ;;
    ai <- aget a i ;;
    p <- polyvec_basemul_acc_montgomery_avx2 lv p ai skpv ;;
    p <- tomont_avx p ;;
    aset pkpv i p) pkpv ;;
  pkpv <- polyvec_add_to_avx2 lv pkpv e ;;
  pkpv <- polyvec_reduce_avx2 lv pkpv ;;
  mem <- pack_sk_avx2 lv mem sko skpv ;;
  pack_pk_avx2 lv mem po pkpv buf 0.

(** kem.c:25-35; pk, sk, coins at the given offsets *)
Definition crypto_kem_keypair_derand_avx2_shared (lv : level) (fuel : nat) (mem : list Z) (po sko co : nat) : res (list Z * Z) :=
  mem <- indcpa_keypair_derand_avx2_shared lv fuel mem po sko co ;;
  mem <- memcpy_within mem (sko + KYBER_INDCPA_SECRETKEYBYTES lv) po (KYBER_PUBLICKEYBYTES lv) ;;
  mem <- hash_h mem (sko + (KYBER_SECRETKEYBYTES lv - 2 * KYBER_SYMBYTES)) mem po (KYBER_PUBLICKEYBYTES lv) ;;
  mem <- memcpy_within mem (sko + (KYBER_SECRETKEYBYTES lv - KYBER_SYMBYTES)) (co + KYBER_SYMBYTES) KYBER_SYMBYTES ;;
  ret (mem, 0).

End WithJunk.
