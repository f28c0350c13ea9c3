(** * crypto_kem_enc_derand and crypto_kem_dec of /repo/ref/kem.c when all
    buffers lie in one memory [mem], at offsets that may overlap

    A called function gets [mem] for every pointer.  Its model reads the memory
    as it was at the call; this is what the C code does, since each function
    called with both an input and an output in [mem] reads all of the input
    before it writes: indcpa_enc unpacks pk first and packs c last
    (indcpa.c:272, 298), kyber_shake256_rkprf absorbs before it squeezes
    (symmetric-shake.c:68-71), cmov reads only kr and the bytes it writes
    (verify.c:54-56). *)
From Coq Require Import ZArith List.
From Verif Require Import CMonad Model_Params Model_Verify Model_Symmetric Model_Indcpa.
Import ListNotations.
Open Scope Z_scope.
Open Scope cmonad_scope.

Section WithJunk.
Context `{Junk}.

(** kem.c:76-96; ct, ss, pk, coins at the given offsets *)
Definition crypto_kem_enc_derand_shared (lv : level) (fuel : nat) (mem : list Z) (cto sso po co : nat)
  : res (list Z * Z) :=
  let buf := local (2 * KYBER_SYMBYTES) in
  let kr := local (2 * KYBER_SYMBYTES) in
  buf <- memcpy buf 0 mem co KYBER_SYMBYTES ;;
  buf <- hash_h buf KYBER_SYMBYTES mem po (KYBER_PUBLICKEYBYTES lv) ;;
  kr <- hash_g kr 0 buf 0 (2 * KYBER_SYMBYTES) ;;
  mem <- indcpa_enc lv fuel mem cto buf 0 mem po kr KYBER_SYMBYTES ;;
  mem <- memcpy mem sso kr 0 KYBER_SYMBYTES ;;
  ret (mem, 0).

(** kem.c:140-170; ss, ct, sk at the given offsets *)
Definition crypto_kem_dec_shared (lv : level) (fuel : nat) (mem : list Z) (sso cto sko : nat) : res (list Z * Z) :=
  let buf := local (2 * KYBER_SYMBYTES) in
  let kr := local (2 * KYBER_SYMBYTES) in
  let cmp := local (KYBER_CIPHERTEXTBYTES lv) in
  let pko := (sko + KYBER_INDCPA_SECRETKEYBYTES lv)%nat in
  buf <- indcpa_dec lv buf 0 mem cto mem sko ;;
  buf <- memcpy buf KYBER_SYMBYTES mem (sko + (KYBER_SECRETKEYBYTES lv - 2 * KYBER_SYMBYTES)) KYBER_SYMBYTES ;;
  kr <- hash_g kr 0 buf 0 (2 * KYBER_SYMBYTES) ;;
  cmp <- indcpa_enc lv fuel cmp 0 buf 0 mem pko kr KYBER_SYMBYTES ;;
  fail <- verify mem cto cmp 0 (KYBER_CIPHERTEXTBYTES lv) ;;
  mem <- kyber_shake256_rkprf lv mem sso mem (sko + (KYBER_SECRETKEYBYTES lv - KYBER_SYMBYTES)) mem cto ;;
  mem <- cmov mem sso kr 0 KYBER_SYMBYTES (if fail =? 0 then 1 else 0) ;;
  ret (mem, 0).

End WithJunk.
