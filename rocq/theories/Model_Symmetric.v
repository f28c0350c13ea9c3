(** * /repo/ref/symmetric-shake.c, symmetric.h; noise samplers of poly.c *)
From Coq Require Import ZArith List.
From Verif Require Import CMonad Model_Params Model_Fips202 Model_CBD.
Import ListNotations.
Open Scope Z_scope.
Open Scope cmonad_scope.

(** symmetric.h:25 *)
Definition XOF_BLOCKBYTES : nat := SHAKE128_RATE.

Section WithJunk.
Context `{Junk}.

(** symmetric.h:27-28 *)
Definition hash_h := sha3_256.
Definition hash_g := sha3_512.

(** symmetric-shake.c:18-30 *)
Definition kyber_shake128_absorb (state : keccak_state) (seed : list Z) (so : nat) (x y : Z)
  : res keccak_state :=
  let extseed := local (KYBER_SYMBYTES + 2) in
  extseed <- memcpy extseed 0 seed so KYBER_SYMBYTES ;;
  extseed <- aset extseed (KYBER_SYMBYTES + 0) x ;;
  extseed <- aset extseed (KYBER_SYMBYTES + 1) y ;;
  shake128_absorb_once state extseed 0 (KYBER_SYMBYTES + 2).

(** symmetric.h:29-30 *)
Definition xof_absorb := kyber_shake128_absorb.
Definition xof_squeezeblocks := shake128_squeezeblocks.

(** symmetric-shake.c:43-51 *)
Definition kyber_shake256_prf (out : list Z) (oo outlen : nat) (key : list Z) (ko : nat)
  (nonce : Z) : res (list Z) :=
  let extkey := local (KYBER_SYMBYTES + 1) in
  extkey <- memcpy extkey 0 key ko KYBER_SYMBYTES ;;
  extkey <- aset extkey KYBER_SYMBYTES nonce ;;
  shake256 out oo outlen extkey 0 (KYBER_SYMBYTES + 1).

(** symmetric-shake.c:64-73 *)
Definition kyber_shake256_rkprf (lv : level) (out : list Z) (oo : nat) (key : list Z) (ko : nat)
  (input : list Z) (io : nat) : res (list Z) :=
  s <- shake256_init local_state ;;
  s <- shake256_absorb s key ko KYBER_SYMBYTES ;;
  s <- shake256_absorb s input io (KYBER_CIPHERTEXTBYTES lv) ;;
  s <- shake256_finalize s ;;
  '(out, s) <- shake256_squeeze out oo KYBER_SSBYTES s ;;
  ret out.

(** poly.c:225-230.  The call is logged, with its nonce, in the trace. *)
Definition poly_getnoise_eta1 (lv : level) (r : list Z) (seed : list Z) (so : nat) (nonce : Z)
  : res (list Z) :=
  let n := (KYBER_ETA1 lv * KYBER_N / 4)%nat in
  _ <- emit (EvNoise nonce) ;;
  buf <- kyber_shake256_prf (local n) 0 n seed so nonce ;;
  poly_cbd_eta1 lv r buf.

(** poly.c:244-249 *)
Definition poly_getnoise_eta2 (r : list Z) (seed : list Z) (so : nat) (nonce : Z)
  : res (list Z) :=
  let n := (KYBER_ETA2 * KYBER_N / 4)%nat in
  _ <- emit (EvNoise nonce) ;;
  buf <- kyber_shake256_prf (local n) 0 n seed so nonce ;;
  poly_cbd_eta2 r buf.

End WithJunk.
