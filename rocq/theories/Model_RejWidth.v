(** * rej_uniform, verify and cmov with their counters as declared

    As Model_Indcpa.v and Model_Verify.v, but [unsigned int] is a number modulo
    2^32, [size_t] one modulo 2^64, and the tests are those of the C text. *)
From Coq Require Import ZArith List.
From Verif Require Import CMonad Model_Params.
Import ListNotations.
Open Scope Z_scope.
Open Scope cmonad_scope.

(** ref/indcpa.c:121-142; len, buflen, ctr, pos : unsigned int *)
Definition rej_uniform_w (fuel : nat) (r : list Z) (ro : nat) (len : Z) (buf : list Z) (buflen : Z)
  : res (Z * list Z) :=
  '(ctr, pos, r) <- while_ fuel
    (fun s => let '(ctr, pos, r) := s in test_and (ctr <? len) (test (u32 (pos + 3) <=? buflen)))
    (fun s => let '(ctr, pos, r) := s in
       b0 <- aget buf (Z.to_nat (u32 (pos + 0))) ;; x <- shr 32 b0 0 ;;
       b1 <- aget buf (Z.to_nat (u32 (pos + 1))) ;; y <- ishl (u16 b1) 8 ;;
       let val0 := u16 (Z.land (Z.lor x y) 0xFFF) in
       b1 <- aget buf (Z.to_nat (u32 (pos + 1))) ;; x <- shr 32 b1 4 ;;
       b2 <- aget buf (Z.to_nat (u32 (pos + 2))) ;; y <- ishl (u16 b2) 4 ;;
       let val1 := u16 (Z.land (Z.lor x y) 0xFFF) in
       let pos := u32 (pos + 3) in
       c <- test (val0 <? KYBER_Q) ;;
       '(ctr, r) <- (if (c : bool)
                     then (r <- aset r (ro + Z.to_nat ctr) (i16 val0) ;; ret (u32 (ctr + 1), r))
                     else ret (ctr, r)) ;;
       c <- test_and (ctr <? len) (test (val1 <? KYBER_Q)) ;;
       '(ctr, r) <- (if (c : bool)
                     then (r <- aset r (ro + Z.to_nat ctr) (i16 val1) ;; ret (u32 (ctr + 1), r))
                     else ret (ctr, r)) ;;
       ret (ctr, pos, r))
    (0, 0, r) ;;
  ret (ctr, r).

(** ref/verify.c:16-25; len, i : size_t *)
Definition verify_w (fuel : nat) (a : list Z) (ao : nat) (b : list Z) (bo : nat) (len : Z) : res Z :=
  '(r, i) <- while_ fuel (fun st => let '(r, i) := st in test (i <? len))
    (fun st => let '(r, i) := st in
       x <- aget a (ao + Z.to_nat i) ;;
       y <- aget b (bo + Z.to_nat i) ;;
       ret (u8 (Z.lor r (Z.lxor x y)), u64 (i + 1))) (0, 0) ;;
  shr 64 (u64 (- r)) 63.

(** ref/verify.c:40-57 *)
Definition cmov_w (fuel : nat) (r : list Z) (ro : nat) (x : list Z) (xo : nat) (len : Z) (b : Z) : res (list Z) :=
  b <- isub 0 b ;;
  let b := u8 b in
  '(r, i) <- while_ fuel (fun st => let '(r, i) := st in test (i <? len))
    (fun st => let '(r, i) := st in
       ri <- aget r (ro + Z.to_nat i) ;;
       ri' <- aget r (ro + Z.to_nat i) ;;
       xi <- aget x (xo + Z.to_nat i) ;;
       r <- aset r (ro + Z.to_nat i) (u8 (Z.lxor ri (Z.land b (Z.lxor ri' xi)))) ;;
       ret (r, u64 (i + 1))) (r, 0) ;;
  ret r.
