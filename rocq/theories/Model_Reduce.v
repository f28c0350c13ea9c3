(** * /repo/ref/reduce.c, reduce.h *)
From Coq Require Import ZArith List.
From Verif Require Import CMonad Model_Params.
Open Scope Z_scope.
Open Scope cmonad_scope.

(** reduce.h:8  #define QINV -3327 *)
Definition QINV : Z := -3327.

(** reduce.c:16-23
      t = (int16_t)a*QINV;
      t = (a - (int32_t)t*KYBER_Q) >> 16;          *)
Definition montgomery_reduce (a : Z) : res Z :=
  p <- imul (i16 a) QINV ;;
  let t := i16 p in
  p <- imul t KYBER_Q ;;
  d <- isub a p ;;
  d <- shr 32 d 16 ;;
  ret (i16 d).

(** reduce.c:37  const int16_t v = ((1<<26) + KYBER_Q/2)/KYBER_Q;  (constant
    expression, evaluated by the compiler) *)
Definition barrett_v : Z := i16 ((2 ^ 26 + KYBER_Q / 2) / KYBER_Q).

(** reduce.c:35-42
      t  = ((int32_t)v*a + (1<<25)) >> 26;
      t *= KYBER_Q;
      return a - t;                                *)
Definition barrett_reduce (a : Z) : res Z :=
  p <- imul barrett_v a ;;
  p <- iadd p (2 ^ 25) ;;
  p <- shr 32 p 26 ;;
  let t := i16 p in
  p <- imul t KYBER_Q ;;
  let t := i16 p in
  d <- isub a t ;;
  ret (i16 d).
