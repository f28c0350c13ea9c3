(** * /repo/ref/verify.c *)
From Coq Require Import ZArith List.
From Verif Require Import CMonad Model_Params.
Open Scope Z_scope.
Open Scope cmonad_scope.

(** verify.c:16-25.  [a ^ b] and [r |= ...] are computed in int on values
    0..255 and converted back to uint8_t; the final negation is uint64_t. *)
Definition verify (a : list Z) (ao : nat) (b : list Z) (bo : nat) (len : nat) : res Z :=
  r <- for_ len 0 (fun i r =>
         x <- aget a (ao + i) ;;
         y <- aget b (bo + i) ;;
         ret (u8 (Z.lor r (Z.lxor x y)))) 0 ;;
  shr 64 (u64 (- r)) 63.

(** verify.c:40-57.  [b = -b] is computed in int and converted to uint8_t.
    The empty asm statement at line 51 is an optimisation barrier without
    effect on values. *)
Definition cmov (r : list Z) (ro : nat) (x : list Z) (xo : nat) (len : nat) (b : Z)
  : res (list Z) :=
  b <- isub 0 b ;;
  let b := u8 b in
  for_ len 0 (fun i r =>
    ri <- aget r (ro + i) ;;
    ri' <- aget r (ro + i) ;;
    xi <- aget x (xo + i) ;;
    aset r (ro + i) (u8 (Z.lxor ri (Z.land b (Z.lxor ri' xi))))) r.

(** verify.c:71-75.  [r] is the array the pointer points into, [ro] the
    offset.  [b] is uint16_t; [*r] and [v] are int16_t promoted to int. *)
Definition cmov_int16 (r : list Z) (ro : nat) (v : Z) (b : Z) : res (list Z) :=
  b <- isub 0 b ;;
  let b := u16 b in
  x <- aget r ro ;;
  x' <- aget r ro ;;
  aset r ro (i16 (Z.lxor x (Z.land b (Z.lxor x' v)))).
