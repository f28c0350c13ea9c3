(** * /repo/ref/ntt.c: the loops of ntt and invntt as written

    Model_NTT.v numbers the iterations; here the loop variables are those of the
    C code, of type unsigned int (32 bits, wrapping), and the loops are [while_]
    with fuel.  C14 and C15 say that both forms are the same computation. *)
From Coq Require Import ZArith List.
From Verif Require Import CMonad Model_Reduce Model_NTT.
Import ListNotations.
Open Scope Z_scope.
Open Scope cmonad_scope.

Definition uget (l : list Z) (i : Z) : res Z := aget l (Z.to_nat i).
Definition uset (l : list Z) (i v : Z) : res (list Z) := aset l (Z.to_nat i) v.

(** ntt.c:80-95 *)
Definition ntt_loops (fuel : nat) (r : list Z) : res (list Z) :=
  s <- while_ fuel (fun s => let '(r, k, len) := s in test (2 <=? len))
    (fun s => let '(r, k, len) := s in
       s <- while_ fuel (fun s => let '(r, k, start) := s in test (start <? 256))
         (fun s => let '(r, k, start) := s in
            zeta <- uget zetas k ;;
            let k := u32 (k + 1) in
            s <- while_ fuel (fun s => let '(r, j) := s in test (j <? u32 (start + len)))
              (fun s => let '(r, j) := s in
                 x <- uget r (u32 (j + len)) ;;
                 t <- fqmul zeta x ;;
                 y <- uget r j ;;
                 d <- isub y t ;;
                 r <- uset r (u32 (j + len)) (i16 d) ;;
                 y <- uget r j ;;
                 d <- iadd y t ;;
                 r <- uset r j (i16 d) ;;
                 ret (r, u32 (j + 1)))
              (r, start) ;;
            let '(r, j) := s in
            ret (r, k, u32 (j + len)))
         (r, k, 0) ;;
       let '(r, k, start) := s in
       ret (r, k, Z.shiftr len 1))
    (r, 1, 128) ;;
  let '(r, k, len) := s in ret r.

(** ntt.c:106-127 *)
Definition invntt_loops (fuel : nat) (r : list Z) : res (list Z) :=
  s <- while_ fuel (fun s => let '(r, k, len) := s in test (len <=? 128))
    (fun s => let '(r, k, len) := s in
       s <- while_ fuel (fun s => let '(r, k, start) := s in test (start <? 256))
         (fun s => let '(r, k, start) := s in
            zeta <- uget zetas k ;;
            let k := u32 (k - 1) in
            s <- while_ fuel (fun s => let '(r, j) := s in test (j <? u32 (start + len)))
              (fun s => let '(r, j) := s in
                 t <- uget r j ;;
                 x <- uget r (u32 (j + len)) ;;
                 d <- iadd t x ;;
                 d <- barrett_reduce (i16 d) ;;
                 r <- uset r j d ;;
                 x <- uget r (u32 (j + len)) ;;
                 d <- isub x t ;;
                 r <- uset r (u32 (j + len)) (i16 d) ;;
                 x <- uget r (u32 (j + len)) ;;
                 d <- fqmul zeta x ;;
                 r <- uset r (u32 (j + len)) d ;;
                 ret (r, u32 (j + 1)))
              (r, start) ;;
            let '(r, j) := s in
            ret (r, k, u32 (j + len)))
         (r, k, 0) ;;
       let '(r, k, start) := s in
       ret (r, k, u32 (Z.shiftl len 1)))
    (r, 127, 2) ;;
  let '(r, k, len) := s in
  s <- while_ fuel (fun s => let '(r, j) := s in test (j <? 256))
    (fun s => let '(r, j) := s in
       x <- uget r j ;;
       d <- fqmul x 1441 ;;
       r <- uset r j d ;;
       ret (r, u32 (j + 1)))
    (r, 0) ;;
  let '(r, j) := s in ret r.
