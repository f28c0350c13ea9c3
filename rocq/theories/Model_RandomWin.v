(** * /repo/ref/randombytes.c:23-43, the Windows branch.

    The replies of the three system functions are arguments: whether
    CryptAcquireContext and CryptReleaseContext succeed, and one reply per call
    of CryptGenRandom.  Lengths are [Z] (size_t). *)
From Coq Require Import ZArith List.
From Verif Require Import CMonad Model_Randombytes.
Import ListNotations.
Open Scope Z_scope.
Open Scope cmonad_scope.

(** CryptGenRandom(ctx, len, out): fails, or stores [len] bytes, the i-th of
    them [src i]. *)
Inductive gen_reply : Type :=
| GenFailed
| Generated (src : nat -> Z).

(** randombytes.c:30-38 *)
Fixpoint gen_loop (gens : list gen_reply) (out : list Z) (oo : nat) (outlen : Z)
  : res (list Z * list gen_reply) :=
  if negb (outlen >? 0) then ret (out, gens)
  else match gens with
       | [] => Timeout
       | GenFailed :: _ => Abort
       | Generated src :: gens' =>
           let len := if outlen >? 1048576 then 1048576 else outlen in
           out <- kernel_write out oo (map src (seq 0 (Z.to_nat len))) ;;
           gen_loop gens' out (oo + Z.to_nat len) (outlen - len)
       end.

(** randombytes.c:23-43 *)
Definition randombytes_windows (acquired released : bool) (gens : list gen_reply)
  (out : list Z) (oo : nat) (outlen : Z) : res (list Z * list gen_reply) :=
  if negb acquired then Abort
  else '(out, gens) <- gen_loop gens out oo outlen ;;
       if negb released then Abort else ret (out, gens).
