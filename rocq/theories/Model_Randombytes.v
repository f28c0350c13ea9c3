(** * /repo/ref/randombytes.c.  The operating system is a schedule of replies,
    one per system call, fixed in advance but otherwise arbitrary. *)
From Coq Require Import ZArith List.
From Verif Require Import CMonad.
Import ListNotations.
Open Scope Z_scope.
Open Scope cmonad_scope.

(** Result of one getrandom/read call. *)
Inductive reply : Type :=
| Interrupted                    (* returns -1 with errno == EINTR *)
| Failed                         (* returns -1 with any other errno *)
| Delivered (bytes : list Z).    (* returns |bytes| after storing them *)

(** The kernel stores [bs] at out+oo. *)
Definition kernel_write (out : list Z) (oo : nat) (bs : list Z) : res (list Z) :=
  if (oo + length bs <=? length out)%nat
  then ret (firstn oo out ++ bs ++ skipn (oo + length bs) out)
  else UB OutOfBounds.

(** randombytes.c:44-57 (Linux), identical to 59-72 (NetBSD) and to the read
    loop 86-95 of the fallback.  The loop is unbounded in C; here it follows
    the schedule and ends in [Timeout] if the schedule is exhausted.  Returns
    the buffer and the unused replies.  [outlen - |bs|] is truncated: for a
    kernel respecting |bs| <= outlen this is C's value. *)
Fixpoint randombytes (sched : list reply) (out : list Z) (oo outlen : nat)
  : res (list Z * list reply) :=
  if (outlen =? 0)%nat then ret (out, sched)
  else match sched with
       | [] => Timeout
       | Interrupted :: sched' => randombytes sched' out oo outlen
       | Failed :: _ => Abort
       | Delivered bs :: sched' =>
           out <- kernel_write out oo bs ;;
           randombytes sched' out (oo + length bs) (outlen - length bs)
       end.

(** Result of one open("/dev/urandom") call. *)
Inductive open_reply : Type :=
| OpenInterrupted
| OpenFailed
| Opened (fd : Z).

(** randombytes.c:78-84: the static descriptor is opened at most once. *)
Fixpoint open_loop (opens : list open_reply) (fd : Z) : res (Z * list open_reply) :=
  if negb (fd =? -1) then ret (fd, opens)
  else match opens with
       | [] => Timeout
       | OpenInterrupted :: o' => open_loop o' (-1)
       | OpenFailed :: _ => Abort
       | Opened fd' :: o' => open_loop o' fd'
       end.

(** randombytes.c:74-96 (fallback).  The static variable [fd] is threaded
    through; returns (out, fd, remaining opens, remaining replies). *)
Definition randombytes_urandom (opens : list open_reply) (sched : list reply) (fd : Z)
  (out : list Z) (oo outlen : nat) : res (list Z * Z * list open_reply * list reply) :=
  '(fd, opens) <- open_loop opens fd ;;
  '(out, sched) <- randombytes sched out oo outlen ;;
  ret (out, fd, opens, sched).
