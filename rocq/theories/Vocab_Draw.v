(** * Vocabulary for mixed sequences of squeezing calls *)
From Coq Require Import ZArith List Arith.
From Verif Require Import CMonad Model_Fips202.
Import ListNotations.
Open Scope Z_scope.
Open Scope cmonad_scope.

(** A call of shake*_squeeze filling a buffer, or of shake*_squeezeblocks with a number of blocks *)
Inductive draw := Squeeze (buf : list Z) | Blocks (nb : nat) (buf : list Z).
Definition drawn (rate : nat) (c : draw) : nat := match c with Squeeze b => length b | Blocks nb _ => (nb * rate)%nat end.
Definition fits (rate : nat) (c : draw) : Prop := match c with Squeeze _ => True | Blocks nb b => length b = (nb * rate)%nat end.

Fixpoint run_draws (rate : nat) (st : keccak_state) (cs : list draw) : res (list (list Z) * keccak_state) :=
  match cs with
  | [] => ret ([], st)
  | c :: rest =>
      '(o, st) <- (match c with
                   | Squeeze b => shake_squeeze rate b 0 (length b) st
                   | Blocks nb b => shake_squeezeblocks rate b 0 nb st
                   end) ;;
      '(os, st) <- run_draws rate st rest ;;
      ret (o :: os, st)
  end.

(** The number of the first byte of the first block that has not been started when [n] bytes have been drawn *)
Definition next_block (rate n : nat) : nat := ((n + rate - 1) / rate * rate)%nat.
(** Where in the output stream each call of a sequence reads: a block call skips to the next block, but the calls after
    it go on as if it had not. *)
Fixpoint reads (rate n : nat) (cs : list draw) : list (nat * nat) :=
  match cs with
  | [] => []
  | c :: rest => ((match c with Squeeze _ => n | Blocks _ _ => next_block rate n end), drawn rate c) :: reads rate (n + drawn rate c) rest
  end.
(** Bytes [o] to [o + l - 1] of an output stream *)
Definition part (stream : nat -> list Z) (p : nat * nat) : list Z := skipn (fst p) (stream (fst p + snd p)%nat).
(** Every block call of the sequence starts at a block boundary *)
Fixpoint aligned (rate n : nat) (cs : list draw) : Prop :=
  match cs with
  | [] => True
  | c :: rest => (match c with Squeeze _ => True | Blocks _ _ => (n mod rate = 0)%nat end) /\ aligned rate (n + drawn rate c) rest
  end.
Definition total (rate : nat) (cs : list draw) : nat := fold_right (fun c n => (drawn rate c + n)%nat) 0%nat cs.
