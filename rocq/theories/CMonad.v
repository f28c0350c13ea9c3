(** * The C monad: values, undefined behaviour, leakage traces.

    This file is the semantic base of every model file.  It fixes how the C
    subset used by /repo/ref is read:

    - a computation ends in [Ok v t] (value and leakage trace), in [UB] (the C
      standard gives no meaning to what happened), in [Timeout] (the fuel of
      a potentially unbounded loop ran out) or in [Abort] (the program called
      abort());
    - C integers are [Z]; conversion to a C type is an explicit wrap;
    - arrays are [list Z]; a pointer is an array together with an offset. *)
From Coq Require Import ZArith List Lia Bool.
Import ListNotations.
Open Scope Z_scope.

(** Kinds of undefined behaviour that are detected. *)
Inductive ub : Type :=
| OutOfBounds      (* array access outside the array *)
| SignedOverflow   (* int arithmetic leaving [-2^31, 2^31) *)
| BadShift         (* negative value shifted left, or shift count out of range *)
| Misaligned       (* a vector access that needs 32-byte alignment and lacks it *)
| DivisionByZero   (* integer division by zero *)
| Overlap.         (* memcpy between overlapping ranges *)

(** Leakage events: what the constant-time programming model lets an attacker
    see. *)
Inductive event : Type :=
| EvIndex (i : nat)        (* element index of a load or store *)
| EvBranch (b : bool)      (* outcome of a conditional or loop test *)
| EvDiv (a b : Z)          (* operands of a run-time division *)
| EvNoise (nonce : Z).     (* a call of the noise sampler, by its nonce *)

Definition trace := list event.

Inductive res (A : Type) : Type :=
| Ok (v : A) (t : trace)
| UB (u : ub)
| Timeout
| Abort.
Arguments Ok {A} v t.
Arguments UB {A} u.
Arguments Timeout {A}.
Arguments Abort {A}.

Definition ret {A} (v : A) : res A := Ok v [].

Definition bind {A B} (m : res A) (f : A -> res B) : res B :=
  match m with
  | Ok v t => match f v with
              | Ok w t' => Ok w (t ++ t')
              | UB u => UB u
              | Timeout => Timeout
              | Abort => Abort
              end
  | UB u => UB u
  | Timeout => Timeout
  | Abort => Abort
  end.

Declare Scope cmonad_scope.
Delimit Scope cmonad_scope with cm.
Notation "x <- m ;; k" := (bind m (fun x => k))
  (at level 61, m at next level, right associativity) : cmonad_scope.
Notation "' p <- m ;; k" := (bind m (fun p => k))
  (at level 61, p pattern, m at next level, right associativity) : cmonad_scope.
Open Scope cmonad_scope.

Definition emit (e : event) : res unit := Ok tt [e].

(** ** Integer types (implementation-defined conversions wrap, as in gcc and
    clang). *)
Definition wrapu (w : Z) (x : Z) : Z := x mod 2 ^ w.
Definition wraps (w : Z) (x : Z) : Z := (x + 2 ^ (w - 1)) mod 2 ^ w - 2 ^ (w - 1).
Definition u8 := wrapu 8.
Definition u16 := wrapu 16.
Definition u32 := wrapu 32.
Definition u64 := wrapu 64.
Definition i16 := wraps 16.
Definition i32 := wraps 32.

(** Signed [int] (32 bit) arithmetic: overflow is undefined. *)
Definition chk_int (x : Z) : res Z :=
  if (- 2 ^ 31 <=? x) && (x <? 2 ^ 31) then ret x else UB SignedOverflow.
Definition iadd (a b : Z) : res Z := chk_int (a + b).
Definition isub (a b : Z) : res Z := chk_int (a - b).
Definition imul (a b : Z) : res Z := chk_int (a * b).
(** [a << n] on [int]: undefined for negative [a], for a count outside
    [0, 31], or when the result is not representable. *)
Definition ishl (a n : Z) : res Z :=
  if (0 <=? a) && (0 <=? n) && (n <? 32) && (a * 2 ^ n <? 2 ^ 31)
  then ret (a * 2 ^ n) else UB BadShift.
(** [a >> n] on a type of width [w]; arithmetic for negative [a]. *)
Definition shr (w a n : Z) : res Z :=
  if (0 <=? n) && (n <? w) then ret (Z.shiftr a n) else UB BadShift.
(** [a << n] on an unsigned type of width [w]. *)
Definition ushl (w a n : Z) : res Z :=
  if (0 <=? n) && (n <? w) then ret (wrapu w (Z.shiftl a n)) else UB BadShift.

(** ** Arrays *)
Fixpoint upd {A} (l : list A) (i : nat) (v : A) : list A :=
  match l, i with
  | [], _ => []
  | _ :: l', O => v :: l'
  | x :: l', S i' => x :: upd l' i' v
  end.

Definition aget {A} (l : list A) (i : nat) : res A :=
  match nth_error l i with
  | Some v => Ok v [EvIndex i]
  | None => UB OutOfBounds
  end.

Definition aset {A} (l : list A) (i : nat) (v : A) : res (list A) :=
  if (i <? length l)%nat then Ok (upd l i v) [EvIndex i] else UB OutOfBounds.

(** ** Control flow *)

(** [for (i = lo; i < lo + n; i++) body]; every loop test leaks its outcome. *)
Fixpoint for_ {S} (n : nat) (lo : nat) (body : nat -> S -> res S) (s : S) : res S :=
  match n with
  | O => _ <- emit (EvBranch false) ;; ret s
  | Datatypes.S n' =>
      _ <- emit (EvBranch true) ;;
      s1 <- body lo s ;;
      for_ n' (Datatypes.S lo) body s1
  end.

(** [while (cond) body] with fuel. *)
Fixpoint while_ {S} (fuel : nat) (cond : S -> res bool) (body : S -> res S) (s : S)
  : res S :=
  match fuel with
  | O => Timeout
  | Datatypes.S f =>
      b <- cond s ;;
      if (b : bool) then (s1 <- body s ;; while_ f cond body s1) else ret s
  end.

(** A conditional: the outcome leaks. *)
Definition test (b : bool) : res bool := Ok b [EvBranch b].

(** [a && c] with short-circuit evaluation. *)
Definition test_and (a : bool) (c : res bool) : res bool :=
  x <- test a ;; if (x : bool) then c else ret false.

(** memcpy(dst+doff, src+soff, n) between distinct objects. *)
Definition memcpy (dst : list Z) (doff : nat) (src : list Z) (soff : nat) (n : nat)
  : res (list Z) :=
  for_ n 0 (fun i d => v <- aget src (soff + i) ;; aset d (doff + i) v) dst.

(** Contents of uninitialised local objects: an arbitrary function of the
    index.  Theorems quantify over it, so no result may depend on it. *)
Class Junk := junk : nat -> Z.
Definition local `{Junk} (n : nat) : list Z := map junk (seq 0 n).

Definition value {A} (m : res A) : option A :=
  match m with Ok v _ => Some v | _ => None end.
Definition leak {A} (m : res A) : option trace :=
  match m with Ok _ t => Some t | _ => None end.
