(** * Vocabulary for buffers of other sizes and for overlapping buffers *)
From Coq Require Import ZArith List.
From Verif Require Import CMonad.
Import ListNotations.
Open Scope Z_scope.

(** The same outcome and leakage, the value changed by [g] *)
Definition with_value {A B} (g : A -> B) (m : res A) : res B :=
  match m with Ok v T => Ok (g v) T | UB u => UB u | Timeout => Timeout | Abort => Abort end.
(** Equal up to leakage *)
Definition same_result {A} (m m' : res A) : Prop :=
  match m, m' with
  | Ok v _, Ok v' _ => v = v'
  | UB u, UB u' => u = u'
  | Timeout, Timeout | Abort, Abort => True
  | _, _ => False
  end.
(** [len] bytes of a memory from [off] on *)
Definition region (mem : list Z) (off len : nat) : list Z := firstn len (skipn off mem).
