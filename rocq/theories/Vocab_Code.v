(** * Vocabulary of the property statements that mentions modelled functions *)
From Coq Require Import ZArith List.
From Verif Require Import CMonad Model_Fips202 Model_Randombytes.
Import ListNotations.
Open Scope Z_scope.
Open Scope cmonad_scope.

(** One call of shake*_absorb per chunk *)
Fixpoint absorb_chunks (rate : nat) (st : keccak_state) (chunks : list (list Z)) : res keccak_state :=
  match chunks with
  | [] => ret st
  | c :: rest => st <- shake_absorb rate st c 0 (length c) ;; absorb_chunks rate st rest
  end.

(** One call of shake*_squeeze per buffer, filling it completely *)
Fixpoint squeeze_chunks (rate : nat) (st : keccak_state) (bufs : list (list Z))
  : res (list (list Z) * keccak_state) :=
  match bufs with
  | [] => ret ([], st)
  | b :: rest =>
      '(o, st) <- shake_squeeze rate b 0 (length b) st ;;
      '(os, st) <- squeeze_chunks rate st rest ;;
      ret (o :: os, st)
  end.

(** shake*_init, the absorb calls, shake*_finalize *)
Definition absorb_session (rate : nat) (st : keccak_state) (chunks : list (list Z)) : res keccak_state :=
  st <- shake_init st ;;
  st <- absorb_chunks rate st chunks ;;
  shake_finalize rate st.

(** The nonces of the noise-sampler calls of a run, in order *)
Definition nonces_used (T : trace) : list Z :=
  flat_map (fun e => match e with EvNoise n => [n] | _ => [] end) T.

(** The bytes a sequence of replies delivers *)
Definition delivered (l : list reply) : list Z :=
  flat_map (fun r => match r with Delivered bs => bs | _ => [] end) l.

(** What the kernel may reply to a caller still waiting for [outlen] bytes: no
    more bytes than asked for.  Replies after the last byte or after a failure
    are unconstrained. *)
Fixpoint kernel_ok (sched : list reply) (outlen : nat) : Prop :=
  match sched with
  | [] => True
  | r :: s =>
      outlen = 0%nat \/
      match r with
      | Interrupted => kernel_ok s outlen
      | Failed => True
      | Delivered bs =>
          (length bs <= outlen)%nat /\ (forall x, In x bs -> 0 <= x < 256) /\
          kernel_ok s (outlen - length bs)
      end
  end.

(** No proper prefix of [used] delivers the [outlen] bytes *)
Definition shortest (used : list reply) (outlen : nat) : Prop :=
  forall u v, used = u ++ v -> v <> [] -> (length (delivered u) < outlen)%nat.
