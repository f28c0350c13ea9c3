(** * Vocabulary for the generator and the seed expander of nistkat/rng.c *)
From Coq Require Import ZArith List.
From Verif Require Import CMonad Model_Rng Spec_DRBG Vocab.
Import ListNotations.
Open Scope Z_scope.
Open Scope cmonad_scope.

(** The run of [m] ends normally with the value [v]. *)
Definition yields {A} (m : res A) (v : A) : Prop := exists T, m = Ok v T.
(** The call has undefined behaviour of the kind [u]. *)
Definition undefined {A} (m : res A) (u : ub) : Prop := m = UB u.

(** A block cipher with blocks of 16 bytes *)
Definition block_cipher (E : cipher) : Prop := forall k b, byte_array 16 (E k b).
(** DRBG_ctx holds the working state [st]. *)
Definition holds (d : drbg_ctx) (st : drbg) : Prop :=
  byte_array 32 (d_key d) /\ byte_array 16 (d_v d) /\ st = (d_key d, be_value (d_v d)).
(** An optional argument of 48 bytes; a null pointer stands for zeroes. *)
Definition valid48 (p : option (list Z)) : Prop := forall d, p = Some d -> byte_array 48 d.
Definition data_of (p : option (list Z)) : list Z := match p with Some d => d | None => repeat 0 48 end.

(** [n] values of a list from position [off] replaced *)
Definition overwrite (x : list Z) (off : nat) (new : list Z) : list Z :=
  firstn off x ++ new ++ skipn (off + length new) x.

(** Consecutive calls of randombytes with their buffers, offsets and lengths *)
Fixpoint randombytes_run `{Junk} (E : cipher) (d : drbg_ctx) (reqs : list (list Z * nat * nat)) : res (list (list Z * Z)) :=
  match reqs with
  | [] => ret []
  | (x, off, n) :: reqs =>
      '(x, d, r) <- drbg_randombytes E d x off (Z.of_nat n) ;;
      rest <- randombytes_run E d reqs ;;
      ret ((x, r) :: rest)
  end.
Fixpoint generate_run (E : cipher) (st : drbg) (reqs : list (list Z * nat * nat)) : list (list Z * Z) :=
  match reqs with
  | [] => []
  | (x, off, n) :: reqs =>
      let '(out, st) := CTR_DRBG_Generate E n st in
      (overwrite x off out, 0) :: generate_run E st reqs
  end.

(** Consecutive calls of seedexpander; the buffer may be null *)
Definition request := (option (list Z * nat) * nat)%type.
Definition fits (r : request) : Prop :=
  match fst r with Some (x, off) => (off + snd r <= length x)%nat | None => True end.
Fixpoint expander_run `{Junk} (E : cipher) (ctx : xof_ctx) (reqs : list request) : res (list (option (list Z * nat) * Z)) :=
  match reqs with
  | [] => ret []
  | (x, n) :: reqs =>
      '(ctx, x, r) <- seedexpander E ctx x (Z.of_nat n) ;;
      rest <- expander_run E ctx reqs ;;
      ret ((x, r) :: rest)
  end.
(** What they return: the bytes of [stream] from position [p] on, as long as
    strictly fewer than [maxlen] bytes are asked for altogether *)
Fixpoint expander_answers (stream : nat -> Z) (maxlen : Z) (p : nat) (reqs : list request) : list (option (list Z * nat) * Z) :=
  match reqs with
  | [] => []
  | (None, n) :: reqs => (None, -2) :: expander_answers stream maxlen p reqs
  | (Some (x, off), n) :: reqs =>
      if Z.of_nat (p + n) <? maxlen
      then (Some (overwrite x off (map stream (seq p n)), off), 0) :: expander_answers stream maxlen (p + n) reqs
      else (Some (x, off), -3) :: expander_answers stream maxlen p reqs
  end.

(** A request of randombytes that fits its buffer and an int *)
Definition request_ok (r : list Z * nat * nat) : Prop :=
  let '(x, off, n) := r in (off + n <= length x)%nat /\ Z.of_nat n < 2 ^ 31.
(** Number of bytes bytes_given by a sequence of calls: those of the calls that returned 0 *)
Fixpoint bytes_given (reqs : list request) (out : list (option (list Z * nat) * Z)) : nat :=
  match reqs, out with
  | (_, n) :: reqs, (_, r) :: out => ((if (r =? 0)%Z then n else 0) + bytes_given reqs out)%nat
  | _, _ => 0%nat
  end.
