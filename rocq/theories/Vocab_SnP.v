(** * Vocabulary for the four-way Keccak state interface *)
From Coq Require Import ZArith List Bool.
From Verif Require Import CMonad Vocab Vocab_Four Spec_FIPS202.
Import ListNotations.
Open Scope Z_scope.

(** Four 200-byte Keccak states *)
Definition four_states (S : list (list Z)) : Prop :=
  length S = 4%nat /\ forall s, In s S -> byte_array 200 s.

(** The 800 bytes of the vectorised state: eight bytes of instance 0, eight of
    instance 1, eight of 2, eight of 3, then the next eight of instance 0 ... *)
Definition packed (S : list (list Z)) : list Z :=
  map (fun p => nth (8 * (p / 32) + p mod 8) (nth (p mod 32 / 8) S []) 0) (seq 0 800).

(** Instance [inst] replaced *)
Definition with_instance (S : list (list Z)) (inst : nat) (s : list Z) : list (list Z) :=
  firstn inst S ++ [s] ++ skipn (inst + 1) S.

(** len bytes from position off *)
Definition bytes_at (l : list Z) (off len : nat) : list Z := firstn len (skipn off l).
(** The bytes from position off replaced by d, or d exclusive-ored into them *)
Definition put_at (s : list Z) (off : nat) (d : list Z) : list Z := firstn off s ++ d ++ skipn (off + length d) s.
Definition xor_lists (a b : list Z) : list Z := map (fun p => Z.lxor (fst p) (snd p)) (combine a b).
Definition add_at (s : list Z) (off : nat) (d : list Z) : list Z := put_at s off (xor_lists (bytes_at s off (length d)) d).

(** The whole lanes of [len] bytes at offset [off] of a state lie at addresses
    of the caller's buffer divisible by 8; vacuous if there is no whole lane *)
Definition lanes_at_multiple_of_8 (a : Z) (off len : nat) : Prop :=
  (slack8 off + 8 <= len)%nat -> (a + Z.of_nat (slack8 off)) mod 8 = 0.

(** FIPS 202 section 3.3: KECCAK-p[1600, nr], rounds 24 - nr to 23 *)
Definition keccak_p (nr : nat) (S : list bool) : list bool :=
  string_of_state (fold_left (fun A ir => Rnd ir A) (seq (24 - nr) nr) (state_of_string S)).
Definition permute_bytes (nr : nat) (s : list Z) : list Z := bytes_of_bits 200 (keccak_p nr (bits_of_bytes s)).

(** What one pass of the absorbing loop does to instance j: m blocks of lc lanes,
    block i of instance j starting at lane i * serial + j * parallel of data *)
Definition absorbed (nr lc par ser m : nat) (data : list Z) (j : nat) (s : list Z) : list Z :=
  fold_left (fun s i => permute_bytes nr (add_at s 0 (bytes_at data (8 * (i * ser + j * par)) (8 * lc)))) (seq 0 m) s.

(** The bytes the loop asks for before it takes a block *)
Definition block_span (lc par : nat) : nat := (8 * (3 * par + lc))%nat.
(** The number of blocks it takes out of len bytes *)
Definition blocks_taken (lc par ser : nat) (len : Z) : nat :=
  if len <? Z.of_nat (block_span lc par) then 0%nat
  else S (Z.to_nat ((len - Z.of_nat (block_span lc par)) / Z.of_nat (8 * ser))).

(** The four instances, each with its own change *)
Definition each_instance (f : nat -> list Z -> list Z) (S : list (list Z)) : list (list Z) :=
  map (fun j => f j (nth j S [])) (seq 0 4).

(** Four pieces written into a buffer, 8 * stride bytes apart from position o *)
Definition put_strips (b : list Z) (o stride : nat) (p : list (list Z)) : list Z :=
  fold_left (fun b j => put_at b (o + 8 * stride * j) (nth j p [])) (seq 0 4) b.

(** Four different states, for examples *)
Definition sample_states : list (list Z) :=
  map (fun j => map (fun i => Z.of_nat (3 * i + 50 * j) mod 256) (seq 0 200)) (seq 0 4).
