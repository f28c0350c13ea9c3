(** * C54, C55: the generator and the seed expander of nistkat/rng.c *)
From Coq Require Import ZArith List.
From Verif Require Import CMonad Model_Rng Spec_DRBG Vocab Vocab_Rng Proof_PropRng.
Import ListNotations.
Open Scope Z_scope.
Open Scope cmonad_scope.

Theorem C54_init : forall (JJ : Junk) E d entropy pers, block_cipher E ->
  length (d_key d) = 32%nat -> length (d_v d) = 16%nat -> byte_array 48 entropy -> valid48 pers ->
  exists d', yields (randombytes_init E d entropy pers) d' /\ d_counter d' = 1 /\
    holds d' (CTR_DRBG_Instantiate E entropy (data_of pers)).
Proof. exact @rng_init. Qed.
Print Assumptions C54_init.

Theorem C54_randombytes : forall (JJ : Junk) E d st x off n, block_cipher E -> holds d st ->
  (off + n <= length x)%nat -> Z.of_nat n < 2 ^ 31 -> - 2 ^ 31 <= d_counter d < 2 ^ 31 - 1 ->
  exists d', yields (drbg_randombytes E d x off (Z.of_nat n)) (overwrite x off (fst (CTR_DRBG_Generate E n st)), d', 0) /\
    d_counter d' = d_counter d + 1 /\ holds d' (snd (CTR_DRBG_Generate E n st)).
Proof. exact @rng_generate. Qed.
Print Assumptions C54_randombytes.

Theorem C54_undefined : forall (JJ : Junk) E d st x off n, block_cipher E -> holds d st ->
  (off + n <= length x)%nat -> 2 ^ 31 <= Z.of_nat n \/ d_counter d = 2 ^ 31 - 1 ->
  undefined (drbg_randombytes E d x off (Z.of_nat n)) SignedOverflow.
Proof. exact @rng_undefined. Qed.
Print Assumptions C54_undefined.

Theorem C54_sequence : forall (JJ : Junk) E d entropy pers reqs, block_cipher E ->
  length (d_key d) = 32%nat -> length (d_v d) = 16%nat -> byte_array 48 entropy -> valid48 pers ->
  Forall request_ok reqs -> Z.of_nat (length reqs) < 2 ^ 31 - 1 ->
  yields (d <- randombytes_init E d entropy pers ;; randombytes_run E d reqs)
    (generate_run E (CTR_DRBG_Instantiate E entropy (data_of pers)) reqs).
Proof. exact @rng_sequence. Qed.
Print Assumptions C54_sequence.

(** A toy cipher; V overflows from 2^128 - 1 in the second call. *)
Definition toy (k b : list Z) : list Z := map (fun i => (nth i k 0 + nth i b 0 + Z.of_nat i) mod 256) (seq 0 16).
Example C54_case : forall JJ : Junk, block_cipher toy /\
  (let d := {| d_key := repeat 7 32; d_v := repeat 255 16; d_counter := 1 |} in
   holds d (repeat 7 32, 2 ^ 128 - 1) /\
   match randombytes_run toy d [([1; 2; 3; 4], 1%nat, 2%nat); ([0; 0; 0; 0; 0; 0], 0%nat, 3%nat)] with
   | Ok out _ => out = [([1; 7; 8; 4], 0); ([14; 17; 20; 0; 0; 0], 0)] | _ => False end).
Proof.
  intros JJ. split.
  - intros k b. split; [reflexivity|]. intros x Hx. apply in_map_iff in Hx as (i & <- & _). now apply Z.mod_pos_bound.
  - split; [|vm_compute; reflexivity]. split; [|split; [|reflexivity]]; (split; [reflexivity|]);
      intros x Hx; apply repeat_spec in Hx; subst x; split; (discriminate || reflexivity).
Qed.

Theorem C55_bad_maxlen : forall (JJ : Junk) ctx seed div maxlen, 2 ^ 32 <= maxlen ->
  yields (seedexpander_init ctx seed div maxlen) (ctx, -1).
Proof. exact @expander_bad. Qed.
Print Assumptions C55_bad_maxlen.

Theorem C55_stream : forall (JJ : Junk) E ctx seed div maxlen reqs, block_cipher E ->
  length (x_buffer ctx) = 16%nat -> length (x_key ctx) = 32%nat -> length (x_ctr ctx) = 16%nat ->
  byte_array 32 seed -> byte_array 8 div -> 0 <= maxlen < 2 ^ 32 -> Forall fits reqs ->
  yields ('(ctx, r) <- seedexpander_init ctx seed div maxlen ;; out <- expander_run E ctx reqs ;; ret (r, out))
    (0, expander_answers (expander_byte E seed div maxlen) maxlen 0 reqs).
Proof. exact @expander_stream. Qed.
Print Assumptions C55_stream.

Theorem C55_fewer_than_maxlen : forall stream maxlen reqs p, Z.of_nat p < maxlen ->
  Z.of_nat (p + bytes_given reqs (expander_answers stream maxlen p reqs)) < maxlen.
Proof. exact bytes_given_less. Qed.
Print Assumptions C55_fewer_than_maxlen.

(** rng.c:22 calls maxlen the maximum number of bytes generated; asking for all of them at once fails. *)
Theorem C55_maximum_refuted : exists maxlen seed div x, 0 < maxlen < 2 ^ 32 /\ Z.of_nat (length x) = maxlen /\
  forall (JJ : Junk) E ctx, block_cipher E ->
  length (x_buffer ctx) = 16%nat -> length (x_key ctx) = 32%nat -> length (x_ctr ctx) = 16%nat ->
  yields ('(ctx, r) <- seedexpander_init ctx seed div maxlen ;;
          out <- expander_run E ctx [(Some (x, 0%nat), length x)] ;; ret (r, out))
    (0, [(Some (x, 0%nat), -3)]).
Proof. exact expander_maximum. Qed.
Print Assumptions C55_maximum_refuted.

Example C55_case :
  let div := repeat 3 8 in let s := expander_byte toy (repeat 5 32) div 40 in
  expander_answers s 40 0 [(Some ([9; 9; 9; 9], 1%nat), 2%nat); (None, 5%nat); (Some (repeat 0 38, 0%nat), 38%nat); (Some ([1; 2], 0%nat), 2%nat)]
  = [(Some ([9; 8; 9; 9], 1%nat), 0); (None, -2); (Some (repeat 0 38, 0%nat), -3); (Some ([10; 11], 0%nat), 0)].
Proof. vm_compute. reflexivity. Qed.
