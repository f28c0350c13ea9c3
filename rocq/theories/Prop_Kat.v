(** * C58, C59: the known-answer-test generator nistkat/PQCgenKAT_kem.c *)
From Coq Require Import ZArith List String.
From Verif Require Import CMonad Levels Model_Params Model_Rng Model_Kat Spec_DRBG Spec_FIPS203 Vocab Vocab_Rng Vocab_Tests Vocab_Kat
  Proof_KatRead Proof_PropKat.
Import ListNotations.
Open Scope Z_scope.
Open Scope cmonad_scope.

(** FindMarker stops after the first occurrence of the marker, of which the first 49 characters count. *)
Theorem C58_find : forall (JJ : Junk) infile marker, characters marker -> all_bytes infile ->
  let m := firstn 49 marker in
  (forall pre post, first_occurrence infile m pre post -> yields (FindMarker infile marker) (1, post)) /\
  (~ occurs infile m -> yields (FindMarker infile marker) (0, [])).
Proof. exact find_marker. Qed.
Print Assumptions C58_find.

(** ReadHex stores the number after the label, modulo 256^n, and leaves the rest of the array alone. *)
Theorem C58_hex : forall (JJ : Junk) infile A n label, characters label -> all_bytes infile -> (1 <= n <= length A)%nat ->
  let m := firstn 49 label in
  (forall pre line x rest, first_occurrence infile m pre line -> number_in line x rest ->
     yields (ReadHex infile A n label) (be_bytes n x ++ skipn n A, rest, 1)) /\
  (~ occurs infile m -> yields (ReadHex infile A n label) (repeat 0 n ++ skipn n A, [], 0)).
Proof. exact read_hex. Qed.
Print Assumptions C58_hex.

Theorem C58_number : forall line, exists x rest, number_in line x rest.
Proof. exact number_exists. Qed.
Print Assumptions C58_number.

Theorem C58_hex_nothing : forall (JJ : Junk) infile a A label, yields (ReadHex infile (a :: A) 0 label) (0 :: A, infile, 1).
Proof. exact read_hex_0. Qed.
Print Assumptions C58_hex_nothing.

Theorem C58_hex_undefined : forall (JJ : Junk) infile A n label, (length A < Nat.max 1 n)%nat ->
  undefined (ReadHex infile A n label) OutOfBounds.
Proof. exact read_hex_undefined. Qed.
Print Assumptions C58_hex_undefined.

Theorem C58_print : forall label l r, all_bytes l -> yields (fprintBstr label (l ++ r) (length l)) (record label l).
Proof. exact print_yields. Qed.
Print Assumptions C58_print.

(** What fprintBstr writes, ReadHex reads back. *)
Theorem C58_read_back : forall (JJ : Junk) file pre label l post A, characters label -> all_bytes file -> l <> [] -> all_bytes l ->
  (length label <= 49)%nat -> (length l <= length A)%nat ->
  file = pre ++ record label l ++ post ->
  (forall pre' post', file = pre' ++ label ++ post' -> (length pre <= length pre')%nat) ->
  yields (ReadHex file A (length l) label) (l ++ skipn (length l) A, post, 1).
Proof. exact read_back. Qed.
Print Assumptions C58_read_back.

(** A number longer than the array, a value without digits (taken for 0), and a record *)
Example C58_case : forall JJ : Junk,
  match ReadHex (text "x seed = 1aB2C." ++ text "rest") [7; 7; 7] 2 (text "seed = ") with
  | Ok v _ => v = ([0xab; 0x2c; 7], text "rest", 1) | _ => False end /\
  match ReadHex (text "seed = ?!" ++ [10] ++ text "12") [7; 7] 2 (text "seed = ") with
  | Ok v _ => v = ([0; 0], text "12", 1) | _ => False end /\
  record (text "pk = ") [0x0f; 0xa0] = text "pk = 0FA0" ++ [10].
Proof. intros JJ. split; [vm_compute; reflexivity|]. split; vm_compute; reflexivity. Qed.

(** The program, with up to the 100 rounds it has, for any block cipher *)
Theorem C59_run : forall (JR : Junk) E lv fuel rounds opens JJ fs d, block_cipher E -> (rounds <= 100)%nat ->
  length (d_key d) = 32%nat -> length (d_v d) = 16%nat ->
  safely (kat_main E lv fuel rounds opens JJ fs d) (fun v => kat_outcome E lv rounds opens fs (fst v) (snd v)).
Proof. exact kat_run. Qed.
Print Assumptions C59_run.

Theorem C59_complete : forall (JR : Junk) E lv rounds opens out r, block_cipher E -> (rounds <= 100)%nat ->
  opens 0%nat = true -> opens 1%nat = true -> opens 2%nat = true -> responses E lv 0 (seeds_of E rounds) out r ->
  exists fuel0, forall fuel JJ fs d, (fuel0 <= fuel)%nat -> length (d_key d) = 32%nat -> length (d_v d) = 16%nat ->
    exists fs', yields (kat_main E lv fuel rounds opens JJ fs d) (r, fs') /\ kat_outcome E lv rounds opens fs r fs'.
Proof. exact kat_complete. Qed.
Print Assumptions C59_complete.

Theorem C59_cannot_open : forall (JR : Junk) E lv fuel rounds opens JJ fs d, block_cipher E -> (rounds <= 100)%nat ->
  opens 0%nat = false \/ opens 1%nat = false \/ opens 2%nat = false -> length (d_key d) = 32%nat -> length (d_v d) = 16%nat ->
  exists fs', yields (kat_main E lv fuel rounds opens JJ fs d) (-1, fs') /\ kat_outcome E lv rounds opens fs (-1) fs'.
Proof. exact kat_cannot_open. Qed.
Print Assumptions C59_cannot_open.

(** A block cipher given by a table, for which the entry exists and decapsulation agrees *)
Example C59_case : block_cipher table_cipher /\
  (exists ek dk K c, kat_exchange table_cipher Kyber512 demo_seed ek dk K c /\ Decaps_internal (PS Kyber512) dk c K /\
     responses table_cipher Kyber512 0 (seeds_of table_cipher 1) (entry_text 0 demo_seed ek dk K c ++ []) 0) /\
  request_name Kyber768 = text "PQCkemKAT_2400.req" /\
  firstn 23 (request_text 0 (seeds_of table_cipher 1)) = text "count = 0" ++ [10] ++ text "seed = 000000".
Proof. exact (conj table_ok (conj case_kat (conj eq_refl eq_refl))). Qed.
