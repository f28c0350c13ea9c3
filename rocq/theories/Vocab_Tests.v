(** * Vocabulary for the test programs *)
From Coq Require Import ZArith List Ascii String.
From Verif Require Import CMonad Levels Model_Params Model_Randombytes Spec_FIPS202 Spec_FIPS203 Vocab Vocab_Code Vocab_Rng Vocab_Bind.
Import ListNotations.
Open Scope Z_scope.

(** The run does not have undefined behaviour, and if it ends normally its value satisfies [Q]. *)
Definition safely {A} (m : res A) (Q : A -> Prop) : Prop :=
  match m with Ok v _ => Q v | UB _ => False | Timeout | Abort => True end.

(** Bytes p, ..., p + len - 1 of a stream *)
Definition piece (f : nat -> Z) (p len : nat) : list Z := map f (seq p len).

(** A randombytes that delivers consecutive bytes of the stream [f].  [R ns p s]:
    state [s] is at position [p] and fit for the requests [ns]. *)
Definition stream_source {S} (rb : S -> list Z -> nat -> nat -> res (list Z * S)) (f : nat -> Z)
  (R : list nat -> nat -> S -> Prop) : Prop :=
  forall len lens p s x off, R (len :: lens) p s -> (off + len <= List.length x)%nat ->
    safely (rb s x off len) (fun v => fst v = overwrite x off (piece f p len) /\ all_bytes (piece f p len) /\ R lens (p + len)%nat (snd v)).
(** ... and never fails or blocks *)
Definition total_source {S} (rb : S -> list Z -> nat -> nat -> res (list Z * S)) (f : nat -> Z)
  (R : list nat -> nat -> S -> Prop) : Prop :=
  forall len lens p s x off, R (len :: lens) p s -> (off + len <= List.length x)%nat ->
    exists s', yields (rb s x off len) (overwrite x off (piece f p len), s') /\ all_bytes (piece f p len) /\ R lens (p + len)%nat s'.

(** ** Text *)
Definition text (s : string) : list Z := map (fun c => Z.of_nat (nat_of_ascii c)) (list_ascii_of_string s).
Definition hex_digit (v : Z) : Z := nth (Z.to_nat v) (text "0123456789abcdef") 0.
(** A label and the bytes in hexadecimal, as a line *)
Definition dump (label : string) (l : list Z) : list Z :=
  text label ++ flat_map (fun x => [hex_digit (x / 16); hex_digit (x mod 16)]) l ++ [10].

(** ** Sources *)
(** randombytes on a schedule of kernel replies, for consecutive requests *)
Fixpoint kernel_run (lens : list nat) (sched : list reply) : Prop :=
  match lens with
  | [] => True
  | len :: lens =>
      kernel_ok sched len /\
      forall used rest, sched = used ++ rest -> ~ In Failed used -> shortest used len ->
        List.length (delivered used) = len -> kernel_run lens rest
  end.
Definition kernel_stream (sched : list reply) (j : nat) : Z := nth j (delivered sched) 0.
Definition kernel_at (sched : list reply) (lens : list nat) (p : nat) (s : list reply) : Prop :=
  exists used, sched = used ++ s /\ List.length (delivered used) = p /\ kernel_run lens s.
(** The output of SHAKE128 on the empty message *)
Definition shake_stream (j : nat) : Z := nth j (SHAKE128 [] (S j)) 0.

(** ** What the test programs compute, for a stream [f] and a position [p] in it *)
Section Tests.
Variable lv : level.
Variable f : nat -> Z.
Definition ctbytes : nat := KYBER_CIPHERTEXTBYTES lv.
Definition skbytes : nat := KYBER_SECRETKEYBYTES lv.

(** A key pair and an encapsulation from 96 bytes *)
Definition exchange_at (p : nat) (ek dk K c : list Z) : Prop :=
  KeyGen_internal (PS lv) (piece f p 32) (piece f (p + 32) 32) ek dk /\
  Encaps_internal (PS lv) ek (piece f (p + 64) 32) K c.
(** Decapsulation gives [K] ([r] = 0) or not ([r] = 1) *)
Definition agree (dk c K : list Z) (r : Z) : Prop :=
  exists K', Decaps_internal (PS lv) dk c K' /\ (K' = K /\ r = 0 \/ K' <> K /\ r = 1).
Definition keys_result (p : nat) (r : Z) : Prop :=
  exists ek dk K c, exchange_at p ek dk K c /\ agree dk c K r.
Definition sk_result (p : nat) (r : Z) : Prop :=
  exists ek dk K c, exchange_at p ek dk K c /\ agree (piece f (p + 96) skbytes) c K (1 - r).
(** [i] zero bytes, then a nonzero one *)
Definition first_nonzero (p i : nat) : Prop := f (p + i) <> 0 /\ forall j, (j < i)%nat -> f (p + j) = 0.
(** The number with the little-endian bytes p, ..., p + 7 *)
Definition position_at (p : nat) : Z := fold_right (fun j a => f (p + j) + 256 * a) 0 (seq 0 8).
(** [c'] is [c] with [b] exclusive-ored into byte [i] *)
Definition flipped (c : list Z) (i : nat) (b : Z) (c' : list Z) : Prop :=
  List.length c' = List.length c /\ forall j, nth j c' 0 = if Nat.eqb j i then Z.lxor (nth j c 0) b else nth j c 0.
(** [i] zero bytes are skipped first *)
Definition ct_result (p i : nat) (r : Z) : Prop :=
  first_nonzero p i /\
  exists ek dk K c c', exchange_at (p + i + 9) ek dk K c /\
    flipped c (Z.to_nat (position_at (p + i + 1) mod Z.of_nat ctbytes)) (f (p + i)) c' /\
    agree dk c' K (1 - r).
(** Exit status of test_kyber with [rounds] rounds *)
Inductive test_run : nat -> nat -> Z -> Prop :=
| test_done p : test_run p 0 0
| test_fail p rounds r1 r2 i r3 :
    keys_result p r1 -> sk_result (p + 96) r2 -> ct_result (p + 192 + skbytes) i r3 ->
    ~ (r1 = 0 /\ r2 = 0 /\ r3 = 0) -> test_run p (S rounds) 1
| test_next p rounds i r :
    keys_result p 0 -> sk_result (p + 96) 0 -> ct_result (p + 192 + skbytes) i 0 ->
    test_run (p + 192 + skbytes + i + 105) rounds r -> test_run p (S rounds) r.
(** The lengths test_kyber may request, one after the other, in the rounds that
    are left.  A round may end early, among its one-byte requests, or the
    program with it. *)
Inductive test_requests : nat -> nat -> list nat -> Prop :=
| requests_done p : test_requests p 0 []
| requests_zeros p rounds i : (forall j, (S j < i)%nat -> f (p + 192 + skbytes + j) = 0) ->
    test_requests p (S rounds) ([64; 32; 64; 32; skbytes] ++ repeat 1 i)%nat
| requests_round p rounds i lens : first_nonzero (p + 192 + skbytes) i ->
    test_requests (p + 192 + skbytes + i + 105) rounds lens ->
    test_requests p (S rounds) ([64; 32; 64; 32; skbytes] ++ repeat 1 (S i) ++ [8; 64; 32] ++ lens)%nat.
(** ... and those of test_vectors *)
Definition vectors_requests (rounds : nat) : list nat := List.concat (repeat [64; 32; ctbytes]%nat rounds).

(** What test_vectors prints, and its exit status *)
Inductive vectors : nat -> nat -> list Z -> Z -> Prop :=
| vectors_done p : vectors p 0 [] 0
| vectors_fail p rounds ek dk K c K1 :
    exchange_at p ek dk K c -> Decaps_internal (PS lv) dk c K1 -> K1 <> K ->
    vectors p (S rounds)
      (dump "Public Key: " ek ++ dump "Secret Key: " dk ++ dump "Ciphertext: " c ++ dump "Shared Secret B: " K ++
       dump "Shared Secret A: " K1) (-1)
| vectors_next p rounds ek dk K c K2 rest r :
    exchange_at p ek dk K c -> Decaps_internal (PS lv) dk c K ->
    Decaps_internal (PS lv) dk (piece f (p + 96) ctbytes) K2 ->
    vectors (p + 96 + ctbytes) rounds rest r ->
    vectors p (S rounds)
      (dump "Public Key: " ek ++ dump "Secret Key: " dk ++ dump "Ciphertext: " c ++ dump "Shared Secret B: " K ++
       dump "Shared Secret A: " K ++ dump "Pseudorandom shared Secret A: " K2 ++ rest) r.
End Tests.
