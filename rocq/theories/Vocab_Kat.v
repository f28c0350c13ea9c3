(** * Vocabulary for the known-answer-test generator *)
From Coq Require Import ZArith List Ascii String Decimal DecimalString.
From Verif Require Import CMonad Levels Model_Params Spec_DRBG Spec_FIPS203 Vocab Vocab_Rng Vocab_Tests.
Import ListNotations.
Open Scope Z_scope.
Notation length := List.length.

(** The characters of a C string: bytes without a NUL *)
Definition characters (s : list Z) : Prop := forall c, In c s -> 0 < c < 256.

(** [file] is [pre], [m], [post], and [m] does not occur earlier in it. *)
Definition first_occurrence (file m pre post : list Z) : Prop :=
  file = pre ++ m ++ post /\ forall pre' post', file = pre' ++ m ++ post' -> (length pre <= length pre')%nat.
Definition occurs (file m : list Z) : Prop := exists pre post, file = pre ++ m ++ post.

(** Hexadecimal digits and their values *)
Definition upper_digit (v : Z) : Z := nth (Z.to_nat v) (text "0123456789ABCDEF") 0.
Definition digit_of (c v : Z) : Prop := 0 <= v < 16 /\ (c = hex_digit v \/ c = upper_digit v).
Definition no_digit (c : Z) : Prop := forall v, ~ digit_of c v.
Definition hex_number (vs : list Z) : Z := fold_left (fun a v => 16 * a + v) vs 0.

(** What follows the label: [line] is the text, [x] the number in it, [rest] the text left.
    Characters other than digits are skipped; without a digit the number is 0. *)
Inductive number_in : list Z -> Z -> list Z -> Prop :=
| number_missing skip rest : Forall no_digit skip -> ~ In 10 skip -> number_in (skip ++ 10 :: rest) 0 rest
| number_absent skip : Forall no_digit skip -> ~ In 10 skip -> number_in skip 0 []
| number_last skip ds vs : Forall no_digit skip -> ~ In 10 skip -> ds <> [] -> Forall2 digit_of ds vs ->
    number_in (skip ++ ds) (hex_number vs) []
| number_read skip ds vs c rest : Forall no_digit skip -> ~ In 10 skip -> ds <> [] -> Forall2 digit_of ds vs -> no_digit c ->
    number_in (skip ++ ds ++ c :: rest) (hex_number vs) rest.

(** A label and the bytes in hexadecimal, as a line; no bytes are printed like one zero byte *)
Definition record (label : list Z) (l : list Z) : list Z :=
  label ++ flat_map (fun x => [upper_digit (x / 16); upper_digit (x mod 16)]) (match l with [] => [0] | _ => l end) ++ [10].
(** A number in decimal *)
Definition decimal (i : nat) : list Z := text (NilZero.string_of_uint (Nat.to_uint i)).

(** ** The request and response files *)
Definition request_name (lv : level) : list Z := text "PQCkemKAT_" ++ decimal (KYBER_SECRETKEYBYTES lv) ++ text ".req".
Definition response_name (lv : level) : list Z := text "PQCkemKAT_" ++ decimal (KYBER_SECRETKEYBYTES lv) ++ text ".rsp".
Definition algorithm (lv : level) : list Z :=
  match lv with Kyber512 => text "Kyber512" | Kyber768 => text "Kyber768" | Kyber1024 => text "Kyber1024" end.
Definition kat_entropy : list Z := map Z.of_nat (seq 0 48).

Section Kat.
Variable E : cipher.
(** The seeds: consecutive 48-byte outputs *)
Fixpoint kat_seeds (n : nat) (st : drbg) : list (list Z) :=
  match n with
  | O => []
  | S n => let '(seed, st) := CTR_DRBG_Generate E 48 st in seed :: kat_seeds n st
  end.
Definition seeds_of (n : nat) : list (list Z) := kat_seeds n (CTR_DRBG_Instantiate E kat_entropy (repeat 0 48)).
Fixpoint request_text (i : nat) (seeds : list (list Z)) : list Z :=
  match seeds with
  | [] => []
  | seed :: seeds =>
      text "count = " ++ decimal i ++ [10] ++ record (text "seed = ") seed ++
      text "pk =" ++ [10] ++ text "sk =" ++ [10] ++ text "ct =" ++ [10] ++ text "ss =" ++ [10; 10] ++ request_text (S i) seeds
  end.

Variable lv : level.
(** The exchange for a seed: one call for d and z, one for m *)
Definition kat_exchange (seed ek dk K c : list Z) : Prop :=
  let st := CTR_DRBG_Instantiate E seed (repeat 0 48) in
  let '(dz, st) := CTR_DRBG_Generate E 64 st in
  let '(m, st) := CTR_DRBG_Generate E 32 st in
  KeyGen_internal (PS lv) (firstn 32 dz) (skipn 32 dz) ek dk /\ Encaps_internal (PS lv) ek m K c.
Definition entry_text (i : nat) (seed ek dk K c : list Z) : list Z :=
  text "count = " ++ decimal i ++ [10] ++ record (text "seed = ") seed ++
  record (text "pk = ") ek ++ record (text "sk = ") dk ++ record (text "ct = ") c ++ record (text "ss = ") K ++ [10].
(** The entries from number [i] on and the exit status *)
Inductive responses : nat -> list (list Z) -> list Z -> Z -> Prop :=
| responses_done i : responses i [] [] 0
| responses_fail i seed seeds ek dk K c K1 :
    kat_exchange seed ek dk K c -> Decaps_internal (PS lv) dk c K1 -> K1 <> K ->
    responses i (seed :: seeds) (entry_text i seed ek dk K c) (-4)
| responses_next i seed seeds ek dk K c out r :
    kat_exchange seed ek dk K c -> Decaps_internal (PS lv) dk c K ->
    responses (S i) seeds out r ->
    responses i (seed :: seeds) (entry_text i seed ek dk K c ++ out) r.
End Kat.

(** The files afterwards: those of the two names have the given contents, the others are unchanged. *)
Definition files_after (lv : level) (fs fs' : list Z -> list Z) (req rsp : list Z) : Prop :=
  fs' (request_name lv) = req /\ fs' (response_name lv) = rsp /\
  forall name, name <> request_name lv -> name <> response_name lv -> fs' name = fs name.

(** Exit status and files of the program, for the outcomes of its three fopen calls *)
Definition kat_outcome (E : cipher) (lv : level) (rounds : nat) (opens : nat -> bool) (fs : list Z -> list Z) (r : Z) (fs' : list Z -> list Z) : Prop :=
  if opens 0%nat then if opens 1%nat then if opens 2%nat then
    exists out, responses E lv 0 (seeds_of E rounds) out r /\
      files_after lv fs fs' (request_text 0 (seeds_of E rounds)) (text "# " ++ algorithm lv ++ [10; 10] ++ out)
  else r = -1 /\ files_after lv fs fs' (request_text 0 (seeds_of E rounds)) []
  else r = -1 /\ files_after lv fs fs' [] (fs (response_name lv))
  else r = -1 /\ forall name, fs' name = fs name.
