(** * /repo/ref/test/test_kyber.c and /repo/ref/test/test_vectors.c

    (avx2/test holds symbolic links to them.)  The programs are linked against
    either variant and against some randombytes, a parameter [rb]: from the
    state of the source, a buffer, an offset and a length to the new buffer and
    state.  Arrays on the stack of the [c]-th call in a round are unspecified,
    [JJ c].  What is printed to stdout is a list of character codes; stderr is
    not modelled. *)
From Coq Require Import ZArith List Bool Ascii String.
From Verif Require Import CMonad Model_Params Model_Fips202 Vocab_Avx.
Import ListNotations.
Open Scope Z_scope.
Open Scope cmonad_scope.

(** ** Characters and printf *)
Definition str (s : string) : list Z := map (fun c => Z.of_N (N_of_ascii c)) (list_ascii_of_string s).
Definition newline : Z := 10.
(** %02x and %02X of an unsigned char *)
Definition lower_hex (v : Z) : Z := if v <? 10 then 48 + v else 97 + (v - 10).
Definition upper_hex (v : Z) : Z := if v <? 10 then 48 + v else 65 + (v - 10).
Definition hex_lower (x : Z) : list Z := [lower_hex (x / 16); lower_hex (x mod 16)].
Definition hex_upper (x : Z) : list Z := [upper_hex (x / 16); upper_hex (x mod 16)].

(** memcmp; the sign of a nonzero result is not used *)
Fixpoint same_bytes (a b : list Z) : bool :=
  match a, b with
  | x :: a, y :: b => (x =? y) && same_bytes a b
  | _, _ => true
  end.
Definition memcmp (a b : list Z) (n : nat) : res Z :=
  if (n <=? List.length a)%nat && (n <=? List.length b)%nat
  then ret (if same_bytes (firstn n a) (firstn n b) then 0 else 1)
  else UB OutOfBounds.

Section Programs.
Context {S : Type}.
Variable rb : S -> list Z -> nat -> nat -> res (list Z * S).
Variable V : variant.
Variable lv : level.
Variable fuel : nat.

(** kem.c:50-57 and 113-121 with this source *)
Definition keypair_with (JJ : Junk) (s : S) (pk sk : list Z) : res (list Z * list Z * Z * S) :=
  '(coins, s) <- rb s (local (2 * KYBER_SYMBYTES)) 0 (2 * KYBER_SYMBYTES)%nat ;;
  '(pk, sk, _) <- keypair_derand_of V JJ lv fuel pk sk coins ;;
  ret (pk, sk, 0, s).
Definition enc_with (JJ : Junk) (s : S) (ct ss pk : list Z) : res (list Z * list Z * Z * S) :=
  '(coins, s) <- rb s (local KYBER_SYMBYTES) 0 KYBER_SYMBYTES ;;
  '(ct, ss, _) <- enc_derand_of V JJ lv fuel ct ss pk coins ;;
  ret (ct, ss, 0, s).

(** Uninitialised arrays of a function of the program *)
Definition pk_ (JJ : Junk) := @local JJ (KYBER_PUBLICKEYBYTES lv).
Definition sk_ (JJ : Junk) := @local JJ (KYBER_SECRETKEYBYTES lv).
Definition ct_ (JJ : Junk) := @local JJ (KYBER_CIPHERTEXTBYTES lv).
Definition ss_ (JJ : Junk) := @local JJ KYBER_SSBYTES.

(** test_kyber.c:9-32 *)
Definition test_keys (JJ : nat -> Junk) (s : S) : res (Z * S) :=
  '(pk, sk, _, s) <- keypair_with (JJ 1%nat) s (pk_ (JJ 0%nat)) (sk_ (JJ 0%nat)) ;;
  '(ct, key_b, _, s) <- enc_with (JJ 2%nat) s (ct_ (JJ 0%nat)) (ss_ (JJ 0%nat)) pk ;;
  '(key_a, _) <- dec_of V (JJ 3%nat) lv fuel (ss_ (JJ 0%nat)) ct sk ;;
  d <- memcmp key_a key_b KYBER_SSBYTES ;;
  c <- test (negb (d =? 0)) ;;
  if (c : bool) then ret (1, s) else ret (0, s).

(** test_kyber.c:34-60 *)
Definition test_invalid_sk_a (JJ : nat -> Junk) (s : S) : res (Z * S) :=
  '(pk, sk, _, s) <- keypair_with (JJ 1%nat) s (pk_ (JJ 0%nat)) (sk_ (JJ 0%nat)) ;;
  '(ct, key_b, _, s) <- enc_with (JJ 2%nat) s (ct_ (JJ 0%nat)) (ss_ (JJ 0%nat)) pk ;;
  '(sk, s) <- rb s sk 0 (KYBER_SECRETKEYBYTES lv) ;;
  '(key_a, _) <- dec_of V (JJ 3%nat) lv fuel (ss_ (JJ 0%nat)) ct sk ;;
  d <- memcmp key_a key_b KYBER_SSBYTES ;;
  c <- test (d =? 0) ;;
  if (c : bool) then ret (1, s) else ret (0, s).

(** test_kyber.c:72-74: do randombytes(&b, 1); while(!b) *)
Fixpoint draw_nonzero (n : nat) (s : S) (b : list Z) : res (Z * S) :=
  match n with
  | O => Timeout
  | Datatypes.S n' =>
      '(b, s) <- rb s b 0 1%nat ;;
      x <- aget b 0 ;;
      c <- test (x =? 0) ;;
      if (c : bool) then draw_nonzero n' s b else ret (x, s)
  end.
(** The value of a size_t stored in 8 bytes, little endian *)
Fixpoint le_value (l : list Z) : Z := match l with [] => 0 | b :: l => b + 256 * le_value l end.
(** test_kyber.c:62-97; [tries] bounds the do loop *)
Definition test_invalid_ciphertext (tries : nat) (JJ : nat -> Junk) (s : S) : res (Z * S) :=
  '(b, s) <- draw_nonzero tries s (@local (JJ 0%nat) 1) ;;
  '(p, s) <- rb s (@local (JJ 0%nat) 8) 0 8%nat ;;
  let pos := le_value p in
  '(pk, sk, _, s) <- keypair_with (JJ 1%nat) s (pk_ (JJ 0%nat)) (sk_ (JJ 0%nat)) ;;
  '(ct, key_b, _, s) <- enc_with (JJ 2%nat) s (ct_ (JJ 0%nat)) (ss_ (JJ 0%nat)) pk ;;
  let i := Z.to_nat (pos mod Z.of_nat (KYBER_CIPHERTEXTBYTES lv)) in
  x <- aget ct i ;;
  ct <- aset ct i (u8 (Z.lxor x b)) ;;
  '(key_a, _) <- dec_of V (JJ 3%nat) lv fuel (ss_ (JJ 0%nat)) ct sk ;;
  d <- memcmp key_a key_b KYBER_SSBYTES ;;
  c <- test (d =? 0) ;;
  if (c : bool) then ret (1, s) else ret (0, s).

(** test_kyber.c:99-116 up to the final printf calls, [n] of the NTESTS rounds
    left; returns the exit status *)
Fixpoint test_kyber_main (tries : nat) (n : nat) (JJ : nat -> nat -> nat -> Junk) (s : S) : res (Z * S) :=
  match n with
  | O => _ <- test false ;; ret (0, s)
  | Datatypes.S n' =>
      _ <- test true ;;
      '(r, s) <- test_keys (JJ n 0%nat) s ;;
      '(r', s) <- test_invalid_sk_a (JJ n 1%nat) s ;;
      let r := Z.lor r r' in
      '(r', s) <- test_invalid_ciphertext tries (JJ n 2%nat) s ;;
      let r := Z.lor r r' in
      c <- test (negb (r =? 0)) ;;
      if (c : bool) then ret (1, s) else test_kyber_main tries n' JJ s
  end.

(** ** test_vectors.c *)
(** printf of a label, the bytes in hexadecimal, a newline *)
Definition print_line (label : string) (l : list Z) : list Z := str label ++ flat_map hex_lower l ++ [newline].
(** test_vectors.c:60-65 *)
Fixpoint compare_keys (n j : nat) (a b : list Z) : res bool :=
  match n with
  | O => _ <- test false ;; ret true
  | Datatypes.S n' =>
      _ <- test true ;;
      x <- aget a j ;; y <- aget b j ;;
      c <- test (negb (x =? y)) ;;
      if (c : bool) then ret false else compare_keys n' (Datatypes.S j) a b
  end.
(** test_vectors.c:33-78, [n] of the NTESTS rounds left.  The arrays live across
    the rounds.  Returns (stdout, exit status, state). *)
Fixpoint test_vectors_loop (n : nat) (JJ : nat -> nat -> Junk) (s : S) (pk sk ct key_a key_b : list Z)
  : res (list Z * Z * S) :=
  match n with
  | O => _ <- test false ;; ret ([], 0, s)
  | Datatypes.S n' =>
      _ <- test true ;;
      '(pk, sk, _, s) <- keypair_with (JJ n 0%nat) s pk sk ;;
      let out := print_line "Public Key: " pk ++ print_line "Secret Key: " sk in
      '(ct, key_b, _, s) <- enc_with (JJ n 1%nat) s ct key_b pk ;;
      let out := out ++ print_line "Ciphertext: " ct ++ print_line "Shared Secret B: " key_b in
      '(key_a, _) <- dec_of V (JJ n 2%nat) lv fuel key_a ct sk ;;
      let out := out ++ print_line "Shared Secret A: " key_a in
      same <- compare_keys KYBER_SSBYTES 0 key_a key_b ;;
      if negb same then ret (out, -1, s)
      else
        '(ct, s) <- rb s ct 0 (KYBER_CIPHERTEXTBYTES lv) ;;
        '(key_a, _) <- dec_of V (JJ n 3%nat) lv fuel key_a ct sk ;;
        let out := out ++ print_line "Pseudorandom shared Secret A: " key_a in
        '(rest, r, s) <- test_vectors_loop n' JJ s pk sk ct key_a key_b ;;
        ret (out ++ rest, r, s)
  end.
Definition test_vectors_main (ntests : nat) (JJ : nat -> nat -> Junk) (s : S) : res (list Z * Z * S) :=
  test_vectors_loop ntests JJ s (pk_ (JJ 0%nat 0%nat)) (sk_ (JJ 0%nat 0%nat)) (ct_ (JJ 0%nat 0%nat))
    (ss_ (JJ 0%nat 0%nat)) (ss_ (JJ 0%nat 0%nat)).
End Programs.

(** test_vectors.c:14-21: the deterministic randombytes *)
Definition rngstate : keccak_state :=
  KState [0x1F; 0; 0; 0; 0; 0; 0; 0; 0; 0; 0; 0; 0; 0; 0; 0; 0; 0; 0; 0; Z.shiftl 1 63; 0; 0; 0; 0] SHAKE128_RATE.
Definition shake_randombytes (st : keccak_state) (x : list Z) (xo xlen : nat) : res (list Z * keccak_state) :=
  shake_squeeze SHAKE128_RATE x xo xlen st.
