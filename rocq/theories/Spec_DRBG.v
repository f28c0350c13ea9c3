(** * CTR_DRBG of NIST SP 800-90A (10.2.1, without derivation function,
    AES-256: keylen 32, blocklen 16, seedlen 48), and the NIST seed expander.
    The block cipher is a parameter. *)
From Coq Require Import ZArith List.
Import ListNotations.
Open Scope Z_scope.

(** Big-endian numbers *)
Definition be_value (l : list Z) : Z := fold_left (fun a b => 256 * a + b) l 0.
Fixpoint be_bytes (n : nat) (x : Z) : list Z :=
  match n with
  | O => []
  | S n' => be_bytes n' (x / 256) ++ [x mod 256]
  end.
Definition xor_bytes (a b : list Z) : list Z := map (fun p => Z.lxor (fst p) (snd p)) (combine a b).

(** The block cipher: key (32 bytes), block (16 bytes) *)
Definition cipher := list Z -> list Z -> list Z.

(** Working state (Key, V), V a number below 2^128 *)
Definition drbg := (list Z * Z)%type.
(** Encryptions of V + 1, ..., V + m *)
Definition ctr_blocks (E : cipher) (key : list Z) (v : Z) (m : nat) : list Z :=
  flat_map (fun i => E key (be_bytes 16 ((v + Z.of_nat i) mod 2 ^ 128))) (seq 1 m).
(** CTR_DRBG_Update, 10.2.1.2 *)
Definition CTR_DRBG_Update (E : cipher) (provided : list Z) (st : drbg) : drbg :=
  let temp := xor_bytes (ctr_blocks E (fst st) (snd st) 3) provided in
  (firstn 32 temp, be_value (skipn 32 temp)).
(** CTR_DRBG_Instantiate, 10.2.1.3.1 *)
Definition CTR_DRBG_Instantiate (E : cipher) (entropy personalization : list Z) : drbg :=
  CTR_DRBG_Update E (xor_bytes entropy personalization) (repeat 0 32, 0).
(** CTR_DRBG_Generate without additional input, 10.2.1.5.1 *)
Definition CTR_DRBG_Generate (E : cipher) (n : nat) (st : drbg) : list Z * drbg :=
  let m := ((n + 15) / 16)%nat in
  (firstn n (ctr_blocks E (fst st) (snd st) m),
   CTR_DRBG_Update E (repeat 0 48) (fst st, (snd st + Z.of_nat m) mod 2 ^ 128)).

(** The seed expander: byte [j] of the stream for a seed, a diversifier and a
    maximal length is in counter block j / 16. *)
Definition expander_byte (E : cipher) (seed diversifier : list Z) (maxlen : Z) (j : nat) : Z :=
  nth (j mod 16) (E seed (diversifier ++ be_bytes 4 maxlen ++ be_bytes 4 (Z.of_nat (j / 16)))) 0.
