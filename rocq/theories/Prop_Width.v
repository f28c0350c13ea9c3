(** * C71: the sponge functions with counters of the declared widths *)
From Coq Require Import ZArith List.
From Verif Require Import CMonad Model_Params Model_Fips202 Model_Fips202Width Spec_FIPS202 Vocab Vocab_Code Vocab_Buffers Cases Proof_Width Proof_PropWidth.
Import ListNotations.
Open Scope Z_scope.
Open Scope cmonad_scope.
Local Opaque SHA3_256 SHA3_512 SHAKE128 SHAKE256.

(** ** The one-shot functions are FIPS 202 for every length a size_t can hold *)

Theorem C71_sha3_256 : forall (JJ : Junk) fuel pre old post ipre msg ipost,
  all_bytes (ipre ++ msg ++ ipost) -> length old = 32%nat ->
  Z.of_nat (length msg) < 2 ^ 64 -> (length msg + 200 <= fuel)%nat ->
  exists T, sha3_256_w fuel (pre ++ old ++ post) (length pre) (ipre ++ msg ++ ipost) (length ipre) (Z.of_nat (length msg))
            = Ok (pre ++ SHA3_256 msg ++ post) T.
Proof. exact width_sha3_256. Qed.
Print Assumptions C71_sha3_256.

Theorem C71_sha3_512 : forall (JJ : Junk) fuel pre old post ipre msg ipost,
  all_bytes (ipre ++ msg ++ ipost) -> length old = 64%nat ->
  Z.of_nat (length msg) < 2 ^ 64 -> (length msg + 200 <= fuel)%nat ->
  exists T, sha3_512_w fuel (pre ++ old ++ post) (length pre) (ipre ++ msg ++ ipost) (length ipre) (Z.of_nat (length msg))
            = Ok (pre ++ SHA3_512 msg ++ post) T.
Proof. exact width_sha3_512. Qed.
Print Assumptions C71_sha3_512.

Theorem C71_shake128 : forall (JJ : Junk) fuel pre old post ipre msg ipost,
  all_bytes (ipre ++ msg ++ ipost) ->
  Z.of_nat (length old) < 2 ^ 64 -> Z.of_nat (length msg) < 2 ^ 64 -> (length old + length msg + 200 <= fuel)%nat ->
  exists T, shake128_w fuel (pre ++ old ++ post) (length pre) (Z.of_nat (length old))
                            (ipre ++ msg ++ ipost) (length ipre) (Z.of_nat (length msg))
            = Ok (pre ++ SHAKE128 msg (length old) ++ post) T.
Proof. exact width_shake128. Qed.
Print Assumptions C71_shake128.

Theorem C71_shake256 : forall (JJ : Junk) fuel pre old post ipre msg ipost,
  all_bytes (ipre ++ msg ++ ipost) ->
  Z.of_nat (length old) < 2 ^ 64 -> Z.of_nat (length msg) < 2 ^ 64 -> (length old + length msg + 200 <= fuel)%nat ->
  exists T, shake256_w fuel (pre ++ old ++ post) (length pre) (Z.of_nat (length old))
                            (ipre ++ msg ++ ipost) (length ipre) (Z.of_nat (length msg))
            = Ok (pre ++ SHAKE256 msg (length old) ++ post) T.
Proof. exact width_shake256. Qed.
Print Assumptions C71_shake256.

(** ** The incremental functions: as with unbounded counters while pos + inlen,
    respectively pos + outlen, fits a size_t ... *)

Theorem C71_absorb : forall fuel s pos r inp io inlen,
  (pos <= r)%nat -> (0 < r)%nat -> Z.of_nat r < 2 ^ 32 ->
  Z.of_nat pos + Z.of_nat inlen < 2 ^ 64 -> (inlen + r + 2 <= fuel)%nat ->
  keccak_absorb_w fuel s (Z.of_nat pos) (Z.of_nat r) inp io (Z.of_nat inlen) =
  with_value (fun '(s, p) => (s, Z.of_nat p)) (keccak_absorb s pos r inp io inlen).
Proof. exact width_absorb. Qed.
Print Assumptions C71_absorb.

Theorem C71_squeeze : forall fuel out oo outlen s pos r,
  (pos <= r)%nat -> (0 < r)%nat -> Z.of_nat r < 2 ^ 32 ->
  Z.of_nat outlen < 2 ^ 64 -> pos = r \/ Z.of_nat pos + Z.of_nat outlen < 2 ^ 64 -> (outlen + r + 2 <= fuel)%nat ->
  keccak_squeeze_w fuel out oo (Z.of_nat outlen) s (Z.of_nat pos) (Z.of_nat r) =
  with_value (fun '(x, p) => (x, Z.of_nat p)) (keccak_squeeze out oo outlen s pos r).
Proof. exact width_squeeze. Qed.
Print Assumptions C71_squeeze.

(** ** ... and nothing like it beyond: absorb drops the whole input, squeeze loops forever *)

Theorem C71_absorb_wraps : forall fuel s pos r inp io inlen,
  0 <= pos < r -> r < 2 ^ 32 -> 2 ^ 64 - pos <= inlen < 2 ^ 64 -> (0 < fuel)%nat ->
  exists T, keccak_absorb_w fuel s pos r inp io inlen = Ok (s, pos) T.
Proof. exact absorb_wraps. Qed.
Print Assumptions C71_absorb_wraps.

Theorem C71_squeeze_wraps : forall fuel out oo outlen s pos r,
  0 <= pos < r -> r < 2 ^ 32 -> 2 ^ 64 - pos <= outlen < 2 ^ 64 ->
  keccak_squeeze_w fuel out oo outlen s pos r = Timeout.
Proof. exact squeeze_wraps. Qed.
Print Assumptions C71_squeeze_wraps.

Example C71_case :
  (all_bytes (some_bytes 3 ++ some_bytes 500 ++ some_bytes 7) /\ Z.of_nat (length (some_bytes 500)) < 2 ^ 64) /\
  (0 <= 5 < 168 /\ 2 ^ 64 - 5 <= 2 ^ 64 - 1 < 2 ^ 64).
Proof. split; [split; [apply ctx_bytes|unfold some_bytes; rewrite map_length, seq_length; reflexivity]|split; split; try reflexivity; discriminate]. Qed.
