(** * C71: lemmas behind the theorems of Prop_Width.v *)
From Coq Require Import ZArith List Lia.
From Verif Require Import CMonad Model_Params Model_Fips202 Model_Fips202Width Spec_FIPS202 Vocab Vocab_Code Vocab_Buffers Proof_PropHash Proof_Width.
Import ListNotations.
Open Scope Z_scope.
Open Scope cmonad_scope.
Local Opaque SHA3_256 SHA3_512 SHAKE128 SHAKE256.

Lemma width_sha3_256 : forall (JJ : Junk) fuel pre old post ipre msg ipost,
  all_bytes (ipre ++ msg ++ ipost) -> length old = 32%nat -> Z.of_nat (length msg) < 2 ^ 64 -> (length msg + 200 <= fuel)%nat ->
  exists T, sha3_256_w fuel (pre ++ old ++ post) (length pre) (ipre ++ msg ++ ipost) (length ipre) (Z.of_nat (length msg)) = Ok (pre ++ SHA3_256 msg ++ post) T.
Proof.
  intros JJ fuel pre old post ipre msg ipost Hb Ho Hm Hf. destruct (sha3_256_fips202 JJ pre old post ipre msg ipost Hb Ho) as (T & E). exists T. rewrite <- E.
  unfold sha3_256_w. change 136 with (Z.of_nat 136). change 4 with (Z.of_nat 4). rewrite sha3_whole_w by lia. reflexivity.
Qed.
Lemma width_sha3_512 : forall (JJ : Junk) fuel pre old post ipre msg ipost,
  all_bytes (ipre ++ msg ++ ipost) -> length old = 64%nat -> Z.of_nat (length msg) < 2 ^ 64 -> (length msg + 200 <= fuel)%nat ->
  exists T, sha3_512_w fuel (pre ++ old ++ post) (length pre) (ipre ++ msg ++ ipost) (length ipre) (Z.of_nat (length msg)) = Ok (pre ++ SHA3_512 msg ++ post) T.
Proof.
  intros JJ fuel pre old post ipre msg ipost Hb Ho Hm Hf. destruct (sha3_512_fips202 JJ pre old post ipre msg ipost Hb Ho) as (T & E). exists T. rewrite <- E.
  unfold sha3_512_w. change 72 with (Z.of_nat 72). change 8 with (Z.of_nat 8). rewrite sha3_whole_w by lia. reflexivity.
Qed.
Lemma width_shake128 : forall (JJ : Junk) fuel pre old post ipre msg ipost,
  all_bytes (ipre ++ msg ++ ipost) -> Z.of_nat (length old) < 2 ^ 64 -> Z.of_nat (length msg) < 2 ^ 64 -> (length old + length msg + 200 <= fuel)%nat ->
  exists T, shake128_w fuel (pre ++ old ++ post) (length pre) (Z.of_nat (length old)) (ipre ++ msg ++ ipost) (length ipre) (Z.of_nat (length msg))
            = Ok (pre ++ SHAKE128 msg (length old) ++ post) T.
Proof.
  intros JJ fuel pre old post ipre msg ipost Hb Ho Hm Hf. destruct (shake128_fips202 JJ pre old post ipre msg ipost Hb) as (T & E). exists T. rewrite <- E.
  unfold shake128_w. change 168 with (Z.of_nat 168). rewrite shake_whole_w by lia. reflexivity.
Qed.
Lemma width_shake256 : forall (JJ : Junk) fuel pre old post ipre msg ipost,
  all_bytes (ipre ++ msg ++ ipost) -> Z.of_nat (length old) < 2 ^ 64 -> Z.of_nat (length msg) < 2 ^ 64 -> (length old + length msg + 200 <= fuel)%nat ->
  exists T, shake256_w fuel (pre ++ old ++ post) (length pre) (Z.of_nat (length old)) (ipre ++ msg ++ ipost) (length ipre) (Z.of_nat (length msg))
            = Ok (pre ++ SHAKE256 msg (length old) ++ post) T.
Proof.
  intros JJ fuel pre old post ipre msg ipost Hb Ho Hm Hf. destruct (shake256_fips202 JJ pre old post ipre msg ipost Hb) as (T & E). exists T. rewrite <- E.
  unfold shake256_w. change 136 with (Z.of_nat 136). rewrite shake_whole_w by lia. reflexivity.
Qed.

Lemma width_absorb : forall fuel s pos r inp io inlen,
  (pos <= r)%nat -> (0 < r)%nat -> Z.of_nat r < 2 ^ 32 -> Z.of_nat pos + Z.of_nat inlen < 2 ^ 64 -> (inlen + r + 2 <= fuel)%nat ->
  keccak_absorb_w fuel s (Z.of_nat pos) (Z.of_nat r) inp io (Z.of_nat inlen) =
  with_value (fun '(s, p) => (s, Z.of_nat p)) (keccak_absorb s pos r inp io inlen).
Proof. intros. apply absorb_w; lia. Qed.
Lemma width_squeeze : forall fuel out oo outlen s pos r,
  (pos <= r)%nat -> (0 < r)%nat -> Z.of_nat r < 2 ^ 32 -> Z.of_nat outlen < 2 ^ 64 -> pos = r \/ Z.of_nat pos + Z.of_nat outlen < 2 ^ 64 ->
  (outlen + r + 2 <= fuel)%nat ->
  keccak_squeeze_w fuel out oo (Z.of_nat outlen) s (Z.of_nat pos) (Z.of_nat r) =
  with_value (fun '(x, p) => (x, Z.of_nat p)) (keccak_squeeze out oo outlen s pos r).
Proof. intros. apply squeeze_w; lia. Qed.
