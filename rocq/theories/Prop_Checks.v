(** * C76: the input checks of FIPS 203 *)
From Coq Require Import ZArith List.
From Verif Require Import CMonad Levels Model_Params Model_Kem Model_AvxKem Spec_FIPS202 Spec_FIPS203 Spec_Checks Vocab Vocab_Code Vocab_Avx Vocab_Dist
  Cases Run_Kem Proof_Demo Proof_Cases Proof_Checks.
Import ListNotations.
Open Scope Z_scope.
Local Opaque SHA3_256 SHA3_512 SHAKE256.

(** A generated public key passes the type and modulus check, a generated secret key the type and hash check, and the
    secret vector stored in it is reduced too. *)
Theorem C76_keypair : forall V lv fuel (JJ : Junk) pk sk d z ek dk r T,
  length pk = KYBER_PUBLICKEYBYTES lv -> length sk = KYBER_SECRETKEYBYTES lv -> byte_array 32 d -> byte_array 32 z ->
  keypair_derand_of V JJ lv fuel pk sk (d ++ z) = Ok (ek, dk, r) T ->
  ek_check (PS lv) ek /\ dk_check (PS lv) dk /\ ek_check (PS lv) (firstn (384 * k (PS lv)) dk ++ keygen_rho (PS lv) d).
Proof. exact generated_checks. Qed.
Print Assumptions C76_keypair.

(** Every ciphertext, under whatever key, passes the type check of decapsulation. *)
Theorem C76_ciphertext : forall V lv fuel (JJ : Junk) ct ss pk m c K r T,
  length ct = KYBER_CIPHERTEXTBYTES lv -> length ss = 32%nat -> byte_array (KYBER_PUBLICKEYBYTES lv) pk -> byte_array 32 m ->
  enc_derand_of V JJ lv fuel ct ss pk m = Ok (c, K, r) T -> ct_check (PS lv) c.
Proof. exact generated_ct. Qed.
Print Assumptions C76_ciphertext.

(** The check accepts exactly the encodings of vectors over Z_q followed by any seed... *)
Theorem C76_meaning : forall lv ek, ek_check (PS lv) ek <->
  exists v rho, length v = k (PS lv) /\ (forall f, In f v -> length f = 256%nat /\ in_range 0 (q - 1) f) /\ byte_array 32 rho /\
    ek = flat_map (ByteEncode 12) v ++ rho.
Proof. exact ek_check_iff. Qed.
Print Assumptions C76_meaning.

(** ... of which there are q^(256k) 2^256 among the 256^(384k+32) byte strings the code accepts. *)
Theorem C76_count : forall lv, counted (ek_check (PS lv)) (q ^ (256 * Z.of_nat (k (PS lv))) * 2 ^ 256).
Proof. exact ek_count. Qed.
Print Assumptions C76_count.

(** Of the public keys the code treats as the same vector and seed (C30), at most one passes. *)
Theorem C76_unique : forall lv t t' rho,
  byte_array (384 * k (PS lv)) t -> byte_array (384 * k (PS lv)) t' -> byte_array 32 rho ->
  decode_vec (PS lv) 12 t = decode_vec (PS lv) 12 t' -> ek_check (PS lv) (t ++ rho) -> ek_check (PS lv) (t' ++ rho) -> t = t'.
Proof. exact check_unique. Qed.
Print Assumptions C76_unique.

(** A generated key, an encapsulation to it, and a public key that fails the check. *)
Example C76_case : exists s t c T1 T2 K,
  keypair_derand_of Reference no_junk Kyber512 2 (repeat 0 800) (repeat 0 1632) (demo_d ++ demo_z) = Ok (t ++ demo_rho, s ++ t ++ demo_rho ++ SHA3_256 (t ++ demo_rho) ++ demo_z, 0) T1 /\
  byte_array (KYBER_PUBLICKEYBYTES Kyber512) (t ++ demo_rho) /\
  enc_derand_of Reference no_junk Kyber512 2 (repeat 0 768) (repeat 0 32) (t ++ demo_rho) demo_m = Ok (c, K, 0) T2 /\
  ~ ek_check (PS Kyber512) (repeat 255 768 ++ demo_rho).
Proof. exact case_checks. Qed.
