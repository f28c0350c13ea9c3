(** * C66: key generation with overlapping buffers *)
From Coq Require Import ZArith List.
From Verif Require Import CMonad Levels Model_Params Model_Kem Model_SharedKey Vocab Vocab_Rng Vocab_Buffers Vocab_Overlap Run_Kem Proof_PropSharedKey.
Import ListNotations.
Open Scope Z_scope.

(** If pk, sk and the second half of the coins do not overlap, everything is as with separate buffers. *)
Theorem C66_separate : forall (JJ : Junk) lv fuel mem po sko co,
  all_bytes mem ->
  (po + KYBER_PUBLICKEYBYTES lv <= length mem)%nat -> (sko + KYBER_SECRETKEYBYTES lv <= length mem)%nat -> (co + 64 <= length mem)%nat ->
  apart po (KYBER_PUBLICKEYBYTES lv) sko (KYBER_SECRETKEYBYTES lv) ->
  apart (co + 32) 32 po (KYBER_PUBLICKEYBYTES lv) -> apart (co + 32) 32 sko (KYBER_SECRETKEYBYTES lv) ->
  same_result (crypto_kem_keypair_derand_shared lv fuel mem po sko co)
    (with_value (fun '(ek, dk, r) => (overwrite (overwrite mem po ek) sko dk, r))
       (crypto_kem_keypair_derand lv fuel (region mem po (KYBER_PUBLICKEYBYTES lv)) (region mem sko (KYBER_SECRETKEYBYTES lv)) (region mem co 64))).
Proof. exact @shared_separate. Qed.
Print Assumptions C66_separate.

(** Wherever the coins are, if the run is defined, z is what the finished memory holds in their second half. *)
Theorem C66_defined : forall (JJ : Junk) lv fuel mem po sko co,
  all_bytes mem ->
  (po + KYBER_PUBLICKEYBYTES lv <= length mem)%nat -> (sko + KYBER_SECRETKEYBYTES lv <= length mem)%nat -> (co + 64 <= length mem)%nat ->
  apart po (KYBER_PUBLICKEYBYTES lv) sko (KYBER_SECRETKEYBYTES lv) -> apart (co + 32) 32 (sko + (KYBER_SECRETKEYBYTES lv - 32)) 32 ->
  same_result (crypto_kem_keypair_derand_shared lv fuel mem po sko co)
    (with_value (fun '(ek, dk, r) =>
        let m := overwrite (overwrite mem po ek) sko dk in
        (overwrite m (sko + (KYBER_SECRETKEYBYTES lv - 32)) (region m (co + 32) 32), r))
       (crypto_kem_keypair_derand lv fuel (region mem po (KYBER_PUBLICKEYBYTES lv)) (region mem sko (KYBER_SECRETKEYBYTES lv)) (region mem co 64))).
Proof. exact @shared_defined. Qed.
Print Assumptions C66_defined.

(** Coins inside the public key: the secret z is a piece of the public key. *)
Theorem C66_coins_in_pk : forall (JJ : Junk) lv fuel mem po sko co,
  all_bytes mem ->
  (po + KYBER_PUBLICKEYBYTES lv <= length mem)%nat -> (sko + KYBER_SECRETKEYBYTES lv <= length mem)%nat -> (co + 64 <= length mem)%nat ->
  apart po (KYBER_PUBLICKEYBYTES lv) sko (KYBER_SECRETKEYBYTES lv) ->
  (po <= co + 32)%nat -> (co + 64 <= po + KYBER_PUBLICKEYBYTES lv)%nat ->
  same_result (crypto_kem_keypair_derand_shared lv fuel mem po sko co)
    (with_value (fun '(ek, dk, r) =>
        (overwrite (overwrite mem po ek) sko (firstn (KYBER_SECRETKEYBYTES lv - 32) dk ++ region ek (co + 32 - po) 32), r))
       (crypto_kem_keypair_derand lv fuel (region mem po (KYBER_PUBLICKEYBYTES lv)) (region mem sko (KYBER_SECRETKEYBYTES lv)) (region mem co 64))).
Proof. exact @shared_coins_in_pk. Qed.
Print Assumptions C66_coins_in_pk.

(** pk over its copy in sk, or the second half of the coins over z in sk: undefined behaviour *)
Theorem C66_undefined : forall (JJ : Junk) lv fuel mem po sko co v T,
  all_bytes mem ->
  (po + KYBER_PUBLICKEYBYTES lv <= length mem)%nat -> (sko + KYBER_SECRETKEYBYTES lv <= length mem)%nat -> (co + 64 <= length mem)%nat ->
  ~ apart po (KYBER_PUBLICKEYBYTES lv) (sko + KYBER_INDCPA_SECRETKEYBYTES lv) (KYBER_PUBLICKEYBYTES lv) \/
    ~ apart (co + 32) 32 (sko + (KYBER_SECRETKEYBYTES lv - 32)) 32 ->
  crypto_kem_keypair_derand lv fuel (region mem po (KYBER_PUBLICKEYBYTES lv)) (region mem sko (KYBER_SECRETKEYBYTES lv)) (region mem co 64) = Ok v T ->
  crypto_kem_keypair_derand_shared lv fuel mem po sko co = UB Overlap.
Proof. exact @shared_undefined. Qed.
Print Assumptions C66_undefined.

(** "The coins may lie in the public key" is false: the secret key comes out different. *)
Theorem C66_coins_anywhere_refuted : exists mem ek dk mem' T T', all_bytes mem /\ length mem = 2432%nat /\
  @crypto_kem_keypair_derand no_junk Kyber512 2 (region mem 0 800) (region mem 800 1632) (region mem 0 64) = Ok (ek, dk, 0) T /\
  @crypto_kem_keypair_derand_shared no_junk Kyber512 2 mem 0 800 0 = Ok (mem', 0) T' /\
  region mem' 0 800 = ek /\ region mem' 800 1632 <> dk.
Proof. exact harmless_refuted. Qed.
Print Assumptions C66_coins_anywhere_refuted.

Example C66_case : exists ek dk T1 T2,
  @crypto_kem_keypair_derand no_junk Kyber512 2 (repeat 0 800) (repeat 0 1632) (demo_d ++ demo_z) = Ok (ek, dk, 0) T1 /\
  @crypto_kem_keypair_derand_shared no_junk Kyber512 2 (repeat 0 2432 ++ demo_d ++ demo_z) 0 800 2432 = Ok (ek ++ dk ++ demo_d ++ demo_z, 0) T2 /\
  @crypto_kem_keypair_derand_shared no_junk Kyber512 2 (repeat 0 2432 ++ demo_d ++ demo_z) 800 0 2432 = UB Overlap /\
  @crypto_kem_keypair_derand_shared no_junk Kyber512 2 (repeat 0 2432 ++ demo_d ++ demo_z) 0 864 2432 = UB Overlap.
Proof. exact case_keypair. Qed.
