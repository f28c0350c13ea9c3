(** * C56 and C57: the test programs *)
From Coq Require Import ZArith List String.
From Verif Require Import CMonad Levels Model_Params Model_Randombytes Model_Kem Spec_FIPS202 Spec_FIPS203 Spec_Noise Vocab Vocab_Code Vocab_Avx Vocab_Rng
  Vocab_Bind Model_Tests Vocab_Tests Run_Kem Proof_Tests Proof_PropTests.
Import ListNotations.
Open Scope Z_scope.
Local Opaque SHA3_256 SHA3_512 SHAKE128 SHAKE256.
Local Opaque crypto_kem_keypair_derand crypto_kem_enc_derand crypto_kem_dec.

(** ** C56: test_kyber.c *)

(** On any source of random bytes, either variant, whatever is on the stack: no
    undefined behaviour, and the exit status is that of [test_run] *)
Theorem C56_run : forall {S} (rb : S -> list Z -> nat -> nat -> res (list Z * S)) f R V lv fuel tries JJ n p s,
  stream_source rb f R -> (forall lens, test_requests lv f p n lens -> R lens p s) ->
  safely (test_kyber_main rb V lv fuel tries n JJ s) (fun v => test_run lv f p n (fst v)).
Proof. intros S rb f R V lv fuel tries JJ n p s HS HR. exact (test_kyber_safe rb f R HS V lv fuel tries JJ n p s HR). Qed.
Print Assumptions C56_run.

(** ... and every exit status of [test_run] is reached, if the source does not fail *)
Theorem C56_complete : forall {S} (rb : S -> list Z -> nat -> nat -> res (list Z * S)) f R V lv p n r,
  total_source rb f R -> (forall j, 0 <= f j < 256) -> test_run lv f p n r ->
  exists fuel0 tries0, forall fuel tries JJ s, (fuel0 <= fuel)%nat -> (tries0 <= tries)%nat ->
    (forall lens, test_requests lv f p n lens -> R lens p s) ->
    exists s', yields (test_kyber_main rb V lv fuel tries n JJ s) (r, s').
Proof. exact @test_kyber_total. Qed.
Print Assumptions C56_complete.

(** randombytes.c on any kernel is such a source, and the one of kem.c *)
Theorem C56_linux : forall sched, stream_source randombytes (kernel_stream sched) (kernel_at sched) /\
  forall (JJ : Junk) lv fuel s pk sk ct ss,
    keypair_with randombytes Reference lv fuel JJ s pk sk = crypto_kem_keypair lv fuel s pk sk /\
    enc_with randombytes Reference lv fuel JJ s ct ss pk = crypto_kem_enc lv fuel s ct ss pk.
Proof. intros sched. split; [exact (linux_source sched)|]. intros JJ lv fuel s pk sk ct ss. exact (conj (linux_keypair JJ lv fuel s pk sk) (linux_enc JJ lv fuel s ct ss pk)). Qed.
Print Assumptions C56_linux.

(** A nonzero exit status comes from one of the three tests *)
Theorem C56_exit : forall lv f p n r, test_run lv f p n r ->
  r = 0 \/ r = 1 /\ exists q i, keys_result lv f q 1 \/ sk_result lv f q 1 \/ ct_result lv f q i 1.
Proof. exact exit_status. Qed.
Print Assumptions C56_exit.

(** test_keys fails only if the noise does not decode *)
Theorem C56_keys : forall lv f, (forall j, 0 <= f j < 256) -> forall p r, keys_result lv f p r ->
  let d := piece f p 32 in
  let m := piece f (p + 64) 32 in
  r = 0 \/ r = 1 /\ exists ek dk A, KeyGen_internal (PS lv) d (piece f (p + 32) 32) ek dk /\
    is_matrix (PS lv) (keygen_rho (PS lv) d) A /\
    ~ noise_decodes m (decryption_noise (PS lv) A d m (skipn 32 (SHA3_512 (m ++ SHA3_256 ek)))).
Proof. exact keys_failure. Qed.
Print Assumptions C56_keys.

(** test_invalid_sk_a fails only if two named hash values are equal *)
Theorem C56_sk : forall lv f, (forall j, 0 <= f j < 256) -> forall p r, sk_result lv f p r ->
  let q := (p + 96)%nat in
  let s := piece f q (384 * k (PS lv)) in
  let h := piece f (q + 768 * k (PS lv) + 32) 32 in
  let z := piece f (q + 768 * k (PS lv) + 64) 32 in
  let m := piece f (p + 64) 32 in
  r = 0 \/ r = 1 /\ exists ek dk K c, exchange_at lv f p ek dk K c /\
    (accept_key (K_PKE_Decrypt (PS lv) s c ++ h) = accept_key (m ++ SHA3_256 ek) \/ reject_key (z ++ c) = accept_key (m ++ SHA3_256 ek)).
Proof. exact sk_failure. Qed.
Print Assumptions C56_sk.

(** test_invalid_ciphertext: a collision, or a rejection value equal to the accepted one *)
Theorem C56_ct : forall lv f, (forall j, 0 <= f j < 256) -> forall p i r, ct_result lv f p i r ->
  let q := (p + i + 9)%nat in
  let m := piece f (q + 64) 32 in
  let z := piece f (q + 32) 32 in
  r = 0 \/ r = 1 /\ exists ek s K c c', exchange_at lv f q ek (s ++ ek ++ SHA3_256 ek ++ z) K c /\
    List.length s = (384 * k (PS lv))%nat /\ c' <> c /\
    flipped c (Z.to_nat (position_at f (p + i + 1) mod Z.of_nat (ctbytes lv))) (f (p + i)%nat) c' /\
    (collide accept_key (m ++ SHA3_256 ek) (K_PKE_Decrypt (PS lv) s c' ++ SHA3_256 ek) \/ accept_key (m ++ SHA3_256 ek) = reject_key (z ++ c')).
Proof. exact ct_failure. Qed.
Print Assumptions C56_ct.

(** One round on a stream that has a zero byte before the mask: both variants end, with the same status *)
Example C56_case : forall V, exists r fuel0 tries0, test_run Kyber512 demo_stream 0 1 r /\
  forall fuel tries JJ, (fuel0 <= fuel)%nat -> (tries0 <= tries)%nat ->
    exists s', yields (test_kyber_main (scripted demo_stream) V Kyber512 fuel tries 1 JJ 0%nat) (r, s').
Proof. exact case_test_kyber. Qed.
(** A kernel that delivers the key bytes in two pieces around an interruption *)
Example C56_linux_case : kernel_at [Delivered demo_d; Interrupted; Delivered demo_z; Delivered demo_m] [64; 32]%nat 0
  [Delivered demo_d; Interrupted; Delivered demo_z; Delivered demo_m].
Proof. exact case_linux. Qed.

(** ** C57: test_vectors.c *)

(** With its own randombytes: what is printed, and the exit status *)
Theorem C57_output : forall V lv fuel n JJ,
  safely (test_vectors_main shake_randombytes V lv fuel n JJ rngstate)
    (fun v => let '(out, r, _) := v in vectors lv shake_stream 0 n out r).
Proof. exact shake_vectors_safe. Qed.
Print Assumptions C57_output.

Theorem C57_complete : forall V lv n out r, vectors lv shake_stream 0 n out r ->
  exists fuel0, forall fuel JJ, (fuel0 <= fuel)%nat ->
    exists s', yields (test_vectors_main shake_randombytes V lv fuel n JJ rngstate) (out, r, s').
Proof. exact shake_vectors_total. Qed.
Print Assumptions C57_complete.

(** The reference and the AVX2 program print the same vectors *)
Theorem C57_same : forall V1 V2 lv f1 f2 n J1 J2 v1 v2,
  yields (test_vectors_main shake_randombytes V1 lv f1 n J1 rngstate) v1 ->
  yields (test_vectors_main shake_randombytes V2 lv f2 n J2 rngstate) v2 -> fst v1 = fst v2.
Proof. exact shake_vectors_same. Qed.
Print Assumptions C57_same.

(** With any other source *)
Theorem C57_any_source : forall {S} (rb : S -> list Z -> nat -> nat -> res (list Z * S)) f R V lv p n,
  (stream_source rb f R -> forall fuel JJ s, R (vectors_requests lv n) p s ->
     safely (test_vectors_main rb V lv fuel n JJ s) (fun v => let '(out, r, _) := v in vectors lv f p n out r)) /\
  (total_source rb f R -> (forall j, 0 <= f j < 256) -> forall out r, vectors lv f p n out r ->
     exists fuel0, forall fuel JJ s, (fuel0 <= fuel)%nat -> R (vectors_requests lv n) p s ->
       exists s', yields (test_vectors_main rb V lv fuel n JJ s) (out, r, s')).
Proof.
  intros S rb f R V lv p n. split.
  - intros HS fuel JJ s HR. exact (test_vectors_safe rb f R V lv fuel n JJ p s HS HR).
  - intros HT HB out r HV. exact (test_vectors_total rb f R V lv p n out r HT HB HV).
Qed.
Print Assumptions C57_any_source.

Example C57_case : forall V, exists ek dk K c K2 fuel0,
  let out := dump "Public Key: " ek ++ dump "Secret Key: " dk ++ dump "Ciphertext: " c ++ dump "Shared Secret B: " K ++
    dump "Shared Secret A: " K ++ dump "Pseudorandom shared Secret A: " K2 ++ [] in
  Decaps_internal (PS Kyber512) dk (repeat 9 768) K2 /\
  vectors Kyber512 demo_script 0 1 out 0 /\
  forall fuel JJ, (fuel0 <= fuel)%nat -> exists s', yields (test_vectors_main (scripted demo_script) V Kyber512 fuel 1 JJ 0%nat) (out, 0, s').
Proof. exact case_vectors. Qed.
(** The printed form *)
Example C57_line_case : dump "Ciphertext: " [0; 10; 255] = text "Ciphertext: 000aff" ++ [10].
Proof. vm_compute. reflexivity. Qed.
