(** * C10-C13: SHA-3 and SHAKE *)
From Coq Require Import ZArith List.
From Verif Require Import CMonad Model_Params Model_Fips202 Spec_FIPS202 Vocab Vocab_Code Cases Proof_PropHash.
Import ListNotations.
Open Scope Z_scope.
Open Scope cmonad_scope.
Local Opaque SHA3_256 SHA3_512 SHAKE128 SHAKE256.

(** ** C10: the one-shot functions.  The output goes to the middle of a larger
    object, the input comes from the middle of another; nothing else changes. *)

Theorem C10_sha3_256 : forall (JJ : Junk) pre old post ipre msg ipost,
  all_bytes (ipre ++ msg ++ ipost) ->
  length old = 32%nat ->
  exists T, sha3_256 (pre ++ old ++ post) (length pre) (ipre ++ msg ++ ipost) (length ipre) (length msg)
            = Ok (pre ++ SHA3_256 msg ++ post) T.
Proof. exact sha3_256_fips202. Qed.
Print Assumptions C10_sha3_256.

Theorem C10_sha3_512 : forall (JJ : Junk) pre old post ipre msg ipost,
  all_bytes (ipre ++ msg ++ ipost) ->
  length old = 64%nat ->
  exists T, sha3_512 (pre ++ old ++ post) (length pre) (ipre ++ msg ++ ipost) (length ipre) (length msg)
            = Ok (pre ++ SHA3_512 msg ++ post) T.
Proof. exact sha3_512_fips202. Qed.
Print Assumptions C10_sha3_512.

Theorem C10_shake128 : forall (JJ : Junk) pre old post ipre msg ipost,
  all_bytes (ipre ++ msg ++ ipost) ->
  exists T, shake128 (pre ++ old ++ post) (length pre) (length old) (ipre ++ msg ++ ipost) (length ipre) (length msg)
            = Ok (pre ++ SHAKE128 msg (length old) ++ post) T.
Proof. exact shake128_fips202. Qed.
Print Assumptions C10_shake128.

Theorem C10_shake256 : forall (JJ : Junk) pre old post ipre msg ipost,
  all_bytes (ipre ++ msg ++ ipost) ->
  exists T, shake256 (pre ++ old ++ post) (length pre) (length old) (ipre ++ msg ++ ipost) (length ipre) (length msg)
            = Ok (pre ++ SHAKE256 msg (length old) ++ post) T.
Proof. exact shake256_fips202. Qed.
Print Assumptions C10_shake256.

Example C10_case : all_bytes (some_bytes 3 ++ some_bytes 500 ++ some_bytes 7) /\
  length (repeat 0 32) = 32%nat /\ length (repeat 0 64) = 64%nat.
Proof. split; [apply ctx_bytes|]. split; reflexivity. Qed.

(** ** C11: the permutation *)

Theorem C11_keccak_permutation : forall s,
  lane_list s ->
  exists s' T, KeccakF1600_StatePermute s = Ok s' T /\ lane_list s' /\ state_bits s' = keccak_f (state_bits s).
Proof. exact keccak_permutation. Qed.
Print Assumptions C11_keccak_permutation.

Example C11_case : lane_list some_lanes.
Proof. exact some_lanes_ok. Qed.

(** ** C12 and C13: any sequence of absorb calls, then any sequence of squeeze calls *)

Theorem C12_shake128_session : forall chunks bufs st,
  length (ks st) = 25%nat -> all_bytes (concat chunks) ->
  exists outs st' T, (st <- absorb_session SHAKE128_RATE st chunks ;; squeeze_chunks SHAKE128_RATE st bufs) = Ok (outs, st') T /\
    map (@length Z) outs = map (@length Z) bufs /\ concat outs = SHAKE128 (concat chunks) (length (concat bufs)).
Proof. exact shake128_session. Qed.
Print Assumptions C12_shake128_session.

Theorem C12_shake256_session : forall chunks bufs st,
  length (ks st) = 25%nat -> all_bytes (concat chunks) ->
  exists outs st' T, (st <- absorb_session SHAKE256_RATE st chunks ;; squeeze_chunks SHAKE256_RATE st bufs) = Ok (outs, st') T /\
    map (@length Z) outs = map (@length Z) bufs /\ concat outs = SHAKE256 (concat chunks) (length (concat bufs)).
Proof. exact shake256_session. Qed.
Print Assumptions C12_shake256_session.

Theorem C12_chunking_irrelevant_128 : forall chunks1 chunks2 st1 st2 bufs,
  length (ks st1) = 25%nat -> length (ks st2) = 25%nat ->
  all_bytes (concat chunks1) -> concat chunks1 = concat chunks2 ->
  exists outs s1 T1 s2 T2,
    (st <- absorb_session SHAKE128_RATE st1 chunks1 ;; squeeze_chunks SHAKE128_RATE st bufs) = Ok (outs, s1) T1 /\
    (st <- absorb_session SHAKE128_RATE st2 chunks2 ;; squeeze_chunks SHAKE128_RATE st bufs) = Ok (outs, s2) T2.
Proof. exact chunking_irrelevant_128. Qed.
Print Assumptions C12_chunking_irrelevant_128.

Theorem C12_chunking_irrelevant_256 : forall chunks1 chunks2 st1 st2 bufs,
  length (ks st1) = 25%nat -> length (ks st2) = 25%nat ->
  all_bytes (concat chunks1) -> concat chunks1 = concat chunks2 ->
  exists outs s1 T1 s2 T2,
    (st <- absorb_session SHAKE256_RATE st1 chunks1 ;; squeeze_chunks SHAKE256_RATE st bufs) = Ok (outs, s1) T1 /\
    (st <- absorb_session SHAKE256_RATE st2 chunks2 ;; squeeze_chunks SHAKE256_RATE st bufs) = Ok (outs, s2) T2.
Proof. exact chunking_irrelevant_256. Qed.
Print Assumptions C12_chunking_irrelevant_256.

Example C12_case :
  all_bytes (concat [some_bytes 3; []; some_bytes 168; some_bytes 200]) /\
  concat [some_bytes 3; []; some_bytes 168; some_bytes 200] = concat [some_bytes 3 ++ some_bytes 168; some_bytes 200].
Proof.
  split; [|cbn [concat]; now rewrite !app_nil_l, !app_nil_r, <- app_assoc].
  cbn [concat]. rewrite app_nil_l, app_nil_r. apply ctx_bytes.
Qed.

Theorem C13_shake128_blocks : forall ipre msg ipost st out nb,
  length (ks st) = 25%nat ->
  all_bytes (ipre ++ msg ++ ipost) -> length out = (nb * SHAKE128_RATE)%nat ->
  exists st' T, (st <- shake128_absorb_once st (ipre ++ msg ++ ipost) (length ipre) (length msg) ;;
                 shake128_squeezeblocks out 0 nb st) = Ok (SHAKE128 msg (nb * SHAKE128_RATE), st') T.
Proof. exact shake128_blocks. Qed.
Print Assumptions C13_shake128_blocks.

Theorem C13_shake256_blocks : forall ipre msg ipost st out nb,
  length (ks st) = 25%nat ->
  all_bytes (ipre ++ msg ++ ipost) -> length out = (nb * SHAKE256_RATE)%nat ->
  exists st' T, (st <- shake256_absorb_once st (ipre ++ msg ++ ipost) (length ipre) (length msg) ;;
                 shake256_squeezeblocks out 0 nb st) = Ok (SHAKE256 msg (nb * SHAKE256_RATE), st') T.
Proof. exact shake256_blocks. Qed.
Print Assumptions C13_shake256_blocks.

Theorem C13_prefix : forall M m n,
  (m <= n)%nat ->
  firstn m (SHAKE128 M n) = SHAKE128 M m /\ firstn m (SHAKE256 M n) = SHAKE256 M m.
Proof. exact shake_prefix. Qed.
Print Assumptions C13_prefix.

Example C13_case : all_bytes (some_bytes 3 ++ some_bytes 34 ++ some_bytes 7) /\
  length (repeat 0 (3 * SHAKE128_RATE)) = (3 * SHAKE128_RATE)%nat.
Proof. split; [apply ctx_bytes|apply repeat_length]. Qed.
