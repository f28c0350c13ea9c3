(** * C42-C43: four-way Keccak *)
From Coq Require Import ZArith List.
From Verif Require Import CMonad Model_Fips202 Model_AvxKeccak Model_AvxFips202x4 Spec_FIPS202 Vocab Vocab_Code Vocab_Four Cases Proof_PropAvxHash.
Import ListNotations.
Open Scope Z_scope.
Open Scope cmonad_scope.
Local Opaque SHA3_256 SHA3_512 SHAKE128 SHAKE256.

(** ** C42: the permutation.  One trace serves all states. *)

Theorem C42_permutation : exists T, forall (JJ : Junk) s0 s1 s2 s3,
  lane_list s0 -> lane_list s1 -> lane_list s2 -> lane_list s3 ->
  exists t0 t1 t2 t3,
    KeccakF1600_StatePermute4x (interleave s0 s1 s2 s3) = Ok (interleave t0 t1 t2 t3) T /\
    lane_list t0 /\ lane_list t1 /\ lane_list t2 /\ lane_list t3 /\
    state_bits t0 = keccak_f (state_bits s0) /\ state_bits t1 = keccak_f (state_bits s1) /\
    state_bits t2 = keccak_f (state_bits s2) /\ state_bits t3 = keccak_f (state_bits s3).
Proof. exact permute4x_fips202. Qed.
Print Assumptions C42_permutation.

Example C42_case : lane_list some_lanes /\ lane_list (map (fun x => Z.lxor x 1) some_lanes) /\
  nth 6 (interleave some_lanes (map (fun x => Z.lxor x 1) some_lanes) some_lanes some_lanes) [] =
  [nth 6 some_lanes 0; Z.lxor (nth 6 some_lanes 0) 1; nth 6 some_lanes 0; nth 6 some_lanes 0].
Proof.
  split; [exact some_lanes_ok|]. split; [|reflexivity]. exact some_lanes_xor_ok.
Qed.

(** ** C43: four SHAKE instances, one-shot and block by block *)

Theorem C43_shake128x4 : forall n outlen,
  exists T, forall (JJ : Junk) outs ins,
  buffers outlen outs -> buffers (n + slack8 n) ins ->
  shake128x4 outs outlen ins n = Ok (overwrite outs (map (fun b => SHAKE128 (firstn n b) outlen) ins)) T.
Proof. exact shake128x4_fips202. Qed.
Print Assumptions C43_shake128x4.

Theorem C43_shake256x4 : forall n outlen,
  exists T, forall (JJ : Junk) outs ins,
  buffers outlen outs -> buffers (n + slack8 n) ins ->
  shake256x4 outs outlen ins n = Ok (overwrite outs (map (fun b => SHAKE256 (firstn n b) outlen) ins)) T.
Proof. exact shake256x4_fips202. Qed.
Print Assumptions C43_shake256x4.

Theorem C43_shake128x4_blocks : forall n nb nb',
  exists T, forall (JJ : Junk) outs outs' ins state,
  length state = 25%nat -> buffers (SHAKE128_RATE * nb) outs -> buffers (SHAKE128_RATE * nb') outs' ->
  buffers (n + slack8 n) ins ->
  exists state',
  (state <- shake128x4_absorb_once state ins n ;;
   '(outs, state) <- shake128x4_squeezeblocks outs 0 nb state ;;
   '(outs', state) <- shake128x4_squeezeblocks outs' 0 nb' state ;;
   ret (outs, outs', state))
  = Ok (overwrite outs (map (fun b => SHAKE128 (firstn n b) (SHAKE128_RATE * nb)) ins),
        overwrite outs' (map (fun b => skipn (SHAKE128_RATE * nb)
                                (SHAKE128 (firstn n b) (SHAKE128_RATE * nb + SHAKE128_RATE * nb'))) ins), state')%nat T.
Proof. exact shake128x4_blocks. Qed.
Print Assumptions C43_shake128x4_blocks.

Theorem C43_shake256x4_blocks : forall n nb nb',
  exists T, forall (JJ : Junk) outs outs' ins state,
  length state = 25%nat -> buffers (SHAKE256_RATE * nb) outs -> buffers (SHAKE256_RATE * nb') outs' ->
  buffers (n + slack8 n) ins ->
  exists state',
  (state <- shake256x4_absorb_once state ins n ;;
   '(outs, state) <- shake256x4_squeezeblocks outs 0 nb state ;;
   '(outs', state) <- shake256x4_squeezeblocks outs' 0 nb' state ;;
   ret (outs, outs', state))
  = Ok (overwrite outs (map (fun b => SHAKE256 (firstn n b) (SHAKE256_RATE * nb)) ins),
        overwrite outs' (map (fun b => skipn (SHAKE256_RATE * nb)
                                (SHAKE256 (firstn n b) (SHAKE256_RATE * nb + SHAKE256_RATE * nb'))) ins), state')%nat T.
Proof. exact shake256x4_blocks. Qed.
Print Assumptions C43_shake256x4_blocks.

Theorem C43_slack_needed : exists ins, length ins = 4%nat /\ (forall b, In b ins -> byte_array 33 b) /\
  forall (JJ : Junk), exists u, shake256x4_absorb_once local_state4 ins 33 = UB u.
Proof. exact shake256x4_slack. Qed.
Print Assumptions C43_slack_needed.

Example C43_case : buffers (33 + slack8 33) [some_bytes 40; repeat 7 41; some_bytes 50; repeat 0 40] /\ slack8 33 = 7%nat /\
  buffers (SHAKE256_RATE * 2) (repeat (some_bytes 300) 4) /\ slack8 32 = 0%nat.
Proof. exact case_buffers. Qed.
