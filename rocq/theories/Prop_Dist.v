(** * C64, C65: the distributions of the samplers *)
From Coq Require Import ZArith List.
From Verif Require Import CMonad Levels Model_Params Model_CBD Model_Indcpa Model_AvxC Model_AvxRej Spec_FIPS203 Vocab Vocab_Rng Vocab_Dist
  Proof_Dist Proof_Unbiased.
Import ListNotations.
Open Scope Z_scope.

(** The number of byte strings from which the noise sampler makes [f]. *)
Theorem C64_eta1 : forall lv r f, length r = 256%nat -> length f = 256%nat ->
  counted (fun B => byte_array (64 * eta1 (PS lv)) B /\ yields (poly_cbd_eta1 lv r B) f) (centred_binomial (eta1 (PS lv)) f).
Proof. exact cbd_eta1_count. Qed.
Print Assumptions C64_eta1.

Theorem C64_eta2 : forall r f, length r = 256%nat -> length f = 256%nat ->
  counted (fun B => byte_array 128 B /\ yields (poly_cbd_eta2 r B) f) (centred_binomial 2 f).
Proof. exact cbd_eta2_count. Qed.
Print Assumptions C64_eta2.

(** The AVX2 samplers read a little beyond the string; what is there does not matter. *)
Theorem C64_eta1_avx2 : forall lv r f slack,
  length r = 256%nat -> length f = 256%nat -> (length slack >= match lv with Kyber512 => 8 | _ => 0 end)%nat ->
  counted (fun B => byte_array (64 * eta1 (PS lv)) B /\ yields (poly_cbd_eta1_avx2 lv r (B ++ slack)) f) (centred_binomial (eta1 (PS lv)) f).
Proof. exact cbd_eta1_avx2_count. Qed.
Print Assumptions C64_eta1_avx2.

Theorem C64_eta2_avx2 : forall r f slack, length r = 256%nat -> length f = 256%nat ->
  counted (fun B => byte_array 128 B /\ yields (poly_cbd_eta2_avx2 r (B ++ slack)) f) (centred_binomial 2 f).
Proof. exact cbd_eta2_avx2_count. Qed.
Print Assumptions C64_eta2_avx2.

Example C64_case :
  map (fun x => binomial 4 (2 + x)) [-3; -2; -1; 0; 1; 2; 3] = [0; 1; 4; 6; 4; 1; 0] /\
  map (fun x => binomial 6 (3 + x)) [-3; -2; -1; 0; 1; 2; 3] = [1; 6; 15; 20; 15; 6; 1] /\
  centred_binomial 2 (repeat 1 100 ++ repeat 0 156) = 4 ^ 100 * 6 ^ 156 /\
  centred_binomial 2 (3 :: repeat 0 255) = 0 /\
  match poly_cbd_eta2 (repeat 9 256) (repeat 0x35 128) with Ok f _ => f = concat (repeat [0; 2] 128) | _ => False end.
Proof. vm_compute. repeat split. Qed.

(** Rejection sampling into [n] coefficients from [3 * m] bytes: every possible
    result comes from the same number of byte strings. *)
Theorem C65_unbiased : forall n m, exists N, ((n <= 2 * m)%nat -> 0 < N) /\
  forall a r, length a = n -> in_range 0 (q - 1) a -> length r = n ->
  counted (fun B => byte_array (3 * m) B /\ yields (rej_uniform r 0 n B (3 * m)) (n, a)) N.
Proof. exact rej_uniform_count. Qed.
Print Assumptions C65_unbiased.

(** The reference and the vectorised sampler on the 504 bytes of gen_matrix *)
Theorem C65_both : exists N, 0 < N /\
  forall a, length a = 256%nat -> in_range 0 (q - 1) a -> forall r, length r = 256%nat ->
  counted (fun B => byte_array 504 B /\ yields (rej_uniform r 0 256 B 504) (256%nat, a)) N /\
  forall extra, counted (fun B => byte_array 504 B /\ yields (rej_uniform_avx r (B ++ extra)) (256%nat, a)) N.
Proof. exact both_count. Qed.
Print Assumptions C65_both.

Example C65_case :
  match rej_uniform [9; 9; 9] 0 3 [0xff; 0x1f; 0x00; 0xf0; 0xff; 0xff; 0x00; 0x1d; 0xd0] 9 with
  | Ok v _ => v = (2%nat, [1; 3328; 9])
  | _ => False
  end /\
  match rej_uniform [9; 9] 0 2 [0xff; 0x1f; 0x00; 0xf0; 0xff; 0xff; 0x00; 0x0d; 0xd0] 9 with
  | Ok v _ => v = (2%nat, [1; 3328])
  | _ => False
  end.
Proof. vm_compute. repeat split. Qed.
