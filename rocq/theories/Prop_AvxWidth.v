(** * C74: the AVX2 sponge, comparison and move with counters of the declared widths *)
From Coq Require Import ZArith List.
From Verif Require Import CMonad Model_Fips202 Model_AvxKeccak Model_AvxFips202x4 Model_AvxC Model_AvxWidth Spec_FIPS202 Vocab Vocab_Code Vocab_Four Cases Proof_AvxWidth Proof_PropAvxHash.
Import ListNotations.
Open Scope Z_scope.
Open Scope cmonad_scope.
Local Opaque SHA3_256 SHA3_512 SHAKE128 SHAKE256.

(** ** Four SHAKE instances, for every length a size_t can hold *)

Theorem C74_shake128x4 : forall n outlen, Z.of_nat n < 2 ^ 64 -> Z.of_nat outlen < 2 ^ 64 ->
  exists T, forall (JJ : Junk) fuel outs ins,
  buffers outlen outs -> buffers (n + slack8 n) ins -> (outlen + n + 200 <= fuel)%nat ->
  shake128x4_w fuel outs (Z.of_nat outlen) ins (Z.of_nat n) = Ok (overwrite outs (map (fun b => SHAKE128 (firstn n b) outlen) ins)) T.
Proof. exact width_shake128x4. Qed.
Print Assumptions C74_shake128x4.

Theorem C74_shake256x4 : forall n outlen, Z.of_nat n < 2 ^ 64 -> Z.of_nat outlen < 2 ^ 64 ->
  exists T, forall (JJ : Junk) fuel outs ins,
  buffers outlen outs -> buffers (n + slack8 n) ins -> (outlen + n + 200 <= fuel)%nat ->
  shake256x4_w fuel outs (Z.of_nat outlen) ins (Z.of_nat n) = Ok (overwrite outs (map (fun b => SHAKE256 (firstn n b) outlen) ins)) T.
Proof. exact width_shake256x4. Qed.
Print Assumptions C74_shake256x4.

Theorem C74_absorb_once : forall (JJ : Junk) fuel s r ins inlen p,
  (0 < r)%nat -> (r mod 8 = 0)%nat -> Z.of_nat r < 2 ^ 32 -> Z.of_nat inlen < 2 ^ 64 -> (inlen + r + 27 <= fuel)%nat ->
  keccakx4_absorb_once_w fuel s (Z.of_nat r) ins (Z.of_nat inlen) p = keccakx4_absorb_once s r ins inlen p.
Proof. exact width_absorb4. Qed.
Print Assumptions C74_absorb_once.

Theorem C74_squeezeblocks : forall (JJ : Junk) fuel outs oo nb r s,
  Z.of_nat r < 2 ^ 32 - 8 -> Z.of_nat nb < 2 ^ 64 -> (nb + r + 2 <= fuel)%nat ->
  keccakx4_squeezeblocks_w fuel outs oo (Z.of_nat nb) (Z.of_nat r) s = keccakx4_squeezeblocks outs oo nb r s.
Proof. exact width_squeezeblocks4. Qed.
Print Assumptions C74_squeezeblocks.

(** ** Comparison and conditional move *)

Theorem C74_verify : forall ao bo len, Z.of_nat len < 2 ^ 64 ->
  exists T, forall fuel pa a sa pb b sb,
  length pa = ao -> byte_array len a -> length pb = bo -> byte_array len b -> (len < fuel)%nat ->
    (a = b -> verify_avx2_w fuel (pa ++ a ++ sa) ao (pb ++ b ++ sb) bo (Z.of_nat len) = Ok 0 T) /\
    (a <> b -> verify_avx2_w fuel (pa ++ a ++ sa) ao (pb ++ b ++ sb) bo (Z.of_nat len) = Ok 1 T).
Proof. exact width_verify_avx2. Qed.
Print Assumptions C74_verify.

Theorem C74_cmov : forall ro xo len, Z.of_nat len < 2 ^ 64 ->
  exists T, forall fuel pr r sr px x sx b,
  length pr = ro -> byte_array len r -> length px = xo -> byte_array len x -> b = 0 \/ b = 1 -> (len < fuel)%nat ->
  cmov_avx2_w fuel (pr ++ r ++ sr) ro (px ++ x ++ sx) xo (Z.of_nat len) b = Ok (pr ++ (if b =? 1 then x else r) ++ sr) T.
Proof. exact width_cmov_avx2. Qed.
Print Assumptions C74_cmov.

Example C74_case : buffers (33 + slack8 33) [some_bytes 40; repeat 7 41; some_bytes 50; repeat 0 40] /\
  verify_avx2_w 100 (some_bytes 77) 0 (repeat 0 77) 0 77 = verify_avx2 (some_bytes 77) 0 (repeat 0 77) 0 77 /\
  exists T, cmov_avx2_w 100 (repeat 5 40) 0 (some_bytes 40) 0 40 1 = Ok (some_bytes 40) T.
Proof. split; [exact (proj1 case_buffers)|]. split; [vm_compute; reflexivity|]. eexists. vm_compute. reflexivity. Qed.
