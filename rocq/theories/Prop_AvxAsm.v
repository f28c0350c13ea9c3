(** * C34-C36: the AVX2 assembly *)
From Coq Require Import ZArith List.
From Verif Require Import CMonad Model_AvxAsm Model_AvxCode Spec_FIPS202 Spec_FIPS203 Vocab Cases Proof_PropAvx.
Import ListNotations.
Open Scope Z_scope.
Open Scope cmonad_scope.
Local Opaque SHA3_256 SHA3_512 SHAKE128 SHAKE256.

(** ** C34: transforms.  One trace serves all inputs and all initial register contents. *)

Theorem C34_ntt : exists T, forall (JJ : Junk) r, poly_within 3329 r ->
  exists r', ntt_avx r = Ok r' T /\ poly_within 16182 r' /\ modq r' = avx2_order (NTT r).
Proof. exact avx_ntt_spec. Qed.
Print Assumptions C34_ntt.

Theorem C34_invntt : exists T, forall (JJ : Junk) F r, length F = 256%nat -> poly_within 32767 r ->
  modq r = avx2_order (modq F) ->
  exists r', invntt_avx r = Ok r' T /\ poly_within 14929 r' /\ modq r' = map (fun x => 2 ^ 16 * x mod q) (NTTinv F).
Proof. exact avx_invntt_spec. Qed.
Print Assumptions C34_invntt.

Theorem C34_roundtrip : exists T1 T2, forall (JJ : Junk) r, poly_within 3329 r ->
  exists r1 r2, ntt_avx r = Ok r1 T1 /\ invntt_avx r1 = Ok r2 T2 /\
    poly_within 14929 r2 /\ modq r2 = map (fun x => 2 ^ 16 * x mod q) r.
Proof. exact avx_roundtrip. Qed.
Print Assumptions C34_roundtrip.

Example C34_case : poly_within 3329 (scattered 3329) /\ poly_within 32767 (avx2_order (modq (scattered 5000))) /\
  modq (avx2_order (modq (scattered 5000))) = avx2_order (modq (scattered 5000)).
Proof. split; [now apply scattered_within|]. exact case_avx_order. Qed.

(** ** C35: multiplication *)

Theorem C35_basemul : exists T, forall (JJ : Junk) F G r a b, length F = 256%nat -> length G = 256%nat -> length r = 256%nat ->
  poly_within 4095 a -> poly_within 16182 b -> modq a = avx2_order (modq F) -> modq b = avx2_order (modq G) ->
  exists r', basemul_avx r a b = Ok r' T /\ poly_within 5350 r' /\
    modq (map (fun x => 2 ^ 16 * x) r') = avx2_order (MultiplyNTTs F G).
Proof. exact avx_basemul_spec. Qed.
Print Assumptions C35_basemul.

Theorem C35_multiplication : exists T1 T2 T3 T4 T5, forall (JJ : Junk) r a b, length r = 256%nat -> poly_within 3329 a -> poly_within 3329 b ->
  exists a1 a2 b1 p c, ntt_avx a = Ok a1 T1 /\ reduce_avx a1 = Ok a2 T2 /\ ntt_avx b = Ok b1 T3 /\
    basemul_avx r a2 b1 = Ok p T4 /\ invntt_avx p = Ok c T5 /\ poly_within 14929 c /\ modq c = ring_mul a b.
Proof. exact avx_multiplication. Qed.
Print Assumptions C35_multiplication.

Theorem C35_reduce : exists T, forall (JJ : Junk) r, poly_within 32767 r ->
  exists r', reduce_avx r = Ok r' T /\ length r' = 256%nat /\ in_range 0 q r' /\ modq r' = modq r.
Proof. exact avx_reduce_spec. Qed.
Print Assumptions C35_reduce.

Theorem C35_tomont : exists T, forall (JJ : Junk) r, poly_within 32767 r ->
  exists r', tomont_avx r = Ok r' T /\ poly_within 2341 r' /\ modq r' = map (fun x => 2 ^ 16 * x mod q) r.
Proof. exact avx_tomont_spec. Qed.
Print Assumptions C35_tomont.

Example C35_case : poly_within 4095 (avx2_order (modq (scattered 5000))) /\ poly_within 3329 (scattered 3329) /\
  poly_within 32767 (scattered 32767).
Proof.
  split; [exact case_avx_small|]. split; now apply scattered_within.
Qed.

(** ** C36: serialisation *)

Theorem C36_nttunpack : exists T, forall (JJ : Junk) r, length r = 256%nat -> nttunpack_avx r = Ok (avx2_order r) T.
Proof. exact avx_nttunpack_spec. Qed.
Print Assumptions C36_nttunpack.

Theorem C36_tobytes : forall lpre,
  exists T, forall (JJ : Junk) pre old post a F, length pre = lpre -> length old = 384%nat ->
  length a = 256%nat -> length F = 256%nat -> in_range 0 (2 * q - 1) a -> modq a = avx2_order (modq F) ->
  ntttobytes_avx (pre ++ old ++ post) (length pre) a = Ok (pre ++ ByteEncode 12 (modq F) ++ post) T.
Proof. exact avx_tobytes_spec. Qed.
Print Assumptions C36_tobytes.

Theorem C36_frombytes : forall lpre,
  exists T, forall (JJ : Junk) r pre m post, length r = 256%nat -> length pre = lpre ->
  byte_array 384 m -> all_bytes pre -> all_bytes post ->
  exists f, nttfrombytes_avx r (pre ++ m ++ post) (length pre) = Ok (avx2_order f) T /\ length f = 256%nat /\
    in_range 0 4095 f /\ modq f = ByteDecode 12 m /\ ByteEncode 12 f = m.
Proof. exact avx_frombytes_spec. Qed.
Print Assumptions C36_frombytes.

Example C36_case : in_range 0 (2 * q - 1) (avx2_order (modq (scattered 5000))) /\ byte_array 384 (some_bytes 384) /\
  all_bytes (some_bytes 7).
Proof. exact case_avx_bytes. Qed.
