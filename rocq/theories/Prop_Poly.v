(** * C14-C23 and C32: polynomial arithmetic and encodings *)
From Coq Require Import ZArith List.
From Verif Require Import CMonad Levels Model_Params Model_Reduce Model_NTT Model_Poly Model_Polyvec
  Model_Symmetric Model_Indcpa Spec_FIPS202 Spec_FIPS203 Spec_Noise Vocab Cases Proof_PropPoly
  Model_NTTLoops Proof_NTTLoops.
Import ListNotations.
Open Scope Z_scope.
Open Scope cmonad_scope.
Local Opaque SHA3_256 SHA3_512 SHAKE128 SHAKE256.

(** ** C14 *)

Theorem C14_ntt : forall r,
  poly_within 9471 r ->
  exists r' T, poly_ntt r = Ok r' T /\ poly_within 1664 r' /\ modq r' = NTT r.
Proof. exact poly_ntt_spec. Qed.
Print Assumptions C14_ntt.

Theorem C14_layers_bounded : forall r m,
  poly_within 9471 r -> (m <= 7)%nat ->
  exists r' k T, for_ m 0 (fun l s => ntt_layer (128 / 2 ^ l) s) (r, 1%nat) = Ok (r', k) T /\
    poly_within (9471 + Z.of_nat m * 3328) r'.
Proof. exact ntt_layers_bounded. Qed.
Print Assumptions C14_layers_bounded.

Theorem C14_loops_as_written : forall fuel r,
  (129 < fuel)%nat -> ntt_loops fuel r = ntt r.
Proof. exact ntt_loops_ok. Qed.
Print Assumptions C14_loops_as_written.

Example C14_case : poly_within 9471 (scattered 9471).
Proof. now apply scattered_within. Qed.

(** ** C15 *)

Theorem C15_invntt : forall r,
  poly_within 16383 r ->
  exists r' T, poly_invntt_tomont r = Ok r' T /\ poly_within 3328 r' /\
    modq r' = map (fun x => 2 ^ 16 * x mod q) (NTTinv r).
Proof. exact poly_invntt_spec. Qed.
Print Assumptions C15_invntt.

Theorem C15_roundtrip : forall r,
  poly_within 9471 r ->
  exists r1 T1 r2 T2, poly_ntt r = Ok r1 T1 /\ poly_invntt_tomont r1 = Ok r2 T2 /\
    poly_within 3328 r2 /\ modq r2 = map (fun x => 2 ^ 16 * x mod q) r.
Proof. exact ntt_roundtrip. Qed.
Print Assumptions C15_roundtrip.

Theorem C15_loops_as_written : forall fuel r,
  (256 < fuel)%nat -> invntt_loops fuel r = invntt r.
Proof. exact invntt_loops_ok. Qed.
Print Assumptions C15_loops_as_written.

Example C15_case : poly_within 16383 (scattered 16383) /\ poly_within 9471 (scattered 9471).
Proof. split; now apply scattered_within. Qed.

(** ** C16 *)

Theorem C16_multiplication : forall r a b,
  length r = 256%nat -> poly_within 9471 a -> poly_within 9471 b ->
  exists a' Ta b' Tb p Tp c Tc,
    poly_ntt a = Ok a' Ta /\ poly_ntt b = Ok b' Tb /\
    poly_basemul_montgomery r a' b' = Ok p Tp /\ poly_invntt_tomont p = Ok c Tc /\
    poly_within 3328 c /\ modq c = ring_mul a b.
Proof. exact ntt_multiplication. Qed.
Print Assumptions C16_multiplication.

Example C16_case : length (repeat 0 256) = 256%nat /\ poly_within 9471 (scattered 9471) /\ poly_within 9471 (scattered 3329).
Proof.
  split; [reflexivity|]. split; [now apply scattered_within|]. destruct (scattered_within 3329) as [L R]; [easy|].
  split; [exact L|]. now apply (in_range_weaken (-3329) 3329).
Qed.

(** ** C17 *)

Theorem C17_montgomery : forall a,
  - (q * 2 ^ 15) <= a <= q * 2 ^ 15 - 1 ->
  exists r, montgomery_reduce a = Ok r [] /\ - q < r < q /\ (r * 2 ^ 16 - a) mod q = 0.
Proof. exact montgomery_reduce_contract. Qed.
Print Assumptions C17_montgomery.

Theorem C17_montgomery_safe : forall a,
  - 2 ^ 31 + q * 2 ^ 15 <= a <= 2 ^ 31 - 1 - q * 2 ^ 15 ->
  exists r, montgomery_reduce a = Ok r [] /\ -2 ^ 15 <= r < 2 ^ 15 /\ (r * 2 ^ 16 - a) mod q = 0.
Proof. exact montgomery_reduce_safe. Qed.
Print Assumptions C17_montgomery_safe.

Theorem C17_montgomery_overflows : montgomery_reduce 2147483638 = UB SignedOverflow /\ montgomery_reduce (-2147283652) = UB SignedOverflow.
Proof. exact montgomery_reduce_overflows. Qed.
Print Assumptions C17_montgomery_overflows.

Example C17_case : - (q * 2 ^ 15) <= -109084672 <= q * 2 ^ 15 - 1 /\ - (q * 2 ^ 15) <= 109084671 <= q * 2 ^ 15 - 1 /\
  montgomery_reduce 109084671 = Ok 3160 [].
Proof. repeat split; try discriminate; reflexivity. Qed.

(** ** C18 *)

Theorem C18_barrett : forall a,
  -2 ^ 15 <= a < 2 ^ 15 ->
  exists r, barrett_reduce a = Ok r [] /\ - ((q - 1) / 2) <= r <= (q - 1) / 2 /\ (r - a) mod q = 0.
Proof. exact barrett_reduce_contract. Qed.
Print Assumptions C18_barrett.

Example C18_case : -2 ^ 15 <= -32768 < 2 ^ 15 /\ barrett_reduce (-32768) = Ok 522 [].
Proof. repeat split; try discriminate; reflexivity. Qed.

(** ** C19 *)

Theorem C19_poly_compress : forall lv (JJ : Junk) pre old post a,
  length old = KYBER_POLYCOMPRESSEDBYTES lv -> poly_within 3328 a ->
  exists T, poly_compress lv (pre ++ old ++ post) (length pre) a
    = Ok (pre ++ ByteEncode (dv (PS lv)) (map (Compress (Z.of_nat (dv (PS lv)))) (modq a)) ++ post) T.
Proof. exact poly_compress_spec. Qed.
Print Assumptions C19_poly_compress.

Theorem C19_polyvec_compress : forall lv (JJ : Junk) pre old post a,
  length old = KYBER_POLYVECCOMPRESSEDBYTES lv -> vec_within (KYBER_K lv) 3328 a ->
  exists T, polyvec_compress lv (pre ++ old ++ post) (length pre) a
    = Ok (pre ++ flat_map (fun f => ByteEncode (du (PS lv)) (map (Compress (Z.of_nat (du (PS lv)))) (modq f))) a ++ post) T.
Proof. exact polyvec_compress_spec. Qed.
Print Assumptions C19_polyvec_compress.

Theorem C19_poly_tomsg : forall pre old post a,
  length old = 32%nat -> length a = 256%nat -> in_range (-2496) 32767 a ->
  exists T, poly_tomsg (pre ++ old ++ post) (length pre) a
    = Ok (pre ++ ByteEncode 1 (map (Compress 1) (modq a)) ++ post) T.
Proof. exact poly_tomsg_spec. Qed.
Print Assumptions C19_poly_tomsg.

Example C19_case lv : length (repeat 0 (KYBER_POLYCOMPRESSEDBYTES lv)) = KYBER_POLYCOMPRESSEDBYTES lv /\
  length (repeat 0 (KYBER_POLYVECCOMPRESSEDBYTES lv)) = KYBER_POLYVECCOMPRESSEDBYTES lv /\
  poly_within 3328 (scattered 3328) /\ vec_within (KYBER_K lv) 3328 (repeat (scattered 3328) (KYBER_K lv)) /\
  in_range (-2496) 32767 (scattered 2496).
Proof.
  split; [apply repeat_length|]. split; [apply repeat_length|]. split; [now apply scattered_within|].
  split; [now apply scattered_vec|]. destruct (scattered_within 2496) as [_ R]; [easy|]. now apply (in_range_weaken (-2496) 2496).
Qed.

(** ** C20 *)

Theorem C20_poly_decompress : forall lv (JJ : Junk) r pre c post,
  length r = 256%nat -> length c = KYBER_POLYCOMPRESSEDBYTES lv -> all_bytes (pre ++ c ++ post) ->
  exists T, poly_decompress lv r (pre ++ c ++ post) (length pre)
    = Ok (map (Decompress (Z.of_nat (dv (PS lv)))) (ByteDecode (dv (PS lv)) c)) T.
Proof. exact poly_decompress_spec. Qed.
Print Assumptions C20_poly_decompress.

Theorem C20_polyvec_decompress : forall lv (JJ : Junk) r pre c post,
  length r = KYBER_K lv -> (forall f, In f r -> length f = 256%nat) ->
  length c = KYBER_POLYVECCOMPRESSEDBYTES lv -> all_bytes (pre ++ c ++ post) ->
  exists T, polyvec_decompress lv r (pre ++ c ++ post) (length pre)
    = Ok (map (map (Decompress (Z.of_nat (du (PS lv))))) (decode_vec (PS lv) (du (PS lv)) c)) T.
Proof. exact polyvec_decompress_spec. Qed.
Print Assumptions C20_polyvec_decompress.

Theorem C20_error_bound : forall d x,
  1 <= d <= 11 -> 0 <= x < q ->
  let e := (Decompress d (Compress d x) - x) mod q in
  let b := (q + 2 ^ d) / 2 ^ (d + 1) in
  e <= b \/ q - b <= e.
Proof. exact compression_error. Qed.
Print Assumptions C20_error_bound.

Theorem C20_decompress_range : forall d y,
  1 <= d <= 11 -> 0 <= y < 2 ^ d -> 0 <= Decompress d y < q.
Proof. exact Decompress_range. Qed.
Print Assumptions C20_decompress_range.

Theorem C20_compress_decompress : forall d y,
  1 <= d <= 11 -> 0 <= y < 2 ^ d -> Compress d (Decompress d y) = y.
Proof. exact Compress_Decompress. Qed.
Print Assumptions C20_compress_decompress.

Example C20_case lv : length (some_bytes (KYBER_POLYCOMPRESSEDBYTES lv)) = KYBER_POLYCOMPRESSEDBYTES lv /\
  length (some_bytes (KYBER_POLYVECCOMPRESSEDBYTES lv)) = KYBER_POLYVECCOMPRESSEDBYTES lv /\
  all_bytes (some_bytes 5 ++ some_bytes (KYBER_POLYCOMPRESSEDBYTES lv) ++ some_bytes 5) /\
  all_bytes (some_bytes 5 ++ some_bytes (KYBER_POLYVECCOMPRESSEDBYTES lv) ++ some_bytes 5) /\
  vec_within (KYBER_K lv) 3328 (repeat (scattered 3328) (KYBER_K lv)).
Proof.
  split; [apply some_bytes_ok|]. split; [apply some_bytes_ok|]. split; [apply ctx_bytes|].
  split; [apply ctx_bytes|]. now apply scattered_vec.
Qed.
(** The bound is attained: d = 4, x = 104 comes back as 0 *)
Example C20_case_error : Decompress 4 (Compress 4 104) = 0 /\ (q + 2 ^ 4) / 2 ^ (4 + 1) = 104.
Proof. split; reflexivity. Qed.

(** ** C21 *)

Theorem C21_tobytes : forall pre old post a,
  length old = 384%nat -> poly_within 3328 a ->
  exists T, poly_tobytes (pre ++ old ++ post) (length pre) a = Ok (pre ++ ByteEncode 12 (modq a) ++ post) T.
Proof. exact poly_tobytes_spec. Qed.
Print Assumptions C21_tobytes.

Theorem C21_tobytes_frombytes : forall r buf a,
  length r = 256%nat -> length buf = 384%nat -> poly_within 3328 a ->
  exists b T1 T2, poly_tobytes buf 0 a = Ok b T1 /\ poly_frombytes r b 0 = Ok (modq a) T2.
Proof. exact tobytes_frombytes. Qed.
Print Assumptions C21_tobytes_frombytes.

Theorem C21_frombytes_tobytes : forall r buf b,
  length r = 256%nat -> length buf = 384%nat -> length b = 384%nat -> all_bytes b ->
  exists a T1 T2, poly_frombytes r b 0 = Ok a T1 /\ in_range 0 4095 a /\ poly_tobytes buf 0 a = Ok b T2.
Proof. exact frombytes_tobytes. Qed.
Print Assumptions C21_frombytes_tobytes.

Example C21_case : poly_within 3328 (scattered 3328) /\ length (some_bytes 384) = 384%nat /\ all_bytes (some_bytes 384).
Proof. split; [now apply scattered_within|apply some_bytes_ok]. Qed.

(** ** C22 *)

Theorem C22_message_tolerance : forall p buf m e,
  length p = 256%nat -> length buf = 32%nat ->
  length m = 32%nat -> all_bytes m -> length e = 256%nat -> in_range (-832) 831 e ->
  exists f T1, poly_frommsg p m 0 = Ok f T1 /\
    forall a, in_range (-2496) 32767 a -> modq a = modq (add_coeffs f e) ->
    exists T2, poly_tomsg buf 0 a = Ok m T2.
Proof. exact message_tolerance. Qed.
Print Assumptions C22_message_tolerance.

Theorem C22_tolerance_exact : forall p buf m e i,
  length p = 256%nat -> length buf = 32%nat ->
  length m = 32%nat -> all_bytes m -> length e = 256%nat -> (i < 256)%nat ->
  (nth i e 0 = 832 /\ nth i (ByteDecode 1 m) 0 = 1) \/ nth i e 0 = -833 ->
  exists f T1, poly_frommsg p m 0 = Ok f T1 /\
    forall a, in_range (-2496) 32767 a -> modq a = modq (add_coeffs f e) ->
    exists m' T2, poly_tomsg buf 0 a = Ok m' T2 /\ m' <> m.
Proof. exact message_tolerance_exact. Qed.
Print Assumptions C22_tolerance_exact.

Example C22_case : length (scattered 831) = 256%nat /\ in_range (-832) 831 (scattered 831).
Proof. destruct (scattered_within 831) as [L R]; [easy|]. split; [exact L|]. now apply (in_range_weaken (-831) 831). Qed.
Example C22_case_exact : length (832 :: repeat 0 255) = 256%nat /\ nth 0 (832 :: repeat 0 255) 0 = 832 /\
  nth 0 (ByteDecode 1 (repeat 255 32)) 0 = 1.
Proof. repeat split. Qed.

(** ** C23 *)

Theorem C23_getnoise_eta1 : forall lv (JJ : Junk) r pre seed post nonce,
  length r = 256%nat -> length seed = 32%nat -> all_bytes (pre ++ seed ++ post) -> 0 <= nonce < 256 ->
  exists r' T, poly_getnoise_eta1 lv r (pre ++ seed ++ post) (length pre) nonce = Ok r' T /\
    let eta := eta1 (PS lv) in
    let B := SHAKE256 (seed ++ [nonce]) (64 * eta) in
    length r' = 256%nat /\ modq r' = SamplePolyCBD eta B /\ in_range (- Z.of_nat eta) (Z.of_nat eta) r' /\
    forall i, (i < 256)%nat -> nth i r' 0 =
      sumz eta (fun j => nth (2 * i * eta + j) (BytesToBits B) 0)
      - sumz eta (fun j => nth (2 * i * eta + eta + j) (BytesToBits B) 0).
Proof. exact getnoise_eta1_spec. Qed.
Print Assumptions C23_getnoise_eta1.

Theorem C23_getnoise_eta2 : forall lv (JJ : Junk) r pre seed post nonce,
  length r = 256%nat -> length seed = 32%nat -> all_bytes (pre ++ seed ++ post) -> 0 <= nonce < 256 ->
  exists r' T, poly_getnoise_eta2 r (pre ++ seed ++ post) (length pre) nonce = Ok r' T /\
    let eta := eta2 (PS lv) in
    let B := SHAKE256 (seed ++ [nonce]) (64 * eta) in
    length r' = 256%nat /\ modq r' = SamplePolyCBD eta B /\ in_range (- Z.of_nat eta) (Z.of_nat eta) r' /\
    forall i, (i < 256)%nat -> nth i r' 0 =
      sumz eta (fun j => nth (2 * i * eta + j) (BytesToBits B) 0)
      - sumz eta (fun j => nth (2 * i * eta + eta + j) (BytesToBits B) 0).
Proof. exact getnoise_eta2_spec. Qed.
Print Assumptions C23_getnoise_eta2.

Example C23_case : length (some_bytes 32) = 32%nat /\ all_bytes (some_bytes 3 ++ some_bytes 32 ++ some_bytes 7) /\ 0 <= 255 < 256.
Proof. split; [apply some_bytes_ok|]. split; [apply ctx_bytes|]. split; [discriminate|reflexivity]. Qed.

(** ** C32 *)

Theorem C32_unpack_pack : forall lv (JJ : Junk) b0 v0 pre c post buf,
  length c = KYBER_CIPHERTEXTBYTES lv ->
  all_bytes (pre ++ c ++ post) -> length b0 = KYBER_K lv -> (forall f, In f b0 -> length f = 256%nat) ->
  length v0 = 256%nat -> length buf = KYBER_CIPHERTEXTBYTES lv ->
  exists b v T1 T2, unpack_ciphertext lv b0 v0 (pre ++ c ++ post) (length pre) = Ok (b, v) T1 /\
    b = map (map (Decompress (Z.of_nat (du (PS lv)))))
            (decode_vec (PS lv) (du (PS lv)) (firstn (KYBER_POLYVECCOMPRESSEDBYTES lv) c)) /\
    v = map (Decompress (Z.of_nat (dv (PS lv))))
            (ByteDecode (dv (PS lv)) (skipn (KYBER_POLYVECCOMPRESSEDBYTES lv) c)) /\
    pack_ciphertext lv buf 0 b v = Ok c T2.
Proof. exact unpack_pack. Qed.
Print Assumptions C32_unpack_pack.

Theorem C32_pack_unpack : forall lv (JJ : Junk) b v pre old post b0 v0,
  vec_within (KYBER_K lv) 3328 b -> poly_within 3328 v ->
  length old = KYBER_CIPHERTEXTBYTES lv -> all_bytes pre -> all_bytes post ->
  length b0 = KYBER_K lv -> (forall f, In f b0 -> length f = 256%nat) -> length v0 = 256%nat ->
  exists c T1 T2, pack_ciphertext lv (pre ++ old ++ post) (length pre) b v = Ok (pre ++ c ++ post) T1 /\
    length c = KYBER_CIPHERTEXTBYTES lv /\ all_bytes c /\
    unpack_ciphertext lv b0 v0 (pre ++ c ++ post) (length pre)
    = Ok (map (fun f => rounded (du (PS lv)) (modq f)) b, rounded (dv (PS lv)) (modq v)) T2.
Proof. exact pack_unpack. Qed.
Print Assumptions C32_pack_unpack.

Example C32_case lv : length (some_bytes (KYBER_CIPHERTEXTBYTES lv)) = KYBER_CIPHERTEXTBYTES lv /\
  all_bytes (some_bytes 5 ++ some_bytes (KYBER_CIPHERTEXTBYTES lv) ++ some_bytes 5) /\
  vec_within (KYBER_K lv) 3328 (repeat (scattered 3328) (KYBER_K lv)) /\ poly_within 3328 (scattered 3328).
Proof.
  split; [apply some_bytes_ok|]. split; [apply ctx_bytes|]. split; [now apply scattered_vec|now apply scattered_within].
Qed.
