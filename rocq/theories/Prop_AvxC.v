(** * C37-C41: the vectorised C code of avx2/ *)
From Coq Require Import ZArith List.
From Verif Require Import CMonad Model_Params Model_AvxAsm Model_AvxCode Model_AvxC Model_AvxPolyvec Levels Spec_FIPS202 Spec_FIPS203 Vocab Cases Proof_PropAvxC.
Import ListNotations.
Open Scope Z_scope.
Open Scope cmonad_scope.
Local Opaque SHA3_256 SHA3_512 SHAKE128 SHAKE256.

(** ** C37: compression.  One trace serves all inputs. *)

Theorem C37_poly_compress : forall lv lpre,
  exists T, forall pre old post a,
  length pre = lpre -> length old = KYBER_POLYCOMPRESSEDBYTES lv -> length a = 256%nat -> in_range 0 q a ->
  poly_compress_avx2 lv (pre ++ old ++ post) (length pre) a
    = Ok (pre ++ ByteEncode (dv (PS lv)) (map (Compress (Z.of_nat (dv (PS lv)))) (modq a)) ++ post) T.
Proof. exact poly_compress_avx2_spec. Qed.
Print Assumptions C37_poly_compress.

Theorem C37_polyvec_compress : forall lv lpre,
  exists T, forall pre old slack post a,
  length pre = lpre -> length old = KYBER_POLYVECCOMPRESSEDBYTES lv ->
  length slack = match lv with Kyber1024 => 2%nat | _ => 0%nat end ->
  length a = KYBER_K lv -> (forall f, In f a -> length f = 256%nat /\ in_range 0 q f) ->
  polyvec_compress_avx2 lv (pre ++ old ++ slack ++ post) (length pre) a
    = Ok (pre ++ flat_map (fun f => ByteEncode (du (PS lv)) (map (Compress (Z.of_nat (du (PS lv)))) (modq f))) a
              ++ map (fun _ => 0) slack ++ post) T.
Proof. exact polyvec_compress_avx2_spec. Qed.
Print Assumptions C37_polyvec_compress.

Theorem C37_poly_tomsg : forall lpre,
  exists T, forall pre old post a,
  length pre = lpre -> length old = 32%nat -> length a = 256%nat -> in_range 0 q a ->
  poly_tomsg_avx2 (pre ++ old ++ post) (length pre) a = Ok (pre ++ ByteEncode 1 (map (Compress 1) (modq a)) ++ post) T.
Proof. exact poly_tomsg_avx2_spec. Qed.
Print Assumptions C37_poly_tomsg.

Theorem C37_slack_needed : poly_compress11_avx2 (repeat 0 353) 0 (repeat 0 256) = UB OutOfBounds.
Proof. exact compress11_slack. Qed.
Print Assumptions C37_slack_needed.

Example C37_case lv : length (repeat 7 (KYBER_POLYVECCOMPRESSEDBYTES lv)) = KYBER_POLYVECCOMPRESSEDBYTES lv /\
  length (modq (scattered 5000)) = 256%nat /\ in_range 0 q (modq (scattered 5000)) /\
  length (repeat (modq (scattered 5000)) (KYBER_K lv)) = KYBER_K lv /\
  forall f, In f (repeat (modq (scattered 5000)) (KYBER_K lv)) -> length f = 256%nat /\ in_range 0 q f.
Proof.
  split; [apply repeat_length|]. destruct scattered_mod as [A B]. split; [exact A|]. split; [exact B|].
  exact (case_avx_vec (KYBER_K lv)).
Qed.

(** ** C38: decompression *)

Theorem C38_poly_decompress : forall lv lpre,
  exists T, forall r pre c post,
  length r = 256%nat -> length pre = lpre -> byte_array (KYBER_POLYCOMPRESSEDBYTES lv) c ->
  poly_decompress_avx2 lv r (pre ++ c ++ post) (length pre)
    = Ok (map (Decompress (Z.of_nat (dv (PS lv)))) (ByteDecode (dv (PS lv)) c)) T.
Proof. exact poly_decompress_avx2_spec. Qed.
Print Assumptions C38_poly_decompress.

Theorem C38_polyvec_decompress : forall lv lpre,
  exists T, forall r pre c slack post,
  length r = KYBER_K lv -> (forall f, In f r -> length f = 256%nat) -> length pre = lpre ->
  byte_array (KYBER_POLYVECCOMPRESSEDBYTES lv) c ->
  length slack = match lv with Kyber1024 => 10%nat | _ => 12%nat end ->
  polyvec_decompress_avx2 lv r (pre ++ c ++ slack ++ post) (length pre)
    = Ok (map (map (Decompress (Z.of_nat (du (PS lv))))) (decode_vec (PS lv) (du (PS lv)) c)) T.
Proof. exact polyvec_decompress_avx2_spec. Qed.
Print Assumptions C38_polyvec_decompress.

Theorem C38_poly_frommsg : forall lpre,
  exists T, forall r pre m post,
  length r = 256%nat -> length pre = lpre -> byte_array 32 m ->
  poly_frommsg_avx2 r (pre ++ m ++ post) (length pre) = Ok (map (Decompress 1) (ByteDecode 1 m)) T.
Proof. exact poly_frommsg_avx2_spec. Qed.
Print Assumptions C38_poly_frommsg.

Theorem C38_slack_needed : poly_decompress10_avx2 (repeat 0 256) (repeat 0 331) 0 = UB OutOfBounds /\
  poly_decompress11_avx2 (repeat 0 256) (repeat 0 361) 0 = UB OutOfBounds.
Proof. exact decompress_slack. Qed.
Print Assumptions C38_slack_needed.

Example C38_case lv : byte_array (KYBER_POLYCOMPRESSEDBYTES lv) (some_bytes (KYBER_POLYCOMPRESSEDBYTES lv)) /\
  byte_array (KYBER_POLYVECCOMPRESSEDBYTES lv) (some_bytes (KYBER_POLYVECCOMPRESSEDBYTES lv)) /\ byte_array 32 (some_bytes 32).
Proof. split; [|split]; apply some_bytes_ok. Qed.

(** ** C39: noise *)

Theorem C39_cbd_eta1 : forall lv,
  exists T, forall r B slack,
  length r = 256%nat -> byte_array (64 * eta1 (PS lv)) B -> (length slack >= match lv with Kyber512 => 8 | _ => 0 end)%nat ->
  exists r', poly_cbd_eta1_avx2 lv r (B ++ slack) = Ok r' T /\
    let eta := eta1 (PS lv) in
    length r' = 256%nat /\ modq r' = SamplePolyCBD eta B /\ in_range (- Z.of_nat eta) (Z.of_nat eta) r'.
Proof. exact poly_cbd_eta1_avx2_spec. Qed.
Print Assumptions C39_cbd_eta1.

Theorem C39_cbd_eta2 : exists T, forall r B slack,
  length r = 256%nat -> byte_array 128 B ->
  exists r', poly_cbd_eta2_avx2 r (B ++ slack) = Ok r' T /\
    length r' = 256%nat /\ modq r' = SamplePolyCBD 2 B /\ in_range (-2) 2 r'.
Proof. exact poly_cbd_eta2_avx2_spec. Qed.
Print Assumptions C39_cbd_eta2.

Theorem C39_slack_needed : poly_cbd_eta1_avx2 Kyber512 (repeat 0 256) (repeat 0 199) = UB OutOfBounds.
Proof. exact cbd3_slack. Qed.
Print Assumptions C39_slack_needed.

Example C39_case lv : byte_array (64 * eta1 (PS lv)) (some_bytes (64 * eta1 (PS lv))) /\ byte_array 128 (some_bytes 128).
Proof. split; apply some_bytes_ok. Qed.

(** ** C40: comparison and conditional move *)

Theorem C40_verify : forall ao bo len,
  exists T, forall pa a sa pb b sb,
  length pa = ao -> byte_array len a -> length pb = bo -> byte_array len b ->
    (a = b -> verify_avx2 (pa ++ a ++ sa) ao (pb ++ b ++ sb) bo len = Ok 0 T) /\
    (a <> b -> verify_avx2 (pa ++ a ++ sa) ao (pb ++ b ++ sb) bo len = Ok 1 T).
Proof. exact verify_avx2_spec. Qed.
Print Assumptions C40_verify.

Theorem C40_cmov : forall ro xo len,
  exists T, forall pr r sr px x sx b,
  length pr = ro -> byte_array len r -> length px = xo -> byte_array len x -> b = 0 \/ b = 1 ->
  cmov_avx2 (pr ++ r ++ sr) ro (px ++ x ++ sx) xo len b = Ok (pr ++ (if b =? 1 then x else r) ++ sr) T.
Proof. exact cmov_avx2_spec. Qed.
Print Assumptions C40_cmov.

Example C40_case : byte_array 77 (some_bytes 77) /\ byte_array 77 (repeat 0 77) /\ some_bytes 77 <> repeat 0 77.
Proof.
  split; [apply some_bytes_ok|]. split; [|discriminate]. split; [reflexivity|]. intros x Hx. apply repeat_spec in Hx. subst x.
  split; [discriminate|reflexivity].
Qed.

(** ** C41: sums, differences and inner products *)

Theorem C41_add : exists T, forall r a b,
  length r = 256%nat -> length a = 256%nat -> length b = 256%nat -> in_range (-32768) 32767 (add_coeffs a b) ->
  poly_add_avx2 r a b = Ok (add_coeffs a b) T.
Proof. exact poly_add_avx2_spec. Qed.
Print Assumptions C41_add.

Theorem C41_add_to : exists T, forall r b,
  length r = 256%nat -> length b = 256%nat -> in_range (-32768) 32767 (add_coeffs r b) ->
  poly_add_to_avx2 r b = Ok (add_coeffs r b) T.
Proof. exact poly_add_to_avx2_spec. Qed.
Print Assumptions C41_add_to.

Theorem C41_sub_from : exists T, forall r a,
  length r = 256%nat -> length a = 256%nat -> in_range (-32768) 32767 (add_coeffs a (map Z.opp r)) ->
  poly_sub_from_avx2 r a = Ok (add_coeffs a (map Z.opp r)) T.
Proof. exact poly_sub_from_avx2_spec. Qed.
Print Assumptions C41_sub_from.

Theorem C41_basemul_acc : forall lv,
  exists T, forall (JJ : Junk) F G r a b,
  length F = KYBER_K lv -> (forall f, In f F -> length f = 256%nat) ->
  length G = KYBER_K lv -> (forall g, In g G -> length g = 256%nat) -> length r = 256%nat ->
  vec_within (KYBER_K lv) 4095 a -> vec_within (KYBER_K lv) 16182 b ->
  map modq a = map (fun f => avx2_order (modq f)) F -> map modq b = map (fun g => avx2_order (modq g)) G ->
  exists r', polyvec_basemul_acc_montgomery_avx2 lv r a b = Ok r' T /\ poly_within 21400 r' /\
    modq (map (fun x => 2 ^ 16 * x) r') = avx2_order (ntt_dot F G).
Proof. exact avx_basemul_acc_spec. Qed.
Print Assumptions C41_basemul_acc.

Example C41_case lv : length (scattered 16383) = 256%nat /\
  in_range (-32768) 32767 (add_coeffs (scattered 16383) (scattered 16383)) /\
  in_range (-32768) 32767 (add_coeffs (scattered 16383) (map Z.opp (scattered 16000))) /\
  vec_within (KYBER_K lv) 4095 (repeat (avx2_order (modq (scattered 5000))) (KYBER_K lv)) /\
  map modq (repeat (avx2_order (modq (scattered 5000))) (KYBER_K lv)) = map (fun f => avx2_order (modq f)) (repeat (scattered 5000) (KYBER_K lv)).
Proof.
  destruct case_avx_add as [A B]. split; [exact A|]. split; [exact B|]. split; [exact case_avx_sub|]. exact (case_avx_held (KYBER_K lv)).
Qed.
