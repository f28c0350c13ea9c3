(** * Lemmas for the properties of the vectorised C functions of avx2/ *)
From Coq Require Import ZArith List Lia Bool.
From Verif Require Import CMonad WP Proof_Base Modq Sums Model_Params Model_Polyvec Model_AvxAsm Model_AvxCode
  Model_AvxC Model_AvxPolyvec Proof_NTT Proof_NTTSpec Proof_RingMul Proof_Poly Proof_Polyvec Proof_Bits Proof_Codec
  Proof_PolyvecCodec Proof_CBD Proof_AvxNTT Proof_AvxPack Proof_AvxCompress Proof_AvxDecompress Proof_AvxMisc
  Proof_AvxPolyvec Spec_FIPS203 Levels Vocab Cases Proof_Vocab Proof_PropPoly Proof_PropAvx.
Import ListNotations.
Open Scope Z_scope.
Open Scope cmonad_scope.

(** ** Compression *)
Lemma poly_compress_avx2_spec lv lpre : exists T, forall pre old post a,
  length pre = lpre -> length old = KYBER_POLYCOMPRESSEDBYTES lv -> length a = 256%nat -> in_range 0 q a ->
  poly_compress_avx2 lv (pre ++ old ++ post) (length pre) a
    = Ok (pre ++ ByteEncode (dv (PS lv)) (map (Compress (Z.of_nat (dv (PS lv)))) (modq a)) ++ post) T.
Proof.
  destruct (poly_compress_avx2_wp lv lpre) as [T W]. exists T. intros pre old post a LP LO LA RA. subst lpre.
  destruct (W (pre ++ old ++ post) a) as (v & E & ->).
  - rewrite <- LO. apply ctx_length.
  - exact LA.
  - now apply in_range_bnd.
  - rewrite compressed_modq in E by exact LA. rewrite splice_ctx in E; [exact E|].
    rewrite LO, ByteEncode_length, map_length, modq_length, LA. destruct lv; reflexivity.
Qed.

Lemma polyvec_compress_avx2_spec lv lpre : exists T, forall pre old slack post a,
  length pre = lpre -> length old = KYBER_POLYVECCOMPRESSEDBYTES lv ->
  length slack = match lv with Kyber1024 => 2%nat | _ => 0%nat end ->
  length a = KYBER_K lv -> (forall f, In f a -> length f = 256%nat /\ in_range 0 q f) ->
  polyvec_compress_avx2 lv (pre ++ old ++ slack ++ post) (length pre) a
    = Ok (pre ++ flat_map (fun f => ByteEncode (du (PS lv)) (map (Compress (Z.of_nat (du (PS lv)))) (modq f))) a
              ++ map (fun _ => 0) slack ++ post) T.
Proof.
  destruct (polyvec_compress_avx2_wp lv lpre) as [T W]. exists T. intros pre old slack post a LP LO LS LA RA. subst lpre.
  assert (EO : overrun lv = map (fun _ => 0) slack).
  { destruct lv; cbn [overrun]; [now destruct slack|now destruct slack|].
    destruct slack as [|x [|y [|z s]]]; try discriminate. reflexivity. }
  assert (LX : length (overrun lv) = length slack) by (rewrite EO; apply map_length).
  destruct (W (pre ++ old ++ slack ++ post) a) as (v & E & ->).
  - rewrite LX, <- LO, !app_length. lia.
  - split; [exact LA|]. intros i Hi. destruct (RA (nth i a []) ltac:(apply nth_In; lia)). split; auto. now apply in_range_bnd.
  - assert (EF : flat_map (compressed_bytes (du (PS lv))) a =
      flat_map (fun f => ByteEncode (du (PS lv)) (map (Compress (Z.of_nat (du (PS lv)))) (modq f))) a).
    { apply flat_map_eq_in. intros f Hf. unfold compressed_bytes. now rewrite compressed_modq by (apply RA, Hf). }
    rewrite <- EF. rewrite (app_assoc old slack post) in E |- *. rewrite splice_ctx in E.
    + rewrite E, EO. now rewrite <- !app_assoc.
    + rewrite !app_length, LX, LO, (flat_map_const_length _ (32 * du (PS lv))) by (apply compressed_bytes_length).
      rewrite LA. destruct lv; reflexivity.
Qed.

Lemma poly_tomsg_avx2_spec lpre : exists T, forall pre old post a,
  length pre = lpre -> length old = 32%nat -> length a = 256%nat -> in_range 0 q a ->
  poly_tomsg_avx2 (pre ++ old ++ post) (length pre) a = Ok (pre ++ ByteEncode 1 (map (Compress 1) (modq a)) ++ post) T.
Proof.
  destruct (poly_tomsg_avx2_wp lpre) as [T W]. exists T. intros pre old post a LP LO LA RA. subst lpre.
  destruct (W (pre ++ old ++ post) a) as (v & E & ->).
  - rewrite <- LO. apply ctx_length.
  - exact LA.
  - now apply in_range_bnd.
  - rewrite compressed_modq in E by exact LA. rewrite splice_ctx in E; [exact E|].
    rewrite LO, ByteEncode_length, map_length, modq_length, LA. reflexivity.
Qed.

(** ** Decompression *)
Lemma poly_decompress_avx2_spec lv lpre : exists T, forall r pre c post,
  length r = 256%nat -> length pre = lpre -> byte_array (KYBER_POLYCOMPRESSEDBYTES lv) c ->
  poly_decompress_avx2 lv r (pre ++ c ++ post) (length pre)
    = Ok (map (Decompress (Z.of_nat (dv (PS lv)))) (ByteDecode (dv (PS lv)) c)) T.
Proof.
  destruct (poly_decompress_avx2_wp lv lpre) as [T W]. exists T. intros r pre c post LR LP [LC BC]. subst lpre.
  destruct (W r (pre ++ c ++ post) LR) as (v & E & ->).
  - rewrite <- LC. apply ctx_length.
  - rewrite <- LC, sub_ctx in E. exact E.
Qed.

Lemma polyvec_decompress_avx2_spec lv lpre : exists T, forall r pre c slack post,
  length r = KYBER_K lv -> (forall f, In f r -> length f = 256%nat) -> length pre = lpre ->
  byte_array (KYBER_POLYVECCOMPRESSEDBYTES lv) c ->
  length slack = match lv with Kyber1024 => 10%nat | _ => 12%nat end ->
  polyvec_decompress_avx2 lv r (pre ++ c ++ slack ++ post) (length pre)
    = Ok (map (map (Decompress (Z.of_nat (du (PS lv))))) (decode_vec (PS lv) (du (PS lv)) c)) T.
Proof.
  destruct (polyvec_decompress_avx2_wp lv lpre) as [T W]. exists T. intros r pre c slack post LR HR LP [LC BC] LS. subst lpre.
  destruct (W r (pre ++ c ++ slack ++ post) LR) as (v & E & ->).
  - intros i Hi. apply HR. apply nth_In. lia.
  - change (overread lv) with (match lv with Kyber1024 => 10%nat | _ => 12%nat end). rewrite <- LS, <- LC, !app_length. lia.
  - rewrite E. f_equal. unfold decode_vec. rewrite map_map. unfold mk.
    replace (KYBER_K lv) with (k (PS lv)) by (destruct lv; reflexivity). apply map_ext_in. intros i Hi.
    apply in_seq in Hi. unfold decompressed. f_equal. f_equal. unfold sub.
    rewrite (skipn_app (length pre + 32 * du (PS lv) * i) pre), (skipn_all2 pre) by lia.
    replace (length pre + 32 * du (PS lv) * i - length pre)%nat with (32 * du (PS lv) * i)%nat by lia. cbn [app].
    rewrite skipn_app, firstn_app, skipn_length.
    replace (32 * du (PS lv) - (length c - 32 * du (PS lv) * i))%nat with 0%nat.
    + now rewrite firstn_O, app_nil_r.
    + rewrite LC, (proj1 (cbytes lv)). nia.
Qed.

Lemma poly_frommsg_avx2_spec lpre : exists T, forall r pre m post,
  length r = 256%nat -> length pre = lpre -> byte_array 32 m ->
  poly_frommsg_avx2 r (pre ++ m ++ post) (length pre) = Ok (map (Decompress 1) (ByteDecode 1 m)) T.
Proof.
  destruct (poly_frommsg_avx2_wp lpre) as [T W]. exists T. intros r pre m post LR LP [LM BM]. subst lpre.
  destruct (W r (pre ++ m ++ post) LR) as (v & E & ->).
  - rewrite <- LM. apply ctx_length.
  - rewrite <- LM, sub_ctx in E. exact E.
Qed.

(** ** Noise *)
Lemma poly_cbd_eta1_avx2_spec lv : exists T, forall r B slack,
  length r = 256%nat -> byte_array (64 * eta1 (PS lv)) B -> (length slack >= match lv with Kyber512 => 8 | _ => 0 end)%nat ->
  exists r', poly_cbd_eta1_avx2 lv r (B ++ slack) = Ok r' T /\
    let eta := eta1 (PS lv) in
    length r' = 256%nat /\ modq r' = SamplePolyCBD eta B /\ in_range (- Z.of_nat eta) (Z.of_nat eta) r'.
Proof.
  destruct (poly_cbd_eta1_avx2_wp lv) as [T W]. exists T. intros r B slack LR [LB BB] LS.
  destruct (W r (B ++ slack) LR) as (v & E & EV).
  - rewrite app_length, LB. apply Nat.add_le_mono_l. destruct lv; exact LS.
  - exists v. split; [exact E|]. rewrite <- LB in EV. replace (sub (B ++ slack) 0 (length B)) with B in EV.
    + destruct (getnoise_common _ _ _ EV) as (A1 & A2 & A3 & _). auto.
    + symmetry. exact (sub_ctx [] B slack).
Qed.
Lemma poly_cbd_eta2_avx2_spec : exists T, forall r B slack,
  length r = 256%nat -> byte_array 128 B ->
  exists r', poly_cbd_eta2_avx2 r (B ++ slack) = Ok r' T /\
    length r' = 256%nat /\ modq r' = SamplePolyCBD 2 B /\ in_range (-2) 2 r'.
Proof.
  destruct cbd2_avx2_wp as [T W]. exists T. intros r B slack LR [LB BB].
  destruct (W r (B ++ slack) LR) as (v & E & EV).
  - rewrite app_length, LB. lia.
  - exists v. split; [exact E|]. assert (ES : sub (B ++ slack) 0 128 = B) by (rewrite <- LB; exact (sub_ctx [] B slack)).
    rewrite ES in EV. destruct (getnoise_common _ _ _ EV) as (A1 & A2 & A3 & _). auto.
Qed.

(** ** Comparison and conditional move *)
Lemma verify_avx2_spec ao bo len : exists T, forall pa a sa pb b sb,
  length pa = ao -> byte_array len a -> length pb = bo -> byte_array len b ->
    (a = b -> verify_avx2 (pa ++ a ++ sa) ao (pb ++ b ++ sb) bo len = Ok 0 T) /\
    (a <> b -> verify_avx2 (pa ++ a ++ sa) ao (pb ++ b ++ sb) bo len = Ok 1 T).
Proof.
  destruct (verify_avx2_wp ao bo len) as [T W]. exists T. intros pa a sa pb b sb La [L Ba] Lb [L' Bb].
  specialize (W (pa ++ a ++ sa) (pb ++ b ++ sb)).
  replace (sub (pa ++ a ++ sa) ao len) with a in W by (rewrite <- La, <- L; symmetry; apply sub_ctx).
  replace (sub (pb ++ b ++ sb) bo len) with b in W by (rewrite <- Lb, <- L'; symmetry; apply sub_ctx).
  destruct W as (v & E & [[-> H]|[-> H]]);
    [rewrite <- La, <- L; apply ctx_length|rewrite <- Lb, <- L'; apply ctx_length|now apply all_bytes_bytes..| |];
  split; intros H'; (contradiction || assumption).
Qed.
Lemma cmov_avx2_spec ro xo len : exists T, forall pr r sr px x sx b,
  length pr = ro -> byte_array len r -> length px = xo -> byte_array len x -> b = 0 \/ b = 1 ->
  cmov_avx2 (pr ++ r ++ sr) ro (px ++ x ++ sx) xo len b = Ok (pr ++ (if b =? 1 then x else r) ++ sr) T.
Proof.
  destruct (cmov_avx2_wp ro xo len) as [T W]. exists T. intros pr r sr px x sx b Lr [L Br] Lx [L' Bx] Hb.
  specialize (W (pr ++ r ++ sr) (px ++ x ++ sx) b).
  replace (sub (pr ++ r ++ sr) ro len) with r in W by (rewrite <- Lr, <- L; symmetry; apply sub_ctx).
  replace (sub (px ++ x ++ sx) xo len) with x in W by (rewrite <- Lx, <- L'; symmetry; apply sub_ctx).
  destruct W as (v & E & ->);
    [rewrite <- Lr, <- L; apply ctx_length|rewrite <- Lx, <- L'; apply ctx_length|now apply all_bytes_bytes..|exact Hb|].
  rewrite E. f_equal. destruct (b =? 1); [|reflexivity]. rewrite <- Lr. apply splice_ctx. lia.
Qed.

(** ** Arithmetic on vectors *)
Lemma add_coeffs_mk f g : length f = 256%nat -> length g = 256%nat -> mk 256 (fun i => nth i f 0 + nth i g 0) = add_coeffs f g.
Proof.
  intros Lf Lg. apply (list_eq_nth 0); [rewrite mk_length, add_coeffs_length; lia|]. rewrite mk_length. intros i Hi.
  rewrite nth_mk, add_coeffs_nth by lia. reflexivity.
Qed.
Lemma nth_opp g i : nth i (map Z.opp g) 0 = - nth i g 0.
Proof. exact (map_nth Z.opp g 0 i). Qed.
Lemma sub_coeffs_mk f g : length f = 256%nat -> length g = 256%nat ->
  mk 256 (fun i => nth i f 0 - nth i g 0) = add_coeffs f (map Z.opp g).
Proof.
  intros Lf Lg. apply (list_eq_nth 0); [rewrite mk_length, add_coeffs_length, map_length; lia|]. rewrite mk_length. intros i Hi.
  rewrite nth_mk, add_coeffs_nth by (rewrite ?map_length; lia).
  rewrite nth_opp. lia.
Qed.
Lemma add_range f g i : in_range (-32768) 32767 (add_coeffs f g) -> length f = 256%nat -> length g = 256%nat -> (i < 256)%nat ->
  -32768 <= nth i f 0 + nth i g 0 <= 32767.
Proof.
  intros R Lf Lg Hi. rewrite <- add_coeffs_nth by lia. apply R. apply nth_In. rewrite add_coeffs_length. lia.
Qed.
Lemma poly_add_avx2_spec : exists T, forall r a b,
  length r = 256%nat -> length a = 256%nat -> length b = 256%nat -> in_range (-32768) 32767 (add_coeffs a b) ->
  poly_add_avx2 r a b = Ok (add_coeffs a b) T.
Proof.
  destruct poly_add_avx2_wp as [T W]. exists T. intros r a b LR LA LB HR.
  destruct (W r a b LR LA LB) as (v & E & ->); [intros; now apply add_range|].
  rewrite E. f_equal. now apply add_coeffs_mk.
Qed.
Lemma poly_add_to_avx2_spec : exists T, forall r b,
  length r = 256%nat -> length b = 256%nat -> in_range (-32768) 32767 (add_coeffs r b) ->
  poly_add_to_avx2 r b = Ok (add_coeffs r b) T.
Proof.
  destruct poly_add_to_avx2_wp as [T W]. exists T. intros r b LR LB HR.
  destruct (W r b LR LB) as (v & E & ->); [intros; now apply add_range|].
  rewrite E. f_equal. now apply add_coeffs_mk.
Qed.
Lemma poly_sub_from_avx2_spec : exists T, forall r a,
  length r = 256%nat -> length a = 256%nat -> in_range (-32768) 32767 (add_coeffs a (map Z.opp r)) ->
  poly_sub_from_avx2 r a = Ok (add_coeffs a (map Z.opp r)) T.
Proof.
  destruct poly_sub_from_avx2_wp as [T W]. exists T. intros r a LR LA HR.
  destruct (W r a LR LA) as (v & E & ->).
  { intros i Hi. pose proof (add_range _ _ i HR LA ltac:(now rewrite map_length) Hi) as X.
    rewrite nth_opp in X. lia. }
  rewrite E. f_equal. now apply sub_coeffs_mk.
Qed.

Lemma vheld_avx2 K F v : length F = K -> (forall f, In f F -> length f = 256%nat) ->
  map modq v = map (fun f => avx2_order (modq f)) F -> vheld K F v.
Proof.
  intros LF HF E i Hi. apply lcong_avx2; [apply HF, nth_In; lia|].
  assert (Lv : length v = K) by (apply (f_equal (@length _)) in E; rewrite !map_length in E; lia).
  pose proof (f_equal (fun l => nth i l []) E) as X. cbv beta in X.
  rewrite (nth_indep _ [] (modq [])) in X by (rewrite map_length; lia). rewrite map_nth in X.
  rewrite (nth_indep (map _ F) [] (avx2_order (modq []))) in X by (rewrite map_length; lia).
  rewrite (map_nth (fun f => avx2_order (modq f))) in X. exact X.
Qed.
Lemma avx_basemul_acc_spec lv : exists T, forall (JJ : Junk) F G r a b,
  length F = KYBER_K lv -> (forall f, In f F -> length f = 256%nat) ->
  length G = KYBER_K lv -> (forall g, In g G -> length g = 256%nat) -> length r = 256%nat ->
  vec_within (KYBER_K lv) 4095 a -> vec_within (KYBER_K lv) 16182 b ->
  map modq a = map (fun f => avx2_order (modq f)) F -> map modq b = map (fun g => avx2_order (modq g)) G ->
  exists r', polyvec_basemul_acc_montgomery_avx2 lv r a b = Ok r' T /\ poly_within 21400 r' /\
    modq (map (fun x => 2 ^ 16 * x) r') = avx2_order (ntt_dot F G).
Proof.
  destruct (polyvec_basemul_acc_montgomery_avx2_wp lv) as [T W]. exists T.
  intros JJ F G r a b LF HF LG HG LR RA RB EA EB.
  destruct (W JJ r a b F G LR) as (r' & E & L & B & C).
  - exact (vec_within_vbnd _ 4095 a RA).
  - exact (vec_within_vbnd _ 16182 b RB).
  - split; [exact LF|]. intros i Hi. apply HF, nth_In. lia.
  - split; [exact LG|]. intros i Hi. apply HG, nth_In. lia.
  - now apply vheld_avx2.
  - now apply vheld_avx2.
  - exists r'. split; [exact E|]. split; [now apply babs_poly_within|].
    assert (LM : length (ntt_dot F G) = 256%nat) by apply ntt_dot_length.
    rewrite <- (modq_fix (ntt_dot F G)) by (intros i Hi; apply ntt_dot_canon; now rewrite LM in Hi).
    rewrite <- modq_avx_order by exact LM. apply lcong_modq.
    split; [now rewrite map_length, avx_order_length, L|]. intros i Hi. rewrite map_length, L in Hi.
    change 0 with ((fun x => 2 ^ 16 * x) 0) at 1. rewrite map_nth. rewrite (lcong_nth _ _ i C).
    rewrite !avx_order_nth by exact Hi. rewrite nth_scale by (apply avx_ix_lt; exact Hi).
    exists (3327 * nth (avx_ix i) (ntt_dot F G) 0). lia.
Qed.

(** ** The bytes beyond the end are really accessed *)
Lemma compress11_slack : poly_compress11_avx2 (repeat 0 353) 0 (repeat 0 256) = UB OutOfBounds.
Proof. vm_compute. reflexivity. Qed.
Lemma decompress_slack : poly_decompress10_avx2 (repeat 0 256) (repeat 0 331) 0 = UB OutOfBounds /\
  poly_decompress11_avx2 (repeat 0 256) (repeat 0 361) 0 = UB OutOfBounds.
Proof. split; vm_compute; reflexivity. Qed.
Lemma cbd3_slack : poly_cbd_eta1_avx2 Kyber512 (repeat 0 256) (repeat 0 199) = UB OutOfBounds.
Proof. vm_compute. reflexivity. Qed.

(** ** Data of the examples *)
(** 256 scattered coefficients in [0, q], with both ends attained *)
Lemma scattered_mod : length (modq (scattered 5000)) = 256%nat /\ in_range 0 q (modq (scattered 5000)).
Proof.
  split; [rewrite modq_length; now apply scattered_within|]. intros x Hx. pose proof (modq_small _ x Hx). lia.
Qed.
Lemma case_avx_vec K : length (repeat (modq (scattered 5000)) K) = K /\
  forall f, In f (repeat (modq (scattered 5000)) K) -> length f = 256%nat /\ in_range 0 q f.
Proof.
  split; [apply repeat_length|]. intros f Hf. apply repeat_spec in Hf. subst f. exact scattered_mod.
Qed.
Lemma case_avx_add : length (scattered 16383) = 256%nat /\ in_range (-32768) 32767 (add_coeffs (scattered 16383) (scattered 16383)).
Proof.
  destruct (scattered_within 16383 ltac:(lia)) as [L R]. split; [exact L|].
  intros x Hx. destruct (In_nth _ _ 0 Hx) as (i & Hi & <-). rewrite add_coeffs_nth by reflexivity.
  rewrite add_coeffs_length in Hi. pose proof (R (nth i (scattered 16383) 0) ltac:(apply nth_In; lia)). lia.
Qed.
Lemma case_avx_sub : in_range (-32768) 32767 (add_coeffs (scattered 16383) (map Z.opp (scattered 16000))).
Proof.
  destruct (scattered_within 16383 ltac:(lia)) as [L R]. destruct (scattered_within 16000 ltac:(lia)) as [L' R'].
  intros x Hx. destruct (In_nth _ _ 0 Hx) as (i & Hi & <-). rewrite add_coeffs_nth by (rewrite map_length; congruence).
  rewrite add_coeffs_length, map_length in Hi. rewrite nth_opp.
  pose proof (R (nth i (scattered 16383) 0) ltac:(apply nth_In; lia)).
  pose proof (R' (nth i (scattered 16000) 0) ltac:(apply nth_In; lia)). lia.
Qed.
Lemma case_avx_held K : vec_within K 4095 (repeat (avx2_order (modq (scattered 5000))) K) /\
  map modq (repeat (avx2_order (modq (scattered 5000))) K) = map (fun f => avx2_order (modq f)) (repeat (scattered 5000) K).
Proof.
  split.
  - split; [apply repeat_length|]. intros f Hf. apply repeat_spec in Hf. subst f. exact case_avx_small.
  - induction K as [|K IH]; [reflexivity|]. cbn [repeat map]. rewrite IH. now rewrite (proj2 case_avx_order).
Qed.
