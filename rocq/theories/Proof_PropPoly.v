(** * C14-C23 and C32 in the form of the property statements *)
From Coq Require Import ZArith List Lia Bool.
From Verif Require Import CMonad WP Modq Proof_Base Sums Model_Params Model_Reduce Model_NTT Model_Poly Model_Polyvec
  Model_Symmetric Model_Indcpa Levels Spec_FIPS202 Spec_FIPS203 Proof_Reduce Proof_NTT Proof_NTTSpec Proof_RingMul Proof_Poly
  Proof_Bits Proof_Compress Proof_Codec Proof_Codec2 Proof_Codec3 Proof_PolyvecCodec Proof_CBD Proof_Hash Proof_Symmetric
  Proof_Polyvec Proof_Indcpa Proof_Encrypt Proof_Kem Spec_Noise Proof_Correct Vocab Proof_Vocab.
Import ListNotations.
Open Scope Z_scope.
Open Scope cmonad_scope.
Local Opaque SHAKE256.

(** ** C14 *)
Lemma modq_NTT f : modq (NTT f) = NTT f. Proof. apply modq_mk. Qed.
Lemma modq_NTTinv f : modq (NTTinv f) = NTTinv f. Proof. apply modq_mk. Qed.

Lemma poly_ntt_spec r : poly_within 9471 r ->
  exists r' T, poly_ntt r = Ok r' T /\ poly_within 1664 r' /\ modq r' = NTT r.
Proof.
  intros HR. apply poly_within_babs in HR as [L B]. destruct poly_ntt_wp as [T W].
  destruct (W r L B) as (r' & E & L' & B' & C). exists r', T. split; [exact E|]. split; [now apply babs_poly_within|].
  rewrite <- modq_NTT. now apply lcong_modq.
Qed.

(** After [m] of the seven layers *)
Lemma ntt_layers_bounded r m : poly_within 9471 r -> (m <= 7)%nat ->
  exists r' k T, for_ m 0 (fun l s => ntt_layer (128 / 2 ^ l) s) (r, 1%nat) = Ok (r', k) T /\
    poly_within (9471 + Z.of_nat m * 3328) r'.
Proof.
  intros HR Hm. apply poly_within_babs in HR as [L B].
  assert (W : exists T, wp (for_ m 0 (fun l s => ntt_layer (128 / 2 ^ l) s) (r, 1%nat)) T
    (fun s => snd s = (2 ^ m)%nat /\ length (fst s) = 256%nat /\ babs (9471 + Z.of_nat m * 3328) (fst s))).
  { eexists. eapply (wp_for _ (fun l s => snd s = (2 ^ l)%nat /\ length (fst s) = 256%nat /\
      babs (9471 + Z.of_nat l * 3328) (fst s))).
    - cbn [fst snd]. replace (9471 + Z.of_nat 0 * 3328) with 9471 by lia. auto.
    - intros l [r1 k] Hl1 (Hk & Hl2 & Hb). cbn [fst snd] in *. subst k.
      destruct (layer_len_facts l ltac:(lia)) as (F1 & F2 & F3 & F4).
      eapply wp_conseq.
      { apply (proj2_sig (ntt_layer_wp (128 / 2 ^ l) (2 ^ l)) (9471 + Z.of_nat l * 3328)); auto; lia. }
      intros [r2 k] (Hk & Hl3 & Hb2 & Hc2). cbn [fst snd] in *. rewrite F3 in Hk.
      split; [rewrite Hk; cbn [Nat.pow]; lia|split; [auto|]].
      replace (9471 + Z.of_nat (S l) * 3328) with (9471 + Z.of_nat l * 3328 + 3328) by lia. auto.
    - intros [r1 k]. cbn [fst snd Nat.add]. auto. }
  destruct W as (T & [r' k] & E & _ & L' & B'). cbn [fst] in *. exists r', k, T. auto using babs_poly_within.
Qed.

(** ** C15 *)
Lemma scale_map c f : length f = 256%nat -> scale c f = map (fun x => c * x) f.
Proof. intros L. unfold scale. rewrite <- L. apply (mk_map_nth 0 (fun x => c * x)). Qed.

Lemma poly_invntt_spec r : poly_within 16383 r ->
  exists r' T, poly_invntt_tomont r = Ok r' T /\ poly_within 3328 r' /\
    modq r' = map (fun x => 2 ^ 16 * x mod q) (NTTinv r).
Proof.
  intros HR. apply poly_within_babs in HR as [L B]. destruct poly_invntt_tomont_wp as [T W].
  destruct (W r L B) as (r' & E & L' & B' & C). exists r', T. split; [exact E|]. split; [now apply babs_poly_within|].
  rewrite (lcong_modq _ _ C), scale_map by (apply map_length). unfold modq. now rewrite map_map.
Qed.

Lemma NTTinv_modq f g : length f = 256%nat -> modq f = modq g -> NTTinv f = NTTinv g.
Proof.
  intros L E. rewrite <- (modq_NTTinv f), <- (modq_NTTinv g). f_equal. apply NTTinv_cong. now apply modq_lcong.
Qed.

Lemma ntt_roundtrip r : poly_within 9471 r ->
  exists r1 T1 r2 T2, poly_ntt r = Ok r1 T1 /\ poly_invntt_tomont r1 = Ok r2 T2 /\
    poly_within 3328 r2 /\ modq r2 = map (fun x => 2 ^ 16 * x mod q) r.
Proof.
  intros HR. destruct (poly_ntt_spec r HR) as (r1 & T1 & E1 & W1 & C1).
  destruct (poly_invntt_spec r1) as (r2 & T2 & E2 & W2 & C2).
  { destruct W1 as [L1 R1]. split; auto. intros x Hx. specialize (R1 x Hx). lia. }
  exists r1, T1, r2, T2. split; [exact E1|split; [exact E2|split; [exact W2|]]].
  rewrite C2. pose proof (NTTinv_NTT r) as I. apply poly_within_babs in HR as [L B].
  assert (EI : modq (NTTinv r1) = modq r).
  { rewrite (NTTinv_modq r1 (NTT r)); [|apply W1|now rewrite modq_NTT]. apply lcong_modq. now apply I. }
  transitivity (map (fun x => 2 ^ 16 * x mod q) (modq (NTTinv r1))).
  - now rewrite modq_NTTinv.
  - rewrite EI. unfold modq. rewrite map_map. apply map_ext. intros x. apply Zmult_mod_idemp_r.
Qed.

(** ** C16 *)
Lemma ntt_multiplication r a b : length r = 256%nat -> poly_within 9471 a -> poly_within 9471 b ->
  exists a' Ta b' Tb p Tp c Tc,
    poly_ntt a = Ok a' Ta /\ poly_ntt b = Ok b' Tb /\
    poly_basemul_montgomery r a' b' = Ok p Tp /\ poly_invntt_tomont p = Ok c Tc /\
    poly_within 3328 c /\ modq c = ring_mul a b.
Proof.
  intros LR HA HB. destruct (poly_ntt_spec a HA) as (a' & Ta & Ea & Wa & Ca).
  destruct (poly_ntt_spec b HB) as (b' & Tb & Eb & Wb & Cb).
  apply poly_within_babs in Wa as [La Ba]. apply poly_within_babs in Wb as [Lb Bb].
  destruct poly_basemul_montgomery_wp as [Tp Wp].
  destruct (Wp r a' b' LR La Lb) as (p & Ep & Lp & Bp & Cp).
  { apply (babs_int16s 1664); [lia|exact Ba]. } { apply (babs_weaken 1664); [lia|exact Bb]. }
  destruct poly_invntt_tomont_wp as [Tc Wc].
  destruct (Wc p Lp) as (c & Ec & Lc & Bc & Cc). { apply (babs_weaken 6656); [lia|exact Bp]. }
  exists a', Ta, b', Tb, p, Tp, c, Tc. repeat (split; [assumption|]). split; [now apply babs_poly_within|].
  rewrite (lcong_modq _ _ (invntt_dot _ _ _ Cc Cp)), modq_NTTinv, <- NTTinv_MultiplyNTTs.
  f_equal. apply MultiplyNTTs_cong; apply modq_lcong; now rewrite modq_NTT.
Qed.

(** ** C17 *)
Lemma cong_sub a b : a ≡ b -> (a - b) mod q = 0.
Proof. intros [c ->]. replace (b + c * 3329 - b) with (c * q) by (unfold q; lia). apply Z_mod_mult. Qed.

Lemma montgomery_reduce_contract a : - (q * 2 ^ 15) <= a <= q * 2 ^ 15 - 1 ->
  exists r, montgomery_reduce a = Ok r [] /\ - q < r < q /\ (r * 2 ^ 16 - a) mod q = 0.
Proof.
  intros Ha. destruct (montgomery_reduce_doc a Ha) as (r & E & R & C). exists r.
  split; [exact E|]. split; [exact R|]. now apply cong_sub.
Qed.
Lemma montgomery_reduce_safe a : - 2 ^ 31 + q * 2 ^ 15 <= a <= 2 ^ 31 - 1 - q * 2 ^ 15 ->
  exists r, montgomery_reduce a = Ok r [] /\ -2 ^ 15 <= r < 2 ^ 15 /\ (r * 2 ^ 16 - a) mod q = 0.
Proof.
  intros Ha. destruct (montgomery_reduce_wp a Ha) as (r & E & t & Ht & Eq & R). exists r.
  split; [exact E|]. split; [lia|]. replace (r * 2 ^ 16 - a) with (- t * q) by (unfold q; lia). apply Z_mod_mult.
Qed.
Lemma montgomery_reduce_overflows :
  montgomery_reduce 2147483638 = UB SignedOverflow /\ montgomery_reduce (-2147283652) = UB SignedOverflow.
Proof. split; reflexivity. Qed.

(** ** C18 *)
Lemma barrett_reduce_contract a : -2 ^ 15 <= a < 2 ^ 15 ->
  exists r, barrett_reduce a = Ok r [] /\ - ((q - 1) / 2) <= r <= (q - 1) / 2 /\ (r - a) mod q = 0.
Proof.
  intros Ha. destruct (barrett_reduce_wp a ltac:(lia)) as (r & E & R & C). exists r.
  split; [exact E|]. split; [exact R|]. now apply cong_sub.
Qed.

(** ** C19 *)
Lemma compressed_modq d a : length a = 256%nat -> compressed d a = map (Compress d) (modq a).
Proof. intros L. unfold compressed, modq. rewrite map_map, <- L. apply (mk_map_nth 0 (fun x => Compress d (x mod q))). Qed.
Lemma canonical_modq a : length a = 256%nat -> canonical a = modq a.
Proof. intros L. unfold canonical, modq. rewrite <- L. apply (mk_map_nth 0 (fun x => x mod q)). Qed.

Lemma poly_compress_spec lv (JJ : Junk) pre old post a :
  length old = KYBER_POLYCOMPRESSEDBYTES lv -> poly_within 3328 a ->
  exists T, poly_compress lv (pre ++ old ++ post) (length pre) a
    = Ok (pre ++ ByteEncode (dv (PS lv)) (map (Compress (Z.of_nat (dv (PS lv)))) (modq a)) ++ post) T.
Proof.
  intros LO [LA RA]. destruct (poly_compress_wp lv (length pre)) as [T W]. exists T.
  destruct (W JJ (pre ++ old ++ post) a) as (v & E & ->).
  - rewrite <- LO. apply ctx_length.
  - exact LA.
  - now apply in_range_bnd.
  - rewrite compressed_modq in E by exact LA. rewrite splice_ctx in E; [exact E|].
    rewrite LO, ByteEncode_length, map_length, modq_length, LA. destruct lv; reflexivity.
Qed.

Lemma vec_within_vbnd K B v : vec_within K B v -> vbnd K (- B) B v.
Proof.
  intros [L R]. split; [exact L|]. intros i Hi.
  destruct (R (nth i v []) ltac:(apply nth_In; lia)) as [L1 R1]. split; [exact L1|]. now apply in_range_bnd.
Qed.

Lemma flat_map_eq_in {A B} (f g : A -> list B) l : (forall x, In x l -> f x = g x) -> flat_map f l = flat_map g l.
Proof. intros H. rewrite !flat_map_concat_map. f_equal. now apply map_ext_in. Qed.

Lemma polyvec_compress_spec lv (JJ : Junk) pre old post a :
  length old = KYBER_POLYVECCOMPRESSEDBYTES lv -> vec_within (KYBER_K lv) 3328 a ->
  exists T, polyvec_compress lv (pre ++ old ++ post) (length pre) a
    = Ok (pre ++ flat_map (fun f => ByteEncode (du (PS lv)) (map (Compress (Z.of_nat (du (PS lv)))) (modq f))) a ++ post) T.
Proof.
  intros LO HA. destruct (polyvec_compress_wp lv (length pre)) as [T W]. exists T.
  destruct (W JJ (pre ++ old ++ post) a) as (v & E & ->).
  - rewrite <- LO. apply ctx_length.
  - exact (vec_within_vbnd _ 3328 a HA).
  - assert (EF : flat_map (compressed_bytes (du (PS lv))) a =
      flat_map (fun f => ByteEncode (du (PS lv)) (map (Compress (Z.of_nat (du (PS lv)))) (modq f))) a).
    { apply flat_map_eq_in. intros f Hf. unfold compressed_bytes. now rewrite compressed_modq by (apply HA, Hf). }
    rewrite <- EF. rewrite splice_ctx in E; [exact E|].
    rewrite LO, (flat_map_const_length _ (32 * du (PS lv))) by (apply compressed_bytes_length).
    destruct HA as [-> _]. destruct lv; reflexivity.
Qed.

Lemma poly_tomsg_spec pre old post a : length old = 32%nat -> length a = 256%nat -> in_range (-2496) 32767 a ->
  exists T, poly_tomsg (pre ++ old ++ post) (length pre) a
    = Ok (pre ++ ByteEncode 1 (map (Compress 1) (modq a)) ++ post) T.
Proof.
  intros LO LA RA. destruct (poly_tomsg_wide_wp (length pre)) as [T W]. exists T.
  destruct (W (pre ++ old ++ post) a) as (v & E & ->).
  - rewrite <- LO. apply ctx_length.
  - exact LA.
  - now apply in_range_bnd.
  - rewrite compressed_modq in E by exact LA. rewrite splice_ctx in E; [exact E|].
    rewrite LO, ByteEncode_length, map_length, modq_length, LA. reflexivity.
Qed.

(** ** C20 *)
Lemma poly_decompress_spec lv (JJ : Junk) r pre c post :
  length r = 256%nat -> length c = KYBER_POLYCOMPRESSEDBYTES lv -> all_bytes (pre ++ c ++ post) ->
  exists T, poly_decompress lv r (pre ++ c ++ post) (length pre)
    = Ok (map (Decompress (Z.of_nat (dv (PS lv)))) (ByteDecode (dv (PS lv)) c)) T.
Proof.
  intros LR LC HB. destruct (poly_decompress_wp lv (length pre)) as [T W]. exists T.
  destruct (W JJ r (pre ++ c ++ post) LR) as (v & E & ->).
  - rewrite <- LC. apply ctx_length.
  - now apply all_bytes_bytes.
  - rewrite <- LC, sub_ctx in E. exact E.
Qed.

Lemma wf_du lv : (1 <= du (PS lv) <= 11)%nat. Proof. destruct lv; cbn; lia. Qed.
Lemma wf_dv lv : (1 <= dv (PS lv) <= 11)%nat. Proof. destruct lv; cbn; lia. Qed.
Lemma cbytes lv : KYBER_POLYVECCOMPRESSEDBYTES lv = (32 * du (PS lv) * k (PS lv))%nat /\
  KYBER_POLYCOMPRESSEDBYTES lv = (32 * dv (PS lv))%nat /\ KYBER_K lv = k (PS lv).
Proof. destruct lv; repeat split. Qed.

Lemma polyvec_decompress_spec lv (JJ : Junk) r pre c post :
  length r = KYBER_K lv -> (forall f, In f r -> length f = 256%nat) ->
  length c = KYBER_POLYVECCOMPRESSEDBYTES lv -> all_bytes (pre ++ c ++ post) ->
  exists T, polyvec_decompress lv r (pre ++ c ++ post) (length pre)
    = Ok (map (map (Decompress (Z.of_nat (du (PS lv))))) (decode_vec (PS lv) (du (PS lv)) c)) T.
Proof.
  intros LR HR LC HB. destruct (polyvec_decompress_wp lv (length pre)) as [T W]. exists T.
  destruct (W JJ r (pre ++ c ++ post) LR) as (v & E & ->).
  - intros i Hi. apply HR. apply nth_In. lia.
  - rewrite <- LC. apply ctx_length.
  - now apply all_bytes_bytes.
  - rewrite E. f_equal. unfold decode_vec. rewrite map_map. unfold mk.
    replace (KYBER_K lv) with (k (PS lv)) by (destruct lv; reflexivity). apply map_ext_in. intros i Hi.
    apply in_seq in Hi. unfold decompressed. f_equal. f_equal. unfold sub.
    rewrite (skipn_app (length pre + 32 * du (PS lv) * i) pre), (skipn_all2 pre) by lia.
    replace (length pre + 32 * du (PS lv) * i - length pre)%nat with (32 * du (PS lv) * i)%nat by lia. cbn [app].
    rewrite skipn_app, firstn_app, skipn_length.
    replace (32 * du (PS lv) - (length c - 32 * du (PS lv) * i))%nat with 0%nat.
    + now rewrite firstn_O, app_nil_r.
    + rewrite LC, (proj1 (cbytes lv)). nia.
Qed.

(** Rounding errors of compression; the domain is finite *)
Definition round_error_ok (d x : Z) : bool :=
  let e := (Decompress d (Compress d x) - x) mod q in
  let b := (q + 2 ^ d) / 2 ^ (d + 1) in
  (e <=? b) || (q - b <=? e).
Lemma compression_error d x : 1 <= d <= 11 -> 0 <= x < q ->
  let e := (Decompress d (Compress d x) - x) mod q in
  let b := (q + 2 ^ d) / 2 ^ (d + 1) in
  e <= b \/ q - b <= e.
Proof.
  intros Hd Hx. assert (S : sweep (fun d => sweep (round_error_ok d) 0 3329) 1 11 = true) by (vm_compute; reflexivity).
  pose proof (sweep_spec _ _ _ S d ltac:(lia)) as S1. cbv beta in S1.
  pose proof (sweep_spec _ _ _ S1 x ltac:(unfold q in Hx; lia)) as S2. unfold round_error_ok in S2.
  apply orb_prop in S2. cbv zeta. destruct S2 as [S2|S2]; apply Z.leb_le in S2; auto.
Qed.

Lemma Decompress_range d y : 1 <= d <= 11 -> 0 <= y < 2 ^ d -> 0 <= Decompress d y < q.
Proof.
  intros Hd Hy. rewrite Decompress_floor by lia. unfold q.
  assert (P : 2 ^ d = 2 * 2 ^ (d - 1)) by (rewrite <- Z.pow_succ_r by lia; f_equal; lia).
  assert (U : 2 ^ d <= 2 ^ 11) by (apply Z.pow_le_mono_r; lia). change (2 ^ 11) with 2048 in U.
  assert (0 < 2 ^ (d - 1)) by (apply Z.pow_pos_nonneg; lia).
  split; [apply Z.div_pos; lia|]. apply Z.div_lt_upper_bound; lia.
Qed.

Lemma Compress_Decompress d y : 1 <= d <= 11 -> 0 <= y < 2 ^ d -> Compress d (Decompress d y) = y.
Proof.
  intros Hd Hy.
  assert (S : sweep (fun d => sweep (fun y => Compress d (Decompress d y) =? y) 0 (Z.to_pos (2 ^ d))) 1 11 = true)
    by (vm_compute; reflexivity).
  pose proof (sweep_spec _ _ _ S d ltac:(lia)) as S1. cbv beta in S1.
  assert (0 < 2 ^ d) by (apply Z.pow_pos_nonneg; lia).
  pose proof (sweep_spec _ _ _ S1 y ltac:(rewrite Z2Pos.id; lia)) as S2. now apply Z.eqb_eq in S2.
Qed.

(** ** C21 *)
Lemma ByteDecode_mk d B : (d <> 12)%nat -> ByteDecode d B = mk 256 (field d B).
Proof.
  intros Hd. apply (list_eq_nth 0); [now rewrite ByteDecode_length, mk_length|]. rewrite ByteDecode_length.
  intros i Hi. rewrite nth_mk by auto. now apply ByteDecode_small.
Qed.

Lemma poly_tobytes_spec pre old post a : length old = 384%nat -> poly_within 3328 a ->
  exists T, poly_tobytes (pre ++ old ++ post) (length pre) a = Ok (pre ++ ByteEncode 12 (modq a) ++ post) T.
Proof.
  intros LO [LA RA]. destruct (poly_tobytes_wp (length pre)) as [T W]. exists T.
  destruct (W (pre ++ old ++ post) a) as (v & E & ->).
  - rewrite <- LO. apply ctx_length.
  - exact LA.
  - now apply in_range_bnd.
  - rewrite canonical_modq in E by exact LA. rewrite splice_ctx in E; [exact E|].
    rewrite LO, ByteEncode_length, modq_length, LA. reflexivity.
Qed.

Lemma modq_range a x : In x (modq a) -> 0 <= x < q.
Proof. intros Hx. apply in_map_iff in Hx as (y & <- & _). apply Z.mod_pos_bound. reflexivity. Qed.
Lemma nth_range (lo hi : Z) (l : list Z) i : (i < length l)%nat -> (forall x, In x l -> lo <= x < hi) -> lo <= nth i l 0 < hi.
Proof. intros Hi H. apply H. now apply nth_In. Qed.

Lemma splice0_all {A} (r E : list A) : length r = length E -> splice r 0 E = E.
Proof. intros L. now apply splice_all. Qed.

Lemma tobytes_frombytes r buf a : length r = 256%nat -> length buf = 384%nat -> poly_within 3328 a ->
  exists b T1 T2, poly_tobytes buf 0 a = Ok b T1 /\ poly_frombytes r b 0 = Ok (modq a) T2.
Proof.
  intros LR LB [LA RA]. destruct (poly_tobytes_wp 0) as [T1 W1]. destruct (poly_frombytes_wp 0) as [T2 W2].
  set (b := ByteEncode 12 (modq a)).
  assert (Lb : length b = 384%nat) by (unfold b; rewrite ByteEncode_length, modq_length, LA; reflexivity).
  exists b, T1, T2. split.
  - destruct (W1 buf a ltac:(lia) LA (in_range_bnd _ _ _ RA)) as (v & E & ->). rewrite E. f_equal.
    rewrite canonical_modq by exact LA. apply splice0_all. fold b. lia.
  - assert (Bb : bytes b). { intros i Hi. pose proof (ByteEncode_byte 12 (modq a) i) as BB. fold b in BB. lia. }
    destruct (W2 r b LR ltac:(lia) Bb) as (v & E & ->). rewrite E. f_equal.
    rewrite sub_self by exact Lb. apply (list_eq_nth 0); [now rewrite mk_length, modq_length|]. rewrite mk_length.
    intros i Hi. rewrite nth_mk by auto. apply field_ByteEncode.
    + rewrite modq_length, LA. fold b. lia.
    + rewrite modq_length. lia.
    + pose proof (nth_range 0 q (modq a) i ltac:(rewrite modq_length; lia) (modq_range a)). unfold q in *. 
      change (2 ^ Z.of_nat 12) with 4096. lia.
Qed.

Lemma frombytes_tobytes r buf b : length r = 256%nat -> length buf = 384%nat -> length b = 384%nat -> all_bytes b ->
  exists a T1 T2, poly_frombytes r b 0 = Ok a T1 /\ in_range 0 4095 a /\ poly_tobytes buf 0 a = Ok b T2.
Proof.
  intros LR LB Lb HB. apply all_bytes_bytes in HB.
  destruct (poly_frombytes_wp 0) as [T1 W1]. destruct (poly_tobytes_lift_wp 0) as [T2 W2].
  destruct (W1 r b LR ltac:(lia) HB) as (a & E & EA). rewrite sub_self in EA by exact Lb.
  assert (RA : bnd 0 4095 a).
  { intros i Hi. rewrite EA in *. rewrite mk_length in Hi. rewrite nth_mk by auto. pose proof (field_range 12 b i) as F.
    change (2 ^ Z.of_nat 12) with 4096 in F. lia. }
  exists a, T1, T2. split; [exact E|]. split; [now apply bnd_in_range|].
  assert (LA : length a = 256%nat) by (rewrite EA; apply mk_length).
  destruct (W2 buf a ltac:(lia) LA) as (v & E2 & ->). { intros i Hi. specialize (RA i Hi). lia. }
  rewrite E2. f_equal.
  assert (EL : lifted a = a).
  { apply (list_eq_nth 0); [now rewrite lifted_length|]. rewrite lifted_length. intros i Hi. rewrite nth_lifted by auto.
    unfold lift. specialize (RA i ltac:(lia)). destruct (Z.ltb_spec (nth i a 0) 0); lia. }
  rewrite EL, EA. rewrite ByteEncode_field; [|lia|lia|exact HB]. apply splice0_all. lia.
Qed.

(** ** C22 *)
Lemma add_coeffs_length f g : length (add_coeffs f g) = Nat.min (length f) (length g).
Proof. unfold add_coeffs. now rewrite map_length, combine_length. Qed.
Lemma add_coeffs_nth f g i : length f = length g -> nth i (add_coeffs f g) 0 = nth i f 0 + nth i g 0.
Proof.
  intros L. unfold add_coeffs. change 0 with ((fun p => fst p + snd p) (0, 0)) at 1.
  rewrite map_nth, combine_nth by exact L. reflexivity.
Qed.

Lemma frommsg_ok p m : length p = 256%nat -> length m = 32%nat -> all_bytes m ->
  exists T, poly_frommsg p m 0 = Ok (map (Decompress 1) (ByteDecode 1 m)) T.
Proof.
  intros LP LM HM. destruct (poly_frommsg_wp 0) as [T W]. exists T.
  destruct (W p m LP ltac:(lia) (all_bytes_bytes _ HM)) as (v & E & ->). rewrite sub_self in E by exact LM. exact E.
Qed.

Lemma bit_value m i : (i < 256)%nat ->
  nth i (map (Decompress 1) (ByteDecode 1 m)) 0 = Decompress 1 (field 1 m i) /\ (field 1 m i = 0 \/ field 1 m i = 1).
Proof.
  intros Hi. rewrite (map_nth_lt (Decompress 1) (ByteDecode 1 m) i 0 0) by (now rewrite ByteDecode_length).
  rewrite ByteDecode_small by (auto; lia). split; [reflexivity|].
  pose proof (field_range 1 m i) as R. change (2 ^ Z.of_nat 1) with 2 in R. lia.
Qed.

Lemma mod_cong_sum a f e i : modq a = modq (add_coeffs f e) -> length f = length e -> nth i (modq a) 0 ≡ nth i f 0 + nth i e 0.
Proof.
  intros E L. rewrite <- add_coeffs_nth by exact L. rewrite E, nth_modq.
  exists (- (nth i (add_coeffs f e) 0 / q)). pose proof (Z_div_mod_eq_full (nth i (add_coeffs f e) 0) q). unfold q in *. lia.
Qed.

Lemma message_tolerance p buf m e : length p = 256%nat -> length buf = 32%nat ->
  length m = 32%nat -> all_bytes m -> length e = 256%nat -> in_range (-832) 831 e ->
  exists f T1, poly_frommsg p m 0 = Ok f T1 /\
    forall a, in_range (-2496) 32767 a -> modq a = modq (add_coeffs f e) ->
    exists T2, poly_tomsg buf 0 a = Ok m T2.
Proof.
  intros LP LB LM HM LE RE. destruct (frommsg_ok p m LP LM HM) as [T1 E1]. eexists _, T1. split; [exact E1|].
  intros a RA EA. set (f := map (Decompress 1) (ByteDecode 1 m)) in *.
  assert (LF : length f = 256%nat) by (unfold f; rewrite map_length; apply ByteDecode_length).
  assert (LA : length a = 256%nat).
  { pose proof (f_equal (@length Z) EA) as K. rewrite !modq_length, add_coeffs_length, LF, LE in K. exact K. }
  destruct (poly_tomsg_spec [] buf [] a LB LA RA) as [T2 E2]. exists T2. cbn [app length] in E2.
  rewrite !app_nil_r in E2. rewrite E2. f_equal.
  transitivity (ByteEncode 1 (mk 256 (field 1 m))); [|apply ByteEncode_field; [lia|lia|now apply all_bytes_bytes]].
  f_equal. apply (list_eq_nth 0); [now rewrite map_length, modq_length, mk_length|].
  rewrite map_length, modq_length, LA. intros i Hi. rewrite nth_mk by auto.
  rewrite (map_nth_lt (Compress 1) (modq a) i 0 0) by (rewrite modq_length; lia).
  destruct (bit_value m i Hi) as [FV FB]. fold f in FV.
  apply (Compress1_noise _ (nth i e 0)); [exact FB| | |].
  - apply nth_range; [rewrite modq_length; lia|apply modq_range].
  - apply RE. apply nth_In. lia.
  - rewrite <- FV. apply mod_cong_sum; [exact EA|lia].
Qed.

(** One step beyond the interval, the bit flips *)
Lemma message_tolerance_exact p buf m e i : length p = 256%nat -> length buf = 32%nat ->
  length m = 32%nat -> all_bytes m -> length e = 256%nat -> (i < 256)%nat ->
  (nth i e 0 = 832 /\ nth i (ByteDecode 1 m) 0 = 1) \/ nth i e 0 = -833 ->
  exists f T1, poly_frommsg p m 0 = Ok f T1 /\
    forall a, in_range (-2496) 32767 a -> modq a = modq (add_coeffs f e) ->
    exists m' T2, poly_tomsg buf 0 a = Ok m' T2 /\ m' <> m.
Proof.
  intros LP LB LM HM LE Hi HE. destruct (frommsg_ok p m LP LM HM) as [T1 E1]. eexists _, T1. split; [exact E1|].
  intros a RA EA. set (f := map (Decompress 1) (ByteDecode 1 m)) in *.
  assert (LF : length f = 256%nat) by (unfold f; rewrite map_length; apply ByteDecode_length).
  assert (LA : length a = 256%nat).
  { pose proof (f_equal (@length Z) EA) as K. rewrite !modq_length, add_coeffs_length, LF, LE in K. exact K. }
  destruct (poly_tomsg_spec [] buf [] a LB LA RA) as [T2 E2]. eexists _, T2. cbn [app length] in E2.
  rewrite !app_nil_r in E2. split; [exact E2|]. intros EM.
  apply (f_equal (fun l => field 1 l i)) in EM. cbv beta in EM.
  rewrite field_ByteEncode in EM.
  2: { rewrite ByteEncode_length, map_length, modq_length, LA. reflexivity. }
  2: { rewrite map_length, modq_length. lia. }
  2: { rewrite (map_nth_lt (Compress 1) (modq a) i 0 0) by (rewrite modq_length; lia). now apply Compress_range. }
  rewrite (map_nth_lt (Compress 1) (modq a) i 0 0) in EM by (rewrite modq_length; lia).
  destruct (bit_value m i Hi) as [FV FB]. fold f in FV. rewrite ByteDecode_small in HE by (auto; lia).
  pose proof (nth_range 0 q (modq a) i ltac:(rewrite modq_length; lia) (modq_range a)) as R.
  pose proof (mod_cong_sum a f e i EA ltac:(lia)) as [z C]. rewrite FV in C.
  set (x := nth i (modq a) 0) in *. clearbody x. rewrite Compress_floor in EM by lia.
  rewrite Decompress_floor in C by lia. change (2 ^ 1) with 2 in *. change (2 ^ (1 - 1)) with 1 in *. unfold q in R.
  destruct FB as [F0|F1].
  - rewrite F0 in *. destruct HE as [[_ HE]|HE]; [discriminate|]. rewrite HE in C. change ((3329 * 0 + 1) / 2) with 0 in C.
    assert (EX : x = 2496) by lia. rewrite EX in EM. rewrite ?F0, ?F1 in EM. vm_compute in EM. discriminate EM.
  - rewrite F1 in *. change ((3329 * 1 + 1) / 2) with 1665 in C. destruct HE as [[HE _]|HE]; rewrite HE in C.
    + assert (EX : x = 2497) by lia. rewrite EX in EM. rewrite ?F0, ?F1 in EM. vm_compute in EM. discriminate EM.
    + assert (EX : x = 832) by lia. rewrite EX in EM. rewrite ?F0, ?F1 in EM. vm_compute in EM. discriminate EM.
Qed.

(** ** C23 *)
Lemma seed_ctx (pre seed post : list Z) : length seed = 32%nat -> sub (pre ++ seed ++ post) (length pre) 32 = seed.
Proof. intros <-. apply sub_ctx. Qed.

Lemma getnoise_common eta B (r : list Z) : r = mk 256 (cbdz eta B) ->
  length r = 256%nat /\ modq r = SamplePolyCBD eta B /\ in_range (- Z.of_nat eta) (Z.of_nat eta) r /\
  forall i, (i < 256)%nat -> nth i r 0 =
    sumz eta (fun j => nth (2 * i * eta + j) (BytesToBits B) 0)
    - sumz eta (fun j => nth (2 * i * eta + eta + j) (BytesToBits B) 0).
Proof.
  intros ->. split; [apply mk_length|]. split; [|split].
  - rewrite (lcong_modq _ _ (SamplePolyCBD_cbdz eta B)). apply modq_mk.
  - intros x Hx. unfold mk in Hx. apply in_map_iff in Hx as (i & <- & _). apply cbdz_range.
  - intros i Hi. now rewrite nth_mk.
Qed.

Lemma getnoise_eta1_spec lv (JJ : Junk) r pre seed post nonce :
  length r = 256%nat -> length seed = 32%nat -> all_bytes (pre ++ seed ++ post) -> 0 <= nonce < 256 ->
  exists r' T, poly_getnoise_eta1 lv r (pre ++ seed ++ post) (length pre) nonce = Ok r' T /\
    let eta := eta1 (PS lv) in
    let B := SHAKE256 (seed ++ [nonce]) (64 * eta) in
    length r' = 256%nat /\ modq r' = SamplePolyCBD eta B /\ in_range (- Z.of_nat eta) (Z.of_nat eta) r' /\
    forall i, (i < 256)%nat -> nth i r' 0 =
      sumz eta (fun j => nth (2 * i * eta + j) (BytesToBits B) 0)
      - sumz eta (fun j => nth (2 * i * eta + eta + j) (BytesToBits B) 0).
Proof.
  intros LR LS HB HN. destruct (poly_getnoise_eta1_wp lv (length pre) nonce) as [T W].
  destruct (W JJ r (pre ++ seed ++ post) LR) as (v & E & EV).
  - rewrite <- LS. apply ctx_length.
  - now apply all_bytes_bytes.
  - lia.
  - exists v, T. split; [exact E|]. rewrite (seed_ctx pre seed post LS) in EV. unfold PRF in EV. exact (getnoise_common _ _ _ EV).
Qed.
Lemma getnoise_eta2_spec lv (JJ : Junk) r pre seed post nonce :
  length r = 256%nat -> length seed = 32%nat -> all_bytes (pre ++ seed ++ post) -> 0 <= nonce < 256 ->
  exists r' T, poly_getnoise_eta2 r (pre ++ seed ++ post) (length pre) nonce = Ok r' T /\
    let eta := eta2 (PS lv) in
    let B := SHAKE256 (seed ++ [nonce]) (64 * eta) in
    length r' = 256%nat /\ modq r' = SamplePolyCBD eta B /\ in_range (- Z.of_nat eta) (Z.of_nat eta) r' /\
    forall i, (i < 256)%nat -> nth i r' 0 =
      sumz eta (fun j => nth (2 * i * eta + j) (BytesToBits B) 0)
      - sumz eta (fun j => nth (2 * i * eta + eta + j) (BytesToBits B) 0).
Proof.
  intros LR LS HB HN. destruct (poly_getnoise_eta2_wp (length pre) nonce) as [T W].
  replace (eta2 (PS lv)) with 2%nat by (destruct lv; reflexivity).
  destruct (W JJ r (pre ++ seed ++ post) LR) as (v & E & EV).
  - rewrite <- LS. apply ctx_length.
  - now apply all_bytes_bytes.
  - lia.
  - exists v, T. split; [exact E|]. rewrite (seed_ctx pre seed post LS) in EV. unfold PRF in EV. exact (getnoise_common _ _ _ EV).
Qed.

(** ** C32 *)
Lemma encode_decode_small d c : (1 <= d <= 11)%nat -> length c = (32 * d)%nat -> bytes c ->
  let f := map (Decompress (Z.of_nat d)) (ByteDecode d c) in
  poly_within 3328 f /\ ByteEncode d (map (Compress (Z.of_nat d)) (modq f)) = c.
Proof.
  intros Hd L B f.
  assert (R : forall x, In x f -> 0 <= x < q).
  { intros x Hx. unfold f in Hx. apply in_map_iff in Hx as (y & <- & Hy). rewrite ByteDecode_mk in Hy by lia.
    unfold mk in Hy. apply in_map_iff in Hy as (i & <- & _). apply Decompress_range; [lia|apply field_range]. }
  split.
  - split; [unfold f; rewrite map_length; apply ByteDecode_length|]. intros x Hx. specialize (R x Hx). unfold q in R. lia.
  - rewrite modq_fix by (intros i Hi; apply R; now apply nth_In).
    unfold f. rewrite map_map, ByteDecode_mk by lia. unfold mk. rewrite map_map.
    rewrite (map_ext _ (field d c)).
    + apply (ByteEncode_field d c 256); [lia|lia|exact B].
    + intros i. apply Compress_Decompress; [lia|apply field_range].
Qed.

Lemma flat_map_blocks_id (c : list Z) m K : length c = (m * K)%nat ->
  flat_map (fun i => firstn m (skipn (m * i) c)) (seq 0 K) = c.
Proof.
  revert c. induction K; intros c L.
  - cbn. destruct c; [reflexivity|]. cbn in L. lia.
  - cbn [seq flat_map]. rewrite Nat.mul_0_r. cbn [skipn]. rewrite <- seq_shift, flat_map_concat_map, map_map, <- flat_map_concat_map.
    rewrite (flat_map_ext _ (fun i => firstn m (skipn (m * i) (skipn m c)))).
    + rewrite IHK by (rewrite skipn_length; lia). apply firstn_skipn.
    + intros i. rewrite skipn_skipn. f_equal. f_equal. lia.
Qed.

Lemma sub_ctx2 {A} (pre a b post : list A) : pre ++ (a ++ b) ++ post = (pre ++ a) ++ b ++ post.
Proof. now rewrite <- !app_assoc. Qed.

Lemma all_bytes_app a b : all_bytes (a ++ b) <-> all_bytes a /\ all_bytes b.
Proof.
  unfold all_bytes. split; [intros H; split; intros x Hx; apply H; apply in_or_app; auto|].
  intros [H1 H2] x Hx. apply in_app_or in Hx. destruct Hx; auto.
Qed.

(** Unpacking and packing again is the identity on byte strings *)
Lemma unpack_pack lv (JJ : Junk) b0 v0 pre c post buf : length c = KYBER_CIPHERTEXTBYTES lv ->
  all_bytes (pre ++ c ++ post) -> length b0 = KYBER_K lv -> (forall f, In f b0 -> length f = 256%nat) ->
  length v0 = 256%nat -> length buf = KYBER_CIPHERTEXTBYTES lv ->
  exists b v T1 T2, unpack_ciphertext lv b0 v0 (pre ++ c ++ post) (length pre) = Ok (b, v) T1 /\
    b = map (map (Decompress (Z.of_nat (du (PS lv)))))
            (decode_vec (PS lv) (du (PS lv)) (firstn (KYBER_POLYVECCOMPRESSEDBYTES lv) c)) /\
    v = map (Decompress (Z.of_nat (dv (PS lv))))
            (ByteDecode (dv (PS lv)) (skipn (KYBER_POLYVECCOMPRESSEDBYTES lv) c)) /\
    pack_ciphertext lv buf 0 b v = Ok c T2.
Proof.
  intros LC HB L0 H0 LV LBuf. set (nu := KYBER_POLYVECCOMPRESSEDBYTES lv) in *.
  destruct (cbytes lv) as (C1 & C2 & CK). fold nu in C1.
  assert (LCC : KYBER_CIPHERTEXTBYTES lv = (nu + KYBER_POLYCOMPRESSEDBYTES lv)%nat) by (destruct lv; reflexivity).
  set (c1 := firstn nu c). set (c2 := skipn nu c).
  assert (EC : c = c1 ++ c2) by (symmetry; apply firstn_skipn).
  assert (L1 : length c1 = nu) by (unfold c1; rewrite firstn_length; lia).
  assert (L2 : length c2 = KYBER_POLYCOMPRESSEDBYTES lv) by (unfold c2; rewrite skipn_length; lia).
  assert (HC : all_bytes c1 /\ all_bytes c2).
  { rewrite EC in HB. apply all_bytes_app in HB as [_ HB]. apply all_bytes_app in HB as [HB _]. now apply all_bytes_app in HB. }
  destruct HC as [HC1 HC2].
  set (b := map (map (Decompress (Z.of_nat (du (PS lv))))) (decode_vec (PS lv) (du (PS lv)) c1)).
  set (v := map (Decompress (Z.of_nat (dv (PS lv)))) (ByteDecode (dv (PS lv)) c2)).
  assert (E1 : exists T, unpack_ciphertext lv b0 v0 (pre ++ c ++ post) (length pre) = Ok (b, v) T).
  { unfold unpack_ciphertext. fold nu.
    destruct (polyvec_decompress_spec lv JJ b0 pre c1 (c2 ++ post) L0 H0 L1) as [T1 E1].
    { now rewrite (app_assoc c1), <- EC. }
    rewrite (app_assoc c1), <- EC in E1. rewrite E1. cbn [bind].
    destruct (poly_decompress_spec lv JJ v0 (pre ++ c1) c2 post LV L2) as [T2 E2].
    { now rewrite <- sub_ctx2, <- EC. }
    rewrite <- sub_ctx2, <- EC, app_length, L1 in E2. rewrite E2. cbn [bind ret]. eauto. }
  destruct E1 as [T1 E1]. exists b, v, T1.
  destruct (encode_decode_small (dv (PS lv)) c2 (wf_dv lv) ltac:(lia) (all_bytes_bytes _ HC2)) as [WV EV]. fold v in WV, EV.
  assert (HBl : forall i, (i < k (PS lv))%nat ->
    let ci := firstn (32 * du (PS lv)) (skipn (32 * du (PS lv) * i) c1) in
    poly_within 3328 (map (Decompress (Z.of_nat (du (PS lv)))) (ByteDecode (du (PS lv)) ci)) /\
    ByteEncode (du (PS lv)) (map (Compress (Z.of_nat (du (PS lv)))) (modq (map (Decompress (Z.of_nat (du (PS lv)))) (ByteDecode (du (PS lv)) ci)))) = ci).
  { intros i Hi ci. apply encode_decode_small; [apply wf_du| |].
    - unfold ci. rewrite firstn_length, skipn_length, L1, C1. nia.
    - apply bnd_sub. now apply all_bytes_bytes. }
  assert (WB : vec_within (KYBER_K lv) 3328 b).
  { split; [unfold b, decode_vec; rewrite !map_length, seq_length; now rewrite CK|].
    intros f Hf. unfold b, decode_vec in Hf. rewrite map_map in Hf. apply in_map_iff in Hf as (i & <- & Hi).
    apply in_seq in Hi. now apply HBl. }
  assert (E2 : exists T, pack_ciphertext lv buf 0 b v = Ok c T).
  { unfold pack_ciphertext. fold nu.
    assert (EB : buf = [] ++ firstn nu buf ++ skipn nu buf) by (cbn [app]; symmetry; apply firstn_skipn).
    destruct (polyvec_compress_spec lv JJ [] (firstn nu buf) (skipn nu buf) b) as [T2 E2].
    { rewrite firstn_length. fold nu. lia. } { exact WB. }
    cbn [app length] in E2. rewrite firstn_skipn in E2. rewrite E2. cbn [bind].
    assert (EF : flat_map (fun f => ByteEncode (du (PS lv)) (map (Compress (Z.of_nat (du (PS lv)))) (modq f))) b = c1).
    { transitivity (flat_map (fun i => firstn (32 * du (PS lv)) (skipn (32 * du (PS lv) * i) c1)) (seq 0 (k (PS lv))));
        [|apply flat_map_blocks_id; lia].
      unfold b, decode_vec. rewrite map_map, flat_map_map. apply flat_map_eq_in. intros i Hi. apply in_seq in Hi.
      now apply HBl. }
    rewrite EF. destruct (poly_compress_spec lv JJ c1 (skipn nu buf) [] v) as [T3 E3].
    { rewrite skipn_length. lia. } { exact WV. }
    rewrite !app_nil_r, L1 in E3. rewrite Nat.add_0_l, E3. eexists. rewrite EV, EC. reflexivity. }
  destruct E2 as [T2 E2]. exists T2. auto.
Qed.

(** Packing and unpacking again rounds every coefficient *)
Lemma pack_unpack lv (JJ : Junk) b v pre old post b0 v0 : vec_within (KYBER_K lv) 3328 b -> poly_within 3328 v ->
  length old = KYBER_CIPHERTEXTBYTES lv -> all_bytes pre -> all_bytes post ->
  length b0 = KYBER_K lv -> (forall f, In f b0 -> length f = 256%nat) -> length v0 = 256%nat ->
  exists c T1 T2, pack_ciphertext lv (pre ++ old ++ post) (length pre) b v = Ok (pre ++ c ++ post) T1 /\
    length c = KYBER_CIPHERTEXTBYTES lv /\ all_bytes c /\
    unpack_ciphertext lv b0 v0 (pre ++ c ++ post) (length pre)
    = Ok (map (fun f => rounded (du (PS lv)) (modq f)) b, rounded (dv (PS lv)) (modq v)) T2.
Proof.
  intros WB WV LO HPre HPost L0 H0 LV. set (nu := KYBER_POLYVECCOMPRESSEDBYTES lv).
  destruct (cbytes lv) as (C1 & C2 & CK). fold nu in C1.
  assert (LCC : KYBER_CIPHERTEXTBYTES lv = (nu + KYBER_POLYCOMPRESSEDBYTES lv)%nat) by (destruct lv; reflexivity).
  set (cu := map (fun f => map (Compress (Z.of_nat (du (PS lv)))) (modq f)) b).
  set (cv := map (Compress (Z.of_nat (dv (PS lv)))) (modq v)).
  set (c1 := flat_map (ByteEncode (du (PS lv))) cu). set (c2 := ByteEncode (dv (PS lv)) cv).
  assert (LB : length b = k (PS lv)) by (rewrite <- CK; apply WB).
  assert (LCU : forall x, In x cu -> length x = 256%nat).
  { intros x Hx. unfold cu in Hx. apply in_map_iff in Hx as (f & <- & Hf). rewrite map_length, modq_length. now apply WB. }
  assert (LCV : length cv = 256%nat) by (unfold cv; rewrite map_length, modq_length; apply WV).
  assert (L1 : length c1 = nu).
  { unfold c1. rewrite (flat_map_len _ _ (32 * du (PS lv))).
    - unfold cu. rewrite map_length. lia.
    - intros x Hx. now apply ByteEncode_256, LCU. }
  assert (L2 : length c2 = KYBER_POLYCOMPRESSEDBYTES lv) by (unfold c2; rewrite ByteEncode_256 by exact LCV; lia).
  assert (AB : forall d F, all_bytes (ByteEncode d F)).
  { intros d F x Hx. destruct (In_nth _ _ 0 Hx) as (i & _ & <-). apply ByteEncode_byte. }
  assert (HC1 : all_bytes c1).
  { intros x Hx. unfold c1 in Hx. apply in_flat_map in Hx as (f & _ & Hx). exact (AB _ _ _ Hx). }
  assert (HC2 : all_bytes c2) by apply AB.
  assert (HALL : all_bytes (pre ++ (c1 ++ c2) ++ post)) by (rewrite !all_bytes_app; auto).
  assert (E1 : exists T, pack_ciphertext lv (pre ++ old ++ post) (length pre) b v = Ok (pre ++ (c1 ++ c2) ++ post) T).
  { unfold pack_ciphertext. fold nu.
    destruct (polyvec_compress_spec lv JJ pre (firstn nu old) (skipn nu old ++ post) b) as [T1 E1].
    { rewrite firstn_length. fold nu. lia. } { exact WB. }
    rewrite (app_assoc (firstn nu old)), firstn_skipn in E1. rewrite E1. cbn [bind].
    assert (EF : flat_map (fun f => ByteEncode (du (PS lv)) (map (Compress (Z.of_nat (du (PS lv)))) (modq f))) b = c1).
    { unfold c1, cu. now rewrite flat_map_map. }
    rewrite EF. destruct (poly_compress_spec lv JJ (pre ++ c1) (skipn nu old) post v) as [T2 E2].
    { rewrite skipn_length. lia. } { exact WV. }
    rewrite <- sub_ctx2, app_length, L1, <- app_assoc in E2. rewrite E2. eexists. fold cv c2. rewrite <- !app_assoc. reflexivity. }
  destruct E1 as [T1 E1].
  assert (E2 : exists T, unpack_ciphertext lv b0 v0 (pre ++ (c1 ++ c2) ++ post) (length pre) =
    Ok (map (fun f => rounded (du (PS lv)) (modq f)) b, rounded (dv (PS lv)) (modq v)) T).
  { unfold unpack_ciphertext. fold nu.
    destruct (polyvec_decompress_spec lv JJ b0 pre c1 (c2 ++ post) L0 H0 L1) as [T3 E3].
    { now rewrite (app_assoc c1). }
    rewrite (app_assoc c1) in E3. rewrite E3. cbn [bind].
    destruct (poly_decompress_spec lv JJ v0 (pre ++ c1) c2 post LV L2) as [T4 E4].
    { now rewrite <- sub_ctx2. }
    rewrite <- sub_ctx2, app_length, L1 in E4. rewrite E4. cbn [bind ret].
    eexists. f_equal. f_equal.
    - assert (ED : decode_vec (PS lv) (du (PS lv)) c1 = cu).
      { pose proof (decode_vec_encode (PS lv) (du (PS lv)) cu []) as D. rewrite app_nil_r in D. fold c1 in D.
        rewrite firstn_all2 in D by lia. apply D.
        - unfold cu. now rewrite map_length.
        - intros x Hx. split; [now apply LCU|]. unfold cu in Hx. apply in_map_iff in Hx as (f & <- & _).
          intros i _. apply compressed_range. pose proof (wf_du lv). lia. }
      rewrite ED. unfold cu, rounded. rewrite map_map. apply map_ext. intros f. now rewrite map_map.
    - unfold c2. rewrite ByteDecode_ByteEncode.
      + unfold cv, rounded. now rewrite map_map.
      + exact LCV.
      + intros i _. apply compressed_range. pose proof (wf_dv lv). lia. }
  destruct E2 as [T2 E2]. exists (c1 ++ c2), T1, T2. split; [exact E1|]. split; [rewrite app_length; lia|].
  split; [now apply all_bytes_app|exact E2].
Qed.
