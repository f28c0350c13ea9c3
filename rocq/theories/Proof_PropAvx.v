(** * The AVX2 assembly in the form of the property statements *)
From Coq Require Import ZArith List Lia Bool.
From Verif Require Import CMonad WP Modq Proof_Base Sums Model_AvxAsm Model_AvxCode Spec_FIPS203 Proof_NTT Proof_NTTSpec
  Proof_RingMul Proof_Poly Proof_Polyvec Proof_Encrypt Proof_Bits Proof_Codec Proof_AvxNTT Proof_AvxPack Vocab Proof_Vocab Proof_PropPoly Cases.
Import ListNotations.
Open Scope Z_scope.
Open Scope cmonad_scope.

Lemma avx2_order_eq f : avx2_order f = avx_order f. Proof. reflexivity. Qed.

Lemma modq_avx_order f : length f = 256%nat -> modq (avx_order f) = avx2_order (modq f).
Proof.
  intros L. change (avx2_order (modq f)) with (avx_order (modq f)). apply (list_eq_nth 0).
  - now rewrite modq_length, !avx_order_length.
  - rewrite modq_length, avx_order_length. intros i Hi.
    rewrite nth_modq, !avx_order_nth, nth_modq by auto. reflexivity.
Qed.
Lemma lcong_avx2 r F : length F = 256%nat -> modq r = avx2_order (modq F) -> lcong r (avx_order F).
Proof. intros L E. apply modq_lcong. now rewrite modq_avx_order. Qed.

(** ** Transforms *)
Lemma avx_ntt_spec : exists T, forall (JJ : Junk) r, poly_within 3329 r ->
  exists r', ntt_avx r = Ok r' T /\ poly_within 16182 r' /\ modq r' = avx2_order (NTT r).
Proof.
  destruct ntt_avx_wp as [T W]. exists T. intros JJ r HR. apply poly_within_babs in HR as [L B].
  destruct (W JJ r L B) as (r' & E & L' & B' & C). exists r'. split; [exact E|]. split; [now apply babs_poly_within|].
  rewrite (lcong_modq _ _ C), modq_avx_order, modq_NTT; [reflexivity|]. apply mkpoly_length.
Qed.

Lemma avx_invntt_spec : exists T, forall (JJ : Junk) F r, length F = 256%nat -> poly_within 32767 r ->
  modq r = avx2_order (modq F) ->
  exists r', invntt_avx r = Ok r' T /\ poly_within 14929 r' /\ modq r' = map (fun x => 2 ^ 16 * x mod q) (NTTinv F).
Proof.
  destruct invntt_avx_wp as [T W]. exists T. intros JJ F r LF HR HC. apply poly_within_babs in HR as [L B].
  destruct (W JJ r F L B LF (lcong_avx2 _ _ LF HC)) as (r' & E & L' & B' & C).
  exists r'. split; [exact E|]. split; [now apply babs_poly_within|].
  rewrite (lcong_modq _ _ C), scale_map by (apply map_length). unfold modq. now rewrite map_map.
Qed.

Lemma modq_idem f : modq (modq f) = modq f.
Proof. unfold modq. rewrite map_map. apply map_ext. intros. apply Z.mod_mod. discriminate. Qed.

Lemma avx_roundtrip : exists T1 T2, forall (JJ : Junk) r, poly_within 3329 r ->
  exists r1 r2, ntt_avx r = Ok r1 T1 /\ invntt_avx r1 = Ok r2 T2 /\
    poly_within 14929 r2 /\ modq r2 = map (fun x => 2 ^ 16 * x mod q) r.
Proof.
  destruct avx_ntt_spec as [T1 W1]. destruct avx_invntt_spec as [T2 W2]. exists T1, T2. intros JJ r HR.
  destruct (W1 JJ r HR) as (r1 & E1 & B1 & C1).
  destruct (W2 JJ (NTT r) r1) as (r2 & E2 & B2 & C2).
  { apply mkpoly_length. }
  { destruct B1 as [L R]. split; auto. intros x Hx. specialize (R x Hx). lia. }
  { now rewrite modq_NTT. }
  exists r1, r2. split; [exact E1|]. split; [exact E2|]. split; [exact B2|]. rewrite C2.
  apply poly_within_babs in HR as [L _].
  assert (EI : modq (NTTinv (NTT r)) = modq r) by (apply lcong_modq; now apply NTTinv_NTT).
  rewrite modq_NTTinv in EI. rewrite EI. unfold modq. rewrite map_map. apply map_ext. intros x. apply Zmult_mod_idemp_r.
Qed.

(** ** Products *)
Lemma avx_basemul_spec : exists T, forall (JJ : Junk) F G r a b, length F = 256%nat -> length G = 256%nat -> length r = 256%nat ->
  poly_within 4095 a -> poly_within 16182 b -> modq a = avx2_order (modq F) -> modq b = avx2_order (modq G) ->
  exists r', basemul_avx r a b = Ok r' T /\ poly_within 5350 r' /\
    modq (map (fun x => 2 ^ 16 * x) r') = avx2_order (MultiplyNTTs F G).
Proof.
  destruct basemul_avx_wp as [T W]. exists T. intros JJ F G r a b LF LG Lr HA HB CA CB.
  apply poly_within_babs in HA as [LA BA]. apply poly_within_babs in HB as [LB BB].
  destruct (W JJ r a b F G Lr LA LB BA BB (lcong_avx2 _ _ LF CA) (lcong_avx2 _ _ LG CB)) as (r' & E & L' & B' & C).
  exists r'. split; [exact E|]. split; [now apply babs_poly_within|].
  change (avx2_order (MultiplyNTTs F G)) with (avx_order (MultiplyNTTs F G)). apply (list_eq_nth 0).
  - now rewrite modq_length, map_length, avx_order_length.
  - intros i Hi. rewrite modq_length, map_length in Hi. rewrite nth_modq, avx_order_nth by lia.
    change 0 with (2 ^ 16 * 0) at 1. rewrite (map_nth (fun x => 2 ^ 16 * x)).
    assert (Hp : (avx_ix i < 256)%nat) by (apply avx_ix_lt; lia).
    pose proof (lcong_nth _ _ i C) as Ci. rewrite avx_order_nth in Ci by lia. rewrite nth_scale in Ci by exact Hp.
    assert (M : nth (avx_ix i) (MultiplyNTTs F G) 0 mod q = nth (avx_ix i) (MultiplyNTTs F G) 0).
    { unfold MultiplyNTTs. rewrite nth_mkpoly by exact Hp. cbv zeta. destruct (Nat.even _); apply Z.mod_mod; discriminate. }
    transitivity (nth (avx_ix i) (MultiplyNTTs F G) 0 mod q); [|exact M].
    destruct Ci as [c Ci]. rewrite Ci.
    replace (2 ^ 16 * (169 * nth (avx_ix i) (MultiplyNTTs F G) 0 + c * 3329)) with
      (nth (avx_ix i) (MultiplyNTTs F G) 0 + (3327 * nth (avx_ix i) (MultiplyNTTs F G) 0 + 2 ^ 16 * c) * q) by (unfold q; lia).
    rewrite Z_mod_plus_full. reflexivity.
Qed.

(** Transform, reduce one operand as the code does before multiplying, multiply, transform back *)
Lemma avx_multiplication : exists T1 T2 T3 T4 T5, forall (JJ : Junk) r a b, length r = 256%nat -> poly_within 3329 a -> poly_within 3329 b ->
  exists a1 a2 b1 p c, ntt_avx a = Ok a1 T1 /\ reduce_avx a1 = Ok a2 T2 /\ ntt_avx b = Ok b1 T3 /\
    basemul_avx r a2 b1 = Ok p T4 /\ invntt_avx p = Ok c T5 /\ poly_within 14929 c /\ modq c = ring_mul a b.
Proof.
  destruct avx_ntt_spec as [T1 W1]. destruct reduce_avx_wp as [T2 W2]. destruct basemul_avx_wp as [T4 W4].
  destruct invntt_avx_wp as [T5 W5]. exists T1, T2, T1, T4, T5. intros JJ r a b Lr HA HB.
  destruct (W1 JJ a HA) as (a1 & E1 & B1 & C1). destruct (W1 JJ b HB) as (b1 & E3 & B3 & C3).
  apply poly_within_babs in B1 as [L1 B1]. apply poly_within_babs in B3 as [L3 B3].
  destruct (W2 JJ a1 L1 ltac:(apply (babs_weaken 16182); [lia|exact B1])) as (a2 & E2 & L2 & B2 & C2).
  assert (LN : forall f, length (NTT f) = 256%nat) by (intros; apply mkpoly_length).
  assert (K1 : lcong a2 (avx_order (NTT a))).
  { etransitivity; [exact C2|]. apply lcong_avx2; [apply LN|]. now rewrite modq_NTT. }
  assert (K3 : lcong b1 (avx_order (NTT b))). { apply lcong_avx2; [apply LN|]. now rewrite modq_NTT. }
  destruct (W4 JJ r a2 b1 (NTT a) (NTT b) Lr L2 L3) as (p & E4 & L4 & B4 & C4); auto.
  { intros i Hi. specialize (B2 i Hi). lia. }
  destruct (W5 JJ p (scale 169 (MultiplyNTTs (NTT a) (NTT b))) L4) as (c & E5 & L5 & B5 & C5).
  { apply (babs_weaken 5350); [lia|exact B4]. } { apply mkpoly_length. } { exact C4. }
  exists a1, a2, b1, p, c. repeat (split; [assumption|]). split; [now apply babs_poly_within|].
  rewrite (lcong_modq _ _ (invntt_dot _ _ _ C5 ltac:(reflexivity))), modq_NTTinv. apply NTTinv_MultiplyNTTs.
Qed.

(** ** Coefficient reductions *)
Lemma avx_reduce_spec : exists T, forall (JJ : Junk) r, poly_within 32767 r ->
  exists r', reduce_avx r = Ok r' T /\ length r' = 256%nat /\ in_range 0 q r' /\ modq r' = modq r.
Proof.
  destruct reduce_avx_wp as [T W]. exists T. intros JJ r HR. apply poly_within_babs in HR as [L B].
  destruct (W JJ r L B) as (r' & E & L' & B' & C). exists r'. split; [exact E|]. split; [exact L'|].
  split; [now apply bnd_in_range|]. now apply lcong_modq.
Qed.
Lemma avx_tomont_spec : exists T, forall (JJ : Junk) r, poly_within 32767 r ->
  exists r', tomont_avx r = Ok r' T /\ poly_within 2341 r' /\ modq r' = map (fun x => 2 ^ 16 * x mod q) r.
Proof.
  destruct tomont_avx_wp as [T W]. exists T. intros JJ r HR. apply poly_within_babs in HR as [L B].
  destruct (W JJ r L B) as (r' & E & L' & B' & C). exists r'. split; [exact E|].
  split; [now apply babs_poly_within|]. rewrite (lcong_modq _ _ C), scale_map by auto. unfold modq. now rewrite map_map.
Qed.

(** ** Serialisation *)
Lemma avx_nttunpack_spec : exists T, forall (JJ : Junk) r, length r = 256%nat -> nttunpack_avx r = Ok (avx2_order r) T.
Proof.
  destruct nttunpack_avx_wp as [T W]. exists T. intros JJ r L. destruct (W JJ r L) as (r' & E & ->). exact E.
Qed.
Lemma avx_tobytes_spec lpre : exists T, forall (JJ : Junk) pre old post a F, length pre = lpre -> length old = 384%nat ->
  length a = 256%nat -> length F = 256%nat -> in_range 0 (2 * q - 1) a -> modq a = avx2_order (modq F) ->
  ntttobytes_avx (pre ++ old ++ post) (length pre) a = Ok (pre ++ ByteEncode 12 (modq F) ++ post) T.
Proof.
  destruct (ntttobytes_avx_wp lpre) as [T W]. exists T. intros JJ pre old post a F LP LO LA LF RA CA. subst lpre.
  destruct (W JJ (pre ++ old ++ post) a F) as (r' & E & ->).
  { rewrite <- LO. apply ctx_length. } { exact LA. } { exact LF. } { now apply in_range_bnd. } { now apply lcong_avx2. }
  rewrite E. f_equal. rewrite splice_ctx, canonical_modq; auto.
Qed.
Lemma avx_frombytes_spec lpre : exists T, forall (JJ : Junk) r pre m post, length r = 256%nat -> length pre = lpre ->
  byte_array 384 m -> all_bytes pre -> all_bytes post ->
  exists f, nttfrombytes_avx r (pre ++ m ++ post) (length pre) = Ok (avx2_order f) T /\ length f = 256%nat /\
    in_range 0 4095 f /\ modq f = ByteDecode 12 m /\ ByteEncode 12 f = m.
Proof.
  destruct (nttfrombytes_avx_wp lpre) as [T W]. exists T. intros JJ r pre m post LR LP [LM BM] BP BQ. subst lpre.
  destruct (W JJ r (pre ++ m ++ post) LR) as (r' & E & ->).
  { rewrite <- LM. apply ctx_length. } { apply all_bytes_bytes, all_bytes_split3; auto. }
  rewrite <- LM, sub_ctx in E. exists (mk 256 (field 12 m)). split; [exact E|]. split; [apply mk_length|].
  split; [|split].
  - apply bnd_in_range. intros i Hi. rewrite mk_length in Hi. rewrite nth_mk by auto. pose proof (field_range 12 m i) as F.
    change (2 ^ Z.of_nat 12) with 4096 in F. lia.
  - apply (list_eq_nth 0); [now rewrite modq_length, mk_length, ByteDecode_length|]. rewrite modq_length, mk_length.
    intros i Hi. rewrite nth_modq, nth_mk, ByteDecode_field by auto. reflexivity.
  - apply ByteEncode_field; [lia|lia|]. now apply all_bytes_bytes.
Qed.

(** Data of the examples *)
Lemma modq_small F : in_range 0 (q - 1) (modq F).
Proof. intros x Hx. apply in_map_iff in Hx as (y & <- & _). pose proof (Z.mod_pos_bound y q ltac:(reflexivity)). lia. Qed.
Lemma avx2_order_range lo hi f : length f = 256%nat -> in_range lo hi f -> in_range lo hi (avx2_order f).
Proof.
  intros L R. apply bnd_in_range. intros i Hi. change (avx2_order f) with (avx_order f) in *. rewrite avx_order_length in Hi.
  rewrite avx_order_nth by auto. apply in_range_bnd; auto. rewrite L. now apply avx_ix_lt.
Qed.
Lemma avx2_modq_range F : length F = 256%nat -> in_range 0 (q - 1) (avx2_order (modq F)).
Proof. intros L. apply avx2_order_range; [now rewrite modq_length|apply modq_small]. Qed.
Lemma scattered_length B : 0 <= B -> length (scattered B) = 256%nat.
Proof. intros HB. apply (scattered_within B HB). Qed.
Lemma case_avx_small : poly_within 4095 (avx2_order (modq (scattered 5000))).
Proof.
  split; [apply avx_order_length|]. pose proof (avx2_modq_range (scattered 5000) (scattered_length 5000 ltac:(lia))).
  intros x Hx. specialize (H x Hx). unfold q in *. lia.
Qed.
Lemma case_avx_order : poly_within 32767 (avx2_order (modq (scattered 5000))) /\
  modq (avx2_order (modq (scattered 5000))) = avx2_order (modq (scattered 5000)).
Proof.
  split.
  - destruct case_avx_small as [L R]. split; [exact L|]. intros x Hx. specialize (R x Hx). lia.
  - change (avx2_order (modq (scattered 5000))) with (avx_order (modq (scattered 5000))) at 1.
    rewrite modq_avx_order by (rewrite modq_length; now apply scattered_length). now rewrite modq_idem.
Qed.
Lemma case_avx_bytes : in_range 0 (2 * q - 1) (avx2_order (modq (scattered 5000))) /\ byte_array 384 (some_bytes 384) /\
  all_bytes (some_bytes 7).
Proof.
  split; [|split; [apply some_bytes_ok|apply (some_bytes_ok 7)]].
  pose proof (avx2_modq_range (scattered 5000) (scattered_length 5000 ltac:(lia))).
  intros x Hx. specialize (H x Hx). unfold q in *. lia.
Qed.
