(** * Lemmas for the exact input ranges of the compression functions *)
From Coq Require Import ZArith List Lia Bool.
From Verif Require Import CMonad WP Proof_Base Modq Sums Model_Params Model_Poly Model_Polyvec Model_AvxAsm
  Model_AvxC Model_AvxPolyvec Proof_NTT Proof_Poly Proof_Polyvec Proof_Bits Proof_Codec
  Proof_PolyvecCodec Proof_AvxBits Proof_AvxVec Proof_AvxCompress Proof_AvxPolyvec Proof_Correct Spec_FIPS203 Levels Vocab Vocab_Ranges Cases Proof_Vocab Proof_PropPoly
  Proof_Ranges Proof_AvxRanges Proof_RangeSweep.
Import ListNotations.
Open Scope Z_scope.


Lemma Compress_range d x : 0 <= d -> 0 <= Compress d x < 2 ^ d.
Proof. intros H. unfold Compress. apply Z.mod_pos_bound. now apply Z.pow_pos_nonneg. Qed.
Lemma dmod_pow d : (d < 12)%nat -> dmod d = 2 ^ Z.of_nat d.
Proof. intros H. unfold dmod. destruct (Nat.eqb_spec d 12); [lia|reflexivity]. Qed.
Lemma image_right d g lo hi lo' hi' a : (d < 12)%nat -> length a = 256%nat -> in_range lo' hi' a ->
  (forall c, 0 <= g c < 2 ^ Z.of_nat d) ->
  (forall c, lo' <= c <= hi' -> (g c = Compress (Z.of_nat d) (c mod q) <-> lo <= c <= hi)) ->
  (image_bytes d g a = right_poly d a <-> in_range lo hi a).
Proof.
  intros Hd La Ra Hg H. unfold image_bytes, right_poly. rewrite <- compressed_modq by exact La. split.
  - intros E. apply (f_equal (ByteDecode d)) in E. rewrite !ByteDecode_ByteEncode in E; rewrite ?dmod_pow by exact Hd.
    + intros x Hx. destruct (In_nth _ _ 0 Hx) as (i & Hi & EN). rewrite La in Hi.
      apply (f_equal (fun l => nth i l 0)) in E. rewrite nth_image, nth_compressed, EN in E by exact Hi.
      apply H; [now apply Ra|exact E].
    + apply compressed_length.
    + intros i Hi. rewrite nth_compressed by exact Hi. apply Compress_range. lia.
    + apply image_length.
    + intros i Hi. rewrite nth_image by exact Hi. apply Hg.
  - intros R. f_equal. unfold image, compressed. apply mk_ext. intros i Hi.
    assert (I : In (nth i a 0) a) by (apply nth_In; lia). apply H; [now apply Ra|now apply R].
Qed.
Lemma right_poly_length d a : length a = 256%nat -> length (right_poly d a) = (32 * d)%nat.
Proof.
  intros La. unfold right_poly. rewrite <- compressed_modq by exact La. exact (compressed_bytes_length d a).
Qed.

Lemma blocks_eq (f g : list Z -> list Z) n (P : list Z -> Prop) l :
  (forall x, In x l -> length (f x) = n /\ length (g x) = n) -> (forall x, In x l -> (f x = g x <-> P x)) ->
  (flat_map f l = flat_map g l <-> forall x, In x l -> P x).
Proof.
  intros L H. induction l as [|x l IH]; cbn [flat_map].
  - split; [intros _ y []|reflexivity].
  - assert (IH' := IH (fun y Hy => L y (or_intror Hy)) (fun y Hy => H y (or_intror Hy))). clear IH.
    destruct (L x (or_introl eq_refl)) as [L1 L2]. split.
    + intros E. assert (E1 : f x = g x).
      { apply (f_equal (firstn n)) in E. rewrite !firstn_app, L1, L2, Nat.sub_diag, !firstn_O, !app_nil_r in E.
        now rewrite !firstn_all2 in E by lia. }
      rewrite E1 in E. apply app_inv_head in E. intros y [<-|Hy]; [now apply H; [left|]|]. now apply IH'.
    + intros HP. f_equal.
      * apply H; [now left|]. apply HP. now left.
      * apply IH'. intros y Hy. apply HP. now right.
Qed.

(** An outcome known exactly is right iff its bytes are *)
Lemma ok_right {m : res (list Z)} {pre new want post : list Z} {T} :
  m = Ok (pre ++ new ++ post) T -> length new = length want ->
  ((exists T', m = Ok (pre ++ want ++ post) T') <-> new = want).
Proof.
  intros E L. split.
  - intros [T' E']. rewrite E in E'. injection E' as X _. apply app_inv_head in X.
    apply (f_equal (firstn (length new))) in X. rewrite !firstn_app in X.
    rewrite <- L, Nat.sub_diag, firstn_O, !app_nil_r, firstn_all in X. rewrite X. apply firstn_all2. lia.
  - intros ->. now exists T.
Qed.

(** ** ref/ *)

Lemma in_dec_val z (a : list Z) : In z a \/ ~ In z a.
Proof. destruct (in_dec Z.eq_dec z a); auto. Qed.
Lemma in_range_narrow lo hi a : in_range (lo - 1) hi a -> ~ In (lo - 1) a -> in_range lo hi a.
Proof.
  intros R N x Hx. specialize (R x Hx). destruct (Z.eq_dec x (lo - 1)) as [->|]; [now elim N|lia].
Qed.

Lemma poly_compress_ref_range lv (JJ : Junk) pre old post a :
  length old = KYBER_POLYCOMPRESSEDBYTES lv -> length a = 256%nat -> in_range (-3330) (ref_v_max lv + 1) a ->
  ((exists T, poly_compress lv (pre ++ old ++ post) (length pre) a = Ok (pre ++ right_poly (dv (PS lv)) a ++ post) T)
   <-> in_range (-3329) (ref_v_max lv) a).
Proof.
  assert (G : forall d f coeff g hi, (d < 12)%nat -> length old = (32 * d)%nat -> length a = 256%nat -> in_range (-3330) (hi + 1) a ->
    (forall r ro v t, f r ro a = Ok v t -> forall x, (x < 256)%nat -> exists c t', coeff (nth x a 0) = Ok c t') ->
    (forall c, 0 <= g c < 2 ^ Z.of_nat d) ->
    (forall c, -3329 <= c <= hi + 1 -> coeff c = Ok (g c) [] /\ (g c = Compress (Z.of_nat d) (c mod q) <-> -3329 <= c <= hi)) ->
    coeff (-3330) = UB BadShift ->
    (forall ro, traced (fun T => forall r, (ro + 32 * d <= length r)%nat ->
      (forall x, (x < 256)%nat -> coeff (nth x a 0) = Ok (g (nth x a 0)) []) ->
      wp (f r ro a) T (fun r' => r' = splice r ro (image_bytes d g a)))) ->
    ((exists T, f (pre ++ old ++ post) (length pre) a = Ok (pre ++ right_poly d a ++ post) T) <-> in_range (-3329) hi a)).
  { intros d f coeff g hi Hd LO LA RA HD Hg HC HU HW.
    destruct (in_dec_val (-3330) a) as [I|N].
    - split.
      + intros [T E]. exfalso. destruct (In_nth _ _ 0 I) as (x & Hx & EN). rewrite LA in Hx.
        destruct (HD _ _ _ _ E x Hx) as (c & t' & EC). rewrite EN, HU in EC. discriminate EC.
      + intros R. specialize (R _ I). lia.
    - pose proof (in_range_narrow (-3329) _ a RA N) as RA'.
      destruct (HW (length pre)) as [T W]. destruct (W (pre ++ old ++ post)) as (v & E & ->).
      + rewrite <- LO. apply ctx_length.
      + intros x Hx. apply HC. apply RA'. apply nth_In. lia.
      + rewrite splice_ctx in E by (rewrite image_bytes_length; exact LO).
        rewrite (ok_right E) by (now rewrite image_bytes_length, right_poly_length).
        apply (image_right d g (-3329) hi (-3329) (hi + 1)); auto. intros c Hc. now apply HC. }
  intros LO LA RA. destruct lv.
  - apply (G 4%nat poly_compress_128 compress4_coeff rc4 13211); auto; try lia.
    + intros r ro v t. apply poly_compress_128_defined; exact JJ.
    + intros c. apply vrange. lia.
    + exact at4.
    + intros ro. eexists. intros r Hr HC. apply (proj2_sig (poly_compress_128_img ro)); auto.
  - apply (G 4%nat poly_compress_128 compress4_coeff rc4 13211); auto; try lia.
    + intros r ro v t. apply poly_compress_128_defined; exact JJ.
    + intros c. apply vrange. lia.
    + exact at4.
    + intros ro. eexists. intros r Hr HC. apply (proj2_sig (poly_compress_128_img ro)); auto.
  - apply (G 5%nat poly_compress_160 compress5_coeff rc5 6709); auto; try lia.
    + intros r ro v t. apply poly_compress_160_defined; exact JJ.
    + intros c. apply vrange. lia.
    + exact at5.
    + intros ro. eexists. intros r Hr HC. apply (proj2_sig (poly_compress_160_img ro)); auto.
Qed.

Lemma polyvec_compress_ref_range lv (JJ : Junk) pre old post a :
  length old = KYBER_POLYVECCOMPRESSEDBYTES lv -> length a = KYBER_K lv ->
  (forall f, In f a -> length f = 256%nat /\ in_range (-3330) (ref_u_max lv + 1) f) ->
  ((exists T, polyvec_compress lv (pre ++ old ++ post) (length pre) a
      = Ok (pre ++ flat_map (right_poly (du (PS lv))) a ++ post) T)
   <-> forall f, In f a -> in_range (-3329) (ref_u_max lv) f).
Proof.
  intros LO LA RA.
  assert (HC : forall c, -3330 <= c <= ref_u_max lv + 1 -> ccu lv c = Ok (rcu lv c) [] /\
    (rcu lv c = Compress (Z.of_nat (du (PS lv))) (c mod q) <-> -3329 <= c <= ref_u_max lv)).
  { destruct lv; [exact at10|exact at10|exact at11]. }
  assert (Hg : forall c, 0 <= rcu lv c < 2 ^ Z.of_nat (du (PS lv))) by (intros c; destruct lv; apply vrange; lia).
  assert (Ln : (KYBER_POLYVECCOMPRESSEDBYTES lv = 32 * du (PS lv) * KYBER_K lv)%nat) by (destruct lv; reflexivity).
  destruct (polyvec_compress_img lv (length pre)) as [T W]. destruct (W JJ (pre ++ old ++ post) a) as (v & E & ->).
  - rewrite <- LO. apply ctx_length.
  - exact LA.
  - intros f Hf. destruct (RA f Hf) as [L R]. split; [exact L|]. intros x Hx. apply HC. apply R. apply nth_In. lia.
  - assert (L1 : length (flat_map (image_bytes (du (PS lv)) (rcu lv)) a) = (32 * du (PS lv) * length a)%nat)
      by (apply flat_map_const_length; intros; apply image_bytes_length).
    rewrite splice_ctx in E by (rewrite L1, LO, LA; exact Ln).
    assert (D : (du (PS lv) < 12)%nat) by (destruct lv; cbn; lia).
    assert (B : flat_map (image_bytes (du (PS lv)) (rcu lv)) a = flat_map (right_poly (du (PS lv))) a <->
      forall f, In f a -> in_range (-3329) (ref_u_max lv) f).
    { apply (blocks_eq _ _ (32 * du (PS lv))).
      - intros f Hf. split; [apply image_bytes_length|]. apply right_poly_length. now apply RA.
      - intros f Hf. destruct (RA f Hf) as [L R].
        apply (image_right _ _ _ _ (-3330) (ref_u_max lv + 1)); auto. intros c Hc. now apply HC. }
    assert (L2 : length (flat_map (image_bytes (du (PS lv)) (rcu lv)) a) = length (flat_map (right_poly (du (PS lv))) a)).
    { rewrite L1. clear -RA. induction a as [|f a IH]; [cbn; lia|]. cbn [flat_map length]. rewrite app_length, <- IH.
      - rewrite right_poly_length; [nia|]. apply RA. now left.
      - intros g Hg. apply RA. now right. }
    rewrite (ok_right E L2). exact B.
Qed.

Lemma poly_tomsg_ref_range pre old post a : length old = 32%nat -> length a = 256%nat -> in_range (-2497) 32767 a ->
  ((exists T, poly_tomsg (pre ++ old ++ post) (length pre) a = Ok (pre ++ right_poly 1 a ++ post) T)
   <-> in_range (-2496) 32767 a).
Proof.
  intros LO LA RA. destruct (poly_tomsg_img (length pre)) as [T W]. destruct (W (pre ++ old ++ post) a) as (v & E & ->).
  - rewrite <- LO. apply ctx_length.
  - exact LA.
  - intros x Hx. apply at1. apply RA. apply nth_In. lia.
  - change (ByteEncode 1 (image rc1 a)) with (image_bytes 1 rc1 a) in E.
    rewrite splice_ctx in E by (rewrite image_bytes_length; exact LO).
    rewrite (ok_right E) by (now rewrite image_bytes_length, right_poly_length).
    apply (image_right 1 rc1 (-2496) 32767 (-2497) 32767); auto; try lia.
    + intros c. apply vrange. lia.
    + intros c Hc. now apply at1.
Qed.

(** ** avx2/ *)
Lemma value_range l : 0 <= Model_AvxIntrin.value l < 2 ^ Z.of_nat (length l).
Proof.
  induction l as [|b l IH]; [cbn; lia|]. cbn [Model_AvxIntrin.value length]. rewrite Nat2Z.inj_succ, Z.pow_succ_r by lia.
  destruct b; cbn [Z.b2z]; lia.
Qed.
Lemma bitz_range Tb d c : length Tb = d -> 0 <= bitz Tb c < 2 ^ Z.of_nat d.
Proof. intros <-. unfold bitz. rewrite <- (map_length (bval (fun _ => false) (fun _ => c)) Tb). apply value_range. Qed.


Lemma poly_compress_avx2_range lv pre old post a :
  length old = KYBER_POLYCOMPRESSEDBYTES lv -> length a = 256%nat -> in_range (avx_v_min lv - 1) (avx_v_max lv + 1) a ->
  ((exists T, poly_compress_avx2 lv (pre ++ old ++ post) (length pre) a = Ok (pre ++ right_poly (dv (PS lv)) a ++ post) T)
   <-> in_range (avx_v_min lv) (avx_v_max lv) a).
Proof.
  assert (G : forall d f g lo hi, (d < 12)%nat -> length old = (32 * d)%nat -> length a = 256%nat -> in_range (lo - 1) (hi + 1) a ->
    (forall c, 0 <= g c < 2 ^ Z.of_nat d) ->
    (forall c, lo - 1 <= c <= hi + 1 -> (g c = Compress (Z.of_nat d) (c mod q) <-> lo <= c <= hi)) ->
    (forall ro, traced (fun T => forall r a, (ro + 32 * d <= length r)%nat -> length a = 256%nat ->
      wp (f r ro a) T (fun r' => r' = splice r ro (image_bytes d g a)))) ->
    ((exists T, f (pre ++ old ++ post) (length pre) a = Ok (pre ++ right_poly d a ++ post) T) <-> in_range lo hi a)).
  { intros d f g lo hi Hd LO LA RA Hg HC HW.
    destruct (HW (length pre)) as [T W]. destruct (W (pre ++ old ++ post) a) as (v & E & ->).
    + rewrite <- LO. apply ctx_length.
    + exact LA.
    + rewrite splice_ctx in E by (rewrite image_bytes_length; exact LO).
      rewrite (ok_right E) by (now rewrite image_bytes_length, right_poly_length).
      apply (image_right d g lo hi (lo - 1) (hi + 1)); auto. }
  intros LO LA RA. destruct lv.
  - apply (G 4%nat poly_compress4_avx2 ac4 (-6761) 6761); auto; try lia.
    + intros c. apply bitz_range, fields_length.
    + exact aat4.
    + exact poly_compress4_avx2_img.
  - apply (G 4%nat poly_compress4_avx2 ac4 (-6761) 6761); auto; try lia.
    + intros c. apply bitz_range, fields_length.
    + exact aat4.
    + exact poly_compress4_avx2_img.
  - apply (G 5%nat poly_compress5_avx2 ac5 (-3380) 3380); auto; try lia.
    + intros c. apply bitz_range, fields_length.
    + exact aat5.
    + exact poly_compress5_avx2_img.
Qed.

Lemma polyvec_compress_avx2_range lv pre old slack post a :
  length old = KYBER_POLYVECCOMPRESSEDBYTES lv -> length slack = avx_slack lv ->
  length a = KYBER_K lv -> (forall f, In f a -> length f = 256%nat /\ in_range (avx_u_min lv - 1) (avx_u_max lv + 1) f) ->
  ((exists T, polyvec_compress_avx2 lv (pre ++ old ++ slack ++ post) (length pre) a
      = Ok (pre ++ flat_map (right_poly (du (PS lv))) a ++ map (fun _ => 0) slack ++ post) T)
   <-> forall f, In f a -> in_range (avx_u_min lv) (avx_u_max lv) f).
Proof.
  intros LO LS LA RA.
  assert (EO : overrun lv = map (fun _ => 0) slack).
  { destruct lv; cbn [overrun]; [now destruct slack|now destruct slack|].
    destruct slack as [|x [|y [|z s]]]; try discriminate. reflexivity. }
  assert (LX : length (overrun lv) = length slack) by (rewrite EO; apply map_length).
  assert (HC : forall c, avx_u_min lv - 1 <= c <= avx_u_max lv + 1 ->
    (acu lv c = Compress (Z.of_nat (du (PS lv))) (c mod q) <-> avx_u_min lv <= c <= avx_u_max lv)).
  { destruct lv; [exact aat10|exact aat10|exact aat11]. }
  assert (Hg : forall c, 0 <= acu lv c < 2 ^ Z.of_nat (du (PS lv))).
  { intros c; destruct lv; [apply (bitz_range _ 10)|apply (bitz_range _ 10)|apply (bitz_range _ 11)]; apply fields_length. }
  assert (Ln : (KYBER_POLYVECCOMPRESSEDBYTES lv = 32 * du (PS lv) * KYBER_K lv)%nat) by (destruct lv; reflexivity).
  destruct (polyvec_compress_avx2_img lv (length pre)) as [T W]. destruct (W (pre ++ old ++ slack ++ post) a) as (v & E & ->).
  - rewrite LX, <- LO, !app_length. lia.
  - exact LA.
  - intros f Hf. now apply RA.
  - assert (L1 : length (flat_map (image_bytes (du (PS lv)) (acu lv)) a) = (32 * du (PS lv) * length a)%nat)
      by (apply flat_map_const_length; intros; apply image_bytes_length).
    rewrite (app_assoc old slack post) in E |- *.
    rewrite splice_ctx in E by (rewrite !app_length, LX, L1, LO, LA, Ln; reflexivity).
    rewrite EO in E. rewrite <- !app_assoc in E. rewrite <- !app_assoc.
    assert (D : (du (PS lv) < 12)%nat) by (destruct lv; cbn; lia).
    assert (B : flat_map (image_bytes (du (PS lv)) (acu lv)) a = flat_map (right_poly (du (PS lv))) a <->
      forall f, In f a -> in_range (avx_u_min lv) (avx_u_max lv) f).
    { apply (blocks_eq _ _ (32 * du (PS lv))).
      - intros f Hf. split; [apply image_bytes_length|]. apply right_poly_length. now apply RA.
      - intros f Hf. destruct (RA f Hf) as [L R].
        apply (image_right _ _ _ _ (avx_u_min lv - 1) (avx_u_max lv + 1)); auto. }
    assert (L2 : length (flat_map (image_bytes (du (PS lv)) (acu lv)) a) = length (flat_map (right_poly (du (PS lv))) a)).
    { rewrite L1. clear -RA. induction a as [|f a IH]; [cbn; lia|]. cbn [flat_map length]. rewrite app_length, <- IH.
      - rewrite right_poly_length; [nia|]. apply RA. now left.
      - intros g Hg. apply RA. now right. }
    rewrite (ok_right E L2). exact B.
Qed.

Lemma poly_tomsg_avx2_range pre old post a : length old = 32%nat -> length a = 256%nat -> in_range (-833) 4162 a ->
  ((exists T, poly_tomsg_avx2 (pre ++ old ++ post) (length pre) a = Ok (pre ++ right_poly 1 a ++ post) T)
   <-> in_range (-832) 4161 a).
Proof.
  intros LO LA RA. destruct (poly_tomsg_avx2_img (length pre)) as [T W]. destruct (W (pre ++ old ++ post) a) as (v & E & ->).
  - rewrite <- LO. apply ctx_length.
  - exact LA.
  - change (ByteEncode 1 (image ac1 a)) with (image_bytes 1 ac1 a) in E.
    rewrite splice_ctx in E by (rewrite image_bytes_length; exact LO).
    rewrite (ok_right E) by (now rewrite image_bytes_length, right_poly_length).
    apply (image_right 1 ac1 (-832) 4161 (-833) 4162); auto; try lia.
    + intros c. now apply (bitz_range [b1] 1).
    + exact aat1.
Qed.

(** ** Consequences *)
Lemma neg_coeff c : -32768 <= c <= -3330 -> compress4_coeff c = UB BadShift /\ compress5_coeff c = UB BadShift.
Proof.
  intros H.
  assert (E : shr 32 c 15 = Ok (-1) []).
  { unfold shr, ret. cbn [Z.leb Z.ltb Z.compare andb Pos.compare Pos.compare_cont]. do 1 f_equal. rewrite Z.shiftr_div_pow2 by lia.
    symmetry. apply Z.div_unique with (r := c + 2 ^ 15); lia. }
  assert (E1 : iadd c (Z.land (-1) KYBER_Q) = Ok (c + 3329) []).
  { unfold iadd, chk_int. rewrite Z.land_m1_l. unfold KYBER_Q.
    replace ((- 2 ^ 31 <=? c + 3329) && (c + 3329 <? 2 ^ 31)) with true; [reflexivity|].
    symmetry. apply andb_true_iff. split; [apply Z.leb_le|apply Z.ltb_lt]; lia. }
  assert (E2 : forall n, ishl (i16 (c + 3329)) n = UB BadShift).
  { intros n. rewrite WP.i16_small by lia. unfold ishl.
    assert (E3 : (0 <=? c + 3329) = false) by (apply Z.leb_gt; lia). now rewrite E3. }
  unfold compress4_coeff, compress5_coeff. cbv zeta. rewrite E. cbn [bind]. rewrite E1. cbn [bind]. rewrite !E2. cbn [bind]. split; reflexivity.
Qed.
Lemma poly_compress_ref_undefined lv (JJ : Junk) r ro a c : length a = 256%nat -> In c a -> -32768 <= c <= -3330 ->
  forall v T, poly_compress lv r ro a <> Ok v T.
Proof.
  intros LA I H v T E. destruct (neg_coeff c H) as [N4 N5].
  destruct (In_nth _ _ 0 I) as (x & Hx & EN). rewrite LA in Hx.
  destruct lv.
  - destruct (poly_compress_128_defined JJ _ _ _ _ _ E x Hx) as (d & t & X). rewrite EN, N4 in X. discriminate X.
  - destruct (poly_compress_128_defined JJ _ _ _ _ _ E x Hx) as (d & t & X). rewrite EN, N4 in X. discriminate X.
  - destruct (poly_compress_160_defined JJ _ _ _ _ _ E x Hx) as (d & t & X). rewrite EN, N5 in X. discriminate X.
Qed.

Lemma in_range_weaken lo hi lo' hi' a : in_range lo hi a -> lo' <= lo -> hi <= hi' -> in_range lo' hi' a.
Proof. intros R H1 H2 x Hx. specialize (R x Hx). lia. Qed.
Lemma polyvec_compress_differ lv (JJ : Junk) pre old slack post a f :
  length old = KYBER_POLYVECCOMPRESSEDBYTES lv -> length slack = avx_slack lv -> length a = KYBER_K lv ->
  (forall f, In f a -> length f = 256%nat /\ in_range (avx_u_min lv - 1) q f) -> In f a -> In (avx_u_min lv - 1) f ->
  exists v T, polyvec_compress lv (pre ++ old ++ slack ++ post) (length pre) a = Ok (pre ++ v ++ slack ++ post) T /\
    forall T', polyvec_compress_avx2 lv (pre ++ old ++ slack ++ post) (length pre) a
      <> Ok (pre ++ v ++ map (fun _ => 0) slack ++ post) T'.
Proof.
  intros LO LS LA RA If Ic. exists (flat_map (right_poly (du (PS lv))) a).
  assert (B : -3329 <= avx_u_min lv - 1 /\ q <= avx_u_max lv + 1 /\ q <= ref_u_max lv) by (unfold q; destruct lv; cbn; lia).
  destruct B as (B1 & B2 & B3).
  assert (R1 : forall f, In f a -> length f = 256%nat /\ in_range (-3330) (ref_u_max lv + 1) f).
  { intros g Hg. destruct (RA g Hg) as [L R]. split; [exact L|]. apply (in_range_weaken _ _ _ _ _ R); lia. }
  assert (R2 : forall f, In f a -> length f = 256%nat /\ in_range (avx_u_min lv - 1) (avx_u_max lv + 1) f).
  { intros g Hg. destruct (RA g Hg) as [L R]. split; [exact L|]. apply (in_range_weaken _ _ _ _ _ R); lia. }
  destruct (proj2 (polyvec_compress_ref_range lv JJ pre old (slack ++ post) a LO LA R1)) as [T E].
  - intros g Hg. apply (in_range_weaken _ _ _ _ _ (proj2 (RA g Hg))); lia.
  - exists T. split; [exact E|]. intros T' E'.
    pose proof (proj1 (polyvec_compress_avx2_range lv pre old slack post a LO LS LA R2) (ex_intro _ T' E') f If _ Ic). lia.
Qed.
Lemma poly_tomsg_differ pre old post a : length old = 32%nat -> length a = 256%nat -> in_range (-833) q a -> In (-833) a ->
  exists v T, poly_tomsg (pre ++ old ++ post) (length pre) a = Ok (pre ++ v ++ post) T /\
    forall T', poly_tomsg_avx2 (pre ++ old ++ post) (length pre) a <> Ok (pre ++ v ++ post) T'.
Proof.
  intros LO LA RA Ic. exists (right_poly 1 a).
  destruct (proj2 (poly_tomsg_ref_range pre old post a LO LA
    (fun x Hx => ltac:(pose proof (RA x Hx) as X; unfold q in X; lia)))) as [T E].
  - intros x Hx. pose proof (RA x Hx) as X. unfold q in X. lia.
  - exists T. split; [exact E|]. intros T' E'.
    pose proof (proj1 (poly_tomsg_avx2_range pre old post a LO LA
      (fun x Hx => ltac:(pose proof (RA x Hx) as X; unfold q in X; lia))) (ex_intro _ T' E') _ Ic). lia.
Qed.
