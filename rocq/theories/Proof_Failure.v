(** * How many noise strings make decryption fail *)
From Coq Require Import ZArith List Lia Bool.
From Verif Require Import CMonad WP Modq Sums Proof_Base Proof_Vocab Proof_Bits Levels Model_Params Spec_FIPS202 Spec_FIPS203 Spec_Noise Spec_Failure Vocab Vocab_Dist
  Proof_NTTSpec Proof_RingMul Proof_Polyvec Proof_Compress Proof_Codec Proof_GenMatrix Proof_CBD Proof_AvxDecompress Proof_Indcpa Proof_Keypair Proof_Encrypt Proof_Kem Proof_Correct Proof_Dist Proof_FailSums Proof_FailBound Proof_FailNum.
Import ListNotations.
Open Scope Z_scope.

(** ** Reading the noise strings *)
Lemma field_piece eta B a i : (64 * eta * (a + 1) <= length B)%nat -> (0 < eta)%nat -> (i < 256)%nat ->
  field (2 * eta) (firstn (64 * eta) (skipn (64 * eta * a) B)) i = field (2 * eta) B (256 * a + i).
Proof.
  intros L He Hi. change (firstn (64 * eta) (skipn (64 * eta * a) B)) with (sub B (64 * eta * a) (64 * eta)).
  unfold field. apply sumz_ext. intros j Hj. f_equal.
  set (x := (i * (2 * eta) + j)%nat). assert (Hx : (x < 512 * eta)%nat) by (unfold x; nia).
  replace ((256 * a + i) * (2 * eta) + j)%nat with (8 * (64 * eta * a) + x)%nat by (unfold x; nia).
  pose proof (Nat.div_mod x 8 ltac:(lia)) as DM. pose proof (Nat.mod_upper_bound x 8 ltac:(lia)).
  assert (Hd : (x / 8 < 64 * eta)%nat) by (apply Nat.div_lt_upper_bound; lia).
  rewrite DM. replace (8 * (64 * eta * a) + (8 * (x / 8) + x mod 8))%nat with (8 * (64 * eta * a + x / 8) + x mod 8)%nat by lia.
  assert (LS : length (sub B (64 * eta * a) (64 * eta)) = (64 * eta)%nat) by (apply sub_length; nia).
  rewrite !BytesToBits_nth by (try lia; nia). rewrite nth_sub by lia. reflexivity.
Qed.

Definition enc (eta : nat) (l : list Z) : list Z := ByteEncode (2 * eta) l.
Lemma enc_length eta K l : length l = (256 * K)%nat -> length (enc eta l) = (64 * eta * K)%nat.
Proof. intros L. unfold enc. rewrite ByteEncode_length, L. replace (2 * eta * (256 * K))%nat with (64 * eta * K * 8)%nat by lia. rewrite Nat.div_mul; lia. Qed.
Lemma fields_in eta x : In x (fields_of eta) <-> 0 <= x < 2 ^ Z.of_nat (2 * eta).
Proof. unfold fields_of. rewrite upto_in, Nat2Z.inj_pow. reflexivity. Qed.
Lemma field_enc eta K l i : In l (every (fields_of eta) (256 * K)) -> (i < 256 * K)%nat -> field (2 * eta) (enc eta l) i = nth i l 0.
Proof.
  intros HI Hi. apply every_in in HI as [L HL]. unfold enc. apply field_ByteEncode.
  - change (ByteEncode (2 * eta) l) with (enc eta l). rewrite (enc_length eta K) by exact L. rewrite L. lia.
  - lia.
  - apply fields_in. apply HL. apply nth_In. lia.
Qed.
Lemma noise_polys_length eta K B : length (noise_polys eta K B) = K.
Proof. unfold noise_polys. now rewrite map_length, seq_length. Qed.
Lemma noise_polys_nth eta K B a : (a < K)%nat -> nth a (noise_polys eta K B) [] = SamplePolyCBD eta (firstn (64 * eta) (skipn (64 * eta * a) B)).
Proof. intros Ha. unfold noise_polys. rewrite <- mk_seq. now rewrite nth_mk. Qed.
Lemma SamplePolyCBD_nth eta B i : (i < 256)%nat -> nth i (SamplePolyCBD eta B) 0 ≡ cbdf eta (field (2 * eta) B i).
Proof.
  intros Hi. rewrite <- cbdz_field. pose proof (lcong_nth _ _ i (SamplePolyCBD_cbdz eta B)) as E. rewrite nth_mk in E by exact Hi. now symmetry.
Qed.
Lemma sampled_coef eta K l a i : (0 < eta)%nat -> In l (every (fields_of eta) (256 * K)) -> (a < K)%nat -> (i < 256)%nat ->
  nth i (nth a (noise_polys eta K (enc eta l)) []) 0 ≡ cf eta l (256 * a + i).
Proof.
  intros He HI Ha Hi. rewrite noise_polys_nth by exact Ha. rewrite SamplePolyCBD_nth by exact Hi.
  assert (L : length l = (256 * K)%nat) by (apply every_in in HI; apply HI).
  rewrite field_piece; [|rewrite (enc_length eta K) by exact L; nia|exact He|exact Hi].
  rewrite (field_enc eta K) by (auto; nia). reflexivity.
Qed.

(** ** Products as linear forms *)
Lemma ring_mul_form f g h j : (j < 256)%nat -> length f = 256%nat -> (forall i, (i < 256)%nat -> nth i g 0 ≡ h i) ->
  nth j (ring_mul f g) 0 ≡ sumz 256 (fun i => nth i f 0 * (if (i <=? j)%nat then h (j - i)%nat else - h (256 + j - i)%nat)).
Proof.
  intros Hj _ Hg. unfold ring_mul. rewrite nth_mkpoly by exact Hj. change q with 3329. rewrite cong_mod. unfold coef.
  replace 256%nat with (S j + (255 - j))%nat by lia. rewrite sumz_app.
  rewrite (sumz_cong (S j) (fun i => nth i f 0 * nth (j - i) g 0) (fun i => nth i f 0 * (if (i <=? j)%nat then h (j - i)%nat else - h (S j + (255 - j) + j - i)%nat))).
  2:{ intros i Hi. destruct (Nat.leb_spec i j); [|lia]. now rewrite Hg by lia. }
  rewrite (sumz_cong (255 - j) (fun i => nth (j + 1 + i) f 0 * nth (255 - i) g 0)
     (fun i => 0 - nth (S j + i) f 0 * (if (S j + i <=? j)%nat then h (j - (S j + i))%nat else - h (S j + (255 - j) + j - (S j + i))%nat))).
  2:{ intros i Hi. destruct (Nat.leb_spec (S j + i) j); [lia|]. rewrite Hg by lia.
      replace (S j + (255 - j) + j - (S j + i))%nat with (255 - i)%nat by lia. replace (S j + i)%nat with (j + 1 + i)%nat by lia. apply cong_eq. lia. }
  rewrite sumz_minus, (sumz_0 _ (fun _ => 0)) by auto. apply cong_eq. lia.
Qed.
Lemma ring_dot_form a : forall b al be j, length a = length b -> (j < 256)%nat ->
  (forall x, (x < length a)%nat -> length (nth x a []) = 256%nat) ->
  (forall x i, (x < length a)%nat -> (i < 256)%nat -> nth i (nth x a []) 0 ≡ al (256 * x + i)%nat) ->
  (forall x i, (x < length a)%nat -> (i < 256)%nat -> nth i (nth x b []) 0 ≡ be (256 * x + i)%nat) ->
  nth j (ring_dot a b) 0 ≡ sumz (256 * length a) (fun i => al i * conv j be i).
Proof.
  induction a as [|f a IH]; intros [|g b] al be j L Hj LA HA HB; try discriminate.
  - cbn [ring_dot length]. rewrite Nat.mul_0_r. unfold pzero. now rewrite nth_mkpoly.
  - cbn [ring_dot length]. rewrite padd_nth by exact Hj. replace (256 * S (length a))%nat with (256 + 256 * length a)%nat by lia. rewrite sumz_app.
    rewrite (ring_mul_form f g be j) by (auto; try (intros i Hi; apply (HB 0%nat i); cbn; lia); apply (LA 0%nat); cbn; lia).
    rewrite (IH b (fun i => al (256 + i)%nat) (fun i => be (256 + i)%nat) j).
    + apply cong_add.
      * apply sumz_cong. intros i Hi. rewrite (HA 0%nat i) by (cbn; lia). replace (256 * 0 + i)%nat with i by lia.
        pose proof (conv_block j be 0 i Hi) as CB. rewrite Nat.mul_0_r, !Nat.add_0_l in CB. now rewrite CB.
      * apply cong_eq. apply sumz_ext. intros i Hi. f_equal.
        pose proof (Nat.div_mod i 256 ltac:(lia)) as DM. pose proof (Nat.mod_upper_bound i 256 ltac:(lia)) as MB.
        rewrite DM. replace (256 + (256 * (i / 256) + i mod 256))%nat with (256 * S (i / 256) + i mod 256)%nat by lia.
        rewrite !conv_block by exact MB. destruct (i mod 256 <=? j)%nat; [|f_equal]; f_equal; lia.
    + cbn in L. lia.
    + exact Hj.
    + intros x Hx. apply (LA (S x)). cbn. lia.
    + intros x i Hx Hi. rewrite (HA (S x) i) by (cbn; lia). apply cong_eq. f_equal. lia.
    + intros x i Hx Hi. rewrite (HB (S x) i) by (cbn; lia). apply cong_eq. f_equal. lia.
Qed.

(** ** Rounding errors *)
Lemma transposed_nth (P : params) (A : list (list (list Z))) (f : list (list Z) -> list Z) a : (a < k P)%nat ->
  nth a (map f (transpose P A)) [] = f (nth a (transpose P A) []).
Proof. intros Ha. apply map_nth_lt. now rewrite transpose_length. Qed.
Lemma zipadd_nth a : forall b x, length a = length b -> (x < length a)%nat -> nth x (zipadd a b) [] = padd (nth x a []) (nth x b []).
Proof.
  induction a as [|f a IH]; intros [|g b] x L Hx; try discriminate; cbn [length] in *; [lia|]. destruct x as [|x]; [reflexivity|]. cbn [zipadd nth]. apply IH; lia.
Qed.
Lemma zipsub_nth a : forall b x, length a = length b -> (x < length a)%nat -> nth x (zipsub a b) [] = psub (nth x a []) (nth x b []).
Proof.
  induction a as [|f a IH]; intros [|g b] x L Hx; try discriminate; cbn [length] in *; [lia|]. destruct x as [|x]; [reflexivity|]. cbn [zipsub nth]. apply IH; lia.
Qed.
Lemma w_coef d b e x i : (i < 256)%nat -> 0 <= nth i b 0 < q -> nth i e 0 ≡ x ->
  nth i (padd e (psub (rounded d (padd b e)) (padd b e))) 0 ≡ wfun (Z.of_nat d) (nth i b 0) x.
Proof.
  intros Hi Hb He. unfold wfun. rewrite centred_cong. change q with 3329. rewrite cong_mod.
  rewrite padd_nth, psub_nth by exact Hi. unfold rounded. rewrite (map_nth_lt _ _ i 0 0) by (now rewrite padd_length).
  assert (EU : nth i (padd b e) 0 = (nth i b 0 + x) mod 3329).
  { unfold padd. rewrite nth_mkpoly by exact Hi. unfold coef. apply mod_cong. now rewrite He. }
  rewrite EU. rewrite He. set (D := Decompress _ _). rewrite cong_mod. apply cong_eq. lia.
Qed.

Definition verr (d x : Z) : Z := centred ((Decompress d (Compress d x) - x) mod q).
Lemma verr_sweep d B : forallb (fun x => Z.abs (verr d x) <=? B) (upto 3329) = true -> forall x, 0 <= x < q -> Z.abs (verr d x) <= B.
Proof. intros F x Hx. rewrite forallb_forall in F. apply Z.leb_le. apply F. now apply upto_in. Qed.
Lemma verr4 x : 0 <= x < q -> Z.abs (verr 4 x) <= 104.
Proof. revert x. apply verr_sweep. vm_compute. reflexivity. Qed.
Lemma verr5 x : 0 <= x < q -> Z.abs (verr 5 x) <= 52.
Proof. revert x. apply verr_sweep. vm_compute. reflexivity. Qed.
Lemma cv_coef d v i : (i < 256)%nat -> canon v -> nth i (psub (rounded d v) v) 0 ≡ verr (Z.of_nat d) (nth i v 0).
Proof.
  intros Hi [Lv _]. unfold verr. rewrite centred_cong. change q with 3329. rewrite cong_mod. rewrite psub_nth by exact Hi.
  unfold rounded. rewrite (map_nth_lt _ _ i 0 0) by lia. reflexivity.
Qed.
Lemma centred_small x y : 0 <= x < q -> x ≡ y -> Z.abs y <= 831 -> centred x = y.
Proof.
  intros Hx [z E] Hy. unfold centred, q in *. destruct (Z.ltb_spec (2 * x) 3329); lia.
Qed.

(** ** Failure needs a large linear form *)
Section Fail.
Context (lv : level) (A : list (list (list Z))) (m : list Z).
Notation P := (PS lv).
Notation K := (k (PS lv)).
Notation eta := (eta1 (PS lv)).
Definition base (y : list Z) (i : nat) : Z :=
  nth (i mod 256) (nth (i / 256) (map (fun row => NTTinv (ntt_dot row (map NTT (noise_polys eta K (enc eta y))))) (transpose P A)) []) 0.
Definition noise_of (y e1 e2 s e : list Z) : list Z := sampled_noise P A m (enc eta s) (enc eta e) (enc eta y) (enc 2 e1) (enc 2 e2).
Definition decodesb (f : list Z) : bool :=
  forallb (fun i => (-832 <=? centred (nth i f 0)) && (centred (nth i f 0) <=? (if nth i (ByteDecode 1 m) 0 =? 1 then 831 else 832))) (seq 0 256).
Lemma decodesb_spec f : decodesb f = true <-> noise_decodes m f.
Proof.
  unfold decodesb, noise_decodes. rewrite forallb_forall. split.
  - intros F i Hi. specialize (F i). rewrite in_seq, andb_true_iff, !Z.leb_le in F. apply F. lia.
  - intros F i Hi. apply in_seq in Hi. rewrite andb_true_iff, !Z.leb_le. apply F. lia.
Qed.
Lemma base_range y i : (i < 256 * K)%nat -> 0 <= base y i < q.
Proof.
  intros Hi. unfold base. assert (Ha : (i / 256 < K)%nat) by (apply Nat.div_lt_upper_bound; lia).
  rewrite transposed_nth by exact Ha. apply NTTinv_canon. apply Nat.mod_upper_bound. lia.
Qed.

Lemma noise_value y e1 e2 s e j : (0 < eta)%nat -> (eta2 P = 2)%nat -> (j < 256)%nat ->
  In y (every (fields_of eta) (256 * K)) -> In e1 (every (fields_of 2) (256 * K)) -> In e2 (every (fields_of 2) 256) ->
  In s (every (fields_of eta) (256 * K)) -> In e (every (fields_of eta) (256 * K)) ->
  exists v, 0 <= v < q /\
  nth j (noise_of y e1 e2 s e) 0 ≡
    formj eta K (wfun (Z.of_nat (du P))) base j y e1 s e + cf 2 e2 j + verr (Z.of_nat (dv P)) v.
Proof.
  intros He H2 Hj Iy I1 I2 Is Ie. unfold noise_of, sampled_noise. cbv zeta. rewrite H2.
  set (ss := noise_polys eta K (enc eta s)). set (ee := noise_polys eta K (enc eta e)). set (yy := noise_polys eta K (enc eta y)).
  set (f1 := noise_polys 2 K (enc 2 e1)). set (f2 := SamplePolyCBD 2 (enc 2 e2)).
  set (vv := padd (padd (NTTinv _) f2) _). set (X := map (fun row => NTTinv (ntt_dot row (map NTT yy))) (transpose P A)).
  assert (CV : canon vv) by apply padd_canon.
  exists (nth j vv 0). split; [apply CV; exact Hj|].
  rewrite psub_nth, !padd_nth by exact Hj. rewrite cv_coef by assumption.
  assert (LX : length X = K) by (unfold X; rewrite map_length; apply transpose_length).
  assert (L1 : length f1 = K) by apply noise_polys_length.
  assert (Lu : length (zipadd X f1) = K) by (rewrite zipadd_length; [exact LX|rewrite LX, L1; reflexivity]).
  assert (Lc : length (zipsub (map (rounded (du P)) (zipadd X f1)) (zipadd X f1)) = K) by (rewrite zipsub_length; rewrite map_length; [exact Lu|reflexivity]).
  rewrite (ring_dot_form ee yy (cf eta e) (cf eta y) j).
  2:{ unfold ee, yy. now rewrite !noise_polys_length. } 2:{ exact Hj. }
  2:{ intros x Hx. unfold ee in *. rewrite noise_polys_length in Hx. rewrite noise_polys_nth by exact Hx. apply mkpoly_length. }
  2:{ intros x i Hx Hi. unfold ee in *. rewrite noise_polys_length in Hx. apply sampled_coef; assumption. }
  2:{ intros x i Hx Hi. unfold ee, yy in *. rewrite noise_polys_length in Hx. apply sampled_coef; assumption. }
  rewrite (ring_dot_form ss _ (cf eta s) (wv (wfun (Z.of_nat (du P))) base y e1) j).
  2:{ unfold ss. rewrite noise_polys_length, zipadd_length; [symmetry; exact L1|rewrite L1, Lc; reflexivity]. } 2:{ exact Hj. }
  2:{ intros x Hx. unfold ss in *. rewrite noise_polys_length in Hx. rewrite noise_polys_nth by exact Hx. apply mkpoly_length. }
  2:{ intros x i Hx Hi. unfold ss in *. rewrite noise_polys_length in Hx. apply sampled_coef; assumption. }
  2:{ intros x i Hx Hi. unfold ss in Hx. rewrite noise_polys_length in Hx.
      rewrite zipadd_nth; [|rewrite L1, Lc; reflexivity|rewrite L1; exact Hx]. rewrite zipsub_nth; [|rewrite map_length; reflexivity|rewrite map_length, Lu; exact Hx].
      rewrite (map_nth_lt (rounded (du P)) _ x [] []) by (rewrite Lu; exact Hx). rewrite zipadd_nth; [|rewrite LX, L1; reflexivity|rewrite LX; exact Hx].
      assert (BX : 0 <= nth i (nth x X []) 0 < q) by (unfold X; rewrite transposed_nth by exact Hx; apply NTTinv_canon; exact Hi).
      rewrite (w_coef (du P) (nth x X []) (nth x f1 []) (cf 2 e1 (256 * x + i)) i Hi BX).
      - unfold wv, base. rewrite (Nat.mul_comm 256 x), Nat.add_comm, Nat.mod_add, Nat.div_add by lia.
        rewrite (Nat.mod_small i), (Nat.div_small i) by lia. reflexivity.
      - apply sampled_coef; [lia|exact I1|exact Hx|exact Hi]. }
  assert (E2 : nth j f2 0 ≡ cf 2 e2 j).
  { unfold f2. rewrite SamplePolyCBD_nth by exact Hj. rewrite (field_enc 2 1 e2 j) by assumption. reflexivity. }
  rewrite E2. unfold ee, ss. rewrite !noise_polys_length. unfold formj, form.
  apply cong_eq.
  rewrite (sumz_ext (256 * K) (fun i => cf eta s i * - conv j (wv (wfun (Z.of_nat (du P))) base y e1) i)
     (fun i => 0 - cf eta s i * conv j (wv (wfun (Z.of_nat (du P))) base y e1) i)) by (intros; lia).
  rewrite sumz_minus, (sumz_0 _ (fun _ => 0)) by auto. lia.
Qed.

Lemma fail_large B t y e1 e2 s e : (0 < eta)%nat -> (eta2 P = 2)%nat -> (forall v, 0 <= v < q -> Z.abs (verr (Z.of_nat (dv P)) v) <= B) -> t <= 830 - B ->
  In y (every (fields_of eta) (256 * K)) -> In e1 (every (fields_of 2) (256 * K)) -> In e2 (every (fields_of 2) 256) ->
  In s (every (fields_of eta) (256 * K)) -> In e (every (fields_of eta) (256 * K)) ->
  negb (decodesb (noise_of y e1 e2 s e)) = true -> exists j, (j < 256)%nat /\ t <= Z.abs (formj eta K (wfun (Z.of_nat (du P))) base j y e1 s e).
Proof.
  intros He H2 HB Ht Iy I1 I2 Is Ie F. apply negb_true_iff in F.
  set (FJ := fun j => formj eta K (wfun (Z.of_nat (du P))) base j y e1 s e).
  destruct (forallb (fun j => Z.abs (FJ j) <? t) (seq 0 256)) eqn:EF.
  - exfalso. rewrite forallb_forall in EF. apply diff_false_true. rewrite <- F. apply decodesb_spec. apply noise_ok_decodes. intros j Hj.
    specialize (EF j). rewrite in_seq, Z.ltb_lt in EF. specialize (EF ltac:(lia)).
    destruct (noise_value y e1 e2 s e j He H2 Hj Iy I1 I2 Is Ie) as (v & Hv & EN). fold (FJ j) in EN.
    pose proof (cf_range 2 e2 j). pose proof (HB v Hv).
    rewrite (centred_small _ (FJ j + cf 2 e2 j + verr (Z.of_nat (dv P)) v)); [lia| |exact EN|lia].
    unfold noise_of, sampled_noise. apply psub_canon. exact Hj.
  - assert (EX : exists j, In j (seq 0 256) /\ (Z.abs (FJ j) <? t) = false).
    { clear -EF. induction (seq 0 256) as [|x l IH]; [discriminate|]. cbn in EF. destruct (Z.abs (FJ x) <? t) eqn:E.
      - destruct (IH EF) as (j & Hj & Ej). exists j. split; [now right|exact Ej].
      - exists x. split; [now left|exact E]. }
    destruct EX as (j & Hj & Ej). apply in_seq in Hj. apply Z.ltb_ge in Ej. exists j. split; [lia|exact Ej].
Qed.
End Fail.
