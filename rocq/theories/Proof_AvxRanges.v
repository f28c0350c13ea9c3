(** * The compression code of avx2/ for coefficients of any size *)
From Coq Require Import ZArith List Lia Bool NArith.
From Verif Require Import CMonad WP Proof_Base Model_Params Proof_Reduce Proof_Bits Proof_Codec Proof_PolyvecCodec Model_AvxIntrin Model_AvxC
  Model_AvxPolyvec Model_Polyvec Proof_Polyvec Proof_AvxBits Proof_AvxVec Proof_AvxCompress Proof_AvxPolyvec Proof_Ranges Spec_FIPS203 Levels.
Import ListNotations.
Open Scope Z_scope.
Open Scope cmonad_scope.

Definition ac4 : Z -> Z := bitz (fields w4 4).
Definition ac5 : Z -> Z := bitz (fields w5 5).
Definition ac10 : Z -> Z := bitz (fields w10 10).
Definition ac11 : Z -> Z := bitz (fields w11 11).
Definition ac1 : Z -> Z := bitz [b1].

Lemma poly_compress4_avx2_img ro :
  traced (fun T => forall r a, (ro + 128 <= length r)%nat -> length a = 256%nat ->
    wp (poly_compress4_avx2 r ro a) T (fun r' => r' = splice r ro (ByteEncode 4 (image ac4 a)))).
Proof.
  eexists. intros r a Hr La. unfold poly_compress4_avx2.
  assert (HF : forall x, (x < 256)%nat -> bitz (fields w4 4) (nth x a 0) = nth x (image ac4 a) 0).
  { intros. now rewrite nth_image by auto. }
  pose proof (image_LE 4 ac4 a) as HL.
  set (E := ByteEncode 4 (image ac4 a)) in *.
  eapply (wp_for _ (fun i s => s = splice r ro (firstn (32 * i) E))).
  - rewrite Nat.mul_0_r; symmetry; apply splice_nil.
  - intros i s Hi ->. repeat vstep. loaded a (64 * i)%nat.
    eapply wp_exec; [apply (check_spec _ [_; _; _; _] _ _ compress4_chk)|].
    cbn [map out nth].
    eapply wp_store_bytes.
    + apply (seg_bytes (fields w4 4) 4 a (64 * i) (32 * i) 0 32 _ (fields_length _ _) ltac:(lia) (image_length _ _) ltac:(lia) HF); lia.
    + rewrite sub_length, splice_firstn_length by (fold E; lia). lia.
    + fold E. rewrite Nat.add_0_r, splice_firstn_sub by lia. do 2 f_equal. lia.
  - intros s ->. now rewrite firstn_all2 by lia.
Qed.

Lemma poly_compress5_avx2_img ro :
  traced (fun T => forall r a, (ro + 160 <= length r)%nat -> length a = 256%nat ->
    wp (poly_compress5_avx2 r ro a) T (fun r' => r' = splice r ro (ByteEncode 5 (image ac5 a)))).
Proof.
  eexists. intros r a Hr La. unfold poly_compress5_avx2.
  assert (HF : forall x, (x < 256)%nat -> bitz (fields w5 5) (nth x a 0) = nth x (image ac5 a) 0).
  { intros. now rewrite nth_image by auto. }
  pose proof (image_LE 5 ac5 a) as HL.
  set (E := ByteEncode 5 (image ac5 a)) in *.
  eapply (wp_for _ (fun i s => s = splice r ro (firstn (20 * i) E))).
  - rewrite Nat.mul_0_r; symmetry; apply splice_nil.
  - intros i s Hi ->. repeat vstep. loaded a (32 * i)%nat.
    eapply wp_exec; [apply (check_spec _ [_; _] _ _ compress5_chk)|].
    cbn [map out nth]. vstep.
    eapply wp_store_bytes.
    + apply (seg_bytes (fields w5 5) 5 a (32 * i) (20 * i) 0 16 _ (fields_length _ _) ltac:(lia) (image_length _ _) ltac:(lia) HF); lia.
    + rewrite sub_length, splice_firstn_length by (fold E; lia). lia.
    + fold E. rewrite !Nat.add_0_r, splice_firstn_sub by lia.
      eapply wp_store_bytes.
      * apply (seg_bytes (fields w5 5) 5 a (32 * i) (20 * i) 16 4 _ (fields_length _ _) ltac:(lia) (image_length _ _) ltac:(lia) HF); lia.
      * rewrite sub_length, splice_firstn_length by (fold E; lia). lia.
      * fold E. rewrite <- Nat.add_assoc, splice_firstn_sub by lia. do 2 f_equal. lia.
  - intros s ->. now rewrite firstn_all2 by lia.
Qed.

Lemma poly_compress10_avx2_img ro :
  traced (fun T => forall r a, (ro + 320 <= length r)%nat -> length a = 256%nat ->
    wp (poly_compress10_avx2 r ro a) T (fun r' => r' = splice r ro (ByteEncode 10 (image ac10 a)))).
Proof.
  eexists. intros r a Hr La. unfold poly_compress10_avx2.
  assert (HF : forall x, (x < 256)%nat -> bitz (fields w10 10) (nth x a 0) = nth x (image ac10 a) 0).
  { intros. now rewrite nth_image by auto. }
  pose proof (image_LE 10 ac10 a) as HL.
  set (E := ByteEncode 10 (image ac10 a)) in *.
  eapply (wp_for _ (fun i s => s = splice r ro (firstn (20 * i) E))).
  - rewrite Nat.mul_0_r; symmetry; apply splice_nil.
  - intros i s Hi ->. repeat vstep. loaded a (16 * i)%nat.
    eapply wp_exec; [apply (check_spec _ [_] _ _ compress10_chk)|].
    cbn [map out nth]. vstep.
    eapply wp_store_bytes.
    + apply (seg_bytes (fields w10 10) 10 a (16 * i) (20 * i) 0 16 _ (fields_length _ _) ltac:(lia) (image_length _ _) ltac:(lia) HF); lia.
    + rewrite sub_length, splice_firstn_length by (fold E; lia). lia.
    + fold E. rewrite !Nat.add_0_r, splice_firstn_sub by lia.
      eapply wp_store_bytes.
      * apply (seg_bytes (fields w10 10) 10 a (16 * i) (20 * i) 16 4 _ (fields_length _ _) ltac:(lia) (image_length _ _) ltac:(lia) HF); lia.
      * rewrite sub_length, splice_firstn_length by (fold E; lia). lia.
      * fold E. rewrite <- Nat.add_assoc, splice_firstn_sub by lia. do 2 f_equal. lia.
  - intros s ->. now rewrite firstn_all2 by lia.
Qed.

Lemma poly_compress11_avx2_img ro :
  traced (fun T => forall r a, (ro + 354 <= length r)%nat -> length a = 256%nat ->
    wp (poly_compress11_avx2 r ro a) T (fun r' => r' = splice r ro (ByteEncode 11 (image ac11 a) ++ [0; 0]))).
Proof.
  eexists. intros r a Hr La. unfold poly_compress11_avx2.
  assert (HF : forall x, (x < 256)%nat -> bitz (fields w11 11) (nth x a 0) = nth x (image ac11 a) 0).
  { intros. now rewrite nth_image by auto. }
  pose proof (image_LE 11 ac11 a) as HL.
  set (E := ByteEncode 11 (image ac11 a)) in *.
  eapply (wp_for _ (fun i s => exists z, (length z <= 2)%nat /\ s = splice r ro (firstn (22 * i) E ++ z) /\ (i = 16%nat -> z = [0; 0]))).
  - exists []. split; [cbn; lia|]. split; [|lia]. rewrite Nat.mul_0_r; symmetry; apply splice_nil.
  - intros i s Hi (z & Lz & -> & _). repeat vstep. loaded a (16 * i)%nat.
    eapply wp_exec; [apply (check_spec _ [_] _ _ compress11_chk)|].
    cbn [map out nth]. vstep.
    assert (LF : length (firstn (22 * i) E) = (22 * i)%nat) by (rewrite firstn_length; lia).
    assert (L1 : length (splice r ro (firstn (22 * i) E ++ z)) = length r) by (apply splice_length; rewrite app_length; lia).
    eapply wp_store_bytes.
    + apply (seg_bytes (fields w11 11) 11 a (16 * i) (22 * i) 0 16 _ (fields_length _ _) ltac:(lia) (image_length _ _) ltac:(lia) HF); lia.
    + rewrite sub_length by (fold E; lia). lia.
    + fold E. rewrite !Nat.add_0_r. rewrite <- LF at 2. rewrite splice_over by (rewrite ?sub_length, ?LF; lia).
      replace (firstn (22 * i) E ++ sub E (22 * i) 16) with (firstn (22 * i + 16) E).
      2:{ unfold sub. rewrite <- (firstn_skipn (22 * i) E) at 1. rewrite firstn_app, LF.
          rewrite (firstn_all2 (firstn (22 * i) E)) by lia. do 2 f_equal. lia. }
      eapply wp_store_bytes.
      * rewrite map_app, (words_bits_app8 _ _ 6) by (rewrite map_length; unfold bexp; now rewrite map_length, seq_length).
        change 128%nat with (8 * 16)%nat; change 48%nat with (8 * 6)%nat.
        rewrite (seg_bytes (fields w11 11) 11 a (16 * i) (22 * i) 16 6 _ (fields_length _ _) ltac:(lia) (image_length _ _) ltac:(lia) HF) by lia.
        change (words_bits 8 (map (bval (fun _ => false) (wenv a (16 * i))) (repeat B0 16))) with [0; 0]. reflexivity.
      * rewrite app_length, sub_length, splice_firstn_length by (fold E; lia). cbn [length]. lia.
      * exists [0; 0]. split; [cbn; lia|]. split; [|auto]. fold E.
        rewrite splice_splice_next.
        -- f_equal. rewrite app_assoc. f_equal. rewrite <- (firstn_skipn (22 * i + 16) (firstn (22 * S i) E)).
           rewrite firstn_firstn. f_equal; [f_equal; lia|]. rewrite skipn_firstn_comm. unfold sub. f_equal. lia.
        -- rewrite firstn_length. lia.
        -- rewrite app_length, sub_length by lia. cbn [length]. lia.
  - intros s (z & _ & -> & Z0). rewrite (Z0 eq_refl). now rewrite firstn_all2 by lia.
Qed.

Lemma poly_tomsg_avx2_img mo :
  traced (fun T => forall msg a, (mo + 32 <= length msg)%nat -> length a = 256%nat ->
    wp (poly_tomsg_avx2 msg mo a) T (fun m' => m' = splice msg mo (ByteEncode 1 (image ac1 a)))).
Proof.
  eexists. intros r a Hr La. unfold poly_tomsg_avx2.
  assert (HF : forall x, (x < 256)%nat -> bitz [b1] (nth x a 0) = nth x (image ac1 a) 0).
  { intros. now rewrite nth_image by auto. }
  pose proof (image_LE 1 ac1 a) as HL.
  set (E := ByteEncode 1 (image ac1 a)) in *.
  eapply (wp_for _ (fun i s => s = splice r mo (firstn (4 * i) E))).
  - rewrite Nat.mul_0_r; symmetry; apply splice_nil.
  - intros i s Hi ->. repeat vstep. loaded a (32 * i)%nat.
    eapply wp_exec; [apply (check_spec _ [_; _] _ _ tomsg_chk)|].
    cbn [map out nth].
    eapply wp_store_bytes.
    + apply (seg_bytes [b1] 1 a (32 * i) (4 * i) 0 4 _ eq_refl ltac:(lia) (image_length _ _) ltac:(lia) HF); lia.
    + rewrite sub_length, splice_firstn_length by (fold E; lia). lia.
    + fold E. rewrite Nat.add_0_r, splice_firstn_sub by lia. do 2 f_equal. lia.
  - intros s ->. now rewrite firstn_all2 by lia.
Qed.

Definition acu (lv : level) : Z -> Z := match lv with Kyber1024 => ac11 | _ => ac10 end.
Lemma compress10_img_tail ro : traced (fun T => forall r a, (ro + (320 + 0) <= length r)%nat -> length a = 256%nat ->
  wp (poly_compress10_avx2 r ro a) T (fun r' => r' = splice r ro (image_bytes 10 ac10 a ++ []))).
Proof.
  eexists. intros r a H1 H2. eapply wp_conseq; [apply (proj2_sig (poly_compress10_avx2_img ro)); auto; lia|].
  intros v ->. rewrite app_nil_r. unfold image_bytes. reflexivity.
Qed.
Lemma polyvec_compress_avx2_img lv ro :
  traced (fun T => forall r a, (ro + KYBER_POLYVECCOMPRESSEDBYTES lv + length (overrun lv) <= length r)%nat ->
    length a = KYBER_K lv -> (forall f, In f a -> length f = 256%nat) ->
    wp (polyvec_compress_avx2 lv r ro a) T
       (fun r' => r' = splice r ro (flat_map (image_bytes (du (PS lv)) (acu lv)) a ++ overrun lv))).
Proof.
  assert (G : forall d g n (f : list Z -> nat -> list Z -> res (list Z)) x, n = (32 * d)%nat -> (0 < d)%nat -> (length x <= 2)%nat ->
    (forall ro, traced (fun T => forall r a, (ro + (n + length x) <= length r)%nat -> length a = 256%nat ->
      wp (f r ro a) T (fun r' => r' = splice r ro (image_bytes d g a ++ x)))) ->
    traced (fun T => forall r a, (ro + KYBER_K lv * n + length x <= length r)%nat -> length a = KYBER_K lv -> (forall f, In f a -> length f = 256%nat) ->
      wp (for_ (KYBER_K lv) 0 (fun i r => ai <- aget a i ;; f r (ro + n * i)%nat ai) r) T
       (fun r' => r' = splice r ro (flat_map (image_bytes d g) a ++ x)))).
  { intros d g n f x Hn Hd Hx Hf. subst n. eexists. intros r a Hr La Ha.
    pose proof (image_bytes_length d g) as Lb.
    assert (LS : forall i, (i <= KYBER_K lv)%nat -> length (flat_map (image_bytes d g) (firstn i a)) = (32 * d * i)%nat).
    { intros i Hi. rewrite (flat_map_const_length _ (32 * d)) by auto. rewrite firstn_length, La. f_equal. lia. }
    eapply (wp_for _ (fun i s => s = splice r ro (flat_map (image_bytes d g) (firstn i a) ++ if (i =? 0)%nat then [] else x))).
    - symmetry; apply splice_nil.
    - intros i r1 Hi ->. pose proof (Ha (nth i a []) ltac:(apply nth_In; lia)) as L.
      assert (Ls : forall i, (i <= KYBER_K lv)%nat ->
        length (splice r ro (flat_map (image_bytes d g) (firstn i a) ++ if (i =? 0)%nat then [] else x)) = length r).
      { intros i' Hi'. apply splice_length. rewrite app_length, LS by lia. destruct (i' =? 0)%nat; cbn [length]; nia. }
      wstep. wstep; [lia|]. eapply wp_conseq.
      + apply (proj2_sig (Hf (ro + 32 * d * i)%nat)); [|exact L]. rewrite Ls by lia. nia.
      + intros s ->. rewrite <- (LS i) by lia. rewrite splice_overlap.
        * change (S i =? 0)%nat with false. cbv iota. rewrite (firstn_S_nth [] a i) by lia.
          rewrite flat_map_snoc. now rewrite <- app_assoc.
        * rewrite LS, app_length, Lb by lia. nia.
        * rewrite app_length, Lb. destruct (i =? 0)%nat; cbn [length]; lia.
    - intros s ->. rewrite firstn_all2 by lia. destruct lv; reflexivity. }
  destruct lv; [exact (G 10%nat ac10 320%nat poly_compress10_avx2 [] eq_refl ltac:(lia) ltac:(cbn; lia) compress10_img_tail)
   |exact (G 10%nat ac10 320%nat poly_compress10_avx2 [] eq_refl ltac:(lia) ltac:(cbn; lia) compress10_img_tail)
   |exact (G 11%nat ac11 352%nat poly_compress11_avx2 [0; 0] eq_refl ltac:(lia) ltac:(cbn; lia) poly_compress11_avx2_img)].
Qed.
