(** * The compression code of ref/ for coefficients of any size *)
From Coq Require Import ZArith List Lia Bool.
From Verif Require Import CMonad WP Proof_Base Modq Sums Model_Params Model_Reduce Model_Verify Model_Poly
  Model_Polyvec Proof_Reduce Proof_Verify Proof_NTT Proof_Poly Proof_Bits Proof_Compress Proof_Codec Proof_Codec2 Proof_Codec3
  Proof_Polyvec Proof_PolyvecCodec Spec_FIPS203 Levels.
Import ListNotations.
Open Scope Z_scope.

(** ** What the code computes from each coefficient *)
Definition image (f : Z -> Z) (a : list Z) : list Z := mk 256 (fun i => f (nth i a 0)).
Lemma image_length f a : length (image f a) = 256%nat. Proof. apply mk_length. Qed.
Lemma nth_image f a i : (i < 256)%nat -> nth i (image f a) 0 = f (nth i a 0).
Proof. intros. unfold image. now rewrite nth_mk. Qed.
Lemma image_range f d a x : 0 <= d -> (forall c, 0 <= f c < 2 ^ d) -> 0 <= nth x (image f a) 0 < 2 ^ d.
Proof.
  intros Hd H. destruct (Nat.ltb_spec x 256).
  - rewrite nth_image by auto. apply H.
  - rewrite nth_overflow by (rewrite image_length; lia). pose proof (Z.pow_pos_nonneg 2 d). lia.
Qed.
Definition value_of (d : Z) (m : res Z) : Z := match m with Ok v _ => v mod 2 ^ d | _ => 0 end.
Lemma vrange d m : 0 <= d -> 0 <= value_of d m < 2 ^ d.
Proof.
  intros Hd. pose proof (Z.pow_pos_nonneg 2 d ltac:(lia) Hd). destruct m; cbn [value_of]; try lia. apply Z.mod_pos_bound. lia.
Qed.
Definition rc4 (c : Z) : Z := value_of 4 (compress4_coeff c).
Definition rc5 (c : Z) : Z := value_of 5 (compress5_coeff c).
Definition rc10 (c : Z) : Z := value_of 10 (compress10_coeff c).
Definition rc11 (c : Z) : Z := value_of 11 (compress11_coeff c).
Definition rc1 (c : Z) : Z := value_of 1 (tomsg_coeff c).

Lemma poly_compress_128_img ro :
  traced (fun T => forall (JJ : Junk) r a, (ro + 128 <= length r)%nat -> length a = 256%nat ->
    (forall x, (x < 256)%nat -> compress4_coeff (nth x a 0) = Ok (rc4 (nth x a 0)) []) ->
    wp (poly_compress_128 r ro a) T (fun r' => r' = splice r ro (ByteEncode 4 (image rc4 a)))).
Proof.
  eexists. intros JJ r a Hr Ha Ba. unfold poly_compress_128. change (KYBER_N / 8)%nat with 32%nat.
  set (F := image rc4 a). set (E := ByteEncode 4 F).
  assert (LF : length F = 256%nat) by apply image_length.
  assert (LE : length E = 128%nat) by (unfold E; now rewrite ByteEncode_length, LF).
  assert (HF : forall x, 0 <= nth x F 0 < 2 ^ 4) by (intros x; apply (image_range rc4 4); [lia|intros; apply vrange; lia]).
  wstep.
  eapply (wp_for _ (fun i s => fst s = splice r ro (firstn (4 * i) E) /\ length (snd s) = 8%nat)).
  - split; [cbn [fst]; rewrite Nat.mul_0_r; symmetry; apply splice_nil|apply local_length].
  - intros i [r1 t1] Hi [E1 E2]. cbn [fst snd] in *. subst r1.
    wstep. eapply wp_conseq.
    { eapply (wp_fill _ 8 (fun j => nth (8 * i + j) F 0)); auto.
      intros j t Hj Ht. wstep. wstep; [lia|]. wstep.
      eapply wp_of_ok; [apply Ba; lia|].
      wstep; [lia|]. unfold F. now rewrite nth_image by lia. }
    intros t ->.
    repeat cstep HF. putb (4 * i)%nat ltac:(enc_byte 4%nat 8%nat i F (4 * i)%nat 0%nat HF 4).
    repeat cstep HF. putb (S (4 * i))%nat ltac:(enc_byte 4%nat 8%nat i F (S (4 * i))%nat 1%nat HF 4).
    repeat cstep HF. putb (S (S (4 * i)))%nat ltac:(enc_byte 4%nat 8%nat i F (S (S (4 * i)))%nat 2%nat HF 4).
    repeat cstep HF. putb (S (S (S (4 * i))))%nat ltac:(enc_byte 4%nat 8%nat i F (S (S (S (4 * i))))%nat 3%nat HF 4).
    wstep. cbn [fst snd]. split; [|apply mk_length].
    replace (4 * S i)%nat with (S (S (S (S (4 * i)))))%nat by lia. reflexivity.
  - intros s [E1 _]. wstep. rewrite E1. rewrite firstn_all2 by lia. reflexivity.
Qed.

Lemma poly_compress_160_img ro :
  traced (fun T => forall (JJ : Junk) r a, (ro + 160 <= length r)%nat -> length a = 256%nat ->
    (forall x, (x < 256)%nat -> compress5_coeff (nth x a 0) = Ok (rc5 (nth x a 0)) []) ->
    wp (poly_compress_160 r ro a) T (fun r' => r' = splice r ro (ByteEncode 5 (image rc5 a)))).
Proof.
  eexists. intros JJ r a Hr Ha Ba. unfold poly_compress_160. change (KYBER_N / 8)%nat with 32%nat.
  set (F := image rc5 a). set (E := ByteEncode 5 F).
  assert (LF : length F = 256%nat) by apply image_length.
  assert (LE : length E = 160%nat) by (unfold E; now rewrite ByteEncode_length, LF).
  assert (HF : forall x, 0 <= nth x F 0 < 2 ^ 5) by (intros x; apply (image_range rc5 5); [lia|intros; apply vrange; lia]).
  wstep.
  eapply (wp_for _ (fun i s => fst s = splice r ro (firstn (5 * i) E) /\ length (snd s) = 8%nat)).
  - split; [cbn [fst]; rewrite Nat.mul_0_r; symmetry; apply splice_nil|apply local_length].
  - intros i [r1 t1] Hi [E1 E2]. cbn [fst snd] in *. subst r1.
    wstep. eapply wp_conseq.
    { eapply (wp_fill _ 8 (fun j => nth (8 * i + j) F 0)); auto.
      intros j t Hj Ht. wstep. wstep; [lia|]. wstep.
      eapply wp_of_ok; [apply Ba; lia|].
      wstep; [lia|]. unfold F. now rewrite nth_image by lia. }
    intros t ->.
    repeat cstep HF. putb (5 * i)%nat ltac:(enc_byte 5%nat 8%nat i F (5 * i)%nat 0%nat HF 5).
    repeat cstep HF. putb (S (5 * i))%nat ltac:(enc_byte 5%nat 8%nat i F (S (5 * i))%nat 1%nat HF 5).
    repeat cstep HF. putb (S (S (5 * i)))%nat ltac:(enc_byte 5%nat 8%nat i F (S (S (5 * i)))%nat 2%nat HF 5).
    repeat cstep HF. putb (S (S (S (5 * i))))%nat ltac:(enc_byte 5%nat 8%nat i F (S (S (S (5 * i))))%nat 3%nat HF 5).
    repeat cstep HF. putb (S (S (S (S (5 * i)))))%nat ltac:(enc_byte 5%nat 8%nat i F (S (S (S (S (5 * i)))))%nat 4%nat HF 5).
    wstep. cbn [fst snd]. split; [|apply mk_length].
    replace (5 * S i)%nat with (S (S (S (S (S (5 * i))))))%nat by lia. reflexivity.
  - intros s [E1 _]. wstep. rewrite E1. rewrite firstn_all2 by lia. reflexivity.
Qed.

Lemma poly_tomsg_img mo :
  traced (fun T => forall msg a, (mo + 32 <= length msg)%nat -> length a = 256%nat ->
    (forall x, (x < 256)%nat -> tomsg_coeff (nth x a 0) = Ok (rc1 (nth x a 0)) []) ->
    wp (poly_tomsg msg mo a) T (fun r' => r' = splice msg mo (ByteEncode 1 (image rc1 a)))).
Proof.
  eexists. intros r a Hr Ha Ba. unfold poly_tomsg. change (KYBER_N / 8)%nat with 32%nat.
  set (F := image rc1 a). set (E := ByteEncode 1 F).
  assert (LF : length F = 256%nat) by apply image_length.
  assert (LE : length E = 32%nat) by (unfold E; now rewrite ByteEncode_length, LF).
  eapply (wp_for _ (fun i s => s = splice r mo (firstn i E))).
  - symmetry; apply splice_nil.
  - intros i r1 Hi ->.
    assert (L0 : length (splice r mo (firstn i E)) = length r) by (rewrite splice_firstn_length; lia).
    wstep. wstep; [lia|].
    eapply (wp_for _ (fun j s => s = upd (splice r mo (firstn i E)) (mo + i) (nth i E 0 mod 2 ^ Z.of_nat j))).
    + change (2 ^ Z.of_nat 0) with 1. now rewrite Z.mod_1_r.
    + intros j r1 Hj ->. wstep. wstep; [lia|]. wstep.
      eapply wp_of_ok; [apply Ba; lia|].
      wstep. wstep; [lia|]. wstep. wstep; [rewrite upd_length; lia|].
      wstep; [rewrite upd_length; lia|]. rewrite upd_upd, nth_upd_eq by lia. f_equal.
      rewrite <- msg_or by lia. do 3 f_equal.
      rewrite <- nth_image by lia. fold F. unfold E.
      rewrite (ByteEncode_testbit 1 F i j (8 * i + j) 0) by lia.
      pose proof (image_range rc1 1 a (8 * i + j) ltac:(lia) ltac:(intros; apply vrange; lia)) as R. fold F in R.
      change (2 ^ 1) with 2 in R.
      assert (nth (8 * i + j) F 0 = 0 \/ nth (8 * i + j) F 0 = 1) as [-> | ->] by lia; reflexivity.
    + intros s ->. apply (splice_step 0); try lia. apply Z.mod_small. apply ByteEncode_byte.
  - intros s ->. rewrite firstn_all2 by lia. reflexivity.
Qed.

Lemma polyvec_compress_352_poly_img ro :
  traced (fun T => forall r a t, (ro + 352 <= length r)%nat -> length a = 256%nat ->
    (forall x, (x < 256)%nat -> compress11_coeff (nth x a 0) = Ok (rc11 (nth x a 0)) []) -> length t = 8%nat ->
    wp (polyvec_compress_352_poly r ro a t) T
       (fun s => fst s = splice r ro (ByteEncode 11 (image rc11 a)) /\ length (snd s) = 8%nat)).
Proof.
  eexists. intros r a t0 Hr Ha Ba Ht0. unfold polyvec_compress_352_poly. change (KYBER_N / 8)%nat with 32%nat.
  set (F := image rc11 a). set (E := ByteEncode 11 F).
  assert (LF : length F = 256%nat) by apply image_length.
  assert (LE : length E = 352%nat) by (unfold E; now rewrite ByteEncode_length, LF).
  assert (HF : forall x, 0 <= nth x F 0 < 2 ^ 11) by (intros x; apply (image_range rc11 11); [lia|intros; apply vrange; lia]).
  eapply (wp_for _ (fun i s => fst s = splice r ro (firstn (11 * i) E) /\ length (snd s) = 8%nat)).
  - split; [cbn [fst]; rewrite Nat.mul_0_r; symmetry; apply splice_nil|auto].
  - intros i [r1 t1] Hi [E1 E2]. cbn [fst snd] in *. subst r1.
    wstep. eapply wp_conseq.
    { eapply (wp_fill _ 8 (fun j => nth (8 * i + j) F 0)); auto.
      intros j t Hj Ht. wstep. wstep; [lia|]. wstep.
      eapply wp_of_ok; [apply Ba; lia|].
      wstep; [lia|]. unfold F. now rewrite nth_image by lia. }
    intros t ->. cbv zeta.
    repeat cstep HF. putb (11 * i)%nat ltac:(enc_byte 11%nat 8%nat i F (11 * i)%nat 0%nat HF 11).
    repeat cstep HF. putb (S (11 * i))%nat ltac:(enc_byte 11%nat 8%nat i F (S (11 * i))%nat 1%nat HF 11).
    repeat cstep HF. putb (S (S (11 * i)))%nat ltac:(enc_byte 11%nat 8%nat i F (S (S (11 * i)))%nat 2%nat HF 11).
    repeat cstep HF. putb (S (S (S (11 * i))))%nat ltac:(enc_byte 11%nat 8%nat i F (S (S (S (11 * i))))%nat 3%nat HF 11).
    repeat cstep HF. putb (S (S (S (S (11 * i)))))%nat ltac:(enc_byte 11%nat 8%nat i F (S (S (S (S (11 * i)))))%nat 4%nat HF 11).
    repeat cstep HF. putb (S (S (S (S (S (11 * i))))))%nat ltac:(enc_byte 11%nat 8%nat i F (S (S (S (S (S (11 * i))))))%nat 5%nat HF 11).
    repeat cstep HF. putb (S (S (S (S (S (S (11 * i)))))))%nat ltac:(enc_byte 11%nat 8%nat i F (S (S (S (S (S (S (11 * i)))))))%nat 6%nat HF 11).
    repeat cstep HF. putb (S (S (S (S (S (S (S (11 * i))))))))%nat ltac:(enc_byte 11%nat 8%nat i F (S (S (S (S (S (S (S (11 * i))))))))%nat 7%nat HF 11).
    repeat cstep HF. putb (S (S (S (S (S (S (S (S (11 * i)))))))))%nat ltac:(enc_byte 11%nat 8%nat i F (S (S (S (S (S (S (S (S (11 * i)))))))))%nat 8%nat HF 11).
    repeat cstep HF. putb (S (S (S (S (S (S (S (S (S (11 * i))))))))))%nat ltac:(enc_byte 11%nat 8%nat i F (S (S (S (S (S (S (S (S (S (11 * i))))))))))%nat 9%nat HF 11).
    repeat cstep HF. putb (S (S (S (S (S (S (S (S (S (S (11 * i)))))))))))%nat ltac:(enc_byte 11%nat 8%nat i F (S (S (S (S (S (S (S (S (S (S (11 * i)))))))))))%nat 10%nat HF 11).
    wstep. cbn [fst snd]. split; [|apply mk_length].
    replace (11 * S i)%nat with (S (S (S (S (S (S (S (S (S (S (S (11 * i))))))))))))%nat by lia. reflexivity.
  - intros s [E1 E2]. split; [rewrite E1; rewrite firstn_all2 by lia; reflexivity|exact E2].
Qed.

Lemma polyvec_compress_320_poly_img ro :
  traced (fun T => forall r a t, (ro + 320 <= length r)%nat -> length a = 256%nat ->
    (forall x, (x < 256)%nat -> compress10_coeff (nth x a 0) = Ok (rc10 (nth x a 0)) []) -> length t = 4%nat ->
    wp (polyvec_compress_320_poly r ro a t) T
       (fun s => fst s = splice r ro (ByteEncode 10 (image rc10 a)) /\ length (snd s) = 4%nat)).
Proof.
  eexists. intros r a t0 Hr Ha Ba Ht0. unfold polyvec_compress_320_poly. change (KYBER_N / 4)%nat with 64%nat.
  set (F := image rc10 a). set (E := ByteEncode 10 F).
  assert (LF : length F = 256%nat) by apply image_length.
  assert (LE : length E = 320%nat) by (unfold E; now rewrite ByteEncode_length, LF).
  assert (HF : forall x, 0 <= nth x F 0 < 2 ^ 10) by (intros x; apply (image_range rc10 10); [lia|intros; apply vrange; lia]).
  eapply (wp_for _ (fun i s => fst s = splice r ro (firstn (5 * i) E) /\ length (snd s) = 4%nat)).
  - split; [cbn [fst]; rewrite Nat.mul_0_r; symmetry; apply splice_nil|auto].
  - intros i [r1 t1] Hi [E1 E2]. cbn [fst snd] in *. subst r1.
    wstep. eapply wp_conseq.
    { eapply (wp_fill _ 4 (fun j => nth (4 * i + j) F 0)); auto.
      intros j t Hj Ht. wstep. wstep; [lia|]. wstep.
      eapply wp_of_ok; [apply Ba; lia|].
      wstep; [lia|]. unfold F. now rewrite nth_image by lia. }
    intros t ->. cbv zeta.
    repeat cstep HF. putb (5 * i)%nat ltac:(enc_byte 10%nat 4%nat i F (5 * i)%nat 0%nat HF 10).
    repeat cstep HF. putb (S (5 * i))%nat ltac:(enc_byte 10%nat 4%nat i F (S (5 * i))%nat 1%nat HF 10).
    repeat cstep HF. putb (S (S (5 * i)))%nat ltac:(enc_byte 10%nat 4%nat i F (S (S (5 * i)))%nat 2%nat HF 10).
    repeat cstep HF. putb (S (S (S (5 * i))))%nat ltac:(enc_byte 10%nat 4%nat i F (S (S (S (5 * i))))%nat 3%nat HF 10).
    repeat cstep HF. putb (S (S (S (S (5 * i)))))%nat ltac:(enc_byte 10%nat 4%nat i F (S (S (S (S (5 * i)))))%nat 4%nat HF 10).
    wstep. cbn [fst snd]. split; [|apply mk_length].
    replace (5 * S i)%nat with (S (S (S (S (S (5 * i))))))%nat by lia. reflexivity.
  - intros s [E1 E2]. split; [rewrite E1; rewrite firstn_all2 by lia; reflexivity|exact E2].
Qed.

Definition image_bytes (d : nat) (g : Z -> Z) (f : list Z) : list Z := ByteEncode d (image g f).
Lemma image_bytes_length d g f : length (image_bytes d g f) = (32 * d)%nat.
Proof.
  unfold image_bytes. rewrite ByteEncode_length, image_length.
  replace (d * 256)%nat with (32 * d * 8)%nat by lia. apply Nat.div_mul. lia.
Qed.
Lemma image_LE d g f : length (ByteEncode d (image g f)) = (32 * d)%nat. Proof. exact (image_bytes_length d g f). Qed.
Definition ccu (lv : level) : Z -> res Z := match lv with Kyber1024 => compress11_coeff | _ => compress10_coeff end.
Definition rcu (lv : level) : Z -> Z := match lv with Kyber1024 => rc11 | _ => rc10 end.
Lemma polyvec_compress_img lv ro :
  traced (fun T => forall (JJ : Junk) r a, (ro + KYBER_POLYVECCOMPRESSEDBYTES lv <= length r)%nat ->
    length a = KYBER_K lv -> (forall f, In f a -> length f = 256%nat /\ forall x, (x < 256)%nat -> ccu lv (nth x f 0) = Ok (rcu lv (nth x f 0)) []) ->
    wp (polyvec_compress lv r ro a) T
       (fun r' => r' = splice r ro (flat_map (image_bytes (du (PS lv)) (rcu lv)) a))).
Proof.
  assert (G : forall d cc g n t0 f, (t0 = 8 \/ t0 = 4)%nat -> n = (32 * d)%nat ->
    (forall ro, traced (fun T => forall r a t, (ro + n <= length r)%nat -> length a = 256%nat ->
      (forall x, (x < 256)%nat -> cc (nth x a 0) = Ok (g (nth x a 0)) []) -> length t = t0 ->
      wp (f r ro a t) T (fun s => fst s = splice r ro (image_bytes d g a) /\ length (snd s) = t0))) ->
    traced (fun T => forall (JJ : Junk) r a, (ro + KYBER_K lv * n <= length r)%nat ->
      length a = KYBER_K lv -> (forall f, In f a -> length f = 256%nat /\ forall x, (x < 256)%nat -> cc (nth x f 0) = Ok (g (nth x f 0)) []) ->
      wp (s <- for_ (KYBER_K lv) 0 (fun i s =>
             ai <- aget a i ;; f (fst s) (ro + n * i)%nat ai (snd s)) (r, local t0) ;; ret (fst s)) T
       (fun r' => r' = splice r ro (flat_map (image_bytes d g) a)))).
  { intros d cc g n t0 f Ht0 Hn Hf. subst n. eexists. intros JJ r a Hr La Ha.
    pose proof (image_bytes_length d g) as Lb.
    wstep. eapply (wp_for _ (fun i s => fst s = splice r ro (flat_map (image_bytes d g) (firstn i a)) /\
      length (snd s) = t0)).
    - cbn [fst snd]. split; [symmetry; apply splice_nil|apply local_length].
    - intros i [r1 t1] Hi [E1 E2]. cbn [fst snd] in *. subst r1. destruct (Ha (nth i a []) ltac:(apply nth_In; lia)) as [L B].
      wstep. wstep; [lia|]. eapply wp_conseq.
      + apply (proj2_sig (Hf (ro + 32 * d * i)%nat)); auto.
        rewrite (splice_blocks_length _ (32 * d)) by (auto; lia). nia.
      + intros s [E3 E4]. split; [|exact E4]. rewrite E3. apply splice_block; auto; lia.
    - intros s [E1 _]. wstep. rewrite E1, firstn_all2 by lia. reflexivity. }
  destruct lv; [eexists; apply (proj2_sig (G 10%nat compress10_coeff rc10 320%nat 4%nat polyvec_compress_320_poly ltac:(auto) eq_refl polyvec_compress_320_poly_img))
   | eexists; apply (proj2_sig (G 10%nat compress10_coeff rc10 320%nat 4%nat polyvec_compress_320_poly ltac:(auto) eq_refl polyvec_compress_320_poly_img))
   | eexists; apply (proj2_sig (G 11%nat compress11_coeff rc11 352%nat 8%nat polyvec_compress_352_poly ltac:(auto) eq_refl polyvec_compress_352_poly_img))].
Qed.

(** ** A coefficient outside the domain of the coefficient code makes the whole call undefined *)
Lemma bind_ok {A B} (m : res A) (f : A -> res B) v t : bind m f = Ok v t ->
  exists x t1 t2, m = Ok x t1 /\ f x = Ok v t2.
Proof.
  destruct m as [x t1| | |]; cbn [bind]; try discriminate. destruct (f x) as [w t2| | |] eqn:E; try discriminate.
  intros X. injection X as <- <-. now exists x, t1, t2.
Qed.
Lemma for_ok {S} n : forall lo (body : nat -> S -> res S) s v t, for_ n lo body s = Ok v t ->
  forall i, (i < n)%nat -> exists s' v' t', body (lo + i)%nat s' = Ok v' t'.
Proof.
  induction n as [|n IH]; intros lo body s v t E i Hi; [lia|]. cbn [for_] in E.
  apply bind_ok in E as (x & t1 & t2 & _ & E). apply bind_ok in E as (s1 & t3 & t4 & E1 & E2).
  destruct i as [|i].
  - rewrite Nat.add_0_r. now exists s, s1, t3.
  - destruct (IH _ _ _ _ _ E2 i ltac:(lia)) as (s' & v' & t' & E'). exists s', v', t'. now rewrite <- plus_n_Sm.
Qed.
Lemma aget_ok (a : list Z) i c t : aget a i = Ok c t -> c = nth i a 0.
Proof.
  unfold aget. destruct (nth_error a i) eqn:E; [|discriminate]. cbn. intros X. injection X as <- <-.
  symmetry. now apply nth_error_nth.
Qed.
Lemma poly_compress_128_defined (JJ : Junk) r ro a v t : poly_compress_128 r ro a = Ok v t ->
  forall x, (x < 256)%nat -> exists c t', compress4_coeff (nth x a 0) = Ok c t'.
Proof.
  intros E x Hx. unfold poly_compress_128 in E. apply bind_ok in E as (s & t1 & t2 & E & _).
  destruct (for_ok _ _ _ _ _ _ E (x / 8)%nat) as ([r1 u1] & v1 & t3 & E1).
  { change (KYBER_N / 8)%nat with 32%nat. apply Nat.div_lt_upper_bound; lia. }
  cbn beta iota in E1. apply bind_ok in E1 as (u2 & t4 & t5 & E1 & _).
  destruct (for_ok _ _ _ _ _ _ E1 (x mod 8)%nat) as (u3 & v3 & t6 & E2); [apply Nat.mod_upper_bound; lia|].
  cbn beta in E2. apply bind_ok in E2 as (c & t7 & t8 & E3 & E4). apply aget_ok in E3.
  apply bind_ok in E4 as (d & t9 & t10 & E5 & _). exists d, t9. rewrite <- E5, E3. do 2 f_equal.
  rewrite !Nat.add_0_l. apply Nat.div_mod. lia.
Qed.
Lemma poly_compress_160_defined (JJ : Junk) r ro a v t : poly_compress_160 r ro a = Ok v t ->
  forall x, (x < 256)%nat -> exists c t', compress5_coeff (nth x a 0) = Ok c t'.
Proof.
  intros E x Hx. unfold poly_compress_160 in E. apply bind_ok in E as (s & t1 & t2 & E & _).
  destruct (for_ok _ _ _ _ _ _ E (x / 8)%nat) as ([r1 u1] & v1 & t3 & E1).
  { change (KYBER_N / 8)%nat with 32%nat. apply Nat.div_lt_upper_bound; lia. }
  cbn beta iota in E1. apply bind_ok in E1 as (u2 & t4 & t5 & E1 & _).
  destruct (for_ok _ _ _ _ _ _ E1 (x mod 8)%nat) as (u3 & v3 & t6 & E2); [apply Nat.mod_upper_bound; lia|].
  cbn beta in E2. apply bind_ok in E2 as (c & t7 & t8 & E3 & E4). apply aget_ok in E3.
  apply bind_ok in E4 as (d & t9 & t10 & E5 & _). exists d, t9. rewrite <- E5, E3. do 2 f_equal.
  rewrite !Nat.add_0_l. apply Nat.div_mod. lia.
Qed.
