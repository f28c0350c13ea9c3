(** * Compression, serialization and message encoding (poly.c) against FIPS 203 *)
From Coq Require Import ZArith List Lia Bool.
From Verif Require Import CMonad WP Proof_Base Modq Sums Model_Params Model_Reduce Model_Verify Model_Poly
  Proof_Reduce Proof_Verify Proof_Bits Proof_Compress Spec_FIPS203 Levels.
Import ListNotations.
Open Scope Z_scope.

Lemma wp_of_ok {A} (m : res A) v T (Q : A -> Prop) : m = Ok v T -> Q v -> wp m T Q.
Proof. intros -> HQ. exists v; auto. Qed.

(** ** Arrays filled from the left *)
Lemma wp_fill (tb : nat -> trace) n (f : nat -> Z) body (t : list Z) :
  length t = n ->
  (forall j t, (j < n)%nat -> length t = n -> wp (body j t) (tb j) (fun t' => t' = upd t j (f j))) ->
  wp (for_ n 0 body t) (for_trace tb 0 n) (fun t' => t' = mk n f).
Proof.
  intros Ht Hb. eapply wp_conseq.
  { eapply (wp_for tb (fun j t' => length t' = n /\ forall i, (i < j)%nat -> nth i t' 0 = f i)).
    - split; auto. intros; lia.
    - intros j t1 Hj (L & H1). eapply wp_conseq; [apply Hb; auto; lia|].
      intros t' ->. split; [now rewrite upd_length|]. intros i Hi.
      destruct (Nat.eq_dec i j) as [->|]; [rewrite nth_upd_eq by lia; auto|].
      rewrite nth_upd_neq by lia. apply H1. lia.
    - intros s H. exact H. }
  intros t' (L & H). apply (list_eq_nth 0); [now rewrite mk_length|].
  intros i Hi. rewrite nth_mk by lia. apply H. lia.
Qed.

Lemma splice_step {A} (dA : A) r ro (E : list A) m idx v :
  (m < length E)%nat -> (ro + length E <= length r)%nat -> idx = (ro + m)%nat -> v = nth m E dA ->
  upd (splice r ro (firstn m E)) idx v = splice r ro (firstn (S m) E).
Proof.
  intros Hm Hl -> ->. rewrite (firstn_S_nth dA) by auto.
  apply splice_snoc; rewrite ?firstn_length; lia.
Qed.

Lemma splice_firstn_length {A} (r : list A) ro E m : (ro + length E <= length r)%nat ->
  length (splice r ro (firstn m E)) = length r.
Proof. intros. apply splice_length. rewrite firstn_length. lia. Qed.

Lemma splice_all {A} (r E : list A) : length r = length E -> splice r 0 E = E.
Proof.
  intros H. unfold splice. simpl. rewrite <- H, skipn_all. apply app_nil_r.
Qed.

(** ** Bit tactics *)
Lemma testbit_u8 x k : 0 <= k < 8 -> Z.testbit (u8 x) k = Z.testbit x k.
Proof. intros. unfold u8, wrapu. apply Z.mod_pow2_bits_low. lia. Qed.
Lemma testbit_u16 x k : 0 <= k < 16 -> Z.testbit (u16 x) k = Z.testbit x k.
Proof. intros. unfold u16, wrapu. apply Z.mod_pow2_bits_low. lia. Qed.
Lemma u8_lt x : 0 <= u8 x < 256.
Proof. apply Z.mod_pos_bound. reflexivity. Qed.
Lemma u16_lt x : 0 <= u16 x < 65536.
Proof. apply Z.mod_pos_bound. reflexivity. Qed.
Lemma testbit_land_ones x w k : 0 <= k < w -> Z.testbit (Z.land x (Z.ones w)) k = Z.testbit x k.
Proof. intros. rewrite Z.land_spec, Z.ones_spec_low by lia. apply andb_true_r. Qed.
Lemma land_ones_range x w : 0 <= w -> 0 <= Z.land x (Z.ones w) < 2 ^ w.
Proof. intros. rewrite Z.land_ones by lia. apply Z.mod_pos_bound. apply Z.pow_pos_nonneg; lia. Qed.

(** Push [Z.testbit] at concrete indices down to the atoms. *)
Ltac tb_push :=
  repeat match goal with
    | |- context [Z.testbit (u8 ?a) ?k] => rewrite (testbit_u8 a k) by lia
    | |- context [Z.testbit (u16 ?a) ?k] => rewrite (testbit_u16 a k) by lia
    | |- context [Z.testbit (Z.lor ?a ?b) ?k] => rewrite (Z.lor_spec a b k)
    | |- context [Z.testbit (Z.shiftr ?a ?n) ?k] => rewrite (Z.shiftr_spec a n k) by lia
    | |- context [Z.testbit (?a * 2 ^ ?n) ?k] => rewrite (Z.mul_pow2_bits a n k) by lia
    end.
Ltac tb_const :=
  repeat match goal with |- context [Z.testbit ?a ?k] =>
    let k' := eval compute in k in progress change (Z.testbit a k) with (Z.testbit a k') end;
  repeat match goal with |- context [Z.testbit ?a (Z.neg ?p)] =>
    change (Z.testbit a (Z.neg p)) with false end.
(** [tb_high H w]: [H : forall x, 0 <= f x < 2 ^ w] gives the bits above [w]. *)
Ltac tb_high a H w :=
  repeat match goal with
    | |- context [Z.testbit (nth ?x a 0) (Z.pos ?p)] =>
        rewrite (testbit_high (nth x a 0) w (Z.pos p) (H x)) by lia
    end.
Ltac cases8 tac := match goal with |- forall b, (b < _)%nat -> _ =>
  intros b Hb; do 12 (destruct b as [|b]; [first [exfalso; lia | tac]|]); exfalso; lia end.

(** Goal: [<C expression in fields of F> = nth (h*i+c) (ByteEncode d F) 0] *)
Ltac enc_bit d g i F m c HF w :=
  match goal with |- Z.testbit ?L (Z.of_nat ?b) = Z.testbit (nth _ (ByteEncode _ _) 0) _ =>
    let x := eval compute in ((8 * c + b) / d)%nat in
    let y := eval compute in ((8 * c + b) mod d)%nat in
    rewrite (ByteEncode_testbit d F m b (g * i + x) y) by (rewrite ?mk_length; lia)
  end; tb_push; tb_const; tb_high F HF w; tb_const;
  rewrite ?orb_false_r, ?orb_false_l, ?Nat.add_0_r, ?Nat.mul_1_l; reflexivity.
Ltac enc_byte d g i F m c HF w :=
  match goal with |- _ = nth _ ?E 0 => unfold E end;
  apply (bits_ext 8); [apply u8_lt | apply ByteEncode_byte |];
  cases8 ltac:(enc_bit d g i F m c HF w).

(** Goal: [<C expression in bytes of B, masked to w bits> = field d B (g*i+c)] *)
Ltac dec_bit d h i B x c HB :=
  match goal with |- _ = Z.testbit (field _ _ _) (Z.of_nat ?y) =>
    let m := eval compute in ((d * c + y) / 8)%nat in
    let b := eval compute in ((d * c + y) mod 8)%nat in
    rewrite (field_testbit d B (h * i + m) b x y) by lia
  end; rewrite ?testbit_land_ones by lia; tb_push; tb_const; tb_high B HB 8; tb_const;
  rewrite ?orb_false_r, ?orb_false_l, ?Nat.add_0_r, ?Nat.mul_1_l; reflexivity.

(** ** Fields of compressed polynomials *)
Definition compressed (d : Z) (a : list Z) : list Z := mk 256 (fun i => Compress d (nth i a 0 mod q)).
Lemma compressed_range d a x : 0 <= d -> 0 <= nth x (compressed d a) 0 < 2 ^ d.
Proof.
  intros Hd. destruct (Nat.ltb_spec x 256).
  - unfold compressed. rewrite nth_mk by auto. now apply Compress_range.
  - rewrite nth_overflow by (unfold compressed; rewrite mk_length; lia).
    split; [lia|]. apply Z.pow_pos_nonneg; lia.
Qed.
Lemma compressed_length d a : length (compressed d a) = 256%nat.
Proof. apply mk_length. Qed.
Lemma nth_compressed d a i : (i < 256)%nat -> nth i (compressed d a) 0 = Compress d (nth i a 0 mod q).
Proof. intros. unfold compressed. now rewrite nth_mk. Qed.

(** ** Stepping through straight-line packing code *)
Ltac getbyte := wstep; wstep; [rewrite mk_length; lia|]; rewrite nth_mk by lia.
Ltac shl HF := wstep; wstep; [apply HF | lia |
  match goal with |- nth ?x _ 0 * _ < _ => pose proof (HF x); lia end |].
Ltac cstep HF := match goal with
  | |- wp (bind (aget (mk _ _) _) _) _ _ => getbyte
  | |- wp (bind (shr _ _ _) _) _ _ => wstep; wstep; [lia|]
  | |- wp (bind (ishl _ _) _) _ _ => shl HF
  end.
Ltac put1 mm tac :=
  match goal with |- context [upd (splice ?r ?ro (firstn _ ?E)) ?idx ?v] =>
    rewrite (splice_step 0 r ro E mm idx v); [| lia | lia | lia | tac] end.
Ltac putb mm tac := wstep; wstep; [rewrite splice_firstn_length; lia|]; put1 mm tac.

Ltac rd EB := wstep; wstep; [lia|]; rewrite EB by lia.
Ltac shl16 HB := rewrite u16_small by (match goal with |- context [nth ?x ?B 0] => pose proof (HB x); lia end); shl HB.
Ltac dstep EB HB := match goal with
  | |- wp (bind (aget _ _) _) _ _ => rd EB
  | |- wp (bind (shr _ _ _) _) _ _ => wstep; wstep; [lia|]
  | |- wp (bind (ishl (u16 _) _) _) _ _ => shl16 HB
  | |- wp (bind (ishl _ _) _) _ _ => shl HB
  | |- wp (bind (aset _ _ _) _) _ _ => wstep; wstep; [rewrite ?upd_length; lia|]
  end.

Lemma poly_compress_128_wp ro :
  traced (fun T => forall (JJ : Junk) r a, (ro + 128 <= length r)%nat -> length a = 256%nat ->
    bnd (-3328) 3328 a ->
    wp (poly_compress_128 r ro a) T (fun r' => r' = splice r ro (ByteEncode 4 (compressed 4 a)))).
Proof.
  eexists. intros JJ r a Hr Ha Ba. unfold poly_compress_128. change (KYBER_N / 8)%nat with 32%nat.
  set (F := compressed 4 a). set (E := ByteEncode 4 F).
  assert (LF : length F = 256%nat) by apply compressed_length.
  assert (LE : length E = 128%nat) by (unfold E; now rewrite ByteEncode_length, LF).
  assert (HF : forall x, 0 <= nth x F 0 < 2 ^ 4) by (intros; now apply compressed_range).
  wstep.
  eapply (wp_for _ (fun i s => fst s = splice r ro (firstn (4 * i) E) /\ length (snd s) = 8%nat)).
  - split; [cbn [fst]; rewrite Nat.mul_0_r; symmetry; apply splice_nil|apply local_length].
  - intros i [r1 t1] Hi [E1 E2]. cbn [fst snd] in *. subst r1.
    wstep. eapply wp_conseq.
    { eapply (wp_fill _ 8 (fun j => nth (8 * i + j) F 0)); auto.
      intros j t Hj Ht. wstep. wstep; [lia|]. wstep.
      eapply wp_of_ok; [apply compress4_coeff_ok; apply Ba; lia|].
      wstep; [lia|]. unfold F. now rewrite nth_compressed by lia. }
    intros t ->.
    repeat cstep HF. putb (4 * i)%nat ltac:(enc_byte 4%nat 8%nat i F (4 * i)%nat 0%nat HF 4).
    repeat cstep HF. putb (S (4 * i))%nat ltac:(enc_byte 4%nat 8%nat i F (S (4 * i))%nat 1%nat HF 4).
    repeat cstep HF. putb (S (S (4 * i)))%nat ltac:(enc_byte 4%nat 8%nat i F (S (S (4 * i)))%nat 2%nat HF 4).
    repeat cstep HF. putb (S (S (S (4 * i))))%nat ltac:(enc_byte 4%nat 8%nat i F (S (S (S (4 * i))))%nat 3%nat HF 4).
    wstep. cbn [fst snd]. split; [|apply mk_length].
    replace (4 * S i)%nat with (S (S (S (S (4 * i)))))%nat by lia. reflexivity.
  - intros s [E1 _]. wstep. rewrite E1. rewrite firstn_all2 by lia. reflexivity.
Qed.

Lemma poly_compress_160_wp ro :
  traced (fun T => forall (JJ : Junk) r a, (ro + 160 <= length r)%nat -> length a = 256%nat ->
    bnd (-3328) 3328 a ->
    wp (poly_compress_160 r ro a) T (fun r' => r' = splice r ro (ByteEncode 5 (compressed 5 a)))).
Proof.
  eexists. intros JJ r a Hr Ha Ba. unfold poly_compress_160. change (KYBER_N / 8)%nat with 32%nat.
  set (F := compressed 5 a). set (E := ByteEncode 5 F).
  assert (LF : length F = 256%nat) by apply compressed_length.
  assert (LE : length E = 160%nat) by (unfold E; now rewrite ByteEncode_length, LF).
  assert (HF : forall x, 0 <= nth x F 0 < 2 ^ 5) by (intros; now apply compressed_range).
  wstep.
  eapply (wp_for _ (fun i s => fst s = splice r ro (firstn (5 * i) E) /\ length (snd s) = 8%nat)).
  - split; [cbn [fst]; rewrite Nat.mul_0_r; symmetry; apply splice_nil|apply local_length].
  - intros i [r1 t1] Hi [E1 E2]. cbn [fst snd] in *. subst r1.
    wstep. eapply wp_conseq.
    { eapply (wp_fill _ 8 (fun j => nth (8 * i + j) F 0)); auto.
      intros j t Hj Ht. wstep. wstep; [lia|]. wstep.
      eapply wp_of_ok; [apply compress5_coeff_ok; apply Ba; lia|].
      wstep; [lia|]. unfold F. now rewrite nth_compressed by lia. }
    intros t ->.
    repeat cstep HF. putb (5 * i)%nat ltac:(enc_byte 5%nat 8%nat i F (5 * i)%nat 0%nat HF 5).
    repeat cstep HF. putb (S (5 * i))%nat ltac:(enc_byte 5%nat 8%nat i F (S (5 * i))%nat 1%nat HF 5).
    repeat cstep HF. putb (S (S (5 * i)))%nat ltac:(enc_byte 5%nat 8%nat i F (S (S (5 * i)))%nat 2%nat HF 5).
    repeat cstep HF. putb (S (S (S (5 * i))))%nat ltac:(enc_byte 5%nat 8%nat i F (S (S (S (5 * i))))%nat 3%nat HF 5).
    repeat cstep HF. putb (S (S (S (S (5 * i)))))%nat ltac:(enc_byte 5%nat 8%nat i F (S (S (S (S (5 * i)))))%nat 4%nat HF 5).
    wstep. cbn [fst snd]. split; [|apply mk_length].
    replace (5 * S i)%nat with (S (S (S (S (S (5 * i))))))%nat by lia. reflexivity.
  - intros s [E1 _]. wstep. rewrite E1. rewrite firstn_all2 by lia. reflexivity.
Qed.


Lemma poly_compress_wp lv ro :
  traced (fun T => forall (JJ : Junk) r a, (ro + KYBER_POLYCOMPRESSEDBYTES lv <= length r)%nat -> length a = 256%nat ->
    bnd (-3328) 3328 a ->
    wp (poly_compress lv r ro a) T
       (fun r' => r' = splice r ro (ByteEncode (dv (PS lv)) (compressed (Z.of_nat (dv (PS lv))) a)))).
Proof.
  destruct lv; [exists (proj1_sig (poly_compress_128_wp ro))|exists (proj1_sig (poly_compress_128_wp ro))|
    exists (proj1_sig (poly_compress_160_wp ro))]; intros JJ r a Hr Ha Ba;
  [apply (proj2_sig (poly_compress_128_wp ro)) | apply (proj2_sig (poly_compress_128_wp ro)) |
   apply (proj2_sig (poly_compress_160_wp ro))]; auto.
Qed.

(** ** poly_tobytes / poly_frombytes *)
Definition canonical (a : list Z) : list Z := mk 256 (fun i => nth i a 0 mod q).
Lemma canonical_length a : length (canonical a) = 256%nat. Proof. apply mk_length. Qed.
Lemma nth_canonical a i : (i < 256)%nat -> nth i (canonical a) 0 = nth i a 0 mod q.
Proof. intros. unfold canonical. now rewrite nth_mk. Qed.
Lemma canonical_range a x : 0 <= nth x (canonical a) 0 < q.
Proof.
  destruct (Nat.ltb_spec x 256).
  - rewrite nth_canonical by auto. apply Z.mod_pos_bound. reflexivity.
  - rewrite nth_overflow by (rewrite canonical_length; lia). split; [lia|reflexivity].
Qed.

Definition lifted (a : list Z) : list Z := mk 256 (fun i => lift (nth i a 0)).
Lemma lifted_length a : length (lifted a) = 256%nat. Proof. apply mk_length. Qed.
Lemma nth_lifted a i : (i < 256)%nat -> nth i (lifted a) 0 = lift (nth i a 0).
Proof. intros. unfold lifted. now rewrite nth_mk. Qed.
Lemma lifted_range a x : bnd (-3329) 4095 a -> 0 <= nth x (lifted a) 0 < 2 ^ 12.
Proof.
  intros B. destruct (Nat.ltb_spec x 256).
  - rewrite nth_lifted by auto. assert (-3329 <= nth x a 0 <= 4095).
    { destruct (Nat.ltb_spec x (length a)); [now apply B|rewrite nth_overflow; lia]. }
    unfold lift, q. destruct (Z.ltb_spec (nth x a 0) 0); lia.
  - rewrite nth_overflow by (rewrite lifted_length; lia). lia.
Qed.
Lemma lifted_canonical a : bnd (-3328) 3328 a -> length a = 256%nat -> lifted a = canonical a.
Proof.
  intros B L. unfold lifted, canonical, mk. apply map_ext_in. intros i Hi. apply in_seq in Hi.
  apply lift_modq. apply B. lia.
Qed.

Lemma poly_tobytes_lift_wp ro :
  traced (fun T => forall r a, (ro + 384 <= length r)%nat -> length a = 256%nat ->
    bnd (-3329) 4095 a ->
    wp (poly_tobytes r ro a) T (fun r' => r' = splice r ro (ByteEncode 12 (lifted a)))).
Proof.
  eexists. intros r a Hr Ha Ba. unfold poly_tobytes. change (KYBER_N / 2)%nat with 128%nat.
  set (F := lifted a). set (E := ByteEncode 12 F).
  assert (LF : length F = 256%nat) by apply lifted_length.
  assert (LE : length E = 384%nat) by (unfold E; now rewrite ByteEncode_length, LF).
  assert (HF : forall x, 0 <= nth x F 0 < 2 ^ 12).
  { intros. apply lifted_range. exact Ba. }
  eapply (wp_for _ (fun i s => s = splice r ro (firstn (3 * i) E))).
  - rewrite Nat.mul_0_r; symmetry; apply splice_nil.
  - intros i r1 Hi ->.
    wstep. wstep; [lia|]. wstep. eapply wp_of_ok; [apply tobytes_coeff_lift; apply Ba; lia|].
    wstep. wstep; [lia|]. wstep. eapply wp_of_ok; [apply tobytes_coeff_lift; apply Ba; lia|].
    rewrite <- !nth_lifted by lia. fold F.
    replace (nth (2 * i) F 0) with (nth (2 * i + 0) F 0) by (f_equal; lia).
    repeat cstep HF. putb (3 * i)%nat ltac:(enc_byte 12%nat 2%nat i F (3 * i)%nat 0%nat HF 12).
    repeat cstep HF. putb (S (3 * i))%nat ltac:(enc_byte 12%nat 2%nat i F (S (3 * i))%nat 1%nat HF 12).
    repeat cstep HF. wstep; [rewrite splice_firstn_length; lia|].
    put1 (S (S (3 * i)))%nat ltac:(enc_byte 12%nat 2%nat i F (S (S (3 * i)))%nat 2%nat HF 12).
    replace (3 * S i)%nat with (S (S (S (3 * i))))%nat by lia. reflexivity.
  - intros s ->. rewrite firstn_all2 by lia. reflexivity.
Qed.

Lemma poly_tobytes_wp ro :
  traced (fun T => forall r a, (ro + 384 <= length r)%nat -> length a = 256%nat ->
    bnd (-3328) 3328 a ->
    wp (poly_tobytes r ro a) T (fun r' => r' = splice r ro (ByteEncode 12 (canonical a)))).
Proof.
  destruct (poly_tobytes_lift_wp ro) as [T W]. exists T. intros r a Hr Ha Ba.
  rewrite <- lifted_canonical by auto. apply W; auto. intros i Hi. specialize (Ba i Hi). lia.
Qed.

Lemma poly_frombytes_wp ao :
  traced (fun T => forall r a, length r = 256%nat -> (ao + 384 <= length a)%nat -> bytes a ->
    wp (poly_frombytes r a ao) T (fun r' => r' = mk 256 (field 12 (sub a ao 384)))).
Proof.
  eexists. intros r a Hr Ha Ba. unfold poly_frombytes. change (KYBER_N / 2)%nat with 128%nat.
  set (B := sub a ao 384).
  assert (LB : length B = 384%nat) by (apply sub_length; lia).
  assert (HB : forall x, 0 <= nth x B 0 < 2 ^ 8).
  { intros. pose proof (bnd_nth0 0 255 B x ltac:(now apply bnd_sub) ltac:(lia)). lia. }
  assert (EB : forall k, (k < 384)%nat -> nth (ao + k) a 0 = nth k B 0).
  { intros. unfold B. now rewrite nth_sub. }
  set (D := mk 256 (field 12 B)).
  assert (LD : length D = 256%nat) by apply mk_length.
  eapply (wp_for _ (fun i s => s = splice r 0 (firstn (2 * i) D))).
  - rewrite Nat.mul_0_r; symmetry; apply splice_nil.
  - intros i r1 Hi ->.
    rd EB. cstep HB. rd EB. shl16 HB. wstep; wstep; [rewrite splice_firstn_length; lia|].
    assert (K1 : forall x, i16 (Z.land x 4095) = Z.land x (Z.ones 12)).
    { intros x. change 4095 with (Z.ones 12). apply i16_small.
      pose proof (land_ones_range x 12 ltac:(lia)). lia. }
    rewrite K1.
    put1 (2 * i)%nat ltac:(unfold D; rewrite nth_mk by lia; apply (bits_ext 12);
      [now apply land_ones_range|apply field_range|]; cases8 ltac:(dec_bit 12%nat 3%nat i B (2 * i)%nat 0%nat HB)).
    rd EB. cstep HB. rd EB. shl16 HB. wstep; [rewrite splice_firstn_length; lia|]. rewrite K1.
    put1 (S (2 * i))%nat ltac:(unfold D; rewrite nth_mk by lia; apply (bits_ext 12);
      [now apply land_ones_range|apply field_range|]; cases8 ltac:(dec_bit 12%nat 3%nat i B (S (2 * i))%nat 1%nat HB)).
    replace (2 * S i)%nat with (S (S (2 * i)))%nat by lia. reflexivity.
  - intros s ->. rewrite firstn_all2 by lia. apply splice_all. lia.
Qed.

(** ** Decompression *)
Definition decompressed (d : nat) (B : list Z) : list Z :=
  map (Decompress (Z.of_nat d)) (ByteDecode d B).
Lemma decompressed_length d B : length (decompressed d B) = 256%nat.
Proof. unfold decompressed. rewrite map_length. apply ByteDecode_length. Qed.
Lemma nth_decompressed d B i : (i < 256)%nat -> (d <> 12)%nat ->
  nth i (decompressed d B) 0 = Decompress (Z.of_nat d) (field d B i).
Proof.
  intros. unfold decompressed. rewrite nth_indep with (d' := Decompress (Z.of_nat d) 0).
  - rewrite map_nth. now rewrite ByteDecode_small.
  - rewrite map_length, ByteDecode_length. auto.
Qed.

Lemma poly_decompress_128_wp ao :
  traced (fun T => forall r a, length r = 256%nat -> (ao + 128 <= length a)%nat -> bytes a ->
    wp (poly_decompress_128 r a ao) T (fun r' => r' = decompressed 4 (sub a ao 128))).
Proof.
  eexists. intros r a Hr Ha Ba. unfold poly_decompress_128. change (KYBER_N / 2)%nat with 128%nat.
  set (B := sub a ao 128).
  assert (LB : length B = 128%nat) by (apply sub_length; lia).
  assert (HB : forall x, 0 <= nth x B 0 < 2 ^ 8).
  { intros. pose proof (bnd_nth0 0 255 B x ltac:(now apply bnd_sub) ltac:(lia)). lia. }
  assert (EB : forall k, (k < 128)%nat -> nth (ao + k + 0) a 0 = nth k B 0).
  { intros. unfold B. now rewrite nth_sub, Nat.add_0_r. }
  set (D := decompressed 4 B).
  assert (LD : length D = 256%nat) by apply decompressed_length.
  eapply (wp_for _ (fun i s => s = splice r 0 (firstn (2 * i) D))).
  - rewrite Nat.mul_0_r; symmetry; apply splice_nil.
  - intros i r1 Hi ->. change KYBER_Q with 3329.
    assert (F0 : Z.land (nth i B 0) 15 = field 4 B (2 * i)).
    { change 15 with (Z.ones 4). apply (bits_ext 4); [now apply land_ones_range|apply field_range|].
      cases8 ltac:(dec_bit 4%nat 1%nat i B (2 * i)%nat 0%nat HB). }
    assert (F1 : Z.shiftr (nth i B 0) 4 = field 4 B (S (2 * i))).
    { apply (bits_ext 4); [rewrite Z.shiftr_div_pow2 by lia; pose proof (HB i); split;
        [apply Z.div_pos; lia|apply Z.div_lt_upper_bound; simpl; lia]|apply field_range|].
      cases8 ltac:(dec_bit 4%nat 1%nat i B (S (2 * i))%nat 1%nat HB). }
    pose proof (field_range 4 B (2 * i)) as R0. pose proof (field_range 4 B (S (2 * i))) as R1.
    change (2 ^ Z.of_nat 4) with 16 in *.
    rd EB. rewrite F0. rewrite u16_small by lia.
    wstep. wstep; [lia|]. wstep. wstep; [lia|]. cstep HB. rewrite decomp4_eq by lia.
    putb (2 * i)%nat ltac:(unfold D; rewrite nth_decompressed by lia; reflexivity).
    rd EB. cstep HB. rewrite F1. rewrite u16_small by lia.
    wstep. wstep; [lia|]. wstep. wstep; [lia|]. cstep HB. rewrite decomp4_eq by lia.
    wstep; [rewrite splice_firstn_length; lia|].
    put1 (S (2 * i))%nat ltac:(unfold D; rewrite nth_decompressed by lia; reflexivity).
    replace (2 * S i)%nat with (S (S (2 * i)))%nat by lia. reflexivity.
  - intros s ->. rewrite firstn_all2 by lia. apply splice_all. lia.
Qed.

(** A store to a scratch array followed by the next statement *)
Lemma poly_decompress_160_wp ao :
  traced (fun T => forall (JJ : Junk) r a, length r = 256%nat -> (ao + 160 <= length a)%nat -> bytes a ->
    wp (poly_decompress_160 r a ao) T (fun r' => r' = decompressed 5 (sub a ao 160))).
Proof.
  eexists. intros JJ r a Hr Ha Ba. unfold poly_decompress_160. change (KYBER_N / 8)%nat with 32%nat.
  set (B := sub a ao 160).
  assert (LB : length B = 160%nat) by (apply sub_length; lia).
  assert (HB : forall x, 0 <= nth x B 0 < 2 ^ 8).
  { intros. pose proof (bnd_nth0 0 255 B x ltac:(now apply bnd_sub) ltac:(lia)). lia. }
  assert (EB : forall i k, (5 * i + k < 160)%nat -> nth (ao + 5 * i + k) a 0 = nth (5 * i + k) B 0).
  { intros. unfold B. rewrite nth_sub by lia. f_equal. lia. }
  set (D := decompressed 5 B).
  assert (LD : length D = 256%nat) by apply decompressed_length.
  wstep.
  eapply (wp_for _ (fun i s => fst s = splice r 0 (firstn (8 * i) D) /\ length (snd s) = 8%nat)).
  - split; [cbn [fst]; rewrite Nat.mul_0_r; symmetry; apply splice_nil|apply local_length].
  - intros i [r1 t1] Hi [E1 E2]. cbn [fst snd] in *. subst r1. cbv zeta.
    repeat dstep EB HB.
    match goal with |- context [upd (upd (upd (upd (upd (upd (upd (upd t1 0 ?x0) 1 ?x1) 2 ?x2) 3 ?x3) 4 ?x4) 5 ?x5) 6 ?x6) 7 ?x7] =>
      set (t := upd (upd (upd (upd (upd (upd (upd (upd t1 0 x0) 1 x1) 2 x2) 3 x3) 4 x4) 5 x5) 6 x6) 7 x7);
      assert (Et : t = [x0; x1; x2; x3; x4; x5; x6; x7]) by
       (unfold t; do 8 (destruct t1 as [|? t1]; [discriminate|]); destruct t1; [reflexivity|discriminate]) end.
    assert (Ht : forall j, (j < 8)%nat -> Z.land (nth j t 0) (Z.ones 5) = field 5 B (8 * i + j)).
    { rewrite Et. intros j Hj. apply (bits_ext 5); [now apply land_ones_range|apply field_range|].
      do 8 (destruct j as [|j]; [cbn [nth];
        match goal with |- forall b, _ -> _ = Z.testbit (field _ _ (_ + ?c)%nat) _ =>
          cases8 ltac:(dec_bit 5%nat 5%nat i B (8 * i + c)%nat c HB) end|]). lia. }
    assert (Lt : length t = 8%nat) by (rewrite Et; reflexivity).
    clearbody t.
    wstep. eapply (wp_for _ (fun j s => s = splice r 0 (firstn (8 * i + j) D))).
    + rewrite Nat.add_0_r. reflexivity.
    + intros j r2 Hj ->. wstep. wstep; [lia|]. cbv zeta. wstep. wstep; [lia|].
      wstep; [rewrite splice_firstn_length; lia|].
      change 31 with (Z.ones 5). rewrite Ht by lia.
      pose proof (field_range 5 B (8 * i + j)). change KYBER_Q with 3329. rewrite decomp5_eq by (simpl in *; lia).
      put1 (8 * i + j)%nat ltac:(unfold D; rewrite nth_decompressed by lia; reflexivity).
      replace (8 * i + S j)%nat with (S (8 * i + j)) by lia. reflexivity.
    + intros s ->. wstep. cbn [fst snd]. split; auto. replace (8 * S i)%nat with (8 * i + (0 + 8))%nat by lia. reflexivity.
  - intros s [E1 _]. wstep. rewrite E1. rewrite firstn_all2 by lia. apply splice_all. lia.
Qed.

Lemma poly_decompress_wp lv ao :
  traced (fun T => forall (JJ : Junk) r a, length r = 256%nat -> (ao + KYBER_POLYCOMPRESSEDBYTES lv <= length a)%nat -> bytes a ->
    wp (poly_decompress lv r a ao) T
       (fun r' => r' = decompressed (dv (PS lv)) (sub a ao (KYBER_POLYCOMPRESSEDBYTES lv)))).
Proof.
  destruct lv; [exists (proj1_sig (poly_decompress_128_wp ao))|exists (proj1_sig (poly_decompress_128_wp ao))|
    exists (proj1_sig (poly_decompress_160_wp ao))]; intros JJ r a Hr Ha Ba;
  [apply (proj2_sig (poly_decompress_128_wp ao)) | apply (proj2_sig (poly_decompress_128_wp ao)) |
   apply (proj2_sig (poly_decompress_160_wp ao))]; auto.
Qed.

