(** * Compression of one polynomial of a vector (polyvec.c) *)
From Coq Require Import ZArith List Lia Bool.
From Verif Require Import CMonad WP Proof_Base Modq Sums Model_Params Model_Reduce Model_Verify Model_Poly
  Model_Polyvec Proof_Reduce Proof_Verify Proof_NTT Proof_Poly Proof_Bits Proof_Compress Proof_Codec
  Spec_FIPS203 Levels.
Import ListNotations.
Open Scope Z_scope.


Lemma polyvec_compress_352_poly_wp ro :
  traced (fun T => forall r a t, (ro + 352 <= length r)%nat -> length a = 256%nat ->
    bnd (-3328) 3328 a -> length t = 8%nat ->
    wp (polyvec_compress_352_poly r ro a t) T
       (fun s => fst s = splice r ro (ByteEncode 11 (compressed 11 a)) /\ length (snd s) = 8%nat)).
Proof.
  eexists. intros r a t0 Hr Ha Ba Ht0. unfold polyvec_compress_352_poly. change (KYBER_N / 8)%nat with 32%nat.
  set (F := compressed 11 a). set (E := ByteEncode 11 F).
  assert (LF : length F = 256%nat) by apply compressed_length.
  assert (LE : length E = 352%nat) by (unfold E; now rewrite ByteEncode_length, LF).
  assert (HF : forall x, 0 <= nth x F 0 < 2 ^ 11) by (intros; now apply compressed_range).
  eapply (wp_for _ (fun i s => fst s = splice r ro (firstn (11 * i) E) /\ length (snd s) = 8%nat)).
  - split; [cbn [fst]; rewrite Nat.mul_0_r; symmetry; apply splice_nil|auto].
  - intros i [r1 t1] Hi [E1 E2]. cbn [fst snd] in *. subst r1.
    wstep. eapply wp_conseq.
    { eapply (wp_fill _ 8 (fun j => nth (8 * i + j) F 0)); auto.
      intros j t Hj Ht. wstep. wstep; [lia|]. wstep.
      eapply wp_of_ok; [apply compress11_coeff_ok; apply Ba; lia|].
      wstep; [lia|]. unfold F. now rewrite nth_compressed by lia. }
    intros t ->. cbv zeta.
    repeat cstep HF. putb (11 * i)%nat ltac:(enc_byte 11%nat 8%nat i F (11 * i)%nat 0%nat HF 11).
    repeat cstep HF. putb (S (11 * i))%nat ltac:(enc_byte 11%nat 8%nat i F (S (11 * i))%nat 1%nat HF 11).
    repeat cstep HF. putb (S (S (11 * i)))%nat ltac:(enc_byte 11%nat 8%nat i F (S (S (11 * i)))%nat 2%nat HF 11).
    repeat cstep HF. putb (S (S (S (11 * i))))%nat ltac:(enc_byte 11%nat 8%nat i F (S (S (S (11 * i))))%nat 3%nat HF 11).
    repeat cstep HF. putb (S (S (S (S (11 * i)))))%nat ltac:(enc_byte 11%nat 8%nat i F (S (S (S (S (11 * i)))))%nat 4%nat HF 11).
    repeat cstep HF. putb (S (S (S (S (S (11 * i))))))%nat ltac:(enc_byte 11%nat 8%nat i F (S (S (S (S (S (11 * i))))))%nat 5%nat HF 11).
    repeat cstep HF. putb (S (S (S (S (S (S (11 * i)))))))%nat ltac:(enc_byte 11%nat 8%nat i F (S (S (S (S (S (S (11 * i)))))))%nat 6%nat HF 11).
    repeat cstep HF. putb (S (S (S (S (S (S (S (11 * i))))))))%nat ltac:(enc_byte 11%nat 8%nat i F (S (S (S (S (S (S (S (11 * i))))))))%nat 7%nat HF 11).
    repeat cstep HF. putb (S (S (S (S (S (S (S (S (11 * i)))))))))%nat ltac:(enc_byte 11%nat 8%nat i F (S (S (S (S (S (S (S (S (11 * i)))))))))%nat 8%nat HF 11).
    repeat cstep HF. putb (S (S (S (S (S (S (S (S (S (11 * i))))))))))%nat ltac:(enc_byte 11%nat 8%nat i F (S (S (S (S (S (S (S (S (S (11 * i))))))))))%nat 9%nat HF 11).
    repeat cstep HF. putb (S (S (S (S (S (S (S (S (S (S (11 * i)))))))))))%nat ltac:(enc_byte 11%nat 8%nat i F (S (S (S (S (S (S (S (S (S (S (11 * i)))))))))))%nat 10%nat HF 11).
    wstep. cbn [fst snd]. split; [|apply mk_length].
    replace (11 * S i)%nat with (S (S (S (S (S (S (S (S (S (S (S (11 * i))))))))))))%nat by lia. reflexivity.
  - intros s [E1 E2]. split; [rewrite E1; rewrite firstn_all2 by lia; reflexivity|exact E2].
Qed.

Lemma polyvec_compress_320_poly_wp ro :
  traced (fun T => forall r a t, (ro + 320 <= length r)%nat -> length a = 256%nat ->
    bnd (-3328) 3328 a -> length t = 4%nat ->
    wp (polyvec_compress_320_poly r ro a t) T
       (fun s => fst s = splice r ro (ByteEncode 10 (compressed 10 a)) /\ length (snd s) = 4%nat)).
Proof.
  eexists. intros r a t0 Hr Ha Ba Ht0. unfold polyvec_compress_320_poly. change (KYBER_N / 4)%nat with 64%nat.
  set (F := compressed 10 a). set (E := ByteEncode 10 F).
  assert (LF : length F = 256%nat) by apply compressed_length.
  assert (LE : length E = 320%nat) by (unfold E; now rewrite ByteEncode_length, LF).
  assert (HF : forall x, 0 <= nth x F 0 < 2 ^ 10) by (intros; now apply compressed_range).
  eapply (wp_for _ (fun i s => fst s = splice r ro (firstn (5 * i) E) /\ length (snd s) = 4%nat)).
  - split; [cbn [fst]; rewrite Nat.mul_0_r; symmetry; apply splice_nil|auto].
  - intros i [r1 t1] Hi [E1 E2]. cbn [fst snd] in *. subst r1.
    wstep. eapply wp_conseq.
    { eapply (wp_fill _ 4 (fun j => nth (4 * i + j) F 0)); auto.
      intros j t Hj Ht. wstep. wstep; [lia|]. wstep.
      eapply wp_of_ok; [apply compress10_coeff_ok; apply Ba; lia|].
      wstep; [lia|]. unfold F. now rewrite nth_compressed by lia. }
    intros t ->. cbv zeta.
    repeat cstep HF. putb (5 * i)%nat ltac:(enc_byte 10%nat 4%nat i F (5 * i)%nat 0%nat HF 10).
    repeat cstep HF. putb (S (5 * i))%nat ltac:(enc_byte 10%nat 4%nat i F (S (5 * i))%nat 1%nat HF 10).
    repeat cstep HF. putb (S (S (5 * i)))%nat ltac:(enc_byte 10%nat 4%nat i F (S (S (5 * i)))%nat 2%nat HF 10).
    repeat cstep HF. putb (S (S (S (5 * i))))%nat ltac:(enc_byte 10%nat 4%nat i F (S (S (S (5 * i))))%nat 3%nat HF 10).
    repeat cstep HF. putb (S (S (S (S (5 * i)))))%nat ltac:(enc_byte 10%nat 4%nat i F (S (S (S (S (5 * i)))))%nat 4%nat HF 10).
    wstep. cbn [fst snd]. split; [|apply mk_length].
    replace (5 * S i)%nat with (S (S (S (S (S (5 * i))))))%nat by lia. reflexivity.
  - intros s [E1 E2]. split; [rewrite E1; rewrite firstn_all2 by lia; reflexivity|exact E2].
Qed.

Lemma polyvec_decompress_352_poly_wp ao :
  traced (fun T => forall r a t, length r = 256%nat -> (ao + 352 <= length a)%nat -> bytes a -> length t = 8%nat ->
    wp (polyvec_decompress_352_poly r a ao t) T
       (fun s => fst s = decompressed 11 (sub a ao 352) /\ length (snd s) = 8%nat)).
Proof.
  eexists. intros r a t0 Hr Ha Ba Ht0. unfold polyvec_decompress_352_poly. change (KYBER_N / 8)%nat with 32%nat.
  set (B := sub a ao 352).
  assert (LB : length B = 352%nat) by (apply sub_length; lia).
  assert (HB : forall x, 0 <= nth x B 0 < 2 ^ 8).
  { intros. pose proof (bnd_nth0 0 255 B x ltac:(now apply bnd_sub) ltac:(lia)). lia. }
  assert (EB : forall i k, (11 * i + k < 352)%nat -> nth (ao + 11 * i + k) a 0 = nth (11 * i + k) B 0).
  { intros. unfold B. rewrite nth_sub by lia. f_equal. lia. }
  set (D := decompressed 11 B).
  assert (LD : length D = 256%nat) by apply decompressed_length.
  eapply (wp_for _ (fun i s => fst s = splice r 0 (firstn (8 * i) D) /\ length (snd s) = 8%nat)).
  - split; [cbn [fst]; rewrite Nat.mul_0_r; symmetry; apply splice_nil|auto].
  - intros i [r1 t1] Hi [E1 E2]. cbn [fst snd] in *. subst r1. cbv zeta.
    repeat dstep EB HB.
    match goal with |- context [(upd (upd (upd (upd (upd (upd (upd (upd t1 0 ?x0) 1 ?x1) 2 ?x2) 3 ?x3) 4 ?x4) 5 ?x5) 6 ?x6) 7 ?x7)] =>
      set (t := (upd (upd (upd (upd (upd (upd (upd (upd t1 0 x0) 1 x1) 2 x2) 3 x3) 4 x4) 5 x5) 6 x6) 7 x7));
      assert (Et : t = [x0; x1; x2; x3; x4; x5; x6; x7]) by
       (unfold t; do 8 (destruct t1 as [|? t1]; [discriminate|]); destruct t1; [reflexivity|discriminate]) end.
    assert (Ht : forall j, (j < 8)%nat -> Z.land (nth j t 0) (Z.ones 11) = field 11 B (8 * i + j)).
    { rewrite Et. intros j Hj. apply (bits_ext 11); [now apply land_ones_range|apply field_range|].
      do 8 (destruct j as [|j]; [cbn [nth];
        match goal with |- forall b, _ -> _ = Z.testbit (field _ _ (_ + ?c)%nat) _ =>
          cases8 ltac:(dec_bit 11%nat 11%nat i B (8 * i + c)%nat c HB) end|]). lia. }
    assert (Lt : length t = 8%nat) by (rewrite Et; reflexivity).
    clearbody t.
    wstep. eapply (wp_for _ (fun j s => s = splice r 0 (firstn (8 * i + j) D))).
    + rewrite Nat.add_0_r. reflexivity.
    + intros j r2 Hj ->. wstep. wstep; [lia|]. cbv zeta. wstep. wstep; [lia|].
      wstep; [rewrite splice_firstn_length; lia|].
      change 2047 with (Z.ones 11). rewrite Ht by lia.
      pose proof (field_range 11 B (8 * i + j)) as FR. change (2 ^ Z.of_nat 11) with 2048 in FR.
      change KYBER_Q with 3329. rewrite decomp11_eq by lia.
      put1 (8 * i + j)%nat ltac:(unfold D; rewrite nth_decompressed by lia; reflexivity).
      replace (8 * i + S j)%nat with (S (8 * i + j)) by lia. reflexivity.
    + intros s ->. wstep. cbn [fst snd]. split; [|exact Lt]. replace (8 * S i)%nat with (8 * i + (0 + 8))%nat by lia. reflexivity.
  - intros s [E1 E2]. split; [rewrite E1; rewrite firstn_all2 by lia; apply splice_all; lia|exact E2].
Qed.

Lemma polyvec_decompress_320_poly_wp ao :
  traced (fun T => forall r a t, length r = 256%nat -> (ao + 320 <= length a)%nat -> bytes a -> length t = 4%nat ->
    wp (polyvec_decompress_320_poly r a ao t) T
       (fun s => fst s = decompressed 10 (sub a ao 320) /\ length (snd s) = 4%nat)).
Proof.
  eexists. intros r a t0 Hr Ha Ba Ht0. unfold polyvec_decompress_320_poly. change (KYBER_N / 4)%nat with 64%nat.
  set (B := sub a ao 320).
  assert (LB : length B = 320%nat) by (apply sub_length; lia).
  assert (HB : forall x, 0 <= nth x B 0 < 2 ^ 8).
  { intros. pose proof (bnd_nth0 0 255 B x ltac:(now apply bnd_sub) ltac:(lia)). lia. }
  assert (EB : forall i k, (5 * i + k < 320)%nat -> nth (ao + 5 * i + k) a 0 = nth (5 * i + k) B 0).
  { intros. unfold B. rewrite nth_sub by lia. f_equal. lia. }
  set (D := decompressed 10 B).
  assert (LD : length D = 256%nat) by apply decompressed_length.
  eapply (wp_for _ (fun i s => fst s = splice r 0 (firstn (4 * i) D) /\ length (snd s) = 4%nat)).
  - split; [cbn [fst]; rewrite Nat.mul_0_r; symmetry; apply splice_nil|auto].
  - intros i [r1 t1] Hi [E1 E2]. cbn [fst snd] in *. subst r1. cbv zeta.
    repeat dstep EB HB.
    match goal with |- context [(upd (upd (upd (upd t1 0 ?x0) 1 ?x1) 2 ?x2) 3 ?x3)] =>
      set (t := (upd (upd (upd (upd t1 0 x0) 1 x1) 2 x2) 3 x3));
      assert (Et : t = [x0; x1; x2; x3]) by
       (unfold t; do 4 (destruct t1 as [|? t1]; [discriminate|]); destruct t1; [reflexivity|discriminate]) end.
    assert (Ht : forall j, (j < 4)%nat -> Z.land (nth j t 0) (Z.ones 10) = field 10 B (4 * i + j)).
    { rewrite Et. intros j Hj. apply (bits_ext 10); [now apply land_ones_range|apply field_range|].
      do 4 (destruct j as [|j]; [cbn [nth];
        match goal with |- forall b, _ -> _ = Z.testbit (field _ _ (_ + ?c)%nat) _ =>
          cases8 ltac:(dec_bit 10%nat 5%nat i B (4 * i + c)%nat c HB) end|]). lia. }
    assert (Lt : length t = 4%nat) by (rewrite Et; reflexivity).
    clearbody t.
    wstep. eapply (wp_for _ (fun j s => s = splice r 0 (firstn (4 * i + j) D))).
    + rewrite Nat.add_0_r. reflexivity.
    + intros j r2 Hj ->. wstep. wstep; [lia|]. cbv zeta. wstep. wstep; [lia|].
      wstep; [rewrite splice_firstn_length; lia|].
      change 1023 with (Z.ones 10). rewrite Ht by lia.
      pose proof (field_range 10 B (4 * i + j)) as FR. change (2 ^ Z.of_nat 10) with 1024 in FR.
      change KYBER_Q with 3329. rewrite decomp10_eq by lia.
      put1 (4 * i + j)%nat ltac:(unfold D; rewrite nth_decompressed by lia; reflexivity).
      replace (4 * i + S j)%nat with (S (4 * i + j)) by lia. reflexivity.
    + intros s ->. wstep. cbn [fst snd]. split; [|exact Lt]. replace (4 * S i)%nat with (4 * i + (0 + 4))%nat by lia. reflexivity.
  - intros s [E1 E2]. split; [rewrite E1; rewrite firstn_all2 by lia; apply splice_all; lia|exact E2].
Qed.
