(** * Message encoding and polynomial-vector compression/serialization *)
From Coq Require Import ZArith List Lia Bool.
From Verif Require Import CMonad WP Proof_Base Modq Sums Model_Params Model_Reduce Model_Verify Model_Poly
  Model_Polyvec Proof_Reduce Proof_Verify Proof_NTT Proof_Poly Proof_Bits Proof_Compress Proof_Codec Spec_FIPS203 Levels.
Import ListNotations.
Open Scope Z_scope.

Lemma field1_bit B i j : (i < length B)%nat -> (j < 8)%nat ->
  field 1 B (8 * i + j) = Z.land (Z.shiftr (nth i B 0) (Z.of_nat j)) 1.
Proof.
  intros Hi Hj. change 1 with (Z.ones 1).
  apply (bits_ext 1); [apply field_range|now apply land_ones_range|].
  intros b Hb. assert (b = 0)%nat by lia. subst b.
  rewrite (field_testbit 1 B i j (8 * i + j) 0) by lia.
  rewrite testbit_land_ones by lia. rewrite Z.shiftr_spec by lia. reflexivity.
Qed.

Lemma poly_frommsg_wp mo :
  traced (fun T => forall r msg, length r = 256%nat -> (mo + 32 <= length msg)%nat -> bytes msg ->
    wp (poly_frommsg r msg mo) T (fun r' => r' = decompressed 1 (sub msg mo 32))).
Proof.
  eexists. intros r a Hr Ha Ba. unfold poly_frommsg. change (KYBER_N / 8)%nat with 32%nat.
  set (B := sub a mo 32).
  assert (LB : length B = 32%nat) by (apply sub_length; lia).
  assert (HB : forall x, 0 <= nth x B 0 < 2 ^ 8).
  { intros. pose proof (bnd_nth0 0 255 B x ltac:(now apply bnd_sub) ltac:(lia)). lia. }
  assert (EB : forall k, (k < 32)%nat -> nth (mo + k) a 0 = nth k B 0).
  { intros. unfold B. now rewrite nth_sub. }
  set (D := decompressed 1 B).
  assert (LD : length D = 256%nat) by apply decompressed_length.
  eapply (wp_for _ (fun i s => s = splice r 0 (firstn (8 * i) D))).
  - rewrite Nat.mul_0_r; symmetry; apply splice_nil.
  - intros i r1 Hi ->.
    eapply (wp_for _ (fun j s => s = splice r 0 (firstn (8 * i + j) D))).
    + now rewrite Nat.add_0_r.
    + intros j r1 Hj ->. wstep. wstep; [rewrite splice_firstn_length; lia|]. rd EB.
      wstep. wstep; [lia|].
      set (b := Z.land (Z.shiftr (nth i B 0) (Z.of_nat j)) 1).
      assert (Eb : b = field 1 B (8 * i + j)) by (unfold b; symmetry; apply field1_bit; lia).
      pose proof (field_range 1 B (8 * i + j)) as Rb. rewrite <- Eb in Rb. change (2 ^ Z.of_nat 1) with 2 in Rb.
      rewrite u16_small by lia.
      assert (L0 : length (splice r 0 (firstn (8 * i + j) D)) = 256%nat) by (rewrite splice_firstn_length; lia).
      eapply wp_conseq; [apply (proj2_sig (cmov_int16_wp (8 * i + j)))|]; rewrite ?upd_length; try lia.
      * rewrite nth_upd_eq by lia. lia.
      * change ((KYBER_Q + 1) / 2) with 1665. lia.
      * intros v ->. rewrite upd_upd, nth_upd_eq by lia.
        replace (8 * i + S j)%nat with (S (8 * i + j)) by lia.
        apply (splice_step 0); try lia.
        unfold D. rewrite nth_decompressed by lia. rewrite <- Eb.
        assert (b = 0 \/ b = 1) as [-> | ->] by lia; reflexivity.
    + intros s ->. replace (8 * S i)%nat with (8 * i + (0 + 8))%nat by lia. reflexivity.
  - intros s ->. rewrite firstn_all2 by lia. apply splice_all. lia.
Qed.

Lemma msg_or (e : Z) (j : nat) : (j < 8)%nat ->
  u8 (Z.lor (e mod 2 ^ Z.of_nat j) (wrapu 32 (Z.shiftl (Z.b2z (Z.testbit e (Z.of_nat j))) (Z.of_nat j))))
  = e mod 2 ^ Z.of_nat (S j).
Proof.
  intros Hj. unfold u8, wrapu. apply Z.bits_inj'. intros n Hn.
  destruct (Z.lt_ge_cases n (Z.of_nat (S j))).
  - rewrite (Z.mod_pow2_bits_low e) by lia. rewrite Z.mod_pow2_bits_low by lia. rewrite Z.lor_spec.
    rewrite (Z.mod_pow2_bits_low (Z.shiftl _ _)) by lia. rewrite Z.shiftl_spec by lia.
    destruct (Z.lt_ge_cases n (Z.of_nat j)).
    + rewrite Z.mod_pow2_bits_low by lia. rewrite (Z.testbit_neg_r _ (n - _)) by lia. apply orb_false_r.
    + assert (n = Z.of_nat j) by lia. subst n. rewrite Z.mod_pow2_bits_high by lia.
      rewrite Z.sub_diag. destruct (Z.testbit e (Z.of_nat j)); reflexivity.
  - rewrite (Z.mod_pow2_bits_high e) by lia. destruct (Z.lt_ge_cases n 8).
    + rewrite Z.mod_pow2_bits_low by lia. rewrite Z.lor_spec.
      rewrite (Z.mod_pow2_bits_high e) by lia.
      rewrite (Z.mod_pow2_bits_low (Z.shiftl _ _)) by lia. rewrite Z.shiftl_spec by lia.
      destruct (Z.testbit e (Z.of_nat j)); [|apply Z.testbit_0_l].
      change (Z.b2z true) with 1. cbn [orb]. change 1 with (2 ^ 0). apply Z.pow2_bits_false. lia.
    + rewrite Z.mod_pow2_bits_high by lia. reflexivity.
Qed.

Lemma poly_tomsg_wide_wp mo :
  traced (fun T => forall msg a, (mo + 32 <= length msg)%nat -> length a = 256%nat ->
    bnd (-2496) 32767 a ->
    wp (poly_tomsg msg mo a) T (fun r' => r' = splice msg mo (ByteEncode 1 (compressed 1 a)))).
Proof.
  eexists. intros r a Hr Ha Ba. unfold poly_tomsg. change (KYBER_N / 8)%nat with 32%nat.
  set (F := compressed 1 a). set (E := ByteEncode 1 F).
  assert (LF : length F = 256%nat) by apply compressed_length.
  assert (LE : length E = 32%nat) by (unfold E; now rewrite ByteEncode_length, LF).
  eapply (wp_for _ (fun i s => s = splice r mo (firstn i E))).
  - symmetry; apply splice_nil.
  - intros i r1 Hi ->.
    assert (L0 : length (splice r mo (firstn i E)) = length r) by (rewrite splice_firstn_length; lia).
    wstep. wstep; [lia|].
    eapply (wp_for _ (fun j s => s = upd (splice r mo (firstn i E)) (mo + i) (nth i E 0 mod 2 ^ Z.of_nat j))).
    + change (2 ^ Z.of_nat 0) with 1. now rewrite Z.mod_1_r.
    + intros j r1 Hj ->. wstep. wstep; [lia|]. wstep.
      eapply wp_of_ok; [apply tomsg_coeff_ok; apply Ba; lia|].
      wstep. wstep; [lia|]. wstep. wstep; [rewrite upd_length; lia|].
      wstep; [rewrite upd_length; lia|]. rewrite upd_upd, nth_upd_eq by lia. f_equal.
      rewrite <- msg_or by lia. do 3 f_equal.
      rewrite <- nth_compressed by lia. fold F. unfold E.
      rewrite (ByteEncode_testbit 1 F i j (8 * i + j) 0) by lia.
      pose proof (compressed_range 1 a (8 * i + j) ltac:(lia)) as R. fold F in R.
      change (2 ^ 1) with 2 in R.
      assert (nth (8 * i + j) F 0 = 0 \/ nth (8 * i + j) F 0 = 1) as [-> | ->] by lia; reflexivity.
    + intros s ->. apply (splice_step 0); try lia. apply Z.mod_small. apply ByteEncode_byte.
  - intros s ->. rewrite firstn_all2 by lia. reflexivity.
Qed.

Lemma poly_tomsg_wp mo :
  traced (fun T => forall msg a, (mo + 32 <= length msg)%nat -> length a = 256%nat ->
    babs 1664 a ->
    wp (poly_tomsg msg mo a) T (fun r' => r' = splice msg mo (ByteEncode 1 (compressed 1 a)))).
Proof.
  destruct (poly_tomsg_wide_wp mo) as [T W]. exists T. intros msg a Hm Ha Ba. apply W; auto.
  intros i Hi. specialize (Ba i Hi). lia.
Qed.
