(** * Proofs about verify.c *)
From Coq Require Import ZArith List Lia Bool.
From Verif Require Import CMonad WP Proof_Base Model_Params Model_Verify.
Import ListNotations.
Open Scope Z_scope.

Lemma lor_byte a b : 0 <= a <= 255 -> 0 <= b <= 255 -> 0 <= Z.lor a b <= 255.
Proof.
  intros. split; [apply Z.lor_nonneg; lia|].
  destruct (Z.eq_dec (Z.lor a b) 0); [lia|].
  assert (Z.log2 (Z.lor a b) < 8).
  { rewrite Z.log2_lor by lia. apply Z.max_lub_lt.
    - destruct (Z.eq_dec a 0) as [->|]; [reflexivity|]. apply Z.log2_lt_pow2; simpl; lia.
    - destruct (Z.eq_dec b 0) as [->|]; [reflexivity|]. apply Z.log2_lt_pow2; simpl; lia. }
  assert (0 <= Z.lor a b) by (apply Z.lor_nonneg; lia).
  apply Z.log2_lt_pow2 in H1; simpl in *; lia.
Qed.

Lemma lxor_byte a b : 0 <= a <= 255 -> 0 <= b <= 255 -> 0 <= Z.lxor a b <= 255.
Proof.
  intros. assert (0 <= Z.lxor a b) by (apply Z.lxor_nonneg; lia). split; [auto|].
  destruct (Z.eq_dec (Z.lxor a b) 0); [lia|].
  assert (Z.log2 (Z.lxor a b) < 8).
  { pose proof (Z.log2_lxor a b ltac:(lia) ltac:(lia)).
    assert (Z.log2 a < 8).
    { destruct (Z.eq_dec a 0) as [->|]; [reflexivity|]. apply Z.log2_lt_pow2; simpl; lia. }
    assert (Z.log2 b < 8).
    { destruct (Z.eq_dec b 0) as [->|]; [reflexivity|]. apply Z.log2_lt_pow2; simpl; lia. }
    lia. }
  apply Z.log2_lt_pow2 in H2; simpl in *; lia.
Qed.

Lemma verify_wp ao bo len :
  traced (fun T => forall a b,
    (ao + len <= length a)%nat -> (bo + len <= length b)%nat ->
    bytes (sub a ao len) -> bytes (sub b bo len) ->
    wp (verify a ao b bo len) T
       (fun v => (v = 0 /\ sub a ao len = sub b bo len) \/
                 (v = 1 /\ sub a ao len <> sub b bo len))).
Proof.
  eexists. intros a b Ha Hb Ba Bb. unfold verify. wstep.
  eapply (wp_for _ (fun i r => 0 <= r <= 255 /\ (r = 0 <-> sub a ao i = sub b bo i))).
  - split; [lia|]. split; reflexivity.
  - intros i r Hi (Hr & Er). wgo.
    assert (Hx : 0 <= nth (ao + i) a 0 <= 255).
    { specialize (Ba i). rewrite sub_length, nth_sub in Ba by lia. apply Ba; lia. }
    assert (Hy : 0 <= nth (bo + i) b 0 <= 255).
    { specialize (Bb i). rewrite sub_length, nth_sub in Bb by lia. apply Bb; lia. }
    pose proof (lxor_byte _ _ Hx Hy) as Hz.
    pose proof (lor_byte _ _ Hr Hz) as Hl.
    rewrite u8_small by lia. split; auto.
    rewrite Z.lor_eq_0_iff, Z.lxor_eq_0_iff, Er.
    rewrite !(sub_S 0) by lia. split.
    + intros [-> ->]. reflexivity.
    + intros E. apply app_inj_tail in E. exact E.
  - intros r (Hr & Er). wstep; [lia|]. simpl in Er.
    destruct (Z.eq_dec r 0) as [->|Hn].
    + left. split; [reflexivity|]. now apply Er.
    + right. split; [|intros E; apply Hn; now apply Er].
      unfold u64, wrapu. rewrite Z.shiftr_div_pow2 by lia.
      replace (- r) with (2 ^ 64 - r + (-1) * 2 ^ 64) by lia.
      rewrite Z_mod_plus_full, Z.mod_small by lia.
      change (2 ^ 64) with (2 * 2 ^ 63). Z.div_mod_to_equations. lia.
Qed.

Lemma land_255 a : 0 <= a <= 255 -> Z.land 255 a = a.
Proof.
  intros. change 255 with (Z.ones 8). rewrite Z.land_comm, Z.land_ones by lia.
  apply Z.mod_small. simpl. lia.
Qed.

Lemma cmov_wp ro xo len :
  traced (fun T => forall r x b,
    (ro + len <= length r)%nat -> (xo + len <= length x)%nat ->
    bytes (sub r ro len) -> bytes (sub x xo len) -> b = 0 \/ b = 1 ->
    wp (cmov r ro x xo len b) T
       (fun r' => r' = if b =? 1 then splice r ro (sub x xo len) else r)).
Proof.
  eexists. intros r x b Hr Hx Br Bx Hb. unfold cmov. wgo.
  set (S i := if b =? 1 then sub x xo i else sub r ro i).
  assert (HS : forall i, (i <= len)%nat -> length (S i) = i).
  { intros. unfold S. destruct (b =? 1); apply sub_length; lia. }
  eapply wp_conseq.
  - eapply (wp_for _ (fun i r' => r' = splice r ro (S i))).
    + unfold S. destruct (b =? 1); symmetry; apply splice_nil.
    + intros i r' Hi ->. pose proof (HS i ltac:(lia)).
      wgo; [rewrite splice_length by lia; lia..|].
      rewrite !nth_splice by lia. rewrite HS by lia.
      destruct (Nat.ltb_spec (ro + i) ro); [lia|].
      destruct (Nat.ltb_spec (ro + i) (ro + i)); [lia|].
      rewrite splice_snoc by lia. f_equal.
      assert (Hx1 : 0 <= nth (xo + i) x 0 <= 255).
      { specialize (Bx i). rewrite sub_length, nth_sub in Bx by lia. apply Bx; lia. }
      assert (Hr1 : 0 <= nth (ro + i) r 0 <= 255).
      { specialize (Br i). rewrite sub_length, nth_sub in Br by lia. apply Br; lia. }
      unfold S. destruct Hb as [-> | ->]; cbv [Z.eqb Pos.eqb].
      * rewrite (sub_S 0) by lia. f_equal. f_equal. change (u8 (0 - 0)) with 0.
        rewrite Z.land_0_l, Z.lxor_0_r. apply u8_small. lia.
      * rewrite (sub_S 0) by lia. f_equal. f_equal. change (u8 (0 - 1)) with 255.
        rewrite land_255 by (apply lxor_byte; lia).
        rewrite <- Z.lxor_assoc, Z.lxor_nilpotent, Z.lxor_0_l. apply u8_small. lia.
    + intros r' H'. exact H'.
  - intros r' ->. unfold S. destruct (b =? 1); auto. apply splice_self.
Qed.

Lemma cmov_int16_wp ro :
  traced (fun T => forall r v b,
    (ro < length r)%nat -> -32768 <= nth ro r 0 <= 32767 -> -32768 <= v <= 32767 ->
    b = 0 \/ b = 1 ->
    wp (cmov_int16 r ro v b) T (fun r' => r' = upd r ro (if b =? 1 then v else nth ro r 0))).
Proof.
  eexists. intros r v b Hr Hx Hv Hb. unfold cmov_int16. wgo.
  f_equal. destruct Hb as [-> | ->]; cbv [Z.eqb Pos.eqb].
  - change (u16 (0 - 0)) with 0. rewrite Z.land_0_l, Z.lxor_0_r. apply i16_small. lia.
  - change (u16 (0 - 1)) with (Z.ones 16). rewrite Z.land_comm, Z.land_ones by lia.
    set (x := nth ro r 0) in *.
    (* i16 only looks at the low 16 bits *)
    assert (E : Z.lxor x (Z.lxor x v mod 2 ^ 16) mod 2 ^ 16 = v mod 2 ^ 16).
    { apply Z.bits_inj'. intros n Hn.
      destruct (Z.lt_ge_cases n 16).
      - rewrite !Z.mod_pow2_bits_low by lia. rewrite Z.lxor_spec, Z.mod_pow2_bits_low by lia.
        rewrite Z.lxor_spec. now destruct (Z.testbit x n), (Z.testbit v n).
      - rewrite !Z.mod_pow2_bits_high by lia. reflexivity. }
    change (2 ^ 16) with 65536 in E.
    unfold i16, wraps. change (2 ^ (16 - 1)) with 32768. change (2 ^ 16) with 65536.
    change (2 ^ 16) with 65536 in *.
    rewrite Zplus_mod, E, <- Zplus_mod. rewrite Z.mod_small by lia. lia.
Qed.
