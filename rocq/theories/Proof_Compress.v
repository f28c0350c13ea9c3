(** * The division-free compressions equal the rounding of FIPS 203 *)
From Coq Require Import ZArith List Lia Bool.
From Verif Require Import CMonad WP Proof_Base Model_Params Model_Poly Model_Polyvec Spec_FIPS203.
Import ListNotations.
Open Scope Z_scope.

Lemma u32_add a b : u32 (u32 a + b) = u32 (a + b).
Proof. unfold u32, wrapu. now rewrite Zplus_mod_idemp_l. Qed.
Lemma u32_mul a b : u32 (u32 a * b) = u32 (a * b).
Proof. unfold u32, wrapu. now rewrite Zmult_mod_idemp_l. Qed.
Lemma u64_add a b : u64 (u64 a + b) = u64 (a + b).
Proof. unfold u64, wrapu. now rewrite Zplus_mod_idemp_l. Qed.
Lemma u64_mul a b : u64 (u64 a * b) = u64 (a * b).
Proof. unfold u64, wrapu. now rewrite Zmult_mod_idemp_l. Qed.
Lemma u32_shl a n : 0 <= n -> wrapu 32 (Z.shiftl (u32 a) n) = u32 (a * 2 ^ n).
Proof. intros. rewrite Z.shiftl_mul_pow2 by auto. apply u32_mul. Qed.

(** The high bits of a wrapped product *)
Lemma wrap_window v w s d : 0 <= s -> 0 <= d -> s + d <= w ->
  Z.land (Z.shiftr (wrapu w v) s) (Z.ones d) = (v / 2 ^ s) mod 2 ^ d.
Proof.
  intros Hs Hd Hw. rewrite Z.land_ones by auto. unfold wrapu.
  apply Z.bits_inj'. intros n Hn. destruct (Z.lt_ge_cases n d).
  - rewrite !Z.mod_pow2_bits_low by lia. rewrite Z.shiftr_spec by lia.
    rewrite Z.mod_pow2_bits_low by lia. rewrite Z.div_pow2_bits by lia. reflexivity.
  - rewrite !Z.mod_pow2_bits_high by lia. reflexivity.
Qed.

Lemma Compress_floor d x : 0 <= d -> Compress d x = ((2 ^ d * x + 1664) / 3329) mod 2 ^ d.
Proof.
  intros. unfold Compress, q. f_equal.
  replace (2 * 2 ^ d * x + 3329) with (1 + (2 ^ d * x + 1664) * 2) by lia.
  rewrite <- Z.div_div by lia. rewrite Z.div_add by lia. reflexivity.
Qed.

(** u += (u >> 15) & KYBER_Q *)
Lemma add_q c : -3328 <= c <= 3328 -> c + Z.land (Z.shiftr c 15) 3329 = c mod q.
Proof.
  intros H. unfold q. rewrite Z.shiftr_div_pow2 by lia. destruct (Z.lt_ge_cases c 0).
  - replace (c / 2 ^ 15) with (-1) by (apply Z.div_unique with (r := c + 2 ^ 15); lia).
    rewrite Z.land_m1_l. apply Z.mod_unique with (q := -1); lia.
  - rewrite Z.div_small by lia. rewrite Z.land_0_l, Z.mod_small; lia.
Qed.

(** Multiplication and shift instead of division by q *)
Ltac floor_tac := intros; unfold q in *;
  match goal with |- ?A / ?B = ?N / 3329 =>
    pose proof (Z.div_mod N 3329 ltac:(lia)); pose proof (Z.mod_pos_bound N 3329 ltac:(lia));
    symmetry; apply Z.div_unique with (r := A - B * (N / 3329)); [left|]; lia end.

Lemma floor4 x : 0 <= x < q -> (x * 2 ^ 4 + 1665) * 80635 / 2 ^ 28 = (2 ^ 4 * x + 1664) / 3329.
Proof. floor_tac. Qed.
Lemma floor5 x : 0 <= x < q -> (x * 2 ^ 5 + 1664) * 40318 / 2 ^ 27 = (2 ^ 5 * x + 1664) / 3329.
Proof. floor_tac. Qed.
Lemma floor10 x : 0 <= x < q -> (x * 2 ^ 10 + 1665) * 1290167 / 2 ^ 32 = (2 ^ 10 * x + 1664) / 3329.
Proof. floor_tac. Qed.
Lemma floor11 x : 0 <= x < q -> (x * 2 ^ 11 + 1664) * 645084 / 2 ^ 31 = (2 ^ 11 * x + 1664) / 3329.
Proof. floor_tac. Qed.
Lemma floor1 x : -2496 <= x <= 32767 -> (x * 2 ^ 1 + 1665) * 80635 / 2 ^ 28 = (2 ^ 1 * x + 1664) / 3329.
Proof. floor_tac. Qed.

Lemma wp_exact {A} (m : res A) v v' : wp m [] (fun x => x = v) -> v = v' -> m = Ok v' [].
Proof. intros (x & -> & ->) ->. reflexivity. Qed.

Lemma land_small x d : 0 <= x < 2 ^ d -> 0 <= d -> Z.land x (Z.ones d) = x.
Proof. intros. rewrite Z.land_ones by auto. now apply Z.mod_small. Qed.

Ltac nils := change (@nil event) with (@nil event ++ @nil event ++ @nil event ++ @nil event ++ @nil event).

Lemma compress4_coeff_ok c : -3328 <= c <= 3328 -> compress4_coeff c = Ok (Compress 4 (c mod q)) [].
Proof.
  intros Hc. pose proof (Z.mod_pos_bound c q ltac:(reflexivity)) as Hm. unfold q in Hm.
  eapply wp_exact.
  - unfold compress4_coeff. cbv zeta. nils.
    wstep. wstep; [lia|]. wstep. unfold KYBER_Q. wstep; rewrite add_q by lia; unfold q; [lia|].
    rewrite i16_small by lia. wstep. wstep; try lia.
    wstep. wstep; [lia|]. wstep. reflexivity.
  - rewrite u32_add, u32_mul. change 15 with (Z.ones 4). unfold u32.
    rewrite wrap_window by lia. fold q. rewrite floor4 by exact Hm.
    rewrite Compress_floor by lia. apply u8_small. pose proof (Z.mod_pos_bound ((2 ^ 4 * (c mod q) + 1664) / 3329) (2 ^ 4)). lia.
Qed.
Lemma compress5_coeff_ok c : -3328 <= c <= 3328 -> compress5_coeff c = Ok (Compress 5 (c mod q)) [].
Proof.
  intros Hc. pose proof (Z.mod_pos_bound c q ltac:(reflexivity)) as Hm. unfold q in Hm.
  eapply wp_exact.
  - unfold compress5_coeff. cbv zeta. nils.
    wstep. wstep; [lia|]. wstep. unfold KYBER_Q. wstep; rewrite add_q by lia; unfold q; [lia|].
    rewrite i16_small by lia. wstep. wstep; try lia.
    wstep. wstep; [lia|]. wstep. reflexivity.
  - rewrite u32_add, u32_mul. change 31 with (Z.ones 5). unfold u32.
    rewrite wrap_window by lia. fold q. rewrite floor5 by exact Hm.
    rewrite Compress_floor by lia. apply u8_small. pose proof (Z.mod_pos_bound ((2 ^ 5 * (c mod q) + 1664) / 3329) (2 ^ 5)). lia.
Qed.

Lemma i16_u16 c : -32768 <= c <= 32767 -> i16 (u16 c) = c.
Proof.
  intros. unfold i16, u16, wraps, wrapu. rewrite Zplus_mod_idemp_l.
  rewrite Z.mod_small by lia. lia.
Qed.
Lemma u16_add_l a b : u16 (u16 a + b) = u16 (a + b).
Proof. unfold u16, wrapu. now rewrite Zplus_mod_idemp_l. Qed.

Lemma compress10_coeff_ok c : -3328 <= c <= 3328 -> compress10_coeff c = Ok (Compress 10 (c mod q)) [].
Proof.
  intros Hc. pose proof (Z.mod_pos_bound c q ltac:(reflexivity)) as Hm. unfold q in Hm.
  pose proof (add_q c Hc) as A. unfold q in A. eapply wp_exact.
  - unfold compress10_coeff. cbv zeta. rewrite i16_u16 by lia. nils.
    wstep. wstep; [lia|]. wstep. unfold KYBER_Q. wstep.
    { assert (0 <= u16 c < 65536) by (apply Z.mod_pos_bound; reflexivity). lia. }
    rewrite u16_add_l, A. wstep. wstep; [lia|]. wstep. wstep; [lia|]. wstep. reflexivity.
  - rewrite (u16_small (c mod 3329)) by lia. rewrite Z.shiftl_mul_pow2 by lia.
    change (wrapu 64 (c mod 3329 * 2 ^ 10)) with (u64 (c mod 3329 * 2 ^ 10)). rewrite u64_add, u64_mul. change 1023 with (Z.ones 10). unfold u64.
    rewrite wrap_window by lia. fold q. rewrite floor10 by exact Hm.
    rewrite Compress_floor by lia. apply u16_small. pose proof (Z.mod_pos_bound ((2 ^ 10 * (c mod q) + 1664) / 3329) (2 ^ 10)). lia.
Qed.
Lemma compress11_coeff_ok c : -3328 <= c <= 3328 -> compress11_coeff c = Ok (Compress 11 (c mod q)) [].
Proof.
  intros Hc. pose proof (Z.mod_pos_bound c q ltac:(reflexivity)) as Hm. unfold q in Hm.
  pose proof (add_q c Hc) as A. unfold q in A. eapply wp_exact.
  - unfold compress11_coeff. cbv zeta. rewrite i16_u16 by lia. nils.
    wstep. wstep; [lia|]. wstep. unfold KYBER_Q. wstep.
    { assert (0 <= u16 c < 65536) by (apply Z.mod_pos_bound; reflexivity). lia. }
    rewrite u16_add_l, A. wstep. wstep; [lia|]. wstep. wstep; [lia|]. wstep. reflexivity.
  - rewrite (u16_small (c mod 3329)) by lia. rewrite Z.shiftl_mul_pow2 by lia.
    change (wrapu 64 (c mod 3329 * 2 ^ 11)) with (u64 (c mod 3329 * 2 ^ 11)). rewrite u64_add, u64_mul. change 2047 with (Z.ones 11). unfold u64.
    rewrite wrap_window by lia. fold q. rewrite floor11 by exact Hm.
    rewrite Compress_floor by lia. apply u16_small. pose proof (Z.mod_pos_bound ((2 ^ 11 * (c mod q) + 1664) / 3329) (2 ^ 11)). lia.
Qed.

Lemma tomsg_coeff_ok c : -2496 <= c <= 32767 -> tomsg_coeff c = Ok (Compress 1 (c mod q)) [].
Proof.
  intros Hc. eapply wp_exact.
  - unfold tomsg_coeff. cbv zeta.
    change (@nil event) with (@nil event ++ @nil event ++ @nil event).
    wstep. wstep; [lia|]. wstep. wstep; [lia|]. wstep. reflexivity.
  - rewrite u32_shl by lia. rewrite u32_add, u32_mul. change 1 with (Z.ones 1) at 2. unfold u32.
    rewrite wrap_window by lia. rewrite floor1 by lia.
    rewrite Compress_floor by lia. unfold q.
    pose proof (Z_div_mod_eq_full c 3329) as D.
    replace (2 ^ 1 * c + 1664) with (2 ^ 1 * (c mod 3329) + 1664 + (2 * (c / 3329)) * 3329) by lia.
    rewrite Z.div_add by lia. change (2 ^ 1) with 2. rewrite (Z.mul_comm 2 (c / 3329)). apply Z_mod_plus_full.
Qed.

(** t += ((int16_t)t >> 15) & KYBER_Q, for the values that fit 12 bits *)
Definition lift (c : Z) : Z := if c <? 0 then c + q else c.
Lemma lift_modq c : -3328 <= c <= 3328 -> lift c = c mod q.
Proof.
  intros Hc. unfold lift, q. destruct (Z.ltb_spec c 0).
  - apply Z.mod_unique with (q := -1); lia.
  - symmetry. apply Z.mod_small. lia.
Qed.
Lemma tobytes_coeff_lift c : -3329 <= c <= 4095 -> tobytes_coeff c = Ok (lift c) [].
Proof.
  intros Hc.
  assert (A : c + Z.land (Z.shiftr c 15) 3329 = lift c).
  { unfold lift, q. rewrite Z.shiftr_div_pow2 by lia. destruct (Z.ltb_spec c 0).
    - replace (c / 2 ^ 15) with (-1) by (apply Z.div_unique with (r := c + 2 ^ 15); lia).
      now rewrite Z.land_m1_l.
    - rewrite Z.div_small by lia. rewrite Z.land_0_l. apply Z.add_0_r. }
  assert (R : 0 <= lift c <= 4095) by (unfold lift, q; destruct (Z.ltb_spec c 0); lia).
  eapply wp_exact.
  - unfold tobytes_coeff. cbv zeta. rewrite i16_u16 by lia.
    change (@nil event) with (@nil event ++ @nil event ++ @nil event).
    wstep. wstep; [lia|]. wstep. unfold KYBER_Q. wstep.
    { assert (0 <= u16 c < 65536) by (apply Z.mod_pos_bound; reflexivity).
      assert (0 <= Z.land (Z.shiftr c 15) 3329 <= 3329) by (unfold lift, q in *; destruct (Z.ltb_spec c 0); lia). lia. }
    rewrite u16_add_l, A. wstep. reflexivity.
  - apply u16_small. lia.
Qed.

Lemma tobytes_coeff_ok c : -3328 <= c <= 3328 -> tobytes_coeff c = Ok (c mod q) [].
Proof.
  intros Hc. pose proof (Z.mod_pos_bound c q ltac:(reflexivity)) as Hm. unfold q in Hm.
  pose proof (add_q c Hc) as A. unfold q in A. eapply wp_exact.
  - unfold tobytes_coeff. cbv zeta. rewrite i16_u16 by lia.
    change (@nil event) with (@nil event ++ @nil event ++ @nil event).
    wstep. wstep; [lia|]. wstep. unfold KYBER_Q. wstep.
    { assert (0 <= u16 c < 65536) by (apply Z.mod_pos_bound; reflexivity). lia. }
    rewrite u16_add_l, A. wstep. reflexivity.
  - unfold q. apply u16_small. lia.
Qed.

(** ** Decompression *)
Lemma Decompress_floor d y : 0 < d -> Decompress d y = (3329 * y + 2 ^ (d - 1)) / 2 ^ d.
Proof.
  intros. unfold Decompress, q.
  assert (E : 2 ^ d = 2 * 2 ^ (d - 1)) by (rewrite <- Z.pow_succ_r by lia; f_equal; lia).
  rewrite E at 1. replace (2 * 3329 * y + 2 * 2 ^ (d - 1)) with (2 * (3329 * y + 2 ^ (d - 1))) by lia.
  rewrite Z.div_mul_cancel_l; try lia.
Qed.
Lemma decomp_bound d y : 0 < d -> 0 <= y < 2 ^ d -> 0 <= (3329 * y + 2 ^ (d - 1)) / 2 ^ d <= 3329.
Proof.
  intros Hd Hy. assert (0 < 2 ^ (d - 1)) by (apply Z.pow_pos_nonneg; lia).
  assert (E : 2 ^ d = 2 * 2 ^ (d - 1)) by (rewrite <- Z.pow_succ_r by lia; f_equal; lia).
  split; [apply Z.div_pos; lia|]. apply Z.lt_succ_r, Z.div_lt_upper_bound; lia.
Qed.
Lemma decomp4_eq y : 0 <= y < 16 -> i16 (Z.shiftr (y * 3329 + 8) 4) = Decompress 4 y.
Proof.
  intros. rewrite Decompress_floor, Z.shiftr_div_pow2 by lia.
  pose proof (decomp_bound 4 y ltac:(lia) ltac:(lia)). change (2 ^ (4 - 1)) with 8 in *. rewrite (Z.mul_comm y).
  apply i16_small. lia.
Qed.
Ltac decomp_tac d y := intros;
  rewrite (u32_small (y * 3329)) by lia; rewrite u32_small by lia;
  rewrite Decompress_floor, Z.shiftr_div_pow2 by lia;
  pose proof (decomp_bound d y ltac:(lia) ltac:(lia));
  let w := eval compute in (2 ^ (d - 1)) in change (2 ^ (d - 1)) with w in *; rewrite (Z.mul_comm y);
  apply i16_small; lia.
Lemma decomp5_eq y : 0 <= y < 32 -> i16 (Z.shiftr (u32 (u32 (y * 3329) + 16)) 5) = Decompress 5 y.
Proof. decomp_tac 5 y. Qed.
Lemma decomp10_eq y : 0 <= y < 1024 -> i16 (Z.shiftr (u32 (u32 (y * 3329) + 512)) 10) = Decompress 10 y.
Proof. decomp_tac 10 y. Qed.
Lemma decomp11_eq y : 0 <= y < 2048 -> i16 (Z.shiftr (u32 (u32 (y * 3329) + 1024)) 11) = Decompress 11 y.
Proof. decomp_tac 11 y. Qed.

(** ** Rounding error: decompressing a compressed value lands close *)
Lemma Compress_range d x : 0 <= d -> 0 <= Compress d x < 2 ^ d.
Proof. intros. apply Z.mod_pos_bound. apply Z.pow_pos_nonneg; lia. Qed.
