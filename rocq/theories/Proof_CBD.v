(** * cbd.c: centred binomial sampling *)
From Coq Require Import ZArith List Lia Bool.
From Verif Require Import CMonad WP Proof_Base Modq Sums Model_Params Model_CBD
  Proof_NTT Proof_Bits Proof_Codec Spec_FIPS203 Levels.
Import ListNotations.
Open Scope Z_scope.

Lemma digits_testbit w n c k y : 0 <= w -> (forall k, (k < n)%nat -> 0 <= c k < 2 ^ w) -> (k < n)%nat ->
  0 <= y < w ->
  Z.testbit (sumz n (fun k => c k * 2 ^ (w * Z.of_nat k))) (w * Z.of_nat k + y) = Z.testbit (c k) y.
Proof.
  intros Hw H Hk Hy. rewrite <- (digits_get w n c k) by auto.
  rewrite Z.mod_pow2_bits_low by lia. rewrite Z.div_pow2_bits by lia. f_equal. lia.
Qed.

(** Masking every w-th bit *)
Lemma mask_bits w n s t : 0 < w -> 0 <= s ->
  Z.land (Z.shiftr t s) (sumz n (fun k => 1 * 2 ^ (w * Z.of_nat k))) =
  sumz n (fun k => Z.b2z (Z.testbit t (w * Z.of_nat k + s)) * 2 ^ (w * Z.of_nat k)).
Proof.
  intros Hw Hs. assert (1 < 2 ^ w) by (apply Z.pow_gt_1; lia).
  assert (R1 : forall k, (k < n)%nat -> 0 <= 1 < 2 ^ w) by (intros; lia).
  assert (R2 : forall k, (k < n)%nat -> 0 <= Z.b2z (Z.testbit t (w * Z.of_nat k + s)) < 2 ^ w)
    by (intros; destruct (Z.testbit _ _); simpl; lia).
  apply Z.bits_inj'. intros p Hp. rewrite Z.land_spec, Z.shiftr_spec by lia.
  pose proof (Z.div_mod p w ltac:(lia)) as DM. pose proof (Z.mod_pos_bound p w Hw) as MB.
  pose proof (Z.div_pos p w ltac:(lia) Hw) as DP.
  set (y := p mod w) in *. set (k := Z.to_nat (p / w)).
  assert (Ep : p = w * Z.of_nat k + y) by (unfold k; rewrite Z2Nat.id by lia; lia).
  destruct (Nat.ltb_spec k n).
  - rewrite Ep. rewrite (digits_testbit w n (fun _ => 1)) by (auto; lia).
    rewrite (digits_testbit w n (fun k => Z.b2z (Z.testbit t (w * Z.of_nat k + s)))) by (auto; lia).
    destruct (Z.eq_dec y 0) as [->|].
    + change (Z.testbit 1 0) with true. rewrite andb_true_r, Z.add_0_r.
      destruct (Z.testbit t _); reflexivity.
    + replace (Z.testbit 1 y) with false.
      * rewrite andb_false_r. destruct (Z.testbit t _); [|now rewrite Z.testbit_0_l].
        change (Z.b2z true) with (2 ^ 0). symmetry. apply Z.pow2_bits_false. lia.
      * change 1 with (2 ^ 0). symmetry. apply Z.pow2_bits_false. lia.
  - pose proof (digits_range w n (fun _ => 1) ltac:(lia) R1) as D1.
    pose proof (digits_range w n _ ltac:(lia) R2) as D2.
    assert (w * Z.of_nat n <= p) by nia.
    rewrite (testbit_high _ (w * Z.of_nat n) p D1) by lia.
    rewrite (testbit_high _ (w * Z.of_nat n) p D2) by lia. apply andb_false_r.
Qed.

(** The sample over the integers *)
Definition cbdz (eta : nat) (B : list Z) (i : nat) : Z :=
  sumz eta (fun j => nth (2 * i * eta + j) (BytesToBits B) 0)
  - sumz eta (fun j => nth (2 * i * eta + eta + j) (BytesToBits B) 0).

Lemma cbdz_range eta B i : - Z.of_nat eta <= cbdz eta B i <= Z.of_nat eta.
Proof.
  unfold cbdz.
  assert (R : forall g, 0 <= sumz eta (fun j => nth (g j) (BytesToBits B) 0) <= Z.of_nat eta).
  { intros g. pose proof (sumz_bound eta (fun j => nth (g j) (BytesToBits B) 0) 0 1) as Q.
    assert (0 * Z.of_nat eta <= sumz eta (fun j => nth (g j) (BytesToBits B) 0) <= 1 * Z.of_nat eta); [|lia].
    assert (forall j, 0 <= nth (g j) (BytesToBits B) 0 <= 1).
    { intros j. destruct (field_isbit B (g j)) as [-> | ->]; lia. }
    clear Q. induction eta; [rewrite sumz_O; lia|]. rewrite sumz_S. pose proof (H (eta)%nat). lia. }
  pose proof (R (fun j => (2 * i * eta + j)%nat)). pose proof (R (fun j => (2 * i * eta + eta + j)%nat)). lia.
Qed.

Lemma SamplePolyCBD_cbdz eta B : lcong (mk 256 (cbdz eta B)) (SamplePolyCBD eta B).
Proof.
  split; [unfold SamplePolyCBD; rewrite mk_length; symmetry; apply mkpoly_length|].
  intros i Hi. rewrite mk_length in Hi. unfold SamplePolyCBD. rewrite nth_mk by auto. rewrite nth_mkpoly by auto.
  unfold q. rewrite cong_mod. reflexivity.
Qed.

(** ** Little-endian loads *)
Definition bytes_le (n : nat) (x : list Z) (xo : nat) (t : Z) : Prop :=
  0 <= t < 2 ^ Z.of_nat (8 * n) /\
  forall m b, (m < n)%nat -> (b < 8)%nat ->
    Z.testbit t (Z.of_nat (8 * m + b)) = Z.testbit (nth (xo + m) x 0) (Z.of_nat b).

Lemma byte_at x i : bytes x -> 0 <= nth i x 0 < 2 ^ 8.
Proof. intros H. pose proof (bnd_nth0 0 255 x i H ltac:(lia)). lia. Qed.

Lemma shl32_byte b k : 0 <= b < 2 ^ 8 -> 0 <= k <= 24 -> wrapu 32 (Z.shiftl b k) = Z.shiftl b k.
Proof.
  intros. unfold wrapu. apply Z.mod_small. rewrite Z.shiftl_mul_pow2 by lia.
  assert (2 ^ k <= 2 ^ 24) by (apply Z.pow_le_mono_r; lia).
  assert (0 < 2 ^ k) by (apply Z.pow_pos_nonneg; lia). change (2 ^ 24) with 16777216 in *.
  change (2 ^ 8) with 256 in *. change (2 ^ 32) with 4294967296. nia.
Qed.
Lemma lor_lt a b n : 0 <= n -> 0 <= a < 2 ^ n -> 0 <= b < 2 ^ n -> 0 <= Z.lor a b < 2 ^ n.
Proof.
  intros Hn Ha Hb. split; [apply Z.lor_nonneg; lia|].
  rewrite <- (Z.mod_small a (2 ^ n)), <- (Z.mod_small b (2 ^ n)) by lia.
  rewrite <- !Z.land_ones by lia. rewrite <- Z.land_lor_distr_l. rewrite Z.land_ones by lia.
  apply Z.mod_pos_bound. apply Z.pow_pos_nonneg; lia.
Qed.
Lemma shl_lt b k n : 0 <= b < 2 ^ 8 -> 0 <= k -> k + 8 <= n -> 0 <= Z.shiftl b k < 2 ^ n.
Proof.
  intros. rewrite Z.shiftl_mul_pow2 by lia. replace n with (n - 8 - k + 8 + k) by lia.
  rewrite !Z.pow_add_r by lia.
  assert (0 < 2 ^ k) by (apply Z.pow_pos_nonneg; lia).
  assert (0 < 2 ^ (n - 8 - k)) by (apply Z.pow_pos_nonneg; lia). nia.
Qed.

Ltac le_bits x b :=
  repeat match goal with
   | |- context [Z.testbit (nth ?i x 0) (Z.of_nat ?e - ?c)] =>
      first [ rewrite (Z.testbit_neg_r _ (Z.of_nat e - c)) by lia
            | rewrite (testbit_high (nth i x 0) 8 (Z.of_nat e - c)) by (auto; lia)
            | progress replace (Z.of_nat e - c) with (Z.of_nat b) by lia ]
   | |- context [Z.testbit (nth ?i x 0) (Z.of_nat (8 * ?m + b))] =>
      first [ rewrite (testbit_high (nth i x 0) 8 (Z.of_nat (8 * m + b))) by (auto; lia)
            | progress replace (Z.of_nat (8 * m + b)) with (Z.of_nat b) by lia ] end;
  rewrite ?orb_false_r, ?orb_false_l; reflexivity.
Lemma load32_wp xo :
  traced (fun T => forall x, bytes x -> (xo + 4 <= length x)%nat ->
    wp (load32_littleendian x xo) T (bytes_le 4 x xo)).
Proof.
  eexists. intros x Bx Hx. unfold load32_littleendian. repeat (wstep; try lia).
  pose proof (fun i => byte_at x i Bx) as B.
  rewrite !shl32_byte by (auto; lia).
  split.
  - change (Z.of_nat (8 * 4)) with 32.
    repeat apply lor_lt; try lia; try (apply shl_lt; auto; lia). pose proof (B (xo + 0)%nat). change (2 ^ 8) with 256 in *. change (2 ^ 32) with 4294967296. lia.
  - intros m b Hm Hb. rewrite !Z.lor_spec, !Z.shiftl_spec by lia.
    destruct m as [|[|[|[|m]]]]; [| | | |lia]; le_bits x b.
Qed.
Lemma load24_wp xo :
  traced (fun T => forall x, bytes x -> (xo + 3 <= length x)%nat ->
    wp (load24_littleendian x xo) T (bytes_le 3 x xo)).
Proof.
  eexists. intros x Bx Hx. unfold load24_littleendian. repeat (wstep; try lia).
  pose proof (fun i => byte_at x i Bx) as B.
  rewrite !shl32_byte by (auto; lia).
  split.
  - change (Z.of_nat (8 * 3)) with 24.
    repeat apply lor_lt; try lia; try (apply shl_lt; auto; lia). pose proof (B (xo + 0)%nat). change (2 ^ 8) with 256 in *. change (2 ^ 24) with 16777216. lia.
  - intros m b Hm Hb. rewrite !Z.lor_spec, !Z.shiftl_spec by lia.
    destruct m as [|[|[|m]]]; [| | |lia]; le_bits x b.
Qed.

Lemma bytes_le_bit n x xo t k : bytes_le n x xo t -> (xo + n <= length x)%nat -> (k < 8 * n)%nat ->
  Z.b2z (Z.testbit t (Z.of_nat k)) = nth (8 * xo + k) (BytesToBits x) 0.
Proof.
  intros [_ H] Hx Hk.
  pose proof (Nat.div_mod k 8 ltac:(lia)). pose proof (Nat.mod_upper_bound k 8 ltac:(lia)).
  set (m := (k / 8)%nat) in *. set (b := (k mod 8)%nat) in *.
  replace k with (8 * m + b)%nat by lia. rewrite H by lia.
  replace (8 * xo + (8 * m + b))%nat with (8 * (xo + m) + b)%nat by lia.
  symmetry. apply BytesToBits_nth; lia.
Qed.

Definition bitn (x : list Z) (i : nat) : Z := nth i (BytesToBits x) 0.
Lemma bitn_01 x i : 0 <= bitn x i <= 1.
Proof. unfold bitn. destruct (field_isbit x i) as [-> | ->]; lia. Qed.

(** The masked word, in terms of the bits of the buffer *)
Lemma mask_word n x xo t w m s M : bytes_le n x xo t -> (xo + n <= length x)%nat ->
  (0 < w)%nat -> (w * m = 8 * n)%nat -> (s < w)%nat ->
  M = sumz m (fun k => 1 * 2 ^ (Z.of_nat w * Z.of_nat k)) ->
  Z.land (Z.shiftr t (Z.of_nat s)) M =
  sumz m (fun k => bitn x (8 * xo + (w * k + s)) * 2 ^ (Z.of_nat w * Z.of_nat k)).
Proof.
  intros H Hx Hw Hwm Hs ->. rewrite mask_bits by lia. apply sumz_ext. intros k Hk.
  rewrite <- Nat2Z.inj_mul, <- Nat2Z.inj_add. rewrite (bytes_le_bit n x xo t) by (auto; nia). reflexivity.
Qed.

(** Reading digit k with a shift and a mask *)
Lemma digit_at w m c k d sh : 0 <= w -> (forall k, (k < m)%nat -> 0 <= c k < 2 ^ w) -> (k < m)%nat ->
  d = sumz m (fun k => c k * 2 ^ (w * Z.of_nat k)) -> sh = w * Z.of_nat k ->
  Z.land (Z.shiftr d sh) (Z.ones w) = c k.
Proof.
  intros Hw Hc Hk -> ->. rewrite Z.land_ones by lia. rewrite Z.shiftr_div_pow2 by lia.
  now apply digits_get.
Qed.

Lemma u32_digits w m c : 0 <= w -> w * Z.of_nat m <= 32 -> (forall k, (k < m)%nat -> 0 <= c k < 2 ^ w) ->
  u32 (sumz m (fun k => c k * 2 ^ (w * Z.of_nat k))) = sumz m (fun k => c k * 2 ^ (w * Z.of_nat k)).
Proof.
  intros Hw Hm Hc. apply u32_small. pose proof (digits_range w m c Hw Hc).
  assert (2 ^ (w * Z.of_nat m) <= 2 ^ 32) by (apply Z.pow_le_mono_r; lia). lia.
Qed.

Lemma cbd2_wp :
  traced (fun T => forall r buf, length r = 256%nat -> length buf = 128%nat -> bytes buf ->
    wp (cbd2 r buf) T (fun r' => r' = mk 256 (cbdz 2 buf))).
Proof.
  eexists. intros r buf Hr Hb Bb. unfold cbd2. change (KYBER_N / 8)%nat with 32%nat.
  set (D := mk 256 (cbdz 2 buf)). assert (LD : length D = 256%nat) by apply mk_length.
  eapply (wp_for _ (fun i s => s = splice r 0 (firstn (8 * i) D))).
  - rewrite Nat.mul_0_r; symmetry; apply splice_nil.
  - intros i r1 Hi ->. wstep. eapply wp_conseq; [apply (proj2_sig (load32_wp (4 * i))); auto; lia|].
    intros t Ht. cbv zeta. wstep. wstep; [lia|].
    assert (E0 : Z.land t 0x55555555 = sumz 16 (fun k => bitn buf (8 * (4 * i) + (2 * k + 0)) * 2 ^ (2 * Z.of_nat k))).
    { rewrite <- (Z.shiftr_0_r t).
      apply (mask_word 4 buf (4 * i) t 2 16 0); auto; try lia; try reflexivity. }
    assert (E1 : Z.land (Z.shiftr t 1) 0x55555555 = sumz 16 (fun k => bitn buf (8 * (4 * i) + (2 * k + 1)) * 2 ^ (2 * Z.of_nat k))).
    { apply (mask_word 4 buf (4 * i) t 2 16 1); auto; try lia; try reflexivity. }
    set (c := fun k => bitn buf (8 * (4 * i) + (2 * k + 0)) + bitn buf (8 * (4 * i) + (2 * k + 1))).
    assert (Hc : forall k, 0 <= c k <= 2).
    { intros k. unfold c. pose proof (bitn_01 buf (8 * (4 * i) + (2 * k + 0))). pose proof (bitn_01 buf (8 * (4 * i) + (2 * k + 1))). lia. }
    assert (Hc' : forall k, (k < 16)%nat -> 0 <= c k < 2 ^ 2) by (intros k _; pose proof (Hc k); lia).
    rewrite E0, E1, <- sumz_plus.
    rewrite (sumz_ext 16 _ (fun k => c k * 2 ^ (2 * Z.of_nat k))) by (intros; unfold c; ring).
    rewrite u32_digits by (auto; lia).
    set (d := sumz 16 (fun k => c k * 2 ^ (2 * Z.of_nat k))).
    assert (Hd : d = sumz 16 (fun k => c k * 2 ^ (2 * Z.of_nat k))) by reflexivity. clearbody d.
    eapply (wp_for _ (fun j s => s = splice r 0 (firstn (8 * i + j) D))).
    + now rewrite Nat.add_0_r.
    + intros j r1 Hj ->. wstep. wstep; [lia|]. wstep. wstep; [lia|].
      change 3 with (Z.ones 2).
      rewrite (digit_at 2 16 c (2 * j) d) by (auto; lia).
      rewrite (digit_at 2 16 c (2 * j + 1) d) by (auto; lia).
      pose proof (Hc (2 * j)%nat). pose proof (Hc (2 * j + 1)%nat).
      rewrite (i16_small (c (2 * j)%nat)), (i16_small (c (2 * j + 1)%nat)) by lia.
      wstep. wstep; [lia|]. wstep; [rewrite splice_firstn_length; lia|].
      rewrite i16_small by lia. replace (8 * i + S j)%nat with (S (8 * i + j)) by lia.
      apply (splice_step 0); try lia.
      unfold D. rewrite nth_mk by lia. unfold cbdz, c, bitn. rewrite !sumz_S, !sumz_O.
      replace (2 * (8 * i + j) * 2 + 0)%nat with (8 * (4 * i) + (2 * (2 * j) + 0))%nat by lia.
      replace (2 * (8 * i + j) * 2 + 1)%nat with (8 * (4 * i) + (2 * (2 * j) + 1))%nat by lia.
      replace (2 * (8 * i + j) * 2 + 2 + 0)%nat with (8 * (4 * i) + (2 * (2 * j + 1) + 0))%nat by lia.
      replace (2 * (8 * i + j) * 2 + 2 + 1)%nat with (8 * (4 * i) + (2 * (2 * j + 1) + 1))%nat by lia.
      ring.
    + intros s ->. replace (8 * S i)%nat with (8 * i + (0 + 8))%nat by lia. reflexivity.
  - intros s ->. rewrite firstn_all2 by lia. apply splice_all. lia.
Qed.

Lemma cbd3_wp :
  traced (fun T => forall r buf, length r = 256%nat -> length buf = 192%nat -> bytes buf ->
    wp (cbd3 r buf) T (fun r' => r' = mk 256 (cbdz 3 buf))).
Proof.
  eexists. intros r buf Hr Hb Bb. unfold cbd3. change (KYBER_N / 4)%nat with 64%nat.
  set (D := mk 256 (cbdz 3 buf)). assert (LD : length D = 256%nat) by apply mk_length.
  eapply (wp_for _ (fun i s => s = splice r 0 (firstn (4 * i) D))).
  - rewrite Nat.mul_0_r; symmetry; apply splice_nil.
  - intros i r1 Hi ->. wstep. eapply wp_conseq; [apply (proj2_sig (load24_wp (3 * i))); auto; lia|].
    intros t Ht. cbv zeta. wstep. wstep; [lia|]. wstep. wstep; [lia|].
    assert (E0 : Z.land t 0x00249249 = sumz 8 (fun k => bitn buf (8 * (3 * i) + (3 * k + 0)) * 2 ^ (3 * Z.of_nat k))).
    { rewrite <- (Z.shiftr_0_r t).
      apply (mask_word 3 buf (3 * i) t 3 8 0); auto; try lia; try reflexivity. }
    assert (E1 : Z.land (Z.shiftr t 1) 0x00249249 = sumz 8 (fun k => bitn buf (8 * (3 * i) + (3 * k + 1)) * 2 ^ (3 * Z.of_nat k))).
    { apply (mask_word 3 buf (3 * i) t 3 8 1); auto; try lia; try reflexivity. }
    assert (E2 : Z.land (Z.shiftr t 2) 0x00249249 = sumz 8 (fun k => bitn buf (8 * (3 * i) + (3 * k + 2)) * 2 ^ (3 * Z.of_nat k))).
    { apply (mask_word 3 buf (3 * i) t 3 8 2); auto; try lia; try reflexivity. }
    set (c1 := fun k => bitn buf (8 * (3 * i) + (3 * k + 0)) + bitn buf (8 * (3 * i) + (3 * k + 1))).
    set (c := fun k => c1 k + bitn buf (8 * (3 * i) + (3 * k + 2))).
    assert (Hc1 : forall k, 0 <= c1 k <= 2).
    { intros k. unfold c1. pose proof (bitn_01 buf (8 * (3 * i) + (3 * k + 0))). pose proof (bitn_01 buf (8 * (3 * i) + (3 * k + 1))). lia. }
    assert (Hc : forall k, 0 <= c k <= 3).
    { intros k. unfold c. pose proof (Hc1 k). pose proof (bitn_01 buf (8 * (3 * i) + (3 * k + 2))). lia. }
    assert (Hc1' : forall k, (k < 8)%nat -> 0 <= c1 k < 2 ^ 3) by (intros k _; pose proof (Hc1 k); lia).
    assert (Hc' : forall k, (k < 8)%nat -> 0 <= c k < 2 ^ 3) by (intros k _; pose proof (Hc k); lia).
    rewrite E0, E1, E2, <- sumz_plus.
    rewrite (sumz_ext 8 _ (fun k => c1 k * 2 ^ (3 * Z.of_nat k))) by (intros; unfold c1; ring).
    rewrite u32_digits by (auto; lia). rewrite <- sumz_plus.
    rewrite (sumz_ext 8 _ (fun k => c k * 2 ^ (3 * Z.of_nat k))) by (intros; unfold c; ring).
    rewrite u32_digits by (auto; lia).
    set (d := sumz 8 (fun k => c k * 2 ^ (3 * Z.of_nat k))).
    assert (Hd : d = sumz 8 (fun k => c k * 2 ^ (3 * Z.of_nat k))) by reflexivity. clearbody d.
    eapply (wp_for _ (fun j s => s = splice r 0 (firstn (4 * i + j) D))).
    + now rewrite Nat.add_0_r.
    + intros j r1 Hj ->. wstep. wstep; [lia|]. wstep. wstep; [lia|].
      change 7 with (Z.ones 3).
      rewrite (digit_at 3 8 c (2 * j) d) by (auto; lia).
      rewrite (digit_at 3 8 c (2 * j + 1) d) by (auto; lia).
      pose proof (Hc (2 * j)%nat). pose proof (Hc (2 * j + 1)%nat).
      rewrite (i16_small (c (2 * j)%nat)), (i16_small (c (2 * j + 1)%nat)) by lia.
      wstep. wstep; [lia|]. wstep; [rewrite splice_firstn_length; lia|].
      rewrite i16_small by lia. replace (4 * i + S j)%nat with (S (4 * i + j)) by lia.
      apply (splice_step 0); try lia.
      unfold D. rewrite nth_mk by lia. unfold cbdz, c, c1, bitn. rewrite !sumz_S, !sumz_O.
      replace (2 * (4 * i + j) * 3 + 0)%nat with (8 * (3 * i) + (3 * (2 * j) + 0))%nat by lia.
      replace (2 * (4 * i + j) * 3 + 1)%nat with (8 * (3 * i) + (3 * (2 * j) + 1))%nat by lia.
      replace (2 * (4 * i + j) * 3 + 2)%nat with (8 * (3 * i) + (3 * (2 * j) + 2))%nat by lia.
      replace (2 * (4 * i + j) * 3 + 3 + 0)%nat with (8 * (3 * i) + (3 * (2 * j + 1) + 0))%nat by lia.
      replace (2 * (4 * i + j) * 3 + 3 + 1)%nat with (8 * (3 * i) + (3 * (2 * j + 1) + 1))%nat by lia.
      replace (2 * (4 * i + j) * 3 + 3 + 2)%nat with (8 * (3 * i) + (3 * (2 * j + 1) + 2))%nat by lia.
      ring.
    + intros s ->. replace (4 * S i)%nat with (4 * i + (0 + 4))%nat by lia. reflexivity.
  - intros s ->. rewrite firstn_all2 by lia. apply splice_all. lia.
Qed.

Lemma poly_cbd_eta1_wp lv :
  traced (fun T => forall r buf, length r = 256%nat -> length buf = (64 * eta1 (PS lv))%nat -> bytes buf ->
    wp (poly_cbd_eta1 lv r buf) T (fun r' => r' = mk 256 (cbdz (eta1 (PS lv)) buf))).
Proof.
  destruct lv; [exists (proj1_sig cbd3_wp)|exists (proj1_sig cbd2_wp)|exists (proj1_sig cbd2_wp)];
  intros r buf Hr Hb Bb; [apply (proj2_sig cbd3_wp)|apply (proj2_sig cbd2_wp)|apply (proj2_sig cbd2_wp)]; auto.
Qed.
