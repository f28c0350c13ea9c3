(** * Bit-level reasoning: sums of bits, bytes and fixed-width fields *)
From Coq Require Import ZArith List Lia Bool.
From Verif Require Import CMonad WP Proof_Base Sums Spec_FIPS203.
Import ListNotations.
Open Scope Z_scope.

(** ** Digits in base 2^w *)
Lemma digits_range w n c : 0 <= w -> (forall k, (k < n)%nat -> 0 <= c k < 2 ^ w) ->
  0 <= sumz n (fun k => c k * 2 ^ (w * Z.of_nat k)) < 2 ^ (w * Z.of_nat n).
Proof.
  intros Hw. induction n; intros H.
  - rewrite sumz_O, Z.mul_0_r. simpl. lia.
  - rewrite sumz_S. specialize (IHn ltac:(intros; apply H; lia)).
    pose proof (H n ltac:(lia)).
    replace (w * Z.of_nat (S n)) with (w * Z.of_nat n + w) by lia.
    rewrite Z.pow_add_r by lia.
    assert (0 < 2 ^ (w * Z.of_nat n)) by (apply Z.pow_pos_nonneg; lia). nia.
Qed.

Lemma digits_get w n c k : 0 <= w -> (forall k, (k < n)%nat -> 0 <= c k < 2 ^ w) -> (k < n)%nat ->
  (sumz n (fun k => c k * 2 ^ (w * Z.of_nat k)) / 2 ^ (w * Z.of_nat k)) mod 2 ^ w = c k.
Proof.
  intros Hw H Hk. replace n with (k + S (n - k - 1))%nat by lia.
  rewrite sumz_app, sumz_first.
  pose proof (digits_range w k c Hw ltac:(intros; apply H; lia)) as R.
  set (S0 := sumz k _) in *.
  replace (sumz (n - k - 1) _) with
    (2 ^ (w * Z.of_nat k) * (2 ^ w * sumz (n - k - 1) (fun i => c (k + S i)%nat * 2 ^ (w * Z.of_nat i)))).
  2:{ rewrite <- !sumz_scale. apply sumz_ext. intros i Hi.
      replace (w * Z.of_nat (k + S i)) with (w * Z.of_nat k + (w + w * Z.of_nat i)) by lia.
      rewrite !Z.pow_add_r by lia. ring. }
  rewrite Nat.add_0_r.
  assert (0 < 2 ^ (w * Z.of_nat k)) by (apply Z.pow_pos_nonneg; lia).
  set (P := 2 ^ (w * Z.of_nat k)) in *. set (X := sumz (n - k - 1) _).
  replace (S0 + (c k * P + P * (2 ^ w * X))) with (S0 + (c k + 2 ^ w * X) * P) by ring.
  rewrite Z.div_add by lia. rewrite Z.div_small by lia. rewrite Z.add_0_l.
  rewrite Z.mul_comm, Z.mod_add by (pose proof (Z.pow_pos_nonneg 2 w); lia).
  apply Z.mod_small. apply H; auto.
Qed.

Lemma testbit_divmod x k : 0 <= k -> (x / 2 ^ k) mod 2 = Z.b2z (Z.testbit x k).
Proof. intros. now rewrite Z.testbit_spec'. Qed.

Definition isbit (x : Z) : Prop := x = 0 \/ x = 1.

Lemma bitsum_range n f : (forall j, (j < n)%nat -> isbit (f j)) ->
  0 <= sumz n (fun j => f j * 2 ^ Z.of_nat j) < 2 ^ Z.of_nat n.
Proof.
  intros H. pose proof (digits_range 1 n f ltac:(lia)) as D.
  rewrite Z.mul_1_l in D. erewrite sumz_ext; [apply D|].
  - intros k Hk. destruct (H k Hk); subst; simpl; lia.
  - intros k Hk. cbv beta. now rewrite Z.mul_1_l.
Qed.

Lemma bitsum_testbit n f y : (forall j, (j < n)%nat -> isbit (f j)) -> (y < n)%nat ->
  Z.testbit (sumz n (fun j => f j * 2 ^ Z.of_nat j)) (Z.of_nat y) = (f y =? 1).
Proof.
  intros H Hy.
  assert (E : Z.b2z (Z.testbit (sumz n (fun j => f j * 2 ^ Z.of_nat j)) (Z.of_nat y)) = f y).
  { rewrite <- testbit_divmod by lia.
    pose proof (digits_get 1 n f y ltac:(lia)) as D. rewrite Z.mul_1_l in D.
    rewrite <- D; auto.
    - f_equal. f_equal. apply sumz_ext. intros. now rewrite Z.mul_1_l.
    - intros k Hk. destruct (H k Hk); lia. }
  rewrite <- E. destruct (Z.testbit _ _); reflexivity.
Qed.

(** ** Equality of bounded numbers from their bits *)
Lemma testbit_high x n k : 0 <= x < 2 ^ n -> n <= k -> Z.testbit x k = false.
Proof.
  intros Hx Hk. destruct (Z.ltb_spec n 0).
  { rewrite Z.pow_neg_r in Hx by lia. lia. }
  rewrite <- (Z.mod_small x (2 ^ n)) by lia. apply Z.mod_pow2_bits_high. lia.
Qed.

Lemma bits_ext n x y : 0 <= x < 2 ^ Z.of_nat n -> 0 <= y < 2 ^ Z.of_nat n ->
  (forall j, (j < n)%nat -> Z.testbit x (Z.of_nat j) = Z.testbit y (Z.of_nat j)) -> x = y.
Proof.
  intros Hx Hy H. apply Z.bits_inj_iff'. intros k Hk.
  destruct (Z.ltb_spec k (Z.of_nat n)).
  - specialize (H (Z.to_nat k) ltac:(lia)). now rewrite Z2Nat.id in H by lia.
  - rewrite !(testbit_high _ (Z.of_nat n)) by lia. reflexivity.
Qed.

(** ** Lists of blocks *)
Lemma flat_map_nth {A} (dA : A) (f : A -> nat -> Z) d (F : list A) x y : (y < d)%nat -> (x < length F)%nat ->
  nth (d * x + y) (flat_map (fun a => map (f a) (seq 0 d)) F) 0 = f (nth x F dA) y.
Proof.
  revert x; induction F as [|a F IH]; intros x Hy Hx; [simpl in Hx; lia|].
  cbn [flat_map]. destruct x as [|x].
  - rewrite Nat.mul_0_r, app_nth1 by (rewrite map_length, seq_length; lia).
    replace (map (f a) (seq 0 d)) with (mk d (f a)) by reflexivity.
    simpl. now rewrite nth_mk.
  - rewrite app_nth2 by (rewrite map_length, seq_length; lia).
    rewrite map_length, seq_length. replace (d * S x + y - d)%nat with (d * x + y)%nat by lia.
    simpl in *. apply IH; auto. lia.
Qed.

Lemma flat_map_blocks_length {A} (f : A -> list Z) d (F : list A) :
  (forall a, In a F -> length (f a) = d) -> length (flat_map f F) = (d * length F)%nat.
Proof.
  induction F as [|a F IH]; intros H; simpl; [lia|].
  rewrite app_length, IH, H; simpl; auto. lia. intros; apply H; now right.
Qed.

Lemma flat_map_blocks_nth {A} (dA : A) (f : A -> list Z) d (F : list A) x y :
  (forall a, In a F -> length (f a) = d) -> (y < d)%nat -> (x < length F)%nat ->
  nth (d * x + y) (flat_map f F) 0 = nth y (f (nth x F dA)) 0.
Proof.
  revert x; induction F as [|a F IH]; intros x Hf Hy Hx; [simpl in Hx; lia|].
  cbn [flat_map]. destruct x as [|x].
  - rewrite app_nth1 by (rewrite Hf; simpl; auto; lia). f_equal. lia.
  - rewrite app_nth2; rewrite Hf by (simpl; auto); try lia.
    replace (d * S x + y - d)%nat with (d * x + y)%nat by lia.
    cbn [nth]. apply IH; auto. intros; apply Hf; now right. simpl in Hx. lia.
Qed.

(** ** BytesToBits, ByteEncode, ByteDecode *)
Lemma BytesToBits_nth B m b : (b < 8)%nat -> (m < length B)%nat ->
  nth (8 * m + b) (BytesToBits B) 0 = Z.b2z (Z.testbit (nth m B 0) (Z.of_nat b)).
Proof.
  intros. unfold BytesToBits. rewrite (flat_map_nth 0 (fun a i => (a / 2 ^ Z.of_nat i) mod 2)) by auto.
  apply testbit_divmod. lia.
Qed.

Lemma BytesToBits_length B : length (BytesToBits B) = (8 * length B)%nat.
Proof. apply flat_map_blocks_length. intros. now rewrite map_length, seq_length. Qed.

Lemma ByteEncode_length d F : length (ByteEncode d F) = (d * length F / 8)%nat.
Proof.
  unfold ByteEncode, BitsToBytes. rewrite map_length, seq_length. f_equal.
  apply flat_map_blocks_length. intros. now rewrite map_length, seq_length.
Qed.

Lemma b2z_isbit b : isbit (Z.b2z b).
Proof. destruct b; [right|left]; reflexivity. Qed.

Lemma mod2_isbit x : isbit (x mod 2).
Proof. pose proof (Z.mod_pos_bound x 2). unfold isbit. lia. Qed.


Lemma flat_map_isbit (g : Z -> list Z) F m :
  (forall a x, In x (g a) -> isbit x) -> isbit (nth m (flat_map g F) 0).
Proof.
  intros H. destruct (nth_in_or_default m (flat_map g F) 0) as [HI|E].
  - apply in_flat_map in HI as (a & _ & HI). eauto.
  - rewrite E. now left.
Qed.

Lemma ByteEncode_nth d F m : (8 * m + 8 <= d * length F)%nat ->
  nth m (ByteEncode d F) 0 =
  sumz 8 (fun j => nth (8 * m + j) (flat_map (fun a => map (fun j => (a / 2 ^ Z.of_nat j) mod 2) (seq 0 d)) F) 0
                   * 2 ^ Z.of_nat j).
Proof.
  intros Hm. unfold ByteEncode, BitsToBytes.
  match goal with |- nth m (map ?f (seq 0 ?n)) 0 = _ => change (map f (seq 0 n)) with (mk n f) end.
  rewrite nth_mk; auto.
  rewrite (flat_map_blocks_length _ d) by (intros; now rewrite map_length, seq_length).
  apply Nat.div_le_lower_bound with (b := 8%nat) (q := S m); lia.
Qed.

Lemma ByteEncode_byte d F m : 0 <= nth m (ByteEncode d F) 0 < 256.
Proof.
  destruct (Nat.ltb_spec m (length (ByteEncode d F))).
  - assert (H8 : (8 * m + 8 <= d * length F)%nat).
    { rewrite ByteEncode_length in H. pose proof (Nat.div_mod (d * length F) 8). lia. }
    rewrite ByteEncode_nth by auto. apply (bitsum_range 8).
    intros. apply flat_map_isbit. intros a x Hx. apply in_map_iff in Hx as (? & <- & _). apply mod2_isbit.
  - rewrite nth_overflow by lia. lia.
Qed.

Lemma ByteEncode_testbit d F m b x y :
  (8 * m + b = d * x + y)%nat -> (b < 8)%nat -> (y < d)%nat -> (8 * m + 8 <= d * length F)%nat ->
  Z.testbit (nth m (ByteEncode d F) 0) (Z.of_nat b) = Z.testbit (nth x F 0) (Z.of_nat y).
Proof.
  intros E Hb Hy Hm. rewrite ByteEncode_nth by auto. rewrite bitsum_testbit; auto.
  - rewrite E. rewrite (flat_map_nth 0 (fun a j => (a / 2 ^ Z.of_nat j) mod 2)); auto.
    + rewrite testbit_divmod by lia. now destruct (Z.testbit _ _).
    + nia.
  - intros. apply flat_map_isbit. intros a z Hx. apply in_map_iff in Hx as (? & <- & _). apply mod2_isbit.
Qed.

(** The i-th d-bit field of a byte string *)
Definition field (d : nat) (B : list Z) (i : nat) : Z :=
  sumz d (fun j => nth (i * d + j) (BytesToBits B) 0 * 2 ^ Z.of_nat j).

Lemma field_isbit B m : isbit (nth m (BytesToBits B) 0).
Proof. apply flat_map_isbit. intros a x Hx. apply in_map_iff in Hx as (? & <- & _). apply mod2_isbit. Qed.

Lemma field_range d B i : 0 <= field d B i < 2 ^ Z.of_nat d.
Proof. apply bitsum_range. intros. apply field_isbit. Qed.

Lemma field_testbit d B m b x y :
  (8 * m + b = d * x + y)%nat -> (b < 8)%nat -> (y < d)%nat -> (m < length B)%nat ->
  Z.testbit (field d B x) (Z.of_nat y) = Z.testbit (nth m B 0) (Z.of_nat b).
Proof.
  intros E Hb Hy Hm. unfold field. rewrite bitsum_testbit by (auto; intros; apply field_isbit).
  replace (x * d + y)%nat with (8 * m + b)%nat by lia. rewrite BytesToBits_nth by auto.
  now destruct (Z.testbit _ _).
Qed.

Lemma ByteDecode_field d B i : (i < 256)%nat ->
  nth i (ByteDecode d B) 0 = field d B i mod (if (d =? 12)%nat then q else 2 ^ Z.of_nat d).
Proof. intros. unfold ByteDecode. now rewrite nth_mkpoly. Qed.

Lemma ByteDecode_length d B : length (ByteDecode d B) = 256%nat.
Proof. apply mkpoly_length. Qed.

Lemma ByteDecode_small d B i : (i < 256)%nat -> (d <> 12)%nat -> nth i (ByteDecode d B) 0 = field d B i.
Proof.
  intros Hi Hd. rewrite ByteDecode_field by auto.
  destruct (Nat.eqb_spec d 12); try lia. apply Z.mod_small. apply field_range.
Qed.

(** Encoding then reading the fields *)
Lemma field_ByteEncode d F i : (8 * length (ByteEncode d F) = d * length F)%nat -> (i < length F)%nat ->
  0 <= nth i F 0 < 2 ^ Z.of_nat d -> field d (ByteEncode d F) i = nth i F 0.
Proof.
  intros HL Hi HF. apply (bits_ext d); auto. { apply field_range. }
  intros y Hy.
  pose proof (Nat.div_mod (d * i + y) 8 ltac:(lia)) as DM.
  pose proof (Nat.mod_upper_bound (d * i + y) 8 ltac:(lia)) as MB.
  set (m := ((d * i + y) / 8)%nat) in *. set (b := ((d * i + y) mod 8)%nat) in *.
  assert ((d * i + y < d * length F)%nat) by nia.
  rewrite (field_testbit d _ m b i y) by lia.
  apply ByteEncode_testbit; lia.
Qed.

(** Reading the fields then encoding *)
Lemma ByteEncode_field d B n : (8 * length B = d * n)%nat -> (0 < d)%nat -> bytes B ->
  ByteEncode d (mk n (field d B)) = B.
Proof.
  intros HL Hd HB.
  assert (EL : length (ByteEncode d (mk n (field d B))) = length B).
  { rewrite ByteEncode_length, mk_length, <- HL, Nat.mul_comm. apply Nat.div_mul. lia. }
  apply (list_eq_nth 0); auto. intros m Hm.
  apply (bits_ext 8); [apply ByteEncode_byte|pose proof (HB m ltac:(lia)); simpl; lia|].
  intros b Hb.
  pose proof (Nat.div_mod (8 * m + b) d ltac:(lia)) as DM.
  pose proof (Nat.mod_upper_bound (8 * m + b) d ltac:(lia)) as MB.
  set (x := ((8 * m + b) / d)%nat) in *. set (y := ((8 * m + b) mod d)%nat) in *.
  assert (x < n)%nat by nia.
  rewrite (ByteEncode_testbit d _ m b x y) by (rewrite ?mk_length; lia).
  rewrite nth_mk by auto. apply field_testbit; lia.
Qed.
