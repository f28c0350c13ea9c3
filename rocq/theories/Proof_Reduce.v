(** * Proofs about reduce.c *)
From Coq Require Import ZArith List Lia Bool.
From Verif Require Import CMonad WP Modq Model_Params Model_Reduce Model_NTT.
Import ListNotations.
Open Scope Z_scope.

(** The exact relation established by Montgomery reduction. *)
Lemma montgomery_reduce_wp a :
  -2147483648 + 109084672 <= a <= 2147483647 - 109084672 ->
  wp (montgomery_reduce a) []
     (fun r => exists t, -32768 <= t <= 32767 /\ a = r * 65536 + t * 3329 /\
               -32768 <= r <= 32767).
Proof.
  intros Ha. unfold montgomery_reduce.
  change (@nil event) with (@nil event ++ @nil event ++ @nil event ++ @nil event ++ @nil event).
  pose proof (i16_range a).
  repeat (wstep; unfold QINV, KYBER_Q); try lia.
  { pose proof (i16_range (i16 a * -3327)). lia. }
  { pose proof (i16_range (i16 a * -3327)). lia. }
  pose proof (i16_range (i16 a * -3327)) as Ht.
  destruct (wraps_mod 16 a) as [k1 E1]; [lia|].
  destruct (wraps_mod 16 (i16 a * -3327)) as [k2 E2]; [lia|].
  fold i16 in *. set (t := i16 (i16 a * -3327)) in *.
  change (2 ^ 16) with 65536 in *.
  assert (Hd : a - t * 3329 = (-k1 + (a + k1 * 65536) * 169 - k2 * 3329) * 65536).
  { rewrite E2, E1. lia. }
  set (w := -k1 + (a + k1 * 65536) * 169 - k2 * 3329) in *. clearbody w.
  rewrite Hd. rewrite Z.shiftr_div_pow2 by lia. change (2 ^ 16) with 65536.
  rewrite Z.div_mul by lia.
  assert (-32768 <= w <= 32767) by lia.
  rewrite i16_small by lia. exists t. lia.
Qed.

Lemma montgomery_reduce_doc a :
  -109084672 <= a <= 109084671 ->
  wp (montgomery_reduce a) [] (fun r => -3329 < r < 3329 /\ r * 65536 ≡ a).
Proof.
  intros Ha. eapply wp_conseq; [apply montgomery_reduce_wp; lia|].
  intros r (t & Ht & E & _). split; [lia|]. exists (- t). lia.
Qed.

(** fqmul of two int16 values: never undefined. *)
Lemma fqmul_wp a b :
  -32768 <= a <= 32767 -> -32768 <= b <= 32767 ->
  wp (fqmul a b) []
     (fun r => exists t, -32768 <= t <= 32767 /\ a * b = r * 65536 + t * 3329 /\
               -32768 <= r <= 32767).
Proof.
  intros Ha Hb. unfold fqmul. change (@nil event) with (@nil event ++ @nil event).
  assert (-1073741824 <= a * b <= 1073741824) by nia.
  repeat wstep; try lia. apply montgomery_reduce_wp. lia.
Qed.

(** The usual case: the product is in the documented range. *)
Lemma fqmul_small a b :
  -32768 <= a <= 32767 -> -3328 <= b <= 3328 ->
  wp (fqmul a b) [] (fun r => -3329 < r < 3329 /\ r * 65536 ≡ a * b).
Proof.
  intros Ha Hb. eapply wp_conseq; [apply fqmul_wp; lia|].
  intros r (t & Ht & E & _). split; [nia|]. exists (- t). lia.
Qed.

Lemma fqmul_small' a b :
  -3328 <= a <= 3328 -> -32768 <= b <= 32767 ->
  wp (fqmul a b) [] (fun r => -3329 < r < 3329 /\ r * 65536 ≡ a * b).
Proof.
  intros Ha Hb. eapply wp_conseq; [apply fqmul_wp; lia|].
  intros r (t & Ht & E & _). split; [nia|]. exists (- t). lia.
Qed.

(** Barrett reduction: sweep over all int16 values. *)
Definition zrange (lo : Z) (n : nat) : list Z := map (fun i => lo + Z.of_nat i) (seq 0 n).

Fixpoint sweep (f : Z -> bool) (lo : Z) (n : positive) : bool :=
  match n with
  | xH => f lo
  | xO n' => sweep f lo n' && sweep f (lo + Z.pos n') n'
  | xI n' => f lo && (sweep f (lo + 1) n' && sweep f (lo + 1 + Z.pos n') n')
  end.

Lemma sweep_spec f n lo : sweep f lo n = true -> forall x, lo <= x < lo + Z.pos n -> f x = true.
Proof.
  revert lo; induction n as [n IH|n IH|]; intros lo H x Hx; cbn [sweep] in H.
  - apply andb_true_iff in H as [H0 H]. apply andb_true_iff in H as [H1 H2].
    destruct (Z.eq_dec x lo) as [->|]; auto.
    destruct (Z.lt_ge_cases x (lo + 1 + Z.pos n)).
    + apply (IH (lo + 1)); auto; lia.
    + apply (IH (lo + 1 + Z.pos n)); auto. lia.
  - apply andb_true_iff in H as [H1 H2].
    destruct (Z.lt_ge_cases x (lo + Z.pos n)).
    + apply (IH lo); auto; lia.
    + apply (IH (lo + Z.pos n)); auto. lia.
  - assert (x = lo) by lia. subst; auto.
Qed.

Lemma barrett_reduce_wp a :
  -32768 <= a <= 32767 ->
  wp (barrett_reduce a) [] (fun r => -1664 <= r <= 1664 /\ r ≡ a).
Proof.
  intros Ha. unfold barrett_reduce. change barrett_v with 20159.
  change (@nil event) with (@nil event ++ @nil event ++ @nil event ++ @nil event ++ @nil event ++ @nil event).
  assert (-660570112 <= 20159 * a <= 660570112) by lia.
  set (t := (20159 * a + 2 ^ 25) / 2 ^ 26).
  assert (E : 2 ^ 26 * t <= 20159 * a + 2 ^ 25 < 2 ^ 26 * t + 2 ^ 26).
  { unfold t. pose proof (Z.div_mod (20159 * a + 2 ^ 25) (2 ^ 26) ltac:(lia)).
    pose proof (Z.mod_pos_bound (20159 * a + 2 ^ 25) (2 ^ 26) ltac:(lia)). lia. }
  change (2 ^ 26) with 67108864 in E. change (2 ^ 25) with 33554432 in *.
  do 6 (wstep; try lia). rewrite Z.shiftr_div_pow2 by lia. fold t. unfold KYBER_Q.
  rewrite (i16_small t) by lia.
  (* t * 3329 may wrap; the final cast undoes it *)
  pose proof (i16_range (t * 3329)) as R1. destruct (wraps_mod 16 (t * 3329)) as [k1 E1]; [lia|].
  pose proof (i16_range (a - i16 (t * 3329))) as R2.
  destruct (wraps_mod 16 (a - i16 (t * 3329))) as [k2 E2]; [lia|].
  fold i16 in *. change (2 ^ 16) with 65536 in *.
  repeat (wstep; try lia). split; [lia|]. exists (- t). lia.
Qed.
