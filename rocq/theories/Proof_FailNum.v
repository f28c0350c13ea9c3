(** * The numbers in the tail bound *)
From Coq Require Import ZArith List Lia Bool.
From Verif Require Import CMonad Spec_FIPS203 Spec_Noise Proof_Base Sums Proof_AvxDecompress Proof_Dist Proof_Correct Proof_FailSums Proof_FailBound.
Import ListNotations.
Open Scope Z_scope.

(** ** Rounding the ciphertext component u: e1 + du for A^T y = a, e1 = x *)
Definition wfun (d a x : Z) : Z := centred ((Decompress d (Compress d ((a + x) mod q)) - a) mod q).
Definition wvec (d a : Z) : list Z := map (fun x => Z.abs (wfun d a x)) [-2; -1; 0; 1; 2].
Definition same_list (l l' : list Z) : bool := (length l =? length l')%nat && forallb (fun '(x, y) => x =? y) (combine l l').
Definition vecs10 : list (list Z) :=
  [[0; 0; 0; 0; 3]; [1; 1; 1; 1; 3]; [1; 1; 1; 2; 2]; [1; 1; 1; 3; 3]; [2; 2; 1; 1; 1]; [2; 2; 2; 2; 2]; [3; 0; 0; 0; 0]; [3; 0; 0; 0; 3]; [3; 0; 0; 0; 4]; [3; 1; 1; 1; 1]; [3; 3; 1; 1; 1]; [4; 0; 0; 0; 3]].
Definition vecs11 : list (list Z) :=
  [[1; 1; 0; 0; 2]; [1; 1; 0; 2; 2]; [2; 0; 0; 1; 1]; [2; 0; 0; 1; 3]; [2; 1; 1; 1; 2]; [2; 1; 1; 1; 3]; [2; 2; 0; 1; 1]; [2; 2; 0; 2; 2]; [3; 1; 0; 0; 2]; [3; 1; 1; 1; 2]].
Lemma same_list_eq l l' : same_list l l' = true -> l = l'.
Proof.
  unfold same_list. rewrite andb_true_iff. intros [L F]. apply Nat.eqb_eq in L. revert l' L F.
  induction l as [|x l IH]; intros [|y l'] L F; try discriminate; [reflexivity|]. cbn in L, F. apply andb_true_iff in F as [E F].
  apply Z.eqb_eq in E. subst. f_equal. apply IH; [lia|exact F].
Qed.
Lemma sweep (vecs : list (list Z)) d : forallb (fun a => existsb (same_list (wvec d a)) vecs) (upto 3329) = true ->
  forall a, 0 <= a < q -> In (wvec d a) vecs.
Proof.
  intros F a Ha. rewrite forallb_forall in F. specialize (F a (proj2 (upto_in 3329 a) Ha)).
  apply existsb_exists in F as (v & Hv & E). apply same_list_eq in E. now rewrite E.
Qed.
Lemma sweep10 a : 0 <= a < q -> In (wvec 10 a) vecs10.
Proof. revert a. apply sweep. vm_compute. reflexivity. Qed.
Lemma sweep11 a : 0 <= a < q -> In (wvec 11 a) vecs11.
Proof. revert a. apply sweep. vm_compute. reflexivity. Qed.

Lemma drawn2_sum h : lsum (fields_of 2) (fun f => h (cbdf 2 f)) = h (-2) + 4 * h (-1) + 6 * h 0 + 4 * h 1 + h 2.
Proof.
  rewrite <- (lsum_map (cbdf 2) (fields_of 2) h). replace (map (cbdf 2) (fields_of 2)) with drawn2 by (vm_compute; reflexivity).
  cbn [drawn2 lsum]. ring.
Qed.
Lemma drawn3_sum h : lsum (fields_of 3) (fun f => h (cbdf 3 f)) = h (-3) + 6 * h (-2) + 15 * h (-1) + 20 * h 0 + 15 * h 1 + 6 * h 2 + h 3.
Proof.
  rewrite <- (lsum_map (cbdf 3) (fields_of 3) h). replace (map (cbdf 3) (fields_of 3)) with drawn3 by (vm_compute; reflexivity).
  cbn [drawn3 lsum]. ring.
Qed.
Definition weigh (g : Z -> Z) (v : list Z) : Z := g (nth 0 v 0) + 4 * g (nth 1 v 0) + 6 * g (nth 2 v 0) + 4 * g (nth 3 v 0) + g (nth 4 v 0).

Lemma weigh_sum g d a : (forall x, g (- x) = g x) -> lsum (fields_of 2) (fun f => g (wfun d a (cbdf 2 f))) = weigh g (wvec d a).
Proof.
  intros Even. rewrite (drawn2_sum (fun x => g (wfun d a x))). unfold weigh, wvec. cbn [map nth].
  assert (A : forall x, g (Z.abs x) = g x) by (intros x; destruct (Z.abs_spec x) as [[_ ->]|[_ ->]]; [reflexivity|apply Even]).
  rewrite !A. lia.
Qed.
Lemma wfun_bound vecs d B : (forall a, 0 <= a < q -> In (wvec d a) vecs) -> forallb (forallb (fun x => x <=? B)) vecs = true ->
  forall a x, 0 <= a < q -> -2 <= x <= 2 -> Z.abs (wfun d a x) <= B.
Proof.
  intros S F a x Ha Hx. specialize (S a Ha). rewrite forallb_forall in F. specialize (F _ S). rewrite forallb_forall in F.
  apply Z.leb_le. apply F. unfold wvec. apply (in_map (fun x => Z.abs (wfun d a x))).
  assert (C : x = -2 \/ x = -1 \/ x = 0 \/ x = 1 \/ x = 2) by lia. destruct C as [->|[->|[->|[->| ->]]]]; cbn; auto 6.
Qed.

(** ** Powers, rounded up *)
Definition pw (f : Z) (R : Z) (m : Z) (Rm : Z) : Prop := R ^ m <= Rm * 2 ^ (f * (m - 1)).
Fixpoint squares (f : Z) (n : nat) (R : Z) : Z := match n with O => R | S n => squares f n (R * R / 2 ^ f + 1) end.
Lemma up_le a b : 0 < b -> a <= (a / b + 1) * b.
Proof. intros Hb. pose proof (Z.div_mod a b ltac:(lia)). pose proof (Z.mod_pos_bound a b Hb). lia. Qed.
Lemma pw_squares f n : 0 <= f -> forall R m Rm, 0 <= R -> 0 <= Rm -> 1 <= m -> pw f R m Rm -> pw f R (m * 2 ^ Z.of_nat n) (squares f n Rm).
Proof.
  intros Hf. induction n as [|n IH]; intros R m Rm HR HRm Hm Hp; cbn [squares].
  - change (2 ^ Z.of_nat 0) with 1. now rewrite Z.mul_1_r.
  - assert (P2 : 0 < 2 ^ f) by (apply Z.pow_pos_nonneg; lia).
    rewrite Nat2Z.inj_succ, Z.pow_succ_r by lia. replace (m * (2 * 2 ^ Z.of_nat n)) with ((2 * m) * 2 ^ Z.of_nat n) by ring.
    assert (0 <= Rm * Rm / 2 ^ f) by (apply Z.div_pos; nia).
    apply IH; [exact HR|lia|lia|]. unfold pw in *.
    replace (2 * m) with (m + m) by lia. rewrite Z.pow_add_r by lia.
    assert (0 <= R ^ m) by (apply Z.pow_nonneg; lia).
    apply Z.le_trans with ((Rm * 2 ^ (f * (m - 1))) * (Rm * 2 ^ (f * (m - 1)))); [apply Z.mul_le_mono_nonneg; lia|].
    assert (Q : 0 < 2 ^ (f * (m - 1))) by (apply Z.pow_pos_nonneg; nia).
    replace (f * (m + m - 1)) with (f + (f * (m - 1) + f * (m - 1))) by ring.
    rewrite (Z.pow_add_r 2 f), Z.pow_add_r by nia.
    pose proof (up_le (Rm * Rm) (2 ^ f) P2). set (A := 2 ^ (f * (m - 1))) in *. set (U := Rm * Rm / 2 ^ f + 1) in *.
    replace (Rm * A * (Rm * A)) with (Rm * Rm * (A * A)) by ring. replace (U * (2 ^ f * (A * A))) with (U * 2 ^ f * (A * A)) by ring.
    apply Z.mul_le_mono_nonneg_r; [nia|assumption].
Qed.
Definition start (f c R : Z) : Z := R ^ c / 2 ^ (f * (c - 1)) + 1.
Lemma pw_start f c R : 0 <= f -> 1 <= c -> pw f R c (start f c R).
Proof. intros. unfold pw, start. apply up_le. apply Z.pow_pos_nonneg; nia. Qed.

(** a/d to the power m = c 2^n times 2^e is below (p/r)^t *)
Definition power_ok (f a d c p r t e : Z) (n : nat) : bool :=
  let R := a * 2 ^ f / d + 1 in
  2 ^ e * squares f n (start f c R) * r ^ t <=? p ^ t * 2 ^ f.
Lemma power_check f a d c p r t e n : 0 <= f -> 0 <= a -> 0 < d -> 1 <= c -> 0 < r -> 0 < p -> 0 <= t -> 0 <= e -> power_ok f a d c p r t e n = true ->
  2 ^ e * a ^ (c * 2 ^ Z.of_nat n) * r ^ t <= p ^ t * d ^ (c * 2 ^ Z.of_nat n).
Proof.
  intros Hf Ha Hd Hc Hr Hp Ht He OK. unfold power_ok in OK. cbv zeta in OK. apply Z.leb_le in OK.
  set (R := a * 2 ^ f / d + 1) in *. set (m := c * 2 ^ Z.of_nat n).
  assert (P2 : 0 < 2 ^ f) by (apply Z.pow_pos_nonneg; lia).
  assert (HR : 0 <= R) by (unfold R; pose proof (Z.div_pos (a * 2 ^ f) d ltac:(nia) Hd); lia).
  assert (HS : 0 <= start f c R).
  { unfold start. assert (0 <= R ^ c / 2 ^ (f * (c - 1))); [|lia]. apply Z.div_pos; [apply Z.pow_nonneg; lia|apply Z.pow_pos_nonneg; nia]. }
  pose proof (pw_squares f n Hf R c (start f c R) HR HS Hc (pw_start f c R Hf Hc)) as PW. fold m in PW. unfold pw in PW.
  set (Rm := squares f n (start f c R)) in *.
  assert (N1 : 1 <= 2 ^ Z.of_nat n) by (pose proof (Z.pow_pos_nonneg 2 (Z.of_nat n) ltac:(lia) ltac:(lia)); lia).
  assert (Hm : 1 <= m) by (unfold m; nia).
  assert (B : a * 2 ^ f <= R * d) by (unfold R; apply up_le; exact Hd).
  assert (C : (a * 2 ^ f) ^ m <= (R * d) ^ m) by (apply Z.pow_le_mono_l; nia).
  rewrite !Z.pow_mul_l in C. rewrite <- Z.pow_mul_r in C by lia.
  assert (Hdm : 0 < d ^ m) by (apply Z.pow_pos_nonneg; lia).
  assert (Q : 0 < 2 ^ (f * (m - 1))) by (apply Z.pow_pos_nonneg; nia).
  replace (f * m) with (f + f * (m - 1)) in C by ring. rewrite Z.pow_add_r in C by nia.
  assert (C2 : a ^ m * 2 ^ f <= Rm * d ^ m).
  { apply (Z.mul_le_mono_pos_r _ _ (2 ^ (f * (m - 1))) Q).
    apply Z.le_trans with (R ^ m * d ^ m); [lia|].
    replace (Rm * d ^ m * 2 ^ (f * (m - 1))) with ((Rm * 2 ^ (f * (m - 1))) * d ^ m) by ring.
    apply Z.mul_le_mono_nonneg_r; lia. }
  apply (Z.mul_le_mono_pos_r _ _ (2 ^ f) P2).
  assert (0 < 2 ^ e) by (apply Z.pow_pos_nonneg; lia). assert (0 < r ^ t) by (apply Z.pow_pos_nonneg; lia).
  apply Z.le_trans with ((2 ^ e * r ^ t) * (Rm * d ^ m)).
  - replace (2 ^ e * a ^ m * r ^ t * 2 ^ f) with ((2 ^ e * r ^ t) * (a ^ m * 2 ^ f)) by ring. apply Z.mul_le_mono_nonneg_l; nia.
  - replace (2 ^ e * r ^ t * (Rm * d ^ m)) with ((2 ^ e * Rm * r ^ t) * d ^ m) by ring.
    replace (p ^ t * d ^ m * 2 ^ f) with ((p ^ t * 2 ^ f) * d ^ m) by ring. apply Z.mul_le_mono_nonneg_r; lia.
Qed.

(** ** The bound for one parameter set *)
Definition K1of (p r : Z) (eta : nat) : Z := lsum (fields_of eta) (fun f => gs p r eta (Z.of_nat eta * Z.of_nat eta) (cbdf eta f)).
Definition K2of (p r : Z) (eta : nat) (vecs : list (list Z)) : Z := fold_right Z.max 0 (map (weigh (gs p r eta (Z.of_nat eta * 4))) vecs).
Lemma fold_max_in L x : In x L -> x <= fold_right Z.max 0 L.
Proof. induction L as [|y L IH]; intros HI; [destruct HI|]. cbn [fold_right]. destruct HI as [->|HI]; [lia|]. pose proof (IH HI). lia. Qed.
Lemma fold_max_nonneg L : 0 <= fold_right Z.max 0 L.
Proof. induction L as [|y L IH]; cbn [fold_right]; lia. Qed.

Lemma finish_core Nf Dl Rt E X Y S W PT PM : 0 < Dl -> 0 < Rt -> 0 < E -> 0 <= S -> 0 < PT ->
  Nf * E <= 512 * X * Y * S -> E * Rt = PT * PM -> 512 * Dl * (X * Y) * Rt <= PT * (PM * W) -> Nf * Dl <= W * S.
Proof.
  intros HD HR HE HS HP B EE OK.
  apply (Z.mul_le_mono_pos_r _ _ (E * Rt)); [apply Z.mul_pos_pos; assumption|].
  apply Z.le_trans with ((Dl * Rt) * (512 * X * Y * S)).
  - replace (Nf * Dl * (E * Rt)) with ((Dl * Rt) * (Nf * E)) by ring. apply Z.mul_le_mono_nonneg_l; [apply Z.mul_nonneg_nonneg; lia|exact B].
  - rewrite EE. replace (Dl * Rt * (512 * X * Y * S)) with ((512 * Dl * (X * Y) * Rt) * S) by ring.
    replace (W * S * (PT * PM)) with ((PT * (PM * W)) * S) by ring.
    apply Z.mul_le_mono_nonneg_r; [exact HS|exact OK].
Qed.
Lemma Ex_pow p r M t : 0 <= t <= M -> Ex p r M t * r ^ t = p ^ t * (p ^ M * r ^ M).
Proof.
  intros Ht. unfold Ex. replace (M + t) with (t + M) by lia. rewrite Z.pow_add_r by lia.
  replace (r ^ M) with (r ^ ((M - t) + t)) by (f_equal; lia). rewrite Z.pow_add_r by lia. ring.
Qed.
Lemma space_size eta K : 256 ^ Z.of_nat (64 * (3 * eta * K + 2 * (K + 1))) = 2 ^ ((6 * Z.of_nat eta + 4) * Z.of_nat (256 * K)) * 16 ^ 256.
Proof.
  change 256 with (2 ^ 8) at 1. rewrite <- Z.pow_mul_r by lia. change (16 ^ 256) with ((2 ^ 4) ^ 256). rewrite <- Z.pow_mul_r by lia.
  rewrite <- Z.pow_add_r; [|apply Z.mul_nonneg_nonneg; lia|lia]. f_equal.
  rewrite !Nat2Z.inj_mul, !Nat2Z.inj_add, !Nat2Z.inj_mul, !Nat2Z.inj_add. ring.
Qed.
Lemma power_use k1 k2 p r e m M t delta c n : 0 < r -> r <= p -> 0 <= t -> 0 <= e -> 0 <= delta -> 1 <= c -> 0 <= k1 -> 0 <= k2 ->
  m = c * 2 ^ Z.of_nat n -> M = (e * e + e * 4) * m ->
  power_ok 64 (k1 * k2) ((p * r) ^ (e * e + e * 4) * 2 ^ (6 * e + 4)) c p r t (9 + delta) n = true ->
  512 * 2 ^ delta * (k1 ^ m * k2 ^ m) * r ^ t <= p ^ t * (p ^ M * r ^ M * 2 ^ ((6 * e + 4) * m)).
Proof.
  intros Hr Hp Ht He Hdel Hc P1 P2 Em EM OK.
  assert (HM0 : 0 <= e * e + e * 4) by (apply Z.add_nonneg_nonneg; apply Z.mul_nonneg_nonneg; lia).
  assert (Hm : 0 <= m) by (rewrite Em; apply Z.mul_nonneg_nonneg; [lia|apply Z.pow_nonneg; lia]).
  apply power_check in OK; [|lia|apply Z.mul_nonneg_nonneg; assumption|apply Z.mul_pos_pos; apply Z.pow_pos_nonneg; try lia; apply Z.mul_pos_pos; lia|lia|lia|lia|lia|lia].
  rewrite <- Em in OK. rewrite !Z.pow_mul_l in OK. rewrite <- !Z.pow_mul_r in OK; [|lia|exact Hm|exact HM0|exact Hm|exact HM0|exact Hm]. 
  rewrite (Z.pow_add_r 2 9) in OK by lia. change (2 ^ 9) with 512 in OK.
  rewrite EM. exact OK.
Qed.

Lemma finish p r eta K vecs t delta c n Nf M :
  M = Z.of_nat (256 * K) * (Z.of_nat eta * Z.of_nat eta) + Z.of_nat (256 * K) * (Z.of_nat eta * 4) ->
  0 < r -> r <= p -> 0 <= t <= M -> 0 <= delta -> 1 <= c -> Z.of_nat (256 * K) = c * 2 ^ Z.of_nat n ->
  power_ok 64 (K1of p r eta * K2of p r eta vecs) ((p * r) ^ (Z.of_nat eta * Z.of_nat eta + Z.of_nat eta * 4) * 2 ^ (6 * Z.of_nat eta + 4)) c p r t (9 + delta) n = true ->
  Nf * Ex p r M t <= 512 * K1of p r eta ^ Z.of_nat (256 * K) * K2of p r eta vecs ^ Z.of_nat (256 * K) * 16 ^ 256 ->
  Nf * 2 ^ delta <= 256 ^ Z.of_nat (64 * (3 * eta * K + 2 * (K + 1))).
Proof.
  intros EM Hr Hp Ht Hdel Hc Em OK B.
  assert (KP : 0 <= K1of p r eta).
  { unfold K1of. apply lsum_nonneg. intros f _. apply (gs_nonneg p r Hr Hp eta _ _ (Z.of_nat eta)); [|reflexivity]. pose proof (cbdf_range eta f). lia. }
  assert (K2P : 0 <= K2of p r eta vecs) by apply fold_max_nonneg.
  rewrite space_size.
  eapply (finish_core Nf (2 ^ delta) (r ^ t) (Ex p r M t) _ _ _ _ (p ^ t)); [| | | | |exact B|apply Ex_pow; exact Ht|].
  - apply Z.pow_pos_nonneg; lia.
  - apply Z.pow_pos_nonneg; lia.
  - apply Ex_pos; [exact Hr|exact Hp|lia].
  - apply Z.pow_nonneg; lia.
  - apply Z.pow_pos_nonneg; lia.
  - eapply power_use; [exact Hr|exact Hp|lia|lia|exact Hdel|exact Hc|exact KP|exact K2P|exact Em| |exact OK]. rewrite EM. ring.
Qed.

Lemma numbers512 : power_ok 64 (K1of 6 5 3 * K2of 6 5 3 vecs10) ((6 * 5) ^ (3 * 3 + 3 * 4) * 2 ^ (6 * 3 + 4)) 1 6 5 726 (9 + 80) 9 = true.
Proof. vm_compute. reflexivity. Qed.
Lemma numbers768 : power_ok 64 (K1of 6 5 2 * K2of 6 5 2 vecs10) ((6 * 5) ^ (2 * 2 + 2 * 4) * 2 ^ (6 * 2 + 4)) 3 6 5 726 (9 + 90) 8 = true.
Proof. vm_compute. reflexivity. Qed.
Lemma numbers1024 : power_ok 64 (K1of 5 4 2 * K2of 5 4 2 vecs11) ((5 * 4) ^ (2 * 2 + 2 * 4) * 2 ^ (6 * 2 + 4)) 1 5 4 778 (9 + 111) 10 = true.
Proof. vm_compute. reflexivity. Qed.
