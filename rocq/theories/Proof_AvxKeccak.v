(** * Each lane of KeccakP1600times4_PermuteAll_24rounds is Keccak-f[1600] *)
From Coq Require Import ZArith List Lia Bool.
From Verif Require Import CMonad WP Proof_Base Proof_Bits Model_Fips202 Spec_FIPS202 Proof_Keccak Model_AvxKeccak.
Import ListNotations.
Open Scope Z_scope.

(** ** The program on one 64-bit lane *)
Definition lane_ops : kops Z := {|
  k_xor := Z.lxor;
  k_andnot := fun a b => Z.land (not64 a) b;
  k_rol := ROL;
  k_rol8 := fun a => ROL a 8;
  k_rol56 := fun a => ROL a 56;
  k_const := fun i => nth i KeccakF1600RoundConstants 0
|}.

Definition kvals (X : nat -> kvar) (env : kvar -> Z) (m : nat) : list Z := map (fun i => env (X i)) (seq 0 m).
Definition lCs (L : rows) : list Z := [lC L 0; lC L 1; lC L 2; lC L 3; lC L 4].

Ltac kcbv := cbv [kexec kset keval kvar_eqb Nat.eqb k_xor k_andnot k_rol k_rol8 k_rol56 k_const lane_ops
                  prepareTheta thetaRhoPiChiIotaPrepareTheta thetaRhoPiChiIota kvals map seq].

Lemma prepare_ok env L : kvals kA env 25 = list_of L ->
  kvals kA (kexec lane_ops prepareTheta env) 25 = list_of L /\
  kvals kC (kexec lane_ops prepareTheta env) 5 = lCs L.
Proof.
  intros H. split.
  - rewrite <- H. kcbv. reflexivity.
  - unfold kvals, list_of in H. cbn [map seq] in H. injection H as E0 E1 E2 E3 E4 E5 E6 E7 E8 E9 E10 E11 E12 E13 E14 E15 E16 E17 E18 E19 E20 E21 E22 E23 E24.
    kcbv. rewrite E0, E1, E2, E3, E4, E5, E6, E7, E8, E9, E10, E11, E12, E13, E14, E15, E16, E17, E18, E19, E20, E21, E22, E23, E24.
    unfold lCs, lC. now rewrite !Z.lxor_assoc.
Qed.

Ltac round_tac H HC :=
  unfold kvals, list_of in H; cbn [map seq] in H; injection H; clear H; intros;
  unfold kvals, lCs in HC; cbn [map seq] in HC; injection HC; clear HC; intros;
  kcbv;
  repeat match goal with E : ?env (_ _) = _ |- _ => rewrite ?E; clear E end.

(** The column parities of a list of 25 lanes *)
Definition columns (l : list Z) : list Z :=
  map (fun x => Z.lxor (Z.lxor (Z.lxor (Z.lxor (nth x l 0) (nth (5 + x) l 0)) (nth (10 + x) l 0)) (nth (15 + x) l 0))
                       (nth (20 + x) l 0)) (seq 0 5).
Lemma columns_list_of L : columns (list_of L) = lCs L.
Proof. reflexivity. Qed.

Lemma round_AE i env L : kvals kA env 25 = list_of L -> kvals kC env 5 = lCs L ->
  kvals kE (kexec lane_ops (thetaRhoPiChiIotaPrepareTheta i kA kE) env) 25
    = list_of (lround (nth i KeccakF1600RoundConstants 0) L).
Proof.
  intros H HC. round_tac H HC.
  unfold list_of, lround, liota, lchi, lpi, lrho, ltheta, lD, rho_offset, rot.
  cbn -[Z.lxor Z.land ROL not64 lC]. reflexivity.
Qed.

Lemma round_EA i env L : kvals kE env 25 = list_of L -> kvals kC env 5 = lCs L ->
  kvals kA (kexec lane_ops (thetaRhoPiChiIotaPrepareTheta i kE kA) env) 25
    = list_of (lround (nth i KeccakF1600RoundConstants 0) L).
Proof.
  intros H HC. round_tac H HC.
  unfold list_of, lround, liota, lchi, lpi, lrho, ltheta, lD, rho_offset, rot.
  cbn -[Z.lxor Z.land ROL not64 lC]. reflexivity.
Qed.

Lemma last_EA i env L : kvals kE env 25 = list_of L -> kvals kC env 5 = lCs L ->
  kvals kA (kexec lane_ops (thetaRhoPiChiIota i kE kA) env) 25
    = list_of (lround (nth i KeccakF1600RoundConstants 0) L).
Proof.
  intros H HC. round_tac H HC.
  unfold list_of, lround, liota, lchi, lpi, lrho, ltheta, lD, rho_offset, rot.
  cbn -[Z.lxor Z.land ROL not64 lC]. reflexivity.
Qed.

Lemma parity_AE i env :
  let env' := kexec lane_ops (thetaRhoPiChiIotaPrepareTheta i kA kE) env in
  kvals kC env' 5 = columns (kvals kE env' 25).
Proof. cbv zeta. unfold columns. kcbv. cbn [nth Nat.add]. reflexivity. Qed.

Lemma parity_EA i env :
  let env' := kexec lane_ops (thetaRhoPiChiIotaPrepareTheta i kE kA) env in
  kvals kC env' 5 = columns (kvals kA env' 25).
Proof. cbv zeta. unfold columns. kcbv. cbn [nth Nat.add]. reflexivity. Qed.


Lemma kexec_app {T} (O : kops T) p1 p2 env : kexec O (p1 ++ p2) env = kexec O p2 (kexec O p1 env).
Proof. revert env; induction p1 as [|[x e] p1 IH]; intros env; cbn [app kexec]; auto. Qed.

Definition at_A (m : nat) (L : rows) (env : kvar -> Z) : Prop :=
  kvals kA env 25 = list_of (rounds m L) /\ kvals kC env 5 = lCs (rounds m L).
Definition at_E (m : nat) (L : rows) (env : kvar -> Z) : Prop :=
  kvals kE env 25 = list_of (rounds m L) /\ kvals kC env 5 = lCs (rounds m L).

Lemma step_AE m L env : at_A m L env -> at_E (S m) L (kexec lane_ops (thetaRhoPiChiIotaPrepareTheta m kA kE) env).
Proof.
  intros [HA HC]. unfold at_E. rewrite rounds_S. change KeccakF_RoundConstants with KeccakF1600RoundConstants.
  pose proof (round_AE m env (rounds m L) HA HC) as E. split; [exact E|].
  etransitivity; [apply parity_AE|]. rewrite E. apply columns_list_of.
Qed.
Lemma step_EA m L env : at_E m L env -> at_A (S m) L (kexec lane_ops (thetaRhoPiChiIotaPrepareTheta m kE kA) env).
Proof.
  intros [HA HC]. unfold at_A. rewrite rounds_S. change KeccakF_RoundConstants with KeccakF1600RoundConstants.
  pose proof (round_EA m env (rounds m L) HA HC) as E. split; [exact E|].
  etransitivity; [apply parity_EA|]. rewrite E. apply columns_list_of.
Qed.

Lemma rounds24_ok L env : kvals kA env 25 = list_of L ->
  kvals kA (kexec lane_ops rounds24 env) 25 = list_of (rounds 24 L).
Proof.
  intros H. assert (H0 : at_A 0 L (kexec lane_ops prepareTheta env)) by (apply prepare_ok; exact H).
  unfold rounds24. rewrite kexec_app. generalize (kexec lane_ops prepareTheta env) H0. clear env H H0. intros env H.
  do 11 (rewrite kexec_app; apply step_AE in H;
         match type of H with at_E _ _ ?e => revert H; generalize e end; clear env; intros env H;
         rewrite kexec_app; apply step_EA in H;
         match type of H with at_A _ _ ?e => revert H; generalize e end; clear env; intros env H).
  rewrite kexec_app. apply step_AE in H. destruct H as [HA HC].
  rewrite (last_EA 23 _ (rounds 23 L) HA HC). rewrite (rounds_S 23). reflexivity.
Qed.

(** ** The vector operations, lane by lane *)
Definition vec4 (v : list Z) : Prop := length v = 4%nat /\ forall j, lane (nth j v 0).
Definition inst (j : nat) (s : list (list Z)) : list Z := map (fun v => nth j v 0) s.
Definition wf4 (s : list (list Z)) : Prop := length s = 25%nat /\ forall i, (i < 25)%nat -> vec4 (nth i s []).

Lemma lane_0 : lane 0.
Proof. unfold lane; lia. Qed.

Lemma lane_lor a b : lane a -> lane b -> lane (Z.lor a b).
Proof.
  intros Ha Hb. apply lane_bits.
  - apply Z.lor_nonneg. unfold lane in *. lia.
  - intros z Hz. now rewrite Z.lor_spec, !lane_high.
Qed.

Lemma vec4_mk f : (forall j, (j < 4)%nat -> lane (f j)) -> vec4 (mk 4 f).
Proof.
  intros H. split; [apply mk_length|]. intros j. destruct (Nat.ltb_spec j 4).
  - rewrite nth_mk by auto. auto.
  - rewrite nth_overflow by (rewrite mk_length; lia). apply lane_0.
Qed.

Lemma v_map2_mk f a b : v_map2 f a b = mk 4 (fun j => f (nth j a 0) (nth j b 0)).
Proof. reflexivity. Qed.

Definition lanewise (j : nat) (v : list Z) (z : Z) : Prop := vec4 v /\ nth j v 0 = z.

Lemma lw_map2 j f v w x y : (j < 4)%nat -> (forall a b, lane a -> lane b -> lane (f a b)) ->
  lanewise j v x -> lanewise j w y -> lanewise j (v_map2 f v w) (f x y).
Proof.
  intros Hj Hf [[_ Hv] <-] [[_ Hw] <-]. rewrite v_map2_mk. split.
  - apply vec4_mk. auto.
  - now rewrite nth_mk.
Qed.

Lemma nth_map0 (f : Z -> Z) l j : (j < length l)%nat -> nth j (map f l) 0 = f (nth j l 0).
Proof. intros. rewrite (nth_indep _ 0 (f 0)) by (now rewrite map_length). apply map_nth. Qed.

Lemma or_rol a o : lane a -> 0 < o < 64 -> Z.lor (u64 (Z.shiftl a o)) (Z.shiftr a (64 - o)) = ROL a o.
Proof.
  intros Ha Ho. unfold ROL. apply Z.bits_inj_iff'. intros k Hk.
  rewrite Z.lor_spec, Z.lxor_spec, u64_bit, Z.shiftl_spec, Z.shiftr_spec by lia.
  destruct (Z.ltb_spec k o).
  - rewrite (Z.testbit_neg_r a) by lia. now rewrite andb_false_r, orb_false_l, xorb_false_l.
  - rewrite (lane_high a (k + (64 - o))) by (auto; lia). now rewrite orb_false_r, xorb_false_r.
Qed.

Lemma lw_rol j v x o : (j < 4)%nat -> 0 < o < 64 -> lanewise j v x ->
  lanewise j (k_rol V256_ops v o) (ROL x o).
Proof.
  intros Hj Ho [[Lv Hv] <-]. cbn [k_rol V256_ops]. unfold v_or. rewrite v_map2_mk. unfold v_slli, v_srli.
  assert (E : forall i, (i < 4)%nat -> Z.lor (nth i (map (fun x => u64 (Z.shiftl x o)) v) 0)
    (nth i (map (fun x => Z.shiftr x (64 - o)) v) 0) = ROL (nth i v 0) o).
  { intros i Hi. rewrite !nth_map0 by lia. now apply or_rol. }
  split.
  - apply vec4_mk. intros i Hi. rewrite E by auto. now apply lane_ROL.
  - rewrite nth_mk by auto. now apply E.
Qed.

Lemma byte_bit a m t : (m < 8)%nat -> 0 <= t < 8 ->
  Z.testbit (Z.land (Z.shiftr a (8 * Z.of_nat m)) 255) t = Z.testbit a (8 * Z.of_nat m + t).
Proof.
  intros Hm Ht. change 255 with (Z.ones 8). rewrite Z.land_spec, Z.ones_spec_low, andb_true_r by lia.
  rewrite Z.shiftr_spec by lia. f_equal. lia.
Qed.
Lemma byte_high a m t : 8 <= t -> Z.testbit (Z.land (Z.shiftr a m) 255) t = false.
Proof. intros Ht. change 255 with (Z.ones 8). rewrite Z.land_spec, Z.ones_spec_high, andb_false_r by lia. reflexivity. Qed.

Lemma of_bytes_bit b l m t : (l < 4)%nat -> (m < 8)%nat -> 0 <= t < 8 ->
  (forall i u, 8 <= u -> Z.testbit (b i) u = false) ->
  Z.testbit (nth l (v_of_bytes b) 0) (8 * Z.of_nat m + t) = Z.testbit (b (8 * l + m)%nat) t.
Proof.
  intros Hl Hm Ht Hb. unfold v_of_bytes.
  set (f := fun l => fold_left _ _ _). change (map f (seq 0 4)) with (mk 4 f). rewrite nth_mk by auto.
  unfold f. cbn [seq fold_left]. rewrite Z.lor_0_l, !Z.lor_spec.
  rewrite !Z.shiftl_spec by lia.
  do 8 (destruct m as [|m]; [
    repeat match goal with
    | |- context [Z.testbit (b ?i) (8 * Z.of_nat ?m + t - 8 * Z.of_nat ?n)] =>
      first [ rewrite (Z.testbit_neg_r (b i) (8 * Z.of_nat m + t - 8 * Z.of_nat n)) by lia
            | rewrite (Hb i (8 * Z.of_nat m + t - 8 * Z.of_nat n)) by lia
            | replace (8 * Z.of_nat m + t - 8 * Z.of_nat n) with t by lia ]
    end; rewrite ?orb_false_l, ?orb_false_r; reflexivity|]).
  lia.
Qed.

Lemma of_bytes_vec4 b : (forall i, 0 <= b i < 256) -> vec4 (v_of_bytes b).
Proof.
  intros Hb. unfold v_of_bytes. set (f := fun l => fold_left _ _ _). change (map f (seq 0 4)) with (mk 4 f).
  apply vec4_mk. intros l Hl. unfold f. cbn [seq fold_left].
  assert (HL : forall i n, (n < 8)%nat -> lane (Z.shiftl (b i) (8 * Z.of_nat n))).
  { intros i n Hn. rewrite Z.shiftl_mul_pow2 by lia. specialize (Hb i). unfold lane.
    assert (0 < 2 ^ (8 * Z.of_nat n)) by (apply Z.pow_pos_nonneg; lia).
    assert (2 ^ 64 = 256 * 2 ^ (8 * 7)) by reflexivity.
    assert (2 ^ (8 * Z.of_nat n) <= 2 ^ (8 * 7)) by (apply Z.pow_le_mono_r; lia). nia. }
  repeat apply lane_lor; try apply lane_0; apply HL; lia.
Qed.

Lemma v_byte_range a i : 0 <= v_byte a i < 256.
Proof.
  unfold v_byte. change 255 with (Z.ones 8). rewrite Z.land_ones by lia.
  change (2 ^ 8) with 256. apply Z.mod_pos_bound. lia.
Qed.

(** shuffle_epi8 with the two tables moves whole bytes around inside each lane *)
Lemma lw_shuffle (k : list Z) (o : Z) (rotm : nat -> nat) :
  (forall i, (i < 32)%nat ->
     Z.testbit (v_byte k i) 7 = false /\
     (16 * (i / 16) + Z.to_nat (Z.land (v_byte k i) 15) = 8 * (i / 8) + rotm (i mod 8))%nat) ->
  (forall m, (m < 8)%nat -> (rotm m < 8)%nat /\ 8 * Z.of_nat (rotm m) = (8 * Z.of_nat m - o) mod 64) ->
  0 < o < 64 -> (o mod 8 = 0) ->
  forall j v x, (j < 4)%nat -> lanewise j v x -> lanewise j (v_shuffle_epi8 v k) (ROL x o).
Proof.
  intros Hk Hr Ho Ho8 j v x Hj [[Lv Hv] <-]. unfold v_shuffle_epi8.
  set (b := fun i => if Z.testbit (v_byte k i) 7 then 0 else _).
  assert (Hb : forall i, 0 <= b i < 256).
  { intros i. unfold b. destruct (Z.testbit _ _); [lia|]. apply v_byte_range. }
  split; [now apply of_bytes_vec4|].
  apply Z.bits_inj_iff'. intros z Hz.
  destruct (Z.ltb_spec z 64).
  2:{ rewrite (lane_high (ROL _ _)), (lane_high (nth j _ 0)); auto; [apply of_bytes_vec4; auto|apply lane_ROL; auto]. }
  rewrite ROL_bit by (auto; lia).
  assert (Ez : z = 8 * Z.of_nat (Z.to_nat (z / 8)) + z mod 8).
  { rewrite Z2Nat.id by (apply Z.div_pos; lia). apply Z.div_mod. lia. }
  pose proof (Z.mod_pos_bound z 8 ltac:(lia)) as Ht.
  assert (Hm : (Z.to_nat (z / 8) < 8)%nat).
  { assert (z / 8 < 8) by (apply Z.div_lt_upper_bound; lia). lia. }
  set (m := Z.to_nat (z / 8)) in *. set (t := z mod 8) in *. clearbody m t.
  rewrite Ez at 1. rewrite of_bytes_bit; auto.
  2:{ intros i u Hu. apply (testbit_high _ 8); [|lia]. change (2 ^ 8) with 256. apply Hb. }
  unfold b. destruct (Hk (8 * j + m)%nat ltac:(lia)) as [K1 K2]. rewrite K1, K2.
  destruct (Hr m Hm) as [R1 R2].
  assert (E1 : ((8 * j + m) / 8 = j)%nat) by (symmetry; apply Nat.div_unique with (r := m); lia).
  assert (E2 : ((8 * j + m) mod 8 = m)%nat) by (symmetry; apply Nat.mod_unique with (q := j); lia).
  rewrite E1, E2. unfold v_byte.
  replace ((8 * j + rotm m) / 8)%nat with j by (apply Nat.div_unique with (r := rotm m); lia).
  replace ((8 * j + rotm m) mod 8)%nat with (rotm m) by (apply Nat.mod_unique with (q := j); lia).
  rewrite byte_bit by auto. f_equal. rewrite R2.
  replace (z - o) with (8 * Z.of_nat m - o + t) by lia.
  pose proof (Z.div_mod (8 * Z.of_nat m - o) 64 ltac:(lia)).
  apply Z.mod_unique with (q := (8 * Z.of_nat m - o) / 64); [|lia].
  left. rewrite <- R2. lia.
Qed.

Lemma below_ind m (P : nat -> Prop) : Forall P (seq 0 m) -> forall i, (i < m)%nat -> P i.
Proof. intros H i Hi. rewrite Forall_forall in H. apply H. apply in_seq. lia. Qed.

Lemma lw_rho8 j v x : (j < 4)%nat -> lanewise j v x -> lanewise j (v_shuffle_epi8 v rho8) (ROL x 8).
Proof.
  apply (lw_shuffle rho8 8 (fun m => nth m [7; 0; 1; 2; 3; 4; 5; 6]%nat 0%nat)); [| |lia|reflexivity].
  - apply below_ind. repeat constructor.
  - apply below_ind. repeat constructor.
Qed.
Lemma lw_rho56 j v x : (j < 4)%nat -> lanewise j v x -> lanewise j (v_shuffle_epi8 v rho56) (ROL x 56).
Proof.
  apply (lw_shuffle rho56 56 (fun m => nth m [1; 2; 3; 4; 5; 6; 7; 0]%nat 0%nat)); [| |lia|reflexivity].
  - apply below_ind. repeat constructor.
  - apply below_ind. repeat constructor.
Qed.

Lemma round_constant_lane i : lane (nth i KeccakF1600RoundConstants 0).
Proof.
  destruct (Nat.ltb_spec i 24) as [H|H].
  - revert i H. apply below_ind. repeat constructor; unfold lane; cbn [nth KeccakF1600RoundConstants]; lia.
  - rewrite nth_overflow by exact H. apply lane_0.
Qed.

Lemma lw_const j x : (j < 4)%nat -> lane x -> lanewise j (v_set1 x) x.
Proof.
  intros Hj Hx. split; [split; [reflexivity|]|].
  - intros i. unfold v_set1. do 4 (destruct i as [|i]; [exact Hx|]). cbn [repeat nth]. destruct i; apply lane_0.
  - unfold v_set1. do 4 (destruct j as [|j]; [reflexivity|]). lia.
Qed.

(** ** The two executions *)
Fixpoint rol_ok (e : kexpr) : bool :=
  match e with
  | KV _ | CONST256_64 _ => true
  | XOR256 a b | ANDnu256 a b => rol_ok a && rol_ok b
  | ROL64in256 a o => rol_ok a && (0 <? o) && (o <? 64)
  | ROL64in256_8 a | ROL64in256_56 a => rol_ok a
  end.

Local Opaque v_shuffle_epi8 ROL rho8 rho56.

Lemma keval_lanewise j env1 env2 e : (j < 4)%nat -> rol_ok e = true ->
  (forall x, lanewise j (env1 x) (env2 x)) -> lanewise j (keval V256_ops env1 e) (keval lane_ops env2 e).
Proof.
  intros Hj He H. induction e; cbn [rol_ok] in He.
  - apply H.
  - apply andb_prop in He as []. apply (lw_map2 j Z.lxor); auto using lane_lxor.
  - apply andb_prop in He as []. apply (lw_map2 j (fun a b => Z.land (not64 a) b)); auto using lane_land, lane_not64.
  - apply andb_prop in He as [He Ho2]. apply andb_prop in He as [He Ho1].
    apply Z.ltb_lt in Ho1, Ho2. apply lw_rol; auto.
  - change (lanewise j (v_shuffle_epi8 (keval V256_ops env1 e) rho8) (ROL (keval lane_ops env2 e) 8)). apply lw_rho8; auto.
  - change (lanewise j (v_shuffle_epi8 (keval V256_ops env1 e) rho56) (ROL (keval lane_ops env2 e) 56)). apply lw_rho56; auto.
  - apply (lw_const j (nth i KeccakF1600RoundConstants 0)); auto using round_constant_lane.
Qed.

Lemma kexec_lanewise j p : forall env1 env2, (j < 4)%nat -> forallb (fun s => rol_ok (ksource s)) p = true ->
  (forall x, lanewise j (env1 x) (env2 x)) ->
  forall x, lanewise j (kexec V256_ops p env1 x) (kexec lane_ops p env2 x).
Proof.
  induction p as [|[y e] p IH]; intros env1 env2 Hj Hp H; cbn [kexec]; auto.
  cbn [forallb ksource] in Hp. apply andb_prop in Hp as [He Hp].
  apply IH; auto. intros x. unfold kset. destruct (kvar_eqb x y); auto. now apply keval_lanewise.
Qed.

Lemma rounds24_rol : forallb (fun s => rol_ok (ksource s)) rounds24 = true.
Proof. vm_compute. reflexivity. Qed.

Lemma inst_nth j s i : nth i (inst j s) 0 = nth j (nth i s []) 0.
Proof.
  rewrite <- (map_nth (fun v : list Z => nth j v 0) s [] i). unfold inst. now destruct j.
Qed.

Lemma inst_wf j s : wf4 s -> wfstate (inst j s).
Proof.
  intros [Hl H]. split; [unfold inst; now rewrite map_length|].
  intros i. rewrite inst_nth. destruct (Nat.ltb_spec i 25).
  - now apply H.
  - rewrite (nth_overflow s) by lia. destruct j; apply lane_0.
Qed.

Lemma nth_indep_lt {A} (l : list A) i a b : (i < length l)%nat -> nth i l a = nth i l b.
Proof. apply nth_indep. Qed.

Lemma list_of_rows_of s : length s = 25%nat -> list_of (rows_of s) = s.
Proof.
  intros Hl. unfold list_of, rows_of.
  destruct s as [|s0 [|s1 [|s2 [|s3 [|s4 [|s5 [|s6 [|s7 [|s8 [|s9 [|s10 [|s11 [|s12 [|s13 [|s14 [|s15 [|s16 [|s17 [|s18 [|s19 [|s20 [|s21 [|s22 [|s23 [|s24 [|s25 s]]]]]]]]]]]]]]]]]]]]]]]]]];
      try discriminate Hl. reflexivity.
Qed.

Lemma kvals_eq env l : length l = 25%nat -> (forall i, (i < 25)%nat -> env (kA i) = nth i l 0) -> kvals kA env 25 = l.
Proof.
  intros Hl H. unfold kvals. change (map (fun i => env (kA i)) (seq 0 25)) with (mk 25 (fun i => env (kA i))).
  apply (list_eq_nth 0); rewrite mk_length; auto. intros i Hi. rewrite nth_mk by auto. auto.
Qed.

Lemma v_junk_vec4 `{Junk} : vec4 v_junk.
Proof. apply (vec4_mk (fun j => u64 (junk j))). intros. apply lane_u64. Qed.

Local Opaque kexec.

Lemma permute4x_wp :
  traced (fun T => forall (J : Junk) s, wf4 s ->
    wp (KeccakF1600_StatePermute4x s) T
       (fun s' => wf4 s' /\ forall j, (j < 4)%nat -> sbits (inst j s') = keccak_f (sbits (inst j s)))).
Proof.
  eexists. intros J s Hs. pose proof Hs as [Hl Hv]. unfold KeccakF1600_StatePermute4x.
  wstep.
  eapply (wp_for _ (fun i env => (forall x, vec4 (env x)) /\ forall k, (k < i)%nat -> env (kA k) = nth k s [])).
  - split; [intros; apply v_junk_vec4|]. intros; lia.
  - intros i env Hi [He Hk]. wstep. eapply (wp_aget []); [lia|]. wstep. split.
    + intros x. unfold kset. destruct (kvar_eqb x (kA i)); auto. apply Hv. lia.
    + intros k Hk'. unfold kset. cbn [kvar_eqb]. destruct (Nat.eqb_spec k i); [now subst|]. apply Hk. lia.
  - intros env [He Hk]. cbv zeta.
    set (env' := kexec V256_ops rounds24 env).
    assert (HR : forall j, (j < 4)%nat -> forall x,
      lanewise j (env' x) (kexec lane_ops rounds24 (fun x => nth j (env x) 0) x)).
    { intros j Hj. apply kexec_lanewise; auto using rounds24_rol. intros x. split; auto. }
    eapply (wp_for _ (fun i s' => length s' = 25%nat /\ forall k, (k < i)%nat -> nth k s' [] = env' (kA k))).
    + split; auto. intros; lia.
    + intros i s' Hi [L' H']. wstep; [lia|]. split; [now rewrite upd_length|].
      intros k Hk'. rewrite nth_upd. rewrite L'.
      destruct (Nat.eqb_spec k i), (Nat.ltb_spec i 25); cbn [andb]; try lia; subst; auto. apply H'. lia.
    + intros s' [L' H']. cbn [Nat.add] in H'. split.
      * split; auto. intros i Hi. rewrite H' by auto. apply (HR 0%nat ltac:(lia)).
      * intros j Hj. 
        assert (EI : inst j s' = kvals kA (kexec lane_ops rounds24 (fun x => nth j (env x) 0)) 25).
        { symmetry. apply kvals_eq; [unfold inst; now rewrite map_length|].
          intros i Hi. rewrite inst_nth, H' by auto. symmetry. apply (HR j Hj). }
        pose proof (inst_wf j s Hs) as WI.
        rewrite (rounds24_ok (rows_of (inst j s))) in EI.
        2:{ rewrite list_of_rows_of by apply WI. apply kvals_eq; [apply WI|].
            intros i Hi. rewrite Hk, inst_nth by auto. reflexivity. }
        rewrite EI. unfold keccak_f, keccak_rounds. symmetry. apply list_of_bits.
        apply rounds_rep; [apply le_n|]. now apply rows_of_rep.
Qed.
