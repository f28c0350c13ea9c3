(** * KeccakF1600_StatePermute is Keccak-f[1600] of FIPS 202 *)
From Coq Require Import ZArith List Lia Bool.
From Verif Require Import CMonad WP Proof_Base Proof_Bits Model_Fips202 Spec_FIPS202.
Import ListNotations.
Open Scope Z_scope.

(** ** 64-bit lanes *)
Definition lane (a : Z) : Prop := 0 <= a < 2 ^ 64.

Lemma lane_bits a : 0 <= a -> (forall z, 64 <= z -> Z.testbit a z = false) -> lane a.
Proof.
  intros H0 H. split; auto.
  assert (E : a = a mod 2 ^ 64).
  { apply Z.bits_inj_iff'. intros k Hk. destruct (Z.ltb_spec k 64).
    - now rewrite Z.mod_pow2_bits_low.
    - rewrite Z.mod_pow2_bits_high by lia. apply H; lia. }
  rewrite E. apply Z.mod_pos_bound. lia.
Qed.

Lemma lane_high a z : lane a -> 64 <= z -> Z.testbit a z = false.
Proof. intros. apply (testbit_high a 64); auto. Qed.

Lemma lane_lxor a b : lane a -> lane b -> lane (Z.lxor a b).
Proof.
  intros Ha Hb. apply lane_bits.
  - apply Z.lxor_nonneg. unfold lane in *. split; lia.
  - intros z Hz. now rewrite Z.lxor_spec, !lane_high.
Qed.

Lemma lane_land a b : lane a -> lane b -> lane (Z.land a b).
Proof.
  intros Ha Hb. apply lane_bits.
  - apply Z.land_nonneg. unfold lane in *. lia.
  - intros z Hz. now rewrite Z.land_spec, !lane_high.
Qed.

Lemma ones64 z : 0 <= z < 64 -> Z.testbit 0xffffffffffffffff z = true.
Proof. intros. change 0xffffffffffffffff with (Z.ones 64). apply Z.ones_spec_low. lia. Qed.

Lemma lane_not64 a : lane a -> lane (not64 a).
Proof. intros. apply lane_lxor; auto. unfold lane. lia. Qed.

Lemma not64_bit a z : 0 <= z < 64 -> Z.testbit (not64 a) z = xorb (Z.testbit a z) true.
Proof. intros. unfold not64. now rewrite Z.lxor_spec, ones64. Qed.

Lemma u64_bit a z : 0 <= z -> Z.testbit (u64 a) z = (z <? 64) && Z.testbit a z.
Proof.
  intros. unfold u64, wrapu. destruct (Z.ltb_spec z 64).
  - now rewrite Z.mod_pow2_bits_low.
  - now rewrite Z.mod_pow2_bits_high by lia.
Qed.

Lemma lane_u64 a : lane (u64 a).
Proof. apply (wrapu_range 64). lia. Qed.

Lemma lane_ROL a n : lane a -> 0 < n < 64 -> lane (ROL a n).
Proof.
  intros Ha Hn. apply lane_lxor; [apply lane_u64|]. apply lane_bits.
  - apply Z.shiftr_nonneg. unfold lane in Ha. lia.
  - intros z Hz. rewrite Z.shiftr_spec by lia. apply lane_high; auto; lia.
Qed.

Lemma ROL_bit a n z : lane a -> 0 < n < 64 -> 0 <= z < 64 ->
  Z.testbit (ROL a n) z = Z.testbit a ((z - n) mod 64).
Proof.
  intros Ha Hn Hz. unfold ROL. rewrite Z.lxor_spec, u64_bit by lia.
  rewrite Z.shiftl_spec, Z.shiftr_spec by lia.
  destruct (Z.ltb_spec z 64); try lia. cbn [andb].
  destruct (Z.leb_spec n z).
  - rewrite (lane_high a (z + (64 - n))) by (auto; lia). rewrite xorb_false_r.
    f_equal. symmetry. apply Z.mod_small. lia.
  - rewrite Z.testbit_neg_r by lia. rewrite xorb_false_l. f_equal.
    rewrite <- (Z_mod_plus_full (z - n) 1 64). rewrite Z.mod_small; lia.
Qed.

(** ** The round on lanes *)
Definition rot (a n : Z) : Z := if n =? 0 then a else ROL a n.

Lemma lane_rot a n : lane a -> 0 <= n < 64 -> lane (rot a n).
Proof. intros. unfold rot. destruct (Z.eqb_spec n 0); auto. apply lane_ROL; auto; lia. Qed.

Lemma rot_bit a n z : lane a -> 0 <= n < 64 -> 0 <= z < 64 ->
  Z.testbit (rot a n) z = Z.testbit a ((z - n) mod 64).
Proof.
  intros. unfold rot. destruct (Z.eqb_spec n 0); subst.
  - rewrite Z.sub_0_r, Z.mod_small; auto.
  - apply ROL_bit; auto; lia.
Qed.

Definition rows := Z -> Z -> Z.        (* lanes L x y *)

Definition lC (L : rows) (x : Z) : Z :=
  Z.lxor (Z.lxor (Z.lxor (Z.lxor (L x 0) (L x 1)) (L x 2)) (L x 3)) (L x 4).
Definition lD (L : rows) (x : Z) : Z :=
  Z.lxor (lC L ((x - 1) mod 5)) (rot (lC L ((x + 1) mod 5)) 1).
Definition ltheta (L : rows) : rows := fun x y => Z.lxor (L x y) (lD L x).
Definition rho_offset (x y : Z) : Z :=
  nth (Z.to_nat (5 * y + x))
    [0; 1; 62; 28; 27; 36; 44; 6; 55; 20; 3; 10; 43; 25; 39; 41; 45; 15; 21; 8; 18; 2; 61; 56; 14] 0.
Definition lrho (L : rows) : rows := fun x y => rot (L x y) (rho_offset x y).
Definition lpi (L : rows) : rows := fun x y => L ((x + 3 * y) mod 5) x.
Definition lchi (L : rows) : rows :=
  fun x y => Z.lxor (L x y) (Z.land (not64 (L ((x + 1) mod 5) y)) (L ((x + 2) mod 5) y)).
Definition liota (c : Z) (L : rows) : rows :=
  fun x y => if (x =? 0) && (y =? 0) then Z.lxor (L x y) c else L x y.
Definition lround (c : Z) (L : rows) : rows := liota c (lchi (lpi (lrho (ltheta L)))).

Definition rep (L : rows) (A : state) : Prop :=
  forall x y, 0 <= x < 5 -> 0 <= y < 5 ->
    lane (L x y) /\ forall z, 0 <= z < 64 -> A x y z = Z.testbit (L x y) z.

Lemma rep_lane L A x y : rep L A -> 0 <= x < 5 -> 0 <= y < 5 -> lane (L x y).
Proof. intros H ? ?. now apply H. Qed.
Lemma rep_bit L A x y z : rep L A -> 0 <= x < 5 -> 0 <= y < 5 -> 0 <= z < 64 ->
  A x y z = Z.testbit (L x y) z.
Proof. intros H ? ? ?. now apply H. Qed.

Lemma mod5 x : 0 <= x mod 5 < 5.
Proof. apply Z.mod_pos_bound. lia. Qed.
Lemma mod64 x : 0 <= x mod 64 < 64.
Proof. apply Z.mod_pos_bound. lia. Qed.

Lemma lane_lC L A x : rep L A -> 0 <= x < 5 -> lane (lC L x).
Proof.
  intros H Hx. unfold lC. repeat apply lane_lxor; (eapply rep_lane; [exact H|lia|lia]).
Qed.

Lemma lC_bit L A x z : rep L A -> 0 <= x < 5 -> 0 <= z < 64 ->
  theta_C A x z = Z.testbit (lC L x) z.
Proof.
  intros H Hx Hz. unfold theta_C, lC. rewrite !Z.lxor_spec.
  now rewrite !(rep_bit L A) by (auto; lia).
Qed.

Lemma theta_rep L A : rep L A -> rep (ltheta L) (theta A).
Proof.
  intros H x y Hx Hy. pose proof (mod5 (x - 1)). pose proof (mod5 (x + 1)).
  assert (lane (lC L ((x - 1) mod 5))) by (eapply lane_lC; eauto).
  assert (lane (lC L ((x + 1) mod 5))) by (eapply lane_lC; eauto).
  unfold ltheta, theta, lD, theta_D. split.
  - apply lane_lxor; [eapply rep_lane; eauto|]. apply lane_lxor; auto. apply lane_rot; auto; lia.
  - intros z Hz. rewrite !Z.lxor_spec, rot_bit by (auto; lia).
    pose proof (mod64 (z - 1)). unfold w.
    now rewrite <- !(lC_bit L A), (rep_bit L A) by auto.
Qed.

Lemma range5 (P : Z -> Prop) : P 0 -> P 1 -> P 2 -> P 3 -> P 4 -> forall x, 0 <= x < 5 -> P x.
Proof.
  intros ? ? ? ? ? x Hx. assert (E : x = 0 \/ x = 1 \/ x = 2 \/ x = 3 \/ x = 4) by lia.
  destruct E as [->|[->|[->|[->| ->]]]]; auto.
Qed.

Lemma rho_offset_range x y : 0 <= x < 5 -> 0 <= y < 5 -> 0 <= rho_offset x y < 64.
Proof.
  intros Hx Hy. revert x Hx y Hy. refine (range5 _ _ _ _ _ _); refine (range5 _ _ _ _ _ _);
  (split; [vm_compute; discriminate|vm_compute; reflexivity]).
Qed.

(** Where the walk of step 3.2.2 visits (x1, y1) *)
Fixpoint visit (n : nat) (t x y x1 y1 : Z) (acc : option Z) : option Z :=
  match n with
  | O => acc
  | S n' => visit n' (t + 1) y ((2 * x + 3 * y) mod 5) x1 y1
              (if (x1 =? x) && (y1 =? y) then Some t else acc)
  end.

Lemma rho_loop_visit n A x1 y1 z : forall t x y (A' : state) acc,
  A' x1 y1 z = match acc with
               | Some t' => A x1 y1 ((z - (t' + 1) * (t' + 2) / 2) mod w)
               | None => A x1 y1 z
               end ->
  rho_loop n t x y A A' x1 y1 z =
  match visit n t x y x1 y1 acc with
  | Some t' => A x1 y1 ((z - (t' + 1) * (t' + 2) / 2) mod w)
  | None => A x1 y1 z
  end.
Proof.
  induction n; intros t x y A' acc H; cbn [rho_loop visit]; auto.
  apply IHn. destruct (Z.eqb_spec x1 x), (Z.eqb_spec y1 y); subst; cbn [andb]; auto.
Qed.

Lemma visit_offset x y : 0 <= x < 5 -> 0 <= y < 5 ->
  rho_offset x y = match visit 24 0 1 0 x y None with
                   | Some t => ((t + 1) * (t + 2) / 2) mod 64
                   | None => 0
                   end.
Proof.
  intros Hx Hy. revert x Hx y Hy.
  refine (range5 _ _ _ _ _ _); refine (range5 _ _ _ _ _ _); vm_compute; reflexivity.
Qed.

Lemma rho_spec A x y z : 0 <= x < 5 -> 0 <= y < 5 -> 0 <= z < 64 ->
  rho A x y z = A x y ((z - rho_offset x y) mod 64).
Proof.
  intros Hx Hy Hz. unfold rho. rewrite (rho_loop_visit 24 A x y z 0 1 0 (fun x y z => A x y z) None eq_refl).
  rewrite visit_offset by auto. destruct (visit 24 0 1 0 x y None) as [t|].
  - unfold w. now rewrite Zminus_mod_idemp_r.
  - now rewrite Z.sub_0_r, Z.mod_small.
Qed.

Lemma rho_rep L A : rep L A -> rep (lrho L) (rho A).
Proof.
  intros H x y Hx Hy. pose proof (rho_offset_range x y Hx Hy). unfold lrho. split.
  - apply lane_rot; auto. eapply rep_lane; eauto.
  - intros z Hz. rewrite rho_spec, rot_bit by (auto; eapply rep_lane; eauto).
    apply rep_bit; auto. apply mod64.
Qed.

Lemma pi_rep L A : rep L A -> rep (lpi L) (pi A).
Proof.
  intros H x y Hx Hy. unfold lpi, pi. pose proof (mod5 (x + 3 * y)). apply H; auto.
Qed.

Lemma chi_rep L A : rep L A -> rep (lchi L) (chi A).
Proof.
  intros H x y Hx Hy. pose proof (mod5 (x + 1)). pose proof (mod5 (x + 2)). unfold lchi, chi. split.
  - apply lane_lxor; [eapply rep_lane; eauto|]. apply lane_land; [|eapply rep_lane; eauto].
    apply lane_not64. eapply rep_lane; eauto.
  - intros z Hz. rewrite Z.lxor_spec, Z.land_spec, not64_bit by auto.
    now rewrite !(rep_bit L A) by auto.
Qed.

Definition rc_ok (c : Z) (ir : nat) : Prop :=
  lane c /\ forall z, 0 <= z < 64 -> RC ir z = Z.testbit c z.

Lemma iota_rep L A c ir : rep L A -> rc_ok c ir -> rep (liota c L) (iota ir A).
Proof.
  intros H [Hc Hr] x y Hx Hy. unfold liota, iota.
  destruct ((x =? 0) && (y =? 0)).
  - split.
    + apply lane_lxor; auto. eapply rep_lane; eauto.
    + intros z Hz. rewrite Z.lxor_spec, Hr by auto. f_equal. now apply rep_bit.
  - now apply H.
Qed.

Lemma round_rep L A c ir : rep L A -> rc_ok c ir -> rep (lround c L) (Rnd ir A).
Proof. intros. apply iota_rep, H0. apply chi_rep, pi_rep, rho_rep, theta_rep, H. Qed.

(** The 24 constants are those generated by the LFSR *)
Lemma round_constants : forallb (fun ir => let c := nth ir KeccakF_RoundConstants 0 in
    (0 <=? c) && (c <? 2 ^ 64) &&
    forallb (fun z => Bool.eqb (RC ir (Z.of_nat z)) (Z.testbit c (Z.of_nat z))) (seq 0 64)) (seq 0 24) = true.
Proof. vm_compute. reflexivity. Qed.

Lemma round_constant_ok ir : (ir < 24)%nat -> rc_ok (nth ir KeccakF_RoundConstants 0) ir.
Proof.
  intros Hir. pose proof round_constants as E. rewrite forallb_forall in E.
  specialize (E ir ltac:(apply in_seq; lia)). cbv zeta in E.
  apply andb_prop in E as [E1 E2]. apply andb_prop in E1 as [E0 E1].
  split. { unfold lane. lia. }
  intros z Hz. rewrite forallb_forall in E2.
  specialize (E2 (Z.to_nat z) ltac:(apply in_seq; lia)).
  rewrite Z2Nat.id in E2 by lia. now apply eqb_prop.
Qed.

(** ** The unrolled code computes the round on lanes *)
Definition lanes_of (L : rows) : lanes :=
  Lanes (L 0 0) (L 1 0) (L 2 0) (L 3 0) (L 4 0)
        (L 0 1) (L 1 1) (L 2 1) (L 3 1) (L 4 1)
        (L 0 2) (L 1 2) (L 2 2) (L 3 2) (L 4 2)
        (L 0 3) (L 1 3) (L 2 3) (L 3 3) (L 4 3)
        (L 0 4) (L 1 4) (L 2 4) (L 3 4) (L 4 4).

Lemma half1_round c L : keccak_half1 c (lanes_of L) = lanes_of (lround c L).
Proof.
  unfold keccak_half1, lanes_of, lround, liota, lchi, lpi, lrho, ltheta, lD, lC, rho_offset, rot.
  cbn -[Z.lxor Z.land ROL not64]. reflexivity.
Qed.

Lemma half2_round c L : keccak_half2 c (lanes_of L) = lanes_of (lround c L).
Proof.
  unfold keccak_half2, lanes_of, lround, liota, lchi, lpi, lrho, ltheta, lD, lC, rho_offset, rot.
  cbn -[Z.lxor Z.land ROL not64]. reflexivity.
Qed.

(** ** The state as a bit string *)
Definition wfstate (s : list Z) : Prop := length s = 25%nat /\ (forall i, lane (nth i s 0)).
Definition lane_bits_of (a : Z) : list bool := map (Z.testbit a) (zseq 64).
Definition sbits (s : list Z) : list bool := flat_map lane_bits_of s.

Lemma lane_bits_of_length a : length (lane_bits_of a) = 64%nat.
Proof. unfold lane_bits_of, zseq. now rewrite !map_length, seq_length. Qed.

Lemma sbits_length s : wfstate s -> length (sbits s) = 1600%nat.
Proof.
  intros [H _]. unfold sbits.
  assert (E : forall l, length (flat_map lane_bits_of l) = (64 * length l)%nat).
  { induction l; cbn [flat_map length]; [reflexivity|].
    rewrite app_length, lane_bits_of_length, IHl. lia. }
  rewrite E, H. reflexivity.
Qed.

Definition bit (s : list Z) (k : nat) : bool := Z.testbit (nth (k / 64) s 0) (Z.of_nat (k mod 64)).

Lemma lane_bits_of_nth a i : (i < 64)%nat -> nth i (lane_bits_of a) false = Z.testbit a (Z.of_nat i).
Proof.
  intros. unfold lane_bits_of, zseq. rewrite map_map. apply (nth_mk 64 (fun i => Z.testbit a (Z.of_nat i))). auto.
Qed.

Lemma sbits_nth2 s i j : (j < 64)%nat -> nth (64 * i + j) (sbits s) false = Z.testbit (nth i s 0) (Z.of_nat j).
Proof.
  intros Hj. revert i. unfold sbits. induction s as [|a s IH]; intros i.
  - cbn [flat_map]. destruct i; cbn [nth]; rewrite Z.bits_0; now destruct (_ + _)%nat.
  - cbn [flat_map]. destruct i as [|i].
    + rewrite app_nth1 by (rewrite lane_bits_of_length; lia). cbn [nth].
      replace (64 * 0 + j)%nat with j by lia. now apply lane_bits_of_nth.
    + rewrite app_nth2 by (rewrite lane_bits_of_length; lia). rewrite lane_bits_of_length.
      replace (64 * S i + j - 64)%nat with (64 * i + j)%nat by lia. cbn [nth]. apply IH.
Qed.

Lemma sbits_nth s k : nth k (sbits s) false = bit s k.
Proof.
  unfold bit. pose proof (Nat.mod_upper_bound k 64 ltac:(lia)).
  rewrite (Nat.div_mod k 64) at 1 by lia. now apply sbits_nth2.
Qed.

Definition rows_of (s : list Z) : rows := fun x y => nth (Z.to_nat (5 * y + x)) s 0.

Lemma rows_of_rep s : wfstate s -> rep (rows_of s) (state_of_string (sbits s)).
Proof.
  intros [Hl H] x y Hx Hy. split. { apply H. }
  intros z Hz. unfold state_of_string, rows_of, w.
  replace (Z.to_nat (64 * (5 * y + x) + z)) with (64 * Z.to_nat (5 * y + x) + Z.to_nat z)%nat by lia.
  rewrite sbits_nth2 by lia. f_equal. lia.
Qed.

Definition list_of (L : rows) : list Z :=
  [L 0 0; L 1 0; L 2 0; L 3 0; L 4 0; L 0 1; L 1 1; L 2 1; L 3 1; L 4 1;
   L 0 2; L 1 2; L 2 2; L 3 2; L 4 2; L 0 3; L 1 3; L 2 3; L 3 3; L 4 3;
   L 0 4; L 1 4; L 2 4; L 3 4; L 4 4].

Lemma list_of_wf L A : rep L A -> wfstate (list_of L).
Proof.
  intros H. split; [reflexivity|].
  intros i. do 25 (destruct i as [|i]; [cbn [nth list_of]; eapply rep_lane; [exact H|lia|lia]|]).
  cbn [nth list_of]. destruct i; cbv; split; congruence.
Qed.

Lemma list_of_bits L A : rep L A -> string_of_state A = sbits (list_of L).
Proof.
  intros H. unfold string_of_state, sbits, list_of. 
  assert (E : forall x y, 0 <= x < 5 -> 0 <= y < 5 -> map (fun z => A x y z) (zseq 64) = lane_bits_of (L x y)).
  { intros x y Hx Hy. apply map_ext_in. intros z Hz. apply rep_bit; auto.
    apply in_map_iff in Hz as (i & <- & Hi). apply in_seq in Hi. lia. }
  change (zseq 5) with [0; 1; 2; 3; 4]. cbn [flat_map].
  rewrite !E by lia. rewrite !app_nil_r, <- !app_assoc. reflexivity.
Qed.

Definition rounds (m : nat) (L : rows) : rows :=
  fold_left (fun L ir => lround (nth ir KeccakF_RoundConstants 0) L) (seq 0 m) L.

Lemma rounds_rep m L A : (m <= 24)%nat -> rep L A ->
  rep (rounds m L) (fold_left (fun A ir => Rnd ir A) (seq 0 m) A).
Proof.
  intros Hm H. induction m.
  - exact H.
  - unfold rounds. rewrite !seq_S, !fold_left_app. cbn [fold_left Nat.add].
    apply round_rep. { apply IHm. lia. } apply round_constant_ok. lia.
Qed.

Lemma rounds_S m L : rounds (S m) L = lround (nth m KeccakF_RoundConstants 0) (rounds m L).
Proof. unfold rounds. now rewrite seq_S, fold_left_app. Qed.

Lemma permute_wp :
  traced (fun T => forall s, wfstate s ->
    wp (KeccakF1600_StatePermute s) T
       (fun s' => wfstate s' /\ sbits s' = keccak_f (sbits s))).
Proof.
  eexists. intros s Hs. pose proof Hs as [Hl _]. unfold KeccakF1600_StatePermute.
  do 25 (wstep; wstep; [lia|]).
  wstep. eapply (wp_for _ (fun n st => st = lanes_of (rounds (2 * n) (rows_of s)))).
  - reflexivity.
  - intros i st Hi ->. wstep. wstep; [change (length KeccakF_RoundConstants) with 24%nat; lia|]. cbv zeta.
    wstep. wstep; [change (length KeccakF_RoundConstants) with 24%nat; lia|]. wstep.
    rewrite half1_round, half2_round.
    replace (2 * S i)%nat with (S (S (2 * i))) by lia. rewrite !rounds_S.
    replace (2 * i + 1)%nat with (S (2 * i)) by lia. reflexivity.
  - intros st ->. change (2 * (0 + 12))%nat with 24%nat.
    pose proof (rounds_rep 24 _ _ (le_n 24) (rows_of_rep s Hs)) as HR.
    set (R := rounds 24 (rows_of s)) in *. clearbody R. unfold lanes_of.
    do 24 (wstep; wstep; [rewrite ?upd_length; lia|]). wstep; [rewrite ?upd_length; lia|].
    destruct s as [|s0 [|s1 [|s2 [|s3 [|s4 [|s5 [|s6 [|s7 [|s8 [|s9 [|s10 [|s11 [|s12 [|s13 [|s14 [|s15 [|s16 [|s17 [|s18 [|s19 [|s20 [|s21 [|s22 [|s23 [|s24 [|s25 s]]]]]]]]]]]]]]]]]]]]]]]]]];
      try discriminate Hl.
    cbn [upd]. change (wfstate (list_of R) /\ sbits (list_of R) = keccak_f (sbits [s0;s1;s2;s3;s4;s5;s6;s7;s8;s9;s10;s11;s12;s13;s14;s15;s16;s17;s18;s19;s20;s21;s22;s23;s24])).
    split. { eapply list_of_wf; eauto. }
    unfold keccak_f, keccak_rounds. symmetry. now apply list_of_bits.
Qed.
