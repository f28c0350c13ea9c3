(** * How many candidates a string holds *)
From Coq Require Import ZArith List Lia Bool.
From Verif Require Import CMonad WP Levels Model_Params Spec_FIPS203 Vocab Vocab_Dist Vocab_Blocks
  Proof_Base Proof_Vocab Sums Proof_Dist Proof_Unbiased.
Import ListNotations.
Open Scope Z_scope.

Definition taken : list Z := filter (fun v => v <? q) (upto 4096).
Lemma taken_NoDup : NoDup taken. Proof. unfold taken. apply NoDup_filter. apply upto_NoDup. Qed.
Lemma taken_length : Z.of_nat (length taken) = 3329. Proof. vm_compute. reflexivity. Qed.
Lemma taken_in v : In v taken <-> good v /\ (v <? q) = true.
Proof.
  unfold taken. rewrite filter_In. split; intros [X Y]; (split; [|exact Y]).
  - now apply upto_out.
  - now apply upto_into.
Qed.
#[local] Opaque upto rejected taken prefixed.
Definition acc (l : list Z) : nat := length (filter (fun d => d <? q) l).

(** ** Exactly [a] of [c] candidates accepted *)
Fixpoint picks (c a : nat) : list (list Z) :=
  match c with
  | O => match a with O => [[]] | S _ => [] end
  | S c => (match a with O => [] | S a => prefixed taken (picks c a) end) ++ prefixed rejected (picks c a)
  end.
Lemma picks_in c a l : In l (picks c a) <-> length l = c /\ Forall good l /\ acc l = a.
Proof.
  revert a l. induction c as [|c IH]; intros a l.
  - cbn [picks]. destruct a as [|a].
    + split; [intros [<-|[]]; repeat split; constructor|]. intros (L & _). destruct l; [left; reflexivity|discriminate].
    + split; [intros []|]. intros (L & _ & E). destruct l; discriminate.
  - cbn [picks]. rewrite in_app_iff. split.
    + intros [HI|HI].
      * destruct a as [|a]; [destruct HI|]. destruct (prefixed_out _ _ _ HI) as (v & l' & -> & Hv & Hl).
        apply taken_in in Hv as [Gv Ev]. apply IH in Hl as (L & G & E). split; [cbn; lia|]. split; [now constructor|].
        unfold acc in *. cbn [filter]. rewrite Ev. cbn [length]. lia.
      * destruct (prefixed_out _ _ _ HI) as (v & l' & -> & Hv & Hl). destruct (rejected_out _ Hv) as [Gv Ev].
        apply IH in Hl as (L & G & E). split; [cbn; lia|]. split; [now constructor|].
        unfold acc in *. cbn [filter]. rewrite Ev. exact E.
    + intros (L & G & E). destruct l as [|v l]; [discriminate|]. inversion G as [|v' l' Gv Gl]; subst v' l'. cbn in L.
      unfold acc in E. cbn [filter] in E. destruct (v <? q) eqn:Ev.
      * left. cbn [length] in E. destruct a as [|a]; [discriminate|]. apply prefixed_into. exists v, l. split; [reflexivity|].
        split; [now apply taken_in|]. apply IH. split; [lia|]. split; [exact Gl|]. unfold acc. lia.
      * right. apply prefixed_into. exists v, l. split; [reflexivity|]. split; [now apply rejected_into|]. apply IH. split; [lia|]. split; [exact Gl|exact E].
Qed.
Lemma picks_NoDup c a : NoDup (picks c a).
Proof.
  revert a. induction c as [|c IH]; intros a; cbn [picks].
  - destruct a; [repeat constructor; intros []|constructor].
  - apply NoDup_app_disj.
    + destruct a as [|a]; [constructor|]. apply prefixed_NoDup; [apply taken_NoDup|apply IH].
    + apply prefixed_NoDup; [apply rejected_NoDup|apply IH].
    + intros l H1 H2. destruct a as [|a]; [destruct H1|]. destruct (prefixed_out _ _ _ H1) as (v & l' & -> & Hv & _).
      destruct (prefixed_out _ _ _ H2) as (v' & l2 & E & Hv' & _). injection E as <- _.
      apply taken_in in Hv as [_ X]. destruct (rejected_out _ Hv') as [_ Y]. rewrite X in Y. discriminate.
Qed.
Definition cnt (c a : nat) : Z := binomial c (Z.of_nat a) * 3329 ^ Z.of_nat a * 767 ^ Z.of_nat (c - a).
Lemma picks_length c a : Z.of_nat (length (picks c a)) = cnt c a.
Proof.
  unfold cnt. revert a. induction c as [|c IH]; intros a.
  - destruct a as [|a]; [reflexivity|]. rewrite binomial_out by lia. reflexivity.
  - cbn [picks]. rewrite app_length, Nat2Z.inj_add, prefixed_length, rejected_length, IH. cbn [binomial]. destruct a as [|a].
    + cbn [length]. rewrite (binomial_out c (Z.of_nat 0 - 1)) by lia. rewrite Nat.sub_0_r.
      replace (S c - 0)%nat with (S c) by lia. rewrite (Nat2Z.inj_succ c), Z.pow_succ_r by lia. lia.
    + rewrite prefixed_length, taken_length, IH. replace (Z.of_nat (S a) - 1) with (Z.of_nat a) by lia.
      change (S c - S a)%nat with (c - a)%nat. rewrite (Nat2Z.inj_succ a), (Z.pow_succ_r 3329) by lia.
      destruct (Nat.lt_ge_cases a c) as [L|L].
      * replace (c - a)%nat with (S (c - S a)) by lia. rewrite (Nat2Z.inj_succ (c - S a)), (Z.pow_succ_r 767) by lia. ring.
      * rewrite (binomial_out c (Z.succ (Z.of_nat a))) by lia. ring.
Qed.

(** ** From candidates to bytes *)
Lemma count_by (L : list (list Z)) (Q : list Z -> Prop) m : NoDup L ->
  (forall l, In l L <-> length l = (2 * m)%nat /\ Forall good l /\ Q l) ->
  counted (fun B => byte_array (3 * m) B /\ Q (flat_map (candidates (fun i => nth i B 0)) (seq 0 m))) (Z.of_nat (length L)).
Proof.
  intros ND HL. apply (counted_map _ pack); [exact ND| |].
  - intros l l' Hl Hl' E. apply HL in Hl as (X & G & _). apply HL in Hl' as (X' & G' & _).
    rewrite <- (unpack_pack m l X G), <- (unpack_pack m l' X' G'). now rewrite E.
  - intros B. split.
    + intros [[LB BB] E]. apply bytes_Forall in BB. destruct (unpack_facts m B LB BB) as [LU GU].
      exists (unpack B). split; [|now apply (pack_unpack m)]. apply HL. split; [exact LU|]. split; [exact GU|].
      rewrite candidates_unpack in E by exact LB. exact E.
    + intros (l & Hl & <-). apply HL in Hl as (X & G & E). destruct (pack_facts m l X G) as [LP BP].
      split; [split; [exact LP|now apply bytes_Forall]|]. rewrite candidates_unpack by exact LP. now rewrite (unpack_pack m l X G).
Qed.
Lemma exact_count m a : counted (fun B => byte_array (3 * m) B /\ length (accepted (fun i => nth i B 0) m) = a)
  (binomial (2 * m) (Z.of_nat a) * 3329 ^ Z.of_nat a * 767 ^ Z.of_nat (2 * m - a)).
Proof.
  change (binomial (2 * m) (Z.of_nat a) * 3329 ^ Z.of_nat a * 767 ^ Z.of_nat (2 * m - a)) with (cnt (2 * m) a).
  rewrite <- picks_length. exact (count_by _ (fun l => acc l = a) m (picks_NoDup (2 * m) a) (picks_in (2 * m) a)).
Qed.

(** ** Fewer than [b] accepted *)
Fixpoint fewer (c b : nat) : list (list Z) :=
  match b with O => [] | S b => fewer c b ++ picks c b end.
Lemma fewer_in c b l : In l (fewer c b) <-> length l = c /\ Forall good l /\ (acc l < b)%nat.
Proof.
  induction b as [|b IH]; cbn [fewer]; [split; [intros []|intros (_ & _ & X); lia]|].
  rewrite in_app_iff, IH, picks_in. split.
  - intros [(L & G & X)|(L & G & X)]; repeat split; auto; lia.
  - intros (L & G & X). destruct (Nat.lt_ge_cases (acc l) b); [left|right]; repeat split; auto; lia.
Qed.
Lemma fewer_NoDup c b : NoDup (fewer c b).
Proof.
  induction b as [|b IH]; cbn [fewer]; [constructor|]. apply NoDup_app_disj; [exact IH|apply picks_NoDup|].
  intros l H1 H2. apply fewer_in in H1 as (_ & _ & X). apply picks_in in H2 as (_ & _ & Y). lia.
Qed.
Definition below (c b : nat) : Z := sumz b (cnt c).
Lemma fewer_length c b : Z.of_nat (length (fewer c b)) = below c b.
Proof.
  unfold below. induction b as [|b IH]; [reflexivity|]. cbn [fewer]. rewrite app_length, Nat2Z.inj_add, IH, picks_length. now rewrite sumz_S.
Qed.
Lemma short_count n : counted (short n) (below (112 * n) 256).
Proof.
  rewrite <- fewer_length. replace (112 * n)%nat with (2 * (56 * n))%nat by lia.
  pose proof (count_by _ (fun l => (acc l < 256)%nat) (56 * n) (fewer_NoDup (2 * (56 * n)) 256) (fewer_in (2 * (56 * n)) 256)) as C.
  eapply counted_iff; [|exact C]. intros B. unfold short, acc, accepted.
  replace (3 * (56 * n))%nat with (168 * n)%nat by lia. reflexivity.
Qed.

(** ** The exponential bound *)
Lemma cnt_nonneg c a : 0 <= cnt c a. Proof. rewrite <- picks_length. lia. Qed.
Lemma cnt_S c a : cnt (S c) (S a) = 3329 * cnt c a + 767 * cnt c (S a).
Proof. rewrite <- !picks_length. cbn [picks]. rewrite app_length, Nat2Z.inj_add, !prefixed_length, taken_length, rejected_length. reflexivity. Qed.
Lemma cnt_0 c : cnt (S c) 0 = 767 * cnt c 0.
Proof. rewrite <- !picks_length. cbn [picks app]. rewrite !prefixed_length, rejected_length. reflexivity. Qed.
Lemma below_S c b : below (S c) (S b) = 3329 * below c b + 767 * below c (S b).
Proof.
  unfold below. induction b as [|b IH].
  - rewrite !sumz_S, !sumz_O. rewrite cnt_0. lia.
  - rewrite sumz_S, IH, (sumz_S b (cnt c)), (sumz_S (S b) (cnt c)), cnt_S. rewrite (sumz_S b (cnt c)). ring.
Qed.
Lemma below_0 c : below c 0 = 0. Proof. reflexivity. Qed.
Lemma chernoff t c b : 0 < t -> t * below c b * t ^ Z.of_nat c <= t ^ Z.of_nat b * (3329 + 767 * t) ^ Z.of_nat c.
Proof.
  intros Ht. assert (PB : forall b, 0 < t ^ Z.of_nat b) by (intros; apply Z.pow_pos_nonneg; lia).
  assert (PX : forall c, 0 < (3329 + 767 * t) ^ Z.of_nat c) by (intros; apply Z.pow_pos_nonneg; lia).
  revert b. induction c as [|c IH]; intros b.
  - change (Z.of_nat 0) with 0. rewrite !Z.pow_0_r, !Z.mul_1_r. destruct b as [|b]; [rewrite below_0; lia|].
    assert (E : below 0 (S b) = 1).
    { unfold below. induction b as [|b IHb]; [reflexivity|]. rewrite sumz_S, IHb. unfold cnt. rewrite binomial_out by lia. reflexivity. }
    rewrite E. rewrite Nat2Z.inj_succ, Z.pow_succ_r by lia. specialize (PB b). nia.
  - destruct b as [|b].
    + rewrite below_0, Z.mul_0_r, Z.mul_0_l. specialize (PX (S c)). change (Z.of_nat 0) with 0. rewrite Z.pow_0_r. lia.
    + rewrite below_S. rewrite (Nat2Z.inj_succ c), !Z.pow_succ_r by lia. pose proof (IH b) as I1. pose proof (IH (S b)) as I2.
      rewrite (Nat2Z.inj_succ b), Z.pow_succ_r in * by lia.
      set (tc := t ^ Z.of_nat c) in *. set (tb := t ^ Z.of_nat b) in *. set (X := (3329 + 767 * t) ^ Z.of_nat c) in *.
      set (B1 := below c b) in *. set (B2 := below c (S b)) in *. clearbody tc tb X B1 B2.
      apply (Z.mul_le_mono_nonneg_l _ _ (3329 * t)) in I1; [|lia]. apply (Z.mul_le_mono_nonneg_l _ _ (767 * t)) in I2; [|lia]. lia.
Qed.
Lemma blocks_num : 9465 ^ 112 * 2 ^ 200 <= 2 ^ 1680.
Proof. vm_compute. discriminate. Qed.
Lemma below_blocks n : below (112 * n) 256 * 2 ^ Z.of_nat (200 * n) <= 2 ^ 765 * 256 ^ Z.of_nat (168 * n).
Proof.
  pose proof (chernoff 8 (112 * n) 256 eq_refl) as C. change (3329 + 767 * 8) with 9465 in C.
  assert (P : (9465 ^ 112 * 2 ^ 200) ^ Z.of_nat n <= (2 ^ 1680) ^ Z.of_nat n).
  { apply Z.pow_le_mono_l. split; [|exact blocks_num]. apply Z.mul_nonneg_nonneg; apply Z.pow_nonneg; lia. }
  rewrite Z.pow_mul_l in P. rewrite <- !Z.pow_mul_r in P by lia.
  replace (8 ^ Z.of_nat 256) with (8 * 2 ^ 765) in C by (vm_compute; reflexivity).
  replace (8 ^ Z.of_nat (112 * n)) with (2 ^ (336 * Z.of_nat n)) in C.
  2: { change 8 with (2 ^ 3). rewrite <- Z.pow_mul_r by lia. f_equal. lia. }
  replace (256 ^ Z.of_nat (168 * n)) with (2 ^ (1344 * Z.of_nat n)).
  2: { change 256 with (2 ^ 8). rewrite <- Z.pow_mul_r by lia. f_equal. lia. }
  replace (Z.of_nat (200 * n)) with (200 * Z.of_nat n) by lia.
  replace (Z.of_nat (112 * n)) with (112 * Z.of_nat n) in C by lia.
  replace (1680 * Z.of_nat n) with (336 * Z.of_nat n + 1344 * Z.of_nat n) in P by lia. rewrite Z.pow_add_r in P by lia.
  assert (0 < 2 ^ (336 * Z.of_nat n)) by (apply Z.pow_pos_nonneg; lia).
  assert (0 < 2 ^ (200 * Z.of_nat n)) by (apply Z.pow_pos_nonneg; lia).
  assert (0 < 2 ^ 765) by (apply Z.pow_pos_nonneg; lia).
  set (S765 := 2 ^ 765) in *. set (a := 2 ^ (336 * Z.of_nat n)) in *. set (b := 2 ^ (200 * Z.of_nat n)) in *. set (d := 2 ^ (1344 * Z.of_nat n)) in *.
  set (x := 9465 ^ (112 * Z.of_nat n)) in *. set (B := below (112 * n) 256) in *. clearbody S765 a b d x B.
  apply Z.mul_le_mono_pos_l with a; [assumption|].
  apply Z.le_trans with (S765 * (x * b)).
  - replace (a * (B * b)) with (B * a * b) by ring. replace (S765 * (x * b)) with (S765 * x * b) by ring. apply Z.mul_le_mono_nonneg_r; [lia|]. lia.
  - replace (a * (S765 * d)) with (S765 * (a * d)) by ring. apply Z.mul_le_mono_nonneg_l; lia.
Qed.
Lemma short_blocks n : exists N, counted (short n) N /\ N * 2 ^ Z.of_nat (200 * n) <= 2 ^ 765 * 256 ^ Z.of_nat (168 * n).
Proof. exists (below (112 * n) 256). split; [apply short_count|apply below_blocks]. Qed.

(** ** Three and four blocks *)
Lemma binomial_step n k : (k + 1) * binomial n (k + 1) = (Z.of_nat n - k) * binomial n k.
Proof.
  revert k. induction n as [|n IH]; intros k.
  - cbn [binomial]. destruct (Z.eqb_spec (k + 1) 0); destruct (Z.eqb_spec k 0); lia.
  - cbn [binomial]. replace (k + 1 - 1) with k by lia. pose proof (IH k) as I1. pose proof (IH (k - 1)) as I2. replace (k - 1 + 1) with k in I2 by lia.
    rewrite Nat2Z.inj_succ. lia.
Qed.
(** sum of C(c, i) 3329^i 767^(b-1-i) over i < b, with C(c, i) and 3329^i carried along *)
Fixpoint horner (c : Z) (steps : nat) (i bi p s : Z) : Z :=
  match steps with
  | O => s
  | S m => horner c m (i + 1) (bi * (c - i) / (i + 1)) (p * 3329) (s * 767 + bi * p)
  end.
Lemma horner_spec c m : forall i, (i + m <= c)%nat ->
  horner (Z.of_nat c) m (Z.of_nat i) (binomial c (Z.of_nat i)) (3329 ^ Z.of_nat i)
    (sumz i (fun j => binomial c (Z.of_nat j) * 3329 ^ Z.of_nat j * 767 ^ Z.of_nat (i - 1 - j))) =
  sumz (i + m) (fun j => binomial c (Z.of_nat j) * 3329 ^ Z.of_nat j * 767 ^ Z.of_nat (i + m - 1 - j)).
Proof.
  induction m as [|m IH]; intros i Hi; cbn [horner]; [now rewrite Nat.add_0_r|].
  replace (i + S m)%nat with (S i + m)%nat by lia. rewrite <- IH by lia. f_equal.
  - lia.
  - replace (Z.of_nat (S i)) with (Z.of_nat i + 1) by lia. pose proof (binomial_step c (Z.of_nat i)) as E.
    rewrite (Z.mul_comm (binomial c (Z.of_nat i))), <- E, Z.mul_comm. apply Z.div_mul. lia.
  - rewrite Nat2Z.inj_succ, Z.pow_succ_r by lia. lia.
  - rewrite sumz_S. replace (S i - 1 - i)%nat with 0%nat by lia. rewrite Z.mul_1_r. f_equal.
    rewrite Z.mul_comm, <- sumz_scale. apply sumz_ext. intros j Hj. replace (S i - 1 - j)%nat with (S (i - 1 - j)) by lia.
    rewrite (Nat2Z.inj_succ (i - 1 - j)), (Z.pow_succ_r 767) by lia. lia.
Qed.
Lemma below_horner c b : (b <= c)%nat -> below c b = 767 ^ Z.of_nat (c - b + 1) * horner (Z.of_nat c) b 0 1 1 0.
Proof.
  intros Hb. assert (B0 : binomial c 0 = 1). { clear. induction c as [|c IH]; [reflexivity|]. cbn [binomial]. rewrite binomial_out by lia. exact IH. }
  pose proof (horner_spec c b 0 Hb) as E. change (Z.of_nat 0) with 0 in E. rewrite B0, Z.pow_0_r in E. cbn [Nat.add] in E. rewrite sumz_O in E. rewrite E.
  unfold below. rewrite <- sumz_scale.
  apply sumz_ext. intros j Hj. unfold cnt. replace (c - j)%nat with ((c - b + 1) + (b - 1 - j))%nat by lia.
  rewrite (Nat2Z.inj_add (c - b + 1)), (Z.pow_add_r 767) by lia. ring.
Qed.
Lemma three_num : let x := 767 ^ 81 * horner 336 256 0 1 1 0 in 832 * 256 ^ 504 <= 100000 * x <= 833 * 256 ^ 504.
Proof. vm_compute. split; discriminate. Qed.
Lemma four_num : 767 ^ 193 * horner 448 256 0 1 1 0 * 2 ^ 105 <= 256 ^ 672.
Proof. vm_compute. discriminate. Qed.
#[local] Opaque horner.
Lemma short_three : exists N, counted (short 3) N /\ 832 * 256 ^ 504 <= 100000 * N <= 833 * 256 ^ 504.
Proof.
  exists (below (112 * 3) 256). split; [apply short_count|].
  rewrite (below_horner (112 * 3) 256) by (apply Nat.leb_le; reflexivity). exact three_num.
Qed.
Lemma short_four : exists N, counted (short 4) N /\ N * 2 ^ 105 <= 256 ^ 672.
Proof.
  exists (below (112 * 4) 256). split; [apply short_count|].
  rewrite (below_horner (112 * 4) 256) by (apply Nat.leb_le; reflexivity). exact four_num.
Qed.
