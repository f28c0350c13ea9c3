(** * Proofs of C62 and C63 *)
From Coq Require Import ZArith List Lia Bool String Permutation Sorted.
From Verif Require Import CMonad WP Levels Model_Params Model_Kem Vocab Vocab_Avx Vocab_Rng Vocab_Tests Model_Tests Model_Speed Vocab_Speed Proof_Base Proof_Rng Proof_Tests Proof_Speed Proof_SpeedMain.
Import ListNotations.
Open Scope Z_scope.
Open Scope cmonad_scope.
Notation length := List.length.

(** ** print_results *)
Lemma report_full clk qsort rounds s t rest o p : sorts qsort -> (2 <= length t)%nat -> counter o ->
  exists t' o' p' out, yields (print_results clk qsort rounds s (t ++ rest) (length t) o p) (t' ++ rest, o', p', out) /\
    length t' = length t /\ overhead_after clk rounds o p o' p' /\ report s t o' out /\
    forall out', report s t o' out' -> out' = out.
Proof.
  intros QS Ht Ho. destruct (print_results_yields clk qsort QS rounds s t rest o p Ht Ho) as (t' & o' & p' & out & Y & L & C & A & Rp).
  exists t', o', p', out. split; [exact Y|]. split; [exact L|]. split; [exact A|]. split; [exact Rp|].
  intros out' H. exact (report_unique _ _ _ _ _ H Rp).
Qed.
Lemma report_short clk qsort rounds s t tlen o p : (tlen < 2)%nat -> yields (print_results clk qsort rounds s t tlen o p) (t, o, p, []).
Proof. apply print_results_short. Qed.

(** ** What the numbers mean *)
Definition exact_gaps (t : list Z) (o : Z) : list Z := map (fun i => nth (S i) t 0 - nth i t 0 - o) (seq 0 (length t - 1)).
Lemma seq_total_exact t o n : total (map (fun i => nth (S i) t 0 - nth i t 0 - o) (seq 0 n)) = nth n t 0 - nth 0 t 0 - Z.of_nat n * o.
Proof.
  induction n as [|n IH]; [cbn [seq map total fold_right]; lia|]. rewrite seq_S, map_app, total_app, IH. cbn [map total fold_right plus]. lia.
Qed.
Lemma readings_up t o : 0 <= o -> (forall i, (S i < length t)%nat -> o <= nth (S i) t 0 - nth i t 0) ->
  forall j i, (i <= j < length t)%nat -> nth i t 0 <= nth j t 0.
Proof.
  intros Ho H. induction j as [|j IH]; intros i Hi.
  - replace i with 0%nat by lia. lia.
  - destruct (Nat.eq_dec i (S j)) as [->|N]; [lia|]. specialize (IH i ltac:(lia)). specialize (H j ltac:(lia)). lia.
Qed.
Lemma gaps_exact t o : 0 <= o -> (forall i, (S i < length t)%nat -> o <= nth (S i) t 0 - nth i t 0) -> last t 0 - hd 0 t < 2 ^ 63 ->
  gaps t o = exact_gaps t o /\ forall x, In x (exact_gaps t o) -> 0 <= x < 2 ^ 63.
Proof.
  intros Ho H HE. assert (B : forall i, (i < length t - 1)%nat -> 0 <= nth (S i) t 0 - nth i t 0 - o < 2 ^ 63).
  { intros i Hi. pose proof (H i ltac:(lia)) as Hi'. pose proof (readings_up t o Ho H i 0%nat ltac:(lia)) as U1.
    pose proof (readings_up t o Ho H (length t - 1) (S i) ltac:(lia)) as U2. rewrite last_nth in HE.
    assert (E : hd 0 t = nth 0 t 0) by now destruct t. rewrite E in HE. lia. }
  split.
  - unfold gaps, exact_gaps. apply map_ext_in. intros i Hi. apply in_seq in Hi. apply Z.mod_small. specialize (B i ltac:(lia)). lia.
  - intros x Hx. apply in_map_iff in Hx as (i & <- & Hi). apply in_seq in Hi. apply B. lia.
Qed.
Lemma meaning t o : (2 <= length t)%nat -> 0 <= o -> (forall i, (S i < length t)%nat -> o <= nth (S i) t 0 - nth i t 0) ->
  last t 0 - hd 0 t < 2 ^ 63 ->
  let d := map (fun i => nth (S i) t 0 - nth i t 0 - o) (seq 0 (length t - 1)) in
  printed_average t o = fold_right Z.add 0 d / Z.of_nat (length d) /\
  forall m, printed_median (gaps t o) m -> exists lo hi,
    of_rank d ((length d - 1) / 2) lo /\ of_rank d (length d / 2) hi /\ m = (lo + hi) / 2.
Proof.
  intros Ht Ho H HE d. destruct (gaps_exact t o Ho H HE) as [E B]. fold d in E. change (exact_gaps t o) with d in E, B.
  assert (Ld : length d = (length t - 1)%nat) by (unfold d; now rewrite map_length, seq_length).
  split.
  - rewrite <- gaps_total, E, Ld. f_equal. change (fold_right Z.add 0 d) with (total d). apply Z.mod_small.
    unfold d. rewrite seq_total_exact. rewrite last_nth in HE. assert (E0 : hd 0 t = nth 0 t 0) by now destruct t. rewrite E0 in HE.
    split; [|nia].
    assert (T : forall l, (forall x, In x l -> 0 <= x) -> 0 <= total l).
    { intros l. induction l as [|x l IH]; intros Hl; cbn [total fold_right]; [lia|]. pose proof (Hl x (or_introl eq_refl)).
      specialize (IH (fun y Hy => Hl y (or_intror Hy))). unfold total in IH. lia. }
    rewrite <- seq_total_exact. apply T. intros x Hx. apply B in Hx. lia.
  - rewrite E. intros m (lo & hi & H1 & H2 & ->). exists lo, hi. split; [exact H1|]. split; [exact H2|].
    pose proof (B lo (proj1 H1)) as Blo. pose proof (B hi (proj1 H2)) as Bhi. destruct (Nat.odd (length d)) eqn:EO.
    + apply Nat.odd_spec in EO as [k Ek]. rewrite Ek in H1, H2.
      replace ((2 * k + 1 - 1) / 2)%nat with k in H1 by (replace (2 * k + 1 - 1)%nat with (k * 2)%nat by lia; symmetry; apply Nat.div_mul; lia).
      replace ((2 * k + 1) / 2)%nat with k in H2 by (rewrite Nat.mul_comm, Nat.div_add_l by lia; cbn; lia).
      rewrite (rank_unique _ _ _ _ H1 H2). replace (hi + hi) with (hi * 2) by lia. symmetry. apply Z.div_mul. lia.
    + rewrite Z.mod_small by lia. reflexivity.
Qed.

(** ** A clock that is coarser later on *)
Definition bad_clock (i : nat) : Z := match i with 0%nat => 0 | 1%nat => 10 | 2%nat => 30 | _ => Z.min (20 * Z.of_nat i) (2 ^ 64 - 1) end.
Lemma bad_clock_up i : counter (bad_clock i) /\ bad_clock i <= bad_clock (S i).
Proof.
  unfold counter. destruct i as [|[|[|i]]]; cbn [bad_clock]; lia.
Qed.
Lemma median_refuted : exists clk,
  (forall i, counter (clk i) /\ clk i <= clk (S i)) /\
  forall qsort rounds, sorts qsort -> (1 <= rounds <= 10 ^ 6)%nat -> exists t' o' p' m sm rest,
    yields (print_results clk qsort rounds "x" (piece clk 0 3) 3 (2 ^ 64 - 1) 3)
      (t', o', p', text "x" ++ [10] ++ text "median: " ++ sm ++ text " cycles/ticks" ++ rest) /\
    numeral m sm /\ clk 2%nat - clk 0%nat < m.
Proof.
  exists bad_clock. split; [exact bad_clock_up|]. intros qsort rounds QS Hr.
  destruct (print_results_yields bad_clock qsort QS rounds "x" (piece bad_clock 0 3) [] (2 ^ 64 - 1) 3) as (t' & o' & p' & out & Y & L & C & A & Rp).
  { cbn; lia. } { unfold counter; lia. }
  destruct A as [(_ & (_ & H1 & H2) & _)|(N & _)]; [|now contradiction N].
  assert (Eo : o' = 20).
  { assert (Hr' : Z.of_nat rounds <= 1000000) by (destruct Hr as [_ Hr]; apply Nat2Z.inj_le in Hr; rewrite Nat2Z.inj_pow in Hr; exact Hr).
    assert (D : forall i, (i < rounds)%nat -> difference bad_clock 3 i = 20).
    { intros i Hi. unfold difference. replace (3 + 2 * i + 1)%nat with (S (S (S (2 * i + 1)))) by lia. replace (3 + 2 * i)%nat with (S (S (S (2 * i)))) by lia.
      cbn [bad_clock]. rewrite !Z.min_l by lia. replace (_ - _) with 20 by lia. reflexivity. }
    destruct H2 as [H2|(i & Hi & ->)]; [|now apply D]. specialize (H1 0%nat ltac:(lia)). rewrite D in H1 by lia. lia. }
  subst o'. destruct Rp as (m & sm & sa & Hm & Nm & Na & ->).
  rewrite !app_nil_r in Y. change (length (piece bad_clock 0 3)) with 3%nat in Y.
  exists t', 20, p', m, sm. eexists. split; [exact Y|]. split; [exact Nm|].
  destruct Hm as (lo & hi & R1 & R2 & ->). change (gaps (piece bad_clock 0 3) 20) with [2 ^ 64 - 10; 0] in *.
  change ((length [2 ^ 64 - 10; 0] - 1) / 2)%nat with 0%nat in R1. change (length [2 ^ 64 - 10; 0] / 2)%nat with 1%nat in R2.
  change (Nat.odd (length [2 ^ 64 - 10; 0])) with false. cbv iota.
  assert (E1 : of_rank [2 ^ 64 - 10; 0] 0 0) by (split; [cbn; auto|cbn; lia]).
  assert (E2 : of_rank [2 ^ 64 - 10; 0] 1 (2 ^ 64 - 10)) by (split; [cbn; auto|cbn; lia]).
  rewrite (rank_unique _ _ _ _ R1 E1), (rank_unique _ _ _ _ R2 E2). reflexivity.
Qed.

(** ** The program prints the same for the same clock *)
Lemma same_output {S S'} clk qsort qsort' (rb : S -> list Z -> nat -> nat -> res (list Z * S)) (rb' : S' -> list Z -> nat -> nat -> res (list Z * S'))
  f f' R R' V V' lv lv' fuel fuel' ntests rounds JJ JJ' p p' s s' v v' T T' :
  sorts qsort -> sorts qsort' -> stream_source rb f R -> stream_source rb' f' R' -> (2 <= ntests)%nat ->
  R (speed_requests ntests) p s -> R' (speed_requests ntests) p' s' ->
  test_speed_main clk qsort rb V lv fuel ntests rounds JJ s = Ok v T ->
  test_speed_main clk qsort' rb' V' lv' fuel' ntests rounds JJ' s' = Ok v' T' ->
  v = v'.
Proof.
  intros Q Q' H H' Hn HR HR' E E'.
  pose proof (speed_safe clk qsort rb f R V lv fuel ntests rounds JJ p s Q H Hn HR) as X.
  pose proof (speed_safe clk qsort' rb' f' R' V' lv' fuel' ntests rounds JJ' p' s' Q' H' Hn HR') as X'.
  apply (safely_ok _ _ _ _ X) in E. apply (safely_ok _ _ _ _ X') in E'. destruct v as [out r], v' as [out' r']. cbn [fst snd] in *.
  destruct E as [-> E], E' as [-> E']. f_equal. exact (reports_unique _ _ _ _ _ _ _ _ E E').
Qed.

(** ** A qsort, and a source *)
Fixpoint insert (cmp : Z -> Z -> Z) (x : Z) (l : list Z) : list Z :=
  match l with [] => [x] | y :: l' => if cmp x y <=? 0 then x :: l else y :: insert cmp x l' end.
Definition insertion_sort (cmp : Z -> Z -> Z) (l : list Z) : list Z := fold_right (insert cmp) [] l.
Lemma insert_perm cmp x l : Permutation (x :: l) (insert cmp x l).
Proof.
  induction l as [|y l IH]; cbn [insert]; [reflexivity|]. destruct (cmp x y <=? 0); [reflexivity|].
  rewrite perm_swap. now constructor.
Qed.
Lemma insertion_sorts : sorts insertion_sort.
Proof.
  intros cmp l [T1 T2]. induction l as [|x l [P H]]; cbn [insertion_sort fold_right]; [split; constructor|]. fold (insertion_sort cmp l).
  split; [rewrite <- insert_perm; now constructor|]. clear P. induction H as [|y s H IH F]; cbn [insert]; [repeat constructor|].
  destruct (Z.leb_spec (cmp x y) 0) as [L|L].
  - constructor; [now constructor|]. constructor; [exact L|]. rewrite Forall_forall in *. intros z Hz. exact (T2 _ _ _ L (F z Hz)).
  - constructor; [exact IH|]. assert (Ly : cmp y x <= 0) by (destruct (T1 x y); lia). rewrite Forall_forall in *. intros z Hz.
    apply (Permutation_in _ (Permutation_sym (insert_perm cmp x s))) in Hz. destruct Hz as [<-|Hz]; [exact Ly|now apply F].
Qed.
Definition counting (s : nat) (x : list Z) (off len : nat) : res (list Z * nat) :=
  ret (Vocab_Rng.overwrite x off (piece (fun j => Z.of_nat j mod 256) s len), (s + len)%nat).
Lemma counting_source : stream_source counting (fun j => Z.of_nat j mod 256) (fun _ p s => s = p).
Proof.
  intros len lens p s x off -> L. cbn [counting safely ret]. split; [reflexivity|]. split; [|reflexivity].
  intros y Hy. unfold piece in Hy. apply in_map_iff in Hy as (j & <- & _). apply Z.mod_pos_bound. lia.
Qed.
