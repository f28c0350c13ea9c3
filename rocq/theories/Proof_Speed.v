(** * The measuring code: speed_print.c and cpucycles.c *)
From Coq Require Import ZArith List Lia Bool Ascii String Permutation Sorted.
From Verif Require Import CMonad WP Model_Params Model_Tests Model_Speed Vocab Vocab_Rng Vocab_Tests Vocab_Speed Proof_Base Proof_Rng.
Import ListNotations.
Open Scope Z_scope.
Open Scope cmonad_scope.
Notation length := List.length.

(** ** Ranks *)
Lemma count_perm f l l' : Permutation l l' -> count f l = count f l'.
Proof.
  unfold count. induction 1 as [|x l l' _ IH|x y l|l l' l'' _ IH1 _ IH2]; cbn [filter]; auto.
  - destruct (f x); cbn [List.length]; congruence.
  - destruct (f x), (f y); reflexivity.
  - congruence.
Qed.
Lemma count_app f a b : count f (a ++ b) = (count f a + count f b)%nat.
Proof. unfold count. rewrite filter_app, app_length. reflexivity. Qed.
Lemma count_le f l : (count f l <= length l)%nat.
Proof. unfold count. induction l as [|x l IH]; cbn [filter List.length]; [lia|]. destruct (f x); cbn [List.length]; lia. Qed.
Lemma count_none f l : (forall x, In x l -> f x = false) -> count f l = 0%nat.
Proof.
  unfold count. induction l as [|x l IH]; intros Hf; cbn [filter]; [reflexivity|]. rewrite (Hf x (or_introl eq_refl)).
  apply IH. intros y Hy. apply Hf. now right.
Qed.
Lemma count_all f l : (forall x, In x l -> f x = true) -> count f l = length l.
Proof.
  unfold count. induction l as [|x l IH]; intros Hf; cbn [filter]; [reflexivity|]. rewrite (Hf x (or_introl eq_refl)).
  cbn [List.length]. f_equal. apply IH. intros y Hy. apply Hf. now right.
Qed.
Lemma sorted_split (a b : list Z) x : StronglySorted Z.le (a ++ x :: b) -> (forall y, In y a -> y <= x) /\ (forall y, In y b -> x <= y).
Proof.
  induction a as [|y a IH]; cbn [app]; intros HS; apply StronglySorted_inv in HS; destruct HS as [HS HF].
  - split; [now intros y []|]. now apply Forall_forall.
  - destruct (IH HS) as [H1 H2]. split; [|exact H2]. intros z [<-|Hz]; [|now apply H1].
    rewrite Forall_forall in HF. apply HF. apply in_or_app. right. now left.
Qed.
Lemma sorted_rank s r : StronglySorted Z.le s -> (r < length s)%nat -> of_rank s r (nth r s 0).
Proof.
  intros HS Hr. destruct (nth_split s 0 Hr) as (a & b & E & La). set (x := nth r s 0) in *. clearbody x. subst s.
  destruct (sorted_split a b x HS) as [H1 H2]. split; [apply in_or_app; right; now left|].
  change (a ++ x :: b) with (a ++ [x] ++ b). rewrite !count_app.
  rewrite (count_none (fun y => y <? x) b) by (intros y Hy; apply Z.ltb_ge; now apply H2).
  rewrite (count_none (fun y => y <? x) [x]) by (intros y [<-|[]]; apply Z.ltb_irrefl).
  rewrite (count_all (fun y => y <=? x) a) by (intros y Hy; apply Z.leb_le; now apply H1).
  rewrite (count_all (fun y => y <=? x) [x]) by (intros y [<-|[]]; apply Z.leb_refl).
  pose proof (count_le (fun y => y <? x) a). cbn [List.length]. lia.
Qed.
Lemma rank_perm l s r x : Permutation l s -> of_rank s r x -> of_rank l r x.
Proof.
  intros P [Hi Hc]. split; [exact (Permutation_in _ (Permutation_sym P) Hi)|]. now rewrite !(count_perm _ _ _ P).
Qed.
Lemma rank_unique l r x y : of_rank l r x -> of_rank l r y -> x = y.
Proof.
  assert (M : forall a b, a < b -> (count (fun y => y <=? a)%Z l <= count (fun y => y <? b)%Z l)%nat).
  { intros a b L. unfold count. induction l as [|z m IH]; cbn [filter]; [lia|].
    destruct (Z.leb_spec z a), (Z.ltb_spec z b); cbn [List.length]; lia. }
  intros [_ H1] [_ H2]. destruct (Z.lt_trichotomy x y) as [L|[E|L]]; [|exact E|].
  - specialize (M x y L). lia.
  - specialize (M y x L). lia.
Qed.

(** ** The comparison and qsort *)
Lemma cmp_le a b : cmp_uint64 a b <= 0 <-> a <= b.
Proof. unfold cmp_uint64. destruct (Z.ltb_spec a b), (Z.ltb_spec b a); lia. Qed.
Lemma cmp_consistent : consistent cmp_uint64.
Proof.
  split; intros x y.
  - rewrite !cmp_le. lia.
  - intros z. rewrite !cmp_le. lia.
Qed.
Lemma sorted_mono (R R' : Z -> Z -> Prop) l : (forall x y, R x y -> R' x y) -> StronglySorted R l -> StronglySorted R' l.
Proof.
  intros HR. induction 1 as [|x l HS IH HF]; constructor; [exact IH|]. eapply Forall_impl; [|exact HF]. intros y. apply HR.
Qed.

(** ** Numerals *)
Lemma digits_numeral fuel : forall x, 0 <= x < 10 ^ Z.of_nat fuel -> (0 < fuel)%nat -> numeral x (digits fuel x).
Proof.
  induction fuel as [|f IH]; intros x Hx Hf; [lia|]. cbn [digits].
  pose proof (Z.mod_pos_bound x 10 ltac:(lia)) as M. pose proof (Z.div_mod x 10 ltac:(lia)) as DM.
  destruct (Z.ltb_spec x 10) as [L|L].
  - cbn [app]. replace (x mod 10) with x by (symmetry; apply Z.mod_small; lia). repeat split.
    + discriminate.
    + destruct H as [<-|[]]. lia.
    + destruct H as [<-|[]]. lia.
    + cbn [hd]. intros E. f_equal. exact E.
    + cbn [fold_left]. lia.
  - destruct f as [|f]; [cbn in Hx; lia|].
    assert (Hx' : 0 <= x / 10 < 10 ^ Z.of_nat (S f)).
    { split; [apply Z.div_pos; lia|]. apply Z.div_lt_upper_bound; [lia|].
      rewrite (Nat2Z.inj_succ (S f)), Z.pow_succ_r in Hx by lia. lia. }
    destruct (IH (x / 10) Hx' ltac:(lia)) as (N1 & N2 & N3 & N4).
    repeat split.
    + destruct (digits (S f) (x / 10)); discriminate.
    + apply in_app_or in H. destruct H as [H|[<-|[]]]; [apply N2 in H|]; lia.
    + apply in_app_or in H. destruct H as [H|[<-|[]]]; [apply N2 in H|]; lia.
    + destruct (digits (S f) (x / 10)) as [|c l] eqn:D; [contradiction|]. cbn [app hd]. intros ->. exfalso.
      specialize (N3 eq_refl). rewrite N3 in N4. cbn in N4. assert (x / 10 >= 1) by (apply Z.le_ge; apply Z.div_le_lower_bound; lia). lia.
    + rewrite fold_left_app, N4. cbn [fold_left]. lia.
Qed.
Lemma llu_numeral x : counter x -> numeral x (print_llu x).
Proof. intros [H1 H2]. apply digits_numeral; [|lia]. split; [exact H1|]. eapply Z.lt_le_trans; [exact H2|]. now apply Z.leb_le. Qed.
(** At most one numeral *)
Lemma numeral_value s : forall a b, (forall c, In c s -> 48 <= c <= 57) ->
  fold_left (fun a c => 10 * a + (c - 48)) s (a + b) = fold_left (fun a c => 10 * a + (c - 48)) s a + b * 10 ^ Z.of_nat (length s).
Proof.
  induction s as [|c s IH]; intros a b Hs; cbn [fold_left List.length]; [cbn; lia|].
  replace (10 * (a + b) + (c - 48)) with ((10 * a + (c - 48)) + 10 * b) by lia.
  rewrite IH by (intros d Hd; apply Hs; now right). rewrite Nat2Z.inj_succ, Z.pow_succ_r by lia. ring.
Qed.
Lemma numeral_bound s : (forall c, In c s -> 48 <= c <= 57) -> 0 <= fold_left (fun a c => 10 * a + (c - 48)) s 0 < 10 ^ Z.of_nat (length s).
Proof.
  induction s as [|c s IH]; intros Hs; cbn [fold_left List.length]; [cbn; lia|].
  replace (10 * 0 + (c - 48)) with (0 + (c - 48)) by lia.
  rewrite numeral_value by (intros d Hd; apply Hs; now right).
  specialize (IH (fun d Hd => Hs d (or_intror Hd))). pose proof (Hs c (or_introl eq_refl)) as Hc.
  rewrite Nat2Z.inj_succ, Z.pow_succ_r by lia. nia.
Qed.
Lemma numeral_lead c s : (forall d, In d (c :: s) -> 48 <= d <= 57) -> c <> 48 ->
  10 ^ Z.of_nat (length s) <= fold_left (fun a c => 10 * a + (c - 48)) (c :: s) 0.
Proof.
  intros Hs Hc. cbn [fold_left]. replace (10 * 0 + (c - 48)) with (0 + (c - 48)) by lia.
  rewrite numeral_value by (intros d Hd; apply Hs; now right).
  pose proof (numeral_bound s (fun d Hd => Hs d (or_intror Hd))). pose proof (Hs c (or_introl eq_refl)).
  pose proof (Z.pow_pos_nonneg 10 (Z.of_nat (length s)) ltac:(lia) ltac:(lia)). nia.
Qed.
Lemma numeral_same_length s : forall s', length s = length s' -> (forall c, In c s -> 48 <= c <= 57) -> (forall c, In c s' -> 48 <= c <= 57) ->
  fold_left (fun a c => 10 * a + (c - 48)) s 0 = fold_left (fun a c => 10 * a + (c - 48)) s' 0 -> s = s'.
Proof.
  induction s as [|c s IH]; intros [|c' s'] L Hs Hs' E; try discriminate L; [reflexivity|]. injection L as L.
  assert (Q : forall d r, (forall x, In x (d :: r) -> 48 <= x <= 57) ->
    fold_left (fun a c => 10 * a + (c - 48)) (d :: r) 0 = fold_left (fun a c => 10 * a + (c - 48)) r 0 + (d - 48) * 10 ^ Z.of_nat (length r)).
  { intros d r Hr. cbn [fold_left]. replace (10 * 0 + (d - 48)) with (0 + (d - 48)) by lia. apply numeral_value. intros x Hx. apply Hr. now right. }
  rewrite (Q c s Hs), (Q c' s' Hs') in E. rewrite <- L in E.
  pose proof (numeral_bound s (fun d Hd => Hs d (or_intror Hd))) as B. pose proof (numeral_bound s' (fun d Hd => Hs' d (or_intror Hd))) as B'.
  rewrite <- L in B'. set (P := 10 ^ Z.of_nat (length s)) in *.
  assert (c = c') by nia. subst c'. f_equal. apply IH; try assumption.
  - intros x Hx. apply Hs. now right.
  - intros x Hx. apply Hs'. now right.
  - lia.
Qed.
Lemma numeral_unique x s s' : numeral x s -> numeral x s' -> s = s'.
Proof.
  intros (N1 & N2 & N3 & N4) (M1 & M2 & M3 & M4).
  assert (K : forall a b, a <> [] -> (forall c, In c a -> 48 <= c <= 57) -> (hd 0 a = 48 -> a = [48]) ->
     b <> [] -> (forall c, In c b -> 48 <= c <= 57) -> (hd 0 b = 48 -> b = [48]) ->
     fold_left (fun a c => 10 * a + (c - 48)) a 0 = fold_left (fun a c => 10 * a + (c - 48)) b 0 -> (length a <= length b)%nat).
  { intros a b A1 A2 A3 B1 B2 B3 E. destruct a as [|c a]; [contradiction|].
    destruct (Z.eq_dec c 48) as [->|Hc]; [rewrite (A3 eq_refl); destruct b; [contradiction|cbn; lia]|].
    pose proof (numeral_lead c a A2 Hc) as L. pose proof (numeral_bound b B2) as U.
    destruct (Nat.le_gt_cases (length (c :: a)) (length b)) as [G|G]; [exact G|]. exfalso.
    assert (10 ^ Z.of_nat (length b) <= 10 ^ Z.of_nat (length a)) by (apply Z.pow_le_mono_r; cbn [List.length] in G; lia). lia. }
  apply numeral_same_length; try assumption; [|lia].
  apply Nat.le_antisymm; apply K; try assumption; lia.
Qed.

(** ** Loops that end normally *)
Lemma yields_for {S} (body : nat -> S -> res S) (P : nat -> S -> Prop) n : forall lo s,
  (forall i s, (lo <= i < lo + n)%nat -> P i s -> exists s', yields (body i s) s' /\ P (Datatypes.S i) s') -> P lo s ->
  exists s', yields (for_ n lo body s) s' /\ P (lo + n)%nat s'.
Proof.
  induction n as [|n IH]; intros lo s Hb Hs; cbn [for_].
  - exists s. split; [eexists; reflexivity|]. now rewrite Nat.add_0_r.
  - destruct (Hb lo s ltac:(lia) Hs) as (s1 & Y1 & P1).
    destruct (IH (Datatypes.S lo) s1 (fun i s' Hi => Hb i s' ltac:(lia)) P1) as (s2 & Y2 & P2).
    exists s2. split; [|replace (lo + Datatypes.S n)%nat with (Datatypes.S lo + n)%nat by lia; exact P2].
    eapply yields_bind; [eexists; reflexivity|]. eapply yields_bind; [exact Y1|exact Y2].
Qed.

Section Measure.
Variable clk : nat -> Z.
Hypothesis clk_ok : forall i, counter (clk i).

Lemma u64_counter x : counter (u64 x).
Proof. unfold counter, u64, wrapu. apply Z.mod_pos_bound. lia. Qed.

(** ** cpucycles_overhead *)
Lemma overhead_yields rounds p : exists o, yields (cpucycles_overhead clk rounds p) (o, (p + 2 * rounds)%nat) /\ least_difference clk rounds p o /\ counter o.
Proof.
  unfold cpucycles_overhead.
  match goal with |- context [for_ rounds 0 ?b ?s0] =>
    destruct (yields_for b (fun i st => snd st = (p + 2 * i)%nat /\ counter (fst st) /\
      (forall j, (j < i)%nat -> fst st <= difference clk p j) /\
      (fst st = 2 ^ 64 - 1 \/ exists j, (j < i)%nat /\ fst st = difference clk p j)) rounds 0 s0) as ([o p'] & Y & E & HC & HL & HA) end.
  - intros i [o p'] Hi (E & HC & HL & HA). cbn [fst snd] in *. subst p'.
    assert (ED : u64 (clk (Datatypes.S (p + 2 * i)) - clk (p + 2 * i)%nat) = difference clk p i).
    { unfold difference, u64, wrapu. do 3 f_equal. f_equal. lia. }
    eexists. split; [eapply yields_bind; [eexists; reflexivity|apply yields_ret]|]. cbn [fst snd]. rewrite ED.
    split; [lia|]. assert (HD : counter (difference clk p i)) by (rewrite <- ED; apply u64_counter).
    destruct (Z.ltb_spec (difference clk p i) o) as [L|L].
    + split; [exact HD|]. split.
      * intros j Hj. destruct (Nat.eq_dec j i) as [->|N]; [lia|]. specialize (HL j ltac:(lia)). lia.
      * right. exists i. split; [lia|reflexivity].
    + split; [exact HC|]. split.
      * intros j Hj. destruct (Nat.eq_dec j i) as [->|N]; [lia|]. apply HL. lia.
      * destruct HA as [HA|(j & Hj & HA)]; [now left|right; exists j; split; [lia|exact HA]].
  - cbn [fst snd]. split; [lia|]. split; [unfold counter; lia|]. split; [lia|now left].
  - cbn [fst snd] in *. subst p'. exists o. split; [exact Y|]. split; [|exact HC].
    split; [unfold counter in HC; lia|]. split; [exact HL|exact HA].
Qed.

(** ** Sums *)
Definition total (l : list Z) : Z := fold_right Z.add 0 l.
Lemma total_app a b : total (a ++ b) = total a + total b.
Proof. unfold total. induction a as [|x a IH]; cbn [app fold_right]; lia. Qed.
Lemma total_perm l l' : Permutation l l' -> total l = total l'.
Proof. unfold total. induction 1; cbn [fold_right]; lia. Qed.
Lemma nth_firstn_lt (l : list Z) i n d : (i < n)%nat -> nth i (firstn n l) d = nth i l d.
Proof.
  revert i n. induction l as [|x l IH]; intros i n Hi; [now rewrite firstn_nil|].
  destruct n as [|n]; [lia|]. destruct i as [|i]; [reflexivity|]. cbn [firstn nth]. apply IH. lia.
Qed.
Lemma firstn_snoc (l : list Z) n : (n < length l)%nat -> firstn (S n) l = firstn n l ++ [nth n l 0].
Proof.
  revert n. induction l as [|x l IH]; intros n Hn; cbn [List.length] in Hn; [lia|]. destruct n as [|n]; [reflexivity|].
  change (firstn (S (S n)) (x :: l)) with (x :: firstn (S n) l). cbn [nth]. rewrite IH by lia. reflexivity.
Qed.
Lemma average_yields t n : (0 < n)%nat -> (n <= length t)%nat ->
  yields (average t n) ((total (firstn n t)) mod 2 ^ 64 / Z.of_nat n).
Proof.
  intros Hn Ht. unfold average.
  match goal with |- context [for_ n 0 ?b ?s0] =>
    destruct (yields_for b (fun i acc => acc = total (firstn i t) mod 2 ^ 64) n 0 s0) as (acc & Y & ->) end.
  - intros i acc Hi ->. eexists. split; [eapply yields_bind; [apply yields_aget; lia|apply yields_ret]|].
    rewrite firstn_snoc by lia. rewrite total_app. unfold u64, wrapu. cbn [total fold_right]. rewrite Z.add_0_r. now rewrite Zplus_mod_idemp_l.
  - reflexivity.
  - eapply yields_bind; [exact Y|]. unfold udiv. destruct (Z.eqb_spec (Z.of_nat n) 0) as [E|_]; [lia|].
    eapply yields_bind; [eexists; reflexivity|]. eexists. reflexivity.
Qed.

Lemma gaps_length t o : length (gaps t o) = (length t - 1)%nat.
Proof. unfold gaps. now rewrite map_length, seq_length. Qed.
Lemma gaps_nth t o i : (i < length t - 1)%nat -> nth i (gaps t o) 0 = (nth (S i) t 0 - nth i t 0 - o) mod 2 ^ 64.
Proof.
  intros Hi. unfold gaps. rewrite (nth_indep _ 0 ((fun i => (nth (S i) t 0 - nth i t 0 - o) mod 2 ^ 64) 0%nat)) by now rewrite map_length, seq_length.
  rewrite (map_nth (fun i => (nth (S i) t 0 - nth i t 0 - o) mod 2 ^ 64)), seq_nth by lia. reflexivity.
Qed.
Lemma gaps_counter t o x : In x (gaps t o) -> counter x.
Proof. unfold gaps. intros Hx. apply in_map_iff in Hx. destruct Hx as (i & <- & _). unfold counter. apply Z.mod_pos_bound. lia. Qed.
Lemma seq_total_gaps t o n : total (map (fun i => (nth (S i) t 0 - nth i t 0 - o) mod 2 ^ 64) (seq 0 n)) mod 2 ^ 64 =
  (nth n t 0 - nth 0 t 0 - Z.of_nat n * o) mod 2 ^ 64.
Proof.
  induction n as [|n IH].
  - cbn [seq map total fold_right]. f_equal. lia.
  - rewrite seq_S, map_app, total_app. cbn [map total fold_right plus]. rewrite Z.add_0_r, <- Zplus_mod_idemp_l, IH, <- Zplus_mod.
    f_equal. rewrite Nat2Z.inj_succ. lia.
Qed.
Lemma last_nth (t : list Z) : last t 0 = nth (length t - 1) t 0.
Proof.
  induction t as [|x [|y t] IH]; [reflexivity|reflexivity|]. change (last (x :: y :: t) 0) with (last (y :: t) 0). rewrite IH.
  cbn [List.length]. now rewrite !Nat.sub_succ, !Nat.sub_0_r.
Qed.
Lemma gaps_total t o : total (gaps t o) mod 2 ^ 64 / Z.of_nat (length t - 1) = printed_average t o.
Proof.
  unfold printed_average, gaps. cbv zeta. rewrite seq_total_gaps, last_nth. do 2 f_equal.
  assert (E : hd 0 t = nth 0 t 0) by now destruct t. rewrite E. reflexivity.
Qed.

(** ** print_results *)
Variable qsort : (Z -> Z -> Z) -> list Z -> list Z.
Hypothesis qsort_ok : sorts qsort.

Lemma median_yields l r : (0 < length l)%nat -> (forall x, In x l -> counter x) ->
  exists m s, yields (median qsort (l ++ r) (length l)) (m, s ++ r) /\ printed_median l m /\ counter m /\ Permutation l s.
Proof.
  intros Hl Hc. unfold median. destruct (qsort_ok cmp_uint64 l cmp_consistent) as [HP HS].
  apply (sorted_mono _ Z.le) in HS; [|intros x y; apply cmp_le].
  set (s := qsort cmp_uint64 l) in *. assert (Ls : length s = length l) by (symmetry; now apply Permutation_length).
  assert (Hs : forall i, (i < length l)%nat -> counter (nth i s 0)).
  { intros i Hi. apply Hc. apply (Permutation_in _ (Permutation_sym HP)). apply nth_In. lia. }
  assert (R : forall i, (i < length l)%nat -> of_rank l i (nth i s 0)).
  { intros i Hi. apply (rank_perm l s); [exact HP|]. apply sorted_rank; [exact HS|lia]. }
  destruct (Nat.leb_spec (length l) (length (l ++ r))) as [_|X]; [|rewrite app_length in X; lia].
  rewrite firstn_app, firstn_all, Nat.sub_diag, firstn_O, app_nil_r, skipn_app, skipn_all, Nat.sub_diag, skipn_O. cbn [app]. fold s.
  assert (D2 : (length l / 2 < length l)%nat) by (apply Nat.div_lt; lia).
  assert (D1 : ((length l - 1) / 2 < length l)%nat) by (apply Nat.div_lt_upper_bound; lia).
  pose proof (Nat.div_mod (length l) 2 ltac:(lia)) as DM.
  pose proof (Nat.mod_upper_bound (length l) 2 ltac:(lia)) as MB.
  destruct (Nat.even (length l)) eqn:EV; cbn [negb].
  - pose proof EV as EV'. apply Nat.even_spec in EV'. destruct EV' as [h Eh].
    assert (E2 : (length l / 2 = h)%nat) by (rewrite Eh, Nat.mul_comm; apply Nat.div_mul; lia).
    assert (E1 : ((length l - 1) / 2 = h - 1)%nat).
    { symmetry. apply (Nat.div_unique (length l - 1) 2 (h - 1) 1); lia. }
    exists ((nth (h - 1) s 0 + nth h s 0) mod 2 ^ 64 / 2), s. split; [|split; [|split]].
    + eapply yields_bind; [eexists; reflexivity|]. cbv iota. eapply yields_bind.
      { destruct (Nat.eqb_spec (length l) 0) as [X|_]; [lia|]. apply yields_aget. rewrite app_length. lia. }
      eapply yields_bind; [apply yields_aget; rewrite app_length; lia|].
      rewrite E2, !app_nth1 by lia. eexists. reflexivity.
    + exists (nth (h - 1) s 0), (nth h s 0). rewrite E1, E2. split; [apply R; lia|]. split; [apply R; lia|].
      rewrite <- Nat.negb_even, EV. reflexivity.
    + pose proof (Z.mod_pos_bound (nth (h - 1) s 0 + nth h s 0) (2 ^ 64) ltac:(lia)) as B. split.
      * apply Z.div_pos; lia.
      * apply Z.div_lt_upper_bound; lia.
    + exact HP.
  - exists (nth (length l / 2) s 0), s. split; [|split; [|split]].
    + eapply yields_bind; [eexists; reflexivity|]. cbv iota. eapply yields_bind; [apply yields_aget; rewrite app_length; lia|].
      rewrite app_nth1 by lia. apply yields_ret.
    + exists (nth ((length l - 1) / 2) s 0), (nth (length l / 2) s 0). split; [now apply R|]. split; [now apply R|].
      rewrite <- Nat.negb_even, EV. reflexivity.
    + now apply Hs.
    + exact HP.
Qed.

Lemma str_text s : str s = text s.
Proof. unfold str, text. apply map_ext. intros c. unfold nat_of_ascii. lia. Qed.

Lemma print_results_short rounds s t tlen o p : (tlen < 2)%nat -> yields (print_results clk qsort rounds s t tlen o p) (t, o, p, []).
Proof.
  intros Ht. unfold print_results. destruct (Nat.ltb_spec tlen 2) as [_|X]; [|lia]. eexists. reflexivity.
Qed.

Lemma printed_average_counter t o : counter (printed_average t o).
Proof.
  unfold printed_average. cbv zeta. set (a := (last t 0 - hd 0 t - Z.of_nat (length t - 1) * o) mod 2 ^ 64).
  assert (B : 0 <= a < 2 ^ 64) by (apply Z.mod_pos_bound; lia). clearbody a.
  destruct (Z.eq_dec (Z.of_nat (length t - 1)) 0) as [->|N]; [rewrite Zdiv_0_r; unfold counter; lia|].
  split; [apply Z.div_pos; lia|]. apply Z.div_lt_upper_bound; [lia|]. nia.
Qed.

Lemma print_results_yields rounds s t rest o p : (2 <= length t)%nat -> counter o ->
  exists t' o' p' out, yields (print_results clk qsort rounds s (t ++ rest) (length t) o p) (t' ++ rest, o', p', out) /\
    length t' = length t /\ counter o' /\ overhead_after clk rounds o p o' p' /\ report s t o' out.
Proof.
  intros Ht Ho. unfold print_results. destruct (Nat.ltb_spec (length t) 2) as [X|_]; [lia|].
  assert (HO : exists o' p', yields (if o =? 2 ^ 64 - 1 then cpucycles_overhead clk rounds p else ret (o, p)) (o', p') /\
    counter o' /\ overhead_after clk rounds o p o' p').
  { destruct (Z.eqb_spec o (2 ^ 64 - 1)) as [E|E].
    - destruct (overhead_yields rounds p) as (o' & Y & L & C). exists o', (p + 2 * rounds)%nat. split; [exact Y|]. split; [exact C|]. now left.
    - exists o, p. split; [apply yields_ret|]. split; [exact Ho|]. now right. }
  destruct HO as (o' & p' & YO & CO & AO).
  set (n := (length t - 1)%nat).
  assert (HG : exists t1, yields (for_ n 0 (fun i t => bind (aget t (i + 1)) (fun b => bind (aget t i) (fun a => aset t i (u64 (u64 (b - a) - o'))))) (t ++ rest)) t1 /\
    length t1 = length (t ++ rest) /\ (forall j, (j < n)%nat -> nth j t1 0 = nth j (gaps t o') 0) /\ (forall j, (n <= j)%nat -> nth j t1 0 = nth j (t ++ rest) 0)).
  { match goal with |- exists t1, yields (for_ n 0 ?b ?s0) t1 /\ _ =>
      destruct (yields_for b (fun i t1 => length t1 = length (t ++ rest) /\ (forall j, (j < i)%nat -> nth j t1 0 = nth j (gaps t o') 0) /\
        (forall j, (i <= j)%nat -> nth j t1 0 = nth j (t ++ rest) 0)) n 0 s0) as (t1 & Y & L & H1 & H2) end.
    - intros i t1 Hi (L & H1 & H2). assert (Li : (i + 1 < length t1)%nat) by (rewrite L, app_length; lia).
      eexists. split.
      { eapply yields_bind; [apply yields_aget; exact Li|]. eapply yields_bind; [apply yields_aget; lia|]. apply yields_aset. lia. }
      split; [now rewrite upd_length|]. split; intros j Hj.
      + destruct (Nat.eq_dec j i) as [->|N].
        * rewrite nth_upd_eq by lia. rewrite !H2 by lia. rewrite !app_nth1 by lia. rewrite gaps_nth by lia.
          unfold u64, wrapu. rewrite Zminus_mod_idemp_l. do 3 f_equal. f_equal. lia.
        * rewrite nth_upd_neq by lia. apply H1. lia.
      + rewrite nth_upd_neq by lia. apply H2. lia.
    - split; [reflexivity|]. split; [lia|]. reflexivity.
    - exists t1. auto. }
  destruct HG as (t1 & YG & L1 & H1 & H2).
  assert (E1 : t1 = gaps t o' ++ nth n t 0 :: rest).
  { apply (nth_ext _ _ 0 0).
    - rewrite L1, !app_length, gaps_length. cbn [List.length]. lia.
    - intros j Hj. rewrite L1, app_length in Hj. destruct (Nat.lt_ge_cases j n) as [Lj|Lj].
      + rewrite H1, app_nth1 by (rewrite ?gaps_length; lia). reflexivity.
      + rewrite H2 by lia. rewrite (app_nth2 (gaps t o')) by (rewrite gaps_length; lia). rewrite gaps_length. fold n.
        destruct (Nat.eq_dec j n) as [->|N].
        * rewrite Nat.sub_diag, app_nth1 by lia. reflexivity.
        * rewrite app_nth2 by lia. destruct (j - n)%nat as [|d] eqn:D; [lia|]. cbn [nth]. f_equal. lia. }
  destruct (median_yields (gaps t o') (nth n t 0 :: rest)) as (m & s' & YM & PM & CM & HP).
  { rewrite gaps_length. lia. }
  { intros x. apply gaps_counter. }
  assert (Ls : length s' = n) by (rewrite <- (Permutation_length HP), gaps_length; reflexivity).
  rewrite gaps_length in YM. fold n in YM.
  assert (YA : yields (average (s' ++ nth n t 0 :: rest) n) (printed_average t o')).
  { rewrite <- gaps_total, (total_perm _ _ HP). pose proof (average_yields (s' ++ nth n t 0 :: rest) n ltac:(lia)) as Y.
    rewrite app_length in Y. specialize (Y ltac:(lia)).
    rewrite firstn_app, Ls, Nat.sub_diag, firstn_O, app_nil_r in Y.
    replace (firstn n s') with s' in Y by (rewrite <- Ls; symmetry; apply firstn_all). exact Y. }
  exists (s' ++ [nth n t 0]), o', p'. eexists. split; [|split; [|split; [|split]]].
  - eapply yields_bind; [eexists; reflexivity|]. cbv iota. eapply yields_bind; [eexists; reflexivity|].
    eapply yields_bind; [exact YO|]. cbv beta iota zeta. fold n. eapply yields_bind; [exact YG|]. rewrite E1.
    eapply yields_bind; [exact YM|]. cbv beta iota. eapply yields_bind; [exact YA|].
    replace ((s' ++ [nth n t 0]) ++ rest) with (s' ++ nth n t 0 :: rest) by (now rewrite <- app_assoc). apply yields_ret.
  - rewrite app_length, Ls. cbn [List.length]. lia.
  - exact CO.
  - exact AO.
  - exists m, (print_llu m), (print_llu (printed_average t o')). split; [exact PM|]. split; [now apply llu_numeral|].
    split; [apply llu_numeral, printed_average_counter|]. rewrite !str_text. reflexivity.
Qed.
End Measure.

(** A report is determined by the readings *)
Lemma median_unique l m m' : printed_median l m -> printed_median l m' -> m = m'.
Proof.
  intros (lo & hi & H1 & H2 & ->) (lo' & hi' & H1' & H2' & ->).
  now rewrite (rank_unique _ _ _ _ H1 H1'), (rank_unique _ _ _ _ H2 H2').
Qed.
Lemma report_unique s t o out out' : report s t o out -> report s t o out' -> out = out'.
Proof.
  intros (m & sm & sa & H1 & H2 & H3 & ->) (m' & sm' & sa' & H1' & H2' & H3' & ->).
  rewrite <- (median_unique _ _ _ H1 H1') in H2'. now rewrite (numeral_unique _ _ _ H2 H2'), (numeral_unique _ _ _ H3 H3').
Qed.
Lemma least_unique clk rounds p o o' : least_difference clk rounds p o -> least_difference clk rounds p o' -> o = o'.
Proof.
  intros (A1 & A2 & A3) (B1 & B2 & B3). apply Z.le_antisymm.
  - destruct B3 as [->|(i & Hi & ->)]; [exact A1|now apply A2].
  - destruct A3 as [->|(i & Hi & ->)]; [exact B1|now apply B2].
Qed.
Lemma reports_unique clk n rounds labels : forall o p out out', reports clk n rounds labels o p out -> reports clk n rounds labels o p out' -> out = out'.
Proof.
  induction labels as [|l labels IH]; intros o p out out' H1 H2; inversion H1; inversion H2; subst; [reflexivity|].
  assert (E : o' = o'0 /\ p' = p'0).
  { match goal with A : overhead_after _ _ _ _ o' _, B : overhead_after _ _ _ _ o'0 _ |- _ =>
      destruct A as [(-> & A & ->)|(N & -> & ->)], B as [(E & B & ->)|(N' & -> & ->)]; try contradiction; split; try reflexivity;
      exact (least_unique _ _ _ _ _ A B) end. }
  destruct E as [<- <-]. f_equal; [eapply report_unique; eassumption|eapply IH; eassumption].
Qed.
