(** * Proof rules for the C monad.

    [wp m T Q]: [m] ends normally (no undefined behaviour, no timeout), leaks
    exactly the trace [T], and its value satisfies [Q]. *)
From Coq Require Import ZArith List Lia Bool.
From Verif Require Import CMonad.
Import ListNotations.
Open Scope Z_scope.

Definition wp {A} (m : res A) (T : trace) (Q : A -> Prop) : Prop :=
  exists v, m = Ok v T /\ Q v.

Lemma wp_ok {A} (m : res A) v T : m = Ok v T -> wp m T (fun x => x = v).
Proof. intros ->. exists v. auto. Qed.

Lemma wp_conseq {A} (m : res A) T (P Q : A -> Prop) :
  wp m T P -> (forall v, P v -> Q v) -> wp m T Q.
Proof. intros (v & E & H) HPQ. exists v; auto. Qed.

Lemma wp_eq {A} (m : res A) T v : wp m T (fun x => x = v) -> m = Ok v T.
Proof. intros (x & -> & ->). reflexivity. Qed.

Lemma wp_ret {A} (v : A) (Q : A -> Prop) : Q v -> wp (ret v) [] Q.
Proof. intros. exists v; auto. Qed.

Lemma wp_bind {A B} (m : res A) (f : A -> res B) T1 T2 Q :
  wp m T1 (fun v => wp (f v) T2 Q) -> wp (bind m f) (T1 ++ T2) Q.
Proof.
  intros (v & -> & w & E & HQ). exists w. split; auto.
  unfold bind. rewrite E. reflexivity.
Qed.

Lemma wp_emit e (Q : unit -> Prop) : Q tt -> wp (emit e) [e] Q.
Proof. intros; exists tt; auto. Qed.

Lemma wp_test b (Q : bool -> Prop) : Q b -> wp (test b) [EvBranch b] Q.
Proof. intros; exists b; auto. Qed.

Lemma wp_chk x (Q : Z -> Prop) :
  - 2 ^ 31 <= x < 2 ^ 31 -> Q x -> wp (chk_int x) [] Q.
Proof.
  intros Hr HQ. exists x. split; auto. unfold chk_int.
  destruct (Z.leb_spec (- 2 ^ 31) x); destruct (Z.ltb_spec x (2 ^ 31)); try lia.
  reflexivity.
Qed.

Lemma wp_shr w a n (Q : Z -> Prop) :
  0 <= n < w -> Q (Z.shiftr a n) -> wp (shr w a n) [] Q.
Proof.
  intros Hr HQ. exists (Z.shiftr a n). split; auto. unfold shr.
  destruct (Z.leb_spec 0 n); destruct (Z.ltb_spec n w); try lia. reflexivity.
Qed.

Lemma wp_ushl w a n (Q : Z -> Prop) :
  0 <= n < w -> Q (wrapu w (Z.shiftl a n)) -> wp (ushl w a n) [] Q.
Proof.
  intros Hr HQ. eexists. split; [|exact HQ]. unfold ushl.
  destruct (Z.leb_spec 0 n); destruct (Z.ltb_spec n w); try lia. reflexivity.
Qed.

Lemma wp_ishl a n (Q : Z -> Prop) :
  0 <= a -> 0 <= n < 32 -> a * 2 ^ n < 2 ^ 31 -> Q (a * 2 ^ n) -> wp (ishl a n) [] Q.
Proof.
  intros Ha Hn Hr HQ. eexists. split; [|exact HQ]. unfold ishl.
  destruct (Z.leb_spec 0 a); destruct (Z.leb_spec 0 n); destruct (Z.ltb_spec n 32);
    destruct (Z.ltb_spec (a * 2 ^ n) (2 ^ 31)); try lia. reflexivity.
Qed.

Lemma nth_error_nth_some {A} (l : list A) i d :
  (i < length l)%nat -> nth_error l i = Some (nth i l d).
Proof.
  revert i; induction l; intros [|i] H; simpl in *; try lia; auto.
  apply IHl; lia.
Qed.

Lemma wp_aget {A} (d : A) (l : list A) i (Q : A -> Prop) :
  (i < length l)%nat -> Q (nth i l d) -> wp (aget l i) [EvIndex i] Q.
Proof.
  intros H HQ. eexists. split; [|exact HQ].
  unfold aget. rewrite (nth_error_nth_some _ _ d) by auto. reflexivity.
Qed.

Lemma wp_aset {A} (l : list A) i v (Q : list A -> Prop) :
  (i < length l)%nat -> Q (upd l i v) -> wp (aset l i v) [EvIndex i] Q.
Proof.
  intros H HQ. eexists. split; [|exact HQ]. unfold aset.
  destruct (Nat.ltb_spec i (length l)); try lia. reflexivity.
Qed.

Fixpoint for_trace (tb : nat -> trace) (lo n : nat) : trace :=
  match n with
  | O => [EvBranch false]
  | S n' => EvBranch true :: tb lo ++ for_trace tb (S lo) n'
  end.

Lemma wp_for {St} (tb : nat -> trace) (I : nat -> St -> Prop) n lo body (s : St) (Q : St -> Prop) :
  I lo s ->
  (forall i s, (lo <= i < lo + n)%nat -> I i s -> wp (body i s) (tb i) (I (S i))) ->
  (forall s, I (lo + n)%nat s -> Q s) ->
  wp (for_ n lo body s) (for_trace tb lo n) Q.
Proof.
  revert lo s; induction n; intros lo s H0 Hb HQ; cbn [for_ for_trace].
  - exists s. split; auto. apply HQ. now rewrite Nat.add_0_r.
  - destruct (Hb lo s) as (s1 & E & H1); [lia|auto|].
    destruct (IHn (S lo) s1) as (s2 & E2 & H2); auto.
    + intros i s' Hi; apply Hb; lia.
    + intros s' Hs'. apply HQ. now rewrite Nat.add_succ_r.
    + exists s2. split; auto. unfold emit, bind. rewrite E, E2. reflexivity.
Qed.

(** Loops with fuel whose number of iterations is a function of public data:
    [n] iterations, [tc]/[tb] the traces of the test and of the body. *)
Fixpoint while_trace (tc tb : nat -> trace) (i n : nat) : trace :=
  match n with
  | O => tc i ++ []
  | S n' => tc i ++ tb i ++ while_trace tc tb (S i) n'
  end.

Lemma wp_while {St} (tc tb : nat -> trace) (I : nat -> St -> Prop) n i0 fuel cond body
      (s : St) (Q : St -> Prop) :
  (n < fuel)%nat ->
  I i0 s ->
  (forall i s, (i0 <= i < i0 + n)%nat -> I i s -> wp (cond s) (tc i) (fun b => b = true)) ->
  (forall i s, (i0 <= i < i0 + n)%nat -> I i s -> wp (body s) (tb i) (I (S i))) ->
  (forall s, I (i0 + n)%nat s -> wp (cond s) (tc (i0 + n)%nat) (fun b => b = false)) ->
  (forall s, I (i0 + n)%nat s -> Q s) ->
  wp (while_ fuel cond body s) (while_trace tc tb i0 n) Q.
Proof.
  revert i0 s fuel; induction n; intros i0 s fuel Hf H0 Hc Hb He HQ;
    destruct fuel as [|fuel]; try lia; cbn [while_ while_trace].
  - rewrite Nat.add_0_r in *.
    destruct (He s H0) as (b & E & ->).
    exists s. split; auto. rewrite E. reflexivity.
  - destruct (Hc i0 s) as (b & E & ->); [lia|auto|].
    destruct (Hb i0 s) as (s1 & E1 & H1); [lia|auto|].
    destruct (IHn (S i0) s1 fuel) as (s2 & E2 & H2); auto; try lia.
    + intros i s' Hi; apply Hc; lia.
    + intros i s' Hi; apply Hb; lia.
    + intros s' Hs'. replace (S i0 + n)%nat with (i0 + S n)%nat in * by lia. auto.
    + intros s' Hs'. apply HQ. now replace (i0 + S n)%nat with (S i0 + n)%nat by lia.
    + exists s2. split; auto. unfold bind. rewrite E, E1, E2. reflexivity.
Qed.

Lemma wp_val {A} (m : res A) T Q : wp m T Q -> exists v, value m = Some v /\ Q v.
Proof. intros (v & -> & H). exists v; auto. Qed.

(** ** Lists and [upd] *)
Lemma upd_length {A} (l : list A) i v : length (upd l i v) = length l.
Proof. revert i; induction l; intros [|i]; simpl; auto. Qed.

Lemma nth_upd {A} (l : list A) i j v d :
  nth j (upd l i v) d = if ((j =? i) && (i <? length l))%nat then v else nth j l d.
Proof.
  revert i j; induction l; intros i j.
  - simpl. replace (i <? 0)%nat with false by (symmetry; apply Nat.ltb_ge; lia).
    now rewrite andb_false_r.
  - destruct i, j; simpl; auto. rewrite IHl. reflexivity.
Qed.

Lemma nth_upd_eq {A} (l : list A) i v d :
  (i < length l)%nat -> nth i (upd l i v) d = v.
Proof.
  intros. rewrite nth_upd, Nat.eqb_refl. apply Nat.ltb_lt in H. now rewrite H.
Qed.

Lemma nth_upd_neq {A} (l : list A) i j v d :
  i <> j -> nth j (upd l i v) d = nth j l d.
Proof.
  intros. rewrite nth_upd. destruct (Nat.eqb_spec j i); subst; [congruence|]. reflexivity.
Qed.

Lemma list_eq_nth {A} (d : A) (l l' : list A) :
  length l = length l' ->
  (forall i, (i < length l)%nat -> nth i l d = nth i l' d) -> l = l'.
Proof.
  revert l'; induction l; intros [|b l'] Hl H; simpl in *; try lia; auto.
  f_equal. apply (H 0%nat); lia. apply IHl; [lia|].
  intros i Hi. apply (H (S i)); lia.
Qed.

(** Replacing a range of a list. *)
Definition splice {A} (l : list A) (o : nat) (new : list A) : list A :=
  firstn o l ++ new ++ skipn (o + length new) l.

Lemma splice_length {A} (l : list A) o new :
  (o + length new <= length l)%nat -> length (splice l o new) = length l.
Proof.
  intros. unfold splice. rewrite !app_length, firstn_length, skipn_length. lia.
Qed.

Lemma nth_firstn {A} (l : list A) n i d :
  nth i (firstn n l) d = if (i <? n)%nat then nth i l d else d.
Proof.
  revert n i; induction l; intros [|n] [|i]; simpl; auto.
  - now destruct (_ <? _)%nat.
  - rewrite IHl. reflexivity.
Qed.

Lemma nth_skipn {A} (l : list A) n i d : nth i (skipn n l) d = nth (n + i) l d.
Proof.
  revert n i; induction l; intros [|n] i; simpl; auto. now destruct i.
Qed.

Lemma nth_splice {A} (l : list A) o new i d :
  (o + length new <= length l)%nat ->
  nth i (splice l o new) d =
  if (i <? o)%nat then nth i l d
  else if (i <? o + length new)%nat then nth (i - o) new d else nth i l d.
Proof.
  intros H. unfold splice.
  destruct (Nat.ltb_spec i o).
  - rewrite app_nth1 by (rewrite firstn_length; lia).
    rewrite nth_firstn. destruct (Nat.ltb_spec i o); auto; lia.
  - rewrite app_nth2; rewrite firstn_length; try lia.
    replace (i - Nat.min o (length l))%nat with (i - o)%nat by lia.
    destruct (Nat.ltb_spec i (o + length new)).
    + rewrite app_nth1 by lia. reflexivity.
    + rewrite app_nth2 by lia. rewrite nth_skipn. f_equal. lia.
Qed.

Lemma splice_full {A} (l new : list A) :
  length new = length l -> splice l 0 new = new.
Proof.
  intros. unfold splice. simpl. rewrite skipn_all2 by lia. apply app_nil_r.
Qed.

(** ** Byte and coefficient ranges *)
Definition inb (lo hi : Z) (x : Z) : Prop := lo <= x <= hi.
Definition bnd (lo hi : Z) (l : list Z) : Prop :=
  forall i, (i < length l)%nat -> lo <= nth i l 0 <= hi.
Definition bytes (l : list Z) : Prop := bnd 0 255 l.

Lemma bnd_Forall lo hi l : bnd lo hi l <-> Forall (fun x => lo <= x <= hi) l.
Proof.
  unfold bnd. rewrite Forall_forall. split.
  - intros H x Hx. destruct (In_nth _ _ 0 Hx) as (i & Hi & <-). auto.
  - intros H i Hi. apply H. apply nth_In; auto.
Qed.

Lemma bnd_weaken lo hi lo' hi' l :
  bnd lo hi l -> lo' <= lo -> hi <= hi' -> bnd lo' hi' l.
Proof. intros H ? ? i Hi. specialize (H i Hi). lia. Qed.

Lemma bnd_app lo hi l l' : bnd lo hi l -> bnd lo hi l' -> bnd lo hi (l ++ l').
Proof. rewrite !bnd_Forall. intros. apply Forall_app; auto. Qed.

Lemma bnd_firstn lo hi n l : bnd lo hi l -> bnd lo hi (firstn n l).
Proof.
  rewrite !bnd_Forall, !Forall_forall. intros H x Hx. apply H.
  rewrite <- (firstn_skipn n l). apply in_or_app; auto.
Qed.

Lemma bnd_skipn lo hi n l : bnd lo hi l -> bnd lo hi (skipn n l).
Proof.
  rewrite !bnd_Forall, !Forall_forall. intros H x Hx. apply H.
  rewrite <- (firstn_skipn n l). apply in_or_app; auto.
Qed.

Lemma bnd_upd lo hi l i v : bnd lo hi l -> lo <= v <= hi -> bnd lo hi (upd l i v).
Proof.
  intros H Hv j Hj. rewrite upd_length in Hj. rewrite nth_upd.
  destruct (_ && _)%bool; auto.
Qed.

(** ** Wrapping *)
Lemma wrapu_range w x : 0 <= w -> 0 <= wrapu w x < 2 ^ w.
Proof. intros. unfold wrapu. apply Z.mod_pos_bound. apply Z.pow_pos_nonneg; lia. Qed.

Lemma wrapu_small w x : 0 <= x < 2 ^ w -> wrapu w x = x.
Proof. intros. unfold wrapu. apply Z.mod_small; auto. Qed.

Lemma wraps_small w x : 0 < w -> - 2 ^ (w - 1) <= x < 2 ^ (w - 1) -> wraps w x = x.
Proof.
  intros Hw Hx. unfold wraps.
  assert (2 ^ w = 2 * 2 ^ (w - 1)).
  { replace w with (Z.succ (w - 1)) at 1 by lia. rewrite Z.pow_succ_r by lia. lia. }
  rewrite Z.mod_small by lia. lia.
Qed.

Lemma wraps_range w x : 0 < w -> - 2 ^ (w - 1) <= wraps w x < 2 ^ (w - 1).
Proof.
  intros Hw. unfold wraps.
  assert (2 ^ w = 2 * 2 ^ (w - 1)).
  { replace w with (Z.succ (w - 1)) at 1 by lia. rewrite Z.pow_succ_r by lia. lia. }
  assert (0 < 2 ^ (w - 1)) by (apply Z.pow_pos_nonneg; lia).
  pose proof (Z.mod_pos_bound (x + 2 ^ (w - 1)) (2 ^ w)). lia.
Qed.

Lemma wraps_mod w x : 0 < w -> exists k, wraps w x = x + k * 2 ^ w.
Proof.
  intros Hw. unfold wraps. exists (- ((x + 2 ^ (w - 1)) / 2 ^ w)).
  pose proof (Z.div_mod (x + 2 ^ (w - 1)) (2 ^ w)).
  assert (0 < 2 ^ w) by (apply Z.pow_pos_nonneg; lia). lia.
Qed.

Lemma i16_small x : -32768 <= x <= 32767 -> i16 x = x.
Proof. intros. apply wraps_small; simpl; lia. Qed.
Lemma i16_range x : -32768 <= i16 x <= 32767.
Proof. pose proof (wraps_range 16 x). unfold i16. simpl in *. lia. Qed.
Lemma u8_small x : 0 <= x <= 255 -> u8 x = x.
Proof. intros. apply wrapu_small; simpl; lia. Qed.
Lemma u8_range x : 0 <= u8 x <= 255.
Proof. pose proof (wrapu_range 8 x). unfold u8. simpl in *. lia. Qed.
Lemma u16_small x : 0 <= x <= 65535 -> u16 x = x.
Proof. intros. apply wrapu_small; simpl; lia. Qed.
Lemma u32_small x : 0 <= x < 2 ^ 32 -> u32 x = x.
Proof. intros. apply wrapu_small; simpl; lia. Qed.
Lemma u64_small x : 0 <= x < 2 ^ 64 -> u64 x = x.
Proof. intros. apply wrapu_small; simpl; lia. Qed.

(** ** Tactics *)
Ltac wstep :=
  match goal with
  | |- wp (bind _ _) _ _ => eapply wp_bind
  | |- wp (ret _) _ _ => eapply wp_ret
  | |- wp (chk_int _) _ _ => eapply wp_chk
  | |- wp (iadd _ _) _ _ => unfold iadd; eapply wp_chk
  | |- wp (isub _ _) _ _ => unfold isub; eapply wp_chk
  | |- wp (imul _ _) _ _ => unfold imul; eapply wp_chk
  | |- wp (shr _ _ _) _ _ => eapply wp_shr
  | |- wp (ushl _ _ _) _ _ => eapply wp_ushl
  | |- wp (ishl _ _) _ _ => eapply wp_ishl
  | |- wp (@aget Z _ _) _ _ => eapply (wp_aget 0)
  | |- wp (@aget (list Z) _ _) _ _ => eapply (wp_aget (@nil Z))
  | |- wp (@aget (list (list Z)) _ _) _ _ => eapply (wp_aget (@nil (list Z)))
  | |- wp (aset _ _ _) _ _ => eapply wp_aset
  | |- wp (test _) _ _ => eapply wp_test
  | |- wp (emit _) _ _ => eapply wp_emit
  end.
