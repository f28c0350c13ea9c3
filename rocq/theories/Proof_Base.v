(** * Shared proof infrastructure: sequential writes, pointwise loops, memcpy *)
From Coq Require Import ZArith List Lia Bool.
From Verif Require Import CMonad WP.
Import ListNotations.
Open Scope Z_scope.

(** [traced P]: one leakage trace that works for all inputs quantified in [P]. *)
Notation traced P := {T : trace | P T} (only parsing).

(** ** Lists given by an index function *)
Definition mk {A} (n : nat) (f : nat -> A) : list A := map f (seq 0 n).

Lemma mk_length {A} n (f : nat -> A) : length (mk n f) = n.
Proof. unfold mk. now rewrite map_length, seq_length. Qed.

Lemma nth_mk {A} n (f : nat -> A) i d : (i < n)%nat -> nth i (mk n f) d = f i.
Proof.
  intros. unfold mk. rewrite nth_indep with (d' := f 0%nat) by (rewrite map_length, seq_length; lia).
  rewrite map_nth. rewrite seq_nth by lia. f_equal.
Qed.

Lemma mk_S {A} n (f : nat -> A) : mk (S n) f = mk n f ++ [f n].
Proof. unfold mk. rewrite seq_S, map_app. reflexivity. Qed.

Lemma mk_ext {A} n (f g : nat -> A) : (forall i, (i < n)%nat -> f i = g i) -> mk n f = mk n g.
Proof. intros H. unfold mk. apply map_ext_in. intros i Hi. apply in_seq in Hi. apply H. lia. Qed.

Lemma mk_nth {A} (d : A) (l : list A) : mk (length l) (fun i => nth i l d) = l.
Proof.
  apply (list_eq_nth d). now rewrite mk_length.
  intros i Hi. rewrite mk_length in Hi. now rewrite nth_mk.
Qed.

Lemma map_mk {A B} (g : A -> B) n f : map g (mk n f) = mk n (fun i => g (f i)).
Proof. unfold mk. now rewrite map_map. Qed.

Lemma mk_add {A} m n (f : nat -> A) : mk (m + n) f = mk m f ++ mk n (fun i => f (m + i)%nat).
Proof.
  unfold mk. rewrite seq_app, map_app. f_equal. simpl.
  rewrite <- (Nat.add_0_r m) at 1. generalize 0%nat. revert m.
  induction n; intros m a; simpl; auto.
  f_equal. rewrite <- IHn. now rewrite Nat.add_succ_r.
Qed.

Lemma firstn_mk {A} m n (f : nat -> A) : (m <= n)%nat -> firstn m (mk n f) = mk m f.
Proof.
  intros. replace n with (m + (n - m))%nat by lia. rewrite mk_add, firstn_app, mk_length.
  replace (m - m)%nat with 0%nat by lia. simpl. rewrite app_nil_r.
  rewrite <- (mk_length m f) at 1. apply firstn_all.
Qed.

Lemma skipn_mk {A} m n (f : nat -> A) :
  (m <= n)%nat -> skipn m (mk n f) = mk (n - m) (fun i => f (m + i)%nat).
Proof.
  intros. replace n with (m + (n - m))%nat at 1 by lia. rewrite mk_add, skipn_app, mk_length.
  replace (m - m)%nat with 0%nat by lia. simpl.
  rewrite skipn_all2 by (rewrite mk_length; lia). reflexivity.
Qed.

Lemma skipn_skipn {A} a b (l : list A) : skipn a (skipn b l) = skipn (b + a) l.
Proof. revert b; induction l; intros [|b]; simpl; auto; try now rewrite !skipn_nil. Qed.

(** ** Splices *)
Lemma splice_nil {A} (l : list A) o : splice l o [] = l.
Proof. unfold splice. simpl. rewrite Nat.add_0_r. apply firstn_skipn. Qed.

Lemma splice_snoc {A} (l : list A) o new v i :
  i = (o + length new)%nat -> (i < length l)%nat ->
  upd (splice l o new) i v = splice l o (new ++ [v]).
Proof.
  intros -> H. apply (list_eq_nth v).
  - rewrite upd_length, !splice_length; rewrite ?app_length; simpl; lia.
  - intros j Hj. rewrite upd_length, splice_length in Hj by lia.
    rewrite nth_upd, !nth_splice, splice_length by (rewrite ?app_length; simpl; lia).
    rewrite app_length. simpl.
    destruct (Nat.eqb_spec j (o + length new)) as [->|];
      destruct (Nat.ltb_spec (o + length new) (length l)); try lia; simpl;
      repeat match goal with |- context [(?a <? ?b)%nat] => destruct (Nat.ltb_spec a b) end;
      try lia; auto.
    + rewrite app_nth2 by lia. replace (_ - _)%nat with 0%nat by lia. reflexivity.
    + rewrite app_nth1 by lia. reflexivity.
Qed.

Lemma splice_splice_next {A} (l : list A) o a b i :
  i = (o + length a)%nat -> (i + length b <= length l)%nat ->
  splice (splice l o a) i b = splice l o (a ++ b).
Proof.
  intros -> H.
  destruct b as [|d b']; [now rewrite splice_nil, app_nil_r|].
  set (b := d :: b') in *. clearbody b.
  apply (list_eq_nth d).
  - rewrite !splice_length; rewrite ?app_length, ?splice_length; lia.
  - intros j Hj. rewrite !splice_length in Hj by (rewrite ?splice_length; lia).
    rewrite !nth_splice; rewrite ?app_length, ?splice_length; try lia.
    repeat match goal with |- context [(?a <? ?b)%nat] => destruct (Nat.ltb_spec a b) end;
      try lia; auto.
    + rewrite app_nth1 by lia. reflexivity.
    + rewrite app_nth2 by lia. f_equal. lia.
Qed.

Lemma splice_self {A} (l : list A) o n :
  splice l o (firstn n (skipn o l)) = l.
Proof.
  unfold splice. rewrite firstn_length, skipn_length.
  assert (E : skipn (o + Nat.min n (length l - o)) l = skipn n (skipn o l)).
  { rewrite skipn_skipn. destruct (Nat.leb_spec (o + n) (length l)).
    - f_equal. lia.
    - rewrite !skipn_all2; auto; lia. }
  rewrite E, firstn_skipn. apply firstn_skipn.
Qed.

Lemma splice_same_len {A} (l : list A) o new1 new2 :
  length new1 = length new2 -> (o + length new1 <= length l)%nat ->
  splice (splice l o new1) o new2 = splice l o new2.
Proof.
  intros E H. destruct new2 as [|d n2']. { destruct new1; try discriminate. now rewrite !splice_nil. }
  set (n2 := d :: n2') in *. clearbody n2.
  apply (list_eq_nth d).
  - rewrite !splice_length; rewrite ?splice_length; lia.
  - intros j Hj. rewrite !nth_splice; rewrite ?splice_length; try lia. rewrite E.
    repeat match goal with |- context [(?a <? ?b)%nat] => destruct (Nat.ltb_spec a b) end;
      auto.
Qed.

Lemma bnd_splice lo hi l o new : bnd lo hi l -> bnd lo hi new -> bnd lo hi (splice l o new).
Proof.
  intros. unfold splice. apply bnd_app; [apply bnd_firstn; auto|].
  apply bnd_app; auto. apply bnd_skipn; auto.
Qed.

Lemma firstn_S_nth {A} (d : A) (l : list A) n :
  (n < length l)%nat -> firstn (S n) l = firstn n l ++ [nth n l d].
Proof.
  revert n; induction l; intros [|n] H; simpl in *; try lia; auto.
  f_equal. apply IHl. lia.
Qed.

Lemma firstn_skipn_splice {A} (l : list A) o new :
  (o + length new <= length l)%nat -> firstn (length new) (skipn o (splice l o new)) = new.
Proof.
  intros H. unfold splice.
  rewrite skipn_app, skipn_firstn_comm, Nat.sub_diag. simpl.
  rewrite firstn_length, Nat.min_l by lia.
  rewrite Nat.sub_diag. simpl. rewrite firstn_app, Nat.sub_diag, firstn_all. simpl.
  apply app_nil_r.
Qed.

(** ** Step tactics *)
Ltac slen :=
  repeat (rewrite ?upd_length, ?mk_length, ?app_length, ?map_length, ?seq_length,
          ?firstn_length, ?skipn_length, ?repeat_length;
          try (rewrite splice_length; [|repeat (rewrite ?upd_length, ?mk_length, ?app_length,
            ?map_length, ?seq_length, ?firstn_length, ?skipn_length, ?repeat_length); cbn [length]; lia]));
  cbn [length]; lia.

Ltac wgo := repeat (wstep; try (solve [slen])).

(** Use a [traced] lemma. *)
Ltac wcall L := eapply wp_conseq; [eapply (proj2_sig L)|].

(** ** memcpy *)
Lemma memcpy_wp doff soff n :
  traced (fun T => forall dst src,
    (doff + n <= length dst)%nat -> (soff + n <= length src)%nat ->
    wp (memcpy dst doff src soff n) T
       (fun d => d = splice dst doff (firstn n (skipn soff src)))).
Proof.
  eexists. intros dst src H1 H2. unfold memcpy.
  eapply (wp_for _ (fun i d => d = splice dst doff (firstn i (skipn soff src)))).
  - symmetry. apply splice_nil.
  - intros i s Hi ->. wgo.
    rewrite (firstn_S_nth 0) by slen. rewrite nth_skipn.
    rewrite splice_snoc; auto; slen.
  - intros s ->. reflexivity.
Qed.

(** ** Loops that rewrite an array in place, element by element *)
Definition pointwise (Q : nat -> Z -> Z -> Prop) (l l' : list Z) : Prop :=
  length l' = length l /\
  forall i, (i < length l)%nat -> Q i (nth i l 0) (nth i l' 0).

Lemma wp_pointwise (tb : nat -> trace) (Q : nat -> Z -> Z -> Prop) n body (l : list Z) :
  length l = n ->
  (forall i r, (i < n)%nat -> length r = n ->
     nth i r 0 = nth i l 0 ->
     wp (body i r) (tb i) (fun r' => exists v, r' = upd r i v /\ Q i (nth i l 0) v)) ->
  wp (for_ n 0 body l) (for_trace tb 0 n) (pointwise Q l).
Proof.
  intros Hl Hb.
  eapply (wp_for tb (fun i r => length r = n /\
            (forall j, (j < i)%nat -> Q j (nth j l 0) (nth j r 0)) /\
            (forall j, (i <= j)%nat -> nth j r 0 = nth j l 0))).
  - repeat split; auto. intros; lia.
  - intros i r Hi (Hr & H1 & H2). eapply wp_conseq; [apply Hb; auto; lia|].
    intros r' (v & -> & Hv). split; [now rewrite upd_length|]. split.
    + intros j Hj. destruct (Nat.eq_dec j i) as [->|].
      * now rewrite nth_upd_eq by lia.
      * rewrite nth_upd_neq by lia. apply H1. lia.
    + intros j Hj. rewrite nth_upd_neq by lia. apply H2. lia.
  - intros r (Hr & H1 & H2). split; [lia|]. intros i Hi. apply H1. lia.
Qed.

Lemma local_length `{Junk} n : length (local n) = n.
Proof. unfold local. now rewrite map_length, seq_length. Qed.

(** ** The n elements starting at offset o *)
Definition sub {A} (l : list A) (o n : nat) : list A := firstn n (skipn o l).

Lemma sub_length {A} (l : list A) o n : (o + n <= length l)%nat -> length (sub l o n) = n.
Proof. intros. unfold sub. rewrite firstn_length, skipn_length. lia. Qed.

Lemma nth_sub {A} (l : list A) o n i d :
  (i < n)%nat -> nth i (sub l o n) d = nth (o + i) l d.
Proof.
  intros. unfold sub. rewrite nth_firstn, nth_skipn.
  destruct (Nat.ltb_spec i n); auto; lia.
Qed.

Lemma sub_full {A} (l : list A) : sub l 0 (length l) = l.
Proof. unfold sub. simpl. apply firstn_all. Qed.

Lemma sub_S {A} (d : A) (l : list A) o n :
  (o + n < length l)%nat -> sub l o (S n) = sub l o n ++ [nth (o + n) l d].
Proof.
  intros. unfold sub. rewrite (firstn_S_nth d) by (rewrite skipn_length; lia).
  now rewrite nth_skipn.
Qed.

Lemma sub_splice {A} (l : list A) o new :
  (o + length new <= length l)%nat -> sub (splice l o new) o (length new) = new.
Proof. apply firstn_skipn_splice. Qed.

Lemma bnd_sub lo hi l o n : bnd lo hi l -> bnd lo hi (sub l o n).
Proof. intros. apply bnd_firstn, bnd_skipn; auto. Qed.

Lemma bnd_nth lo hi l i : bnd lo hi l -> (i < length l)%nat -> lo <= nth i l 0 <= hi.
Proof. auto. Qed.

Lemma bnd_nth0 lo hi l i : bnd lo hi l -> lo <= 0 <= hi -> lo <= nth i l 0 <= hi.
Proof.
  intros H H0. destruct (Nat.ltb_spec i (length l)); auto.
  rewrite nth_overflow by lia. lia.
Qed.

Lemma bnd_mk lo hi n f : (forall i, (i < n)%nat -> lo <= f i <= hi) -> bnd lo hi (mk n f).
Proof. intros H i Hi. rewrite mk_length in Hi. rewrite nth_mk by auto. auto. Qed.
