(** * The functions on whole lanes of the four instances *)
From Coq Require Import ZArith List Lia Bool.
From Verif Require Import CMonad WP Proof_Base Proof_Bits Model_Fips202 Spec_FIPS202 Proof_Keccak Proof_Sponge
  Model_AvxKeccak Proof_AvxKeccak Model_AvxSnP Proof_SnPBase Proof_SnPBytes.
Import ListNotations.
Open Scope Z_scope.

Lemma cur_data_wp b o lo (Q : nat * nat * nat * nat -> Prop) : 24 * Z.of_nat lo < 2 ^ 32 -> (o + 24 * lo <= length b)%nat ->
  Q (o, o + 8 * lo * 1, o + 8 * lo * 2, o + 8 * lo * 3)%nat -> wp (cur_data b o lo) [] Q.
Proof.
  intros H L HQ. unfold cur_data.
  rewrite (umul_small lo 1) by lia. rewrite (umul_small (lo * 1) 8) by lia.
  rewrite (umul_small lo 2) by lia. rewrite (umul_small (lo * 2) 8) by lia.
  rewrite (umul_small lo 3) by lia. rewrite (umul_small (lo * 3) 8) by lia.
  change (@nil event) with (@nil event ++ (@nil event ++ (@nil event ++ @nil event))).
  apply wp_bind. apply pointer_wp; [lia|]. apply wp_bind. apply pointer_wp; [lia|].
  apply wp_bind. apply pointer_wp; [lia|]. apply wp_ret.
  replace (o + lo * 1 * 8)%nat with (o + 8 * lo * 1)%nat by lia.
  replace (o + lo * 2 * 8)%nat with (o + 8 * lo * 2)%nat by lia.
  replace (o + lo * 3 * 8)%nat with (o + 8 * lo * 3)%nat by lia. exact HQ.
Qed.

Section ByLanes.
Variables (lc : nat) (t4 t1 : nat -> trace).
Lemma by_lanes_wp :
  traced (fun T => forall S (I : nat -> S -> Prop) one4 one s,
    (forall i s, (i + 4 <= lc)%nat -> I i s -> wp (one4 i s) (t4 i) (I (i + 4)%nat)) ->
    (forall i s, (i < lc)%nat -> I i s -> wp (one i s) (t1 i) (I (Datatypes.S i))) ->
    I 0%nat s -> wp (by_lanes lc one4 one s) T (I lc)).
Proof.
  destruct (16 <=? lc)%nat eqn:E16; [apply Nat.leb_le in E16|apply Nat.leb_gt in E16].
  - destruct (20 <=? lc)%nat eqn:E20; [apply Nat.leb_le in E20|apply Nat.leb_gt in E20].
    + eexists. intros S I one4 one s H4 H1 H0. unfold by_lanes.
      replace (16 <=? lc)%nat with true by (symmetry; now apply Nat.leb_le).
      replace (20 <=? lc)%nat with true by (symmetry; now apply Nat.leb_le).
      wstep. wstep.
      wstep. eapply wp_conseq; [apply H4; [lia|exact H0]|]. intros s1 I1.
      wstep. eapply wp_conseq; [apply H4; [lia|exact I1]|]. intros s2 I2.
      wstep. eapply wp_conseq; [apply H4; [lia|exact I2]|]. intros s3 I3.
      wstep. eapply wp_conseq; [apply H4; [lia|exact I3]|]. intros s4 I4.
      wstep. wstep. wstep. eapply wp_conseq; [apply H4; [lia|exact I4]|]. intros s5 I5.
      eapply (wp_for t1 I); [exact I5| |].
      * intros i s' Hi Hs'. apply H1; auto; lia.
      * intros s' Hs'. replace (20 + (lc - 20))%nat with lc in Hs' by lia. exact Hs'.
    + eexists. intros S I one4 one s H4 H1 H0. unfold by_lanes.
      replace (16 <=? lc)%nat with true by (symmetry; now apply Nat.leb_le).
      replace (20 <=? lc)%nat with false by (symmetry; now apply Nat.leb_gt).
      wstep. wstep.
      wstep. eapply wp_conseq; [apply H4; [lia|exact H0]|]. intros s1 I1.
      wstep. eapply wp_conseq; [apply H4; [lia|exact I1]|]. intros s2 I2.
      wstep. eapply wp_conseq; [apply H4; [lia|exact I2]|]. intros s3 I3.
      wstep. eapply wp_conseq; [apply H4; [lia|exact I3]|]. intros s4 I4.
      wstep. wstep.
      eapply (wp_for t1 I); [exact I4| |].
      * intros i s' Hi Hs'. apply H1; auto; lia.
      * intros s' Hs'. replace (16 + (lc - 16))%nat with lc in Hs' by lia. exact Hs'.
  - eexists. intros S I one4 one s H4 H1 H0. unfold by_lanes.
    replace (16 <=? lc)%nat with false by (symmetry; now apply Nat.leb_gt).
    wstep. wstep. eapply (wp_for t1 I); [exact H0| |].
    + intros i s' Hi Hs'. apply H1; auto; lia.
    + intros s' Hs'. exact Hs'.
Qed.
End ByLanes.

(** ** Reading four strips of the caller's buffer *)
Lemma strip_aligned a o lo j i : (a + Z.of_nat o) mod 8 = 0 -> (a + Z.of_nat (o + 8 * lo * j + 8 * i)) mod 8 = 0.
Proof.
  intros H. replace (a + Z.of_nat (o + 8 * lo * j + 8 * i)) with (a + Z.of_nat o + Z.of_nat (lo * j + i) * 8) by lia.
  now rewrite Z.mod_add by lia.
Qed.

Definition strips (o lo : nat) : nat * nat * nat * nat := (o, o + 8 * lo * 1, o + 8 * lo * 2, o + 8 * lo * 3)%nat.

Lemma LOAD4_64_wp o lo i :
  traced (fun T => forall data a, (o + 24 * lo + 8 * i + 8 <= length data)%nat -> bytes data -> (a + Z.of_nat o) mod 8 = 0 ->
    wp (LOAD4_64 data a (strips o lo) i) T (fun v => vec4 v /\ forall j m, (j < 4)%nat -> (m < 8)%nat ->
      lbyte (nth j v 0) m = nth (o + 8 * lo * j + (8 * i + m)) data 0)).
Proof.
  eexists. intros data a L B A. unfold LOAD4_64, strips.
  wstep. eapply wp_conseq; [apply (proj2_sig (read64_wp (o + 8 * lo * 3 + 8 * i))); auto; [lia|now apply strip_aligned]|]. intros x3 [L3 H3].
  wstep. eapply wp_conseq; [apply (proj2_sig (read64_wp (o + 8 * lo * 2 + 8 * i))); auto; [lia|now apply strip_aligned]|]. intros x2 [L2 H2].
  wstep. eapply wp_conseq; [apply (proj2_sig (read64_wp (o + 8 * lo * 1 + 8 * i))); auto; [lia|now apply strip_aligned]|]. intros x1 [L1 H1].
  wstep. eapply wp_conseq; [apply (proj2_sig (read64_wp (o + 8 * i))); auto; [lia|]|].
  { replace (o + 8 * i)%nat with (o + 8 * lo * 0 + 8 * i)%nat by lia. now apply strip_aligned. }
  intros x0 [L0 H0]. wstep. split.
  - split; [reflexivity|]. intros j. do 4 (destruct j as [|j]; [assumption|]). cbn [nth]. destruct j; apply lane_0.
  - intros j m Hj Hm. do 4 (destruct j as [|j]; [cbn [nth]; rewrite ?H0, ?H1, ?H2, ?H3 by auto; f_equal; lia|]). lia.
Qed.

Definition quad_nth (q : quad) (j : nat) : list Z := let '(l0, l1, l2, l3) := q in nth j [l0; l1; l2; l3] [].

Lemma load_quad_wp o lo i :
  traced (fun T => forall data, (o + 24 * lo + 8 * i + 32 <= length data)%nat -> bytes data ->
    wp (load_quad data (strips o lo) i) T (fun q => forall j, (j < 4)%nat -> vec4 (quad_nth q j) /\
      forall k m, (k < 4)%nat -> (m < 8)%nat ->
      lbyte (nth k (quad_nth q j) 0) m = nth (o + 8 * lo * j + (8 * (i + k) + m)) data 0)).
Proof.
  eexists. intros data L B. unfold load_quad, strips.
  wstep. eapply wp_conseq; [apply (proj2_sig (vload_wp (o + 8 * i))); auto; lia|]. intros x0 [V0 H0].
  wstep. eapply wp_conseq; [apply (proj2_sig (vload_wp (o + 8 * lo * 1 + 8 * i))); auto; lia|]. intros x1 [V1 H1].
  wstep. eapply wp_conseq; [apply (proj2_sig (vload_wp (o + 8 * lo * 2 + 8 * i))); auto; lia|]. intros x2 [V2 H2].
  wstep. eapply wp_conseq; [apply (proj2_sig (vload_wp (o + 8 * lo * 3 + 8 * i))); auto; lia|]. intros x3 [V3 H3].
  wstep. intros j Hj.
  do 4 (destruct j as [|j]; [cbn [quad_nth nth]; split; [assumption|intros k m Hk Hm; rewrite ?H0, ?H1, ?H2, ?H3 by auto; f_equal; lia]|]). lia.
Qed.

(** ** Lanes done so far *)
Definition upto (k : nat) (g f : nat -> nat -> Z) : nat -> nat -> Z := fun j b => if (b <? 8 * k)%nat then f j b else g j b.

Lemma upto_range k g f : (forall j b, 0 <= g j b <= 255) -> (forall j b, 0 <= f j b <= 255) -> forall j b, 0 <= upto k g f j b <= 255.
Proof. intros R F j b. unfold upto. destruct (_ <? _)%nat; auto. Qed.

Lemma upto_0 g f st : rep4 g st -> (forall j b, 0 <= f j b <= 255) -> rep4 (upto 0 g f) st.
Proof.
  intros H F. pose proof H as (_ & R & _). eapply rep4_ext; [now apply upto_range| |exact H].
  intros. unfold upto. cmp.
Qed.

Lemma upto_put4 k g f f' st : (forall j b, 0 <= f j b <= 255) -> (forall j b, 0 <= g j b <= 255) ->
  (forall j m, (j < 4)%nat -> (m < 8)%nat -> f' j m = f j (8 * k + m)%nat) ->
  rep4 (put4 (upto k g f) k f') st -> rep4 (upto (S k) g f) st.
Proof.
  intros F R E H. eapply rep4_ext; [now apply upto_range| |exact H].
  intros j b Hj Hb. unfold put4, upto. cmp. rewrite E by lia. f_equal. lia.
Qed.

Section Into.
Variables (g D : nat -> nat -> Z).
Hypothesis (R : forall j b, 0 <= g j b <= 255) (HD : forall j b, 0 <= D j b <= 255).

Definition xored := fun j b => Z.lxor (g j b) (D j b).
Lemma xored_range j b : 0 <= xored j b <= 255.
Proof. apply lxor_byte; auto. Qed.

Lemma xor_step i st v : (i < 25)%nat -> rep4 (upto i g xored) st ->
  (forall j m, (j < 4)%nat -> (m < 8)%nat -> lbyte (nth j v 0) m = D j (8 * i + m)%nat) ->
  wp (vec_xor st i v) (proj1_sig (vec_xor_wp i)) (rep4 (upto (S i) g xored)).
Proof.
  intros Hi Hs Hv. eapply wp_conseq; [apply (proj2_sig (vec_xor_wp i)); eauto|].
  intros st' H. eapply upto_put4; [exact xored_range|exact R| |exact H].
  intros j m Hj Hm. cbn beta. unfold upto, xored.
  pose proof (Hv j m Hj Hm) as E. rewrite E. destruct (Nat.ltb_spec (8 * i + m) (8 * i)); [lia|reflexivity].
Qed.

Lemma set_step i st v : (i < 25)%nat -> rep4 (upto i g D) st ->
  (forall j m, (j < 4)%nat -> (m < 8)%nat -> lbyte (nth j v 0) m = D j (8 * i + m)%nat) ->
  wp (vec_set st i v) (proj1_sig (vec_set_wp i)) (rep4 (upto (S i) g D)).
Proof.
  intros Hi Hs Hv. eapply wp_conseq; [apply (proj2_sig (vec_set_wp i)); eauto|].
  intros st' H. eapply upto_put4; [exact HD|exact R| |exact H]. exact Hv.
Qed.
End Into.

Lemma strip_nth_range data o lo : bytes data -> forall j b, 0 <= nth (o + 8 * lo * j + b) data 0 <= 255.
Proof. intros B j b. now apply bytes_nth0. Qed.

Ltac leave_j j := do 4 (destruct j as [|j]; [reflexivity|]); lia.

Lemma AddLanesAll_wp o lc lo : (lc <= 25)%nat -> 24 * Z.of_nat lo < 2 ^ 32 ->
  traced (fun T => forall g st data a, rep4 g st -> bytes data -> (o + 24 * lo + 8 * lc <= length data)%nat -> (a + Z.of_nat o) mod 8 = 0 ->
    wp (AddLanesAll st data a o lc lo) T (rep4 (upto lc g (xored g (fun j b => nth (o + 8 * lo * j + b) data 0))))).
Proof.
  intros Hc Hlo. eexists. intros g st data a Hs B L A. pose proof Hs as (_ & R & _).
  pose proof (strip_nth_range data o lo B) as HD. set (D := fun j b => nth (o + 8 * lo * j + b) data 0) in *.
  unfold AddLanesAll. wstep. apply cur_data_wp; [lia|lia|]. fold (strips o lo).
  eapply (proj2_sig (by_lanes_wp lc _ _) (list Z) (fun k => rep4 (upto k g (xored g D)))).
  - intros i s Hi Hs1. wstep. eapply wp_conseq; [apply (proj2_sig (load_quad_wp o lo i)); auto; lia|].
    intros [[[l0 l1] l2] l3] HQ. rewrite INTLEAVE_eq.
    pose proof (HQ 0%nat ltac:(lia)) as [V0 Q0]. pose proof (HQ 1%nat ltac:(lia)) as [V1 Q1].
    pose proof (HQ 2%nat ltac:(lia)) as [V2 Q2]. pose proof (HQ 3%nat ltac:(lia)) as [V3 Q3]. cbn [quad_nth nth] in *.
    assert (X : forall k j m, (k < 4)%nat -> (j < 4)%nat -> (m < 8)%nat ->
       lbyte (nth j [nth k l0 0; nth k l1 0; nth k l2 0; nth k l3 0] 0) m = D j (8 * (i + k) + m)%nat).
    { intros k j m Hk Hj Hm. unfold D. do 4 (destruct j as [|j]; [cbn [nth]; auto|]). lia. }
    wstep. eapply wp_conseq; [apply (xor_step g D R HD (i + 0)); [lia|rewrite Nat.add_0_r; exact Hs1|intros; apply X; lia]|]. intros s1 H1.
    wstep. eapply wp_conseq; [apply (xor_step g D R HD (i + 1)); [lia|replace (i + 1)%nat with (S (i + 0)) by lia; exact H1|intros; apply X; lia]|]. intros s2 H2.
    wstep. eapply wp_conseq; [apply (xor_step g D R HD (i + 2)); [lia|replace (i + 2)%nat with (S (i + 1)) by lia; exact H2|intros; apply X; lia]|]. intros s3 H3.
    eapply wp_conseq; [apply (xor_step g D R HD (i + 3)); [lia|replace (i + 3)%nat with (S (i + 2)) by lia; exact H3|intros; apply X; lia]|]. intros s4 H4.
    replace (i + 4)%nat with (S (i + 3)) by lia. exact H4.
  - intros i s Hi Hs1. wstep. eapply wp_conseq; [apply (proj2_sig (LOAD4_64_wp o lo i)); auto; lia|].
    intros v [V Hv]. apply (xor_step g D R HD i); auto. lia.
  - apply upto_0; auto. now apply xored_range.
Qed.

Lemma OverwriteLanesAll_wp lc lo : (lc <= 25)%nat -> 24 * Z.of_nat lo < 2 ^ 32 ->
  traced (fun T => forall g st data a, rep4 g st -> bytes data -> (24 * lo + 8 * lc <= length data)%nat -> a mod 8 = 0 ->
    wp (OverwriteLanesAll st data a lc lo) T (rep4 (upto lc g (fun j b => nth (8 * lo * j + b) data 0)))).
Proof.
  intros Hc Hlo. eexists. intros g st data a Hs B L A. pose proof Hs as (_ & R & _).
  pose proof (strip_nth_range data 0 lo B) as HD. change (forall j b, 0 <= nth (8 * lo * j + b) data 0 <= 255) in HD.
  set (D := fun j b => nth (8 * lo * j + b) data 0) in *.
  assert (A0 : (a + Z.of_nat 0) mod 8 = 0) by (now rewrite Z.add_0_r).
  unfold OverwriteLanesAll. wstep. apply cur_data_wp; [lia|lia|]. fold (strips 0 lo).
  eapply (proj2_sig (by_lanes_wp lc _ _) (list Z) (fun k => rep4 (upto k g D))).
  - intros i s Hi Hs1. wstep. eapply wp_conseq; [apply (proj2_sig (load_quad_wp 0 lo i)); auto; lia|].
    intros [[[l0 l1] l2] l3] HQ. rewrite INTLEAVE_eq.
    pose proof (HQ 0%nat ltac:(lia)) as [V0 Q0]. pose proof (HQ 1%nat ltac:(lia)) as [V1 Q1].
    pose proof (HQ 2%nat ltac:(lia)) as [V2 Q2]. pose proof (HQ 3%nat ltac:(lia)) as [V3 Q3]. cbn [quad_nth nth] in *.
    assert (X : forall k j m, (k < 4)%nat -> (j < 4)%nat -> (m < 8)%nat ->
       lbyte (nth j [nth k l0 0; nth k l1 0; nth k l2 0; nth k l3 0] 0) m = D j (8 * (i + k) + m)%nat).
    { intros k j m Hk Hj Hm. unfold D. do 4 (destruct j as [|j]; [cbn [nth]; auto|]). lia. }
    wstep. eapply wp_conseq; [apply (set_step g D R HD (i + 0)); [lia|rewrite Nat.add_0_r; exact Hs1|intros; apply X; lia]|]. intros s1 H1.
    wstep. eapply wp_conseq; [apply (set_step g D R HD (i + 1)); [lia|replace (i + 1)%nat with (S (i + 0)) by lia; exact H1|intros; apply X; lia]|]. intros s2 H2.
    wstep. eapply wp_conseq; [apply (set_step g D R HD (i + 2)); [lia|replace (i + 2)%nat with (S (i + 1)) by lia; exact H2|intros; apply X; lia]|]. intros s3 H3.
    eapply wp_conseq; [apply (set_step g D R HD (i + 3)); [lia|replace (i + 3)%nat with (S (i + 2)) by lia; exact H3|intros; apply X; lia]|]. intros s4 H4.
    replace (i + 4)%nat with (S (i + 3)) by lia. exact H4.
  - intros i s Hi Hs1. wstep. eapply wp_conseq; [apply (proj2_sig (LOAD4_64_wp 0 lo i)); auto; lia|].
    intros v [V Hv]. apply (set_step g D R HD i); auto. lia.
  - apply upto_0; auto.
Qed.

(** ** Writing four strips of the caller's buffer *)
Section Drawn.
Variables (F : nat -> nat -> Z) (data : list Z) (oo lo : nat).
Hypothesis (RF : forall j b, 0 <= F j b <= 255) (BD : bytes data).

Definition wr (K : nat -> nat) (p : nat) : Z :=
  let j := ((p - oo) / (8 * lo))%nat in let b := ((p - oo) mod (8 * lo))%nat in
  if (oo <=? p)%nat && (j <? 4)%nat && (b <? 8 * K j)%nat then F j b else nth p data 0.
Definition drawn (K : nat -> nat) (d : list Z) : Prop := length d = length data /\ forall p, nth p d 0 = wr K p.

Lemma drawn_bytes K d : drawn K d -> bytes d.
Proof.
  intros [L H]. intros p Hp.
  rewrite H. unfold wr. cbv zeta. destruct (_ && _); auto. now apply bytes_nth0.
Qed.

Lemma drawn_ext K K' d : (forall j, (j < 4)%nat -> K j = K' j) -> drawn K d -> drawn K' d.
Proof.
  intros E [L H]. split; auto. intros p. rewrite H. unfold wr. cbv zeta.
  destruct (oo <=? p)%nat; cbn [andb]; auto. destruct (Nat.ltb_spec ((p - oo) / (8 * lo)) 4); cbn [andb]; auto.
  now rewrite E.
Qed.

Definition bump (K : nat -> nat) (j : nat) : nat -> nat := fun i => if (i =? j)%nat then S (K i) else K i.

Lemma drawn_step K d j k v : drawn K d -> (j < 4)%nat -> k = K j -> (k < lo)%nat -> (oo + 8 * lo * j + 8 * k + 8 <= length data)%nat ->
  (forall m, (m < 8)%nat -> lbyte v m = F j (8 * k + m)%nat) ->
  drawn (bump K j) (splice d (oo + 8 * lo * j + 8 * k) (mk 8 (lbyte v))).
Proof.
  intros [L H] Hj Ek Hk Hd Hv. split; [rewrite splice_length; rewrite ?mk_length; lia|].
  intros p. rewrite nth_splice by (rewrite mk_length; lia). rewrite mk_length, H.
  assert (D := Nat.div_mod (p - oo) (8 * lo) ltac:(lia)).
  assert (M := Nat.mod_upper_bound (p - oo) (8 * lo) ltac:(lia)).
  unfold wr. cbv zeta. unfold bump.
  set (jj := ((p - oo) / (8 * lo))%nat) in *. set (b := ((p - oo) mod (8 * lo))%nat) in *. clearbody jj b.
  destruct (Nat.ltb_spec p (oo + 8 * lo * j + 8 * k)) as [P1|P1].
  - destruct (Nat.leb_spec oo p); cbn [andb]; auto. destruct (Nat.ltb_spec jj 4); cbn [andb]; auto.
    destruct (Nat.eqb_spec jj j) as [->|N]; auto.
    replace (b <? 8 * S (K j))%nat with (b <? 8 * K j)%nat; auto.
    rewrite <- Ek. assert (b < 8 * k)%nat by lia.
    symmetry. etransitivity; [apply Nat.ltb_lt; lia|symmetry; apply Nat.ltb_lt; lia].
  - destruct (Nat.ltb_spec p (oo + 8 * lo * j + 8 * k + 8)) as [P2|P2].
    + assert (jj = j /\ b = p - oo - 8 * lo * j)%nat as [-> Eb].
      { assert (~ (jj < j)%nat) by (intros X; assert (8 * lo * (jj + 1) <= 8 * lo * j)%nat by (apply Nat.mul_le_mono_l; lia); lia).
        assert (~ (j < jj)%nat) by (intros X; assert (8 * lo * (j + 1) <= 8 * lo * jj)%nat by (apply Nat.mul_le_mono_l; lia); lia).
        assert (jj = j) by lia. subst jj. split; auto. lia. }
      rewrite nth_mk by lia. rewrite Hv by lia.
      replace (oo <=? p)%nat with true by (symmetry; apply Nat.leb_le; lia).
      replace (j <? 4)%nat with true by (symmetry; apply Nat.ltb_lt; lia).
      rewrite Nat.eqb_refl. rewrite <- Ek.
      replace (b <? 8 * S k)%nat with true by (symmetry; apply Nat.ltb_lt; lia). cbn [andb]. f_equal. lia.
    + destruct (Nat.leb_spec oo p); cbn [andb]; auto. destruct (Nat.ltb_spec jj 4); cbn [andb]; auto.
      destruct (Nat.eqb_spec jj j) as [->|N]; auto.
      replace (b <? 8 * S (K j))%nat with (b <? 8 * K j)%nat; auto.
      rewrite <- Ek. assert (8 * k + 8 <= b)%nat by lia.
      symmetry. etransitivity; [apply Nat.ltb_ge; lia|symmetry; apply Nat.ltb_ge; lia].
Qed.

Definition bump4 (K : nat -> nat) (j : nat) : nat -> nat := fun i => if (i =? j)%nat then (K i + 4)%nat else K i.

Definition strip_trace i := proj1_sig (store64_bytes i) ++ proj1_sig (store64_bytes (i + 8)) ++
  proj1_sig (store64_bytes (i + 16)) ++ proj1_sig (store64_bytes (i + 24)).
Lemma vstore_drawn K d j k v off : off = (oo + 8 * lo * j + 8 * k)%nat -> drawn K d -> (j < 4)%nat -> k = K j -> (k + 4 <= lo)%nat -> (oo + 8 * lo * j + 8 * k + 32 <= length data)%nat ->
  (forall i m, (i < 4)%nat -> (m < 8)%nat -> lbyte (nth i v 0) m = F j (8 * (k + i) + m)%nat) ->
  wp (vstore d off v) (strip_trace off) (drawn (bump4 K j)).
Proof.
  intros Eo Hd Hj Ek Hk Hl Hv. unfold vstore, strip_trace.
  apply wp_bind. eapply wp_conseq; [apply (proj2_sig (store64_bytes off)); destruct Hd as [Ld _]; lia|]. intros ? ->.
  assert (D1 : drawn (bump K j) (splice d off (mk 8 (lbyte (nth 0 v 0))))).
  { rewrite Eo. apply drawn_step; auto; try lia. intros m Hm. rewrite Hv by lia. f_equal. lia. }
  set (d1 := splice d off _) in *. clearbody d1.
  apply wp_bind. eapply wp_conseq; [apply (proj2_sig (store64_bytes (off + 8))); destruct D1 as [Ld _]; lia|]. intros ? ->.
  assert (D2 : drawn (bump (bump K j) j) (splice d1 (off + 8) (mk 8 (lbyte (nth 1 v 0))))).
  { replace (off + 8)%nat with (oo + 8 * lo * j + 8 * S k)%nat by lia. apply drawn_step; auto; try lia.
    - unfold bump. rewrite Nat.eqb_refl. lia.
    - intros m Hm. rewrite Hv by lia. f_equal. lia. }
  set (d2 := splice d1 _ _) in *. clearbody d2.
  apply wp_bind. eapply wp_conseq; [apply (proj2_sig (store64_bytes (off + 16))); destruct D2 as [Ld _]; lia|]. intros ? ->.
  assert (D3 : drawn (bump (bump (bump K j) j) j) (splice d2 (off + 16) (mk 8 (lbyte (nth 2 v 0))))).
  { replace (off + 16)%nat with (oo + 8 * lo * j + 8 * S (S k))%nat by lia. apply drawn_step; auto; try lia.
    - unfold bump. rewrite Nat.eqb_refl. lia.
    - intros m Hm. rewrite Hv by lia. f_equal. lia. }
  set (d3 := splice d2 _ _) in *. clearbody d3.
  eapply wp_conseq; [apply (proj2_sig (store64_bytes (off + 24))); destruct D3 as [Ld _]; lia|]. intros ? ->.
  assert (D4 : drawn (bump (bump (bump (bump K j) j) j) j) (splice d3 (off + 24) (mk 8 (lbyte (nth 3 v 0))))).
  { replace (off + 24)%nat with (oo + 8 * lo * j + 8 * S (S (S k)))%nat by lia. apply drawn_step; auto; try lia.
    - unfold bump. rewrite Nat.eqb_refl. lia.
    - intros m Hm. rewrite Hv by lia. f_equal. lia. }
  eapply drawn_ext; [|exact D4]. intros i Hi. unfold bump, bump4. destruct (i =? j)%nat; lia.
Qed.

Lemma store_quad_drawn i d q : drawn (fun _ => i) d -> (i + 4 <= lo)%nat -> (oo + 24 * lo + 8 * i + 32 <= length data)%nat ->
  (forall j k m, (j < 4)%nat -> (k < 4)%nat -> (m < 8)%nat -> lbyte (nth k (quad_nth q j) 0) m = F j (8 * (i + k) + m)%nat) ->
  wp (store_quad d (strips oo lo) i q)
    (strip_trace (oo + 8 * i) ++ strip_trace (oo + 8 * lo * 1 + 8 * i) ++ strip_trace (oo + 8 * lo * 2 + 8 * i) ++ strip_trace (oo + 8 * lo * 3 + 8 * i))
    (drawn (fun _ => (i + 4)%nat)).
Proof.
  intros Hd Hi Hl Hq. destruct q as [[[l0 l1] l2] l3]. unfold store_quad, strips.
  pose proof (Hq 0%nat) as Q0. pose proof (Hq 1%nat) as Q1. pose proof (Hq 2%nat) as Q2. pose proof (Hq 3%nat) as Q3.
  cbn [quad_nth nth] in Q0, Q1, Q2, Q3.
  apply wp_bind. eapply wp_conseq; [apply (vstore_drawn (fun _ => i) d 0%nat i); auto; try lia; intros; apply Q0; lia|]. intros d0 D0.
  apply wp_bind. eapply wp_conseq; [eapply (vstore_drawn _ d0 1%nat i); [lia|exact D0|lia|reflexivity|lia|lia|intros; apply Q1; lia]|]. intros d1 D1.
  apply wp_bind. eapply wp_conseq; [eapply (vstore_drawn _ d1 2%nat i); [lia|exact D1|lia|reflexivity|lia|lia|intros; apply Q2; lia]|]. intros d2 D2.
  eapply wp_conseq; [eapply (vstore_drawn _ d2 3%nat i); [lia|exact D2|lia|reflexivity|lia|lia|intros; apply Q3; lia]|]. intros d3 D3.
  eapply drawn_ext; [|exact D3]. intros j Hj. unfold bump4. do 4 (destruct j as [|j]; [reflexivity|]). lia.
Qed.

Lemma write64_drawn off K d a j k v : off = (oo + 8 * lo * j + 8 * k)%nat -> drawn K d -> (j < 4)%nat -> k = K j -> (k < lo)%nat ->
  (oo + 8 * lo * j + 8 * k + 8 <= length data)%nat -> (a + Z.of_nat oo) mod 8 = 0 ->
  (forall m, (m < 8)%nat -> lbyte v m = F j (8 * k + m)%nat) ->
  wp (write64 d a off v) (proj1_sig (write64_wp off)) (drawn (bump K j)).
Proof.
  intros Eo Hd Hj Ek Hk Hl A Hv.
  eapply wp_conseq; [apply (proj2_sig (write64_wp off)); [destruct Hd; lia|]|].
  - rewrite Eo. now apply strip_aligned.
  - intros ? ->. rewrite Eo. now apply drawn_step.
Qed.
End Drawn.

Lemma get_quad_wp i :
  traced (fun T => forall g st, rep4 g st -> (i + 4 <= 25)%nat ->
    wp (get_quad st i) T (fun q => forall k, (k < 4)%nat -> vec4 (quad_nth q k) /\
      forall j m, (j < 4)%nat -> (m < 8)%nat -> lbyte (nth j (quad_nth q k) 0) m = g j (8 * (i + k) + m)%nat)).
Proof.
  eexists. intros g st Hs Hi. unfold get_quad.
  wstep. eapply wp_conseq; [apply (proj2_sig (vec_get_wp (i + 0)) g st); auto; lia|]. intros x0 [V0 H0].
  wstep. eapply wp_conseq; [apply (proj2_sig (vec_get_wp (i + 1)) g st); auto; lia|]. intros x1 [V1 H1].
  wstep. eapply wp_conseq; [apply (proj2_sig (vec_get_wp (i + 2)) g st); auto; lia|]. intros x2 [V2 H2].
  wstep. eapply wp_conseq; [apply (proj2_sig (vec_get_wp (i + 3)) g st); auto; lia|]. intros x3 [V3 H3].
  wstep. intros k Hk. do 4 (destruct k as [|k]; [cbn [quad_nth nth]; split; assumption|]). lia.
Qed.

Lemma ExtractLanesAll_wp lc lo : (lc <= 25)%nat -> (lc <= lo)%nat -> 24 * Z.of_nat lo < 2 ^ 32 ->
  traced (fun T => forall g st data a, rep4 g st -> bytes data -> (24 * lo + 8 * lc <= length data)%nat -> a mod 8 = 0 ->
    wp (ExtractLanesAll st data a lc lo) T (drawn g data 0 lo (fun _ => lc))).
Proof.
  intros Hc Hcl Hlo. eexists. intros g st data a Hs B L A. pose proof Hs as (_ & R & _).
  assert (A0 : (a + Z.of_nat 0) mod 8 = 0) by (now rewrite Z.add_0_r).
  unfold ExtractLanesAll. wstep. apply cur_data_wp; [lia|lia|]. fold (strips 0 lo).
  eapply (proj2_sig (by_lanes_wp lc _ _) (list Z) (fun k => drawn g data 0 lo (fun _ => k))).
  - intros i d Hi Hd. wstep. eapply wp_conseq; [apply (proj2_sig (get_quad_wp i) g st); auto; lia|].
    intros [[[l0 l1] l2] l3] HQ.
    apply store_quad_drawn; auto; try lia. rewrite UNINTLEAVE_eq.
    pose proof (HQ 0%nat ltac:(lia)) as [V0 Q0]. pose proof (HQ 1%nat ltac:(lia)) as [V1 Q1].
    pose proof (HQ 2%nat ltac:(lia)) as [V2 Q2]. pose proof (HQ 3%nat ltac:(lia)) as [V3 Q3]. cbn [quad_nth nth] in *.
    intros j k m Hj Hk Hm.
    do 4 (destruct j as [|j]; [do 4 (destruct k as [|k]; [cbn [nth]; auto; fail|]); lia|]). lia.
  - intros i d Hi Hd. cbn [strips].
    wstep. eapply wp_conseq; [apply (proj2_sig (lane_get_wp (4 * i)) g st i 0%nat); auto; lia|]. intros x0 [_ X0].
    wstep. eapply wp_conseq; [apply (write64_drawn g data 0 lo (0 + 8 * i) (fun _ => i) d a 0%nat i); auto; lia|]. intros d0 D0.
    wstep. eapply wp_conseq; [apply (proj2_sig (lane_get_wp (4 * i + 1)) g st i 1%nat); auto; lia|]. intros x1 [_ X1].
    wstep. eapply wp_conseq; [eapply (write64_drawn g data 0 lo (0 + 8 * lo * 1 + 8 * i) _ d0 a 1%nat i); [reflexivity|exact D0|lia|reflexivity|lia|lia|assumption|assumption]|]. intros d1 D1.
    wstep. eapply wp_conseq; [apply (proj2_sig (lane_get_wp (4 * i + 2)) g st i 2%nat); auto; lia|]. intros x2 [_ X2].
    wstep. eapply wp_conseq; [eapply (write64_drawn g data 0 lo (0 + 8 * lo * 2 + 8 * i) _ d1 a 2%nat i); [reflexivity|exact D1|lia|reflexivity|lia|lia|assumption|assumption]|]. intros d2 D2.
    wstep. eapply wp_conseq; [apply (proj2_sig (lane_get_wp (4 * i + 3)) g st i 3%nat); auto; lia|]. intros x3 [_ X3].
    eapply wp_conseq; [eapply (write64_drawn g data 0 lo (0 + 8 * lo * 3 + 8 * i) _ d2 a 3%nat i); [reflexivity|exact D2|lia|reflexivity|lia|lia|assumption|assumption]|]. intros d3 D3.
    eapply drawn_ext; [|exact D3]. intros j Hj. unfold bump. do 4 (destruct j as [|j]; [reflexivity|]). lia.
  - split; auto. intros p. unfold wr. cbv zeta. rewrite Nat.mul_0_r. rewrite (proj2 (Nat.ltb_ge _ _) (Nat.le_0_l _)).
    now rewrite andb_false_r.
Qed.

(** input and output the same strips, or disjoint memory *)
Definition apart io oo n : Prop := (io = oo \/ io + n <= oo \/ oo + n <= io)%nat.

Lemma drawn_fresh F data io oo lo lc K d j b : drawn F data oo lo K d -> (forall j, (j < 4)%nat -> (K j <= lc)%nat) -> (lc <= lo)%nat ->
  apart io oo (24 * lo + 8 * lc) -> (j < 4)%nat -> (8 * K j <= b)%nat -> (b < 8 * lc)%nat ->
  nth (io + 8 * lo * j + b) d 0 = nth (io + 8 * lo * j + b) data 0.
Proof.
  intros [L H] HK Hc HA Hj Hb Hb2. rewrite H. unfold wr. cbv zeta.
  destruct (Nat.leb_spec oo (io + 8 * lo * j + b)) as [P|P]; cbn [andb]; auto.
  assert (D := Nat.div_mod (io + 8 * lo * j + b - oo) (8 * lo) ltac:(lia)).
  assert (M := Nat.mod_upper_bound (io + 8 * lo * j + b - oo) (8 * lo) ltac:(lia)).
  set (jj := ((io + 8 * lo * j + b - oo) / (8 * lo))%nat) in *.
  set (r := ((io + 8 * lo * j + b - oo) mod (8 * lo))%nat) in *. clearbody jj r.
  destruct (Nat.ltb_spec jj 4) as [J|J]; cbn [andb]; auto.
  destruct (Nat.ltb_spec r (8 * K jj)) as [X|X]; auto. exfalso.
  specialize (HK jj J).
  assert (8 * lo * j <= 8 * lo * 3)%nat by (apply Nat.mul_le_mono_l; lia).
  assert (8 * lo * jj <= 8 * lo * 3)%nat by (apply Nat.mul_le_mono_l; lia).
  destruct HA as [->|[A|A]]; [|lia|lia].
  assert (~ (jj < j)%nat) by (intros Y; assert (8 * lo * (jj + 1) <= 8 * lo * j)%nat by (apply Nat.mul_le_mono_l; lia); lia).
  assert (~ (j < jj)%nat) by (intros Y; assert (8 * lo * (j + 1) <= 8 * lo * jj)%nat by (apply Nat.mul_le_mono_l; lia); lia).
  assert (jj = j) by lia. subst jj. lia.
Qed.

Lemma ExtractAndAddLanesAll_wp io oo lc lo : (lc <= 25)%nat -> (lc <= lo)%nat -> 24 * Z.of_nat lo < 2 ^ 32 -> apart io oo (24 * lo + 8 * lc) ->
  traced (fun T => forall g st data a, rep4 g st -> bytes data -> (io + 24 * lo + 8 * lc <= length data)%nat -> (oo + 24 * lo + 8 * lc <= length data)%nat ->
    (a + Z.of_nat io) mod 8 = 0 -> (a + Z.of_nat oo) mod 8 = 0 ->
    wp (ExtractAndAddLanesAll st data a io oo lc lo) T
      (drawn (fun j b => Z.lxor (nth (io + 8 * lo * j + b) data 0) (g j b)) data oo lo (fun _ => lc))).
Proof.
  intros Hc Hcl Hlo Hap. eexists. intros g st data a Hs B L1 L2 A1 A2. pose proof Hs as (_ & R & _).
  unfold ExtractAndAddLanesAll. wstep. apply cur_data_wp; [lia|lia|]. fold (strips io lo).
  wstep. apply cur_data_wp; [lia|lia|]. fold (strips oo lo).
  pose proof (strip_nth_range data io lo B) as HD.
  set (F := fun j b => Z.lxor (nth (io + 8 * lo * j + b) data 0) (g j b)).
  assert (RF : forall j b, 0 <= F j b <= 255) by (intros j b; apply lxor_byte; auto).
  eapply (proj2_sig (by_lanes_wp lc _ _) (list Z) (fun k => drawn F data oo lo (fun _ => k))).
  - intros i d Hi Hd. pose proof (drawn_bytes F data oo lo RF B _ _ Hd) as Bd. pose proof Hd as [Ld _].
    wstep. eapply wp_conseq; [apply (proj2_sig (get_quad_wp i) g st); auto; lia|].
    intros [[[l0 l1] l2] l3] HQ. rewrite UNINTLEAVE_eq.
    pose proof (HQ 0%nat ltac:(lia)) as [V0 Q0]. pose proof (HQ 1%nat ltac:(lia)) as [V1 Q1].
    pose proof (HQ 2%nat ltac:(lia)) as [V2 Q2]. pose proof (HQ 3%nat ltac:(lia)) as [V3 Q3]. cbn [quad_nth nth] in V0, V1, V2, V3, Q0, Q1, Q2, Q3.
    wstep. eapply wp_conseq; [apply (proj2_sig (load_quad_wp io lo i)); auto; lia|].
    intros [[[w0 w1] w2] w3] HW.
    assert (HW' : forall j, (j < 4)%nat -> vec4 (quad_nth (w0, w1, w2, w3) j) /\ forall k m, (k < 4)%nat -> (m < 8)%nat ->
       lbyte (nth k (quad_nth (w0, w1, w2, w3) j) 0) m = nth (io + 8 * lo * j + (8 * (i + k) + m)) data 0).
    { intros j Hj. destruct (HW j Hj) as [V X]. split; auto. intros k m Hk Hm. rewrite X by auto.
      eapply drawn_fresh; [exact Hd| |exact Hcl|exact Hap|exact Hj| |]; intros; cbn beta; lia. }
    pose proof (HW' 0%nat ltac:(lia)) as [U0 W0]. pose proof (HW' 1%nat ltac:(lia)) as [U1 W1].
    pose proof (HW' 2%nat ltac:(lia)) as [U2 W2]. pose proof (HW' 3%nat ltac:(lia)) as [U3 W3]. cbn [quad_nth nth] in U0, U1, U2, U3, W0, W1, W2, W3.
    apply store_quad_drawn; auto; try lia.
    intros j k m Hj Hk Hm.
    do 4 (destruct j as [|j]; [cbn [quad_nth nth]; rewrite nth_v_xor by lia; rewrite lbyte_lxor; unfold F; rewrite Z.lxor_comm; f_equal;
       [auto; fail|do 4 (destruct k as [|k]; [cbn [nth]; auto; fail|]); lia]|]). lia.
  - intros i d Hi Hd. cbn [strips].
    assert (X : forall K d, drawn F data oo lo K d -> (forall j, (j < 4)%nat -> (K j <= lc)%nat) ->
       forall j, (j < 4)%nat -> K j = i -> forall y, (forall m, (m < 8)%nat -> lbyte y m = nth (io + 8 * lo * j + 8 * i + m) d 0) ->
       forall x, (forall m, (m < 8)%nat -> lbyte x m = g j (8 * i + m)%nat) ->
       forall m, (m < 8)%nat -> lbyte (Z.lxor y x) m = F j (8 * i + m)%nat).
    { intros K d' Hd' HK j Hj Ej y Hy x Hx m Hm. rewrite lbyte_lxor, Hy, Hx by auto. unfold F. f_equal.
      rewrite <- Nat.add_assoc. eapply drawn_fresh; [exact Hd'|exact HK|exact Hcl|exact Hap|exact Hj| |]; lia. }
    pose proof (drawn_bytes F data oo lo RF B _ _ Hd) as Bd. pose proof Hd as [Ld _].
    wstep. eapply wp_conseq; [apply (proj2_sig (read64_wp (io + 8 * i)) d a); auto; [lia|]|].
    { replace (io + 8 * i)%nat with (io + 8 * lo * 0 + 8 * i)%nat by lia. now apply strip_aligned. }
    intros y0 [_ Y0].
    wstep. eapply wp_conseq; [apply (proj2_sig (lane_get_wp (4 * i)) g st i 0%nat); auto; lia|]. intros x0 [_ X0].
    wstep. eapply wp_conseq; [apply (write64_drawn F data oo lo (oo + 8 * i) (fun _ => i) d a 0%nat i); auto; try lia|].
    { eapply X; [exact Hd|intros; lia|lia|reflexivity| |exact X0]. intros m Hm. rewrite Y0 by auto. f_equal. lia. }
    intros d0 D0.
    pose proof (drawn_bytes F data oo lo RF B _ _ D0) as Bd0. pose proof D0 as [Ld0 _].
    wstep. eapply wp_conseq; [apply (proj2_sig (read64_wp (io + 8 * lo * 1 + 8 * i)) d0 a); auto; [lia|now apply strip_aligned]|]. intros y1 [_ Y1].
    wstep. eapply wp_conseq; [apply (proj2_sig (lane_get_wp (4 * i + 1)) g st i 1%nat); auto; lia|]. intros x1 [_ X1].
    wstep. eapply wp_conseq; [eapply (write64_drawn F data oo lo (oo + 8 * lo * 1 + 8 * i) _ d0 a 1%nat i); [reflexivity|exact D0|lia|reflexivity|lia|lia|assumption|]|].
    { eapply X; [exact D0|intros j Hj; unfold bump; destruct (_ =? _)%nat; lia|lia|reflexivity|exact Y1|exact X1]. }
    intros d1 D1.
    pose proof (drawn_bytes F data oo lo RF B _ _ D1) as Bd1. pose proof D1 as [Ld1 _].
    wstep. eapply wp_conseq; [apply (proj2_sig (read64_wp (io + 8 * lo * 2 + 8 * i)) d1 a); auto; [lia|now apply strip_aligned]|]. intros y2 [_ Y2].
    wstep. eapply wp_conseq; [apply (proj2_sig (lane_get_wp (4 * i + 2)) g st i 2%nat); auto; lia|]. intros x2 [_ X2].
    wstep. eapply wp_conseq; [eapply (write64_drawn F data oo lo (oo + 8 * lo * 2 + 8 * i) _ d1 a 2%nat i); [reflexivity|exact D1|lia|reflexivity|lia|lia|assumption|]|].
    { eapply X; [exact D1|intros j Hj; unfold bump; do 4 (destruct j as [|j]; [cbn; lia|]); lia|lia|reflexivity|exact Y2|exact X2]. }
    intros d2 D2.
    pose proof (drawn_bytes F data oo lo RF B _ _ D2) as Bd2. pose proof D2 as [Ld2 _].
    wstep. eapply wp_conseq; [apply (proj2_sig (read64_wp (io + 8 * lo * 3 + 8 * i)) d2 a); auto; [lia|now apply strip_aligned]|]. intros y3 [_ Y3].
    wstep. eapply wp_conseq; [apply (proj2_sig (lane_get_wp (4 * i + 3)) g st i 3%nat); auto; lia|]. intros x3 [_ X3].
    eapply wp_conseq; [eapply (write64_drawn F data oo lo (oo + 8 * lo * 3 + 8 * i) _ d2 a 3%nat i); [reflexivity|exact D2|lia|reflexivity|lia|lia|assumption|]|].
    { eapply X; [exact D2|intros j Hj; unfold bump; do 4 (destruct j as [|j]; [cbn; lia|]); lia|lia|reflexivity|exact Y3|exact X3]. }
    intros d3 D3.
    eapply drawn_ext; [|exact D3]. intros j Hj. unfold bump. do 4 (destruct j as [|j]; [reflexivity|]). lia.
  - split; auto. intros p. unfold wr. cbv zeta. rewrite Nat.mul_0_r. rewrite (proj2 (Nat.ltb_ge _ _) (Nat.le_0_l _)).
    now rewrite andb_false_r.
Qed.
