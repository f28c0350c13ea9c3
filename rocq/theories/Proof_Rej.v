(** * rej_uniform (indcpa.c:121-142) against SampleNTT's acceptance rule *)
From Coq Require Import ZArith List Lia Bool.
From Verif Require Import CMonad WP Proof_Base Model_Params Model_Indcpa Spec_FIPS203.
Import ListNotations.
Open Scope Z_scope.

(** ** Bit arithmetic *)
Lemma lor_shifted a b m : 0 <= m -> 0 <= a < 2 ^ m -> 0 <= b -> Z.lor a (b * 2 ^ m) = a + b * 2 ^ m.
Proof.
  intros Hm Ha Hb.
  assert (E : Z.land a (b * 2 ^ m) = 0).
  { apply Z.bits_inj'. intros i Hi. rewrite Z.land_spec, Z.bits_0.
    destruct (Z.ltb_spec i m).
    - rewrite Z.mul_pow2_bits_low by lia. apply andb_false_r.
    - destruct (Z.eq_dec a 0) as [->|]; [now rewrite Z.bits_0|].
      rewrite Z.bits_above_log2; auto; try lia.
      assert (Z.log2 a < m) by (apply Z.log2_lt_pow2; lia). lia. }
  rewrite <- Z.lxor_lor by auto. symmetry. now apply Z.add_nocarry_lxor.
Qed.

Lemma land_fff x : 0 <= x -> Z.land x 0xFFF = x mod 4096.
Proof. intros. change 0xFFF with (Z.ones 12). rewrite Z.land_ones by lia. reflexivity. Qed.

Lemma val0_eq b0 b1 : 0 <= b0 <= 255 -> 0 <= b1 <= 255 ->
  Z.land (Z.lor (Z.shiftr b0 0) (u16 b1 * 2 ^ 8)) 0xFFF = b0 + 256 * (b1 mod 16).
Proof.
  intros. rewrite Z.shiftr_0_r, u16_small by lia. rewrite lor_shifted by lia.
  rewrite land_fff by lia. change (2 ^ 8) with 256.
  pose proof (Z.div_mod b1 16 ltac:(lia)). pose proof (Z.mod_pos_bound b1 16 ltac:(lia)).
  symmetry. apply Z.mod_unique with (q := b1 / 16); lia.
Qed.

Lemma val1_eq b1 b2 : 0 <= b1 <= 255 -> 0 <= b2 <= 255 ->
  Z.land (Z.lor (Z.shiftr b1 4) (u16 b2 * 2 ^ 4)) 0xFFF = b1 / 16 + 16 * b2.
Proof.
  intros. rewrite Z.shiftr_div_pow2, u16_small by lia. change (2 ^ 4) with 16.
  assert (0 <= b1 / 16 <= 15).
  { split; [apply Z.div_pos; lia|]. apply Z.lt_succ_r. apply Z.div_lt_upper_bound; lia. }
  change 16 with (2 ^ 4) at 2. rewrite lor_shifted by lia. rewrite land_fff by lia.
  change (2 ^ 4) with 16. rewrite Z.mod_small by lia. lia.
Qed.

(** ** Lists *)
Definition ok_cand (d : Z) : bool := d <? q.

Lemma firstn_app_le {A} m (a b : list A) : (length a <= m)%nat -> firstn m (a ++ b) = a ++ firstn (m - length a) b.
Proof. intros. rewrite firstn_app, firstn_all2 by lia. reflexivity. Qed.

(** The accepted candidates of triples t .. t+m-1, at most len of them *)
Definition rej (len : nat) (s : nat -> Z) (t m : nat) : list Z :=
  firstn len (filter ok_cand (flat_map (candidates s) (seq t m))).

Lemma rej_0 len s t : rej len s t 0 = [].
Proof. unfold rej. cbn. apply firstn_nil. Qed.

Lemma rej_len0 s t m : rej 0 s t m = [].
Proof. reflexivity. Qed.

Lemma firstn_firstn_app {A} m (a b : list A) :
  firstn m (a ++ b) = firstn m a ++ firstn (m - length (firstn m a)) b.
Proof. rewrite firstn_app, firstn_length. f_equal. f_equal. lia. Qed.

Lemma rej_S len s t m :
  rej len s t (S m) = rej len s t 1 ++ rej (len - length (rej len s t 1)) s (S t) m.
Proof.
  unfold rej. cbn [seq flat_map]. rewrite app_nil_r, filter_app. apply firstn_firstn_app.
Qed.

Lemma rej_length_le len s t m : (length (rej len s t m) <= len)%nat.
Proof. unfold rej. rewrite firstn_length. lia. Qed.

Definition byte_stream (buflen : nat) (s : nat -> Z) : Prop := forall i, (i < buflen)%nat -> 0 <= s i <= 255.
Definition agrees (buflen : nat) (buf : list Z) (s : nat -> Z) : Prop :=
  (buflen <= length buf)%nat /\ forall i, (i < buflen)%nat -> nth i buf 0 = s i.

Definition rej_cond (len buflen : nat) (st : nat * nat * list Z) : res bool :=
  let '(ctr, pos, r) := st in test_and (ctr <? len)%nat (test (pos + 3 <=? buflen)%nat).

Definition rej_put (ro ctr : nat) (r : list Z) (v : Z) (c : bool) : res (nat * list Z) :=
  if c then (r <- aset r (ro + ctr) (i16 v) ;; ret (S ctr, r)) else ret (ctr, r).

Definition rej_body (ro len : nat) (buf : list Z) (st : nat * nat * list Z) : res (nat * nat * list Z) :=
  let '(ctr, pos, r) := st in
  b0 <- aget buf (pos + 0) ;; x <- shr 32 b0 0 ;;
  b1 <- aget buf (pos + 1) ;; y <- ishl (u16 b1) 8 ;;
  let val0 := u16 (Z.land (Z.lor x y) 0xFFF) in
  b1 <- aget buf (pos + 1) ;; x <- shr 32 b1 4 ;;
  b2 <- aget buf (pos + 2) ;; y <- ishl (u16 b2) 4 ;;
  let val1 := u16 (Z.land (Z.lor x y) 0xFFF) in
  let pos := (pos + 3)%nat in
  c <- test (val0 <? KYBER_Q) ;;
  '(ctr, r) <- rej_put ro ctr r val0 c ;;
  c <- test_and (ctr <? len)%nat (test (val1 <? KYBER_Q)) ;;
  '(ctr, r) <- rej_put ro ctr r val1 c ;;
  ret (ctr, pos, r).

Lemma rej_uniform_unfold r ro len buf buflen :
  rej_uniform r ro len buf buflen =
  (s <- while_ (S buflen) (rej_cond len buflen) (rej_body ro len buf) (0%nat, 0%nat, r) ;;
   ret (fst (fst s), snd s)).
Proof.
  transitivity ('(ctr, pos, r) <- while_ (S buflen) (rej_cond len buflen) (rej_body ro len buf) (0%nat, 0%nat, r) ;;
    ret (ctr, r)); [reflexivity|].
  destruct (while_ _ _ _ _) as [[[c p] r']| | |]; reflexivity.
Qed.

Lemma rej_put_wp ro ctr v (c : bool) :
  traced (fun T => forall r, (c = true -> (ro + ctr < length r)%nat) -> 0 <= v < 4096 ->
    wp (rej_put ro ctr r v c) T
       (fun st => st = if c then (S ctr, splice r (ro + ctr) [v]) else (ctr, r))).
Proof.
  destruct c; eexists; intros r Hr Hv; unfold rej_put.
  - wstep. wstep; [auto|]. wstep. rewrite i16_small by lia.
    pose proof (splice_snoc r (ro + ctr) [] v (ro + ctr)) as E. rewrite splice_nil in E.
    cbn [length app] in E. rewrite E by (auto; lia). reflexivity.
  - wstep. reflexivity.
Qed.

Lemma rej_body_wp ro len buflen s ctr t :
  (ctr < len)%nat -> (3 * t + 3 <= buflen)%nat -> byte_stream buflen s ->
  traced (fun T => forall r buf, (ro + len <= length r)%nat -> agrees buflen buf s ->
    wp (rej_body ro len buf (ctr, 3 * t, r)%nat) T
       (fun st => st = (ctr + length (rej (len - ctr) s t 1), 3 * S t,
                        splice r (ro + ctr) (rej (len - ctr) s t 1))%nat)).
Proof.
  intros Hc Ht Hs.
  set (v0 := s (3 * t)%nat + 256 * (s (3 * t + 1)%nat mod 16)).
  set (v1 := s (3 * t + 1)%nat / 16 + 16 * s (3 * t + 2)%nat).
  pose proof (Hs (3 * t)%nat ltac:(lia)) as B0. pose proof (Hs (3 * t + 1)%nat ltac:(lia)) as B1.
  pose proof (Hs (3 * t + 2)%nat ltac:(lia)) as B2.
  assert (R0 : 0 <= v0 < 4096).
  { unfold v0. pose proof (Z.mod_pos_bound (s (3 * t + 1)%nat) 16 ltac:(lia)). lia. }
  assert (R1 : 0 <= v1 < 4096).
  { unfold v1. assert (0 <= s (3 * t + 1)%nat / 16) by (apply Z.div_pos; lia).
    assert (s (3 * t + 1)%nat / 16 < 16) by (apply Z.div_lt_upper_bound; lia). lia. }
  set (c0 := v0 <? q). set (ctr1 := if c0 then S ctr else ctr).
  set (c1 := ((ctr1 <? len)%nat && (v1 <? q))%bool).
  assert (EA : rej (len - ctr) s t 1 =
               (if c0 then [v0] else []) ++ (if c1 then [v1] else [])).
  { unfold rej. cbn [seq flat_map]. rewrite app_nil_r. unfold candidates. fold v0 v1.
    unfold c1, ctr1, c0. cbn [filter]. unfold ok_cand.
    destruct (v0 <? q), (v1 <? q); rewrite ?andb_true_r, ?andb_false_r;
      destruct (Nat.ltb_spec (S ctr) len); destruct (Nat.ltb_spec ctr len); try lia; cbn [app].
    all: first [ rewrite firstn_all2 by (cbn [length]; lia); reflexivity
               | replace (len - ctr)%nat with 1%nat by lia; reflexivity ]. }
  assert (TA : traced (fun T => wp (test_and (ctr1 <? len)%nat (test (v1 <? q))) T (fun b => b = c1))).
  { unfold c1, test_and. destruct (ctr1 <? len)%nat; eexists; wstep; wstep; [wstep; reflexivity|wstep; reflexivity]. }
  destruct (rej_put_wp ro ctr v0 c0) as [T0 W0].
  destruct (rej_put_wp ro ctr1 v1 c1) as [T1 W1].
  destruct TA as [TA WA].
  eexists. intros r buf Hr [Hb Hg]. unfold rej_body.
  rewrite (Nat.add_0_r (3 * t)).
  wstep. wstep; [lia|]. rewrite Hg by lia. wstep. wstep; [lia|].
  wstep. wstep; [lia|]. rewrite Hg by lia. wstep. wstep; try (rewrite u16_small by lia; lia); [lia|].
  rewrite val0_eq by lia. fold v0. cbv zeta.
  wstep. wstep; [lia|]. rewrite Hg by lia. wstep. wstep; [lia|].
  wstep. wstep; [lia|]. rewrite Hg by lia. wstep. wstep; try (rewrite u16_small by lia; lia); [lia|].
  rewrite val1_eq by lia. fold v1. rewrite !u16_small by lia. change KYBER_Q with q.
  wstep. wstep. fold c0.
  wstep. eapply wp_conseq; [apply W0; auto; lia|].
  intros st Est.
  replace st with (ctr1, splice r (ro + ctr) (if c0 then [v0] else [])) by
    (rewrite Est; unfold ctr1; destruct c0; [reflexivity|now rewrite splice_nil]). clear Est st.
  wstep. eapply wp_conseq; [exact WA|]. intros b ->.
  wstep. eapply wp_conseq; [apply W1; auto|].
  { intros E. unfold c1 in E. apply andb_prop in E as [E _]. apply Nat.ltb_lt in E.
    rewrite splice_length; [lia|]. destruct c0; cbn [length]; lia. }
  intros st ->.
  assert (Ec : ctr1 = (ctr + length (if c0 then [v0] else []))%nat).
  { unfold ctr1. destruct c0; cbn [length]; lia. }
  rewrite EA, app_length.
  destruct c1 eqn:Ec1; wstep.
  - unfold c1 in Ec1. apply andb_prop in Ec1 as [E _]. apply Nat.ltb_lt in E.
    rewrite splice_splice_next by (cbn [length]; lia). cbn [length].
    replace (3 * t + 3)%nat with (3 * S t)%nat by lia.
    replace (S ctr1) with (ctr + (length (if c0 then [v0] else []) + 1))%nat by lia. reflexivity.
  - rewrite app_nil_r. cbn [length]. replace (3 * t + 3)%nat with (3 * S t)%nat by lia.
    rewrite Nat.add_0_r, <- Ec. reflexivity.
Qed.

Lemma rej_loop_wp ro len buflen s : byte_stream buflen s ->
  forall fuel ctr t, (buflen / 3 - t < fuel)%nat -> (t <= buflen / 3)%nat -> (ctr <= len)%nat ->
  traced (fun T => forall r buf, (ro + len <= length r)%nat -> agrees buflen buf s ->
    wp (while_ fuel (rej_cond len buflen) (rej_body ro len buf) (ctr, 3 * t, r)%nat) T
       (fun st => (fst (fst st), snd st) =
          (ctr + length (rej (len - ctr) s t (buflen / 3 - t)),
           splice r (ro + ctr) (rej (len - ctr) s t (buflen / 3 - t)))%nat)).
Proof.
  intros Hs. pose proof (Nat.div_mod buflen 3 ltac:(lia)) as DM.
  pose proof (Nat.mod_upper_bound buflen 3 ltac:(lia)) as DU.
  set (m := (buflen / 3)%nat) in *. clearbody m.
  induction fuel as [|fuel IH]; intros ctr t Hf Ht Hc; [exfalso; lia|].
  destruct (Compare_dec.lt_dec ctr len) as [Hlt|Hge].
  - destruct (Compare_dec.lt_dec t m) as [Htm|Htm].
    + destruct (rej_body_wp ro len buflen s ctr t Hlt ltac:(lia) Hs) as [T1 W1].
      set (A := rej (len - ctr) s t 1) in *.
      assert (LA : (length A <= len - ctr)%nat) by apply rej_length_le.
      destruct (IH (ctr + length A)%nat (S t) ltac:(lia) ltac:(lia) ltac:(lia)) as [T2 W2].
      eexists. intros r buf Hr Hg. cbn [while_].
      wstep. unfold rej_cond at 1. unfold test_and.
      replace (ctr <? len)%nat with true by (symmetry; apply Nat.ltb_lt; lia).
      replace (3 * t + 3 <=? buflen)%nat with true by (symmetry; apply Nat.leb_le; lia).
      wstep. wstep. wstep. wstep. eapply wp_conseq; [apply W1; auto|]. intros st ->.
      eapply wp_conseq; [apply W2; [rewrite splice_length; lia|exact Hg]|].
      intros st ->. replace (m - t)%nat with (S (m - S t)) by lia.
      rewrite rej_S. fold A. replace (len - ctr - length A)%nat with (len - (ctr + length A))%nat by lia.
      set (B := rej (len - (ctr + length A)) s (S t) (m - S t)).
      assert (LB : (length B <= len - (ctr + length A))%nat) by apply rej_length_le.
      rewrite splice_splice_next by lia. rewrite app_length.
      replace (ctr + length A + length B)%nat with (ctr + (length A + length B))%nat by lia. reflexivity.
    + eexists. intros r buf Hr Hg. cbn [while_].
      wstep. unfold rej_cond at 1. unfold test_and.
      replace (ctr <? len)%nat with true by (symmetry; apply Nat.ltb_lt; lia).
      replace (3 * t + 3 <=? buflen)%nat with false by (symmetry; apply Nat.leb_gt; lia).
      wstep. wstep. wstep. wstep. cbn [fst snd].
      replace (m - t)%nat with 0%nat by lia. rewrite rej_0, splice_nil. cbn [length].
      now rewrite Nat.add_0_r.
  - eexists. intros r buf Hr Hg. cbn [while_].
    wstep. unfold rej_cond at 1. unfold test_and.
    replace (ctr <? len)%nat with false by (symmetry; apply Nat.ltb_ge; lia).
    wstep. wstep. wstep. wstep. cbn [fst snd].
    replace (len - ctr)%nat with 0%nat by lia. rewrite rej_len0, splice_nil. cbn [length].
    now rewrite Nat.add_0_r.
Qed.

(** The whole function: it stores the first [len] accepted candidates. *)
Lemma rej_uniform_wp ro len buflen s : byte_stream buflen s ->
  traced (fun T => forall r buf, (ro + len <= length r)%nat -> agrees buflen buf s ->
    wp (rej_uniform r ro len buf buflen) T
       (fun st => st = (length (rej len s 0 (buflen / 3)), splice r ro (rej len s 0 (buflen / 3))))).
Proof.
  intros Hs.
  assert (D : (buflen / 3 <= buflen)%nat) by (apply Nat.div_le_upper_bound; lia).
  destruct (rej_loop_wp ro len buflen s Hs (S buflen) 0 0 ltac:(lia) ltac:(lia) ltac:(lia)) as [T W].
  eexists. intros r buf Hr Hg. rewrite rej_uniform_unfold. wstep.
  eapply wp_conseq; [apply (W r buf Hr Hg)|]. intros st E. wstep. rewrite E.
  now rewrite !Nat.sub_0_r, Nat.add_0_r.
Qed.
