(** * gen_matrix (indcpa.c:165-190) against SampleNTT *)
From Coq Require Import ZArith List Lia Bool.
From Verif Require Import CMonad WP Proof_Base Levels Model_Params Model_Fips202 Model_Symmetric Model_Polyvec Model_Indcpa
  Spec_FIPS202 Spec_FIPS203 Proof_Keccak Proof_Shake Proof_Hash Proof_Symmetric Proof_Rej.
Import ListNotations.
Open Scope Z_scope.

(** ** Accepted candidates of a growing prefix of the stream *)
Lemma candidates_shift s m t : candidates s (m + t) = candidates (fun i => s (3 * m + i)%nat) t.
Proof.
  unfold candidates. replace (3 * (m + t))%nat with (3 * m + 3 * t)%nat by lia.
  now rewrite !Nat.add_assoc.
Qed.

Lemma accepted_add s m m' : accepted s (m + m') = accepted s m ++ accepted (fun i => s (3 * m + i)%nat) m'.
Proof.
  unfold accepted. rewrite seq_app, flat_map_app, filter_app. cbn [Nat.add].
  f_equal. f_equal.
  assert (G : forall o, flat_map (candidates s) (seq (m + o) m') =
                        flat_map (candidates (fun i => s (3 * m + i)%nat)) (seq o m')).
  { induction m' as [|m' IH]; intros o; [reflexivity|]. cbn [seq flat_map].
    rewrite candidates_shift, <- IH. now rewrite Nat.add_succ_r. }
  rewrite <- G, Nat.add_0_r. reflexivity.
Qed.

Lemma accepted_ext s s' m : (forall i, (i < 3 * m)%nat -> s i = s' i) -> accepted s m = accepted s' m.
Proof.
  intros E. unfold accepted. f_equal.
  assert (G : forall o m', (o + m' <= m)%nat -> flat_map (candidates s) (seq o m') = flat_map (candidates s') (seq o m')).
  { intros o m'. revert o. induction m' as [|m' IH]; intros o Ho; [reflexivity|]. cbn [seq flat_map].
    rewrite IH by lia. f_equal. unfold candidates. rewrite !E by lia. reflexivity. }
  apply G. lia.
Qed.

Lemma rej_accepted len s m : rej len s 0 m = firstn len (accepted s m).
Proof. reflexivity. Qed.

Lemma accepted_mono s m m' : (m <= m')%nat -> (256 <= length (accepted s m))%nat ->
  firstn 256 (accepted s m') = firstn 256 (accepted s m).
Proof.
  intros Hm Hl. replace m' with (m + (m' - m))%nat by lia. rewrite accepted_add.
  rewrite firstn_app. replace (256 - length (accepted s m))%nat with 0%nat by lia. cbn [firstn].
  apply app_nil_r.
Qed.

Lemma accepted_length_mono s m m' : (m <= m')%nat -> (length (accepted s m) <= length (accepted s m'))%nat.
Proof.
  intros Hm. replace m' with (m + (m' - m))%nat by lia. rewrite accepted_add, app_length. lia.
Qed.

(** SampleNTT is a partial function. *)
Lemma SampleNTT_functional B a a' : SampleNTT B a -> SampleNTT B a' -> a = a'.
Proof.
  intros (m & Hm & ->) (m' & Hm' & ->).
  destruct (Nat.le_ge_cases m m') as [L|L].
  - symmetry. now apply accepted_mono.
  - now apply accepted_mono.
Qed.

Lemma accepted_range s m x : (forall i, 0 <= s i <= 255) -> In x (accepted s m) -> 0 <= x < q.
Proof.
  intros Hs Hx. unfold accepted in Hx. apply filter_In in Hx as [Hin Hq]. apply Z.ltb_lt in Hq.
  split; auto. apply in_flat_map in Hin as (t & _ & Hc). unfold candidates in Hc. cbn [In] in Hc.
  pose proof (Hs (3 * t)%nat). pose proof (Hs (3 * t + 1)%nat). pose proof (Hs (3 * t + 2)%nat).
  pose proof (Z.mod_pos_bound (s (3 * t + 1)%nat) 16 ltac:(lia)).
  assert (0 <= s (3 * t + 1)%nat / 16) by (apply Z.div_pos; lia).
  destruct Hc as [<-|[<-|[]]]; lia.
Qed.

Lemma XOF_range B i : 0 <= XOF B i <= 255.
Proof. rewrite XOF_stream. apply stream_range. Qed.

(** The triples that [fuel] units of fuel allow to be examined: three blocks
    first, one more per iteration of the refill loop.  *)
Definition triples (fuel : nat) : nat := (168 + 56 * (fuel - 1))%nat.
Definition enough (fuel : nat) (B : list Z) : Prop :=
  (0 < fuel)%nat /\ (256 <= length (accepted (XOF B) (triples fuel)))%nat.
Definition sampled (fuel : nat) (B : list Z) : list Z := firstn 256 (accepted (XOF B) (triples fuel)).

Lemma enough_dec fuel B : {enough fuel B} + {~ enough fuel B}.
Proof.
  unfold enough. destruct (Compare_dec.lt_dec 0 fuel) as [H1|H1].
  - destruct (Compare_dec.le_dec 256 (length (accepted (XOF B) (triples fuel)))) as [H2|H2].
    + left. now split.
    + right. now intros [_ H3].
  - right. now intros [H3 _].
Qed.

Lemma enough_mono fuel fuel' B : (fuel <= fuel')%nat -> enough fuel B -> enough fuel' B.
Proof.
  intros Hf [H1 H2]. split; [lia|].
  pose proof (accepted_length_mono (XOF B) (triples fuel) (triples fuel') ltac:(unfold triples; lia)). lia.
Qed.

Lemma sampled_SampleNTT fuel B : enough fuel B -> SampleNTT B (sampled fuel B).
Proof. intros [_ E]. exists (triples fuel). now split. Qed.

Lemma SampleNTT_enough B a : SampleNTT B a -> exists fuel, enough fuel B.
Proof.
  intros (m & Hm & _). exists (S m). split; [lia|].
  pose proof (accepted_length_mono (XOF B) m (triples (S m)) ltac:(unfold triples; lia)). lia.
Qed.

Lemma sampled_length fuel B : enough fuel B -> length (sampled fuel B) = 256%nat.
Proof. intros [_ E]. unfold sampled. rewrite firstn_length. lia. Qed.

Lemma sampled_range fuel B : bnd 0 3328 (sampled fuel B).
Proof.
  apply bnd_Forall, Forall_forall. intros x Hx.
  assert (Hin : In x (accepted (XOF B) (triples fuel))).
  { rewrite <- (firstn_skipn 256 (accepted _ _)). apply in_or_app. now left. }
  pose proof (accepted_range _ _ _ (XOF_range B) Hin) as R. change q with 3329 in R. lia.
Qed.

(** ** One entry *)
Local Opaque stream.

Definition refill_cond (s : nat * list Z * list Z * keccak_state) : res bool :=
  let '(ctr, coeffs, buf, state) := s in test (ctr <? KYBER_N)%nat.
Definition refill_body (s : nat * list Z * list Z * keccak_state) : res (nat * list Z * list Z * keccak_state) :=
  let '(ctr, coeffs, buf, state) := s in
  '(buf, state) <- xof_squeezeblocks buf 0 1 state ;;
  '(n, coeffs) <- rej_uniform coeffs ctr (KYBER_N - ctr) buf XOF_BLOCKBYTES ;;
  ret ((ctr + n)%nat, coeffs, buf, state).

(** After t refills *)
Definition acc (B : list Z) (t : nat) : list Z := accepted (XOF B) (168 + 56 * t).
Definition refilled (B : list Z) (c0 : list Z) (t : nat) (s : nat * list Z * list Z * keccak_state) : Prop :=
  let '(ctr, coeffs, buf, state) := s in
  ctr = length (firstn 256 (acc B t)) /\
  coeffs = splice c0 0 (firstn 256 (acc B t)) /\
  length buf = 504%nat /\ squeezing 168 B ((3 + t) * 168) state.

Lemma acc_next B t : (length (acc B t) < 256)%nat ->
  firstn 256 (acc B (S t)) = firstn 256 (acc B t) ++
    rej (256 - length (firstn 256 (acc B t))) (fun j => stream 168 shake_sfx B ((3 + t) * 168 + j)) 0 (168 / 3).
Proof.
  intros Hl. unfold acc. replace (168 + 56 * S t)%nat with ((168 + 56 * t) + 56)%nat by lia.
  rewrite accepted_add. fold (acc B t). rewrite firstn_app_le by lia.
  rewrite (firstn_all2 (acc B t)) by lia. rewrite rej_accepted. change (168 / 3)%nat with 56%nat.
  rewrite (accepted_ext (fun i => XOF B (3 * (168 + 56 * t) + i)%nat)
             (fun j => stream 168 shake_sfx B ((3 + t) * 168 + j)) 56); [reflexivity|].
  intros i _. rewrite XOF_stream. f_equal. lia.
Qed.

Lemma refill_body_wp B t : (length (acc B t) < 256)%nat ->
  traced (fun T => forall c0 s, length c0 = 256%nat -> refilled B c0 t s ->
    wp (refill_body s) T (refilled B c0 (S t))).
Proof.
  intros Hl.
  set (s' := fun j => stream 168 shake_sfx B ((3 + t) * 168 + j)).
  destruct (shake_squeezeblocks_wp 168 21 0 1 rate168) as [T1 W1].
  destruct (rej_uniform_wp (length (firstn 256 (acc B t))) (256 - length (firstn 256 (acc B t))) 168 s') as [T2 W2].
  { intros i _. apply stream_range. }
  eexists. intros c0 [[[ctr coeffs] buf] state] Hc (Ec & Eco & Lb & HS). unfold refill_body. subst ctr coeffs.
  assert (Lf : (length (firstn 256 (acc B t)) <= 256)%nat) by (rewrite firstn_length; lia).
  wstep. eapply wp_conseq; [apply (W1 state buf B (3 + t)%nat HS); lia|].
  intros [buf' state'] [Eb HS']. subst buf'.
  assert (Lb' : length (splice buf 0 (mk (168 * 1) s')) = 504%nat) by (rewrite splice_length; rewrite ?mk_length; lia).
  wstep. eapply wp_conseq.
  { apply W2.
    - rewrite splice_length by lia. lia.
    - split; [fold s'; lia|]. intros i Hi. rewrite nth_splice by (rewrite mk_length; lia).
      rewrite mk_length. destruct (Nat.ltb_spec i 0); [lia|].
      destruct (Nat.ltb_spec i (0 + 168 * 1)); [|lia]. rewrite Nat.sub_0_r. rewrite nth_mk by lia. reflexivity. }
  intros st ->. wstep. unfold refilled. rewrite (acc_next B t Hl). fold s'.
  set (R := rej _ s' 0 (168 / 3)).
  assert (LR : (length R <= 256 - length (firstn 256 (acc B t)))%nat) by apply rej_length_le.
  split; [now rewrite app_length|]. split; [apply splice_splice_next; lia|].
  split; [exact Lb'|]. replace (3 + S t)%nat with (3 + t + 1)%nat by lia. exact HS'.
Qed.

Lemma refill_wp B fuel : forall t, (0 < fuel)%nat -> (256 <= length (acc B (t + (fuel - 1))))%nat ->
  traced (fun T => forall c0 s, length c0 = 256%nat -> refilled B c0 t s ->
    wp (while_ fuel refill_cond refill_body s) T
       (fun s' => snd (fst (fst s')) = firstn 256 (acc B (t + (fuel - 1))) /\
                  length (snd (fst s')) = 504%nat /\ length (ks (snd s')) = 25%nat)).
Proof.
  induction fuel as [|fuel IH]; intros t Hf He; [exfalso; lia|].
  destruct (Compare_dec.lt_dec (length (acc B t)) 256) as [Hlt|Hge].
  - destruct (refill_body_wp B t Hlt) as [T1 W1].
    assert (Hf' : (0 < fuel)%nat).
    { destruct fuel; [|lia]. exfalso. replace (t + (1 - 1))%nat with t in He by lia. lia. }
    destruct (IH (S t) Hf') as [T2 W2].
    { replace (S t + (fuel - 1))%nat with (t + (S fuel - 1))%nat by lia. exact He. }
    eexists. intros c0 s Hc HI. cbn [while_]. wstep.
    assert (Ec : refill_cond s = test true).
    { destruct s as [[[ctr coeffs] buf] state]. destruct HI as (-> & _). unfold refill_cond.
      rewrite firstn_length. replace (_ <? _)%nat with true; [reflexivity|].
      symmetry. apply Nat.ltb_lt. change KYBER_N with 256%nat. lia. }
    rewrite Ec. wstep. wstep. eapply wp_conseq; [apply (W1 c0 s Hc HI)|].
    intros s' HI'. eapply wp_conseq; [apply (W2 c0 s' Hc HI')|].
    intros s'' H''. replace (t + (S fuel - 1))%nat with (S t + (fuel - 1))%nat by lia. exact H''.
  - eexists. intros c0 s Hc HI. cbn [while_]. wstep.
    assert (Ec : refill_cond s = test false).
    { destruct s as [[[ctr coeffs] buf] state]. destruct HI as (-> & _). unfold refill_cond.
      rewrite firstn_length. replace (_ <? _)%nat with false; [reflexivity|].
      symmetry. apply Nat.ltb_ge. change KYBER_N with 256%nat. lia. }
    rewrite Ec. wstep. wstep. destruct s as [[[ctr coeffs] buf] state]. destruct HI as (_ & Eco & Lb & HS).
    cbn [fst snd]. split; [|split; [exact Lb|]].
    + subst coeffs. rewrite splice_full by (rewrite firstn_length; lia).
      symmetry. unfold acc. apply accepted_mono; [lia|]. fold (acc B t). lia.
    + apply HS.
Qed.

Lemma refill_timeout B fuel : forall t c0 s, (length (acc B (t + (fuel - 1))) < 256)%nat ->
  length c0 = 256%nat -> refilled B c0 t s ->
  while_ fuel refill_cond refill_body s = Timeout.
Proof.
  induction fuel as [|fuel IH]; intros t c0 s He Hc HI; [reflexivity|].
  assert (Hlt : (length (acc B t) < 256)%nat).
  { pose proof (accepted_length_mono (XOF B) (168 + 56 * t) (168 + 56 * (t + (S fuel - 1))) ltac:(lia)) as M.
    fold (acc B t) in M. fold (acc B (t + (S fuel - 1))) in M. lia. }
  cbn [while_].
  assert (Ec : refill_cond s = test true).
  { destruct s as [[[ctr coeffs] buf] state]. destruct HI as (-> & _). unfold refill_cond.
    rewrite firstn_length. replace (_ <? _)%nat with true; [reflexivity|].
    symmetry. apply Nat.ltb_lt. change KYBER_N with 256%nat. lia. }
  rewrite Ec. unfold test, bind at 1.
  destruct (refill_body_wp B t Hlt) as [T1 W1]. destruct (W1 c0 s Hc HI) as (s' & E' & HI').
  rewrite E'.
  assert (E2 : while_ fuel refill_cond refill_body s' = Timeout).
  { destruct (Nat.eq_dec fuel 0) as [->|]; [reflexivity|]. apply (IH (S t) c0 s'); [|exact Hc|exact HI'].
    replace (S t + (fuel - 1))%nat with (t + (S fuel - 1))%nat by lia. exact He. }
  unfold bind. rewrite E2. reflexivity.
Qed.

Lemma bind_timeout {A B} (m : res A) (f : A -> res B) T P :
  wp m T P -> (forall v, P v -> f v = Timeout) -> bind m f = Timeout.
Proof. intros (v & -> & Hv) Hf. unfold bind. now rewrite (Hf v Hv). Qed.

Lemma bind_timeout_l {A B} (m : res A) (f : A -> res B) : m = Timeout -> bind m f = Timeout.
Proof. intros ->. reflexivity. Qed.

Lemma first_blocks B buf : length buf = 504%nat ->
  agrees 504 (splice buf 0 (mk (168 * 3) (fun j => stream 168 shake_sfx B (0 * 168 + j)))) (XOF B).
Proof.
  intros Lb. split.
  - rewrite splice_length; rewrite ?mk_length; lia.
  - intros i Hi. rewrite nth_splice by (rewrite mk_length; lia). rewrite mk_length.
    destruct (Nat.ltb_spec i 0); [lia|]. destruct (Nat.ltb_spec i (0 + 168 * 3)); [|lia].
    rewrite Nat.sub_0_r, nth_mk, XOF_stream by lia. reflexivity.
Qed.

Lemma refilled_0 B c0 buf state : length c0 = 256%nat -> length buf = 504%nat ->
  squeezing 168 B ((0 + 3) * 168) state ->
  refilled B c0 0 (length (rej 256 (XOF B) 0 (504 / 3)), splice c0 0 (rej 256 (XOF B) 0 (504 / 3)),
    splice buf 0 (mk (168 * 3) (fun j => stream 168 shake_sfx B (0 * 168 + j))), state).
Proof.
  intros Hc Lb HS. unfold refilled. rewrite rej_accepted. change (504 / 3)%nat with (168 + 56 * 0)%nat.
  fold (acc B 0). split; [reflexivity|]. split; [reflexivity|]. split; [|exact HS].
  rewrite splice_length; rewrite ?mk_length; lia.
Qed.

Section Entry.
Variables (fuel so : nat) (rho : list Z) (x y : Z).
Let B := rho ++ [x; y].

Definition entry_pre (c0 buf : list Z) (state : keccak_state) (seed : list Z) : Prop :=
  length c0 = 256%nat /\ length buf = 504%nat /\ length (ks state) = 25%nat /\
  (so + 32 <= length seed)%nat /\ bytes seed /\ sub seed so 32 = rho /\ 0 <= x <= 255 /\ 0 <= y <= 255.

Lemma gen_matrix_entry_wp : enough fuel B ->
  traced (fun T => forall (JJ : Junk) c0 buf state seed, entry_pre c0 buf state seed ->
    wp (gen_matrix_entry fuel c0 buf state seed so x y) T
       (fun '(c, b, s) => c = sampled fuel B /\ length b = 504%nat /\ length (ks s) = 25%nat)).
Proof.
  intros [Hf He].
  destruct (xof_absorb_wp so) as [T1 W1].
  destruct (shake_squeezeblocks_wp 168 21 0 3 rate168) as [T2 W2].
  destruct (rej_uniform_wp 0 256 504 (XOF B)) as [T3 W3]. { intros i _. apply XOF_range. }
  destruct (refill_wp B fuel 0 Hf He) as [T4 W4].
  eexists. intros JJ c0 buf state seed (Hc & Hb & Hk & Hs & Hby & Hrho & Hx & Hy). unfold gen_matrix_entry.
  wstep. eapply wp_conseq; [apply (W1 JJ state seed x y); auto|]. rewrite Hrho. fold B. intros st1 S1.
  wstep. eapply wp_conseq; [apply (W2 st1 buf B 0%nat S1); lia|].
  intros [buf' st2] [Eb S2]. subst buf'.
  wstep. eapply wp_conseq; [apply (W3 c0 _ ltac:(lia) (first_blocks B buf Hb))|].
  intros st ->.
  wstep. eapply wp_conseq; [apply (W4 c0 _ Hc (refilled_0 B c0 buf st2 Hc Hb S2))|].
  intros [[[ctr coeffs] b] s] (E1 & E2 & E3). cbn [fst snd] in *. wstep. auto.
Qed.

Lemma gen_matrix_entry_timeout : ~ enough fuel B ->
  forall (JJ : Junk) c0 buf state seed, entry_pre c0 buf state seed ->
    gen_matrix_entry fuel c0 buf state seed so x y = Timeout.
Proof.
  intros Hn JJ c0 buf state seed (Hc & Hb & Hk & Hs & Hby & Hrho & Hx & Hy).
  destruct (xof_absorb_wp so) as [T1 W1].
  destruct (shake_squeezeblocks_wp 168 21 0 3 rate168) as [T2 W2].
  destruct (rej_uniform_wp 0 256 504 (XOF B)) as [T3 W3]. { intros i _. apply XOF_range. }
  unfold gen_matrix_entry.
  eapply bind_timeout; [apply (W1 JJ state seed x y); auto|]. rewrite Hrho. fold B. intros st1 S1.
  eapply bind_timeout; [apply (W2 st1 buf B 0%nat S1); lia|].
  intros [buf' st2] [Eb S2]. subst buf'.
  eapply bind_timeout; [apply (W3 c0 _ ltac:(lia) (first_blocks B buf Hb))|].
  intros st ->. apply bind_timeout_l.
  destruct (Nat.eq_dec fuel 0) as [->|Hf]; [reflexivity|].
  apply (refill_timeout B fuel 0 c0); [|exact Hc|exact (refilled_0 B c0 buf st2 Hc Hb S2)].
  assert (~ (256 <= length (accepted (XOF B) (triples fuel)))%nat) as HH.
  { intros HH. apply Hn. split; [lia|exact HH]. }
  unfold triples in HH. unfold acc. cbn [Nat.add] in *. lia.
Qed.
End Entry.

(** ** Loops that may time out *)
Lemma for_timeout {St} (I : nat -> St -> Prop) m n lo body (s : St) :
  I lo s -> (lo <= m < lo + n)%nat ->
  (forall i s, (lo <= i < m)%nat -> I i s -> body i s = Timeout \/ exists T, wp (body i s) T (I (S i))) ->
  (forall s, I m s -> body m s = Timeout) ->
  for_ n lo body s = Timeout.
Proof.
  revert lo s; induction n as [|n IH]; intros lo s H0 Hm Hb Ht; [lia|]. cbn [for_].
  unfold emit. unfold bind at 1.
  destruct (Nat.eq_dec lo m) as [->|Hne].
  - rewrite (Ht s H0). reflexivity.
  - destruct (Hb lo s ltac:(lia) H0) as [E|(T & v & E & HI)].
    + rewrite E. reflexivity.
    + rewrite E. rewrite (bind_timeout (Ok v T) _ T (I (S lo))); [reflexivity|now exists v|].
      intros v' Hv'. apply (IH (S lo) v' Hv' ltac:(lia)); [|exact Ht].
      intros i s' Hi. apply Hb. lia.
Qed.

(** A [for] loop whose body has one trace per iteration has one trace. *)
Lemma traced_for {X St} n : forall lo (body : X -> nat -> St -> res St) (pre : X -> Prop) (I : X -> nat -> St -> Prop),
  (forall i, (lo <= i < lo + n)%nat ->
     traced (fun T => forall x s, pre x -> I x i s -> wp (body x i s) T (I x (S i)))) ->
  traced (fun T => forall x s, pre x -> I x lo s -> wp (for_ n lo (body x) s) T (I x (lo + n)%nat)).
Proof.
  induction n as [|n IH]; intros lo body pre I Hb.
  - eexists. intros x s Hp HI. cbn [for_]. wstep. wstep. wstep. now rewrite Nat.add_0_r.
  - destruct (Hb lo ltac:(lia)) as [T1 W1].
    destruct (IH (S lo) body pre I) as [T2 W2]; [intros i Hi; apply Hb; lia|].
    eexists. intros x s Hp HI. cbn [for_]. wstep. wstep. wstep.
    eapply wp_conseq; [apply (W1 x s Hp HI)|]. intros s1 HI1.
    replace (lo + S n)%nat with (S lo + n)%nat by lia. now apply W2.
Qed.

(** ** The whole matrix *)
Definition entry_input (rho : list Z) (transposed : bool) (i j : nat) : list Z :=
  if transposed then rho ++ [Z.of_nat i; Z.of_nat j] else rho ++ [Z.of_nat j; Z.of_nat i].
Definition wfmatrix (lv : level) (a : list polyvec) : Prop :=
  length a = KYBER_K lv /\ forall i, (i < KYBER_K lv)%nat -> length (nth i a []) = KYBER_K lv /\
    forall j, (j < KYBER_K lv)%nat -> length (nth j (nth i a []) []) = 256%nat.
Definition enough_all (lv : level) (fuel : nat) (rho : list Z) : Prop :=
  forall i j, (i < KYBER_K lv)%nat -> (j < KYBER_K lv)%nat -> enough fuel (rho ++ [Z.of_nat j; Z.of_nat i]).
Definition matrix (lv : level) (fuel : nat) (rho : list Z) (transposed : bool) : list polyvec :=
  mk (KYBER_K lv) (fun i => mk (KYBER_K lv) (fun j => sampled fuel (entry_input rho transposed i j))).

Lemma K_range lv : (2 <= KYBER_K lv <= 4)%nat.
Proof. destruct lv; simpl; lia. Qed.

Lemma u8_index lv i : (i < KYBER_K lv)%nat -> u8 (Z.of_nat i) = Z.of_nat i.
Proof. intros. pose proof (K_range lv). apply u8_small. lia. Qed.

Section Matrix.
Variables (lv : level) (fuel so : nat) (rho : list Z) (transposed : bool).
Notation K := (KYBER_K lv).

(** Filled up to row i, column j *)
Definition filled (i j : nat) (st : list polyvec * list Z * keccak_state) : Prop :=
  let '(a, buf, state) := st in
  wfmatrix lv a /\ length buf = 504%nat /\ length (ks state) = 25%nat /\
  (forall i' j', (i' < K)%nat -> (j' < K)%nat -> (i' < i \/ i' = i /\ j' < j)%nat ->
     nth j' (nth i' a []) [] = sampled fuel (entry_input rho transposed i' j')).

Definition inner `{Junk} (seed : list Z) (i j : nat) (s : list polyvec * list Z * keccak_state) :=
  let '(a, buf, state) := s in
  c <- test transposed ;;
  ai <- aget a i ;;
  aij <- aget ai j ;;
  '(aij, buf, state) <-
    (if (c : bool)
     then gen_matrix_entry fuel aij buf state seed so (u8 (Z.of_nat i)) (u8 (Z.of_nat j))
     else gen_matrix_entry fuel aij buf state seed so (u8 (Z.of_nat j)) (u8 (Z.of_nat i))) ;;
  ai <- aset ai j aij ;;
  a <- aset a i ai ;;
  ret (a, buf, state).

Lemma filled_step i j a buf state c b s : (i < K)%nat -> (j < K)%nat ->
  filled i j (a, buf, state) -> c = sampled fuel (entry_input rho transposed i j) -> length c = 256%nat ->
  length b = 504%nat -> length (ks s) = 25%nat ->
  filled i (S j) (upd a i (upd (nth i a []) j c), b, s).
Proof.
  intros Hi Hj ((La & Wa) & _ & _ & F) -> Lc Lb Ls. split; [|split; [exact Lb|split; [exact Ls|]]].
  - split; [now rewrite upd_length|]. intros i' Hi'. destruct (Wa i' Hi') as [L1 L2].
    destruct (Nat.eq_dec i' i) as [->|Hne].
    + rewrite nth_upd_eq by lia. split; [now rewrite upd_length|]. intros j' Hj'.
      destruct (Nat.eq_dec j' j) as [->|Hnj]; [rewrite nth_upd_eq by lia; exact Lc|].
      rewrite nth_upd_neq by lia. now apply L2.
    + rewrite nth_upd_neq by lia. now split.
  - intros i' j' Hi' Hj' Hlt. destruct (Wa i' Hi') as [L1 L2].
    destruct (Nat.eq_dec i' i) as [->|Hne].
    + rewrite nth_upd_eq by lia.
      destruct (Nat.eq_dec j' j) as [->|Hnj]; [rewrite nth_upd_eq by lia; reflexivity|].
      rewrite nth_upd_neq by lia. apply F; auto. lia.
    + rewrite nth_upd_neq by lia. apply F; auto. lia.
Qed.

Definition seed_ok (seed : list Z) : Prop := (so + 32 <= length seed)%nat /\ bytes seed /\ sub seed so 32 = rho.

Lemma inner_wp i j : (i < K)%nat -> (j < K)%nat -> enough fuel (entry_input rho transposed i j) ->
  traced (fun T => forall (JJ : Junk) seed s, seed_ok seed -> filled i j s -> wp (inner seed i j s) T (filled i (S j))).
Proof.
  intros Hi Hj He. pose proof (K_range lv) as HK. unfold inner. rewrite !(u8_index lv) by auto.
  pose proof (sampled_length fuel _ He) as Ls.
  unfold entry_input in He. pose proof filled_step as FS. unfold entry_input in FS, Ls. destruct transposed.
  - destruct (gen_matrix_entry_wp fuel so rho (Z.of_nat i) (Z.of_nat j) He) as [T W].
    eexists. intros JJ seed [[a buf] state] (Hs1 & Hs2 & Hs3) HF. pose proof HF as ((La & Wa) & Lb & Lk & F).
    destruct (Wa i Hi) as [L1 L2]. unfold polyvec in *.
    wstep. wstep. wstep. eapply (wp_aget []); [lia|]. wstep. eapply (wp_aget []); [lia|]. wstep.
    eapply wp_conseq; [apply (W JJ); split; [now apply L2|]; refine (conj Lb (conj Lk (conj Hs1 (conj Hs2 (conj Hs3 _))))); lia|].
    intros [[c b] s] (E1 & E2 & E3). wstep. wstep; [lia|]. wstep. wstep; [lia|]. wstep.
    apply (FS i j a buf state c b s Hi Hj HF E1); auto. now rewrite E1.
  - destruct (gen_matrix_entry_wp fuel so rho (Z.of_nat j) (Z.of_nat i) He) as [T W].
    eexists. intros JJ seed [[a buf] state] (Hs1 & Hs2 & Hs3) HF. pose proof HF as ((La & Wa) & Lb & Lk & F).
    destruct (Wa i Hi) as [L1 L2]. unfold polyvec in *.
    wstep. wstep. wstep. eapply (wp_aget []); [lia|]. wstep. eapply (wp_aget []); [lia|]. wstep.
    eapply wp_conseq; [apply (W JJ); split; [now apply L2|]; refine (conj Lb (conj Lk (conj Hs1 (conj Hs2 (conj Hs3 _))))); lia|].
    intros [[c b] s] (E1 & E2 & E3). wstep. wstep; [lia|]. wstep. wstep; [lia|]. wstep.
    apply (FS i j a buf state c b s Hi Hj HF E1); auto. now rewrite E1.
Qed.

Lemma inner_timeout i j : (i < K)%nat -> (j < K)%nat -> ~ enough fuel (entry_input rho transposed i j) ->
  forall (JJ : Junk) seed s, seed_ok seed -> filled i j s -> inner seed i j s = Timeout.
Proof.
  intros Hi Hj He JJ seed [[a buf] state] (Hs1 & Hs2 & Hs3) ((La & Wa) & Lb & Lk & F).
  pose proof (K_range lv) as HK. destruct (Wa i Hi) as [L1 L2]. unfold polyvec in *.
  unfold inner. rewrite !(u8_index lv) by auto. unfold entry_input in He.
  eapply bind_timeout; [apply wp_test with (Q := fun b => b = transposed); reflexivity|]. intros ? ->.
  eapply bind_timeout; [apply (wp_aget []) with (Q := fun v => v = nth i a []); [lia|reflexivity]|]. intros ? ->.
  eapply bind_timeout; [apply (wp_aget []) with (Q := fun v => v = nth j (nth i a []) []); [lia|reflexivity]|]. intros ? ->.
  apply bind_timeout_l.
  destruct transposed; apply (gen_matrix_entry_timeout fuel so rho _ _ He);
    (split; [now apply L2|]); refine (conj Lb (conj Lk (conj Hs1 (conj Hs2 (conj Hs3 _))))); lia.
Qed.

Lemma filled_next i st : filled i K st -> filled (S i) 0 st.
Proof.
  destruct st as [[a buf] state]. intros (W & L1 & L2 & F). repeat (split; [assumption|]).
  intros i' j' Hi Hj Hlt. apply F; auto. lia.
Qed.

Definition outer `{Junk} (seed : list Z) (i : nat) (s : list polyvec * list Z * keccak_state) :=
  for_ K 0 (inner seed i) s.

Hypothesis entries : forall i j, (i < K)%nat -> (j < K)%nat -> enough fuel (entry_input rho transposed i j).

Lemma outer_wp i : (i < K)%nat ->
  traced (fun T => forall (x : Junk * list Z) s, seed_ok (snd x) -> filled i 0 s ->
    wp (@outer (fst x) (snd x) i s) T (filled (S i) 0)).
Proof.
  intros Hi. unfold outer.
  destruct (traced_for K 0 (fun x : Junk * list Z => @inner (fst x) (snd x) i) (fun x => seed_ok (snd x))
              (fun x => filled i)) as [T W].
  - intros j Hj. destruct (inner_wp i j Hi ltac:(lia) (entries i j Hi ltac:(lia))) as [T W].
    exists T. intros [JJ seed] s Hs HF. now apply W.
  - exists T. intros x s Hs HF. eapply wp_conseq; [exact (W x s Hs HF)|].
    intros s'. cbn [Nat.add]. apply filled_next.
Qed.

Lemma matrix_loop_wp :
  traced (fun T => forall (x : Junk * list Z) s, seed_ok (snd x) -> filled 0 0 s ->
    wp (for_ K 0 (@outer (fst x) (snd x)) s) T (filled K 0)).
Proof.
  destruct (traced_for K 0 (fun x : Junk * list Z => @outer (fst x) (snd x)) (fun x => seed_ok (snd x))
              (fun x i => filled i 0)) as [T W].
  - intros i Hi. exact (outer_wp i ltac:(lia)).
  - exists T. exact W.
Qed.

End Matrix.

Lemma entry_input_all lv fuel rho transposed : enough_all lv fuel rho ->
  forall i j, (i < KYBER_K lv)%nat -> (j < KYBER_K lv)%nat -> enough fuel (entry_input rho transposed i j).
Proof. intros HE i j Hi Hj. unfold entry_input. destruct transposed; now apply HE. Qed.

Lemma gen_matrix_loop lv fuel so transposed `{JJ : Junk} a seed :
  gen_matrix lv fuel a seed so transposed =
  (s <- for_ (KYBER_K lv) 0 (outer lv fuel so transposed seed) (a, local 504, local_state) ;; ret (fst (fst s))).
Proof. reflexivity. Qed.

Lemma filled_0 lv fuel rho transposed a buf state : wfmatrix lv a -> length buf = 504%nat -> length (ks state) = 25%nat ->
  filled lv fuel rho transposed 0 0 (a, buf, state).
Proof. intros W L1 L2. split; [exact W|]. split; [exact L1|]. split; [exact L2|]. intros; lia. Qed.

Lemma gen_matrix_wp lv fuel so rho transposed : enough_all lv fuel rho ->
  traced (fun T => forall (JJ : Junk) a seed, wfmatrix lv a -> seed_ok so rho seed ->
    wp (gen_matrix lv fuel a seed so transposed) T (fun a' => a' = matrix lv fuel rho transposed)).
Proof.
  intros HE.
  destruct (matrix_loop_wp lv fuel so rho transposed (entry_input_all lv fuel rho transposed HE)) as [T W].
  eexists. intros JJ a seed HW Hs. rewrite gen_matrix_loop. wstep.
  eapply wp_conseq; [apply (W (JJ, seed) (a, local 504, local_state) Hs)|].
  { apply filled_0; [exact HW|apply local_length|apply local_length]. }
  intros [[a' buf'] state'] ((La & Wa) & _ & _ & F). wstep. cbn [fst].
  unfold matrix. apply (list_eq_nth []); [now rewrite mk_length|].
  intros i Hi. unfold polyvec in *. rewrite La in Hi. rewrite nth_mk by auto. destruct (Wa i Hi) as [L1 L2].
  apply (list_eq_nth []); [now rewrite mk_length|].
  intros j Hj. rewrite L1 in Hj. rewrite nth_mk by auto. apply F; auto.
Qed.

(** Without enough fuel for some entry the loop runs out of fuel; it never
    ends in any other way. *)
Lemma for_ok_or_timeout {St} (I : nat -> St -> Prop) n lo body (s : St) :
  I lo s ->
  (forall i s, (lo <= i < lo + n)%nat -> I i s -> body i s = Timeout \/ exists T, wp (body i s) T (I (S i))) ->
  for_ n lo body s = Timeout \/ exists T, wp (for_ n lo body s) T (I (lo + n)%nat).
Proof.
  revert lo s; induction n as [|n IH]; intros lo s H0 Hb; cbn [for_].
  - right. eexists. wstep. wstep. wstep. now rewrite Nat.add_0_r.
  - destruct (Hb lo s ltac:(lia) H0) as [E|(T & v & E & HI)].
    + left. unfold emit, bind. now rewrite E.
    + destruct (IH (S lo) v HI) as [E2|(T2 & W2)].
      * intros i s' Hi. apply Hb. lia.
      * left. unfold emit, bind. now rewrite E, E2.
      * right. eexists. wstep. wstep. wstep. exists v. split; [exact E|].
        replace (lo + S n)%nat with (S lo + n)%nat by lia. exact W2.
Qed.

Lemma gen_matrix_timeout lv fuel so rho transposed : ~ enough_all lv fuel rho ->
  forall (JJ : Junk) a seed, wfmatrix lv a -> seed_ok so rho seed ->
    gen_matrix lv fuel a seed so transposed = Timeout.
Proof.
  intros HN JJ a seed HW Hs. rewrite gen_matrix_loop. apply bind_timeout_l.
  set (ent := fun i j => enough fuel (entry_input rho transposed i j)).
  (* some entry lacks fuel *)
  assert (HX : exists i j, (i < KYBER_K lv)%nat /\ (j < KYBER_K lv)%nat /\ ~ ent i j).
  { assert (D : forall m, (forall i j, (i < m)%nat -> (j < KYBER_K lv)%nat -> ent i j) \/
                  exists i j, (i < m)%nat /\ (j < KYBER_K lv)%nat /\ ~ ent i j).
    { induction m as [|m [IH|(i & j & Hi & Hj & Hn)]].
      - left. intros; lia.
      - assert (D2 : forall p, (forall j, (j < p)%nat -> ent m j) \/ exists j, (j < p)%nat /\ ~ ent m j).
        { induction p as [|p [IH2|(j & Hj & Hn)]].
          - left. intros; lia.
          - destruct (enough_dec fuel (entry_input rho transposed m p)) as [E|E].
            + left. intros j Hj. destruct (Nat.eq_dec j p) as [->|]; [exact E|]. apply IH2. lia.
            + right. exists p. split; [lia|exact E].
          - right. exists j. split; [lia|exact Hn]. }
        destruct (D2 (KYBER_K lv)) as [E|(j & Hj & Hn)].
        + left. intros i j Hi Hj. destruct (Nat.eq_dec i m) as [->|]; [now apply E|]. apply IH; lia.
        + right. exists m, j. split; [lia|]. now split.
      - right. exists i, j. split; [lia|]. now split. }
    destruct (D (KYBER_K lv)) as [E|E]; [|exact E].
    exfalso. apply HN. intros i j Hi Hj. unfold ent, entry_input in E. destruct transposed.
    - exact (E j i Hj Hi).
    - exact (E i j Hi Hj). }
  destruct HX as (i0 & j0 & Hi0 & Hj0 & Hn0).
  assert (ST : forall i j s, (i < KYBER_K lv)%nat -> (j < KYBER_K lv)%nat -> filled lv fuel rho transposed i j s ->
     inner fuel so transposed seed i j s = Timeout \/
     exists T, wp (inner fuel so transposed seed i j s) T (filled lv fuel rho transposed i (S j))).
  { intros i j s Hi Hj HF. destruct (enough_dec fuel (entry_input rho transposed i j)) as [E|E].
    - right. destruct (inner_wp lv fuel so rho transposed i j Hi Hj E) as [T W]. exists T. now apply W.
    - left. now apply (inner_timeout lv fuel so rho transposed i j Hi Hj E). }
  apply (for_timeout (fun i => filled lv fuel rho transposed i 0) i0).
  - apply filled_0; [exact HW|apply local_length|apply local_length].
  - lia.
  - intros i s Hi HF. unfold outer.
    destruct (for_ok_or_timeout (filled lv fuel rho transposed i) (KYBER_K lv) 0 (inner fuel so transposed seed i) s HF)
      as [E|(T & W)].
    + intros j s' Hj. apply ST; lia.
    + now left.
    + right. exists T. eapply wp_conseq; [exact W|]. intros s'. cbn [Nat.add]. apply filled_next.
  - intros s HF. unfold outer.
    apply (for_timeout (filled lv fuel rho transposed i0) j0).
    + exact HF.
    + lia.
    + intros j s' Hj. apply ST; lia.
    + intros s' HF'. now apply (inner_timeout lv fuel so rho transposed i0 j0 Hi0 Hj0 Hn0).
Qed.

(** ** The specification's matrix *)
Lemma matrix_is_matrix lv fuel rho : enough_all lv fuel rho -> is_matrix (PS lv) rho (matrix lv fuel rho false).
Proof.
  intros HE. assert (EK : k (PS lv) = KYBER_K lv) by (destruct lv; reflexivity).
  unfold is_matrix, matrix. rewrite EK. split; [apply mk_length|]. intros i Hi. rewrite nth_mk by auto.
  split; [apply mk_length|]. intros j Hj. rewrite nth_mk by auto.
  unfold entry_input. apply sampled_SampleNTT. now apply HE.
Qed.

Lemma matrix_transpose lv fuel rho : matrix lv fuel rho true = transpose (PS lv) (matrix lv fuel rho false).
Proof.
  assert (EK : k (PS lv) = KYBER_K lv) by (destruct lv; reflexivity).
  unfold transpose. rewrite EK.
  change (map (fun i => map (fun j => nth i (nth j (matrix lv fuel rho false) []) []) (seq 0 (KYBER_K lv))) (seq 0 (KYBER_K lv)))
    with (mk (KYBER_K lv) (fun i => mk (KYBER_K lv) (fun j => nth i (nth j (matrix lv fuel rho false) []) []))).
  unfold matrix. apply mk_ext. intros i Hi. apply mk_ext. intros j Hj. now rewrite !nth_mk by auto.
Qed.

Lemma is_matrix_functional P rho A A' : is_matrix P rho A -> is_matrix P rho A' -> A = A'.
Proof.
  intros [L1 H1] [L2 H2]. apply (list_eq_nth []); [congruence|]. intros i Hi. rewrite L1 in Hi.
  destruct (H1 i Hi) as [L3 H3]. destruct (H2 i Hi) as [L4 H4].
  apply (list_eq_nth []); [congruence|]. intros j Hj. rewrite L3 in Hj.
  eapply SampleNTT_functional; [now apply H3|now apply H4].
Qed.

Lemma is_matrix_enough lv rho A : is_matrix (PS lv) rho A -> exists fuel, enough_all lv fuel rho.
Proof.
  assert (EK : k (PS lv) = KYBER_K lv) by (destruct lv; reflexivity).
  intros [_ HA]. rewrite EK in HA. unfold enough_all. clear EK. revert HA. generalize (KYBER_K lv). intros m HA.
  assert (D : forall p r, (p <= m)%nat -> (r <= m)%nat -> exists fuel, forall i j, (i < p)%nat -> (j < r)%nat ->
     enough fuel (rho ++ [Z.of_nat j; Z.of_nat i])).
  { induction p as [|p IH]; intros r Hp Hr; [exists 0%nat; intros; lia|].
    destruct (IH r ltac:(lia) Hr) as [f1 F1].
    assert (D2 : forall r', (r' <= m)%nat -> exists fuel, forall j, (j < r')%nat -> enough fuel (rho ++ [Z.of_nat j; Z.of_nat p])).
    { induction r' as [|r' IH2]; intros Hr'; [exists 0%nat; intros; lia|].
      destruct (IH2 ltac:(lia)) as [f2 F2].
      destruct (HA p ltac:(lia)) as [_ HB]. destruct (SampleNTT_enough _ _ (HB r' ltac:(lia))) as [f3 F3].
      exists (Nat.max f2 f3). intros j Hj. destruct (Nat.eq_dec j r') as [->|].
      - apply (enough_mono f3); [lia|exact F3].
      - apply (enough_mono f2); [lia|]. apply F2. lia. }
    destruct (D2 r Hr) as [f2 F2]. exists (Nat.max f1 f2). intros i j Hi Hj. destruct (Nat.eq_dec i p) as [->|].
    - apply (enough_mono f2); [lia|]. now apply F2.
    - apply (enough_mono f1); [lia|]. apply F1; lia. }
  exact (D m m (le_n _) (le_n _)).
Qed.
