(** * Lemmas for the exact input ranges of the serialisation functions *)
From Coq Require Import ZArith List Lia Bool NArith.
From Verif Require Import CMonad WP Proof_Base Modq Sums Model_Params Model_Poly Proof_NTT Proof_Bits Proof_Compress Proof_Codec
  Model_AvxAsm Model_AvxCode Proof_AvxNTT Proof_AvxPack Spec_FIPS203 Levels Vocab Cases Proof_Vocab Proof_PropPoly Proof_PropAvx
  Proof_TobytesRange.
Import ListNotations.
Open Scope Z_scope.

Lemma nth_pre {A} (pre l : list A) m d : nth (length pre + m) (pre ++ l) d = nth m l d.
Proof. rewrite app_nth2 by lia. f_equal. lia. Qed.
Lemma some_outside lo hi a : ~ in_range lo hi a -> in_range (lo - 1) (hi + 1) a -> In (lo - 1) a \/ In (hi + 1) a.
Proof.
  intros N R. destruct (in_dec Z.eq_dec (lo - 1) a) as [|N1]; [now left|]. destruct (in_dec Z.eq_dec (hi + 1) a) as [|N2]; [now right|].
  elim N. intros x Hx. specialize (R x Hx).
  destruct (Z.eq_dec x (lo - 1)) as [->|]; [now elim N1|]. destruct (Z.eq_dec x (hi + 1)) as [->|]; [now elim N2|]. lia.
Qed.
Lemma in_range_dec lo hi a : in_range lo hi a \/ ~ in_range lo hi a.
Proof.
  destruct (forallb (fun x => (lo <=? x) && (x <=? hi)) a) eqn:E.
  - left. intros x Hx. apply (proj1 (forallb_forall _ _) E) in Hx. apply andb_true_iff in Hx as [H1 H2].
    apply Z.leb_le in H1, H2. lia.
  - right. intros R. assert (X : forallb (fun x => (lo <=? x) && (x <=? hi)) a = true).
    { apply forallb_forall. intros x Hx. specialize (R x Hx). apply andb_true_iff. split; apply Z.leb_le; lia. }
    rewrite X in E. discriminate E.
Qed.
Lemma bytes_at (pre X post : list Z) m : (m < length X)%nat -> nth (length pre + m) (pre ++ X ++ post) 0 = nth m X 0.
Proof. intros H. rewrite nth_pre. now apply app_nth1. Qed.
Lemma enc12_length F : length F = 256%nat -> length (ByteEncode 12 F) = 384%nat.
Proof. intros L. now rewrite ByteEncode_length, L. Qed.

Lemma poly_tobytes_range pre old post a :
  length old = 384%nat -> length a = 256%nat -> in_range (-3330) 3329 a ->
  ((exists T, poly_tobytes (pre ++ old ++ post) (length pre) a = Ok (pre ++ ByteEncode 12 (modq a) ++ post) T)
   <-> in_range (-3329) 3328 a).
Proof.
  intros LO LA RA. split.
  - intros [T E]. destruct (in_range_dec (-3329) 3328 a) as [|N]; [assumption|]. exfalso.
    destruct (poly_tobytes_low_wp (length pre)) as [T1 W]. destruct (W (pre ++ old ++ post) a) as (r' & E1 & H).
    { rewrite <- LO. apply ctx_length. } { exact LA. } { apply in_range_bnd. intros x Hx. specialize (RA x Hx). lia. }
    rewrite E in E1. injection E1 as <- _.
    assert (X : exists x, (x < 256)%nat /\ Z.testbit (u16 (lift (nth x a 0))) 0 = true /\ Z.testbit (nth x a 0 mod q) 0 = false).
    { destruct (some_outside _ _ _ N RA) as [I|I]; destruct (In_nth _ _ 0 I) as (x & Hx & EN); exists x; rewrite EN;
      (split; [lia|split; reflexivity]). }
    destruct X as (x & Hx & O & Ev).
    assert (LM : length (modq a) = 256%nat) by (now rewrite modq_length).
    pose proof (ref_low_odd (fun m => nth m (ByteEncode 12 (modq a)) 0) a x Hx) as R.
    assert (R' := R (fun i Hi => ltac:(destruct (H i Hi) as [H1 H2]; rewrite bytes_at in H1, H2 by (rewrite enc12_length by exact LM; lia);
      exact (conj H1 H2))) O).
    unfold odd_ref in R'. cbv beta in R'. rewrite (right_even (modq a) x LM Hx) in R'.
    rewrite nth_modq, Ev in R' by lia. discriminate R'.
  - intros R. destruct (poly_tobytes_lift_wp (length pre)) as [T W]. exists T.
    destruct (W (pre ++ old ++ post) a) as (r' & E & ->).
    { rewrite <- LO. apply ctx_length. } { exact LA. } { apply in_range_bnd. intros x Hx. specialize (R x Hx). lia. }
    rewrite E. f_equal. replace (lifted a) with (modq a).
    + apply splice_ctx. rewrite enc12_length; [exact LO|]. now rewrite modq_length.
    + apply (list_eq_nth 0); [now rewrite modq_length, lifted_length|]. rewrite modq_length. intros i Hi.
      rewrite nth_modq, nth_lifted by lia. assert (B : In (nth i a 0) a) by (apply nth_In; lia). specialize (R _ B).
      unfold lift, q. destruct (Z.ltb_spec (nth i a 0) 0).
      * symmetry. apply Z.mod_unique with (q := -1); lia.
      * apply Z.mod_small. lia.
Qed.

Lemma ntttobytes_range (JJ : Junk) pre old post a F :
  length old = 384%nat -> length a = 256%nat -> length F = 256%nat -> in_range (-1) (2 * q) a -> modq a = avx2_order (modq F) ->
  ((exists T, ntttobytes_avx (pre ++ old ++ post) (length pre) a = Ok (pre ++ ByteEncode 12 (modq F) ++ post) T)
   <-> in_range 0 (2 * q - 1) a).
Proof.
  intros LO LA LF RA CA. split.
  - intros [T E]. destruct (in_range_dec 0 (2 * q - 1) a) as [|N]; [assumption|]. exfalso.
    destruct (ntttobytes_avx_low_wp (length pre)) as [T1 W]. destruct (W JJ (pre ++ old ++ post) a) as (r' & E1 & B & LB & -> & H).
    { rewrite <- LO. apply ctx_length. } { exact LA. } { apply in_range_bnd. exact RA. }
    rewrite splice_ctx in E1 by (now rewrite LB). rewrite E in E1. injection E1 as E1 _.
    apply app_inv_head in E1.
    assert (LM : length (modq F) = 256%nat) by (now rewrite modq_length).
    assert (EB : ByteEncode 12 (modq F) = B).
    { apply (f_equal (firstn 384)) in E1. rewrite !firstn_app, LB, enc12_length, Nat.sub_diag, !firstn_O, !app_nil_r in E1 by exact LM.
      now rewrite !firstn_all2 in E1 by (rewrite ?LB, ?enc12_length; auto). }
    subst B.
    assert (X : exists p, (p < 256)%nat /\ Z.testbit (csub (nth p a 0)) 0 = true /\ Z.testbit (nth p a 0 mod q) 0 = false).
    { destruct (some_outside 0 (2 * q - 1) a N) as [I|I].
      { intros x Hx. specialize (RA x Hx). lia. }
      - destruct (In_nth _ _ 0 I) as (p & Hp & EN). exists p. rewrite EN. split; [lia|split; reflexivity].
      - destruct (In_nth _ _ 0 I) as (p & Hp & EN). exists p. rewrite EN. split; [lia|split; reflexivity]. }
    destruct X as (p & Hp & O & Ev). pose proof (avx_ix_lt p Hp) as Hx.
    pose proof (H (avx_ix p) Hx) as R. rewrite avx_pos_ix in R by exact Hp. specialize (R O).
    unfold odd_ref in R. cbv beta in R. rewrite (right_even (modq F) _ LM Hx) in R.
    apply (f_equal (fun l => nth p l 0)) in CA. rewrite nth_modq in CA by lia.
    change (avx2_order (modq F)) with (avx_order (modq F)) in CA. rewrite avx_order_nth in CA by exact Hp.
    rewrite <- CA, Ev in R. discriminate R.
  - intros R. destruct (avx_tobytes_spec (length pre)) as [T W]. exists T. now apply W.
Qed.

Lemma tobytes_differ (JJ : Junk) pre old post F : length old = 384%nat -> length F = 256%nat ->
  (in_range (-1) (q - 1) F -> In (-1) F -> exists v T, poly_tobytes (pre ++ old ++ post) (length pre) F = Ok v T /\
     forall T', ntttobytes_avx (pre ++ old ++ post) (length pre) (avx2_order F) <> Ok v T') /\
  (in_range 0 q F -> In q F -> exists v T, ntttobytes_avx (pre ++ old ++ post) (length pre) (avx2_order F) = Ok v T /\
     forall T', poly_tobytes (pre ++ old ++ post) (length pre) F <> Ok v T').
Proof.
  intros LO LF.
  assert (LA : length (avx2_order F) = 256%nat) by apply avx_order_length.
  assert (CA : modq (avx2_order F) = avx2_order (modq F)) by (now apply modq_avx_order).
  assert (back : forall c, In c F -> In c (avx2_order F)).
  { intros c Hc. destruct (In_nth _ _ 0 Hc) as (x & Hx & EN). rewrite LF in Hx. pose proof (avx_pos_lt x Hx) as Hp.
    rewrite <- EN. rewrite <- (avx_ix_pos x Hx) at 1. rewrite <- avx_order_nth by exact Hp.
    apply nth_In. rewrite avx_order_length. exact Hp. }
  split; intros R I; exists (pre ++ ByteEncode 12 (modq F) ++ post).
  - destruct (proj2 (poly_tobytes_range pre old post F LO LF (fun x Hx => ltac:(specialize (R x Hx); unfold q in R; lia)))) as [T E].
    { intros x Hx. specialize (R x Hx). unfold q in R. lia. }
    exists T. split; [exact E|]. intros T' E'.
    assert (RA : in_range (-1) (2 * q) (avx2_order F)).
    { apply avx2_order_range; [exact LF|]. intros x Hx. specialize (R x Hx). unfold q in *. lia. }
    pose proof (proj1 (ntttobytes_range JJ pre old post _ F LO LA LF RA CA) (ex_intro _ T' E') _ (back _ I)). lia.
  - assert (RB : in_range (-1) (2 * q) (avx2_order F)).
    { apply avx2_order_range; [exact LF|]. intros x Hx. specialize (R x Hx). unfold q in *. lia. }
    destruct (proj2 (ntttobytes_range JJ pre old post (avx2_order F) F LO LA LF RB CA)) as [T E].
    { apply avx2_order_range; [exact LF|]. intros x Hx. specialize (R x Hx). unfold q in *. lia. }
    exists T. split; [exact E|]. intros T' E'.
    pose proof (proj1 (poly_tobytes_range pre old post F LO LF (fun x Hx => ltac:(specialize (R x Hx); unfold q in R; lia)))
      (ex_intro _ T' E') _ I) as X. unfold q in X. lia.
Qed.
