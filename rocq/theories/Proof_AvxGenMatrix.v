(** * gen_matrix of avx2/indcpa.c: four rejection-sampled polynomials at a time *)
From Coq Require Import ZArith List Lia Bool.
From Verif Require Import CMonad WP Proof_Base Levels Model_Params Model_Fips202 Model_Symmetric Model_Polyvec Model_Indcpa
  Spec_FIPS202 Spec_FIPS203 Proof_Keccak Proof_Shake Proof_Hash Proof_Symmetric Proof_Rej Proof_GenMatrix Proof_Poly Proof_Polyvec Proof_Keypair
  Model_AvxIntrin Model_AvxAsm Model_AvxCode Model_AvxC Model_AvxPolyvec Model_AvxFips202x4 Model_AvxRej Model_AvxIndcpa
  Proof_AvxKeccak Proof_AvxFips202x4 Proof_AvxShake4 Proof_AvxNTT Proof_AvxPack Proof_AvxRejLoop Proof_Indcpa.
Import ListNotations.
Open Scope Z_scope.
Local Opaque stream.

(** ** Buffers *)
Definition bufs_ok (n : nat) (bufs : list (list Z)) : Prop :=
  length bufs = 4%nat /\ forall j, (j < 4)%nat -> length (nth j bufs []) = n /\ bytes (nth j bufs []).

Lemma bufs_four n m bufs : (m <= n)%nat -> bufs_ok n bufs -> four m bufs.
Proof. intros H [L B]. split; auto. intros j Hj. destruct (B j Hj) as [Lj Bj]. split; auto. lia. Qed.

Lemma bytes_splice b o x : (o + length x <= length b)%nat -> bytes b -> bytes x -> bytes (splice b o x).
Proof.
  intros H Hb Hx. unfold splice. apply bnd_app; [now apply bnd_firstn|]. apply bnd_app; [exact Hx|]. now apply bnd_skipn.
Qed.

Lemma wrote_ok n bufs o m f bufs' : bufs_ok n bufs -> (o + m <= n)%nat -> (forall j i, 0 <= f j i <= 255) ->
  wrote bufs o m f bufs' -> bufs_ok n bufs'.
Proof.
  intros [L B] Hm Hf [L' W]. split; auto. intros j Hj. rewrite W by auto. destruct (B j Hj) as [Lj Bj].
  split; [rewrite splice_length; rewrite ?mk_length; lia|].
  apply bytes_splice; [rewrite mk_length; lia|exact Bj|]. apply bnd_mk. intros; apply Hf.
Qed.

Lemma mload_wp l o n : (o + n <= length l)%nat -> wp (mload l o n) [EvIndex o] (fun f => f = sub l o n).
Proof.
  intros H. unfold mload. destruct (Nat.leb_spec (o + n) (length l)); [|lia]. eexists. split; reflexivity.
Qed.
Lemma mstore_wp l o v : (o + length v <= length l)%nat -> wp (mstore l o v) [EvIndex o] (fun l' => l' = splice l o v).
Proof.
  intros H. unfold mstore. destruct (Nat.leb_spec (o + length v) (length l)); [|lia]. eexists. split; reflexivity.
Qed.

Lemma splice_upd_next {A} (b : list A) o x v : (o + length x < length b)%nat ->
  upd (splice b o x) (o + length x) v = splice b o (x ++ [v]).
Proof.
  intros H. destruct b as [|d b0]; [cbn [length] in H; lia|]. set (b := d :: b0) in *.
  apply (list_eq_nth d).
  - rewrite upd_length, !splice_length; rewrite ?app_length; cbn [length]; lia.
  - intros i Hi. rewrite upd_length, splice_length in Hi by lia.
    rewrite nth_upd, !nth_splice by (rewrite ?app_length; cbn [length]; lia).
    rewrite splice_length, app_length by lia. cbn [length].
    destruct (Nat.eqb_spec i (o + length x)) as [->|Hne].
    + destruct (Nat.ltb_spec (o + length x) (length b)); [|lia]. cbn [andb].
      destruct (Nat.ltb_spec (o + length x) o); [lia|]. destruct (Nat.ltb_spec (o + length x) (o + (length x + 1))); [|lia].
      rewrite app_nth2 by lia. replace (o + length x - o - length x)%nat with 0%nat by lia. reflexivity.
    + cbn [andb]. destruct (Nat.ltb_spec i o); [reflexivity|].
      destruct (Nat.ltb_spec i (o + length x)); destruct (Nat.ltb_spec i (o + (length x + 1))); try lia; [|reflexivity].
      now rewrite app_nth1 by lia.
Qed.

Lemma set_bytes_wp m : forall o, traced (fun T => forall b x xs, length xs = m -> o = length x -> (o + m <= length b)%nat ->
  wp (set_bytes (splice b 0 x) o xs) T (fun b' => b' = splice b 0 (x ++ xs))).
Proof.
  induction m as [|m IH]; intros o.
  - eexists. intros b x xs L Eo H. destruct xs; [|discriminate]. cbn [set_bytes]. wstep. now rewrite app_nil_r.
  - destruct (IH (S o)) as [T W]. eexists. intros b x xs L Eo H. destruct xs as [|v xs]; [discriminate|].
    cbn [set_bytes]. wstep. wstep; [rewrite splice_length; lia|].
    pose proof (splice_upd_next b 0 x v ltac:(lia)) as E. cbn [Nat.add] in E. rewrite <- Eo in E. rewrite E.
    eapply wp_conseq; [apply (W b (x ++ [v]) xs); [now injection L|rewrite app_length; cbn [length]; lia|lia]|].
    intros b' ->. now rewrite <- app_assoc.
Qed.

Lemma store_seed_wp so :
  traced (fun T => forall bufs seed n rho, bufs_ok n bufs -> (32 <= n)%nat -> seed_ok so rho seed ->
    wp (store_seed bufs seed so) T (fun bufs' => length bufs' = 4%nat /\
      forall j, (j < 4)%nat -> nth j bufs' [] = splice (nth j bufs []) 0 rho)).
Proof.
  eexists. intros bufs seed n rho [L B] Hn (H1 & H2 & H3). unfold store_seed.
  wstep. eapply wp_conseq; [apply mload_wp; exact H1|]. intros f ->. rewrite H3.
  assert (Lr : length rho = 32%nat) by (rewrite <- H3; now apply sub_length).
  apply (wp_vec 4 (fun _ => [EvIndex 0]) (fun _ b b' => b' = splice b 0 rho) (fun _ b => mstore b 0 rho) bufs L).
  intros i Hi. destruct (B i Hi) as [Li _]. apply mstore_wp. lia.
Qed.

Lemma set_each_wp m :
  traced (fun T => forall bufs0 bufs xss n rho, bufs_ok n bufs0 -> (32 + m <= n)%nat -> length rho = 32%nat ->
    (length bufs = 4%nat /\ forall j, (j < 4)%nat -> nth j bufs [] = splice (nth j bufs0 []) 0 rho) ->
    (forall j, (j < 4)%nat -> length (nth j xss []) = m) ->
    wp (set_each bufs xss) T (fun bufs' => length bufs' = 4%nat /\
      forall j, (j < 4)%nat -> nth j bufs' [] = splice (nth j bufs0 []) 0 (rho ++ nth j xss []))).
Proof.
  destruct (set_bytes_wp m 32) as [T W].
  eexists. intros bufs0 bufs xss n rho [L0 B0] Hn Lr [L E] Hx. unfold set_each.
  eapply wp_conseq.
  { apply (wp_vec 4 (fun _ => T) (fun j b b' => b' = splice (nth j bufs0 []) 0 (rho ++ nth j xss []))
      (fun j b => set_bytes b 32 (nth j xss [])) bufs L).
    intros i Hi. rewrite E by auto. destruct (B0 i Hi) as [Li _]. apply W; auto. lia. }
  intros bufs' H. exact H.
Qed.

(** ** Refilling *)
Lemma acc_step B t :
  firstn 256 (acc B (S t)) = firstn 256 (acc B t) ++
    rej (256 - length (firstn 256 (acc B t))) (fun j => stream 168 shake_sfx B ((3 + t) * 168 + j)) 0 (168 / 3).
Proof.
  unfold acc. replace (168 + 56 * S t)%nat with ((168 + 56 * t) + 56)%nat by lia.
  rewrite accepted_add. fold (acc B t). rewrite firstn_firstn_app. f_equal.
  rewrite rej_accepted. change (168 / 3)%nat with 56%nat.
  rewrite (accepted_ext (fun i => XOF B (3 * (168 + 56 * t) + i)%nat)
             (fun j => stream 168 shake_sfx B ((3 + t) * 168 + j)) 56); [reflexivity|].
  intros i _. rewrite XOF_stream. f_equal. lia.
Qed.

Lemma holds_splice x r y : holds x r -> (length x + length y <= 256)%nat -> holds (x ++ y) (splice r (length x) y).
Proof.
  intros [L H] Hl. split; [rewrite splice_length; lia|]. unfold splice. rewrite H, app_assoc.
  rewrite firstn_app, Nat.sub_diag, firstn_O, firstn_all. apply app_nil_r.
Qed.

Lemma holds_full x r : holds x r -> length x = 256%nat -> r = x.
Proof. intros [L H] Hl. rewrite <- H. symmetry. apply firstn_all2. lia. Qed.

Lemma some_below_wp cs :
  traced (fun T => wp (some_below cs) T (fun b => b = existsb (fun c => c <? 256)%nat cs)).
Proof.
  induction cs as [|c cs [T W]]; [eexists; cbn [some_below existsb]; now wstep|].
  cbn [some_below existsb]. change KYBER_N with 256%nat. destruct (c <? 256)%nat.
  - eexists. wstep. wstep. now wstep.
  - eexists. wstep. wstep. exact W.
Qed.

Section Four.
Variable B : nat -> list Z.

(** The candidates accepted for instance j after t refills *)
Definition got (t j : nat) : list Z := firstn 256 (acc (B j) t).
Definition ready (t : nat) (ctrs : list nat) (ps : list (list Z)) : Prop :=
  length ctrs = 4%nat /\ length ps = 4%nat /\
  forall j, (j < 4)%nat -> nth j ctrs 0%nat = length (got t j) /\ holds (got t j) (nth j ps []).

Lemma got_le t j : (length (got t j) <= 256)%nat.
Proof. unfold got. rewrite firstn_length. lia. Qed.

(** Both loops over the four instances *)
Lemma four_loop (tb : nat -> trace) (body : nat -> list nat * list (list Z) -> res (list nat * list (list Z)))
  (P P' : nat -> nat -> list Z -> Prop) ctrs ps :
  length ctrs = 4%nat -> length ps = 4%nat -> (forall j, (j < 4)%nat -> P j (nth j ctrs 0%nat) (nth j ps [])) ->
  (forall j ctrs ps, (j < 4)%nat -> length ctrs = 4%nat -> length ps = 4%nat -> P j (nth j ctrs 0%nat) (nth j ps []) ->
     wp (body j (ctrs, ps)) (tb j) (fun s => exists c p, s = (upd ctrs j c, upd ps j p) /\ P' j c p)) ->
  wp (for_ 4 0 body (ctrs, ps)) (for_trace tb 0 4)
     (fun s => length (fst s) = 4%nat /\ length (snd s) = 4%nat /\
        forall j, (j < 4)%nat -> P' j (nth j (fst s) 0%nat) (nth j (snd s) [])).
Proof.
  intros Lc Lp H0 Hb.
  eapply (wp_for tb (fun i s => length (fst s) = 4%nat /\ length (snd s) = 4%nat /\
     (forall j, (j < i)%nat -> P' j (nth j (fst s) 0%nat) (nth j (snd s) [])) /\
     (forall j, (i <= j < 4)%nat -> P j (nth j (fst s) 0%nat) (nth j (snd s) [])))).
  - cbn [fst snd]. split; auto. split; auto. split; [intros; lia|]. intros j Hj. apply H0. lia.
  - intros i [cs qs] Hi (L1 & L2 & D & R). cbn [fst snd] in *.
    eapply wp_conseq; [apply Hb; auto; [lia|apply R; lia]|]. intros s (c & p & -> & HP). cbn [fst snd].
    rewrite !upd_length. split; auto. split; auto. split.
    + intros j Hj. destruct (Nat.eq_dec j i) as [->|Hne].
      * rewrite !nth_upd_eq by lia. exact HP.
      * rewrite !nth_upd_neq by lia. apply D. lia.
    + intros j Hj. rewrite !nth_upd_neq by lia. apply R. lia.
  - intros s (L1 & L2 & D & _). split; auto.
Qed.

(** *** The first three blocks *)
Lemma first_loop_wp :
  traced (fun T => forall ps bufs, length ps = 4%nat -> (forall j, (j < 4)%nat -> length (nth j ps []) = 256%nat) ->
    length bufs = 4%nat -> (forall j, (j < 4)%nat -> agrees 504 (nth j bufs []) (XOF (B j))) ->
    wp (for_ 4 0 (fun j s =>
     let '(ctrs, ps) := s in
     p <- aget ps j ;; b <- aget bufs j ;;
     '(c, p) <- rej_uniform_avx p b ;;
     ctrs <- aset ctrs j c ;; ps <- aset ps j p ;;
     ret (ctrs, ps)) (repeat 0%nat 4, ps)) T (fun s => ready 0 (fst s) (snd s))).
Proof.
  assert (HB : forall j, byte_stream 504 (XOF (B j))) by (intros j i _; apply XOF_range).
  eexists. intros ps bufs Lp Hp Lb Hb. unfold ready.
  eapply (four_loop _ _ (fun j c p => length p = 256%nat)
    (fun j c p => c = length (got 0 j) /\ holds (got 0 j) p)); auto.
  intros j cs qs Hj L1 L2 HP. wstep. wstep; [lia|]. wstep. wstep; [lia|]. wstep.
  eapply wp_conseq; [apply (proj2_sig (rej_uniform_avx_wp (XOF (B j)) (HB j)) (nth j qs []) (nth j bufs []) HP (Hb j Hj))|].
  intros [c p] [Ec Hh]. cbn [fst snd] in *. change (rej 256 (XOF (B j)) 0 168) with (got 0 j) in *.
  wstep. wstep; [lia|]. wstep. wstep; [lia|]. wstep. eauto.
Qed.

(** *** One more block *)
Lemma more_loop_wp t :
  traced (fun T => forall ctrs ps bufs, ready t ctrs ps -> length bufs = 4%nat ->
    (forall j, (j < 4)%nat -> agrees 168 (nth j bufs []) (fun i => stream 168 shake_sfx (B j) ((3 + t) * 168 + i))) ->
    wp (for_ 4 0 (fun j s =>
         let '(ctrs, ps) := s in
         c <- aget ctrs j ;; p <- aget ps j ;; b <- aget bufs j ;;
         '(n, p) <- rej_uniform p c (KYBER_N - c) b SHAKE128_RATE ;;
         ctrs <- aset ctrs j (c + n)%nat ;; ps <- aset ps j p ;;
         ret (ctrs, ps)) (ctrs, ps)) T (fun s => ready (S t) (fst s) (snd s))).
Proof.
  assert (HB : forall j, byte_stream 168 (fun i => stream 168 shake_sfx (B j) ((3 + t) * 168 + i))) by (intros j i _; apply stream_range).
  eexists. intros ctrs ps bufs (Lc & Lp & H) Lb Hb. unfold ready.
  eapply (four_loop _ _ (fun j c p => c = length (got t j) /\ holds (got t j) p)
    (fun j c p => c = length (got (S t) j) /\ holds (got (S t) j) p)); auto.
  intros j cs qs Hj L1 L2 [Ec HP]. wstep. eapply (wp_aget 0%nat); [lia|]. wstep. wstep; [lia|]. wstep. wstep; [lia|]. wstep.
  rewrite Ec. change KYBER_N with 256%nat. change SHAKE128_RATE with 168%nat. pose proof (got_le t j) as Lg.
  eapply wp_conseq.
  { apply (proj2_sig (rej_uniform_wp (length (got t j)) (256 - length (got t j)) 168 _ (HB j)) (nth j qs []) (nth j bufs [])).
    - destruct HP as [-> _]. lia.
    - exact (Hb j Hj). }
  intros st ->. wstep. wstep; [lia|]. wstep. wstep; [lia|]. wstep. eexists _, _. split; [reflexivity|].
  assert (E : got (S t) j = got t j ++ rej (256 - length (got t j)) (fun i => stream 168 shake_sfx (B j) ((3 + t) * 168 + i)) 0 (168 / 3))
    by exact (acc_step (B j) t).
  rewrite E. clear E.
  set (R := rej _ _ 0 _). assert (LR : (length R <= 256 - length (got t j))%nat) by apply rej_length_le.
  split; [now rewrite app_length|]. apply holds_splice; [exact HP|lia].
Qed.

(** *** The refill loop *)
Definition cond4 (s : list nat * list (list Z) * list (list Z) * list (list Z)) : res bool :=
  let '(ctrs, ps, bufs, state) := s in some_below ctrs.
Definition body4 (JJ : Junk) (s : list nat * list (list Z) * list (list Z) * list (list Z))
  : res (list nat * list (list Z) * list (list Z) * list (list Z)) :=
  let '(ctrs, ps, bufs, state) := s in
  '(bufs, state) <- shake128x4_squeezeblocks bufs 0 1 state ;;
  '(ctrs, ps) <- for_ 4 0 (fun j s =>
         let '(ctrs, ps) := s in
         c <- aget ctrs j ;; p <- aget ps j ;; b <- aget bufs j ;;
         '(n, p) <- rej_uniform p c (KYBER_N - c) b SHAKE128_RATE ;;
         ctrs <- aset ctrs j (c + n)%nat ;; ps <- aset ps j p ;;
         ret (ctrs, ps)) (ctrs, ps) ;;
  ret (ctrs, ps, bufs, state).
Definition refilled4 (t : nat) (s : list nat * list (list Z) * list (list Z) * list (list Z)) : Prop :=
  let '(ctrs, ps, bufs, state) := s in
  ready t ctrs ps /\ bufs_ok 504 bufs /\ squeezing4 168 B ((3 + t) * 168) state.

Definition cvec (t : nat) : list nat := map (fun j => length (got t j)) (seq 0 4).
Lemma ready_cvec t ctrs ps : ready t ctrs ps -> ctrs = cvec t.
Proof.
  intros (L & _ & H). apply (list_eq_nth 0%nat); [exact L|]. intros j Hj. rewrite L in Hj.
  destruct (H j Hj) as [-> _]. unfold cvec. do 4 (destruct j as [|j]; [reflexivity|]). lia.
Qed.
Lemma cvec_true t : existsb (fun c => c <? 256)%nat (cvec t) = true <-> exists j, (j < 4)%nat /\ (length (acc (B j) t) < 256)%nat.
Proof.
  unfold cvec. rewrite existsb_exists. split.
  - intros (c & Hc & H). apply in_map_iff in Hc as (j & <- & Hj). apply in_seq in Hj. apply Nat.ltb_lt in H.
    exists j. split; [lia|]. unfold got in H. rewrite firstn_length in H. lia.
  - intros (j & Hj & H). exists (length (got t j)). split; [apply in_map_iff; exists j; split; auto; apply in_seq; lia|].
    apply Nat.ltb_lt. unfold got. rewrite firstn_length. lia.
Qed.

Lemma body4_wp t :
  traced (fun T => forall (JJ : Junk) s, refilled4 t s -> wp (body4 JJ s) T (refilled4 (S t))).
Proof.
  destruct (shakex4_squeezeblocks_wp 168 21 rate168 0 1) as [T1 W1].
  destruct (more_loop_wp t) as [T2 W2].
  eexists. intros JJ [[[ctrs ps] bufs] state] (HR & HB & HS). unfold body4.
  wstep. eapply wp_conseq; [apply (W1 JJ bufs state B (3 + t)%nat HS); apply (bufs_four 504); [lia|exact HB]|].
  intros [bufs' state'] [HW HS'].
  assert (HB' : bufs_ok 504 bufs').
  { apply (wrote_ok 504 bufs 0 (168 * 1) _ bufs' HB ltac:(lia)) with (2 := HW). intros; apply stream_range. }
  wstep. eapply wp_conseq.
  { apply (W2 ctrs ps bufs' HR (proj1 HB')). intros j Hj. destruct HW as [_ HW]. rewrite HW by auto.
    destruct (proj2 HB j Hj) as [Lj _]. split; [rewrite splice_length; rewrite ?mk_length; lia|].
    intros i Hi. rewrite nth_splice by (rewrite mk_length; lia). rewrite mk_length.
    destruct (Nat.ltb_spec i 0); [lia|]. destruct (Nat.ltb_spec i (0 + 168 * 1)); [|lia].
    rewrite Nat.sub_0_r, nth_mk by lia. reflexivity. }
  intros [cs qs] HR'. cbn [fst snd] in HR'. wstep. split; [exact HR'|]. split; [exact HB'|].
  replace (3 + S t)%nat with (3 + t + 1)%nat by lia. exact HS'.
Qed.

Definition finished (fuel t : nat) (s : list nat * list (list Z) * list (list Z) * list (list Z)) : Prop :=
  let '(ctrs, ps, bufs, state) := s in
  length ps = 4%nat /\ (forall j, (j < 4)%nat -> nth j ps [] = firstn 256 (acc (B j) (t + (fuel - 1)))) /\
  bufs_ok 504 bufs /\ length state = 25%nat.

Lemma refill4_wp fuel : forall t, (0 < fuel)%nat -> (forall j, (j < 4)%nat -> (256 <= length (acc (B j) (t + (fuel - 1))))%nat) ->
  traced (fun T => forall (JJ : Junk) s, refilled4 t s ->
    wp (while_ fuel cond4 (body4 JJ) s) T (finished fuel t)).
Proof.
  induction fuel as [|fuel IH]; intros t Hf He; [exfalso; lia|].
  destruct (some_below_wp (cvec t)) as [T0 W0].
  assert (WC : forall s, refilled4 t s -> wp (cond4 s) T0 (fun b => b = existsb (fun c => c <? 256)%nat (cvec t))).
  { intros [[[ctrs ps] bufs] state] (HR & _). unfold cond4. now rewrite (ready_cvec _ _ _ HR). }
  destruct (existsb (fun c => c <? 256)%nat (cvec t)) eqn:E.
  - destruct (body4_wp t) as [T1 W1].
    assert (Hf' : (0 < fuel)%nat).
    { destruct fuel; [|lia]. exfalso. apply cvec_true in E as (j & Hj & Hl). specialize (He j Hj).
      replace (t + (1 - 1))%nat with t in He by lia. lia. }
    destruct (IH (S t) Hf') as [T2 W2].
    { intros j Hj. replace (S t + (fuel - 1))%nat with (t + (S fuel - 1))%nat by lia. auto. }
    eexists. intros JJ s HI. cbn [while_]. wstep. eapply wp_conseq; [apply (WC s HI)|]. intros b ->.
    wstep. eapply wp_conseq; [apply (W1 JJ s HI)|]. intros s' HI'. eapply wp_conseq; [apply (W2 JJ s' HI')|].
    intros [[[c p] b] st]. unfold finished. replace (t + (S fuel - 1))%nat with (S t + (fuel - 1))%nat by lia. auto.
  - eexists. intros JJ s HI. cbn [while_]. wstep. eapply wp_conseq; [apply (WC s HI)|]. intros b ->. wstep.
    destruct s as [[[ctrs ps] bufs] state]. destruct HI as ((_ & Lp & H) & HB & HS).
    assert (G : forall j, (j < 4)%nat -> (256 <= length (acc (B j) t))%nat).
    { intros j Hj. destruct (Compare_dec.le_dec 256 (length (acc (B j) t))) as [|Hn]; [assumption|]. exfalso.
      assert (existsb (fun c => c <? 256)%nat (cvec t) = true) by (apply cvec_true; exists j; split; auto; lia). congruence. }
    split; [exact Lp|]. split; [|split; [exact HB|apply HS]].
    intros j Hj. destruct (H j Hj) as [_ HH]. specialize (G j Hj).
    rewrite (holds_full _ _ HH) by (unfold got; rewrite firstn_length; lia).
    unfold got. symmetry. unfold acc. apply accepted_mono; [lia|]. exact G.
Qed.

Lemma refill4_timeout fuel : forall t (JJ : Junk) s, (exists j, (j < 4)%nat /\ (length (acc (B j) (t + (fuel - 1))) < 256)%nat) ->
  refilled4 t s -> while_ fuel cond4 (body4 JJ) s = Timeout.
Proof.
  induction fuel as [|fuel IH]; intros t JJ s He HI; [reflexivity|].
  destruct (some_below_wp (cvec t)) as [T0 W0].
  assert (E : existsb (fun c => c <? 256)%nat (cvec t) = true).
  { apply cvec_true. destruct He as (j & Hj & Hl). exists j. split; [exact Hj|].
    pose proof (accepted_length_mono (XOF (B j)) (168 + 56 * t) (168 + 56 * (t + (S fuel - 1))) ltac:(lia)) as M.
    fold (acc (B j) t) in M. fold (acc (B j) (t + (S fuel - 1))) in M. lia. }
  cbn [while_]. eapply bind_timeout.
  { destruct s as [[[ctrs ps] bufs] state]. destruct HI as (HR & _). unfold cond4. rewrite (ready_cvec _ _ _ HR). exact W0. }
  intros b ->. rewrite E. destruct (body4_wp t) as [T1 W1]. eapply bind_timeout; [apply (W1 JJ s HI)|].
  intros s' HI'. destruct (Nat.eq_dec fuel 0) as [->|]; [reflexivity|]. apply (IH (S t) JJ s'); [|exact HI'].
  destruct He as (j & Hj & Hl). exists j. split; [exact Hj|].
  replace (S t + (fuel - 1))%nat with (t + (S fuel - 1))%nat by lia. exact Hl.
Qed.
End Four.

(** ** Four entries *)
Lemma squeezing4_ext rb M M' n s : (forall j, (j < 4)%nat -> M j = M' j) -> squeezing4 rb M n s -> squeezing4 rb M' n s.
Proof. intros E [W H]. split; [exact W|]. intros j Hj i. rewrite <- E by auto. now apply H. Qed.

Lemma bind_ret_l {A C} (v : A) (f : A -> res C) : bind (ret v) f = f v.
Proof. unfold bind, ret. now destruct (f v). Qed.

Lemma sub_splice_self (b x : list Z) : (length x <= length b)%nat -> sub (splice b 0 x) 0 (length x) = x.
Proof. intros H. unfold sub, splice. cbn [firstn skipn app]. rewrite firstn_app, Nat.sub_diag, firstn_O, firstn_all. apply app_nil_r. Qed.

Lemma seeded_bufs n m bufs bufs' rho xss : bufs_ok n bufs -> length rho = 32%nat -> bytes rho -> (32 + m <= n)%nat ->
  (forall j, (j < 4)%nat -> length (nth j xss []) = m /\ bytes (nth j xss [])) ->
  (length bufs' = 4%nat /\ forall j, (j < 4)%nat -> nth j bufs' [] = splice (nth j bufs []) 0 (rho ++ nth j xss [])) ->
  bufs_ok n bufs' /\ forall j, (j < 4)%nat -> sub (nth j bufs' []) 0 (32 + m) = rho ++ nth j xss [].
Proof.
  intros [L B] Lr Br Hn Hx [L' E]. split; [split; [exact L'|]|]; intros j Hj; rewrite E by auto;
    destruct (B j Hj) as [Lj Bj]; destruct (Hx j Hj) as [Xl Xb].
  - assert (LL : length (rho ++ nth j xss []) = (32 + m)%nat) by (rewrite app_length; lia).
    split; [rewrite splice_length; lia|]. apply bytes_splice; [lia|exact Bj|]. now apply bnd_app.
  - assert (LL : length (rho ++ nth j xss []) = (32 + m)%nat) by (rewrite app_length; lia).
    rewrite <- LL. apply sub_splice_self. lia.
Qed.

Lemma first_blocks4 B bufs bufs' : bufs_ok 504 bufs ->
  wrote bufs 0 (168 * 3) (fun j i => stream 168 shake_sfx (B j) (0 * 168 + i)) bufs' ->
  forall j, (j < 4)%nat -> agrees 504 (nth j bufs' []) (XOF (B j)).
Proof. intros [_ HB] [_ W] j Hj. rewrite W by auto. apply first_blocks. now apply HB. Qed.

Section GenFour.
Variables (fuel so : nat) (rho : list Z) (transposed : bool) (xt xn : list (list Z)).
Let xss := if transposed then xt else xn.
Let B (j : nat) := rho ++ nth j xss [].
Hypothesis Hx : forall j, (j < 4)%nat -> length (nth j xss []) = 2%nat /\ bytes (nth j xss []).

Definition four_pre (ps bufs state : list (list Z)) (seed : list Z) : Prop :=
  length ps = 4%nat /\ (forall j, (j < 4)%nat -> length (nth j ps []) = 256%nat) /\ bufs_ok 504 bufs /\
  length state = 25%nat /\ seed_ok so rho seed.

(** Everything before the refill loop *)
Definition four_start (JJ : Junk) (ps bufs state : list (list Z)) (seed : list Z)
  : res (list nat * list (list Z) * list (list Z) * list (list Z)) :=
  bufs <- store_seed bufs seed so ;;
  c <- test transposed ;;
  bufs <- set_each bufs (if (c : bool) then xt else xn) ;;
  state <- shake128x4_absorb_once state bufs 34 ;;
  '(bufs, state) <- shake128x4_squeezeblocks bufs 0 REJ_UNIFORM_AVX_NBLOCKS state ;;
  '(ctrs, ps) <- for_ 4 0 (fun j s =>
     let '(ctrs, ps) := s in
     p <- aget ps j ;; b <- aget bufs j ;;
     '(c, p) <- rej_uniform_avx p b ;;
     ctrs <- aset ctrs j c ;; ps <- aset ps j p ;;
     ret (ctrs, ps)) (repeat 0%nat 4, ps) ;;
  ret (ctrs, ps, bufs, state).

Lemma four_start_wp :
  traced (fun T => forall (JJ : Junk) ps bufs state seed, four_pre ps bufs state seed ->
    wp (four_start JJ ps bufs state seed) T (refilled4 B 0)).
Proof.
  destruct (store_seed_wp so) as [T1 W1].
  destruct (set_each_wp 2) as [T2 W2].
  destruct (shakex4_absorb_once_wp 168 21 rate168 34) as [T3 W3].
  destruct (shakex4_squeezeblocks_wp 168 21 rate168 0 3) as [T4 W4].
  destruct (first_loop_wp B) as [T5 W5].
  eexists. intros JJ ps bufs state seed (Lp & Hp & HB & Ls & HS). unfold four_start.
  assert (Lr : length rho = 32%nat) by (destruct HS as (? & _ & <-); now apply sub_length).
  assert (Br : bytes rho) by (destruct HS as (? & Hb & <-); now apply bnd_sub).
  wstep. eapply wp_conseq; [apply (W1 bufs seed 504%nat rho HB ltac:(lia) HS)|]. intros bufs1 H1.
  wstep. wstep. fold xss.
  wstep. eapply wp_conseq; [apply (W2 bufs bufs1 xss 504%nat rho HB ltac:(lia) Lr H1); intros; now apply Hx|]. intros bufs2 H2.
  destruct (seeded_bufs 504 2 bufs bufs2 rho xss HB Lr Br ltac:(lia) Hx H2) as [HB2 E2].
  wstep. eapply wp_conseq; [apply (W3 JJ state bufs2 Ls); apply (bufs_four 504); [change (round8 34) with 40%nat; lia|exact HB2]|].
  intros state1 S1. apply (squeezing4_ext _ _ B) in S1; [|exact E2].
  wstep. eapply wp_conseq; [apply (W4 JJ bufs2 state1 B 0%nat S1); apply (bufs_four 504); [lia|exact HB2]|].
  intros [bufs3 state2] [HW S2].
  assert (HB3 : bufs_ok 504 bufs3).
  { apply (wrote_ok 504 bufs2 0 (168 * 3) _ bufs3 HB2 ltac:(lia)) with (2 := HW). intros; apply stream_range. }
  wstep. eapply wp_conseq; [apply (W5 ps bufs3 Lp Hp (proj1 HB3) (first_blocks4 B bufs2 bufs3 HB2 HW))|].
  intros [ctrs qs] HR. wstep. split; [exact HR|]. split; [exact HB3|exact S2].
Qed.

Lemma gen_four_split (JJ : Junk) ps bufs state seed :
  gen_four fuel ps bufs state seed so transposed xt xn =
  (s <- four_start JJ ps bufs state seed ;;
   '(ctrs, ps, bufs, state) <- while_ fuel cond4 (body4 JJ) s ;;
   ps <- for_ 4 0 (fun j ps => p <- aget ps j ;; p <- nttunpack_avx p ;; aset ps j p) ps ;;
   ret (ps, bufs, state)).
Proof.
  unfold gen_four, four_start.
  rewrite bind_assoc. apply bind_ext; intros bufs1.
  rewrite bind_assoc. apply bind_ext; intros c.
  rewrite bind_assoc. apply bind_ext; intros bufs2.
  rewrite bind_assoc. apply bind_ext; intros state1.
  rewrite bind_assoc. apply bind_ext; intros [bufs3 state2].
  rewrite bind_assoc. apply bind_ext; intros [ctrs qs]. rewrite bind_ret_l. reflexivity.
Qed.

Definition enough4 : Prop := forall j, (j < 4)%nat -> enough fuel (B j).

Lemma acc_triples b : (0 < fuel)%nat -> acc b (0 + (fuel - 1)) = accepted (XOF b) (triples fuel).
Proof. intros Hf. reflexivity. Qed.

Lemma gen_four_wp : enough4 ->
  traced (fun T => forall (JJ : Junk) ps bufs state seed, four_pre ps bufs state seed ->
    wp (gen_four fuel ps bufs state seed so transposed xt xn) T
       (fun '(ps', bufs', state') => ps' = mk 4 (fun j => avx_order (sampled fuel (B j))) /\
          bufs_ok 504 bufs' /\ length state' = 25%nat)).
Proof.
  intros HE.
  destruct four_start_wp as [T1 W1].
  destruct (refill4_wp B fuel 0) as [T2 W2].
  { destruct (HE 0%nat ltac:(lia)) as [Hf _]. exact Hf. }
  { intros j Hj. destruct (HE j Hj) as [Hf He]. exact He. }
  destruct nttunpack_avx_wp as [T3 W3].
  eexists. intros JJ ps bufs state seed HP. rewrite (gen_four_split JJ).
  wstep. eapply wp_conseq; [apply (W1 JJ ps bufs state seed HP)|]. intros s1 H1.
  wstep. eapply wp_conseq; [apply (W2 JJ s1 H1)|]. intros [[[ctrs qs] bufs'] state'] (Lq & Hq & HB & Ls).
  wstep. eapply wp_conseq.
  { apply (wp_vec 4 (fun _ => T3) (fun _ r r' => r' = avx_order r) (fun _ r => nttunpack_avx r) qs Lq).
    intros i Hi. apply W3. rewrite Hq by auto. change (firstn 256 _) with (sampled fuel (B i)). now apply sampled_length, HE. }
  intros qs' [Lq' Hq']. wstep. split; [|split; [exact HB|exact Ls]].
  apply (list_eq_nth []); [now rewrite mk_length|]. intros i Hi. rewrite Lq' in Hi. rewrite nth_mk by auto.
  rewrite Hq', Hq by auto. reflexivity.
Qed.

Lemma gen_four_timeout : ~ enough4 ->
  forall (JJ : Junk) ps bufs state seed, four_pre ps bufs state seed ->
    gen_four fuel ps bufs state seed so transposed xt xn = Timeout.
Proof.
  intros HN JJ ps bufs state seed HP. rewrite (gen_four_split JJ).
  destruct four_start_wp as [T1 W1].
  eapply bind_timeout; [apply (W1 JJ ps bufs state seed HP)|]. intros s1 H1. apply bind_timeout_l.
  destruct (Nat.eq_dec fuel 0) as [->|Hf]; [reflexivity|].
  apply (refill4_timeout B fuel 0 JJ s1); [|exact H1].
  assert (D : forall m, (m <= 4)%nat -> (forall j, (j < m)%nat -> enough fuel (B j)) \/ exists j, (j < 4)%nat /\ ~ enough fuel (B j)).
  { induction m as [|m IH]; intros Hm; [left; intros; lia|]. destruct (IH ltac:(lia)) as [E|E]; [|now right].
    destruct (enough_dec fuel (B m)) as [e|e].
    - left. intros j Hj. destruct (Nat.eq_dec j m) as [->|]; [exact e|]. apply E. lia.
    - right. exists m. split; [lia|exact e]. }
  destruct (D 4%nat (le_n _)) as [E|(j & Hj & E)]; [now destruct HN|].
  exists j. split; [exact Hj|].
  assert (~ (256 <= length (accepted (XOF (B j)) (triples fuel)))%nat) as HH.
  { intros HH. apply E. split; [lia|exact HH]. }
  rewrite acc_triples by lia. lia.
Qed.
End GenFour.

(** ** A single entry *)
Section GenOne.
Variables (fuel so : nat) (rho xs : list Z).
Let B := rho ++ xs.
Hypothesis Hx : length xs = 2%nat /\ bytes xs.

Definition one_pre (p b seed : list Z) : Prop :=
  length p = 256%nat /\ length b = 504%nat /\ bytes b /\ seed_ok so rho seed.

Lemma holds_ref t c p b st : c = length (firstn 256 (acc B t)) -> holds (firstn 256 (acc B t)) p -> length b = 504%nat ->
  squeezing 168 B ((3 + t) * 168) st -> refilled B p t (c, p, b, st).
Proof.
  intros E1 [L H] E3 E4. split; [exact E1|]. split; [|split; [exact E3|exact E4]].
  transitivity (firstn (length (firstn 256 (acc B t))) p ++ skipn (length (firstn 256 (acc B t))) p);
    [symmetry; apply firstn_skipn|]. rewrite H at 1. reflexivity.
Qed.

Definition one_start (JJ : Junk) (p b seed : list Z) : res (nat * list Z * list Z * keccak_state) :=
  f <- mload seed so 32 ;;
  b <- mstore b 0 f ;;
  b <- set_bytes b 32 xs ;;
  state1x <- shake128_absorb_once local_state b 0 34 ;;
  '(b, state1x) <- shake128_squeezeblocks b 0 REJ_UNIFORM_AVX_NBLOCKS state1x ;;
  '(c, p) <- rej_uniform_avx p b ;;
  ret (c, p, b, state1x).

Lemma one_start_wp :
  traced (fun T => forall (JJ : Junk) p b seed, one_pre p b seed ->
    wp (one_start JJ p b seed) T (fun s => length (snd (fst (fst s))) = 256%nat /\ refilled B (snd (fst (fst s))) 0 s)).
Proof.
  destruct (set_bytes_wp 2 32) as [T1 W1].
  destruct (shake_absorb_once_wp 168 21 0 34 rate168) as [T2 W2].
  destruct (shake_squeezeblocks_wp 168 21 0 3 rate168) as [T3 W3].
  destruct (rej_uniform_avx_wp (XOF B)) as [T4 W4]. { intros i _. apply XOF_range. }
  eexists. intros JJ p b seed (Lp & Lb & Bb & HS). unfold one_start.
  assert (Lr : length rho = 32%nat) by (destruct HS as (? & _ & <-); now apply sub_length).
  assert (Br : bytes rho) by (destruct HS as (? & Hb & <-); now apply bnd_sub).
  destruct HS as (H1 & H2 & H3). destruct Hx as [Lx Bx].
  assert (LB : length B = 34%nat) by (unfold B; rewrite app_length; lia).
  assert (BB : bytes B) by now apply bnd_app.
  wstep. eapply wp_conseq; [apply mload_wp; exact H1|]. intros f ->. rewrite H3.
  wstep. eapply wp_conseq; [apply mstore_wp; lia|]. intros b1 ->.
  wstep. eapply wp_conseq; [apply (W1 b rho xs Lx); lia|]. intros b2 ->. fold B.
  assert (Lb2 : length (splice b 0 B) = 504%nat) by (rewrite splice_length; lia).
  wstep. eapply wp_conseq; [apply (W2 local_state (splice b 0 B)); [apply local_length|lia|apply bytes_splice; [lia|exact Bb|exact BB]]|].
  intros st1 S1.
  assert (ES : sub (splice b 0 B) 0 34 = B) by (rewrite <- LB; apply sub_splice_self; lia). rewrite ES in S1.
  wstep. eapply wp_conseq; [apply (W3 st1 (splice b 0 B) B 0%nat S1); lia|].
  intros [b3 st2] [Eb S2]. subst b3.
  pose proof (first_blocks B (splice b 0 B) Lb2) as FB.
  wstep. eapply wp_conseq; [apply (W4 p _ Lp FB)|].
  intros [c p'] [Ec Hh]. cbn [fst snd] in *. wstep. cbn [fst snd]. split; [apply Hh|].
  apply holds_ref; [exact Ec|exact Hh|rewrite splice_length; rewrite ?mk_length; lia|exact S2].
Qed.

Lemma gen_one_split (JJ : Junk) p b seed :
  gen_one fuel p b seed so xs =
  (s <- one_start JJ p b seed ;;
   '(c, p, b, state1x) <- while_ fuel refill_cond refill_body s ;;
   p <- nttunpack_avx p ;;
   ret (p, b)).
Proof.
  unfold gen_one, one_start.
  rewrite bind_assoc. apply bind_ext; intros f.
  rewrite bind_assoc. apply bind_ext; intros b1.
  rewrite bind_assoc. apply bind_ext; intros b2.
  rewrite bind_assoc. apply bind_ext; intros st1.
  rewrite bind_assoc. apply bind_ext; intros [b3 st2].
  rewrite bind_assoc. apply bind_ext; intros [c p1]. rewrite bind_ret_l. reflexivity.
Qed.

Lemma gen_one_wp : enough fuel B ->
  traced (fun T => forall (JJ : Junk) p b seed, one_pre p b seed ->
    wp (gen_one fuel p b seed so xs) T (fun '(p', b') => p' = avx_order (sampled fuel B))).
Proof.
  intros [Hf He].
  destruct one_start_wp as [T1 W1].
  destruct (refill_wp B fuel 0 Hf He) as [T2 W2].
  destruct nttunpack_avx_wp as [T3 W3].
  eexists. intros JJ p b seed HP. rewrite (gen_one_split JJ).
  wstep. eapply wp_conseq; [apply (W1 JJ p b seed HP)|]. intros s [L HR].
  wstep. eapply wp_conseq; [apply (W2 _ s L HR)|]. intros [[[c p'] b'] st] (E & _ & _). cbn [fst snd] in E.
  assert (E' : p' = sampled fuel B) by exact E.
  wstep. eapply wp_conseq; [apply (W3 JJ p'); rewrite E'; now apply sampled_length|].
  intros p2 ->. wstep. now rewrite E'.
Qed.

Lemma gen_one_timeout : ~ enough fuel B ->
  forall (JJ : Junk) p b seed, one_pre p b seed -> gen_one fuel p b seed so xs = Timeout.
Proof.
  intros HN JJ p b seed HP. rewrite (gen_one_split JJ).
  destruct one_start_wp as [T1 W1].
  eapply bind_timeout; [apply (W1 JJ p b seed HP)|]. intros s [L HR]. apply bind_timeout_l.
  destruct (Nat.eq_dec fuel 0) as [->|Hf]; [reflexivity|].
  apply (refill_timeout B fuel 0 _ s) with (2 := L) (3 := HR).
  assert (~ (256 <= length (accepted (XOF B) (triples fuel)))%nat) as HH.
  { intros HH. apply HN. split; [lia|exact HH]. }
  rewrite acc_triples by lia. lia.
Qed.
End GenOne.

(** ** The matrix *)
Section Matrix.
Variables (lv : level) (fuel so : nat) (rho : list Z) (transposed : bool).
Notation K := (KYBER_K lv).
Definition entry (i j : nat) : list Z := avx_order (sampled fuel (entry_input rho transposed i j)).
Definition in_matrix (pos : list (nat * nat)) : Prop := forall i j, In (i, j) pos -> (i < K)%nat /\ (j < K)%nat.
Definition have (P : nat -> nat -> Prop) (a : list polyvec) : Prop :=
  wfmatrix lv a /\ forall i j, (i < K)%nat -> (j < K)%nat -> P i j -> nth j (nth i a []) [] = entry i j.

Lemma get_entries_wp pos : in_matrix pos ->
  traced (fun T => forall a, wfmatrix lv a ->
    wp (get_entries a pos) T (fun ps => ps = map (fun p => nth (snd p) (nth (fst p) a []) []) pos)).
Proof.
  induction pos as [|[i j] pos IH]; intros HP.
  - eexists. intros a _. cbn [get_entries]. now wstep.
  - destruct IH as [T W]; [intros x y Hxy; apply HP; now right|].
    destruct (HP i j (or_introl eq_refl)) as [Hi Hj].
    eexists. intros a HW. pose proof HW as [La Wa]. destruct (Wa i Hi) as [L1 L2]. cbn [get_entries]. unfold polyvec in *.
    wstep. eapply (wp_aget []); [lia|]. wstep. eapply (wp_aget []); [lia|]. wstep.
    eapply wp_conseq; [apply (W a HW)|]. intros ps ->. wstep. reflexivity.
Qed.

Lemma put_entries_wp pos : in_matrix pos -> (forall i j, In (i, j) pos -> length (entry i j) = 256%nat) ->
  traced (fun T => forall P a, have P a ->
    wp (put_entries a pos (map (fun p => entry (fst p) (snd p)) pos)) T (have (fun i j => P i j \/ In (i, j) pos))).
Proof.
  induction pos as [|[i j] pos IH]; intros HP HL.
  - eexists. intros P a [HW HA]. cbn [put_entries map]. wstep. split; [exact HW|]. intros i j Hi Hj [Hp|[]]. now apply HA.
  - destruct IH as [T W]; [intros x y Hxy; apply HP; now right|intros x y Hxy; apply HL; now right|].
    destruct (HP i j (or_introl eq_refl)) as [Hi Hj]. pose proof (HL i j (or_introl eq_refl)) as Le.
    eexists. intros P a [[La Wa] HA]. destruct (Wa i Hi) as [L1 L2]. cbn [put_entries map fst snd]. unfold polyvec in *.
    wstep. eapply (wp_aget []); [lia|]. wstep. wstep; [lia|]. wstep. wstep; [lia|].
    eapply wp_conseq; [apply (W (fun x y => P x y \/ (x, y) = (i, j)))|].
    + unfold have, wfmatrix, polyvec. split.
      * split; [now rewrite upd_length|]. intros x Hx. destruct (Wa x Hx) as [Lx Ly].
        destruct (Nat.eq_dec x i) as [->|Hne].
        -- rewrite nth_upd_eq by lia. split; [now rewrite upd_length|]. intros y Hy.
           destruct (Nat.eq_dec y j) as [->|Hnj]; [rewrite nth_upd_eq by lia; exact Le|].
           rewrite nth_upd_neq by lia. now apply Ly.
        -- rewrite nth_upd_neq by lia. now split.
      * intros x y Hx Hy Hp. destruct (Nat.eq_dec x i) as [->|Hne].
        -- rewrite nth_upd_eq by lia. destruct (Nat.eq_dec y j) as [->|Hnj]; [rewrite nth_upd_eq by lia; reflexivity|].
           rewrite nth_upd_neq by lia. apply HA; auto. destruct Hp as [Hp|Hp]; [exact Hp|congruence].
        -- rewrite nth_upd_neq by lia. apply HA; auto. destruct Hp as [Hp|Hp]; [exact Hp|congruence].
    + intros a' [HW' HA']. split; [exact HW'|]. intros x y Hx Hy Hp. apply HA'; auto.
      destruct Hp as [Hp|[Hp|Hp]]; auto.
Qed.

Definition group_pre (P : nat -> nat -> Prop) (s : list polyvec * list (list Z) * list (list Z)) : Prop :=
  let '(a, bufs, state) := s in have P a /\ bufs_ok 504 bufs /\ length state = 25%nat.

(** The bytes after the seed are the indices of the entries *)
Definition indexed (pos : list (nat * nat)) (xt xn : list (list Z)) : Prop :=
  length pos = 4%nat /\ (forall j, (j < 4)%nat ->
    length (nth j (if transposed then xt else xn) []) = 2%nat /\ bytes (nth j (if transposed then xt else xn) []) /\
    rho ++ nth j (if transposed then xt else xn) [] = entry_input rho transposed (fst (nth j pos (0, 0)%nat)) (snd (nth j pos (0, 0)%nat))).

Lemma indexed_in pos xt xn i j : indexed pos xt xn -> In (i, j) pos ->
  exists m, (m < 4)%nat /\ nth m pos (0, 0)%nat = (i, j).
Proof. intros [L _] Hin. destruct (In_nth pos (i, j) (0, 0)%nat Hin) as (m & Hm & E). exists m. split; [lia|exact E]. Qed.

Lemma group_four pos a bufs state seed P : in_matrix pos -> length pos = 4%nat -> group_pre P (a, bufs, state) -> seed_ok so rho seed ->
  four_pre so rho (map (fun p => nth (snd p) (nth (fst p) a []) []) pos) bufs state seed.
Proof.
  intros HP L (([La Wa] & _) & HB & Ls) HS. split; [now rewrite map_length|]. split; [|exact (conj HB (conj Ls HS))].
  intros j Hj. rewrite (map_nth_lt _ _ _ [] (0, 0)%nat) by lia.
  destruct (nth j pos (0, 0)%nat) as [x y] eqn:E. cbn [fst snd].
  assert (Hin : In (x, y) pos) by (rewrite <- E; apply nth_In; lia). destruct (HP x y Hin) as [Hx Hy]. now apply Wa.
Qed.

Lemma gen_group_wp pos xt xn : in_matrix pos -> indexed pos xt xn ->
  (forall i j, In (i, j) pos -> enough fuel (entry_input rho transposed i j)) ->
  traced (fun T => forall (JJ : Junk) P s seed, seed_ok so rho seed -> group_pre P s ->
    wp (gen_group fuel seed so transposed pos xt xn s) T (group_pre (fun i j => P i j \/ In (i, j) pos))).
Proof.
  intros HP HI HE.
  destruct (get_entries_wp pos HP) as [T1 W1].
  destruct (gen_four_wp fuel so rho transposed xt xn) as [T2 W2].
  { intros j Hj. destruct (proj2 HI j Hj) as (H1 & H2 & _). now split. }
  { intros j Hj. destruct (proj2 HI j Hj) as (_ & _ & ->). apply HE. destruct HI as [L _].
    rewrite <- surjective_pairing. apply nth_In. lia. }
  destruct (put_entries_wp pos HP) as [T3 W3].
  { intros i j Hin. unfold entry. rewrite avx_order_length. reflexivity. }
  eexists. intros JJ P [[a bufs] state] seed HS HG. pose proof HG as (HA & HB & Ls). unfold gen_group.
  wstep. eapply wp_conseq; [apply (W1 a (proj1 HA))|]. intros ps ->.
  wstep. eapply wp_conseq; [apply (W2 JJ); apply (group_four pos a bufs state seed P HP (proj1 HI) HG HS)|].
  intros [[ps' bufs'] state'] (E & HB' & Ls').
  assert (E2 : ps' = map (fun p => entry (fst p) (snd p)) pos).
  { rewrite E. destruct HI as [L HI]. apply (list_eq_nth []); [now rewrite mk_length, map_length|].
    intros j Hj. rewrite mk_length in Hj. rewrite nth_mk by auto. rewrite (map_nth_lt _ _ _ [] (0, 0)%nat) by lia.
    destruct (HI j Hj) as (_ & _ & ->). reflexivity. }
  rewrite E2. wstep. eapply wp_conseq; [apply (W3 P a HA)|]. intros a' HA'. wstep.
  split; [exact HA'|]. split; [exact HB'|exact Ls'].
Qed.

Lemma gen_group_timeout pos xt xn : in_matrix pos -> indexed pos xt xn ->
  (exists i j, In (i, j) pos /\ ~ enough fuel (entry_input rho transposed i j)) ->
  forall (JJ : Junk) P s seed, seed_ok so rho seed -> group_pre P s ->
    gen_group fuel seed so transposed pos xt xn s = Timeout.
Proof.
  intros HP HI (i & j & Hin & HN) JJ P [[a bufs] state] seed HS HG. unfold gen_group.
  destruct (get_entries_wp pos HP) as [T1 W1].
  eapply bind_timeout; [apply (W1 a (proj1 (proj1 HG)))|]. intros ps ->. apply bind_timeout_l.
  apply (gen_four_timeout fuel so rho transposed xt xn).
  - intros m Hm. destruct (proj2 HI m Hm) as (H1 & H2 & _). now split.
  - intros HE. apply HN. destruct (indexed_in pos xt xn i j HI Hin) as (m & Hm & E).
    specialize (HE m Hm). cbv beta in HE. destruct (proj2 HI m Hm) as (_ & _ & X). rewrite X, E in HE. exact HE.
  - exact (group_four pos a bufs state seed P HP (proj1 HI) HG HS).
Qed.

Lemma group_all P s : group_pre P s -> (forall i j, (i < K)%nat -> (j < K)%nat -> P i j) ->
  fst (fst s) = map (map avx_order) (matrix lv fuel rho transposed).
Proof.
  destruct s as [[a bufs] state]. intros (([La Wa] & HA) & _) HP. cbn [fst].
  unfold matrix. apply (list_eq_nth []); [now rewrite map_length, mk_length|].
  intros i Hi. unfold polyvec in *. rewrite La in Hi. rewrite (map_nth_lt _ _ _ [] []) by (now rewrite mk_length).
  rewrite nth_mk by auto. destruct (Wa i Hi) as [L1 L2].
  apply (list_eq_nth []); [now rewrite map_length, mk_length|].
  intros j Hj. rewrite L1 in Hj. rewrite (map_nth_lt _ _ _ [] []) by (now rewrite mk_length).
  rewrite nth_mk by auto. rewrite HA by auto. reflexivity.
Qed.

Lemma start_group (JJ : Junk) a : wfmatrix lv a ->
  group_pre (fun _ _ => False) (a, repeat (local8 REJ_UNIFORM_AVX_BUFLEN) 4, local_state4).
Proof.
  intros HW. split; [split; [exact HW|now intros]|]. split; [|apply local_state4_length].
  split; [reflexivity|]. intros j Hj.
  replace (nth j (repeat (local8 REJ_UNIFORM_AVX_BUFLEN) 4) []) with (local8 REJ_UNIFORM_AVX_BUFLEN)
    by (do 4 (destruct j as [|j]; [reflexivity|]); lia).
  split; [apply local8_length|apply local8_bytes].
Qed.
End Matrix.

Lemma indexed_row rho transposed i : (i < 4)%nat ->
  let x := u8 (Z.of_nat i) in
  indexed rho transposed [(i, 0); (i, 1); (i, 2); (i, 3)]%nat [[x; 0]; [x; 1]; [x; 2]; [x; 3]] [[0; x]; [1; x]; [2; x]; [3; x]].
Proof.
  intros Hi x. assert (E : x = Z.of_nat i) by (apply u8_small; lia). clearbody x. subst x.
  split; [reflexivity|]. intros j Hj. unfold entry_input.
  assert (BY : forall u v, 0 <= u <= 255 -> 0 <= v <= 255 -> bytes [u; v]).
  { intros u v Hu Hv. apply bnd_Forall. repeat constructor; lia. }
  do 4 (destruct j as [|j]; [destruct transposed; (split; [reflexivity|]); (split; [apply BY; lia|reflexivity])|]). lia.
Qed.

Lemma bytes2 u v : 0 <= u <= 255 -> 0 <= v <= 255 -> bytes [u; v].
Proof. intros Hu Hv. apply bnd_Forall. repeat constructor; lia. Qed.

Ltac indexed_tac tr := split; [reflexivity|]; intros j Hj; unfold entry_input;
  do 4 (destruct j as [|j]; [destruct tr; (split; [reflexivity|]); (split; [apply bytes2; lia|reflexivity])|]); lia.

Lemma indexed_2 rho transposed :
  indexed rho transposed [(0, 0); (0, 1); (1, 0); (1, 1)]%nat
        [[0; 0]; [0; 1]; [1; 0]; [1; 1]]
        [[0; 0]; [1; 0]; [0; 1]; [1; 1]].
Proof. indexed_tac transposed. Qed.
Lemma indexed_3a rho transposed :
  indexed rho transposed [(0, 0); (0, 1); (0, 2); (1, 0)]%nat
        [[0; 0]; [0; 1]; [0; 2]; [1; 0]]
        [[0; 0]; [1; 0]; [2; 0]; [0; 1]].
Proof. indexed_tac transposed. Qed.
Lemma indexed_3b rho transposed :
  indexed rho transposed [(1, 1); (1, 2); (2, 0); (2, 1)]%nat
        [[1; 1]; [1; 2]; [2; 0]; [2; 1]]
        [[1; 1]; [2; 1]; [0; 2]; [1; 2]].
Proof. indexed_tac transposed. Qed.

Ltac in_matrix_tac := intros i j Hin; cbn [In] in Hin; cbn [KYBER_K];
  repeat (destruct Hin as [Hin|Hin]; [injection Hin as <- <-; split; lia|]); destruct Hin.

Section Levels.
Variables (fuel so : nat) (rho : list Z) (transposed : bool).

Lemma gen_matrix_2 : enough_all Kyber512 fuel rho ->
  traced (fun T => forall (JJ : Junk) a seed, wfmatrix Kyber512 a -> seed_ok so rho seed ->
    wp (gen_matrix_avx2 Kyber512 fuel a seed so transposed) T
       (fun a' => a' = map (map avx_order) (matrix Kyber512 fuel rho transposed))).
Proof.
  intros HE. pose proof (entry_input_all Kyber512 fuel rho transposed HE) as HE'.
  assert (IM : in_matrix Kyber512 [(0, 0); (0, 1); (1, 0); (1, 1)]%nat) by in_matrix_tac.
  destruct (gen_group_wp Kyber512 fuel so rho transposed _ _ _ IM (indexed_2 rho transposed)) as [T W].
  { intros i j Hin. apply IM in Hin. now apply HE'. }
  eexists. intros JJ a seed HW HS. unfold gen_matrix_avx2. wstep.
  eapply wp_conseq; [apply (W JJ _ _ seed HS (start_group Kyber512 fuel rho transposed JJ a HW))|].
  intros s HG. pose proof (group_all _ _ _ _ _ _ HG) as E. destruct s as [[a' bufs] state]. cbn [fst] in E. wstep. apply E.
  intros i j Hi Hj. right. cbn [KYBER_K] in *. cbn [In].
  destruct i as [|[|]]; destruct j as [|[|]]; try lia; auto 10.
Qed.

Lemma gen_matrix_3 : enough_all Kyber768 fuel rho ->
  traced (fun T => forall (JJ : Junk) a seed, wfmatrix Kyber768 a -> seed_ok so rho seed ->
    wp (gen_matrix_avx2 Kyber768 fuel a seed so transposed) T
       (fun a' => a' = map (map avx_order) (matrix Kyber768 fuel rho transposed))).
Proof.
  intros HE. pose proof (entry_input_all Kyber768 fuel rho transposed HE) as HE'.
  assert (IM1 : in_matrix Kyber768 [(0, 0); (0, 1); (0, 2); (1, 0)]%nat) by in_matrix_tac.
  assert (IM2 : in_matrix Kyber768 [(1, 1); (1, 2); (2, 0); (2, 1)]%nat) by in_matrix_tac.
  destruct (gen_group_wp Kyber768 fuel so rho transposed _ _ _ IM1 (indexed_3a rho transposed)) as [T1 W1].
  { intros i j Hin. apply IM1 in Hin. now apply HE'. }
  destruct (gen_group_wp Kyber768 fuel so rho transposed _ _ _ IM2 (indexed_3b rho transposed)) as [T2 W2].
  { intros i j Hin. apply IM2 in Hin. now apply HE'. }
  destruct (gen_one_wp fuel so rho [2; 2]) as [T3 W3].
  { split; [reflexivity|apply bytes2; lia]. }
  { pose proof (HE' 2%nat 2%nat ltac:(cbn; lia) ltac:(cbn; lia)) as X. unfold entry_input in X. destruct transposed; exact X. }
  eexists. intros JJ a seed HW HS. unfold gen_matrix_avx2. wstep.
  eapply wp_conseq; [apply (W1 JJ _ _ seed HS (start_group Kyber768 fuel rho transposed JJ a HW))|].
  intros s1 HG1. wstep.
  eapply wp_conseq; [apply (W2 JJ _ _ seed HS HG1)|].
  intros [[a' bufs] state] HG2. pose proof HG2 as (([La Wa] & HA) & [Lb HB] & Ls).
  destruct (Wa 2%nat ltac:(cbn; lia)) as [L1 L2]. change (KYBER_K Kyber768) with 3%nat in La, L1, L2. unfold polyvec in *.
  destruct (HB 0%nat ltac:(lia)) as [Lb0 Bb0].
  wstep. wstep; [lia|]. wstep. wstep; [lia|]. wstep. wstep; [lia|]. wstep.
  eapply wp_conseq; [apply (W3 JJ); refine (conj (L2 2%nat _) (conj Lb0 (conj Bb0 HS))); lia|].
  intros [p b] ->. wstep. wstep; [lia|]. wstep; [lia|].
  assert (EE : rho ++ [2; 2] = entry_input rho transposed 2 2) by (unfold entry_input; destruct transposed; reflexivity).
  rewrite EE. fold (entry fuel rho transposed 2 2).
  match goal with |- ?x = _ => apply (group_all Kyber768 fuel rho transposed
    (fun i j => (((False \/ In (i, j) [(0, 0); (0, 1); (0, 2); (1, 0)]%nat) \/ In (i, j) [(1, 1); (1, 2); (2, 0); (2, 1)]%nat) \/ (i, j) = (2, 2)%nat)) (x, bufs, state)) end.
  - split; [|split; [split; [exact Lb|exact HB]|exact Ls]]. unfold have, wfmatrix, polyvec.
    change (KYBER_K Kyber768) with 3%nat in *. split.
    + split; [now rewrite upd_length|]. intros x Hx. destruct (Wa x Hx) as [Lx Ly].
      destruct (Nat.eq_dec x 2) as [->|Hne].
      * rewrite nth_upd_eq by lia. split; [now rewrite upd_length|]. intros y Hy.
        destruct (Nat.eq_dec y 2) as [->|Hnj]; [rewrite nth_upd_eq by lia; apply avx_order_length|].
        rewrite nth_upd_neq by lia. now apply Ly.
      * rewrite nth_upd_neq by lia. now split.
    + intros x y Hx Hy Hp. destruct (Nat.eq_dec x 2) as [->|Hne].
      * rewrite nth_upd_eq by lia. destruct (Nat.eq_dec y 2) as [->|Hnj]; [rewrite nth_upd_eq by lia; reflexivity|].
        rewrite nth_upd_neq by lia. apply HA; auto. destruct Hp as [Hp|Hp]; [exact Hp|congruence].
      * rewrite nth_upd_neq by lia. apply HA; auto. destruct Hp as [Hp|Hp]; [exact Hp|congruence].
  - intros i j Hi Hj. cbn [KYBER_K] in *. cbn [In].
    destruct i as [|[|[|]]]; destruct j as [|[|[|]]]; try lia; auto 12.
Qed.

Lemma row_in i : (i < 4)%nat -> in_matrix Kyber1024 [(i, 0); (i, 1); (i, 2); (i, 3)]%nat.
Proof.
  intros Hi x y Hin. cbn [In] in Hin. change (KYBER_K Kyber1024) with 4%nat.
  repeat (destruct Hin as [Hin|Hin]; [injection Hin as <- <-; split; lia|]). destruct Hin.
Qed.

Lemma group_weaken lv (P P' : nat -> nat -> Prop) s : (forall i j, (i < KYBER_K lv)%nat -> (j < KYBER_K lv)%nat -> P' i j -> P i j) ->
  group_pre lv fuel rho transposed P s -> group_pre lv fuel rho transposed P' s.
Proof.
  intros HP. destruct s as [[a bufs] state]. intros ((HW & HA) & HB). split; [|exact HB]. split; [exact HW|].
  intros i j Hi Hj Hp. apply HA; auto.
Qed.

Definition row_body (x : Junk * list Z) (i : nat) (s : list polyvec * list (list Z) * list (list Z)) :=
  let y := u8 (Z.of_nat i) in
  @gen_group (fst x) fuel (snd x) so transposed [(i, 0); (i, 1); (i, 2); (i, 3)]%nat
          [[y; 0]; [y; 1]; [y; 2]; [y; 3]]
          [[0; y]; [1; y]; [2; y]; [3; y]] s.

Lemma row_wp i : (i < 4)%nat -> (forall j, (j < 4)%nat -> enough fuel (entry_input rho transposed i j)) ->
  traced (fun T => forall (x : Junk * list Z) s, seed_ok so rho (snd x) ->
    group_pre Kyber1024 fuel rho transposed (fun i' _ => (i' < i)%nat) s ->
    wp (row_body x i s) T (group_pre Kyber1024 fuel rho transposed (fun i' _ => (i' < S i)%nat))).
Proof.
  intros Hi HE.
  destruct (gen_group_wp Kyber1024 fuel so rho transposed _ _ _ (row_in i Hi) (indexed_row rho transposed i Hi)) as [T W].
  { intros x y Hin. cbn [In] in Hin. repeat (destruct Hin as [Hin|Hin]; [injection Hin as <- <-; apply HE; lia|]). destruct Hin. }
  exists T. intros [JJ seed] s HS HG. cbn [fst snd] in *. unfold row_body. cbv zeta. cbn [fst snd].
  eapply wp_conseq; [apply (W JJ _ s seed HS HG)|].
  intros s'. apply group_weaken. change (KYBER_K Kyber1024) with 4%nat. intros x y Hx Hy Hlt.
  destruct (Nat.eq_dec x i) as [->|]; [right|left; lia]. cbn [In].
  destruct y as [|[|[|[|]]]]; try lia; auto 10.
Qed.

Lemma gen_matrix_4 : enough_all Kyber1024 fuel rho ->
  traced (fun T => forall (JJ : Junk) a seed, wfmatrix Kyber1024 a -> seed_ok so rho seed ->
    wp (gen_matrix_avx2 Kyber1024 fuel a seed so transposed) T
       (fun a' => a' = map (map avx_order) (matrix Kyber1024 fuel rho transposed))).
Proof.
  intros HE. pose proof (entry_input_all Kyber1024 fuel rho transposed HE) as HE'.
  destruct (traced_for 4 0 row_body (fun x => seed_ok so rho (snd x))
     (fun _ i => group_pre Kyber1024 fuel rho transposed (fun i' _ => (i' < i)%nat))) as [T W].
  { intros i Hi. apply row_wp; [lia|]. intros j Hj. apply HE'; cbn [KYBER_K]; lia. }
  eexists. intros JJ a seed HW HS. unfold gen_matrix_avx2. wstep.
  eapply wp_conseq; [apply (W (JJ, seed)); [exact HS|]|].
  { eapply group_weaken; [|exact (start_group Kyber1024 fuel rho transposed JJ a HW)]. intros; lia. }
  intros s HG. pose proof (group_all _ _ _ _ _ _ HG) as E. destruct s as [[a' bufs] state]. cbn [fst] in E. wstep. apply E.
  intros i j Hi Hj. exact Hi.
Qed.
End Levels.

Lemma gen_matrix_avx2_wp lv fuel so rho transposed : enough_all lv fuel rho ->
  traced (fun T => forall (JJ : Junk) a seed, wfmatrix lv a -> seed_ok so rho seed ->
    wp (gen_matrix_avx2 lv fuel a seed so transposed) T
       (fun a' => a' = map (map avx_order) (matrix lv fuel rho transposed))).
Proof. destruct lv; [apply gen_matrix_2|apply gen_matrix_3|apply gen_matrix_4]. Qed.

(** ** Running out of fuel *)
Lemma matrix_lacks lv fuel rho transposed : ~ enough_all lv fuel rho ->
  exists i j, (i < KYBER_K lv)%nat /\ (j < KYBER_K lv)%nat /\ ~ enough fuel (entry_input rho transposed i j).
Proof.
  intros HN. set (ent := fun i j => enough fuel (entry_input rho transposed i j)).
  assert (D : forall m, (forall i j, (i < m)%nat -> (j < KYBER_K lv)%nat -> ent i j) \/
                exists i j, (i < m)%nat /\ (j < KYBER_K lv)%nat /\ ~ ent i j).
  { induction m as [|m [IH|(i & j & Hi & Hj & Hn)]].
    - left. intros; lia.
    - assert (D2 : forall p, (forall j, (j < p)%nat -> ent m j) \/ exists j, (j < p)%nat /\ ~ ent m j).
      { induction p as [|p [IH2|(j & Hj & Hn)]].
        - left. intros; lia.
        - destruct (enough_dec fuel (entry_input rho transposed m p)) as [E|E].
          + left. intros j Hj. destruct (Nat.eq_dec j p) as [->|]; [exact E|]. apply IH2. lia.
          + right. exists p. split; [lia|exact E].
        - right. exists j. split; [lia|exact Hn]. }
      destruct (D2 (KYBER_K lv)) as [E|(j & Hj & Hn)].
      + left. intros i j Hi Hj. destruct (Nat.eq_dec i m) as [->|]; [now apply E|]. apply IH; lia.
      + right. exists m, j. split; [lia|]. now split.
    - right. exists i, j. split; [lia|]. now split. }
  destruct (D (KYBER_K lv)) as [E|E]; [|exact E].
  exfalso. apply HN. intros i j Hi Hj. unfold ent, entry_input in E. destruct transposed.
  - exact (E j i Hj Hi).
  - exact (E i j Hi Hj).
Qed.

(** Whether the entries of a group all have enough fuel *)
Lemma group_dec fuel rho transposed (pos : list (nat * nat)) :
  (forall i j, In (i, j) pos -> enough fuel (entry_input rho transposed i j)) \/
  (exists i j, In (i, j) pos /\ ~ enough fuel (entry_input rho transposed i j)).
Proof.
  induction pos as [|[x y] pos [IH|(i & j & Hin & HN)]].
  - left. intros i j [].
  - destruct (enough_dec fuel (entry_input rho transposed x y)) as [E|E].
    + left. intros i j [Hin|Hin]; [injection Hin as <- <-; exact E|now apply IH].
    + right. exists x, y. split; [now left|exact E].
  - right. exists i, j. split; [now right|exact HN].
Qed.

Lemma gen_matrix_avx2_timeout lv fuel so rho transposed : ~ enough_all lv fuel rho ->
  forall (JJ : Junk) a seed, wfmatrix lv a -> seed_ok so rho seed ->
    gen_matrix_avx2 lv fuel a seed so transposed = Timeout.
Proof.
  intros HN JJ a seed HW HS. destruct (matrix_lacks lv fuel rho transposed HN) as (i0 & j0 & Hi0 & Hj0 & HX).
  pose proof (start_group lv fuel rho transposed JJ a HW) as HG. unfold gen_matrix_avx2. destruct lv.
  - apply bind_timeout_l.
    assert (IM : in_matrix Kyber512 [(0, 0); (0, 1); (1, 0); (1, 1)]%nat) by in_matrix_tac.
    apply (gen_group_timeout Kyber512 fuel so rho transposed _ _ _ IM (indexed_2 rho transposed)) with (P := fun _ _ => False); auto.
    exists i0, j0. split; [|exact HX]. cbn [KYBER_K] in *. cbn [In].
    destruct i0 as [|[|]]; destruct j0 as [|[|]]; try lia; auto 10.
  - assert (IM1 : in_matrix Kyber768 [(0, 0); (0, 1); (0, 2); (1, 0)]%nat) by in_matrix_tac.
    assert (IM2 : in_matrix Kyber768 [(1, 1); (1, 2); (2, 0); (2, 1)]%nat) by in_matrix_tac.
    destruct (group_dec fuel rho transposed [(0, 0); (0, 1); (0, 2); (1, 0)]%nat) as [E1|E1].
    2:{ apply bind_timeout_l.
        apply (gen_group_timeout Kyber768 fuel so rho transposed _ _ _ IM1 (indexed_3a rho transposed) E1) with (P := fun _ _ => False); auto. }
    destruct (gen_group_wp Kyber768 fuel so rho transposed _ _ _ IM1 (indexed_3a rho transposed) E1) as [T1 W1].
    eapply bind_timeout; [apply (W1 JJ _ _ seed HS HG)|]. intros s1 HG1.
    destruct (group_dec fuel rho transposed [(1, 1); (1, 2); (2, 0); (2, 1)]%nat) as [E2|E2].
    2:{ apply bind_timeout_l.
        eapply (gen_group_timeout Kyber768 fuel so rho transposed _ _ _ IM2 (indexed_3b rho transposed) E2); [exact HS|exact HG1]. }
    destruct (gen_group_wp Kyber768 fuel so rho transposed _ _ _ IM2 (indexed_3b rho transposed) E2) as [T2 W2].
    eapply bind_timeout; [apply (W2 JJ _ _ seed HS HG1)|].
    intros [[a' bufs] state] HG2. pose proof HG2 as (([La Wa] & HA) & [Lb HB] & Ls).
    destruct (Wa 2%nat ltac:(cbn; lia)) as [L1 L2]. change (KYBER_K Kyber768) with 3%nat in La, L1, L2. unfold polyvec in *.
    destruct (HB 0%nat ltac:(lia)) as [Lb0 Bb0].
    eapply bind_timeout; [apply (wp_aget []) with (Q := fun v => v = nth 0 bufs []); [lia|reflexivity]|]. intros ? ->.
    eapply bind_timeout; [apply (wp_aget []) with (Q := fun v => v = nth 2 a' []); [lia|reflexivity]|]. intros ? ->.
    eapply bind_timeout; [apply (wp_aget []) with (Q := fun v => v = nth 2 (nth 2 a' []) []); [lia|reflexivity]|]. intros ? ->.
    apply bind_timeout_l.
    apply (gen_one_timeout fuel so rho [2; 2]).
    + split; [reflexivity|apply bytes2; lia].
    + assert (EE : rho ++ [2; 2] = entry_input rho transposed 2 2) by (unfold entry_input; destruct transposed; reflexivity).
      rewrite EE. intros E3. apply HX.
      assert (C : In (i0, j0) [(0, 0); (0, 1); (0, 2); (1, 0)]%nat \/ In (i0, j0) [(1, 1); (1, 2); (2, 0); (2, 1)]%nat \/
                  (i0 = 2 /\ j0 = 2)%nat).
      { clear - Hi0 Hj0. cbn [KYBER_K] in *. cbn [In]. destruct i0 as [|[|[|]]]; destruct j0 as [|[|[|]]]; try lia; auto 12. }
      destruct C as [C|[C|[-> ->]]]; [exact (E1 _ _ C)|exact (E2 _ _ C)|exact E3].
    + refine (conj (L2 2%nat _) (conj Lb0 (conj Bb0 HS))). lia.
  - apply bind_timeout_l.
    change (for_ 4 0 (row_body fuel so transposed (JJ, seed)) (a, repeat (local8 REJ_UNIFORM_AVX_BUFLEN) 4, local_state4) = Timeout).
    assert (ST : forall i s, (i < 4)%nat -> group_pre Kyber1024 fuel rho transposed (fun i' _ => (i' < i)%nat) s ->
      row_body fuel so transposed (JJ, seed) i s = Timeout \/
      exists T, wp (row_body fuel so transposed (JJ, seed) i s) T (group_pre Kyber1024 fuel rho transposed (fun i' _ => (i' < S i)%nat))).
    { intros i s Hi HGi. destruct (group_dec fuel rho transposed [(i, 0); (i, 1); (i, 2); (i, 3)]%nat) as [E|E].
      - right. destruct (row_wp fuel so rho transposed i Hi) as [T W].
        { intros j Hj. apply E. cbn [In]. destruct j as [|[|[|[|]]]]; try lia; auto 10. }
        exists T. exact (W (JJ, seed) s HS HGi).
      - left. exact (gen_group_timeout Kyber1024 fuel so rho transposed _ _ _ (row_in i Hi) (indexed_row rho transposed i Hi) E JJ _ s seed HS HGi). }
    apply (for_timeout (fun i => group_pre Kyber1024 fuel rho transposed (fun i' _ => (i' < i)%nat)) i0).
    + eapply group_weaken; [|exact HG]. intros; lia.
    + cbn [KYBER_K] in *. lia.
    + intros i s Hi. apply ST. cbn [KYBER_K] in *. lia.
    + intros s HGi. change (KYBER_K Kyber1024) with 4%nat in *.
      refine (gen_group_timeout Kyber1024 fuel so rho transposed _ _ _ (row_in i0 Hi0) (indexed_row rho transposed i0 Hi0) _ JJ _ s seed HS HGi).
      exists i0, j0. split; [|exact HX]. cbn [In]. destruct j0 as [|[|[|[|]]]]; try lia; auto 10.
Qed.
