(** * test_speed.c *)
From Coq Require Import ZArith List Lia Bool String.
From Verif Require Import CMonad WP Proof_Base Levels Model_Params Model_Randombytes Model_Poly Model_Polyvec Model_Kem Model_AvxKem Spec_FIPS202 Spec_FIPS203 Vocab Vocab_Avx Vocab_Rng Vocab_Tests
  Model_Tests Model_Speed Vocab_Speed Proof_Rng Proof_GenMatrix Proof_Polyvec Proof_Tests Proof_Speed Proof_SpeedParts.
Import ListNotations.
Open Scope Z_scope.
Open Scope cmonad_scope.
Notation length := List.length.
Local Opaque SHA3_256 SHA3_512 SHAKE256 SHAKE128 keypair_derand_of enc_derand_of dec_of gen_matrix_of getnoise_eta1_of getnoise_eta2_of
  poly_ntt_of poly_invntt_of basemul_of tomsg_of frommsg_of compress_of decompress_of vcompress_of vdecompress_of indcpa_keypair_of indcpa_enc_of indcpa_dec_of
  keypair_with enc_with.

Lemma safely_for {S} (body : nat -> S -> res S) (P : nat -> S -> Prop) n : forall lo s, P lo s ->
  (forall i s, (lo <= i < lo + n)%nat -> P i s -> safely (body i s) (P (Datatypes.S i))) -> safely (for_ n lo body s) (P (lo + n)%nat).
Proof.
  induction n as [|n IH]; intros lo s H0 HB; cbn [for_].
  - rewrite Nat.add_0_r. exact H0.
  - apply (safely_bind _ _ (fun _ => True)); [exact I|]. intros _ _.
    eapply safely_bind; [apply HB; [lia|exact H0]|]. intros s' H'.
    replace (lo + Datatypes.S n)%nat with (Datatypes.S lo + n)%nat by lia. apply IH; [exact H'|]. intros i s1 Hi. apply HB. lia.
Qed.
Lemma aget_safe {A} (l : list A) i d : (i < length l)%nat -> safely (aget l i) (fun x => x = nth i l d).
Proof. intros L. unfold aget. rewrite (nth_error_nth' l d L). reflexivity. Qed.
Lemma aset_safe {A} (l : list A) i x : (i < length l)%nat -> safely (aset l i x) (fun l' => l' = upd l i x).
Proof. intros L. unfold aset. destruct (Nat.ltb_spec i (length l)); [reflexivity|lia]. Qed.

Lemma upd_middle {A} (a l : list A) i x : length a = i -> (0 < length l)%nat -> upd (a ++ l) i x = a ++ x :: skipn 1 l.
Proof.
  revert i. induction a as [|y a IH]; intros i <- L; cbn [app length upd].
  - destruct l; cbn in *; [lia|reflexivity].
  - f_equal. apply IH; auto.
Qed.

Section Main.
Variable clk : nat -> Z.
Variable qsort : (Z -> Z -> Z) -> list Z -> list Z.
Hypothesis qsort_ok : sorts qsort.
Context {S : Type} (rb : S -> list Z -> nat -> nat -> res (list Z * S)) (f : nat -> Z) (R : list nat -> nat -> S -> Prop).
Hypothesis HS : stream_source rb f R.
Variables (V : variant) (lv : level) (fuel ntests rounds : nat).
Hypothesis many : (2 <= ntests)%nat.

Lemma piece_snoc p i : piece clk p (Datatypes.S i) = piece clk p i ++ [clk (p + i)%nat].
Proof. replace (Datatypes.S i) with (i + 1)%nat by lia. rewrite piece_split. reflexivity. Qed.
Lemma timed_safe (I : nat -> vars -> Prop) (body : nat -> @vars S -> res vars) t p v : length t = ntests -> I 0%nat v ->
  (forall i v, (i < ntests)%nat -> I i v -> safely (body i v) (I (Datatypes.S i))) ->
  safely (timed clk ntests body t p v) (fun w => fst (fst w) = piece clk p ntests /\ snd (fst w) = (p + ntests)%nat /\ I ntests (snd w)).
Proof.
  intros L H0 HB. unfold timed.
  eapply safely_mono.
  { apply (safely_for _ (fun i w => fst (fst w) = piece clk p i ++ skipn i t /\ snd (fst w) = (p + i)%nat /\ I i (snd w)) ntests 0 (t, p, v)).
    - cbn [fst snd]. split; [reflexivity|]. split; [lia|exact H0].
    - intros i [[t' p'] v'] Hi (E1 & E2 & HI). cbn [fst snd] in *. subst t' p'.
      assert (Li : length (piece clk p i ++ skipn i t) = ntests) by (rewrite app_length, piece_length, skipn_length; lia).
      eapply safely_bind; [apply aset_safe; lia|]. intros t' ->.
      eapply safely_bind; [apply HB; [lia|exact HI]|]. intros v2 H2. apply safely_ret. cbn [fst snd].
      split; [|split; [lia|exact H2]].
      rewrite piece_snoc, <- app_assoc. rewrite upd_middle; [|apply piece_length|rewrite skipn_length; lia].
      rewrite skipn_skipn. replace (i + 1)%nat with (Datatypes.S i) by lia. reflexivity. }
  intros [[t' p'] v'] (E1 & E2 & HI). cbn [fst snd Nat.add] in *. split; [|auto]. rewrite E1, skipn_all2, app_nil_r by lia. reflexivity.
Qed.

(** ** States of the program *)
Record fit (l : list nat) (v : @vars S) : Prop := {
  f_matrix : wfmatrix lv (v_matrix v);
  f_ap : length (v_ap v) = 256%nat;
  f_pk : byt (KYBER_PUBLICKEYBYTES lv) (v_pk v);
  f_sk : byt (KYBER_SECRETKEYBYTES lv) (v_sk v);
  f_ct : byt (KYBER_CIPHERTEXTBYTES lv) (v_ct v);
  f_key : byt 32 (v_key v);
  f_rng : exists p, rdy R (eq l) p (v_rng v) }.
Lemma fit_matrix l v x : fit l v -> wfmatrix lv x -> fit l (set_matrix x v).
Proof. intros [] ?. split; assumption. Qed.
Lemma fit_ap l v x : fit l v -> length x = 256%nat -> fit l (set_ap x v).
Proof. intros [] ?. split; assumption. Qed.
Lemma fit_keys l v x y : fit l v -> byt (KYBER_PUBLICKEYBYTES lv) x -> byt (KYBER_SECRETKEYBYTES lv) y -> fit l (set_keys x y v).
Proof. intros [] ? ?. split; assumption. Qed.
Lemma fit_ct l v x : fit l v -> byt (KYBER_CIPHERTEXTBYTES lv) x -> fit l (set_ct x v).
Proof. intros [] ?. split; assumption. Qed.
Lemma fit_key l v x : fit l v -> byt 32 x -> fit l (set_key x v).
Proof. intros [] ?. split; assumption. Qed.
Lemma fit_next l l' v p s : fit l v -> rdy R (eq l') p s -> fit l' (set_rng s v).
Proof. intros [] ?. split; try assumption. now exists p. Qed.
Lemma rdy_req len l p s : rdy R (eq (len :: l)) p s -> rdy R (req len (eq l)) p s.
Proof. intros H. apply (rdy_sub R _ _ _ _ H); [exists (len :: l), l; auto|]. intros ? (l' & -> & <-). reflexivity. Qed.

(** ** A chain of loops *)
Definition bench := (string * (Junk -> @vars S -> res (@vars S)))%type.
Inductive chain : (@vars S -> Prop) -> list bench -> Prop :=
| chain_nil P : chain P []
| chain_cons (P : @vars S -> Prop) (I : nat -> @vars S -> Prop) label body l :
    (forall v, P v -> I 0%nat v) -> (forall JJ i v, (i < ntests)%nat -> I i v -> safely (body JJ v) (I (Datatypes.S i))) ->
    chain (I ntests) l -> chain P ((label, body) :: l).
Lemma chain_pre (P P' : @vars S -> Prop) l : (forall v, P v -> P' v) -> chain P' l -> chain P l.
Proof.
  intros H HC. destruct HC as [P'|P' I label body l H0 HB HC]; [constructor|]. apply (chain_cons P I); auto.
Qed.
Lemma chain_loop (P Q : @vars S -> Prop) label body l :
  (forall v, Q v -> P v) -> (forall JJ v, P v -> safely (body JJ v) Q) -> chain Q l -> chain P ((label, body) :: l).
Proof.
  intros QP HB HC. apply (chain_cons P (fun i v => if (i =? 0)%nat then P v else Q v)).
  - auto.
  - intros JJ i v _ Hv. cbn [Nat.eqb]. apply HB. destruct (i =? 0)%nat; auto.
  - destruct (Nat.eqb_spec ntests 0); [lia|exact HC].
Qed.
Lemma run_safe JJ l : forall P b t o p v, chain P l -> P v -> length t = ntests -> counter o ->
  safely (run_benchmarks clk qsort ntests rounds JJ b l t o p v) (reports clk ntests rounds (map fst l) o p).
Proof.
  induction l as [|[label body] l IH]; intros P b t o p v HC HP Lt Co; cbn [run_benchmarks map fst].
  - apply safely_ret. constructor.
  - inversion HC as [|P' I' la bo l' H0 HB HC']; subst.
    eapply safely_bind; [apply (timed_safe I' (fun i => body (JJ b i)) t p v Lt (H0 v HP)); intros i v1 Hi HI; now apply HB|].
    intros [[t1 p1] v1] (E1 & E2 & HI). cbn [fst snd] in *. subst t1 p1. cbv beta iota.
    destruct (print_results_yields clk qsort qsort_ok rounds label (piece clk p ntests) [] o (p + ntests)%nat) as (t' & o' & p' & out & Y & L' & C' & OA & RP);
      [rewrite piece_length; exact many|exact Co|].
    rewrite piece_length in Y, L'. rewrite !app_nil_r in Y.
    eapply safely_bind; [apply (safely_yields _ _ (fun w => w = (t', o', p', out)) Y eq_refl)|]. intros ? ->. cbv beta iota.
    eapply safely_bind; [apply (IH (I' ntests) (Datatypes.S b) t' o' p' v1 HC' HI); [exact L'|exact C']|]. intros rest Hr.
    apply safely_ret. econstructor; eassumption.
Qed.

(** ** The twenty loops *)
Definition ready l (v : @vars S) := fit l v /\ rows lv (v_matrix v).
Definition near l B (v : @vars S) := ready l v /\ within V B (v_ap v).
Definition small l (v : @vars S) := ready l v /\ bnd 0 3328 (v_ap v).
Lemma row_of l v i : ready l v -> (i < 2)%nat -> safely (aget (v_matrix v) i) (fun x => vbnd (KYBER_K lv) 0 3328 x).
Proof.
  intros [F [L H]] Hi. pose proof (K_range lv). eapply safely_mono; [apply (aget_safe _ i []); unfold polyvec in *; lia|]. intros x ->. apply H. lia.
Qed.
Lemma near_ready l B v : near l B v -> ready l v. Proof. now intros []. Qed.
Lemma near_le l B B' v : B <= B' -> near l B v -> near l B' v.
Proof. intros H [Hr Hw]. split; [exact Hr|]. now apply (within_le V B). Qed.
Lemma set_near l B v a : ready l v -> within V B a -> near l B (set_ap a v).
Proof. intros [F Hr] W. split; [split; [apply fit_ap; [exact F|apply W]|exact Hr]|exact W]. Qed.
Lemma set_ready l v a : ready l v -> length a = 256%nat -> ready l (set_ap a v).
Proof. intros [F Hr] L. split; [now apply fit_ap|exact Hr]. Qed.
Lemma wf_set m x : wfmatrix lv m -> length x = KYBER_K lv -> (forall i, (i < KYBER_K lv)%nat -> length (nth i x []) = 256%nat) -> wfmatrix lv (upd m 0 x).
Proof.
  intros [L H] Lx Hx. pose proof (K_range lv). split; [now rewrite upd_length|]. intros i Hi. destruct (Nat.eq_dec i 0) as [->|N].
  - rewrite nth_upd_eq by (unfold polyvec in *; lia). split; auto.
  - rewrite nth_upd_neq by lia. apply H. lia.
Qed.

Variables coins32 coins64 : list Z.
Hypothesis coins32_ok : byte_array 32 coins32.
Hypothesis coins64_ok : byte_array 64 coins64.
Lemma chain_main : chain (fit (repeat 64 ntests ++ repeat 32 ntests)%nat) (benchmarks rb V lv fuel coins32 coins64).
Proof.
  unfold benchmarks. set (l := (repeat 64 ntests ++ repeat 32 ntests)%nat).
  apply (chain_loop _ (ready l)); [now intros v []| |].
  { intros JJ v F. eapply safely_bind; [apply gen_safe; apply F|]. intros m Hm. apply safely_ret.
    split; [apply fit_matrix; [exact F|now apply rows_wf]|exact Hm]. }
  apply (chain_loop _ (near l 3)); [apply near_ready| |].
  { intros JJ v F. eapply safely_bind; [apply eta1_safe; apply F|]. intros a Ha. apply safely_ret. now apply set_near. }
  apply (chain_pre _ (ready l)); [apply near_ready|].
  apply (chain_loop _ (near l 3)); [apply near_ready| |].
  { intros JJ v F. eapply safely_bind; [apply (eta2_safe V lv); apply F|]. intros a Ha. apply safely_ret. now apply set_near. }
  apply (chain_pre _ (near l 9471)); [intros v; apply near_le; lia|].
  apply (chain_loop _ (near l 1664)); [intros v; apply near_le; lia| |].
  { intros JJ v F. eapply safely_bind; [apply ntt_safe; apply F|]. intros a Ha. apply safely_ret. apply set_near; [exact (near_ready _ _ _ F)|exact Ha]. }
  apply (chain_pre _ (near l 16383)); [intros v; apply near_le; lia|].
  apply (chain_loop _ (near l 3328)); [intros v; apply near_le; lia| |].
  { intros JJ v F. eapply safely_bind; [apply invntt_safe; apply F|]. intros a Ha. apply safely_ret. apply set_near; [exact (near_ready _ _ _ F)|exact Ha]. }
  apply (chain_pre _ (ready l)); [apply near_ready|].
  apply (chain_loop _ (near l 1664)); [apply near_ready| |].
  { intros JJ v F. eapply safely_bind; [apply (row_of l v 0 F); lia|]. intros x Hx.
    eapply safely_bind; [apply (row_of l v 1 F); lia|]. intros y Hy.
    eapply safely_bind; [apply (basemul_safe V lv JJ _ x y); [apply F|exact Hx|exact Hy]|]. intros a Ha. apply safely_ret. now apply set_near. }
  apply (chain_loop _ (near l 1664)); [auto| |].
  { intros _ v [F W]. eapply safely_bind; [apply (tomsg_safe V lv); [apply F|exact W]|]. intros c Hc. apply safely_ret.
    split; [|exact W]. split; [apply fit_ct; [apply F|exact Hc]|apply F]. }
  apply (chain_pre _ (ready l)); [apply near_ready|].
  apply (chain_loop _ (small l)); [now intros v []| |].
  { intros _ v F. eapply safely_bind; [apply (frommsg_safe V lv); apply F|]. intros a [La Ba]. apply safely_ret.
    split; [now apply set_ready|exact Ba]. }
  apply (chain_loop _ (small l)); [auto| |].
  { intros JJ v [F B]. eapply safely_bind; [apply compress_safe; [apply F|apply F|exact B]|]. intros c Hc. apply safely_ret.
    split; [|exact B]. split; [apply fit_ct; [apply F|exact Hc]|apply F]. }
  apply (chain_pre _ (ready l)); [now intros v []|].
  apply (chain_loop _ (ready l)); [auto| |].
  { intros JJ v F. eapply safely_bind; [apply decompress_safe; apply F|]. intros a Ha. apply safely_ret. now apply set_ready. }
  apply (chain_loop _ (ready l)); [auto| |].
  { intros JJ v F. eapply safely_bind; [apply (row_of l v 0 F); lia|]. intros x Hx.
    eapply safely_bind; [apply vcompress_safe; [apply F|exact Hx]|]. intros c Hc. apply safely_ret.
    split; [apply fit_ct; [apply F|exact Hc]|apply F]. }
  apply (chain_pre _ (fit l)); [now intros v []|].
  apply (chain_loop _ (fit l)); [auto| |].
  { intros JJ v F. pose proof (f_matrix _ _ F) as [Lm Hm]. pose proof (K_range lv) as HK. destruct (Hm 0%nat ltac:(lia)) as [L0 H0].
    eapply safely_bind; [apply (aget_safe _ 0 []); unfold polyvec in *; lia|]. intros x ->.
    eapply safely_bind; [apply vdecompress_safe; [exact L0|exact H0|apply F]|]. intros x' [Lx Hx].
    eapply safely_bind; [apply aset_safe; unfold polyvec in *; lia|]. intros m ->. apply safely_ret.
    apply fit_matrix; [exact F|]. apply wf_set; [apply F|exact Lx|exact Hx]. }
  assert (H32 : byt 32 coins32) by (now apply byt_array).
  apply (chain_loop _ (fit l)); [auto| |].
  { intros JJ v F. eapply safely_bind; [apply indcpa_keypair_safe; [apply F|apply F|exact H32]|]. intros [pk sk] [Hp Hs]. apply safely_ret. now apply fit_keys. }
  apply (chain_loop _ (fit l)); [auto| |].
  { intros JJ v F. eapply safely_bind; [apply indcpa_enc_safe; [apply F|apply F|apply F|apply seed_byt]|]. intros c Hc. apply safely_ret. now apply fit_ct. }
  apply (chain_loop _ (fit l)); [auto| |].
  { intros JJ v F. eapply safely_bind; [apply (indcpa_dec_safe V lv); apply F|]. intros m Hm. apply safely_ret. now apply fit_key. }
  apply (chain_loop _ (fit l)); [auto| |].
  { intros JJ v F. destruct coins64_ok as [L64 B64]. 
    assert (E : coins64 = firstn 32 coins64 ++ skipn 32 coins64) by (symmetry; apply firstn_skipn).
    rewrite E in B64. apply all_bytes_app in B64 as [B1 B2]. rewrite E.
    eapply safely_bind; [apply (kp_safe V JJ lv fuel); [apply F|apply F|split; [rewrite firstn_length; lia|exact B1]|split; [rewrite skipn_length; lia|exact B2]]|].
    intros [[pk sk] r] (_ & Hp & Hs). apply safely_ret. apply fit_keys; [exact F|now apply byt_array|now apply byt_array]. }
  apply (chain_cons _ (fun i => fit (repeat 64 (ntests - i) ++ repeat 32 ntests)%nat)).
  { intros v. rewrite Nat.sub_0_r. auto. }
  { intros JJ i v Hi F. destruct (f_rng _ _ F) as [p Hp]. replace (ntests - i)%nat with (Datatypes.S (ntests - Datatypes.S i)) in Hp by lia.
    cbn [repeat app] in Hp. apply rdy_req in Hp.
    eapply safely_bind; [apply (keypair_with_safe rb f R HS V lv fuel JJ _ p _ _ _ Hp); apply F|].
    intros [[[pk sk] r] s'] (_ & _ & Hpk & Hsk & R'). apply safely_ret.
    apply (fit_next _ _ _ _ _ (fit_keys _ _ _ _ F (proj2 (byt_array _ _) Hpk) (proj2 (byt_array _ _) Hsk)) R'). }
  rewrite Nat.sub_diag. cbn [repeat app].
  apply (chain_loop _ (fit (repeat 32 ntests)%nat)); [auto| |].
  { intros JJ v F. eapply safely_bind; [apply (enc_safe V JJ lv fuel); [apply F|apply F|apply byt_array, F|exact coins32_ok]|].
    intros [[c K] r] (_ & Hc & HK). apply safely_ret. apply fit_key; [apply fit_ct; [exact F|now apply byt_array]|now apply byt_array]. }
  apply (chain_cons _ (fun i => fit (repeat 32 (ntests - i))%nat)).
  { intros v. rewrite Nat.sub_0_r. auto. }
  { intros JJ i v Hi F. destruct (f_rng _ _ F) as [p Hp]. replace (ntests - i)%nat with (Datatypes.S (ntests - Datatypes.S i)) in Hp by lia.
    cbn [repeat app] in Hp. apply rdy_req in Hp.
    eapply safely_bind; [apply (enc_with_safe rb f R HS V lv fuel JJ _ p _ _ _ _ Hp); [apply F|apply F|apply byt_array, F]|].
    intros [[[c K] r] s'] (_ & _ & Hc & HK & R'). apply safely_ret.
    apply (fit_next _ _ _ _ _ (fit_key _ _ _ (fit_ct _ _ _ F (proj2 (byt_array _ _) Hc)) (proj2 (byt_array _ _) HK)) R'). }
  rewrite Nat.sub_diag. cbn [repeat].
  apply (chain_loop _ (fit [])); [auto| |constructor].
  { intros JJ v F. eapply safely_bind; [apply (dec_safe V JJ lv fuel); [apply F|apply byt_array, F|apply byt_array, F]|].
    intros [K r] (_ & HK). apply safely_ret. apply fit_key; [exact F|now apply byt_array]. }
Qed.
End Main.

Lemma nth_repeat_lt {A} (x : A) m i d : (i < m)%nat -> nth i (repeat x m) d = x.
Proof. revert i. induction m as [|m IH]; intros [|i] H; cbn; try lia; auto. apply IH. lia. Qed.
Lemma bytes_of_stack_byt (JJ : Junk) m : byt m (bytes_of_stack JJ m).
Proof.
  unfold bytes_of_stack. assert (L : length (map u8 (@local JJ m)) = m) by (now rewrite map_length, local_len). split; [exact L|].
  intros i Hi. rewrite L in Hi. rewrite (nth_indep _ 0 (u8 0)) by lia. rewrite map_nth. unfold u8, wrapu. assert (X : 0 < 2 ^ 8) by reflexivity. pose proof (Z.mod_pos_bound (nth i (@local JJ m) 0) _ X). change (2 ^ 8) with 256 in *. lia.
Qed.
Lemma speed_safe {S} clk qsort (rb : S -> list Z -> nat -> nat -> res (list Z * S)) f R V lv fuel ntests rounds JJ p s :
  sorts qsort -> stream_source rb f R -> (2 <= ntests)%nat -> R (speed_requests ntests) p s ->
  safely (test_speed_main clk qsort rb V lv fuel ntests rounds JJ s)
    (fun v => snd v = 0 /\ reports clk ntests rounds speed_labels (2 ^ 64 - 1) 0 (fst v)).
Proof.
  intros QS HS Hn HR. unfold test_speed_main. cbv zeta.
  assert (H0 : rdy R (eq (speed_requests ntests)) p s) by (split; [now eexists|intros ? <-; exact HR]).
  unfold speed_requests in H0. cbn [app] in H0. apply rdy_req in H0.
  change KYBER_SYMBYTES with 32%nat. change (2 * 32)%nat with 64%nat.
  eapply safely_bind; [apply (rb_safe rb f R HS 32 _ p s _ H0); apply bytes_of_stack_byt|].
  intros [c32 s1] (E1 & B1 & R1). cbn [fst snd] in E1, R1. cbv beta iota. apply rdy_req in R1. subst c32.
  eapply safely_bind; [apply (rb_safe rb f R HS 64 _ _ s1 _ R1); apply bytes_of_stack_byt|].
  intros [c64 s2] (E2 & B2 & R2). cbn [fst snd] in E2, R2. cbv beta iota. subst c64.
  eapply safely_bind.
  { apply (run_safe clk qsort QS ntests rounds Hn JJ _ _ _ _ _ _ _ (chain_main rb f R HS V lv fuel ntests Hn _ _ B1 B2)).
    - split; cbn [v_matrix v_ap v_pk v_sk v_ct v_key v_rng]; try apply bytes_of_stack_byt.
      + split; [apply repeat_length|]. intros i Hi. rewrite nth_repeat_lt by exact Hi. split; [apply repeat_length|]. intros j Hj.
        rewrite nth_repeat_lt by exact Hj. apply local_len.
      + apply local_len.
      + eexists. exact R2.
    - apply repeat_length.
    - split; [apply Z.lt_le_incl|]; reflexivity. }
  intros out Ho. apply safely_ret. cbn [fst snd]. split; [reflexivity|exact Ho].
Qed.
