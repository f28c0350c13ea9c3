(** * The permutations and the absorbing loop on the four-way state *)
From Coq Require Import ZArith List Lia Bool.
From Verif Require Import CMonad WP Proof_Base Proof_Bits Model_Fips202 Spec_FIPS202 Proof_Keccak Proof_Sponge Proof_Shake
  Model_AvxKeccak Proof_AvxKeccak Model_AvxSnP Proof_SnPBase Proof_SnPBytes Proof_SnPLanes Vocab Vocab_Four Vocab_SnP.
Import ListNotations.
Open Scope Z_scope.

(** ** Twelve rounds on lanes *)
Definition lrounds (l : list nat) (L : rows) : rows :=
  fold_left (fun L ir => lround (nth ir KeccakF1600RoundConstants 0) L) l L.
Definition on_A (L : rows) (env : kvar -> Z) : Prop := kvals kA env 25 = list_of L /\ kvals kC env 5 = lCs L.
Definition on_E (L : rows) (env : kvar -> Z) : Prop := kvals kE env 25 = list_of L /\ kvals kC env 5 = lCs L.

Lemma go_AE m L env : on_A L env -> on_E (lround (nth m KeccakF1600RoundConstants 0) L) (kexec lane_ops (thetaRhoPiChiIotaPrepareTheta m kA kE) env).
Proof.
  intros [HA HC]. pose proof (round_AE m env L HA HC) as E. split; [exact E|].
  etransitivity; [apply parity_AE|]. rewrite E. apply columns_list_of.
Qed.
Lemma go_EA m L env : on_E L env -> on_A (lround (nth m KeccakF1600RoundConstants 0) L) (kexec lane_ops (thetaRhoPiChiIotaPrepareTheta m kE kA) env).
Proof.
  intros [HA HC]. pose proof (round_EA m env L HA HC) as E. split; [exact E|].
  etransitivity; [apply parity_EA|]. rewrite E. apply columns_list_of.
Qed.

Definition lanes_run (prog : list kstmt) (nr : nat) : Prop := forall L env, kvals kA env 25 = list_of L ->
  kvals kA (kexec lane_ops prog env) 25 = list_of (lrounds (seq (24 - nr) nr) L).

Lemma lrounds_snoc l i L : lrounds (l ++ [i]) L = lround (nth i KeccakF1600RoundConstants 0) (lrounds l L).
Proof. unfold lrounds. now rewrite fold_left_app. Qed.

Lemma lanes_run_12 : lanes_run rounds12 12.
Proof.
  intros L env H. assert (H0 : on_A L (kexec lane_ops prepareTheta env)) by (apply prepare_ok; exact H).
  change (on_A (lrounds (seq 12 0) L) (kexec lane_ops prepareTheta env)) in H0.
  unfold rounds12. rewrite kexec_app. generalize (kexec lane_ops prepareTheta env) H0. clear env H H0. intros env H.
  assert (SA : forall m e, on_A (lrounds (seq 12 m) L) e -> on_E (lrounds (seq 12 (S m)) L) (kexec lane_ops (thetaRhoPiChiIotaPrepareTheta (12 + m) kA kE) e)).
  { intros m e He. rewrite seq_S, lrounds_snoc. now apply go_AE. }
  assert (SE : forall m e, on_E (lrounds (seq 12 m) L) e -> on_A (lrounds (seq 12 (S m)) L) (kexec lane_ops (thetaRhoPiChiIotaPrepareTheta (12 + m) kE kA) e)).
  { intros m e He. rewrite seq_S, lrounds_snoc. now apply go_EA. }
  cbn [Nat.add] in SA, SE.
  do 5 (rewrite kexec_app; apply SA in H; cbn [Nat.add] in H;
         match type of H with on_E _ ?e => revert H; generalize e end; clear env; intros env H;
         rewrite kexec_app; apply SE in H; cbn [Nat.add] in H;
         match type of H with on_A _ ?e => revert H; generalize e end; clear env; intros env H).
  rewrite kexec_app. apply SA in H. cbn [Nat.add] in H. destruct H as [HA HC].
  rewrite (last_EA 23 _ (lrounds (seq 12 11) L) HA HC). change (24 - 12)%nat with 12%nat. rewrite (seq_S 11), lrounds_snoc. reflexivity.
Qed.

Lemma lanes_run_24 : lanes_run rounds24 24.
Proof. intros L env H. exact (rounds24_ok L env H). Qed.

Lemma rounds12_rol : forallb (fun s => rol_ok (ksource s)) rounds12 = true.
Proof. vm_compute. reflexivity. Qed.

Lemma lrounds_rep nr L A : (nr <= 24)%nat -> rep L A ->
  rep (lrounds (seq (24 - nr) nr) L) (fold_left (fun A ir => Rnd ir A) (seq (24 - nr) nr) A).
Proof.
  intros Hnr. set (l := seq (24 - nr) nr). assert (HL : forall i, In i l -> (i < 24)%nat) by (intros i Hi; apply in_seq in Hi; lia).
  clearbody l. revert L A. unfold lrounds. induction l as [|i l IH]; intros L A H; [exact H|]. cbn [fold_left].
  apply IH; [intros; apply HL; now right|]. apply round_rep; auto. apply round_constant_ok. apply HL. now left.
Qed.

(** ** Registers *)
Definition erep (g : nat -> nat -> Z) (env : kvar -> list Z) : Prop :=
  (forall x, vec4 (env x)) /\ (forall j b, 0 <= g j b <= 255) /\
  forall i j m, (i < 25)%nat -> (j < 4)%nat -> (m < 8)%nat -> lbyte (nth j (env (kA i)) 0) m = g j (8 * i + m)%nat.

Definition perm (nr : nat) (g : nat -> nat -> Z) : nat -> nat -> Z := fun j b => nth b (permute_bytes nr (mk 200 (g j))) 0.

Lemma permute_bytes_length nr s : length (permute_bytes nr s) = 200%nat.
Proof. unfold permute_bytes, bytes_of_bits. now rewrite map_length, pieces_length. Qed.

Lemma permute_bytes_nth nr s b : nth b (permute_bytes nr s) 0 =
  if (b <? 200)%nat then byte_of_bits (firstn 8 (skipn (b * 8) (keccak_p nr (bits_of_bytes s)))) else 0.
Proof.
  destruct (Nat.ltb_spec b 200).
  - unfold permute_bytes, bytes_of_bits. change 0 with (byte_of_bits []). now rewrite map_nth, (pieces_nth 1) by lia.
  - apply nth_overflow. rewrite permute_bytes_length. lia.
Qed.

Lemma perm_range nr g j b : 0 <= perm nr g j b <= 255.
Proof.
  unfold perm. rewrite permute_bytes_nth. destruct (_ <? _)%nat; [|lia].
  pose proof (byte_of_bits_range (firstn 8 (skipn (b * 8) (keccak_p nr (bits_of_bytes (mk 200 (g j))))))) as R.
  assert (2 ^ Z.of_nat (length (firstn 8 (skipn (b * 8) (keccak_p nr (bits_of_bytes (mk 200 (g j))))))) <= 2 ^ 8).
  { apply Z.pow_le_mono_r; [lia|]. rewrite firstn_length. lia. }
  lia.
Qed.

Definition prog_ok (prog : list kstmt) (nr : nat) : Prop := forall g env, erep g env -> erep (perm nr g) (kexec V256_ops prog env).

Lemma state_bytes (f : nat -> Z) s : wfstate s -> (forall i m, (i < 25)%nat -> (m < 8)%nat -> lbyte (nth i s 0) m = f (8 * i + m)%nat) ->
  bits_of_bytes (mk 200 f) = sbits s.
Proof.
  intros W H. apply (list_eq_nth false).
  - rewrite bits_of_bytes_length, mk_length, sbits_length; auto.
  - intros i Hi. rewrite bits_of_bytes_length, mk_length in Hi.
    assert (D := Nat.div_mod i 64 ltac:(lia)). assert (M := Nat.mod_upper_bound i 64 ltac:(lia)).
    set (q := (i / 64)%nat) in *. set (r := (i mod 64)%nat) in *. clearbody q r. subst i.
    rewrite sbits_nth2 by auto.
    assert (D := Nat.div_mod r 8 ltac:(lia)). assert (M8 := Nat.mod_upper_bound r 8 ltac:(lia)).
    set (m := (r / 8)%nat) in *. set (t := (r mod 8)%nat) in *. clearbody m t. subst r.
    replace (64 * q + (8 * m + t))%nat with (8 * (8 * q + m) + t)%nat by lia.
    rewrite bits_of_bytes_nth2 by auto. rewrite nth_mk by lia. rewrite <- H by lia.
    rewrite lbyte_bit by lia. f_equal. lia.
Qed.

Lemma prog_ok_of prog nr : (nr <= 24)%nat -> forallb (fun s => rol_ok (ksource s)) prog = true -> lanes_run prog nr -> prog_ok prog nr.
Proof.
  intros Hnr Hrol Hrun g env (HV & R & HE).
  assert (HR : forall j, (j < 4)%nat -> forall x,
      lanewise j (kexec V256_ops prog env x) (kexec lane_ops prog (fun x => nth j (env x) 0) x)).
  { intros j Hj. apply kexec_lanewise; auto. intros x. split; auto. }
  split; [|split].
  - intros x. apply (HR 0%nat ltac:(lia)).
  - apply perm_range.
  - intros i j m Hi Hj Hm.
    set (s := mk 25 (fun i => nth j (env (kA i)) 0)).
    assert (WS : wfstate s).
    { split; [apply mk_length|]. intros k. destruct (Nat.ltb_spec k 25).
      - unfold s. rewrite nth_mk by auto. apply HV.
      - rewrite nth_overflow by (unfold s; rewrite mk_length; lia). apply lane_0. }
    assert (EB : bits_of_bytes (mk 200 (g j)) = sbits s).
    { apply state_bytes; auto. intros i' m' Hi' Hm'. unfold s. rewrite nth_mk by auto. now apply HE. }
    destruct (HR j Hj (kA i)) as [_ ->].
    pose proof (Hrun (rows_of s) (fun x => nth j (env x) 0)) as X.
    rewrite list_of_rows_of in X by apply WS. specialize (X eq_refl).
    set (L := lrounds (seq (24 - nr) nr) (rows_of s)) in *.
    assert (Ei : kexec lane_ops prog (fun x => nth j (env x) 0) (kA i) = nth i (list_of L) 0).
    { rewrite <- X. unfold kvals. symmetry. apply (nth_mk 25 (fun i => kexec lane_ops prog (fun x => nth j (env x) 0) (kA i))). auto. }
    rewrite Ei.
    pose proof (lrounds_rep nr _ _ Hnr (rows_of_rep s WS)) as REP. fold L in REP.
    unfold perm. rewrite permute_bytes_nth. destruct (Nat.ltb_spec (8 * i + m) 200); [|lia].
    unfold keccak_p. rewrite EB. rewrite (list_of_bits _ _ REP).
    apply (bits_ext 8).
    + change (2 ^ Z.of_nat 8) with 256. pose proof (lbyte_range (nth i (list_of L) 0) m). lia.
    + match goal with |- 0 <= byte_of_bits ?l < _ => pose proof (byte_of_bits_range l); assert (2 ^ Z.of_nat (length l) <= 2 ^ Z.of_nat 8) by
        (apply Z.pow_le_mono_r; [lia|rewrite firstn_length; lia]) end. lia.
    + intros t Ht. rewrite byte_of_bits_testbit, nth_firstn, nth_skipn.
      destruct (Nat.ltb_spec t 8); [|lia].
      rewrite lbyte_bit by lia.
      replace ((8 * i + m) * 8 + t)%nat with (64 * i + (8 * m + t))%nat by lia.
      rewrite sbits_nth2 by lia. f_equal. lia.
Qed.

Lemma prog24 : prog_ok rounds24 24.
Proof. apply prog_ok_of; [lia|exact rounds24_rol|exact lanes_run_24]. Qed.
Lemma prog12 : prog_ok rounds12 12.
Proof. apply prog_ok_of; [lia|exact rounds12_rol|exact lanes_run_12]. Qed.

Lemma copyFromState_wp :
  traced (fun T => forall g st env, rep4 g st -> (forall x, vec4 (env x)) -> wp (copyFromState st env) T (erep g)).
Proof.
  eexists. intros g st env Hs HV. pose proof Hs as (_ & R & _). unfold copyFromState.
  eapply (wp_for _ (fun i env => (forall x, vec4 (env x)) /\
    forall k j m, (k < i)%nat -> (j < 4)%nat -> (m < 8)%nat -> lbyte (nth j (env (kA k)) 0) m = g j (8 * k + m)%nat)).
  - split; auto. intros; lia.
  - intros i e Hi [He Hk]. wstep. eapply wp_conseq; [apply (proj2_sig (vec_get_wp i) g st); auto; lia|].
    intros v [Vv Hv]. wstep. split.
    + intros x. unfold kset. destruct (kvar_eqb x (kA i)); auto.
    + intros k j m Hk' Hj Hm. unfold kset. cbn [kvar_eqb]. destruct (Nat.eqb_spec k i); [subst; auto|]. apply Hk; lia.
  - intros e [He Hk]. split; [|split]; auto.
Qed.

Lemma copyToState_wp :
  traced (fun T => forall g0 g st env, rep4 g0 st -> erep g env -> wp (copyToState st env) T (rep4 g)).
Proof.
  eexists. intros g0 g st env Hs (HV & R & HE). pose proof Hs as (_ & R0 & _). unfold copyToState.
  eapply (wp_for _ (fun i => rep4 (upto i g0 g))).
  - now apply upto_0.
  - intros i s Hi Hs'. apply (set_step g0 g R0 R i); auto; [lia|]. intros j m Hj Hm. apply HE; lia.
  - intros s H. eapply rep4_ext; [exact R| |exact H]. intros j b Hj Hb. unfold upto. cmp.
Qed.

Lemma xor_in_21_wp o lo :
  traced (fun T => forall g env data a, erep g env -> bytes data -> (o + 24 * lo + 168 <= length data)%nat -> (a + Z.of_nat o) mod 8 = 0 ->
    wp (xor_in_21 data a (strips o lo) env) T (erep (upto 21 g (xored g (fun j b => nth (o + 8 * lo * j + b) data 0))))).
Proof.
  eexists. intros g env data a (HV & R & HE) B L A. unfold xor_in_21.
  pose proof (strip_nth_range data o lo B) as HD. set (D := fun j b => nth (o + 8 * lo * j + b) data 0) in *.
  eapply (wp_for _ (fun i => erep (upto i g (xored g D)))).
  - split; [exact HV|split].
    + apply upto_range; auto. now apply xored_range.
    + intros i j m Hi Hj Hm. unfold upto. cmp. now apply HE.
  - intros i e Hi (HV' & R' & HE'). wstep. eapply wp_conseq; [apply (proj2_sig (LOAD4_64_wp o lo i)); auto; lia|].
    intros v [Vv Hv]. wstep. split; [|split].
    + intros x. unfold kset. destruct (kvar_eqb x (kA i)); auto. apply vec4_v_xor; auto.
    + apply upto_range; auto. now apply xored_range.
    + intros k j m Hk Hj Hm. unfold kset. cbn [kvar_eqb]. destruct (Nat.eqb_spec k i) as [->|N].
      * rewrite nth_v_xor, lbyte_lxor, Hv, HE' by lia. unfold upto, xored. cmp.
      * rewrite HE' by lia. unfold upto. cmp.
  - intros e He. exact He.
Qed.

Section WithProg.
Variables (prog : list kstmt) (nr : nat).
Hypothesis HP : prog_ok prog nr.

Lemma permute_all_wp :
  traced (fun T => forall (J : Junk) g st, rep4 g st -> wp (permute_all prog st) T (rep4 (perm nr g))).
Proof.
  eexists. intros J g st Hs. unfold permute_all. wstep.
  eapply wp_conseq; [apply (proj2_sig copyFromState_wp g); auto; intros; apply v_junk_vec4|]. intros env He.
  apply (proj2_sig copyToState_wp g); auto.
Qed.

(** One block into every instance *)
Definition absorb1 (lc lo o : nat) (data : list Z) (g : nat -> nat -> Z) : nat -> nat -> Z :=
  perm nr (upto lc g (xored g (fun j b => nth (o + 8 * lo * j + b) data 0))).
Fixpoint absorbn (lc lo ser : nat) (data : list Z) (m : nat) (g : nat -> nat -> Z) : nat -> nat -> Z :=
  match m with O => g | S m' => absorb1 lc lo (8 * (m' * ser)) data (absorbn lc lo ser data m' g) end.

Lemma absorbn_range lc lo ser data m g : (forall j b, 0 <= g j b <= 255) -> forall j b, 0 <= absorbn lc lo ser data m g j b <= 255.
Proof. intros R. destruct m; [exact R|]. intros. apply perm_range. Qed.

Lemma blocks_taken_spec lc par ser len i : (0 < ser)%nat -> 0 <= len ->
  (i < blocks_taken lc par ser len)%nat <-> Z.of_nat (block_span lc par) <= len - Z.of_nat (8 * (i * ser)).
Proof.
  intros Hs Hl. unfold blocks_taken. destruct (Z.ltb_spec len (Z.of_nat (block_span lc par))) as [H|H].
  - split; [lia|]. intros. assert (0 <= Z.of_nat (8 * (i * ser))) by lia. lia.
  - set (d := len - Z.of_nat (block_span lc par)) in *. set (s := Z.of_nat (8 * ser)).
    assert (Hsp : 0 < s) by (unfold s; lia).
    assert (Ei : Z.of_nat (8 * (i * ser)) = Z.of_nat i * s) by (unfold s; lia). rewrite Ei.
    assert (Hq : 0 <= d / s) by (apply Z.div_pos; unfold d; lia).
    assert (X : Z.of_nat i * s <= d <-> Z.of_nat i <= d / s).
    { split; intros Y.
      - apply Z.div_le_lower_bound; lia.
      - pose proof (Z.mul_div_le d s Hsp). nia. }
    split; intros Y.
    + assert (Z.of_nat i <= d / s) by lia. apply X in H0. unfold d in *. lia.
    + assert (Z.of_nat i * s <= d) by (unfold d; lia). apply X in H0. lia.
Qed.

Lemma fast_loop_wp lc par ser len fuel :
  (lc <= 25)%nat -> (0 < ser)%nat -> (ser <= 3 * par + lc)%nat -> Z.of_nat (block_span lc par) < 2 ^ 32 -> 0 <= len < 2 ^ 64 ->
  (blocks_taken lc par ser len < fuel)%nat ->
  traced (fun T => forall (J : Junk) g st data a, rep4 g st -> bytes data -> len <= Z.of_nat (length data) ->
    (lc = 21%nat -> (24 * par + 8 * (blocks_taken lc par ser len * ser) <= length data)%nat) -> a mod 8 = 0 ->
    wp (fast_loop prog fuel st lc par ser data a len) T
      (fun '(st', o) => rep4 (absorbn lc par ser data (blocks_taken lc par ser len) g) st' /\ o = (8 * (blocks_taken lc par ser len * ser))%nat)).
Proof.
  intros Hlc Hser Hser2 Hspan Hlen Hfuel.
  pose proof (fun i => blocks_taken_spec lc par ser len i Hser (proj1 Hlen)) as BS.
  set (m := blocks_taken lc par ser len) in *. clearbody m.
  assert (Eneed : Z.of_nat (umul (uadd (umul par 3) lc) 8) = Z.of_nat (block_span lc par)).
  { unfold block_span in *. rewrite (umul_small par 3), (uadd_small (par * 3) lc), umul_small by lia. lia. }
  assert (Estep : umul ser 8 = (8 * ser)%nat).
  { unfold block_span in *. rewrite umul_small by lia. lia. }
  assert (Hpar : 24 * Z.of_nat par < 2 ^ 32) by (unfold block_span in *; lia).
  destruct (lc =? 21)%nat eqn:E21.
  - apply Nat.eqb_eq in E21. subst lc.
    eexists. intros J g st data a Hs B L HF A. specialize (HF eq_refl).
    pose proof Hs as (_ & R & _).
    unfold fast_loop. rewrite Eneed, Estep. cbv zeta. wstep. cbn [Nat.eqb]. wstep.
    wstep. apply cur_data_wp; [lia|lia|]. fold (strips 0 par).
    wstep. eapply wp_conseq; [apply (proj2_sig copyFromState_wp g); auto; intros; apply v_junk_vec4|]. intros env He.
    wstep.
    eapply (wp_while _ _ (fun i s => erep (absorbn 21 par ser data i g) (fst (fst s)) /\ snd (fst s) = strips (8 * (i * ser)) par /\
        snd s = len - Z.of_nat (8 * (i * ser)) /\ (i <= m)%nat) m 0%nat).
    + exact Hfuel.
    + cbn [fst snd]. rewrite Nat.mul_0_l, Nat.mul_0_r. split; [exact He|]. split; [reflexivity|]. split; lia.
    + intros i [[e ds] ln] Hi (He' & Eds & Eln & _). cbn [fst snd] in *. subst.
      wstep. apply Z.leb_le. apply BS. lia.
    + intros i [[e ds] ln] Hi (He' & Eds & Eln & _). cbn [fst snd] in *. subst ds ln.
      assert (HB := proj1 (BS i) ltac:(lia)).
      assert (HB2 : (8 * (i * ser) + 24 * par + 168 <= length data)%nat) by (unfold block_span in *; lia).
      assert (HB3 : (8 * (S i * ser) <= 8 * (m * ser))%nat) by (apply Nat.mul_le_mono_l, Nat.mul_le_mono_r; lia).
      wstep. eapply wp_conseq; [apply (proj2_sig (xor_in_21_wp (8 * (i * ser)) par) _ e data a He' B HB2)|].
      { rewrite Nat2Z.inj_mul, (Z.mul_comm (Z.of_nat 8)). now rewrite Z.mod_add by lia. }
      intros e1 He1. cbv zeta. apply HP in He1. unfold strips.
      wstep. apply pointer_wp; [lia|]. wstep. apply pointer_wp; [lia|]. wstep. apply pointer_wp; [lia|].
      wstep. apply pointer_wp; [lia|]. wstep. cbn [fst snd]. split; [exact He1|]. split; [|split; [|lia]].
      * unfold strips. apply pair_equal_spec; split; [apply pair_equal_spec; split; [apply pair_equal_spec; split|]|]; lia.
      * unfold u64, wrapu. rewrite Z.mod_small; unfold block_span in *; lia.
    + intros [[e ds] ln] (He' & Eds & Eln & _). cbn [fst snd] in *. subst ds ln.
      wstep. apply Z.leb_gt. destruct (Z.leb_spec (Z.of_nat (block_span 21 par)) (len - Z.of_nat (8 * ((0 + m) * ser)))) as [X|X]; [|exact X].
      apply BS in X. lia.
    + intros [[e ds] ln] (He' & Eds & Eln & _). cbn [fst snd] in *. subst ds ln. cbn [Nat.add] in *.
      wstep. eapply wp_conseq; [apply (proj2_sig copyToState_wp g _ st e Hs He')|]. intros st' Hs'.
      unfold strips. wstep. split; auto.
  - eexists. intros J g st data a Hs B L HF A.
    pose proof Hs as (_ & R & _).
    unfold fast_loop. rewrite Eneed, Estep. cbv zeta. wstep. rewrite E21. wstep.
    wstep.
    eapply (wp_while _ _ (fun i s => rep4 (absorbn lc par ser data i g) (fst (fst s)) /\ snd (fst s) = (8 * (i * ser))%nat /\
        snd s = len - Z.of_nat (8 * (i * ser)) /\ (i <= m)%nat) m 0%nat).
    + exact Hfuel.
    + cbn [fst snd]. split; [exact Hs|]. split; [reflexivity|]. split; lia.
    + intros i [[s o] ln] Hi (He' & Eds & Eln & _). cbn [fst snd] in *. subst.
      wstep. apply Z.leb_le. apply BS. lia.
    + intros i [[s o] ln] Hi (He' & Eds & Eln & _). cbn [fst snd] in *. subst o ln.
      assert (HB := proj1 (BS i) ltac:(lia)).
      assert (HB2 : (8 * (i * ser) + 24 * par + 8 * lc <= length data)%nat) by (unfold block_span in *; lia).
      wstep. eapply wp_conseq; [apply (proj2_sig (AddLanesAll_wp (8 * (i * ser)) lc par Hlc Hpar) _ s data a He' B HB2)|].
      { rewrite Nat2Z.inj_mul, (Z.mul_comm (Z.of_nat 8)). now rewrite Z.mod_add by lia. }
      intros s1 Hs1. wstep. eapply wp_conseq; [apply (proj2_sig permute_all_wp J _ s1 Hs1)|]. intros s2 Hs2.
      wstep. apply pointer_wp; [lia|]. wstep. cbn [fst snd]. split; [exact Hs2|]. split; [|split; [|lia]].
      * lia.
      * unfold u64, wrapu. rewrite Z.mod_small; unfold block_span in *; lia.
    + intros [[s o] ln] (He' & Eds & Eln & _). cbn [fst snd] in *. subst o ln.
      wstep. apply Z.leb_gt. destruct (Z.leb_spec (Z.of_nat (block_span lc par)) (len - Z.of_nat (8 * ((0 + m) * ser)))) as [X|X]; [|exact X].
      apply BS in X. lia.
    + intros [[s o] ln] (He' & Eds & Eln & _). cbn [fst snd] in *. subst o ln. cbn [Nat.add] in *.
      wstep. split; auto.
Qed.
End WithProg.
