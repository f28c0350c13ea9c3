(** * C24 and C25 in the form of the property statements *)
From Coq Require Import ZArith List Lia Bool.
From Verif Require Import CMonad WP Proof_Base Model_Params Model_Polyvec Model_Indcpa Levels Spec_FIPS202 Spec_FIPS203 Proof_Rej
  Proof_GenMatrix Proof_Indcpa Vocab Proof_Vocab Proof_PropPoly.
Import ListNotations.
Open Scope Z_scope.

(** ** C25 *)
Lemma rej_uniform_spec pre r post buf extra : all_bytes buf ->
  let len := length r in
  let taken := firstn len (accepted (fun i => nth i buf 0) (length buf / 3)) in
  exists T, rej_uniform (pre ++ r ++ post) (length pre) len (buf ++ extra) (length buf)
    = Ok (length taken, pre ++ taken ++ skipn (length taken) r ++ post) T /\
  (length taken <= len)%nat.
Proof.
  intros HB len taken.
  destruct (rej_uniform_wp (length pre) len (length buf) (fun i => nth i buf 0)) as [T W].
  { intros i Hi. pose proof (all_bytes_bytes _ HB i Hi). lia. }
  assert (LT : (length taken <= len)%nat) by (unfold taken; rewrite firstn_length; lia).
  exists T. split; [|exact LT].
  destruct (W (pre ++ r ++ post) (buf ++ extra)) as (v & E & ->).
  - apply ctx_length.
  - split; [rewrite app_length; lia|]. intros i Hi. now apply app_nth1.
  - rewrite E, rej_accepted. fold taken. f_equal. f_equal.
    replace (pre ++ r ++ post) with (pre ++ firstn (length taken) r ++ (skipn (length taken) r ++ post)).
    + rewrite splice_ctx; [reflexivity|]. rewrite firstn_length. unfold len in LT. lia.
    + f_equal. rewrite app_assoc. f_equal. apply firstn_skipn.
Qed.

(** ** C24 *)
Lemma matrix_shape_wf lv a : matrix_shape (KYBER_K lv) a -> wfmatrix lv a.
Proof.
  intros [L H]. split; [exact L|]. intros i Hi. destruct (H (nth i a [])) as [L1 H1]; [apply nth_In; unfold polyvec in *; lia|].
  split; [exact L1|]. intros j Hj. apply H1. apply nth_In. lia.
Qed.

Lemma ctx_seed_ok pre rho post : length rho = 32%nat -> all_bytes (pre ++ rho ++ post) ->
  seed_ok (length pre) rho (pre ++ rho ++ post).
Proof.
  intros L HB. split; [|split].
  - rewrite <- L. apply ctx_length.
  - now apply all_bytes_bytes.
  - now apply seed_ctx.
Qed.

Lemma enough_all_enough lv fuel rho : enough_all lv fuel rho ->
  (0 < fuel)%nat /\ forall i j, (i < KYBER_K lv)%nat -> (j < KYBER_K lv)%nat ->
    (256 <= length (accepted (XOF (rho ++ [Z.of_nat j; Z.of_nat i])) (168 + 56 * (fuel - 1))))%nat.
Proof.
  intros HE. split.
  - destruct (HE 0%nat 0%nat) as [F _]; [destruct lv; cbn; lia..|exact F].
  - intros i j Hi Hj. now destruct (HE i j Hi Hj).
Qed.
Lemma enough_enough_all lv fuel rho : (0 < fuel)%nat ->
  (forall i j, (i < KYBER_K lv)%nat -> (j < KYBER_K lv)%nat ->
    (256 <= length (accepted (XOF (rho ++ [Z.of_nat j; Z.of_nat i])) (168 + 56 * (fuel - 1))))%nat) ->
  enough_all lv fuel rho.
Proof. intros F HE i j Hi Hj. split; [exact F|]. now apply HE. Qed.

Lemma gen_matrix_result lv fuel (JJ : Junk) a pre rho post transposed A T :
  matrix_shape (KYBER_K lv) a -> length rho = 32%nat -> all_bytes (pre ++ rho ++ post) ->
  gen_matrix lv fuel a (pre ++ rho ++ post) (length pre) transposed = Ok A T ->
  exists M, is_matrix (PS lv) rho M /\ A = (if transposed then transpose (PS lv) M else M) /\
    matrix_shape (KYBER_K lv) A /\ forall v f, In v A -> In f v -> in_range 0 (q - 1) f.
Proof.
  intros HA LR HB E. apply matrix_shape_wf in HA. pose proof (ctx_seed_ok pre rho post LR HB) as HS.
  destruct (enough_all_dec lv fuel rho) as [HE|HE].
  2: { rewrite (gen_matrix_timeout lv fuel _ rho transposed HE JJ a _ HA HS) in E. discriminate. }
  destruct (gen_matrix_wp lv fuel (length pre) rho transposed HE) as [T' W].
  destruct (W JJ a _ HA HS) as (v & Ev & ->). rewrite Ev in E. injection E as EA _. rewrite <- EA.
  exists (matrix lv fuel rho false). split; [now apply matrix_is_matrix|].
  split; [destruct transposed; [apply matrix_transpose|reflexivity]|].
  assert (HI : forall v, In v (matrix lv fuel rho transposed) -> exists i, (i < KYBER_K lv)%nat /\
    v = mk (KYBER_K lv) (fun j => sampled fuel (entry_input rho transposed i j))).
  { intros v Hv. unfold matrix, mk in Hv. apply in_map_iff in Hv as (i & <- & Hi). apply in_seq in Hi. exists i. split; [lia|reflexivity]. }
  assert (HJ : forall v f, In v (matrix lv fuel rho transposed) -> In f v -> exists i j, (i < KYBER_K lv)%nat /\ (j < KYBER_K lv)%nat /\
    f = sampled fuel (entry_input rho transposed i j)).
  { intros v f Hv Hf. destruct (HI v Hv) as (i & Hi & ->). unfold mk in Hf. apply in_map_iff in Hf as (j & <- & Hj). apply in_seq in Hj.
    exists i, j. split; [lia|]. split; [lia|reflexivity]. }
  split; [split|].
  - unfold matrix. apply mk_length.
  - intros v Hv. split; [destruct (HI v Hv) as (i & _ & ->); apply mk_length|].
    intros f Hf. destruct (HJ v f Hv Hf) as (i & j & Hi & Hj & ->). apply sampled_length.
    now apply (entry_input_all lv fuel rho transposed HE).
  - intros v f Hv Hf x Hx. destruct (HJ v f Hv Hf) as (i & j & Hi & Hj & ->).
    apply (bnd_in_range 0 3328) in Hx; [exact Hx|apply sampled_range].
Qed.

(** It finishes exactly when [fuel] passes of the loop test see 256 candidates
    for every entry *)
Lemma gen_matrix_finishes lv fuel (JJ : Junk) a pre rho post transposed :
  matrix_shape (KYBER_K lv) a -> length rho = 32%nat -> all_bytes (pre ++ rho ++ post) ->
  let run := gen_matrix lv fuel a (pre ++ rho ++ post) (length pre) transposed in
  (run = Timeout \/ exists A T, run = Ok A T) /\
  ((exists A T, run = Ok A T) <->
   (0 < fuel)%nat /\ forall i j, (i < KYBER_K lv)%nat -> (j < KYBER_K lv)%nat ->
     (256 <= length (accepted (XOF (rho ++ [Z.of_nat j; Z.of_nat i])) (168 + 56 * (fuel - 1))))%nat).
Proof.
  intros HA LR HB run. apply matrix_shape_wf in HA. pose proof (ctx_seed_ok pre rho post LR HB) as HS.
  destruct (enough_all_dec lv fuel rho) as [HE|HE].
  - destruct (gen_matrix_wp lv fuel (length pre) rho transposed HE) as [T' W].
    destruct (W JJ a _ HA HS) as (v & Ev & _). unfold run. rewrite Ev. split; [right; eauto|].
    split; [intros _; now apply enough_all_enough|eauto].
  - unfold run. rewrite (gen_matrix_timeout lv fuel _ rho transposed HE JJ a _ HA HS). split; [now left|].
    split; [intros (A & T & E); discriminate|]. intros [F G]. exfalso. apply HE. now apply enough_enough_all.
Qed.

Lemma gen_matrix_terminates lv rho M : length rho = 32%nat -> is_matrix (PS lv) rho M ->
  exists fuel0, forall fuel (JJ : Junk) a pre post transposed, (fuel0 <= fuel)%nat ->
    matrix_shape (KYBER_K lv) a -> all_bytes (pre ++ rho ++ post) ->
    exists T, gen_matrix lv fuel a (pre ++ rho ++ post) (length pre) transposed
      = Ok (if transposed then transpose (PS lv) M else M) T.
Proof.
  intros LR HM. destruct (is_matrix_enough lv rho M HM) as [f0 F0]. exists f0. intros fuel JJ a pre post transposed Hf HA HB.
  apply matrix_shape_wf in HA. pose proof (ctx_seed_ok pre rho post LR HB) as HS.
  assert (HE : enough_all lv fuel rho). { intros i j Hi Hj. eapply enough_mono; [exact Hf|]. now apply F0. }
  destruct (gen_matrix_wp lv fuel (length pre) rho transposed HE) as [T' W].
  destruct (W JJ a _ HA HS) as (v & Ev & ->). exists T'. rewrite Ev. f_equal.
  rewrite (is_matrix_functional _ _ _ _ HM (matrix_is_matrix lv fuel rho HE)).
  destruct transposed; [apply matrix_transpose|reflexivity].
Qed.
