(** * The tail bound for the decryption noise *)
From Coq Require Import ZArith List Lia Bool.
From Verif Require Import CMonad Spec_FIPS203 Proof_Base Sums Proof_AvxDecompress Proof_Dist Proof_FailSums.
Import ListNotations.
Open Scope Z_scope.

Definition fields_of (eta : nat) : list Z := upto (2 ^ (2 * eta)).
(** The coefficient at position i of the field list l *)
Definition cf (eta : nat) (l : list Z) (i : nat) : Z := cbdf eta (nth i l 0).
Lemma cf_range eta l i : Z.abs (cf eta l i) <= Z.of_nat eta.
Proof. pose proof (cbdf_range eta (nth i l 0)). unfold cf. lia. Qed.

Definition symmetric (eta : nat) : Prop :=
  forall h, lsum (fields_of eta) (fun f => h (- cbdf eta f)) = lsum (fields_of eta) (fun f => h (cbdf eta f)).
Lemma symmetric_of eta L : map (cbdf eta) (fields_of eta) = L -> (forall h, lsum L (fun x => h (- x)) = lsum L h) -> symmetric eta.
Proof.
  intros E HL h. rewrite <- (lsum_map (cbdf eta) (fields_of eta) (fun x => h (- x))), <- (lsum_map (cbdf eta) (fields_of eta) h).
  rewrite E. apply HL.
Qed.
Definition drawn2 : list Z := Eval vm_compute in map (cbdf 2) (fields_of 2).
Definition drawn3 : list Z := Eval vm_compute in map (cbdf 3) (fields_of 3).
Lemma symmetric_2 : symmetric 2.
Proof. apply (symmetric_of 2 drawn2); [vm_compute; reflexivity|]. intros h. cbn [drawn2 lsum Z.opp]. ring. Qed.
Lemma symmetric_3 : symmetric 3.
Proof. apply (symmetric_of 3 drawn3); [vm_compute; reflexivity|]. intros h. cbn [drawn3 lsum Z.opp]. ring. Qed.

(** ** Negacyclic convolution as a linear form: the coefficient that position n
    of the one factor gets in coefficient j of the product *)
Definition conv (j : nat) (h : nat -> Z) (i : nat) : Z :=
  if (i mod 256 <=? j)%nat then h (256 * (i / 256) + (j - i mod 256))%nat else - h (256 * (i / 256) + (256 + j - i mod 256))%nat.
Lemma conv_block j h a i : (i < 256)%nat ->
  conv j h (256 * a + i) = if (i <=? j)%nat then h (256 * a + (j - i))%nat else - h (256 * a + (256 + j - i))%nat.
Proof.
  intros Hi. unfold conv. rewrite (Nat.mul_comm 256 a), Nat.add_comm, Nat.mod_add, Nat.div_add by lia.
  rewrite (Nat.mod_small i), (Nat.div_small i) by lia. rewrite Nat.add_0_l, (Nat.mul_comm 256 a). reflexivity.
Qed.
Lemma prodz_conv g j h K : (forall x, g (- x) = g x) -> (j < 256)%nat ->
  prodz (256 * K) (fun i => g (conv j h i)) = prodz (256 * K) (fun i => g (h i)).
Proof.
  intros Even Hj. rewrite !prodz_blocks. apply prodz_ext. intros a _.
  replace 256%nat with (S j + (255 - j))%nat by lia. rewrite !prodz_app.
  replace (S j + (255 - j))%nat with 256%nat by lia. f_equal.
  - rewrite (prodz_rev (S j) (fun i => g (h _))). apply prodz_ext. intros i Hi.
    rewrite conv_block by lia. destruct (Nat.leb_spec i j); [|lia]. do 2 f_equal. lia.
  - rewrite (prodz_rev (255 - j) (fun i => g (h _))). apply prodz_ext. intros i Hi.
    rewrite conv_block by lia. destruct (Nat.leb_spec (S j + i) j); [lia|]. rewrite Even. do 2 f_equal. lia.
Qed.
Lemma conv_bound j h B K i : (j < 256)%nat -> (forall i, (i < 256 * K)%nat -> Z.abs (h i) <= B) -> (i < 256 * K)%nat -> Z.abs (conv j h i) <= B.
Proof.
  intros Hj HB Hi. pose proof (Nat.div_mod i 256 ltac:(lia)) as DM. pose proof (Nat.mod_upper_bound i 256 ltac:(lia)) as MB.
  assert (i / 256 < K)%nat by (apply Nat.div_lt_upper_bound; lia).
  unfold conv. destruct (Nat.leb_spec (i mod 256) j); [apply HB|rewrite Z.abs_opp; apply HB]; nia.
Qed.

Section Bound.
Context (p r : Z) (Hr : 0 < r) (Hp : r <= p) (eta : nat) (SY : symmetric eta).
Notation D := (fields_of eta).
Notation Ex := (Ex p r).
Definition gs (M v : Z) : Z := lsum D (fun f => Ex M (cbdf eta f * v)).
Lemma gs_even M v : gs M (- v) = gs M v.
Proof.
  unfold gs. rewrite <- (SY (fun x => Ex M (x * v))). apply lsum_ext. intros f _. f_equal. lia.
Qed.
Lemma abs_mul_le a b A B : Z.abs a <= A -> Z.abs b <= B -> Z.abs (a * b) <= A * B.
Proof. intros. rewrite Z.abs_mul. apply Z.mul_le_mono_nonneg; lia. Qed.
Lemma gs_nonneg M v B : Z.abs v <= B -> M = Z.of_nat eta * B -> 0 <= gs M v.
Proof.
  intros HB ->. apply lsum_nonneg. intros f _. pose proof (cbdf_range eta f).
  apply Z.lt_le_incl. apply Ex_pos; [exact Hr|exact Hp|]. apply abs_mul_le; lia.
Qed.

Section Linear.
Context (m : nat) (c d : nat -> Z) (B1 B2 : Z) (H1 : forall i, (i < m)%nat -> Z.abs (c i) <= B1) (H2 : forall i, (i < m)%nat -> Z.abs (d i) <= B2)
  (P1 : 0 <= B1) (P2 : 0 <= B2).
Notation M1 := (Z.of_nat eta * B1).
Notation M2 := (Z.of_nat eta * B2).
Definition form (s e : list Z) : Z := sumz m (fun i => cf eta e i * c i) + sumz m (fun i => cf eta s i * d i).
Lemma form_split s e : Z.abs (sumz m (fun i => cf eta e i * c i)) <= Z.of_nat m * M1 /\ Z.abs (sumz m (fun i => cf eta s i * d i)) <= Z.of_nat m * M2 /\
  Ex (Z.of_nat m * M1 + Z.of_nat m * M2) (form s e) = prodz m (fun i => Ex M1 (cf eta e i * c i)) * prodz m (fun i => Ex M2 (cf eta s i * d i)).
Proof using H1 H2 P1 P2.
  destruct (Ex_prod p r m M1 (fun i => cf eta e i * c i)) as [A1 E1]; [nia|intros; apply abs_mul_le; [apply cf_range|auto]|].
  destruct (Ex_prod p r m M2 (fun i => cf eta s i * d i)) as [A2 E2]; [nia|intros; apply abs_mul_le; [apply cf_range|auto]|].
  split; [exact A1|]. split; [exact A2|]. rewrite E1, E2. unfold form. symmetry. now apply Ex_mul.
Qed.
Lemma moment : lsum (every D m) (fun s => lsum (every D m) (fun e => Ex (Z.of_nat m * M1 + Z.of_nat m * M2) (form s e)))
  = prodz m (fun i => gs M1 (c i)) * prodz m (fun i => gs M2 (d i)).
Proof using H1 H2 P1 P2.
  transitivity (lsum (every D m) (fun s => prodz m (fun i => gs M1 (c i)) * prodz m (fun i => Ex M2 (cf eta s i * d i)))).
  - apply lsum_ext. intros s _.
    rewrite (lsum_ext _ _ (fun e => prodz m (fun i => Ex M1 (cf eta e i * c i)) * prodz m (fun i => Ex M2 (cf eta s i * d i))))
      by (intros e _; apply form_split).
    rewrite lsum_scale_r. f_equal. unfold gs. rewrite <- (lsum_every_prod D m (fun i f => Ex M1 (cbdf eta f * c i))). reflexivity.
  - rewrite lsum_scale. f_equal. unfold gs. rewrite <- (lsum_every_prod D m (fun i f => Ex M2 (cbdf eta f * d i))). reflexivity.
Qed.
End Linear.

Lemma tail m c d B1 B2 t : (forall i, (i < m)%nat -> Z.abs (c i) <= B1) -> (forall i, (i < m)%nat -> Z.abs (d i) <= B2) -> 0 <= B1 -> 0 <= B2 ->
  let M := Z.of_nat m * (Z.of_nat eta * B1) + Z.of_nat m * (Z.of_nat eta * B2) in 0 <= t <= M ->
  lsum (every D m) (fun s => lsum (every D m) (fun e => if t <=? Z.abs (form m c d s e) then 1 else 0)) * Ex M t <=
  2 * (prodz m (fun i => gs (Z.of_nat eta * B1) (c i)) * prodz m (fun i => gs (Z.of_nat eta * B2) (d i))).
Proof using Hr Hp SY.
  intros H1 H2 P1 P2 M Ht.
  pose proof (moment m c d B1 B2 H1 H2 P1 P2) as Ma. fold M in Ma.
  assert (H1' : forall i, (i < m)%nat -> Z.abs (- c i) <= B1) by (intros; rewrite Z.abs_opp; auto).
  assert (H2' : forall i, (i < m)%nat -> Z.abs (- d i) <= B2) by (intros; rewrite Z.abs_opp; auto).
  pose proof (moment m (fun i => - c i) (fun i => - d i) B1 B2 H1' H2' P1 P2) as Mb. fold M in Mb.
  rewrite (prodz_ext m (fun i => gs _ (- c i)) (fun i => gs (Z.of_nat eta * B1) (c i))) in Mb by (intros; apply gs_even).
  rewrite (prodz_ext m (fun i => gs _ (- d i)) (fun i => gs (Z.of_nat eta * B2) (d i))) in Mb by (intros; apply gs_even).
  replace (2 * _) with (lsum (every D m) (fun s => lsum (every D m) (fun e => Ex M (form m c d s e) + Ex M (form m (fun i => - c i) (fun i => - d i) s e)))).
  2:{ rewrite (lsum_ext _ _ (fun s => lsum (every D m) (fun e => Ex M (form m c d s e)) + lsum (every D m) (fun e => Ex M (form m (fun i => - c i) (fun i => - d i) s e))))
        by (intros; apply lsum_plus).
      rewrite lsum_plus. rewrite Ma, Mb. lia. }
  rewrite <- lsum_scale_r. apply lsum_le. intros s _. rewrite <- lsum_scale_r. apply lsum_le. intros e _.
  replace (form m (fun i => - c i) (fun i => - d i) s e) with (- form m c d s e).
  - apply Ex_tail; [exact Hr|exact Hp|exact Ht|]. destruct (form_split m c d B1 B2 H1 H2 P1 P2 s e) as (A & B & _). unfold form, M. lia.
  - unfold form. rewrite Z.opp_add_distr. 
    rewrite <- !(Z.mul_opp_l 1), !Z.mul_1_l, <- !(Z.mul_opp_comm 1), !Z.mul_1_l || idtac.
    f_equal; rewrite <- Z.sub_0_l, <- (sumz_0 m (fun _ => 0)) by auto; rewrite <- sumz_minus; apply sumz_ext; intros; lia.
Qed.

(** ** The union bound *)
Section Union.
Context (K : nat) (B2 t K1 K2 : Z) (wfun : Z -> Z -> Z) (base : list Z -> nat -> Z) (bad : list Z -> list Z -> list Z -> list Z -> list Z -> bool).
Notation m := (256 * K)%nat.
Notation N1 := (Z.of_nat eta * Z.of_nat eta).
Notation N2 := (Z.of_nat eta * B2).
Notation M := (Z.of_nat m * N1 + Z.of_nat m * N2).
Context (HB2 : 0 <= B2) (Ht : 0 <= t <= M)
  (Hbase : forall y i, (i < m)%nat -> 0 <= base y i < q)
  (Hw : forall a x, 0 <= a < q -> -2 <= x <= 2 -> Z.abs (wfun a x) <= B2)
  (HK1 : lsum D (fun f => gs N1 (cbdf eta f)) = K1)
  (HK2 : forall a, 0 <= a < q -> lsum (fields_of 2) (fun f => gs N2 (wfun a (cbdf 2 f))) <= K2).
Definition wv (y e1 : list Z) (i : nat) : Z := wfun (base y i) (cf 2 e1 i).
Definition formj (j : nat) (y e1 s e : list Z) : Z := form m (conv j (cf eta y)) (fun i => - conv j (wv y e1) i) s e.
Context (Hbad : forall y e1 e2 s e, In y (every D m) -> In e1 (every (fields_of 2) m) -> In e2 (every (fields_of 2) 256) ->
   In s (every D m) -> In e (every D m) -> bad y e1 e2 s e = true -> exists j, (j < 256)%nat /\ t <= Z.abs (formj j y e1 s e)).

Lemma wv_bound y e1 i : (i < m)%nat -> Z.abs (wv y e1 i) <= B2.
Proof using All. intros Hi. apply Hw; [auto|]. pose proof (cbdf_range 2 (nth i e1 0)). unfold cf. lia. Qed.

Lemma one_tail y e1 j : (j < 256)%nat ->
  lsum (every D m) (fun s => lsum (every D m) (fun e => if t <=? Z.abs (formj j y e1 s e) then 1 else 0)) * Ex M t <=
  2 * (prodz m (fun i => gs N1 (cf eta y i)) * prodz m (fun i => gs N2 (wv y e1 i))).
Proof using All.
  intros Hj.
  rewrite <- (prodz_conv (gs N1) j (cf eta y) K (gs_even N1) Hj).
  rewrite <- (prodz_conv (gs N2) j (wv y e1) K (gs_even N2) Hj).
  rewrite (prodz_ext m (fun i => gs N2 (conv j (wv y e1) i)) (fun i => gs N2 (- conv j (wv y e1) i))) by (intros; symmetry; apply gs_even).
  apply (tail m (conv j (cf eta y)) (fun i => - conv j (wv y e1) i) (Z.of_nat eta) B2 t); [| |lia|exact HB2|exact Ht].
  - intros i Hi. apply (conv_bound j _ _ K); [exact Hj| |exact Hi]. intros; apply cf_range.
  - intros i Hi. rewrite Z.abs_opp. apply (conv_bound j _ _ K); [exact Hj| |exact Hi]. intros; now apply wv_bound.
Qed.

Lemma sumz_has n f j : (forall i, 0 <= f i) -> (j < n)%nat -> f j <= sumz n f.
Proof.
  intros NN. assert (Q : forall n, 0 <= sumz n f) by (intros n0; induction n0 as [|n0 IH]; [reflexivity|]; cbn [sumz]; pose proof (NN n0); lia).
  induction n as [|n IH]; intros Hj; [lia|]. cbn [sumz]. destruct (Nat.eq_dec j n) as [->|].
  - pose proof (Q n). lia.
  - pose proof (NN n). pose proof (IH ltac:(lia)). lia.
Qed.

Lemma bad_le y e1 e2 s e : In y (every D m) -> In e1 (every (fields_of 2) m) -> In e2 (every (fields_of 2) 256) ->
   In s (every D m) -> In e (every D m) ->
   (if bad y e1 e2 s e then 1 else 0) <= sumz 256 (fun j => if t <=? Z.abs (formj j y e1 s e) then 1 else 0).
Proof using All.
  intros I1 I2 I3 I4 I5. set (f := fun j => if t <=? Z.abs (formj j y e1 s e) then 1 else 0).
  assert (NN : forall j, 0 <= f j) by (intros j; unfold f; destruct (t <=? _); lia).
  destruct (bad y e1 e2 s e) eqn:Eb.
  - destruct (Hbad y e1 e2 s e I1 I2 I3 I4 I5 Eb) as (j & Hj & L).
    pose proof (sumz_has 256 f j NN Hj) as G. unfold f in G at 1. apply Z.leb_le in L. rewrite L in G. exact G.
  - pose proof (sumz_has 256 f 0%nat NN ltac:(lia)). pose proof (NN 0%nat). lia.
Qed.

Definition space : list (list Z * (list Z * (list Z * (list Z * list Z)))) :=
  list_prod (every D m) (list_prod (every (fields_of 2) m) (list_prod (every (fields_of 2) 256) (list_prod (every D m) (every D m)))).
Definition badp (w : list Z * (list Z * (list Z * (list Z * list Z)))) : bool :=
  let '(y, (e1, (e2, (s, e)))) := w in bad y e1 e2 s e.

Lemma fixed_bound y e1 e2 : In y (every D m) -> In e1 (every (fields_of 2) m) -> In e2 (every (fields_of 2) 256) ->
  lsum (every D m) (fun s => lsum (every D m) (fun e => if bad y e1 e2 s e then 1 else 0)) * Ex M t <=
  512 * (prodz m (fun i => gs N1 (cf eta y i)) * prodz m (fun i => gs N2 (wv y e1 i))).
Proof using All.
  intros I1 I2 I3.
  assert (EP : 0 < Ex M t) by (apply Ex_pos; [exact Hr|exact Hp|lia]).
  apply Z.le_trans with (sumz 256 (fun j => lsum (every D m) (fun s => lsum (every D m) (fun e => if t <=? Z.abs (formj j y e1 s e) then 1 else 0))) * Ex M t).
  - apply Z.mul_le_mono_nonneg_r; [lia|]. rewrite <- lsum_sumz. apply lsum_le. intros s I4. rewrite <- lsum_sumz. apply lsum_le. intros e I5.
    apply bad_le; assumption.
  - rewrite <- sumz_scale_r. eapply Z.le_trans; [apply sumz_le; intros j Hj; now apply one_tail|]. rewrite sumz_const. lia.
Qed.

Lemma fields_length e : Z.of_nat (length (fields_of e)) = 2 ^ Z.of_nat (2 * e).
Proof. unfold fields_of, upto. rewrite map_length, seq_length. now rewrite Nat2Z.inj_pow. Qed.

Lemma total_bound : Z.of_nat (length (filter badp space)) * Ex M t <= 512 * K1 ^ Z.of_nat m * K2 ^ Z.of_nat m * 16 ^ 256.
Proof using All.
  rewrite count_lsum. unfold space. rewrite lsum_prod, <- lsum_scale_r.
  apply Z.le_trans with (lsum (every D m) (fun y => prodz m (fun i => gs N1 (cf eta y i)) * (512 * K2 ^ Z.of_nat m * 16 ^ 256))).
  - apply lsum_le. intros y I1. rewrite lsum_prod, <- lsum_scale_r.
    set (Gy := prodz m (fun i => gs N1 (cf eta y i))).
    assert (GP : 0 <= Gy).
    { unfold Gy. apply (prodz_le m _ (fun i => gs N1 (cf eta y i))). intros i Hi. split; [|lia]. apply (gs_nonneg _ _ (Z.of_nat eta)); [apply cf_range|reflexivity]. }
    apply Z.le_trans with (lsum (every (fields_of 2) m) (fun e1 => (512 * 16 ^ 256 * Gy) * prodz m (fun i => gs N2 (wv y e1 i)))).
    + apply lsum_le. intros e1 I2. rewrite lsum_prod, <- lsum_scale_r.
      eapply Z.le_trans; [apply lsum_le; intros e2 I3; rewrite lsum_prod; cbn [badp]; apply fixed_bound; assumption|].
      rewrite lsum_const, every_length, fields_length. fold Gy.
      change (2 ^ Z.of_nat (2 * 2)) with 16. change (Z.of_nat 256) with 256. apply Z.eq_le_incl. ring.
    + rewrite lsum_scale. unfold wv, cf.
      rewrite (lsum_every_prod (fields_of 2) m (fun i f => gs N2 (wfun (base y i) (cbdf 2 f)))).
      assert (PL : prodz m (fun i => lsum (fields_of 2) (fun f => gs N2 (wfun (base y i) (cbdf 2 f)))) <= K2 ^ Z.of_nat m).
      { rewrite <- prodz_const. apply prodz_le. intros i Hi. split; [|apply HK2; auto]. apply lsum_nonneg. intros f _.
        apply (gs_nonneg _ _ B2); [|reflexivity]. apply Hw; [auto|]. pose proof (cbdf_range 2 f). lia. }
      replace (Gy * (512 * K2 ^ Z.of_nat m * 16 ^ 256)) with ((512 * 16 ^ 256 * Gy) * K2 ^ Z.of_nat m) by ring.
      apply Z.mul_le_mono_nonneg_l; [|exact PL]. apply Z.mul_nonneg_nonneg; [|exact GP]. apply Z.mul_nonneg_nonneg; [lia|]. now apply Z.pow_nonneg.
  - rewrite lsum_scale_r. unfold cf. rewrite (lsum_every_prod D m (fun i f => gs N1 (cbdf eta f))).
    rewrite (prodz_ext m _ (fun _ => K1)) by (intros; exact HK1). rewrite prodz_const. apply Z.eq_le_incl. ring.
Qed.
End Union.
End Bound.
