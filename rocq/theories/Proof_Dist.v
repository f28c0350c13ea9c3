(** * Counting the inputs of the samplers *)
From Coq Require Import ZArith List Lia Bool.
From Verif Require Import CMonad WP Levels Model_Params Model_CBD Model_Indcpa Model_AvxC Model_AvxRej Spec_FIPS203 Vocab Vocab_Rng Vocab_Dist
  Proof_Base Sums Proof_Vocab Proof_Bits Proof_CBD Proof_AvxDecompress Proof_GenMatrix Proof_PropSample Proof_AvxRejLoop.
Import ListNotations.
Open Scope Z_scope.

(** ** Counting *)
Lemma counted_map {A B} (L : list A) (enc : A -> B) (P : B -> Prop) : NoDup L ->
  (forall a a', In a L -> In a' L -> enc a = enc a' -> a = a') ->
  (forall b, P b <-> exists a, In a L /\ enc a = b) -> counted P (Z.of_nat (length L)).
Proof.
  intros ND Inj HP. exists (map enc L). split; [|split; [|now rewrite map_length]].
  - revert Inj. clear HP. induction ND as [|a L Na ND IH]; intros Inj; [constructor|]. cbn. constructor.
    + intros HI. apply in_map_iff in HI as (a' & E & Ha'). apply Na. rewrite (Inj a a'); cbn; auto.
    + apply IH. intros. apply Inj; cbn; auto.
  - intros b. rewrite HP. rewrite in_map_iff. split; intros (a & X & Y); exists a; auto.
Qed.

Lemma NoDup_cons_map {A} (x : A) L : NoDup L -> NoDup (map (cons x) L).
Proof.
  intros ND. induction ND as [|l L Nl ND IH]; [constructor|]. cbn. constructor; [|exact IH].
  intros HI. apply in_map_iff in HI as (l' & E & Hl). injection E as ->. auto.
Qed.
Lemma NoDup_app_disj {A} (L M : list A) : NoDup L -> NoDup M -> (forall x, In x L -> ~ In x M) -> NoDup (L ++ M).
Proof.
  intros NL NM D. induction NL as [|x L Nx NL IH]; [exact NM|]. cbn. constructor.
  - rewrite in_app_iff. intros [X|X]; [auto|]. apply (D x); cbn; auto.
  - apply IH. intros y Hy. apply D. cbn. auto.
Qed.
Definition prefixed {A} (S : list A) (L : list (list A)) : list (list A) := flat_map (fun g => map (cons g) L) S.
Lemma prefixed_in {A} (S : list A) L l : In l (prefixed S L) <-> exists g l', l = g :: l' /\ In g S /\ In l' L.
Proof.
  unfold prefixed. rewrite in_flat_map. split.
  - intros (g & Hg & HI). apply in_map_iff in HI as (l' & <- & Hl). eauto.
  - intros (g & l' & -> & Hg & Hl). exists g. split; [exact Hg|]. apply in_map_iff. eauto.
Qed.
Lemma prefixed_NoDup {A} (S : list A) L : NoDup S -> NoDup L -> NoDup (prefixed S L).
Proof.
  intros NS NL. induction NS as [|g S Ng NS IH]; [constructor|]. cbn. apply NoDup_app_disj; [now apply NoDup_cons_map|exact IH|].
  intros l HI HJ. apply in_map_iff in HI as (l' & <- & Hl). apply prefixed_in in HJ as (g' & l2 & E & Hg & _). injection E as -> _. auto.
Qed.
Lemma prefixed_length {A} (S : list A) L : Z.of_nat (length (prefixed S L)) = Z.of_nat (length S) * Z.of_nat (length L).
Proof.
  induction S as [|g S IH]; [reflexivity|]. cbn [prefixed flat_map]. rewrite app_length, map_length. fold (prefixed S L). cbn [length]. lia.
Qed.

(** ** Independent choices *)
Fixpoint choices (S : Z -> list Z) (f : list Z) : list (list Z) :=
  match f with [] => [[]] | x :: f => prefixed (S x) (choices S f) end.
Lemma choices_in S f w : In w (choices S f) <-> Forall2 (fun g x => In g (S x)) w f.
Proof.
  revert w. induction f as [|x f IH]; intros w; cbn [choices].
  - split; [intros [<-|[]]; constructor|]. intros H. inversion H. cbn. auto.
  - rewrite prefixed_in. split.
    + intros (g & w' & -> & Hg & Hw). constructor; [exact Hg|]. now apply IH.
    + intros H. inversion H as [|g x' w' f' Hg Hw]; subst. exists g, w'. split; [reflexivity|]. split; [exact Hg|]. now apply IH.
Qed.
Lemma choices_NoDup S f : (forall x, NoDup (S x)) -> NoDup (choices S f).
Proof. intros HS. induction f as [|x f IH]; cbn; [repeat constructor; intros []|]. now apply prefixed_NoDup. Qed.
Lemma choices_length S f : Z.of_nat (length (choices S f)) = fold_right Z.mul 1 (map (fun x => Z.of_nat (length (S x))) f).
Proof. induction f as [|x f IH]; [reflexivity|]. cbn [choices map fold_right]. now rewrite prefixed_length, IH. Qed.

Definition upto (n : nat) : list Z := map Z.of_nat (seq 0 n).
Lemma upto_in n z : In z (upto n) <-> 0 <= z < Z.of_nat n.
Proof.
  unfold upto. rewrite in_map_iff. split.
  - intros (i & <- & Hi). apply in_seq in Hi. lia.
  - intros H. exists (Z.to_nat z). split; [lia|]. apply in_seq. lia.
Qed.
Lemma upto_NoDup n : NoDup (upto n).
Proof.
  unfold upto. generalize 0%nat. induction n as [|n IH]; intros s; [constructor|]. cbn. constructor; [|apply IH].
  rewrite in_map_iff. intros (i & E & Hi). apply in_seq in Hi. lia.
Qed.

(** ** Centred binomial sampling *)
(** The 2 * eta bits that give the coefficient x *)
Definition draws (eta : nat) (x : Z) : list Z := filter (fun z => cbdf eta z =? x) (upto (2 ^ (2 * eta))).
Lemma draws_NoDup eta x : NoDup (draws eta x).
Proof. apply NoDup_filter. apply upto_NoDup. Qed.
Lemma draws_in eta x z : In z (draws eta x) <-> 0 <= z < 2 ^ Z.of_nat (2 * eta) /\ cbdf eta z = x.
Proof.
  unfold draws. rewrite filter_In, upto_in, Z.eqb_eq. rewrite Nat2Z.inj_pow. reflexivity.
Qed.
Definition draws_ok (eta : nat) : bool :=
  forallb (fun x => Z.of_nat (length (draws eta x)) =? binomial (2 * eta) (Z.of_nat eta + x)) (map (fun i => Z.of_nat i - Z.of_nat eta) (seq 0 (2 * eta + 1))).
Lemma cbdf_range eta z : - Z.of_nat eta <= cbdf eta z <= Z.of_nat eta.
Proof.
  assert (G : forall f, (forall j, 0 <= f j <= 1) -> 0 <= sumz eta f <= Z.of_nat eta).
  { intros f Hf. clear z. induction eta as [|e IH]; [rewrite sumz_O; lia|]. rewrite sumz_S. pose proof (Hf e). lia. }
  unfold cbdf.
  pose proof (G (fun j => Z.b2z (Z.testbit z (Z.of_nat j))) ltac:(intros; cbv beta; match goal with |- context [Z.b2z ?b] => destruct b end; cbn; lia)).
  pose proof (G (fun j => Z.b2z (Z.testbit z (Z.of_nat (eta + j)))) ltac:(intros; cbv beta; match goal with |- context [Z.b2z ?b] => destruct b end; cbn; lia)). lia.
Qed.
Lemma binomial_out n k : k < 0 \/ Z.of_nat n < k -> binomial n k = 0.
Proof.
  revert k. induction n as [|n IH]; intros k Hk; cbn [binomial].
  - destruct (Z.eqb_spec k 0); [lia|reflexivity].
  - rewrite !IH by lia. reflexivity.
Qed.
Lemma draws_length eta x : draws_ok eta = true -> Z.of_nat (length (draws eta x)) = binomial (2 * eta) (Z.of_nat eta + x).
Proof.
  intros OK. destruct (Z_le_gt_dec (- Z.of_nat eta) x) as [H1|H1]; [destruct (Z_le_gt_dec x (Z.of_nat eta)) as [H2|H2]|].
  - unfold draws_ok in OK. rewrite forallb_forall in OK. apply Z.eqb_eq. apply OK. apply in_map_iff.
    exists (Z.to_nat (x + Z.of_nat eta)). split; [lia|]. apply in_seq. lia.
  - rewrite binomial_out by lia. destruct (draws eta x) as [|z l] eqn:E; [reflexivity|].
    assert (HI : In z (draws eta x)) by (rewrite E; cbn; auto). apply draws_in in HI as [_ HI]. pose proof (cbdf_range eta z). lia.
  - rewrite binomial_out by lia. destruct (draws eta x) as [|z l] eqn:E; [reflexivity|].
    assert (HI : In z (draws eta x)) by (rewrite E; cbn; auto). apply draws_in in HI as [_ HI]. pose proof (cbdf_range eta z). lia.
Qed.
Lemma draws_ok_2 : draws_ok 2 = true. Proof. vm_compute. reflexivity. Qed.
Lemma draws_ok_3 : draws_ok 3 = true. Proof. vm_compute. reflexivity. Qed.

Lemma choice_length (R : Z -> Z -> Prop) w f : Forall2 R w f -> length w = length f.
Proof. intros F2. induction F2; cbn; congruence. Qed.

Lemma count_cbd eta f : (0 < eta)%nat -> draws_ok eta = true -> length f = 256%nat ->
  counted (fun B => byte_array (64 * eta) B /\ mk 256 (cbdz eta B) = f) (centred_binomial eta f).
Proof.
  intros He OK LF.
  assert (EC : centred_binomial eta f = Z.of_nat (length (choices (draws eta) f))).
  { rewrite choices_length. unfold centred_binomial. f_equal. apply map_ext. intros x. symmetry. now apply draws_length. }
  rewrite EC.
  assert (CH : forall w, In w (choices (draws eta) f) <-> length w = 256%nat /\
            forall i, (i < 256)%nat -> 0 <= nth i w 0 < 2 ^ Z.of_nat (2 * eta) /\ cbdf eta (nth i w 0) = nth i f 0).
  { intros w. rewrite choices_in. split.
    - intros F2. assert (LW : length w = 256%nat) by (rewrite <- LF; exact (choice_length _ _ _ F2)). split; [exact LW|].
      clear EC. intros i Hi. rewrite <- LF in Hi. clear LF LW. revert i Hi. induction F2 as [|g x w f Hg F2 IH]; intros i Hi; [cbn in Hi; lia|].
      destruct i as [|i]; [now apply draws_in|]. apply IH. cbn in Hi. lia.
    - intros [LW HW]. clear EC. rewrite <- LF in LW, HW. clear LF. revert w LW HW. induction f as [|x f IH]; intros [|g w] LW HW; try discriminate; [constructor|].
      constructor; [apply draws_in; apply (HW 0%nat); cbn; lia|]. apply IH; [cbn in LW; lia|].
      intros i Hi. apply (HW (Datatypes.S i)). cbn. lia. }
  assert (EL : forall w, length w = 256%nat -> (8 * length (ByteEncode (2 * eta) w) = 2 * eta * length w)%nat).
  { intros w LW. rewrite ByteEncode_length, LW. replace (2 * eta * 256)%nat with (64 * eta * 8)%nat by lia. rewrite Nat.div_mul; lia. }
  apply (counted_map _ (ByteEncode (2 * eta))).
  - apply choices_NoDup. intros. apply draws_NoDup.
  - intros w w' Hw Hw' E. apply CH in Hw as [LW HW]. apply CH in Hw' as [LW' HW'].
    apply (list_eq_nth 0); [congruence|]. intros i Hi. rewrite LW in Hi.
    rewrite <- (field_ByteEncode (2 * eta) w i), <- (field_ByteEncode (2 * eta) w' i), E; [reflexivity| | | | | |]; try (now apply EL); try lia.
    + apply HW'; lia.
    + apply HW; lia.
  - intros B. split.
    + intros [[LB BB] E]. pose proof (all_bytes_bytes _ BB) as Bb. exists (mk 256 (field (2 * eta) B)). split.
      * apply CH. split; [apply mk_length|]. intros i Hi. rewrite nth_mk by exact Hi. split; [apply field_range|].
        rewrite <- cbdz_field. rewrite <- E. now rewrite nth_mk.
      * apply ByteEncode_field; [lia|lia|exact Bb].
    + intros (w & Hw & <-). apply CH in Hw as [LW HW]. pose proof (EL w LW) as ELw. rewrite LW in ELw.
      split; [split; [lia|]|].
      * intros x Hx. apply (In_nth _ _ 0) in Hx as (i & Hi & <-). apply ByteEncode_byte.
      * apply (list_eq_nth 0); [now rewrite mk_length|]. rewrite mk_length. intros i Hi. rewrite nth_mk by exact Hi.
        rewrite cbdz_field, field_ByteEncode; [now apply HW|now apply EL|lia|now apply HW].
Qed.

Lemma counted_iff {A} (P Q : A -> Prop) n : (forall x, P x <-> Q x) -> counted P n -> counted Q n.
Proof. intros E (L & ND & HI & HL). exists L. split; [exact ND|]. split; [|exact HL]. intros x. rewrite HI. apply E. Qed.

Lemma wp_yields {A} (m : res A) T v w : wp m T (fun x => x = v) -> yields m w <-> v = w.
Proof.
  intros (x & E & ->). unfold yields. split.
  - intros (T' & E'). rewrite E in E'. congruence.
  - intros <-. eauto.
Qed.

Lemma eta1_cases lv : eta1 (PS lv) = 2%nat \/ eta1 (PS lv) = 3%nat. Proof. destruct lv; cbn; auto. Qed.
Lemma eta1_ok lv : (0 < eta1 (PS lv))%nat /\ draws_ok (eta1 (PS lv)) = true.
Proof. destruct (eta1_cases lv) as [-> | ->]; (split; [lia|]); [exact draws_ok_2|exact draws_ok_3]. Qed.

Lemma cbd_eta1_count lv r f : length r = 256%nat -> length f = 256%nat ->
  counted (fun B => byte_array (64 * eta1 (PS lv)) B /\ yields (poly_cbd_eta1 lv r B) f) (centred_binomial (eta1 (PS lv)) f).
Proof.
  intros LR LF. destruct (eta1_ok lv) as [E0 OK]. eapply counted_iff; [|apply count_cbd; assumption].
  intros B. split; intros [HB HF]; (split; [exact HB|]); destruct HB as [LB BB]; destruct (poly_cbd_eta1_wp lv) as [T W];
    specialize (W r B LR LB (all_bytes_bytes _ BB)); now apply (wp_yields _ _ _ _ W).
Qed.
Lemma cbd_eta2_count r f : length r = 256%nat -> length f = 256%nat ->
  counted (fun B => byte_array 128 B /\ yields (poly_cbd_eta2 r B) f) (centred_binomial 2 f).
Proof.
  intros LR LF. eapply counted_iff; [|apply (count_cbd 2); [lia|exact draws_ok_2|exact LF]].
  intros B. split; intros [HB HF]; (split; [exact HB|]); destruct HB as [LB BB]; destruct cbd2_wp as [T W];
    specialize (W r B LR LB (all_bytes_bytes _ BB)); now apply (wp_yields _ _ _ _ W).
Qed.
Lemma cbd_eta1_avx2_count lv r f slack : length r = 256%nat -> length f = 256%nat -> (length slack >= match lv with Kyber512 => 8 | _ => 0 end)%nat ->
  counted (fun B => byte_array (64 * eta1 (PS lv)) B /\ yields (poly_cbd_eta1_avx2 lv r (B ++ slack)) f) (centred_binomial (eta1 (PS lv)) f).
Proof.
  intros LR LF LS. destruct (eta1_ok lv) as [E0 OK]. eapply counted_iff; [|apply count_cbd; assumption].
  intros B. assert (X : byte_array (64 * eta1 (PS lv)) B -> (mk 256 (cbdz (eta1 (PS lv)) B) = f <-> yields (poly_cbd_eta1_avx2 lv r (B ++ slack)) f)).
  { intros [LB BB]. destruct (poly_cbd_eta1_avx2_wp lv) as [T W].
    assert (LL : (64 * eta1 (PS lv) + (if (eta1 (PS lv) =? 3)%nat then 8 else 0) <= length (B ++ slack))%nat).
    { rewrite app_length, LB. apply Nat.add_le_mono_l. destruct lv; exact LS. }
    specialize (W r (B ++ slack) LR LL). rewrite (wp_yields _ _ _ _ W).
    assert (ES : sub (B ++ slack) 0 (64 * eta1 (PS lv)) = B) by (rewrite <- LB; exact (sub_ctx [] B slack)). now rewrite ES. }
  split; intros [HB HF]; (split; [exact HB|]); now apply X.
Qed.
Lemma cbd_eta2_avx2_count r f slack : length r = 256%nat -> length f = 256%nat ->
  counted (fun B => byte_array 128 B /\ yields (poly_cbd_eta2_avx2 r (B ++ slack)) f) (centred_binomial 2 f).
Proof.
  intros LR LF. eapply counted_iff; [|apply (count_cbd 2); [lia|exact draws_ok_2|exact LF]].
  intros B. assert (X : byte_array 128 B -> (mk 256 (cbdz 2 B) = f <-> yields (poly_cbd_eta2_avx2 r (B ++ slack)) f)).
  { intros [LB BB]. destruct cbd2_avx2_wp as [T W].
    assert (LL : (128 <= length (B ++ slack))%nat) by (rewrite app_length; lia).
    specialize (W r (B ++ slack) LR LL). rewrite (wp_yields _ _ _ _ W).
    assert (ES : sub (B ++ slack) 0 128 = B) by (rewrite <- LB; exact (sub_ctx [] B slack)). now rewrite ES. }
  split; intros [HB HF]; (split; [exact HB|]); now apply X.
Qed.
