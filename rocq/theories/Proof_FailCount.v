(** * The number of failing noise strings *)
From Coq Require Import ZArith List Lia Bool.
From Verif Require Import CMonad WP Modq Sums Proof_Base Proof_Vocab Proof_Bits Levels Model_Params Spec_FIPS202 Spec_FIPS203 Spec_Noise Spec_Failure Vocab Vocab_Dist Vocab_Failure
  Proof_CBD Proof_AvxDecompress Proof_Indcpa Proof_Dist Proof_FailSums Proof_FailBound Proof_FailNum Proof_Failure.
Import ListNotations.
Open Scope Z_scope.

Lemma NoDup_list_prod {A B} (L : list A) (M : list B) : NoDup L -> NoDup M -> NoDup (list_prod L M).
Proof.
  intros NL NM. induction NL as [|x L Nx NL IH]; cbn [list_prod]; [constructor|]. apply NoDup_app_disj; [|exact IH|].
  - clear -NM. induction NM as [|y M Ny NM IH]; cbn; [constructor|]. constructor; [|exact IH].
    intros HI. apply in_map_iff in HI as (z & E & Hz). injection E as ->. auto.
  - intros w HI HJ. apply in_map_iff in HI as (y & <- & _). apply in_prod_iff in HJ as [HJ _]. auto.
Qed.
Lemma fields_NoDup eta : NoDup (fields_of eta). Proof. apply upto_NoDup. Qed.

(** Byte strings and field lists *)
Lemma enc_inj eta K l l' : In l (every (fields_of eta) (256 * K)) -> In l' (every (fields_of eta) (256 * K)) -> enc eta l = enc eta l' -> l = l'.
Proof.
  intros I I' E. assert (L : length l = (256 * K)%nat) by (apply every_in in I; apply I). assert (L' : length l' = (256 * K)%nat) by (apply every_in in I'; apply I').
  apply (list_eq_nth 0); [congruence|]. intros i Hi. rewrite L in Hi.
  rewrite <- (field_enc eta K l i), <- (field_enc eta K l' i) by assumption. now rewrite E.
Qed.
Lemma enc_bytes eta K l : In l (every (fields_of eta) (256 * K)) -> byte_array (64 * eta * K) (enc eta l).
Proof.
  intros I. apply every_in in I as [L _]. split; [now apply enc_length|]. intros x Hx. apply (In_nth _ _ 0) in Hx as (i & _ & <-). apply ByteEncode_byte.
Qed.
Lemma enc_surj eta K B : (0 < eta)%nat -> byte_array (64 * eta * K) B -> exists l, In l (every (fields_of eta) (256 * K)) /\ enc eta l = B.
Proof.
  intros He [L HB]. exists (mk (256 * K) (field (2 * eta) B)). split.
  - apply every_in. split; [apply mk_length|]. intros x Hx. apply (In_nth _ _ 0) in Hx as (i & Hi & <-). rewrite mk_length in Hi.
    rewrite nth_mk by exact Hi. apply fields_in. apply field_range.
  - unfold enc. apply ByteEncode_field; [nia|lia|now apply all_bytes_bytes].
Qed.

Lemma times_1 : (256 * 1 = 256)%nat. Proof. reflexivity. Qed.
Lemma enc_inj1 l l' : In l (every (fields_of 2) 256) -> In l' (every (fields_of 2) 256) -> enc 2 l = enc 2 l' -> l = l'.
Proof. pose proof (enc_inj 2 1 l l') as G. rewrite times_1 in G. exact G. Qed.
Lemma enc_bytes1 l : In l (every (fields_of 2) 256) -> byte_array (64 * 2) (enc 2 l).
Proof. pose proof (enc_bytes 2 1 l) as G. rewrite times_1, Nat.mul_1_r in G. exact G. Qed.
Lemma enc_surj1 B : byte_array (64 * 2) B -> exists l, In l (every (fields_of 2) 256) /\ enc 2 l = B.
Proof. pose proof (enc_surj 2 1 B) as G. rewrite times_1, Nat.mul_1_r in G. apply G. lia. Qed.
#[local] Opaque every fields_of enc noise_of decodesb sampled_noise list_prod filter.

Section Count.
Context (lv : level) (A : list (list (list Z))) (m : list Z).
Notation P := (PS lv).
Notation K := (k (PS lv)).
Notation eta := (eta1 (PS lv)).
Definition bad (y e1 e2 s e : list Z) : bool := negb (decodesb m (noise_of lv A m y e1 e2 s e)).
Definition enc5 (w : list Z * (list Z * (list Z * (list Z * list Z)))) : list Z * list Z * list Z * list Z * list Z :=
  let '(y, (e1, (e2, (s, e)))) := w in (enc eta s, enc eta e, enc eta y, enc 2 e1, enc 2 e2).
Lemma space_in y e1 e2 s e : In (y, (e1, (e2, (s, e)))) (space eta K) <->
  In y (every (fields_of eta) (256 * K)) /\ In e1 (every (fields_of 2) (256 * K)) /\ In e2 (every (fields_of 2) 256) /\
  In s (every (fields_of eta) (256 * K)) /\ In e (every (fields_of eta) (256 * K)).
Proof. unfold space. rewrite !in_prod_iff. reflexivity. Qed.
Lemma eta_pos : (0 < eta)%nat. Proof. destruct lv; cbn; lia. Qed.
Lemma eta2_two : eta2 P = 2%nat. Proof. destruct lv; reflexivity. Qed.

Lemma failing_count : counted (failing P A m) (Z.of_nat (length (filter (badp bad) (space eta K)))).
Proof.
  apply (counted_map _ enc5).
  - apply NoDup_filter. unfold space. repeat apply NoDup_list_prod; apply every_NoDup, fields_NoDup.
  - intros (y & e1 & e2 & s & e) (y' & e1' & e2' & s' & e') HI HJ E.
    apply filter_In in HI as [HI _]. apply filter_In in HJ as [HJ _]. apply space_in in HI as (I1 & I2 & I3 & I4 & I5). apply space_in in HJ as (J1 & J2 & J3 & J4 & J5).
    unfold enc5 in E. injection E as E1 E2 E3 E4 E5.
    apply (enc_inj eta K) in E1; [|assumption|assumption]. apply (enc_inj eta K) in E2; [|assumption|assumption]. apply (enc_inj eta K) in E3; [|assumption|assumption].
    apply (enc_inj 2 K) in E4; [|assumption|assumption]. apply enc_inj1 in E5; [|assumption|assumption]. subst. reflexivity.
  - intros ((((SS & E) & Y) & E1) & E2). unfold failing. rewrite eta2_two. split.
    + intros (BS & BE & BY & B1 & B2 & F).
      destruct (enc_surj eta K SS eta_pos BS) as (s & Is & <-). destruct (enc_surj eta K E eta_pos BE) as (e & Ie & <-).
      destruct (enc_surj eta K Y eta_pos BY) as (y & Iy & <-). destruct (enc_surj 2 K E1 ltac:(lia) B1) as (e1 & I1 & <-).
      destruct (enc_surj1 E2 B2) as (e2 & I2 & <-).
      exists (y, (e1, (e2, (s, e)))). split; [|reflexivity]. apply filter_In. split; [apply space_in; exact (conj Iy (conj I1 (conj I2 (conj Is Ie))))|].
      cbn [badp]. unfold bad. apply negb_true_iff. apply not_true_iff_false. intros C. apply F. exact (proj1 (decodesb_spec m (noise_of lv A m y e1 e2 s e)) C).
    + intros ((y & e1 & e2 & s & e) & HI & EQ). apply filter_In in HI as [HI HB]. apply space_in in HI as (I1 & I2 & I3 & I4 & I5).
      unfold enc5 in EQ. injection EQ as <- <- <- <- <-.
      split; [apply enc_bytes; assumption|]. split; [apply enc_bytes; assumption|]. split; [apply enc_bytes; assumption|]. split; [apply enc_bytes; assumption|].
      split; [apply enc_bytes1; exact I3|]. cbn [badp] in HB. unfold bad in HB. apply negb_true_iff in HB. intros C.
      apply (decodesb_spec m (noise_of lv A m y e1 e2 s e)) in C. rewrite C in HB. discriminate HB.
Qed.

Lemma bound_core p r vecs t delta c n B : 0 < r -> r <= p -> 0 <= delta -> 1 <= c -> Z.of_nat (256 * K) = c * 2 ^ Z.of_nat n -> symmetric eta ->
  (forall a, 0 <= a < q -> In (wvec (Z.of_nat (du P)) a) vecs) -> forallb (forallb (fun x => x <=? 4)) vecs = true ->
  (forall v, 0 <= v < q -> Z.abs (verr (Z.of_nat (dv P)) v) <= B) -> 0 <= t <= 830 - B -> 0 <= B ->
  power_ok 64 (K1of p r eta * K2of p r eta vecs) ((p * r) ^ (Z.of_nat eta * Z.of_nat eta + Z.of_nat eta * 4) * 2 ^ (6 * Z.of_nat eta + 4)) c p r t (9 + delta) n = true ->
  Z.of_nat (length (filter (badp bad) (space eta K))) * 2 ^ delta <= 256 ^ Z.of_nat (64 * (3 * eta * K + 2 * (K + 1))).
Proof.
  intros Hr Hp Hd Hc Em SY SW FB HV Ht HB OK.
  assert (Kp : (1 <= K)%nat) by (clear; destruct lv; cbn; lia). pose proof eta_pos as Ep.
  assert (TM : 0 <= t <= Z.of_nat (256 * K) * (Z.of_nat eta * Z.of_nat eta) + Z.of_nat (256 * K) * (Z.of_nat eta * 4)).
  { assert (E1 : 1024 <= Z.of_nat (256 * K) * (Z.of_nat eta * 4)) by (generalize dependent eta; generalize dependent K; intros; nia).
    assert (E2 : 0 <= Z.of_nat (256 * K) * (Z.of_nat eta * Z.of_nat eta)) by (repeat apply Z.mul_nonneg_nonneg; lia). lia. }
  eapply (finish p r eta K vecs t delta c n _ _ eq_refl Hr Hp TM Hd Hc Em OK).
  apply (total_bound p r Hr Hp eta SY K 4 t (K1of p r eta) (K2of p r eta vecs) (wfun (Z.of_nat (du P))) (base lv A)); [lia|exact TM| | |reflexivity| |].
  - intros y i Hi. now apply base_range.
  - apply (wfun_bound vecs); assumption.
  - intros a Ha. rewrite weigh_sum by (intros; now apply gs_even). unfold K2of. apply fold_max_in. apply in_map. now apply SW.
  - intros y e1 e2 s e I1 I2 I3 I4 I5 HBad.
    apply (fail_large lv A m B t y e1 e2 s e); try assumption; [apply eta2_two|apply Ht].
Qed.
End Count.

Definition failure_bits (lv : level) : Z := match lv with Kyber512 => 80 | Kyber768 => 90 | Kyber1024 => 111 end.
Lemma failure_bound lv A m : exists N, counted (failing (PS lv) A m) N /\
  N * 2 ^ failure_bits lv <= 256 ^ Z.of_nat (64 * (3 * eta1 (PS lv) * k (PS lv) + eta2 (PS lv) * (k (PS lv) + 1))).
Proof.
  exists (Z.of_nat (length (filter (badp (bad lv A m)) (space (eta1 (PS lv)) (k (PS lv)))))). split; [apply failing_count|].
  rewrite eta2_two. destruct lv.
  - apply (bound_core Kyber512 A m 6 5 vecs10 726 80 1 9 104); try lia; [reflexivity|exact symmetric_3|exact sweep10|reflexivity|exact verr4|exact numbers512].
  - apply (bound_core Kyber768 A m 6 5 vecs10 726 90 3 8 104); try lia; [reflexivity|exact symmetric_2|exact sweep10|reflexivity|exact verr4|exact numbers768].
  - apply (bound_core Kyber1024 A m 5 4 vecs11 778 111 1 10 52); try lia; [reflexivity|exact symmetric_2|exact sweep11|reflexivity|exact verr5|exact numbers1024].
Qed.
