(** * Where each compression of one coefficient is right *)
From Coq Require Import ZArith List Lia Bool NArith.
From Verif Require Import CMonad WP Proof_Base Model_Params Model_Poly Model_Polyvec Proof_Reduce Proof_Compress Proof_AvxBits Proof_AvxVec
  Proof_AvxCompress Proof_Ranges Proof_AvxRanges Spec_FIPS203.
Import ListNotations.
Open Scope Z_scope.

Definition inside (lo hi c : Z) : bool := (lo <=? c) && (c <=? hi).
Lemma inside_iff lo hi c b : Bool.eqb b (inside lo hi c) = true -> (b = true <-> lo <= c <= hi).
Proof.
  intros H. apply eqb_prop in H. subst b. unfold inside. rewrite andb_true_iff, Z.leb_le, Z.leb_le. reflexivity.
Qed.

(** ** ref/ *)
Definition right_ref (coeff : Z -> res Z) (d lo hi c : Z) : bool :=
  match coeff c with
  | Ok v [] => Bool.eqb (v =? Compress d (c mod q)) (inside lo hi c) && ((0 <=? v) && (v <? 2 ^ d))
  | _ => false
  end.
Lemma right_ref_spec coeff d lo hi c : right_ref coeff d lo hi c = true ->
  coeff c = Ok (value_of d (coeff c)) [] /\ (value_of d (coeff c) = Compress d (c mod q) <-> lo <= c <= hi).
Proof.
  unfold right_ref. destruct (coeff c) as [v [|]| | |] eqn:E; try discriminate. intros H.
  apply andb_true_iff in H as [H1 H2]. apply andb_true_iff in H2 as [H2 H3].
  apply Z.leb_le in H2. apply Z.ltb_lt in H3. cbn [value_of]. rewrite Z.mod_small by lia. split; [reflexivity|].
  rewrite <- Z.eqb_eq. now apply inside_iff.
Qed.
Lemma right_mid (m : res Z) d lo hi c : m = Ok (Compress d (c mod q)) [] -> 0 <= d -> lo <= c <= hi ->
  m = Ok (value_of d m) [] /\ (value_of d m = Compress d (c mod q) <-> lo <= c <= hi).
Proof.
  intros -> Hd H. cbn [value_of]. rewrite Compress_floor, Z.mod_mod by (try apply Z.pow_nonzero; lia). split; [reflexivity|].
  split; [auto|reflexivity].
Qed.
Lemma sweep4 : sweep (right_ref compress4_coeff 4 (-3329) 13211) 3329 9884 = true.
Proof. vm_compute. reflexivity. Qed.
Lemma sweep5 : sweep (right_ref compress5_coeff 5 (-3329) 6709) 3329 3382 = true.
Proof. vm_compute. reflexivity. Qed.
Lemma sweep10 : sweep (right_ref compress10_coeff 10 (-3329) 5407) 3329 2080 = true.
Proof. vm_compute. reflexivity. Qed.
Lemma sweep11 : sweep (right_ref compress11_coeff 11 (-3329) 3953) 3329 626 = true.
Proof. vm_compute. reflexivity. Qed.
Lemma low4 : forallb (right_ref compress4_coeff 4 (-3329) 13211) [-3329] = true. Proof. reflexivity. Qed.
Lemma at4 c : -3329 <= c <= 13212 -> compress4_coeff c = Ok (rc4 c) [] /\ (rc4 c = Compress 4 (c mod q) <-> -3329 <= c <= 13211).
Proof.
  intros H. destruct (Z.lt_ge_cases 3328 c); [apply right_ref_spec; apply (sweep_spec _ _ _ sweep4); lia|].
  destruct (Z.lt_ge_cases c (-3328)).
  - apply right_ref_spec. apply (proj1 (forallb_forall _ _) low4). cbn [In]. lia.
  - unfold rc4. apply (right_mid _ _ _ _ _ (compress4_coeff_ok c ltac:(lia))); lia.
Qed.
Lemma low5 : forallb (right_ref compress5_coeff 5 (-3329) 6709) [-3329] = true. Proof. reflexivity. Qed.
Lemma at5 c : -3329 <= c <= 6710 -> compress5_coeff c = Ok (rc5 c) [] /\ (rc5 c = Compress 5 (c mod q) <-> -3329 <= c <= 6709).
Proof.
  intros H. destruct (Z.lt_ge_cases 3328 c); [apply right_ref_spec; apply (sweep_spec _ _ _ sweep5); lia|].
  destruct (Z.lt_ge_cases c (-3328)).
  - apply right_ref_spec. apply (proj1 (forallb_forall _ _) low5). cbn [In]. lia.
  - unfold rc5. apply (right_mid _ _ _ _ _ (compress5_coeff_ok c ltac:(lia))); lia.
Qed.
Lemma low10 : forallb (right_ref compress10_coeff 10 (-3329) 5407) [-3330; -3329] = true. Proof. reflexivity. Qed.
Lemma at10 c : -3330 <= c <= 5408 -> compress10_coeff c = Ok (rc10 c) [] /\ (rc10 c = Compress 10 (c mod q) <-> -3329 <= c <= 5407).
Proof.
  intros H. destruct (Z.lt_ge_cases 3328 c); [apply right_ref_spec; apply (sweep_spec _ _ _ sweep10); lia|].
  destruct (Z.lt_ge_cases c (-3328)).
  - apply right_ref_spec. apply (proj1 (forallb_forall _ _) low10). cbn [In]. lia.
  - unfold rc10. apply (right_mid _ _ _ _ _ (compress10_coeff_ok c ltac:(lia))); lia.
Qed.
Lemma low11 : forallb (right_ref compress11_coeff 11 (-3329) 3953) [-3330; -3329] = true. Proof. reflexivity. Qed.
Lemma at11 c : -3330 <= c <= 3954 -> compress11_coeff c = Ok (rc11 c) [] /\ (rc11 c = Compress 11 (c mod q) <-> -3329 <= c <= 3953).
Proof.
  intros H. destruct (Z.lt_ge_cases 3328 c); [apply right_ref_spec; apply (sweep_spec _ _ _ sweep11); lia|].
  destruct (Z.lt_ge_cases c (-3328)).
  - apply right_ref_spec. apply (proj1 (forallb_forall _ _) low11). cbn [In]. lia.
  - unfold rc11. apply (right_mid _ _ _ _ _ (compress11_coeff_ok c ltac:(lia))); lia.
Qed.
Lemma at1 c : -2497 <= c <= 32767 -> tomsg_coeff c = Ok (rc1 c) [] /\ (rc1 c = Compress 1 (c mod q) <-> -2496 <= c <= 32767).
Proof.
  intros H. destruct (Z.eq_dec c (-2497)) as [->|N].
  - apply right_ref_spec. vm_compute. reflexivity.
  - unfold rc1. rewrite tomsg_coeff_ok by lia. cbn [value_of]. rewrite Compress_floor, Z.mod_mod by lia.
    split; [reflexivity|]. split; [lia|reflexivity].
Qed.
Lemma below4 : compress4_coeff (-3330) = UB BadShift. Proof. reflexivity. Qed.
Lemma below5 : compress5_coeff (-3330) = UB BadShift. Proof. reflexivity. Qed.

(** ** avx2/ *)
Definition right_avx (t : wt) (d lo hi c : Z) : bool :=
  Bool.eqb (word_at t c mod 2 ^ d =? Compress d (c mod q)) (inside lo hi c).
Lemma right_avx_spec t d lo hi c : wok t = true -> right_avx t (Z.of_nat d) lo hi c = true ->
  (bitz (fields t d) c = Compress (Z.of_nat d) (c mod q) <-> lo <= c <= hi).
Proof.
  intros W H. rewrite bitz_fields, <- word_at_ok by auto. rewrite <- Z.eqb_eq. now apply inside_iff.
Qed.
Transparent w4 w5 w10 w11 b1.
Lemma asweep4 : sweep (right_avx w4 4 (-6761) 6761) (-6762) 6762 && sweep (right_avx w4 4 (-6761) 6761) 3330 3433 = true.
Proof. vm_compute. reflexivity. Qed.
Lemma asweep5 : sweep (right_avx w5 5 (-3380) 3380) (-3381) 3381 && sweep (right_avx w5 5 (-3380) 3380) 3330 52 = true.
Proof. vm_compute. reflexivity. Qed.
Lemma asweep10 : sweep (right_avx w10 10 (-420) 3749) (-421) 421 && sweep (right_avx w10 10 (-420) 3749) 3330 421 = true.
Proof. vm_compute. reflexivity. Qed.
Lemma asweep11 : sweep (right_avx w11 11 (-471) 3953) (-472) 472 && sweep (right_avx w11 11 (-471) 3953) 3330 625 = true.
Proof. vm_compute. reflexivity. Qed.
Definition right_bit (lo hi c : Z) : bool :=
  Bool.eqb (Bool.eqb (fbval (fun _ => false) (fun _ => c) b1) (Compress 1 (c mod q) =? 1)) (inside lo hi c).
Lemma asweep1 : sweep (right_bit (-832) 4161) (-833) 833 && sweep (right_bit (-832) 4161) 3330 833 = true.
Proof. vm_compute. reflexivity. Qed.
Lemma wok4 : wok w4 = true. Proof. vm_compute. reflexivity. Qed.
Lemma wok5 : wok w5 = true. Proof. vm_compute. reflexivity. Qed.
Lemma wok10 : wok w10 = true. Proof. vm_compute. reflexivity. Qed.
Lemma wok11 : wok w11 = true. Proof. vm_compute. reflexivity. Qed.
Global Opaque w4 w5 w10 w11 b1.
Lemma aat4 c : -6762 <= c <= 6762 -> (ac4 c = Compress 4 (c mod q) <-> -6761 <= c <= 6761).
Proof. intros H. destruct (proj1 (andb_true_iff _ _) asweep4) as [S1 S2].
  destruct (Z.lt_ge_cases c 0); [apply (right_avx_spec w4 4 _ _ _ wok4), (sweep_spec _ _ _ S1); lia|].
  destruct (Z.lt_ge_cases 3329 c); [apply (right_avx_spec w4 4 _ _ _ wok4), (sweep_spec _ _ _ S2); lia|].
  split; [lia|]. intros _. apply f4. lia. Qed.
Lemma aat5 c : -3381 <= c <= 3381 -> (ac5 c = Compress 5 (c mod q) <-> -3380 <= c <= 3380).
Proof. intros H. destruct (proj1 (andb_true_iff _ _) asweep5) as [S1 S2].
  destruct (Z.lt_ge_cases c 0); [apply (right_avx_spec w5 5 _ _ _ wok5), (sweep_spec _ _ _ S1); lia|].
  destruct (Z.lt_ge_cases 3329 c); [apply (right_avx_spec w5 5 _ _ _ wok5), (sweep_spec _ _ _ S2); lia|].
  split; [lia|]. intros _. apply f5. lia. Qed.
Lemma aat10 c : -421 <= c <= 3750 -> (ac10 c = Compress 10 (c mod q) <-> -420 <= c <= 3749).
Proof. intros H. destruct (proj1 (andb_true_iff _ _) asweep10) as [S1 S2].
  destruct (Z.lt_ge_cases c 0); [apply (right_avx_spec w10 10 _ _ _ wok10), (sweep_spec _ _ _ S1); lia|].
  destruct (Z.lt_ge_cases 3329 c); [apply (right_avx_spec w10 10 _ _ _ wok10), (sweep_spec _ _ _ S2); lia|].
  split; [lia|]. intros _. apply f10. lia. Qed.
Lemma aat11 c : -472 <= c <= 3954 -> (ac11 c = Compress 11 (c mod q) <-> -471 <= c <= 3953).
Proof. intros H. destruct (proj1 (andb_true_iff _ _) asweep11) as [S1 S2].
  destruct (Z.lt_ge_cases c 0); [apply (right_avx_spec w11 11 _ _ _ wok11), (sweep_spec _ _ _ S1); lia|].
  destruct (Z.lt_ge_cases 3329 c); [apply (right_avx_spec w11 11 _ _ _ wok11), (sweep_spec _ _ _ S2); lia|].
  split; [lia|]. intros _. apply f11. lia. Qed.
Lemma aat1 c : -833 <= c <= 4162 -> (ac1 c = Compress 1 (c mod q) <-> -832 <= c <= 4161).
Proof.
  intros H. destruct (Z.lt_ge_cases c 0) as [Hn|Hn]; [|destruct (Z.lt_ge_cases 3329 c) as [Hh|Hh]].
  3: { split; [lia|]. intros _. apply f1. lia. }
  all: assert (EA : ac1 c = Z.b2z (bval (fun _ => false) (fun _ => c) b1)) by (unfold ac1, bitz; cbn [map value]; apply Z.add_0_r).
  all: rewrite EA; clear EA.
  all: destruct (proj1 (andb_true_iff _ _) asweep1) as [S1 S2].
  all: assert (S : right_bit (-832) 4161 c = true) by (first [apply (sweep_spec _ _ _ S1); lia|apply (sweep_spec _ _ _ S2); lia]).
  all: apply inside_iff in S.
  all: rewrite <- (proj1 (fast_ok _ _) b1) by (vm_compute; reflexivity); rewrite <- S; clear S S1 S2.
  all: destruct (fbval _ _ b1); destruct (Compress1_bit (c mod q)) as [E|E]; rewrite E; cbn; split; intros; congruence.
Qed.
