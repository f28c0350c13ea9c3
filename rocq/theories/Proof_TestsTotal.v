(** * The test programs: test_vectors, completeness, sources, meaning of a failure *)
From Coq Require Import ZArith List Lia Bool String.
From Verif Require Import CMonad WP Proof_Base Levels Model_Params Model_Fips202 Model_Randombytes Model_Kem Model_AvxKem Spec_FIPS202 Spec_FIPS203 Spec_Noise
  Vocab Vocab_Code Vocab_Avx Vocab_Rng Vocab_Bind Model_Tests Vocab_Tests Proof_Hash Proof_GenMatrix Proof_Kem Proof_Correct Proof_Api Proof_AvxApi
  Proof_Vocab Proof_PropKem Proof_PropAvxKem Proof_PropHash Proof_Random Proof_Rng Proof_Bind Proof_Tests.
Import ListNotations.
Open Scope Z_scope.
Open Scope cmonad_scope.
Notation length := List.length.
Notation overwrite := Vocab_Rng.overwrite.
Local Opaque SHA3_256 SHA3_512 SHAKE256 SHAKE128.
Local Opaque keypair_derand_of enc_derand_of dec_of.

(** ** test_vectors.c *)
Lemma hex_eq : forall x, 0 <= x < 256 -> hex_lower x = [hex_digit (x / 16); hex_digit (x mod 16)].
Proof.
  intros x Hx. assert (C : forall i, In i (seq 0 256) -> (if list_eq_dec Z.eq_dec (hex_lower (Z.of_nat i)) [hex_digit (Z.of_nat i / 16); hex_digit (Z.of_nat i mod 16)] then true else false) = true).
  { apply forallb_forall. vm_compute. reflexivity. }
  specialize (C (Z.to_nat x)). rewrite Z2Nat.id in C by lia. specialize (C ltac:(apply in_seq; lia)).
  destruct (list_eq_dec _ _ _) as [E|]; [exact E|discriminate C].
Qed.
Lemma line_eq label l : all_bytes l -> print_line label l = dump label l.
Proof.
  intros B. unfold print_line, dump, str, text. f_equal.
  - apply map_ext. intros a. unfold Ascii.nat_of_ascii. now rewrite N_nat_Z.
  - f_equal. induction l as [|x l IH]; [reflexivity|]. cbn [flat_map]. rewrite IH by (intros y Hy; apply B; now right). f_equal. apply hex_eq, B. now left.
Qed.
Lemma compare_yields m : forall j a b, (j + m <= length a)%nat -> length a = length b ->
  exists e, yields (compare_keys m j a b) e /\ (e = true <-> forall i, (j <= i < j + m)%nat -> nth i a 0 = nth i b 0).
Proof.
  induction m as [|m IH]; intros j a b L1 L2; cbn [compare_keys].
  - exists true. split; [|split; [intros _ i Hi; lia|reflexivity]]. eapply yields_bind; [apply yields_test|apply yields_ret].
  - destruct (Z.eqb_spec (nth j a 0) (nth j b 0)) as [E|E].
    + destruct (IH (S j) a b) as (e & Y & He); [lia|exact L2|]. exists e. split.
      * eapply yields_bind; [apply yields_test|]. cbv beta. eapply yields_bind; [apply yields_aget; lia|]. cbv beta.
        eapply yields_bind; [apply yields_aget; lia|]. cbv beta. eapply yields_bind; [apply yields_test|]. cbv beta.
        rewrite E, Z.eqb_refl. cbn [negb]. exact Y.
      * rewrite He. split; intros X i Hi; [destruct (Nat.eq_dec i j) as [->|]; [exact E|apply X; lia]|apply X; lia].
    + exists false. split.
      * eapply yields_bind; [apply yields_test|]. cbv beta. eapply yields_bind; [apply yields_aget; lia|]. cbv beta.
        eapply yields_bind; [apply yields_aget; lia|]. cbv beta. eapply yields_bind; [apply yields_test|]. cbv beta.
        apply Z.eqb_neq in E. rewrite E. cbn [negb]. apply yields_ret.
      * split; [discriminate|]. intros X. elim E. apply X. lia.
Qed.
Lemma compare_keys_eq a b : length a = 32%nat -> length b = 32%nat -> exists e, yields (compare_keys 32 0 a b) e /\ (e = true <-> a = b).
Proof.
  intros La Lb. destruct (compare_yields 32 0 a b) as (e & Y & E); [lia|lia|]. exists e. split; [exact Y|]. rewrite E. split; [|now intros ->].
  intros X. apply nth_ext with (d := 0) (d' := 0); [lia|]. intros i Hi. apply X. lia.
Qed.

Section Source.
Context {S : Type} (rb : S -> list Z -> nat -> nat -> res (list Z * S)) (f : nat -> Z) (R : list nat -> nat -> S -> Prop).
Variables (V : variant) (lv : level).

(** The requests of one round *)
Fixpoint vdemand (n : nat) : list nat := match n with O => [] | Datatypes.S n => 64 :: 32 :: ctbytes lv :: vdemand n end%nat.
Lemma vdemand_requests n : vdemand n = vectors_requests lv n.
Proof. unfold vectors_requests. induction n as [|n IH]; [reflexivity|]. cbn [vdemand repeat List.concat app]. now rewrite IH. Qed.
Definition only (l l' : list nat) : Prop := l' = l.
Lemma rdy_only3 len len2 len3 lens p s : R (len :: len2 :: len3 :: lens) p s -> rdy R (req len (req len2 (req len3 (only lens)))) p s.
Proof.
  intros H. split; [exists (len :: len2 :: len3 :: lens), (len2 :: len3 :: lens)%list; split; [reflexivity|]; exists (len3 :: lens); split; [reflexivity|]; exists lens; now split|].
  intros l (l' & -> & l'' & -> & l3 & -> & ->). exact H.
Qed.

Section Sound.
Hypothesis HS : stream_source rb f R.
Variable fuel : nat.
Lemma vectors_safe JJ : forall n p s pk sk ct ka kb, R (vdemand n) p s ->
  length pk = KYBER_PUBLICKEYBYTES lv -> length sk = KYBER_SECRETKEYBYTES lv -> length ct = KYBER_CIPHERTEXTBYTES lv ->
  length ka = 32%nat -> length kb = 32%nat ->
  safely (test_vectors_loop rb V lv fuel n JJ s pk sk ct ka kb) (fun v => vectors lv f p n (fst (fst v)) (snd (fst v))).
Proof.
  induction n as [|n IH]; intros p s pk sk ct ka kb HR Lp Ls Lc La Lb; cbn [test_vectors_loop vdemand] in *.
  - eapply safely_bind; [apply (safely_yields _ _ (fun _ => True) (yields_test _) I)|]. intros _ _. apply safely_ret. apply vectors_done.
  - eapply safely_bind; [apply (safely_yields _ _ (fun _ => True) (yields_test _) I)|]. intros _ _.
    eapply safely_bind; [apply (keypair_with_safe rb f R HS V lv fuel (JJ (Datatypes.S n) 0%nat) _ p s pk sk (rdy_only3 _ _ _ _ _ _ HR) Lp Ls)|].
    intros [[[ek dk] r] s1] (_ & HK & He & Hd & R1). cbv beta iota zeta.
    eapply safely_bind; [apply (enc_with_safe rb f R HS V lv fuel (JJ (Datatypes.S n) 1%nat) _ _ s1 ct kb ek R1 Lc Lb He)|].
    intros [[[c K] r'] s2] (_ & HE & Hc & HKb & R2). cbv beta iota zeta.
    eapply safely_bind; [apply (dec_safe V (JJ (Datatypes.S n) 2%nat) lv fuel ka c dk La Hc Hd)|].
    intros [K' r''] (HD & HK'). cbv beta iota zeta. change KYBER_SSBYTES with 32%nat.
    destruct (compare_keys_eq K' K (proj1 HK') (proj1 HKb)) as (e & Y & Ee).
    eapply safely_bind; [apply (safely_yields _ _ (fun v => v = e) Y eq_refl)|]. intros ? ->. cbv beta.
    destruct e; cbn [negb].
    + assert (K' = K) as -> by tauto.
      eapply safely_bind; [apply (rb_safe rb f R HS (ctbytes lv) _ _ s2 c R2 (proj1 Hc))|].
      intros [c2 s3] (Ec & Hc2 & R3). cbn [fst snd] in Ec, R3. cbv beta iota. subst c2.
      eapply safely_bind; [apply (dec_safe V (JJ (Datatypes.S n) 3%nat) lv fuel K _ dk (proj1 HKb) Hc2 Hd)|].
      intros [K2 r2] (HD2 & HK2). cbv beta iota zeta. replace (p + 64 + 32)%nat with (p + 96)%nat in * by lia.
      eapply safely_bind; [apply (IH (p + 96 + ctbytes lv)%nat s3 ek dk _ K2 K)|].
      * destruct R3 as [_ R3]. now apply R3.
      * apply He. * apply Hd. * apply Hc2. * apply HK2. * apply HKb.
      * intros [[rest r3] s4] Hv. cbn [fst snd] in Hv. cbv beta iota. apply safely_ret. cbn [fst snd].
        pose proof (vectors_next lv f p n ek dk K c K2 rest r3 (conj HK HE) HD HD2 Hv) as X.
        rewrite <- !app_assoc, !line_eq by (first [exact (proj2 HK2)|exact (proj2 HKb)|exact (proj2 Hc)|exact (proj2 Hd)|exact (proj2 He)]). exact X.
    + apply safely_ret. cbn [fst snd].
      pose proof (vectors_fail lv f p n ek dk K c K' (conj HK HE) HD ltac:(intros X; apply Ee in X; discriminate X)) as X.
      rewrite <- !app_assoc, !line_eq by (first [exact (proj2 HK')|exact (proj2 HKb)|exact (proj2 Hc)|exact (proj2 Hd)|exact (proj2 He)]). exact X.
Qed.
End Sound.

(** ** Completeness *)
Section Complete.
Hypothesis HT : total_source rb f R.
Hypothesis HB : forall j, 0 <= f j < 256.
Lemma piece_bytes p m : byte_array m (piece f p m).
Proof. split; [apply piece_length|]. intros x Hx. unfold piece in Hx. apply in_map_iff in Hx as (j & <- & _). apply HB. Qed.
Lemma total_rdy len D p s x : rdy R (req len D) p s -> length x = len ->
  (forall l, D l -> True) -> forall s1, yields (rb s x 0 len) (piece f p len, s1) -> rdy R D (p + len) s1.
Proof.
  intros [[l0 (l & -> & D0)] HR] L _ s1 [T E]. split; [now exists l|]. intros l' Hl'.
  destruct (HT len l' p s x 0%nat (HR _ (ex_intro _ l' (conj eq_refl Hl'))) (Nat.eq_le_incl _ _ (eq_sym L))) as (s2 & [T2 E2] & _ & R2).
  rewrite E in E2. injection E2 as _ -> _. exact R2.
Qed.
Lemma rb_total len D p s x : rdy R (req len D) p s -> length x = len ->
  exists s1, yields (rb s x 0 len) (piece f p len, s1) /\ rdy R D (p + len) s1.
Proof.
  intros HR L. pose proof HR as [[l0 (l & -> & D0)] HR'].
  destruct (HT len l p s x 0%nat (HR' _ (ex_intro _ l (conj eq_refl D0))) (Nat.eq_le_incl _ _ (eq_sym L))) as (s1 & Y & _ & _).
  rewrite overwrite_all in Y by (now rewrite piece_length). exists s1. split; [exact Y|]. now apply (total_rdy len D p s x HR L (fun _ _ => I)).
Qed.
Lemma keypair_with_total p ek dk : KeyGen_internal (PS lv) (piece f p 32) (piece f (p + 32) 32) ek dk ->
  exists fuel0, forall fuel (JJ : Junk) D s pk sk, (fuel0 <= fuel)%nat -> rdy R (req 64 D) p s ->
    length pk = KYBER_PUBLICKEYBYTES lv -> length sk = KYBER_SECRETKEYBYTES lv ->
    exists s', yields (keypair_with rb V lv fuel JJ s pk sk) (ek, dk, 0, s') /\ rdy R D (p + 64) s'.
Proof.
  intros HK. destruct (keypair_of_complete V lv _ _ _ _ (piece_bytes p 32) (piece_bytes (p + 32) 32) HK) as (fuel0 & C).
  exists fuel0. intros fuel JJ D s pk sk Hf HR Lp Ls. unfold keypair_with. change (2 * KYBER_SYMBYTES)%nat with 64%nat.
  destruct (rb_total 64 D p s (local 64) HR (local_len _ _)) as (s1 & Y & R1). exists s1. split; [|exact R1].
  eapply yields_bind; [exact Y|]. cbv beta iota. destruct (C fuel JJ pk sk Hf Lp Ls) as [T E].
  change 64%nat with (32 + 32)%nat. rewrite piece_split. eapply yields_bind; [exists T; exact E|]. apply yields_ret.
Qed.
Lemma enc_with_total p ek K c : byte_array (KYBER_PUBLICKEYBYTES lv) ek -> Encaps_internal (PS lv) ek (piece f p 32) K c ->
  exists fuel0, forall fuel (JJ : Junk) D s ct ss, (fuel0 <= fuel)%nat -> rdy R (req 32 D) p s ->
    length ct = KYBER_CIPHERTEXTBYTES lv -> length ss = 32%nat ->
    exists s', yields (enc_with rb V lv fuel JJ s ct ss ek) (c, K, 0, s') /\ rdy R D (p + 32) s'.
Proof.
  intros He HE. destruct (enc_of_complete V lv _ _ _ _ He (piece_bytes p 32) HE) as (fuel0 & C).
  exists fuel0. intros fuel JJ D s ct ss Hf HR Lc Ls. unfold enc_with. change KYBER_SYMBYTES with 32%nat.
  destruct (rb_total 32 D p s (local 32) HR (local_len _ _)) as (s1 & Y & R1). exists s1. split; [|exact R1].
  eapply yields_bind; [exact Y|]. cbv beta iota. destruct (C fuel JJ ct ss Hf Lc Ls) as [T E].
  eapply yields_bind; [exists T; exact E|]. apply yields_ret.
Qed.
Lemma exchange_sizes p ek dk K c : exchange_at lv f p ek dk K c ->
  byte_array (KYBER_PUBLICKEYBYTES lv) ek /\ byte_array (KYBER_SECRETKEYBYTES lv) dk /\ byte_array 32 K /\ byte_array (KYBER_CIPHERTEXTBYTES lv) c.
Proof.
  intros [HK HE]. destruct (KeyGen_internal_sizes _ _ _ _ _ (piece_bytes _ 32) HK) as [He Hd].
  destruct (Encaps_internal_sizes _ _ _ _ _ HE) as [HKb Hc]. auto.
Qed.
Lemma exchange_total p ek dk K c : exchange_at lv f p ek dk K c ->
  exists fuel0, forall fuel (J1 J2 : Junk) D s pk sk ct ss, (fuel0 <= fuel)%nat -> rdy R (req 64 (req 32 D)) p s ->
    length pk = KYBER_PUBLICKEYBYTES lv -> length sk = KYBER_SECRETKEYBYTES lv -> length ct = KYBER_CIPHERTEXTBYTES lv -> length ss = 32%nat ->
    exists s1 s2, yields (keypair_with rb V lv fuel J1 s pk sk) (ek, dk, 0, s1) /\
      yields (enc_with rb V lv fuel J2 s1 ct ss ek) (c, K, 0, s2) /\ rdy R D (p + 96) s2.
Proof.
  intros X. destruct (exchange_sizes _ _ _ _ _ X) as (He & _). destruct X as [HK HE].
  destruct (keypair_with_total p ek dk HK) as (f1 & C1). destruct (enc_with_total (p + 64) ek K c He HE) as (f2 & C2).
  exists (Nat.max f1 f2). intros fuel J1 J2 D s pk sk ct ss Hf HR Lp Ls Lc Lss.
  destruct (C1 fuel J1 (req 32 D) s pk sk ltac:(lia) HR Lp Ls) as (s1 & Y1 & R1).
  destruct (C2 fuel J2 D s1 ct ss ltac:(lia) R1 Lc Lss) as (s2 & Y2 & R2).
  exists s1, s2. replace (p + 96)%nat with (p + 64 + 32)%nat by lia. auto.
Qed.
Lemma dec_total c dk K : byte_array (KYBER_CIPHERTEXTBYTES lv) c -> byte_array (KYBER_SECRETKEYBYTES lv) dk -> Decaps_internal (PS lv) dk c K ->
  exists fuel0, forall fuel (JJ : Junk) ss, (fuel0 <= fuel)%nat -> length ss = 32%nat -> yields (dec_of V JJ lv fuel ss c dk) (K, 0).
Proof. exact (dec_of_complete V lv c dk K). Qed.

Lemma vectors_total : forall p n out r, vectors lv f p n out r -> exists fuel0, forall fuel JJ s pk sk ct ka kb,
  (fuel0 <= fuel)%nat -> R (vdemand n) p s ->
  length pk = KYBER_PUBLICKEYBYTES lv -> length sk = KYBER_SECRETKEYBYTES lv -> length ct = KYBER_CIPHERTEXTBYTES lv ->
  length ka = 32%nat -> length kb = 32%nat ->
  exists s', yields (test_vectors_loop rb V lv fuel n JJ s pk sk ct ka kb) (out, r, s').
Proof.
  intros p n out r H. induction H as [p|p n ek dk K c K1 X HD NE|p n ek dk K c K2 rest r X HD HD2 Hv IH].
  - exists 0%nat. intros fuel JJ s pk sk ct ka kb _ _ _ _ _ _ _. exists s. cbn [test_vectors_loop].
    eapply yields_bind; [apply yields_test|]. apply yields_ret.
  - destruct (exchange_sizes _ _ _ _ _ X) as (He & Hd & HKb & Hc). pose proof (Decaps_internal_sizes _ _ _ _ HD) as HK1.
    destruct (exchange_total _ _ _ _ _ X) as (f1 & C1). destruct (dec_total c dk K1 Hc Hd HD) as (f2 & C2).
    exists (Nat.max f1 f2). intros fuel JJ s pk sk ct ka kb Hf HR Lp Ls Lc La Lb. cbn [vdemand] in HR.
    destruct (C1 fuel (JJ (Datatypes.S n) 0%nat) (JJ (Datatypes.S n) 1%nat) (req (ctbytes lv) (only (vdemand n))) s pk sk ct kb) as (s1 & s2 & Y1 & Y2 & R2); [lia| |exact Lp|exact Ls|exact Lc|exact Lb|].
    { exact (rdy_only3 _ _ _ _ _ _ HR). }
    exists s2. cbn [test_vectors_loop]. eapply yields_bind; [apply yields_test|]. cbv beta.
    eapply yields_bind; [exact Y1|]. cbv beta iota zeta. eapply yields_bind; [exact Y2|]. cbv beta iota zeta.
    eapply yields_bind; [apply (C2 fuel (JJ (Datatypes.S n) 2%nat) ka ltac:(lia) La)|]. cbv beta iota zeta. change KYBER_SSBYTES with 32%nat.
    destruct (compare_keys_eq K1 K (proj1 HK1) (proj1 HKb)) as (e & Y & Ee). eapply yields_bind; [exact Y|]. cbv beta.
    destruct e; [elim NE; tauto|]. cbn [negb].
    rewrite <- !app_assoc, !line_eq by (first [exact (proj2 HK1)|exact (proj2 HKb)|exact (proj2 Hc)|exact (proj2 Hd)|exact (proj2 He)]). apply yields_ret.
  - destruct (exchange_sizes _ _ _ _ _ X) as (He & Hd & HKb & Hc). pose proof (Decaps_internal_sizes _ _ _ _ HD2) as HK2.
    destruct (exchange_total _ _ _ _ _ X) as (f1 & C1). destruct (dec_total c dk K Hc Hd HD) as (f2 & C2).
    destruct (dec_total _ dk K2 (piece_bytes (p + 96) (ctbytes lv)) Hd HD2) as (f3 & C3). destruct IH as (f4 & C4).
    exists (Nat.max (Nat.max f1 f2) (Nat.max f3 f4)). intros fuel JJ s pk sk ct ka kb Hf HR Lp Ls Lc La Lb. cbn [vdemand] in HR.
    destruct (C1 fuel (JJ (Datatypes.S n) 0%nat) (JJ (Datatypes.S n) 1%nat) (req (ctbytes lv) (only (vdemand n))) s pk sk ct kb) as (s1 & s2 & Y1 & Y2 & R2); [lia| |exact Lp|exact Ls|exact Lc|exact Lb|].
    { exact (rdy_only3 _ _ _ _ _ _ HR). }
    destruct (rb_total (ctbytes lv) (only (vdemand n)) (p + 96) s2 c R2 (proj1 Hc)) as (s3 & Y3 & [_ R3]).
    destruct (C4 fuel JJ s3 ek dk (piece f (p + 96) (ctbytes lv)) K2 K) as (s4 & Y4);
      [lia|now apply R3|apply He|apply Hd|apply piece_length|apply HK2|apply HKb|].
    exists s4. cbn [test_vectors_loop]. eapply yields_bind; [apply yields_test|]. cbv beta.
    eapply yields_bind; [exact Y1|]. cbv beta iota zeta. eapply yields_bind; [exact Y2|]. cbv beta iota zeta.
    eapply yields_bind; [apply (C2 fuel (JJ (Datatypes.S n) 2%nat) ka ltac:(lia) La)|]. cbv beta iota zeta. change KYBER_SSBYTES with 32%nat.
    destruct (compare_keys_eq K K (proj1 HKb) (proj1 HKb)) as (e & Y & Ee). eapply yields_bind; [exact Y|]. cbv beta.
    destruct e; [|discriminate (proj2 Ee eq_refl)]. cbn [negb]. fold (ctbytes lv).
    eapply yields_bind; [exact Y3|]. cbv beta iota.
    eapply yields_bind; [apply (C3 fuel (JJ (Datatypes.S n) 3%nat) K ltac:(lia) (proj1 HKb))|]. cbv beta iota zeta.
    eapply yields_bind; [exact Y4|]. cbv beta iota.
    rewrite <- !app_assoc, !line_eq by (first [exact (proj2 HK2)|exact (proj2 HKb)|exact (proj2 Hc)|exact (proj2 Hd)|exact (proj2 He)]). apply yields_ret.
Qed.

Lemma test_keys_total p r : keys_result lv f p r -> exists fuel0, forall fuel JJ D s, (fuel0 <= fuel)%nat -> rdy R (req 64 (req 32 D)) p s ->
  exists s', yields (test_keys rb V lv fuel JJ s) (r, s') /\ rdy R D (p + 96) s'.
Proof.
  intros (ek & dk & K & c & X & K' & HD & HE). destruct (exchange_sizes _ _ _ _ _ X) as (He & Hd & HKb & Hc). pose proof (Decaps_internal_sizes _ _ _ _ HD) as HK1.
  destruct (exchange_total _ _ _ _ _ X) as (f1 & C1). destruct (dec_total c dk K' Hc Hd HD) as (f2 & C2).
  exists (Nat.max f1 f2). intros fuel JJ D s Hf HR.
  destruct (C1 fuel (JJ 1%nat) (JJ 2%nat) D s (pk_ lv (JJ 0%nat)) (sk_ lv (JJ 0%nat)) (ct_ lv (JJ 0%nat)) (ss_ (JJ 0%nat))) as (s1 & s2 & Y1 & Y2 & R2);
    [lia|exact HR|apply local_len|apply local_len|apply local_len|apply local_len|].
  exists s2. split; [|exact R2]. unfold test_keys. eapply yields_bind; [exact Y1|]. cbv beta iota. eapply yields_bind; [exact Y2|]. cbv beta iota.
  eapply yields_bind; [apply (C2 fuel (JJ 3%nat)); [lia|apply local_len]|]. cbv beta iota. change KYBER_SSBYTES with 32%nat.
  destruct (memcmp_yields K' K 32 (proj1 HK1) (proj1 HKb)) as (e & Y & Ee). eapply yields_bind; [exact Y|]. cbv beta.
  eapply yields_bind; [apply yields_test|]. cbv beta.
  destruct (Z.eqb_spec e 0) as [E0|E0]; cbn [negb]; destruct HE as [[HE ->]|[HE ->]]; try tauto; apply yields_ret.
Qed.
Lemma test_sk_total p r : sk_result lv f p r -> exists fuel0, forall fuel JJ D s, (fuel0 <= fuel)%nat ->
  rdy R (req 64 (req 32 (req (skbytes lv) D))) p s ->
  exists s', yields (test_invalid_sk_a rb V lv fuel JJ s) (r, s') /\ rdy R D (p + 96 + skbytes lv) s'.
Proof.
  intros (ek & dk & K & c & X & K' & HD & HE). destruct (exchange_sizes _ _ _ _ _ X) as (He & Hd & HKb & Hc). pose proof (Decaps_internal_sizes _ _ _ _ HD) as HK1.
  destruct (exchange_total _ _ _ _ _ X) as (f1 & C1). destruct (dec_total c _ K' Hc (piece_bytes (p + 96) (skbytes lv)) HD) as (f2 & C2).
  exists (Nat.max f1 f2). intros fuel JJ D s Hf HR.
  destruct (C1 fuel (JJ 1%nat) (JJ 2%nat) (req (skbytes lv) D) s (pk_ lv (JJ 0%nat)) (sk_ lv (JJ 0%nat)) (ct_ lv (JJ 0%nat)) (ss_ (JJ 0%nat))) as (s1 & s2 & Y1 & Y2 & R2);
    [lia|exact HR|apply local_len|apply local_len|apply local_len|apply local_len|].
  destruct (rb_total (skbytes lv) D (p + 96) s2 dk R2 (proj1 Hd)) as (s3 & Y3 & R3).
  exists s3. split; [|exact R3]. unfold test_invalid_sk_a. fold (skbytes lv).
  eapply yields_bind; [exact Y1|]. cbv beta iota. eapply yields_bind; [exact Y2|]. cbv beta iota. eapply yields_bind; [exact Y3|]. cbv beta iota.
  eapply yields_bind; [apply (C2 fuel (JJ 3%nat)); [lia|apply local_len]|]. cbv beta iota. change KYBER_SSBYTES with 32%nat.
  destruct (memcmp_yields K' K 32 (proj1 HK1) (proj1 HKb)) as (e & Y & Ee). eapply yields_bind; [exact Y|]. cbv beta.
  eapply yields_bind; [apply yields_test|]. cbv beta.
  destruct (Z.eqb_spec e 0) as [E0|E0]; destruct HE as [[HE Hr]|[HE Hr]]; try tauto;
    [replace r with 1 by lia|replace r with 0 by lia]; apply yields_ret.
Qed.
Lemma first_nonzero_pred p i : first_nonzero f p (Datatypes.S i) -> f p = 0 /\ first_nonzero f (p + 1) i.
Proof.
  intros [N Z0]. split; [specialize (Z0 0%nat ltac:(lia)); now rewrite Nat.add_0_r in Z0|].
  split; [now replace (p + 1 + i)%nat with (p + Datatypes.S i)%nat by lia|].
  intros j Hj. replace (p + 1 + j)%nat with (p + Datatypes.S j)%nat by lia. apply Z0. lia.
Qed.
Lemma draw_total i : forall tries p s b (D : nat -> list nat -> Prop), first_nonzero f p i -> (i < tries)%nat -> length b = 1%nat ->
  (exists l, D i l) -> rdy R (draws f p D) p s ->
  exists s', yields (draw_nonzero rb tries s b) (f (p + i)%nat, s') /\ rdy R (D i) (p + i + 1) s'.
Proof.
  induction i as [|i IH]; intros tries p s b D F Ht Lb HN HR; (destruct tries as [|tries]; [lia|]); cbn [draw_nonzero].
  - rewrite Nat.add_0_r. destruct F as [F _]. rewrite Nat.add_0_r in F.
    assert (HR1 : rdy R (req 1 (D 0%nat)) p s).
    { apply (rdy_sub R _ _ _ _ HR); [destruct HN as [l Hl]; now exists (1%nat :: l), l|].
      intros ? (l & -> & Hl). right. exists 0%nat, l. split; [split; [now rewrite Nat.add_0_r|intros; lia]|]. split; [exact Hl|reflexivity]. }
    destruct (rb_total 1 (D 0%nat) p s b HR1 Lb) as (s1 & Y & R1). exists s1. split; [|exact R1].
    eapply yields_bind; [exact Y|]. cbv beta iota. cbn [piece seq map]. eapply yields_bind; [apply yields_aget; cbn; lia|]. cbn [nth].
    eapply yields_bind; [apply yields_test|]. apply Z.eqb_neq in F. rewrite F. apply yields_ret.
  - apply first_nonzero_pred in F as [F0 F].
    assert (HR1 : rdy R (req 1 (draws f (p + 1) (fun i => D (Datatypes.S i)))) p s).
    { apply (rdy_sub R _ _ _ _ HR).
      - exists [1%nat], []. split; [reflexivity|]. left. exists 0%nat. split; [intros j Hj; lia|reflexivity].
      - intros ? (l & -> & [(i' & Z0 & ->)|(i' & l' & F' & Hl & ->)]).
        + left. exists (Datatypes.S i'). split; [|reflexivity]. intros [|j] Hj; [now rewrite Nat.add_0_r|].
          replace (p + Datatypes.S j)%nat with (p + 1 + j)%nat by lia. apply Z0. lia.
        + right. exists (Datatypes.S i'), l'. split; [now apply first_nonzero_S|]. split; [exact Hl|reflexivity]. }
    destruct (rb_total 1 _ p s b HR1 Lb) as (s1 & Y & R1).
    destruct (IH tries (p + 1)%nat s1 [f p] (fun i => D (Datatypes.S i)) F ltac:(lia) eq_refl HN R1) as (s2 & Y2 & R2).
    replace (p + 1 + i)%nat with (p + Datatypes.S i)%nat in * by lia. exists s2. split; [|exact R2].
    eapply yields_bind; [exact Y|]. cbv beta iota. cbn [piece seq map]. eapply yields_bind; [apply yields_aget; cbn; lia|]. cbn [nth].
    eapply yields_bind; [apply yields_test|]. rewrite F0. cbn [Z.eqb]. rewrite F0 in Y2. exact Y2.
Qed.
Lemma flipped_eq c i b c1 c2 : flipped c i b c1 -> flipped c i b c2 -> c1 = c2.
Proof.
  intros [L1 E1] [L2 E2]. apply nth_ext with (d := 0) (d' := 0); [lia|]. intros j _. now rewrite E1, E2.
Qed.
Lemma test_ct_total p i r : ct_result lv f p i r -> exists fuel0, forall fuel tries JJ (D : nat -> list nat -> Prop) s, (fuel0 <= fuel)%nat -> (i < tries)%nat ->
  (exists l, D i l) -> rdy R (draws f p (fun i => req 8 (req 64 (req 32 (D i))))) p s ->
  exists s', yields (test_invalid_ciphertext rb V lv fuel tries JJ s) (r, s') /\ rdy R (D i) (p + i + 105) s'.
Proof.
  intros (F & ek & dk & K & c & c' & X & Fl & K' & HD & HE).
  destruct (exchange_sizes _ _ _ _ _ X) as (He & Hd & HKb & Hc). pose proof (Decaps_internal_sizes _ _ _ _ HD) as HK1.
  assert (Hpos : (Z.to_nat (position_at f (p + i + 1) mod Z.of_nat (ctbytes lv)) < length c)%nat).
  { destruct Hc as [-> _]. fold (ctbytes lv). assert (0 < Z.of_nat (ctbytes lv)) by (destruct lv; cbn; lia).
    pose proof (Z.mod_pos_bound (position_at f (p + i + 1)) (Z.of_nat (ctbytes lv)) ltac:(assumption)). lia. }
  destruct (flip_ok c _ (f (p + i)%nat) Hpos (proj2 Hc) (HB _)) as (c'' & Yc & Fl' & Hc'). rewrite (flipped_eq _ _ _ _ _ Fl' Fl) in *. clear Fl'.
  rewrite (proj1 Hc) in Hc'.
  destruct (exchange_total _ _ _ _ _ X) as (f1 & C1). destruct (dec_total c' dk K' Hc' Hd HD) as (f2 & C2).
  exists (Nat.max f1 f2). intros fuel tries JJ D s Hf Ht HN HR. unfold test_invalid_ciphertext.
  assert (HN' : exists l, (fun i => req 8 (req 64 (req 32 (D i)))) i l).
  { destruct HN as [l Hl]. exists (8 :: 64 :: 32 :: l)%nat, (64 :: 32 :: l)%nat. split; [reflexivity|]. exists (32 :: l)%nat. split; [reflexivity|]. exists l. now split. }
  destruct (draw_total i tries p s (@local (JJ 0%nat) 1) _ F Ht (local_len _ _) HN' HR) as (s0 & Y0 & R0).
  destruct (rb_total 8 _ _ s0 (@local (JJ 0%nat) 8) R0 (local_len _ _)) as (s0' & Y0' & R0').
  replace (p + i + 1 + 8)%nat with (p + i + 9)%nat in R0' by lia.
  destruct (C1 fuel (JJ 1%nat) (JJ 2%nat) (D i) s0' (pk_ lv (JJ 0%nat)) (sk_ lv (JJ 0%nat)) (ct_ lv (JJ 0%nat)) (ss_ (JJ 0%nat))) as (s1 & s2 & Y1 & Y2 & R2);
    [lia|exact R0'|apply local_len|apply local_len|apply local_len|apply local_len|].
  exists s2. replace (p + i + 105)%nat with (p + i + 9 + 96)%nat by lia. split; [|exact R2].
  eapply yields_bind; [exact Y0|]. cbv beta iota. eapply yields_bind; [exact Y0'|]. cbv beta iota zeta. rewrite le_value_piece.
  eapply yields_bind; [exact Y1|]. cbv beta iota. eapply yields_bind; [exact Y2|]. cbv beta iota. fold (ctbytes lv).
  set (pos := Z.to_nat (position_at f (p + i + 1) mod Z.of_nat (ctbytes lv))) in *.
  assert (Hbind : forall B (g : list Z -> res B), (x <- aget c pos ;; ct <- aset c pos (u8 (Z.lxor x (f (p + i)%nat))) ;; g ct) =
    bind (x <- aget c pos ;; aset c pos (u8 (Z.lxor x (f (p + i)%nat)))) g).
  { intros. unfold bind. destruct (aget c pos) as [v T|u| |]; try reflexivity. destruct (aset c pos (u8 (Z.lxor v (f (p + i)%nat)))) as [w T'|u| |]; try reflexivity.
    destruct (g w); try reflexivity. now rewrite app_assoc. }
  rewrite Hbind. eapply yields_bind; [exact Yc|]. cbv beta.
  eapply yields_bind; [apply (C2 fuel (JJ 3%nat)); [lia|apply local_len]|]. cbv beta iota. change KYBER_SSBYTES with 32%nat.
  destruct (memcmp_yields K' K 32 (proj1 HK1) (proj1 HKb)) as (e & Y & Ee). eapply yields_bind; [exact Y|]. cbv beta.
  eapply yields_bind; [apply yields_test|]. cbv beta.
  destruct (Z.eqb_spec e 0) as [E0|E0]; destruct HE as [[HE Hr]|[HE Hr]]; try tauto;
    [replace r with 1 by lia|replace r with 0 by lia]; apply yields_ret.
Qed.
Lemma results_bits p q i r1 r2 r3 : keys_result lv f p r1 -> sk_result lv f q r2 -> ct_result lv f (q + 96 + skbytes lv) i r3 ->
  (Z.lor (Z.lor r1 r2) r3 = 0 <-> r1 = 0 /\ r2 = 0 /\ r3 = 0).
Proof.
  intros K1 K2 K3.
  assert (B1 : r1 = 0 \/ r1 = 1) by (destruct K1 as (ek & dk & K & c & _ & A); exact (agree_bit _ _ _ _ _ A)).
  assert (B2 : r2 = 0 \/ r2 = 1) by (destruct K2 as (ek & dk & K & c & _ & A); apply agree_bit in A; lia).
  assert (B3 : r3 = 0 \/ r3 = 1) by (destruct K3 as (_ & ek & dk & K & c & c' & _ & _ & A); apply agree_bit in A; lia).
  destruct B1 as [-> | ->], B2 as [-> | ->], B3 as [-> | ->]; cbn; lia.
Qed.
Lemma round_total p n i r1 r2 r3 : keys_result lv f p r1 -> sk_result lv f (p + 96) r2 -> ct_result lv f (p + 192 + skbytes lv) i r3 ->
  exists fuel0 tries0, forall fuel tries JJ s, (fuel0 <= fuel)%nat -> (tries0 <= tries)%nat -> rdy R (demand f lv (Datatypes.S n) p) p s ->
  exists s', rdy R (demand f lv n (p + 192 + skbytes lv + i + 105)) (p + 192 + skbytes lv + i + 105) s' /\
    forall v, yields (if negb (Z.lor (Z.lor r1 r2) r3 =? 0) then ret (1, s') else test_kyber_main rb V lv fuel tries n JJ s') v ->
    yields (test_kyber_main rb V lv fuel tries (Datatypes.S n) JJ s) v.
Proof.
  intros K1 K2 K3. destruct (test_keys_total _ _ K1) as (f1 & C1). destruct (test_sk_total _ _ K2) as (f2 & C2). destruct (test_ct_total _ _ _ K3) as (f3 & C3).
  exists (Nat.max f1 (Nat.max f2 f3)), (Datatypes.S i). intros fuel tries JJ s Hf Ht HR. cbn [demand] in HR.
  destruct (C1 fuel (JJ (Datatypes.S n) 0%nat) _ s ltac:(lia) HR) as (s1 & Y1 & R1).
  destruct (C2 fuel (JJ (Datatypes.S n) 1%nat) _ s1 ltac:(lia) R1) as (s2 & Y2 & R2).
  replace (p + 96 + 96 + skbytes lv)%nat with (p + 192 + skbytes lv)%nat in R2 by lia.
  destruct (C3 fuel tries (JJ (Datatypes.S n) 2%nat) (fun i => demand f lv n (p + 192 + skbytes lv + i + 105)) s2 ltac:(lia) ltac:(lia)) as (s3 & Y3 & R3);
    [apply demand_some|exact R2|].
  exists s3. split; [exact R3|]. intros v Hv. cbn [test_kyber_main].
  eapply yields_bind; [apply yields_test|]. cbv beta. eapply yields_bind; [exact Y1|]. cbv beta iota.
  eapply yields_bind; [exact Y2|]. cbv beta iota zeta. eapply yields_bind; [exact Y3|]. cbv beta iota zeta.
  eapply yields_bind; [apply yields_test|]. cbv beta. exact Hv.
Qed.
Lemma test_main_total : forall p n r, test_run lv f p n r -> exists fuel0 tries0, forall fuel tries JJ s,
  (fuel0 <= fuel)%nat -> (tries0 <= tries)%nat -> rdy R (demand f lv n p) p s ->
  exists s', yields (test_kyber_main rb V lv fuel tries n JJ s) (r, s').
Proof.
  intros p n r X. induction X as [p|p n r1 r2 i r3 K1 K2 K3 N|p n i r K1 K2 K3 _ IH].
  - exists 0%nat, 0%nat. intros fuel tries JJ s _ _ _. exists s. cbn [test_kyber_main]. eapply yields_bind; [apply yields_test|]. apply yields_ret.
  - destruct (round_total p n i r1 r2 r3 K1 K2 K3) as (f0 & t0 & C). exists f0, t0. intros fuel tries JJ s Hf Ht HR.
    destruct (C fuel tries JJ s Hf Ht HR) as (s' & _ & C'). exists s'. apply C'.
    replace (p + 192 + skbytes lv)%nat with (p + 96 + 96 + skbytes lv)%nat in K3 by lia.
    pose proof (results_bits p (p + 96) i r1 r2 r3 K1 K2 K3). destruct (Z.eqb_spec (Z.lor (Z.lor r1 r2) r3) 0) as [E|E]; [tauto|]. apply yields_ret.
  - destruct (round_total p n i 0 0 0 K1 K2 K3) as (f0 & t0 & C). destruct IH as (f1 & t1 & IH). exists (Nat.max f0 f1), (Nat.max t0 t1).
    intros fuel tries JJ s Hf Ht HR. destruct (C fuel tries JJ s ltac:(lia) ltac:(lia) HR) as (s' & R' & C').
    destruct (IH fuel tries JJ s' ltac:(lia) ltac:(lia) R') as (s'' & Y). exists s''. apply C'. cbn [Z.lor Z.eqb negb]. exact Y.
Qed.
End Complete.
End Source.
