(** * C66 as stated, and its case *)
From Coq Require Import ZArith List Lia Bool.
From Verif Require Import CMonad WP Levels Model_Params Model_Kem Model_SharedKey Spec_FIPS202 Spec_FIPS203 Vocab Vocab_Rng Vocab_Buffers Vocab_Overlap
  Proof_Base Proof_Vocab Proof_Hash Proof_GenMatrix Proof_Indcpa Proof_Keypair Proof_Encrypt Proof_Fuel Proof_Kem Proof_Api Proof_Shared Proof_SharedKey
  Proof_Buffers Proof_PropUtil Proof_PropKem Run_Kem Proof_Demo Proof_Cases.
Import ListNotations.
Open Scope Z_scope.
Local Opaque SHA3_256 SHA3_512 SHAKE256 SHAKE128.
Local Opaque crypto_kem_keypair_derand crypto_kem_keypair_derand_shared.

Lemma sub_splice_inside {A} (x a : list A) o p m : (o + length a <= length x)%nat -> (o <= p)%nat -> (p + m <= o + length a)%nat ->
  sub (splice x o a) p m = sub a (p - o) m.
Proof.
  intros Ho Hp Hm. pose proof (sub_splice_same x o a Ho) as E. rewrite <- E at 2. rewrite sub_sub by lia. f_equal. lia.
Qed.
Lemma SK_sum lv : KYBER_SECRETKEYBYTES lv = (KYBER_INDCPA_SECRETKEYBYTES lv + (KYBER_PUBLICKEYBYTES lv + (32 + 32)))%nat.
Proof. unfold KYBER_SECRETKEYBYTES, KYBER_PUBLICKEYBYTES. change KYBER_SYMBYTES with 32%nat. lia. Qed.

Section Fix.
Context (lv : level) (mem : list Z) (po sko co : nat) (ek dk : list Z).
Context (Hp : (po + KYBER_PUBLICKEYBYTES lv <= length mem)%nat).
Context (Hs : (sko + KYBER_SECRETKEYBYTES lv <= length mem)%nat).
Context (Hc : (co + 64 <= length mem)%nat).
Context (Lek : length ek = KYBER_PUBLICKEYBYTES lv).
Context (Ldk : length dk = KYBER_INDCPA_SECRETKEYBYTES lv).
Context (Ap : apart po (KYBER_PUBLICKEYBYTES lv) sko (KYBER_SECRETKEYBYTES lv)).
Context (Az : apart (co + 32) 32 (sko + (KYBER_SECRETKEYBYTES lv - 32)) 32).

Definition final (z : list Z) : list Z := splice (splice mem po ek) sko (dk ++ ek ++ H ek ++ z).

Lemma LHek : length (H ek) = 32%nat. Proof. apply SHA3_256_length. Qed.
Lemma before_z_length : length (before_z lv mem po sko ek dk) = length mem.
Proof using All.
  pose proof (SK_sum lv) as ES. pose proof LHek as LH. unfold before_z.
  assert (L1 : length (splice mem sko dk) = length mem) by (apply splice_length; lia).
  assert (L2 : length (splice (splice mem sko dk) po ek) = length mem) by (rewrite splice_length; lia).
  rewrite splice_length; rewrite splice_length; lia.
Qed.
Lemma put_z z : length z = 32%nat -> splice (before_z lv mem po sko ek dk) (sko + (KYBER_SECRETKEYBYTES lv - 32)) z = final z.
Proof using All.
  intros Lz. pose proof (SK_sum lv) as ES. pose proof LHek as LH. unfold before_z, final.
  assert (C : splice (splice mem sko dk) po ek = splice (splice mem po ek) sko dk).
  { destruct Ap as [A|A]; [symmetry|]; apply splice_comm; lia. }
  rewrite C. assert (L1 : length (splice mem po ek) = length mem) by (apply splice_length; lia).
  revert L1. generalize (splice mem po ek) as m0. intros m0 L1.
  rewrite (splice_splice_next m0 sko dk ek) by lia.
  rewrite (splice_splice_next m0 sko (dk ++ ek) (H ek)) by (rewrite ?app_length; lia).
  rewrite (splice_splice_next m0 sko ((dk ++ ek) ++ H ek) z) by (rewrite ?app_length; lia).
  now rewrite <- !app_assoc.
Qed.
Lemma read_z z : length z = 32%nat -> sub (before_z lv mem po sko ek dk) (co + 32) 32 = sub (final z) (co + 32) 32.
Proof using All.
  intros Lz. rewrite <- (put_z z Lz). symmetry. pose proof (SK_sum lv) as ES. apply sub_splice_apart; rewrite ?before_z_length, Lz; [lia|].
  unfold apart in Az. lia.
Qed.
Lemma reput_z z z' : length z = 32%nat -> length z' = 32%nat -> splice (final z) (sko + (KYBER_SECRETKEYBYTES lv - 32)) z' = final z'.
Proof using All.
  intros L L'. rewrite <- (put_z z L), <- (put_z z' L'). pose proof (SK_sum lv) as ES. apply splice_same; [rewrite before_z_length|]; lia.
Qed.
Lemma final_length z : length z = 32%nat -> length (final z) = length mem.
Proof using All.
  intros L. pose proof (SK_sum lv) as ES. pose proof LHek as LH. unfold final.
  rewrite splice_length; rewrite splice_length; rewrite ?app_length; lia.
Qed.
Lemma z_outside z : length z = 32%nat -> apart (co + 32) 32 po (KYBER_PUBLICKEYBYTES lv) -> apart (co + 32) 32 sko (KYBER_SECRETKEYBYTES lv) ->
  sub (final z) (co + 32) 32 = sub mem (co + 32) 32.
Proof using All.
  intros L A1 A2. pose proof (SK_sum lv) as ES. pose proof LHek as LH. unfold final, apart in *.
  rewrite sub_splice_apart by (rewrite ?splice_length, ?app_length; lia). apply sub_splice_apart; lia.
Qed.
Lemma z_in_pk z : length z = 32%nat -> (po <= co + 32)%nat -> (co + 64 <= po + KYBER_PUBLICKEYBYTES lv)%nat ->
  sub (final z) (co + 32) 32 = sub ek (co + 32 - po) 32.
Proof using All.
  intros L A1 A2. pose proof (SK_sum lv) as ES. pose proof LHek as LH. unfold final, apart in *.
  rewrite sub_splice_apart by (rewrite ?splice_length, ?app_length; lia). apply sub_splice_inside; lia.
Qed.
End Fix.

Section WithJunk.
Context {JJ : Junk}.

Lemma shared_defined lv fuel mem po sko co : all_bytes mem ->
  (po + KYBER_PUBLICKEYBYTES lv <= length mem)%nat -> (sko + KYBER_SECRETKEYBYTES lv <= length mem)%nat -> (co + 64 <= length mem)%nat ->
  apart po (KYBER_PUBLICKEYBYTES lv) sko (KYBER_SECRETKEYBYTES lv) -> apart (co + 32) 32 (sko + (KYBER_SECRETKEYBYTES lv - 32)) 32 ->
  same_result (crypto_kem_keypair_derand_shared lv fuel mem po sko co)
    (with_value (fun '(ek, dk, r) =>
        let m := overwrite (overwrite mem po ek) sko dk in
        (overwrite m (sko + (KYBER_SECRETKEYBYTES lv - 32)) (region m (co + 32) 32), r))
       (crypto_kem_keypair_derand lv fuel (region mem po (KYBER_PUBLICKEYBYTES lv)) (region mem sko (KYBER_SECRETKEYBYTES lv)) (region mem co 64))).
Proof.
  intros Am Hp Hs Hc Ap Az. pose proof (all_bytes_bytes _ Am) as Bm.
  change (region mem) with (sub mem) in *.
  destruct (enough_all_dec lv fuel (keygen_rho (PS lv) (sub mem co 32))) as [HE|HE].
  - destruct (keypair_shared_run lv fuel mem po sko co Bm Hp Hs Hc HE) as (ek & dk & T & E1 & Eek & Lek & Ldk & _ & _ & X).
    pose proof (SK_sum lv) as ES.
    destruct X as [T' E2]; [unfold apart in *; lia|unfold apart in *; lia|].
    rewrite E1, E2. cbn [with_value same_result]. cbv zeta. change overwrite with (@splice Z). unfold region. fold (H ek).
    set (z0 := sub mem (co + 32) 32). assert (L0 : length z0 = 32%nat) by (apply sub_length; lia).
    change (splice (splice mem po ek) sko (dk ++ ek ++ H ek ++ z0)) with (final mem po sko ek dk z0).
    change (firstn 32 (skipn (co + 32) (final mem po sko ek dk z0))) with (sub (final mem po sko ek dk z0) (co + 32) 32).
    pose proof (final_length lv mem po sko co ek dk Hp Hs Hc Lek Ldk Ap Az z0 L0) as LF.
    rewrite (read_z lv mem po sko co ek dk Hp Hs Hc Lek Ldk Ap Az z0 L0).
    assert (Lz' : length (sub (final mem po sko ek dk z0) (co + 32) 32) = 32%nat) by (apply sub_length; lia).
    now rewrite (put_z lv mem po sko co ek dk Hp Hs Hc Lek Ldk Ap Az _ Lz'), (reput_z lv mem po sko co ek dk Hp Hs Hc Lek Ldk Ap Az z0 _ L0 Lz').
  - rewrite keypair_derand_timeout; [|now apply sub_length|now apply bnd_sub|rewrite sub_sub, Nat.add_0_r by lia; exact HE].
    rewrite shared_key_split, shared_indcpa_timeout; [exact I|lia|exact Bm|exact HE].
Qed.

Lemma shared_separate lv fuel mem po sko co : all_bytes mem ->
  (po + KYBER_PUBLICKEYBYTES lv <= length mem)%nat -> (sko + KYBER_SECRETKEYBYTES lv <= length mem)%nat -> (co + 64 <= length mem)%nat ->
  apart po (KYBER_PUBLICKEYBYTES lv) sko (KYBER_SECRETKEYBYTES lv) ->
  apart (co + 32) 32 po (KYBER_PUBLICKEYBYTES lv) -> apart (co + 32) 32 sko (KYBER_SECRETKEYBYTES lv) ->
  same_result (crypto_kem_keypair_derand_shared lv fuel mem po sko co)
    (with_value (fun '(ek, dk, r) => (overwrite (overwrite mem po ek) sko dk, r))
       (crypto_kem_keypair_derand lv fuel (region mem po (KYBER_PUBLICKEYBYTES lv)) (region mem sko (KYBER_SECRETKEYBYTES lv)) (region mem co 64))).
Proof.
  intros Am Hp Hs Hc Ap A1 A2. pose proof (SK_sum lv) as ES.
  assert (Az : apart (co + 32) 32 (sko + (KYBER_SECRETKEYBYTES lv - 32)) 32) by (unfold apart in *; lia).
  pose proof (all_bytes_bytes _ Am) as Bm. change (region mem) with (sub mem) in *.
  destruct (enough_all_dec lv fuel (keygen_rho (PS lv) (sub mem co 32))) as [HE|HE].
  - destruct (keypair_shared_run lv fuel mem po sko co Bm Hp Hs Hc HE) as (ek & dk & T & E1 & Eek & Lek & Ldk & _ & _ & X).
    destruct X as [T' E2]; [unfold apart in *; lia|unfold apart in *; lia|].
    rewrite E1, E2. cbn [with_value same_result]. change overwrite with (@splice Z). fold (H ek).
    set (z0 := sub mem (co + 32) 32). assert (L0 : length z0 = 32%nat) by (apply sub_length; lia).
    rewrite (read_z lv mem po sko co ek dk Hp Hs Hc Lek Ldk Ap Az z0 L0).
    rewrite (z_outside lv mem po sko co ek dk Hp Hs Hc Lek Ldk Ap Az z0 L0 A1 A2). fold z0.
    now rewrite (put_z lv mem po sko co ek dk Hp Hs Hc Lek Ldk Ap Az z0 L0).
  - rewrite keypair_derand_timeout; [|now apply sub_length|now apply bnd_sub|rewrite sub_sub, Nat.add_0_r by lia; exact HE].
    rewrite shared_key_split, shared_indcpa_timeout; [exact I|lia|exact Bm|exact HE].
Qed.

Lemma shared_coins_in_pk lv fuel mem po sko co : all_bytes mem ->
  (po + KYBER_PUBLICKEYBYTES lv <= length mem)%nat -> (sko + KYBER_SECRETKEYBYTES lv <= length mem)%nat -> (co + 64 <= length mem)%nat ->
  apart po (KYBER_PUBLICKEYBYTES lv) sko (KYBER_SECRETKEYBYTES lv) ->
  (po <= co + 32)%nat -> (co + 64 <= po + KYBER_PUBLICKEYBYTES lv)%nat ->
  same_result (crypto_kem_keypair_derand_shared lv fuel mem po sko co)
    (with_value (fun '(ek, dk, r) =>
        (overwrite (overwrite mem po ek) sko (firstn (KYBER_SECRETKEYBYTES lv - 32) dk ++ region ek (co + 32 - po) 32), r))
       (crypto_kem_keypair_derand lv fuel (region mem po (KYBER_PUBLICKEYBYTES lv)) (region mem sko (KYBER_SECRETKEYBYTES lv)) (region mem co 64))).
Proof.
  intros Am Hp Hs Hc Ap A1 A2. pose proof (SK_sum lv) as ES.
  assert (Az : apart (co + 32) 32 (sko + (KYBER_SECRETKEYBYTES lv - 32)) 32) by (unfold apart in *; lia).
  pose proof (all_bytes_bytes _ Am) as Bm. change (region mem) with (sub mem) in *.
  destruct (enough_all_dec lv fuel (keygen_rho (PS lv) (sub mem co 32))) as [HE|HE].
  - destruct (keypair_shared_run lv fuel mem po sko co Bm Hp Hs Hc HE) as (ek & dk & T & E1 & Eek & Lek & Ldk & _ & _ & X).
    destruct X as [T' E2]; [unfold apart in *; lia|unfold apart in *; lia|].
    rewrite E1, E2. cbn [with_value same_result]. change overwrite with (@splice Z). fold (H ek).
    change (region ek) with (sub ek).
    set (z0 := sub mem (co + 32) 32). assert (L0 : length z0 = 32%nat) by (apply sub_length; lia).
    rewrite (read_z lv mem po sko co ek dk Hp Hs Hc Lek Ldk Ap Az z0 L0).
    rewrite (z_in_pk lv mem po sko co ek dk Hp Hs Hc Lek Ldk Ap Az z0 L0 A1 A2).
    assert (L1 : length (sub ek (co + 32 - po) 32) = 32%nat) by (apply sub_length; lia).
    rewrite (put_z lv mem po sko co ek dk Hp Hs Hc Lek Ldk Ap Az _ L1). unfold final.
    pose proof (LHek ek) as LH.
    assert (E3 : firstn (KYBER_SECRETKEYBYTES lv - 32) (dk ++ ek ++ H ek ++ z0) = dk ++ ek ++ H ek).
    { rewrite !app_assoc, <- (app_assoc dk). replace (KYBER_SECRETKEYBYTES lv - 32)%nat with (length (dk ++ ek ++ H ek)) by (rewrite !app_length; lia).
      rewrite app_assoc, firstn_app, firstn_all, Nat.sub_diag, firstn_O. apply app_nil_r. }
    rewrite E3. now rewrite <- !app_assoc.
  - rewrite keypair_derand_timeout; [|now apply sub_length|now apply bnd_sub|rewrite sub_sub, Nat.add_0_r by lia; exact HE].
    rewrite shared_key_split, shared_indcpa_timeout; [exact I|lia|exact Bm|exact HE].
Qed.

Lemma shared_undefined lv fuel mem po sko co v T : all_bytes mem ->
  (po + KYBER_PUBLICKEYBYTES lv <= length mem)%nat -> (sko + KYBER_SECRETKEYBYTES lv <= length mem)%nat -> (co + 64 <= length mem)%nat ->
  ~ apart po (KYBER_PUBLICKEYBYTES lv) (sko + KYBER_INDCPA_SECRETKEYBYTES lv) (KYBER_PUBLICKEYBYTES lv) \/
    ~ apart (co + 32) 32 (sko + (KYBER_SECRETKEYBYTES lv - 32)) 32 ->
  crypto_kem_keypair_derand lv fuel (region mem po (KYBER_PUBLICKEYBYTES lv)) (region mem sko (KYBER_SECRETKEYBYTES lv)) (region mem co 64) = Ok v T ->
  crypto_kem_keypair_derand_shared lv fuel mem po sko co = UB Overlap.
Proof.
  intros Am Hp Hs Hc HN E. pose proof (all_bytes_bytes _ Am) as Bm. change (region mem) with (sub mem) in *.
  destruct (enough_all_dec lv fuel (keygen_rho (PS lv) (sub mem co 32))) as [HE|HE].
  - destruct (keypair_shared_run lv fuel mem po sko co Bm Hp Hs Hc HE) as (ek & dk & T' & E1 & Eek & Lek & Ldk & X1 & X2 & _).
    destruct (le_lt_dec (sko + KYBER_INDCPA_SECRETKEYBYTES lv + KYBER_PUBLICKEYBYTES lv) po);
    [|destruct (le_lt_dec (po + KYBER_PUBLICKEYBYTES lv) (sko + KYBER_INDCPA_SECRETKEYBYTES lv))].
    + apply X2; unfold apart in *; lia.
    + apply X2; unfold apart in *; lia.
    + apply X1; unfold apart in *; lia.
  - rewrite keypair_derand_timeout in E; [discriminate E|now apply sub_length|now apply bnd_sub|rewrite sub_sub, Nat.add_0_r by lia; exact HE].
Qed.
End WithJunk.

(** ** Cases *)
Lemma demo_co_bytes : byte_array 64 (demo_d ++ demo_z).
Proof.
  split; [rewrite app_length, (proj1 demo_d_bytes), (proj1 demo_z_bytes); reflexivity|].
  apply all_bytes_app; [apply demo_d_bytes|apply demo_z_bytes].
Qed.
Lemma demo_enough : enough_all Kyber512 2 (keygen_rho (PS Kyber512) demo_d).
Proof.
  destruct demo as (A & ek & dk & c & K & T1 & T2 & T3 & T4 & HA & E1 & _).
  destruct (enough_all_dec Kyber512 2 (keygen_rho (PS Kyber512) demo_d)) as [HE|HE]; [exact HE|exfalso].
  rewrite (keypair_derand_timeout Kyber512 2 no_junk) in E1; [discriminate E1|exact (proj1 demo_co_bytes)|apply all_bytes_bytes, demo_co_bytes|].
  rewrite sub_app_l by (exact (proj1 demo_d_bytes)). exact HE.
Qed.
Definition zs (m : nat) : list Z := repeat 0 m.
Lemma zs_bytes m : all_bytes (zs m).
Proof. intros x Hx. apply repeat_spec in Hx. subst x. split; discriminate || reflexivity. Qed.
Lemma zs_length m : length (zs m) = m. Proof. apply repeat_length. Qed.
Local Opaque zs.
Lemma sizes512 : KYBER_PUBLICKEYBYTES Kyber512 = 800%nat /\ KYBER_SECRETKEYBYTES Kyber512 = 1632%nat /\ KYBER_INDCPA_SECRETKEYBYTES Kyber512 = 768%nat.
Proof. vm_compute. repeat split. Qed.
Local Opaque KYBER_PUBLICKEYBYTES KYBER_SECRETKEYBYTES KYBER_INDCPA_SECRETKEYBYTES.
Lemma sub_prefix {A} (a b : list A) o m : (o + m <= length a)%nat -> sub (a ++ b) o m = sub a o m.
Proof.
  intros Hm. unfold sub. rewrite skipn_app, firstn_app, skipn_length.
  replace (m - (length a - o))%nat with 0%nat by lia. rewrite firstn_O. apply app_nil_r.
Qed.

Lemma run_in_pk z : byte_array 32 z -> exists ek dk T T',
  @crypto_kem_keypair_derand no_junk Kyber512 2 (region (demo_d ++ z ++ zs 2368) 0 800) (region (demo_d ++ z ++ zs 2368) 800 1632)
    (region (demo_d ++ z ++ zs 2368) 0 64) = Ok (ek, dk ++ ek ++ H ek ++ z, 0) T /\
  ek = fst (K_PKE_KeyGen (PS Kyber512) (matrix Kyber512 2 (keygen_rho (PS Kyber512) demo_d) false) demo_d) /\
  length ek = 800%nat /\ length dk = 768%nat /\
  @crypto_kem_keypair_derand_shared no_junk Kyber512 2 (demo_d ++ z ++ zs 2368) 0 800 0 = Ok (ek ++ dk ++ ek ++ H ek ++ region ek 32 32, 0) T'.
Proof.
  intros [Lz Bz]. destruct sizes512 as (C2 & C3 & C4). pose proof (proj1 demo_d_bytes) as Ld.
  set (mem := demo_d ++ z ++ zs 2368).
  assert (Lm : length mem = 2432%nat) by (unfold mem; rewrite !app_length, zs_length; lia).
  assert (Am : all_bytes mem).
  { unfold mem. apply all_bytes_app; [apply demo_d_bytes|]. apply all_bytes_app; [exact Bz|apply zs_bytes]. }
  assert (Rd : sub mem 0 32 = demo_d) by (unfold mem; now apply sub_app_l).
  assert (Rz : sub mem (0 + 32) 32 = z).
  { cbn [Nat.add]. unfold mem. rewrite app_assoc. rewrite sub_prefix by (rewrite app_length; lia). now apply sub_app_r. }
  pose proof demo_enough as HE. rewrite <- Rd in HE.
  destruct (@keypair_shared_run no_junk Kyber512 2 mem 0 800 0 (all_bytes_bytes _ Am)) as (ek & dk & T & E1 & Eek & Lek & Ldk & _ & _ & _);
    [rewrite C2; lia|rewrite C3; lia|lia|exact HE|].
  pose proof (@shared_coins_in_pk no_junk Kyber512 2 mem 0 800 0 Am) as X.
  rewrite C2, C3 in X. specialize (X ltac:(lia) ltac:(lia) ltac:(lia) ltac:(left; lia) ltac:(lia) ltac:(lia)).
  rewrite C2, C3 in E1. change (region mem) with (sub mem) in *. rewrite E1 in X. cbn [with_value] in X.
  match type of X with same_result ?run _ => destruct run as [v1 T5| | |] eqn:Q1; cbn [same_result] in X; try contradiction; subst v1 end.
  rewrite Rz in *. exists ek, dk, T, T5. split; [exact E1|]. rewrite Rd in Eek. split; [exact Eek|]. split; [congruence|]. split; [congruence|]. f_equal. f_equal.
  pose proof (LHek ek) as LH. change overwrite with (@splice Z). change (0 + 32 - 0)%nat with 32%nat.
  assert (E3 : firstn (1632 - 32) (dk ++ ek ++ H ek ++ z) = dk ++ ek ++ H ek).
  { replace (1632 - 32)%nat with (length (dk ++ ek ++ H ek)) by (rewrite !app_length; lia).
    replace (dk ++ ek ++ H ek ++ z) with ((dk ++ ek ++ H ek) ++ z) by (now rewrite <- !app_assoc).
    rewrite firstn_app, firstn_all, Nat.sub_diag, firstn_O. apply app_nil_r. }
  rewrite E3. assert (L1 : length (region ek 32 32) = 32%nat) by (apply sub_length; lia).
  rewrite (splice_splice_next mem 0 ek) by (rewrite ?app_length; lia).
  rewrite splice_full by (rewrite !app_length; lia). now rewrite <- !app_assoc.
Qed.

Lemma harmless_refuted : exists mem ek dk mem' T T', all_bytes mem /\ length mem = 2432%nat /\
  @crypto_kem_keypair_derand no_junk Kyber512 2 (region mem 0 800) (region mem 800 1632) (region mem 0 64) = Ok (ek, dk, 0) T /\
  @crypto_kem_keypair_derand_shared no_junk Kyber512 2 mem 0 800 0 = Ok (mem', 0) T' /\
  region mem' 0 800 = ek /\ region mem' 800 1632 <> dk.
Proof.
  assert (X : forall z, byte_array 32 z -> forall ek dk T T',
    @crypto_kem_keypair_derand no_junk Kyber512 2 (region (demo_d ++ z ++ zs 2368) 0 800) (region (demo_d ++ z ++ zs 2368) 800 1632)
      (region (demo_d ++ z ++ zs 2368) 0 64) = Ok (ek, dk ++ ek ++ H ek ++ z, 0) T ->
    length ek = 800%nat -> length dk = 768%nat ->
    @crypto_kem_keypair_derand_shared no_junk Kyber512 2 (demo_d ++ z ++ zs 2368) 0 800 0 = Ok (ek ++ dk ++ ek ++ H ek ++ region ek 32 32, 0) T' ->
    region ek 32 32 <> z -> exists mem ek dk mem' T T', all_bytes mem /\ length mem = 2432%nat /\
      @crypto_kem_keypair_derand no_junk Kyber512 2 (region mem 0 800) (region mem 800 1632) (region mem 0 64) = Ok (ek, dk, 0) T /\
      @crypto_kem_keypair_derand_shared no_junk Kyber512 2 mem 0 800 0 = Ok (mem', 0) T' /\
      region mem' 0 800 = ek /\ region mem' 800 1632 <> dk).
  { intros z [Lz Bz] ek dk T T' E1 Le Ld E2 NE. pose proof (LHek ek) as LH.
    assert (L1 : length (region ek 32 32) = 32%nat) by (apply sub_length; lia).
    eexists _, _, _, _, _, _. split; [|split; [|split; [exact E1|split; [exact E2|split]]]].
    - apply all_bytes_app; [apply demo_d_bytes|]. apply all_bytes_app; [exact Bz|apply zs_bytes].
    - rewrite !app_length, zs_length, (proj1 demo_d_bytes), Lz. reflexivity.
    - now apply sub_app_l.
    - change (region (ek ++ dk ++ ek ++ H ek ++ region ek 32 32)) with (sub (ek ++ dk ++ ek ++ H ek ++ region ek 32 32)).
      rewrite sub_app_r; [|exact Le|rewrite !app_length; lia]. intros E. do 3 apply app_inv_head in E. contradiction. }
  assert (B1 : byte_array 32 (zs 32)) by (split; [apply zs_length|apply zs_bytes]).
  destruct (run_in_pk demo_z demo_z_bytes) as (ek & dk & T & T' & E1 & Ee & Le & Ld & E2).
  destruct (list_eq_dec Z.eq_dec (region ek 32 32) demo_z) as [e|e]; [|exact (X _ demo_z_bytes _ _ _ _ E1 Le Ld E2 e)].
  destruct (run_in_pk (zs 32) B1) as (ek2 & dk2 & T2 & T2' & E3 & Ee2 & Le2 & Ld2 & E4).
  apply (X _ B1 _ _ _ _ E3 Le2 Ld2 E4). 
  rewrite Ee2, <- Ee, e. intros F. apply (f_equal (fun l => nth 0 l 0)) in F. discriminate F.
Qed.

Lemma keypair_again lv fuel (JJ : Junk) pk sk pk2 sk2 coins v T :
  length pk = KYBER_PUBLICKEYBYTES lv -> length sk = KYBER_SECRETKEYBYTES lv -> length pk2 = KYBER_PUBLICKEYBYTES lv -> length sk2 = KYBER_SECRETKEYBYTES lv ->
  byte_array 64 coins ->
  crypto_kem_keypair_derand lv fuel pk sk coins = Ok v T -> crypto_kem_keypair_derand lv fuel pk2 sk2 coins = Ok v T.
Proof.
  intros L1 L2 L3 L4 [Lm Bm] E. apply all_bytes_bytes in Bm.
  destruct (enough_all_dec lv fuel (keygen_rho (PS lv) (sub coins 0 32))) as [HE|HE].
  - destruct (keypair_derand_wp lv fuel _ HE) as [T' W].
    destruct (W JJ pk sk coins L1 L2 Lm Bm eq_refl) as (x & Ex & ->).
    destruct (W JJ pk2 sk2 coins L3 L4 Lm Bm eq_refl) as (y & Ey & ->). congruence.
  - rewrite (keypair_derand_timeout lv fuel JJ pk sk coins Lm Bm HE) in E. discriminate E.
Qed.

(** Coins behind the keys; the public key over its copy in the secret key; the coins over the last bytes of the secret key *)
Lemma case_keypair : exists ek dk T1 T2,
  @crypto_kem_keypair_derand no_junk Kyber512 2 (repeat 0 800) (repeat 0 1632) (demo_d ++ demo_z) = Ok (ek, dk, 0) T1 /\
  @crypto_kem_keypair_derand_shared no_junk Kyber512 2 (repeat 0 2432 ++ demo_d ++ demo_z) 0 800 2432 = Ok (ek ++ dk ++ demo_d ++ demo_z, 0) T2 /\
  @crypto_kem_keypair_derand_shared no_junk Kyber512 2 (repeat 0 2432 ++ demo_d ++ demo_z) 800 0 2432 = UB Overlap /\
  @crypto_kem_keypair_derand_shared no_junk Kyber512 2 (repeat 0 2432 ++ demo_d ++ demo_z) 0 864 2432 = UB Overlap.
Proof.
  destruct demo as (A & ek & dk & c & K & T1 & T2 & T3 & T4 & HA & E1 & _).
  destruct (secret_key_layout Kyber512 2 no_junk _ _ _ _ _ _ _ _ len_pk len_sk demo_d_bytes demo_z_bytes E1) as (Hek & Hdk & _).
  destruct sizes512 as (C2 & C3 & C4). change (repeat 0 2432) with (zs 2432). pose proof demo_co_bytes as Hco.
  assert (Lek : length ek = 800%nat) by (destruct Hek as [-> _]; vm_compute; reflexivity).
  assert (Ldk : length dk = 1632%nat) by (destruct Hdk as [-> _]; vm_compute; reflexivity).
  set (mem := zs 2432 ++ demo_d ++ demo_z).
  assert (Lm : length mem = 2496%nat) by (unfold mem; rewrite app_length, zs_length, (proj1 Hco); reflexivity).
  assert (Am : all_bytes mem) by (unfold mem; apply all_bytes_app; [apply zs_bytes|apply Hco]).
  assert (Rc : region mem 2432 64 = demo_d ++ demo_z).
  { change (region mem) with (sub mem). unfold mem. apply sub_app_r; [apply zs_length|apply Hco]. }
  assert (E : forall po sko, (po + 800 <= 2496)%nat -> (sko + 1632 <= 2496)%nat ->
    @crypto_kem_keypair_derand no_junk Kyber512 2 (region mem po 800) (region mem sko 1632) (region mem 2432 64) = Ok (ek, dk, 0) T1).
  { intros po sko H1 H2. rewrite Rc. refine (keypair_again Kyber512 2 no_junk _ _ _ _ _ _ _ len_pk len_sk _ _ Hco E1).
    - rewrite C2. change (region mem) with (sub mem). apply sub_length. lia.
    - rewrite C3. change (region mem) with (sub mem). apply sub_length. lia. }
  pose proof (@shared_separate no_junk Kyber512 2 mem 0 800 2432 Am) as X.
  rewrite C2, C3 in X. unfold apart in X. specialize (X ltac:(lia) ltac:(lia) ltac:(lia) ltac:(lia) ltac:(lia) ltac:(lia)).
  rewrite (E 0%nat 800%nat) in X by lia. cbn [with_value] in X.
  match type of X with same_result ?run _ => destruct run as [v1 T5| | |] eqn:Q1; cbn [same_result] in X; try contradiction; subst v1 end.
  exists ek, dk, T1, T5. split; [exact E1|]. split.
  { f_equal. f_equal. change overwrite with (@splice Z). rewrite (splice_splice_next mem 0 ek dk) by lia.
    unfold splice. rewrite firstn_O, app_length, Lek, Ldk. cbn [app]. rewrite <- app_assoc. apply (f_equal (fun t => ek ++ dk ++ t)).
    unfold mem. replace (0 + (800 + 1632))%nat with (length (zs 2432)) by (rewrite zs_length; reflexivity).
    rewrite skipn_app, skipn_all, Nat.sub_diag. reflexivity. }
  split.
  - apply (@shared_undefined no_junk Kyber512 2 mem 800 0 2432 (ek, dk, 0) T1 Am); rewrite ?C2, ?C3, ?C4; unfold apart; try lia.
    apply E; lia.
  - apply (@shared_undefined no_junk Kyber512 2 mem 0 864 2432 (ek, dk, 0) T1 Am); rewrite ?C2, ?C3, ?C4; unfold apart; try lia.
    apply E; lia.
Qed.
