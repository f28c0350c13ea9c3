(** * Key generation with overlapping buffers *)
From Coq Require Import ZArith List Lia Bool.
From Verif Require Import CMonad WP Modq Sums Levels Model_Params Model_Verify Model_Symmetric Model_Fips202 Model_NTT Model_Poly Model_Polyvec
  Model_Indcpa Model_Kem Model_SharedKey
  Spec_FIPS202 Spec_FIPS203 Vocab Vocab_Rng Vocab_Buffers Vocab_Overlap Proof_Base Proof_Vocab Proof_Hash Proof_Symmetric Proof_Verify
  Proof_NTT Proof_NTTSpec Proof_Poly Proof_Polyvec Proof_Compress Proof_Codec Proof_PolyvecCodec Proof_CBD
  Proof_Bits Proof_GenMatrix Proof_Indcpa Proof_Keypair Proof_Encrypt Proof_Fuel Proof_Kem Proof_Api Proof_Shared.
Import ListNotations.
Open Scope Z_scope.
Open Scope cmonad_scope.
Local Opaque SHA3_256 SHA3_512 SHAKE256 SHAKE128.

Definition shared_rest `{Junk} (lv : level) (mem : list Z) (po sko : nat) (buf : list Z) (a : list polyvec) : res (list Z) :=
  '(skpv, nonce) <- getnoise_vec_eta1 lv (local_polyvec lv) buf KYBER_SYMBYTES 0 ;;
  '(e, nonce) <- getnoise_vec_eta1 lv (local_polyvec lv) buf KYBER_SYMBYTES nonce ;;
  skpv <- polyvec_ntt lv skpv ;;
  e <- polyvec_ntt lv e ;;
  pkpv <- for_ (KYBER_K lv) 0 (fun i pkpv =>
    p <- aget pkpv i ;;
    ai <- aget a i ;;
    p <- polyvec_basemul_acc_montgomery lv p ai skpv ;;
    p <- poly_tomont p ;;
    aset pkpv i p) (local_polyvec lv) ;;
  pkpv <- polyvec_add lv pkpv VSelf (VOther e) ;;
  pkpv <- polyvec_reduce lv pkpv ;;
  mem <- pack_sk lv mem sko skpv ;;
  pack_pk lv mem po pkpv buf 0.

Lemma shared_split `{JJ : Junk} lv fuel mem po sko co :
  indcpa_keypair_derand_shared lv fuel mem po sko co =
  bind (keypair_expand lv mem co) (fun buf =>
    bind (gen_matrix lv fuel (local_matrix lv) buf 0 false) (fun a => shared_rest lv mem po sko buf a)).
Proof.
  unfold keypair_expand, indcpa_keypair_derand_shared. cbv zeta.
  rewrite bind_assoc. apply bind_ext. intros b1. rewrite bind_assoc. reflexivity.
Qed.

Lemma shared_rest_wp lv fuel rho po sko : enough_all lv fuel rho ->
  traced (fun T => forall (JJ : Junk) mem buf sigma,
    (po + KYBER_INDCPA_PUBLICKEYBYTES lv <= length mem)%nat ->
    (sko + KYBER_INDCPA_SECRETKEYBYTES lv <= length mem)%nat ->
    length buf = 64%nat -> bytes buf -> sub buf 0 32 = rho -> sub buf 32 32 = sigma ->
    wp (shared_rest lv mem po sko buf (matrix lv fuel rho false)) T
       (fun st => st =
          splice (splice mem sko (flat_map (ByteEncode 12) (sec lv sigma))) po (flat_map (ByteEncode 12)
             (zipadd (map (fun row => ntt_dot row (sec lv sigma)) (matrix lv fuel rho false)) (err lv sigma)) ++ rho))).
Proof.
  intros HE. pose proof (K_range lv) as HK.
  destruct (getnoise_vec_eta1_wp lv 32 0 ltac:(lia)) as [T3 W3].
  destruct (getnoise_vec_eta1_wp lv 32 (0 + KYBER_K lv) ltac:(lia)) as [T4 W4].
  destruct (polyvec_ntt_wp lv) as [T5 W5].
  destruct (matvec_wp lv fuel rho HE) as [T6 W6].
  destruct (polyvec_add_wp lv) as [T7 W7].
  destruct (polyvec_reduce_wp lv) as [T8 W8].
  destruct (polyvec_tobytes_wp lv sko) as [T9 W9].
  destruct (polyvec_tobytes_wp lv po) as [T10 W10].
  destruct (memcpy_wp (po + KYBER_POLYVECBYTES lv) 0 32) as [T11 W11].
  eexists. intros JJ mem buf sigma Hpk Hsk Lb Bb Er Es. unfold shared_rest.
  unfold KYBER_INDCPA_PUBLICKEYBYTES, KYBER_INDCPA_SECRETKEYBYTES in *. change KYBER_SYMBYTES with 32%nat in *.
  pose proof (eta1_le lv) as He.
  wstep. eapply wp_conseq; [apply (W3 JJ _ buf (local_polyvec_shaped lv)); [lia|exact Bb]|].
  intros st ->. rewrite Es. cbv beta iota.
  wstep. eapply wp_conseq; [apply (W4 JJ _ buf (local_polyvec_shaped lv)); [lia|exact Bb]|].
  intros st ->. rewrite Es. cbv beta iota. cbn [Nat.add].
  wstep. eapply wp_conseq.
  { apply W5. eapply vbnd_weaken; [| |apply noisez_vbnd; exact He]; lia. }
  intros s [Bs Cs].
  pose proof (ntt_noise _ _ _ _ _ He Cs) as Cs'. rewrite <- sec_eq in Cs'.
  wstep. eapply wp_conseq.
  { apply W5. eapply vbnd_weaken; [| |apply noisez_vbnd; exact He]; lia. }
  intros e [Be Ce].
  pose proof (ntt_noise _ _ _ _ _ He Ce) as Ce'. rewrite <- err_eq in Ce'.
  wstep. eapply wp_conseq.
  { apply (W6 JJ _ s (sec lv sigma) (local_polyvec_shaped lv) Bs (sec_length lv sigma) Cs'). }
  intros p [Bp Cp]. set (A := matrix lv fuel rho false) in *.
  wstep. eapply wp_conseq; [apply (W7 p e 3328 1664 Bp Be); lia|].
  intros p2 [Bp2 Ep2].
  wstep. eapply wp_conseq.
  { apply W8. eapply vbnd_weaken; [| |exact Bp2]; lia. }
  intros p3 [Bp3 Cp3].
  assert (LA : length A = KYBER_K lv) by apply mk_length.
  set (t := zipadd (map (fun row => ntt_dot row (sec lv sigma)) A) (err lv sigma)).
  assert (Lt : length t = KYBER_K lv).
  { unfold t. rewrite zipadd_length; rewrite map_length; [exact LA|]. now rewrite err_length. }
  assert (Es1 : flat_map canonical_bytes s = flat_map (ByteEncode 12) (sec lv sigma)).
  { eapply flat_map_bytes; [apply Bs|apply sec_length|]. intros i Hi. split; [now apply Cs'|now apply sec_canon]. }
  assert (Et1 : flat_map canonical_bytes p3 = flat_map (ByteEncode 12) t).
  { eapply flat_map_bytes; [apply Bp3|exact Lt|]. intros i Hi. unfold t.
    rewrite zipadd_nth by (unfold polyvec in *; rewrite map_length, ?err_length; lia).
    rewrite (map_nth_lt (fun row => ntt_dot row (sec lv sigma)) A i [] []) by (unfold polyvec in *; lia). split; [|apply padd_canon].
    eapply lcong_trans; [apply Cp3; exact Hi|]. rewrite (Ep2 i Hi). apply padd_cong; [apply Cp; exact Hi|].
    now apply Ce'. }
  assert (Lsb : length (flat_map (ByteEncode 12) (sec lv sigma)) = KYBER_POLYVECBYTES lv).
  { rewrite <- Es1. rewrite (flat_map_12_length canonical_bytes s canonical_bytes_length).
    destruct Bs as [-> _]. unfold KYBER_POLYVECBYTES, KYBER_POLYBYTES. lia. }
  assert (Ltb : length (flat_map (ByteEncode 12) t) = KYBER_POLYVECBYTES lv).
  { rewrite <- Et1. rewrite (flat_map_12_length canonical_bytes p3 canonical_bytes_length).
    destruct Bp3 as [-> _]. unfold KYBER_POLYVECBYTES, KYBER_POLYBYTES. lia. }
  wstep. unfold pack_sk. eapply wp_conseq; [apply (W9 mem s); [exact Hsk|eapply vbnd_weaken; [| |exact Bs]; lia]|].
  intros m1 ->. rewrite Es1.
  assert (L1 : length (splice mem sko (flat_map (ByteEncode 12) (sec lv sigma))) = length mem) by (apply splice_length; lia).
  unfold pack_pk. wstep. eapply wp_conseq; [apply (W10 _ p3); [lia|eapply vbnd_weaken; [| |exact Bp3]; lia]|].
  intros m2 ->. rewrite Et1.
  eapply wp_conseq.
  { apply W11; [rewrite splice_length; lia|lia]. }
  intros m3 ->. fold (sub buf 0 32). rewrite Er.
  apply splice_splice_next; [lia|]. rewrite <- Er, sub_length; lia.
Qed.

Lemma shared_indcpa_wp lv fuel rho po sko co : enough_all lv fuel rho ->
  traced (fun T => forall (JJ : Junk) mem,
    (po + KYBER_INDCPA_PUBLICKEYBYTES lv <= length mem)%nat ->
    (sko + KYBER_INDCPA_SECRETKEYBYTES lv <= length mem)%nat ->
    (co + 32 <= length mem)%nat -> bytes mem -> keygen_rho (PS lv) (sub mem co 32) = rho ->
    wp (indcpa_keypair_derand_shared lv fuel mem po sko co) T
       (fun st => let K := K_PKE_KeyGen (PS lv) (matrix lv fuel rho false) (sub mem co 32) in
          st = splice (splice mem sko (snd K)) po (fst K))).
Proof.
  intros HE.
  destruct (expand_wp lv co) as [T1 W1].
  destruct (gen_matrix_wp lv fuel 0 rho false HE) as [T2 W2].
  destruct (shared_rest_wp lv fuel rho po sko HE) as [T3 W3].
  exists (T1 ++ (T2 ++ T3)). intros JJ mem Hpk Hsk Hc Hb Hrho. rewrite shared_split.
  apply wp_bind. eapply wp_conseq; [apply (W1 JJ mem Hc Hb)|]. intros buf ->.
  destruct (keygen_seeds lv (sub mem co 32)) as (Lb & Bb & Er & Es). rewrite Hrho in Er.
  set (buf := G _) in *.
  apply wp_bind. eapply wp_conseq; [apply (W2 JJ _ buf (local_matrix_wf lv))|].
  { refine (conj _ (conj Bb Er)). lia. }
  intros a ->. eapply wp_conseq; [apply (W3 JJ mem buf _ Hpk Hsk Lb Bb Er Es)|].
  intros st ->. cbv zeta. unfold K_PKE_KeyGen. rewrite Hrho. reflexivity.
Qed.

Lemma shared_indcpa_timeout lv fuel po sko co :
  forall (JJ : Junk) mem, (co + 32 <= length mem)%nat -> bytes mem ->
    ~ enough_all lv fuel (keygen_rho (PS lv) (sub mem co 32)) ->
    indcpa_keypair_derand_shared lv fuel mem po sko co = Timeout.
Proof.
  intros JJ mem Hc Hb HN. rewrite shared_split.
  destruct (expand_wp lv co) as [T1 W1].
  eapply bind_timeout; [apply (W1 JJ mem Hc Hb)|]. intros buf ->.
  destruct (keygen_seeds lv (sub mem co 32)) as (Lb & Bb & Er & Es).
  apply bind_timeout_l. eapply gen_matrix_timeout; [exact HN|apply local_matrix_wf|].
  refine (conj _ (conj Bb Er)). lia.
Qed.

(** ** Reading a memory after a write elsewhere *)
Lemma sub_splice_left {A} (x a : list A) o p m : (o + length a <= length x)%nat -> (p + m <= o)%nat -> sub (splice x o a) p m = sub x p m.
Proof.
  intros Ho Hp. unfold sub, splice. rewrite skipn_app, firstn_app, skipn_length, firstn_length.
  replace (m - (Nat.min o (length x) - p))%nat with 0%nat by lia. rewrite firstn_O, app_nil_r.
  rewrite skipn_firstn_comm, firstn_firstn. f_equal. lia.
Qed.
Lemma sub_splice_right {A} (x a : list A) o p m : (o + length a <= length x)%nat -> (o + length a <= p)%nat -> sub (splice x o a) p m = sub x p m.
Proof.
  intros Ho Hp. unfold sub, splice. f_equal. rewrite skipn_app, (skipn_all2 (firstn o x)) by (rewrite firstn_length; lia). rewrite firstn_length.
  replace (Nat.min o (length x)) with o by lia. cbn [app].
  rewrite skipn_app, (skipn_all2 a) by lia. cbn [app].
  replace (p - o - length a)%nat with (p - (o + length a))%nat by lia. rewrite skipn_skipn. f_equal. lia.
Qed.
Lemma sub_splice_apart {A} (x a : list A) o p m : (o + length a <= length x)%nat -> (p + m <= o \/ o + length a <= p)%nat ->
  sub (splice x o a) p m = sub x p m.
Proof. intros Ho [H|H]; [now apply sub_splice_left|now apply sub_splice_right]. Qed.
Lemma splice_comm {A} (x a b : list A) o p : (o + length a <= p)%nat -> (p + length b <= length x)%nat ->
  splice (splice x o a) p b = splice (splice x p b) o a.
Proof.
  intros H1 H2.
  assert (X : exists u v w y z, x = u ++ v ++ w ++ y ++ z /\ length u = o /\ length v = length a /\ length w = (p - o - length a)%nat /\ length y = length b).
  { exists (firstn o x), (sub x o (length a)), (sub x (o + length a) (p - o - length a)), (sub x p (length b)), (skipn (p + length b) x).
    repeat split; try (apply sub_length; lia); [|rewrite firstn_length; lia].
    unfold sub. rewrite <- (firstn_skipn o x) at 1. f_equal. rewrite <- (firstn_skipn (length a) (skipn o x)) at 1. f_equal.
    rewrite skipn_skipn.
    rewrite <- (firstn_skipn (p - o - length a) (skipn (o + length a) x)) at 1. f_equal.
    rewrite skipn_skipn. replace (o + length a + (p - o - length a))%nat with p by lia.
    rewrite <- (firstn_skipn (length b) (skipn p x)) at 1. f_equal. now rewrite skipn_skipn. }
  destruct X as (u & v & w & y & z & -> & Lu & Lv & Lw & Ly).
  assert (S1 : forall v', length v' = length a -> forall y', splice (u ++ v' ++ w ++ y' ++ z) o a = u ++ a ++ w ++ y' ++ z).
  { intros v' L y'. subst o. now apply splice_ctx. }
  assert (S2 : forall v', length v' = length a -> splice (u ++ v' ++ w ++ y ++ z) p b = u ++ v' ++ w ++ b ++ z).
  { intros v' L. replace p with (length (u ++ v' ++ w)) by (rewrite !app_length; lia).
    pose proof (splice_ctx (u ++ v' ++ w) y z b Ly) as X. rewrite <- !app_assoc in X. exact X. }
  rewrite (S1 v Lv), (S2 a eq_refl), (S2 v Lv). now rewrite (S1 v Lv).
Qed.

(** ** All of key generation *)

Lemma within_wp d s m : traced (fun T => forall mem, apart d m s m -> (d + m <= length mem)%nat -> (s + m <= length mem)%nat ->
  wp (memcpy_within mem d s m) T (fun r => r = splice mem d (sub mem s m))).
Proof.
  destruct (memcpy_wp d s m) as [T W]. exists T. intros mem Ha Hd Hs. unfold memcpy_within.
  replace ((d + m <=? s) || (s + m <=? d))%nat with true; [now apply W|].
  symmetry. apply orb_true_iff. destruct Ha; [left|right]; now apply Nat.leb_le.
Qed.
Lemma within_overlap d s m mem : ~ apart d m s m -> memcpy_within mem d s m = UB Overlap.
Proof.
  intros Ha. unfold memcpy_within. replace ((d + m <=? s) || (s + m <=? d))%nat with false; [reflexivity|].
  symmetry. apply orb_false_iff. split; apply Nat.leb_gt; unfold apart in Ha; lia.
Qed.

(** The memory before the last copy *)
Definition before_z lv (mem : list Z) (po sko : nat) (ek dk : list Z) : list Z :=
  splice (splice (splice (splice mem sko dk) po ek) (sko + KYBER_INDCPA_SECRETKEYBYTES lv) ek)
    (sko + (KYBER_SECRETKEYBYTES lv - 2 * 32)) (H ek).

Section WithJunk.
Context {JJ : Junk}.

Lemma shared_key_split lv fuel mem po sko co :
  crypto_kem_keypair_derand_shared lv fuel mem po sko co =
  bind (indcpa_keypair_derand_shared lv fuel mem po sko co) (fun m =>
  bind (m <- memcpy_within m (sko + KYBER_INDCPA_SECRETKEYBYTES lv) po (KYBER_PUBLICKEYBYTES lv) ;;
        hash_h m (sko + (KYBER_SECRETKEYBYTES lv - 2 * KYBER_SYMBYTES)) m po (KYBER_PUBLICKEYBYTES lv)) (fun m =>
  bind (memcpy_within m (sko + (KYBER_SECRETKEYBYTES lv - KYBER_SYMBYTES)) (co + KYBER_SYMBYTES) KYBER_SYMBYTES) (fun m => ret (m, 0)))).
Proof. unfold crypto_kem_keypair_derand_shared. apply bind_ext. intros m. now rewrite bind_assoc. Qed.

Lemma keypair_shared_run lv fuel mem po sko co : bytes mem ->
  (po + KYBER_PUBLICKEYBYTES lv <= length mem)%nat -> (sko + KYBER_SECRETKEYBYTES lv <= length mem)%nat -> (co + 64 <= length mem)%nat ->
  enough_all lv fuel (keygen_rho (PS lv) (sub mem co 32)) ->
  exists ek dk T, crypto_kem_keypair_derand lv fuel (sub mem po (KYBER_PUBLICKEYBYTES lv)) (sub mem sko (KYBER_SECRETKEYBYTES lv)) (sub mem co 64) =
      Ok (ek, dk ++ ek ++ H ek ++ sub mem (co + 32) 32, 0) T /\
    ek = fst (K_PKE_KeyGen (PS lv) (matrix lv fuel (keygen_rho (PS lv) (sub mem co 32)) false) (sub mem co 32)) /\
    length ek = KYBER_PUBLICKEYBYTES lv /\ length dk = KYBER_INDCPA_SECRETKEYBYTES lv /\
    (~ apart (sko + KYBER_INDCPA_SECRETKEYBYTES lv) (KYBER_PUBLICKEYBYTES lv) po (KYBER_PUBLICKEYBYTES lv) ->
       crypto_kem_keypair_derand_shared lv fuel mem po sko co = UB Overlap) /\
    (apart (sko + KYBER_INDCPA_SECRETKEYBYTES lv) (KYBER_PUBLICKEYBYTES lv) po (KYBER_PUBLICKEYBYTES lv) ->
     ~ apart (sko + (KYBER_SECRETKEYBYTES lv - 32)) 32 (co + 32) 32 ->
       crypto_kem_keypair_derand_shared lv fuel mem po sko co = UB Overlap) /\
    (apart (sko + KYBER_INDCPA_SECRETKEYBYTES lv) (KYBER_PUBLICKEYBYTES lv) po (KYBER_PUBLICKEYBYTES lv) ->
     apart (sko + (KYBER_SECRETKEYBYTES lv - 32)) 32 (co + 32) 32 ->
       exists T', crypto_kem_keypair_derand_shared lv fuel mem po sko co =
         Ok (splice (before_z lv mem po sko ek dk) (sko + (KYBER_SECRETKEYBYTES lv - 32)) (sub (before_z lv mem po sko ek dk) (co + 32) 32), 0) T').
Proof.
  intros Bm Hp Hs Hc HE.
  pose proof (sub_length mem po _ Hp) as Lp. pose proof (sub_length mem sko _ Hs) as Ls. pose proof (sub_length mem co _ Hc) as Lc.
  assert (ES : KYBER_SECRETKEYBYTES lv = (KYBER_INDCPA_SECRETKEYBYTES lv + (KYBER_PUBLICKEYBYTES lv + (32 + 32)))%nat).
  { unfold KYBER_SECRETKEYBYTES, KYBER_PUBLICKEYBYTES. change KYBER_SYMBYTES with 32%nat. lia. }
  destruct (keypair_derand_wp lv fuel _ HE) as [T W].
  destruct (W JJ _ _ _ Lp Ls Lc ltac:(now apply bnd_sub) ltac:(rewrite sub_sub by lia; now rewrite Nat.add_0_r)) as (v & Ev & ->).
  destruct (shared_indcpa_wp lv fuel _ po sko co HE) as [T1 W1].
  specialize (W1 JJ mem Hp ltac:(lia) ltac:(lia) Bm eq_refl). cbv zeta in W1.
  unfold kem_keypair in Ev. rewrite (sub_sub mem co 64 0 32) in Ev by lia. rewrite (sub_sub mem co 64 32 32) in Ev by lia. rewrite Nat.add_0_r in Ev.
  pose proof (KeyGen_ek_length lv (matrix lv fuel (keygen_rho (PS lv) (sub mem co 32)) false) (sub mem co 32) (matrix_length _ _ _ _)) as Lek.
  pose proof (KeyGen_dk_length lv (matrix lv fuel (keygen_rho (PS lv) (sub mem co 32)) false) (sub mem co 32)) as Ldk.
  pose proof (KeyGen_ek_bytes (PS lv) (matrix lv fuel (keygen_rho (PS lv) (sub mem co 32)) false) (sub mem co 32)) as Bek.
  pose proof (KeyGen_dk_bytes (PS lv) (matrix lv fuel (keygen_rho (PS lv) (sub mem co 32)) false) (sub mem co 32)) as Bdk.
  remember (K_PKE_KeyGen (PS lv) (matrix lv fuel (keygen_rho (PS lv) (sub mem co 32)) false) (sub mem co 32)) as K eqn:EK. clear EK.
  destruct K as [ek dk]. destruct W1 as (m1 & E1 & Em1). cbn [fst snd] in *.
  exists ek, dk, T. split; [exact Ev|]. split; [reflexivity|]. split; [exact Lek|]. split; [exact Ldk|].
  rewrite shared_key_split, E1.
  assert (L1 : length m1 = length mem) by (rewrite Em1, splice_length; rewrite ?splice_length; lia).
  assert (P1 : sub m1 po (KYBER_PUBLICKEYBYTES lv) = ek).
  { rewrite Em1, <- Lek. apply sub_splice_same. rewrite splice_length; lia. }
  destruct (within_wp (sko + KYBER_INDCPA_SECRETKEYBYTES lv) po (KYBER_PUBLICKEYBYTES lv)) as [T2 W2].
  destruct (sha3_256_wp (sko + (KYBER_SECRETKEYBYTES lv - 2 * 32)) po (KYBER_PUBLICKEYBYTES lv)) as [T3 W3].
  assert (LH : length (H ek) = 32%nat) by apply SHA3_256_length.
  assert (X : apart (sko + KYBER_INDCPA_SECRETKEYBYTES lv) (KYBER_PUBLICKEYBYTES lv) po (KYBER_PUBLICKEYBYTES lv) ->
    exists T4, wp (m <- memcpy_within m1 (sko + KYBER_INDCPA_SECRETKEYBYTES lv) po (KYBER_PUBLICKEYBYTES lv) ;;
        hash_h m (sko + (KYBER_SECRETKEYBYTES lv - 2 * KYBER_SYMBYTES)) m po (KYBER_PUBLICKEYBYTES lv)) T4
      (fun m => m = before_z lv mem po sko ek dk)).
  { intros Ap. eexists. change KYBER_SYMBYTES with 32%nat. wstep. eapply wp_conseq; [apply (W2 m1 Ap); lia|].
    intros m2 ->. rewrite P1.
    assert (L2 : length (splice m1 (sko + KYBER_INDCPA_SECRETKEYBYTES lv) ek) = length mem) by (rewrite splice_length; lia).
    assert (P2 : sub (splice m1 (sko + KYBER_INDCPA_SECRETKEYBYTES lv) ek) po (KYBER_PUBLICKEYBYTES lv) = ek).
    { rewrite sub_splice_apart; [exact P1|lia|]. rewrite Lek. unfold apart in Ap. lia. }
    assert (B2 : bytes (splice m1 (sko + KYBER_INDCPA_SECRETKEYBYTES lv) ek)).
    { rewrite Em1. apply bnd_splice; [apply bnd_splice; [apply bnd_splice|]|]; assumption. }
    eapply wp_conseq; [apply (W3 JJ); [lia|lia|exact B2]|]. intros m3 ->. rewrite P2. unfold before_z. rewrite <- Em1. reflexivity. }
  assert (LZ : length (before_z lv mem po sko ek dk) = length mem).
  { unfold before_z. rewrite <- Em1. rewrite splice_length; rewrite splice_length; lia. }
  change KYBER_SYMBYTES with 32%nat in *. cbn [bind]. repeat split.
  - intros Ap. rewrite (within_overlap _ _ _ m1 Ap). reflexivity.
  - intros Ap Az. destruct (X Ap) as (T4 & m3 & -> & ->). cbn [bind]. now rewrite (within_overlap _ _ _ _ Az).
  - intros Ap Az. destruct (X Ap) as (T4 & m3 & -> & ->). cbn [bind].
    destruct (within_wp (sko + (KYBER_SECRETKEYBYTES lv - 32)) (co + 32) 32) as [T5 W5].
    destruct (W5 (before_z lv mem po sko ek dk) Az ltac:(lia) ltac:(lia)) as (m4 & -> & ->). cbn [bind ret]. eexists. reflexivity.
Qed.
End WithJunk.
