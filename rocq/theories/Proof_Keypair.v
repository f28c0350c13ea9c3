(** * indcpa_keypair_derand (indcpa.c:205-241) against K-PKE.KeyGen *)
From Coq Require Import ZArith List Lia Bool.
From Verif Require Import CMonad WP Modq Sums Proof_Base Proof_Bits Levels Model_Params Model_Fips202 Model_Symmetric
  Model_NTT Model_Poly Model_Polyvec Model_Indcpa Spec_FIPS202 Spec_FIPS203 Proof_Keccak Proof_Shake Proof_Hash
  Proof_NTT Proof_NTTSpec Proof_Poly Proof_Polyvec Proof_Compress Proof_Codec Proof_PolyvecCodec Proof_CBD
  Proof_Symmetric Proof_GenMatrix Proof_Indcpa.
Import ListNotations.
Open Scope Z_scope.

Lemma PS_k lv : k (PS lv) = KYBER_K lv. Proof. destruct lv; reflexivity. Qed.

(** The secret and error vectors, and t = A s + e *)
Definition sec (lv : level) (sigma : list Z) : list (list Z) := map NTT (noise (eta1 (PS lv)) sigma 0 (k (PS lv))).
Definition err (lv : level) (sigma : list Z) : list (list Z) := map NTT (noise (eta1 (PS lv)) sigma (k (PS lv)) (k (PS lv))).

Lemma sec_eq lv sigma : sec lv sigma = map NTT (noise (eta1 (PS lv)) sigma 0 (KYBER_K lv)).
Proof. unfold sec. now rewrite PS_k. Qed.
Lemma err_eq lv sigma : err lv sigma = map NTT (noise (eta1 (PS lv)) sigma (KYBER_K lv) (KYBER_K lv)).
Proof. unfold err. now rewrite PS_k. Qed.
Lemma sec_length lv sigma : length (sec lv sigma) = KYBER_K lv.
Proof. unfold sec. now rewrite map_length, noise_length, PS_k. Qed.
Lemma err_length lv sigma : length (err lv sigma) = KYBER_K lv.
Proof. unfold err. now rewrite map_length, noise_length, PS_k. Qed.
Lemma sec_canon lv sigma i : (i < KYBER_K lv)%nat -> canon (nth i (sec lv sigma) []).
Proof.
  intros. unfold sec. rewrite (map_nth_lt NTT _ i [] []) by (now rewrite noise_length, PS_k). apply NTT_canon.
Qed.

(** The loop computing A s (indcpa.c:232-235) *)
Lemma matvec_wp lv fuel rho : enough_all lv fuel rho ->
  traced (fun T => forall (JJ : Junk) p0 sk s, shaped (KYBER_K lv) p0 -> vbnd (KYBER_K lv) (-1664) 1664 sk ->
    length s = KYBER_K lv -> (forall i, (i < KYBER_K lv)%nat -> lcong (nth i sk []) (nth i s [])) ->
    wp (for_ (KYBER_K lv) 0 (fun i pkpv =>
          p <- aget pkpv i ;;
          ai <- aget (matrix lv fuel rho false) i ;;
          p <- polyvec_basemul_acc_montgomery lv p ai sk ;;
          p <- poly_tomont p ;;
          aset pkpv i p) p0) T
       (fun r' => vbnd (KYBER_K lv) (-3328) 3328 r' /\
          vrel (KYBER_K lv) (fun i x => lcong x (ntt_dot (nth i (matrix lv fuel rho false) []) s)) r')).
Proof.
  intros HE. destruct (polyvec_basemul_acc_montgomery_wp lv) as [T1 W1].
  destruct poly_tomont_wp as [T2 W2].
  eexists. intros JJ p0 sk s [L0 S0] Hsk Ls Cs.
  set (A := matrix lv fuel rho false).
  assert (LA : length A = KYBER_K lv) by apply mk_length.
  eapply (wp_for _ (fun i r => length r = KYBER_K lv /\
     (forall j, (j < KYBER_K lv)%nat -> length (nth j r []) = 256%nat) /\
     forall j, (j < i)%nat -> bnd (-3328) 3328 (nth j r []) /\ lcong (nth j r []) (ntt_dot (nth j A []) s))).
  - split; [exact L0|]. split; [exact S0|]. intros; lia.
  - intros i r Hi (Lr & Sr & Pr). wstep. eapply (wp_aget []); [lia|]. wstep. eapply (wp_aget []); [unfold polyvec in *; lia|].
    pose proof (matrix_vbnd lv fuel rho false i ltac:(lia) HE) as Vb. fold A in Vb.
    wstep. eapply wp_conseq.
    { apply (W1 JJ).
      - apply Sr. lia.
      - eapply vbnd_weaken; [| |exact Vb]; lia.
      - eapply vbnd_weaken; [| |exact Hsk]; lia. }
    intros x (Lx & Bx & Cx). wstep. eapply wp_conseq.
    { apply W2; [exact Lx|]. eapply babs_int16s; [|exact Bx]. lia. }
    intros y (Ly & By & Cy).
    assert (Cd : lcong y (ntt_dot (nth i A []) s)).
    { eapply lcong_trans; [exact Cy|]. eapply lcong_trans; [apply scale_cong; exact Cx|].
      eapply lcong_trans; [apply scale_mont, ntt_dot_length|].
      replace (ntt_dot (nth i A []) s) with (ntt_dot (nth i A []) sk); [apply lcong_refl|].
      apply ntt_dot_cong.
      - split; [reflexivity|]. intros; reflexivity.
      - destruct Hsk as [L1 _]. split; [congruence|]. intros j Hj. apply Cs. lia.
      - destruct Vb as [L1 _]. destruct Hsk as [L2 _]. congruence. }
    wstep; [lia|]. split; [now rewrite upd_length|]. split.
    + intros j Hj. destruct (Nat.eq_dec j i) as [->|]; [rewrite nth_upd_eq by lia; exact Ly|].
      rewrite nth_upd_neq by lia. now apply Sr.
    + intros j Hj. destruct (Nat.eq_dec j i) as [->|]; [rewrite nth_upd_eq by lia; now split|].
      rewrite nth_upd_neq by lia. apply Pr. lia.
  - intros r (Lr & Sr & Pr). cbn [Nat.add] in Pr. split.
    + split; [exact Lr|]. intros i Hi. split; [now apply Sr|]. now apply Pr.
    + intros i Hi. now apply Pr.
Qed.

Lemma seed_buffer `{JJ : Junk} lv coins co : (co + 32 <= length coins)%nat ->
  upd (splice (local 64) 0 (sub coins co 32)) 32 (u8 (Z.of_nat (KYBER_K lv))) =
  splice (local 64) 0 (sub coins co 32 ++ [Z.of_nat (k (PS lv))]).
Proof.
  intros H. assert (L : length (sub coins co 32) = 32%nat) by (apply sub_length; lia).
  rewrite splice_snoc by (rewrite ?local_length, ?L; lia).
  replace (u8 (Z.of_nat (KYBER_K lv))) with (Z.of_nat (k (PS lv))); [reflexivity|].
  rewrite PS_k. symmetry. apply u8_small. destruct lv; cbn; lia.
Qed.

(** A one-block absorb reads only the bytes it is told to *)
Lemma for_ext {S} n : forall lo (f g : nat -> S -> res S) s,
  (forall i s, (lo <= i < lo + n)%nat -> f i s = g i s) -> for_ n lo f s = for_ n lo g s.
Proof.
  induction n as [|n IH]; intros lo f g s E; [reflexivity|].
  cbn [for_]. rewrite (E lo s) by lia. unfold bind. destruct (emit _); try reflexivity.
  destruct (g lo s); try reflexivity. rewrite (IH (Datatypes.S lo) f g) by (intros; apply E; lia). reflexivity.
Qed.

Lemma aget_firstn {A} (l : list A) m i : (i < m)%nat -> (m <= length l)%nat -> aget (firstn m l) i = aget l i.
Proof.
  intros Hi Hm. unfold aget. rewrite <- (firstn_skipn m l) at 2.
  rewrite nth_error_app1; [reflexivity|]. rewrite firstn_length. lia.
Qed.

Lemma absorb_once_firstn s r inp inlen p : (inlen < r)%nat -> (inlen <= length inp)%nat ->
  keccak_absorb_once s r inp 0 inlen p = keccak_absorb_once s r (firstn inlen inp) 0 inlen p.
Proof.
  intros Hr Hl. unfold keccak_absorb_once. cbn [while_]. destruct (Nat.leb_spec r inlen); [lia|].
  unfold bind at 1 7. destruct (for_ 25 0 _ s); try reflexivity.
  unfold bind, test, ret. cbn [app].
  rewrite (for_ext inlen 0 (fun i s => b <- aget inp (0 + i) ;; xor_byte s i b)
    (fun i s => b <- aget (firstn inlen inp) (0 + i) ;; xor_byte s i b)); [reflexivity|].
  intros i s1 Hi. now rewrite aget_firstn by lia.
Qed.

Lemma firstn_splice0 {A} (l d : list A) : (length d <= length l)%nat -> firstn (length d) (splice l 0 d) = d.
Proof. intros H. apply (sub_splice l 0 d). exact H. Qed.

(** The first lines: expanding the coins (indcpa.c:216-218) *)
Lemma expand_wp lv co :
  traced (fun T => forall (JJ : Junk) coins, (co + 32 <= length coins)%nat -> bytes coins ->
    wp (buf <- memcpy (local (2 * KYBER_SYMBYTES)) 0 coins co KYBER_SYMBYTES ;;
        buf <- aset buf KYBER_SYMBYTES (u8 (Z.of_nat (KYBER_K lv))) ;;
        hash_g buf 0 buf 0 (KYBER_SYMBYTES + 1)) T
       (fun buf => buf = G (sub coins co 32 ++ [Z.of_nat (k (PS lv))]))).
Proof.
  destruct (sha3_512_wp 0 0 33) as [T1 W1].
  eexists. intros JJ coins Hc Hb. change (2 * KYBER_SYMBYTES)%nat with 64%nat.
  change KYBER_SYMBYTES with 32%nat. change (32 + 1)%nat with 33%nat.
  assert (L : length (sub coins co 32) = 32%nat) by (apply sub_length; lia).
  wstep. eapply wp_conseq; [apply (proj2_sig (memcpy_wp 0 co 32)); rewrite ?local_length; lia|].
  intros e1 ->. fold (sub coins co 32).
  wstep. wstep. { rewrite splice_length; rewrite ?local_length; lia. }
  rewrite seed_buffer by exact Hc.
  set (d := sub coins co 32 ++ [Z.of_nat (k (PS lv))]).
  assert (Ld : length d = 33%nat) by (unfold d; rewrite app_length, L; reflexivity).
  assert (Bd : bytes d).
  { apply bytes_snoc; [now apply bnd_sub|]. destruct lv; cbn; lia. }
  clearbody d.
  (* only the first 33 bytes of the buffer are initialised, and only those are read *)
  assert (Lb : length (splice (local 64) 0 d) = 64%nat) by (rewrite splice_length; rewrite ?local_length; lia).
  assert (Fb : firstn 33 (splice (local 64) 0 d) = d) by (rewrite <- Ld; apply firstn_splice0; rewrite local_length; lia).
  revert Lb Fb. generalize (splice (local 64) 0 d) as buf. intros buf Lb Fb.
  assert (E : hash_g buf 0 buf 0 33 = sha3_512 buf 0 d 0 33).
  { unfold hash_g, sha3_512. rewrite (absorb_once_firstn _ _ buf) by (unfold SHA3_512_RATE; lia). now rewrite Fb. }
  rewrite E. eapply wp_conseq.
  { apply (W1 JJ buf d); [lia|lia|exact Bd]. }
  intros b ->. rewrite (sub_self d) by exact Ld. unfold G.
  apply splice_full. rewrite SHA3_512_length. symmetry. exact Lb.
Qed.

Lemma keygen_seeds lv d :
  let buf := G (d ++ [Z.of_nat (k (PS lv))]) in
  length buf = 64%nat /\ bytes buf /\ sub buf 0 32 = keygen_rho (PS lv) d /\ sub buf 32 32 = keygen_sigma (PS lv) d.
Proof.
  cbv zeta. unfold keygen_rho, keygen_sigma. set (x := d ++ _). clearbody x. unfold G.
  pose proof (SHA3_512_length x) as L. pose proof (SHA3_512_bytes x) as B.
  revert L B. generalize (SHA3_512 x) as b. intros b L B.
  refine (conj L (conj B (conj eq_refl _))). symmetry. apply skipn_sub. lia.
Qed.

Lemma flat_map_bytes v w K : length v = K -> length w = K ->
  (forall i, (i < K)%nat -> lcong (nth i v []) (nth i w []) /\ canon (nth i w [])) ->
  flat_map canonical_bytes v = flat_map (ByteEncode 12) w.
Proof.
  intros Lv Lw C. apply (flat_map_nth [] []); [congruence|]. intros i Hi.
  destruct (C i ltac:(lia)). rewrite canonical_bytes_eq. f_equal. now apply canonical_cong.
Qed.

Lemma flat_map_12_length {A} (f : A -> list Z) v : (forall x, length (f x) = 384%nat) ->
  length (flat_map f v) = (384 * length v)%nat.
Proof. intros E. induction v as [|x v IH]; [reflexivity|]. cbn [flat_map length]. rewrite app_length, IH, E. lia. Qed.

Definition keypair_expand `{Junk} (lv : level) (coins : list Z) (co : nat) : res (list Z) :=
  buf <- memcpy (local (2 * KYBER_SYMBYTES)) 0 coins co KYBER_SYMBYTES ;;
  buf <- aset buf KYBER_SYMBYTES (u8 (Z.of_nat (KYBER_K lv))) ;;
  hash_g buf 0 buf 0 (KYBER_SYMBYTES + 1).

Definition keypair_rest `{Junk} (lv : level) (pk : list Z) (po : nat) (sk : list Z) (sko : nat)
  (buf : list Z) (a : list polyvec) : res (list Z * list Z) :=
  '(skpv, nonce) <- getnoise_vec_eta1 lv (local_polyvec lv) buf KYBER_SYMBYTES 0 ;;
  '(e, nonce) <- getnoise_vec_eta1 lv (local_polyvec lv) buf KYBER_SYMBYTES nonce ;;
  skpv <- polyvec_ntt lv skpv ;;
  e <- polyvec_ntt lv e ;;
  pkpv <- for_ (KYBER_K lv) 0 (fun i pkpv =>
    p <- aget pkpv i ;;
    ai <- aget a i ;;
    p <- polyvec_basemul_acc_montgomery lv p ai skpv ;;
    p <- poly_tomont p ;;
    aset pkpv i p) (local_polyvec lv) ;;
  pkpv <- polyvec_add lv pkpv VSelf (VOther e) ;;
  pkpv <- polyvec_reduce lv pkpv ;;
  sk <- pack_sk lv sk sko skpv ;;
  pk <- pack_pk lv pk po pkpv buf 0 ;;
  ret (pk, sk).

Lemma bind_assoc {A B C} (m : res A) (f : A -> res B) (g : B -> res C) :
  bind (bind m f) g = bind m (fun x => bind (f x) g).
Proof.
  unfold bind. destruct m; try reflexivity. destruct (f _); try reflexivity.
  destruct (g _); try reflexivity. now rewrite app_assoc.
Qed.

Lemma bind_ext {A B} (m : res A) (f g : A -> res B) : (forall x, f x = g x) -> bind m f = bind m g.
Proof. intros E. unfold bind. destruct m; try reflexivity. now rewrite E. Qed.

Lemma keypair_split `{JJ : Junk} lv fuel pk po sk sko coins co :
  indcpa_keypair_derand lv fuel pk po sk sko coins co =
  bind (keypair_expand lv coins co) (fun buf =>
    bind (gen_matrix lv fuel (local_matrix lv) buf 0 false) (fun a => keypair_rest lv pk po sk sko buf a)).
Proof.
  unfold keypair_expand, indcpa_keypair_derand. cbv zeta.
  rewrite bind_assoc. apply bind_ext. intros b1. rewrite bind_assoc. reflexivity.
Qed.

Lemma keypair_rest_wp lv fuel rho po sko : enough_all lv fuel rho ->
  traced (fun T => forall (JJ : Junk) pk sk buf sigma,
    (po + KYBER_INDCPA_PUBLICKEYBYTES lv <= length pk)%nat ->
    (sko + KYBER_INDCPA_SECRETKEYBYTES lv <= length sk)%nat ->
    length buf = 64%nat -> bytes buf -> sub buf 0 32 = rho -> sub buf 32 32 = sigma ->
    wp (keypair_rest lv pk po sk sko buf (matrix lv fuel rho false)) T
       (fun st => st =
          (splice pk po (flat_map (ByteEncode 12)
             (zipadd (map (fun row => ntt_dot row (sec lv sigma)) (matrix lv fuel rho false)) (err lv sigma)) ++ rho),
           splice sk sko (flat_map (ByteEncode 12) (sec lv sigma))))).
Proof.
  intros HE. pose proof (K_range lv) as HK.
  destruct (getnoise_vec_eta1_wp lv 32 0 ltac:(lia)) as [T3 W3].
  destruct (getnoise_vec_eta1_wp lv 32 (0 + KYBER_K lv) ltac:(lia)) as [T4 W4].
  destruct (polyvec_ntt_wp lv) as [T5 W5].
  destruct (matvec_wp lv fuel rho HE) as [T6 W6].
  destruct (polyvec_add_wp lv) as [T7 W7].
  destruct (polyvec_reduce_wp lv) as [T8 W8].
  destruct (polyvec_tobytes_wp lv sko) as [T9 W9].
  destruct (polyvec_tobytes_wp lv po) as [T10 W10].
  destruct (memcpy_wp (po + KYBER_POLYVECBYTES lv) 0 32) as [T11 W11].
  eexists. intros JJ pk sk buf sigma Hpk Hsk Lb Bb Er Es. unfold keypair_rest.
  unfold KYBER_INDCPA_PUBLICKEYBYTES, KYBER_INDCPA_SECRETKEYBYTES in *. change KYBER_SYMBYTES with 32%nat in *.
  pose proof (eta1_le lv) as He.
  wstep. eapply wp_conseq; [apply (W3 JJ _ buf (local_polyvec_shaped lv)); [lia|exact Bb]|].
  intros st ->. rewrite Es. cbv beta iota.
  wstep. eapply wp_conseq; [apply (W4 JJ _ buf (local_polyvec_shaped lv)); [lia|exact Bb]|].
  intros st ->. rewrite Es. cbv beta iota. cbn [Nat.add].
  wstep. eapply wp_conseq.
  { apply W5. eapply vbnd_weaken; [| |apply noisez_vbnd; exact He]; lia. }
  intros s [Bs Cs].
  pose proof (ntt_noise _ _ _ _ _ He Cs) as Cs'. rewrite <- sec_eq in Cs'.
  wstep. eapply wp_conseq.
  { apply W5. eapply vbnd_weaken; [| |apply noisez_vbnd; exact He]; lia. }
  intros e [Be Ce].
  pose proof (ntt_noise _ _ _ _ _ He Ce) as Ce'. rewrite <- err_eq in Ce'.
  wstep. eapply wp_conseq.
  { apply (W6 JJ _ s (sec lv sigma) (local_polyvec_shaped lv) Bs (sec_length lv sigma) Cs'). }
  intros p [Bp Cp]. set (A := matrix lv fuel rho false) in *.
  wstep. eapply wp_conseq; [apply (W7 p e 3328 1664 Bp Be); lia|].
  intros p2 [Bp2 Ep2].
  wstep. eapply wp_conseq.
  { apply W8. eapply vbnd_weaken; [| |exact Bp2]; lia. }
  intros p3 [Bp3 Cp3].
  wstep. unfold pack_sk. eapply wp_conseq; [apply (W9 sk s); [exact Hsk|eapply vbnd_weaken; [| |exact Bs]; lia]|].
  intros sk' ->.
  wstep. unfold pack_pk. wstep. eapply wp_conseq; [apply (W10 pk p3); [lia|eapply vbnd_weaken; [| |exact Bp3]; lia]|].
  intros pk' ->.
  assert (LA : length A = KYBER_K lv) by apply mk_length.
  set (t := zipadd (map (fun row => ntt_dot row (sec lv sigma)) A) (err lv sigma)).
  assert (Lt : length t = KYBER_K lv).
  { unfold t. rewrite zipadd_length; rewrite map_length; [exact LA|]. now rewrite err_length. }
  assert (Es1 : flat_map canonical_bytes s = flat_map (ByteEncode 12) (sec lv sigma)).
  { eapply flat_map_bytes; [apply Bs|apply sec_length|]. intros i Hi. split; [now apply Cs'|now apply sec_canon]. }
  assert (Et1 : flat_map canonical_bytes p3 = flat_map (ByteEncode 12) t).
  { eapply flat_map_bytes; [apply Bp3|exact Lt|]. intros i Hi. unfold t.
    rewrite zipadd_nth by (unfold polyvec in *; rewrite map_length, ?err_length; lia).
    rewrite (map_nth_lt (fun row => ntt_dot row (sec lv sigma)) A i [] []) by (unfold polyvec in *; lia). split; [|apply padd_canon].
    eapply lcong_trans; [apply Cp3; exact Hi|]. rewrite (Ep2 i Hi). apply padd_cong; [apply Cp; exact Hi|].
    now apply Ce'. }
  rewrite Es1, Et1.
  assert (Ltb : length (flat_map (ByteEncode 12) t) = KYBER_POLYVECBYTES lv).
  { rewrite <- Et1. rewrite (flat_map_12_length canonical_bytes p3 canonical_bytes_length).
    destruct Bp3 as [-> _]. unfold KYBER_POLYVECBYTES, KYBER_POLYBYTES. lia. }
  eapply wp_conseq.
  { apply W11; [rewrite splice_length; lia|lia]. }
  intros pk2 ->. wstep. f_equal. fold (sub buf 0 32). rewrite Er.
  apply splice_splice_next; [lia|]. rewrite <- Er, sub_length; lia.
Qed.

Lemma indcpa_keypair_derand_wp lv fuel rho po sko co : enough_all lv fuel rho ->
  traced (fun T => forall (JJ : Junk) pk sk coins,
    (po + KYBER_INDCPA_PUBLICKEYBYTES lv <= length pk)%nat ->
    (sko + KYBER_INDCPA_SECRETKEYBYTES lv <= length sk)%nat ->
    (co + 32 <= length coins)%nat -> bytes coins -> keygen_rho (PS lv) (sub coins co 32) = rho ->
    wp (indcpa_keypair_derand lv fuel pk po sk sko coins co) T
       (fun st => let K := K_PKE_KeyGen (PS lv) (matrix lv fuel rho false) (sub coins co 32) in
          st = (splice pk po (fst K), splice sk sko (snd K)))).
Proof.
  intros HE.
  destruct (expand_wp lv co) as [T1 W1].
  destruct (gen_matrix_wp lv fuel 0 rho false HE) as [T2 W2].
  destruct (keypair_rest_wp lv fuel rho po sko HE) as [T3 W3].
  exists (T1 ++ (T2 ++ T3)). intros JJ pk sk coins Hpk Hsk Hc Hb Hrho. rewrite keypair_split.
  apply wp_bind. eapply wp_conseq; [apply (W1 JJ coins Hc Hb)|]. intros buf ->.
  destruct (keygen_seeds lv (sub coins co 32)) as (Lb & Bb & Er & Es). rewrite Hrho in Er.
  set (buf := G _) in *. 
  apply wp_bind. eapply wp_conseq; [apply (W2 JJ _ buf (local_matrix_wf lv))|].
  { refine (conj _ (conj Bb Er)). lia. }
  intros a ->. eapply wp_conseq; [apply (W3 JJ pk sk buf _ Hpk Hsk Lb Bb Er Es)|].
  intros st ->. cbv zeta. unfold K_PKE_KeyGen. rewrite Hrho. reflexivity.
Qed.

Lemma indcpa_keypair_derand_timeout lv fuel po sko co :
  forall (JJ : Junk) pk sk coins, (co + 32 <= length coins)%nat -> bytes coins ->
    ~ enough_all lv fuel (keygen_rho (PS lv) (sub coins co 32)) ->
    indcpa_keypair_derand lv fuel pk po sk sko coins co = Timeout.
Proof.
  intros JJ pk sk coins Hc Hb HN. rewrite keypair_split.
  destruct (expand_wp lv co) as [T1 W1].
  eapply bind_timeout; [apply (W1 JJ coins Hc Hb)|]. intros buf ->.
  destruct (keygen_seeds lv (sub coins co 32)) as (Lb & Bb & Er & Es).
  apply bind_timeout_l. eapply gen_matrix_timeout; [exact HN|apply local_matrix_wf|].
  refine (conj _ (conj Bb Er)). lia.
Qed.
