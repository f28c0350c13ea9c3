(** * randombytes and the randomised API *)
From Coq Require Import ZArith List Lia Bool.
From Verif Require Import CMonad WP Proof_Base Levels Model_Params Model_Randombytes Model_Kem Vocab_Code.
Import ListNotations.
Open Scope Z_scope.

Definition overwrite (out : list Z) (oo : nat) (bs : list Z) : list Z :=
  firstn oo out ++ bs ++ skipn (oo + length bs) out.

Lemma overwrite_nil out oo : overwrite out oo [] = out.
Proof. unfold overwrite. cbn [app length]. now rewrite Nat.add_0_r, firstn_skipn. Qed.
Lemma overwrite_app out oo a b : (oo + length a + length b <= length out)%nat ->
  overwrite (overwrite out oo a) (oo + length a) b = overwrite out oo (a ++ b).
Proof.
  intros L. unfold overwrite.
  assert (L1 : length (firstn oo out) = oo) by (apply firstn_length_le; lia).
  replace (firstn (oo + length a) (firstn oo out ++ a ++ skipn (oo + length a) out)) with (firstn oo out ++ a).
  - rewrite <- !app_assoc. f_equal. f_equal. f_equal.
    rewrite !skipn_app, L1. rewrite (skipn_all2 (firstn oo out)) by lia. cbn [app].
    rewrite (skipn_all2 a) by lia. cbn [app]. rewrite skipn_skipn. f_equal. rewrite app_length. lia.
  - rewrite app_assoc. rewrite firstn_app. rewrite app_length, L1, Nat.sub_diag, firstn_O, app_nil_r.
    symmetry. apply firstn_all2. rewrite app_length. lia.
Qed.
Lemma overwrite_length out oo bs : (oo + length bs <= length out)%nat -> length (overwrite out oo bs) = length out.
Proof. intros. unfold overwrite. rewrite !app_length, skipn_length, firstn_length. lia. Qed.

Lemma shortest_nil m : shortest [] m.
Proof. intros u v E N. symmetry in E. apply app_eq_nil in E as [_ E]. contradiction. Qed.
Lemma shortest_cons r used m m' : (0 < m)%nat -> (length (delivered [r]) + m' <= m)%nat -> shortest used m' -> shortest (r :: used) m.
Proof.
  intros P L S u v E N. destruct u as [|r' u]; [exact P|]. cbn [app] in E. injection E as <- E. specialize (S u v E N).
  change (delivered (r :: u)) with (delivered ([r] ++ u)). unfold delivered in *. rewrite flat_map_app, app_length. lia.
Qed.

Lemma randombytes_spec sched : forall out oo outlen, kernel_ok sched outlen -> (oo + outlen <= length out)%nat ->
  match randombytes sched out oo outlen with
  | Ok (out', rest) _ => exists used, sched = used ++ rest /\ ~ In Failed used /\
      length (delivered used) = outlen /\ out' = overwrite out oo (delivered used) /\ shortest used outlen
  | Abort => exists used rest, sched = used ++ Failed :: rest /\ ~ In Failed used /\ (length (delivered used) < outlen)%nat
  | Timeout => ~ In Failed sched /\ (length (delivered sched) < outlen)%nat
  | UB _ => False
  end.
Proof.
  induction sched as [|r sched IH]; intros out oo outlen HK HL; cbn [randombytes].
  - destruct (Nat.eqb_spec outlen 0) as [->|Hne].
    + cbn. exists []. cbn. rewrite overwrite_nil. auto using shortest_nil.
    + cbn. split; [auto|]. lia.
  - destruct (Nat.eqb_spec outlen 0) as [->|Hne].
    + cbn. exists []. cbn. rewrite overwrite_nil. auto using shortest_nil.
    + cbn [kernel_ok] in HK. destruct HK as [HK|HK]; [lia|]. destruct r as [| |bs].
      * specialize (IH out oo outlen HK HL).
        destruct (randombytes sched out oo outlen) as [[out' rest] t| | |]; auto.
        -- destruct IH as (used & -> & NF & Ld & Eo & Sh). exists (Interrupted :: used). cbn [app delivered flat_map].
           refine (conj eq_refl (conj _ (conj Ld (conj Eo _)))); [cbn; intuition discriminate|].
           apply (shortest_cons _ _ _ outlen); cbn; auto; lia.
        -- destruct IH as [NF Ld]. split; [cbn; intuition discriminate|exact Ld].
        -- destruct IH as (used & rest & -> & NF & Ld). exists (Interrupted :: used), rest. cbn [app delivered flat_map].
           refine (conj eq_refl (conj _ Ld)). cbn. intuition discriminate.
      * exists [], sched. cbn. repeat split; auto. lia.
      * destruct HK as (Hb & _ & HK). unfold kernel_write.
        destruct (Nat.leb_spec (oo + length bs) (length out)); [|lia]. unfold ret. cbn [bind app].
        fold (overwrite out oo bs).
        assert (HL' : (oo + length bs + (outlen - length bs) <= length (overwrite out oo bs))%nat) by (rewrite overwrite_length; lia).
        specialize (IH (overwrite out oo bs) (oo + length bs)%nat (outlen - length bs)%nat HK HL').
        destruct (randombytes sched (overwrite out oo bs) (oo + length bs) (outlen - length bs)) as [[out' rest] t| | |]; auto.
        -- destruct IH as (used & -> & NF & Ld & Eo & Sh). exists (Delivered bs :: used). cbn [app delivered flat_map].
           change (flat_map _ used) with (delivered used).
           refine (conj eq_refl (conj _ (conj _ (conj _ _)))).
           ++ cbn. intuition discriminate.
           ++ rewrite app_length. lia.
           ++ rewrite Eo. apply overwrite_app. lia.
           ++ apply (shortest_cons _ _ _ (outlen - length bs)); [lia| |exact Sh]. cbn. rewrite app_nil_r. lia.
        -- destruct IH as [NF Ld]. cbn [delivered flat_map]. change (flat_map _ sched) with (delivered sched).
           split; [cbn; intuition discriminate|rewrite app_length; lia].
        -- destruct IH as (used & rest & -> & NF & Ld). exists (Delivered bs :: used), rest. cbn [app delivered flat_map].
           change (flat_map _ used) with (delivered used).
           refine (conj eq_refl (conj _ _)); [cbn; intuition discriminate|rewrite app_length; lia].
Qed.

Lemma kernel_ok_bytes used : forall rest outlen, kernel_ok (used ++ rest) outlen -> ~ In Failed used ->
  shortest used outlen -> forall x, In x (delivered used) -> 0 <= x < 256.
Proof.
  induction used as [|r used IH]; intros rest outlen HK NF HM x Hx; [contradiction|].
  cbn [app kernel_ok] in HK. pose proof (HM [] (r :: used) eq_refl ltac:(discriminate)) as H0. cbn in H0.
  destruct HK as [HK|HK]; [lia|].
  assert (NF' : ~ In Failed used) by (intros I; apply NF; now right).
  destruct r as [| |bs].
  - apply (IH rest outlen HK NF'); [|exact Hx]. intros u v E Nv. apply (HM (Interrupted :: u) v); [now rewrite E|exact Nv].
  - elim NF. now left.
  - destruct HK as (Hb & Hr & HK). cbn [delivered flat_map] in Hx. apply in_app_or in Hx as [Hx|Hx]; [now apply Hr|].
    apply (IH rest _ HK NF'); [|exact Hx]. intros u v E Nv.
    specialize (HM (Delivered bs :: u) v ltac:(now rewrite E) Nv). cbn [delivered flat_map] in HM. rewrite app_length in HM.
    change (flat_map _ u) with (delivered u) in HM. lia.
Qed.

(** The replies that make up the bytes: exactly they are consumed *)
Lemma randombytes_exact used : forall rest out oo outlen, kernel_ok (used ++ rest) outlen -> (oo + outlen <= length out)%nat ->
  ~ In Failed used -> shortest used outlen -> length (delivered used) = outlen ->
  exists T, randombytes (used ++ rest) out oo outlen = Ok (overwrite out oo (delivered used), rest) T.
Proof.
  induction used as [|r used IH]; intros rest out oo outlen HK HL NF HM Ld.
  - cbn in Ld. subst outlen. cbn [app delivered flat_map]. rewrite overwrite_nil. exists []. destruct rest; reflexivity.
  - cbn [app kernel_ok] in HK. pose proof (HM [] (r :: used) eq_refl ltac:(discriminate)) as H0. cbn in H0.
    destruct HK as [HK|HK]; [lia|].
    assert (NF' : ~ In Failed used) by (intros I; apply NF; now right).
    cbn [app randombytes]. destruct (Nat.eqb_spec outlen 0); [lia|]. destruct r as [| |bs].
    + apply IH; auto. intros u v E Nv. apply (HM (Interrupted :: u) v); [now rewrite E|exact Nv].
    + elim NF. now left.
    + destruct HK as (Hb & Hr & HK). cbn [delivered flat_map] in *. change (flat_map _ used) with (delivered used) in *.
      rewrite app_length in Ld.
      unfold kernel_write. destruct (Nat.leb_spec (oo + length bs) (length out)); [|lia]. unfold ret. cbn [bind app].
      fold (overwrite out oo bs).
      destruct (IH rest (overwrite out oo bs) (oo + length bs)%nat (outlen - length bs)%nat HK) as [T ->]; auto; try lia.
      * rewrite overwrite_length; lia.
      * intros u v E Nv. specialize (HM (Delivered bs :: u) v ltac:(now rewrite E) Nv). cbn [delivered flat_map] in HM.
        rewrite app_length in HM. change (flat_map _ u) with (delivered u) in HM. lia.
      * exists T. rewrite overwrite_app by lia. reflexivity.
Qed.

(** Enough bytes and no failure before they are there: it returns *)
Lemma randombytes_returns used : forall rest out oo outlen, kernel_ok (used ++ rest) outlen -> (oo + outlen <= length out)%nat ->
  ~ In Failed used -> (outlen <= length (delivered used))%nat ->
  exists out' rest' T, randombytes (used ++ rest) out oo outlen = Ok (out', rest') T.
Proof.
  intros rest out oo outlen HK HL NF Ld. pose proof (randombytes_spec (used ++ rest) out oo outlen HK HL) as S.
  destruct (randombytes (used ++ rest) out oo outlen) as [[out' rest'] t| | |]; [eauto|contradiction| |].
  - destruct S as [_ Ld']. unfold delivered in *. rewrite flat_map_app, app_length in Ld'. lia.
  - destruct S as (u' & r' & E & NF' & Ld').
    exfalso. (* the failure comes after [used], which already delivers enough *)
    assert (P : (length used <= length u')%nat).
    { destruct (Nat.le_gt_cases (length used) (length u')) as [|G]; [assumption|]. exfalso. apply NF.
      assert (E1 : nth_error (used ++ rest) (length u') = Some Failed).
      { rewrite E. rewrite nth_error_app2, Nat.sub_diag by lia. reflexivity. }
      rewrite nth_error_app1 in E1 by lia. now apply nth_error_In in E1. }
    assert (EU : exists w, u' = used ++ w).
    { exists (skipn (length used) u'). rewrite <- (firstn_skipn (length used) u') at 1. f_equal.
      transitivity (firstn (length used) (used ++ rest)).
      - rewrite E, firstn_app. replace (length used - length u')%nat with 0%nat by lia. now rewrite firstn_O, app_nil_r.
      - rewrite firstn_app, Nat.sub_diag, firstn_all. cbn. now rewrite app_nil_r. }
    destruct EU as [w ->]. unfold delivered in *. rewrite flat_map_app, app_length in Ld'. lia.
Qed.

Lemma randombytes_fails used : forall rest out oo outlen, kernel_ok (used ++ Failed :: rest) outlen -> (oo + outlen <= length out)%nat ->
  ~ In Failed used -> (length (delivered used) < outlen)%nat -> randombytes (used ++ Failed :: rest) out oo outlen = Abort.
Proof.
  induction used as [|r used IH]; intros rest out oo outlen HK HL NF L; cbn [app randombytes].
  - cbn in L. destruct (Nat.eqb_spec outlen 0); [lia|reflexivity].
  - destruct (Nat.eqb_spec outlen 0); [lia|]. cbn [app kernel_ok] in HK. destruct HK as [HK|HK]; [lia|].
    assert (NF' : ~ In Failed used) by (intros I; apply NF; now right).
    destruct r as [| |bs]; [now apply IH|elim NF; now left|].
    destruct HK as (Hb & _ & HK). cbn [delivered flat_map] in L. change (flat_map _ used) with (delivered used) in L.
    rewrite app_length in L. unfold kernel_write. destruct (Nat.leb_spec (oo + length bs) (length out)); [|lia].
    unfold ret. cbn [bind app]. fold (overwrite out oo bs). rewrite IH; auto; try (rewrite overwrite_length; lia); try lia.
Qed.

(** ** The fallback through /dev/urandom *)
Lemma open_loop_spec opens : forall fd,
  match open_loop opens fd with
  | Ok (fd', rest) _ => exists used, opens = used ++ rest /\ ~ In OpenFailed used /\ fd' <> -1 /\
      (fd <> -1 -> fd' = fd /\ used = []) /\ (fd = -1 -> In (Opened fd') used)
  | Abort => exists used rest, opens = used ++ OpenFailed :: rest
  | Timeout => fd = -1 /\ ~ In OpenFailed opens /\ forall fd', In (Opened fd') opens -> fd' = -1
  | UB _ => False
  end.
Proof.
  induction opens as [|o opens IH]; intros fd; cbn [open_loop].
  - destruct (Z.eqb_spec fd (-1)) as [->|N]; cbn [negb].
    + repeat split; auto; contradiction.
    + exists []. cbn. repeat split; auto; try contradiction. 
  - destruct (Z.eqb_spec fd (-1)) as [->|N]; cbn [negb].
    + destruct o as [| |fd'].
      * specialize (IH (-1)). destruct (open_loop opens (-1)) as [[f r] t| | |]; auto.
        -- destruct IH as (u & -> & NF & N1 & _ & I1). exists (OpenInterrupted :: u). cbn. repeat split; auto; try lia; intuition discriminate.
        -- destruct IH as (_ & NF & A). repeat split; auto; cbn; try (intuition discriminate). intros f [F|F]; [discriminate|auto].
        -- destruct IH as (u & r & ->). exists (OpenInterrupted :: u), r. reflexivity.
      * exists [], opens. reflexivity.
      * specialize (IH fd'). destruct (open_loop opens fd') as [[f r] t| | |]; auto.
        -- destruct IH as (u & -> & NF & N1 & A & I1). exists (Opened fd' :: u). cbn.
           repeat split; auto; try (intuition discriminate); try lia.
           intros _. destruct (Z.eq_dec fd' (-1)) as [->|M]; [right; auto|left]. destruct (A M); congruence.
        -- destruct IH as (-> & NF & A). repeat split; auto; cbn; try (intuition discriminate).
           intros f [F|F]; [congruence|auto].
        -- destruct IH as (u & r & ->). exists (Opened fd' :: u), r. reflexivity.
    + exists []. cbn. repeat split; auto; contradiction.
Qed.

(** ** The randomised API *)
Lemma overwrite_full out bs : length bs = length out -> overwrite out 0 bs = bs.
Proof. intros L. unfold overwrite. cbn [firstn app Nat.add]. now rewrite skipn_all2, app_nil_r by lia. Qed.

(** The wrapper adds nothing but the coins *)
Lemma kem_keypair_random lv fuel (JJ : Junk) used rest pk sk : kernel_ok (used ++ rest) 64 -> ~ In Failed used ->
  shortest used 64 -> length (delivered used) = 64%nat ->
  match crypto_kem_keypair_derand lv fuel pk sk (delivered used) with
  | Ok (ek, dk, _) _ => exists T, crypto_kem_keypair lv fuel (used ++ rest) pk sk = Ok (ek, dk, 0, rest) T
  | UB u => crypto_kem_keypair lv fuel (used ++ rest) pk sk = UB u
  | Timeout => crypto_kem_keypair lv fuel (used ++ rest) pk sk = Timeout
  | Abort => crypto_kem_keypair lv fuel (used ++ rest) pk sk = Abort
  end.
Proof.
  intros HK NF Sh L. unfold crypto_kem_keypair. change (2 * KYBER_SYMBYTES)%nat with 64%nat.
  destruct (randombytes_exact used rest (local 64) 0 64 HK) as [T ->]; auto; try (rewrite local_length; lia).
  rewrite overwrite_full by (now rewrite L, local_length). cbn [bind].
  destruct (crypto_kem_keypair_derand lv fuel pk sk (delivered used)) as [[[p s] r] t'| | |]; cbn [bind ret]; eauto.
Qed.
Lemma kem_enc_random lv fuel (JJ : Junk) used rest ct ss pk : kernel_ok (used ++ rest) 32 -> ~ In Failed used ->
  shortest used 32 -> length (delivered used) = 32%nat ->
  match crypto_kem_enc_derand lv fuel ct ss pk (delivered used) with
  | Ok (c, K, _) _ => exists T, crypto_kem_enc lv fuel (used ++ rest) ct ss pk = Ok (c, K, 0, rest) T
  | UB u => crypto_kem_enc lv fuel (used ++ rest) ct ss pk = UB u
  | Timeout => crypto_kem_enc lv fuel (used ++ rest) ct ss pk = Timeout
  | Abort => crypto_kem_enc lv fuel (used ++ rest) ct ss pk = Abort
  end.
Proof.
  intros HK NF Sh L. unfold crypto_kem_enc. change KYBER_SYMBYTES with 32%nat.
  destruct (randombytes_exact used rest (local 32) 0 32 HK) as [T ->]; auto; try (rewrite local_length; lia).
  rewrite overwrite_full by (now rewrite L, local_length). cbn [bind].
  destruct (crypto_kem_enc_derand lv fuel ct ss pk (delivered used)) as [[[p s] r] t'| | |]; cbn [bind ret]; eauto.
Qed.
