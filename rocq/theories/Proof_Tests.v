(** * The test programs on a stream of random bytes *)
From Coq Require Import ZArith List Lia Bool String.
From Verif Require Import CMonad WP Proof_Base Levels Model_Params Model_Randombytes Model_Kem Model_AvxKem Spec_FIPS202 Spec_FIPS203 Vocab Vocab_Code Vocab_Avx
  Vocab_Rng Vocab_Bind Model_Tests Vocab_Tests Proof_Api Proof_AvxApi Proof_PropKem Proof_PropAvxKem Proof_Random Proof_Rng.
Import ListNotations.
Open Scope Z_scope.
Open Scope cmonad_scope.
Notation length := List.length.
Notation overwrite := Vocab_Rng.overwrite.
Local Opaque SHA3_256 SHA3_512 SHAKE256 SHAKE128.
Local Opaque keypair_derand_of enc_derand_of dec_of.

(** ** Rules *)
Lemma safely_bind {A B} (m : res A) (f : A -> res B) Q Q' : safely m Q -> (forall v, Q v -> safely (f v) Q') -> safely (bind m f) Q'.
Proof.
  unfold safely, bind. destruct m as [v T|u| |]; auto. intros H1 H2. specialize (H2 v H1). destruct (f v); auto.
Qed.
Lemma safely_mono {A} (m : res A) (Q Q' : A -> Prop) : safely m Q -> (forall v, Q v -> Q' v) -> safely m Q'.
Proof. unfold safely. destruct m; auto. Qed.
Lemma safely_ret {A} (v : A) (Q : A -> Prop) : Q v -> safely (ret v) Q.
Proof. auto. Qed.
Lemma safely_yields {A} (m : res A) v (Q : A -> Prop) : yields m v -> Q v -> safely m Q.
Proof. intros [T ->]. auto. Qed.
Lemma safely_ok {A} (m : res A) (Q : A -> Prop) v T : safely m Q -> m = Ok v T -> Q v.
Proof. intros S ->. exact S. Qed.

Lemma piece_length f p m : length (piece f p m) = m.
Proof. unfold piece. now rewrite map_length, seq_length. Qed.
Lemma piece_split f p a b : piece f p (a + b) = piece f p a ++ piece f (p + a) b.
Proof. unfold piece. now rewrite seq_app, map_app. Qed.
Lemma piece_nth f p m i : (i < m)%nat -> nth i (piece f p m) 0 = f (p + i)%nat.
Proof.
  intros L. unfold piece. rewrite (nth_indep _ 0 (f 0%nat)) by (now rewrite map_length, seq_length).
  now rewrite map_nth, seq_nth.
Qed.
Lemma overwrite_all x new : length x = length new -> overwrite x 0 new = new.
Proof. intros L. unfold overwrite. rewrite skipn_all2 by lia. now rewrite app_nil_r. Qed.
Lemma all_bytes_app a b : all_bytes (a ++ b) -> all_bytes a /\ all_bytes b.
Proof. intros B. split; intros x Hx; apply B, in_or_app; auto. Qed.
Lemma local_len (JJ : Junk) m : length (@local JJ m) = m.
Proof. unfold local. now rewrite map_length, seq_length. Qed.

(** ** The deterministic functions of either variant *)
Lemma kp_safe V (JJ : Junk) lv fuel pk sk d z : length pk = KYBER_PUBLICKEYBYTES lv -> length sk = KYBER_SECRETKEYBYTES lv ->
  byte_array 32 d -> byte_array 32 z ->
  safely (keypair_derand_of V JJ lv fuel pk sk (d ++ z)) (fun v => let '(ek, dk, r) := v in
    KeyGen_internal (PS lv) d z ek dk /\ byte_array (KYBER_PUBLICKEYBYTES lv) ek /\ byte_array (KYBER_SECRETKEYBYTES lv) dk).
Proof.
  intros Lp Ls Hd Hz.
  destruct (keypair_derand_of V JJ lv fuel pk sk (d ++ z)) as [[[ek dk] r] T|u| |] eqn:E; cbn [safely]; auto.
  - destruct (keypair_of_sound V JJ lv fuel pk sk d z ek dk r T Lp Ls Hd Hz E) as [_ HK].
    split; [exact HK|]. exact (KeyGen_internal_sizes _ _ _ _ _ Hz HK).
  - pose proof (coins_of d z Hd Hz) as Hc. destruct V.
    + destruct (keypair_outcome lv fuel JJ pk sk _ Lp Ls Hc) as [(a & b & c & X)|X]; pose proof (eq_trans (eq_sym E) X) as Y; discriminate Y.
    + destruct (avx_keypair_outcome lv fuel JJ pk sk _ Lp Ls Hc) as [(a & b & c & X)|X]; pose proof (eq_trans (eq_sym E) X) as Y; discriminate Y.
Qed.
Lemma enc_safe V (JJ : Junk) lv fuel ct ss pk m : length ct = KYBER_CIPHERTEXTBYTES lv -> length ss = 32%nat ->
  byte_array (KYBER_PUBLICKEYBYTES lv) pk -> byte_array 32 m ->
  safely (enc_derand_of V JJ lv fuel ct ss pk m) (fun v => let '(c, K, r) := v in
    Encaps_internal (PS lv) pk m K c /\ byte_array (KYBER_CIPHERTEXTBYTES lv) c /\ byte_array 32 K).
Proof.
  intros Lc Ls Hp Hm.
  destruct (enc_derand_of V JJ lv fuel ct ss pk m) as [[[c K] r] T|u| |] eqn:E; cbn [safely]; auto.
  - destruct (enc_of_sound V JJ lv fuel ct ss pk m c K r T Lc Ls Hp Hm E) as [_ HK].
    split; [exact HK|]. destruct (Encaps_internal_sizes _ _ _ _ _ HK). now split.
  - destruct V.
    + destruct (enc_outcome lv fuel JJ ct ss pk m Lc Ls Hp Hm) as [(a & b & c & X)|X]; pose proof (eq_trans (eq_sym E) X) as Y; discriminate Y.
    + destruct (avx_enc_outcome lv fuel JJ ct ss pk m Lc Ls Hp Hm) as [(a & b & c & X)|X]; pose proof (eq_trans (eq_sym E) X) as Y; discriminate Y.
Qed.
Lemma dec_safe V (JJ : Junk) lv fuel ss ct sk : length ss = 32%nat -> byte_array (KYBER_CIPHERTEXTBYTES lv) ct ->
  byte_array (KYBER_SECRETKEYBYTES lv) sk ->
  safely (dec_of V JJ lv fuel ss ct sk) (fun v => let '(K, r) := v in Decaps_internal (PS lv) sk ct K /\ byte_array 32 K).
Proof.
  intros Ls Hc Hk.
  destruct (dec_of V JJ lv fuel ss ct sk) as [[K r] T|u| |] eqn:E; cbn [safely]; auto.
  - destruct (dec_of_sound V JJ lv fuel ss ct sk K r T Ls Hc Hk E) as [_ HK].
    split; [exact HK|]. exact (Decaps_internal_sizes _ _ _ _ HK).
  - destruct V.
    + destruct (dec_outcome lv fuel JJ ss ct sk Ls Hc Hk) as [(a & b & X)|X]; pose proof (eq_trans (eq_sym E) X) as Y; discriminate Y.
    + destruct (avx_dec_outcome lv fuel JJ ss ct sk Ls Hc Hk) as [(a & b & X)|X]; pose proof (eq_trans (eq_sym E) X) as Y; discriminate Y.
Qed.

Lemma same_bytes_eq a : forall b, length a = length b -> same_bytes a b = true <-> a = b.
Proof.
  induction a as [|x a IH]; intros [|y b] L; try discriminate L; cbn [same_bytes]; [tauto|].
  rewrite andb_true_iff, Z.eqb_eq, IH by (cbn in L; lia). split; [intros [-> ->]; reflexivity|intros [= -> ->]; auto].
Qed.
Lemma memcmp_yields a b m : length a = m -> length b = m ->
  exists d, yields (memcmp a b m) d /\ (d = 0 <-> a = b).
Proof.
  intros La Lb. unfold memcmp. rewrite La, Lb, Nat.leb_refl. cbn [andb]. rewrite !firstn_all2 by lia.
  eexists. split; [apply yields_ret|]. rewrite <- (same_bytes_eq a b) by lia. destruct (same_bytes a b); split; congruence || lia.
Qed.

(** ** The randomised functions *)
Section Source.
Context {S : Type} (rb : S -> list Z -> nat -> nat -> res (list Z * S)) (f : nat -> Z) (R : list nat -> nat -> S -> Prop).
(** Fit for each request list of a set *)
Definition rdy (D : list nat -> Prop) p s : Prop := (exists l, D l) /\ forall l, D l -> R l p s.
Definition req (len : nat) (D : list nat -> Prop) (l : list nat) : Prop := exists l', l = len :: l' /\ D l'.
Definition draws (p : nat) (D : nat -> list nat -> Prop) (l : list nat) : Prop :=
  (exists i, (forall j, (Datatypes.S j < i)%nat -> f (p + j) = 0) /\ l = repeat 1%nat i) \/
  exists i l', first_nonzero f p i /\ D i l' /\ l = repeat 1%nat (Datatypes.S i) ++ l'.
Hypothesis HS : stream_source rb f R.
Variables (V : variant) (lv : level) (fuel : nat).

Lemma rdy_sub (D D' : list nat -> Prop) p s : rdy D p s -> (exists l, D' l) -> (forall l, D' l -> D l) -> rdy D' p s.
Proof. intros [_ H] N I. split; [exact N|]. auto. Qed.
Lemma rb_safe len D p s x : rdy (req len D) p s -> length x = len ->
  safely (rb s x 0 len) (fun v => fst v = piece f p len /\ byte_array len (piece f p len) /\ rdy D (p + len)%nat (snd v)).
Proof.
  intros [[l0 (l & -> & D0)] HR] L.
  pose proof (fun l Hl => HS len l p s x 0%nat (HR (len :: l) (ex_intro _ l (conj eq_refl Hl))) (Nat.eq_le_incl _ _ (eq_sym L))) as X.
  unfold safely in *. destruct (rb s x 0 len) as [v T|u| |]; auto; [|exact (X l D0)].
  destruct (X l D0) as (E & B & _). rewrite overwrite_all in E by (now rewrite piece_length).
  split; [exact E|]. split; [split; [apply piece_length|exact B]|]. split; [now exists l|]. intros l' Hl'. now apply (X l').
Qed.
Lemma keypair_with_safe (JJ : Junk) D p s pk sk : rdy (req 64 D) p s ->
  length pk = KYBER_PUBLICKEYBYTES lv -> length sk = KYBER_SECRETKEYBYTES lv ->
  safely (keypair_with rb V lv fuel JJ s pk sk) (fun v => let '(ek, dk, r, s') := v in
    r = 0 /\ KeyGen_internal (PS lv) (piece f p 32) (piece f (p + 32) 32) ek dk /\
    byte_array (KYBER_PUBLICKEYBYTES lv) ek /\ byte_array (KYBER_SECRETKEYBYTES lv) dk /\ rdy D (p + 64)%nat s').
Proof.
  intros HR Lp Ls. unfold keypair_with. change (2 * KYBER_SYMBYTES)%nat with 64%nat.
  eapply safely_bind; [apply (rb_safe 64 D p s); [exact HR|apply local_len]|].
  intros [coins s'] (E & [_ B] & R'). cbn [fst snd] in E, R'. cbv beta iota.
  rewrite E. change 64%nat with (32 + 32)%nat in B |- *. rewrite (piece_split f p 32 32) in B |- *. apply all_bytes_app in B as [B1 B2].
  eapply safely_bind; [apply kp_safe; [exact Lp|exact Ls| |]; (split; [apply piece_length|assumption])|].
  intros [[ek dk] r] (HK & He & Hd). cbv beta iota. apply safely_ret. auto.
Qed.
Lemma enc_with_safe (JJ : Junk) D p s ct ss pk : rdy (req 32 D) p s ->
  length ct = KYBER_CIPHERTEXTBYTES lv -> length ss = 32%nat -> byte_array (KYBER_PUBLICKEYBYTES lv) pk ->
  safely (enc_with rb V lv fuel JJ s ct ss pk) (fun v => let '(c, K, r, s') := v in
    r = 0 /\ Encaps_internal (PS lv) pk (piece f p 32) K c /\
    byte_array (KYBER_CIPHERTEXTBYTES lv) c /\ byte_array 32 K /\ rdy D (p + 32)%nat s').
Proof.
  intros HR Lc Ls Hp. unfold enc_with. change KYBER_SYMBYTES with 32%nat.
  eapply safely_bind; [apply (rb_safe 32 D p s); [exact HR|apply local_len]|].
  intros [coins s'] (E & B & R'). cbn [fst snd] in E, R'. cbv beta iota. rewrite E.
  eapply safely_bind; [apply enc_safe; [exact Lc|exact Ls|exact Hp|exact B]|].
  intros [[c K] r] (HE & Hc & HK). cbv beta iota. apply safely_ret. auto.
Qed.

(** ** test_kyber.c *)
Lemma test_keys_safe JJ D p s : rdy (req 64 (req 32 D)) p s ->
  safely (test_keys rb V lv fuel JJ s) (fun v => keys_result lv f p (fst v) /\ rdy D (p + 96)%nat (snd v)).
Proof.
  intros HR. unfold test_keys.
  eapply safely_bind; [apply (keypair_with_safe (JJ 1%nat) _ p s _ _ HR); apply local_len|].
  intros [[[ek dk] r] s1] (_ & HK & He & Hd & R1). cbv beta iota.
  eapply safely_bind; [apply (enc_with_safe (JJ 2%nat) _ _ s1 _ _ ek R1); [apply local_len|apply local_len|exact He]|].
  intros [[[c K] r'] s2] (_ & HE & Hc & HKb & R2). cbv beta iota.
  eapply safely_bind; [apply (dec_safe V (JJ 3%nat) lv fuel _ c dk); [apply local_len|exact Hc|exact Hd]|].
  intros [K' r''] (HD & HK'). cbv beta iota. change KYBER_SSBYTES with 32%nat.
  destruct (memcmp_yields K' K 32 (proj1 HK') (proj1 HKb)) as (e & Y & Ee).
  eapply safely_bind; [apply (safely_yields _ _ (fun v => v = e) Y eq_refl)|]. intros ? ->. cbv beta.
  eapply safely_bind; [apply (safely_yields _ _ (fun v => v = negb (e =? 0)) (yields_test _) eq_refl)|]. intros ? ->. cbv beta.
  replace (p + 96)%nat with (p + 64 + 32)%nat by lia.
  destruct (Z.eqb_spec e 0) as [E0|E0]; cbn [negb]; apply safely_ret; (split; [|exact R2]); cbn [fst];
    exists ek, dk, K, c; (split; [split; assumption|]); exists K'; (split; [exact HD|]); [left|right]; (split; [|reflexivity]); tauto.
Qed.
Lemma test_sk_safe JJ D p s : rdy (req 64 (req 32 (req (skbytes lv) D))) p s ->
  safely (test_invalid_sk_a rb V lv fuel JJ s) (fun v => sk_result lv f p (fst v) /\ rdy D (p + 96 + skbytes lv)%nat (snd v)).
Proof.
  intros HR. unfold test_invalid_sk_a.
  eapply safely_bind; [apply (keypair_with_safe (JJ 1%nat) _ p s _ _ HR); apply local_len|].
  intros [[[ek dk] r] s1] (_ & HK & He & Hd & R1). cbv beta iota.
  eapply safely_bind; [apply (enc_with_safe (JJ 2%nat) _ _ s1 _ _ ek R1); [apply local_len|apply local_len|exact He]|].
  intros [[[c K] r'] s2] (_ & HE & Hc & HKb & R2). cbv beta iota. fold (skbytes lv).
  eapply safely_bind; [apply (rb_safe _ _ _ s2 dk R2 (proj1 Hd))|].
  intros [sk s3] (Ek & Hk & R3). cbn [fst snd] in Ek, R3. cbv beta iota. subst sk.
  eapply safely_bind; [apply (dec_safe V (JJ 3%nat) lv fuel _ c _); [apply local_len|exact Hc|exact Hk]|].
  intros [K' r''] (HD & HK'). cbv beta iota. change KYBER_SSBYTES with 32%nat.
  destruct (memcmp_yields K' K 32 (proj1 HK') (proj1 HKb)) as (e & Y & Ee).
  eapply safely_bind; [apply (safely_yields _ _ (fun v => v = e) Y eq_refl)|]. intros ? ->. cbv beta.
  eapply safely_bind; [apply (safely_yields _ _ (fun v => v = (e =? 0)) (yields_test _) eq_refl)|]. intros ? ->. cbv beta.
  replace (p + 64 + 32)%nat with (p + 96)%nat in HD, R3 by lia.
  destruct (Z.eqb_spec e 0) as [E0|E0]; apply safely_ret; (split; [|exact R3]); cbn [fst];
    exists ek, dk, K, c; (split; [split; assumption|]); exists K'; (split; [exact HD|]); [left|right]; (split; [|reflexivity]); tauto.
Qed.
Lemma first_nonzero_S p i : f p = 0 -> first_nonzero f (p + 1) i -> first_nonzero f p (Datatypes.S i).
Proof.
  intros E [N Z0]. split; [now replace (p + Datatypes.S i)%nat with (p + 1 + i)%nat by lia|].
  intros [|j] Hj; [now rewrite Nat.add_0_r|]. replace (p + Datatypes.S j)%nat with (p + 1 + j)%nat by lia. apply Z0. lia.
Qed.
Lemma draw_safe tries : forall D b p s, (forall i, first_nonzero f p i -> exists l, D i l) -> rdy (draws p D) p s -> length b = 1%nat ->
  safely (draw_nonzero rb tries s b) (fun v => exists i, first_nonzero f p i /\ fst v = f (p + i)%nat /\ 0 <= fst v < 256 /\
    rdy (D i) (p + i + 1)%nat (snd v)).
Proof.
  induction tries as [|tries IH]; intros D b p s HN HR Lb; cbn [draw_nonzero]; [exact I|].
  set (D1 := fun l : list nat => if f p =? 0 then draws (p + 1) (fun i => D (Datatypes.S i)) l else D 0%nat l).
  assert (HR1 : rdy (req 1 D1) p s).
  { apply (rdy_sub _ _ _ _ HR); unfold req, D1; destruct (Z.eqb_spec (f p) 0) as [E|E].
    - exists [1%nat], []. split; [reflexivity|]. left. exists 0%nat. split; [intros j Hj; lia|reflexivity].
    - destruct (HN 0%nat) as [l Hl]; [split; [now rewrite Nat.add_0_r|intros j Hj; lia]|]. now exists (1%nat :: l), l.
    - intros ? (l & -> & [(i & Z0 & ->)|(i & l' & F & Hl & ->)]).
      + left. exists (Datatypes.S i). split; [|reflexivity]. intros [|j] Hj; [now rewrite Nat.add_0_r|].
        replace (p + Datatypes.S j)%nat with (p + 1 + j)%nat by lia. apply Z0. lia.
      + right. exists (Datatypes.S i), l'. split; [now apply first_nonzero_S|]. split; [exact Hl|reflexivity].
    - intros ? (l & -> & Hl). right. exists 0%nat, l. split; [split; [now rewrite Nat.add_0_r|intros j Hj; lia]|]. split; [exact Hl|reflexivity]. }
  eapply safely_bind; [apply (rb_safe 1 D1 p s b HR1 Lb)|]. intros [b' s'] (E & [_ B] & R'). cbn [fst snd] in E, R'. cbv beta iota. subst b'.
  cbn [piece seq map] in *. eapply safely_bind; [apply (safely_yields _ (f p) (fun v => v = f p)); [apply (yields_aget [f p] 0); cbn; lia|reflexivity]|].
  intros ? ->. cbv beta. eapply safely_bind; [apply (safely_yields _ _ (fun v => v = (f p =? 0)) (yields_test _) eq_refl)|]. intros ? ->. cbv beta.
  unfold D1 in R'. destruct (Z.eqb_spec (f p) 0) as [E0|E0].
  - eapply safely_mono; [apply (IH (fun i => D (Datatypes.S i)) [f p] (p + 1)%nat s')|].
    + intros i F. apply HN. now apply first_nonzero_S.
    + exact R'.
    + reflexivity.
    + cbv beta. intros v (i & F & Ev & Bv & Rv).
      exists (Datatypes.S i). split; [now apply first_nonzero_S|]. replace (p + Datatypes.S i)%nat with (p + 1 + i)%nat by lia. auto.
  - apply safely_ret. exists 0%nat. cbn [fst snd]. rewrite Nat.add_0_r. split; [split; [now rewrite Nat.add_0_r|intros j Hj; lia]|].
    split; [reflexivity|]. split; [apply B; now left|exact R'].
Qed.
Lemma le_value_piece p : le_value (piece f p 8) = position_at f p.
Proof. unfold position_at, piece. cbn [seq map le_value fold_right]. rewrite !Nat.add_succ_r, !Nat.add_0_r. reflexivity. Qed.
Lemma flip_ok c i b : (i < length c)%nat -> all_bytes c -> 0 <= b < 256 ->
  exists c', yields (x <- aget c i ;; aset c i (u8 (Z.lxor x b))) c' /\ flipped c i b c' /\ byte_array (length c) c'.
Proof.
  intros Hi Hc Hb. set (x := nth i c 0). assert (Hx : 0 <= x < 256) by (apply Hc, nth_In, Hi).
  assert (HX : 0 <= Z.lxor x b <= 255) by (apply Proof_Verify.lxor_byte; lia).
  assert (U : u8 (Z.lxor x b) = Z.lxor x b) by (unfold u8, wrapu; rewrite Z.mod_small by (cbn; lia); reflexivity).
  exists (upd c i (Z.lxor x b)). split; [|split].
  - eapply yields_bind; [now apply yields_aget|]. cbv beta. fold x. rewrite U. now apply yields_aset.
  - split; [apply upd_length|]. intros j. rewrite nth_upd. destruct (Nat.ltb_spec i (length c)) as [_|]; [|lia]. rewrite andb_true_r.
    destruct (Nat.eqb_spec j i) as [->|N]; reflexivity.
  - split; [apply upd_length|]. intros y Hy. apply In_nth with (d := 0) in Hy as (j & Hj & <-). rewrite upd_length in Hj.
    rewrite nth_upd. destruct ((j =? i)%nat && (i <? length c)%nat); [lia|]. now apply Hc, nth_In.
Qed.
Lemma test_ct_safe tries JJ D p s : (forall i, first_nonzero f p i -> exists l, D i l) ->
  rdy (draws p (fun i => req 8 (req 64 (req 32 (D i))))) p s ->
  safely (test_invalid_ciphertext rb V lv fuel tries JJ s) (fun v => exists i, ct_result lv f p i (fst v) /\ rdy (D i) (p + i + 105)%nat (snd v)).
Proof.
  intros HN HR. unfold test_invalid_ciphertext.
  eapply safely_bind; [apply (draw_safe tries (fun i => req 8 (req 64 (req 32 (D i)))) _ p s); [|exact HR|apply local_len]|].
  { intros i F. destruct (HN i F) as [l Hl]. exists (8 :: 64 :: 32 :: l)%nat. exists (64 :: 32 :: l)%nat. split; [reflexivity|].
    exists (32 :: l)%nat. split; [reflexivity|]. exists l. now split. }
  intros [b s0] (i & F & Eb & Bb & R0). cbn [fst snd] in Eb, Bb, R0. cbv beta iota.
  eapply safely_bind; [apply (rb_safe 8 _ _ s0 _ R0); apply local_len|].
  intros [pos s1'] (Ep & _ & R0'). cbn [fst snd] in Ep, R0'. cbv beta iota zeta. rewrite Ep, le_value_piece. clear Ep pos.
  replace (p + i + 1 + 8)%nat with (p + i + 9)%nat in R0' by lia.
  eapply safely_bind; [apply (keypair_with_safe (JJ 1%nat) _ _ s1' _ _ R0'); apply local_len|].
  intros [[[ek dk] r] s1] (_ & HK & He & Hd & R1). cbv beta iota.
  eapply safely_bind; [apply (enc_with_safe (JJ 2%nat) _ _ s1 _ _ ek R1); [apply local_len|apply local_len|exact He]|].
  intros [[[c K] r'] s2] (_ & HE & Hc & HKb & R2). cbv beta iota. fold (ctbytes lv).
  set (pos := Z.to_nat (position_at f (p + i + 1) mod Z.of_nat (ctbytes lv))).
  assert (Hpos : (pos < length c)%nat).
  { destruct Hc as [-> _]. fold (ctbytes lv). assert (0 < Z.of_nat (ctbytes lv)) by (destruct lv; cbn; lia).
    pose proof (Z.mod_pos_bound (position_at f (p + i + 1)) (Z.of_nat (ctbytes lv)) ltac:(assumption)). unfold pos. lia. }
  destruct (flip_ok c pos b Hpos (proj2 Hc) Bb) as (c' & Yc & Fl & Hc'). rewrite (proj1 Hc) in Hc'.
  assert (Hbind : forall B (g : list Z -> res B), (x <- aget c pos ;; ct <- aset c pos (u8 (Z.lxor x b)) ;; g ct) =
    bind (x <- aget c pos ;; aset c pos (u8 (Z.lxor x b))) g).
  { intros. unfold bind. destruct (aget c pos) as [v T|u| |]; try reflexivity. destruct (aset c pos (u8 (Z.lxor v b))) as [w T'|u| |]; try reflexivity.
    destruct (g w); try reflexivity. now rewrite app_assoc. }
  rewrite Hbind. eapply safely_bind; [apply (safely_yields _ _ (fun v => v = c') Yc eq_refl)|]. intros ? ->. cbv beta.
  eapply safely_bind; [apply (dec_safe V (JJ 3%nat) lv fuel _ c' dk); [apply local_len|exact Hc'|exact Hd]|].
  intros [K' r''] (HD & HK'). cbv beta iota. change KYBER_SSBYTES with 32%nat.
  destruct (memcmp_yields K' K 32 (proj1 HK') (proj1 HKb)) as (e & Y & Ee).
  eapply safely_bind; [apply (safely_yields _ _ (fun v => v = e) Y eq_refl)|]. intros ? ->. cbv beta.
  eapply safely_bind; [apply (safely_yields _ _ (fun v => v = (e =? 0)) (yields_test _) eq_refl)|]. intros ? ->. cbv beta.
  replace (p + i + 9 + 64 + 32)%nat with (p + i + 105)%nat in R2 by lia.
  rewrite Eb in Fl.
  destruct (Z.eqb_spec e 0) as [E0|E0]; apply safely_ret; exists i; (split; [|exact R2]); cbn [fst];
    (split; [exact F|]); exists ek, dk, K, c, c'; (split; [split; assumption|]); (split; [exact Fl|]);
    exists K'; (split; [exact HD|]); [left|right]; (split; [|reflexivity]); tauto.
Qed.

(** The request lists of a run, as sets *)
Fixpoint demand (n p : nat) : list nat -> Prop :=
  match n with
  | O => fun l => l = []
  | Datatypes.S n => req 64 (req 32 (req 64 (req 32 (req (skbytes lv) (draws (p + 192 + skbytes lv)
      (fun i => req 8 (req 64 (req 32 (demand n (p + 192 + skbytes lv + i + 105))))))))))
  end.
Lemma demand_some n : forall p, exists l, demand n p l.
Proof.
  induction n as [|n IH]; intros p; cbn [demand]; [now exists []|].
  eexists. do 5 (eexists; split; [reflexivity|]). left. exists 0%nat. split; [intros; lia|reflexivity].
Qed.
Lemma demand_sub n : forall p l, demand n p l -> test_requests lv f p n l.
Proof.
  induction n as [|n IH]; intros p l; cbn [demand].
  - intros ->. apply requests_done.
  - intros (l1 & -> & l2 & -> & l3 & -> & l4 & -> & l5 & -> & [(i & Z0 & ->)|(i & l' & F & (l6 & -> & l7 & -> & l8 & -> & Hl) & ->)]).
    + apply (requests_zeros lv f p n i Z0).
    + apply (requests_round lv f p n i l8 F). now apply IH.
Qed.
Lemma lor_bits a b : (a = 0 \/ a = 1) -> (b = 0 \/ b = 1) -> (Z.lor a b = 0 \/ Z.lor a b = 1) /\ (Z.lor a b = 0 <-> a = 0 /\ b = 0).
Proof. intros [-> | ->] [-> | ->]; cbn; lia. Qed.
Lemma agree_bit dk c K r : agree lv dk c K r -> r = 0 \/ r = 1.
Proof. intros (K' & _ & [[_ ->]|[_ ->]]); auto. Qed.
Lemma test_main_safe tries JJ : forall n p s, rdy (demand n p) p s ->
  safely (test_kyber_main rb V lv fuel tries n JJ s) (fun v => test_run lv f p n (fst v)).
Proof.
  induction n as [|n IH]; intros p s HR; cbn [test_kyber_main].
  - eapply safely_bind; [apply (safely_yields _ _ (fun _ => True) (yields_test _) I)|]. intros _ _. apply safely_ret. apply test_done.
  - eapply safely_bind; [apply (safely_yields _ _ (fun _ => True) (yields_test _) I)|]. intros _ _. cbn [demand] in HR.
    eapply safely_bind; [apply (test_keys_safe _ _ p s HR)|]. intros [r1 s1] (K1 & R1). cbn [fst snd] in K1, R1. cbv beta iota.
    eapply safely_bind; [apply (test_sk_safe _ _ (p + 96)%nat s1 R1)|]. intros [r2 s2] (K2 & R2). cbn [fst snd] in K2, R2. cbv beta iota zeta.
    replace (p + 96 + 96 + skbytes lv)%nat with (p + 192 + skbytes lv)%nat in R2 by lia.
    eapply safely_bind; [apply (test_ct_safe tries _ (fun i => demand n (p + 192 + skbytes lv + i + 105)) (p + 192 + skbytes lv)%nat s2 ); [|exact R2]|].
    { intros i _. apply demand_some. }
    intros [r3 s3] (i & K3 & R3). cbn [fst snd] in K3, R3. cbv beta iota zeta.
    eapply safely_bind; [apply (safely_yields _ _ (fun v => v = negb (Z.lor (Z.lor r1 r2) r3 =? 0)) (yields_test _) eq_refl)|]. intros ? ->. cbv beta.
    assert (B1 : r1 = 0 \/ r1 = 1) by (destruct K1 as (ek & dk & K & c & _ & A); exact (agree_bit _ _ _ _ A)).
    assert (B2 : r2 = 0 \/ r2 = 1) by (destruct K2 as (ek & dk & K & c & _ & A); apply agree_bit in A; lia).
    assert (B3 : r3 = 0 \/ r3 = 1) by (destruct K3 as (_ & ek & dk & K & c & c' & _ & _ & A); apply agree_bit in A; lia).
    destruct (lor_bits r1 r2 B1 B2) as [B12 E12]. destruct (lor_bits _ r3 B12 B3) as [_ E123].
    destruct (Z.eqb_spec (Z.lor (Z.lor r1 r2) r3) 0) as [E|E]; cbn [negb].
    + apply E123 in E as [E ->]. apply E12 in E as [-> ->].
      eapply safely_mono; [apply (IH _ s3 R3)|]. intros v Hv. exact (test_next lv f p n i _ K1 K2 K3 Hv).
    + apply safely_ret. apply (test_fail lv f p n r1 r2 i r3 K1 K2 K3). tauto.
Qed.
Lemma test_kyber_safe tries JJ n p s : (forall l, test_requests lv f p n l -> R l p s) ->
  safely (test_kyber_main rb V lv fuel tries n JJ s) (fun v => test_run lv f p n (fst v)).
Proof. intros HR. apply test_main_safe. split; [apply demand_some|]. intros l Hl. now apply HR, demand_sub. Qed.
End Source.
