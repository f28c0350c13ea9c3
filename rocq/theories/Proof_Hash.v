(** * The exported functions of fips202.c and symmetric-shake.c *)
From Coq Require Import ZArith List Lia Bool.
From Verif Require Import CMonad WP Proof_Base Proof_Bits Model_Params Model_Fips202 Model_Symmetric
  Spec_FIPS202 Spec_FIPS203 Proof_Keccak Proof_Sponge Proof_Shake.
Import ListNotations.
Open Scope Z_scope.

Definition shake_sfx := [true; true; true; true].
Definition sha3_sfx := [false; true].

(** Byte i of the output of the sponge with rate rb on the message M *)
Definition stream (rb : nat) (sfx : list bool) (M : list Z) (i : nat) : Z :=
  sqbyte rb (absorb (8 * rb) (padded rb sfx M)) i.

Definition rate_ok (rb rl : nat) : Prop := (0 < rb)%nat /\ (8 * rb <= 1600)%nat /\ rb = (8 * rl)%nat.

Lemma rate168 : rate_ok 168 21. Proof. unfold rate_ok. lia. Qed.
Lemma rate136 : rate_ok 136 17. Proof. unfold rate_ok. lia. Qed.
Lemma rate72 : rate_ok 72 9. Proof. unfold rate_ok. lia. Qed.

Lemma stream_range rb sfx M i : 0 <= stream rb sfx M i <= 255.
Proof. apply sqbyte_range. Qed.

Lemma finished_stream rb rl sfx M s i : rate_ok rb rl -> finished rb sfx M s ->
  sqbyte rb (sbits s) (rb + i) = stream rb sfx M i.
Proof.
  intros (H0 & H1 & H2) [W E]. unfold stream. rewrite <- E. symmetry. now apply sqbyte_shift.
Qed.

Lemma sqbyte_iter rb nb S i : (0 < rb)%nat ->
  sqbyte rb (Nat.iter nb keccak_f S) i = sqbyte rb S (nb * rb + i).
Proof.
  intros Hr. revert i. induction nb as [|nb IH]; intros i; [reflexivity|].
  rewrite iter_S, sqbyte_shift by auto. rewrite IH. f_equal. lia.
Qed.

Lemma SHAKE128_stream M n : SHAKE128 M n = mk n (stream 168 shake_sfx M).
Proof.
  unfold SHAKE128. change 1344%nat with (8 * 168)%nat. apply (sponge_bytes 168); lia.
Qed.
Lemma SHAKE256_stream M n : SHAKE256 M n = mk n (stream 136 shake_sfx M).
Proof.
  unfold SHAKE256. change 1088%nat with (8 * 136)%nat. apply (sponge_bytes 136); lia.
Qed.
Lemma SHA3_256_stream M : SHA3_256 M = mk 32 (stream 136 sha3_sfx M).
Proof.
  unfold SHA3_256. change 1088%nat with (8 * 136)%nat. change 256%nat with (8 * 32)%nat. apply (sponge_bytes 136); lia.
Qed.
Lemma SHA3_512_stream M : SHA3_512 M = mk 64 (stream 72 sha3_sfx M).
Proof.
  unfold SHA3_512. change 576%nat with (8 * 72)%nat. change 512%nat with (8 * 64)%nat. apply (sponge_bytes 72); lia.
Qed.

Lemma SHAKE128_length M n : length (SHAKE128 M n) = n.
Proof. now rewrite SHAKE128_stream, mk_length. Qed.
Lemma SHAKE256_length M n : length (SHAKE256 M n) = n.
Proof. now rewrite SHAKE256_stream, mk_length. Qed.
Lemma SHA3_256_length M : length (SHA3_256 M) = 32%nat.
Proof. now rewrite SHA3_256_stream, mk_length. Qed.
Lemma SHA3_512_length M : length (SHA3_512 M) = 64%nat.
Proof. now rewrite SHA3_512_stream, mk_length. Qed.
Lemma SHAKE256_bytes M n : bytes (SHAKE256 M n).
Proof. rewrite SHAKE256_stream. apply bnd_mk. intros. apply stream_range. Qed.
Lemma SHA3_256_bytes M : bytes (SHA3_256 M).
Proof. rewrite SHA3_256_stream. apply bnd_mk. intros. apply stream_range. Qed.
Lemma SHA3_512_bytes M : bytes (SHA3_512 M).
Proof. rewrite SHA3_512_stream. apply bnd_mk. intros. apply stream_range. Qed.
Lemma XOF_stream B i : XOF B i = stream 168 shake_sfx B i.
Proof. unfold XOF. rewrite SHAKE128_stream, nth_mk by lia. reflexivity. Qed.

(** ** The incremental interface *)
(** A keccak_state that has absorbed M *)
Definition absorbing (rb : nat) (M : list Z) (st : keccak_state) : Prop :=
  absorbed rb M (ks st) /\ kpos st = (length M mod rb)%nat.
(** A finalized keccak_state from which n bytes have been squeezed *)
Definition squeezing (rb : nat) (M : list Z) (n : nat) (st : keccak_state) : Prop :=
  wfstate (ks st) /\ kpos st = sq_pos rb rb n /\
  forall i, sqbyte rb (sbits (ks st)) (kpos st + i) = stream rb shake_sfx M (n + i).

Lemma shake_init_wp rb : (0 < rb)%nat ->
  traced (fun T => forall st, length (ks st) = 25%nat -> wp (shake_init st) T (absorbing rb [])).
Proof.
  intros Hr. eexists. intros st Hl. unfold shake_init, keccak_init. wstep.
  eapply wp_conseq; [apply (proj2_sig zero_state_wp); auto|]. intros ? ->. wstep.
  split; cbn [ks kpos]. { now apply zero_absorbed. } symmetry. apply Nat.mod_0_l. lia.
Qed.

Lemma shake_absorb_wp rb rl l io inlen : rate_ok rb rl ->
  traced (fun T => forall st inp M, absorbing rb M st -> length M = l -> (io + inlen <= length inp)%nat -> bytes inp ->
    wp (shake_absorb rb st inp io inlen) T (absorbing rb (M ++ sub inp io inlen))).
Proof.
  intros (Ra & Rb & Rc).
  assert (Hp : (l mod rb < rb)%nat) by (apply Nat.mod_upper_bound; lia).
  destruct (keccak_absorb_wp rb Ra Rb (l mod rb) io inlen Hp) as [T HT].
  exists (T ++ []). intros st inp M [HA HP] HM Hi Hb. rewrite HM in HP. unfold shake_absorb. rewrite HP.
  wstep. eapply wp_conseq; [apply HT; eauto; now rewrite HM|].
  intros [s pos] [HA' Hpos]. wstep. split; auto. cbn [kpos]. rewrite Hpos.
  rewrite app_length, sub_length, HM by auto. apply Nat.add_mod_idemp_l. lia.
Qed.

Lemma shake_finalize_wp rb rl l : rate_ok rb rl ->
  traced (fun T => forall st M, absorbing rb M st -> length M = l ->
    wp (shake_finalize rb st) T (squeezing rb M 0)).
Proof.
  intros HR. pose proof HR as (Ra & Rb & Rc).
  destruct (keccak_finalize_wp rb Ra Rb rl Rc (l mod rb)) as [T HT].
  exists (T ++ []). intros st M [HA HP] HM. rewrite HM in HP. unfold shake_finalize. rewrite HP. wstep.
  eapply wp_conseq; [apply (HT (ks st) 0x1F shake_sfx M); [exact HA|now rewrite HM|exact domain_shake|lia]|].
  intros s HF. wstep. split; [apply HF|]. split; [reflexivity|]. cbn [ks kpos]. intros i.
  eapply finished_stream; eauto.
Qed.

Lemma shake_squeeze_wp rb rl n oo outlen : rate_ok rb rl ->
  traced (fun T => forall st out M, squeezing rb M n st -> (oo + outlen <= length out)%nat ->
    wp (shake_squeeze rb out oo outlen st) T
       (fun '(out', st') => out' = splice out oo (mk outlen (fun j => stream rb shake_sfx M (n + j))) /\
          squeezing rb M (n + outlen) st')).
Proof.
  intros HR. pose proof HR as (Ra & Rb & Rc).
  assert (Hp : (sq_pos rb rb n <= rb)%nat).
  { unfold sq_pos. destruct (Nat.eqb_spec n 0); auto.
    pose proof (Nat.mod_upper_bound (rb + n - 1) rb ltac:(lia)). lia. }
  destruct (keccak_squeeze_wp rb Ra Rb oo outlen (sq_pos rb rb n) Hp) as [T HT].
  exists (T ++ []). intros st out M (W & HP & HS) Ho. unfold shake_squeeze. rewrite HP. wstep.
  eapply wp_conseq; [apply HT; auto|]. intros [[out' s'] pos'] (-> & W' & HP' & HS'). wstep. split; [|split; [exact W'|split]].
  - f_equal. apply mk_ext. intros j Hj. rewrite <- HP. apply HS.
  - cbn [kpos]. rewrite HP'. unfold sq_pos.
    destruct (Nat.eqb_spec n 0), (Nat.eqb_spec outlen 0), (Nat.eqb_spec (n + outlen) 0); try lia.
    + subst n. reflexivity.
    + subst outlen. now rewrite Nat.add_0_r.
    + f_equal. pose proof (Nat.div_mod (rb + n - 1) rb ltac:(lia)).
      replace (rb + (n + outlen) - 1)%nat with (((rb + n - 1) mod rb + 1 + outlen - 1) + ((rb + n - 1) / rb) * rb)%nat by lia.
      now rewrite Nat.mod_add by lia.
  - cbn [ks kpos]. intros i. rewrite HS'. rewrite <- HP.
    rewrite <- !Nat.add_assoc. apply HS.
Qed.

Lemma shake_absorb_once_wp rb rl io inlen : rate_ok rb rl ->
  traced (fun T => forall st inp, length (ks st) = 25%nat -> (io + inlen <= length inp)%nat -> bytes inp ->
    wp (shake_absorb_once rb st inp io inlen) T (squeezing rb (sub inp io inlen) 0)).
Proof.
  intros HR. pose proof HR as (Ra & Rb & Rc).
  destruct (keccak_absorb_once_wp rb Ra Rb rl Rc io inlen) as [T HT].
  exists (T ++ []). intros st inp Hl Hi Hb. unfold shake_absorb_once. wstep.
  eapply wp_conseq; [apply (HT (ks st) inp 0x1F shake_sfx); [exact Hl|exact Hi|exact Hb|exact domain_shake|lia]|].
  intros s HF. wstep. split; [apply HF|]. split; [reflexivity|]. cbn [ks kpos]. intros i.
  eapply finished_stream; eauto.
Qed.

(** Block-wise squeezing; [n] blocks have been squeezed before *)
Lemma shake_squeezeblocks_wp rb rl oo nb : rate_ok rb rl ->
  traced (fun T => forall st out M n, squeezing rb M (n * rb) st -> (oo + rb * nb <= length out)%nat ->
    wp (shake_squeezeblocks rb out oo nb st) T
       (fun '(out', st') => out' = splice out oo (mk (rb * nb) (fun j => stream rb shake_sfx M (n * rb + j))) /\
          squeezing rb M ((n + nb) * rb) st')).
Proof.
  intros HR. pose proof HR as (Ra & Rb & Rc).
  destruct (keccak_squeezeblocks_wp rb Ra Rb rl Rc oo nb) as [T HT].
  exists (T ++ []). intros st out M n (W & HP & HS) Ho. unfold shake_squeezeblocks. wstep.
  assert (EP : forall n, sq_pos rb rb (n * rb) = rb).
  { intros m. unfold sq_pos. destruct (Nat.eqb_spec (m * rb) 0); auto.
    replace (rb + m * rb - 1)%nat with ((rb - 1) + m * rb)%nat by nia.
    rewrite Nat.mod_add, Nat.mod_small by lia. lia. }
  rewrite EP in HP.
  eapply wp_conseq; [apply HT; auto|]. intros [out' s'] (-> & W' & E'). wstep. split; [|split; [exact W'|split]].
  - f_equal. apply mk_ext. intros j Hj. rewrite <- HS, HP. reflexivity.
  - cbn [kpos]. now rewrite EP.
  - cbn [ks kpos]. intros i. rewrite E', sqbyte_iter by auto.
    replace (nb * rb + (kpos st + i))%nat with (kpos st + (nb * rb + i))%nat by lia. rewrite HS. f_equal. lia.
Qed.

(** ** One-shot functions *)
Lemma shake_wp rb rl oo outlen io inlen : rate_ok rb rl ->
  traced (fun T => forall (JJ : Junk) out inp, (oo + outlen <= length out)%nat -> (io + inlen <= length inp)%nat -> bytes inp ->
    wp (shake rb out oo outlen inp io inlen) T
       (fun out' => out' = splice out oo (mk outlen (stream rb shake_sfx (sub inp io inlen))))).
Proof.
  intros HR. pose proof HR as (Ra & Rb & Rc).
  pose (nb := (outlen / rb)%nat).
  destruct (shake_absorb_once_wp rb rl io inlen HR) as [T1 W1].
  destruct (shake_squeezeblocks_wp rb rl oo nb HR) as [T2 W2].
  destruct (shake_squeeze_wp rb rl (nb * rb) (oo + nb * rb) (outlen - nb * rb) HR) as [T3 W3].
  eexists. intros JJ out inp Ho Hi Hb. unfold shake. wstep.
  pose proof (Nat.div_mod outlen rb ltac:(lia)) as DM. fold nb in DM.
  eapply wp_conseq; [apply W1; auto; apply local_length|]. intros st1 S1.
  wstep. unfold ndiv. eapply wp_conseq; [apply wp_ok; reflexivity|]. intros ? ->. fold nb.
  wstep. eapply wp_conseq; [apply (W2 st1 out (sub inp io inlen) 0%nat); auto; lia|].
  intros [out1 st2] [-> S2]. wstep.
  eapply wp_conseq; [apply (W3 st2 _ (sub inp io inlen)); auto; rewrite splice_length; rewrite ?mk_length; lia|].
  intros [out2 st3] [-> _]. wstep.
  replace (rb * nb)%nat with (nb * rb)%nat by lia.
  change (fun j => stream rb shake_sfx (sub inp io inlen) (0 * rb + j)%nat) with (stream rb shake_sfx (sub inp io inlen)).
  rewrite (splice_mk_app out oo (nb * rb) (outlen - nb * rb) (stream rb shake_sfx (sub inp io inlen))) by lia.
  replace (nb * rb + (outlen - nb * rb))%nat with outlen by lia. reflexivity.
Qed.

Lemma shake128_wp oo outlen io inlen :
  traced (fun T => forall (JJ : Junk) out inp, (oo + outlen <= length out)%nat -> (io + inlen <= length inp)%nat -> bytes inp ->
    wp (shake128 out oo outlen inp io inlen) T
       (fun out' => out' = splice out oo (SHAKE128 (sub inp io inlen) outlen))).
Proof.
  destruct (shake_wp 168 21 oo outlen io inlen rate168) as [T HT]. exists T. intros JJ o inp A B C.
  rewrite SHAKE128_stream. exact (HT JJ o inp A B C).
Qed.

Lemma shake256_wp oo outlen io inlen :
  traced (fun T => forall (JJ : Junk) out inp, (oo + outlen <= length out)%nat -> (io + inlen <= length inp)%nat -> bytes inp ->
    wp (shake256 out oo outlen inp io inlen) T
       (fun out' => out' = splice out oo (SHAKE256 (sub inp io inlen) outlen))).
Proof.
  destruct (shake_wp 136 17 oo outlen io inlen rate136) as [T HT]. exists T. intros JJ o inp A B C.
  rewrite SHAKE256_stream. exact (HT JJ o inp A B C).
Qed.

Lemma sha3_wp rb rl nl ho io inlen : rate_ok rb rl -> (nl <= 25)%nat -> (8 * nl <= rb)%nat ->
  traced (fun T => forall (JJ : Junk) h inp, (ho + 8 * nl <= length h)%nat -> (io + inlen <= length inp)%nat -> bytes inp ->
    wp (s <- keccak_absorb_once (local 25) rb inp io inlen 0x06 ;;
        s <- KeccakF1600_StatePermute s ;;
        for_ nl 0 (fun i h => x <- aget s i ;; store64 h (ho + 8 * i) x) h) T
       (fun h' => h' = splice h ho (mk (8 * nl) (stream rb sha3_sfx (sub inp io inlen))))).
Proof.
  intros HR Hn Hnl. pose proof HR as (Ra & Rb & Rc).
  destruct (keccak_absorb_once_wp rb Ra Rb rl Rc io inlen) as [T1 W1].
  eexists. intros JJ h inp Hh Hi Hb. wstep.
  eapply wp_conseq; [apply (W1 (local 25) inp 0x06 sha3_sfx); [apply local_length|exact Hi|exact Hb|exact domain_sha3|lia]|].
  intros s [W E]. wstep. eapply wp_conseq; [apply (proj2_sig permute_wp); auto|].
  intros s2 [W2 E2]. eapply wp_conseq; [apply (proj2_sig (store_lanes_wp nl ho)); auto|].
  intros h' ->. f_equal. apply mk_ext. intros j Hj. unfold stream. rewrite <- E, <- E2.
  symmetry. apply sqbyte_low. lia.
Qed.

Lemma sha3_256_wp ho io inlen :
  traced (fun T => forall (JJ : Junk) h inp, (ho + 32 <= length h)%nat -> (io + inlen <= length inp)%nat -> bytes inp ->
    wp (sha3_256 h ho inp io inlen) T (fun h' => h' = splice h ho (SHA3_256 (sub inp io inlen)))).
Proof.
  destruct (sha3_wp 136 17 4 ho io inlen rate136 ltac:(lia) ltac:(lia)) as [T HT]. exists T. intros JJ o inp A B C.
  rewrite SHA3_256_stream. exact (HT JJ o inp A B C).
Qed.

Lemma sha3_512_wp ho io inlen :
  traced (fun T => forall (JJ : Junk) h inp, (ho + 64 <= length h)%nat -> (io + inlen <= length inp)%nat -> bytes inp ->
    wp (sha3_512 h ho inp io inlen) T (fun h' => h' = splice h ho (SHA3_512 (sub inp io inlen)))).
Proof.
  destruct (sha3_wp 72 9 8 ho io inlen rate72 ltac:(lia) ltac:(lia)) as [T HT]. exists T. intros JJ o inp A B C.
  rewrite SHA3_512_stream. exact (HT JJ o inp A B C).
Qed.
