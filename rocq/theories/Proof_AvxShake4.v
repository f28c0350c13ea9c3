(** * The exported functions of fips202x4.c *)
From Coq Require Import ZArith List Lia Bool.
From Verif Require Import CMonad WP Proof_Base Proof_Bits Model_Fips202 Spec_FIPS202 Proof_Keccak Proof_Sponge Proof_Shake
  Proof_Hash Model_AvxKeccak Model_AvxFips202x4 Proof_AvxKeccak Proof_AvxFips202x4.
Import ListNotations.
Open Scope Z_scope.

(** A state whose instance j has absorbed M j and from which n bytes have been
    squeezed, n a multiple of the rate *)
Definition squeezing4 (rb : nat) (M : nat -> list Z) (n : nat) (s : list (list Z)) : Prop :=
  wf4 s /\ forall j, (j < 4)%nat -> forall i,
    sqbyte rb (sbits (inst j s)) (rb + i) = stream rb shake_sfx (M j) (n + i).

Section Rate.
Variables (rb rl : nat).
Hypothesis HR : rate_ok rb rl.

Lemma shakex4_absorb_once_wp inlen :
  traced (fun T => forall (J : Junk) s ins, length s = 25%nat -> four (round8 inlen) ins ->
    wp (keccakx4_absorb_once s rb ins inlen 0x1F) T
       (squeezing4 rb (fun j => sub (nth j ins []) 0 inlen) 0)).
Proof.
  pose proof HR as (Ra & Rb & Rc).
  destruct (keccakx4_absorb_once_wp rl ltac:(lia) ltac:(lia) inlen) as [T W]. exists T.
  intros J s ins Ls Hi. rewrite Rc.
  eapply wp_conseq; [apply (W J s ins 0x1F shake_sfx); auto; try lia; exact domain_shake|].
  intros s' [W' F]. split; [exact W'|]. intros j Hj i. rewrite <- Rc in *.
  eapply finished_stream; [exact HR|]. now apply F.
Qed.

Lemma shakex4_squeezeblocks_wp oo nb :
  traced (fun T => forall (J : Junk) outs s M n, squeezing4 rb M (n * rb) s -> four (oo + rb * nb) outs ->
    wp (keccakx4_squeezeblocks outs oo nb rb s) T
       (fun '(outs', s') => wrote outs oo (rb * nb) (fun j i => stream rb shake_sfx (M j) (n * rb + i)) outs' /\
          squeezing4 rb M ((n + nb) * rb) s')).
Proof.
  pose proof HR as (Ra & Rb & Rc).
  destruct (keccakx4_squeezeblocks_wp rl ltac:(lia) ltac:(lia) oo nb) as [T W]. exists T.
  intros J outs s M n [Hs HS] Ho. rewrite Rc in Ho |- *.
  eapply wp_conseq; [apply (W J outs s); auto|]. rewrite <- Rc in *.
  intros [outs' s'] ([L1 H1] & W1 & E1). split; [|split; [exact W1|]].
  - split; auto. intros j Hj. rewrite H1 by auto. f_equal. apply mk_ext. intros i Hi. now apply HS.
  - intros j Hj i. rewrite E1 by auto. rewrite sqbyte_iter by auto.
    replace (nb * rb + (rb + i))%nat with (rb + (nb * rb + i))%nat by lia. rewrite HS by auto. f_equal. lia.
Qed.

Lemma copy_each_wp oo i :
  traced (fun T => forall outs ts, length outs = 4%nat -> length ts = 4%nat ->
    (forall j, (j < 4)%nat -> (oo + i < length (nth j outs []))%nat /\ (i < length (nth j ts []))%nat) ->
    wp (copy_each outs ts oo i) T
       (fun outs' => length outs' = 4%nat /\ forall j, (j < 4)%nat ->
          nth j outs' [] = upd (nth j outs []) (oo + i) (nth i (nth j ts []) 0))).
Proof.
  eexists. intros outs ts Lo Lt H.
  pose proof (H 0%nat ltac:(lia)) as [A0 B0]. pose proof (H 1%nat ltac:(lia)) as [A1 B1].
  pose proof (H 2%nat ltac:(lia)) as [A2 B2]. pose proof (H 3%nat ltac:(lia)) as [A3 B3].
  destruct outs as [|b0 [|b1 [|b2 [|b3 [|b4 l]]]]]; try discriminate Lo.
  destruct ts as [|t0 [|t1 [|t2 [|t3 [|t4 l]]]]]; try discriminate Lt. cbn [nth] in *.
  cbn [copy_each].
  do 4 (wstep; eapply (wp_aget 0); [lia|]; wstep; apply wp_aset; [lia|]; wstep).
  wstep. wstep. wstep. wstep. wstep. split; [reflexivity|].
  intros j Hj. do 4 (destruct j as [|j]; [reflexivity|]). lia.
Qed.

Lemma copy_loop_wp oo n :
  traced (fun T => forall outs ts f, four (oo + n) outs -> length ts = 4%nat ->
    (forall j, (j < 4)%nat -> (n <= length (nth j ts []))%nat) ->
    (forall j i, (j < 4)%nat -> (i < n)%nat -> nth i (nth j ts []) 0 = f j i) ->
    wp (for_ n 0 (fun i outs => copy_each outs ts oo i) outs) T (wrote outs oo n f)).
Proof.
  eexists. intros outs ts f Ho Lt Ll Hf.
  eapply (wp_for _ (fun i => wrote outs oo i f)).
  - split; [apply Ho|]. intros j Hj. rewrite mk_0. symmetry. apply splice_nil.
  - intros i o1 Hi [L1 H1]. destruct Ho as [Lo Ho].
    eapply wp_conseq; [apply (proj2_sig (copy_each_wp oo i) o1 ts L1 Lt)|].
    + intros j Hj. destruct (Ho j Hj) as [_ Lj]. specialize (Ll j Hj). rewrite H1 by auto.
      rewrite splice_length; rewrite ?mk_length; lia.
    + intros o2 [L2 H2]. split; auto. intros j Hj. rewrite H2, H1 by auto. destruct (Ho j Hj) as [_ Lj].
      rewrite Hf by (auto; lia). rewrite mk_S.
      apply splice_snoc; rewrite ?mk_length; lia.
  - intros o1 H1. exact H1.
Qed.

Lemma local8_length (J : Junk) n : length (local8 n) = n.
Proof. unfold local8. rewrite map_length. apply local_length. Qed.

Lemma local8_bytes (J : Junk) n : bytes (local8 n).
Proof.
  intros i Hi. unfold local8 in *. rewrite map_length in Hi.
  rewrite nth_indep with (d' := u8 0) by (now rewrite map_length). rewrite map_nth. apply u8_range.
Qed.

Lemma four_locals (J : Junk) n : four n (repeat (local8 n) 4).
Proof.
  split; [reflexivity|]. intros j Hj.
  replace (nth j (repeat (local8 n) 4) []) with (local8 n) by (do 4 (destruct j as [|j]; [reflexivity|]); lia).
  rewrite local8_length. split; auto. apply local8_bytes.
Qed.

Lemma local_state4_length (J : Junk) : length local_state4 = 25%nat.
Proof. reflexivity. Qed.

Lemma shakex4_wp outlen inlen :
  traced (fun T => forall (J : Junk) outs ins, four outlen outs -> four (round8 inlen) ins ->
    wp (shakex4 rb outs outlen ins inlen) T
       (wrote outs 0 outlen (fun j => stream rb shake_sfx (sub (nth j ins []) 0 inlen)))).
Proof.
  pose proof HR as (Ra & Rb & Rc).
  pose (nb := (outlen / rb)%nat). pose (rest := (outlen - nb * rb)%nat).
  destruct (shakex4_absorb_once_wp inlen) as [T1 W1].
  destruct (shakex4_squeezeblocks_wp 0 nb) as [T2 W2].
  destruct (shakex4_squeezeblocks_wp 0 1) as [T3 W3].
  destruct (copy_loop_wp (nb * rb) rest) as [T4 W4].
  pose proof (Nat.div_mod outlen rb ltac:(lia)) as DM. pose proof (Nat.mod_upper_bound outlen rb ltac:(lia)) as MB. fold nb in DM.
  destruct (Nat.eqb_spec rest 0) as [E0|E0].
  - eexists. intros J outs ins Ho Hi. unfold shakex4. wstep. apply wp_ndiv. fold nb. cbv zeta. fold rest.
    wstep. eapply wp_conseq; [apply W1; auto; apply local_state4_length|]. intros s1 S1.
    wstep. eapply wp_conseq; [apply (W2 J outs s1 (fun j => sub (nth j ins []) 0 inlen) 0%nat); [exact S1|]|].
    { eapply four_le; [|exact Ho]. lia. }
    intros [o1 s2] [O1 S2]. wstep. rewrite E0. cbn [Nat.eqb negb]. wstep. wstep.
    replace outlen with (rb * nb)%nat by (unfold rest in E0; lia). exact O1.
  - eexists. intros J outs ins Ho Hi. unfold shakex4. wstep. apply wp_ndiv. fold nb. cbv zeta. fold rest.
    wstep. eapply wp_conseq; [apply W1; auto; apply local_state4_length|]. intros s1 S1.
    wstep. eapply wp_conseq; [apply (W2 J outs s1 (fun j => sub (nth j ins []) 0 inlen) 0%nat); [exact S1|]|].
    { eapply four_le; [|exact Ho]. lia. }
    intros [o1 s2] [O1 S2]. wstep.
    replace (rest =? 0)%nat with false by (symmetry; now apply Nat.eqb_neq). cbn [negb]. wstep. wstep.
    eapply wp_conseq; [apply (W3 J (repeat (local8 rb) 4) s2 (fun j => sub (nth j ins []) 0 inlen) (0 + nb)%nat S2)|].
    { rewrite Nat.mul_1_r. apply four_locals. }
    intros [ts s3] [[L3 O3] _].
    assert (F1 : four outlen o1).
    { eapply wrote_four; [exact Ho| |intros; apply stream_range|exact O1]. lia. }
    pose proof (four_locals J rb) as [_ HL].
    eapply wp_conseq; [apply (W4 o1 ts (fun j i => stream rb shake_sfx (sub (nth j ins []) 0 inlen) (nb * rb + i)))|].
    + eapply four_le; [|exact F1]. lia.
    + exact L3.
    + intros j Hj. rewrite O3 by auto. destruct (HL j Hj) as [_ Lj].
      rewrite splice_length; rewrite ?mk_length; unfold rest; lia.
    + intros j i Hj Hk. rewrite O3 by auto. destruct (HL j Hj) as [_ Lj].
      rewrite nth_splice by (rewrite mk_length; lia). rewrite mk_length.
      destruct (Nat.ltb_spec i 0); [lia|]. destruct (Nat.ltb_spec i (0 + rb * 1)); [|unfold rest in *; lia].
      rewrite Nat.sub_0_r, nth_mk by lia. reflexivity.
    + intros o2 [L2 O2]. split; auto. intros j Hj. rewrite O2 by auto. destruct O1 as [_ O1]. rewrite O1 by auto.
      destruct Ho as [_ Ho]. destruct (Ho j Hj) as [_ Lj].
      replace (rb * nb)%nat with (nb * rb)%nat by lia.
      change (fun i => stream rb shake_sfx (sub (nth j ins []) 0 inlen) (0 * rb + i)%nat)
        with (stream rb shake_sfx (sub (nth j ins []) 0 inlen)).
      change (nb * rb)%nat with (0 + nb * rb)%nat at 2.
      rewrite (splice_mk_app (nth j outs []) 0 (nb * rb) rest (stream rb shake_sfx (sub (nth j ins []) 0 inlen))) by (unfold rest; lia).
      replace (nb * rb + rest)%nat with outlen by (unfold rest; lia). reflexivity.
Qed.
End Rate.
