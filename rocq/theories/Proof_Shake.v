(** * Absorbing, squeezing, and the hash functions of fips202.c *)
From Coq Require Import ZArith List Lia Bool.
From Verif Require Import CMonad WP Proof_Base Proof_Bits Model_Fips202 Spec_FIPS202 Proof_Keccak Proof_Sponge.
Import ListNotations.
Open Scope Z_scope.
Global Opaque keccak_f.

Lemma sub_app {A} (l : list A) o a b : sub l o (a + b) = sub l o a ++ sub l (o + a) b.
Proof.
  unfold sub. rewrite <- skipn_skipn. generalize (skipn o l) as m. clear.
  induction a; intros m; [reflexivity|]. destruct m; cbn [Nat.add firstn skipn app].
  - now rewrite firstn_nil.
  - now rewrite IHa.
Qed.

Lemma mk_0 {A} (f : nat -> A) : mk 0 f = [].
Proof. reflexivity. Qed.

Lemma sub_0 {A} (l : list A) o : sub l o 0 = [].
Proof. reflexivity. Qed.

Lemma window_sub lo n M o k : window (8 * lo) (8 * n) (fun j => mbit M (8 * o + j)) k =
  window (8 * lo) (8 * n) (mbit (sub M o n)) k.
Proof.
  destruct (Nat.leb_spec (8 * lo) k); [destruct (Nat.ltb_spec k (8 * lo + 8 * n))|].
  - rewrite !window_in by lia. now rewrite mbit_sub by lia.
  - now rewrite !window_out by lia.
  - now rewrite !window_out by lia.
Qed.

Lemma splice_mk_app {A} (out : list A) oo a b f :
  (oo + (a + b) <= length out)%nat ->
  splice (splice out oo (mk a f)) (oo + a) (mk b (fun j => f (a + j)%nat)) = splice out oo (mk (a + b) f).
Proof.
  intros. rewrite mk_add. apply splice_splice_next; rewrite !mk_length; lia.
Qed.

Lemma store_lanes_wp nl oo :
  traced (fun T => forall out s, wfstate s -> (nl <= 25)%nat -> (oo + 8 * nl <= length out)%nat ->
    wp (for_ nl 0 (fun i out => x <- aget s i ;; store64 out (oo + 8 * i) x) out) T
       (fun out' => out' = splice out oo (mk (8 * nl) (stbyte (sbits s))))).
Proof.
  eexists. intros out s W Hn Ho.
  eapply (wp_for _ (fun i out' => out' = splice out oo (mk (8 * i) (stbyte (sbits s))))).
  - rewrite Nat.mul_0_r, mk_0. symmetry. apply splice_nil.
  - intros i o1 Hi ->. destruct W as [L W]. wstep. wstep; [lia|].
    eapply wp_conseq; [apply (proj2_sig (store64_wp (oo + 8 * i))); rewrite splice_length; rewrite ?mk_length; lia|].
    intros o2 ->. rewrite splice_mk_app by lia. now replace (8 * i + 8)%nat with (8 * S i)%nat by lia.
  - intros o1 ->. reflexivity.
Qed.

(** ** keccak_init *)
Lemma zero_state_wp :
  traced (fun T => forall s, length s = 25%nat ->
    wp (for_ 25 0 (fun i s => aset s i 0) s) T (fun s' => s' = repeat 0 25)).
Proof.
  eexists. intros s Hs.
  eapply (wp_for _ (fun i s' => s' = splice s 0 (firstn i (repeat 0 25)))).
  - symmetry. apply splice_nil.
  - intros i s' Hi ->. wstep. { rewrite splice_length; rewrite ?firstn_length, ?repeat_length; lia. }
    rewrite (firstn_S_nth 0) by (rewrite repeat_length; lia).
    rewrite nth_repeat. apply splice_snoc; rewrite ?firstn_length, ?repeat_length; lia.
  - intros s' ->. change (0 + 25)%nat with 25%nat. rewrite firstn_all2 by (rewrite repeat_length; lia).
    apply splice_full. now rewrite repeat_length.
Qed.

Lemma zero_wf : wfstate (repeat 0 25).
Proof. split; [reflexivity|]. intros i. rewrite nth_repeat. unfold lane; lia. Qed.

Lemma zero_absorbed rb : (0 < rb)%nat -> absorbed rb [] (repeat 0 25).
Proof.
  intros. apply absorbed_nil; auto using zero_wf.
  intros k Hk. unfold bit. rewrite nth_repeat. apply Z.bits_0.
Qed.

(** ** keccak_absorb *)
Definition left_over (rb pos inlen : nat) : nat :=
  if (pos + inlen <? rb)%nat then inlen else ((pos + inlen) mod rb)%nat.
Definition next_pos (rb pos inlen : nat) : nat := ((pos + inlen) mod rb)%nat.

Lemma left_over_le rb pos inlen : (0 < rb)%nat -> (pos < rb)%nat -> (left_over rb pos inlen <= inlen)%nat.
Proof.
  intros Hr Hp. unfold left_over. destruct (Nat.ltb_spec (pos + inlen) rb); auto.
  assert (E : ((pos + inlen) mod rb = (pos + inlen - rb) mod rb)%nat).
  { replace (pos + inlen)%nat with ((pos + inlen - rb) + 1 * rb)%nat at 1 by lia. apply Nat.mod_add. lia. }
  rewrite E. pose proof (Nat.mod_le (pos + inlen - rb) rb ltac:(lia)). lia.
Qed.

Lemma mod_shift a b rb : (0 < rb)%nat -> ((a + (b + rb)) mod rb = (a + b) mod rb)%nat.
Proof. intros. replace (a + (b + rb))%nat with ((a + b) + 1 * rb)%nat by lia. apply Nat.mod_add. lia. Qed.

Section Absorb.
Variable rb : nat.
Hypothesis Hrb0 : (0 < rb)%nat.
Hypothesis Hrb : (8 * rb <= 1600)%nat.

Definition absorb_cond (st : list Z * nat * nat * nat) : res bool :=
  let '(s, pos, io, inlen) := st in test (rb <=? pos + inlen)%nat.
Definition absorb_body (inp : list Z) (st : list Z * nat * nat * nat) : res (list Z * nat * nat * nat) :=
  let '(s, pos, io, inlen) := st in
      s <- for_ (rb - pos) pos (fun i s =>
             b <- aget inp (io + (i - pos)) ;; xor_byte s i b) s ;;
      s <- KeccakF1600_StatePermute s ;;
      ret (s, 0%nat, (io + (rb - pos))%nat, (inlen - (rb - pos))%nat).

(** Absorbing the end of a block *)
Lemma absorb_block_wp pos io n :
  traced (fun T => forall s inp M, absorbed rb M s -> (length M mod rb = pos)%nat -> (pos + n = rb)%nat ->
    (io + n <= length inp)%nat -> bytes inp ->
    wp (s <- for_ n pos (fun i s => b <- aget inp (io + (i - pos)) ;; xor_byte s i b) s ;;
        KeccakF1600_StatePermute s) T
       (absorbed rb (M ++ sub inp io n))).
Proof.
  eexists. intros s inp M HA Hpos Hn Hi Hb.
  wstep. eapply wp_conseq; [apply (proj2_sig (xor_bytes_wp pos n io)); auto; [apply HA|lia]|].
  intros s1 X1.
  eapply wp_conseq; [apply (proj2_sig permute_wp); eapply xored_wf; eauto|].
  intros s2 [W2 E2]. eapply (absorbed_full rb M s _ s1 s2); auto; rewrite ?sub_length by auto; [lia|].
  rewrite Hpos. eapply xored_ext; [exact X1|]. intros k Hk. apply window_sub.
Qed.

(** Absorbing less than the rest of a block *)
Lemma absorb_rest_wp pos io n :
  traced (fun T => forall s inp M, absorbed rb M s -> (length M mod rb = pos)%nat -> (pos + n < rb)%nat ->
    (io + n <= length inp)%nat -> bytes inp ->
    wp (for_ n pos (fun i s => b <- aget inp (io + (i - pos)) ;; xor_byte s i b) s) T
       (absorbed rb (M ++ sub inp io n))).
Proof.
  eexists. intros s inp M HA Hpos Hn Hi Hb.
  eapply wp_conseq; [apply (proj2_sig (xor_bytes_wp pos n io)); auto; [apply HA|lia]|].
  intros s1 X1. eapply absorbed_more; eauto; rewrite ?sub_length by auto; [lia|].
  rewrite Hpos. eapply xored_ext; [exact X1|]. intros k Hk. apply window_sub.
Qed.

Lemma wp_assoc {A B C} (m : res A) (f : A -> res B) (g : B -> res C) T Q :
  wp (bind (bind m f) g) T Q -> wp (bind m (fun x => bind (f x) g)) T Q.
Proof.
  intros (v & E & H). exists v. split; auto. rewrite <- E.
  unfold bind. destruct m; auto. destruct (f v0); auto. destruct (g v1); auto.
  now rewrite app_assoc.
Qed.

Lemma absorb_loop_wp : forall fuel pos io inlen, (pos < rb)%nat -> (inlen < fuel)%nat ->
  traced (fun T => forall s inp M, absorbed rb M s -> (length M mod rb = pos)%nat ->
    (io + inlen <= length inp)%nat -> bytes inp ->
    wp (while_ fuel absorb_cond (absorb_body inp) (s, pos, io, inlen)) T
      (fun st => exists s', st = (s', (next_pos rb pos inlen - left_over rb pos inlen)%nat,
           (io + (inlen - left_over rb pos inlen))%nat, left_over rb pos inlen) /\
         absorbed rb (M ++ sub inp io (inlen - left_over rb pos inlen)) s')).
Proof.
  induction fuel as [|fuel IH]; intros pos io inlen Hpos Hf; [exfalso; lia|].
  destruct (Compare_dec.lt_dec (pos + inlen) rb) as [Hlt|Hge].
  - eexists. intros s inp M HA HM Hi Hb. cbn [while_]. wstep. unfold absorb_cond. wstep.
    destruct (Nat.leb_spec rb (pos + inlen)); [lia|]. wstep.
    assert (EL : left_over rb pos inlen = inlen).
    { unfold left_over. destruct (Nat.ltb_spec (pos + inlen) rb); lia. }
    assert (EN : next_pos rb pos inlen = (pos + inlen)%nat) by (apply Nat.mod_small; lia).
    rewrite EL, EN, Nat.sub_diag, sub_0, app_nil_r. exists s. split; auto.
    replace (pos + inlen - inlen)%nat with pos by lia. now rewrite Nat.add_0_r.
  - destruct (IH 0%nat (io + (rb - pos))%nat (inlen - (rb - pos))%nat ltac:(lia) ltac:(lia)) as [T2 H2].
    eexists. intros s inp M HA HM Hi Hb. cbn [while_]. wstep. unfold absorb_cond at 1. wstep.
    destruct (Nat.leb_spec rb (pos + inlen)); [|lia].
    wstep. unfold absorb_body at 1. apply wp_assoc. wstep.
    eapply wp_conseq; [apply (proj2_sig (absorb_block_wp pos io (rb - pos))); eauto; lia|].
    intros s1 H1. wstep.
    assert (EL : left_over rb 0 (inlen - (rb - pos)) = left_over rb pos inlen).
    { unfold left_over. destruct (Nat.ltb_spec (pos + inlen) rb); [lia|].
      destruct (Nat.ltb_spec (0 + (inlen - (rb - pos))) rb).
      - replace (pos + inlen)%nat with ((inlen - (rb - pos)) + 1 * rb)%nat by lia.
        rewrite Nat.mod_add by lia. rewrite Nat.mod_small by lia. reflexivity.
      - replace (pos + inlen)%nat with ((0 + (inlen - (rb - pos))) + 1 * rb)%nat by lia.
        now rewrite Nat.mod_add by lia. }
    assert (EN : next_pos rb 0 (inlen - (rb - pos)) = next_pos rb pos inlen).
    { unfold next_pos. replace (pos + inlen)%nat with ((0 + (inlen - (rb - pos))) + 1 * rb)%nat by lia.
      now rewrite Nat.mod_add by lia. }
    assert (Lle := left_over_le rb 0 (inlen - (rb - pos)) Hrb0 ltac:(lia)).
    eapply wp_conseq; [apply H2; eauto|].
    + rewrite app_length, sub_length by lia.
      rewrite (Nat.div_mod (length M) rb), HM by lia.
      replace (rb * (length M / rb) + pos + (rb - pos))%nat with ((length M / rb + 1) * rb)%nat by lia.
      apply Nat.mod_mul. lia.
    + lia.
    + intros st (s' & -> & HA'). rewrite EL, EN in *. exists s'. split.
      { replace (io + (rb - pos) + (inlen - (rb - pos) - left_over rb pos inlen))%nat
          with (io + (inlen - left_over rb pos inlen))%nat by lia. reflexivity. }
      replace (inlen - left_over rb pos inlen)%nat with ((rb - pos) + (inlen - (rb - pos) - left_over rb pos inlen))%nat by lia.
      rewrite sub_app, app_assoc. exact HA'.
Qed.

Lemma keccak_absorb_wp pos io inlen : (pos < rb)%nat ->
  traced (fun T => forall s inp M, absorbed rb M s -> (length M mod rb = pos)%nat ->
    (io + inlen <= length inp)%nat -> bytes inp ->
    wp (keccak_absorb s pos rb inp io inlen) T
      (fun '(s', pos') => absorbed rb (M ++ sub inp io inlen) s' /\
         pos' = ((pos + inlen) mod rb)%nat)).
Proof.
  intros Hpos. eexists. intros s inp M HA HM Hi Hb. unfold keccak_absorb.
  wstep. eapply wp_conseq; [apply (proj2_sig (absorb_loop_wp (S (S inlen)) pos io inlen Hpos ltac:(lia))); eauto|].
  intros st (s1 & -> & H1). cbv beta iota.
  assert (Lle := left_over_le rb pos inlen Hrb0 Hpos).
  assert (LN : (left_over rb pos inlen <= next_pos rb pos inlen)%nat).
  { unfold left_over, next_pos. destruct (Nat.ltb_spec (pos + inlen) rb); [|lia]. rewrite Nat.mod_small; lia. }
  assert (NB : (next_pos rb pos inlen < rb)%nat) by (apply Nat.mod_upper_bound; lia).
  wstep.
  eapply wp_conseq; [apply (proj2_sig (absorb_rest_wp (next_pos rb pos inlen - left_over rb pos inlen)
     (io + (inlen - left_over rb pos inlen)) (left_over rb pos inlen))); eauto; try lia|].
  - rewrite app_length, sub_length by lia.
    rewrite (Nat.div_mod (length M) rb), HM by lia.
    replace (rb * (length M / rb) + pos + (inlen - left_over rb pos inlen))%nat
      with ((pos + (inlen - left_over rb pos inlen)) + (length M / rb) * rb)%nat by lia.
    rewrite Nat.mod_add by lia.
    unfold left_over, next_pos in *. destruct (Nat.ltb_spec (pos + inlen) rb).
    + rewrite Nat.sub_diag, Nat.add_0_r. rewrite !Nat.mod_small by lia. lia.
    + rewrite Nat.sub_diag.
      pose proof (Nat.div_mod (pos + inlen) rb ltac:(lia)).
      set (m := ((pos + inlen) mod rb)%nat) in *.
      replace (pos + (inlen - m))%nat with (((pos + inlen) / rb) * rb)%nat by lia.
      apply Nat.mod_mul. lia.
  - intros s2 H2. wstep. split.
    + rewrite <- app_assoc, <- sub_app in H2.
      now replace (inlen - left_over rb pos inlen + left_over rb pos inlen)%nat with inlen in H2 by lia.
    + unfold next_pos in *. lia.
Qed.

(** ** Finalization *)
Variable rl : nat.
Hypothesis Hrl : rb = (8 * rl)%nat.

Definition finished (sfx : list bool) (M : list Z) (s : list Z) : Prop :=
  wfstate s /\ keccak_f (sbits s) = absorb (8 * rb) (padded rb sfx M).

Lemma top_bit s : wfstate s ->
  xored s (fun k => k =? 8 * rb - 1)%nat (upd s (rl - 1) (Z.lxor (nth (rl - 1) s 0) (2 ^ 63))).
Proof.
  intros W. apply xor_lane_bits; auto; [lia|unfold lane; lia| |].
  - intros j Hj. rewrite Z.pow2_bits_eqb by lia.
    destruct (Z.eqb_spec 63 (Z.of_nat j)), (Nat.eqb_spec (64 * (rl - 1) + j) (8 * rb - 1)); try lia; reflexivity.
  - intros k Hk. destruct (Nat.eqb_spec k (8 * rb - 1)); auto. lia.
Qed.

Lemma finalize_wp pos d :
  traced (fun T => forall s p sfx M, absorbed rb M s -> (length M mod rb = pos)%nat -> domain p sfx ->
    0 <= p <= 255 -> d = (rl - 1)%nat ->
    wp (s <- xor_byte s pos p ;; x <- aget s d ;; aset s d (Z.lxor x (2 ^ 63))) T
       (finished sfx M)).
Proof.
  eexists. intros s p sfx M HA HM Hd Hp ->. wstep.
  assert (Hpos : (pos < rb)%nat) by (rewrite <- HM; apply Nat.mod_upper_bound; lia).
  eapply wp_conseq; [apply (proj2_sig (xor_byte_wp pos)); auto; [apply HA|lia]|].
  intros s1 X1. pose proof (xored_wf _ _ _ X1) as W1. pose proof W1 as [L1 _].
  wstep. wstep; [lia|]. wstep; [lia|]. pose proof (top_bit s1 W1) as X2. split; [eapply xored_wf; eauto|].
  eapply finalized; eauto. rewrite HM. eapply xored_trans; eauto.
Qed.

Lemma keccak_finalize_wp pos :
  traced (fun T => forall s p sfx M, absorbed rb M s -> (length M mod rb = pos)%nat -> domain p sfx ->
    0 <= p <= 255 ->
    wp (keccak_finalize s pos rb p) T (finished sfx M)).
Proof.
  exists (proj1_sig (finalize_wp pos (rb / 8 - 1))). intros s p sfx M HA HM Hd Hp.
  apply (proj2_sig (finalize_wp pos (rb / 8 - 1))); auto.
  rewrite Hrl, Nat.mul_comm, Nat.div_mul; lia.
Qed.

(** ** keccak_absorb_once *)
Lemma xor_lanes_wp io :
  traced (fun T => forall s inp, wfstate s -> (io + rb <= length inp)%nat -> bytes inp ->
    wp (for_ (rb / 8) 0 (fun i s =>
             x <- aget s i ;;
             v <- load64 inp (io + 8 * i) ;;
             aset s i (Z.lxor x v)) s) T
       (xored s (window (8 * 0) (8 * rb) (mbit (sub inp io rb))))).
Proof.
  eexists. intros s inp W Hi Hb.
  assert (E8 : (rb / 8 = rl)%nat) by (rewrite Hrl, Nat.mul_comm, Nat.div_mul; lia). rewrite E8.
  eapply (wp_for _ (fun i s' => xored s (window 0 (64 * i) (mbit (sub inp io rb))) s')).
  - eapply xored_ext; [apply xored_refl; auto|]. intros k Hk. symmetry. apply window_out. lia.
  - intros i s1 Hr X1. pose proof (xored_wf _ _ _ X1) as W1. pose proof W1 as [L1 _].
    wstep. wstep; [lia|]. wstep.
    eapply wp_conseq; [apply (proj2_sig (load64_wp (io + 8 * i))); auto; lia|].
    intros v [Lv Hv]. wstep; [lia|].
    eapply xored_trans; [exact X1|apply (xor_lane_bits s1 i v (window (64 * i) 64 (fun j => mbit (sub inp io rb) (64 * i + j)))); auto; try lia|].
    + intros j Hj. rewrite Hv by auto. rewrite window_in by lia. rewrite mbit_sub by lia. f_equal. lia.
    + intros k Hk. apply window_out. lia.
    + intros k Hk. destruct (Nat.ltb_spec k (64 * i)).
      * rewrite !(window_in 0), (window_out (64 * i)) by lia. now rewrite xorb_false_r.
      * rewrite (window_out 0 (64 * i)), xorb_false_l by lia. destruct (Nat.ltb_spec k (64 * S i)).
        -- rewrite !window_in by lia. f_equal. lia.
        -- now rewrite !window_out by lia.
  - intros s' X. eapply xored_ext; [exact X|]. intros k Hk. f_equal; lia.
Qed.

Definition once_cond (st : list Z * nat * nat) : res bool :=
  let '(s, io, inlen) := st in test (rb <=? inlen)%nat.
Definition once_body (inp : list Z) (st : list Z * nat * nat) : res (list Z * nat * nat) :=
  let '(s, io, inlen) := st in
      s <- for_ (rb / 8) 0 (fun i s =>
             x <- aget s i ;;
             v <- load64 inp (io + 8 * i) ;;
             aset s i (Z.lxor x v)) s ;;
      s <- KeccakF1600_StatePermute s ;;
      ret (s, (io + rb)%nat, (inlen - rb)%nat).

Lemma once_loop_wp : forall fuel io inlen, (inlen < fuel)%nat ->
  traced (fun T => forall s inp M, absorbed rb M s -> (length M mod rb = 0)%nat ->
    (io + inlen <= length inp)%nat -> bytes inp ->
    wp (while_ fuel once_cond (once_body inp) (s, io, inlen)) T
      (fun st => exists s', st = (s', (io + (inlen - inlen mod rb))%nat, (inlen mod rb)%nat) /\
         absorbed rb (M ++ sub inp io (inlen - inlen mod rb)) s' /\
         (length (M ++ sub inp io (inlen - inlen mod rb)) mod rb = 0)%nat)).
Proof.
  induction fuel as [|fuel IH]; intros io inlen Hf; [exfalso; lia|].
  destruct (Compare_dec.lt_dec inlen rb) as [Hlt|Hge].
  - eexists. intros s inp M HA HM Hi Hb. cbn [while_]. wstep. unfold once_cond. wstep.
    destruct (Nat.leb_spec rb inlen); [lia|]. wstep. rewrite Nat.mod_small by auto.
    rewrite Nat.sub_diag, sub_0, app_nil_r. exists s. rewrite Nat.add_0_r. auto.
  - destruct (IH (io + rb)%nat (inlen - rb)%nat ltac:(lia)) as [T2 H2].
    eexists. intros s inp M HA HM Hi Hb. cbn [while_]. wstep. unfold once_cond at 1. wstep.
    destruct (Nat.leb_spec rb inlen); [|lia].
    wstep. unfold once_body at 1. wstep.
    eapply wp_conseq; [apply (proj2_sig (xor_lanes_wp io)); auto; [apply HA|lia]|].
    intros s1 X1. wstep.
    eapply wp_conseq; [apply (proj2_sig permute_wp); eapply xored_wf; eauto|].
    intros s2 [W2 E2]. wstep.
    assert (EM : ((inlen - rb) mod rb = inlen mod rb)%nat).
    { replace inlen with ((inlen - rb) + 1 * rb)%nat at 2 by lia. now rewrite Nat.mod_add by lia. }
    pose proof (Nat.mod_le (inlen - rb) rb ltac:(lia)).
    eapply wp_conseq; [apply (H2 s2 inp (M ++ sub inp io rb)); auto|].
    + eapply absorbed_full; eauto; rewrite ?sub_length, ?HM by lia; [lia|]. exact X1.
    + rewrite app_length, sub_length by lia. rewrite <- (Nat.mul_1_l rb) at 1. now rewrite Nat.mod_add by lia.
    + lia.
    + intros st (s' & -> & HA' & HM'). rewrite EM in *. exists s'. 
      replace (inlen - inlen mod rb)%nat with (rb + (inlen - rb - inlen mod rb))%nat by lia.
      rewrite sub_app, app_assoc. split; auto. now rewrite Nat.add_assoc.
Qed.

Lemma keccak_absorb_once_wp io inlen :
  traced (fun T => forall s inp p sfx, length s = 25%nat -> (io + inlen <= length inp)%nat -> bytes inp ->
    domain p sfx -> 0 <= p <= 255 ->
    wp (keccak_absorb_once s rb inp io inlen p) T (finished sfx (sub inp io inlen))).
Proof.
  eexists. intros s inp p sfx Hs Hi Hb Hd Hp. unfold keccak_absorb_once.
  wstep. eapply wp_conseq; [apply (proj2_sig zero_state_wp); auto|]. intros ? ->.
  wstep. eapply wp_conseq; [apply (proj2_sig (once_loop_wp (S inlen) io inlen ltac:(lia)) (repeat 0 25) inp []); auto|].
  { now apply zero_absorbed. } { apply Nat.mod_0_l. lia. }
  cbn [app]. intros st (s1 & -> & HA & HM). cbv beta iota.
  pose proof (Nat.mod_le inlen rb ltac:(lia)). pose proof (Nat.mod_upper_bound inlen rb ltac:(lia)).
  wstep.
  eapply wp_conseq; [|intros s2 H2; exact H2].
  set (fb := fun i s => b <- aget inp (io + (inlen - inlen mod rb) + i) ;; xor_byte s i b).
  assert (EF : forall s n lo, for_ n lo fb s = for_ n lo (fun i s => b <- aget inp (io + (inlen - inlen mod rb) + (i - 0)) ;; xor_byte s i b) s).
  { intros s0 n lo. revert s0 lo. induction n; intros s0 lo; cbn [for_]; auto. unfold fb at 1. rewrite Nat.sub_0_r.
    unfold bind. destruct (emit _); auto. destruct (aget _ _); auto. destruct (xor_byte _ _ _); auto. now rewrite IHn. }
  rewrite EF.
  eapply wp_conseq; [apply (proj2_sig (absorb_rest_wp 0 (io + (inlen - inlen mod rb)) (inlen mod rb))); eauto; lia|].
  intros s2 H2. rewrite <- sub_app in H2.
  replace (inlen - inlen mod rb + inlen mod rb)%nat with inlen in H2 by lia.
  apply (proj2_sig (finalize_wp (inlen mod rb) ((rb - 1) / 8))); auto.
  - now rewrite sub_length by lia.
  - rewrite Hrl. symmetry. apply Nat.div_unique with (r := 7%nat); lia.
Qed.

End Absorb.

Section Squeeze.
Variable rb : nat.
Hypothesis Hrb0 : (0 < rb)%nat.
Hypothesis Hrb : (8 * rb <= 1600)%nat.

(** ** Squeezing: byte i of the output stream of state S *)
Definition sqbyte (S : list bool) (i : nat) : Z := stbyte (Nat.iter (i / rb) keccak_f S) (i mod rb).

Lemma sqbyte_low S i : (i < rb)%nat -> sqbyte S i = stbyte S i.
Proof. intros. unfold sqbyte. now rewrite Nat.div_small, Nat.mod_small by auto. Qed.

Lemma iter_shift n (S : list bool) : Nat.iter n keccak_f (keccak_f S) = Nat.iter (Datatypes.S n) keccak_f S.
Proof.
  induction n as [|n IH]; [reflexivity|].
  change (Nat.iter (Datatypes.S n) keccak_f (keccak_f S)) with (keccak_f (Nat.iter n keccak_f (keccak_f S))).
  exact (f_equal keccak_f IH).
Qed.

Lemma sqbyte_shift S i : sqbyte (keccak_f S) i = sqbyte S (rb + i).
Proof using Hrb0.
  clear Hrb.
  unfold sqbyte. replace (rb + i)%nat with (i + 1 * rb)%nat by lia.
  rewrite Nat.div_add, Nat.mod_add by lia. rewrite iter_shift. now rewrite Nat.add_1_r.
Qed.

Lemma sqbyte_range S i : 0 <= sqbyte S i <= 255.
Proof. apply stbyte_range. Qed.

Definition inner_cond (pos outlen : nat) (st : nat * list Z) : res bool :=
  let '(i, out) := st in test_and (i <? rb)%nat (test (i <? pos + outlen)%nat).
Definition inner_body (s : list Z) (oo pos : nat) (st : nat * list Z) : res (nat * list Z) :=
  let '(i, out) := st in
           m <- nmod i 8 ;;
           d <- ndiv i 8 ;;
           x <- aget s d ;;
           v <- shr 64 x (Z.of_nat (8 * m)) ;;
           out <- aset out (oo + (i - pos)) (u8 v) ;;
           ret (S i, out).

Lemma inner_loop_wp oo pos outlen c : c = (Nat.min rb (pos + outlen) - pos)%nat ->
  traced (fun T => forall out s, wfstate s -> (pos <= rb)%nat -> (oo + outlen <= length out)%nat ->
    wp (while_ (S rb) (inner_cond pos outlen) (inner_body s oo pos) (pos, out)) T
       (fun st => st = ((pos + c)%nat, splice out oo (mk c (fun j => stbyte (sbits s) (pos + j)))))).
Proof.
  intros Hc. eexists. intros out s W Hp Ho.
  eapply (wp_while (fun i => [EvBranch (i <? rb)%nat] ++
     (if (i <? rb)%nat then [EvBranch (i <? pos + outlen)%nat] else [])) _
     (fun i st => st = (i, splice out oo (mk (i - pos) (fun j => stbyte (sbits s) (pos + j))))) c pos).
  - lia.
  - now rewrite Nat.sub_diag, mk_0, splice_nil.
  - intros i st Hi ->. unfold inner_cond, test_and. wstep. wstep.
    destruct (Nat.ltb_spec i rb); [|lia]. wstep. apply Nat.ltb_lt. lia.
  - intros i st Hi ->. unfold inner_body, nmod, ndiv. destruct W as [L W].
    assert (Hd : (i / 8 < 25)%nat) by (apply Nat.div_lt_upper_bound; lia).
    pose proof (Nat.mod_upper_bound i 8 ltac:(lia)) as Hm.
    wstep. eapply wp_conseq; [apply wp_ok; reflexivity|]. intros ? ->.
    wstep. eapply wp_conseq; [apply wp_ok; reflexivity|]. intros ? ->.
    wstep. wstep; [lia|]. wstep. wstep; [lia|]. wstep. wstep.
    { rewrite splice_length; rewrite ?mk_length; lia. }
    wstep. replace (S i - pos)%nat with (S (i - pos)) by lia. rewrite mk_S.
    rewrite splice_snoc by (rewrite ?mk_length; lia).
    rewrite state_byte by auto. replace (8 * (i / 8) + i mod 8)%nat with (pos + (i - pos))%nat; [reflexivity|].
    pose proof (Nat.div_mod i 8 ltac:(lia)). lia.
  - intros st ->. unfold inner_cond, test_and. wstep. wstep.
    destruct (Nat.ltb_spec (pos + c) rb).
    + wstep. apply Nat.ltb_ge. lia.
    + now wstep.
  - intros st ->. now replace (pos + c - pos)%nat with c by lia.
Qed.

(** Position after squeezing n bytes *)
Definition sq_pos (pos n : nat) : nat := if (n =? 0)%nat then pos else ((pos + n - 1) mod rb + 1)%nat.

Definition sq_cond (st : list Z * nat * nat * list Z * nat) : res bool :=
  let '(out, oo, outlen, s, pos) := st in test (negb (outlen =? 0)%nat).
Definition sq_body (st : list Z * nat * nat * list Z * nat) : res (list Z * nat * nat * list Z * nat) :=
  let '(out, oo, outlen, s, pos) := st in
      b <- test (pos =? rb)%nat ;;
      '(s, pos) <- (if (b : bool)
                    then (s <- KeccakF1600_StatePermute s ;; ret (s, 0%nat))
                    else ret (s, pos)) ;;
      '(i, out) <- while_ (S rb) (inner_cond pos outlen) (inner_body s oo pos) (pos, out) ;;
      ret (out, (oo + (i - pos))%nat, (outlen - (i - pos))%nat, s, i).

Lemma refill_wp pos : (pos <= rb)%nat ->
  traced (fun T => forall s, wfstate s ->
    wp (b <- test (pos =? rb)%nat ;;
        (if (b : bool) then (s <- KeccakF1600_StatePermute s ;; ret (s, 0%nat)) else ret (s, pos))) T
       (fun sp => exists s', sp = (s', if (pos =? rb)%nat then 0%nat else pos) /\ wfstate s' /\
          forall i, sqbyte (sbits s') ((if (pos =? rb)%nat then 0%nat else pos) + i) = sqbyte (sbits s) (pos + i))).
Proof.
  intros Hp. destruct (Nat.eq_dec pos rb) as [->|Hne].
  - eexists. intros s W. wstep. wstep. rewrite Nat.eqb_refl. wstep.
    eapply wp_conseq; [apply (proj2_sig permute_wp); auto|]. intros s1 [W1 E1]. wstep.
    exists s1. split; auto. split; auto. intros i. rewrite E1. cbn [Nat.add]. apply sqbyte_shift.
  - eexists. intros s W. wstep. wstep. destruct (Nat.eqb_spec pos rb); [lia|]. wstep.
    exists s. auto.
Qed.

Lemma wp_assoc' {A B C} (m : res A) (f : A -> res B) (g : B -> res C) T Q :
  wp (bind m (fun x => bind (f x) g)) T Q -> wp (bind (bind m f) g) T Q.
Proof.
  intros (v & E & H). exists v. split; auto. rewrite <- E.
  unfold bind. destruct m; auto. destruct (f v0); auto. destruct (g v1); auto.
  now rewrite app_assoc.
Qed.

Lemma squeeze_loop_wp : forall fuel oo outlen pos, (pos <= rb)%nat -> (outlen < fuel)%nat ->
  traced (fun T => forall out s, wfstate s -> (oo + outlen <= length out)%nat ->
    wp (while_ fuel sq_cond sq_body (out, oo, outlen, s, pos)) T
       (fun st => exists s', st = (splice out oo (mk outlen (fun j => sqbyte (sbits s) (pos + j))),
                       (oo + outlen)%nat, 0%nat, s', sq_pos pos outlen) /\
          wfstate s' /\ forall i, sqbyte (sbits s') (sq_pos pos outlen + i) = sqbyte (sbits s) (pos + outlen + i))).
Proof.
  induction fuel as [|fuel IH]; intros oo outlen pos Hp Hf; [exfalso; lia|].
  destruct (Nat.eq_dec outlen 0) as [->|Hne].
  - eexists. intros out s W Ho. cbn [while_]. wstep. unfold sq_cond. wstep. cbn [Nat.eqb negb]. wstep.
    exists s. split; [|split; [exact W|]].
    + rewrite mk_0, splice_nil. now rewrite Nat.add_0_r.
    + intros i. unfold sq_pos. cbn [Nat.eqb]. now rewrite Nat.add_0_r.
  - set (p0 := if (pos =? rb)%nat then 0%nat else pos).
    assert (Hp0 : (p0 < rb)%nat) by (unfold p0; destruct (Nat.eqb_spec pos rb); lia).
    set (c := (Nat.min rb (p0 + outlen) - p0)%nat).
    destruct (refill_wp pos Hp) as [T1 H1].
    destruct (IH (oo + c)%nat (outlen - c)%nat (p0 + c)%nat ltac:(unfold c; lia) ltac:(unfold c; lia)) as [T2 H2].
    eexists. intros out s W Ho. cbn [while_]. wstep. unfold sq_cond at 1. wstep.
    destruct (Nat.eqb_spec outlen 0); [lia|]. cbn [negb]. wstep. unfold sq_body at 1. apply wp_assoc. wstep.
    eapply wp_conseq; [apply H1; auto|].
    fold p0. intros sp (s1 & -> & W1 & E1). cbv beta iota. wstep.
    eapply wp_conseq; [apply (proj2_sig (inner_loop_wp oo p0 outlen c eq_refl)); auto; lia|].
    intros st ->. cbv beta iota. wstep. replace (p0 + c - p0)%nat with c by lia.
    assert (Hc : (0 < c <= outlen)%nat) by (unfold c; lia).
    eapply wp_conseq; [apply H2; auto; rewrite splice_length; rewrite ?mk_length; lia|].
    assert (EB : mk c (fun j => stbyte (sbits s1) (p0 + j)) = mk c (fun j => sqbyte (sbits s) (pos + j))).
    { apply mk_ext. intros j Hj. rewrite <- E1. symmetry. apply sqbyte_low. unfold c in Hj. lia. }
    assert (EP : sq_pos (p0 + c) (outlen - c) = sq_pos pos outlen).
    { unfold sq_pos. destruct (Nat.eqb_spec outlen 0); [lia|].
      assert (EQ : ((pos + outlen - 1) mod rb = (p0 + outlen - 1) mod rb)%nat).
      { unfold p0. destruct (Nat.eqb_spec pos rb); auto. subst pos.
        replace (rb + outlen - 1)%nat with ((0 + outlen - 1) + 1 * rb)%nat by lia.
        now rewrite Nat.mod_add by lia. }
      destruct (Nat.eqb_spec (outlen - c) 0).
      - rewrite EQ. rewrite Nat.mod_small; unfold c in *; lia.
      - replace (p0 + c + (outlen - c) - 1)%nat with (p0 + outlen - 1)%nat by lia. now rewrite EQ. }
    intros st (s2 & -> & W2 & E2). exists s2. rewrite EP in *. split; [|split; auto].
    + rewrite EB.
      rewrite (mk_ext (outlen - c) (fun j => sqbyte (sbits s1) (p0 + c + j)) (fun j => sqbyte (sbits s) (pos + (c + j)))).
      2:{ intros j Hj. rewrite <- Nat.add_assoc. apply E1. }
      rewrite (splice_mk_app out oo c (outlen - c) (fun j => sqbyte (sbits s) (pos + j))) by lia.
      replace (c + (outlen - c))%nat with outlen by lia.
      replace (oo + c + (outlen - c))%nat with (oo + outlen)%nat by lia. reflexivity.
    + intros i. rewrite E2. replace (p0 + c + (outlen - c) + i)%nat with (p0 + (outlen + i))%nat by lia.
      rewrite E1. f_equal. lia.
Qed.

Lemma keccak_squeeze_wp oo outlen pos : (pos <= rb)%nat ->
  traced (fun T => forall out s, wfstate s -> (oo + outlen <= length out)%nat ->
    wp (keccak_squeeze out oo outlen s pos rb) T
       (fun '(out', s', pos') =>
          out' = splice out oo (mk outlen (fun j => sqbyte (sbits s) (pos + j))) /\ wfstate s' /\
          pos' = sq_pos pos outlen /\
          forall i, sqbyte (sbits s') (pos' + i) = sqbyte (sbits s) (pos + outlen + i))).
Proof.
  intros Hp. eexists. intros out s W Ho. unfold keccak_squeeze.
  wstep. eapply wp_conseq; [apply (proj2_sig (squeeze_loop_wp (S outlen) oo outlen pos Hp ltac:(lia))); auto|].
  intros st (s' & -> & W' & E). cbv beta iota. wstep. auto.
Qed.

(** ** keccak_squeezeblocks *)
Lemma iter_S n (S : list bool) : Nat.iter (Datatypes.S n) keccak_f S = keccak_f (Nat.iter n keccak_f S).
Proof. reflexivity. Qed.

(** ** The specification's output, byte by byte *)
Lemma iter_length n (S : list bool) : length S = 1600%nat -> length (Nat.iter n keccak_f S) = 1600%nat.
Proof. intros H. destruct n; [exact H|]. rewrite iter_S. apply keccak_f_length. Qed.

Lemma squeeze_nth r n (S : list bool) k : (0 < r <= 1600)%nat -> length S = 1600%nat -> (k < n * r)%nat ->
  nth k (squeeze n r S) false = nth (k mod r) (Nat.iter (k / r) keccak_f S) false.
Proof.
  intros Hr. revert S k. induction n as [|n IHn]; intros St k HS Hk; [cbn in Hk; lia|]. cbn [squeeze].
  assert (LF : length (firstn r St) = r) by (rewrite firstn_length; lia).
  destruct (Nat.ltb_spec k r).
  - rewrite app_nth1 by lia. rewrite nth_firstn. destruct (Nat.ltb_spec k r); [|lia].
    now rewrite Nat.div_small, Nat.mod_small by auto.
  - rewrite app_nth2, LF by lia. rewrite IHn; [|apply keccak_f_length|nia].
    rewrite iter_shift.
    assert (Ed : (k / r = S ((k - r) / r))%nat).
    { replace k with ((k - r) + 1 * r)%nat at 1 by lia. rewrite Nat.div_add by lia. lia. }
    assert (Em : (k mod r = (k - r) mod r)%nat).
    { replace k with ((k - r) + 1 * r)%nat at 1 by lia. apply Nat.mod_add. lia. }
    rewrite Ed, Em. reflexivity.
Qed.

Lemma pieces_nth n r P i : (i < n)%nat -> nth i (pieces n r P) [] = firstn r (skipn (i * r) P).
Proof.
  revert P i; induction n; intros P i Hi; [lia|]. cbn [pieces]. destruct i as [|i]; [reflexivity|].
  cbn [nth]. rewrite IHn, skipn_skipn by lia. reflexivity.
Qed.

Lemma pieces_length n r P : length (pieces n r P) = n.
Proof. revert P; induction n; intros; cbn [pieces length]; auto. Qed.

Lemma squeeze_length r n (S : list bool) : (r <= 1600)%nat -> length S = 1600%nat -> length (squeeze n r S) = (n * r)%nat.
Proof.
  intros Hr. revert S. induction n; intros S HS; [reflexivity|]. cbn [squeeze].
  rewrite app_length, firstn_length, IHn by apply keccak_f_length. lia.
Qed.

Lemma absorb_length r P : length (absorb r P) = 1600%nat.
Proof. apply (core_length (length P / r) r P). Qed.

Lemma sponge_bytes N n :
  bytes_of_bits n (sponge (8 * rb) N (8 * n)) =
  mk n (sqbyte (absorb (8 * rb) (N ++ pad10star1 (8 * rb) (length N)))).
Proof.
  unfold sponge. cbv zeta.
  pose proof (absorb_length (8 * rb) (N ++ pad10star1 (8 * rb) (length N))) as HA.
  set (A := absorb _ _) in *. clearbody A.
  set (nb := (8 * n / (8 * rb) + 1)%nat).
  assert (Hnb : (8 * n <= nb * (8 * rb))%nat).
  { unfold nb. pose proof (Nat.div_mod (8 * n) (8 * rb) ltac:(lia)).
    pose proof (Nat.mod_upper_bound (8 * n) (8 * rb) ltac:(lia)). nia. }
  assert (LQ : length (squeeze nb (8 * rb) A) = (nb * (8 * rb))%nat) by (apply squeeze_length; auto).
  unfold bytes_of_bits. apply (list_eq_nth 0).
  { now rewrite map_length, pieces_length, mk_length. }
  intros i Hi. rewrite map_length, pieces_length in Hi. rewrite nth_mk by auto.
  change 0 with (byte_of_bits []). rewrite map_nth, pieces_nth by auto.
  unfold sqbyte, stbyte. apply (f_equal byte_of_bits).
  set (X := firstn (8 * n) (squeeze nb (8 * rb) A)).
  assert (LX : length X = (8 * n)%nat) by (unfold X; rewrite firstn_length; lia).
  apply (list_eq_nth false).
  - rewrite map_length, seq_length, firstn_length, skipn_length. lia.
  - intros j Hj. rewrite firstn_length, skipn_length in Hj.
    rewrite nth_firstn, nth_skipn. destruct (Nat.ltb_spec j 8); [|lia].
    unfold X. rewrite nth_firstn. destruct (Nat.ltb_spec (i * 8 + j) (8 * n)); [|lia].
    rewrite squeeze_nth by (auto; lia).
    transitivity (nth (8 * (i mod rb) + j) (Nat.iter (i / rb) keccak_f A) false);
      [|symmetry; apply (nth_mk 8 (fun j => nth (8 * (i mod rb) + j) (Nat.iter (i / rb) keccak_f A) false)); auto].
    pose proof (Nat.div_mod i rb ltac:(lia)). pose proof (Nat.mod_upper_bound i rb ltac:(lia)).
    replace ((i * 8 + j) / (8 * rb))%nat with (i / rb)%nat.
    2:{ apply Nat.div_unique with (r := (8 * (i mod rb) + j)%nat); nia. }
    replace ((i * 8 + j) mod (8 * rb))%nat with (8 * (i mod rb) + j)%nat.
    2:{ apply Nat.mod_unique with (q := (i / rb)%nat); nia. }
    reflexivity.
Qed.

Variable rl : nat.
Hypothesis Hrl : rb = (8 * rl)%nat.

Lemma keccak_squeezeblocks_wp oo nb :
  traced (fun T => forall out s, wfstate s -> (oo + rb * nb <= length out)%nat ->
    wp (keccak_squeezeblocks out oo nb s rb) T
       (fun '(out', s') =>
          out' = splice out oo (mk (rb * nb) (fun j => sqbyte (sbits s) (rb + j))) /\ wfstate s' /\
          sbits s' = Nat.iter nb keccak_f (sbits s))).
Proof.
  eexists. intros out s W Ho. unfold keccak_squeezeblocks.
  eapply (wp_for _ (fun i st => exists s', st = (splice out oo (mk (rb * i) (fun j => sqbyte (sbits s) (rb + j))), s') /\
     wfstate s' /\ sbits s' = Nat.iter i keccak_f (sbits s))).
  - exists s. rewrite Nat.mul_0_r. split; [|split; auto]. now rewrite mk_0, splice_nil.
  - intros i st Hi (s1 & -> & W1 & E1). wstep.
    eapply wp_conseq; [apply (proj2_sig permute_wp); auto|]. intros s2 [W2 E2]. wstep.
    eapply wp_conseq; [apply (proj2_sig (store_lanes_wp (rb / 8) (oo + rb * i))); auto|].
    + rewrite Hrl, Nat.mul_comm, Nat.div_mul; lia.
    + rewrite splice_length; rewrite ?mk_length; [|nia].
      replace (8 * (rb / 8))%nat with rb by (rewrite Hrl, (Nat.mul_comm 8 rl), Nat.div_mul; lia). nia.
    + intros o2 ->. wstep. exists s2.
      replace (8 * (rb / 8))%nat with rb by (rewrite Hrl, (Nat.mul_comm 8 rl), Nat.div_mul; lia).
      assert (E3 : sbits s2 = Nat.iter (S i) keccak_f (sbits s)) by (rewrite E2, E1; reflexivity).
      split; [|split; auto]. f_equal.
      rewrite (mk_ext rb (stbyte (sbits s2)) (fun j => sqbyte (sbits s) (rb + (rb * i + j)))).
      * rewrite (splice_mk_app out oo (rb * i) rb (fun j => sqbyte (sbits s) (rb + j))) by nia.
        now replace (rb * i + rb)%nat with (rb * S i)%nat by lia.
      * intros j Hj. rewrite E3. unfold sqbyte.
        replace (rb + (rb * i + j))%nat with (j + S i * rb)%nat by lia.
        rewrite Nat.div_add, Nat.mod_add, Nat.div_small, Nat.mod_small by lia. reflexivity.
  - intros st (s' & -> & W' & E'). auto.
Qed.

End Squeeze.
