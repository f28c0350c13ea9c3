(** * Each of the four instances of fips202x4.c is SHAKE *)
From Coq Require Import ZArith List Lia Bool.
From Verif Require Import CMonad WP Proof_Base Proof_Bits Model_Fips202 Spec_FIPS202 Proof_Keccak Proof_Sponge Proof_Shake
  Model_AvxKeccak Model_AvxFips202x4 Proof_AvxKeccak.
Import ListNotations.
Open Scope Z_scope.

(** Four byte arrays of at least m bytes *)
Definition four (m : nat) (bufs : list (list Z)) : Prop :=
  length bufs = 4%nat /\ forall j, (j < 4)%nat -> bytes (nth j bufs []) /\ (m <= length (nth j bufs []))%nat.

Lemma four_inv m bufs : four m bufs -> exists b0 b1 b2 b3, bufs = [b0; b1; b2; b3].
Proof.
  intros [L _]. destruct bufs as [|b0 [|b1 [|b2 [|b3 [|b4 l]]]]]; try discriminate L. eauto.
Qed.

Lemma four_le m m' bufs : (m' <= m)%nat -> four m bufs -> four m' bufs.
Proof. intros Hm [L H]. split; auto. intros j Hj. destruct (H j Hj). split; auto. lia. Qed.

Lemma inst_upd j s i v : inst j (upd s i v) = upd (inst j s) i (nth j v 0).
Proof. revert i; induction s as [|a s IH]; intros [|i]; cbn [upd inst map]; auto. f_equal. apply IH. Qed.

Lemma wf4_upd s i v : wf4 s -> vec4 v -> wf4 (upd s i v).
Proof.
  intros [L H] Hv. split; [now rewrite upd_length|]. intros k Hk. rewrite nth_upd.
  destruct (_ && _); auto.
Qed.

Lemma v_xor_vec4 a b : vec4 a -> vec4 b -> vec4 (v_xor a b).
Proof. intros [_ Ha] [_ Hb]. unfold v_xor. rewrite v_map2_mk. apply vec4_mk. intros. now apply lane_lxor. Qed.
Lemma v_and_vec4 a b : vec4 a -> vec4 b -> vec4 (v_and a b).
Proof. intros [_ Ha] [_ Hb]. unfold v_and. rewrite v_map2_mk. apply vec4_mk. intros. now apply lane_land. Qed.
Lemma v_xor_nth a b j : (j < 4)%nat -> nth j (v_xor a b) 0 = Z.lxor (nth j a 0) (nth j b 0).
Proof. intros. unfold v_xor. rewrite v_map2_mk. now rewrite nth_mk. Qed.
Lemma v_and_nth a b j : (j < 4)%nat -> nth j (v_and a b) 0 = Z.land (nth j a 0) (nth j b 0).
Proof. intros. unfold v_and. rewrite v_map2_mk. now rewrite nth_mk. Qed.
Lemma v_set1_vec4 x : lane x -> vec4 (v_set1 x).
Proof. intros H. apply (lw_const 0 x); auto. Qed.
Lemma v_set1_nth x j : (j < 4)%nat -> lane x -> nth j (v_set1 x) 0 = x.
Proof. intros Hj H. apply (lw_const j x); auto. Qed.

(** s[i] = xor(s[i], t) *)
Lemma xor_vec s i t f : wf4 s -> (i < 25)%nat -> vec4 t ->
  (forall j, (j < 4)%nat -> forall b, (b < 64)%nat -> Z.testbit (nth j t 0) (Z.of_nat b) = f j (64 * i + b)%nat) ->
  (forall j k, ~ (64 * i <= k < 64 * i + 64)%nat -> f j k = false) ->
  wf4 (upd s i (v_xor (nth i s []) t)) /\
  forall j, (j < 4)%nat -> xored (inst j s) (f j) (inst j (upd s i (v_xor (nth i s []) t))).
Proof.
  intros Hs Hi Ht Hf Hout. split.
  - apply wf4_upd; auto. apply v_xor_vec4; auto. now apply Hs.
  - intros j Hj. rewrite inst_upd, v_xor_nth, <- inst_nth by auto.
    apply xor_lane_bits; auto. { now apply inst_wf. } { apply Ht. }
Qed.

(** ** Loads and stores *)
Lemma gather64_wp pos :
  traced (fun T => forall ins, four (pos + 8) ins ->
    wp (gather64 ins pos) T
       (fun t => vec4 t /\ forall j, (j < 4)%nat -> forall b, (b < 64)%nat ->
          Z.testbit (nth j t 0) (Z.of_nat b) = mbit (nth j ins []) (8 * pos + b))).
Proof.
  eexists. intros ins Hi. destruct (four_inv _ _ Hi) as (b0 & b1 & b2 & b3 & ->). destruct Hi as [_ Hb].
  pose proof (Hb 0%nat ltac:(lia)) as [B0 L0]. pose proof (Hb 1%nat ltac:(lia)) as [B1 L1].
  pose proof (Hb 2%nat ltac:(lia)) as [B2 L2]. pose proof (Hb 3%nat ltac:(lia)) as [B3 L3].
  cbn [nth] in *. cbn [gather64].
  wstep. eapply wp_conseq; [apply (proj2_sig (load64_wp pos)); auto|]. intros v0 [V0 H0].
  wstep. wstep. eapply wp_conseq; [apply (proj2_sig (load64_wp pos)); auto|]. intros v1 [V1 H1].
  wstep. wstep. eapply wp_conseq; [apply (proj2_sig (load64_wp pos)); auto|]. intros v2 [V2 H2].
  wstep. wstep. eapply wp_conseq; [apply (proj2_sig (load64_wp pos)); auto|]. intros v3 [V3 H3].
  wstep. wstep. wstep. wstep. wstep. wstep. split.
  - split; [reflexivity|]. intros j. do 4 (destruct j as [|j]; [assumption|]). cbn [nth]. destruct j; apply lane_0.
  - intros j Hj. do 4 (destruct j as [|j]; [assumption|]). lia.
Qed.

Lemma xor_gathered_wp n pos :
  traced (fun T => forall (J : Junk) ins s, four (pos + 8 * n) ins -> wf4 s -> (n <= 25)%nat ->
    wp (xor_gathered ins n s pos) T
       (fun '(s', pos') => pos' = (pos + 8 * n)%nat /\ wf4 s' /\
          forall j, (j < 4)%nat ->
            xored (inst j s) (window 0 (64 * n) (fun k => mbit (nth j ins []) (8 * pos + k))) (inst j s'))).
Proof.
  eexists. intros J ins s Hi Hs Hn. unfold xor_gathered.
  eapply (wp_for _ (fun i st => exists s', st = (s', (pos + 8 * i)%nat) /\ wf4 s' /\
    forall j, (j < 4)%nat -> xored (inst j s) (window 0 (64 * i) (fun k => mbit (nth j ins []) (8 * pos + k))) (inst j s'))).
  - exists s. rewrite Nat.mul_0_r, Nat.add_0_r. split; auto. split; auto.
    intros j Hj. eapply xored_ext; [apply xored_refl; now apply inst_wf|]. intros k Hk. symmetry. apply window_out. lia.
  - intros i st Hr (s1 & -> & W1 & X1). wstep.
    eapply wp_conseq; [apply (proj2_sig (gather64_wp (pos + 8 * i))); eapply four_le; [|exact Hi]; lia|].
    intros t [Vt Ht]. pose proof W1 as [L1 _]. wstep. eapply (wp_aget []); [lia|]. wstep. wstep; [lia|].
    destruct (xor_vec s1 i t (fun j => window (64 * i) 64 (fun k => mbit (nth j ins []) (8 * pos + 64 * i + k)))) as [W2 X2]; auto.
    + lia.
    + intros j Hj b Hb. rewrite Ht, window_in by lia. f_equal. lia.
    + intros j k Hk. apply window_out. lia.
    + wstep. eexists. split; [f_equal; lia|]. split; auto. intros j Hj.
      eapply xored_trans; [apply X1; auto|apply X2; auto|].
      intros k Hk. destruct (Nat.ltb_spec k (64 * i)).
      * rewrite !(window_in 0), (window_out (64 * i)) by lia. now rewrite xorb_false_r.
      * rewrite (window_out 0 (64 * i)), xorb_false_l by lia. destruct (Nat.ltb_spec k (64 * S i)).
        -- rewrite !window_in by lia. f_equal. lia.
        -- now rewrite !window_out by lia.
  - intros st (s' & -> & W' & X'). auto.
Qed.

Lemma zero_state4_wp :
  traced (fun T => forall s : list (list Z), length s = 25%nat ->
    wp (for_ 25 0 (fun i s => aset s i (v_set1 0)) s) T (fun s' => s' = repeat (v_set1 0) 25)).
Proof.
  eexists. intros s Hs.
  eapply (wp_for _ (fun i s' => s' = splice s 0 (firstn i (repeat (v_set1 0) 25)))).
  - symmetry. apply splice_nil.
  - intros i s' Hi ->. wstep. { rewrite splice_length; rewrite ?firstn_length, ?repeat_length; lia. }
    rewrite (firstn_S_nth (v_set1 0)) by (rewrite repeat_length; lia).
    rewrite nth_repeat. apply splice_snoc; rewrite ?firstn_length, ?repeat_length; lia.
  - intros s' ->. change (0 + 25)%nat with 25%nat. rewrite firstn_all2 by (rewrite repeat_length; lia).
    apply splice_full. now rewrite repeat_length.
Qed.

Lemma zero4_wf : wf4 (repeat (v_set1 0) 25).
Proof.
  split; [apply repeat_length|]. intros i Hi.
  rewrite (nth_indep _ [] (v_set1 0)) by (now rewrite repeat_length). rewrite nth_repeat. apply v_set1_vec4, lane_0.
Qed.

Lemma zero4_inst j : (j < 4)%nat -> inst j (repeat (v_set1 0) 25) = repeat 0 25.
Proof. intros Hj. do 4 (destruct j as [|j]; [reflexivity|]). lia. Qed.

(** ** keccakx4_absorb_once *)
Definition round8 (m : nat) : nat := (8 * ((m + 7) / 8))%nat.

Lemma round8_ge m : (m <= round8 m)%nat.
Proof. unfold round8. pose proof (Nat.div_mod (m + 7) 8 ltac:(lia)). pose proof (Nat.mod_upper_bound (m + 7) 8 ltac:(lia)). lia. Qed.
Lemma round8_mod m : (m mod 8 <> 0)%nat -> round8 m = (m - m mod 8 + 8)%nat.
Proof.
  intros H. unfold round8. pose proof (Nat.div_mod m 8 ltac:(lia)). pose proof (Nat.mod_upper_bound m 8 ltac:(lia)).
  replace ((m + 7) / 8)%nat with (m / 8 + 1)%nat; [lia|].
  apply Nat.div_unique with (r := (m mod 8 - 1)%nat); lia.
Qed.

Lemma mask_bit n j : (n < 64)%nat -> (j < 64)%nat ->
  Z.testbit (u64 (u64 (Z.shiftl 1 (Z.of_nat n)) - 1)) (Z.of_nat j) = (j <? n)%nat.
Proof.
  intros Hn Hj. assert (E : u64 (Z.shiftl 1 (Z.of_nat n)) = 2 ^ Z.of_nat n).
  { rewrite Z.shiftl_1_l. apply Z.mod_small. split; [apply Z.pow_nonneg; lia|apply Z.pow_lt_mono_r; lia]. }
  rewrite E. assert (H : u64 (2 ^ Z.of_nat n - 1) = Z.ones (Z.of_nat n)).
  { rewrite Z.ones_equiv. apply Z.mod_small. assert (0 < 2 ^ Z.of_nat n) by (apply Z.pow_pos_nonneg; lia).
    assert (2 ^ Z.of_nat n < 2 ^ 64) by (apply Z.pow_lt_mono_r; lia). lia. }
  rewrite H. destruct (Nat.ltb_spec j n); [apply Z.ones_spec_low|apply Z.ones_spec_high]; lia.
Qed.

(** Buffers after writing: contents given per instance *)
Definition wrote (outs : list (list Z)) (oo m : nat) (f : nat -> nat -> Z) (outs' : list (list Z)) : Prop :=
  length outs' = 4%nat /\ forall j, (j < 4)%nat -> nth j outs' [] = splice (nth j outs []) oo (mk m (f j)).

Lemma wrote_four outs oo m f outs' k : four k outs -> (oo + m <= k)%nat ->
  (forall j i, 0 <= f j i <= 255) -> wrote outs oo m f outs' -> four k outs'.
Proof.
  intros [L H] Hk Hf [L' H']. split; auto. intros j Hj. rewrite H' by auto. destruct (H j Hj) as [B Lj].
  split.
  - intros i Hi. rewrite splice_length in Hi by (rewrite mk_length; lia).
    rewrite nth_splice by (rewrite mk_length; lia). rewrite mk_length.
    destruct (Nat.ltb_spec i oo); auto. destruct (Nat.ltb_spec i (oo + m)); auto.
    rewrite nth_mk by lia. apply Hf.
  - rewrite splice_length; rewrite ?mk_length; lia.
Qed.

Section Rate.
Variable rl : nat.
Let rb := (8 * rl)%nat.
Hypothesis Hrl : (0 < rl)%nat.
Hypothesis Hrb : (8 * rb <= 1600)%nat.

Lemma rb8 : (rb / 8 = rl)%nat.
Proof. unfold rb. rewrite Nat.mul_comm, Nat.div_mul; lia. Qed.

Definition absorbed4 (ins : list (list Z)) (m : nat) (s : list (list Z)) : Prop :=
  wf4 s /\ forall j, (j < 4)%nat -> absorbed rb (sub (nth j ins []) 0 m) (inst j s).

Lemma once4_loop_wp inlen :
  traced (fun T => forall (J : Junk) ins s, four inlen ins -> absorbed4 ins 0 s ->
    wp (while_ (S inlen)
      (fun st => let '(s, pos, inlen) := st in test (rb <=? inlen)%nat)
      (fun st => let '(s, pos, inlen) := st in
        '(s, pos) <- xor_gathered ins (rb / 8) s pos ;;
        s <- KeccakF1600_StatePermute4x s ;;
        ret (s, pos, (inlen - rb)%nat))
      (s, 0%nat, inlen)) T
      (fun st => exists s', st = (s', (inlen / rb * rb)%nat, (inlen mod rb)%nat) /\
         absorbed4 ins (inlen / rb * rb) s')).
Proof.
  eexists. intros J ins s Hi H0.
  assert (Hrb0 : (0 < rb)%nat) by (unfold rb; lia).
  pose proof (Nat.div_mod inlen rb ltac:(lia)) as DM. pose proof (Nat.mod_upper_bound inlen rb ltac:(lia)) as MB.
  set (n := (inlen / rb)%nat) in *.
  eapply (wp_while _ _ (fun i st => exists s', st = (s', (i * rb)%nat, (inlen - i * rb)%nat) /\
     absorbed4 ins (i * rb) s') n 0).
  - nia.
  - exists s. rewrite Nat.mul_0_l, Nat.sub_0_r. auto.
  - intros i st Hr (s' & -> & _). wstep. apply Nat.leb_le. nia.
  - intros i st Hr (s1 & -> & W1 & A1).
    wstep. eapply wp_conseq; [apply (proj2_sig (xor_gathered_wp (rb / 8) (i * rb))); auto|].
    { eapply four_le; [|exact Hi]. rewrite rb8. fold rb. nia. }
    { rewrite rb8. unfold rb in Hrb. lia. }
    intros [s2 pos2] (-> & W2 & X2). cbv beta iota.
    wstep. eapply wp_conseq; [apply (proj2_sig permute4x_wp); auto|]. intros s3 [W3 E3]. wstep.
    exists s3. rewrite rb8. fold rb. split. { f_equal; [f_equal|]; nia. }
    split; auto. intros j Hj.
    destruct Hi as [_ Hi]. destruct (Hi j Hj) as [Bj Lj].
    assert (LS : length (sub (nth j ins []) 0 (i * rb)) = (i * rb)%nat) by (apply sub_length; nia).
    assert (LB : length (sub (nth j ins []) (i * rb) rb) = rb) by (apply sub_length; nia).
    replace (S i * rb)%nat with (i * rb + rb)%nat by lia. rewrite sub_app, Nat.add_0_l.
    eapply (absorbed_full rb _ (inst j s1) _ (inst j s2) (inst j s3)); auto.
    + rewrite LS, LB, Nat.mod_mul by lia. reflexivity.
    + rewrite LS, LB, Nat.mod_mul by lia. eapply xored_ext; [apply X2; auto|].
      intros k Hk. rewrite rb8. replace (64 * rl)%nat with (8 * rb)%nat by (unfold rb; lia).
      apply (window_sub 0 rb (nth j ins []) (i * rb)).
    + now apply inst_wf.
  - intros st (s' & -> & _). wstep. apply Nat.leb_gt. change (0 + n)%nat with n. nia.
  - intros st (s' & -> & A). exists s'. split; auto. change (0 + n)%nat with n. f_equal. lia.
Qed.

(** The masked tail: r < 8 bytes at offset pos go to lane i *)
Lemma masked_tail_wp i r pos :
  traced (fun T => forall (J : Junk) ins s, (r < 8)%nat -> (r <> 0 -> four (pos + 8) ins)%nat -> wf4 s -> (i < 25)%nat ->
    wp (b <- test (negb (r =? 0)%nat) ;;
        (if (b : bool)
         then (t <- gather64 ins pos ;;
              m <- ushl 64 1 (Z.of_nat (8 * r)) ;;
              let idx := v_set1 (u64 (m - 1)) in
              let t := v_and t idx in
              x <- aget s i ;;
              aset s i (v_xor x t))
         else ret s)) T
       (fun s' => wf4 s' /\ forall j, (j < 4)%nat ->
          xored (inst j s) (window (64 * i) (8 * r) (fun k => mbit (nth j ins []) (8 * pos + k))) (inst j s'))).
Proof.
  destruct (Nat.eq_dec r 0) as [->|Hr0].
  - eexists. intros J ins s Hr Hi Hs Hi25. wstep. wstep. cbn [Nat.eqb negb]. wstep. split; auto.
    intros j Hj. eapply xored_ext; [apply xored_refl; now apply inst_wf|]. intros k Hk. symmetry. apply window_out. lia.
  - eexists. intros J ins s Hr Hi Hs Hi25. wstep. wstep. destruct (Nat.eqb_spec r 0); [lia|]. cbn [negb].
    wstep. eapply wp_conseq; [apply (proj2_sig (gather64_wp pos)); auto|]. intros t [Vt Ht].
    wstep. wstep; [lia|]. change (wrapu 64) with u64. cbv zeta.
    pose proof Hs as [Ls _]. wstep. eapply (wp_aget []); [lia|]. wstep; [lia|].
    apply (xor_vec s i _ (fun j => window (64 * i) (8 * r) (fun k => mbit (nth j ins []) (8 * pos + k)))); auto.
    + apply v_and_vec4; auto. apply v_set1_vec4, lane_u64.
    + intros j Hj b Hb. rewrite v_and_nth, v_set1_nth by (auto using lane_u64). rewrite Z.land_spec, Ht, mask_bit by lia.
      destruct (Nat.ltb_spec b (8 * r)).
      * rewrite andb_true_r, window_in by lia. f_equal. lia.
      * rewrite andb_false_r, window_out by lia. reflexivity.
    + intros j k Hk. apply window_out. lia.
Qed.

(** The padding byte p goes to byte r of lane i *)
Lemma pad_lane i r p b : (r < 8)%nat -> 0 <= p <= 255 -> (b < 64)%nat ->
  Z.testbit (u64 (Z.shiftl p (Z.of_nat (8 * r)))) (Z.of_nat b) =
  window (64 * i + 8 * r) 8 (fun k => Z.testbit p (Z.of_nat k)) (64 * i + b).
Proof.
  intros Hr Hp Hb. rewrite u64_bit by lia. destruct (Z.ltb_spec (Z.of_nat b) 64); [|lia]. cbn [andb].
  rewrite Z.shiftl_spec by lia. destruct (Nat.leb_spec (8 * r) b).
  - destruct (Nat.ltb_spec b (8 * r + 8)).
    + rewrite window_in by lia. f_equal. lia.
    + rewrite window_out by lia. apply (testbit_high p 8); lia.
  - rewrite window_out by lia. apply Z.testbit_neg_r. lia.
Qed.

Lemma wp_ndiv a b (Q : nat -> Prop) : Q (a / b)%nat -> wp (ndiv a b) [EvDiv (Z.of_nat a) (Z.of_nat b)] Q.
Proof. intros H. eexists. split; [reflexivity|exact H]. Qed.

Definition finished4 (sfx : list bool) (ins : list (list Z)) (m : nat) (s : list (list Z)) : Prop :=
  wf4 s /\ forall j, (j < 4)%nat -> finished rb sfx (sub (nth j ins []) 0 m) (inst j s).

Lemma keccakx4_absorb_once_wp inlen :
  traced (fun T => forall (J : Junk) s ins p sfx, length s = 25%nat -> four (round8 inlen) ins ->
    domain p sfx -> 0 <= p <= 255 ->
    wp (keccakx4_absorb_once s rb ins inlen p) T (finished4 sfx ins inlen)).
Proof.
  eexists. intros J s ins p sfx Hs Hi Hd Hp. unfold keccakx4_absorb_once.
  assert (Hrb0 : (0 < rb)%nat) by (unfold rb; lia).
  assert (Hi' : four inlen ins) by (eapply four_le; [apply round8_ge|exact Hi]).
  wstep. eapply wp_conseq; [apply (proj2_sig zero_state4_wp); auto|]. intros ? ->.
  wstep. eapply wp_conseq; [apply (proj2_sig (once4_loop_wp inlen)); auto|].
  { split; [apply zero4_wf|]. intros j Hj. rewrite zero4_inst by auto. now apply zero_absorbed. }
  intros st (s1 & -> & W1 & A1). cbv beta iota.
  pose proof (Nat.div_mod inlen rb ltac:(lia)) as DM. pose proof (Nat.mod_upper_bound inlen rb ltac:(lia)) as MB.
  set (n := (inlen / rb)%nat) in *. set (rem := (inlen mod rb)%nat) in *.
  wstep. apply wp_ndiv.
  pose proof (Nat.div_mod rem 8 ltac:(lia)) as DM8. pose proof (Nat.mod_upper_bound rem 8 ltac:(lia)) as MB8.
  set (i := (rem / 8)%nat) in *.
  assert (Hil : (i < rl)%nat) by (unfold rb in *; lia).
  assert (Er : (rem - 8 * i = rem mod 8)%nat) by lia. rewrite Er. set (r := (rem mod 8)%nat) in *.
  wstep. eapply wp_conseq; [apply (proj2_sig (xor_gathered_wp i (n * rb))); auto|].
  { eapply four_le; [|exact Hi']. nia. } { unfold rb in *; lia. }
  intros [s2 pos2] (-> & W2 & X2). cbv beta iota zeta.
  apply wp_assoc. wstep.
  eapply wp_conseq; [apply (proj2_sig (masked_tail_wp i r (n * rb + 8 * i))); auto|].
  { intros Hr0. eapply four_le; [|exact Hi].
    assert (E8 : (inlen mod 8 = r)%nat).
    { replace inlen with (r + (n * rl + i) * 8)%nat by (unfold rb in *; nia).
      rewrite Nat.mod_add by lia. apply Nat.mod_small. lia. }
    rewrite round8_mod by lia. nia. } { unfold rb in *; lia. }
  intros s3 [W3 X3].
  wstep. wstep; [lia|]. change (wrapu 64) with u64.
  pose proof W3 as [L3 _].
  wstep. eapply (wp_aget []); [unfold rb in *; lia|]. wstep. wstep; [unfold rb in *; lia|].
  destruct (xor_vec s3 i (v_set1 (u64 (Z.shiftl p (Z.of_nat (8 * r)))))
    (fun _ => window (64 * i + 8 * r) 8 (fun k => Z.testbit p (Z.of_nat k)))) as [W4 X4]; auto.
  { unfold rb in *; lia. } { apply v_set1_vec4, lane_u64. }
  { intros j Hj b Hb. rewrite v_set1_nth by (auto using lane_u64). now apply pad_lane. }
  { intros j k Hk. apply window_out. lia. }
  set (s4 := upd s3 i _) in *.
  assert (L4 : length s4 = 25%nat) by apply W4.
  assert (L63 : lane (2 ^ 63)) by (unfold lane; lia).
  rewrite rb8.
  wstep. eapply (wp_aget []); [unfold rb in *; lia|]. wstep; [unfold rb in *; lia|].
  destruct (xor_vec s4 (rl - 1) (v_set1 (2 ^ 63)) (fun _ k => k =? 8 * rb - 1)%nat) as [W5 X5]; auto.
  { unfold rb in *; lia. } { now apply v_set1_vec4. }
  { intros j Hj b Hb. rewrite v_set1_nth by auto. rewrite Z.pow2_bits_eqb by lia.
    destruct (Z.eqb_spec 63 (Z.of_nat b)), (Nat.eqb_spec (64 * (rl - 1) + b) (8 * rb - 1)); unfold rb in *; try lia; reflexivity. }
  { intros j k Hk. destruct (Nat.eqb_spec k (8 * rb - 1)); auto. unfold rb in *; lia. }
  split; [exact W5|]. intros j Hj. split; [apply inst_wf; exact W5|].
  destruct Hi' as [_ Hi']. destruct (Hi' j Hj) as [Bj Lj].
  assert (LM : length (sub (nth j ins []) 0 inlen) = inlen) by (apply sub_length; lia).
  assert (LM1 : length (sub (nth j ins []) 0 (n * rb)) = (n * rb)%nat) by (apply sub_length; nia).
  assert (LB : length (sub (nth j ins []) (n * rb) rem) = rem) by (apply sub_length; nia).
  eapply (finalized rb (sub (nth j ins []) 0 inlen) (inst j s3) p sfx); auto.
  - replace inlen with (n * rb + rem)%nat by lia. rewrite sub_app, Nat.add_0_l.
    eapply absorbed_more; [apply A1; auto| |]; rewrite ?LM1, ?LB, Nat.mod_mul by lia; [lia|].
    eapply xored_trans; [apply X2; auto|apply X3; auto|].
    intros k Hk. rewrite <- (window_sub 0 rem (nth j ins []) (n * rb) k).
    destruct (Nat.ltb_spec k (64 * i)).
    + rewrite !(window_in _ _ _ k), (window_out (64 * i)) by lia. now rewrite xorb_false_r.
    + rewrite (window_out 0 (64 * i)), xorb_false_l by lia. destruct (Nat.ltb_spec k (64 * i + 8 * r)).
      * rewrite !window_in by lia. f_equal. lia.
      * now rewrite !window_out by lia.
  - rewrite LM. fold rem. eapply xored_trans; [apply X4; auto|apply X5; auto|].
    intros k Hk. replace (64 * i + 8 * r)%nat with (8 * rem)%nat by lia. reflexivity.
Qed.

(** ** keccakx4_squeezeblocks *)
Lemma store64_each_wp off :
  traced (fun T => forall outs s d, four (off + 8) outs -> wf4 s -> (d < 25)%nat ->
    wp (store64_each outs off (nth d s [])) T
       (fun outs' => length outs' = 4%nat /\ forall j, (j < 4)%nat ->
          nth j outs' [] = splice (nth j outs []) off (mk 8 (fun m => stbyte (sbits (inst j s)) (8 * d + m))))).
Proof.
  eexists. intros outs s d Ho Hs Hd. destruct (four_inv _ _ Ho) as (b0 & b1 & b2 & b3 & ->). destruct Ho as [_ Hb].
  pose proof (Hb 0%nat ltac:(lia)) as [_ L0]. pose proof (Hb 1%nat ltac:(lia)) as [_ L1].
  pose proof (Hb 2%nat ltac:(lia)) as [_ L2]. pose proof (Hb 3%nat ltac:(lia)) as [_ L3].
  cbn [nth] in *. destruct Hs as [_ Hs]. destruct (Hs d Hd) as [LV _].
  pose proof (inst_nth 0 s d) as I0. pose proof (inst_nth 1 s d) as I1.
  pose proof (inst_nth 2 s d) as I2. pose proof (inst_nth 3 s d) as I3.
  destruct (nth d s []) as [|v0 [|v1 [|v2 [|v3 [|v4 l]]]]]; try discriminate LV. cbn [nth] in *.
  cbn [store64_each].
  wstep. rewrite <- I0. eapply wp_conseq; [apply (proj2_sig (store64_wp off)); auto|]. intros ? ->.
  wstep. wstep. rewrite <- I1. eapply wp_conseq; [apply (proj2_sig (store64_wp off)); auto|]. intros ? ->.
  wstep. wstep. rewrite <- I2. eapply wp_conseq; [apply (proj2_sig (store64_wp off)); auto|]. intros ? ->.
  wstep. wstep. rewrite <- I3. eapply wp_conseq; [apply (proj2_sig (store64_wp off)); auto|]. intros ? ->.
  wstep. wstep. wstep. wstep. wstep. wstep. split; [reflexivity|].
  intros j Hj. do 4 (destruct j as [|j]; [reflexivity|]). lia.
Qed.

Lemma store_lanes4_wp nl oo :
  traced (fun T => forall outs s, wf4 s -> (nl <= 25)%nat -> four (oo + 8 * nl) outs ->
    wp (for_ nl 0 (fun i outs => x <- aget s i ;; store64_each outs (oo + 8 * i) x) outs) T
       (wrote outs oo (8 * nl) (fun j => stbyte (sbits (inst j s))))).
Proof.
  eexists. intros outs s Hs Hn Ho.
  eapply (wp_for _ (fun i => wrote outs oo (8 * i) (fun j => stbyte (sbits (inst j s))))).
  - split; [apply Ho|]. intros j Hj. rewrite Nat.mul_0_r, mk_0. symmetry. apply splice_nil.
  - intros i o1 Hi H1. pose proof Hs as [Ls _].
    wstep. eapply (wp_aget []); [lia|].
    assert (F1 : four (oo + 8 * nl) o1).
    { eapply wrote_four; [exact Ho| |intros; apply stbyte_range|exact H1]. lia. }
    eapply wp_conseq; [apply (proj2_sig (store64_each_wp (oo + 8 * i))); [eapply four_le; [|exact F1]; lia|auto|lia]|].
    intros o2 [L2 H2]. split; auto. intros j Hj. rewrite H2 by auto. destruct H1 as [_ H1]. rewrite H1 by auto.
    destruct Ho as [_ Ho]. destruct (Ho j Hj) as [_ Lj].
    rewrite (splice_mk_app (nth j outs []) oo (8 * i) 8 (stbyte (sbits (inst j s)))) by lia.
    now replace (8 * i + 8)%nat with (8 * S i)%nat by lia.
  - intros o1 H1. exact H1.
Qed.

Lemma keccakx4_squeezeblocks_wp oo nb :
  traced (fun T => forall (J : Junk) outs s, wf4 s -> four (oo + rb * nb) outs ->
    wp (keccakx4_squeezeblocks outs oo nb rb s) T
       (fun '(outs', s') =>
          wrote outs oo (rb * nb) (fun j i => sqbyte rb (sbits (inst j s)) (rb + i)) outs' /\ wf4 s' /\
          forall j, (j < 4)%nat -> sbits (inst j s') = Nat.iter nb keccak_f (sbits (inst j s)))).
Proof.
  eexists. intros J outs s W Ho. unfold keccakx4_squeezeblocks.
  assert (Hrb0 : (0 < rb)%nat) by (unfold rb; lia).
  eapply (wp_for _ (fun i st => exists o' s', st = (o', s') /\
     wrote outs oo (rb * i) (fun j i => sqbyte rb (sbits (inst j s)) (rb + i)) o' /\
     wf4 s' /\ forall j, (j < 4)%nat -> sbits (inst j s') = Nat.iter i keccak_f (sbits (inst j s)))).
  - exists outs, s. split; auto. split; [|split; auto].
    split; [apply Ho|]. intros j Hj. rewrite Nat.mul_0_r, mk_0. symmetry. apply splice_nil.
  - intros i st Hi (o1 & s1 & -> & H1 & W1 & E1). wstep.
    eapply wp_conseq; [apply (proj2_sig permute4x_wp); auto|]. intros s2 [W2 E2].
    assert (F1 : four (oo + rb * nb) o1).
    { eapply wrote_four; [exact Ho| |intros; apply sqbyte_range|exact H1]. nia. }
    wstep. eapply wp_conseq; [apply (proj2_sig (store_lanes4_wp (rb / 8) (oo + rb * i))); auto|].
    { rewrite rb8. unfold rb in *; lia. } { eapply four_le; [|exact F1]. rewrite rb8. fold rb. nia. }
    intros o2 [L2 H2]. wstep. exists o2, s2. split; auto.
    assert (E3 : forall j, (j < 4)%nat -> sbits (inst j s2) = Nat.iter (S i) keccak_f (sbits (inst j s))).
    { intros j Hj. rewrite E2, E1 by auto. reflexivity. }
    split; [|split; auto]. split; auto. intros j Hj. rewrite H2 by auto. rewrite rb8. fold rb.
    destruct H1 as [_ H1]. rewrite H1 by auto. destruct Ho as [_ Ho]. destruct (Ho j Hj) as [_ Lj].
    rewrite (mk_ext rb (stbyte (sbits (inst j s2))) (fun k => sqbyte rb (sbits (inst j s)) (rb + (rb * i + k)))).
    + rewrite (splice_mk_app (nth j outs []) oo (rb * i) rb (fun k => sqbyte rb (sbits (inst j s)) (rb + k))) by nia.
      now replace (rb * i + rb)%nat with (rb * S i)%nat by lia.
    + intros k Hk. rewrite E3 by auto. unfold sqbyte.
      replace (rb + (rb * i + k))%nat with (k + S i * rb)%nat by lia.
      rewrite Nat.div_add, Nat.mod_add, Nat.div_small, Nat.mod_small by lia. reflexivity.
  - intros st (o' & s' & -> & H' & W' & E'). auto.
Qed.

End Rate.
