(** * C42 and C43 in the form of the property statements *)
From Coq Require Import ZArith List Lia Bool.
From Verif Require Import CMonad WP Proof_Base Model_Fips202 Spec_FIPS202
  Proof_Keccak Proof_Sponge Proof_Shake Proof_Hash Vocab Vocab_Code Vocab_Four Proof_Vocab Cases Proof_PropHash
  Model_AvxKeccak Model_AvxFips202x4 Proof_AvxKeccak Proof_AvxFips202x4 Proof_AvxShake4.
Import ListNotations.
Open Scope Z_scope.
Open Scope cmonad_scope.
Local Opaque SHAKE128 SHAKE256.

(** ** C42 *)
Lemma interleave_length n : forall s0 s1 s2 s3, length s0 = n -> length s1 = n -> length s2 = n -> length s3 = n ->
  length (interleave s0 s1 s2 s3) = n.
Proof.
  induction n as [|n IH]; intros [|a s0] [|b s1] [|c s2] [|d s3] H0 H1 H2 H3; try discriminate; [reflexivity|].
  cbn [interleave length]. f_equal. apply IH; cbn [length] in *; lia.
Qed.

Lemma interleave_nth n : forall s0 s1 s2 s3 i, length s0 = n -> length s1 = n -> length s2 = n -> length s3 = n -> (i < n)%nat ->
  nth i (interleave s0 s1 s2 s3) [] = [nth i s0 0; nth i s1 0; nth i s2 0; nth i s3 0].
Proof.
  induction n as [|n IH]; intros [|a s0] [|b s1] [|c s2] [|d s3] i H0 H1 H2 H3 Hi; try discriminate; [lia|].
  destruct i as [|i]; [reflexivity|]. cbn [interleave nth]. apply IH; cbn [length] in *; lia.
Qed.

Lemma interleave_inst n : forall s0 s1 s2 s3, length s0 = n -> length s1 = n -> length s2 = n -> length s3 = n ->
  inst 0 (interleave s0 s1 s2 s3) = s0 /\ inst 1 (interleave s0 s1 s2 s3) = s1 /\
  inst 2 (interleave s0 s1 s2 s3) = s2 /\ inst 3 (interleave s0 s1 s2 s3) = s3.
Proof.
  induction n as [|n IH]; intros [|a s0] [|b s1] [|c s2] [|d s3] H0 H1 H2 H3; try discriminate; [auto|].
  destruct (IH s0 s1 s2 s3) as (E0 & E1 & E2 & E3); cbn [length] in *; try lia.
  unfold inst in *. cbn [interleave map nth]. rewrite E0, E1, E2, E3. auto.
Qed.

Lemma inst_interleave : forall s, (forall v, In v s -> length v = 4%nat) ->
  s = interleave (inst 0 s) (inst 1 s) (inst 2 s) (inst 3 s).
Proof.
  induction s as [|v s IH]; intros H; [reflexivity|]. unfold inst in *. cbn [map interleave].
  rewrite <- IH by (intros; apply H; now right).
  pose proof (H v (or_introl eq_refl)) as L.
  destruct v as [|v0 [|v1 [|v2 [|v3 [|v4 l]]]]]; try discriminate L. reflexivity.
Qed.

Lemma interleave_wf s0 s1 s2 s3 : wfstate s0 -> wfstate s1 -> wfstate s2 -> wfstate s3 ->
  wf4 (interleave s0 s1 s2 s3).
Proof.
  intros [L0 R0] [L1 R1] [L2 R2] [L3 R3]. split; [now apply interleave_length|].
  intros k Hk. rewrite (interleave_nth 25) by auto. split; [reflexivity|].
  intros j. do 4 (destruct j as [|j]; [cbn [nth]; auto|]). cbn [nth]. destruct j; apply lane_0.
Qed.

Lemma permute4x_fips202 : exists T, forall (JJ : Junk) s0 s1 s2 s3,
  lane_list s0 -> lane_list s1 -> lane_list s2 -> lane_list s3 ->
  exists t0 t1 t2 t3,
    KeccakF1600_StatePermute4x (interleave s0 s1 s2 s3) = Ok (interleave t0 t1 t2 t3) T /\
    lane_list t0 /\ lane_list t1 /\ lane_list t2 /\ lane_list t3 /\
    state_bits t0 = keccak_f (state_bits s0) /\ state_bits t1 = keccak_f (state_bits s1) /\
    state_bits t2 = keccak_f (state_bits s2) /\ state_bits t3 = keccak_f (state_bits s3).
Proof.
  destruct permute4x_wp as [T W]. exists T. intros JJ s0 s1 s2 s3 H0 H1 H2 H3.
  apply lane_list_wf in H0, H1, H2, H3.
  destruct (W JJ _ (interleave_wf s0 s1 s2 s3 H0 H1 H2 H3)) as (s' & E & W' & B).
  destruct (interleave_inst 25 s0 s1 s2 s3) as (E0 & E1 & E2 & E3); [apply H0|apply H1|apply H2|apply H3|].
  pose proof (B 0%nat ltac:(lia)) as B0. pose proof (B 1%nat ltac:(lia)) as B1.
  pose proof (B 2%nat ltac:(lia)) as B2. pose proof (B 3%nat ltac:(lia)) as B3.
  rewrite E0 in B0. rewrite E1 in B1. rewrite E2 in B2. rewrite E3 in B3.
  exists (inst 0 s'), (inst 1 s'), (inst 2 s'), (inst 3 s'). rewrite !state_bits_sbits.
  rewrite <- inst_interleave.
  - assert (L : forall j, (j < 4)%nat -> lane_list (inst j s')) by (intros; now apply wf_lane_list, inst_wf).
    refine (conj E (conj (L _ _) (conj (L _ _) (conj (L _ _) (conj (L _ _) (conj B0 (conj B1 (conj B2 B3)))))))); lia.
  - intros v Hv. destruct (In_nth _ _ [] Hv) as (i & Hi & <-). destruct W' as [L V]. rewrite L in Hi. apply (V i Hi).
Qed.

(** ** C43 *)
Lemma slack_round8 n : (n + slack8 n = round8 n)%nat.
Proof.
  unfold slack8. pose proof (Nat.mod_upper_bound n 8 ltac:(lia)). pose proof (Nat.div_mod n 8 ltac:(lia)).
  destruct (Nat.eq_dec (n mod 8) 0) as [E|E].
  - rewrite E. unfold round8. change ((8 - 0) mod 8)%nat with 0%nat.
    replace (n + 7)%nat with (7 + n / 8 * 8)%nat by lia. rewrite Nat.div_add by lia. change (7 / 8)%nat with 0%nat. lia.
  - rewrite round8_mod by auto. rewrite Nat.mod_small by lia. lia.
Qed.

Lemma buffers_four m bufs : buffers m bufs -> four m bufs.
Proof.
  intros [L H]. split; auto. intros j Hj. destruct (H (nth j bufs [])) as [B Lb]; [apply nth_In; lia|].
  split; auto. now apply all_bytes_bytes.
Qed.

(** Reading off the four outputs *)
Lemma wrote_overwrite outs m f (ins : list (list Z)) g outs' : four m outs -> length ins = 4%nat ->
  (forall j, (j < 4)%nat -> mk m (f j) = g (nth j ins [])) ->
  wrote outs 0 m f outs' -> outs' = overwrite outs (map g ins).
Proof.
  intros F Li Hg [L H]. destruct (four_inv _ _ F) as (o0 & o1 & o2 & o3 & ->). destruct F as [_ F].
  destruct outs' as [|b0 [|b1 [|b2 [|b3 [|b4 l]]]]]; try discriminate L.
  destruct ins as [|i0 [|i1 [|i2 [|i3 [|i4 l]]]]]; try discriminate Li.
  assert (G : forall j, (j < 4)%nat -> nth j [b0; b1; b2; b3] [] =
     g (nth j [i0; i1; i2; i3] []) ++ skipn (length (g (nth j [i0; i1; i2; i3] []))) (nth j [o0; o1; o2; o3] [])).
  { intros j Hj. rewrite H by auto. rewrite Hg by auto. reflexivity. }
  pose proof (G 0%nat ltac:(lia)) as G0. pose proof (G 1%nat ltac:(lia)) as G1.
  pose proof (G 2%nat ltac:(lia)) as G2. pose proof (G 3%nat ltac:(lia)) as G3. cbn [nth] in G0, G1, G2, G3.
  unfold overwrite. cbn [map combine fst snd]. congruence.
Qed.

Lemma sub_firstn (b : list Z) n : sub b 0 n = firstn n b.
Proof. reflexivity. Qed.

Section Rate.
Variables (rb rl : nat) (X : list Z -> nat -> list Z).
Hypothesis HR : rate_ok rb rl.
Hypothesis HX : forall M k, X M k = mk k (stream rb shake_sfx M).

Lemma oneshot4 n outlen : exists T, forall (JJ : Junk) outs ins,
  buffers outlen outs -> buffers (n + slack8 n) ins ->
  shakex4 rb outs outlen ins n = Ok (overwrite outs (map (fun b => X (firstn n b) outlen) ins)) T.
Proof.
  destruct (shakex4_wp rb rl HR outlen n) as [T W]. exists T. intros JJ outs ins Ho Hi.
  destruct (W JJ outs ins) as (outs' & E & Q).
  - now apply buffers_four.
  - rewrite <- slack_round8. now apply buffers_four.
  - rewrite E. f_equal. eapply (wrote_overwrite outs outlen _ ins); [now apply buffers_four|apply Hi| |exact Q].
    intros j Hj. symmetry. apply HX.
Qed.

Lemma stream_skip M a b : mk b (fun i => stream rb shake_sfx M (a + i)) = skipn a (X M (a + b)).
Proof.
  rewrite HX, mk_add, skipn_app, mk_length, Nat.sub_diag, skipn_all2 by (rewrite mk_length; lia). reflexivity.
Qed.

Lemma blocks4 n nb nb' : exists T, forall (JJ : Junk) outs outs' ins state,
  length state = 25%nat -> buffers (rb * nb) outs -> buffers (rb * nb') outs' -> buffers (n + slack8 n) ins ->
  exists state',
  (state <- keccakx4_absorb_once state rb ins n 0x1F ;;
   '(outs, state) <- keccakx4_squeezeblocks outs 0 nb rb state ;;
   '(outs', state) <- keccakx4_squeezeblocks outs' 0 nb' rb state ;;
   ret (outs, outs', state))
  = Ok (overwrite outs (map (fun b => X (firstn n b) (rb * nb)) ins),
        overwrite outs' (map (fun b => skipn (rb * nb) (X (firstn n b) (rb * nb + rb * nb'))) ins), state')%nat T.
Proof.
  destruct (shakex4_absorb_once_wp rb rl HR n) as [T1 W1].
  destruct (shakex4_squeezeblocks_wp rb rl HR 0 nb) as [T2 W2].
  destruct (shakex4_squeezeblocks_wp rb rl HR 0 nb') as [T3 W3].
  exists (T1 ++ T2 ++ T3 ++ []). intros JJ outs outs' ins state Ls Ho Ho' Hi.
  destruct (W1 JJ state ins Ls) as (s1 & E1 & S1). { rewrite <- slack_round8. now apply buffers_four. }
  destruct (W2 JJ outs s1 _ 0%nat S1) as ([o2 s2] & E2 & O2 & S2). { now apply buffers_four. }
  destruct (W3 JJ outs' s2 _ (0 + nb)%nat S2) as ([o3 s3] & E3 & O3 & S3). { now apply buffers_four. }
  exists s3. rewrite E1. cbn [bind]. rewrite E2. cbn [bind]. rewrite E3. cbn [bind ret].
  f_equal. f_equal. f_equal.
  - eapply (wrote_overwrite outs (rb * nb) _ ins); [now apply buffers_four|apply Hi| |exact O2].
    intros j Hj. symmetry. apply HX.
  - eapply (wrote_overwrite outs' (rb * nb') _ ins); [now apply buffers_four|apply Hi| |exact O3].
    intros j Hj. rewrite <- stream_skip. apply mk_ext. intros i _. f_equal. lia.
Qed.
End Rate.

Lemma shake128x4_fips202 n outlen : exists T, forall (JJ : Junk) outs ins,
  buffers outlen outs -> buffers (n + slack8 n) ins ->
  shake128x4 outs outlen ins n = Ok (overwrite outs (map (fun b => SHAKE128 (firstn n b) outlen) ins)) T.
Proof. exact (oneshot4 168 21 SHAKE128 rate168 SHAKE128_stream n outlen). Qed.
Lemma shake256x4_fips202 n outlen : exists T, forall (JJ : Junk) outs ins,
  buffers outlen outs -> buffers (n + slack8 n) ins ->
  shake256x4 outs outlen ins n = Ok (overwrite outs (map (fun b => SHAKE256 (firstn n b) outlen) ins)) T.
Proof. exact (oneshot4 136 17 SHAKE256 rate136 SHAKE256_stream n outlen). Qed.

Lemma shake128x4_blocks n nb nb' : exists T, forall (JJ : Junk) outs outs' ins state,
  length state = 25%nat -> buffers (SHAKE128_RATE * nb) outs -> buffers (SHAKE128_RATE * nb') outs' ->
  buffers (n + slack8 n) ins ->
  exists state',
  (state <- shake128x4_absorb_once state ins n ;;
   '(outs, state) <- shake128x4_squeezeblocks outs 0 nb state ;;
   '(outs', state) <- shake128x4_squeezeblocks outs' 0 nb' state ;;
   ret (outs, outs', state))
  = Ok (overwrite outs (map (fun b => SHAKE128 (firstn n b) (SHAKE128_RATE * nb)) ins),
        overwrite outs' (map (fun b => skipn (SHAKE128_RATE * nb)
                                (SHAKE128 (firstn n b) (SHAKE128_RATE * nb + SHAKE128_RATE * nb'))) ins), state')%nat T.
Proof. exact (blocks4 168 21 SHAKE128 rate168 SHAKE128_stream n nb nb'). Qed.
Lemma shake256x4_blocks n nb nb' : exists T, forall (JJ : Junk) outs outs' ins state,
  length state = 25%nat -> buffers (SHAKE256_RATE * nb) outs -> buffers (SHAKE256_RATE * nb') outs' ->
  buffers (n + slack8 n) ins ->
  exists state',
  (state <- shake256x4_absorb_once state ins n ;;
   '(outs, state) <- shake256x4_squeezeblocks outs 0 nb state ;;
   '(outs', state) <- shake256x4_squeezeblocks outs' 0 nb' state ;;
   ret (outs, outs', state))
  = Ok (overwrite outs (map (fun b => SHAKE256 (firstn n b) (SHAKE256_RATE * nb)) ins),
        overwrite outs' (map (fun b => skipn (SHAKE256_RATE * nb)
                                (SHAKE256 (firstn n b) (SHAKE256_RATE * nb + SHAKE256_RATE * nb'))) ins), state')%nat T.
Proof. exact (blocks4 136 17 SHAKE256 rate136 SHAKE256_stream n nb nb'). Qed.

(** The slack is read: 33 bytes are not enough for a 33-byte message. *)
Lemma shake256x4_slack : exists ins, length ins = 4%nat /\ (forall b, In b ins -> byte_array 33 b) /\
  forall (JJ : Junk), exists u, shake256x4_absorb_once local_state4 ins 33 = UB u.
Proof.
  exists (repeat (repeat 7 33) 4). split; [reflexivity|]. split.
  - intros b Hb. apply repeat_spec in Hb. subst b. split; [reflexivity|]. intros x Hx. apply repeat_spec in Hx. lia.
  - intros JJ. eexists. vm_compute. reflexivity.
Qed.

(** ** Instances *)
Lemma some_lanes_xor_ok : lane_list (map (fun x => Z.lxor x 1) some_lanes).
Proof.
  split; [reflexivity|]. intros x Hx. apply in_map_iff in Hx as (y & <- & Hy).
  destruct (some_lanes_ok) as [_ R]. apply R in Hy. apply lane_lxor; unfold lane; lia.
Qed.
Lemma repeat_bytes v n : 0 <= v <= 255 -> all_bytes (repeat v n).
Proof. intros Hv x Hx. apply repeat_spec in Hx. subst x. lia. Qed.
Lemma case_buffers :
  buffers (33 + slack8 33) [some_bytes 40; repeat 7 41; some_bytes 50; repeat 0 40] /\ slack8 33 = 7%nat /\
  buffers (SHAKE256_RATE * 2) (repeat (some_bytes 300) 4) /\ slack8 32 = 0%nat.
Proof.
  change (slack8 33) with 7%nat. change (slack8 32) with 0%nat. change (SHAKE256_RATE * 2)%nat with 272%nat.
  assert (S : forall m n, (n <= m)%nat -> all_bytes (some_bytes m) /\ (n <= length (some_bytes m))%nat).
  { intros m n Hmn. destruct (some_bytes_ok m) as [L B]. rewrite L. auto. }
  split; [|split; [reflexivity|split; [|reflexivity]]].
  - split; [reflexivity|]. intros b [<-|[<-|[<-|[<-|[]]]]].
    + apply S. lia.
    + split; [apply repeat_bytes; lia|]. rewrite repeat_length. lia.
    + apply S. lia.
    + split; [apply repeat_bytes; lia|]. rewrite repeat_length. lia.
  - split; [reflexivity|]. intros b Hb. apply repeat_spec in Hb. subst b. apply S. lia.
Qed.
