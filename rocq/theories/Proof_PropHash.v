(** * C10-C13 in the form of the property statements *)
From Coq Require Import ZArith List Lia Bool.
From Verif Require Import CMonad WP Proof_Base Model_Params Model_Fips202 Spec_FIPS202 Spec_FIPS203
  Proof_Keccak Proof_Sponge Proof_Shake Proof_Hash Vocab Vocab_Code Proof_Vocab.
Import ListNotations.
Open Scope Z_scope.
Open Scope cmonad_scope.
Local Opaque SHA3_256 SHA3_512 SHAKE128 SHAKE256.

Lemma lane_list_wf s : lane_list s -> wfstate s.
Proof.
  intros [L R]. split; auto. intros i. unfold lane. destruct (Nat.ltb_spec i (length s)).
  - apply R. now apply nth_In.
  - rewrite nth_overflow by lia. lia.
Qed.
Lemma wf_lane_list s : wfstate s -> lane_list s.
Proof. intros [L R]. split; auto. intros x Hx. destruct (In_nth _ _ 0 Hx) as (i & _ & <-). apply R. Qed.
Lemma state_bits_sbits s : state_bits s = sbits s.
Proof.
  unfold state_bits, sbits. apply flat_map_ext. intros a. unfold lane_bits_of, zseq.
  rewrite map_map. reflexivity.
Qed.

(** ** C11 *)
Lemma keccak_permutation s : lane_list s ->
  exists s' T, KeccakF1600_StatePermute s = Ok s' T /\ lane_list s' /\ state_bits s' = keccak_f (state_bits s).
Proof.
  intros HL. destruct permute_wp as [T W]. destruct (W s (lane_list_wf s HL)) as (s' & E & W' & B).
  exists s', T. rewrite !state_bits_sbits. auto using wf_lane_list.
Qed.

(** ** C10 *)
Section OneShot.
Context (JJ : Junk) (pre old post ipre msg ipost : list Z).
Hypothesis HB : all_bytes (ipre ++ msg ++ ipost).

Lemma sha3_256_fips202 : length old = 32%nat ->
  exists T, sha3_256 (pre ++ old ++ post) (length pre) (ipre ++ msg ++ ipost) (length ipre) (length msg)
            = Ok (pre ++ SHA3_256 msg ++ post) T.
Proof.
  intros L. destruct (sha3_256_wp (length pre) (length ipre) (length msg)) as [T W]. exists T.
  destruct (W JJ (pre ++ old ++ post) (ipre ++ msg ++ ipost)) as (v & E & ->).
  - rewrite <- L. apply ctx_length.
  - apply ctx_length.
  - now apply all_bytes_bytes.
  - rewrite sub_ctx, splice_ctx in E by (rewrite SHA3_256_length; exact L). exact E.
Qed.
Lemma sha3_512_fips202 : length old = 64%nat ->
  exists T, sha3_512 (pre ++ old ++ post) (length pre) (ipre ++ msg ++ ipost) (length ipre) (length msg)
            = Ok (pre ++ SHA3_512 msg ++ post) T.
Proof.
  intros L. destruct (sha3_512_wp (length pre) (length ipre) (length msg)) as [T W]. exists T.
  destruct (W JJ (pre ++ old ++ post) (ipre ++ msg ++ ipost)) as (v & E & ->).
  - rewrite <- L. apply ctx_length.
  - apply ctx_length.
  - now apply all_bytes_bytes.
  - rewrite sub_ctx, splice_ctx in E by (rewrite SHA3_512_length; exact L). exact E.
Qed.
Lemma shake128_fips202 :
  exists T, shake128 (pre ++ old ++ post) (length pre) (length old) (ipre ++ msg ++ ipost) (length ipre) (length msg)
            = Ok (pre ++ SHAKE128 msg (length old) ++ post) T.
Proof.
  destruct (shake128_wp (length pre) (length old) (length ipre) (length msg)) as [T W]. exists T.
  destruct (W JJ (pre ++ old ++ post) (ipre ++ msg ++ ipost)) as (v & E & ->).
  - apply ctx_length.
  - apply ctx_length.
  - now apply all_bytes_bytes.
  - rewrite sub_ctx, splice_ctx in E by (now rewrite SHAKE128_length). exact E.
Qed.
Lemma shake256_fips202 :
  exists T, shake256 (pre ++ old ++ post) (length pre) (length old) (ipre ++ msg ++ ipost) (length ipre) (length msg)
            = Ok (pre ++ SHAKE256 msg (length old) ++ post) T.
Proof.
  destruct (shake256_wp (length pre) (length old) (length ipre) (length msg)) as [T W]. exists T.
  destruct (W JJ (pre ++ old ++ post) (ipre ++ msg ++ ipost)) as (v & E & ->).
  - apply ctx_length.
  - apply ctx_length.
  - now apply all_bytes_bytes.
  - rewrite sub_ctx, splice_ctx in E by (now rewrite SHAKE256_length). exact E.
Qed.
End OneShot.

(** ** C12, C13 *)
Lemma all_bytes_concat c cs : all_bytes (concat (c :: cs)) -> all_bytes c /\ all_bytes (concat cs).
Proof. intros B. cbn [concat] in B. split; intros x Hx; apply B; apply in_or_app; auto. Qed.

Lemma absorb_chunks_ok rb rl chunks : rate_ok rb rl -> forall st M, absorbing rb M st -> all_bytes (concat chunks) ->
  exists st' T, absorb_chunks rb st chunks = Ok st' T /\ absorbing rb (M ++ concat chunks) st'.
Proof.
  intros HR. induction chunks as [|c cs IH]; intros st M HA HB.
  - exists st, []. cbn [concat]. rewrite app_nil_r. auto.
  - apply all_bytes_concat in HB. destruct HB as [B1 B2]. cbn [absorb_chunks concat].
    destruct (shake_absorb_wp rb rl (length M) 0 (length c) HR) as [T1 W1].
    destruct (W1 st c M HA eq_refl (le_n _) (all_bytes_bytes _ B1)) as (st1 & E1 & A1).
    rewrite E1. cbn [bind].
    assert (ES : sub c 0 (length c) = c) by (unfold sub; cbn [skipn]; apply firstn_all).
    rewrite ES in A1.
    destruct (IH st1 _ A1 B2) as (st' & T2 & E2 & A2). rewrite E2. rewrite <- app_assoc in A2. eauto.
Qed.

Lemma absorb_session_ok rb rl chunks st : rate_ok rb rl -> length (ks st) = 25%nat -> all_bytes (concat chunks) ->
  exists st' T, absorb_session rb st chunks = Ok st' T /\ squeezing rb (concat chunks) 0 st'.
Proof.
  intros HR L HB. unfold absorb_session. pose proof HR as (R0 & _ & _).
  destruct (shake_init_wp rb R0) as [T1 W1]. destruct (W1 st L) as (st1 & E1 & A1). rewrite E1. cbn [bind].
  destruct (absorb_chunks_ok rb rl chunks HR st1 [] A1 HB) as (st2 & T2 & E2 & A2). rewrite E2. cbn [bind app] in *.
  destruct (shake_finalize_wp rb rl (length (concat chunks)) HR) as [T3 W3].
  destruct (W3 st2 (concat chunks) A2 eq_refl) as (st3 & E3 & A3). rewrite E3. eauto.
Qed.

Lemma mk_app n m (f : nat -> Z) : mk n f ++ mk m (fun j => f (n + j)%nat) = mk (n + m) f.
Proof.
  unfold mk. rewrite seq_app, map_app. f_equal. rewrite Nat.add_0_l.
  apply nth_ext with (d := 0) (d' := 0); rewrite !map_length, !seq_length; [reflexivity|].
  intros i Hi. rewrite (nth_indep _ 0 (f (n + 0)%nat)) by (now rewrite map_length, seq_length).
  rewrite (nth_indep (map f _) 0 (f 0%nat)) by (now rewrite map_length, seq_length).
  rewrite (map_nth (fun j => f (n + j)%nat)), (map_nth f), !seq_nth by exact Hi. reflexivity.
Qed.

Lemma squeeze_chunks_ok rb rl M bufs : rate_ok rb rl -> forall n st, squeezing rb M n st ->
  exists outs st' T, squeeze_chunks rb st bufs = Ok (outs, st') T /\
    map (@length Z) outs = map (@length Z) bufs /\
    concat outs = mk (length (concat bufs)) (fun j => stream rb shake_sfx M (n + j)) /\
    squeezing rb M (n + length (concat bufs)) st'.
Proof.
  intros HR. induction bufs as [|b bs IH]; intros n st HS.
  - exists [], st, []. cbn [concat length]. rewrite Nat.add_0_r. auto.
  - cbn [squeeze_chunks]. destruct (shake_squeeze_wp rb rl n 0 (length b) HR) as [T1 W1].
    destruct (W1 st b M HS (le_n _)) as ([o st1] & E1 & -> & S1). rewrite E1. cbn [bind].
    destruct (IH _ st1 S1) as (outs & st' & T2 & E2 & L2 & C2 & S2). rewrite E2. cbn [bind ret].
    eexists _, st', _. split; [reflexivity|].
    assert (ES : splice b 0 (mk (length b) (fun j => stream rb shake_sfx M (n + j))) = mk (length b) (fun j => stream rb shake_sfx M (n + j))).
    { unfold splice. cbn [firstn app]. rewrite mk_length, Nat.add_0_l, skipn_all. apply app_nil_r. }
    rewrite ES. cbn [map concat]. rewrite mk_length, L2, C2, app_length. split; [reflexivity|]. split.
    + rewrite <- mk_app. f_equal. unfold mk. apply map_ext. intros j. f_equal. lia.
    + now rewrite Nat.add_assoc.
Qed.

Definition xof_spec (rb : nat) (M : list Z) (n : nat) : list Z := mk n (stream rb shake_sfx M).

Lemma shake_session_ok rb rl chunks bufs st : rate_ok rb rl -> length (ks st) = 25%nat -> all_bytes (concat chunks) ->
  exists outs st' T, (st <- absorb_session rb st chunks ;; squeeze_chunks rb st bufs) = Ok (outs, st') T /\
    map (@length Z) outs = map (@length Z) bufs /\ concat outs = xof_spec rb (concat chunks) (length (concat bufs)).
Proof.
  intros HR L HB. destruct (absorb_session_ok rb rl chunks st HR L HB) as (st1 & T1 & E1 & S1). rewrite E1. cbn [bind].
  destruct (squeeze_chunks_ok rb rl (concat chunks) bufs HR 0 st1 S1) as (outs & st' & T2 & E2 & L2 & C2 & _).
  rewrite E2. eauto 10.
Qed.

Lemma rate128 : rate_ok SHAKE128_RATE 21. Proof. cbv. lia. Qed.
Lemma rate256 : rate_ok SHAKE256_RATE 17. Proof. cbv. lia. Qed.

Lemma shake128_session chunks bufs st : length (ks st) = 25%nat -> all_bytes (concat chunks) ->
  exists outs st' T, (st <- absorb_session SHAKE128_RATE st chunks ;; squeeze_chunks SHAKE128_RATE st bufs) = Ok (outs, st') T /\
    map (@length Z) outs = map (@length Z) bufs /\ concat outs = SHAKE128 (concat chunks) (length (concat bufs)).
Proof. intros L B. rewrite SHAKE128_stream. exact (shake_session_ok _ _ chunks bufs st rate128 L B). Qed.
Lemma shake256_session chunks bufs st : length (ks st) = 25%nat -> all_bytes (concat chunks) ->
  exists outs st' T, (st <- absorb_session SHAKE256_RATE st chunks ;; squeeze_chunks SHAKE256_RATE st bufs) = Ok (outs, st') T /\
    map (@length Z) outs = map (@length Z) bufs /\ concat outs = SHAKE256 (concat chunks) (length (concat bufs)).
Proof. intros L B. rewrite SHAKE256_stream. exact (shake_session_ok _ _ chunks bufs st rate256 L B). Qed.

Lemma same_cut (a b : list (list Z)) : map (@length Z) a = map (@length Z) b -> concat a = concat b -> a = b.
Proof.
  revert b. induction a as [|x a IH]; intros [|y b] N C; try discriminate; auto.
  cbn [map concat] in *. injection N as N0 N.
  assert (x = y) as <-.
  { apply (f_equal (firstn (length x))) in C. rewrite !firstn_app in C.
    rewrite firstn_all, Nat.sub_diag, firstn_O, app_nil_r in C.
    rewrite N0, firstn_all, Nat.sub_diag, firstn_O, app_nil_r in C. exact C. }
  apply app_inv_head in C. f_equal. now apply IH.
Qed.

(** Two sessions absorbing the same bytes are indistinguishable, however the input was cut *)
Lemma chunking_irrelevant_128 chunks1 chunks2 st1 st2 bufs : length (ks st1) = 25%nat -> length (ks st2) = 25%nat ->
  all_bytes (concat chunks1) -> concat chunks1 = concat chunks2 ->
  exists outs s1 T1 s2 T2,
    (st <- absorb_session SHAKE128_RATE st1 chunks1 ;; squeeze_chunks SHAKE128_RATE st bufs) = Ok (outs, s1) T1 /\
    (st <- absorb_session SHAKE128_RATE st2 chunks2 ;; squeeze_chunks SHAKE128_RATE st bufs) = Ok (outs, s2) T2.
Proof.
  intros L1 L2 B E. destruct (shake128_session chunks1 bufs st1 L1 B) as (o1 & s1 & T1 & E1 & N1 & C1).
  rewrite E in B. destruct (shake128_session chunks2 bufs st2 L2 B) as (o2 & s2 & T2 & E2 & N2 & C2).
  assert (o1 = o2) as <-. 2: eauto 10.
  apply same_cut; [congruence|]. now rewrite C1, C2, E.
Qed.

Lemma chunking_irrelevant_256 chunks1 chunks2 st1 st2 bufs : length (ks st1) = 25%nat -> length (ks st2) = 25%nat ->
  all_bytes (concat chunks1) -> concat chunks1 = concat chunks2 ->
  exists outs s1 T1 s2 T2,
    (st <- absorb_session SHAKE256_RATE st1 chunks1 ;; squeeze_chunks SHAKE256_RATE st bufs) = Ok (outs, s1) T1 /\
    (st <- absorb_session SHAKE256_RATE st2 chunks2 ;; squeeze_chunks SHAKE256_RATE st bufs) = Ok (outs, s2) T2.
Proof.
  intros L1 L2 B E. destruct (shake256_session chunks1 bufs st1 L1 B) as (o1 & s1 & T1 & E1 & N1 & C1).
  rewrite E in B. destruct (shake256_session chunks2 bufs st2 L2 B) as (o2 & s2 & T2 & E2 & N2 & C2).
  assert (o1 = o2) as <-. 2: eauto 10.
  apply same_cut; [congruence|]. now rewrite C1, C2, E.
Qed.

Lemma squeezeblocks_ok rb rl ipre msg ipost st out nb : rate_ok rb rl -> length (ks st) = 25%nat ->
  all_bytes (ipre ++ msg ++ ipost) -> length out = (nb * rb)%nat ->
  exists st' T, (st <- shake_absorb_once rb st (ipre ++ msg ++ ipost) (length ipre) (length msg) ;;
                 shake_squeezeblocks rb out 0 nb st) = Ok (xof_spec rb msg (nb * rb), st') T.
Proof.
  intros HR L HB LO. destruct (shake_absorb_once_wp rb rl (length ipre) (length msg) HR) as [T1 W1].
  destruct (W1 st (ipre ++ msg ++ ipost) L (ctx_length _ _ _) (all_bytes_bytes _ HB)) as (st1 & E1 & S1).
  rewrite E1. cbn [bind]. rewrite sub_ctx in S1.
  destruct (shake_squeezeblocks_wp rb rl 0 nb HR) as [T2 W2].
  destruct (W2 st1 out msg 0%nat S1) as ([o st2] & E2 & -> & S2). { rewrite LO. lia. }
  rewrite E2. exists st2. eexists. f_equal. f_equal.
  unfold splice. cbn [firstn app]. rewrite mk_length, Nat.add_0_l, skipn_all2 by (rewrite LO; lia).
  rewrite app_nil_r. unfold xof_spec. now rewrite (Nat.mul_comm rb nb).
Qed.
Lemma shake128_blocks ipre msg ipost st out nb : length (ks st) = 25%nat ->
  all_bytes (ipre ++ msg ++ ipost) -> length out = (nb * SHAKE128_RATE)%nat ->
  exists st' T, (st <- shake128_absorb_once st (ipre ++ msg ++ ipost) (length ipre) (length msg) ;;
                 shake128_squeezeblocks out 0 nb st) = Ok (SHAKE128 msg (nb * SHAKE128_RATE), st') T.
Proof. rewrite SHAKE128_stream. exact (squeezeblocks_ok _ _ ipre msg ipost st out nb rate128). Qed.
Lemma shake256_blocks ipre msg ipost st out nb : length (ks st) = 25%nat ->
  all_bytes (ipre ++ msg ++ ipost) -> length out = (nb * SHAKE256_RATE)%nat ->
  exists st' T, (st <- shake256_absorb_once st (ipre ++ msg ++ ipost) (length ipre) (length msg) ;;
                 shake256_squeezeblocks out 0 nb st) = Ok (SHAKE256 msg (nb * SHAKE256_RATE), st') T.
Proof. rewrite SHAKE256_stream. exact (squeezeblocks_ok _ _ ipre msg ipost st out nb rate256). Qed.

Lemma firstn_mk n m (f : nat -> Z) : (m <= n)%nat -> firstn m (mk n f) = mk m f.
Proof.
  intros L. replace n with (m + (n - m))%nat by lia. rewrite <- mk_app, firstn_app, mk_length, Nat.sub_diag, firstn_O, app_nil_r.
  rewrite <- (mk_length m f) at 1. apply firstn_all.
Qed.
Lemma shake_prefix M m n : (m <= n)%nat ->
  firstn m (SHAKE128 M n) = SHAKE128 M m /\ firstn m (SHAKE256 M n) = SHAKE256 M m.
Proof.
  intros L. rewrite (SHAKE128_stream M n), (SHAKE128_stream M m), (SHAKE256_stream M n), (SHAKE256_stream M m).
  split; exact (firstn_mk n m _ L).
Qed.
