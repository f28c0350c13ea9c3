(** * C78: mixed sequences of squeezing calls *)
From Coq Require Import ZArith List Lia Bool Arith.
From Verif Require Import CMonad WP Proof_Base Proof_Bits Proof_Vocab Model_Fips202 Spec_FIPS202 Vocab Vocab_Code Vocab_Draw Cases
  Proof_Keccak Proof_Sponge Proof_Shake Proof_Hash Proof_PropHash.
Import ListNotations.
Open Scope Z_scope.
Open Scope cmonad_scope.

Lemma sq_pos_spec rb n : (0 < rb)%nat -> (n + (rb - sq_pos rb rb n) = next_block rb n)%nat /\ (sq_pos rb rb n <= rb)%nat.
Proof.
  intros R. unfold sq_pos, next_block. destruct (Nat.eqb_spec n 0) as [->|N].
  - split; [|lia]. rewrite Nat.div_small by lia. lia.
  - replace (rb + n - 1)%nat with (n + rb - 1)%nat by lia. pose proof (Nat.div_mod (n + rb - 1) rb ltac:(lia)).
    pose proof (Nat.mod_upper_bound (n + rb - 1) rb ltac:(lia)). split; nia.
Qed.
Lemma sq_pos_blocks rb n nb : (0 < rb)%nat -> sq_pos rb rb (n + nb * rb) = sq_pos rb rb n.
Proof.
  intros R. unfold sq_pos. destruct (Nat.eqb_spec (n + nb * rb) 0) as [E|E].
  - destruct (Nat.eqb_spec n 0); [reflexivity|lia].
  - replace (rb + (n + nb * rb) - 1)%nat with ((rb + n - 1) + nb * rb)%nat by lia. rewrite Nat.mod_add by lia.
    destruct (Nat.eqb_spec n 0) as [->|]; [|reflexivity]. rewrite Nat.add_0_r, Nat.mod_small by lia. lia.
Qed.
(** As Proof_Hash.shake_squeezeblocks_wp, after any number of bytes *)
Lemma squeezeblocks_any rb rl n oo nb : rate_ok rb rl ->
  traced (fun T => forall st out M, squeezing rb M n st -> (oo + rb * nb <= length out)%nat ->
    wp (shake_squeezeblocks rb out oo nb st) T
       (fun '(out', st') => out' = splice out oo (mk (rb * nb) (fun j => stream rb shake_sfx M (next_block rb n + j))) /\
          squeezing rb M (n + nb * rb) st')).
Proof.
  intros HR. pose proof HR as (Ra & Rb & Rc). destruct (sq_pos_spec rb n Ra) as [NB PL].
  destruct (keccak_squeezeblocks_wp rb Ra Rb rl Rc oo nb) as [T HT].
  exists (T ++ []). intros st out M (W & HP & HS) Ho. unfold shake_squeezeblocks. wstep.
  eapply wp_conseq; [apply HT; auto|]. intros [out' s'] (-> & W' & E'). wstep. split; [|split; [exact W'|split]].
  - f_equal. apply mk_ext. intros j Hj. replace (rb + j)%nat with (kpos st + (rb - kpos st + j))%nat by lia. rewrite HS. f_equal. lia.
  - cbn [kpos]. now rewrite sq_pos_blocks.
  - cbn [ks kpos]. intros i. rewrite E', sqbyte_iter by auto.
    replace (nb * rb + (kpos st + i))%nat with (kpos st + (nb * rb + i))%nat by lia. rewrite HS. f_equal. lia.
Qed.

Lemma splice_whole b n (f : nat -> Z) : length b = n -> splice b 0 (mk n f) = mk n f.
Proof. intros L. unfold splice. cbn [firstn app]. rewrite mk_length, Nat.add_0_l, skipn_all2 by lia. apply app_nil_r. Qed.
Lemma part_mk (f : nat -> Z) o l : part (fun n => mk n f) (o, l) = mk l (fun j => f (o + j)%nat).
Proof. unfold part. cbn [fst snd]. rewrite <- mk_app, skipn_app, mk_length, Nat.sub_diag, skipn_all2 by (rewrite mk_length; lia). reflexivity. Qed.

Lemma skipn_mk m n (f : nat -> Z) : (m <= n)%nat -> skipn m (mk n f) = mk (n - m) (fun j => f (m + j)%nat).
Proof.
  intros L. replace (mk n f) with (mk m f ++ mk (n - m) (fun j => f (m + j)%nat)) by (rewrite mk_app; f_equal; lia).
  rewrite skipn_app, mk_length, Nat.sub_diag, skipn_all2 by (rewrite mk_length; lia). reflexivity.
Qed.

Lemma run_draws_ok rb rl M cs : rate_ok rb rl -> forall n st, squeezing rb M n st -> Forall (fits rb) cs ->
  exists outs st' T, run_draws rb st cs = Ok (outs, st') T /\ outs = map (part (xof_spec rb M)) (reads rb n cs) /\
    squeezing rb M (n + total rb cs) st'.
Proof.
  intros HR. induction cs as [|c cs IH]; intros n st HS HF.
  - exists [], st, []. cbn [total fold_right]. rewrite Nat.add_0_r. auto.
  - inversion HF as [|? ? F1 F2]; subst. cbn [run_draws reads map].
    assert (W : exists T st1, (match c with Squeeze b => shake_squeeze rb b 0 (length b) st | Blocks nb b => shake_squeezeblocks rb b 0 nb st end)
        = Ok (part (xof_spec rb M) ((match c with Squeeze _ => n | Blocks _ _ => next_block rb n end), drawn rb c), st1) T /\ squeezing rb M (n + drawn rb c) st1).
    { destruct c as [b|nb b]; cbn [drawn fits] in *.
      - destruct (shake_squeeze_wp rb rl n 0 (length b) HR) as [T1 W1]. destruct (W1 st b M HS (le_n _)) as ([o st1] & E1 & -> & S1).
        exists T1, st1. rewrite E1. split; [|exact S1]. f_equal. f_equal. rewrite splice_whole by reflexivity. symmetry. apply part_mk.
      - destruct (squeezeblocks_any rb rl n 0 nb HR) as [T1 W1]. destruct (W1 st b M HS) as ([o st1] & E1 & -> & S1); [lia|].
        exists T1, st1. rewrite E1. split; [|exact S1]. f_equal. f_equal. rewrite splice_whole by lia. rewrite (Nat.mul_comm nb rb). symmetry. apply part_mk. }
    destruct W as (T1 & st1 & E1 & S1). rewrite E1. cbn [bind].
    destruct (IH _ st1 S1 F2) as (outs & st' & T2 & E2 & C2 & S2). rewrite E2. cbn [bind ret].
    eexists _, st', _. split; [reflexivity|]. split; [now rewrite C2|]. cbn [total fold_right]. fold (total rb cs). now rewrite Nat.add_assoc.
Qed.

Lemma aligned_concat rb M cs : (0 < rb)%nat -> forall n, aligned rb n cs ->
  concat (map (part (xof_spec rb M)) (reads rb n cs)) = mk (total rb cs) (fun j => stream rb shake_sfx M (n + j)).
Proof.
  intros R. induction cs as [|c cs IH]; intros n A; [reflexivity|]. destruct A as [A1 A2]. cbn [reads map concat total fold_right]. fold (total rb cs).
  rewrite (IH _ A2). unfold xof_spec at 1. rewrite part_mk.
  assert (E : (match c with Squeeze _ => n | Blocks _ _ => next_block rb n end) = n).
  { destruct c; [reflexivity|]. unfold next_block. pose proof (Nat.div_mod n rb ltac:(lia)) as D.
    rewrite A1 in D. rewrite D at 1. replace (rb * (n / rb) + 0 + rb - 1)%nat with ((rb - 1) + (n / rb) * rb)%nat by lia.
    rewrite Nat.div_add, Nat.div_small by lia. lia. }
  rewrite E, <- mk_app. f_equal. apply mk_ext. intros j Hj. f_equal. lia.
Qed.

Section Rates.
Variables (rb rl : nat) (X : list Z -> nat -> list Z).
Hypothesis HR : rate_ok rb rl.
Hypothesis HX : forall M n, X M n = mk n (stream rb shake_sfx M).
Lemma part_X M p : part (xof_spec rb M) p = part (X M) p. Proof. unfold part, xof_spec. now rewrite HX. Qed.
Lemma draws_session chunks cs st : length (ks st) = 25%nat -> all_bytes (concat chunks) -> Forall (fits rb) cs ->
  exists st' T, (st <- absorb_session rb st chunks ;; run_draws rb st cs) = Ok (map (part (X (concat chunks))) (reads rb 0 cs), st') T.
Proof.
  intros L B F. destruct (absorb_session_ok rb rl chunks st HR L B) as (st1 & T1 & E1 & S1). rewrite E1. cbn [bind].
  destruct (run_draws_ok rb rl _ cs HR 0 st1 S1 F) as (outs & st' & T2 & E2 & -> & _). rewrite E2.
  exists st'. eexists. f_equal. f_equal. apply map_ext. intros p. apply part_X.
Qed.
Lemma draws_once ipre msg ipost cs st : length (ks st) = 25%nat -> all_bytes (ipre ++ msg ++ ipost) -> Forall (fits rb) cs ->
  exists st' T, (st <- shake_absorb_once rb st (ipre ++ msg ++ ipost) (length ipre) (length msg) ;; run_draws rb st cs)
    = Ok (map (part (X msg)) (reads rb 0 cs), st') T.
Proof.
  intros L B F. destruct (shake_absorb_once_wp rb rl (length ipre) (length msg) HR) as [T1 W1].
  destruct (W1 st (ipre ++ msg ++ ipost) L (ctx_length _ _ _) (all_bytes_bytes _ B)) as (st1 & E1 & S1).
  rewrite E1. cbn [bind]. rewrite sub_ctx in S1.
  destruct (run_draws_ok rb rl _ cs HR 0 st1 S1 F) as (outs & st' & T2 & E2 & -> & _). rewrite E2.
  exists st'. eexists. f_equal. f_equal. apply map_ext. intros p. apply part_X.
Qed.
Lemma aligned_consecutive M cs : aligned rb 0 cs -> concat (map (part (X M)) (reads rb 0 cs)) = X M (total rb cs).
Proof.
  intros A. rewrite HX. refine (eq_trans _ (aligned_concat rb M cs (proj1 HR) 0 A)). f_equal. apply map_ext. intros p. symmetry. apply part_X.
Qed.
Lemma repeats M : (2 <= rb)%nat -> exists a b, (* three calls *)
  map (part (X M)) (reads rb 0 [Squeeze [0]; Blocks 1 (repeat 0 rb); Squeeze (repeat 0 (rb - 1))]) = [a; b; skipn 1 b] /\ length b = rb /\ skipn 1 b <> [].
Proof.
  intros R. cbn [reads map drawn]. rewrite repeat_length. change (length [0]) with 1%nat.
  exists (part (X M) (0, 1)%nat), (part (X M) (next_block rb (0 + 1), (1 * rb))%nat).
  assert (E : (next_block rb (0 + 1) = rb)%nat).
  { unfold next_block. replace (0 + 1 + rb - 1)%nat with (1 * rb)%nat by lia. rewrite Nat.div_mul by lia. lia. }
  rewrite E. rewrite <- !part_X. unfold xof_spec. rewrite !part_mk. rewrite mk_length. split; [|split; [lia|]].
  - apply f_equal, f_equal. apply (f_equal (fun x => [x])). rewrite skipn_mk by lia. replace (1 * rb - 1)%nat with (rb - 1)%nat by lia.
    apply mk_ext. intros j Hj. f_equal. cbn [length]. lia.
  - intros H. apply (f_equal (@length Z)) in H. rewrite skipn_length, mk_length in H. cbn [length] in H. lia.
Qed.
End Rates.

Lemma draws_session_128 chunks cs st : length (ks st) = 25%nat -> all_bytes (concat chunks) -> Forall (fits SHAKE128_RATE) cs ->
  exists st' T, (st <- absorb_session SHAKE128_RATE st chunks ;; run_draws SHAKE128_RATE st cs)
    = Ok (map (part (SHAKE128 (concat chunks))) (reads SHAKE128_RATE 0 cs), st') T.
Proof. exact (draws_session _ _ SHAKE128 rate128 SHAKE128_stream chunks cs st). Qed.
Lemma draws_session_256 chunks cs st : length (ks st) = 25%nat -> all_bytes (concat chunks) -> Forall (fits SHAKE256_RATE) cs ->
  exists st' T, (st <- absorb_session SHAKE256_RATE st chunks ;; run_draws SHAKE256_RATE st cs)
    = Ok (map (part (SHAKE256 (concat chunks))) (reads SHAKE256_RATE 0 cs), st') T.
Proof. exact (draws_session _ _ SHAKE256 rate256 SHAKE256_stream chunks cs st). Qed.
Lemma draws_once_128 ipre msg ipost cs st : length (ks st) = 25%nat -> all_bytes (ipre ++ msg ++ ipost) -> Forall (fits SHAKE128_RATE) cs ->
  exists st' T, (st <- shake128_absorb_once st (ipre ++ msg ++ ipost) (length ipre) (length msg) ;; run_draws SHAKE128_RATE st cs)
    = Ok (map (part (SHAKE128 msg)) (reads SHAKE128_RATE 0 cs), st') T.
Proof. exact (draws_once _ _ SHAKE128 rate128 SHAKE128_stream ipre msg ipost cs st). Qed.
Lemma draws_once_256 ipre msg ipost cs st : length (ks st) = 25%nat -> all_bytes (ipre ++ msg ++ ipost) -> Forall (fits SHAKE256_RATE) cs ->
  exists st' T, (st <- shake256_absorb_once st (ipre ++ msg ++ ipost) (length ipre) (length msg) ;; run_draws SHAKE256_RATE st cs)
    = Ok (map (part (SHAKE256 msg)) (reads SHAKE256_RATE 0 cs), st') T.
Proof. exact (draws_once _ _ SHAKE256 rate256 SHAKE256_stream ipre msg ipost cs st). Qed.
Lemma consecutive_both M cs :
  (aligned SHAKE128_RATE 0 cs -> concat (map (part (SHAKE128 M)) (reads SHAKE128_RATE 0 cs)) = SHAKE128 M (total SHAKE128_RATE cs)) /\
  (aligned SHAKE256_RATE 0 cs -> concat (map (part (SHAKE256 M)) (reads SHAKE256_RATE 0 cs)) = SHAKE256 M (total SHAKE256_RATE cs)).
Proof.
  split; [exact (aligned_consecutive _ _ SHAKE128 rate128 SHAKE128_stream M cs)|exact (aligned_consecutive _ _ SHAKE256 rate256 SHAKE256_stream M cs)].
Qed.
Lemma block_calls_aligned rate cs : (0 < rate)%nat -> Forall (fun c => (drawn rate c mod rate = 0)%nat) cs -> aligned rate 0 cs.
Proof.
  intros R F. assert (G : forall n, (n mod rate = 0)%nat -> aligned rate n cs); [|apply G; apply Nat.mod_0_l; lia].
  induction F as [|c cs H F IH]; intros n N; [exact I|]. split; [destruct c; [exact I|exact N]|].
  apply IH. rewrite Nat.add_mod, N, H by lia. cbn [Nat.add]. apply Nat.mod_0_l. lia.
Qed.
Lemma squeeze_calls_aligned rate bufs n : aligned rate n (map Squeeze bufs).
Proof. revert n. induction bufs; intros n; [exact I|]. split; [exact I|apply IHbufs]. Qed.
Lemma mixing_repeats : exists cs, Forall (fits SHAKE128_RATE) cs /\ forall chunks st, length (ks st) = 25%nat -> all_bytes (concat chunks) ->
  exists first block again st' T, again <> [] /\ skipn 1 block = again /\
    (st <- absorb_session SHAKE128_RATE st chunks ;; run_draws SHAKE128_RATE st cs) = Ok ([first; block; again], st') T.
Proof.
  exists [Squeeze [0]; Blocks 1 (repeat 0 SHAKE128_RATE); Squeeze (repeat 0 (SHAKE128_RATE - 1))].
  assert (F : Forall (fits SHAKE128_RATE) [Squeeze [0]; Blocks 1 (repeat 0 SHAKE128_RATE); Squeeze (repeat 0 (SHAKE128_RATE - 1))]).
  { constructor; [exact I|]. constructor; [reflexivity|]. constructor; [exact I|constructor]. }
  split; [exact F|]. intros chunks st L B. destruct (draws_session_128 chunks _ st L B F) as (st' & T & E).
  destruct (repeats _ SHAKE128 SHAKE128_stream (concat chunks)) as (a & b & R & _ & N); [lia|].
  exists a, b, (skipn 1 b), st', T. split; [exact N|]. split; [reflexivity|]. refine (eq_trans E _). now rewrite <- R.
Qed.
Lemma draw_case : Forall (fits SHAKE128_RATE) [Blocks 3 (repeat 0 504); Squeeze (repeat 0 10); Squeeze []; Blocks 2 (repeat 0 336); Squeeze (repeat 0 200)] /\
  reads SHAKE128_RATE 0 [Blocks 3 (repeat 0 504); Squeeze (repeat 0 10); Squeeze []; Blocks 2 (repeat 0 336); Squeeze (repeat 0 200)]
  = [(0, 504); (504, 10); (514, 0); (672, 336); (850, 200)]%nat /\
  aligned SHAKE128_RATE 0 [Blocks 3 (repeat 0 504); Squeeze (repeat 0 168); Blocks 1 (repeat 0 168); Squeeze (repeat 0 7)].
Proof.
  split; [repeat (constructor; [first [exact I|reflexivity]|]); constructor|]. split; [vm_compute; reflexivity|].
  split; [reflexivity|]. split; [exact I|]. split; [vm_compute; reflexivity|]. split; exact I.
Qed.
