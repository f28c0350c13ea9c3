(** * C78: mixing shake*_squeeze and shake*_squeezeblocks *)
From Coq Require Import ZArith List.
From Verif Require Import CMonad Model_Fips202 Spec_FIPS202 Vocab Vocab_Code Vocab_Draw Cases Proof_Draw.
Import ListNotations.
Open Scope Z_scope.
Open Scope cmonad_scope.

(** After any absorbing calls, any sequence of squeezing calls delivers the parts of the output stream listed by [reads]. *)
Theorem C78_shake128_session : forall chunks cs st,
  length (ks st) = 25%nat -> all_bytes (concat chunks) -> Forall (fits SHAKE128_RATE) cs ->
  exists st' T, (st <- absorb_session SHAKE128_RATE st chunks ;; run_draws SHAKE128_RATE st cs)
    = Ok (map (part (SHAKE128 (concat chunks))) (reads SHAKE128_RATE 0 cs), st') T.
Proof. exact draws_session_128. Qed.
Print Assumptions C78_shake128_session.

Theorem C78_shake256_session : forall chunks cs st,
  length (ks st) = 25%nat -> all_bytes (concat chunks) -> Forall (fits SHAKE256_RATE) cs ->
  exists st' T, (st <- absorb_session SHAKE256_RATE st chunks ;; run_draws SHAKE256_RATE st cs)
    = Ok (map (part (SHAKE256 (concat chunks))) (reads SHAKE256_RATE 0 cs), st') T.
Proof. exact draws_session_256. Qed.
Print Assumptions C78_shake256_session.

Theorem C78_shake128_once : forall ipre msg ipost cs st,
  length (ks st) = 25%nat -> all_bytes (ipre ++ msg ++ ipost) -> Forall (fits SHAKE128_RATE) cs ->
  exists st' T, (st <- shake128_absorb_once st (ipre ++ msg ++ ipost) (length ipre) (length msg) ;; run_draws SHAKE128_RATE st cs)
    = Ok (map (part (SHAKE128 msg)) (reads SHAKE128_RATE 0 cs), st') T.
Proof. exact draws_once_128. Qed.
Print Assumptions C78_shake128_once.

Theorem C78_shake256_once : forall ipre msg ipost cs st,
  length (ks st) = 25%nat -> all_bytes (ipre ++ msg ++ ipost) -> Forall (fits SHAKE256_RATE) cs ->
  exists st' T, (st <- shake256_absorb_once st (ipre ++ msg ++ ipost) (length ipre) (length msg) ;; run_draws SHAKE256_RATE st cs)
    = Ok (map (part (SHAKE256 msg)) (reads SHAKE256_RATE 0 cs), st') T.
Proof. exact draws_once_256. Qed.
Print Assumptions C78_shake256_once.

(** If every block call starts at a block boundary, the parts are consecutive. *)
Theorem C78_consecutive : forall M cs,
  (aligned SHAKE128_RATE 0 cs -> concat (map (part (SHAKE128 M)) (reads SHAKE128_RATE 0 cs)) = SHAKE128 M (total SHAKE128_RATE cs)) /\
  (aligned SHAKE256_RATE 0 cs -> concat (map (part (SHAKE256 M)) (reads SHAKE256_RATE 0 cs)) = SHAKE256 M (total SHAKE256_RATE cs)).
Proof. exact consecutive_both. Qed.
Print Assumptions C78_consecutive.

(** That is so if only whole blocks are drawn, by whichever calls, and if there are no block calls. *)
Theorem C78_whole_blocks : forall rate cs,
  (0 < rate)%nat -> Forall (fun c => (drawn rate c mod rate = 0)%nat) cs -> aligned rate 0 cs.
Proof. exact block_calls_aligned. Qed.
Print Assumptions C78_whole_blocks.

Theorem C78_only_squeeze : forall rate bufs n, aligned rate n (map Squeeze bufs).
Proof. exact squeeze_calls_aligned. Qed.
Print Assumptions C78_only_squeeze.

(** In general they are not: one sequence delivers, whatever was absorbed, the same 167 bytes twice. *)
Theorem C78_mixing_refuted : exists cs, Forall (fits SHAKE128_RATE) cs /\
  forall chunks st, length (ks st) = 25%nat -> all_bytes (concat chunks) ->
  exists first block again st' T, again <> [] /\ skipn 1 block = again /\
    (st <- absorb_session SHAKE128_RATE st chunks ;; run_draws SHAKE128_RATE st cs) = Ok ([first; block; again], st') T.
Proof. exact mixing_repeats. Qed.
Print Assumptions C78_mixing_refuted.

Example C78_case : Forall (fits SHAKE128_RATE) [Blocks 3 (repeat 0 504); Squeeze (repeat 0 10); Squeeze []; Blocks 2 (repeat 0 336); Squeeze (repeat 0 200)] /\
  reads SHAKE128_RATE 0 [Blocks 3 (repeat 0 504); Squeeze (repeat 0 10); Squeeze []; Blocks 2 (repeat 0 336); Squeeze (repeat 0 200)]
  = [(0, 504); (504, 10); (514, 0); (672, 336); (850, 200)]%nat /\
  aligned SHAKE128_RATE 0 [Blocks 3 (repeat 0 504); Squeeze (repeat 0 168); Blocks 1 (repeat 0 168); Squeeze (repeat 0 7)].
Proof. exact draw_case. Qed.
