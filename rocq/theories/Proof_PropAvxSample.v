(** * C44 in the form of the property statements *)
From Coq Require Import ZArith List Lia Bool.
From Verif Require Import CMonad WP Proof_Base Model_Params Model_Indcpa Spec_FIPS203 Proof_Rej Proof_GenMatrix
  Model_AvxRej Proof_AvxRejLoop Vocab Proof_Vocab Proof_PropPoly Proof_PropSample.
Import ListNotations.
Open Scope Z_scope.

(** ** C44 *)
Lemma rej_uniform_avx_spec buf extra : byte_array 504 buf ->
  let taken := firstn 256 (accepted (fun i => nth i buf 0) 168) in
  exists T, forall r, length r = 256%nat ->
  exists rest, rej_uniform_avx r (buf ++ extra) = Ok (length taken, taken ++ rest) T /\
    length (taken ++ rest) = 256%nat.
Proof.
  intros [L HB] taken. destruct (rej_uniform_avx_wp (fun i => nth i buf 0)) as [T W].
  { intros i Hi. pose proof (all_bytes_bytes _ HB i ltac:(lia)). lia. }
  exists T. intros r Hr. destruct (W r (buf ++ extra) Hr) as ([c r'] & E & Ec & Lr & Hx).
  { split; [rewrite app_length; lia|]. intros i Hi. apply app_nth1. lia. }
  cbn [fst snd] in *. change (rej 256 (fun i => nth i buf 0) 0 168) with taken in *.
  exists (skipn (length taken) r'). replace (taken ++ skipn (length taken) r') with r'.
  - rewrite E, Ec. auto.
  - transitivity (firstn (length taken) r' ++ skipn (length taken) r'); [now rewrite firstn_skipn|now rewrite Hx].
Qed.

(** The vectorised routine and the reference routine agree. *)
Lemma rej_uniform_avx_reference buf extra r r' : byte_array 504 buf -> length r = 256%nat -> length r' = 256%nat ->
  exists n out out' T T', rej_uniform_avx r (buf ++ extra) = Ok (n, out) T /\
    rej_uniform r' 0 256 (buf ++ extra) 504 = Ok (n, out') T' /\
    firstn n out = firstn n out' /\ length out = 256%nat /\ length out' = 256%nat.
Proof.
  intros HB Hr Hr'. destruct (rej_uniform_avx_spec buf extra HB) as [T W]. destruct (W r Hr) as (rest & E & L).
  destruct HB as [Lb HB].
  destruct (rej_uniform_spec [] r' [] buf extra HB) as (T' & E' & L').
  rewrite Hr', Lb in *. change (504 / 3)%nat with 168%nat in *. cbn [app length] in E'. rewrite !app_nil_r in E'.
  set (taken := firstn 256 (accepted (fun i => nth i buf 0) 168)) in *.
  exists (length taken), (taken ++ rest), (taken ++ skipn (length taken) r'), T, T'.
  split; [exact E|]. split; [exact E'|].
  rewrite !firstn_app, !Nat.sub_diag, !firstn_O, !app_nil_r. split; [reflexivity|]. split; [exact L|].
  rewrite app_length, skipn_length. lia.
Qed.
