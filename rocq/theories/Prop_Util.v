(** * C26-C28: comparison, conditional moves, random bytes *)
From Coq Require Import ZArith List.
From Verif Require Import CMonad Model_Verify Model_Randombytes Vocab Vocab_Code Cases Proof_PropUtil
  Model_RandomWin Vocab_Win Proof_RandomWin.
Import ListNotations.
Open Scope Z_scope.
Open Scope cmonad_scope.

(** ** C26 *)

Theorem C26_verify : forall ao bo len,
  exists T,
  (forall i, (i < len)%nat -> In (EvIndex (ao + i)) T /\ In (EvIndex (bo + i)) T) /\
  forall pa a sa pb b sb, length pa = ao -> length a = len -> length pb = bo -> length b = len ->
    all_bytes a -> all_bytes b ->
    (a = b -> verify (pa ++ a ++ sa) ao (pb ++ b ++ sb) bo len = Ok 0 T) /\
    (a <> b -> verify (pa ++ a ++ sa) ao (pb ++ b ++ sb) bo len = Ok 1 T).
Proof. exact verify_spec. Qed.
Print Assumptions C26_verify.

Example C26_case : some_bytes 32 <> repeat 0 32 /\ length (some_bytes 32) = length (repeat 0 32).
Proof. split; [discriminate|reflexivity]. Qed.

(** ** C27 *)

Theorem C27_cmov : forall ro xo len,
  exists T, forall pr r sr px x sx b,
  length pr = ro -> length r = len -> length px = xo -> length x = len -> all_bytes r -> all_bytes x -> b = 0 \/ b = 1 ->
  cmov (pr ++ r ++ sr) ro (px ++ x ++ sx) xo len b = Ok (pr ++ (if b =? 1 then x else r) ++ sr) T.
Proof. exact cmov_spec. Qed.
Print Assumptions C27_cmov.

Theorem C27_cmov_int16 : forall ro,
  exists T, forall pr x sr v b,
  length pr = ro -> -2 ^ 15 <= x < 2 ^ 15 -> -2 ^ 15 <= v < 2 ^ 15 -> b = 0 \/ b = 1 ->
  cmov_int16 (pr ++ x :: sr) ro v b = Ok (pr ++ (if b =? 1 then v else x) :: sr) T.
Proof. exact cmov_int16_spec. Qed.
Print Assumptions C27_cmov_int16.

Example C27_case : length (some_bytes 32) = 32%nat /\ all_bytes (some_bytes 32) /\ -2 ^ 15 <= -32768 < 2 ^ 15.
Proof. split; [reflexivity|]. split; [apply some_bytes_ok|]. split; [discriminate|reflexivity]. Qed.

(** ** C28: the getrandom variant *)

Theorem C28_filled : forall sched pre old post out rest T,
  kernel_ok sched (length old) ->
  randombytes sched (pre ++ old ++ post) (length pre) (length old) = Ok (out, rest) T ->
  exists used, sched = used ++ rest /\ ~ In Failed used /\ length (delivered used) = length old /\
    shortest used (length old) /\ out = pre ++ delivered used ++ post.
Proof. exact randombytes_ok. Qed.
Print Assumptions C28_filled.

Theorem C28_aborted : forall sched pre old post,
  kernel_ok sched (length old) ->
  randombytes sched (pre ++ old ++ post) (length pre) (length old) = Abort ->
  exists used rest, sched = used ++ Failed :: rest /\ ~ In Failed used /\ (length (delivered used) < length old)%nat.
Proof. exact randombytes_abort. Qed.
Print Assumptions C28_aborted.

Theorem C28_no_ub : forall sched pre old post u,
  kernel_ok sched (length old) ->
  randombytes sched (pre ++ old ++ post) (length pre) (length old) <> UB u.
Proof. exact randombytes_no_ub. Qed.
Print Assumptions C28_no_ub.

Theorem C28_still_waiting : forall sched pre old post,
  kernel_ok sched (length old) ->
  randombytes sched (pre ++ old ++ post) (length pre) (length old) = Timeout ->
  ~ In Failed sched /\ (length (delivered sched) < length old)%nat.
Proof. exact randombytes_waiting. Qed.
Print Assumptions C28_still_waiting.

Theorem C28_returns : forall used rest pre old post,
  kernel_ok (used ++ rest) (length old) ->
  ~ In Failed used -> shortest used (length old) -> length (delivered used) = length old ->
  exists T, randombytes (used ++ rest) (pre ++ old ++ post) (length pre) (length old) = Ok (pre ++ delivered used ++ post, rest) T.
Proof. exact randombytes_done. Qed.
Print Assumptions C28_returns.

(** The /dev/urandom variant: the descriptor is opened once and kept *)
Theorem C28_urandom : forall opens sched fd pre old post out fd' opens' rest T,
  kernel_ok sched (length old) ->
  randombytes_urandom opens sched fd (pre ++ old ++ post) (length pre) (length old) = Ok (out, fd', opens', rest) T ->
  fd' <> -1 /\ (fd <> -1 -> fd' = fd /\ opens' = opens) /\ (fd = -1 -> In (Opened fd') opens) /\
  exists used, sched = used ++ rest /\ ~ In Failed used /\ length (delivered used) = length old /\
    shortest used (length old) /\ out = pre ++ delivered used ++ post.
Proof. exact urandom_ok. Qed.
Print Assumptions C28_urandom.

(** The Windows variant *)
Theorem C28_windows_filled : forall acq rel gens pre old post out rest T,
  randombytes_windows acq rel gens (pre ++ old ++ post) (length pre) (Z.of_nat (length old)) = Ok (out, rest) T ->
  acq = true /\ rel = true /\
  exists srcs lens, gens = map Generated srcs ++ rest /\ length srcs = requests (length old) /\
    length lens = requests (length old) /\ chunk_sizes lens /\ length (generated srcs lens) = length old /\
    out = pre ++ generated srcs lens ++ post.
Proof. exact windows_filled. Qed.
Print Assumptions C28_windows_filled.

Theorem C28_windows_aborted : forall acq rel gens pre old post,
  randombytes_windows acq rel gens (pre ++ old ++ post) (length pre) (Z.of_nat (length old)) = Abort ->
  acq = false \/ In GenFailed (firstn (requests (length old)) gens) \/ rel = false.
Proof. exact windows_aborted. Qed.
Print Assumptions C28_windows_aborted.

Theorem C28_windows_failure : forall acq rel gens pre old post,
  acq = false \/ In GenFailed (firstn (requests (length old)) gens) ->
  forall out rest T,
  randombytes_windows acq rel gens (pre ++ old ++ post) (length pre) (Z.of_nat (length old)) <> Ok (out, rest) T.
Proof. exact windows_failure. Qed.
Print Assumptions C28_windows_failure.

Theorem C28_windows_no_ub : forall acq rel gens pre old post u,
  randombytes_windows acq rel gens (pre ++ old ++ post) (length pre) (Z.of_nat (length old)) <> UB u.
Proof. exact windows_no_ub. Qed.
Print Assumptions C28_windows_no_ub.

Theorem C28_windows_returns : forall srcs rest pre old post,
  length srcs = requests (length old) ->
  exists lens T, length lens = requests (length old) /\ chunk_sizes lens /\ length (generated srcs lens) = length old /\
    randombytes_windows true true (map Generated srcs ++ rest) (pre ++ old ++ post) (length pre) (Z.of_nat (length old))
    = Ok (pre ++ generated srcs lens ++ post, rest) T.
Proof. exact windows_returns. Qed.
Print Assumptions C28_windows_returns.

Example C28_windows_case :
  length [fun i => 7 + Z.of_nat i] = requests (length [9; 9; 9]) /\
  exists T, randombytes_windows true true [Generated (fun i => 7 + Z.of_nat i); GenFailed] [1; 9; 9; 9; 2] 1 3
  = Ok ([1; 7; 8; 9; 2], [GenFailed]) T.
Proof. split; [reflexivity|eexists; reflexivity]. Qed.

Example C28_case :
  let sched := [Interrupted; Delivered (some_bytes 5); Interrupted; Delivered (some_bytes 3); Failed] in
  kernel_ok sched (length (repeat 0 8)) /\
  (exists T, randombytes sched ([1] ++ repeat 0 8 ++ [2]) 1 8 = Ok ([1] ++ (some_bytes 5 ++ some_bytes 3) ++ [2], [Failed]) T) /\
  randombytes [Delivered (some_bytes 5); Failed] (repeat 0 8) 0 8 = Abort.
Proof.
  cbv zeta. split.
  - cbn [kernel_ok]. right. right. split; [cbn; repeat constructor|]. split; [apply some_bytes_ok|].
    right. right. split; [cbn; repeat constructor|]. split; [apply some_bytes_ok|]. left. reflexivity.
  - split; [eexists; vm_compute; reflexivity|vm_compute; reflexivity].
Qed.
