(** * C72: rejection sampling, comparison and conditional move with counters of the declared widths *)
From Coq Require Import ZArith List.
From Verif Require Import CMonad Model_RejWidth Spec_FIPS203 Vocab Vocab_Code Cases Proof_RejWidth Proof_PropRejWidth.
Import ListNotations.
Open Scope Z_scope.
Open Scope cmonad_scope.

Theorem C72_rej_uniform : forall fuel pre r post buf extra,
  all_bytes buf -> Z.of_nat (length r) < 2 ^ 32 -> Z.of_nat (length buf) < 2 ^ 32 - 1 -> (length buf < fuel)%nat ->
  let taken := firstn (length r) (accepted (fun i => nth i buf 0) (length buf / 3)) in
  exists T, rej_uniform_w fuel (pre ++ r ++ post) (length pre) (Z.of_nat (length r)) (buf ++ extra) (Z.of_nat (length buf))
    = Ok (Z.of_nat (length taken), pre ++ taken ++ skipn (length taken) r ++ post) T.
Proof. exact width_rej_uniform. Qed.
Print Assumptions C72_rej_uniform.

(** For the one remaining length pos + 3 wraps to 2, and the sampler runs on
    behind the end of a buffer with too few acceptable candidates. *)
Theorem C72_rej_uniform_wraps : forall fuel pre r post buf,
  all_bytes buf -> Z.of_nat (length buf) = 2 ^ 32 - 1 -> Z.of_nat (length r) < 2 ^ 32 ->
  (length (accepted (fun i => nth i buf 0%Z) (length buf / 3)) < length r)%nat -> (length buf < fuel)%nat ->
  rej_uniform_w fuel (pre ++ r ++ post) (length pre) (Z.of_nat (length r)) buf (Z.of_nat (length buf)) = UB OutOfBounds.
Proof. exact width_rej_wraps. Qed.
Print Assumptions C72_rej_uniform_wraps.

Theorem C72_verify : forall fuel ao bo len, Z.of_nat len < 2 ^ 64 -> (len < fuel)%nat -> exists T,
  forall pa a sa pb b sb, length pa = ao -> length a = len -> length pb = bo -> length b = len -> all_bytes a -> all_bytes b ->
    (a = b -> verify_w fuel (pa ++ a ++ sa) ao (pb ++ b ++ sb) bo (Z.of_nat len) = Ok 0 T) /\
    (a <> b -> verify_w fuel (pa ++ a ++ sa) ao (pb ++ b ++ sb) bo (Z.of_nat len) = Ok 1 T).
Proof. exact width_verify_spec. Qed.
Print Assumptions C72_verify.

Theorem C72_cmov : forall fuel ro xo len, Z.of_nat len < 2 ^ 64 -> (len < fuel)%nat -> exists T,
  forall pr r sr px x sx b, length pr = ro -> length r = len -> length px = xo -> length x = len -> all_bytes r -> all_bytes x -> b = 0 \/ b = 1 ->
  cmov_w fuel (pr ++ r ++ sr) ro (px ++ x ++ sx) xo (Z.of_nat len) b = Ok (pr ++ (if b =? 1 then x else r) ++ sr) T.
Proof. exact width_cmov_spec. Qed.
Print Assumptions C72_cmov.

Example C72_case :
  (all_bytes (some_bytes 504) /\ Z.of_nat (length (some_bytes 504)) < 2 ^ 32 - 1) /\
  exists buf, all_bytes buf /\ Z.of_nat (length buf) = 2 ^ 32 - 1 /\ (length (accepted (fun i => nth i buf 0%Z) (length buf / 3)) < 256)%nat.
Proof. split; [split; [apply some_bytes_ok|reflexivity]|exact wraps_case]. Qed.
