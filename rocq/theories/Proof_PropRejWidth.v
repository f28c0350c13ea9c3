(** * C72: lemmas behind the theorems of Prop_RejWidth.v *)
From Coq Require Import ZArith List Lia.
From Verif Require Import CMonad Model_Params Model_Indcpa Model_Verify Model_RejWidth Spec_FIPS203 Vocab Vocab_Code Vocab_Buffers
  Proof_PropSample Proof_PropUtil Proof_RejWidth.
Import ListNotations.
Open Scope Z_scope.
Open Scope cmonad_scope.

Lemma width_rej_uniform : forall fuel pre r post buf extra,
  all_bytes buf -> Z.of_nat (length r) < 2 ^ 32 -> Z.of_nat (length buf) < 2 ^ 32 - 1 -> (length buf < fuel)%nat ->
  let taken := firstn (length r) (accepted (fun i => nth i buf 0) (length buf / 3)) in
  exists T, rej_uniform_w fuel (pre ++ r ++ post) (length pre) (Z.of_nat (length r)) (buf ++ extra) (Z.of_nat (length buf))
    = Ok (Z.of_nat (length taken), pre ++ taken ++ skipn (length taken) r ++ post) T.
Proof.
  intros fuel pre r post buf extra HB Hr Hb Hf taken. destruct (rej_uniform_spec pre r post buf extra HB) as (T & E & _). exists T.
  rewrite width_rej by assumption. rewrite E. reflexivity.
Qed.
Lemma width_verify_spec : forall fuel ao bo len, Z.of_nat len < 2 ^ 64 -> (len < fuel)%nat -> exists T,
  forall pa a sa pb b sb, length pa = ao -> length a = len -> length pb = bo -> length b = len -> all_bytes a -> all_bytes b ->
    (a = b -> verify_w fuel (pa ++ a ++ sa) ao (pb ++ b ++ sb) bo (Z.of_nat len) = Ok 0 T) /\
    (a <> b -> verify_w fuel (pa ++ a ++ sa) ao (pb ++ b ++ sb) bo (Z.of_nat len) = Ok 1 T).
Proof.
  intros fuel ao bo len Hl Hf. destruct (verify_spec ao bo len) as (T & _ & V). exists T. intros. rewrite width_verify by assumption. now apply V.
Qed.
Lemma width_cmov_spec : forall fuel ro xo len, Z.of_nat len < 2 ^ 64 -> (len < fuel)%nat -> exists T,
  forall pr r sr px x sx b, length pr = ro -> length r = len -> length px = xo -> length x = len -> all_bytes r -> all_bytes x -> b = 0 \/ b = 1 ->
  cmov_w fuel (pr ++ r ++ sr) ro (px ++ x ++ sx) xo (Z.of_nat len) b = Ok (pr ++ (if b =? 1 then x else r) ++ sr) T.
Proof.
  intros fuel ro xo len Hl Hf. destruct (cmov_spec ro xo len) as (T & V). exists T. intros. rewrite width_cmov by assumption. now apply V.
Qed.

(** A buffer of 2^32 - 1 bytes 255 has no acceptable candidate *)
Lemma accepted_255 n m : (3 * m <= n)%nat -> accepted (fun i => nth i (repeat 255 n) 0) m = [].
Proof.
  intros Hm. unfold accepted. assert (H : forall i, (i < 3 * m)%nat -> nth i (repeat 255 n) 0 = 255).
  { intros i Hi. apply (repeat_spec n). apply nth_In. rewrite repeat_length. lia. }
  remember (fun i => nth i (repeat 255 n) 0) as s eqn:Es.
  assert (H' : forall i, (i < 3 * m)%nat -> s i = 255) by (subst s; exact H). clear - H'.
  assert (E : forall l, (forall i, In i l -> (i < m)%nat) -> flat_map (candidates s) l = flat_map (fun _ => [4095; 4095]) l).
  { induction l as [|i l IH]; intros Hl; [reflexivity|]. cbn [flat_map]. rewrite IH by (intros; apply Hl; now right). f_equal.
    assert (i < m)%nat by (apply Hl; now left). unfold candidates. rewrite !H' by lia. reflexivity. }
  rewrite E by (intros i Hi; apply in_seq in Hi; lia). clear. induction (seq 0 m) as [|i l IH]; [reflexivity|exact IH].
Qed.
Lemma wraps_case : exists buf, all_bytes buf /\ Z.of_nat (length buf) = 2 ^ 32 - 1 /\
  (length (accepted (fun i => nth i buf 0%Z) (length buf / 3)) < 256)%nat.
Proof.
  assert (X : exists n, Z.of_nat n = 2 ^ 32 - 1) by (exists (Z.to_nat (2 ^ 32 - 1)); apply Z2Nat.id; discriminate).
  destruct X as [n Hn]. exists (repeat 255 n). rewrite repeat_length. split; [|split; [exact Hn|]].
  - intros x Hx. apply repeat_spec in Hx. lia.
  - rewrite accepted_255; [cbn [length]; lia|]. apply Nat.mul_div_le. lia.
Qed.
