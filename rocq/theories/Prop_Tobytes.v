(** * C84: the exact input ranges of the serialisation functions *)
From Coq Require Import ZArith List Lia.
From Verif Require Import CMonad Model_Params Model_Poly Model_AvxAsm Model_AvxCode Spec_FIPS203 Vocab Cases
  Proof_PropAvx Proof_PropTobytes.
Import ListNotations.
Open Scope Z_scope.

Theorem C84_poly_tobytes : forall pre old post a,
  length old = 384%nat -> length a = 256%nat -> in_range (-3330) 3329 a ->
  ((exists T, poly_tobytes (pre ++ old ++ post) (length pre) a = Ok (pre ++ ByteEncode 12 (modq a) ++ post) T)
   <-> in_range (-3329) 3328 a).
Proof. exact poly_tobytes_range. Qed.
Print Assumptions C84_poly_tobytes.

Theorem C84_ntttobytes : forall (JJ : Junk) pre old post a F,
  length old = 384%nat -> length a = 256%nat -> length F = 256%nat -> in_range (-1) (2 * q) a -> modq a = avx2_order (modq F) ->
  ((exists T, ntttobytes_avx (pre ++ old ++ post) (length pre) a = Ok (pre ++ ByteEncode 12 (modq F) ++ post) T)
   <-> in_range 0 (2 * q - 1) a).
Proof. exact ntttobytes_range. Qed.
Print Assumptions C84_ntttobytes.

(** Each accepts coefficients the other one gets wrong. *)
Theorem C84_differ : forall (JJ : Junk) pre old post F, length old = 384%nat -> length F = 256%nat ->
  (in_range (-1) (q - 1) F -> In (-1) F -> exists v T, poly_tobytes (pre ++ old ++ post) (length pre) F = Ok v T /\
     forall T', ntttobytes_avx (pre ++ old ++ post) (length pre) (avx2_order F) <> Ok v T') /\
  (in_range 0 q F -> In q F -> exists v T, ntttobytes_avx (pre ++ old ++ post) (length pre) (avx2_order F) = Ok v T /\
     forall T', poly_tobytes (pre ++ old ++ post) (length pre) F <> Ok v T').
Proof. exact tobytes_differ. Qed.
Print Assumptions C84_differ.

Example C84_case : let ends lo hi := lo :: repeat 5 254 ++ [hi] in
  length (some_bytes 384) = 384%nat /\
  length (ends (-3330) 3329) = 256%nat /\ in_range (-3330) 3329 (ends (-3330) 3329) /\ in_range (-3329) 3328 (ends (-3329) 3328) /\
  (forall hi, -1 <= hi <= 2 * q -> in_range (-1) (2 * q) (avx2_order (ends (-1) hi)) /\
    modq (avx2_order (ends (-1) hi)) = avx2_order (modq (ends (-1) hi))) /\
  in_range (-1) (q - 1) (ends (-1) 7) /\ In (-1) (ends (-1) 7) /\ in_range 0 q (ends 3329 7) /\ In q (ends 3329 7).
Proof.
  cbv zeta.
  assert (R : forall lo hi lo' hi', lo <= lo' <= hi -> lo <= hi' <= hi -> lo <= 5 <= hi -> in_range lo hi (lo' :: repeat 5 254 ++ [hi'])).
  { intros lo hi lo' hi' H1 H2 H3 x [<-|Hx]; [exact H1|]. apply in_app_or in Hx as [Hx|[<-|[]]]; [|exact H2].
    apply repeat_spec in Hx. now subst x. }
  split; [reflexivity|]. split; [reflexivity|]. split; [apply R; lia|]. split; [apply R; lia|].
  split.
  { intros hi Hh. assert (L : length (-1 :: repeat 5 254 ++ [hi]) = 256%nat) by reflexivity. split.
    - apply avx2_order_range; [exact L|]. apply R; unfold q in *; lia.
    - now apply modq_avx_order. }
  split; [apply R; unfold q; lia|]. split; [now left|]. split; [apply R; unfold q; lia|now left].
Qed.
