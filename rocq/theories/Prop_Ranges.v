(** * C83: the exact input ranges of the compression functions *)
From Coq Require Import ZArith List Lia.
From Verif Require Import CMonad Model_Params Model_Poly Model_Polyvec Model_AvxC Model_AvxPolyvec Spec_FIPS203 Levels
  Vocab Vocab_Ranges Cases Proof_PropRanges.
Import ListNotations.
Open Scope Z_scope.

(** ** ref/ *)
Theorem C83_poly_compress : forall lv (JJ : Junk) pre old post a,
  length old = KYBER_POLYCOMPRESSEDBYTES lv -> length a = 256%nat -> in_range (-3330) (ref_v_max lv + 1) a ->
  ((exists T, poly_compress lv (pre ++ old ++ post) (length pre) a = Ok (pre ++ right_poly (dv (PS lv)) a ++ post) T)
   <-> in_range (-3329) (ref_v_max lv) a).
Proof. exact poly_compress_ref_range. Qed.
Print Assumptions C83_poly_compress.

Theorem C83_poly_compress_undefined : forall lv (JJ : Junk) r ro a c,
  length a = 256%nat -> In c a -> -32768 <= c <= -3330 -> forall v T, poly_compress lv r ro a <> Ok v T.
Proof. exact poly_compress_ref_undefined. Qed.
Print Assumptions C83_poly_compress_undefined.

Theorem C83_polyvec_compress : forall lv (JJ : Junk) pre old post a,
  length old = KYBER_POLYVECCOMPRESSEDBYTES lv -> length a = KYBER_K lv ->
  (forall f, In f a -> length f = 256%nat /\ in_range (-3330) (ref_u_max lv + 1) f) ->
  ((exists T, polyvec_compress lv (pre ++ old ++ post) (length pre) a
      = Ok (pre ++ flat_map (right_poly (du (PS lv))) a ++ post) T)
   <-> forall f, In f a -> in_range (-3329) (ref_u_max lv) f).
Proof. exact polyvec_compress_ref_range. Qed.
Print Assumptions C83_polyvec_compress.

Theorem C83_poly_tomsg : forall pre old post a,
  length old = 32%nat -> length a = 256%nat -> in_range (-2497) 32767 a ->
  ((exists T, poly_tomsg (pre ++ old ++ post) (length pre) a = Ok (pre ++ right_poly 1 a ++ post) T)
   <-> in_range (-2496) 32767 a).
Proof. exact poly_tomsg_ref_range. Qed.
Print Assumptions C83_poly_tomsg.

(** ** avx2/ *)
Theorem C83_poly_compress_avx2 : forall lv pre old post a,
  length old = KYBER_POLYCOMPRESSEDBYTES lv -> length a = 256%nat -> in_range (avx_v_min lv - 1) (avx_v_max lv + 1) a ->
  ((exists T, poly_compress_avx2 lv (pre ++ old ++ post) (length pre) a = Ok (pre ++ right_poly (dv (PS lv)) a ++ post) T)
   <-> in_range (avx_v_min lv) (avx_v_max lv) a).
Proof. exact poly_compress_avx2_range. Qed.
Print Assumptions C83_poly_compress_avx2.

Theorem C83_polyvec_compress_avx2 : forall lv pre old slack post a,
  length old = KYBER_POLYVECCOMPRESSEDBYTES lv -> length slack = avx_slack lv -> length a = KYBER_K lv ->
  (forall f, In f a -> length f = 256%nat /\ in_range (avx_u_min lv - 1) (avx_u_max lv + 1) f) ->
  ((exists T, polyvec_compress_avx2 lv (pre ++ old ++ slack ++ post) (length pre) a
      = Ok (pre ++ flat_map (right_poly (du (PS lv))) a ++ map (fun _ => 0) slack ++ post) T)
   <-> forall f, In f a -> in_range (avx_u_min lv) (avx_u_max lv) f).
Proof. exact polyvec_compress_avx2_range. Qed.
Print Assumptions C83_polyvec_compress_avx2.

Theorem C83_poly_tomsg_avx2 : forall pre old post a,
  length old = 32%nat -> length a = 256%nat -> in_range (-833) 4162 a ->
  ((exists T, poly_tomsg_avx2 (pre ++ old ++ post) (length pre) a = Ok (pre ++ right_poly 1 a ++ post) T)
   <-> in_range (-832) 4161 a).
Proof. exact poly_tomsg_avx2_range. Qed.
Print Assumptions C83_poly_tomsg_avx2.

(** ** The two implementations are not interchangeable function by function *)
Theorem C83_polyvec_compress_differ : forall lv (JJ : Junk) pre old slack post a f,
  length old = KYBER_POLYVECCOMPRESSEDBYTES lv -> length slack = avx_slack lv -> length a = KYBER_K lv ->
  (forall f, In f a -> length f = 256%nat /\ in_range (avx_u_min lv - 1) q f) -> In f a -> In (avx_u_min lv - 1) f ->
  exists v T, polyvec_compress lv (pre ++ old ++ slack ++ post) (length pre) a = Ok (pre ++ v ++ slack ++ post) T /\
    forall T', polyvec_compress_avx2 lv (pre ++ old ++ slack ++ post) (length pre) a
      <> Ok (pre ++ v ++ map (fun _ => 0) slack ++ post) T'.
Proof. exact polyvec_compress_differ. Qed.
Print Assumptions C83_polyvec_compress_differ.

Theorem C83_poly_tomsg_differ : forall pre old post a,
  length old = 32%nat -> length a = 256%nat -> in_range (-833) q a -> In (-833) a ->
  exists v T, poly_tomsg (pre ++ old ++ post) (length pre) a = Ok (pre ++ v ++ post) T /\
    forall T', poly_tomsg_avx2 (pre ++ old ++ post) (length pre) a <> Ok (pre ++ v ++ post) T'.
Proof. exact poly_tomsg_differ. Qed.
Print Assumptions C83_poly_tomsg_differ.

Definition ends (lo hi : Z) : list Z := lo :: repeat 5 254 ++ [hi].
Example C83_case lv :
  length (repeat 7 (KYBER_POLYCOMPRESSEDBYTES lv)) = KYBER_POLYCOMPRESSEDBYTES lv /\
  length (repeat 7 (KYBER_POLYVECCOMPRESSEDBYTES lv)) = KYBER_POLYVECCOMPRESSEDBYTES lv /\
  length (repeat (ends (-3330) 3000) (KYBER_K lv)) = KYBER_K lv /\
  length (ends (-3330) (ref_v_max lv + 1)) = 256%nat /\ in_range (-3330) (ref_v_max lv + 1) (ends (-3330) (ref_v_max lv + 1)) /\
  in_range (-3330) (ref_u_max lv + 1) (ends (-3329) (ref_u_max lv + 1)) /\
  in_range (-2497) 32767 (ends (-2497) 32767) /\
  in_range (avx_v_min lv - 1) (avx_v_max lv + 1) (ends (avx_v_min lv) (avx_v_max lv)) /\
  in_range (avx_u_min lv - 1) q (ends (avx_u_min lv - 1) 3329) /\ In (avx_u_min lv - 1) (ends (avx_u_min lv - 1) 3329) /\
  in_range (-833) q (ends (-833) 3329) /\ In (-833) (ends (-833) 3329).
Proof.
  assert (R : forall lo hi lo' hi', lo <= lo' <= hi -> lo <= hi' <= hi -> lo <= 5 <= hi -> in_range lo hi (ends lo' hi')).
  { intros lo hi lo' hi' H1 H2 H3 x [<-|Hx]; [exact H1|]. apply in_app_or in Hx as [Hx|[<-|[]]]; [|exact H2].
    apply repeat_spec in Hx. now subst x. }
  rewrite !repeat_length.
  split; [reflexivity|]. split; [reflexivity|]. split; [reflexivity|]. split; [reflexivity|].
  split; [apply R; destruct lv; cbn; lia|]. split; [apply R; destruct lv; cbn; lia|]. split; [apply R; lia|].
  split; [apply R; destruct lv; cbn; lia|]. split; [apply R; unfold q; destruct lv; cbn; lia|]. split; [now left|].
  split; [apply R; unfold q; lia|now left].
Qed.
