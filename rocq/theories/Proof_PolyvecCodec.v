(** * Polynomial-vector serialization and compression (polyvec.c) *)
From Coq Require Import ZArith List Lia Bool.
From Verif Require Import CMonad WP Proof_Base Modq Sums Model_Params Model_Reduce Model_Verify Model_Poly
  Model_Polyvec Proof_Reduce Proof_Verify Proof_NTT Proof_Poly Proof_Bits Proof_Compress Proof_Codec
  Proof_Codec3 Proof_Polyvec Spec_FIPS203 Levels.
Import ListNotations.
Open Scope Z_scope.

Lemma flat_map_snoc {A B} (g : A -> list B) l x : flat_map g (l ++ [x]) = flat_map g l ++ g x.
Proof. rewrite flat_map_app. simpl. now rewrite app_nil_r. Qed.

Lemma flat_map_const_length {A B} (g : A -> list B) n l :
  (forall x, length (g x) = n) -> length (flat_map g l) = (n * length l)%nat.
Proof.
  intros Hg. induction l; simpl; [lia|]. rewrite app_length, Hg, IHl. lia.
Qed.

(** A loop that appends one block per element *)
Lemma splice_block {A} (d : A) (g : A -> list Z) n r ro (a : list A) i :
  (forall x, length (g x) = n) -> (i < length a)%nat -> (ro + n * length a <= length r)%nat ->
  splice (splice r ro (flat_map g (firstn i a))) (ro + n * i) (g (nth i a d))
  = splice r ro (flat_map g (firstn (S i) a)).
Proof.
  intros Hg Hi Hr. rewrite (firstn_S_nth d) by auto. rewrite flat_map_snoc.
  apply splice_splice_next.
  - rewrite (flat_map_const_length g n) by auto. rewrite firstn_length. f_equal. f_equal. lia.
  - rewrite Hg. nia.
Qed.

Lemma splice_blocks_length {A} (g : A -> list Z) n (r : list Z) ro (a : list A) i :
  (forall x, length (g x) = n) -> (i <= length a)%nat -> (ro + n * length a <= length r)%nat ->
  length (splice r ro (flat_map g (firstn i a))) = length r.
Proof.
  intros Hg Hi Hr. apply splice_length. rewrite (flat_map_const_length g n) by auto.
  rewrite firstn_length. nia.
Qed.

(** The compressed bytes of one polynomial *)
Definition compressed_bytes (d : nat) (f : list Z) : list Z := ByteEncode d (compressed (Z.of_nat d) f).
Lemma compressed_bytes_length d f : length (compressed_bytes d f) = (32 * d)%nat.
Proof.
  unfold compressed_bytes. rewrite ByteEncode_length, compressed_length.
  replace (d * 256)%nat with (32 * d * 8)%nat by lia. apply Nat.div_mul. lia.
Qed.
Definition canonical_bytes (f : list Z) : list Z := ByteEncode 12 (canonical f).
Lemma canonical_bytes_length f : length (canonical_bytes f) = 384%nat.
Proof. unfold canonical_bytes. rewrite ByteEncode_length, canonical_length. reflexivity. Qed.

Lemma canonical_bytes_eq f : canonical_bytes f = ByteEncode 12 (canonical f).
Proof. unfold canonical_bytes. reflexivity. Qed.

Lemma polyvec_compress_wp lv ro :
  traced (fun T => forall (JJ : Junk) r a, (ro + KYBER_POLYVECCOMPRESSEDBYTES lv <= length r)%nat ->
    vbnd (KYBER_K lv) (-3328) 3328 a ->
    wp (polyvec_compress lv r ro a) T
       (fun r' => r' = splice r ro (flat_map (compressed_bytes (du (PS lv))) a))).
Proof.
  assert (G : forall d n t0 f, (t0 = 8 \/ t0 = 4)%nat -> n = (32 * d)%nat ->
    (forall ro, traced (fun T => forall r a t, (ro + n <= length r)%nat -> length a = 256%nat ->
      bnd (-3328) 3328 a -> length t = t0 ->
      wp (f r ro a t) T (fun s => fst s = splice r ro (compressed_bytes d a) /\ length (snd s) = t0))) ->
    traced (fun T => forall (JJ : Junk) r a, (ro + KYBER_K lv * n <= length r)%nat ->
      vbnd (KYBER_K lv) (-3328) 3328 a ->
      wp (s <- for_ (KYBER_K lv) 0 (fun i s =>
             ai <- aget a i ;; f (fst s) (ro + n * i)%nat ai (snd s)) (r, local t0) ;; ret (fst s)) T
       (fun r' => r' = splice r ro (flat_map (compressed_bytes d) a)))).
  { intros d n t0 f Ht0 Hn Hf. subst n. eexists. intros JJ r a Hr (La & Ha).
    pose proof (compressed_bytes_length d) as Lb.
    wstep. eapply (wp_for _ (fun i s => fst s = splice r ro (flat_map (compressed_bytes d) (firstn i a)) /\
      length (snd s) = t0)).
    - cbn [fst snd]. split; [symmetry; apply splice_nil|apply local_length].
    - intros i [r1 t1] Hi [E1 E2]. cbn [fst snd] in *. subst r1. destruct (Ha i ltac:(lia)) as [L B].
      wstep. wstep; [lia|]. eapply wp_conseq.
      + apply (proj2_sig (Hf (ro + 32 * d * i)%nat)); auto.
        rewrite (splice_blocks_length _ (32 * d)) by (auto; lia). nia.
      + intros s [E3 E4]. split; [|exact E4]. rewrite E3. apply splice_block; auto; lia.
    - intros s [E1 _]. wstep. rewrite E1, firstn_all2 by lia. reflexivity. }
  destruct lv; [eexists; apply (proj2_sig (G 10%nat 320%nat 4%nat polyvec_compress_320_poly ltac:(auto) eq_refl polyvec_compress_320_poly_wp))
   | eexists; apply (proj2_sig (G 10%nat 320%nat 4%nat polyvec_compress_320_poly ltac:(auto) eq_refl polyvec_compress_320_poly_wp))
   | eexists; apply (proj2_sig (G 11%nat 352%nat 8%nat polyvec_compress_352_poly ltac:(auto) eq_refl polyvec_compress_352_poly_wp))].
Qed.

Lemma polyvec_tobytes_wp lv ro :
  traced (fun T => forall r a, (ro + KYBER_POLYVECBYTES lv <= length r)%nat ->
    vbnd (KYBER_K lv) (-3328) 3328 a ->
    wp (polyvec_tobytes lv r ro a) T (fun r' => r' = splice r ro (flat_map canonical_bytes a))).
Proof.
  eexists. intros r a Hr (La & Ha). unfold polyvec_tobytes, KYBER_POLYVECBYTES, KYBER_POLYBYTES in *.
  pose proof canonical_bytes_length as Lb.
  eapply (wp_for _ (fun i s => s = splice r ro (flat_map canonical_bytes (firstn i a)))).
  - symmetry; apply splice_nil.
  - intros i r1 Hi ->. destruct (Ha i ltac:(lia)) as [L B].
    wstep. wstep; [lia|]. eapply wp_conseq.
    + apply (proj2_sig (poly_tobytes_wp (ro + i * 384))); auto.
      rewrite (splice_blocks_length _ 384) by (auto; lia). lia.
    + intros s ->. rewrite (Nat.mul_comm i). rewrite <- (canonical_bytes_eq (nth i a [])).
      rewrite (splice_block [] canonical_bytes 384) by (auto; lia). reflexivity.
  - intros s ->. rewrite firstn_all2 by lia. reflexivity.
Qed.

Lemma polyvec_frombytes_wp lv ao :
  traced (fun T => forall r a, length r = KYBER_K lv ->
    (forall i, (i < KYBER_K lv)%nat -> length (nth i r []) = 256%nat) ->
    (ao + KYBER_POLYVECBYTES lv <= length a)%nat -> bytes a ->
    wp (polyvec_frombytes lv r a ao) T (fun r' =>
      r' = mk (KYBER_K lv) (fun i => mk 256 (field 12 (sub a (ao + 384 * i) 384))))).
Proof.
  eexists. intros r a Hr Hl Ha Ba. unfold polyvec_frombytes, KYBER_POLYVECBYTES, KYBER_POLYBYTES in *.
  set (P := fun (i : nat) (x y : list Z) => y = mk 256 (field 12 (sub a (ao + 384 * i) 384))).
  eapply wp_conseq.
  { apply (wp_vec _ (fun i => proj1_sig (poly_frombytes_wp (ao + i * 384))) P
       (fun i ri => poly_frombytes ri a (ao + i * 384))); auto.
    intros i Hi. eapply wp_conseq; [apply (proj2_sig (poly_frombytes_wp (ao + i * 384))); auto; lia|].
    intros v ->. unfold P. now rewrite (Nat.mul_comm i). }
  intros r' (L & E). apply (list_eq_nth []); [rewrite mk_length; auto|].
  intros i Hi. rewrite E by lia. rewrite nth_mk by lia. reflexivity.
Qed.

Lemma polyvec_decompress_wp lv ao :
  traced (fun T => forall (JJ : Junk) r a, length r = KYBER_K lv ->
    (forall i, (i < KYBER_K lv)%nat -> length (nth i r []) = 256%nat) ->
    (ao + KYBER_POLYVECCOMPRESSEDBYTES lv <= length a)%nat -> bytes a ->
    wp (polyvec_decompress lv r a ao) T (fun r' =>
      r' = mk (KYBER_K lv) (fun i => decompressed (du (PS lv)) (sub a (ao + 32 * du (PS lv) * i) (32 * du (PS lv)))))).
Proof.
  assert (G : forall d n t0 f, n = (32 * d)%nat ->
    (forall ao, traced (fun T => forall r a t, length r = 256%nat -> (ao + n <= length a)%nat -> bytes a ->
      length t = t0 ->
      wp (f r a ao t) T (fun s => fst s = decompressed d (sub a ao n) /\ length (snd s) = t0))) ->
    traced (fun T => forall (JJ : Junk) r a, length r = KYBER_K lv ->
      (forall i, (i < KYBER_K lv)%nat -> length (nth i r []) = 256%nat) ->
      (ao + KYBER_K lv * n <= length a)%nat -> bytes a ->
      wp (s <- for_ (KYBER_K lv) 0 (fun i s =>
             ri <- aget (fst s) i ;;
             '(ri, t) <- f ri a (ao + n * i)%nat (snd s) ;;
             r <- aset (fst s) i ri ;;
             ret (r, t)) (r, local t0) ;; ret (fst s)) T
       (fun r' => r' = mk (KYBER_K lv) (fun i => decompressed d (sub a (ao + n * i) n))))).
  { intros d n t0 f Hn Hf. subst n. eexists. intros JJ r a Hr Hl Ha Ba.
    wstep. eapply (wp_for _ (fun i s => length (fst s) = KYBER_K lv /\ length (snd s) = t0 /\
      (forall j, (j < KYBER_K lv)%nat -> (i <= j)%nat -> nth j (fst s) [] = nth j r []) /\
      (forall j, (j < i)%nat -> nth j (fst s) [] = decompressed d (sub a (ao + 32 * d * j) (32 * d))))).
    - cbn [fst snd]. split; [auto|]. split; [apply local_length|]. split; [auto|]. intros; lia.
    - intros i [r1 t1] Hi (E1 & E2 & E3 & E4). cbn [fst snd] in *.
      wstep. wstep; [lia|]. wstep. rewrite E3 by lia.
      eapply wp_conseq.
      + apply (proj2_sig (Hf (ao + 32 * d * i)%nat)); auto; try nia. apply Hl; lia.
      + intros [x t2] [E5 E6]. cbn [fst snd] in *. subst x. wstep. wstep; [lia|]. wstep. cbn [fst snd].
        split; [now rewrite upd_length|]. split; [auto|]. split.
        * intros j Hj Hij. rewrite nth_upd_neq by lia. apply E3; lia.
        * intros j Hj. destruct (Nat.eq_dec j i) as [->|]; [now rewrite nth_upd_eq by lia|].
          rewrite nth_upd_neq by lia. apply E4. lia.
    - intros s (E1 & E2 & E3 & E4). wstep.
      apply (list_eq_nth []); [rewrite mk_length; auto|].
      intros i Hi. rewrite E4 by lia. rewrite nth_mk by lia. reflexivity. }
  destruct lv; [eexists; apply (proj2_sig (G 10%nat 320%nat 4%nat polyvec_decompress_320_poly eq_refl polyvec_decompress_320_poly_wp))
   | eexists; apply (proj2_sig (G 10%nat 320%nat 4%nat polyvec_decompress_320_poly eq_refl polyvec_decompress_320_poly_wp))
   | eexists; apply (proj2_sig (G 11%nat 352%nat 8%nat polyvec_decompress_352_poly eq_refl polyvec_decompress_352_poly_wp))].
Qed.
