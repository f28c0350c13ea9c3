(** * Vectors of polynomials in AVX2 (avx2/polyvec.c) *)
From Coq Require Import ZArith List Lia Bool.
From Verif Require Import CMonad WP Proof_Base Modq Sums Model_Params Model_Polyvec Model_AvxAsm Model_AvxCode
  Model_AvxC Model_AvxPolyvec Proof_NTT Proof_NTTSpec Proof_RingMul Proof_Poly Proof_Polyvec Proof_Bits Proof_Codec
  Proof_PolyvecCodec Proof_AvxNTT Proof_AvxPack Proof_AvxCompress Proof_AvxDecompress Proof_AvxMisc
  Spec_FIPS203 Levels.
Import ListNotations.
Open Scope Z_scope.
Open Scope cmonad_scope.

Lemma splice_overlap {A} (r : list A) ro E G F : (ro + length E + length F <= length r)%nat -> (length G <= length F)%nat ->
  splice (splice r ro (E ++ G)) (ro + length E) F = splice r ro (E ++ F).
Proof.
  intros H1 H2. unfold splice. rewrite !app_length.
  assert (LF : length (firstn ro r) = ro) by (rewrite firstn_length; lia).
  rewrite (app_assoc (firstn ro r) (E ++ G)), <- (app_assoc (firstn ro r)).
  assert (EX : firstn (ro + length E) (firstn ro r ++ (E ++ G) ++ skipn (ro + (length E + length G)) r) = firstn ro r ++ E).
  { rewrite <- !app_assoc. rewrite app_assoc. rewrite firstn_app.
    replace (ro + length E - length (firstn ro r ++ E))%nat with 0%nat by (rewrite app_length, LF; lia).
    rewrite firstn_O, app_nil_r. apply firstn_all2. rewrite app_length, LF. lia. }
  rewrite EX. rewrite <- !app_assoc. do 3 f_equal.
  rewrite (app_assoc E), (app_assoc (firstn ro r)), skipn_app.
  assert (LX : length (firstn ro r ++ E ++ G) = (ro + (length E + length G))%nat) by (rewrite !app_length, LF; lia).
  rewrite (skipn_all2 (firstn ro r ++ E ++ G)) by (rewrite LX; lia). rewrite LX. cbn [app].
  rewrite skipn_skipn. f_equal. lia.
Qed.

(** ** Compression *)
Lemma compress10_tail ro : traced (fun T => forall r a, (ro + (320 + 0) <= length r)%nat -> length a = 256%nat -> bnd 0 3329 a ->
  wp (poly_compress10_avx2 r ro a) T (fun r' => r' = splice r ro (compressed_bytes 10 a ++ []))).
Proof.
  eexists. intros r a H1 H2 H3. eapply wp_conseq; [apply (proj2_sig (poly_compress10_avx2_wp ro)); auto; lia|].
  intros v ->. rewrite app_nil_r. unfold compressed_bytes. change (Z.of_nat 10) with 10. reflexivity.
Qed.
Definition overrun (lv : level) : list Z := match lv with Kyber1024 => [0; 0] | _ => [] end.
Lemma polyvec_compress_avx2_wp lv ro :
  traced (fun T => forall r a, (ro + KYBER_POLYVECCOMPRESSEDBYTES lv + length (overrun lv) <= length r)%nat ->
    vbnd (KYBER_K lv) 0 3329 a ->
    wp (polyvec_compress_avx2 lv r ro a) T
       (fun r' => r' = splice r ro (flat_map (compressed_bytes (du (PS lv))) a ++ overrun lv))).
Proof.
  assert (G : forall d n (f : list Z -> nat -> list Z -> res (list Z)) x, n = (32 * d)%nat -> (0 < d)%nat -> (length x <= 2)%nat ->
    (forall ro, traced (fun T => forall r a, (ro + (n + length x) <= length r)%nat -> length a = 256%nat -> bnd 0 3329 a ->
      wp (f r ro a) T (fun r' => r' = splice r ro (compressed_bytes d a ++ x)))) ->
    traced (fun T => forall r a, (ro + KYBER_K lv * n + length x <= length r)%nat -> vbnd (KYBER_K lv) 0 3329 a ->
      wp (for_ (KYBER_K lv) 0 (fun i r => ai <- aget a i ;; f r (ro + n * i)%nat ai) r) T
       (fun r' => r' = splice r ro (flat_map (compressed_bytes d) a ++ x)))).
  { intros d n f x Hn Hd Hx Hf. subst n. eexists. intros r a Hr (La & Ha).
    pose proof (compressed_bytes_length d) as Lb.
    assert (LS : forall i, (i <= KYBER_K lv)%nat -> length (flat_map (compressed_bytes d) (firstn i a)) = (32 * d * i)%nat).
    { intros i Hi. rewrite (flat_map_const_length _ (32 * d)) by auto. rewrite firstn_length, La. f_equal. lia. }
    eapply (wp_for _ (fun i s => s = splice r ro (flat_map (compressed_bytes d) (firstn i a) ++ if (i =? 0)%nat then [] else x))).
    - symmetry; apply splice_nil.
    - intros i r1 Hi ->. destruct (Ha i ltac:(lia)) as [L B].
      assert (Ls : forall i, (i <= KYBER_K lv)%nat ->
        length (splice r ro (flat_map (compressed_bytes d) (firstn i a) ++ if (i =? 0)%nat then [] else x)) = length r).
      { intros i' Hi'. apply splice_length. rewrite app_length, LS by lia. destruct (i' =? 0)%nat; cbn [length]; nia. }
      wstep. wstep; [lia|]. eapply wp_conseq.
      + apply (proj2_sig (Hf (ro + 32 * d * i)%nat)); auto. rewrite Ls by lia. nia.
      + intros s ->. rewrite <- (LS i) by lia. rewrite splice_overlap.
        * change (S i =? 0)%nat with false. cbv iota. rewrite (firstn_S_nth [] a i) by lia.
          rewrite flat_map_snoc. now rewrite <- app_assoc.
        * rewrite LS, app_length, Lb by lia. nia.
        * rewrite app_length, Lb. destruct (i =? 0)%nat; cbn [length]; lia.
    - intros s ->. rewrite firstn_all2 by lia. destruct lv; reflexivity. }
  destruct lv; [exact (G 10%nat 320%nat poly_compress10_avx2 [] eq_refl ltac:(lia) ltac:(cbn; lia) compress10_tail)
   |exact (G 10%nat 320%nat poly_compress10_avx2 [] eq_refl ltac:(lia) ltac:(cbn; lia) compress10_tail)
   |exact (G 11%nat 352%nat poly_compress11_avx2 [0; 0] eq_refl ltac:(lia) ltac:(cbn; lia) poly_compress11_avx2_wp)].
Qed.

(** Bytes read after the last polynomial *)
Definition overread (lv : level) : nat := match lv with Kyber1024 => 10 | _ => 12 end.
Lemma polyvec_decompress_avx2_wp lv ao :
  traced (fun T => forall r a, length r = KYBER_K lv ->
    (forall i, (i < KYBER_K lv)%nat -> length (nth i r []) = 256%nat) ->
    (ao + KYBER_POLYVECCOMPRESSEDBYTES lv + overread lv <= length a)%nat ->
    wp (polyvec_decompress_avx2 lv r a ao) T (fun r' =>
      r' = mk (KYBER_K lv) (fun i => decompressed (du (PS lv)) (sub a (ao + 32 * du (PS lv) * i) (32 * du (PS lv)))))).
Proof.
  assert (G : forall d n x (f : list Z -> list Z -> nat -> res (list Z)), n = (32 * d)%nat ->
    (forall ao, traced (fun T => forall r a, length r = 256%nat -> (ao + (n + x) <= length a)%nat ->
      wp (f r a ao) T (fun r' => r' = decompressed d (sub a ao n)))) ->
    traced (fun T => forall r a, length r = KYBER_K lv ->
      (forall i, (i < KYBER_K lv)%nat -> length (nth i r []) = 256%nat) ->
      (ao + KYBER_K lv * n + x <= length a)%nat ->
      wp (for_ (KYBER_K lv) 0 (fun i r => ri <- aget r i ;; ri <- f ri a (ao + n * i)%nat ;; aset r i ri) r) T
       (fun r' => r' = mk (KYBER_K lv) (fun i => decompressed d (sub a (ao + n * i) n))))).
  { intros d n x f Hn Hf. subst n. eexists. intros r a Hr Hl Ha.
    set (P := fun (i : nat) (x y : list Z) => y = decompressed d (sub a (ao + 32 * d * i) (32 * d))).
    eapply wp_conseq.
    { apply (wp_vec _ (fun i => proj1_sig (Hf (ao + 32 * d * i)%nat)) P (fun i ri => f ri a (ao + 32 * d * i)%nat)); auto.
      intros i Hi. apply (proj2_sig (Hf (ao + 32 * d * i)%nat)); auto. nia. }
    intros r' (L & E). apply (list_eq_nth []); [rewrite mk_length; auto|].
    intros i Hi. rewrite E by lia. rewrite nth_mk by lia. reflexivity. }
  destruct lv;
   [eexists; apply (proj2_sig (G 10%nat 320%nat 12%nat poly_decompress10_avx2 eq_refl poly_decompress10_avx2_wp))
   |eexists; apply (proj2_sig (G 10%nat 320%nat 12%nat poly_decompress10_avx2 eq_refl poly_decompress10_avx2_wp))
   |eexists; apply (proj2_sig (G 11%nat 352%nat 10%nat poly_decompress11_avx2 eq_refl poly_decompress11_avx2_wp))].
Qed.

(** ** Vectors in the NTT domain *)
(** [v] holds, mod q and in vector order, the polynomials [F] *)
Definition vheld (K : nat) (F v : polyvec) : Prop := vrel K (fun i x => lcong x (avx_order (nth i F []))) v.
Definition wfvec (K : nat) (F : polyvec) : Prop := length F = K /\ forall i, (i < K)%nat -> length (nth i F []) = 256%nat.

Lemma polyvec_tobytes_avx2_wp lv ro :
  traced (fun T => forall (JJ : Junk) r a F, (ro + KYBER_POLYVECBYTES lv <= length r)%nat ->
    vbnd (KYBER_K lv) 0 6657 a -> wfvec (KYBER_K lv) F -> vheld (KYBER_K lv) F a ->
    wp (polyvec_tobytes_avx2 lv r ro a) T (fun r' => r' = splice r ro (flat_map canonical_bytes F))).
Proof.
  eexists. intros JJ r a F Hr (La & Ha) (LF & HF) Hc. unfold polyvec_tobytes_avx2, KYBER_POLYVECBYTES, KYBER_POLYBYTES in *.
  pose proof canonical_bytes_length as Lb.
  eapply (wp_for _ (fun i s => s = splice r ro (flat_map canonical_bytes (firstn i F)))).
  - symmetry; apply splice_nil.
  - intros i r1 Hi ->. destruct (Ha i ltac:(lia)) as [L B].
    wstep. wstep; [lia|]. eapply wp_conseq.
    + apply (proj2_sig (ntttobytes_avx_wp (ro + i * 384))) with (F := nth i F []); auto.
      * rewrite (splice_blocks_length _ 384) by (auto; lia). lia.
      * apply HF. lia.
      * apply Hc. lia.
    + intros s ->. rewrite (Nat.mul_comm i). rewrite <- (canonical_bytes_eq (nth i F [])).
      rewrite (splice_block [] canonical_bytes 384) by (auto; lia). reflexivity.
  - intros s ->. rewrite firstn_all2 by lia. reflexivity.
Qed.

Lemma polyvec_frombytes_avx2_wp lv ao :
  traced (fun T => forall (JJ : Junk) r a, length r = KYBER_K lv ->
    (forall i, (i < KYBER_K lv)%nat -> length (nth i r []) = 256%nat) ->
    (ao + KYBER_POLYVECBYTES lv <= length a)%nat -> bytes a ->
    wp (polyvec_frombytes_avx2 lv r a ao) T (fun r' =>
      r' = mk (KYBER_K lv) (fun i => avx_order (mk 256 (field 12 (sub a (ao + 384 * i) 384)))))).
Proof.
  eexists. intros JJ r a Hr Hl Ha Ba. unfold polyvec_frombytes_avx2, KYBER_POLYVECBYTES, KYBER_POLYBYTES in *.
  set (P := fun (i : nat) (x y : list Z) => y = avx_order (mk 256 (field 12 (sub a (ao + 384 * i) 384)))).
  eapply wp_conseq.
  { apply (wp_vec _ (fun i => proj1_sig (nttfrombytes_avx_wp (ao + i * 384))) P
       (fun i ri => nttfrombytes_avx ri a (ao + i * 384))); auto.
    intros i Hi. eapply wp_conseq; [apply (proj2_sig (nttfrombytes_avx_wp (ao + i * 384))); auto; lia|].
    intros v ->. unfold P. now rewrite (Nat.mul_comm i). }
  intros r' (L & E). apply (list_eq_nth []); [rewrite mk_length; auto|].
  intros i Hi. rewrite E by lia. rewrite nth_mk by lia. reflexivity.
Qed.

Lemma polyvec_ntt_avx2_wp lv :
  traced (fun T => forall (JJ : Junk) r, vbnd (KYBER_K lv) (-3329) 3329 r ->
    wp (polyvec_ntt_avx2 lv r) T (fun r' => vbnd (KYBER_K lv) (-16182) 16182 r' /\
      vrel (KYBER_K lv) (fun i x => lcong x (avx_order (NTT (nth i r [])))) r')).
Proof.
  eexists. intros JJ r (Hl & Hr). unfold polyvec_ntt_avx2.
  set (P := fun (i : nat) (x y : list Z) => length y = 256%nat /\ babs 16182 y /\ lcong y (avx_order (NTT x))).
  eapply (wp_vec_done (P := P)); [apply (wp_vec _ (fun _ => proj1_sig ntt_avx_wp) P (fun _ => ntt_avx)); auto|].
  - intros i Hi. destruct (Hr i Hi). apply (proj2_sig ntt_avx_wp); auto.
  - auto.
Qed.

Lemma polyvec_invntt_tomont_avx2_wp lv :
  traced (fun T => forall (JJ : Junk) r F, vbnd (KYBER_K lv) (-32767) 32767 r -> wfvec (KYBER_K lv) F -> vheld (KYBER_K lv) F r ->
    wp (polyvec_invntt_tomont_avx2 lv r) T (fun r' => vbnd (KYBER_K lv) (-14929) 14929 r' /\
      vrel (KYBER_K lv) (fun i x => lcong x (scale 65536 (NTTinv (nth i F [])))) r')).
Proof.
  eexists. intros JJ r F (Hl & Hr) (LF & HF) Hc. unfold polyvec_invntt_tomont_avx2.
  set (P := fun (i : nat) (x y : list Z) => length y = 256%nat /\ babs 14929 y /\ lcong y (scale 65536 (NTTinv (nth i F [])))).
  eapply (wp_vec_done (P := P)); [apply (wp_vec _ (fun _ => proj1_sig invntt_avx_wp) P (fun _ => invntt_avx)); auto|].
  - intros i Hi. destruct (Hr i Hi). apply (proj2_sig invntt_avx_wp); auto.
  - auto.
Qed.

Lemma polyvec_reduce_avx2_wp lv :
  traced (fun T => forall (JJ : Junk) r, vbnd (KYBER_K lv) (-32767) 32767 r ->
    wp (polyvec_reduce_avx2 lv r) T (fun r' => vbnd (KYBER_K lv) 0 3329 r' /\
      vrel (KYBER_K lv) (fun i x => lcong x (nth i r [])) r')).
Proof.
  eexists. intros JJ r (Hl & Hr). unfold polyvec_reduce_avx2.
  set (P := fun (i : nat) (x y : list Z) => length y = 256%nat /\ bnd 0 3329 y /\ lcong y x).
  eapply (wp_vec_done (P := P)); [apply (wp_vec _ (fun _ => proj1_sig reduce_avx_wp) P (fun _ => reduce_avx)); auto|].
  - intros i Hi. destruct (Hr i Hi). apply (proj2_sig reduce_avx_wp); auto.
  - auto.
Qed.

Lemma polyvec_add_to_avx2_wp lv :
  traced (fun T => forall r b B1 B2, vbnd (KYBER_K lv) (-B1) B1 r -> vbnd (KYBER_K lv) (-B2) B2 b ->
    B1 + B2 <= 32767 ->
    wp (polyvec_add_to_avx2 lv r b) T (fun r' => vbnd (KYBER_K lv) (-(B1 + B2)) (B1 + B2) r' /\
      vrel (KYBER_K lv) (fun i x => x = zadd (nth i r []) (nth i b [])) r')).
Proof.
  eexists. intros r b B1 B2 (Hl & Hr) (Hlb & Hb) HB. unfold polyvec_add_to_avx2.
  set (P := fun (i : nat) (x y : list Z) => y = zadd x (nth i b [])).
  eapply (wp_vec_done (P := P)).
  - eapply (wp_pointwise_gen (A := list Z) (@nil Z) _ P); auto.
    intros i r1 Hi Hl1 E. wstep. wstep; [lia|]. wstep. wstep; [lia|]. wstep. rewrite E.
    destruct (Hr i Hi) as [L1 N1]. destruct (Hb i Hi) as [L2 N2].
    eapply wp_conseq.
    { apply (proj2_sig poly_add_to_avx2_wp); auto.
      intros j Hj. pose proof (N1 j ltac:(lia)). pose proof (N2 j ltac:(lia)). lia. }
    intros v ->. wstep; [lia|]. eexists. split; [reflexivity|]. reflexivity.
  - intros i x Hi ->. destruct (Hr i Hi) as [L1 N1]. destruct (Hb i Hi) as [L2 N2].
    split; [apply mk_length|]. split; auto.
    replace (- (B1 + B2)) with (- B1 + - B2) by lia. apply zadd_bnd; auto.
Qed.

Lemma polyvec_basemul_acc_montgomery_avx2_wp lv :
  traced (fun T => forall (JJ : Junk) r a b F G, length r = 256%nat ->
    vbnd (KYBER_K lv) (-4095) 4095 a -> vbnd (KYBER_K lv) (-16182) 16182 b ->
    wfvec (KYBER_K lv) F -> wfvec (KYBER_K lv) G -> vheld (KYBER_K lv) F a -> vheld (KYBER_K lv) G b ->
    wp (polyvec_basemul_acc_montgomery_avx2 lv r a b) T
       (fun r' => length r' = 256%nat /\ babs 21400 r' /\ lcong r' (avx_order (scale 169 (ntt_dot F G))))).
Proof.
  eexists. intros JJ r a b F G Hr (La & Ha) (Lb & Hb) (LF & HF) (LG & HG) Ca Cb. unfold polyvec_basemul_acc_montgomery_avx2.
  assert (HK : (2 <= KYBER_K lv <= 4)%nat) by (destruct lv; simpl; lia).
  wstep. wstep; [lia|]. wstep. wstep; [lia|]. wstep.
  destruct (Ha 0%nat ltac:(lia)) as [La0 Ba0]. destruct (Hb 0%nat ltac:(lia)) as [Lb0 Bb0].
  eapply wp_conseq; [apply (proj2_sig basemul_avx_wp) with (F := nth 0 F []) (G := nth 0 G []); auto; [apply Ca; lia|apply Cb; lia]|].
  intros r0 (Hl0 & Hb0 & Hc0). wstep.
  eapply (wp_for _ (fun i s => length (fst s) = 256%nat /\ length (snd s) = 256%nat /\
     babs (5350 * Z.of_nat i) (fst s) /\
     forall j, (j < 256)%nat -> nth j (fst s) 0 ≡
        169 * sumz i (fun i => nth (avx_ix j) (MultiplyNTTs (nth i F []) (nth i G [])) 0))).
  - cbn [fst snd]. split; auto. split; [apply local_length|]. split; [exact Hb0|].
    intros j Hj. rewrite sumz_S, sumz_O. rewrite (lcong_nth _ _ j Hc0), avx_order_nth by auto.
    rewrite nth_scale by (apply avx_ix_lt; auto). reflexivity.
  - intros i [r1 t1] Hi (Hl1 & Hl2 & B1 & C1). cbn [fst snd] in *.
    destruct (Ha i ltac:(lia)) as [Lai Bai]. destruct (Hb i ltac:(lia)) as [Lbi Bbi].
    wstep. wstep; [lia|]. wstep. wstep; [lia|]. wstep.
    eapply wp_conseq; [apply (proj2_sig basemul_avx_wp) with (F := nth i F []) (G := nth i G []); auto; [apply Ca; lia|apply Cb; lia]|].
    intros t (Hlt & Hbt & Hct). wstep.
    eapply wp_conseq.
    { apply (proj2_sig poly_add_to_avx2_wp); auto.
      intros j Hj. pose proof (B1 j ltac:(lia)). pose proof (Hbt j ltac:(lia)). lia. }
    intros r2 ->. wstep. cbn [fst snd]. split; [apply mk_length|]. split; auto. split.
    + apply bnd_mk. intros j Hj.
      pose proof (B1 j ltac:(lia)). pose proof (Hbt j ltac:(lia)). lia.
    + intros j Hj. rewrite nth_mk by auto. rewrite C1 by auto.
      rewrite (lcong_nth _ _ j Hct), avx_order_nth by auto. rewrite nth_scale by (apply avx_ix_lt; auto).
      rewrite sumz_S. apply cong_eq. rewrite Z.mul_add_distr_l. reflexivity.
  - intros s (Hl1 & _ & B1 & C1). replace (1 + (KYBER_K lv - 1))%nat with (KYBER_K lv) in * by lia.
    wstep. split; auto. split. { intros j Hj. specialize (B1 j Hj). lia. }
    split; [now rewrite avx_order_length|]. intros j Hj. rewrite Hl1 in Hj. rewrite avx_order_nth by lia.
    rewrite nth_scale by (apply avx_ix_lt; auto). rewrite C1 by lia.
    rewrite ntt_dot_nth by (try (apply avx_ix_lt; auto); congruence). rewrite LF. reflexivity.
Qed.
