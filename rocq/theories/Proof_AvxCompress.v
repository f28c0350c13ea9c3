(** * Compression and message decoding in AVX2 (avx2/poly.c, avx2/polyvec.c) *)
From Coq Require Import ZArith List Lia Bool NArith.
From Verif Require Import CMonad WP Proof_Base Model_Params Proof_Reduce Proof_Bits Proof_Codec Proof_PolyvecCodec Model_AvxIntrin Model_AvxC
  Proof_AvxBits Proof_AvxVec Spec_FIPS203 Levels.
Import ListNotations.
Open Scope Z_scope.

(** ** Templates: the word giving the first field *)
Definition first_word (r : option (list (list bx))) : wt :=
  match r with Some ((Bt t _ :: _) :: _) => t | _ => WIn 0 end.
Definition w4 : wt := Eval vm_compute in
  first_word (run sym_ops compress4_body [win 0 16; win 16 16; win 32 16; win 48 16] [0%nat]).
Definition w5 : wt := Eval vm_compute in first_word (run sym_ops compress5_body [win 0 16; win 16 16] [2; 3]%nat).
Definition w10 : wt := Eval vm_compute in first_word (run sym_ops compress10_body [win 0 16] [3; 4]%nat).
Definition w11 : wt := Eval vm_compute in first_word (run sym_ops compress11_body [win 0 16] [3; 4]%nat).
Definition first_bit (r : option (list (list bx))) : bx :=
  match r with Some ((b :: _) :: _) => b | _ => B0 end.
Definition b1 : bx := Eval vm_compute in first_bit (run sym_ops tomsg_body [win 0 16; win 16 16] [4%nat]).
Definition fields (t : wt) (d : nat) : list bx := map (Bt t) (seq 0 d).
Lemma fields_length t d : length (fields t d) = d.
Proof. unfold fields. now rewrite map_length, seq_length. Qed.
Lemma bitz_fields t d v : bitz (fields t d) v = wval (fun _ => false) (fun _ => v) t mod 2 ^ Z.of_nat d.
Proof. unfold bitz, fields. rewrite map_map. apply value_bits_of. Qed.

Lemma compress4_chk : check compress4_body [win 0 16; win 16 16; win 32 16; win 48 16] [0%nat] [bexp (fields w4 4) 4 0 256] = true.
Proof. vm_compute. reflexivity. Qed.
Lemma compress5_chk : check compress5_body [win 0 16; win 16 16] [2; 3]%nat
  [bexp (fields w5 5) 5 0 128; bexp (fields w5 5) 5 128 32] = true.
Proof. vm_compute. reflexivity. Qed.
Lemma compress10_chk : check compress10_body [win 0 16] [3; 4]%nat
  [bexp (fields w10 10) 10 0 128; bexp (fields w10 10) 10 128 32] = true.
Proof. vm_compute. reflexivity. Qed.
Lemma compress11_chk : check compress11_body [win 0 16] [3; 4]%nat
  [bexp (fields w11 11) 11 0 128; bexp (fields w11 11) 11 128 48 ++ repeat B0 16] = true.
Proof. vm_compute. reflexivity. Qed.
Lemma tomsg_chk : check tomsg_body [win 0 16; win 16 16] [4%nat] [bexp [b1] 1 0 32] = true.
Proof. vm_compute. reflexivity. Qed.

(** ** The templates on all reduced values *)
Definition word_at (t : wt) (v : Z) : Z := fwval (fun _ => false) (fun _ => v) t.
Lemma w4_sweep : sweep (fun v => word_at w4 v mod 16 =? Compress 4 (v mod q)) 0 3330 = true.
Proof. vm_compute. reflexivity. Qed.
Lemma w5_sweep : sweep (fun v => word_at w5 v mod 32 =? Compress 5 (v mod q)) 0 3330 = true.
Proof. vm_compute. reflexivity. Qed.
Lemma w10_sweep : sweep (fun v => word_at w10 v mod 1024 =? Compress 10 (v mod q)) 0 3330 = true.
Proof. vm_compute. reflexivity. Qed.
Lemma w11_sweep : sweep (fun v => word_at w11 v mod 2048 =? Compress 11 (v mod q)) 0 3330 = true.
Proof. vm_compute. reflexivity. Qed.
Lemma b1_sweep : sweep (fun v => Bool.eqb (fbval (fun _ => false) (fun _ => v) b1) (Compress 1 (v mod q) =? 1)) 0 3330 = true.
Proof. vm_compute. reflexivity. Qed.

Lemma word_at_ok t v : wok t = true -> word_at t v = wval (fun _ => false) (fun _ => v) t.
Proof. intros H. now apply fast_ok. Qed.
Lemma field_sweep t d : wok t = true ->
  sweep (fun v => word_at t v mod 2 ^ Z.of_nat d =? Compress (Z.of_nat d) (v mod q)) 0 3330 = true ->
  forall v, 0 <= v <= 3329 -> bitz (fields t d) v = Compress (Z.of_nat d) (v mod q).
Proof.
  intros W S v Hv. rewrite bitz_fields, <- word_at_ok by auto.
  apply Z.eqb_eq. apply (sweep_spec _ _ _ S). lia.
Qed.
Lemma f4 v : 0 <= v <= 3329 -> bitz (fields w4 4) v = Compress 4 (v mod q).
Proof. apply (field_sweep w4 4 ltac:(vm_compute; reflexivity) w4_sweep). Qed.
Lemma f5 v : 0 <= v <= 3329 -> bitz (fields w5 5) v = Compress 5 (v mod q).
Proof. apply (field_sweep w5 5 ltac:(vm_compute; reflexivity) w5_sweep). Qed.
Lemma f10 v : 0 <= v <= 3329 -> bitz (fields w10 10) v = Compress 10 (v mod q).
Proof. apply (field_sweep w10 10 ltac:(vm_compute; reflexivity) w10_sweep). Qed.
Lemma f11 v : 0 <= v <= 3329 -> bitz (fields w11 11) v = Compress 11 (v mod q).
Proof. apply (field_sweep w11 11 ltac:(vm_compute; reflexivity) w11_sweep). Qed.
Lemma Compress1_bit x : Compress 1 x = 0 \/ Compress 1 x = 1.
Proof. unfold Compress. pose proof (Z.mod_pos_bound ((2 * 2 ^ 1 * x + q) / (2 * q)) (2 ^ 1) ltac:(lia)). lia. Qed.
Lemma f1 v : 0 <= v <= 3329 -> bitz [b1] v = Compress 1 (v mod q).
Proof.
  intros Hv. unfold bitz. cbn [map value]. rewrite Z.mul_0_r, Z.add_0_r.
  pose proof (sweep_spec _ _ _ b1_sweep v ltac:(lia)) as S. apply eqb_prop in S.
  rewrite <- (proj1 (fast_ok _ _) b1) by (vm_compute; reflexivity). rewrite S.
  destruct (Compress1_bit (v mod q)) as [E|E]; rewrite E; reflexivity.
Qed.
Global Opaque w4 w5 w10 w11 b1.

(** ** The loops *)
(** One iteration: the bytes produced from the words at [base] *)
Lemma seg_bytes Tb d a base Y m0 cnt F : length Tb = d -> (0 < d)%nat -> length F = 256%nat -> (d * base = 8 * Y)%nat ->
  (forall x, (x < 256)%nat -> bitz Tb (nth x a 0) = nth x F 0) ->
  (8 * (Y + m0 + cnt) <= d * 256)%nat ->
  words_bits 8 (map (bval (fun _ => false) (wenv a base)) (bexp Tb d (8 * m0) (8 * cnt))) = sub (ByteEncode d F) (Y + m0) cnt.
Proof.
  intros L Hd LF E H HL. rewrite (bexp_field Tb d (8 * m0) (8 * cnt) a base F); auto.
  - apply bytes_of_fields; auto. rewrite ByteEncode_length, LF. apply Nat.div_le_lower_bound; lia.
  - intros j Hj. apply H. 
    assert (j / d < 256 - base)%nat by (apply Nat.div_lt_upper_bound; nia). lia.
Qed.
Lemma splice_firstn_sub {A} (r : list A) ro E m c : (m + c <= length E)%nat -> (ro + length E <= length r)%nat ->
  splice (splice r ro (firstn m E)) (ro + m) (sub E m c) = splice r ro (firstn (m + c) E).
Proof.
  intros H1 H2. rewrite splice_splice_next.
  - f_equal. unfold sub. rewrite <- (firstn_skipn m E) at 3. rewrite firstn_app, firstn_length.
    replace (m + c - Nat.min m (length E))%nat with c by lia.
    rewrite (firstn_all2 (firstn m E)) by (rewrite firstn_length; lia). reflexivity.
  - rewrite firstn_length. lia.
  - rewrite sub_length; lia.
Qed.

Lemma LE d a : length (ByteEncode d (compressed (Z.of_nat d) a)) = (32 * d)%nat.
Proof. exact (compressed_bytes_length d a). Qed.

Ltac vstep := match goal with
  | |- wp (bind _ _) _ _ => apply wp_bind
  | |- wp (load_vec _ _) _ _ => apply wp_load_vec; [lia|]
  end.
Ltac loaded a base :=
  repeat match goal with |- context [bits_words 16 (sub a (16 * ?i) 16)] =>
    first [rewrite (win_loaded a i 0 (fun _ => false) base) by lia
          |rewrite (win_loaded a i 16 (fun _ => false) base) by lia
          |rewrite (win_loaded a i 32 (fun _ => false) base) by lia
          |rewrite (win_loaded a i 48 (fun _ => false) base) by lia] end.
Lemma bnd_at a x : bnd 0 3329 a -> 0 <= nth x a 0 <= 3329.
Proof. intros H. apply bnd_nth0; auto. lia. Qed.

Lemma poly_compress4_avx2_wp ro :
  traced (fun T => forall r a, (ro + 128 <= length r)%nat -> length a = 256%nat -> bnd 0 3329 a ->
    wp (poly_compress4_avx2 r ro a) T (fun r' => r' = splice r ro (ByteEncode 4 (compressed 4 a)))).
Proof.
  eexists. intros r a Hr La Ba. unfold poly_compress4_avx2.
  assert (HF : forall x, (x < 256)%nat -> bitz (fields w4 4) (nth x a 0) = nth x (compressed (Z.of_nat 4) a) 0).
  { intros. rewrite nth_compressed by auto. apply f4. now apply bnd_at. }
  pose proof (LE 4 a) as HL.
  change (compressed 4 a) with (compressed (Z.of_nat 4) a). set (E := ByteEncode 4 (compressed (Z.of_nat 4) a)) in *.
  eapply (wp_for _ (fun i s => s = splice r ro (firstn (32 * i) E))).
  - rewrite Nat.mul_0_r; symmetry; apply splice_nil.
  - intros i s Hi ->. repeat vstep. loaded a (64 * i)%nat.
    eapply wp_exec; [apply (check_spec _ [_; _; _; _] _ _ compress4_chk)|].
    cbn [map out nth].
    eapply wp_store_bytes.
    + apply (seg_bytes (fields w4 4) 4 a (64 * i) (32 * i) 0 32 _ (fields_length _ _) ltac:(lia) (compressed_length _ _) ltac:(lia) HF); lia.
    + rewrite sub_length, splice_firstn_length by (fold E; lia). lia.
    + fold E. rewrite Nat.add_0_r, splice_firstn_sub by lia. do 2 f_equal. lia.
  - intros s ->. now rewrite firstn_all2 by lia.
Qed.

Lemma poly_compress5_avx2_wp ro :
  traced (fun T => forall r a, (ro + 160 <= length r)%nat -> length a = 256%nat -> bnd 0 3329 a ->
    wp (poly_compress5_avx2 r ro a) T (fun r' => r' = splice r ro (ByteEncode 5 (compressed 5 a)))).
Proof.
  eexists. intros r a Hr La Ba. unfold poly_compress5_avx2.
  assert (HF : forall x, (x < 256)%nat -> bitz (fields w5 5) (nth x a 0) = nth x (compressed (Z.of_nat 5) a) 0).
  { intros. rewrite nth_compressed by auto. apply f5. now apply bnd_at. }
  pose proof (LE 5 a) as HL.
  change (compressed 5 a) with (compressed (Z.of_nat 5) a). set (E := ByteEncode 5 (compressed (Z.of_nat 5) a)) in *.
  eapply (wp_for _ (fun i s => s = splice r ro (firstn (20 * i) E))).
  - rewrite Nat.mul_0_r; symmetry; apply splice_nil.
  - intros i s Hi ->. repeat vstep. loaded a (32 * i)%nat.
    eapply wp_exec; [apply (check_spec _ [_; _] _ _ compress5_chk)|].
    cbn [map out nth]. vstep.
    eapply wp_store_bytes.
    + apply (seg_bytes (fields w5 5) 5 a (32 * i) (20 * i) 0 16 _ (fields_length _ _) ltac:(lia) (compressed_length _ _) ltac:(lia) HF); lia.
    + rewrite sub_length, splice_firstn_length by (fold E; lia). lia.
    + fold E. rewrite !Nat.add_0_r, splice_firstn_sub by lia.
      eapply wp_store_bytes.
      * apply (seg_bytes (fields w5 5) 5 a (32 * i) (20 * i) 16 4 _ (fields_length _ _) ltac:(lia) (compressed_length _ _) ltac:(lia) HF); lia.
      * rewrite sub_length, splice_firstn_length by (fold E; lia). lia.
      * fold E. rewrite <- Nat.add_assoc, splice_firstn_sub by lia. do 2 f_equal. lia.
  - intros s ->. now rewrite firstn_all2 by lia.
Qed.

Lemma poly_compress10_avx2_wp ro :
  traced (fun T => forall r a, (ro + 320 <= length r)%nat -> length a = 256%nat -> bnd 0 3329 a ->
    wp (poly_compress10_avx2 r ro a) T (fun r' => r' = splice r ro (ByteEncode 10 (compressed 10 a)))).
Proof.
  eexists. intros r a Hr La Ba. unfold poly_compress10_avx2.
  assert (HF : forall x, (x < 256)%nat -> bitz (fields w10 10) (nth x a 0) = nth x (compressed (Z.of_nat 10) a) 0).
  { intros. rewrite nth_compressed by auto. apply f10. now apply bnd_at. }
  pose proof (LE 10 a) as HL.
  change (compressed 10 a) with (compressed (Z.of_nat 10) a). set (E := ByteEncode 10 (compressed (Z.of_nat 10) a)) in *.
  eapply (wp_for _ (fun i s => s = splice r ro (firstn (20 * i) E))).
  - rewrite Nat.mul_0_r; symmetry; apply splice_nil.
  - intros i s Hi ->. repeat vstep. loaded a (16 * i)%nat.
    eapply wp_exec; [apply (check_spec _ [_] _ _ compress10_chk)|].
    cbn [map out nth]. vstep.
    eapply wp_store_bytes.
    + apply (seg_bytes (fields w10 10) 10 a (16 * i) (20 * i) 0 16 _ (fields_length _ _) ltac:(lia) (compressed_length _ _) ltac:(lia) HF); lia.
    + rewrite sub_length, splice_firstn_length by (fold E; lia). lia.
    + fold E. rewrite !Nat.add_0_r, splice_firstn_sub by lia.
      eapply wp_store_bytes.
      * apply (seg_bytes (fields w10 10) 10 a (16 * i) (20 * i) 16 4 _ (fields_length _ _) ltac:(lia) (compressed_length _ _) ltac:(lia) HF); lia.
      * rewrite sub_length, splice_firstn_length by (fold E; lia). lia.
      * fold E. rewrite <- Nat.add_assoc, splice_firstn_sub by lia. do 2 f_equal. lia.
  - intros s ->. now rewrite firstn_all2 by lia.
Qed.

(** Two zero bytes are written after the 352 bytes. *)
Lemma words_bits_app8 x y m : length x = (8 * m)%nat -> words_bits 8 (x ++ y) = words_bits 8 x ++ words_bits 8 y.
Proof.
  intros L. unfold words_bits. rewrite <- map_app. f_equal. unfold chunks.
  rewrite app_length, L, (Nat.mul_comm 8), Nat.div_mul, Nat.div_add_l by lia. rewrite seq_app, map_app. f_equal.
  - apply map_ext_in. intros i Hi. apply in_seq in Hi. rewrite skipn_app, firstn_app, skipn_length, L.
    replace (8 - (8 * m - i * 8))%nat with 0%nat by lia. cbn [firstn]. apply app_nil_r.
  - cbn [Nat.add]. 
    apply (nth_ext _ _ [] []); [now rewrite !map_length, !seq_length|]. intros i Hi. rewrite map_length, seq_length in Hi.
    rewrite (nth_indep _ [] (firstn 8 (skipn (0 * 8) (x ++ y)))) by (now rewrite map_length, seq_length).
    rewrite (map_nth (fun i => firstn 8 (skipn (i * 8) (x ++ y)))), seq_nth by auto.
    symmetry. rewrite (nth_indep _ [] (firstn 8 (skipn (0 * 8) y))) by (now rewrite map_length, seq_length).
    rewrite (map_nth (fun i => firstn 8 (skipn (i * 8) y))), seq_nth by auto.
    rewrite skipn_app, (skipn_all2 x) by lia. cbn [app]. rewrite ?L. do 2 f_equal; lia.
Qed.
Lemma poly_compress11_avx2_wp ro :
  traced (fun T => forall r a, (ro + 354 <= length r)%nat -> length a = 256%nat -> bnd 0 3329 a ->
    wp (poly_compress11_avx2 r ro a) T (fun r' => r' = splice r ro (ByteEncode 11 (compressed 11 a) ++ [0; 0]))).
Proof.
  eexists. intros r a Hr La Ba. unfold poly_compress11_avx2.
  assert (HF : forall x, (x < 256)%nat -> bitz (fields w11 11) (nth x a 0) = nth x (compressed (Z.of_nat 11) a) 0).
  { intros. rewrite nth_compressed by auto. apply f11. now apply bnd_at. }
  pose proof (LE 11 a) as HL.
  change (compressed 11 a) with (compressed (Z.of_nat 11) a). set (E := ByteEncode 11 (compressed (Z.of_nat 11) a)) in *.
  eapply (wp_for _ (fun i s => exists z, (length z <= 2)%nat /\ s = splice r ro (firstn (22 * i) E ++ z) /\ (i = 16%nat -> z = [0; 0]))).
  - exists []. split; [cbn; lia|]. split; [|lia]. rewrite Nat.mul_0_r; symmetry; apply splice_nil.
  - intros i s Hi (z & Lz & -> & _). repeat vstep. loaded a (16 * i)%nat.
    eapply wp_exec; [apply (check_spec _ [_] _ _ compress11_chk)|].
    cbn [map out nth]. vstep.
    assert (LF : length (firstn (22 * i) E) = (22 * i)%nat) by (rewrite firstn_length; lia).
    assert (L1 : length (splice r ro (firstn (22 * i) E ++ z)) = length r) by (apply splice_length; rewrite app_length; lia).
    eapply wp_store_bytes.
    + apply (seg_bytes (fields w11 11) 11 a (16 * i) (22 * i) 0 16 _ (fields_length _ _) ltac:(lia) (compressed_length _ _) ltac:(lia) HF); lia.
    + rewrite sub_length by (fold E; lia). lia.
    + fold E. rewrite !Nat.add_0_r. rewrite <- LF at 2. rewrite splice_over by (rewrite ?sub_length, ?LF; lia).
      replace (firstn (22 * i) E ++ sub E (22 * i) 16) with (firstn (22 * i + 16) E).
      2:{ unfold sub. rewrite <- (firstn_skipn (22 * i) E) at 1. rewrite firstn_app, LF.
          rewrite (firstn_all2 (firstn (22 * i) E)) by lia. do 2 f_equal. lia. }
      eapply wp_store_bytes.
      * rewrite map_app, (words_bits_app8 _ _ 6) by (rewrite map_length; unfold bexp; now rewrite map_length, seq_length).
        change 128%nat with (8 * 16)%nat; change 48%nat with (8 * 6)%nat.
        rewrite (seg_bytes (fields w11 11) 11 a (16 * i) (22 * i) 16 6 _ (fields_length _ _) ltac:(lia) (compressed_length _ _) ltac:(lia) HF) by lia.
        change (words_bits 8 (map (bval (fun _ => false) (wenv a (16 * i))) (repeat B0 16))) with [0; 0]. reflexivity.
      * rewrite app_length, sub_length, splice_firstn_length by (fold E; lia). cbn [length]. lia.
      * exists [0; 0]. split; [cbn; lia|]. split; [|auto]. fold E.
        rewrite splice_splice_next.
        -- f_equal. rewrite app_assoc. f_equal. rewrite <- (firstn_skipn (22 * i + 16) (firstn (22 * S i) E)).
           rewrite firstn_firstn. f_equal; [f_equal; lia|]. rewrite skipn_firstn_comm. unfold sub. f_equal. lia.
        -- rewrite firstn_length. lia.
        -- rewrite app_length, sub_length by lia. cbn [length]. lia.
  - intros s (z & _ & -> & Z0). rewrite (Z0 eq_refl). now rewrite firstn_all2 by lia.
Qed.

Lemma poly_compress_avx2_wp lv ro :
  traced (fun T => forall r a, (ro + KYBER_POLYCOMPRESSEDBYTES lv <= length r)%nat -> length a = 256%nat -> bnd 0 3329 a ->
    wp (poly_compress_avx2 lv r ro a) T
       (fun r' => r' = splice r ro (ByteEncode (dv (PS lv)) (compressed (Z.of_nat (dv (PS lv))) a)))).
Proof.
  destruct lv; [exact (poly_compress4_avx2_wp ro)|exact (poly_compress4_avx2_wp ro)|exact (poly_compress5_avx2_wp ro)].
Qed.

Lemma poly_tomsg_avx2_wp mo :
  traced (fun T => forall msg a, (mo + 32 <= length msg)%nat -> length a = 256%nat -> bnd 0 3329 a ->
    wp (poly_tomsg_avx2 msg mo a) T (fun m' => m' = splice msg mo (ByteEncode 1 (compressed 1 a)))).
Proof.
  eexists. intros r a Hr La Ba. unfold poly_tomsg_avx2.
  assert (HF : forall x, (x < 256)%nat -> bitz [b1] (nth x a 0) = nth x (compressed (Z.of_nat 1) a) 0).
  { intros. rewrite nth_compressed by auto. apply f1. now apply bnd_at. }
  pose proof (LE 1 a) as HL.
  change (compressed 1 a) with (compressed (Z.of_nat 1) a). set (E := ByteEncode 1 (compressed (Z.of_nat 1) a)) in *.
  eapply (wp_for _ (fun i s => s = splice r mo (firstn (4 * i) E))).
  - rewrite Nat.mul_0_r; symmetry; apply splice_nil.
  - intros i s Hi ->. repeat vstep. loaded a (32 * i)%nat.
    eapply wp_exec; [apply (check_spec _ [_; _] _ _ tomsg_chk)|].
    cbn [map out nth].
    eapply wp_store_bytes.
    + apply (seg_bytes [b1] 1 a (32 * i) (4 * i) 0 4 _ eq_refl ltac:(lia) (compressed_length _ _) ltac:(lia) HF); lia.
    + rewrite sub_length, splice_firstn_length by (fold E; lia). lia.
    + fold E. rewrite Nat.add_0_r, splice_firstn_sub by lia. do 2 f_equal. lia.
  - intros s ->. now rewrite firstn_all2 by lia.
Qed.
