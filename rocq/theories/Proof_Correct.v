(** * K-PKE.Decrypt undoes K-PKE.Encrypt when the noise is in the window *)
From Coq Require Import ZArith List Lia Bool.
From Verif Require Import CMonad WP Modq Sums Proof_Base Proof_Bits Levels Model_Params Spec_FIPS202 Spec_FIPS203 Spec_Noise
  Proof_NTTSpec Proof_RingMul Proof_Polyvec Proof_Compress Proof_Codec Proof_GenMatrix Proof_Indcpa Proof_Keypair Proof_Encrypt Proof_Kem.
Import ListNotations.
Open Scope Z_scope.

(** ** Linearity *)
Lemma padd_nth f g i : (i < 256)%nat -> nth i (padd f g) 0 ≡ nth i f 0 + nth i g 0.
Proof. intros. unfold padd. rewrite nth_mkpoly by auto. change q with 3329. rewrite cong_mod. reflexivity. Qed.
Lemma psub_nth f g i : (i < 256)%nat -> nth i (psub f g) 0 ≡ nth i f 0 - nth i g 0.
Proof. intros. unfold psub. rewrite nth_mkpoly by auto. change q with 3329. rewrite cong_mod. reflexivity. Qed.

Lemma padd_lcong f f' g g' : lcong f f' -> lcong g g' -> padd f g = padd f' g'.
Proof.
  intros A B. apply canon_eq; try apply padd_canon. split; [now rewrite !padd_length|]. intros i Hi.
  rewrite padd_length in Hi. rewrite !padd_nth by auto. now rewrite (lcong_nth _ _ i A), (lcong_nth _ _ i B).
Qed.

Lemma NTT_padd f g : NTT (padd f g) = padd (NTT f) (NTT g).
Proof.
  apply canon_eq; [apply NTT_canon|apply padd_canon|].
  apply lcong_parity; [apply NTT_length|apply padd_length|]. intros c b Hc Hb.
  rewrite padd_nth by (destruct Hb; lia). rewrite !NTT_nth by auto. change q with 3329. rewrite !cong_mod.
  unfold ntt_sum. rewrite <- sumz_plus. apply sumz_cong. intros j Hj. unfold coef.
  rewrite padd_nth by (destruct Hb; lia). apply cong_eq. lia.
Qed.

Lemma NTTinv_padd f g : NTTinv (padd f g) = padd (NTTinv f) (NTTinv g).
Proof.
  apply canon_eq; [apply NTTinv_canon|apply padd_canon|].
  apply lcong_parity; [apply NTTinv_length|apply padd_length|]. intros c b Hc Hb.
  rewrite padd_nth by (destruct Hb; lia). rewrite !NTTinv_nth by auto. change q with 3329. rewrite !cong_mod.
  unfold invntt_sum.
  rewrite <- Z.mul_add_distr_l, <- sumz_plus.
  rewrite (sumz_cong 128 (fun i => coef (padd f g) (2 * i + b) * gamma_inv i ^ Z.of_nat c)
     (fun i => coef f (2 * i + b) * gamma_inv i ^ Z.of_nat c + coef g (2 * i + b) * gamma_inv i ^ Z.of_nat c)); [reflexivity|].
  intros j Hj. unfold coef. rewrite padd_nth by (destruct Hb; lia). apply cong_eq. lia.
Qed.

Lemma NTTinv_pzero : NTTinv pzero = pzero.
Proof.
  apply canon_eq; [apply NTTinv_canon|apply mkpoly_canon; intros; split; [apply Z.le_refl|reflexivity]|].
  apply lcong_parity; [apply NTTinv_length|apply mkpoly_length|]. intros c b Hc Hb.
  rewrite NTTinv_nth by auto. change q with 3329. rewrite cong_mod. unfold invntt_sum.
  rewrite sumz_0; [|intros i Hi; unfold coef, pzero; rewrite nth_mkpoly by (destruct Hb; lia); reflexivity].
  unfold pzero. rewrite nth_mkpoly by (destruct Hb; lia). reflexivity.
Qed.

Lemma NTTinv_dot x : forall y, length x = length y ->
  NTTinv (ntt_dot (map NTT x) (map NTT y)) = ring_dot x y.
Proof.
  induction x as [|f x IH]; intros [|g y] L; try discriminate; cbn [map ntt_dot ring_dot]; [apply NTTinv_pzero|].
  rewrite NTTinv_padd, NTTinv_MultiplyNTTs, IH; [reflexivity|]. cbn in L. lia.
Qed.

Lemma MultiplyNTTs_padd_r f g h : MultiplyNTTs f (padd g h) = padd (MultiplyNTTs f g) (MultiplyNTTs f h).
Proof.
  apply canon_eq; [apply MultiplyNTTs_canon|apply padd_canon|].
  apply lcong_parity; [apply MultiplyNTTs_canon|apply padd_length|]. intros c b Hc Hb.
  rewrite padd_nth by (destruct Hb; lia). rewrite !MultiplyNTTs_nth by auto.
  destruct Hb as [->| ->]; cbn [Nat.eqb]; change q with 3329; rewrite !cong_mod; unfold coef;
  rewrite !padd_nth by lia; apply cong_eq; lia.
Qed.
Lemma MultiplyNTTs_comm f g : MultiplyNTTs f g = MultiplyNTTs g f.
Proof.
  apply canon_eq; try apply MultiplyNTTs_canon.
  apply lcong_parity; try apply MultiplyNTTs_canon. intros c b Hc Hb.
  rewrite !MultiplyNTTs_nth by auto.
  destruct Hb as [->| ->]; cbn [Nat.eqb]; change q with 3329; rewrite !cong_mod; apply cong_eq; lia.
Qed.
Lemma MultiplyNTTs_padd_l f g h : MultiplyNTTs (padd f g) h = padd (MultiplyNTTs f h) (MultiplyNTTs g h).
Proof. now rewrite MultiplyNTTs_comm, MultiplyNTTs_padd_r, !(MultiplyNTTs_comm h). Qed.
Lemma MultiplyNTTs_assoc f g h : MultiplyNTTs f (MultiplyNTTs g h) = MultiplyNTTs (MultiplyNTTs f g) h.
Proof.
  apply canon_eq; try apply MultiplyNTTs_canon.
  apply lcong_parity; try apply MultiplyNTTs_canon. intros c b Hc Hb.
  rewrite (MultiplyNTTs_nth f), (MultiplyNTTs_nth _ h) by auto.
  assert (E : forall x y b, (b = 0 \/ b = 1)%nat -> coef (MultiplyNTTs x y) (2 * c + b) ≡
     if (b =? 0)%nat then coef x (2 * c) * coef y (2 * c) + coef x (2 * c + 1) * coef y (2 * c + 1) * gamma c
     else coef x (2 * c) * coef y (2 * c + 1) + coef x (2 * c + 1) * coef y (2 * c)).
  { intros x y b0 Hb0. unfold coef at 1. rewrite MultiplyNTTs_nth by auto.
    destruct Hb0 as [->| ->]; cbn [Nat.eqb]; change q with 3329; now rewrite cong_mod. }
  assert (E0 : forall x y, coef (MultiplyNTTs x y) (2 * c) ≡ coef x (2 * c) * coef y (2 * c) + coef x (2 * c + 1) * coef y (2 * c + 1) * gamma c).
  { intros x y. rewrite <- (Nat.add_0_r (2 * c)) at 1. apply (E x y 0%nat). now left. }
  assert (E1 : forall x y, coef (MultiplyNTTs x y) (2 * c + 1) ≡ coef x (2 * c) * coef y (2 * c + 1) + coef x (2 * c + 1) * coef y (2 * c)).
  { intros x y. apply (E x y 1%nat). now right. }
  destruct Hb as [->| ->]; cbn [Nat.eqb]; change q with 3329; rewrite !cong_mod, !E0, !E1; apply cong_eq; ring.
Qed.

Lemma padd_comm f g : padd f g = padd g f.
Proof.
  apply canon_eq; try apply padd_canon. split; [now rewrite !padd_length|]. intros i Hi. rewrite padd_length in Hi.
  rewrite !padd_nth by auto. apply cong_eq. lia.
Qed.
Lemma padd_assoc f g h : padd f (padd g h) = padd (padd f g) h.
Proof.
  apply canon_eq; try apply padd_canon. split; [now rewrite !padd_length|]. intros i Hi. rewrite padd_length in Hi.
  rewrite !padd_nth by auto. apply cong_eq. lia.
Qed.
Lemma padd_swap a b c d : padd (padd a b) (padd c d) = padd (padd a c) (padd b d).
Proof. now rewrite <- !padd_assoc, (padd_assoc b), (padd_comm b c), <- (padd_assoc c). Qed.

Lemma padd_0_0 : padd pzero pzero = pzero.
Proof.
  apply canon_eq; [apply padd_canon|apply mkpoly_canon; intros; split; [apply Z.le_refl|reflexivity]|].
  split; [reflexivity|]. intros i Hi. rewrite padd_length in Hi. rewrite padd_nth by auto.
  unfold pzero. rewrite nth_mkpoly by auto. reflexivity.
Qed.

Lemma ntt_dot_add_r a : forall b c, length a = length b -> length a = length c ->
  ntt_dot a (zipadd b c) = padd (ntt_dot a b) (ntt_dot a c).
Proof.
  induction a as [|f a IH]; intros [|g b] [|h c] L1 L2; try discriminate; cbn [zipadd ntt_dot]; [symmetry; apply padd_0_0|].
  rewrite MultiplyNTTs_padd_r, IH by (cbn in *; lia). apply padd_swap.
Qed.
Lemma ntt_dot_add_l a : forall b c, length a = length b -> length a = length c ->
  ntt_dot (zipadd a b) c = padd (ntt_dot a c) (ntt_dot b c).
Proof.
  induction a as [|f a IH]; intros [|g b] [|h c] L1 L2; try discriminate; cbn [zipadd ntt_dot]; [symmetry; apply padd_0_0|].
  rewrite MultiplyNTTs_padd_l, IH by (cbn in *; lia). apply padd_swap.
Qed.

(** ** (A s) . y = s . (A^T y) *)
Lemma MultiplyNTTs_0 g j : (j < 256)%nat -> nth j (MultiplyNTTs pzero g) 0 ≡ 0.
Proof.
  intros Hj. destruct (nat_parity j) as (c & b & -> & Hb & _).
  rewrite MultiplyNTTs_nth by (auto; destruct Hb; lia). unfold coef, pzero.
  rewrite !nth_mkpoly by (destruct Hb; lia).
  destruct (b =? 0)%nat; change q with 3329; rewrite cong_mod; apply cong_eq; lia.
Qed.

Lemma MultiplyNTTs_dot_l a : forall b c j, length a = length b -> (j < 256)%nat ->
  nth j (MultiplyNTTs (ntt_dot a b) c) 0 ≡
  sumz (length a) (fun l => nth j (MultiplyNTTs (MultiplyNTTs (nth l a []) (nth l b [])) c) 0).
Proof.
  induction a as [|f a IH]; intros [|g b] c j L Hj; try discriminate.
  - cbn [ntt_dot length]. rewrite sumz_O. now apply MultiplyNTTs_0.
  - cbn [ntt_dot length]. rewrite MultiplyNTTs_padd_l, padd_nth by auto. rewrite sumz_first. cbn [nth].
    rewrite IH by (cbn in L; auto; lia). reflexivity.
Qed.

Lemma transpose_nth P A i j : (i < k P)%nat -> (j < k P)%nat ->
  nth j (nth i (transpose P A) []) [] = nth i (nth j A []) [].
Proof.
  intros Hi Hj. unfold transpose. rewrite <- !mk_seq. rewrite nth_mk by auto.
  rewrite <- (mk_seq (k P) (fun j => nth i (nth j A []) [])). now rewrite nth_mk.
Qed.
Lemma transpose_length P A : length (transpose P A) = k P.
Proof. unfold transpose. now rewrite map_length, seq_length. Qed.
Lemma transpose_row_length P A i : (i < k P)%nat -> length (nth i (transpose P A) []) = k P.
Proof. intros Hi. unfold transpose. rewrite <- mk_seq. rewrite nth_mk by auto. now rewrite map_length, seq_length. Qed.

Lemma matrix_dot P A s y : length A = k P -> (forall i, (i < k P)%nat -> length (nth i A []) = k P) ->
  length s = k P -> length y = k P ->
  ntt_dot (map (fun row => ntt_dot row s) A) y = ntt_dot s (map (fun row => ntt_dot row y) (transpose P A)).
Proof.
  intros LA LR Ls Ly. apply canon_eq; try apply ntt_dot_canon.
  split; [now rewrite !ntt_dot_length|]. intros j Hj. rewrite ntt_dot_length in Hj.
  rewrite !ntt_dot_nth by (rewrite ?map_length, ?transpose_length; auto; congruence).
  rewrite map_length, LA, Ls.
  transitivity (sumz (k P) (fun i => sumz (k P) (fun l => nth j (MultiplyNTTs (MultiplyNTTs (nth l (nth i A []) []) (nth l s [])) (nth i y [])) 0))).
  { apply sumz_cong. intros i Hi. rewrite (map_nth_lt (fun row => ntt_dot row s) A i [] []) by lia.
    rewrite MultiplyNTTs_dot_l by (rewrite ?LR; auto). rewrite LR by auto. reflexivity. }
  rewrite sumz_swap. apply sumz_cong. intros l Hl.
  rewrite (map_nth_lt (fun row => ntt_dot row y) (transpose P A) l [] []) by (now rewrite transpose_length).
  rewrite MultiplyNTTs_comm. rewrite MultiplyNTTs_dot_l by (rewrite ?transpose_row_length; auto).
  rewrite transpose_row_length by auto. apply sumz_cong. intros i Hi. rewrite transpose_nth by auto.
  apply cong_eq. f_equal. rewrite <- !MultiplyNTTs_assoc. f_equal. apply MultiplyNTTs_comm.
Qed.

(** ** Decoding what was encoded *)
Lemma sub_flat_map {A} (g : A -> list Z) m (v : list A) (d : A) i : (forall x, In x v -> length (g x) = m) -> (i < length v)%nat ->
  sub (flat_map g v) (m * i) m = g (nth i v d).
Proof.
  revert i. induction v as [|x v IH]; intros i Lg Hi; cbn [length] in Hi; [lia|]. cbn [flat_map nth].
  assert (Lx : length (g x) = m) by (apply Lg; now left).
  destruct i as [|i].
  - rewrite Nat.mul_0_r. now apply sub_app_l.
  - unfold sub. rewrite skipn_app, skipn_all2 by lia. cbn [app]. rewrite Lx.
    replace (m * S i - m)%nat with (m * i)%nat by lia. apply IH; [|lia]. intros y Hy. apply Lg. now right.
Qed.

Definition dmod (d : nat) : Z := if (d =? 12)%nat then q else 2 ^ Z.of_nat d.

Lemma ByteDecode_ByteEncode d F : length F = 256%nat -> (forall i, (i < 256)%nat -> 0 <= nth i F 0 < dmod d) ->
  ByteDecode d (ByteEncode d F) = F.
Proof.
  intros L R. apply (list_eq_nth 0); [now rewrite ByteDecode_length|]. rewrite ByteDecode_length. intros i Hi.
  assert (Rd : dmod d <= 2 ^ Z.of_nat d).
  { unfold dmod. destruct (Nat.eqb_spec d 12) as [->|]; [vm_compute; discriminate|lia]. }
  specialize (R i Hi). rewrite ByteDecode_field by auto. rewrite field_ByteEncode.
  - fold (dmod d). apply Z.mod_small. exact R.
  - rewrite ByteEncode_256 by exact L. lia.
  - lia.
  - lia.
Qed.

Lemma decode_vec_encode P d v rest : length v = k P ->
  (forall x, In x v -> length x = 256%nat /\ forall i, (i < 256)%nat -> 0 <= nth i x 0 < dmod d) ->
  decode_vec P d (firstn (32 * d * k P) (flat_map (ByteEncode d) v ++ rest)) = v.
Proof.
  intros L R.
  assert (Lf : length (flat_map (ByteEncode d) v) = (32 * d * k P)%nat).
  { rewrite (flat_map_len _ _ (32 * d)); [lia|]. intros x Hx. apply ByteEncode_256. now apply R. }
  rewrite <- Lf. rewrite firstn_app, Nat.sub_diag, firstn_all. cbn [firstn]. rewrite app_nil_r.
  apply (list_eq_nth []); [now rewrite decode_vec_length|]. rewrite decode_vec_length. intros i Hi.
  rewrite decode_vec_nth by auto.
  rewrite (sub_flat_map (ByteEncode d) (32 * d) v [] i); [|intros x Hx; apply ByteEncode_256; now apply R|lia].
  assert (Hin : In (nth i v []) v) by (apply nth_In; lia). destruct (R _ Hin). now apply ByteDecode_ByteEncode.
Qed.

(** ** The message survives noise within [-832, 831] *)
Lemma Compress1_noise b c x : b = 0 \/ b = 1 -> 0 <= x < q -> -832 <= c <= 831 ->
  x ≡ Decompress 1 b + c -> Compress 1 x = b.
Proof.
  intros Hb Hx Hc E. rewrite Compress_floor by lia. rewrite Decompress_floor in E by lia.
  change (2 ^ 1) with 2 in *. change (2 ^ (1 - 1)) with 1 in *. unfold q in Hx.
  destruct E as [z E].
  destruct Hb as [->| ->].
  - change ((3329 * 0 + 1) / 2) with 0 in E.
    assert (x <= 831 \/ 2497 <= x) by lia.
    destruct H.
    + rewrite (Z.div_small (2 * x + 1664)) by lia. reflexivity.
    + replace ((2 * x + 1664) / 3329) with 2; [reflexivity|]. apply (Z.div_unique _ 3329 2 (2 * x + 1664 - 6658)); lia.
  - change ((3329 * 1 + 1) / 2) with 1665 in E. assert (833 <= x <= 2496) by lia.
    replace ((2 * x + 1664) / 3329) with 1; [reflexivity|]. apply (Z.div_unique _ 3329 1 (2 * x + 1664 - 3329)); lia.
Qed.

Lemma centred_cong x : centred x ≡ x.
Proof. unfold centred. destruct (2 * x <? q); [reflexivity|]. exists (-1). unfold q. lia. Qed.

Lemma Compress1_exact b c x : b = 0 \/ b = 1 -> 0 <= x < q -> -1664 <= c <= 1664 ->
  x ≡ Decompress 1 b + c -> (Compress 1 x = b <-> -832 <= c <= (if b =? 1 then 831 else 832)).
Proof.
  intros Hb Hx Hc E. rewrite Compress_floor by lia. rewrite Decompress_floor in E by lia.
  change (2 ^ 1) with 2 in *. change (2 ^ (1 - 1)) with 1 in *. unfold q in Hx.
  destruct E as [z E].
  destruct Hb as [->| ->].
  - change ((3329 * 0 + 1) / 2) with 0 in E. change (0 =? 1) with false. cbv iota.
    assert (C : x <= 832 \/ 833 <= x <= 2496 \/ 2497 <= x) by lia. destruct C as [C|[C|C]].
    + rewrite (Z.div_small (2 * x + 1664)) by lia. change (0 mod 2) with 0. split; [|reflexivity]. intros _. lia.
    + replace ((2 * x + 1664) / 3329) with 1; [|apply (Z.div_unique _ 3329 1 (2 * x + 1664 - 3329)); lia].
      change (1 mod 2) with 1. split; [discriminate|]. intros W. exfalso. lia.
    + replace ((2 * x + 1664) / 3329) with 2; [|apply (Z.div_unique _ 3329 2 (2 * x + 1664 - 6658)); lia].
      change (2 mod 2) with 0. split; [|reflexivity]. intros _. lia.
  - change ((3329 * 1 + 1) / 2) with 1665 in E. change (1 =? 1) with true. cbv iota.
    assert (C : x <= 832 \/ 833 <= x <= 2496 \/ 2497 <= x) by lia. destruct C as [C|[C|C]].
    + rewrite (Z.div_small (2 * x + 1664)) by lia. change (0 mod 2) with 0. split; [discriminate|]. intros W. exfalso. lia.
    + replace ((2 * x + 1664) / 3329) with 1; [|apply (Z.div_unique _ 3329 1 (2 * x + 1664 - 3329)); lia].
      change (1 mod 2) with 1. split; [|reflexivity]. intros _. lia.
    + replace ((2 * x + 1664) / 3329) with 2; [|apply (Z.div_unique _ 3329 2 (2 * x + 1664 - 6658)); lia].
      change (2 mod 2) with 0. split; [discriminate|]. intros W. exfalso. lia.
Qed.

Lemma compressed_range d f i : (d <> 12)%nat -> 0 <= nth i (map (Compress (Z.of_nat d)) f) 0 < dmod d.
Proof.
  intros Hd. unfold dmod. rewrite (proj2 (Nat.eqb_neq d 12)) by auto.
  destruct (Nat.lt_ge_cases i (length f)) as [L|L].
  - rewrite (map_nth_lt _ f i 0 0) by auto. apply Compress_range. lia.
  - rewrite nth_overflow by (now rewrite map_length). split; [lia|]. apply Z.pow_pos_nonneg; lia.
Qed.

Lemma centred_range x : 0 <= x < q -> -1664 <= centred x <= 1664.
Proof. unfold centred, q. intros R. destruct (Z.ltb_spec (2 * x) 3329); lia. Qed.

Lemma message_exact m wv nz : bytes m -> length m = 32%nat -> canon wv -> canon nz ->
  (forall i, (i < 256)%nat -> nth i wv 0 ≡ nth i (map (Decompress 1) (ByteDecode 1 m)) 0 + nth i nz 0) ->
  (ByteEncode 1 (map (Compress 1) wv) = m <-> noise_decodes m nz).
Proof.
  intros Bm Lm [Lw Rw] [Ln Rn] E.
  assert (EQ : ByteEncode 1 (map (Compress 1) wv) = m <-> map (Compress 1) wv = mk 256 (field 1 m)).
  { assert (EF : ByteEncode 1 (mk 256 (field 1 m)) = m) by (apply ByteEncode_field; [lia|lia|exact Bm]).
    split; [|now intros ->]. rewrite <- EF at 1.
    intros X. apply (f_equal (ByteDecode 1)) in X. rewrite !ByteDecode_ByteEncode in X; auto; rewrite ?mk_length, ?map_length; auto.
    - intros i Hi. rewrite nth_mk by auto. apply (field_range 1).
    - intros i Hi. apply (compressed_range 1). lia. }
  rewrite EQ. unfold noise_decodes.
  assert (P : forall i, (i < 256)%nat -> (nth i (map (Compress 1) wv) 0 = field 1 m i <->
    -832 <= centred (nth i nz 0) <= (if nth i (ByteDecode 1 m) 0 =? 1 then 831 else 832))).
  { intros i Hi. rewrite (map_nth_lt (Compress 1) wv i 0 0) by lia.
    specialize (E i Hi). rewrite (map_nth_lt (Decompress 1) (ByteDecode 1 m) i 0 0) in E by (now rewrite ByteDecode_length).
    rewrite ByteDecode_small in * by (auto; lia).
    pose proof (field_range 1 m i) as R. change (2 ^ Z.of_nat 1) with 2 in R.
    apply Compress1_exact; [lia|now apply Rw|apply centred_range; now apply Rn|]. now rewrite centred_cong. }
  split.
  - intros X i Hi. apply P; [exact Hi|]. rewrite X. now rewrite nth_mk.
  - intros X. apply (list_eq_nth 0); [now rewrite map_length, mk_length|]. rewrite map_length, Lw. intros i Hi.
    rewrite nth_mk by auto. apply P; [exact Hi|]. now apply X.
Qed.

(** ** The noise identity *)
Lemma NTT_rounded X e u u' : length X = 256%nat -> canon X -> length u' = 256%nat -> u = padd (NTTinv X) e ->
  NTT u' = padd X (NTT (padd e (psub u' u))).
Proof.
  intros LX CX Lu Eu.
  assert (EX : X = NTT (NTTinv X)).
  { apply canon_eq; [exact CX|apply NTT_canon|]. apply lcong_sym. now apply NTT_NTTinv. }
  rewrite EX at 1. rewrite <- NTT_padd. apply NTT_cong. split; [now rewrite padd_length|]. rewrite Lu. intros i Hi.
  rewrite !padd_nth, psub_nth by auto. rewrite Eu, padd_nth by auto. apply cong_eq. lia.
Qed.

Lemma zipsub_length a : forall b, length a = length b -> length (zipsub a b) = length a.
Proof. induction a as [|f a IH]; intros [|g b] L; try discriminate; cbn [zipsub length] in *; [reflexivity|]. f_equal. apply IH. lia. Qed.

Lemma vec_rounded X : forall e f, length X = length e -> (forall x, In x X -> canon x) -> (forall x, length (f x) = length x) ->
  let u := zipadd (map NTTinv X) e in
  map NTT (map f u) = zipadd X (map NTT (zipadd e (zipsub (map f u) u))).
Proof.
  induction X as [|x X IH]; intros [|e es] f L C Lf; try discriminate; [reflexivity|].
  cbv zeta. cbn [map zipadd zipsub]. f_equal.
  - assert (Cx : canon x) by (apply C; now left).
    apply NTT_rounded; [apply Cx|exact Cx|rewrite Lf; apply padd_length|reflexivity].
  - apply (IH es f); [cbn in L; lia|intros y Hy; apply C; now right|exact Lf].
Qed.

Lemma rounded_length d f : length (rounded d f) = length f.
Proof. apply map_length. Qed.

Lemma PS_du lv : du (PS lv) = 10%nat \/ du (PS lv) = 11%nat.
Proof. destruct lv; cbn; auto. Qed.
Lemma PS_dv lv : dv (PS lv) = 4%nat \/ dv (PS lv) = 5%nat.
Proof. destruct lv; cbn; auto. Qed.

Lemma In_nth_ex {A} (l : list A) x d : In x l -> exists i, (i < length l)%nat /\ nth i l d = x.
Proof. apply In_nth. Qed.

Lemma flat_map_map {A B C} (f : B -> list C) (g : A -> B) l : flat_map f (map g l) = flat_map (fun x => f (g x)) l.
Proof. induction l; cbn; congruence. Qed.

Lemma decode_key P v rest : length v = k P -> (forall x, In x v -> canon x) ->
  decode_vec P 12 (firstn (384 * k P) (flat_map (ByteEncode 12) v ++ rest)) = v.
Proof. intros L C. apply (decode_vec_encode P 12 v rest L). intros x Hx. exact (C x Hx). Qed.

Lemma decode_key_all P v : length v = k P -> (forall x, In x v -> canon x) ->
  decode_vec P 12 (flat_map (ByteEncode 12) v) = v.
Proof.
  intros L C. rewrite <- (decode_key P v [] L C) at 2. rewrite app_nil_r, firstn_all2; [reflexivity|].
  rewrite (flat_map_len _ _ (32 * 12)); [lia|]. intros x Hx. apply ByteEncode_256. now apply C.
Qed.

Lemma map_canon {A} (g : A -> list Z) l x : (forall y, canon (g y)) -> In x (map g l) -> canon x.
Proof. intros C Hx. apply in_map_iff in Hx. destruct Hx as (y & <- & _). apply C. Qed.
Lemma zipadd_canon a b x : In x (zipadd a b) -> canon x.
Proof.
  revert b. induction a as [|y a IH]; intros [|z b]; cbn [zipadd]; try contradiction.
  intros [<-|HI]; [apply padd_canon|eauto].
Qed.

Lemma Decrypt_Encrypt_iff lv A d m r : let P := PS lv in
  length A = k P -> (forall i, (i < k P)%nat -> length (nth i A []) = k P) ->
  bytes m -> length m = 32%nat ->
  (K_PKE_Decrypt P (snd (K_PKE_KeyGen P A d)) (K_PKE_Encrypt P A (fst (K_PKE_KeyGen P A d)) m r) = m <->
   noise_decodes m (decryption_noise P A d m r)).
Proof.
  intros P LA LR Bm Lm. unfold K_PKE_Decrypt, K_PKE_Encrypt, K_PKE_KeyGen. cbv zeta. cbn [fst snd].
  unfold decryption_noise. cbv zeta.
  set (s := noise (eta1 P) (keygen_sigma P d) 0 (k P)) in *.
  set (e := noise (eta1 P) (keygen_sigma P d) (k P) (k P)) in *.
  set (y := noise (eta1 P) r 0 (k P)) in *.
  set (e1 := noise (eta2 P) r (k P) (k P)) in *.
  set (e2 := nth 0 (noise (eta2 P) r (2 * k P) 1) []) in *.
  set (t := zipadd (map (fun row => ntt_dot row (map NTT s)) A) (map NTT e)) in *.
  set (mu := map (Decompress 1) (ByteDecode 1 m)) in *.
  assert (Ls : length s = k P) by apply noise_length.
  assert (Le : length e = k P) by apply noise_length.
  assert (Ly : length y = k P) by apply noise_length.
  assert (Le1 : length e1 = k P) by apply noise_length.
  set (X := map (fun row => ntt_dot row (map NTT y)) (transpose P A)) in *.
  assert (LX : length X = k P) by (unfold X; rewrite map_length; apply transpose_length).
  assert (EU : map (fun row => NTTinv (ntt_dot row (map NTT y))) (transpose P A) = map NTTinv X).
  { unfold X. now rewrite map_map. }
  rewrite EU in *. clear EU.
  set (u := zipadd (map NTTinv X) e1) in *.
  assert (Lu : length u = k P) by (unfold u; rewrite zipadd_length; rewrite map_length; congruence).
  assert (Lt : length t = k P) by (unfold t; rewrite zipadd_length; rewrite !map_length; congruence).
  rewrite (decode_key P t) by (auto; intros x Hx; unfold t in Hx; eapply zipadd_canon; eauto).
  rewrite (decode_key_all P (map NTT s)); [|now rewrite map_length|intros x Hx; apply (map_canon NTT s x NTT_canon Hx)].
  set (v := padd (padd (NTTinv (ntt_dot t (map NTT y))) e2) mu) in *.
  (* the ciphertext components *)
  assert (Dd : du P <> 12%nat) by (destruct (PS_du lv); unfold P; lia).
  assert (Dv : dv P <> 12%nat) by (destruct (PS_dv lv); unfold P; lia).
  rewrite <- (flat_map_map (ByteEncode (du P)) (map (Compress (Z.of_nat (du P))))).
  set (cu := map (map (Compress (Z.of_nat (du P)))) u) in *.
  assert (Lcu : length cu = k P) by (unfold cu; now rewrite map_length).
  assert (Pcu : forall x, In x cu -> length x = 256%nat /\ forall i, (i < 256)%nat -> 0 <= nth i x 0 < dmod (du P)).
  { intros x Hx. apply in_map_iff in Hx. destruct Hx as (z & <- & Hz). split; [|intros; now apply compressed_range].
    rewrite map_length. now apply zipadd_In in Hz. }
  rewrite decode_vec_encode by assumption.
  assert (Lf : length (flat_map (ByteEncode (du P)) cu) = (32 * du P * k P)%nat).
  { rewrite (flat_map_len _ _ (32 * du P)); [lia|]. intros x Hx. apply ByteEncode_256. now apply Pcu. }
  rewrite skipn_app, Lf, Nat.sub_diag, (skipn_all2 (flat_map _ _)) by lia. cbn [skipn app].
  rewrite ByteDecode_ByteEncode; [|rewrite map_length; apply padd_length|intros; now apply compressed_range].
  unfold cu.
  assert (ER : forall dd f, map (Decompress dd) (map (Compress dd) f) = map (fun x => Decompress dd (Compress dd x)) f)
    by (intros; apply map_map).
  assert (ECU : map (map (Decompress (Z.of_nat (du P)))) (map (map (Compress (Z.of_nat (du P)))) u) = map (rounded (du P)) u).
  { rewrite map_map. apply map_ext. intros; apply ER. }
  rewrite ECU, ER. fold (rounded (dv P) v).
  (* linear algebra *)
  assert (EV : map NTT (map (rounded (du P)) u) = zipadd X (map NTT (zipadd e1 (zipsub (map (rounded (du P)) u) u)))).
  { apply vec_rounded; [congruence| |apply rounded_length]. intros x Hx. unfold X in Hx. eapply map_canon; [|exact Hx]. intros; apply ntt_dot_canon. }
  refine (message_exact m _ _ Bm Lm _ _ _); [apply psub_canon|apply psub_canon|].
  intros i Hi. fold mu. rewrite !psub_nth by auto.
  set (cv := psub (rounded (dv P) v) v).
  assert (Ecv : nth i (rounded (dv P) v) 0 ≡ nth i v 0 + nth i cv 0).
  { unfold cv. rewrite psub_nth by auto. apply cong_eq. lia. }
  rewrite Ecv. rewrite !padd_nth by auto.
  assert (Ev : nth i v 0 ≡ nth i (NTTinv (ntt_dot (map NTT s) X)) 0 + nth i (ring_dot e y) 0 + nth i e2 0 + nth i mu 0).
  { unfold v. rewrite !padd_nth by auto. unfold t.
    rewrite ntt_dot_add_l by (rewrite !map_length; congruence).
    rewrite (matrix_dot P) by (rewrite ?map_length; auto). fold X.
    rewrite NTTinv_padd, padd_nth by auto. rewrite (NTTinv_dot e y) by congruence. reflexivity. }
  rewrite Ev.
  match goal with |- context [NTTinv (ntt_dot (map NTT s) ?M)] => 
    match M with map _ _ => replace (NTTinv (ntt_dot (map NTT s) M)) with
      (padd (NTTinv (ntt_dot (map NTT s) X)) (ring_dot s (zipadd e1 (zipsub (map (rounded (du P)) u) u)))) end end.
  2:{ rewrite EV. rewrite ntt_dot_add_r.
      - rewrite NTTinv_padd. f_equal. symmetry. apply NTTinv_dot. 
        rewrite zipadd_length; [congruence|]. rewrite zipsub_length; rewrite map_length; congruence.
      - rewrite map_length; congruence.
      - rewrite !map_length. rewrite zipadd_length; [congruence|]. rewrite zipsub_length; rewrite map_length; congruence. }
  rewrite padd_nth by auto. apply cong_eq. lia.
Qed.

Lemma noise_ok_decodes m nz : noise_ok nz -> noise_decodes m nz.
Proof. intros HN i Hi. specialize (HN i Hi). destruct (nth i (ByteDecode 1 m) 0 =? 1); lia. Qed.
Lemma Decrypt_Encrypt_P lv A d m r : let P := PS lv in
  length A = k P -> (forall i, (i < k P)%nat -> length (nth i A []) = k P) ->
  bytes m -> length m = 32%nat -> noise_ok (decryption_noise P A d m r) ->
  K_PKE_Decrypt P (snd (K_PKE_KeyGen P A d)) (K_PKE_Encrypt P A (fst (K_PKE_KeyGen P A d)) m r) = m.
Proof. intros P LA LR Bm Lm HN. apply Decrypt_Encrypt_iff; auto. now apply noise_ok_decodes. Qed.
