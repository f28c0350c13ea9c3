(** * Serialisation of coefficients outside the range it is made for *)
From Coq Require Import ZArith List Lia Bool NArith.
From Verif Require Import CMonad WP Proof_Base Modq Sums Model_Params Model_Poly Proof_NTT Proof_Bits Proof_Compress Proof_Codec Proof_Rej
  Model_AvxAsm Model_AvxCode Proof_AvxSym Proof_AvxNTT Proof_AvxPack Spec_FIPS203.
Import ListNotations.
Open Scope Z_scope.

(** ** ref/: bits 0 of the fields *)
Lemma tobytes_coeff_any c : -3330 <= c <= 4095 -> tobytes_coeff c = Ok (u16 (lift c)) [].
Proof.
  intros Hc. destruct (Z.eq_dec c (-3330)) as [->|N]; [reflexivity|].
  rewrite tobytes_coeff_lift by lia. rewrite u16_small; [reflexivity|]. unfold lift, q. destruct (Z.ltb_spec c 0); lia.
Qed.
Lemma u16_lt' x : 0 <= u16 x < 65536. Proof. apply Z.mod_pos_bound. reflexivity. Qed.

Lemma poly_tobytes_low_wp ro :
  traced (fun T => forall r a, (ro + 384 <= length r)%nat -> length a = 256%nat -> bnd (-3330) 4095 a ->
    wp (poly_tobytes r ro a) T (fun r' => forall i, (i < 128)%nat ->
      nth (ro + 3 * i) r' 0 = u8 (u16 (lift (nth (2 * i) a 0))) /\
      nth (ro + (3 * i + 1)) r' 0 = u8 (Z.lor (Z.shiftr (u16 (lift (nth (2 * i) a 0))) 8) (u16 (lift (nth (2 * i + 1) a 0)) * 2 ^ 4)))).
Proof.
  eexists. intros r a Hr Ha Ba. unfold poly_tobytes. change (KYBER_N / 2)%nat with 128%nat.
  eapply (wp_for _ (fun i s => length s = length r /\ forall j, (j < i)%nat ->
      nth (ro + 3 * j) s 0 = u8 (u16 (lift (nth (2 * j) a 0))) /\
      nth (ro + (3 * j + 1)) s 0 = u8 (Z.lor (Z.shiftr (u16 (lift (nth (2 * j) a 0))) 8) (u16 (lift (nth (2 * j + 1) a 0)) * 2 ^ 4)))).
  - split; [reflexivity|lia].
  - intros i s Hi [Ls Hs].
    pose proof (u16_lt' (lift (nth (2 * i) a 0))) as R0. pose proof (u16_lt' (lift (nth (2 * i + 1) a 0))) as R1.
    wstep. wstep; [lia|]. wstep. eapply wp_of_ok; [apply tobytes_coeff_any; apply Ba; lia|].
    wstep. wstep; [lia|]. wstep. eapply wp_of_ok; [apply tobytes_coeff_any; apply Ba; lia|].
    wstep. wstep; [lia|]. wstep. wstep; [lia|].
    wstep. wstep; [lia|]. wstep. wstep; [lia..|]. wstep. wstep; [rewrite !upd_length; lia|].
    wstep. wstep; [lia|]. wstep; [rewrite !upd_length; lia|].
    rewrite !upd_length. split; [exact Ls|]. intros j Hj. rewrite Z.shiftr_0_r.
    destruct (Nat.eq_dec j i) as [->|Ne].
    + rewrite (nth_upd_neq _ _ (ro + 3 * i)) by lia. rewrite (nth_upd_neq _ _ (ro + 3 * i)) by lia.
      rewrite Nat.add_0_r. rewrite nth_upd_eq by lia.
      rewrite (nth_upd_neq _ _ (ro + (3 * i + 1))) by lia. rewrite nth_upd_eq by (rewrite upd_length; lia).
      split; reflexivity.
    + rewrite !nth_upd_neq by lia. apply Hs. lia.
  - intros s [_ Hs]. exact Hs.
Qed.

(** The bit that gives an odd field away *)
Definition odd_ref (x : nat) (B : nat -> Z) : Prop :=
  Z.testbit (B ((12 * x) / 8)%nat) (Z.of_nat ((12 * x) mod 8)) = true.
Lemma testbit_u8 x k : 0 <= k < 8 -> Z.testbit (u8 x) k = Z.testbit x k.
Proof. intros. unfold u8, wrapu. apply Z.mod_pow2_bits_low. lia. Qed.
Lemma right_even F x : length F = 256%nat -> (x < 256)%nat ->
  Z.testbit (nth ((12 * x) / 8) (ByteEncode 12 F) 0) (Z.of_nat ((12 * x) mod 8)) = Z.testbit (nth x F 0) 0.
Proof.
  intros LF Hx. change 0 with (Z.of_nat 0) at 3. apply ByteEncode_testbit.
  - pose proof (Nat.div_mod (12 * x) 8 ltac:(lia)). lia.
  - apply Nat.mod_upper_bound. lia.
  - lia.
  - rewrite LF. pose proof (Nat.div_mod (12 * x) 8 ltac:(lia)) as D.
    pose proof (Nat.mod_upper_bound (12 * x) 8 ltac:(lia)).
    assert (12 * x / 8 < 384)%nat by (apply Nat.div_lt_upper_bound; lia). lia.
Qed.
Lemma ref_low_odd (B : nat -> Z) a x : (x < 256)%nat ->
  (forall i, (i < 128)%nat -> B (3 * i)%nat = u8 (u16 (lift (nth (2 * i) a 0))) /\
     B (3 * i + 1)%nat = u8 (Z.lor (Z.shiftr (u16 (lift (nth (2 * i) a 0))) 8) (u16 (lift (nth (2 * i + 1) a 0)) * 2 ^ 4))) ->
  Z.testbit (u16 (lift (nth x a 0))) 0 = true -> odd_ref x B.
Proof.
  intros Hx H O. unfold odd_ref. pose proof (Nat.div_mod x 2 ltac:(lia)) as D. pose proof (Nat.mod_upper_bound x 2 ltac:(lia)) as M.
  assert (Hi : (x / 2 < 128)%nat) by (apply Nat.div_lt_upper_bound; lia).
  set (i := (x / 2)%nat) in *. destruct (H i Hi) as [H0 H1]. destruct (x mod 2)%nat as [|[|]]; [| |lia].
  - assert (Ex : x = (2 * i)%nat) by lia. clearbody i. clear D. subst x.
    replace (12 * (2 * i) / 8)%nat with (3 * i)%nat by (apply Nat.div_unique with (r := 0%nat); lia).
    replace ((12 * (2 * i)) mod 8)%nat with 0%nat by (apply Nat.mod_unique with (q := (3 * i)%nat); lia).
    rewrite H0, testbit_u8 by lia. exact O.
  - assert (Ex : x = (2 * i + 1)%nat) by lia. clearbody i. clear D. subst x.
    replace (12 * (2 * i + 1) / 8)%nat with (3 * i + 1)%nat by (apply Nat.div_unique with (r := 4%nat); lia).
    replace ((12 * (2 * i + 1)) mod 8)%nat with 4%nat by (apply Nat.mod_unique with (q := (3 * i + 1)%nat); lia).
    rewrite H1, testbit_u8, Z.lor_spec, Z.mul_pow2_bits by lia. change (Z.of_nat 4 - 4) with 0. rewrite O. apply orb_true_r.
Qed.

(** ** avx2/ *)
Definition csub (x : Z) : Z := if x <? 3329 then x else x - 3329.
Lemma tcsub_any JJ r a b p : (p < 256)%nat -> -1 <= nth p a 0 <= 6658 ->
  eval (env3 JJ r a b) (tcsub p) = csub (nth p a 0).
Proof.
  intros Hp H. unfold tcsub. cbn [eval].
  replace (env3 JJ r a b (256 + N.of_nat p)) with (nth p a 0).
  2:{ unfold env3. nsplit. f_equal. lia. }
  set (x := nth p a 0) in *. rewrite (i16_small (x - 3329)) by lia. unfold csub.
  destruct (Z.ltb_spec x 3329).
  - replace (Z.shiftr (x - 3329) 15) with (-1)
      by (rewrite Z.shiftr_div_pow2 by lia; apply Z.div_unique with (r := x - 3329 + 32768); lia).
    rewrite Z.land_m1_l, i16_small by lia. lia.
  - replace (Z.shiftr (x - 3329) 15) with 0
      by (rewrite Z.shiftr_div_pow2 by lia; symmetry; apply Z.div_small; lia).
    rewrite Z.land_0_l, i16_small by lia. lia.
Qed.
Lemma avx_low_odd W (c : nat -> Z) x : (x < 256)%nat -> length W = 192%nat ->
  (forall g, (g < 64)%nat ->
    nth (3 * g) W 0 = Z.lor (c (4 * g + 0)%nat) (i16 (Z.shiftl (c (4 * g + 1)%nat) 12)) /\
    nth (3 * g + 1) W 0 = Z.lor (i16 (Z.shiftl (c (4 * g + 2)%nat) 8)) (i16 (Z.shiftr (u16 (c (4 * g + 1)%nat)) 4)) /\
    nth (3 * g + 2) W 0 = Z.lor (i16 (Z.shiftl (c (4 * g + 3)%nat) 4)) (i16 (Z.shiftr (u16 (c (4 * g + 2)%nat)) 8))) ->
  Z.testbit (c x) 0 = true -> odd_ref x (fun m => nth m (bytes_of_words W) 0).
Proof.
  intros Hx LW H O. unfold odd_ref. pose proof (Nat.div_mod x 4 ltac:(lia)) as D. pose proof (Nat.mod_upper_bound x 4 ltac:(lia)) as M.
  assert (Hg : (x / 4 < 64)%nat) by (apply Nat.div_lt_upper_bound; lia).
  set (g := (x / 4)%nat) in *. destruct (H g Hg) as (E0 & E1 & E2).
  assert (SH : forall v n, 0 <= n < 16 -> Z.testbit (i16 (Z.shiftl v n)) n = Z.testbit v 0).
  { intros v n Hn. rewrite testbit_i16, Z.shiftl_spec by lia. now rewrite Z.sub_diag. }
  destruct (nth_bytes_of_words W (3 * g) ltac:(lia)) as [L0 H0].
  destruct (nth_bytes_of_words W (3 * g + 1) ltac:(lia)) as [L1 H1].
  destruct (nth_bytes_of_words W (3 * g + 2) ltac:(lia)) as [L2 H2].
  destruct (x mod 4)%nat as [|[|[|[|]]]]; [| | | |lia].
  - replace (12 * x / 8)%nat with (2 * (3 * g))%nat by (apply Nat.div_unique with (r := 0%nat); lia).
    replace ((12 * x) mod 8)%nat with 0%nat by (apply Nat.mod_unique with (q := (2 * (3 * g))%nat); lia).
    rewrite L0, testbit_mod256, testbit_u16, E0, Z.lor_spec by lia. replace (4 * g + 0)%nat with x by lia.
    change (Z.of_nat 0) with 0. now rewrite O.
  - replace (12 * x / 8)%nat with (2 * (3 * g) + 1)%nat by (apply Nat.div_unique with (r := 4%nat); lia).
    replace ((12 * x) mod 8)%nat with 4%nat by (apply Nat.mod_unique with (q := (2 * (3 * g) + 1)%nat); lia).
    rewrite H0, testbit_div256, testbit_u16, E0, Z.lor_spec by lia. replace (4 * g + 1)%nat with x by lia.
    change (Z.of_nat 4 + 8) with 12. rewrite SH, O by lia. apply orb_true_r.
  - replace (12 * x / 8)%nat with (2 * (3 * g + 1) + 1)%nat by (apply Nat.div_unique with (r := 0%nat); lia).
    replace ((12 * x) mod 8)%nat with 0%nat by (apply Nat.mod_unique with (q := (2 * (3 * g + 1) + 1)%nat); lia).
    rewrite H1, testbit_div256, testbit_u16, E1, Z.lor_spec by lia. replace (4 * g + 2)%nat with x by lia.
    change (Z.of_nat 0 + 8) with 8. now rewrite SH, O by lia.
  - replace (12 * x / 8)%nat with (2 * (3 * g + 2))%nat by (apply Nat.div_unique with (r := 4%nat); lia).
    replace ((12 * x) mod 8)%nat with 4%nat by (apply Nat.mod_unique with (q := (2 * (3 * g + 2))%nat); lia).
    rewrite L2, testbit_mod256, testbit_u16, E2, Z.lor_spec by lia. replace (4 * g + 3)%nat with x by lia.
    change (Z.of_nat 4) with 4. now rewrite SH, O by lia.
Qed.

Lemma ntttobytes_avx_low_wp off :
  traced (fun T => forall (JJ : Junk) r a, (off + 384 <= length r)%nat -> length a = 256%nat -> bnd (-1) 6658 a ->
    wp (ntttobytes_avx r off a) T (fun r' => exists B, length B = 384%nat /\ r' = splice r off B /\
      forall x, (x < 256)%nat -> Z.testbit (csub (nth (avx_pos x) a 0)) 0 = true -> odd_ref x (fun m => nth m B 0))).
Proof.
  exists (trace_of tobytes_sym ++ []). intros JJ r a Hr La Ba. unfold ntttobytes_avx.
  destruct (Nat.leb_spec (off + 384) (length r)); [|lia].
  set (R := words_of_bytes (firstn 384 (skipn off r))).
  assert (LR : length R = 192%nat).
  { apply words_of_bytes_length. rewrite firstn_length, skipn_length. lia. }
  apply wp_bind. eapply wp_conseq.
  { apply (asm_exact JJ R a [] ntttobytes_avx_code [ins 0 192; ins 256 256; sqdata] [R; a; qdata] _ _ tobytes_sym_eq tobytes_chk).
    cbn [map]. now rewrite eval_r192, eval_a, eval_qdata by auto. }
  intros w ->. apply wp_ret.
  set (W := map (eval (env3 JJ R a [])) tobytes_words).
  assert (LW : length W = 192%nat) by (unfold W; rewrite map_length; apply tobytes_words_length).
  exists (bytes_of_words W). assert (LB : length (bytes_of_words W) = 384%nat) by (now rewrite bytes_of_words_length, LW).
  split; [exact LB|]. split; [unfold splice; now rewrite LB|].
  intros x Hx O. apply (avx_low_odd W (fun m => eval (env3 JJ R a []) (tcsub (avx_pos m)))); auto.
  - intros g Hg. apply (tobytes_words_nth (env3 JJ R a []) g Hg).
  - cbv beta. pose proof (avx_pos_lt x Hx). rewrite tcsub_any; [exact O|assumption|]. apply Ba. lia.
Qed.
