(** * The AVX2 shuffle code: nttunpack, ntttobytes, nttfrombytes (shuffle.S) *)
From Coq Require Import ZArith List Lia Bool NArith.
From Verif Require Import CMonad WP Proof_Base Modq Sums Model_Params Model_NTT Proof_Bits Proof_Codec Proof_Rej
  Model_AvxAsm Model_AvxCode Proof_AvxSym Proof_AvxNTT Spec_FIPS203.
Import ListNotations.
Open Scope Z_scope.

Lemma nth_map_seq n (f : nat -> Z) i : (i < n)%nat -> nth i (map f (seq 0 n)) 0 = f i.
Proof. apply (nth_mk n f i). Qed.
Lemma map_seq_length n (f : nat -> Z) : length (map f (seq 0 n)) = n.
Proof. apply (mk_length n f). Qed.

(** ** Exact results *)
Definition out_of (o : option (list tm * trace)) : option (list tm) :=
  match o with Some (l, _) => Some l | None => None end.

Lemma asm_exact (JJ : Junk) r a b code m M ex S :
  sym_run code m = S -> out_of S = Some ex ->
  map (map (eval (env3 JJ r a b))) m = M ->
  wp (run_asm code M) (trace_of S) (fun r' => r' = map (eval (env3 JJ r a b)) ex).
Proof.
  intros Es E EM. destruct S as [[out t]|]; [|discriminate]. injection E as ->.
  exists (map (eval (env3 JJ r a b)) ex). split; [|reflexivity].
  apply (sym_run_spec _ _ _ _ _ _ _ _ _ Es EM).
Qed.

(** ** nttunpack *)
Definition unpack_sym := sym_run nttunpack_avx_code [ins 0 256; sqdata].
Lemma unpack_sym_eq : sym_run nttunpack_avx_code [ins 0 256; sqdata] = unpack_sym.
Proof. unfold unpack_sym. reflexivity. Qed.
Lemma unpack_chk : out_of unpack_sym = Some (map (fun p => In (N.of_nat (avx_ix p))) (seq 0 256)).
Proof. vm_compute. reflexivity. Qed.
Local Opaque unpack_sym.

Lemma nttunpack_avx_wp :
  traced (fun T => forall (JJ : Junk) r, length r = 256%nat ->
    wp (nttunpack_avx r) T (fun r' => r' = avx_order r)).
Proof.
  exists (trace_of unpack_sym). intros JJ r Hl. unfold nttunpack_avx.
  eapply wp_conseq.
  { apply (asm_exact JJ r [] [] nttunpack_avx_code [ins 0 256; sqdata] [r; qdata] _ _ unpack_sym_eq unpack_chk).
    cbn [map]. now rewrite eval_r, eval_qdata by auto. }
  intros r' ->. rewrite map_map.
  apply (list_eq_nth 0); [now rewrite map_seq_length, avx_order_length|].
  intros i Hi. rewrite map_seq_length in Hi. rewrite nth_map_seq, avx_order_nth by auto. cbn [eval].
  unfold env3. pose proof (avx_ix_lt i Hi).
  destruct (N.ltb_spec (N.of_nat (avx_ix i)) 256); [|lia]. now rewrite Nnat.Nat2N.id.
Qed.

(** ** Words and bytes *)
Lemma nth_bytes_of_words l k : (k < length l)%nat ->
  nth (2 * k) (bytes_of_words l) 0 = u16 (nth k l 0) mod 256 /\
  nth (2 * k + 1) (bytes_of_words l) 0 = u16 (nth k l 0) / 256.
Proof.
  revert k; induction l as [|w l IH]; intros k Hk; cbn [length] in Hk; [lia|].
  destruct k as [|k]; [split; reflexivity|].
  replace (2 * S k)%nat with (S (S (2 * k))) by lia. cbn [bytes_of_words nth Nat.add].
  apply IH. lia.
Qed.
Lemma bytes_of_words_length l : length (bytes_of_words l) = (2 * length l)%nat.
Proof. induction l; cbn [bytes_of_words length]; lia. Qed.
Lemma nth_words_of_bytes m l k : length l = (2 * m)%nat -> (k < m)%nat ->
  nth k (words_of_bytes l) 0 = i16 (nth (2 * k) l 0 + 256 * nth (2 * k + 1) l 0).
Proof.
  revert l k; induction m as [|m IH]; intros l k Hl Hk; [lia|].
  destruct l as [|x [|y l]]; cbn [length] in Hl; try lia.
  destruct k as [|k]; [reflexivity|].
  replace (2 * S k)%nat with (S (S (2 * k))) by lia. cbn [words_of_bytes nth Nat.add].
  apply IH; lia.
Qed.
Lemma words_of_bytes_length m l : length l = (2 * m)%nat -> length (words_of_bytes l) = m.
Proof.
  revert l; induction m as [|m IH]; intros l Hl.
  - destruct l; [reflexivity|cbn in Hl; lia].
  - destruct l as [|x [|y l]]; cbn [length] in Hl; try lia.
    cbn [words_of_bytes length]. rewrite IH; lia.
Qed.

Lemma testbit_i16 x k : 0 <= k < 16 -> Z.testbit (i16 x) k = Z.testbit x k.
Proof.
  intros H. rewrite <- (Z.mod_pow2_bits_low (i16 x) 16), <- (Z.mod_pow2_bits_low x 16) by lia.
  change (2 ^ 16) with 65536. now rewrite i16_mod.
Qed.
Lemma testbit_mod256 x k : 0 <= k < 8 -> Z.testbit (x mod 256) k = Z.testbit x k.
Proof. intros. change 256 with (2 ^ 8). apply Z.mod_pow2_bits_low. lia. Qed.
Lemma testbit_div256 x k : 0 <= k -> Z.testbit (x / 256) k = Z.testbit x (k + 8).
Proof. intros. change 256 with (2 ^ 8). now rewrite Z.div_pow2_bits by lia. Qed.

(** ** ntttobytes *)
Definition tcsub (p : nat) : tm :=
  let x := In (256 + N.of_nat p) in
  TAdd (TSub x (Kc 3329)) (TAnd (TSra 15 (TSub x (Kc 3329))) (Kc 3329)).
Definition tobytes_words : list tm :=
  map (fun w =>
    let g := (w / 3)%nat in
    let c k := tcsub (avx_pos (4 * g + k)) in
    match (w mod 3)%nat with
    | 0%nat => TOr (c 0%nat) (TSll 12 (c 1%nat))
    | 1%nat => TOr (TSll 8 (c 2%nat)) (TSrl 4 (c 1%nat))
    | _ => TOr (TSll 4 (c 3%nat)) (TSrl 8 (c 2%nat))
    end) (seq 0 192).
Definition tobytes_sym := sym_run ntttobytes_avx_code [ins 0 192; ins 256 256; sqdata].
Lemma tobytes_sym_eq : sym_run ntttobytes_avx_code [ins 0 192; ins 256 256; sqdata] = tobytes_sym.
Proof. unfold tobytes_sym. reflexivity. Qed.
Lemma tobytes_chk : out_of tobytes_sym = Some tobytes_words.
Proof. vm_compute. reflexivity. Qed.
Local Opaque tobytes_sym.

Lemma eval_r192 J r a b : length r = 192%nat -> map (eval (env3 J r a b)) (ins 0 192) = r.
Proof.
  intros. apply eval_ins_gen; auto. intros i Hi. unfold env3. nsplit. f_equal. lia.
Qed.
Lemma eval_a192 J r a b : length a = 192%nat -> map (eval (env3 J r a b)) (ins 256 192) = a.
Proof.
  intros. apply eval_ins_gen; auto. intros i Hi. unfold env3. nsplit. f_equal. lia.
Qed.

Lemma tcsub_eval JJ r a b p : (p < 256)%nat -> 0 <= nth p a 0 <= 6657 ->
  eval (env3 JJ r a b) (tcsub p) = nth p a 0 mod q.
Proof.
  intros Hp H. unfold tcsub. cbn [eval].
  replace (env3 JJ r a b (256 + N.of_nat p)) with (nth p a 0).
  2:{ unfold env3. nsplit. f_equal. lia. }
  set (x := nth p a 0) in *. rewrite (i16_small (x - 3329)) by lia. unfold q.
  destruct (Z.ltb_spec x 3329).
  - replace (Z.shiftr (x - 3329) 15) with (-1)
      by (rewrite Z.shiftr_div_pow2 by lia; apply Z.div_unique with (r := x - 3329 + 32768); lia).
    rewrite Z.land_m1_l, i16_small by lia. rewrite Z.mod_small; lia.
  - replace (Z.shiftr (x - 3329) 15) with 0
      by (rewrite Z.shiftr_div_pow2 by lia; symmetry; apply Z.div_small; lia).
    rewrite Z.land_0_l, i16_small by lia. apply Z.mod_unique with (q := 1); lia.
Qed.

Ltac tb_push2 :=
  repeat match goal with
    | |- context [Z.testbit (i16 ?a) ?k] => rewrite (testbit_i16 a k) by lia
    | |- context [Z.testbit (u16 ?a) ?k] => rewrite (testbit_u16 a k) by lia
    | |- context [Z.testbit (u16 ?a) ?k] => rewrite (testbit_high (u16 a) 16 k (u16_lt a)) by lia
    | |- context [Z.testbit (?a mod 256) ?k] => rewrite (testbit_mod256 a k) by lia
    | |- context [Z.testbit (?a / 256) ?k] => rewrite (testbit_div256 a k) by lia
    | |- context [Z.testbit (Z.lor ?a ?b) ?k] => rewrite (Z.lor_spec a b k)
    | |- context [Z.testbit (Z.shiftr ?a ?n) ?k] => rewrite (Z.shiftr_spec a n k) by lia
    | |- context [Z.testbit (Z.shiftl ?a ?n) ?k] => rewrite (Z.shiftl_spec a n k) by lia
    end.
Ltac enc_bit2 d g i F m c HF w :=
  match goal with |- Z.testbit ?L (Z.of_nat ?b) = Z.testbit (nth _ (ByteEncode _ _) 0) _ =>
    let x := eval compute in ((8 * c + b) / d)%nat in
    let y := eval compute in ((8 * c + b) mod d)%nat in
    rewrite (ByteEncode_testbit d F m b (g * i + x) y) by (rewrite ?mk_length; lia)
  end; tb_push2; tb_const; tb_high F HF w; tb_const;
  rewrite ?orb_false_r, ?orb_false_l, ?Nat.add_0_r, ?Nat.mul_1_l; reflexivity.

Lemma u16_byte_lo x : 0 <= u16 x mod 256 < 2 ^ Z.of_nat 8.
Proof. apply Z.mod_pos_bound. lia. Qed.
Lemma u16_byte_hi x : 0 <= u16 x / 256 < 2 ^ Z.of_nat 8.
Proof.
  pose proof (u16_lt x). split; [apply Z.div_pos; lia|]. apply Z.div_lt_upper_bound; [lia|]. simpl. lia.
Qed.

Lemma pack12_words G W : length G = 256%nat -> length W = 192%nat ->
  (forall x, 0 <= nth x G 0 < 2 ^ 12) ->
  (forall g, (g < 64)%nat ->
    nth (3 * g) W 0 = Z.lor (nth (4 * g + 0) G 0) (i16 (Z.shiftl (nth (4 * g + 1) G 0) 12)) /\
    nth (3 * g + 1) W 0 = Z.lor (i16 (Z.shiftl (nth (4 * g + 2) G 0) 8)) (i16 (Z.shiftr (nth (4 * g + 1) G 0) 4)) /\
    nth (3 * g + 2) W 0 = Z.lor (i16 (Z.shiftl (nth (4 * g + 3) G 0) 4)) (i16 (Z.shiftr (nth (4 * g + 2) G 0) 8))) ->
  bytes_of_words W = ByteEncode 12 G.
Proof.
  intros LG LW HG EW.
  assert (LE : length (ByteEncode 12 G) = 384%nat) by (now rewrite ByteEncode_length, LG).
  apply (list_eq_nth 0); [now rewrite bytes_of_words_length, LW, LE|].
  rewrite bytes_of_words_length, LW. intros m Hm.
  pose proof (Nat.div_mod m 6 ltac:(lia)) as Dm. pose proof (Nat.mod_upper_bound m 6 ltac:(lia)) as Rm.
  set (g := (m / 6)%nat) in *. generalize dependent (m mod 6)%nat. intros c Dm Rm.
  assert (Hg : (g < 64)%nat) by lia. clearbody g. subst m.
  destruct (EW g Hg) as (E0 & E1 & E2).
  destruct (nth_bytes_of_words W (3 * g) ltac:(lia)) as [L0 H0].
  destruct (nth_bytes_of_words W (3 * g + 1) ltac:(lia)) as [L1 H1].
  destruct (nth_bytes_of_words W (3 * g + 2) ltac:(lia)) as [L2 H2].
  rewrite E0 in L0, H0. rewrite E1 in L1, H1. rewrite E2 in L2, H2. clear E0 E1 E2.
  destruct c as [|[|[|[|[|[|c]]]]]]; try lia.
  - replace (6 * g + 0)%nat with (2 * (3 * g))%nat by lia. rewrite L0.
    apply (bits_ext 8); [apply u16_byte_lo|apply ByteEncode_byte|].
    cases8 ltac:(enc_bit2 12%nat 4%nat g G (2 * (3 * g))%nat 0%nat HG 12).
  - replace (6 * g + 1)%nat with (2 * (3 * g) + 1)%nat by lia. rewrite H0.
    apply (bits_ext 8); [apply u16_byte_hi|apply ByteEncode_byte|].
    cases8 ltac:(enc_bit2 12%nat 4%nat g G (2 * (3 * g) + 1)%nat 1%nat HG 12).
  - replace (6 * g + 2)%nat with (2 * (3 * g + 1))%nat by lia. rewrite L1.
    apply (bits_ext 8); [apply u16_byte_lo|apply ByteEncode_byte|].
    cases8 ltac:(enc_bit2 12%nat 4%nat g G (2 * (3 * g + 1))%nat 2%nat HG 12).
  - replace (6 * g + 3)%nat with (2 * (3 * g + 1) + 1)%nat by lia. rewrite H1.
    apply (bits_ext 8); [apply u16_byte_hi|apply ByteEncode_byte|].
    cases8 ltac:(enc_bit2 12%nat 4%nat g G (2 * (3 * g + 1) + 1)%nat 3%nat HG 12).
  - replace (6 * g + 4)%nat with (2 * (3 * g + 2))%nat by lia. rewrite L2.
    apply (bits_ext 8); [apply u16_byte_lo|apply ByteEncode_byte|].
    cases8 ltac:(enc_bit2 12%nat 4%nat g G (2 * (3 * g + 2))%nat 4%nat HG 12).
  - replace (6 * g + 5)%nat with (2 * (3 * g + 2) + 1)%nat by lia. rewrite H2.
    apply (bits_ext 8); [apply u16_byte_hi|apply ByteEncode_byte|].
    cases8 ltac:(enc_bit2 12%nat 4%nat g G (2 * (3 * g + 2) + 1)%nat 5%nat HG 12).
Qed.


Lemma tobytes_words_nth env g : (g < 64)%nat ->
  let c k := eval env (tcsub (avx_pos (4 * g + k))) in
  let W := map (eval env) tobytes_words in
  nth (3 * g) W 0 = Z.lor (c 0%nat) (i16 (Z.shiftl (c 1%nat) 12)) /\
  nth (3 * g + 1) W 0 = Z.lor (i16 (Z.shiftl (c 2%nat) 8)) (i16 (Z.shiftr (u16 (c 1%nat)) 4)) /\
  nth (3 * g + 2) W 0 = Z.lor (i16 (Z.shiftl (c 3%nat) 4)) (i16 (Z.shiftr (u16 (c 2%nat)) 8)).
Proof.
  intros Hg. cbv zeta. unfold tobytes_words. rewrite map_map.
  rewrite !nth_map_seq by lia. cbv zeta.
  replace (3 * g / 3)%nat with g by (symmetry; rewrite Nat.mul_comm; now apply Nat.div_mul).
  replace ((3 * g) mod 3)%nat with 0%nat by (symmetry; rewrite Nat.mul_comm; now apply Nat.mod_mul).
  replace ((3 * g + 1) / 3)%nat with g by (apply Nat.div_unique with (r := 1%nat); lia).
  replace ((3 * g + 1) mod 3)%nat with 1%nat by (apply Nat.mod_unique with (q := g); lia).
  replace ((3 * g + 2) / 3)%nat with g by (apply Nat.div_unique with (r := 2%nat); lia).
  replace ((3 * g + 2) mod 3)%nat with 2%nat by (apply Nat.mod_unique with (q := g); lia).
  split; [|split]; reflexivity.
Qed.
Lemma tobytes_words_length : length tobytes_words = 192%nat.
Proof. unfold tobytes_words. now rewrite map_length, seq_length. Qed.
Local Opaque tobytes_words.

Lemma ntttobytes_avx_wp off :
  traced (fun T => forall (JJ : Junk) r a F, (off + 384 <= length r)%nat -> length a = 256%nat ->
    length F = 256%nat -> bnd 0 6657 a -> lcong a (avx_order F) ->
    wp (ntttobytes_avx r off a) T (fun r' => r' = splice r off (ByteEncode 12 (canonical F)))).
Proof.
  exists (trace_of tobytes_sym ++ []). intros JJ r a F Hr La LF Ba CF. unfold ntttobytes_avx.
  destruct (Nat.leb_spec (off + 384) (length r)); [|lia].
  set (R := words_of_bytes (firstn 384 (skipn off r))).
  assert (LR : length R = 192%nat).
  { apply words_of_bytes_length. rewrite firstn_length, skipn_length. lia. }
  apply wp_bind. eapply wp_conseq.
  { apply (asm_exact JJ R a [] ntttobytes_avx_code [ins 0 192; ins 256 256; sqdata] [R; a; qdata] _ _ tobytes_sym_eq tobytes_chk).
    cbn [map]. now rewrite eval_r192, eval_a, eval_qdata by auto. }
  intros w ->. apply wp_ret.
  set (G := canonical F).
  assert (LG : length G = 256%nat) by apply canonical_length.
  assert (HG : forall x, 0 <= nth x G 0 < 2 ^ 12).
  { intros x. pose proof (canonical_range F x) as HH. fold G in HH. unfold q in HH. lia. }
  set (W := map (eval (env3 JJ R a [])) tobytes_words).
  assert (LW : length W = 192%nat) by (unfold W; rewrite map_length; apply tobytes_words_length).
  assert (E : bytes_of_words W = ByteEncode 12 G).
  { apply pack12_words; auto. intros g Hg.
    assert (Ec : forall m, (m < 256)%nat -> eval (env3 JJ R a []) (tcsub (avx_pos m)) = nth m G 0).
    { intros m Hm. pose proof (avx_pos_lt m Hm). rewrite tcsub_eval by (auto; apply Ba; lia).
      unfold G. rewrite nth_canonical by auto. unfold q. apply cong_mod_eq.
      now apply avx_order_at. }
    pose proof (tobytes_words_nth (env3 JJ R a []) g Hg) as H1. cbv beta zeta in H1. fold W in H1.
    rewrite !Ec in H1 by lia.
    pose proof (HG (4 * g + 1)%nat). pose proof (HG (4 * g + 2)%nat).
    rewrite !u16_small in H1 by lia. exact H1. }
  rewrite E. unfold splice. now rewrite ByteEncode_length, LG.
Qed.

(** ** nttfrombytes *)
Definition frombytes_words : list tm :=
  map (fun p =>
    let m := avx_ix p in
    let w k := In (256 + N.of_nat (3 * (m / 4) + k)) in
    TAnd (match (m mod 4)%nat with
          | 0%nat => w 0%nat
          | 1%nat => TOr (TSll 4 (w 1%nat)) (TSrl 12 (w 0%nat))
          | 2%nat => TOr (TSll 8 (w 2%nat)) (TSrl 8 (w 1%nat))
          | _ => TSrl 4 (w 2%nat)
          end) (Kc 4095)) (seq 0 256).
Definition frombytes_sym := sym_run nttfrombytes_avx_code [ins 0 256; ins 256 192; sqdata].
Lemma frombytes_sym_eq : sym_run nttfrombytes_avx_code [ins 0 256; ins 256 192; sqdata] = frombytes_sym.
Proof. unfold frombytes_sym. reflexivity. Qed.
Lemma frombytes_chk : out_of frombytes_sym = Some frombytes_words.
Proof. vm_compute. reflexivity. Qed.
Local Opaque frombytes_sym.

Lemma testbit_word B j k : (forall x, 0 <= nth x B 0 < 2 ^ 8) -> 0 <= k < 16 ->
  Z.testbit (nth (2 * j) B 0 + 256 * nth (2 * j + 1) B 0) k =
  if k <? 8 then Z.testbit (nth (2 * j) B 0) k else Z.testbit (nth (2 * j + 1) B 0) (k - 8).
Proof.
  intros HB Hk. pose proof (HB (2 * j)%nat). pose proof (HB (2 * j + 1)%nat).
  replace (nth (2 * j) B 0 + 256 * nth (2 * j + 1) B 0)
    with (Z.lor (nth (2 * j) B 0) (nth (2 * j + 1) B 0 * 2 ^ 8)).
  - rewrite Z.lor_spec. destruct (Z.ltb_spec k 8).
    + rewrite Z.mul_pow2_bits_low by lia. apply orb_false_r.
    + rewrite Z.mul_pow2_bits by lia. now rewrite (testbit_high (nth (2 * j) B 0) 8) by lia.
  - rewrite lor_shifted by lia. lia.
Qed.
Ltac dec_word HB := repeat match goal with
  | |- context [Z.testbit (nth (2 * ?j) ?B 0 + 256 * nth (2 * ?j + 1) ?B 0) ?k] =>
      rewrite (testbit_word B j k HB) by lia
  end; cbn [Z.ltb Z.compare Pos.compare Pos.compare_cont].
Ltac dec_bit2 g B c HB :=
  match goal with |- _ = Z.testbit (field _ _ ?x) (Z.of_nat ?y) =>
    let m := eval compute in ((12 * c + y) / 8)%nat in
    let b := eval compute in ((12 * c + y) mod 8)%nat in
    let m2 := eval compute in (m / 2)%nat in
    let r2 := eval compute in (m mod 2)%nat in
    rewrite (field_testbit 12 B (2 * (3 * g + m2) + r2) b x y) by lia
  end; rewrite testbit_land_ones by lia; tb_push2; tb_const; tb_push2; tb_const; dec_word HB; tb_const;
  rewrite ?orb_false_r, ?orb_false_l, ?Nat.add_0_r; reflexivity.

Lemma nttfrombytes_avx_wp off :
  traced (fun T => forall (JJ : Junk) r a, length r = 256%nat -> (off + 384 <= length a)%nat -> bytes a ->
    wp (nttfrombytes_avx r a off) T (fun r' => r' = avx_order (mk 256 (field 12 (sub a off 384))))).
Proof.
  exists (trace_of frombytes_sym). intros JJ r a Hr La Ba. unfold nttfrombytes_avx.
  destruct (Nat.leb_spec (off + 384) (length a)); [|lia].
  set (B := firstn 384 (skipn off a)). change (sub a off 384) with B.
  assert (LB : length B = 384%nat) by (unfold B; rewrite firstn_length, skipn_length; lia).
  assert (HB : forall x, 0 <= nth x B 0 < 2 ^ 8).
  { intros. pose proof (bnd_nth0 0 255 B x ltac:(unfold B; now apply (bnd_sub 0 255 a off 384)) ltac:(lia)). lia. }
  assert (LW := words_of_bytes_length 192 B LB).
  eapply wp_conseq.
  { apply (asm_exact JJ r (words_of_bytes B) [] nttfrombytes_avx_code [ins 0 256; ins 256 192; sqdata] [r; words_of_bytes B; qdata] _ _ frombytes_sym_eq frombytes_chk).
    cbn [map]. now rewrite eval_r, eval_a192, eval_qdata by auto. }
  intros r' ->. unfold frombytes_words. rewrite map_map.
  apply (list_eq_nth 0); [now rewrite map_seq_length, avx_order_length|].
  intros p Hp. rewrite map_seq_length in Hp. rewrite nth_map_seq, avx_order_nth by auto.
  pose proof (avx_ix_lt p Hp) as Hm. rewrite nth_mk by auto.
  generalize dependent (avx_ix p). clear p Hp. intros m Hm. cbv zeta.
  pose proof (Nat.div_mod m 4 ltac:(lia)) as Dm. pose proof (Nat.mod_upper_bound m 4 ltac:(lia)) as Rm.
  set (g := (m / 4)%nat) in *.
  assert (Ev : forall k, (k < 3)%nat ->
    env3 JJ r (words_of_bytes B) [] (256 + N.of_nat (3 * g + k)) =
    i16 (nth (2 * (3 * g + k)) B 0 + 256 * nth (2 * (3 * g + k) + 1) B 0)).
  { intros k Hk. rewrite <- (nth_words_of_bytes 192) by (auto; lia). unfold env3. nsplit. f_equal. lia. }
  assert (K : forall x, Z.land x 4095 = Z.land x (Z.ones 12)) by (intros; reflexivity).
  assert (Hg : (g < 64)%nat) by lia. clearbody g.
  destruct (m mod 4)%nat as [|[|[|[|c]]]]; try lia; subst m; cbn [eval]; rewrite ?Ev, K by lia;
    (apply (bits_ext 12); [now apply land_ones_range|apply field_range|]).
  - cases8 ltac:(dec_bit2 g B 0%nat HB).
  - cases8 ltac:(dec_bit2 g B 1%nat HB).
  - cases8 ltac:(dec_bit2 g B 2%nat HB).
  - cases8 ltac:(dec_bit2 g B 3%nat HB).
Qed.
