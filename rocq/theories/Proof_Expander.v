(** * The seed expander of nistkat/rng.c *)
From Coq Require Import ZArith List Lia Bool.
From Verif Require Import CMonad WP Proof_Base Model_Randombytes Model_Rng Spec_DRBG Vocab Vocab_Rng Proof_Verify Proof_Rng.
Import ListNotations.
Open Scope Z_scope.
Open Scope cmonad_scope.

Section Cipher.
Variable E : cipher.
Hypothesis HE : forall k b, length (E k b) = 16%nat /\ bytes (E k b).
Variables (seed div : list Z) (maxlen : Z).
Hypothesis Ls : length seed = 32%nat.
Hypothesis Ld : length div = 8%nat.

Notation stream := (expander_byte E seed div maxlen).
Definition ctr_at (b : nat) : list Z := div ++ be_bytes 4 maxlen ++ be_bytes 4 (Z.of_nat b).
(** Position [p] after [b] blocks *)
Definition at_pos (p : nat) (ctx : xof_ctx) : Prop :=
  exists b : nat, x_key ctx = seed /\ x_ctr ctx = ctr_at b /\ length (x_buffer ctx) = 16%nat /\
    0 <= x_pos ctx <= 16 /\ Z.of_nat p + 16 = 16 * Z.of_nat b + x_pos ctx /\
    (forall b', b = S b' -> x_buffer ctx = E seed (ctr_at b')).

Lemma block_stream b pos c : (pos + c <= 16)%nat ->
  firstn c (skipn pos (E seed (ctr_at b))) = map stream (seq (16 * b + pos) c).
Proof.
  intros L. apply (nth_ext _ _ 0 0).
  - rewrite firstn_length, skipn_length, map_length, seq_length, (proj1 (HE _ _)). lia.
  - intros i Hi. rewrite firstn_length, skipn_length, (proj1 (HE _ _)) in Hi.
    rewrite nth_firstn, nth_skipn by lia. destruct (Nat.ltb_spec i c); [|lia].
    rewrite (nth_indep (map _ _) 0 (stream 0%nat)) by (rewrite map_length, seq_length; lia).
    rewrite map_nth, seq_nth by lia. unfold expander_byte.
    replace ((16 * b + pos + i) / 16)%nat with b by (apply Nat.div_unique with (r := (pos + i)%nat); lia).
    replace ((16 * b + pos + i) mod 16)%nat with (pos + i)%nat by (apply Nat.mod_unique with (q := b); lia).
    reflexivity.
Qed.
Lemma ctr_next b : yields (increment 4 12 (ctr_at b)) (ctr_at (S b)).
Proof.
  unfold ctr_at.
  pose proof (increment_ok 4 (div ++ be_bytes 4 maxlen) (be_bytes 4 (Z.of_nat b)) [] (be_bytes_length 4 _) (be_bytes_range 4 _)) as I.
  rewrite app_length, be_bytes_length, Ld, !app_nil_r, <- !app_assoc in I. eapply yields_eq; [exact I|].
  f_equal. f_equal. rewrite be_value_bytes, <- be_bytes_mod, Zplus_mod_idemp_l, be_bytes_mod. f_equal. lia.
Qed.
Lemma stream_app p a c : map stream (seq p (a + c)) = map stream (seq p a) ++ map stream (seq (p + a) c).
Proof. now rewrite seq_app, map_app. Qed.

Definition work (ctx : xof_ctx) (n : nat) : nat := n + (if x_pos ctx =? 16 then 1 else 0).
Lemma loop_ok `{Junk} fuel : forall ctx p pre don old post, at_pos p ctx -> (work ctx (length old) < fuel)%nat ->
  Z.of_nat (length don) + Z.of_nat (length old) < 2 ^ 31 * 4 ->
  exists ctx', yields (expander_loop E fuel ctx (pre ++ don ++ old ++ post) (length pre) (Z.of_nat (length don)) (Z.of_nat (length old)))
    (ctx', pre ++ don ++ map stream (seq p (length old)) ++ post) /\
    at_pos (p + length old) ctx' /\ x_remaining ctx' = x_remaining ctx.
Proof.
  induction fuel as [|fuel IH]; intros ctx p pre don old post A Hf Hl; [lia|]. cbn [expander_loop].
  destruct A as (b & Ek & Ec & Lb & Hp & Ep & Eb).
  destruct old as [|o0 old'] eqn:Eo.
  { exists ctx. split; [|split; [|reflexivity]].
    - ystep. cbn [length Z.of_nat]. eapply yields_eq; [apply yields_ret|]. reflexivity.
    - cbn [length]. rewrite Nat.add_0_r. exists b. auto 10. }
  rewrite <- Eo in *. assert (Hn : (0 < length old)%nat) by (rewrite Eo; cbn; lia). clear Eo o0 old'.
  set (n := length old) in *. set (pos := Z.to_nat (x_pos ctx)).
  assert (Hpos : x_pos ctx = Z.of_nat pos) by (unfold pos; lia).
  assert (Hd : u64 (16 - x_pos ctx) = Z.of_nat (16 - pos)).
  { unfold u64, wrapu. rewrite Z.mod_small by lia. lia. }
  (* the available bytes of the buffer *)
  assert (AV : forall c, (c <= 16 - pos)%nat -> firstn c (skipn pos (x_buffer ctx)) = map stream (seq p c)).
  { intros c Hc. destruct b as [|b'].
    - assert (c = 0)%nat as -> by lia. reflexivity.
    - rewrite (Eb b' eq_refl), block_stream by lia. f_equal. f_equal. lia. }
  assert (CP : forall c o1 o2, old = o1 ++ o2 -> length o1 = c -> (c <= 16 - pos)%nat ->
    yields (memcpy (pre ++ don ++ old ++ post) (length pre + Z.to_nat (Z.of_nat (length don))) (x_buffer ctx) (Z.to_nat (x_pos ctx)) c)
      (pre ++ (don ++ map stream (seq p c)) ++ o2 ++ post)).
  { intros c o1 o2 E1 L1 Hc. rewrite Nat2Z.id, <- app_length. fold pos.
    eapply yields_eq; [apply yields_memcpy; [rewrite E1, !app_length; lia|lia]|].
    rewrite AV by lia. rewrite E1.
    replace (pre ++ don ++ (o1 ++ o2) ++ post) with ((pre ++ don) ++ o1 ++ (o2 ++ post)) by now rewrite <- !app_assoc.
    rewrite splice_mid by (now rewrite map_length, seq_length). now rewrite <- !app_assoc. }
  destruct (Compare_dec.le_lt_dec n (16 - pos)) as [Le|Gt].
  - exists {| x_buffer := x_buffer ctx; x_pos := i32 (u64 (x_pos ctx + Z.of_nat n)); x_remaining := x_remaining ctx; x_key := x_key ctx; x_ctr := x_ctr ctx |}.
    assert (E3 : i32 (u64 (x_pos ctx + Z.of_nat n)) = Z.of_nat (pos + n)).
    { rewrite Hpos. unfold u64, i32, wrapu. rewrite Z.mod_small by lia. rewrite wraps_small by (cbn; lia). lia. }
    split; [|split; [|reflexivity]].
    + ystep. replace (0 <? Z.of_nat n) with true by (symmetry; apply Z.ltb_lt; lia). cbn [negb].
      eapply yields_bind; [apply yields_chk; lia|]. cbv beta. ystep. rewrite Hd.
      replace (Z.of_nat n <=? Z.of_nat (16 - pos)) with true by (symmetry; apply Z.leb_le; lia).
      eapply yields_bind.
      { rewrite (Nat2Z.id n). apply (CP n old []); [now rewrite app_nil_r|reflexivity|lia]. }
      cbv beta. eapply yields_eq; [apply yields_ret|]. cbn [app]. now rewrite <- app_assoc.
    + exists b. cbn [x_key x_ctr x_buffer x_pos]. rewrite E3. repeat split; auto; lia.
  - destruct (split_at old (16 - pos) ltac:(fold n; lia)) as (o1 & o2 & E1 & L1).
    assert (L2 : (length o2 = n - (16 - pos))%nat) by (unfold n; rewrite E1, app_length; lia).
    destruct (IH {| x_buffer := E seed (ctr_at b); x_pos := 0; x_remaining := x_remaining ctx; x_key := seed; x_ctr := ctr_at (S b) |}
      (p + (16 - pos))%nat pre (don ++ map stream (seq p (16 - pos))) o2 post) as (ctx' & Y & A' & R').
    { exists (S b). cbn [x_key x_ctr x_buffer x_pos]. repeat split; auto; try lia; [apply HE|]. intros b' [= <-]. reflexivity. }
    { unfold work in *. cbn [x_pos]. rewrite L2. cbn [Z.eqb]. destruct (Z.eqb_spec (x_pos ctx) 16); lia. }
    { rewrite app_length, map_length, seq_length. lia. }
    exists ctx'. split; [|split; [|exact R']].
    + ystep. replace (0 <? Z.of_nat n) with true by (symmetry; apply Z.ltb_lt; lia). cbn [negb].
      eapply yields_bind; [apply yields_chk; lia|]. cbv beta. ystep. rewrite Hd.
      replace (Z.of_nat n <=? Z.of_nat (16 - pos)) with false by (symmetry; apply Z.leb_gt; lia).
      eapply yields_bind.
      { rewrite (Nat2Z.id (16 - pos)). apply (CP (16 - pos)%nat o1 o2 E1 L1). lia. }
      cbv beta. rewrite Ek, Ec. eapply yields_bind.
      { pose proof (ecb_ok E HE seed (ctr_at b) [] (x_buffer ctx) []) as X. cbn [app length] in X. rewrite !app_nil_r in X. apply X; auto.
        unfold ctr_at. rewrite !app_length, !be_bytes_length. lia. }
      cbv beta. eapply yields_bind; [apply ctr_next|]. cbv beta.
      replace (u64 (Z.of_nat n - (16 - x_pos ctx))) with (Z.of_nat (length o2)).
      2:{ unfold u64, wrapu. rewrite Z.mod_small by lia. lia. }
      replace (u64 (Z.of_nat (length don) + (16 - x_pos ctx))) with (Z.of_nat (length (don ++ map stream (seq p (16 - pos))))).
      2:{ rewrite app_length, map_length, seq_length. unfold u64, wrapu. rewrite Z.mod_small by lia. lia. }
      eapply yields_eq; [exact Y|]. f_equal. rewrite <- !app_assoc. do 2 f_equal. rewrite app_assoc, <- stream_app, L2.
      do 3 f_equal. lia.
    + replace (p + n)%nat with (p + (16 - pos) + length o2)%nat by lia. exact A'.
Qed.

Lemma answers `{Junk} reqs : forall ctx p, at_pos p ctx -> x_remaining ctx = maxlen - Z.of_nat p -> maxlen < 2 ^ 32 -> Forall fits reqs ->
  yields (expander_run E ctx reqs) (expander_answers stream maxlen p reqs).
Proof.
  induction reqs as [|[[[x off]|] n] reqs IH]; intros ctx p A R Hm F; cbn [expander_run expander_answers].
  - apply yields_ret.
  - inversion F as [|? ? F1 F2]; subst. unfold fits in F1. cbn [fst snd] in F1.
    destruct (split_at x off ltac:(lia)) as (pre & x' & -> & L1). rewrite app_length in F1.
    destruct (split_at x' n ltac:(lia)) as (old & post & -> & L2). clear F1.
    destruct (Z.ltb_spec (Z.of_nat (p + n)) maxlen) as [Lt|Ge].
    + set (ctx1 := {| x_buffer := x_buffer ctx; x_pos := x_pos ctx; x_remaining := x_remaining ctx - Z.of_nat n; x_key := x_key ctx; x_ctr := x_ctr ctx |}).
      destruct (loop_ok (Z.to_nat (Z.of_nat n + 2)) ctx1 p pre [] old post) as (ctx' & Y & A' & R').
      { exact A. } { unfold work. rewrite L2. destruct (x_pos ctx1 =? 16); lia. } { cbn [length]. lia. }
      eapply yields_bind.
      * unfold seedexpander. ystep. ystep.
        replace (x_remaining ctx <=? Z.of_nat n) with false by (symmetry; apply Z.leb_gt; lia).
        fold ctx1. rewrite L1, L2 in Y. cbn [app length Z.of_nat] in Y. eapply yields_bind; [exact Y|]. cbv beta iota. apply yields_ret.
      * cbv beta iota. rewrite L2 in A'. eapply yields_bind; [apply (IH ctx' _ A'); auto|].
        { rewrite R'. cbn [ctx1 x_remaining]. lia. }
        cbv beta. eapply yields_eq; [apply yields_ret|]. unfold RNG_SUCCESS. do 4 f_equal.
        unfold overwrite. rewrite map_length, seq_length.
        rewrite <- L1. rewrite firstn_app, Nat.sub_diag, firstn_O, app_nil_r, firstn_all. cbn [app]. do 2 f_equal.
        rewrite skipn_app, skipn_all2 by lia. cbn [app]. rewrite skipn_app, skipn_all2 by lia. cbn [app].
        replace (length pre + n - length pre - length old)%nat with 0%nat by lia. reflexivity.
    + eapply yields_bind.
      * unfold seedexpander. ystep. ystep.
        replace (x_remaining ctx <=? Z.of_nat n) with true by (symmetry; apply Z.leb_le; lia). apply yields_ret.
      * cbv beta iota. eapply yields_bind; [apply (IH ctx p A); auto|]. cbv beta. apply yields_ret.
  - inversion F as [|? ? F1 F2]; subst. eapply yields_bind.
    + unfold seedexpander. ystep. apply yields_ret.
    + cbv beta iota. eapply yields_bind; [apply (IH ctx p A); auto|]. cbv beta. apply yields_ret.
Qed.

Lemma init_ok `{Junk} ctx : length (x_buffer ctx) = 16%nat -> length (x_key ctx) = 32%nat -> length (x_ctr ctx) = 16%nat ->
  0 <= maxlen < 2 ^ 32 ->
  exists ctx', yields (seedexpander_init ctx seed div maxlen) (ctx', 0) /\ at_pos 0 ctx' /\ x_remaining ctx' = maxlen.
Proof.
  intros Lb Lk Lc Hm. unfold seedexpander_init.
  exists {| x_buffer := repeat 0 16; x_pos := 16; x_remaining := maxlen; x_key := seed; x_ctr := ctr_at 0 |}.
  split; [|split; [|reflexivity]].
  - ystep. replace (4294967296 <=? maxlen) with false by (symmetry; apply Z.leb_gt; lia).
    eapply yields_bind with (v := seed).
    { eapply yields_eq; [apply yields_memcpy; lia|]. cbn [skipn]. rewrite firstn_all2 by lia. apply splice_full. lia. }
    cbv beta. 
    destruct (split_at (x_ctr ctx) 8 ltac:(lia)) as (c1 & c2 & Ec & L1). rewrite Ec in *. rewrite app_length in Lc.
    eapply yields_bind with (v := div ++ c2).
    { pose proof (yields_copy [] c1 c2 [] div []) as Y. cbn [app length] in Y. rewrite app_nil_r, Ld in Y. apply Y. lia. }
    cbv beta. destruct c2 as [|a8 [|a9 [|a10 [|a11 c2]]]]; cbn [length] in Lc; try (exfalso; lia).
    assert (GE : forall l a x c v, length l = a -> yields (aset (l ++ x :: c) a v) (l ++ v :: c)) by (intros l a x c v <-; apply yields_set).
    assert (U8 : forall z, u8 (z mod 256) = z mod 256) by (intros z; unfold u8, wrapu; apply Zmod_mod).
    rewrite !U8, !Z.shiftr_div_pow2 by lia. change (2 ^ 8) with 256.
    eapply yields_bind.
    { replace (div ++ a8 :: a9 :: a10 :: a11 :: c2) with ((div ++ [a8; a9; a10]) ++ a11 :: c2) by now rewrite <- app_assoc.
      apply GE. rewrite app_length. cbn. lia. }
    cbv beta. eapply yields_bind.
    { replace ((div ++ [a8; a9; a10]) ++ maxlen mod 256 :: c2) with ((div ++ [a8; a9]) ++ a10 :: maxlen mod 256 :: c2) by now rewrite <- !app_assoc.
      apply GE. rewrite app_length. cbn. lia. }
    cbv beta. eapply yields_bind.
    { match goal with |- yields (aset ((div ++ [a8; a9]) ++ ?r) _ _) _ =>
        replace ((div ++ [a8; a9]) ++ r) with ((div ++ [a8]) ++ a9 :: r) by now rewrite <- !app_assoc end.
      apply GE. rewrite app_length. cbn. lia. }
    cbv beta. eapply yields_bind.
    { match goal with |- yields (aset ((div ++ [a8]) ++ ?r) _ _) _ =>
        replace ((div ++ [a8]) ++ r) with (div ++ a8 :: r) by now rewrite <- !app_assoc end.
      apply GE. lia. }
    cbv beta. eapply yields_bind with (v := ctr_at 0).
    { unfold zero.
      match goal with |- yields (kernel_write (div ++ ?w :: ?x :: ?y :: ?z :: c2) _ _) _ =>
        replace (div ++ w :: x :: y :: z :: c2) with ((div ++ [w; x; y; z]) ++ c2 ++ []) by (rewrite <- app_assoc, app_nil_r; reflexivity);
        replace 12%nat with (length (div ++ [w; x; y; z])) by (rewrite app_length; cbn; lia) end.
      eapply yields_eq; [apply yields_write; rewrite repeat_length; lia|].
      unfold ctr_at. cbn [be_bytes app Z.of_nat]. rewrite <- app_assoc. reflexivity. }
    cbv beta. eapply yields_bind with (v := repeat 0 16).
    { unfold zero. rewrite <- (app_nil_r (x_buffer ctx)). eapply yields_eq; [apply (yields_write [] (x_buffer ctx) []); now rewrite repeat_length|]. apply app_nil_r. }
    cbv beta. apply yields_ret.
  - exists 0%nat. cbn [x_key x_ctr x_buffer x_pos]. repeat split; lia || (intros b' [=]) || idtac.
Qed.
End Cipher.
