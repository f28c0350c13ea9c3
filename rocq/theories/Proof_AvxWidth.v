(** * C74: the AVX2 sponge, comparison and move with counters as declared are those counting in nat *)
From Coq Require Import ZArith List Lia Bool.
From Verif Require Import CMonad Model_Fips202 Model_AvxKeccak Model_AvxFips202x4 Model_AvxIntrin Model_AvxC Model_AvxWidth Spec_FIPS202 Vocab Vocab_Code Vocab_Four Proof_NTTLoops Proof_Width Proof_PropAvxC Proof_PropAvxHash.
Import ListNotations.
Open Scope Z_scope.
Open Scope cmonad_scope.
Local Opaque KeccakF1600_StatePermute4x gather64 store64_each load_bytes store_bytes exec_c copy_each.

Section WithJunk.
Context {JJ : Junk}.

Lemma gathered_w fuel ins n s pos : Z.of_nat pos + 8 * Z.of_nat n < 2 ^ 64 -> (n < fuel)%nat ->
  xor_gathered_w fuel ins (Z.of_nat n) s (Z.of_nat pos) = (st <- xor_gathered ins n s pos ;; ret (fst st, Z.of_nat n, Z.of_nat (snd st))).
Proof.
  intros Hp Hf. unfold xor_gathered_w, xor_gathered.
  set (e := fun (i : nat) (st : list (list Z) * nat) => (fst st, Z.of_nat i, Z.of_nat (snd st))).
  change (s, 0, Z.of_nat pos) with (e 0%nat (s, pos)).
  apply (while_for (fun i (st : list (list Z) * nat) => snd st = (pos + 8 * i)%nat) e) with (n := n) (i := 0%nat) (s := (s, pos)); cbn [snd]; try lia.
  - intros i [x p] _ Hi. cbn [e fst snd]. f_equal. apply Z.ltb_lt. lia.
  - intros [x p] _. cbn [e fst snd]. f_equal. apply Z.ltb_ge. lia.
  - intros i [x p] E Hi. cbn [snd] in E. cbn [e fst snd]. rewrite !Nat2Z.id, !bind_assoc. apply bind_eq. intros t tt _. rewrite !bind_assoc. apply bind_eq. intros y ty _.
    rewrite !bind_assoc. apply bind_eq. intros z tz _. rewrite bind_ret. cbn [e fst snd]. rewrite !u64_small by lia. replace (Z.of_nat i + 1) with (Z.of_nat (S i)) by lia. replace (Z.of_nat p + 8) with (Z.of_nat (p + 8)) by lia. reflexivity.
  - intros i [x p] [x1 p1] t E Hi B. cbn [snd] in *.
    destruct (gather64 ins p) as [v tv| | |]; try discriminate B. cbn [bind] in B.
    destruct (aget x i) as [y ty| | |]; try discriminate B. cbn [bind] in B.
    destruct (aset _ _ _) as [z tz| | |]; try discriminate B. cbn [bind ret] in B. injection B as _ <- _. lia.
Qed.
Lemma gathered_pos ins n s pos s' pos' t : xor_gathered ins n s pos = Ok (s', pos') t -> pos' = (pos + 8 * n)%nat.
Proof.
  intros E. apply (for_inv (fun i (st : list (list Z) * nat) => snd st = (pos + 8 * i)%nat)) in E; [exact E|cbn [snd]; lia|].
  intros i [x p] [x1 p1] u Hi HE B. cbn [snd] in *.
  destruct (gather64 ins p) as [v tv| | |]; try discriminate B. cbn [bind] in B.
  destruct (aget x i) as [y ty| | |]; try discriminate B. cbn [bind] in B.
  destruct (aset _ _ _) as [z tz| | |]; try discriminate B. cbn [bind ret] in B. injection B as _ <- _. lia.
Qed.

Lemma absorb4_w fuel s r ins inlen p : (0 < r)%nat -> (r mod 8 = 0)%nat -> Z.of_nat r < 2 ^ 32 -> Z.of_nat inlen < 2 ^ 64 -> (inlen + r + 26 < fuel)%nat ->
  keccakx4_absorb_once_w fuel s (Z.of_nat r) ins (Z.of_nat inlen) p = keccakx4_absorb_once s r ins inlen p.
Proof.
  intros Hr0 Hr8 Hr Hl Hf. unfold keccakx4_absorb_once_w, keccakx4_absorb_once.
  assert (R8 : Z.of_nat r / 8 = Z.of_nat (r / 8)) by (change 8 with (Z.of_nat 8); now rewrite Nat2Z.inj_div).
  assert (R8' : (8 * (r / 8) = r)%nat) by (pose proof (Nat.div_mod r 8); lia).
  assert (R1 : Z.to_nat (u32 (Z.of_nat (r / 8) - 1)) = (r / 8 - 1)%nat) by (rewrite u32_small by lia; lia).
  rewrite R8, R1.
  match goal with |- bind (while_ fuel ?c ?b (s, 0)) _ = bind ?f _ =>
    assert (Z0 : while_ fuel c b (s, 0) = (s <- f ;; ret (s, Z.of_nat 25))) end.
  { apply (while_for (fun i (s : list (list Z)) => True) (fun i s => (s, Z.of_nat i))) with (n := 25%nat) (i := 0%nat) (s := s); auto; try lia.
    - intros i x _ Hi. f_equal. apply Z.ltb_lt. lia.
    - intros i x _ Hi. rewrite Nat2Z.id. apply bind_eq. intros y ty _. rewrite u64_small by lia. f_equal. f_equal. lia. }
  rewrite Z0, !bind_assoc. clear Z0. apply bind_eq. intros s0 t0 _. rewrite bind_ret. clear s t0. rename s0 into s.
  set (emb := fun st : list (list Z) * nat * nat => let '(s, o, l) := st in (s, Z.of_nat o, Z.of_nat l)).
  set (I := fun st : list (list Z) * nat * nat => let '(s, o, l) := st in (o + l = inlen)%nat).
  change (s, 0, Z.of_nat inlen) with (emb (s, 0%nat, inlen)).
  set (nb := fun st : list (list Z) * nat * nat => let '(s, pos, inlen) := st in
      '(s, pos) <- xor_gathered ins (r / 8) s pos ;;
      s <- KeccakF1600_StatePermute4x s ;;
      ret (s, pos, (inlen - r)%nat)).
  set (nc := fun st : list (list Z) * nat * nat => let '(s, pos, inlen) := st in test (r <=? inlen)%nat).
  assert (STEP : forall st t st1 t1, I st -> nc st = Ok true t -> nb st = Ok st1 t1 -> I st1 /\ (snd st1 < snd st)%nat).
  { intros [[x o] l] t [[x1 o1] l1] t1 A C B. apply test_ok in C. apply Nat.leb_le in C. cbn [I] in A. cbn [nb] in B.
    destruct (xor_gathered _ _ _ _) as [[y o2] ty| | |] eqn:X; try discriminate B. cbn [bind] in B. apply gathered_pos in X.
    destruct (KeccakF1600_StatePermute4x y) as [z tz| | |]; try discriminate B. cbn [bind ret] in B. injection B as <- <- <- _. cbn [I snd]. lia. }
  rewrite (while_sim I emb (fun st => snd st) nc nb) with (f := S inlen); [| | |exact STEP|cbn [I]; lia|cbn [snd]; lia|cbn [snd]; lia].
  - rewrite !bind_assoc. apply bind_eq. intros [[s1 o1] l1] t1 E. rewrite bind_ret. cbn [emb].
    eapply (while_exit I) in E; [|intros; eapply STEP; eassumption|cbn [I]; lia].
    destruct E as [A (t' & E)]. apply test_ok in E. apply Nat.leb_gt in E. cbn [I] in A.
    unfold ndiv. change 8 with (Z.of_nat 8). rewrite <- Nat2Z.inj_div. 
    assert (L8 : (8 * (l1 / 8) <= l1)%nat) by (apply Nat.mul_div_le; lia).
    assert (L8' : (l1 - 8 * (l1 / 8) < 8)%nat) by (pose proof (Nat.div_mod l1 8); pose proof (Nat.mod_upper_bound l1 8); lia).
    set (i := (l1 / 8)%nat) in *.
    match goal with |- bind (Ok _ ?T) ?f = bind (Ok _ ?T) ?g => enough (EQ : f (Z.of_nat i) = g i) by (cbn [bind]; now rewrite EQ) end.
    cbv beta. rewrite gathered_w by lia. rewrite !bind_assoc. apply bind_eq. intros [s2 o2] t2 X. apply gathered_pos in X. rewrite bind_ret. cbn [fst snd]. cbv zeta.
    rewrite !Nat2Z.id. change (Z.of_nat 8) with 8.
    rewrite (u64_small (8 * Z.of_nat i)) by lia. rewrite (u64_small (Z.of_nat l1 - _)) by lia.
    replace (Z.of_nat l1 - 8 * Z.of_nat i) with (Z.of_nat (l1 - 8 * i)) by lia. set (l2 := (l1 - 8 * i)%nat) in *.
    rewrite (u64_small (8 * Z.of_nat l2)) by lia. replace (8 * Z.of_nat l2) with (Z.of_nat (8 * l2)) by lia.
    change 0 with (Z.of_nat 0) at 1. rewrite of_nat_eqb. reflexivity.
  - intros [[x o] l] _. cbn [emb nc]. now rewrite of_nat_leb.
  - intros [[x o] l] t A C. apply test_ok in C. apply Nat.leb_le in C. cbn [I] in A. cbn [emb nb].
    rewrite gathered_w by lia. rewrite !bind_assoc. apply bind_eq. intros [y o2] ty _. rewrite bind_ret. cbn [fst snd]. cbv zeta.
    rewrite !bind_assoc. apply bind_eq. intros z tz _. rewrite bind_ret. cbn [emb]. rewrite u64_small by lia. f_equal. f_equal. lia.
Qed.

Lemma squeezeblocks4_w fuel outs oo nb r s : Z.of_nat r < 2 ^ 32 - 8 -> Z.of_nat nb < 2 ^ 64 -> (nb + r + 1 < fuel)%nat ->
  keccakx4_squeezeblocks_w fuel outs oo (Z.of_nat nb) (Z.of_nat r) s = keccakx4_squeezeblocks outs oo nb r s.
Proof.
  intros Hr Hl Hf. unfold keccakx4_squeezeblocks_w, keccakx4_squeezeblocks.
  assert (R8 : Z.of_nat r / 8 = Z.of_nat (r / 8)) by (change 8 with (Z.of_nat 8); now rewrite Nat2Z.inj_div).
  assert (R8' : (r / 8 <= r)%nat) by (apply Nat.div_le_upper_bound; lia).
  assert (R8'' : (8 * (r / 8) <= r)%nat) by (apply Nat.mul_div_le; lia).
  rewrite R8.
  match goal with |- bind (while_ fuel ?c ?b _) _ = ?f =>
    assert (Z0 : while_ fuel c b (outs, oo, Z.of_nat nb, s) = (st <- f ;; let '(outs, s) := st in ret (outs, (oo + r * nb)%nat, Z.of_nat (nb - nb), s))) end.
  { set (e := fun i (st : list (list Z) * list (list Z)) => (fst st, (oo + r * i)%nat, Z.of_nat (nb - i), snd st)).
    replace (outs, oo, Z.of_nat nb, s) with (e 0%nat (outs, s)).
    2: { unfold e. cbn [fst snd]. rewrite Nat.mul_0_r, Nat.add_0_r, Nat.sub_0_r. reflexivity. }
    etransitivity; [apply (while_for (fun i (st : list (list Z) * list (list Z)) => True) e) with (n := nb) (i := 0%nat) (s := (outs, s)) (k := nb)
      (f := fun n st => let '(outs, s) := st in
        s <- KeccakF1600_StatePermute4x s ;;
        outs <- for_ (r / 8) 0 (fun i outs => x <- aget s i ;; store64_each outs (oo + r * n + 8 * i) x) outs ;;
        ret (outs, s)); auto; try lia|].
    - intros i [y x] _ Hi. cbn [e fst snd]. f_equal. apply Z.ltb_lt. lia.
    - intros [y x] _. cbn [e fst snd]. now rewrite Nat.sub_diag.
    - intros i [y x] _ Hi. cbn [e fst snd]. rewrite !bind_assoc. apply bind_eq. intros x1 t1 _.
      match goal with |- bind (while_ fuel ?c ?b (y, 0)) _ = bind (bind ?f _) _ =>
        assert (Z0 : while_ fuel c b (y, 0) = (s <- f ;; ret (s, Z.of_nat (r / 8)))) end.
      { apply (while_for (fun i (s : list (list Z)) => True) (fun i s => (s, Z.of_nat i))) with (n := (r / 8)%nat) (i := 0%nat) (s := y); auto; try lia.
        - intros j z _ Hj. f_equal. apply Z.ltb_lt. lia.
        - intros z _. f_equal. apply Z.ltb_ge. lia.
        - intros j z _ Hj. rewrite Nat2Z.id. rewrite u32_small by lia. replace (Z.to_nat (8 * Z.of_nat j)) with (8 * j)%nat by lia.
          rewrite !bind_assoc. apply bind_eq. intros v tv _. apply bind_eq. intros w tw _.
          rewrite u32_small by lia. f_equal. f_equal. lia. }
      rewrite Z0, !bind_assoc. apply bind_eq. intros y1 ty _. rewrite !bind_ret. cbn [e fst snd]. rewrite Nat2Z.id.
      rewrite u64_small by lia.
      replace (oo + r * i + r)%nat with (oo + r * S i)%nat by nia. replace (Z.of_nat (nb - i) - 1) with (Z.of_nat (nb - S i)) by lia. reflexivity.
    - apply bind_eq. intros [y x] t _. reflexivity. }
  rewrite Z0, !bind_assoc. apply bind_eq_r. intros [y x] t _. now rewrite bind_ret.
Qed.

Lemma shakex4_whole_w fuel rate outs outlen ins inlen : (0 < rate)%nat -> (rate mod 8 = 0)%nat -> Z.of_nat rate < 2 ^ 32 - 8 ->
  Z.of_nat outlen < 2 ^ 64 -> Z.of_nat inlen < 2 ^ 64 -> (outlen + inlen + rate + 26 < fuel)%nat ->
  shakex4_w fuel (Z.of_nat rate) outs (Z.of_nat outlen) ins (Z.of_nat inlen) = shakex4 rate outs outlen ins inlen.
Proof.
  intros Hr0 Hr8 Hr Ho Hi Hf. unfold shakex4_w, shakex4, ndiv. rewrite <- Nat2Z.inj_div.
  assert (D : (outlen / rate * rate <= outlen)%nat) by (rewrite Nat.mul_comm; apply Nat.mul_div_le; lia).
  assert (D' : (outlen / rate <= outlen)%nat) by (apply Nat.div_le_upper_bound; nia).
  assert (D'' : (outlen - outlen / rate * rate < rate)%nat) by (pose proof (Nat.div_mod outlen rate); pose proof (Nat.mod_upper_bound outlen rate); lia).
  set (nb := (outlen / rate)%nat) in *.
  match goal with |- bind (Ok _ ?T) ?f = bind (Ok _ ?T) ?g => enough (EQ : f (Z.of_nat nb) = g nb) by (cbn [bind]; now rewrite EQ) end.
  cbv beta zeta. rewrite absorb4_w by lia. rewrite Nat2Z.id. apply bind_eq. intros st tst _. rewrite squeezeblocks4_w by lia. apply bind_eq. intros [outs1 s1] t1 _.
  rewrite <- Nat2Z.inj_mul. rewrite (u64_small (Z.of_nat (nb * rate))) by lia. rewrite Nat2Z.id. rewrite <- Nat2Z.inj_sub by lia.
  rewrite u64_small by lia. change 0 with (Z.of_nat 0) at 1. rewrite of_nat_eqb. apply bind_eq. intros [] tb _; [|reflexivity].
  change 1 with (Z.of_nat 1). rewrite squeezeblocks4_w by lia. apply bind_eq. intros [t s2] t2 _.
  set (m := (outlen - nb * rate)%nat) in *.
  match goal with |- bind (while_ fuel ?c ?b (outs1, 0)) _ = ?f =>
    assert (Z0 : while_ fuel c b (outs1, 0) = (s <- f ;; ret (s, Z.of_nat m))) end.
  { apply (while_for (fun i (s : list (list Z)) => True) (fun i s => (s, Z.of_nat i))) with (n := m) (i := 0%nat) (s := outs1); auto; try lia.
    - intros j z _ Hj. f_equal. apply Z.ltb_lt. lia.
    - intros z _. f_equal. apply Z.ltb_ge. lia.
    - intros j z _ Hj. rewrite Nat2Z.id. apply bind_eq. intros w tw _. change (Z.of_nat 1) with 1. rewrite u32_small by lia. f_equal. f_equal. lia. }
  rewrite Z0, !bind_assoc. apply bind_eq_r. intros y ty _. now rewrite bind_ret.
Qed.
End WithJunk.

Lemma width_shake128x4 : forall n outlen, Z.of_nat n < 2 ^ 64 -> Z.of_nat outlen < 2 ^ 64 ->
  exists T, forall (JJ : Junk) fuel outs ins, buffers outlen outs -> buffers (n + slack8 n) ins -> (outlen + n + 200 <= fuel)%nat ->
  shake128x4_w fuel outs (Z.of_nat outlen) ins (Z.of_nat n) = Ok (overwrite outs (map (fun b => SHAKE128 (firstn n b) outlen) ins)) T.
Proof.
  intros n outlen Hn Ho. destruct (shake128x4_fips202 n outlen) as (T & E). exists T. intros JJ fuel outs ins B1 B2 Hf. rewrite <- (E JJ outs ins B1 B2).
  unfold shake128x4_w. change 168 with (Z.of_nat 168). apply shakex4_whole_w; first [exact Hn|exact Ho|reflexivity|unfold SHAKE128_RATE, SHAKE256_RATE; lia].
Qed.
Lemma width_shake256x4 : forall n outlen, Z.of_nat n < 2 ^ 64 -> Z.of_nat outlen < 2 ^ 64 ->
  exists T, forall (JJ : Junk) fuel outs ins, buffers outlen outs -> buffers (n + slack8 n) ins -> (outlen + n + 200 <= fuel)%nat ->
  shake256x4_w fuel outs (Z.of_nat outlen) ins (Z.of_nat n) = Ok (overwrite outs (map (fun b => SHAKE256 (firstn n b) outlen) ins)) T.
Proof.
  intros n outlen Hn Ho. destruct (shake256x4_fips202 n outlen) as (T & E). exists T. intros JJ fuel outs ins B1 B2 Hf. rewrite <- (E JJ outs ins B1 B2).
  unfold shake256x4_w. change 136 with (Z.of_nat 136). apply shakex4_whole_w; first [exact Hn|exact Ho|reflexivity|unfold SHAKE128_RATE, SHAKE256_RATE; lia].
Qed.

Lemma verify_avx2_eq : forall fuel a ao b bo len, Z.of_nat len < 2 ^ 64 -> (len < fuel)%nat ->
  verify_avx2_w fuel a ao b bo (Z.of_nat len) = verify_avx2 a ao b bo len.
Proof.
  intros fuel a ao b bo len Hl Hf. unfold verify_avx2_w, verify_avx2.
  assert (R : Z.of_nat len / 32 = Z.of_nat (len / 32)) by (change 32 with (Z.of_nat 32); now rewrite Nat2Z.inj_div).
  assert (L : (32 * (len / 32) <= len)%nat) by (apply Nat.mul_div_le; lia).
  assert (L' : (len / 32 <= len)%nat) by lia.
  rewrite R. set (m := (len / 32)%nat) in *.
  match goal with |- bind (while_ fuel ?c ?b ?s0) _ = bind ?f _ => assert (Z0 : while_ fuel c b s0 = (s <- f ;; ret (s, Z.of_nat m))) end.
  { apply (while_for (fun i (s : list bool) => True) (fun i s => (s, Z.of_nat i))) with (n := m) (i := 0%nat) (s := repeat false 256); auto; try lia.
    - intros i x _ Hi. f_equal. apply Z.ltb_lt. lia.
    - intros x _. f_equal. apply Z.ltb_ge. lia.
    - intros i x _ Hi. rewrite u64_small by lia. replace (Z.to_nat (32 * Z.of_nat i)) with (32 * i)%nat by lia.
      rewrite !bind_assoc. apply bind_eq. intros v tv _. rewrite !bind_assoc. apply bind_eq. intros w tw _. rewrite !bind_assoc. apply bind_eq. intros o to _. rewrite bind_ret.
      rewrite u64_small by lia. f_equal. f_equal. lia. }
  rewrite Z0, !bind_assoc. clear Z0. apply bind_eq. intros h th _. rewrite bind_ret. cbv zeta.
  rewrite (u64_small (32 * Z.of_nat m)) by lia. replace (Z.to_nat (32 * Z.of_nat m)) with (32 * m)%nat by lia.
  replace (Z.of_nat len - 32 * Z.of_nat m) with (Z.of_nat (len - 32 * m)) by lia. rewrite (u64_small (Z.of_nat (len - 32 * m))) by lia.
  match goal with |- bind (while_ fuel ?c ?b ?s0) _ = bind ?f _ => assert (Z0 : while_ fuel c b s0 = (s <- f ;; ret (s, Z.of_nat (len - 32 * m)))) end.
  { apply (while_for (fun i (s : Z) => True) (fun i s => (s, Z.of_nat i))) with (n := (len - 32 * m)%nat) (i := 0%nat) (s := u64 (1 - testz h)); auto; try lia.
    - intros i x _ Hi. f_equal. apply Z.ltb_lt. lia.
    - intros x _. f_equal. apply Z.ltb_ge. lia.
    - intros i x _ Hi. rewrite Nat2Z.id, !bind_assoc. apply bind_eq. intros v tv _. rewrite !bind_assoc. apply bind_eq. intros w tw _. rewrite bind_ret.
      rewrite u64_small by lia. f_equal. f_equal. lia. }
  rewrite Z0, !bind_assoc. apply bind_eq. intros r t _. now rewrite bind_ret.
Qed.
Lemma cmov_avx2_eq : forall fuel r ro x xo len b, Z.of_nat len < 2 ^ 64 -> (len < fuel)%nat ->
  cmov_avx2_w fuel r ro x xo (Z.of_nat len) b = cmov_avx2 r ro x xo len b.
Proof.
  intros fuel r ro x xo len b Hl Hf. unfold cmov_avx2_w, cmov_avx2. cbv zeta.
  assert (R : Z.of_nat len / 32 = Z.of_nat (len / 32)) by (change 32 with (Z.of_nat 32); now rewrite Nat2Z.inj_div).
  assert (L : (32 * (len / 32) <= len)%nat) by (apply Nat.mul_div_le; lia).
  assert (L' : (len / 32 <= len)%nat) by lia.
  rewrite R. set (m := (len / 32)%nat) in *.
  match goal with |- bind (while_ fuel ?c ?b ?s0) _ = bind ?f _ => assert (Z0 : while_ fuel c b s0 = (s <- f ;; ret (s, Z.of_nat m))) end.
  { apply (while_for (fun i (s : list Z) => True) (fun i s => (s, Z.of_nat i))) with (n := m) (i := 0%nat) (s := r); auto; try lia.
    - intros i y _ Hi. f_equal. apply Z.ltb_lt. lia.
    - intros y _. f_equal. apply Z.ltb_ge. lia.
    - intros i y _ Hi. rewrite u64_small by lia. replace (Z.to_nat (32 * Z.of_nat i)) with (32 * i)%nat by lia.
      rewrite !bind_assoc. apply bind_eq. intros v tv _. rewrite !bind_assoc. apply bind_eq. intros w tw _. rewrite !bind_assoc. apply bind_eq. intros o to _.
      apply bind_eq. intros z tz _. rewrite u64_small by lia. f_equal. f_equal. lia. }
  rewrite Z0, !bind_assoc. clear Z0. apply bind_eq. intros y ty _. rewrite bind_ret.
  rewrite (u64_small (32 * Z.of_nat m)) by lia. replace (Z.to_nat (32 * Z.of_nat m)) with (32 * m)%nat by lia.
  replace (Z.of_nat len - 32 * Z.of_nat m) with (Z.of_nat (len - 32 * m)) by lia. rewrite (u64_small (Z.of_nat (len - 32 * m))) by lia.
  match goal with |- bind (while_ fuel ?c ?b ?s0) _ = ?f => assert (Z0 : while_ fuel c b s0 = (s <- f ;; ret (s, Z.of_nat (len - 32 * m)))) end.
  { apply (while_for (fun i (s : list Z) => True) (fun i s => (s, Z.of_nat i))) with (n := (len - 32 * m)%nat) (i := 0%nat) (s := y); auto; try lia.
    - intros i z _ Hi. f_equal. apply Z.ltb_lt. lia.
    - intros z _. f_equal. apply Z.ltb_ge. lia.
    - intros i z _ Hi. rewrite Nat2Z.id, !bind_assoc. apply bind_eq. intros v tv _. rewrite !bind_assoc. apply bind_eq. intros w tw _.
      apply bind_eq. intros z1 tz1 _. rewrite u64_small by lia. f_equal. f_equal. lia. }
  rewrite Z0, !bind_assoc. apply bind_eq_r. intros z t _. now rewrite bind_ret.
Qed.

Lemma width_verify_avx2 : forall ao bo len, Z.of_nat len < 2 ^ 64 ->
  exists T, forall fuel pa a sa pb b sb,
  length pa = ao -> byte_array len a -> length pb = bo -> byte_array len b -> (len < fuel)%nat ->
    (a = b -> verify_avx2_w fuel (pa ++ a ++ sa) ao (pb ++ b ++ sb) bo (Z.of_nat len) = Ok 0 T) /\
    (a <> b -> verify_avx2_w fuel (pa ++ a ++ sa) ao (pb ++ b ++ sb) bo (Z.of_nat len) = Ok 1 T).
Proof.
  intros ao bo len Hl. destruct (verify_avx2_spec ao bo len) as (T & E). exists T. intros fuel pa a sa pb b sb H1 H2 H3 H4 Hf.
  rewrite verify_avx2_eq by assumption. now apply E.
Qed.
Lemma width_cmov_avx2 : forall ro xo len, Z.of_nat len < 2 ^ 64 ->
  exists T, forall fuel pr r sr px x sx b,
  length pr = ro -> byte_array len r -> length px = xo -> byte_array len x -> b = 0 \/ b = 1 -> (len < fuel)%nat ->
  cmov_avx2_w fuel (pr ++ r ++ sr) ro (px ++ x ++ sx) xo (Z.of_nat len) b = Ok (pr ++ (if b =? 1 then x else r) ++ sr) T.
Proof.
  intros ro xo len Hl. destruct (cmov_avx2_spec ro xo len) as (T & E). exists T. intros fuel pr r sr px x sx b H1 H2 H3 H4 Hb Hf.
  rewrite cmov_avx2_eq by assumption. now apply E.
Qed.
(** Block by block *)
Lemma width_absorb4 : forall (JJ : Junk) fuel s r ins inlen p, (0 < r)%nat -> (r mod 8 = 0)%nat -> Z.of_nat r < 2 ^ 32 -> Z.of_nat inlen < 2 ^ 64 -> (inlen + r + 27 <= fuel)%nat ->
  keccakx4_absorb_once_w fuel s (Z.of_nat r) ins (Z.of_nat inlen) p = keccakx4_absorb_once s r ins inlen p.
Proof. intros. apply absorb4_w; assumption || lia. Qed.
Lemma width_squeezeblocks4 : forall (JJ : Junk) fuel outs oo nb r s, Z.of_nat r < 2 ^ 32 - 8 -> Z.of_nat nb < 2 ^ 64 -> (nb + r + 2 <= fuel)%nat ->
  keccakx4_squeezeblocks_w fuel outs oo (Z.of_nat nb) (Z.of_nat r) s = keccakx4_squeezeblocks outs oo nb r s.
Proof. intros. apply squeezeblocks4_w; lia. Qed.
