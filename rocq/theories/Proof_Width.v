(** * The sponge functions with counters as declared are those of Model_Fips202.v *)
From Coq Require Import ZArith List Lia Bool.
From Verif Require Import CMonad Model_Fips202 Model_Fips202Width Vocab_Buffers Proof_NTTLoops.
Import ListNotations.
Open Scope Z_scope.
Open Scope cmonad_scope.
Local Opaque KeccakF1600_StatePermute load64 store64.

Lemma while_sim {S S'} (I : S -> Prop) (emb : S -> S') (mu : S -> nat) cond body cond' body' :
  (forall s, I s -> cond' (emb s) = cond s) ->
  (forall s t, I s -> cond s = Ok true t -> body' (emb s) = (s1 <- body s ;; ret (emb s1))) ->
  (forall s t s1 t1, I s -> cond s = Ok true t -> body s = Ok s1 t1 -> I s1 /\ (mu s1 < mu s)%nat) ->
  forall f s f', I s -> (mu s < f)%nat -> (mu s < f')%nat -> while_ f' cond' body' (emb s) = (s1 <- while_ f cond body s ;; ret (emb s1)).
Proof.
  intros C B D. induction f as [|f IH]; intros s f' HI Hf Hf'; [lia|]. destruct f' as [|f']; [lia|]. cbn [while_].
  rewrite (C s HI). destruct (cond s) as [[] t|u| |] eqn:E; try reflexivity; cbn [bind]; [|cbn [bind ret]; rewrite ?app_nil_r; reflexivity].
  rewrite (B s t HI E). destruct (body s) as [s1 t1|u| |] eqn:F; try reflexivity. cbn [bind ret].
  destruct (D s t s1 t1 HI E F) as [HI1 HM]. rewrite (IH s1 f' HI1) by lia.
  destruct (while_ f cond body s1) as [s2 t2|u| |]; try reflexivity. cbn [bind ret]. now rewrite !app_nil_r.
Qed.
Lemma while_exit {S} (I : S -> Prop) cond body :
  (forall s t s1 t1, I s -> cond s = Ok true t -> body s = Ok s1 t1 -> I s1) ->
  forall f s s' t, I s -> while_ f cond body s = Ok s' t -> I s' /\ exists t', cond s' = Ok false t'.
Proof.
  intros D. induction f as [|f IH]; intros s s' t HI E; [discriminate E|]. cbn [while_] in E.
  destruct (cond s) as [[] t0|u| |] eqn:C; try discriminate E; cbn [bind] in E.
  - destruct (body s) as [s1 t1|u| |] eqn:F; try discriminate E. cbn [bind] in E.
    destruct (while_ f cond body s1) as [s2 t2|u| |] eqn:G; try discriminate E. injection E as <- _.
    eapply IH; [|exact G]. eapply D; eauto.
  - injection E as <- _. split; [exact HI|eauto].
Qed.

Lemma u64_small x : 0 <= x < 2 ^ 64 -> u64 x = x. Proof. apply Z.mod_small. Qed.
Lemma of_nat_leb a b : (Z.of_nat a <=? Z.of_nat b) = (a <=? b)%nat.
Proof. destruct (a <=? b)%nat eqn:E; [apply Z.leb_le; apply Nat.leb_le in E|apply Z.leb_gt; apply Nat.leb_gt in E]; lia. Qed.
Lemma of_nat_ltb a b : (Z.of_nat a <? Z.of_nat b) = (a <? b)%nat.
Proof. destruct (a <? b)%nat eqn:E; [apply Z.ltb_lt; apply Nat.ltb_lt in E|apply Z.ltb_ge; apply Nat.ltb_ge in E]; lia. Qed.
Lemma of_nat_eqb a b : (Z.of_nat a =? Z.of_nat b) = (a =? b)%nat.
Proof. destruct (a =? b)%nat eqn:E; [apply Z.eqb_eq; apply Nat.eqb_eq in E|apply Z.eqb_neq; apply Nat.eqb_neq in E]; lia. Qed.
Lemma test_ok b c t : test b = Ok c t -> b = c.
Proof. unfold test. now intros [= -> _]. Qed.

Lemma bind_eq_r {A} (m : res A) (f : A -> res A) : (forall v t, m = Ok v t -> f v = ret v) -> bind m f = m.
Proof. intros H. rewrite <- (bind_ret_r m) at 2. now apply bind_eq. Qed.

(** ** Absorbing *)
Lemma absorb_loop fuel inp io pos m s : (pos <= m)%nat -> Z.of_nat m < 2 ^ 32 -> (m - pos < fuel)%nat ->
  while_ fuel (fun st => let '(s, i, io) := st in test (i <? Z.of_nat m)) (absorb_byte_w inp) (s, Z.of_nat pos, io) =
  (s <- for_ (m - pos) pos (fun i s => b <- aget inp (io + (i - pos)) ;; xor_byte s i b) s ;; ret (s, Z.of_nat m, (io + (m - pos))%nat)).
Proof.
  intros Hm Hs Hf.
  replace (s, Z.of_nat pos, io) with (s, Z.of_nat pos, (io + (pos - pos))%nat) by (f_equal; lia).
  apply (while_for (fun i (s : list Z) => (pos <= i)%nat) (fun i s => (s, Z.of_nat i, (io + (i - pos))%nat))) with (n := m) (i := pos) (s := s); try lia.
  - intros i x _ Hi. f_equal. apply Z.ltb_lt. lia.
  - intros x _. f_equal. apply Z.ltb_ge. lia.
  - intros i x Hi Hi'. unfold absorb_byte_w. rewrite Nat2Z.id, !bind_assoc. apply bind_eq. intros b tb _. apply bind_eq. intros y ty _.
    rewrite u32_small by lia. f_equal. f_equal; [f_equal; lia|lia].
Qed.

Definition map_pos {A} (m : res (A * nat)) : res (A * Z) := with_value (fun '(s, p) => (s, Z.of_nat p)) m.
Lemma with_bind {A B} (g : A -> B) (m : res A) : with_value g m = (x <- m ;; ret (g x)).
Proof. destruct m; try reflexivity. cbn. now rewrite app_nil_r. Qed.

Lemma absorb_w fuel s pos r inp io inlen : (pos <= r)%nat -> (0 < r)%nat -> Z.of_nat r < 2 ^ 32 -> Z.of_nat pos + Z.of_nat inlen < 2 ^ 64 ->
  (inlen + r + 1 < fuel)%nat ->
  keccak_absorb_w fuel s (Z.of_nat pos) (Z.of_nat r) inp io (Z.of_nat inlen) = map_pos (keccak_absorb s pos r inp io inlen).
Proof.
  intros Hp Hr0 Hr Hl Hf. unfold map_pos. rewrite with_bind. unfold keccak_absorb_w, keccak_absorb.
  set (I := fun st : list Z * nat * nat * nat => let '(s, p, io, l) := st in (p <= r)%nat /\ (l <= inlen)%nat /\ Z.of_nat p + Z.of_nat l < 2 ^ 64).
  set (emb := fun st : list Z * nat * nat * nat => let '(s, p, io, l) := st in (s, Z.of_nat p, io, Z.of_nat l)).
  change (s, Z.of_nat pos, io, Z.of_nat inlen) with (emb (s, pos, io, inlen)).
  assert (HI : I (s, pos, io, inlen)) by (cbn; lia).
  assert (DIV : forall p l, (r <= p + l)%nat -> (p <= r)%nat -> ((0 + (l - (r - p))) / r < (p + l) / r)%nat).
  { intros p l H1 H2. replace (p + l)%nat with ((0 + (l - (r - p))) + 1 * r)%nat by lia. rewrite Nat.div_add by lia. lia. }
  assert (BD : ((pos + inlen) / r <= inlen + 1)%nat).
  { replace (inlen + 1)%nat with ((r * (inlen + 1)) / r)%nat by (rewrite Nat.mul_comm; now apply Nat.div_mul; lia).
    apply Nat.div_le_mono; nia. }
  rewrite (while_sim I emb (fun st => let '(s, p, io, l) := st in ((p + l) / r)%nat)
    (fun st => let '(s, pos, io, inlen) := st in test (r <=? pos + inlen)%nat)
    (fun st => let '(s, pos, io, inlen) := st in
      s <- for_ (r - pos) pos (fun i s => b <- aget inp (io + (i - pos)) ;; xor_byte s i b) s ;;
      s <- KeccakF1600_StatePermute s ;;
      ret (s, 0%nat, (io + (r - pos))%nat, (inlen - (r - pos))%nat))) with (f := S (S inlen)); [| | | |exact HI|lia|lia].
  - rewrite !bind_assoc. apply bind_eq. intros [[[s1 p1] io1] l1] t1 E. rewrite bind_ret. cbn [emb].
    eapply (while_exit I) in E; [|clear E|exact HI].
    + destruct E as [(A1 & A2 & A3) (t' & E)]. apply test_ok in E. apply Nat.leb_gt in E.
      rewrite u64_small by lia. rewrite <- Nat2Z.inj_add.
      rewrite absorb_loop by lia. rewrite !bind_assoc. replace (p1 + l1 - p1)%nat with l1 by lia.
      apply bind_eq. intros s2 t2 _. now rewrite !bind_ret.
    + intros [[[x p] o] l] t [[[x1 p0] o1] l0] t0 (A1 & A2 & A3) C B. apply test_ok in C. apply Nat.leb_le in C.
      destruct (for_ _ _ _ _) as [y ty| | |]; try discriminate B. cbn [bind] in B.
      destruct (KeccakF1600_StatePermute y) as [z tz| | |]; try discriminate B. cbn [bind ret] in B. injection B as <- <- <- <- _. cbn. lia.
  - intros [[[x p] o] l] (A1 & A2 & A3). cbn [emb]. rewrite u64_small by lia. rewrite <- Nat2Z.inj_add. now rewrite of_nat_leb.
  - intros [[[x p] o] l] t (A1 & A2 & A3) C. apply test_ok in C. apply Nat.leb_le in C. cbn [emb].
    rewrite absorb_loop by lia. rewrite !bind_assoc. apply bind_eq. intros y ty _. rewrite !bind_ret. cbv zeta.
    rewrite !bind_assoc. apply bind_eq. intros z tz _. rewrite bind_ret. cbn [emb].
    rewrite u32_small by lia. rewrite u64_small by lia. f_equal. f_equal. lia.
  - intros [[[x p] o] l] t [[[x1 p0] o1] l0] t0 (A1 & A2 & A3) C B. apply test_ok in C. apply Nat.leb_le in C.
    destruct (for_ _ _ _ _) as [y ty| | |]; try discriminate B. cbn [bind] in B.
    destruct (KeccakF1600_StatePermute y) as [z tz| | |]; try discriminate B. cbn [bind ret] in B. injection B as <- <- <- <- _.
    split; [cbn; lia|]. now apply DIV.
Qed.

(** ** Squeezing *)
Lemma squeeze_w fuel out oo outlen s pos r : (pos <= r)%nat -> (0 < r)%nat -> Z.of_nat r < 2 ^ 32 ->
  Z.of_nat outlen < 2 ^ 64 -> pos = r \/ Z.of_nat pos + Z.of_nat outlen < 2 ^ 64 ->
  (outlen + r + 1 < fuel)%nat ->
  keccak_squeeze_w fuel out oo (Z.of_nat outlen) s (Z.of_nat pos) (Z.of_nat r) = map_pos (keccak_squeeze out oo outlen s pos r).
Proof.
  intros Hp Hr0 Hr Hl Hl' Hf. unfold map_pos. rewrite with_bind. unfold keccak_squeeze_w, keccak_squeeze.
  set (I := fun st : list Z * nat * nat * list Z * nat => let '(out, oo, l, s, p) := st in
     (p <= r)%nat /\ (l <= outlen)%nat /\ Z.of_nat l < 2 ^ 64 /\ (p = r \/ Z.of_nat p + Z.of_nat l < 2 ^ 64)).
  set (emb := fun st : list Z * nat * nat * list Z * nat => let '(out, oo, l, s, p) := st in (out, oo, Z.of_nat l, s, Z.of_nat p)).
  change (out, oo, Z.of_nat outlen, s, Z.of_nat pos) with (emb (out, oo, outlen, s, pos)).
  assert (HI : I (out, oo, outlen, s, pos)) by (cbn; lia).
  set (nbody := fun (oo l : nat) (s : list Z) (pos : nat) (st : nat * list Z) => let '(i, out) := st in
           m <- nmod i 8 ;;
           d <- ndiv i 8 ;;
           x <- aget s d ;;
           v <- shr 64 x (Z.of_nat (8 * m)) ;;
           out <- aset out (oo + (i - pos)) (u8 v) ;;
           ret (S i, out)).
  set (ncond := fun (l pos : nat) (st : nat * list Z) => let '(i, out) := st in test_and (i <? r)%nat (test (i <? pos + l)%nat)).
  assert (CT : forall l p i x t, ncond l p (i, x) = Ok true t -> (i < r)%nat /\ (i < p + l)%nat).
  { intros l p i x t. unfold ncond, test_and, test. cbn [bind]. destruct (i <? r)%nat eqn:A; cbn [bind ret]; [|discriminate].
    destruct (i <? p + l)%nat eqn:B; [|discriminate]. intros _. split; now apply Nat.ltb_lt. }
  assert (CF : forall l p i x t, ncond l p (i, x) = Ok false t -> (r <= i)%nat \/ (p + l <= i)%nat).
  { intros l p i x t. unfold ncond, test_and, test. cbn [bind]. destruct (i <? r)%nat eqn:A; cbn [bind ret].
    - destruct (i <? p + l)%nat eqn:B; [discriminate|]. intros _. right. now apply Nat.ltb_ge.
    - intros _. left. now apply Nat.ltb_ge. }
  set (J := fun (l p : nat) (st : nat * list Z) => let '(i, x) := st in (p <= i <= r)%nat /\ (i <= p + l)%nat).
  assert (JS : forall o l x p st t st1 t1, J l p st -> ncond l p st = Ok true t -> nbody o l x p st = Ok st1 t1 ->
     fst st1 = S (fst st) /\ J l p st1).
  { intros o l x p [i y] t [i1 y1] t1 (A1 & A2) C B. apply CT in C. unfold nbody in B.
    destruct (nmod i 8) as [m tm| | |]; try discriminate B. cbn [bind] in B.
    destruct (ndiv i 8) as [d td| | |]; try discriminate B. cbn [bind] in B.
    destruct (aget x d) as [v tv| | |]; try discriminate B. cbn [bind] in B.
    destruct (shr _ _ _) as [w tw| | |]; try discriminate B. cbn [bind] in B.
    destruct (aset _ _ _) as [z tz| | |]; try discriminate B. cbn [bind ret] in B. injection B as <- <- _. cbn. lia. }
  assert (INNER : forall o l x p y, (p <= r)%nat -> Z.of_nat p + Z.of_nat l < 2 ^ 64 ->
    while_ fuel (fun st => let '(i, out, oo) := st in test_and (i <? Z.of_nat r) (test (i <? u64 (Z.of_nat p + Z.of_nat l))))
        (squeeze_byte_w x) (Z.of_nat p, y, o) =
    (st <- while_ (S r) (ncond l p) (nbody o l x p) (p, y) ;; let '(i, out) := st in ret (Z.of_nat i, out, (o + (i - p))%nat))).
  { intros o l x p y A1 A2. set (e := fun st : nat * list Z => let '(i, out) := st in (Z.of_nat i, out, (o + (i - p))%nat)).
    replace (Z.of_nat p, y, o) with (e (p, y)) by (cbn; f_equal; lia).
    rewrite (while_sim (J l p) e (fun st => (r - fst st)%nat) (ncond l p) (nbody o l x p)) with (f := S r); [| | | | |cbn [fst]; lia|cbn [fst]; lia].
    - apply bind_eq. intros [i z] t _. reflexivity.
    - intros [i z] (B1 & B2). cbn [e]. rewrite u64_small by lia. rewrite <- Nat2Z.inj_add, !of_nat_ltb. reflexivity.
    - intros [i z] t (B1 & B2) C. apply CT in C. cbn [e]. unfold squeeze_byte_w, nbody. rewrite Nat2Z.id.
      rewrite !bind_assoc. apply bind_eq. intros m tm _. rewrite !bind_assoc. apply bind_eq. intros d td _.
      rewrite !bind_assoc. apply bind_eq. intros v tv _. rewrite !bind_assoc. apply bind_eq. intros w tw _.
      rewrite !bind_assoc. apply bind_eq. intros z1 tz _. rewrite bind_ret. cbn [e]. rewrite u32_small by lia. f_equal. f_equal; [f_equal; lia|lia].
    - intros [i z] t [i1 z1] t1 B1 C B. destruct (JS _ _ _ _ _ _ _ _ B1 C B) as [E1 E2]. split; [exact E2|]. apply CT in C. cbn [fst] in *. lia.
    - cbn. lia. }
  set (obody := fun st : list Z * nat * nat * list Z * nat => let '(out, oo, outlen, s, pos) := st in
      b <- test (pos =? r)%nat ;;
      '(s, pos) <- (if (b : bool) then (s <- KeccakF1600_StatePermute s ;; ret (s, 0%nat)) else ret (s, pos)) ;;
      '(i, out) <- while_ (S r) (ncond outlen pos) (nbody oo outlen s pos) (pos, out) ;;
      ret (out, (oo + (i - pos))%nat, (outlen - (i - pos))%nat, s, i)).
  assert (STEP : forall st t st1 t1, I st -> (let '(out, oo, outlen, s, pos) := st in test (negb (outlen =? 0)%nat)) = Ok true t -> obody st = Ok st1 t1 ->
     I st1 /\ ((let '(out, oo, outlen, s, pos) := st1 in outlen) < (let '(out, oo, outlen, s, pos) := st in outlen))%nat).
  { intros [[[[y o] l] x] p] t [[[[y1 o1] l1] x1] p1] t1 (A1 & A2 & A3 & A4) C B. apply test_ok in C. apply negb_true_iff, Nat.eqb_neq in C.
    cbn [obody] in B.
    assert (X : exists x' p' tt, (p' < r)%nat /\ Z.of_nat p' + Z.of_nat l < 2 ^ 64 /\
       (st <- while_ (S r) (ncond l p') (nbody o l x' p') (p', y) ;; let '(i, out) := st in ret (out, (o + (i - p'))%nat, (l - (i - p'))%nat, x', i)) = Ok (y1, o1, l1, x1, p1) tt).
    { unfold test in B. cbn [bind] in B. destruct (p =? r)%nat eqn:P.
      - destruct (KeccakF1600_StatePermute x) as [x' tx| | |]; try discriminate B. cbn [bind ret] in B.
        exists x', 0%nat. match type of B with match ?m with _ => _ end = _ => destruct m as [v tv| | |] eqn:M; try discriminate B end.
        match type of M with match ?m with _ => _ end = _ => destruct m as [v' tv'| | |] eqn:M'; try discriminate M end.
        exists tv'. split; [lia|]. split; [lia|]. injection M as -> _. injection B as -> _. first [exact M'|reflexivity].
      - apply Nat.eqb_neq in P. cbn [bind ret] in B. exists x, p.
        match type of B with match ?m with _ => _ end = _ => destruct m as [v tv| | |] eqn:M; try discriminate B end.
        match type of M with match ?m with _ => _ end = _ => destruct m as [v' tv'| | |] eqn:M'; try discriminate M end.
        exists tv'. split; [lia|]. split; [lia|]. injection M as -> _. injection B as -> _. first [exact M'|reflexivity]. }
    destruct X as (x' & p' & tt & X1 & X2 & X3).
    destruct (while_ (S r) (ncond l p') (nbody o l x' p') (p', y)) as [[i z] ti| | |] eqn:W; try discriminate X3. cbn [bind ret] in X3.
    injection X3 as <- <- <- <- <- _.
    eapply (while_exit (J l p')) in W; [|intros s0 t0 s1 t2 J0 C0 B0; eapply (JS o l x' p'); eassumption|cbn; lia].
    destruct W as [(J1 & J2) (t' & E)]. apply CF in E. cbn. lia. }
  match goal with |- bind (while_ fuel ?c ?b _) _ = bind (bind (while_ _ ?c' ?b' _) _) _ =>
    assert (OUT : while_ fuel c b (emb (out, oo, outlen, s, pos)) = (s1 <- while_ (S outlen) c' obody (out, oo, outlen, s, pos) ;; ret (emb s1)));
    [|change b' with obody; rewrite OUT] end.
  - apply (while_sim I emb (fun st => let '(out, oo, outlen, s, pos) := st in outlen)); [| | |exact HI|lia|lia].
    + intros [[[[y o] l] x] p] _. cbn [emb]. change 0 with (Z.of_nat 0). now rewrite of_nat_eqb.
    + intros [[[[y o] l] x] p] t (A1 & A2 & A3 & A4) C. apply test_ok in C. apply negb_true_iff, Nat.eqb_neq in C. cbn [emb obody].
      rewrite of_nat_eqb. unfold test at 1 3. cbn [bind]. destruct (p =? r)%nat eqn:P.
      * apply Nat.eqb_eq in P. destruct (KeccakF1600_StatePermute x) as [x' tx| | |]; try reflexivity. cbn [bind ret].
        change 0 with (Z.of_nat 0). rewrite INNER by lia.
        destruct (while_ (S r) (ncond l 0%nat) (nbody o l x' 0%nat) (0%nat, y)) as [[i z] ti| | |] eqn:W; try reflexivity. cbn [bind ret]. 
        eapply (while_exit (J l 0%nat)) in W; [|intros s0 t0 s1 t2 J0 C0 B0; eapply (JS o l x' 0%nat); eassumption|cbn; lia].
        destruct W as [(J1 & J2) _]. rewrite u32_small by lia. rewrite u64_small by lia. cbn [emb]. rewrite !app_nil_r. repeat f_equal. lia.
      * apply Nat.eqb_neq in P. cbn [bind ret]. rewrite INNER by lia.
        destruct (while_ (S r) (ncond l p) (nbody o l x p) (p, y)) as [[i z] ti| | |] eqn:W; try reflexivity. cbn [bind ret].
        eapply (while_exit (J l p)) in W; [|intros s0 t0 s1 t2 J0 C0 B0; eapply (JS o l x p); eassumption|cbn; lia].
        destruct W as [(J1 & J2) _]. rewrite u32_small by lia. rewrite u64_small by lia. cbn [emb]. rewrite !app_nil_r. repeat f_equal. lia.
    + exact STEP.
  - rewrite !bind_assoc. apply bind_eq. intros [[[[y o] l] x] p] t _. now rewrite !bind_ret.
Qed.

(** ** One-shot absorbing and whole blocks *)
Lemma absorb_once_w fuel s r inp io inlen p : (0 < r)%nat -> Z.of_nat r < 2 ^ 32 - 8 -> Z.of_nat inlen < 2 ^ 64 -> (inlen + r + 26 < fuel)%nat ->
  keccak_absorb_once_w fuel s (Z.of_nat r) inp io (Z.of_nat inlen) p = keccak_absorb_once s r inp io inlen p.
Proof.
  intros Hr0 Hr Hl Hf. unfold keccak_absorb_once_w, keccak_absorb_once.
  assert (R8 : Z.of_nat r / 8 = Z.of_nat (r / 8)) by (change 8 with (Z.of_nat 8); now rewrite Nat2Z.inj_div).
  assert (R8' : (r / 8 <= r)%nat) by (apply Nat.div_le_upper_bound; lia).
  assert (R8'' : (8 * (r / 8) <= r)%nat) by (apply Nat.mul_div_le; lia).
  assert (R1 : Z.to_nat ((Z.of_nat r - 1) / 8) = ((r - 1) / 8)%nat).
  { replace (Z.of_nat r - 1) with (Z.of_nat (r - 1)) by lia. change 8 with (Z.of_nat 8). now rewrite <- Nat2Z.inj_div, Nat2Z.id. }
  rewrite R8, R1.
  match goal with |- bind (while_ fuel ?c ?b (s, 0)) _ = bind ?f _ =>
    assert (Z0 : while_ fuel c b (s, 0) = (s <- f ;; ret (s, Z.of_nat 25))) end.
  { apply (while_for (fun i (s : list Z) => True) (fun i s => (s, Z.of_nat i))) with (n := 25%nat) (i := 0%nat) (s := s); auto; try lia.
    - intros i x _ Hi. f_equal. apply Z.ltb_lt. lia.
    - intros i x _ Hi. rewrite Nat2Z.id. apply bind_eq. intros y ty _. rewrite u32_small by lia. f_equal. f_equal. lia. }
  rewrite Z0, !bind_assoc. clear Z0. apply bind_eq. intros s0 t0 _. rewrite bind_ret. clear s t0. rename s0 into s.
  set (emb := fun st : list Z * nat * nat => let '(s, o, l) := st in (s, o, Z.of_nat l)).
  set (I := fun st : list Z * nat * nat => let '(s, o, l) := st in (l <= inlen)%nat).
  change (s, io, Z.of_nat inlen) with (emb (s, io, inlen)).
  assert (STEP : forall st t st1 t1, I st -> (let '(s, io, inlen) := st in test (r <=? inlen)%nat) = Ok true t ->
    (let '(s, io, inlen) := st in
      s <- for_ (r / 8) 0 (fun i s => x <- aget s i ;; v <- load64 inp (io + 8 * i) ;; aset s i (Z.lxor x v)) s ;;
      s <- KeccakF1600_StatePermute s ;; ret (s, (io + r)%nat, (inlen - r)%nat)) = Ok st1 t1 -> I st1 /\ (snd st1 < snd st)%nat).
  { intros [[x o] l] t [[x1 o1] l1] t1 A C B. apply test_ok in C. apply Nat.leb_le in C. cbn in A.
    destruct (for_ _ _ _ _) as [y ty| | |]; try discriminate B. cbn [bind] in B.
    destruct (KeccakF1600_StatePermute y) as [z tz| | |]; try discriminate B. cbn [bind ret] in B. injection B as <- <- <- _. cbn. lia. }
  rewrite (while_sim I emb (fun st => snd st) (fun st => let '(s, io, inlen) := st in test (r <=? inlen)%nat)
    (fun st => let '(s, io, inlen) := st in
      s <- for_ (r / 8) 0 (fun i s => x <- aget s i ;; v <- load64 inp (io + 8 * i) ;; aset s i (Z.lxor x v)) s ;;
      s <- KeccakF1600_StatePermute s ;; ret (s, (io + r)%nat, (inlen - r)%nat))) with (f := S inlen); [| | |exact STEP|cbn; lia|cbn; lia|cbn; lia].
  - rewrite !bind_assoc. apply bind_eq. intros [[s1 o1] l1] t1 E. rewrite bind_ret. cbn [emb].
    eapply (while_exit I) in E; [|intros; eapply STEP; eassumption|cbn; lia].
    destruct E as [A (t' & E)]. apply test_ok in E. apply Nat.leb_gt in E. cbn in A.
    match goal with |- bind (while_ fuel ?c ?b (s1, 0)) _ = bind ?f _ =>
      assert (Z0 : while_ fuel c b (s1, 0) = (s <- f ;; ret (s, Z.of_nat l1))) end.
    { apply (while_for (fun i (s : list Z) => True) (fun i s => (s, Z.of_nat i))) with (n := l1) (i := 0%nat) (s := s1); auto; try lia.
      - intros i x _ Hi. f_equal. apply Z.ltb_lt. lia.
      - intros x _. f_equal. apply Z.ltb_ge. lia.
      - intros i x _ Hi. rewrite Nat2Z.id, !bind_assoc. apply bind_eq. intros b tb _. apply bind_eq. intros y ty _.
        rewrite u32_small by lia. f_equal. f_equal. lia. }
    rewrite Z0, !bind_assoc. apply bind_eq. intros s2 t2 _. rewrite bind_ret. now rewrite Nat2Z.id.
  - intros [[x o] l] _. cbn [emb]. now rewrite of_nat_leb.
  - intros [[x o] l] t A C. apply test_ok in C. apply Nat.leb_le in C. cbn in A. cbn [emb].
    match goal with |- bind (while_ fuel ?c ?b (x, 0)) _ = bind (bind ?f _) _ =>
      assert (Z0 : while_ fuel c b (x, 0) = (s <- f ;; ret (s, Z.of_nat (r / 8)))) end.
    { apply (while_for (fun i (s : list Z) => True) (fun i s => (s, Z.of_nat i))) with (n := (r / 8)%nat) (i := 0%nat) (s := x); auto; try lia.
      - intros i y _ Hi. f_equal. apply Z.ltb_lt. lia.
      - intros y _. f_equal. apply Z.ltb_ge. lia.
      - intros i y _ Hi. rewrite Nat2Z.id. rewrite u32_small by lia. replace (Z.to_nat (8 * Z.of_nat i)) with (8 * i)%nat by lia.
        rewrite !bind_assoc. apply bind_eq. intros v tv _. rewrite !bind_assoc. apply bind_eq. intros w tw _. apply bind_eq. intros z tz _.
        rewrite u32_small by lia. f_equal. f_equal. lia. }
    rewrite Z0, !bind_assoc. apply bind_eq. intros s2 t2 _. rewrite bind_ret, !bind_assoc. apply bind_eq. intros s3 t3 _. rewrite bind_ret. cbn [emb].
    rewrite Nat2Z.id. rewrite u64_small by lia. f_equal. f_equal. lia.
Qed.

Lemma squeezeblocks_w fuel out oo nb s r : Z.of_nat r < 2 ^ 32 - 8 -> Z.of_nat nb < 2 ^ 64 -> (nb + r + 1 < fuel)%nat ->
  keccak_squeezeblocks_w fuel out oo (Z.of_nat nb) s (Z.of_nat r) = keccak_squeezeblocks out oo nb s r.
Proof.
  intros Hr Hl Hf. unfold keccak_squeezeblocks_w, keccak_squeezeblocks.
  assert (R8 : Z.of_nat r / 8 = Z.of_nat (r / 8)) by (change 8 with (Z.of_nat 8); now rewrite Nat2Z.inj_div).
  assert (R8' : (r / 8 <= r)%nat) by (apply Nat.div_le_upper_bound; lia).
  assert (R8'' : (8 * (r / 8) <= r)%nat) by (apply Nat.mul_div_le; lia).
  rewrite R8.
  match goal with |- bind (while_ fuel ?c ?b _) _ = ?f =>
    assert (Z0 : while_ fuel c b (out, oo, Z.of_nat nb, s) = (st <- f ;; let '(out, s) := st in ret (out, (oo + r * nb)%nat, Z.of_nat (nb - nb), s))) end.
  { set (e := fun i (st : list Z * list Z) => (fst st, (oo + r * i)%nat, Z.of_nat (nb - i), snd st)).
    replace (out, oo, Z.of_nat nb, s) with (e 0%nat (out, s)).
    2: { unfold e. cbn [fst snd]. rewrite Nat.mul_0_r, Nat.add_0_r, Nat.sub_0_r. reflexivity. }
    etransitivity; [apply (while_for (fun i (st : list Z * list Z) => True) e) with (n := nb) (i := 0%nat) (s := (out, s)) (k := nb)
      (f := fun n st => let '(out, s) := st in
        s <- KeccakF1600_StatePermute s ;;
        out <- for_ (r / 8) 0 (fun i out => x <- aget s i ;; store64 out (oo + r * n + 8 * i) x) out ;;
        ret (out, s)); auto; try lia|].
    - intros i [y x] _ Hi. cbn [e fst snd]. f_equal. destruct (nb - i)%nat eqn:N; [lia|reflexivity].
    - intros [y x] _. cbn [e fst snd]. now rewrite Nat.sub_diag.
    - intros i [y x] _ Hi. cbn [e fst snd]. rewrite !bind_assoc. apply bind_eq. intros x1 t1 _.
      match goal with |- bind (while_ fuel ?c ?b (y, 0)) _ = bind (bind ?f _) _ =>
        assert (Z0 : while_ fuel c b (y, 0) = (s <- f ;; ret (s, Z.of_nat (r / 8)))) end.
      { apply (while_for (fun i (s : list Z) => True) (fun i s => (s, Z.of_nat i))) with (n := (r / 8)%nat) (i := 0%nat) (s := y); auto; try lia.
        - intros j z _ Hj. f_equal. apply Z.ltb_lt. lia.
        - intros z _. f_equal. apply Z.ltb_ge. lia.
        - intros j z _ Hj. rewrite Nat2Z.id. rewrite u32_small by lia. replace (Z.to_nat (8 * Z.of_nat j)) with (8 * j)%nat by lia.
          rewrite !bind_assoc. apply bind_eq. intros v tv _. apply bind_eq. intros w tw _.
          rewrite u32_small by lia. f_equal. f_equal. lia. }
      rewrite Z0, !bind_assoc. apply bind_eq. intros y1 ty _. rewrite !bind_ret. cbn [e fst snd]. rewrite Nat2Z.id.
      rewrite u64_small by lia.
      replace (oo + r * i + r)%nat with (oo + r * S i)%nat by nia. replace (Z.of_nat (nb - i) - 1) with (Z.of_nat (nb - S i)) by lia. reflexivity.
    - apply bind_eq. intros [y x] t _. reflexivity. }
  rewrite Z0, !bind_assoc. apply bind_eq_r. intros [y x] t _. now rewrite bind_ret.
Qed.

Section WithJunk.
Context {JJ : Junk}.

Lemma shake_whole_w fuel rate out oo outlen inp io inlen : (0 < rate)%nat -> Z.of_nat rate < 2 ^ 32 - 8 ->
  Z.of_nat outlen < 2 ^ 64 -> Z.of_nat inlen < 2 ^ 64 -> (outlen + inlen + rate + 26 < fuel)%nat ->
  shake_w fuel (Z.of_nat rate) out oo (Z.of_nat outlen) inp io (Z.of_nat inlen) = shake rate out oo outlen inp io inlen.
Proof.
  intros Hr0 Hr Ho Hi Hf. unfold shake_w, shake, shake_absorb_once, shake_squeezeblocks, shake_squeeze, local_state. cbn [ks kpos].
  rewrite absorb_once_w by lia. rewrite !bind_assoc. apply bind_eq. intros s t _. rewrite bind_ret. cbv zeta. cbn [ks kpos].
  unfold ndiv. rewrite <- Nat2Z.inj_div. 
  assert (D : (outlen / rate * rate <= outlen)%nat) by (rewrite Nat.mul_comm; apply Nat.mul_div_le; lia).
  assert (D' : (outlen / rate <= outlen)%nat) by (apply Nat.div_le_upper_bound; nia).
  set (nb := (outlen / rate)%nat) in *.
  match goal with |- bind (Ok _ ?T) ?f = bind (Ok _ ?T) ?g => enough (EQ : f (Z.of_nat nb) = g nb) by (cbn [bind]; now rewrite EQ) end.
  cbv beta. rewrite squeezeblocks_w by lia. rewrite !bind_assoc. apply bind_eq. intros [out1 s1] t1 _. rewrite bind_ret. cbn [ks kpos].
  rewrite <- Nat2Z.inj_mul. rewrite (u64_small (Z.of_nat (nb * rate))) by lia. rewrite Nat2Z.id. rewrite <- Nat2Z.inj_sub by lia.
  rewrite u64_small by lia. rewrite squeeze_w by lia. unfold map_pos. rewrite with_bind, !bind_assoc. apply bind_eq. intros [[o1 s2] p] t2 _.
  now rewrite !bind_ret.
Qed.

Lemma sha3_whole_w fuel rate words h ho inp io inlen : (0 < rate)%nat -> Z.of_nat rate < 2 ^ 32 - 8 -> Z.of_nat inlen < 2 ^ 64 ->
  (inlen + rate + 26 < fuel)%nat -> (words <= 8)%nat ->
  sha3_w fuel (Z.of_nat rate) (Z.of_nat words) h ho inp io (Z.of_nat inlen) =
  (s <- keccak_absorb_once (local 25) rate inp io inlen 0x06 ;;
   s <- KeccakF1600_StatePermute s ;;
   for_ words 0 (fun i h => x <- aget s i ;; store64 h (ho + 8 * i) x) h).
Proof.
  intros Hr0 Hr Hi Hf Hw. unfold sha3_w. rewrite absorb_once_w by lia. apply bind_eq. intros s t _. apply bind_eq. intros s1 t1 _.
  match goal with |- bind (while_ fuel ?c ?b (h, 0)) _ = ?f =>
    assert (Z0 : while_ fuel c b (h, 0) = (s <- f ;; ret (s, Z.of_nat words))) end.
  { apply (while_for (fun i (s : list Z) => True) (fun i s => (s, Z.of_nat i))) with (n := words) (i := 0%nat) (s := h); auto; try lia.
    - intros j z _ Hj. f_equal. apply Z.ltb_lt. lia.
    - intros z _. f_equal. apply Z.ltb_ge. lia.
    - intros j z _ Hj. rewrite Nat2Z.id. rewrite u32_small by lia. replace (Z.to_nat (8 * Z.of_nat j)) with (8 * j)%nat by lia.
      rewrite !bind_assoc. apply bind_eq. intros v tv _. apply bind_eq. intros w tw _.
      rewrite u32_small by lia. f_equal. f_equal. lia. }
  rewrite Z0, !bind_assoc. apply bind_eq_r. intros y ty _. now rewrite bind_ret.
Qed.
End WithJunk.

(** ** Beyond: the sums wrap *)
Lemma wrap_sum p l : 0 <= p < 2 ^ 32 -> 2 ^ 64 - p <= l < 2 ^ 64 -> u64 (p + l) = p + l - 2 ^ 64.
Proof. intros Hp Hl. unfold u64, wrapu. symmetry. apply (Z.mod_unique _ _ 1); [left|]; lia. Qed.
Lemma absorb_wraps fuel s pos r inp io inlen : 0 <= pos < r -> r < 2 ^ 32 -> 2 ^ 64 - pos <= inlen < 2 ^ 64 -> (0 < fuel)%nat ->
  exists T, keccak_absorb_w fuel s pos r inp io inlen = Ok (s, pos) T.
Proof.
  intros Hp Hr Hl Hf. destruct fuel as [|fuel]; [lia|]. unfold keccak_absorb_w. cbn [while_]. rewrite wrap_sum by lia.
  replace (r <=? pos + inlen - 2 ^ 64) with false by (symmetry; apply Z.leb_gt; lia). unfold test. cbn [bind ret].
  rewrite wrap_sum by lia. replace (pos <? pos + inlen - 2 ^ 64) with false by (symmetry; apply Z.ltb_ge; lia). cbn [bind ret]. eexists. reflexivity.
Qed.
Lemma squeeze_wraps fuel out oo outlen s pos r : 0 <= pos < r -> r < 2 ^ 32 -> 2 ^ 64 - pos <= outlen < 2 ^ 64 ->
  keccak_squeeze_w fuel out oo outlen s pos r = Timeout.
Proof.
  intros Hp Hr Hl. unfold keccak_squeeze_w. 
  match goal with |- bind (while_ fuel ?c ?b ?x) _ = _ => enough (E : forall f, while_ f c b x = Timeout) by (now rewrite E) end.
  intros f. induction f as [|f IH]; [reflexivity|]. cbn [while_].
  assert (Z1 : (outlen =? 0) = false) by (apply Z.eqb_neq; lia).
  assert (Z2 : (pos =? r) = false) by (apply Z.eqb_neq; lia).
  unfold test at 1. rewrite Z1. cbn [negb bind]. unfold test at 1. rewrite Z2. cbn [bind ret].
  destruct fuel as [|fuel]; [reflexivity|]. 
  assert (Z3 : forall g, while_ (S fuel) (fun st : Z * list Z * nat => let '(i, out, oo) := st in test_and (i <? r) (test (i <? u64 (pos + outlen)))) g (pos, out, oo)
      = Ok (pos, out, oo) [EvBranch true; EvBranch false]).
  { intros g. cbn [while_]. rewrite wrap_sum by lia. replace (pos <? r) with true by (symmetry; apply Z.ltb_lt; lia).
    replace (pos <? pos + outlen - 2 ^ 64) with false by (symmetry; apply Z.ltb_ge; lia). reflexivity. }
  rewrite Z3. cbn [bind ret]. rewrite Z.sub_diag. change (u32 0) with 0. rewrite Z.sub_0_r. rewrite u64_small by lia. rewrite IH. reflexivity.
Qed.
