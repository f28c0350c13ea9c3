(** * C72: rej_uniform, verify and cmov with their counters as declared *)
From Coq Require Import ZArith List Lia Bool.
From Verif Require Import CMonad Model_Params Model_Indcpa Model_Verify Model_RejWidth Spec_FIPS203 Vocab Vocab_Code Vocab_Buffers Proof_NTTLoops Proof_Width Proof_PropSample.
Import ListNotations.
Open Scope Z_scope.
Open Scope cmonad_scope.

Definition ncond (len buflen : nat) (s : nat * nat * list Z) := let '(ctr, pos, r) := s in test_and (ctr <? len)%nat (test (pos + 3 <=? buflen)%nat).
Definition nbody (ro len : nat) (buf : list Z) (s : nat * nat * list Z) : res (nat * nat * list Z) := let '(ctr, pos, r) := s in
       b0 <- aget buf (pos + 0) ;; x <- shr 32 b0 0 ;;
       b1 <- aget buf (pos + 1) ;; y <- ishl (u16 b1) 8 ;;
       let val0 := u16 (Z.land (Z.lor x y) 0xFFF) in
       b1 <- aget buf (pos + 1) ;; x <- shr 32 b1 4 ;;
       b2 <- aget buf (pos + 2) ;; y <- ishl (u16 b2) 4 ;;
       let val1 := u16 (Z.land (Z.lor x y) 0xFFF) in
       let pos := (pos + 3)%nat in
       c <- test (val0 <? KYBER_Q) ;;
       '(ctr, r) <- (if (c : bool) then (r <- aset r (ro + ctr) (i16 val0) ;; ret (S ctr, r)) else ret (ctr, r)) ;;
       c <- test_and (ctr <? len)%nat (test (val1 <? KYBER_Q)) ;;
       '(ctr, r) <- (if (c : bool) then (r <- aset r (ro + ctr) (i16 val1) ;; ret (S ctr, r)) else ret (ctr, r)) ;;
       ret (ctr, pos, r).
Definition wcond (len buflen : Z) (s : Z * Z * list Z) := let '(ctr, pos, r) := s in test_and (ctr <? len) (test (u32 (pos + 3) <=? buflen)).
Definition wbody (ro : nat) (len : Z) (buf : list Z) (s : Z * Z * list Z) : res (Z * Z * list Z) := let '(ctr, pos, r) := s in
       b0 <- aget buf (Z.to_nat (u32 (pos + 0))) ;; x <- shr 32 b0 0 ;;
       b1 <- aget buf (Z.to_nat (u32 (pos + 1))) ;; y <- ishl (u16 b1) 8 ;;
       let val0 := u16 (Z.land (Z.lor x y) 0xFFF) in
       b1 <- aget buf (Z.to_nat (u32 (pos + 1))) ;; x <- shr 32 b1 4 ;;
       b2 <- aget buf (Z.to_nat (u32 (pos + 2))) ;; y <- ishl (u16 b2) 4 ;;
       let val1 := u16 (Z.land (Z.lor x y) 0xFFF) in
       let pos := u32 (pos + 3) in
       c <- test (val0 <? KYBER_Q) ;;
       '(ctr, r) <- (if (c : bool) then (r <- aset r (ro + Z.to_nat ctr) (i16 val0) ;; ret (u32 (ctr + 1), r)) else ret (ctr, r)) ;;
       c <- test_and (ctr <? len) (test (val1 <? KYBER_Q)) ;;
       '(ctr, r) <- (if (c : bool) then (r <- aset r (ro + Z.to_nat ctr) (i16 val1) ;; ret (u32 (ctr + 1), r)) else ret (ctr, r)) ;;
       ret (ctr, pos, r).
Definition emb (s : nat * nat * list Z) : Z * Z * list Z := let '(ctr, pos, r) := s in (Z.of_nat ctr, Z.of_nat pos, r).

Lemma ncond_true len buflen ctr pos r t : ncond len buflen (ctr, pos, r) = Ok true t -> (ctr < len)%nat /\ (pos + 3 <= buflen)%nat.
Proof.
  unfold ncond, test_and, test. cbn [bind]. destruct (ctr <? len)%nat eqn:A; cbn [bind ret]; [|discriminate].
  destruct (pos + 3 <=? buflen)%nat eqn:B; [|discriminate]. intros _. split; [now apply Nat.ltb_lt|now apply Nat.leb_le].
Qed.
Lemma ncond_false len buflen ctr pos r t : ncond len buflen (ctr, pos, r) = Ok false t -> (len <= ctr)%nat \/ (buflen < pos + 3)%nat.
Proof.
  unfold ncond, test_and, test. cbn [bind]. destruct (ctr <? len)%nat eqn:A; cbn [bind ret].
  - destruct (pos + 3 <=? buflen)%nat eqn:B; [discriminate|]. intros _. right. now apply Nat.leb_gt.
  - intros _. left. now apply Nat.ltb_ge.
Qed.
Lemma cond_emb len buflen ctr pos r : Z.of_nat pos + 3 < 2 ^ 32 ->
  wcond (Z.of_nat len) (Z.of_nat buflen) (emb (ctr, pos, r)) = ncond len buflen (ctr, pos, r).
Proof. intros H. cbn [emb wcond ncond]. rewrite u32_small by lia. rewrite of_nat_ltb. change 3 with (Z.of_nat 3). now rewrite <- Nat2Z.inj_add, of_nat_leb. Qed.
Lemma body_emb ro len buf ctr pos r : Z.of_nat pos + 3 < 2 ^ 32 -> (ctr < len)%nat -> Z.of_nat len < 2 ^ 32 ->
  wbody ro (Z.of_nat len) buf (emb (ctr, pos, r)) = (s <- nbody ro len buf (ctr, pos, r) ;; ret (emb s)).
Proof.
  intros H Hc Hl. cbn [emb wbody nbody]. rewrite !u32_small by lia.
  replace (Z.to_nat (Z.of_nat pos + 0)) with (pos + 0)%nat by lia. replace (Z.to_nat (Z.of_nat pos + 1)) with (pos + 1)%nat by lia.
  replace (Z.to_nat (Z.of_nat pos + 2)) with (pos + 2)%nat by lia. rewrite Nat2Z.id. replace (Z.of_nat pos + 3) with (Z.of_nat (pos + 3)) by lia.
  do 8 (rewrite !bind_assoc; apply bind_eq; let v := fresh "v" in intros v ? _). cbv zeta. rewrite !bind_assoc. apply bind_eq. intros c tc _.
  replace (Z.of_nat ctr + 1) with (Z.of_nat (S ctr)) by lia.
  assert (T : forall ctr r, (ctr <= len)%nat ->
    (c <- test_and (Z.of_nat ctr <? Z.of_nat len) (test (u16 (Z.land (Z.lor v4 v6) 4095) <? KYBER_Q)) ;;
       '(ctr, r) <- (if (c : bool) then (r <- aset r (ro + Z.to_nat (Z.of_nat ctr)) (i16 (u16 (Z.land (Z.lor v4 v6) 4095))) ;; ret (u32 (Z.of_nat ctr + 1), r)) else ret (Z.of_nat ctr, r)) ;;
       ret (ctr, Z.of_nat (pos + 3), r)) =
    (s <- (c <- test_and (ctr <? len)%nat (test (u16 (Z.land (Z.lor v4 v6) 4095) <? KYBER_Q)) ;;
       '(ctr, r) <- (if (c : bool) then (r <- aset r (ro + ctr) (i16 (u16 (Z.land (Z.lor v4 v6) 4095))) ;; ret (S ctr, r)) else ret (ctr, r)) ;;
       ret (ctr, (pos + 3)%nat, r)) ;; ret (emb s))).
  { intros c0 r0 Hc0. rewrite Nat2Z.id, of_nat_ltb. unfold test_and, test. cbn [bind].
    destruct (c0 <? len)%nat eqn:L; cbn [bind ret]; [|reflexivity]. apply Nat.ltb_lt in L.
    destruct (_ <? KYBER_Q); cbn [bind ret]; [|reflexivity]. rewrite u32_small by lia.
    destruct (aset r0 _ _); try reflexivity. cbn [bind ret emb]. rewrite !app_nil_r. repeat f_equal. lia. }
  destruct c.
  - rewrite !bind_assoc. apply bind_eq. intros r1 tr1 _. rewrite !bind_ret. apply T. lia.
  - rewrite !bind_ret. apply T. lia.
Qed.
Lemma bind_ok {A B} (m : res A) (f : A -> res B) v t : bind m f = Ok v t -> exists x t1 t2, m = Ok x t1 /\ f x = Ok v t2.
Proof. destruct m as [x t1| | |]; try discriminate. cbn [bind]. destruct (f x) as [y t2| | |] eqn:E; try discriminate. intros [= <- _]. eauto. Qed.
Lemma nbody_next ro len buf ctr pos r ctr1 pos1 r1 t : (ctr < len)%nat -> nbody ro len buf (ctr, pos, r) = Ok (ctr1, pos1, r1) t ->
  pos1 = (pos + 3)%nat /\ (ctr1 <= len)%nat.
Proof.
  intros Hc E. cbn [nbody] in E.
  do 8 (apply bind_ok in E; destruct E as (? & ? & ? & _ & E)). cbv zeta in E.
  apply bind_ok in E; destruct E as (c & ? & ? & _ & E). apply bind_ok in E; destruct E as ([c2 r2] & ? & ? & E2 & E).
  assert (H2 : (c2 <= len)%nat).
  { destruct c; [apply bind_ok in E2; destruct E2 as (? & ? & ? & _ & E2)|]; injection E2 as <- _ _; lia. }
  apply bind_ok in E; destruct E as (c' & ? & ? & E3 & E). apply bind_ok in E; destruct E as ([c4 r4] & ? & ? & E4 & E).
  injection E as <- <- _ _. split; [reflexivity|].
  destruct c'; [|injection E4 as <- _ _; exact H2]. apply bind_ok in E4; destruct E4 as (? & ? & ? & _ & E4). injection E4 as <- _ _.
  unfold test_and, test in E3. cbn [bind] in E3. destruct (c2 <? len)%nat eqn:L; [apply Nat.ltb_lt in L; lia|discriminate E3].
Qed.

Lemma three_le pos : Nat.divide 3 pos -> Z.of_nat pos < 2 ^ 32 - 1 -> Z.of_nat pos + 3 < 2 ^ 32.
Proof. intros [d ->] H. lia. Qed.
Definition RI (len buflen : nat) (s : nat * nat * list Z) : Prop := let '(ctr, pos, r) := s in (ctr <= len)%nat /\ (pos <= buflen)%nat /\ Nat.divide 3 pos.
Lemma RI_step ro len buflen buf s t s1 t1 : RI len buflen s -> ncond len buflen s = Ok true t -> nbody ro len buf s = Ok s1 t1 ->
  RI len buflen s1 /\ ((let '(c, p, r) := s1 in buflen - p) < (let '(c, p, r) := s in buflen - p))%nat.
Proof.
  destruct s as [[c p] r], s1 as [[c1 p1] r1]. intros (A1 & A2 & A3) C B. apply ncond_true in C. destruct C as [C1 C2].
  apply nbody_next in B; [|exact C1]. destruct B as [-> B]. split; [|lia]. split; [exact B|]. split; [lia|].
  apply Nat.divide_add_r; [exact A3|]. now exists 1%nat.
Qed.

Lemma width_rej : forall fuel r ro len buf buflen,
  Z.of_nat len < 2 ^ 32 -> Z.of_nat buflen < 2 ^ 32 - 1 -> (buflen < fuel)%nat ->
  rej_uniform_w fuel r ro (Z.of_nat len) buf (Z.of_nat buflen) =
  with_value (fun '(n, r) => (Z.of_nat n, r)) (rej_uniform r ro len buf buflen).
Proof.
  intros fuel r ro len buf buflen Hl Hb Hf. rewrite with_bind. unfold rej_uniform_w, rej_uniform.
  fold (ncond len buflen). fold (nbody ro len buf). fold (wcond (Z.of_nat len) (Z.of_nat buflen)). fold (wbody ro (Z.of_nat len) buf).
  change (0, 0, r) with (emb (0%nat, 0%nat, r)).
  rewrite (while_sim (RI len buflen) emb (fun s => let '(c, p, r) := s in (buflen - p)%nat) (ncond len buflen) (nbody ro len buf)) with (f := S buflen); [| | | | |lia|lia].
  - rewrite !bind_assoc. apply bind_eq. intros [[c p] r1] t _. now rewrite !bind_ret.
  - intros [[c p] r1] (A1 & A2 & A3). apply cond_emb. apply three_le; [exact A3|lia].
  - intros [[c p] r1] t (A1 & A2 & A3) C. apply ncond_true in C. apply body_emb; [apply three_le; [exact A3|lia]|lia|exact Hl].
  - exact (fun s t s1 t1 => RI_step ro len buflen buf s t s1 t1).
  - split; [lia|]. split; [lia|]. now exists 0%nat.
Qed.

(** ** The one length for which pos + 3 wraps *)
Lemma while_continue {S S'} (I : S -> Prop) (em : S -> S') cond body cond' body' u :
  (forall s t, I s -> cond s = Ok true t -> cond' (em s) = Ok true t) ->
  (forall s t, I s -> cond s = Ok true t -> body' (em s) = (s1 <- body s ;; ret (em s1))) ->
  (forall s t s1 t1, I s -> cond s = Ok true t -> body s = Ok s1 t1 -> I s1) ->
  forall f s s' t f', I s -> while_ f cond body s = Ok s' t -> (forall g, (0 < g)%nat -> while_ g cond' body' (em s') = UB u) -> (f <= f')%nat ->
  while_ f' cond' body' (em s) = UB u.
Proof.
  intros C B D. induction f as [|f IH]; intros s s' t f' HI E H Hf; [discriminate E|]. destruct f' as [|f']; [lia|]. cbn [while_] in E.
  apply bind_ok in E. destruct E as (b & t1 & t2 & E1 & E). destruct b.
  - apply bind_ok in E. destruct E as (s1 & t3 & t4 & E2 & E). cbn [while_]. rewrite (C s t1 HI E1). cbn [bind]. rewrite (B s t1 HI E1), E2. cbn [bind ret].
    rewrite (IH s1 s' t4 f' (D _ _ _ _ HI E1 E2) E H) by lia. reflexivity.
  - injection E as <- _. apply H. lia.
Qed.
Lemma width_rej_wraps : forall fuel pre r post buf,
  all_bytes buf -> Z.of_nat (length buf) = 2 ^ 32 - 1 -> Z.of_nat (length r) < 2 ^ 32 ->
  (length (accepted (fun i => nth i buf 0%Z) (length buf / 3)) < length r)%nat -> (length buf < fuel)%nat ->
  rej_uniform_w fuel (pre ++ r ++ post) (length pre) (Z.of_nat (length r)) buf (Z.of_nat (length buf)) = UB OutOfBounds.
Proof.
  intros fuel pre r post buf HB Hb Hl Ha Hf.
  destruct (rej_uniform_spec pre r post buf [] HB) as (T & E & _). rewrite app_nil_r in E.
  rewrite firstn_all2 in E by lia. set (acc := accepted _ _) in *. unfold rej_uniform in E.
  fold (ncond (length r) (length buf)) in E. fold (nbody (length pre) (length r) buf) in E.
  apply bind_ok in E. destruct E as ([[c p] r1] & t1 & t2 & E & E'). injection E' as -> -> _.
  set (b := length buf) in *. set (l := length r) in *.
  assert (I0 : RI l b (0%nat, 0%nat, pre ++ r ++ post)) by (split; [lia|split; [lia|now exists 0%nat]]).
  pose proof E as X. eapply (while_exit (RI l b)) in X; [|intros s t s1 t3 A B C; exact (proj1 (RI_step _ _ _ _ _ _ _ _ A B C))|exact I0].
  destruct X as [(X1 & X2 & X3) (t' & X)]. apply ncond_false in X.
  assert (P : p = b). { destruct X3 as [d D]. lia. }
  unfold rej_uniform_w. fold (wcond (Z.of_nat l) (Z.of_nat b)). fold (wbody (length pre) (Z.of_nat l) buf).
  change (0, 0, pre ++ r ++ post) with (emb (0%nat, 0%nat, pre ++ r ++ post)).
  rewrite (while_continue (RI l b) emb (ncond l b) (nbody (length pre) l buf) _ _ OutOfBounds) with (f := Datatypes.S b) (s' := (length acc, p, pre ++ acc ++ skipn (length acc) r ++ post)) (t := t1);
    [reflexivity| | | |exact I0|exact E| |lia].
  - intros [[c1 p1] r1] t (A1 & A2 & A3) C. pose proof C as C'. apply ncond_true in C'. rewrite cond_emb; [exact C|]. lia.
  - intros [[c1 p1] r1] t (A1 & A2 & A3) C. apply ncond_true in C. apply body_emb; lia.
  - intros s t s1 t3 A B C. exact (proj1 (RI_step _ _ _ _ _ _ _ _ A B C)).
  - intros g Hg. destruct g as [|g]; [lia|]. cbn [while_ emb]. rewrite P. unfold wcond at 1. unfold test_and, test.
    replace (Z.of_nat (length acc) <? Z.of_nat l) with true by (symmetry; apply Z.ltb_lt; lia). cbn [bind].
    replace (u32 (Z.of_nat b + 3)) with 2 by (rewrite Hb; reflexivity).
    replace (2 <=? Z.of_nat b) with true by (symmetry; apply Z.leb_le; lia). cbn [bind wbody].
    rewrite u32_small by lia. replace (Z.to_nat (Z.of_nat b + 0)) with b by lia. unfold aget at 1.
    replace (nth_error buf b) with (@None Z) by (symmetry; apply nth_error_None; unfold b; lia). reflexivity.
Qed.

(** ** verify and cmov *)
Lemma width_verify : forall fuel a ao b bo len, Z.of_nat len < 2 ^ 64 -> (len < fuel)%nat ->
  verify_w fuel a ao b bo (Z.of_nat len) = verify a ao b bo len.
Proof.
  intros fuel a ao b bo len Hl Hf. unfold verify_w, verify.
  match goal with |- bind (while_ fuel ?c ?b (0, 0)) _ = bind ?f _ => assert (Z0 : while_ fuel c b (0, 0) = (s <- f ;; ret (s, Z.of_nat len))) end.
  { apply (while_for (fun i (s : Z) => True) (fun i s => (s, Z.of_nat i))) with (n := len) (i := 0%nat) (s := 0); auto; try lia.
    - intros i x _ Hi. f_equal. apply Z.ltb_lt. lia.
    - intros x _. f_equal. apply Z.ltb_ge. lia.
    - intros i x _ Hi. rewrite Nat2Z.id, !bind_assoc. apply bind_eq. intros v tv _. rewrite !bind_assoc. apply bind_eq. intros w tw _. rewrite bind_ret.
      rewrite u64_small by lia. f_equal. f_equal. lia. }
  rewrite Z0, !bind_assoc. apply bind_eq. intros r t _. now rewrite bind_ret.
Qed.
Lemma width_cmov : forall fuel r ro x xo len b, Z.of_nat len < 2 ^ 64 -> (len < fuel)%nat ->
  cmov_w fuel r ro x xo (Z.of_nat len) b = cmov r ro x xo len b.
Proof.
  intros fuel r ro x xo len b Hl Hf. unfold cmov_w, cmov. apply bind_eq. intros m tm _. cbv zeta.
  match goal with |- bind (while_ fuel ?c ?b (r, 0)) _ = ?f => assert (Z0 : while_ fuel c b (r, 0) = (s <- f ;; ret (s, Z.of_nat len))) end.
  { apply (while_for (fun i (s : list Z) => True) (fun i s => (s, Z.of_nat i))) with (n := len) (i := 0%nat) (s := r); auto; try lia.
    - intros i y _ Hi. f_equal. apply Z.ltb_lt. lia.
    - intros y _. f_equal. apply Z.ltb_ge. lia.
    - intros i y _ Hi. rewrite Nat2Z.id, !bind_assoc. apply bind_eq. intros v tv _. rewrite !bind_assoc. apply bind_eq. intros w tw _.
      rewrite !bind_assoc. apply bind_eq. intros z tz _. apply bind_eq. intros z1 tz1 _. rewrite u64_small by lia. f_equal. f_equal. lia. }
  rewrite Z0, !bind_assoc. apply bind_eq_r. intros y t _. now rewrite bind_ret.
Qed.
