(** * The functions of PQCgenKAT_kem.c that read and print *)
From Coq Require Import ZArith List Lia Bool Ascii String.
From Verif Require Import CMonad WP Proof_Base Model_Params Model_Randombytes Model_Rng Model_Tests Model_Kat Spec_DRBG Vocab Vocab_Rng Vocab_Tests Vocab_Kat
  Proof_Rng Proof_Tests.
Import ListNotations.
Open Scope Z_scope.
Open Scope cmonad_scope.
Notation length := List.length.

Lemma u8_byte c : 0 <= c < 256 -> u8 c = c.
Proof. intros B. apply u8_small. lia. Qed.
Lemma yields_get' (a : list Z) x c i : i = length a -> yields (aget (a ++ x :: c) i) x.
Proof. intros ->. apply yields_get. Qed.
Lemma yields_set' (a : list Z) x c v i : i = length a -> yields (aset (a ++ x :: c) i v) (a ++ v :: c).
Proof. intros ->. apply yields_set. Qed.
Lemma yields_emit e : yields (emit e) tt.
Proof. now eexists. Qed.
Lemma undefined_bind {A B} (m : res A) (f : A -> res B) u : undefined m u -> undefined (bind m f) u.
Proof. now intros ->. Qed.
Lemma yields_undefined {A B} (m : res A) (f : A -> res B) v u : yields m v -> undefined (f v) u -> undefined (bind m f) u.
Proof. intros [T ->] E. unfold bind, undefined in *. now rewrite E. Qed.

(** ** FindMarker *)
Lemma strncmp_yields m : forall l p p' r r', length l = length m -> length p = length p' -> characters m ->
  yields (strncmp_equal (length m) (length p) (p ++ l ++ r) (p' ++ m ++ r')) (if list_eq_dec Z.eq_dec l m then true else false).
Proof.
  induction m as [|y m IH]; intros l p p' r r' L Lp C.
  - destruct l; [|discriminate L]. cbn [length strncmp_equal]. apply yields_ret.
  - destruct l as [|x l]; [discriminate L|]. cbn [length strncmp_equal].
    eapply yields_bind; [apply yields_get|]. cbv beta. eapply yields_bind; [apply (yields_get' p' y (m ++ r')); exact Lp|]. cbv beta.
    destruct (Z.eqb_spec x y) as [->|N]; cbn [negb].
    + pose proof (C y (or_introl eq_refl)). destruct (Z.eqb_spec y 0); [lia|].
      assert (Ls : S (length p) = length (p ++ [y])) by (rewrite app_length; cbn [length]; lia). rewrite Ls.
      pose proof (IH l (p ++ [y]) (p' ++ [y]) r r' ltac:(cbn [length] in L; lia) ltac:(rewrite !app_length; cbn [length]; lia) ltac:(intros c Hc; apply C; now right)) as X.
      rewrite <- !app_assoc in X. cbn [app] in X. cbn [app]. eapply yields_eq; [exact X|].
      destruct (list_eq_dec Z.eq_dec l m) as [E1|N1], (list_eq_dec Z.eq_dec (y :: l) (y :: m)) as [E2|N2]; congruence.
    + eapply yields_eq; [apply yields_ret|]. destruct (list_eq_dec Z.eq_dec (x :: l) (y :: m)); congruence.
Qed.
Lemma shift_yields l : forall p r, l <> [] ->
  yields (for_ (length l - 1) (length p) (fun i line => x <- aget line (i + 1)%nat ;; aset line i x) (p ++ l ++ r)) (p ++ tl l ++ [last l 0] ++ r).
Proof.
  induction l as [|a l IH]; intros p r N; [congruence|]. destruct l as [|b l].
  - cbn [length Nat.sub for_ tl last app]. eapply yields_bind; [apply yields_emit|]. apply yields_ret.
  - replace (length (a :: b :: l) - 1)%nat with (S (length l)) by (cbn [length]; lia). cbn [for_].
    eapply yields_bind; [apply yields_emit|]. cbv beta. eapply yields_bind.
    + eapply yields_bind; [|].
      * replace (p ++ (a :: b :: l) ++ r) with ((p ++ [a]) ++ b :: l ++ r) by (rewrite <- app_assoc; reflexivity).
        apply yields_get'. rewrite app_length. reflexivity.
      * cbv beta. rewrite <- app_comm_cons. apply yields_set.
    + specialize (IH (p ++ [b]) r ltac:(discriminate)). replace (length (b :: l) - 1)%nat with (length l) in IH by (cbn [length]; lia).
      rewrite app_length in IH. replace (length p + length [b])%nat with (S (length p)) in IH by (cbn [length]; lia).
      rewrite <- !app_assoc in IH. cbn [app] in IH. cbn [app tl]. eapply yields_eq; [exact IH|]. reflexivity.
Qed.
(** What the search loop computes, with the window [l] *)
Fixpoint search (m l infile : list Z) : Z * list Z :=
  if list_eq_dec Z.eq_dec l m then (1, infile)
  else match infile with
       | [] => (0, [])
       | c :: infile => search m (tl l ++ [c]) infile
       end.
Lemma scan_yields m r' infile : forall l r, length l = length m -> characters m -> all_bytes infile -> (1 <= length r)%nat ->
  yields (scan_marker (length m) (m ++ r') (l ++ r) infile) (search m l infile).
Proof.
  induction infile as [|c infile IH]; intros l r L C B Lr; cbn [scan_marker search].
  - eapply yields_bind; [exact (strncmp_yields m l [] [] r r' L eq_refl C)|]. cbv beta. eapply yields_bind; [apply yields_test|]. cbv beta.
    destruct (list_eq_dec Z.eq_dec l m) as [E|N]; [apply yields_ret|].
    assert (Nl : l <> []) by (intros ->; destruct m; [congruence|discriminate L]).
    rewrite <- L. eapply yields_bind; [exact (shift_yields l [] r Nl)|]. cbv beta. cbn [app].
    destruct l as [|a l]; [congruence|]. cbn [length Nat.eqb tl]. eapply yields_bind; [apply (yields_set' l); lia|]. cbv beta.
    eapply yields_bind; [apply yields_test|]. apply yields_ret.
  - eapply yields_bind; [exact (strncmp_yields m l [] [] r r' L eq_refl C)|]. cbv beta. eapply yields_bind; [apply yields_test|]. cbv beta.
    destruct (list_eq_dec Z.eq_dec l m) as [E|N]; [apply yields_ret|].
    assert (Nl : l <> []) by (intros ->; destruct m; [congruence|discriminate L]).
    rewrite <- L. eapply yields_bind; [exact (shift_yields l [] r Nl)|]. cbv beta. cbn [app].
    destruct l as [|a l]; [congruence|]. cbn [length Nat.eqb tl]. eapply yields_bind; [apply (yields_set' l); lia|]. cbv beta.
    eapply yields_bind; [apply yields_test|]. cbv beta. rewrite u8_byte by (apply B; now left).
    destruct r as [|r0 r]; [cbn [length] in Lr; lia|].
    replace (l ++ c :: r0 :: r) with ((l ++ [c]) ++ r0 :: r) by (rewrite <- app_assoc; reflexivity).
    eapply yields_bind; [apply (yields_set' (l ++ [c])); rewrite app_length; cbn [length]; lia|]. cbv beta.
    replace (S (length l)) with (length m) by (cbn [length] in L; lia).
    apply IH; [rewrite app_length; cbn [length] in *; lia|exact C|intros x Hx; apply B; now right|cbn [length]; lia].
Qed.
Lemma fill_yields n : forall infile p old r, length old = n -> all_bytes infile ->
  yields (fill_line n (length p) (p ++ old ++ r) infile)
    (if (n <=? length infile)%nat then (Some (p ++ firstn n infile ++ r), skipn n infile) else (None, [])).
Proof.
  induction n as [|n IH]; intros infile p old r L B; cbn [fill_line].
  - destruct old; [|discriminate L]. eapply yields_bind; [apply yields_test|]. apply yields_ret.
  - destruct old as [|o old]; [discriminate L|]. eapply yields_bind; [apply yields_test|]. cbv beta. destruct infile as [|c infile].
    + cbn [app]. eapply yields_bind; [apply yields_set|]. cbv beta. eapply yields_bind; [apply yields_test|]. apply yields_ret.
    + cbn [app]. eapply yields_bind; [apply yields_set|]. cbv beta. eapply yields_bind; [apply yields_test|]. cbv beta.
      rewrite u8_byte by (apply B; now left).
      replace (p ++ c :: old ++ r) with ((p ++ [c]) ++ old ++ r) by (rewrite <- app_assoc; reflexivity).
      replace (S (length p)) with (length (p ++ [c])) by (rewrite app_length; cbn [length]; lia).
      eapply yields_eq; [apply IH; [cbn [length] in L; lia|intros x Hx; apply B; now right]|].
      cbn [length Nat.leb firstn skipn]. destruct (n <=? length infile)%nat; [|reflexivity]. rewrite <- app_assoc. reflexivity.
Qed.
(** The result in terms of occurrences *)
Lemma search_found m infile : forall l pre post, length l = length m -> first_occurrence (l ++ infile) m pre post -> search m l infile = (1, post).
Proof.
  induction infile as [|c infile IH]; intros l pre post L [EF Min]; cbn [search]; destruct (list_eq_dec Z.eq_dec l m) as [->|N].
  - specialize (Min [] [] eq_refl). destruct pre; [|cbn [length] in Min; lia]. cbn [app] in EF. now apply app_inv_head in EF as <-.
  - exfalso. rewrite app_nil_r in EF. apply (f_equal (@length Z)) in EF as EL. rewrite !app_length in EL.
    assert (pre = [] /\ post = []) as [-> ->] by (destruct pre, post; cbn [length] in EL; try lia; auto). rewrite app_nil_r in EF. now elim N.
  - specialize (Min [] _ eq_refl). destruct pre; [|cbn [length] in Min; lia]. cbn [app] in EF. now apply app_inv_head in EF as <-.
  - destruct l as [|a l]; [elim N; destruct m; [reflexivity|discriminate L]|]. destruct pre as [|a' pre].
    { exfalso. apply N. apply (f_equal (firstn (length m))) in EF. cbn [app] in EF.
      change (a :: l ++ c :: infile) with ((a :: l) ++ c :: infile) in EF.
      rewrite <- L in EF at 1. rewrite !firstn_app, !Nat.sub_diag, !firstn_all in EF. cbn [firstn] in EF. now rewrite !app_nil_r in EF. }
    cbn [app] in EF. injection EF as <- EF. cbn [tl]. apply (IH (l ++ [c]) pre post); [rewrite app_length; cbn [length] in *; lia|].
    rewrite <- app_assoc. cbn [app]. split; [exact EF|]. intros pre' post' E'. specialize (Min (a :: pre') post').
    cbn [app length] in Min. assert (S (length pre) <= S (length pre'))%nat; [|lia]. apply Min. now rewrite E'.
Qed.
Lemma search_missing m infile : forall l, length l = length m -> ~ occurs (l ++ infile) m -> search m l infile = (0, []).
Proof.
  induction infile as [|c infile IH]; intros l L NO; cbn [search]; destruct (list_eq_dec Z.eq_dec l m) as [->|N].
  - elim NO. now exists [], [].
  - reflexivity.
  - elim NO. now exists [], (c :: infile).
  - destruct l as [|a l]; [elim N; destruct m; [reflexivity|discriminate L]|]. cbn [tl]. apply IH; [rewrite app_length; cbn [length] in *; lia|].
    intros (pre & post & EF). apply NO. exists (a :: pre), post. rewrite <- app_assoc in EF. cbn [app] in *. now rewrite EF.
Qed.
Lemma find_yields (JJ : Junk) infile marker : characters marker -> all_bytes infile ->
  let m := firstn 49 marker in
  yields (FindMarker infile marker)
    (if (length m <=? length infile)%nat then search m (firstn (length m) infile) (skipn (length m) infile) else (0, [])).
Proof.
  intros C B m. unfold FindMarker. eapply yields_bind; [apply yields_test|]. cbv beta zeta. change (MAX_MARKER_LEN - 1)%nat with 49%nat.
  replace (if (49 <? length marker)%nat then 49%nat else length marker) with (length m)
    by (unfold m; rewrite firstn_length; destruct (Nat.ltb_spec 49 (length marker)); lia).
  assert (Lm : (length m <= 49)%nat) by (unfold m; rewrite firstn_length; lia).
  assert (Cm : characters m) by (intros c Hc; apply C; rewrite <- (firstn_skipn 49 marker); apply in_or_app; now left).
  set (jk := @local JJ MAX_MARKER_LEN). assert (Lj : length jk = 50%nat) by apply local_len.
  rewrite <- (firstn_skipn (length m) jk). eapply yields_bind.
  { apply (fill_yields (length m) infile [] (firstn (length m) jk) (skipn (length m) jk)); [rewrite firstn_length; lia|exact B]. }
  cbv beta iota. destruct (Nat.leb_spec (length m) (length infile)) as [H|H]; cbv beta iota; [|apply yields_ret].
  cbn [app]. destruct (skipn (length m) jk) as [|j js] eqn:Ej.
  { apply (f_equal (@length Z)) in Ej. rewrite skipn_length in Ej. cbn [length] in Ej. lia. }
  eapply yields_bind; [apply yields_set'; rewrite firstn_length; lia|]. cbv beta.
  replace (marker ++ [0]) with (m ++ (skipn 49 marker ++ [0])) by (unfold m; now rewrite app_assoc, firstn_skipn).
  apply scan_yields; [rewrite firstn_length; lia|exact Cm| |cbn [length]; lia].
  intros x Hx. apply B. rewrite <- (firstn_skipn (length m) infile). apply in_or_app. now right.
Qed.
Lemma find_marker (JJ : Junk) infile marker : characters marker -> all_bytes infile ->
  let m := firstn 49 marker in
  (forall pre post, first_occurrence infile m pre post -> yields (FindMarker infile marker) (1, post)) /\
  (~ occurs infile m -> yields (FindMarker infile marker) (0, [])).
Proof.
  intros C B m. pose proof (find_yields JJ infile marker C B) as Y. cbv zeta in Y. fold m in Y. split.
  - intros pre post HF. destruct (Nat.leb_spec (length m) (length infile)) as [H|H].
    + rewrite (search_found m _ _ pre post) in Y; [exact Y|rewrite firstn_length; lia|now rewrite firstn_skipn].
    + destruct HF as [EF _]. apply (f_equal (@length Z)) in EF. rewrite !app_length in EF. lia.
  - intros NO. destruct (Nat.leb_spec (length m) (length infile)) as [H|H]; [|exact Y].
    rewrite (search_missing m) in Y; [exact Y|rewrite firstn_length; lia|now rewrite firstn_skipn].
Qed.

(** ** ReadHex *)
Fixpoint shl4 (l : list Z) (v : Z) : list Z :=
  match l with
  | [] => []
  | a :: l => ((16 * a) mod 256 + match l with [] => v | b :: _ => b / 16 end) :: shl4 l v
  end.
Lemma shl4_snoc l a v : l <> [] -> shl4 (l ++ [a]) v = shl4 l (a / 16) ++ [(16 * a) mod 256 + v].
Proof.
  induction l as [|b l IH]; intros N; [congruence|]. destruct l as [|c l]; [reflexivity|].
  specialize (IH ltac:(discriminate)). cbn [app shl4] in IH |- *. now rewrite IH.
Qed.
Lemma be_bytes_length n : forall x, length (be_bytes n x) = n.
Proof. induction n as [|n IH]; intros x; [reflexivity|]. cbn [be_bytes]. rewrite app_length, IH. cbn [length]. lia. Qed.
Lemma mod16 x : (16 * x) mod 256 = 16 * (x mod 16).
Proof. change 256 with (16 * 16). apply Z.mul_mod_distr_l; lia. Qed.
Lemma shl4_low x v : 0 <= v < 16 -> (16 * (x mod 256)) mod 256 + v = (16 * x + v) mod 256.
Proof.
  intros Hv. rewrite Z.mul_mod_idemp_r by lia. rewrite <- (Z.add_mod_idemp_l (16 * x) v) by lia. rewrite mod16.
  symmetry. apply Z.mod_small. pose proof (Z.mod_pos_bound x 16). lia.
Qed.
Lemma shl4_be n : forall x v, 0 <= v < 16 -> shl4 (be_bytes n x) v = be_bytes n (16 * x + v).
Proof.
  induction n as [|n IH]; intros x v Hv; [reflexivity|]. cbn [be_bytes]. destruct n as [|n].
  - cbn [be_bytes app shl4]. now rewrite shl4_low.
  - rewrite shl4_snoc; [|intros X; apply (f_equal (@length Z)) in X; rewrite be_bytes_length in X; discriminate X].
    rewrite IH by (split; [apply Z.div_pos; [apply Z.mod_pos_bound|]; lia|apply Z.div_lt_upper_bound; [lia|]; pose proof (Z.mod_pos_bound x 256); lia]).
    f_equal.
    + f_equal. pose proof (Z.div_mod x 256 ltac:(lia)) as D. pose proof (Z.mod_pos_bound x 256 ltac:(lia)) as Db.
      apply Z.div_unique with (r := 16 * ((x mod 256) mod 16) + v).
      * pose proof (Z.mod_pos_bound (x mod 256) 16). lia.
      * pose proof (Z.div_mod (x mod 256) 16 ltac:(lia)). lia.
    + now rewrite shl4_low.
Qed.
Lemma lor_nibble a v : 0 <= a < 256 -> 0 <= v < 16 -> u8 (Z.lor (Z.shiftl a 4) v) = (16 * a) mod 256 + v.
Proof.
  intros Ha Hv. unfold u8, wrapu. change (2 ^ 8) with 256. assert (Z.lor (Z.shiftl a 4) v = 16 * a + v) as ->.
  { rewrite Z.shiftl_mul_pow2 by lia. change (2 ^ 4) with 16. rewrite (Z.mul_comm a). symmetry. rewrite <- Z.lxor_lor; [rewrite <- Z.add_nocarry_lxor; [reflexivity|]|];
    (apply Z.bits_inj'; intros i Hi; rewrite Z.land_spec, Z.bits_0; change 16 with (2 ^ 4); rewrite Z.mul_comm;
     destruct (Z.lt_ge_cases i 4) as [H|H];
     [rewrite Z.mul_pow2_bits_low by lia; reflexivity
     |rewrite (Z.bits_above_log2 v i), andb_false_r; [reflexivity|lia|];
      destruct (Z.eq_dec v 0) as [->|]; [cbn; lia|]; apply Z.log2_lt_pow2; [lia|]; apply Z.lt_le_trans with (2 ^ 4); [lia|apply Z.pow_le_mono_r; lia]]). }
  rewrite <- (Z.add_mod_idemp_l (16 * a) v) by lia. apply Z.mod_small.
  rewrite mod16. pose proof (Z.mod_pos_bound a 16). lia.
Qed.
Lemma shift_bytes l : forall p r, l <> [] -> all_bytes l ->
  yields (for_ (length l - 1) (length p) (fun i A =>
               a <- aget A i ;; b <- aget A (i + 1)%nat ;;
               aset A i (u8 (Z.lor (Z.shiftl a 4) (Z.shiftr b 4)))) (p ++ l ++ r)) (p ++ (removelast (shl4 l 0) ++ [last l 0]) ++ r).
Proof.
  induction l as [|a l IH]; intros p r N B; [congruence|]. destruct l as [|b l].
  - cbn [length Nat.sub for_ shl4 removelast last app]. eapply yields_bind; [apply yields_emit|]. apply yields_ret.
  - replace (length (a :: b :: l) - 1)%nat with (S (length l)) by (cbn [length]; lia). cbn [for_].
    eapply yields_bind; [apply yields_emit|]. cbv beta. eapply yields_bind.
    + eapply yields_bind; [apply yields_get|]. cbv beta. eapply yields_bind.
      * replace (p ++ (a :: b :: l) ++ r) with ((p ++ [a]) ++ b :: l ++ r) by (rewrite <- app_assoc; reflexivity).
        apply yields_get'. rewrite app_length. reflexivity.
      * cbv beta. rewrite <- app_comm_cons. apply yields_set.
    + pose proof (B a (or_introl eq_refl)) as Ba. pose proof (B b (or_intror (or_introl eq_refl))) as Bb.
      rewrite Z.shiftr_div_pow2 by lia. change (2 ^ 4) with 16.
      assert (Bq : 0 <= b / 16 < 16) by (split; [apply Z.div_pos|apply Z.div_lt_upper_bound]; lia).
      rewrite lor_nibble by assumption.
      set (x := (16 * a) mod 256 + b / 16).
      specialize (IH (p ++ [x]) r ltac:(discriminate) ltac:(intros y Hy; apply B; now right)). replace (length (b :: l) - 1)%nat with (length l) in IH by (cbn [length]; lia).
      rewrite app_length in IH. replace (length p + length [x])%nat with (S (length p)) in IH by (cbn [length]; lia).
      rewrite <- !app_assoc in IH. cbn [app] in IH. eapply yields_eq; [exact IH|]. rewrite <- app_assoc. reflexivity.
Qed.
Lemma shl4_length l v : length (shl4 l v) = length l.
Proof. induction l as [|a l IH]; [reflexivity|]. cbn [shl4 length]. now rewrite IH. Qed.
Lemma shl4_last l v : l <> [] -> shl4 l v = removelast (shl4 l 0) ++ [(16 * last l 0) mod 256 + v].
Proof.
  induction l as [|a l IH]; intros N; [congruence|]. destruct l as [|b l]; [reflexivity|].
  cbn [shl4]. cbn [shl4] in IH. rewrite IH by discriminate. reflexivity.
Qed.
Lemma digit_yields n l r v : length l = n -> l <> [] -> all_bytes l -> 0 <= v < 16 -> forall B (g : list Z -> res B) w, yields (g (shl4 l v ++ r)) w ->
  yields (A <- for_ (n - 1) 0 (fun i A =>
               a <- aget A i ;; b <- aget A (i + 1)%nat ;;
               aset A i (u8 (Z.lor (Z.shiftl a 4) (Z.shiftr b 4)))) (l ++ r) ;;
          a <- aget A (n - 1)%nat ;;
          A <- aset A (n - 1)%nat (u8 (Z.lor (Z.shiftl a 4) v)) ;; g A) w.
Proof.
  intros <- N Bl Hv B g w Hg. eapply yields_bind; [exact (shift_bytes l [] r N Bl)|]. cbv beta. cbn [app].
  assert (Lr : (length l - 1)%nat = length (removelast (shl4 l 0))).
  { assert (N' : shl4 l 0 <> []) by (destruct l; [congruence|discriminate]).
    pose proof (app_removelast_last 0 N') as X. apply (f_equal (@length Z)) in X. rewrite shl4_length, app_length in X. cbn [length] in X. lia. }
  rewrite <- !app_assoc. cbn [app].
  eapply yields_bind; [apply yields_get'; exact Lr|]. cbv beta. eapply yields_bind; [apply yields_set'; exact Lr|]. cbv beta.
  assert (Bx : 0 <= last l 0 < 256).
  { apply Bl. rewrite (app_removelast_last 0 N) at 2. apply in_or_app. right. now left. }
  rewrite lor_nibble by assumption. rewrite (shl4_last l v N), <- app_assoc in Hg. exact Hg.
Qed.

(** Digits *)
Definition ich_of (ch : Z) : Z :=
  if between 48 57 ch then u8 (ch - 48) else if between 65 70 ch then u8 (ch - 65 + 10) else if between 97 102 ch then u8 (ch - 97 + 10) else 0.
Lemma digit_facts c v : digit_of c v -> isxdigit c = true /\ ich_of c = v.
Proof.
  intros [H [-> | ->]]; assert (v = 0 \/ v = 1 \/ v = 2 \/ v = 3 \/ v = 4 \/ v = 5 \/ v = 6 \/ v = 7 \/ v = 8 \/ v = 9 \/ v = 10 \/ v = 11 \/ v = 12 \/ v = 13 \/ v = 14 \/ v = 15) as X by lia;
    repeat (destruct X as [-> | X]; [split; reflexivity|]); subst v; split; reflexivity.
Qed.
Lemma digit_exists c : isxdigit c = true -> digit_of c (ich_of c).
Proof.
  intros H. assert (exists v, 0 <= v < 16 /\ (c = hex_digit v \/ c = upper_digit v)) as (v & Hv & E).
  { unfold isxdigit, between in H. rewrite !orb_true_iff, !andb_true_iff, !Z.leb_le in H. destruct H as [[H|H]|H].
    - exists (c - 48). split; [lia|]. left. assert (c = 48 \/ c = 49 \/ c = 50 \/ c = 51 \/ c = 52 \/ c = 53 \/ c = 54 \/ c = 55 \/ c = 56 \/ c = 57) as X by lia.
      repeat (destruct X as [-> | X]; [reflexivity|]). subst c. reflexivity.
    - exists (c - 55). split; [lia|]. right. assert (c = 65 \/ c = 66 \/ c = 67 \/ c = 68 \/ c = 69 \/ c = 70) as X by lia.
      repeat (destruct X as [-> | X]; [reflexivity|]). subst c. reflexivity.
    - exists (c - 87). split; [lia|]. left. assert (c = 97 \/ c = 98 \/ c = 99 \/ c = 100 \/ c = 101 \/ c = 102) as X by lia.
      repeat (destruct X as [-> | X]; [reflexivity|]). subst c. reflexivity. }
  pose proof (conj Hv E : digit_of c v) as D. now destruct (digit_facts c v D) as [_ ->].
Qed.
Lemma no_digit_false c : no_digit c <-> isxdigit c = false.
Proof.
  split.
  - intros N. destruct (isxdigit c) eqn:X; [|reflexivity]. elim (N _ (digit_exists c X)).
  - intros X v D. now rewrite (proj1 (digit_facts c v D)) in X.
Qed.
Lemma be_bytes_bytes n : forall x, all_bytes (be_bytes n x).
Proof.
  induction n as [|n IH]; intros x y Hy; [destruct Hy|]. cbn [be_bytes] in Hy. apply in_app_or in Hy as [Hy|[<-|[]]]; [exact (IH _ _ Hy)|apply Z.mod_pos_bound; lia].
Qed.

(** The reading loop as a function *)
Fixpoint digits_fun (x : Z) (started : bool) (infile : list Z) : Z * list Z :=
  match infile with
  | [] => (x, [])
  | ch :: rest =>
      if isxdigit ch then digits_fun (16 * x + ich_of ch) true rest
      else if started then (x, rest) else if ch =? 10 then (x, rest) else digits_fun x started rest
  end.
Lemma digits_yields n r infile : forall x started, (1 <= n)%nat ->
  yields (read_digits (be_bytes n x ++ r) n started infile) (let '(x', rest) := digits_fun x started infile in (be_bytes n x' ++ r, rest)).
Proof.
  induction infile as [|ch infile IH]; intros x started Hn; cbn [read_digits digits_fun].
  - eapply yields_bind; [apply yields_test|]. apply yields_ret.
  - eapply yields_bind; [apply yields_test|]. cbv beta. eapply yields_bind; [apply yields_test|]. cbv beta.
    destruct (isxdigit ch) eqn:X; cbn [negb]; cbv beta iota zeta.
    + fold (ich_of ch). pose proof (digit_exists ch X) as [Hv _].
      apply digit_yields; [apply be_bytes_length|intros E; apply (f_equal (@length Z)) in E; rewrite be_bytes_length in E; cbn [length] in E; lia|apply be_bytes_bytes|exact Hv|].
      rewrite shl4_be by exact Hv. apply IH. exact Hn.
    + eapply yields_bind; [apply yields_test|]. cbv beta. destruct started; cbn [negb]; cbv beta iota; [apply yields_ret|].
      eapply yields_bind; [apply yields_test|]. cbv beta. destruct (ch =? 10); [apply yields_ret|]. now apply IH.
Qed.
Lemma digits_skip skip rest x : Forall no_digit skip -> ~ In 10 skip -> digits_fun x false (skip ++ rest) = digits_fun x false rest.
Proof.
  intros F N. induction F as [|c skip Hc F IH]; [reflexivity|]. cbn [app digits_fun]. rewrite (proj1 (no_digit_false c) Hc).
  destruct (Z.eqb_spec c 10) as [->|]; [elim N; now left|]. apply IH. intros H. apply N. now right.
Qed.
Lemma digits_run ds vs rest : Forall2 digit_of ds vs -> forall x started, digits_fun x (if ds then started else true) (ds ++ rest) = digits_fun (fold_left (fun a v => 16 * a + v) vs x) (if ds then started else true) rest.
Proof.
  intros F. induction F as [|d v ds vs D F IH]; intros x started; [reflexivity|]. cbn [app digits_fun fold_left].
  destruct (digit_facts d v D) as [-> ->]. specialize (IH (16 * x + v) true). destruct ds; exact IH.
Qed.
Lemma digits_start ds vs rest : ds <> [] -> Forall2 digit_of ds vs -> digits_fun 0 false (ds ++ rest) = digits_fun (hex_number vs) true rest.
Proof.
  intros N F. destruct F as [|d v ds vs D F]; [congruence|]. cbn [app digits_fun]. destruct (digit_facts d v D) as [-> ->].
  pose proof (digits_run ds vs rest F (16 * 0 + v) true) as X. unfold hex_number. cbn [fold_left]. destruct ds; exact X.
Qed.
Lemma number_digits line x rest : number_in line x rest -> digits_fun 0 false line = (x, rest).
Proof.
  intros [skip rest' F N|skip F N|skip ds vs F N Nd D|skip ds vs c rest' F N Nd D Hc].
  - rewrite digits_skip by assumption. reflexivity.
  - rewrite <- (app_nil_r skip). now rewrite digits_skip by assumption.
  - rewrite digits_skip by assumption. rewrite <- (app_nil_r ds). now rewrite (digits_start ds vs) by assumption.
  - rewrite digits_skip, (digits_start ds vs) by assumption. cbn [digits_fun]. now rewrite (proj1 (no_digit_false c) Hc).
Qed.
Lemma number_exists line : exists x rest, number_in line x rest.
Proof.
  assert (H : exists skip rest, line = skip ++ rest /\ Forall no_digit skip /\ ~ In 10 skip /\ match rest with [] => True | c :: _ => isxdigit c = true \/ c = 10 end).
  { induction line as [|c line (skip & rest & -> & F & N & HR)].
    - exists [], []. repeat split; [constructor|now intros []].
    - destruct (isxdigit c) eqn:X.
      + exists [], (c :: skip ++ rest). split; [reflexivity|]. split; [constructor|]. split; [now intros []|]. now left.
      + destruct (Z.eq_dec c 10) as [E|E].
        * exists [], (c :: skip ++ rest). split; [reflexivity|]. split; [constructor|]. split; [now intros []|]. now right.
        * exists (c :: skip), rest. split; [reflexivity|]. split; [constructor; [now apply no_digit_false|exact F]|]. split; [intros [H|H]; auto|exact HR]. }
  destruct H as (skip & rest & -> & F & N & HR). destruct rest as [|c rest].
  - exists 0, []. rewrite app_nil_r. now apply number_absent.
  - destruct (isxdigit c) eqn:X.
    + clear HR.
      assert (H : exists ds vs tail, c :: rest = ds ++ tail /\ ds <> [] /\ Forall2 digit_of ds vs /\ match tail with [] => True | t :: _ => no_digit t end).
      { revert c X. induction rest as [|b rest IH]; intros c X.
        - exists [c], [ich_of c], []. repeat split; [discriminate|]. constructor; [now apply digit_exists|constructor].
        - destruct (isxdigit b) eqn:Xb.
          + destruct (IH b Xb) as (ds & vs & tail & E & _ & D & HT). exists (c :: ds), (ich_of c :: vs), tail. rewrite E.
            split; [reflexivity|]. split; [discriminate|]. split; [constructor; [now apply digit_exists|exact D]|exact HT].
          + exists [c], [ich_of c], (b :: rest). split; [reflexivity|]. split; [discriminate|]. split; [constructor; [now apply digit_exists|constructor]|now apply no_digit_false]. }
      destruct H as (ds & vs & tail & E & Nd & D & HT). rewrite E. destruct tail as [|t tail].
      * rewrite app_nil_r. exists (hex_number vs), []. now apply number_last.
      * exists (hex_number vs), tail. now apply number_read.
    + destruct HR as [HR|HR]; [discriminate HR|]. subst c. exists 0, rest. now apply number_missing.
Qed.
Lemma be_bytes_0 n : be_bytes n 0 = repeat 0 n.
Proof. induction n as [|n IH]; [reflexivity|]. cbn [be_bytes]. change (0 / 256) with 0. change (0 mod 256) with 0. rewrite IH. symmetry. exact (repeat_cons n 0). Qed.
Lemma zero_yields A n : (n <= length A)%nat -> yields (zero A 0 n) (repeat 0 n ++ skipn n A).
Proof.
  intros L. unfold zero. rewrite <- (firstn_skipn n A) at 1.
  exact (yields_write [] (firstn n A) (skipn n A) (repeat 0 n) ltac:(rewrite firstn_length, repeat_length; lia)).
Qed.
Lemma read_hex (JJ : Junk) infile A n label : characters label -> all_bytes infile -> (1 <= n <= length A)%nat ->
  let m := firstn 49 label in
  (forall pre line x rest, first_occurrence infile m pre line -> number_in line x rest ->
     yields (ReadHex infile A n label) (be_bytes n x ++ skipn n A, rest, 1)) /\
  (~ occurs infile m -> yields (ReadHex infile A n label) (repeat 0 n ++ skipn n A, [], 0)).
Proof.
  intros C B Hn m. destruct (find_marker JJ infile label C B) as [F1 F2]. fold m in F1, F2.
  assert (Hh : forall v w, yields (FindMarker infile label) v ->
    (let '(mm, inf) := v in if negb (mm =? 0) then yields ('(A, infile) <- read_digits (repeat 0 n ++ skipn n A) n false inf ;; ret (A, infile, 1)) w
       else w = (repeat 0 n ++ skipn n A, inf, 0)) -> yields (ReadHex infile A n label) w).
  { intros [mm inf] w Y H. unfold ReadHex. eapply yields_bind; [apply yields_test|]. cbv beta. destruct (Nat.eqb_spec n 0); [lia|]. cbv beta iota.
    eapply yields_bind; [apply zero_yields; lia|]. cbv beta. eapply yields_bind; [exact Y|]. cbv beta iota. eapply yields_bind; [apply yields_test|]. cbv beta.
    destruct (negb (mm =? 0)); cbv beta iota; [exact H|]. rewrite H. apply yields_ret. }
  split.
  - intros pre line x rest HF HN. apply (Hh (1, line)); [exact (F1 _ _ HF)|]. cbn [Z.eqb negb]. eapply yields_bind.
    + rewrite <- be_bytes_0. apply digits_yields. lia.
    + rewrite (number_digits _ _ _ HN). cbv beta iota. apply yields_ret.
  - intros NO. apply (Hh (0, [])); [exact (F2 NO)|]. reflexivity.
Qed.
Lemma read_hex_0 (JJ : Junk) infile a A label : yields (ReadHex infile (a :: A) 0 label) (0 :: A, infile, 1).
Proof.
  unfold ReadHex. eapply yields_bind; [apply yields_test|]. cbv beta. cbn [Nat.eqb]. cbv beta iota.
  eapply yields_bind; [exact (yields_set [] a A 0)|]. apply yields_ret.
Qed.
Lemma read_hex_undefined (JJ : Junk) infile A n label : (length A < Nat.max 1 n)%nat -> undefined (ReadHex infile A n label) OutOfBounds.
Proof.
  intros L. unfold ReadHex. eapply yields_undefined; [apply yields_test|]. cbv beta. destruct (Nat.eqb_spec n 0) as [->|N]; cbv beta iota.
  - destruct A; [|cbn [length] in L; lia]. reflexivity.
  - apply undefined_bind. unfold zero, kernel_write. rewrite repeat_length. destruct (Nat.leb_spec (0 + n) (length A)); [lia|]. reflexivity.
Qed.

(** ** fprintBstr *)
Lemma str_text s : str s = text s.
Proof. unfold str, text. apply map_ext. intros a. unfold nat_of_ascii. now rewrite N_nat_Z. Qed.
Lemma upper_eq v : 0 <= v < 16 -> upper_hex v = upper_digit v.
Proof.
  intros H. assert (v = 0 \/ v = 1 \/ v = 2 \/ v = 3 \/ v = 4 \/ v = 5 \/ v = 6 \/ v = 7 \/ v = 8 \/ v = 9 \/ v = 10 \/ v = 11 \/ v = 12 \/ v = 13 \/ v = 14 \/ v = 15) as X by lia.
  repeat (destruct X as [-> | X]; [reflexivity|]). subst v. reflexivity.
Qed.
Definition hex2 (x : Z) : list Z := [upper_digit (x / 16); upper_digit (x mod 16)].
Lemma hex_upper_eq x : 0 <= x < 256 -> hex_upper x = hex2 x.
Proof.
  intros H. unfold hex_upper, hex2. rewrite !upper_eq; [reflexivity|apply Z.mod_pos_bound; lia|].
  split; [apply Z.div_pos|apply Z.div_lt_upper_bound]; lia.
Qed.
Lemma print_yields label l r : all_bytes l -> yields (fprintBstr label (l ++ r) (length l)) (record label l).
Proof.
  intros B. unfold fprintBstr. eapply yields_bind.
  - instantiate (1 := label ++ flat_map hex2 l).
    assert (H : forall l p out, all_bytes l -> yields (for_ (length l) (length p) (fun i out => x <- aget (p ++ l ++ r) i ;; ret (out ++ hex_upper x)) out) (out ++ flat_map hex2 l)).
    { clear. induction l as [|x l IH]; intros p out B; cbn [length for_].
      - eapply yields_bind; [apply yields_emit|]. cbn [flat_map]. rewrite app_nil_r. apply yields_ret.
      - eapply yields_bind; [apply yields_emit|]. cbv beta. eapply yields_bind; [eapply yields_bind; [apply yields_get|]; apply yields_ret|]. cbv beta.
        rewrite hex_upper_eq by (apply B; now left).
        specialize (IH (p ++ [x]) (out ++ hex2 x) ltac:(intros y Hy; apply B; now right)). rewrite app_length in IH.
        replace (length p + length [x])%nat with (S (length p)) in IH by (cbn [length]; lia). rewrite <- !app_assoc in IH. cbn [app] in IH.
        cbn [app flat_map]. exact IH. }
    exact (H l [] label B).
  - cbv beta. eapply yields_bind; [apply yields_test|]. cbv beta zeta. unfold record. destruct l as [|x l].
    + cbn [length Nat.eqb flat_map]. eapply yields_eq; [apply yields_ret|]. rewrite app_nil_r, str_text. rewrite <- app_assoc. reflexivity.
    + cbn [length Nat.eqb]. eapply yields_eq; [apply yields_ret|]. rewrite <- app_assoc. reflexivity.
Qed.

(** Reading back *)
Lemma hex_number_app a b : forall vs, fold_left (fun a v => 16 * a + v) (vs ++ [a; b]) 0 = 256 * hex_number vs + (16 * a + b).
Proof. intros vs. rewrite fold_left_app. cbn [fold_left]. fold (hex_number vs). lia. Qed.
Lemma be_bytes_value l : all_bytes l -> be_bytes (length l) (hex_number (flat_map (fun x => [x / 16; x mod 16]) l)) = l.
Proof.
  induction l as [|x l IH] using rev_ind; intros B; [reflexivity|].
  rewrite flat_map_app, app_length. cbn [flat_map app length]. replace (length l + 1)%nat with (S (length l)) by lia. cbn [be_bytes].
  unfold hex_number at 1 2. rewrite hex_number_app.
  pose proof (B x ltac:(apply in_or_app; right; now left)) as Bx. replace (16 * (x / 16) + x mod 16) with x by (pose proof (Z.div_mod x 16); lia).
  replace (256 * _ + x) with (x + hex_number (flat_map (fun x => [x / 16; x mod 16]) l) * 256) by lia.
  rewrite Z.div_add, Z.mod_add, (Z.div_small x 256), (Z.mod_small x 256) by lia. rewrite Z.add_0_l, IH; [reflexivity|].
  intros y Hy. apply B. apply in_or_app. now left.
Qed.
Lemma digits_of_bytes l : all_bytes l -> Forall2 digit_of (flat_map hex2 l) (flat_map (fun x => [x / 16; x mod 16]) l).
Proof.
  induction l as [|x l IH]; intros B; [constructor|]. pose proof (B x (or_introl eq_refl)) as Bx. cbn [flat_map app hex2].
  constructor; [split; [split; [apply Z.div_pos|apply Z.div_lt_upper_bound]; lia|now right]|].
  constructor; [split; [apply Z.mod_pos_bound; lia|now right]|]. apply IH. intros y Hy. apply B. now right.
Qed.
Lemma number_record l rest : l <> [] -> all_bytes l ->
  number_in (flat_map hex2 l ++ 10 :: rest) (hex_number (flat_map (fun x => [x / 16; x mod 16]) l)) rest.
Proof.
  intros N B. apply (number_read [] (flat_map hex2 l) _ 10 rest); [constructor|now intros []|destruct l; [congruence|discriminate]|now apply digits_of_bytes|].
  apply no_digit_false. reflexivity.
Qed.
Lemma read_back (JJ : Junk) file pre label l post A : characters label -> all_bytes file -> l <> [] -> all_bytes l -> (length label <= 49)%nat -> (length l <= length A)%nat ->
  file = pre ++ record label l ++ post ->
  (forall pre' post', file = pre' ++ label ++ post' -> (length pre <= length pre')%nat) ->
  yields (ReadHex file A (length l) label) (l ++ skipn (length l) A, post, 1).
Proof.
  intros C B N Bl Ll LA EF Min. assert (Nl : (1 <= length l)%nat) by (destruct l; [congruence|cbn [length]; lia]).
  destruct (read_hex JJ file A (length l) label C B (conj Nl LA)) as [H _]. rewrite firstn_all2 in H by exact Ll.
  rewrite <- (be_bytes_value l Bl) at 2. apply (H pre (flat_map hex2 l ++ 10 :: post)); [|now apply number_record].
  split; [|exact Min]. rewrite EF. f_equal. unfold record. rewrite <- !app_assoc. destruct l; [congruence|reflexivity].
Qed.
