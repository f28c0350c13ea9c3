(** * The loops of rej_uniform_avx (avx2/rejsample.c:274-398) *)
From Coq Require Import ZArith List Lia Bool NArith.
From Verif Require Import CMonad WP Proof_Base Model_Params Proof_Bits Proof_Codec Proof_Rej Proof_GenMatrix
  Model_AvxIntrin Model_AvxC Model_AvxRej Proof_AvxBits Proof_AvxVec Proof_AvxRej Spec_FIPS203.
Import ListNotations.
Open Scope Z_scope.

(** ** The loops *)
(** The first accepted candidates are stored; what follows is arbitrary. *)
Definition holds (x r : list Z) : Prop := length r = 256%nat /\ firstn (length x) r = x.
Lemma storeu_wp x w y v r (Q : list Z -> Prop) : holds x r -> words_bits 16 v = w -> length w = 8%nat ->
  firstn (length y) w = y -> (forall z, In z y -> 0 <= z < 4096) -> (length x + 8 <= 256)%nat ->
  (forall r', holds (x ++ y) r' -> Q r') -> wp (storeu r (length x) v) [EvIndex (length x)] Q.
Proof.
  intros [Lr Hx] <- Lw Hy Ry Lx HQ. unfold storeu, mstore. rewrite map_length, Lw, Lr.
  destruct (Nat.leb_spec (length x + 8) 256); [|lia]. eexists. split; [reflexivity|]. apply HQ.
  assert (Ly : (length y <= 8)%nat) by (rewrite <- Hy, firstn_length; lia).
  set (w := words_bits 16 v) in *. clearbody w.
  split.
  - rewrite !app_length, firstn_length, map_length, skipn_length. lia.
  - rewrite app_length, Hx. rewrite firstn_app_2. f_equal.
    rewrite firstn_app, map_length. replace (length y - length w)%nat with 0%nat by lia. rewrite firstn_O, app_nil_r.
    rewrite firstn_map, Hy. rewrite <- (map_id y) at 2. apply map_ext_in. intros z Hz.
    apply Proof_AvxBits.i16_small. specialize (Ry z Hz). lia.
Qed.

(** Two candidates from three bytes *)
Lemma skipn_3 {A} (l : list A) i d : (i + 2 < length l)%nat ->
  skipn i l = nth i l d :: nth (i + 1) l d :: nth (i + 2) l d :: skipn (i + 3) l.
Proof.
  intros L. rewrite (skipn_nth_cons l i d), (skipn_nth_cons l (S i) d), (skipn_nth_cons l (S (S i)) d) by lia.
  replace (i + 1)%nat with (S i) by lia. replace (i + 2)%nat with (S (S i)) by lia. replace (i + 3)%nat with (S (S (S i))) by lia. reflexivity.
Qed.
Lemma fieldv_pair B i : (i + 2 < length B)%nat -> bytes B ->
  fieldv (bits_words 8 B) (8 * i) 12 = nth i B 0 + 256 * (nth (i + 1) B 0 mod 16) /\
  fieldv (bits_words 8 B) (8 * i + 12) 12 = nth (i + 1) B 0 / 16 + 16 * nth (i + 2) B 0.
Proof.
  intros L BB. unfold fieldv. 
  assert (BX := BB i ltac:(lia)). assert (BY := BB (i + 1)%nat ltac:(lia)). assert (BZ := BB (i + 2)%nat ltac:(lia)).
  replace (8 * i + 12)%nat with (i * 8 + 12)%nat by lia. replace (8 * i)%nat with (i * 8)%nat by lia.
  rewrite <- skipn_skipn. rewrite skipn_bits_words. rewrite (skipn_3 B i 0) by lia.
  set (x := nth i B 0) in *. set (y := nth (i + 1) B 0) in *. set (z := nth (i + 2) B 0) in *. clearbody x y z. clear BB.
  set (rest := skipn (i + 3) B). clearbody rest. split.
  - change (firstn 12 (bits_words 8 (x :: y :: z :: rest))) with (bits_of 8 x ++ bits_of 4 y).
    rewrite value_app, bits_of_length, !value_bits_of. change (2 ^ Z.of_nat 8) with 256. change (2 ^ Z.of_nat 4) with 16.
    rewrite (Z.mod_small x) by lia. reflexivity.
  - change (firstn 12 (skipn 12 (bits_words 8 (x :: y :: z :: rest)))) with (map (fun j => Z.testbit y (Z.of_nat j)) (seq 4 4) ++ bits_of 8 z).
    replace (map (fun j => Z.testbit y (Z.of_nat j)) (seq 4 4)) with (bits_of 4 (y / 16)).
    + rewrite value_app, bits_of_length, !value_bits_of. change (2 ^ Z.of_nat 8) with 256. change (2 ^ Z.of_nat 4) with 16.
      rewrite (Z.mod_small z) by lia. rewrite (Z.mod_small (y / 16)); [reflexivity|].
      split; [apply Z.div_pos; lia|apply Z.div_lt_upper_bound; lia].
    + unfold bits_of. cbn [seq map]. change 16 with (2 ^ 4). rewrite !Z.div_pow2_bits by lia. reflexivity.
Qed.

Section Stream.
Variable s : nat -> Z.
Hypothesis Hs : byte_stream 504 s.
(** Eight candidates from byte 3 t, four triples *)
Definition eight (t : nat) : list Z := flat_map (candidates s) (seq t 4).
Lemma cands_eq buf n pos t b c : c = (8 * b)%nat -> agrees 504 buf s -> (pos + n <= 504)%nat -> (pos + 12 * b = 3 * t)%nat -> (12 * b + 12 <= n)%nat ->
  cands (bits_words 8 (sub buf pos n)) 0 c 8 = eight t.
Proof.
  intros -> [LB AG] Hn Et Hb.
  set (B := sub buf pos n).
  assert (LS : length B = n) by (apply sub_length; lia).
  assert (NB : forall i, (i < n)%nat -> nth i B 0 = s (pos + i)%nat) by (intros i Hi; unfold B; rewrite nth_sub by lia; apply AG; lia).
  assert (BB : bytes B) by (intros i Hi; rewrite NB by lia; apply Hs; lia).
  assert (P : forall j, (j < 4)%nat -> candidates s (t + j) =
     [fieldv (bits_words 8 B) (at12 0 (8 * b + 2 * j)) 12; fieldv (bits_words 8 B) (at12 0 (8 * b + (2 * j + 1))) 12]).
  { intros j Hj. destruct (fieldv_pair B (12 * b + 3 * j) ltac:(lia) BB) as [E1 E2].
    unfold at12. replace (0 + 12 * (8 * b + 2 * j))%nat with (8 * (12 * b + 3 * j))%nat by lia.
    replace (0 + 12 * (8 * b + (2 * j + 1)))%nat with (8 * (12 * b + 3 * j) + 12)%nat by lia.
    rewrite E1, E2, !NB by lia. unfold candidates.
    replace (3 * (t + j))%nat with (pos + (12 * b + 3 * j))%nat by lia.
    rewrite !Nat.add_assoc. reflexivity. }
  unfold eight, cands. cbn [seq flat_map map]. rewrite <- (Nat.add_0_r t) at 1.
  replace (S t) with (t + 1)%nat by lia. replace (S (t + 1)) with (t + 2)%nat by lia. replace (S (t + 2)) with (t + 3)%nat by lia.
  rewrite !P by lia. cbn [app].
  repeat (f_equal; [f_equal; f_equal; lia|]). f_equal. f_equal. f_equal. lia.
Qed.
Lemma eight_length t : length (eight t) = 8%nat. Proof. reflexivity. Qed.
Lemma eight_range t x : (t + 4 <= 168)%nat -> In x (eight t) -> 0 <= x < 4096.
Proof.
  intros Ht Hx. apply in_flat_map in Hx as (j & Hj & Hx). apply in_seq in Hj.
  assert (B0 := Hs (3 * j)%nat ltac:(lia)). assert (B1 := Hs (3 * j + 1)%nat ltac:(lia)). assert (B2 := Hs (3 * j + 2)%nat ltac:(lia)).
  pose proof (Z.mod_pos_bound (s (3 * j + 1)%nat) 16 ltac:(lia)).
  assert (0 <= s (3 * j + 1)%nat / 16 < 16) by (split; [apply Z.div_pos; lia|apply Z.div_lt_upper_bound; lia]).
  destruct Hx as [<-|[<-|[]]]; lia.
Qed.
Definition got (t : nat) : list Z := filter ok_cand (eight t).
Lemma got_length t : (length (got t) <= 8)%nat.
Proof. unfold got. etransitivity; [apply filter_length_le'|]. now rewrite eight_length. Qed.
Lemma accepted_4 t : accepted s (t + 4) = accepted s t ++ got t.
Proof.
  unfold accepted, got, eight. rewrite seq_app, flat_map_app, filter_app. reflexivity.
Qed.

Definition mask8 (t : nat) : Z := value (map ok_cand (eight t)).
Lemma idx_row_wp t (Q : list bool -> Prop) : Q (bits_words 8 (nth (Z.to_nat (mask8 t)) idx [])) ->
  wp (idx_row (mask8 t)) [EvIndex (Z.to_nat (mask8 t))] Q.
Proof.
  intros HQ. destruct (pick_filter (eight t) (eight_length t)) as (Hm & _). fold (mask8 t) in Hm.
  unfold idx_row. change [EvIndex (Z.to_nat (mask8 t))] with ([EvIndex (Z.to_nat (mask8 t))] ++ []).
  apply wp_bind. eapply (wp_aget []); [change (length idx) with (Z.to_nat 256); lia|]. apply wp_ret. exact HQ.
Qed.
End Stream.

Lemma shiftr_value n : forall l, Z.shiftr (value l) (Z.of_nat n) = value (skipn n l).
Proof.
  intros l. apply Z.bits_inj'. intros j Hj. rewrite Z.shiftr_spec by lia.
  replace j with (Z.of_nat (Z.to_nat j)) by lia. rewrite <- Nat2Z.inj_add, !testbit_value, nth_skipn. f_equal. lia.
Qed.
Lemma land_value l : Z.land (value l) 0xFF = value (firstn 8 l).
Proof.
  change 0xFF with (Z.ones 8). apply Z.bits_inj'. intros j Hj. rewrite Z.land_spec.
  replace j with (Z.of_nat (Z.to_nat j)) by lia. rewrite !testbit_value, nth_firstn, Z.testbit_ones_nonneg by lia.
  destruct (Z.ltb_spec (Z.of_nat (Z.to_nat j)) 8), (Nat.ltb_spec (Z.to_nat j) 8); try lia; first [apply andb_true_r|apply andb_false_r].
Qed.
Lemma four_masks a b c d : length a = 8%nat -> length b = 8%nat -> length c = 8%nat -> length d = 8%nat ->
  let g := value (a ++ b ++ c ++ d) in
  Z.land (Z.shiftr g 0) 0xFF = value a /\ Z.land (Z.shiftr g 8) 0xFF = value b /\
  Z.land (Z.shiftr g 16) 0xFF = value c /\ Z.land (Z.shiftr g 24) 0xFF = value d.
Proof.
  intros La Lb Lc Ld g. unfold g. change 0 with (Z.of_nat 0) at 1. change 8 with (Z.of_nat 8) at 1. change 16 with (Z.of_nat 16). change 24 with (Z.of_nat 24).
  rewrite !shiftr_value, !land_value.
  tol a La. tol b Lb. tol c Lc. tol d Ld. repeat split.
Qed.

(** The three loops by name *)
Definition state := (nat * nat * list Z)%type.
Definition cond_at (n b : nat) (st : state) : res bool :=
  let '(ctr, pos, r) := st in test_and (ctr <=? n)%nat (test (pos <=? b)%nat).
Definition body1 (buf : list Z) (st : state) : res state :=
  let '(ctr, pos, r) := st in
  f0 <- load_bytes buf pos 32 ;;
  f1 <- load_bytes buf (pos + 24) 32 ;;
  o <- exec_c rej_body_a [f0; f1] [0; 1; 4]%nat ;;
  let pos := (pos + 48)%nat in
  let good := value (out o 2) in
  r0 <- idx_row (Z.land (Z.shiftr good 0) 0xFF) ;;
  r1 <- idx_row (Z.land (Z.shiftr good 8) 0xFF) ;;
  r2 <- idx_row (Z.land (Z.shiftr good 16) 0xFF) ;;
  r3 <- idx_row (Z.land (Z.shiftr good 24) 0xFF) ;;
  o <- exec_c rej_body_b [out o 0; out o 1; r0; r1; r2; r3] [10; 11; 12; 13]%nat ;;
  r <- storeu r ctr (out o 0) ;;
  let ctr := (ctr + popcnt (Z.land (Z.shiftr good 0) 0xFF))%nat in
  r <- storeu r ctr (out o 1) ;;
  let ctr := (ctr + popcnt (Z.land (Z.shiftr good 16) 0xFF))%nat in
  r <- storeu r ctr (out o 2) ;;
  let ctr := (ctr + popcnt (Z.land (Z.shiftr good 8) 0xFF))%nat in
  r <- storeu r ctr (out o 3) ;;
  let ctr := (ctr + popcnt (Z.land (Z.shiftr good 24) 0xFF))%nat in
  ret (ctr, pos, r).
Definition body2 (buf : list Z) (st : state) : res state :=
  let '(ctr, pos, r) := st in
  f <- load_bytes buf pos 16 ;;
  o <- exec_c rej_tail_a [f] [0; 2]%nat ;;
  let pos := (pos + 12)%nat in
  let good := value (out o 1) in
  row <- idx_row good ;;
  o <- exec_c rej_tail_b [out o 0; row] [0]%nat ;;
  r <- storeu r ctr (out o 0) ;;
  let ctr := (ctr + popcnt good)%nat in
  ret (ctr, pos, r).
Definition cond3 (st : state) : res bool :=
  let '(ctr, pos, r) := st in test_and (ctr <? 256)%nat (test (pos <=? 501)%nat).
Definition body3 (buf : list Z) (st : state) : res state :=
  let '(ctr, pos, r) := st in
  b0 <- aget buf (pos + 0) ;; x <- shr 32 b0 0 ;;
  b1 <- aget buf (pos + 1) ;; y <- ishl (u16 b1) 8 ;;
  let val0 := u16 (Z.land (Z.lor x y) 0xFFF) in
  b1 <- aget buf (pos + 1) ;; x <- shr 32 b1 4 ;;
  b2 <- aget buf (pos + 2) ;; y <- ishl (u16 b2) 4 ;;
  let val1 := u16 (Z.lor x y) in
  let pos := (pos + 3)%nat in
  c <- test (val0 <? KYBER_Q) ;;
  '(ctr, r) <- rej_put 0 ctr r val0 c ;;
  c <- test_and (val1 <? KYBER_Q) (test (ctr <? 256)%nat) ;;
  '(ctr, r) <- rej_put 0 ctr r val1 c ;;
  ret (ctr, pos, r).
Lemma rej_uniform_avx_unfold r buf :
  rej_uniform_avx r buf =
  (s <- while_ 505 (cond_at 224 448) (body1 buf) (0%nat, 0%nat, r) ;;
   s <- while_ 505 (cond_at 248 488) (body2 buf) s ;;
   '(ctr, pos, r) <- while_ 505 cond3 (body3 buf) s ;;
   ret (ctr, r)).
Proof. reflexivity. Qed.

Lemma unmasked b1 b2 : 0 <= b1 <= 255 -> 0 <= b2 <= 255 ->
  Z.lor (Z.shiftr b1 4) (u16 b2 * 2 ^ 4) = b1 / 16 + 16 * b2.
Proof.
  intros. rewrite Z.shiftr_div_pow2, u16_small by lia. change (2 ^ 4) with 16.
  assert (0 <= b1 / 16 <= 15).
  { split; [apply Z.div_pos; lia|]. apply Z.lt_succ_r. apply Z.div_lt_upper_bound; lia. }
  change 16 with (2 ^ 4) at 2. rewrite lor_shifted by lia. change (2 ^ 4) with 16. lia.
Qed.

Section Stream2.
Variable s : nat -> Z.
Hypothesis Hs : byte_stream 504 s.
Notation acc t := (accepted s t).
Notation row t := (nth (Z.to_nat (mask8 s t)) idx []).
Lemma store_step t x r (Q : list Z -> Prop) : holds x r -> (t + 4 <= 168)%nat -> (length x + 8 <= 256)%nat ->
  (forall r', holds (x ++ got s t) r' -> Q r') ->
  wp (storeu r (length x) (bits_words 8 (map (shuf (split16 (eight s t)) 0) (pairs (row t))))) [EvIndex (length x)] Q.
Proof.
  intros Hx Ht Lx HQ. destruct (pick_filter (eight s t) (eight_length s t)) as (Hm & P & F). fold (mask8 s t) in Hm, P, F.
  eapply storeu_wp; [exact Hx|apply words_of_pairs| | | |exact Lx|exact HQ].
  - apply split16_bytes. intros z Hz. pose proof (eight_range s Hs t z Ht Hz). lia.
  - unfold pick. rewrite map_length. now apply rows.
  - unfold got. rewrite <- P. exact F.
  - intros z Hz. apply (eight_range s Hs t z Ht). unfold got in Hz. now apply filter_In in Hz.
Qed.
Lemma popcnt_got t : popcnt (mask8 s t) = length (got s t).
Proof. now apply (pick_filter (eight s t) (eight_length s t)). Qed.

Definition after (t : nat) (st : state) : Prop := exists r, st = (length (acc t), 3 * t, r)%nat /\ holds (acc t) r.
Lemma body2_wp t : (3 * t + 16 <= 504)%nat -> (length (acc t) <= 248)%nat ->
  traced (fun T => forall r buf, holds (acc t) r -> agrees 504 buf s ->
    wp (body2 buf (length (acc t), 3 * t, r)%nat) T (after (t + 4))).
Proof.
  intros Ht Hc. eexists. intros r buf Hr Hg. unfold body2.
  wstep. apply wp_load_bytes; [destruct Hg; lia|].
  wstep. eapply wp_exec; [apply tail_a_exec; rewrite bits_words_length, sub_length by (destruct Hg; lia); reflexivity|].
  rewrite (cands_eq s Hs buf 16 (3 * t) t 0 0) by (auto; lia).
  cbn [out nth]. cbv zeta. fold (mask8 s t).
  wstep. apply idx_row_wp.
  destruct (pick_filter (eight s t) (eight_length s t)) as (Hm & _ & _). fold (mask8 s t) in Hm.
  destruct (rows (mask8 s t) Hm) as (L & B & _ & _).
  rewrite split16_bits.
  wstep. eapply wp_exec; [apply tail_b_exec; [now rewrite split16_length, eight_length| |exact L|exact B]|].
  { apply split16_bytes. intros z Hz. pose proof (eight_range s Hs t z ltac:(lia) Hz). lia. }
  cbn [out nth].
  replace (map (fun l => shuf (split16 (eight s t)) (l / 16) (nth l (pairs (row t)) 0)) (seq 0 16))
    with (map (shuf (split16 (eight s t)) 0) (pairs (row t))).
  2:{ clear -L. remember (row t) as x. clear Heqx. tol x L. reflexivity. }
  wstep. apply store_step; [exact Hr|lia|lia|]. intros r' Hr'.
  apply wp_ret. exists r'. rewrite popcnt_got, accepted_4, app_length. split; [|exact Hr'].
  replace (3 * t + 12)%nat with (3 * (t + 4))%nat by lia. reflexivity.
Qed.

Lemma accepted_16 t : acc (t + 16) = (((acc t ++ got s t) ++ got s (t + 4)) ++ got s (t + 8)) ++ got s (t + 12).
Proof.
  replace (t + 16)%nat with (t + 12 + 4)%nat by lia. rewrite accepted_4. f_equal.
  replace (t + 12)%nat with (t + 8 + 4)%nat by lia. rewrite accepted_4. f_equal.
  replace (t + 8)%nat with (t + 4 + 4)%nat by lia. rewrite !accepted_4. reflexivity.
Qed.
Lemma body1_wp t : (3 * t + 56 <= 504)%nat -> (length (acc t) <= 224)%nat ->
  traced (fun T => forall r buf, holds (acc t) r -> agrees 504 buf s ->
    wp (body1 buf (length (acc t), 3 * t, r)%nat) T (after (t + 16))).
Proof.
  intros Ht Hc. eexists. intros r buf Hr Hg. unfold body1.
  assert (LB : (504 <= length buf)%nat) by (destruct Hg; lia).
  wstep. apply wp_load_bytes; [lia|]. wstep. apply wp_load_bytes; [lia|].
  wstep. eapply wp_exec; [apply body_a_exec; rewrite bits_words_length, sub_length by lia; reflexivity|].
  rewrite (cands_eq s Hs buf 32 (3 * t) t 0 0) by (auto; lia).
  rewrite (cands_eq s Hs buf 32 (3 * t) (t + 4) 1 8) by (auto; lia).
  rewrite (cands_eq s Hs buf 32 (3 * t + 24) (t + 8) 0 0) by (auto; lia).
  rewrite (cands_eq s Hs buf 32 (3 * t + 24) (t + 12) 1 8) by (auto; lia).
  cbn [out nth]. cbv zeta. rewrite !map_app.
  destruct (four_masks (map ok_cand (eight s t)) (map ok_cand (eight s (t + 8))) (map ok_cand (eight s (t + 4))) (map ok_cand (eight s (t + 12)))
    eq_refl eq_refl eq_refl eq_refl) as (M0 & M1 & M2 & M3).
  rewrite M0, M1, M2, M3. clear M0 M1 M2 M3.
  fold (mask8 s t) (mask8 s (t + 4)) (mask8 s (t + 8)) (mask8 s (t + 12)).
  wstep. apply idx_row_wp. wstep. apply idx_row_wp. wstep. apply idx_row_wp. wstep. apply idx_row_wp.
  assert (R : forall t', length (row t') = 8%nat /\ bytes (row t')).
  { intros t'. destruct (pick_filter (eight s t') (eight_length s t')) as (Hm & _ & _). fold (mask8 s t') in Hm.
    destruct (rows (mask8 s t') Hm) as (L & B & _ & _). auto. }
  assert (W : forall t', (t' + 4 <= 168)%nat -> bytes (split16 (eight s t'))).
  { intros t' Ht'. apply split16_bytes. intros z Hz. pose proof (eight_range s Hs t' z Ht' Hz). lia. }
  assert (LE : forall t', length (split16 (eight s t')) = 16%nat) by (intros; now rewrite split16_length, eight_length).
  rewrite !split16_bits, !split16_app.
  wstep. eapply wp_exec.
  { apply body_b_exec; try apply R; try (rewrite app_length, !LE; reflexivity); apply bnd_app; apply W; lia. }
  rewrite !(map_ext _ _ (fun c => shuf_low _ _ c (LE _))).
  rewrite !(map_ext _ _ (fun c => shuf_half _ _ 1 c (LE _))).
  cbn [out nth].
  pose proof (got_length s t). pose proof (got_length s (t + 4)). pose proof (got_length s (t + 8)).
  wstep. apply store_step; [exact Hr|lia|lia|]. clear r Hr. intros r Hr.
  rewrite !popcnt_got, <- !app_length.
  wstep. apply store_step; [exact Hr|lia|rewrite app_length; lia|]. clear r Hr. intros r Hr. rewrite <- ?app_length.
  wstep. apply store_step; [exact Hr|lia|rewrite !app_length; lia|]. clear r Hr. intros r Hr. rewrite <- ?app_length.
  wstep. apply store_step; [exact Hr|lia|rewrite !app_length; lia|]. clear r Hr. intros r Hr. rewrite <- ?app_length.
  rewrite <- accepted_16 in *. apply wp_ret. exists r. split; [|exact Hr].
  replace (3 * t + 48)%nat with (3 * (t + 16))%nat by lia. reflexivity.
Qed.

(** One vector loop *)
Lemma vector_loop step n b body : (0 < step)%nat -> (b <= 501)%nat ->
  (forall t, (3 * t <= b)%nat -> (length (acc t) <= n)%nat ->
     ((3 * (t + step) <= 504)%nat /\ (length (acc (t + step)) <= 256)%nat) *
     traced (fun T => forall r buf, holds (acc t) r -> agrees 504 buf s ->
       wp (body buf (length (acc t), 3 * t, r)%nat) T (after (t + step)))) ->
  forall fuel t, (505 <= fuel + 3 * t)%nat -> (3 * t <= 504)%nat -> (length (acc t) <= 256)%nat ->
  {t' : nat & (((t <= t')%nat /\ (3 * t' <= 504)%nat /\ (length (acc t') <= 256)%nat) *
     traced (fun T => forall r buf, holds (acc t) r -> agrees 504 buf s ->
       wp (while_ fuel (cond_at n b) (body buf) (length (acc t), 3 * t, r)%nat) T (after t')))%type}.
Proof.
  intros Hst Hb BODY. induction fuel as [|fuel IH]; intros t Hf Ht Hl; [exfalso; lia|].
  destruct (Compare_dec.le_dec (length (acc t)) n) as [Hn|Hn].
  - destruct (Compare_dec.le_dec (3 * t) b) as [Hp|Hp].
    + destruct (BODY t Hp Hn) as [[H1 H2] [T1 W1]].
      destruct (IH (t + step)%nat ltac:(lia) H1 H2) as (t' & (G1 & G2 & G3) & T2 & W2).
      exists t'. split; [repeat split; lia|]. eexists. intros r buf Hr Hg. cbn [while_].
      wstep. unfold cond_at at 1, test_and.
      replace (length (acc t) <=? n)%nat with true by (symmetry; apply Nat.leb_le; lia).
      replace (3 * t <=? b)%nat with true by (symmetry; apply Nat.leb_le; lia).
      wstep. wstep. wstep. wstep. eapply wp_conseq; [apply W1; auto|]. intros st (r' & -> & Hr').
      apply W2; auto.
    + exists t. split; [repeat split; lia|]. eexists. intros r buf Hr Hg. cbn [while_].
      wstep. unfold cond_at at 1, test_and.
      replace (length (acc t) <=? n)%nat with true by (symmetry; apply Nat.leb_le; lia).
      replace (3 * t <=? b)%nat with false by (symmetry; apply Nat.leb_gt; lia).
      wstep. wstep. wstep. wstep. exists r. auto.
  - exists t. split; [repeat split; lia|]. eexists. intros r buf Hr Hg. cbn [while_].
    wstep. unfold cond_at at 1, test_and.
    replace (length (acc t) <=? n)%nat with false by (symmetry; apply Nat.leb_gt; lia).
    wstep. wstep. wstep. wstep. exists r. auto.
Qed.

(** The scalar loop *)
Lemma body3_wp ctr t : (ctr < 256)%nat -> (3 * t + 3 <= 504)%nat ->
  traced (fun T => forall r buf, length r = 256%nat -> agrees 504 buf s ->
    wp (body3 buf (ctr, 3 * t, r)%nat) T
       (fun st => st = (ctr + length (rej (256 - ctr) s t 1), 3 * S t, splice r ctr (rej (256 - ctr) s t 1))%nat)).
Proof.
  intros Hc Ht.
  set (v0 := s (3 * t)%nat + 256 * (s (3 * t + 1)%nat mod 16)).
  set (v1 := s (3 * t + 1)%nat / 16 + 16 * s (3 * t + 2)%nat).
  pose proof (Hs (3 * t)%nat ltac:(lia)) as B0. pose proof (Hs (3 * t + 1)%nat ltac:(lia)) as B1.
  pose proof (Hs (3 * t + 2)%nat ltac:(lia)) as B2.
  assert (R0 : 0 <= v0 < 4096).
  { unfold v0. pose proof (Z.mod_pos_bound (s (3 * t + 1)%nat) 16 ltac:(lia)). lia. }
  assert (R1 : 0 <= v1 < 4096).
  { unfold v1. assert (0 <= s (3 * t + 1)%nat / 16) by (apply Z.div_pos; lia).
    assert (s (3 * t + 1)%nat / 16 < 16) by (apply Z.div_lt_upper_bound; lia). lia. }
  set (c0 := v0 <? q). set (ctr1 := if c0 then S ctr else ctr).
  set (c1 := ((v1 <? q) && (ctr1 <? 256)%nat)%bool).
  assert (EA : rej (256 - ctr) s t 1 = (if c0 then [v0] else []) ++ (if c1 then [v1] else [])).
  { unfold rej. cbn [seq flat_map]. rewrite app_nil_r. unfold candidates. fold v0 v1.
    unfold c1, ctr1, c0. cbn [filter]. unfold ok_cand.
    destruct (v0 <? q), (v1 <? q); cbn [andb];
      destruct (Nat.ltb_spec (S ctr) 256); destruct (Nat.ltb_spec ctr 256); try lia; cbn [app].
    all: first [ rewrite firstn_all2 by (cbn [length]; lia); reflexivity
               | replace (256 - ctr)%nat with 1%nat by lia; reflexivity ]. }
  assert (TA : traced (fun T => wp (test_and (v1 <? q) (test (ctr1 <? 256)%nat)) T (fun b => b = c1))).
  { unfold c1, test_and. destruct (v1 <? q); eexists; wstep; wstep; [wstep; reflexivity|wstep; reflexivity]. }
  destruct (rej_put_wp 0 ctr v0 c0) as [T0 W0].
  destruct (rej_put_wp 0 ctr1 v1 c1) as [T1 W1].
  destruct TA as [TA WA].
  eexists. intros r buf Hr [Hb Hg]. unfold body3.
  rewrite (Nat.add_0_r (3 * t)).
  wstep. wstep; [lia|]. rewrite Hg by lia. wstep. wstep; [lia|].
  wstep. wstep; [lia|]. rewrite Hg by lia. wstep. wstep; try (rewrite u16_small by lia; lia); [lia|].
  rewrite val0_eq by lia. fold v0. cbv zeta.
  wstep. wstep; [lia|]. rewrite Hg by lia. wstep. wstep; [lia|].
  wstep. wstep; [lia|]. rewrite Hg by lia. wstep. wstep; try (rewrite u16_small by lia; lia); [lia|].
  rewrite unmasked by lia. fold v1. rewrite !u16_small by lia. change KYBER_Q with q.
  wstep. wstep. fold c0.
  wstep. eapply wp_conseq; [apply W0; auto; lia|].
  intros st Est.
  replace st with (ctr1, splice r ctr (if c0 then [v0] else [])) by
    (rewrite Est; unfold ctr1; destruct c0; [reflexivity|now rewrite splice_nil]). clear Est st.
  wstep. eapply wp_conseq; [exact WA|]. intros b ->.
  wstep. eapply wp_conseq; [apply W1; auto|].
  { intros E. unfold c1 in E. apply andb_prop in E as [_ E]. apply Nat.ltb_lt in E.
    rewrite splice_length; [lia|]. destruct c0; cbn [length]; lia. }
  intros st ->.
  assert (Ec : ctr1 = (ctr + length (if c0 then [v0] else []))%nat).
  { unfold ctr1. destruct c0; cbn [length]; lia. }
  rewrite EA, app_length.
  destruct c1 eqn:Ec1; wstep.
  - unfold c1 in Ec1. apply andb_prop in Ec1 as [_ E]. apply Nat.ltb_lt in E.
    rewrite splice_splice_next by (cbn [length]; lia). cbn [length].
    replace (3 * t + 3)%nat with (3 * S t)%nat by lia.
    replace (S ctr1) with (ctr + (length (if c0 then [v0] else []) + 1))%nat by lia. reflexivity.
  - rewrite app_nil_r. cbn [length]. replace (3 * t + 3)%nat with (3 * S t)%nat by lia.
    rewrite Nat.add_0_r, <- Ec. reflexivity.
Qed.
Lemma loop3_wp : forall fuel ctr t, (168 - t < fuel)%nat -> (t <= 168)%nat -> (ctr <= 256)%nat ->
  traced (fun T => forall r buf, length r = 256%nat -> agrees 504 buf s ->
    wp (while_ fuel cond3 (body3 buf) (ctr, 3 * t, r)%nat) T
       (fun st => (fst (fst st), snd st) =
          (ctr + length (rej (256 - ctr) s t (168 - t)), splice r ctr (rej (256 - ctr) s t (168 - t)))%nat)).
Proof.
  induction fuel as [|fuel IH]; intros ctr t Hf Ht Hc; [exfalso; lia|].
  destruct (Compare_dec.lt_dec ctr 256) as [Hlt|Hge].
  - destruct (Compare_dec.lt_dec t 168) as [Htm|Htm].
    + destruct (body3_wp ctr t Hlt ltac:(lia)) as [T1 W1].
      set (A := rej (256 - ctr) s t 1) in *.
      assert (LA : (length A <= 256 - ctr)%nat) by apply rej_length_le.
      destruct (IH (ctr + length A)%nat (S t) ltac:(lia) ltac:(lia) ltac:(lia)) as [T2 W2].
      eexists. intros r buf Hr Hg. cbn [while_].
      wstep. unfold cond3 at 1. unfold test_and.
      replace (ctr <? 256)%nat with true by (symmetry; apply Nat.ltb_lt; lia).
      replace (3 * t <=? 501)%nat with true by (symmetry; apply Nat.leb_le; lia).
      wstep. wstep. wstep. wstep. eapply wp_conseq; [apply W1; auto|]. intros st ->.
      eapply wp_conseq; [apply W2; [rewrite splice_length; lia|exact Hg]|].
      intros st ->. replace (168 - t)%nat with (S (168 - S t)) by lia.
      rewrite rej_S. fold A. replace (256 - ctr - length A)%nat with (256 - (ctr + length A))%nat by lia.
      set (B := rej (256 - (ctr + length A)) s (S t) (168 - S t)).
      assert (LB : (length B <= 256 - (ctr + length A))%nat) by apply rej_length_le.
      rewrite splice_splice_next by lia. rewrite app_length.
      replace (ctr + length A + length B)%nat with (ctr + (length A + length B))%nat by lia. reflexivity.
    + eexists. intros r buf Hr Hg. cbn [while_].
      wstep. unfold cond3 at 1. unfold test_and.
      replace (ctr <? 256)%nat with true by (symmetry; apply Nat.ltb_lt; lia).
      replace (3 * t <=? 501)%nat with false by (symmetry; apply Nat.leb_gt; lia).
      wstep. wstep. wstep. wstep. cbn [fst snd].
      replace (168 - t)%nat with 0%nat by lia. rewrite rej_0, splice_nil. cbn [length].
      now rewrite Nat.add_0_r.
  - eexists. intros r buf Hr Hg. cbn [while_].
    wstep. unfold cond3 at 1. unfold test_and.
    replace (ctr <? 256)%nat with false by (symmetry; apply Nat.ltb_ge; lia).
    wstep. wstep. wstep. wstep. cbn [fst snd].
    replace (256 - ctr)%nat with 0%nat by lia. rewrite rej_len0, splice_nil. cbn [length].
    now rewrite Nat.add_0_r.
Qed.

Lemma rej_split t : (t <= 168)%nat -> (length (acc t) <= 256)%nat ->
  rej 256 s 0 168 = acc t ++ rej (256 - length (acc t)) s t (168 - t).
Proof.
  intros Ht Hl. replace (rej 256 s 0 168) with (rej 256 s 0 (t + (168 - t))) by (f_equal; lia). unfold rej.
  rewrite seq_app, flat_map_app, filter_app. change (filter ok_cand (flat_map (candidates s) (seq 0 t))) with (acc t).
  rewrite firstn_app_le by lia. reflexivity.
Qed.
Lemma rej_uniform_avx_wp :
  traced (fun T => forall r buf, length r = 256%nat -> agrees 504 buf s ->
    wp (rej_uniform_avx r buf) T
       (fun st => fst st = length (rej 256 s 0 168) /\ holds (rej 256 s 0 168) (snd st))).
Proof.
  assert (G4 : forall t, (length (acc (t + 4)) <= length (acc t) + 8)%nat).
  { intros t. rewrite accepted_4, app_length. pose proof (got_length s t). lia. }
  destruct (vector_loop 16 224 448 body1 ltac:(lia) ltac:(lia)) with (fuel := 505%nat) (t := 0%nat) as (t1 & (A1 & A2 & A3) & T1 & W1).
  { intros t Ht Hl. split; [|apply body1_wp; lia]. pose proof (G4 t). pose proof (G4 (t + 4)%nat). pose proof (G4 (t + 4 + 4)%nat). pose proof (G4 (t + 4 + 4 + 4)%nat).
    replace (t + 16)%nat with (t + 4 + 4 + 4 + 4)%nat by lia. lia. }
  { lia. } { lia. } { cbn [accepted seq flat_map filter length]. lia. }
  destruct (vector_loop 4 248 488 body2 ltac:(lia) ltac:(lia)) with (fuel := 505%nat) (t := t1) as (t2 & (C1 & C2 & C3) & T2 & W2).
  { intros t Ht Hl. split; [|apply body2_wp; lia]. pose proof (G4 t). lia. }
  { lia. } { lia. } { lia. }
  destruct (loop3_wp 505 (length (acc t2)) t2 ltac:(lia) ltac:(lia) ltac:(lia)) as [T3 W3].
  eexists. intros r buf Hr Hg. rewrite rej_uniform_avx_unfold.
  wstep. eapply wp_conseq; [apply (W1 r buf); [split; [exact Hr|reflexivity]|exact Hg]|]. intros st (r1 & -> & H1).
  wstep. eapply wp_conseq; [apply (W2 r1 buf H1 Hg)|]. intros st (r2 & -> & [L2 H2]).
  wstep. eapply wp_conseq; [apply (W3 r2 buf L2 Hg)|]. intros [[c p] r3] E. cbn [fst snd] in E. apply pair_equal_spec in E as [-> ->].
  apply wp_ret. cbn [fst snd]. rewrite (rej_split t2) by lia. set (B := rej (256 - length (acc t2)) s t2 (168 - t2)).
  assert (LB : (length B <= 256 - length (acc t2))%nat) by apply rej_length_le.
  split; [now rewrite app_length|]. split; [rewrite splice_length; lia|].
  unfold splice. rewrite H2, app_assoc. rewrite firstn_app, Nat.sub_diag, firstn_O, firstn_all. apply app_nil_r.
Qed.
End Stream2.
