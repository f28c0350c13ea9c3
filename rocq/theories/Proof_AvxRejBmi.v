(** * rej_uniform_avx with BMI defined (avx2/rejsample.c) *)
From Coq Require Import ZArith List Lia Bool NArith.
From Verif Require Import CMonad WP Proof_Base Model_Params Proof_Bits Proof_Codec Proof_Rej Proof_GenMatrix
  Model_AvxIntrin Model_AvxC Model_AvxRej Model_AvxRejBmi Proof_AvxBits Proof_AvxVec Proof_AvxRej Proof_AvxRejLoop Spec_FIPS203.
Import ListNotations.
Open Scope Z_scope.
Ltac tol l H := do 8 (destruct l as [|? l]; [discriminate H|]); destruct l; [|discriminate H].

(** ** The shuffle control *)
Definition row_of (m : Z) : list Z := words_bits 8 (bits_of 64 (bmi_row m 0x0101010101010101)).
Definition doubled (l : list bool) : list bool := flat_map (fun b => [b; b]) l.
Definition sparse (m : Z) : Z := Z.land (value (doubled (bits_of 8 m))) 0x5555.
Definition row_check (row l : list Z) (a b : Z) (n c d : nat) : bool :=
  (length row =? 8)%nat && forallb (fun x => (0 <=? x) && (x <=? 255)) row && (n =? length l)%nat &&
  forallb (fun ab => fst ab =? snd ab) (combine l row) && (a =? b) && (c =? d)%nat.
Lemma bmi_rows_sweep : forall i, In i (seq 0 256) ->
  row_check (row_of (Z.of_nat i)) (map (fun i => 2 * Z.of_nat i) (set_bits (Z.of_nat i)))
    (bmi_row (sparse (Z.of_nat i)) 0x1111111111111111) (bmi_row (Z.of_nat i) 0x0101010101010101)
    (popcnt (Z.of_nat i)) (popcnt (sparse (Z.of_nat i))) (popcnt (Z.of_nat i)) = true.
Proof. apply forallb_forall. vm_compute. reflexivity. Qed.
Lemma row_conditions row l a b n c d : row_check row l a b n c d = true -> (length l <= 8)%nat ->
  length row = 8%nat /\ bytes row /\ n = length l /\ firstn n row = l /\ a = b /\ c = d.
Proof.
  intros R Ll. unfold row_check in R. apply andb_prop in R as [R R6]. apply andb_prop in R as [R R5].
  apply andb_prop in R as [R R4]. apply andb_prop in R as [R R3]. apply andb_prop in R as [R1 R2].
  apply Nat.eqb_eq in R1, R3, R6. apply Z.eqb_eq in R5.
  split; [exact R1|]. split; [|split; [exact R3|split; [|split; [exact R5|exact R6]]]].
  - apply bnd_Forall, Forall_forall. intros x Hx. rewrite forallb_forall in R2. specialize (R2 x Hx). lia.
  - rewrite R3. apply combine_prefix; auto. lia.
Qed.
Lemma bmi_rows m : 0 <= m < 256 ->
  length (row_of m) = 8%nat /\ bytes (row_of m) /\ popcnt m = length (set_bits m) /\
  firstn (popcnt m) (row_of m) = map (fun i => 2 * Z.of_nat i) (set_bits m) /\
  bmi_row (sparse m) 0x1111111111111111 = bmi_row m 0x0101010101010101 /\ popcnt (sparse m) = popcnt m.
Proof.
  intros Hm. assert (I : In (Z.to_nat m) (seq 0 256)) by (apply in_seq; lia).
  pose proof (bmi_rows_sweep (Z.to_nat m) I) as R. rewrite Z2Nat.id in R by lia.
  apply row_conditions in R; [|rewrite map_length; apply set_bits_length]. rewrite map_length in R. exact R.
Qed.

(** Only the low eight bits of the source matter. *)
Lemma bmi_row_low x : bmi_row x 0x0101010101010101 = bmi_row (Z.land x 0xFF) 0x0101010101010101.
Proof.
  assert (E : pdep_u64 x 0x0101010101010101 = pdep_u64 (Z.land x 0xFF) 0x0101010101010101).
  { assert (L : forall i, (i < 8)%nat -> Z.testbit (Z.land x 0xFF) (Z.of_nat i) = Z.testbit x (Z.of_nat i)).
    { intros i Hi. change 0xFF with (Z.ones 8). rewrite Z.land_spec, Z.testbit_ones_nonneg by lia.
      replace (Z.of_nat i <? 8) with true by (symmetry; apply Z.ltb_lt; lia). apply andb_true_r. }
    assert (D : forall y, deposit (bits_of 64 y) (bits_of 64 0x0101010101010101) =
        flat_map (fun i => Z.testbit y (Z.of_nat i) :: repeat false 7) (seq 0 8)) by (intros; reflexivity).
    unfold pdep_u64. rewrite !D. f_equal. rewrite !flat_map_concat_map. f_equal. apply map_ext_in. intros i Hi. apply in_seq in Hi.
    now rewrite L by lia. }
  unfold bmi_row. now rewrite E.
Qed.
Lemma bits_words_words l : length l = 64%nat -> bits_words 8 (words_bits 8 l) = l.
Proof.
  intros L. do 64 (destruct l as [|? l]; [discriminate L|]). destruct l; [|discriminate L].
  unfold words_bits.
  match goal with |- context [chunks 8 ?x] => let y := eval vm_compute in (chunks 8 x) in change (chunks 8 x) with y end.
  cbn [map bits_words flat_map].
  repeat match goal with |- context [bits_of 8 (value ?x)] => rewrite (bits_of_value x 8) by reflexivity end. reflexivity.
Qed.

(** ** The first half of the second loop *)
Definition tg128h : bx := Bt tgt 15.
Lemma tg128h_value z : 0 <= z < 4096 -> bval (zbits z) (fun _ => 0) tg128h = ok_cand z.
Proof.
  intros Hz. unfold tg128h.
  change (Z.testbit (wval (zbits z) (fun _ => 0) tgt) 15 = ok_cand z). rewrite tgt_value by lia. destruct (ok_cand z); reflexivity.
Qed.
Lemma tail_a_bmi_chk : check rej_tail_a_bmi (pieces [128]%nat (bin 0 128)) [0; 2]%nat
  (map (map shift_bx) [flat_map (fun l => tfs (at12 0 l)) (seq 0 8);
     flat_map (fun l => [(tg128, at12 0 l); (tg128h, at12 0 l)]) (seq 0 8)]) = true.
Proof. vm_compute. reflexivity. Qed.
Lemma tail_a_bmi_exec x : length x = 128%nat ->
  exec_c rej_tail_a_bmi [x] [0; 2]%nat = ret [bits_words 16 (cands x 0 0 8); doubled (map ok_cand (cands x 0 0 8))].
Proof.
  intros Lx.
  assert (P : pieces [128]%nat x = [x]) by (cbn [pieces]; now rewrite <- Lx, firstn_all).
  rewrite <- P. rewrite (exec_bits 128 _ _ _ 12 _ tail_a_bmi_chk); [|vm_compute; reflexivity|exact Lx].
  cbn [map]. rewrite tfs_bits. do 3 f_equal. unfold cands, doubled.
  rewrite !flat_map_concat_map, concat_map, !map_map. f_equal. apply map_ext. intros l. unfold bit_at. cbn [map fst snd].
  rewrite tg128_value, tg128h_value by apply (fieldv_range x _ 12). reflexivity.
Qed.

(** ** The loops *)
Definition body1_bmi (buf : list Z) (st : state) : res state :=
  let '(ctr, pos, r) := st in
  f0 <- load_bytes buf pos 32 ;;
  f1 <- load_bytes buf (pos + 24) 32 ;;
  o <- exec_c rej_body_a [f0; f1] [0; 1; 4]%nat ;;
  let pos := (pos + 48)%nat in
  let good := value (out o 2) in
  let r0 := bits_of 64 (bmi_row (Z.shiftr good 0) 0x0101010101010101) in
  let r1 := bits_of 64 (bmi_row (Z.shiftr good 8) 0x0101010101010101) in
  let r2 := bits_of 64 (bmi_row (Z.shiftr good 16) 0x0101010101010101) in
  let r3 := bits_of 64 (bmi_row (Z.shiftr good 24) 0x0101010101010101) in
  o <- exec_c rej_body_b [out o 0; out o 1; r0; r1; r2; r3] [10; 11; 12; 13]%nat ;;
  r <- storeu r ctr (out o 0) ;;
  let ctr := (ctr + popcnt (Z.land (Z.shiftr good 0) 0xFF))%nat in
  r <- storeu r ctr (out o 1) ;;
  let ctr := (ctr + popcnt (Z.land (Z.shiftr good 16) 0xFF))%nat in
  r <- storeu r ctr (out o 2) ;;
  let ctr := (ctr + popcnt (Z.land (Z.shiftr good 8) 0xFF))%nat in
  r <- storeu r ctr (out o 3) ;;
  let ctr := (ctr + popcnt (Z.land (Z.shiftr good 24) 0xFF))%nat in
  ret (ctr, pos, r).
Definition body2_bmi (buf : list Z) (st : state) : res state :=
  let '(ctr, pos, r) := st in
  f <- load_bytes buf pos 16 ;;
  o <- exec_c rej_tail_a_bmi [f] [0; 2]%nat ;;
  let pos := (pos + 12)%nat in
  let good := Z.land (value (out o 1)) 0x5555 in
  let row := bits_of 64 (bmi_row good 0x1111111111111111) in
  o <- exec_c rej_tail_b [out o 0; row] [0]%nat ;;
  r <- storeu r ctr (out o 0) ;;
  let ctr := (ctr + popcnt good)%nat in
  ret (ctr, pos, r).
Lemma rej_uniform_avx_bmi_unfold r buf :
  rej_uniform_avx_bmi r buf =
  (s <- while_ 505 (cond_at 224 448) (body1_bmi buf) (0%nat, 0%nat, r) ;;
   s <- while_ 505 (cond_at 248 488) (body2_bmi buf) s ;;
   '(ctr, pos, r) <- while_ 505 cond3 (body3 buf) s ;;
   ret (ctr, r)).
Proof. reflexivity. Qed.

Lemma row_bits x m : 0 <= m < 256 -> Z.land x 0xFF = m -> bits_of 64 (bmi_row x 0x0101010101010101) = bits_words 8 (row_of m).
Proof. intros Hm E. rewrite bmi_row_low, E. unfold row_of. symmetry. apply bits_words_words. apply bits_of_length. Qed.
Lemma sparse_bits l : length l = 8%nat -> Z.land (value (doubled l)) 0x5555 = sparse (value l).
Proof. intros L. unfold sparse. now rewrite bits_of_value. Qed.
Lemma sparse_row m : 0 <= m < 256 -> bits_of 64 (bmi_row (sparse m) 0x1111111111111111) = bits_words 8 (row_of m).
Proof.
  intros Hm. destruct (bmi_rows m Hm) as (_ & _ & _ & _ & E & _). rewrite E. unfold row_of. symmetry. apply bits_words_words. apply bits_of_length.
Qed.
Lemma pick_bmi ws : length ws = 8%nat -> let m := value (map ok_cand ws) in
  0 <= m < 256 /\ popcnt m = length (filter ok_cand ws) /\ firstn (popcnt m) (pick ws (row_of m)) = filter ok_cand ws.
Proof.
  intros L m. destruct (pick_filter ws L) as (Hm & P & F). fold m in Hm, P, F. split; [exact Hm|]. split; [exact P|].
  rewrite <- F. destruct (bmi_rows m Hm) as (_ & _ & _ & F1 & _ & _). destruct (rows m Hm) as (_ & _ & _ & F2).
  unfold pick. rewrite !firstn_map, F1, F2. reflexivity.
Qed.

Local Opaque row_of bmi_row popcnt sparse.
Section Stream3.
Variable s : nat -> Z.
Hypothesis Hs : byte_stream 504 s.
Notation acc t := (accepted s t).
Notation row t := (row_of (mask8 s t)).
Lemma store_step_bmi t x r (Q : list Z -> Prop) : holds x r -> (t + 4 <= 168)%nat -> (length x + 8 <= 256)%nat ->
  (forall r', holds (x ++ got s t) r' -> Q r') ->
  wp (storeu r (length x) (bits_words 8 (map (shuf (split16 (eight s t)) 0) (pairs (row t))))) [EvIndex (length x)] Q.
Proof.
  intros Hx Ht Lx HQ. destruct (pick_bmi (eight s t) (eight_length s t)) as (Hm & P & F). fold (mask8 s t) in Hm, P, F.
  eapply storeu_wp; [exact Hx|apply words_of_pairs| | | |exact Lx|exact HQ].
  - apply split16_bytes. intros z Hz. pose proof (eight_range s Hs t z Ht Hz). lia.
  - unfold pick. rewrite map_length. exact (proj1 (bmi_rows _ Hm)).
  - unfold got. rewrite <- P. exact F.
  - intros z Hz. apply (eight_range s Hs t z Ht). unfold got in Hz. exact (proj1 (proj1 (filter_In _ _ _) Hz)).
Qed.
Lemma body2_bmi_wp t : (3 * t + 16 <= 504)%nat -> (length (acc t) <= 248)%nat ->
  traced (fun T => forall r buf, holds (acc t) r -> agrees 504 buf s ->
    wp (body2_bmi buf (length (acc t), 3 * t, r)%nat) T (after s (t + 4))).
Proof.
  intros Ht Hc. eexists. intros r buf Hr Hg. unfold body2_bmi.
  wstep. apply wp_load_bytes; [destruct Hg; lia|].
  wstep. eapply wp_exec; [apply tail_a_bmi_exec; rewrite bits_words_length, sub_length by (destruct Hg; lia); reflexivity|].
  rewrite (cands_eq s Hs buf 16 (3 * t) t 0 0) by (auto; lia).
  cbn [out nth]. cbv zeta. rewrite sparse_bits by reflexivity. fold (mask8 s t).
  destruct (pick_bmi (eight s t) (eight_length s t)) as (Hm & _ & _). fold (mask8 s t) in Hm.
  destruct (bmi_rows (mask8 s t) Hm) as (L & B & _ & _ & _ & PS). rewrite PS, sparse_row by exact Hm.
  rewrite split16_bits.
  wstep. eapply wp_exec; [apply tail_b_exec; [now rewrite split16_length, eight_length| |exact L|exact B]|].
  { apply split16_bytes. intros z Hz. pose proof (eight_range s Hs t z ltac:(lia) Hz). lia. }
  cbn [out nth].
  replace (map (fun l => shuf (split16 (eight s t)) (l / 16) (nth l (pairs (row t)) 0)) (seq 0 16))
    with (map (shuf (split16 (eight s t)) 0) (pairs (row t))).
  2:{ clear -L. remember (row t) as x. clear Heqx. tol x L. reflexivity. }
  wstep. apply store_step_bmi; [exact Hr|lia|lia|]. intros r' Hr'.
  apply wp_ret. exists r'. rewrite popcnt_got, accepted_4, app_length. split; [|exact Hr'].
  replace (3 * t + 12)%nat with (3 * (t + 4))%nat by lia. reflexivity.
Qed.

Lemma body1_bmi_wp t : (3 * t + 56 <= 504)%nat -> (length (acc t) <= 224)%nat ->
  traced (fun T => forall r buf, holds (acc t) r -> agrees 504 buf s ->
    wp (body1_bmi buf (length (acc t), 3 * t, r)%nat) T (after s (t + 16))).
Proof.
  intros Ht Hc. eexists. intros r buf Hr Hg. unfold body1_bmi.
  assert (LB : (504 <= length buf)%nat) by (destruct Hg; lia).
  wstep. apply wp_load_bytes; [lia|]. wstep. apply wp_load_bytes; [lia|].
  wstep. eapply wp_exec; [apply body_a_exec; rewrite bits_words_length, sub_length by lia; reflexivity|].
  rewrite (cands_eq s Hs buf 32 (3 * t) t 0 0) by (auto; lia).
  rewrite (cands_eq s Hs buf 32 (3 * t) (t + 4) 1 8) by (auto; lia).
  rewrite (cands_eq s Hs buf 32 (3 * t + 24) (t + 8) 0 0) by (auto; lia).
  rewrite (cands_eq s Hs buf 32 (3 * t + 24) (t + 12) 1 8) by (auto; lia).
  cbn [out nth]. cbv zeta. rewrite !map_app.
  destruct (four_masks (map ok_cand (eight s t)) (map ok_cand (eight s (t + 8))) (map ok_cand (eight s (t + 4))) (map ok_cand (eight s (t + 12)))
    eq_refl eq_refl eq_refl eq_refl) as (M0 & M1 & M2 & M3).
  rewrite !(row_bits _ _ (proj1 (pick_bmi _ (eight_length s _))) M0), !(row_bits _ _ (proj1 (pick_bmi _ (eight_length s _))) M1),
    !(row_bits _ _ (proj1 (pick_bmi _ (eight_length s _))) M2), !(row_bits _ _ (proj1 (pick_bmi _ (eight_length s _))) M3).
  rewrite M0, M1, M2, M3. clear M0 M1 M2 M3.
  fold (mask8 s t) (mask8 s (t + 4)) (mask8 s (t + 8)) (mask8 s (t + 12)).
  assert (R : forall t', length (row t') = 8%nat /\ bytes (row t')).
  { intros t'. destruct (pick_bmi (eight s t') (eight_length s t')) as (Hm & _ & _). fold (mask8 s t') in Hm.
    destruct (bmi_rows (mask8 s t') Hm) as (L & B & _). auto. }
  assert (W : forall t', (t' + 4 <= 168)%nat -> bytes (split16 (eight s t'))).
  { intros t' Ht'. apply split16_bytes. intros z Hz. pose proof (eight_range s Hs t' z Ht' Hz). lia. }
  assert (LE : forall t', length (split16 (eight s t')) = 16%nat) by (intros; now rewrite split16_length, eight_length).
  rewrite !split16_bits, !split16_app.
  wstep. eapply wp_exec.
  { apply body_b_exec; try apply R; try (rewrite app_length, !LE; reflexivity); apply bnd_app; apply W; lia. }
  rewrite !(map_ext _ _ (fun c => shuf_low _ _ c (LE _))).
  rewrite !(map_ext _ _ (fun c => shuf_half _ _ 1 c (LE _))).
  cbn [out nth].
  pose proof (got_length s t). pose proof (got_length s (t + 4)). pose proof (got_length s (t + 8)).
  wstep. apply store_step_bmi; [exact Hr|lia|lia|]. clear r Hr. intros r Hr.
  rewrite !popcnt_got, <- !app_length.
  wstep. apply store_step_bmi; [exact Hr|lia|rewrite app_length; lia|]. clear r Hr. intros r Hr. rewrite <- ?app_length.
  wstep. apply store_step_bmi; [exact Hr|lia|rewrite !app_length; lia|]. clear r Hr. intros r Hr. rewrite <- ?app_length.
  wstep. apply store_step_bmi; [exact Hr|lia|rewrite !app_length; lia|]. clear r Hr. intros r Hr. rewrite <- ?app_length.
  rewrite <- (accepted_16 s) in *. apply wp_ret. exists r. split; [|exact Hr].
  replace (3 * t + 48)%nat with (3 * (t + 16))%nat by lia. reflexivity.
Qed.

Lemma rej_uniform_avx_bmi_wp :
  traced (fun T => forall r buf, length r = 256%nat -> agrees 504 buf s ->
    wp (rej_uniform_avx_bmi r buf) T
       (fun st => fst st = length (rej 256 s 0 168) /\ holds (rej 256 s 0 168) (snd st))).
Proof.
  assert (G4 : forall t, (length (acc (t + 4)) <= length (acc t) + 8)%nat).
  { intros t. rewrite accepted_4, app_length. pose proof (got_length s t). lia. }
  destruct (vector_loop s 16 224 448 body1_bmi ltac:(lia) ltac:(lia)) with (fuel := 505%nat) (t := 0%nat) as (t1 & (A1 & A2 & A3) & T1 & W1).
  { intros t Ht Hl. split; [|apply body1_bmi_wp; lia]. pose proof (G4 t). pose proof (G4 (t + 4)%nat). pose proof (G4 (t + 4 + 4)%nat). pose proof (G4 (t + 4 + 4 + 4)%nat).
    replace (t + 16)%nat with (t + 4 + 4 + 4 + 4)%nat by lia. lia. }
  { lia. } { lia. } { cbn [accepted seq flat_map filter length]. lia. }
  destruct (vector_loop s 4 248 488 body2_bmi ltac:(lia) ltac:(lia)) with (fuel := 505%nat) (t := t1) as (t2 & (C1 & C2 & C3) & T2 & W2).
  { intros t Ht Hl. split; [|apply body2_bmi_wp; lia]. pose proof (G4 t). lia. }
  { lia. } { lia. } { lia. }
  destruct (loop3_wp s Hs 505 (length (acc t2)) t2 ltac:(lia) ltac:(lia) ltac:(lia)) as [T3 W3].
  eexists. intros r buf Hr Hg. rewrite rej_uniform_avx_bmi_unfold.
  wstep. eapply wp_conseq; [apply (W1 r buf); [split; [exact Hr|reflexivity]|exact Hg]|]. intros st (r1 & -> & H1).
  wstep. eapply wp_conseq; [apply (W2 r1 buf H1 Hg)|]. intros st (r2 & -> & [L2 H2]).
  wstep. eapply wp_conseq; [apply (W3 r2 buf L2 Hg)|]. intros [[c p] r3] E. cbn [fst snd] in E. apply pair_equal_spec in E as [-> ->].
  apply wp_ret. cbn [fst snd]. rewrite (rej_split s t2) by lia. set (B := rej (256 - length (acc t2)) s t2 (168 - t2)).
  assert (LB : (length B <= 256 - length (acc t2))%nat) by apply rej_length_le.
  split; [now rewrite app_length|]. split; [rewrite splice_length; lia|].
  unfold splice. rewrite H2, app_assoc. rewrite firstn_app, Nat.sub_diag, firstn_O, firstn_all. apply app_nil_r.
Qed.
End Stream3.
