(** * rej_uniform_avx (avx2/rejsample.c) against SampleNTT's acceptance rule *)
From Coq Require Import ZArith List Lia Bool NArith.
From Verif Require Import CMonad WP Proof_Base Model_Params Proof_Bits Proof_Codec Proof_Rej Proof_GenMatrix
  Model_AvxIntrin Model_AvxC Model_AvxRej Proof_AvxBits Proof_AvxVec Spec_FIPS203.
Import ListNotations.
Open Scope Z_scope.

(** ** Extraction of the candidates: symbolic run *)
Definition zbits (z : Z) : N -> bool := fun m => Z.testbit z (Z.of_N m).
Definition bit_at (b : list bool) (d : nat) (tp : bx * nat) : bool := bval (zbits (fieldv b (snd tp) d)) (fun _ => 0) (fst tp).
Definition shift_bx (tp : bx * nat) : bx := bren (N.add (N.of_nat (snd tp))) (fun x => x) (fst tp).
Lemma exec_bits NB ls p outs d ex :
  check p (pieces ls (bin 0 NB)) outs (map (map shift_bx) ex) = true ->
  forallb (forallb (fun tp => blim (N.of_nat d) (fst tp))) ex = true ->
  forall b, length b = NB -> exec_c p (pieces ls b) outs = ret (map (map (bit_at b d)) ex).
Proof.
  intros C LIM b Lb. set (eb := fun n : N => nth (N.to_nat n) b false).
  pose proof (check_spec _ _ _ _ C eb (fun _ => 0)) as E.
  rewrite <- map_pieces, bin_bits in E.
  replace (map (fun i => eb (N.of_nat i)) (seq 0 NB)) with b in E.
  2:{ apply (nth_ext _ _ false false); [now rewrite map_length, seq_length|]. intros i Hi.
      symmetry. rewrite (nth_indep _ false (eb (N.of_nat 0))) by (rewrite map_length, seq_length; lia).
      rewrite (map_nth (fun i => eb (N.of_nat i))), seq_nth by lia. unfold eb. now rewrite Nnat.Nat2N.id. }
  rewrite E. f_equal. rewrite map_map. apply map_ext_in. intros l Hl. rewrite map_map. apply map_ext_in. intros [T p0] Htp.
  rewrite forallb_forall in LIM. specialize (LIM _ Hl). rewrite forallb_forall in LIM. specialize (LIM _ Htp). cbn [fst] in LIM.
  unfold shift_bx, bit_at. cbn [fst snd]. rewrite (proj1 (bren_ok _ _ _ _)).
  refine (proj1 (blim_ok (N.of_nat d) (fun n0 : N => eb (N.of_nat p0 + n0)%N) (zbits (fieldv b p0 d)) (fun _ => 0) _) T LIM).
  intros n Hn. unfold eb, zbits.
  replace (Z.of_N n) with (Z.of_nat (N.to_nat n)) by lia. rewrite testbit_fieldv.
  destruct (Nat.ltb_spec (N.to_nat n) d); [|lia]. cbn [andb]. f_equal. lia.
Qed.

Definition tf (j : nat) : bx := if (j <? 12)%nat then Bi (N.of_nat j) else B0.
Definition tfs (p : nat) : list (bx * nat) := map (fun j => (tf j, p)) (seq 0 16).
Definition tgt : wt := WOp AGt (WBits (map of_bool (bits_of 16 3329))) (WBits (map tf (seq 0 16))).
Definition tg256 : bx := Bt (WOp APacks tgt (WBits (repeat B0 16))) 7.
Definition tg128 : bx := Bt tgt 7.
Definition at12 (base : nat) (l : nat) : nat := (base + 12 * l)%nat.
Lemma body_a_chk : check rej_body_a (pieces [256; 256]%nat (bin 0 512)) [0; 1; 4]%nat
  (map (map shift_bx)
     [flat_map (fun l => tfs (at12 0 l)) (seq 0 16); flat_map (fun l => tfs (at12 256 l)) (seq 0 16);
      map (fun l => (tg256, at12 0 l)) (seq 0 8) ++ map (fun l => (tg256, at12 256 l)) (seq 0 8) ++
      map (fun l => (tg256, at12 0 l)) (seq 8 8) ++ map (fun l => (tg256, at12 256 l)) (seq 8 8)]) = true.
Proof. vm_compute. reflexivity. Qed.
Lemma tail_a_chk : check rej_tail_a (pieces [128]%nat (bin 0 128)) [0; 2]%nat
  (map (map shift_bx) [flat_map (fun l => tfs (at12 0 l)) (seq 0 8); map (fun l => (tg128, at12 0 l)) (seq 0 8)]) = true.
Proof. vm_compute. reflexivity. Qed.

Lemma tf_bits z : 0 <= z < 4096 -> map (fun j => bval (zbits z) (fun _ => 0) (tf j)) (seq 0 16) = bits_of 16 z.
Proof.
  intros Hz. apply map_ext_in. intros j Hj. apply in_seq in Hj. unfold tf. destruct (Nat.ltb_spec j 12) as [L|L].
  - cbn [bval]. unfold zbits. f_equal. lia.
  - cbn [bval]. symmetry. apply (testbit_high z 12); lia.
Qed.
Lemma tgt_value z : 0 <= z < 4096 -> wval (zbits z) (fun _ => 0) tgt = if ok_cand z then 65535 else 0.
Proof.
  intros Hz. 
  change (asem AGt (value (map (bval (zbits z) (fun _ => 0)) (map of_bool (bits_of 16 3329))))
            (value (map (bval (zbits z) (fun _ => 0)) (map tf (seq 0 16)))) = if ok_cand z then 65535 else 0).
  rewrite of_bools_ok, map_map, tf_bits by lia.
  change (value (bits_of 16 3329)) with 3329. rewrite value_bits_of, Z.mod_small by (cbn; lia). cbn [asem].
  change (i16 3329) with 3329. rewrite (Proof_AvxBits.i16_small z) by lia. unfold ok_cand. change q with 3329.
  reflexivity.
Qed.
Lemma tg256_value z : 0 <= z < 4096 -> bval (zbits z) (fun _ => 0) tg256 = ok_cand z.
Proof.
  intros Hz. unfold tg256. 
  change (Z.testbit (asem APacks (wval (zbits z) (fun _ => 0) tgt) 0) 7 = ok_cand z). rewrite tgt_value by lia.
  destruct (ok_cand z); reflexivity.
Qed.
Lemma tg128_value z : 0 <= z < 4096 -> bval (zbits z) (fun _ => 0) tg128 = ok_cand z.
Proof.
  intros Hz. unfold tg128.
  change (Z.testbit (wval (zbits z) (fun _ => 0) tgt) 7 = ok_cand z). rewrite tgt_value by lia. destruct (ok_cand z); reflexivity.
Qed.
Definition cands (b : list bool) (base s n : nat) : list Z := map (fun l => fieldv b (at12 base l) 12) (seq s n).
Lemma cands_range b base s n x : In x (cands b base s n) -> 0 <= x < 4096.
Proof. intros H. apply in_map_iff in H as (l & <- & _). apply (fieldv_range b _ 12). Qed.
Lemma tfs_bits b base s n : map (bit_at b 12) (flat_map (fun l => tfs (at12 base l)) (seq s n)) = bits_words 16 (cands b base s n).
Proof.
  unfold cands, bits_words. rewrite !flat_map_concat_map, concat_map, !map_map. f_equal. apply map_ext. intros l.
  unfold tfs. rewrite map_map. unfold bit_at. cbn [fst snd]. apply tf_bits. apply (fieldv_range b _ 12).
Qed.
Lemma tgs_bits t b base s n : (forall z, 0 <= z < 4096 -> bval (zbits z) (fun _ => 0) t = ok_cand z) ->
  map (bit_at b 12) (map (fun l => (t, at12 base l)) (seq s n)) = map ok_cand (cands b base s n).
Proof.
  intros Ht. unfold cands. rewrite !map_map. apply map_ext. intros l. unfold bit_at. cbn [fst snd]. apply Ht. apply (fieldv_range b _ 12).
Qed.
Lemma pieces2 {A} (x y : list A) : pieces [length x; length y] (x ++ y) = [x; y].
Proof.
  cbn [pieces]. rewrite firstn_app, Nat.sub_diag, firstn_O, app_nil_r, firstn_all.
  rewrite skipn_app, skipn_all, Nat.sub_diag. cbn [app skipn]. now rewrite firstn_all.
Qed.
Lemma body_a_exec x y : length x = 256%nat -> length y = 256%nat ->
  exec_c rej_body_a [x; y] [0; 1; 4]%nat =
  ret [bits_words 16 (cands x 0 0 8 ++ cands x 0 8 8); bits_words 16 (cands y 0 0 8 ++ cands y 0 8 8);
       map ok_cand (cands x 0 0 8 ++ cands y 0 0 8 ++ cands x 0 8 8 ++ cands y 0 8 8)].
Proof.
  intros Lx Ly.
  assert (P : pieces [256; 256]%nat (x ++ y) = [x; y]).
  { pose proof (pieces2 x y) as P. now rewrite Lx, Ly in P. }
  rewrite <- P. rewrite (exec_bits 512 _ _ _ 12 _ body_a_chk); [|vm_compute; reflexivity|rewrite app_length; lia].
  cbn [map]. rewrite !map_app, !tfs_bits, !tgs_bits by apply tg256_value.
  assert (E : forall s n, (s + n <= 16)%nat -> cands (x ++ y) 0 s n = cands x 0 s n /\ cands (x ++ y) 256 s n = cands y 0 s n).
  { intros s n H. unfold cands. split; apply map_ext_in; intros l Hl; apply in_seq in Hl; unfold at12, fieldv; f_equal.
    - rewrite skipn_app, firstn_app, skipn_length. replace (12 - _)%nat with 0%nat by lia. cbn [firstn]. apply app_nil_r.
    - f_equal. rewrite skipn_app, (skipn_all2 x) by lia. cbn [app]. f_equal. lia. }
  assert (E2 : forall b base, cands b base 0 16 = cands b base 0 8 ++ cands b base 8 8) by (intros; unfold cands; rewrite <- map_app; reflexivity).
  rewrite !E2. destruct (E 0%nat 8%nat ltac:(lia)) as [-> ->]. destruct (E 8%nat 8%nat ltac:(lia)) as [-> ->]. reflexivity.
Qed.
Lemma tail_a_exec x : length x = 128%nat ->
  exec_c rej_tail_a [x] [0; 2]%nat = ret [bits_words 16 (cands x 0 0 8); map ok_cand (cands x 0 0 8)].
Proof.
  intros Lx.
  assert (P : pieces [128]%nat x = [x]) by (cbn [pieces]; now rewrite <- Lx, firstn_all).
  rewrite <- P. rewrite (exec_bits 128 _ _ _ 12 _ tail_a_chk); [|vm_compute; reflexivity|exact Lx].
  cbn [map]. now rewrite tfs_bits, tgs_bits by apply tg128_value.
Qed.

(** ** Table-driven compaction: run on bytes *)
Lemma bits_words_nth w l i : (0 < w)%nat -> (i < length l)%nat ->
  map (fun j => nth j (bits_words w l) false) (seq (i * w) w) = bits_of w (nth i l 0).
Proof.
  intros Hw Hi. unfold bits_of. replace (seq (i * w) w) with (map (fun j => i * w + j)%nat (seq 0 w)).
  - rewrite map_map. apply map_ext_in. intros j Hj. apply in_seq in Hj. rewrite nth_bits_words by lia.
    rewrite Nat.div_add_l, Nat.div_small, Nat.add_0_r by lia. f_equal. f_equal.
    rewrite Nat.add_comm, Nat.mod_add, Nat.mod_small by lia. reflexivity.
  - clear. generalize (i * w)%nat. induction w as [|w IH]; intros a; [reflexivity|].
    cbn [seq map]. f_equal; [lia|]. rewrite <- seq_shift, map_map. rewrite <- (IH (S a)). apply map_ext. intros; lia.
Qed.
Lemma select_words w l ixs : (0 < w)%nat -> (forall i, In i ixs -> (i < length l)%nat) ->
  map (select false (bits_words w l)) (words_ix w ixs) = bits_words w (map (fun i => nth i l 0) ixs).
Proof.
  intros Hw. induction ixs as [|i ixs IH]; intros H; [reflexivity|].
  cbn [words_ix flat_map map bits_words]. rewrite map_app. f_equal.
  - rewrite map_map. cbn [select ok]. apply bits_words_nth; auto. apply H. now left.
  - apply IH. intros; apply H. now right.
Qed.
Definition shuf (a : list Z) (h : nat) (c : Z) : Z := if 128 <=? c then 0 else nth (h * 16 + Z.to_nat (c mod 16)) a 0.
Lemma skipn_bits_words w l i : skipn (i * w) (bits_words w l) = bits_words w (skipn i l).
Proof.
  revert l. induction i as [|i IH]; intros l; [reflexivity|].
  destruct l as [|x l]; [now rewrite skipn_nil|]. cbn [skipn bits_words flat_map].
  rewrite skipn_app, bits_of_length. rewrite (skipn_all2 (bits_of w x)) by (rewrite bits_of_length; lia).
  replace (S i * w - w)%nat with (i * w)%nat by lia. apply IH.
Qed.
Lemma skipn_nth_cons {A} (l : list A) i d : (i < length l)%nat -> skipn i l = nth i l d :: skipn (S i) l.
Proof. revert l. induction i as [|i IH]; intros l H; destruct l; cbn in H; try lia; [reflexivity|]. apply IH. lia. Qed.
Lemma firstn_bits_words w x l : firstn w (bits_words w (x :: l)) = bits_of w x.
Proof. cbn [bits_words flat_map]. rewrite <- (bits_of_length w x) at 1. rewrite firstn_app, Nat.sub_diag, firstn_all. apply app_nil_r. Qed.
Lemma shuffle_bytes n a c : length c = n -> bytes c -> bytes a -> (forall l, (l < n)%nat -> (l / 16 * 16 + 16 <= length a)%nat) ->
  map (select false (bits_words 8 a)) (shufb_ix n (bits_words 8 c)) =
  bits_words 8 (map (fun l => shuf a (l / 16) (nth l c 0)) (seq 0 n)).
Proof.
  intros Lc Bc Ba La. 
  assert (R : forall l, bits_words 8 l = concat (map (bits_of 8) l)) by (intros; apply flat_map_concat_map).
  rewrite (R (map _ _)). clear R. unfold shufb_ix. rewrite flat_map_concat_map, concat_map, !map_map. f_equal.
  apply map_ext_in. intros l Hl. apply in_seq in Hl. cbv zeta.
  assert (E : firstn 8 (skipn (l * 8) (bits_words 8 c)) = bits_of 8 (nth l c 0)).
  { rewrite skipn_bits_words. rewrite (skipn_nth_cons c l 0) by lia. apply firstn_bits_words. }
  rewrite E. set (x := nth l c 0). assert (Hx : 0 <= x <= 255) by (apply Bc; lia).
  replace (value (firstn 4 (bits_of 8 x))) with (x mod 16).
  2:{ change (firstn 4 (bits_of 8 x)) with (bits_of 4 x). symmetry. apply value_bits_of. }
  replace (nth 7 (bits_of 8 x) false) with (128 <=? x).
  2:{ change (nth 7 (bits_of 8 x) false) with (Z.testbit x 7). clearbody x. clear -Hx.
      rewrite Z.testbit_odd, Z.shiftr_div_pow2 by lia. change (2 ^ 7) with 128. destruct (Z.leb_spec 128 x).
      - replace (x / 128) with 1; [reflexivity|]. apply Z.div_unique with (r := x - 128); lia.
      - now rewrite Z.div_small by lia. }
  unfold shuf. destruct (128 <=? x).
  - reflexivity.
  - rewrite map_map. cbn [select].
    set (i := (l / 16 * 16 + Z.to_nat (x mod 16))%nat).
    rewrite <- (bits_words_nth 8 a i); [|lia|].
    + replace (seq (i * 8) 8) with (map (fun j => i * 8 + j)%nat (seq 0 8)); [now rewrite map_map|].
      cbn [seq map]. repeat (f_equal; try lia).
    + pose proof (Z.mod_pos_bound x 16 ltac:(lia)). specialize (La l ltac:(lia)). unfold i. lia.
Qed.
Lemma zip_add_bytes o x y : (inw o = 8)%nat -> (outw o = 8)%nat -> length x = length y ->
  concat (zip_with (arith_bits o) (chunks 8 (bits_words 8 x)) (chunks 8 (bits_words 8 y))) =
  bits_words 8 (zip_with (fun a b => asem o (a mod 256) (b mod 256)) x y).
Proof.
  intros I O L.
  assert (C : forall l, chunks 8 (bits_words 8 l) = map (bits_of 8) l).
  { intros l. unfold bits_words. rewrite flat_map_concat_map. apply chunks_concat; [lia|]. intros b Hb. apply in_map_iff in Hb as (z & <- & _).
    apply bits_of_length. }
  rewrite !C. clear C. revert y L. induction x as [|a x IH]; intros y L; destruct y as [|b y]; try discriminate; [reflexivity|].
  cbn [map zip_with concat bits_words flat_map]. rewrite IH by (cbn in L; lia). unfold arith_bits at 1. rewrite O, !value_bits_of. reflexivity.
Qed.

Notation beval := (eval bool_ops).
Lemma exec_cons env x e v p r : beval env e = Some v -> exec bool_ops (assign env x v) p = r -> exec bool_ops env (x ~ e :: p) = r.
Proof. intros E. cbn [exec source target]. now rewrite E. Qed.
Lemma eval_add8 env a b x y : beval env a = Some (bits_words 8 x) -> beval env b = Some (bits_words 8 y) -> length x = length y ->
  beval env (Ar (AAdd 8) a b) = Some (bits_words 8 (zip_with (fun a b => asem (AAdd 8) (a mod 256) (b mod 256)) x y)).
Proof.
  intros Ea Eb L. cbn [eval]. rewrite Ea, Eb. unfold both. rewrite !bits_words_length, L, Nat.eqb_refl. f_equal.
  now apply zip_add_bytes.
Qed.
Lemma eval_mov8 env a x ixs : beval env a = Some (bits_words 8 x) -> (forall i, In i ixs -> (i < length x)%nat) ->
  beval env (Mov (words_ix 8 ixs) a) = Some (bits_words 8 (map (fun i => nth i x 0) ixs)).
Proof. intros Ea H. cbn [eval]. rewrite Ea. f_equal. cbn [b_zero bool_ops]. apply select_words; [lia|exact H]. Qed.
Lemma eval_cat8 env a b x y : beval env a = Some (bits_words 8 x) -> beval env b = Some (bits_words 8 y) ->
  beval env (Cat a b) = Some (bits_words 8 (x ++ y)).
Proof. intros Ea Eb. cbn [eval]. now rewrite Ea, Eb, bits_words_app. Qed.
Lemma all_some_map {A} (l : list A) : all_some (map Some l) = Some l.
Proof. induction l as [|a l IH]; [reflexivity|]. cbn [map all_some]. now rewrite IH. Qed.
Lemma eval_shuf n env a k x c : beval env a = Some (bits_words 8 x) -> beval env k = Some (bits_words 8 c) ->
  length c = n -> bytes c -> bytes x -> (forall l, (l < n)%nat -> (l / 16 * 16 + 16 <= length x)%nat) ->
  beval env (Ctl (shufb_ix n) a k) = Some (bits_words 8 (map (fun l => shuf x (l / 16) (nth l c 0)) (seq 0 n))).
Proof.
  intros Ea Ek L B1 B2 LX. cbn [eval]. rewrite Ea, Ek. cbn [b_const b_zero bool_ops]. rewrite all_some_map. f_equal.
  now apply shuffle_bytes.
Qed.

Definition succ8 (x : Z) : Z := (x mod 256 + 1) mod 256.
Definition pairs (row : list Z) : list Z := flat_map (fun x => [x; succ8 x]) row.
Ltac tol l H := do 8 (destruct l as [|? l]; [discriminate H|]); destruct l; [|discriminate H].
Lemma pairs_bytes row : bytes row -> bytes (pairs row).
Proof.
  intros B. apply bnd_Forall in B. apply bnd_Forall. unfold pairs. induction B as [|x row Hx HB IH]; [constructor|].
  cbn [flat_map app]. constructor; [lia|]. constructor; [|exact IH].
  pose proof (Z.mod_pos_bound (x mod 256 + 1) 256 ltac:(lia)). unfold succ8; lia.
Qed.
Lemma pairs_length row : length (pairs row) = (2 * length row)%nat.
Proof. induction row as [|x row IH]; [reflexivity|]. cbn [pairs flat_map app length]. fold (pairs row). lia. Qed.
Definition plus1 (x : list Z) : list Z := zip_with (fun a b => asem (AAdd 8) (a mod 256) (b mod 256)) x (repeat 1 (length x)).
Lemma tail_b_exec a row : length a = 16%nat -> bytes a -> length row = 8%nat -> bytes row ->
  exec_c rej_tail_b [bits_words 8 a; bits_words 8 row] [0%nat] =
  ret [bits_words 8 (map (fun l => shuf a (l / 16) (nth l (pairs row) 0)) (seq 0 16))].
Proof.
  intros La Ba Lr Br. pose proof (pairs_bytes row Br) as Bp. pose proof (pairs_length row) as Lp. rewrite Lr in Lp.
  set (v := row ++ repeat 0 8). assert (Lv : length v = 16%nat) by (unfold v; rewrite app_length, Lr; reflexivity).
  assert (EP : pairs row = map (fun i => nth i (v ++ plus1 v) 0) (flat_map (fun i => [i; 16 + i]%nat) (seq 0 8))).
  { unfold v. clear -Lr. tol row Lr. reflexivity. }
  assert (L1 : length (plus1 v) = 16%nat) by (clear -Lv; unfold plus1; rewrite Lv; clearbody v; do 16 (destruct v as [|? v]; [discriminate Lv|]);
    destruct v; [reflexivity|discriminate Lv]).
  assert (X : exists env, exec bool_ops (fun n => nth_error [bits_words 8 a; bits_words 8 row] n) rej_tail_b = Some env /\
            env 0%nat = Some (bits_words 8 (map (fun l => shuf a (l / 16) (nth l (pairs row) 0)) (seq 0 16)))).
  { eexists. split.
    - unfold rej_tail_b. cbv zeta.
      eapply exec_cons; [apply (eval_cat8 _ _ _ row (repeat 0 8)); reflexivity|]. fold v.
      eapply exec_cons; [apply (eval_add8 _ _ _ v (repeat 1 (length v))); [reflexivity|rewrite Lv; reflexivity|now rewrite repeat_length]|].
      fold (plus1 v).
      eapply exec_cons; [apply (eval_mov8 _ _ (v ++ plus1 v)); [apply eval_cat8; reflexivity|]|].
      { rewrite app_length, Lv, L1. intros i Hi. apply in_flat_map in Hi as (j & Hj & Hi). apply in_seq in Hj. cbn in Hi. lia. }
      rewrite <- EP.
      eapply exec_cons; [apply (eval_shuf 16 _ _ _ a (pairs row)); [reflexivity|reflexivity|exact Lp|exact Bp|exact Ba|]|reflexivity].
      intros l Hl. rewrite Nat.div_small by lia. lia.
    - reflexivity. }
  destruct X as (env & E & E0). unfold exec_c, run. rewrite E. cbn [map all_some]. now rewrite E0.
Qed.
Lemma body_b_exec a b r0 r1 r2 r3 : length a = 32%nat -> bytes a -> length b = 32%nat -> bytes b ->
  length r0 = 8%nat -> bytes r0 -> length r1 = 8%nat -> bytes r1 -> length r2 = 8%nat -> bytes r2 -> length r3 = 8%nat -> bytes r3 ->
  exec_c rej_body_b [bits_words 8 a; bits_words 8 b; bits_words 8 r0; bits_words 8 r1; bits_words 8 r2; bits_words 8 r3] [10; 11; 12; 13]%nat =
  ret [bits_words 8 (map (shuf a 0) (pairs r0)); bits_words 8 (map (shuf a 1) (pairs r2));
       bits_words 8 (map (shuf b 0) (pairs r1)); bits_words 8 (map (shuf b 1) (pairs r3))].
Proof.
  intros La Ba Lb Bb L0 B0 L1 B1 L2 B2 L3 B3.
  assert (V : forall x y, length x = 8%nat -> length y = 8%nat ->
    let v := (x ++ repeat 0 8) ++ (y ++ repeat 0 8) in
    length v = 32%nat /\ length (plus1 v) = 32%nat /\
    pairs x ++ pairs y = map (fun i => nth i (v ++ plus1 v) 0)
      (flat_map (fun h => flat_map (fun i => [h * 16 + 0 + i; 2 * 16 + h * 16 + 0 + i]%nat) (seq 0 (16 / 2))) (seq 0 2))).
  { intros x y Lx Ly. clear -Lx Ly. tol x Lx. tol y Ly. repeat split. }
  assert (S : forall x y z, length x = 8%nat -> length y = 8%nat ->
     map (fun l => shuf z (l / 16) (nth l (pairs x ++ pairs y) 0)) (seq 0 32) = map (shuf z 0) (pairs x) ++ map (shuf z 1) (pairs y)).
  { intros x y z Lx Ly. clear -Lx Ly. tol x Lx. tol y Ly. reflexivity. }
  destruct (V r0 r2 L0 L2) as (Lv & LP & EP). destruct (V r1 r3 L1 L3) as (Lw & LQ & EQ). clear V.
  set (v := (r0 ++ repeat 0 8) ++ (r2 ++ repeat 0 8)) in *. set (w := (r1 ++ repeat 0 8) ++ (r3 ++ repeat 0 8)) in *.
  assert (Lc : length (pairs r0 ++ pairs r2) = 32%nat) by (rewrite app_length, !pairs_length, L0, L2; reflexivity).
  assert (Ld : length (pairs r1 ++ pairs r3) = 32%nat) by (rewrite app_length, !pairs_length, L1, L3; reflexivity).
  assert (Bc : bytes (pairs r0 ++ pairs r2)) by (apply bnd_app; apply pairs_bytes; auto).
  assert (Bd : bytes (pairs r1 ++ pairs r3)) by (apply bnd_app; apply pairs_bytes; auto).
  assert (IX : forall i, In i (flat_map (fun h => flat_map (fun i => [h * 16 + 0 + i; 2 * 16 + h * 16 + 0 + i]%nat) (seq 0 (16 / 2))) (seq 0 2)) ->
     (i < 64)%nat).
  { intros i Hi. apply in_flat_map in Hi as (h & Hh & Hi). apply in_flat_map in Hi as (j & Hj & Hi). apply in_seq in Hh, Hj. change (16 / 2)%nat with 8%nat in Hj. cbn [In] in Hi. lia. }
  assert (H32 : forall l, (l < 32)%nat -> (l / 16 * 16 + 16 <= 32)%nat).
  { intros l Hl. assert (l / 16 < 2)%nat by (apply Nat.div_lt_upper_bound; lia). lia. }
  set (c0 := map (shuf a 0) (pairs r0)). set (c1 := map (shuf a 1) (pairs r2)).
  set (d0 := map (shuf b 0) (pairs r1)). set (d1 := map (shuf b 1) (pairs r3)).
  assert (Lc0 : length c0 = 16%nat) by (unfold c0; rewrite map_length, pairs_length, L0; reflexivity).
  assert (Lc1 : length c1 = 16%nat) by (unfold c1; rewrite map_length, pairs_length, L2; reflexivity).
  assert (Ld0 : length d0 = 16%nat) by (unfold d0; rewrite map_length, pairs_length, L1; reflexivity).
  assert (Ld1 : length d1 = 16%nat) by (unfold d1; rewrite map_length, pairs_length, L3; reflexivity).
  assert (CUT : forall x y, length x = 16%nat -> length y = 16%nat ->
    map (fun i => nth i (x ++ y) 0) (seq 0 16) = x /\ map (fun i => nth i (x ++ y) 0) (seq 16 16) = y).
  { intros x y Lx Ly. clear -Lx Ly.
    do 16 (destruct x as [|? x]; [discriminate Lx|]); destruct x; [|discriminate Lx].
    do 16 (destruct y as [|? y]; [discriminate Ly|]); destruct y; [|discriminate Ly]. split; reflexivity. }
  assert (X : exists env, exec bool_ops (fun n => nth_error [bits_words 8 a; bits_words 8 b; bits_words 8 r0; bits_words 8 r1; bits_words 8 r2; bits_words 8 r3] n)
      rej_body_b = Some env /\ env 10%nat = Some (bits_words 8 c0) /\ env 11%nat = Some (bits_words 8 c1) /\
      env 12%nat = Some (bits_words 8 d0) /\ env 13%nat = Some (bits_words 8 d1)).
  { eexists. split; [|split; [|split; [|split]]].
    - unfold rej_body_b. cbv zeta.
      eapply exec_cons; [apply eval_cat8; [apply (eval_cat8 _ _ _ r0 (repeat 0 8))|apply (eval_cat8 _ _ _ r2 (repeat 0 8))]; reflexivity|]. fold v.
      eapply exec_cons; [apply eval_cat8; [apply (eval_cat8 _ _ _ r1 (repeat 0 8))|apply (eval_cat8 _ _ _ r3 (repeat 0 8))]; reflexivity|]. fold w.
      eapply exec_cons; [apply (eval_add8 _ _ _ v (repeat 1 (length v))); [reflexivity|rewrite Lv; reflexivity|now rewrite repeat_length]|]. fold (plus1 v).
      eapply exec_cons; [apply (eval_add8 _ _ _ w (repeat 1 (length w))); [reflexivity|rewrite Lw; reflexivity|now rewrite repeat_length]|]. fold (plus1 w).
      eapply exec_cons; [apply (eval_mov8 _ _ (v ++ plus1 v)); [apply eval_cat8; reflexivity|rewrite app_length, Lv, LP; exact IX]|]. rewrite <- EP.
      eapply exec_cons; [apply (eval_mov8 _ _ (w ++ plus1 w)); [apply eval_cat8; reflexivity|rewrite app_length, Lw, LQ; exact IX]|]. rewrite <- EQ.
      eapply exec_cons; [apply (eval_shuf 32 _ _ _ a (pairs r0 ++ pairs r2)); [reflexivity|reflexivity|exact Lc|exact Bc|exact Ba|rewrite La; exact H32]|].
      rewrite (S r0 r2) by auto. fold c0 c1.
      eapply exec_cons; [apply (eval_shuf 32 _ _ _ b (pairs r1 ++ pairs r3)); [reflexivity|reflexivity|exact Ld|exact Bd|exact Bb|rewrite Lb; exact H32]|].
      rewrite (S r1 r3) by auto. fold d0 d1.
      eapply exec_cons; [apply (eval_mov8 _ _ (c0 ++ c1) (seq 0 16)); [reflexivity|rewrite app_length, Lc0, Lc1; intros i Hi; apply in_seq in Hi; lia]|].
      rewrite (proj1 (CUT c0 c1 Lc0 Lc1)).
      eapply exec_cons; [apply (eval_mov8 _ _ (c0 ++ c1) (seq 16 16)); [reflexivity|rewrite app_length, Lc0, Lc1; intros i Hi; apply in_seq in Hi; lia]|].
      rewrite (proj2 (CUT c0 c1 Lc0 Lc1)).
      eapply exec_cons; [apply (eval_mov8 _ _ (d0 ++ d1) (seq 0 16)); [reflexivity|rewrite app_length, Ld0, Ld1; intros i Hi; apply in_seq in Hi; lia]|].
      rewrite (proj1 (CUT d0 d1 Ld0 Ld1)).
      eapply exec_cons; [apply (eval_mov8 _ _ (d0 ++ d1) (seq 16 16)); [reflexivity|rewrite app_length, Ld0, Ld1; intros i Hi; apply in_seq in Hi; lia]|].
      rewrite (proj2 (CUT d0 d1 Ld0 Ld1)). reflexivity.
    - reflexivity.
    - reflexivity.
    - reflexivity.
    - reflexivity. }
  destruct X as (env & E & E0 & E1 & E2 & E3). unfold exec_c, run. rewrite E. cbn [map all_some]. now rewrite E0, E1, E2, E3.
Qed.

(** ** What a table row selects *)
Definition split16 (ws : list Z) : list Z := flat_map (fun x => [x mod 256; x / 256]) ws.
Lemma split16_bits ws : bits_words 16 ws = bits_words 8 (split16 ws).
Proof.
  induction ws as [|x ws IH]; [reflexivity|]. cbn [bits_words flat_map split16 app].
  fold (bits_words 16 ws) (split16 ws). rewrite IH. rewrite app_assoc. f_equal.
  change 256 with (2 ^ Z.of_nat 8) at 1. rewrite bits_of_mod.
  change 16%nat with (8 + 8)%nat. rewrite <- (bits_of_mod 8 x) at 1.
  rewrite <- (bits_of_split (x mod 2 ^ Z.of_nat 8) (x / 256)) by (apply Z.mod_pos_bound; reflexivity).
  f_equal. pose proof (Z.div_mod x 256 ltac:(lia)) as D. change (2 ^ Z.of_nat 8) with 256. lia.
Qed.
Lemma split16_bytes ws : (forall x, In x ws -> 0 <= x < 65536) -> bytes (split16 ws).
Proof.
  intros W. apply bnd_Forall, Forall_forall. intros y Hy. apply in_flat_map in Hy as (x & Hx & Hy). specialize (W x Hx).
  pose proof (Z.mod_pos_bound x 256 ltac:(lia)). assert (0 <= x / 256 < 256) by (split; [apply Z.div_pos; lia|apply Z.div_lt_upper_bound; lia]).
  destruct Hy as [<-|[<-|[]]]; lia.
Qed.
Lemma split16_length ws : length (split16 ws) = (2 * length ws)%nat.
Proof. induction ws as [|x ws IH]; [reflexivity|]. cbn [split16 flat_map app length]. fold (split16 ws). lia. Qed.
Lemma split16_app x y : split16 (x ++ y) = split16 x ++ split16 y.
Proof. apply flat_map_app. Qed.
Definition pick (ws row : list Z) : list Z := map (fun c => shuf (split16 ws) 0 c + 256 * shuf (split16 ws) 0 (succ8 c)) row.
Lemma shuf_range a h c : bytes a -> 0 <= shuf a h c < 256.
Proof.
  intros B. unfold shuf. destruct (128 <=? c); [lia|]. 
  destruct (Compare_dec.lt_dec (h * 16 + Z.to_nat (c mod 16)) (length a)) as [L|L].
  - specialize (B _ L). lia.
  - rewrite nth_overflow by lia. lia.
Qed.
Lemma words_of_pairs ws row : bytes (split16 ws) ->
  words_bits 16 (bits_words 8 (map (shuf (split16 ws) 0) (pairs row))) = pick ws row.
Proof.
  intros B. unfold pick. set (sh := shuf (split16 ws) 0).
  replace (bits_words 8 (map sh (pairs row))) with (flat_map (fun c => bits_of 16 (sh c + 256 * sh (succ8 c))) row).
  - rewrite words_bits_blocks by lia. apply map_ext. intros c. apply Z.mod_small.
    pose proof (shuf_range (split16 ws) 0 c B). pose proof (shuf_range (split16 ws) 0 (succ8 c) B). fold sh in H, H0. change (2 ^ Z.of_nat 16) with 65536. lia.
  - induction row as [|c row IH]; [reflexivity|]. cbn [flat_map pairs app map bits_words]. fold (pairs row). rewrite IH, app_assoc. f_equal.
    apply (bits_of_split (sh c) (sh (succ8 c)) 8 8). apply (shuf_range (split16 ws) 0 c B).
Qed.
Lemma shuf_half a b h c : length a = (h * 16)%nat -> shuf (a ++ b) h c = shuf b 0 c.
Proof. intros L. unfold shuf. destruct (128 <=? c); [reflexivity|]. rewrite app_nth2 by lia. f_equal. lia. Qed.
Lemma shuf_low a b c : length a = 16%nat -> shuf (a ++ b) 0 c = shuf a 0 c.
Proof.
  intros L. unfold shuf. destruct (128 <=? c); [reflexivity|]. apply app_nth1. pose proof (Z.mod_pos_bound c 16 ltac:(lia)). lia.
Qed.

(** The rows of the table *)
Definition set_bits (m : Z) : list nat := filter (fun i => Z.testbit m (Z.of_nat i)) (seq 0 8).
Definition row_ok (m : Z) : bool :=
  let row := nth (Z.to_nat m) idx [] in let l := map (fun i => 2 * Z.of_nat i) (set_bits m) in
  (length row =? 8)%nat && forallb (fun x => (0 <=? x) && (x <=? 255)) row && (popcnt m =? length l)%nat &&
  forallb (fun ab => fst ab =? snd ab) (combine l row).
Lemma rows_sweep : forallb (fun i => row_ok (Z.of_nat i)) (seq 0 256) = true. Proof. vm_compute. reflexivity. Qed.
Lemma combine_prefix (l row : list Z) : (length l <= length row)%nat ->
  forallb (fun ab => fst ab =? snd ab) (combine l row) = true -> firstn (length l) row = l.
Proof.
  revert row. induction l as [|a l IH]; intros row L E; [reflexivity|]. destruct row as [|b row]; [cbn in L; lia|].
  cbn [combine forallb fst snd] in E. apply andb_prop in E as [E1 E2]. apply Z.eqb_eq in E1. subst b.
  cbn [length firstn]. now rewrite IH by (auto; cbn in L; lia).
Qed.
Lemma filter_length_le' {A} (f : A -> bool) l : (length (filter f l) <= length l)%nat.
Proof. induction l as [|a l IH]; [auto|]. cbn [filter]. destruct (f a); cbn [length]; lia. Qed.
Lemma set_bits_length m : (length (set_bits m) <= 8)%nat.
Proof. unfold set_bits. etransitivity; [apply filter_length_le'|]. now rewrite seq_length. Qed.
Lemma rows m : 0 <= m < 256 -> let row := nth (Z.to_nat m) idx [] in
  length row = 8%nat /\ bytes row /\ popcnt m = length (set_bits m) /\
  firstn (popcnt m) row = map (fun i => 2 * Z.of_nat i) (set_bits m).
Proof.
  intros Hm. pose proof rows_sweep as R. rewrite forallb_forall in R. specialize (R (Z.to_nat m)).
  rewrite Z2Nat.id in R by lia. specialize (R ltac:(apply in_seq; lia)). unfold row_ok in R. cbv zeta in *.
  apply andb_prop in R as [R R4]. apply andb_prop in R as [R R3]. apply andb_prop in R as [R1 R2].
  apply Nat.eqb_eq in R1, R3. rewrite map_length in R3.
  split; [exact R1|]. split; [|split; [exact R3|]].
  - apply bnd_Forall, Forall_forall. intros x Hx. rewrite forallb_forall in R2. specialize (R2 x Hx). lia.
  - rewrite R3. rewrite <- (map_length (fun i => 2 * Z.of_nat i)). apply combine_prefix; auto.
    rewrite map_length, R1. apply set_bits_length.
Qed.
Lemma nth_split16 ws i : (i < length ws)%nat ->
  nth (2 * i) (split16 ws) 0 = nth i ws 0 mod 256 /\ nth (2 * i + 1) (split16 ws) 0 = nth i ws 0 / 256.
Proof.
  revert i. induction ws as [|x ws IH]; intros i Hi; [cbn in Hi; lia|]. destruct i as [|i]; [split; reflexivity|].
  cbn [length] in Hi. destruct (IH i ltac:(lia)) as [E1 E2].
  replace (2 * S i)%nat with (S (S (2 * i))) by lia. cbn [Nat.add]. split; [exact E1|exact E2].
Qed.
Lemma pick_row ws m : length ws = 8%nat -> 0 <= m < 256 ->
  firstn (popcnt m) (pick ws (nth (Z.to_nat m) idx [])) = map (fun i => nth i ws 0) (set_bits m).
Proof.
  intros Lw Hm. destruct (rows m Hm) as (L & B & P & F). unfold pick. rewrite firstn_map, F, map_map.
  apply map_ext_in. intros i Hi. apply filter_In in Hi as [Hi _]. apply in_seq in Hi.
  destruct (nth_split16 ws i ltac:(lia)) as [E1 E2].
  assert (SE : succ8 (2 * Z.of_nat i) = 2 * Z.of_nat i + 1) by (unfold succ8; rewrite (Z.mod_small (2 * _)) by lia; apply Z.mod_small; lia).
  rewrite SE. unfold shuf. destruct (Z.leb_spec 128 (2 * Z.of_nat i)); [lia|]. destruct (Z.leb_spec 128 (2 * Z.of_nat i + 1)); [lia|].
  rewrite !Z.mod_small by lia.
  replace (0 * 16 + Z.to_nat (2 * Z.of_nat i))%nat with (2 * i)%nat by lia.
  replace (0 * 16 + Z.to_nat (2 * Z.of_nat i + 1))%nat with (2 * i + 1)%nat by lia.
  rewrite E1, E2. pose proof (Z.div_mod (nth i ws 0) 256 ltac:(lia)). lia.
Qed.
Lemma set_bits_filter ws : length ws = 8%nat -> map (fun i => nth i ws 0) (set_bits (value (map ok_cand ws))) = filter ok_cand ws.
Proof.
  intros L. unfold set_bits.
  rewrite (filter_ext (fun i => Z.testbit (value (map ok_cand ws)) (Z.of_nat i)) (fun i => nth i (map ok_cand ws) false))
    by (intros; apply testbit_value).
  tol ws L. cbn [seq filter map nth].
  repeat match goal with |- context [ok_cand ?x] => destruct (ok_cand x); cbn [map nth] end; reflexivity.
Qed.
Lemma pick_filter ws : length ws = 8%nat -> let m := value (map ok_cand ws) in
  0 <= m < 256 /\ popcnt m = length (filter ok_cand ws) /\ firstn (popcnt m) (pick ws (nth (Z.to_nat m) idx [])) = filter ok_cand ws.
Proof.
  intros L m. assert (Hm : 0 <= m < 256) by (pose proof (value_range (map ok_cand ws)) as V; rewrite map_length, L in V; exact V).
  split; [exact Hm|]. pose proof (set_bits_filter ws L) as E. fold m in E.
  split; [|rewrite <- E; now apply pick_row].
  rewrite <- E, map_length. now apply rows.
Qed.

