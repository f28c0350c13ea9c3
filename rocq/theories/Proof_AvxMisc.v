(** * Polynomial addition and subtraction, comparison and conditional move in
    AVX2 (avx2/poly.c, avx2/verify.c) *)
From Coq Require Import ZArith List Lia Bool NArith.
From Verif Require Import CMonad WP Proof_Base Model_Params Proof_Bits Proof_Verify
  Model_AvxIntrin Model_AvxC Proof_AvxBits Proof_AvxVec Proof_AvxCompress Proof_AvxDecompress.
Import ListNotations.
Open Scope Z_scope.

(** ** Addition and subtraction *)
Definition lanes2 (o : aop) : list bx :=
  flat_map (fun i => map (Bt (WOp o (WIn (N.of_nat i)) (WIn (N.of_nat (16 + i))))) (seq 0 16)) (seq 0 16).
Lemma add_chk : check add_body [win 0 16; win 16 16] [0%nat] [lanes2 (AAdd 16)] = true.
Proof. vm_compute. reflexivity. Qed.
Lemma sub_chk : check sub_body [win 0 16; win 16 16] [0%nat] [lanes2 (ASub 16)] = true.
Proof. vm_compute. reflexivity. Qed.
Definition wenv2 (a b : list Z) (base : nat) : N -> Z :=
  fun n => if (N.to_nat n <? 16)%nat then nth (base + N.to_nat n) a 0 else nth (base + N.to_nat n - 16) b 0.
Lemma win2_a a b i : (16 * i + 16 <= length a)%nat ->
  bits_words 16 (sub a (16 * i) 16) = map (bval (fun _ => false) (wenv2 a b (16 * i))) (win 0 16).
Proof.
  intros H. rewrite (win_loaded a i 0 (fun _ => false) (16 * i)) by lia. rewrite !win_bits. f_equal.
Qed.
Lemma win2_b a b i : (16 * i + 16 <= length b)%nat ->
  bits_words 16 (sub b (16 * i) 16) = map (bval (fun _ => false) (wenv2 a b (16 * i))) (win 16 16).
Proof.
  intros H. rewrite (win_loaded b i 0 (fun _ => false) (16 * i)) by lia. rewrite !win_bits. f_equal.
  apply (nth_ext _ _ 0 0); [now rewrite !map_length, !seq_length|]. intros l Hl. rewrite map_length, seq_length in Hl.
  rewrite (nth_indep _ 0 (wenv b (16 * i) (N.of_nat 0))) by (rewrite map_length, seq_length; lia).
  rewrite (map_nth (fun x => wenv b (16 * i) (N.of_nat x))), seq_nth by lia.
  symmetry. rewrite (nth_indep _ 0 (wenv2 a b (16 * i) (N.of_nat 0))) by (rewrite map_length, seq_length; lia).
  rewrite (map_nth (fun x => wenv2 a b (16 * i) (N.of_nat x))), seq_nth by lia.
  unfold wenv, wenv2. rewrite !Nnat.Nat2N.id. destruct (Nat.ltb_spec (16 + l) 16); [lia|]. f_equal. lia.
Qed.
Lemma lanes2_words o ew : outw o = 16%nat ->
  map i16 (words_bits 16 (map (bval (fun _ => false) ew) (lanes2 o))) =
  map (fun i => i16 (asem o (u16 (ew (N.of_nat i))) (u16 (ew (N.of_nat (16 + i)))))) (seq 0 16).
Proof.
  intros Ho. unfold lanes2. rewrite flat_map_concat_map, concat_map, map_map.
  set (f := fun i => asem o (u16 (ew (N.of_nat i))) (u16 (ew (N.of_nat (16 + i))))).
  transitivity (map i16 (words_bits 16 (flat_map (fun i => bits_of 16 (f i)) (seq 0 16)))).
  - do 2 f_equal.
  - rewrite words_bits_blocks, map_map by lia. apply map_ext. intros i. apply i16_mod65536.
Qed.
Lemma i16_cong x y : x mod 65536 = y mod 65536 -> i16 x = i16 y.
Proof. intros H. rewrite <- (i16_mod65536 x), H. apply i16_mod65536. Qed.

(** One iteration of the three loops *)
Lemma vec_op p o (op : Z -> Z -> Z) (a b D : list Z) i :
  check p [win 0 16; win 16 16] [0%nat] [lanes2 o] = true -> outw o = 16%nat ->
  (forall x y, i16 (asem o (u16 x) (u16 y)) = i16 (op x y)) ->
  (16 * i + 16 <= length a)%nat -> (16 * i + 16 <= length b)%nat -> length D = 256%nat -> (i < 16)%nat ->
  (forall x, (16 * i <= x < 16 * i + 16)%nat -> nth x D 0 = op (nth x a 0) (nth x b 0)) ->
  (forall x, (x < 256)%nat -> -32768 <= nth x D 0 <= 32767) ->
  exists r, exec_c p [bits_words 16 (sub a (16 * i) 16); bits_words 16 (sub b (16 * i) 16)] [0%nat] = ret r /\
    map i16 (words_bits 16 (out r 0)) = sub D (16 * i) 16.
Proof.
  intros C Ho HO La Lb LD Hi HD BD.
  pose proof (check_spec _ _ _ _ C (fun _ => false) (wenv2 a b (16 * i))) as E.
  cbn [map] in E. rewrite <- win2_a, <- (win2_b a b) in E by lia.
  eexists. split; [exact E|]. cbn [out nth]. rewrite lanes2_words by auto.
  apply (sub_eq_map D (16 * i) _ _ 0%nat); [now rewrite seq_length|lia|].
  intros l Hl. rewrite seq_nth by lia. rewrite HO. unfold wenv2. rewrite !Nnat.Nat2N.id.
  destruct (Nat.ltb_spec (0 + l) 16); [|lia]. destruct (Nat.ltb_spec (16 + (0 + l)) 16); [lia|].
  replace (16 * i + (0 + l))%nat with (16 * i + l)%nat by lia.
  replace (16 * i + (16 + (0 + l)) - 16)%nat with (16 * i + l)%nat by lia.
  rewrite <- HD by lia. symmetry. apply WP.i16_small. pose proof (BD (16 * i + l)%nat ltac:(lia)). lia.
Qed.
Lemma add_sem x y : i16 (asem (AAdd 16) (u16 x) (u16 y)) = i16 (x + y).
Proof. apply i16_cong. cbn [asem]. unfold u16, wrapu. change (2 ^ Z.of_nat 16) with 65536. change (2 ^ 16) with 65536.
  now rewrite Z.mod_mod, <- Zplus_mod by lia. Qed.
Lemma sub_sem x y : i16 (asem (ASub 16) (u16 x) (u16 y)) = i16 (x - y).
Proof. apply i16_cong. cbn [asem]. unfold u16, wrapu. change (2 ^ Z.of_nat 16) with 65536. change (2 ^ 16) with 65536.
  now rewrite Z.mod_mod, <- Zminus_mod by lia. Qed.

Lemma poly_add_avx2_wp :
  traced (fun T => forall r a b, length r = 256%nat -> length a = 256%nat -> length b = 256%nat ->
    (forall i, (i < 256)%nat -> -32768 <= nth i a 0 + nth i b 0 <= 32767) ->
    wp (poly_add_avx2 r a b) T (fun r' => r' = mk 256 (fun i => nth i a 0 + nth i b 0))).
Proof.
  eexists. intros r a b Hr La Lb HB. unfold poly_add_avx2. set (D := mk 256 (fun i => nth i a 0 + nth i b 0)).
  assert (LD : length D = 256%nat) by apply mk_length.
  assert (HD : forall x, (x < 256)%nat -> nth x D 0 = nth x a 0 + nth x b 0) by (intros; unfold D; now rewrite nth_mk).
  eapply (wp_for _ (fun i s => upto D (16 * i) s)); [now apply upto_0| |intros s U; now apply upto_end].
  intros i s Hi U. repeat vstep.
  destruct (vec_op add_body (AAdd 16) Z.add a b D i add_chk eq_refl add_sem) as (o & E & W);
    [lia|lia|exact LD|lia|intros; apply HD; lia|intros x Hx; rewrite HD by lia; now apply HB|].
  eapply wp_exec; [exact E|].
  eapply upto_store; [exact U|exact LD|lia|exact W|intros r' U'; eapply upto_weaken; [exact U'|lia]].
Qed.

(** In place: the vector read at iteration [i] is the original one. *)
Definition inplace (r0 D : list Z) (m : nat) (r : list Z) : Prop :=
  length r = 256%nat /\ forall x, (x < 256)%nat -> nth x r 0 = if (x <? m)%nat then nth x D 0 else nth x r0 0.
Lemma inplace_store r0 D r i v (Q : list Z -> Prop) : inplace r0 D (16 * i) r -> length D = 256%nat -> (i < 16)%nat ->
  map i16 (words_bits 16 v) = sub D (16 * i) 16 ->
  (forall r', inplace r0 D (16 * S i) r' -> Q r') -> wp (store_vec r i v) [EvIndex (16 * i)] Q.
Proof.
  intros [L U] LD Hi E HQ. assert (LS : length (sub D (16 * i) 16) = 16%nat) by (apply sub_length; lia).
  eapply wp_store_vec; [exact E|exact LS|lia|]. apply HQ. split; [rewrite splice_length; lia|].
  intros x Hx. rewrite nth_splice by lia. rewrite LS, U by auto.
  destruct (Nat.ltb_spec x (16 * i)), (Nat.ltb_spec x (16 * i + 16)), (Nat.ltb_spec x (16 * S i)); try lia; auto.
  rewrite nth_sub by lia. f_equal. lia.
Qed.
Lemma inplace_end r0 D r : length D = 256%nat -> inplace r0 D (16 * 16) r -> r = D.
Proof. intros LD [L U]. apply (list_eq_nth 0); [lia|]. intros x Hx. rewrite U by lia. destruct (Nat.ltb_spec x (16 * 16)); [auto|lia]. Qed.

Lemma poly_add_to_avx2_wp :
  traced (fun T => forall r b, length r = 256%nat -> length b = 256%nat ->
    (forall i, (i < 256)%nat -> -32768 <= nth i r 0 + nth i b 0 <= 32767) ->
    wp (poly_add_to_avx2 r b) T (fun r' => r' = mk 256 (fun i => nth i r 0 + nth i b 0))).
Proof.
  eexists. intros r b Hr Lb HB. unfold poly_add_to_avx2. set (D := mk 256 (fun i => nth i r 0 + nth i b 0)).
  assert (LD : length D = 256%nat) by apply mk_length.
  assert (HD : forall x, (x < 256)%nat -> nth x D 0 = nth x r 0 + nth x b 0) by (intros; unfold D; now rewrite nth_mk).
  eapply (wp_for _ (fun i s => inplace r D (16 * i) s)); [split; auto| |intros s U; now apply (inplace_end r)].
  intros i s Hi U. pose proof (proj1 U) as Ls. repeat vstep.
  destruct (vec_op add_body (AAdd 16) Z.add s b D i add_chk eq_refl add_sem) as (o & E & W);
    [lia|lia|exact LD|lia| |intros x Hx; rewrite HD by lia; now apply HB|].
  { intros x Hx. rewrite (proj2 U) by lia. destruct (Nat.ltb_spec x (16 * i)); [lia|]. apply HD. lia. }
  eapply wp_exec; [exact E|]. eapply inplace_store; [exact U|exact LD|lia|exact W|auto].
Qed.
Lemma poly_sub_from_avx2_wp :
  traced (fun T => forall r a, length r = 256%nat -> length a = 256%nat ->
    (forall i, (i < 256)%nat -> -32768 <= nth i a 0 - nth i r 0 <= 32767) ->
    wp (poly_sub_from_avx2 r a) T (fun r' => r' = mk 256 (fun i => nth i a 0 - nth i r 0))).
Proof.
  eexists. intros r a Hr La HB. unfold poly_sub_from_avx2. set (D := mk 256 (fun i => nth i a 0 - nth i r 0)).
  assert (LD : length D = 256%nat) by apply mk_length.
  assert (HD : forall x, (x < 256)%nat -> nth x D 0 = nth x a 0 - nth x r 0) by (intros; unfold D; now rewrite nth_mk).
  eapply (wp_for _ (fun i s => inplace r D (16 * i) s)); [split; auto| |intros s U; now apply (inplace_end r)].
  intros i s Hi U. pose proof (proj1 U) as Ls. repeat vstep.
  destruct (vec_op sub_body (ASub 16) Z.sub a s D i sub_chk eq_refl sub_sem) as (o & E & W);
    [lia|lia|exact LD|lia| |intros x Hx; rewrite HD by lia; now apply HB|].
  { intros x Hx. rewrite (proj2 U) by lia. destruct (Nat.ltb_spec x (16 * i)); [lia|]. apply HD. lia. }
  eapply wp_exec; [exact E|]. eapply inplace_store; [exact U|exact LD|lia|exact W|auto].
Qed.

(** ** Comparison *)
Definition verify_out : list bx :=
  map (fun i => Bor (Bi (N.of_nat (512 + i))) (Bxr (Bi (N.of_nat i)) (Bi (N.of_nat (256 + i))))) (seq 0 256).
Lemma verify_chk : check verify_body [bin 0 256; bin 256 256; bin 512 256] [2%nat] [verify_out] = true.
Proof. vm_compute. reflexivity. Qed.
Definition benv (x y z : list bool) : N -> bool := fun n => nth (N.to_nat n) (x ++ y ++ z) false.
Lemma bin_benv x y z s l : firstn 256 (skipn s (x ++ y ++ z)) = l -> length l = 256%nat ->
  map (bval (benv x y z) (fun _ => 0)) (bin s 256) = l.
Proof.
  intros E L. rewrite bin_bits. apply (nth_ext _ _ false false); [now rewrite map_length, seq_length|].
  intros i Hi. rewrite map_length, seq_length in Hi.
  rewrite (nth_indep _ false (benv x y z (N.of_nat 0))) by (now rewrite map_length, seq_length).
  rewrite (map_nth (fun i => benv x y z (N.of_nat i))), seq_nth by auto. unfold benv. rewrite Nnat.Nat2N.id, <- E.
  rewrite nth_firstn. destruct (Nat.ltb_spec i 256); [|lia].
  clear. revert i. generalize (x ++ y ++ z). induction s as [|s IH]; intros l i; [reflexivity|]. destruct l; [now destruct i|]. apply IH.
Qed.
Lemma verify_step x y z : length x = 256%nat -> length y = 256%nat -> length z = 256%nat ->
  exists o, exec_c verify_body [x; y; z] [2%nat] = ret [o] /\ length o = 256%nat /\
    (forallb negb o = true <-> forallb negb z = true /\ x = y).
Proof.
  intros Lx Ly Lz. pose proof (check_spec _ _ _ _ verify_chk (benv x y z) (fun _ => 0)) as E. cbn [map] in E.
  assert (P1 : forall (u v : list bool), length u = 256%nat -> firstn 256 (u ++ v) = u).
  { intros u v <-. rewrite firstn_app, Nat.sub_diag, firstn_all, firstn_O. apply app_nil_r. }
  assert (P2 : forall m (u v : list bool), length u = 256%nat -> skipn (256 + m) (u ++ v) = skipn m v).
  { intros m u v L. rewrite skipn_app. rewrite skipn_all2 by lia. cbn [app]. f_equal. lia. }
  rewrite (bin_benv x y z 0 x), (bin_benv x y z 256 y), (bin_benv x y z 512 z) in E; auto.
  2:{ rewrite (P2 256%nat x _ Lx), (P2 0%nat y _ Ly). change (skipn 0 z) with z. rewrite <- Lz at 1. apply firstn_all. }
  2:{ rewrite (P2 0%nat x _ Lx). now apply P1. }
  2:{ now apply P1. }
  eexists. split; [exact E|]. split; [unfold verify_out; now rewrite !map_length, seq_length|].
  assert (N1 : forall i, (i < 256)%nat -> nth i (map (bval (benv x y z) (fun _ => 0)) verify_out) false =
     nth i z false || xorb (nth i x false) (nth i y false)).
  { intros i Hi. unfold verify_out. rewrite map_map.
    rewrite (nth_indep _ false ((fun i => bval (benv x y z) (fun _ => 0) (Bor (Bi (N.of_nat (512 + i))) (Bxr (Bi (N.of_nat i)) (Bi (N.of_nat (256 + i)))))) 0%nat))
      by (now rewrite map_length, seq_length).
    rewrite (map_nth (fun i => bval (benv x y z) (fun _ => 0) (Bor (Bi (N.of_nat (512 + i))) (Bxr (Bi (N.of_nat i)) (Bi (N.of_nat (256 + i))))))), seq_nth by auto.
    cbn [bval]. unfold benv. rewrite !Nnat.Nat2N.id.
    rewrite (app_nth1 x (y ++ z) false (n := (0 + i)%nat)) by lia. rewrite !(app_nth2 x) by lia.
    rewrite (app_nth1 y z false (n := (256 + (0 + i) - length x)%nat)) by lia. rewrite (app_nth2 y) by lia.
    replace (512 + (0 + i) - length x - length y)%nat with i by lia. replace (256 + (0 + i) - length x)%nat with i by lia. reflexivity. }
  set (o := map _ verify_out) in *. assert (Lo : length o = 256%nat) by (unfold o, verify_out; now rewrite !map_length, seq_length).
  assert (F : forall l : list bool, forallb negb l = true <-> forall i, (i < length l)%nat -> nth i l false = false).
  { intros l. rewrite forallb_forall. split.
    - intros H i Hi. specialize (H _ (nth_In l false Hi)). now destruct (nth i l false).
    - intros H b Hb. apply (In_nth _ _ false) in Hb as (i & Hi & <-). now rewrite H. }
  rewrite !F, Lo, Lz. split.
  - intros H. split.
    + intros i Hi. specialize (H i Hi). rewrite N1 in H by auto. now apply orb_false_iff in H.
    + apply (nth_ext _ _ false false); [lia|]. intros i Hi. specialize (H i ltac:(lia)). rewrite N1 in H by lia.
      apply orb_false_iff in H as [_ H]. now apply xorb_eq.
  - intros [H ->] i Hi. rewrite N1, H, xorb_nilpotent by auto. reflexivity.
Qed.
Lemma bits_words_inj x y : bytes x -> bytes y -> length x = length y -> bits_words 8 x = bits_words 8 y -> x = y.
Proof.
  intros Bx By L E. apply (list_eq_nth 0); auto. intros m Hm. apply (bits_ext 8).
  - pose proof (Bx m Hm). simpl; lia.
  - pose proof (By m ltac:(lia)). simpl; lia.
  - intros b Hb. pose proof (f_equal (fun l => nth (b + m * 8) l false) E) as N. cbv beta in N. rewrite !nth_bits_words in N by lia.
    now rewrite Nat.div_add, Nat.mod_add, Nat.div_small, Nat.mod_small in N by lia.
Qed.
Lemma sub_app {A} (l : list A) o m k : sub l o (m + k) = sub l o m ++ sub l (o + m) k.
Proof.
  unfold sub. rewrite <- (firstn_skipn m (skipn o l)) at 1. rewrite skipn_skipn.
  rewrite firstn_app. rewrite firstn_firstn, Nat.min_r by lia.
  destruct (Nat.le_gt_cases m (length (skipn o l))).
  - rewrite firstn_length, Nat.min_l by lia. do 2 f_equal. lia.
  - rewrite skipn_length in *. rewrite (skipn_all2 l (n := (o + m)%nat)) by lia. now rewrite !firstn_nil.
Qed.
Lemma bytes_sub_sub l o m k c : (o + m <= length l)%nat -> bytes (sub l o m) -> (k + c <= m)%nat -> bytes (sub l (o + k) c).
Proof.
  intros L H Hk i Hi. rewrite sub_length in Hi by lia. rewrite nth_sub by lia.
  specialize (H (k + i)%nat). rewrite sub_length, nth_sub in H by lia. rewrite <- Nat.add_assoc. apply H. lia.
Qed.

Lemma verify_avx2_wp ao bo len :
  traced (fun T => forall a b,
    (ao + len <= length a)%nat -> (bo + len <= length b)%nat ->
    bytes (sub a ao len) -> bytes (sub b bo len) ->
    wp (verify_avx2 a ao b bo len) T
       (fun v => (v = 0 /\ sub a ao len = sub b bo len) \/
                 (v = 1 /\ sub a ao len <> sub b bo len))).
Proof.
  eexists. intros a b Ha Hb Ba Bb. unfold verify_avx2. cbv zeta.
  pose proof (Nat.div_mod len 32 ltac:(lia)) as DM. pose proof (Nat.mod_upper_bound len 32 ltac:(lia)) as MB.
  set (nb := (len / 32)%nat) in *.
  apply wp_bind.
  eapply (wp_for _ (fun i h => length h = 256%nat /\ (forallb negb h = true <-> sub a ao (32 * i) = sub b bo (32 * i)))).
  - split; [now rewrite repeat_length|]. rewrite Nat.mul_0_r. split; reflexivity.
  - intros i h Hi (Lh & Eh). repeat bload.
    pose proof (loaded_length a (ao + 32 * i) 32 ltac:(lia)) as L1. pose proof (loaded_length b (bo + 32 * i) 32 ltac:(lia)) as L2.
    destruct (verify_step _ _ h L1 L2 Lh) as (o & E & Lo & Z0).
    eapply wp_exec; [exact E|]. apply wp_ret. cbn [out nth]. split; [exact Lo|]. rewrite Z0, Eh.
    replace (32 * S i)%nat with (32 * i + 32)%nat by lia. rewrite !sub_app. split.
    + intros [-> E2]. f_equal. apply bits_words_inj in E2; auto.
      * apply (bytes_sub_sub _ _ len); auto; lia.
      * apply (bytes_sub_sub _ _ len); auto; lia.
      * rewrite !sub_length; lia.
    + intros E2.
      assert (X : sub a ao (32 * i) = sub b bo (32 * i) /\ sub a (ao + 32 * i) 32 = sub b (bo + 32 * i) 32).
      { assert (LE : length (sub a ao (32 * i)) = length (sub b bo (32 * i))) by (rewrite !sub_length; lia).
        revert LE E2. generalize (sub a ao (32 * i)) (sub b bo (32 * i)) (sub a (ao + 32 * i) 32) (sub b (bo + 32 * i) 32).
        clear. induction l as [|x l IH]; intros [|y m] u v; cbn; intros LE E2; try lia; [split; auto|].
        injection E2 as -> E2. destruct (IH m u v) as [-> ->]; auto. }
      destruct X as [-> ->]. auto.
  - intros h (Lh & Eh). apply wp_bind.
    eapply (wp_for _ (fun i r => 0 <= r <= 255 /\ (r = 0 <-> sub a ao (32 * nb + i) = sub b bo (32 * nb + i)))).
    + cbn [Nat.add] in Eh. rewrite Nat.add_0_r. unfold testz. rewrite <- Eh.
      destruct (forallb negb h); cbn; split; try lia; split; congruence || lia || auto.
    + intros i r Hi (Hr & Er). wgo.
      assert (Hx : 0 <= nth (ao + 32 * nb + i) a 0 <= 255).
      { specialize (Ba (32 * nb + i)%nat). rewrite sub_length, nth_sub in Ba by lia. rewrite <- Nat.add_assoc. apply Ba; lia. }
      assert (Hy : 0 <= nth (bo + 32 * nb + i) b 0 <= 255).
      { specialize (Bb (32 * nb + i)%nat). rewrite sub_length, nth_sub in Bb by lia. rewrite <- Nat.add_assoc. apply Bb; lia. }
      pose proof (lxor_byte _ _ Hx Hy) as Hz.
      pose proof (lor_byte _ _ Hr Hz) as Hl. split; auto.
      rewrite Z.lor_eq_0_iff, Z.lxor_eq_0_iff, Er.
      rewrite <- plus_n_Sm. rewrite !(sub_S 0) by lia. rewrite !Nat.add_assoc. split.
      * intros [-> ->]. reflexivity.
      * intros E. apply app_inj_tail in E. exact E.
    + intros r (Hr & Er). apply wp_ret.
      replace (32 * nb + (0 + (len - 32 * nb)))%nat with len in Er by lia.
      destruct (Z.eq_dec r 0) as [->|Hn].
      * left. split; [reflexivity|]. now apply Er.
      * right. split; [|intros E; apply Hn; now apply Er].
        unfold u64, wrapu. rewrite Z.shiftr_div_pow2 by lia.
        replace (- r) with (2 ^ 64 - r + (-1) * 2 ^ 64) by lia.
        rewrite Z_mod_plus_full, Z.mod_small by lia.
        change (2 ^ 64) with (2 * 2 ^ 63). Z.div_mod_to_equations. lia.
Qed.

(** ** Conditional move *)
Lemma cmov_chk0 : check cmov_body [bin 0 256; bin 256 256; repeat B0 256] [0%nat] [bin 0 256] = true.
Proof. vm_compute. reflexivity. Qed.
Lemma cmov_chk1 : check cmov_body [bin 0 256; bin 256 256; repeat B1 256] [0%nat] [bin 256 256] = true.
Proof. vm_compute. reflexivity. Qed.
Lemma cmov_step x y b : length x = 256%nat -> length y = 256%nat -> b = 0 \/ b = 1 ->
  exec_c cmov_body [x; y; set1_epi64x (u64 (- u8 b))] [0%nat] = ret [if b =? 1 then y else x].
Proof.
  intros Lx Ly Hb.
  assert (E1 : map (bval (benv x y []) (fun _ => 0)) (bin 0 256) = x).
  { apply bin_benv; auto. rewrite <- Lx. cbn [skipn]. rewrite firstn_app, Nat.sub_diag, firstn_all, firstn_O. apply app_nil_r. }
  assert (E2 : map (bval (benv x y []) (fun _ => 0)) (bin 256 256) = y).
  { apply bin_benv; auto. rewrite skipn_app, skipn_all2 by lia. cbn [app]. rewrite Lx, Nat.sub_diag, app_nil_r.
    change (skipn 0 y) with y. rewrite <- Ly. apply firstn_all. }
  destruct Hb as [-> | ->]; cbv [Z.eqb Pos.eqb].
  - pose proof (check_spec _ _ _ _ cmov_chk0 (benv x y []) (fun _ => 0)) as E.
    cbn [map] in E. rewrite E1, E2 in E. exact E.
  - pose proof (check_spec _ _ _ _ cmov_chk1 (benv x y []) (fun _ => 0)) as E.
    cbn [map] in E. rewrite E1, E2 in E. exact E.
Qed.
Lemma words_bits_words l : bytes l -> words_bits 8 (bits_words 8 l) = l.
Proof.
  intros B. unfold bits_words. rewrite (words_bits_blocks 8 (fun x => x)) by lia.
  rewrite <- (map_id l) at 2. apply map_ext_in. intros x Hx. apply (In_nth _ _ 0) in Hx as (i & Hi & <-).
  apply Z.mod_small. pose proof (B i Hi). cbn. lia.
Qed.

Lemma cmov_avx2_wp ro xo len :
  traced (fun T => forall r x b,
    (ro + len <= length r)%nat -> (xo + len <= length x)%nat ->
    bytes (sub r ro len) -> bytes (sub x xo len) -> b = 0 \/ b = 1 ->
    wp (cmov_avx2 r ro x xo len b) T
       (fun r' => r' = if b =? 1 then splice r ro (sub x xo len) else r)).
Proof.
  eexists. intros r x b Hr Hx Br Bx Hb. unfold cmov_avx2. cbv zeta.
  pose proof (Nat.div_mod len 32 ltac:(lia)) as DM. pose proof (Nat.mod_upper_bound len 32 ltac:(lia)) as MB.
  set (nb := (len / 32)%nat) in *.
  set (S i := if b =? 1 then sub x xo i else sub r ro i).
  assert (HS : forall i, (i <= len)%nat -> length (S i) = i).
  { intros. unfold S. destruct (b =? 1); apply sub_length; lia. }
  assert (same : forall i k c, (i <= k)%nat -> (k + c <= len)%nat -> sub (splice r ro (S i)) (ro + k) c = sub r (ro + k) c).
  { intros i k c Hi Hk. pose proof (HS i ltac:(lia)) as LS.
    assert (LL : length (splice r ro (S i)) = length r) by (apply splice_length; lia).
    apply (list_eq_nth 0); [rewrite !sub_length; lia|]. intros m Hm. rewrite sub_length in Hm by lia.
    rewrite !nth_sub by lia. rewrite nth_splice by lia. rewrite LS.
    destruct (Nat.ltb_spec (ro + k + m) ro); [lia|]. destruct (Nat.ltb_spec (ro + k + m) (ro + i)); [lia|reflexivity]. }
  apply wp_bind.
  eapply (wp_for _ (fun i r' => r' = splice r ro (S (32 * i)%nat))).
  - unfold S. rewrite Nat.mul_0_r. destruct (b =? 1); symmetry; apply splice_nil.
  - intros i r' Hi ->. pose proof (HS (32 * i)%nat ltac:(lia)) as LS.
    assert (LL : length (splice r ro (S (32 * i)%nat)) = length r) by (apply splice_length; lia).
    apply wp_bind. apply wp_load_bytes; [lia|]. rewrite same by lia. repeat bload.
    pose proof (loaded_length r (ro + 32 * i) 32 ltac:(lia)) as L1. pose proof (loaded_length x (xo + 32 * i) 32 ltac:(lia)) as L2.
    eapply wp_exec; [apply cmov_step; auto|]. cbn [out nth].
    assert (BR : bytes (sub r (ro + 32 * i) 32)) by (apply (bytes_sub_sub _ _ len); auto; lia).
    assert (BX : bytes (sub x (xo + 32 * i) 32)) by (apply (bytes_sub_sub _ _ len); auto; lia).
    eapply (wp_store_bytes _ _ _ (if b =? 1 then sub x (xo + 32 * i) 32 else sub r (ro + 32 * i) 32)).
    + destruct (b =? 1); now apply words_bits_words.
    + destruct (b =? 1); rewrite sub_length; lia.
    + rewrite <- LS at 2. rewrite splice_splice_next by (rewrite ?LS; auto; destruct (b =? 1); rewrite sub_length; lia).
      f_equal. unfold S. replace (32 * Datatypes.S i)%nat with (32 * i + 32)%nat by lia. rewrite !sub_app. now destruct (b =? 1).
  - intros r1 ->. eapply wp_conseq.
    + eapply (wp_for _ (fun i r' => r' = splice r ro (S (32 * nb + i)%nat))).
      * cbn [Nat.add]. now rewrite Nat.add_0_r.
      * intros i r' Hi ->. pose proof (HS (32 * nb + i)%nat ltac:(lia)) as LS.
        assert (LL : length (splice r ro (S (32 * nb + i)%nat)) = length r) by (apply splice_length; lia).
        wgo; [lia..|].
        rewrite nth_splice by lia. rewrite LS.
        destruct (Nat.ltb_spec (ro + 32 * nb + i) ro); [lia|].
        destruct (Nat.ltb_spec (ro + 32 * nb + i) (ro + (32 * nb + i))); [lia|].
        rewrite <- (Nat.add_assoc ro). rewrite <- LS at 2. rewrite splice_snoc by lia. f_equal.
        assert (Hx1 : 0 <= nth (xo + 32 * nb + i) x 0 <= 255).
        { specialize (Bx (32 * nb + i)%nat). rewrite sub_length, nth_sub in Bx by lia. rewrite <- Nat.add_assoc. apply Bx; lia. }
        assert (Hr1 : 0 <= nth (ro + (32 * nb + i)) r 0 <= 255).
        { specialize (Br (32 * nb + i)%nat). rewrite sub_length, nth_sub in Br by lia. apply Br; lia. }
        rewrite <- plus_n_Sm. unfold S. destruct Hb as [-> | ->]; cbv [Z.eqb Pos.eqb].
        -- rewrite (sub_S 0) by lia. do 2 f_equal. change (- u8 0) with 0.
           rewrite Z.land_0_l, Z.lxor_0_r. apply u8_small. lia.
        -- rewrite (sub_S 0) by lia. do 2 f_equal. change (- u8 1) with (-1). rewrite Z.land_m1_l.
           rewrite (Z.lxor_comm (nth (xo + 32 * nb + i) x 0)), <- Z.lxor_assoc, Z.lxor_nilpotent, Z.lxor_0_l. rewrite <- Nat.add_assoc. apply u8_small.
           rewrite Nat.add_assoc. lia.
      * intros r' H'. exact H'.
    + intros r' ->. replace (32 * nb + (0 + (len - 32 * nb)))%nat with len by lia.
      unfold S. destruct (b =? 1); auto. apply splice_self.
Qed.
