(** * The functions on bytes of one instance *)
From Coq Require Import ZArith List Lia Bool.
From Verif Require Import CMonad WP Proof_Base Proof_Bits Model_Fips202 Spec_FIPS202 Proof_Keccak Proof_Sponge
  Model_AvxKeccak Proof_AvxKeccak Model_AvxSnP Proof_SnPBase.
Import ListNotations.
Open Scope Z_scope.

Lemma wp_ndiv a b (Q : nat -> Prop) : Q (a / b)%nat -> wp (ndiv a b) [EvDiv (Z.of_nat a) (Z.of_nat b)] Q.
Proof. intros. eexists. split; [reflexivity|auto]. Qed.
Lemma wp_nmod a b (Q : nat -> Prop) : Q (a mod b)%nat -> wp (nmod a b) [EvDiv (Z.of_nat a) (Z.of_nat b)] Q.
Proof. intros. eexists. split; [reflexivity|auto]. Qed.

Lemma bytes_in_lane_wp o len :
  traced (fun T => wp (bytes_in_lane o len) T (fun n => n = Nat.min (8 - o) len)).
Proof.
  eexists. unfold bytes_in_lane. cbv zeta. wstep. wstep. wstep.
  destruct (Nat.ltb_spec len (8 - o)); lia.
Qed.

Section ByBytes.
Variables (off len : nat) (th : trace) (tl : nat -> trace) (tt : trace).
Definition head_bytes : nat := if ((0 <? len) && negb (off mod 8 =? 0))%nat then Nat.min (8 - off mod 8) len else 0%nat.

Lemma by_bytes_wp :
  traced (fun T => forall S (I : nat -> S -> Prop) head mid tail s, 
    (forall s, (0 < len)%nat -> (off mod 8 <> 0)%nat -> I 0%nat s ->
       wp (head (off / 8)%nat (off mod 8)%nat s) th (fun '(s', n) => n = Nat.min (8 - off mod 8) len /\ I n s')) ->
    (forall lp cur s, (8 * lp = off + cur)%nat -> (cur + 8 <= len)%nat -> (exists i, cur = head_bytes + 8 * i)%nat -> I cur s ->
       wp (mid lp cur s) (tl cur) (I (cur + 8)%nat)) ->
    (forall lp cur n s, (8 * lp = off + cur)%nat -> (cur + n = len)%nat -> (0 < n < 8)%nat -> cur = (head_bytes + 8 * ((len - head_bytes) / 8))%nat -> I cur s ->
       wp (tail lp cur n s) tt (I len)) ->
    I 0%nat s ->
    wp (by_bytes off len head mid tail s) T (I len)).
Proof.
  pose proof (Nat.div_mod off 8 ltac:(lia)) as D8. pose proof (Nat.mod_upper_bound off 8 ltac:(lia)) as M8.
  pose proof (Nat.div_mod (len - head_bytes) 8 ltac:(lia)) as DR. pose proof (Nat.mod_upper_bound (len - head_bytes) 8 ltac:(lia)) as MR.
  set (nf := ((len - head_bytes) / 8)%nat) in *. set (rest := ((len - head_bytes) mod 8)%nat) in *.
  (* the part after the head *)
  assert (REST : traced (fun T => forall S (I : nat -> S -> Prop)
      (mid : nat -> nat -> S -> res S) (tail : nat -> nat -> nat -> S -> res S) s lp c0,
    c0 = head_bytes -> (c0 <= len)%nat -> ((c0 < len)%nat -> (8 * lp = off + c0)%nat) ->
    (forall lp cur s, (8 * lp = off + cur)%nat -> (cur + 8 <= len)%nat -> (exists i, cur = head_bytes + 8 * i)%nat -> I cur s ->
       wp (mid lp cur s) (tl cur) (I (cur + 8)%nat)) ->
    (forall lp cur n s, (8 * lp = off + cur)%nat -> (cur + n = len)%nat -> (0 < n < 8)%nat -> cur = (head_bytes + 8 * nf)%nat -> I cur s ->
       wp (tail lp cur n s) tt (I len)) ->
    I c0 s ->
    wp ('(s, sizeLeft, lanePosition, cur) <-
         while_ (Datatypes.S len)
           (fun st => let '(s, sizeLeft, lanePosition, cur) := st in test (8 <=? sizeLeft)%nat)
           (fun st => let '(s, sizeLeft, lanePosition, cur) := st in
              s <- mid lanePosition cur s ;;
              ret (s, sizeLeft - 8, lanePosition + 1, cur + 8)%nat)
           (s, len - c0, lp, c0)%nat ;;
        b <- test (0 <? sizeLeft)%nat ;;
        if (b : bool) then tail lanePosition cur sizeLeft s else ret s)%cm T (I len))).
  { assert (W : traced (fun T => forall S (I : nat -> S -> Prop) (mid : nat -> nat -> S -> res S) s lp c0,
      c0 = head_bytes -> (c0 <= len)%nat -> ((c0 < len)%nat -> (8 * lp = off + c0)%nat) ->
      (forall lp cur s, (8 * lp = off + cur)%nat -> (cur + 8 <= len)%nat -> (exists i, cur = head_bytes + 8 * i)%nat -> I cur s ->
         wp (mid lp cur s) (tl cur) (I (cur + 8)%nat)) ->
      I c0 s ->
      wp (while_ (Datatypes.S len)
           (fun st => let '(s, sizeLeft, lanePosition, cur) := st in test (8 <=? sizeLeft)%nat)
           (fun st => let '(s, sizeLeft, lanePosition, cur) := st in
              s <- mid lanePosition cur s ;;
              ret (s, sizeLeft - 8, lanePosition + 1, cur + 8)%nat)
           (s, len - c0, lp, c0)%nat) T
         (fun '(s, sz, lp', cur) => sz = rest /\ lp' = (lp + nf)%nat /\ cur = (head_bytes + 8 * nf)%nat /\ I cur s))).
    { eexists. intros S I mid s lp c0 Ec Hc Hlp Hmid H0.
      eapply (wp_while (fun i => [EvBranch (i <? nf)%nat]) (fun i => tl (head_bytes + 8 * i)%nat ++ [])
        (fun i '(s, sz, lp', cur) => sz = (len - c0 - 8 * i)%nat /\ lp' = (lp + i)%nat /\ cur = (c0 + 8 * i)%nat /\ I cur s) nf).
      - lia.
      - rewrite Nat.mul_0_r, Nat.sub_0_r, !Nat.add_0_r. auto.
      - intros i [[[s1 sz] lp1] cur] Hi (-> & -> & -> & H1).
        replace (8 <=? len - c0 - 8 * i)%nat with (i <? nf)%nat.
        2:{ destruct (Nat.ltb_spec i nf), (Nat.leb_spec 8 (len - c0 - 8 * i)); auto; lia. }
        apply wp_test. apply Nat.ltb_lt. lia.
      - intros i [[[s1 sz] lp1] cur] Hi (-> & -> & -> & H1).
        apply wp_bind. subst c0. eapply wp_conseq; [apply Hmid; [lia|lia|now exists i|exact H1]|].
        intros s2 H2. apply wp_ret. replace (head_bytes + 8 * Datatypes.S i)%nat with (head_bytes + 8 * i + 8)%nat by lia. repeat split; auto; lia.
      - intros [[[s1 sz] lp1] cur] (-> & -> & -> & H1).
        replace (8 <=? len - c0 - 8 * (0 + nf))%nat with (0 + nf <? nf)%nat.
        2:{ destruct (Nat.ltb_spec (0 + nf) nf), (Nat.leb_spec 8 (len - c0 - 8 * (0 + nf))); auto; lia. }
        apply wp_test. apply Nat.ltb_ge. lia.
      - intros [[[s1 sz] lp1] cur] (-> & -> & -> & H1). cbn [Nat.add] in *. subst c0. repeat split; auto; lia. }
    destruct (Nat.eqb_spec rest 0) as [R0|R0].
    - eexists. intros S I mid tail s lp c0 Ec Hc Hlp Hmid Htail H0.
      wstep. eapply wp_conseq; [apply (proj2_sig W S I); auto|].
      intros [[[s1 sz] lp1] cur] (-> & -> & -> & H1). rewrite R0. cbn [Nat.ltb Nat.leb]. wstep. wstep. wstep.
      replace len with (head_bytes + 8 * nf)%nat by lia. exact H1.
    - eexists. intros S I mid tail s lp c0 Ec Hc Hlp Hmid Htail H0.
      wstep. eapply wp_conseq; [apply (proj2_sig W S I); auto|].
      intros [[[s1 sz] lp1] cur] (-> & -> & -> & H1).
      replace (0 <? rest)%nat with true by (symmetry; apply Nat.ltb_lt; lia). wstep. wstep.
      apply Htail; try lia; auto. }
  destruct REST as [TR REST].
  unfold head_bytes in *.
  destruct (0 <? len)%nat eqn:Hl; [apply Nat.ltb_lt in Hl|apply Nat.ltb_ge in Hl].
  - destruct (Nat.eqb_spec (off mod 8) 0) as [Ho|Ho]; cbn [andb negb] in *.
    + eexists. intros S I head mid tail s Hh Hm Ht H0. unfold by_bytes.
      wstep. apply wp_ndiv. wstep. apply wp_nmod. rewrite Ho. cbn [Nat.eqb negb].
      unfold test_and. replace (0 <? len)%nat with true by (symmetry; apply Nat.ltb_lt; lia).
      wstep. wstep. wstep. wstep. wstep. wstep.
      replace len with (len - 0)%nat at 2 by lia.
      apply REST; auto; lia.
    + eexists. intros S I head mid tail s Hh Hm Ht H0. unfold by_bytes.
      wstep. apply wp_ndiv. wstep. apply wp_nmod.
      replace (off mod 8 =? 0)%nat with false by (symmetry; apply Nat.eqb_neq; lia). cbn [negb].
      unfold test_and. replace (0 <? len)%nat with true by (symmetry; apply Nat.ltb_lt; lia).
      wstep. wstep. wstep. wstep. wstep. wstep.
      eapply wp_conseq; [apply Hh; auto|]. intros [s1 n] [En H1]. wstep.
      apply REST; auto; try lia. 
  - cbn [andb] in *. eexists. intros S I head mid tail s Hh Hm Ht H0. unfold by_bytes.
    wstep. apply wp_ndiv. wstep. apply wp_nmod.
    unfold test_and. replace (0 <? len)%nat with false by (symmetry; apply Nat.ltb_ge; lia).
    wstep. wstep. wstep. wstep. wstep. wstep.
    replace len with (len - 0)%nat at 2 by lia.
    apply REST; auto; lia.
Qed.
End ByBytes.

(** The only alignment the code needs is that of the whole lanes *)
Definition lanes_aligned (a : Z) (off len : nat) : Prop :=
  (len < head_bytes off len + 8)%nat \/ (a + Z.of_nat (head_bytes off len)) mod 8 = 0.
Lemma lanes_aligned_cur a off len cur : lanes_aligned a off len -> (cur + 8 <= len)%nat ->
  (exists i, cur = head_bytes off len + 8 * i)%nat -> (a + Z.of_nat cur) mod 8 = 0.
Proof.
  intros [H|H] Hc [i ->]; [lia|].
  replace (a + Z.of_nat (head_bytes off len + 8 * i)) with (a + Z.of_nat (head_bytes off len) + Z.of_nat i * 8) by lia.
  now rewrite Z.mod_add by lia.
Qed.

Ltac cmp := repeat match goal with
  | |- context [(?x =? ?y)%nat] => destruct (Nat.eqb_spec x y)
  | |- context [(?x <=? ?y)%nat] => destruct (Nat.leb_spec x y)
  | |- context [(?x <? ?y)%nat] => destruct (Nat.ltb_spec x y)
  end; cbn [andb]; try lia; try reflexivity.

(** The low bytes of a lane set by memcpy *)
Lemma part_lane_wp o n :
  traced (fun T => forall data c, (o + n <= 8)%nat -> length data = n -> bytes data ->
    wp (load64 (splice (repeat 0 8) o data) 0) T
       (fun v => lane v /\ forall m, (m < 8)%nat ->
          lbyte v m = if ((c + o <=? c + m) && (c + m <? c + o + n))%nat then nth (c + m - (c + o)) data 0 else 0)).
Proof.
  destruct (load64_bytes 0) as [T W]. exists T. intros data c Hn L B.
  assert (LS : length (splice (repeat 0 8) o data) = 8%nat) by (rewrite splice_length; rewrite repeat_length; lia).
  eapply wp_conseq; [apply W; [lia|]|].
  - apply bnd_splice; auto. intros i Hi. rewrite repeat_length in Hi. rewrite nth_repeat. lia.
  - intros v [Lv Hv]. split; auto. intros m Hm. rewrite Hv by auto. cbn [Nat.add].
    rewrite nth_splice by (rewrite repeat_length; lia). rewrite L.
    destruct (Nat.ltb_spec m o), (Nat.leb_spec (c + o) (c + m)); try lia; cbn [andb].
    + apply nth_repeat.
    + destruct (Nat.ltb_spec m (o + n)), (Nat.ltb_spec (c + m) (c + o + n)); try lia.
      * f_equal. lia.
      * apply nth_repeat.
Qed.

Lemma bytes_nth0 l i : bytes l -> 0 <= nth i l 0 <= 255.
Proof. intros. apply bnd_nth0; auto; lia. Qed.

Lemma add_chunk inst off len : (inst < 4)%nat -> (off + len <= 200)%nat -> forall lp,
  traced (fun T => forall g st data cur c v, bytes data -> (forall j b, 0 <= g j b <= 255) -> (0 < c)%nat ->
    (8 * lp <= off + cur)%nat -> (off + cur + c <= 8 * lp + 8)%nat -> (cur + c <= len)%nat ->
    (forall m, (m < 8)%nat -> lbyte v m = if ((off + cur <=? 8 * lp + m) && (8 * lp + m <? off + cur + c))%nat
                                          then nth (8 * lp + m - off) data 0 else 0) ->
    rep4 (put g inst off (off + cur) (fun b => Z.lxor (g inst b) (nth (b - off) data 0))) st ->
    wp (lane_xor st (laneIndex inst lp) v) T
       (rep4 (put g inst off (off + (cur + c)) (fun b => Z.lxor (g inst b) (nth (b - off) data 0))))).
Proof.
  intros Hi Ho lp. destruct (lane_xor_wp (laneIndex inst lp)) as [T W]. exists T.
  intros g st data cur c v B R Hc H1 H2 H3 Hv Hs.
  eapply wp_conseq; [eapply (W _ st lp inst v); eauto; [apply laneIndex_small|]; lia|].
  intros st' H. eapply rep4_ext; [| |exact H].
  - apply put_range; auto. intros. apply lxor_byte; auto. now apply bytes_nth0.
  - intros j b Hj Hb. destruct (Nat.eq_dec j inst) as [->|Nj].
    2:{ unfold put. replace (j =? inst)%nat with false by (symmetry; now apply Nat.eqb_neq). reflexivity. }
    unfold put. rewrite Nat.eqb_refl. cbn [andb].
    destruct (Nat.leb_spec (8 * lp) b), (Nat.ltb_spec b (8 * lp + 8)); cbn [andb]; try (cmp; fail).
    rewrite Hv by lia. replace (8 * lp + (b - 8 * lp))%nat with b by lia.
    cmp; now rewrite ?Z.lxor_0_r.
Qed.

Lemma rep4_start g inst off f st : rep4 g st -> rep4 (put g inst off (off + 0) f) st.
Proof.
  intros H. pose proof H as (_ & R & _). eapply rep4_ext; [| |exact H].
  - apply put_range; auto. lia.
  - intros. unfold put. cmp.
Qed.

Lemma AddBytes_wp inst off len : (inst < 4)%nat -> (off + len <= 200)%nat ->
  traced (fun T => forall g st data a, rep4 g st -> bytes data -> (len <= length data)%nat -> lanes_aligned a off len ->
    wp (AddBytes st inst data a off len) T
       (rep4 (put g inst off (off + len) (fun b => Z.lxor (g inst b) (nth (b - off) data 0))))).
Proof.
  intros Hi Ho.
  pose proof (Nat.div_mod off 8 ltac:(lia)) as D8. pose proof (Nat.mod_upper_bound off 8 ltac:(lia)) as M8.
  eexists. intros g st data a Hs B L AL. pose proof Hs as (_ & R & _). unfold AddBytes.
  eapply (proj2_sig (by_bytes_wp off len _ _ _) (list Z)
    (fun cur => rep4 (put g inst off (off + cur) (fun b => Z.lxor (g inst b) (nth (b - off) data 0))))).
  - intros s Hl Hm Hs1. set (n := Nat.min (8 - off mod 8) len).
    wstep. eapply wp_conseq; [apply (proj2_sig (bytes_in_lane_wp _ _))|]. intros ? ->. fold n.
    wstep. eapply wp_conseq; [apply (proj2_sig (memcpy_wp (off mod 8) 0 n)); [cbn [repeat length]; lia|lia]|]. intros ? ->.
    wstep. eapply wp_conseq; [apply (proj2_sig (part_lane_wp (off mod 8) n) _ (8 * (off / 8))%nat)|].
    + lia.
    + rewrite firstn_length, skipn_length. lia.
    + apply bnd_firstn. exact B.
    + intros v [Lv Hv].
      wstep. eapply wp_conseq; [eapply (proj2_sig (add_chunk inst off len Hi Ho (off / 8)) g s data 0%nat n v B R)|]; try lia.
      * intros m Hm'. rewrite Hv by auto. rewrite <- D8. cbn [skipn]. rewrite Nat.add_0_r.
        cmp. rewrite nth_firstn. cmp.
      * exact Hs1.
      * intros st' H'. wstep. split; auto.
  - intros lp cur s E Hc Hex Hs1.
    wstep. eapply wp_conseq; [apply (proj2_sig (read64_wp cur)); [lia|exact B|]|].
    { eapply lanes_aligned_cur; eauto. }
    intros v [Lv Hv].
    replace lp with ((off + cur) / 8)%nat by (rewrite <- E, Nat.mul_comm; now apply Nat.div_mul).
    assert (E' : (8 * ((off + cur) / 8) = off + cur)%nat) by (rewrite <- E, (Nat.mul_comm 8 lp), Nat.div_mul by lia; lia).
    eapply (proj2_sig (add_chunk inst off len Hi Ho ((off + cur) / 8)) g s data cur 8%nat v B R); try lia.
    + intros m Hm. rewrite Hv by auto. cmp. f_equal. lia.
    + exact Hs1.
  - intros lp cur n s E Hc Hn Ecur Hs1.
    set (c0 := (head_bytes off len + 8 * ((len - head_bytes off len) / 8))%nat) in *.
    replace n with (len - c0)%nat by lia. subst cur.
    wstep. eapply wp_conseq; [apply (proj2_sig (memcpy_wp 0 c0 (len - c0))); [cbn [repeat length]; lia|lia]|]. intros ? ->.
    wstep. eapply wp_conseq; [apply (proj2_sig (part_lane_wp 0 (len - c0)) _ (8 * ((off + c0) / 8))%nat)|].
    + lia.
    + rewrite firstn_length, skipn_length. lia.
    + apply bnd_firstn, bnd_skipn. exact B.
    + intros v [Lv Hv].
      replace lp with ((off + c0) / 8)%nat by (rewrite <- E, Nat.mul_comm; now apply Nat.div_mul).
      assert (E' : (8 * ((off + c0) / 8) = off + c0)%nat) by (rewrite <- E, (Nat.mul_comm 8 lp), Nat.div_mul by lia; lia).
      replace (off + len)%nat with (off + (c0 + (len - c0)))%nat by lia.
      eapply (proj2_sig (add_chunk inst off len Hi Ho ((off + c0) / 8)) g s data c0 (len - c0)%nat v B R); try lia.
      * intros m Hm. rewrite Hv by auto. rewrite !E', !Nat.add_0_r. cmp.
        rewrite nth_firstn, nth_skipn. cmp. f_equal. lia.
      * exact Hs1.
  - now apply rep4_start.
Qed.

Lemma firstn_skipn_mk (l : list Z) c n : (c + n <= length l)%nat ->
  firstn n (skipn c l) = mk n (fun i => nth (c + i) l 0).
Proof.
  intros H. apply (list_eq_nth 0); rewrite ?mk_length, firstn_length, skipn_length; [lia|].
  intros i Hi. rewrite nth_mk by lia. rewrite nth_firstn, nth_skipn. destruct (Nat.ltb_spec i n); auto. lia.
Qed.

Lemma set_chunk inst off len : (inst < 4)%nat -> (off + len <= 200)%nat -> forall lp,
  traced (fun T => forall g st (f : nat -> Z) cur v, (forall b, 0 <= f b <= 255) -> (forall j b, 0 <= g j b <= 255) ->
    (8 * lp = off + cur)%nat -> (cur + 8 <= len)%nat ->
    (forall m, (m < 8)%nat -> lbyte v m = f (cur + m)%nat) ->
    rep4 (put g inst off (off + cur) (fun b => f (b - off)%nat)) st ->
    wp (lane_set st (laneIndex inst lp) v) T (rep4 (put g inst off (off + (cur + 8)) (fun b => f (b - off)%nat)))).
Proof.
  intros Hi Ho lp. destruct (lane_set_wp (laneIndex inst lp)) as [T W]. exists T.
  intros g st f cur v F R H1 H3 Hv Hs.
  eapply wp_conseq; [eapply (W _ st lp inst v); eauto; [apply laneIndex_small|]; lia|].
  intros st' H. eapply rep4_ext; [| |exact H].
  - apply put_range; auto.
  - intros j b Hj Hb. destruct (Nat.eq_dec j inst) as [->|Nj].
    2:{ unfold put. replace (j =? inst)%nat with false by (symmetry; now apply Nat.eqb_neq). reflexivity. }
    unfold put. rewrite Nat.eqb_refl. cbn [andb].
    destruct (Nat.leb_spec (8 * lp) b), (Nat.ltb_spec b (8 * lp + 8)); cbn [andb]; try (cmp; fail).
    rewrite Hv by lia. cmp. f_equal. lia.
Qed.

Lemma part_chunk inst off len lp cur c g st f : (inst < 4)%nat -> (off + len <= 200)%nat ->
  (forall b, 0 <= f b <= 255) -> (forall j b, 0 <= g j b <= 255) -> (0 < c)%nat ->
  (8 * lp <= off + cur)%nat -> (off + cur + c <= 8 * lp + 8)%nat -> (cur + c <= len)%nat ->
  rep4 (put g inst off (off + cur) (fun b => f (b - off)%nat)) st ->
  rep4 (put g inst off (off + (cur + c)) (fun b => f (b - off)%nat))
       (splice st (32 * lp + 8 * inst + (off + cur - 8 * lp)) (mk c (fun i => f (cur + i)%nat))).
Proof.
  intros Hi Ho F R Hc H1 H2 H3 Hs.
  eapply rep4_ext; [| |eapply (rep4_splice _ st lp inst (off + cur - 8 * lp) c (fun i => f (cur + i)%nat) Hs)]; auto; try lia.
  - apply put_range; auto.
  - intros j b Hj Hb. destruct (Nat.eq_dec j inst) as [->|Nj].
    2:{ unfold put. replace (j =? inst)%nat with false by (symmetry; now apply Nat.eqb_neq). reflexivity. }
    unfold put. rewrite Nat.eqb_refl. cbn [andb]. cmp; f_equal; lia.
Qed.

Lemma OverwriteBytes_wp inst off len : (inst < 4)%nat -> (off + len <= 200)%nat ->
  traced (fun T => forall g st data a, rep4 g st -> bytes data -> (len <= length data)%nat -> lanes_aligned a off len ->
    wp (OverwriteBytes st inst data a off len) T
       (rep4 (put g inst off (off + len) (fun b => nth (b - off) data 0)))).
Proof.
  intros Hi Ho.
  pose proof (Nat.div_mod off 8 ltac:(lia)) as D8. pose proof (Nat.mod_upper_bound off 8 ltac:(lia)) as M8.
  eexists. intros g st data a Hs B L AL. pose proof Hs as (_ & R & _). unfold OverwriteBytes.
  pose proof (fun b => bytes_nth0 data b B) as F.
  eapply (proj2_sig (by_bytes_wp off len _ _ _) (list Z)
    (fun cur => rep4 (put g inst off (off + cur) (fun b => nth (b - off) data 0)))).
  - intros s Hl Hm Hs1. set (n := Nat.min (8 - off mod 8) len).
    wstep. eapply wp_conseq; [apply (proj2_sig (bytes_in_lane_wp _ _))|]. intros ? ->. fold n.
    pose proof Hs1 as (L1 & _).
    assert (EL : laneIndex inst (off / 8) = (4 * (off / 8) + inst)%nat) by (apply laneIndex_small; lia).
    wstep. eapply wp_conseq; [apply (proj2_sig (memcpy_wp (8 * laneIndex inst (off / 8) + off mod 8) 0 n)); rewrite ?EL; lia|].
    intros ? ->. wstep. split; auto.
    rewrite firstn_skipn_mk by lia. rewrite EL.
    pose proof (part_chunk inst off len (off / 8) 0 n g s (fun i => nth i data 0) Hi Ho F R ltac:(lia) ltac:(lia) ltac:(lia) ltac:(lia) Hs1) as P.
    cbn [Nat.add] in P.
    replace (8 * (4 * (off / 8) + inst) + off mod 8)%nat with (32 * (off / 8) + 8 * inst + (off + 0 - 8 * (off / 8)))%nat by lia.
    exact P.
  - intros lp cur s E Hc Hex Hs1.
    wstep. eapply wp_conseq; [apply (proj2_sig (read64_wp cur)); [lia|exact B|]|].
    { eapply lanes_aligned_cur; eauto. }
    intros v [Lv Hv].
    assert (E' : (8 * ((off + cur) / 8) = off + cur)%nat) by (rewrite <- E, (Nat.mul_comm 8 lp), Nat.div_mul by lia; lia).
    replace lp with ((off + cur) / 8)%nat by lia.
    apply (proj2_sig (set_chunk inst off len Hi Ho ((off + cur) / 8)) g s (fun i => nth i data 0) cur v F R); auto; lia.
  - intros lp cur n s E Hc Hn Ecur Hs1.
    set (c0 := (head_bytes off len + 8 * ((len - head_bytes off len) / 8))%nat) in *.
    replace n with (len - c0)%nat by lia. subst cur.
    assert (E' : (8 * ((off + c0) / 8) = off + c0)%nat) by (rewrite <- E, (Nat.mul_comm 8 lp), Nat.div_mul by lia; lia).
    replace lp with ((off + c0) / 8)%nat by lia.
    pose proof Hs1 as (L1 & _).
    assert (EL : laneIndex inst ((off + c0) / 8) = (4 * ((off + c0) / 8) + inst)%nat) by (apply laneIndex_small; lia).
    eapply wp_conseq; [apply (proj2_sig (memcpy_wp (8 * laneIndex inst ((off + c0) / 8)) c0 (len - c0))); rewrite ?EL; lia|].
    intros ? ->. rewrite firstn_skipn_mk by lia. rewrite EL.
    pose proof (part_chunk inst off len ((off + c0) / 8) c0 (len - c0) g s (fun i => nth i data 0) Hi Ho F R ltac:(lia) ltac:(lia) ltac:(lia) ltac:(lia) Hs1) as P.
    replace (8 * (4 * ((off + c0) / 8) + inst))%nat with (32 * ((off + c0) / 8) + 8 * inst + (off + c0 - 8 * ((off + c0) / 8)))%nat by lia.
    replace (off + len)%nat with (off + (c0 + (len - c0)))%nat by lia. exact P.
  - now apply rep4_start.
Qed.

Lemma OverwriteWithZeroes_wp inst len : (inst < 4)%nat -> (len <= 200)%nat ->
  traced (fun T => forall g st, rep4 g st ->
    wp (OverwriteWithZeroes st inst len) T (rep4 (put g inst 0 len (fun _ => 0)))).
Proof.
  intros Hi Ho.
  pose proof (Nat.div_mod len 8 ltac:(lia)) as D8. pose proof (Nat.mod_upper_bound len 8 ltac:(lia)) as M8.
  assert (W : traced (fun T => forall g st, rep4 g st ->
    wp (while_ (S len)
       (fun s => let '(st, sizeLeft, lanePosition) := s in test (8 <=? sizeLeft)%nat)
       (fun s => let '(st, sizeLeft, lanePosition) := s in
          st <- lane_set st (laneIndex inst lanePosition) 0 ;;
          ret (st, sizeLeft - 8, lanePosition + 1)%nat)%cm
       (st, len, 0%nat)) T
       (fun '(st, sz, lp) => sz = (len mod 8)%nat /\ lp = (len / 8)%nat /\ rep4 (put g inst 0 (8 * (len / 8)) (fun _ => 0)) st))).
  { eexists. intros g st Hs. pose proof Hs as (_ & R & _).
    eapply (wp_while (fun i => [EvBranch (i <? len / 8)%nat]) _
      (fun i '(st, sz, lp) => sz = (len - 8 * i)%nat /\ lp = i /\ rep4 (put g inst 0 (8 * i) (fun _ => 0)) st) (len / 8) 0%nat).
    - lia.
    - split; [lia|]. split; [reflexivity|]. apply (rep4_start g inst 0 (fun _ => 0) st Hs).
    - intros i [[s1 sz] lp] Hk (-> & -> & H1).
      replace (8 <=? len - 8 * i)%nat with (i <? len / 8)%nat by (destruct (Nat.ltb_spec i (len / 8)), (Nat.leb_spec 8 (len - 8 * i)); auto; lia).
      apply wp_test. apply Nat.ltb_lt. lia.
    - intros i [[s1 sz] lp] Hk (-> & -> & H1). wstep.
      eapply wp_conseq; [apply (proj2_sig (set_chunk inst 0 len Hi Ho i) g s1 (fun _ => 0) (8 * i)%nat 0); auto; try lia|].
      + intros. apply lbyte_0.
      + intros s2 H2. wstep. split; [lia|]. split; [lia|]. replace (8 * S i)%nat with (0 + (8 * i + 8))%nat by lia. exact H2.
    - intros [[s1 sz] lp] (-> & -> & H1).
      replace (8 <=? len - 8 * (0 + len / 8))%nat with (0 + len / 8 <? len / 8)%nat.
      2:{ destruct (Nat.ltb_spec (0 + len / 8) (len / 8)), (Nat.leb_spec 8 (len - 8 * (0 + len / 8))); auto; lia. }
      apply wp_test. apply Nat.ltb_ge. lia.
    - intros [[s1 sz] lp] (-> & -> & H1). cbn [Nat.add] in *. repeat split; auto; try lia; apply H1. }
  destruct (Nat.eqb_spec (len mod 8) 0) as [R0|R0].
  - eexists. intros g st Hs. unfold OverwriteWithZeroes. wstep. eapply wp_conseq; [apply (proj2_sig W g st Hs)|].
    intros [[s1 sz] lp] (-> & -> & H1). rewrite R0. cbn [Nat.ltb Nat.leb]. wstep. wstep. wstep.
    replace len with (8 * (len / 8))%nat at 1 by lia. exact H1.
  - eexists. intros g st Hs. unfold OverwriteWithZeroes. wstep. eapply wp_conseq; [apply (proj2_sig W g st Hs)|].
    intros [[s1 sz] lp] (-> & -> & H1). pose proof Hs as (_ & R & _).
    replace (0 <? len mod 8)%nat with true by (symmetry; apply Nat.ltb_lt; lia). wstep. wstep.
    assert (EL : laneIndex inst (len / 8) = (4 * (len / 8) + inst)%nat) by (apply laneIndex_small; lia).
    pose proof H1 as (L1 & _).
    eapply (wp_for _ (fun i s => s = splice s1 (8 * laneIndex inst (len / 8)) (mk i (fun _ => 0)))).
    + symmetry. apply splice_nil.
    + intros i s2 Hk ->. rewrite EL. wstep. { rewrite splice_length; rewrite ?mk_length; lia. }
      rewrite mk_S. rewrite splice_snoc; rewrite ?mk_length; auto; lia.
    + intros s2 ->. rewrite EL. cbn [Nat.add].
      pose proof (part_chunk inst 0 len (len / 8) (8 * (len / 8)) (len mod 8) g s1 (fun _ => 0) Hi Ho ltac:(lia) R ltac:(lia) ltac:(lia) ltac:(lia) ltac:(lia) H1) as P.
      replace (8 * (4 * (len / 8) + inst))%nat with (32 * (len / 8) + 8 * inst + (0 + 8 * (len / 8) - 8 * (len / 8)))%nat by lia.
      replace len with (0 + (8 * (len / 8) + len mod 8))%nat at 1 by lia. exact P.
Qed.

Lemma AddByte_wp inst off : (inst < 4)%nat -> (off < 200)%nat ->
  traced (fun T => forall g st v, rep4 g st -> 0 <= v <= 255 ->
    wp (AddByte st inst v off) T (rep4 (put g inst off (off + 1) (fun b => Z.lxor (g inst b) v)))).
Proof.
  intros Hi Ho.
  pose proof (Nat.div_mod off 8 ltac:(lia)) as D8. pose proof (Nat.mod_upper_bound off 8 ltac:(lia)) as M8.
  eexists. intros g st v Hs Hv. pose proof Hs as (L & R & H). unfold AddByte. cbv zeta.
  replace (inst * 8 + off / 8 * 4 * 8 + off mod 8)%nat with (32 * (off / 8) + 8 * inst + off mod 8)%nat by lia.
  wstep. wstep; [lia|]. wstep; [lia|]. rewrite H by lia. rewrite <- D8.
  assert (X : 0 <= Z.lxor (g inst off) v <= 255) by now apply lxor_byte.
  rewrite u8_small by auto.
  replace (upd st _ _) with (splice st (32 * (off / 8) + 8 * inst + off mod 8) (mk 1 (fun _ => Z.lxor (g inst off) v))).
  2:{ rewrite (mk_S 0). cbn [mk map seq app]. rewrite <- (splice_nil st (32 * (off / 8) + 8 * inst + off mod 8)) at 2.
      change [Z.lxor (g inst off) v] with ([] ++ [Z.lxor (g inst off) v]). symmetry. apply splice_snoc; cbn [length]; lia. }
  eapply rep4_ext; [| |eapply (rep4_splice g st (off / 8) inst (off mod 8) 1 (fun _ => Z.lxor (g inst off) v) Hs)]; auto; try lia.
  - apply put_range; auto. intros b Hb. now apply lxor_byte.
  - intros j b Hj Hb. destruct (Nat.eq_dec j inst) as [->|Nj].
    2:{ unfold put. replace (j =? inst)%nat with false by (symmetry; now apply Nat.eqb_neq). reflexivity. }
    unfold put. rewrite Nat.eqb_refl. cbn [andb]. cmp. do 2 f_equal. lia.
Qed.

Lemma InitializeAll_wp :
  traced (fun T => forall st, length st = 800%nat -> wp (InitializeAll st) T (rep4 (fun _ _ => 0))).
Proof.
  eexists. intros st L. unfold InitializeAll.
  eapply (wp_for _ (fun i s => s = splice st 0 (mk i (fun _ => 0)))).
  - symmetry. apply splice_nil.
  - intros i s Hk ->. wstep. { rewrite splice_length; rewrite ?mk_length; lia. }
    rewrite mk_S. change (upd (splice st 0 (mk i (fun _ : nat => 0))) i 0) with (upd (splice st 0 (mk i (fun _ : nat => 0))) (0 + i) 0).
    rewrite splice_snoc; rewrite ?mk_length; auto; lia.
  - intros s ->. split; [rewrite splice_length; rewrite ?mk_length; lia|]. split; [intros; lia|].
    intros l j m Hl Hj Hm. rewrite nth_splice by (rewrite mk_length; lia). rewrite mk_length. cbn [Nat.add].
    destruct (Nat.ltb_spec (32 * l + 8 * j + m) 0); [lia|]. destruct (Nat.ltb_spec (32 * l + 8 * j + m) 800); [|lia].
    now rewrite nth_mk by lia.
Qed.

Lemma splice_next (d : list Z) o a b f f' : (o + (a + b) <= length d)%nat ->
  (forall i, (i < b)%nat -> f' i = f (a + i)%nat) ->
  splice (splice d o (mk a f)) (o + a) (mk b f') = splice d o (mk (a + b) f).
Proof.
  intros H E. rewrite mk_add. rewrite (mk_ext b f' (fun i => f (a + i)%nat)) by exact E.
  apply splice_splice_next; rewrite !mk_length; lia.
Qed.

Lemma ExtractBytes_wp inst off len : (inst < 4)%nat -> (off + len <= 200)%nat ->
  traced (fun T => forall g st data a, rep4 g st -> (len <= length data)%nat -> lanes_aligned a off len ->
    wp (ExtractBytes st inst data a off len) T
       (fun d => d = splice data 0 (mk len (fun i => g inst (off + i)%nat)))).
Proof.
  intros Hi Ho.
  pose proof (Nat.div_mod off 8 ltac:(lia)) as D8. pose proof (Nat.mod_upper_bound off 8 ltac:(lia)) as M8.
  eexists. intros g st data a Hs L AL. pose proof Hs as (Ls & R & H). unfold ExtractBytes.
  eapply (proj2_sig (by_bytes_wp off len _ _ _) (list Z)
    (fun cur d => d = splice data 0 (mk cur (fun i => g inst (off + i)%nat)))).
  - intros s Hl Hm ->. set (n := Nat.min (8 - off mod 8) len).
    wstep. eapply wp_conseq; [apply (proj2_sig (bytes_in_lane_wp _ _))|]. intros ? ->. fold n.
    assert (EL : laneIndex inst (off / 8) = (4 * (off / 8) + inst)%nat) by (apply laneIndex_small; lia).
    change (splice data 0 (mk 0 (fun i => g inst (off + i)%nat))) with (splice data 0 []). rewrite splice_nil.
    wstep. eapply wp_conseq; [apply (proj2_sig (memcpy_wp 0 (8 * laneIndex inst (off / 8) + off mod 8) n)); rewrite ?EL; lia|].
    intros ? ->. wstep. split; auto.
    rewrite EL. rewrite firstn_skipn_mk by lia. f_equal. apply mk_ext. intros i Hk.
    replace (8 * (4 * (off / 8) + inst) + off mod 8 + i)%nat with (32 * (off / 8) + 8 * inst + (off mod 8 + i))%nat by lia.
    rewrite H by lia. f_equal. lia.
  - intros lp cur s E Hc Hex ->.
    assert (E' : (8 * ((off + cur) / 8) = off + cur)%nat) by (rewrite <- E, (Nat.mul_comm 8 lp), Nat.div_mul by lia; lia).
    replace lp with ((off + cur) / 8)%nat by lia.
    wstep. eapply wp_conseq; [eapply (proj2_sig (lane_get_wp (laneIndex inst ((off + cur) / 8))) g st ((off + cur) / 8)%nat inst); auto; [apply laneIndex_small|]; lia|].
    intros v [Lv Hv].
    eapply wp_conseq; [apply (proj2_sig (write64_wp cur))|].
    + rewrite splice_length; rewrite ?mk_length; lia.
    + eapply lanes_aligned_cur; eauto.
    + intros ? ->. change cur with (0 + cur)%nat at 2.
      apply splice_next; [lia|]. intros i Hk. rewrite Hv by auto. f_equal. lia.
  - intros lp cur n s E Hc Hn Ecur ->.
    set (c0 := (head_bytes off len + 8 * ((len - head_bytes off len) / 8))%nat) in *.
    replace n with (len - c0)%nat by lia. subst cur.
    assert (E' : (8 * ((off + c0) / 8) = off + c0)%nat) by (rewrite <- E, (Nat.mul_comm 8 lp), Nat.div_mul by lia; lia).
    replace lp with ((off + c0) / 8)%nat by lia.
    assert (EL : laneIndex inst ((off + c0) / 8) = (4 * ((off + c0) / 8) + inst)%nat) by (apply laneIndex_small; lia).
    eapply wp_conseq; [apply (proj2_sig (memcpy_wp c0 (8 * laneIndex inst ((off + c0) / 8)) (len - c0)));
      rewrite ?EL, ?splice_length; rewrite ?mk_length; lia|].
    intros ? ->. rewrite EL. rewrite firstn_skipn_mk by lia.
    replace (mk len (fun i => g inst (off + i)%nat)) with (mk (c0 + (len - c0)) (fun i => g inst (off + i)%nat)) by (f_equal; lia).
    change c0 with (0 + c0)%nat at 3. apply splice_next; [lia|].
    intros i Hk. replace (8 * (4 * ((off + c0) / 8) + inst) + i)%nat with (32 * ((off + c0) / 8) + 8 * inst + i)%nat by lia.
    rewrite H by lia. f_equal. lia.
  - change (splice data 0 (mk 0 (fun i => g inst (off + i)%nat))) with (splice data 0 []). now rewrite splice_nil.
Qed.

(** Output written in front of, or away from, the input *)
Definition flows (io oo len : nat) : Prop := (oo <= io)%nat \/ (io + len <= oo)%nat.

Lemma xor_out_wp io oo n :
  traced (fun T => forall m lane g, (io + n <= length m)%nat -> (oo + n <= length m)%nat -> flows io oo n -> bytes m ->
    (n <= 8)%nat ->
    (forall i, (i < n)%nat -> lbyte lane i = g i) ->
    wp (xor_out m io oo n lane) T (fun '(m', _) => m' = splice m oo (mk n (fun i => Z.lxor (nth (io + i) m 0) (g i))))).
Proof.
  eexists. intros m lane g Li Lo F B Hn Hg. unfold xor_out.
  eapply (wp_for _ (fun i '(m', l) => m' = splice m oo (mk i (fun i => Z.lxor (nth (io + i) m 0) (g i))) /\
    l = Z.shiftr lane (Z.of_nat (8 * i)))).
  - split; [symmetry; apply splice_nil|]. now rewrite Z.shiftr_0_r.
  - intros i [m' l] Hk [-> ->].
    wstep. wstep; [rewrite splice_length; rewrite ?mk_length; lia|].
    wstep. wstep; [rewrite splice_length; rewrite ?mk_length; lia|].
    wstep. wstep; [lia|]. wstep. split.
    + change (u8 (Z.shiftr lane (Z.of_nat (8 * i)))) with (lbyte lane i).
      rewrite nth_splice by (rewrite mk_length; lia). rewrite mk_length.
      replace (if (io + i <? oo)%nat then nth (io + i) m 0 else
               if (io + i <? oo + i)%nat then _ else nth (io + i) m 0) with (nth (io + i) m 0).
      2:{ destruct (Nat.ltb_spec (io + i) oo); auto. destruct (Nat.ltb_spec (io + i) (oo + i)); auto.
          destruct F; lia. }
      rewrite u8_small. 2:{ apply lxor_byte; [now apply bytes_nth0|apply lbyte_range]. }
      rewrite mk_S. rewrite splice_snoc by (rewrite ?mk_length; lia). rewrite Hg by lia. reflexivity.
    + rewrite Z.shiftr_shiftr by lia. f_equal. lia.
  - intros [m' l] [-> _]. reflexivity.
Qed.

Lemma lbyte_shiftr v o i : lbyte (Z.shiftr v (Z.of_nat (8 * o))) i = lbyte v (o + i).
Proof. unfold lbyte. rewrite Z.shiftr_shiftr by lia. do 2 f_equal. lia. Qed.

Lemma bytes_splice_xor m oo n io g : bytes m -> (forall i, 0 <= g i <= 255) ->
  bytes (splice m oo (mk n (fun i => Z.lxor (nth (io + i) m 0) (g i)))).
Proof.
  intros B G. apply bnd_splice; auto. apply bnd_mk. intros. apply lxor_byte; auto. now apply bytes_nth0.
Qed.

(** What is read back from behind the progress of the output *)
Lemma flows_nth m oo io len cur (f : nat -> Z) i : flows io oo len -> (oo + len <= length m)%nat -> (cur <= i < len)%nat ->
  nth (io + i) (splice m oo (mk cur f)) 0 = nth (io + i) m 0.
Proof.
  intros F L Hi. rewrite nth_splice by (rewrite mk_length; lia). rewrite mk_length.
  destruct (Nat.ltb_spec (io + i) oo); auto. destruct (Nat.ltb_spec (io + i) (oo + cur)); auto. destruct F; lia.
Qed.

Lemma ExtractAndAddBytes_wp inst io oo off len : (inst < 4)%nat -> (off + len <= 200)%nat -> flows io oo len ->
  traced (fun T => forall g st m a, rep4 g st -> bytes m -> (io + len <= length m)%nat -> (oo + len <= length m)%nat ->
    lanes_aligned (a + Z.of_nat io) off len -> lanes_aligned (a + Z.of_nat oo) off len ->
    wp (ExtractAndAddBytes st inst m a io oo off len) T
       (fun m' => m' = splice m oo (mk len (fun i => Z.lxor (nth (io + i) m 0) (g inst (off + i)%nat))))).
Proof.
  intros Hi Ho Fl.
  pose proof (Nat.div_mod off 8 ltac:(lia)) as D8. pose proof (Nat.mod_upper_bound off 8 ltac:(lia)) as M8.
  eexists. intros g st m a Hs B L1 L2 A1 A2. pose proof Hs as (Ls & R & H). unfold ExtractAndAddBytes.
  eapply (proj2_sig (by_bytes_wp off len _ _ _) (list Z)
    (fun cur m' => m' = splice m oo (mk cur (fun i => Z.lxor (nth (io + i) m 0) (g inst (off + i)%nat))))).
  - intros s Hl Hm ->. set (n := Nat.min (8 - off mod 8) len).
    wstep. eapply wp_conseq; [eapply (proj2_sig (lane_get_wp (laneIndex inst (off / 8))) g st (off / 8)%nat inst); auto; [apply laneIndex_small|]; lia|].
    intros v [Lv Hv]. wstep. wstep; [lia|].
    wstep. eapply wp_conseq; [apply (proj2_sig (bytes_in_lane_wp _ _))|]. intros ? ->. fold n.
    change (splice m oo (mk 0 _)) with (splice m oo []). rewrite splice_nil.
    wstep. eapply wp_conseq; [eapply (proj2_sig (xor_out_wp io oo n) m _ (fun i => g inst (off + i)%nat))|].
    + lia.
    + lia.
    + destruct Fl; [left|right]; lia.
    + exact B.
    + lia.
    + intros i Hk. rewrite lbyte_shiftr, Hv by lia. f_equal. lia.
    + intros [m' l] ->. wstep. split; auto.
  - intros lp cur s E Hc Hex ->.
    assert (E' : (8 * ((off + cur) / 8) = off + cur)%nat) by (rewrite <- E, (Nat.mul_comm 8 lp), Nat.div_mul by lia; lia).
    replace lp with ((off + cur) / 8)%nat by lia.
    wstep. eapply wp_conseq; [apply (proj2_sig (read64_wp (io + cur)))|].
    + rewrite splice_length; rewrite ?mk_length; lia.
    + apply bytes_splice_xor; auto.
    + replace (a + Z.of_nat (io + cur)) with (a + Z.of_nat io + Z.of_nat cur) by lia. eapply lanes_aligned_cur; eauto.
    + intros x [Lx Hx].
      wstep. eapply wp_conseq; [eapply (proj2_sig (lane_get_wp (laneIndex inst ((off + cur) / 8))) g st ((off + cur) / 8)%nat inst); auto; [apply laneIndex_small|]; lia|].
      intros v [Lv Hv].
      eapply wp_conseq; [apply (proj2_sig (write64_wp (oo + cur)))|].
      * rewrite splice_length; rewrite ?mk_length; lia.
      * replace (a + Z.of_nat (oo + cur)) with (a + Z.of_nat oo + Z.of_nat cur) by lia. eapply lanes_aligned_cur; eauto.
      * intros ? ->. apply splice_next; [lia|]. intros i Hk. rewrite lbyte_lxor, Hv, Hx by auto.
        rewrite <- Nat.add_assoc. rewrite (flows_nth m oo io len) by (auto; lia). do 2 f_equal. lia.
  - intros lp cur n s E Hc Hn Ecur ->.
    set (c0 := (head_bytes off len + 8 * ((len - head_bytes off len) / 8))%nat) in *.
    replace n with (len - c0)%nat by lia. subst cur.
    assert (E' : (8 * ((off + c0) / 8) = off + c0)%nat) by (rewrite <- E, (Nat.mul_comm 8 lp), Nat.div_mul by lia; lia).
    replace lp with ((off + c0) / 8)%nat by lia.
    wstep. eapply wp_conseq; [eapply (proj2_sig (lane_get_wp (laneIndex inst ((off + c0) / 8))) g st ((off + c0) / 8)%nat inst); auto; [apply laneIndex_small|]; lia|].
    intros v [Lv Hv].
    wstep. eapply wp_conseq; [eapply (proj2_sig (xor_out_wp (io + c0) (oo + c0) (len - c0)) _ _ (fun i => g inst (off + c0 + i)%nat))|].
    + rewrite splice_length; rewrite ?mk_length; lia.
    + rewrite splice_length; rewrite ?mk_length; lia.
    + destruct Fl; [left|right]; lia.
    + apply bytes_splice_xor; auto.
    + lia.
    + intros i Hk. rewrite Hv by lia. f_equal. lia.
    + intros [m' l] ->. wstep.
      replace (mk len (fun i => Z.lxor (nth (io + i) m 0) (g inst (off + i)%nat)))
        with (mk (c0 + (len - c0)) (fun i => Z.lxor (nth (io + i) m 0) (g inst (off + i)%nat))) by (f_equal; lia).
      apply splice_next; [lia|]. intros i Hk. rewrite <- Nat.add_assoc.
      rewrite (flows_nth m oo io len) by (auto; lia). do 2 f_equal. lia.
  - change (splice m oo (mk 0 _)) with (splice m oo []). now rewrite splice_nil.
Qed.
