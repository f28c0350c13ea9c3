(** * Bytes, lanes and vectors of the four-way state *)
From Coq Require Import ZArith List Lia Bool.
From Verif Require Import CMonad WP Proof_Base Proof_Bits Model_Fips202 Spec_FIPS202 Proof_Keccak Proof_Sponge
  Model_AvxKeccak Proof_AvxKeccak Model_AvxSnP.
Import ListNotations.
Open Scope Z_scope.

(** Byte m of a lane *)
Definition lbyte (v : Z) (m : nat) : Z := u8 (Z.shiftr v (Z.of_nat (8 * m))).

Lemma lbyte_bit v m t : 0 <= t < 8 -> Z.testbit (lbyte v m) t = Z.testbit v (8 * Z.of_nat m + t).
Proof.
  intros Ht. unfold lbyte, u8, wrapu. rewrite Z.mod_pow2_bits_low by lia. rewrite Z.shiftr_spec by lia.
  f_equal. lia.
Qed.
Lemma lbyte_range v m : 0 <= lbyte v m <= 255.
Proof. apply u8_range. Qed.

Lemma lbyte_lxor a b m : lbyte (Z.lxor a b) m = Z.lxor (lbyte a m) (lbyte b m).
Proof.
  pose proof (lbyte_range a m). pose proof (lbyte_range b m).
  apply Z.bits_inj_iff'. intros t Ht. rewrite Z.lxor_spec.
  destruct (Z.ltb_spec t 8).
  - rewrite !lbyte_bit, Z.lxor_spec by lia. reflexivity.
  - rewrite !(testbit_high _ 8) by (try apply u8_range; pose proof (lbyte_range (Z.lxor a b) m); lia). reflexivity.
Qed.

Lemma lbyte_ext a b : lane a -> lane b -> (forall m, (m < 8)%nat -> lbyte a m = lbyte b m) -> a = b.
Proof.
  intros Ha Hb H. apply Z.bits_inj_iff'. intros t Ht.
  destruct (Z.ltb_spec t 64); [|now rewrite !lane_high].
  assert (Et : t = 8 * Z.of_nat (Z.to_nat (t / 8)) + t mod 8).
  { rewrite Z2Nat.id by (apply Z.div_pos; lia). apply Z.div_mod. lia. }
  pose proof (Z.mod_pos_bound t 8 ltac:(lia)).
  assert (Hm : (Z.to_nat (t / 8) < 8)%nat).
  { assert (t / 8 < 8) by (apply Z.div_lt_upper_bound; lia). lia. }
  rewrite Et, <- !lbyte_bit by lia. now rewrite H.
Qed.

Lemma lbyte_0 m : lbyte 0 m = 0.
Proof. unfold lbyte. now rewrite Z.shiftr_0_l. Qed.

Lemma load64_bytes xo :
  traced (fun T => forall x, (xo + 8 <= length x)%nat -> bytes x ->
    wp (load64 x xo) T (fun v => lane v /\ forall m, (m < 8)%nat -> lbyte v m = nth (xo + m) x 0)).
Proof.
  destruct (load64_wp xo) as [T W]. exists T. intros x Hx Hb.
  eapply wp_conseq; [apply W; auto|]. intros v [Lv Hv]. split; auto. intros m Hm.
  pose proof (lbyte_range v m) as R. pose proof (Hb (xo + m)%nat ltac:(lia)) as B.
  apply (bits_ext 8); try (change (2 ^ Z.of_nat 8) with 256; lia).
  intros t Ht. rewrite lbyte_bit by lia.
  replace (8 * Z.of_nat m + Z.of_nat t) with (Z.of_nat (8 * m + t)) by lia. rewrite Hv by lia.
  unfold mbit. replace (8 * xo + (8 * m + t))%nat with (t + (xo + m) * 8)%nat by lia.
  rewrite Nat.div_add, Nat.mod_add by lia. rewrite Nat.div_small, Nat.mod_small by lia. reflexivity.
Qed.

Lemma store64_bytes xo :
  traced (fun T => forall x v, (xo + 8 <= length x)%nat ->
    wp (store64 x xo v) T (fun x' => x' = splice x xo (mk 8 (lbyte v)))).
Proof.
  eexists. intros x v Hx. unfold store64.
  eapply (wp_for _ (fun i x' => x' = splice x xo (mk i (lbyte v)))).
  - symmetry; apply splice_nil.
  - intros i x1 Hi ->. wstep. wstep; [lia|]. wstep.
    { rewrite splice_length; rewrite ?mk_length; lia. }
    rewrite mk_S. rewrite splice_snoc by (rewrite ?mk_length; lia). reflexivity.
  - intros x' ->. reflexivity.
Qed.

(** ** The state as four byte arrays *)
Definition rep4 (g : nat -> nat -> Z) (st : list Z) : Prop :=
  length st = 800%nat /\ (forall j b, 0 <= g j b <= 255) /\
  forall l j m, (l < 25)%nat -> (j < 4)%nat -> (m < 8)%nat -> nth (32 * l + 8 * j + m) st 0 = g j (8 * l + m)%nat.

Lemma pos_split p : (p < 800)%nat -> exists l j m, (l < 25)%nat /\ (j < 4)%nat /\ (m < 8)%nat /\ p = (32 * l + 8 * j + m)%nat.
Proof.
  intros Hp. exists (p / 32)%nat, ((p mod 32) / 8)%nat, ((p mod 32) mod 8)%nat.
  pose proof (Nat.div_mod p 32 ltac:(lia)). pose proof (Nat.mod_upper_bound p 32 ltac:(lia)).
  pose proof (Nat.div_mod (p mod 32) 8 ltac:(lia)). pose proof (Nat.mod_upper_bound (p mod 32) 8 ltac:(lia)). lia.
Qed.

Lemma rep4_bytes g st : rep4 g st -> bytes st.
Proof.
  intros (L & R & H) p Hp. rewrite L in Hp. destruct (pos_split p Hp) as (l & j & m & Hl & Hj & Hm & ->).
  rewrite H by auto. apply R.
Qed.

Lemma rep4_ext g g' st : (forall j b, 0 <= g' j b <= 255) ->
  (forall j b, (j < 4)%nat -> (b < 200)%nat -> g j b = g' j b) -> rep4 g st -> rep4 g' st.
Proof. intros R' E (L & R & H). split; [exact L|]. split; [exact R'|]. intros. rewrite H by auto. apply E; lia. Qed.

(** The bytes of instance j from o on, n of them, become f *)
Definition put (g : nat -> nat -> Z) (j0 lo hi : nat) (f : nat -> Z) : nat -> nat -> Z :=
  fun j b => if ((j =? j0) && (lo <=? b) && (b <? hi))%nat then f b else g j b.

Lemma put_range g j0 lo hi f : (forall j b, 0 <= g j b <= 255) -> (forall b, (lo <= b < hi)%nat -> 0 <= f b <= 255) ->
  forall j b, 0 <= put g j0 lo hi f j b <= 255.
Proof.
  intros R F j b. unfold put. destruct (j =? j0)%nat; cbn [andb]; auto.
  destruct (Nat.leb_spec lo b), (Nat.ltb_spec b hi); cbn [andb]; auto.
Qed.

(** Bytes written inside lane l of instance j *)
Lemma rep4_splice g st l j lo n (f : nat -> Z) :
  rep4 g st -> (l < 25)%nat -> (j < 4)%nat -> (lo + n <= 8)%nat -> (forall m, (m < n)%nat -> 0 <= f m <= 255) ->
  rep4 (put g j (8 * l + lo) (8 * l + lo + n) (fun b => f (b - (8 * l + lo))%nat))
       (splice st (32 * l + 8 * j + lo) (mk n f)).
Proof.
  intros (L & R & H) Hl Hj Hn Hf.
  split; [rewrite splice_length; rewrite ?mk_length; lia|]. split.
  - apply put_range; auto. intros b Hb. apply Hf. lia.
  - intros l' j' m Hl' Hj' Hm. rewrite nth_splice by (rewrite mk_length; lia). rewrite mk_length. unfold put.
    destruct (Nat.eqb_spec j' j) as [->|Nj]; cbn [andb].
    + destruct (Nat.eqb_spec l' l) as [->|Nl].
      * destruct (Nat.ltb_spec (32 * l + 8 * j + m) (32 * l + 8 * j + lo));
        destruct (Nat.leb_spec (8 * l + lo) (8 * l + m)); try lia; cbn [andb].
        -- now apply H.
        -- destruct (Nat.ltb_spec (32 * l + 8 * j + m) (32 * l + 8 * j + lo + n));
           destruct (Nat.ltb_spec (8 * l + m) (8 * l + lo + n)); try lia.
           ++ rewrite nth_mk by lia. f_equal. lia.
           ++ now apply H.
      * rewrite <- (H l' j m) by auto.
        destruct (Nat.leb_spec (8 * l + lo) (8 * l' + m)); destruct (Nat.ltb_spec (8 * l' + m) (8 * l + lo + n));
        destruct (Nat.ltb_spec (32 * l' + 8 * j + m) (32 * l + 8 * j + lo));
        destruct (Nat.ltb_spec (32 * l' + 8 * j + m) (32 * l + 8 * j + lo + n)); try lia; reflexivity.
    + rewrite <- (H l' j' m) by auto.
      destruct (Nat.ltb_spec (32 * l' + 8 * j' + m) (32 * l + 8 * j + lo));
      destruct (Nat.ltb_spec (32 * l' + 8 * j' + m) (32 * l + 8 * j + lo + n)); try lia; reflexivity.
Qed.

(** ** Lane accesses *)
Lemma u32_nat z : 0 <= z < 2 ^ 32 -> Z.to_nat (u32 z) = Z.to_nat z.
Proof. intros. now rewrite u32_small. Qed.
Lemma umul_small a b : Z.of_nat a * Z.of_nat b < 2 ^ 32 -> umul a b = (a * b)%nat.
Proof. intros. unfold umul. rewrite u32_nat by lia. lia. Qed.
Lemma uadd_small a b : Z.of_nat a + Z.of_nat b < 2 ^ 32 -> uadd a b = (a + b)%nat.
Proof. intros. unfold uadd. rewrite u32_nat by lia. lia. Qed.
Lemma laneIndex_small j l : (l < 25)%nat -> (j < 4)%nat -> laneIndex j l = (4 * l + j)%nat.
Proof.
  intros Hl Hj. unfold laneIndex. rewrite umul_small by lia. rewrite uadd_small by lia. lia.
Qed.

Lemma lane_get_wp i :
  traced (fun T => forall g st l j, i = (4 * l + j)%nat -> rep4 g st -> (l < 25)%nat -> (j < 4)%nat ->
    wp (lane_get st i) T (fun v => lane v /\ forall m, (m < 8)%nat -> lbyte v m = g j (8 * l + m)%nat)).
Proof.
  destruct (load64_bytes (8 * i)) as [T W]. exists T. intros g st l j -> Hs Hl Hj. unfold lane_get.
  pose proof Hs as (L & R & H).
  eapply wp_conseq; [apply W; [lia|eapply rep4_bytes; eauto]|].
  intros v [Lv Hv]. split; auto. intros m Hm. rewrite Hv by auto.
  replace (8 * (4 * l + j) + m)%nat with (32 * l + 8 * j + m)%nat by lia. auto.
Qed.

Lemma lane_set_wp i :
  traced (fun T => forall g st l j v, i = (4 * l + j)%nat -> rep4 g st -> (l < 25)%nat -> (j < 4)%nat ->
    wp (lane_set st i v) T (rep4 (put g j (8 * l) (8 * l + 8) (fun b => lbyte v (b - 8 * l))))).
Proof.
  destruct (store64_bytes (8 * i)) as [T W]. exists T. intros g st l j v -> Hs Hl Hj. unfold lane_set.
  pose proof Hs as (L & R & H).
  eapply wp_conseq; [apply W; lia|]. intros x ->.
  pose proof (rep4_splice g st l j 0 8 (lbyte v) Hs Hl Hj ltac:(lia) (fun m _ => lbyte_range v m)) as E.
  rewrite !Nat.add_0_r in E. replace (8 * (4 * l + j))%nat with (32 * l + 8 * j)%nat by lia. exact E.
Qed.

Lemma put_put_same g j lo hi f : forall j' b, put (put g j lo hi f) j lo hi (fun b => f b) j' b = put g j lo hi f j' b.
Proof. intros. unfold put. destruct (_ && _ && _)%bool; reflexivity. Qed.

Lemma lxor_byte a b : 0 <= a <= 255 -> 0 <= b <= 255 -> 0 <= Z.lxor a b <= 255.
Proof.
  intros Ha Hb. split; [apply Z.lxor_nonneg; lia|].
  destruct (Z.eq_dec (Z.lxor a b) 0); [lia|].
  assert (0 <= Z.lxor a b) by (apply Z.lxor_nonneg; lia).
  assert (Z.log2 (Z.lxor a b) < 8).
  { eapply Z.le_lt_trans; [apply Z.log2_lxor; lia|].
    apply Z.max_lub_lt; [destruct (Z.eq_dec a 0); [subst; reflexivity|apply Z.log2_lt_pow2; lia]|
                         destruct (Z.eq_dec b 0); [subst; reflexivity|apply Z.log2_lt_pow2; lia]]. }
  assert (Z.lxor a b < 2 ^ 8) by (apply Z.log2_lt_pow2; lia). lia.
Qed.

Lemma lane_xor_wp i :
  traced (fun T => forall g st l j v, i = (4 * l + j)%nat -> rep4 g st -> (l < 25)%nat -> (j < 4)%nat ->
    wp (lane_xor st i v) T (rep4 (put g j (8 * l) (8 * l + 8) (fun b => Z.lxor (g j b) (lbyte v (b - 8 * l)))))).
Proof.
  eexists. intros g st l j v E Hs Hl Hj. unfold lane_xor. wstep.
  eapply wp_conseq; [apply (proj2_sig (lane_get_wp i) g st l j); auto|]. intros x [Lx Hx].
  eapply wp_conseq; [apply (proj2_sig (lane_set_wp i) g st l j); auto|]. intros st' H.
  pose proof Hs as (_ & R & _).
  eapply rep4_ext; [| |exact H].
  - apply put_range; auto. intros b Hb. apply lxor_byte; auto. apply lbyte_range.
  - intros j' b Hj' Hb. unfold put. destruct (Nat.eqb_spec j' j); cbn [andb]; auto.
    destruct (Nat.leb_spec (8 * l) b), (Nat.ltb_spec b (8 * l + 8)); cbn [andb]; auto.
    rewrite lbyte_lxor, Hx by lia. do 2 f_equal. lia.
Qed.

(** ** Vector accesses *)
Lemma vload_wp off :
  traced (fun T => forall b, (off + 32 <= length b)%nat -> bytes b ->
    wp (vload b off) T (fun v => vec4 v /\ forall k m, (k < 4)%nat -> (m < 8)%nat ->
       lbyte (nth k v 0) m = nth (off + 8 * k + m) b 0)).
Proof.
  eexists. intros b Hb B. unfold vload.
  wstep. eapply wp_conseq; [apply (proj2_sig (load64_bytes off)); auto; lia|]. intros x0 [L0 H0].
  wstep. eapply wp_conseq; [apply (proj2_sig (load64_bytes (off + 8))); auto; lia|]. intros x1 [L1 H1].
  wstep. eapply wp_conseq; [apply (proj2_sig (load64_bytes (off + 16))); auto; lia|]. intros x2 [L2 H2].
  wstep. eapply wp_conseq; [apply (proj2_sig (load64_bytes (off + 24))); auto; lia|]. intros x3 [L3 H3].
  wstep. split.
  - split; [reflexivity|]. intros j. do 4 (destruct j as [|j]; [assumption|]). cbn [nth]. destruct j; apply lane_0.
  - intros k m Hk Hm. do 4 (destruct k as [|k]; [cbn [nth]; rewrite ?H0, ?H1, ?H2, ?H3 by auto; f_equal; lia|]). lia.
Qed.

Lemma vec_get_wp i :
  traced (fun T => forall g st, rep4 g st -> (i < 25)%nat ->
    wp (vec_get st i) T (fun v => vec4 v /\ forall j m, (j < 4)%nat -> (m < 8)%nat ->
       lbyte (nth j v 0) m = g j (8 * i + m)%nat)).
Proof.
  destruct (vload_wp (32 * i)) as [T W]. exists T. intros g st Hs Hi. unfold vec_get.
  pose proof Hs as (L & R & H).
  eapply wp_conseq; [apply W; [lia|eapply rep4_bytes; eauto]|].
  intros v [V Hv]. split; auto. intros j m Hj Hm. rewrite Hv by auto. auto.
Qed.

(** Lane l of all instances *)
Definition put4 (g : nat -> nat -> Z) (l : nat) (f : nat -> nat -> Z) : nat -> nat -> Z :=
  fun j b => if ((8 * l <=? b) && (b <? 8 * l + 8))%nat then f j (b - 8 * l)%nat else g j b.

Lemma put4_range g l f : (forall j b, 0 <= g j b <= 255) -> (forall j b, 0 <= f j b <= 255) ->
  forall j b, 0 <= put4 g l f j b <= 255.
Proof. intros R F j b. unfold put4. destruct (_ && _)%bool; auto. Qed.

Lemma vec_set_wp i :
  traced (fun T => forall g st v, rep4 g st -> (i < 25)%nat ->
    wp (vec_set st i v) T (rep4 (put4 g i (fun j m => lbyte (nth j v 0) m)))).
Proof.
  eexists. intros g st v Hs Hi. unfold vec_set, vstore.
  pose proof Hs as (L & R & _).
  assert (P : forall g st j v, rep4 g st -> (j < 4)%nat -> rep4 (put g j (8 * i) (8 * i + 8) (fun b => lbyte v (b - 8 * i)))
     (splice st (32 * i + 8 * j) (mk 8 (lbyte v)))).
  { intros g' st' j' v' Hs' Hj'. pose proof (rep4_splice g' st' i j' 0 8 (lbyte v') Hs' Hi Hj' ltac:(lia) (fun m _ => lbyte_range v' m)) as E.
    rewrite !Nat.add_0_r in E. exact E. }
  wstep. eapply wp_conseq; [apply (proj2_sig (store64_bytes (32 * i))); lia|]. intros ? ->.
  pose proof (P g st 0%nat (nth 0 v 0) Hs ltac:(lia)) as P0. rewrite Nat.mul_0_r, Nat.add_0_r in P0.
  set (s0 := splice st (32 * i) _) in *. clearbody s0. pose proof P0 as (L0 & _).
  wstep. eapply wp_conseq; [apply (proj2_sig (store64_bytes (32 * i + 8))); lia|]. intros ? ->.
  pose proof (P _ s0 1%nat (nth 1 v 0) P0 ltac:(lia)) as P1. change (8 * 1)%nat with 8%nat in P1.
  set (s1 := splice s0 (32 * i + 8) _) in *. clearbody s1. pose proof P1 as (L1 & _).
  wstep. eapply wp_conseq; [apply (proj2_sig (store64_bytes (32 * i + 16))); lia|]. intros ? ->.
  pose proof (P _ s1 2%nat (nth 2 v 0) P1 ltac:(lia)) as P2. change (8 * 2)%nat with 16%nat in P2.
  set (s2 := splice s1 (32 * i + 16) _) in *. clearbody s2. pose proof P2 as (L2 & _).
  eapply wp_conseq; [apply (proj2_sig (store64_bytes (32 * i + 24))); lia|]. intros ? ->.
  pose proof (P _ s2 3%nat (nth 3 v 0) P2 ltac:(lia)) as P3. change (8 * 3)%nat with 24%nat in P3.
  eapply rep4_ext; [| |exact P3].
  - apply put4_range; auto. intros. apply lbyte_range.
  - intros j b Hj Hb. unfold put, put4.
    destruct (Nat.leb_spec (8 * i) b), (Nat.ltb_spec b (8 * i + 8)); cbn [andb]; rewrite ?andb_false_r; auto.
    do 4 (destruct j as [|j]; [reflexivity|]). lia.
Qed.

Lemma nth_v_xor a b j : (j < 4)%nat -> nth j (v_xor a b) 0 = Z.lxor (nth j a 0) (nth j b 0).
Proof. intros. unfold v_xor. rewrite v_map2_mk. now rewrite nth_mk. Qed.
Lemma vec4_v_xor a b : vec4 a -> vec4 b -> vec4 (v_xor a b).
Proof. intros [_ A] [_ B]. unfold v_xor. rewrite v_map2_mk. apply vec4_mk. intros. now apply lane_lxor. Qed.

Lemma vec_xor_wp i :
  traced (fun T => forall g st v, rep4 g st -> (i < 25)%nat ->
    wp (vec_xor st i v) T (rep4 (put4 g i (fun j m => Z.lxor (g j (8 * i + m)%nat) (lbyte (nth j v 0) m))))).
Proof.
  eexists. intros g st v Hs Hi. unfold vec_xor. wstep.
  eapply wp_conseq; [apply (proj2_sig (vec_get_wp i) g st); auto|]. intros x [Vx Hx].
  eapply wp_conseq; [apply (proj2_sig (vec_set_wp i) g st); auto|]. intros st' H.
  pose proof Hs as (_ & R & _).
  eapply rep4_ext; [| |exact H].
  - apply put4_range; auto. intros. apply lxor_byte; auto. apply lbyte_range.
  - intros j b Hj Hb. unfold put4.
    destruct (Nat.leb_spec (8 * i) b), (Nat.ltb_spec b (8 * i + 8)); cbn [andb]; auto.
    rewrite nth_v_xor, lbyte_lxor, Hx by lia. reflexivity.
Qed.

(** ** Transposition *)
Lemma INTLEAVE_eq l0 l1 l2 l3 :
  INTLEAVE (l0, l1, l2, l3) =
  ([nth 0 l0 0; nth 0 l1 0; nth 0 l2 0; nth 0 l3 0], [nth 1 l0 0; nth 1 l1 0; nth 1 l2 0; nth 1 l3 0],
   [nth 2 l0 0; nth 2 l1 0; nth 2 l2 0; nth 2 l3 0], [nth 3 l0 0; nth 3 l1 0; nth 3 l2 0; nth 3 l3 0]).
Proof. reflexivity. Qed.
Lemma UNINTLEAVE_eq l0 l1 l2 l3 :
  UNINTLEAVE (l0, l1, l2, l3) =
  ([nth 0 l0 0; nth 0 l1 0; nth 0 l2 0; nth 0 l3 0], [nth 1 l0 0; nth 1 l1 0; nth 1 l2 0; nth 1 l3 0],
   [nth 2 l0 0; nth 2 l1 0; nth 2 l2 0; nth 2 l3 0], [nth 3 l0 0; nth 3 l1 0; nth 3 l2 0; nth 3 l3 0]).
Proof. reflexivity. Qed.

(** ** Caller's buffers *)
Lemma aligned8_wp a off (Q : unit -> Prop) : (a + Z.of_nat off) mod 8 = 0 -> Q tt -> wp (aligned8 a off) [] Q.
Proof. intros H HQ. unfold aligned8. rewrite H, Z.eqb_refl. now apply wp_ret. Qed.

Lemma read64_wp off :
  traced (fun T => forall x a, (off + 8 <= length x)%nat -> bytes x -> (a + Z.of_nat off) mod 8 = 0 ->
    wp (read64 x a off) T (fun v => lane v /\ forall m, (m < 8)%nat -> lbyte v m = nth (off + m) x 0)).
Proof.
  eexists. intros x a Hx B Ha. unfold read64. wstep. apply aligned8_wp; auto.
  apply (proj2_sig (load64_bytes off)); auto.
Qed.
Lemma write64_wp off :
  traced (fun T => forall x a v, (off + 8 <= length x)%nat -> (a + Z.of_nat off) mod 8 = 0 ->
    wp (write64 x a off v) T (fun x' => x' = splice x off (mk 8 (lbyte v)))).
Proof.
  eexists. intros x a v Hx Ha. unfold write64. wstep. apply aligned8_wp; auto.
  apply (proj2_sig (store64_bytes off)); auto.
Qed.
Lemma pointer_wp b off (Q : nat -> Prop) : (off <= length b)%nat -> Q off -> wp (pointer b off) [] Q.
Proof. intros H HQ. unfold pointer. destruct (Nat.leb_spec off (length b)); [|lia]. now apply wp_ret. Qed.
