(** * Proofs about the arithmetic of polyvec.c *)
From Coq Require Import ZArith List Lia Bool.
From Verif Require Import CMonad WP Proof_Base Modq Sums Model_Params Model_Reduce Model_NTT Model_Poly
  Model_Polyvec Proof_Reduce Proof_NTT Proof_NTTSpec Proof_RingMul Proof_Poly Spec_FIPS203.
Import ListNotations.
Open Scope Z_scope.

(** A vector of [K] polynomials with coefficients in [lo, hi] *)
Definition vbnd (K : nat) (lo hi : Z) (v : polyvec) : Prop :=
  length v = K /\ forall i, (i < K)%nat -> length (nth i v []) = 256%nat /\ bnd lo hi (nth i v []).
(** Componentwise relation between a vector and the result of an operation *)
Definition vrel (K : nat) (R : nat -> list Z -> Prop) (v : polyvec) : Prop :=
  forall i, (i < K)%nat -> R i (nth i v []).

Lemma vbnd_weaken K lo hi lo' hi' v : lo' <= lo -> hi <= hi' -> vbnd K lo hi v -> vbnd K lo' hi' v.
Proof.
  intros H1 H2 (Hl & H). split; auto. intros i Hi. destruct (H i Hi). split; auto.
  eapply bnd_weaken; eauto.
Qed.

(** Loops of the shape  for i: f(&r->vec[i]) *)
Lemma wp_vec K (tb : nat -> trace) (R : nat -> list Z -> list Z -> Prop) f (r : polyvec) :
  length r = K ->
  (forall i, (i < K)%nat -> wp (f i (nth i r [])) (tb i) (R i (nth i r []))) ->
  wp (for_ K 0 (fun i r => bind (aget r i) (fun ri => bind (f i ri) (fun ri' => aset r i ri'))) r)
     (for_trace (fun i => [EvIndex i] ++ tb i ++ [EvIndex i]) 0 K)
     (fun r' => length r' = K /\ forall i, (i < K)%nat -> R i (nth i r []) (nth i r' [])).
Proof.
  intros Hl Hf. apply wp_pointwise_gen; auto.
  intros i r1 Hi Hl1 E. wstep. wstep; [lia|]. wstep. rewrite E.
  eapply wp_conseq; [apply Hf; auto|]. intros v Hv. wstep; [lia|]. eauto.
Qed.

Lemma wp_vec_done {K T} {P : nat -> list Z -> list Z -> Prop} {m : res polyvec} {r} lo hi (R : nat -> list Z -> Prop) :
  wp m T (fun r' => length r' = K /\ forall i, (i < K)%nat -> P i (nth i r []) (nth i r' [])) ->
  (forall i x, (i < K)%nat -> P i (nth i r []) x -> length x = 256%nat /\ bnd lo hi x /\ R i x) ->
  wp m T (fun r' => vbnd K lo hi r' /\ vrel K R r').
Proof.
  intros H H1. eapply wp_conseq; [exact H|]. intros r' (Hl & Hr). split.
  - split; auto. intros i Hi. destruct (H1 i _ Hi (Hr i Hi)) as (? & ? & ?). auto.
  - intros i Hi. apply (H1 i _ Hi (Hr i Hi)).
Qed.

Lemma polyvec_ntt_wp lv :
  traced (fun T => forall r, vbnd (KYBER_K lv) (-9471) 9471 r ->
    wp (polyvec_ntt lv r) T (fun r' => vbnd (KYBER_K lv) (-1664) 1664 r' /\
      vrel (KYBER_K lv) (fun i x => lcong x (NTT (nth i r []))) r')).
Proof.
  eexists. intros r (Hl & Hr). unfold polyvec_ntt.
  set (P := fun (i : nat) (x y : list Z) => length y = 256%nat /\ babs 1664 y /\ lcong y (NTT x)).
  eapply (wp_vec_done (P := P)); [apply (wp_vec _ (fun _ => proj1_sig poly_ntt_wp) P (fun _ => poly_ntt)); auto|].
  - intros i Hi. destruct (Hr i Hi). apply (proj2_sig poly_ntt_wp); auto.
  - auto.
Qed.

Lemma polyvec_invntt_tomont_wp lv :
  traced (fun T => forall r, vbnd (KYBER_K lv) (-16383) 16383 r ->
    wp (polyvec_invntt_tomont lv r) T (fun r' => vbnd (KYBER_K lv) (-3328) 3328 r' /\
      vrel (KYBER_K lv) (fun i x => lcong x (scale 65536 (NTTinv (nth i r [])))) r')).
Proof.
  eexists. intros r (Hl & Hr). unfold polyvec_invntt_tomont.
  set (P := fun (i : nat) (x y : list Z) => length y = 256%nat /\ babs 3328 y /\ lcong y (scale 65536 (NTTinv x))).
  eapply (wp_vec_done (P := P)); [apply (wp_vec _ (fun _ => proj1_sig poly_invntt_tomont_wp) P (fun _ => poly_invntt_tomont)); auto|].
  - intros i Hi. destruct (Hr i Hi). apply (proj2_sig poly_invntt_tomont_wp); auto.
  - auto.
Qed.

Lemma polyvec_reduce_wp lv :
  traced (fun T => forall r, vbnd (KYBER_K lv) (-32768) 32767 r ->
    wp (polyvec_reduce lv r) T (fun r' => vbnd (KYBER_K lv) (-1664) 1664 r' /\
      vrel (KYBER_K lv) (fun i x => lcong x (nth i r [])) r')).
Proof.
  eexists. intros r (Hl & Hr). unfold polyvec_reduce.
  set (P := fun (i : nat) (x y : list Z) => length y = 256%nat /\ babs 1664 y /\ lcong y x).
  eapply (wp_vec_done (P := P)); [apply (wp_vec _ (fun _ => proj1_sig poly_reduce_wp) P (fun _ => poly_reduce)); auto|].
  - intros i Hi. destruct (Hr i Hi). apply (proj2_sig poly_reduce_wp); auto.
  - auto.
Qed.

(** Sum of two polynomials, coefficientwise over the integers *)
Definition zadd (f g : list Z) : list Z := mk 256 (fun i => nth i f 0 + nth i g 0).
Definition zsub (f g : list Z) : list Z := mk 256 (fun i => nth i f 0 - nth i g 0).

Lemma zadd_bnd l1 h1 l2 h2 f g : length f = 256%nat -> length g = 256%nat ->
  bnd l1 h1 f -> bnd l2 h2 g -> bnd (l1 + l2) (h1 + h2) (zadd f g).
Proof.
  intros Lf Lg Bf Bg. apply bnd_mk. intros i Hi.
  pose proof (Bf i ltac:(lia)). pose proof (Bg i ltac:(lia)). lia.
Qed.

Lemma polyvec_add_wp lv :
  traced (fun T => forall r b B1 B2, vbnd (KYBER_K lv) (-B1) B1 r -> vbnd (KYBER_K lv) (-B2) B2 b ->
    B1 + B2 <= 32767 ->
    wp (polyvec_add lv r VSelf (VOther b)) T (fun r' => vbnd (KYBER_K lv) (-(B1 + B2)) (B1 + B2) r' /\
      vrel (KYBER_K lv) (fun i x => x = zadd (nth i r []) (nth i b [])) r')).
Proof.
  eexists. intros r b B1 B2 (Hl & Hr) (Hlb & Hb) HB. unfold polyvec_add.
  set (P := fun (i : nat) (x y : list Z) => y = zadd x (nth i b [])).
  eapply (wp_vec_done (P := P)).
  - eapply (wp_pointwise_gen (A := list Z) (@nil Z) _ P); auto.
    intros i r1 Hi Hl1 E. cbn [vget]. wstep. wstep; [lia|]. wstep. wstep. wstep; [lia|]. wstep.
    wstep. wstep. wstep; [lia|]. wstep. wstep. rewrite E.
    destruct (Hr i Hi) as [L1 N1]. destruct (Hb i Hi) as [L2 N2].
    eapply wp_conseq.
    { apply (proj2_sig poly_add_wp); simpl; auto.
      intros j Hj. pose proof (N1 j ltac:(lia)). pose proof (N2 j ltac:(lia)). lia. }
    intros v ->. wstep; [lia|]. eexists. split; [reflexivity|]. reflexivity.
  - intros i x Hi ->. destruct (Hr i Hi) as [L1 N1]. destruct (Hb i Hi) as [L2 N2].
    split; [apply mk_length|]. split; auto.
    replace (- (B1 + B2)) with (- B1 + - B2) by lia. apply zadd_bnd; auto.
Qed.

(** ** Inner product *)
Lemma padd_length f g : length (padd f g) = 256%nat. Proof. apply mkpoly_length. Qed.
Lemma psub_length f g : length (psub f g) = 256%nat. Proof. apply mkpoly_length. Qed.
Lemma padd_canon f g : canon (padd f g).
Proof. apply mkpoly_canon. intros. apply mod_q_range. Qed.
Lemma psub_canon f g : canon (psub f g).
Proof. apply mkpoly_canon. intros. apply mod_q_range. Qed.
Lemma ntt_dot_length a b : length (ntt_dot a b) = 256%nat.
Proof. destruct a, b; apply mkpoly_length. Qed.
Lemma ntt_dot_canon a b : canon (ntt_dot a b).
Proof.
  destruct a, b; try (apply mkpoly_canon; intros; split; [apply Z.le_refl|reflexivity]).
  apply padd_canon.
Qed.

Lemma ntt_dot_nth a b j : length a = length b -> (j < 256)%nat ->
  nth j (ntt_dot a b) 0 ≡ sumz (length a) (fun i => nth j (MultiplyNTTs (nth i a []) (nth i b [])) 0).
Proof.
  revert b; induction a as [|f a IH]; intros [|g b] Hl Hj; try discriminate.
  - cbn [ntt_dot length]. rewrite sumz_O. unfold pzero. rewrite nth_mkpoly by auto. reflexivity.
  - cbn [ntt_dot length]. rewrite sumz_first. unfold padd. rewrite nth_mkpoly by auto.
    unfold q. rewrite cong_mod. unfold coef. cbn [nth]. rewrite IH by (simpl in Hl; auto; lia).
    reflexivity.
Qed.

Lemma MultiplyNTTs_cong f f' g g' : lcong f f' -> lcong g g' -> MultiplyNTTs f g = MultiplyNTTs f' g'.
Proof.
  intros Hf Hg. apply map_ext. intros k. unfold coef.
  destruct (Nat.even k); apply mod_cong; rewrite !(lcong_nth f f'), !(lcong_nth g g') by auto; reflexivity.
Qed.

Definition vcong (a b : polyvec) : Prop :=
  length a = length b /\ forall i, (i < length a)%nat -> lcong (nth i a []) (nth i b []).

Lemma ntt_dot_cong a a' b b' : vcong a a' -> vcong b b' -> length a = length b ->
  ntt_dot a b = ntt_dot a' b'.
Proof.
  intros [La Ha] [Lb Hb] L. apply canon_eq; try apply ntt_dot_canon.
  split; [now rewrite !ntt_dot_length|]. intros j Hj. rewrite ntt_dot_length in Hj.
  rewrite !ntt_dot_nth by (auto; congruence). rewrite <- La.
  apply sumz_cong. intros i Hi. rewrite (MultiplyNTTs_cong _ (nth i a' []) _ (nth i b' [])).
  reflexivity. auto. apply Hb. lia.
Qed.

Lemma polyvec_basemul_acc_montgomery_wp lv :
  traced (fun T => forall (JJ : Junk) r a b, length r = 256%nat ->
    vbnd (KYBER_K lv) (-32768) 32767 a -> vbnd (KYBER_K lv) (-3328) 3328 b ->
    wp (polyvec_basemul_acc_montgomery lv r a b) T
       (fun r' => length r' = 256%nat /\ babs 1664 r' /\ lcong r' (scale 169 (ntt_dot a b)))).
Proof.
  eexists. intros JJ r a b Hr (La & Ha) (Lb & Hb). unfold polyvec_basemul_acc_montgomery.
  assert (HK : (2 <= KYBER_K lv <= 4)%nat) by (destruct lv; simpl; lia).
  wstep. wstep; [lia|]. wstep. wstep; [lia|]. wstep.
  destruct (Ha 0%nat ltac:(lia)) as [La0 Ba0]. destruct (Hb 0%nat ltac:(lia)) as [Lb0 Bb0].
  eapply wp_conseq; [apply (proj2_sig poly_basemul_montgomery_wp); auto|].
  intros r0 (Hl0 & Hb0 & Hc0). wstep.
  eapply (wp_for _ (fun i s => length (fst s) = 256%nat /\ length (snd s) = 256%nat /\
     babs (6656 * Z.of_nat i) (fst s) /\
     forall j, (j < 256)%nat -> nth j (fst s) 0 ≡
        169 * sumz i (fun i => nth j (MultiplyNTTs (nth i a []) (nth i b [])) 0))).
  - cbn [fst snd]. split; auto. split; [apply local_length|]. split; [exact Hb0|].
    intros j Hj. rewrite sumz_S, sumz_O. rewrite (lcong_nth _ _ j Hc0), nth_scale by auto.
    reflexivity.
  - intros i [r1 t1] Hi (Hl1 & Hl2 & B1 & C1). cbn [fst snd] in *.
    destruct (Ha i ltac:(lia)) as [Lai Bai]. destruct (Hb i ltac:(lia)) as [Lbi Bbi].
    wstep. wstep; [lia|]. wstep. wstep; [lia|]. wstep.
    eapply wp_conseq; [apply (proj2_sig poly_basemul_montgomery_wp); auto|].
    intros t (Hlt & Hbt & Hct). wstep.
    eapply wp_conseq.
    { apply (proj2_sig poly_add_wp); simpl; auto.
      intros j Hj. pose proof (B1 j ltac:(lia)). pose proof (Hbt j ltac:(lia)). lia. }
    intros r2 ->. wstep. cbn [fst snd]. split; [apply mk_length|]. split; auto. split.
    + apply bnd_mk. intros j Hj. simpl.
      pose proof (B1 j ltac:(lia)). pose proof (Hbt j ltac:(lia)). lia.
    + intros j Hj. rewrite nth_mk by auto. cbn [oval]. rewrite C1 by auto.
      rewrite (lcong_nth _ _ j Hct), nth_scale by auto. rewrite sumz_S. apply cong_eq.
      rewrite Z.mul_add_distr_l. reflexivity.
  - intros s (Hl1 & _ & B1 & C1). replace (1 + (KYBER_K lv - 1))%nat with (KYBER_K lv) in * by lia.
    eapply wp_conseq.
    { apply (proj2_sig poly_reduce_wp); auto. eapply babs_int16s; [|eauto]. lia. }
    intros r' (Hl' & Hb' & Hc'). split; auto. split; auto.
    split; [now rewrite scale_length|]. intros j Hj.
    rewrite (lcong_nth _ _ j Hc'), nth_scale by lia. rewrite C1 by lia.
    rewrite ntt_dot_nth by (auto; try congruence; lia). rewrite La. reflexivity.
Qed.
