(** * Counting the inputs of the rejection sampler *)
From Coq Require Import ZArith List Lia Bool.
From Verif Require Import CMonad WP Levels Model_Params Model_Indcpa Model_AvxRej Spec_FIPS203 Vocab Vocab_Rng Vocab_Dist
  Proof_Base Proof_Vocab Proof_GenMatrix Proof_PropSample Proof_PropAvxSample Proof_Dist.
Import ListNotations.
Open Scope Z_scope.

(** ** Lists of [c] candidates whose first accepted ones are [a] *)
Definition rejected : list Z := filter (fun v => negb (v <? q)) (upto 4096).
Lemma rejected_NoDup : NoDup rejected. Proof. unfold rejected. apply NoDup_filter. apply upto_NoDup. Qed.
Lemma rejected_length : Z.of_nat (length rejected) = 767. Proof. vm_compute. reflexivity. Qed.
Lemma upto_4096 : Z.of_nat (length (upto 4096)) = 4096. Proof. unfold upto. rewrite map_length, seq_length. reflexivity. Qed.
Fixpoint fills (c : nat) (a : list Z) : list (list Z) :=
  match c, a with
  | O, [] => [[]]
  | O, _ :: _ => []
  | S c, [] => prefixed (upto 4096) (fills c [])
  | S c, x :: a' => prefixed [x] (fills c a') ++ prefixed rejected (fills c a)
  end.
Local Opaque upto rejected prefixed.
Lemma prefixed_out (S : list Z) L l : In l (prefixed S L) -> exists g l', l = g :: l' /\ In g S /\ In l' L.
Proof. intros HI. now apply prefixed_in in HI. Qed.
Lemma prefixed_into (S : list Z) L l : (exists g l', l = g :: l' /\ In g S /\ In l' L) -> In l (prefixed S L).
Proof. intros HI. now apply prefixed_in. Qed.
Definition good (v : Z) : Prop := 0 <= v < 4096.
Lemma rejected_in v : In v rejected <-> good v /\ (v <? q) = false.
Proof. unfold good. Local Transparent rejected. unfold rejected. rewrite filter_In, upto_in, negb_true_iff. reflexivity. Qed.
Local Opaque rejected.
Lemma cells : Z.of_nat 4096 = 4096. Proof. reflexivity. Qed.
Lemma upto_out v : In v (upto 4096) -> good v. Proof. unfold good. rewrite <- cells. exact (proj1 (upto_in 4096 v)). Qed.
Lemma upto_into v : good v -> In v (upto 4096). Proof. unfold good. rewrite <- cells. exact (proj2 (upto_in 4096 v)). Qed.
Lemma rejected_out v : In v rejected -> good v /\ (v <? q) = false. Proof. exact (proj1 (rejected_in v)). Qed.
Lemma rejected_into v : good v /\ (v <? q) = false -> In v rejected. Proof. exact (proj2 (rejected_in v)). Qed.
Lemma fills_in c a l : (forall x, In x a -> 0 <= x < q) ->
  In l (fills c a) <-> length l = c /\ Forall good l /\ firstn (length a) (filter (fun d => d <? q) l) = a.
Proof.
  revert a l. induction c as [|c IH]; intros a l Ha.
  - destruct a as [|x a]; cbn [fills].
    + split; [intros [<-|[]]; repeat split; constructor|]. intros (L & _). destruct l; [cbn; auto|discriminate].
    + split; [intros []|]. intros (L & _ & E). destruct l; discriminate.
  - destruct a as [|x a]; cbn [fills].
    + split.
      * intros HI. destruct (prefixed_out _ _ _ HI) as (v & l' & -> & Hv & Hl). pose proof (upto_out _ Hv) as Hv'. apply IH in Hl as (L & G & _); [|exact Ha].
        split; [cbn; lia|]. split; [constructor; [exact Hv'|exact G]|reflexivity].
      * intros (L & G & _). destruct l as [|v l]; [discriminate|]. inversion G as [|v' l' Gv Gl]; subst. apply prefixed_into. exists v, l. split; [reflexivity|].
        split; [exact (upto_into _ Gv)|]. apply IH; [exact Ha|]. split; [cbn in L; lia|]. split; [exact Gl|reflexivity].
    + assert (Hx : 0 <= x < q) by (apply Ha; cbn; auto). split.
      * intros HI. apply in_app_or in HI as [HI|HI]; destruct (prefixed_out _ _ _ HI) as (v & l' & -> & Hv & Hl).
        -- destruct Hv as [<-|[]]. apply IH in Hl as (L & G & E); [|intros; apply Ha; cbn; auto].
           split; [cbn; lia|]. split; [constructor; [unfold good; unfold q in *; lia|exact G]|].
           cbn [filter]. destruct (Z.ltb_spec x q); [|lia]. cbn. now rewrite E.
        -- destruct (rejected_out _ Hv) as [Gv Nv]. apply IH in Hl as (L & G & E); [|exact Ha].
           split; [cbn; lia|]. split; [now constructor|]. cbn [filter]. now rewrite Nv.
      * intros (L & G & E). destruct l as [|v l]; [discriminate|]. inversion G as [|v' l' Gv Gl]; subst. cbn [filter] in E.
        destruct (v <? q) eqn:Ev.
        -- apply in_or_app. left. apply prefixed_into. cbn in E. injection E as -> E. exists x, l. split; [reflexivity|]. split; [cbn; auto|].
           apply IH; [intros; apply Ha; cbn; auto|]. split; [cbn in L; lia|]. split; [exact Gl|]. exact E.
        -- apply in_or_app. right. apply prefixed_into. exists v, l. split; [reflexivity|]. split; [apply rejected_into; now split|]. apply IH; [exact Ha|]. split; [cbn in L; lia|]. auto.
Qed.
Lemma fills_NoDup c a : (forall x, In x a -> 0 <= x < q) -> NoDup (fills c a).
Proof.
  revert a. induction c as [|c IH]; intros a Ha; destruct a as [|x a]; cbn [fills]; try solve [repeat constructor; intros []].
  - apply prefixed_NoDup; [apply upto_NoDup|now apply IH].
  - apply NoDup_app_disj.
    + apply prefixed_NoDup; [repeat constructor; intros []|]. apply IH. intros; apply Ha; cbn; auto.
    + apply prefixed_NoDup; [apply rejected_NoDup|now apply IH].
    + intros l H1 H2. destruct (prefixed_out _ _ _ H1) as (v & l' & -> & [<-|[]] & _). destruct (prefixed_out _ _ _ H2) as (v' & l2 & E & Hv & _).
      injection E as <- _. destruct (rejected_out _ Hv) as [_ Nv]. pose proof (Ha x (or_introl eq_refl)). apply Z.ltb_ge in Nv. lia.
Qed.
Fixpoint ways (c n : nat) : Z :=
  match c, n with
  | O, O => 1
  | O, S _ => 0
  | S c, O => 4096 * ways c 0
  | S c, S n' => ways c n' + 767 * ways c n
  end.
Lemma fills_length c a : Z.of_nat (length (fills c a)) = ways c (length a).
Proof.
  revert a. induction c as [|c IH]; intros [|x a]; cbn [fills ways length]; try reflexivity.
  - rewrite prefixed_length, IH, upto_4096. reflexivity.
  - rewrite app_length, Nat2Z.inj_add, !prefixed_length, !IH, rejected_length. cbn [length]. lia.
Qed.
Lemma ways_nonneg c n : 0 <= ways c n.
Proof. revert n. induction c as [|c IH]; intros [|n]; cbn [ways]; try lia; [pose proof (IH 0%nat); lia|]. pose proof (IH n). pose proof (IH (S n)). lia. Qed.
Lemma ways_pos c n : (n <= c)%nat -> 0 < ways c n.
Proof.
  revert n. induction c as [|c IH]; intros [|n] Hn; cbn [ways]; try lia.
  - pose proof (IH 0%nat ltac:(lia)). lia.
  - pose proof (IH n ltac:(lia)). pose proof (ways_nonneg c (S n)). lia.
Qed.

(** ** Candidates and bytes *)
Fixpoint unpack (l : list Z) : list Z :=
  match l with
  | b0 :: b1 :: b2 :: l => b0 + 256 * (b1 mod 16) :: b1 / 16 + 16 * b2 :: unpack l
  | _ => []
  end.
Fixpoint pack (l : list Z) : list Z :=
  match l with
  | c0 :: c1 :: l => c0 mod 256 :: c0 / 256 + 16 * (c1 mod 16) :: c1 / 16 :: pack l
  | _ => []
  end.
Lemma pairs_ind (P : list Z -> Prop) : P [] -> (forall x y l, P l -> P (x :: y :: l)) -> forall m l, length l = (2 * m)%nat -> P l.
Proof.
  intros P0 PS. induction m as [|m IH]; intros l L; [destruct l; [exact P0|discriminate]|].
  destruct l as [|x [|y l]]; cbn in L; try lia. apply PS. apply IH. lia.
Qed.
Lemma triples_ind (P : list Z -> Prop) : P [] -> (forall x y z l, P l -> P (x :: y :: z :: l)) -> forall m l, length l = (3 * m)%nat -> P l.
Proof.
  intros P0 PS. induction m as [|m IH]; intros l L; [destruct l; [exact P0|discriminate]|].
  destruct l as [|x [|y [|z l]]]; cbn in L; try lia. apply PS. apply IH. lia.
Qed.
Ltac zz := Z.to_euclidean_division_equations; lia.
Lemma unpack_pack m l : length l = (2 * m)%nat -> Forall good l -> unpack (pack l) = l.
Proof.
  intros L. revert m l L. apply (pairs_ind (fun l => Forall good l -> unpack (pack l) = l)); [reflexivity|].
  intros x y l IH G. inversion G as [|? ? Gx G']; subst. inversion G' as [|? ? Gy Gl]; subst. cbn [pack unpack]. rewrite (IH Gl). unfold good in *. f_equal; [|f_equal]; zz.
Qed.
Lemma pack_unpack m l : length l = (3 * m)%nat -> Forall (fun b => 0 <= b < 256) l -> pack (unpack l) = l.
Proof.
  intros L. revert m l L. apply (triples_ind (fun l => Forall _ l -> pack (unpack l) = l)); [reflexivity|].
  intros x y z l IH G. inversion G as [|? ? Gx G']; subst. inversion G' as [|? ? Gy G2]; subst. inversion G2 as [|? ? Gz Gl]; subst.
  cbn [pack unpack]. rewrite (IH Gl). f_equal; [|f_equal; [|f_equal]]; zz.
Qed.
Lemma pack_facts m l : length l = (2 * m)%nat -> Forall good l -> length (pack l) = (3 * m)%nat /\ Forall (fun b => 0 <= b < 256) (pack l).
Proof.
  revert l. induction m as [|m IH]; intros l L G; [destruct l; [split; constructor|discriminate]|].
  destruct l as [|x [|y l]]; cbn in L; try lia. inversion G as [|? ? Gx G']; subst. inversion G' as [|? ? Gy Gl]; subst.
  destruct (IH l ltac:(lia) Gl) as [E B]. cbn [pack length]. split; [lia|]. unfold good in *. repeat constructor; try exact B; zz.
Qed.
Lemma unpack_facts m l : length l = (3 * m)%nat -> Forall (fun b => 0 <= b < 256) l -> length (unpack l) = (2 * m)%nat /\ Forall good (unpack l).
Proof.
  revert l. induction m as [|m IH]; intros l L G; [destruct l; [split; constructor|discriminate]|].
  destruct l as [|x [|y [|z l]]]; cbn in L; try lia. inversion G as [|? ? Gx G']; subst. inversion G' as [|? ? Gy G2]; subst. inversion G2 as [|? ? Gz Gl]; subst.
  destruct (IH l ltac:(lia) Gl) as [E B]. cbn [unpack length]. split; [lia|]. unfold good in *. repeat constructor; try exact B; zz.
Qed.
Lemma candidates_unpack m l : length l = (3 * m)%nat -> flat_map (candidates (fun i => nth i l 0)) (seq 0 m) = unpack l.
Proof.
  revert l. induction m as [|m IH]; intros l L; [destruct l; [reflexivity|discriminate]|].
  destruct l as [|x [|y [|z l]]]; cbn in L; try lia. cbn [seq flat_map unpack]. unfold candidates at 1. cbn [Nat.mul Nat.add nth app].
  f_equal. f_equal. rewrite <- (IH l ltac:(lia)). rewrite <- seq_shift, flat_map_concat_map, map_map, <- flat_map_concat_map.
  apply flat_map_ext. intros t. unfold candidates. replace (3 * S t)%nat with (S (S (S (3 * t)))) by lia.
  replace (S (S (S (3 * t))) + 1)%nat with (S (S (S (3 * t + 1)))) by lia. replace (S (S (S (3 * t))) + 2)%nat with (S (S (S (3 * t + 2)))) by lia.
  reflexivity.
Qed.
Lemma bytes_Forall l : all_bytes l <-> Forall (fun b => 0 <= b < 256) l.
Proof. rewrite Forall_forall. reflexivity. Qed.

Lemma count_accepted m a : in_range 0 (q - 1) a ->
  counted (fun B => byte_array (3 * m) B /\ firstn (length a) (accepted (fun i => nth i B 0) m) = a) (ways (2 * m) (length a)).
Proof.
  intros Ra. assert (Ha : forall x, In x a -> 0 <= x < q) by (intros x Hx; specialize (Ra x Hx); lia).
  rewrite <- fills_length. apply (counted_map _ pack).
  - now apply fills_NoDup.
  - intros l l' Hl Hl' E. apply fills_in in Hl as (L & G & _); [|exact Ha]. apply fills_in in Hl' as (L' & G' & _); [|exact Ha].
    rewrite <- (unpack_pack m l L G), <- (unpack_pack m l' L' G'). now rewrite E.
  - intros B. split.
    + intros [[LB BB] E]. apply bytes_Forall in BB. destruct (unpack_facts m B LB BB) as [LU GU].
      exists (unpack B). split; [|now apply (pack_unpack m)]. apply fills_in; [exact Ha|]. split; [exact LU|]. split; [exact GU|].
      unfold accepted in E. rewrite candidates_unpack in E by exact LB. exact E.
    + intros (l & Hl & <-). apply fills_in in Hl as (L & G & E); [|exact Ha]. destruct (pack_facts m l L G) as [LP BP].
      split; [split; [exact LP|now apply bytes_Forall]|]. unfold accepted. rewrite candidates_unpack by exact LP. now rewrite (unpack_pack m l L G).
Qed.

Lemma rej_yields m B r a : byte_array (3 * m) B -> length a = length r ->
  yields (rej_uniform r 0 (length r) B (3 * m)) (length r, a) <-> firstn (length r) (accepted (fun i => nth i B 0) m) = a.
Proof.
  intros [LB BB] La. destruct (rej_uniform_spec [] r [] B [] BB) as (T & E & LT). cbv zeta in E, LT.
  rewrite !app_nil_r in E. cbn [app length] in E. rewrite LB in E, LT. replace (3 * m / 3)%nat with m in E, LT by (rewrite Nat.mul_comm, Nat.div_mul; lia).
  set (t := firstn (length r) (accepted (fun i => nth i B 0) m)) in *. rewrite E. unfold yields. split.
  - intros (T' & X). injection X as XL XA _. rewrite XL, skipn_all, app_nil_r in XA. exact XA.
  - intros <-. exists T. rewrite La, skipn_all, app_nil_r. reflexivity.
Qed.

Lemma rej_uniform_count n m : exists N, ((n <= 2 * m)%nat -> 0 < N) /\ forall a r, length a = n -> in_range 0 (q - 1) a -> length r = n ->
  counted (fun B => byte_array (3 * m) B /\ yields (rej_uniform r 0 n B (3 * m)) (n, a)) N.
Proof.
  exists (ways (2 * m) n). split; [apply ways_pos|]. intros a r La Ra Lr. subst n. eapply counted_iff; [|apply (count_accepted m a Ra)].
  intros B. rewrite <- Lr. split; intros [HB HF]; (split; [exact HB|]).
  - now apply rej_yields.
  - now apply rej_yields in HF.
Qed.

Lemma avx_yields B extra r a : byte_array 504 B -> length a = 256%nat -> length r = 256%nat ->
  yields (rej_uniform_avx r (B ++ extra)) (256%nat, a) <-> firstn 256 (accepted (fun i => nth i B 0) 168) = a.
Proof.
  intros HB La Lr. destruct (rej_uniform_avx_spec B extra HB) as (T & W). cbv zeta in W. destruct (W r Lr) as (rest & E & LT).
  set (t := firstn 256 (accepted (fun i => nth i B 0) 168)) in *. rewrite E. unfold yields. split.
  - intros (T' & X). injection X as XL XA _. rewrite app_length, XL in LT. destruct rest; [now rewrite app_nil_r in XA|cbn in LT; lia].
  - intros Et. exists T. assert (LA : length t = 256%nat) by now rewrite Et. rewrite app_length, LA in LT.
    destruct rest; [|cbn in LT; lia]. rewrite app_nil_r, LA, Et. reflexivity.
Qed.
Lemma count_exists n m : exists N, ((n <= 2 * m)%nat -> 0 < N) /\ forall a, length a = n -> in_range 0 (q - 1) a ->
  counted (fun B => byte_array (3 * m) B /\ firstn n (accepted (fun i => nth i B 0) m) = a) N.
Proof. exists (ways (2 * m) n). split; [apply ways_pos|]. intros a La Ra. rewrite <- La. now apply count_accepted. Qed.
Lemma both_count : exists N, 0 < N /\ forall a, length a = 256%nat -> in_range 0 (q - 1) a -> forall r, length r = 256%nat ->
  counted (fun B => byte_array 504 B /\ yields (rej_uniform r 0 256 B 504) (256%nat, a)) N /\
  forall extra, counted (fun B => byte_array 504 B /\ yields (rej_uniform_avx r (B ++ extra)) (256%nat, a)) N.
Proof.
  destruct (count_exists 256 168) as (N & HN & HC). exists N. split; [apply HN; apply Nat.leb_le; reflexivity|]. intros a La Ra r Lr.
  pose proof (HC a La Ra) as C. clear HC HN. change (3 * 168)%nat with 504%nat in C. split.
  - eapply counted_iff; [|exact C]. intros B.
    pose proof (rej_yields 168 B r a) as Y. rewrite Lr in Y. change (3 * 168)%nat with 504%nat in Y.
    split; intros [HB HF]; (split; [exact HB|]); apply Y; assumption.
  - intros extra. eapply counted_iff; [|exact C].
    intros B. pose proof (avx_yields B extra r a) as Y.
    split; intros [HB HF]; (split; [exact HB|]); apply Y; assumption.
Qed.
