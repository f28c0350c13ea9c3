(** * Symbolic execution of vector programs (Model_AvxIntrin.v)

    The programs are run once on symbolic bits; [run_spec] says that evaluating
    the symbolic results gives the results of the run on values. *)
From Coq Require Import ZArith List Lia Bool.
From Verif Require Import CMonad Model_AvxIntrin.
Import ListNotations.
Open Scope Z_scope.

(** ** Bits and values *)
Lemma value_range l : 0 <= value l < 2 ^ Z.of_nat (length l).
Proof.
  induction l as [|b l IH]; cbn [value length]; [cbn; lia|].
  rewrite Nat2Z.inj_succ, Z.pow_succ_r by lia. destruct b; cbn [Z.b2z]; lia.
Qed.
Lemma value_app x y : value (x ++ y) = value x + 2 ^ Z.of_nat (length x) * value y.
Proof.
  induction x as [|b x IH]; cbn [app value length]; [cbn [Z.of_nat Z.pow]; lia|].
  rewrite IH, Nat2Z.inj_succ, Z.pow_succ_r by lia. ring.
Qed.
Lemma testbit_value l j : Z.testbit (value l) (Z.of_nat j) = nth j l false.
Proof.
  revert j. induction l as [|b l IH]; intros j; cbn [value].
  - rewrite Z.testbit_0_l. now destruct j.
  - replace (Z.b2z b + 2 * value l) with (2 * value l + Z.b2z b) by ring. destruct j as [|j].
    + change (Z.of_nat 0) with 0. now rewrite Z.testbit_0_r.
    + rewrite Nat2Z.inj_succ, Z.testbit_succ_r by lia. apply IH.
Qed.
Lemma bits_of_length w x : length (bits_of w x) = w.
Proof. unfold bits_of. now rewrite map_length, seq_length. Qed.
Lemma nth_bits_of w x j : nth j (bits_of w x) false = ((j <? w)%nat && Z.testbit x (Z.of_nat j)).
Proof.
  unfold bits_of. destruct (Nat.ltb_spec j w) as [H|H].
  - rewrite (nth_indep _ false (Z.testbit x (Z.of_nat 0))) by (now rewrite map_length, seq_length).
    rewrite (map_nth (fun j => Z.testbit x (Z.of_nat j))), seq_nth by auto. reflexivity.
  - apply nth_overflow. now rewrite map_length, seq_length.
Qed.
Lemma bool_list_ext (x y : list bool) : length x = length y -> (forall j, nth j x false = nth j y false) -> x = y.
Proof. intros L E. apply (nth_ext x y false false L). intros; apply E. Qed.
Lemma bits_of_value l w : length l = w -> bits_of w (value l) = l.
Proof.
  intros <-. apply bool_list_ext; [apply bits_of_length|]. intros j.
  rewrite nth_bits_of, testbit_value. destruct (Nat.ltb_spec j (length l)); [reflexivity|].
  symmetry. now apply nth_overflow.
Qed.
Lemma value_bits_of w x : value (bits_of w x) = x mod 2 ^ Z.of_nat w.
Proof.
  apply Z.bits_inj'. intros n Hn. replace n with (Z.of_nat (Z.to_nat n)) by lia. set (m := Z.to_nat n).
  rewrite testbit_value, nth_bits_of. destruct (Nat.ltb_spec m w).
  - now rewrite Z.mod_pow2_bits_low by lia.
  - now rewrite Z.mod_pow2_bits_high by lia.
Qed.
Lemma value_inj x y : length x = length y -> value x = value y -> x = y.
Proof. intros L E. rewrite <- (bits_of_value x _ eq_refl), <- (bits_of_value y _ eq_refl). now rewrite L, E. Qed.
Lemma bits_of_mod w x : bits_of w (x mod 2 ^ Z.of_nat w) = bits_of w x.
Proof.
  apply bool_list_ext; [now rewrite !bits_of_length|]. intros j. rewrite !nth_bits_of.
  destruct (Nat.ltb_spec j w); [|reflexivity]. cbn [andb]. now rewrite Z.mod_pow2_bits_low by lia.
Qed.
Lemma bits_of_split a b k m : 0 <= a < 2 ^ Z.of_nat k ->
  bits_of (k + m) (a + 2 ^ Z.of_nat k * b) = bits_of k a ++ bits_of m b.
Proof.
  intros Ha. apply bool_list_ext; [now rewrite app_length, !bits_of_length|]. intros j.
  rewrite nth_bits_of. destruct (Nat.ltb_spec j k) as [H|H].
  - rewrite app_nth1 by (now rewrite bits_of_length). rewrite nth_bits_of.
    destruct (Nat.ltb_spec j k); [|lia]. destruct (Nat.ltb_spec j (k + m)); [|lia]. cbn [andb].
    rewrite <- (Z.mod_pow2_bits_low (a + _) (Z.of_nat k)) by lia.
    rewrite (Z.mul_comm (2 ^ _)), Z_mod_plus_full, Z.mod_small by lia. reflexivity.
  - rewrite app_nth2 by (now rewrite bits_of_length). rewrite bits_of_length, nth_bits_of.
    replace (j <? k + m)%nat with (j - k <? m)%nat
      by (destruct (Nat.ltb_spec (j - k) m), (Nat.ltb_spec j (k + m)); lia || reflexivity).
    f_equal. replace b with ((a + 2 ^ Z.of_nat k * b) / 2 ^ Z.of_nat k) at 2.
    + rewrite Z.div_pow2_bits by lia. f_equal. lia.
    + rewrite (Z.mul_comm (2 ^ _)), Z_div_plus_full, Z.div_small by lia. lia.
Qed.

(** ** Symbolic bits and words *)
Inductive bx : Type :=
| B0 | B1
| Bi (n : N)                   (* an input bit *)
| Bt (t : wt) (j : nat)        (* a bit of a word *)
| Bnd (a b : bx) | Bor (a b : bx) | Bxr (a b : bx) | Bno (a : bx)
with wt : Type :=
| WIn (n : N)                  (* an input word of 16 bits *)
| WBits (l : list bx)
| WOp (o : aop) (a b : wt).

Section BxInd.
  Variables (P : bx -> Prop) (Q : wt -> Prop).
  Hypotheses (H0 : P B0) (H1 : P B1) (Hi : forall n, P (Bi n)) (Ht : forall t j, Q t -> P (Bt t j))
    (Hnd : forall a b, P a -> P b -> P (Bnd a b)) (Hor : forall a b, P a -> P b -> P (Bor a b))
    (Hxr : forall a b, P a -> P b -> P (Bxr a b)) (Hno : forall a, P a -> P (Bno a))
    (Hin : forall n, Q (WIn n)) (Hb : forall l, Forall P l -> Q (WBits l))
    (Ho : forall o a b, Q a -> Q b -> Q (WOp o a b)).
  Fixpoint bx_rect' (b : bx) : P b :=
    match b with
    | B0 => H0 | B1 => H1 | Bi n => Hi n
    | Bt t j => Ht t j (wt_rect' t)
    | Bnd a b => Hnd a b (bx_rect' a) (bx_rect' b)
    | Bor a b => Hor a b (bx_rect' a) (bx_rect' b)
    | Bxr a b => Hxr a b (bx_rect' a) (bx_rect' b)
    | Bno a => Hno a (bx_rect' a)
    end
  with wt_rect' (t : wt) : Q t :=
    match t with
    | WIn n => Hin n
    | WBits l => Hb l ((fix go (l : list bx) : Forall P l :=
        match l with [] => Forall_nil P | b :: l' => Forall_cons b (bx_rect' b) (go l') end) l)
    | WOp o a b => Ho o a b (wt_rect' a) (wt_rect' b)
    end.
  Lemma bx_wt_ind : (forall b, P b) /\ (forall t, Q t).
  Proof. split; [exact bx_rect'|exact wt_rect']. Qed.
End BxInd.

Definition width (t : wt) : nat :=
  match t with WIn _ => 16%nat | WBits l => length l | WOp o _ _ => outw o end.

(** *** Meaning *)
Section Meaning.
  Variables (eb : N -> bool) (ew : N -> Z).
  Fixpoint bval (b : bx) : bool :=
    match b with
    | B0 => false
    | B1 => true
    | Bi n => eb n
    | Bt t j => Z.testbit (wval t) (Z.of_nat j)
    | Bnd a b => bval a && bval b
    | Bor a b => bval a || bval b
    | Bxr a b => xorb (bval a) (bval b)
    | Bno a => negb (bval a)
    end
  with wval (t : wt) : Z :=
    match t with
    | WIn n => u16 (ew n)
    | WBits l => value (map bval l)
    | WOp o a b => asem o (wval a) (wval b)
    end.
End Meaning.

Lemma sat_range lo hi x : lo <= hi -> lo <= sat lo hi x <= hi.
Proof. intros. unfold sat. destruct (Z.ltb_spec x lo); [lia|]. destruct (Z.ltb_spec hi x); lia. Qed.
Lemma u16_range x : 0 <= u16 x < 2 ^ 16. Proof. apply Z.mod_pos_bound. reflexivity. Qed.
Lemma asem_range o x y : 0 <= asem o x y < 2 ^ Z.of_nat (outw o).
Proof.
  destruct o; cbn [asem outw]; try (apply Z.mod_pos_bound; apply Z.pow_pos_nonneg; lia); try apply u16_range.
  - destruct (_ <? _); cbn; lia.
  - pose proof (sat_range 0 255 (i16 x)). cbn; lia.
Qed.
Lemma wval_range eb ew t : 0 <= wval eb ew t < 2 ^ Z.of_nat (width t).
Proof.
  destruct t; cbn [wval width].
  - apply u16_range.
  - pose proof (value_range (map (bval eb ew) l)) as H. now rewrite map_length in H.
  - apply asem_range.
Qed.

(** *** Equality *)
Definition aop_eqb (x y : aop) : bool :=
  match x, y with
  | AAdd v, AAdd w | ASub v, ASub w | AMul v, AMul w => (v =? w)%nat
  | AMulhi, AMulhi | AMulhrs, AMulhrs | AAdds, AAdds | AGt, AGt | APacks, APacks | APackus, APackus => true
  | _, _ => false
  end.
Lemma aop_eqb_eq x y : aop_eqb x y = true -> x = y.
Proof. destruct x, y; cbn; try easy; intros H; apply Nat.eqb_eq in H; now subst. Qed.
Fixpoint beq (x y : bx) {struct x} : bool :=
  match x, y with
  | B0, B0 | B1, B1 => true
  | Bi n, Bi m => N.eqb n m
  | Bt t j, Bt u k => (j =? k)%nat && weq t u
  | Bnd a b, Bnd c d | Bor a b, Bor c d | Bxr a b, Bxr c d => beq a c && beq b d
  | Bno a, Bno c => beq a c
  | _, _ => false
  end
with weq (x y : wt) {struct x} : bool :=
  match x, y with
  | WIn n, WIn m => N.eqb n m
  | WBits l, WBits m =>
      (fix go (l m : list bx) {struct l} : bool :=
         match l, m with
         | [], [] => true
         | a :: l', b :: m' => beq a b && go l' m'
         | _, _ => false
         end) l m
  | WOp o a b, WOp o' c d => aop_eqb o o' && weq a c && weq b d
  | _, _ => false
  end.
Lemma beq_weq_eq : (forall x y, beq x y = true -> x = y) /\ (forall x y, weq x y = true -> x = y).
Proof.
  apply (bx_wt_ind (fun x => forall y, beq x y = true -> x = y) (fun x => forall y, weq x y = true -> x = y)).
  - intros y H; now destruct y.
  - intros y H; now destruct y.
  - intros n y H; destruct y; try easy. cbn in H. apply N.eqb_eq in H. now subst.
  - intros t j IH y H; destruct y; try easy. cbn in H. apply andb_prop in H as [H1 H2].
    apply Nat.eqb_eq in H1. rewrite (IH _ H2). now subst.
  - intros a b IHa IHb y H; destruct y; try easy. cbn in H. apply andb_prop in H as [H1 H2]. now rewrite (IHa _ H1), (IHb _ H2).
  - intros a b IHa IHb y H; destruct y; try easy. cbn in H. apply andb_prop in H as [H1 H2]. now rewrite (IHa _ H1), (IHb _ H2).
  - intros a b IHa IHb y H; destruct y; try easy. cbn in H. apply andb_prop in H as [H1 H2]. now rewrite (IHa _ H1), (IHb _ H2).
  - intros a IHa y H; destruct y; try easy. cbn in H. now rewrite (IHa _ H).
  - intros n y H; destruct y; try easy. cbn in H. apply N.eqb_eq in H. now subst.
  - intros l IH y H; destruct y as [|m|]; try easy. cbn in H. f_equal. revert m H.
    induction IH as [|a l' Ha Hl IH']; intros m H; destruct m; try easy.
    apply andb_prop in H as [H1 H2]. now rewrite (Ha _ H1), (IH' _ H2).
  - intros o a b IHa IHb y H; destruct y; try easy. cbn in H. apply andb_prop in H as [H1 H3]. apply andb_prop in H1 as [H1 H2].
    now rewrite (aop_eqb_eq _ _ H1), (IHa _ H2), (IHb _ H3).
Qed.
Lemma weq_eq x y : weq x y = true -> x = y. Proof. apply beq_weq_eq. Qed.

(** *** Words from bits *)
(** The list starts with bits [j .. j+n-1] of [t]; the rest. *)
Fixpoint strip (t : wt) (j n : nat) (l : list bx) : option (list bx) :=
  match n with
  | O => Some l
  | S n' =>
      match l with
      | Bt u i :: l' => if (i =? j)%nat && weq t u then strip t (S j) n' l' else None
      | _ => None
      end
  end.
Lemma strip_eq t n : forall j l r, strip t j n l = Some r -> l = map (Bt t) (seq j n) ++ r.
Proof.
  induction n as [|n IH]; intros j l r; cbn [strip seq map app].
  - now intros [= ->].
  - destruct l as [|b l]; [easy|]. destruct b; try easy.
    destruct ((j0 =? j)%nat && weq t t0) eqn:E; [|easy]. apply andb_prop in E as [E1 E2].
    apply Nat.eqb_eq in E1. apply weq_eq in E2. subst. intros H. now rewrite (IH _ _ _ H) at 1.
Qed.
Definition word (l : list bx) : wt :=
  match l with
  | Bt t _ :: _ =>
      if (width t =? length l)%nat then match strip t 0 (length l) l with Some _ => t | None => WBits l end else WBits l
  | _ => WBits l
  end.
Section Sound.
  Variables (eb : N -> bool) (ew : N -> Z).
  Notation bv := (bval eb ew).
  Notation wv := (wval eb ew).
  Notation vv := (fun l => value (map bv l)).

  Lemma bits_of_word t : map bv (map (Bt t) (seq 0 (width t))) = bits_of (width t) (wv t).
  Proof. rewrite map_map. reflexivity. Qed.
  Lemma word_value l : wv (word l) = vv l.
  Proof.
    destruct l as [|b l]; [reflexivity|]. destruct b; try reflexivity. cbn [word].
    destruct (Nat.eqb_spec (width t) (length (Bt t j :: l))) as [E|]; [|reflexivity].
    destruct (strip t 0 (length (Bt t j :: l)) (Bt t j :: l)) as [r|] eqn:S; [|reflexivity].
    pose proof (strip_eq _ _ _ _ _ S) as H.
    assert (r = []).
    { apply (f_equal (@length bx)) in H. rewrite app_length, map_length, seq_length in H. destruct r; [reflexivity|]. cbn in H; lia. }
    subst r. rewrite app_nil_r in H. rewrite H, <- E, bits_of_word, value_bits_of, Z.mod_small; [reflexivity|]. apply wval_range.
  Qed.

  (** *** Intervals *)
  Definition bit_ivl (b : bx) : Z * Z := match b with B0 => (0, 0) | B1 => (1, 1) | _ => (0, 1) end.
  Definition bits_ivl (f : wt -> Z * Z) : nat -> list bx -> Z * Z :=
    fix go (n : nat) (l : list bx) : Z * Z :=
      match n, l with
      | _, [] => (0, 0)
      | O, _ => (0, 2 ^ Z.of_nat (length l) - 1)
      | S n', b :: l' =>
          let bitwise := let '(lo, hi) := go n' l' in let '(bl, bh) := bit_ivl b in (bl + 2 * lo, bh + 2 * hi) in
          match b with
          | Bt t O =>
              match strip t 0 (width t) l with
              | Some r => if (width t =? 0)%nat then bitwise else
                  let '(lo, hi) := go n' r in let '(tl, th) := f t in
                  (tl + 2 ^ Z.of_nat (width t) * lo, th + 2 ^ Z.of_nat (width t) * hi)
              | None => bitwise
              end
          | _ => bitwise
          end
      end.
  Fixpoint ivl (fuel : nat) (t : wt) : Z * Z :=
    let full := (0, 2 ^ Z.of_nat (width t) - 1) in
    match fuel with
    | O => full
    | S n =>
        match t with
        | WIn _ => full
        | WBits l => bits_ivl (ivl n) (length l) l
        | WOp o a b =>
            let '(la, ha) := ivl n a in
            let '(lb, hb) := ivl n b in
            match o with
            | AAdd w => if (0 <=? la + lb) && (ha + hb <? 2 ^ Z.of_nat w) then (la + lb, ha + hb) else full
            | ASub w => if (hb <=? la) && (ha - lb <? 2 ^ Z.of_nat w) then (la - hb, ha - lb) else full
            | _ => full
            end
        end
    end.
  Definition within (x : Z) (i : Z * Z) : Prop := fst i <= x <= snd i.
  Lemma bit_ivl_ok b : within (Z.b2z (bv b)) (bit_ivl b).
  Proof. unfold within. destruct b; cbn; try lia; match goal with |- context [Z.b2z ?x] => destruct x end; cbn; lia. Qed.
  Lemma bits_ivl_ok f : (forall t, within (wv t) (f t)) -> forall n l, within (vv l) (bits_ivl f n l).
  Proof.
    intros Hf. induction n as [|n IH]; intros l.
    - destruct l; cbn [bits_ivl]; [cbn; unfold within; cbn; lia|].
      pose proof (value_range (map bv (b :: l))) as R. rewrite map_length in R. unfold within. cbn [fst snd]. lia.
    - destruct l as [|b l]; [cbn; unfold within; cbn; lia|].
      assert (BW : within (vv (b :: l)) (let '(lo, hi) := bits_ivl f n l in let '(bl, bh) := bit_ivl b in (bl + 2 * lo, bh + 2 * hi))).
      { pose proof (IH l) as I. pose proof (bit_ivl_ok b) as J. destruct (bits_ivl f n l) as [lo hi]. destruct (bit_ivl b) as [bl bh].
        unfold within in *. cbn [fst snd map value] in *. lia. }
      destruct b; try exact BW. cbn [bits_ivl]. destruct j; [|exact BW].
      destruct (strip t 0 (width t) (Bt t 0 :: l)) as [r|] eqn:S; [|exact BW].
      destruct (width t =? 0)%nat; [exact BW|]. apply strip_eq in S. rewrite S.
      pose proof (IH r) as I. fold (bits_ivl f). destruct (bits_ivl f n r) as [lo hi]. pose proof (Hf t) as J. destruct (f t) as [tl th].
      rewrite map_app, value_app, bits_of_word, bits_of_length, value_bits_of, Z.mod_small by apply wval_range.
      unfold within in *. cbn [fst snd] in *. pose proof (Z.pow_pos_nonneg 2 (Z.of_nat (width t))). nia.
  Qed.
  Lemma ivl_ok n : forall t, within (wv t) (ivl n t).
  Proof.
    induction n as [|n IH]; intros t; cbn [ivl];
      assert (F : within (wv t) (0, 2 ^ Z.of_nat (width t) - 1)) by (pose proof (wval_range eb ew t); unfold within; cbn; lia);
      [exact F|]. destruct t as [|l|o a b]; [exact F| |].
    - cbn [wval]. apply bits_ivl_ok, IH.
    - pose proof (IH a) as Ia. pose proof (IH b) as Ib. destruct (ivl n a) as [la ha]. destruct (ivl n b) as [lb hb].
      unfold within in Ia, Ib. cbn [fst snd] in *.
      destruct o; try exact F.
      + destruct ((0 <=? la + lb) && (ha + hb <? 2 ^ Z.of_nat w)) eqn:E; [|exact F]. apply andb_prop in E as [E1 E2].
        apply Z.leb_le in E1. apply Z.ltb_lt in E2. unfold within. cbn [wval asem fst snd]. rewrite Z.mod_small by lia. lia.
      + destruct ((hb <=? la) && (ha - lb <? 2 ^ Z.of_nat w)) eqn:E; [|exact F]. apply andb_prop in E as [E1 E2].
        apply Z.leb_le in E1. apply Z.ltb_lt in E2. unfold within. cbn [wval asem fst snd]. rewrite Z.mod_small by lia. lia.
  Qed.
  Definition rng (l : list bx) : Z * Z := bits_ivl (ivl 6) (length l) l.
  Lemma rng_ok l : within (vv l) (rng l). Proof. apply bits_ivl_ok, ivl_ok. Qed.

  (** *** Operations *)
  Definition bconst (b : bx) : option bool := match b with B0 => Some false | B1 => Some true | _ => None end.
  Definition of_bool (b : bool) : bx := if b then B1 else B0.
  Definition is0 (b : bx) : bool := match b with B0 => true | _ => false end.
  Lemma bconst_ok b c : bconst b = Some c -> bv b = c.
  Proof. destruct b; cbn; congruence. Qed.
  Lemma bconsts_ok l c : all_some (map bconst l) = Some c -> map bv l = c.
  Proof.
    revert c. induction l as [|b l IH]; intros c; cbn; [congruence|].
    destruct (bconst b) eqn:E; [|easy]. destruct (all_some (map bconst l)) eqn:E2; [|easy].
    intros [= <-]. f_equal; [now apply bconst_ok|now apply IH].
  Qed.
  Lemma of_bool_ok b : bv (of_bool b) = b. Proof. now destruct b. Qed.
  Lemma of_bools_ok l : map bv (map of_bool l) = l.
  Proof. rewrite map_map. rewrite <- (map_id l) at 2. apply map_ext, of_bool_ok. Qed.
  Lemma zeros_ok l : forallb is0 l = true -> vv l = 0.
  Proof.
    induction l as [|b l IH]; cbn [forallb map value]; [reflexivity|]. intros H. apply andb_prop in H as [H1 H2].
    rewrite IH by auto. now destruct b.
  Qed.

  Definition generic (o : aop) (x y : list bx) : list bx :=
    match all_some (map bconst x), all_some (map bconst y) with
    | Some a, Some b => map of_bool (arith_bits o a b)
    | _, _ => map (Bt (WOp o (word x) (word y))) (seq 0 (outw o))
    end.
  Definition good (o : aop) (x y r : list bx) : Prop := map bv r = arith_bits o (map bv x) (map bv y).
  Lemma generic_ok o x y : good o x y (generic o x y).
  Proof.
    unfold good, generic.
    destruct (all_some (map bconst x)) as [a|] eqn:Ea; [destruct (all_some (map bconst y)) as [b|] eqn:Eb|].
    - now rewrite of_bools_ok, (bconsts_ok _ _ Ea), (bconsts_ok _ _ Eb).
    - change (outw o) with (width (WOp o (word x) (word y))). rewrite bits_of_word. cbn [width wval]. now rewrite !word_value.
    - change (outw o) with (width (WOp o (word x) (word y))). rewrite bits_of_word. cbn [width wval]. now rewrite !word_value.
  Qed.

  (** Addition and subtraction, cut where no carry passes *)
  Definition addw (x y : list bx) : list bx :=
    if forallb is0 y then x else if forallb is0 x then y else generic (AAdd (length x)) x y.
  Definition subw (x y : list bx) : list bx :=
    if forallb is0 y then x else generic (ASub (length x)) x y.
  Fixpoint find_cut (ok : nat -> bool) (k n : nat) : nat :=
    match n with O => k | S n' => if ok k then k else find_cut ok (S k) n' end.
  Definition add_cut (x y : list bx) (k : nat) : bool :=
    snd (rng (firstn k x)) + snd (rng (firstn k y)) <? 2 ^ Z.of_nat k.
  Definition sub_cut (x y : list bx) (k : nat) : bool :=
    snd (rng (firstn k y)) <=? fst (rng (firstn k x)).
  Fixpoint cutting (cut : list bx -> list bx -> nat -> bool) (op : list bx -> list bx -> list bx)
    (fuel : nat) (x y : list bx) : list bx :=
    match fuel with
    | O => op x y
    | S f =>
        let k := find_cut (cut x y) 1 (length x - 1) in
        if (k <? length x)%nat && cut x y k
        then op (firstn k x) (firstn k y) ++ cutting cut op f (skipn k x) (skipn k y)
        else op x y
    end.
  Lemma addw_ok x y : length x = length y -> map bv (addw x y) = bits_of (length x) (vv x + vv y).
  Proof.
    intros L. unfold addw. destruct (forallb is0 y) eqn:E; [|destruct (forallb is0 x) eqn:E2].
    - rewrite (zeros_ok _ E), Z.add_0_r, bits_of_value; [reflexivity|now rewrite map_length].
    - rewrite (zeros_ok _ E2), Z.add_0_l, bits_of_value; [reflexivity|now rewrite map_length].
    - rewrite generic_ok. unfold arith_bits. cbn [outw asem]. now rewrite bits_of_mod.
  Qed.
  Lemma subw_ok x y : length x = length y -> map bv (subw x y) = bits_of (length x) (vv x - vv y).
  Proof.
    intros L. unfold subw. destruct (forallb is0 y) eqn:E.
    - rewrite (zeros_ok _ E), Z.sub_0_r, bits_of_value; [reflexivity|now rewrite map_length].
    - rewrite generic_ok. unfold arith_bits. cbn [outw asem]. now rewrite bits_of_mod.
  Qed.
  Lemma vv_split k x : (k <= length x)%nat -> vv x = vv (firstn k x) + 2 ^ Z.of_nat k * vv (skipn k x).
  Proof.
    intros H. rewrite <- (firstn_skipn k x) at 1. rewrite map_app, value_app, map_length, firstn_length_le by auto. reflexivity.
  Qed.
  Lemma vv_firstn k x : (k <= length x)%nat -> 0 <= vv (firstn k x) < 2 ^ Z.of_nat k.
  Proof. intros H. pose proof (value_range (map bv (firstn k x))) as R. now rewrite map_length, firstn_length_le in R by auto. Qed.
  Lemma cutting_add n : forall x y, length x = length y ->
    map bv (cutting add_cut addw n x y) = bits_of (length x) (vv x + vv y).
  Proof.
    induction n as [|n IH]; intros x y L; cbn [cutting]; [now apply addw_ok|].
    set (k := find_cut _ _ _). destruct ((k <? length x)%nat && add_cut x y k) eqn:E; [|now apply addw_ok].
    apply andb_prop in E as [E1 E2]. apply Nat.ltb_lt in E1. apply Z.ltb_lt in E2.
    rewrite map_app, addw_ok, IH by (rewrite ?firstn_length, ?skipn_length; lia).
    rewrite firstn_length_le, skipn_length by lia.
    rewrite (vv_split k x), (vv_split k y) by lia.
    pose proof (rng_ok (firstn k x)) as R1. pose proof (rng_ok (firstn k y)) as R2. unfold within in R1, R2.
    pose proof (vv_firstn k x ltac:(lia)). pose proof (vv_firstn k y ltac:(lia)).
    rewrite <- (bits_of_split _ _ k (length x - k)) by lia.
    f_equal; [lia|ring].
  Qed.
  Lemma cutting_sub n : forall x y, length x = length y ->
    map bv (cutting sub_cut subw n x y) = bits_of (length x) (vv x - vv y).
  Proof.
    induction n as [|n IH]; intros x y L; cbn [cutting]; [now apply subw_ok|].
    set (k := find_cut _ _ _). destruct ((k <? length x)%nat && sub_cut x y k) eqn:E; [|now apply subw_ok].
    apply andb_prop in E as [E1 E2]. apply Nat.ltb_lt in E1. apply Z.leb_le in E2.
    rewrite map_app, subw_ok, IH by (rewrite ?firstn_length, ?skipn_length; lia).
    rewrite firstn_length_le, skipn_length by lia.
    rewrite (vv_split k x), (vv_split k y) by lia.
    pose proof (rng_ok (firstn k x)) as R1. pose proof (rng_ok (firstn k y)) as R2. unfold within in R1, R2.
    pose proof (vv_firstn k x ltac:(lia)). pose proof (vv_firstn k y ltac:(lia)).
    rewrite <- (bits_of_split _ _ k (length x - k)) by lia.
    f_equal; [lia|ring].
  Qed.

  (** Multiplication by a power of two *)
  Fixpoint log2_of (l : list bx) : option nat :=
    match l with
    | B1 :: l' => if forallb is0 l' then Some 0%nat else None
    | B0 :: l' => option_map S (log2_of l')
    | _ => None
    end.
  Lemma log2_of_ok l : forall k, log2_of l = Some k -> vv l = 2 ^ Z.of_nat k /\ (k < length l)%nat.
  Proof.
    induction l as [|b l IH]; intros k; cbn [log2_of]; [easy|]. destruct b; try easy.
    - destruct (log2_of l) as [m|]; [|easy]. cbn [option_map]. intros [= <-]. destruct (IH m eq_refl) as [I1 I2].
      cbn [map value bval Z.b2z length]. rewrite Nat2Z.inj_succ, Z.pow_succ_r by lia. split; lia.
    - destruct (forallb is0 l) eqn:E; [|easy]. intros [= <-]. cbn [map value bval Z.b2z length]. rewrite (zeros_ok _ E). split; [reflexivity|lia].
  Qed.
  Definition mulw (x y : list bx) : list bx :=
    if forallb is0 y then map (fun _ => B0) x
    else match log2_of y with
         | Some k => firstn (length x) (repeat B0 k ++ x)
         | None => generic (AMul (length x)) x y
         end.
  Lemma mulw_ok x y : length x = length y -> map bv (mulw x y) = bits_of (length x) (vv x * vv y).
  Proof.
    intros L. unfold mulw. destruct (forallb is0 y) eqn:E; [|destruct (log2_of y) as [k|] eqn:Ek].
    - rewrite (zeros_ok _ E), Z.mul_0_r. rewrite map_map. cbn [bval].
      apply bool_list_ext; [now rewrite map_length, bits_of_length|]. intros j. rewrite nth_bits_of, Z.testbit_0_l, andb_false_r.
      clear. revert j. induction x; intros [|j]; cbn; auto.
    - destruct (log2_of_ok _ _ Ek) as [V B].
      apply value_inj; [rewrite map_length, bits_of_length, firstn_length, app_length, repeat_length; lia|].
      rewrite value_bits_of, V.
      replace (value (map bv (firstn (length x) (repeat B0 k ++ x)))) with (vv (repeat B0 k ++ x) mod 2 ^ Z.of_nat (length x)).
      + f_equal. rewrite map_app, value_app, map_length, repeat_length.
        replace (value (map bv (repeat B0 k))) with 0; [lia|]. symmetry. apply zeros_ok.
        clear. induction k; cbn; auto.
      + rewrite (vv_split (length x) (repeat B0 k ++ x)) by (rewrite app_length; lia).
        rewrite (Z.mul_comm (2 ^ _)), Z_mod_plus_full, Z.mod_small; [reflexivity|].
        apply vv_firstn. rewrite app_length. lia.
    - rewrite generic_ok. unfold arith_bits. cbn [outw asem]. now rewrite bits_of_mod.
  Qed.

  Definition no0 (l : list bx) : bool := negb (existsb is0 l).
  Definition sarith (o : aop) (x y : list bx) : list bx :=
    let fuel := if no0 x || no0 y then 0%nat else length x in
    match o with
    | AAdd _ => cutting add_cut addw fuel x y
    | ASub _ => cutting sub_cut subw fuel x y
    | AMul _ => mulw x y
    | AAdds =>
        if (snd (rng x) + snd (rng y) <? 32768) then cutting add_cut addw (length x) x y else generic AAdds x y
    | APackus => if forallb is0 (skipn 8 x) then firstn 8 x else generic APackus x y
    | _ => generic o x y
    end.
  Lemma i16_small x : 0 <= x < 32768 -> i16 x = x.
  Proof. intros. unfold i16, wraps. change (2 ^ (16 - 1)) with 32768. change (2 ^ 16) with 65536. rewrite Z.mod_small by lia. lia. Qed.
  Lemma sarith_ok o x y : length x = inw o -> length y = inw o -> good o x y (sarith o x y).
  Proof.
    intros Lx Ly. destruct o; cbn [inw] in *; try apply generic_ok; cbn [sarith].
    - unfold good, arith_bits. cbn [outw asem]. cbv zeta. rewrite cutting_add by lia. now rewrite bits_of_mod, Lx.
    - unfold good, arith_bits. cbn [outw asem]. cbv zeta. rewrite cutting_sub by lia. now rewrite bits_of_mod, Lx.
    - unfold good, arith_bits. cbn [outw asem]. rewrite mulw_ok by lia. now rewrite bits_of_mod, Lx.
    - destruct (Z.ltb_spec (snd (rng x) + snd (rng y)) 32768) as [H|]; [|apply generic_ok].
      unfold good, arith_bits. cbn [outw asem]. rewrite cutting_add, Lx by lia.
      pose proof (rng_ok x) as R1. pose proof (rng_ok y) as R2. unfold within in R1, R2.
      pose proof (value_range (map bv x)). pose proof (value_range (map bv y)).
      rewrite !i16_small by lia. unfold sat.
      destruct (Z.ltb_spec (vv x + vv y) (-32768)); [lia|]. destruct (Z.ltb_spec 32767 (vv x + vv y)); [lia|].
      apply (eq_sym (bits_of_mod 16 _)).
    - destruct (forallb is0 (skipn 8 x)) eqn:E; [|apply generic_ok].
      unfold good, arith_bits. cbn [outw asem].
      pose proof (vv_split 8 x ltac:(lia)) as S. pose proof (zeros_ok _ E) as Z0. cbv beta in S, Z0. rewrite Z0, Z.mul_0_r, Z.add_0_r in S. rewrite S.
      pose proof (vv_firstn 8 x ltac:(lia)) as R. change (2 ^ Z.of_nat 8) with 256 in R.
      rewrite i16_small by lia. unfold sat. destruct (Z.ltb_spec (vv (firstn 8 x)) 0); [lia|].
      destruct (Z.ltb_spec 255 (vv (firstn 8 x))); [lia|]. rewrite bits_of_value; [reflexivity|].
      rewrite map_length, firstn_length. lia.
  Qed.

  Definition sand (a b : bx) : bx := match a, b with B0, _ | _, B0 => B0 | B1, c | c, B1 => c | _, _ => Bnd a b end.
  Definition sor (a b : bx) : bx := match a, b with B1, _ | _, B1 => B1 | B0, c | c, B0 => c | _, _ => Bor a b end.
  Definition snot (a : bx) : bx := match a with B0 => B1 | B1 => B0 | Bno c => c | _ => Bno a end.
  Definition sxor (a b : bx) : bx := match a, b with B0, c | c, B0 => c | B1, c | c, B1 => snot c | _, _ => Bxr a b end.
  Lemma snot_ok a : bv (snot a) = negb (bv a).
  Proof. destruct a; cbn; rewrite ?negb_involutive; reflexivity. Qed.
  Lemma sand_ok a b : bv (sand a b) = bv a && bv b.
  Proof. destruct a, b; cbn [sand bval]; rewrite ?andb_true_r, ?andb_false_r; reflexivity. Qed.
  Lemma sor_ok a b : bv (sor a b) = bv a || bv b.
  Proof. destruct a, b; cbn [sor bval]; rewrite ?orb_true_r, ?orb_false_r; reflexivity. Qed.
  Lemma sxor_ok a b : bv (sxor a b) = xorb (bv a) (bv b).
  Proof.
    destruct a, b; cbn [sxor]; rewrite ?snot_ok; cbn [bval]; rewrite ?xorb_true_l, ?xorb_true_r, ?xorb_false_l, ?xorb_false_r; reflexivity.
  Qed.
End Sound.

Definition sym_ops : bit_ops bx :=
  {| b_zero := B0; b_of := of_bool; b_and := sand; b_or := sor; b_xor := sxor;
     b_andnot := fun a b => sand (snot a) b; b_arith := sarith; b_const := bconst |}.

(** ** Evaluation commutes with execution *)
Lemma chunks_len {A} w (l : list A) c : In c (chunks w l) -> length c = w.
Proof.
  unfold chunks. intros H. apply in_map_iff in H as (i & <- & Hi). apply in_seq in Hi.
  destruct (Nat.eq_dec w 0) as [->|Hw]; [reflexivity|].
  rewrite firstn_length, skipn_length. pose proof (Nat.mul_div_le (length l) w Hw). 
  assert ((i + 1) * w <= length l / w * w)%nat by (apply Nat.mul_le_mono_r; lia). lia.
Qed.
Lemma chunks_map {A B} (f : A -> B) w l : chunks w (map f l) = map (map f) (chunks w l).
Proof.
  unfold chunks. rewrite map_length, map_map. apply map_ext. intros i. now rewrite skipn_map, firstn_map.
Qed.

Section Hom.
  Variables (eb : N -> bool) (ew : N -> Z).
  Notation bv := (bval eb ew).
  Notation lift := (option_map (map bv)).
  Lemma zip_hom (f : bx -> bx -> bx) (g : bool -> bool -> bool) : (forall a b, bv (f a b) = g (bv a) (bv b)) ->
    forall x y, map bv (zip_with f x y) = zip_with g (map bv x) (map bv y).
  Proof. intros E. induction x; intros [|b y]; cbn; congruence. Qed.
  Lemma select_hom x ix : map bv (map (select B0 x) ix) = map (select false (map bv x)) ix.
  Proof.
    rewrite map_map. apply map_ext. intros [i|]; [|reflexivity]. cbn [select]. change false with (bv B0). now rewrite map_nth.
  Qed.
  Lemma arith_hom o (x y : list (list bx)) :
    (forall c, In c x -> length c = inw o) -> (forall c, In c y -> length c = inw o) ->
    map bv (concat (zip_with (sarith o) x y)) = concat (zip_with (arith_bits o) (map (map bv) x) (map (map bv) y)).
  Proof.
    revert y. induction x as [|a x IH]; intros [|b y] Hx Hy; cbn [zip_with concat map]; try reflexivity.
    rewrite map_app, IH by (intros; first [apply Hx; now right|apply Hy; now right]). f_equal.
    apply sarith_ok; [apply Hx|apply Hy]; now left.
  Qed.
  Definition env_ok (e1 : nat -> option (list bx)) (e2 : nat -> option (list bool)) : Prop :=
    forall n v, e1 n = Some v -> e2 n = Some (map bv v).
  Lemma both_hom f g x y r x' y' :
    (forall a b, length a = length b -> map bv (f a b) = g (map bv a) (map bv b)) ->
    (forall v, x = Some v -> x' = Some (map bv v)) -> (forall v, y = Some v -> y' = Some (map bv v)) ->
    both f x y = Some r -> both g x' y' = Some (map bv r).
  Proof.
    intros Hfg Hx Hy. unfold both. destruct x as [a|]; [|easy]. destruct y as [b|]; [|easy].
    rewrite (Hx a eq_refl), (Hy b eq_refl), !map_length.
    destruct (Nat.eqb_spec (length a) (length b)) as [L|]; [|easy].
    intros [= <-]. now rewrite Hfg.
  Qed.
  Lemma eval_hom e : forall n1 n2 v, env_ok n1 n2 -> eval sym_ops n1 e = Some v -> eval bool_ops n2 e = Some (map bv v).
  Proof.
    induction e; intros n1 n2 v HE; cbn [eval].
    - apply HE.
    - intros [= <-]. f_equal. cbn [b_of sym_ops bool_ops]. rewrite of_bools_ok. apply map_id.
    - destruct (eval sym_ops n1 e1) as [x|] eqn:E1; [|easy]. destruct (eval sym_ops n1 e2) as [y|] eqn:E2; [|easy].
      rewrite (IHe1 _ _ _ HE E1), (IHe2 _ _ _ HE E2). intros [= <-]. now rewrite map_app.
    - destruct (eval sym_ops n1 e) as [x|] eqn:E1; [|easy]. rewrite (IHe _ _ _ HE E1). intros [= <-].
      cbn [b_zero sym_ops bool_ops]. now rewrite select_hom.
    - destruct (eval sym_ops n1 e1) as [x|] eqn:E1; [|easy]. destruct (eval sym_ops n1 e2) as [y|] eqn:E2; [|easy].
      rewrite (IHe1 _ _ _ HE E1), (IHe2 _ _ _ HE E2). cbn [b_const sym_ops bool_ops].
      destruct (all_some (map bconst y)) as [c|] eqn:E3; [|easy]. rewrite (bconsts_ok eb ew _ _ E3).
      assert (E : forall l : list bool, all_some (map Some l) = Some l) by (induction l; cbn; [reflexivity|now rewrite IHl]).
      rewrite E. intros [= <-]. cbn [b_zero sym_ops bool_ops]. now rewrite select_hom.
    - apply both_hom; [intros; apply zip_hom, sand_ok| |]; eauto.
    - apply both_hom; [intros; apply zip_hom, sor_ok| |]; eauto.
    - apply both_hom; [intros; apply zip_hom, sxor_ok| |]; eauto.
    - apply both_hom; [intros; apply zip_hom| |]; eauto. intros p q. cbn [b_andnot sym_ops bool_ops]. now rewrite sand_ok, snot_ok.
    - apply both_hom; [| |]; eauto. intros a b L. rewrite !chunks_map. apply arith_hom; intros c; apply chunks_len.
  Qed.
  Lemma exec_hom p : forall e1 e2 r, env_ok e1 e2 -> exec sym_ops e1 p = Some r ->
    exists r', exec bool_ops e2 p = Some r' /\ env_ok r r'.
  Proof.
    induction p as [|s p IH]; intros e1 e2 r HE; cbn [exec].
    - intros [= <-]. eauto.
    - destruct (eval sym_ops e1 (source s)) as [v|] eqn:E; [|easy]. rewrite (eval_hom _ _ _ _ HE E).
      intros H. eapply IH; [|exact H]. intros n w. unfold assign. destruct (n =? target s)%nat; [congruence|apply HE].
  Qed.
  Theorem run_spec p ins outs r : run sym_ops p ins outs = Some r ->
    run bool_ops p (map (map bv) ins) outs = Some (map (map bv) r).
  Proof.
    unfold run. destruct (exec sym_ops (fun n => nth_error ins n) p) as [e|] eqn:E; [|easy].
    destruct (exec_hom _ _ (fun n => nth_error (map (map bv) ins) n) _ (fun n v H => map_nth_error (map bv) n ins H) E) as (e' & -> & HE).
    revert r. induction outs as [|o outs IH]; intros r; cbn [map all_some]; [now intros [= <-]|].
    destruct (e o) as [v|] eqn:Eo; [|easy]. rewrite (HE _ _ Eo).
    destruct (all_some (map e outs)) as [l|] eqn:El; [|easy]. intros [= <-]. now rewrite (IH l eq_refl).
  Qed.
End Hom.

(** ** Checking a program against the expected symbolic results *)
Fixpoint leqb {A} (eqb : A -> A -> bool) (l m : list A) : bool :=
  match l, m with
  | [], [] => true
  | a :: l', b :: m' => eqb a b && leqb eqb l' m'
  | _, _ => false
  end.
Lemma leqb_eq {A} (eqb : A -> A -> bool) : (forall a b, eqb a b = true -> a = b) ->
  forall l m, leqb eqb l m = true -> l = m.
Proof.
  intros H. induction l as [|a l IH]; intros [|b m]; cbn [leqb]; try easy.
  intros E. apply andb_prop in E as [E1 E2]. now rewrite (H _ _ E1), (IH _ E2).
Qed.
Definition check (p : list stmt) (ins : list (list bx)) (outs : list nat) (ex : list (list bx)) : bool :=
  match run sym_ops p ins outs with Some r => leqb (leqb beq) r ex | None => false end.
Theorem check_spec p ins outs ex : check p ins outs ex = true ->
  forall eb ew, exec_c p (map (map (bval eb ew)) ins) outs = ret (map (map (bval eb ew)) ex).
Proof.
  unfold check. intros H eb ew. destruct (run sym_ops p ins outs) as [r|] eqn:E; [|easy].
  apply leqb_eq in H; [|apply leqb_eq; apply beq_weq_eq]. subst r.
  unfold exec_c. now rewrite (run_spec eb ew _ _ _ _ E).
Qed.

(** Inputs: [n] words from number [s] on; [n] bits from number [s] on *)
Definition win (s n : nat) : list bx := flat_map (fun i => map (Bt (WIn (N.of_nat i))) (seq 0 16)) (seq s n).
Definition bin (s n : nat) : list bx := map (fun i => Bi (N.of_nat i)) (seq s n).
Lemma win_bits eb ew s n : map (bval eb ew) (win s n) = bits_words 16 (map (fun i => ew (N.of_nat i)) (seq s n)).
Proof.
  unfold win, bits_words. rewrite flat_map_concat_map, concat_map, map_map, flat_map_concat_map, map_map. f_equal.
  apply map_ext. intros i. rewrite map_map. apply (bits_of_mod 16).
Qed.
Lemma bin_bits eb ew s n : map (bval eb ew) (bin s n) = map (fun i => eb (N.of_nat i)) (seq s n).
Proof. unfold bin. now rewrite map_map. Qed.

(** The bits below [d] matter only *)
Fixpoint blim (d : N) (b : bx) : bool :=
  match b with
  | B0 | B1 => true
  | Bi n => N.ltb n d
  | Bt t _ => wlim d t
  | Bnd a b | Bor a b | Bxr a b => blim d a && blim d b
  | Bno a => blim d a
  end
with wlim (d : N) (t : wt) : bool :=
  match t with
  | WIn _ => true
  | WBits l => forallb (blim d) l
  | WOp _ a b => wlim d a && wlim d b
  end.
Lemma blim_ok d eb eb' ew : (forall n, (n < d)%N -> eb n = eb' n) ->
  (forall b, blim d b = true -> bval eb ew b = bval eb' ew b) /\
  (forall t, wlim d t = true -> wval eb ew t = wval eb' ew t).
Proof.
  intros E. apply bx_wt_ind; try reflexivity.
  - intros n H. apply E, N.ltb_lt, H.
  - intros t j IH H. change (Z.testbit (wval eb ew t) (Z.of_nat j) = Z.testbit (wval eb' ew t) (Z.of_nat j)). now rewrite (IH H).
  - intros a b IHa IHb H. apply andb_prop in H as [H1 H2]. cbn [bval]. now rewrite (IHa H1), (IHb H2).
  - intros a b IHa IHb H. apply andb_prop in H as [H1 H2]. cbn [bval]. now rewrite (IHa H1), (IHb H2).
  - intros a b IHa IHb H. apply andb_prop in H as [H1 H2]. cbn [bval]. now rewrite (IHa H1), (IHb H2).
  - intros a IHa H. cbn [bval]. now rewrite (IHa H).
  - intros l IH H. change (value (map (bval eb ew) l) = value (map (bval eb' ew) l)). f_equal. change (forallb (blim d) l = true) in H.
    induction IH as [|b l' Hb Hl IH']; [reflexivity|]. cbn [forallb] in H. apply andb_prop in H as [H1 H2].
    cbn [map]. now rewrite (Hb H1), (IH' H2).
  - intros o a b IHa IHb H. apply andb_prop in H as [H1 H2]. cbn [wval]. now rewrite (IHa H1), (IHb H2).
Qed.
Lemma blims_ok d eb eb' ew l : (forall n, (n < d)%N -> eb n = eb' n) -> forallb (blim d) l = true ->
  map (bval eb ew) l = map (bval eb' ew) l.
Proof.
  intros E H. apply map_ext_in. intros b Hb. apply (blim_ok d eb eb' ew E). now apply (proj1 (forallb_forall _ _) H).
Qed.

(** ** Renaming inputs *)
Section Rename.
  Variables (fb : N -> N) (fw : N -> N).
  Fixpoint bren (b : bx) : bx :=
    match b with
    | B0 => B0 | B1 => B1
    | Bi n => Bi (fb n)
    | Bt t j => Bt (wren t) j
    | Bnd a b => Bnd (bren a) (bren b)
    | Bor a b => Bor (bren a) (bren b)
    | Bxr a b => Bxr (bren a) (bren b)
    | Bno a => Bno (bren a)
    end
  with wren (t : wt) : wt :=
    match t with
    | WIn n => WIn (fw n)
    | WBits l => WBits (map bren l)
    | WOp o a b => WOp o (wren a) (wren b)
    end.
  Lemma bren_ok eb ew : (forall b, bval eb ew (bren b) = bval (fun n => eb (fb n)) (fun n => ew (fw n)) b) /\
                        (forall t, wval eb ew (wren t) = wval (fun n => eb (fb n)) (fun n => ew (fw n)) t).
  Proof.
    apply bx_wt_ind; intros; cbn [bren wren bval wval]; try congruence.
    - change (Z.testbit (wval eb ew (wren t)) (Z.of_nat j) = Z.testbit (wval (fun n => eb (fb n)) (fun n => ew (fw n)) t) (Z.of_nat j)).
      now rewrite H.
    - change (value (map (bval eb ew) (map bren l)) = value (map (bval (fun n => eb (fb n)) (fun n => ew (fw n))) l)).
      f_equal. rewrite map_map. induction H as [|b l' Hb Hl IH]; [reflexivity|]. cbn [map]. now rewrite IH, Hb.
  Qed.
End Rename.
Lemma brens_ok fb fw eb ew l :
  map (bval eb ew) (map (bren fb fw) l) = map (bval (fun n => eb (fb n)) (fun n => ew (fw n))) l.
Proof. rewrite map_map. apply map_ext, bren_ok. Qed.

(** ** A faster evaluation, for exhaustive checks *)
Definition mask (w : nat) : Z := match w with 16%nat => 65535 | _ => Z.ones (Z.of_nat w) end.
Definition signed (x : Z) : Z := if x <? 32768 then x else x - 65536.
Definition fasem (o : aop) (x y : Z) : Z :=
  match o with
  | AAdd w => Z.land (x + y) (mask w)
  | ASub w => Z.land (x - y) (mask w)
  | AMul w => Z.land (x * y) (mask w)
  | AMulhi => Z.land (Z.shiftr (signed x * signed y) 16) 65535
  | AMulhrs => Z.land (Z.shiftr (Z.shiftr (signed x * signed y) 14 + 1) 1) 65535
  | AAdds => Z.land (sat (-32768) 32767 (signed x + signed y)) 65535
  | AGt => if signed y <? signed x then 65535 else 0
  | APacks => Z.land (sat (-128) 127 (signed x)) 255
  | APackus => sat 0 255 (signed x)
  end.
Section Fast.
  Variables (eb : N -> bool) (ew : N -> Z).
  Fixpoint fbval (b : bx) : bool :=
    match b with
    | B0 => false
    | B1 => true
    | Bi n => eb n
    | Bt t j => Z.testbit (fwval t) (Z.of_nat j)
    | Bnd a b => if fbval a then fbval b else false
    | Bor a b => if fbval a then true else fbval b
    | Bxr a b => xorb (fbval a) (fbval b)
    | Bno a => negb (fbval a)
    end
  with fwval (t : wt) : Z :=
    match t with
    | WIn n => Z.land (ew n) 65535
    | WBits l => value (map fbval l)
    | WOp o a b => fasem o (fwval a) (fwval b)
    end.
End Fast.
Lemma mask_ok w x : Z.land x (mask w) = x mod 2 ^ Z.of_nat w.
Proof.
  assert (E : mask w = Z.ones (Z.of_nat w)) by (unfold mask; do 17 (destruct w as [|w]; [reflexivity|]); reflexivity).
  rewrite E. apply Z.land_ones. lia.
Qed.
Lemma land65535 x : Z.land x 65535 = u16 x. Proof. apply (mask_ok 16). Qed.
Lemma land255 x : Z.land x 255 = u8 x. Proof. apply (mask_ok 8). Qed.
Lemma signed_ok x : 0 <= x < 65536 -> signed x = i16 x.
Proof.
  intros H. unfold signed, i16, wraps. change (2 ^ (16 - 1)) with 32768. change (2 ^ 16) with 65536.
  destruct (Z.ltb_spec x 32768).
  - rewrite Z.mod_small by lia. lia.
  - replace (x + 32768) with (x - 32768 + 1 * 65536) by lia. rewrite Z_mod_plus_full, Z.mod_small by lia. lia.
Qed.
Fixpoint wok (t : wt) : bool :=
  match t with
  | WIn _ => true
  | WBits l => forallb bok l
  | WOp o a b => (width a =? inw o)%nat && (width b =? inw o)%nat && wok a && wok b
  end
with bok (b : bx) : bool :=
  match b with
  | Bt t _ => wok t
  | Bnd a b | Bor a b | Bxr a b => bok a && bok b
  | Bno a => bok a
  | _ => true
  end.
Lemma fasem_ok o x y : 0 <= x < 2 ^ Z.of_nat (inw o) -> 0 <= y < 2 ^ Z.of_nat (inw o) -> fasem o x y = asem o x y.
Proof.
  intros Hx Hy. destruct o; cbn [fasem asem]; try apply mask_ok; cbn [inw] in Hx, Hy; change (2 ^ Z.of_nat 16) with 65536 in *;
    rewrite ?land65535, ?land255, ?(signed_ok x), ?(signed_ok y) by auto; reflexivity.
Qed.
Lemma fast_ok eb ew : (forall b, bok b = true -> fbval eb ew b = bval eb ew b) /\ (forall t, wok t = true -> fwval eb ew t = wval eb ew t).
Proof.
  apply bx_wt_ind; try reflexivity.
  - intros t j IH H. change (Z.testbit (fwval eb ew t) (Z.of_nat j) = Z.testbit (wval eb ew t) (Z.of_nat j)). now rewrite (IH H).
  - intros a b IHa IHb H. apply andb_prop in H as [H1 H2]. cbn [bval fbval]. rewrite (IHa H1), (IHb H2). reflexivity.
  - intros a b IHa IHb H. apply andb_prop in H as [H1 H2]. cbn [bval fbval]. rewrite (IHa H1), (IHb H2). reflexivity.
  - intros a b IHa IHb H. apply andb_prop in H as [H1 H2]. cbn [bval fbval]. now rewrite (IHa H1), (IHb H2).
  - intros a IHa H. cbn [bval fbval]. now rewrite (IHa H).
  - intros n _. apply land65535.
  - intros l IH H. change (value (map (fbval eb ew) l) = value (map (bval eb ew) l)). f_equal. change (forallb bok l = true) in H.
    induction IH as [|b l' Hb Hl IH']; [reflexivity|]. cbn [forallb] in H. apply andb_prop in H as [H1 H2].
    cbn [map]. now rewrite (Hb H1), (IH' H2).
  - intros o a b IHa IHb H. cbn [wok] in H. apply andb_prop in H as [H H4]. apply andb_prop in H as [H H3]. apply andb_prop in H as [H1 H2].
    apply Nat.eqb_eq in H1, H2. cbn [wval fwval]. rewrite (IHa H3), (IHb H4).
    apply fasem_ok; [rewrite <- H1|rewrite <- H2]; apply wval_range.
Qed.
