(** * Running the AVX2 assembly on symbolic lanes

    A run on symbolic terms determines the run on every valuation of the
    inputs: [run_sym]. *)
From Coq Require Import ZArith List Lia Bool NArith.
From Verif Require Import CMonad WP Proof_Base Model_Params Model_AvxAsm Model_AvxCode.
Import ListNotations.
Open Scope Z_scope.

(** ** Lane homomorphisms *)
Record lane_hom {A B} (LA : lane_ops A) (LB : lane_ops B) (f : A -> B) : Prop := {
  h_zero : f (l_zero LA) = l_zero LB;
  h_add a b : f (l_add LA a b) = l_add LB (f a) (f b);
  h_sub a b : f (l_sub LA a b) = l_sub LB (f a) (f b);
  h_mullo a b : f (l_mullo LA a b) = l_mullo LB (f a) (f b);
  h_mulhi a b : f (l_mulhi LA a b) = l_mulhi LB (f a) (f b);
  h_and a b : f (l_and LA a b) = l_and LB (f a) (f b);
  h_or a b : f (l_or LA a b) = l_or LB (f a) (f b);
  h_sra n a : f (l_sra LA n a) = l_sra LB n (f a);
  h_srl n a : f (l_srl LA n a) = l_srl LB n (f a);
  h_sll n a : f (l_sll LA n a) = l_sll LB n (f a);
  h_shufb ws c v : l_shufb LA ws c = Some v -> l_shufb LB (map f ws) (f c) = Some (f v);
  h_index a k : l_index LA a = Some k -> l_index LB (f a) = Some k
}.

Lemma map_upd {A B} (f : A -> B) l i v : map f (upd l i v) = upd (map f l) i (f v).
Proof. revert i; induction l as [|x l IH]; intros [|i]; cbn; auto. now rewrite IH. Qed.

Lemma bind_Ok {A B} (m : res A) (k : A -> res B) w t :
  bind m k = Ok w t ->
  exists v t1 t2, m = Ok v t1 /\ k v = Ok w t2 /\ t = t1 ++ t2.
Proof.
  destruct m as [v t1| | |]; cbn; try discriminate.
  destruct (k v) as [w' t2| | |] eqn:E; try discriminate.
  intros [= <- <-]. eauto 7.
Qed.

Lemma bind_Ok_intro {A B} (m : res A) (k : A -> res B) v w t1 t2 :
  m = Ok v t1 -> k v = Ok w t2 -> bind m k = Ok w (t1 ++ t2).
Proof. intros -> E. cbn. now rewrite E. Qed.

Section Hom.
  Context {A B : Type} (LA : lane_ops A) (LB : lane_ops B) (f : A -> B)
          (Hf : lane_hom LA LB f).

  Definition mapst (s : state A) : state B := St (map (map f) (ymm s)) (map (map f) (mem s)).

  Lemma get_reg_hom s r v t : get_reg s r = Ok v t -> get_reg (mapst s) r = Ok (map f v) t.
  Proof.
    unfold get_reg. cbn. destruct (nth_error (ymm s) r) eqn:E; [|discriminate].
    intros [= <- <-]. rewrite (map_nth_error (map f) r (ymm s) E). reflexivity.
  Qed.
  Lemma set_reg_hom s r v s' t : set_reg s r v = Ok s' t ->
    set_reg (mapst s) r (map f v) = Ok (mapst s') t.
  Proof.
    unfold set_reg, ret. intros [= <- <-]. unfold mapst; cbn. now rewrite map_upd.
  Qed.
  Lemma load_words_hom s b off m v t : load_words s b off m = Ok v t ->
    load_words (mapst s) b off m = Ok (map f v) t.
  Proof.
    unfold load_words. cbn. destruct (nth_error (mem s) b) eqn:E; [|discriminate].
    rewrite (map_nth_error (map f) b (mem s) E), map_length.
    destruct (off + m <=? length l)%nat; [|discriminate].
    intros [= <- <-]. now rewrite skipn_map, firstn_map.
  Qed.
  Lemma store_words_hom s b off v s' t : store_words s b off v = Ok s' t ->
    store_words (mapst s) b off (map f v) = Ok (mapst s') t.
  Proof.
    unfold store_words. cbn. destruct (nth_error (mem s) b) eqn:E; [|discriminate].
    rewrite (map_nth_error (map f) b (mem s) E), !map_length.
    destruct (off + length v <=? length l)%nat; [|discriminate].
    intros [= <- <-]. unfold mapst; cbn.
    now rewrite map_upd, !map_app, firstn_map, skipn_map.
  Qed.
  Lemma get_opnd_hom s o v t : get_opnd s o = Ok v t -> get_opnd (mapst s) o = Ok (map f v) t.
  Proof. destruct o; [apply get_reg_hom|apply load_words_hom]. Qed.

  Lemma map2_hom gA gB a b : (forall x y, f (gA x y) = gB (f x) (f y)) ->
    map f (map2 gA a b) = map2 gB (map f a) (map f b).
  Proof. intros H. revert b; induction a as [|x a IH]; intros [|y b]; cbn; auto. now rewrite H, IH. Qed.

  Lemma select_hom idx a b :
    map f (select (l_zero LA) idx a b) = select (l_zero LB) idx (map f a) (map f b).
  Proof.
    unfold select. rewrite map_map. apply map_ext. intros i.
    cbv beta. rewrite <- (map_nth f), !map_app. cbn [map]. now rewrite (h_zero _ _ _ Hf).
  Qed.

  Lemma op2_hom gA gB s s2 s1 d s' t : (forall x y, f (gA x y) = gB (f x) (f y)) ->
    op2 gA s s2 s1 d = Ok s' t -> op2 gB (mapst s) s2 s1 d = Ok (mapst s') t.
  Proof.
    intros Hg E. unfold op2 in *.
    apply bind_Ok in E as (v & t1 & t2 & E1 & E & ->).
    apply bind_Ok in E as (w & t3 & t4 & E2 & E & ->).
    eapply bind_Ok_intro; [apply get_opnd_hom, E1|].
    eapply bind_Ok_intro; [apply get_reg_hom, E2|].
    rewrite <- (map2_hom gA gB) by auto. apply set_reg_hom, E.
  Qed.
  Lemma op1_hom gA gB s s1 d s' t : (forall x, f (gA x) = gB (f x)) ->
    op1 gA s s1 d = Ok s' t -> op1 gB (mapst s) s1 d = Ok (mapst s') t.
  Proof.
    intros Hg E. unfold op1 in *.
    apply bind_Ok in E as (v & t1 & t2 & E1 & E & ->).
    eapply bind_Ok_intro; [apply get_reg_hom, E1|].
    replace (map gB (map f v)) with (map f (map gA v)).
    - apply set_reg_hom, E.
    - rewrite !map_map. now apply map_ext.
  Qed.
  Lemma sel2_hom idx s s2 s1 d s' t :
    sel2 LA idx s s2 s1 d = Ok s' t -> sel2 LB idx (mapst s) s2 s1 d = Ok (mapst s') t.
  Proof.
    intros E. unfold sel2 in *.
    apply bind_Ok in E as (v & t1 & t2 & E1 & E & ->).
    apply bind_Ok in E as (w & t3 & t4 & E2 & E & ->).
    eapply bind_Ok_intro; [apply get_reg_hom, E1|].
    eapply bind_Ok_intro; [apply get_reg_hom, E2|].
    rewrite <- select_hom. apply set_reg_hom, E.
  Qed.
  Lemma sel1_hom idx s s1 d s' t :
    sel1 LA idx s s1 d = Ok s' t -> sel1 LB idx (mapst s) s1 d = Ok (mapst s') t.
  Proof.
    intros E. unfold sel1 in *.
    apply bind_Ok in E as (v & t1 & t2 & E1 & E & ->).
    eapply bind_Ok_intro; [apply get_reg_hom, E1|].
    rewrite <- select_hom. apply set_reg_hom, E.
  Qed.

  Lemma sequence_shufb ws cs v :
    sequence (map (l_shufb LA ws) cs) = Some v ->
    sequence (map (l_shufb LB (map f ws)) (map f cs)) = Some (map f v).
  Proof.
    revert v. induction cs as [|c cs IH]; cbn; intros v.
    - now intros [= <-].
    - destruct (l_shufb LA ws c) eqn:E; [|discriminate].
      rewrite (h_shufb _ _ _ Hf _ _ _ E).
      destruct (sequence (map (l_shufb LA ws) cs)); [|discriminate].
      intros [= <-]. rewrite (IH l) by reflexivity. reflexivity.
  Qed.
  Lemma shufb_hom a c v : shufb LA a c = Some v -> shufb LB (map f a) (map f c) = Some (map f v).
  Proof.
    unfold shufb. intros E.
    destruct (sequence (map (l_shufb LA (firstn 8 a)) (firstn 8 c))) eqn:E1; [|discriminate].
    destruct (sequence (map (l_shufb LA (skipn 8 a)) (skipn 8 c))) eqn:E2; [|discriminate].
    injection E as <-.
    rewrite !firstn_map, !skipn_map, (sequence_shufb _ _ _ E1), (sequence_shufb _ _ _ E2).
    now rewrite map_app.
  Qed.
  Lemma permd_hom a c v : permd LA a c = Some v -> permd LB (map f a) (map f c) = Some (map f v).
  Proof.
    unfold permd. intros E.
    assert (S : forall l v, sequence (map (fun j => l_index LA (nth (2 * j) c (l_zero LA))) l) = Some v ->
       sequence (map (fun j => l_index LB (nth (2 * j) (map f c) (l_zero LB))) l) = Some v).
    { induction l as [|j l IH]; cbn [map sequence]; auto. intros v'.
      destruct (l_index LA (nth (2 * j) c (l_zero LA))) eqn:Ej; [|discriminate].
      rewrite <- (h_zero _ _ _ Hf), map_nth, (h_index _ _ _ Hf _ _ Ej).
      destruct (sequence (map (fun j => l_index LA (nth (2 * j) c (l_zero LA))) l)); [|discriminate].
      intros [= <-]. rewrite <- (h_zero _ _ _ Hf) in IH. now rewrite (IH l0). }
    destruct (sequence _) eqn:Es in E; [|discriminate].
    rewrite (S _ _ Es). injection E as <-. f_equal.
    rewrite <- (h_zero _ _ _ Hf). clear -f.
    induction l as [|k l IH]; auto. cbn [flat_map].
    rewrite map_app, IH, !map_nth. reflexivity.
  Qed.

  Lemma exec_hom i s s' t : exec LA i s = Ok s' t -> exec LB i (mapst s) = Ok (mapst s') t.
  Proof.
    intros E. destruct i; cbn [exec] in *;
      try (eapply op2_hom; [|exact E]; apply Hf);
      try (eapply op1_hom; [|exact E]; intros; apply Hf);
      try (now apply sel2_hom); try (now apply sel1_hom).
    - apply bind_Ok in E as (u & t1 & t2 & E1 & E & ->).
      apply bind_Ok in E as (v & t3 & t4 & E2 & E & ->).
      eapply bind_Ok_intro; [exact E1|].
      eapply bind_Ok_intro; [apply load_words_hom, E2|]. apply set_reg_hom, E.
    - apply bind_Ok in E as (u & t1 & t2 & E1 & E & ->).
      apply bind_Ok in E as (v & t3 & t4 & E2 & E & ->).
      eapply bind_Ok_intro; [exact E1|].
      eapply bind_Ok_intro; [apply get_reg_hom, E2|]. apply store_words_hom, E.
    - apply bind_Ok in E as (v & t3 & t4 & E2 & E & ->).
      eapply bind_Ok_intro; [apply load_words_hom, E2|]. apply set_reg_hom, E.
    - apply bind_Ok in E as (v & t3 & t4 & E2 & E & ->).
      eapply bind_Ok_intro; [apply get_reg_hom, E2|]. apply store_words_hom, E.
    - apply bind_Ok in E as (v & t3 & t4 & E2 & E & ->).
      eapply bind_Ok_intro; [apply load_words_hom, E2|].
      rewrite <- !map_app. apply set_reg_hom, E.
    - apply bind_Ok in E as (v & t3 & t4 & E2 & E & ->).
      eapply bind_Ok_intro; [apply get_opnd_hom, E2|].
      rewrite <- select_hom. apply set_reg_hom, E.
    - apply bind_Ok in E as (u & t1 & t2 & E1 & E & ->).
      apply bind_Ok in E as (v & t3 & t4 & E2 & E & ->).
      apply bind_Ok in E as (w & t5 & t6 & E3 & E & ->).
      eapply bind_Ok_intro; [apply get_reg_hom, E1|].
      eapply bind_Ok_intro; [apply get_reg_hom, E2|].
      unfold defined in E3 |- *. destruct (shufb LA v u) eqn:Es; [|discriminate].
      injection E3 as <- <-. rewrite (shufb_hom _ _ _ Es).
      eapply bind_Ok_intro; [reflexivity|]. apply set_reg_hom, E.
    - apply bind_Ok in E as (u & t1 & t2 & E1 & E & ->).
      apply bind_Ok in E as (v & t3 & t4 & E2 & E & ->).
      apply bind_Ok in E as (w & t5 & t6 & E3 & E & ->).
      eapply bind_Ok_intro; [apply get_opnd_hom, E1|].
      eapply bind_Ok_intro; [apply get_reg_hom, E2|].
      unfold defined in E3 |- *. destruct (permd LA u v) eqn:Es; [|discriminate].
      injection E3 as <- <-. rewrite (permd_hom _ _ _ Es).
      eapply bind_Ok_intro; [reflexivity|]. apply set_reg_hom, E.
  Qed.

  Lemma run_hom code s s' t : run LA code s = Ok s' t -> run LB code (mapst s) = Ok (mapst s') t.
  Proof.
    revert s s' t. induction code as [|i code IH]; cbn [run]; intros s s' t E.
    - injection E as <- <-. reflexivity.
    - apply bind_Ok in E as (v & t1 & t2 & E1 & E & ->).
      eapply bind_Ok_intro; [apply exec_hom, E1|apply IH, E].
  Qed.
End Hom.

(** ** Symbolic lanes *)
Inductive tm :=
| In (k : N)
| Kc (z : Z)
| TAdd (a b : tm)
| TSub (a b : tm)
| TMullo (a b : tm)
| TMulhi (a b : tm)
| TAnd (a b : tm)
| TOr (a b : tm)
| TSra (n : Z) (a : tm)
| TSrl (n : Z) (a : tm)
| TSll (n : Z) (a : tm)
| TMont (a b : tm)          (* Montgomery product *)
| TNMont (a b : tm)         (* its negation *)
| TRed (a : tm).            (* the red16 macro *)

Definition mont_raw (x y : Z) : Z := (x * y - i16 (x * y * -3327) * 3329) / 65536.
Definition red_raw (x : Z) : Z :=
  i16 (x - i16 (Z.shiftr (i16 (Z.shiftr (x * 20159) 16)) 10 * 3329)).

Fixpoint eval (env : N -> Z) (t : tm) : Z :=
  match t with
  | In k => env k
  | Kc z => z
  | TAdd a b => i16 (eval env a + eval env b)
  | TSub a b => i16 (eval env a - eval env b)
  | TMullo a b => i16 (eval env a * eval env b)
  | TMulhi a b => i16 (Z.shiftr (eval env a * eval env b) 16)
  | TAnd a b => Z.land (eval env a) (eval env b)
  | TOr a b => Z.lor (eval env a) (eval env b)
  | TSra n a => Z.shiftr (eval env a) n
  | TSrl n a => i16 (Z.shiftr (u16 (eval env a)) n)
  | TSll n a => i16 (Z.shiftl (eval env a) n)
  | TMont a b => i16 (mont_raw (eval env a) (eval env b))
  | TNMont a b => i16 (- mont_raw (eval env a) (eval env b))
  | TRed a => red_raw (eval env a)
  end.

Fixpoint tm_eqb (a b : tm) : bool :=
  match a, b with
  | In i, In j => N.eqb i j
  | Kc x, Kc y => Z.eqb x y
  | TAdd a1 a2, TAdd b1 b2 | TSub a1 a2, TSub b1 b2 | TMullo a1 a2, TMullo b1 b2
  | TMulhi a1 a2, TMulhi b1 b2 | TAnd a1 a2, TAnd b1 b2 | TOr a1 a2, TOr b1 b2
  | TMont a1 a2, TMont b1 b2 | TNMont a1 a2, TNMont b1 b2 =>
      if tm_eqb a1 b1 then tm_eqb a2 b2 else false
  | TSra n a1, TSra m b1 | TSrl n a1, TSrl m b1 | TSll n a1, TSll m b1 =>
      if Z.eqb n m then tm_eqb a1 b1 else false
  | TRed a1, TRed b1 => tm_eqb a1 b1
  | _, _ => false
  end.

Lemma tm_eqb_eq a b : tm_eqb a b = true -> a = b.
Proof.
  revert b; induction a; intros []; cbn; try discriminate; intros E;
    try (apply N.eqb_eq in E; now subst);
    try (apply Z.eqb_eq in E; now subst);
    try (match type of E with (if ?c then _ else _) = true => destruct c eqn:Ec end;
         [|discriminate]);
    try (apply Z.eqb_eq in Ec; subst); f_equal; auto.
Qed.

(** [u] computes the low half [i16 (x * c * qinv)] of a Montgomery product. *)
Definition is_lo (x c u : tm) : bool :=
  match u with
  | TMullo x1 c1 =>
      match c, c1 with
      | Kc z, Kc z1 => if Z.eqb z1 (i16 (z * -3327)) then tm_eqb x1 x else false
      | _, _ =>
          match x1 with
          | TMullo x2 (Kc qi) =>
              if Z.eqb qi (-3327) then if tm_eqb x2 x then tm_eqb c1 c else false else false
          | _ => false
          end
      end
  | _ => false
  end.

Lemma i16_mul_l a b : i16 (i16 a * b) = i16 (a * b).
Proof.
  unfold i16, wraps. change (2 ^ (16 - 1)) with 32768. change (2 ^ 16) with 65536.
  f_equal. pose proof (Z.div_mod (a + 32768) 65536 ltac:(lia)) as D.
  set (k := (a + 32768) / 65536) in *. set (r := (a + 32768) mod 65536) in *.
  replace (a * b + 32768) with ((r - 32768) * b + 32768 + k * b * 65536) by nia.
  now rewrite Z_mod_plus_full.
Qed.
Lemma i16_mul_r a b : i16 (a * i16 b) = i16 (a * b).
Proof. rewrite Z.mul_comm, i16_mul_l. f_equal; lia. Qed.
Lemma i16_add_l a b : i16 (i16 a + b) = i16 (a + b).
Proof.
  unfold i16, wraps. change (2 ^ (16 - 1)) with 32768. change (2 ^ 16) with 65536.
  f_equal. pose proof (Z.div_mod (a + 32768) 65536 ltac:(lia)) as D.
  set (k := (a + 32768) / 65536) in *. set (r := (a + 32768) mod 65536) in *.
  replace (a + b + 32768) with (r - 32768 + b + 32768 + k * 65536) by lia.
  now rewrite Z_mod_plus_full.
Qed.
Lemma i16_add_r a b : i16 (a + i16 b) = i16 (a + b).
Proof. rewrite Z.add_comm, i16_add_l. f_equal; lia. Qed.
Lemma i16_opp a : i16 (- i16 a) = i16 (- a).
Proof.
  replace (- i16 a) with (i16 a * -1) by lia. rewrite i16_mul_l. f_equal; lia.
Qed.
Lemma i16_sub_l a b : i16 (i16 a - b) = i16 (a - b).
Proof. replace (i16 a - b) with (i16 a + - b) by lia. rewrite i16_add_l. f_equal; lia. Qed.
Lemma i16_sub_r a b : i16 (a - i16 b) = i16 (a - b).
Proof.
  replace (a - i16 b) with (a + i16 b * -1) by lia.
  rewrite <- (i16_add_r a (i16 b * -1)), i16_mul_l, i16_add_r. f_equal; lia.
Qed.

Lemma is_lo_eval env x c u : is_lo x c u = true ->
  eval env u = i16 (eval env x * eval env c * -3327).
Proof.
  intros E. destruct u as [| | | |x1 c1| | | | | | | | |]; try discriminate.
  assert (G : (match x1 with
          | TMullo x2 (Kc qi) =>
              if Z.eqb qi (-3327) then if tm_eqb x2 x then tm_eqb c1 c else false else false
          | _ => false end) = true -> eval env (TMullo x1 c1) = i16 (eval env x * eval env c * -3327)).
  { clear E. destruct x1 as [| | | |x2 q1| | | | | | | | |]; try discriminate.
    destruct q1; try discriminate.
    destruct (Z.eqb_spec z (-3327)); [|discriminate]. subst z.
    destruct (tm_eqb x2 x) eqn:E1; [|discriminate]. intros E2.
    apply tm_eqb_eq in E1, E2. subst. cbn [eval]. rewrite i16_mul_l. f_equal. lia. }
  cbn [is_lo] in E. destruct c as [|z| | | | | | | | | | | |]; try (now apply G).
  destruct c1 as [|z1| | | | | | | | | | | |]; try (now apply G).
  destruct (Z.eqb_spec z1 (i16 (z * -3327))); [|discriminate].
  apply tm_eqb_eq in E. subst. cbn [eval]. rewrite i16_mul_r. f_equal. lia.
Qed.

(** [v] computes the high half of [lo * q] for [x * c]. *)
Definition is_corr (x c v : tm) : bool :=
  match v with
  | TMulhi u (Kc q1) => if Z.eqb q1 3329 then is_lo x c u else false
  | _ => false
  end.

Lemma i16_mod x : i16 x mod 65536 = x mod 65536.
Proof.
  unfold i16, wraps. change (2 ^ (16 - 1)) with 32768. change (2 ^ 16) with 65536.
  pose proof (Z.div_mod (x + 32768) 65536 ltac:(lia)) as D.
  replace ((x + 32768) mod 65536 - 32768) with (x + (- ((x + 32768) / 65536)) * 65536) by lia.
  apply Z_mod_plus_full.
Qed.

Lemma mont_split p :
  Z.shiftr p 16 - Z.shiftr (i16 (p * -3327) * 3329) 16 = (p - i16 (p * -3327) * 3329) / 65536.
Proof.
  rewrite !Z.shiftr_div_pow2 by lia. change (2 ^ 16) with 65536.
  set (t := i16 (p * -3327)).
  assert (M : (t * 3329) mod 65536 = p mod 65536).
  { rewrite <- Z.mul_mod_idemp_l by lia. unfold t. rewrite i16_mod.
    rewrite Z.mul_mod_idemp_l by lia.
    replace (p * -3327 * 3329) with (p + (p * -169) * 65536) by lia.
    apply Z_mod_plus_full. }
  pose proof (Z.div_mod p 65536 ltac:(lia)). pose proof (Z.div_mod (t * 3329) 65536 ltac:(lia)).
  apply Z.div_unique with (r := 0); lia.
Qed.

Lemma is_corr_eval env x c v : is_corr x c v = true ->
  eval env v = i16 (Z.shiftr (i16 (eval env x * eval env c * -3327) * 3329) 16).
Proof.
  intros E. destruct v as [| | | | |u q1| | | | | | | |]; try discriminate.
  destruct q1; try discriminate. cbn [is_corr] in E.
  destruct (Z.eqb_spec z 3329); [|discriminate]. subst z.
  cbn [eval]. now rewrite (is_lo_eval env _ _ _ E).
Qed.

Lemma corr_sub env x c v : is_corr x c v = true ->
  i16 (Z.shiftr (eval env x * eval env c) 16 - eval env v) = i16 (mont_raw (eval env x) (eval env c)).
Proof.
  intros E. rewrite (is_corr_eval env _ _ _ E), i16_sub_r. f_equal. apply mont_split.
Qed.

Definition sAdd (a b : tm) : tm :=
  match a with
  | TSub r (TMulhi x c) => if is_corr x c b then TSub r (TMont x c) else TAdd a b
  | _ => TAdd a b
  end.

(** [b] is the multiple of q that the red16 macro subtracts from [a]. *)
Definition is_red (a b : tm) : bool :=
  match b with
  | TMullo (TSra n (TMulhi r (Kc v))) (Kc q1) =>
      if (n =? 10) && (v =? 20159) && (q1 =? 3329) then tm_eqb r a else false
  | _ => false
  end.

Definition sSub (a b : tm) : tm :=
  if is_red a b then TRed a
  else match b with
  | TNMont x c => TAdd a (TMont x c)
  | TMulhi x c =>
      if is_corr x c a then TNMont x c
      else match a with
           | TMulhi x c => if is_corr x c b then TMont x c else TSub a b
           | TAdd r (TMulhi x c) => if is_corr x c b then TAdd r (TMont x c) else TSub a b
           | _ => TSub a b
           end
  | _ => TSub a b
  end.

Lemma sAdd_eval env a b : eval env (sAdd a b) = i16 (eval env a + eval env b).
Proof.
  unfold sAdd. destruct a as [| | |r y| | | | | | | | | |]; try reflexivity.
  destruct y as [| | | | |x c| | | | | | | |]; try reflexivity.
  destruct (is_corr x c b) eqn:E; [|reflexivity].
  cbn [eval].
  rewrite <- (corr_sub env _ _ _ E), !i16_sub_r, i16_add_l. f_equal. lia.
Qed.

Lemma is_red_eval env a b : is_red a b = true ->
  i16 (eval env a - eval env b) = red_raw (eval env a).
Proof.
  intros E.
  destruct b as [| | | |u q1| | | | | | | | |]; try discriminate.
  destruct u as [| | | | | | | |m v| | | | |]; try discriminate.
  destruct v as [| | | | |r y| | | | | | | |]; try discriminate.
  destruct y as [|zv| | | | | | | | | | | |]; try discriminate.
  destruct q1 as [|zq| | | | | | | | | | | |]; try discriminate.
  cbn [is_red] in E.
  destruct (Z.eqb_spec m 10), (Z.eqb_spec zv 20159), (Z.eqb_spec zq 3329); try discriminate.
  apply tm_eqb_eq in E. subst. reflexivity.
Qed.

Lemma sSub_eval env a b : eval env (sSub a b) = i16 (eval env a - eval env b).
Proof.
  unfold sSub. destruct (is_red a b) eqn:Er.
  { now rewrite (is_red_eval env _ _ Er). }
  destruct b as [| | | | |x c| | | | | | |x c|]; try reflexivity.
  - destruct (is_corr x c a) eqn:E1.
    + cbn [eval]. rewrite <- i16_opp, <- (corr_sub env _ _ _ E1), i16_opp, i16_sub_r. f_equal. lia.
    + set (b := TMulhi x c) in *. clearbody b. clear x c E1 Er.
      destruct a as [| |r y| | |x c| | | | | | | |]; try reflexivity.
      * destruct y as [| | | | |x c| | | | | | | |]; try reflexivity.
        destruct (is_corr x c b) eqn:E; [|reflexivity].
        cbn [eval]. rewrite <- (corr_sub env _ _ _ E), !i16_add_r, i16_sub_l. f_equal. lia.
      * destruct (is_corr x c b) eqn:E; [|reflexivity].
        cbn [eval]. rewrite i16_sub_l. now rewrite (corr_sub env _ _ _ E).
  - cbn [eval]. rewrite i16_add_r, i16_sub_r. f_equal. lia.
Qed.

Definition sShufb (ws : list tm) (c : tm) : option tm :=
  match c with
  | Kc m =>
      let lo := u16 m mod 256 in
      let hi := u16 m / 256 in
      if Z.even lo && (0 <=? lo) && (lo <? 16) && (hi =? lo + 1) then
        match nth (Z.to_nat (lo / 2)) ws (Kc 0) with
        | Kc z => if i16 z =? z then Some (Kc z) else None
        | _ => None
        end
      else None
  | _ => None
  end.

Definition Slanes : lane_ops tm := {|
  l_zero := Kc 0;
  l_add := sAdd;
  l_sub := sSub;
  l_mullo := TMullo;
  l_mulhi := TMulhi;
  l_and := TAnd;
  l_or := TOr;
  l_sra := TSra;
  l_srl := TSrl;
  l_sll := TSll;
  l_shufb := sShufb;
  l_index a := match a with Kc z => Some (Z.to_nat (Z.land z 7)) | _ => None end
|}.

Lemma land_15 x : 0 <= x < 16 -> Z.land x 15 = x.
Proof. intros. change 15 with (Z.ones 4). rewrite Z.land_ones by lia. apply Z.mod_small. lia. Qed.
Lemma testbit7_small x : 0 <= x < 128 -> Z.testbit x 7 = false.
Proof.
  intros. apply Z.bits_above_log2; [lia|].
  destruct (Z.eq_dec x 0) as [->|]; [cbn; lia|].
  apply Z.log2_lt_pow2; [lia|]. cbn. lia.
Qed.

Lemma sShufb_eval env ws c v : sShufb ws c = Some v ->
  i16 (shufb_byte (map (eval env) ws) (u16 (eval env c) mod 256)
       + 256 * shufb_byte (map (eval env) ws) (u16 (eval env c) / 256)) = eval env v.
Proof.
  unfold sShufb. destruct c as [|m| | | | | | | | | | | |]; try discriminate.
  cbn [eval]. cbv zeta. set (lo := u16 m mod 256). set (hi := u16 m / 256).
  destruct (Z.even lo) eqn:Ev; [|discriminate].
  destruct (Z.leb_spec 0 lo); [|discriminate].
  destruct (Z.ltb_spec lo 16); [|discriminate].
  destruct (Z.eqb_spec hi (lo + 1)); [|discriminate]. cbn [andb].
  destruct (nth (Z.to_nat (lo / 2)) ws (Kc 0)) as [|z| | | | | | | | | | | |] eqn:En; try discriminate.
  destruct (Z.eqb_spec (i16 z) z) as [Ez|]; [|discriminate]. intros [= <-].
  apply Z.even_spec in Ev as [j Ej].
  assert (lo + 1 < 16) by lia.
  unfold shufb_byte. rewrite e, !testbit7_small, !land_15 by lia.
  unfold lane_byte.
  replace (Z.even lo) with true by (rewrite Ej, Z.even_mul; reflexivity).
  replace (Z.even (lo + 1)) with false
    by (rewrite Z.even_add, Ej, Z.even_mul; reflexivity).
  replace ((lo + 1) / 2) with (lo / 2).
  2:{ rewrite Ej. replace (2 * j + 1) with (1 + j * 2) by lia. rewrite Z.div_add by lia.
      replace (2 * j) with (j * 2) by lia. rewrite Z.div_mul by lia. reflexivity. }
  change 0 with (eval env (Kc 0)). rewrite map_nth, En. cbn [eval].
  transitivity (i16 (u16 z)).
  - f_equal. pose proof (Z.div_mod (u16 z) 256 ltac:(lia)). lia.
  - rewrite <- Ez at 2. unfold i16, u16, wraps, wrapu.
    change (2 ^ (16 - 1)) with 32768. change (2 ^ 16) with 65536.
    rewrite Z.add_mod_idemp_l by lia. reflexivity.
Qed.

Lemma eval_hom env : lane_hom Slanes Zlanes (eval env).
Proof.
  constructor; try reflexivity.
  - apply sAdd_eval.
  - apply sSub_eval.
  - intros ws c v E. cbn in *. f_equal. now apply sShufb_eval.
  - intros a k. cbn. destruct a; try discriminate. now intros [= <-].
Qed.

(** The symbolic run decides the concrete one. *)
Lemma run_sym env code s s' t :
  run Slanes code s = Ok s' t ->
  run Zlanes code (mapst (eval env) s) = Ok (mapst (eval env) s') t.
Proof. apply run_hom, eval_hom. Qed.
