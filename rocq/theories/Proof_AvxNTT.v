(** * The AVX2 NTT, inverse NTT, base multiplication and reductions

    Symbolic runs of the assembly are analysed by [norm]: a bound for every
    intermediate value (so that no 16-bit addition wraps) and the linear
    combination modulo q that a lane holds. *)
From Coq Require Import ZArith List Lia Bool NArith.
From Verif Require Import CMonad WP Proof_Base Modq Sums Model_Params Model_NTT Proof_NTT Proof_NTTSpec Proof_RingMul Proof_Poly
  Model_AvxAsm Model_AvxCode Proof_AvxSym Spec_FIPS203.
Import ListNotations.
Open Scope Z_scope.

(** ** Expressions modulo q *)
Inductive lx := LI (k : N) | LA (a b : lx) | LS (a b : lx) | LM (c : Z) (a : lx) | LX (a b : lx).
Fixpoint leval (env : N -> Z) (e : lx) : Z :=
  match e with
  | LI k => env k
  | LA a b => leval env a + leval env b
  | LS a b => leval env a - leval env b
  | LM c a => 169 * c * leval env a     (* a Montgomery product with c *)
  | LX a b => leval env a * leval env b
  end.
Fixpoint lx_eqb (a b : lx) : bool :=
  match a, b with
  | LI i, LI j => N.eqb i j
  | LA a1 a2, LA b1 b2 | LS a1 a2, LS b1 b2 | LX a1 a2, LX b1 b2 =>
      if lx_eqb a1 b1 then lx_eqb a2 b2 else false
  | LM c a1, LM d b1 => if Z.eqb c d then lx_eqb a1 b1 else false
  | _, _ => false
  end.
Lemma lx_eqb_eq a b : lx_eqb a b = true -> a = b.
Proof.
  revert b; induction a; intros []; cbn; try discriminate; intros E;
    try (apply N.eqb_eq in E; now subst);
    (match type of E with (if ?c then _ else _) = true => destruct c eqn:Ec end; [|discriminate]);
    try (apply Z.eqb_eq in Ec; subst); f_equal; auto.
Qed.

(** ** Analysis of symbolic lanes *)
Definition in16 (lo hi : Z) : bool := (-32768 <=? lo) && (hi <=? 32767).
(** Bounds of a Montgomery product from bounds of the product. *)
Definition mont_lo (p : Z) : Z := - Z.shiftr (109081343 - p) 16.   (* 32767 q - p *)
Definition mont_hi (p : Z) : Z := Z.shiftr (p + 109084672) 16.       (* p + 32768 q *)
Definition min4 (a b c d : Z) := Z.min (Z.min a b) (Z.min c d).
Definition max4 (a b c d : Z) := Z.max (Z.max a b) (Z.max c d).

Fixpoint norm (B : N -> option (Z * Z)) (t : tm) : option (Z * Z * lx) :=
  match t with
  | In k =>
      match B k with
      | Some (lo, hi) => if in16 lo hi then Some (lo, hi, LI k) else None
      | None => None
      end
  | TAdd a b =>
      match norm B a, norm B b with
      | Some (la, ha, ea), Some (lb, hb, eb) =>
          if in16 (la + lb) (ha + hb) then Some (la + lb, ha + hb, LA ea eb) else None
      | _, _ => None
      end
  | TSub a b =>
      match norm B a, norm B b with
      | Some (la, ha, ea), Some (lb, hb, eb) =>
          if in16 (la - hb) (ha - lb) then Some (la - hb, ha - lb, LS ea eb) else None
      | _, _ => None
      end
  | TMont a (Kc c) =>
      match norm B a with
      | Some (la, ha, ea) =>
          let lo := mont_lo (Z.min (la * c) (ha * c)) in
          let hi := mont_hi (Z.max (la * c) (ha * c)) in
          if in16 lo hi then Some (lo, hi, LM c ea) else None
      | None => None
      end
  | TMont a b =>
      match norm B a, norm B b with
      | Some (la, ha, ea), Some (lb, hb, eb) =>
          let lo := mont_lo (min4 (la * lb) (la * hb) (ha * lb) (ha * hb)) in
          let hi := mont_hi (max4 (la * lb) (la * hb) (ha * lb) (ha * hb)) in
          if in16 lo hi then Some (lo, hi, LM 1 (LX ea eb)) else None
      | _, _ => None
      end
  | TRed a =>
      match norm B a with Some (la, ha, ea) => Some (0, 3329, ea) | None => None end
  | _ => None
  end.

Lemma in16_spec lo hi : in16 lo hi = true -> -32768 <= lo /\ hi <= 32767.
Proof. unfold in16. intros H. apply andb_true_iff in H. lia. Qed.

Lemma mul_corner a b la ha : la <= a <= ha -> Z.min (la * b) (ha * b) <= a * b <= Z.max (la * b) (ha * b).
Proof. intros. destruct (Z.le_ge_cases 0 b); nia. Qed.
Lemma mul_corner4 a b la ha lb hb : la <= a <= ha -> lb <= b <= hb ->
  min4 (la * lb) (la * hb) (ha * lb) (ha * hb) <= a * b <= max4 (la * lb) (la * hb) (ha * lb) (ha * hb).
Proof.
  intros Ha Hb. unfold min4, max4.
  pose proof (mul_corner a b la ha Ha).
  pose proof (mul_corner b la lb hb Hb). pose proof (mul_corner b ha lb hb Hb).
  rewrite !(Z.mul_comm lb), !(Z.mul_comm hb), !(Z.mul_comm b) in *. lia.
Qed.

Lemma i16_range x : -32768 <= i16 x <= 32767.
Proof.
  unfold i16, wraps. change (2 ^ (16 - 1)) with 32768. change (2 ^ 16) with 65536.
  pose proof (Z.mod_pos_bound (x + 32768) 65536 ltac:(lia)). lia.
Qed.

Lemma mont_raw_spec x y plo phi : plo <= x * y <= phi ->
  mont_lo plo <= mont_raw x y <= mont_hi phi /\ mont_raw x y ≡ 169 * (x * y).
Proof.
  intros H. unfold mont_raw. set (p := x * y) in *.
  pose proof (i16_range (p * -3327)) as R. set (t := i16 (p * -3327)) in *.
  assert (M : (p - t * 3329) mod 65536 = 0).
  { rewrite Zminus_mod. rewrite <- (Z.mul_mod_idemp_l t) by lia. unfold t. rewrite i16_mod.
    rewrite Z.mul_mod_idemp_l by lia.
    replace (p * -3327 * 3329) with (p + (p * -169) * 65536) by lia.
    rewrite Z_mod_plus_full, Z.sub_diag. reflexivity. }
  pose proof (Z.div_mod (p - t * 3329) 65536 ltac:(lia)) as D.
  set (v := (p - t * 3329) / 65536) in *.
  split.
  - unfold mont_lo, mont_hi. rewrite !Z.shiftr_div_pow2 by lia. change (2 ^ 16) with 65536. split.
    + apply Z.opp_le_mono. rewrite Z.opp_involutive. apply Z.div_le_lower_bound; lia.
    + apply Z.div_le_lower_bound; lia.
  - apply cong_trans with (v * 65536 * 169).
    + replace (v * 65536 * 169) with (v * (65536 * 169)) by lia. rewrite R_Rinv. apply cong_eq; lia.
    + replace (v * 65536) with (p - t * 3329) by lia. exists (- (t * 169)). lia.
Qed.

Lemma red_raw_spec x : -32768 <= x <= 32767 -> 0 <= red_raw x <= 3329 /\ red_raw x ≡ x.
Proof.
  intros H. unfold red_raw.
  rewrite !Z.shiftr_div_pow2 by lia. change (2 ^ 16) with 65536. change (2 ^ 10) with 1024.
  pose proof (Z.div_mod (x * 20159) 65536 ltac:(lia)) as D1.
  pose proof (Z.mod_pos_bound (x * 20159) 65536 ltac:(lia)) as M1.
  set (a := x * 20159 / 65536) in *. set (ma := (x * 20159) mod 65536) in *.
  rewrite (i16_small a) by lia.
  pose proof (Z.div_mod a 1024 ltac:(lia)) as D2.
  pose proof (Z.mod_pos_bound a 1024 ltac:(lia)) as M2.
  set (b := a / 1024) in *. set (mb := a mod 1024) in *.
  rewrite i16_sub_r. rewrite i16_small by lia.
  split; [lia|]. exists (- b). lia.
Qed.

Lemma norm_sound B env t lo hi e :
  (forall k l h, B k = Some (l, h) -> l <= env k <= h) -> norm B t = Some (lo, hi, e) ->
  lo <= eval env t <= hi /\ (-32768 <= lo /\ hi <= 32767) /\ eval env t ≡ leval env e.
Proof.
  intros HB. revert lo hi e.
  induction t as [k|z|a IHa b IHb|a IHa b IHb|a IHa b IHb|a IHa b IHb|a IHa b IHb|a IHa b IHb
                 |m a IHa|m a IHa|m a IHa|a IHa b IHb|a IHa b IHb|a IHa];
    intros lo hi e E; cbn [norm] in E; try discriminate.
  - destruct (B k) as [[l h]|] eqn:Ek; [|discriminate].
    destruct (in16 l h) eqn:Ei; [|discriminate].
    injection E as <- <- <-. apply in16_spec in Ei. specialize (HB k l h Ek).
    cbn [eval leval] in *. split; [exact HB|]. split; [exact Ei|reflexivity].
  - destruct (norm B a) as [[[la ha] ea]|]; [|discriminate].
    destruct (norm B b) as [[[lb hb] eb]|]; [|discriminate].
    destruct (in16 _ _) eqn:Ei in E; [|discriminate]. injection E as <- <- <-.
    apply in16_spec in Ei.
    destruct (IHa _ _ _ eq_refl) as (Ba & _ & Ca). destruct (IHb _ _ _ eq_refl) as (Bb & _ & Cb).
    cbn [eval leval]. rewrite i16_small by lia.
    split; [lia|]. split; [lia|]. now rewrite Ca, Cb.
  - destruct (norm B a) as [[[la ha] ea]|]; [|discriminate].
    destruct (norm B b) as [[[lb hb] eb]|]; [|discriminate].
    destruct (in16 _ _) eqn:Ei in E; [|discriminate]. injection E as <- <- <-.
    apply in16_spec in Ei.
    destruct (IHa _ _ _ eq_refl) as (Ba & _ & Ca). destruct (IHb _ _ _ eq_refl) as (Bb & _ & Cb).
    cbn [eval leval]. rewrite i16_small by lia.
    split; [lia|]. split; [lia|]. now rewrite Ca, Cb.
  - assert (G : (match norm B a, norm B b with
      | Some (la, ha, ea), Some (lb, hb, eb) =>
          let lo := mont_lo (min4 (la * lb) (la * hb) (ha * lb) (ha * hb)) in
          let hi := mont_hi (max4 (la * lb) (la * hb) (ha * lb) (ha * hb)) in
          if in16 lo hi then Some (lo, hi, LM 1 (LX ea eb)) else None
      | _, _ => None
      end) = Some (lo, hi, e) ->
      lo <= eval env (TMont a b) <= hi /\ (-32768 <= lo /\ hi <= 32767) /\
      eval env (TMont a b) ≡ leval env e).
    { clear E. intros E.
      destruct (norm B a) as [[[la ha] ea]|]; [|discriminate].
      destruct (norm B b) as [[[lb hb] eb]|]; [|discriminate]. cbv zeta in E.
      destruct (in16 _ _) eqn:Ei in E; [|discriminate]. injection E as <- <- <-.
      apply in16_spec in Ei.
      destruct (IHa _ _ _ eq_refl) as (Ba & _ & Ca). destruct (IHb _ _ _ eq_refl) as (Bb & _ & Cb).
      destruct (mont_raw_spec _ _ _ _ (mul_corner4 _ _ _ _ _ _ Ba Bb)) as [R C].
      cbn [eval leval]. rewrite i16_small by lia.
      split; [lia|]. split; [lia|]. rewrite C, Ca, Cb. apply cong_eq. lia. }
    destruct b as [|z| | | | | | | | | | | |]; try exact (G E).
    destruct (norm B a) as [[[la ha] ea]|]; [|discriminate]. cbv zeta in E.
    destruct (in16 _ _) eqn:Ei in E; [|discriminate]. injection E as <- <- <-.
    apply in16_spec in Ei.
    destruct (IHa _ _ _ eq_refl) as (Ba & _ & Ca).
    destruct (mont_raw_spec _ _ _ _ (mul_corner _ z _ _ Ba)) as [R C].
    cbn [eval leval]. rewrite i16_small by lia.
    split; [lia|]. split; [lia|]. rewrite C, Ca. apply cong_eq. lia.
  - destruct (norm B a) as [[[la ha] ea]|]; [|discriminate]. injection E as <- <- <-.
    destruct (IHa _ _ _ eq_refl) as (Ba & Ra & Ca).
    cbn [eval]. destruct (red_raw_spec (eval env a) ltac:(lia)) as [R C].
    split; [lia|]. split; [lia|]. now rewrite C.
Qed.

(** ** Symbolic inputs *)
Definition ins (b : N) (m : nat) : list tm := map (fun i => In (b + N.of_nat i)) (seq 0 m).
Definition sregs : list (list tm) := repeat (ins 4096 16) 16.
Definition sqdata : list tm := map Kc qdata.

(** The valuation for objects [r], [a], [b] (256 words each at 0, 256, 512),
    a scratch slot of junk, and registers holding junk. *)
Definition env3 (J : Junk) (r a b : list Z) (k : N) : Z :=
  if (k <? 256)%N then nth (N.to_nat k) r 0
  else if (k <? 512)%N then nth (N.to_nat (k - 256)) a 0
  else if (k <? 768)%N then nth (N.to_nat (k - 512)) b 0
  else J (N.to_nat (k - 4096)).

Lemma map_nth_seq {A} (l : list A) d : map (fun i => nth i l d) (seq 0 (length l)) = l.
Proof.
  apply nth_ext with (d := d) (d' := d); rewrite map_length, seq_length; auto.
  intros i Hi.
  rewrite (nth_indep _ d (nth 0 l d)) by (rewrite map_length, seq_length; auto).
  rewrite (map_nth (fun i => nth i l d)), seq_nth by auto. reflexivity.
Qed.

Lemma eval_ins_gen env b m (l : list Z) : length l = m ->
  (forall i, (i < m)%nat -> env (b + N.of_nat i)%N = nth i l 0) -> map (eval env) (ins b m) = l.
Proof.
  intros Hl H. unfold ins. rewrite map_map. subst m.
  rewrite <- (map_nth_seq l 0) at 2. apply map_ext_in. intros i Hi. apply in_seq in Hi.
  cbn [eval]. apply H. lia.
Qed.

Ltac nsplit := repeat match goal with
  | |- context [(?a <? ?b)%N] => destruct (N.ltb_spec a b); try lia
  end.

Lemma eval_r J r a b : length r = 256%nat -> map (eval (env3 J r a b)) (ins 0 256) = r.
Proof.
  intros. apply eval_ins_gen; auto. intros i Hi. unfold env3. nsplit. f_equal. lia.
Qed.
Lemma eval_a J r a b : length a = 256%nat -> map (eval (env3 J r a b)) (ins 256 256) = a.
Proof.
  intros. apply eval_ins_gen; auto. intros i Hi. unfold env3. nsplit. f_equal. lia.
Qed.
Lemma eval_b J r a b : length b = 256%nat -> map (eval (env3 J r a b)) (ins 512 256) = b.
Proof.
  intros. apply eval_ins_gen; auto. intros i Hi. unfold env3. nsplit. f_equal. lia.
Qed.
Lemma eval_junk J r a b : map (eval (env3 J r a b)) (ins 4096 16) = @local J 16.
Proof.
  apply eval_ins_gen; [reflexivity|]. intros i Hi. unfold env3, local. nsplit.
  unfold junk. replace (N.to_nat (4096 + N.of_nat i - 4096)) with i by lia.
  do 16 (destruct i as [|i]; [reflexivity|]). lia.
Qed.
Lemma eval_sregs J r a b : map (map (eval (env3 J r a b))) sregs = @regs0 J.
Proof. unfold sregs, regs0. cbn [repeat map]. now rewrite !eval_junk. Qed.
Lemma eval_qdata env : map (eval env) sqdata = qdata.
Proof. unfold sqdata. rewrite map_map. apply map_id. Qed.

(** Result of a symbolic run. *)
Definition sym_run (code : list instr) (m : list (list tm)) : option (list tm * trace) :=
  match run Slanes code (St sregs m) with
  | Ok s t => match nth_error (mem s) 0 with Some r => Some (r, t) | None => None end
  | _ => None
  end.

Lemma sym_run_spec J r a b code m M out t :
  sym_run code m = Some (out, t) -> map (map (eval (env3 J r a b))) m = M ->
  @run_asm J code M = Ok (map (eval (env3 J r a b)) out) t.
Proof.
  unfold sym_run, run_asm. intros E <-.
  destruct (run Slanes code (St sregs m)) as [s t'| | |] eqn:Er; try discriminate.
  destruct (nth_error (mem s) 0) eqn:En; [|discriminate]. injection E as <- <-.
  apply (run_sym (env3 J r a b)) in Er. unfold mapst in Er at 1. cbn [ymm mem] in Er.
  rewrite eval_sregs in Er. rewrite Er. cbn [bind mem mapst].
  rewrite (map_nth_error _ _ _ En). cbn. now rewrite app_nil_r.
Qed.

(** ** The coefficient order used by the AVX2 code in the NTT domain *)
(** Position [p] of an array in that order holds coefficient [avx_ix p]. *)
Definition avx_ix (p : nat) : nat := (128 * (p / 128) + 8 * (p mod 16) + (p / 16) mod 8)%nat.
Definition avx_order (f : list Z) : list Z := mkpoly (fun p => coef f (avx_ix p)).

(** ** Checking a symbolic result *)
Definition check_out (B : N -> option (Z * Z)) (lo hi : Z) (ex : list lx) (out : list tm) : bool :=
  (length out =? length ex)%nat &&
  forallb (fun p => match norm B (nth p out (Kc 0)) with
                    | Some (l, h, e) => (lo <=? l) && (h <=? hi) && lx_eqb e (nth p ex (LI 0))
                    | None => false
                    end) (seq 0 (length ex)).

Lemma check_out_spec B env lo hi ex out :
  (forall k l h, B k = Some (l, h) -> l <= env k <= h) ->
  check_out B lo hi ex out = true ->
  length out = length ex /\ bnd lo hi (map (eval env) out) /\
  lcong (map (eval env) out) (map (leval env) ex).
Proof.
  intros HB E. apply andb_true_iff in E as [El E]. apply Nat.eqb_eq in El.
  rewrite forallb_forall in E.
  assert (G : forall i, (i < length ex)%nat ->
    lo <= nth i (map (eval env) out) 0 <= hi /\
    nth i (map (eval env) out) 0 ≡ nth i (map (leval env) ex) 0).
  { intros i Hi. specialize (E i ltac:(apply in_seq; lia)).
    destruct (norm B (nth i out (Kc 0))) as [[[l h] e]|] eqn:En; [|discriminate].
    apply andb_true_iff in E as [E Ee]. apply lx_eqb_eq in Ee.
    destruct (norm_sound B env _ _ _ _ HB En) as (R & _ & C).
    rewrite (nth_indep (map (eval env) out) 0 (eval env (Kc 0))) by (rewrite map_length; lia).
    rewrite (nth_indep (map (leval env) ex) 0 (leval env (LI 0))) by (rewrite map_length; lia).
    rewrite !map_nth, <- Ee. split; [lia|exact C]. }
  split; [exact El|]. split.
  - intros i Hi. rewrite map_length in Hi. apply G. lia.
  - split; [now rewrite !map_length|]. intros i Hi. rewrite map_length in Hi. apply G. lia.
Qed.

(** ** Reference butterflies on expressions *)
Definition lzero : lx := LM 0 (LI 0).
Definition xlayer (len k0 : nat) (r : list lx) : list lx :=
  map (fun i =>
    let z := nth (k0 + i / (2 * len)) zetas 0 in
    if (i mod (2 * len) <? len)%nat
    then LA (nth i r lzero) (LM z (nth (i + len) r lzero))
    else LS (nth (i - len) r lzero) (LM z (nth i r lzero))) (seq 0 256).
Fixpoint xlayers (l : nat) (r : list lx) : list lx :=
  match l with O => r | S l' => xlayer (128 / 2 ^ l') (2 ^ l') (xlayers l' r) end.
Definition xilayer (len k0 : nat) (r : list lx) : list lx :=
  map (fun i =>
    let z := nth (k0 - i / (2 * len)) zetas 0 in
    if (i mod (2 * len) <? len)%nat
    then LA (nth i r lzero) (nth (i + len) r lzero)
    else LM z (LS (nth i r lzero) (nth (i - len) r lzero))) (seq 0 256).
Fixpoint xilayers (l : nat) (r : list lx) : list lx :=
  match l with O => r | S l' => xilayer (2 * 2 ^ l') (128 / 2 ^ l' - 1) (xilayers l' r) end.

Lemma leval_nth env r i : leval env (nth i r lzero) = nth i (map (leval env) r) 0.
Proof. symmetry. apply (map_nth (leval env) r lzero i). Qed.

Lemma zeta_cong k x : 169 * nth k zetas 0 * x ≡ zstd k * x.
Proof. rewrite <- zstd_cong. apply cong_eq. lia. Qed.

Lemma xlayer_eval env len k0 r :
  lcong (map (leval env) (xlayer len k0 r)) (layer len k0 (map (leval env) r)).
Proof.
  unfold xlayer, layer. rewrite map_map. split; [now rewrite mk_length, map_length|].
  intros i Hi. rewrite map_length in Hi.
  change (map ?f (seq 0 256)) with (mk 256 f).
  rewrite !nth_mk by (rewrite seq_length in Hi; exact Hi). cbv zeta. unfold layer_coef.
  destruct (_ <? _)%nat; cbn [leval]; rewrite !leval_nth, zeta_cong; reflexivity.
Qed.
Lemma xlayers_eval env l r : lcong (map (leval env) (xlayers l r)) (layers l (map (leval env) r)).
Proof.
  induction l; [reflexivity|]. cbn [xlayers layers].
  etransitivity; [apply xlayer_eval|apply layer_cong, IHl].
Qed.
Lemma xilayer_eval env len k0 r :
  lcong (map (leval env) (xilayer len k0 r)) (ilayer len k0 (map (leval env) r)).
Proof.
  unfold xilayer, ilayer. rewrite map_map. split; [now rewrite mk_length, map_length|].
  intros i Hi. rewrite map_length in Hi.
  change (map ?f (seq 0 256)) with (mk 256 f).
  rewrite !nth_mk by (rewrite seq_length in Hi; exact Hi). cbv zeta. unfold ilayer_coef.
  destruct (_ <? _)%nat; cbn [leval]; rewrite !leval_nth, ?zeta_cong; reflexivity.
Qed.
Lemma xilayers_eval env l r : lcong (map (leval env) (xilayers l r)) (ilayers l (map (leval env) r)).
Proof.
  induction l; [reflexivity|]. cbn [xilayers ilayers].
  etransitivity; [apply xilayer_eval|apply ilayer_cong, IHl].
Qed.

Definition B1 (b : Z) (k : N) : option (Z * Z) := if (k <? 256)%N then Some (- b, b) else None.

Definition ntt_ref : list lx :=
  let l := xlayers 7 (map (fun i => LI (N.of_nat i)) (seq 0 256)) in
  map (fun p => nth (avx_ix p) l lzero) (seq 0 256).
(** [avx_pos] is the inverse of [avx_ix]. *)
Definition avx_pos (n : nat) : nat := (128 * (n / 128) + 16 * (n mod 8) + (n mod 128) / 8)%nat.
Definition intt_ref : list lx :=
  xilayers 7 (map (fun i => LM 1441 (LI (N.of_nat (avx_pos i)))) (seq 0 256)).

Definition chk_sym B lo hi ex (o : option (list tm * trace)) : bool :=
  match o with Some (out, _) => check_out B lo hi ex out | None => false end.
Definition trace_of (o : option (list tm * trace)) : trace :=
  match o with Some (_, t) => t | None => [] end.

Lemma asm_spec (JJ : Junk) r a b code m M B lo hi ex S :
  sym_run code m = S -> chk_sym B lo hi ex S = true ->
  map (map (eval (env3 JJ r a b))) m = M ->
  (forall k l h, B k = Some (l, h) -> l <= env3 JJ r a b k <= h) ->
  wp (run_asm code M) (trace_of S)
     (fun r' => length r' = length ex /\ bnd lo hi r' /\
                lcong r' (map (leval (env3 JJ r a b)) ex)).
Proof.
  intros Es E EM HB. destruct S as [[out t]|]; [|discriminate].
  cbn [chk_sym trace_of] in *.
  exists (map (eval (env3 JJ r a b)) out). split; [apply (sym_run_spec _ _ _ _ _ _ _ _ _ Es EM)|].
  destruct (check_out_spec _ _ _ _ _ _ HB E) as (L & Bo & C).
  split; [now rewrite map_length|]. auto.
Qed.

Lemma all256 (P : nat -> bool) : forallb P (seq 0 256) = true -> forall i, (i < 256)%nat -> P i = true.
Proof. intros H i Hi. rewrite forallb_forall in H. apply H, in_seq. lia. Qed.

Lemma avx_ix_lt p : (p < 256)%nat -> (avx_ix p < 256)%nat.
Proof.
  intros H. apply Nat.ltb_lt. revert p H. apply (all256 (fun p => avx_ix p <? 256)%nat).
  vm_compute. reflexivity.
Qed.
Lemma avx_pos_lt p : (p < 256)%nat -> (avx_pos p < 256)%nat.
Proof.
  intros H. apply Nat.ltb_lt. revert p H. apply (all256 (fun p => avx_pos p <? 256)%nat).
  vm_compute. reflexivity.
Qed.
Lemma avx_ix_pos p : (p < 256)%nat -> avx_ix (avx_pos p) = p.
Proof.
  intros H. apply Nat.eqb_eq. revert p H. apply (all256 (fun p => avx_ix (avx_pos p) =? p)%nat).
  vm_compute. reflexivity.
Qed.
Lemma avx_pos_ix p : (p < 256)%nat -> avx_pos (avx_ix p) = p.
Proof.
  intros H. apply Nat.eqb_eq. revert p H. apply (all256 (fun p => avx_pos (avx_ix p) =? p)%nat).
  vm_compute. reflexivity.
Qed.

Lemma avx_order_length f : length (avx_order f) = 256%nat. Proof. apply mkpoly_length. Qed.
Lemma avx_order_nth f p : (p < 256)%nat -> nth p (avx_order f) 0 = nth (avx_ix p) f 0.
Proof. intros. unfold avx_order. now rewrite nth_mkpoly. Qed.
Lemma avx_order_cong f g : lcong f g -> lcong (avx_order f) (avx_order g).
Proof.
  intros H. split; [now rewrite !avx_order_length|]. intros i Hi. rewrite avx_order_length in Hi.
  rewrite !avx_order_nth by auto. now apply lcong_nth.
Qed.

(** ** ntt.S *)
Definition ntt_sym := sym_run ntt_avx_code [ins 0 256; sqdata].
Lemma ntt_sym_eq : sym_run ntt_avx_code [ins 0 256; sqdata] = ntt_sym.
Proof. unfold ntt_sym. reflexivity. Qed.
Lemma ntt_chk : chk_sym (B1 3329) (-16182) 16182 ntt_ref ntt_sym = true.
Proof. vm_compute. reflexivity. Qed.
Local Opaque ntt_sym.

Lemma B1_env B JJ r a b : 0 <= B -> babs B r ->
  forall k l h, B1 B k = Some (l, h) -> l <= env3 JJ r a b k <= h.
Proof.
  intros HB Hr k l h. unfold B1, env3. destruct (k <? 256)%N; [|discriminate].
  intros [= <- <-]. now apply babs_nth.
Qed.

Lemma leval_ins env b m : map (leval env) (map (fun i => LI (b + N.of_nat i)) (seq 0 m)) =
  map (eval env) (ins b m).
Proof. unfold ins. rewrite !map_map. reflexivity. Qed.

Lemma ntt_avx_wp :
  traced (fun T => forall (JJ : Junk) r, length r = 256%nat -> babs 3329 r ->
    wp (ntt_avx r) T (fun r' => length r' = 256%nat /\ babs 16182 r' /\
                                lcong r' (avx_order (NTT r)))).
Proof.
  exists (trace_of ntt_sym). intros JJ r Hl Hr. unfold ntt_avx.
  eapply wp_conseq.
  { apply (asm_spec JJ r [] [] ntt_avx_code [ins 0 256; sqdata] [r; qdata] _ _ _ _ _ ntt_sym_eq ntt_chk).
    - cbn [map]. now rewrite eval_r, eval_qdata by auto.
    - apply B1_env; auto. lia. }
  intros r' (L & Bo & C).
  assert (Lr : length ntt_ref = 256%nat) by (unfold ntt_ref; now rewrite map_length, seq_length).
  split; [congruence|]. split; [exact Bo|].
  etransitivity; [exact C|]. etransitivity; [|apply avx_order_cong, ntt_z_spec, Hl].
  split; [rewrite map_length, avx_order_length; exact Lr|].
  intros p Hp. rewrite map_length, Lr in Hp. rewrite avx_order_nth by auto.
  rewrite (nth_indep _ 0 (leval (env3 JJ r [] []) lzero)) by (rewrite map_length, Lr; auto).
  rewrite map_nth. unfold ntt_ref. cbv zeta.
  rewrite (nth_indep _ lzero (nth (avx_ix 0) (xlayers 7 (map (fun i => LI (N.of_nat i)) (seq 0 256))) lzero))
    by (now rewrite map_length, seq_length).
  rewrite (map_nth (fun p => nth (avx_ix p) _ lzero)), seq_nth, leval_nth by auto.
  rewrite (lcong_nth _ _ _ (xlayers_eval _ 7 _)).
  replace (map (leval (env3 JJ r [] [])) (map (fun i => LI (N.of_nat i)) (seq 0 256))) with r.
  - reflexivity.
  - pose proof (leval_ins (env3 JJ r [] []) 0 256) as E. cbn [N.add] in E. rewrite E.
    symmetry. now apply eval_r.
Qed.

(** ** invntt.S *)
Definition intt_sym := sym_run invntt_avx_code [ins 0 256; sqdata].
Lemma intt_sym_eq : sym_run invntt_avx_code [ins 0 256; sqdata] = intt_sym.
Proof. unfold intt_sym. reflexivity. Qed.
Lemma intt_chk : chk_sym (B1 32767) (-14929) 14929 intt_ref intt_sym = true.
Proof. vm_compute. reflexivity. Qed.
Local Opaque intt_sym.
Local Opaque ntt_sym.

Lemma ilayers_scale l c r : length r = 256%nat ->
  lcong (ilayers l (scale c r)) (scale c (ilayers l r)).
Proof.
  intros Hr. induction l; [reflexivity|]. cbn [ilayers].
  etransitivity; [apply ilayer_cong, IHl|]. apply ilayer_scale.
  now apply ilayers_length.
Qed.

Lemma xilayers_length l r : length r = 256%nat -> length (xilayers l r) = 256%nat.
Proof. intros H. destruct l; [exact H|]. apply map_length. Qed.
Lemma intt_ref_length : length intt_ref = 256%nat.
Proof. apply xilayers_length. now rewrite map_length, seq_length. Qed.
Lemma intt_ref_eval env : lcong (map (leval env) intt_ref)
  (ilayers 7 (mk 256 (fun i => 169 * 1441 * env (N.of_nat (avx_pos i))))).
Proof.
  unfold intt_ref. etransitivity; [apply xilayers_eval|]. rewrite map_map. reflexivity.
Qed.

Lemma invntt_avx_wp :
  traced (fun T => forall (JJ : Junk) r F, length r = 256%nat -> babs 32767 r -> length F = 256%nat ->
    lcong r (avx_order F) ->
    wp (invntt_avx r) T (fun r' => length r' = 256%nat /\ babs 14929 r' /\
                                   lcong r' (scale 65536 (NTTinv F)))).
Proof.
  exists (trace_of intt_sym). intros JJ r F Hl Hr HF HC. unfold invntt_avx.
  eapply wp_conseq.
  { apply (asm_spec JJ r [] [] invntt_avx_code [ins 0 256; sqdata] [r; qdata] _ _ _ _ _ intt_sym_eq intt_chk).
    - cbn [map]. now rewrite eval_r, eval_qdata by auto.
    - apply B1_env; auto. lia. }
  intros r' (L & Bo & C).
  assert (Lr := intt_ref_length).
  split; [congruence|]. split; [exact Bo|].
  etransitivity; [exact C|]. etransitivity; [|apply invntt_z_spec, HF].
  etransitivity; [apply intt_ref_eval|]. unfold invntt_z.
  etransitivity; [|now apply ilayers_scale].
  apply ilayers_cong.
  split; [unfold scale; now rewrite !mk_length|].
  intros i Hi. rewrite mk_length in Hi. rewrite nth_mk, nth_scale by (auto; lia).
  unfold env3. pose proof (avx_pos_lt i Hi).
  destruct (N.ltb_spec (N.of_nat (avx_pos i)) 256); [|lia]. rewrite Nnat.Nat2N.id.
  rewrite (lcong_nth _ _ (avx_pos i) HC), avx_order_nth, avx_ix_pos by auto.
  exists (73 * nth i F 0). lia.
Qed.

(** ** basemul.S *)
Definition basemul_ref : list lx :=
  map (fun p =>
    let m := avx_ix p in
    let c := (m / 2)%nat in
    let p0 := N.of_nat (avx_pos (2 * c)) in
    let p1 := N.of_nat (avx_pos (2 * c + 1)) in
    let a0 := LI (256 + p0) in let a1 := LI (256 + p1) in
    let b0 := LI (512 + p0) in let b1 := LI (512 + p1) in
    let z := nth (64 + c / 2) zetas 0 in
    if Nat.even m then
      if Nat.even c then LA (LM z (LM 1 (LX a1 b1))) (LM 1 (LX a0 b0))
      else LS (LM 1 (LX a0 b0)) (LM z (LM 1 (LX a1 b1)))
    else LA (LM 1 (LX a0 b1)) (LM 1 (LX a1 b0))) (seq 0 256).
Definition B3 (ba bb : Z) (k : N) : option (Z * Z) :=
  if (k <? 256)%N then None
  else if (k <? 512)%N then Some (- ba, ba)
  else if (k <? 768)%N then Some (- bb, bb) else None.
Lemma B3_env ba bb JJ r a b : 0 <= ba -> 0 <= bb -> babs ba a -> babs bb b ->
  forall k l h, B3 ba bb k = Some (l, h) -> l <= env3 JJ r a b k <= h.
Proof.
  intros Ha Hb Ba Bb k l h. unfold B3, env3.
  destruct (k <? 256)%N; [discriminate|]. destruct (k <? 512)%N.
  - intros [= <- <-]. now apply babs_nth.
  - destruct (k <? 768)%N; [|discriminate]. intros [= <- <-]. now apply babs_nth.
Qed.
Definition basemul_in : list (list tm) := [ins 0 256; ins 256 256; ins 512 256; sqdata; ins 4096 16].
Definition basemul_sym := sym_run basemul_avx_code basemul_in.
Lemma basemul_sym_eq : sym_run basemul_avx_code basemul_in = basemul_sym.
Proof. unfold basemul_sym. reflexivity. Qed.
Lemma basemul_chk : chk_sym (B3 4095 16182) (-5350) 5350 basemul_ref basemul_sym = true.
Proof. vm_compute. reflexivity. Qed.
Local Opaque basemul_sym.

Lemma avx_order_at a F m : lcong a (avx_order F) -> (m < 256)%nat -> nth (avx_pos m) a 0 ≡ nth m F 0.
Proof.
  intros H Hm. pose proof (avx_pos_lt m Hm).
  now rewrite (lcong_nth _ _ (avx_pos m) H), avx_order_nth, avx_ix_pos by auto.
Qed.

Lemma basemul_avx_wp :
  traced (fun T => forall (JJ : Junk) r a b F G, length r = 256%nat -> length a = 256%nat ->
    length b = 256%nat -> babs 4095 a -> babs 16182 b ->
    lcong a (avx_order F) -> lcong b (avx_order G) ->
    wp (basemul_avx r a b) T (fun r' => length r' = 256%nat /\ babs 5350 r' /\
       lcong r' (avx_order (scale 169 (MultiplyNTTs F G))))).
Proof.
  exists (trace_of basemul_sym). intros JJ r a b F G Lr La Lb Ba Bb CF CG. unfold basemul_avx.
  eapply wp_conseq.
  { apply (asm_spec JJ r a b basemul_avx_code basemul_in [r; a; b; qdata; local 16] _ _ _ _ _ basemul_sym_eq basemul_chk).
    - unfold basemul_in. cbn [map]. now rewrite eval_r, eval_a, eval_b, eval_qdata, eval_junk by auto.
    - apply B3_env; auto; lia. }
  intros r' (L & Bo & C).
  assert (Lx : length basemul_ref = 256%nat) by (unfold basemul_ref; now rewrite map_length, seq_length).
  split; [congruence|]. split; [exact Bo|].
  etransitivity; [exact C|]. unfold basemul_ref. rewrite map_map. change (map ?f (seq 0 256)) with (mk 256 f).
  split; [now rewrite mk_length, avx_order_length|]. intros p Hp. rewrite mk_length in Hp.
  rewrite nth_mk, avx_order_nth by auto. pose proof (avx_ix_lt p Hp) as Hm.
  assert (LM' : length (MultiplyNTTs F G) = 256%nat) by apply mkpoly_length.
  rewrite nth_scale by lia. generalize dependent (avx_ix p). clear p Hp. intros m Hm. cbv zeta.
  set (c := (m / 2)%nat).
  assert (Hc : (c < 128)%nat) by (apply Nat.div_lt_upper_bound; lia).
  assert (P0 := avx_pos_lt (2 * c) ltac:(lia)). assert (P1 := avx_pos_lt (2 * c + 1) ltac:(lia)).
  assert (Ev : forall x, (x < 256)%nat -> env3 JJ r a b (256 + N.of_nat x) = nth x a 0 /\
                                  env3 JJ r a b (512 + N.of_nat x) = nth x b 0).
  { intros x Hx. unfold env3. nsplit. split; f_equal; lia. }
  destruct (Ev _ P0) as [Ea0 Eb0]. destruct (Ev _ P1) as [Ea1 Eb1].
  pose proof (avx_order_at a F (2 * c) CF ltac:(lia)) as Fa0.
  pose proof (avx_order_at a F (2 * c + 1) CF ltac:(lia)) as Fa1.
  pose proof (avx_order_at b G (2 * c) CG ltac:(lia)) as Gb0.
  pose proof (avx_order_at b G (2 * c + 1) CG ltac:(lia)) as Gb1.
  destruct (zstd_gamma (c / 2) ltac:(apply Nat.div_lt_upper_bound; lia)) as [G0 G1].
  pose proof (Nat.div_mod m 2 ltac:(lia)) as Dm. pose proof (Nat.mod_upper_bound m 2 ltac:(lia)).
  pose proof (Nat.div_mod c 2 ltac:(lia)) as Dc. pose proof (Nat.mod_upper_bound c 2 ltac:(lia)).
  fold c in Dm.
  destruct (Nat.even m) eqn:Em.
  - assert (Hm0 : (m mod 2 = 0)%nat).
    { apply Nat.even_spec in Em as [x ->]. rewrite Nat.mul_comm. now apply Nat.mod_mul. }
    replace (nth m (MultiplyNTTs F G) 0) with (nth (2 * c + 0) (MultiplyNTTs F G) 0) by (f_equal; lia).
    rewrite MultiplyNTTs_nth by (auto; lia). cbn [Nat.eqb]. unfold q.
    destruct (Nat.even c) eqn:Ec.
    + assert (Hc0 : (c mod 2 = 0)%nat).
      { apply Nat.even_spec in Ec as [x ->]. rewrite Nat.mul_comm. now apply Nat.mod_mul. }
      replace (2 * (c / 2))%nat with c in G0 by lia.
      cbn [leval]. rewrite Ea0, Ea1, Eb0, Eb1, Fa0, Fa1, Gb0, Gb1, cong_mod, zeta_cong, G0.
      apply cong_eq. unfold coef. ring.
    + assert (Hc1 : (c mod 2 = 1)%nat).
      { rewrite <- Nat.negb_odd in Ec. apply negb_false_iff, Nat.odd_spec in Ec as [x ->].
        rewrite Nat.add_comm, Nat.mul_comm, Nat.mod_add; auto. }
      replace (2 * (c / 2) + 1)%nat with c in G1 by lia.
      cbn [leval]. rewrite Ea0, Ea1, Eb0, Eb1, Fa0, Fa1, Gb0, Gb1, cong_mod, zeta_cong, <- G1.
      apply cong_eq. unfold coef. ring.
  - assert (Hm1 : (m mod 2 = 1)%nat).
    { rewrite <- Nat.negb_odd in Em. apply negb_false_iff, Nat.odd_spec in Em as [x ->].
      rewrite Nat.add_comm, Nat.mul_comm, Nat.mod_add; auto. }
    replace (nth m (MultiplyNTTs F G) 0) with (nth (2 * c + 1) (MultiplyNTTs F G) 0) by (f_equal; lia).
    rewrite MultiplyNTTs_nth by (auto; lia). cbn [Nat.eqb]. unfold q.
    cbn [leval]. rewrite Ea0, Ea1, Eb0, Eb1, Fa0, Fa1, Gb0, Gb1, cong_mod. apply cong_eq. unfold coef. ring.
Qed.

(** ** fq.S *)
Definition reduce_sym := sym_run reduce_avx_code [ins 0 256; sqdata].
Lemma reduce_sym_eq : sym_run reduce_avx_code [ins 0 256; sqdata] = reduce_sym.
Proof. unfold reduce_sym. reflexivity. Qed.
Lemma reduce_chk : chk_sym (B1 32767) 0 3329 (map (fun i => LI (N.of_nat i)) (seq 0 256)) reduce_sym = true.
Proof. vm_compute. reflexivity. Qed.
Local Opaque reduce_sym.

Lemma leval_idenv JJ r a b : length r = 256%nat ->
  map (leval (env3 JJ r a b)) (map (fun i => LI (N.of_nat i)) (seq 0 256)) = r.
Proof.
  intros Hl. pose proof (leval_ins (env3 JJ r a b) 0 256) as E. cbn [N.add] in E. rewrite E.
  now apply eval_r.
Qed.

Lemma reduce_avx_wp :
  traced (fun T => forall (JJ : Junk) r, length r = 256%nat -> babs 32767 r ->
    wp (reduce_avx r) T (fun r' => length r' = 256%nat /\ bnd 0 3329 r' /\ lcong r' r)).
Proof.
  exists (trace_of reduce_sym). intros JJ r Hl Hr. unfold reduce_avx.
  eapply wp_conseq.
  { apply (asm_spec JJ r [] [] reduce_avx_code [ins 0 256; sqdata] [r; qdata] _ _ _ _ _ reduce_sym_eq reduce_chk).
    - cbn [map]. now rewrite eval_r, eval_qdata by auto.
    - apply B1_env; auto. lia. }
  intros r' (L & Bo & C). rewrite leval_idenv in C by auto.
  split; [|split; auto]. now rewrite (proj1 C).
Qed.

Definition tomont_sym := sym_run tomont_avx_code [ins 0 256; sqdata].
Lemma tomont_sym_eq : sym_run tomont_avx_code [ins 0 256; sqdata] = tomont_sym.
Proof. unfold tomont_sym. reflexivity. Qed.
Lemma tomont_chk : chk_sym (B1 32767) (-2341) 2341
  (map (fun i => LM 1353 (LI (N.of_nat i))) (seq 0 256)) tomont_sym = true.
Proof. vm_compute. reflexivity. Qed.
Local Opaque tomont_sym.

Lemma tomont_avx_wp :
  traced (fun T => forall (JJ : Junk) r, length r = 256%nat -> babs 32767 r ->
    wp (tomont_avx r) T (fun r' => length r' = 256%nat /\ babs 2341 r' /\ lcong r' (scale 65536 r))).
Proof.
  exists (trace_of tomont_sym). intros JJ r Hl Hr. unfold tomont_avx.
  eapply wp_conseq.
  { apply (asm_spec JJ r [] [] tomont_avx_code [ins 0 256; sqdata] [r; qdata] _ _ _ _ _ tomont_sym_eq tomont_chk).
    - cbn [map]. now rewrite eval_r, eval_qdata by auto.
    - apply B1_env; auto. lia. }
  intros r' (L & Bo & C).
  split; [|split; [exact Bo|]].
  - now rewrite L, map_length, seq_length.
  - etransitivity; [exact C|]. rewrite map_map. change (map ?f (seq 0 256)) with (mk 256 f).
    split; [unfold scale; now rewrite !mk_length|].
    intros i Hi. rewrite mk_length in Hi. rewrite nth_mk, nth_scale by (auto; lia). cbn [leval].
    unfold env3. destruct (N.ltb_spec (N.of_nat i) 256); [|lia]. rewrite Nnat.Nat2N.id.
    exists (49 * nth i r 0). lia.
Qed.
