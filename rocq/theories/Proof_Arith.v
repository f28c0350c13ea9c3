(** * C77: sums and differences with every aliasing, in both versions *)
From Coq Require Import ZArith List Lia Bool NArith.
From Verif Require Import CMonad WP Proof_Base Proof_Vocab Model_Params Model_Poly Proof_Bits Proof_Poly Proof_Verify Vocab Vocab_Arith Cases
  Model_AvxIntrin Model_AvxCode Model_AvxC Model_AvxArith Proof_AvxBits Proof_AvxVec Proof_AvxCompress Proof_AvxDecompress Proof_AvxMisc.
Import ListNotations.
Open Scope Z_scope.

Lemma wrap16_i16 x : wrap16 x = i16 x. Proof. reflexivity. Qed.
Lemma wrap16_small x : -32768 <= x <= 32767 -> wrap16 x = x.
Proof. intros H. unfold wrap16. rewrite Z.mod_small; lia. Qed.
Lemma oval_argument r o i : oval r o i = nth i (argument r o) 0. Proof. destruct o; reflexivity. Qed.

Lemma coefficientwise_mk op f g : length f = 256%nat -> length g = 256%nat ->
  coefficientwise op f g = mk 256 (fun i => i16 (op (nth i f 0) (nth i g 0))).
Proof.
  intros Lf Lg. unfold coefficientwise. apply (list_eq_nth 0); [rewrite map_length, combine_length, mk_length; lia|].
  intros i Hi. rewrite map_length, combine_length, Lf, Lg in Hi. change (Nat.min 256 256) with 256%nat in Hi. rewrite nth_mk by lia.
  rewrite (nth_indep _ 0 (wrap16 (op (fst (0, 0)) (snd (0, 0))))) by (rewrite map_length, combine_length; lia).
  rewrite (map_nth (fun p => wrap16 (op (fst p) (snd p)))), combine_nth by lia. reflexivity.
Qed.
Lemma argument_olen r o : length r = 256%nat -> int16_poly (argument r o) -> olen o.
Proof. intros L [H _]. destruct o; [exact I|exact H]. Qed.
Lemma argument_range r o i : int16_poly (argument r o) -> (i < 256)%nat -> -32768 <= nth i (argument r o) 0 <= 32767.
Proof. intros [L R] Hi. apply R, nth_In. lia. Qed.

(** ** Reference *)
Lemma ref_add : exists T, forall r a b, length r = 256%nat -> int16_poly (argument r a) -> int16_poly (argument r b) ->
  poly_add r a b = Ok (coefficientwise Z.add (argument r a) (argument r b)) T.
Proof.
  assert (W : traced (fun T => forall r a b, length r = 256%nat -> int16_poly (argument r a) -> int16_poly (argument r b) ->
    wp (poly_add r a b) T (fun r' => r' = mk 256 (fun i => i16 (nth i (argument r a) 0 + nth i (argument r b) 0))))).
  { eexists. intros r a b Hl Ha Hb. unfold poly_add, KYBER_N.
    pose proof (argument_olen r a Hl Ha) as Oa. pose proof (argument_olen r b Hl Hb) as Ob.
    eapply wp_conseq.
    { eapply (wp_pointwise_gen 0 _ (fun i x y => y = i16 (oval r a i + oval r b i))); auto.
      intros i r1 Hi Hl1 E.
      assert (Ea : oval r1 a i = oval r a i) by (destruct a; simpl; auto).
      assert (Eb : oval r1 b i = oval r b i) by (destruct b; simpl; auto).
      pose proof (argument_range r a i Ha Hi) as Ra. pose proof (argument_range r b i Hb Hi) as Rb. rewrite <- oval_argument in Ra, Rb.
      wstep. eapply oget_wp; auto. wstep. eapply oget_wp; auto. wstep. wstep; [lia|]. wstep; [lia|].
      eexists. split; [reflexivity|]. now rewrite Ea, Eb. }
    intros r' (Hl' & H'). apply (list_eq_nth 0); [now rewrite mk_length|].
    intros i Hi. rewrite Hl' in Hi. rewrite nth_mk by auto. rewrite <- !oval_argument. now apply H'. }
  destruct W as [T W]. exists T. intros r a b Hl Ha Hb. destruct (W r a b Hl Ha Hb) as (v & E & ->). rewrite E. f_equal.
  symmetry. apply coefficientwise_mk; [apply Ha|apply Hb].
Qed.
Lemma ref_sub : exists T, forall r a b, length r = 256%nat -> int16_poly (argument r a) -> int16_poly (argument r b) ->
  poly_sub r a b = Ok (coefficientwise Z.sub (argument r a) (argument r b)) T.
Proof.
  assert (W : traced (fun T => forall r a b, length r = 256%nat -> int16_poly (argument r a) -> int16_poly (argument r b) ->
    wp (poly_sub r a b) T (fun r' => r' = mk 256 (fun i => i16 (nth i (argument r a) 0 - nth i (argument r b) 0))))).
  { eexists. intros r a b Hl Ha Hb. unfold poly_sub, KYBER_N.
    pose proof (argument_olen r a Hl Ha) as Oa. pose proof (argument_olen r b Hl Hb) as Ob.
    eapply wp_conseq.
    { eapply (wp_pointwise_gen 0 _ (fun i x y => y = i16 (oval r a i - oval r b i))); auto.
      intros i r1 Hi Hl1 E.
      assert (Ea : oval r1 a i = oval r a i) by (destruct a; simpl; auto).
      assert (Eb : oval r1 b i = oval r b i) by (destruct b; simpl; auto).
      pose proof (argument_range r a i Ha Hi) as Ra. pose proof (argument_range r b i Hb Hi) as Rb. rewrite <- oval_argument in Ra, Rb.
      wstep. eapply oget_wp; auto. wstep. eapply oget_wp; auto. wstep. wstep; [lia|]. wstep; [lia|].
      eexists. split; [reflexivity|]. now rewrite Ea, Eb. }
    intros r' (Hl' & H'). apply (list_eq_nth 0); [now rewrite mk_length|].
    intros i Hi. rewrite Hl' in Hi. rewrite nth_mk by auto. rewrite <- !oval_argument. now apply H'. }
  destruct W as [T W]. exists T. intros r a b Hl Ha Hb. destruct (W r a b Hl Ha Hb) as (v & E & ->). rewrite E. f_equal.
  symmetry. apply coefficientwise_mk; [apply Ha|apply Hb].
Qed.

(** ** AVX2 *)
Lemma vec_op_wrap p o (op : Z -> Z -> Z) (a b D : list Z) i :
  check p [win 0 16; win 16 16] [0%nat] [lanes2 o] = true -> outw o = 16%nat ->
  (forall x y, i16 (asem o (u16 x) (u16 y)) = i16 (op x y)) ->
  (16 * i + 16 <= length a)%nat -> (16 * i + 16 <= length b)%nat -> length D = 256%nat -> (i < 16)%nat ->
  (forall x, (16 * i <= x < 16 * i + 16)%nat -> nth x D 0 = i16 (op (nth x a 0) (nth x b 0))) ->
  exists r, exec_c p [bits_words 16 (sub a (16 * i) 16); bits_words 16 (sub b (16 * i) 16)] [0%nat] = ret r /\
    map i16 (words_bits 16 (out r 0)) = sub D (16 * i) 16.
Proof.
  intros C Ho HO La Lb LD Hi HD.
  pose proof (check_spec _ _ _ _ C (fun _ => false) (wenv2 a b (16 * i))) as E.
  cbn [map] in E. rewrite <- win2_a, <- (win2_b a b) in E by lia.
  eexists. split; [exact E|]. cbn [out nth]. rewrite lanes2_words by auto.
  apply (sub_eq_map D (16 * i) _ _ 0%nat); [now rewrite seq_length|lia|].
  intros l Hl. rewrite seq_nth by lia. rewrite HO. unfold wenv2. rewrite !Nnat.Nat2N.id.
  destruct (Nat.ltb_spec (0 + l) 16); [|lia]. destruct (Nat.ltb_spec (16 + (0 + l)) 16); [lia|].
  replace (16 * i + (0 + l))%nat with (16 * i + l)%nat by lia.
  replace (16 * i + (16 + (0 + l)) - 16)%nat with (16 * i + l)%nat by lia.
  apply HD. lia.
Qed.
Lemma wp_oload r o i (Q : list bool -> Prop) : (i < 16)%nat -> length (argument r o) = 256%nat ->
  Q (bits_words 16 (sub (argument r o) (16 * i) 16)) -> wp (oload r o i) [EvIndex (16 * i)] Q.
Proof. intros Hi L HQ. destruct o; cbn [oload argument] in *; (apply wp_load_vec; [lia|exact HQ]). Qed.
Lemma argument_length r s o : length r = 256%nat -> length s = 256%nat -> length (argument r o) = 256%nat -> length (argument s o) = 256%nat.
Proof. destruct o; auto. Qed.

Lemma avx_wrap p o op : check p [win 0 16; win 16 16] [0%nat] [lanes2 o] = true -> outw o = 16%nat ->
  (forall x y, i16 (asem o (u16 x) (u16 y)) = i16 (op x y)) ->
  traced (fun T => forall r a b, length r = 256%nat -> length (argument r a) = 256%nat -> length (argument r b) = 256%nat ->
    wp (for_ 16 0 (fun i r => bind (oload r a i) (fun f0 => bind (oload r b i) (fun f1 => bind (exec_c p [f0; f1] [0%nat]) (fun o => store_vec r i (out o 0))))) r) T
      (fun r' => r' = mk 256 (fun i => i16 (op (nth i (argument r a) 0) (nth i (argument r b) 0))))).
Proof.
  intros C Ho HO. eexists. intros r a b Hr La Lb. set (D := mk 256 (fun i => i16 (op (nth i (argument r a) 0) (nth i (argument r b) 0)))).
  assert (LD : length D = 256%nat) by apply mk_length.
  assert (HD : forall x, (x < 256)%nat -> nth x D 0 = i16 (op (nth x (argument r a) 0) (nth x (argument r b) 0))) by (intros; unfold D; now rewrite nth_mk).
  eapply (wp_for _ (fun i s => inplace r D (16 * i) s)); [split; auto| |intros s U; now apply (inplace_end r)].
  intros i s Hi U. pose proof (proj1 U) as Ls.
  pose proof (argument_length r s a Hr Ls La) as La'. pose proof (argument_length r s b Hr Ls Lb) as Lb'.
  apply wp_bind. apply wp_oload; [lia|exact La'|]. apply wp_bind. apply wp_oload; [lia|exact Lb'|]. apply wp_bind.
  assert (KEEP : forall c x, (16 * i <= x < 16 * i + 16)%nat -> nth x (argument s c) 0 = nth x (argument r c) 0).
  { intros [|l] x Hx; cbn [argument]; [|reflexivity]. rewrite (proj2 U) by lia. destruct (Nat.ltb_spec x (16 * i)); [lia|reflexivity]. }
  destruct (vec_op_wrap p o op (argument s a) (argument s b) D i C Ho HO) as (o' & E & W); [lia|lia|exact LD|lia| |].
  { intros x Hx. rewrite HD by lia. now rewrite !KEEP. }
  eapply wp_exec; [exact E|]. eapply inplace_store; [exact U|exact LD|lia|exact W|auto].
Qed.
Lemma avx_add : exists T, forall r a b, length r = 256%nat -> int16_poly (argument r a) -> int16_poly (argument r b) ->
  poly_add_any_avx2 r a b = Ok (coefficientwise Z.add (argument r a) (argument r b)) T.
Proof.
  destruct (avx_wrap add_body (AAdd 16) Z.add add_chk eq_refl add_sem) as [T W]. exists T. intros r a b Hr [La _] [Lb _].
  destruct (W r a b Hr La Lb) as (v & E & ->). unfold poly_add_any_avx2. rewrite E. f_equal. symmetry. now apply coefficientwise_mk.
Qed.
Lemma avx_sub : exists T, forall r a b, length r = 256%nat -> int16_poly (argument r a) -> int16_poly (argument r b) ->
  poly_sub_any_avx2 r a b = Ok (coefficientwise Z.sub (argument r a) (argument r b)) T.
Proof.
  destruct (avx_wrap sub_body (ASub 16) Z.sub sub_chk eq_refl sub_sem) as [T W]. exists T. intros r a b Hr [La _] [Lb _].
  destruct (W r a b Hr La Lb) as (v & E & ->). unfold poly_sub_any_avx2. rewrite E. f_equal. symmetry. now apply coefficientwise_mk.
Qed.

(** The forms used by the rest of the model *)
Lemma any_forms r a b : poly_add_any_avx2 r (Other a) (Other b) = poly_add_avx2 r a b /\
  poly_add_any_avx2 r Self (Other b) = poly_add_to_avx2 r b /\ poly_sub_any_avx2 r (Other a) Self = poly_sub_from_avx2 r a.
Proof. split; [reflexivity|]. split; reflexivity. Qed.

Lemma same_results r a b : length r = 256%nat -> int16_poly (argument r a) -> int16_poly (argument r b) ->
  exists v w T1 T2 T3 T4, poly_add r a b = Ok v T1 /\ poly_add_any_avx2 r a b = Ok v T2 /\ poly_sub r a b = Ok w T3 /\ poly_sub_any_avx2 r a b = Ok w T4.
Proof.
  intros Lr Ha Hb. destruct ref_add as [T1 W1], avx_add as [T2 W2], ref_sub as [T3 W3], avx_sub as [T4 W4].
  eexists _, _, T1, T2, T3, T4. repeat split; auto.
Qed.
Lemma no_wrap op f g : (forall x y, In (x, y) (combine f g) -> -32768 <= op x y <= 32767) ->
  coefficientwise op f g = map (fun p => op (fst p) (snd p)) (combine f g).
Proof. intros R. unfold coefficientwise. apply map_ext_in. intros [x y] I. apply wrap16_small, R, I. Qed.
Lemma any_forms' r a b : poly_add_avx2 r a b = poly_add_any_avx2 r (Other a) (Other b) /\
  poly_add_to_avx2 r b = poly_add_any_avx2 r Self (Other b) /\ poly_sub_from_avx2 r a = poly_sub_any_avx2 r (Other a) Self.
Proof. split; [reflexivity|]. split; reflexivity. Qed.
Lemma both_add : exists T1 T2, forall r a b, length r = 256%nat -> int16_poly (argument r a) -> int16_poly (argument r b) ->
  poly_add r a b = Ok (coefficientwise Z.add (argument r a) (argument r b)) T1 /\
  poly_add_any_avx2 r a b = Ok (coefficientwise Z.add (argument r a) (argument r b)) T2.
Proof. destruct ref_add as [T1 W1], avx_add as [T2 W2]. exists T1, T2. intros. split; [now apply W1|now apply W2]. Qed.
Lemma both_sub : exists T1 T2, forall r a b, length r = 256%nat -> int16_poly (argument r a) -> int16_poly (argument r b) ->
  poly_sub r a b = Ok (coefficientwise Z.sub (argument r a) (argument r b)) T1 /\
  poly_sub_any_avx2 r a b = Ok (coefficientwise Z.sub (argument r a) (argument r b)) T2.
Proof. destruct ref_sub as [T1 W1], avx_sub as [T2 W2]. exists T1, T2. intros. split; [now apply W1|now apply W2]. Qed.
Lemma wrapped_meaning op f g i : length f = 256%nat -> length g = 256%nat -> (i < 256)%nat ->
  let c := nth i (coefficientwise op f g) 0 in let t := op (nth i f 0) (nth i g 0) in
  -32768 <= c <= 32767 /\ (c - t) mod 65536 = 0 /\ (-32768 <= t <= 32767 -> c = t).
Proof.
  intros Lf Lg Hi c t. assert (E : c = wrap16 t) by (unfold c; now rewrite coefficientwise_mk, nth_mk by assumption).
  clearbody c t. subst c. unfold wrap16. pose proof (Z.mod_pos_bound (t + 32768) 65536 eq_refl). pose proof (Z.div_mod (t + 32768) 65536 ltac:(lia)).
  split; [lia|]. split.
  - replace ((t + 32768) mod 65536 - 32768 - t) with ((- ((t + 32768) / 65536)) * 65536) by lia. apply Z.mod_mul. lia.
  - intros R. rewrite Z.mod_small; lia.
Qed.
Lemma arith_case : int16_poly (scattered 32000) /\ argument (scattered 32000) Self = scattered 32000 /\
  (exists i, (i < 256)%nat /\ nth i (coefficientwise Z.add (scattered 32000) (scattered 32000)) 0 <> 2 * nth i (scattered 32000) 0) /\
  (exists i, (i < 256)%nat /\ nth i (coefficientwise Z.add (scattered 32000) (scattered 32000)) 0 = 2 * nth i (scattered 32000) 0).
Proof.
  assert (R : forallb (fun x => (-32768 <=? x) && (x <=? 32767)) (scattered 32000) = true) by (vm_compute; reflexivity).
  split.
  { split; [vm_compute; reflexivity|]. intros x I. rewrite forallb_forall in R. specialize (R x I). apply andb_prop in R. destruct R as [A B].
    apply Z.leb_le in A. apply Z.leb_le in B. lia. }
  assert (L : length (scattered 32000) = 256%nat) by (vm_compute; reflexivity).
  split; [reflexivity|]. split.
  - exists 0%nat. split; [lia|]. rewrite coefficientwise_mk, nth_mk by (exact L || lia).
    change (nth 0 (scattered 32000) 0) with (-32000). vm_compute. discriminate.
  - exists 4%nat. split; [lia|]. rewrite coefficientwise_mk, nth_mk by (exact L || lia).
    replace (nth 4 (scattered 32000) 0) with 764 by (vm_compute; reflexivity). reflexivity.
Qed.
