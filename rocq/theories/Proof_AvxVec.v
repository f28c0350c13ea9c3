(** * Loads, stores and the two shapes of vector loops: packed fields to words
    and words to packed fields *)
From Coq Require Import ZArith List Lia Bool NArith.
From Verif Require Import CMonad WP Proof_Base Proof_Bits Proof_Codec Model_AvxIntrin Model_AvxC Proof_AvxBits Spec_FIPS203.
Import ListNotations.
Open Scope Z_scope.

(** ** Loads and stores *)
Lemma wp_load_vec p i (Q : list bool -> Prop) : (16 * i + 16 <= length p)%nat ->
  Q (bits_words 16 (sub p (16 * i) 16)) -> wp (load_vec p i) [EvIndex (16 * i)] Q.
Proof.
  intros H HQ. unfold load_vec, mload. destruct (Nat.leb_spec (16 * i + 16) (length p)); [|lia].
  eexists. split; [reflexivity|exact HQ].
Qed.
Lemma wp_load_bytes p off n (Q : list bool -> Prop) : (off + n <= length p)%nat ->
  Q (bits_words 8 (sub p off n)) -> wp (load_bytes p off n) [EvIndex off] Q.
Proof.
  intros H HQ. unfold load_bytes, mload. destruct (Nat.leb_spec (off + n) (length p)); [|lia].
  eexists. split; [reflexivity|exact HQ].
Qed.
Lemma wp_store_vec r i v w (Q : list Z -> Prop) : map i16 (words_bits 16 v) = w -> length w = 16%nat ->
  (16 * i + 16 <= length r)%nat ->
  Q (splice r (16 * i) w) -> wp (store_vec r i v) [EvIndex (16 * i)] Q.
Proof.
  intros E L H HQ. unfold store_vec, mstore. rewrite E, L. destruct (Nat.leb_spec (16 * i + 16) (length r)); [|lia].
  eexists. split; [reflexivity|]. unfold splice in HQ. now rewrite L in HQ.
Qed.
Lemma wp_store_bytes r off v w (Q : list Z -> Prop) : words_bits 8 v = w ->
  (off + length w <= length r)%nat ->
  Q (splice r off w) -> wp (store_bytes r off v) [EvIndex off] Q.
Proof.
  intros E H HQ. unfold store_bytes, mstore. rewrite E. destruct (Nat.leb_spec (off + length w) (length r)); [|lia].
  eexists. split; [reflexivity|exact HQ].
Qed.
Lemma wp_exec p ins outs o (Q : list (list bool) -> Prop) : exec_c p ins outs = ret o -> Q o -> wp (exec_c p ins outs) [] Q.
Proof. intros E HQ. exists o. now rewrite E. Qed.

(** ** Chunks *)
Lemma chunks_concat {A} w (ls : list (list A)) : (0 < w)%nat -> (forall l, In l ls -> length l = w) -> chunks w (concat ls) = ls.
Proof.
  intros Hw H.
  assert (L : length (concat ls) = (length ls * w)%nat).
  { clear -H. induction ls as [|a ls IH]; [reflexivity|]. cbn [concat length]. rewrite app_length, IH by (intros; apply H; now right).
    rewrite (H a) by now left. lia. }
  unfold chunks. rewrite L, Nat.div_mul by lia. clear L.
  revert H. induction ls as [|a ls IH]; intros H; [reflexivity|]. cbn [length seq map concat].
  assert (La : length a = w) by (apply H; now left). f_equal.
  - rewrite Nat.mul_0_l. cbn [skipn]. rewrite <- La. rewrite firstn_app, Nat.sub_diag, firstn_all, firstn_O. apply app_nil_r.
  - rewrite <- seq_shift, map_map. etransitivity; [|apply IH; intros; apply H; now right].
    apply map_ext. intros i. replace (S i * w)%nat with (length a + i * w)%nat by lia.
    rewrite <- (skipn_skipn (i * w) (length a)). now rewrite skipn_app, skipn_all, Nat.sub_diag.
Qed.
Lemma words_bits_blocks w {B} (f : B -> Z) ps : (0 < w)%nat ->
  words_bits w (flat_map (fun p => bits_of w (f p)) ps) = map (fun p => f p mod 2 ^ Z.of_nat w) ps.
Proof.
  intros Hw. unfold words_bits. rewrite flat_map_concat_map, chunks_concat; auto.
  - rewrite map_map. apply map_ext. intros p. apply value_bits_of.
  - intros l Hl. apply in_map_iff in Hl as (p & <- & _). apply bits_of_length.
Qed.
Lemma i16_mod65536 x : i16 (x mod 65536) = i16 x.
Proof. unfold i16, wraps. change (2 ^ 16) with 65536. now rewrite Zplus_mod_idemp_l. Qed.

(** Bit [j] of a byte string *)
Lemma nth_bits_words w l j : (0 < w)%nat -> nth j (bits_words w l) false =
  Z.testbit (nth (j / w) l 0) (Z.of_nat (j mod w)).
Proof.
  intros Hw. revert j. induction l as [|x l IH]; intros j; cbn [bits_words flat_map].
  - rewrite !nth_overflow by (cbn; lia). symmetry. apply Z.testbit_0_l.
  - destruct (Nat.ltb_spec j w) as [H|H].
    + rewrite app_nth1 by (now rewrite bits_of_length). rewrite nth_bits_of.
      destruct (Nat.ltb_spec j w); [|lia]. now rewrite Nat.div_small, Nat.mod_small by lia.
    + rewrite app_nth2 by (now rewrite bits_of_length). rewrite bits_of_length. fold (bits_words w l). rewrite IH.
      replace j with ((j - w) + 1 * w)%nat at 3 4 by lia.
      rewrite Nat.div_add, Nat.mod_add by lia. replace ((j - w) / w + 1)%nat with (S ((j - w) / w)) by lia. reflexivity.
Qed.
Lemma bits_words_length w l : length (bits_words w l) = (w * length l)%nat.
Proof. induction l as [|x l IH]; cbn [bits_words flat_map length]; [lia|]. rewrite app_length, bits_of_length. fold (bits_words w l). lia. Qed.
Lemma bits_words_app w x y : bits_words w (x ++ y) = bits_words w x ++ bits_words w y.
Proof. apply flat_map_app. Qed.

(** ** Packed fields to words *)
Definition fieldv (b : list bool) (p d : nat) : Z := value (firstn d (skipn p b)).
Lemma testbit_fieldv b p d y : Z.testbit (fieldv b p d) (Z.of_nat y) = ((y <? d)%nat && nth (p + y) b false).
Proof.
  unfold fieldv. rewrite testbit_value. destruct (Nat.ltb_spec y d).
  - rewrite nth_firstn. destruct (Nat.ltb_spec y d); [|lia]. cbn [andb]. 
    revert b. induction p as [|p IH]; intros b; [reflexivity|]. destruct b; [now destruct y|]. apply IH.
  - apply nth_overflow. rewrite firstn_length. lia.
Qed.
Lemma fieldv_range b p d : 0 <= fieldv b p d < 2 ^ Z.of_nat d.
Proof.
  unfold fieldv. pose proof (value_range (firstn d (skipn p b))) as [H1 H2]. split; auto.
  eapply Z.lt_le_trans; [exact H2|]. apply Z.pow_le_mono_r; [lia|]. rewrite firstn_length. lia.
Qed.
Lemma fieldv_field buf off n p d base len x :
  (8 * off + p = 8 * base + d * x)%nat -> (p + d <= 8 * n)%nat -> (off + n <= length buf)%nat ->
  (d * x + d <= 8 * len)%nat -> (base + len <= length buf)%nat ->
  fieldv (bits_words 8 (sub buf off n)) p d = field d (sub buf base len) x.
Proof.
  intros E Hn Hb Hx HB. apply (bits_ext d); [apply fieldv_range|apply field_range|].
  intros y Hy. rewrite testbit_fieldv. destruct (Nat.ltb_spec y d); [|lia]. cbn [andb].
  rewrite nth_bits_words by lia.
  pose proof (Nat.div_mod (d * x + y) 8 ltac:(lia)) as DM.
  pose proof (Nat.mod_upper_bound (d * x + y) 8 ltac:(lia)) as MB.
  pose proof (Nat.div_mod (p + y) 8 ltac:(lia)) as DM2.
  pose proof (Nat.mod_upper_bound (p + y) 8 ltac:(lia)) as MB2.
  rewrite (field_testbit d _ ((d * x + y) / 8) ((d * x + y) mod 8) x y) by (rewrite ?sub_length; lia).
  rewrite !nth_sub by lia.
  replace ((d * x + y) mod 8)%nat with ((p + y) mod 8)%nat by lia.
  do 2 f_equal. lia.
Qed.

Fixpoint pieces {A} (ls : list nat) (b : list A) : list (list A) :=
  match ls with [] => [] | l :: ls' => firstn l b :: pieces ls' (skipn l b) end.
Lemma map_pieces {A B} (f : A -> B) ls : forall b, pieces ls (map f b) = map (map f) (pieces ls b).
Proof. induction ls as [|l ls IH]; intros b; [reflexivity|]. cbn [pieces map]. now rewrite skipn_map, firstn_map, IH. Qed.

Definition wordz (T : list bx) (z : Z) : Z := i16 (value (map (bval (fun m => Z.testbit z (Z.of_N m)) (fun _ => 0)) T)).
(** The words of one vector: (template, position of its field) *)
Definition wexp (Ts : list (list bx)) (ps : list (nat * nat)) : list bx :=
  flat_map (fun tp => map (bren (N.add (N.of_nat (snd tp))) (fun x => x)) (nth (fst tp) Ts [])) ps.
Definition tok (d : nat) (T : list bx) : bool := (length T =? 16)%nat && forallb (blim (N.of_nat d)) T.
Lemma exec_words NB ls p outs Ts d pss g :
  check p (pieces ls (bin 0 NB)) outs (map (wexp Ts) pss) = true ->
  forallb (tok d) Ts = true -> forallb (forallb (fun tp => (fst tp <? length Ts)%nat)) pss = true ->
  (forall T, In T Ts -> forall z, 0 <= z < 2 ^ Z.of_nat d -> wordz T z = g z) ->
  forall b, length b = NB -> exists o, exec_c p (pieces ls b) outs = ret o /\
    forall k, (k < length pss)%nat -> map i16 (words_bits 16 (out o k)) = map (fun tp => g (fieldv b (snd tp) d)) (nth k pss []).
Proof.
  intros C TOK IX G b Lb. set (eb := fun n : N => nth (N.to_nat n) b false).
  pose proof (check_spec _ _ _ _ C eb (fun _ => 0)) as H.
  rewrite <- map_pieces, bin_bits in H.
  replace (map (fun i => eb (N.of_nat i)) (seq 0 NB)) with b in H.
  2:{ apply (nth_ext _ _ false false); [now rewrite map_length, seq_length|]. intros i Hi.
      symmetry. rewrite (nth_indep _ false (eb (N.of_nat 0))) by (rewrite map_length, seq_length; lia).
      rewrite (map_nth (fun i => eb (N.of_nat i))), seq_nth by lia. unfold eb. now rewrite Nnat.Nat2N.id. }
  eexists. split; [exact H|]. intros k Hk.
  unfold out. rewrite map_map. rewrite (nth_indep _ [] (map (bval eb (fun _ => 0)) (wexp Ts []))) by (now rewrite map_length).
  rewrite (map_nth (fun x => map (bval eb (fun _ => 0)) (wexp Ts x))).
  assert (IXk : forall tp, In tp (nth k pss []) -> In (nth (fst tp) Ts []) Ts).
  { intros tp Htp. rewrite forallb_forall in IX. specialize (IX (nth k pss []) (nth_In _ _ Hk)).
    rewrite forallb_forall in IX. specialize (IX _ Htp). apply Nat.ltb_lt in IX. now apply nth_In. }
  set (ps := nth k pss []) in *. unfold wexp.
  rewrite flat_map_concat_map, concat_map, map_map.
  set (wz := fun tp : nat * nat => value (map (bval (fun m => Z.testbit (fieldv b (snd tp) d) (Z.of_N m)) (fun _ => 0)) (nth (fst tp) Ts []))).
  transitivity (map i16 (words_bits 16 (flat_map (fun tp => bits_of 16 (wz tp)) ps))).
  - do 2 f_equal. rewrite flat_map_concat_map. f_equal. apply map_ext_in. intros x Hx. rewrite brens_ok.
    rewrite forallb_forall in TOK. specialize (TOK _ (IXk _ Hx)). apply andb_true_iff in TOK as [LT BT]. apply Nat.eqb_eq in LT.
    unfold wz. rewrite bits_of_value by (now rewrite map_length).
    symmetry. apply (blims_ok (N.of_nat d)); auto. intros n Hn. unfold eb.
    replace (Z.of_N n) with (Z.of_nat (N.to_nat n)) by lia. rewrite testbit_fieldv.
    destruct (Nat.ltb_spec (N.to_nat n) d); [|lia]. cbn [andb]. f_equal. lia.
  - rewrite words_bits_blocks, map_map by lia. apply map_ext_in. intros x Hx.
    etransitivity; [apply i16_mod65536|]. apply (G _ (IXk _ Hx)). apply fieldv_range.
Qed.

(** The vectors stored so far *)
Definition upto (D : list Z) (m : nat) (r : list Z) : Prop :=
  length r = 256%nat /\ forall x, (x < m)%nat -> nth x r 0 = nth x D 0.
Lemma upto_store D r i v (Q : list Z -> Prop) : upto D (16 * i) r -> length D = 256%nat -> (i < 16)%nat ->
  map i16 (words_bits 16 v) = sub D (16 * i) 16 ->
  (forall r', upto D (16 * i + 16) r' -> Q r') -> wp (store_vec r i v) [EvIndex (16 * i)] Q.
Proof.
  intros [L U] LD Hi E HQ. assert (LS : length (sub D (16 * i) 16) = 16%nat) by (apply sub_length; lia).
  eapply wp_store_vec; [exact E|exact LS|lia|]. apply HQ. split; [rewrite splice_length; lia|].
  intros x Hx. rewrite nth_splice by lia. rewrite LS.
  destruct (Nat.ltb_spec x (16 * i)); [now apply U|]. destruct (Nat.ltb_spec x (16 * i + 16)); [|lia].
  rewrite nth_sub by lia. f_equal. lia.
Qed.
Lemma upto_end D r : length D = 256%nat -> upto D 256 r -> r = D.
Proof. intros LD [L U]. apply (list_eq_nth 0); [lia|]. intros x Hx. apply U. lia. Qed.
Lemma upto_weaken D m m' r : upto D m r -> (m' <= m)%nat -> upto D m' r.
Proof. intros [L U] H. split; auto. intros; apply U; lia. Qed.
Lemma sub_eq_map D m {B} (f : B -> Z) (ps : list B) (dB : B) : length ps = 16%nat -> (m + 16 <= length D)%nat ->
  (forall l, (l < 16)%nat -> nth (m + l) D 0 = f (nth l ps dB)) -> map f ps = sub D m 16.
Proof.
  intros Lp LD H. apply (list_eq_nth 0); [rewrite map_length, sub_length; lia|].
  intros l Hl. rewrite map_length in Hl. rewrite (nth_indep _ 0 (f dB)) by (rewrite map_length; lia).
  rewrite map_nth, nth_sub by lia. symmetry. apply H. lia.
Qed.

(** ** Words to packed fields *)
Definition bexp (Tb : list bx) (d s n : nat) : list bx :=
  map (fun j => bren (fun x => x) (fun _ => N.of_nat (j / d)) (nth (j mod d) Tb B0)) (seq s n).
Definition bitz (Tb : list bx) (v : Z) : Z := value (map (bval (fun _ => false) (fun _ => v)) Tb).
Lemma bexp_ok Tb d s n ew : length Tb = d -> (0 < d)%nat ->
  map (bval (fun _ => false) ew) (bexp Tb d s n) =
  map (fun j => Z.testbit (bitz Tb (ew (N.of_nat (j / d)))) (Z.of_nat (j mod d))) (seq s n).
Proof.
  intros L Hd. unfold bexp. rewrite map_map. apply map_ext. intros j.
  rewrite (proj1 (bren_ok _ _ _ _)). unfold bitz. rewrite testbit_value.
  rewrite (nth_indep _ false (bval (fun _ => false) (fun _ => ew (N.of_nat (j / d))) B0)).
  - now rewrite map_nth.
  - rewrite map_length, L. apply Nat.mod_upper_bound. lia.
Qed.
Lemma bytes_of_fields d F X Y m0 cnt :
  (d * X = 8 * Y)%nat -> (0 < d)%nat -> (Y + m0 + cnt <= length (ByteEncode d F))%nat ->
  words_bits 8 (map (fun j => Z.testbit (nth (X + j / d) F 0) (Z.of_nat (j mod d))) (seq (8 * m0) (8 * cnt))) =
  sub (ByteEncode d F) (Y + m0) cnt.
Proof.
  intros E Hd HL.
  assert (HL2 : (8 * (Y + m0 + cnt) <= d * length F)%nat).
  { rewrite ByteEncode_length in HL. pose proof (Nat.mul_div_le (d * length F) 8 ltac:(lia)). lia. }
  replace (map _ _) with (flat_map (fun m => bits_of 8 (nth (Y + m) (ByteEncode d F) 0)) (seq m0 cnt)).
  - rewrite words_bits_blocks by lia. apply (list_eq_nth 0); [now rewrite map_length, seq_length, sub_length by lia|].
    intros t Ht. rewrite map_length, seq_length in Ht.
    rewrite (nth_indep _ 0 (nth (Y + 0) (ByteEncode d F) 0 mod 2 ^ Z.of_nat 8)) by (rewrite map_length, seq_length; lia).
    rewrite (map_nth (fun m => nth (Y + m) (ByteEncode d F) 0 mod 2 ^ Z.of_nat 8)), seq_nth, nth_sub by lia.
    rewrite Z.mod_small by (apply ByteEncode_byte). f_equal. lia.
  - assert (G : forall c s, (s + c <= m0 + cnt)%nat ->
      flat_map (fun m => bits_of 8 (nth (Y + m) (ByteEncode d F) 0)) (seq s c) =
      map (fun j => Z.testbit (nth (X + j / d) F 0) (Z.of_nat (j mod d))) (seq (8 * s) (8 * c))); [|apply G; lia].
    induction c as [|c IH]; intros s Hs; [reflexivity|].
    replace (8 * S c)%nat with (8 + 8 * c)%nat by lia. rewrite seq_app, map_app. cbn [flat_map seq].
    rewrite IH by lia. replace (8 * s + 8)%nat with (8 * S s)%nat by lia. f_equal.
    unfold bits_of. rewrite <- (Nat.add_0_r (8 * s)).
    transitivity (map (fun j => (fun j => Z.testbit (nth (X + j / d) F 0) (Z.of_nat (j mod d))) (8 * s + j)%nat) (seq 0 8)).
    + apply map_ext_in. intros b Hb. apply in_seq in Hb. cbv beta.
      pose proof (Nat.div_mod (8 * s + b) d ltac:(lia)) as DM. pose proof (Nat.mod_upper_bound (8 * s + b) d ltac:(lia)) as MB.
      rewrite (ByteEncode_testbit d F (Y + s) b (X + (8 * s + b) / d) ((8 * s + b) mod d)); [reflexivity| | | |]; lia.
    + rewrite Nat.add_0_r. change (seq (8 * s) 8) with (seq (8 * s) 8). 
      rewrite <- (map_map (fun j => 8 * s + j)%nat (fun j => Z.testbit (nth (X + j / d) F 0) (Z.of_nat (j mod d)))).
      f_equal. cbn [seq map]. repeat (f_equal; try lia).
Qed.

(** Loaded words as an environment *)
Definition wenv (a : list Z) (base : nat) : N -> Z := fun n => nth (base + N.to_nat n) a 0.
Lemma win_loaded a i s eb base : (16 * i = base + s)%nat -> (16 * i + 16 <= length a)%nat ->
  bits_words 16 (sub a (16 * i) 16) = map (bval eb (wenv a base)) (win s 16).
Proof.
  intros E H. rewrite win_bits. f_equal. apply (list_eq_nth 0); [now rewrite map_length, seq_length, sub_length by lia|].
  intros l Hl. rewrite sub_length in Hl by lia. rewrite nth_sub by lia.
  symmetry. rewrite (nth_indep _ 0 (wenv a base (N.of_nat 0))) by (rewrite map_length, seq_length; lia).
  rewrite (map_nth (fun i => wenv a base (N.of_nat i))), seq_nth by lia. unfold wenv. rewrite Nnat.Nat2N.id. f_equal. lia.
Qed.
Lemma bexp_field Tb d s n a base F : length Tb = d -> (0 < d)%nat ->
  (forall j, (s <= j < s + n)%nat -> bitz Tb (nth (base + j / d) a 0) = nth (base + j / d) F 0) ->
  map (bval (fun _ => false) (wenv a base)) (bexp Tb d s n) =
  map (fun j => Z.testbit (nth (base + j / d) F 0) (Z.of_nat (j mod d))) (seq s n).
Proof.
  intros L Hd H. rewrite bexp_ok by auto. apply map_ext_in. intros j Hj. apply in_seq in Hj.
  unfold wenv. rewrite Nnat.Nat2N.id. now rewrite H by lia.
Qed.

(** Overlapping stores *)
Lemma splice_over {A} (l : list A) o a c b : (length c <= length b)%nat -> (o + length a + length b <= length l)%nat ->
  splice (splice l o (a ++ c)) (o + length a) b = splice l o (a ++ b).
Proof.
  intros Hc Hl. destruct b as [|d b']; [destruct c; [|cbn in Hc; lia]; now rewrite splice_nil|].
  set (b := d :: b') in *. clearbody b.
  assert (L1 : (o + length (a ++ c) <= length l)%nat) by (rewrite app_length; lia).
  assert (L2 : (o + length (a ++ b) <= length l)%nat) by (rewrite app_length; lia).
  apply (list_eq_nth d); [rewrite !splice_length by (rewrite ?splice_length; auto); reflexivity|].
  intros j Hj. rewrite !nth_splice; rewrite ?splice_length; auto; try lia. rewrite !app_length.
  repeat match goal with |- context [(?a <? ?b)%nat] => destruct (Nat.ltb_spec a b) end; try lia; auto.
  - rewrite !app_nth1 by lia. reflexivity.
  - rewrite app_nth2 by lia. f_equal. lia.
Qed.
