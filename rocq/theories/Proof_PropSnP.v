(** * The four-way state interface, on packed states *)
From Coq Require Import ZArith List Lia Bool.
From Verif Require Import CMonad WP Proof_Base Proof_Bits Model_Fips202 Spec_FIPS202 Proof_Keccak Proof_Sponge Proof_Shake
  Model_AvxKeccak Proof_AvxKeccak Model_AvxSnP Proof_SnPBase Proof_SnPBytes Proof_SnPLanes Proof_SnPPermute Vocab Vocab_Four Vocab_SnP.
Import ListNotations.
Open Scope Z_scope.

Definition of_states (S : list (list Z)) : nat -> nat -> Z := fun j b => nth b (nth j S []) 0.

Lemma all_bytes_bytes l : all_bytes l <-> bytes l.
Proof.
  split.
  - intros H i Hi. pose proof (H (nth i l 0) (nth_In _ _ Hi)). lia.
  - intros H x Hx. apply (In_nth _ _ 0) in Hx as (i & Hi & <-). pose proof (H i Hi). lia.
Qed.

Lemma instance_of S j : four_states S -> (j < 4)%nat -> length (nth j S []) = 200%nat /\ bytes (nth j S []).
Proof.
  intros [L H] Hj. destruct (H (nth j S [])) as [A B]; [apply nth_In; lia|]. split; auto. now apply all_bytes_bytes.
Qed.

Lemma of_states_range S : four_states S -> forall j b, 0 <= of_states S j b <= 255.
Proof.
  intros H j b. unfold of_states. destruct (Nat.ltb_spec j 4) as [Hj|Hj].
  - apply bytes_nth0. now apply instance_of.
  - destruct H as [L _]. rewrite (nth_overflow S) by lia. destruct b; cbn; lia.
Qed.

Lemma packed_length S : length (packed S) = 800%nat.
Proof. unfold packed. now rewrite map_length, seq_length. Qed.

Lemma packed_nth S l j m : (l < 25)%nat -> (j < 4)%nat -> (m < 8)%nat ->
  nth (32 * l + 8 * j + m) (packed S) 0 = of_states S j (8 * l + m).
Proof.
  intros Hl Hj Hm. unfold packed. rewrite (nth_mk 800 (fun p => nth (8 * (p / 32) + p mod 8) (nth (p mod 32 / 8) S []) 0)) by lia.
  unfold of_states.
  replace ((32 * l + 8 * j + m) / 32)%nat with l by (apply Nat.div_unique with (r := (8 * j + m)%nat); lia).
  replace ((32 * l + 8 * j + m) mod 32)%nat with (8 * j + m)%nat by (apply Nat.mod_unique with (q := l); lia).
  replace ((8 * j + m) / 8)%nat with j by (apply Nat.div_unique with (r := m); lia).
  replace ((32 * l + 8 * j + m) mod 8)%nat with m by (apply Nat.mod_unique with (q := (4 * l + j)%nat); lia).
  reflexivity.
Qed.

Lemma rep4_packed S : four_states S -> rep4 (of_states S) (packed S).
Proof.
  intros H. split; [apply packed_length|]. split; [now apply of_states_range|]. intros. now apply packed_nth.
Qed.

Lemma packed_rep4 g st S : rep4 g st -> (forall j b, (j < 4)%nat -> (b < 200)%nat -> g j b = nth b (nth j S []) 0) -> st = packed S.
Proof.
  intros (L & R & H) E. apply (list_eq_nth 0); [now rewrite packed_length|]. intros p Hp.
  destruct (pos_split p) as (l & j & m & Hl & Hj & Hm & ->); [lia|]. rewrite H, packed_nth by auto. apply E; lia.
Qed.

(** ** The vocabulary on positions *)
Lemma with_instance_nth S inst s j : length S = 4%nat -> (inst < 4)%nat ->
  nth j (with_instance S inst s) [] = if (j =? inst)%nat then s else nth j S [].
Proof.
  intros L Hi. unfold with_instance.
  destruct S as [|s0 [|s1 [|s2 [|s3 [|]]]]]; try discriminate L.
  do 4 (destruct inst as [|inst]; [do 5 (destruct j as [|j]; [reflexivity|]); reflexivity|]). lia.
Qed.

Lemma put_at_nth s off d i : (off + length d <= length s)%nat ->
  nth i (put_at s off d) 0 = if ((off <=? i) && (i <? off + length d))%nat then nth (i - off) d 0 else nth i s 0.
Proof.
  intros H. change (put_at s off d) with (splice s off d). rewrite nth_splice by auto. cmp.
Qed.
Lemma put_at_length s off d : (off + length d <= length s)%nat -> length (put_at s off d) = length s.
Proof. intros H. now apply splice_length. Qed.

Lemma bytes_at_length l off len : (off + len <= length l)%nat -> length (bytes_at l off len) = len.
Proof. intros H. unfold bytes_at. rewrite firstn_length, skipn_length. lia. Qed.
Lemma bytes_at_nth l off len i : (i < len)%nat -> nth i (bytes_at l off len) 0 = nth (off + i) l 0.
Proof. intros H. unfold bytes_at. rewrite nth_firstn, nth_skipn. destruct (Nat.ltb_spec i len); [reflexivity|lia]. Qed.

Lemma xor_lists_length a b : length (xor_lists a b) = Nat.min (length a) (length b).
Proof. unfold xor_lists. now rewrite map_length, combine_length. Qed.
Lemma xor_lists_nth a b i : length a = length b -> nth i (xor_lists a b) 0 = Z.lxor (nth i a 0) (nth i b 0).
Proof.
  intros H. unfold xor_lists. set (f := fun p : Z * Z => _). change (nth i (map f (combine a b)) (f (0, 0)) = Z.lxor (nth i a 0) (nth i b 0)).
  rewrite map_nth, combine_nth by auto. reflexivity.
Qed.

Lemma add_at_length s off d : (off + length d <= length s)%nat -> length (add_at s off d) = length s.
Proof.
  intros H. unfold add_at. apply put_at_length. rewrite xor_lists_length, bytes_at_length by auto. lia.
Qed.
Lemma add_at_nth s off d i : (off + length d <= length s)%nat ->
  nth i (add_at s off d) 0 = if ((off <=? i) && (i <? off + length d))%nat then Z.lxor (nth i s 0) (nth (i - off) d 0) else nth i s 0.
Proof.
  intros H. unfold add_at. rewrite put_at_nth; rewrite xor_lists_length, bytes_at_length, Nat.min_id by auto; [|auto].
  destruct (Nat.leb_spec off i), (Nat.ltb_spec i (off + length d)); cbn [andb]; auto.
  rewrite xor_lists_nth by (now rewrite bytes_at_length). rewrite bytes_at_nth by lia. f_equal. f_equal. lia.
Qed.

Lemma lanes_aligned_iff a off len : lanes_at_multiple_of_8 a off len -> lanes_aligned a off len.
Proof.
  intros H. unfold lanes_aligned, head_bytes. unfold lanes_at_multiple_of_8, slack8 in H.
  pose proof (Nat.mod_upper_bound off 8 ltac:(lia)) as M.
  destruct (Nat.ltb_spec 0 len) as [Hl|Hl]; cbn [andb]; [|left; lia].
  destruct (Nat.eqb_spec (off mod 8) 0) as [E|E]; cbn [negb].
  - rewrite E in H. change ((8 - 0) mod 8)%nat with 0%nat in H. destruct (Nat.ltb_spec len 8); [left; lia|right; apply H; lia].
  - rewrite (Nat.mod_small (8 - off mod 8)) in H by lia.
    destruct (Nat.leb_spec len (8 - off mod 8)) as [X|X].
    + left. rewrite Nat.min_r by lia. lia.
    + rewrite Nat.min_l by lia. destruct (Nat.ltb_spec len (8 - off mod 8 + 8)); [now left|right; apply H; lia].
Qed.

(** ** Bytes of one instance *)
Ltac run_wp W := let v := fresh "v" in let E := fresh "E" in let Hv := fresh "Hv" in
  destruct W as (v & E & Hv); rewrite E; f_equal.

Lemma snp_add_bytes : forall inst off len, (inst < 4)%nat -> (off + len <= 200)%nat -> exists T, forall S data a,
  four_states S -> all_bytes data -> (len <= length data)%nat -> lanes_at_multiple_of_8 a off len ->
  AddBytes (packed S) inst data a off len = Ok (packed (with_instance S inst (add_at (nth inst S []) off (firstn len data)))) T.
Proof.
  intros inst off len Hi Ho. destruct (AddBytes_wp inst off len Hi Ho) as [T W]. exists T.
  intros S data a HS Hd Hl HA. run_wp (W _ _ data a (rep4_packed S HS) (proj1 (all_bytes_bytes _) Hd) Hl (lanes_aligned_iff _ _ _ HA)).
  eapply packed_rep4; [exact Hv|]. intros j b Hj Hb. destruct (instance_of S inst HS Hi) as [Li _].
  rewrite with_instance_nth by (auto; apply HS). unfold put, of_states.
  destruct (Nat.eqb_spec j inst) as [->|N]; cbn [andb]; auto.
  rewrite add_at_nth by (rewrite firstn_length; lia). rewrite firstn_length, Nat.min_l by lia.
  destruct (Nat.leb_spec off b), (Nat.ltb_spec b (off + len)); cbn [andb]; auto.
  rewrite nth_firstn. destruct (Nat.ltb_spec (b - off) len); [reflexivity|lia].
Qed.

Lemma snp_overwrite_bytes : forall inst off len, (inst < 4)%nat -> (off + len <= 200)%nat -> exists T, forall S data a,
  four_states S -> all_bytes data -> (len <= length data)%nat -> lanes_at_multiple_of_8 a off len ->
  OverwriteBytes (packed S) inst data a off len = Ok (packed (with_instance S inst (put_at (nth inst S []) off (firstn len data)))) T.
Proof.
  intros inst off len Hi Ho. destruct (OverwriteBytes_wp inst off len Hi Ho) as [T W]. exists T.
  intros S data a HS Hd Hl HA. run_wp (W _ _ data a (rep4_packed S HS) (proj1 (all_bytes_bytes _) Hd) Hl (lanes_aligned_iff _ _ _ HA)).
  eapply packed_rep4; [exact Hv|]. intros j b Hj Hb. destruct (instance_of S inst HS Hi) as [Li _].
  rewrite with_instance_nth by (auto; apply HS). unfold put, of_states.
  destruct (Nat.eqb_spec j inst) as [->|N]; cbn [andb]; auto.
  rewrite put_at_nth by (rewrite firstn_length; lia). rewrite firstn_length, Nat.min_l by lia.
  destruct (Nat.leb_spec off b), (Nat.ltb_spec b (off + len)); cbn [andb]; auto.
  rewrite nth_firstn. destruct (Nat.ltb_spec (b - off) len); [reflexivity|lia].
Qed.

Lemma snp_overwrite_zeroes : forall inst len, (inst < 4)%nat -> (len <= 200)%nat -> exists T, forall S,
  four_states S -> OverwriteWithZeroes (packed S) inst len = Ok (packed (with_instance S inst (put_at (nth inst S []) 0 (repeat 0 len)))) T.
Proof.
  intros inst len Hi Ho. destruct (OverwriteWithZeroes_wp inst len Hi Ho) as [T W]. exists T.
  intros S HS. run_wp (W _ _ (rep4_packed S HS)).
  eapply packed_rep4; [exact Hv|]. intros j b Hj Hb. destruct (instance_of S inst HS Hi) as [Li _].
  rewrite with_instance_nth by (auto; apply HS). unfold put, of_states.
  destruct (Nat.eqb_spec j inst) as [->|N]; cbn [andb]; auto.
  rewrite put_at_nth by (rewrite repeat_length; lia). rewrite repeat_length.
  rewrite Nat.add_0_l. destruct (Nat.leb_spec 0 b), (Nat.ltb_spec b len); cbn [andb]; auto; try lia.
  symmetry. apply nth_repeat.
Qed.

Lemma snp_add_byte : forall inst off, (inst < 4)%nat -> (off < 200)%nat -> exists T, forall S v,
  four_states S -> 0 <= v <= 255 -> AddByte (packed S) inst v off = Ok (packed (with_instance S inst (add_at (nth inst S []) off [v]))) T.
Proof.
  intros inst off Hi Ho. destruct (AddByte_wp inst off Hi Ho) as [T W]. exists T.
  intros S v HS Hb0. run_wp (W _ _ v (rep4_packed S HS) Hb0).
  eapply packed_rep4; [exact Hv|]. intros j b Hj Hb. destruct (instance_of S inst HS Hi) as [Li _].
  rewrite with_instance_nth by (auto; apply HS). unfold put, of_states.
  destruct (Nat.eqb_spec j inst) as [->|N]; cbn [andb]; auto.
  rewrite add_at_nth by (cbn [length]; lia). cbn [length].
  destruct (Nat.leb_spec off b), (Nat.ltb_spec b (off + 1)); cbn [andb]; auto.
  replace (b - off)%nat with 0%nat by lia. reflexivity.
Qed.

Lemma snp_initialize : exists T, forall st, length st = 800%nat -> InitializeAll st = Ok (packed (repeat (repeat 0 200) 4)) T.
Proof.
  destruct InitializeAll_wp as [T W]. exists T. intros st L. run_wp (W st L).
  eapply packed_rep4; [exact Hv|]. intros j b Hj Hb.
  assert (EN : nth j (repeat (repeat 0 200) 4) [] = repeat 0 200).
  { rewrite (nth_indep _ [] (repeat 0 200)) by (rewrite repeat_length; lia). apply nth_repeat. }
  rewrite EN. symmetry. apply nth_repeat.
Qed.

Lemma mk_bytes_at f l off len : (off + len <= length l)%nat -> (forall i, (i < len)%nat -> f i = nth (off + i) l 0) -> mk len f = bytes_at l off len.
Proof.
  intros Hl H. apply (list_eq_nth 0); [now rewrite mk_length, bytes_at_length|].
  intros i Hi. rewrite mk_length in Hi. rewrite nth_mk, bytes_at_nth by auto. auto.
Qed.

Lemma snp_extract_bytes : forall inst off len, (inst < 4)%nat -> (off + len <= 200)%nat -> exists T, forall S data a,
  four_states S -> (len <= length data)%nat -> lanes_at_multiple_of_8 a off len ->
  ExtractBytes (packed S) inst data a off len = Ok (put_at data 0 (bytes_at (nth inst S []) off len)) T.
Proof.
  intros inst off len Hi Ho. destruct (ExtractBytes_wp inst off len Hi Ho) as [T W]. exists T.
  intros S data a HS Hl HA. run_wp (W _ _ data a (rep4_packed S HS) Hl (lanes_aligned_iff _ _ _ HA)). subst v.
  destruct (instance_of S inst HS Hi) as [Li _].
  rewrite (mk_bytes_at _ (nth inst S []) off len) by (auto; lia). reflexivity.
Qed.

Lemma snp_extract_add_bytes : forall inst io oo off len, (inst < 4)%nat -> (off + len <= 200)%nat -> (oo <= io \/ io + len <= oo)%nat -> exists T, forall S m a,
  four_states S -> all_bytes m -> (io + len <= length m)%nat -> (oo + len <= length m)%nat ->
  lanes_at_multiple_of_8 (a + Z.of_nat io) off len -> lanes_at_multiple_of_8 (a + Z.of_nat oo) off len ->
  ExtractAndAddBytes (packed S) inst m a io oo off len =
    Ok (put_at m oo (xor_lists (bytes_at m io len) (bytes_at (nth inst S []) off len))) T.
Proof.
  intros inst io oo off len Hi Ho Fl. destruct (ExtractAndAddBytes_wp inst io oo off len Hi Ho Fl) as [T W]. exists T.
  intros S m a HS Hd L1 L2 A1 A2.
  run_wp (W _ _ m a (rep4_packed S HS) (proj1 (all_bytes_bytes _) Hd) L1 L2 (lanes_aligned_iff _ _ _ A1) (lanes_aligned_iff _ _ _ A2)). subst v.
  destruct (instance_of S inst HS Hi) as [Li _]. change put_at with (@splice Z). f_equal.
  apply (list_eq_nth 0); [now rewrite mk_length, xor_lists_length, !bytes_at_length, Nat.min_id by lia|].
  intros i Hi'. rewrite mk_length in Hi'. rewrite nth_mk by auto.
  rewrite xor_lists_nth by (rewrite !bytes_at_length; lia). rewrite !bytes_at_nth by auto. reflexivity.
Qed.

(** ** Lanes of all instances *)
Lemma each_instance_nth f S j : (j < 4)%nat -> nth j (each_instance f S) [] = f j (nth j S []).
Proof.
  intros Hj. unfold each_instance. change (map (fun j => f j (nth j S [])) (seq 0 4)) with (mk 4 (fun j => f j (nth j S []))).
  now rewrite nth_mk.
Qed.

Lemma snp_add_lanes : forall o lc lo, (lc <= 25)%nat -> 24 * Z.of_nat lo < 2 ^ 32 -> exists T, forall S data a,
  four_states S -> all_bytes data -> (o + 24 * lo + 8 * lc <= length data)%nat -> (a + Z.of_nat o) mod 8 = 0 ->
  AddLanesAll (packed S) data a o lc lo =
    Ok (packed (each_instance (fun j s => add_at s 0 (bytes_at data (o + 8 * lo * j) (8 * lc))) S)) T.
Proof.
  intros o lc lo Hc Hlo. destruct (AddLanesAll_wp o lc lo Hc Hlo) as [T W]. exists T.
  intros S data a HS Hd Hl HA. run_wp (W _ _ data a (rep4_packed S HS) (proj1 (all_bytes_bytes _) Hd) Hl HA).
  eapply packed_rep4; [exact Hv|]. intros j b Hj Hb. destruct (instance_of S j HS Hj) as [Li _].
  rewrite each_instance_nth by auto.
  assert (8 * lo * j <= 8 * lo * 3)%nat by (apply Nat.mul_le_mono_l; lia).
  rewrite add_at_nth; rewrite bytes_at_length by lia; [|lia]. unfold upto, xored, of_states. rewrite Nat.add_0_l.
  destruct (Nat.leb_spec 0 b), (Nat.ltb_spec b (8 * lc)); cbn [andb]; auto; try lia.
  rewrite bytes_at_nth by lia. f_equal. f_equal. lia.
Qed.

Lemma snp_overwrite_lanes : forall lc lo, (lc <= 25)%nat -> 24 * Z.of_nat lo < 2 ^ 32 -> exists T, forall S data a,
  four_states S -> all_bytes data -> (24 * lo + 8 * lc <= length data)%nat -> a mod 8 = 0 ->
  OverwriteLanesAll (packed S) data a lc lo =
    Ok (packed (each_instance (fun j s => put_at s 0 (bytes_at data (8 * lo * j) (8 * lc))) S)) T.
Proof.
  intros lc lo Hc Hlo. destruct (OverwriteLanesAll_wp lc lo Hc Hlo) as [T W]. exists T.
  intros S data a HS Hd Hl HA. run_wp (W _ _ data a (rep4_packed S HS) (proj1 (all_bytes_bytes _) Hd) Hl HA).
  eapply packed_rep4; [exact Hv|]. intros j b Hj Hb. destruct (instance_of S j HS Hj) as [Li _].
  rewrite each_instance_nth by auto.
  assert (8 * lo * j <= 8 * lo * 3)%nat by (apply Nat.mul_le_mono_l; lia).
  rewrite put_at_nth; rewrite bytes_at_length by lia; [|lia]. unfold upto, of_states. rewrite Nat.add_0_l.
  destruct (Nat.leb_spec 0 b), (Nat.ltb_spec b (8 * lc)); cbn [andb]; auto; try lia.
  rewrite bytes_at_nth by lia. f_equal. lia.
Qed.

Lemma drawn_put_strips F data oo lo lc p d : drawn F data oo lo (fun _ => lc) d -> (lc <= lo)%nat ->
  (oo + 24 * lo + 8 * lc <= length data)%nat -> length p = 4%nat ->
  (forall j, (j < 4)%nat -> length (nth j p []) = (8 * lc)%nat /\ forall b, (b < 8 * lc)%nat -> nth b (nth j p []) 0 = F j b) ->
  d = put_strips data oo lo p.
Proof.
  intros [L H] Hc Hl Lp Hp. unfold put_strips. cbn [seq fold_left].
  destruct (Hp 0%nat ltac:(lia)) as [L0 H0]. destruct (Hp 1%nat ltac:(lia)) as [L1 H1].
  destruct (Hp 2%nat ltac:(lia)) as [L2 H2]. destruct (Hp 3%nat ltac:(lia)) as [L3 H3].
  set (p0 := nth 0 p []) in *. set (p1 := nth 1 p []) in *. set (p2 := nth 2 p []) in *. set (p3 := nth 3 p []) in *.
  clearbody p0 p1 p2 p3.
  set (e0 := put_at data _ p0). assert (E0 : length e0 = length data) by (apply put_at_length; lia).
  set (e1 := put_at e0 _ p1). assert (E1 : length e1 = length data) by (unfold e1; rewrite put_at_length; lia).
  set (e2 := put_at e1 _ p2). assert (E2 : length e2 = length data) by (unfold e2; rewrite put_at_length; lia).
  apply (list_eq_nth 0); [rewrite put_at_length; lia|]. intros i _. rewrite H.
  rewrite put_at_nth by lia. unfold e2. rewrite put_at_nth by lia. unfold e1. rewrite put_at_nth by lia.
  unfold e0. rewrite put_at_nth by lia. rewrite L0, L1, L2, L3.
  unfold wr. cbv zeta. destruct (Nat.eqb_spec lo 0) as [Z0|NZ].
  { assert (lc = 0)%nat by lia. subst. rewrite Nat.mul_0_r. rewrite (proj2 (Nat.ltb_ge _ 0) (Nat.le_0_l _)), andb_false_r.
    assert (X : forall x, (x <=? i)%nat && (i <? x + 0)%nat = false).
    { intros x. rewrite Nat.add_0_r. destruct (Nat.leb_spec x i), (Nat.ltb_spec i x); auto; lia. }
    now rewrite !X. }
  assert (X : forall j, ((oo + 8 * lo * j <=? i) && (i <? oo + 8 * lo * j + 8 * lc))%nat =
     ((oo <=? i) && ((i - oo) / (8 * lo) =? j) && ((i - oo) mod (8 * lo) <? 8 * lc))%nat).
  { intros j. assert (D := Nat.div_mod (i - oo) (8 * lo) ltac:(lia)).
    assert (M := Nat.mod_upper_bound (i - oo) (8 * lo) ltac:(lia)).
    set (jj := ((i - oo) / (8 * lo))%nat) in *. set (r := ((i - oo) mod (8 * lo))%nat) in *. clearbody jj r.
    destruct (Nat.eqb_spec jj j) as [->|N]; [cmp|].
    destruct (Nat.leb_spec oo i) as [P|P]; cbn [andb]; [|destruct (Nat.leb_spec (oo + 8 * lo * j) i); cbn [andb]; [lia|reflexivity]].
    destruct (Nat.leb_spec (oo + 8 * lo * j) i) as [P1|P1]; cbn [andb]; [|reflexivity].
    apply Nat.ltb_ge.
    assert (~ (jj < j)%nat) by (intros Y; assert (8 * lo * (jj + 1) <= 8 * lo * j)%nat by (apply Nat.mul_le_mono_l; lia); lia).
    assert (8 * lo * (j + 1) <= 8 * lo * jj)%nat by (apply Nat.mul_le_mono_l; lia). lia. }
  rewrite !X. assert (D := Nat.div_mod (i - oo) (8 * lo) ltac:(lia)). clear X.
  set (jj := ((i - oo) / (8 * lo))%nat) in *. set (r := ((i - oo) mod (8 * lo))%nat) in *. clearbody jj r.
  destruct (Nat.leb_spec oo i) as [P|P]; cbn [andb]; auto.
  destruct (Nat.ltb_spec r (8 * lc)) as [J|J]; [|now rewrite !andb_false_r].
  do 4 (destruct jj as [|jj]; [cbn [Nat.ltb Nat.leb Nat.eqb andb]; rewrite <- ?H0, <- ?H1, <- ?H2, <- ?H3 by exact J; f_equal; lia|]).
  cbn [Nat.ltb Nat.leb Nat.eqb andb]. reflexivity.
Qed.

Lemma snp_extract_lanes : forall lc lo, (lc <= 25)%nat -> (lc <= lo)%nat -> 24 * Z.of_nat lo < 2 ^ 32 -> exists T, forall S data a,
  four_states S -> all_bytes data -> (24 * lo + 8 * lc <= length data)%nat -> a mod 8 = 0 ->
  ExtractLanesAll (packed S) data a lc lo = Ok (put_strips data 0 lo (map (firstn (8 * lc)) S)) T.
Proof.
  intros lc lo Hc Hcl Hlo. destruct (ExtractLanesAll_wp lc lo Hc Hcl Hlo) as [T W]. exists T.
  intros S data a HS Hd Hl HA. run_wp (W _ _ data a (rep4_packed S HS) (proj1 (all_bytes_bytes _) Hd) Hl HA).
  eapply drawn_put_strips; [exact Hv|lia|lia|rewrite map_length; apply HS|].
  intros j Hj. destruct (instance_of S j HS Hj) as [Li _].
  assert (EN : nth j (map (firstn (8 * lc)) S) [] = firstn (8 * lc) (nth j S [])).
  { rewrite <- (map_nth (firstn (8 * lc)) S [] j). f_equal. symmetry. apply firstn_nil. }
  rewrite EN. split; [rewrite firstn_length; lia|]. intros b Hb. rewrite nth_firstn.
  destruct (Nat.ltb_spec b (8 * lc)); [reflexivity|lia].
Qed.

Lemma snp_extract_add_lanes : forall io oo lc lo, (lc <= 25)%nat -> (lc <= lo)%nat -> 24 * Z.of_nat lo < 2 ^ 32 ->
  (io = oo \/ io + (24 * lo + 8 * lc) <= oo \/ oo + (24 * lo + 8 * lc) <= io)%nat -> exists T, forall S m a,
  four_states S -> all_bytes m -> (io + (24 * lo + 8 * lc) <= length m)%nat -> (oo + (24 * lo + 8 * lc) <= length m)%nat ->
  (a + Z.of_nat io) mod 8 = 0 -> (a + Z.of_nat oo) mod 8 = 0 ->
  ExtractAndAddLanesAll (packed S) m a io oo lc lo =
    Ok (put_strips m oo lo (each_instance (fun j s => xor_lists (bytes_at m (io + 8 * lo * j) (8 * lc)) (firstn (8 * lc) s)) S)) T.
Proof.
  intros io oo lc lo Hc Hcl Hlo Hap. destruct (ExtractAndAddLanesAll_wp io oo lc lo Hc Hcl Hlo Hap) as [T W]. exists T.
  intros S m a HS Hd Hl1 Hl2 A1 A2.
  run_wp (W _ _ m a (rep4_packed S HS) (proj1 (all_bytes_bytes _) Hd) ltac:(lia) ltac:(lia) A1 A2).
  eapply drawn_put_strips; [exact Hv|lia|lia|reflexivity|].
  intros j Hj. destruct (instance_of S j HS Hj) as [Li _]. rewrite each_instance_nth by auto.
  assert (8 * lo * j <= 8 * lo * 3)%nat by (apply Nat.mul_le_mono_l; lia).
  assert (LL : length (bytes_at m (io + 8 * lo * j) (8 * lc)) = length (firstn (8 * lc) (nth j S []))).
  { rewrite bytes_at_length, firstn_length by lia. lia. }
  split; [rewrite xor_lists_length, <- LL, bytes_at_length by lia; lia|].
  intros b Hb. rewrite xor_lists_nth by exact LL. rewrite bytes_at_nth, nth_firstn by auto.
  destruct (Nat.ltb_spec b (8 * lc)); [reflexivity|lia].
Qed.

(** ** Permutations *)
Lemma mk_instance S j : four_states S -> (j < 4)%nat -> mk 200 (of_states S j) = nth j S [].
Proof.
  intros HS Hj. destruct (instance_of S j HS Hj) as [Li _]. apply (list_eq_nth 0); [now rewrite mk_length|].
  intros i Hi. rewrite mk_length in Hi. now rewrite nth_mk.
Qed.

Lemma snp_permute prog nr : prog_ok prog nr -> exists T, forall (J : Junk) S, four_states S ->
  permute_all prog (packed S) = Ok (packed (map (permute_bytes nr) S)) T.
Proof.
  intros HP. destruct (permute_all_wp prog nr HP) as [T W]. exists T. intros J S HS.
  run_wp (W J _ _ (rep4_packed S HS)). eapply packed_rep4; [exact Hv|]. intros j b Hj Hb. unfold perm.
  rewrite mk_instance by auto. f_equal.
  rewrite (nth_indep (map (permute_bytes nr) S) [] (permute_bytes nr [])) by (rewrite map_length; destruct HS; lia). now rewrite map_nth.
Qed.
Lemma snp_permute24 : exists T, forall (J : Junk) S, four_states S ->
  PermuteAll_24rounds (packed S) = Ok (packed (map (permute_bytes 24) S)) T.
Proof. exact (snp_permute rounds24 24 prog24). Qed.
Lemma snp_permute12 : exists T, forall (J : Junk) S, four_states S ->
  PermuteAll_12rounds (packed S) = Ok (packed (map (permute_bytes 12) S)) T.
Proof. exact (snp_permute rounds12 12 prog12). Qed.

(** ** The absorbing loop *)
Lemma absorbed_S nr lc par ser m data j s : absorbed nr lc par ser (S m) data j s =
  permute_bytes nr (add_at (absorbed nr lc par ser m data j s) 0 (bytes_at data (8 * (m * ser + j * par)) (8 * lc))).
Proof. unfold absorbed. rewrite seq_S, fold_left_app. reflexivity. Qed.

Lemma absorbed_length nr lc par ser m data j s : length s = 200%nat -> length (absorbed nr lc par ser m data j s) = 200%nat.
Proof. intros H. destruct m; [exact H|]. rewrite absorbed_S. apply permute_bytes_length. Qed.

Lemma perm_ext nr g h j : (forall b, (b < 200)%nat -> g j b = h j b) -> forall b, perm nr g j b = perm nr h j b.
Proof. intros H b. unfold perm. f_equal. f_equal. apply mk_ext. auto. Qed.

Lemma absorbn_absorbed nr lc par ser data S m : four_states S -> (lc <= 25)%nat ->
  (forall i, (i < m)%nat -> (8 * (i * ser) + 24 * par + 8 * lc <= length data)%nat) ->
  forall j b, (j < 4)%nat -> (b < 200)%nat ->
  absorbn nr lc par ser data m (of_states S) j b = nth b (absorbed nr lc par ser m data j (nth j S [])) 0.
Proof.
  intros HS Hlc. induction m as [|m IH]; intros HL j b Hj Hb; [reflexivity|].
  destruct (instance_of S j HS Hj) as [Li _].
  assert (HL' := HL m ltac:(lia)).
  rewrite absorbed_S. cbn [absorbn]. unfold absorb1, perm. f_equal. f_equal.
  pose proof (absorbed_length nr lc par ser m data j (nth j S []) Li) as LA.
  assert (8 * par * j <= 8 * par * 3)%nat by (apply Nat.mul_le_mono_l; lia).
  assert (LB : length (bytes_at data (8 * (m * ser + j * par)) (8 * lc)) = (8 * lc)%nat) by (apply bytes_at_length; lia).
  apply (list_eq_nth 0); [rewrite mk_length, add_at_length; lia|].
  intros i Hi. rewrite mk_length in Hi. rewrite nth_mk, add_at_nth by (auto; lia). rewrite LB, Nat.add_0_l.
  unfold upto, xored. rewrite !IH by (auto; intros; apply HL; lia).
  destruct (Nat.leb_spec 0 i), (Nat.ltb_spec i (8 * lc)); cbn [andb]; auto; try lia.
  rewrite bytes_at_nth by lia. f_equal. f_equal. lia.
Qed.

Lemma snp_fast_loop prog nr : prog_ok prog nr -> forall lc par ser len fuel,
  (lc <= 25)%nat -> (0 < ser <= 3 * par + lc)%nat -> Z.of_nat (block_span lc par) < 2 ^ 32 -> 0 <= len < 2 ^ 64 ->
  (blocks_taken lc par ser len < fuel)%nat -> exists T, forall (J : Junk) S data a,
  four_states S -> all_bytes data -> len <= Z.of_nat (length data) ->
  (lc = 21%nat -> (24 * par + 8 * (blocks_taken lc par ser len * ser) <= length data)%nat) -> a mod 8 = 0 ->
  fast_loop prog fuel (packed S) lc par ser data a len =
    Ok (packed (each_instance (absorbed nr lc par ser (blocks_taken lc par ser len) data) S),
        (8 * (blocks_taken lc par ser len * ser))%nat) T.
Proof.
  intros HP lc par ser len fuel Hlc [Hs1 Hs2] Hspan Hlen Hfuel.
  destruct (fast_loop_wp prog nr HP lc par ser len fuel Hlc Hs1 Hs2 Hspan Hlen Hfuel) as [T W]. exists T.
  intros J S data a HS Hd Hl HF HA.
  destruct (W J _ _ data a (rep4_packed S HS) (proj1 (all_bytes_bytes _) Hd) Hl HF HA) as ((st & o) & E & Hv & Ho).
  rewrite E, Ho. f_equal. f_equal. eapply packed_rep4; [exact Hv|]. intros j b Hj Hb.
  rewrite each_instance_nth by auto. apply absorbn_absorbed; auto.
  intros i Hi. apply (blocks_taken_spec lc par ser len i Hs1 (proj1 Hlen)) in Hi. unfold block_span in Hi. lia.
Qed.

(** ** Calls outside the conditions *)
Lemma bind_bad {A B} (m : res A) (f : A -> res B) T (Q : A -> Prop) u : wp m T Q -> (forall v, Q v -> f v = UB u) -> bind m f = UB u.
Proof. intros (v & E & Hv) H. rewrite E. cbn [bind]. now rewrite (H v Hv). Qed.
Lemma bind_late {A B} (m : res A) (f : A -> res B) T (Q : A -> Prop) : wp m T Q -> (forall v, Q v -> f v = Timeout) -> bind m f = Timeout.
Proof. intros (v & E & Hv) H. rewrite E. cbn [bind]. now rewrite (H v Hv). Qed.
Lemma bind_UB {A B} (m : res A) (f : A -> res B) u : m = UB u -> bind m f = UB u.
Proof. now intros ->. Qed.
Lemma bind_Timeout {A B} (m : res A) (f : A -> res B) : m = Timeout -> bind m f = Timeout.
Proof. now intros ->. Qed.

Lemma while_never {St} (I : St -> Prop) cond body tc tb :
  (forall s, I s -> wp (cond s) tc (fun b => b = true)) -> (forall s, I s -> wp (body s) tb I) ->
  forall fuel s, I s -> while_ fuel cond body s = Timeout.
Proof.
  intros Hc Hb fuel. induction fuel as [|fuel IH]; intros s Hs; [reflexivity|]. cbn [while_].
  eapply bind_late; [apply Hc; exact Hs|]. intros b ->. eapply bind_late; [apply Hb; exact Hs|]. exact IH.
Qed.

(** laneOffsetSerial = 0 *)
Lemma fast_loop_stuck prog nr : prog_ok prog nr -> forall (J : Junk) fuel S lc par data a len,
  four_states S -> all_bytes data -> (lc <= 25)%nat -> Z.of_nat (block_span lc par) < 2 ^ 32 ->
  Z.of_nat (block_span lc par) <= len -> len <= Z.of_nat (length data) -> len < 2 ^ 64 -> a mod 8 = 0 ->
  fast_loop prog fuel (packed S) lc par 0 data a len = Timeout.
Proof.
  intros HP J fuel S lc par data a len HS Hd Hlc Hspan Hlen Hl Hl64 HA.
  apply all_bytes_bytes in Hd.
  assert (Eneed : Z.of_nat (umul (uadd (umul par 3) lc) 8) = Z.of_nat (block_span lc par)).
  { unfold block_span in *. rewrite (umul_small par 3), (uadd_small (par * 3) lc), umul_small by lia. lia. }
  assert (Estep : umul 0 8 = 0%nat) by reflexivity.
  assert (Hpar : 24 * Z.of_nat par < 2 ^ 32) by (unfold block_span in *; lia).
  assert (Hroom : (0 + 24 * par + 8 * lc <= length data)%nat) by (unfold block_span in *; lia).
  assert (A0 : (a + Z.of_nat 0) mod 8 = 0) by (now rewrite Z.add_0_r).
  assert (E64 : u64 (len - Z.of_nat 0) = len) by (unfold u64, wrapu; rewrite Z.mod_small; unfold block_span in *; lia).
  unfold fast_loop. rewrite Eneed, Estep. cbv zeta.
  eapply bind_late; [apply (wp_test (lc =? 21)%nat (fun b => b = (lc =? 21)%nat)); reflexivity|]. intros c ->.
  destruct (Nat.eqb_spec lc 21) as [->|N21].
  - eapply bind_late; [apply (cur_data_wp data 0 par (fun v => v = strips 0 par)); [lia|lia|reflexivity]|]. intros ds ->.
    eapply bind_late; [apply (proj2_sig copyFromState_wp (of_states S)); [now apply rep4_packed|intros; apply v_junk_vec4]|]. intros env He.
    apply bind_Timeout.
    eapply (while_never (fun s => (exists g, erep g (fst (fst s))) /\ snd (fst s) = strips 0 par /\ snd s = len)).
    + intros [[e ds] ln] (_ & _ & El). cbn [snd] in El. subst ln. eapply wp_test. now apply Z.leb_le.
    + intros [[e ds] ln] ((g & Hg) & Eds & El). cbn [fst snd] in *. subst ds ln.
      wstep. eapply wp_conseq; [apply (proj2_sig (xor_in_21_wp 0 par) g e data a Hg Hd); auto; lia|]. intros e1 He1. cbv zeta. apply HP in He1.
      unfold strips.
      wstep. apply pointer_wp; [lia|]. wstep. apply pointer_wp; [lia|].
      wstep. apply pointer_wp; [lia|]. wstep. apply pointer_wp; [lia|]. wstep.
      cbn [fst snd]. split; [eauto|]. split; [apply pair_equal_spec; split; [apply pair_equal_spec; split; [apply pair_equal_spec; split|]|]; lia|exact E64].
    + cbn [fst snd]. eauto.
  - apply bind_Timeout.
    eapply (while_never (fun s => (exists g, rep4 g (fst (fst s))) /\ snd (fst s) = 0%nat /\ snd s = len)).
    + intros [[e ds] ln] (_ & _ & El). cbn [snd] in El. subst ln. eapply wp_test. now apply Z.leb_le.
    + intros [[s o] ln] ((g & Hg) & Eds & El). cbn [fst snd] in *. subst o ln.
      wstep. eapply wp_conseq; [apply (proj2_sig (AddLanesAll_wp 0 lc par Hlc Hpar) g s data a Hg Hd); auto|]. intros s1 Hs1.
      wstep. eapply wp_conseq; [apply (proj2_sig (permute_all_wp prog nr HP) J _ s1 Hs1)|]. intros s2 Hs2.
      wstep. apply pointer_wp; [lia|]. wstep. cbn [fst snd]. split; [eauto|]. split; [reflexivity|exact E64].
    + cbn [fst snd]. split; [|auto]. exists (of_states S). now apply rep4_packed.
Qed.

(** laneCount = 21, the blocks of the four instances side by side in a buffer
    that holds nothing else: after the block, the second pointer lies beyond *)
Lemma fast_loop_exact prog nr : prog_ok prog nr -> forall (J : Junk) fuel S data a,
  four_states S -> byte_array 672 data -> a mod 8 = 0 ->
  fast_loop prog (Datatypes.S fuel) (packed S) 21 21 84 data a 672 = UB OutOfBounds.
Proof.
  intros HP J fuel S data a HS [Ld Hd] HA. apply all_bytes_bytes in Hd.
  assert (A0 : (a + Z.of_nat 0) mod 8 = 0) by (now rewrite Z.add_0_r).
  unfold fast_loop. cbv zeta.
  change (Z.of_nat (umul (uadd (umul 21 3) 21) 8)) with 672. change (Z.of_nat (umul 84 8)) with 672. change (8 * 84)%nat with 672%nat.
  eapply bind_bad; [apply (wp_test (21 =? 21)%nat (fun b => b = true)); reflexivity|]. intros c ->.
  eapply bind_bad; [apply (cur_data_wp data 0 21 (fun v => v = strips 0 21)); [lia|lia|reflexivity]|]. intros ds ->.
  eapply bind_bad; [apply (proj2_sig copyFromState_wp (of_states S)); [now apply rep4_packed|intros; apply v_junk_vec4]|]. intros env He.
  apply bind_UB. cbn [while_].
  eapply bind_bad; [apply (wp_test (672 <=? 672) (fun b => b = true)); reflexivity|]. intros c ->.
  apply bind_UB.
  eapply bind_bad; [apply (proj2_sig (xor_in_21_wp 0 21) _ env data a He Hd); auto; lia|]. intros e1 He1. cbv zeta. unfold strips.
  eapply bind_bad; [apply (pointer_wp data (0 + 672) (fun _ => True)); [lia|exact I]|]. intros d0 _.
  apply bind_UB. unfold pointer. destruct (Nat.leb_spec (0 + 8 * 21 * 1 + 672) (length data)); [lia|reflexivity].
Qed.

(** laneOffsetSerial beyond the span of a block: dataByteLen wraps around *)
Lemma fast_loop_wrap prog nr : prog_ok prog nr -> forall (J : Junk) fuel S data a,
  four_states S -> byte_array 600 data -> a mod 8 = 0 ->
  fast_loop prog (Datatypes.S (Datatypes.S fuel)) (packed S) 17 17 69 data a 544 = UB OutOfBounds.
Proof.
  intros HP J fuel S data a HS [Ld Hd] HA. apply all_bytes_bytes in Hd.
  assert (A0 : (a + Z.of_nat 0) mod 8 = 0) by (now rewrite Z.add_0_r).
  assert (HP17 : 24 * Z.of_nat 17 < 2 ^ 32) by lia.
  unfold fast_loop. cbv zeta.
  change (Z.of_nat (umul (uadd (umul 17 3) 17) 8)) with 544. change (umul 69 8) with 552%nat.
  eapply bind_bad; [apply (wp_test (17 =? 21)%nat (fun b => b = false)); reflexivity|]. intros c ->.
  apply bind_UB. cbn [while_].
  eapply bind_bad; [apply (wp_test (544 <=? 544) (fun b => b = true)); reflexivity|]. intros c ->.
  eapply (bind_bad _ _ _ (fun s => snd s = 2 ^ 64 - 8 /\ snd (fst s) = 552%nat)).
  - wstep. eapply wp_conseq; [apply (proj2_sig (AddLanesAll_wp 0 17 17 ltac:(lia) HP17) _ (packed S) data a (rep4_packed S HS) Hd); auto; lia|]. intros s1 Hs1.
    wstep. eapply wp_conseq; [apply (proj2_sig (permute_all_wp prog nr HP) J _ s1 Hs1)|]. intros s2 Hs2.
    wstep. apply pointer_wp; [lia|]. wstep. cbn [fst snd]. split; reflexivity.
  - intros [[s o] ln] [E1 E2]. cbn [fst snd] in *. subst o ln.
    eapply bind_bad; [apply (wp_test (544 <=? 2 ^ 64 - 8) (fun b => b = true)); reflexivity|]. intros c ->.
    apply bind_UB. unfold AddLanesAll. apply bind_UB. apply bind_UB. unfold cur_data.
    change (umul (umul 17 1) 8) with 136%nat.
    apply bind_UB. unfold pointer. destruct (Nat.leb_spec (552 + 136) (length data)); [lia|reflexivity].
Qed.

(** ** For the examples *)
Lemma all_bytes_dec l : forallb (fun x => (0 <=? x) && (x <? 256)) l = true -> all_bytes l.
Proof. intros H x Hx. rewrite forallb_forall in H. specialize (H x Hx). lia. Qed.
Lemma four_states_dec S : length S = 4%nat ->
  forallb (fun s => (length s =? 200)%nat && forallb (fun x => (0 <=? x) && (x <? 256)) s) S = true -> four_states S.
Proof.
  intros L H. split; [exact L|]. intros s Hs. rewrite forallb_forall in H. specialize (H s Hs).
  apply andb_prop in H as [H1 H2]. apply Nat.eqb_eq in H1. split; [exact H1|now apply all_bytes_dec].
Qed.
Lemma sample_states_ok : four_states sample_states.
Proof. apply four_states_dec; vm_compute; reflexivity. Qed.

Lemma misaligned : exists S data a inst off len,
  four_states S /\ byte_array len data /\ (inst < 4)%nat /\ (off + len <= 200)%nat /\ a mod 8 = 0 /\
  AddBytes (packed S) inst data a off len = UB Misaligned.
Proof.
  exists sample_states, (repeat 1 15), 0, 0%nat, 1%nat, 15%nat.
  split; [exact sample_states_ok|]. split; [split; [reflexivity|apply all_bytes_dec; reflexivity]|].
  split; [lia|]. split; [lia|]. split; [reflexivity|]. vm_compute. reflexivity.
Qed.

Lemma umul_wide c : (c = 1 \/ c = 2 \/ c = 3)%nat -> umul (umul (Z.to_nat (2 ^ 29)) c) 8 = umul (umul 0 c) 8.
Proof.
  assert (E : Z.of_nat (Z.to_nat (2 ^ 29)) = 2 ^ 29) by (apply Z2Nat.id; lia).
  intros [->|[->| ->]]; unfold umul; rewrite E, !Z2Nat.id by (apply Z.mod_pos_bound; lia); reflexivity.
Qed.
Lemma wide_stride : forall lc, (lc <= 25)%nat -> exists T, forall S data a,
  four_states S -> all_bytes data -> (8 * lc <= length data)%nat -> a mod 8 = 0 ->
  AddLanesAll (packed S) data a 0 lc (Z.to_nat (2 ^ 29)) =
    Ok (packed (each_instance (fun _ s => add_at s 0 (bytes_at data 0 (8 * lc))) S)) T.
Proof.
  intros lc Hc. destruct (snp_add_lanes 0 lc 0 Hc ltac:(lia)) as [T W]. exists T. intros S data a HS Hd Hl HA.
  assert (E : cur_data data 0 (Z.to_nat (2 ^ 29)) = cur_data data 0 0).
  { unfold cur_data. rewrite !umul_wide by auto. reflexivity. }
  unfold AddLanesAll. rewrite E. change (AddLanesAll (packed S) data a 0 lc 0 =
    Ok (packed (each_instance (fun _ s => add_at s 0 (bytes_at data 0 (8 * lc))) S)) T).
  rewrite W; auto. now rewrite Z.add_0_r.
Qed.

Lemma keccak_p_24 s : keccak_p 24 s = keccak_f s.
Proof. reflexivity. Qed.

Lemma exact_buffer : exists (J : Junk) fuel S data a lc par ser len,
  four_states S /\ byte_array len data /\ a mod 8 = 0 /\ (lc <= 25)%nat /\ (0 < ser <= 3 * par + lc)%nat /\
  (blocks_taken lc par ser (Z.of_nat len) < fuel)%nat /\ len = block_span lc par /\
  FastLoop_Absorb fuel (packed S) lc par ser data a (Z.of_nat len) = UB OutOfBounds.
Proof.
  exists (fun _ => 0), 2%nat, sample_states, (repeat 1 672), 0, 21%nat, 21%nat, 84%nat, 672%nat.
  assert (B : byte_array 672 (repeat 1 672)) by (split; [apply repeat_length|apply all_bytes_dec; vm_compute; reflexivity]).
  split; [exact sample_states_ok|]. split; [exact B|]. split; [reflexivity|]. split; [lia|]. split; [lia|].
  split; [vm_compute; lia|]. split; [reflexivity|].
  apply (fast_loop_exact rounds24 24 prog24 _ 1 sample_states); auto using sample_states_ok.
Qed.

Lemma bytes_at_repeat x n off len : (off + len <= n)%nat -> bytes_at (repeat x n) off len = repeat x len.
Proof.
  intros H. apply (list_eq_nth 0); [now rewrite bytes_at_length, repeat_length by (rewrite repeat_length; lia)|].
  intros i Hi. rewrite bytes_at_length in Hi by (rewrite repeat_length; lia). rewrite bytes_at_nth by auto.
  rewrite (nth_indep _ 0 x) by (rewrite repeat_length; lia). rewrite nth_repeat.
  rewrite (nth_indep _ 0 x) by (rewrite repeat_length; lia). now rewrite nth_repeat.
Qed.

Lemma nth_map_list (f : list Z -> list Z) S j : (j < length S)%nat -> nth j (map f S) [] = f (nth j S []).
Proof. intros H. rewrite (nth_indep (map f S) [] (f [])) by (now rewrite map_length). apply map_nth. Qed.

Lemma fast_loop_case :
  blocks_taken 17 17 68 (3 * 544 + 100) = 3%nat /\ (17 <= 25)%nat /\ (0 < 68 <= 3 * 17 + 17)%nat /\
  Z.of_nat (block_span 17 17) < 2 ^ 32 /\
  exists T, forall (J : Junk),
    FastLoop_Absorb 4 (packed sample_states) 17 17 68 (repeat 7 1732) 0 (3 * 544 + 100) =
    Ok (packed (map (fun s => let p s := permute_bytes 24 (add_at s 0 (repeat 7 136)) in p (p (p s))) sample_states), 1632%nat) T.
Proof.
  assert (E3 : blocks_taken 17 17 68 (3 * 544 + 100) = 3%nat) by reflexivity.
  split; [exact E3|]. split; [lia|]. split; [lia|]. split; [reflexivity|].
  destruct (snp_fast_loop rounds24 24 prog24 17 17 68 (3 * 544 + 100) 4) as [T W];
    [lia|lia|reflexivity|lia|rewrite E3; lia|].
  exists T. intros J. unfold FastLoop_Absorb. rewrite W.
  - rewrite E3. change (8 * (3 * 68))%nat with 1632%nat. apply (f_equal (fun x => Ok (packed x, 1632%nat) T)).
    apply (list_eq_nth []); [reflexivity|]. intros j Hj. change (j < 4)%nat in Hj. rewrite each_instance_nth by auto.
    unfold absorbed. cbn [seq fold_left]. rewrite !bytes_at_repeat by lia.
    rewrite nth_map_list by (rewrite (proj1 sample_states_ok); exact Hj). cbv zeta. reflexivity.
  - exact sample_states_ok.
  - intros x Hx. apply repeat_spec in Hx. lia.
  - rewrite repeat_length. lia.
  - discriminate.
  - reflexivity.
Qed.
