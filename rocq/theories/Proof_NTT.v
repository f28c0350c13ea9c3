(** * Proofs about ntt.c: the loops compute the butterflies modulo q *)
From Coq Require Import ZArith List Lia Bool.
From Verif Require Import CMonad WP Proof_Base Modq Sums Model_Params Model_Reduce Model_NTT
  Proof_Reduce.
Import ListNotations.
Open Scope Z_scope.

(** The zetas with the Montgomery factor removed. *)
Definition zs : list Z := map (fun z => (z * 169) mod 3329) zetas.
Definition zstd (k : nat) : Z := nth k zs 0.

Lemma zetas_bnd : bnd (-1664) 1664 zetas.
Proof.
  apply bnd_Forall. unfold zetas.
  repeat (apply Forall_cons; [lia|]). apply Forall_nil.
Qed.
Lemma zetas_length : length zetas = 128%nat. Proof. reflexivity. Qed.

Lemma zstd_cong k : nth k zetas 0 * 169 ≡ zstd k.
Proof.
  unfold zstd, zs. rewrite (map_nth (fun z => (z * 169) mod 3329) zetas 0 k : nth k _ 0 = _).
  now rewrite cong_mod.
Qed.

Lemma mont_unscale a b : a * 65536 ≡ b -> a ≡ b * 169.
Proof.
  intros H. rewrite <- H. replace (a * 65536 * 169) with (a * (65536 * 169)) by lia.
  rewrite R_Rinv. apply cong_eq. lia.
Qed.

Definition babs (B : Z) (l : list Z) : Prop := bnd (- B) B l.

Lemma babs_nth B l i : 0 <= B -> babs B l -> - B <= nth i l 0 <= B.
Proof. intros. apply bnd_nth0; auto. lia. Qed.

(** ** Forward butterflies *)
Definition bfly (z : Z) (len start : nat) (r : nat -> Z) (i : nat) : Z :=
  if ((start <=? i) && (i <? start + len))%nat%bool then r i + z * r (i + len)%nat
  else if ((start + len <=? i) && (i <? start + 2 * len))%nat%bool then r (i - len)%nat - z * r i
  else r i.

Ltac ncase := repeat match goal with
  | |- context [(?a <=? ?b)%nat] => destruct (Nat.leb_spec a b)
  | |- context [(?a <? ?b)%nat] => destruct (Nat.ltb_spec a b)
  | |- context [(?a =? ?b)%nat] => destruct (Nat.eqb_spec a b)
  end.

Lemma ltb_S_neq i j : i <> j -> (i <? S j)%nat = (i <? j)%nat.
Proof. intros. destruct (Nat.ltb_spec i (S j)), (Nat.ltb_spec i j); auto; lia. Qed.

Lemma ntt_inner_wp len start :
  traced (fun T => forall B zeta z r,
    (start + 2 * len <= 256)%nat -> length r = 256%nat ->
    0 <= B <= 32767 - 3328 ->
    (forall i, (start <= i < start + 2 * len)%nat -> - B <= nth i r 0 <= B) ->
    -1664 <= zeta <= 1664 -> zeta * 169 ≡ z ->
    wp (ntt_inner zeta len start r) T
       (fun r' => length r' = 256%nat /\
          forall i, (i < 256)%nat ->
            if ((start <=? i) && (i <? start + 2 * len))%nat%bool
            then nth i r' 0 ≡ bfly z len start (fun j => nth j r 0) i /\
                 - (B + 3328) <= nth i r' 0 <= B + 3328
            else nth i r' 0 = nth i r 0)).
Proof.
  eexists. intros B zeta z r Hs Hl HB Hr Hz Ez. unfold ntt_inner.
  eapply (wp_for _ (fun j r' => length r' = 256%nat /\
    forall i, (i < 256)%nat ->
      if (((start <=? i) && (i <? j)) || ((start + len <=? i) && (i <? j + len)))%nat%bool
      then nth i r' 0 ≡ bfly z len start (fun j => nth j r 0) i /\
           - (B + 3328) <= nth i r' 0 <= B + 3328
      else nth i r' 0 = nth i r 0)).
  - split; auto. intros i Hi. ncase; simpl; auto; lia.
  - intros j r' Hj (Hl' & H').
    assert (Ex : nth (j + len) r' 0 = nth (j + len) r 0).
    { specialize (H' (j + len)%nat ltac:(lia)). revert H'. clear -Hj. ncase; simpl; auto; lia. }
    assert (Ey : nth j r' 0 = nth j r 0).
    { specialize (H' j ltac:(lia)). revert H'. clear -Hj. ncase; simpl; auto; lia. }
    pose proof (Hr (j + len)%nat ltac:(lia)) as Bx.
    pose proof (Hr j ltac:(lia)) as By.
    wstep. wstep; [lia|].
    wstep. eapply wp_conseq; [apply fqmul_small'; lia|].
    intros t (Ht & Et). apply mont_unscale in Et.
    rewrite Ex in Et.
    assert (Et' : t ≡ z * nth (j + len) r 0).
    { rewrite Et, <- Ez. apply cong_eq. lia. }
    wgo.
    { rewrite nth_upd_neq by lia. lia. }
    rewrite nth_upd_neq by lia. rewrite Ey.
    rewrite !i16_small by lia.
    split; [now rewrite !upd_length|].
    intros i Hi.
    destruct (Nat.eq_dec i j) as [->|Nj]; [|destruct (Nat.eq_dec i (j + len)) as [->|Njl]].
    + rewrite nth_upd_eq by (rewrite upd_length; lia).
      replace (start <=? j)%nat with true by (symmetry; apply Nat.leb_le; lia).
      replace (j <? S j)%nat with true by (symmetry; apply Nat.ltb_lt; lia).
      cbn [andb orb]. unfold bfly.
      replace ((start <=? j)%nat && (j <? start + len)%nat) with true
        by (symmetry; apply andb_true_iff; rewrite Nat.leb_le, Nat.ltb_lt; lia).
      split; [now rewrite Et'|lia].
    + rewrite nth_upd_neq by lia. rewrite nth_upd_eq by lia.
      replace ((start + len <=? j + len)%nat && (j + len <? S j + len)%nat) with true
        by (symmetry; apply andb_true_iff; rewrite Nat.leb_le, Nat.ltb_lt; lia).
      rewrite orb_true_r. unfold bfly.
      replace (j + len <? start + len)%nat with false by (symmetry; apply Nat.ltb_ge; lia).
      rewrite andb_false_r.
      replace ((start + len <=? j + len)%nat && (j + len <? start + 2 * len)%nat) with true
        by (symmetry; apply andb_true_iff; rewrite Nat.leb_le, Nat.ltb_lt; lia).
      replace (j + len - len)%nat with j by lia.
      split; [now rewrite Et'|lia].
    + rewrite !nth_upd_neq by lia.
      rewrite ltb_S_neq by auto.
      change (S j + len)%nat with (S (j + len)). rewrite ltb_S_neq by auto.
      apply H'. auto.
  - intros r' (Hl' & H'). split; auto. intros i Hi. specialize (H' i Hi). revert H'.
    clear. ncase; simpl; try lia; auto.
Qed.

(** One layer, as an index map. *)
Definition layer_coef (len k0 : nat) (r : nat -> Z) (i : nat) : Z :=
  let z := zstd (k0 + i / (2 * len)) in
  if (i mod (2 * len) <? len)%nat then r i + z * r (i + len)%nat else r (i - len)%nat - z * r i.
Definition layer (len k0 : nat) (r : list Z) : list Z :=
  mk 256 (layer_coef len k0 (fun j => nth j r 0)).

Lemma block_index len b i : (0 < len)%nat ->
  (2 * len * b <= i < 2 * len * b + 2 * len)%nat -> (i / (2 * len) = b /\ i mod (2 * len) = i - 2 * len * b)%nat.
Proof.
  intros Hl Hi. assert (i = (2 * len) * b + (i - 2 * len * b))%nat as E by lia.
  split; symmetry; [eapply Nat.div_unique|eapply Nat.mod_unique]; try exact E; lia.
Qed.

Lemma ntt_layer_wp len k0 :
  traced (fun T => forall B r,
    (0 < len)%nat -> (len * (128 / len) = 128)%nat -> (k0 + 128 / len <= 128)%nat ->
    length r = 256%nat -> 0 <= B <= 32767 - 3328 -> babs B r ->
    wp (ntt_layer len (r, k0)) T
       (fun s => snd s = (k0 + 128 / len)%nat /\ length (fst s) = 256%nat /\
                 babs (B + 3328) (fst s) /\ lcong (fst s) (layer len k0 r))).
Proof.
  eexists. intros B r H0 Hn Hk Hl HB Hr. unfold ntt_layer.
  set (n := (128 / len)%nat) in *.
  eapply (wp_for _ (fun b s => snd s = (k0 + b)%nat /\ length (fst s) = 256%nat /\
           forall i, (i < 256)%nat ->
      if (i <? 2 * len * b)%nat
      then nth i (fst s) 0 ≡ layer_coef len k0 (fun j => nth j r 0) i /\
           - (B + 3328) <= nth i (fst s) 0 <= B + 3328
      else nth i (fst s) 0 = nth i r 0)).
  - split; [|split]; simpl; auto.
    intros i Hi. rewrite Nat.mul_0_r. ncase; auto; lia.
  - intros b [r' k] Hb (Ek & Hl' & H'). cbn [fst snd] in Ek, Hl', H'. subst k.
    wstep. wstep; [rewrite zetas_length; lia|].
    assert (Hi2 : (2 * len * b + 2 * len <= 256)%nat).
    { assert (b + 1 <= n)%nat by lia. nia. }
    wstep. eapply wp_conseq.
    { apply (proj2_sig (ntt_inner_wp len (2 * len * b)) B (nth (k0 + b) zetas 0) (zstd (k0 + b)) r');
        auto; try lia.
      - intros i Hi. specialize (H' i ltac:(lia)).
        replace (i <? 2 * len * b)%nat with false in H' by (symmetry; apply Nat.ltb_ge; lia); cbv iota in H'.
        rewrite H'. apply babs_nth; auto. lia.
      - apply zetas_bnd. rewrite zetas_length. lia.
      - apply zstd_cong. }
    intros r'' (Hl'' & H''). wstep. cbn [fst snd].
    split; [lia|]. split; auto.
    intros i Hi. pose proof H' as Hu. specialize (H' i Hi). specialize (H'' i Hi).
    destruct (Nat.ltb_spec i (2 * len * b)).
    + replace (2 * len * b <=? i)%nat with false in H'' by (symmetry; apply Nat.leb_gt; lia).
      cbn [andb] in H''. rewrite H''.
      replace (i <? 2 * len * S b)%nat with true by (symmetry; apply Nat.ltb_lt; lia). auto.
    + replace (2 * len * b <=? i)%nat with true in H'' by (symmetry; apply Nat.leb_le; lia).
      cbn [andb] in H''. replace (2 * len * S b)%nat with (2 * len * b + 2 * len)%nat by lia.
      destruct (Nat.ltb_spec i (2 * len * b + 2 * len)); [|congruence].
      destruct H'' as [P1 P2]. split; auto. rewrite P1.
      destruct (block_index len b i) as [E1 E2]; [lia..|].
      unfold bfly, layer_coef. rewrite E1, E2.
      assert (F : forall j, (2 * len * b <= j < 2 * len * b + 2 * len)%nat ->
                            nth j r' 0 = nth j r 0).
      { intros j Hj. specialize (Hu j ltac:(lia)).
        replace (j <? 2 * len * b)%nat with false in Hu by (symmetry; apply Nat.ltb_ge; lia); cbv iota in Hu. auto. }
      destruct (Nat.ltb_spec (i - 2 * len * b) len).
      * replace ((2 * len * b <=? i)%nat && (i <? 2 * len * b + len)%nat) with true
          by (symmetry; apply andb_true_iff; rewrite Nat.leb_le, Nat.ltb_lt; lia).
        rewrite !F by lia. reflexivity.
      * replace (i <? 2 * len * b + len)%nat with false by (symmetry; apply Nat.ltb_ge; lia).
        rewrite andb_false_r.
        replace ((2 * len * b + len <=? i)%nat && (i <? 2 * len * b + 2 * len)%nat) with true
          by (symmetry; apply andb_true_iff; rewrite Nat.leb_le, Nat.ltb_lt; lia).
        rewrite !F by lia. reflexivity.
  - intros [r' k] (Ek & Hl' & H'). cbn [fst snd] in *.
    split; auto. split; auto.
    rewrite Nat.add_0_l in H'. replace (2 * len * n)%nat with 256%nat in H' by lia.
    split.
    + intros i Hi. specialize (H' i ltac:(lia)).
      replace (i <? 256)%nat with true in H' by (symmetry; apply Nat.ltb_lt; lia); cbv iota in H'. lia.
    + split; [unfold layer; rewrite mk_length; auto|].
      intros i Hi. specialize (H' i ltac:(lia)).
      replace (i <? 256)%nat with true in H' by (symmetry; apply Nat.ltb_lt; lia); cbv iota in H'.
      unfold layer. rewrite nth_mk by lia. apply H'.
Qed.

(** The seven layers. *)
Fixpoint layers (l : nat) (r : list Z) : list Z :=
  match l with
  | O => r
  | S l' => layer (128 / 2 ^ l') (2 ^ l') (layers l' r)
  end.
Definition ntt_z (r : list Z) : list Z := layers 7 r.

Lemma layer_cong len k0 r r' : lcong r r' -> lcong (layer len k0 r) (layer len k0 r').
Proof.
  intros H. split; [unfold layer; now rewrite !mk_length|].
  intros i Hi. unfold layer in *. rewrite mk_length in Hi. rewrite !nth_mk by auto.
  unfold layer_coef. destruct (_ <? _)%nat;
    rewrite !(lcong_nth r r' _ H); reflexivity.
Qed.

Lemma layer_len_facts l : (l < 7)%nat ->
  (0 < 128 / 2 ^ l)%nat /\ (128 / 2 ^ l * (128 / (128 / 2 ^ l)) = 128)%nat /\
  (128 / (128 / 2 ^ l) = 2 ^ l)%nat /\ (2 ^ l + 2 ^ l <= 128)%nat.
Proof.
  intros H. do 7 (destruct l as [|l]; [repeat split; vm_compute; lia|]). lia.
Qed.

Lemma ntt_wp :
  traced (fun T => forall B r, length r = 256%nat -> 0 <= B <= 32767 - 7 * 3328 -> babs B r ->
    wp (ntt r) T (fun r' => length r' = 256%nat /\ babs (B + 7 * 3328) r' /\ lcong r' (ntt_z r))).
Proof.
  eexists. intros B r Hl HB Hr. unfold ntt.
  wstep. eapply (wp_for _ (fun l s => snd s = (2 ^ l)%nat /\ length (fst s) = 256%nat /\
    babs (B + Z.of_nat l * 3328) (fst s) /\ lcong (fst s) (layers l r))).
  - split; [reflexivity|]. split; [auto|]. split; [|apply lcong_refl].
    cbn [fst]. replace (B + Z.of_nat 0 * 3328) with B by lia. auto.
  - intros l [r1 k] Hl1 (Hk & Hl2 & Hb & Hc). cbn [fst snd] in *. subst k.
    destruct (layer_len_facts l ltac:(lia)) as (F1 & F2 & F3 & F4).
    eapply wp_conseq.
    { apply (proj2_sig (ntt_layer_wp (128 / 2 ^ l) (2 ^ l)) (B + Z.of_nat l * 3328)); auto; lia. }
    intros [r2 k] (Hk & Hl3 & Hb2 & Hc2). cbn [fst snd] in *. rewrite F3 in Hk.
    split; [|split; [|split]]; auto.
    + rewrite Hk. cbn [Nat.pow]. lia.
    + replace (B + Z.of_nat (S l) * 3328) with (B + Z.of_nat l * 3328 + 3328) by lia. auto.
    + etransitivity; [exact Hc2|]. cbn [layers]. apply layer_cong. auto.
  - intros [r1 k] (Hk & Hl2 & Hb & Hc). wstep. cbn [fst snd] in *. auto.
Qed.

(** ** Inverse butterflies *)
Definition ibfly (z : Z) (len start : nat) (r : nat -> Z) (i : nat) : Z :=
  if ((start <=? i) && (i <? start + len))%nat%bool then r i + r (i + len)%nat
  else if ((start + len <=? i) && (i <? start + 2 * len))%nat%bool then z * (r i - r (i - len)%nat)
  else r i.

Lemma invntt_inner_wp len start :
  traced (fun T => forall B zeta z r,
    (start + 2 * len <= 256)%nat -> length r = 256%nat ->
    0 <= B <= 16383 ->
    (forall i, (start <= i < start + 2 * len)%nat -> - B <= nth i r 0 <= B) ->
    -1664 <= zeta <= 1664 -> zeta * 169 ≡ z ->
    wp (invntt_inner zeta len start r) T
       (fun r' => length r' = 256%nat /\
          forall i, (i < 256)%nat ->
            if ((start <=? i) && (i <? start + 2 * len))%nat%bool
            then nth i r' 0 ≡ ibfly z len start (fun j => nth j r 0) i /\
                 - 3328 <= nth i r' 0 <= 3328
            else nth i r' 0 = nth i r 0)).
Proof.
  eexists. intros B zeta z r Hs Hl HB Hr Hz Ez. unfold invntt_inner.
  eapply (wp_for _ (fun j r' => length r' = 256%nat /\
    forall i, (i < 256)%nat ->
      if (((start <=? i) && (i <? j)) || ((start + len <=? i) && (i <? j + len)))%nat%bool
      then nth i r' 0 ≡ ibfly z len start (fun j => nth j r 0) i /\
           - 3328 <= nth i r' 0 <= 3328
      else nth i r' 0 = nth i r 0)).
  - split; auto. intros i Hi. ncase; simpl; auto; lia.
  - intros j r' Hj (Hl' & H').
    assert (Ex : nth (j + len) r' 0 = nth (j + len) r 0).
    { specialize (H' (j + len)%nat ltac:(lia)). revert H'. clear -Hj. ncase; simpl; auto; lia. }
    assert (Ey : nth j r' 0 = nth j r 0).
    { specialize (H' j ltac:(lia)). revert H'. clear -Hj. ncase; simpl; auto; lia. }
    pose proof (Hr (j + len)%nat ltac:(lia)) as Bx.
    pose proof (Hr j ltac:(lia)) as By.
    wstep. wstep; [lia|]. wstep. wstep; [lia|]. wstep. wstep; [lia|].
    rewrite i16_small by lia.
    wstep. eapply wp_conseq; [apply barrett_reduce_wp; lia|].
    intros d (Hd & Ed).
    wstep. wstep; [lia|]. wstep. wstep; [slen|]. rewrite nth_upd_neq by lia.
    wstep. wstep; [lia|]. wstep. wstep; [slen|]. wstep. wstep; [slen|].
    rewrite nth_upd_eq by slen. rewrite i16_small by lia.
    wstep. eapply wp_conseq; [apply fqmul_small'; lia|].
    intros t (Ht & Et). apply mont_unscale in Et.
    rewrite Ex, Ey in *.
    assert (Et' : t ≡ z * (nth (j + len) r 0 - nth j r 0)).
    { rewrite Et, <- Ez. apply cong_eq. lia. }
    wstep; [slen|].
    split; [now rewrite !upd_length|].
    intros i Hi.
    destruct (Nat.eq_dec i j) as [->|Nj]; [|destruct (Nat.eq_dec i (j + len)) as [->|Njl]].
    + rewrite !nth_upd_neq by lia. rewrite nth_upd_eq by lia.
      replace (start <=? j)%nat with true by (symmetry; apply Nat.leb_le; lia).
      replace (j <? S j)%nat with true by (symmetry; apply Nat.ltb_lt; lia).
      cbn [andb orb]. unfold ibfly.
      replace ((start <=? j)%nat && (j <? start + len)%nat) with true
        by (symmetry; apply andb_true_iff; rewrite Nat.leb_le, Nat.ltb_lt; lia).
      split; [auto|lia].
    + rewrite nth_upd_eq by slen.
      replace ((start + len <=? j + len)%nat && (j + len <? S j + len)%nat) with true
        by (symmetry; apply andb_true_iff; rewrite Nat.leb_le, Nat.ltb_lt; lia).
      rewrite orb_true_r. unfold ibfly.
      replace (j + len <? start + len)%nat with false by (symmetry; apply Nat.ltb_ge; lia).
      rewrite andb_false_r.
      replace ((start + len <=? j + len)%nat && (j + len <? start + 2 * len)%nat) with true
        by (symmetry; apply andb_true_iff; rewrite Nat.leb_le, Nat.ltb_lt; lia).
      replace (j + len - len)%nat with j by lia.
      split; [auto|lia].
    + rewrite !nth_upd_neq by lia.
      rewrite ltb_S_neq by auto.
      change (S j + len)%nat with (S (j + len)). rewrite ltb_S_neq by auto.
      apply H'. auto.
  - intros r' (Hl' & H'). split; auto. intros i Hi. specialize (H' i Hi). revert H'.
    clear. ncase; simpl; try lia; auto.
Qed.

Definition ilayer_coef (len k0 : nat) (r : nat -> Z) (i : nat) : Z :=
  let z := zstd (k0 - i / (2 * len)) in
  if (i mod (2 * len) <? len)%nat then r i + r (i + len)%nat else z * (r i - r (i - len)%nat).
Definition ilayer (len k0 : nat) (r : list Z) : list Z :=
  mk 256 (ilayer_coef len k0 (fun j => nth j r 0)).

Lemma invntt_layer_wp len k0 :
  traced (fun T => forall B r,
    (0 < len)%nat -> (len * (128 / len) = 128)%nat -> (128 / len <= S k0)%nat -> (k0 < 128)%nat ->
    length r = 256%nat -> 0 <= B <= 16383 -> babs B r ->
    wp (invntt_layer len (r, k0)) T
       (fun s => snd s = (k0 - 128 / len)%nat /\ length (fst s) = 256%nat /\
                 babs 3328 (fst s) /\ lcong (fst s) (ilayer len k0 r))).
Proof.
  eexists. intros B r H0 Hn Hk Hk2 Hl HB Hr. unfold invntt_layer.
  set (n := (128 / len)%nat) in *.
  eapply (wp_for _ (fun b s => snd s = (k0 - b)%nat /\ length (fst s) = 256%nat /\
    forall i, (i < 256)%nat ->
      if (i <? 2 * len * b)%nat
      then nth i (fst s) 0 ≡ ilayer_coef len k0 (fun j => nth j r 0) i /\
           - 3328 <= nth i (fst s) 0 <= 3328
      else nth i (fst s) 0 = nth i r 0)).
  - split; [|split]; simpl; auto. lia.
    intros i Hi. rewrite Nat.mul_0_r. ncase; auto; lia.
  - intros b [r' k] Hb (Ek & Hl' & H'). cbn [fst snd] in Ek, Hl', H'. subst k.
    wstep. wstep; [rewrite zetas_length; lia|].
    assert (Hi2 : (2 * len * b + 2 * len <= 256)%nat).
    { assert (b + 1 <= n)%nat by lia. nia. }
    wstep. eapply wp_conseq.
    { apply (proj2_sig (invntt_inner_wp len (2 * len * b)) B (nth (k0 - b) zetas 0)
               (zstd (k0 - b)) r'); auto; try lia.
      - intros i Hi. specialize (H' i ltac:(lia)).
        replace (i <? 2 * len * b)%nat with false in H' by (symmetry; apply Nat.ltb_ge; lia); cbv iota in H'.
        rewrite H'. apply babs_nth; auto. lia.
      - apply zetas_bnd. rewrite zetas_length. lia.
      - apply zstd_cong. }
    intros r'' (Hl'' & H''). wstep. cbn [fst snd].
    split; [lia|]. split; auto.
    intros i Hi. pose proof H' as Hu. specialize (H' i Hi). specialize (H'' i Hi).
    destruct (Nat.ltb_spec i (2 * len * b)).
    + replace (2 * len * b <=? i)%nat with false in H'' by (symmetry; apply Nat.leb_gt; lia).
      cbn [andb] in H''. rewrite H''.
      replace (i <? 2 * len * S b)%nat with true by (symmetry; apply Nat.ltb_lt; lia). auto.
    + replace (2 * len * b <=? i)%nat with true in H'' by (symmetry; apply Nat.leb_le; lia).
      cbn [andb] in H''. replace (2 * len * S b)%nat with (2 * len * b + 2 * len)%nat by lia.
      destruct (Nat.ltb_spec i (2 * len * b + 2 * len)); [|congruence].
      destruct H'' as [P1 P2]. split; auto. rewrite P1.
      destruct (block_index len b i) as [E1 E2]; [lia..|].
      unfold ibfly, ilayer_coef. rewrite E1, E2.
      assert (F : forall j, (2 * len * b <= j < 2 * len * b + 2 * len)%nat ->
                            nth j r' 0 = nth j r 0).
      { intros j Hj. specialize (Hu j ltac:(lia)).
        replace (j <? 2 * len * b)%nat with false in Hu by (symmetry; apply Nat.ltb_ge; lia); cbv iota in Hu. auto. }
      destruct (Nat.ltb_spec (i - 2 * len * b) len).
      * replace ((2 * len * b <=? i)%nat && (i <? 2 * len * b + len)%nat) with true
          by (symmetry; apply andb_true_iff; rewrite Nat.leb_le, Nat.ltb_lt; lia).
        rewrite !F by lia. reflexivity.
      * replace (i <? 2 * len * b + len)%nat with false by (symmetry; apply Nat.ltb_ge; lia).
        rewrite andb_false_r.
        replace ((2 * len * b + len <=? i)%nat && (i <? 2 * len * b + 2 * len)%nat) with true
          by (symmetry; apply andb_true_iff; rewrite Nat.leb_le, Nat.ltb_lt; lia).
        rewrite !F by lia. reflexivity.
  - intros [r' k] (Ek & Hl' & H'). cbn [fst snd] in *.
    split; auto. split; auto.
    rewrite Nat.add_0_l in H'. replace (2 * len * n)%nat with 256%nat in H' by lia.
    split.
    + intros i Hi. specialize (H' i ltac:(lia)).
      replace (i <? 256)%nat with true in H' by (symmetry; apply Nat.ltb_lt; lia); cbv iota in H'. lia.
    + split; [unfold ilayer; rewrite mk_length; auto|].
      intros i Hi. specialize (H' i ltac:(lia)).
      replace (i <? 256)%nat with true in H' by (symmetry; apply Nat.ltb_lt; lia); cbv iota in H'.
      unfold ilayer. rewrite nth_mk by lia. apply H'.
Qed.

Fixpoint ilayers (l : nat) (r : list Z) : list Z :=
  match l with
  | O => r
  | S l' => ilayer (2 * 2 ^ l') (128 / 2 ^ l' - 1) (ilayers l' r)
  end.
(** 512 = 1441 / 2^16 mod q *)
Definition scale (c : Z) (r : list Z) : list Z := mk 256 (fun i => c * nth i r 0).
Definition invntt_z (r : list Z) : list Z := scale 512 (ilayers 7 r).

Lemma ilayer_cong len k0 r r' : lcong r r' -> lcong (ilayer len k0 r) (ilayer len k0 r').
Proof.
  intros H. split; [unfold ilayer; now rewrite !mk_length|].
  intros i Hi. unfold ilayer in *. rewrite mk_length in Hi. rewrite !nth_mk by auto.
  unfold ilayer_coef. destruct (_ <? _)%nat;
    rewrite !(lcong_nth r r' _ H); reflexivity.
Qed.

Lemma ilayer_len_facts l : (l < 7)%nat ->
  (0 < 2 * 2 ^ l)%nat /\ (2 * 2 ^ l * (128 / (2 * 2 ^ l)) = 128)%nat /\
  (128 / (2 * 2 ^ l) <= S (128 / 2 ^ l - 1))%nat /\ (128 / 2 ^ l - 1 < 128)%nat /\
  (128 / 2 ^ l - 1 - 128 / (2 * 2 ^ l) = 128 / 2 ^ S l - 1)%nat.
Proof.
  intros H. do 7 (destruct l as [|l]; [repeat split; vm_compute; lia|]). lia.
Qed.

Lemma invntt_wp :
  traced (fun T => forall B r, length r = 256%nat -> 0 <= B <= 16383 -> babs B r ->
    wp (invntt r) T (fun r' => length r' = 256%nat /\ babs 3328 r' /\ lcong r' (invntt_z r))).
Proof.
  eexists. intros B r Hl HB Hr. unfold invntt.
  wstep. eapply (wp_for _ (fun l s => snd s = (128 / 2 ^ l - 1)%nat /\ length (fst s) = 256%nat /\
    babs (if (l =? 0)%nat then B else 3328) (fst s) /\ lcong (fst s) (ilayers l r))).
  - split; [reflexivity|]. split; [auto|]. split; [auto|apply lcong_refl].
  - intros l [r1 k] Hl1 (Hk & Hl2 & Hb & Hc). cbn [fst snd] in *. subst k.
    destruct (ilayer_len_facts l ltac:(lia)) as (F1 & F2 & F3 & F4 & F5).
    eapply wp_conseq.
    { apply (proj2_sig (invntt_layer_wp (2 * 2 ^ l) (128 / 2 ^ l - 1))
               (if (l =? 0)%nat then B else 3328)); auto.
      destruct (l =? 0)%nat; lia. }
    intros [r2 k] (Hk & Hl3 & Hb2 & Hc2). cbn [fst snd] in *. rewrite F5 in Hk.
    split; [|split; [|split]]; auto.
    etransitivity; [exact Hc2|]. cbn [ilayers]. apply ilayer_cong. auto.
  - intros [r1 k] (Hk & Hl2 & Hb & Hc). cbn [fst snd] in *.
    change (babs 3328 r1) in Hb.
    eapply wp_conseq.
    { eapply (wp_pointwise _ (fun i x y => -3329 < y < 3329 /\ y ≡ 512 * x) 256); auto.
      intros i r2 Hi Hlr Ei. wstep. wstep; [lia|]. wstep.
      eapply wp_conseq; [apply fqmul_small; [|lia]|].
      { rewrite Ei. pose proof (babs_nth 3328 r1 i ltac:(lia) Hb). lia. }
      intros d (Hd & Ed). wstep; [lia|]. eexists. split; [reflexivity|]. split; auto.
      apply mont_unscale in Ed. rewrite Ed, Ei.
      replace (nth i r1 0 * 1441 * 169) with (1441 * 169 * nth i r1 0) by lia.
      assert (Ec : 1441 * 169 ≡ 512) by (apply cong_dec; reflexivity). rewrite Ec. reflexivity. }
    intros r' [E H']. split; [lia|]. split.
    + intros i Hi. specialize (H' i ltac:(lia)). lia.
    + split; [unfold invntt_z, scale; rewrite mk_length; lia|].
      intros i Hi. destruct (H' i ltac:(lia)) as [_ E2]. rewrite E2.
      unfold invntt_z, scale. rewrite nth_mk by lia. rewrite (lcong_nth _ _ i Hc). reflexivity.
Qed.
