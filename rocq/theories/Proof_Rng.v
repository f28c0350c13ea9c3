(** * The generator of nistkat/rng.c is CTR_DRBG *)
From Coq Require Import ZArith List Lia Bool.
From Verif Require Import CMonad WP Proof_Base Model_Randombytes Model_Rng Spec_DRBG Vocab Vocab_Rng Proof_Verify.
Import ListNotations.
Open Scope Z_scope.
Open Scope cmonad_scope.

(** ** Runs by their value *)
Lemma yields_ret {A} (v : A) : yields (ret v) v. Proof. now exists []. Qed.
Lemma yields_bind {A B} (m : res A) (f : A -> res B) v w : yields m v -> yields (f v) w -> yields (bind m f) w.
Proof. intros [T ->] [T' E']. unfold bind. rewrite E'. now eexists. Qed.
Lemma yields_test b : yields (test b) b. Proof. now eexists. Qed.
Lemma yields_eq {A} (m : res A) v w : yields m v -> v = w -> yields m w. Proof. now intros ? <-. Qed.
Lemma yields_aget (l : list Z) i : (i < length l)%nat -> yields (aget l i) (nth i l 0).
Proof. intros L. unfold aget. rewrite (nth_error_nth_some l i 0 L). now eexists. Qed.
Lemma yields_aset {A} (l : list A) i v : (i < length l)%nat -> yields (aset l i v) (upd l i v).
Proof. intros L. unfold aset. destruct (Nat.ltb_spec i (length l)); [|lia]. now eexists. Qed.
Lemma yields_chk x : - 2 ^ 31 <= x < 2 ^ 31 -> yields (chk_int x) x.
Proof. intros L. unfold chk_int. destruct (Z.leb_spec (- 2 ^ 31) x), (Z.ltb_spec x (2 ^ 31)); try lia. apply yields_ret. Qed.
Lemma upd_mid {A} (a : list A) x c v : upd (a ++ x :: c) (length a) v = a ++ v :: c.
Proof. induction a as [|y a IH]; [reflexivity|]. cbn [length app upd]. now rewrite IH. Qed.
Lemma yields_get (a : list Z) x c : yields (aget (a ++ x :: c) (length a)) x.
Proof. eapply yields_eq; [apply yields_aget; rewrite app_length; cbn [length]; lia|]. now rewrite app_nth2, Nat.sub_diag by lia. Qed.
Lemma yields_set (a : list Z) x c v : yields (aset (a ++ x :: c) (length a) v) (a ++ v :: c).
Proof. eapply yields_eq; [apply yields_aset; rewrite app_length; cbn [length]; lia|]. apply upd_mid. Qed.
Lemma yields_write a old c bs : length old = length bs -> yields (kernel_write (a ++ old ++ c) (length a) bs) (a ++ bs ++ c).
Proof.
  intros L. unfold kernel_write. rewrite !app_length. destruct (Nat.leb_spec (length a + length bs) (length a + (length old + length c))); [|lia].
  eapply yields_eq; [apply yields_ret|]. rewrite firstn_app, Nat.sub_diag, firstn_O, app_nil_r, firstn_all. f_equal. f_equal.
  rewrite skipn_app, skipn_all2 by lia. cbn [app]. rewrite skipn_app, skipn_all2 by lia. cbn [app].
  replace (length a + length bs - length a - length old)%nat with 0%nat by lia. reflexivity.
Qed.
Lemma yields_memcpy dst doff src soff n : (doff + n <= length dst)%nat -> (soff + n <= length src)%nat ->
  yields (memcpy dst doff src soff n) (splice dst doff (firstn n (skipn soff src))).
Proof. intros H1 H2. destruct (memcpy_wp doff soff n) as [T W]. destruct (W dst src H1 H2) as (v & E & ->). now exists T. Qed.
Lemma splice_mid {A} (a old c new : list A) : length old = length new -> splice (a ++ old ++ c) (length a) new = a ++ new ++ c.
Proof.
  intros L. unfold splice. rewrite firstn_app, Nat.sub_diag, firstn_O, app_nil_r, firstn_all. f_equal. f_equal.
  rewrite skipn_app, skipn_all2 by lia. cbn [app]. rewrite skipn_app, skipn_all2 by lia. cbn [app].
  replace (length a + length new - length a - length old)%nat with 0%nat by lia. reflexivity.
Qed.
Lemma yields_copy a old c src1 new src2 : length old = length new ->
  yields (memcpy (a ++ old ++ c) (length a) (src1 ++ new ++ src2) (length src1) (length new)) (a ++ new ++ c).
Proof.
  intros L. eapply yields_eq; [apply yields_memcpy; rewrite !app_length; lia|].
  rewrite skipn_app, skipn_all2, Nat.sub_diag by lia. cbn [app skipn]. rewrite firstn_app, Nat.sub_diag, firstn_O, app_nil_r, firstn_all.
  now apply splice_mid.
Qed.
Ltac ystep := eapply yields_bind; [first [apply yields_test|apply yields_ret]|]; cbv beta iota.

(** ** Big-endian numbers *)
Lemma be_value_snoc l x : be_value (l ++ [x]) = 256 * be_value l + x.
Proof. unfold be_value. now rewrite fold_left_app. Qed.
Lemma be_bytes_length n x : length (be_bytes n x) = n.
Proof. revert x. induction n as [|n IH]; intros x; [reflexivity|]. cbn [be_bytes]. rewrite app_length, IH. cbn. lia. Qed.
Lemma be_bytes_value l : bytes l -> be_bytes (length l) (be_value l) = l.
Proof.
  induction l as [|x l IH] using rev_ind; intros B; [reflexivity|].
  rewrite app_length, Nat.add_comm. cbn [length Nat.add be_bytes]. rewrite be_value_snoc.
  apply bnd_Forall in B. apply Forall_app in B as [B1 B2]. inversion B2 as [|? ? Bx _]; subst.
  replace ((256 * be_value l + x) / 256) with (be_value l) by (apply Z.div_unique with (r := x); lia).
  replace ((256 * be_value l + x) mod 256) with x by (apply Z.mod_unique with (q := be_value l); lia).
  rewrite IH; [reflexivity|]. now apply bnd_Forall.
Qed.
Lemma be_bytes_range n x : bytes (be_bytes n x).
Proof.
  revert x. induction n as [|n IH]; intros x; [intros i Hi; cbn in Hi; lia|]. cbn [be_bytes]. apply bnd_app; [apply IH|].
  intros [|i] Hi; cbn in Hi; [|lia]. cbn [nth]. pose proof (Z.mod_pos_bound x 256 ltac:(lia)). lia.
Qed.
Lemma be_value_bytes n x : be_value (be_bytes n x) = x mod 256 ^ Z.of_nat n.
Proof.
  revert x. induction n as [|n IH]; intros x; [cbn [be_bytes]; now rewrite Z.mod_1_r|].
  cbn [be_bytes]. rewrite be_value_snoc, IH. rewrite Nat2Z.inj_succ, Z.pow_succ_r by lia.
  rewrite Z.rem_mul_r by lia. lia.
Qed.
Lemma be_bytes_mod n x : be_bytes n (x mod 256 ^ Z.of_nat n) = be_bytes n x.
Proof. rewrite <- be_value_bytes. rewrite <- (be_bytes_length n x) at 1. apply be_bytes_value, be_bytes_range. Qed.
Lemma be_value_range l : bytes l -> 0 <= be_value l < 256 ^ Z.of_nat (length l).
Proof.
  intros B. rewrite <- (be_bytes_value l B) at 1 2. rewrite be_value_bytes. apply Z.mod_pos_bound. lia.
Qed.

Lemma snoc_split {A} (w : list A) n : length w = S n -> exists w' x, w = w' ++ [x] /\ length w' = n.
Proof.
  intros L. destruct (exists_last (l := w)) as (w' & x & ->); [intros ->; discriminate L|].
  exists w', x. split; [reflexivity|]. rewrite app_length in L. cbn in L. lia.
Qed.
Lemma increment_ok n a w c : length w = n -> bytes w ->
  yields (increment n (length a) (a ++ w ++ c)) (a ++ be_bytes n (be_value w + 1) ++ c).
Proof.
  revert w c. induction n as [|n IH]; intros w c L B.
  - destruct w; [|discriminate L]. cbn [increment be_bytes app]. ystep. apply yields_ret.
  - destruct (snoc_split w n L) as (w' & x & -> & L'). clear L.
    apply bnd_Forall in B. apply Forall_app in B as [B1 B2]. inversion B2 as [|? ? Bx _]; subst. apply bnd_Forall in B1.
    cbn [increment]. rewrite <- !app_assoc. cbn [app]. rewrite (app_assoc a w').
    replace (length a + length w')%nat with (length (a ++ w')) by (rewrite app_length; reflexivity).
    ystep. eapply yields_bind; [apply yields_get|]. ystep. rewrite be_value_snoc. cbn [be_bytes].
    destruct (Z.eqb_spec x 255) as [->|Nx].
    + eapply yields_bind; [apply yields_set|]. rewrite <- app_assoc.
      replace ((256 * be_value w' + 255 + 1) / 256) with (be_value w' + 1) by (apply Z.div_unique with (r := 0); lia).
      replace ((256 * be_value w' + 255 + 1) mod 256) with 0 by (apply Z.mod_unique with (q := be_value w' + 1); lia).
      rewrite <- app_assoc. cbn [app]. apply IH; auto.
    + eapply yields_eq; [apply yields_set|].
      replace ((256 * be_value w' + x + 1) / 256) with (be_value w') by (apply Z.div_unique with (r := x + 1); lia).
      replace ((256 * be_value w' + x + 1) mod 256) with (x + 1) by (apply Z.mod_unique with (q := be_value w'); lia).
      unfold u8, wrapu. rewrite (Z.mod_small (x + 1)) by (cbn; lia).
      rewrite be_bytes_value by auto. now rewrite <- !app_assoc.
Qed.
Lemma increment_all n w : length w = n -> bytes w -> yields (increment n 0 w) (be_bytes n (be_value w + 1)).
Proof.
  intros L B. pose proof (increment_ok n [] w [] L B) as I. cbn [app length] in I. now rewrite !app_nil_r in I.
Qed.

(** ** CTR_DRBG_Update *)
Section Cipher.
Variable E : cipher.
Hypothesis HE : forall k b, length (E k b) = 16%nat /\ bytes (E k b).

Lemma ecb_ok key v a old c : length key = 32%nat -> length v = 16%nat -> length old = 16%nat ->
  yields (AES256_ECB E key v (a ++ old ++ c) (length a)) (a ++ E key v ++ c).
Proof.
  intros Lk Lv Lo. unfold AES256_ECB. rewrite Lk, Lv. cbn [Nat.leb andb]. rewrite <- Lk, firstn_all, <- Lv, firstn_all.
  apply yields_write. rewrite Lo. symmetry. apply HE.
Qed.
Lemma xor_loop data n : forall don todo dd dt, length todo = n -> bytes todo -> bytes dt -> length dd = length don -> data = dd ++ dt -> (n <= length dt)%nat ->
  yields (for_ n (length don) (fun i temp => x <- aget temp i ;; y <- aget data i ;; aset temp i (u8 (Z.lxor x y))) (don ++ todo))
    (don ++ xor_bytes todo dt).
Proof.
  induction n as [|n IH]; intros don todo dd dt L Bt Bd Ld E1 Ln; cbn [for_].
  - destruct todo; [|discriminate L]. eapply yields_bind; [now eexists|]. apply yields_ret.
  - destruct todo as [|x todo]; [discriminate L|]. destruct dt as [|y dt]; [cbn in Ln; lia|].
    assert (Bx := Bt 0%nat ltac:(cbn; lia)). assert (By := Bd 0%nat ltac:(cbn; lia)). cbn [nth] in Bx, By.
    eapply yields_bind; [now eexists|]. eapply yields_bind.
    + eapply yields_bind; [apply yields_get|]. eapply yields_bind; [rewrite E1, <- Ld; apply yields_get|]. apply yields_set.
    + replace (don ++ u8 (Z.lxor x y) :: todo) with ((don ++ [u8 (Z.lxor x y)]) ++ todo) by (rewrite <- app_assoc; reflexivity).
      replace (S (length don)) with (length (don ++ [u8 (Z.lxor x y)])) by (rewrite app_length; cbn; lia).
      eapply yields_eq; [apply (IH _ todo (dd ++ [y]) dt)|].
      * cbn in L. lia.
      * intros i Hi. apply (Bt (S i)). cbn. lia.
      * intros i Hi. apply (Bd (S i)). cbn. lia.
      * rewrite !app_length. cbn. lia.
      * rewrite E1, <- app_assoc. reflexivity.
      * cbn in Ln. lia.
      * unfold u8, wrapu. rewrite (Z.mod_small (Z.lxor x y)) by (pose proof (lxor_byte x y Bx By); cbn; lia).
        rewrite <- app_assoc. reflexivity.
Qed.
Lemma split_at {A} (l : list A) n : (n <= length l)%nat -> exists a b, l = a ++ b /\ length a = n.
Proof. intros L. exists (firstn n l), (skipn n l). split; [now rewrite firstn_skipn|]. rewrite firstn_length. lia. Qed.

Definition next (v : list Z) : list Z := be_bytes 16 (be_value v + 1).
Lemma ctr_blocks_next key v m : length v = 16%nat -> bytes v ->
  ctr_blocks E key (be_value v) (S m) = E key (next v) ++ ctr_blocks E key (be_value (next v)) m.
Proof.
  intros L B. unfold ctr_blocks. cbn [seq flat_map]. f_equal.
  - f_equal. unfold next. apply be_bytes_mod.
  - rewrite <- seq_shift, flat_map_concat_map, map_map, <- flat_map_concat_map. apply flat_map_ext. intros i. f_equal. f_equal.
    unfold next. rewrite be_value_bytes. change (256 ^ Z.of_nat 16) with (2 ^ 128).
    rewrite Zplus_mod_idemp_l. f_equal. lia.
Qed.
Lemma ctr_blocks_length key v m : length (ctr_blocks E key v m) = (16 * m)%nat.
Proof.
  unfold ctr_blocks. generalize (seq_length m 1). generalize (seq 1 m). intros l <-. induction l as [|i l IH]; [reflexivity|].
  cbn [flat_map length]. rewrite app_length, IH, (proj1 (HE _ _)). lia.
Qed.
Lemma ctr_blocks_bytes key v m : bytes (ctr_blocks E key v m).
Proof.
  unfold ctr_blocks. induction (seq 1 m) as [|i l IH]; [intros i Hi; cbn in Hi; lia|]. cbn [flat_map]. apply bnd_app; [apply HE|exact IH].
Qed.
Lemma xor_length a b : length a = length b -> length (xor_bytes a b) = length a.
Proof. intros L. unfold xor_bytes. rewrite map_length, combine_length. lia. Qed.
Lemma xor_zero a : xor_bytes a (repeat 0 (length a)) = a.
Proof. unfold xor_bytes. induction a as [|x a IH]; [reflexivity|]. cbn [length repeat combine map fst snd]. now rewrite Z.lxor_0_r, IH. Qed.
Lemma xor_range a b : bytes a -> bytes b -> bytes (xor_bytes a b).
Proof.
  unfold xor_bytes, bytes. rewrite !bnd_Forall. intros A. revert b. induction A as [|x a Hx A IH]; intros b B; [constructor|].
  destruct B as [|y b Hy B]; [constructor|]. cbn [combine map fst snd]. constructor; [now apply lxor_byte|]. now apply IH.
Qed.
Definition state_is (key v : list Z) (st : drbg) : Prop :=
  length key = 32%nat /\ bytes key /\ length v = 16%nat /\ bytes v /\ st = (key, be_value v).
Lemma update_ok `{Junk} p key v st : state_is key v st -> (forall d, p = Some d -> length d = 48%nat /\ bytes d) ->
  exists key' v', yields (AES256_CTR_DRBG_Update E p key v) (key', v') /\
    state_is key' v' (CTR_DRBG_Update E (data_of p) st).
Proof.
  intros (Lk & Bk & Lv & Bv & ->) HP.
  assert (LN : forall u, length (next u) = 16%nat) by (intros; apply be_bytes_length).
  assert (BN : forall u, bytes (next u)) by (intros; apply be_bytes_range).
  set (v1 := next v). set (v2 := next v1). set (v3 := next v2).
  set (temp := E key v1 ++ E key v2 ++ E key v3).
  assert (Et : ctr_blocks E key (be_value v) 3 = temp).
  { rewrite !ctr_blocks_next by (auto; apply LN || apply BN). unfold temp, v3, v2, v1. cbn [ctr_blocks seq flat_map]. now rewrite app_nil_r. }
  assert (Lt : length temp = 48%nat) by (unfold temp; rewrite !app_length, !(proj1 (HE _ _)); reflexivity).
  assert (Bt : bytes temp) by (unfold temp; repeat apply bnd_app; apply HE).
  set (out := xor_bytes temp (data_of p)).
  assert (DD : length (data_of p) = 48%nat /\ bytes (data_of p)).
  { destruct p as [d|]; [now apply HP|]. split; [reflexivity|]. apply bnd_Forall, Forall_forall. intros x Hx. cbn [data_of] in Hx.
    apply repeat_spec in Hx. lia. }
  assert (Lo : length out = 48%nat) by (unfold out; rewrite xor_length; lia).
  assert (Bo : bytes out) by (apply xor_range; [exact Bt|apply DD]).
  exists (firstn 32 out), (skipn 32 out). split.
  - unfold AES256_CTR_DRBG_Update. 
    destruct (split_at (local 48) 16) as (j1 & j & Ej & L1); [unfold local; rewrite map_length, seq_length; lia|].
    assert (Lj : length j = 32%nat).
    { assert (X : length (local 48) = 48%nat) by (unfold local; now rewrite map_length, seq_length). rewrite Ej, app_length in X. lia. }
    destruct (split_at j 16) as (j2 & j3 & -> & L2); [lia|]. rewrite app_length in Lj.
    eapply yields_bind.
    + cbn [for_]. 
      eapply yields_bind; [now eexists|]. eapply yields_bind.
      { eapply yields_bind; [apply increment_all; auto|]. fold (next v). fold v1. eapply yields_bind; [|apply yields_ret].
        rewrite Ej. apply (ecb_ok key v1 [] j1 (j2 ++ j3)); auto. }
      cbn [app]. eapply yields_bind; [now eexists|]. eapply yields_bind.
      { eapply yields_bind; [apply increment_all; [apply LN|apply BN]|]. fold (next v1). fold v2. eapply yields_bind; [|apply yields_ret].
        replace (16 * 1)%nat with (length (E key v1)) by apply HE. apply (ecb_ok key v2 (E key v1) j2 j3); auto. }
      eapply yields_bind; [now eexists|]. eapply yields_bind.
      { eapply yields_bind; [apply increment_all; [apply LN|apply BN]|]. fold (next v2). fold v3. eapply yields_bind; [|apply yields_ret].
        rewrite app_assoc. replace (16 * 2)%nat with (length (E key v1 ++ E key v2)) by (rewrite app_length, !(proj1 (HE _ _)); reflexivity).
        rewrite <- (app_nil_r j3). apply (ecb_ok key v3 (E key v1 ++ E key v2) j3 []); auto. lia. }
      eapply yields_bind; [now eexists|]. apply yields_ret.
    + cbv beta iota. rewrite app_nil_r, <- app_assoc. fold temp.
      eapply yields_bind with (v := out).
      * unfold out. destruct p as [d|]; cbn [data_of] in *.
        -- ystep. pose proof (xor_loop d 48 [] temp [] d) as X. cbn [app length] in X. apply X; auto; [apply DD|rewrite (proj1 DD); lia].
        -- ystep. eapply yields_eq; [apply yields_ret|]. symmetry. rewrite <- Lt. apply xor_zero.
      * assert (L3 : length v3 = 16%nat) by apply LN.
        cbv beta. eapply yields_bind; [apply yields_memcpy; lia|]. eapply yields_bind; [apply yields_memcpy; lia|].
        eapply yields_eq; [apply yields_ret|]. f_equal.
        -- cbn [skipn]. rewrite splice_full; [reflexivity|]. rewrite firstn_length. lia.
        -- rewrite splice_full; [|rewrite firstn_length, skipn_length; lia]. apply firstn_all2. rewrite skipn_length. lia.
  - unfold CTR_DRBG_Update. cbn [fst snd]. rewrite Et. fold out.
    refine (conj _ (conj _ (conj _ (conj _ eq_refl)))).
    + rewrite firstn_length. lia.
    + now apply bnd_firstn.
    + rewrite skipn_length. lia.
    + apply bnd_Forall, Forall_forall. apply bnd_Forall in Bo. rewrite Forall_forall in Bo. intros x Hx. apply Bo.
      rewrite <- (firstn_skipn 32 out). apply in_or_app. now right.
Qed.

(** ** randombytes_init *)
Lemma init_ok `{Junk} st entropy pers : length (d_key st) = 32%nat -> length (d_v st) = 16%nat ->
  length entropy = 48%nat -> bytes entropy -> (forall d, pers = Some d -> length d = 48%nat /\ bytes d) ->
  exists st', yields (randombytes_init E st entropy pers) st' /\ d_counter st' = 1 /\
    state_is (d_key st') (d_v st') (CTR_DRBG_Instantiate E entropy (data_of pers)).
Proof.
  intros Lk Lv Le Be HP.
  assert (DD : length (data_of pers) = 48%nat /\ bytes (data_of pers)).
  { destruct pers as [d|]; [now apply HP|]. split; [reflexivity|]. apply bnd_Forall, Forall_forall. intros x Hx. cbn [data_of] in Hx.
    apply repeat_spec in Hx. lia. }
  set (seed := xor_bytes entropy (data_of pers)).
  assert (Ls : length seed = 48%nat) by (unfold seed; rewrite xor_length; lia).
  assert (Bs : bytes seed) by (apply xor_range; [exact Be|apply DD]).
  assert (S0 : state_is (repeat 0 32) (repeat 0 16) (repeat 0 32, 0)).
  { assert (Z0 : forall n, bytes (repeat 0 n)) by (intros n; apply bnd_Forall, Forall_forall; intros x Hx; apply repeat_spec in Hx; lia).
    refine (conj eq_refl (conj (Z0 _) (conj eq_refl (conj (Z0 _) eq_refl)))). }
  destruct (update_ok (Some seed) _ _ _ S0) as (key' & v' & Y & S1); [intros d [= <-]; auto|].
  exists {| d_key := key'; d_v := v'; d_counter := 1 |}. split; [|split; [reflexivity|exact S1]].
  assert (LL : length (local 48) = 48%nat) by (unfold local; now rewrite map_length, seq_length).
  unfold randombytes_init.
  eapply yields_bind with (v := entropy).
  { eapply yields_eq; [apply yields_memcpy; lia|]. cbn [skipn]. rewrite firstn_all2 by lia. apply splice_full. lia. }
  cbv beta. eapply yields_bind with (v := seed).
  { unfold seed. destruct pers as [d|]; cbn [data_of] in *.
    - ystep. pose proof (xor_loop d 48 [] entropy [] d) as X. cbn [app length] in X. apply X; auto; [apply DD|rewrite (proj1 DD); lia].
    - ystep. eapply yields_eq; [apply yields_ret|]. symmetry. rewrite <- Le. apply xor_zero. }
  cbv beta. eapply yields_bind with (v := repeat 0 32).
  { unfold zero. rewrite <- (app_nil_r (d_key st)). eapply yields_eq; [apply (yields_write [] (d_key st) []); now rewrite repeat_length|]. apply app_nil_r. }
  cbv beta. eapply yields_bind with (v := repeat 0 16).
  { unfold zero. rewrite <- (app_nil_r (d_v st)). eapply yields_eq; [apply (yields_write [] (d_v st) []); now rewrite repeat_length|]. apply app_nil_r. }
  cbv beta. eapply yields_bind; [exact Y|]. cbv beta iota. apply yields_ret.
Qed.

(** ** randombytes *)
Lemma next_length v : length (next v) = 16%nat. Proof. apply be_bytes_length. Qed.
Lemma next_bytes v : bytes (next v). Proof. apply be_bytes_range. Qed.
Notation loop_cond := (fun s => let '(v, block, x, i, xlen) := s in test (0 <? xlen)).
Definition loop_body `{Junk} (key : list Z) (xo : nat) : list Z * list Z * list Z * Z * Z -> res (list Z * list Z * list Z * Z * Z) :=
  fun s => let '(v, block, x, i, xlen) := s in
       v <- increment 16 0 v ;;
       block <- AES256_ECB E key v block 0 ;;
       c <- test (15 <? xlen) ;;
       if (c : bool) then
         x <- memcpy x (xo + Z.to_nat i) block 0 16 ;;
         i <- iadd i 16 ;;
         ret (v, block, x, i, xlen - 16)
       else
         x <- memcpy x (xo + Z.to_nat i) block 0 (Z.to_nat xlen) ;;
         ret (v, block, x, i, 0).
Lemma drbg_randombytes_unfold `{Junk} st x xo xlen :
  drbg_randombytes E st x xo xlen =
  ('(v, block, x, i, xlen) <- while_ (Z.to_nat (xlen / 16 + 2)) loop_cond (loop_body (d_key st) xo) (d_v st, local 16, x, 0, xlen) ;;
   '(key, v) <- AES256_CTR_DRBG_Update E None (d_key st) v ;;
   n <- iadd (d_counter st) 1 ;;
   ret (x, {| d_key := key; d_v := v; d_counter := n |}, RNG_SUCCESS)).
Proof. reflexivity. Qed.
Lemma round_ok `{Junk} key v block : length key = 32%nat -> length v = 16%nat -> bytes v -> length block = 16%nat ->
  yields (increment 16 0 v) (next v) /\ yields (AES256_ECB E key (next v) block 0) (E key (next v)).
Proof.
  intros Lk Lv Bv Lb. split; [now apply increment_all|]. pose proof (ecb_ok key (next v) [] block [] Lk (next_length v) Lb) as Y.
  cbn [app length] in Y. now rewrite !app_nil_r in Y.
Qed.
Lemma be16 v : length v = 16%nat -> bytes v -> be_bytes 16 (be_value v) = v.
Proof. intros L B. rewrite <- L at 1. now apply be_bytes_value. Qed.
Definition nth_v (v : list Z) (m : nat) : list Z := be_bytes 16 (be_value v + Z.of_nat m).
Lemma nth_v_next v m : nth_v (next v) m = nth_v v (S m).
Proof.
  unfold nth_v, next. rewrite be_value_bytes. change (256 ^ Z.of_nat 16) with (2 ^ 128).
  rewrite <- be_bytes_mod. change (256 ^ Z.of_nat 16) with (2 ^ 128). rewrite Zplus_mod_idemp_l.
  change (2 ^ 128) with (256 ^ Z.of_nat 16). rewrite be_bytes_mod. f_equal. lia.
Qed.
Lemma loop_ok `{Junk} key : length key = 32%nat -> forall m n fuel v block pre don old post,
  length v = 16%nat -> bytes v -> length block = 16%nat -> length old = n -> m = ((n + 15) / 16)%nat -> (m < fuel)%nat ->
  Z.of_nat (length don) + Z.of_nat n < 2 ^ 31 ->
  exists block' i', yields (while_ fuel loop_cond (loop_body key (length pre)) (v, block, pre ++ don ++ old ++ post, Z.of_nat (length don), Z.of_nat n))
    (nth_v v m, block', pre ++ don ++ firstn n (ctr_blocks E key (be_value v) m) ++ post, i', 0).
Proof.
  intros Lk. induction m as [|m IH]; intros n fuel v block pre don old post Lv Bv Lb Lo Em Hf Hi;
    (destruct fuel as [|fuel]; [lia|]); cbn [while_].
  - assert (n = 0)%nat as -> by (destruct n; [reflexivity|]; exfalso; assert (1 <= (S n + 15) / 16)%nat by (apply Nat.div_le_lower_bound; lia); lia).
    destruct old; [|discriminate Lo]. exists block, (Z.of_nat (length don)).
    ystep. cbn [Z.of_nat]. eapply yields_eq; [apply yields_ret|]. unfold nth_v. cbn [firstn app Z.of_nat].
    now rewrite Z.add_0_r, be16.
  - assert (Hn : (n <> 0)%nat) by (intros ->; cbn in Em; discriminate Em).
    destruct (round_ok key v block Lk Lv Bv Lb) as [Y1 Y2].
    assert (LB : length (E key (next v)) = 16%nat) by apply HE.
    rewrite ctr_blocks_next by auto.
    destruct (Compare_dec.le_lt_dec 16 n) as [L16|L16].
    + destruct (split_at old 16 ltac:(lia)) as (o1 & o2 & -> & L1). rewrite app_length in Lo.
      destruct (IH (n - 16)%nat fuel (next v) (E key (next v)) pre (don ++ E key (next v)) o2 post) as (b' & i' & Y);
        [apply next_length|apply next_bytes|exact LB|lia| |lia|rewrite app_length, LB; lia|].
      { replace (n + 15)%nat with (n - 16 + 15 + 1 * 16)%nat in Em by lia. rewrite Nat.div_add in Em by lia. lia. }
      exists b', i'. 
      ystep. replace (0 <? Z.of_nat n) with true by (symmetry; apply Z.ltb_lt; lia). 
      eapply yields_bind.
      * unfold loop_body at 1. eapply yields_bind; [exact Y1|]. eapply yields_bind; [exact Y2|]. cbv beta. ystep.
        replace (15 <? Z.of_nat n) with true by (symmetry; apply Z.ltb_lt; lia). 
        eapply yields_bind.
        { rewrite Nat2Z.id, <- app_length.
          pose proof (yields_copy (pre ++ don) o1 (o2 ++ post) [] (E key (next v)) [] ltac:(lia)) as Yc. cbn [app length] in Yc.
          rewrite app_nil_r, LB in Yc. rewrite <- ?app_assoc in Yc. rewrite <- ?app_assoc. exact Yc. }
        cbv beta. eapply yields_bind; [apply yields_chk; lia|]. cbv beta. apply yields_ret.
      * cbv beta. rewrite app_length, LB in Y.
        replace (Z.of_nat (length don) + 16) with (Z.of_nat (length don + 16)) by lia.
        replace (Z.of_nat n - 16) with (Z.of_nat (n - 16)) by lia.
        rewrite <- ?app_assoc in Y. rewrite <- ?app_assoc.
        eapply yields_eq; [exact Y|]. rewrite nth_v_next.
        rewrite firstn_app, LB, (firstn_all2 (E key (next v))) by lia. rewrite <- ?app_assoc. reflexivity.
    + assert (Em' : m = 0%nat).
      { assert ((n + 15) / 16 < 2)%nat by (apply Nat.div_lt_upper_bound; lia). lia. }
      subst m. destruct fuel as [|fuel]; [lia|].
      exists (E key (next v)), (Z.of_nat (length don)).
      ystep. replace (0 <? Z.of_nat n) with true by (symmetry; apply Z.ltb_lt; lia).
      eapply yields_bind.
      * unfold loop_body at 1. eapply yields_bind; [exact Y1|]. eapply yields_bind; [exact Y2|]. cbv beta. ystep.
        replace (15 <? Z.of_nat n) with false by (symmetry; apply Z.ltb_ge; lia). rewrite !Nat2Z.id.
        eapply yields_bind; [|apply yields_ret].
        pose proof (yields_copy (pre ++ don) old post [] (firstn n (E key (next v))) (skipn n (E key (next v)))) as Yc.
        rewrite firstn_length, LB in Yc. specialize (Yc ltac:(lia)). cbn [app length] in Yc. rewrite firstn_skipn in Yc.
        replace (Nat.min n 16) with n in Yc by lia. rewrite app_length, <- !app_assoc in Yc. exact Yc.
      * cbv beta. cbn [while_]. ystep. cbn [Z.ltb Z.compare]. eapply yields_eq; [apply yields_ret|].
        rewrite <- nth_v_next. unfold nth_v. cbn [Z.of_nat]. rewrite Z.add_0_r.
        rewrite be16 by (apply next_length || apply next_bytes).
        rewrite firstn_app, LB. replace (n - 16)%nat with 0%nat by lia. now rewrite firstn_O, app_nil_r.
Qed.

Lemma ub_bind {A B} (m : res A) (f : A -> res B) v u : yields m v -> f v = UB u -> bind m f = UB u.
Proof. intros [T ->] E'. unfold bind. now rewrite E'. Qed.
Lemma bind_ub {A B} (m : res A) (f : A -> res B) u : m = UB u -> bind m f = UB u.
Proof. now intros ->. Qed.
Lemma chk_ub x : ~ (- 2 ^ 31 <= x < 2 ^ 31) -> chk_int x = UB SignedOverflow.
Proof. intros L. unfold chk_int. destruct (Z.leb_spec (- 2 ^ 31) x), (Z.ltb_spec x (2 ^ 31)); cbn [andb]; try reflexivity. lia. Qed.
Lemma local_length `{Junk} n : length (local n) = n.
Proof. unfold local. now rewrite map_length, seq_length. Qed.

(** [n] bytes at [length pre] of a buffer with room for them *)
Lemma randombytes_ok `{Junk} d st pre old post : state_is (d_key d) (d_v d) st ->
  Z.of_nat (length old) < 2 ^ 31 -> - 2 ^ 31 <= d_counter d < 2 ^ 31 - 1 ->
  exists d', yields (drbg_randombytes E d (pre ++ old ++ post) (length pre) (Z.of_nat (length old)))
      (pre ++ fst (CTR_DRBG_Generate E (length old) st) ++ post, d', RNG_SUCCESS) /\
    d_counter d' = d_counter d + 1 /\
    state_is (d_key d') (d_v d') (snd (CTR_DRBG_Generate E (length old) st)).
Proof.
  intros (Lk & Bk & Lv & Bv & ->) Hn Hc. set (n := length old). set (m := ((n + 15) / 16)%nat).
  assert (Hm : m = ((n + 15) / 16)%nat) by reflexivity.
  destruct (loop_ok (d_key d) Lk m n (Z.to_nat (Z.of_nat n / 16 + 2)) (d_v d) (local 16) pre [] old post) as (b' & i' & Y); auto.
  { assert (m <= n / 16 + 1)%nat.
    { rewrite Hm. replace (n / 16 + 1)%nat with ((n + 1 * 16) / 16)%nat by (rewrite Nat.div_add by lia; reflexivity).
      apply Nat.div_le_mono; lia. }
    assert (Z.of_nat n / 16 = Z.of_nat (n / 16)) by (rewrite Nat2Z.inj_div; reflexivity). lia. }
  assert (S1 : state_is (d_key d) (nth_v (d_v d) m) (d_key d, be_value (nth_v (d_v d) m))).
  { refine (conj Lk (conj Bk (conj _ (conj _ eq_refl)))); [apply be_bytes_length|apply be_bytes_range]. }
  destruct (update_ok None _ _ _ S1) as (key' & v' & YU & SU); [intros ? [=]|].
  exists {| d_key := key'; d_v := v'; d_counter := d_counter d + 1 |}.
  split; [|split; [reflexivity|]].
  - rewrite drbg_randombytes_unfold. cbn [app length] in Y. eapply yields_bind; [exact Y|]. cbv beta iota.
    eapply yields_bind; [exact YU|]. cbv beta iota. eapply yields_bind; [apply yields_chk; lia|]. cbv beta. apply yields_ret.
  - cbn [d_key d_v]. unfold CTR_DRBG_Generate. cbn [fst snd]. fold n. fold m. cbn [data_of] in SU.
    replace (be_value (nth_v (d_v d) m)) with ((be_value (d_v d) + Z.of_nat m) mod 2 ^ 128) in SU; [exact SU|].
    unfold nth_v. rewrite be_value_bytes. reflexivity.
Qed.
(** The loop when the int index overflows *)
Lemma loop_ub `{Junk} key : length key = 32%nat -> forall m fuel v block pre don old post,
  length v = 16%nat -> bytes v -> length block = 16%nat -> (m <= fuel)%nat -> (0 < m)%nat ->
  Z.of_nat (length don) = 2 ^ 31 - 16 * Z.of_nat m -> (16 * m <= length old)%nat ->
  while_ fuel loop_cond (loop_body key (length pre)) (v, block, pre ++ don ++ old ++ post, Z.of_nat (length don), Z.of_nat (length old)) = UB SignedOverflow.
Proof.
  intros Lk. induction m as [|m IH]; intros fuel v block pre don old post Lv Bv Lb Hf Hm Hd Lo; [lia|].
  destruct fuel as [|fuel]; [lia|]. cbn [while_].
  destruct (round_ok key v block Lk Lv Bv Lb) as [Y1 Y2].
  assert (LB : length (E key (next v)) = 16%nat) by apply HE.
  destruct (split_at old 16 ltac:(lia)) as (o1 & o2 & -> & L1). rewrite app_length in Lo |- *.
  eapply ub_bind; [apply yields_test|].
  replace (0 <? Z.of_nat (length o1 + length o2)) with true by (symmetry; apply Z.ltb_lt; lia).
  assert (Yc : yields (memcpy (pre ++ don ++ (o1 ++ o2) ++ post) (length pre + Z.to_nat (Z.of_nat (length don))) (E key (next v)) 0 16)
     (pre ++ (don ++ E key (next v)) ++ o2 ++ post)).
  { rewrite Nat2Z.id, <- app_length.
    pose proof (yields_copy (pre ++ don) o1 (o2 ++ post) [] (E key (next v)) [] ltac:(lia)) as Yc. cbn [app length] in Yc.
    rewrite app_nil_r, LB in Yc. rewrite <- ?app_assoc in Yc. rewrite <- ?app_assoc. exact Yc. }
  destruct (Nat.eq_dec m 0) as [->|Nm].
  - apply bind_ub. unfold loop_body. eapply ub_bind; [exact Y1|]. eapply ub_bind; [exact Y2|].
    cbv beta. eapply ub_bind; [apply yields_test|].
    replace (15 <? Z.of_nat (length o1 + length o2)) with true by (symmetry; apply Z.ltb_lt; lia).
    eapply ub_bind; [exact Yc|]. cbv beta. apply bind_ub. apply chk_ub. lia.
  - eapply ub_bind.
    + unfold loop_body at 1. eapply yields_bind; [exact Y1|]. eapply yields_bind; [exact Y2|]. cbv beta. ystep.
      replace (15 <? Z.of_nat (length o1 + length o2)) with true by (symmetry; apply Z.ltb_lt; lia).
      eapply yields_bind; [exact Yc|]. cbv beta. eapply yields_bind; [apply yields_chk; lia|]. cbv beta. apply yields_ret.
    + cbv beta.
      pose proof (IH fuel (next v) (E key (next v)) pre (don ++ E key (next v)) o2 post (next_length v) (next_bytes v) LB) as Y.
      rewrite app_length, LB in Y. specialize (Y ltac:(lia) ltac:(lia) ltac:(lia) ltac:(lia)).
      replace (Z.of_nat (length don) + 16) with (Z.of_nat (length don + 16)) by lia.
      replace (Z.of_nat (length o1 + length o2) - 16) with (Z.of_nat (length o2)) by lia. exact Y.
Qed.
Lemma randombytes_long `{Junk} d pre old post : length (d_key d) = 32%nat -> length (d_v d) = 16%nat -> bytes (d_v d) ->
  2 ^ 31 <= Z.of_nat (length old) ->
  drbg_randombytes E d (pre ++ old ++ post) (length pre) (Z.of_nat (length old)) = UB SignedOverflow.
Proof.
  intros Lk Lv Bv Hn. rewrite drbg_randombytes_unfold. apply bind_ub.
  pose proof (loop_ub (d_key d) Lk (Z.to_nat (2 ^ 27)) (Z.to_nat (Z.of_nat (length old) / 16 + 2)) (d_v d) (local 16) pre [] old post Lv Bv (local_length 16)) as L.
  cbn [app length] in L. apply L; clear L.
  - assert (2 ^ 27 <= Z.of_nat (length old) / 16) by (apply Z.div_le_lower_bound; lia). lia.
  - lia.
  - rewrite Z2Nat.id by lia. reflexivity.
  - lia.
Qed.
Lemma randombytes_exhausted `{Junk} d st pre old post : state_is (d_key d) (d_v d) st ->
  Z.of_nat (length old) < 2 ^ 31 -> d_counter d = 2 ^ 31 - 1 ->
  drbg_randombytes E d (pre ++ old ++ post) (length pre) (Z.of_nat (length old)) = UB SignedOverflow.
Proof.
  intros (Lk & Bk & Lv & Bv & ->) Hn Hc. set (n := length old). set (m := ((n + 15) / 16)%nat).
  assert (Hm : m = ((n + 15) / 16)%nat) by reflexivity.
  destruct (loop_ok (d_key d) Lk m n (Z.to_nat (Z.of_nat n / 16 + 2)) (d_v d) (local 16) pre [] old post) as (b' & i' & Y); auto.
  { assert (m <= n / 16 + 1)%nat.
    { rewrite Hm. replace (n / 16 + 1)%nat with ((n + 1 * 16) / 16)%nat by (rewrite Nat.div_add by lia; reflexivity).
      apply Nat.div_le_mono; lia. }
    assert (Z.of_nat n / 16 = Z.of_nat (n / 16)) by (rewrite Nat2Z.inj_div; reflexivity). lia. }
  assert (S1 : state_is (d_key d) (nth_v (d_v d) m) (d_key d, be_value (nth_v (d_v d) m))).
  { refine (conj Lk (conj Bk (conj _ (conj _ eq_refl)))); [apply be_bytes_length|apply be_bytes_range]. }
  destruct (update_ok None _ _ _ S1) as (key' & v' & YU & SU); [intros ? [=]|].
  rewrite drbg_randombytes_unfold. cbn [app length] in Y. eapply ub_bind; [exact Y|]. cbv beta iota.
  eapply ub_bind; [exact YU|]. cbv beta iota. apply bind_ub. apply chk_ub. lia.
Qed.
End Cipher.
