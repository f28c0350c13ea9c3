(** * The sponge of fips202.c is SHA-3 / SHAKE of FIPS 202 *)
From Coq Require Import ZArith List Lia Bool.
From Verif Require Import CMonad WP Proof_Base Proof_Bits Model_Fips202 Spec_FIPS202 Proof_Keccak.
Import ListNotations.
Open Scope Z_scope.

(** ** Bit strings of byte strings *)
Definition mbit (M : list Z) (k : nat) : bool := Z.testbit (nth (k / 8) M 0) (Z.of_nat (k mod 8)).

Lemma byte_bits_length b : length (byte_bits b) = 8%nat.
Proof. reflexivity. Qed.

Lemma bits_of_bytes_app a b : bits_of_bytes (a ++ b) = bits_of_bytes a ++ bits_of_bytes b.
Proof. apply flat_map_app. Qed.

Lemma bits_of_bytes_length M : length (bits_of_bytes M) = (8 * length M)%nat.
Proof.
  unfold bits_of_bytes. induction M; [reflexivity|]. cbn [flat_map length].
  rewrite app_length, byte_bits_length, IHM. lia.
Qed.

Lemma bits_of_bytes_nth2 M i j : (j < 8)%nat ->
  nth (8 * i + j) (bits_of_bytes M) false = Z.testbit (nth i M 0) (Z.of_nat j).
Proof.
  intros Hj. revert i. unfold bits_of_bytes. induction M as [|a M IH]; intros i.
  - cbn [flat_map]. destruct i; cbn [nth]; rewrite Z.bits_0; now destruct (_ + _)%nat.
  - cbn [flat_map]. destruct i as [|i].
    + rewrite app_nth1 by (rewrite byte_bits_length; lia). cbn [nth].
      replace (8 * 0 + j)%nat with j by lia.
      apply (nth_mk 8 (fun i => Z.testbit a (Z.of_nat i))); auto.
    + rewrite app_nth2 by (rewrite byte_bits_length; lia). rewrite byte_bits_length.
      replace (8 * S i + j - 8)%nat with (8 * i + j)%nat by lia. cbn [nth]. apply IH.
Qed.

Lemma bits_of_bytes_nth M k : nth k (bits_of_bytes M) false = mbit M k.
Proof.
  unfold mbit. pose proof (Nat.mod_upper_bound k 8 ltac:(lia)).
  rewrite (Nat.div_mod k 8) at 1 by lia. now apply bits_of_bytes_nth2.
Qed.

Lemma mbit_out M k : (8 * length M <= k)%nat -> mbit M k = false.
Proof. intros. rewrite <- bits_of_bytes_nth. apply nth_overflow. rewrite bits_of_bytes_length. lia. Qed.

Lemma mbit_app a b k : mbit (a ++ b) k =
  if (k <? 8 * length a)%nat then mbit a k else mbit b (k - 8 * length a).
Proof.
  rewrite <- !bits_of_bytes_nth, bits_of_bytes_app.
  destruct (Nat.ltb_spec k (8 * length a)).
  - rewrite app_nth1 by (rewrite bits_of_bytes_length; lia). reflexivity.
  - rewrite app_nth2 by (rewrite bits_of_bytes_length; lia). now rewrite bits_of_bytes_length.
Qed.

Lemma mbit_sub M o n k : (k < 8 * n)%nat -> mbit (sub M o n) k = mbit M (8 * o + k).
Proof.
  intros. unfold mbit. rewrite nth_sub.
  - replace (8 * o + k)%nat with (k + o * 8)%nat by lia.
    rewrite Nat.div_add, Nat.mod_add by lia. do 2 f_equal. lia.
  - apply Nat.div_lt_upper_bound; lia.
Qed.

(** ** Xoring into the state *)
Definition xored (s : list Z) (f : nat -> bool) (s' : list Z) : Prop :=
  wfstate s' /\ forall k, (k < 1600)%nat -> bit s' k = xorb (bit s k) (f k).

Definition window (lo n : nat) (f : nat -> bool) (k : nat) : bool :=
  if ((lo <=? k) && (k <? lo + n))%nat then f (k - lo)%nat else false.

Lemma window_in lo n f k : (lo <= k < lo + n)%nat -> window lo n f k = f (k - lo)%nat.
Proof.
  intros. unfold window. destruct (Nat.leb_spec lo k), (Nat.ltb_spec k (lo + n)); try lia. reflexivity.
Qed.
Lemma window_out lo n f k : ~ (lo <= k < lo + n)%nat -> window lo n f k = false.
Proof.
  intros. unfold window. destruct (Nat.leb_spec lo k), (Nat.ltb_spec k (lo + n)); try lia; reflexivity.
Qed.

Lemma bit_upd s d v k : wfstate s -> (d < 25)%nat ->
  bit (upd s d v) k = if (k / 64 =? d)%nat then Z.testbit v (Z.of_nat (k mod 64)) else bit s k.
Proof.
  intros [Hl _] Hd. unfold bit. rewrite nth_upd, Hl.
  destruct (Nat.eqb_spec (k / 64) d); destruct (Nat.ltb_spec d 25); try lia; reflexivity.
Qed.

Lemma wfstate_upd s d v : wfstate s -> lane v -> wfstate (upd s d v).
Proof.
  intros [Hl H] Hv. split; [now rewrite upd_length|].
  intros i. rewrite nth_upd. destruct (_ && _); auto.
Qed.

Lemma div64 k d : (k / 64 = d <-> 64 * d <= k < 64 * d + 64)%nat.
Proof.
  pose proof (Nat.div_mod k 64 ltac:(lia)). pose proof (Nat.mod_upper_bound k 64 ltac:(lia)). split; intros; lia.
Qed.

Lemma xor_lane_bits s d v f : wfstate s -> (d < 25)%nat -> lane v ->
  (forall j, (j < 64)%nat -> Z.testbit v (Z.of_nat j) = f (64 * d + j)%nat) ->
  (forall k, ~ (64 * d <= k < 64 * d + 64)%nat -> f k = false) ->
  xored s f (upd s d (Z.lxor (nth d s 0) v)).
Proof.
  intros Hs Hd Hv Hin Hout. split. { apply wfstate_upd; auto. apply lane_lxor; auto. apply Hs. }
  intros k Hk. rewrite bit_upd by auto.
  destruct (Nat.eqb_spec (k / 64) d) as [E|E].
  - rewrite Z.lxor_spec. unfold bit. rewrite E. f_equal.
    pose proof (Nat.div_mod k 64 ltac:(lia)). pose proof (Nat.mod_upper_bound k 64 ltac:(lia)).
    rewrite Hin by lia. f_equal. lia.
  - rewrite Hout, xorb_false_r; auto. rewrite <- div64. auto.
Qed.

Lemma xor_byte_wp i :
  traced (fun T => forall s b, wfstate s -> (i < 200)%nat -> 0 <= b <= 255 ->
    wp (xor_byte s i b) T
       (xored s (window (8 * i) 8 (fun j => Z.testbit b (Z.of_nat j))))).
Proof.
  eexists. intros s b Hs Hi Hb. unfold xor_byte, nmod, ndiv.
  pose proof (Nat.div_mod i 8 ltac:(lia)) as DM. pose proof (Nat.mod_upper_bound i 8 ltac:(lia)) as Hm.
  set (m := (i mod 8)%nat) in *. set (d := (i / 8)%nat) in *.
  wstep. eapply wp_conseq; [apply wp_ok; reflexivity|]. intros ? ->.
  wstep. wstep; [lia|].
  wstep. eapply wp_conseq; [apply wp_ok; reflexivity|]. intros ? ->.
  destruct Hs as [Hl HL]. wstep. wstep; [lia|]. wstep; [lia|].
  apply xor_lane_bits; [split; auto|lia|apply lane_u64| |].
  - intros j Hj. change (wrapu 64) with u64. rewrite u64_bit by lia.
    destruct (Z.ltb_spec (Z.of_nat j) 64); try lia. cbn [andb].
    rewrite Z.shiftl_spec by lia. destruct (Nat.leb_spec (8 * m) j).
    + destruct (Nat.ltb_spec j (8 * m + 8)).
      * rewrite window_in by lia. f_equal. lia.
      * rewrite window_out by lia. apply (testbit_high b 8); lia.
    + rewrite window_out by lia. apply Z.testbit_neg_r. lia.
  - intros k Hk. apply window_out. lia.
Qed.

Lemma xored_wf s f s' : xored s f s' -> wfstate s'.
Proof. now intros []. Qed.

Lemma xored_trans s f s1 g s2 h : xored s f s1 -> xored s1 g s2 ->
  (forall k, (k < 1600)%nat -> h k = xorb (f k) (g k)) -> xored s h s2.
Proof.
  intros [_ H1] [W2 H2] Hh. split; auto. intros k Hk.
  rewrite H2, H1, Hh by auto. apply xorb_assoc.
Qed.

Lemma xored_refl s : wfstate s -> xored s (fun _ => false) s.
Proof. intros; split; auto. intros. now rewrite xorb_false_r. Qed.

Lemma xored_ext s f g s' : xored s f s' -> (forall k, (k < 1600)%nat -> f k = g k) -> xored s g s'.
Proof. intros [W H] E. split; auto. intros k Hk. rewrite H, E; auto. Qed.

(** [window (8 lo) (8 (n+1))] is [window (8 lo) (8 n)] and one more byte *)
Lemma window_byte lo n M o k : (o + n < length M)%nat ->
  window (8 * lo) (8 * S n) (fun j => mbit M (8 * o + j)) k =
  xorb (window (8 * lo) (8 * n) (fun j => mbit M (8 * o + j)) k)
       (window (8 * (lo + n)) 8 (fun j => Z.testbit (nth (o + n) M 0) (Z.of_nat j)) k).
Proof.
  intros H. unfold window.
  destruct (Nat.leb_spec (8 * lo) k), (Nat.ltb_spec k (8 * lo + 8 * S n)),
    (Nat.ltb_spec k (8 * lo + 8 * n)), (Nat.leb_spec (8 * (lo + n)) k),
    (Nat.ltb_spec k (8 * (lo + n) + 8)); try lia; cbn [andb]; try reflexivity.
  - now rewrite xorb_false_r.
  - rewrite xorb_false_l. unfold mbit.
    replace (8 * o + (k - 8 * lo))%nat with ((k - 8 * (lo + n)) + (o + n) * 8)%nat by lia.
    rewrite Nat.div_add, Nat.mod_add by lia.
    rewrite (Nat.div_small (k - 8 * (lo + n))), (Nat.mod_small (k - 8 * (lo + n))) by lia. reflexivity.
Qed.

(** for (i = pos; i < pos + n; i++) s[i/8] ^= in[i - pos] << 8*(i%8) *)
Lemma xor_bytes_wp pos n io :
  traced (fun T => forall s inp, wfstate s -> (pos + n <= 200)%nat -> (io + n <= length inp)%nat -> bytes inp ->
    wp (for_ n pos (fun i s => b <- aget inp (io + (i - pos)) ;; xor_byte s i b) s) T
       (xored s (window (8 * pos) (8 * n) (fun j => mbit inp (8 * io + j))))).
Proof.
  eexists. intros s inp Hs Hn Hi Hb.
  eapply (wp_for _ (fun i s' => xored s (window (8 * pos) (8 * (i - pos)) (fun j => mbit inp (8 * io + j))) s')).
  - rewrite Nat.sub_diag. eapply xored_ext; [apply xored_refl; auto|].
    intros k Hk. symmetry. apply window_out. lia.
  - intros i s1 Hr X1. wstep. wstep; [lia|].
    eapply wp_conseq; [apply (proj2_sig (xor_byte_wp i)); [eapply xored_wf; eauto|lia|apply Hb; lia]|].
    intros s2 X2. eapply xored_trans; [exact X1|exact X2|].
    intros k Hk. replace (S i - pos)%nat with (S (i - pos)) by lia.
    rewrite window_byte by lia. replace (pos + (i - pos))%nat with i by lia. reflexivity.
  - intros s' X. now replace (pos + n - pos)%nat with n in X by lia.
Qed.

(** ** load64, store64 *)
Lemma load64_wp xo :
  traced (fun T => forall x, (xo + 8 <= length x)%nat -> bytes x ->
    wp (load64 x xo) T
       (fun v => lane v /\ forall j, (j < 64)%nat -> Z.testbit v (Z.of_nat j) = mbit x (8 * xo + j))).
Proof.
  eexists. intros x Hx Hb. unfold load64.
  eapply (wp_for _ (fun i v => lane v /\ forall j, (j < 64)%nat ->
    Z.testbit v (Z.of_nat j) = if (j <? 8 * i)%nat then mbit x (8 * xo + j) else false)).
  - split. { unfold lane; lia. } intros j Hj. rewrite Z.bits_0. reflexivity.
  - intros i v Hi [Lv Hv]. wstep. wstep; [lia|]. wstep. wstep; [lia|]. wstep.
    change (wrapu 64) with u64. split.
    + apply lane_bits. { apply Z.lor_nonneg. split; [apply Lv|apply lane_u64]. }
      intros z Hz. rewrite Z.lor_spec, (lane_high v), (lane_high (u64 _)); auto. apply lane_u64.
    + intros j Hj. rewrite Z.lor_spec, Hv, u64_bit by lia.
      destruct (Z.ltb_spec (Z.of_nat j) 64); try lia. cbn [andb]. rewrite Z.shiftl_spec by lia.
      pose proof (Hb (xo + i)%nat ltac:(lia)) as Hbi.
      destruct (Nat.ltb_spec j (8 * i)), (Nat.ltb_spec j (8 * S i)); try lia.
      * rewrite (Z.testbit_neg_r _ (_ - _)) by lia. apply orb_false_r.
      * rewrite orb_false_l. unfold mbit.
        replace (8 * xo + j)%nat with ((j - 8 * i) + (xo + i) * 8)%nat by lia.
        rewrite Nat.div_add, Nat.mod_add by lia.
        rewrite (Nat.div_small (j - 8 * i)), (Nat.mod_small (j - 8 * i)) by lia. f_equal. lia.
      * rewrite orb_false_l. apply (testbit_high _ 8); lia.
  - intros v [Lv Hv]. split; auto. intros j Hj. rewrite Hv by auto.
    destruct (Nat.ltb_spec j (8 * (0 + 8))); auto; lia.
Qed.

(** Byte i of the state *)
Definition stbyte (s : list bool) (i : nat) : Z :=
  byte_of_bits (map (fun j => nth (8 * i + j) s false) (seq 0 8)).

Lemma byte_of_bits_range l : 0 <= byte_of_bits l < 2 ^ Z.of_nat (length l).
Proof.
  induction l as [|b l IH]; [simpl; lia|]. cbn [length].
  change (byte_of_bits (b :: l)) with ((if b then 1 else 0) + 2 * byte_of_bits l).
  rewrite Nat2Z.inj_succ, Z.pow_succ_r by lia. destruct b; cbv beta iota; lia.
Qed.

Lemma byte_of_bits_testbit l j : Z.testbit (byte_of_bits l) (Z.of_nat j) = nth j l false.
Proof.
  revert j. induction l as [|b l IH]; intros j.
  - change (byte_of_bits []) with 0. rewrite Z.bits_0. now destruct j.
  - change (byte_of_bits (b :: l)) with (Z.b2z b + 2 * byte_of_bits l). rewrite Z.add_comm.
    destruct j as [|j]; cbn [nth].
    + apply Z.testbit_0_r.
    + rewrite Nat2Z.inj_succ, Z.testbit_succ_r by lia. apply IH.
Qed.

Lemma stbyte_range s i : 0 <= stbyte s i <= 255.
Proof.
  unfold stbyte. pose proof (byte_of_bits_range (map (fun j => nth (8 * i + j) s false) (seq 0 8))) as H.
  rewrite map_length, seq_length in H. change (2 ^ Z.of_nat 8) with 256 in H. lia.
Qed.

Lemma stbyte_bit s i j : (j < 8)%nat -> Z.testbit (stbyte s i) (Z.of_nat j) = nth (8 * i + j) s false.
Proof.
  intros. unfold stbyte. rewrite byte_of_bits_testbit.
  apply (nth_mk 8 (fun j => nth (8 * i + j) s false)). auto.
Qed.

Lemma state_byte s d m : (m < 8)%nat ->
  u8 (Z.shiftr (nth d s 0) (Z.of_nat (8 * m))) = stbyte (sbits s) (8 * d + m).
Proof.
  intros Hm. apply (bits_ext 8).
  - pose proof (u8_range (Z.shiftr (nth d s 0) (Z.of_nat (8 * m)))). change (2 ^ Z.of_nat 8) with 256. lia.
  - pose proof (stbyte_range (sbits s) (8 * d + m)). change (2 ^ Z.of_nat 8) with 256. lia.
  - intros j Hj. rewrite stbyte_bit by auto. unfold u8, wrapu.
    rewrite Z.mod_pow2_bits_low by lia. rewrite Z.shiftr_spec by lia.
    replace (8 * (8 * d + m) + j)%nat with (64 * d + (8 * m + j))%nat by lia.
    rewrite sbits_nth2 by lia. f_equal. lia.
Qed.

Lemma store64_wp xo :
  traced (fun T => forall x s d, (xo + 8 <= length x)%nat ->
    wp (store64 x xo (nth d s 0)) T
       (fun x' => x' = splice x xo (mk 8 (fun m => stbyte (sbits s) (8 * d + m))))).
Proof.
  eexists. intros x s d Hx. unfold store64.
  set (D := mk 8 (fun m => stbyte (sbits s) (8 * d + m))). assert (LD : length D = 8%nat) by apply mk_length.
  eapply (wp_for _ (fun i x' => x' = splice x xo (firstn i D))).
  - symmetry; apply splice_nil.
  - intros i x1 Hi ->. wstep. wstep; [lia|]. wstep.
    { rewrite splice_length; rewrite ?firstn_length; lia. }
    rewrite (firstn_S_nth 0) by lia.
    rewrite splice_snoc by (rewrite ?firstn_length; lia). do 3 f_equal.
    unfold D. rewrite nth_mk by lia. apply state_byte. lia.
  - intros x' ->. now rewrite firstn_all2 by lia.
Qed.

(** ** The specification's sponge, block by block *)
Lemma xor_bits_length a b : length (xor_bits a b) = Nat.min (length a) (length b).
Proof. revert b; induction a; intros [|y b]; cbn; auto. Qed.

Lemma xor_bits_nth a b k : (k < length a)%nat -> (k < length b)%nat ->
  nth k (xor_bits a b) false = xorb (nth k a false) (nth k b false).
Proof.
  revert b k; induction a; intros [|y b] [|k] Ha Hb; cbn [length xor_bits nth] in *; try lia; auto.
  apply IHa; lia.
Qed.

Lemma keccak_f_length S : length (keccak_f S) = 1600%nat.
Proof.
  unfold keccak_f, string_of_state. set (A := keccak_rounds _). clearbody A.
  change (zseq 5) with [0; 1; 2; 3; 4]. cbn [flat_map].
  repeat (rewrite app_length || rewrite map_length). reflexivity.
Qed.

Opaque keccak_f.

Definition absorb_block (r : nat) (S Pi : list bool) : list bool :=
  keccak_f (xor_bits S (Pi ++ repeat false (1600 - r))).
Definition core (n r : nat) (P : list bool) : list bool :=
  fold_left (absorb_block r) (pieces n r P) (repeat false 1600).

Lemma core_length n r P : length (core n r P) = 1600%nat.
Proof.
  unfold core. assert (H : forall l S, length S = 1600%nat ->
    length (fold_left (absorb_block r) l S) = 1600%nat).
  { induction l; intros S HS; cbn [fold_left]; [exact HS|]. apply IHl. unfold absorb_block. apply keccak_f_length. }
  apply H, repeat_length.
Qed.

Lemma pieces_app n m r P : pieces (n + m) r P = pieces n r P ++ pieces m r (skipn (n * r) P).
Proof.
  revert P; induction n; intros P; [reflexivity|].
  cbn [pieces Nat.add app]. rewrite IHn, skipn_skipn. do 2 f_equal.
Qed.

Lemma pieces_prefix n r P Q : (n * r <= length P)%nat -> pieces n r (P ++ Q) = pieces n r P.
Proof.
  revert P; induction n; intros P H; [reflexivity|]. cbn [pieces].
  rewrite firstn_app, skipn_app. replace (r - length P)%nat with 0%nat by lia.
  cbn [firstn skipn]. rewrite app_nil_r. f_equal. apply IHn. rewrite skipn_length. lia.
Qed.

Lemma core_snoc n r P B : length P = (n * r)%nat -> length B = r ->
  core (S n) r (P ++ B) = absorb_block r (core n r P) B.
Proof.
  intros HP HB. unfold core. replace (S n) with (n + 1)%nat by lia.
  rewrite pieces_app, fold_left_app, pieces_prefix by lia.
  rewrite skipn_app, skipn_all2, HP, Nat.sub_diag by lia. cbn [skipn app pieces fold_left].
  rewrite firstn_all2 by lia. reflexivity.
Qed.

Lemma absorb_core n r P : (0 < r)%nat -> length P = (n * r)%nat -> absorb r P = core n r P.
Proof.
  intros Hr HP. unfold absorb, core. rewrite HP, Nat.div_mul by lia. reflexivity.
Qed.

(** ** The state after absorbing the message M *)
Definition absorbed (rb : nat) (M : list Z) (s : list Z) : Prop :=
  wfstate s /\
  exists n M1 R, M = M1 ++ R /\ length M1 = (n * rb)%nat /\ (length R < rb)%nat /\
    forall k, (k < 1600)%nat ->
      bit s k = xorb (nth k (core n (8 * rb) (bits_of_bytes M1)) false) (mbit R k).

Lemma mod_of n rb R : (R < rb)%nat -> ((n * rb + R) mod rb = R)%nat.
Proof. intros. rewrite Nat.add_comm, Nat.mod_add by lia. now apply Nat.mod_small. Qed.

Lemma absorbed_more rb M s B s' :
  absorbed rb M s -> (length M mod rb + length B < rb)%nat ->
  xored s (window (8 * (length M mod rb)) (8 * length B) (mbit B)) s' ->
  absorbed rb (M ++ B) s'.
Proof.
  intros (W & n & M1 & R & -> & HM1 & HR & Hb) HB [W' X].
  rewrite app_length, HM1, mod_of in HB, X by auto.
  split; auto. exists n, M1, (R ++ B). rewrite app_length. repeat split; auto; try lia.
  - symmetry; apply app_assoc.
  - intros k Hk. rewrite X, Hb, mbit_app by auto. rewrite xorb_assoc. f_equal.
    destruct (Nat.ltb_spec k (8 * length R)).
    + rewrite window_out, xorb_false_r by lia. reflexivity.
    + rewrite mbit_out, xorb_false_l by lia.
      destruct (Nat.ltb_spec k (8 * length R + 8 * length B)).
      * now rewrite window_in by lia.
      * rewrite window_out by lia. symmetry. apply mbit_out. lia.
Qed.

Lemma sbits_xor s C B : wfstate s -> length C = 1600%nat -> (length B <= 1600)%nat ->
  (forall k, (k < 1600)%nat -> bit s k = xorb (nth k C false) (nth k B false)) ->
  sbits s = xor_bits C (B ++ repeat false (1600 - length B)).
Proof.
  intros W HC HB H.
  assert (L : length (B ++ repeat false (1600 - length B)) = 1600%nat).
  { rewrite app_length, repeat_length. lia. }
  apply (list_eq_nth false).
  - rewrite sbits_length, xor_bits_length, HC, L by auto. reflexivity.
  - intros k Hk. rewrite sbits_length in Hk by auto.
    rewrite sbits_nth, H, xor_bits_nth by (rewrite ?L; lia). f_equal.
    destruct (Nat.ltb_spec k (length B)).
    + now rewrite app_nth1 by lia.
    + rewrite app_nth2, nth_overflow by lia.
      symmetry. apply nth_repeat.
Qed.

Lemma absorbed_full rb M s B s' s'' :
  (8 * rb <= 1600)%nat ->
  absorbed rb M s -> (length M mod rb + length B = rb)%nat ->
  xored s (window (8 * (length M mod rb)) (8 * length B) (mbit B)) s' ->
  wfstate s'' -> sbits s'' = keccak_f (sbits s') ->
  absorbed rb (M ++ B) s''.
Proof.
  intros Hrb (W & n & M1 & R & -> & HM1 & HR & Hb) HB [W' X] W'' E.
  rewrite app_length, HM1, mod_of in HB, X by auto.
  split; auto. exists (S n), (M1 ++ R ++ B), []. repeat split; auto.
  - rewrite app_nil_r. symmetry; apply app_assoc.
  - rewrite !app_length. lia.
  - cbn [length]. lia.
  - intros k Hk. rewrite mbit_out, xorb_false_r by (cbn [length]; lia).
    rewrite <- sbits_nth, E, bits_of_bytes_app.
    rewrite core_snoc; [|rewrite bits_of_bytes_length; lia|rewrite bits_of_bytes_length, app_length; lia].
    unfold absorb_block. apply (f_equal (fun S => nth k (keccak_f S) false)).
    replace (1600 - 8 * rb)%nat with (1600 - length (bits_of_bytes (R ++ B)))%nat
      by (rewrite bits_of_bytes_length, app_length; lia).
    apply sbits_xor; [exact W'|apply core_length| |].
    + rewrite bits_of_bytes_length, app_length. lia.
    + clear k Hk. intros k Hk. rewrite X, Hb by auto. rewrite xorb_assoc. f_equal.
      rewrite bits_of_bytes_nth, mbit_app.
      destruct (Nat.ltb_spec k (8 * length R)).
      * rewrite window_out, xorb_false_r by lia. reflexivity.
      * rewrite mbit_out, xorb_false_l by lia.
        destruct (Nat.ltb_spec k (8 * length R + 8 * length B)).
        -- now rewrite window_in by lia.
        -- rewrite window_out by lia. symmetry. apply mbit_out. lia.
Qed.

Lemma absorbed_nil rb s : (0 < rb)%nat -> wfstate s -> (forall k, (k < 1600)%nat -> bit s k = false) -> absorbed rb [] s.
Proof.
  intros Hr W H. split; auto. exists 0%nat, [], []. repeat split; auto.
  intros k Hk. rewrite H by auto. rewrite mbit_out by (cbn [length]; lia).
  cbn [core pieces fold_left]. now rewrite nth_repeat.
Qed.

(** ** Padding: the suffix bits followed by the first bit of pad10*1 are the
    byte p; the last bit is the top bit of the last byte of the block *)
Definition domain (p : Z) (sfx : list bool) : Prop :=
  (length sfx <= 6)%nat /\
  byte_bits p = sfx ++ [true] ++ repeat false (7 - length sfx).

Lemma domain_shake : domain 0x1F [true; true; true; true].
Proof. split; [cbn; lia|reflexivity]. Qed.
Lemma domain_sha3 : domain 0x06 [false; true].
Proof. split; [cbn; lia|reflexivity]. Qed.

Lemma nth_app_lt (a b : list bool) k : nth k (a ++ b) false =
  if (k <? length a)%nat then nth k a false else nth (k - length a) b false.
Proof. destruct (Nat.ltb_spec k (length a)); [apply app_nth1|apply app_nth2]; lia. Qed.

Lemma nth_single (b : bool) k : nth k [b] false = (k =? 0)%nat && b.
Proof. destruct k as [|[|k]]; auto. Qed.

Definition message_bits (sfx : list bool) (M : list Z) : list bool := bits_of_bytes M ++ sfx.
Definition padded (rb : nat) (sfx : list bool) (M : list Z) : list bool :=
  message_bits sfx M ++ pad10star1 (8 * rb) (length (message_bits sfx M)).

Lemma finalized rb M s p sfx s' :
  (0 < rb)%nat -> (8 * rb <= 1600)%nat -> domain p sfx ->
  absorbed rb M s ->
  xored s (fun k => xorb (window (8 * (length M mod rb)) 8 (fun j => Z.testbit p (Z.of_nat j)) k)
                         (k =? 8 * rb - 1)%nat) s' ->
  keccak_f (sbits s') = absorb (8 * rb) (padded rb sfx M).
Proof.
  intros Hrb0 Hrb [Hsfx Hp] (W & n & M1 & R & -> & HM1 & HR & Hb) [W' X].
  rewrite app_length, HM1, mod_of in X by auto.
  set (j := (8 * rb - 8 * length R - length sfx - 2)%nat).
  set (B := bits_of_bytes R ++ sfx ++ [true] ++ repeat false j ++ [true]).
  assert (LB : length B = (8 * rb)%nat).
  { unfold B. rewrite !app_length, bits_of_bytes_length, repeat_length. cbn [length]. unfold j. lia. }
  assert (EP : padded rb sfx (M1 ++ R) = bits_of_bytes M1 ++ B).
  { unfold padded, message_bits, pad10star1, B.
    rewrite bits_of_bytes_app.
    match goal with |- context [repeat false ?e] => assert (Ee : e = j) end.
    2:{ rewrite Ee. now rewrite <- !app_assoc. }
    rewrite !app_length, !bits_of_bytes_length, HM1.
    replace (8 * (n * rb) + 8 * length R + length sfx)%nat with (8 * (n * rb + length R) + length sfx)%nat by lia.
    replace (- Z.of_nat (8 * (n * rb + length R) + length sfx) - 2)
      with (Z.of_nat j + (- Z.of_nat n - 1) * Z.of_nat (8 * rb)) by (unfold j; nia).
    rewrite Z_mod_plus_full, Z.mod_small by (unfold j; lia). apply Nat2Z.id. }
  rewrite EP. rewrite (absorb_core (S n)); [|lia|rewrite app_length, bits_of_bytes_length, LB; nia].
  rewrite core_snoc by (rewrite ?bits_of_bytes_length; auto; lia).
  unfold absorb_block. apply (f_equal keccak_f).
  replace (1600 - 8 * rb)%nat with (1600 - length B)%nat by lia. apply sbits_xor; [exact W'|apply core_length|lia|].
  intros k Hk. rewrite X, Hb by auto. rewrite xorb_assoc. f_equal.
  (* the last block, bit by bit *)
  assert (Hpb : forall i, (i < 8)%nat -> Z.testbit p (Z.of_nat i) = nth i (sfx ++ [true] ++ repeat false (7 - length sfx)) false).
  { intros i Hi. rewrite <- Hp. symmetry. apply (nth_mk 8 (fun i => Z.testbit p (Z.of_nat i))). auto. }
  unfold B. rewrite !nth_app_lt, !bits_of_bytes_length, !repeat_length, !nth_single, !nth_repeat.
  cbn [length]. rewrite bits_of_bytes_nth.
  destruct (Nat.ltb_spec k (8 * length R)).
  { rewrite window_out by lia. destruct (Nat.eqb_spec k (8 * rb - 1)); try lia.
    now rewrite xorb_false_l, xorb_false_r. }
  rewrite mbit_out, xorb_false_l by lia.
  destruct (Nat.ltb_spec k (8 * length R + 8)).
  - rewrite window_in by lia. rewrite Hpb by lia. rewrite !nth_app_lt, nth_single, nth_repeat.
    cbn [length]. set (i := (k - 8 * length R)%nat) in *.
    destruct (Nat.ltb_spec i (length sfx)).
    + destruct (Nat.eqb_spec k (8 * rb - 1)); [lia|]. apply xorb_false_r.
    + destruct (Nat.ltb_spec (i - length sfx) 1).
      * destruct (Nat.eqb_spec k (8 * rb - 1)); [lia|]. apply xorb_false_r.
      * destruct (Nat.eqb_spec k (8 * rb - 1)), (Nat.ltb_spec (i - length sfx - 1) j),
          (Nat.eqb_spec (i - length sfx - 1 - j) 0); unfold j, i in *; try lia; reflexivity.
  - rewrite window_out, xorb_false_l by lia.
    destruct (Nat.ltb_spec (k - 8 * length R) (length sfx)); [lia|].
    destruct (Nat.ltb_spec (k - 8 * length R - length sfx) 1); [lia|].
    destruct (Nat.eqb_spec k (8 * rb - 1)), (Nat.ltb_spec (k - 8 * length R - length sfx - 1) j),
          (Nat.eqb_spec (k - 8 * length R - length sfx - 1 - j) 0); unfold j in *; try lia; reflexivity.
Qed.
