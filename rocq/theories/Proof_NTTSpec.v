(** * The transforms of ntt.c are the FIPS 203 transforms; product theorem *)
From Coq Require Import ZArith List Lia Bool.
From Verif Require Import CMonad WP Proof_Base Modq Sums Model_NTT Proof_NTT Spec_FIPS203.
Import ListNotations.
Open Scope Z_scope.

Lemma nat_parity k : exists c b, (k = 2 * c + b)%nat /\ (b = 0 \/ b = 1)%nat /\
  (k / 2 = c)%nat /\ (k mod 2 = b)%nat /\ Nat.even k = (b =? 0)%nat.
Proof.
  exists (k / 2)%nat, (k mod 2)%nat.
  pose proof (Nat.div_mod k 2 ltac:(lia)). pose proof (Nat.mod_upper_bound k 2 ltac:(lia)).
  repeat split; auto; try lia.
  destruct (Nat.even k) eqn:E.
  - apply Nat.even_spec in E as [m ->]. rewrite Nat.mul_comm, Nat.mod_mul by lia. reflexivity.
  - assert (Nat.odd k = true) as O by (unfold Nat.odd; now rewrite E).
    apply Nat.odd_spec in O as [m ->].
    replace (2 * m + 1)%nat with (1 + m * 2)%nat by lia. rewrite Nat.mod_add by lia. reflexivity.
Qed.

Lemma div2_parity c b : (b = 0 \/ b = 1)%nat -> ((2 * c + b) / 2 = c /\ (2 * c + b) mod 2 = b)%nat.
Proof.
  intros H. replace (2 * c + b)%nat with (b + c * 2)%nat by lia.
  rewrite Nat.div_add, Nat.mod_add by lia. destruct H as [-> | ->]; split; reflexivity.
Qed.

Lemma even_parity c b : (b = 0 \/ b = 1)%nat -> Nat.even (2 * c + b) = (b =? 0)%nat.
Proof.
  intros [-> | ->].
  - rewrite Nat.add_0_r, Nat.even_mul. reflexivity.
  - rewrite Nat.even_add, Nat.even_mul. reflexivity.
Qed.

(** The transform without the final reduction. *)
Definition ntt_sum (f : list Z) (c b : nat) : Z :=
  sumz 128 (fun j => coef f (2 * j + b) * gamma c ^ Z.of_nat j).

Lemma NTT_nth f c b : (b = 0 \/ b = 1)%nat -> (c < 128)%nat ->
  nth (2 * c + b) (NTT f) 0 = ntt_sum f c b mod q.
Proof.
  intros Hb Hc. unfold NTT, ntt_sum. rewrite nth_mkpoly by lia.
  destruct (div2_parity c b Hb) as [-> ->]. reflexivity.
Qed.

Definition invntt_sum (F : list Z) (c b : nat) : Z :=
  3303 * sumz 128 (fun i => coef F (2 * i + b) * gamma_inv i ^ Z.of_nat c).

Lemma NTTinv_nth f c b : (b = 0 \/ b = 1)%nat -> (c < 128)%nat ->
  nth (2 * c + b) (NTTinv f) 0 = invntt_sum f c b mod q.
Proof.
  intros Hb Hc. unfold NTTinv, invntt_sum. rewrite nth_mkpoly by lia.
  destruct (div2_parity c b Hb) as [-> ->]. reflexivity.
Qed.

Lemma lcong_parity l l' : length l = 256%nat -> length l' = 256%nat ->
  (forall c b, (c < 128)%nat -> (b = 0 \/ b = 1)%nat -> nth (2 * c + b) l 0 ≡ nth (2 * c + b) l' 0) ->
  lcong l l'.
Proof.
  intros H1 H2 H. split; [congruence|]. intros i Hi.
  destruct (nat_parity i) as (c & b & -> & Hb & _). apply H; auto. lia.
Qed.

Lemma poly_eq_parity l l' : length l = 256%nat -> length l' = 256%nat ->
  (forall c b, (c < 128)%nat -> (b = 0 \/ b = 1)%nat -> nth (2 * c + b) l 0 = nth (2 * c + b) l' 0) ->
  l = l'.
Proof.
  intros H1 H2 H. apply (list_eq_nth 0); [congruence|]. intros i Hi.
  destruct (nat_parity i) as (c & b & -> & Hb & _). apply H; auto. lia.
Qed.

Lemma NTT_length f : length (NTT f) = 256%nat. Proof. apply mkpoly_length. Qed.
Lemma NTTinv_length f : length (NTTinv f) = 256%nat. Proof. apply mkpoly_length. Qed.

(** ** Facts about the roots of unity, all finite *)
Lemma cong_pow a b n : a ≡ b -> a ^ Z.of_nat n ≡ b ^ Z.of_nat n.
Proof.
  intros E. induction n; [reflexivity|]. rewrite Nat2Z.inj_succ, !Z.pow_succ_r by lia.
  rewrite IHn, E. reflexivity.
Qed.

Definition gammas : list Z := Eval vm_compute in map gamma (seq 0 128).
Definition gammas_inv : list Z := Eval vm_compute in map gamma_inv (seq 0 128).
Lemma forall_seq (P : nat -> bool) n : forallb P (seq 0 n) = true -> forall c, (c < n)%nat -> P c = true.
Proof. rewrite forallb_forall. intros H c Hc. apply H, in_seq. lia. Qed.

(** Square-and-multiply, to keep the finite checks cheap *)
Fixpoint powm (a : Z) (n : positive) : Z :=
  match n with
  | xH => a mod 3329
  | xO n' => let p := powm a n' in (p * p) mod 3329
  | xI n' => let p := powm a n' in (p * p mod 3329 * a) mod 3329
  end.
Lemma powm_spec a n : powm a n = a ^ Z.pos n mod 3329.
Proof.
  induction n as [n IH|n IH|]; cbn [powm]; cbv zeta; try rewrite IH.
  - replace (Z.pos n~1) with (Z.pos n + Z.pos n + 1) by lia. rewrite !Z.pow_add_r, Z.pow_1_r by lia.
    rewrite <- Z.mul_mod by lia. rewrite Z.mul_mod_idemp_l by lia. reflexivity.
  - replace (Z.pos n~0) with (Z.pos n + Z.pos n) by lia. rewrite Z.pow_add_r by lia.
    rewrite <- Z.mul_mod by lia. reflexivity.
  - now rewrite Z.pow_1_r.
Qed.
Definition zpowm (a e : Z) : Z := match e with Z.pos n => powm a n | _ => -1 end.
Lemma zpowm_spec a e v : 0 <= v -> zpowm a e = v -> a ^ e mod 3329 = v.
Proof. intros Hv H. destruct e; cbn [zpowm] in H; [lia| |lia]. now rewrite powm_spec in H. Qed.

Lemma cong_zpowm a e : 0 < e -> zpowm a e ≡ a ^ e.
Proof. intros H. destruct e; try lia. cbn [zpowm]. rewrite powm_spec. apply cong_mod. Qed.

Definition tab_ok (e : nat -> Z) (tab : list Z) (c : nat) : bool :=
  (0 <=? nth c tab 0) && (zpowm 17 (e c) =? nth c tab 0).
Lemma tab_ok_spec e tab n : forallb (tab_ok e tab) (seq 0 n) = true ->
  forall c, (c < n)%nat -> 17 ^ e c mod 3329 = nth c tab 0.
Proof.
  intros H c Hc. pose proof (forall_seq _ n H c Hc) as E. unfold tab_ok in E.
  apply andb_true_iff in E as [E1 E2]. apply Z.leb_le in E1. apply Z.eqb_eq in E2.
  now apply zpowm_spec.
Qed.
Lemma gamma_tab c : (c < 128)%nat -> gamma c = nth c gammas 0.
Proof.
  apply (tab_ok_spec (fun i => 2 * BitRev7 (Z.of_nat i) + 1) gammas 128). vm_compute. reflexivity.
Qed.
Lemma gamma_inv_tab c : (c < 128)%nat -> gamma_inv c = nth c gammas_inv 0.
Proof.
  apply (tab_ok_spec (fun i => 256 - (2 * BitRev7 (Z.of_nat i) + 1)) gammas_inv 128). vm_compute. reflexivity.
Qed.

(** X^(256/2^l) is congruent to [root l b] in block b after l layers. *)
Definition root (l b : nat) : Z :=
  match l with
  | O => -1
  | S l' => if Nat.even b then zstd (2 ^ l' + b / 2) else - zstd (2 ^ l' + b / 2)
  end.

Definition congb (a b : Z) : bool := (a - b) mod 3329 =? 0.
Lemma congb_spec a b : congb a b = true -> a ≡ b.
Proof. intros H. apply cong_dec, Z.eqb_eq. exact H. Qed.

Definition sq_ok (l b : nat) : bool := congb (zstd (2 ^ l + b) * zstd (2 ^ l + b)) (root l b).
Lemma root_sq l b : (l < 7)%nat -> (b < 2 ^ l)%nat -> zstd (2 ^ l + b) * zstd (2 ^ l + b) ≡ root l b.
Proof.
  intros Hl Hb. apply congb_spec.
  assert (H : forallb (fun l => forallb (sq_ok l) (seq 0 (2 ^ l))) (seq 0 7) = true)
    by (vm_compute; reflexivity).
  exact (forall_seq (sq_ok l) _ (forall_seq _ 7 H l Hl) b Hb).
Qed.

Lemma root_gamma c : (c < 128)%nat -> root 7 c ≡ gamma c.
Proof.
  intros Hc. rewrite gamma_tab by auto. apply congb_spec. revert c Hc. apply forall_seq.
  vm_compute. reflexivity.
Qed.

Definition inv_ok (l b : nat) : bool := congb (zstd (2 ^ S l - 1 - b) * zstd (2 ^ l + b)) (-1).
Lemma zstd_inv l b : (l < 7)%nat -> (b < 2 ^ l)%nat -> zstd (2 ^ S l - 1 - b) * zstd (2 ^ l + b) ≡ -1.
Proof.
  intros Hl Hb. apply congb_spec.
  assert (H : forallb (fun l => forallb (inv_ok l) (seq 0 (2 ^ l))) (seq 0 7) = true)
    by (vm_compute; reflexivity).
  exact (forall_seq (inv_ok l) _ (forall_seq _ 7 H l Hl) b Hb).
Qed.

(** gamma_inv(c)^(2^l) is plus or minus the zeta of the layer *)
Definition iroot (l c : nat) : Z :=
  let z := zstd (128 / 2 ^ l - 1 - c / (2 * 2 ^ l)) in
  if Nat.even (c / 2 ^ l) then - z else z.
Definition ipow_ok (l c : nat) : bool := congb (zpowm (nth c gammas_inv 0) (Z.of_nat (2 ^ l))) (iroot l c).
Lemma gamma_inv_pow l c : (l < 7)%nat -> (c < 128)%nat -> gamma_inv c ^ Z.of_nat (2 ^ l) ≡ iroot l c.
Proof.
  intros Hl Hc. rewrite gamma_inv_tab by auto. rewrite <- (cong_zpowm _ (Z.of_nat (2 ^ l))).
  2: { rewrite Nat2Z.inj_pow. apply Z.pow_pos_nonneg; lia. }
  apply congb_spec.
  assert (H : forallb (fun l => forallb (ipow_ok l) (seq 0 128)) (seq 0 7) = true)
    by (vm_compute; reflexivity).
  exact (forall_seq (ipow_ok l) _ (forall_seq _ 7 H l Hl) c Hc).
Qed.

(** ** Forward: after l layers block b holds f mod (X^n - root l b), n = 256/2^l *)
Lemma layer_index len b s j : (s = 0 \/ s = 1)%nat -> (j < len)%nat ->
  (((2 * b + s) * len + j) / (2 * len) = b)%nat /\
  (((2 * b + s) * len + j) mod (2 * len) <? len)%nat = (s =? 0)%nat.
Proof.
  intros Hs Hj. assert (Hlen : (0 < len)%nat) by lia.
  destruct (block_index len b ((2 * b + s) * len + j) Hlen) as [-> ->].
  - destruct Hs as [-> | ->]; nia.
  - split; auto. destruct Hs as [-> | ->]; cbn [Nat.eqb]; [apply Nat.ltb_lt|apply Nat.ltb_ge]; nia.
Qed.

Lemma layers_length l r : length r = 256%nat -> length (layers l r) = 256%nat.
Proof. destruct l; auto. Qed.

Lemma layers_spec r l : length r = 256%nat -> (l <= 7)%nat ->
  forall b j n, (n * 2 ^ l = 256)%nat -> (b < 2 ^ l)%nat -> (j < n)%nat ->
  nth (b * n + j) (layers l r) 0 ≡
  sumz (2 ^ l) (fun m => nth (j + n * m) r 0 * root l b ^ Z.of_nat m).
Proof.
  intros Hr. induction l as [|l IH]; intros Hl b' j len Hn Hb' Hj.
  - cbn [Nat.pow] in *. assert (b' = 0)%nat by lia. subst b'. rewrite sumz_S, sumz_O.
    cbn [layers]. rewrite Nat.mul_0_l, Nat.mul_0_r, Nat.add_0_l, Nat.add_0_r. apply cong_eq.
    change (Z.of_nat 0) with 0. rewrite Z.pow_0_r. lia.
  - destruct (nat_parity b') as (b & s & -> & Hs & D & M & E).
    destruct (layer_len_facts l ltac:(lia)) as (F1 & F2 & F3 & F4).
    assert (Hb : (b < 2 ^ l)%nat) by (cbn [Nat.pow] in Hb'; lia).
    assert (Elen : (128 / 2 ^ l = len)%nat).
    { symmetry. apply Nat.div_unique with (r := 0%nat); [lia|]. cbn [Nat.pow] in Hn. nia. }
    cbn [layers]. unfold layer. rewrite Elen.
    assert (Hi : ((2 * b + s) * len + j < 256)%nat).
    { assert (2 * b + s + 1 <= 2 ^ S l)%nat by lia. nia. }
    rewrite nth_mk by exact Hi. unfold layer_coef.
    destruct (layer_index len b s j Hs Hj) as [-> ->].
    set (z := zstd (2 ^ l + b)).
    pose proof (root_sq l b ltac:(lia) Hb) as SQ. fold z in SQ.
    assert (Hn2 : (2 * len * 2 ^ l = 256)%nat) by (cbn [Nat.pow] in Hn; nia).
    pose proof (IH ltac:(lia) b j (2 * len)%nat Hn2 Hb ltac:(lia)) as I0.
    pose proof (IH ltac:(lia) b (j + len)%nat (2 * len)%nat Hn2 Hb ltac:(lia)) as I1.
    set (y := if (s =? 0)%nat then z else - z).
    assert (Y2 : y * y ≡ root l b).
    { unfold y. destruct (s =? 0)%nat; [exact SQ|]. rewrite <- SQ. apply cong_eq. lia. }
    assert (RY : root (S l) (2 * b + s) = y).
    { cbn [root]. rewrite E, D. reflexivity. }
    rewrite RY. replace (2 ^ S l)%nat with (2 * 2 ^ l)%nat by reflexivity. rewrite sumz_parity.
    assert (P0 : sumz (2 ^ l) (fun m => nth (j + len * (2 * m)) r 0 * y ^ Z.of_nat (2 * m)) ≡
                 nth (b * (2 * len) + j) (layers l r) 0).
    { rewrite I0. apply sumz_cong. intros m Hm.
      replace (j + len * (2 * m))%nat with (j + 2 * len * m)%nat by lia.
      replace (Z.of_nat (2 * m)) with (2 * Z.of_nat m) by lia.
      rewrite Z.pow_mul_r, Z.pow_2_r by lia. rewrite (cong_pow _ _ m Y2). reflexivity. }
    assert (P1 : sumz (2 ^ l) (fun m => nth (j + len * (2 * m + 1)) r 0 * y ^ Z.of_nat (2 * m + 1)) ≡
                 y * nth (b * (2 * len) + (j + len)) (layers l r) 0).
    { rewrite I1. rewrite <- sumz_scale. apply sumz_cong. intros m Hm.
      replace (j + len * (2 * m + 1))%nat with (j + len + 2 * len * m)%nat by lia.
      replace (Z.of_nat (2 * m + 1)) with (2 * Z.of_nat m + 1) by lia.
      rewrite Z.pow_add_r, Z.pow_1_r, Z.pow_mul_r, Z.pow_2_r by lia. rewrite (cong_pow _ _ m Y2).
      apply cong_eq. ring. }
    rewrite P0, P1. unfold y.
    destruct Hs as [-> | ->]; cbn [Nat.eqb].
    + replace ((2 * b + 0) * len + j)%nat with (b * (2 * len) + j)%nat by lia.
      replace (b * (2 * len) + j + len)%nat with (b * (2 * len) + (j + len))%nat by lia. reflexivity.
    + replace ((2 * b + 1) * len + j - len)%nat with (b * (2 * len) + j)%nat by nia.
      replace ((2 * b + 1) * len + j)%nat with (b * (2 * len) + (j + len))%nat by nia.
      apply cong_eq. ring.
Qed.

Theorem ntt_z_spec r : length r = 256%nat -> lcong (ntt_z r) (NTT r).
Proof.
  intros Hr. apply lcong_parity; [apply layers_length; auto|apply NTT_length|].
  intros c b Hc Hb. rewrite NTT_nth by auto. unfold q. rewrite cong_mod.
  unfold ntt_z. replace (2 * c + b)%nat with (c * 2 + b)%nat by lia.
  rewrite (layers_spec r 7 Hr ltac:(lia) c b 2 eq_refl Hc ltac:(lia)).
  unfold ntt_sum. change (2 ^ 7)%nat with 128%nat. apply sumz_cong. intros m Hm. unfold coef.
  rewrite (cong_pow _ _ m (root_gamma c Hc)). replace (2 * m + b)%nat with (b + 2 * m)%nat by lia. reflexivity.
Qed.

(** ** Inverse *)
Lemma ilayers_length l r : length r = 256%nat -> length (ilayers l r) = 256%nat.
Proof. destruct l; auto. Qed.

Lemma ilayers_spec r l : length r = 256%nat -> (l <= 7)%nat ->
  forall b m e, (b * 2 ^ l < 128)%nat -> (m < 2 ^ l)%nat -> (e = 0 \/ e = 1)%nat ->
  nth (b * (2 * 2 ^ l) + 2 * m + e) (ilayers l r) 0 ≡
  sumz (2 ^ l) (fun c => nth (2 * (b * 2 ^ l + c) + e) r 0 * gamma_inv (b * 2 ^ l + c) ^ Z.of_nat m).
Proof.
  intros Hr. induction l as [|l IH]; intros Hl b m' e Hb Hm He.
  - cbn [Nat.pow] in *. assert (m' = 0)%nat by lia. subst m'. rewrite sumz_S, sumz_O.
    cbn [ilayers]. change (Z.of_nat 0) with 0. rewrite Z.pow_0_r.
    replace (b * (2 * 1) + 2 * 0 + e)%nat with (2 * (b * 1 + 0) + e)%nat by lia. apply cong_eq. lia.
  - set (N := (2 ^ l)%nat) in *. replace (2 ^ S l)%nat with (2 * N)%nat in * by reflexivity.
    assert (HN : (0 < N)%nat) by (unfold N; clear; induction l; simpl; lia).
    assert (HD : (N * (128 / N) = 128)%nat).
    { unfold N. clear -Hl. do 7 (destruct l as [|l]; [reflexivity|]). lia. }
    set (K := (128 / N)%nat) in *.
    assert (Hb1 : (2 * b + 1 < K)%nat).
    { assert (2 ^ (7 - l) * N = 128)%nat.
      { unfold N. rewrite <- Nat.pow_add_r. replace (7 - l + l)%nat with 7%nat by lia. reflexivity. }
      assert (K = 2 ^ (7 - l))%nat by nia.
      assert (2 * 2 ^ (6 - l) = K)%nat.
      { rewrite H0. replace (7 - l)%nat with (S (6 - l)) by lia. reflexivity. }
      assert (b < 2 ^ (6 - l))%nat by nia. lia. }
    cbn [ilayers]. unfold ilayer. fold N. fold K.
    assert (Hi : (b * (2 * (2 * N)) + 2 * m' + e < 256)%nat) by nia.
    rewrite nth_mk by exact Hi. unfold ilayer_coef.
    destruct (block_index (2 * N) b (b * (2 * (2 * N)) + 2 * m' + e) ltac:(lia) ltac:(lia)) as [-> E2].
    rewrite E2. replace (b * (2 * (2 * N)) + 2 * m' + e - 2 * (2 * N) * b)%nat with (2 * m' + e)%nat by lia.
    set (z := zstd (K - 1 - b)).
    (* the two halves *)
    assert (R0 : forall c, (c < N)%nat -> gamma_inv (2 * b * N + c) ^ Z.of_nat N ≡ - z).
    { intros c Hc. unfold N. rewrite gamma_inv_pow by (fold N; nia). unfold iroot. fold N. fold K.
      replace (2 * b * N + c)%nat with (c + (2 * b) * N)%nat by lia.
      rewrite Nat.div_add, Nat.div_small by lia. rewrite Nat.add_0_l.
      replace (Nat.even (2 * b)) with true by (rewrite Nat.even_mul; reflexivity).
      replace (c + 2 * b * N)%nat with (c + b * (2 * N))%nat by lia.
      rewrite Nat.div_add, Nat.div_small by lia. reflexivity. }
    assert (R1 : forall c, (c < N)%nat -> gamma_inv ((2 * b + 1) * N + c) ^ Z.of_nat N ≡ z).
    { intros c Hc. unfold N. rewrite gamma_inv_pow by (fold N; nia). unfold iroot. fold N. fold K.
      replace ((2 * b + 1) * N + c)%nat with (c + (2 * b + 1) * N)%nat by lia.
      rewrite Nat.div_add, Nat.div_small by lia. rewrite Nat.add_0_l.
      replace (Nat.even (2 * b + 1)) with false by (rewrite Nat.even_add, Nat.even_mul; reflexivity).
      replace (c + (2 * b + 1) * N)%nat with (N + c + b * (2 * N))%nat by lia.
      rewrite Nat.div_add, Nat.div_small by lia. reflexivity. }
    replace (2 * N)%nat with (N + N)%nat by lia. rewrite sumz_app.
    set (f0 := fun c => nth (2 * (2 * b * N + c) + e) r 0).
    set (f1 := fun c => nth (2 * ((2 * b + 1) * N + c) + e) r 0).
    assert (T0 : forall k, sumz N (fun c => nth (2 * (b * (N + N) + c) + e) r 0
                     * gamma_inv (b * (N + N) + c) ^ k) =
                 sumz N (fun c => f0 c * gamma_inv (2 * b * N + c) ^ k)).
    { intros k. apply sumz_ext. intros c Hc. unfold f0.
      replace (b * (N + N) + c)%nat with (2 * b * N + c)%nat by lia. reflexivity. }
    assert (T1 : forall k, sumz N (fun c => nth (2 * (b * (N + N) + (N + c)) + e) r 0
                     * gamma_inv (b * (N + N) + (N + c)) ^ k) =
                 sumz N (fun c => f1 c * gamma_inv ((2 * b + 1) * N + c) ^ k)).
    { intros k. apply sumz_ext. intros c Hc. unfold f1.
      replace (b * (N + N) + (N + c))%nat with ((2 * b + 1) * N + c)%nat by lia. reflexivity. }
    rewrite T0, T1. clear T0 T1.
    assert (J0 : forall m, (m < N)%nat -> nth (2 * b * (2 * N) + 2 * m + e) (ilayers l r) 0 ≡
              sumz N (fun c => f0 c * gamma_inv (2 * b * N + c) ^ Z.of_nat m)).
    { intros m Hm'. apply (IH ltac:(lia) (2 * b)%nat m e); auto. nia. }
    assert (J1 : forall m, (m < N)%nat -> nth ((2 * b + 1) * (2 * N) + 2 * m + e) (ilayers l r) 0 ≡
              sumz N (fun c => f1 c * gamma_inv ((2 * b + 1) * N + c) ^ Z.of_nat m)).
    { intros m Hm'. apply (IH ltac:(lia) (2 * b + 1)%nat m e); auto. nia. }
    destruct (Nat.ltb_spec (2 * m' + e) (N + N)).
    + replace (b * (2 * (N + N)) + 2 * m' + e)%nat with (2 * b * (2 * N) + 2 * m' + e)%nat by lia.
      replace (2 * b * (2 * N) + 2 * m' + e + (N + N))%nat with ((2 * b + 1) * (2 * N) + 2 * m' + e)%nat by nia.
      rewrite J0, J1 by lia. reflexivity.
    + assert (exists m, m' = m + N)%nat as [m ->] by (exists (m' - N)%nat; lia).
      replace (b * (2 * (N + N)) + 2 * (m + N) + e - (N + N))%nat with (2 * b * (2 * N) + 2 * m + e)%nat by nia.
      replace (b * (2 * (N + N)) + 2 * (m + N) + e)%nat with ((2 * b + 1) * (2 * N) + 2 * m + e)%nat by nia.
      rewrite J0, J1 by lia.
      rewrite (sumz_cong N (fun c => f0 c * gamma_inv (2 * b * N + c) ^ Z.of_nat (m + N))
                 (fun c => - z * (f0 c * gamma_inv (2 * b * N + c) ^ Z.of_nat m))).
      2:{ intros c Hc. rewrite Nat2Z.inj_add, Z.pow_add_r by lia. rewrite R0 by auto. apply cong_eq. ring. }
      rewrite (sumz_cong N (fun c => f1 c * gamma_inv ((2 * b + 1) * N + c) ^ Z.of_nat (m + N))
                 (fun c => z * (f1 c * gamma_inv ((2 * b + 1) * N + c) ^ Z.of_nat m))).
      2:{ intros c Hc. rewrite Nat2Z.inj_add, Z.pow_add_r by lia. rewrite R1 by auto. apply cong_eq. ring. }
      rewrite !sumz_scale. apply cong_eq. ring.
Qed.

Theorem invntt_z_spec r : length r = 256%nat -> lcong (invntt_z r) (scale 65536 (NTTinv r)).
Proof.
  intros Hr. apply lcong_parity; [apply mk_length|apply mk_length|].
  intros c b Hc Hb. unfold invntt_z, scale. rewrite !nth_mk by lia. rewrite NTTinv_nth by auto.
  unfold q. rewrite cong_mod.
  pose proof (ilayers_spec r 7 Hr ltac:(lia) 0 c b ltac:(simpl; lia) ltac:(change (2 ^ 7)%nat with 128%nat; lia) Hb) as I.
  replace (0 * (2 * 2 ^ 7) + 2 * c + b)%nat with (2 * c + b)%nat in I by lia.
  rewrite I. unfold invntt_sum, coef. change (2 ^ 7)%nat with 128%nat.
  assert (E : 512 ≡ 65536 * 3303) by (apply cong_dec; reflexivity).
  rewrite E. rewrite Z.mul_assoc.
  rewrite (sumz_ext 128 _ (fun i => nth (2 * i + b) r 0 * gamma_inv i ^ Z.of_nat c)); [reflexivity|].
  intros i Hi. replace (0 * 128 + i)%nat with i by lia. reflexivity.
Qed.

(** ** Layers and inverse layers cancel *)
Lemma layer_ilayer l r : (l < 7)%nat ->
  length r = 256%nat ->
  lcong (ilayer (128 / 2 ^ l) (2 ^ S l - 1) (layer (128 / 2 ^ l) (2 ^ l) r)) (scale 2 r) /\
  lcong (layer (128 / 2 ^ l) (2 ^ l) (ilayer (128 / 2 ^ l) (2 ^ S l - 1) r)) (scale 2 r).
Proof.
  intros Hl Hr. destruct (layer_len_facts l Hl) as (F1 & F2 & F3 & F4). rewrite F3 in F2.
  set (len := (128 / 2 ^ l)%nat) in *.
  assert (X : forall i, (i < 256)%nat -> exists b s j, (i = (2 * b + s) * len + j)%nat /\
     (s = 0 \/ s = 1)%nat /\ (j < len)%nat /\ (b < 2 ^ l)%nat).
  { intros i Hi. exists (i / (2 * len))%nat.
    pose proof (Nat.div_mod i (2 * len) ltac:(lia)) as DM.
    pose proof (Nat.mod_upper_bound i (2 * len) ltac:(lia)).
    set (b := (i / (2 * len))%nat) in *. set (t := (i mod (2 * len))%nat) in *.
    destruct (Nat.ltb_spec t len).
    - exists 0%nat, t. repeat split; auto; nia.
    - exists 1%nat, (t - len)%nat. repeat split; auto; nia. }
  assert (Hx : forall b s j, (b < 2 ^ l)%nat -> (s = 0 \/ s = 1)%nat -> (j < len)%nat ->
     ((2 * b + s) * len + j < 256)%nat).
  { intros. assert (2 * b + s + 1 <= 2 * 2 ^ l)%nat by lia. nia. }
  split; (split; [unfold ilayer, layer, scale; now rewrite !mk_length|]);
    intros i Hi; unfold ilayer at 1, layer at 1 in Hi; rewrite mk_length in Hi;
    destruct (X i Hi) as (b & s & j & -> & Hs & Hj & Hb);
    pose proof (zstd_inv l b Hl Hb) as ZI;
    pose proof (Hx b 0%nat j Hb ltac:(auto) Hj) as H0;
    pose proof (Hx b 1%nat j Hb ltac:(auto) Hj) as H1;
    destruct (layer_index len b 0 j ltac:(auto) Hj) as [D0 M0];
    destruct (layer_index len b 1 j ltac:(auto) Hj) as [D1 M1];
    unfold scale, ilayer, layer; rewrite !nth_mk by auto; unfold ilayer_coef, layer_coef.
  - destruct Hs as [-> | ->].
    + rewrite D0, M0. cbn [Nat.eqb]. replace ((2 * b + 0) * len + j + len)%nat with ((2 * b + 1) * len + j)%nat by nia.
      rewrite !nth_mk by auto. rewrite D0, M0, D1, M1. cbn [Nat.eqb].
      replace ((2 * b + 1) * len + j - len)%nat with ((2 * b + 0) * len + j)%nat by nia.
      replace ((2 * b + 0) * len + j + len)%nat with ((2 * b + 1) * len + j)%nat by nia. apply cong_eq. ring.
    + rewrite D1, M1. cbn [Nat.eqb]. replace ((2 * b + 1) * len + j - len)%nat with ((2 * b + 0) * len + j)%nat by nia.
      rewrite !nth_mk by auto. rewrite D0, M0, D1, M1. cbn [Nat.eqb].
      replace ((2 * b + 1) * len + j - len)%nat with ((2 * b + 0) * len + j)%nat by nia.
      replace ((2 * b + 0) * len + j + len)%nat with ((2 * b + 1) * len + j)%nat by nia.
      set (x := nth ((2 * b + 0) * len + j) r 0). set (y := nth ((2 * b + 1) * len + j) r 0).
      transitivity (- (2 * (zstd (2 ^ S l - 1 - b) * zstd (2 ^ l + b)) * y)); [apply cong_eq; ring|].
      rewrite ZI. apply cong_eq. ring.
  - destruct Hs as [-> | ->].
    + rewrite D0, M0. cbn [Nat.eqb]. replace ((2 * b + 0) * len + j + len)%nat with ((2 * b + 1) * len + j)%nat by nia.
      rewrite !nth_mk by auto. rewrite D0, M0, D1, M1. cbn [Nat.eqb].
      replace ((2 * b + 1) * len + j - len)%nat with ((2 * b + 0) * len + j)%nat by nia.
      replace ((2 * b + 0) * len + j + len)%nat with ((2 * b + 1) * len + j)%nat by nia.
      set (x := nth ((2 * b + 0) * len + j) r 0). set (y := nth ((2 * b + 1) * len + j) r 0).
      transitivity (x + y + (zstd (2 ^ S l - 1 - b) * zstd (2 ^ l + b)) * (y - x)); [apply cong_eq; ring|].
      rewrite ZI. apply cong_eq. ring.
    + rewrite D1, M1. cbn [Nat.eqb]. replace ((2 * b + 1) * len + j - len)%nat with ((2 * b + 0) * len + j)%nat by nia.
      rewrite !nth_mk by auto. rewrite D0, M0, D1, M1. cbn [Nat.eqb].
      replace ((2 * b + 1) * len + j - len)%nat with ((2 * b + 0) * len + j)%nat by nia.
      replace ((2 * b + 0) * len + j + len)%nat with ((2 * b + 1) * len + j)%nat by nia.
      set (x := nth ((2 * b + 0) * len + j) r 0). set (y := nth ((2 * b + 1) * len + j) r 0).
      transitivity (x + y - (zstd (2 ^ S l - 1 - b) * zstd (2 ^ l + b)) * (y - x)); [apply cong_eq; ring|].
      rewrite ZI. apply cong_eq. ring.
Qed.

Lemma nth_scale' c r i : length r = 256%nat -> nth i (scale c r) 0 = c * nth i r 0.
Proof.
  intros Hr. destruct (Nat.ltb_spec i 256).
  - unfold scale. now rewrite nth_mk.
  - rewrite !nth_overflow; try lia. unfold scale. rewrite mk_length. lia.
Qed.

Lemma layer_scale len k0 c r : length r = 256%nat ->
  lcong (layer len k0 (scale c r)) (scale c (layer len k0 r)).
Proof.
  intros Hr. split; [unfold layer, scale; now rewrite !mk_length|].
  intros i Hi. unfold layer in *. rewrite mk_length in Hi. rewrite nth_scale' by apply mk_length.
  rewrite !nth_mk by auto. unfold layer_coef. rewrite !nth_scale' by auto.
  destruct (_ <? _)%nat; apply cong_eq; ring.
Qed.
Lemma ilayer_scale len k0 c r : length r = 256%nat ->
  lcong (ilayer len k0 (scale c r)) (scale c (ilayer len k0 r)).
Proof.
  intros Hr. split; [unfold ilayer, scale; now rewrite !mk_length|].
  intros i Hi. unfold ilayer in *. rewrite mk_length in Hi. rewrite nth_scale' by apply mk_length.
  rewrite !nth_mk by auto. unfold ilayer_coef. rewrite !nth_scale' by auto.
  destruct (_ <? _)%nat; apply cong_eq; ring.
Qed.

Lemma layers_cong l r r' : lcong r r' -> lcong (layers l r) (layers l r').
Proof. intros H. induction l; auto. cbn [layers]. apply layer_cong; auto. Qed.
Lemma ilayers_cong l r r' : lcong r r' -> lcong (ilayers l r) (ilayers l r').
Proof. intros H. induction l; auto. cbn [ilayers]. apply ilayer_cong; auto. Qed.
Lemma scale_cong c r r' : lcong r r' -> lcong (scale c r) (scale c r').
Proof.
  intros H. split; [unfold scale; now rewrite !mk_length|]. intros i Hi. unfold scale in *.
  rewrite mk_length in Hi. rewrite !nth_mk by auto. rewrite (lcong_nth _ _ i H). reflexivity.
Qed.
Lemma scale_scale c d r : lcong (scale c (scale d r)) (scale (c * d) r).
Proof.
  split; [unfold scale; now rewrite !mk_length|]. intros i Hi. unfold scale in *.
  rewrite mk_length in Hi. rewrite !nth_mk by auto. apply cong_eq. ring.
Qed.

Lemma ilayer_params l : (l < 7)%nat ->
  (2 * 2 ^ l = 128 / 2 ^ (6 - l))%nat /\ (128 / 2 ^ l - 1 = 2 ^ S (6 - l) - 1)%nat.
Proof. intros H. do 7 (destruct l as [|l]; [split; reflexivity|]). lia. Qed.

Lemma ilayers_layers l r : length r = 256%nat -> (l <= 7)%nat ->
  lcong (ilayers l (layers 7 r)) (scale (2 ^ Z.of_nat l) (layers (7 - l) r)).
Proof.
  intros Hr. induction l; intros Hl.
  - cbn [ilayers]. split; [unfold scale; rewrite mk_length; now apply layers_length|].
    intros i Hi. rewrite nth_scale' by (apply layers_length; auto). apply cong_eq.
    change (2 ^ Z.of_nat 0) with 1. change (7 - 0)%nat with 7%nat. lia.
  - cbn [ilayers]. destruct (ilayer_params l ltac:(lia)) as [-> ->].
    etransitivity; [apply ilayer_cong, IHl; lia|].
    etransitivity; [apply ilayer_scale, layers_length; auto|].
    replace (7 - l)%nat with (S (6 - l)) by lia. cbn [layers].
    etransitivity; [apply scale_cong; exact (proj1 (layer_ilayer (6 - l) (layers (6 - l) r) ltac:(lia) (layers_length _ _ Hr)))|].
    etransitivity; [apply scale_scale|].
    replace (2 ^ Z.of_nat l * 2) with (2 ^ Z.of_nat (S l))
      by (rewrite Nat2Z.inj_succ, Z.pow_succ_r by lia; lia).
    replace (7 - S l)%nat with (6 - l)%nat by lia. reflexivity.
Qed.

Lemma layers_ilayers l r : length r = 256%nat -> (l <= 7)%nat ->
  lcong (layers l (ilayers 7 r)) (scale (2 ^ Z.of_nat l) (ilayers (7 - l) r)).
Proof.
  intros Hr. induction l; intros Hl.
  - cbn [layers]. split; [unfold scale; rewrite mk_length; now apply ilayers_length|].
    intros i Hi. rewrite nth_scale' by (apply ilayers_length; auto). apply cong_eq.
    change (2 ^ Z.of_nat 0) with 1. change (7 - 0)%nat with 7%nat. lia.
  - cbn [layers].
    etransitivity; [apply layer_cong, IHl; lia|].
    etransitivity; [apply layer_scale, ilayers_length; auto|].
    replace (7 - l)%nat with (S (6 - l)) by lia. cbn [ilayers].
    destruct (ilayer_params (6 - l) ltac:(lia)) as [-> ->].
    replace (6 - (6 - l))%nat with l by lia.
    etransitivity; [apply scale_cong; exact (proj2 (layer_ilayer l (ilayers (6 - l) r) ltac:(lia) (ilayers_length _ _ Hr)))|].
    etransitivity; [apply scale_scale|].
    replace (2 ^ Z.of_nat l * 2) with (2 ^ Z.of_nat (S l))
      by (rewrite Nat2Z.inj_succ, Z.pow_succ_r by lia; lia).
    replace (7 - S l)%nat with (6 - l)%nat by lia. reflexivity.
Qed.

Lemma layers_scale l c r : length r = 256%nat -> lcong (layers l (scale c r)) (scale c (layers l r)).
Proof.
  intros Hr. induction l; [reflexivity|]. cbn [layers].
  etransitivity; [apply layer_cong, IHl|]. apply layer_scale, layers_length; auto.
Qed.

Lemma invntt_ntt_z r : length r = 256%nat -> lcong (invntt_z (ntt_z r)) (scale 65536 r).
Proof.
  intros Hr. unfold invntt_z, ntt_z. etransitivity; [apply scale_cong, (ilayers_layers 7); auto|].
  apply scale_scale.
Qed.
Lemma ntt_invntt_z r : length r = 256%nat -> lcong (ntt_z (invntt_z r)) (scale 65536 r).
Proof.
  intros Hr. unfold invntt_z, ntt_z. etransitivity; [apply layers_scale, ilayers_length; auto|].
  etransitivity; [apply scale_cong, (layers_ilayers 7); auto|]. apply scale_scale.
Qed.

(** Respect congruence *)
Lemma NTT_cong f g : lcong f g -> NTT f = NTT g.
Proof.
  intros H. apply poly_eq_parity; try apply NTT_length. intros c b Hc Hb.
  rewrite !NTT_nth by auto. apply mod_cong. unfold ntt_sum. apply sumz_cong. intros j Hj.
  unfold coef. rewrite (lcong_nth f g _ H). reflexivity.
Qed.
Lemma NTTinv_cong f g : lcong f g -> NTTinv f = NTTinv g.
Proof.
  intros H. apply poly_eq_parity; try apply NTTinv_length. intros c b Hc Hb.
  rewrite !NTTinv_nth by auto. apply mod_cong. unfold invntt_sum.
  rewrite (sumz_cong 128 _ (fun i => coef g (2 * i + b) * gamma_inv i ^ Z.of_nat c)); [reflexivity|].
  intros j Hj. unfold coef. rewrite (lcong_nth f g _ H). reflexivity.
Qed.

Definition canon (f : list Z) : Prop := length f = 256%nat /\ forall i, (i < 256)%nat -> 0 <= nth i f 0 < q.

Lemma mkpoly_canon f : (forall i, (i < 256)%nat -> 0 <= f i < q) -> canon (mkpoly f).
Proof. intros H. split; [apply mkpoly_length|]. intros i Hi. rewrite nth_mkpoly by auto. auto. Qed.

Lemma mod_q_range x : 0 <= x mod q < q. Proof. apply Z.mod_pos_bound. reflexivity. Qed.

Lemma NTT_canon f : canon (NTT f).
Proof. apply mkpoly_canon. intros. apply mod_q_range. Qed.
Lemma NTTinv_canon f : canon (NTTinv f).
Proof. apply mkpoly_canon. intros. apply mod_q_range. Qed.

Lemma canon_eq f g : canon f -> canon g -> lcong f g -> f = g.
Proof.
  intros [L1 C1] [L2 C2] H. apply (list_eq_nth 0); [congruence|]. intros i Hi.
  apply cong_canon; try apply C1; try apply C2; try lia. apply lcong_nth; auto.
Qed.

Lemma scale_length c r : length (scale c r) = 256%nat. Proof. apply mk_length. Qed.
Lemma nth_scale c r i : (i < 256)%nat -> nth i (scale c r) 0 = c * nth i r 0.
Proof. intros. unfold scale. now rewrite nth_mk. Qed.

Lemma scale_cong_cancel f g : length f = 256%nat -> length g = 256%nat ->
  lcong (scale 65536 f) (scale 65536 g) -> lcong f g.
Proof.
  intros Lf Lg H. split; [congruence|]. intros i Hi. pose proof (lcong_nth _ _ i H) as E.
  rewrite !nth_scale in E by lia. apply cong_R_cancel. rewrite !(Z.mul_comm _ 65536). auto.
Qed.

Theorem NTTinv_NTT f : length f = 256%nat -> lcong (NTTinv (NTT f)) f.
Proof.
  intros Hf. apply scale_cong_cancel; [apply NTTinv_length|auto|].
  etransitivity; [symmetry; apply invntt_z_spec, NTT_length|].
  etransitivity; [|apply invntt_ntt_z; auto].
  unfold invntt_z. apply scale_cong, ilayers_cong. symmetry. apply ntt_z_spec. auto.
Qed.

Theorem NTT_NTTinv f : length f = 256%nat -> lcong (NTT (NTTinv f)) f.
Proof.
  intros Hf. apply scale_cong_cancel; [apply NTT_length|auto|].
  etransitivity; [apply scale_cong; symmetry; apply ntt_z_spec, NTTinv_length|].
  etransitivity; [symmetry; apply layers_scale, NTTinv_length|].
  etransitivity; [|apply ntt_invntt_z; auto].
  apply layers_cong. symmetry. apply invntt_z_spec. auto.
Qed.
