(** * C26-C28 in the form of the property statements *)
From Coq Require Import ZArith List Lia Bool.
From Verif Require Import CMonad WP Proof_Base Model_Verify Model_Randombytes Proof_Verify Proof_Random Vocab Vocab_Code Proof_Vocab.
Import ListNotations.
Open Scope Z_scope.

(** ** C26 *)
Lemma bind_ok {A B} (m : res A) (f : A -> res B) v T : bind m f = Ok v T ->
  exists x T1 T2, m = Ok x T1 /\ f x = Ok v T2 /\ T = T1 ++ T2.
Proof.
  destruct m as [x T1|u| |]; cbn [bind]; try discriminate.
  destruct (f x) as [y T2|u| |] eqn:E; try discriminate. intros X. injection X as -> <-. exists x, T1, T2. auto.
Qed.
Lemma aget_ok {A} (l : list A) i v T : aget l i = Ok v T -> T = [EvIndex i].
Proof. unfold aget. destruct (nth_error l i); [|discriminate]. intros X. now injection X. Qed.

(** Every iteration leaves its events in the trace *)
Lemma for_events {S} (P : nat -> trace -> Prop) n : forall lo (body : nat -> S -> res S) s v T,
  (forall i T1 T2 T3, P i T2 -> P i (T1 ++ T2 ++ T3)) ->
  (forall i s v T, body i s = Ok v T -> P i T) ->
  for_ n lo body s = Ok v T -> forall i, (lo <= i < lo + n)%nat -> P i T.
Proof.
  induction n as [|n IH]; intros lo body s v T HM HB E i Hi; [lia|]. cbn [for_] in E.
  apply bind_ok in E as (u & T0 & T1 & _ & E & ->). apply bind_ok in E as (s1 & T2 & T3 & E1 & E2 & ->).
  destruct (Nat.eq_dec i lo) as [->|N].
  - apply HM. now apply (HB _ _ _ _ E1).
  - specialize (IH (Datatypes.S lo) body s1 v T3 HM HB E2 i ltac:(lia)).
    rewrite <- (app_nil_r T3), !app_assoc. rewrite <- !(app_assoc _ T3). apply HM. exact IH.
Qed.

Lemma verify_spec ao bo len : exists T,
  (forall i, (i < len)%nat -> In (EvIndex (ao + i)) T /\ In (EvIndex (bo + i)) T) /\
  forall pa a sa pb b sb, length pa = ao -> length a = len -> length pb = bo -> length b = len ->
    all_bytes a -> all_bytes b ->
    (a = b -> verify (pa ++ a ++ sa) ao (pb ++ b ++ sb) bo len = Ok 0 T) /\
    (a <> b -> verify (pa ++ a ++ sa) ao (pb ++ b ++ sb) bo len = Ok 1 T).
Proof.
  destruct (verify_wp ao bo len) as [T W]. exists T.
  assert (G : forall pa a sa pb b sb, length pa = ao -> length a = len -> length pb = bo -> length b = len ->
    all_bytes a -> all_bytes b -> wp (verify (pa ++ a ++ sa) ao (pb ++ b ++ sb) bo len) T
      (fun v => (v = 0 /\ a = b) \/ (v = 1 /\ a <> b))).
  { intros pa a sa pb b sb La L Lb L' Ba Bb. specialize (W (pa ++ a ++ sa) (pb ++ b ++ sb)).
    replace (sub (pa ++ a ++ sa) ao len) with a in W by (rewrite <- La, <- L; symmetry; apply sub_ctx).
    replace (sub (pb ++ b ++ sb) bo len) with b in W by (rewrite <- Lb, <- L'; symmetry; apply sub_ctx).
    apply W; [rewrite <- La, <- L; apply ctx_length|rewrite <- Lb, <- L'; apply ctx_length|now apply all_bytes_bytes..]. }
  split.
  - intros i Hi.
    destruct (G (repeat 0 ao) (repeat 0 len) [] (repeat 0 bo) (repeat 0 len) []) as (v & E & _); try apply repeat_length;
      try (intros x Hx; apply repeat_spec in Hx; lia).
    unfold verify in E. apply bind_ok in E as (r & T1 & T2 & E & _ & ->).
    assert (F := fun HM HB => for_events (fun i T => In (EvIndex (ao + i)) T /\ In (EvIndex (bo + i)) T) _ _ _ _ _ _ HM HB E
                                i (conj (Nat.le_0_l i) Hi)).
    cbv beta in F. rewrite !in_app_iff.
    assert (In (EvIndex (ao + i)) T1 /\ In (EvIndex (bo + i)) T1); [|tauto]. apply F; clear.
    + intros. rewrite !in_app_iff. tauto.
    + intros j s v T E. apply bind_ok in E as (x & T1 & T2 & Ex & E & ->).
      apply bind_ok in E as (y & T3 & T4 & Ey & E & ->). apply aget_ok in Ex. apply aget_ok in Ey. subst. cbn. auto.
  - intros pa a sa pb b sb La L Lb L' Ba Bb.
    destruct (G pa a sa pb b sb La L Lb L' Ba Bb) as (v & E & [[-> H]|[-> H]]); split; intros H'; (contradiction || assumption).
Qed.

(** ** C27 *)
Lemma cmov_spec ro xo len : exists T, forall pr r sr px x sx b,
  length pr = ro -> length r = len -> length px = xo -> length x = len -> all_bytes r -> all_bytes x -> b = 0 \/ b = 1 ->
  cmov (pr ++ r ++ sr) ro (px ++ x ++ sx) xo len b = Ok (pr ++ (if b =? 1 then x else r) ++ sr) T.
Proof.
  destruct (cmov_wp ro xo len) as [T W]. exists T. intros pr r sr px x sx b Lr L Lx L' Br Bx Hb.
  specialize (W (pr ++ r ++ sr) (px ++ x ++ sx) b).
  replace (sub (pr ++ r ++ sr) ro len) with r in W by (rewrite <- Lr, <- L; symmetry; apply sub_ctx).
  replace (sub (px ++ x ++ sx) xo len) with x in W by (rewrite <- Lx, <- L'; symmetry; apply sub_ctx).
  destruct W as (v & E & ->);
    [rewrite <- Lr, <- L; apply ctx_length|rewrite <- Lx, <- L'; apply ctx_length|now apply all_bytes_bytes..|exact Hb|].
  rewrite E. f_equal. destruct (b =? 1); [|reflexivity]. rewrite <- Lr. apply splice_ctx. lia.
Qed.

Lemma upd_ctx {A} (pre : list A) x post y : upd (pre ++ x :: post) (length pre) y = pre ++ y :: post.
Proof. induction pre as [|z pre IH]; [reflexivity|]. cbn. f_equal. exact IH. Qed.

Lemma cmov_int16_spec ro : exists T, forall pr x sr v b,
  length pr = ro -> -2 ^ 15 <= x < 2 ^ 15 -> -2 ^ 15 <= v < 2 ^ 15 -> b = 0 \/ b = 1 ->
  cmov_int16 (pr ++ x :: sr) ro v b = Ok (pr ++ (if b =? 1 then v else x) :: sr) T.
Proof.
  destruct (cmov_int16_wp ro) as [T W]. exists T. intros pr x sr v b Lr Hx Hv Hb.
  assert (N : nth ro (pr ++ x :: sr) 0 = x) by (rewrite <- Lr; apply nth_middle).
  destruct (W (pr ++ x :: sr) v b) as (w & E & ->).
  - rewrite app_length. cbn. lia.
  - rewrite N. lia.
  - lia.
  - exact Hb.
  - rewrite E, N. f_equal. rewrite <- Lr. apply upd_ctx.
Qed.

(** ** C28 *)
Lemma overwrite_ctx pre old post bs : length bs = length old ->
  overwrite (pre ++ old ++ post) (length pre) bs = pre ++ bs ++ post.
Proof. intros L. change (overwrite (pre ++ old ++ post) (length pre) bs) with (splice (pre ++ old ++ post) (length pre) bs). now apply splice_ctx. Qed.

Lemma randombytes_ok sched pre old post out rest T : kernel_ok sched (length old) ->
  randombytes sched (pre ++ old ++ post) (length pre) (length old) = Ok (out, rest) T ->
  exists used, sched = used ++ rest /\ ~ In Failed used /\ length (delivered used) = length old /\
    shortest used (length old) /\ out = pre ++ delivered used ++ post.
Proof.
  intros HK E. pose proof (randombytes_spec sched _ _ _ HK (ctx_length pre old post)) as S. rewrite E in S.
  destruct S as (used & E1 & NF & L & -> & Sh). exists used. rewrite overwrite_ctx by exact L. auto.
Qed.
Lemma randombytes_abort sched pre old post : kernel_ok sched (length old) ->
  randombytes sched (pre ++ old ++ post) (length pre) (length old) = Abort ->
  exists used rest, sched = used ++ Failed :: rest /\ ~ In Failed used /\ (length (delivered used) < length old)%nat.
Proof.
  intros HK E. pose proof (randombytes_spec sched _ _ _ HK (ctx_length pre old post)) as S. now rewrite E in S.
Qed.
Lemma randombytes_no_ub sched pre old post u : kernel_ok sched (length old) ->
  randombytes sched (pre ++ old ++ post) (length pre) (length old) <> UB u.
Proof.
  intros HK E. pose proof (randombytes_spec sched _ _ _ HK (ctx_length pre old post)) as S. now rewrite E in S.
Qed.
Lemma randombytes_waiting sched pre old post : kernel_ok sched (length old) ->
  randombytes sched (pre ++ old ++ post) (length pre) (length old) = Timeout ->
  ~ In Failed sched /\ (length (delivered sched) < length old)%nat.
Proof.
  intros HK E. pose proof (randombytes_spec sched _ _ _ HK (ctx_length pre old post)) as S. now rewrite E in S.
Qed.
Lemma randombytes_done used rest pre old post : kernel_ok (used ++ rest) (length old) ->
  ~ In Failed used -> shortest used (length old) -> length (delivered used) = length old ->
  exists T, randombytes (used ++ rest) (pre ++ old ++ post) (length pre) (length old) = Ok (pre ++ delivered used ++ post, rest) T.
Proof.
  intros HK NF Sh L. rewrite <- (overwrite_ctx pre old post (delivered used) L). apply randombytes_exact; auto. apply ctx_length.
Qed.

(** The /dev/urandom fallback *)
Lemma urandom_ok opens sched fd pre old post out fd' opens' rest T : kernel_ok sched (length old) ->
  randombytes_urandom opens sched fd (pre ++ old ++ post) (length pre) (length old) = Ok (out, fd', opens', rest) T ->
  fd' <> -1 /\ (fd <> -1 -> fd' = fd /\ opens' = opens) /\ (fd = -1 -> In (Opened fd') opens) /\
  exists used, sched = used ++ rest /\ ~ In Failed used /\ length (delivered used) = length old /\
    shortest used (length old) /\ out = pre ++ delivered used ++ post.
Proof.
  intros HK E. unfold randombytes_urandom in E. apply bind_ok in E as ([f o] & T1 & T2 & E1 & E & ->).
  apply bind_ok in E as ([out1 rest1] & T3 & T4 & E2 & E & ->). cbn in E. injection E as -> -> -> -> _.
  pose proof (open_loop_spec opens fd) as S. rewrite E1 in S. destruct S as (u & EO & NF & N1 & H1 & H2).
  split; [exact N1|]. split; [|split].
  - intros N. destruct (H1 N) as [-> ->]. auto.
  - intros N. rewrite EO. apply in_or_app. left. auto.
  - eapply randombytes_ok; eauto.
Qed.
