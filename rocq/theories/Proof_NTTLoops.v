(** * The loops of ntt.c as written are the numbered ones of Model_NTT.v *)
From Coq Require Import ZArith List Lia Bool.
From Verif Require Import CMonad Model_Reduce Model_NTT Model_NTTLoops.
Import ListNotations.
Open Scope Z_scope.
Open Scope cmonad_scope.

Lemma bind_assoc {A B C} (m : res A) (f : A -> res B) (g : B -> res C) :
  (y <- (x <- m ;; f x) ;; g y) = (x <- m ;; (y <- f x ;; g y)).
Proof.
  destruct m as [v t| | |]; try reflexivity. cbn [bind]. destruct (f v) as [w t'| | |]; try reflexivity.
  cbn [bind]. destruct (g w) as [z t''| | |]; try reflexivity. now rewrite app_assoc.
Qed.
Lemma bind_ret {A B} (v : A) (f : A -> res B) : (x <- ret v ;; f x) = f v.
Proof. cbn. now destruct (f v). Qed.
Lemma bind_ret_r {A} (m : res A) : (x <- m ;; ret x) = m.
Proof. destruct m as [v t| | |]; try reflexivity. cbn. now rewrite app_nil_r. Qed.
Lemma bind_eq {A B} (m : res A) (f g : A -> res B) : (forall v t, m = Ok v t -> f v = g v) -> (x <- m ;; f x) = (x <- m ;; g x).
Proof. intros E. destruct m as [v t| | |]; try reflexivity. cbn. now rewrite (E v t eq_refl). Qed.

(** A while loop that counts is the for loop *)
Lemma while_for {S S'} (I : nat -> S -> Prop) (emb : nat -> S -> S') cond body f n :
  (forall i s, I i s -> (i < n)%nat -> cond (emb i s) = test true) ->
  (forall s, I n s -> cond (emb n s) = test false) ->
  (forall i s, I i s -> (i < n)%nat -> body (emb i s) = (s' <- f i s ;; ret (emb (Datatypes.S i) s'))) ->
  (forall i s s' t, I i s -> (i < n)%nat -> f i s = Ok s' t -> I (Datatypes.S i) s') ->
  forall k i fuel s, (i + k = n)%nat -> (k < fuel)%nat -> I i s ->
  while_ fuel cond body (emb i s) = (s' <- for_ k i f s ;; ret (emb n s')).
Proof.
  intros C1 C2 B IS. induction k as [|k IH]; intros i fuel s E Hf HI; (destruct fuel as [|fuel]; [lia|]); cbn [while_ for_].
  - replace i with n in * by lia. rewrite C2 by exact HI. reflexivity.
  - rewrite C1 by (auto; lia). rewrite B by (auto; lia). unfold test, emit. cbn [bind].
    destruct (f i s) as [s1 t1|u| |] eqn:F; try reflexivity. cbn [bind ret].
    rewrite (IH (Datatypes.S i) fuel s1) by (lia || (eapply IS; eauto; lia)).
    destruct (for_ k (Datatypes.S i) f s1) as [s2 t2|u| |]; try reflexivity. cbn [bind ret]. now rewrite !app_nil_r.
Qed.
Lemma for_inv {S} (I : nat -> S -> Prop) f : forall k i s s' t, I i s ->
  (forall j x y u, (i <= j < i + k)%nat -> I j x -> f j x = Ok y u -> I (Datatypes.S j) y) ->
  for_ k i f s = Ok s' t -> I (i + k)%nat s'.
Proof.
  induction k as [|k IH]; intros i s s' t HI H E; cbn [for_] in E; unfold emit in E; cbn [bind] in E.
  - cbn in E. injection E as <- _. now rewrite Nat.add_0_r.
  - destruct (f i s) as [s1 t1|u| |] eqn:F; try discriminate E. cbn [bind] in E.
    destruct (for_ k (Datatypes.S i) f s1) as [s2 t2|u| |] eqn:G; try discriminate E. injection E as <- _.
    replace (i + Datatypes.S k)%nat with (Datatypes.S i + k)%nat by lia. eapply IH; [|intros|exact G].
    + eapply (H i s s1 t1); [lia|exact HI|exact F].
    + eapply (H j); [lia|eassumption|eassumption].
Qed.
Lemma u32_small x : 0 <= x < 2 ^ 32 -> u32 x = x. Proof. apply Z.mod_small. Qed.
Lemma for_shift {S} (f : nat -> S -> res S) o : forall k i s,
  for_ k (o + i) f s = for_ k i (fun j => f (o + j)%nat) s.
Proof.
  induction k as [|k IH]; intros i s; [reflexivity|]. cbn [for_]. unfold emit. cbn [bind].
  destruct (f (o + i)%nat s) as [s1 t1| | |]; try reflexivity. cbn [bind].
  replace (Datatypes.S (o + i)) with (o + Datatypes.S i)%nat by lia. now rewrite IH.
Qed.

Ltac shift_for o := match goal with |- context [for_ ?k o ?f ?r] =>
  replace (for_ k o f r) with (for_ k 0 (fun j => f (o + j)%nat) r) by exact (eq_sym (eq_trans (f_equal (fun x => for_ k x f r) (eq_sym (Nat.add_0_r o))) (for_shift f o k 0%nat r))) end.
Ltac steps := repeat (rewrite !bind_assoc; apply bind_eq; intros ? ? _).
Ltac small := rewrite ?u32_small by lia.

Definition inner_body zeta (len : Z) (s : list Z * Z) : res (list Z * Z) :=
  let '(r, j) := s in
  x <- uget r (u32 (j + len)) ;;
  t <- fqmul zeta x ;;
  y <- uget r j ;;
  d <- isub y t ;;
  r <- uset r (u32 (j + len)) (i16 d) ;;
  y <- uget r j ;;
  d <- iadd y t ;;
  r <- uset r j (i16 d) ;;
  ret (r, u32 (j + 1)).
Lemma ntt_inner_loop fuel zeta len start r : (len < fuel)%nat -> (0 < len)%nat -> (start + 2 * len <= 256)%nat ->
  while_ fuel (fun s => let '(r, j) := s in test (j <? u32 (Z.of_nat start + Z.of_nat len))) (inner_body zeta (Z.of_nat len)) (r, Z.of_nat start)
  = (r <- ntt_inner zeta len start r ;; ret (r, Z.of_nat (start + len))).
Proof.
  intros Hf Hl Hs. unfold ntt_inner.
  shift_for start.
  replace (r, Z.of_nat start) with (r, Z.of_nat (start + 0)) by (now rewrite Nat.add_0_r).
  apply (while_for (fun i s => True) (fun i (s : list Z) => (s, Z.of_nat (start + i)))) with (n := len) (i := 0%nat) (s := r); auto.
  - intros i s _ Hi. small. f_equal. apply Z.ltb_lt. lia.
  - intros s _. small. f_equal. apply Z.ltb_ge. lia.
  - intros i s _ Hi. unfold inner_body, uget, uset. small.
    replace (Z.to_nat (Z.of_nat (start + i) + Z.of_nat len)) with (start + i + len)%nat by lia. rewrite Nat2Z.id.
    replace (Z.of_nat (start + i) + 1) with (Z.of_nat (start + Datatypes.S i)) by lia.
    rewrite !bind_assoc. apply bind_eq. intros x _ _. rewrite !bind_assoc. apply bind_eq. intros t _ _.
    rewrite !bind_assoc. apply bind_eq. intros y _ _. rewrite !bind_assoc. apply bind_eq. intros d _ _.
    rewrite !bind_assoc. apply bind_eq. intros r1 _ _. rewrite !bind_assoc. apply bind_eq. intros y1 _ _.
    rewrite !bind_assoc. apply bind_eq. intros d1 _ _. apply bind_eq. intros r2 _ _. reflexivity.
Qed.

(** One layer *)
Definition start_body fuel (len : Z) (s : list Z * Z * Z) : res (list Z * Z * Z) :=
  let '(r, k, start) := s in
  zeta <- uget zetas k ;;
  let k := u32 (k + 1) in
  s <- while_ fuel (fun s => let '(r, j) := s in test (j <? u32 (start + len))) (inner_body zeta len) (r, start) ;;
  let '(r, j) := s in
  ret (r, k, u32 (j + len)).
Lemma ntt_layer_k len k0 : forall r r' k' t,
  ntt_layer len (r, k0) = Ok (r', k') t -> k' = (k0 + 128 / len)%nat.
Proof.
  intros r r' k' t E. unfold ntt_layer in E.
  apply (for_inv (fun i (s : list Z * nat) => snd s = (k0 + i)%nat)) in E; [exact E|cbn; lia|].
  intros j [x kx] [y ky] u _ HI F. cbn [snd] in *. destruct (aget zetas kx) as [z tz| | |]; try discriminate F. cbn [bind] in F.
  destruct (ntt_inner z len (2 * len * j) x) as [z' tz'| | |]; try discriminate F. cbn [bind ret] in F. injection F as _ <- _. lia.
Qed.
Lemma ntt_layer_loop fuel len nb k0 r : (len < fuel)%nat -> (nb < fuel)%nat -> (0 < len)%nat -> (len * nb = 128)%nat -> (k0 + nb <= 128)%nat ->
  while_ fuel (fun s => let '(r, k, start) := s in test (start <? 256)) (start_body fuel (Z.of_nat len)) (r, Z.of_nat k0, 0)
  = (s <- ntt_layer len (r, k0) ;; let '(r, k) := s in ret (r, Z.of_nat k, 256)).
Proof.
  intros Hf Hf' Hl E Hk. unfold ntt_layer.
  replace (128 / len)%nat with nb by (apply Nat.div_unique_exact; lia).
  replace (r, Z.of_nat k0, 0) with (fst (r, k0), Z.of_nat (snd (r, k0)), Z.of_nat (2 * len * 0)) by (cbn [fst snd]; f_equal; lia).
  etransitivity; [apply (while_for (fun i s => snd s = (k0 + i)%nat) (fun i (s : list Z * nat) => (fst s, Z.of_nat (snd s), Z.of_nat (2 * len * i))) _ _
    (fun b s => let '(r, k) := s in zeta <- aget zetas k ;; r <- ntt_inner zeta len (2 * len * b) r ;; ret (r, S k)) nb)
    with (i := 0%nat) (s := (r, k0)) (k := nb)|].
  - intros i [x kx] HI Hi. cbn [fst snd] in *. f_equal. apply Z.ltb_lt. nia.
  - intros [x kx] HI. cbn [fst snd] in *. f_equal. apply Z.ltb_ge. nia.
  - intros i [x kx] HI Hi. cbn [fst snd] in *. unfold start_body, uget. rewrite Nat2Z.id. cbv zeta.
    rewrite !bind_assoc. apply bind_eq. intros zeta tz _. rewrite (u32_small (Z.of_nat kx + 1)) by lia.
    rewrite ntt_inner_loop by nia. rewrite !bind_assoc. apply bind_eq. intros r1 t1 _. rewrite bind_ret.
    rewrite !bind_ret. cbn [fst snd].
    rewrite (u32_small (Z.of_nat (2 * len * i + len) + Z.of_nat len)) by nia. f_equal. f_equal; [f_equal; lia|nia].
  - intros i [x kx] [y ky] t HI Hi F. cbn [snd] in *. destruct (aget zetas kx) as [z tz| | |]; try discriminate F. cbn [bind] in F.
    destruct (ntt_inner z len (2 * len * i) x) as [z' tz'| | |]; try discriminate F. cbn [bind ret] in F. injection F as _ <- _. lia.
  - lia.
  - lia.
  - cbn. lia.
  - apply bind_eq. intros [r1 k1] t1 _. cbn [fst snd]. replace (Z.of_nat (2 * len * nb)) with 256 by nia. reflexivity.
Qed.

Lemma ntt_loops_ok fuel r : (129 < fuel)%nat -> ntt_loops fuel r = ntt r.
Proof.
  intros Hf. unfold ntt.
  change (ntt_loops fuel r) with
   (s <- while_ fuel (fun s => let '(r, k, len) := s in test (2 <=? len))
     (fun s => let '(r, k, len) := s in
        s <- while_ fuel (fun s => let '(r, k, start) := s in test (start <? 256)) (start_body fuel len) (r, k, 0) ;;
        let '(r, k, start) := s in ret (r, k, Z.shiftr len 1)) (r, 1, 128) ;;
    let '(r, k, len) := s in ret r).
  assert (P : forall i, (i < 7)%nat -> exists nb, (128 / 2 ^ i * nb = 128 /\ 0 < 128 / 2 ^ i <= 128 /\ nb = 2 ^ i /\ 2 ^ i <= 64)%nat /\
             Z.shiftr (Z.of_nat (128 / 2 ^ i)) 1 = Z.of_nat (128 / 2 ^ S i) /\ (2 <= Z.of_nat (128 / 2 ^ i))).
  { intros i Hi. exists (2 ^ i)%nat. do 7 (destruct i as [|i]; [repeat split; first [reflexivity|apply Nat.leb_le; reflexivity|apply Z.leb_le; reflexivity]|]). lia. }
  match goal with |- bind ?w _ = _ => replace w with (s' <- for_ 7 0 (fun l s => ntt_layer (128 / 2 ^ l) s) (r, 1%nat) ;;
     ret (fst s', Z.of_nat (snd s'), Z.of_nat (128 / 2 ^ 7))) end.
  { rewrite bind_assoc. apply bind_eq. intros [r1 k1] t _. now rewrite bind_ret. }
  symmetry. apply (while_for (fun i s => snd s = 2 ^ i)%nat (fun i (s : list Z * nat) => (fst s, Z.of_nat (snd s), Z.of_nat (128 / 2 ^ i)))) with (k := 7%nat) (i := 0%nat) (s := (r, 1%nat)).
  - intros i [x kx] _ Hi. cbn [fst snd]. destruct (P i Hi) as (nb & _ & _ & L). f_equal. apply Z.leb_le. exact L.
  - intros [x kx] _. reflexivity.
  - intros i [x kx] HI Hi. cbn [fst snd] in *. destruct (P i Hi) as (nb & (E1 & E2 & E3 & E4) & E5 & _).
    rewrite (ntt_layer_loop fuel (128 / 2 ^ i) nb kx x) by lia.
    rewrite bind_assoc. apply bind_eq. intros [r1 k1] t _. rewrite bind_ret. cbn [fst snd]. now rewrite E5.
  - intros i [x kx] [y ky] t HI Hi F. cbn [snd] in *. apply ntt_layer_k in F. destruct (P i Hi) as (nb & (E1 & E2 & E3 & E4) & E5 & _).
    replace (128 / (128 / 2 ^ i))%nat with nb in F by (apply Nat.div_unique_exact; lia). cbn [Nat.pow]. lia.
  - reflexivity.
  - lia.
  - reflexivity.
Qed.

(** ** The inverse *)
Definition inv_inner_body zeta (len : Z) (s : list Z * Z) : res (list Z * Z) :=
  let '(r, j) := s in
  t <- uget r j ;;
  x <- uget r (u32 (j + len)) ;;
  d <- iadd t x ;;
  d <- barrett_reduce (i16 d) ;;
  r <- uset r j d ;;
  x <- uget r (u32 (j + len)) ;;
  d <- isub x t ;;
  r <- uset r (u32 (j + len)) (i16 d) ;;
  x <- uget r (u32 (j + len)) ;;
  d <- fqmul zeta x ;;
  r <- uset r (u32 (j + len)) d ;;
  ret (r, u32 (j + 1)).
Lemma invntt_inner_loop fuel zeta len start r : (len < fuel)%nat -> (0 < len)%nat -> (start + 2 * len <= 256)%nat ->
  while_ fuel (fun s => let '(r, j) := s in test (j <? u32 (Z.of_nat start + Z.of_nat len))) (inv_inner_body zeta (Z.of_nat len)) (r, Z.of_nat start)
  = (r <- invntt_inner zeta len start r ;; ret (r, Z.of_nat (start + len))).
Proof.
  intros Hf Hl Hs. unfold invntt_inner. shift_for start.
  replace (r, Z.of_nat start) with (r, Z.of_nat (start + 0)) by (now rewrite Nat.add_0_r).
  apply (while_for (fun i s => True) (fun i (s : list Z) => (s, Z.of_nat (start + i)))) with (n := len) (i := 0%nat) (s := r); auto.
  - intros i s _ Hi. small. f_equal. apply Z.ltb_lt. lia.
  - intros s _. small. f_equal. apply Z.ltb_ge. lia.
  - intros i s _ Hi. unfold inv_inner_body, uget, uset. small.
    replace (Z.to_nat (Z.of_nat (start + i) + Z.of_nat len)) with (start + i + len)%nat by lia. rewrite Nat2Z.id.
    replace (Z.of_nat (start + i) + 1) with (Z.of_nat (start + Datatypes.S i)) by lia.
    do 10 (rewrite !bind_assoc; apply bind_eq; intros ? ? _). apply bind_eq. intros r2 _ _. reflexivity.
Qed.
Definition inv_start_body fuel (len : Z) (s : list Z * Z * Z) : res (list Z * Z * Z) :=
  let '(r, k, start) := s in
  zeta <- uget zetas k ;;
  let k := u32 (k - 1) in
  s <- while_ fuel (fun s => let '(r, j) := s in test (j <? u32 (start + len))) (inv_inner_body zeta len) (r, start) ;;
  let '(r, j) := s in
  ret (r, k, u32 (j + len)).
Lemma invntt_layer_k len k0 : forall r r' k' t,
  invntt_layer len (r, k0) = Ok (r', k') t -> k' = (k0 - 128 / len)%nat.
Proof.
  intros r r' k' t E. unfold invntt_layer in E.
  apply (for_inv (fun i (s : list Z * nat) => snd s = (k0 - i)%nat)) in E; [exact E|cbn; lia|].
  intros j [x kx] [y ky] u _ HI F. cbn [snd] in *. destruct (aget zetas kx) as [z tz| | |]; try discriminate F. cbn [bind] in F.
  destruct (invntt_inner z len (2 * len * j) x) as [z' tz'| | |]; try discriminate F. cbn [bind ret] in F. injection F as _ <- _. lia.
Qed.
Lemma invntt_layer_loop fuel len nb k0 r : (len < fuel)%nat -> (nb < fuel)%nat -> (0 < len)%nat -> (len * nb = 128)%nat -> (nb <= k0 <= 127)%nat ->
  while_ fuel (fun s => let '(r, k, start) := s in test (start <? 256)) (inv_start_body fuel (Z.of_nat len)) (r, Z.of_nat k0, 0)
  = (s <- invntt_layer len (r, k0) ;; let '(r, k) := s in ret (r, Z.of_nat k, 256)).
Proof.
  intros Hf Hf' Hl E Hk. unfold invntt_layer.
  replace (128 / len)%nat with nb by (apply Nat.div_unique_exact; lia).
  replace (r, Z.of_nat k0, 0) with (fst (r, k0), Z.of_nat (snd (r, k0)), Z.of_nat (2 * len * 0)) by (cbn [fst snd]; f_equal; lia).
  etransitivity; [apply (while_for (fun i s => snd s = (k0 - i)%nat) (fun i (s : list Z * nat) => (fst s, Z.of_nat (snd s), Z.of_nat (2 * len * i))) _ _
    (fun b s => let '(r, k) := s in zeta <- aget zetas k ;; r <- invntt_inner zeta len (2 * len * b) r ;; ret (r, pred k)) nb)
    with (i := 0%nat) (s := (r, k0)) (k := nb)|].
  - intros i [x kx] HI Hi. cbn [fst snd] in *. f_equal. apply Z.ltb_lt. nia.
  - intros [x kx] HI. cbn [fst snd] in *. f_equal. apply Z.ltb_ge. nia.
  - intros i [x kx] HI Hi. cbn [fst snd] in *. unfold inv_start_body, uget. rewrite Nat2Z.id. cbv zeta.
    rewrite !bind_assoc. apply bind_eq. intros zeta tz _. rewrite (u32_small (Z.of_nat kx - 1)) by lia.
    rewrite invntt_inner_loop by nia. rewrite !bind_assoc. apply bind_eq. intros r1 t1 _. rewrite bind_ret.
    rewrite !bind_ret. cbn [fst snd].
    rewrite (u32_small (Z.of_nat (2 * len * i + len) + Z.of_nat len)) by nia. f_equal. f_equal; [f_equal; lia|nia].
  - intros i [x kx] [y ky] t HI Hi F. cbn [snd] in *. destruct (aget zetas kx) as [z tz| | |]; try discriminate F. cbn [bind] in F.
    destruct (invntt_inner z len (2 * len * i) x) as [z' tz'| | |]; try discriminate F. cbn [bind ret] in F. injection F as _ <- _. lia.
  - lia.
  - lia.
  - cbn. lia.
  - apply bind_eq. intros [r1 k1] t1 _. cbn [fst snd]. replace (Z.of_nat (2 * len * nb)) with 256 by nia. reflexivity.
Qed.

Lemma invntt_loops_ok fuel r : (256 < fuel)%nat -> invntt_loops fuel r = invntt r.
Proof.
  intros Hf. unfold invntt.
  change (invntt_loops fuel r) with
   (s <- while_ fuel (fun s => let '(r, k, len) := s in test (len <=? 128))
     (fun s => let '(r, k, len) := s in
        s <- while_ fuel (fun s => let '(r, k, start) := s in test (start <? 256)) (inv_start_body fuel len) (r, k, 0) ;;
        let '(r, k, start) := s in ret (r, k, u32 (Z.shiftl len 1))) (r, 127, 2) ;;
    let '(r, k, len) := s in
    s <- while_ fuel (fun s => let '(r, j) := s in test (j <? 256))
      (fun s => let '(r, j) := s in x <- uget r j ;; d <- fqmul x 1441 ;; r <- uset r j d ;; ret (r, u32 (j + 1))) (r, 0) ;;
    let '(r, j) := s in ret r).
  assert (P : forall i, (i < 7)%nat -> exists nb, (2 * 2 ^ i * nb = 128 /\ 0 < 2 * 2 ^ i <= 128 /\ nb <= 64 /\ nb <= 128 / 2 ^ i - 1 <= 127 /\
                128 / 2 ^ i - 1 - nb = 128 / 2 ^ S i - 1)%nat /\
             u32 (Z.shiftl (Z.of_nat (2 * 2 ^ i)) 1) = Z.of_nat (2 * 2 ^ S i) /\ (Z.of_nat (2 * 2 ^ i) <= 128)).
  { intros i Hi. exists (64 / 2 ^ i)%nat. do 7 (destruct i as [|i]; [repeat split; first [reflexivity|apply Nat.leb_le; reflexivity|apply Z.leb_le; reflexivity]|]). lia. }
  match goal with |- bind ?w _ = _ => replace w with (s' <- for_ 7 0 (fun l s => invntt_layer (2 * 2 ^ l) s) (r, 127%nat) ;;
     ret (fst s', Z.of_nat (snd s'), Z.of_nat (2 * 2 ^ 7))) end.
  { rewrite bind_assoc. apply bind_eq. intros [r1 k1] t _. rewrite bind_ret. cbn [fst snd].
    match goal with |- bind ?w _ = _ => replace w with (s' <- for_ 256 0 (fun j r => x <- aget r j ;; d <- fqmul x 1441 ;; aset r j d) r1 ;; ret (s', Z.of_nat 256)) end.
    { rewrite bind_assoc. etransitivity; [|apply bind_ret_r]. apply bind_eq. intros s' t' _. now rewrite bind_ret. }
    symmetry. apply (while_for (fun i s => True) (fun i (s : list Z) => (s, Z.of_nat i))) with (k := 256%nat) (i := 0%nat) (s := r1); auto.
    - intros i s _ Hi. f_equal. apply Z.ltb_lt. lia.
    - intros i s _ Hi. unfold uget, uset. rewrite Nat2Z.id, u32_small by lia. replace (Z.of_nat i + 1) with (Z.of_nat (S i)) by lia.
      do 2 (rewrite !bind_assoc; apply bind_eq; intros ? ? _). apply bind_eq. intros r2 _ _. reflexivity. }
  symmetry. apply (while_for (fun i s => snd s = 128 / 2 ^ i - 1)%nat (fun i (s : list Z * nat) => (fst s, Z.of_nat (snd s), Z.of_nat (2 * 2 ^ i)))) with (k := 7%nat) (i := 0%nat) (s := (r, 127%nat)).
  - intros i [x kx] _ Hi. cbn [fst snd]. destruct (P i Hi) as (nb & _ & _ & L). f_equal. apply Z.leb_le. exact L.
  - intros [x kx] _. reflexivity.
  - intros i [x kx] HI Hi. cbn [fst snd] in *. destruct (P i Hi) as (nb & (E1 & E2 & E3 & E4 & E5) & E6 & _).
    rewrite (invntt_layer_loop fuel (2 * 2 ^ i) nb kx x) by lia.
    rewrite bind_assoc. apply bind_eq. intros [r1 k1] t _. rewrite bind_ret. cbn [fst snd]. now rewrite E6.
  - intros i [x kx] [y ky] t HI Hi F. cbn [snd] in *. apply invntt_layer_k in F. destruct (P i Hi) as (nb & (E1 & E2 & E3 & E4 & E5) & E6 & _).
    replace (128 / (2 * 2 ^ i))%nat with nb in F by (apply Nat.div_unique_exact; lia). lia.
  - reflexivity.
  - lia.
  - reflexivity.
Qed.
