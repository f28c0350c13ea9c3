(** * The Windows branch of randombytes *)
From Coq Require Import ZArith List Lia Bool.
From Verif Require Import CMonad WP Proof_Base Model_Randombytes Model_RandomWin Vocab_Win Proof_Random.
Import ListNotations.
Open Scope Z_scope.

Lemma requests_0 : requests 0 = 0%nat. Proof. reflexivity. Qed.
Lemma requests_last n : 0 < Z.of_nat n <= 1048576 -> requests n = 1%nat.
Proof.
  intros H. unfold requests. change (2 ^ 20) with 1048576.
  replace ((Z.of_nat n + 1048576 - 1) / 1048576) with 1; [reflexivity|]. apply (Z.div_unique _ _ 1 (Z.of_nat n - 1)); lia.
Qed.
Lemma requests_more n l : Z.of_nat l = 1048576 -> Z.of_nat l < Z.of_nat n -> requests n = S (requests (n - l)).
Proof.
  intros El H. unfold requests. change (2 ^ 20) with 1048576.
  replace (Z.of_nat n + 1048576 - 1) with (Z.of_nat (n - l) + 1048576 - 1 + 1 * 1048576) by lia.
  rewrite Z.div_add by lia. assert (0 <= (Z.of_nat (n - l) + 1048576 - 1) / 1048576) by (apply Z.div_pos; lia). lia.
Qed.

Lemma gen_loop_spec gens : forall out oo n, (oo + n <= length out)%nat ->
  match gen_loop gens out oo (Z.of_nat n) with
  | Ok (out', rest) _ => exists srcs lens, gens = map Generated srcs ++ rest /\ length srcs = requests n /\ length lens = requests n /\
      chunk_sizes lens /\ length (generated srcs lens) = n /\ out' = overwrite out oo (generated srcs lens)
  | Abort => In GenFailed (firstn (requests n) gens)
  | Timeout => ~ In GenFailed gens /\ (length gens < requests n)%nat
  | UB _ => False
  end.
Proof.
  induction gens as [|g gens IH]; intros out oo n HL; cbn [gen_loop].
  - destruct n as [|n]; cbn -[Z.of_nat requests]; rewrite ?Z.gtb_ltb.
    + exists [], []. rewrite requests_0. unfold chunk_sizes, generated. cbn. rewrite overwrite_nil. repeat split; auto; easy.
    + destruct (Z.ltb_spec 0 (Z.of_nat (S n))); [|lia]. cbn. split; [auto|].
      destruct (Z_le_gt_dec (Z.of_nat (S n)) 1048576); [rewrite requests_last by lia; lia|].
      rewrite (requests_more (S n) (Z.to_nat 1048576)) by lia. lia.
  - rewrite Z.gtb_ltb. destruct (Z.ltb_spec 0 (Z.of_nat n)) as [Hn|Hn]; cbn [negb].
    2:{ assert (n = 0%nat) as -> by lia. unfold ret. exists [], []. rewrite requests_0. unfold chunk_sizes, generated. cbn. rewrite overwrite_nil.
        repeat split; auto; easy. }
    destruct g as [|src].
    { assert (R : exists m, requests n = S m).
      { destruct (Z_le_gt_dec (Z.of_nat n) 1048576); [rewrite requests_last by lia; eauto|].
        rewrite (requests_more n (Z.to_nat 1048576)) by lia. eauto. }
      destruct R as [m ->]. now left. }
    rewrite Z.gtb_ltb. set (len := if 1048576 <? Z.of_nat n then 1048576 else Z.of_nat n).
    assert (Hlen : 0 < len <= 1048576 /\ len <= Z.of_nat n /\ (len = 1048576 \/ len = Z.of_nat n)) by (unfold len; destruct (Z.ltb_spec 1048576 (Z.of_nat n)); lia).
    clearbody len. cbv zeta. set (l := Z.to_nat len). assert (El : Z.of_nat l = len) by lia. clearbody l. subst len.
    set (bs := map src (seq 0 l)). assert (Lb : length bs = l) by (unfold bs; now rewrite map_length, seq_length).
    unfold kernel_write. rewrite Lb. destruct (Nat.leb_spec (oo + l) (length out)); [|lia]. unfold ret. cbn [bind app].
    replace (firstn oo out ++ bs ++ skipn (oo + l) out) with (overwrite out oo bs) by (unfold overwrite; now rewrite Lb).
    replace (Z.of_nat n - Z.of_nat l) with (Z.of_nat (n - l)) by lia.
    assert (RQ : requests n = S (requests (n - l))).
    { destruct (Nat.eq_dec n l) as [->|NE]; [rewrite Nat.sub_diag, requests_0; apply requests_last; lia|apply requests_more; lia]. }
    specialize (IH (overwrite out oo bs) (oo + l)%nat (n - l)%nat ltac:(rewrite overwrite_length; lia)).
    destruct (gen_loop gens (overwrite out oo bs) (oo + l) (Z.of_nat (n - l))) as [[out' rest] t|u| |]; auto.
    + destruct IH as (srcs & lens & -> & L1 & L2 & [C1 C2] & Lg & Eo). exists (src :: srcs), (l :: lens).
      rewrite RQ. cbn [map app length generated combine flat_map fst snd]. change (flat_map _ (combine srcs lens)) with (generated srcs lens). fold bs.
      refine (conj eq_refl (conj (f_equal S L1) (conj (f_equal S L2) (conj _ (conj _ _))))).
      * split.
        -- intros x [<-|Hx]; [lia|now apply C1].
        -- intros x Hx. cbn [removelast] in Hx. destruct lens as [|y lens]; [destruct Hx|]. destruct Hx as [<-|Hx]; [|now apply C2].
           cbn [length] in L2. change (2 ^ 20) with 1048576. destruct (Nat.eq_dec n l) as [->|NE]; [|lia].
           rewrite Nat.sub_diag, requests_0 in L2. discriminate L2.
      * rewrite app_length. lia.
      * rewrite Eo, <- Lb. apply overwrite_app. lia.
    + destruct IH as [N L]. rewrite RQ. split; [|cbn; lia]. intros [X|X]; [discriminate X|exact (N X)].
    + rewrite RQ. cbn [firstn]. now right.
Qed.

Lemma windows_spec acq rel gens pre old post :
  match randombytes_windows acq rel gens (pre ++ old ++ post) (length pre) (Z.of_nat (length old)) with
  | Ok (out, rest) _ => acq = true /\ rel = true /\ exists srcs lens, gens = map Generated srcs ++ rest /\ length srcs = requests (length old) /\
      length lens = requests (length old) /\ chunk_sizes lens /\ length (generated srcs lens) = length old /\ out = pre ++ generated srcs lens ++ post
  | Abort => acq = false \/ In GenFailed (firstn (requests (length old)) gens) \/ rel = false
  | Timeout => acq = true /\ ~ In GenFailed gens /\ (length gens < requests (length old))%nat
  | UB _ => False
  end.
Proof.
  unfold randombytes_windows. destruct acq; [|left; reflexivity]. cbn [negb].
  pose proof (gen_loop_spec gens (pre ++ old ++ post) (length pre) (length old) ltac:(rewrite !app_length; lia)) as G.
  destruct (gen_loop gens (pre ++ old ++ post) (length pre) (Z.of_nat (length old))) as [[out rest] t|u| |]; cbn [bind]; auto.
  destruct rel; cbn [negb]; [|auto]. cbn [ret bind]. rewrite app_nil_r || idtac. refine (conj eq_refl (conj eq_refl _)).
  destruct G as (srcs & lens & E & L1 & L2 & C & Lg & Eo). exists srcs, lens. refine (conj E (conj L1 (conj L2 (conj C (conj Lg _))))).
  rewrite Eo. unfold overwrite. rewrite Lg. rewrite firstn_app, Nat.sub_diag, firstn_all, firstn_O, app_nil_r. f_equal. f_equal.
  rewrite app_assoc, skipn_app, skipn_all2 by (rewrite app_length; lia). rewrite app_length, Nat.sub_diag. reflexivity.
Qed.

Lemma windows_filled acq rel gens pre old post out rest T :
  randombytes_windows acq rel gens (pre ++ old ++ post) (length pre) (Z.of_nat (length old)) = Ok (out, rest) T ->
  acq = true /\ rel = true /\ exists srcs lens, gens = map Generated srcs ++ rest /\ length srcs = requests (length old) /\
    length lens = requests (length old) /\ chunk_sizes lens /\ length (generated srcs lens) = length old /\ out = pre ++ generated srcs lens ++ post.
Proof. intros E. pose proof (windows_spec acq rel gens pre old post) as S. rewrite E in S. exact S. Qed.
Lemma windows_aborted acq rel gens pre old post :
  randombytes_windows acq rel gens (pre ++ old ++ post) (length pre) (Z.of_nat (length old)) = Abort ->
  acq = false \/ In GenFailed (firstn (requests (length old)) gens) \/ rel = false.
Proof. intros E. pose proof (windows_spec acq rel gens pre old post) as S. rewrite E in S. exact S. Qed.
Lemma windows_no_ub acq rel gens pre old post u :
  randombytes_windows acq rel gens (pre ++ old ++ post) (length pre) (Z.of_nat (length old)) <> UB u.
Proof. intros E. pose proof (windows_spec acq rel gens pre old post) as S. rewrite E in S. exact S. Qed.

Lemma in_firstn_map_gen srcs m rest : (m <= length srcs)%nat -> ~ In GenFailed (firstn m (map Generated srcs ++ rest)).
Proof.
  intros L X. rewrite firstn_app, map_length in X. replace (m - length srcs)%nat with 0%nat in X by lia. rewrite firstn_O, app_nil_r, firstn_map in X.
  apply in_map_iff in X as (x & E & _). discriminate E.
Qed.
Lemma map_gen_inj : forall a b r1 r2, length a = length b -> map Generated a ++ r1 = map Generated b ++ r2 -> a = b /\ r1 = r2.
Proof.
  induction a as [|x a IH]; intros [|y b] r1 r2 L E; try discriminate L; [now split|].
  cbn [map app] in E. injection E as -> E. destruct (IH b r1 r2) as [-> ->]; [now injection L|exact E|]. now split.
Qed.
(** It returns whenever no call fails *)
Lemma windows_returns srcs rest pre old post : length srcs = requests (length old) ->
  exists lens T, length lens = requests (length old) /\ chunk_sizes lens /\ length (generated srcs lens) = length old /\
    randombytes_windows true true (map Generated srcs ++ rest) (pre ++ old ++ post) (length pre) (Z.of_nat (length old))
    = Ok (pre ++ generated srcs lens ++ post, rest) T.
Proof.
  intros L. pose proof (windows_spec true true (map Generated srcs ++ rest) pre old post) as S.
  destruct (randombytes_windows true true (map Generated srcs ++ rest) (pre ++ old ++ post) (length pre) (Z.of_nat (length old))) as [[out rest'] t|u| |].
  - destruct S as (_ & _ & srcs' & lens & E & L1 & L2 & C & Lg & Eo).
    apply map_gen_inj in E as [<- <-]; [|lia]. exists lens, t. refine (conj L2 (conj C (conj Lg _))). now rewrite Eo.
  - destruct S.
  - destruct S as (_ & _ & S). rewrite app_length, map_length in S. lia.
  - destruct S as [S|[S|S]]; try discriminate S. apply in_firstn_map_gen in S; [destruct S|lia].
Qed.
Lemma windows_failure acq rel gens pre old post : acq = false \/ In GenFailed (firstn (requests (length old)) gens) ->
  forall out rest T, randombytes_windows acq rel gens (pre ++ old ++ post) (length pre) (Z.of_nat (length old)) <> Ok (out, rest) T.
Proof.
  intros [->|F] out rest T E; [discriminate E|].
  destruct (windows_filled _ _ _ _ _ _ _ _ _ E) as (_ & _ & srcs & lens & -> & L & _). apply in_firstn_map_gen in F; [exact F|lia].
Qed.
