(** * From the vocabulary of the property statements to that of the proofs *)
From Coq Require Import ZArith List Lia Bool.
From Verif Require Import CMonad WP Modq Proof_Base Sums Proof_NTT Spec_FIPS203 Vocab Proof_Bits.
Import ListNotations.
Open Scope Z_scope.

Lemma all_bytes_bytes l : all_bytes l -> bytes l.
Proof. intros B i Hi. assert (0 <= nth i l 0 < 256) by (apply B; now apply nth_In). lia. Qed.
Lemma bytes_all_bytes l : bytes l -> all_bytes l.
Proof. intros B x Hx. destruct (In_nth _ _ 0 Hx) as (i & Hi & <-). specialize (B i Hi). lia. Qed.

Lemma in_range_bnd lo hi l : in_range lo hi l -> bnd lo hi l.
Proof. intros B i Hi. apply B. now apply nth_In. Qed.
Lemma bnd_in_range lo hi l : bnd lo hi l -> in_range lo hi l.
Proof. intros B x Hx. destruct (In_nth _ _ 0 Hx) as (i & Hi & <-). now apply B. Qed.

Lemma sub_ctx {A} (pre m post : list A) : sub (pre ++ m ++ post) (length pre) (length m) = m.
Proof.
  unfold sub. rewrite skipn_app, skipn_all, Nat.sub_diag. cbn [app skipn].
  rewrite firstn_app, firstn_all, Nat.sub_diag, firstn_O. apply app_nil_r.
Qed.
Lemma splice_ctx {A} (pre old post new : list A) : length old = length new ->
  splice (pre ++ old ++ post) (length pre) new = pre ++ new ++ post.
Proof.
  intros E. unfold splice. rewrite firstn_app, firstn_all, Nat.sub_diag, firstn_O, app_nil_r.
  f_equal. f_equal. rewrite <- E. rewrite skipn_app.
  replace (skipn (length pre + length old) pre) with (@nil A) by (symmetry; apply skipn_all2; lia).
  replace (length pre + length old - length pre)%nat with (length old) by lia.
  rewrite skipn_app, skipn_all, Nat.sub_diag. reflexivity.
Qed.
Lemma ctx_length {A} (pre m post : list A) : (length pre + length m <= length (pre ++ m ++ post))%nat.
Proof. rewrite !app_length. lia. Qed.

Lemma nth_modq f i : nth i (modq f) 0 = nth i f 0 mod q.
Proof. unfold modq. change 0 with (0 mod q) at 1. apply (map_nth (fun x => x mod q)). Qed.
Lemma lcong_modq f g : lcong f g -> modq f = modq g.
Proof.
  intros [L E]. unfold modq. apply nth_ext with (d := 0 mod q) (d' := 0 mod q); rewrite !map_length; [exact L|].
  intros i Hi. rewrite !(map_nth (fun x => x mod q)). destruct (E i Hi) as [c ->]. apply Z_mod_plus_full.
Qed.
Lemma modq_lcong f g : modq f = modq g -> lcong f g.
Proof.
  intros E. assert (L : length f = length g) by (apply (f_equal (@length Z)) in E; unfold modq in E; now rewrite !map_length in E).
  split; auto. intros i Hi. exists (nth i f 0 / q - nth i g 0 / q).
  pose proof (f_equal (fun l => nth i l 0) E) as E'. cbn beta in E'. rewrite !nth_modq in E'.
  pose proof (Z_div_mod_eq_full (nth i f 0) q). pose proof (Z_div_mod_eq_full (nth i g 0) q). unfold q in *. lia.
Qed.
Lemma modq_mk f : modq (mkpoly (fun i => f i mod q)) = mkpoly (fun i => f i mod q).
Proof. unfold modq, mkpoly. rewrite map_map. apply map_ext. intros. apply Z.mod_mod. discriminate. Qed.
Lemma modq_fix f : (forall i, (i < length f)%nat -> 0 <= nth i f 0 < q) -> modq f = f.
Proof.
  intros B. apply nth_ext with (d := 0 mod q) (d' := 0 mod q); unfold modq; rewrite map_length; [reflexivity|].
  intros i Hi. rewrite (map_nth (fun x => x mod q)). apply Z.mod_small. now apply B.
Qed.
Lemma modq_length f : length (modq f) = length f. Proof. apply map_length. Qed.

Lemma poly_within_babs B f : poly_within B f -> length f = 256%nat /\ babs B f.
Proof. intros [L R]. split; auto. now apply in_range_bnd. Qed.
Lemma babs_poly_within B f : length f = 256%nat -> babs B f -> poly_within B f.
Proof. intros L R. split; auto. now apply bnd_in_range. Qed.

Lemma mk_map_nth {B} (d : Z) (g : Z -> B) f : mk (length f) (fun i => g (nth i f d)) = map g f.
Proof.
  induction f; [reflexivity|]. unfold mk in *. cbn [length seq map nth]. f_equal.
  rewrite <- seq_shift, map_map. exact IHf.
Qed.
