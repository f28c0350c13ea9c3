(** * C73: the chosen-plaintext game reduces to Module-LWE and PRF *)
From Coq Require Import ZArith QArith Qabs List Lia Permutation Setoid Morphisms.
From Verif Require Import Spec_FIPS202 Spec_FIPS203 Spec_Failure Spec_Games.
From Verif Require Import Modq Sums Proof_Base WP Proof_Dist Proof_Correct.
Import ListNotations.
Open Scope Q_scope.

(** ** Averages *)
Definition qsum {A} (l : list A) (f : A -> Q) : Q := fold_right (fun x a => f x + a) 0 l.
Lemma qsum_cons {A} x (l : list A) f : qsum (x :: l) f = f x + qsum l f. Proof. reflexivity. Qed.
Lemma qsum_ext {A} (l : list A) f g : (forall x, In x l -> f x == g x) -> qsum l f == qsum l g.
Proof. induction l as [|x l IH]; intros H; [reflexivity|]. rewrite !qsum_cons. rewrite (H x) by now left. rewrite IH by (intros; apply H; now right). reflexivity. Qed.
Lemma qsum_perm {A} (l l' : list A) f : Permutation l l' -> qsum l f == qsum l' f.
Proof. intros Hp. induction Hp; rewrite ?qsum_cons; [reflexivity|now rewrite IHHp|ring|now rewrite IHHp1]. Qed.
Lemma qsum_map {A B} (l : list A) (g : A -> B) f : qsum (map g l) f = qsum l (fun x => f (g x)).
Proof. induction l as [|x l IH]; [reflexivity|]. cbn [map]. rewrite !qsum_cons. now rewrite IH. Qed.
Lemma qsum_scale {A} (l : list A) f c : qsum l (fun x => f x * c) == qsum l f * c.
Proof. induction l as [|x l IH]; [reflexivity|]. rewrite !qsum_cons. rewrite IH. ring. Qed.
Lemma qsum_plus {A} (l : list A) f g : qsum l (fun x => f x + g x) == qsum l f + qsum l g.
Proof. induction l as [|x l IH]; [reflexivity|]. rewrite !qsum_cons. rewrite IH. ring. Qed.
Lemma qsum_swap {A B} (l : list A) (l' : list B) f : qsum l (fun x => qsum l' (fun y => f x y)) == qsum l' (fun y => qsum l (fun x => f x y)).
Proof.
  induction l as [|x l IH].
  - induction l' as [|y l' IH']; [reflexivity|]. rewrite qsum_cons, <- IH'. reflexivity.
  - rewrite qsum_cons, IH. rewrite <- qsum_plus. apply qsum_ext. intros y _. reflexivity.
Qed.
Lemma average_ext {A} (l : list A) f g : (forall x, In x l -> f x == g x) -> average l f == average l g.
Proof. intros H. unfold average. fold (qsum l f). fold (qsum l g). now rewrite (qsum_ext _ _ _ H). Qed.
Lemma average_swap {A B} (l : list A) (l' : list B) f : average l (fun x => average l' (fun y => f x y)) == average l' (fun y => average l (fun x => f x y)).
Proof.
  unfold average, Qdiv. 
  change (qsum l (fun x => qsum l' (fun y => f x y) * / inject_Z (Z.of_nat (length l'))) * / inject_Z (Z.of_nat (length l)) ==
          qsum l' (fun y => qsum l (fun x => f x y) * / inject_Z (Z.of_nat (length l))) * / inject_Z (Z.of_nat (length l'))).
  rewrite !qsum_scale. rewrite qsum_swap. ring.
Qed.
Lemma average_perm {A} (l : list A) g f : Permutation (map g l) l -> average l (fun x => f (g x)) == average l f.
Proof.
  intros Hp. unfold average. fold (qsum l (fun x => f (g x))). fold (qsum l f). rewrite <- qsum_map. now rewrite (qsum_perm _ _ _ Hp).
Qed.

(** ** The spaces *)
Lemma words_in {A} (D : list A) m : forall w, In w (words D m) <-> length w = m /\ forall x, In x w -> In x D.
Proof.
  induction m as [|m IH]; intros w; cbn [words].
  - split; [intros [<-|[]]; split; [reflexivity|intros x []]|]. intros [L _]. left. destruct w; [reflexivity|discriminate].
  - rewrite in_flat_map. split.
    + intros (x & Hx & Hw). apply in_map_iff in Hw as (w' & <- & Hw). apply IH in Hw as [L H]. split; [cbn; now rewrite L|].
      intros y [<-|Hy]; auto.
    + intros [L H]. destruct w as [|x w]; [discriminate|]. exists x. split; [apply H; now left|]. apply in_map_iff. exists w. split; [reflexivity|].
      apply IH. split; [now injection L|]. intros y Hy. apply H. now right.
Qed.
Lemma words_nodup {A} (D : list A) m : NoDup D -> NoDup (words D m).
Proof.
  intros HD. induction m as [|m IH]; cbn [words]; [constructor; [intros []|constructor]|].
  revert HD. generalize D at 1 3. induction D0 as [|x l IHl]; intros HD; cbn [flat_map]; [constructor|]. inversion HD as [|? ? H1 H2]; subst.
  apply NoDup_app_disj.
  - now apply NoDup_cons_map.
  - now apply IHl.
  - intros w Hw Hw'. apply in_map_iff in Hw as (w1 & <- & _). apply in_flat_map in Hw' as (y & Hy & Hw'). apply in_map_iff in Hw' as (w2 & E & _).
    injection E as -> _. contradiction.
Qed.

Lemma below_in b x : In x (below b) <-> (0 <= x < b)%Z.
Proof.
  unfold below. rewrite in_map_iff. split; [intros (i & <- & Hi); apply in_seq in Hi; lia|]. intros Hx. exists (Z.to_nat x). split; [lia|]. apply in_seq. lia.
Qed.
Lemma below_nodup b : NoDup (below b).
Proof. apply FinFun.Injective_map_NoDup; [intros x y; apply Nat2Z.inj|apply seq_NoDup]. Qed.
Local Opaque below words.
Lemma polynomials_in f : In f polynomials <-> length f = 256%nat /\ forall i, (i < 256)%nat -> (0 <= nth i f 0 < q)%Z.
Proof.
  unfold polynomials. rewrite words_in. change n with 256%nat. split; intros [L R]; (split; [exact L|]).
  - intros i Hi. apply (proj1 (below_in q _)). apply R. apply nth_In. rewrite L. exact Hi.
  - intros x Hx. apply (proj2 (below_in q _)). apply (In_nth _ _ 0%Z) in Hx as (i & Hi & <-). apply R. rewrite L in Hi. exact Hi.
Qed.
Lemma polynomials_nodup : NoDup polynomials.
Proof. apply words_nodup. apply below_nodup. Qed.
Local Opaque polynomials.

Lemma NoDup_map_on {A B} (f : A -> B) l : (forall x y, In x l -> In y l -> f x = f y -> x = y) -> NoDup l -> NoDup (map f l).
Proof.
  intros HI ND. induction ND as [|x l Nx ND IH]; [constructor|]. cbn [map]. constructor.
  - intros C. apply in_map_iff in C as (y & E & Hy). apply HI in E; [subst; contradiction|now right|now left].
  - apply IH. intros y z Hy Hz. apply HI; now right.
Qed.
Lemma shift_permutation g : Permutation (map (fun f => padd f g) polynomials) polynomials.
Proof.
  apply NoDup_Permutation_bis.
  - apply NoDup_map_on; [|apply polynomials_nodup]. intros f h Hf Hh E. destruct (proj1 (polynomials_in f) Hf) as [Lf Rf]. destruct (proj1 (polynomials_in h) Hh) as [Lh Rh].
    apply (list_eq_nth 0%Z); [lia|]. rewrite Lf. intros i Hi. pose proof (f_equal (fun w => nth i w 0%Z) E) as Ei. cbv beta in Ei.
    unfold padd in Ei. rewrite !nth_mkpoly in Ei by exact Hi. unfold coef in Ei. specialize (Rf i Hi). specialize (Rh i Hi). unfold q in *.
    revert Ei Rf Rh. generalize (nth i f 0%Z) (nth i h 0%Z) (nth i g 0%Z). intros a b c Ei Ra Rb.
    pose proof (Z.div_mod (a + c) 3329). pose proof (Z.div_mod (b + c) 3329). lia.
  - rewrite map_length. reflexivity.
  - intros f Hf. apply in_map_iff in Hf as (h & <- & Hh). apply (proj2 (polynomials_in _)). unfold padd. split; [apply mkpoly_length|].
    intros i Hi. rewrite nth_mkpoly by exact Hi. apply Z.mod_pos_bound. reflexivity.
Qed.

(** ** The steps *)
Section Steps.
Variables (P : params) (A : list (list (list Z))) (rho : list Z) (choose : list Z -> list Z * list Z) (guess : list Z -> list Z -> Q).
Notation pub := (public_key rho).
Notation ks := (key_sample P A).
Notation G b := (game P A rho choose guess b).

Lemma decode_public t : In t (vectors (k P)) -> decode_vec P 12 (firstn (384 * k P) (pub t)) = t.
Proof.
  intros Ht. apply words_in in Ht as [L R]. unfold public_key. apply (decode_vec_encode P 12 t rho L).
  intros x Hx. apply (proj1 (polynomials_in x)). apply R. exact Hx.
Qed.

(** Real seeds to random strings for the key *)
Definition game1 (b : bool) : Q := over_key_noise P (key_prf_attack P A rho choose guess b).
Lemma hop0 b : gap (G b) (game1 b) == key_prf_advantage P (key_prf_attack P A rho choose guess b).
Proof. reflexivity. Qed.
(** ... and for the ciphertext *)
Definition game2 (b : bool) : Q := over_noise P (prf_attack P A rho choose guess b).
Lemma hop1 b : game1 b == over_seeds P (prf_attack P A rho choose guess b).
Proof.
  unfold game1, over_key_noise, over_seeds, prf_attack, key_prf_attack. cbv zeta. unfold over_seeds, over_key_noise.
  etransitivity; [apply average_ext; intros S _; apply average_swap|]. rewrite average_swap. reflexivity.
Qed.
(** The public key becomes random *)
Lemma hop2 b : game2 b == over_key_noise P (fun S E => key_lwe_attack P A rho choose guess b (ks S E)).
Proof.
  unfold game2, over_noise, prf_attack, key_lwe_attack. cbv zeta. unfold over_noise, over_key_noise.
  set (g := fun S E Y E1 E2 => guess (pub (ks S E)) (encrypt P A (pub (ks S E)) (chosen choose b (pub (ks S E))) Y E1 E2)).
  change (average (strings (64 * eta1 P * k P)) (fun Y => average (strings (64 * eta2 P * k P)) (fun E1 => average (strings (64 * eta2 P)) (fun E2 =>
            average (strings (64 * eta1 P * k P)) (fun S => average (strings (64 * eta1 P * k P)) (fun E => g S E Y E1 E2))))) ==
          average (strings (64 * eta1 P * k P)) (fun S => average (strings (64 * eta1 P * k P)) (fun E =>
            average (strings (64 * eta1 P * k P)) (fun Y => average (strings (64 * eta2 P * k P)) (fun E1 => average (strings (64 * eta2 P)) (fun E2 => g S E Y E1 E2)))))).
  generalize g (strings (64 * eta1 P * k P)) (strings (64 * eta2 P * k P)) (strings (64 * eta2 P)). clear. intros g a c d.
  etransitivity; [|apply average_ext; intros S _; symmetry; etransitivity; [apply average_swap|]; apply average_ext; intros Y _; etransitivity; [apply average_swap|]; apply average_ext; intros E1 _; apply average_swap].
  etransitivity; [|symmetry; apply average_swap]. apply average_ext. intros Y _.
  etransitivity; [|symmetry; apply average_swap]. apply average_ext. intros E1 _.
  etransitivity; [|symmetry; apply average_swap]. apply average_ext. intros E2 _. reflexivity.
Qed.
(** The ciphertext becomes random *)
Lemma hop3 b : average (vectors (k P)) (key_lwe_attack P A rho choose guess b) ==
  average (vectors (k P)) (fun t => over_noise P (fun Y E1 E2 => lwe_attack P rho choose guess b t (u_sample P A Y E1) (v_sample P t Y E2))).
Proof.
  apply average_ext. intros t Ht. unfold key_lwe_attack, over_noise, lwe_attack. cbv zeta.
  apply average_ext. intros Y _. apply average_ext. intros E1 _. apply average_ext. intros E2 _.
  unfold encrypt. rewrite decode_public by exact Ht. reflexivity.
Qed.
(** and does not depend on the message *)
Definition game4 (b : bool) : Q := average (vectors (k P)) (fun t => average (vectors (k P)) (fun u => average polynomials (fun v => lwe_attack P rho choose guess b t u v))).
Lemma hop4 : game4 false == game4 true.
Proof.
  unfold game4. apply average_ext. intros t _. apply average_ext. intros u _. unfold lwe_attack. cbv zeta.
  set (F := fun v => guess (pub t) (flat_map (fun f => ByteEncode (du P) (map (Compress (Z.of_nat (du P))) f)) u ++ ByteEncode (dv P) (map (Compress (Z.of_nat (dv P))) v))).
  assert (X : forall b, average polynomials (fun v => guess (pub t) (ciphertext P u v (chosen choose b (pub t)))) == average polynomials F).
  { intros b. apply (average_perm polynomials (fun v => padd v (map (Decompress 1) (ByteDecode 1 (chosen choose b (pub t))))) F). apply shift_permutation. }
  etransitivity; [exact (X false)|symmetry; exact (X true)].
Qed.

Lemma gap_tri x y z : gap x z <= gap x y + gap y z.
Proof. unfold gap. setoid_replace (x - z) with ((x - y) + (y - z)) by ring. apply Qabs_triangle. Qed.
Lemma gap_sym x y : gap x y == gap y x.
Proof. unfold gap. rewrite <- Qabs_opp. apply Qabs_wd. ring. Qed.
Lemma gap_wd x y x' y' : x == x' -> y == y' -> gap x y == gap x' y'.
Proof. intros E1 E2. unfold gap. apply Qabs_wd. now rewrite E1, E2. Qed.

Lemma one_side b : gap (G b) (game4 b) <= loss P A rho choose guess b.
Proof.
  unfold loss. eapply Qle_trans; [apply (gap_tri _ (game1 b))|]. rewrite hop0. 
  rewrite <- !Qplus_assoc. apply Qplus_le_compat; [apply Qle_refl|].
  eapply Qle_trans; [apply (gap_tri _ (game2 b))|]. apply Qplus_le_compat.
  { unfold prf_advantage. rewrite (gap_wd _ _ _ _ (hop1 b) (Qeq_refl (game2 b))). apply Qle_refl. }
  eapply Qle_trans; [apply (gap_tri _ (average (vectors (k P)) (key_lwe_attack P A rho choose guess b)))|]. apply Qplus_le_compat.
  { unfold key_lwe_advantage. rewrite (gap_wd _ _ _ _ (hop2 b) (Qeq_refl _)). apply Qle_refl. }
  rewrite (gap_wd _ _ _ _ (hop3 b) (Qeq_refl _)). apply Qle_refl.
Qed.
Lemma hiding : gap (G false) (G true) <= loss P A rho choose guess false + loss P A rho choose guess true.
Proof.
  eapply Qle_trans; [apply (gap_tri _ (game4 false))|]. apply Qplus_le_compat; [apply one_side|].
  rewrite (gap_wd _ _ _ _ hop4 (Qeq_refl _)), gap_sym. apply one_side.
Qed.
End Steps.
