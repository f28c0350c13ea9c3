(** * Proofs about linker names *)
From Coq Require Import List String Ascii Bool.
From Verif Require Import Model_Params Model_Names Vocab_Names.
Import ListNotations.
Open Scope string_scope.

(** ** Prefixes *)

(** Two strings that differ within the length of both. *)
Fixpoint clash (p q : string) : bool :=
  match p, q with
  | String a p', String b q' => if Ascii.eqb a b then clash p' q' else true
  | _, _ => false
  end.
Lemma clash_append p : forall q s t, clash p q = true -> p ++ s <> q ++ t.
Proof.
  induction p as [|a p IH]; intros [|b q] s t C E; try discriminate C.
  cbn in C, E. injection E as E1 E2. subst b. rewrite Ascii.eqb_refl in C.
  exact (IH q s t C E2).
Qed.
Lemma append_same p : forall s t, p ++ s = p ++ t -> s = t.
Proof.
  induction p as [|a p IH]; intros s t E; [exact E|].
  cbn in E. injection E as E. exact (IH s t E).
Qed.

Lemma family_dec (F F' : family) : {F = F'} + {F <> F'}.
Proof. repeat decide equality. Defined.

Definition all_families : list family :=
  (map (KyberNames RefTree) [Kyber512; Kyber768; Kyber1024] ++
   map (KyberNames Avx2Tree) [Kyber512; Kyber768; Kyber1024] ++
   map Kyber90sNames [Kyber512; Kyber768; Kyber1024] ++
   [Fips202Names RefTree; Fips202Names Avx2Tree; Fips202x4Names])%list.
Lemma all_families_all F : In F all_families.
Proof. destruct F as [[] []|[]|[]|]; cbn; tauto. Qed.

Definition feqb (F F' : family) : bool := if family_dec F F' then true else false.
Lemma families_clash F F' : F <> F' -> clash (family_prefix F) (family_prefix F') = true.
Proof.
  assert (A : forallb (fun F => forallb (fun F' => feqb F F' ||
                clash (family_prefix F) (family_prefix F')) all_families) all_families = true)
    by (vm_compute; reflexivity).
  intros N. rewrite forallb_forall in A. specialize (A F (all_families_all F)).
  rewrite forallb_forall in A. specialize (A F' (all_families_all F')).
  unfold feqb in A. destruct (family_dec F F'); [contradiction|exact A].
Qed.

Lemma prefixes_free F F' s t :
  family_prefix F ++ s = family_prefix F' ++ t -> F = F' /\ s = t.
Proof.
  intros E. destruct (family_dec F F') as [->|N].
  - split; [reflexivity|exact (append_same _ _ _ E)].
  - elim (clash_append _ _ s t (families_clash F F' N) E).
Qed.

(** ** Symbols *)

Definition seqb (y z : symbol) : bool :=
  match y, z with
  | Kyber s, Kyber t | Fips202 s, Fips202 t | Fips202x4 s, Fips202x4 t
  | Plain s, Plain t => String.eqb s t
  | _, _ => false
  end.
Lemma seqb_eq y z : seqb y z = true <-> y = z.
Proof.
  destruct y, z; cbn; split; intros E; try discriminate E;
    try (apply String.eqb_eq in E; now subst);
    injection E as E; subst; apply String.eqb_refl.
Qed.

(** A name without a macro must not look like one with a prefix. *)
Definition clean (y : symbol) : bool :=
  match y with
  | Plain s => clash s "pqcrystals_kyber"
  | _ => true
  end.
Definition home (T : tree) (lv : level) (y : symbol) : option (family * string) :=
  match y with
  | Kyber s => Some (KyberNames T lv, s)
  | Fips202 s => Some (Fips202Names T, s)
  | Fips202x4 s => Some (Fips202x4Names, s)
  | Plain _ => None
  end.
Lemma home_name T lv y F s : home T lv y = Some (F, s) ->
  linker_name T lv y = family_prefix F ++ s.
Proof. destruct y; cbn; intros E; inversion E; reflexivity. Qed.

Lemma prefix_common F : exists t, family_prefix F = "pqcrystals_kyber" ++ t.
Proof.
  destruct F as [[] []|[]|[]|]; eexists; cbn; reflexivity.
Qed.
Lemma append_assoc p : forall s t, (p ++ s) ++ t = p ++ (s ++ t).
Proof. induction p as [|a p IH]; intros s t; cbn; [reflexivity|now rewrite IH]. Qed.

Lemma append_nil p : p ++ "" = p.
Proof. induction p as [|a p IH]; cbn; [reflexivity|now rewrite IH]. Qed.
Lemma clash_apart s : clash s "pqcrystals_kyber" = true -> forall t, s <> "pqcrystals_kyber" ++ t.
Proof. intros C t E. apply (clash_append _ _ "" t C). rewrite append_nil. exact E. Qed.
Lemma plain_apart s : clean (Plain s) = true -> forall t, s <> "pqcrystals_kyber" ++ t.
Proof. exact (clash_apart s). Qed.
Lemma home_common T lv y F s : home T lv y = Some (F, s) ->
  exists t, linker_name T lv y = "pqcrystals_kyber" ++ t.
Proof.
  intros E. rewrite (home_name _ _ _ _ _ E). destruct (prefix_common F) as [u ->].
  exists (u ++ s). apply append_assoc.
Qed.

Lemma linker_name_inj T lv y z : clean y = true -> clean z = true ->
  linker_name T lv y = linker_name T lv z -> y = z.
Proof.
  intros Cy Cz E.
  destruct (home T lv y) as [[F s]|] eqn:Hy; destruct (home T lv z) as [[F' t]|] eqn:Hz.
  - rewrite (home_name _ _ _ _ _ Hy), (home_name _ _ _ _ _ Hz) in E.
    apply prefixes_free in E. destruct E as [-> ->].
    destruct y, z; cbn in Hy, Hz; congruence.
  - destruct z; try discriminate Hz. rewrite (home_name _ _ _ _ _ Hy) in E. cbn in E.
    destruct (prefix_common F) as [u U]. rewrite U, append_assoc in E.
    elim (plain_apart s0 Cz _ (eq_sym E)).
  - destruct y; try discriminate Hy. rewrite (home_name _ _ _ _ _ Hz) in E. cbn in E.
    destruct (prefix_common F') as [u U]. rewrite U, append_assoc in E.
    elim (plain_apart s Cy _ E).
  - destruct y, z; try discriminate Hy; try discriminate Hz. cbn in E. now subst.
Qed.

(** ** Lists of symbols *)

Definition elem (y : symbol) (l : list symbol) : bool := existsb (seqb y) l.
Lemma elem_in y l : elem y l = true <-> In y l.
Proof.
  unfold elem. rewrite existsb_exists. split.
  - intros (z & Hz & E). apply seqb_eq in E. now subst.
  - intros Hy. exists y. split; [exact Hy|now apply seqb_eq].
Qed.
Fixpoint nodupb (l : list symbol) : bool :=
  match l with [] => true | y :: l' => negb (elem y l') && nodupb l' end.
Lemma nodupb_ok l : nodupb l = true -> NoDup l.
Proof.
  induction l as [|y l IH]; cbn; intros E; constructor.
  - apply andb_true_iff in E. destruct E as [E _]. intros M. apply elem_in in M.
    rewrite M in E. discriminate E.
  - apply andb_true_iff in E. apply IH, E.
Qed.
Lemma nodup_map {A B} (f : A -> B) l :
  (forall x y, In x l -> In y l -> f x = f y -> x = y) -> NoDup l -> NoDup (map f l).
Proof.
  intros I N. induction N as [|x l Hx N IH]; cbn; constructor.
  - intros M. apply in_map_iff in M. destruct M as (y & E & Hy).
    apply Hx. rewrite <- (I y x); auto with datatypes.
  - apply IH. intros a b Ha Hb. apply I; now right.
Qed.

Definition good (l : list symbol) : bool := forallb clean l && nodupb l.
Lemma good_nodup T lv l : good l = true -> NoDup (map (linker_name T lv) l).
Proof.
  unfold good. intros E. apply andb_true_iff in E. destruct E as [C N].
  rewrite forallb_forall in C. apply nodup_map; [|now apply nodupb_ok].
  intros x y Hx Hy. apply linker_name_inj; auto.
Qed.

Definition system (y : symbol) : bool :=
  match y with Plain s => existsb (String.eqb s) (c_library ++ libcrypto)%list | _ => false end.
Definition covered (refs defs : list symbol) : bool :=
  forallb (fun y => elem y defs || system y) refs.
Lemma system_in T lv y : system y = true -> In (linker_name T lv y) (c_library ++ libcrypto)%list.
Proof.
  destruct y; cbn [system]; intros E; try discriminate E.
  apply existsb_exists in E. destruct E as (t & Ht & E). apply String.eqb_eq in E.
  now subst.
Qed.
Lemma covered_in T lv refs defs s : covered refs defs = true ->
  In s (map (linker_name T lv) refs) ->
  In s (map (linker_name T lv) defs) \/ In s (c_library ++ libcrypto)%list.
Proof.
  intros C M. apply in_map_iff in M. destruct M as (y & <- & Hy).
  unfold covered in C. rewrite forallb_forall in C. specialize (C y Hy).
  apply orb_true_iff in C. destruct C as [C|C].
  - left. apply in_map, elem_in, C.
  - right. now apply system_in.
Qed.
Definition unshared (defs : list symbol) : bool := forallb (fun y => negb (system y)) defs.
Lemma unshared_out T lv defs s : unshared defs = true ->
  In s (map (linker_name T lv) defs) -> ~ In s (c_library ++ libcrypto)%list.
Proof.
  intros U M S. apply in_map_iff in M. destruct M as (y & <- & Hy).
  unfold unshared in U. rewrite forallb_forall in U. specialize (U y Hy).
  destruct (home T lv y) as [[F t]|] eqn:E.
  - assert (Cs : forallb (fun t => clash t "pqcrystals_kyber") (c_library ++ libcrypto)%list = true)
      by (vm_compute; reflexivity).
    rewrite forallb_forall in Cs. specialize (Cs _ S).
    destruct (home_common _ _ _ _ _ E) as [u Hu]. exact (clash_apart _ Cs u Hu).
  - destruct y as [t|t|t|t]; try discriminate E.
    cbn [linker_name] in S. cbn [system] in U. apply negb_true_iff in U.
    assert (X : existsb (String.eqb t) (c_library ++ libcrypto)%list = true)
      by (apply existsb_exists; exists t; split; [exact S|apply String.eqb_refl]).
    rewrite X in U. discriminate U.
Qed.

(** ** The programs *)

Lemma program_good T lv p : good (flat_map defines (program_files T lv p)) = true.
Proof. destruct T, lv, p; vm_compute; reflexivity. Qed.
Lemma program_covered T lv p : covered (flat_map refers (program_files T lv p))
                                       (flat_map defines (program_files T lv p)) = true.
Proof. destruct T, lv, p; vm_compute; reflexivity. Qed.
Lemma program_unshared T lv p : unshared (flat_map defines (program_files T lv p)) = true.
Proof. destruct T, lv, p; vm_compute; reflexivity. Qed.

Lemma program_one_definition T lv p : NoDup (names_defined T lv (program_files T lv p)).
Proof. apply good_nodup, program_good. Qed.
Lemma program_resolves T lv p s : In s (names_referred T lv (program_files T lv p)) ->
  In s (names_defined T lv (program_files T lv p)) \/ In s (c_library ++ libcrypto)%list.
Proof. apply covered_in, program_covered. Qed.
Lemma program_no_override T lv p s : In s (names_defined T lv (program_files T lv p)) ->
  ~ In s (c_library ++ libcrypto)%list.
Proof. apply unshared_out, program_unshared. Qed.

(** ** The libraries *)

Definition library_family (T : tree) (b : library) : family :=
  match b with
  | Lib_kyber lv => KyberNames T lv
  | Lib_fips202 => Fips202Names T
  | Lib_fips202x4 => Fips202x4Names
  end.
Definition in_family (b : library) (y : symbol) : bool :=
  match b, y with
  | Lib_kyber _, Kyber _ | Lib_fips202, Fips202 _ | Lib_fips202x4, Fips202x4 _ => true
  | _, _ => false
  end.
Lemma library_in_family T b :
  forallb (in_family b) (flat_map defines (library_files T b)) = true.
Proof. destruct T, b as [[]| |]; vm_compute; reflexivity. Qed.
Lemma library_good T b : good (flat_map defines (library_files T b)) = true.
Proof. destruct T, b as [[]| |]; vm_compute; reflexivity. Qed.
Lemma library_one_definition T b : NoDup (library_defined T b).
Proof. apply good_nodup, library_good. Qed.

Lemma library_name T b s : In s (library_defined T b) ->
  exists t, s = family_prefix (library_family T b) ++ t.
Proof.
  intros M. apply in_map_iff in M. destruct M as (y & <- & Hy).
  pose proof (library_in_family T b) as A. rewrite forallb_forall in A. specialize (A y Hy).
  destruct b, y; try discriminate A; eexists; reflexivity.
Qed.
Lemma library_common T b s : In s (library_defined T b) ->
  exists t, s = "pqcrystals_kyber" ++ t.
Proof.
  intros M. destruct (library_name T b s M) as [t ->].
  destruct (prefix_common (library_family T b)) as [u ->]. eexists. apply append_assoc.
Qed.

Lemma libraries_apart T b T' b' s : (T, b) <> (T', b') ->
  In s (library_defined T b) -> ~ In s (library_defined T' b').
Proof.
  intros N M M'.
  destruct (library_name T b s M) as [t E]. destruct (library_name T' b' s M') as [t' E'].
  rewrite E in E'. apply prefixes_free in E'. destruct E' as [E' _]. apply N.
  destruct b, b'; cbn in E'; try discriminate E'; try (injection E'; intros; subst; reflexivity).
  destruct T, T'; try reflexivity; [destruct M|destruct M'].
Qed.

Definition needed (T : tree) (b : library) (y : symbol) : bool :=
  elem y (flat_map defines (library_files T b)) ||
  match b, y with
  | Lib_kyber _, Fips202 _ => elem y (flat_map defines (library_files T Lib_fips202))
  | Lib_kyber _, Fips202x4 _ => elem y (flat_map defines (library_files T Lib_fips202x4))
  | Lib_kyber _, Plain s => String.eqb s "randombytes" || existsb (String.eqb s) c_library
  | _, Plain s => existsb (String.eqb s) c_library
  | _, _ => false
  end.
Lemma library_needed T b :
  forallb (needed T b) (flat_map refers (library_files T b)) = true.
Proof. destruct T, b as [[]| |]; vm_compute; reflexivity. Qed.

Lemma elem_defined T lv fs y : elem y (flat_map defines fs) = true ->
  In (linker_name T lv y) (names_defined T lv fs).
Proof. intros E. apply in_map, elem_in, E. Qed.
Lemma string_in s l : existsb (String.eqb s) l = true -> In s l.
Proof.
  intros E. apply existsb_exists in E. destruct E as (t & Ht & E).
  apply String.eqb_eq in E. now subst.
Qed.

Lemma kyber_library_needs T lv s : In s (library_referred T (Lib_kyber lv)) ->
  In s (library_defined T (Lib_kyber lv)) \/ In s (library_defined T Lib_fips202) \/
  In s (library_defined T Lib_fips202x4) \/ In s c_library \/ s = "randombytes".
Proof.
  intros M. apply in_map_iff in M. destruct M as (y & <- & Hy).
  pose proof (library_needed T (Lib_kyber lv)) as A. rewrite forallb_forall in A.
  specialize (A y Hy). unfold needed in A. apply orb_true_iff in A. destruct A as [A|A].
  - left. apply elem_defined, A.
  - destruct y as [t|t|t|t]; try discriminate A.
    + right; left. exact (elem_defined T Kyber512 _ _ A).
    + right; right; left. exact (elem_defined T Kyber512 _ _ A).
    + apply orb_true_iff in A. destruct A as [A|A].
      * apply String.eqb_eq in A. cbn. tauto.
      * apply string_in in A. cbn [linker_name]. tauto.
Qed.
Lemma keccak_library_needs T b s : b = Lib_fips202 \/ b = Lib_fips202x4 ->
  In s (library_referred T b) -> In s (library_defined T b) \/ In s c_library.
Proof.
  intros B M. apply in_map_iff in M. destruct M as (y & <- & Hy).
  pose proof (library_needed T b) as A. rewrite forallb_forall in A.
  specialize (A y Hy). unfold needed in A. apply orb_true_iff in A. destruct A as [A|A].
  - left. apply elem_defined, A.
  - destruct B as [-> | ->], y as [t|t|t|t]; try discriminate A; right; now apply string_in.
Qed.

(** ** api.h *)
Lemma api_exact T lv : api_names T lv = names_defined T lv [kem_file T lv].
Proof. destruct T, lv; vm_compute; reflexivity. Qed.
Lemma api_exported T lv s : In s (api_names T lv) -> In s (library_defined T (Lib_kyber lv)).
Proof.
  rewrite api_exact. intros M. unfold library_defined, names_defined in *.
  apply in_map_iff in M. destruct M as (y & <- & Hy). apply in_map.
  apply in_flat_map in Hy. destruct Hy as (f & [<-|[]] & Hy).
  apply in_flat_map. exists (kem_file T lv). split; [|exact Hy].
  destruct T; cbn; now left.
Qed.

(** ** What the headers declare *)
Definition declared_ok (T : tree) (lv : level) (m : string * symbol) : bool :=
  elem (snd m) (flat_map defines (sources_keccak T lv)) ||
  match T with
  | RefTree => false
  | Avx2Tree =>
      String.eqb (fst m) "nttpack_avx" || String.eqb (fst m) "cmov_int16" ||
      (String.eqb (fst m) "poly_getnoise_eta1122_4x" &&
       match lv with Kyber512 => false | _ => true end)
  end.
Lemma declared_all T lv : forallb (declared_ok T lv) (macros T) = true.
Proof. destruct T, lv; vm_compute; reflexivity. Qed.
Lemma declared_ref lv c y : In (c, y) ref_macros ->
  In (linker_name RefTree lv y) (names_defined RefTree lv (sources_keccak RefTree lv)).
Proof.
  intros M. pose proof (declared_all RefTree lv) as A. rewrite forallb_forall in A.
  specialize (A _ M). unfold declared_ok in A. rewrite orb_false_r in A.
  exact (elem_defined RefTree lv _ _ A).
Qed.
Lemma declared_avx2 lv c y : In (c, y) avx2_macros ->
  In (linker_name Avx2Tree lv y) (names_defined Avx2Tree lv (sources_keccak Avx2Tree lv)) \/
  c = "nttpack_avx" \/ c = "cmov_int16" \/
  (c = "poly_getnoise_eta1122_4x" /\ lv <> Kyber512).
Proof.
  intros M. pose proof (declared_all Avx2Tree lv) as A. rewrite forallb_forall in A.
  specialize (A _ M). unfold declared_ok in A. cbn [fst snd] in A.
  apply orb_true_iff in A. destruct A as [A|A].
  - left. exact (elem_defined Avx2Tree lv _ _ A).
  - right. apply orb_true_iff in A. destruct A as [A|A].
    + apply orb_true_iff in A. destruct A as [A|A]; apply String.eqb_eq in A; tauto.
    + apply andb_true_iff in A. destruct A as [A B]. apply String.eqb_eq in A.
      right; right. split; [exact A|]. intros ->. discriminate B.
Qed.
Definition missing (s : string) (l : list string) : bool := negb (existsb (String.eqb s) l).
Lemma missing_out s l : missing s l = true -> ~ In s l.
Proof.
  unfold missing. intros E M. apply negb_true_iff in E.
  assert (X : existsb (String.eqb s) l = true)
    by (apply existsb_exists; exists s; split; [exact M|apply String.eqb_refl]).
  rewrite X in E. discriminate E.
Qed.
Lemma declared_missing : exists c y, In (c, y) avx2_macros /\
  forall lv, ~ In (linker_name Avx2Tree lv y)
                  (names_defined Avx2Tree lv (sources_keccak Avx2Tree lv)).
Proof.
  exists "nttpack_avx", (Kyber "nttpack_avx"). split.
  - assert (X : existsb (fun m => String.eqb (fst m) "nttpack_avx" &&
                                  seqb (snd m) (Kyber "nttpack_avx")) avx2_macros = true)
      by (vm_compute; reflexivity).
    apply existsb_exists in X. destruct X as ((c & y) & M & E). cbn [fst snd] in E.
    apply andb_true_iff in E. destruct E as [E1 E2].
    apply String.eqb_eq in E1. apply seqb_eq in E2. subst. exact M.
  - intros lv. apply missing_out. destruct lv; vm_compute; reflexivity.
Qed.

(** ** The case beside the theorems *)
Lemma names_case :
  expand Avx2Tree "poly_getnoise_eta1_4x" = Kyber "poly_getnoise_eta2_4x" /\
  In "pqcrystals_kyber768_avx2_poly_getnoise_eta2_4x" (library_referred Avx2Tree (Lib_kyber Kyber768)) /\
  In "pqcrystals_kyber768_avx2_poly_getnoise_eta2_4x" (library_defined Avx2Tree (Lib_kyber Kyber768)) /\
  In "pqcrystals_kyber_fips202_ref_sha3_256" (library_referred RefTree (Lib_kyber Kyber512)) /\
  In "pqcrystals_kyber_fips202_ref_sha3_256" (library_defined RefTree Lib_fips202) /\
  In "randombytes" (library_referred RefTree (Lib_kyber Kyber512)) /\
  In "randombytes" (names_defined RefTree Kyber512 (program_files RefTree Kyber512 PQCgenKAT)) /\
  In "EVP_aes_256_ecb" (names_referred RefTree Kyber512 (program_files RefTree Kyber512 PQCgenKAT)) /\
  List.length (library_defined RefTree (Lib_kyber Kyber512)) = 47%nat.
Proof.
  repeat split; try (vm_compute; reflexivity);
    (apply string_in; vm_compute; reflexivity).
Qed.
