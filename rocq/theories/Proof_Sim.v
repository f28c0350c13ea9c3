(** * A run on longer buffers repeats the run on the given ones

    [sim R m m']: [m'] does what [m] does, with related values, unless [m]
    leaves an array. *)
From Coq Require Import ZArith List Lia Bool.
From Verif Require Import CMonad Levels Model_Params Model_Reduce Model_Verify Model_NTT Model_Poly Model_Polyvec Model_Fips202
  Model_CBD Model_Symmetric Model_Indcpa Model_Kem.
Import ListNotations.
Open Scope Z_scope.
Open Scope cmonad_scope.

Definition sim {A B} (R : A -> B -> Prop) (m : res A) (m' : res B) : Prop :=
  match m with
  | Ok v T => exists v', m' = Ok v' T /\ R v v'
  | UB u => u = OutOfBounds \/ m' = UB u
  | Timeout => m' = Timeout
  | Abort => m' = Abort
  end.
(** The second array is the first one followed by [t] *)
Definition ext (t x y : list Z) : Prop := y = x ++ t.

Lemma sim_refl {A} (m : res A) : sim eq m m.
Proof. destruct m; cbn; eauto. Qed.
Lemma sim_ret {A B} (R : A -> B -> Prop) v v' : R v v' -> sim R (ret v) (ret v').
Proof. intros Hv. exists v'. auto. Qed.
Lemma sim_conseq {A B} (R R' : A -> B -> Prop) m m' : sim R m m' -> (forall v v', R v v' -> R' v v') -> sim R' m m'.
Proof. destruct m; cbn; auto. intros (v' & E & Hv) HR. eauto. Qed.
Lemma sim_bind {A A' B B'} (R : A -> A' -> Prop) (S : B -> B' -> Prop) m m' f f' :
  sim R m m' -> (forall v v', R v v' -> sim S (f v) (f' v')) -> sim S (bind m f) (bind m' f').
Proof.
  destruct m as [v T|u| |]; cbn [sim bind].
  - intros (v' & -> & Hv) Hf. cbn [bind]. specialize (Hf v v' Hv). revert Hf.
    destruct (f v) as [w T'|u| |]; cbn [sim].
    + intros (w' & -> & Hw). eauto.
    + intros [->| ->]; auto.
    + now intros ->.
    + now intros ->.
  - intros [->| ->] _; cbn; auto.
  - intros -> _. reflexivity.
  - intros -> _. reflexivity.
Qed.
Lemma sim_same {A B B'} (S : B -> B' -> Prop) (m : res A) f f' :
  (forall v, sim S (f v) (f' v)) -> sim S (bind m f) (bind m f').
Proof. intros Hf. eapply sim_bind; [apply sim_refl|]. intros v ? <-. apply Hf. Qed.
Lemma sim_aget t (x : list Z) i : sim eq (aget x i) (aget (x ++ t) i).
Proof.
  unfold aget. destruct (nth_error x i) eqn:E; cbn; auto.
  rewrite nth_error_app1 by (apply nth_error_Some; congruence). rewrite E. eauto.
Qed.
Lemma upd_app {A} (x t : list A) i v : (i < length x)%nat -> upd (x ++ t) i v = upd x i v ++ t.
Proof. revert i. induction x as [|y x IH]; intros [|i] Hi; cbn in *; try lia; auto. now rewrite IH by lia. Qed.
Lemma sim_aset t (x : list Z) i v : sim (ext t) (aset x i v) (aset (x ++ t) i v).
Proof.
  unfold aset. destruct (Nat.ltb_spec i (length x)) as [L|L]; cbn [sim]; auto.
  destruct (Nat.ltb_spec i (length (x ++ t))) as [L'|L']; [|rewrite app_length in L'; lia].
  eexists. split; [reflexivity|]. now apply upd_app.
Qed.
Lemma sim_for {S S'} (R : S -> S' -> Prop) n body body' :
  (forall i s s', R s s' -> sim R (body i s) (body' i s')) ->
  forall lo s s', R s s' -> sim R (for_ n lo body s) (for_ n lo body' s').
Proof.
  intros HB. induction n as [|n IH]; intros lo s s' Hs; cbn [for_].
  - apply sim_same. intros _. now apply sim_ret.
  - apply sim_same. intros _. eapply sim_bind; [apply HB, Hs|]. intros v v' Hv. now apply IH.
Qed.
Lemma sim_while {S S'} (R : S -> S' -> Prop) cond cond' body body' :
  (forall s s', R s s' -> sim eq (cond s) (cond' s')) ->
  (forall s s', R s s' -> sim R (body s) (body' s')) ->
  forall n s s', R s s' -> sim R (while_ n cond body s) (while_ n cond' body' s').
Proof.
  intros HC HB. induction n as [|n IH]; intros s s' Hs; cbn [while_]; [reflexivity|].
  eapply sim_bind; [apply HC, Hs|]. intros b ? <-. destruct b; [|now apply sim_ret].
  eapply sim_bind; [apply HB, Hs|]. intros v v' Hv. now apply IH.
Qed.

(** Steps that read an array of which the second run has a longer copy *)
Ltac sstep :=
  lazymatch goal with
  | |- sim _ (bind ?m _) (bind ?m _) => apply sim_same; intro
  | |- sim _ (bind (aget _ _) _) (bind (aget (_ ++ _) _) _) => eapply sim_bind; [apply sim_aget|intros ? ? <-]
  | |- sim _ (bind (aset _ _ _) _) (bind (aset (_ ++ _) _ _) _) => eapply sim_bind; [apply sim_aset|intros ? ? ->]
  | |- sim (ext _) (aset _ _ _) (aset (_ ++ _) _ _) => apply sim_aset
  | |- sim eq (aget _ _) (aget (_ ++ _) _) => apply sim_aget
  | |- sim eq ?m ?m => apply sim_refl
  | |- sim _ (ret _) (ret _) => apply sim_ret; try reflexivity
  end.
Ltac ssteps := repeat (cbv zeta; sstep).

(** ** Readers *)
Lemma memcpy_sim t u d o x p n : sim (ext t) (memcpy d o x p n) (memcpy (d ++ t) o (x ++ u) p n).
Proof. unfold memcpy. apply sim_for; [|reflexivity]. intros i s ? ->. ssteps. Qed.
Lemma memcpy_sim_src u d o x p n : sim eq (memcpy d o x p n) (memcpy d o (x ++ u) p n).
Proof. unfold memcpy. apply sim_for; [|reflexivity]. intros i s ? <-. ssteps. Qed.
Lemma memcpy_sim_dst t d o x p n : sim (ext t) (memcpy d o x p n) (memcpy (d ++ t) o x p n).
Proof. unfold memcpy. apply sim_for; [|reflexivity]. intros i s ? ->. ssteps. Qed.
Lemma load64_sim t x o : sim eq (load64 x o) (load64 (x ++ t) o).
Proof. unfold load64. apply sim_for; [|reflexivity]. intros i s ? <-. ssteps. Qed.
Lemma store64_sim t x o u : sim (ext t) (store64 x o u) (store64 (x ++ t) o u).
Proof. unfold store64. apply sim_for; [|reflexivity]. intros i s ? ->. ssteps. Qed.

Lemma absorb_once_sim t s r x o n p : sim eq (keccak_absorb_once s r x o n p) (keccak_absorb_once s r (x ++ t) o n p).
Proof.
  unfold keccak_absorb_once. sstep. eapply sim_bind.
  - apply (sim_while eq); [| |reflexivity].
    + intros s1 ? <-. apply sim_refl.
    + intros [[s1 o1] n1] ? <-. eapply sim_bind.
      * apply (sim_for eq); [|reflexivity]. intros i s2 ? <-. sstep. eapply sim_bind; [apply load64_sim|]. intros w ? <-. ssteps.
      * intros s2 ? <-. ssteps.
  - intros [[s1 o1] n1] ? <-. eapply sim_bind.
    + apply (sim_for eq); [|reflexivity]. intros i s2 ? <-. ssteps.
    + intros s2 ? <-. ssteps.
Qed.
Lemma absorb_sim t s pos r x o n : sim eq (keccak_absorb s pos r x o n) (keccak_absorb s pos r (x ++ t) o n).
Proof.
  unfold keccak_absorb. eapply sim_bind.
  - apply (sim_while eq); [| |reflexivity].
    + intros s1 ? <-. apply sim_refl.
    + intros [[[s1 p1] o1] n1] ? <-. eapply sim_bind.
      * apply (sim_for eq); [|reflexivity]. intros i s2 ? <-. ssteps.
      * intros s2 ? <-. ssteps.
  - intros [[[s1 p1] o1] n1] ? <-. eapply sim_bind.
    + apply (sim_for eq); [|reflexivity]. intros i s2 ? <-. ssteps.
    + intros s2 ? <-. ssteps.
Qed.
Lemma sha3_256_sim {JJ : Junk} t u h ho x o n : sim (ext t) (sha3_256 h ho x o n) (sha3_256 (h ++ t) ho (x ++ u) o n).
Proof.
  unfold sha3_256. eapply sim_bind; [apply absorb_once_sim|]. intros s ? <-. sstep.
  apply sim_for; [|reflexivity]. intros i s1 ? ->. sstep. apply store64_sim.
Qed.
Lemma sha3_256_sim_in {JJ : Junk} u h ho x o n : sim eq (sha3_256 h ho x o n) (sha3_256 h ho (x ++ u) o n).
Proof. unfold sha3_256. eapply sim_bind; [apply absorb_once_sim|]. intros s ? <-. sstep. apply sim_refl. Qed.
Lemma sha3_256_sim_out {JJ : Junk} t h ho x o n : sim (ext t) (sha3_256 h ho x o n) (sha3_256 (h ++ t) ho x o n).
Proof.
  unfold sha3_256. sstep. sstep.
  apply sim_for; [|reflexivity]. intros i s1 ? ->. sstep. apply store64_sim.
Qed.

Lemma poly_tobytes_sim t r o a : sim (ext t) (poly_tobytes r o a) (poly_tobytes (r ++ t) o a).
Proof. unfold poly_tobytes. apply sim_for; [|reflexivity]. intros i s ? ->. ssteps. Qed.
Lemma polyvec_tobytes_sim t lv r o a : sim (ext t) (polyvec_tobytes lv r o a) (polyvec_tobytes lv (r ++ t) o a).
Proof. unfold polyvec_tobytes. apply sim_for; [|reflexivity]. intros i s ? ->. sstep. apply poly_tobytes_sim. Qed.
Lemma poly_frombytes_sim t r a o : sim eq (poly_frombytes r a o) (poly_frombytes r (a ++ t) o).
Proof. unfold poly_frombytes. apply sim_for; [|reflexivity]. intros i s ? <-. ssteps. Qed.
Lemma polyvec_frombytes_sim t lv r a o : sim eq (polyvec_frombytes lv r a o) (polyvec_frombytes lv r (a ++ t) o).
Proof.
  unfold polyvec_frombytes. apply sim_for; [|reflexivity]. intros i s ? <-. sstep.
  eapply sim_bind; [apply poly_frombytes_sim|]. intros w ? <-. apply sim_refl.
Qed.

Definition ext1 {A} (t : list Z) (p p' : list Z * A) : Prop := ext t (fst p) (fst p') /\ snd p = snd p'.
Ltac split1 := match goal with |- forall i s s', ext1 _ s s' -> _ => intros i [? ?] [? ?] [HE1 HE2]; unfold ext in HE1; cbn [fst snd] in HE1, HE2; subst; cbn [fst snd] end.
Ltac fin1 := ssteps; try (split; reflexivity).

Lemma compress_128_sim {JJ : Junk} t r o a : sim (ext t) (poly_compress_128 r o a) (poly_compress_128 (r ++ t) o a).
Proof.
  unfold poly_compress_128. eapply sim_bind.
  - apply (sim_for (ext1 t)); [|split; reflexivity]. split1. fin1.
  - intros [v l] [v' l'] [E _]. apply sim_ret, E.
Qed.
Lemma compress_160_sim {JJ : Junk} t r o a : sim (ext t) (poly_compress_160 r o a) (poly_compress_160 (r ++ t) o a).
Proof.
  unfold poly_compress_160. eapply sim_bind.
  - apply (sim_for (ext1 t)); [|split; reflexivity]. split1. fin1.
  - intros [v l] [v' l'] [E _]. apply sim_ret, E.
Qed.
Lemma poly_compress_sim {JJ : Junk} t lv r o a : sim (ext t) (poly_compress lv r o a) (poly_compress lv (r ++ t) o a).
Proof. destruct lv; [apply compress_128_sim|apply compress_128_sim|apply compress_160_sim]. Qed.
Lemma compress_352_sim t r o a l : sim (ext1 t) (polyvec_compress_352_poly r o a l) (polyvec_compress_352_poly (r ++ t) o a l).
Proof. unfold polyvec_compress_352_poly. apply (sim_for (ext1 t)); [|split; reflexivity]. split1. fin1. Qed.
Lemma compress_320_sim t r o a l : sim (ext1 t) (polyvec_compress_320_poly r o a l) (polyvec_compress_320_poly (r ++ t) o a l).
Proof. unfold polyvec_compress_320_poly. apply (sim_for (ext1 t)); [|split; reflexivity]. split1. fin1. Qed.
Lemma polyvec_compress_sim {JJ : Junk} t lv r o a : sim (ext t) (polyvec_compress lv r o a) (polyvec_compress lv (r ++ t) o a).
Proof.
  destruct lv; unfold polyvec_compress; (eapply sim_bind;
  [apply (sim_for (ext1 t)); [|split; reflexivity]; split1; sstep|intros [v l] [v' l'] [E _]; apply sim_ret, E]).
  - apply compress_320_sim.
  - apply compress_320_sim.
  - apply compress_352_sim.
Qed.
Lemma decompress_128_sim t r a o : sim eq (poly_decompress_128 r a o) (poly_decompress_128 r (a ++ t) o).
Proof. unfold poly_decompress_128. apply sim_for; [|reflexivity]. intros i s ? <-. ssteps. Qed.
Lemma decompress_160_sim {JJ : Junk} t r a o : sim eq (poly_decompress_160 r a o) (poly_decompress_160 r (a ++ t) o).
Proof.
  unfold poly_decompress_160. eapply sim_bind.
  - apply (sim_for eq); [|reflexivity]. intros i [s l] ? <-. ssteps.
  - intros v ? <-. apply sim_refl.
Qed.
Lemma poly_decompress_sim {JJ : Junk} t lv r a o : sim eq (poly_decompress lv r a o) (poly_decompress lv r (a ++ t) o).
Proof. destruct lv; [apply decompress_128_sim|apply decompress_128_sim|apply decompress_160_sim]. Qed.
Lemma decompress_352_sim t r a o l : sim eq (polyvec_decompress_352_poly r a o l) (polyvec_decompress_352_poly r (a ++ t) o l).
Proof. unfold polyvec_decompress_352_poly. apply (sim_for eq); [|reflexivity]. intros i [s l'] ? <-. ssteps. Qed.
Lemma decompress_320_sim t r a o l : sim eq (polyvec_decompress_320_poly r a o l) (polyvec_decompress_320_poly r (a ++ t) o l).
Proof. unfold polyvec_decompress_320_poly. apply (sim_for eq); [|reflexivity]. intros i [s l'] ? <-. ssteps. Qed.
Lemma polyvec_decompress_sim {JJ : Junk} t lv r a o : sim eq (polyvec_decompress lv r a o) (polyvec_decompress lv r (a ++ t) o).
Proof.
  destruct lv; unfold polyvec_decompress; (eapply sim_bind;
  [apply (sim_for eq); [|reflexivity]; intros i [s l] ? <-; sstep; eapply sim_bind
  |intros v ? <-; apply sim_refl]).
  - apply decompress_320_sim.
  - intros [s1 l1] ? <-; ssteps.
  - apply decompress_320_sim.
  - intros [s1 l1] ? <-; ssteps.
  - apply decompress_352_sim.
  - intros [s1 l1] ? <-; ssteps.
Qed.
Lemma verify_sim t a o b p n : sim eq (verify a o b p n) (verify (a ++ t) o b p n).
Proof.
  unfold verify. eapply sim_bind; [apply (sim_for eq); [|reflexivity]|].
  - intros i s ? <-. ssteps.
  - intros v ? <-. apply sim_refl.
Qed.
Lemma cmov_sim t r o x p n b : sim (ext t) (cmov r o x p n b) (cmov (r ++ t) o x p n b).
Proof. unfold cmov. sstep. cbv zeta. apply sim_for; [|reflexivity]. intros i s ? ->. ssteps. Qed.

Definition ext2 {A B} (t : list Z) (p p' : list Z * A * B) : Prop := ext1 t (fst p) (fst p') /\ snd p = snd p'.
Lemma squeeze_sim t out o n s pos r :
  sim (fun p p' : list Z * list Z * nat => ext2 t p p') (keccak_squeeze out o n s pos r) (keccak_squeeze (out ++ t) o n s pos r).
Proof.
  unfold keccak_squeeze. eapply sim_bind.
  - apply (sim_while (fun p p' : list Z * nat * nat * list Z * nat =>
      let '(a, b, c, d, e) := p in p' = (a ++ t, b, c, d, e))); [| |reflexivity].
    + intros [[[[a b] c] d] e] ? ->. apply sim_refl.
    + intros [[[[a b] c] d] e] ? ->. sstep. sstep. destruct v0 as [s1 p1]. eapply sim_bind.
      * apply (sim_while (fun p p' : nat * list Z => let '(i, a) := p in p' = (i, a ++ t))); [| |reflexivity].
        -- intros [i a1] ? ->. apply sim_refl.
        -- intros [i a1] ? ->. ssteps.
      * intros [i a1] ? ->. ssteps.
  - intros [[[[a b] c] d] e] ? ->. apply sim_ret. repeat split.
Qed.
Lemma rkprf_sim {JJ : Junk} t u w lv out o key ko inp io :
  sim (ext t) (kyber_shake256_rkprf lv out o key ko inp io) (kyber_shake256_rkprf lv (out ++ t) o (key ++ u) ko (inp ++ w) io).
Proof.
  unfold kyber_shake256_rkprf. sstep. rename v into s0.
  assert (HA : forall s x v off n, sim eq (shake256_absorb s x off n) (shake256_absorb s (x ++ v) off n)).
  { intros s x v off n. unfold shake256_absorb, shake_absorb. eapply sim_bind; [apply absorb_sim|]. intros [a b] ? <-. apply sim_refl. }
  eapply sim_bind; [apply HA|]. intros s1 ? <-.
  eapply sim_bind; [apply HA|]. intros s2 ? <-. sstep. eapply sim_bind.
  - unfold shake256_squeeze, shake_squeeze. eapply sim_bind; [apply squeeze_sim|].
    intros [[a b] c] [[a' b'] c'] [[E1 E2] E3]. cbn [fst snd] in *. subst. unfold ext in E1. subst.
    apply sim_ret. instantiate (1 := ext1 t). split; reflexivity.
  - intros [a b] [a' b'] [E _]. apply sim_ret, E.
Qed.

(** ** indcpa.c and kem.c *)
Section WithJunk.
Context {JJ : Junk}.

Lemma pack_pk_sim t lv r o pk seed so : sim (ext t) (pack_pk lv r o pk seed so) (pack_pk lv (r ++ t) o pk seed so).
Proof. unfold pack_pk. eapply sim_bind; [apply polyvec_tobytes_sim|]. intros v ? ->. apply memcpy_sim_dst. Qed.
Lemma unpack_pk_sim t lv pk seed x o : sim eq (unpack_pk lv pk seed x o) (unpack_pk lv pk seed (x ++ t) o).
Proof.
  unfold unpack_pk. eapply sim_bind; [apply polyvec_frombytes_sim|]. intros v ? <-.
  eapply sim_bind; [apply memcpy_sim_src|]. intros s ? <-. apply sim_refl.
Qed.
Lemma pack_ciphertext_sim t lv r o b v : sim (ext t) (pack_ciphertext lv r o b v) (pack_ciphertext lv (r ++ t) o b v).
Proof. unfold pack_ciphertext. eapply sim_bind; [apply polyvec_compress_sim|]. intros w ? ->. apply poly_compress_sim. Qed.
Lemma unpack_ciphertext_sim t lv b v c o : sim eq (unpack_ciphertext lv b v c o) (unpack_ciphertext lv b v (c ++ t) o).
Proof.
  unfold unpack_ciphertext. eapply sim_bind; [apply polyvec_decompress_sim|]. intros w ? <-.
  eapply sim_bind; [apply poly_decompress_sim|]. intros s ? <-. apply sim_refl.
Qed.

Lemma keypair_sim t1 t2 t3 lv fuel pk sk coins :
  sim (fun p p' : list Z * list Z * Z => ext t1 (fst (fst p)) (fst (fst p')) /\ ext t2 (snd (fst p)) (snd (fst p')) /\ snd p = snd p')
    (crypto_kem_keypair_derand lv fuel pk sk coins) (crypto_kem_keypair_derand lv fuel (pk ++ t1) (sk ++ t2) (coins ++ t3)).
Proof.
  unfold crypto_kem_keypair_derand. eapply sim_bind.
  - unfold indcpa_keypair_derand. cbv zeta. eapply sim_bind; [apply memcpy_sim_src|]. intros b ? <-.
    do 3 sstep. sstep. destruct v2 as [a1 a2]. sstep. destruct v2 as [a3 a4]. do 5 sstep.
    eapply sim_bind; [apply polyvec_tobytes_sim|]. intros s ? ->.
    eapply sim_bind; [apply pack_pk_sim|]. intros p ? ->. apply sim_ret.
    instantiate (1 := fun p p' : list Z * list Z => ext t1 (fst p) (fst p') /\ ext t2 (snd p) (snd p')). split; reflexivity.
  - intros [a b] [a' b'] [E1 E2]. cbn [fst snd] in *. unfold ext in E1, E2. subst.
    eapply sim_bind; [apply memcpy_sim|]. intros s1 ? ->.
    eapply sim_bind; [apply sha3_256_sim|]. intros s2 ? ->.
    eapply sim_bind; [apply memcpy_sim|]. intros s3 ? ->. apply sim_ret. repeat split.
Qed.
Lemma indcpa_enc_sim t u lv fuel c co m mo pk po r ro :
  sim (ext t) (indcpa_enc lv fuel c co m mo pk po r ro) (indcpa_enc lv fuel (c ++ t) co m mo (pk ++ u) po r ro).
Proof.
  unfold indcpa_enc. cbv zeta. eapply sim_bind; [apply unpack_pk_sim|]. intros [a b] ? <-.
  do 2 sstep. sstep. destruct v1 as [a1 a2]. sstep. destruct v1 as [a3 a4]. do 11 sstep. apply pack_ciphertext_sim.
Qed.
Lemma enc_sim t1 t2 t3 t4 lv fuel ct ss pk coins :
  sim (fun p p' : list Z * list Z * Z => ext t1 (fst (fst p)) (fst (fst p')) /\ ext t2 (snd (fst p)) (snd (fst p')) /\ snd p = snd p')
    (crypto_kem_enc_derand lv fuel ct ss pk coins) (crypto_kem_enc_derand lv fuel (ct ++ t1) (ss ++ t2) (pk ++ t3) (coins ++ t4)).
Proof.
  unfold crypto_kem_enc_derand. cbv zeta. eapply sim_bind; [apply memcpy_sim_src|]. intros b ? <-.
  eapply sim_bind; [apply sha3_256_sim_in|]. intros b1 ? <-. sstep.
  eapply sim_bind; [apply indcpa_enc_sim|]. intros c ? ->.
  eapply sim_bind; [apply memcpy_sim_dst|]. intros s ? ->. apply sim_ret. repeat split.
Qed.
Lemma indcpa_dec_sim t u lv m mo c co sk so :
  sim eq (indcpa_dec lv m mo c co sk so) (indcpa_dec lv m mo (c ++ t) co (sk ++ u) so).
Proof.
  unfold indcpa_dec. cbv zeta. eapply sim_bind; [apply unpack_ciphertext_sim|]. intros [a b] ? <-.
  eapply sim_bind; [apply polyvec_frombytes_sim|]. intros s ? <-. apply sim_refl.
Qed.
Lemma indcpa_enc_sim_pk u lv fuel c co m mo pk po r ro :
  sim eq (indcpa_enc lv fuel c co m mo pk po r ro) (indcpa_enc lv fuel c co m mo (pk ++ u) po r ro).
Proof.
  unfold indcpa_enc. cbv zeta. eapply sim_bind; [apply unpack_pk_sim|]. intros [a b] ? <-. apply sim_refl.
Qed.
Lemma dec_sim t1 t2 t3 lv fuel ss ct sk :
  sim (ext1 t1) (crypto_kem_dec lv fuel ss ct sk) (crypto_kem_dec lv fuel (ss ++ t1) (ct ++ t2) (sk ++ t3)).
Proof.
  unfold crypto_kem_dec. cbv zeta. eapply sim_bind; [apply indcpa_dec_sim|]. intros b ? <-.
  eapply sim_bind; [apply memcpy_sim_src|]. intros b1 ? <-. sstep.
  eapply sim_bind; [apply indcpa_enc_sim_pk|]. intros c ? <-.
  eapply sim_bind; [apply verify_sim|]. intros f ? <-.
  eapply sim_bind; [apply rkprf_sim|]. intros s ? ->.
  eapply sim_bind; [apply cmov_sim|]. intros s1 ? ->. apply sim_ret. split; reflexivity.
Qed.
End WithJunk.
