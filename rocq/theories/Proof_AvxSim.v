(** * A run of the AVX2 code on longer buffers repeats the run on the given ones *)
From Coq Require Import ZArith List Lia Bool.
From Verif Require Import CMonad Levels Model_Params Model_Fips202 Model_Symmetric Model_Polyvec
  Model_AvxIntrin Model_AvxAsm Model_AvxCode Model_AvxC Model_AvxPolyvec Model_AvxIndcpa Model_AvxKem Proof_Sim.
Import ListNotations.
Open Scope Z_scope.
Open Scope cmonad_scope.

(** ** Memory *)
Lemma window_app (x t : list Z) o n : (o + n <= length x)%nat -> firstn n (skipn o (x ++ t)) = firstn n (skipn o x).
Proof.
  intros L. rewrite skipn_app, firstn_app. rewrite skipn_length. replace (n - (length x - o))%nat with 0%nat by lia.
  rewrite firstn_O. apply app_nil_r.
Qed.
Lemma splice_app (x t v : list Z) o n : (o + n <= length x)%nat ->
  firstn o (x ++ t) ++ v ++ skipn (o + n) (x ++ t) = (firstn o x ++ v ++ skipn (o + n) x) ++ t.
Proof.
  intros L. rewrite firstn_app, skipn_app. replace (o - length x)%nat with 0%nat by lia. replace (o + n - length x)%nat with 0%nat by lia.
  rewrite firstn_O, skipn_O, app_nil_r, <- !app_assoc. reflexivity.
Qed.
Lemma mload_sim t x o n : sim eq (mload x o n) (mload (x ++ t) o n).
Proof.
  unfold mload. destruct (Nat.leb_spec (o + n) (length x)) as [L|L]; cbn [sim]; auto.
  destruct (Nat.leb_spec (o + n) (length (x ++ t))) as [L'|L']; [|rewrite app_length in L'; lia].
  rewrite window_app by exact L. eauto.
Qed.
Lemma mstore_sim t x o v : sim (ext t) (mstore x o v) (mstore (x ++ t) o v).
Proof.
  unfold mstore. destruct (Nat.leb_spec (o + length v) (length x)) as [L|L]; cbn [sim]; auto.
  destruct (Nat.leb_spec (o + length v) (length (x ++ t))) as [L'|L']; [|rewrite app_length in L'; lia].
  eexists. split; [reflexivity|]. now apply splice_app.
Qed.
Lemma load_bytes_sim t x o n : sim eq (load_bytes x o n) (load_bytes (x ++ t) o n).
Proof. unfold load_bytes. eapply sim_bind; [apply mload_sim|]. intros v ? <-. apply sim_refl. Qed.
Lemma store_bytes_sim t x o v : sim (ext t) (store_bytes x o v) (store_bytes (x ++ t) o v).
Proof. apply mstore_sim. Qed.

Ltac astep :=
  lazymatch goal with
  | |- sim _ (bind (load_bytes _ _ _) _) (bind (load_bytes (_ ++ _) _ _) _) => eapply sim_bind; [apply load_bytes_sim|intros ? ? <-]
  | |- sim _ (bind (store_bytes _ _ _) _) (bind (store_bytes (_ ++ _) _ _) _) => eapply sim_bind; [apply store_bytes_sim|intros ? ? ->]
  | |- sim (ext _) (store_bytes _ _ _) (store_bytes (_ ++ _) _ _) => apply store_bytes_sim
  | _ => sstep
  end.
Ltac asteps := repeat (cbv zeta; astep).

(** ** poly.c, polyvec.c, verify.c *)
Lemma compress4_avx_sim t r o a : sim (ext t) (poly_compress4_avx2 r o a) (poly_compress4_avx2 (r ++ t) o a).
Proof. unfold poly_compress4_avx2. apply sim_for; [|reflexivity]. intros i s ? ->. asteps. Qed.
Lemma compress5_avx_sim t r o a : sim (ext t) (poly_compress5_avx2 r o a) (poly_compress5_avx2 (r ++ t) o a).
Proof. unfold poly_compress5_avx2. apply sim_for; [|reflexivity]. intros i s ? ->. asteps. Qed.
Lemma compress10_avx_sim t r o a : sim (ext t) (poly_compress10_avx2 r o a) (poly_compress10_avx2 (r ++ t) o a).
Proof. unfold poly_compress10_avx2. apply sim_for; [|reflexivity]. intros i s ? ->. asteps. Qed.
Lemma compress11_avx_sim t r o a : sim (ext t) (poly_compress11_avx2 r o a) (poly_compress11_avx2 (r ++ t) o a).
Proof. unfold poly_compress11_avx2. apply sim_for; [|reflexivity]. intros i s ? ->. asteps. Qed.
Lemma decompress4_avx_sim t r a o : sim eq (poly_decompress4_avx2 r a o) (poly_decompress4_avx2 r (a ++ t) o).
Proof. unfold poly_decompress4_avx2. apply sim_for; [|reflexivity]. intros i s ? <-. asteps. Qed.
Lemma decompress5_avx_sim t r a o : sim eq (poly_decompress5_avx2 r a o) (poly_decompress5_avx2 r (a ++ t) o).
Proof. unfold poly_decompress5_avx2. apply sim_for; [|reflexivity]. intros i s ? <-. asteps. Qed.
Lemma decompress10_avx_sim t r a o : sim eq (poly_decompress10_avx2 r a o) (poly_decompress10_avx2 r (a ++ t) o).
Proof. unfold poly_decompress10_avx2. apply sim_for; [|reflexivity]. intros i s ? <-. asteps. Qed.
Lemma decompress11_avx_sim t r a o : sim eq (poly_decompress11_avx2 r a o) (poly_decompress11_avx2 r (a ++ t) o).
Proof. unfold poly_decompress11_avx2. apply sim_for; [|reflexivity]. intros i s ? <-. asteps. Qed.
Lemma poly_compress_avx_sim t lv r o a : sim (ext t) (poly_compress_avx2 lv r o a) (poly_compress_avx2 lv (r ++ t) o a).
Proof. destruct lv; [apply compress4_avx_sim|apply compress4_avx_sim|apply compress5_avx_sim]. Qed.
Lemma poly_decompress_avx_sim t lv r a o : sim eq (poly_decompress_avx2 lv r a o) (poly_decompress_avx2 lv r (a ++ t) o).
Proof. destruct lv; [apply decompress4_avx_sim|apply decompress4_avx_sim|apply decompress5_avx_sim]. Qed.
Lemma polyvec_compress_avx_sim t lv r o a : sim (ext t) (polyvec_compress_avx2 lv r o a) (polyvec_compress_avx2 lv (r ++ t) o a).
Proof.
  destruct lv; unfold polyvec_compress_avx2; (apply sim_for; [|reflexivity]; intros i s ? ->; sstep).
  - apply compress10_avx_sim.
  - apply compress10_avx_sim.
  - apply compress11_avx_sim.
Qed.
Lemma polyvec_decompress_avx_sim t lv r a o :
  sim eq (polyvec_decompress_avx2 lv r a o) (polyvec_decompress_avx2 lv r (a ++ t) o).
Proof.
  destruct lv; unfold polyvec_decompress_avx2; (apply sim_for; [|reflexivity]; intros i s ? <-; sstep; eapply sim_bind).
  - apply decompress10_avx_sim.
  - intros w ? <-. apply sim_refl.
  - apply decompress10_avx_sim.
  - intros w ? <-. apply sim_refl.
  - apply decompress11_avx_sim.
  - intros w ? <-. apply sim_refl.
Qed.
Lemma verify_avx_sim t a o b p n : sim eq (verify_avx2 a o b p n) (verify_avx2 (a ++ t) o b p n).
Proof.
  unfold verify_avx2. eapply sim_bind; [apply (sim_for eq); [|reflexivity]|].
  - intros i s ? <-. asteps.
  - intros v ? <-. cbv zeta. eapply sim_bind; [apply (sim_for eq); [|reflexivity]|].
    + intros i s ? <-. asteps.
    + intros w ? <-. apply sim_refl.
Qed.
Lemma cmov_avx_sim t r o x p n b : sim (ext t) (cmov_avx2 r o x p n b) (cmov_avx2 (r ++ t) o x p n b).
Proof.
  unfold cmov_avx2. cbv zeta. eapply sim_bind; [apply (sim_for (ext t)); [|reflexivity]|].
  - intros i s ? ->. asteps.
  - intros v ? ->. apply sim_for; [|reflexivity]. intros i s ? ->. asteps.
Qed.

(** ** The assembly routines that take byte arrays *)
Section WithJunk.
Context {JJ : Junk}.

Lemma ntttobytes_sim t r o a : sim (ext t) (ntttobytes_avx r o a) (ntttobytes_avx (r ++ t) o a).
Proof.
  unfold ntttobytes_avx. destruct (Nat.leb_spec (o + 384) (length r)) as [L|L]; [|cbn [sim]; auto].
  destruct (Nat.leb_spec (o + 384) (length (r ++ t))) as [L'|L']; [|rewrite app_length in L'; lia].
  rewrite window_app by exact L. sstep. apply sim_ret. unfold ext. now apply splice_app.
Qed.
Lemma nttfrombytes_sim t r a o : sim eq (nttfrombytes_avx r a o) (nttfrombytes_avx r (a ++ t) o).
Proof.
  unfold nttfrombytes_avx. destruct (Nat.leb_spec (o + 384) (length a)) as [L|L]; [|cbn [sim]; auto].
  destruct (Nat.leb_spec (o + 384) (length (a ++ t))) as [L'|L']; [|rewrite app_length in L'; lia].
  rewrite window_app by exact L. apply sim_refl.
Qed.
Lemma polyvec_tobytes_avx_sim t lv r o a : sim (ext t) (polyvec_tobytes_avx2 lv r o a) (polyvec_tobytes_avx2 lv (r ++ t) o a).
Proof. unfold polyvec_tobytes_avx2. apply sim_for; [|reflexivity]. intros i s ? ->. sstep. apply ntttobytes_sim. Qed.
Lemma polyvec_frombytes_avx_sim t lv r a o : sim eq (polyvec_frombytes_avx2 lv r a o) (polyvec_frombytes_avx2 lv r (a ++ t) o).
Proof.
  unfold polyvec_frombytes_avx2. apply sim_for; [|reflexivity]. intros i s ? <-. sstep.
  eapply sim_bind; [apply nttfrombytes_sim|]. intros w ? <-. apply sim_refl.
Qed.

(** ** indcpa.c and kem.c *)
Lemma pack_pk_avx_sim t lv r o pk seed so : sim (ext t) (pack_pk_avx2 lv r o pk seed so) (pack_pk_avx2 lv (r ++ t) o pk seed so).
Proof. unfold pack_pk_avx2. eapply sim_bind; [apply polyvec_tobytes_avx_sim|]. intros v ? ->. apply memcpy_sim_dst. Qed.
Lemma unpack_pk_avx_sim t lv pk seed x o : sim eq (unpack_pk_avx2 lv pk seed x o) (unpack_pk_avx2 lv pk seed (x ++ t) o).
Proof.
  unfold unpack_pk_avx2. eapply sim_bind; [apply polyvec_frombytes_avx_sim|]. intros v ? <-.
  eapply sim_bind; [apply memcpy_sim_src|]. intros s ? <-. apply sim_refl.
Qed.
Lemma pack_ciphertext_avx_sim t lv r o b v :
  sim (ext t) (pack_ciphertext_avx2 lv r o b v) (pack_ciphertext_avx2 lv (r ++ t) o b v).
Proof.
  unfold pack_ciphertext_avx2. eapply sim_bind; [apply polyvec_compress_avx_sim|]. intros w ? ->. apply poly_compress_avx_sim.
Qed.
Lemma unpack_ciphertext_avx_sim t lv b v c o :
  sim eq (unpack_ciphertext_avx2 lv b v c o) (unpack_ciphertext_avx2 lv b v (c ++ t) o).
Proof.
  unfold unpack_ciphertext_avx2. eapply sim_bind; [apply polyvec_decompress_avx_sim|]. intros w ? <-.
  eapply sim_bind; [apply poly_decompress_avx_sim|]. intros s ? <-. apply sim_refl.
Qed.

Lemma keypair_avx_sim t1 t2 t3 lv fuel pk sk coins :
  sim (fun p p' : list Z * list Z * Z => ext t1 (fst (fst p)) (fst (fst p')) /\ ext t2 (snd (fst p)) (snd (fst p')) /\ snd p = snd p')
    (crypto_kem_keypair_derand_avx2 lv fuel pk sk coins) (crypto_kem_keypair_derand_avx2 lv fuel (pk ++ t1) (sk ++ t2) (coins ++ t3)).
Proof.
  unfold crypto_kem_keypair_derand_avx2. eapply sim_bind.
  - unfold indcpa_keypair_derand_avx2. cbv zeta. eapply sim_bind; [apply memcpy_sim_src|]. intros b ? <-.
    do 3 sstep. sstep. destruct v2 as [[a1 a2] a3]. do 6 sstep.
    eapply sim_bind; [apply polyvec_tobytes_avx_sim|]. intros s ? ->.
    eapply sim_bind; [apply pack_pk_avx_sim|]. intros p ? ->. apply sim_ret.
    instantiate (1 := fun p p' : list Z * list Z => ext t1 (fst p) (fst p') /\ ext t2 (snd p) (snd p')). split; reflexivity.
  - intros [a b] [a' b'] [E1 E2]. cbn [fst snd] in *. unfold ext in E1, E2. subst.
    eapply sim_bind; [apply memcpy_sim|]. intros s1 ? ->.
    eapply sim_bind; [apply sha3_256_sim|]. intros s2 ? ->.
    eapply sim_bind; [apply memcpy_sim|]. intros s3 ? ->. apply sim_ret. repeat split.
Qed.
Lemma indcpa_enc_avx_sim t u lv fuel c co m mo pk po r ro :
  sim (ext t) (indcpa_enc_avx2 lv fuel c co m mo pk po r ro) (indcpa_enc_avx2 lv fuel (c ++ t) co m mo (pk ++ u) po r ro).
Proof.
  unfold indcpa_enc_avx2. cbv zeta. eapply sim_bind; [apply unpack_pk_avx_sim|]. intros [a b] ? <-.
  do 2 sstep. sstep. destruct v1 as [[[a1 a2] a3] a4]. do 10 sstep. apply pack_ciphertext_avx_sim.
Qed.
Lemma enc_avx_sim t1 t2 t3 t4 lv fuel ct ss pk coins :
  sim (fun p p' : list Z * list Z * Z => ext t1 (fst (fst p)) (fst (fst p')) /\ ext t2 (snd (fst p)) (snd (fst p')) /\ snd p = snd p')
    (crypto_kem_enc_derand_avx2 lv fuel ct ss pk coins) (crypto_kem_enc_derand_avx2 lv fuel (ct ++ t1) (ss ++ t2) (pk ++ t3) (coins ++ t4)).
Proof.
  unfold crypto_kem_enc_derand_avx2. cbv zeta. eapply sim_bind; [apply memcpy_sim_src|]. intros b ? <-.
  eapply sim_bind; [apply sha3_256_sim_in|]. intros b1 ? <-. sstep.
  eapply sim_bind; [apply indcpa_enc_avx_sim|]. intros c ? ->.
  eapply sim_bind; [apply memcpy_sim_dst|]. intros s ? ->. apply sim_ret. repeat split.
Qed.
Lemma indcpa_dec_avx_sim t u lv m mo c co sk so :
  sim eq (indcpa_dec_avx2 lv m mo c co sk so) (indcpa_dec_avx2 lv m mo (c ++ t) co (sk ++ u) so).
Proof.
  unfold indcpa_dec_avx2. cbv zeta. eapply sim_bind; [apply unpack_ciphertext_avx_sim|]. intros [a b] ? <-.
  eapply sim_bind; [apply polyvec_frombytes_avx_sim|]. intros s ? <-. apply sim_refl.
Qed.
Lemma indcpa_enc_avx_sim_pk u lv fuel c co m mo pk po r ro :
  sim eq (indcpa_enc_avx2 lv fuel c co m mo pk po r ro) (indcpa_enc_avx2 lv fuel c co m mo (pk ++ u) po r ro).
Proof.
  unfold indcpa_enc_avx2. cbv zeta. eapply sim_bind; [apply unpack_pk_avx_sim|]. intros [a b] ? <-. apply sim_refl.
Qed.
Lemma dec_avx_sim t1 t2 t3 lv fuel ss ct sk :
  sim (ext1 t1) (crypto_kem_dec_avx2 lv fuel ss ct sk) (crypto_kem_dec_avx2 lv fuel (ss ++ t1) (ct ++ t2) (sk ++ t3)).
Proof.
  unfold crypto_kem_dec_avx2. cbv zeta. eapply sim_bind; [apply indcpa_dec_avx_sim|]. intros b ? <-.
  eapply sim_bind; [apply memcpy_sim_src|]. intros b1 ? <-. sstep.
  eapply sim_bind; [apply indcpa_enc_avx_sim_pk|]. intros c ? <-.
  eapply sim_bind; [apply verify_avx_sim|]. intros f ? <-.
  eapply sim_bind; [apply rkprf_sim|]. intros s ? ->.
  eapply sim_bind; [apply cmov_avx_sim|]. intros s1 ? ->. apply sim_ret. split; reflexivity.
Qed.
End WithJunk.
