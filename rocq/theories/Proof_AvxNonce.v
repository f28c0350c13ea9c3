(** * The AVX2 code: the nonces handed to the noise samplers *)
From Coq Require Import ZArith List Lia Bool.
From Verif Require Import CMonad Model_Params Model_Fips202 Model_Symmetric Model_Polyvec Model_Indcpa
  Model_AvxIntrin Model_AvxAsm Model_AvxCode Model_AvxC Model_AvxPolyvec Model_AvxKeccak Model_AvxFips202x4 Model_AvxRej
  Model_AvxIndcpa Model_AvxKem Proof_Nonce.
Import ListNotations.
Open Scope Z_scope.

#[local] Hint Constants Opaque : quiet.
#[local] Hint Resolve quiet_ret quiet_emit_branch quiet_emit_index quiet_emit_div quiet_test quiet_aget quiet_aset quiet_chk
  quiet_ishl quiet_shr quiet_ushl quiet_UB q_memcpy : quiet.
#[local] Hint Resolve q_absorb q_absorb_once q_squeezeblocks q_squeeze q_hash_g q_hash_h q_shake256 q_prf q_rkprf q_rej : quiet.

Lemma q_mload l o n : quiet (mload l o n). Proof. unfold mload. destruct (_ <=? _)%nat; cbn; auto. Qed.
Lemma q_mstore l o n : quiet (mstore l o n). Proof. unfold mstore. destruct (_ <=? _)%nat; cbn; auto. Qed.
Lemma q_exec_c p i o : quiet (exec_c p i o). Proof. unfold exec_c. destruct (Model_AvxIntrin.run bool_ops p i o); cbn; auto. Qed.
#[local] Hint Resolve q_mload q_mstore q_exec_c : quiet.
Lemma q_load_bytes l o n : quiet (load_bytes l o n). Proof. q. Qed.
Lemma q_store_bytes l o n : quiet (store_bytes l o n). Proof. q. Qed.
Lemma q_load_vec l o : quiet (load_vec l o). Proof. q. Qed.
Lemma q_store_vec l o v : quiet (store_vec l o v). Proof. q. Qed.
#[local] Hint Resolve q_load_bytes q_store_bytes q_load_vec q_store_vec : quiet.

(** ** Assembly *)
Lemma q_load_words A (s : state A) b o n : quiet (load_words s b o n).
Proof. unfold load_words. destruct (nth_error _ _); [|exact I]. destruct (_ <=? _)%nat; cbn; auto. Qed.
Lemma q_store_words A (s : state A) b o v : quiet (store_words s b o v).
Proof. unfold store_words. destruct (nth_error _ _); [|exact I]. destruct (_ <=? _)%nat; cbn; auto. Qed.
Lemma q_get_reg A (s : state A) r : quiet (get_reg s r).
Proof. unfold get_reg. destruct (nth_error _ _); cbn; auto. Qed.
Lemma q_set_reg A (s : state A) r v : quiet (set_reg s r v). Proof. cbn. auto. Qed.
Lemma q_aligned o : quiet (aligned o). Proof. unfold aligned. destruct (_ =? _)%nat; cbn; auto. Qed.
Lemma q_defined B (o : option B) : quiet (defined o). Proof. destruct o; cbn; auto. Qed.
#[local] Hint Resolve q_load_words q_store_words q_get_reg q_set_reg q_aligned q_defined : quiet.
Lemma q_get_opnd A (s : state A) o : quiet (get_opnd s o). Proof. destruct o; cbn [get_opnd]; auto with quiet nocore. Qed.
#[local] Hint Resolve q_get_opnd : quiet.
Lemma q_exec A (L : lane_ops A) i s : quiet (Model_AvxAsm.exec L i s). Proof. unfold Model_AvxAsm.exec. destruct i; q. Qed.
Lemma q_run A (L : lane_ops A) code : forall s, quiet (Model_AvxAsm.run L code s).
Proof.
  induction code as [|i code IH]; intros s; cbn [Model_AvxAsm.run]; [apply quiet_ret|].
  apply quiet_bind; [apply q_exec|]. intros s'. apply IH.
Qed.

Section WithJunk.
Context `{JJ : Junk}.
Lemma q_run_asm code m : quiet (run_asm code m).
Proof.
  unfold run_asm. apply quiet_bind; [apply q_run|]. intros s. destruct (nth_error _ _); [apply quiet_ret|exact I].
Qed.
#[local] Hint Resolve q_run_asm : quiet.
Lemma q_ntt_avx r : quiet (ntt_avx r). Proof. q. Qed.
Lemma q_invntt_avx r : quiet (invntt_avx r). Proof. q. Qed.
Lemma q_nttunpack_avx r : quiet (nttunpack_avx r). Proof. q. Qed.
Lemma q_basemul_avx r a b : quiet (basemul_avx r a b). Proof. q. Qed.
Lemma q_reduce_avx r : quiet (reduce_avx r). Proof. q. Qed.
Lemma q_tomont_avx r : quiet (tomont_avx r). Proof. q. Qed.
Lemma q_ntttobytes_avx r o a : quiet (ntttobytes_avx r o a).
Proof. unfold ntttobytes_avx. destruct (_ <=? _)%nat; [|exact I]. apply quiet_bind; [apply q_run_asm|]. intros. apply quiet_ret. Qed.
Lemma q_nttfrombytes_avx r o a : quiet (nttfrombytes_avx r o a).
Proof. unfold nttfrombytes_avx. destruct (_ <=? _)%nat; [|exact I]. apply q_run_asm. Qed.
#[local] Hint Resolve q_ntt_avx q_invntt_avx q_nttunpack_avx q_basemul_avx q_reduce_avx q_tomont_avx q_ntttobytes_avx q_nttfrombytes_avx : quiet.

(** ** C with intrinsics *)
Lemma q_cbd2_avx2 r b : quiet (cbd2_avx2 r b). Proof. q. Qed.
Lemma q_cbd3_avx2 r b : quiet (cbd3_avx2 r b). Proof. q. Qed.
#[local] Hint Resolve q_cbd2_avx2 q_cbd3_avx2 : quiet.
Lemma q_cbd_eta1_avx2 lv r b : quiet (poly_cbd_eta1_avx2 lv r b). Proof. destruct lv; q. Qed.
Lemma q_cbd_eta2_avx2 r b : quiet (poly_cbd_eta2_avx2 r b). Proof. q. Qed.
#[local] Hint Resolve q_cbd_eta1_avx2 q_cbd_eta2_avx2 : quiet.
Lemma q_poly_compress4_avx2 r ro a : quiet (poly_compress4_avx2 r ro a). Proof. q. Qed.
Lemma q_poly_compress5_avx2 r ro a : quiet (poly_compress5_avx2 r ro a). Proof. q. Qed.
Lemma q_poly_decompress4_avx2 r a ao : quiet (poly_decompress4_avx2 r a ao). Proof. q. Qed.
Lemma q_poly_decompress5_avx2 r a ao : quiet (poly_decompress5_avx2 r a ao). Proof. q. Qed.
Lemma q_poly_compress_avx2 lv r ro a : quiet (poly_compress_avx2 lv r ro a).
Proof. destruct lv; [exact (q_poly_compress4_avx2 _ _ _)|exact (q_poly_compress4_avx2 _ _ _)|exact (q_poly_compress5_avx2 _ _ _)]. Qed.
Lemma q_poly_decompress_avx2 lv r a ao : quiet (poly_decompress_avx2 lv r a ao).
Proof. destruct lv; [exact (q_poly_decompress4_avx2 _ _ _)|exact (q_poly_decompress4_avx2 _ _ _)|exact (q_poly_decompress5_avx2 _ _ _)]. Qed.
Lemma q_poly_frommsg_avx2 r a ao : quiet (poly_frommsg_avx2 r a ao). Proof. q. Qed.
Lemma q_poly_tomsg_avx2 r a ao : quiet (poly_tomsg_avx2 r a ao). Proof. q. Qed.
Lemma q_poly_add_to_avx2 r b : quiet (poly_add_to_avx2 r b). Proof. q. Qed.
Lemma q_poly_sub_from_avx2 r b : quiet (poly_sub_from_avx2 r b). Proof. q. Qed.
Lemma q_verify_avx2 a ao b bo n : quiet (verify_avx2 a ao b bo n). Proof. q. Qed.
Lemma q_cmov_avx2 a ao b bo n s : quiet (cmov_avx2 a ao b bo n s). Proof. q. Qed.
Lemma q_poly_compress10_avx2 r ro a : quiet (poly_compress10_avx2 r ro a). Proof. q. Qed.
Lemma q_poly_compress11_avx2 r ro a : quiet (poly_compress11_avx2 r ro a). Proof. q. Qed.
Lemma q_poly_decompress10_avx2 r a ao : quiet (poly_decompress10_avx2 r a ao). Proof. q. Qed.
Lemma q_poly_decompress11_avx2 r a ao : quiet (poly_decompress11_avx2 r a ao). Proof. q. Qed.
#[local] Hint Resolve q_poly_compress_avx2 q_poly_decompress_avx2 q_poly_frommsg_avx2 q_poly_tomsg_avx2 q_poly_add_to_avx2
  q_poly_sub_from_avx2 q_verify_avx2 q_cmov_avx2 q_poly_compress10_avx2 q_poly_compress11_avx2 q_poly_decompress10_avx2
  q_poly_decompress11_avx2 : quiet.
Lemma q_polyvec_ntt_avx2 lv v : quiet (polyvec_ntt_avx2 lv v). Proof. q. Qed.
Lemma q_polyvec_invntt_avx2 lv v : quiet (polyvec_invntt_tomont_avx2 lv v). Proof. q. Qed.
Lemma q_polyvec_acc_avx2 lv r a b : quiet (polyvec_basemul_acc_montgomery_avx2 lv r a b). Proof. q. Qed.
Lemma q_polyvec_add_to_avx2 lv r b : quiet (polyvec_add_to_avx2 lv r b). Proof. q. Qed.
Lemma q_polyvec_reduce_avx2 lv r : quiet (polyvec_reduce_avx2 lv r). Proof. q. Qed.
Lemma q_polyvec_tobytes_avx2 lv r ro v : quiet (polyvec_tobytes_avx2 lv r ro v). Proof. q. Qed.
Lemma q_polyvec_frombytes_avx2 lv r v vo : quiet (polyvec_frombytes_avx2 lv r v vo). Proof. q. Qed.
Lemma q_polyvec_compress_avx2 lv r ro v : quiet (polyvec_compress_avx2 lv r ro v). Proof. q. Qed.
Lemma q_polyvec_decompress_avx2 lv r v vo : quiet (polyvec_decompress_avx2 lv r v vo). Proof. q. Qed.
#[local] Hint Resolve q_polyvec_ntt_avx2 q_polyvec_invntt_avx2 q_polyvec_acc_avx2 q_polyvec_add_to_avx2 q_polyvec_reduce_avx2
  q_polyvec_tobytes_avx2 q_polyvec_frombytes_avx2 q_polyvec_compress_avx2 q_polyvec_decompress_avx2 : quiet.

(** ** Four-way hashing *)
Lemma q_permute4 s : quiet (KeccakF1600_StatePermute4x s).
Proof.
  unfold KeccakF1600_StatePermute4x. apply quiet_bind.
  - apply quiet_for. intros i e. apply quiet_bind; [apply quiet_aget|]. intros. apply quiet_ret.
  - intros e. cbv zeta. apply quiet_for. intros i s'. apply quiet_aset.
Qed.
Lemma q_load64 b p : quiet (load64 b p). Proof. q. Qed.
Lemma q_store64 b p v : quiet (store64 b p v). Proof. q. Qed.
#[local] Hint Resolve q_permute4 q_load64 q_store64 : quiet.
Lemma q_gather64 ins : forall p, quiet (gather64 ins p).
Proof. induction ins; intros p; cbn [gather64]; [apply quiet_ret|]. apply quiet_bind; [apply q_load64|]. intros v. apply quiet_bind; auto. intros. apply quiet_ret. Qed.
Lemma q_store64_each o : forall p x, quiet (store64_each o p x).
Proof.
  induction o; intros p x; cbn [store64_each]; [apply quiet_ret|]. destruct x; [apply quiet_ret|].
  apply quiet_bind; [apply q_store64|]. intros v. apply quiet_bind; auto. intros. apply quiet_ret.
Qed.
#[local] Hint Resolve q_gather64 q_store64_each : quiet.
Lemma q_absorb4 s r i n p : quiet (keccakx4_absorb_once s r i n p). Proof. q. Qed.
Lemma q_squeeze4 o oo n r s : quiet (keccakx4_squeezeblocks o oo n r s). Proof. q. Qed.
#[local] Hint Resolve q_absorb4 q_squeeze4 : quiet.

(** ** The matrix *)
Lemma q_rej_avx r b : quiet (rej_uniform_avx r b).
Proof. q. Qed.
#[local] Hint Resolve q_rej_avx : quiet.
Lemma q_set_bytes xs : forall b o, quiet (set_bytes b o xs).
Proof. induction xs; intros b o; cbn [set_bytes]; [apply quiet_ret|]. apply quiet_bind; [apply quiet_aset|]. intros. apply IHxs. Qed.
Lemma q_some_below cs : quiet (some_below cs).
Proof. induction cs; cbn [some_below]; [apply quiet_ret|]. apply quiet_bind; [apply quiet_test|]. intros [|]; [apply quiet_ret|apply IHcs]. Qed.
Lemma q_get_entries a pos : quiet (get_entries a pos).
Proof. induction pos as [|[i j] pos IH]; cbn [get_entries]; [apply quiet_ret|]. q. Qed.
Lemma q_put_entries pos : forall a ps, quiet (put_entries a pos ps).
Proof. induction pos as [|[i j] pos IH]; intros a ps; cbn [put_entries]; [apply quiet_ret|]. destruct ps; [apply quiet_ret|]. q. Qed.
#[local] Hint Resolve q_set_bytes q_some_below q_get_entries q_put_entries : quiet.
Lemma q_store_seed b s so : quiet (store_seed b s so). Proof. q. Qed.
Lemma q_set_each b x : quiet (set_each b x). Proof. q. Qed.
#[local] Hint Resolve q_store_seed q_set_each : quiet.
Lemma q_gen_four fuel ps bufs st seed so t xt xn : quiet (gen_four fuel ps bufs st seed so t xt xn). Proof. q. Qed.
Lemma q_gen_one fuel p b seed so xs : quiet (gen_one fuel p b seed so xs). Proof. q. Qed.
#[local] Hint Resolve q_gen_four q_gen_one : quiet.
Lemma q_gen_group fuel seed so t pos xt xn s : quiet (gen_group fuel seed so t pos xt xn s). Proof. q. Qed.
#[local] Hint Resolve q_gen_group : quiet.
Lemma q_gen_matrix_avx2 lv fuel a s so t : quiet (gen_matrix_avx2 lv fuel a s so t). Proof. q. Qed.
#[local] Hint Resolve q_gen_matrix_avx2 : quiet.
Lemma q_indcpa_dec_avx2 lv m mo c co sk sko : quiet (indcpa_dec_avx2 lv m mo c co sk sko). Proof. q. Qed.
#[local] Hint Resolve q_indcpa_dec_avx2 : quiet.

(** ** The sampler calls *)
Lemma l_log_nonces l : logs (log_nonces l) l (fun _ => True).
Proof.
  induction l as [|n l IH]; cbn [log_nonces]; [cbn; auto|]. change (n :: l) with ([n] ++ l).
  eapply logs_bind with (Q := fun _ => True); [cbn; auto|]. intros _ _. exact IH.
Qed.
Lemma l_then {A B} (m : res A) (f : A -> res B) l : logs m l (fun _ => True) -> (forall v, quiet (f v)) -> logs (bind m f) l (fun _ => True).
Proof. intros Hm Hf. rewrite <- (app_nil_r l). eapply logs_bind; [exact Hm|]. intros v _. apply Hf. Qed.
Lemma l_noise_bufs lv seed so l : logs (noise_bufs lv seed so l) l (fun _ => True).
Proof. unfold noise_bufs. cbv zeta. apply l_then; [apply l_log_nonces|]. intros ?. q. Qed.
Lemma l_eta1_4x lv rs seed so l : logs (poly_getnoise_eta1_4x lv rs seed so l) l (fun _ => True).
Proof. unfold poly_getnoise_eta1_4x. apply l_then; [apply l_noise_bufs|]. intros ?. q. Qed.
Lemma l_eta1122_4x lv rs seed so l : logs (poly_getnoise_eta1122_4x lv rs seed so l) l (fun _ => True).
Proof. unfold poly_getnoise_eta1122_4x. apply l_then; [apply l_noise_bufs|]. intros ?. q. Qed.
Lemma l_eta2_avx2 r seed so n : logs (poly_getnoise_eta2_avx2 r seed so n) [n] (fun _ => True).
Proof. unfold poly_getnoise_eta2_avx2. cbv zeta. apply l_then; [cbn; auto|]. intros ?. q. Qed.

Ltac lq := apply logs_quiet; [apply quiet_aget || apply quiet_aset|intros ?].
Definition keypair_log (lv : level) : list Z := match lv with Kyber512 => [0; 1; 2; 3] | _ => [0; 1; 2; 3; 4; 5; 6; 7] end.
Lemma l_keypair_noise lv s e p seed so : logs (keypair_noise lv s e p seed so) (keypair_log lv) (fun _ => True).
Proof.
  destruct lv; cbn [keypair_noise keypair_log]; do 4 lq.
  - apply l_then; [apply l_eta1_4x|]. intros ?. q.
  - change [0; 1; 2; 3; 4; 5; 6; 7] with ([0; 1; 2; 3] ++ [4; 5; 6; 7]).
    eapply logs_bind; [apply l_eta1_4x|]. intros ? _. do 8 lq. apply l_then; [apply l_eta1_4x|]. intros ?. q.
  - change [0; 1; 2; 3; 4; 5; 6; 7] with ([0; 1; 2; 3] ++ [4; 5; 6; 7]).
    eapply logs_bind; [apply l_eta1_4x|]. intros ? _. do 8 lq. apply l_then; [apply l_eta1_4x|]. intros ?. q.
Qed.
Definition enc_log (lv : level) : list Z :=
  match lv with Kyber512 => [0; 1; 2; 3; 4] | Kyber768 => [0; 1; 2; 3; 4; 5; 6; 7] | Kyber1024 => [0; 1; 2; 3; 4; 5; 6; 7; 8] end.
Lemma l_enc_noise lv sp ep epp b c co : logs (enc_noise lv sp ep epp b c co) (enc_log lv) (fun _ => True).
Proof.
  destruct lv; cbn [enc_noise enc_log]; do 4 lq.
  - change [0; 1; 2; 3; 4] with ([0; 1; 2; 3] ++ [4]).
    eapply logs_bind; [apply l_eta1122_4x|]. intros ? _. do 4 lq. apply l_then; [apply l_eta2_avx2|]. intros ?. q.
  - change [0; 1; 2; 3; 4; 5; 6; 7] with ([0; 1; 2; 3] ++ [4; 5; 6; 7]).
    eapply logs_bind; [apply l_eta1_4x|]. intros ? _. do 7 lq. apply l_then; [apply l_eta1_4x|]. intros ?. q.
  - change [0; 1; 2; 3; 4; 5; 6; 7; 8] with ([0; 1; 2; 3] ++ [4; 5; 6; 7] ++ [8]).
    eapply logs_bind; [apply l_eta1_4x|]. intros ? _. do 8 lq.
    eapply logs_bind; [apply l_eta1_4x|]. intros ? _. do 4 lq. apply l_then; [apply l_eta2_avx2|]. intros ?. q.
Qed.

Lemma l_indcpa_keypair_avx2 lv fuel pk po sk sko c co :
  logs (indcpa_keypair_derand_avx2 lv fuel pk po sk sko c co) (keypair_log lv) (fun _ => True).
Proof.
  unfold indcpa_keypair_derand_avx2. cbv zeta. do 4 (apply logs_quiet; [solve [q]|]; intros ?).
  apply l_then; [apply l_keypair_noise|]. intros [[? ?] ?]. q.
Qed.
Lemma l_indcpa_enc_avx2 lv fuel c cto m mo pk po co coo :
  logs (indcpa_enc_avx2 lv fuel c cto m mo pk po co coo) (enc_log lv) (fun _ => True).
Proof.
  unfold indcpa_enc_avx2. cbv zeta. apply logs_quiet; [solve [q]|]. intros [? ?].
  do 2 (apply logs_quiet; [solve [q]|]; intros ?).
  apply l_then; [apply l_enc_noise|]. intros [[[? ?] ?] ?]. q.
Qed.
Lemma l_keypair_derand_avx2 lv fuel pk sk c : logs (crypto_kem_keypair_derand_avx2 lv fuel pk sk c) (keypair_log lv) (fun _ => True).
Proof. unfold crypto_kem_keypair_derand_avx2. apply l_then; [apply l_indcpa_keypair_avx2|]. intros [? ?]. q. Qed.
Lemma l_enc_derand_avx2 lv fuel ct ss pk c : logs (crypto_kem_enc_derand_avx2 lv fuel ct ss pk c) (enc_log lv) (fun _ => True).
Proof.
  unfold crypto_kem_enc_derand_avx2. cbv zeta. do 3 (apply logs_quiet; [solve [q]|]; intros ?).
  apply l_then; [apply l_indcpa_enc_avx2|]. intros ?. q.
Qed.
Lemma l_dec_avx2 lv fuel ss ct sk : logs (crypto_kem_dec_avx2 lv fuel ss ct sk) (enc_log lv) (fun _ => True).
Proof.
  unfold crypto_kem_dec_avx2. cbv zeta. do 3 (apply logs_quiet; [solve [q]|]; intros ?).
  apply l_then; [apply l_indcpa_enc_avx2|]. intros ?. q.
Qed.
End WithJunk.
