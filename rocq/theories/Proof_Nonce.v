(** * The nonces handed to the noise sampler *)
From Coq Require Import ZArith List Lia Bool FinFun.
From Verif Require Import CMonad Model_Params Model_Reduce Model_NTT Model_CBD Model_Poly Model_Polyvec Model_Fips202
  Model_Symmetric Model_Indcpa Model_Verify Model_Kem.
Import ListNotations.
Open Scope Z_scope.

(** The nonces of the sampler calls of a run, in order *)
Definition nonces (T : trace) : list Z := flat_map (fun e => match e with EvNoise n => [n] | _ => [] end) T.

Lemma nonces_app a b : nonces (a ++ b) = nonces a ++ nonces b.
Proof. apply flat_map_app. Qed.

(** Partial correctness: a run that finishes logs [l] and returns a value in [Q] *)
Definition logs {A} (m : res A) (l : list Z) (Q : A -> Prop) : Prop :=
  match m with Ok v T => nonces T = l /\ Q v | _ => True end.
Definition quiet {A} (m : res A) : Prop := logs m [] (fun _ => True).

Lemma logs_bind {A B} (m : res A) (f : A -> res B) l1 l2 (Q : A -> Prop) (R : B -> Prop) :
  logs m l1 Q -> (forall v, Q v -> logs (f v) l2 R) -> logs (bind m f) (l1 ++ l2) R.
Proof.
  destruct m as [v T| | |]; cbn; auto. intros [E1 Hv] Hf. specialize (Hf v Hv).
  destruct (f v) as [w T'| | |]; cbn in *; auto. destruct Hf. rewrite nonces_app. split; congruence.
Qed.
Lemma logs_quiet {A B} (m : res A) (f : A -> res B) l (R : B -> Prop) :
  quiet m -> (forall v, logs (f v) l R) -> logs (bind m f) l R.
Proof. intros. change l with ([] ++ l). eapply logs_bind; [eassumption|auto]. Qed.

Lemma quiet_bind {A B} (m : res A) (f : A -> res B) : quiet m -> (forall v, quiet (f v)) -> quiet (bind m f).
Proof. intros. now apply logs_quiet. Qed.
Lemma quiet_ret {A} (v : A) : quiet (ret v). Proof. cbn. auto. Qed.
Lemma quiet_emit_branch b : quiet (emit (EvBranch b)). Proof. cbn. auto. Qed.
Lemma quiet_emit_index b : quiet (emit (EvIndex b)). Proof. cbn. auto. Qed.
Lemma quiet_emit_div a b : quiet (emit (EvDiv a b)). Proof. cbn. auto. Qed.
Lemma quiet_test b : quiet (test b). Proof. cbn. auto. Qed.
Lemma quiet_aget {A} (l : list A) i : quiet (aget l i).
Proof. unfold aget. destruct (nth_error l i); cbn; auto. Qed.
Lemma quiet_aset {A} (l : list A) i v : quiet (aset l i v).
Proof. unfold aset. destruct (i <? length l)%nat; cbn; auto. Qed.
Lemma quiet_chk x : quiet (chk_int x).
Proof. unfold chk_int. destruct (_ && _); cbn; auto. Qed.
Lemma quiet_ishl a n : quiet (ishl a n).
Proof. unfold ishl. destruct (_ && _); cbn; auto. Qed.
Lemma quiet_shr w a n : quiet (shr w a n).
Proof. unfold shr. destruct (_ && _); cbn; auto. Qed.
Lemma quiet_ushl w a n : quiet (ushl w a n).
Proof. unfold ushl. destruct (_ && _); cbn; auto. Qed.
Lemma quiet_UB {A} u : quiet (@UB A u). Proof. cbn. auto. Qed.
Lemma quiet_for {S} n : forall lo (f : nat -> S -> res S) s, (forall i s, quiet (f i s)) -> quiet (for_ n lo f s).
Proof.
  induction n; intros lo f s Hf; cbn [for_]; apply quiet_bind; try apply quiet_emit_branch; intros _; [apply quiet_ret|].
  apply quiet_bind; auto.
Qed.
Lemma quiet_while {S} n : forall (c : S -> res bool) f s, (forall s, quiet (c s)) -> (forall s, quiet (f s)) -> quiet (while_ n c f s).
Proof.
  induction n; intros c f s Hc Hf; cbn [while_]; [exact I|]. apply quiet_bind; [auto|].
  intros [|]; [|apply quiet_ret]. apply quiet_bind; auto.
Qed.
Lemma quiet_let {A B} (a : A) (b : A -> res B) : (forall x, quiet (b x)) -> quiet (let x := a in b x).
Proof. cbv zeta. auto. Qed.

Create HintDb quiet discriminated.
#[local] Hint Constants Opaque : quiet.
#[local] Hint Resolve quiet_ret quiet_emit_branch quiet_emit_index quiet_emit_div quiet_test quiet_aget quiet_aset quiet_chk
  quiet_ishl quiet_shr quiet_ushl quiet_UB : quiet.

Ltac head t := match t with ?f _ => head f | _ => t end.
Ltac qstep :=
  lazymatch goal with
  | |- forall _, _ => intro
  | |- quiet (let x := ?a in @?b x) => apply (quiet_let a b)
  | |- quiet (match ?x with _ => _ end) => destruct x
  | |- quiet (Ok _ [_]) => split; [reflexivity|exact I]
  | |- quiet (bind _ _) => apply quiet_bind
  | |- quiet (for_ _ _ _ _) => apply quiet_for
  | |- quiet (while_ _ _ _ _) => apply quiet_while
  | |- quiet ?m => first [solve [auto with quiet nocore] | let h := head m in progress (unfold h); cbv beta | progress cbv beta iota]
  end.
Ltac q := repeat qstep.

Lemma q_memcpy a b c d n : quiet (memcpy a b c d n). Proof. q. Qed.
#[local] Hint Resolve q_memcpy : quiet.
Lemma q_fqmul a b : quiet (fqmul a b). Proof. q. Qed.
#[local] Hint Resolve q_fqmul : quiet.
Lemma q_barrett a : quiet (barrett_reduce a). Proof. q. Qed.
#[local] Hint Resolve q_barrett : quiet.
Lemma q_ntt r : quiet (ntt r). Proof. q. Qed.
Lemma q_invntt r : quiet (invntt r). Proof. q. Qed.
#[local] Hint Resolve q_ntt q_invntt : quiet.
Lemma q_reduce r : quiet (poly_reduce r). Proof. q. Qed.
#[local] Hint Resolve q_reduce : quiet.
Lemma q_add r a b : quiet (poly_add r a b). Proof. q. Qed.
#[local] Hint Resolve q_add : quiet.
Lemma q_pntt r : quiet (poly_ntt r). Proof. q. Qed.
Lemma q_pinvntt r : quiet (poly_invntt_tomont r). Proof. q. Qed.
#[local] Hint Resolve q_pntt q_pinvntt : quiet.
Lemma q_bm r a b : quiet (poly_basemul_montgomery r a b). Proof. q. Qed.
#[local] Hint Resolve q_bm : quiet.
Lemma q_tomont r : quiet (poly_tomont r). Proof. q. Qed.
#[local] Hint Resolve q_tomont : quiet.
Lemma q_permute s : quiet (KeccakF1600_StatePermute s). Proof. q. Qed.
#[local] Hint Resolve q_permute : quiet.

(** ** Everything but the sampler is quiet *)
Lemma q_absorb s p r m mo n : quiet (keccak_absorb s p r m mo n). Proof. q. Qed.
Lemma q_absorb_once s r m mo n p : quiet (keccak_absorb_once s r m mo n p). Proof. q. Qed.
Lemma q_squeezeblocks o oo n s r : quiet (keccak_squeezeblocks o oo n s r). Proof. q. Qed.
Lemma q_squeeze o oo n s p r : quiet (keccak_squeeze o oo n s p r). Proof. q. Qed.
#[local] Hint Resolve q_absorb q_absorb_once q_squeezeblocks q_squeeze : quiet.

Section WithJunk.
Context `{JJ : Junk}.
Lemma q_hash_g o oo i io n : quiet (hash_g o oo i io n). Proof. q. Qed.
Lemma q_hash_h o oo i io n : quiet (hash_h o oo i io n). Proof. q. Qed.
Lemma q_shake256 o oo n i io m : quiet (shake256 o oo n i io m). Proof. q. Qed.
#[local] Hint Resolve q_hash_g q_hash_h q_shake256 : quiet.
Lemma q_prf o oo n key ko nonce : quiet (kyber_shake256_prf o oo n key ko nonce). Proof. q. Qed.
Lemma q_rkprf lv o oo key ko i io : quiet (kyber_shake256_rkprf lv o oo key ko i io). Proof. q. Qed.
#[local] Hint Resolve q_prf q_rkprf : quiet.
Lemma q_cbd_eta1 lv r b : quiet (poly_cbd_eta1 lv r b). Proof. q. Qed.
Lemma q_cbd_eta2 r b : quiet (poly_cbd_eta2 r b). Proof. q. Qed.
#[local] Hint Resolve q_cbd_eta1 q_cbd_eta2 : quiet.
Lemma q_rej r ro n b m : quiet (rej_uniform r ro n b m). Proof. q. Qed.
#[local] Hint Resolve q_rej : quiet.
Lemma q_gen_matrix lv fuel a s so t : quiet (gen_matrix lv fuel a s so t). Proof. q. Qed.
#[local] Hint Resolve q_gen_matrix : quiet.
Lemma q_polyvec_ntt lv v : quiet (polyvec_ntt lv v). Proof. q. Qed.
Lemma q_polyvec_invntt lv v : quiet (polyvec_invntt_tomont lv v). Proof. q. Qed.
Lemma q_polyvec_acc lv r a b : quiet (polyvec_basemul_acc_montgomery lv r a b). Proof. q. Qed.
Lemma q_polyvec_add lv r a b : quiet (polyvec_add lv r a b). Proof. q. Qed.
Lemma q_polyvec_reduce lv r : quiet (polyvec_reduce lv r). Proof. q. Qed.
Lemma q_polyvec_tobytes lv r ro v : quiet (polyvec_tobytes lv r ro v). Proof. q. Qed.
Lemma q_polyvec_frombytes lv r v vo : quiet (polyvec_frombytes lv r v vo). Proof. q. Qed.
Lemma q_polyvec_compress lv r ro v : quiet (polyvec_compress lv r ro v). Proof. q. Qed.
Lemma q_poly_compress lv r ro v : quiet (poly_compress lv r ro v). Proof. q. Qed.
Lemma q_polyvec_decompress lv r v vo : quiet (polyvec_decompress lv r v vo). Proof. q. Qed.
Lemma q_poly_decompress lv r v vo : quiet (poly_decompress lv r v vo). Proof. q. Qed.
Lemma q_poly_frommsg r m mo : quiet (poly_frommsg r m mo). Proof. q. Qed.
Lemma q_poly_tomsg r m mo : quiet (poly_tomsg r m mo). Proof. q. Qed.
#[local] Hint Resolve q_polyvec_ntt q_polyvec_invntt q_polyvec_acc q_polyvec_add q_polyvec_reduce q_polyvec_tobytes
  q_polyvec_frombytes q_polyvec_compress q_poly_compress q_polyvec_decompress q_poly_decompress q_poly_frommsg q_poly_tomsg : quiet.
Lemma q_indcpa_dec lv m mo c co sk sko : quiet (indcpa_dec lv m mo c co sk sko). Proof. q. Qed.
Lemma q_verify a ao b bo n : quiet (verify a ao b bo n). Proof. q. Qed.
Lemma q_cmov a ao b bo n s : quiet (cmov a ao b bo n s). Proof. q. Qed.
#[local] Hint Resolve q_indcpa_dec q_verify q_cmov : quiet.

(** ** The sampler calls *)
Lemma logs_weaken {A} (m : res A) l (Q R : A -> Prop) : logs m l Q -> (forall v, Q v -> R v) -> logs m l R.
Proof. destruct m; cbn; auto. intros [? ?]; auto. Qed.

Lemma l_getnoise_eta1 lv r s so n : logs (poly_getnoise_eta1 lv r s so n) [n] (fun _ => True).
Proof. unfold poly_getnoise_eta1. cbv zeta. change [n] with ([n] ++ []). eapply logs_bind with (Q := fun _ => True); [cbn; auto|]. intros _ _. fold (quiet (A := list Z)). change (quiet (bind (kyber_shake256_prf (local (KYBER_ETA1 lv * KYBER_N / 4)) 0 (KYBER_ETA1 lv * KYBER_N / 4) s so n) (fun buf => poly_cbd_eta1 lv r buf))). q. Qed.
Lemma l_getnoise_eta2 r s so n : logs (poly_getnoise_eta2 r s so n) [n] (fun _ => True).
Proof. unfold poly_getnoise_eta2. cbv zeta. change [n] with ([n] ++ []). eapply logs_bind with (Q := fun _ => True); [cbn; auto|]. intros _ _. change (quiet (bind (kyber_shake256_prf (local (KYBER_ETA2 * KYBER_N / 4)) 0 (KYBER_ETA2 * KYBER_N / 4) s so n) (fun buf => poly_cbd_eta2 r buf))). q. Qed.

Lemma logs_noise_loop {X} (body : X -> Z -> nat -> res X) K : forall lo (v : X) n0,
  (forall i v n, logs (body v n i) [n] (fun _ => True)) -> (n0 + K <= 255)%nat ->
  logs (for_ K lo (fun i s => let '(v, n) := s in bind (body v n i) (fun v => ret (v, u8 (n + 1)))) (v, Z.of_nat n0))
    (map Z.of_nat (seq n0 K)) (fun s => snd s = Z.of_nat (n0 + K)).
Proof.
  induction K as [|K IH]; intros lo v n0 Hb Hn; cbn [for_].
  - apply logs_quiet; [apply quiet_emit_branch|]. intros _. cbn. split; [reflexivity|]. now rewrite Nat.add_0_r.
  - apply logs_quiet; [apply quiet_emit_branch|]. intros _. cbn [seq map].
    change (Z.of_nat n0 :: map Z.of_nat (seq (S n0) K)) with ([Z.of_nat n0] ++ map Z.of_nat (seq (S n0) K)).
    eapply logs_bind with (Q := fun s => snd s = Z.of_nat (S n0)).
    + change [Z.of_nat n0] with ([Z.of_nat n0] ++ []). eapply logs_bind; [apply Hb|]. intros w _. cbn.
      split; [reflexivity|]. unfold u8, wrapu. rewrite Z.mod_small; lia.
    + intros [w n1] E. cbn [snd] in E. subst n1.
      eapply logs_weaken; [apply IH; [exact Hb|lia]|]. intros s Es. rewrite Es. f_equal. lia.
Qed.

Lemma for_ext' {S} n : forall lo (f g : nat -> S -> res S) s, (forall i s, f i s = g i s) -> for_ n lo f s = for_ n lo g s.
Proof.
  induction n; intros lo f g s E; cbn [for_]; [reflexivity|]. unfold emit. cbn [bind]. rewrite E. destruct (g lo s); auto.
  cbn [bind]. now rewrite (IHn _ f g).
Qed.
Lemma bind_assoc' {A B C} (m : res A) (f : A -> res B) (g : B -> res C) :
  bind (bind m f) g = bind m (fun x => bind (f x) g).
Proof.
  destruct m as [v t| | |]; cbn; auto. destruct (f v) as [w t'| | |]; cbn; auto.
  destruct (g w); cbn; auto. now rewrite app_assoc.
Qed.

Lemma l_getnoise_vec_eta1 lv v s so n0 : (n0 + KYBER_K lv <= 255)%nat ->
  logs (getnoise_vec_eta1 lv v s so (Z.of_nat n0)) (map Z.of_nat (seq n0 (KYBER_K lv))) (fun st => snd st = Z.of_nat (n0 + KYBER_K lv)).
Proof.
  intros Hn. unfold getnoise_vec_eta1.
  pose proof (logs_noise_loop (fun v n i => p <- aget v i ;; p <- poly_getnoise_eta1 lv p s so n ;; aset v i p) (KYBER_K lv) 0 v n0) as L.
  erewrite for_ext'; [apply L; [|exact Hn]|].
  - intros i w n. apply logs_quiet; [apply quiet_aget|]. intros p. change [n] with ([n] ++ []).
    eapply logs_bind; [apply l_getnoise_eta1|]. intros x _. apply quiet_aset.
  - intros i [w n]. rewrite !bind_assoc'. destruct (aget w i); cbn [bind]; auto. now rewrite bind_assoc'.
Qed.
Lemma l_getnoise_vec_eta2 lv v s so n0 : (n0 + KYBER_K lv <= 255)%nat ->
  logs (getnoise_vec_eta2 lv v s so (Z.of_nat n0)) (map Z.of_nat (seq n0 (KYBER_K lv))) (fun st => snd st = Z.of_nat (n0 + KYBER_K lv)).
Proof.
  intros Hn. unfold getnoise_vec_eta2.
  pose proof (logs_noise_loop (fun v n i => p <- aget v i ;; p <- poly_getnoise_eta2 p s so n ;; aset v i p) (KYBER_K lv) 0 v n0) as L.
  erewrite for_ext'; [apply L; [|exact Hn]|].
  - intros i w n. apply logs_quiet; [apply quiet_aget|]. intros p. change [n] with ([n] ++ []).
    eapply logs_bind; [apply l_getnoise_eta2|]. intros x _. apply quiet_aset.
  - intros i [w n]. rewrite !bind_assoc'. destruct (aget w i); cbn [bind]; auto. now rewrite bind_assoc'.
Qed.

Lemma K_le lv : (KYBER_K lv <= 4)%nat. Proof. destruct lv; cbn; lia. Qed.

Lemma quiet_logs {A} (m : res A) : quiet m -> logs m [] (fun _ => True). Proof. auto. Qed.

Lemma l_indcpa_keypair lv fuel pk po sk sko c co :
  logs (indcpa_keypair_derand lv fuel pk po sk sko c co) (map Z.of_nat (seq 0 (2 * KYBER_K lv))) (fun _ => True).
Proof.
  pose proof (K_le lv). unfold indcpa_keypair_derand. cbv zeta.
  do 4 (apply logs_quiet; [solve [q]|]; intros ?).
  replace (seq 0 (2 * KYBER_K lv)) with (seq 0 (KYBER_K lv) ++ seq (KYBER_K lv) (KYBER_K lv)) by (rewrite <- seq_app; f_equal; lia).
  rewrite map_app. eapply logs_bind; [apply (l_getnoise_vec_eta1 lv _ _ _ 0); lia|]. intros [w n1] E. cbn [snd Nat.add] in E. subst n1.
  rewrite <- (app_nil_r (map _ (seq (KYBER_K lv) _))).
  eapply logs_bind; [apply (l_getnoise_vec_eta1 lv _ _ _ (KYBER_K lv)); lia|]. intros [w2 n2] _.
  match goal with |- logs ?m _ _ => change (quiet m) end. q.
Qed.

Lemma l_indcpa_enc lv fuel c cto m mo pk po co coo :
  logs (indcpa_enc lv fuel c cto m mo pk po co coo) (map Z.of_nat (seq 0 (2 * KYBER_K lv + 1))) (fun _ => True).
Proof.
  pose proof (K_le lv). unfold indcpa_enc. cbv zeta.
  apply logs_quiet; [solve [q]|]. intros [? ?].
  do 2 (apply logs_quiet; [solve [q]|]; intros ?).
  replace (seq 0 (2 * KYBER_K lv + 1)) with (seq 0 (KYBER_K lv) ++ seq (KYBER_K lv) (KYBER_K lv) ++ [(KYBER_K lv + KYBER_K lv)%nat])
    by (rewrite app_assoc, <- seq_app, (seq_app (2 * KYBER_K lv) 1); replace (2 * KYBER_K lv)%nat with (KYBER_K lv + KYBER_K lv)%nat by lia; reflexivity).
  rewrite !map_app. eapply logs_bind; [apply (l_getnoise_vec_eta1 lv _ _ _ 0); lia|]. intros [w n1] E. cbn [snd Nat.add] in E. subst n1.
  eapply logs_bind; [apply (l_getnoise_vec_eta2 lv _ _ _ (KYBER_K lv)); lia|]. intros [w2 n2] E. cbn [snd] in E. subst n2.
  cbn [map]. rewrite <- (app_nil_r [Z.of_nat _]).
  eapply logs_bind; [apply l_getnoise_eta2|]. intros ? _.
  match goal with |- logs ?m _ _ => change (quiet m) end. q.
Qed.

Lemma l_keypair_derand lv fuel pk sk c :
  logs (crypto_kem_keypair_derand lv fuel pk sk c) (map Z.of_nat (seq 0 (2 * KYBER_K lv))) (fun _ => True).
Proof.
  unfold crypto_kem_keypair_derand. rewrite <- (app_nil_r (map _ _)). eapply logs_bind; [apply l_indcpa_keypair|]. intros [? ?] _.
  match goal with |- logs ?m _ _ => change (quiet m) end. q.
Qed.
Lemma l_enc_derand lv fuel ct ss pk c :
  logs (crypto_kem_enc_derand lv fuel ct ss pk c) (map Z.of_nat (seq 0 (2 * KYBER_K lv + 1))) (fun _ => True).
Proof.
  unfold crypto_kem_enc_derand. cbv zeta. do 3 (apply logs_quiet; [solve [q]|]; intros ?).
  rewrite <- (app_nil_r (map _ _)). eapply logs_bind; [apply l_indcpa_enc|]. intros ? _.
  match goal with |- logs ?m _ _ => change (quiet m) end. q.
Qed.
Lemma l_dec lv fuel ss ct sk :
  logs (crypto_kem_dec lv fuel ss ct sk) (map Z.of_nat (seq 0 (2 * KYBER_K lv + 1))) (fun _ => True).
Proof.
  unfold crypto_kem_dec. cbv zeta. do 3 (apply logs_quiet; [solve [q]|]; intros ?).
  rewrite <- (app_nil_r (map _ _)). eapply logs_bind; [apply l_indcpa_enc|]. intros ? _.
  match goal with |- logs ?m _ _ => change (quiet m) end. q.
Qed.
End WithJunk.

Lemma nonces_distinct m : (m <= 256)%nat ->
  NoDup (map Z.of_nat (seq 0 m)) /\ forall n, In n (map Z.of_nat (seq 0 m)) -> 0 <= n < 256.
Proof.
  intros Hm. split.
  - apply Injective_map_NoDup; [intros x y E; lia|apply seq_NoDup].
  - intros n Hn. apply in_map_iff in Hn. destruct Hn as (x & <- & Hx). apply in_seq in Hx. lia.
Qed.

Lemma logs_elim {A} (m : res A) l v T : logs m l (fun _ => True) -> m = Ok v T -> nonces T = l.
Proof. intros L ->. apply L. Qed.
