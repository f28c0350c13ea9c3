(** * C56, C57: sources of random bytes, meaning of a failure, a concrete run *)
From Coq Require Import ZArith List Lia Bool String.
From Verif Require Import CMonad WP Proof_Base Levels Model_Params Model_Fips202 Model_Randombytes Model_Kem Model_AvxKem Spec_FIPS202 Spec_FIPS203 Spec_Noise
  Vocab Vocab_Code Vocab_Avx Vocab_Rng Vocab_Bind Model_Tests Vocab_Tests Proof_Shake Proof_Hash Proof_GenMatrix Proof_Kem Proof_Correct Proof_Api Proof_AvxApi
  Proof_Vocab Proof_PropKem Proof_PropAvxKem Proof_PropHash Proof_Random Proof_Rng Proof_Bind Run_Kem Proof_Demo Proof_Cases Proof_Tests Proof_TestsTotal.
Import ListNotations.
Open Scope Z_scope.
Open Scope cmonad_scope.
Notation length := List.length.
Notation overwrite := Vocab_Rng.overwrite.
Local Opaque SHA3_256 SHA3_512 SHAKE256 SHAKE128.
Local Opaque keypair_derand_of enc_derand_of dec_of.
Local Opaque crypto_kem_keypair_derand crypto_kem_enc_derand crypto_kem_dec
  crypto_kem_keypair_derand_avx2 crypto_kem_enc_derand_avx2 crypto_kem_dec_avx2.

(** ** Sources *)
Lemma total_stream {S} (rb : S -> list Z -> nat -> nat -> res (list Z * S)) f R : total_source rb f R -> stream_source rb f R.
Proof.
  intros H len lens p s x off HR L. destruct (H len lens p s x off HR L) as (s' & [T ->] & B & R'). cbn [safely fst snd]. auto.
Qed.
Lemma delivered_app a b : delivered (a ++ b) = delivered a ++ delivered b.
Proof. unfold delivered. apply flat_map_app. Qed.
Lemma kernel_bytes used : forall rest len, kernel_ok (used ++ rest) len -> ~ In Failed used -> shortest used len -> all_bytes (delivered used).
Proof.
  induction used as [|r used IH]; intros rest len HK NF Sh x Hx; [destruct Hx|].
  cbn [app kernel_ok] in HK. assert (P0 : (0 < len)%nat).
  { specialize (Sh [] (r :: used) eq_refl ltac:(discriminate)). cbn in Sh. exact Sh. }
  destruct HK as [HK|HK]; [lia|].
  assert (NF' : ~ In Failed used) by (intros I; apply NF; now right).
  destruct r as [| |bs].
  - apply (IH rest len HK NF'); [|exact Hx]. intros u v E Nv. specialize (Sh (Interrupted :: u) v). cbn [app] in Sh. rewrite E in Sh. now apply Sh.
  - elim NF. now left.
  - destruct HK as (Lb & Bb & HK). change (delivered (Delivered bs :: used)) with (bs ++ delivered used) in Hx.
    apply in_app_or in Hx as [Hx|Hx]; [now apply Bb|].
    apply (IH rest (len - length bs)%nat HK NF'); [|exact Hx]. intros u v E Nv. specialize (Sh (Delivered bs :: u) v). cbn [app] in Sh. rewrite E in Sh.
    specialize (Sh eq_refl Nv). change (delivered (Delivered bs :: u)) with (bs ++ delivered u) in Sh. rewrite app_length in Sh. lia.
Qed.
Lemma linux_source sched : stream_source randombytes (kernel_stream sched) (kernel_at sched).
Proof.
  intros len lens p s x off (used0 & E0 & Lp & HK & HN) L.
  pose proof (randombytes_spec s x off len HK L) as Sp.
  destruct (randombytes s x off len) as [[out rest] T|u| |] eqn:E; cbn [safely]; auto.
  destruct Sp as (used & Es & NF & Ld & Eo & Sh). cbn [fst snd].
  assert (EP : piece (kernel_stream sched) p len = delivered used).
  { apply nth_ext with (d := 0) (d' := 0); [now rewrite piece_length|]. rewrite piece_length. intros i Hi. rewrite piece_nth by exact Hi.
    unfold kernel_stream. rewrite E0, Es, !delivered_app, app_nth2, app_nth1 by lia. f_equal. lia. }
  rewrite EP. split; [exact Eo|]. split.
  - apply (kernel_bytes used rest len); [now rewrite <- Es|exact NF|exact Sh].
  - exists (used0 ++ used). split; [rewrite E0, Es; apply app_assoc|]. split; [rewrite delivered_app, app_length; lia|].
    exact (HN used rest Es NF Sh Ld).
Qed.

Definition shake_at (lens : list nat) (p : nat) (s : keccak_state) : Prop := squeezing 168 [] p s.
Lemma shake_stream_eq j : shake_stream j = stream 168 shake_sfx [] j.
Proof. unfold shake_stream. rewrite SHAKE128_stream. now rewrite nth_mk by lia. Qed.
Lemma shake_stream_bytes j : 0 <= shake_stream j < 256.
Proof.
  rewrite shake_stream_eq. unfold stream. match goal with |- context [sqbyte ?a ?b ?c] => pose proof (sqbyte_range a b c) end. lia.
Qed.
Lemma splice_overwrite (x new : list Z) off : splice x off new = overwrite x off new.
Proof. reflexivity. Qed.
Lemma shake_source : total_source shake_randombytes shake_stream shake_at.
Proof.
  intros len lens p s x off HR L. unfold shake_randombytes.
  destruct (shake_squeeze_wp SHAKE128_RATE 21 p off len rate128) as [T W]. destruct (W s x [] HR L) as ([o s'] & E & Eo & S').
  exists s'. assert (EP : piece shake_stream p len = mk len (fun j => stream 168 shake_sfx [] (p + j))).
  { apply nth_ext with (d := 0) (d' := 0); [now rewrite piece_length, mk_length|]. rewrite piece_length. intros i Hi.
    now rewrite piece_nth, nth_mk, shake_stream_eq by exact Hi. }
  rewrite EP. split; [exists T; rewrite E, Eo; reflexivity|]. split; [|exact S'].
  rewrite <- EP. intros y Hy. unfold piece in Hy. apply in_map_iff in Hy as (j & <- & _). apply shake_stream_bytes.
Qed.
Lemma rngstate_at lens : shake_at lens 0 rngstate.
Proof.
  destruct (absorb_session_ok SHAKE128_RATE 21 [] (KState (repeat 0 25) 0) rate128 eq_refl) as (st & T & E & Sq); [intros ? []|].
  assert (E' : exists T', absorb_session SHAKE128_RATE (KState (repeat 0 25) 0) [] = Ok rngstate T') by (eexists; vm_compute; reflexivity).
  destruct E' as (T' & E'). rewrite E' in E. injection E as <- _. exact Sq.
Qed.
(** The source of the KEM model *)
Lemma linux_keypair (JJ : Junk) lv fuel s pk sk : keypair_with randombytes Reference lv fuel JJ s pk sk = crypto_kem_keypair lv fuel s pk sk.
Proof. reflexivity. Qed.
Lemma linux_enc (JJ : Junk) lv fuel s ct ss pk : enc_with randombytes Reference lv fuel JJ s ct ss pk = crypto_kem_enc lv fuel s ct ss pk.
Proof. reflexivity. Qed.

(** ** Programs *)
Lemma test_kyber_total {S} (rb : S -> list Z -> nat -> nat -> res (list Z * S)) f R V lv p n r :
  total_source rb f R -> (forall j, 0 <= f j < 256) -> test_run lv f p n r ->
  exists fuel0 tries0, forall fuel tries JJ s, (fuel0 <= fuel)%nat -> (tries0 <= tries)%nat ->
    (forall lens, test_requests lv f p n lens -> R lens p s) ->
    exists s', yields (test_kyber_main rb V lv fuel tries n JJ s) (r, s').
Proof.
  intros HT HB X. destruct (test_main_total rb f R V lv HT HB p n r X) as (f0 & t0 & C). exists f0, t0. intros fuel tries JJ s Hf Ht HR.
  apply (C fuel tries JJ s Hf Ht). split; [apply demand_some|]. intros l Hl. now apply HR, demand_sub.
Qed.
Lemma test_vectors_safe {S} (rb : S -> list Z -> nat -> nat -> res (list Z * S)) f R V lv fuel n JJ p s :
  stream_source rb f R -> R (vectors_requests lv n) p s ->
  safely (test_vectors_main rb V lv fuel n JJ s) (fun v => let '(out, r, _) := v in vectors lv f p n out r).
Proof.
  intros HS HR. rewrite <- vdemand_requests in HR. unfold test_vectors_main.
  eapply safely_mono; [apply (vectors_safe rb f R V lv HS fuel JJ n p s); [exact HR|apply local_len..]|].
  intros [[out r] s'] H. exact H.
Qed.
Lemma test_vectors_total {S} (rb : S -> list Z -> nat -> nat -> res (list Z * S)) f R V lv p n out r :
  total_source rb f R -> (forall j, 0 <= f j < 256) -> vectors lv f p n out r ->
  exists fuel0, forall fuel JJ s, (fuel0 <= fuel)%nat -> R (vectors_requests lv n) p s ->
    exists s', yields (test_vectors_main rb V lv fuel n JJ s) (out, r, s').
Proof.
  intros HT HB X. destruct (vectors_total rb f R V lv HT HB p n out r X) as (f0 & C). exists f0. intros fuel JJ s Hf HR.
  rewrite <- vdemand_requests in HR. apply (C fuel JJ s); [exact Hf|exact HR|apply local_len..].
Qed.
Lemma shake_vectors_safe V lv fuel n JJ :
  safely (test_vectors_main shake_randombytes V lv fuel n JJ rngstate) (fun v => let '(out, r, _) := v in vectors lv shake_stream 0 n out r).
Proof. exact (test_vectors_safe _ _ _ V lv fuel n JJ 0 rngstate (total_stream _ _ _ shake_source) (rngstate_at _)). Qed.
Lemma shake_vectors_total V lv n out r : vectors lv shake_stream 0 n out r ->
  exists fuel0, forall fuel JJ, (fuel0 <= fuel)%nat -> exists s', yields (test_vectors_main shake_randombytes V lv fuel n JJ rngstate) (out, r, s').
Proof.
  intros X. destruct (test_vectors_total _ _ _ V lv 0 n out r shake_source shake_stream_bytes X) as (f0 & C). exists f0. intros fuel JJ Hf.
  exact (C fuel JJ rngstate Hf (rngstate_at _)).
Qed.
(** Two runs of the program, whatever the variant, the bounds and the stack contents *)
Lemma shake_vectors_same V1 V2 lv f1 f2 n J1 J2 v1 v2 :
  yields (test_vectors_main shake_randombytes V1 lv f1 n J1 rngstate) v1 ->
  yields (test_vectors_main shake_randombytes V2 lv f2 n J2 rngstate) v2 -> fst v1 = fst v2.
Proof.
  intros [T1 E1] [T2 E2]. destruct v1 as [[o1 r1] s1], v2 as [[o2 r2] s2]. cbn [fst].
  pose proof (safely_ok _ _ _ _ (shake_vectors_safe V1 lv f1 n J1) E1) as X1. pose proof (safely_ok _ _ _ _ (shake_vectors_safe V2 lv f2 n J2) E2) as X2.
  cbv beta iota in X1, X2.
  destruct (shake_vectors_total Reference lv n o1 r1 X1) as (a & A). destruct (shake_vectors_total Reference lv n o2 r2 X2) as (b & B).
  destruct (A (Nat.max a b) J1 ltac:(lia)) as (sa & Ta & Ea). destruct (B (Nat.max a b) J1 ltac:(lia)) as (sb & Tb & Eb).
  rewrite Ea in Eb. injection Eb as -> -> _ _. reflexivity.
Qed.

(** ** What a failure means *)
Lemma flipped_neq c i b c' : (i < length c)%nat -> b <> 0 -> flipped c i b c' -> c' <> c.
Proof.
  intros Hi Hb [_ E] ->. specialize (E i). rewrite Nat.eqb_refl in E. apply Hb.
  transitivity (Z.lxor (nth i c 0) (Z.lxor (nth i c 0) b)); [now rewrite <- Z.lxor_assoc, Z.lxor_nilpotent|]. now rewrite <- E, Z.lxor_nilpotent.
Qed.
Section Failures.
Variables (lv : level) (f : nat -> Z).
Hypothesis HB : forall j, 0 <= f j < 256.
Let PB p m : byte_array m (piece f p m) := piece_bytes f HB p m.

Lemma keys_failure p r : keys_result lv f p r ->
  r = 0 \/ r = 1 /\ exists ek dk A, KeyGen_internal (PS lv) (piece f p 32) (piece f (p + 32) 32) ek dk /\
    is_matrix (PS lv) (keygen_rho (PS lv) (piece f p 32)) A /\
    ~ noise_decodes (piece f (p + 64) 32)
        (decryption_noise (PS lv) A (piece f p 32) (piece f (p + 64) 32) (skipn 32 (SHA3_512 (piece f (p + 64) 32 ++ SHA3_256 ek)))).
Proof.
  intros (ek & dk & K & c & [HK HE] & K' & HD & [[E ->]|[N ->]]); [now left|right]. split; [reflexivity|].
  pose proof HK as (A & pke & HA & _). exists ek, dk, A. split; [exact HK|]. split; [exact HA|]. intros HN. apply N.
  refine (ML_KEM_agreement lv (piece f p 32) (piece f (p + 32) 32) (piece f (p + 64) 32) ek dk K c K' (PB _ _) (PB _ _) HK HE _ HD).
  intros A' HA'. rewrite (is_matrix_functional _ _ _ _ HA' HA). exact HN.
Qed.
Lemma Encaps_key ek m K c : Encaps_internal (PS lv) ek m K c -> K = accept_key (m ++ SHA3_256 ek).
Proof. intros (A & _ & E & _). exact E. Qed.
Lemma Decaps_cases s t rho h z c K : byte_array (384 * k (PS lv)) s -> byte_array (384 * k (PS lv)) t -> byte_array 32 rho -> byte_array 32 h -> byte_array 32 z ->
  byte_array (KYBER_CIPHERTEXTBYTES lv) c -> Decaps_internal (PS lv) (s ++ t ++ rho ++ h ++ z) c K ->
  K = accept_key (K_PKE_Decrypt (PS lv) s c ++ h) \/ K = reject_key (z ++ c).
Proof.
  intros Hs Ht Hr Hh Hz Hc HD.
  destruct (dec_of_complete Reference lv c _ K Hc (sk_of lv s t rho h z Hs Ht Hr Hh Hz) HD) as (f0 & C).
  destruct (C f0 no_junk (repeat 0 32) (le_n _) eq_refl) as (T & E).
  destruct (dec_of_cases _ _ _ _ _ _ _ _ _ _ _ _ _ _ len32 Hc Hs Ht Hr Hh Hz E) as (A & _ & [[_ X]|[_ X]]); [now left|now right].
Qed.
Lemma sk_piece p : piece f p (skbytes lv) =
  piece f p (384 * k (PS lv)) ++ piece f (p + 384 * k (PS lv)) (384 * k (PS lv)) ++ piece f (p + 768 * k (PS lv)) 32 ++
  piece f (p + 768 * k (PS lv) + 32) 32 ++ piece f (p + 768 * k (PS lv) + 64) 32.
Proof.
  unfold skbytes. rewrite (proj1 (proj2 (sk_sizes lv))). generalize (k (PS lv)). intros K. rewrite !piece_split.
  replace (p + 384 * K + 384 * K)%nat with (p + 768 * K)%nat by lia. replace (p + 768 * K + 32 + 32)%nat with (p + 768 * K + 64)%nat by lia. reflexivity.
Qed.
Lemma sk_failure p r : sk_result lv f p r ->
  let q := (p + 96)%nat in
  let s := piece f q (384 * k (PS lv)) in
  let h := piece f (q + 768 * k (PS lv) + 32) 32 in
  let z := piece f (q + 768 * k (PS lv) + 64) 32 in
  let m := piece f (p + 64) 32 in
  r = 0 \/ r = 1 /\ exists ek dk K c, exchange_at lv f p ek dk K c /\
    (accept_key (K_PKE_Decrypt (PS lv) s c ++ h) = accept_key (m ++ SHA3_256 ek) \/ reject_key (z ++ c) = accept_key (m ++ SHA3_256 ek)).
Proof.
  intros (ek & dk & K & c & X & K' & HD & HE) q s h z m. destruct HE as [[E Hr]|[N Hr]]; [right|left; lia]. split; [lia|].
  exists ek, dk, K, c. split; [exact X|]. destruct (exchange_sizes f lv HB _ _ _ _ _ X) as (_ & _ & _ & Hc).
  rewrite sk_piece in HD. destruct X as [_ HE]. apply Encaps_key in HE. subst K'.
  destruct (Decaps_cases _ _ _ _ _ c K (PB _ _) (PB _ _) (PB _ _) (PB _ _) (PB _ _) Hc HD) as [D|D]; [left|right]; unfold s, h, z, m, q; congruence.
Qed.
Lemma ct_failure p i r : ct_result lv f p i r ->
  let q := (p + i + 9)%nat in
  let m := piece f (q + 64) 32 in
  let z := piece f (q + 32) 32 in
  r = 0 \/ r = 1 /\ exists ek s K c c', exchange_at lv f q ek (s ++ ek ++ SHA3_256 ek ++ z) K c /\ length s = (384 * k (PS lv))%nat /\ c' <> c /\
    flipped c (Z.to_nat (position_at f (p + i + 1) mod Z.of_nat (ctbytes lv))) (f (p + i)%nat) c' /\
    (collide accept_key (m ++ SHA3_256 ek) (K_PKE_Decrypt (PS lv) s c' ++ SHA3_256 ek) \/ accept_key (m ++ SHA3_256 ek) = reject_key (z ++ c')).
Proof.
  intros (F & ek & dk & K & c & c' & X & Fl & K' & HD & HE) q m z. destruct HE as [[E Hr]|[N Hr]]; [right|left; lia]. split; [lia|]. subst K'.
  destruct (exchange_sizes f lv HB _ _ _ _ _ X) as (He & Hd & HKb & Hc).
  assert (Hpos : (Z.to_nat (position_at f (p + i + 1) mod Z.of_nat (ctbytes lv)) < length c)%nat).
  { destruct Hc as [-> _]. fold (ctbytes lv). assert (0 < Z.of_nat (ctbytes lv)) by (destruct lv; cbn; lia).
    pose proof (Z.mod_pos_bound (position_at f (p + i + 1)) (Z.of_nat (ctbytes lv)) ltac:(assumption)). lia. }
  destruct (flip_ok c _ (f (p + i)%nat) Hpos (proj2 Hc) (HB _)) as (c'' & _ & Fl' & Hc'). rewrite (flipped_eq _ _ _ _ _ Fl' Fl) in *. clear Fl'.
  rewrite (proj1 Hc) in Hc'. pose proof (flipped_neq _ _ _ _ Hpos (proj1 F) Fl) as NE.
  pose proof X as [(A & s & HA & EK & Edk) HEn]. change (Spec_FIPS203.H ek) with (SHA3_256 ek) in Edk. fold q in Edk, X |- *. fold z in Edk. subst dk.
  assert (Hs : byte_array (384 * k (PS lv)) s).
  { pose proof (proj1 Hd) as L. rewrite !app_length, (proj1 He), (proj1 (hash_array ek)), (proj1 (PB (q + 32)%nat 32%nat : byte_array 32 z)) in L.
    pose proof (sk_sizes lv) as (_ & S2 & S3). rewrite S2, S3 in L. split; [lia|]. intros y Hy. apply (proj2 Hd). apply in_or_app. now left. }
  exists ek, s, K, c, c'. split; [exact X|]. split; [exact (proj1 Hs)|]. split; [exact NE|]. split; [exact Fl|].
  destruct (enc_of_complete Reference lv ek _ K c He (PB _ _) HEn) as (f1 & C1). destruct (dec_of_complete Reference lv c' _ K Hc' Hd HD) as (f2 & C2).
  destruct (C1 f1 no_junk (repeat 0 (KYBER_CIPHERTEXTBYTES lv)) (repeat 0 32) (le_n _) (repeat_length _ _) eq_refl) as (T1 & E1).
  destruct (C2 f2 no_junk (repeat 0 32) (le_n _) eq_refl) as (T2 & E2).
  exact (replaced Reference Reference lv f1 f2 no_junk no_junk _ _ _ ek m c K c' s z K 0 0 T1 T2 (repeat_length _ _) len32 He (PB _ _) len32 Hc' Hs (PB _ _) E1 E2 NE eq_refl).
Qed.
End Failures.
Lemma exit_status lv f p n r : test_run lv f p n r -> r = 0 \/ r = 1 /\ exists q i, keys_result lv f q 1 \/ sk_result lv f q 1 \/ ct_result lv f q i 1.
Proof.
  intros X. induction X as [p|p n r1 r2 i r3 K1 K2 K3 N|p n i r K1 K2 K3 _ IH]; [now left| |exact IH].
  right. split; [reflexivity|].
  assert (B1 : r1 = 0 \/ r1 = 1) by (destruct K1 as (ek & dk & K & c & _ & A); exact (agree_bit _ _ _ _ _ A)).
  assert (B2 : r2 = 0 \/ r2 = 1) by (destruct K2 as (ek & dk & K & c & _ & A); apply agree_bit in A; lia).
  assert (B3 : r3 = 0 \/ r3 = 1) by (destruct K3 as (_ & ek & dk & K & c & c' & _ & _ & A); apply agree_bit in A; lia).
  destruct B1 as [-> | ->]; [|exists p, i; auto]. destruct B2 as [-> | ->]; [|exists (p + 96)%nat, i; auto].
  destruct B3 as [-> | ->]; [tauto|]. exists (p + 192 + skbytes lv)%nat, i. auto.
Qed.

(** ** A concrete run *)
(** A source that reads a stream given in advance; its state is the position *)
Definition scripted (f : nat -> Z) (p : nat) (x : list Z) (off len : nat) : res (list Z * nat) :=
  if (off + len <=? length x)%nat then ret (overwrite x off (piece f p len), (p + len)%nat) else UB OutOfBounds.
Definition at_position (lens : list nat) (p s : nat) : Prop := s = p.
Lemma scripted_source f : (forall j, 0 <= f j < 256) -> total_source (scripted f) f at_position.
Proof.
  intros HB len lens p s x off -> L. exists (p + len)%nat. split; [|split; [exact (proj2 (piece_bytes f HB p len))|reflexivity]].
  unfold scripted. apply Nat.leb_le in L. rewrite L. apply yields_ret.
Qed.
Definition demo_list : list Z := demo_d ++ demo_z ++ demo_m.
(** One round of test_kyber: three exchanges, a random secret key, a zero byte, the mask 7, the position 5 *)
Definition demo_sk : list Z := repeat 0 768 ++ repeat 0 768 ++ demo_rho ++ repeat 0 32 ++ repeat 0 32.
Definition demo_round : list Z := demo_list ++ demo_list ++ demo_sk ++ [0; 7] ++ [5; 0; 0; 0; 0; 0; 0; 0] ++ demo_list.
Definition demo_stream (j : nat) : Z := nth j demo_round 0.
(** One round of test_vectors: an exchange and a random ciphertext *)
Definition demo_script (j : nat) : Z := nth j (demo_list ++ repeat 9 768) 0.
Lemma nth_bytes l j : all_bytes l -> 0 <= nth j l 0 < 256.
Proof. intros B. destruct (Nat.lt_ge_cases j (length l)) as [H|H]; [now apply B, nth_In|rewrite nth_overflow by lia; lia]. Qed.
Lemma piece_of_list a b c p : length a = p -> piece (fun j => nth j (a ++ b ++ c) 0) p (length b) = b.
Proof.
  intros L. apply nth_ext with (d := 0) (d' := 0); [apply piece_length|]. rewrite piece_length. intros i Hi. rewrite piece_nth by exact Hi.
  rewrite app_nth2, app_nth1 by lia. f_equal. lia.
Qed.
Lemma app_bytes a b : all_bytes a -> all_bytes b -> all_bytes (a ++ b).
Proof. intros A B x Hx. apply in_app_or in Hx as [Hx|Hx]; auto. Qed.
Lemma rep_bytes v m : 0 <= v < 256 -> all_bytes (repeat v m).
Proof. intros H x Hx. apply repeat_spec in Hx. now subst. Qed.
Lemma demo_list_len : length demo_list = 96%nat.
Proof. reflexivity. Qed.
Lemma demo_list_bytes : all_bytes demo_list.
Proof. apply app_bytes; [apply demo_d_bytes|]. apply app_bytes; [apply demo_z_bytes|apply demo_m_bytes]. Qed.
Lemma rho_array : byte_array 32 demo_rho.
Proof. demo_open. exact Hr. Qed.
Lemma demo_sk_array : byte_array 1632 demo_sk.
Proof.
  destruct rho_array as [L B]. split.
  - unfold demo_sk. rewrite !app_length, !repeat_length, L. reflexivity.
  - unfold demo_sk. apply app_bytes; [apply rep_bytes; lia|]. apply app_bytes; [apply rep_bytes; lia|]. apply app_bytes; [exact B|].
    apply app_bytes; apply rep_bytes; lia.
Qed.
Lemma demo_round_bytes : all_bytes demo_round.
Proof.
  unfold demo_round. apply app_bytes; [apply demo_list_bytes|]. apply app_bytes; [apply demo_list_bytes|].
  apply app_bytes; [exact (proj2 demo_sk_array)|]. apply app_bytes; [intros x [<-|[<-|[]]]; lia|].
  apply app_bytes; [intros x Hx; cbn in Hx; intuition lia|apply demo_list_bytes].
Qed.
Lemma demo_stream_bytes j : 0 <= demo_stream j < 256.
Proof. apply nth_bytes, demo_round_bytes. Qed.
Lemma demo_script_bytes j : 0 <= demo_script j < 256.
Proof. apply nth_bytes. apply app_bytes; [exact demo_list_bytes|apply rep_bytes; lia]. Qed.

(** An exchange wherever the stream carries the demonstration bytes *)
Lemma demo_pieces f p : piece f p 96 = demo_list -> piece f p 32 = demo_d /\ piece f (p + 32) 32 = demo_z /\ piece f (p + 64) 32 = demo_m.
Proof.
  intros E. change 96%nat with (32 + (32 + 32))%nat in E. rewrite !piece_split in E. replace (p + 32 + 32)%nat with (p + 64)%nat in E by lia.
  apply app_eq_app_len in E as [E1 E]; [|rewrite piece_length; reflexivity]. apply app_eq_app_len in E as [E2 E3]; [|rewrite piece_length; reflexivity]. auto.
Qed.
Lemma demo_exchange_at : exists ek dk K c, byte_array 768 c /\
  (forall f p, piece f p 96 = demo_list -> exchange_at Kyber512 f p ek dk K c) /\ Decaps_internal (PS Kyber512) dk c K /\
  forall c', byte_array 768 c' -> (exists K', Decaps_internal (PS Kyber512) dk c' K') /\ (exists K', Decaps_internal (PS Kyber512) demo_sk c' K').
Proof.
  demo_open. pose proof (demo_pk t Ht Hr) as Hp. pose proof (sk_of Kyber512 s t demo_rho _ demo_z Hs Ht Hr Hh demo_z_bytes) as Hdk.
  pose proof (proj2 (keypair_sound' _ _ _ _ _ _ _ _ _ _ _ len_pk len_sk demo_d_bytes demo_z_bytes E1)) as X1.
  pose proof (proj2 (enc_sound _ _ _ _ _ _ _ _ _ _ _ len_ct len32 Hp demo_m_bytes E2)) as X2.
  pose proof (proj2 (dec_sound _ _ _ _ _ _ _ _ _ len32 Hc Hdk E3)) as X3.
  do 4 eexists. split; [exact Hc|]. split; [|split; [exact X3|]].
  - intros f p E. destruct (demo_pieces f p E) as (Ed & Ez & Em). unfold exchange_at. rewrite Ed, Ez, Em. split; [exact X1|exact X2].
  - intros c' Hc2. destruct (any_secret_key Reference Kyber512 demo_rho A Hr HA) as (f0 & C). split.
    + destruct (C f0 no_junk (repeat 0 32) c' s t (SHA3_256 (t ++ demo_rho)) demo_z (le_n _) len32 Hc2 Hs Ht Hh demo_z_bytes) as (K' & T & E).
      exists K'. exact (proj2 (dec_of_sound Reference no_junk Kyber512 _ _ _ _ _ _ _ len32 Hc2 Hdk E)).
    + assert (Z1 : byte_array (384 * k (PS Kyber512)) (repeat 0 768)) by (split; [reflexivity|apply rep_bytes; lia]).
      assert (Z2 : byte_array 32 (repeat 0 32)) by (split; [reflexivity|apply rep_bytes; lia]).
      destruct (C f0 no_junk (repeat 0 32) c' _ _ _ _ (le_n _) len32 Hc2 Z1 Z1 Z2 Z2) as (K' & T & E).
      exists K'. exact (proj2 (dec_of_sound Reference no_junk Kyber512 _ _ _ _ _ _ _ len32 Hc2 (sk_of Kyber512 _ _ _ _ _ Z1 Z1 Hr Z2 Z2) E)).
Qed.
Lemma agree_some lv dk c K : (exists K', Decaps_internal (PS lv) dk c K') -> exists r, (r = 0 \/ r = 1) /\ agree lv dk c K r.
Proof.
  intros (K' & HD). destruct (list_eq_dec Z.eq_dec K' K) as [E|E]; [exists 0|exists 1]; (split; [auto|]); exists K'; auto.
Qed.
Lemma agree_flip lv dk c K r : agree lv dk c K r -> agree lv dk c K (1 - (1 - r)).
Proof. now replace (1 - (1 - r)) with r by lia. Qed.
Lemma demo_round_run : exists r, test_run Kyber512 demo_stream 0 1 r.
Proof.
  destruct demo_exchange_at as (ek & dk & K & c & Hc & X & HD & HA).
  assert (P0 : piece demo_stream 0 96 = demo_list) by exact (piece_of_list [] demo_list _ 0 eq_refl).
  assert (P1 : piece demo_stream 96 96 = demo_list) by exact (piece_of_list demo_list demo_list _ 96 eq_refl).
  assert (Ls : length demo_sk = 1632%nat) by exact (proj1 demo_sk_array).
  assert (P2 : piece demo_stream 192 1632 = demo_sk).
  { rewrite <- Ls. unfold demo_stream, demo_round. rewrite app_assoc. apply piece_of_list. reflexivity. }
  assert (P3 : forall j, demo_stream (1824 + j) = nth j ([0; 7] ++ [5; 0; 0; 0; 0; 0; 0; 0] ++ demo_list) 0).
  { intros j. unfold demo_stream, demo_round. rewrite !app_assoc. rewrite <- (app_assoc _ [0; 7] _), <- (app_assoc _ (_ ++ _) demo_list).
    rewrite <- (app_assoc [0; 7]). rewrite app_nth2; rewrite !app_length, Ls, demo_list_len; [f_equal; lia|lia]. }
  assert (P4 : piece demo_stream 1834 96 = demo_list).
  { apply nth_ext with (d := 0) (d' := 0); [now rewrite piece_length|]. rewrite piece_length. intros i Hi. rewrite piece_nth by exact Hi.
    replace (1834 + i)%nat with (1824 + (10 + i))%nat by lia. rewrite P3. reflexivity. }
  assert (K1 : keys_result Kyber512 demo_stream 0 0).
  { exists ek, dk, K, c. split; [now apply X|]. exists K. auto. }
  destruct (agree_some Kyber512 demo_sk c K (proj2 (HA c Hc))) as (r2 & B2 & A2).
  assert (K2 : sk_result Kyber512 demo_stream 96 (1 - r2)).
  { exists ek, dk, K, c. split; [now apply X|]. apply agree_flip. change (96 + 96)%nat with 192%nat. change (skbytes Kyber512) with 1632%nat. rewrite P2. exact A2. }
  assert (F : first_nonzero demo_stream 1824 1).
  { split; [rewrite P3; cbn; lia|]. intros j Hj. replace j with 0%nat by lia. rewrite P3. reflexivity. }
  assert (Hpos : (5 < length c)%nat) by (destruct Hc as [-> _]; lia).
  destruct (flip_ok c 5 (demo_stream 1825) Hpos (proj2 Hc) (demo_stream_bytes _)) as (c' & _ & Fl & Hc'). rewrite (proj1 Hc) in Hc'.
  destruct (agree_some Kyber512 dk c' K (proj1 (HA c' Hc'))) as (r3 & B3 & A3).
  assert (K3 : ct_result Kyber512 demo_stream 1824 1 (1 - r3)).
  { split; [exact F|]. exists ek, dk, K, c, c'. split; [now apply X|]. split; [|now apply agree_flip].
    assert (EP : position_at demo_stream (1824 + 1 + 1) = 5).
    { unfold position_at. cbn [seq fold_right]. change (1824 + 1 + 1)%nat with (1824 + 2)%nat. rewrite <- !Nat.add_assoc, !P3. reflexivity. }
    rewrite EP. exact Fl. }
  destruct (Z.eq_dec r2 1) as [->|N2]; [destruct (Z.eq_dec r3 1) as [->|N3]|].
  - exists 0. eapply test_next; [exact K1|exact K2|exact K3|]. apply test_done.
  - exists 1. apply (test_fail Kyber512 demo_stream 0 0 0 _ 1 _ K1 K2 K3). lia.
  - exists 1. apply (test_fail Kyber512 demo_stream 0 0 0 _ 1 _ K1 K2 K3). lia.
Qed.
Lemma case_test_kyber V : exists r fuel0 tries0, test_run Kyber512 demo_stream 0 1 r /\
  forall fuel tries JJ, (fuel0 <= fuel)%nat -> (tries0 <= tries)%nat ->
    exists s', yields (test_kyber_main (scripted demo_stream) V Kyber512 fuel tries 1 JJ 0%nat) (r, s').
Proof.
  destruct demo_round_run as (r & X).
  destruct (test_kyber_total _ _ _ V Kyber512 0 1 r (scripted_source _ demo_stream_bytes) demo_stream_bytes X) as (f0 & t0 & C).
  exists r, f0, t0. split; [exact X|]. intros fuel tries JJ Hf Ht. apply (C fuel tries JJ 0%nat Hf Ht). intros lens _. reflexivity.
Qed.
(** test_keys on a Linux kernel that delivers in pieces and is interrupted *)
Definition demo_schedule : list reply := [Delivered demo_d; Interrupted; Delivered demo_z; Delivered demo_m].
Lemma case_linux : kernel_at demo_schedule [64; 32]%nat 0 demo_schedule.
Proof.
  exists []. split; [reflexivity|]. split; [reflexivity|]. cbn [kernel_run]. split.
  - unfold demo_schedule. cbn [kernel_ok]. right. split; [apply Nat.leb_le; reflexivity|]. split; [exact (proj2 demo_d_bytes)|].
    right. right. split; [apply Nat.leb_le; reflexivity|]. split; [exact (proj2 demo_z_bytes)|]. left. reflexivity.
  - intros used rest E NF Sh Ld.
    assert (rest = [Delivered demo_m]).
    { destruct used as [|a [|b [|c [|d used]]]]; unfold demo_schedule in E; cbn [app] in E.
      - discriminate Ld.
      - injection E as <- _. discriminate Ld.
      - injection E as <- <- _. discriminate Ld.
      - injection E as <- <- <- <-. reflexivity.
      - injection E as <- <- <- <- E. destruct used; [cbn [app] in E|discriminate E]. discriminate Ld. }
    subst rest. split; [|auto]. cbn [kernel_ok]. right. split; [cbn; lia|]. split; [exact (proj2 demo_m_bytes)|]. exact I.
Qed.
Lemma case_vectors V : exists ek dk K c K2 fuel0,
  let out := dump "Public Key: " ek ++ dump "Secret Key: " dk ++ dump "Ciphertext: " c ++ dump "Shared Secret B: " K ++
    dump "Shared Secret A: " K ++ dump "Pseudorandom shared Secret A: " K2 ++ [] in
  Decaps_internal (PS Kyber512) dk (repeat 9 768) K2 /\
  vectors Kyber512 demo_script 0 1 out 0 /\
  forall fuel JJ, (fuel0 <= fuel)%nat -> exists s', yields (test_vectors_main (scripted demo_script) V Kyber512 fuel 1 JJ 0%nat) (out, 0, s').
Proof.
  destruct demo_exchange_at as (ek & dk & K & c & Hc & X & HD & HA).
  assert (P0 : piece demo_script 0 96 = demo_list) by exact (piece_of_list [] demo_list _ 0 eq_refl).
  assert (P1 : piece demo_script 96 768 = repeat 9 768).
  { unfold demo_script. rewrite <- (app_nil_r (repeat 9 768)). exact (piece_of_list demo_list (repeat 9 768) [] 96 eq_refl). }
  destruct (proj1 (HA (repeat 9 768) ltac:(split; [reflexivity|apply rep_bytes; lia]))) as (K2 & HD2).
  assert (XV : vectors Kyber512 demo_script 0 1 (dump "Public Key: " ek ++ dump "Secret Key: " dk ++ dump "Ciphertext: " c ++
    dump "Shared Secret B: " K ++ dump "Shared Secret A: " K ++ dump "Pseudorandom shared Secret A: " K2 ++ []) 0).
  { apply vectors_next; [now apply X|exact HD| |apply vectors_done]. change (0 + 96)%nat with 96%nat. change (ctbytes Kyber512) with 768%nat. rewrite P1. exact HD2. }
  destruct (test_vectors_total _ _ _ V Kyber512 0 1 _ _ (scripted_source _ demo_script_bytes) demo_script_bytes XV) as (f0 & C).
  exists ek, dk, K, c, K2, f0. cbv zeta. split; [exact HD2|]. split; [exact XV|]. intros fuel JJ Hf. exact (C fuel JJ 0%nat Hf eq_refl).
Qed.
