(** * Proofs behind Prop_Kat.v *)
From Coq Require Import ZArith List Lia Bool Ascii String.
From Verif Require Import CMonad Proof_Base Levels Model_Params Model_Rng Model_Tests Model_Kat Spec_DRBG Spec_FIPS202 Spec_FIPS203
  Vocab Vocab_Avx Vocab_Rng Vocab_Tests Vocab_Kat Run_Kem Proof_Cases Proof_Demo Proof_Rng Proof_Tests Proof_TestsTotal Proof_PropTests Proof_KatRead Proof_Kat.
Import ListNotations.
Open Scope Z_scope.
Open Scope cmonad_scope.
Notation length := List.length.

Lemma kat_run (JR : Junk) E lv fuel rounds opens JJ fs d : block_cipher E -> (rounds <= 100)%nat -> length (d_key d) = 32%nat -> length (d_v d) = 16%nat ->
  safely (kat_main E lv fuel rounds opens JJ fs d) (fun v => kat_outcome E lv rounds opens fs (fst v) (snd v)).
Proof. intros HE. exact (kat_safe JR E HE lv fuel rounds opens JJ fs d). Qed.
Lemma kat_complete (JR : Junk) E lv rounds opens out r : block_cipher E -> (rounds <= 100)%nat ->
  opens 0%nat = true -> opens 1%nat = true -> opens 2%nat = true -> responses E lv 0 (seeds_of E rounds) out r ->
  exists fuel0, forall fuel JJ fs d, (fuel0 <= fuel)%nat -> length (d_key d) = 32%nat -> length (d_v d) = 16%nat ->
    exists fs', yields (kat_main E lv fuel rounds opens JJ fs d) (r, fs') /\ kat_outcome E lv rounds opens fs r fs'.
Proof.
  intros HE Hr O0 O1 O2 HR. destruct (proj1 (kat_total JR E HE lv rounds opens Hr) out r O0 O1 O2 HR) as (f0 & C).
  exists f0. intros fuel JJ fs d Hf Lk Lv. destruct (C fuel JJ fs d Hf Lk Lv) as (fs' & Y & F). exists fs'. split; [exact Y|].
  unfold kat_outcome. rewrite O0, O1, O2. now exists out.
Qed.
Lemma kat_cannot_open (JR : Junk) E lv fuel rounds opens JJ fs d : block_cipher E -> (rounds <= 100)%nat ->
  opens 0%nat = false \/ opens 1%nat = false \/ opens 2%nat = false -> length (d_key d) = 32%nat -> length (d_v d) = 16%nat ->
  exists fs', yields (kat_main E lv fuel rounds opens JJ fs d) (-1, fs') /\ kat_outcome E lv rounds opens fs (-1) fs'.
Proof.
  intros HE Hr HO Lk Lv. destruct (proj2 (kat_total JR E HE lv rounds opens Hr) fuel JJ fs d HO Lk Lv) as (fs' & Y). exists fs'. split; [exact Y|].
  pose proof (kat_safe JR E HE lv fuel rounds opens JJ fs d Hr Lk Lv) as X. destruct Y as [T Y]. exact (safely_ok _ _ _ _ X Y).
Qed.

(** A table of blocks for which one entry is the demonstration exchange *)
Definition table (x : Z) : list Z :=
  if x =? be_value (map Z.of_nat (seq 32 16)) + 3 then be_bytes 16 1000
  else if x =? 1001 then firstn 16 demo_d else if x =? 1002 then skipn 16 demo_d
  else if x =? 1003 then firstn 16 demo_z else if x =? 1004 then skipn 16 demo_z
  else if x =? 1007 then be_bytes 16 2000
  else if x =? 2001 then firstn 16 demo_m else if x =? 2002 then skipn 16 demo_m
  else repeat 0 16.
Definition table_cipher (k b : list Z) : list Z := table (be_value b).
Lemma half_bytes l : byte_array 32 l -> byte_array 16 (firstn 16 l) /\ byte_array 16 (skipn 16 l).
Proof.
  intros [L B]. rewrite <- (firstn_skipn 16 l) in B. split; (split; [rewrite ?firstn_length, ?skipn_length; lia|]); intros x Hx; apply B; apply in_or_app; auto.
Qed.
Lemma table_ok : block_cipher table_cipher.
Proof.
  intros k b. unfold table_cipher, table. destruct (half_bytes _ demo_d_bytes). destruct (half_bytes _ demo_z_bytes). destruct (half_bytes _ demo_m_bytes).
  repeat (match goal with |- context [if ?c then _ else _] => destruct c end; [first [assumption|split; [apply be_bytes_length|apply be_bytes_bytes]]|]).
  split; [reflexivity|apply rep_bytes; lia].
Qed.
Definition demo_seed : list Z := repeat 0 32 ++ be_bytes 16 1000.
Lemma demo_seeds : seeds_of table_cipher 1 = [demo_seed].
Proof. vm_compute. reflexivity. Qed.
Lemma demo_dz : dz table_cipher demo_seed = demo_d ++ demo_z /\ m1 table_cipher demo_seed = demo_m.
Proof. split; vm_compute; reflexivity. Qed.
Lemma case_kat : exists ek dk K c, kat_exchange table_cipher Kyber512 demo_seed ek dk K c /\ Decaps_internal (PS Kyber512) dk c K /\
  responses table_cipher Kyber512 0 (seeds_of table_cipher 1) (entry_text 0 demo_seed ek dk K c ++ []) 0.
Proof.
  destruct demo_exchange_at as (ek & dk & K & c & Hc & X & HD & _). exists ek, dk, K, c.
  assert (HX : kat_exchange table_cipher Kyber512 demo_seed ek dk K c).
  { apply seed_exchange; [exact table_ok|]. apply X. destruct demo_dz as [E1 E2]. unfold sf. rewrite E1, E2, <- app_assoc.
    pose proof (piece_of_list [] demo_list [] 0 eq_refl) as P. rewrite app_nil_r in P. exact P. }
  split; [exact HX|]. split; [exact HD|]. rewrite demo_seeds. apply responses_next; [exact HX|exact HD|constructor].
Qed.
