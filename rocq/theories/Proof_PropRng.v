(** * C54, C55 in the vocabulary of the properties *)
From Coq Require Import ZArith List Lia Bool.
From Verif Require Import CMonad WP Proof_Base Model_Rng Spec_DRBG Vocab Vocab_Rng Proof_Verify Proof_Rng Proof_Expander.
Import ListNotations.
Open Scope Z_scope.
Open Scope cmonad_scope.

Lemma byte_array_iff m l : byte_array m l <-> length l = m /\ bytes l.
Proof.
  unfold byte_array, all_bytes, bytes. split; intros [L B]; (split; [exact L|]).
  - intros i Hi. pose proof (B (nth i l 0) (nth_In _ _ Hi)). lia.
  - intros x Hx. apply (In_nth l x 0) in Hx as (i & Hi & <-). pose proof (B i Hi). lia.
Qed.
Lemma block_cipher_he E : block_cipher E -> forall k b, length (E k b) = 16%nat /\ bytes (E k b).
Proof. intros HB k b. apply byte_array_iff, HB. Qed.
Lemma holds_iff d st : holds d st <-> state_is (d_key d) (d_v d) st.
Proof. unfold holds, state_is. rewrite !byte_array_iff. tauto. Qed.
Lemma valid48_iff p : valid48 p -> forall d, p = Some d -> length d = 48%nat /\ bytes d.
Proof. intros HV d E. apply byte_array_iff. now apply HV. Qed.

Lemma rng_init `{Junk} E d entropy pers : block_cipher E -> length (d_key d) = 32%nat -> length (d_v d) = 16%nat ->
  byte_array 48 entropy -> valid48 pers ->
  exists d', yields (randombytes_init E d entropy pers) d' /\ d_counter d' = 1 /\
    holds d' (CTR_DRBG_Instantiate E entropy (data_of pers)).
Proof.
  intros HB Lk Lv He Hp. apply byte_array_iff in He as [Le Be].
  destruct (Proof_Rng.init_ok E (block_cipher_he E HB) d entropy pers Lk Lv Le Be (valid48_iff pers Hp)) as (d' & Y & C & S).
  exists d'. split; [exact Y|]. split; [exact C|]. now apply holds_iff.
Qed.
Lemma cut (x : list Z) off n : (off + n <= length x)%nat -> exists pre old post, x = pre ++ old ++ post /\ length pre = off /\ length old = n.
Proof.
  intros L. destruct (split_at x off ltac:(lia)) as (pre & x' & -> & L1). rewrite app_length in L.
  destruct (split_at x' n ltac:(lia)) as (old & post & -> & L2). now exists pre, old, post.
Qed.
Lemma overwrite_mid pre old post new : length old = length new ->
  overwrite (pre ++ old ++ post) (length pre) new = pre ++ new ++ post.
Proof.
  intros L. unfold overwrite. rewrite firstn_app, Nat.sub_diag, firstn_O, app_nil_r, firstn_all. do 2 f_equal.
  rewrite skipn_app, skipn_all2 by lia. cbn [app]. rewrite skipn_app, skipn_all2 by lia. cbn [app].
  replace (length pre + length new - length pre - length old)%nat with 0%nat by lia. reflexivity.
Qed.
Lemma generate_length E n st : block_cipher E -> length (fst (CTR_DRBG_Generate E n st)) = n.
Proof.
  intros HB. unfold CTR_DRBG_Generate. cbn [fst]. rewrite firstn_length, (ctr_blocks_length E (block_cipher_he E HB)).
  pose proof (Nat.div_mod (n + 15) 16 ltac:(lia)). pose proof (Nat.mod_upper_bound (n + 15) 16 ltac:(lia)). lia.
Qed.
Lemma rng_generate `{Junk} E d st x off n : block_cipher E -> holds d st -> (off + n <= length x)%nat ->
  Z.of_nat n < 2 ^ 31 -> - 2 ^ 31 <= d_counter d < 2 ^ 31 - 1 ->
  exists d', yields (drbg_randombytes E d x off (Z.of_nat n)) (overwrite x off (fst (CTR_DRBG_Generate E n st)), d', 0) /\
    d_counter d' = d_counter d + 1 /\ holds d' (snd (CTR_DRBG_Generate E n st)).
Proof.
  intros HB HS L Hn Hc. destruct (cut x off n L) as (pre & old & post & -> & <- & <-).
  apply holds_iff in HS.
  destruct (randombytes_ok E (block_cipher_he E HB) d st pre old post HS Hn Hc) as (d' & Y & C & S).
  exists d'. split; [|split; [exact C|now apply holds_iff]].
  rewrite overwrite_mid by (now rewrite generate_length). exact Y.
Qed.
Lemma rng_undefined `{Junk} E d st x off n : block_cipher E -> holds d st -> (off + n <= length x)%nat ->
  2 ^ 31 <= Z.of_nat n \/ d_counter d = 2 ^ 31 - 1 ->
  undefined (drbg_randombytes E d x off (Z.of_nat n)) SignedOverflow.
Proof.
  intros HB HS L Hc. destruct (cut x off n L) as (pre & old & post & -> & <- & <-).
  apply holds_iff in HS. unfold undefined. destruct (Z.le_gt_cases (2 ^ 31) (Z.of_nat (length old))) as [Ge|Lt].
  - destruct HS as (Lk & Bk & Lv & Bv & _). now apply randombytes_long; [apply block_cipher_he|..].
  - destruct Hc as [Hc|Hc]; [lia|]. now apply (randombytes_exhausted E (block_cipher_he E HB) d st).
Qed.
Lemma rng_run `{Junk} E reqs : block_cipher E -> forall d st, holds d st -> Forall request_ok reqs ->
  0 <= d_counter d -> d_counter d + Z.of_nat (length reqs) < 2 ^ 31 ->
  yields (randombytes_run E d reqs) (generate_run E st reqs).
Proof.
  intros HB. induction reqs as [|[[x off] n] reqs IH]; intros d st HS F C0 Hc; cbn [randombytes_run generate_run].
  - apply yields_ret.
  - inversion F as [|? ? F1 F2]; subst. destruct F1 as [F1 F1']. cbn [length] in Hc.
    destruct (rng_generate E d st x off n HB HS F1 F1' ltac:(lia)) as (d' & Y & C & S).
    destruct (CTR_DRBG_Generate E n st) as [out st']. cbn [fst snd] in *.
    eapply yields_bind; [exact Y|]. cbv beta iota. eapply yields_bind; [apply (IH d' st' S F2); lia|]. cbv beta. apply yields_ret.
Qed.
Lemma rng_sequence `{Junk} E d entropy pers reqs : block_cipher E -> length (d_key d) = 32%nat -> length (d_v d) = 16%nat ->
  byte_array 48 entropy -> valid48 pers -> Forall request_ok reqs -> Z.of_nat (length reqs) < 2 ^ 31 - 1 ->
  yields (d <- randombytes_init E d entropy pers ;; randombytes_run E d reqs)
    (generate_run E (CTR_DRBG_Instantiate E entropy (data_of pers)) reqs).
Proof.
  intros HB Lk Lv He Hp F Hl. destruct (rng_init E d entropy pers HB Lk Lv He Hp) as (d' & Y & C & S).
  eapply yields_bind; [exact Y|]. cbv beta. apply rng_run; auto; lia.
Qed.

Lemma expander_bad `{Junk} ctx seed div maxlen : 2 ^ 32 <= maxlen ->
  yields (seedexpander_init ctx seed div maxlen) (ctx, -1).
Proof.
  intros Hm. unfold seedexpander_init. ystep. replace (4294967296 <=? maxlen) with true by (symmetry; apply Z.leb_le; lia). apply yields_ret.
Qed.
Lemma expander_stream `{Junk} E ctx seed div maxlen reqs : block_cipher E ->
  length (x_buffer ctx) = 16%nat -> length (x_key ctx) = 32%nat -> length (x_ctr ctx) = 16%nat ->
  byte_array 32 seed -> byte_array 8 div -> 0 <= maxlen < 2 ^ 32 -> Forall fits reqs ->
  yields ('(ctx, r) <- seedexpander_init ctx seed div maxlen ;; out <- expander_run E ctx reqs ;; ret (r, out))
    (0, expander_answers (expander_byte E seed div maxlen) maxlen 0 reqs).
Proof.
  intros HB Lb Lk Lc [Ls _] [Ld _] Hm F.
  destruct (Proof_Expander.init_ok E seed div maxlen Ls Ld ctx Lb Lk Lc Hm) as (ctx' & Y & A & R).
  eapply yields_bind; [exact Y|]. cbv beta iota. eapply yields_bind; [|apply yields_ret].
  apply (answers E (block_cipher_he E HB) seed div maxlen Ls Ld reqs ctx' 0 A); [lia|lia|exact F].
Qed.
Lemma bytes_given_less stream maxlen reqs : forall p, Z.of_nat p < maxlen ->
  Z.of_nat (p + bytes_given reqs (expander_answers stream maxlen p reqs)) < maxlen.
Proof.
  induction reqs as [|[[[x off]|] n] reqs IH]; intros p Hp; cbn [expander_answers bytes_given].
  - lia.
  - destruct (Z.ltb_spec (Z.of_nat (p + n)) maxlen) as [Lt|Ge]; cbn [bytes_given Z.eqb].
    + specialize (IH (p + n)%nat Lt). lia.
    + now apply IH.
  - now apply IH.
Qed.
Lemma expander_maximum : exists maxlen seed div x, 0 < maxlen < 2 ^ 32 /\ Z.of_nat (length x) = maxlen /\
  forall (JJ : Junk) E ctx, block_cipher E ->
  length (x_buffer ctx) = 16%nat -> length (x_key ctx) = 32%nat -> length (x_ctr ctx) = 16%nat ->
  yields ('(ctx, r) <- seedexpander_init ctx seed div maxlen ;;
          out <- expander_run E ctx [(Some (x, 0%nat), length x)] ;; ret (r, out))
    (0, [(Some (x, 0%nat), -3)]).
Proof.
  assert (Z0 : forall n, byte_array n (repeat 0 n)).
  { intros n. split; [apply repeat_length|]. intros x Hx. apply repeat_spec in Hx. lia. }
  exists 16, (repeat 0 32), (repeat 0 8), (repeat 0 16). split; [lia|]. split; [reflexivity|].
  intros JJ E ctx HB Lb Lk Lc. apply (expander_stream E ctx (repeat 0 32) (repeat 0 8) 16 [(Some (repeat 0 16, 0%nat), 16%nat)] HB Lb Lk Lc); auto; [lia|].
  constructor; [|constructor]. unfold fits. cbn. lia.
Qed.
