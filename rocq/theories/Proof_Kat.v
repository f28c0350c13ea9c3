(** * The known-answer-test generator as a whole *)
From Coq Require Import ZArith List Lia Bool Ascii String DecimalString.
From Verif Require Import CMonad WP Proof_Base Levels Model_Params Model_Randombytes Model_Rng Model_Tests Model_Kat Spec_DRBG Spec_FIPS202 Spec_FIPS203
  Vocab Vocab_Avx Vocab_Rng Vocab_Tests Vocab_Kat Proof_Api Proof_PropAvxKem Proof_Rng Proof_PropRng Proof_Tests Proof_TestsTotal Proof_PropTests Proof_KatRead.
Import ListNotations.
Open Scope Z_scope.
Open Scope cmonad_scope.
Notation length := List.length.
Notation overwrite := Vocab_Rng.overwrite.
Local Opaque SHA3_256 SHA3_512 SHAKE256 SHAKE128.
Local Opaque keypair_derand_of enc_derand_of dec_of.
Local Opaque CTR_DRBG_Generate CTR_DRBG_Instantiate drbg_randombytes randombytes_init.

Lemma dec_safe0 V (JJ : Junk) lv fuel ss ct sk : length ss = 32%nat -> byte_array (KYBER_CIPHERTEXTBYTES lv) ct ->
  byte_array (KYBER_SECRETKEYBYTES lv) sk ->
  safely (dec_of V JJ lv fuel ss ct sk) (fun v => let '(K, r) := v in r = 0 /\ Decaps_internal (PS lv) sk ct K /\ byte_array 32 K).
Proof.
  intros Ls Hc Hk. pose proof (dec_safe V JJ lv fuel ss ct sk Ls Hc Hk) as X.
  destruct (dec_of V JJ lv fuel ss ct sk) as [[K r] T|u| |] eqn:E; cbn [safely] in *; auto.
  split; [exact (proj1 (dec_of_sound V JJ lv fuel ss ct sk K r T Ls Hc Hk E))|exact X].
Qed.

Lemma safely_step {A B} (m : res A) (f : A -> res B) v Q : yields m v -> safely (f v) Q -> safely (bind m f) Q.
Proof. intros [T ->] H. unfold bind, safely in *. now destruct (f v). Qed.

(** [m] comes down to [m'] *)
Definition leads {A} (m m' : res A) : Prop := exists T, m = bind (Ok tt T) (fun _ => m').
Lemma leads_refl {A} (m : res A) : leads m m.
Proof. exists []. unfold bind. now destruct m. Qed.
Lemma leads_step {A B} (m : res A) (f : A -> res B) v m' : yields m v -> leads (f v) m' -> leads (bind m f) m'.
Proof.
  intros [T ->] [T' H]. exists (T ++ T'). unfold bind in *. rewrite H. destruct m'; try reflexivity. now rewrite app_assoc.
Qed.
Lemma leads_safely {A} (m m' : res A) Q : leads m m' -> safely m' Q -> safely m Q.
Proof. intros [T ->] H. unfold bind. now destruct m'. Qed.
Lemma leads_yields {A} (m m' : res A) v : leads m m' -> yields m' v -> yields m v.
Proof. intros [T ->] [T' ->]. unfold bind. now eexists. Qed.

(** ** Occurrences, by computation *)
Definition at_ (file m : list Z) (j : nat) : bool := if list_eq_dec Z.eq_dec (firstn (length m) (skipn j file)) m then true else false.
Lemma at_true file m j pre post : file = pre ++ m ++ post -> length pre = j -> at_ file m j = true.
Proof.
  intros -> <-. unfold at_. rewrite skipn_app, skipn_all, Nat.sub_diag. cbn [app skipn].
  rewrite firstn_app, Nat.sub_diag, firstn_all. cbn [firstn]. rewrite app_nil_r. now destruct (list_eq_dec Z.eq_dec m m).
Qed.
Lemma first_by pre m post : forallb (fun j => negb (at_ (pre ++ m) m j)) (seq 0 (length pre)) = true -> first_occurrence (pre ++ m ++ post) m pre post.
Proof.
  intros C. split; [reflexivity|]. intros pre' post' EF. destruct (Nat.le_gt_cases (length pre) (length pre')) as [H|H]; [exact H|exfalso].
  rewrite forallb_forall in C. specialize (C (length pre') ltac:(apply in_seq; lia)).
  pose proof (at_true _ m _ pre' post' EF eq_refl) as X. apply negb_true_iff in C. unfold at_ in *.
  assert (E2 : firstn (length m) (skipn (length pre') (pre ++ m ++ post)) = firstn (length m) (skipn (length pre') (pre ++ m))); [|rewrite E2 in X; congruence].
  rewrite app_assoc, (skipn_app _ (pre ++ m) post), firstn_app, skipn_length, app_length.
  replace (length m - (length pre + length m - length pre'))%nat with 0%nat by lia. cbn [firstn]. now rewrite app_nil_r.
Qed.
Lemma never_by file m : forallb (fun j => negb (at_ file m j)) (seq 0 (S (length file))) = true -> ~ occurs file m.
Proof.
  intros C (pre & post & EF). rewrite forallb_forall in C. specialize (C (length pre)).
  rewrite (at_true file m (length pre) pre post EF eq_refl) in C. discriminate C. apply in_seq. rewrite EF, app_length. lia.
Qed.

(** ** Numbers *)
Lemma decimal_small i : (i < 100)%nat -> print_int (Z.of_nat i) = decimal i.
Proof. intros H. do 100 (destruct i as [|i]; [reflexivity|]). lia. Qed.
Lemma scan_small i rest : (i < 100)%nat -> yields (scan_int (decimal i ++ 10 :: rest)) (Some (Z.of_nat i), 10 :: rest).
Proof. intros H. do 100 (destruct i as [|i]; [eexists; reflexivity|]). lia. Qed.
Lemma text_characters_decimal i : (i < 100)%nat -> forall c, In c (decimal i) -> 0 <= c < 256.
Proof.
  intros _ c. unfold decimal, text. rewrite in_map_iff. intros (a & <- & _). pose proof (nat_ascii_bounded a). lia.
Qed.
Lemma text_bytes s : all_bytes (text s).
Proof. intros c. unfold text. rewrite in_map_iff. intros (a & <- & _). pose proof (nat_ascii_bounded a). lia. Qed.
Lemma digit_byte v : 0 <= upper_digit v < 256.
Proof. apply nth_bytes, text_bytes. Qed.
Lemma record_bytes label l : all_bytes label -> all_bytes (record label l).
Proof.
  intros B. unfold record. apply app_bytes; [exact B|]. apply app_bytes; [|intros x [<-|[]]; lia].
  intros x Hx. apply in_flat_map in Hx as (y & _ & [<-|[<-|[]]]); apply digit_byte.
Qed.

(** ** The request file *)
Definition blanks : list Z := text "pk =" ++ [10] ++ text "sk =" ++ [10] ++ text "ct =" ++ [10] ++ text "ss =" ++ [10; 10].
Definition after_count (i : nat) (seed : list Z) (seeds : list (list Z)) : list Z :=
  decimal i ++ 10 :: record (text "seed = ") seed ++ blanks ++ request_text (S i) seeds.
Lemma request_cons i seed seeds : request_text i (seed :: seeds) = text "count = " ++ after_count i seed seeds.
Proof. unfold after_count, blanks. cbn [request_text]. rewrite <- !app_assoc. reflexivity. Qed.
Lemma request_bytes seeds : forall i, all_bytes (request_text i seeds).
Proof.
  induction seeds as [|seed seeds IH]; intros i; [intros x []|]. cbn [request_text].
  assert (N : all_bytes [10]) by (intros x [<-|[]]; lia). assert (N2 : all_bytes [10; 10]) by (intros x [<-|[<-|[]]]; lia).
  repeat (apply app_bytes; [first [apply text_bytes|exact N|exact N2|apply record_bytes, text_bytes]|]). apply IH.
Qed.
Lemma blanks_bytes : all_bytes blanks.
Proof.
  assert (N : all_bytes [10]) by (intros x [<-|[]]; lia). assert (N2 : all_bytes [10; 10]) by (intros x [<-|[<-|[]]]; lia).
  unfold blanks. repeat (apply app_bytes; [first [apply text_bytes|exact N|exact N2]|]). exact N2.
Qed.
Lemma count_characters : characters (text "count = ").
Proof. intros c Hc. cbn in Hc. repeat (destruct Hc as [<-|Hc]; [lia|]). destruct Hc. Qed.
Lemma seed_characters : characters (text "seed = ").
Proof. intros c Hc. cbn in Hc. repeat (destruct Hc as [<-|Hc]; [lia|]). destruct Hc. Qed.
Lemma find_count (JJ : Junk) P i seed seeds : P = [] \/ P = blanks ->
  yields (FindMarker (P ++ request_text i (seed :: seeds)) (text "count = ")) (1, after_count i seed seeds).
Proof.
  intros HP. destruct (find_marker JJ (P ++ request_text i (seed :: seeds)) (text "count = ") count_characters) as [F _].
  { apply app_bytes; [destruct HP as [-> | ->]; [intros x []|exact blanks_bytes]|apply request_bytes]. }
  apply (F P). rewrite request_cons. apply first_by. destruct HP as [-> | ->]; vm_compute; reflexivity.
Qed.
Lemma find_end (JJ : Junk) P i : P = [] \/ P = blanks -> yields (FindMarker (P ++ request_text i []) (text "count = ")) (0, []).
Proof.
  intros HP. destruct (find_marker JJ (P ++ request_text i []) (text "count = ") count_characters) as [_ F].
  { apply app_bytes; [destruct HP as [-> | ->]; [intros x []|exact blanks_bytes]|intros x []]. }
  apply F. apply never_by. destruct HP as [-> | ->]; vm_compute; reflexivity.
Qed.
Lemma read_seed (JJ : Junk) i seed seeds A : byte_array 48 seed -> length A = 48%nat ->
  yields (ReadHex (10 :: record (text "seed = ") seed ++ blanks ++ request_text (S i) seeds) A 48 (text "seed = ")) (seed, blanks ++ request_text (S i) seeds, 1).
Proof.
  intros [L B] LA. destruct seed as [|s0 seed0] eqn:Es; [discriminate L|]. rewrite <- Es in *. rewrite <- L.
  eapply yields_eq.
  - apply (read_back JJ (10 :: record (text "seed = ") seed ++ blanks ++ request_text (S i) seeds) [10] (text "seed = ") seed (blanks ++ request_text (S i) seeds) A);
      [exact seed_characters| |rewrite Es; discriminate|exact B|cbn; lia|lia|reflexivity|].
    + intros x [<-|Hx]; [lia|]. revert x Hx. change (all_bytes (record (text "seed = ") seed ++ blanks ++ request_text (S i) seeds)).
      apply app_bytes; [apply record_bytes, text_bytes|]. apply app_bytes; [exact blanks_bytes|apply request_bytes].
    + intros pre' post' EF.
      assert (X : forall Y, first_occurrence (10 :: record (text "seed = ") seed ++ Y) (text "seed = ") [10] (flat_map (fun x => [upper_digit (x / 16); upper_digit (x mod 16)]) (match seed with [] => [0] | _ => seed end) ++ [10] ++ Y)).
      { intros Y. unfold record. rewrite <- !app_assoc. apply (first_by [10] (text "seed = ")). vm_compute. reflexivity. }
      exact (proj2 (X _) pre' post' EF).
  - rewrite skipn_all2 by lia. now rewrite app_nil_r.
Qed.

Section Kat.
Context (JR : Junk) (E : cipher).
Hypothesis HE : block_cipher E.

Lemma generate_array m st : byte_array m (fst (CTR_DRBG_Generate E m st)).
Proof.
  split; [now apply generate_length|]. Transparent CTR_DRBG_Generate. unfold CTR_DRBG_Generate. cbn [fst].
  intros x Hx. apply (In_nth _ _ 0) in Hx as (i & Hi & <-).
  assert (Hi' : (i < length (ctr_blocks E (fst st) (snd st) ((m + 15) / 16)))%nat) by (rewrite firstn_length in Hi; lia).
  assert (Hm : (i < m)%nat) by (rewrite firstn_length in Hi; lia).
  rewrite <- (firstn_skipn m (ctr_blocks E (fst st) (snd st) ((m + 15) / 16))) in Hi'.
  pose proof (ctr_blocks_bytes E (block_cipher_he E HE) (fst st) (snd st) ((m + 15) / 16) i) as X.
  rewrite <- (firstn_skipn m (ctr_blocks E (fst st) (snd st) ((m + 15) / 16))) in X.
  rewrite (app_nth1 _ _ _ Hi) in X. specialize (X Hi'). lia.
Qed.
Local Opaque CTR_DRBG_Generate.
Definition holds_at (d : drbg_ctx) (c : Z) (st : drbg) : Prop := holds d st /\ d_counter d = c.
Lemma kat_rb m d st x c : holds_at d c st -> length x = m -> Z.of_nat m < 2 ^ 31 -> 0 <= c < 2 ^ 31 - 1 ->
  exists d', yields (kat_randombytes E d x 0 m) (fst (CTR_DRBG_Generate E m st), d') /\ holds_at d' (c + 1) (snd (CTR_DRBG_Generate E m st)).
Proof.
  intros [H C] L Hm Hc. destruct (rng_generate E d st x 0 m HE H ltac:(lia) Hm ltac:(lia)) as (d' & Y & C' & H').
  exists d'. split; [|split; [exact H'|congruence]]. unfold kat_randombytes. eapply yields_bind; [exact Y|]. cbv beta iota.
  rewrite overwrite_all by (rewrite generate_length by exact HE; exact L). apply yields_ret.
Qed.
Lemma holds_lengths d st : holds d st -> length (d_key d) = 32%nat /\ length (d_v d) = 16%nat.
Proof. intros ([L1 _] & [L2 _] & _). auto. Qed.

Lemma requests_yields n : forall i out seed d st c, (i + n <= 100)%nat -> holds_at d c st -> length seed = 48%nat -> 0 <= c -> c + Z.of_nat n < 2 ^ 31 - 1 ->
  exists seed' d' c' st', yields (requests E n i out seed d) (out ++ request_text i (kat_seeds E n st), seed', d') /\ length seed' = 48%nat /\ holds_at d' c' st'.
Proof.
  induction n as [|n IH]; intros i out seed d st c Hi Hd Ls Hc Hn; cbn [requests kat_seeds].
  - exists seed, d, c, st. split; [|split; assumption]. eapply yields_bind; [apply yields_test|]. cbn [request_text]. rewrite app_nil_r. apply yields_ret.
  - destruct (kat_rb 48 d st seed c Hd Ls ltac:(lia) ltac:(lia)) as (d1 & Y1 & H1).
    destruct (CTR_DRBG_Generate E 48 st) as [s1 st1] eqn:EG. cbn [fst snd] in Y1, H1.
    pose proof (generate_array 48 st) as Hs1. rewrite EG in Hs1. cbn [fst] in Hs1.
    pose proof (print_yields (str "seed = ") s1 [] (proj2 Hs1)) as Yp. rewrite app_nil_r, (proj1 Hs1) in Yp.
    destruct (IH (S i) (((((((out ++ str "count = " ++ print_int (Z.of_nat i) ++ [newline]) ++ record (str "seed = ") s1) ++ str "pk =" ++ [newline]) ++ str "sk =" ++ [newline])
      ++ str "ct =" ++ [newline]) ++ str "ss =" ++ [newline; newline])) s1 d1 st1 (c + 1) ltac:(lia) H1 (proj1 Hs1) ltac:(lia) ltac:(lia)) as (seed' & d' & c' & st' & Y & L' & H').
    exists seed', d', c', st'. split; [|split; assumption]. eapply yields_bind; [apply yields_test|]. cbv beta zeta.
    eapply yields_bind; [exact Y1|]. cbv beta iota. eapply yields_bind; [exact Yp|]. cbv beta zeta.
    eapply yields_eq; [exact Y|]. f_equal. f_equal. cbn [request_text]. rewrite (decimal_small i) by lia. rewrite !str_text.
    change newline with 10. now rewrite <- !app_assoc.
Qed.
Lemma kat_seeds_arrays n : forall st, Forall (byte_array 48) (kat_seeds E n st).
Proof.
  induction n as [|n IH]; intros st; cbn [kat_seeds]; [constructor|]. pose proof (generate_array 48 st) as H.
  destruct (CTR_DRBG_Generate E 48 st) as [s1 st1]. constructor; [exact H|apply IH].
Qed.
Lemma kat_seeds_length n : forall st, length (kat_seeds E n st) = n.
Proof. induction n as [|n IH]; intros st; cbn [kat_seeds]; [reflexivity|]. destruct (CTR_DRBG_Generate E 48 st) as [s1 st1]. cbn [length]. now rewrite IH. Qed.

(** ** The source of an exchange *)
Section Seed.
Variable seed : list Z.
Definition st0 : drbg := CTR_DRBG_Instantiate E seed (repeat 0 48).
Definition dz : list Z := fst (CTR_DRBG_Generate E 64 st0).
Definition st1 : drbg := snd (CTR_DRBG_Generate E 64 st0).
Definition m1 : list Z := fst (CTR_DRBG_Generate E 32 st1).
Definition st2 : drbg := snd (CTR_DRBG_Generate E 32 st1).
Definition sf (j : nat) : Z := nth j (dz ++ m1) 0.
Definition sR (lens : list nat) (p : nat) (d : drbg_ctx) : Prop :=
  lens = [64; 32]%nat /\ p = 0%nat /\ holds_at d 1 st0 \/ lens = [32]%nat /\ p = 64%nat /\ holds_at d 2 st1 \/ lens = [] /\ p = 96%nat /\ holds_at d 3 st2.
Lemma dz_array : byte_array 64 dz. Proof. apply generate_array. Qed.
Lemma m1_array : byte_array 32 m1. Proof. apply generate_array. Qed.
Lemma sf_bytes j : 0 <= sf j < 256.
Proof. apply nth_bytes, app_bytes; [apply dz_array|apply m1_array]. Qed.
Lemma piece_dz : piece sf 0 64 = dz.
Proof. rewrite <- (proj1 dz_array). exact (piece_of_list [] dz m1 0 eq_refl). Qed.
Lemma piece_m1 : piece sf 64 32 = m1.
Proof.
  pose proof (piece_of_list dz m1 [] 64 (proj1 dz_array)) as X. rewrite (proj1 m1_array), app_nil_r in X. exact X.
Qed.
Lemma seed_source : total_source (kat_randombytes E) sf sR.
Proof.
  intros len lens p s x off HR L. destruct HR as [(El & -> & Hh)|[(El & -> & Hh)|(El & _)]]; [| |discriminate El].
  - injection El as -> ->. destruct Hh as [Hh Hc].
    destruct (rng_generate E s st0 x off 64 HE Hh L ltac:(lia) ltac:(lia)) as (d' & Y & C' & H').
    exists d'. rewrite piece_dz. split; [|split; [exact (proj2 dz_array)|right; left; split; [reflexivity|]; split; [reflexivity|]; split; [exact H'|lia]]].
    unfold kat_randombytes. eapply yields_bind; [exact Y|]. cbv beta iota. apply yields_ret.
  - injection El as -> ->. destruct Hh as [Hh Hc].
    destruct (rng_generate E s st1 x off 32 HE Hh L ltac:(lia) ltac:(lia)) as (d' & Y & C' & H').
    exists d'. rewrite piece_m1. split; [|split; [exact (proj2 m1_array)|right; right; split; [reflexivity|]; split; [reflexivity|]; split; [exact H'|lia]]].
    unfold kat_randombytes. eapply yields_bind; [exact Y|]. cbv beta iota. apply yields_ret.
Qed.
Lemma seed_exchange lv ek dk K c : kat_exchange E lv seed ek dk K c <-> exchange_at lv sf 0 ek dk K c.
Proof.
  unfold kat_exchange, exchange_at. cbv zeta. fold st0.
  rewrite (surjective_pairing (CTR_DRBG_Generate E 64 st0)). fold dz st1. rewrite (surjective_pairing (CTR_DRBG_Generate E 32 st1)). fold m1 st2.
  replace (piece sf (0 + 64) 32) with m1 by (symmetry; exact piece_m1).
  pose proof piece_dz as X. change 64%nat with (32 + 32)%nat in X. rewrite piece_split in X.
  assert (X1 : piece sf 0 32 = firstn 32 dz).
  { rewrite <- X, firstn_app, piece_length, Nat.sub_diag, firstn_O, app_nil_r. symmetry. apply firstn_all2. now rewrite piece_length. }
  assert (X2 : piece sf (0 + 32) 32 = skipn 32 dz).
  { rewrite <- X, skipn_app, piece_length, Nat.sub_diag. rewrite skipn_all2 by (now rewrite piece_length). reflexivity. }
  rewrite X1, X2. reflexivity.
Qed.
Lemma seed_ready d : holds_at d 1 st0 -> rdy sR (req 64 (req 32 (only []))) 0 d.
Proof.
  intros H. split; [exists [64; 32]%nat, [32]%nat; split; [reflexivity|]; exists []; now split|].
  intros l (l' & -> & l'' & -> & ->). left. auto.
Qed.
Lemma seed_done d : rdy sR (only []) 96 d -> length (d_key d) = 32%nat /\ length (d_v d) = 16%nat.
Proof.
  intros [_ H]. specialize (H [] eq_refl). destruct H as [(X & _)|[(X & _)|(_ & _ & Hh & _)]]; try discriminate X. exact (holds_lengths _ _ Hh).
Qed.
End Seed.

Variable lv : level.
Lemma init_seed d seed : length (d_key d) = 32%nat -> length (d_v d) = 16%nat -> byte_array 48 seed ->
  exists d', yields (randombytes_init E d seed None) d' /\ holds_at d' 1 (st0 seed).
Proof.
  intros L1 L2 Hs. destruct (rng_init E d seed None HE L1 L2 Hs) as (d' & Y & C & H); [intros x X; discriminate X|].
  exists d'. split; [exact Y|]. split; [exact H|exact C].
Qed.
Lemma print_array label a x : byte_array a x -> yields (fprintBstr label x a) (record label x).
Proof. intros [L B]. pose proof (print_yields label x [] B) as Y. now rewrite app_nil_r, L in Y. Qed.

Definition sizes (seed pk sk ct ss ss1 : list Z) : Prop :=
  length seed = 48%nat /\ length pk = KYBER_PUBLICKEYBYTES lv /\ length sk = KYBER_SECRETKEYBYTES lv /\ length ct = KYBER_CIPHERTEXTBYTES lv /\
  length ss = 32%nat /\ length ss1 = 32%nat.
(** The text of one round, as the program builds it *)
Lemma entry_eq out i seed ek dk K c :
  ((((((out ++ str "count = " ++ decimal i ++ [newline]) ++ record (str "seed = ") seed) ++ record (str "pk = ") ek) ++ record (str "sk = ") dk) ++
     record (str "ct = ") c) ++ record (str "ss = ") K) ++ [newline] = out ++ entry_text i seed ek dk K c.
Proof. unfold entry_text. rewrite !str_text. change newline with 10. now rewrite <- !app_assoc. Qed.

Lemma respond_safe fuel seeds : forall n JJ i P out d count seed pk sk ct ss ss1, (length seeds < n)%nat -> (i + length seeds <= 100)%nat ->
  Forall (byte_array 48) seeds -> P = [] \/ P = blanks -> length (d_key d) = 32%nat -> length (d_v d) = 16%nat -> sizes seed pk sk ct ss ss1 ->
  safely (respond E lv fuel n JJ (P ++ request_text i seeds) out d count seed pk sk ct ss ss1)
    (fun v => exists o, snd v = out ++ o /\ responses E lv i seeds o (fst v)).
Proof.
  induction seeds as [|sd seeds IH]; intros n JJ i P out d count seed pk sk ct ss ss1 Hn Hi HF HP Lk Lv (Ls & Lp & Lsk & Lc & Lss & Lss1);
    (destruct n as [|n]; [cbn [length] in Hn; lia|]); cbn [respond].
  - eapply safely_step; [rewrite str_text; apply (find_end _ P i HP)|]. cbv beta iota.
    eapply safely_step; [exact (yields_test _)|]. cbn [negb]. cbv iota.
    apply safely_ret. exists []. cbn [fst snd]. split; [now rewrite app_nil_r|constructor].
  - inversion_clear HF as [|x y Hsd HF']. cbn [length] in Hn, Hi.
    eapply safely_step; [rewrite str_text; apply (find_count _ P i sd seeds HP)|]. cbv beta iota.
    eapply safely_step; [exact (yields_test _)|]. cbn [negb]. cbv iota.
    eapply safely_step; [exact (scan_small i _ ltac:(lia))|]. cbv beta iota zeta.
    rewrite (decimal_small i) by lia.
    eapply safely_step; [rewrite (str_text "seed = "); apply (read_seed _ i sd seeds seed Hsd Ls)|]. cbv beta iota.
    eapply safely_step; [exact (yields_test _)|]. cbv iota.
    eapply safely_step; [exact (print_array _ 48 sd Hsd)|]. cbv beta zeta.
    destruct (init_seed d sd Lk Lv Hsd) as (d1 & Y1 & H1).
    eapply safely_step; [exact Y1|]. cbv beta.
    eapply safely_bind; [apply (keypair_with_safe _ _ _ (total_stream _ _ _ (seed_source sd)) _ _ _ _ _ _ _ _ _ (seed_ready sd d1 H1) Lp Lsk)|].
    intros [[[ek dk] r] d2] (-> & HK & Hek & Hdk & R2). cbv beta iota.
    eapply safely_step; [exact (yields_test _)|]. cbv iota.
    eapply safely_step; [exact (print_array _ _ ek Hek)|]. cbv beta zeta.
    eapply safely_step; [exact (print_array _ _ dk Hdk)|]. cbv beta zeta.
    eapply safely_bind; [apply (enc_with_safe _ _ _ (total_stream _ _ _ (seed_source sd)) _ _ _ _ _ _ _ _ _ _ R2 Lc Lss Hek)|].
    intros [[[c K] r] d3] (-> & HN & Hc & HKb & R3). cbv beta iota.
    eapply safely_step; [exact (yields_test _)|]. cbv iota.
    eapply safely_step; [exact (print_array _ _ c Hc)|]. cbv beta zeta.
    change KYBER_SSBYTES with 32%nat.
    eapply safely_step; [exact (print_array _ _ K HKb)|]. cbv beta zeta.
    rewrite entry_eq.
    assert (HX : kat_exchange E lv sd ek dk K c) by (apply seed_exchange; split; [exact HK|exact HN]).
    eapply safely_bind; [apply (dec_safe0 Reference (JJ (S n) 2%nat) lv fuel ss1 c dk Lss1 Hc Hdk)|].
    intros [K1 r] (-> & HD & HK1). cbv beta iota.
    eapply safely_step; [exact (yields_test _)|]. cbv iota.
    destruct (memcmp_yields K K1 32 (proj1 HKb) (proj1 HK1)) as (e & Ye & Ee).
    eapply safely_step; [exact Ye|]. cbv beta.
    eapply safely_step; [exact (yields_test _)|].
    destruct (Z.eqb_spec e 0) as [E0|E0]; cbn [negb]; cbv iota.
    + destruct (seed_done sd d3 R3) as [Lk3 Lv3]. assert (K = K1) as <- by tauto.
      eapply safely_mono; [apply (IH n JJ (S i) blanks); [lia|lia|exact HF'|now right|exact Lk3|exact Lv3|]|].
      * split; [apply Hsd|]. split; [apply Hek|]. split; [apply Hdk|]. split; [apply Hc|]. split; apply HKb.
      * intros [r o'] (o & Eo & HR). cbn [fst snd] in *. exists (entry_text i sd ek dk K c ++ o). split; [now rewrite Eo, app_assoc|]. now apply responses_next.
    + apply safely_ret. cbn [fst snd]. exists (entry_text i sd ek dk K c). split; [reflexivity|]. apply responses_fail with (K1 := K1); [exact HX|exact HD|].
      intros EK. apply E0, Ee. now symmetry.
Qed.

Lemma respond_total i seeds o r : responses E lv i seeds o r -> Forall (byte_array 48) seeds -> (i + length seeds <= 100)%nat ->
  exists fuel0, forall fuel n JJ P out d count seed pk sk ct ss ss1, (fuel0 <= fuel)%nat -> (length seeds < n)%nat ->
  P = [] \/ P = blanks -> length (d_key d) = 32%nat -> length (d_v d) = 16%nat -> sizes seed pk sk ct ss ss1 ->
  yields (respond E lv fuel n JJ (P ++ request_text i seeds) out d count seed pk sk ct ss ss1) (r, out ++ o).
Proof.
  intros HR. induction HR as [i|i sd seeds ek dk K c K1 HX HD NE|i sd seeds ek dk K c o r HX HD HR IH]; intros HF Hi.
  - exists 0%nat. intros fuel n JJ P out d count seed pk sk ct ss ss1 _ Hn HP Lk Lv _. destruct n as [|n]; [cbn [length] in Hn; lia|]. cbn [respond].
    eapply yields_bind; [rewrite str_text; apply (find_end _ P i HP)|]. cbv beta iota. eapply yields_bind; [apply yields_test|]. cbn [Z.eqb negb]. cbv iota.
    rewrite app_nil_r. apply yields_ret.
  - inversion_clear HF as [|x y Hsd HF']. cbn [length] in Hi. apply (proj1 (seed_exchange sd lv ek dk K c)) in HX.
    destruct (exchange_sizes _ _ (sf_bytes sd) _ _ _ _ _ HX) as (Hek & Hdk & HKb & Hc). pose proof (Decaps_internal_sizes _ _ _ _ HD) as HK1.
    destruct (exchange_total _ _ _ Reference lv (seed_source sd) (sf_bytes sd) _ _ _ _ _ HX) as (f1 & C1). destruct (dec_total Reference lv c dk K1 Hc Hdk HD) as (f2 & C2).
    exists (Nat.max f1 f2). intros fuel n JJ P out d count seed pk sk ct ss ss1 Hf Hn HP Lk Lv (Ls & Lp & Lsk & Lc & Lss & Lss1).
    cbn [length] in Hn. destruct n as [|n]; [lia|]. cbn [respond].
    destruct (init_seed d sd Lk Lv Hsd) as (d1 & Y1 & H1).
    destruct (C1 fuel (JJ (S n) 0%nat) (JJ (S n) 1%nat) (only []) d1 pk sk ct ss ltac:(lia) (seed_ready sd d1 H1) Lp Lsk Lc Lss) as (d2 & d3 & Y2 & Y3 & R3).
    eapply yields_bind; [rewrite str_text; apply (find_count _ P i sd seeds HP)|]. cbv beta iota. eapply yields_bind; [apply yields_test|]. cbn [Z.eqb negb]. cbv iota.
    eapply yields_bind; [exact (scan_small i _ ltac:(lia))|]. cbv beta iota zeta. rewrite (decimal_small i) by lia.
    eapply yields_bind; [rewrite (str_text "seed = "); apply (read_seed _ i sd seeds seed Hsd Ls)|]. cbv beta iota.
    eapply yields_bind; [apply yields_test|]. cbn [Z.eqb negb]. cbv iota. eapply yields_bind; [exact (print_array _ 48 sd Hsd)|]. cbv beta zeta.
    eapply yields_bind; [exact Y1|]. cbv beta. eapply yields_bind; [exact Y2|]. cbv beta iota. eapply yields_bind; [apply yields_test|]. cbn [Z.eqb negb]. cbv iota.
    eapply yields_bind; [exact (print_array _ _ ek Hek)|]. cbv beta zeta. eapply yields_bind; [exact (print_array _ _ dk Hdk)|]. cbv beta zeta.
    eapply yields_bind; [exact Y3|]. cbv beta iota. eapply yields_bind; [apply yields_test|]. cbn [Z.eqb negb]. cbv iota.
    eapply yields_bind; [exact (print_array _ _ c Hc)|]. cbv beta zeta. change KYBER_SSBYTES with 32%nat. eapply yields_bind; [exact (print_array _ _ K HKb)|]. cbv beta zeta.
    rewrite entry_eq. eapply yields_bind; [apply (C2 fuel (JJ (S n) 2%nat) ss1 ltac:(lia) Lss1)|]. cbv beta iota.
    eapply yields_bind; [apply yields_test|]. cbn [Z.eqb negb]. cbv iota.
    destruct (memcmp_yields K K1 32 (proj1 HKb) (proj1 HK1)) as (e & Ye & Ee). eapply yields_bind; [exact Ye|]. cbv beta.
    eapply yields_bind; [apply yields_test|]. destruct (Z.eqb_spec e 0) as [E0|E0]; cbn [negb]; cbv iota; [elim NE; symmetry; tauto|]. apply yields_ret.
  - inversion_clear HF as [|x y Hsd HF']. cbn [length] in Hi. apply (proj1 (seed_exchange sd lv ek dk K c)) in HX. destruct (IH HF' ltac:(lia)) as (f3 & C3).
    destruct (exchange_sizes _ _ (sf_bytes sd) _ _ _ _ _ HX) as (Hek & Hdk & HKb & Hc).
    destruct (exchange_total _ _ _ Reference lv (seed_source sd) (sf_bytes sd) _ _ _ _ _ HX) as (f1 & C1). destruct (dec_total Reference lv c dk K Hc Hdk HD) as (f2 & C2).
    exists (Nat.max f1 (Nat.max f2 f3)). intros fuel n JJ P out d count seed pk sk ct ss ss1 Hf Hn HP Lk Lv (Ls & Lp & Lsk & Lc & Lss & Lss1).
    cbn [length] in Hn. destruct n as [|n]; [lia|]. cbn [respond].
    destruct (init_seed d sd Lk Lv Hsd) as (d1 & Y1 & H1).
    destruct (C1 fuel (JJ (S n) 0%nat) (JJ (S n) 1%nat) (only []) d1 pk sk ct ss ltac:(lia) (seed_ready sd d1 H1) Lp Lsk Lc Lss) as (d2 & d3 & Y2 & Y3 & R3).
    eapply yields_bind; [rewrite str_text; apply (find_count _ P i sd seeds HP)|]. cbv beta iota. eapply yields_bind; [apply yields_test|]. cbn [Z.eqb negb]. cbv iota.
    eapply yields_bind; [exact (scan_small i _ ltac:(lia))|]. cbv beta iota zeta. rewrite (decimal_small i) by lia.
    eapply yields_bind; [rewrite (str_text "seed = "); apply (read_seed _ i sd seeds seed Hsd Ls)|]. cbv beta iota.
    eapply yields_bind; [apply yields_test|]. cbn [Z.eqb negb]. cbv iota. eapply yields_bind; [exact (print_array _ 48 sd Hsd)|]. cbv beta zeta.
    eapply yields_bind; [exact Y1|]. cbv beta. eapply yields_bind; [exact Y2|]. cbv beta iota. eapply yields_bind; [apply yields_test|]. cbn [Z.eqb negb]. cbv iota.
    eapply yields_bind; [exact (print_array _ _ ek Hek)|]. cbv beta zeta. eapply yields_bind; [exact (print_array _ _ dk Hdk)|]. cbv beta zeta.
    eapply yields_bind; [exact Y3|]. cbv beta iota. eapply yields_bind; [apply yields_test|]. cbn [Z.eqb negb]. cbv iota.
    eapply yields_bind; [exact (print_array _ _ c Hc)|]. cbv beta zeta. change KYBER_SSBYTES with 32%nat. eapply yields_bind; [exact (print_array _ _ K HKb)|]. cbv beta zeta.
    rewrite entry_eq. eapply yields_bind; [apply (C2 fuel (JJ (S n) 2%nat) ss1 ltac:(lia) Lss1)|]. cbv beta iota.
    eapply yields_bind; [apply yields_test|]. cbn [Z.eqb negb]. cbv iota.
    destruct (memcmp_yields K K 32 (proj1 HKb) (proj1 HKb)) as (e & Ye & Ee). eapply yields_bind; [exact Ye|]. cbv beta.
    eapply yields_bind; [apply yields_test|]. destruct (Z.eqb_spec e 0) as [E0|E0]; cbn [negb]; cbv iota; [|elim E0; now apply Ee].
    destruct (seed_done sd d3 R3) as [Lk3 Lv3]. rewrite app_assoc. apply (C3 fuel n JJ blanks); [lia|lia|now right|exact Lk3|exact Lv3|].
    split; [apply Hsd|]. split; [apply Hek|]. split; [apply Hdk|]. split; [apply Hc|]. split; apply HKb.
Qed.

(** ** main *)
Lemma sprintf_yields (JJ : Junk) s : (length s < 32)%nat -> yields (sprintf (@local JJ 32) s) (s ++ 0 :: skipn (S (length s)) (@local JJ 32)).
Proof.
  intros L. unfold sprintf. eapply yields_eq.
  - rewrite <- (firstn_skipn (S (length s)) (@local JJ 32)).
    apply (yields_write []). rewrite firstn_length, local_len, app_length. cbn [length]. lia.
  - cbn [app]. now rewrite <- app_assoc.
Qed.
Lemma c_string_eq s r : characters s -> c_string (s ++ 0 :: r) = s.
Proof.
  intros C. induction s as [|x s IH]; [reflexivity|]. cbn [app c_string]. pose proof (C x (or_introl eq_refl)). destruct (Z.eqb_spec x 0); [lia|].
  f_equal. apply IH. intros c Hc. apply C. now right.
Qed.
Lemma name_facts : request_name lv <> response_name lv /\ characters (request_name lv) /\ characters (response_name lv) /\
  (length (request_name lv) < 32)%nat /\ (length (response_name lv) < 32)%nat /\
  str "PQCkemKAT_" ++ print_int (Z.of_nat (KYBER_SECRETKEYBYTES lv)) ++ str ".req" = request_name lv /\
  str "PQCkemKAT_" ++ print_int (Z.of_nat (KYBER_SECRETKEYBYTES lv)) ++ str ".rsp" = response_name lv /\ CRYPTO_ALGNAME lv = algorithm lv.
Proof.
  assert (F : forallb (fun c => (0 <? c) && (c <? 256)) (request_name lv) && forallb (fun c => (0 <? c) && (c <? 256)) (response_name lv) = true)
    by (destruct lv; vm_compute; reflexivity).
  apply andb_true_iff in F as [F1 F2]. rewrite forallb_forall in F1, F2.
  assert (X : forall l, (forall c, In c l -> (0 <? c) && (c <? 256) = true) -> characters l).
  { intros l Hl c Hc. specialize (Hl c Hc). apply andb_true_iff in Hl as [A B]. apply Z.ltb_lt in A, B. lia. }
  split; [destruct lv; vm_compute; discriminate|]. split; [now apply X|]. split; [now apply X|].
  split; [apply Nat.ltb_lt; destruct lv; vm_compute; reflexivity|]. split; [apply Nat.ltb_lt; destruct lv; vm_compute; reflexivity|].
  split; [destruct lv; vm_compute; reflexivity|]. split; [destruct lv; vm_compute; reflexivity|]. destruct lv; vm_compute; reflexivity.
Qed.
Lemma entropy_yields (JJ : Junk) : yields (for_ 48 0 (fun i e => aset e i (u8 (Z.of_nat i))) (@local JJ 48)) kat_entropy.
Proof.
  assert (H : forall n p old, length old = n -> (length p + n <= 256)%nat ->
    yields (for_ n (length p) (fun i e => aset e i (u8 (Z.of_nat i))) (p ++ old)) (p ++ map Z.of_nat (seq (length p) n))).
  { induction n as [|n IH]; intros p old L Hl; cbn [for_].
    - destruct old; [|discriminate L]. eapply yields_bind; [apply yields_emit|]. apply yields_ret.
    - destruct old as [|o old]; [discriminate L|]. eapply yields_bind; [apply yields_emit|]. cbv beta. eapply yields_bind; [apply yields_set|]. cbv beta.
      rewrite u8_byte by lia. specialize (IH (p ++ [Z.of_nat (length p)]) old ltac:(cbn [length] in L; lia) ltac:(rewrite app_length; cbn [length]; lia)).
      rewrite app_length in IH. replace (length p + length [Z.of_nat (length p)])%nat with (S (length p)) in IH by (cbn [length]; lia).
      rewrite <- !app_assoc in IH. cbn [app] in IH. cbn [seq map]. exact IH. }
  exact (H 48%nat [] (@local JJ 48) (local_len _ _) ltac:(cbn [length]; lia)).
Qed.
Lemma entropy_array : byte_array 48 kat_entropy.
Proof. split; [reflexivity|]. intros x Hx. apply in_map_iff in Hx as (i & <- & Hi). apply in_seq in Hi. lia. Qed.
Lemma put_same fs name c : put fs name c name = c.
Proof. unfold put. now destruct (list_eq_dec Z.eq_dec name name). Qed.
Lemma put_other fs name c x : x <> name -> put fs name c x = fs x.
Proof. intros N. unfold put. now destruct (list_eq_dec Z.eq_dec x name). Qed.
Lemma request_length seeds : forall i, (length seeds <= length (request_text i seeds))%nat.
Proof.
  induction seeds as [|sd seeds IH]; intros i; [cbn; lia|]. rewrite request_cons, app_length. unfold after_count. rewrite app_length. cbn [length]. rewrite !app_length.
  specialize (IH (S i)). lia.
Qed.

(** main up to the response loop *)
Lemma main_prefix fuel rounds (opens : nat -> bool) JJ fs d : (rounds <= 100)%nat -> length (d_key d) = 32%nat -> length (d_v d) = 16%nat ->
  if opens 0%nat then if opens 1%nat then if opens 2%nat then
    exists fs3 d' seed, length (d_key d') = 32%nat /\ length (d_v d') = 16%nat /\ length seed = 48%nat /\
      files_after lv fs fs3 (request_text 0 (seeds_of E rounds)) [] /\
      leads (kat_main E lv fuel rounds opens JJ fs d) ('(r, out) <- respond E lv fuel (S (length (request_text 0 (seeds_of E rounds)))) JJ (request_text 0 (seeds_of E rounds))
          (text "# " ++ algorithm lv ++ [10; 10]) d' (@junk (JJ 0 4)%nat 0) seed
          (pk_ lv (JJ 0 5)%nat) (sk_ lv (JJ 0 6)%nat) (ct_ lv (JJ 0 7)%nat) (ss_ (JJ 0 8)%nat) (ss_ (JJ 0 9)%nat) ;; ret (r, put fs3 (response_name lv) out))
  else exists fs', yields (kat_main E lv fuel rounds opens JJ fs d) (-1, fs') /\ files_after lv fs fs' (request_text 0 (seeds_of E rounds)) []
  else exists fs', yields (kat_main E lv fuel rounds opens JJ fs d) (-1, fs') /\ files_after lv fs fs' [] (fs (response_name lv))
  else yields (kat_main E lv fuel rounds opens JJ fs d) (-1, fs).
Proof.
  intros Hr Lk Lv. destruct name_facts as (NE & C1 & C2 & L1 & L2 & N1 & N2 & NA).
  assert (S1 : exists b1, yields (sprintf (@local (JJ 0 0)%nat 32) (request_name lv)) b1 /\ c_string b1 = request_name lv).
  { eexists. split; [apply sprintf_yields; exact L1|]. now apply c_string_eq. }
  assert (S2 : exists b2, yields (sprintf (@local (JJ 0 1)%nat 32) (response_name lv)) b2 /\ c_string b2 = response_name lv).
  { eexists. split; [apply sprintf_yields; exact L2|]. now apply c_string_eq. }
  destruct S1 as (b1 & Y1 & B1). destruct S2 as (b2 & Y2 & B2).
  destruct (rng_init E d kat_entropy None HE Lk Lv entropy_array) as (d1 & Yi & Cd & Hd); [intros x X; discriminate X|].
  destruct (requests_yields rounds 0 [] (@local (JJ 0 3)%nat 48) d1 _ 1 ltac:(lia) (conj Hd Cd) (local_len _ _) ltac:(lia) ltac:(lia)) as (seed & d2 & c2 & st & Yr & Ls & [H2 _]).
  destruct (holds_lengths _ _ H2) as [Lk2 Lv2]. change (data_of None) with (repeat 0 48) in Yr. fold (seeds_of E rounds) in Yr.
  set (fs1 := put fs (request_name lv) []). set (fs2 := put fs1 (response_name lv) []). set (fs3 := put fs2 (request_name lv) (request_text 0 (seeds_of E rounds))).
  assert (F3 : files_after lv fs fs3 (request_text 0 (seeds_of E rounds)) []).
  { split; [apply put_same|]. split; [unfold fs3; rewrite put_other by (intros X; now apply NE); apply put_same|].
    intros name X1 X2. unfold fs3, fs2, fs1. now rewrite !put_other by assumption. }
  assert (Fq : fs2 (request_name lv) = []) by (unfold fs2; rewrite put_other by exact NE; apply put_same).
  destruct (opens 0%nat) eqn:O0; [destruct (opens 1%nat) eqn:O1; [destruct (opens 2%nat) eqn:O2|]|].
  - exists fs3, d2, seed. split; [exact Lk2|]. split; [exact Lv2|]. split; [exact Ls|]. split; [exact F3|]. 
    unfold kat_main. rewrite N1, N2, O0, O1, O2.
    eapply leads_step; [exact Y1|]. cbv beta. eapply leads_step; [apply yields_test|]. cbn [negb]. cbv beta iota zeta. rewrite B1.
    eapply leads_step; [exact Y2|]. cbv beta. eapply leads_step; [apply yields_test|]. cbn [negb]. cbv beta iota zeta. rewrite B2. fold fs1. fold fs2.
    eapply leads_step; [apply entropy_yields|]. cbv beta. eapply leads_step; [exact Yi|]. cbv beta. rewrite Fq. eapply leads_step; [exact Yr|]. cbv beta iota.
    cbn [app]. fold fs3. eapply leads_step; [apply yields_test|]. cbn [negb]. cbv beta iota zeta.
    rewrite (proj1 F3), (proj1 (proj2 F3)). cbn [app]. rewrite NA. rewrite str_text. apply leads_refl.
  - exists fs3. split; [|exact F3]. unfold kat_main. rewrite N1, N2, O0, O1, O2.
    eapply yields_bind; [exact Y1|]. cbv beta. eapply yields_bind; [apply yields_test|]. cbn [negb]. cbv beta iota zeta. rewrite B1.
    eapply yields_bind; [exact Y2|]. cbv beta. eapply yields_bind; [apply yields_test|]. cbn [negb]. cbv beta iota zeta. rewrite B2. fold fs1. fold fs2.
    eapply yields_bind; [apply entropy_yields|]. cbv beta. eapply yields_bind; [exact Yi|]. cbv beta. rewrite Fq. eapply yields_bind; [exact Yr|]. cbv beta iota.
    cbn [app]. fold fs3. eapply yields_bind; [apply yields_test|]. cbn [negb]. cbv beta iota zeta. apply yields_ret.
  - exists fs1. split.
    + unfold kat_main. rewrite N1, N2, O0, O1.
      eapply yields_bind; [exact Y1|]. cbv beta. eapply yields_bind; [apply yields_test|]. cbn [negb]. cbv beta iota zeta. rewrite B1.
      eapply yields_bind; [exact Y2|]. cbv beta. eapply yields_bind; [apply yields_test|]. cbn [negb]. cbv beta iota zeta. apply yields_ret.
    + split; [apply put_same|]. split; [unfold fs1; now rewrite put_other by (intros X; now apply NE)|]. intros name X1 X2. unfold fs1. now rewrite put_other.
  - unfold kat_main. rewrite N1, O0. eapply yields_bind; [exact Y1|]. cbv beta. eapply yields_bind; [apply yields_test|]. cbn [negb]. cbv beta iota. apply yields_ret.
Qed.

Lemma after_put fs fs3 req a b : files_after lv fs fs3 req a -> files_after lv fs (put fs3 (response_name lv) b) req b.
Proof.
  destruct name_facts as (NE & _). intros (F1 & F2 & F3). split; [rewrite put_other by exact NE; exact F1|]. split; [apply put_same|].
  intros name X1 X2. rewrite put_other by exact X2. auto.
Qed.
Lemma kat_safe fuel rounds opens JJ fs d : (rounds <= 100)%nat -> length (d_key d) = 32%nat -> length (d_v d) = 16%nat ->
  safely (kat_main E lv fuel rounds opens JJ fs d) (fun v => kat_outcome E lv rounds opens fs (fst v) (snd v)).
Proof.
  intros Hr Lk Lv. pose proof (main_prefix fuel rounds opens JJ fs d Hr Lk Lv) as X. unfold kat_outcome.
  destruct (opens 0%nat); [destruct (opens 1%nat); [destruct (opens 2%nat)|]|].
  - destruct X as (fs3 & d' & seed & Lk' & Lv' & Ls & F3 & LD). apply (leads_safely _ _ _ LD).
    eapply safely_bind.
    + apply (respond_safe fuel (seeds_of E rounds) _ JJ 0 []); [pose proof (request_length (seeds_of E rounds) 0); lia| | |now left|exact Lk'|exact Lv'|].
      * unfold seeds_of. rewrite kat_seeds_length. lia.
      * apply kat_seeds_arrays.
      * split; [exact Ls|]. repeat split; apply local_len.
    + intros [r out] (o & Eo & HR). cbn [fst snd] in *. cbv beta iota. apply safely_ret. cbn [fst snd]. exists o. split; [exact HR|].
      rewrite Eo. rewrite <- !app_assoc. apply (after_put _ _ _ _ _ F3).
  - destruct X as (fs' & Y & F). apply (safely_yields _ _ _ Y). auto.
  - destruct X as (fs' & Y & F). apply (safely_yields _ _ _ Y). auto.
  - apply (safely_yields _ _ _ X). auto.
Qed.
Lemma kat_total rounds opens : (rounds <= 100)%nat ->
  (forall out r, opens 0%nat = true -> opens 1%nat = true -> opens 2%nat = true -> responses E lv 0 (seeds_of E rounds) out r ->
     exists fuel0, forall fuel JJ fs d, (fuel0 <= fuel)%nat -> length (d_key d) = 32%nat -> length (d_v d) = 16%nat ->
       exists fs', yields (kat_main E lv fuel rounds opens JJ fs d) (r, fs') /\
         files_after lv fs fs' (request_text 0 (seeds_of E rounds)) (text "# " ++ algorithm lv ++ [10; 10] ++ out)) /\
  (forall fuel JJ fs d, opens 0%nat = false \/ opens 1%nat = false \/ opens 2%nat = false -> length (d_key d) = 32%nat -> length (d_v d) = 16%nat ->
     exists fs', yields (kat_main E lv fuel rounds opens JJ fs d) (-1, fs')).
Proof.
  intros Hr. split.
  - intros out r O0 O1 O2 HR. destruct (respond_total 0 _ out r HR) as (f0 & C); [apply kat_seeds_arrays|unfold seeds_of; rewrite kat_seeds_length; lia|].
    exists f0. intros fuel JJ fs d Hf Lk Lv. pose proof (main_prefix fuel rounds opens JJ fs d Hr Lk Lv) as X. rewrite O0, O1, O2 in X.
    destruct X as (fs3 & d' & seed & Lk' & Lv' & Ls & F3 & LD).
    exists (put fs3 (response_name lv) ((text "# " ++ algorithm lv ++ [10; 10]) ++ out)). split.
    + apply (leads_yields _ _ _ LD). eapply yields_bind.
      * apply (C fuel _ JJ []); [lia|pose proof (request_length (seeds_of E rounds) 0); lia|now left|exact Lk'|exact Lv'|].
        split; [exact Ls|]. repeat split; apply local_len.
      * cbv beta iota. apply yields_ret.
    + rewrite <- !app_assoc. apply (after_put _ _ _ _ _ F3).
  - intros fuel JJ fs d HO Lk Lv. pose proof (main_prefix fuel rounds opens JJ fs d Hr Lk Lv) as X.
    destruct (opens 0%nat); [destruct (opens 1%nat); [destruct (opens 2%nat)|]|]; [intuition congruence| | |].
    + destruct X as (fs' & Y & _). now exists fs'.
    + destruct X as (fs' & Y & _). now exists fs'.
    + now exists fs.
Qed.
End Kat.
