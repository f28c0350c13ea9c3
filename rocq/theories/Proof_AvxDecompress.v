(** * Decompression, message encoding and noise sampling in AVX2 (avx2/poly.c,
    avx2/polyvec.c, avx2/cbd.c) *)
From Coq Require Import ZArith List Lia Bool NArith.
From Verif Require Import CMonad WP Sums Proof_Base Model_Params Proof_Reduce Proof_Bits Proof_Codec Proof_PolyvecCodec Proof_CBD
  Model_AvxIntrin Model_AvxC Proof_AvxBits Proof_AvxVec Proof_AvxCompress Spec_FIPS203 Levels.
Import ListNotations.
Open Scope Z_scope.

(** ** Templates *)
Definition tmpl (r : option (list (list bx))) (k l p : nat) : list bx :=
  match r with Some o => map (bren (fun n => n - N.of_nat p)%N (fun x => x)) (firstn 16 (skipn (16 * l) (nth k o []))) | None => [] end.
Definition word_of (T : list bx) : wt := match T with Bt t _ :: _ => t | _ => WIn 0 end.
Definition whole (t : wt) : list bx := map (Bt t) (seq 0 16).

Definition t4 : wt := Eval vm_compute in word_of (tmpl (run sym_ops decompress4_body [bin 0 64] [0%nat]) 0 0 0).
Definition t5 : wt := Eval vm_compute in
  word_of (tmpl (run sym_ops decompress5_body (pieces [64; 16]%nat (bin 0 80)) [0%nat]) 0 0 0).
Definition t10a : wt := Eval vm_compute in word_of (tmpl (run sym_ops decompress10_body [bin 0 256] [0%nat]) 0 0 0).
Definition t10b : wt := Eval vm_compute in word_of (tmpl (run sym_ops decompress10_body [bin 0 256] [0%nat]) 0 1 10).
Definition t11 : wt := Eval vm_compute in word_of (tmpl (run sym_ops decompress11_body [bin 0 256] [0%nat]) 0 0 0).
Definition tmsg : list bx := Eval vm_compute in tmpl (run sym_ops (frommsg_body 0) [bin 0 256] [1; 2; 3; 4]%nat) 0 0 0.
Definition tcbd2 : list bx := Eval vm_compute in tmpl (run sym_ops cbd2_body [bin 0 256] [0; 1; 2; 3]%nat) 0 0 0.
Definition tcbd3 : list bx := Eval vm_compute in tmpl (run sym_ops cbd3_body [bin 0 256] [0; 1]%nat) 0 0 0.

(** Fields of width [d] starting with number [s]: template 0, or 0 and 1 alternately *)
Definition posn (d s : nat) : list (nat * nat) := map (fun l => (0, d * (s + l)))%nat (seq 0 16).
Definition posn2 (d s : nat) : list (nat * nat) := map (fun l => (l mod 2, d * (s + l)))%nat (seq 0 16).

Lemma decompress4_chk : check decompress4_body (pieces [64]%nat (bin 0 64)) [0%nat] (map (wexp [whole t4]) [posn 4 0]) = true.
Proof. vm_compute. reflexivity. Qed.
Lemma decompress5_chk : check decompress5_body (pieces [64; 16]%nat (bin 0 80)) [0%nat] (map (wexp [whole t5]) [posn 5 0]) = true.
Proof. vm_compute. reflexivity. Qed.
Lemma decompress10_chk : check decompress10_body (pieces [256]%nat (bin 0 256)) [0%nat] (map (wexp [whole t10a; whole t10b]) [posn2 10 0]) = true.
Proof. vm_compute. reflexivity. Qed.
Lemma decompress11_chk : check decompress11_body (pieces [256]%nat (bin 0 256)) [0%nat] (map (wexp [whole t11]) [posn 11 0]) = true.
Proof. vm_compute. reflexivity. Qed.
Definition msgposn (i : nat) : list (list (nat * nat)) := [posn 1 (32 * i); posn 1 (32 * i + 16); posn 1 (128 + 32 * i); posn 1 (128 + 32 * i + 16)].
Lemma frommsg_chk0 : check (frommsg_body 0) (pieces [256]%nat (bin 0 256)) [1; 2; 3; 4]%nat (map (wexp [tmsg]) (msgposn 0)) = true.
Proof. vm_compute. reflexivity. Qed.
Lemma frommsg_chk1 : check (frommsg_body 1) (pieces [256]%nat (bin 0 256)) [1; 2; 3; 4]%nat (map (wexp [tmsg]) (msgposn 1)) = true.
Proof. vm_compute. reflexivity. Qed.
Lemma frommsg_chk2 : check (frommsg_body 2) (pieces [256]%nat (bin 0 256)) [1; 2; 3; 4]%nat (map (wexp [tmsg]) (msgposn 2)) = true.
Proof. vm_compute. reflexivity. Qed.
Lemma frommsg_chk3 : check (frommsg_body 3) (pieces [256]%nat (bin 0 256)) [1; 2; 3; 4]%nat (map (wexp [tmsg]) (msgposn 3)) = true.
Proof. vm_compute. reflexivity. Qed.
Lemma cbd2_chk : check cbd2_body (pieces [256]%nat (bin 0 256)) [0; 1; 2; 3]%nat
  (map (wexp [tcbd2]) [posn 4 0; posn 4 32; posn 4 16; posn 4 48]) = true.
Proof. vm_compute. reflexivity. Qed.
Lemma cbd3_chk : check cbd3_body (pieces [256]%nat (bin 0 256)) [0; 1]%nat (map (wexp [tcbd3]) [posn 6 0; posn 6 16]) = true.
Proof. vm_compute. reflexivity. Qed.

(** ** The templates on all fields *)
Definition zenv (z : Z) : N -> bool := fun m => Z.testbit z (Z.of_N m).
Definition zword (t : wt) (z : Z) : Z := fwval (zenv z) (fun _ => 0) t.
Lemma wordz_whole t z : wok t = true -> wordz (whole t) z = i16 (zword t z).
Proof.
  intros H. unfold wordz, whole, zword. rewrite (proj2 (fast_ok _ _) t H). rewrite map_map.
  change (fun x => bval (fun m => Z.testbit z (Z.of_N m)) (fun _ => 0) (Bt t x)) with
    (fun x => Z.testbit (wval (zenv z) (fun _ => 0) t) (Z.of_nat x)).
  fold (bits_of 16 (wval (zenv z) (fun _ => 0) t)). rewrite value_bits_of. apply i16_mod65536.
Qed.
Definition dec_ok (t : wt) (d : Z) : Z -> bool := fun z => zword t z =? Decompress d z.
Lemma t4_sweep : sweep (dec_ok t4 4) 0 16 = true. Proof. vm_compute. reflexivity. Qed.
Lemma t5_sweep : sweep (dec_ok t5 5) 0 32 = true. Proof. vm_compute. reflexivity. Qed.
Lemma t10a_sweep : sweep (dec_ok t10a 10) 0 1024 = true. Proof. vm_compute. reflexivity. Qed.
Lemma t10b_sweep : sweep (dec_ok t10b 10) 0 1024 = true. Proof. vm_compute. reflexivity. Qed.
Lemma t11_sweep : sweep (dec_ok t11 11) 0 2048 = true. Proof. vm_compute. reflexivity. Qed.

Lemma Decompress_small d z : 0 < d <= 11 -> 0 <= z < 2 ^ d -> 0 <= Decompress d z <= 3329.
Proof.
  intros Hd Hz. unfold Decompress, q. split.
  - apply Z.div_pos; nia.
  - assert (D : (2 * 3329 * z + 2 ^ d) / (2 * 2 ^ d) < 3330); [|lia].
    apply Z.div_lt_upper_bound; nia.
Qed.
Lemma dec_sweep t d n : wok t = true -> 0 < d <= 11 -> Z.pos n = 2 ^ d -> sweep (dec_ok t d) 0 n = true ->
  forall z, 0 <= z < 2 ^ d -> wordz (whole t) z = Decompress d z.
Proof.
  intros W Hd En S z Hz. rewrite wordz_whole by auto.
  pose proof (sweep_spec _ _ _ S z ltac:(lia)) as E. apply Z.eqb_eq in E. rewrite E.
  apply i16_small. pose proof (Decompress_small d z Hd Hz). lia.
Qed.
Definition cbdf (eta : nat) (z : Z) : Z :=
  sumz eta (fun j => Z.b2z (Z.testbit z (Z.of_nat j))) - sumz eta (fun j => Z.b2z (Z.testbit z (Z.of_nat (eta + j)))).
Lemma cbdz_field eta B i : cbdz eta B i = cbdf eta (field (2 * eta) B i).
Proof.
  assert (G : forall j, (j < 2 * eta)%nat -> nth (2 * i * eta + j) (BytesToBits B) 0 = Z.b2z (Z.testbit (field (2 * eta) B i) (Z.of_nat j))).
  { intros j Hj. unfold field. rewrite bitsum_testbit by (auto; intros; apply field_isbit).
    replace (i * (2 * eta) + j)%nat with (2 * i * eta + j)%nat by lia.
    destruct (field_isbit B (2 * i * eta + j)) as [-> | ->]; reflexivity. }
  unfold cbdz, cbdf. f_equal; apply sumz_ext; intros j Hj.
  - apply G. lia.
  - rewrite <- Nat.add_assoc. apply G. lia.
Qed.
Lemma tmsg_sweep : sweep (fun z => wordz tmsg z =? Decompress 1 z) 0 2 = true. Proof. vm_compute. reflexivity. Qed.
Lemma tcbd2_sweep : sweep (fun z => wordz tcbd2 z =? cbdf 2 z) 0 16 = true. Proof. vm_compute. reflexivity. Qed.
Lemma tcbd3_sweep : sweep (fun z => wordz tcbd3 z =? cbdf 3 z) 0 64 = true. Proof. vm_compute. reflexivity. Qed.

Lemma g4 T : In T [whole t4] -> forall z, 0 <= z < 2 ^ Z.of_nat 4 -> wordz T z = Decompress 4 z.
Proof. intros [<-|[]]. apply (dec_sweep t4 4 16); [reflexivity|lia|reflexivity|exact t4_sweep]. Qed.
Lemma g5 T : In T [whole t5] -> forall z, 0 <= z < 2 ^ Z.of_nat 5 -> wordz T z = Decompress 5 z.
Proof. intros [<-|[]]. apply (dec_sweep t5 5 32); [reflexivity|lia|reflexivity|exact t5_sweep]. Qed.
Lemma g10 T : In T [whole t10a; whole t10b] -> forall z, 0 <= z < 2 ^ Z.of_nat 10 -> wordz T z = Decompress 10 z.
Proof.
  intros [<-|[<-|[]]]; [apply (dec_sweep t10a 10 1024)|apply (dec_sweep t10b 10 1024)];
  first [lia|reflexivity|exact t10a_sweep|exact t10b_sweep].
Qed.
Lemma g11 T : In T [whole t11] -> forall z, 0 <= z < 2 ^ Z.of_nat 11 -> wordz T z = Decompress 11 z.
Proof. intros [<-|[]]. apply (dec_sweep t11 11 2048); [reflexivity|lia|reflexivity|exact t11_sweep]. Qed.
Lemma g1 T : In T [tmsg] -> forall z, 0 <= z < 2 ^ Z.of_nat 1 -> wordz T z = Decompress 1 z.
Proof. intros [<-|[]] z Hz. apply Z.eqb_eq. apply (sweep_spec _ _ _ tmsg_sweep). exact Hz. Qed.
Lemma gc2 T : In T [tcbd2] -> forall z, 0 <= z < 2 ^ Z.of_nat 4 -> wordz T z = cbdf 2 z.
Proof. intros [<-|[]] z Hz. apply Z.eqb_eq. apply (sweep_spec _ _ _ tcbd2_sweep). exact Hz. Qed.
Lemma gc3 T : In T [tcbd3] -> forall z, 0 <= z < 2 ^ Z.of_nat 6 -> wordz T z = cbdf 3 z.
Proof. intros [<-|[]] z Hz. apply Z.eqb_eq. apply (sweep_spec _ _ _ tcbd3_sweep). exact Hz. Qed.

Definition x4 := exec_words 64 [64]%nat _ _ _ 4 _ _ decompress4_chk eq_refl eq_refl g4.
Definition x5 := exec_words 80 [64; 16]%nat _ _ _ 5 _ _ decompress5_chk eq_refl eq_refl g5.
Definition x10 := exec_words 256 [256]%nat _ _ _ 10 _ _ decompress10_chk eq_refl eq_refl g10.
Definition x11 := exec_words 256 [256]%nat _ _ _ 11 _ _ decompress11_chk eq_refl eq_refl g11.
Definition xm0 := exec_words 256 [256]%nat _ _ _ 1 _ _ frommsg_chk0 eq_refl eq_refl g1.
Definition xm1 := exec_words 256 [256]%nat _ _ _ 1 _ _ frommsg_chk1 eq_refl eq_refl g1.
Definition xm2 := exec_words 256 [256]%nat _ _ _ 1 _ _ frommsg_chk2 eq_refl eq_refl g1.
Definition xm3 := exec_words 256 [256]%nat _ _ _ 1 _ _ frommsg_chk3 eq_refl eq_refl g1.
Definition xc2 := exec_words 256 [256]%nat _ _ _ 4 _ _ cbd2_chk eq_refl eq_refl gc2.
Definition xc3 := exec_words 256 [256]%nat _ _ _ 6 _ _ cbd3_chk eq_refl eq_refl gc3.
Global Opaque t4 t5 t10a t10b t11 tmsg tcbd2 tcbd3.

(** ** The loops *)
Lemma pieces1 {A} n (b : list A) : length b = n -> [b] = pieces [n] b.
Proof. intros <-. cbn [pieces]. now rewrite firstn_all. Qed.
Lemma loaded_length a off m : (off + m <= length a)%nat -> length (bits_words 8 (sub a off m)) = (8 * m)%nat.
Proof. intros. now rewrite bits_words_length, sub_length by lia. Qed.
(** The sixteen words of one vector *)
Lemma vec_words d s g a off m ao len D x0 :
  (forall x, (x < 256)%nat -> nth x D 0 = g (field d (sub a ao len) x)) -> length D = 256%nat ->
  (8 * off + d * s = 8 * ao + d * x0)%nat -> (d * (s + 16) <= 8 * m)%nat -> (off + m <= length a)%nat ->
  (d * (x0 + 16) <= 8 * len)%nat -> (ao + len <= length a)%nat -> (x0 + 16 <= 256)%nat ->
  forall ps, map snd ps = map (fun l => d * (s + l))%nat (seq 0 16) ->
  map (fun tp : nat * nat => g (fieldv (bits_words 8 (sub a off m)) (snd tp) d)) ps = sub D x0 16.
Proof.
  intros HD LD E H1 H2 H3 H4 H5 ps Eps.
  rewrite <- (map_map snd (fun p => g (fieldv (bits_words 8 (sub a off m)) p d))), Eps.
  apply (sub_eq_map D x0 (fun p => g (fieldv (bits_words 8 (sub a off m)) p d)) _ (d * (s + 0))%nat);
    [now rewrite map_length, seq_length|lia|].
  intros l Hl. rewrite (map_nth (fun l => d * (s + l))%nat), seq_nth by lia. rewrite HD by lia. f_equal. symmetry.
  apply fieldv_field; nia.
Qed.
Lemma posn_snd d s : map snd (posn d s) = map (fun l => d * (s + l))%nat (seq 0 16).
Proof. unfold posn. now rewrite map_map. Qed.
Lemma posn2_snd d s : map snd (posn2 d s) = map (fun l => d * (s + l))%nat (seq 0 16).
Proof. unfold posn2. now rewrite map_map. Qed.
Lemma upto_0 D r : length r = 256%nat -> upto D 0 r.
Proof. split; auto. lia. Qed.

Ltac bload := match goal with
  | |- wp (bind _ _) _ _ => apply wp_bind
  | |- wp (load_bytes _ _ _) _ _ => apply wp_load_bytes; [lia|]
  end.

Lemma poly_decompress4_avx2_wp ao :
  traced (fun T => forall r a, length r = 256%nat -> (ao + 128 <= length a)%nat ->
    wp (poly_decompress4_avx2 r a ao) T (fun r' => r' = decompressed 4 (sub a ao 128))).
Proof.
  eexists. intros r a Hr Ha. unfold poly_decompress4_avx2. set (D := decompressed 4 (sub a ao 128)).
  assert (LD : length D = 256%nat) by apply decompressed_length.
  assert (HD : forall x, (x < 256)%nat -> nth x D 0 = Decompress 4 (field 4 (sub a ao 128) x)) by (intros; apply nth_decompressed; lia).
  eapply (wp_for _ (fun i s => upto D (16 * i) s)).
  - now apply upto_0.
  - intros i s Hi U. repeat bload.
    destruct (x4 _ (loaded_length a (ao + 8 * i) 8 ltac:(lia))) as (o & Eo & W).
    eapply wp_exec; [rewrite (pieces1 64) by (apply (loaded_length _ _ 8); lia); exact Eo|].
    eapply upto_store; [exact U|exact LD|lia| |intros r' U'; eapply upto_weaken; [exact U'|lia]].
    rewrite (W 0%nat) by (cbn; lia). cbn [nth]. apply (vec_words 4 0 _ a _ 8 ao 128 D (16 * i)); auto using posn_snd; lia.
  - intros s U. now apply upto_end.
Qed.

Lemma poly_decompress5_avx2_wp ao :
  traced (fun T => forall r a, length r = 256%nat -> (ao + 160 <= length a)%nat ->
    wp (poly_decompress5_avx2 r a ao) T (fun r' => r' = decompressed 5 (sub a ao 160))).
Proof.
  eexists. intros r a Hr Ha. unfold poly_decompress5_avx2. set (D := decompressed 5 (sub a ao 160)).
  assert (LD : length D = 256%nat) by apply decompressed_length.
  assert (HD : forall x, (x < 256)%nat -> nth x D 0 = Decompress 5 (field 5 (sub a ao 160) x)) by (intros; apply nth_decompressed; lia).
  eapply (wp_for _ (fun i s => upto D (16 * i) s)).
  - now apply upto_0.
  - intros i s Hi U. repeat bload.
    destruct (x5 _ (loaded_length a (ao + 10 * i) 10 ltac:(lia))) as (o & Eo & W).
    eapply wp_exec; [|].
    { replace [bits_words 8 (sub a (ao + 10 * i + 0) 8); bits_words 8 (sub a (ao + 10 * i + 8) 2)]
        with (pieces [64; 16]%nat (bits_words 8 (sub a (ao + 10 * i) 10))); [exact Eo|].
      replace (sub a (ao + 10 * i) 10) with (sub a (ao + 10 * i + 0) 8 ++ sub a (ao + 10 * i + 8) 2).
      - rewrite bits_words_app. pose proof (loaded_length a (ao + 10 * i + 0) 8 ltac:(lia)) as L1.
        pose proof (loaded_length a (ao + 10 * i + 8) 2 ltac:(lia)) as L2.
        change (8 * 8)%nat with 64%nat in L1. change (8 * 2)%nat with 16%nat in L2.
        cbn [pieces]. rewrite <- L1. rewrite firstn_app, Nat.sub_diag, firstn_all, firstn_O, app_nil_r.
        rewrite skipn_app, Nat.sub_diag, skipn_all. change (skipn 0 ?x) with x. cbn [app]. rewrite <- L2, firstn_all. reflexivity.
      - rewrite Nat.add_0_r. unfold sub. rewrite <- (firstn_skipn 8 (skipn (ao + 10 * i) a)) at 2.
        rewrite skipn_skipn. rewrite firstn_app, firstn_length, skipn_length.
        rewrite (firstn_all2 (firstn 8 _)) by (rewrite firstn_length; lia). do 3 f_equal; lia. }
    eapply upto_store; [exact U|exact LD|lia| |intros r' U'; eapply upto_weaken; [exact U'|lia]].
    rewrite (W 0%nat) by (cbn; lia). cbn [nth]. apply (vec_words 5 0 _ a _ 10 ao 160 D (16 * i)); auto using posn_snd; lia.
  - intros s U. now apply upto_end.
Qed.

Lemma poly_decompress_avx2_wp lv ao :
  traced (fun T => forall r a, length r = 256%nat -> (ao + KYBER_POLYCOMPRESSEDBYTES lv <= length a)%nat ->
    wp (poly_decompress_avx2 lv r a ao) T (fun r' => r' = decompressed (dv (PS lv)) (sub a ao (KYBER_POLYCOMPRESSEDBYTES lv)))).
Proof.
  destruct lv; [exact (poly_decompress4_avx2_wp ao)|exact (poly_decompress4_avx2_wp ao)|exact (poly_decompress5_avx2_wp ao)].
Qed.

(** 12 bytes after the 320 are read, and do not matter. *)
Lemma poly_decompress10_avx2_wp ao :
  traced (fun T => forall r a, length r = 256%nat -> (ao + 332 <= length a)%nat ->
    wp (poly_decompress10_avx2 r a ao) T (fun r' => r' = decompressed 10 (sub a ao 320))).
Proof.
  eexists. intros r a Hr Ha. unfold poly_decompress10_avx2. set (D := decompressed 10 (sub a ao 320)).
  assert (LD : length D = 256%nat) by apply decompressed_length.
  assert (HD : forall x, (x < 256)%nat -> nth x D 0 = Decompress 10 (field 10 (sub a ao 320) x)) by (intros; apply nth_decompressed; lia).
  eapply (wp_for _ (fun i s => upto D (16 * i) s)).
  - now apply upto_0.
  - intros i s Hi U. repeat bload.
    destruct (x10 _ (loaded_length a (ao + 20 * i) 32 ltac:(lia))) as (o & Eo & W).
    eapply wp_exec; [rewrite (pieces1 256) by (apply (loaded_length _ _ 32); lia); exact Eo|].
    eapply upto_store; [exact U|exact LD|lia| |intros r' U'; eapply upto_weaken; [exact U'|lia]].
    rewrite (W 0%nat) by (cbn; lia). cbn [nth]. apply (vec_words 10 0 _ a _ 32 ao 320 D (16 * i)); auto using posn2_snd; lia.
  - intros s U. now apply upto_end.
Qed.
(** 10 bytes after the 352 are read. *)
Lemma poly_decompress11_avx2_wp ao :
  traced (fun T => forall r a, length r = 256%nat -> (ao + 362 <= length a)%nat ->
    wp (poly_decompress11_avx2 r a ao) T (fun r' => r' = decompressed 11 (sub a ao 352))).
Proof.
  eexists. intros r a Hr Ha. unfold poly_decompress11_avx2. set (D := decompressed 11 (sub a ao 352)).
  assert (LD : length D = 256%nat) by apply decompressed_length.
  assert (HD : forall x, (x < 256)%nat -> nth x D 0 = Decompress 11 (field 11 (sub a ao 352) x)) by (intros; apply nth_decompressed; lia).
  eapply (wp_for _ (fun i s => upto D (16 * i) s)).
  - now apply upto_0.
  - intros i s Hi U. repeat bload.
    destruct (x11 _ (loaded_length a (ao + 22 * i) 32 ltac:(lia))) as (o & Eo & W).
    eapply wp_exec; [rewrite (pieces1 256) by (apply (loaded_length _ _ 32); lia); exact Eo|].
    eapply upto_store; [exact U|exact LD|lia| |intros r' U'; eapply upto_weaken; [exact U'|lia]].
    rewrite (W 0%nat) by (cbn; lia). cbn [nth]. apply (vec_words 11 0 _ a _ 32 ao 352 D (16 * i)); auto using posn_snd; lia.
  - intros s U. now apply upto_end.
Qed.

(** ** Noise *)
Lemma cbd2_avx2_wp :
  traced (fun T => forall r buf, length r = 256%nat -> (128 <= length buf)%nat ->
    wp (cbd2_avx2 r buf) T (fun r' => r' = mk 256 (cbdz 2 (sub buf 0 128)))).
Proof.
  eexists. intros r a Hr Ha. unfold cbd2_avx2. set (D := mk 256 (cbdz 2 (sub a 0 128))).
  assert (LD : length D = 256%nat) by apply mk_length.
  assert (HD : forall x, (x < 256)%nat -> nth x D 0 = cbdf 2 (field 4 (sub a 0 128) x))
    by (intros; unfold D; rewrite nth_mk by lia; apply cbdz_field).
  eapply (wp_for _ (fun i s => upto D (64 * i) s)).
  - now apply upto_0.
  - intros i s Hi U. repeat bload.
    destruct (xc2 _ (loaded_length a (32 * i) 32 ltac:(lia))) as (o & Eo & W).
    eapply wp_exec; [rewrite (pieces1 256) by (apply (loaded_length _ _ 32); lia); exact Eo|].
    assert (G : forall k s x0, (k < 4)%nat -> nth k [posn 4 0; posn 4 32; posn 4 16; posn 4 48] [] = posn 4 s -> (x0 = 64 * i + s)%nat -> (s <= 48)%nat ->
      map i16 (words_bits 16 (out o k)) = sub D x0 16).
    { intros k s0 x0 Hk Ek Ex Hs. rewrite (W k) by (cbn; lia). rewrite Ek.
      apply (vec_words 4 s0 _ a _ 32 0 128 D x0); auto using posn_snd; lia. }
    apply wp_bind. eapply upto_store; [eapply upto_weaken; [exact U|lia]|exact LD|lia|apply (G 0 0)%nat; [lia|reflexivity|lia|lia]|intros r1 U1].
    apply wp_bind. eapply upto_store; [eapply upto_weaken; [exact U1|lia]|exact LD|lia|apply (G 2 16)%nat; [lia|reflexivity|lia|lia]|intros r2 U2].
    apply wp_bind. eapply upto_store; [eapply upto_weaken; [exact U2|lia]|exact LD|lia|apply (G 1 32)%nat; [lia|reflexivity|lia|lia]|intros r3 U3].
    eapply upto_store; [eapply upto_weaken; [exact U3|lia]|exact LD|lia|apply (G 3 48)%nat; [lia|reflexivity|lia|lia]|intros r4 U4].
    eapply upto_weaken; [exact U4|lia].
  - intros s U. now apply upto_end.
Qed.
(** The vectors are loaded 24 bytes apart: 8 bytes after the 192 are read. *)
Lemma cbd3_avx2_wp :
  traced (fun T => forall r buf, length r = 256%nat -> (200 <= length buf)%nat ->
    wp (cbd3_avx2 r buf) T (fun r' => r' = mk 256 (cbdz 3 (sub buf 0 192)))).
Proof.
  eexists. intros r a Hr Ha. unfold cbd3_avx2. set (D := mk 256 (cbdz 3 (sub a 0 192))).
  assert (LD : length D = 256%nat) by apply mk_length.
  assert (HD : forall x, (x < 256)%nat -> nth x D 0 = cbdf 3 (field 6 (sub a 0 192) x))
    by (intros; unfold D; rewrite nth_mk by lia; apply cbdz_field).
  eapply (wp_for _ (fun i s => upto D (32 * i) s)).
  - now apply upto_0.
  - intros i s Hi U. repeat bload.
    destruct (xc3 _ (loaded_length a (24 * i) 32 ltac:(lia))) as (o & Eo & W).
    eapply wp_exec; [rewrite (pieces1 256) by (apply (loaded_length _ _ 32); lia); exact Eo|].
    assert (G : forall k s x0, (k < 2)%nat -> nth k [posn 6 0; posn 6 16] [] = posn 6 s -> (x0 = 32 * i + s)%nat -> (s <= 16)%nat ->
      map i16 (words_bits 16 (out o k)) = sub D x0 16).
    { intros k s0 x0 Hk Ek Ex Hs. rewrite (W k) by (cbn; lia). rewrite Ek.
      apply (vec_words 6 s0 _ a _ 32 0 192 D x0); auto using posn_snd; lia. }
    apply wp_bind. eapply upto_store; [eapply upto_weaken; [exact U|lia]|exact LD|lia|apply (G 0 0)%nat; [lia|reflexivity|lia|lia]|intros r1 U1].
    eapply upto_store; [eapply upto_weaken; [exact U1|lia]|exact LD|lia|apply (G 1 16)%nat; [lia|reflexivity|lia|lia]|intros r2 U2].
    eapply upto_weaken; [exact U2|lia].
  - intros s U. now apply upto_end.
Qed.
Lemma poly_cbd_eta1_avx2_wp lv :
  traced (fun T => forall r buf, length r = 256%nat -> (64 * eta1 (PS lv) + (if (eta1 (PS lv) =? 3)%nat then 8 else 0) <= length buf)%nat ->
    wp (poly_cbd_eta1_avx2 lv r buf) T (fun r' => r' = mk 256 (cbdz (eta1 (PS lv)) (sub buf 0 (64 * eta1 (PS lv)))))).
Proof. destruct lv; [exact cbd3_avx2_wp|exact cbd2_avx2_wp|exact cbd2_avx2_wp]. Qed.

(** ** Message encoding: the vectors are stored in the order 0 1 8 9 2 3 10 11 ... *)
Definition among (D : list Z) (S : list nat) (r : list Z) : Prop :=
  length r = 256%nat /\ forall v, In v S -> sub r (16 * v) 16 = sub D (16 * v) 16.
Lemma among_store D S r i v (Q : list Z -> Prop) : among D S r -> length D = 256%nat -> (i < 16)%nat -> ~ In i S -> (forall v, In v S -> (v < 16)%nat) ->
  map i16 (words_bits 16 v) = sub D (16 * i) 16 ->
  (forall r', among D (i :: S) r' -> Q r') -> wp (store_vec r i v) [EvIndex (16 * i)] Q.
Proof.
  intros [L U] LD Hi NI HS E HQ. assert (LS : length (sub D (16 * i) 16) = 16%nat) by (apply sub_length; lia).
  eapply wp_store_vec; [exact E|exact LS|lia|]. apply HQ. split; [rewrite splice_length; lia|].
  intros w Hw. apply (list_eq_nth 0).
  - assert (w < 16)%nat by (destruct Hw as [<-|Hw]; auto). rewrite !sub_length; rewrite ?splice_length; lia.
  - assert (w < 16)%nat by (destruct Hw as [<-|Hw]; auto). intros l Hl. rewrite sub_length in Hl by (rewrite splice_length; lia).
    rewrite !nth_sub by lia. rewrite nth_splice by lia. rewrite LS.
    destruct Hw as [<-|Hw].
    + destruct (Nat.ltb_spec (16 * i + l) (16 * i)); [lia|]. destruct (Nat.ltb_spec (16 * i + l) (16 * i + 16)); [|lia].
      rewrite nth_sub by lia. f_equal. lia.
    + assert (w <> i) by (intros ->; auto).
      pose proof (f_equal (fun x => nth l x 0) (U w Hw)) as Uw. cbv beta in Uw. rewrite !nth_sub in Uw by lia.
      destruct (Nat.ltb_spec (16 * w + l) (16 * i)); [exact Uw|]. destruct (Nat.ltb_spec (16 * w + l) (16 * i + 16)); [lia|exact Uw].
Qed.
Lemma among_all D S r : length D = 256%nat -> (forall v, (v < 16)%nat -> In v S) -> among D S r -> r = D.
Proof.
  intros LD HS [L U]. apply (list_eq_nth 0); [lia|]. intros x Hx.
  pose proof (Nat.div_mod x 16 ltac:(lia)). pose proof (Nat.mod_upper_bound x 16 ltac:(lia)).
  pose proof (f_equal (fun z => nth (x mod 16) z 0) (U (x / 16)%nat (HS (x / 16)%nat ltac:(lia)))) as Uw. cbv beta in Uw.
  rewrite !nth_sub in Uw by lia. now replace (16 * (x / 16) + x mod 16)%nat with x in Uw by lia.
Qed.

Lemma poly_frommsg_avx2_wp mo :
  traced (fun T => forall r msg, length r = 256%nat -> (mo + 32 <= length msg)%nat ->
    wp (poly_frommsg_avx2 r msg mo) T (fun r' => r' = decompressed 1 (sub msg mo 32))).
Proof.
  eexists. intros r a Hr Ha. unfold poly_frommsg_avx2. set (D := decompressed 1 (sub a mo 32)).
  assert (LD : length D = 256%nat) by apply decompressed_length.
  assert (HD : forall x, (x < 256)%nat -> nth x D 0 = Decompress 1 (field 1 (sub a mo 32) x)) by (intros; apply nth_decompressed; lia).
  bload. bload. pose proof (loaded_length a mo 32 ltac:(lia)) as LB. unfold frommsg64.
  assert (U : among D [] r) by (split; [auto|intros v []]).
  rewrite (pieces1 256) by exact LB.
  assert (G : forall i o, (i < 4)%nat ->
    (forall k, (k < 4)%nat -> map i16 (words_bits 16 (out o k)) = map (fun tp => Decompress 1 (fieldv (bits_words 8 (sub a mo 32)) (snd tp) 1)) (nth k (msgposn i) [])) ->
    forall k s, (k < 4)%nat -> nth k (msgposn i) [] = posn 1 (16 * s) -> (s < 16)%nat -> map i16 (words_bits 16 (out o k)) = sub D (16 * s) 16).
  { intros i o Hi W k s Hk Ek Hs. rewrite W by exact Hk. rewrite Ek. 
    apply (vec_words 1 (16 * s) _ a _ 32 mo 32 D (16 * s)); auto using posn_snd; lia. }
  Ltac st U G k s := match type of U with among ?D ?S ?r =>
    let U' := fresh "U" in
    eapply (among_store D S); [exact U|assumption|lia|cbn; intuition lia|cbn; intuition lia|
      apply (G k s)%nat; [lia|reflexivity|lia]|intros ? U'; clear U] end.
  destruct (xm0 _ LB) as (o0 & E0 & W0). pose proof (G 0%nat o0 ltac:(lia) W0) as G0.
  destruct (xm1 _ LB) as (o1 & E1 & W1). pose proof (G 1%nat o1 ltac:(lia) W1) as G1.
  destruct (xm2 _ LB) as (o2 & E2 & W2). pose proof (G 2%nat o2 ltac:(lia) W2) as G2.
  destruct (xm3 _ LB) as (o3 & E3 & W3). pose proof (G 3%nat o3 ltac:(lia) W3) as G3.
  apply wp_bind. apply wp_bind. eapply wp_exec; [exact E0|].
  apply wp_bind. st U G0 0%nat 0%nat. apply wp_bind. st U0 G0 1%nat 1%nat. apply wp_bind. st U G0 2%nat 8%nat. st U0 G0 3%nat 9%nat.
  apply wp_bind. apply wp_bind. eapply wp_exec; [exact E1|].
  apply wp_bind. st U G1 0%nat 2%nat. apply wp_bind. st U0 G1 1%nat 3%nat. apply wp_bind. st U G1 2%nat 10%nat. st U0 G1 3%nat 11%nat.
  apply wp_bind. apply wp_bind. eapply wp_exec; [exact E2|].
  apply wp_bind. st U G2 0%nat 4%nat. apply wp_bind. st U0 G2 1%nat 5%nat. apply wp_bind. st U G2 2%nat 12%nat. st U0 G2 3%nat 13%nat.
  apply wp_bind. eapply wp_exec; [exact E3|].
  apply wp_bind. st U G3 0%nat 6%nat. apply wp_bind. st U0 G3 1%nat 7%nat. apply wp_bind. st U G3 2%nat 14%nat. st U0 G3 3%nat 15%nat.
  eapply among_all; [exact LD| |exact U]. intros v Hv. do 16 (destruct v as [|v]; [cbn; auto 20|]). lia.
Qed.
