(** * /repo/ref/test/cpucycles.c, speed_print.c and test_speed.c

    (avx2/test holds symbolic links to them.)  The cycle counter is an arbitrary
    sequence [clk] of 64-bit values, read in order; [p] counts the reads so far.
    The qsort of the C library is a parameter, from a comparison and an array to
    the array it leaves.  What is printed to stdout is a list of character
    codes; stderr is not modelled. *)
From Coq Require Import ZArith List Bool Ascii String.
From Verif Require Import CMonad Model_Params Model_Reduce Model_NTT Model_Symmetric Model_Poly Model_Polyvec Model_Indcpa Model_Kem
  Model_AvxCode Model_AvxC Model_AvxPolyvec Model_AvxIndcpa Model_AvxKem Vocab_Avx Model_Tests.
Import ListNotations.
Open Scope Z_scope.
Open Scope cmonad_scope.

(** Unsigned division *)
Definition udiv (a b : Z) : res Z :=
  if b =? 0 then UB DivisionByZero else _ <- emit (EvDiv a b) ;; ret (a / b).

(** %llu *)
Fixpoint digits (fuel : nat) (x : Z) : list Z :=
  match fuel with
  | O => []
  | S f => (if x <? 10 then [] else digits f (x / 10)) ++ [48 + x mod 10]
  end.
Definition print_llu (x : Z) : list Z := digits 20 x.

(** speed_print.c:8-12 *)
Definition cmp_uint64 (a b : Z) : Z := if a <? b then -1 else if b <? a then 1 else 0.

Section Speed.
Variable clk : nat -> Z.
Variable qsort : (Z -> Z -> Z) -> list Z -> list Z.

(** cpucycles.c:4-17; [rounds] is 100000 *)
Definition cpucycles_overhead (rounds : nat) (p : nat) : res (Z * nat) :=
  for_ rounds 0 (fun _ '(overhead, p) =>
    let t0 := clk p in
    let t1 := clk (S p) in
    c <- test (u64 (t1 - t0) <? overhead) ;;
    ret (if (c : bool) then u64 (t1 - t0) else overhead, S (S p))) (2 ^ 64 - 1, p).

(** speed_print.c:14-19; returns the value and the sorted array.  For an even
    number of elements the first index is llen / 2 - 1 in size_t. *)
Definition median (l : list Z) (llen : nat) : res (Z * list Z) :=
  if (llen <=? List.length l)%nat then
    let l := qsort cmp_uint64 (firstn llen l) ++ skipn llen l in
    c <- test (negb (Nat.even llen)) ;;
    if (c : bool) then m <- aget l (llen / 2) ;; ret (m, l)
    else
      a <- (if (llen =? 0)%nat then UB OutOfBounds else aget l (llen / 2 - 1)) ;;
      b <- aget l (llen / 2) ;;
      ret (u64 (a + b) / 2, l)
  else UB OutOfBounds.

(** speed_print.c:21-29 *)
Definition average (t : list Z) (tlen : nat) : res Z :=
  acc <- for_ tlen 0 (fun i acc => v <- aget t i ;; ret (u64 (acc + v))) 0 ;;
  udiv acc (Z.of_nat tlen).

(** speed_print.c:31-51.  The static variable overhead, initially 2^64 - 1, is
    passed along; returns (t, overhead, p, stdout). *)
Definition print_results (rounds : nat) (s : string) (t : list Z) (tlen : nat) (overhead : Z) (p : nat)
  : res (list Z * Z * nat * list Z) :=
  c <- test (tlen <? 2)%nat ;;
  if (c : bool) then ret (t, overhead, p, [])
  else
    c <- test (overhead =? 2 ^ 64 - 1) ;;
    '(overhead, p) <- (if (c : bool) then cpucycles_overhead rounds p else ret (overhead, p)) ;;
    let tlen := (tlen - 1)%nat in
    t <- for_ tlen 0 (fun i t =>
      b <- aget t (i + 1) ;; a <- aget t i ;; aset t i (u64 (u64 (b - a) - overhead))) t ;;
    '(m, t) <- median t tlen ;;
    a <- average t tlen ;;
    ret (t, overhead, p,
         str s ++ [newline] ++ str "median: " ++ print_llu m ++ str " cycles/ticks" ++ [newline] ++
         str "average: " ++ print_llu a ++ str " cycles/ticks" ++ [newline] ++ [newline]).

(** ** test_speed.c *)
Section Program.
Context {S : Type}.
Variable rb : S -> list Z -> nat -> nat -> res (list Z * S).
Variable V : variant.
Variable lv : level.
Variable fuel : nat.
Variable ntests : nat.   (* NTESTS, 1000 *)
Variable rounds : nat.   (* 100000 *)

(** The variables of main that the measured code uses *)
Record vars := Vars {
  v_matrix : list polyvec; v_ap : list Z;
  v_pk : list Z; v_sk : list Z; v_ct : list Z; v_key : list Z;
  v_rng : S }.
Definition set_matrix x v := Vars x (v_ap v) (v_pk v) (v_sk v) (v_ct v) (v_key v) (v_rng v).
Definition set_ap x v := Vars (v_matrix v) x (v_pk v) (v_sk v) (v_ct v) (v_key v) (v_rng v).
Definition set_keys x y v := Vars (v_matrix v) (v_ap v) x y (v_ct v) (v_key v) (v_rng v).
Definition set_ct x v := Vars (v_matrix v) (v_ap v) (v_pk v) (v_sk v) x (v_key v) (v_rng v).
Definition set_key x v := Vars (v_matrix v) (v_ap v) (v_pk v) (v_sk v) (v_ct v) x (v_rng v).
Definition set_rng x v := Vars (v_matrix v) (v_ap v) (v_pk v) (v_sk v) (v_ct v) (v_key v) x.

(** test_speed.c:17 *)
Definition seed : list Z := repeat 0 KYBER_SYMBYTES.

(** The functions of the variant *)
Definition gen_matrix_of (JJ : Junk) a := match V with Reference => gen_matrix lv fuel a seed 0 false | Avx2 => gen_matrix_avx2 lv fuel a seed 0 false end.
Definition getnoise_eta1_of (JJ : Junk) r := match V with Reference => poly_getnoise_eta1 lv r seed 0 0 | Avx2 => poly_getnoise_eta1_avx2 lv r seed 0 0 end.
Definition getnoise_eta2_of (JJ : Junk) r := match V with Reference => poly_getnoise_eta2 r seed 0 0 | Avx2 => poly_getnoise_eta2_avx2 r seed 0 0 end.
Definition poly_ntt_of (JJ : Junk) r := match V with Reference => poly_ntt r | Avx2 => ntt_avx r end.
Definition poly_invntt_of (JJ : Junk) r := match V with Reference => poly_invntt_tomont r | Avx2 => invntt_avx r end.
Definition basemul_of (JJ : Junk) r a b :=
  match V with Reference => polyvec_basemul_acc_montgomery lv r a b | Avx2 => polyvec_basemul_acc_montgomery_avx2 lv r a b end.
Definition tomsg_of m a := match V with Reference => poly_tomsg m 0 a | Avx2 => poly_tomsg_avx2 m 0 a end.
Definition frommsg_of r m := match V with Reference => poly_frommsg r m 0 | Avx2 => poly_frommsg_avx2 r m 0 end.
Definition compress_of (JJ : Junk) r a := match V with Reference => poly_compress lv r 0 a | Avx2 => poly_compress_avx2 lv r 0 a end.
Definition decompress_of (JJ : Junk) r a := match V with Reference => poly_decompress lv r a 0 | Avx2 => poly_decompress_avx2 lv r a 0 end.
Definition vcompress_of (JJ : Junk) r a := match V with Reference => polyvec_compress lv r 0 a | Avx2 => polyvec_compress_avx2 lv r 0 a end.
Definition vdecompress_of (JJ : Junk) r a := match V with Reference => polyvec_decompress lv r a 0 | Avx2 => polyvec_decompress_avx2 lv r a 0 end.
Definition indcpa_keypair_of (JJ : Junk) pk sk coins :=
  match V with Reference => indcpa_keypair_derand lv fuel pk 0 sk 0 coins 0 | Avx2 => indcpa_keypair_derand_avx2 lv fuel pk 0 sk 0 coins 0 end.
Definition indcpa_enc_of (JJ : Junk) c m pk coins :=
  match V with Reference => indcpa_enc lv fuel c 0 m 0 pk 0 coins 0 | Avx2 => indcpa_enc_avx2 lv fuel c 0 m 0 pk 0 coins 0 end.
Definition indcpa_dec_of (JJ : Junk) m c sk :=
  match V with Reference => indcpa_dec lv m 0 c 0 sk 0 | Avx2 => indcpa_dec_avx2 lv m 0 c 0 sk 0 end.

(** The measured calls with their labels, test_speed.c:34-152 *)
Definition benchmarks (coins32 coins64 : list Z) : list (string * (Junk -> vars -> res vars)) :=
  [ ("gen_a: "%string, fun JJ v => m <- gen_matrix_of JJ (v_matrix v) ;; ret (set_matrix m v));
    ("poly_getnoise_eta1: "%string, fun JJ v => a <- getnoise_eta1_of JJ (v_ap v) ;; ret (set_ap a v));
    ("poly_getnoise_eta2: "%string, fun JJ v => a <- getnoise_eta2_of JJ (v_ap v) ;; ret (set_ap a v));
    ("NTT: "%string, fun JJ v => a <- poly_ntt_of JJ (v_ap v) ;; ret (set_ap a v));
    ("INVNTT: "%string, fun JJ v => a <- poly_invntt_of JJ (v_ap v) ;; ret (set_ap a v));
    ("polyvec_basemul_acc_montgomery: "%string, fun JJ v =>
       x <- aget (v_matrix v) 0 ;; y <- aget (v_matrix v) 1 ;; a <- basemul_of JJ (v_ap v) x y ;; ret (set_ap a v));
    ("poly_tomsg: "%string, fun _ v => c <- tomsg_of (v_ct v) (v_ap v) ;; ret (set_ct c v));
    ("poly_frommsg: "%string, fun _ v => a <- frommsg_of (v_ap v) (v_ct v) ;; ret (set_ap a v));
    ("poly_compress: "%string, fun JJ v => c <- compress_of JJ (v_ct v) (v_ap v) ;; ret (set_ct c v));
    ("poly_decompress: "%string, fun JJ v => a <- decompress_of JJ (v_ap v) (v_ct v) ;; ret (set_ap a v));
    ("polyvec_compress: "%string, fun JJ v => x <- aget (v_matrix v) 0 ;; c <- vcompress_of JJ (v_ct v) x ;; ret (set_ct c v));
    ("polyvec_decompress: "%string, fun JJ v =>
       x <- aget (v_matrix v) 0 ;; x <- vdecompress_of JJ x (v_ct v) ;; m <- aset (v_matrix v) 0 x ;; ret (set_matrix m v));
    ("indcpa_keypair: "%string, fun JJ v => '(pk, sk) <- indcpa_keypair_of JJ (v_pk v) (v_sk v) coins32 ;; ret (set_keys pk sk v));
    ("indcpa_enc: "%string, fun JJ v => c <- indcpa_enc_of JJ (v_ct v) (v_key v) (v_pk v) seed ;; ret (set_ct c v));
    ("indcpa_dec: "%string, fun JJ v => m <- indcpa_dec_of JJ (v_key v) (v_ct v) (v_sk v) ;; ret (set_key m v));
    ("kyber_keypair_derand: "%string, fun JJ v =>
       '(pk, sk, _) <- keypair_derand_of V JJ lv fuel (v_pk v) (v_sk v) coins64 ;; ret (set_keys pk sk v));
    ("kyber_keypair: "%string, fun JJ v =>
       '(pk, sk, _, s) <- keypair_with rb V lv fuel JJ (v_rng v) (v_pk v) (v_sk v) ;; ret (set_rng s (set_keys pk sk v)));
    ("kyber_encaps_derand: "%string, fun JJ v =>
       '(ct, key, _) <- enc_derand_of V JJ lv fuel (v_ct v) (v_key v) (v_pk v) coins32 ;; ret (set_key key (set_ct ct v)));
    ("kyber_encaps: "%string, fun JJ v =>
       '(ct, key, _, s) <- enc_with rb V lv fuel JJ (v_rng v) (v_ct v) (v_key v) (v_pk v) ;; ret (set_rng s (set_key key (set_ct ct v))));
    ("kyber_decaps: "%string, fun JJ v => '(key, _) <- dec_of V JJ lv fuel (v_key v) (v_ct v) (v_sk v) ;; ret (set_key key v)) ].

(** One of the loops: t[i] = cpucycles(); then the call *)
Definition timed (body : nat -> vars -> res vars) (t : list Z) (p : nat) (v : vars) : res (list Z * nat * vars) :=
  for_ ntests 0 (fun i '(t, p, v) =>
    t <- aset t i (clk p) ;;
    v <- body i v ;;
    ret (t, Datatypes.S p, v)) (t, p, v).
(** The loops and their print_results in turn; [JJ b i] is the stack in call [i] of loop [b] *)
Fixpoint run_benchmarks (JJ : nat -> nat -> Junk) (b : nat) (l : list (string * (Junk -> vars -> res vars)))
  (t : list Z) (overhead : Z) (p : nat) (v : vars) : res (list Z) :=
  match l with
  | [] => ret []
  | (label, body) :: l =>
      '(t, p, v) <- timed (fun i => body (JJ b i)) t p v ;;
      '(t, overhead, p, out) <- print_results rounds label t ntests overhead p ;;
      rest <- run_benchmarks JJ (Datatypes.S b) l t overhead p v ;;
      ret (out ++ rest)
  end.
(** test_speed.c:19-155; the arrays are not initialised, so the bytes that are
    read before they are written (key at line 114, the end of ct) are arbitrary.
    Returns (stdout, exit status). *)
Definition bytes_of_stack (JJ : Junk) (n : nat) : list Z := map u8 (@local JJ n).
Definition test_speed_main (JJ : nat -> nat -> Junk) (s : S) : res (list Z * Z) :=
  let J0 := JJ 0%nat 0%nat in
  '(coins32, s) <- rb s (bytes_of_stack J0 KYBER_SYMBYTES) 0 KYBER_SYMBYTES ;;
  '(coins64, s) <- rb s (bytes_of_stack J0 (2 * KYBER_SYMBYTES)) 0 (2 * KYBER_SYMBYTES)%nat ;;
  let v := Vars (repeat (repeat (@local J0 KYBER_N) (KYBER_K lv)) (KYBER_K lv)) (@local J0 KYBER_N)
    (bytes_of_stack J0 (KYBER_PUBLICKEYBYTES lv)) (bytes_of_stack J0 (KYBER_SECRETKEYBYTES lv))
    (bytes_of_stack J0 (KYBER_CIPHERTEXTBYTES lv)) (bytes_of_stack J0 KYBER_SSBYTES) s in
  out <- run_benchmarks JJ 1 (benchmarks coins32 coins64) (repeat 0 ntests) (2 ^ 64 - 1) 0 v ;;
  ret (out, 0).
End Program.
End Speed.
