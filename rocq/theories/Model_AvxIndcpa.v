(** * /repo/avx2/indcpa.c and the noise samplers of /repo/avx2/poly.c

    The code handles four instances at a time by writing each statement four
    times (for buf[0] .. buf[3]); this is a [for_] over the instance number
    here.  The destination polynomials are taken out of the matrix before, and
    put back after, such a group of statements.

    rej_uniform (lines 134-155) is textually that of ref/ and is shared; so are
    shake128_absorb_once, shake128_squeezeblocks, prf and hash_g (fips202.c and
    symmetric-shake.c are the same files). *)
From Coq Require Import ZArith List.
From Verif Require Import CMonad Model_Params Model_Fips202 Model_Symmetric Model_Polyvec Model_Indcpa
  Model_AvxIntrin Model_AvxAsm Model_AvxCode Model_AvxC Model_AvxPolyvec Model_AvxFips202x4 Model_AvxRej.
Import ListNotations.
Open Scope Z_scope.
Open Scope cmonad_scope.

Section WithJunk.
Context `{Junk}.

(** ** Packing *)
(** indcpa.c:30-36 *)
Definition pack_pk_avx2 (lv : level) (r : list Z) (ro : nat) (pk : polyvec) (seed : list Z) (so : nat)
  : res (list Z) :=
  r <- polyvec_tobytes_avx2 lv r ro pk ;;
  memcpy r (ro + KYBER_POLYVECBYTES lv) seed so KYBER_SYMBYTES.

(** indcpa.c:48-54; returns (pk, seed) *)
Definition unpack_pk_avx2 (lv : level) (pk : polyvec) (seed : list Z) (packedpk : list Z) (po : nat)
  : res (polyvec * list Z) :=
  pk <- polyvec_frombytes_avx2 lv pk packedpk po ;;
  seed <- memcpy seed 0 packedpk (po + KYBER_POLYVECBYTES lv) KYBER_SYMBYTES ;;
  ret (pk, seed).

(** indcpa.c:67-70, 80-83 *)
Definition pack_sk_avx2 (lv : level) (r : list Z) (ro : nat) (sk : polyvec) : res (list Z) :=
  polyvec_tobytes_avx2 lv r ro sk.
Definition unpack_sk_avx2 (lv : level) (sk : polyvec) (packedsk : list Z) (po : nat) : res polyvec :=
  polyvec_frombytes_avx2 lv sk packedsk po.

(** indcpa.c:99-103 *)
Definition pack_ciphertext_avx2 (lv : level) (r : list Z) (ro : nat) (b : polyvec) (v : list Z)
  : res (list Z) :=
  r <- polyvec_compress_avx2 lv r ro b ;;
  poly_compress_avx2 lv r (ro + KYBER_POLYVECCOMPRESSEDBYTES lv) v.

(** indcpa.c:115-119; returns (b, v) *)
Definition unpack_ciphertext_avx2 (lv : level) (b : polyvec) (v : list Z) (c : list Z) (co : nat)
  : res (polyvec * list Z) :=
  b <- polyvec_decompress_avx2 lv b c co ;;
  v <- poly_decompress_avx2 lv v c (co + KYBER_POLYVECCOMPRESSEDBYTES lv) ;;
  ret (b, v).

(** ** The matrix *)
(** f = _mm256_loadu_si256(seed); _mm256_store_si256(buf[j].vec, f) for each j *)
Definition store_seed (bufs : list (list Z)) (seed : list Z) (so : nat) : res (list (list Z)) :=
  f <- mload seed so 32 ;;
  for_ 4 0 (fun j bufs => b <- aget bufs j ;; b <- mstore b 0 f ;; aset bufs j b) bufs.
(** The bytes after the seed: buf[j].coeffs[32], buf[j].coeffs[33] *)
Fixpoint set_bytes (b : list Z) (o : nat) (xs : list Z) : res (list Z) :=
  match xs with
  | [] => ret b
  | x :: xs' => b <- aset b o x ;; set_bytes b (S o) xs'
  end.
Definition set_each (bufs : list (list Z)) (xss : list (list Z)) : res (list (list Z)) :=
  for_ 4 0 (fun j bufs => b <- aget bufs j ;; b <- set_bytes b 32 (nth j xss []) ;; aset bufs j b) bufs.

(** while(ctr0 < KYBER_N || ctr1 < KYBER_N || ctr2 < KYBER_N || ctr3 < KYBER_N) *)
Fixpoint some_below (ctrs : list nat) : res bool :=
  match ctrs with
  | [] => ret false
  | c :: ctrs' => b <- test (c <? KYBER_N)%nat ;; if (b : bool) then ret true else some_below ctrs'
  end.

(** Lines 180-227 (also 238-285, 287-334, 359-406): four entries.  [xt] and [xn]
    are the bytes 32, 33 of the four buffers in the two branches of
    if(transposed); [ps] the four destinations.  Returns (ps, bufs, state). *)
Definition gen_four (fuel : nat) (ps bufs state : list (list Z)) (seed : list Z) (so : nat)
  (transposed : bool) (xt xn : list (list Z)) : res (list (list Z) * list (list Z) * list (list Z)) :=
  bufs <- store_seed bufs seed so ;;
  c <- test transposed ;;
  bufs <- set_each bufs (if (c : bool) then xt else xn) ;;
  state <- shake128x4_absorb_once state bufs 34 ;;
  '(bufs, state) <- shake128x4_squeezeblocks bufs 0 REJ_UNIFORM_AVX_NBLOCKS state ;;
  '(ctrs, ps) <- for_ 4 0 (fun j s =>
     let '(ctrs, ps) := s in
     p <- aget ps j ;; b <- aget bufs j ;;
     '(c, p) <- rej_uniform_avx p b ;;
     ctrs <- aset ctrs j c ;; ps <- aset ps j p ;;
     ret (ctrs, ps)) (repeat 0%nat 4, ps) ;;
  '(ctrs, ps, bufs, state) <- while_ fuel
    (fun s => let '(ctrs, ps, bufs, state) := s in some_below ctrs)
    (fun s => let '(ctrs, ps, bufs, state) := s in
      '(bufs, state) <- shake128x4_squeezeblocks bufs 0 1 state ;;
      '(ctrs, ps) <- for_ 4 0 (fun j s =>
         let '(ctrs, ps) := s in
         c <- aget ctrs j ;; p <- aget ps j ;; b <- aget bufs j ;;
         '(n, p) <- rej_uniform p c (KYBER_N - c) b SHAKE128_RATE ;;
         ctrs <- aset ctrs j (c + n)%nat ;; ps <- aset ps j p ;;
         ret (ctrs, ps)) (ctrs, ps) ;;
      ret (ctrs, ps, bufs, state))
    (ctrs, ps, bufs, state) ;;
  ps <- for_ 4 0 (fun j ps => p <- aget ps j ;; p <- nttunpack_avx p ;; aset ps j p) ps ;;
  ret (ps, bufs, state).

(** Lines 336-348: a single entry with the scalar SHAKE128.  Returns (p, b). *)
Definition gen_one (fuel : nat) (p b : list Z) (seed : list Z) (so : nat) (xs : list Z)
  : res (list Z * list Z) :=
  f <- mload seed so 32 ;;
  b <- mstore b 0 f ;;
  b <- set_bytes b 32 xs ;;
  state1x <- shake128_absorb_once local_state b 0 34 ;;
  '(b, state1x) <- shake128_squeezeblocks b 0 REJ_UNIFORM_AVX_NBLOCKS state1x ;;
  '(c, p) <- rej_uniform_avx p b ;;
  '(c, p, b, state1x) <- while_ fuel
    (fun s => let '(c, p, b, state1x) := s in test (c <? KYBER_N)%nat)
    (fun s => let '(c, p, b, state1x) := s in
      '(b, state1x) <- shake128_squeezeblocks b 0 1 state1x ;;
      '(n, p) <- rej_uniform p c (KYBER_N - c) b SHAKE128_RATE ;;
      ret ((c + n)%nat, p, b, state1x))
    (c, p, b, state1x) ;;
  p <- nttunpack_avx p ;;
  ret (p, b).

(** a[i].vec[j] for the (i, j) listed *)
Fixpoint get_entries (a : list polyvec) (pos : list (nat * nat)) : res (list (list Z)) :=
  match pos with
  | [] => ret []
  | (i, j) :: pos' =>
      ai <- aget a i ;; p <- aget ai j ;; ps <- get_entries a pos' ;; ret (p :: ps)
  end.
Fixpoint put_entries (a : list polyvec) (pos : list (nat * nat)) (ps : list (list Z)) : res (list polyvec) :=
  match pos, ps with
  | (i, j) :: pos', p :: ps' =>
      ai <- aget a i ;; ai <- aset ai j p ;; a <- aset a i ai ;; put_entries a pos' ps'
  | _, _ => ret a
  end.

(** One group of four entries; returns (a, bufs, state) *)
Definition gen_group (fuel : nat) (seed : list Z) (so : nat) (transposed : bool)
  (pos : list (nat * nat)) (xt xn : list (list Z)) (s : list polyvec * list (list Z) * list (list Z))
  : res (list polyvec * list (list Z) * list (list Z)) :=
  let '(a, bufs, state) := s in
  ps <- get_entries a pos ;;
  '(ps, bufs, state) <- gen_four fuel ps bufs state seed so transposed xt xn ;;
  a <- put_entries a pos ps ;;
  ret (a, bufs, state).

(** indcpa.c:173-228 (KYBER_K == 2), 230-349 (3), 351-408 (4) *)
Definition gen_matrix_avx2 (lv : level) (fuel : nat) (a : list polyvec) (seed : list Z) (so : nat)
  (transposed : bool) : res (list polyvec) :=
  let bufs := repeat (local8 REJ_UNIFORM_AVX_BUFLEN) 4 in
  let s := (a, bufs, local_state4) in
  match lv with
  | Kyber512 =>
      '(a, bufs, state) <- gen_group fuel seed so transposed [(0, 0); (0, 1); (1, 0); (1, 1)]%nat
        [[0; 0]; [0; 1]; [1; 0]; [1; 1]]
        [[0; 0]; [1; 0]; [0; 1]; [1; 1]] s ;;
      ret a
  | Kyber768 =>
      s <- gen_group fuel seed so transposed [(0, 0); (0, 1); (0, 2); (1, 0)]%nat
        [[0; 0]; [0; 1]; [0; 2]; [1; 0]]
        [[0; 0]; [1; 0]; [2; 0]; [0; 1]] s ;;
      '(a, bufs, state) <- gen_group fuel seed so transposed [(1, 1); (1, 2); (2, 0); (2, 1)]%nat
        [[1; 1]; [1; 2]; [2; 0]; [2; 1]]
        [[1; 1]; [2; 1]; [0; 2]; [1; 2]] s ;;
      b <- aget bufs 0 ;;
      a2 <- aget a 2 ;; p <- aget a2 2 ;;
      '(p, b) <- gen_one fuel p b seed so [2; 2] ;;
      a2 <- aset a2 2 p ;; aset a 2 a2
  | Kyber1024 =>
      '(a, bufs, state) <- for_ 4 0 (fun i s =>
        let x := u8 (Z.of_nat i) in
        gen_group fuel seed so transposed [(i, 0); (i, 1); (i, 2); (i, 3)]%nat
          [[x; 0]; [x; 1]; [x; 2]; [x; 3]]
          [[0; x]; [1; x]; [2; x]; [3; x]] s) s ;;
      ret a
  end.

(** indcpa.c:157-158 *)
Definition gen_a_avx2 lv fuel a seed so := gen_matrix_avx2 lv fuel a seed so false.
Definition gen_at_avx2 lv fuel a seed so := gen_matrix_avx2 lv fuel a seed so true.

(** ** Noise, avx2/poly.c.  Each sampled polynomial is logged with its nonce. *)
(** poly.c:288-293; not used by indcpa.c *)
Definition poly_getnoise_eta1_avx2 (lv : level) (r : list Z) (seed : list Z) (so : nat) (nonce : Z)
  : res (list Z) :=
  let n := (KYBER_ETA1 lv * KYBER_N / 4)%nat in
  _ <- emit (EvNoise nonce) ;;
  buf <- kyber_shake256_prf (local8 (n + 32)) 0 n seed so nonce ;;
  poly_cbd_eta1_avx2 lv r buf.

(** poly.c:307-312 *)
Definition poly_getnoise_eta2_avx2 (r : list Z) (seed : list Z) (so : nat) (nonce : Z) : res (list Z) :=
  let n := (KYBER_ETA2 * KYBER_N / 4)%nat in
  _ <- emit (EvNoise nonce) ;;
  buf <- kyber_shake256_prf (local8 n) 0 n seed so nonce ;;
  poly_cbd_eta2_avx2 r buf.

(** poly.c:315 *)
Definition NOISE_NBLOCKS (lv : level) : nat :=
  ((KYBER_ETA1 lv * KYBER_N / 4 + SHAKE256_RATE - 1) / SHAKE256_RATE)%nat.

Fixpoint log_nonces (nonces : list Z) : res unit :=
  match nonces with
  | [] => ret tt
  | n :: nonces' => _ <- emit (EvNoise n) ;; log_nonces nonces'
  end.

(** poly.c:326-342, 361-377: the four buffers of PRF output *)
Definition noise_bufs (lv : level) (seed : list Z) (so : nat) (nonces : list Z) : res (list (list Z)) :=
  let bufs := repeat (local8 (NOISE_NBLOCKS lv * SHAKE256_RATE)) 4 in
  _ <- log_nonces nonces ;;
  bufs <- store_seed bufs seed so ;;
  bufs <- set_each bufs (map (fun n => [n]) nonces) ;;
  state <- shake256x4_absorb_once local_state4 bufs 33 ;;
  '(bufs, state) <- shake256x4_squeezeblocks bufs 0 (NOISE_NBLOCKS lv) state ;;
  ret bufs.

(** poly.c:316-348; the four destinations are given and returned as a list *)
Definition poly_getnoise_eta1_4x (lv : level) (rs : list (list Z)) (seed : list Z) (so : nat) (nonces : list Z)
  : res (list (list Z)) :=
  bufs <- noise_bufs lv seed so nonces ;;
  for_ 4 0 (fun j rs =>
    r <- aget rs j ;; b <- aget bufs j ;;
    r <- poly_cbd_eta1_avx2 lv r b ;; aset rs j r) rs.

(** poly.c:351-383, KYBER_K == 2 *)
Definition poly_getnoise_eta1122_4x (lv : level) (rs : list (list Z)) (seed : list Z) (so : nat) (nonces : list Z)
  : res (list (list Z)) :=
  bufs <- noise_bufs lv seed so nonces ;;
  rs <- for_ 2 0 (fun j rs =>
    r <- aget rs j ;; b <- aget bufs j ;;
    r <- poly_cbd_eta1_avx2 lv r b ;; aset rs j r) rs ;;
  for_ 2 2 (fun j rs =>
    r <- aget rs j ;; b <- aget bufs j ;;
    r <- poly_cbd_eta2_avx2 r b ;; aset rs j r) rs.

(** ** Key generation, encryption, decryption *)
(** The destinations of a sampler call: polynomials of two vectors.  The calls
    of indcpa.c write vec+i of some vectors and of single polynomials; a vector
    is cut into polynomials before and put together after the calls. *)

(** indcpa.c:440-448; returns (skpv, e, pkpv) *)
Definition keypair_noise (lv : level) (skpv e pkpv : polyvec) (seed : list Z) (so : nat)
  : res (polyvec * polyvec * polyvec) :=
  match lv with
  | Kyber512 =>
      s0 <- aget skpv 0 ;; s1 <- aget skpv 1 ;; e0 <- aget e 0 ;; e1 <- aget e 1 ;;
      rs <- poly_getnoise_eta1_4x lv [s0; s1; e0; e1] seed so [0; 1; 2; 3] ;;
      skpv <- aset skpv 0 (nth 0 rs []) ;; skpv <- aset skpv 1 (nth 1 rs []) ;;
      e <- aset e 0 (nth 2 rs []) ;; e <- aset e 1 (nth 3 rs []) ;;
      ret (skpv, e, pkpv)
  | Kyber768 =>
      s0 <- aget skpv 0 ;; s1 <- aget skpv 1 ;; s2 <- aget skpv 2 ;; e0 <- aget e 0 ;;
      rs <- poly_getnoise_eta1_4x lv [s0; s1; s2; e0] seed so [0; 1; 2; 3] ;;
      skpv <- aset skpv 0 (nth 0 rs []) ;; skpv <- aset skpv 1 (nth 1 rs []) ;;
      skpv <- aset skpv 2 (nth 2 rs []) ;; e <- aset e 0 (nth 3 rs []) ;;
      e1 <- aget e 1 ;; e2 <- aget e 2 ;; p0 <- aget pkpv 0 ;; p1 <- aget pkpv 1 ;;
      rs <- poly_getnoise_eta1_4x lv [e1; e2; p0; p1] seed so [4; 5; 6; 7] ;;
      e <- aset e 1 (nth 0 rs []) ;; e <- aset e 2 (nth 1 rs []) ;;
      pkpv <- aset pkpv 0 (nth 2 rs []) ;; pkpv <- aset pkpv 1 (nth 3 rs []) ;;
      ret (skpv, e, pkpv)
  | Kyber1024 =>
      s0 <- aget skpv 0 ;; s1 <- aget skpv 1 ;; s2 <- aget skpv 2 ;; s3 <- aget skpv 3 ;;
      rs <- poly_getnoise_eta1_4x lv [s0; s1; s2; s3] seed so [0; 1; 2; 3] ;;
      skpv <- aset skpv 0 (nth 0 rs []) ;; skpv <- aset skpv 1 (nth 1 rs []) ;;
      skpv <- aset skpv 2 (nth 2 rs []) ;; skpv <- aset skpv 3 (nth 3 rs []) ;;
      e0 <- aget e 0 ;; e1 <- aget e 1 ;; e2 <- aget e 2 ;; e3 <- aget e 3 ;;
      rs <- poly_getnoise_eta1_4x lv [e0; e1; e2; e3] seed so [4; 5; 6; 7] ;;
      e <- aset e 0 (nth 0 rs []) ;; e <- aset e 1 (nth 1 rs []) ;;
      e <- aset e 2 (nth 2 rs []) ;; e <- aset e 3 (nth 3 rs []) ;;
      ret (skpv, e, pkpv)
  end.

(** indcpa.c:497-507; returns (sp, ep, epp, b) *)
Definition enc_noise (lv : level) (sp ep : polyvec) (epp : list Z) (b : polyvec) (coins : list Z) (co : nat)
  : res (polyvec * polyvec * list Z * polyvec) :=
  match lv with
  | Kyber512 =>
      s0 <- aget sp 0 ;; s1 <- aget sp 1 ;; e0 <- aget ep 0 ;; e1 <- aget ep 1 ;;
      rs <- poly_getnoise_eta1122_4x lv [s0; s1; e0; e1] coins co [0; 1; 2; 3] ;;
      sp <- aset sp 0 (nth 0 rs []) ;; sp <- aset sp 1 (nth 1 rs []) ;;
      ep <- aset ep 0 (nth 2 rs []) ;; ep <- aset ep 1 (nth 3 rs []) ;;
      epp <- poly_getnoise_eta2_avx2 epp coins co 4 ;;
      ret (sp, ep, epp, b)
  | Kyber768 =>
      s0 <- aget sp 0 ;; s1 <- aget sp 1 ;; s2 <- aget sp 2 ;; e0 <- aget ep 0 ;;
      rs <- poly_getnoise_eta1_4x lv [s0; s1; s2; e0] coins co [0; 1; 2; 3] ;;
      sp <- aset sp 0 (nth 0 rs []) ;; sp <- aset sp 1 (nth 1 rs []) ;;
      sp <- aset sp 2 (nth 2 rs []) ;; ep <- aset ep 0 (nth 3 rs []) ;;
      e1 <- aget ep 1 ;; e2 <- aget ep 2 ;; b0 <- aget b 0 ;;
      rs <- poly_getnoise_eta1_4x lv [e1; e2; epp; b0] coins co [4; 5; 6; 7] ;;
      ep <- aset ep 1 (nth 0 rs []) ;; ep <- aset ep 2 (nth 1 rs []) ;;
      b <- aset b 0 (nth 3 rs []) ;;
      ret (sp, ep, nth 2 rs [], b)
  | Kyber1024 =>
      s0 <- aget sp 0 ;; s1 <- aget sp 1 ;; s2 <- aget sp 2 ;; s3 <- aget sp 3 ;;
      rs <- poly_getnoise_eta1_4x lv [s0; s1; s2; s3] coins co [0; 1; 2; 3] ;;
      sp <- aset sp 0 (nth 0 rs []) ;; sp <- aset sp 1 (nth 1 rs []) ;;
      sp <- aset sp 2 (nth 2 rs []) ;; sp <- aset sp 3 (nth 3 rs []) ;;
      e0 <- aget ep 0 ;; e1 <- aget ep 1 ;; e2 <- aget ep 2 ;; e3 <- aget ep 3 ;;
      rs <- poly_getnoise_eta1_4x lv [e0; e1; e2; e3] coins co [4; 5; 6; 7] ;;
      ep <- aset ep 0 (nth 0 rs []) ;; ep <- aset ep 1 (nth 1 rs []) ;;
      ep <- aset ep 2 (nth 2 rs []) ;; ep <- aset ep 3 (nth 3 rs []) ;;
      epp <- poly_getnoise_eta2_avx2 epp coins co 8 ;;
      ret (sp, ep, epp, b)
  end.

(** indcpa.c:424-465; returns (pk, sk).  publicseed = buf, noiseseed = buf+32 *)
Definition indcpa_keypair_derand_avx2 (lv : level) (fuel : nat) (pk : list Z) (po : nat)
  (sk : list Z) (sko : nat) (coins : list Z) (co : nat) : res (list Z * list Z) :=
  let buf := local (2 * KYBER_SYMBYTES) in
  let a := local_matrix lv in
  let e := local_polyvec lv in
  let pkpv := local_polyvec lv in
  let skpv := local_polyvec lv in
  buf <- memcpy buf 0 coins co KYBER_SYMBYTES ;;
  buf <- aset buf KYBER_SYMBYTES (u8 (Z.of_nat (KYBER_K lv))) ;;
  buf <- hash_g buf 0 buf 0 (KYBER_SYMBYTES + 1) ;;
  a <- gen_a_avx2 lv fuel a buf 0 ;;
  '(skpv, e, pkpv) <- keypair_noise lv skpv e pkpv buf KYBER_SYMBYTES ;;
  skpv <- polyvec_ntt_avx2 lv skpv ;;
  skpv <- polyvec_reduce_avx2 lv skpv ;;
  e <- polyvec_ntt_avx2 lv e ;;
  pkpv <- for_ (KYBER_K lv) 0 (fun i pkpv =>
    p <- aget pkpv i ;;
    ai <- aget a i ;;
    p <- polyvec_basemul_acc_montgomery_avx2 lv p ai skpv ;;
    p <- tomont_avx p ;;
    aset pkpv i p) pkpv ;;
  pkpv <- polyvec_add_to_avx2 lv pkpv e ;;
  pkpv <- polyvec_reduce_avx2 lv pkpv ;;
  sk <- pack_sk_avx2 lv sk sko skpv ;;
  pk <- pack_pk_avx2 lv pk po pkpv buf 0 ;;
  ret (pk, sk).

(** indcpa.c:483-526 *)
Definition indcpa_enc_avx2 (lv : level) (fuel : nat) (c : list Z) (cto : nat) (m : list Z) (mo : nat)
  (pk : list Z) (po : nat) (coins : list Z) (co : nat) : res (list Z) :=
  let seed := local KYBER_SYMBYTES in
  let sp := local_polyvec lv in
  let pkpv := local_polyvec lv in
  let ep := local_polyvec lv in
  let at_ := local_matrix lv in
  let b := local_polyvec lv in
  let v := local_poly in
  let k := local_poly in
  let epp := local_poly in
  '(pkpv, seed) <- unpack_pk_avx2 lv pkpv seed pk po ;;
  k <- poly_frommsg_avx2 k m mo ;;
  at_ <- gen_at_avx2 lv fuel at_ seed 0 ;;
  '(sp, ep, epp, b) <- enc_noise lv sp ep epp b coins co ;;
  sp <- polyvec_ntt_avx2 lv sp ;;
  b <- for_ (KYBER_K lv) 0 (fun i b =>
    p <- aget b i ;;
    ai <- aget at_ i ;;
    p <- polyvec_basemul_acc_montgomery_avx2 lv p ai sp ;;
    aset b i p) b ;;
  v <- polyvec_basemul_acc_montgomery_avx2 lv v pkpv sp ;;
  b <- polyvec_invntt_tomont_avx2 lv b ;;
  v <- invntt_avx v ;;
  b <- polyvec_add_to_avx2 lv b ep ;;
  v <- poly_add_to_avx2 v epp ;;
  v <- poly_add_to_avx2 v k ;;
  b <- polyvec_reduce_avx2 lv b ;;
  v <- reduce_avx v ;;
  pack_ciphertext_avx2 lv c cto b v.

(** indcpa.c:541-559 *)
Definition indcpa_dec_avx2 (lv : level) (m : list Z) (mo : nat) (c : list Z) (co : nat)
  (sk : list Z) (sko : nat) : res (list Z) :=
  let b := local_polyvec lv in
  let skpv := local_polyvec lv in
  let v := local_poly in
  let mp := local_poly in
  '(b, v) <- unpack_ciphertext_avx2 lv b v c co ;;
  skpv <- unpack_sk_avx2 lv skpv sk sko ;;
  b <- polyvec_ntt_avx2 lv b ;;
  mp <- polyvec_basemul_acc_montgomery_avx2 lv mp skpv b ;;
  mp <- invntt_avx mp ;;
  mp <- poly_sub_from_avx2 mp v ;;
  mp <- reduce_avx mp ;;
  poly_tomsg_avx2 m mo mp.

End WithJunk.
