(** * /repo/ref/indcpa.c *)
From Coq Require Import ZArith List.
From Verif Require Import CMonad Model_Params Model_Fips202 Model_Symmetric
  Model_NTT Model_Poly Model_Polyvec.
Import ListNotations.
Open Scope Z_scope.
Open Scope cmonad_scope.

(** indcpa.c:121-142.  Loop state (ctr, pos, r).  Fuel: pos grows by 3 per
    iteration.  Returns (ctr, r).  [r] is an array and an offset. *)
Definition rej_uniform (r : list Z) (ro len : nat) (buf : list Z) (buflen : nat)
  : res (nat * list Z) :=
  '(ctr, pos, r) <- while_ (S buflen)
    (fun s => let '(ctr, pos, r) := s in
       test_and (ctr <? len)%nat (test (pos + 3 <=? buflen)%nat))
    (fun s => let '(ctr, pos, r) := s in
       (* val0 = ((buf[pos+0] >> 0) | ((uint16_t)buf[pos+1] << 8)) & 0xFFF; *)
       b0 <- aget buf (pos + 0) ;; x <- shr 32 b0 0 ;;
       b1 <- aget buf (pos + 1) ;; y <- ishl (u16 b1) 8 ;;
       let val0 := u16 (Z.land (Z.lor x y) 0xFFF) in
       (* val1 = ((buf[pos+1] >> 4) | ((uint16_t)buf[pos+2] << 4)) & 0xFFF; *)
       b1 <- aget buf (pos + 1) ;; x <- shr 32 b1 4 ;;
       b2 <- aget buf (pos + 2) ;; y <- ishl (u16 b2) 4 ;;
       let val1 := u16 (Z.land (Z.lor x y) 0xFFF) in
       let pos := (pos + 3)%nat in
       c <- test (val0 <? KYBER_Q) ;;
       '(ctr, r) <- (if (c : bool)
                     then (r <- aset r (ro + ctr) (i16 val0) ;; ret (S ctr, r))
                     else ret (ctr, r)) ;;
       c <- test_and (ctr <? len)%nat (test (val1 <? KYBER_Q)) ;;
       '(ctr, r) <- (if (c : bool)
                     then (r <- aset r (ro + ctr) (i16 val1) ;; ret (S ctr, r))
                     else ret (ctr, r)) ;;
       ret (ctr, pos, r))
    (0%nat, 0%nat, r) ;;
  ret (ctr, r).

(** indcpa.c:163.  ((12*256/8*(1<<12)/3329 + 168)/168) = 3, computed in Z to
    avoid large nat numerals. *)
Definition GEN_MATRIX_NBLOCKS : nat :=
  Z.to_nat ((12 * 256 / 8 * 2 ^ 12 / KYBER_Q + Z.of_nat XOF_BLOCKBYTES)
            / Z.of_nat XOF_BLOCKBYTES).

Section WithJunk.
Context `{Junk}.

(** indcpa.c:23-29 *)
Definition pack_pk (lv : level) (r : list Z) (ro : nat) (pk : polyvec) (seed : list Z) (so : nat)
  : res (list Z) :=
  r <- polyvec_tobytes lv r ro pk ;;
  memcpy r (ro + KYBER_POLYVECBYTES lv) seed so KYBER_SYMBYTES.

(** indcpa.c:41-47; returns (pk, seed) *)
Definition unpack_pk (lv : level) (pk : polyvec) (seed : list Z) (packedpk : list Z) (po : nat)
  : res (polyvec * list Z) :=
  pk <- polyvec_frombytes lv pk packedpk po ;;
  seed <- memcpy seed 0 packedpk (po + KYBER_POLYVECBYTES lv) KYBER_SYMBYTES ;;
  ret (pk, seed).

(** indcpa.c:57-60 *)
Definition pack_sk (lv : level) (r : list Z) (ro : nat) (sk : polyvec) : res (list Z) :=
  polyvec_tobytes lv r ro sk.

(** indcpa.c:70-73 *)
Definition unpack_sk (lv : level) (sk : polyvec) (packedsk : list Z) (po : nat) : res polyvec :=
  polyvec_frombytes lv sk packedsk po.

(** indcpa.c:86-90 *)
Definition pack_ciphertext (lv : level) (r : list Z) (ro : nat) (b : polyvec) (v : list Z)
  : res (list Z) :=
  r <- polyvec_compress lv r ro b ;;
  poly_compress lv r (ro + KYBER_POLYVECCOMPRESSEDBYTES lv) v.

(** indcpa.c:102-106; returns (b, v) *)
Definition unpack_ciphertext (lv : level) (b : polyvec) (v : list Z) (c : list Z) (co : nat)
  : res (polyvec * list Z) :=
  b <- polyvec_decompress lv b c co ;;
  v <- poly_decompress lv v c (co + KYBER_POLYVECCOMPRESSEDBYTES lv) ;;
  ret (b, v).

(** indcpa.c:174-187: one matrix entry.  [fuel] bounds the number of
    iterations of the refill loop (which is unbounded in C).
    Returns (coeffs, buf, state). *)
Definition gen_matrix_entry (fuel : nat) (coeffs : list Z) (buf : list Z) (state : keccak_state)
  (seed : list Z) (so : nat) (x y : Z) : res (list Z * list Z * keccak_state) :=
  state <- xof_absorb state seed so x y ;;
  '(buf, state) <- xof_squeezeblocks buf 0 GEN_MATRIX_NBLOCKS state ;;
  '(ctr, coeffs) <- rej_uniform coeffs 0 KYBER_N buf (GEN_MATRIX_NBLOCKS * XOF_BLOCKBYTES) ;;
  '(ctr, coeffs, buf, state) <- while_ fuel
    (fun s => let '(ctr, coeffs, buf, state) := s in test (ctr <? KYBER_N)%nat)
    (fun s => let '(ctr, coeffs, buf, state) := s in
       '(buf, state) <- xof_squeezeblocks buf 0 1 state ;;
       '(n, coeffs) <- rej_uniform coeffs ctr (KYBER_N - ctr) buf XOF_BLOCKBYTES ;;
       ret ((ctr + n)%nat, coeffs, buf, state))
    (ctr, coeffs, buf, state) ;;
  ret (coeffs, buf, state).

(** indcpa.c:165-190 *)
Definition gen_matrix (lv : level) (fuel : nat) (a : list polyvec) (seed : list Z) (so : nat)
  (transposed : bool) : res (list polyvec) :=
  s <- for_ (KYBER_K lv) 0 (fun i s =>
    for_ (KYBER_K lv) 0 (fun j s =>
      let '(a, buf, state) := s in
      c <- test transposed ;;
      ai <- aget a i ;;
      aij <- aget ai j ;;
      '(aij, buf, state) <-
        (if (c : bool)
         then gen_matrix_entry fuel aij buf state seed so (u8 (Z.of_nat i)) (u8 (Z.of_nat j))
         else gen_matrix_entry fuel aij buf state seed so (u8 (Z.of_nat j)) (u8 (Z.of_nat i))) ;;
      ai <- aset ai j aij ;;
      a <- aset a i ai ;;
      ret (a, buf, state)) s)
    (a, local (GEN_MATRIX_NBLOCKS * XOF_BLOCKBYTES), local_state) ;;
  ret (fst (fst s)).

(** indcpa.c:144-145 *)
Definition gen_a lv fuel a seed so := gen_matrix lv fuel a seed so false.
Definition gen_at lv fuel a seed so := gen_matrix lv fuel a seed so true.

(** An uninitialised local matrix polyvec a[KYBER_K]. *)
Definition local_matrix (lv : level) : list polyvec := repeat (local_polyvec lv) (KYBER_K lv).

(** for(i=0;i<KYBER_K;i++) poly_getnoise_eta1(&v.vec[i], seed, nonce++);
    (indcpa.c:222-223, 224-225, 275-276).  State (v, nonce). *)
Definition getnoise_vec_eta1 (lv : level) (v : polyvec) (seed : list Z) (so : nat) (nonce : Z)
  : res (polyvec * Z) :=
  for_ (KYBER_K lv) 0 (fun i s =>
    let '(v, nonce) := s in
    p <- aget v i ;;
    p <- poly_getnoise_eta1 lv p seed so nonce ;;
    v <- aset v i p ;;
    ret (v, u8 (nonce + 1))) (v, nonce).

(** for(i=0;i<KYBER_K;i++) poly_getnoise_eta2(ep.vec+i, coins, nonce++);
    (indcpa.c:277-278) *)
Definition getnoise_vec_eta2 (lv : level) (v : polyvec) (seed : list Z) (so : nat) (nonce : Z)
  : res (polyvec * Z) :=
  for_ (KYBER_K lv) 0 (fun i s =>
    let '(v, nonce) := s in
    p <- aget v i ;;
    p <- poly_getnoise_eta2 p seed so nonce ;;
    v <- aset v i p ;;
    ret (v, u8 (nonce + 1))) (v, nonce).

(** indcpa.c:205-241; returns (pk, sk).  publicseed = buf, noiseseed = buf+32 *)
Definition indcpa_keypair_derand (lv : level) (fuel : nat) (pk : list Z) (po : nat)
  (sk : list Z) (sko : nat) (coins : list Z) (co : nat) : res (list Z * list Z) :=
  let buf := local (2 * KYBER_SYMBYTES) in
  let a := local_matrix lv in
  let e := local_polyvec lv in
  let pkpv := local_polyvec lv in
  let skpv := local_polyvec lv in
  buf <- memcpy buf 0 coins co KYBER_SYMBYTES ;;
  buf <- aset buf KYBER_SYMBYTES (u8 (Z.of_nat (KYBER_K lv))) ;;
  buf <- hash_g buf 0 buf 0 (KYBER_SYMBYTES + 1) ;;
  a <- gen_a lv fuel a buf 0 ;;
  '(skpv, nonce) <- getnoise_vec_eta1 lv skpv buf KYBER_SYMBYTES 0 ;;
  '(e, nonce) <- getnoise_vec_eta1 lv e buf KYBER_SYMBYTES nonce ;;
  skpv <- polyvec_ntt lv skpv ;;
  e <- polyvec_ntt lv e ;;
  pkpv <- for_ (KYBER_K lv) 0 (fun i pkpv =>
    p <- aget pkpv i ;;
    ai <- aget a i ;;
    p <- polyvec_basemul_acc_montgomery lv p ai skpv ;;
    p <- poly_tomont p ;;
    aset pkpv i p) pkpv ;;
  pkpv <- polyvec_add lv pkpv VSelf (VOther e) ;;
  pkpv <- polyvec_reduce lv pkpv ;;
  sk <- pack_sk lv sk sko skpv ;;
  pk <- pack_pk lv pk po pkpv buf 0 ;;
  ret (pk, sk).

(** indcpa.c:260-299 *)
Definition indcpa_enc (lv : level) (fuel : nat) (c : list Z) (cto : nat) (m : list Z) (mo : nat)
  (pk : list Z) (po : nat) (coins : list Z) (co : nat) : res (list Z) :=
  let seed := local KYBER_SYMBYTES in
  let sp := local_polyvec lv in
  let pkpv := local_polyvec lv in
  let ep := local_polyvec lv in
  let at_ := local_matrix lv in
  let b := local_polyvec lv in
  let v := local_poly in
  let k := local_poly in
  let epp := local_poly in
  '(pkpv, seed) <- unpack_pk lv pkpv seed pk po ;;
  k <- poly_frommsg k m mo ;;
  at_ <- gen_at lv fuel at_ seed 0 ;;
  '(sp, nonce) <- getnoise_vec_eta1 lv sp coins co 0 ;;
  '(ep, nonce) <- getnoise_vec_eta2 lv ep coins co nonce ;;
  epp <- poly_getnoise_eta2 epp coins co nonce ;;
  sp <- polyvec_ntt lv sp ;;
  b <- for_ (KYBER_K lv) 0 (fun i b =>
    p <- aget b i ;;
    ai <- aget at_ i ;;
    p <- polyvec_basemul_acc_montgomery lv p ai sp ;;
    aset b i p) b ;;
  v <- polyvec_basemul_acc_montgomery lv v pkpv sp ;;
  b <- polyvec_invntt_tomont lv b ;;
  v <- poly_invntt_tomont v ;;
  b <- polyvec_add lv b VSelf (VOther ep) ;;
  v <- poly_add v Self (Other epp) ;;
  v <- poly_add v Self (Other k) ;;
  b <- polyvec_reduce lv b ;;
  v <- poly_reduce v ;;
  pack_ciphertext lv c cto b v.

(** indcpa.c:314-332 *)
Definition indcpa_dec (lv : level) (m : list Z) (mo : nat) (c : list Z) (co : nat)
  (sk : list Z) (sko : nat) : res (list Z) :=
  let b := local_polyvec lv in
  let skpv := local_polyvec lv in
  let v := local_poly in
  let mp := local_poly in
  '(b, v) <- unpack_ciphertext lv b v c co ;;
  skpv <- unpack_sk lv skpv sk sko ;;
  b <- polyvec_ntt lv b ;;
  mp <- polyvec_basemul_acc_montgomery lv mp skpv b ;;
  mp <- poly_invntt_tomont mp ;;
  mp <- poly_sub mp (Other v) Self ;;
  mp <- poly_reduce mp ;;
  poly_tomsg m mo mp.

End WithJunk.
