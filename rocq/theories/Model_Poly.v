(** * /repo/ref/poly.c (without the noise samplers, see Model_Symmetric.v) *)
From Coq Require Import ZArith List.
From Verif Require Import CMonad Model_Params Model_Reduce Model_Verify Model_NTT.
Import ListNotations.
Open Scope Z_scope.
Open Scope cmonad_scope.

(** A polynomial argument of poly_add/poly_sub that may be the very object
    being written (calls such as poly_add(r, r, &t)). *)
Inductive operand : Type := Self | Other (l : list Z).
Definition oget (r : list Z) (o : operand) (i : nat) : res Z :=
  match o with Self => aget r i | Other l => aget l i end.

Section WithJunk.
Context `{Junk}.

(** poly.c:30-38: u = coeff; u += (u >> 15) & KYBER_Q; d0 = u << 4; d0 += 1665;
    d0 *= 80635; d0 >>= 28; t[j] = d0 & 0xf; *)
Definition compress4_coeff (c : Z) : res Z :=
  let u := c in
  s <- shr 32 u 15 ;;
  u <- iadd u (Z.land s KYBER_Q) ;;
  let u := i16 u in
  d0 <- ishl u 4 ;;
  let d0 := u32 d0 in
  let d0 := u32 (d0 + 1665) in
  let d0 := u32 (d0 * 80635) in
  d0 <- shr 32 d0 28 ;;
  ret (u8 (Z.land d0 0xf)).

(** poly.c:50-58, d = 5 *)
Definition compress5_coeff (c : Z) : res Z :=
  let u := c in
  s <- shr 32 u 15 ;;
  u <- iadd u (Z.land s KYBER_Q) ;;
  let u := i16 u in
  d0 <- ishl u 5 ;;
  let d0 := u32 d0 in
  let d0 := u32 (d0 + 1664) in
  let d0 := u32 (d0 * 40318) in
  d0 <- shr 32 d0 27 ;;
  ret (u8 (Z.land d0 0x1f)).

(** poly.c:28-46 (KYBER_POLYCOMPRESSEDBYTES == 128).  [r += 4] is modelled by
    the offset ro + 4*i. State: (r, t). *)
Definition poly_compress_128 (r : list Z) (ro : nat) (a : list Z) : res (list Z) :=
  s <- for_ (KYBER_N / 8) 0 (fun i s =>
    let '(r, t) := s in
    t <- for_ 8 0 (fun j t =>
      c <- aget a (8 * i + j) ;;
      d <- compress4_coeff c ;;
      aset t j d) t ;;
    t0 <- aget t 0 ;; t1 <- aget t 1 ;; s1 <- ishl t1 4 ;;
    r <- aset r (ro + 4 * i + 0) (u8 (Z.lor t0 s1)) ;;
    t2 <- aget t 2 ;; t3 <- aget t 3 ;; s3 <- ishl t3 4 ;;
    r <- aset r (ro + 4 * i + 1) (u8 (Z.lor t2 s3)) ;;
    t4 <- aget t 4 ;; t5 <- aget t 5 ;; s5 <- ishl t5 4 ;;
    r <- aset r (ro + 4 * i + 2) (u8 (Z.lor t4 s5)) ;;
    t6 <- aget t 6 ;; t7 <- aget t 7 ;; s7 <- ishl t7 4 ;;
    r <- aset r (ro + 4 * i + 3) (u8 (Z.lor t6 s7)) ;;
    ret (r, t)) (r, local 8) ;;
  ret (fst s).

(** poly.c:48-67 (KYBER_POLYCOMPRESSEDBYTES == 160) *)
Definition poly_compress_160 (r : list Z) (ro : nat) (a : list Z) : res (list Z) :=
  s <- for_ (KYBER_N / 8) 0 (fun i s =>
    let '(r, t) := s in
    t <- for_ 8 0 (fun j t =>
      c <- aget a (8 * i + j) ;;
      d <- compress5_coeff c ;;
      aset t j d) t ;;
    (* r[0] = (t[0] >> 0) | (t[1] << 5); *)
    t0 <- aget t 0 ;; t1 <- aget t 1 ;;
    x0 <- shr 32 t0 0 ;; x1 <- ishl t1 5 ;;
    r <- aset r (ro + 5 * i + 0) (u8 (Z.lor x0 x1)) ;;
    (* r[1] = (t[1] >> 3) | (t[2] << 2) | (t[3] << 7); *)
    t1 <- aget t 1 ;; t2 <- aget t 2 ;; t3 <- aget t 3 ;;
    x1 <- shr 32 t1 3 ;; x2 <- ishl t2 2 ;; x3 <- ishl t3 7 ;;
    r <- aset r (ro + 5 * i + 1) (u8 (Z.lor (Z.lor x1 x2) x3)) ;;
    (* r[2] = (t[3] >> 1) | (t[4] << 4); *)
    t3 <- aget t 3 ;; t4 <- aget t 4 ;;
    x3 <- shr 32 t3 1 ;; x4 <- ishl t4 4 ;;
    r <- aset r (ro + 5 * i + 2) (u8 (Z.lor x3 x4)) ;;
    (* r[3] = (t[4] >> 4) | (t[5] << 1) | (t[6] << 6); *)
    t4 <- aget t 4 ;; t5 <- aget t 5 ;; t6 <- aget t 6 ;;
    x4 <- shr 32 t4 4 ;; x5 <- ishl t5 1 ;; x6 <- ishl t6 6 ;;
    r <- aset r (ro + 5 * i + 3) (u8 (Z.lor (Z.lor x4 x5) x6)) ;;
    (* r[4] = (t[6] >> 2) | (t[7] << 3); *)
    t6 <- aget t 6 ;; t7 <- aget t 7 ;;
    x6 <- shr 32 t6 2 ;; x7 <- ishl t7 3 ;;
    r <- aset r (ro + 5 * i + 4) (u8 (Z.lor x6 x7)) ;;
    ret (r, t)) (r, local 8) ;;
  ret (fst s).

(** poly.c:19-71 *)
Definition poly_compress (lv : level) (r : list Z) (ro : nat) (a : list Z) : res (list Z) :=
  match lv with
  | Kyber512 => poly_compress_128 r ro a
  | Kyber768 => poly_compress_128 r ro a
  | Kyber1024 => poly_compress_160 r ro a
  end.

(** poly.c:88-92; [a += 1] is the offset ao + i *)
Definition poly_decompress_128 (r : list Z) (a : list Z) (ao : nat) : res (list Z) :=
  for_ (KYBER_N / 2) 0 (fun i r =>
    x <- aget a (ao + i + 0) ;;
    p <- imul (u16 (Z.land x 15)) KYBER_Q ;;
    p <- iadd p 8 ;;
    p <- shr 32 p 4 ;;
    r <- aset r (2 * i + 0) (i16 p) ;;
    x <- aget a (ao + i + 0) ;;
    x <- shr 32 x 4 ;;
    p <- imul (u16 x) KYBER_Q ;;
    p <- iadd p 8 ;;
    p <- shr 32 p 4 ;;
    aset r (2 * i + 1) (i16 p)) r.

(** poly.c:94-109; [a += 5] is the offset ao + 5*i.  The bytes a[k] are
    promoted to int before shifting. *)
Definition poly_decompress_160 (r : list Z) (a : list Z) (ao : nat) : res (list Z) :=
  s <- for_ (KYBER_N / 8) 0 (fun i s =>
    let '(r, t) := s in
    let g k := aget a (ao + 5 * i + k) in
    (* t[0] = (a[0] >> 0); *)
    a0 <- g 0%nat ;; x <- shr 32 a0 0 ;;
    t <- aset t 0 (u8 x) ;;
    (* t[1] = (a[0] >> 5) | (a[1] << 3); *)
    a0 <- g 0%nat ;; x <- shr 32 a0 5 ;; a1 <- g 1%nat ;; y <- ishl a1 3 ;;
    t <- aset t 1 (u8 (Z.lor x y)) ;;
    (* t[2] = (a[1] >> 2); *)
    a1 <- g 1%nat ;; x <- shr 32 a1 2 ;;
    t <- aset t 2 (u8 x) ;;
    (* t[3] = (a[1] >> 7) | (a[2] << 1); *)
    a1 <- g 1%nat ;; x <- shr 32 a1 7 ;; a2 <- g 2%nat ;; y <- ishl a2 1 ;;
    t <- aset t 3 (u8 (Z.lor x y)) ;;
    (* t[4] = (a[2] >> 4) | (a[3] << 4); *)
    a2 <- g 2%nat ;; x <- shr 32 a2 4 ;; a3 <- g 3%nat ;; y <- ishl a3 4 ;;
    t <- aset t 4 (u8 (Z.lor x y)) ;;
    (* t[5] = (a[3] >> 1); *)
    a3 <- g 3%nat ;; x <- shr 32 a3 1 ;;
    t <- aset t 5 (u8 x) ;;
    (* t[6] = (a[3] >> 6) | (a[4] << 2); *)
    a3 <- g 3%nat ;; x <- shr 32 a3 6 ;; a4 <- g 4%nat ;; y <- ishl a4 2 ;;
    t <- aset t 6 (u8 (Z.lor x y)) ;;
    (* t[7] = (a[4] >> 3); *)
    a4 <- g 4%nat ;; x <- shr 32 a4 3 ;;
    t <- aset t 7 (u8 x) ;;
    r <- for_ 8 0 (fun j r =>
      tj <- aget t j ;;
      let p := u32 (Z.land tj 31 * KYBER_Q) in
      let p := u32 (p + 16) in
      p <- shr 32 p 5 ;;
      aset r (8 * i + j) (i16 p)) r ;;
    ret (r, t)) (r, local 8) ;;
  ret (fst s).

(** poly.c:83-113 *)
Definition poly_decompress (lv : level) (r : list Z) (a : list Z) (ao : nat) : res (list Z) :=
  match lv with
  | Kyber512 => poly_decompress_128 r a ao
  | Kyber768 => poly_decompress_128 r a ao
  | Kyber1024 => poly_decompress_160 r a ao
  end.

(** poly.c:131-132 / 133-134: t = coeff (to uint16_t);
    t += ((int16_t)t >> 15) & KYBER_Q *)
Definition tobytes_coeff (c : Z) : res Z :=
  let t := u16 c in
  s <- shr 32 (i16 t) 15 ;;
  t <- iadd t (Z.land s KYBER_Q) ;;
  ret (u16 t).

(** poly.c:124-139 *)
Definition poly_tobytes (r : list Z) (ro : nat) (a : list Z) : res (list Z) :=
  for_ (KYBER_N / 2) 0 (fun i r =>
    c <- aget a (2 * i) ;;
    t0 <- tobytes_coeff c ;;
    c <- aget a (2 * i + 1) ;;
    t1 <- tobytes_coeff c ;;
    x <- shr 32 t0 0 ;;
    r <- aset r (ro + (3 * i + 0)) (u8 x) ;;
    x <- shr 32 t0 8 ;; y <- ishl t1 4 ;;
    r <- aset r (ro + (3 * i + 1)) (u8 (Z.lor x y)) ;;
    x <- shr 32 t1 4 ;;
    aset r (ro + (3 * i + 2)) (u8 x)) r.

(** poly.c:151-158; (uint16_t)a[k] << n is computed in int *)
Definition poly_frombytes (r : list Z) (a : list Z) (ao : nat) : res (list Z) :=
  for_ (KYBER_N / 2) 0 (fun i r =>
    a0 <- aget a (ao + (3 * i + 0)) ;; x <- shr 32 a0 0 ;;
    a1 <- aget a (ao + (3 * i + 1)) ;; y <- ishl (u16 a1) 8 ;;
    r <- aset r (2 * i) (i16 (Z.land (Z.lor x y) 0xFFF)) ;;
    a1 <- aget a (ao + (3 * i + 1)) ;; x <- shr 32 a1 4 ;;
    a2 <- aget a (ao + (3 * i + 2)) ;; y <- ishl (u16 a2) 4 ;;
    aset r (2 * i + 1) (i16 (Z.land (Z.lor x y) 0xFFF))) r.

(** poly.c:168-182 *)
Definition poly_frommsg (r : list Z) (msg : list Z) (mo : nat) : res (list Z) :=
  for_ (KYBER_N / 8) 0 (fun i r =>
    for_ 8 0 (fun j r =>
      r <- aset r (8 * i + j) 0 ;;
      m <- aget msg (mo + i) ;;
      b <- shr 32 m (Z.of_nat j) ;;
      cmov_int16 r (8 * i + j) ((KYBER_Q + 1) / 2) (u16 (Z.land b 1))) r) r.

(** poly.c:200-207: t = coeff (to uint32_t); t <<= 1; t += 1665; t *= 80635;
    t >>= 28; t &= 1 *)
Definition tomsg_coeff (c : Z) : res Z :=
  let t := u32 c in
  t <- ushl 32 t 1 ;;
  let t := u32 (t + 1665) in
  let t := u32 (t * 80635) in
  t <- shr 32 t 28 ;;
  ret (Z.land t 1).

(** poly.c:192-211 *)
Definition poly_tomsg (msg : list Z) (mo : nat) (a : list Z) : res (list Z) :=
  for_ (KYBER_N / 8) 0 (fun i msg =>
    msg <- aset msg (mo + i) 0 ;;
    for_ 8 0 (fun j msg =>
      c <- aget a (8 * i + j) ;;
      t <- tomsg_coeff c ;;
      t <- ushl 32 t (Z.of_nat j) ;;
      m <- aget msg (mo + i) ;;
      aset msg (mo + i) (u8 (Z.lor m t))) msg) msg.

(** poly.c:323-328 *)
Definition poly_reduce (r : list Z) : res (list Z) :=
  for_ KYBER_N 0 (fun i r =>
    x <- aget r i ;;
    d <- barrett_reduce x ;;
    aset r i d) r.

(** poly.c:261-265 *)
Definition poly_ntt (r : list Z) : res (list Z) :=
  r <- ntt r ;;
  poly_reduce r.

(** poly.c:276-279 *)
Definition poly_invntt_tomont (r : list Z) : res (list Z) := invntt r.

(** poly.c:290-297; -zetas[64+i] is computed in int and converted to int16_t *)
Definition poly_basemul_montgomery (r a b : list Z) : res (list Z) :=
  for_ (KYBER_N / 4) 0 (fun i r =>
    z <- aget zetas (64 + i) ;;
    r <- basemul r (4 * i) a (4 * i) b (4 * i) z ;;
    z <- aget zetas (64 + i) ;;
    n <- isub 0 z ;;
    basemul r (4 * i + 2) a (4 * i + 2) b (4 * i + 2) (i16 n)) r.

(** poly.c:310  const int16_t f = (1ULL << 32) % KYBER_Q;  (constant) *)
Definition tomont_f : Z := i16 (2 ^ 32 mod KYBER_Q).

(** poly.c:307-313 *)
Definition poly_tomont (r : list Z) : res (list Z) :=
  for_ KYBER_N 0 (fun i r =>
    x <- aget r i ;;
    p <- imul x tomont_f ;;
    d <- montgomery_reduce p ;;
    aset r i d) r.

(** poly.c:339-344 *)
Definition poly_add (r : list Z) (a b : operand) : res (list Z) :=
  for_ KYBER_N 0 (fun i r =>
    x <- oget r a i ;;
    y <- oget r b i ;;
    d <- iadd x y ;;
    aset r i (i16 d)) r.

(** poly.c:355-360 *)
Definition poly_sub (r : list Z) (a b : operand) : res (list Z) :=
  for_ KYBER_N 0 (fun i r =>
    x <- oget r a i ;;
    y <- oget r b i ;;
    d <- isub x y ;;
    aset r i (i16 d)) r.

End WithJunk.
