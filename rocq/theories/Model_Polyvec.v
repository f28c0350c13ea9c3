(** * /repo/ref/polyvec.c.  A polyvec is the list of its KYBER_K polynomials. *)
From Coq Require Import ZArith List.
From Verif Require Import CMonad Model_Params Model_NTT Model_Poly.
Import ListNotations.
Open Scope Z_scope.
Open Scope cmonad_scope.

Definition polyvec := list (list Z).

(** Argument of polyvec_add that may be the object being written. *)
Inductive voperand : Type := VSelf | VOther (l : polyvec).
Definition vget (r : polyvec) (o : voperand) (i : nat) : res operand :=
  match o with
  | VSelf => _ <- aget r i ;; ret Self
  | VOther l => p <- aget l i ;; ret (Other p)
  end.

Section WithJunk.
Context `{Junk}.

(** An uninitialised local polynomial / polyvec. *)
Definition local_poly : list Z := local KYBER_N.
Definition local_polyvec (lv : level) : polyvec := repeat local_poly (KYBER_K lv).

(** polyvec.c:25-33 (d = 11).  t is uint16_t, d0 is uint64_t. *)
Definition compress11_coeff (c : Z) : res Z :=
  let t := u16 c in
  s <- shr 32 (i16 t) 15 ;;
  t <- iadd t (Z.land s KYBER_Q) ;;
  let t := u16 t in
  let d0 := t in
  d0 <- ushl 64 d0 11 ;;
  let d0 := u64 (d0 + 1664) in
  let d0 := u64 (d0 * 645084) in
  d0 <- shr 64 d0 31 ;;
  ret (u16 (Z.land d0 0x7ff)).

(** polyvec.c:55-63 (d = 10) *)
Definition compress10_coeff (c : Z) : res Z :=
  let t := u16 c in
  s <- shr 32 (i16 t) 15 ;;
  t <- iadd t (Z.land s KYBER_Q) ;;
  let t := u16 t in
  let d0 := t in
  d0 <- ushl 64 d0 10 ;;
  let d0 := u64 (d0 + 1665) in
  let d0 := u64 (d0 * 1290167) in
  d0 <- shr 64 d0 32 ;;
  ret (u16 (Z.land d0 0x3ff)).

(** polyvec.c:23-48 for one polynomial a->vec[i]; [r += 11] is the offset
    ro + 11*j, [ro] already containing the 352 bytes per earlier polynomial. *)
Definition polyvec_compress_352_poly (r : list Z) (ro : nat) (ai : list Z) (t : list Z)
  : res (list Z * list Z) :=
  for_ (KYBER_N / 8) 0 (fun j s =>
    let '(r, t) := s in
    t <- for_ 8 0 (fun k t =>
      c <- aget ai (8 * j + k) ;;
      d <- compress11_coeff c ;;
      aset t k d) t ;;
    let o := (ro + 11 * j)%nat in
    (* r[ 0] = (t[0] >>  0); *)
    t0 <- aget t 0 ;; x <- shr 32 t0 0 ;;
    r <- aset r (o + 0) (u8 x) ;;
    (* r[ 1] = (t[0] >>  8) | (t[1] << 3); *)
    t0 <- aget t 0 ;; x <- shr 32 t0 8 ;; t1 <- aget t 1 ;; y <- ishl t1 3 ;;
    r <- aset r (o + 1) (u8 (Z.lor x y)) ;;
    (* r[ 2] = (t[1] >>  5) | (t[2] << 6); *)
    t1 <- aget t 1 ;; x <- shr 32 t1 5 ;; t2 <- aget t 2 ;; y <- ishl t2 6 ;;
    r <- aset r (o + 2) (u8 (Z.lor x y)) ;;
    (* r[ 3] = (t[2] >>  2); *)
    t2 <- aget t 2 ;; x <- shr 32 t2 2 ;;
    r <- aset r (o + 3) (u8 x) ;;
    (* r[ 4] = (t[2] >> 10) | (t[3] << 1); *)
    t2 <- aget t 2 ;; x <- shr 32 t2 10 ;; t3 <- aget t 3 ;; y <- ishl t3 1 ;;
    r <- aset r (o + 4) (u8 (Z.lor x y)) ;;
    (* r[ 5] = (t[3] >>  7) | (t[4] << 4); *)
    t3 <- aget t 3 ;; x <- shr 32 t3 7 ;; t4 <- aget t 4 ;; y <- ishl t4 4 ;;
    r <- aset r (o + 5) (u8 (Z.lor x y)) ;;
    (* r[ 6] = (t[4] >>  4) | (t[5] << 7); *)
    t4 <- aget t 4 ;; x <- shr 32 t4 4 ;; t5 <- aget t 5 ;; y <- ishl t5 7 ;;
    r <- aset r (o + 6) (u8 (Z.lor x y)) ;;
    (* r[ 7] = (t[5] >>  1); *)
    t5 <- aget t 5 ;; x <- shr 32 t5 1 ;;
    r <- aset r (o + 7) (u8 x) ;;
    (* r[ 8] = (t[5] >>  9) | (t[6] << 2); *)
    t5 <- aget t 5 ;; x <- shr 32 t5 9 ;; t6 <- aget t 6 ;; y <- ishl t6 2 ;;
    r <- aset r (o + 8) (u8 (Z.lor x y)) ;;
    (* r[ 9] = (t[6] >>  6) | (t[7] << 5); *)
    t6 <- aget t 6 ;; x <- shr 32 t6 6 ;; t7 <- aget t 7 ;; y <- ishl t7 5 ;;
    r <- aset r (o + 9) (u8 (Z.lor x y)) ;;
    (* r[10] = (t[7] >>  3); *)
    t7 <- aget t 7 ;; x <- shr 32 t7 3 ;;
    r <- aset r (o + 10) (u8 x) ;;
    ret (r, t)) (r, t).

(** polyvec.c:53-72 for one polynomial *)
Definition polyvec_compress_320_poly (r : list Z) (ro : nat) (ai : list Z) (t : list Z)
  : res (list Z * list Z) :=
  for_ (KYBER_N / 4) 0 (fun j s =>
    let '(r, t) := s in
    t <- for_ 4 0 (fun k t =>
      c <- aget ai (4 * j + k) ;;
      d <- compress10_coeff c ;;
      aset t k d) t ;;
    let o := (ro + 5 * j)%nat in
    (* r[0] = (t[0] >> 0); *)
    t0 <- aget t 0 ;; x <- shr 32 t0 0 ;;
    r <- aset r (o + 0) (u8 x) ;;
    (* r[1] = (t[0] >> 8) | (t[1] << 2); *)
    t0 <- aget t 0 ;; x <- shr 32 t0 8 ;; t1 <- aget t 1 ;; y <- ishl t1 2 ;;
    r <- aset r (o + 1) (u8 (Z.lor x y)) ;;
    (* r[2] = (t[1] >> 6) | (t[2] << 4); *)
    t1 <- aget t 1 ;; x <- shr 32 t1 6 ;; t2 <- aget t 2 ;; y <- ishl t2 4 ;;
    r <- aset r (o + 2) (u8 (Z.lor x y)) ;;
    (* r[3] = (t[2] >> 4) | (t[3] << 6); *)
    t2 <- aget t 2 ;; x <- shr 32 t2 4 ;; t3 <- aget t 3 ;; y <- ishl t3 6 ;;
    r <- aset r (o + 3) (u8 (Z.lor x y)) ;;
    (* r[4] = (t[3] >> 2); *)
    t3 <- aget t 3 ;; x <- shr 32 t3 2 ;;
    r <- aset r (o + 4) (u8 x) ;;
    ret (r, t)) (r, t).

(** polyvec.c:15-77 *)
Definition polyvec_compress (lv : level) (r : list Z) (ro : nat) (a : polyvec) : res (list Z) :=
  match lv with
  | Kyber1024 =>
      s <- for_ (KYBER_K lv) 0 (fun i s =>
             ai <- aget a i ;;
             polyvec_compress_352_poly (fst s) (ro + 352 * i) ai (snd s)) (r, local 8) ;;
      ret (fst s)
  | _ =>
      s <- for_ (KYBER_K lv) 0 (fun i s =>
             ai <- aget a i ;;
             polyvec_compress_320_poly (fst s) (ro + 320 * i) ai (snd s)) (r, local 4) ;;
      ret (fst s)
  end.

(** polyvec.c:96-109 for one polynomial r->vec[i]; [a += 11] is the offset
    ao + 11*j *)
Definition polyvec_decompress_352_poly (ri : list Z) (a : list Z) (ao : nat) (t : list Z)
  : res (list Z * list Z) :=
  for_ (KYBER_N / 8) 0 (fun j s =>
    let '(ri, t) := s in
    let g k := aget a (ao + 11 * j + k) in
    (* t[0] = (a[0] >> 0) | ((uint16_t)a[ 1] << 8); *)
    p <- g 0%nat ;; x <- shr 32 p 0 ;; p <- g 1%nat ;; y <- ishl (u16 p) 8 ;;
    t <- aset t 0 (u16 (Z.lor x y)) ;;
    (* t[1] = (a[1] >> 3) | ((uint16_t)a[ 2] << 5); *)
    p <- g 1%nat ;; x <- shr 32 p 3 ;; p <- g 2%nat ;; y <- ishl (u16 p) 5 ;;
    t <- aset t 1 (u16 (Z.lor x y)) ;;
    (* t[2] = (a[2] >> 6) | ((uint16_t)a[ 3] << 2) | ((uint16_t)a[4] << 10); *)
    p <- g 2%nat ;; x <- shr 32 p 6 ;; p <- g 3%nat ;; y <- ishl (u16 p) 2 ;;
    p <- g 4%nat ;; z <- ishl (u16 p) 10 ;;
    t <- aset t 2 (u16 (Z.lor (Z.lor x y) z)) ;;
    (* t[3] = (a[4] >> 1) | ((uint16_t)a[ 5] << 7); *)
    p <- g 4%nat ;; x <- shr 32 p 1 ;; p <- g 5%nat ;; y <- ishl (u16 p) 7 ;;
    t <- aset t 3 (u16 (Z.lor x y)) ;;
    (* t[4] = (a[5] >> 4) | ((uint16_t)a[ 6] << 4); *)
    p <- g 5%nat ;; x <- shr 32 p 4 ;; p <- g 6%nat ;; y <- ishl (u16 p) 4 ;;
    t <- aset t 4 (u16 (Z.lor x y)) ;;
    (* t[5] = (a[6] >> 7) | ((uint16_t)a[ 7] << 1) | ((uint16_t)a[8] << 9); *)
    p <- g 6%nat ;; x <- shr 32 p 7 ;; p <- g 7%nat ;; y <- ishl (u16 p) 1 ;;
    p <- g 8%nat ;; z <- ishl (u16 p) 9 ;;
    t <- aset t 5 (u16 (Z.lor (Z.lor x y) z)) ;;
    (* t[6] = (a[8] >> 2) | ((uint16_t)a[ 9] << 6); *)
    p <- g 8%nat ;; x <- shr 32 p 2 ;; p <- g 9%nat ;; y <- ishl (u16 p) 6 ;;
    t <- aset t 6 (u16 (Z.lor x y)) ;;
    (* t[7] = (a[9] >> 5) | ((uint16_t)a[10] << 3); *)
    p <- g 9%nat ;; x <- shr 32 p 5 ;; p <- g 10%nat ;; y <- ishl (u16 p) 3 ;;
    t <- aset t 7 (u16 (Z.lor x y)) ;;
    ri <- for_ 8 0 (fun k ri =>
      tk <- aget t k ;;
      let p := u32 (Z.land tk 0x7FF * KYBER_Q) in
      let p := u32 (p + 1024) in
      p <- shr 32 p 11 ;;
      aset ri (8 * j + k) (i16 p)) ri ;;
    ret (ri, t)) (ri, t).

(** polyvec.c:114-123 for one polynomial *)
Definition polyvec_decompress_320_poly (ri : list Z) (a : list Z) (ao : nat) (t : list Z)
  : res (list Z * list Z) :=
  for_ (KYBER_N / 4) 0 (fun j s =>
    let '(ri, t) := s in
    let g k := aget a (ao + 5 * j + k) in
    (* t[0] = (a[0] >> 0) | ((uint16_t)a[1] << 8); *)
    p <- g 0%nat ;; x <- shr 32 p 0 ;; p <- g 1%nat ;; y <- ishl (u16 p) 8 ;;
    t <- aset t 0 (u16 (Z.lor x y)) ;;
    (* t[1] = (a[1] >> 2) | ((uint16_t)a[2] << 6); *)
    p <- g 1%nat ;; x <- shr 32 p 2 ;; p <- g 2%nat ;; y <- ishl (u16 p) 6 ;;
    t <- aset t 1 (u16 (Z.lor x y)) ;;
    (* t[2] = (a[2] >> 4) | ((uint16_t)a[3] << 4); *)
    p <- g 2%nat ;; x <- shr 32 p 4 ;; p <- g 3%nat ;; y <- ishl (u16 p) 4 ;;
    t <- aset t 2 (u16 (Z.lor x y)) ;;
    (* t[3] = (a[3] >> 6) | ((uint16_t)a[4] << 2); *)
    p <- g 3%nat ;; x <- shr 32 p 6 ;; p <- g 4%nat ;; y <- ishl (u16 p) 2 ;;
    t <- aset t 3 (u16 (Z.lor x y)) ;;
    ri <- for_ 4 0 (fun k ri =>
      tk <- aget t k ;;
      let p := u32 (Z.land tk 0x3FF * KYBER_Q) in
      let p := u32 (p + 512) in
      p <- shr 32 p 10 ;;
      aset ri (4 * j + k) (i16 p)) ri ;;
    ret (ri, t)) (ri, t).

(** polyvec.c:89-128 *)
Definition polyvec_decompress (lv : level) (r : polyvec) (a : list Z) (ao : nat)
  : res polyvec :=
  match lv with
  | Kyber1024 =>
      s <- for_ (KYBER_K lv) 0 (fun i s =>
             ri <- aget (fst s) i ;;
             '(ri, t) <- polyvec_decompress_352_poly ri a (ao + 352 * i) (snd s) ;;
             r <- aset (fst s) i ri ;;
             ret (r, t)) (r, local 8) ;;
      ret (fst s)
  | _ =>
      s <- for_ (KYBER_K lv) 0 (fun i s =>
             ri <- aget (fst s) i ;;
             '(ri, t) <- polyvec_decompress_320_poly ri a (ao + 320 * i) (snd s) ;;
             r <- aset (fst s) i ri ;;
             ret (r, t)) (r, local 4) ;;
      ret (fst s)
  end.

(** polyvec.c:139-144 *)
Definition polyvec_tobytes (lv : level) (r : list Z) (ro : nat) (a : polyvec) : res (list Z) :=
  for_ (KYBER_K lv) 0 (fun i r =>
    ai <- aget a i ;;
    poly_tobytes r (ro + i * KYBER_POLYBYTES) ai) r.

(** polyvec.c:156-161 *)
Definition polyvec_frombytes (lv : level) (r : polyvec) (a : list Z) (ao : nat) : res polyvec :=
  for_ (KYBER_K lv) 0 (fun i r =>
    ri <- aget r i ;;
    ri <- poly_frombytes ri a (ao + i * KYBER_POLYBYTES) ;;
    aset r i ri) r.

(** polyvec.c:170-175 *)
Definition polyvec_ntt (lv : level) (r : polyvec) : res polyvec :=
  for_ (KYBER_K lv) 0 (fun i r =>
    ri <- aget r i ;;
    ri <- poly_ntt ri ;;
    aset r i ri) r.

(** polyvec.c:185-190 *)
Definition polyvec_invntt_tomont (lv : level) (r : polyvec) : res polyvec :=
  for_ (KYBER_K lv) 0 (fun i r =>
    ri <- aget r i ;;
    ri <- poly_invntt_tomont ri ;;
    aset r i ri) r.

(** polyvec.c:202-214 *)
Definition polyvec_basemul_acc_montgomery (lv : level) (r : list Z) (a b : polyvec)
  : res (list Z) :=
  a0 <- aget a 0 ;; b0 <- aget b 0 ;;
  r <- poly_basemul_montgomery r a0 b0 ;;
  s <- for_ (KYBER_K lv - 1) 1 (fun i s =>
    let '(r, t) := s in
    ai <- aget a i ;; bi <- aget b i ;;
    t <- poly_basemul_montgomery t ai bi ;;
    r <- poly_add r Self (Other t) ;;
    ret (r, t)) (r, local_poly) ;;
  poly_reduce (fst s).

(** polyvec.c:225-230 *)
Definition polyvec_reduce (lv : level) (r : polyvec) : res polyvec :=
  for_ (KYBER_K lv) 0 (fun i r =>
    ri <- aget r i ;;
    ri <- poly_reduce ri ;;
    aset r i ri) r.

(** polyvec.c:241-246 *)
Definition polyvec_add (lv : level) (r : polyvec) (a b : voperand) : res polyvec :=
  for_ (KYBER_K lv) 0 (fun i r =>
    ri <- aget r i ;;
    ai <- vget r a i ;;
    bi <- vget r b i ;;
    ri <- poly_add ri ai bi ;;
    aset r i ri) r.

End WithJunk.
