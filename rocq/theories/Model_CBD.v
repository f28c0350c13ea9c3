(** * /repo/ref/cbd.c *)
From Coq Require Import ZArith List.
From Verif Require Import CMonad Model_Params.
Import ListNotations.
Open Scope Z_scope.
Open Scope cmonad_scope.

(** cbd.c:15-23 *)
Definition load32_littleendian (x : list Z) (xo : nat) : res Z :=
  x0 <- aget x (xo + 0) ;;
  x1 <- aget x (xo + 1) ;;
  s1 <- ushl 32 x1 8 ;;
  x2 <- aget x (xo + 2) ;;
  s2 <- ushl 32 x2 16 ;;
  x3 <- aget x (xo + 3) ;;
  s3 <- ushl 32 x3 24 ;;
  ret (Z.lor (Z.lor (Z.lor x0 s1) s2) s3).

(** cbd.c:37-44 *)
Definition load24_littleendian (x : list Z) (xo : nat) : res Z :=
  x0 <- aget x (xo + 0) ;;
  x1 <- aget x (xo + 1) ;;
  s1 <- ushl 32 x1 8 ;;
  x2 <- aget x (xo + 2) ;;
  s2 <- ushl 32 x2 16 ;;
  ret (Z.lor (Z.lor x0 s1) s2).

(** cbd.c:58-75 *)
Definition cbd2 (r : list Z) (buf : list Z) : res (list Z) :=
  for_ (KYBER_N / 8) 0 (fun i r =>
    t <- load32_littleendian buf (4 * i) ;;
    let d := Z.land t 0x55555555 in
    t1 <- shr 32 t 1 ;;
    let d := u32 (d + Z.land t1 0x55555555) in
    for_ 8 0 (fun j r =>
      a <- shr 32 d (Z.of_nat (4 * j + 0)) ;;
      let a := i16 (Z.land a 0x3) in
      b <- shr 32 d (Z.of_nat (4 * j + 2)) ;;
      let b := i16 (Z.land b 0x3) in
      c <- isub a b ;;
      aset r (8 * i + j) (i16 c)) r) r.

(** cbd.c:89-107 *)
Definition cbd3 (r : list Z) (buf : list Z) : res (list Z) :=
  for_ (KYBER_N / 4) 0 (fun i r =>
    t <- load24_littleendian buf (3 * i) ;;
    let d := Z.land t 0x00249249 in
    t1 <- shr 32 t 1 ;;
    let d := u32 (d + Z.land t1 0x00249249) in
    t2 <- shr 32 t 2 ;;
    let d := u32 (d + Z.land t2 0x00249249) in
    for_ 4 0 (fun j r =>
      a <- shr 32 d (Z.of_nat (6 * j + 0)) ;;
      let a := i16 (Z.land a 0x7) in
      b <- shr 32 d (Z.of_nat (6 * j + 3)) ;;
      let b := i16 (Z.land b 0x7) in
      c <- isub a b ;;
      aset r (4 * i + j) (i16 c)) r) r.

(** cbd.c:110-119; the preprocessor selects on KYBER_ETA1 *)
Definition poly_cbd_eta1 (lv : level) (r : list Z) (buf : list Z) : res (list Z) :=
  match lv with
  | Kyber512 => cbd3 r buf
  | Kyber768 => cbd2 r buf
  | Kyber1024 => cbd2 r buf
  end.

(** cbd.c:121-128 *)
Definition poly_cbd_eta2 (r : list Z) (buf : list Z) : res (list Z) := cbd2 r buf.
