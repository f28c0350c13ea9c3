(** * /repo/ref/ntt.c *)
From Coq Require Import ZArith List.
From Verif Require Import CMonad Model_Params Model_Reduce.
Import ListNotations.
Open Scope Z_scope.
Open Scope cmonad_scope.

(** ntt.c:39-56 *)
Definition zetas : list Z := [
(-1044);(-758);(-359);(-1517);  1493;  1422;   287;   202;
(-171);   622;  1577;   182;   962;(-1202);(-1474);  1468;
   573;(-1325);   264;   383;(-829);  1458;(-1602);(-130);
(-681);  1017;   732;   608;(-1542);   411;(-205);(-1571);
  1223;   652;(-552);  1015;(-1293);  1491;(-282);(-1544);
   516;  (-8);(-320);(-666);(-1618);(-1162);   126;  1469;
(-853); (-90);(-271);   830;   107;(-1421);(-247);(-951);
(-398);   961;(-1508);(-725);   448;(-1065);   677;(-1275);
(-1103);   430;   555;   843;(-1251);   871;  1550;   105;
   422;   587;   177;(-235);(-291);(-460);  1574;  1653;
(-246);   778;  1159;(-147);(-777);  1483;(-602);  1119;
(-1590);   644;(-872);   349;   418;   329;(-156); (-75);
   817;  1097;   603;   610;  1322;(-1285);(-1465);   384;
(-1215);(-136);  1218;(-1335);(-874);   220;(-1187);(-1659);
(-1185);(-1530);(-1278);   794;(-1510);(-854);(-870);   478;
(-108);(-308);   996;   991;   958;(-1460);  1522;  1628
].

(** ntt.c:68-70 *)
Definition fqmul (a b : Z) : res Z :=
  p <- imul a b ;;
  montgomery_reduce p.

(** ntt.c:88-92, the butterfly loop
      t = fqmul(zeta, r[j + len]);
      r[j + len] = r[j] - t;
      r[j] = r[j] + t;                             *)
Definition ntt_inner (zeta : Z) (len start : nat) (r : list Z) : res (list Z) :=
  for_ len start (fun j r =>
    x <- aget r (j + len) ;;
    t <- fqmul zeta x ;;
    y <- aget r j ;;
    d <- isub y t ;;
    r <- aset r (j + len) (i16 d) ;;
    y <- aget r j ;;
    d <- iadd y t ;;
    aset r j (i16 d)) r.

(** ntt.c:86-93.  The loop runs for start = 0, 2*len, 4*len, ... < 256, i.e.
    128/len times, since [j] leaves the inner loop as start+len; iteration [b]
    has start = 2*len*b.  State: (r, k). *)
Definition ntt_layer (len : nat) (s : list Z * nat) : res (list Z * nat) :=
  for_ (128 / len) 0 (fun b s =>
    let '(r, k) := s in
    zeta <- aget zetas k ;;
    r <- ntt_inner zeta len (2 * len * b) r ;;
    ret (r, S k)) s.

(** ntt.c:80-95.  The outer loop runs for len = 128, 64, ..., 2 (7 times);
    iteration [l] has len = 128 >> l. *)
Definition ntt (r : list Z) : res (list Z) :=
  s <- for_ 7 0 (fun l s => ntt_layer (128 / 2 ^ l) s) (r, 1%nat) ;;
  ret (fst s).

(** ntt.c:115-120
      t = r[j];
      r[j] = barrett_reduce(t + r[j + len]);
      r[j + len] = r[j + len] - t;
      r[j + len] = fqmul(zeta, r[j + len]);
    The argument [t + r[j+len]] is converted to int16_t. *)
Definition invntt_inner (zeta : Z) (len start : nat) (r : list Z) : res (list Z) :=
  for_ len start (fun j r =>
    t <- aget r j ;;
    x <- aget r (j + len) ;;
    d <- iadd t x ;;
    d <- barrett_reduce (i16 d) ;;
    r <- aset r j d ;;
    x <- aget r (j + len) ;;
    d <- isub x t ;;
    r <- aset r (j + len) (i16 d) ;;
    x <- aget r (j + len) ;;
    d <- fqmul zeta x ;;
    aset r (j + len) d) r.

(** ntt.c:113-121; iteration [b] has start = 2*len*b.  [k--] on an unsigned
    [k]: k is 127 - (number of zetas used so far), never below 0 at a use. *)
Definition invntt_layer (len : nat) (s : list Z * nat) : res (list Z * nat) :=
  for_ (128 / len) 0 (fun b s =>
    let '(r, k) := s in
    zeta <- aget zetas k ;;
    r <- invntt_inner zeta len (2 * len * b) r ;;
    ret (r, pred k)) s.

(** ntt.c:106-126, len = 2, 4, ..., 128; iteration [l] has len = 2 << l *)
Definition invntt (r : list Z) : res (list Z) :=
  s <- for_ 7 0 (fun l s => invntt_layer (2 * 2 ^ l) s) (r, 127%nat) ;;
  for_ 256 0 (fun j r =>
    x <- aget r j ;;
    d <- fqmul x 1441 ;;
    aset r j d) (fst s).

(** ntt.c:139-146.  Pointers r, a, b are an array and an offset each. *)
Definition basemul (r : list Z) (ro : nat) (a : list Z) (ao : nat)
                   (b : list Z) (bo : nat) (zeta : Z) : res (list Z) :=
  a1 <- aget a (ao + 1) ;;
  b1 <- aget b (bo + 1) ;;
  d <- fqmul a1 b1 ;;
  r <- aset r (ro + 0) d ;;
  x <- aget r (ro + 0) ;;
  d <- fqmul x zeta ;;
  r <- aset r (ro + 0) d ;;
  a0 <- aget a (ao + 0) ;;
  b0 <- aget b (bo + 0) ;;
  d <- fqmul a0 b0 ;;
  x <- aget r (ro + 0) ;;
  d <- iadd x d ;;
  r <- aset r (ro + 0) (i16 d) ;;
  a0 <- aget a (ao + 0) ;;
  b1 <- aget b (bo + 1) ;;
  d <- fqmul a0 b1 ;;
  r <- aset r (ro + 1) d ;;
  a1 <- aget a (ao + 1) ;;
  b0 <- aget b (bo + 0) ;;
  d <- fqmul a1 b0 ;;
  x <- aget r (ro + 1) ;;
  d <- iadd x d ;;
  aset r (ro + 1) (i16 d).
