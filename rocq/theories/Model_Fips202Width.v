(** * /repo/ref/fips202.c: the sponge functions with their counters as declared

    Model_Fips202.v counts in nat.  Here every [unsigned int] (pos, r, i) is a
    number modulo 2^32, every [size_t] (inlen, outlen, nblocks) one modulo 2^64,
    the arithmetic on them wraps where it does in C, and all loops are [while_]
    with the tests as written.  Pointers stay an array and an offset. *)
From Coq Require Import ZArith List.
From Verif Require Import CMonad Model_Fips202.
Import ListNotations.
Open Scope Z_scope.
Open Scope cmonad_scope.

(** s[i/8] ^= (uint64_t)*in++ << 8*(i%8); *)
Definition absorb_byte_w (inp : list Z) (st : list Z * Z * nat) : res (list Z * Z * nat) :=
  let '(s, i, io) := st in
  b <- aget inp io ;;
  s <- xor_byte s (Z.to_nat i) b ;;
  ret (s, u32 (i + 1), S io).

(** fips202.c:373-393; pos, r : unsigned int, inlen : size_t *)
Definition keccak_absorb_w (fuel : nat) (s : list Z) (pos r : Z) (inp : list Z) (io : nat) (inlen : Z)
  : res (list Z * Z) :=
  st <- while_ fuel
    (fun st => let '(s, pos, io, inlen) := st in test (r <=? u64 (pos + inlen)))
    (fun st => let '(s, pos, io, inlen) := st in
      st <- while_ fuel (fun st => let '(s, i, io) := st in test (i <? r)) (absorb_byte_w inp) (s, pos, io) ;;
      let '(s, i, io) := st in
      let inlen := u64 (inlen - u32 (r - pos)) in
      s <- KeccakF1600_StatePermute s ;;
      ret (s, 0, io, inlen))
    (s, pos, io, inlen) ;;
  let '(s, pos, io, inlen) := st in
  st <- while_ fuel (fun st => let '(s, i, io) := st in test (i <? u64 (pos + inlen))) (absorb_byte_w inp) (s, pos, io) ;;
  let '(s, i, io) := st in
  ret (s, i).

(** *out++ = s[i/8] >> 8*(i%8); *)
Definition squeeze_byte_w (s : list Z) (st : Z * list Z * nat) : res (Z * list Z * nat) :=
  let '(i, out, oo) := st in
  m <- nmod (Z.to_nat i) 8 ;;
  d <- ndiv (Z.to_nat i) 8 ;;
  x <- aget s d ;;
  v <- shr 64 x (Z.of_nat (8 * m)) ;;
  out <- aset out oo (u8 v) ;;
  ret (u32 (i + 1), out, S oo).

(** fips202.c:426-446 *)
Definition keccak_squeeze_w (fuel : nat) (out : list Z) (oo : nat) (outlen : Z) (s : list Z) (pos r : Z)
  : res (list Z * list Z * Z) :=
  st <- while_ fuel
    (fun st => let '(out, oo, outlen, s, pos) := st in test (negb (outlen =? 0)))
    (fun st => let '(out, oo, outlen, s, pos) := st in
      b <- test (pos =? r) ;;
      '(s, pos) <- (if (b : bool) then (s <- KeccakF1600_StatePermute s ;; ret (s, 0)) else ret (s, pos)) ;;
      st <- while_ fuel
        (fun st => let '(i, out, oo) := st in test_and (i <? r) (test (i <? u64 (pos + outlen))))
        (squeeze_byte_w s) (pos, out, oo) ;;
      let '(i, out, oo) := st in
      ret (out, oo, u64 (outlen - u32 (i - pos)), s, i))
    (out, oo, outlen, s, pos) ;;
  let '(out, oo, outlen, s, pos) := st in
  ret (out, s, pos).

(** fips202.c:461-485 *)
Definition keccak_absorb_once_w (fuel : nat) (s : list Z) (r : Z) (inp : list Z) (io : nat) (inlen p : Z)
  : res (list Z) :=
  st <- while_ fuel (fun st => let '(s, i) := st in test (i <? 25))
    (fun st => let '(s, i) := st in s <- aset s (Z.to_nat i) 0 ;; ret (s, u32 (i + 1))) (s, 0) ;;
  let '(s, i) := st in
  st <- while_ fuel
    (fun st => let '(s, io, inlen) := st in test (r <=? inlen))
    (fun st => let '(s, io, inlen) := st in
      st <- while_ fuel (fun st => let '(s, i) := st in test (i <? r / 8))
        (fun st => let '(s, i) := st in
          x <- aget s (Z.to_nat i) ;;
          v <- load64 inp (io + Z.to_nat (u32 (8 * i))) ;;
          s <- aset s (Z.to_nat i) (Z.lxor x v) ;;
          ret (s, u32 (i + 1))) (s, 0) ;;
      let '(s, i) := st in
      s <- KeccakF1600_StatePermute s ;;
      ret (s, (io + Z.to_nat r)%nat, u64 (inlen - r)))
    (s, io, inlen) ;;
  let '(s, io, inlen) := st in
  st <- while_ fuel (fun st => let '(s, i) := st in test (i <? inlen))
    (fun st => let '(s, i) := st in
      b <- aget inp (io + Z.to_nat i) ;;
      s <- xor_byte s (Z.to_nat i) b ;;
      ret (s, u32 (i + 1))) (s, 0) ;;
  let '(s, i) := st in
  s <- xor_byte s (Z.to_nat i) p ;;
  x <- aget s (Z.to_nat ((r - 1) / 8)) ;;
  aset s (Z.to_nat ((r - 1) / 8)) (Z.lxor x (2 ^ 63)).

(** fips202.c:500-514 *)
Definition keccak_squeezeblocks_w (fuel : nat) (out : list Z) (oo : nat) (nblocks : Z) (s : list Z) (r : Z)
  : res (list Z * list Z) :=
  st <- while_ fuel
    (fun st => let '(out, oo, nblocks, s) := st in test (negb (nblocks =? 0)))
    (fun st => let '(out, oo, nblocks, s) := st in
      s <- KeccakF1600_StatePermute s ;;
      st <- while_ fuel (fun st => let '(out, i) := st in test (i <? r / 8))
        (fun st => let '(out, i) := st in
          x <- aget s (Z.to_nat i) ;;
          out <- store64 out (oo + Z.to_nat (u32 (8 * i))) x ;;
          ret (out, u32 (i + 1))) (out, 0) ;;
      let '(out, i) := st in
      ret (out, (oo + Z.to_nat r)%nat, u64 (nblocks - 1), s))
    (out, oo, nblocks, s) ;;
  let '(out, oo, nblocks, s) := st in
  ret (out, s).

Section WithJunk.
Context `{Junk}.

(** fips202.c:700-711, 723-734 *)
Definition shake_w (fuel : nat) (rate : Z) (out : list Z) (oo : nat) (outlen : Z) (inp : list Z) (io : nat) (inlen : Z)
  : res (list Z) :=
  s <- keccak_absorb_once_w fuel (local 25) rate inp io inlen 0x1F ;;
  let pos := rate in
  nblocks <- Ok (outlen / rate) [EvDiv outlen rate] ;;
  '(out, s) <- keccak_squeezeblocks_w fuel out oo nblocks s rate ;;
  let outlen := u64 (outlen - u64 (nblocks * rate)) in
  let oo := (oo + Z.to_nat (u64 (nblocks * rate)))%nat in
  '(out, s, pos) <- keccak_squeeze_w fuel out oo outlen s pos rate ;;
  ret out.

(** fips202.c:745-754, 765-774; [words] = 4 or 8 *)
Definition sha3_w (fuel : nat) (rate words : Z) (h : list Z) (ho : nat) (inp : list Z) (io : nat) (inlen : Z) : res (list Z) :=
  s <- keccak_absorb_once_w fuel (local 25) rate inp io inlen 0x06 ;;
  s <- KeccakF1600_StatePermute s ;;
  st <- while_ fuel (fun st => let '(h, i) := st in test (i <? words))
    (fun st => let '(h, i) := st in
      x <- aget s (Z.to_nat i) ;;
      h <- store64 h (ho + Z.to_nat (u32 (8 * i))) x ;;
      ret (h, u32 (i + 1))) (h, 0) ;;
  let '(h, i) := st in ret h.
Definition shake128_w (fuel : nat) := shake_w fuel 168.
Definition shake256_w (fuel : nat) := shake_w fuel 136.
Definition sha3_256_w (fuel : nat) := sha3_w fuel 136 4.
Definition sha3_512_w (fuel : nat) := sha3_w fuel 72 8.

End WithJunk.
