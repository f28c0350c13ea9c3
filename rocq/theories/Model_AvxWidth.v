(** * /repo/avx2/fips202x4.c and verify.c with their counters as declared

    As Model_Fips202Width.v: [size_t] and [uint64_t] (i, inlen, pos, nblocks,
    outlen, len) are numbers modulo 2^64, [unsigned int] (i of the squeezing
    loops, r) modulo 2^32, and all loops are [while_] with the tests as written. *)
From Coq Require Import ZArith List Bool.
From Verif Require Import CMonad Model_Fips202 Model_AvxKeccak Model_AvxFips202x4 Model_AvxIntrin Model_AvxC.
Import ListNotations.
Open Scope Z_scope.
Open Scope cmonad_scope.

Section WithJunk.
Context `{Junk}.

(** for(i = 0; i < n; ++i) { t = gather(pos); s[i] = xor(s[i], t); pos += 8; } *)
Definition xor_gathered_w (fuel : nat) (ins : list (list Z)) (n : Z) (s : list (list Z)) (pos : Z)
  : res (list (list Z) * Z * Z) :=
  while_ fuel (fun st => let '(s, i, pos) := st in test (i <? n))
    (fun st => let '(s, i, pos) := st in
      t <- gather64 ins (Z.to_nat pos) ;;
      x <- aget s (Z.to_nat i) ;;
      s <- aset s (Z.to_nat i) (v_xor x t) ;;
      ret (s, u64 (i + 1), u64 (pos + 8))) (s, 0, pos).

(** fips202x4.c:12-58 *)
Definition keccakx4_absorb_once_w (fuel : nat) (s : list (list Z)) (r : Z) (ins : list (list Z)) (inlen p : Z)
  : res (list (list Z)) :=
  st <- while_ fuel (fun st => let '(s, i) := st in test (i <? 25))
    (fun st => let '(s, i) := st in s <- aset s (Z.to_nat i) (v_set1 0) ;; ret (s, u64 (i + 1))) (s, 0) ;;
  let '(s, i) := st in
  st <- while_ fuel
    (fun st => let '(s, pos, inlen) := st in test (r <=? inlen))
    (fun st => let '(s, pos, inlen) := st in
      '(s, i, pos) <- xor_gathered_w fuel ins (r / 8) s pos ;;
      let inlen := u64 (inlen - r) in
      s <- KeccakF1600_StatePermute4x s ;;
      ret (s, pos, inlen))
    (s, 0, inlen) ;;
  let '(s, pos, inlen) := st in
  n <- Ok (inlen / 8) [EvDiv inlen 8] ;;
  '(s, i, pos) <- xor_gathered_w fuel ins n s pos ;;
  let inlen := u64 (inlen - u64 (8 * i)) in
  b <- test (negb (inlen =? 0)) ;;
  s <- (if (b : bool)
        then (t <- gather64 ins (Z.to_nat pos) ;;
              m <- ushl 64 1 (u64 (8 * inlen)) ;;
              let idx := v_set1 (u64 (m - 1)) in
              let t := v_and t idx in
              x <- aget s (Z.to_nat i) ;;
              aset s (Z.to_nat i) (v_xor x t))
        else ret s) ;;
  v <- ushl 64 p (u64 (8 * inlen)) ;;
  let t := v_set1 v in
  x <- aget s (Z.to_nat i) ;;
  s <- aset s (Z.to_nat i) (v_xor x t) ;;
  let t := v_set1 (2 ^ 63) in
  x <- aget s (Z.to_nat (u32 (r / 8 - 1))) ;;
  aset s (Z.to_nat (u32 (r / 8 - 1))) (v_xor x t).

(** fips202x4.c:60-88 *)
Definition keccakx4_squeezeblocks_w (fuel : nat) (outs : list (list Z)) (oo : nat) (nblocks r : Z) (s : list (list Z))
  : res (list (list Z) * list (list Z)) :=
  st <- while_ fuel
    (fun st => let '(outs, oo, nblocks, s) := st in test (0 <? nblocks))
    (fun st => let '(outs, oo, nblocks, s) := st in
      s <- KeccakF1600_StatePermute4x s ;;
      st <- while_ fuel (fun st => let '(outs, i) := st in test (i <? r / 8))
        (fun st => let '(outs, i) := st in
          x <- aget s (Z.to_nat i) ;;
          outs <- store64_each outs (oo + Z.to_nat (u32 (8 * i))) x ;;
          ret (outs, u32 (i + 1))) (outs, 0) ;;
      let '(outs, i) := st in
      ret (outs, (oo + Z.to_nat r)%nat, u64 (nblocks - 1), s))
    (outs, oo, nblocks, s) ;;
  let '(outs, oo, nblocks, s) := st in
  ret (outs, s).

(** fips202x4.c:130-164, 166-200 *)
Definition shakex4_w (fuel : nat) (rate : Z) (outs : list (list Z)) (outlen : Z) (ins : list (list Z)) (inlen : Z)
  : res (list (list Z)) :=
  nblocks <- Ok (outlen / rate) [EvDiv outlen rate] ;;
  let t := repeat (local8 (Z.to_nat rate)) 4 in
  state <- keccakx4_absorb_once_w fuel local_state4 rate ins inlen 0x1F ;;
  '(outs, state) <- keccakx4_squeezeblocks_w fuel outs 0 nblocks rate state ;;
  let oo := Z.to_nat (u64 (nblocks * rate)) in
  let outlen := u64 (outlen - u64 (nblocks * rate)) in
  b <- test (negb (outlen =? 0)) ;;
  if (b : bool)
  then ('(t, state) <- keccakx4_squeezeblocks_w fuel t 0 1 rate state ;;
        st <- while_ fuel (fun st => let '(outs, i) := st in test (i <? outlen))
          (fun st => let '(outs, i) := st in
            outs <- copy_each outs t oo (Z.to_nat i) ;;
            ret (outs, u32 (i + 1))) (outs, 0) ;;
        let '(outs, i) := st in ret outs)
  else ret outs.
Definition shake128x4_w (fuel : nat) := shakex4_w fuel 168.
Definition shake256x4_w (fuel : nat) := shakex4_w fuel 136.

End WithJunk.

(** avx2/verify.c:18-44 *)
Definition verify_avx2_w (fuel : nat) (a : list Z) (ao : nat) (b : list Z) (bo : nat) (len : Z) : res Z :=
  st <- while_ fuel (fun st => let '(h, i) := st in test (i <? len / 32))
    (fun st => let '(h, i) := st in
      f <- load_bytes a (ao + Z.to_nat (u64 (32 * i))) 32 ;;
      g <- load_bytes b (bo + Z.to_nat (u64 (32 * i))) 32 ;;
      o <- exec_c verify_body [f; g; h] [2%nat] ;;
      ret (out o 0, u64 (i + 1))) (repeat false 256, 0) ;;
  let '(h, i) := st in
  let ao := (ao + Z.to_nat (u64 (32 * i)))%nat in
  let bo := (bo + Z.to_nat (u64 (32 * i)))%nat in
  let len := u64 (len - u64 (32 * i)) in
  st <- while_ fuel (fun st => let '(r, i) := st in test (i <? len))
    (fun st => let '(r, i) := st in
      x <- aget a (ao + Z.to_nat i) ;;
      y <- aget b (bo + Z.to_nat i) ;;
      ret (Z.lor r (Z.lxor x y), u64 (i + 1))) (u64 (1 - testz h), 0) ;;
  let '(r, i) := st in
  ret (Z.shiftr (u64 (- r)) 63).

(** avx2/verify.c:59-83 *)
Definition cmov_avx2_w (fuel : nat) (r : list Z) (ro : nat) (x : list Z) (xo : nat) (len b : Z) : res (list Z) :=
  let bvec := set1_epi64x (u64 (- u8 b)) in
  st <- while_ fuel (fun st => let '(r, i) := st in test (i <? len / 32))
    (fun st => let '(r, i) := st in
      rvec <- load_bytes r (ro + Z.to_nat (u64 (32 * i))) 32 ;;
      xvec <- load_bytes x (xo + Z.to_nat (u64 (32 * i))) 32 ;;
      o <- exec_c cmov_body [rvec; xvec; bvec] [0%nat] ;;
      r <- store_bytes r (ro + Z.to_nat (u64 (32 * i))) (out o 0) ;;
      ret (r, u64 (i + 1))) (r, 0) ;;
  let '(r, i) := st in
  let ro := (ro + Z.to_nat (u64 (32 * i)))%nat in
  let xo := (xo + Z.to_nat (u64 (32 * i)))%nat in
  let len := u64 (len - u64 (32 * i)) in
  st <- while_ fuel (fun st => let '(r, i) := st in test (i <? len))
    (fun st => let '(r, i) := st in
      xi <- aget x (xo + Z.to_nat i) ;;
      ri <- aget r (ro + Z.to_nat i) ;;
      r <- aset r (ro + Z.to_nat i) (u8 (Z.lxor ri (Z.land (- u8 b) (Z.lxor xi ri)))) ;;
      ret (r, u64 (i + 1))) (r, 0) ;;
  let '(r, i) := st in ret r.
