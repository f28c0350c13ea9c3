(** * The rest of avx2/keccak4x: the state interface of the four-way permutation

    /repo/avx2/keccak4x/KeccakP-1600-times4-SIMD256.c, all functions, and the
    macro KeccakP1600times4_AddByte of KeccakP-1600-times4-SnP.h.  The library
    exports them; fips202x4.c only calls KeccakP1600times4_PermuteAll_24rounds,
    so nothing else reaches them.

    - [states] is the array of its 800 bytes; the code reads it as UINT64[100]
      and as V256[25], both little-endian.  It is aligned to
      KeccakP1600times4_statesAlignment = 32 bytes (SnP.h:28), so that accesses
      to it are aligned.
    - [data], [input], [output] are unsigned char pointers: a buffer, an offset
      and the address [a] of the buffer's first byte.  An access through a
      [UINT64 *] at an address that is not a multiple of 8 is [UB Misaligned];
      the loads and stores LOAD256u and STORE256u need no alignment.
    - Arithmetic on [unsigned int] (products of lane offsets, laneIndex) wraps
      modulo 2^32, on [size_t] modulo 2^64.  A pointer that would leave the
      buffer by more than its end is [UB OutOfBounds] when it is formed.
    - Not modelled: the effective-type (aliasing) rules of C. *)
From Coq Require Import ZArith List Bool.
From Verif Require Import CMonad Model_Fips202 Model_AvxKeccak.
Import ListNotations.
Open Scope Z_scope.
Open Scope cmonad_scope.

Definition umul (a b : nat) : nat := Z.to_nat (u32 (Z.of_nat a * Z.of_nat b)).
Definition uadd (a b : nat) : nat := Z.to_nat (u32 (Z.of_nat a + Z.of_nat b)).
(** Line 37 *)
Definition laneIndex (instanceIndex lanePosition : nat) : nat := uadd (umul lanePosition 4) instanceIndex.

(** statesAsLanes[i] *)
Definition lane_get (st : list Z) (i : nat) : res Z := load64 st (8 * i).
Definition lane_set (st : list Z) (i : nat) (v : Z) : res (list Z) := store64 st (8 * i) v.
(** statesAsLanes[i] ^= v *)
Definition lane_xor (st : list Z) (i : nat) (v : Z) : res (list Z) :=
  x <- lane_get st i ;; lane_set st i (Z.lxor x v).

(** An address used through a UINT64 pointer *)
Definition aligned8 (a : Z) (off : nat) : res unit :=
  if (a + Z.of_nat off) mod 8 =? 0 then ret tt else UB Misaligned.
Definition read64 (b : list Z) (a : Z) (off : nat) : res Z := _ <- aligned8 a off ;; load64 b off.
Definition write64 (b : list Z) (a : Z) (off : nat) (v : Z) : res (list Z) :=
  _ <- aligned8 a off ;; store64 b off v.

(** The pointer b + off *)
Definition pointer (b : list Z) (off : nat) : res nat :=
  if (off <=? length b)%nat then ret off else UB OutOfBounds.

(** ** Vectors *)
Definition vload (b : list Z) (off : nat) : res (list Z) :=       (* LOAD256, LOAD256u *)
  x0 <- load64 b off ;; x1 <- load64 b (off + 8) ;;
  x2 <- load64 b (off + 16) ;; x3 <- load64 b (off + 24) ;; ret [x0; x1; x2; x3].
Definition vstore (b : list Z) (off : nat) (v : list Z) : res (list Z) :=   (* STORE256, STORE256u *)
  b <- store64 b off (nth 0 v 0) ;; b <- store64 b (off + 8) (nth 1 v 0) ;;
  b <- store64 b (off + 16) (nth 2 v 0) ;; store64 b (off + 24) (nth 3 v 0).
(** stateAsLanes[i] of V256 * *)
Definition vec_get (st : list Z) (i : nat) : res (list Z) := vload st (32 * i).
Definition vec_set (st : list Z) (i : nat) (v : list Z) : res (list Z) := vstore st (32 * i) v.
Definition vec_xor (st : list Z) (i : nat) (v : list Z) : res (list Z) :=
  x <- vec_get st i ;; vec_set st i (v_xor x v).

(** _mm256_unpacklo_epi64, _mm256_unpackhi_epi64 *)
Definition UNPACKL (a b : list Z) : list Z := [nth 0 a 0; nth 0 b 0; nth 2 a 0; nth 2 b 0].
Definition UNPACKH (a b : list Z) : list Z := [nth 1 a 0; nth 1 b 0; nth 3 a 0; nth 3 b 0].
(** _mm256_permute2f128_ps: each half of the result is selected by a nibble of
    the control *)
Definition half128 (a b : list Z) (ctl : Z) : list Z :=
  if Z.testbit ctl 3 then [0; 0]
  else match Z.land ctl 3 with
       | 0 => [nth 0 a 0; nth 1 a 0]
       | 1 => [nth 2 a 0; nth 3 a 0]
       | 2 => [nth 0 b 0; nth 1 b 0]
       | _ => [nth 2 b 0; nth 3 b 0]
       end.
Definition PERM128 (a b : list Z) (c : Z) : list Z := half128 a b c ++ half128 a b (Z.shiftr c 4).
(** _mm256_shuffle_pd *)
Definition SHUFFLE64 (a b : list Z) (c : Z) : list Z :=
  [ if Z.testbit c 0 then nth 1 a 0 else nth 0 a 0;
    if Z.testbit c 1 then nth 1 b 0 else nth 0 b 0;
    if Z.testbit c 2 then nth 3 a 0 else nth 2 a 0;
    if Z.testbit c 3 then nth 3 b 0 else nth 2 b 0 ].
Definition quad := (list Z * list Z * list Z * list Z)%type.
(** Lines 61-68 *)
Definition UNINTLEAVE (ls : quad) : quad :=
  let '(lanes0, lanes1, lanes2, lanes3) := ls in
  let lanesL01 := UNPACKL lanes0 lanes1 in
  let lanesH01 := UNPACKH lanes0 lanes1 in
  let lanesL23 := UNPACKL lanes2 lanes3 in
  let lanesH23 := UNPACKH lanes2 lanes3 in
  let lanes0 := PERM128 lanesL01 lanesL23 0x20 in
  let lanes2 := PERM128 lanesL01 lanesL23 0x31 in
  let lanes1 := PERM128 lanesH01 lanesH23 0x20 in
  let lanes3 := PERM128 lanesH01 lanesH23 0x31 in
  (lanes0, lanes1, lanes2, lanes3).
(** Lines 70-77 *)
Definition INTLEAVE (ls : quad) : quad :=
  let '(lanes0, lanes1, lanes2, lanes3) := ls in
  let lanesL01 := PERM128 lanes0 lanes2 0x20 in
  let lanesH01 := PERM128 lanes1 lanes3 0x20 in
  let lanesL23 := PERM128 lanes0 lanes2 0x31 in
  let lanesH23 := PERM128 lanes1 lanes3 0x31 in
  let lanes0 := SHUFFLE64 lanesL01 lanesH01 0x00 in
  let lanes1 := SHUFFLE64 lanesL01 lanesH01 0x0F in
  let lanes2 := SHUFFLE64 lanesL23 lanesH23 0x00 in
  let lanes3 := SHUFFLE64 lanesL23 lanesH23 0x0F in
  (lanes0, lanes1, lanes2, lanes3).

(** ** Bytes of one instance *)

(** Lines 83-86: memset(states, 0, 800) *)
Definition InitializeAll (st : list Z) : res (list Z) :=
  for_ 800 0 (fun i st => aset st i 0) st.

(** SnP.h:36-37 *)
Definition AddByte (st : list Z) (instanceIndex : nat) (byte : Z) (offset : nat) : res (list Z) :=
  let i := (instanceIndex * 8 + (offset / 8) * 4 * 8 + offset mod 8)%nat in
  x <- aget st i ;; aset st i (u8 (Z.lxor x byte)).

(** [bytesInLane = 8 - offsetInLane; if (bytesInLane > sizeLeft) bytesInLane = sizeLeft;] *)
Definition bytes_in_lane (offsetInLane sizeLeft : nat) : res nat :=
  let bytesInLane := (8 - offsetInLane)%nat in
  c <- test (sizeLeft <? bytesInLane)%nat ;;
  ret (if (c : bool) then sizeLeft else bytesInLane).

(** The control flow shared by AddBytes, OverwriteBytes, ExtractBytes and
    ExtractAndAddBytes: [head lanePosition offsetInLane] handles the bytes up to
    the end of a lane entered in its middle and tells how many they were,
    [mid lanePosition cur] a whole lane, [tail lanePosition cur sizeLeft] what is
    left; cur is the progress of curData. *)
Definition by_bytes {S} (offset length : nat) (head : nat -> nat -> S -> res (S * nat))
    (mid : nat -> nat -> S -> res S) (tail : nat -> nat -> nat -> S -> res S) (s : S) : res S :=
  lanePosition <- ndiv offset 8 ;;
  offsetInLane <- nmod offset 8 ;;
  b <- test_and (0 <? length)%nat (test (negb (offsetInLane =? 0)%nat)) ;;
  '(s, sizeLeft, lanePosition, cur) <-
     (if (b : bool)
      then ('(s, bytesInLane) <- head lanePosition offsetInLane s ;;
            ret (s, length - bytesInLane, lanePosition + 1, bytesInLane)%nat)
      else ret (s, length, lanePosition, 0%nat)) ;;
  '(s, sizeLeft, lanePosition, cur) <-
     while_ (Datatypes.S length)
       (fun st => let '(s, sizeLeft, lanePosition, cur) := st in test (8 <=? sizeLeft)%nat)
       (fun st => let '(s, sizeLeft, lanePosition, cur) := st in
          s <- mid lanePosition cur s ;;
          ret (s, sizeLeft - 8, lanePosition + 1, cur + 8)%nat)
       (s, sizeLeft, lanePosition, cur) ;;
  b <- test (0 <? sizeLeft)%nat ;;
  if (b : bool) then tail lanePosition cur sizeLeft s else ret s.

(** Lines 88-121; the local [UINT64 lane = 0] is its eight bytes until it is used *)
Definition AddBytes (st : list Z) (instanceIndex : nat) (data : list Z) (a : Z) (offset length : nat)
  : res (list Z) :=
  by_bytes offset length
    (fun lanePosition offsetInLane st =>
       bytesInLane <- bytes_in_lane offsetInLane length ;;
       lane <- memcpy (repeat 0 8) offsetInLane data 0 bytesInLane ;;
       lane <- load64 lane 0 ;;
       st <- lane_xor st (laneIndex instanceIndex lanePosition) lane ;;
       ret (st, bytesInLane))
    (fun lanePosition cur st =>
       lane <- read64 data a cur ;;
       lane_xor st (laneIndex instanceIndex lanePosition) lane)
    (fun lanePosition cur sizeLeft st =>
       lane <- memcpy (repeat 0 8) 0 data cur sizeLeft ;;
       lane <- load64 lane 0 ;;
       lane_xor st (laneIndex instanceIndex lanePosition) lane) st.

(** Lines 168-197 *)
Definition OverwriteBytes (st : list Z) (instanceIndex : nat) (data : list Z) (a : Z) (offset length : nat)
  : res (list Z) :=
  by_bytes offset length
    (fun lanePosition offsetInLane st =>
       bytesInLane <- bytes_in_lane offsetInLane length ;;
       st <- memcpy st (8 * laneIndex instanceIndex lanePosition + offsetInLane) data 0 bytesInLane ;;
       ret (st, bytesInLane))
    (fun lanePosition cur st =>
       lane <- read64 data a cur ;;
       lane_set st (laneIndex instanceIndex lanePosition) lane)
    (fun lanePosition cur sizeLeft st =>
       memcpy st (8 * laneIndex instanceIndex lanePosition) data cur sizeLeft) st.

(** Lines 244-259 *)
Definition OverwriteWithZeroes (st : list Z) (instanceIndex byteCount : nat) : res (list Z) :=
  '(st, sizeLeft, lanePosition) <-
     while_ (S byteCount)
       (fun s => let '(st, sizeLeft, lanePosition) := s in test (8 <=? sizeLeft)%nat)
       (fun s => let '(st, sizeLeft, lanePosition) := s in
          st <- lane_set st (laneIndex instanceIndex lanePosition) 0 ;;
          ret (st, sizeLeft - 8, lanePosition + 1)%nat)
       (st, byteCount, 0%nat) ;;
  b <- test (0 <? sizeLeft)%nat ;;
  if (b : bool)
  then for_ sizeLeft 0 (fun i st => aset st (8 * laneIndex instanceIndex lanePosition + i) 0) st
  else ret st.

(** Lines 261-289 *)
Definition ExtractBytes (st : list Z) (instanceIndex : nat) (data : list Z) (a : Z) (offset length : nat)
  : res (list Z) :=
  by_bytes offset length
    (fun lanePosition offsetInLane data =>
       bytesInLane <- bytes_in_lane offsetInLane length ;;
       data <- memcpy data 0 st (8 * laneIndex instanceIndex lanePosition + offsetInLane) bytesInLane ;;
       ret (data, bytesInLane))
    (fun lanePosition cur data =>
       lane <- lane_get st (laneIndex instanceIndex lanePosition) ;;
       write64 data a cur lane)
    (fun lanePosition cur sizeLeft data =>
       memcpy data cur st (8 * laneIndex instanceIndex lanePosition) sizeLeft) data.

(** [do { *(curOutput++) = *(curInput++) ^ (unsigned char)lane; lane >>= 8; }
    while (--n != 0)], reached with n > 0, so that the body runs n times *)
Definition xor_out (m : list Z) (io oo n : nat) (lane : Z) : res (list Z * Z) :=
  for_ n 0 (fun i s =>
    let '(m, lane) := s in
    x <- aget m (io + i) ;;
    m <- aset m (oo + i) (u8 (Z.lxor x (u8 lane))) ;;
    lane <- shr 64 lane 8 ;;
    ret (m, lane)) (m, lane).

(** Lines 341-378; input and output are m + io and m + oo, in one memory *)
Definition ExtractAndAddBytes (st : list Z) (instanceIndex : nat) (m : list Z) (a : Z) (io oo offset length : nat)
  : res (list Z) :=
  by_bytes offset length
    (fun lanePosition offsetInLane m =>
       lane <- lane_get st (laneIndex instanceIndex lanePosition) ;;
       lane <- shr 64 lane (Z.of_nat (8 * offsetInLane)) ;;
       bytesInLane <- bytes_in_lane offsetInLane length ;;
       '(m, lane) <- xor_out m io oo bytesInLane lane ;;
       ret (m, bytesInLane))
    (fun lanePosition cur m =>
       x <- read64 m a (io + cur) ;;
       lane <- lane_get st (laneIndex instanceIndex lanePosition) ;;
       write64 m a (oo + cur) (Z.lxor x lane))
    (fun lanePosition cur sizeLeft m =>
       lane <- lane_get st (laneIndex instanceIndex lanePosition) ;;
       '(m, lane) <- xor_out m (io + cur) (oo + cur) sizeLeft lane ;;
       ret m) m.

(** ** Whole lanes of the four instances *)

(** curData0 .. curData3: data, data + laneOffset*1*8, data + laneOffset*2*8,
    data + laneOffset*3*8 *)
Definition cur_data (b : list Z) (o laneOffset : nat) : res (nat * nat * nat * nat) :=
  d1 <- pointer b (o + umul (umul laneOffset 1) 8) ;;
  d2 <- pointer b (o + umul (umul laneOffset 2) 8) ;;
  d3 <- pointer b (o + umul (umul laneOffset 3) 8) ;;
  ret (o, d1, d2, d3).

(** LOAD4_64(curData3[i], curData2[i], curData1[i], curData0[i]) *)
Definition LOAD4_64 (b : list Z) (a : Z) (ds : nat * nat * nat * nat) (i : nat) : res (list Z) :=
  let '(d0, d1, d2, d3) := ds in
  x3 <- read64 b a (d3 + 8 * i) ;; x2 <- read64 b a (d2 + 8 * i) ;;
  x1 <- read64 b a (d1 + 8 * i) ;; x0 <- read64 b a (d0 + 8 * i) ;;
  ret [x0; x1; x2; x3].
(** LOAD256u(curData0[i]) .. LOAD256u(curData3[i]) *)
Definition load_quad (b : list Z) (ds : nat * nat * nat * nat) (i : nat) : res quad :=
  let '(d0, d1, d2, d3) := ds in
  l0 <- vload b (d0 + 8 * i) ;; l1 <- vload b (d1 + 8 * i) ;;
  l2 <- vload b (d2 + 8 * i) ;; l3 <- vload b (d3 + 8 * i) ;;
  ret (l0, l1, l2, l3).
(** STORE256u(curData0[i], lanes0) .. STORE256u(curData3[i], lanes3) *)
Definition store_quad (b : list Z) (ds : nat * nat * nat * nat) (i : nat) (ls : quad) : res (list Z) :=
  let '(d0, d1, d2, d3) := ds in
  let '(l0, l1, l2, l3) := ls in
  b <- vstore b (d0 + 8 * i) l0 ;; b <- vstore b (d1 + 8 * i) l1 ;;
  b <- vstore b (d2 + 8 * i) l2 ;; vstore b (d3 + 8 * i) l3.
(** LOAD256(stateAsLanes[i+0]) .. LOAD256(stateAsLanes[i+3]) *)
Definition get_quad (st : list Z) (i : nat) : res quad :=
  l0 <- vec_get st (i + 0) ;; l1 <- vec_get st (i + 1) ;;
  l2 <- vec_get st (i + 2) ;; l3 <- vec_get st (i + 3) ;;
  ret (l0, l1, l2, l3).

(** The common control flow: one4 at 0, 4, 8, 12 (and 16), one for the rest *)
Definition by_lanes {S} (laneCount : nat) (one4 one : nat -> S -> res S) (s : S) : res S :=
  c <- test (16 <=? laneCount)%nat ;;
  if (c : bool)
  then (s <- one4 0%nat s ;; s <- one4 4%nat s ;; s <- one4 8%nat s ;; s <- one4 12%nat s ;;
        c <- test (20 <=? laneCount)%nat ;;
        if (c : bool)
        then (s <- one4 16%nat s ;; for_ (laneCount - 20) 20 one s)
        else for_ (laneCount - 16) 16 one s)
  else for_ laneCount 0 one s.

(** Lines 123-166; data + o *)
Definition AddLanesAll (st data : list Z) (a : Z) (o laneCount laneOffset : nat) : res (list Z) :=
  ds <- cur_data data o laneOffset ;;
  by_lanes laneCount
    (fun i st =>
       ls <- load_quad data ds i ;;
       let '(lanes0, lanes1, lanes2, lanes3) := INTLEAVE ls in
       st <- vec_xor st (i + 0) lanes0 ;; st <- vec_xor st (i + 1) lanes1 ;;
       st <- vec_xor st (i + 2) lanes2 ;; vec_xor st (i + 3) lanes3)
    (fun i st => v <- LOAD4_64 data a ds i ;; vec_xor st i v) st.

(** Lines 199-242 *)
Definition OverwriteLanesAll (st data : list Z) (a : Z) (laneCount laneOffset : nat) : res (list Z) :=
  ds <- cur_data data 0 laneOffset ;;
  by_lanes laneCount
    (fun i st =>
       ls <- load_quad data ds i ;;
       let '(lanes0, lanes1, lanes2, lanes3) := INTLEAVE ls in
       st <- vec_set st (i + 0) lanes0 ;; st <- vec_set st (i + 1) lanes1 ;;
       st <- vec_set st (i + 2) lanes2 ;; vec_set st (i + 3) lanes3)
    (fun i st => v <- LOAD4_64 data a ds i ;; vec_set st i v) st.

(** Lines 291-339 *)
Definition ExtractLanesAll (st data : list Z) (a : Z) (laneCount laneOffset : nat) : res (list Z) :=
  ds <- cur_data data 0 laneOffset ;;
  by_lanes laneCount
    (fun i data =>
       ls <- get_quad st i ;;
       store_quad data ds i (UNINTLEAVE ls))
    (fun i data =>
       let '(d0, d1, d2, d3) := ds in
       x <- lane_get st (4 * i) ;; data <- write64 data a (d0 + 8 * i) x ;;
       x <- lane_get st (4 * i + 1) ;; data <- write64 data a (d1 + 8 * i) x ;;
       x <- lane_get st (4 * i + 2) ;; data <- write64 data a (d2 + 8 * i) x ;;
       x <- lane_get st (4 * i + 3) ;; write64 data a (d3 + 8 * i) x) data.

(** Lines 380-442; input and output are m + io and m + oo, in one memory *)
Definition ExtractAndAddLanesAll (st m : list Z) (a : Z) (io oo laneCount laneOffset : nat) : res (list Z) :=
  is <- cur_data m io laneOffset ;;
  ds <- cur_data m oo laneOffset ;;
  by_lanes laneCount
    (fun i m =>
       ls <- get_quad st i ;;
       let '(lanes0, lanes1, lanes2, lanes3) := UNINTLEAVE ls in
       '(lanesL01, lanesH01, lanesL23, lanesH23) <- load_quad m is i ;;
       store_quad m ds i (v_xor lanes0 lanesL01, v_xor lanes1 lanesH01, v_xor lanes2 lanesL23, v_xor lanes3 lanesH23))
    (fun i m =>
       let '(i0, i1, i2, i3) := is in
       let '(d0, d1, d2, d3) := ds in
       y <- read64 m a (i0 + 8 * i) ;; x <- lane_get st (4 * i) ;;
       m <- write64 m a (d0 + 8 * i) (Z.lxor y x) ;;
       y <- read64 m a (i1 + 8 * i) ;; x <- lane_get st (4 * i + 1) ;;
       m <- write64 m a (d1 + 8 * i) (Z.lxor y x) ;;
       y <- read64 m a (i2 + 8 * i) ;; x <- lane_get st (4 * i + 2) ;;
       m <- write64 m a (d2 + 8 * i) (Z.lxor y x) ;;
       y <- read64 m a (i3 + 8 * i) ;; x <- lane_get st (4 * i + 3) ;;
       write64 m a (d3 + 8 * i) (Z.lxor y x)) m.

(** ** Permutations *)

(** KeccakP-1600-unrolling.macros:44-57 *)
Definition rounds12 : list kstmt :=
  prepareTheta ++
  thetaRhoPiChiIotaPrepareTheta 12 kA kE ++
  thetaRhoPiChiIotaPrepareTheta 13 kE kA ++
  thetaRhoPiChiIotaPrepareTheta 14 kA kE ++
  thetaRhoPiChiIotaPrepareTheta 15 kE kA ++
  thetaRhoPiChiIotaPrepareTheta 16 kA kE ++
  thetaRhoPiChiIotaPrepareTheta 17 kE kA ++
  thetaRhoPiChiIotaPrepareTheta 18 kA kE ++
  thetaRhoPiChiIotaPrepareTheta 19 kE kA ++
  thetaRhoPiChiIotaPrepareTheta 20 kA kE ++
  thetaRhoPiChiIotaPrepareTheta 21 kE kA ++
  thetaRhoPiChiIotaPrepareTheta 22 kA kE ++
  thetaRhoPiChiIota 23 kE kA.

Section WithJunk.
Context `{Junk}.

(** Lines 715-740 and 742-767 *)
Definition copyFromState (st : list Z) (env : kvar -> list Z) : res (kvar -> list Z) :=
  for_ 25 0 (fun i env => v <- vec_get st i ;; ret (kset env (kA i) v)) env.
Definition copyToState (st : list Z) (env : kvar -> list Z) : res (list Z) :=
  for_ 25 0 (fun i st => vec_set st i (env (kA i))) st.

(** Lines 802-826 *)
Definition permute_all (prog : list kstmt) (st : list Z) : res (list Z) :=
  env <- copyFromState st (fun _ => v_junk) ;;
  copyToState st (kexec V256_ops prog env).
Definition PermuteAll_24rounds := permute_all rounds24.
Definition PermuteAll_12rounds := permute_all rounds12.

(** XOR_In( Aba, 0 ) .. XOR_In( Asa, 20 ) *)
Definition xor_in_21 (data : list Z) (a : Z) (ds : nat * nat * nat * nat) (env : kvar -> list Z) : res (kvar -> list Z) :=
  for_ 21 0 (fun i env => v <- LOAD4_64 data a ds i ;; ret (kset env (kA i) (v_xor (env (kA i)) v))) env.

(** Lines 828-928 and 930-1030, the compiled branch of [#if 0]; [prog] is
    rounds24 or rounds12, the result is the state and the number of bytes
    consumed.  [curData0 += laneOffsetSerial] moves a UINT64 pointer: 8 times
    laneOffsetSerial bytes, without wrap-around; [laneOffsetSerial*8] is a
    product of unsigned ints. *)
Definition fast_loop (prog : list kstmt) (fuel : nat) (st : list Z) (laneCount laneOffsetParallel laneOffsetSerial : nat)
    (data : list Z) (a : Z) (dataByteLen : Z) : res (list Z * nat) :=
  let need := Z.of_nat (umul (uadd (umul laneOffsetParallel 3) laneCount) 8) in
  c <- test (laneCount =? 21)%nat ;;
  if (c : bool)
  then (ds <- cur_data data 0 laneOffsetParallel ;;
        env <- copyFromState st (fun _ => v_junk) ;;
        '(env, ds, dataByteLen) <-
           while_ fuel
             (fun s => let '(env, ds, dataByteLen) := s in test (need <=? dataByteLen))
             (fun s => let '(env, ds, dataByteLen) := s in
                env <- xor_in_21 data a ds env ;;
                let env := kexec V256_ops prog env in
                let '(d0, d1, d2, d3) := ds in
                d0 <- pointer data (d0 + 8 * laneOffsetSerial) ;;
                d1 <- pointer data (d1 + 8 * laneOffsetSerial) ;;
                d2 <- pointer data (d2 + 8 * laneOffsetSerial) ;;
                d3 <- pointer data (d3 + 8 * laneOffsetSerial) ;;
                ret (env, (d0, d1, d2, d3), u64 (dataByteLen - Z.of_nat (umul laneOffsetSerial 8))))
             (env, ds, dataByteLen) ;;
        st <- copyToState st env ;;
        let '(d0, d1, d2, d3) := ds in
        ret (st, d0))
  else ('(st, o, dataByteLen) <-
           while_ fuel
             (fun s => let '(st, o, dataByteLen) := s in test (need <=? dataByteLen))
             (fun s => let '(st, o, dataByteLen) := s in
                st <- AddLanesAll st data a o laneCount laneOffsetParallel ;;
                st <- permute_all prog st ;;
                o <- pointer data (o + umul laneOffsetSerial 8) ;;
                ret (st, o, u64 (dataByteLen - Z.of_nat (umul laneOffsetSerial 8))))
             (st, 0%nat, dataByteLen) ;;
        ret (st, o)).
Definition FastLoop_Absorb := fast_loop rounds24.
Definition FastLoop_Absorb_12rounds := fast_loop rounds12.

End WithJunk.
