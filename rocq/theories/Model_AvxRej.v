(** * /repo/avx2/rejsample.c: vectorised rejection sampling

    The branch without the macro BMI (it is commented out, line 8).  Each loop
    body consists of two programs of Model_AvxIntrin.v, before and after the
    table lookups.  Stores are 16 bytes at the int16 index [ctr]. *)
From Coq Require Import ZArith List Bool.
From Verif Require Import CMonad Model_Params Model_Symmetric Model_AvxIntrin Model_AvxCode Model_AvxC.
Import ListNotations.
Open Scope Z_scope.
Open Scope cmonad_scope.
Local Coercion V : nat >-> expr.

(** rejsample.h:8-9, computed in Z to avoid large nat numerals *)
Definition REJ_UNIFORM_AVX_NBLOCKS : nat :=
  Z.to_nat ((12 * 256 / 8 * 2 ^ 12 / KYBER_Q + Z.of_nat XOF_BLOCKBYTES) / Z.of_nat XOF_BLOCKBYTES).
Definition REJ_UNIFORM_AVX_BUFLEN : nat := (REJ_UNIFORM_AVX_NBLOCKS * XOF_BLOCKBYTES)%nat.

(** rejsample.c:11-268; uint8_t, so -1 is 255 *)
Definition idx : list (list Z) := [
  [255;255;255;255;255;255;255;255]; [0;255;255;255;255;255;255;255]; [2;255;255;255;255;255;255;255]; [0;2;255;255;255;255;255;255];
  [4;255;255;255;255;255;255;255]; [0;4;255;255;255;255;255;255]; [2;4;255;255;255;255;255;255]; [0;2;4;255;255;255;255;255];
  [6;255;255;255;255;255;255;255]; [0;6;255;255;255;255;255;255]; [2;6;255;255;255;255;255;255]; [0;2;6;255;255;255;255;255];
  [4;6;255;255;255;255;255;255]; [0;4;6;255;255;255;255;255]; [2;4;6;255;255;255;255;255]; [0;2;4;6;255;255;255;255];
  [8;255;255;255;255;255;255;255]; [0;8;255;255;255;255;255;255]; [2;8;255;255;255;255;255;255]; [0;2;8;255;255;255;255;255];
  [4;8;255;255;255;255;255;255]; [0;4;8;255;255;255;255;255]; [2;4;8;255;255;255;255;255]; [0;2;4;8;255;255;255;255];
  [6;8;255;255;255;255;255;255]; [0;6;8;255;255;255;255;255]; [2;6;8;255;255;255;255;255]; [0;2;6;8;255;255;255;255];
  [4;6;8;255;255;255;255;255]; [0;4;6;8;255;255;255;255]; [2;4;6;8;255;255;255;255]; [0;2;4;6;8;255;255;255];
  [10;255;255;255;255;255;255;255]; [0;10;255;255;255;255;255;255]; [2;10;255;255;255;255;255;255]; [0;2;10;255;255;255;255;255];
  [4;10;255;255;255;255;255;255]; [0;4;10;255;255;255;255;255]; [2;4;10;255;255;255;255;255]; [0;2;4;10;255;255;255;255];
  [6;10;255;255;255;255;255;255]; [0;6;10;255;255;255;255;255]; [2;6;10;255;255;255;255;255]; [0;2;6;10;255;255;255;255];
  [4;6;10;255;255;255;255;255]; [0;4;6;10;255;255;255;255]; [2;4;6;10;255;255;255;255]; [0;2;4;6;10;255;255;255];
  [8;10;255;255;255;255;255;255]; [0;8;10;255;255;255;255;255]; [2;8;10;255;255;255;255;255]; [0;2;8;10;255;255;255;255];
  [4;8;10;255;255;255;255;255]; [0;4;8;10;255;255;255;255]; [2;4;8;10;255;255;255;255]; [0;2;4;8;10;255;255;255];
  [6;8;10;255;255;255;255;255]; [0;6;8;10;255;255;255;255]; [2;6;8;10;255;255;255;255]; [0;2;6;8;10;255;255;255];
  [4;6;8;10;255;255;255;255]; [0;4;6;8;10;255;255;255]; [2;4;6;8;10;255;255;255]; [0;2;4;6;8;10;255;255];
  [12;255;255;255;255;255;255;255]; [0;12;255;255;255;255;255;255]; [2;12;255;255;255;255;255;255]; [0;2;12;255;255;255;255;255];
  [4;12;255;255;255;255;255;255]; [0;4;12;255;255;255;255;255]; [2;4;12;255;255;255;255;255]; [0;2;4;12;255;255;255;255];
  [6;12;255;255;255;255;255;255]; [0;6;12;255;255;255;255;255]; [2;6;12;255;255;255;255;255]; [0;2;6;12;255;255;255;255];
  [4;6;12;255;255;255;255;255]; [0;4;6;12;255;255;255;255]; [2;4;6;12;255;255;255;255]; [0;2;4;6;12;255;255;255];
  [8;12;255;255;255;255;255;255]; [0;8;12;255;255;255;255;255]; [2;8;12;255;255;255;255;255]; [0;2;8;12;255;255;255;255];
  [4;8;12;255;255;255;255;255]; [0;4;8;12;255;255;255;255]; [2;4;8;12;255;255;255;255]; [0;2;4;8;12;255;255;255];
  [6;8;12;255;255;255;255;255]; [0;6;8;12;255;255;255;255]; [2;6;8;12;255;255;255;255]; [0;2;6;8;12;255;255;255];
  [4;6;8;12;255;255;255;255]; [0;4;6;8;12;255;255;255]; [2;4;6;8;12;255;255;255]; [0;2;4;6;8;12;255;255];
  [10;12;255;255;255;255;255;255]; [0;10;12;255;255;255;255;255]; [2;10;12;255;255;255;255;255]; [0;2;10;12;255;255;255;255];
  [4;10;12;255;255;255;255;255]; [0;4;10;12;255;255;255;255]; [2;4;10;12;255;255;255;255]; [0;2;4;10;12;255;255;255];
  [6;10;12;255;255;255;255;255]; [0;6;10;12;255;255;255;255]; [2;6;10;12;255;255;255;255]; [0;2;6;10;12;255;255;255];
  [4;6;10;12;255;255;255;255]; [0;4;6;10;12;255;255;255]; [2;4;6;10;12;255;255;255]; [0;2;4;6;10;12;255;255];
  [8;10;12;255;255;255;255;255]; [0;8;10;12;255;255;255;255]; [2;8;10;12;255;255;255;255]; [0;2;8;10;12;255;255;255];
  [4;8;10;12;255;255;255;255]; [0;4;8;10;12;255;255;255]; [2;4;8;10;12;255;255;255]; [0;2;4;8;10;12;255;255];
  [6;8;10;12;255;255;255;255]; [0;6;8;10;12;255;255;255]; [2;6;8;10;12;255;255;255]; [0;2;6;8;10;12;255;255];
  [4;6;8;10;12;255;255;255]; [0;4;6;8;10;12;255;255]; [2;4;6;8;10;12;255;255]; [0;2;4;6;8;10;12;255];
  [14;255;255;255;255;255;255;255]; [0;14;255;255;255;255;255;255]; [2;14;255;255;255;255;255;255]; [0;2;14;255;255;255;255;255];
  [4;14;255;255;255;255;255;255]; [0;4;14;255;255;255;255;255]; [2;4;14;255;255;255;255;255]; [0;2;4;14;255;255;255;255];
  [6;14;255;255;255;255;255;255]; [0;6;14;255;255;255;255;255]; [2;6;14;255;255;255;255;255]; [0;2;6;14;255;255;255;255];
  [4;6;14;255;255;255;255;255]; [0;4;6;14;255;255;255;255]; [2;4;6;14;255;255;255;255]; [0;2;4;6;14;255;255;255];
  [8;14;255;255;255;255;255;255]; [0;8;14;255;255;255;255;255]; [2;8;14;255;255;255;255;255]; [0;2;8;14;255;255;255;255];
  [4;8;14;255;255;255;255;255]; [0;4;8;14;255;255;255;255]; [2;4;8;14;255;255;255;255]; [0;2;4;8;14;255;255;255];
  [6;8;14;255;255;255;255;255]; [0;6;8;14;255;255;255;255]; [2;6;8;14;255;255;255;255]; [0;2;6;8;14;255;255;255];
  [4;6;8;14;255;255;255;255]; [0;4;6;8;14;255;255;255]; [2;4;6;8;14;255;255;255]; [0;2;4;6;8;14;255;255];
  [10;14;255;255;255;255;255;255]; [0;10;14;255;255;255;255;255]; [2;10;14;255;255;255;255;255]; [0;2;10;14;255;255;255;255];
  [4;10;14;255;255;255;255;255]; [0;4;10;14;255;255;255;255]; [2;4;10;14;255;255;255;255]; [0;2;4;10;14;255;255;255];
  [6;10;14;255;255;255;255;255]; [0;6;10;14;255;255;255;255]; [2;6;10;14;255;255;255;255]; [0;2;6;10;14;255;255;255];
  [4;6;10;14;255;255;255;255]; [0;4;6;10;14;255;255;255]; [2;4;6;10;14;255;255;255]; [0;2;4;6;10;14;255;255];
  [8;10;14;255;255;255;255;255]; [0;8;10;14;255;255;255;255]; [2;8;10;14;255;255;255;255]; [0;2;8;10;14;255;255;255];
  [4;8;10;14;255;255;255;255]; [0;4;8;10;14;255;255;255]; [2;4;8;10;14;255;255;255]; [0;2;4;8;10;14;255;255];
  [6;8;10;14;255;255;255;255]; [0;6;8;10;14;255;255;255]; [2;6;8;10;14;255;255;255]; [0;2;6;8;10;14;255;255];
  [4;6;8;10;14;255;255;255]; [0;4;6;8;10;14;255;255]; [2;4;6;8;10;14;255;255]; [0;2;4;6;8;10;14;255];
  [12;14;255;255;255;255;255;255]; [0;12;14;255;255;255;255;255]; [2;12;14;255;255;255;255;255]; [0;2;12;14;255;255;255;255];
  [4;12;14;255;255;255;255;255]; [0;4;12;14;255;255;255;255]; [2;4;12;14;255;255;255;255]; [0;2;4;12;14;255;255;255];
  [6;12;14;255;255;255;255;255]; [0;6;12;14;255;255;255;255]; [2;6;12;14;255;255;255;255]; [0;2;6;12;14;255;255;255];
  [4;6;12;14;255;255;255;255]; [0;4;6;12;14;255;255;255]; [2;4;6;12;14;255;255;255]; [0;2;4;6;12;14;255;255];
  [8;12;14;255;255;255;255;255]; [0;8;12;14;255;255;255;255]; [2;8;12;14;255;255;255;255]; [0;2;8;12;14;255;255;255];
  [4;8;12;14;255;255;255;255]; [0;4;8;12;14;255;255;255]; [2;4;8;12;14;255;255;255]; [0;2;4;8;12;14;255;255];
  [6;8;12;14;255;255;255;255]; [0;6;8;12;14;255;255;255]; [2;6;8;12;14;255;255;255]; [0;2;6;8;12;14;255;255];
  [4;6;8;12;14;255;255;255]; [0;4;6;8;12;14;255;255]; [2;4;6;8;12;14;255;255]; [0;2;4;6;8;12;14;255];
  [10;12;14;255;255;255;255;255]; [0;10;12;14;255;255;255;255]; [2;10;12;14;255;255;255;255]; [0;2;10;12;14;255;255;255];
  [4;10;12;14;255;255;255;255]; [0;4;10;12;14;255;255;255]; [2;4;10;12;14;255;255;255]; [0;2;4;10;12;14;255;255];
  [6;10;12;14;255;255;255;255]; [0;6;10;12;14;255;255;255]; [2;6;10;12;14;255;255;255]; [0;2;6;10;12;14;255;255];
  [4;6;10;12;14;255;255;255]; [0;4;6;10;12;14;255;255]; [2;4;6;10;12;14;255;255]; [0;2;4;6;10;12;14;255];
  [8;10;12;14;255;255;255;255]; [0;8;10;12;14;255;255;255]; [2;8;10;12;14;255;255;255]; [0;2;8;10;12;14;255;255];
  [4;8;10;12;14;255;255;255]; [0;4;8;10;12;14;255;255]; [2;4;8;10;12;14;255;255]; [0;2;4;8;10;12;14;255];
  [6;8;10;12;14;255;255;255]; [0;6;8;10;12;14;255;255]; [2;6;8;10;12;14;255;255]; [0;2;6;8;10;12;14;255];
  [4;6;8;10;12;14;255;255]; [0;4;6;8;10;12;14;255]; [2;4;6;8;10;12;14;255]; [0;2;4;6;8;10;12;14]].

(** _mm_popcnt_u32 *)
Definition popcnt (x : Z) : nat := length (filter (fun i => Z.testbit x (Z.of_nat i)) (seq 0 32)).

(** _mm_storeu_si128((__m128i * )&r[ctr], v) *)
Definition storeu (r : list Z) (ctr : nat) (v : list bool) : res (list Z) :=
  mstore r ctr (map i16 (words_bits 16 v)).
(** 8 bytes of the table: &idx[i] *)
Definition idx_row (i : Z) : res (list bool) :=
  row <- aget idx (Z.to_nat i) ;; ret (bits_words 8 row).

Definition rej_idx8 : list bool := set_epi8 [15;14;14;13;12;11;11;10;
                                              9; 8; 8; 7; 6; 5; 5; 4;
                                             11;10;10; 9; 8; 7; 7; 6;
                                              5; 4; 4; 3; 2; 1; 1; 0].

(** Lines 296-312; variables f0 f1 g0 g1 good *)
Definition rej_body_a : list stmt :=
  let f0 := 0%nat in let f1 := 1%nat in let g0 := 2%nat in let g1 := 3%nat in let good := 4%nat in
  let bound := K (qvec _16XQ) in
  let mask := K (set1_epi16 0xFFF) in
  let idx8 := K rej_idx8 in
  [ f0 ~ mm256_permute4x64_epi64 f0 0x94;
    f1 ~ mm256_permute4x64_epi64 f1 0x94;
    f0 ~ mm256_shuffle_epi8 f0 idx8;
    f1 ~ mm256_shuffle_epi8 f1 idx8;
    g0 ~ mm256_srli_epi16 f0 4;
    g1 ~ mm256_srli_epi16 f1 4;
    f0 ~ mm256_blend_epi16 f0 g0 0xAA;
    f1 ~ mm256_blend_epi16 f1 g1 0xAA;
    f0 ~ mm256_and_si256 f0 mask;
    f1 ~ mm256_and_si256 f1 mask;
    g0 ~ mm256_cmpgt_epi16 bound f0;
    g1 ~ mm256_cmpgt_epi16 bound f1;
    g0 ~ mm256_packs_epi16 g0 g1;
    good ~ mm256_movemask_epi8 g0 ].

(** Lines 333-352; variables f0 f1 and the four table rows, then g0 g1 g2 g3 *)
Definition rej_body_b : list stmt :=
  let f0 := 0%nat in let f1 := 1%nat in
  let r0 := 2%nat in let r1 := 3%nat in let r2 := 4%nat in let r3 := 5%nat in
  let g0 := 6%nat in let g1 := 7%nat in let g2 := 8%nat in let g3 := 9%nat in
  let ones := K (set1_epi8 1) in
  [ g0 ~ mm256_set_m128i_lohi (zero_upper64 r0) (zero_upper64 r2);
    g1 ~ mm256_set_m128i_lohi (zero_upper64 r1) (zero_upper64 r3);
    g2 ~ mm256_add_epi8 g0 ones;
    g3 ~ mm256_add_epi8 g1 ones;
    g0 ~ mm256_unpacklo_epi8 g0 g2;
    g1 ~ mm256_unpacklo_epi8 g1 g3;
    f0 ~ mm256_shuffle_epi8 f0 g0;
    f1 ~ mm256_shuffle_epi8 f1 g1;
    10%nat ~ mm256_castsi256_si128 f0;
    11%nat ~ mm256_extracti128_si256 f0 1;
    12%nat ~ mm256_castsi256_si128 f1;
    13%nat ~ mm256_extracti128_si256 f1 1 ].

(** Lines 359-375; variables f t good *)
Definition rej_tail_a : list stmt :=
  let f := 0%nat in let t := 1%nat in let good := 2%nat in
  let bound := K (qvec _16XQ) in
  let mask := K (set1_epi16 0xFFF) in
  let idx8 := K rej_idx8 in
  [ f ~ mm_shuffle_epi8 f (mm256_castsi256_si128 idx8);
    t ~ mm_srli_epi16 f 4;
    f ~ mm_blend_epi16 f t 0xAA;
    f ~ mm_and_si128 f (mm256_castsi256_si128 mask);
    t ~ mm_cmpgt_epi16 (mm256_castsi256_si128 bound) f;
    good ~ mm_movemask_epi8 t;
    good ~ pext_5555 good ].

(** Lines 376-381; variables f, the table row, pihi, pilo *)
Definition rej_tail_b : list stmt :=
  let f := 0%nat in let row := 1%nat in let pihi := 2%nat in let pilo := 3%nat in
  let ones := K (set1_epi8 1) in
  [ pilo ~ zero_upper64 row;
    pihi ~ mm_add_epi8 pilo (mm256_castsi256_si128 ones);
    pilo ~ mm_unpacklo_epi8 pilo pihi;
    f ~ mm_shuffle_epi8 f pilo ].

(** rejsample.c:274-398.  Loop states (ctr, pos, r).  Returns (ctr, r). *)
Definition rej_uniform_avx (r buf : list Z) : res (nat * list Z) :=
  s <- while_ (S REJ_UNIFORM_AVX_BUFLEN)
    (fun s => let '(ctr, pos, r) := s in
       test_and (ctr <=? KYBER_N - 32)%nat (test (pos <=? REJ_UNIFORM_AVX_BUFLEN - 56)%nat))
    (fun s => let '(ctr, pos, r) := s in
       f0 <- load_bytes buf pos 32 ;;
       f1 <- load_bytes buf (pos + 24) 32 ;;
       o <- exec_c rej_body_a [f0; f1] [0; 1; 4]%nat ;;
       let pos := (pos + 48)%nat in
       let good := value (out o 2) in
       r0 <- idx_row (Z.land (Z.shiftr good 0) 0xFF) ;;
       r1 <- idx_row (Z.land (Z.shiftr good 8) 0xFF) ;;
       r2 <- idx_row (Z.land (Z.shiftr good 16) 0xFF) ;;
       r3 <- idx_row (Z.land (Z.shiftr good 24) 0xFF) ;;
       o <- exec_c rej_body_b [out o 0; out o 1; r0; r1; r2; r3] [10; 11; 12; 13]%nat ;;
       r <- storeu r ctr (out o 0) ;;
       let ctr := (ctr + popcnt (Z.land (Z.shiftr good 0) 0xFF))%nat in
       r <- storeu r ctr (out o 1) ;;
       let ctr := (ctr + popcnt (Z.land (Z.shiftr good 16) 0xFF))%nat in
       r <- storeu r ctr (out o 2) ;;
       let ctr := (ctr + popcnt (Z.land (Z.shiftr good 8) 0xFF))%nat in
       r <- storeu r ctr (out o 3) ;;
       let ctr := (ctr + popcnt (Z.land (Z.shiftr good 24) 0xFF))%nat in
       ret (ctr, pos, r))
    (0%nat, 0%nat, r) ;;
  s <- while_ (S REJ_UNIFORM_AVX_BUFLEN)
    (fun s => let '(ctr, pos, r) := s in
       test_and (ctr <=? KYBER_N - 8)%nat (test (pos <=? REJ_UNIFORM_AVX_BUFLEN - 16)%nat))
    (fun s => let '(ctr, pos, r) := s in
       f <- load_bytes buf pos 16 ;;
       o <- exec_c rej_tail_a [f] [0; 2]%nat ;;
       let pos := (pos + 12)%nat in
       let good := value (out o 1) in
       row <- idx_row good ;;
       o <- exec_c rej_tail_b [out o 0; row] [0]%nat ;;
       r <- storeu r ctr (out o 0) ;;
       let ctr := (ctr + popcnt good)%nat in
       ret (ctr, pos, r))
    s ;;
  '(ctr, pos, r) <- while_ (S REJ_UNIFORM_AVX_BUFLEN)
    (fun s => let '(ctr, pos, r) := s in
       test_and (ctr <? KYBER_N)%nat (test (pos <=? REJ_UNIFORM_AVX_BUFLEN - 3)%nat))
    (fun s => let '(ctr, pos, r) := s in
       (* val0 = ((buf[pos+0] >> 0) | ((uint16_t)buf[pos+1] << 8)) & 0xFFF; *)
       b0 <- aget buf (pos + 0) ;; x <- shr 32 b0 0 ;;
       b1 <- aget buf (pos + 1) ;; y <- ishl (u16 b1) 8 ;;
       let val0 := u16 (Z.land (Z.lor x y) 0xFFF) in
       (* val1 = ((buf[pos+1] >> 4) | ((uint16_t)buf[pos+2] << 4)); *)
       b1 <- aget buf (pos + 1) ;; x <- shr 32 b1 4 ;;
       b2 <- aget buf (pos + 2) ;; y <- ishl (u16 b2) 4 ;;
       let val1 := u16 (Z.lor x y) in
       let pos := (pos + 3)%nat in
       c <- test (val0 <? KYBER_Q) ;;
       '(ctr, r) <- (if (c : bool)
                     then (r <- aset r ctr (i16 val0) ;; ret (S ctr, r))
                     else ret (ctr, r)) ;;
       c <- test_and (val1 <? KYBER_Q) (test (ctr <? KYBER_N)%nat) ;;
       '(ctr, r) <- (if (c : bool)
                     then (r <- aset r ctr (i16 val1) ;; ret (S ctr, r))
                     else ret (ctr, r)) ;;
       ret (ctr, pos, r))
    s ;;
  ret (ctr, r).
