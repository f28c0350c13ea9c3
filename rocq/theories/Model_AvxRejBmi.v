(** * /repo/avx2/rejsample.c with BMI defined: rejection sampling without a table

    The other branch of each [#ifdef BMI] (lines 314-336, 368-373): the shuffle
    control comes from _pdep_u64 and _pext_u64 instead of a row of the table.
    Programs shared with the table variant are those of Model_AvxRej.v. *)
From Coq Require Import ZArith List Bool.
From Verif Require Import CMonad Model_Params Model_AvxIntrin Model_AvxCode Model_AvxC Model_AvxRej.
Import ListNotations.
Open Scope Z_scope.
Open Scope cmonad_scope.
Local Coercion V : nat >-> expr.

(** _pdep_u64: the low bits of the source go, in order, to the positions of the
    set bits of the mask.  _pext_u64: the bits at the positions of the set bits
    of the mask are packed into the low bits. *)
Fixpoint deposit (src mask : list bool) : list bool :=
  match mask with
  | [] => []
  | false :: mask => false :: deposit src mask
  | true :: mask => match src with [] => false :: deposit [] mask | b :: src => b :: deposit src mask end
  end.
Fixpoint extract (src mask : list bool) : list bool :=
  match src, mask with
  | b :: src, true :: mask => b :: extract src mask
  | _ :: src, false :: mask => extract src mask
  | _, _ => []
  end.
Definition pdep_u64 (a mask : Z) : Z := value (deposit (bits_of 64 a) (bits_of 64 mask)).
Definition pext_u64 (a mask : Z) : Z := value (extract (bits_of 64 a) (bits_of 64 mask)).

(** idx0 = _pdep_u64(good, mask); idx0 = (idx0 << 8) - idx0;
    idx0 = _pext_u64(0x0E0C0A0806040200, idx0); all uint64_t *)
Definition bmi_row (good mask : Z) : Z :=
  let idx0 := pdep_u64 good mask in
  let idx0 := u64 (u64 (Z.shiftl idx0 8) - idx0) in
  pext_u64 0x0E0C0A0806040200 idx0.

(** Lines 359-366; variables f t good *)
Definition rej_tail_a_bmi : list stmt :=
  let f := 0%nat in let t := 1%nat in let good := 2%nat in
  let bound := K (qvec _16XQ) in
  let mask := K (set1_epi16 0xFFF) in
  let idx8 := K rej_idx8 in
  [ f ~ mm_shuffle_epi8 f (mm256_castsi256_si128 idx8);
    t ~ mm_srli_epi16 f 4;
    f ~ mm_blend_epi16 f t 0xAA;
    f ~ mm_and_si128 f (mm256_castsi256_si128 mask);
    t ~ mm_cmpgt_epi16 (mm256_castsi256_si128 bound) f;
    good ~ mm_movemask_epi8 t ].

(** rejsample.c:274-398.  _mm_cvtsi64_si128 clears the upper 64 bits, as
    [zero_upper64] does in [rej_body_b] and [rej_tail_b]. *)
Definition rej_uniform_avx_bmi (r buf : list Z) : res (nat * list Z) :=
  s <- while_ (S REJ_UNIFORM_AVX_BUFLEN)
    (fun s => let '(ctr, pos, r) := s in
       test_and (ctr <=? KYBER_N - 32)%nat (test (pos <=? REJ_UNIFORM_AVX_BUFLEN - 56)%nat))
    (fun s => let '(ctr, pos, r) := s in
       f0 <- load_bytes buf pos 32 ;;
       f1 <- load_bytes buf (pos + 24) 32 ;;
       o <- exec_c rej_body_a [f0; f1] [0; 1; 4]%nat ;;
       let pos := (pos + 48)%nat in
       let good := value (out o 2) in
       let r0 := bits_of 64 (bmi_row (Z.shiftr good 0) 0x0101010101010101) in
       let r1 := bits_of 64 (bmi_row (Z.shiftr good 8) 0x0101010101010101) in
       let r2 := bits_of 64 (bmi_row (Z.shiftr good 16) 0x0101010101010101) in
       let r3 := bits_of 64 (bmi_row (Z.shiftr good 24) 0x0101010101010101) in
       o <- exec_c rej_body_b [out o 0; out o 1; r0; r1; r2; r3] [10; 11; 12; 13]%nat ;;
       r <- storeu r ctr (out o 0) ;;
       let ctr := (ctr + popcnt (Z.land (Z.shiftr good 0) 0xFF))%nat in
       r <- storeu r ctr (out o 1) ;;
       let ctr := (ctr + popcnt (Z.land (Z.shiftr good 16) 0xFF))%nat in
       r <- storeu r ctr (out o 2) ;;
       let ctr := (ctr + popcnt (Z.land (Z.shiftr good 8) 0xFF))%nat in
       r <- storeu r ctr (out o 3) ;;
       let ctr := (ctr + popcnt (Z.land (Z.shiftr good 24) 0xFF))%nat in
       ret (ctr, pos, r))
    (0%nat, 0%nat, r) ;;
  s <- while_ (S REJ_UNIFORM_AVX_BUFLEN)
    (fun s => let '(ctr, pos, r) := s in
       test_and (ctr <=? KYBER_N - 8)%nat (test (pos <=? REJ_UNIFORM_AVX_BUFLEN - 16)%nat))
    (fun s => let '(ctr, pos, r) := s in
       f <- load_bytes buf pos 16 ;;
       o <- exec_c rej_tail_a_bmi [f] [0; 2]%nat ;;
       let pos := (pos + 12)%nat in
       let good := Z.land (value (out o 1)) 0x5555 in
       let row := bits_of 64 (bmi_row good 0x1111111111111111) in
       o <- exec_c rej_tail_b [out o 0; row] [0]%nat ;;
       r <- storeu r ctr (out o 0) ;;
       let ctr := (ctr + popcnt good)%nat in
       ret (ctr, pos, r))
    s ;;
  '(ctr, pos, r) <- while_ (S REJ_UNIFORM_AVX_BUFLEN)
    (fun s => let '(ctr, pos, r) := s in
       test_and (ctr <? KYBER_N)%nat (test (pos <=? REJ_UNIFORM_AVX_BUFLEN - 3)%nat))
    (fun s => let '(ctr, pos, r) := s in
       (* val0 = ((buf[pos+0] >> 0) | ((uint16_t)buf[pos+1] << 8)) & 0xFFF; *)
       b0 <- aget buf (pos + 0) ;; x <- shr 32 b0 0 ;;
       b1 <- aget buf (pos + 1) ;; y <- ishl (u16 b1) 8 ;;
       let val0 := u16 (Z.land (Z.lor x y) 0xFFF) in
       (* val1 = ((buf[pos+1] >> 4) | ((uint16_t)buf[pos+2] << 4)); *)
       b1 <- aget buf (pos + 1) ;; x <- shr 32 b1 4 ;;
       b2 <- aget buf (pos + 2) ;; y <- ishl (u16 b2) 4 ;;
       let val1 := u16 (Z.lor x y) in
       let pos := (pos + 3)%nat in
       c <- test (val0 <? KYBER_Q) ;;
       '(ctr, r) <- (if (c : bool)
                     then (r <- aset r ctr (i16 val0) ;; ret (S ctr, r))
                     else ret (ctr, r)) ;;
       c <- test_and (val1 <? KYBER_Q) (test (ctr <? KYBER_N)%nat) ;;
       '(ctr, r) <- (if (c : bool)
                     then (r <- aset r ctr (i16 val1) ;; ret (S ctr, r))
                     else ret (ctr, r)) ;;
       ret (ctr, pos, r))
    s ;;
  ret (ctr, r).
