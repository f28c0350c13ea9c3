(** * The assembly of /repo/avx2 and its constant table, instruction by
    instruction.

    Every macro becomes a function from its register arguments to a list of
    instructions; a [call] of a local subroutine after [add $n,%reg] becomes
    the subroutine's list at the corresponding word offset.  [ret], the
    frame set-up of basemul_avx (basemul.S:88-90, 104: a 32-byte aligned
    32-byte scratch slot at (%rsp)) and the pointer arithmetic have no
    instruction of their own here. *)
From Coq Require Import ZArith List Bool.
From Verif Require Import CMonad Model_Params Model_AvxAsm.
Import ListNotations.

(** avx2/consts.h:6-17: word offsets of the sub-tables in qdata. *)
Definition _16XQ : nat := 0.
Definition _16XQINV : nat := 16.
Definition _16XV : nat := 32.
Definition _16XFLO : nat := 48.
Definition _16XFHI : nat := 64.
Definition _16XMONTSQLO : nat := 80.
Definition _16XMONTSQHI : nat := 96.
Definition _16XMASK : nat := 112.
Definition _REVIDXB : nat := 128.
Definition _REVIDXD : nat := 144.
Definition _ZETAS_EXP : nat := 160.
Definition _16XSHIFT : nat := 624.

Open Scope nat_scope.
(** ** fq.inc *)

(** avx2/fq.inc:1-10 (macro; no caller passes [rs], so only the [.else] branch
    is kept) *)
Definition red16 (r x : nat) : list instr :=
  [vpmulhw (Y 1) r x;
     vpsraw 10 x x;
     vpmullw (Y 0) x x;
     vpsubw (Y x) r r].

(** avx2/fq.inc:12-17 macro *)
Definition csubq (r x : nat) : list instr :=
  [vpsubw (Y 0) r r;
     vpsraw 15 r x;
     vpand (Y 0) x x;
     vpaddw (Y x) r r].

(** avx2/fq.inc:19-23 macro *)
Definition caddq (r x : nat) : list instr :=
  [vpsraw 15 r x;
     vpand (Y 0) x x;
     vpaddw (Y x) r r].

(** avx2/fq.inc:25-30 macro *)
Definition fqmulprecomp (al ah b x : nat) : list instr :=
  [vpmullw (Y al) b x;
     vpmulhw (Y ah) b b;
     vpmulhw (Y 0) x x;
     vpsubw (Y x) b b].

(** ** shuffle.inc *)

(** avx2/shuffle.inc:1-4 macro *)
Definition shuffle8 (r0 r1 r2 r3 : nat) : list instr :=
  [vperm2i128 32 r1 r0 r2;
     vperm2i128 49 r1 r0 r3].

(** avx2/shuffle.inc:6-9 macro *)
Definition shuffle4 (r0 r1 r2 r3 : nat) : list instr :=
  [vpunpcklqdq r1 r0 r2;
     vpunpckhqdq r1 r0 r3].

(** avx2/shuffle.inc:11-18 macro *)
Definition shuffle2 (r0 r1 r2 r3 : nat) : list instr :=
  [vmovsldup r1 r2;
     vpblendd 170 r2 r0 r2;
     vpsrlq 32 r0 r0;
     vpblendd 170 r1 r0 r3].

(** avx2/shuffle.inc:20-25 macro *)
Definition shuffle1 (r0 r1 r2 r3 : nat) : list instr :=
  [vpslld 16 r1 r2;
     vpblendw 170 r2 r0 r2;
     vpsrld 16 r0 r0;
     vpblendw 170 r1 r0 r3].

(** ** ntt.S *)

(** avx2/ntt.S:4-16 macro *)
Definition mul_ (rh0 rh1 rh2 rh3 zl0 zl1 zh0 zh1 : nat) : list instr :=
  [vpmullw (Y zl0) rh0 12;
     vpmullw (Y zl0) rh1 13;
     vpmullw (Y zl1) rh2 14;
     vpmullw (Y zl1) rh3 15;
     vpmulhw (Y zh0) rh0 rh0;
     vpmulhw (Y zh0) rh1 rh1;
     vpmulhw (Y zh1) rh2 rh2;
     vpmulhw (Y zh1) rh3 rh3].

(** avx2/ntt.S:18-24 macro *)
Definition reduce_ : list instr :=
  [vpmulhw (Y 0) 12 12;
     vpmulhw (Y 0) 13 13;
     vpmulhw (Y 0) 14 14;
     vpmulhw (Y 0) 15 15].

(** avx2/ntt.S:26-48 macro *)
Definition update_ (rln rl0 rl1 rl2 rl3 rh0 rh1 rh2 rh3 : nat) : list instr :=
  [vpaddw (Y rh0) rl0 rln;
     vpsubw (Y rh0) rl0 rh0;
     vpaddw (Y rh1) rl1 rl0;
     vpsubw (Y rh1) rl1 rh1;
     vpaddw (Y rh2) rl2 rl1;
     vpsubw (Y rh2) rl2 rh2;
     vpaddw (Y rh3) rl3 rl2;
     vpsubw (Y rh3) rl3 rh3;
     vpsubw (Y 12) rln rln;
     vpaddw (Y 12) rh0 rh0;
     vpsubw (Y 13) rl0 rl0;
     vpaddw (Y 13) rh1 rh1;
     vpsubw (Y 14) rl1 rl1;
     vpaddw (Y 14) rh2 rh2;
     vpsubw (Y 15) rl2 rl2;
     vpaddw (Y 15) rh3 rh3].

(** avx2/ntt.S:50-76 macro *)
Definition level0 (off : nat) : list instr :=
  [vpbroadcastq rsi (_ZETAS_EXP+0) 15;
     vmovdqa_load rdi (64*off+128) 8;
     vmovdqa_load rdi (64*off+144) 9;
     vmovdqa_load rdi (64*off+160) 10;
     vmovdqa_load rdi (64*off+176) 11;
     vpbroadcastq rsi (_ZETAS_EXP+4) 2]
  ++ mul_ 8 9 10 11 15 15 2 2
  ++ [vmovdqa_load rdi (64*off+ 0) 4;
     vmovdqa_load rdi (64*off+ 16) 5;
     vmovdqa_load rdi (64*off+ 32) 6;
     vmovdqa_load rdi (64*off+ 48) 7]
  ++ reduce_
  ++ update_ 3 4 5 6 7 8 9 10 11
  ++ [vmovdqa_store 3 rdi (64*off+ 0);
     vmovdqa_store 4 rdi (64*off+ 16);
     vmovdqa_store 5 rdi (64*off+ 32);
     vmovdqa_store 6 rdi (64*off+ 48);
     vmovdqa_store 8 rdi (64*off+128);
     vmovdqa_store 9 rdi (64*off+144);
     vmovdqa_store 10 rdi (64*off+160);
     vmovdqa_store 11 rdi (64*off+176)].

(** avx2/ntt.S:78-176 macro *)
Definition levels1t6 (off : nat) : list instr :=
  [vmovdqa_load rsi (_ZETAS_EXP+224*off+16) 15;
     vmovdqa_load rdi (128*off+ 64) 8;
     vmovdqa_load rdi (128*off+ 80) 9;
     vmovdqa_load rdi (128*off+ 96) 10;
     vmovdqa_load rdi (128*off+112) 11;
     vmovdqa_load rsi (_ZETAS_EXP+224*off+32) 2]
  ++ mul_ 8 9 10 11 15 15 2 2
  ++ [vmovdqa_load rdi (128*off+ 0) 4;
     vmovdqa_load rdi (128*off+ 16) 5;
     vmovdqa_load rdi (128*off+ 32) 6;
     vmovdqa_load rdi (128*off+ 48) 7]
  ++ reduce_
  ++ update_ 3 4 5 6 7 8 9 10 11
  ++ shuffle8 5 10 7 10
  ++ shuffle8 6 11 5 11
  ++ [vmovdqa_load rsi (_ZETAS_EXP+224*off+48) 15;
     vmovdqa_load rsi (_ZETAS_EXP+224*off+64) 2]
  ++ mul_ 7 10 5 11 15 15 2 2
  ++ shuffle8 3 8 6 8
  ++ shuffle8 4 9 3 9
  ++ reduce_
  ++ update_ 4 6 8 3 9 7 10 5 11
  ++ shuffle4 8 5 9 5
  ++ shuffle4 3 11 8 11
  ++ [vmovdqa_load rsi (_ZETAS_EXP+224*off+80) 15;
     vmovdqa_load rsi (_ZETAS_EXP+224*off+96) 2]
  ++ mul_ 9 5 8 11 15 15 2 2
  ++ shuffle4 4 7 3 7
  ++ shuffle4 6 10 4 10
  ++ reduce_
  ++ update_ 6 3 7 4 10 9 5 8 11
  ++ shuffle2 7 8 10 8
  ++ shuffle2 4 11 7 11
  ++ [vmovdqa_load rsi (_ZETAS_EXP+224*off+112) 15;
     vmovdqa_load rsi (_ZETAS_EXP+224*off+128) 2]
  ++ mul_ 10 8 7 11 15 15 2 2
  ++ shuffle2 6 9 4 9
  ++ shuffle2 3 5 6 5
  ++ reduce_
  ++ update_ 3 4 9 6 5 10 8 7 11
  ++ shuffle1 9 7 5 7
  ++ shuffle1 6 11 9 11
  ++ [vmovdqa_load rsi (_ZETAS_EXP+224*off+144) 15;
     vmovdqa_load rsi (_ZETAS_EXP+224*off+160) 2]
  ++ mul_ 5 7 9 11 15 15 2 2
  ++ shuffle1 3 10 6 10
  ++ shuffle1 4 8 3 8
  ++ reduce_
  ++ update_ 4 6 10 3 8 5 7 9 11
  ++ [vmovdqa_load rsi (_ZETAS_EXP+224*off+176) 14;
     vmovdqa_load rsi (_ZETAS_EXP+224*off+208) 15;
     vmovdqa_load rsi (_ZETAS_EXP+224*off+192) 8;
     vmovdqa_load rsi (_ZETAS_EXP+224*off+224) 2]
  ++ mul_ 10 3 9 11 14 15 8 2
  ++ reduce_
  ++ update_ 8 4 6 5 7 10 3 9 11
  ++ [vmovdqa_store 8 rdi (128*off+ 0);
     vmovdqa_store 4 rdi (128*off+ 16);
     vmovdqa_store 10 rdi (128*off+ 32);
     vmovdqa_store 3 rdi (128*off+ 48);
     vmovdqa_store 6 rdi (128*off+ 64);
     vmovdqa_store 5 rdi (128*off+ 80);
     vmovdqa_store 9 rdi (128*off+ 96);
     vmovdqa_store 11 rdi (128*off+112)].

(** avx2/ntt.S:180-189 *)
Definition ntt_avx_code : list instr :=
  [vmovdqa_load rsi _16XQ 0]
  ++ level0 0
  ++ level0 1
  ++ levels1t6 0
  ++ levels1t6 1.

(** ** invntt.S *)

(** avx2/invntt.S:5-45 macro *)
Definition butterfly (rl0 rl1 rl2 rl3 rh0 rh1 rh2 rh3 zl0 zl1 zh0 zh1 : nat) : list instr :=
  [vpsubw (Y rl0) rh0 12;
     vpaddw (Y rh0) rl0 rl0;
     vpsubw (Y rl1) rh1 13;
     vpmullw (Y zl0) 12 rh0;
     vpaddw (Y rh1) rl1 rl1;
     vpsubw (Y rl2) rh2 14;
     vpmullw (Y zl0) 13 rh1;
     vpaddw (Y rh2) rl2 rl2;
     vpsubw (Y rl3) rh3 15;
     vpmullw (Y zl1) 14 rh2;
     vpaddw (Y rh3) rl3 rl3;
     vpmullw (Y zl1) 15 rh3;
     vpmulhw (Y zh0) 12 12;
     vpmulhw (Y zh0) 13 13;
     vpmulhw (Y zh1) 14 14;
     vpmulhw (Y zh1) 15 15;
     vpmulhw (Y 0) rh0 rh0;
     vpmulhw (Y 0) rh1 rh1;
     vpmulhw (Y 0) rh2 rh2;
     vpmulhw (Y 0) rh3 rh3;
     vpsubw (Y rh0) 12 rh0;
     vpsubw (Y rh1) 13 rh1;
     vpsubw (Y rh2) 14 rh2;
     vpsubw (Y rh3) 15 rh3].

(** avx2/invntt.S:47-151 macro *)
Definition intt_levels0t5 (off : nat) : list instr :=
  [vmovdqa_load rsi _16XFLO 2;
     vmovdqa_load rsi _16XFHI 3;
     vmovdqa_load rdi (128*off+ 0) 4;
     vmovdqa_load rdi (128*off+ 32) 6;
     vmovdqa_load rdi (128*off+ 16) 5;
     vmovdqa_load rdi (128*off+ 48) 7]
  ++ fqmulprecomp 2 3 4 12
  ++ fqmulprecomp 2 3 6 12
  ++ fqmulprecomp 2 3 5 12
  ++ fqmulprecomp 2 3 7 12
  ++ [vmovdqa_load rdi (128*off+ 64) 8;
     vmovdqa_load rdi (128*off+ 96) 10;
     vmovdqa_load rdi (128*off+ 80) 9;
     vmovdqa_load rdi (128*off+112) 11]
  ++ fqmulprecomp 2 3 8 12
  ++ fqmulprecomp 2 3 10 12
  ++ fqmulprecomp 2 3 9 12
  ++ fqmulprecomp 2 3 11 12
  ++ [vpermq 78 (M rsi (_ZETAS_EXP+(1-off)*224+208)) 15;
     vpermq 78 (M rsi (_ZETAS_EXP+(1-off)*224+176)) 1;
     vpermq 78 (M rsi (_ZETAS_EXP+(1-off)*224+224)) 2;
     vpermq 78 (M rsi (_ZETAS_EXP+(1-off)*224+192)) 3;
     vmovdqa_load rsi _REVIDXB 12;
     vpshufb 12 15 15;
     vpshufb 12 1 1;
     vpshufb 12 2 2;
     vpshufb 12 3 3]
  ++ butterfly 4 5 8 9 6 7 10 11 15 1 2 3
  ++ [vpermq 78 (M rsi (_ZETAS_EXP+(1-off)*224+144)) 2;
     vpermq 78 (M rsi (_ZETAS_EXP+(1-off)*224+160)) 3;
     vmovdqa_load rsi _REVIDXB 1;
     vpshufb 1 2 2;
     vpshufb 1 3 3]
  ++ butterfly 4 5 6 7 8 9 10 11 2 2 3 3
  ++ shuffle1 4 5 3 5
  ++ shuffle1 6 7 4 7
  ++ shuffle1 8 9 6 9
  ++ shuffle1 10 11 8 11
  ++ [vmovdqa_load rsi _REVIDXD 12;
     vpermd (M rsi (_ZETAS_EXP+(1-off)*224+112)) 12 2;
     vpermd (M rsi (_ZETAS_EXP+(1-off)*224+128)) 12 10]
  ++ butterfly 3 4 6 8 5 7 9 11 2 2 10 10
  ++ [vmovdqa_load rsi _16XV 1]
  ++ red16 3 12
  ++ shuffle2 3 4 10 4
  ++ shuffle2 6 8 3 8
  ++ shuffle2 5 7 6 7
  ++ shuffle2 9 11 5 11
  ++ [vpermq 27 (M rsi (_ZETAS_EXP+(1-off)*224+80)) 2;
     vpermq 27 (M rsi (_ZETAS_EXP+(1-off)*224+96)) 9]
  ++ butterfly 10 3 6 5 4 8 7 11 2 2 9 9
  ++ shuffle4 10 3 9 3
  ++ shuffle4 6 5 10 5
  ++ shuffle4 4 8 6 8
  ++ shuffle4 7 11 4 11
  ++ [vpermq 78 (M rsi (_ZETAS_EXP+(1-off)*224+48)) 2;
     vpermq 78 (M rsi (_ZETAS_EXP+(1-off)*224+64)) 7]
  ++ butterfly 9 10 6 4 3 5 8 11 2 2 7 7
  ++ red16 9 12
  ++ shuffle8 9 10 7 10
  ++ shuffle8 6 4 9 4
  ++ shuffle8 3 5 6 5
  ++ shuffle8 8 11 3 11
  ++ [vmovdqa_load rsi (_ZETAS_EXP+(1-off)*224+16) 2;
     vmovdqa_load rsi (_ZETAS_EXP+(1-off)*224+32) 8]
  ++ butterfly 7 9 6 3 10 4 5 11 2 2 8 8
  ++ [vmovdqa_store 7 rdi (128*off+ 0);
     vmovdqa_store 9 rdi (128*off+ 16);
     vmovdqa_store 6 rdi (128*off+ 32);
     vmovdqa_store 3 rdi (128*off+ 48);
     vmovdqa_store 10 rdi (128*off+ 64);
     vmovdqa_store 4 rdi (128*off+ 80);
     vmovdqa_store 5 rdi (128*off+ 96);
     vmovdqa_store 11 rdi (128*off+112)].

(** avx2/invntt.S:153-181 macro *)
Definition intt_level6 (off : nat) : list instr :=
  [vmovdqa_load rdi (64*off+ 0) 4;
     vmovdqa_load rdi (64*off+128) 8;
     vmovdqa_load rdi (64*off+ 16) 5;
     vmovdqa_load rdi (64*off+144) 9;
     vpbroadcastq rsi (_ZETAS_EXP+0) 2;
     vmovdqa_load rdi (64*off+ 32) 6;
     vmovdqa_load rdi (64*off+160) 10;
     vmovdqa_load rdi (64*off+ 48) 7;
     vmovdqa_load rdi (64*off+176) 11;
     vpbroadcastq rsi (_ZETAS_EXP+4) 3]
  ++ butterfly 4 5 6 7 8 9 10 11 2 2 3 3
  ++ (if off =? 0 then red16 4 12 else [])
  ++ [vmovdqa_store 4 rdi (64*off+ 0);
     vmovdqa_store 5 rdi (64*off+ 16);
     vmovdqa_store 6 rdi (64*off+ 32);
     vmovdqa_store 7 rdi (64*off+ 48);
     vmovdqa_store 8 rdi (64*off+128);
     vmovdqa_store 9 rdi (64*off+144);
     vmovdqa_store 10 rdi (64*off+160);
     vmovdqa_store 11 rdi (64*off+176)].

(** avx2/invntt.S:185-193 *)
Definition invntt_avx_code : list instr :=
  [vmovdqa_load rsi _16XQ 0]
  ++ intt_levels0t5 0
  ++ intt_levels0t5 1
  ++ intt_level6 0
  ++ intt_level6 1.

(** ** basemul.S *)

(** avx2/basemul.S:3-83 macro; [r9] is the word offset held in %r9 relative to
    %rcx *)
Definition schoolbook (off r9 : nat) : list instr :=
  [vmovdqa_load rcx _16XQINV 0;
     vmovdqa_load rsi (64*off+ 0) 1;
     vmovdqa_load rsi (64*off+16) 2;
     vmovdqa_load rsi (64*off+32) 3;
     vmovdqa_load rsi (64*off+48) 4;
     vpmullw (Y 0) 1 9;
     vpmullw (Y 0) 2 10;
     vpmullw (Y 0) 3 11;
     vpmullw (Y 0) 4 12;
     vmovdqa_load rdx (64*off+ 0) 5;
     vmovdqa_load rdx (64*off+16) 6;
     vpmulhw (Y 5) 1 13;
     vpmulhw (Y 6) 1 1;
     vpmulhw (Y 5) 2 14;
     vpmulhw (Y 6) 2 2;
     vmovdqa_load rdx (64*off+32) 7;
     vmovdqa_load rdx (64*off+48) 8;
     vpmulhw (Y 7) 3 15;
     vpmulhw (Y 8) 3 3;
     vpmulhw (Y 7) 4 0;
     vpmulhw (Y 8) 4 4;
     vmovdqa_store 13 rsp 0;
     vpmullw (Y 5) 9 13;
     vpmullw (Y 6) 9 9;
     vpmullw (Y 5) 10 5;
     vpmullw (Y 6) 10 10;
     vpmullw (Y 7) 11 6;
     vpmullw (Y 8) 11 11;
     vpmullw (Y 7) 12 7;
     vpmullw (Y 8) 12 12;
     vmovdqa_load rcx _16XQ 8;
     vpmulhw (Y 8) 13 13;
     vpmulhw (Y 8) 9 9;
     vpmulhw (Y 8) 5 5;
     vpmulhw (Y 8) 10 10;
     vpmulhw (Y 8) 6 6;
     vpmulhw (Y 8) 11 11;
     vpmulhw (Y 8) 7 7;
     vpmulhw (Y 8) 12 12;
     vpsubw (M rsp 0) 13 13;
     vpsubw (Y 9) 1 9;
     vpsubw (Y 5) 14 5;
     vpsubw (Y 10) 2 10;
     vpsubw (Y 6) 15 6;
     vpsubw (Y 11) 3 11;
     vpsubw (Y 7) 0 7;
     vpsubw (Y 12) 4 12;
     vmovdqa_load rcx (r9 + 0) 0;
     vmovdqa_load rcx (r9 + 16) 1;
     vpmullw (Y 0) 10 2;
     vpmullw (Y 0) 12 3;
     vpmulhw (Y 1) 10 10;
     vpmulhw (Y 1) 12 12;
     vpmulhw (Y 8) 2 2;
     vpmulhw (Y 8) 3 3;
     vpsubw (Y 2) 10 10;
     vpsubw (Y 3) 12 12;
     vpaddw (Y 5) 9 9;
     vpaddw (Y 7) 11 11;
     vpsubw (Y 13) 10 13;
     vpsubw (Y 12) 6 6;
     vmovdqa_store 13 rdi (64*off+ 0);
     vmovdqa_store 9 rdi (64*off+16);
     vmovdqa_store 6 rdi (64*off+32);
     vmovdqa_store 11 rdi (64*off+48)].

(** avx2/basemul.S:87-105 *)
Definition basemul_avx_code : list instr :=
  schoolbook 0 (_ZETAS_EXP+176)
  ++ schoolbook 1 (_ZETAS_EXP+176 + 32)
  ++ schoolbook 2 (_ZETAS_EXP+176 + 32 + 192)
  ++ schoolbook 3 (_ZETAS_EXP+176 + 32 + 192 + 32).

(** ** fq.S *)

(** avx2/fq.S:5-35; [rdi_] is the word offset of %rdi from the start of its
    object *)
Definition reduce128_avx (rdi_ : nat) : list instr :=
  [vmovdqa_load rdi (rdi_ + 0) 2;
     vmovdqa_load rdi (rdi_ + 16) 3;
     vmovdqa_load rdi (rdi_ + 32) 4;
     vmovdqa_load rdi (rdi_ + 48) 5;
     vmovdqa_load rdi (rdi_ + 64) 6;
     vmovdqa_load rdi (rdi_ + 80) 7;
     vmovdqa_load rdi (rdi_ + 96) 8;
     vmovdqa_load rdi (rdi_ + 112) 9]
  ++ red16 2 12
  ++ red16 3 12
  ++ red16 4 12
  ++ red16 5 12
  ++ red16 6 12
  ++ red16 7 12
  ++ red16 8 12
  ++ red16 9 12
  ++ [vmovdqa_store 2 rdi (rdi_ + 0);
     vmovdqa_store 3 rdi (rdi_ + 16);
     vmovdqa_store 4 rdi (rdi_ + 32);
     vmovdqa_store 5 rdi (rdi_ + 48);
     vmovdqa_store 6 rdi (rdi_ + 64);
     vmovdqa_store 7 rdi (rdi_ + 80);
     vmovdqa_store 8 rdi (rdi_ + 96);
     vmovdqa_store 9 rdi (rdi_ + 112)].

(** avx2/fq.S:38-45 *)
Definition reduce_avx_code : list instr :=
  [vmovdqa_load rsi _16XQ 0;
     vmovdqa_load rsi _16XV 1]
  ++ reduce128_avx 0
  ++ reduce128_avx 128.

(** avx2/fq.S:47-77; [rdi_] is the word offset of %rdi from the start of its
    object *)
Definition tomont128_avx (rdi_ : nat) : list instr :=
  [vmovdqa_load rdi (rdi_ + 0) 3;
     vmovdqa_load rdi (rdi_ + 16) 4;
     vmovdqa_load rdi (rdi_ + 32) 5;
     vmovdqa_load rdi (rdi_ + 48) 6;
     vmovdqa_load rdi (rdi_ + 64) 7;
     vmovdqa_load rdi (rdi_ + 80) 8;
     vmovdqa_load rdi (rdi_ + 96) 9;
     vmovdqa_load rdi (rdi_ + 112) 10]
  ++ fqmulprecomp 1 2 3 11
  ++ fqmulprecomp 1 2 4 12
  ++ fqmulprecomp 1 2 5 13
  ++ fqmulprecomp 1 2 6 14
  ++ fqmulprecomp 1 2 7 15
  ++ fqmulprecomp 1 2 8 11
  ++ fqmulprecomp 1 2 9 12
  ++ fqmulprecomp 1 2 10 13
  ++ [vmovdqa_store 3 rdi (rdi_ + 0);
     vmovdqa_store 4 rdi (rdi_ + 16);
     vmovdqa_store 5 rdi (rdi_ + 32);
     vmovdqa_store 6 rdi (rdi_ + 48);
     vmovdqa_store 7 rdi (rdi_ + 64);
     vmovdqa_store 8 rdi (rdi_ + 80);
     vmovdqa_store 9 rdi (rdi_ + 96);
     vmovdqa_store 10 rdi (rdi_ + 112)].

(** avx2/fq.S:80-88 *)
Definition tomont_avx_code : list instr :=
  [vmovdqa_load rsi _16XQ 0;
     vmovdqa_load rsi _16XMONTSQLO 1;
     vmovdqa_load rsi _16XMONTSQHI 2]
  ++ tomont128_avx 0
  ++ tomont128_avx 128.

(** ** shuffle.S *)

(** avx2/shuffle.S:51-92; [rdi_] is the word offset of %rdi from the start of
    its object *)
Definition nttunpack128_avx (rdi_ : nat) : list instr :=
  [vmovdqa_load rdi (rdi_ + 0) 4;
     vmovdqa_load rdi (rdi_ + 16) 5;
     vmovdqa_load rdi (rdi_ + 32) 6;
     vmovdqa_load rdi (rdi_ + 48) 7;
     vmovdqa_load rdi (rdi_ + 64) 8;
     vmovdqa_load rdi (rdi_ + 80) 9;
     vmovdqa_load rdi (rdi_ + 96) 10;
     vmovdqa_load rdi (rdi_ + 112) 11]
  ++ shuffle8 4 8 3 8
  ++ shuffle8 5 9 4 9
  ++ shuffle8 6 10 5 10
  ++ shuffle8 7 11 6 11
  ++ shuffle4 3 5 7 5
  ++ shuffle4 8 10 3 10
  ++ shuffle4 4 6 8 6
  ++ shuffle4 9 11 4 11
  ++ shuffle2 7 8 9 8
  ++ shuffle2 5 6 7 6
  ++ shuffle2 3 4 5 4
  ++ shuffle2 10 11 3 11
  ++ shuffle1 9 5 10 5
  ++ shuffle1 8 4 9 4
  ++ shuffle1 7 3 8 3
  ++ shuffle1 6 11 7 11
  ++ [vmovdqa_store 10 rdi (rdi_ + 0);
     vmovdqa_store 5 rdi (rdi_ + 16);
     vmovdqa_store 9 rdi (rdi_ + 32);
     vmovdqa_store 4 rdi (rdi_ + 48);
     vmovdqa_store 8 rdi (rdi_ + 64);
     vmovdqa_store 3 rdi (rdi_ + 80);
     vmovdqa_store 7 rdi (rdi_ + 96);
     vmovdqa_store 11 rdi (rdi_ + 112)].

(** avx2/shuffle.S:95-99 *)
Definition nttunpack_avx_code : list instr :=
  nttunpack128_avx 0
  ++ nttunpack128_avx 128.

(** avx2/shuffle.S:101-169; [rdi_] is the word offset of %rdi from the start
    of its object, [rsi_] is the word offset of %rsi from the start of its
    object *)
Definition ntttobytes128_avx (rdi_ rsi_ : nat) : list instr :=
  [vmovdqa_load rsi (rsi_ + 0) 5;
     vmovdqa_load rsi (rsi_ + 16) 6;
     vmovdqa_load rsi (rsi_ + 32) 7;
     vmovdqa_load rsi (rsi_ + 48) 8;
     vmovdqa_load rsi (rsi_ + 64) 9;
     vmovdqa_load rsi (rsi_ + 80) 10;
     vmovdqa_load rsi (rsi_ + 96) 11;
     vmovdqa_load rsi (rsi_ + 112) 12]
  ++ csubq 5 13
  ++ csubq 6 13
  ++ csubq 7 13
  ++ csubq 8 13
  ++ csubq 9 13
  ++ csubq 10 13
  ++ csubq 11 13
  ++ csubq 12 13
  ++ [vpsllw 12 6 4;
     vpor (Y 4) 5 4;
     vpsrlw 4 6 5;
     vpsllw 8 7 6;
     vpor (Y 5) 6 5;
     vpsrlw 8 7 6;
     vpsllw 4 8 7;
     vpor (Y 6) 7 6;
     vpsllw 12 10 7;
     vpor (Y 7) 9 7;
     vpsrlw 4 10 8;
     vpsllw 8 11 9;
     vpor (Y 8) 9 8;
     vpsrlw 8 11 9;
     vpsllw 4 12 10;
     vpor (Y 9) 10 9]
  ++ shuffle1 4 5 3 5
  ++ shuffle1 6 7 4 7
  ++ shuffle1 8 9 6 9
  ++ shuffle2 3 4 8 4
  ++ shuffle2 6 5 3 5
  ++ shuffle2 7 9 6 9
  ++ shuffle4 8 3 7 3
  ++ shuffle4 6 4 8 4
  ++ shuffle4 5 9 6 9
  ++ shuffle8 7 8 5 8
  ++ shuffle8 6 3 7 3
  ++ shuffle8 4 9 6 9
  ++ [vmovdqu_store 5 rdi (rdi_ + 0);
     vmovdqu_store 7 rdi (rdi_ + 16);
     vmovdqu_store 6 rdi (rdi_ + 32);
     vmovdqu_store 8 rdi (rdi_ + 48);
     vmovdqu_store 3 rdi (rdi_ + 64);
     vmovdqu_store 9 rdi (rdi_ + 80)].

(** avx2/shuffle.S:172-179 *)
Definition ntttobytes_avx_code : list instr :=
  [vmovdqa_load rdx _16XQ 0]
  ++ ntttobytes128_avx 0 0
  ++ ntttobytes128_avx 96 128.

(** avx2/shuffle.S:181-245; [rdi_] is the word offset of %rdi from the start
    of its object, [rsi_] is the word offset of %rsi from the start of its
    object *)
Definition nttfrombytes128_avx (rdi_ rsi_ : nat) : list instr :=
  [vmovdqu_load rsi (rsi_ + 0) 4;
     vmovdqu_load rsi (rsi_ + 16) 5;
     vmovdqu_load rsi (rsi_ + 32) 6;
     vmovdqu_load rsi (rsi_ + 48) 7;
     vmovdqu_load rsi (rsi_ + 64) 8;
     vmovdqu_load rsi (rsi_ + 80) 9]
  ++ shuffle8 4 7 3 7
  ++ shuffle8 5 8 4 8
  ++ shuffle8 6 9 5 9
  ++ shuffle4 3 8 6 8
  ++ shuffle4 7 5 3 5
  ++ shuffle4 4 9 7 9
  ++ shuffle2 6 5 4 5
  ++ shuffle2 8 7 6 7
  ++ shuffle2 3 9 8 9
  ++ shuffle1 4 7 10 7
  ++ shuffle1 5 8 4 8
  ++ shuffle1 6 9 5 9
  ++ [vpsrlw 12 10 11;
     vpsllw 4 7 12;
     vpor (Y 11) 12 11;
     vpand (Y 0) 10 10;
     vpand (Y 0) 11 11;
     vpsrlw 8 7 12;
     vpsllw 8 4 13;
     vpor (Y 12) 13 12;
     vpand (Y 0) 12 12;
     vpsrlw 4 4 13;
     vpand (Y 0) 13 13;
     vpsrlw 12 8 14;
     vpsllw 4 5 15;
     vpor (Y 14) 15 14;
     vpand (Y 0) 8 8;
     vpand (Y 0) 14 14;
     vpsrlw 8 5 15;
     vpsllw 8 9 1;
     vpor (Y 15) 1 15;
     vpand (Y 0) 15 15;
     vpsrlw 4 9 1;
     vpand (Y 0) 1 1;
     vmovdqa_store 10 rdi (rdi_ + 0);
     vmovdqa_store 11 rdi (rdi_ + 16);
     vmovdqa_store 12 rdi (rdi_ + 32);
     vmovdqa_store 13 rdi (rdi_ + 48);
     vmovdqa_store 8 rdi (rdi_ + 64);
     vmovdqa_store 14 rdi (rdi_ + 80);
     vmovdqa_store 15 rdi (rdi_ + 96);
     vmovdqa_store 1 rdi (rdi_ + 112)].

(** avx2/shuffle.S:248-255 *)
Definition nttfrombytes_avx_code : list instr :=
  [vmovdqa_load rdx _16XMASK 0]
  ++ nttfrombytes128_avx 0 0
  ++ nttfrombytes128_avx 128 96.


Open Scope Z_scope.
(** avx2/consts.c:5-14. *)
Definition QD_Q : Z := KYBER_Q.
Definition QD_MONT : Z := -1044.
Definition QD_QINV : Z := -3327.
Definition QD_V : Z := 20159.
Definition QD_FHI : Z := 1441.
Definition QD_FLO : Z := -10079.
Definition QD_MONTSQHI : Z := 1353.
Definition QD_MONTSQLO : Z := 20553.
Definition QD_MASK : Z := 4095.
Definition QD_SHIFT : Z := 32.

(** avx2/consts.c:16-121. *)
Definition qdata : list Z :=
  [
  QD_Q; QD_Q; QD_Q; QD_Q; QD_Q; QD_Q; QD_Q; QD_Q;
  QD_Q; QD_Q; QD_Q; QD_Q; QD_Q; QD_Q; QD_Q; QD_Q;
  QD_QINV; QD_QINV; QD_QINV; QD_QINV; QD_QINV; QD_QINV; QD_QINV; QD_QINV;
  QD_QINV; QD_QINV; QD_QINV; QD_QINV; QD_QINV; QD_QINV; QD_QINV; QD_QINV;
  QD_V; QD_V; QD_V; QD_V; QD_V; QD_V; QD_V; QD_V;
  QD_V; QD_V; QD_V; QD_V; QD_V; QD_V; QD_V; QD_V;
  QD_FLO; QD_FLO; QD_FLO; QD_FLO; QD_FLO; QD_FLO; QD_FLO; QD_FLO;
  QD_FLO; QD_FLO; QD_FLO; QD_FLO; QD_FLO; QD_FLO; QD_FLO; QD_FLO;
  QD_FHI; QD_FHI; QD_FHI; QD_FHI; QD_FHI; QD_FHI; QD_FHI; QD_FHI;
  QD_FHI; QD_FHI; QD_FHI; QD_FHI; QD_FHI; QD_FHI; QD_FHI; QD_FHI;
  QD_MONTSQLO; QD_MONTSQLO; QD_MONTSQLO; QD_MONTSQLO; QD_MONTSQLO; QD_MONTSQLO; QD_MONTSQLO; QD_MONTSQLO;
  QD_MONTSQLO; QD_MONTSQLO; QD_MONTSQLO; QD_MONTSQLO; QD_MONTSQLO; QD_MONTSQLO; QD_MONTSQLO; QD_MONTSQLO;
  QD_MONTSQHI; QD_MONTSQHI; QD_MONTSQHI; QD_MONTSQHI; QD_MONTSQHI; QD_MONTSQHI; QD_MONTSQHI; QD_MONTSQHI;
  QD_MONTSQHI; QD_MONTSQHI; QD_MONTSQHI; QD_MONTSQHI; QD_MONTSQHI; QD_MONTSQHI; QD_MONTSQHI; QD_MONTSQHI;
  QD_MASK; QD_MASK; QD_MASK; QD_MASK; QD_MASK; QD_MASK; QD_MASK; QD_MASK;
  QD_MASK; QD_MASK; QD_MASK; QD_MASK; QD_MASK; QD_MASK; QD_MASK; QD_MASK;
  3854; 3340; 2826; 2312; 1798; 1284; 770; 256;
  3854; 3340; 2826; 2312; 1798; 1284; 770; 256;
  7; 0; 6; 0; 5; 0; 4; 0;
  3; 0; 2; 0; 1; 0; 0; 0;
  31498; 31498; 31498; 31498; -758; -758; -758; -758;
  5237; 5237; 5237; 5237; 1397; 1397; 1397; 1397;
  14745; 14745; 14745; 14745; 14745; 14745; 14745; 14745;
  14745; 14745; 14745; 14745; 14745; 14745; 14745; 14745;
  -359; -359; -359; -359; -359; -359; -359; -359;
  -359; -359; -359; -359; -359; -359; -359; -359;
  13525; 13525; 13525; 13525; 13525; 13525; 13525; 13525;
  -12402; -12402; -12402; -12402; -12402; -12402; -12402; -12402;
  1493; 1493; 1493; 1493; 1493; 1493; 1493; 1493;
  1422; 1422; 1422; 1422; 1422; 1422; 1422; 1422;
  -20907; -20907; -20907; -20907; 27758; 27758; 27758; 27758;
  -3799; -3799; -3799; -3799; -15690; -15690; -15690; -15690;
  -171; -171; -171; -171; 622; 622; 622; 622;
  1577; 1577; 1577; 1577; 182; 182; 182; 182;
  -5827; -5827; 17363; 17363; -26360; -26360; -29057; -29057;
  5571; 5571; -1102; -1102; 21438; 21438; -26242; -26242;
  573; 573; -1325; -1325; 264; 264; 383; 383;
  -829; -829; 1458; 1458; -1602; -1602; -130; -130;
  -5689; -6516; 1496; 30967; -23565; 20179; 20710; 25080;
  -12796; 26616; 16064; -12442; 9134; -650; -25986; 27837;
  1223; 652; -552; 1015; -1293; 1491; -282; -1544;
  516; -8; -320; -666; -1618; -1162; 126; 1469;
  -335; -11477; -32227; 20494; -27738; 945; -14883; 6182;
  32010; 10631; 29175; -28762; -18486; 17560; -14430; -5276;
  -1103; 555; -1251; 1550; 422; 177; -291; 1574;
  -246; 1159; -777; -602; -1590; -872; 418; -156;
  11182; 13387; -14233; -21655; 13131; -4587; 23092; 5493;
  -32502; 30317; -18741; 12639; 20100; 18525; 19529; -12619;
  430; 843; 871; 105; 587; -235; -460; 1653;
  778; -147; 1483; 1119; 644; 349; 329; -75;
  787; 787; 787; 787; 787; 787; 787; 787;
  787; 787; 787; 787; 787; 787; 787; 787;
  -1517; -1517; -1517; -1517; -1517; -1517; -1517; -1517;
  -1517; -1517; -1517; -1517; -1517; -1517; -1517; -1517;
  28191; 28191; 28191; 28191; 28191; 28191; 28191; 28191;
  -16694; -16694; -16694; -16694; -16694; -16694; -16694; -16694;
  287; 287; 287; 287; 287; 287; 287; 287;
  202; 202; 202; 202; 202; 202; 202; 202;
  10690; 10690; 10690; 10690; 1358; 1358; 1358; 1358;
  -11202; -11202; -11202; -11202; 31164; 31164; 31164; 31164;
  962; 962; 962; 962; -1202; -1202; -1202; -1202;
  -1474; -1474; -1474; -1474; 1468; 1468; 1468; 1468;
  -28073; -28073; 24313; 24313; -10532; -10532; 8800; 8800;
  18426; 18426; 8859; 8859; 26675; 26675; -16163; -16163;
  -681; -681; 1017; 1017; 732; 732; 608; 608;
  -1542; -1542; 411; 411; -205; -205; -1571; -1571;
  19883; -28250; -15887; -8898; -28309; 9075; -30199; 18249;
  13426; 14017; -29156; -12757; 16832; 4311; -24155; -17915;
  -853; -90; -271; 830; 107; -1421; -247; -951;
  -398; 961; -1508; -725; 448; -1065; 677; -1275;
  -31183; 25435; -7382; 24391; -20927; 10946; 24214; 16989;
  10335; -7934; -22502; 10906; 31636; 28644; 23998; -17422;
  817; 603; 1322; -1465; -1215; 1218; -874; -1187;
  -1185; -1278; -1510; -870; -108; 996; 958; 1522;
  20297; 2146; 15355; -32384; -6280; -14903; -11044; 14469;
  -21498; -20198; 23210; -17442; -23860; -20257; 7756; 23132;
  1097; 610; -1285; 384; -136; -1335; 220; -1659;
  -1530; 794; -854; 478; -308; 991; -1460; 1628;
  QD_SHIFT; QD_SHIFT; QD_SHIFT; QD_SHIFT; QD_SHIFT; QD_SHIFT; QD_SHIFT; QD_SHIFT;
  QD_SHIFT; QD_SHIFT; QD_SHIFT; QD_SHIFT; QD_SHIFT; QD_SHIFT; QD_SHIFT; QD_SHIFT
  ].

(** ** The functions as seen from C *)
Open Scope Z_scope.

(** On entry the vector registers hold anything. *)
Definition regs0 `{Junk} : list (list Z) := repeat (local 16) 16.

Definition run_asm `{Junk} (code : list instr) (m : list (list Z)) : res (list Z) :=
  s <- run Zlanes code (St regs0 m) ;;
  match nth_error (mem s) 0 with Some r => ret r | None => UB OutOfBounds end.

(** avx2/ntt.h:8 *)
Definition ntt_avx `{Junk} (r : list Z) : res (list Z) := run_asm ntt_avx_code [r; qdata].
(** avx2/ntt.h:10 *)
Definition invntt_avx `{Junk} (r : list Z) : res (list Z) := run_asm invntt_avx_code [r; qdata].
(** avx2/ntt.h:15 *)
Definition nttunpack_avx `{Junk} (r : list Z) : res (list Z) :=
  run_asm nttunpack_avx_code [r; qdata].
(** avx2/ntt.h:18-21; the last object is the scratch slot on the stack. *)
Definition basemul_avx `{Junk} (r a b : list Z) : res (list Z) :=
  run_asm basemul_avx_code [r; a; b; qdata; local 16].
(** avx2/reduce.h:8 *)
Definition reduce_avx `{Junk} (r : list Z) : res (list Z) := run_asm reduce_avx_code [r; qdata].
(** avx2/reduce.h:10 *)
Definition tomont_avx `{Junk} (r : list Z) : res (list Z) := run_asm tomont_avx_code [r; qdata].

(** A byte buffer seen as 16-bit words, and back. *)
Fixpoint words_of_bytes (l : list Z) : list Z :=
  match l with
  | a :: b :: l' => i16 (a + 256 * b) :: words_of_bytes l'
  | _ => []
  end.
Fixpoint bytes_of_words (l : list Z) : list Z :=
  match l with
  | w :: l' => u16 w mod 256 :: u16 w / 256 :: bytes_of_words l'
  | [] => []
  end.

(** avx2/ntt.h:24; the 384 bytes at r + off are accessed by unaligned moves
    only, so the buffer may start anywhere. *)
Definition ntttobytes_avx `{Junk} (r : list Z) (off : nat) (a : list Z) : res (list Z) :=
  if (off + 384 <=? length r)%nat then
    w <- run_asm ntttobytes_avx_code
           [words_of_bytes (firstn 384 (skipn off r)); a; qdata] ;;
    ret (firstn off r ++ bytes_of_words w ++ skipn (off + 384) r)
  else UB OutOfBounds.
(** avx2/ntt.h:26 *)
Definition nttfrombytes_avx `{Junk} (r : list Z) (a : list Z) (off : nat) : res (list Z) :=
  if (off + 384 <=? length a)%nat then
    run_asm nttfrombytes_avx_code
      [r; words_of_bytes (firstn 384 (skipn off a)); qdata]
  else UB OutOfBounds.
