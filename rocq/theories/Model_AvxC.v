(** * The vectorised C functions of /repo/avx2: cbd.c, poly.c, polyvec.c,
    verify.c.

    Each loop body is a program of Model_AvxIntrin.v (variables are numbered;
    the first ones are the loaded vectors); the loop around it does the loads
    and stores.  Constant vectors are written as [K].  Names get the suffix
    [_avx2]; functions of avx2/ whose text equals that of ref/ are not repeated. *)
From Coq Require Import ZArith List Bool.
From Verif Require Import CMonad Model_Params Model_AvxIntrin Model_AvxCode.
Import ListNotations.
Open Scope Z_scope.
Open Scope cmonad_scope.
Local Coercion V : nat >-> expr.

(** [_mm256_load_si256(&qdata.vec[off/16])] *)
Definition qvec (off : nat) : list bool := bits_words 16 (firstn 16 (skipn off qdata)).
(** One element of the list of results of a program *)
Definition out (l : list (list bool)) (i : nat) : list bool := nth i l [].

(** ** avx2/cbd.c *)
(** Lines 26-49; variables f0 f1 f2 f3 *)
Definition cbd2_body : list stmt :=
  let f0 := 0%nat in let f1 := 1%nat in let f2 := 2%nat in let f3 := 3%nat in
  let mask55 := K (set1_epi32 0x55555555) in
  let mask33 := K (set1_epi32 0x33333333) in
  let mask03 := K (set1_epi32 0x03030303) in
  let mask0F := K (set1_epi32 0x0F0F0F0F) in
  [ f1 ~ mm256_srli_epi16 f0 1;
    f0 ~ mm256_and_si256 mask55 f0;
    f1 ~ mm256_and_si256 mask55 f1;
    f0 ~ mm256_add_epi8 f0 f1;

    f1 ~ mm256_srli_epi16 f0 2;
    f0 ~ mm256_and_si256 mask33 f0;
    f1 ~ mm256_and_si256 mask33 f1;
    f0 ~ mm256_add_epi8 f0 mask33;
    f0 ~ mm256_sub_epi8 f0 f1;

    f1 ~ mm256_srli_epi16 f0 4;
    f0 ~ mm256_and_si256 mask0F f0;
    f1 ~ mm256_and_si256 mask0F f1;
    f0 ~ mm256_sub_epi8 f0 mask03;
    f1 ~ mm256_sub_epi8 f1 mask03;

    f2 ~ mm256_unpacklo_epi8 f0 f1;
    f3 ~ mm256_unpackhi_epi8 f0 f1;

    f0 ~ mm256_cvtepi8_epi16 (mm256_castsi256_si128 f2);
    f1 ~ mm256_cvtepi8_epi16 (mm256_extracti128_si256 f2 1);
    f2 ~ mm256_cvtepi8_epi16 (mm256_castsi256_si128 f3);
    f3 ~ mm256_cvtepi8_epi16 (mm256_extracti128_si256 f3 1) ].

(** avx2/cbd.c:16-58.  [buf] is a byte array accessed by whole vectors. *)
Definition cbd2_avx2 (r buf : list Z) : res (list Z) :=
  for_ 4 0 (fun i r =>
    f <- load_bytes buf (32 * i) 32 ;;
    o <- exec_c cbd2_body [f] [0; 1; 2; 3]%nat ;;
    r <- store_vec r (4 * i + 0) (out o 0) ;;
    r <- store_vec r (4 * i + 1) (out o 2) ;;
    r <- store_vec r (4 * i + 2) (out o 1) ;;
    store_vec r (4 * i + 3) (out o 3)) r.

(** Lines 85-117 *)
Definition cbd3_body : list stmt :=
  let f0 := 0%nat in let f1 := 1%nat in let f2 := 2%nat in let f3 := 3%nat in
  let mask249 := K (set1_epi32 0x249249) in
  let mask6DB := K (set1_epi32 0x6DB6DB) in
  let mask07 := K (set1_epi32 7) in
  let mask70 := K (set1_epi32 (7 * 2 ^ 16)) in
  let mask3 := K (set1_epi16 3) in
  let shufbidx := K (set_epi8 [-1;15;14;13;-1;12;11;10;-1; 9; 8; 7;-1; 6; 5; 4;
                               -1;11;10; 9;-1; 8; 7; 6;-1; 5; 4; 3;-1; 2; 1; 0]) in
  [ f0 ~ mm256_permute4x64_epi64 f0 0x94;
    f0 ~ mm256_shuffle_epi8 f0 shufbidx;

    f1 ~ mm256_srli_epi32 f0 1;
    f2 ~ mm256_srli_epi32 f0 2;
    f0 ~ mm256_and_si256 mask249 f0;
    f1 ~ mm256_and_si256 mask249 f1;
    f2 ~ mm256_and_si256 mask249 f2;
    f0 ~ mm256_add_epi32 f0 f1;
    f0 ~ mm256_add_epi32 f0 f2;

    f1 ~ mm256_srli_epi32 f0 3;
    f0 ~ mm256_add_epi32 f0 mask6DB;
    f0 ~ mm256_sub_epi32 f0 f1;

    f1 ~ mm256_slli_epi32 f0 10;
    f2 ~ mm256_srli_epi32 f0 12;
    f3 ~ mm256_srli_epi32 f0 2;
    f0 ~ mm256_and_si256 f0 mask07;
    f1 ~ mm256_and_si256 f1 mask70;
    f2 ~ mm256_and_si256 f2 mask07;
    f3 ~ mm256_and_si256 f3 mask70;
    f0 ~ mm256_add_epi16 f0 f1;
    f1 ~ mm256_add_epi16 f2 f3;
    f0 ~ mm256_sub_epi16 f0 mask3;
    f1 ~ mm256_sub_epi16 f1 mask3;

    f2 ~ mm256_unpacklo_epi32 f0 f1;
    f3 ~ mm256_unpackhi_epi32 f0 f1;

    f0 ~ mm256_permute2x128_si256 f2 f3 0x20;
    f1 ~ mm256_permute2x128_si256 f2 f3 0x31 ].

(** avx2/cbd.c:72-120 *)
Definition cbd3_avx2 (r buf : list Z) : res (list Z) :=
  for_ 8 0 (fun i r =>
    f <- load_bytes buf (24 * i) 32 ;;
    o <- exec_c cbd3_body [f] [0; 1]%nat ;;
    r <- store_vec r (2 * i + 0) (out o 0) ;;
    store_vec r (2 * i + 1) (out o 1)) r.

(** avx2/cbd.c:124-144 *)
Definition poly_cbd_eta1_avx2 (lv : level) (r buf : list Z) : res (list Z) :=
  if (KYBER_ETA1 lv =? 2)%nat then cbd2_avx2 r buf else cbd3_avx2 r buf.
Definition poly_cbd_eta2_avx2 (r buf : list Z) : res (list Z) := cbd2_avx2 r buf.

(** ** avx2/poly.c *)
(** Lines 30-57 *)
Definition compress4_body : list stmt :=
  let f0 := 0%nat in let f1 := 1%nat in let f2 := 2%nat in let f3 := 3%nat in
  let v := K (qvec _16XV) in
  let shift1 := K (set1_epi16 (2 ^ 9)) in
  let mask := K (set1_epi16 15) in
  let shift2 := K (set1_epi16 (16 * 2 ^ 8 + 1)) in
  let permdidx := K (set_epi32 [7;3;6;2;5;1;4;0]) in
  [ f0 ~ mm256_mulhi_epi16 f0 v;
    f1 ~ mm256_mulhi_epi16 f1 v;
    f2 ~ mm256_mulhi_epi16 f2 v;
    f3 ~ mm256_mulhi_epi16 f3 v;
    f0 ~ mm256_mulhrs_epi16 f0 shift1;
    f1 ~ mm256_mulhrs_epi16 f1 shift1;
    f2 ~ mm256_mulhrs_epi16 f2 shift1;
    f3 ~ mm256_mulhrs_epi16 f3 shift1;
    f0 ~ mm256_and_si256 f0 mask;
    f1 ~ mm256_and_si256 f1 mask;
    f2 ~ mm256_and_si256 f2 mask;
    f3 ~ mm256_and_si256 f3 mask;
    f0 ~ mm256_packus_epi16 f0 f1;
    f2 ~ mm256_packus_epi16 f2 f3;
    f0 ~ mm256_maddubs_epi16 f0 shift2;
    f2 ~ mm256_maddubs_epi16 f2 shift2;
    f0 ~ mm256_packus_epi16 f0 f2;
    f0 ~ mm256_permutevar8x32_epi32 f0 permdidx ].
(** avx2/poly.c:26-60 *)
Definition poly_compress4_avx2 (r : list Z) (ro : nat) (a : list Z) : res (list Z) :=
  for_ 4 0 (fun i r =>
    f0 <- load_vec a (4 * i + 0) ;;
    f1 <- load_vec a (4 * i + 1) ;;
    f2 <- load_vec a (4 * i + 2) ;;
    f3 <- load_vec a (4 * i + 3) ;;
    o <- exec_c compress4_body [f0; f1; f2; f3] [0%nat] ;;
    store_bytes r (ro + 32 * i) (out o 0)) r.

(** Lines 67-81; the 64 loaded bits are variable 0 *)
Definition decompress4_body : list stmt :=
  let f := 0%nat in let t := 1%nat in
  let q := K (qvec _16XQ) in
  let shufbidx := K (set_epi8 [7;7;7;7;6;6;6;6;5;5;5;5;4;4;4;4;
                               3;3;3;3;2;2;2;2;1;1;1;1;0;0;0;0]) in
  let mask := K (set1_epi32 0x00F0000F) in
  let shift := K (set1_epi32 (128 * 2 ^ 16 + 2048)) in
  [ t ~ zero_upper64 f;
    f ~ mm256_broadcastsi128_si256 t;
    f ~ mm256_shuffle_epi8 f shufbidx;
    f ~ mm256_and_si256 f mask;
    f ~ mm256_mullo_epi16 f shift;
    f ~ mm256_mulhrs_epi16 f q ].
(** avx2/poly.c:62-84 *)
Definition poly_decompress4_avx2 (r : list Z) (a : list Z) (ao : nat) : res (list Z) :=
  for_ 16 0 (fun i r =>
    t <- load_bytes a (ao + 8 * i) 8 ;;
    o <- exec_c decompress4_body [t] [0%nat] ;;
    store_vec r i (out o 0)) r.

(** Lines 92-116; t1 is variable 3 *)
Definition compress5_body : list stmt :=
  let f0 := 0%nat in let f1 := 1%nat in let t0 := 2%nat in let t1 := 3%nat in
  let v := K (qvec _16XV) in
  let shift1 := K (set1_epi16 (2 ^ 10)) in
  let mask := K (set1_epi16 31) in
  let shift2 := K (set1_epi16 (32 * 2 ^ 8 + 1)) in
  let shift3 := K (set1_epi32 (1024 * 2 ^ 16 + 1)) in
  let sllvdidx := K (set1_epi64x 12) in
  let shufbidx := K (set_epi8 [ 8;-1;-1;-1;-1;-1; 4; 3; 2; 1; 0;-1;12;11;10; 9;
                               -1;12;11;10; 9; 8;-1;-1;-1;-1;-1; 4; 3; 2; 1; 0]) in
  [ f0 ~ mm256_mulhi_epi16 f0 v;
    f1 ~ mm256_mulhi_epi16 f1 v;
    f0 ~ mm256_mulhrs_epi16 f0 shift1;
    f1 ~ mm256_mulhrs_epi16 f1 shift1;
    f0 ~ mm256_and_si256 f0 mask;
    f1 ~ mm256_and_si256 f1 mask;
    f0 ~ mm256_packus_epi16 f0 f1;
    f0 ~ mm256_maddubs_epi16 f0 shift2;
    f0 ~ mm256_madd_epi16 f0 shift3;
    f0 ~ mm256_sllv_epi32 f0 sllvdidx;
    f0 ~ mm256_srlv_epi64 f0 sllvdidx;
    f0 ~ mm256_shuffle_epi8 f0 shufbidx;
    t0 ~ mm256_castsi256_si128 f0;
    t1 ~ mm256_extracti128_si256 f0 1;
    t0 ~ mm_blendv_epi8 t0 t1 (mm256_castsi256_si128 shufbidx);
    t1 ~ low 32 t1 ].
(** avx2/poly.c:87-121 *)
Definition poly_compress5_avx2 (r : list Z) (ro : nat) (a : list Z) : res (list Z) :=
  for_ 8 0 (fun i r =>
    f0 <- load_vec a (2 * i + 0) ;;
    f1 <- load_vec a (2 * i + 1) ;;
    o <- exec_c compress5_body [f0; f1] [2; 3]%nat ;;
    r <- store_bytes r (ro + 20 * i + 0) (out o 0) ;;
    store_bytes r (ro + 20 * i + 16) (out o 1)) r.

(** Lines 130-148; variable 1 is the int16_t ti *)
Definition decompress5_body : list stmt :=
  let f := 0%nat in let ti := 1%nat in let t := 2%nat in
  let q := K (qvec _16XQ) in
  let shufbidx := K (set_epi8 [9;9;9;8;8;8;8;7;7;6;6;6;6;5;5;5;
                               4;4;4;3;3;3;3;2;2;1;1;1;1;0;0;0]) in
  let mask := K (set_epi16 [248;1984;62;496;3968;124;992;31;
                            248;1984;62;496;3968;124;992;31]) in
  let shift := K (set_epi16 [128;16;512;64;8;256;32;1024;
                             128;16;512;64;8;256;32;1024]) in
  [ t ~ zero_upper64 f;
    t ~ mm_insert_epi16 t ti 4;
    f ~ mm256_broadcastsi128_si256 t;
    f ~ mm256_shuffle_epi8 f shufbidx;
    f ~ mm256_and_si256 f mask;
    f ~ mm256_mullo_epi16 f shift;
    f ~ mm256_mulhrs_epi16 f q ].
(** avx2/poly.c:123-150 *)
Definition poly_decompress5_avx2 (r : list Z) (a : list Z) (ao : nat) : res (list Z) :=
  for_ 16 0 (fun i r =>
    t <- load_bytes a (ao + 10 * i + 0) 8 ;;
    ti <- load_bytes a (ao + 10 * i + 8) 2 ;;
    o <- exec_c decompress5_body [t; ti] [0%nat] ;;
    store_vec r i (out o 0)) r.

Definition poly_compress_avx2 (lv : level) : list Z -> nat -> list Z -> res (list Z) :=
  if (KYBER_POLYCOMPRESSEDBYTES lv =? 128)%nat then poly_compress4_avx2 else poly_compress5_avx2.
Definition poly_decompress_avx2 (lv : level) : list Z -> list Z -> nat -> res (list Z) :=
  if (KYBER_POLYCOMPRESSEDBYTES lv =? 128)%nat then poly_decompress4_avx2 else poly_decompress5_avx2.

(** avx2/poly.c:199-243, the macro FROMMSG64(i); f is variable 0 *)
Definition frommsg_body (i : nat) : list stmt :=
  let f := 0%nat in let g0 := 1%nat in let g1 := 2%nat in let g2 := 3%nat in let g3 := 4%nat in
  let h0 := 5%nat in let h1 := 6%nat in let h2 := 7%nat in let h3 := 8%nat in
  let shift := mm256_broadcastsi128_si256 (K (set_epi32 [0;1;2;3])) in
  let idx := mm256_broadcastsi128_si256 (K (set_epi8 [15;14;11;10;7;6;3;2;13;12;9;8;5;4;1;0])) in
  let hqs := K (set1_epi16 ((KYBER_Q + 1) / 2)) in
  [ g3 ~ mm256_shuffle_epi32 f (0x55 * i);
    g3 ~ mm256_sllv_epi32 g3 shift;
    g3 ~ mm256_shuffle_epi8 g3 idx;
    g0 ~ mm256_slli_epi16 g3 12;
    g1 ~ mm256_slli_epi16 g3 8;
    g2 ~ mm256_slli_epi16 g3 4;
    g0 ~ mm256_srai_epi16 g0 15;
    g1 ~ mm256_srai_epi16 g1 15;
    g2 ~ mm256_srai_epi16 g2 15;
    g3 ~ mm256_srai_epi16 g3 15;
    g0 ~ mm256_and_si256 g0 hqs;
    g1 ~ mm256_and_si256 g1 hqs;
    g2 ~ mm256_and_si256 g2 hqs;
    g3 ~ mm256_and_si256 g3 hqs;
    h0 ~ mm256_unpacklo_epi64 g0 g1;
    h2 ~ mm256_unpackhi_epi64 g0 g1;
    h1 ~ mm256_unpacklo_epi64 g2 g3;
    h3 ~ mm256_unpackhi_epi64 g2 g3;
    g0 ~ mm256_permute2x128_si256 h0 h1 0x20;
    g2 ~ mm256_permute2x128_si256 h0 h1 0x31;
    g1 ~ mm256_permute2x128_si256 h2 h3 0x20;
    g3 ~ mm256_permute2x128_si256 h2 h3 0x31 ].
(** The macro is expanded four times, i = 0..3; there is no loop. *)
Definition frommsg64 (f : list bool) (i : nat) (r : list Z) : res (list Z) :=
  o <- exec_c (frommsg_body i) [f] [1; 2; 3; 4]%nat ;;
  r <- store_vec r (0 + 2 * i + 0) (out o 0) ;;
  r <- store_vec r (0 + 2 * i + 1) (out o 1) ;;
  r <- store_vec r (8 + 2 * i + 0) (out o 2) ;;
  store_vec r (8 + 2 * i + 1) (out o 3).
Definition poly_frommsg_avx2 (r : list Z) (msg : list Z) (mo : nat) : res (list Z) :=
  f <- load_bytes msg mo 32 ;;
  r <- frommsg64 f 0 r ;;
  r <- frommsg64 f 1 r ;;
  r <- frommsg64 f 2 r ;;
  frommsg64 f 3 r.

(** Lines 266-276 *)
Definition tomsg_body : list stmt :=
  let f0 := 0%nat in let f1 := 1%nat in let g0 := 2%nat in let g1 := 3%nat in let small := 4%nat in
  let hq := K (set1_epi16 ((KYBER_Q - 1) / 2)) in
  let hhq := K (set1_epi16 ((KYBER_Q - 1) / 4)) in
  [ f0 ~ mm256_sub_epi16 hq f0;
    f1 ~ mm256_sub_epi16 hq f1;
    g0 ~ mm256_srai_epi16 f0 15;
    g1 ~ mm256_srai_epi16 f1 15;
    f0 ~ mm256_xor_si256 f0 g0;
    f1 ~ mm256_xor_si256 f1 g1;
    f0 ~ mm256_sub_epi16 f0 hhq;
    f1 ~ mm256_sub_epi16 f1 hhq;
    f0 ~ mm256_packs_epi16 f0 f1;
    f0 ~ mm256_permute4x64_epi64 f0 0xD8;
    small ~ mm256_movemask_epi8 f0 ].
(** avx2/poly.c:256-279 *)
Definition poly_tomsg_avx2 (msg : list Z) (mo : nat) (a : list Z) : res (list Z) :=
  for_ 8 0 (fun i msg =>
    f0 <- load_vec a (2 * i + 0) ;;
    f1 <- load_vec a (2 * i + 1) ;;
    o <- exec_c tomsg_body [f0; f1] [4%nat] ;;
    store_bytes msg (mo + 4 * i) (out o 0)) msg.

(** avx2/poly.c:483-514.  [r] may be the same object as [a]: then [a] must be
    the current contents of [r] at each iteration, as in [poly_add_to_avx2]. *)
Definition add_body : list stmt := [ 0%nat ~ mm256_add_epi16 0%nat 1%nat ].
Definition sub_body : list stmt := [ 0%nat ~ mm256_sub_epi16 0%nat 1%nat ].
(** [poly_add(r, a, b)] with three distinct objects *)
Definition poly_add_avx2 (r a b : list Z) : res (list Z) :=
  for_ 16 0 (fun i r =>
    f0 <- load_vec a i ;;
    f1 <- load_vec b i ;;
    o <- exec_c add_body [f0; f1] [0%nat] ;;
    store_vec r i (out o 0)) r.
(** [poly_add(r, r, b)] *)
Definition poly_add_to_avx2 (r b : list Z) : res (list Z) :=
  for_ 16 0 (fun i r =>
    f0 <- load_vec r i ;;
    f1 <- load_vec b i ;;
    o <- exec_c add_body [f0; f1] [0%nat] ;;
    store_vec r i (out o 0)) r.
(** [poly_sub(r, a, r)] *)
Definition poly_sub_from_avx2 (r a : list Z) : res (list Z) :=
  for_ 16 0 (fun i r =>
    f0 <- load_vec a i ;;
    f1 <- load_vec r i ;;
    o <- exec_c sub_body [f0; f1] [0%nat] ;;
    store_vec r i (out o 0)) r.

(** ** avx2/polyvec.c *)
(** The part shared by lines 26-36 and 93-103 of the two compressions: the
    exact quotient, [off] and [shift1] being the parameters *)
Definition compress_q (off shift1 msk : Z) : list stmt :=
  let f0 := 0%nat in let f1 := 1%nat in let f2 := 2%nat in
  let v := K (qvec _16XV) in
  let v8 := mm256_slli_epi16 v 3 in
  let off := K (set1_epi16 off) in
  let shift1 := K (set1_epi16 shift1) in
  let mask := K (set1_epi16 msk) in
  [ f1 ~ mm256_mullo_epi16 f0 v8;
    f2 ~ mm256_add_epi16 f0 off;
    f0 ~ mm256_slli_epi16 f0 3;
    f0 ~ mm256_mulhi_epi16 f0 v;
    f2 ~ mm256_sub_epi16 f1 f2;
    f1 ~ mm256_andnot_si256 f1 f2;
    f1 ~ mm256_srli_epi16 f1 15;
    f0 ~ mm256_sub_epi16 f0 f1;
    f0 ~ mm256_mulhrs_epi16 f0 shift1;
    f0 ~ mm256_and_si256 f0 mask ].
(** Lines 16-44; t0 is variable 3, t1 is variable 4 *)
Definition compress10_body : list stmt :=
  let f0 := 0%nat in let t0 := 3%nat in let t1 := 4%nat in
  let shift2 := K (set1_epi64x (1024 * 2 ^ 48 + 1 * 2 ^ 32 + 1024 * 2 ^ 16 + 1)) in
  let sllvdidx := K (set1_epi64x 12) in
  let shufbidx := K (set_epi8 [ 8; 4; 3; 2; 1; 0;-1;-1;-1;-1;-1;-1;12;11;10; 9;
                               -1;-1;-1;-1;-1;-1;12;11;10; 9; 8; 4; 3; 2; 1; 0]) in
  compress_q 15 (2 ^ 12) 1023 ++
  [ f0 ~ mm256_madd_epi16 f0 shift2;
    f0 ~ mm256_sllv_epi32 f0 sllvdidx;
    f0 ~ mm256_srli_epi64 f0 12;
    f0 ~ mm256_shuffle_epi8 f0 shufbidx;
    t0 ~ mm256_castsi256_si128 f0;
    t1 ~ mm256_extracti128_si256 f0 1;
    t0 ~ mm_blend_epi16 t0 t1 0xE0;
    t1 ~ low 32 t1 ].
(** avx2/polyvec.c:11-47 *)
Definition poly_compress10_avx2 (r : list Z) (ro : nat) (a : list Z) : res (list Z) :=
  for_ 16 0 (fun i r =>
    f0 <- load_vec a i ;;
    o <- exec_c compress10_body [f0] [3; 4]%nat ;;
    r <- store_bytes r (ro + 20 * i + 0) (out o 0) ;;
    store_bytes r (ro + 20 * i + 16) (out o 1)) r.

(** Lines 53-71 *)
Definition decompress10_body : list stmt :=
  let f := 0%nat in
  let q := K (set1_epi32 (KYBER_Q * 2 ^ 16 + 4 * KYBER_Q)) in
  let shufbidx := K (set_epi8 [11;10;10; 9; 9; 8; 8; 7;
                                6; 5; 5; 4; 4; 3; 3; 2;
                                9; 8; 8; 7; 7; 6; 6; 5;
                                4; 3; 3; 2; 2; 1; 1; 0]) in
  let sllvdidx := K (set1_epi64x 4) in
  let mask := K (set1_epi32 (32736 * 2 ^ 16 + 8184)) in
  [ f ~ mm256_permute4x64_epi64 f 0x94;
    f ~ mm256_shuffle_epi8 f shufbidx;
    f ~ mm256_sllv_epi32 f sllvdidx;
    f ~ mm256_srli_epi16 f 1;
    f ~ mm256_and_si256 f mask;
    f ~ mm256_mulhrs_epi16 f q ].
(** avx2/polyvec.c:49-74; the last iterations read past the 320 bytes *)
Definition poly_decompress10_avx2 (r : list Z) (a : list Z) (ao : nat) : res (list Z) :=
  for_ 16 0 (fun i r =>
    f <- load_bytes a (ao + 20 * i) 32 ;;
    o <- exec_c decompress10_body [f] [0%nat] ;;
    store_vec r i (out o 0)) r.

(** Lines 82-116 *)
Definition compress11_body : list stmt :=
  let f0 := 0%nat in let f1 := 1%nat in let t0 := 3%nat in let t1 := 4%nat in
  let shift2 := K (set1_epi64x (2048 * 2 ^ 48 + 1 * 2 ^ 32 + 2048 * 2 ^ 16 + 1)) in
  let sllvdidx := K (set1_epi64x 10) in
  let srlvqidx := K (set_epi64x [30;10;30;10]) in
  let shufbidx := K (set_epi8 [ 4; 3; 2; 1; 0; 0;-1;-1;-1;-1;10; 9; 8; 7; 6; 5;
                               -1;-1;-1;-1;-1;10; 9; 8; 7; 6; 5; 4; 3; 2; 1; 0]) in
  compress_q 36 (2 ^ 13) 2047 ++
  [ f0 ~ mm256_madd_epi16 f0 shift2;
    f0 ~ mm256_sllv_epi32 f0 sllvdidx;
    f1 ~ mm256_bsrli_epi128 f0 8;
    f0 ~ mm256_srlv_epi64 f0 srlvqidx;
    f1 ~ mm256_slli_epi64 f1 34;
    f0 ~ mm256_add_epi64 f0 f1;
    f0 ~ mm256_shuffle_epi8 f0 shufbidx;
    t0 ~ mm256_castsi256_si128 f0;
    t1 ~ mm256_extracti128_si256 f0 1;
    t0 ~ mm_blendv_epi8 t0 t1 (mm256_castsi256_si128 shufbidx);
    t1 ~ low 64 t1 ].
(** avx2/polyvec.c:77-119; each iteration writes 24 bytes for 22 *)
Definition poly_compress11_avx2 (r : list Z) (ro : nat) (a : list Z) : res (list Z) :=
  for_ 16 0 (fun i r =>
    f0 <- load_vec a i ;;
    o <- exec_c compress11_body [f0] [3; 4]%nat ;;
    r <- store_bytes r (ro + 22 * i + 0) (out o 0) ;;
    store_bytes r (ro + 22 * i + 16) (out o 1)) r.

(** Lines 125-146 *)
Definition decompress11_body : list stmt :=
  let f := 0%nat in
  let q := K (qvec _16XQ) in
  let shufbidx := K (set_epi8 [13;12;12;11;10; 9; 9; 8;
                                8; 7; 6; 5; 5; 4; 4; 3;
                               10; 9; 9; 8; 7; 6; 6; 5;
                                5; 4; 3; 2; 2; 1; 1; 0]) in
  let srlvdidx := K (set_epi32 [0;0;1;0;0;0;1;0]) in
  let srlvqidx := K (set_epi64x [2;0;2;0]) in
  let shift := K (set_epi16 [4;32;1;8;32;1;4;32;4;32;1;8;32;1;4;32]) in
  let mask := K (set1_epi16 32752) in
  [ f ~ mm256_permute4x64_epi64 f 0x94;
    f ~ mm256_shuffle_epi8 f shufbidx;
    f ~ mm256_srlv_epi32 f srlvdidx;
    f ~ mm256_srlv_epi64 f srlvqidx;
    f ~ mm256_mullo_epi16 f shift;
    f ~ mm256_srli_epi16 f 1;
    f ~ mm256_and_si256 f mask;
    f ~ mm256_mulhrs_epi16 f q ].
(** avx2/polyvec.c:121-149 *)
Definition poly_decompress11_avx2 (r : list Z) (a : list Z) (ao : nat) : res (list Z) :=
  for_ 16 0 (fun i r =>
    f <- load_bytes a (ao + 22 * i) 32 ;;
    o <- exec_c decompress11_body [f] [0%nat] ;;
    store_vec r i (out o 0)) r.

(** ** avx2/verify.c *)
(** Lines 25-29, variables f g h *)
Definition verify_body : list stmt :=
  [ 0%nat ~ mm256_xor_si256 0%nat 1%nat; 2%nat ~ mm256_or_si256 2%nat 0%nat ].
(** [_mm256_testz_si256(h, h)] *)
Definition testz (h : list bool) : Z := if forallb negb h then 1 else 0.
(** avx2/verify.c:18-44 *)
Definition verify_avx2 (a : list Z) (ao : nat) (b : list Z) (bo len : nat) : res Z :=
  h <- for_ (len / 32) 0 (fun i h =>
    f <- load_bytes a (ao + 32 * i) 32 ;;
    g <- load_bytes b (bo + 32 * i) 32 ;;
    o <- exec_c verify_body [f; g; h] [2%nat] ;;
    ret (out o 0)) (repeat false 256) ;;
  let n := (32 * (len / 32))%nat in
  r <- for_ (len - n) 0 (fun i r =>
    x <- aget a (ao + n + i) ;;
    y <- aget b (bo + n + i) ;;
    ret (Z.lor r (Z.lxor x y))) (u64 (1 - testz h)) ;;
  ret (Z.shiftr (u64 (- r)) 63).

(** Lines 73-76, variables rvec xvec bvec *)
Definition cmov_body : list stmt := [ 0%nat ~ mm256_blendv_epi8 0%nat 1%nat 2%nat ].
(** avx2/verify.c:59-83 *)
Definition cmov_avx2 (r : list Z) (ro : nat) (x : list Z) (xo len : nat) (b : Z) : res (list Z) :=
  let bvec := set1_epi64x (u64 (- u8 b)) in
  r <- for_ (len / 32) 0 (fun i r =>
    rvec <- load_bytes r (ro + 32 * i) 32 ;;
    xvec <- load_bytes x (xo + 32 * i) 32 ;;
    o <- exec_c cmov_body [rvec; xvec; bvec] [0%nat] ;;
    store_bytes r (ro + 32 * i) (out o 0)) r ;;
  let n := (32 * (len / 32))%nat in
  for_ (len - n) 0 (fun i r =>
    xi <- aget x (xo + n + i) ;;
    ri <- aget r (ro + n + i) ;;
    aset r (ro + n + i) (u8 (Z.lxor ri (Z.land (- u8 b) (Z.lxor xi ri))))) r.
