(** * The names the code gives to the linker

    Every function and table with external linkage is renamed by a macro of its
    header (`#define poly_add KYBER_NAMESPACE(poly_add)`, ref/poly.h:48), so
    that the object files of several parameter sets and of both source trees can
    be loaded together.  Modelled here, from the text of the headers, the
    sources and the two Makefiles:

    - the prefix each namespace macro puts in front of a name;
    - the macros of the headers, as a table from the name the C code writes to
      the name behind the prefix;
    - for each source file the names it defines with external linkage and the
      external names it refers to, written as in the C code (before expansion);
    - for each target of the Makefiles the files linked together.

    A source file is taken to see the macros of the headers that declare the
    names it uses; every one of them includes those headers (the AVX2 tree's symbolic links to
    ../ref include the headers of the directory they are compiled in).  Names of
    functions the compiler supplies itself (vector intrinsics, _pext_u32),
    static names, and macros with parameters do not reach the linker and are
    left out.  randombytes.c is listed in its Linux form and in its
    /dev/urandom form together.  The leading underscore that MacOS and Windows
    put in front of every name (avx2/consts.h:26-34) is left out: it is the same
    for all of them. *)
From Coq Require Import List String.
From Verif Require Import Model_Params.
Import ListNotations.
Open Scope string_scope.

Inductive tree := RefTree | Avx2Tree.

(** A name with the namespace macro it is wrapped in, if any. *)
Inductive symbol :=
| Kyber (s : string)       (* KYBER_NAMESPACE(s) *)
| Fips202 (s : string)     (* FIPS202_NAMESPACE(s) *)
| Fips202x4 (s : string)   (* FIPS202X4_NAMESPACE(s) *)
| Plain (s : string).      (* no macro *)

(** ref/params.h:10-18; avx2/params.h:10-31 (without KYBER_90S). *)
Definition kyber_prefix (T : tree) (lv : level) : string :=
  match T, lv with
  | RefTree, Kyber512 => "pqcrystals_kyber512_ref_"
  | RefTree, Kyber768 => "pqcrystals_kyber768_ref_"
  | RefTree, Kyber1024 => "pqcrystals_kyber1024_ref_"
  | Avx2Tree, Kyber512 => "pqcrystals_kyber512_avx2_"
  | Avx2Tree, Kyber768 => "pqcrystals_kyber768_avx2_"
  | Avx2Tree, Kyber1024 => "pqcrystals_kyber1024_avx2_"
  end.
(** avx2/params.h:12-13, 18-19, 24-25: the prefixes under KYBER_90S. *)
Definition kyber_90s_prefix (lv : level) : string :=
  match lv with
  | Kyber512 => "pqcrystals_kyber512_90s_avx2_"
  | Kyber768 => "pqcrystals_kyber768_90s_avx2_"
  | Kyber1024 => "pqcrystals_kyber1024_90s_avx2_"
  end.
(** ref/fips202.h:12, avx2/fips202.h:12 *)
Definition fips202_prefix (T : tree) : string :=
  match T with
  | RefTree => "pqcrystals_kyber_fips202_ref_"
  | Avx2Tree => "pqcrystals_kyber_fips202_avx2_"
  end.
(** avx2/fips202x4.h:8 *)
Definition fips202x4_prefix : string := "pqcrystals_kyber_fips202x4_avx2_".

(** The string the linker sees, with KYBER_K fixed by the Makefile. *)
Definition linker_name (T : tree) (lv : level) (y : symbol) : string :=
  match y with
  | Kyber s => kyber_prefix T lv ++ s
  | Fips202 s => fips202_prefix T ++ s
  | Fips202x4 s => fips202x4_prefix ++ s
  | Plain s => s
  end.

(** The macros of the headers. *)

Definition ref_macros : list (string * symbol) :=
  [
(* ref/poly.h:15-50 *)
   ("poly_compress", Kyber "poly_compress");
   ("poly_decompress", Kyber "poly_decompress");
   ("poly_tobytes", Kyber "poly_tobytes");
   ("poly_frombytes", Kyber "poly_frombytes");
   ("poly_frommsg", Kyber "poly_frommsg");
   ("poly_tomsg", Kyber "poly_tomsg");
   ("poly_getnoise_eta1", Kyber "poly_getnoise_eta1");
   ("poly_getnoise_eta2", Kyber "poly_getnoise_eta2");
   ("poly_ntt", Kyber "poly_ntt");
   ("poly_invntt_tomont", Kyber "poly_invntt_tomont");
   ("poly_basemul_montgomery", Kyber "poly_basemul_montgomery");
   ("poly_tomont", Kyber "poly_tomont");
   ("poly_reduce", Kyber "poly_reduce");
   ("poly_add", Kyber "poly_add");
   ("poly_sub", Kyber "poly_sub");
   (* ref/polyvec.h:12-33 *)
   ("polyvec_compress", Kyber "polyvec_compress");
   ("polyvec_decompress", Kyber "polyvec_decompress");
   ("polyvec_tobytes", Kyber "polyvec_tobytes");
   ("polyvec_frombytes", Kyber "polyvec_frombytes");
   ("polyvec_ntt", Kyber "polyvec_ntt");
   ("polyvec_invntt_tomont", Kyber "polyvec_invntt_tomont");
   ("polyvec_basemul_acc_montgomery", Kyber "polyvec_basemul_acc_montgomery");
   ("polyvec_reduce", Kyber "polyvec_reduce");
   ("polyvec_add", Kyber "polyvec_add");
   (* ref/symmetric.h:12-21 *)
   ("kyber_shake128_absorb", Kyber "kyber_shake128_absorb");
   ("kyber_shake256_prf", Kyber "kyber_shake256_prf");
   ("kyber_shake256_rkprf", Kyber "kyber_shake256_rkprf");
   (* ref/reduce.h:10-13 *)
   ("montgomery_reduce", Kyber "montgomery_reduce");
   ("barrett_reduce", Kyber "barrett_reduce");
   (* ref/kem.h:20-32 *)
   ("crypto_kem_keypair_derand", Kyber "keypair_derand");
   ("crypto_kem_keypair", Kyber "keypair");
   ("crypto_kem_enc_derand", Kyber "enc_derand");
   ("crypto_kem_enc", Kyber "enc");
   ("crypto_kem_dec", Kyber "dec");
   (* ref/cbd.h:8-11 *)
   ("poly_cbd_eta1", Kyber "poly_cbd_eta1");
   ("poly_cbd_eta2", Kyber "poly_cbd_eta2");
   (* ref/ntt.h:7-16 *)
   ("zetas", Kyber "zetas");
   ("ntt", Kyber "ntt");
   ("invntt", Kyber "invntt");
   ("basemul", Kyber "basemul");
   (* ref/verify.h:8-14 *)
   ("verify", Kyber "verify");
   ("cmov", Kyber "cmov");
   ("cmov_int16", Kyber "cmov_int16");
   (* ref/indcpa.h:8-22 *)
   ("gen_matrix", Kyber "gen_matrix");
   ("indcpa_keypair_derand", Kyber "indcpa_keypair_derand");
   ("indcpa_enc", Kyber "indcpa_enc");
   ("indcpa_dec", Kyber "indcpa_dec");
   (* ref/fips202.h:19-51 *)
   ("shake128_init", Fips202 "shake128_init");
   ("shake128_absorb", Fips202 "shake128_absorb");
   ("shake128_finalize", Fips202 "shake128_finalize");
   ("shake128_squeeze", Fips202 "shake128_squeeze");
   ("shake128_absorb_once", Fips202 "shake128_absorb_once");
   ("shake128_squeezeblocks", Fips202 "shake128_squeezeblocks");
   ("shake256_init", Fips202 "shake256_init");
   ("shake256_absorb", Fips202 "shake256_absorb");
   ("shake256_finalize", Fips202 "shake256_finalize");
   ("shake256_squeeze", Fips202 "shake256_squeeze");
   ("shake256_absorb_once", Fips202 "shake256_absorb_once");
   ("shake256_squeezeblocks", Fips202 "shake256_squeezeblocks");
   ("shake128", Fips202 "shake128");
   ("shake256", Fips202 "shake256");
   ("sha3_256", Fips202 "sha3_256");
   ("sha3_512", Fips202 "sha3_512")].

Definition avx2_macros : list (string * symbol) :=
  [
(* avx2/poly.h:10-74 *)
   ("poly_compress", Kyber "poly_compress");
   ("poly_decompress", Kyber "poly_decompress");
   ("poly_tobytes", Kyber "poly_tobytes");
   ("poly_frombytes", Kyber "poly_frombytes");
   ("poly_frommsg", Kyber "poly_frommsg");
   ("poly_tomsg", Kyber "poly_tomsg");
   ("poly_getnoise_eta1", Kyber "poly_getnoise_eta1");
   ("poly_getnoise_eta2", Kyber "poly_getnoise_eta2");
   ("poly_getnoise_eta1_4x", Kyber "poly_getnoise_eta2_4x");
   ("poly_getnoise_eta1122_4x", Kyber "poly_getnoise_eta1122_4x");
   ("poly_ntt", Kyber "poly_ntt");
   ("poly_invntt_tomont", Kyber "poly_invntt_tomont");
   ("poly_nttunpack", Kyber "poly_nttunpack");
   ("poly_basemul_montgomery", Kyber "poly_basemul_montgomery");
   ("poly_tomont", Kyber "poly_tomont");
   ("poly_reduce", Kyber "poly_reduce");
   ("poly_add", Kyber "poly_add");
   ("poly_sub", Kyber "poly_sub");
   (* avx2/polyvec.h:12-33 *)
   ("polyvec_compress", Kyber "polyvec_compress");
   ("polyvec_decompress", Kyber "polyvec_decompress");
   ("polyvec_tobytes", Kyber "polyvec_tobytes");
   ("polyvec_frombytes", Kyber "polyvec_frombytes");
   ("polyvec_ntt", Kyber "polyvec_ntt");
   ("polyvec_invntt_tomont", Kyber "polyvec_invntt_tomont");
   ("polyvec_basemul_acc_montgomery", Kyber "polyvec_basemul_acc_montgomery");
   ("polyvec_reduce", Kyber "polyvec_reduce");
   ("polyvec_add", Kyber "polyvec_add");
   (* avx2/symmetric.h:13-22 *)
   ("kyber_shake128_absorb", Kyber "kyber_shake128_absorb");
   ("kyber_shake256_prf", Kyber "kyber_shake256_prf");
   ("kyber_shake256_rkprf", Kyber "kyber_shake256_rkprf");
   (* avx2/reduce.h:7-9 *)
   ("reduce_avx", Kyber "reduce_avx");
   ("tomont_avx", Kyber "tomont_avx");
   (* avx2/kem.h:20-32 *)
   ("crypto_kem_keypair_derand", Kyber "keypair_derand");
   ("crypto_kem_keypair", Kyber "keypair");
   ("crypto_kem_enc_derand", Kyber "enc_derand");
   ("crypto_kem_enc", Kyber "enc");
   ("crypto_kem_dec", Kyber "dec");
   (* avx2/cbd.h:9-12 *)
   ("poly_cbd_eta1", Kyber "poly_cbd_eta1");
   ("poly_cbd_eta2", Kyber "poly_cbd_eta2");
   (* avx2/ntt.h:7-25 *)
   ("ntt_avx", Kyber "ntt_avx");
   ("invntt_avx", Kyber "invntt_avx");
   ("nttpack_avx", Kyber "nttpack_avx");
   ("nttunpack_avx", Kyber "nttunpack_avx");
   ("basemul_avx", Kyber "basemul_avx");
   ("ntttobytes_avx", Kyber "ntttobytes_avx");
   ("nttfrombytes_avx", Kyber "nttfrombytes_avx");
   (* avx2/verify.h:8-14 *)
   ("verify", Kyber "verify");
   ("cmov", Kyber "cmov");
   ("cmov_int16", Kyber "cmov_int16");
   (* avx2/indcpa.h:8-22 *)
   ("gen_matrix", Kyber "gen_matrix");
   ("indcpa_keypair_derand", Kyber "indcpa_keypair_derand");
   ("indcpa_enc", Kyber "indcpa_enc");
   ("indcpa_dec", Kyber "indcpa_dec");
   (* avx2/consts.h:39 *)
   ("qdata", Kyber "qdata");
   (* avx2/rejsample.h:11 *)
   ("rej_uniform_avx", Kyber "rej_uniform_avx");
   (* avx2/fips202.h:19-51 *)
   ("shake128_init", Fips202 "shake128_init");
   ("shake128_absorb", Fips202 "shake128_absorb");
   ("shake128_finalize", Fips202 "shake128_finalize");
   ("shake128_squeeze", Fips202 "shake128_squeeze");
   ("shake128_absorb_once", Fips202 "shake128_absorb_once");
   ("shake128_squeezeblocks", Fips202 "shake128_squeezeblocks");
   ("shake256_init", Fips202 "shake256_init");
   ("shake256_absorb", Fips202 "shake256_absorb");
   ("shake256_finalize", Fips202 "shake256_finalize");
   ("shake256_squeeze", Fips202 "shake256_squeeze");
   ("shake256_absorb_once", Fips202 "shake256_absorb_once");
   ("shake256_squeezeblocks", Fips202 "shake256_squeezeblocks");
   ("shake128", Fips202 "shake128");
   ("shake256", Fips202 "shake256");
   ("sha3_256", Fips202 "sha3_256");
   ("sha3_512", Fips202 "sha3_512");
   (* avx2/fips202x4.h:14-58 *)
   ("shake128x4_absorb_once", Fips202x4 "shake128x4_absorb_once");
   ("shake128x4_squeezeblocks", Fips202x4 "shake128x4_squeezeblocks");
   ("shake256x4_absorb_once", Fips202x4 "shake256x4_absorb_once");
   ("shake256x4_squeezeblocks", Fips202x4 "shake256x4_squeezeblocks");
   ("shake128x4", Fips202x4 "shake128x4");
   ("shake256x4", Fips202x4 "shake256x4");
   (* avx2/fips202x4.c:9 *)
   ("KeccakF1600_StatePermute4x", Fips202x4 "KeccakP1600times4_PermuteAll_24rounds");
   (* avx2/keccak4x/KeccakP-1600-times4-SnP.h:34-62 *)
   ("KeccakP1600times4_InitializeAll", Fips202x4 "KeccakP1600times4_InitializeAll");
   ("KeccakP1600times4_AddBytes", Fips202x4 "KeccakP1600times4_AddBytes");
   ("KeccakP1600times4_AddLanesAll", Fips202x4 "KeccakP1600times4_AddLanesAll");
   ("KeccakP1600times4_OverwriteBytes", Fips202x4 "KeccakP1600times4_OverwriteBytes");
   ("KeccakP1600times4_OverwriteLanesAll", Fips202x4 "KeccakP1600times4_OverwriteLanesAll");
   ("KeccakP1600times4_OverwriteWithZeroes", Fips202x4 "KeccakP1600times4_OverwriteWithZeroes");
   ("KeccakP1600times4_PermuteAll_12rounds", Fips202x4 "KeccakP1600times4_PermuteAll_12rounds");
   ("KeccakP1600times4_PermuteAll_24rounds", Fips202x4 "KeccakP1600times4_PermuteAll_24rounds");
   ("KeccakP1600times4_ExtractBytes", Fips202x4 "KeccakP1600times4_ExtractBytes");
   ("KeccakP1600times4_ExtractLanesAll", Fips202x4 "KeccakP1600times4_ExtractLanesAll");
   ("KeccakP1600times4_ExtractAndAddBytes", Fips202x4 "KeccakP1600times4_ExtractAndAddBytes");
   ("KeccakP1600times4_ExtractAndAddLanesAll", Fips202x4 "KeccakP1600times4_ExtractAndAddLanesAll");
   ("KeccakF1600times4_FastLoop_Absorb", Fips202x4 "KeccakF1600times4_FastLoop_Absorb");
   ("KeccakP1600times4_12rounds_FastLoop_Absorb", Fips202x4 "KeccakP1600times4_12rounds_FastLoop_Absorb")].


Definition macros (T : tree) : list (string * symbol) :=
  match T with RefTree => ref_macros | Avx2Tree => avx2_macros end.

(** Expansion of a name: its macro if there is one, else the name itself. *)
Fixpoint lookup (c : string) (l : list (string * symbol)) : symbol :=
  match l with
  | [] => Plain c
  | (d, y) :: l' => if String.eqb c d then y else lookup c l'
  end.
Definition expand (T : tree) (c : string) : symbol := lookup c (macros T).

(** The macro of the assembly files (avx2/consts.h:32). *)
Definition cdecl (s : string) : symbol := Kyber s.

Record unit_file := { defines : list symbol; refers : list symbol }.
Definition c_file (T : tree) (defs refs : list string) : unit_file :=
  {| defines := map (expand T) defs; refers := map (expand T) refs |}.
Definition asm_file (defs : list string) : unit_file :=
  {| defines := map cdecl defs; refers := [] |}.

(** ** The source files *)

(** ref/kem.c *)
Definition ref_kem_c (_ : level) : unit_file := c_file RefTree
    ["crypto_kem_keypair_derand"; "crypto_kem_keypair"; "crypto_kem_enc_derand";
     "crypto_kem_enc"; "crypto_kem_dec"]
    ["memcpy"; "cmov"; "crypto_kem_enc_derand"; "indcpa_dec"; "indcpa_enc";
     "indcpa_keypair_derand"; "crypto_kem_keypair_derand"; "kyber_shake256_rkprf";
     "verify"; "sha3_256"; "sha3_512"; "randombytes"].
(** ref/indcpa.c *)
Definition ref_indcpa_c (_ : level) : unit_file := c_file RefTree
    ["gen_matrix"; "indcpa_keypair_derand"; "indcpa_enc"; "indcpa_dec"]
    ["memcpy"; "gen_matrix"; "kyber_shake128_absorb"; "poly_add"; "poly_compress";
     "poly_decompress"; "poly_frommsg"; "poly_getnoise_eta1"; "poly_getnoise_eta2";
     "poly_invntt_tomont"; "poly_reduce"; "poly_sub"; "poly_tomont"; "poly_tomsg";
     "polyvec_add"; "polyvec_basemul_acc_montgomery"; "polyvec_compress";
     "polyvec_decompress"; "polyvec_frombytes"; "polyvec_invntt_tomont"; "polyvec_ntt";
     "polyvec_reduce"; "polyvec_tobytes"; "sha3_512"; "shake128_squeezeblocks"].
(** ref/polyvec.c *)
Definition ref_polyvec_c (_ : level) : unit_file := c_file RefTree
    ["polyvec_compress"; "polyvec_decompress"; "polyvec_tobytes"; "polyvec_frombytes";
     "polyvec_ntt"; "polyvec_invntt_tomont"; "polyvec_basemul_acc_montgomery";
     "polyvec_reduce"; "polyvec_add"]
    ["poly_add"; "poly_basemul_montgomery"; "poly_frombytes"; "poly_invntt_tomont";
     "poly_ntt"; "poly_reduce"; "poly_tobytes"].
(** ref/poly.c *)
Definition ref_poly_c (_ : level) : unit_file := c_file RefTree
    ["poly_compress"; "poly_decompress"; "poly_tobytes"; "poly_frombytes";
     "poly_frommsg"; "poly_tomsg"; "poly_getnoise_eta1"; "poly_getnoise_eta2";
     "poly_ntt"; "poly_invntt_tomont"; "poly_basemul_montgomery"; "poly_tomont";
     "poly_reduce"; "poly_add"; "poly_sub"]
    ["barrett_reduce"; "basemul"; "cmov_int16"; "invntt"; "kyber_shake256_prf";
     "montgomery_reduce"; "ntt"; "poly_cbd_eta1"; "poly_cbd_eta2"; "poly_reduce";
     "zetas"].
(** ref/ntt.c *)
Definition ref_ntt_c (_ : level) : unit_file := c_file RefTree
    ["zetas"; "ntt"; "invntt"; "basemul"]
    ["barrett_reduce"; "montgomery_reduce"; "zetas"].
(** ref/cbd.c *)
Definition ref_cbd_c (_ : level) : unit_file := c_file RefTree
    ["poly_cbd_eta1"; "poly_cbd_eta2"]
    [].
(** ref/reduce.c *)
Definition ref_reduce_c (_ : level) : unit_file := c_file RefTree
    ["montgomery_reduce"; "barrett_reduce"]
    [].
(** ref/verify.c *)
Definition ref_verify_c (_ : level) : unit_file := c_file RefTree
    ["verify"; "cmov"; "cmov_int16"]
    [].
(** ref/fips202.c *)
Definition ref_fips202_c (_ : level) : unit_file := c_file RefTree
    ["shake128_init"; "shake128_absorb"; "shake128_finalize"; "shake128_squeeze";
     "shake128_absorb_once"; "shake128_squeezeblocks"; "shake256_init";
     "shake256_absorb"; "shake256_finalize"; "shake256_squeeze"; "shake256_absorb_once";
     "shake256_squeezeblocks"; "shake128"; "shake256"; "sha3_256"; "sha3_512"]
    ["shake128_absorb_once"; "shake128_squeeze"; "shake128_squeezeblocks";
     "shake256_absorb_once"; "shake256_squeeze"; "shake256_squeezeblocks"].
(** ref/symmetric-shake.c *)
Definition ref_symmetric_shake_c (_ : level) : unit_file := c_file RefTree
    ["kyber_shake128_absorb"; "kyber_shake256_prf"; "kyber_shake256_rkprf"]
    ["memcpy"; "shake128_absorb_once"; "shake256"; "shake256_absorb";
     "shake256_finalize"; "shake256_init"; "shake256_squeeze"].
(** ref/randombytes.c *)
Definition ref_randombytes_c (_ : level) : unit_file := c_file RefTree
    ["randombytes"]
    ["abort"; "open"; "read"; "syscall"].
(** ref/test/test_kyber.c *)
Definition ref_test_kyber_c (_ : level) : unit_file := c_file RefTree
    ["main"]
    ["memcmp"; "crypto_kem_dec"; "crypto_kem_enc"; "crypto_kem_keypair"; "printf";
     "randombytes"].
(** ref/test/test_vectors.c *)
Definition ref_test_vectors_c (_ : level) : unit_file := c_file RefTree
    ["randombytes"; "main"]
    ["fprintf"; "crypto_kem_dec"; "crypto_kem_enc"; "crypto_kem_keypair";
     "shake128_squeeze"; "printf"; "randombytes"].
(** ref/test/test_speed.c *)
Definition ref_test_speed_c (_ : level) : unit_file := c_file RefTree
    ["t"; "seed"; "main"]
    ["crypto_kem_dec"; "crypto_kem_enc"; "crypto_kem_enc_derand"; "gen_matrix";
     "indcpa_dec"; "indcpa_enc"; "indcpa_keypair_derand"; "crypto_kem_keypair";
     "crypto_kem_keypair_derand"; "poly_compress"; "poly_decompress"; "poly_frommsg";
     "poly_getnoise_eta1"; "poly_getnoise_eta2"; "poly_invntt_tomont"; "poly_ntt";
     "poly_tomsg"; "polyvec_basemul_acc_montgomery"; "polyvec_compress";
     "polyvec_decompress"; "print_results"; "randombytes"].
(** ref/test/speed_print.c *)
Definition ref_speed_print_c (_ : level) : unit_file := c_file RefTree
    ["print_results"]
    ["cpucycles_overhead"; "fprintf"; "printf"; "qsort"].
(** ref/test/cpucycles.c *)
Definition ref_cpucycles_c (_ : level) : unit_file := c_file RefTree
    ["cpucycles_overhead"]
    [].
(** ref/nistkat/rng.c *)
Definition ref_rng_c (_ : level) : unit_file := c_file RefTree
    ["DRBG_ctx"; "seedexpander_init"; "seedexpander"; "handleErrors"; "AES256_ECB";
     "randombytes_init"; "randombytes"; "AES256_CTR_DRBG_Update"]
    ["AES256_CTR_DRBG_Update"; "AES256_ECB"; "ERR_print_errors_fp";
     "EVP_CIPHER_CTX_free"; "EVP_CIPHER_CTX_new"; "EVP_EncryptInit_ex";
     "EVP_EncryptUpdate"; "EVP_aes_256_ecb"; "abort"; "handleErrors"; "memcpy";
     "memset"].
(** ref/nistkat/PQCgenKAT_kem.c *)
Definition ref_PQCgenKAT_kem_c (_ : level) : unit_file := c_file RefTree
    ["main"; "FindMarker"; "ReadHex"; "fprintBstr"]
    ["FindMarker"; "ReadHex"; "fclose"; "fgetc"; "fopen"; "fprintBstr"; "fprintf";
     "fscanf"; "isxdigit"; "memcmp"; "memset"; "crypto_kem_dec"; "crypto_kem_enc";
     "crypto_kem_keypair"; "printf"; "randombytes"; "randombytes_init"; "sprintf";
     "strlen"; "strncmp"].
(** avx2/kem.c *)
Definition avx2_kem_c (_ : level) : unit_file := c_file Avx2Tree
    ["crypto_kem_keypair_derand"; "crypto_kem_keypair"; "crypto_kem_enc_derand";
     "crypto_kem_enc"; "crypto_kem_dec"]
    ["memcpy"; "cmov"; "crypto_kem_enc_derand"; "indcpa_dec"; "indcpa_enc";
     "indcpa_keypair_derand"; "crypto_kem_keypair_derand"; "kyber_shake256_rkprf";
     "verify"; "sha3_256"; "sha3_512"; "randombytes"].
(** avx2/indcpa.c *)
Definition avx2_indcpa_c (lv : level) : unit_file := c_file Avx2Tree
    ["gen_matrix"; "indcpa_keypair_derand"; "indcpa_enc"; "indcpa_dec"]
    (["memcpy"; "gen_matrix"; "poly_add"; "poly_compress"; "poly_decompress";
     "poly_frommsg"; "poly_getnoise_eta1_4x"; "poly_invntt_tomont"; "poly_nttunpack";
     "poly_reduce"; "poly_sub"; "poly_tomont"; "poly_tomsg"; "polyvec_add";
     "polyvec_basemul_acc_montgomery"; "polyvec_compress"; "polyvec_decompress";
     "polyvec_frombytes"; "polyvec_invntt_tomont"; "polyvec_ntt"; "polyvec_reduce";
     "polyvec_tobytes"; "rej_uniform_avx"; "sha3_512"; "shake128x4_absorb_once";
     "shake128x4_squeezeblocks"] ++
     match lv with
     | Kyber512 => ["poly_getnoise_eta1122_4x"; "poly_getnoise_eta2"]
     | Kyber768 => ["shake128_absorb_once"; "shake128_squeezeblocks"]
     | Kyber1024 => ["poly_getnoise_eta2"]
     end)%list.
(** avx2/polyvec.c *)
Definition avx2_polyvec_c (lv : level) : unit_file := c_file Avx2Tree
    ["polyvec_compress"; "polyvec_decompress"; "polyvec_tobytes"; "polyvec_frombytes";
     "polyvec_ntt"; "polyvec_invntt_tomont"; "polyvec_basemul_acc_montgomery";
     "polyvec_reduce"; "polyvec_add"]
    (["poly_add"; "poly_basemul_montgomery"; "poly_frombytes"; "poly_invntt_tomont";
     "poly_ntt"; "poly_reduce"; "poly_tobytes"; "qdata"] ++
     match lv with
     | Kyber512 => ["memcpy"]
     | Kyber768 => ["memcpy"]
     | Kyber1024 => []
     end)%list.
(** avx2/poly.c *)
Definition avx2_poly_c (lv : level) : unit_file := c_file Avx2Tree
    (["poly_compress"; "poly_decompress"; "poly_tobytes"; "poly_frombytes";
     "poly_frommsg"; "poly_tomsg"; "poly_getnoise_eta1"; "poly_getnoise_eta2";
     "poly_getnoise_eta1_4x"; "poly_ntt"; "poly_invntt_tomont"; "poly_nttunpack";
     "poly_basemul_montgomery"; "poly_tomont"; "poly_reduce"; "poly_add"; "poly_sub"] ++
     match lv with
     | Kyber512 => ["poly_getnoise_eta1122_4x"]
     | Kyber768 => []
     | Kyber1024 => []
     end)%list
    ["memcpy"; "basemul_avx"; "invntt_avx"; "kyber_shake256_prf"; "ntt_avx";
     "nttfrombytes_avx"; "ntttobytes_avx"; "nttunpack_avx"; "poly_cbd_eta1";
     "poly_cbd_eta2"; "qdata"; "reduce_avx"; "tomont_avx"; "shake256x4_absorb_once";
     "shake256x4_squeezeblocks"].
(** avx2/consts.c *)
Definition avx2_consts_c (_ : level) : unit_file := c_file Avx2Tree
    ["qdata"]
    [].
(** avx2/rejsample.c *)
Definition avx2_rejsample_c (_ : level) : unit_file := c_file Avx2Tree
    ["rej_uniform_avx"]
    ["qdata"].
(** avx2/cbd.c *)
Definition avx2_cbd_c (_ : level) : unit_file := c_file Avx2Tree
    ["poly_cbd_eta1"; "poly_cbd_eta2"]
    [].
(** avx2/verify.c *)
Definition avx2_verify_c (_ : level) : unit_file := c_file Avx2Tree
    ["verify"; "cmov"]
    [].
(** avx2/fips202.c *)
Definition avx2_fips202_c (_ : level) : unit_file := c_file Avx2Tree
    ["shake128_init"; "shake128_absorb"; "shake128_finalize"; "shake128_squeeze";
     "shake128_absorb_once"; "shake128_squeezeblocks"; "shake256_init";
     "shake256_absorb"; "shake256_finalize"; "shake256_squeeze"; "shake256_absorb_once";
     "shake256_squeezeblocks"; "shake128"; "shake256"; "sha3_256"; "sha3_512"]
    ["shake128_absorb_once"; "shake128_squeeze"; "shake128_squeezeblocks";
     "shake256_absorb_once"; "shake256_squeeze"; "shake256_squeezeblocks"].
(** avx2/fips202x4.c *)
Definition avx2_fips202x4_c (_ : level) : unit_file := c_file Avx2Tree
    ["shake128x4_absorb_once"; "shake128x4_squeezeblocks"; "shake256x4_absorb_once";
     "shake256x4_squeezeblocks"; "shake128x4"; "shake256x4"]
    ["KeccakF1600_StatePermute4x"; "shake128x4_absorb_once"; "shake128x4_squeezeblocks";
     "shake256x4_absorb_once"; "shake256x4_squeezeblocks"].
(** avx2/symmetric-shake.c *)
Definition avx2_symmetric_shake_c (_ : level) : unit_file := c_file Avx2Tree
    ["kyber_shake128_absorb"; "kyber_shake256_prf"; "kyber_shake256_rkprf"]
    ["memcpy"; "shake128_absorb_once"; "shake256"; "shake256_absorb";
     "shake256_finalize"; "shake256_init"; "shake256_squeeze"].
(** avx2/randombytes.c *)
Definition avx2_randombytes_c (_ : level) : unit_file := c_file Avx2Tree
    ["randombytes"]
    ["abort"; "open"; "read"; "syscall"].
(** avx2/test/test_kyber.c *)
Definition avx2_test_kyber_c (_ : level) : unit_file := c_file Avx2Tree
    ["main"]
    ["memcmp"; "crypto_kem_dec"; "crypto_kem_enc"; "crypto_kem_keypair"; "printf";
     "randombytes"].
(** avx2/test/test_vectors.c *)
Definition avx2_test_vectors_c (_ : level) : unit_file := c_file Avx2Tree
    ["randombytes"; "main"]
    ["fprintf"; "crypto_kem_dec"; "crypto_kem_enc"; "crypto_kem_keypair";
     "shake128_squeeze"; "printf"; "randombytes"].
(** avx2/test/test_speed.c *)
Definition avx2_test_speed_c (_ : level) : unit_file := c_file Avx2Tree
    ["t"; "seed"; "main"]
    ["crypto_kem_dec"; "crypto_kem_enc"; "crypto_kem_enc_derand"; "gen_matrix";
     "indcpa_dec"; "indcpa_enc"; "indcpa_keypair_derand"; "crypto_kem_keypair";
     "crypto_kem_keypair_derand"; "poly_compress"; "poly_decompress"; "poly_frommsg";
     "poly_getnoise_eta1"; "poly_getnoise_eta2"; "poly_invntt_tomont"; "poly_ntt";
     "poly_tomsg"; "polyvec_basemul_acc_montgomery"; "polyvec_compress";
     "polyvec_decompress"; "print_results"; "randombytes"].
(** avx2/test/speed_print.c *)
Definition avx2_speed_print_c (_ : level) : unit_file := c_file Avx2Tree
    ["print_results"]
    ["cpucycles_overhead"; "fprintf"; "printf"; "qsort"].
(** avx2/test/cpucycles.c *)
Definition avx2_cpucycles_c (_ : level) : unit_file := c_file Avx2Tree
    ["cpucycles_overhead"]
    [].
(** avx2/keccak4x/KeccakP-1600-times4-SIMD256.c *)
Definition avx2_KeccakP_1600_times4_SIMD256_c (_ : level) : unit_file := c_file Avx2Tree
    ["KeccakP1600times4_InitializeAll"; "KeccakP1600times4_AddBytes";
     "KeccakP1600times4_AddLanesAll"; "KeccakP1600times4_OverwriteBytes";
     "KeccakP1600times4_OverwriteLanesAll"; "KeccakP1600times4_OverwriteWithZeroes";
     "KeccakP1600times4_ExtractBytes"; "KeccakP1600times4_ExtractLanesAll";
     "KeccakP1600times4_ExtractAndAddBytes"; "KeccakP1600times4_ExtractAndAddLanesAll";
     "KeccakP1600times4_PermuteAll_24rounds"; "KeccakP1600times4_PermuteAll_12rounds";
     "KeccakF1600times4_FastLoop_Absorb"; "KeccakP1600times4_12rounds_FastLoop_Absorb"]
    ["memcpy"; "memset"; "KeccakP1600times4_AddLanesAll";
     "KeccakP1600times4_PermuteAll_12rounds"; "KeccakP1600times4_PermuteAll_24rounds"].
(** avx2/fq.S:37-80 *)
Definition avx2_fq_S (_ : level) : unit_file := asm_file ["reduce_avx"; "tomont_avx"].
(** avx2/shuffle.S:94-248 *)
Definition avx2_shuffle_S (_ : level) : unit_file := asm_file ["nttunpack_avx"; "ntttobytes_avx"; "nttfrombytes_avx"].
(** avx2/ntt.S:179 *)
Definition avx2_ntt_S (_ : level) : unit_file := asm_file ["ntt_avx"].
(** avx2/invntt.S:184 *)
Definition avx2_invntt_S (_ : level) : unit_file := asm_file ["invntt_avx"].
(** avx2/basemul.S:86 *)
Definition avx2_basemul_S (_ : level) : unit_file := asm_file ["basemul_avx"].

(** ** The Makefiles *)

(** SOURCES: ref/Makefile:7, avx2/Makefile:9-10. *)
Definition sources (T : tree) (lv : level) : list unit_file :=
  match T with
  | RefTree =>
      [ref_kem_c lv; ref_indcpa_c lv; ref_polyvec_c lv; ref_poly_c lv; ref_ntt_c lv;
       ref_cbd_c lv; ref_reduce_c lv; ref_verify_c lv]
  | Avx2Tree =>
      [avx2_kem_c lv; avx2_indcpa_c lv; avx2_polyvec_c lv; avx2_poly_c lv; avx2_fq_S lv;
       avx2_shuffle_S lv; avx2_ntt_S lv; avx2_invntt_S lv; avx2_basemul_S lv;
       avx2_consts_c lv; avx2_rejsample_c lv; avx2_cbd_c lv; avx2_verify_c lv]
  end.
(** SOURCESKECCAK: ref/Makefile:8, avx2/Makefile:11-12. *)
Definition sources_keccak (T : tree) (lv : level) : list unit_file :=
  (sources T lv ++
   match T with
   | RefTree => [ref_fips202_c lv; ref_symmetric_shake_c lv]
   | Avx2Tree => [avx2_fips202_c lv; avx2_fips202x4_c lv; avx2_symmetric_shake_c lv;
                  avx2_KeccakP_1600_times4_SIMD256_c lv]
   end)%list.

(** The executables (ref/Makefile:57-91, avx2/Makefile:73-98; the NIST program is
    built from the reference tree only) and the shared libraries
    (ref/Makefile:41-55, avx2/Makefile:49-71). *)
Inductive program := Test_kyber | Test_vectors | Test_speed | PQCgenKAT.
Inductive library := Lib_kyber (lv : level) | Lib_fips202 | Lib_fips202x4.

Definition program_files (T : tree) (lv : level) (p : program) : list unit_file :=
  match T, p with
  | RefTree, Test_kyber =>
      (sources_keccak T lv ++ [ref_randombytes_c lv; ref_test_kyber_c lv])%list
  | RefTree, Test_vectors => (sources_keccak T lv ++ [ref_test_vectors_c lv])%list
  | RefTree, Test_speed =>
      (sources_keccak T lv ++
       [ref_randombytes_c lv; ref_cpucycles_c lv; ref_speed_print_c lv; ref_test_speed_c lv])%list
  | RefTree, PQCgenKAT =>
      (sources_keccak T lv ++ [ref_rng_c lv; ref_PQCgenKAT_kem_c lv])%list
  | Avx2Tree, Test_kyber =>
      (sources_keccak T lv ++ [avx2_randombytes_c lv; avx2_test_kyber_c lv])%list
  | Avx2Tree, Test_vectors => (sources_keccak T lv ++ [avx2_test_vectors_c lv])%list
  | Avx2Tree, Test_speed =>
      (sources_keccak T lv ++
       [avx2_randombytes_c lv; avx2_cpucycles_c lv; avx2_speed_print_c lv; avx2_test_speed_c lv])%list
  | Avx2Tree, PQCgenKAT => []
  end.

(** The level only selects names with KYBER_NAMESPACE; the Keccak libraries
    contain none. *)
Definition library_level (b : library) : level :=
  match b with Lib_kyber lv => lv | _ => Kyber512 end.
Definition library_files (T : tree) (b : library) : list unit_file :=
  match T, b with
  | RefTree, Lib_kyber lv => (sources T lv ++ [ref_symmetric_shake_c lv])%list
  | Avx2Tree, Lib_kyber lv => (sources T lv ++ [avx2_symmetric_shake_c lv])%list
  | RefTree, Lib_fips202 => [ref_fips202_c Kyber512]
  | Avx2Tree, Lib_fips202 => [avx2_fips202_c Kyber512]
  | RefTree, Lib_fips202x4 => []
  | Avx2Tree, Lib_fips202x4 =>
      [avx2_fips202x4_c Kyber512; avx2_KeccakP_1600_times4_SIMD256_c Kyber512]
  end.

(** The names api.h declares (ref/api.h:20-24, 40-44, 60-64 and the same lines of
    avx2/api.h), as written there. *)
Definition api_names (T : tree) (lv : level) : list string :=
  match T, lv with

  | RefTree, Kyber512 =>
    ["pqcrystals_kyber512_ref_keypair_derand"; "pqcrystals_kyber512_ref_keypair";
     "pqcrystals_kyber512_ref_enc_derand"; "pqcrystals_kyber512_ref_enc";
     "pqcrystals_kyber512_ref_dec"]
  | RefTree, Kyber768 =>
    ["pqcrystals_kyber768_ref_keypair_derand"; "pqcrystals_kyber768_ref_keypair";
     "pqcrystals_kyber768_ref_enc_derand"; "pqcrystals_kyber768_ref_enc";
     "pqcrystals_kyber768_ref_dec"]
  | RefTree, Kyber1024 =>
    ["pqcrystals_kyber1024_ref_keypair_derand"; "pqcrystals_kyber1024_ref_keypair";
     "pqcrystals_kyber1024_ref_enc_derand"; "pqcrystals_kyber1024_ref_enc";
     "pqcrystals_kyber1024_ref_dec"]
  | Avx2Tree, Kyber512 =>
    ["pqcrystals_kyber512_avx2_keypair_derand"; "pqcrystals_kyber512_avx2_keypair";
     "pqcrystals_kyber512_avx2_enc_derand"; "pqcrystals_kyber512_avx2_enc";
     "pqcrystals_kyber512_avx2_dec"]
  | Avx2Tree, Kyber768 =>
    ["pqcrystals_kyber768_avx2_keypair_derand"; "pqcrystals_kyber768_avx2_keypair";
     "pqcrystals_kyber768_avx2_enc_derand"; "pqcrystals_kyber768_avx2_enc";
     "pqcrystals_kyber768_avx2_dec"]
  | Avx2Tree, Kyber1024 =>
    ["pqcrystals_kyber1024_avx2_keypair_derand"; "pqcrystals_kyber1024_avx2_keypair";
     "pqcrystals_kyber1024_avx2_enc_derand"; "pqcrystals_kyber1024_avx2_enc";
     "pqcrystals_kyber1024_avx2_dec"]
  end.
