(** * Words for the statements about linker names *)
From Coq Require Import List String.
From Verif Require Import Model_Params Model_Names.
Import ListNotations.
Open Scope string_scope.

(** The families of names the headers set up: one for each tree and parameter
    set, one for each parameter set under KYBER_90S, and the Keccak ones. *)
Inductive family :=
| KyberNames (T : tree) (lv : level)
| Kyber90sNames (lv : level)
| Fips202Names (T : tree)
| Fips202x4Names.
Definition family_prefix (F : family) : string :=
  match F with
  | KyberNames T lv => kyber_prefix T lv
  | Kyber90sNames lv => kyber_90s_prefix lv
  | Fips202Names T => fips202_prefix T
  | Fips202x4Names => fips202x4_prefix
  end.

(** What a set of source files compiled with one KYBER_K gives to the linker. *)
Definition names_defined (T : tree) (lv : level) (fs : list unit_file) : list string :=
  map (linker_name T lv) (flat_map defines fs).
Definition names_referred (T : tree) (lv : level) (fs : list unit_file) : list string :=
  map (linker_name T lv) (flat_map refers fs).

Definition library_defined (T : tree) (b : library) : list string :=
  names_defined T (library_level b) (library_files T b).
Definition library_referred (T : tree) (b : library) : list string :=
  names_referred T (library_level b) (library_files T b).

(** The functions of the C library and of libcrypto the code calls. *)
Definition c_library : list string :=
  ["abort"; "fclose"; "fgetc"; "fopen"; "fprintf"; "fscanf"; "isxdigit"; "memcmp";
   "memcpy"; "memset"; "open"; "printf"; "qsort"; "read"; "sprintf"; "strlen";
   "strncmp"; "syscall"].
Definition libcrypto : list string :=
  ["ERR_print_errors_fp"; "EVP_CIPHER_CTX_free"; "EVP_CIPHER_CTX_new";
   "EVP_EncryptInit_ex"; "EVP_EncryptUpdate"; "EVP_aes_256_ecb"].

(** kem.c of either tree (one text, compiled against the tree's headers). *)
Definition kem_file (T : tree) (lv : level) : unit_file :=
  match T with RefTree => ref_kem_c lv | Avx2Tree => avx2_kem_c lv end.
