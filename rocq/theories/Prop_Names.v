(** * C79: the names the code gives to the linker *)
From Coq Require Import List String.
From Verif Require Import Model_Params Model_Names Vocab_Names Proof_Names.
Import ListNotations.
Open Scope string_scope.

(** Whatever stands behind the prefixes, a name of one family is never a name of
    another one, and within a family different names stay different. *)
Theorem C79_families_apart : forall F F' s t,
  family_prefix F ++ s = family_prefix F' ++ t -> F = F' /\ s = t.
Proof. exact prefixes_free. Qed.
Print Assumptions C79_families_apart.

(** In every executable of the Makefiles no name is defined twice. *)
Theorem C79_program_one_definition : forall T lv p,
  NoDup (names_defined T lv (program_files T lv p)).
Proof. exact program_one_definition. Qed.
Print Assumptions C79_program_one_definition.

(** And every name referred to is defined in it, or is one of the listed
    functions of the C library and of libcrypto. *)
Theorem C79_program_resolves : forall T lv p s,
  In s (names_referred T lv (program_files T lv p)) ->
  In s (names_defined T lv (program_files T lv p)) \/ In s (c_library ++ libcrypto)%list.
Proof. exact program_resolves. Qed.
Print Assumptions C79_program_resolves.

(** None of them replaces a library function the code relies on. *)
Theorem C79_program_no_override : forall T lv p s,
  In s (names_defined T lv (program_files T lv p)) -> ~ In s (c_library ++ libcrypto)%list.
Proof. exact program_no_override. Qed.
Print Assumptions C79_program_no_override.

(** In every shared library no name is defined twice. *)
Theorem C79_library_one_definition : forall T b, NoDup (library_defined T b).
Proof. exact library_one_definition. Qed.
Print Assumptions C79_library_one_definition.

(** Two different shared libraries, of either tree and any parameter set, have no
    name in common: all of them can be loaded into one program. *)
Theorem C79_libraries_coexist : forall T b T' b' s, (T, b) <> (T', b') ->
  In s (library_defined T b) -> ~ In s (library_defined T' b').
Proof. exact libraries_apart. Qed.
Print Assumptions C79_libraries_coexist.

(** Every name a shared library defines starts with the project's prefix. *)
Theorem C79_library_prefixed : forall T b s, In s (library_defined T b) ->
  exists t, s = "pqcrystals_kyber" ++ t.
Proof. exact library_common. Qed.
Print Assumptions C79_library_prefixed.

(** A KEM library needs from outside only the Keccak libraries of its own tree,
    the C library, and randombytes. *)
Theorem C79_kyber_library_needs : forall T lv s,
  In s (library_referred T (Lib_kyber lv)) ->
  In s (library_defined T (Lib_kyber lv)) \/ In s (library_defined T Lib_fips202) \/
  In s (library_defined T Lib_fips202x4) \/ In s c_library \/ s = "randombytes".
Proof. exact kyber_library_needs. Qed.
Print Assumptions C79_kyber_library_needs.

(** A Keccak library needs only the C library. *)
Theorem C79_keccak_library_needs : forall T b s, b = Lib_fips202 \/ b = Lib_fips202x4 ->
  In s (library_referred T b) -> In s (library_defined T b) \/ In s c_library.
Proof. exact keccak_library_needs. Qed.
Print Assumptions C79_keccak_library_needs.

(** The names api.h publishes are the names kem.c defines, in that order. *)
Theorem C79_api : forall T lv,
  api_names T lv = names_defined T lv [kem_file T lv].
Proof. exact api_exact. Qed.
Print Assumptions C79_api.

(** And the KEM library exports them. *)
Theorem C79_api_exported : forall T lv s,
  In s (api_names T lv) -> In s (library_defined T (Lib_kyber lv)).
Proof. exact api_exported. Qed.
Print Assumptions C79_api_exported.

(** Every name the reference headers put into a namespace is defined. *)
Theorem C79_reference_declared : forall lv c y, In (c, y) ref_macros ->
  In (linker_name RefTree lv y) (names_defined RefTree lv (sources_keccak RefTree lv)).
Proof. exact declared_ref. Qed.
Print Assumptions C79_reference_declared.

(** So is every name of the AVX2 headers, but for two that are declared only, and
    the one function that belongs to Kyber512. *)
Theorem C79_avx2_declared : forall lv c y, In (c, y) avx2_macros ->
  In (linker_name Avx2Tree lv y) (names_defined Avx2Tree lv (sources_keccak Avx2Tree lv)) \/
  c = "nttpack_avx" \/ c = "cmov_int16" \/
  (c = "poly_getnoise_eta1122_4x" /\ lv <> Kyber512).
Proof. exact declared_avx2. Qed.
Print Assumptions C79_avx2_declared.

(** "Every declared function is defined" is false of the AVX2 tree (ntt.h:12-13
    declares nttpack_avx; shuffle.S:6 has it as a local label only). *)
Theorem C79_all_declared_defined_refuted : exists c y, In (c, y) avx2_macros /\
  forall lv, ~ In (linker_name Avx2Tree lv y)
                  (names_defined Avx2Tree lv (sources_keccak Avx2Tree lv)).
Proof. exact declared_missing. Qed.
Print Assumptions C79_all_declared_defined_refuted.

Example C79_case :
  expand Avx2Tree "poly_getnoise_eta1_4x" = Kyber "poly_getnoise_eta2_4x" /\
  In "pqcrystals_kyber768_avx2_poly_getnoise_eta2_4x" (library_referred Avx2Tree (Lib_kyber Kyber768)) /\
  In "pqcrystals_kyber768_avx2_poly_getnoise_eta2_4x" (library_defined Avx2Tree (Lib_kyber Kyber768)) /\
  In "pqcrystals_kyber_fips202_ref_sha3_256" (library_referred RefTree (Lib_kyber Kyber512)) /\
  In "pqcrystals_kyber_fips202_ref_sha3_256" (library_defined RefTree Lib_fips202) /\
  In "randombytes" (library_referred RefTree (Lib_kyber Kyber512)) /\
  In "randombytes" (names_defined RefTree Kyber512 (program_files RefTree Kyber512 PQCgenKAT)) /\
  In "EVP_aes_256_ecb" (names_referred RefTree Kyber512 (program_files RefTree Kyber512 PQCgenKAT)) /\
  List.length (library_defined RefTree (Lib_kyber Kyber512)) = 47%nat.
Proof. exact names_case. Qed.
