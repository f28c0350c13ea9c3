(** * The four-way Keccak permutation of the AVX2 variant

    /repo/avx2/keccak4x/KeccakP-1600-times4-SIMD256.c with
    KeccakP-1600-unrolling.macros, as configured by KeccakP-SIMD256-config.h
    (KeccakP1600times4_fullUnrolling, KeccakP1600times4_useAVX2).  Of the many
    functions of that file the library calls only
    KeccakP1600times4_PermuteAll_24rounds; the others are in Model_AvxSnP.v.

    - A V256 (__m256i) is the list of its four 64-bit lanes, lane 0 the least
      significant one; every lane is a number in [0, 2^64).
    - The round macros are programs over the variables of declareABCDE; a
      program is a list of assignments and the operators are the macros
      ANDnu256, CONST256_64, ROL64in256, ROL64in256_8, ROL64in256_56, XOR256 of
      lines 40-54 ([XOReq256(a, b)] is [a = XOR256(a, b)]).
    - Executing a program is parametric in the type of the values. *)
From Coq Require Import ZArith List Bool.
From Verif Require Import CMonad Model_Fips202.
Import ListNotations.
Open Scope Z_scope.

(** ** Programs *)
Inductive kvar : Type :=
| kA (i : nat) | kE (i : nat)   (* Aba .. Asu, Eba .. Esu *)
| kB (i : nat)                  (* Bba .. Bsu *)
| kC (i : nat) | kC1 (i : nat)  (* Ca .. Cu, Ca1 .. Cu1 *)
| kD (i : nat).                 (* Da .. Du *)
Definition kvar_eqb (a b : kvar) : bool :=
  match a, b with
  | kA i, kA j | kE i, kE j | kB i, kB j | kC i, kC j | kC1 i, kC1 j | kD i, kD j => (i =? j)%nat
  | _, _ => false
  end.

Inductive kexpr : Type :=
| KV (x : kvar)
| XOR256 (a b : kexpr)
| ANDnu256 (a b : kexpr)
| ROL64in256 (a : kexpr) (o : Z)
| ROL64in256_8 (a : kexpr)
| ROL64in256_56 (a : kexpr)
| CONST256_64 (i : nat).        (* of KeccakF1600RoundConstants[i] *)
Record kstmt : Type := KSet { ktarget : kvar; ksource : kexpr }.
Local Notation "x <~ e" := (KSet x e) (at level 60).
Local Coercion KV : kvar >-> kexpr.

Local Notation ba := 0%nat. Local Notation be := 1%nat. Local Notation bi := 2%nat.
Local Notation bo := 3%nat. Local Notation bu := 4%nat.
Local Notation ga := 5%nat. Local Notation ge := 6%nat. Local Notation gi := 7%nat.
Local Notation go := 8%nat. Local Notation gu := 9%nat.
Local Notation ka := 10%nat. Local Notation ke := 11%nat. Local Notation ki := 12%nat.
Local Notation ko := 13%nat. Local Notation ku := 14%nat.
Local Notation ma := 15%nat. Local Notation me := 16%nat. Local Notation mi := 17%nat.
Local Notation mo := 18%nat. Local Notation mu := 19%nat.
Local Notation sa := 20%nat. Local Notation se := 21%nat. Local Notation si := 22%nat.
Local Notation so := 23%nat. Local Notation su := 24%nat.

(** KeccakP-1600-times4-SIMD256.c:464-469 *)
Definition prepareTheta : list kstmt :=
  [ kC 0 <~ XOR256 (kA ba) (XOR256 (kA ga) (XOR256 (kA ka) (XOR256 (kA ma) (kA sa))));
    kC 1 <~ XOR256 (kA be) (XOR256 (kA ge) (XOR256 (kA ke) (XOR256 (kA me) (kA se))));
    kC 2 <~ XOR256 (kA bi) (XOR256 (kA gi) (XOR256 (kA ki) (XOR256 (kA mi) (kA si))));
    kC 3 <~ XOR256 (kA bo) (XOR256 (kA go) (XOR256 (kA ko) (XOR256 (kA mo) (kA so))));
    kC 4 <~ XOR256 (kA bu) (XOR256 (kA gu) (XOR256 (kA ku) (XOR256 (kA mu) (kA su)))) ].

(** KeccakP-1600-times4-SIMD256.c:473-590 *)
Definition thetaRhoPiChiIotaPrepareTheta (i : nat) (X Y : nat -> kvar) : list kstmt :=
  [ kC1 1 <~ ROL64in256 (kC 1) 1;
    kD 0 <~ XOR256 (kC 4) (kC1 1);
    kC1 2 <~ ROL64in256 (kC 2) 1;
    kD 1 <~ XOR256 (kC 0) (kC1 2);
    kC1 3 <~ ROL64in256 (kC 3) 1;
    kD 2 <~ XOR256 (kC 1) (kC1 3);
    kC1 4 <~ ROL64in256 (kC 4) 1;
    kD 3 <~ XOR256 (kC 2) (kC1 4);
    kC1 0 <~ ROL64in256 (kC 0) 1;
    kD 4 <~ XOR256 (kC 3) (kC1 0);
    X ba <~ XOR256 (X ba) (kD 0);
    kB ba <~ X ba;
    X ge <~ XOR256 (X ge) (kD 1);
    kB be <~ ROL64in256 (X ge) 44;
    X ki <~ XOR256 (X ki) (kD 2);
    kB bi <~ ROL64in256 (X ki) 43;
    Y ba <~ XOR256 (kB ba) (ANDnu256 (kB be) (kB bi));
    Y ba <~ XOR256 (Y ba) (CONST256_64 i);
    kC 0 <~ Y ba;
    X mo <~ XOR256 (X mo) (kD 3);
    kB bo <~ ROL64in256 (X mo) 21;
    Y be <~ XOR256 (kB be) (ANDnu256 (kB bi) (kB bo));
    kC 1 <~ Y be;
    X su <~ XOR256 (X su) (kD 4);
    kB bu <~ ROL64in256 (X su) 14;
    Y bi <~ XOR256 (kB bi) (ANDnu256 (kB bo) (kB bu));
    kC 2 <~ Y bi;
    Y bo <~ XOR256 (kB bo) (ANDnu256 (kB bu) (kB ba));
    kC 3 <~ Y bo;
    Y bu <~ XOR256 (kB bu) (ANDnu256 (kB ba) (kB be));
    kC 4 <~ Y bu;
    X bo <~ XOR256 (X bo) (kD 3);
    kB ga <~ ROL64in256 (X bo) 28;
    X gu <~ XOR256 (X gu) (kD 4);
    kB ge <~ ROL64in256 (X gu) 20;
    X ka <~ XOR256 (X ka) (kD 0);
    kB gi <~ ROL64in256 (X ka) 3;
    Y ga <~ XOR256 (kB ga) (ANDnu256 (kB ge) (kB gi));
    kC 0 <~ XOR256 (kC 0) (Y ga);
    X me <~ XOR256 (X me) (kD 1);
    kB go <~ ROL64in256 (X me) 45;
    Y ge <~ XOR256 (kB ge) (ANDnu256 (kB gi) (kB go));
    kC 1 <~ XOR256 (kC 1) (Y ge);
    X si <~ XOR256 (X si) (kD 2);
    kB gu <~ ROL64in256 (X si) 61;
    Y gi <~ XOR256 (kB gi) (ANDnu256 (kB go) (kB gu));
    kC 2 <~ XOR256 (kC 2) (Y gi);
    Y go <~ XOR256 (kB go) (ANDnu256 (kB gu) (kB ga));
    kC 3 <~ XOR256 (kC 3) (Y go);
    Y gu <~ XOR256 (kB gu) (ANDnu256 (kB ga) (kB ge));
    kC 4 <~ XOR256 (kC 4) (Y gu);
    X be <~ XOR256 (X be) (kD 1);
    kB ka <~ ROL64in256 (X be) 1;
    X gi <~ XOR256 (X gi) (kD 2);
    kB ke <~ ROL64in256 (X gi) 6;
    X ko <~ XOR256 (X ko) (kD 3);
    kB ki <~ ROL64in256 (X ko) 25;
    Y ka <~ XOR256 (kB ka) (ANDnu256 (kB ke) (kB ki));
    kC 0 <~ XOR256 (kC 0) (Y ka);
    X mu <~ XOR256 (X mu) (kD 4);
    kB ko <~ ROL64in256_8 (X mu);
    Y ke <~ XOR256 (kB ke) (ANDnu256 (kB ki) (kB ko));
    kC 1 <~ XOR256 (kC 1) (Y ke);
    X sa <~ XOR256 (X sa) (kD 0);
    kB ku <~ ROL64in256 (X sa) 18;
    Y ki <~ XOR256 (kB ki) (ANDnu256 (kB ko) (kB ku));
    kC 2 <~ XOR256 (kC 2) (Y ki);
    Y ko <~ XOR256 (kB ko) (ANDnu256 (kB ku) (kB ka));
    kC 3 <~ XOR256 (kC 3) (Y ko);
    Y ku <~ XOR256 (kB ku) (ANDnu256 (kB ka) (kB ke));
    kC 4 <~ XOR256 (kC 4) (Y ku);
    X bu <~ XOR256 (X bu) (kD 4);
    kB ma <~ ROL64in256 (X bu) 27;
    X ga <~ XOR256 (X ga) (kD 0);
    kB me <~ ROL64in256 (X ga) 36;
    X ke <~ XOR256 (X ke) (kD 1);
    kB mi <~ ROL64in256 (X ke) 10;
    Y ma <~ XOR256 (kB ma) (ANDnu256 (kB me) (kB mi));
    kC 0 <~ XOR256 (kC 0) (Y ma);
    X mi <~ XOR256 (X mi) (kD 2);
    kB mo <~ ROL64in256 (X mi) 15;
    Y me <~ XOR256 (kB me) (ANDnu256 (kB mi) (kB mo));
    kC 1 <~ XOR256 (kC 1) (Y me);
    X so <~ XOR256 (X so) (kD 3);
    kB mu <~ ROL64in256_56 (X so);
    Y mi <~ XOR256 (kB mi) (ANDnu256 (kB mo) (kB mu));
    kC 2 <~ XOR256 (kC 2) (Y mi);
    Y mo <~ XOR256 (kB mo) (ANDnu256 (kB mu) (kB ma));
    kC 3 <~ XOR256 (kC 3) (Y mo);
    Y mu <~ XOR256 (kB mu) (ANDnu256 (kB ma) (kB me));
    kC 4 <~ XOR256 (kC 4) (Y mu);
    X bi <~ XOR256 (X bi) (kD 2);
    kB sa <~ ROL64in256 (X bi) 62;
    X go <~ XOR256 (X go) (kD 3);
    kB se <~ ROL64in256 (X go) 55;
    X ku <~ XOR256 (X ku) (kD 4);
    kB si <~ ROL64in256 (X ku) 39;
    Y sa <~ XOR256 (kB sa) (ANDnu256 (kB se) (kB si));
    kC 0 <~ XOR256 (kC 0) (Y sa);
    X ma <~ XOR256 (X ma) (kD 0);
    kB so <~ ROL64in256 (X ma) 41;
    Y se <~ XOR256 (kB se) (ANDnu256 (kB si) (kB so));
    kC 1 <~ XOR256 (kC 1) (Y se);
    X se <~ XOR256 (X se) (kD 1);
    kB su <~ ROL64in256 (X se) 2;
    Y si <~ XOR256 (kB si) (ANDnu256 (kB so) (kB su));
    kC 2 <~ XOR256 (kC 2) (Y si);
    Y so <~ XOR256 (kB so) (ANDnu256 (kB su) (kB sa));
    kC 3 <~ XOR256 (kC 3) (Y so);
    Y su <~ XOR256 (kB su) (ANDnu256 (kB sa) (kB se));
    kC 4 <~ XOR256 (kC 4) (Y su) ].

(** KeccakP-1600-times4-SIMD256.c:594-686 *)
Definition thetaRhoPiChiIota (i : nat) (X Y : nat -> kvar) : list kstmt :=
  [ kC1 1 <~ ROL64in256 (kC 1) 1;
    kD 0 <~ XOR256 (kC 4) (kC1 1);
    kC1 2 <~ ROL64in256 (kC 2) 1;
    kD 1 <~ XOR256 (kC 0) (kC1 2);
    kC1 3 <~ ROL64in256 (kC 3) 1;
    kD 2 <~ XOR256 (kC 1) (kC1 3);
    kC1 4 <~ ROL64in256 (kC 4) 1;
    kD 3 <~ XOR256 (kC 2) (kC1 4);
    kC1 0 <~ ROL64in256 (kC 0) 1;
    kD 4 <~ XOR256 (kC 3) (kC1 0);
    X ba <~ XOR256 (X ba) (kD 0);
    kB ba <~ X ba;
    X ge <~ XOR256 (X ge) (kD 1);
    kB be <~ ROL64in256 (X ge) 44;
    X ki <~ XOR256 (X ki) (kD 2);
    kB bi <~ ROL64in256 (X ki) 43;
    Y ba <~ XOR256 (kB ba) (ANDnu256 (kB be) (kB bi));
    Y ba <~ XOR256 (Y ba) (CONST256_64 i);
    X mo <~ XOR256 (X mo) (kD 3);
    kB bo <~ ROL64in256 (X mo) 21;
    Y be <~ XOR256 (kB be) (ANDnu256 (kB bi) (kB bo));
    X su <~ XOR256 (X su) (kD 4);
    kB bu <~ ROL64in256 (X su) 14;
    Y bi <~ XOR256 (kB bi) (ANDnu256 (kB bo) (kB bu));
    Y bo <~ XOR256 (kB bo) (ANDnu256 (kB bu) (kB ba));
    Y bu <~ XOR256 (kB bu) (ANDnu256 (kB ba) (kB be));
    X bo <~ XOR256 (X bo) (kD 3);
    kB ga <~ ROL64in256 (X bo) 28;
    X gu <~ XOR256 (X gu) (kD 4);
    kB ge <~ ROL64in256 (X gu) 20;
    X ka <~ XOR256 (X ka) (kD 0);
    kB gi <~ ROL64in256 (X ka) 3;
    Y ga <~ XOR256 (kB ga) (ANDnu256 (kB ge) (kB gi));
    X me <~ XOR256 (X me) (kD 1);
    kB go <~ ROL64in256 (X me) 45;
    Y ge <~ XOR256 (kB ge) (ANDnu256 (kB gi) (kB go));
    X si <~ XOR256 (X si) (kD 2);
    kB gu <~ ROL64in256 (X si) 61;
    Y gi <~ XOR256 (kB gi) (ANDnu256 (kB go) (kB gu));
    Y go <~ XOR256 (kB go) (ANDnu256 (kB gu) (kB ga));
    Y gu <~ XOR256 (kB gu) (ANDnu256 (kB ga) (kB ge));
    X be <~ XOR256 (X be) (kD 1);
    kB ka <~ ROL64in256 (X be) 1;
    X gi <~ XOR256 (X gi) (kD 2);
    kB ke <~ ROL64in256 (X gi) 6;
    X ko <~ XOR256 (X ko) (kD 3);
    kB ki <~ ROL64in256 (X ko) 25;
    Y ka <~ XOR256 (kB ka) (ANDnu256 (kB ke) (kB ki));
    X mu <~ XOR256 (X mu) (kD 4);
    kB ko <~ ROL64in256_8 (X mu);
    Y ke <~ XOR256 (kB ke) (ANDnu256 (kB ki) (kB ko));
    X sa <~ XOR256 (X sa) (kD 0);
    kB ku <~ ROL64in256 (X sa) 18;
    Y ki <~ XOR256 (kB ki) (ANDnu256 (kB ko) (kB ku));
    Y ko <~ XOR256 (kB ko) (ANDnu256 (kB ku) (kB ka));
    Y ku <~ XOR256 (kB ku) (ANDnu256 (kB ka) (kB ke));
    X bu <~ XOR256 (X bu) (kD 4);
    kB ma <~ ROL64in256 (X bu) 27;
    X ga <~ XOR256 (X ga) (kD 0);
    kB me <~ ROL64in256 (X ga) 36;
    X ke <~ XOR256 (X ke) (kD 1);
    kB mi <~ ROL64in256 (X ke) 10;
    Y ma <~ XOR256 (kB ma) (ANDnu256 (kB me) (kB mi));
    X mi <~ XOR256 (X mi) (kD 2);
    kB mo <~ ROL64in256 (X mi) 15;
    Y me <~ XOR256 (kB me) (ANDnu256 (kB mi) (kB mo));
    X so <~ XOR256 (X so) (kD 3);
    kB mu <~ ROL64in256_56 (X so);
    Y mi <~ XOR256 (kB mi) (ANDnu256 (kB mo) (kB mu));
    Y mo <~ XOR256 (kB mo) (ANDnu256 (kB mu) (kB ma));
    Y mu <~ XOR256 (kB mu) (ANDnu256 (kB ma) (kB me));
    X bi <~ XOR256 (X bi) (kD 2);
    kB sa <~ ROL64in256 (X bi) 62;
    X go <~ XOR256 (X go) (kD 3);
    kB se <~ ROL64in256 (X go) 55;
    X ku <~ XOR256 (X ku) (kD 4);
    kB si <~ ROL64in256 (X ku) 39;
    Y sa <~ XOR256 (kB sa) (ANDnu256 (kB se) (kB si));
    X ma <~ XOR256 (X ma) (kD 0);
    kB so <~ ROL64in256 (X ma) 41;
    Y se <~ XOR256 (kB se) (ANDnu256 (kB si) (kB so));
    X se <~ XOR256 (X se) (kD 1);
    kB su <~ ROL64in256 (X se) 2;
    Y si <~ XOR256 (kB si) (ANDnu256 (kB so) (kB su));
    Y so <~ XOR256 (kB so) (ANDnu256 (kB su) (kB sa));
    Y su <~ XOR256 (kB su) (ANDnu256 (kB sa) (kB se)) ].

(** KeccakP-1600-unrolling.macros:17-42 *)
Definition rounds24 : list kstmt :=
  prepareTheta ++
  thetaRhoPiChiIotaPrepareTheta 0 kA kE ++
  thetaRhoPiChiIotaPrepareTheta 1 kE kA ++
  thetaRhoPiChiIotaPrepareTheta 2 kA kE ++
  thetaRhoPiChiIotaPrepareTheta 3 kE kA ++
  thetaRhoPiChiIotaPrepareTheta 4 kA kE ++
  thetaRhoPiChiIotaPrepareTheta 5 kE kA ++
  thetaRhoPiChiIotaPrepareTheta 6 kA kE ++
  thetaRhoPiChiIotaPrepareTheta 7 kE kA ++
  thetaRhoPiChiIotaPrepareTheta 8 kA kE ++
  thetaRhoPiChiIotaPrepareTheta 9 kE kA ++
  thetaRhoPiChiIotaPrepareTheta 10 kA kE ++
  thetaRhoPiChiIotaPrepareTheta 11 kE kA ++
  thetaRhoPiChiIotaPrepareTheta 12 kA kE ++
  thetaRhoPiChiIotaPrepareTheta 13 kE kA ++
  thetaRhoPiChiIotaPrepareTheta 14 kA kE ++
  thetaRhoPiChiIotaPrepareTheta 15 kE kA ++
  thetaRhoPiChiIotaPrepareTheta 16 kA kE ++
  thetaRhoPiChiIotaPrepareTheta 17 kE kA ++
  thetaRhoPiChiIotaPrepareTheta 18 kA kE ++
  thetaRhoPiChiIotaPrepareTheta 19 kE kA ++
  thetaRhoPiChiIotaPrepareTheta 20 kA kE ++
  thetaRhoPiChiIotaPrepareTheta 21 kE kA ++
  thetaRhoPiChiIotaPrepareTheta 22 kA kE ++
  thetaRhoPiChiIota 23 kE kA.

(** ** Execution *)
Record kops (T : Type) := {
  k_xor : T -> T -> T;
  k_andnot : T -> T -> T;
  k_rol : T -> Z -> T;
  k_rol8 : T -> T;
  k_rol56 : T -> T;
  k_const : nat -> T
}.
Arguments k_xor {T}. Arguments k_andnot {T}. Arguments k_rol {T}.
Arguments k_rol8 {T}. Arguments k_rol56 {T}. Arguments k_const {T}.

Section Exec.
  Context {T : Type} (O : kops T).
  Fixpoint keval (env : kvar -> T) (e : kexpr) : T :=
    match e with
    | KV x => env x
    | XOR256 a b => k_xor O (keval env a) (keval env b)
    | ANDnu256 a b => k_andnot O (keval env a) (keval env b)
    | ROL64in256 a o => k_rol O (keval env a) o
    | ROL64in256_8 a => k_rol8 O (keval env a)
    | ROL64in256_56 a => k_rol56 O (keval env a)
    | CONST256_64 i => k_const O i
    end.
  Definition kset (env : kvar -> T) (x : kvar) (v : T) : kvar -> T :=
    fun y => if kvar_eqb y x then v else env y.
  Fixpoint kexec (p : list kstmt) (env : kvar -> T) : kvar -> T :=
    match p with
    | [] => env
    | KSet x e :: p' => kexec p' (kset env x (keval env e))
    end.
End Exec.

(** ** The vector operations *)
Definition v_map2 (f : Z -> Z -> Z) (a b : list Z) : list Z :=
  map (fun j => f (nth j a 0) (nth j b 0)) (seq 0 4).
Definition v_xor := v_map2 Z.lxor.                                  (* _mm256_xor_si256 *)
Definition v_and := v_map2 Z.land.                                  (* _mm256_and_si256 *)
Definition v_or := v_map2 Z.lor.                                    (* _mm256_or_si256 *)
Definition v_andnot := v_map2 (fun a b => Z.land (not64 a) b).      (* _mm256_andnot_si256 *)
Definition v_set1 (x : Z) : list Z := repeat x 4.                   (* _mm256_set1_epi64x, _mm256_broadcast_sd *)
Definition v_slli (a : list Z) (o : Z) : list Z :=                  (* _mm256_slli_epi64 *)
  map (fun x => u64 (Z.shiftl x o)) a.
Definition v_srli (a : list Z) (o : Z) : list Z :=                  (* _mm256_srli_epi64 *)
  map (fun x => Z.shiftr x o) a.
(** Byte i of a vector, and the vector with given bytes *)
Definition v_byte (a : list Z) (i : nat) : Z :=
  Z.land (Z.shiftr (nth (i / 8) a 0) (8 * Z.of_nat (i mod 8))) 255.
Definition v_of_bytes (b : nat -> Z) : list Z :=
  map (fun l => fold_left (fun acc j => Z.lor acc (Z.shiftl (b (8 * l + j)%nat) (8 * Z.of_nat j)))
                          (seq 0 8) 0) (seq 0 4).
(** _mm256_shuffle_epi8: in each 128-bit half, byte i of the result is zero if
    bit 7 of control byte i is set, else the byte selected by its low 4 bits *)
Definition v_shuffle_epi8 (a k : list Z) : list Z :=
  v_of_bytes (fun i =>
    if Z.testbit (v_byte k i) 7 then 0
    else v_byte a (16 * (i / 16) + Z.to_nat (Z.land (v_byte k i) 15))).
(** Lines 49-50 *)
Definition rho8 : list Z :=
  [0x0605040302010007; 0x0E0D0C0B0A09080F; 0x1615141312111017; 0x1E1D1C1B1A19181F].
Definition rho56 : list Z :=
  [0x0007060504030201; 0x080F0E0D0C0B0A09; 0x1017161514131211; 0x181F1E1D1C1B1A19].
(** Lines 688-712 *)
Definition KeccakF1600RoundConstants : list Z :=
  [ 0x0000000000000001;
    0x0000000000008082;
    0x800000000000808a;
    0x8000000080008000;
    0x000000000000808b;
    0x0000000080000001;
    0x8000000080008081;
    0x8000000000008009;
    0x000000000000008a;
    0x0000000000000088;
    0x0000000080008009;
    0x000000008000000a;
    0x000000008000808b;
    0x800000000000008b;
    0x8000000000008089;
    0x8000000000008003;
    0x8000000000008002;
    0x8000000000000080;
    0x000000000000800a;
    0x800000008000000a;
    0x8000000080008081;
    0x8000000000008080;
    0x0000000080000001;
    0x8000000080008008 ].
(** Lines 40-54 *)
Definition V256_ops : kops (list Z) := {|
  k_xor := v_xor;
  k_andnot := v_andnot;
  k_rol := fun a o => v_or (v_slli a o) (v_srli a (64 - o));
  k_rol8 := fun a => v_shuffle_epi8 a rho8;
  k_rol56 := fun a => v_shuffle_epi8 a rho56;
  k_const := fun i => v_set1 (nth i KeccakF1600RoundConstants 0)
|}.

Section WithJunk.
Context `{Junk}.

(** An uninitialised vector *)
Definition v_junk : list Z := map (fun j => u64 (junk j)) (seq 0 4).

(** Lines 802-813: copyFromState, rounds24, copyToState.  The state is an
    array of 25 vectors. *)
Definition KeccakF1600_StatePermute4x (s : list (list Z)) : res (list (list Z)) :=
  env <- for_ 25 0 (fun i env => v <- aget s i ;; ret (kset env (kA i) v)) (fun _ => v_junk) ;;
  let env := kexec V256_ops rounds24 env in
  for_ 25 0 (fun i s => aset s i (env (kA i))) s.

End WithJunk.
