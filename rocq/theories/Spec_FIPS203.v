(** * FIPS 203: ML-KEM, transcribed from the standard.  Independent of the
    model.  Polynomials are lists of 256 integers; outputs are canonical
    (in [0, q)). *)
From Coq Require Import ZArith List Bool.
From Verif Require Import Spec_FIPS202.
Import ListNotations.
Open Scope Z_scope.

Definition q : Z := 3329.
Definition n : nat := 256.

(** ** Notation *)
Fixpoint sumz (m : nat) (f : nat -> Z) : Z :=
  match m with O => 0 | S m' => sumz m' f + f m' end.
Definition coef (f : list Z) (i : nat) : Z := nth i f 0.
Definition mkpoly (f : nat -> Z) : list Z := map f (seq 0 n).

(** ** Section 4.2.1: conversion and compression *)
(** Algorithm 4 and 3: bytes <-> bits, least significant bit first *)
Definition BytesToBits (B : list Z) : list Z :=
  flat_map (fun b => map (fun i => (b / 2 ^ Z.of_nat i) mod 2) (seq 0 8)) B.
Definition BitsToBytes (b : list Z) : list Z :=
  map (fun i => sumz 8 (fun j => nth (8 * i + j) b 0 * 2 ^ Z.of_nat j))
      (seq 0 (length b / 8)).

(** Compress_d(x) = round(2^d/q * x) mod 2^d, rounding half up *)
Definition Compress (d : Z) (x : Z) : Z := ((2 * 2 ^ d * x + q) / (2 * q)) mod 2 ^ d.
(** Decompress_d(y) = round(q/2^d * y) *)
Definition Decompress (d : Z) (y : Z) : Z := (2 * q * y + 2 ^ d) / (2 * 2 ^ d).

(** Algorithm 5: d bits per coefficient *)
Definition ByteEncode (d : nat) (F : list Z) : list Z :=
  BitsToBytes (flat_map (fun a => map (fun j => (a / 2 ^ Z.of_nat j) mod 2) (seq 0 d)) F).
(** Algorithm 6: modulus 2^d for d < 12 and q for d = 12 *)
Definition ByteDecode (d : nat) (B : list Z) : list Z :=
  let b := BytesToBits B in
  mkpoly (fun i => sumz d (fun j => nth (i * d + j) b 0 * 2 ^ Z.of_nat j)
                   mod (if (d =? 12)%nat then q else 2 ^ Z.of_nat d)).

(** ** Section 4.3: the number-theoretic transform *)
Definition zeta : Z := 17.
(** Reversal of the 7-bit binary expansion. *)
Definition BitRev7 (r : Z) : Z :=
  sumz 7 (fun i => (r / 2 ^ Z.of_nat i) mod 2 * 2 ^ (6 - Z.of_nat i)).
(** X^256 + 1 = product of X^2 - zeta^(2 BitRev7(i) + 1), i = 0..127 *)
Definition gamma (i : nat) : Z := zeta ^ (2 * BitRev7 (Z.of_nat i) + 1) mod q.
Definition gamma_inv (i : nat) : Z := zeta ^ (256 - (2 * BitRev7 (Z.of_nat i) + 1)) mod q.

(** NTT(f): coefficient 2i and 2i+1 are those of f mod (X^2 - gamma_i) *)
Definition NTT (f : list Z) : list Z :=
  mkpoly (fun k => sumz 128 (fun j => coef f (2 * j + k mod 2) * gamma (k / 2) ^ Z.of_nat j)
                   mod q).
(** Its inverse; 3303 = 128^-1 mod q *)
Definition NTTinv (F : list Z) : list Z :=
  mkpoly (fun k => (3303 * sumz 128 (fun i => coef F (2 * i + k mod 2)
                                      * gamma_inv i ^ Z.of_nat (k / 2))) mod q).

(** Algorithms 11 and 12: multiplication in the NTT domain *)
Definition MultiplyNTTs (f g : list Z) : list Z :=
  mkpoly (fun k =>
    let i := (k / 2)%nat in
    if Nat.even k
    then (coef f (2 * i) * coef g (2 * i) + coef f (2 * i + 1) * coef g (2 * i + 1) * gamma i)
         mod q
    else (coef f (2 * i) * coef g (2 * i + 1) + coef f (2 * i + 1) * coef g (2 * i)) mod q).

(** Arithmetic in R_q and T_q *)
Definition padd (f g : list Z) : list Z := mkpoly (fun i => (coef f i + coef g i) mod q).
Definition psub (f g : list Z) : list Z := mkpoly (fun i => (coef f i - coef g i) mod q).
Definition pzero : list Z := mkpoly (fun _ => 0).
(** Product in Z_q[X]/(X^256 + 1), schoolbook *)
Definition ring_mul (f g : list Z) : list Z :=
  mkpoly (fun k => (sumz (S k) (fun i => coef f i * coef g (k - i))
                    - sumz (255 - k) (fun i => coef f (k + 1 + i) * coef g (255 - i))) mod q).

(** Inner product of two vectors in the NTT domain *)
Fixpoint ntt_dot (a b : list (list Z)) : list Z :=
  match a, b with
  | f :: a', g :: b' => padd (MultiplyNTTs f g) (ntt_dot a' b')
  | _, _ => pzero
  end.

(** ** Section 4.1: hash functions *)
Definition H := SHA3_256.
Definition G := SHA3_512.
Definition J (s : list Z) : list Z := SHAKE256 s 32.
Definition PRF (eta : nat) (s : list Z) (b : Z) : list Z := SHAKE256 (s ++ [b]) (64 * eta).
(** XOF: byte k of the SHAKE128 output stream *)
Definition XOF (B : list Z) (k : nat) : Z := nth k (SHAKE128 B (S k)) 0.

(** ** Section 4.2.2: sampling *)
(** Algorithm 7: the t-th three bytes give two 12-bit candidates *)
Definition candidates (s : nat -> Z) (t : nat) : list Z :=
  [s (3 * t)%nat + 256 * (s (3 * t + 1)%nat mod 16);
   s (3 * t + 1)%nat / 16 + 16 * s (3 * t + 2)%nat].
Definition accepted (s : nat -> Z) (m : nat) : list Z :=
  filter (fun d => d <? q) (flat_map (candidates s) (seq 0 m)).
(** SampleNTT(B) terminates with result a: the first 256 accepted candidates *)
Definition SampleNTT (B : list Z) (a : list Z) : Prop :=
  exists m, (256 <= length (accepted (XOF B) m))%nat /\ a = firstn 256 (accepted (XOF B) m).

(** Algorithm 8 *)
Definition SamplePolyCBD (eta : nat) (B : list Z) : list Z :=
  let b := BytesToBits B in
  mkpoly (fun i => (sumz eta (fun j => nth (2 * i * eta + j) b 0)
                    - sumz eta (fun j => nth (2 * i * eta + eta + j) b 0)) mod q).

(** ** Section 8: parameter sets *)
Record params := Params { k : nat; eta1 : nat; eta2 : nat; du : nat; dv : nat }.
Definition ML_KEM_512 := Params 2 3 2 10 4.
Definition ML_KEM_768 := Params 3 2 2 10 4.
Definition ML_KEM_1024 := Params 4 2 2 11 5.

(** The k x k matrix A-hat expanded from rho: A[i][j] = SampleNTT(rho || j || i) *)
Definition is_matrix (P : params) (rho : list Z) (A : list (list (list Z))) : Prop :=
  length A = k P /\
  forall i, (i < k P)%nat ->
    length (nth i A []) = k P /\
    forall j, (j < k P)%nat ->
      SampleNTT (rho ++ [Z.of_nat j; Z.of_nat i]) (nth j (nth i A []) []).
Definition transpose (P : params) (A : list (list (list Z))) : list (list (list Z)) :=
  map (fun i => map (fun j => nth i (nth j A []) []) (seq 0 (k P))) (seq 0 (k P)).

Fixpoint zipadd (a b : list (list Z)) : list (list Z) :=
  match a, b with
  | f :: a', g :: b' => padd f g :: zipadd a' b'
  | _, _ => []
  end.

(** ** Section 5: K-PKE.  [A] is the matrix expanded from the seed. *)
(** The noise polynomials of K-PKE.KeyGen and K-PKE.Encrypt *)
Definition noise (eta : nat) (seed : list Z) (start count : nat) : list (list Z) :=
  map (fun i => SamplePolyCBD eta (PRF eta seed (Z.of_nat i))) (seq start count).

(** Algorithm 13 *)
Definition keygen_rho (P : params) (d : list Z) : list Z :=
  firstn 32 (G (d ++ [Z.of_nat (k P)])).
Definition keygen_sigma (P : params) (d : list Z) : list Z :=
  skipn 32 (G (d ++ [Z.of_nat (k P)])).
Definition K_PKE_KeyGen (P : params) (A : list (list (list Z))) (d : list Z)
  : list Z * list Z :=
  let rho := keygen_rho P d in
  let sigma := keygen_sigma P d in
  let s := map NTT (noise (eta1 P) sigma 0 (k P)) in
  let e := map NTT (noise (eta1 P) sigma (k P) (k P)) in
  let t := zipadd (map (fun row => ntt_dot row s) A) e in
  (flat_map (ByteEncode 12) t ++ rho, flat_map (ByteEncode 12) s).

(** A vector of k polynomials, d bits per coefficient *)
Definition decode_vec (P : params) (d : nat) (B : list Z) : list (list Z) :=
  map (fun i => ByteDecode d (firstn (32 * d) (skipn (32 * d * i) B))) (seq 0 (k P)).

(** Algorithm 14 *)
Definition ek_rho (P : params) (ek : list Z) : list Z := skipn (384 * k P) ek.
Definition K_PKE_Encrypt (P : params) (A : list (list (list Z))) (ek m r : list Z) : list Z :=
  let t := decode_vec P 12 (firstn (384 * k P) ek) in
  let y := map NTT (noise (eta1 P) r 0 (k P)) in
  let e1 := noise (eta2 P) r (k P) (k P) in
  let e2 := nth 0 (noise (eta2 P) r (2 * k P) 1) [] in
  let u := zipadd (map (fun row => NTTinv (ntt_dot row y)) (transpose P A)) e1 in
  let mu := map (Decompress 1) (ByteDecode 1 m) in
  let v := padd (padd (NTTinv (ntt_dot t y)) e2) mu in
  flat_map (fun f => ByteEncode (du P) (map (Compress (Z.of_nat (du P))) f)) u
  ++ ByteEncode (dv P) (map (Compress (Z.of_nat (dv P))) v).

(** Algorithm 15 *)
Definition K_PKE_Decrypt (P : params) (dk c : list Z) : list Z :=
  let c1 := firstn (32 * du P * k P) c in
  let c2 := skipn (32 * du P * k P) c in
  let u := map (map (Decompress (Z.of_nat (du P)))) (decode_vec P (du P) c1) in
  let v := map (Decompress (Z.of_nat (dv P))) (ByteDecode (dv P) c2) in
  let s := decode_vec P 12 dk in
  let w := psub v (NTTinv (ntt_dot s (map NTT u))) in
  ByteEncode 1 (map (Compress 1) w).

(** ** Section 6: ML-KEM internal algorithms, as relations (SampleNTT may not
    terminate) *)
(** Algorithm 16 *)
Definition KeyGen_internal (P : params) (d z : list Z) (ek dk : list Z) : Prop :=
  exists A dkpke,
    is_matrix P (keygen_rho P d) A /\
    (ek, dkpke) = K_PKE_KeyGen P A d /\
    dk = dkpke ++ ek ++ H ek ++ z.

(** Algorithm 17 *)
Definition Encaps_internal (P : params) (ek m : list Z) (K c : list Z) : Prop :=
  exists A,
    is_matrix P (ek_rho P ek) A /\
    K = firstn 32 (G (m ++ H ek)) /\
    c = K_PKE_Encrypt P A ek m (skipn 32 (G (m ++ H ek))).

(** Algorithm 18 *)
Definition dk_pke (P : params) (dk : list Z) : list Z := firstn (384 * k P) dk.
Definition dk_ek (P : params) (dk : list Z) : list Z :=
  firstn (384 * k P + 32) (skipn (384 * k P) dk).
Definition dk_h (P : params) (dk : list Z) : list Z :=
  firstn 32 (skipn (768 * k P + 32) dk).
Definition dk_z (P : params) (dk : list Z) : list Z :=
  firstn 32 (skipn (768 * k P + 64) dk).
Definition Decaps_internal (P : params) (dk c : list Z) (K : list Z) : Prop :=
  exists A,
    is_matrix P (ek_rho P (dk_ek P dk)) A /\
    let m' := K_PKE_Decrypt P (dk_pke P dk) c in
    let Kr := G (m' ++ dk_h P dk) in
    let c' := K_PKE_Encrypt P A (dk_ek P dk) m' (skipn 32 Kr) in
    (c = c' -> K = firstn 32 Kr) /\
    (c <> c' -> K = J (dk_z P dk ++ c)).
