(** * The decryption noise of K-PKE as a function of the byte strings its noise
    polynomials are sampled from.  Independent of the model. *)
From Coq Require Import ZArith List.
From Verif Require Import Spec_FIPS202 Spec_FIPS203 Spec_Noise.
Import ListNotations.
Open Scope Z_scope.

(** [count] polynomials, sampled from consecutive pieces of [B] *)
Definition noise_polys (eta count : nat) (B : list Z) : list (list Z) :=
  map (fun i => SamplePolyCBD eta (firstn (64 * eta) (skipn (64 * eta * i) B))) (seq 0 count).

(** [decryption_noise] with s, e, y, e1, e2 sampled from the given strings *)
Definition sampled_noise (P : params) (A : list (list (list Z))) (m S E Y E1 E2 : list Z) : list Z :=
  let s := noise_polys (eta1 P) (k P) S in
  let e := noise_polys (eta1 P) (k P) E in
  let y := noise_polys (eta1 P) (k P) Y in
  let e1 := noise_polys (eta2 P) (k P) E1 in
  let e2 := SamplePolyCBD (eta2 P) E2 in
  let t := zipadd (map (fun row => ntt_dot row (map NTT s)) A) (map NTT e) in
  let u := zipadd (map (fun row => NTTinv (ntt_dot row (map NTT y))) (transpose P A)) e1 in
  let v := padd (padd (NTTinv (ntt_dot t (map NTT y))) e2) (map (Decompress 1) (ByteDecode 1 m)) in
  let cu := zipsub (map (rounded (du P)) u) u in
  let cv := psub (rounded (dv P) v) v in
  psub (padd (padd (ring_dot e y) e2) cv) (ring_dot s (zipadd e1 cu)).

(** The strings K-PKE expands with PRF *)
Definition prf_bytes (eta : nat) (seed : list Z) (start count : nat) : list Z :=
  flat_map (fun i => PRF eta seed (Z.of_nat i)) (seq start count).
