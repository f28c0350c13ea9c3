(** * Vocabulary of the property statements.  Independent of the model and of
    the proofs. *)
From Coq Require Import ZArith List.
From Verif Require Import Spec_FIPS203.
Import ListNotations.
Open Scope Z_scope.

Definition all_bytes (l : list Z) : Prop := forall x, In x l -> 0 <= x < 256.
Definition in_range (lo hi : Z) (l : list Z) : Prop := forall x, In x l -> lo <= x <= hi.
(** A polynomial with coefficients of absolute value at most B *)
Definition poly_within (B : Z) (f : list Z) : Prop := length f = 256%nat /\ in_range (- B) B f.
Definition vec_within (K : nat) (B : Z) (v : list (list Z)) : Prop :=
  length v = K /\ forall f, In f v -> poly_within B f.
(** The canonical representatives *)
Definition modq (f : list Z) : list Z := map (fun x => x mod q) f.
(** The 1600 bits of a state of 25 lanes: lane by lane, least significant bit first *)
Definition lane_list (s : list Z) : Prop := length s = 25%nat /\ forall x, In x s -> 0 <= x < 2 ^ 64.
Definition state_bits (s : list Z) : list bool :=
  flat_map (fun a => map (fun i => Z.testbit a (Z.of_nat i)) (seq 0 64)) s.
(** Coefficientwise sum, without reduction *)
Definition add_coeffs (f g : list Z) : list Z := map (fun p => fst p + snd p) (combine f g).
(** An unsigned char array of length [m] *)
Definition byte_array (m : nat) (l : list Z) : Prop := length l = m /\ all_bytes l.
(** A [K] x [K] array of polynomials *)
Definition matrix_shape (K : nat) (a : list (list (list Z))) : Prop :=
  length a = K /\ forall v, In v a -> length v = K /\ forall f, In f v -> length f = 256%nat.
(** The encoding of the vector a (possibly malformed) encoded public vector [t]
    decodes to, coefficients reduced mod q (FIPS 203 section 7.2, modulus check:
    [t] is acceptable iff it equals this) *)
Definition canonical_key (P : params) (t : list Z) : list Z := flat_map (ByteEncode 12) (decode_vec P 12 t).
(** The order in which the AVX2 code keeps a polynomial in the NTT domain: each
    half of 128 coefficients as a 16 x 8 matrix, stored column by column *)
Definition avx2_order (f : list Z) : list Z :=
  map (fun p => nth (128 * (p / 128) + 8 * (p mod 16) + (p / 16) mod 8) f 0) (seq 0 256).
