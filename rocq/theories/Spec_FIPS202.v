(** * FIPS 202: SHA-3 and SHAKE, transcribed from the standard at the level of
    bits.  Independent of the model. *)
From Coq Require Import ZArith List Bool.
Import ListNotations.
Open Scope Z_scope.

(** ** Section 3.1: state arrays, b = 1600, w = 64, l = 6 *)
Definition state := Z -> Z -> Z -> bool.            (* A[x, y, z] *)
Definition w : Z := 64.

(** 3.1.2  A[x,y,z] = S[w(5y + x) + z] *)
Definition state_of_string (S : list bool) : state :=
  fun x y z => nth (Z.to_nat (w * (5 * y + x) + z)) S false.

(** 3.1.3  S = Plane(0) || ... || Plane(4), Plane(j) = Lane(0,j) || ... || Lane(4,j) *)
Definition zseq (n : nat) : list Z := map Z.of_nat (seq 0 n).
Definition string_of_state (A : state) : list bool :=
  flat_map (fun y => flat_map (fun x => map (fun z => A x y z) (zseq 64)) (zseq 5)) (zseq 5).

(** ** Section 3.2: step mappings *)
(** 3.2.1 theta *)
Definition theta_C (A : state) (x z : Z) : bool :=
  xorb (xorb (xorb (xorb (A x 0 z) (A x 1 z)) (A x 2 z)) (A x 3 z)) (A x 4 z).
Definition theta_D (A : state) (x z : Z) : bool :=
  xorb (theta_C A ((x - 1) mod 5) z) (theta_C A ((x + 1) mod 5) ((z - 1) mod w)).
Definition theta (A : state) : state := fun x y z => xorb (A x y z) (theta_D A x z).

(** 3.2.2 rho *)
Fixpoint rho_loop (n : nat) (t : Z) (x y : Z) (A A' : state) : state :=
  match n with
  | O => A'
  | S n' =>
      rho_loop n' (t + 1) y ((2 * x + 3 * y) mod 5) A
        (fun x1 y1 z => if (x1 =? x) && (y1 =? y)
                        then A x y ((z - (t + 1) * (t + 2) / 2) mod w)
                        else A' x1 y1 z)
  end.
Definition rho (A : state) : state := rho_loop 24 0 1 0 A (fun x y z => A x y z).

(** 3.2.3 pi *)
Definition pi (A : state) : state := fun x y z => A ((x + 3 * y) mod 5) x z.

(** 3.2.4 chi *)
Definition chi (A : state) : state :=
  fun x y z => xorb (A x y z)
                    (andb (xorb (A ((x + 1) mod 5) y z) true) (A ((x + 2) mod 5) y z)).

(** 3.2.5 iota; Algorithm 5, rc(t): an 8-bit LFSR *)
Definition rc_step (R : list bool) : list bool :=
  let R := false :: R in
  let b i := nth i R false in
  [xorb (b 0%nat) (b 8%nat); b 1%nat; b 2%nat; b 3%nat;
   xorb (b 4%nat) (b 8%nat); xorb (b 5%nat) (b 8%nat);
   xorb (b 6%nat) (b 8%nat); b 7%nat].
Definition rc (t : nat) : bool :=
  nth 0 (Nat.iter (t mod 255) rc_step [true; false; false; false; false; false; false; false])
      false.
Definition RC (ir : nat) (z : Z) : bool :=
  existsb (fun j => (z =? 2 ^ Z.of_nat j - 1) && rc (j + 7 * ir)) (seq 0 7).
Definition iota (ir : nat) (A : state) : state :=
  fun x y z => if (x =? 0) && (y =? 0) then xorb (A x y z) (RC ir z) else A x y z.

(** ** Section 3.3: KECCAK-p[1600, 24] *)
Definition Rnd (ir : nat) (A : state) : state := iota ir (chi (pi (rho (theta A)))).
Definition keccak_rounds (A : state) : state :=
  fold_left (fun A ir => Rnd ir A) (seq 0 24) A.
Definition keccak_f (S : list bool) : list bool :=
  string_of_state (keccak_rounds (state_of_string S)).

(** ** Section 4: sponge construction *)
Fixpoint xor_bits (a b : list bool) : list bool :=
  match a, b with
  | x :: a', y :: b' => xorb x y :: xor_bits a' b'
  | _, _ => []
  end.

(** Cut a string into consecutive pieces of r bits. *)
Fixpoint pieces (n : nat) (r : nat) (P : list bool) : list (list bool) :=
  match n with
  | O => []
  | S n' => firstn r P :: pieces n' r (skipn r P)
  end.

(** pad10*1(x, m): 1 || 0^j || 1 with j = (-m - 2) mod x *)
Definition pad10star1 (x m : nat) : list bool :=
  [true] ++ repeat false (Z.to_nat ((- Z.of_nat m - 2) mod Z.of_nat x)) ++ [true].

Definition absorb (r : nat) (P : list bool) : list bool :=
  fold_left (fun S Pi => keccak_f (xor_bits S (Pi ++ repeat false (1600 - r))))
            (pieces (length P / r) r P) (repeat false 1600).

(** Algorithm 8, step 8: the first n output pieces. *)
Fixpoint squeeze (n : nat) (r : nat) (S : list bool) : list bool :=
  match n with
  | O => []
  | Datatypes.S n' => firstn r S ++ squeeze n' r (keccak_f S)
  end.

Definition sponge (r : nat) (N : list bool) (d : nat) : list bool :=
  let P := N ++ pad10star1 r (length N) in
  firstn d (squeeze (d / r + 1) r (absorb r P)).

(** ** Section 5-6, Appendix B.1: bytes are 8 bits, least significant first *)
Definition byte_bits (b : Z) : list bool := map (fun i => Z.testbit b (Z.of_nat i)) (seq 0 8).
Definition bits_of_bytes (M : list Z) : list bool := flat_map byte_bits M.
Definition byte_of_bits (l : list bool) : Z :=
  fold_right (fun (b : bool) acc => (if b then 1 else 0) + 2 * acc) 0 l.
Definition bytes_of_bits (n : nat) (l : list bool) : list Z :=
  map byte_of_bits (pieces n 8 l).

(** Capacity 2*digest for SHA3, 256/512 for SHAKE128/256; rate = 1600 - c. *)
Definition SHA3_256 (M : list Z) : list Z :=
  bytes_of_bits 32 (sponge 1088 (bits_of_bytes M ++ [false; true]) 256).
Definition SHA3_512 (M : list Z) : list Z :=
  bytes_of_bits 64 (sponge 576 (bits_of_bytes M ++ [false; true]) 512).
(** [n] is the output length in bytes. *)
Definition SHAKE128 (M : list Z) (n : nat) : list Z :=
  bytes_of_bits n (sponge 1344 (bits_of_bytes M ++ [true; true; true; true]) (8 * n)).
Definition SHAKE256 (M : list Z) (n : nat) : list Z :=
  bytes_of_bits n (sponge 1088 (bits_of_bytes M ++ [true; true; true; true]) (8 * n)).
