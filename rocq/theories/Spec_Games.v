(** * Hiding of messages by K-PKE: averages over finite spaces, the Module-LWE
    experiments and the chosen-plaintext game.  Independent of the model. *)
From Coq Require Import ZArith QArith Qabs List.
From Verif Require Import Spec_FIPS202 Spec_FIPS203 Spec_Failure.
Import ListNotations.
Open Scope Q_scope.

(** All lists of [m] elements of [alphabet] *)
Fixpoint words {A} (alphabet : list A) (m : nat) : list (list A) :=
  match m with
  | O => [[]]
  | S m => flat_map (fun x => map (cons x) (words alphabet m)) alphabet
  end.
Definition below (b : Z) : list Z := map Z.of_nat (seq 0 (Z.to_nat b)).
Definition strings (m : nat) : list (list Z) := words (below 256) m.
Definition polynomials : list (list Z) := words (below q) n.
Definition vectors (m : nat) : list (list (list Z)) := words polynomials m.

(** The expectation of [f] on a uniformly chosen element.  A value in [0, 1]
    stands for the probability with which a randomised algorithm says yes. *)
Definition average {A} (space : list A) (f : A -> Q) : Q :=
  fold_right (fun x a => f x + a) 0 space / inject_Z (Z.of_nat (length space)).
Definition gap (x y : Q) : Q := Qabs (x - y).

Section Scheme.
Variables (P : params) (A : list (list (list Z))) (rho : list Z).

(** ** K-PKE with the noise given as byte strings, as in FIPS 203 algorithms 13 and 14 *)
(** A s + e, in the NTT domain *)
Definition key_sample (S E : list Z) : list (list Z) :=
  zipadd (map (fun row => ntt_dot row (map NTT (noise_polys (eta1 P) (k P) S))) A)
         (map NTT (noise_polys (eta1 P) (k P) E)).
(** A' y + e1 and t' y + e2 *)
Definition u_sample (Y E1 : list Z) : list (list Z) :=
  zipadd (map (fun row => NTTinv (ntt_dot row (map NTT (noise_polys (eta1 P) (k P) Y)))) (transpose P A))
         (noise_polys (eta2 P) (k P) E1).
Definition v_sample (t : list (list Z)) (Y E2 : list Z) : list Z :=
  padd (NTTinv (ntt_dot t (map NTT (noise_polys (eta1 P) (k P) Y)))) (SamplePolyCBD (eta2 P) E2).

Definition public_key (t : list (list Z)) : list Z := flat_map (ByteEncode 12) t ++ rho.
Definition ciphertext (u : list (list Z)) (v m : list Z) : list Z :=
  flat_map (fun f => ByteEncode (du P) (map (Compress (Z.of_nat (du P))) f)) u ++
  ByteEncode (dv P) (map (Compress (Z.of_nat (dv P))) (padd v (map (Decompress 1) (ByteDecode 1 m)))).
Definition encrypt (ek m Y E1 E2 : list Z) : list Z :=
  ciphertext (u_sample Y E1) (v_sample (decode_vec P 12 (firstn (384 * k P) ek)) Y E2) m.

(** ** Averages over the strings s and e, respectively y, e1 and e2, are sampled from *)
Definition over_key_noise (f : list Z -> list Z -> Q) : Q :=
  average (strings (64 * eta1 P * k P)) (fun S => average (strings (64 * eta1 P * k P)) (fun E => f S E)).
Definition over_noise (f : list Z -> list Z -> list Z -> Q) : Q :=
  average (strings (64 * eta1 P * k P)) (fun Y =>
  average (strings (64 * eta2 P * k P)) (fun E1 =>
  average (strings (64 * eta2 P)) (fun E2 => f Y E1 E2))).
(** ... and over these strings expanded from a 32-byte seed *)
Definition over_key_seeds (f : list Z -> list Z -> Q) : Q :=
  average (strings 32) (fun sigma => f (prf_bytes (eta1 P) sigma 0 (k P)) (prf_bytes (eta1 P) sigma (k P) (k P))).
Definition over_seeds (f : list Z -> list Z -> list Z -> Q) : Q :=
  average (strings 32) (fun r => f (prf_bytes (eta1 P) r 0 (k P)) (prf_bytes (eta2 P) r (k P) (k P)) (prf_bytes (eta2 P) r (2 * k P) 1)).

(** ** Distinguishing *)
(** expanded strings from random ones *)
Definition key_prf_advantage (f : list Z -> list Z -> Q) : Q := gap (over_key_seeds f) (over_key_noise f).
Definition prf_advantage (f : list Z -> list Z -> list Z -> Q) : Q := gap (over_seeds f) (over_noise f).
(** A s + e from a random vector *)
Definition key_lwe_advantage (f : list (list Z) -> Q) : Q :=
  gap (over_key_noise (fun S E => f (key_sample S E))) (average (vectors (k P)) f).
(** A' y + e1, t' y + e2 from a random vector and polynomial, for random t *)
Definition lwe_advantage (f : list (list Z) -> list (list Z) -> list Z -> Q) : Q :=
  gap (average (vectors (k P)) (fun t => over_noise (fun Y E1 E2 => f t (u_sample Y E1) (v_sample t Y E2))))
      (average (vectors (k P)) (fun t => average (vectors (k P)) (fun u => average polynomials (fun v => f t u v)))).

(** ** The game: [choose] picks two messages, knowing the public key; [guess] sees
    the key and the encryption of one of them *)
Variables (choose : list Z -> list Z * list Z) (guess : list Z -> list Z -> Q).
Definition chosen (b : bool) (ek : list Z) : list Z := (if b then snd else fst) (choose ek).
Definition game (b : bool) : Q :=
  over_key_seeds (fun S E => over_seeds (fun Y E1 E2 =>
    let ek := public_key (key_sample S E) in guess ek (encrypt ek (chosen b ek) Y E1 E2))).

(** The algorithms the adversary is turned into *)
Definition key_prf_attack (b : bool) (S E : list Z) : Q :=
  let ek := public_key (key_sample S E) in over_seeds (fun Y E1 E2 => guess ek (encrypt ek (chosen b ek) Y E1 E2)).
Definition prf_attack (b : bool) (Y E1 E2 : list Z) : Q :=
  over_key_noise (fun S E => let ek := public_key (key_sample S E) in guess ek (encrypt ek (chosen b ek) Y E1 E2)).
Definition key_lwe_attack (b : bool) (t : list (list Z)) : Q :=
  let ek := public_key t in over_noise (fun Y E1 E2 => guess ek (encrypt ek (chosen b ek) Y E1 E2)).
Definition lwe_attack (b : bool) (t u : list (list Z)) (v : list Z) : Q :=
  let ek := public_key t in guess ek (ciphertext u v (chosen b ek)).
(** What they achieve, together *)
Definition loss (b : bool) : Q :=
  key_prf_advantage (key_prf_attack b) + prf_advantage (prf_attack b) + key_lwe_advantage (key_lwe_attack b) + lwe_advantage (lwe_attack b).
End Scheme.
