(** * The decryption noise of K-PKE: what must stay small for decryption to
    return the encrypted message.  Independent of the model. *)
From Coq Require Import ZArith List.
From Verif Require Import Spec_FIPS202 Spec_FIPS203.
Import ListNotations.
Open Scope Z_scope.

(** Inner product in R_q, schoolbook *)
Fixpoint ring_dot (a b : list (list Z)) : list Z :=
  match a, b with
  | f :: a', g :: b' => padd (ring_mul f g) (ring_dot a' b')
  | _, _ => pzero
  end.

Fixpoint zipsub (a b : list (list Z)) : list (list Z) :=
  match a, b with
  | f :: a', g :: b' => psub f g :: zipsub a' b'
  | _, _ => []
  end.

(** Compression followed by decompression *)
Definition rounded (d : nat) (f : list Z) : list Z :=
  map (fun x => Decompress (Z.of_nat d) (Compress (Z.of_nat d) x)) f.

(** e'y + e2 + dv - s'(e1 + du) for the key seed [d], the message [m] and the
    encryption randomness [r]; du and dv are the rounding errors of the two
    ciphertext components. *)
Definition decryption_noise (P : params) (A : list (list (list Z))) (d m r : list Z) : list Z :=
  let s := noise (eta1 P) (keygen_sigma P d) 0 (k P) in
  let e := noise (eta1 P) (keygen_sigma P d) (k P) (k P) in
  let y := noise (eta1 P) r 0 (k P) in
  let e1 := noise (eta2 P) r (k P) (k P) in
  let e2 := nth 0 (noise (eta2 P) r (2 * k P) 1) [] in
  let t := zipadd (map (fun row => ntt_dot row (map NTT s)) A) (map NTT e) in
  let u := zipadd (map (fun row => NTTinv (ntt_dot row (map NTT y))) (transpose P A)) e1 in
  let v := padd (padd (NTTinv (ntt_dot t (map NTT y))) e2) (map (Decompress 1) (ByteDecode 1 m)) in
  let cu := zipsub (map (rounded (du P)) u) u in
  let cv := psub (rounded (dv P) v) v in
  psub (padd (padd (ring_dot e y) e2) cv) (ring_dot s (zipadd e1 cu)).

(** The centred representative of a residue in [0, q) *)
Definition centred (x : Z) : Z := if 2 * x <? q then x else x - q.

(** Every coefficient is within the decoding window *)
Definition noise_ok (f : list Z) : Prop :=
  forall i, (i < 256)%nat -> -832 <= centred (nth i f 0) <= 831.

(** The noise a message tolerates, bit by bit: one more on the upper side where
    the message bit is 0 *)
Definition noise_decodes (m f : list Z) : Prop :=
  forall i, (i < 256)%nat ->
    -832 <= centred (nth i f 0) <= (if nth i (ByteDecode 1 m) 0 =? 1 then 831 else 832).
