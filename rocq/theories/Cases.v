(** * Concrete arrays used by the examples beside the property theorems *)
From Coq Require Import ZArith List Lia.
From Verif Require Import Vocab.
Import ListNotations.
Open Scope Z_scope.

(** 256 scattered coefficients in [-B, B] *)
Definition scattered (B : Z) : list Z := map (fun i => Z.of_nat i * 8191 mod (2 * B + 1) - B) (seq 0 256).
Lemma scattered_within B : 0 <= B -> poly_within B (scattered B).
Proof.
  intros HB. split; [unfold scattered; now rewrite map_length, seq_length|].
  intros x Hx. apply in_map_iff in Hx as (i & <- & _).
  pose proof (Z.mod_pos_bound (Z.of_nat i * 8191) (2 * B + 1) ltac:(lia)). lia.
Qed.
Lemma scattered_vec K B : 0 <= B -> vec_within K B (repeat (scattered B) K).
Proof.
  intros HB. split; [apply repeat_length|]. intros f Hf. apply repeat_spec in Hf. subst f. now apply scattered_within.
Qed.

Definition some_bytes (m : nat) : list Z := map (fun i => (Z.of_nat i * 167 + 11) mod 256) (seq 0 m).
Lemma some_bytes_ok m : byte_array m (some_bytes m).
Proof.
  split; [unfold some_bytes; now rewrite map_length, seq_length|].
  intros x Hx. apply in_map_iff in Hx as (i & <- & _). apply Z.mod_pos_bound. lia.
Qed.

Definition some_lanes : list Z := map (fun i => (Z.of_nat i * 11400714819323198485 + 1) mod 2 ^ 64) (seq 0 25).
Lemma some_lanes_ok : lane_list some_lanes.
Proof.
  split; [reflexivity|]. intros x Hx. apply in_map_iff in Hx as (i & <- & _). apply Z.mod_pos_bound. lia.
Qed.

Lemma in_range_weaken lo hi lo' hi' l : lo' <= lo -> hi <= hi' -> in_range lo hi l -> in_range lo' hi' l.
Proof. intros A B HR x Hx. specialize (HR x Hx). lia. Qed.

Lemma all_bytes_split3 a b c : all_bytes a -> all_bytes b -> all_bytes c -> all_bytes (a ++ b ++ c).
Proof.
  intros A B C x Hx. apply in_app_or in Hx as [Hx|Hx]; [auto|]. apply in_app_or in Hx as [Hx|Hx]; auto.
Qed.

(** An array inside a larger object *)
Lemma ctx_bytes a m b : all_bytes (some_bytes a ++ some_bytes m ++ some_bytes b).
Proof. apply all_bytes_split3; apply some_bytes_ok. Qed.

Definition zero_matrix (K : nat) : list (list (list Z)) := repeat (repeat (repeat 0 256) K) K.
Lemma zero_matrix_shape K : matrix_shape K (zero_matrix K).
Proof.
  split; [apply repeat_length|]. intros v Hv. apply repeat_spec in Hv. subst v. split; [apply repeat_length|].
  intros f Hf. apply repeat_spec in Hf. subst f. apply repeat_length.
Qed.
