(** * Vocabulary for ranges of one memory *)

(** The ranges [a, a+m) and [b, b+l) have no element in common. *)
Definition apart (a m b l : nat) : Prop := a + m <= b \/ b + l <= a.
