(** * C62, C63: the benchmark program *)
From Coq Require Import ZArith List String.
From Verif Require Import CMonad Levels Model_Params Model_Speed Vocab Vocab_Avx Vocab_Rng Vocab_Tests Vocab_Speed Run_Kem Proof_SpeedMain Proof_PropSpeed.
Import ListNotations.
Open Scope Z_scope.

(** print_results on at least two readings, for every qsort that sorts, every
    clock and every state of the static variable. *)
Theorem C62_report : forall clk qsort rounds s t rest o p,
  sorts qsort -> (2 <= List.length t)%nat -> counter o ->
  exists t' o' p' out, yields (print_results clk qsort rounds s (t ++ rest) (List.length t) o p) (t' ++ rest, o', p', out) /\
    List.length t' = List.length t /\ overhead_after clk rounds o p o' p' /\ report s t o' out /\
    forall out', report s t o' out' -> out' = out.
Proof. exact report_full. Qed.
Print Assumptions C62_report.

(** On fewer readings it prints nothing to stdout and changes nothing. *)
Theorem C62_short : forall clk qsort rounds s t tlen o p, (tlen < 2)%nat ->
  yields (print_results clk qsort rounds s t tlen o p) (t, o, p, []).
Proof. exact report_short. Qed.
Print Assumptions C62_short.

(** When consecutive readings differ by at least the overhead and the whole run
    is shorter than 2^63, the printed numbers are the mean, rounded down, and
    the median, rounded down, of the true differences less the overhead. *)
Theorem C62_meaning : forall t o,
  (2 <= List.length t)%nat -> 0 <= o -> (forall i, (S i < List.length t)%nat -> o <= nth (S i) t 0 - nth i t 0) ->
  last t 0 - hd 0 t < 2 ^ 63 ->
  let d := map (fun i => nth (S i) t 0 - nth i t 0 - o) (seq 0 (List.length t - 1)) in
  printed_average t o = fold_right Z.add 0 d / Z.of_nat (List.length d) /\
  forall m, printed_median (gaps t o) m -> exists lo hi,
    of_rank d ((List.length d - 1) / 2) lo /\ of_rank d (List.length d / 2) hi /\ m = (lo + hi) / 2.
Proof. exact meaning. Qed.
Print Assumptions C62_meaning.

(** Without the first condition not even the order of magnitude is right: on a
    clock that never goes back, the printed median can exceed the time that
    passed between the first and the last reading. *)
Theorem C62_median_refuted : exists clk,
  (forall i, counter (clk i) /\ clk i <= clk (S i)) /\
  forall qsort rounds, sorts qsort -> (1 <= rounds <= 10 ^ 6)%nat -> exists t' o' p' m sm rest,
    yields (print_results clk qsort rounds "x" (piece clk 0 3) 3 (2 ^ 64 - 1) 3)
      (t', o', p', text "x" ++ [10] ++ text "median: " ++ sm ++ text " cycles/ticks" ++ rest) /\
    numeral m sm /\ clk 2%nat - clk 0%nat < m.
Proof. exact median_refuted. Qed.
Print Assumptions C62_median_refuted.

Example C62_case : sorts insertion_sort /\
  match print_results (fun i => 7 * Z.of_nat i) insertion_sort 3 "NTT: " [0; 100; 350; 400; 1000; 5] 5 (2 ^ 64 - 1) 5 with
  | Ok (t, o, p, out) _ => t = [43; 93; 243; 593; 1000; 5] /\ o = 7 /\ p = 11%nat /\
      out = text "NTT: " ++ [10] ++ text "median: 168 cycles/ticks" ++ [10] ++ text "average: 243 cycles/ticks" ++ [10; 10]
  | _ => False
  end /\
  (forall i, (S i < 5)%nat -> 7 <= nth (S i) [0; 100; 350; 400; 1000] 0 - nth i [0; 100; 350; 400; 1000] 0).
Proof.
  split; [exact insertion_sorts|]. split; [vm_compute; repeat split|].
  intros [|[|[|[|i]]]] H; try (vm_compute; discriminate). repeat apply le_S_n in H. inversion H.
Qed.

(** test_speed.c with either variant: on any source of random bytes and any
    contents of the stack it has no undefined behaviour, its exit status is 0
    and it prints the reports of its twenty loops. *)
Theorem C63_speed : forall {S} clk qsort (rb : S -> list Z -> nat -> nat -> res (list Z * S)) f R V lv fuel ntests rounds JJ p s,
  sorts qsort -> stream_source rb f R -> (2 <= ntests)%nat -> R (speed_requests ntests) p s ->
  safely (test_speed_main clk qsort rb V lv fuel ntests rounds JJ s)
    (fun v => snd v = 0 /\ reports clk ntests rounds speed_labels (2 ^ 64 - 1) 0 (fst v)).
Proof. exact @speed_safe. Qed.
Print Assumptions C63_speed.

(** What it prints depends on the clock only: not on the random bytes, the
    stack, the parameter set, the variant or the sorting algorithm. *)
Theorem C63_clock_only : forall {S S'} clk qsort qsort' (rb : S -> list Z -> nat -> nat -> res (list Z * S)) (rb' : S' -> list Z -> nat -> nat -> res (list Z * S'))
  f f' R R' V V' lv lv' fuel fuel' ntests rounds JJ JJ' p p' s s' v v' T T',
  sorts qsort -> sorts qsort' -> stream_source rb f R -> stream_source rb' f' R' -> (2 <= ntests)%nat ->
  R (speed_requests ntests) p s -> R' (speed_requests ntests) p' s' ->
  test_speed_main clk qsort rb V lv fuel ntests rounds JJ s = Ok v T ->
  test_speed_main clk qsort' rb' V' lv' fuel' ntests rounds JJ' s' = Ok v' T' ->
  v = v'.
Proof. exact @same_output. Qed.
Print Assumptions C63_clock_only.

Example C63_case : sorts insertion_sort /\ stream_source counting (fun j => Z.of_nat j mod 256) (fun _ p s => s = p) /\
  forall lv V, safely (test_speed_main (fun i => 7 * Z.of_nat i) insertion_sort counting V lv 5 1000 100000 (fun _ _ => no_junk) O)
    (fun v => snd v = 0 /\ reports (fun i => 7 * Z.of_nat i) 1000 100000 speed_labels (2 ^ 64 - 1) 0 (fst v)).
Proof.
  split; [exact insertion_sorts|]. split; [exact counting_source|]. intros lv V.
  apply (speed_safe _ _ _ _ _ V lv 5 1000 100000 _ O O insertion_sorts counting_source); [|reflexivity].
  apply Nat.leb_le. reflexivity.
Qed.
