(** * Vocabulary for the benchmark program *)
From Coq Require Import ZArith List String Permutation Sorted.
From Verif Require Import CMonad Vocab Vocab_Rng Vocab_Tests.
Import ListNotations.
Open Scope Z_scope.
Notation length := List.length.

(** 64-bit counter values *)
Definition counter (x : Z) : Prop := 0 <= x < 2 ^ 64.

(** What the C standard says about qsort, for comparisons that order the values consistently *)
Definition consistent (cmp : Z -> Z -> Z) : Prop :=
  (forall x y, cmp x y <= 0 \/ cmp y x <= 0) /\ (forall x y z, cmp x y <= 0 -> cmp y z <= 0 -> cmp x z <= 0).
Definition sorts (qsort : (Z -> Z -> Z) -> list Z -> list Z) : Prop :=
  forall cmp l, consistent cmp -> Permutation l (qsort cmp l) /\ StronglySorted (fun x y => cmp x y <= 0) (qsort cmp l).

(** [x] is the element of [l] with [r] elements before it in ascending order *)
Definition count (f : Z -> bool) (l : list Z) : nat := length (filter f l).
Definition of_rank (l : list Z) (r : nat) (x : Z) : Prop :=
  In x l /\ (count (fun y => y <? x)%Z l <= r < count (fun y => y <=? x)%Z l)%nat.

(** The differences of consecutive readings, less the overhead, in 64-bit arithmetic *)
Definition gaps (t : list Z) (overhead : Z) : list Z :=
  map (fun i => (nth (S i) t 0 - nth i t 0 - overhead) mod 2 ^ 64) (seq 0 (length t - 1)).
(** The number printed as median of [l]: the middle element, or half the 64-bit
    sum of the two middle elements *)
Definition printed_median (l : list Z) (m : Z) : Prop :=
  exists lo hi, of_rank l ((length l - 1) / 2) lo /\ of_rank l (length l / 2) hi /\
    m = if Nat.odd (length l) then hi else (lo + hi) mod 2 ^ 64 / 2.
(** The number printed as average: elapsed time less the overheads, over the number of gaps *)
Definition printed_average (t : list Z) (overhead : Z) : Z :=
  let n := Z.of_nat (length t - 1) in
  (last t 0 - hd 0 t - n * overhead) mod 2 ^ 64 / n.

(** The digits of [x] in decimal, without leading zeros *)
Definition numeral (x : Z) (s : list Z) : Prop :=
  s <> [] /\ (forall c, In c s -> 48 <= c <= 57) /\ (hd 0 s = 48 -> s = [48]) /\
  fold_left (fun a c => 10 * a + (c - 48)) s 0 = x.

(** What print_results prints for the readings [t] *)
Definition report (label : string) (t : list Z) (overhead : Z) (out : list Z) : Prop :=
  exists m sm sa, printed_median (gaps t overhead) m /\ numeral m sm /\ numeral (printed_average t overhead) sa /\
    out = text label ++ [10] ++ text "median: " ++ sm ++ text " cycles/ticks" ++ [10] ++
          text "average: " ++ sa ++ text " cycles/ticks" ++ [10; 10].

(** The overhead of reading the counter: the least of [rounds] differences from
    reading [p] on, at most 2^64 - 1 *)
Definition difference (clk : nat -> Z) (p i : nat) : Z := (clk (p + 2 * i + 1)%nat - clk (p + 2 * i)%nat) mod 2 ^ 64.
Definition least_difference (clk : nat -> Z) (rounds p : nat) (o : Z) : Prop :=
  o <= 2 ^ 64 - 1 /\ (forall i, (i < rounds)%nat -> o <= difference clk p i) /\
  (o = 2 ^ 64 - 1 \/ exists i, (i < rounds)%nat /\ o = difference clk p i).
(** It is measured when it is still 2^64 - 1 *)
Definition overhead_after (clk : nat -> Z) (rounds : nat) (overhead : Z) (p : nat) (overhead' : Z) (p' : nat) : Prop :=
  (overhead = 2 ^ 64 - 1 /\ least_difference clk rounds p overhead' /\ p' = (p + 2 * rounds)%nat) \/
  (overhead <> 2 ^ 64 - 1 /\ overhead' = overhead /\ p' = p).

(** Reports for the labels in turn, each for [n] readings *)
Inductive reports (clk : nat -> Z) (n rounds : nat) : list string -> Z -> nat -> list Z -> Prop :=
| reports_done o p : reports clk n rounds [] o p []
| reports_next label labels o p o' p' out rest :
    overhead_after clk rounds o (p + n) o' p' -> report label (piece clk p n) o' out ->
    reports clk n rounds labels o' p' rest -> reports clk n rounds (label :: labels) o p (out ++ rest).

Definition speed_labels : list string :=
  [ "gen_a: "; "poly_getnoise_eta1: "; "poly_getnoise_eta2: "; "NTT: "; "INVNTT: "; "polyvec_basemul_acc_montgomery: ";
    "poly_tomsg: "; "poly_frommsg: "; "poly_compress: "; "poly_decompress: "; "polyvec_compress: "; "polyvec_decompress: ";
    "indcpa_keypair: "; "indcpa_enc: "; "indcpa_dec: "; "kyber_keypair_derand: "; "kyber_keypair: ";
    "kyber_encaps_derand: "; "kyber_encaps: "; "kyber_decaps: " ]%string.
(** The lengths it asks of randombytes *)
Definition speed_requests (n : nat) : list nat := ([32; 64] ++ repeat 64 n ++ repeat 32 n)%nat.
