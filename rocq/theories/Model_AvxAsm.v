(** * A model of the AVX2 instructions used by the hand-written assembly of
    /repo/avx2 (fq.inc, shuffle.inc, ntt.S, invntt.S, basemul.S, fq.S,
    shuffle.S).

    - A %ymm register is a list of sixteen 16-bit lanes, lane 0 first.
    - An object in memory is a list of 16-bit words (little-endian, as the
      machine stores them); a memory operand is an object, named by the
      general-purpose register that points to it, and a word offset.  All
      displacements in these files are multiples of two bytes.
    - [vmovdqa] faults unless its address is a multiple of 32 bytes.  Objects
      accessed by it are declared with ALIGNED_INT16 (avx2/align.h:13-17,
      avx2/poly.h:8, avx2/consts.h:38), so the check is on the offset.
    - Every load and store leaves its word offset in the leakage trace.  There
      are no branches in these files.
    - Operand order is AT&T order: [op src2, src1, dst] computes
      [dst := src1 op src2].
    - Instructions are parametric in the type of lanes, so that the same
      definition can be run on values and on symbolic terms. *)
From Coq Require Import ZArith List Bool.
From Verif Require Import CMonad.
Import ListNotations.
Open Scope Z_scope.

(** What a lane type must provide. *)
Record lane_ops (A : Type) := {
  l_zero : A;
  l_add : A -> A -> A;
  l_sub : A -> A -> A;
  l_mullo : A -> A -> A;          (* low 16 bits of the signed product *)
  l_mulhi : A -> A -> A;          (* high 16 bits of the signed product *)
  l_and : A -> A -> A;
  l_or : A -> A -> A;
  l_sra : Z -> A -> A;
  l_srl : Z -> A -> A;
  l_sll : Z -> A -> A;
  l_shufb : list A -> A -> option A; (* a control word of vpshufb applied to
                                        the eight words of its 128-bit half *)
  l_index : A -> option nat          (* a lane used as a vpermd index *)
}.
Arguments l_zero {A}. Arguments l_add {A}. Arguments l_sub {A}.
Arguments l_mullo {A}. Arguments l_mulhi {A}. Arguments l_and {A}.
Arguments l_or {A}. Arguments l_sra {A}. Arguments l_srl {A}.
Arguments l_sll {A}. Arguments l_shufb {A}. Arguments l_index {A}.

(** ** Lanes holding 16-bit values, represented by signed integers *)
Definition lane_byte (ws : list Z) (i : Z) : Z :=
  let w := u16 (nth (Z.to_nat (i / 2)) ws 0) in
  if Z.even i then w mod 256 else w / 256.
(** One control byte of vpshufb: bit 7 clears, bits 3:0 select. *)
Definition shufb_byte (ws : list Z) (c : Z) : Z :=
  if Z.testbit c 7 then 0 else lane_byte ws (Z.land c 15).

Definition Zlanes : lane_ops Z := {|
  l_zero := 0;
  l_add a b := i16 (a + b);
  l_sub a b := i16 (a - b);
  l_mullo a b := i16 (a * b);
  l_mulhi a b := i16 (Z.shiftr (a * b) 16);
  l_and a b := Z.land a b;
  l_or a b := Z.lor a b;
  l_sra n a := Z.shiftr a n;
  l_srl n a := i16 (Z.shiftr (u16 a) n);
  l_sll n a := i16 (Z.shiftl a n);
  l_shufb ws c := Some (i16 (shufb_byte ws (u16 c mod 256) + 256 * shufb_byte ws (u16 c / 256)));
  l_index a := Some (Z.to_nat (Z.land a 7))
|}.

(** ** Instructions *)
(** General-purpose registers, as names of the objects they point to. *)
Definition rdi : nat := 0.
Definition rsi : nat := 1.
Definition rdx : nat := 2.
Definition rcx : nat := 3.
Definition rsp : nat := 4.

Inductive opnd :=
| Y (r : nat)                 (* %ymm r *)
| M (base off : nat).         (* off words past the start of an object *)

Inductive instr :=
| vmovdqa_load (base off d : nat)
| vmovdqa_store (s base off : nat)
| vmovdqu_load (base off d : nat)
| vmovdqu_store (s base off : nat)
| vpbroadcastq (base off d : nat)
| vpaddw (s2 : opnd) (s1 d : nat)
| vpsubw (s2 : opnd) (s1 d : nat)
| vpmullw (s2 : opnd) (s1 d : nat)
| vpmulhw (s2 : opnd) (s1 d : nat)
| vpand (s2 : opnd) (s1 d : nat)
| vpor (s2 : opnd) (s1 d : nat)
| vpsraw (n : Z) (s d : nat)
| vpsrlw (n : Z) (s d : nat)
| vpsllw (n : Z) (s d : nat)
| vperm2i128 (imm : Z) (s2 s1 d : nat)
| vpunpcklqdq (s2 s1 d : nat)
| vpunpckhqdq (s2 s1 d : nat)
| vmovsldup (s d : nat)
| vpblendd (imm : Z) (s2 s1 d : nat)
| vpblendw (imm : Z) (s2 s1 d : nat)
| vpsrlq (n : nat) (s d : nat)
| vpslld (n : nat) (s d : nat)
| vpsrld (n : nat) (s d : nat)
| vpermq (imm : Z) (s : opnd) (d : nat)
| vpshufb (c s d : nat)
| vpermd (s : opnd) (c d : nat).

(** ** Data movement as selection

    A word-permuting instruction is a list of sixteen selectors into
    [src1 ++ src2 ++ [0]]: 0-15 are the words of src1, 16-31 those of src2
    and 32 is zero. *)
Definition select {A} (z : A) (idx : list nat) (a b : list A) : list A :=
  map (fun i => nth i (a ++ b ++ [z]) z) idx.

(** vperm2i128: each 128-bit half of the result is chosen by four bits. *)
Definition idx_perm2i128 (imm : Z) : list nat :=
  flat_map (fun h => let c := Z.shiftr imm (4 * h) in
                     if Z.testbit c 3 then repeat 32%nat 8
                     else seq (8 * Z.to_nat (Z.land c 3)) 8) [0; 1].
Definition idx_unpacklqdq : list nat :=
  (seq 0 4 ++ seq 16 4 ++ seq 8 4 ++ seq 24 4)%nat.
Definition idx_unpackhqdq : list nat :=
  (seq 4 4 ++ seq 20 4 ++ seq 12 4 ++ seq 28 4)%nat.
Definition idx_movsldup : list nat :=
  flat_map (fun j => [4 * j; 4 * j + 1; 4 * j; 4 * j + 1])%nat (seq 0 4).
Definition idx_blendd (imm : Z) : list nat :=
  flat_map (fun d => let o := if Z.testbit imm (Z.of_nat d) then 16%nat else 0%nat in
                     [o + 2 * d; o + 2 * d + 1])%nat (seq 0 8).
Definition idx_blendw (imm : Z) : list nat :=
  map (fun i => if Z.testbit imm (Z.of_nat (i mod 8)) then (16 + i)%nat else i) (seq 0 16).
(** Shifts of 64- and 32-bit elements by whole words ([n] words). *)
Definition idx_srlq (n : nat) : list nat :=
  flat_map (fun j => map (fun i => if (i + n <? 4)%nat then (4 * j + (i + n))%nat else 32%nat)
                         (seq 0 4)) (seq 0 4).
Definition idx_slld (n : nat) : list nat :=
  flat_map (fun j => map (fun i => if (n <=? i)%nat then (2 * j + (i - n))%nat else 32%nat)
                         (seq 0 2)) (seq 0 8).
Definition idx_srld (n : nat) : list nat :=
  flat_map (fun j => map (fun i => if (i + n <? 2)%nat then (2 * j + (i + n))%nat else 32%nat)
                         (seq 0 2)) (seq 0 8).
Definition idx_permq (imm : Z) : list nat :=
  flat_map (fun j => seq (4 * Z.to_nat (Z.land (Z.shiftr imm (2 * j)) 3)) 4) [0; 1; 2; 3].

(** ** Machine states *)
Record state (A : Type) := St { ymm : list (list A); mem : list (list A) }.
Arguments St {A}. Arguments ymm {A}. Arguments mem {A}.

Section Exec.
  Context {A : Type} (L : lane_ops A).

  Definition get_reg (s : state A) (r : nat) : res (list A) :=
    match nth_error (ymm s) r with Some v => ret v | None => UB OutOfBounds end.
  Definition set_reg (s : state A) (r : nat) (v : list A) : res (state A) :=
    ret (St (upd (ymm s) r v) (mem s)).

  (** [n] words at [off] in object [b]. *)
  Definition load_words (s : state A) (b off n : nat) : res (list A) :=
    match nth_error (mem s) b with
    | Some m => if (off + n <=? length m)%nat
                then Ok (firstn n (skipn off m)) [EvIndex off] else UB OutOfBounds
    | None => UB OutOfBounds
    end.
  Definition store_words (s : state A) (b off : nat) (v : list A) : res (state A) :=
    match nth_error (mem s) b with
    | Some m => if (off + length v <=? length m)%nat
                then Ok (St (ymm s) (upd (mem s) b
                          (firstn off m ++ v ++ skipn (off + length v) m))) [EvIndex off]
                else UB OutOfBounds
    | None => UB OutOfBounds
    end.
  Definition aligned (off : nat) : res unit :=
    if (off mod 16 =? 0)%nat then ret tt else UB Misaligned.

  Definition get_opnd (s : state A) (o : opnd) : res (list A) :=
    match o with Y r => get_reg s r | M b off => load_words s b off 16 end.

  Fixpoint map2 (f : A -> A -> A) (a b : list A) : list A :=
    match a, b with x :: a', y :: b' => f x y :: map2 f a' b' | _, _ => [] end.

  Definition op2 (f : A -> A -> A) s (s2 : opnd) (s1 d : nat) : res (state A) :=
    b <- get_opnd s s2 ;;
    a <- get_reg s s1 ;;
    set_reg s d (map2 f a b).
  Definition op1 (f : A -> A) s (s1 d : nat) : res (state A) :=
    a <- get_reg s s1 ;; set_reg s d (map f a).
  Definition sel2 (idx : list nat) s (s2 s1 d : nat) : res (state A) :=
    b <- get_reg s s2 ;;
    a <- get_reg s s1 ;;
    set_reg s d (select (l_zero L) idx a b).
  Definition sel1 (idx : list nat) s (s1 d : nat) : res (state A) :=
    a <- get_reg s s1 ;;
    set_reg s d (select (l_zero L) idx a a).

  Fixpoint sequence {B} (l : list (option B)) : option (list B) :=
    match l with
    | [] => Some []
    | Some x :: l' => match sequence l' with Some r => Some (x :: r) | None => None end
    | None :: _ => None
    end.
  (** vpshufb works on each 128-bit half separately. *)
  Definition shufb (a c : list A) : option (list A) :=
    match sequence (map (l_shufb L (firstn 8 a)) (firstn 8 c)),
          sequence (map (l_shufb L (skipn 8 a)) (skipn 8 c)) with
    | Some x, Some y => Some (x ++ y)
    | _, _ => None
    end.
  (** vpermd selects 32-bit elements of [a] by the low words of [c]. *)
  Definition permd (a c : list A) : option (list A) :=
    match sequence (map (fun j => l_index L (nth (2 * j) c (l_zero L))) (seq 0 8)) with
    | Some ks => Some (flat_map (fun k => [nth (2 * k) a (l_zero L); nth (2 * k + 1) a (l_zero L)])%nat ks)
    | None => None
    end.
  (** A control vector whose value the interpretation cannot determine; this
      never happens when lanes are values. *)
  Definition defined {B} (o : option B) : res B :=
    match o with Some v => ret v | None => Timeout end.

  Definition exec (i : instr) (s : state A) : res (state A) :=
    match i with
    | vmovdqa_load b off d =>
        _ <- aligned off ;; v <- load_words s b off 16 ;; set_reg s d v
    | vmovdqa_store r b off =>
        _ <- aligned off ;; v <- get_reg s r ;; store_words s b off v
    | vmovdqu_load b off d => v <- load_words s b off 16 ;; set_reg s d v
    | vmovdqu_store r b off => v <- get_reg s r ;; store_words s b off v
    | vpbroadcastq b off d => v <- load_words s b off 4 ;; set_reg s d (v ++ v ++ v ++ v)
    | vpaddw s2 s1 d => op2 (l_add L) s s2 s1 d
    | vpsubw s2 s1 d => op2 (l_sub L) s s2 s1 d
    | vpmullw s2 s1 d => op2 (l_mullo L) s s2 s1 d
    | vpmulhw s2 s1 d => op2 (l_mulhi L) s s2 s1 d
    | vpand s2 s1 d => op2 (l_and L) s s2 s1 d
    | vpor s2 s1 d => op2 (l_or L) s s2 s1 d
    | vpsraw n s1 d => op1 (l_sra L n) s s1 d
    | vpsrlw n s1 d => op1 (l_srl L n) s s1 d
    | vpsllw n s1 d => op1 (l_sll L n) s s1 d
    | vperm2i128 imm s2 s1 d => sel2 (idx_perm2i128 imm) s s2 s1 d
    | vpunpcklqdq s2 s1 d => sel2 idx_unpacklqdq s s2 s1 d
    | vpunpckhqdq s2 s1 d => sel2 idx_unpackhqdq s s2 s1 d
    | vmovsldup s1 d => sel1 idx_movsldup s s1 d
    | vpblendd imm s2 s1 d => sel2 (idx_blendd imm) s s2 s1 d
    | vpblendw imm s2 s1 d => sel2 (idx_blendw imm) s s2 s1 d
    | vpsrlq n s1 d => sel1 (idx_srlq (n / 16)) s s1 d
    | vpslld n s1 d => sel1 (idx_slld (n / 16)) s s1 d
    | vpsrld n s1 d => sel1 (idx_srld (n / 16)) s s1 d
    | vpermq imm o d =>
        a <- get_opnd s o ;; set_reg s d (select (l_zero L) (idx_permq imm) a a)
    | vpshufb c s1 d =>
        cv <- get_reg s c ;; a <- get_reg s s1 ;;
        v <- defined (shufb a cv) ;; set_reg s d v
    | vpermd o c d =>
        a <- get_opnd s o ;; cv <- get_reg s c ;;
        v <- defined (permd a cv) ;; set_reg s d v
    end.

  Fixpoint run (code : list instr) (s : state A) : res (state A) :=
    match code with
    | [] => ret s
    | i :: code' => s' <- exec i s ;; run code' s'
    end.
End Exec.
