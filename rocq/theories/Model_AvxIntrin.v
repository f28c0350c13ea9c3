(** * A model of the AVX2/SSE intrinsics used by the C files of /repo/avx2

    (cbd.c, poly.c, polyvec.c, rejsample.c, verify.c).

    - A vector (__m256i, __m128i, or a shorter piece moved by memcpy) is the
      list of its bits, bit 0 first: 256, 128, ... bits.
    - A straight-line sequence of intrinsics is a list of assignments
      [x ~ e] to numbered variables; [e] is built from a few primitives:
      bit movement along an index list ([Mov], [Ctl] when the index list is
      read from a control vector), the four bitwise operations, and lane
      arithmetic ([Ar]).  Each intrinsic is a definition below, after the
      description in Intel's Intrinsics Guide.
    - Execution is parametric in the type of bits, so that the same program can
      be run on values and on symbolic terms.
    - Loads and stores are operations of the C monad: out-of-bounds accesses
      are undefined and each access leaves its element offset in the trace.
      [_mm256_load_si256]/[_mm256_store_si256] are only applied to the [vec]
      member of the unions of avx2/align.h at whole vectors, so the 32-byte
      alignment they need holds by construction. *)
From Coq Require Import ZArith List Bool.
From Verif Require Import CMonad.
Import ListNotations.
Open Scope Z_scope.

(** ** Lane arithmetic on unsigned representatives *)
Inductive aop : Type :=
| AAdd (w : nat) | ASub (w : nat)   (* modulo 2^w *)
| AMul (w : nat)                    (* low half of the product *)
| AMulhi                            (* high half of the signed 16-bit product *)
| AMulhrs                           (* (((a * b) >> 14) + 1) >> 1 *)
| AAdds                             (* 16-bit addition with signed saturation *)
| AGt                               (* signed 16-bit comparison: 0xFFFF or 0 *)
| APacks | APackus.                 (* saturation of a signed word to a byte *)
Definition inw (o : aop) : nat :=
  match o with AAdd w | ASub w | AMul w => w | _ => 16%nat end.
Definition outw (o : aop) : nat :=
  match o with AAdd w | ASub w | AMul w => w | APacks | APackus => 8%nat | _ => 16%nat end.

Definition sat (lo hi x : Z) : Z := if x <? lo then lo else if hi <? x then hi else x.
Definition asem (o : aop) (x y : Z) : Z :=
  match o with
  | AAdd w => (x + y) mod 2 ^ Z.of_nat w
  | ASub w => (x - y) mod 2 ^ Z.of_nat w
  | AMul w => (x * y) mod 2 ^ Z.of_nat w
  | AMulhi => u16 (Z.shiftr (i16 x * i16 y) 16)
  | AMulhrs => u16 (Z.shiftr (Z.shiftr (i16 x * i16 y) 14 + 1) 1)
  | AAdds => u16 (sat (-32768) 32767 (i16 x + i16 y))
  | AGt => if i16 y <? i16 x then 65535 else 0
  | APacks => u8 (sat (-128) 127 (i16 x))
  | APackus => sat 0 255 (i16 x)
  end.

(** ** Programs *)
Definition index := option nat.      (* None: a zero bit *)
Inductive expr : Type :=
| V (n : nat)
| K (c : list bool)
| Cat (a b : expr)
| Mov (ix : list index) (a : expr)
| Ctl (f : list bool -> list index) (a k : expr)
| BAnd (a b : expr) | BOr (a b : expr) | BXor (a b : expr)
| BAndnot (a b : expr)               (* ~a & b *)
| Ar (o : aop) (a b : expr).
Record stmt := Assign { target : nat; source : expr }.
Notation "x ~ e" := (Assign x e) (at level 60).

(** What a type of bits must provide.  [b_const] gives the value of a bit used
    to control a data movement. *)
Record bit_ops (A : Type) := {
  b_zero : A;
  b_of : bool -> A;
  b_and : A -> A -> A;
  b_or : A -> A -> A;
  b_xor : A -> A -> A;
  b_andnot : A -> A -> A;
  b_arith : aop -> list A -> list A -> list A;
  b_const : A -> option bool
}.
Arguments b_zero {A}. Arguments b_of {A}. Arguments b_and {A}. Arguments b_or {A}.
Arguments b_xor {A}. Arguments b_andnot {A}. Arguments b_arith {A}. Arguments b_const {A}.

Fixpoint zip_with {A B C} (f : A -> B -> C) (x : list A) (y : list B) : list C :=
  match x, y with
  | a :: x', b :: y' => f a b :: zip_with f x' y'
  | _, _ => []
  end.
Definition chunks {A} (w : nat) (l : list A) : list (list A) :=
  map (fun i => firstn w (skipn (i * w) l)) (seq 0 (length l / w)).
Definition select {A} (z : A) (l : list A) (ix : index) : A :=
  match ix with Some i => nth i l z | None => z end.
Fixpoint all_some {A} (l : list (option A)) : option (list A) :=
  match l with
  | [] => Some []
  | Some a :: l' => match all_some l' with Some r => Some (a :: r) | None => None end
  | None :: _ => None
  end.

Section Run.
  Context {A : Type} (O : bit_ops A).
  Definition both (f : list A -> list A -> list A) (x y : option (list A)) : option (list A) :=
    match x, y with
    | Some a, Some b => if (length a =? length b)%nat then Some (f a b) else None
    | _, _ => None
    end.
  Fixpoint eval (env : nat -> option (list A)) (e : expr) : option (list A) :=
    match e with
    | V n => env n
    | K c => Some (map (b_of O) c)
    | Cat a b =>
        match eval env a, eval env b with Some x, Some y => Some (x ++ y) | _, _ => None end
    | Mov ix a =>
        match eval env a with Some x => Some (map (select (b_zero O) x) ix) | None => None end
    | Ctl f a k =>
        match eval env a, eval env k with
        | Some x, Some c =>
            match all_some (map (b_const O) c) with
            | Some cb => Some (map (select (b_zero O) x) (f cb))
            | None => None
            end
        | _, _ => None
        end
    | BAnd a b => both (zip_with (b_and O)) (eval env a) (eval env b)
    | BOr a b => both (zip_with (b_or O)) (eval env a) (eval env b)
    | BXor a b => both (zip_with (b_xor O)) (eval env a) (eval env b)
    | BAndnot a b => both (zip_with (b_andnot O)) (eval env a) (eval env b)
    | Ar o a b =>
        both (fun x y => concat (zip_with (b_arith O o) (chunks (inw o) x) (chunks (inw o) y)))
             (eval env a) (eval env b)
    end.
  Definition assign (env : nat -> option (list A)) (n : nat) (v : list A) : nat -> option (list A) :=
    fun m => if (m =? n)%nat then Some v else env m.
  Fixpoint exec (env : nat -> option (list A)) (p : list stmt) : option (nat -> option (list A)) :=
    match p with
    | [] => Some env
    | s :: p' =>
        match eval env (source s) with
        | Some v => exec (assign env (target s) v) p'
        | None => None
        end
    end.
  (** Inputs are the first variables; the results are those of a list of
      variables. *)
  Definition run (p : list stmt) (ins : list (list A)) (outs : list nat) : option (list (list A)) :=
    match exec (fun n => nth_error ins n) p with
    | Some env => all_some (map env outs)
    | None => None
    end.
End Run.

(** Values *)
Fixpoint value (l : list bool) : Z :=
  match l with [] => 0 | b :: l' => Z.b2z b + 2 * value l' end.
Definition bits_of (w : nat) (x : Z) : list bool := map (fun j => Z.testbit x (Z.of_nat j)) (seq 0 w).
Definition arith_bits (o : aop) (x y : list bool) : list bool :=
  bits_of (outw o) (asem o (value x) (value y)).
Definition bool_ops : bit_ops bool :=
  {| b_zero := false; b_of := fun b => b; b_and := andb; b_or := orb; b_xor := xorb;
     b_andnot := fun a b => negb a && b; b_arith := arith_bits; b_const := Some |}.

(** An ill-typed program has no meaning (this never happens below). *)
Definition exec_c (p : list stmt) (ins : list (list bool)) (outs : list nat) : res (list (list bool)) :=
  match run bool_ops p ins outs with Some r => ret r | None => UB OutOfBounds end.

(** ** Constants *)
Definition set1 (w n : nat) (x : Z) : list bool := concat (repeat (bits_of w x) n).
Definition set1_epi8 := set1 8 32.
Definition set1_epi16 := set1 16 16.
Definition set1_epi32 := set1 32 8.
Definition set1_epi64x := set1 64 4.
(** The _mm256_set functions take the highest element first. *)
Definition setn (w : nat) (l : list Z) : list bool := flat_map (bits_of w) (rev l).
Definition set_epi8 := setn 8.
Definition set_epi16 := setn 16.
Definition set_epi32 := setn 32.
Definition set_epi64x := setn 64.

(** ** Index lists.  [n] is the number of lanes, [w] their width. *)
Definition lanes_ix (n w : nat) (f : nat -> nat -> index) : list index :=
  flat_map (fun l => map (f l) (seq 0 w)) (seq 0 n).
Definition ok (i : nat) : index := Some i.
(** A word that moves as a whole *)
Definition words_ix (w : nat) (l : list nat) : list index := flat_map (fun i => map ok (seq (i * w) w)) l.
Definition srl_ix (n w c : nat) : list index :=
  lanes_ix n w (fun l j => if (j + c <? w)%nat then Some (l * w + j + c)%nat else None).
Definition sll_ix (n w c : nat) : list index :=
  lanes_ix n w (fun l j => if (j <? c)%nat then None else Some (l * w + j - c)%nat).
Definition sra_ix (n w c : nat) : list index :=
  lanes_ix n w (fun l j => Some (l * w + Nat.min (j + c) (w - 1))%nat).
Definition imm2 (imm : nat) (i : nat) : nat := (imm / 4 ^ i mod 4)%nat.

Definition mm256_srli_epi16 (a : expr) (c : nat) := Mov (srl_ix 16 16 c) a.
Definition mm256_srli_epi32 (a : expr) (c : nat) := Mov (srl_ix 8 32 c) a.
Definition mm256_srli_epi64 (a : expr) (c : nat) := Mov (srl_ix 4 64 c) a.
Definition mm256_slli_epi16 (a : expr) (c : nat) := Mov (sll_ix 16 16 c) a.
Definition mm256_slli_epi32 (a : expr) (c : nat) := Mov (sll_ix 8 32 c) a.
Definition mm256_slli_epi64 (a : expr) (c : nat) := Mov (sll_ix 4 64 c) a.
Definition mm256_srai_epi16 (a : expr) (c : nat) := Mov (sra_ix 16 16 c) a.
Definition mm256_bsrli_epi128 (a : expr) (c : nat) := Mov (srl_ix 2 128 (8 * c)) a.
Definition mm_srli_epi16 (a : expr) (c : nat) := Mov (srl_ix 8 16 c) a.

(** Shift counts from a vector (a count of at least the width clears the lane) *)
Definition lane_value (w : nat) (c : list bool) (l : nat) : nat := Z.to_nat (value (firstn w (skipn (l * w) c))).
Definition sllv_ix (n w : nat) (c : list bool) : list index :=
  flat_map (fun l => let s := lane_value w c l in
    map (fun j => if (j <? s)%nat then None else Some (l * w + j - s)%nat) (seq 0 w)) (seq 0 n).
Definition srlv_ix (n w : nat) (c : list bool) : list index :=
  flat_map (fun l => let s := lane_value w c l in
    map (fun j => if (j + s <? w)%nat then Some (l * w + j + s)%nat else None) (seq 0 w)) (seq 0 n).
Definition mm256_sllv_epi32 (a k : expr) := Ctl (sllv_ix 8 32) a k.
Definition mm256_srlv_epi32 (a k : expr) := Ctl (srlv_ix 8 32) a k.
Definition mm256_srlv_epi64 (a k : expr) := Ctl (srlv_ix 4 64) a k.

(** Byte shuffle inside each 128-bit half: control bytes with the top bit set
    clear the byte, otherwise their low four bits select. *)
Definition shufb_ix (n : nat) (c : list bool) : list index :=
  flat_map (fun l =>
    let cb := firstn 8 (skipn (l * 8) c) in
    let s := (l / 16 * 16 + Z.to_nat (value (firstn 4 cb)))%nat in
    map (fun j => if nth 7 cb false then None else Some (s * 8 + j)%nat) (seq 0 8)) (seq 0 n).
Definition mm256_shuffle_epi8 (a k : expr) := Ctl (shufb_ix 32) a k.
Definition mm_shuffle_epi8 (a k : expr) := Ctl (shufb_ix 16) a k.
Definition mm256_shuffle_epi32 (a : expr) (imm : nat) :=
  Mov (words_ix 32 (map (fun i => i / 4 * 4 + imm2 imm (i mod 4))%nat (seq 0 8))) a.
Definition mm256_permutevar8x32_epi32 (a k : expr) :=
  Ctl (fun c => words_ix 32 (map (fun i => lane_value 32 c i mod 8)%nat (seq 0 8))) a k.
Definition mm256_permute4x64_epi64 (a : expr) (imm : nat) := Mov (words_ix 64 (map (imm2 imm) (seq 0 4))) a.
(** Only selectors 0-3 per half (no zeroing) are used. *)
Definition mm256_permute2x128_si256 (a b : expr) (imm : nat) :=
  Mov (words_ix 128 [imm2 imm 0; imm2 imm 2]) (Cat a b).

(** Interleave the low or high parts of each 128-bit half; [m] words of width
    [w] per half *)
Definition unpack_ix (w m lo : nat) : list index :=
  words_ix w (flat_map (fun h => flat_map (fun i => [h * m + lo + i; 2 * m + h * m + lo + i]%nat) (seq 0 (m / 2))) (seq 0 2)).
Definition mm256_unpacklo_epi8 (a b : expr) := Mov (unpack_ix 8 16 0) (Cat a b).
Definition mm256_unpackhi_epi8 (a b : expr) := Mov (unpack_ix 8 16 8) (Cat a b).
Definition mm256_unpacklo_epi32 (a b : expr) := Mov (unpack_ix 32 4 0) (Cat a b).
Definition mm256_unpackhi_epi32 (a b : expr) := Mov (unpack_ix 32 4 2) (Cat a b).
Definition mm256_unpacklo_epi64 (a b : expr) := Mov (unpack_ix 64 2 0) (Cat a b).
Definition mm256_unpackhi_epi64 (a b : expr) := Mov (unpack_ix 64 2 1) (Cat a b).
Definition mm_unpacklo_epi8 (a b : expr) :=
  Mov (words_ix 8 (flat_map (fun i => [i; 16 + i]%nat) (seq 0 8))) (Cat a b).

(** Blends: the second operand where the (repeated) immediate bit, or the top
    bit of the control byte, is set *)
Definition blend16_ix (n imm : nat) : list index :=
  words_ix 16 (map (fun i => if Nat.odd (imm / 2 ^ (i mod 8)) then n + i else i)%nat (seq 0 n)).
Definition mm256_blend_epi16 (a b : expr) (imm : nat) := Mov (blend16_ix 16 imm) (Cat a b).
Definition mm_blend_epi16 (a b : expr) (imm : nat) := Mov (blend16_ix 8 imm) (Cat a b).
Definition blendv_ix (n : nat) (c : list bool) : list index :=
  words_ix 8 (map (fun i => if nth (8 * i + 7) c false then n + i else i)%nat (seq 0 n)).
Definition mm256_blendv_epi8 (a b k : expr) := Ctl (blendv_ix 32) (Cat a b) k.
Definition mm_blendv_epi8 (a b k : expr) := Ctl (blendv_ix 16) (Cat a b) k.

(** Width changes *)
Definition mm256_castsi256_si128 (a : expr) := Mov (words_ix 128 [0%nat]) a.
Definition mm256_extracti128_si256 (a : expr) (i : nat) := Mov (words_ix 128 [i]) a.
Definition mm256_broadcastsi128_si256 (a : expr) := Cat a a.
(** [_mm256_inserti128_si256(_mm256_castsi128_si256(a), b, 1)] *)
Definition mm256_set_m128i_lohi (a b : expr) := Cat a b.
(** [_mm_loadl_epi64]: the upper half is cleared *)
Definition zero_upper64 (a : expr) := Cat a (K (repeat false 64)).
Definition mm_insert_epi16 (a v : expr) (i : nat) :=
  Mov (words_ix 16 (map (fun j => if (j =? i)%nat then 8 else j)%nat (seq 0 8))) (Cat a v).
Definition low (n : nat) (a : expr) := Mov (map ok (seq 0 n)) a.
Definition mm256_cvtepi8_epi16 (a : expr) :=
  Mov (lanes_ix 16 16 (fun l j => Some (l * 8 + Nat.min j 7)%nat)) a.
Definition mm256_movemask_epi8 (a : expr) := Mov (map (fun i => Some (8 * i + 7)%nat) (seq 0 32)) a.
Definition mm_movemask_epi8 (a : expr) := Mov (map (fun i => Some (8 * i + 7)%nat) (seq 0 16)) a.
(** [_pext_u32(a, 0x5555)] for a 16-bit [a] *)
Definition pext_5555 (a : expr) := Mov (map (fun i => Some (2 * i)%nat) (seq 0 8)) a.

(** Arithmetic *)
Definition mm256_add_epi8 := Ar (AAdd 8).
Definition mm256_add_epi16 := Ar (AAdd 16).
Definition mm256_add_epi32 := Ar (AAdd 32).
Definition mm256_add_epi64 := Ar (AAdd 64).
Definition mm256_sub_epi8 := Ar (ASub 8).
Definition mm256_sub_epi16 := Ar (ASub 16).
Definition mm256_sub_epi32 := Ar (ASub 32).
Definition mm_add_epi8 := Ar (AAdd 8).
Definition mm256_mullo_epi16 := Ar (AMul 16).
Definition mm256_mulhi_epi16 := Ar AMulhi.
Definition mm256_mulhrs_epi16 := Ar AMulhrs.
Definition mm256_cmpgt_epi16 := Ar AGt.
Definition mm_cmpgt_epi16 := Ar AGt.
Definition mm256_and_si256 := BAnd.
Definition mm_and_si128 := BAnd.
Definition mm256_or_si256 := BOr.
Definition mm256_xor_si256 := BXor.
Definition mm256_andnot_si256 := BAndnot.

(** Even or odd lanes of width [w], sign- or zero-extended to twice the width *)
Definition ext_ix (signed : bool) (n w parity : nat) : list index :=
  lanes_ix n (2 * w) (fun l j =>
    if (j <? w)%nat then Some ((2 * l + parity) * w + j)%nat
    else if signed then Some ((2 * l + parity) * w + w - 1)%nat else None).
(** [_mm256_madd_epi16]: sums of adjacent signed 16x16-bit products, modulo 2^32 *)
Definition mm256_madd_epi16 (a b : expr) :=
  Ar (AAdd 32) (Ar (AMul 32) (Mov (ext_ix true 8 16 0) a) (Mov (ext_ix true 8 16 0) b))
               (Ar (AMul 32) (Mov (ext_ix true 8 16 1) a) (Mov (ext_ix true 8 16 1) b)).
(** [_mm256_maddubs_epi16]: unsigned times signed bytes, saturating sum *)
Definition mm256_maddubs_epi16 (a b : expr) :=
  Ar AAdds (Ar (AMul 16) (Mov (ext_ix false 16 8 0) a) (Mov (ext_ix true 16 8 0) b))
           (Ar (AMul 16) (Mov (ext_ix false 16 8 1) a) (Mov (ext_ix true 16 8 1) b)).
(** Saturating packs: low half of each 128-bit part from [a], high from [b] *)
Definition pack_ix : list index := words_ix 64 [0; 2; 1; 3]%nat.
Definition zeros (n : nat) := K (repeat false n).
Definition mm256_packus_epi16 (a b : expr) := Mov pack_ix (Cat (Ar APackus a (zeros 256)) (Ar APackus b (zeros 256))).
Definition mm256_packs_epi16 (a b : expr) := Mov pack_ix (Cat (Ar APacks a (zeros 256)) (Ar APacks b (zeros 256))).

(** ** Memory *)
Definition mload (l : list Z) (off n : nat) : res (list Z) :=
  if (off + n <=? length l)%nat then Ok (firstn n (skipn off l)) [EvIndex off] else UB OutOfBounds.
Definition mstore (l : list Z) (off : nat) (v : list Z) : res (list Z) :=
  if (off + length v <=? length l)%nat
  then Ok (firstn off l ++ v ++ skipn (off + length v) l) [EvIndex off] else UB OutOfBounds.

Definition bits_words (w : nat) (l : list Z) : list bool := flat_map (bits_of w) l.
Definition words_bits (w : nat) (v : list bool) : list Z := map value (chunks w v).

(** [n] bytes at [off] *)
Definition load_bytes (buf : list Z) (off n : nat) : res (list bool) :=
  v <- mload buf off n ;; ret (bits_words 8 v).
Definition store_bytes (buf : list Z) (off : nat) (v : list bool) : res (list Z) :=
  mstore buf off (words_bits 8 v).
(** [p->vec[i]] of a polynomial *)
Definition load_vec (p : list Z) (i : nat) : res (list bool) :=
  v <- mload p (16 * i) 16 ;; ret (bits_words 16 v).
Definition store_vec (p : list Z) (i : nat) (v : list bool) : res (list Z) :=
  mstore p (16 * i) (map i16 (words_bits 16 v)).
