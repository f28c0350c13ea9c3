(** * /repo/ref/fips202.c *)
From Coq Require Import ZArith List.
From Verif Require Import CMonad.
Import ListNotations.
Open Scope Z_scope.
Open Scope cmonad_scope.

(** fips202.h:7-10 *)
Definition SHAKE128_RATE : nat := 168.
Definition SHAKE256_RATE : nat := 136.
Definition SHA3_256_RATE : nat := 136.
Definition SHA3_512_RATE : nat := 72.

(** fips202.c:11  #define ROL(a, offset) ((a << offset) ^ (a >> (64-offset)))
    on uint64_t; all offsets are literals between 1 and 63. *)
Definition ROL (a : Z) (offset : Z) : Z :=
  Z.lxor (u64 (Z.shiftl a offset)) (Z.shiftr a (64 - offset)).

(** ~a on uint64_t *)
Definition not64 (a : Z) : Z := Z.lxor a 0xffffffffffffffff.

Local Notation "a ⊕ b" := (Z.lxor a b) (at level 50, left associativity).
Local Notation "a ∧b b" := (Z.land a b) (at level 40, left associativity).

(** Run-time division and remainder of unsigned ints; the operands leak. *)
Definition ndiv (a b : nat) : res nat :=
  Ok (a / b)%nat [EvDiv (Z.of_nat a) (Z.of_nat b)].
Definition nmod (a b : nat) : res nat :=
  Ok (a mod b)%nat [EvDiv (Z.of_nat a) (Z.of_nat b)].

(** fips202.c:22-30 *)
Definition load64 (x : list Z) (xo : nat) : res Z :=
  for_ 8 0 (fun i r =>
    b <- aget x (xo + i) ;;
    s <- ushl 64 b (Z.of_nat (8 * i)) ;;
    ret (Z.lor r s)) 0.

(** fips202.c:40-45 *)
Definition store64 (x : list Z) (xo : nat) (u : Z) : res (list Z) :=
  for_ 8 0 (fun i x =>
    s <- shr 64 u (Z.of_nat (8 * i)) ;;
    aset x (xo + i) (u8 s)) x.

(** fips202.c:48-73 *)
Definition KeccakF_RoundConstants : list Z := [
  0x0000000000000001;
  0x0000000000008082;
  0x800000000000808a;
  0x8000000080008000;
  0x000000000000808b;
  0x0000000080000001;
  0x8000000080008081;
  0x8000000000008009;
  0x000000000000008a;
  0x0000000000000088;
  0x0000000080008009;
  0x000000008000000a;
  0x000000008000808b;
  0x800000000000008b;
  0x8000000000008089;
  0x8000000000008003;
  0x8000000000008002;
  0x8000000000000080;
  0x000000000000800a;
  0x800000008000000a;
  0x8000000080008081;
  0x8000000000008080;
  0x0000000080000001;
  0x8000000080008008
].

(** The 25 local variables Xba ... Xsu of the permutation (X = A or E). *)
Inductive lanes : Type :=
  Lanes (ba be bi bo bu ga ge gi go gu ka ke ki ko ku ma me mi mo mu sa se si so su : Z).

(** First half of the unrolled loop body: one round from the variables A* to
    the variables E*. [rc] is KeccakF_RoundConstants[round]. *)
(** fips202.c:127-221 *)
Definition keccak_half1 (rc : Z) (st : lanes) : lanes :=
  match st with
  | Lanes Aba Abe Abi Abo Abu Aga Age Agi Ago Agu Aka Ake Aki Ako Aku Ama Ame Ami Amo Amu Asa Ase Asi Aso Asu =>
    let BCa := Aba ⊕ Aga ⊕ Aka ⊕ Ama ⊕ Asa in
    let BCe := Abe ⊕ Age ⊕ Ake ⊕ Ame ⊕ Ase in
    let BCi := Abi ⊕ Agi ⊕ Aki ⊕ Ami ⊕ Asi in
    let BCo := Abo ⊕ Ago ⊕ Ako ⊕ Amo ⊕ Aso in
    let BCu := Abu ⊕ Agu ⊕ Aku ⊕ Amu ⊕ Asu in
    let Da := BCu ⊕ ROL BCe 1 in
    let De := BCa ⊕ ROL BCi 1 in
    let Di := BCe ⊕ ROL BCo 1 in
    let Do := BCi ⊕ ROL BCu 1 in
    let Du := BCo ⊕ ROL BCa 1 in
    let Aba := Aba ⊕ Da in
    let BCa := Aba in
    let Age := Age ⊕ De in
    let BCe := ROL Age 44 in
    let Aki := Aki ⊕ Di in
    let BCi := ROL Aki 43 in
    let Amo := Amo ⊕ Do in
    let BCo := ROL Amo 21 in
    let Asu := Asu ⊕ Du in
    let BCu := ROL Asu 14 in
    let Eba := BCa ⊕ ((not64 BCe) ∧b BCi ) in
    let Eba := Eba ⊕ rc in
    let Ebe := BCe ⊕ ((not64 BCi) ∧b BCo ) in
    let Ebi := BCi ⊕ ((not64 BCo) ∧b BCu ) in
    let Ebo := BCo ⊕ ((not64 BCu) ∧b BCa ) in
    let Ebu := BCu ⊕ ((not64 BCa) ∧b BCe ) in
    let Abo := Abo ⊕ Do in
    let BCa := ROL Abo 28 in
    let Agu := Agu ⊕ Du in
    let BCe := ROL Agu 20 in
    let Aka := Aka ⊕ Da in
    let BCi := ROL Aka 3 in
    let Ame := Ame ⊕ De in
    let BCo := ROL Ame 45 in
    let Asi := Asi ⊕ Di in
    let BCu := ROL Asi 61 in
    let Ega := BCa ⊕ ((not64 BCe) ∧b BCi ) in
    let Ege := BCe ⊕ ((not64 BCi) ∧b BCo ) in
    let Egi := BCi ⊕ ((not64 BCo) ∧b BCu ) in
    let Ego := BCo ⊕ ((not64 BCu) ∧b BCa ) in
    let Egu := BCu ⊕ ((not64 BCa) ∧b BCe ) in
    let Abe := Abe ⊕ De in
    let BCa := ROL Abe 1 in
    let Agi := Agi ⊕ Di in
    let BCe := ROL Agi 6 in
    let Ako := Ako ⊕ Do in
    let BCi := ROL Ako 25 in
    let Amu := Amu ⊕ Du in
    let BCo := ROL Amu 8 in
    let Asa := Asa ⊕ Da in
    let BCu := ROL Asa 18 in
    let Eka := BCa ⊕ ((not64 BCe) ∧b BCi ) in
    let Eke := BCe ⊕ ((not64 BCi) ∧b BCo ) in
    let Eki := BCi ⊕ ((not64 BCo) ∧b BCu ) in
    let Eko := BCo ⊕ ((not64 BCu) ∧b BCa ) in
    let Eku := BCu ⊕ ((not64 BCa) ∧b BCe ) in
    let Abu := Abu ⊕ Du in
    let BCa := ROL Abu 27 in
    let Aga := Aga ⊕ Da in
    let BCe := ROL Aga 36 in
    let Ake := Ake ⊕ De in
    let BCi := ROL Ake 10 in
    let Ami := Ami ⊕ Di in
    let BCo := ROL Ami 15 in
    let Aso := Aso ⊕ Do in
    let BCu := ROL Aso 56 in
    let Ema := BCa ⊕ ((not64 BCe) ∧b BCi ) in
    let Eme := BCe ⊕ ((not64 BCi) ∧b BCo ) in
    let Emi := BCi ⊕ ((not64 BCo) ∧b BCu ) in
    let Emo := BCo ⊕ ((not64 BCu) ∧b BCa ) in
    let Emu := BCu ⊕ ((not64 BCa) ∧b BCe ) in
    let Abi := Abi ⊕ Di in
    let BCa := ROL Abi 62 in
    let Ago := Ago ⊕ Do in
    let BCe := ROL Ago 55 in
    let Aku := Aku ⊕ Du in
    let BCi := ROL Aku 39 in
    let Ama := Ama ⊕ Da in
    let BCo := ROL Ama 41 in
    let Ase := Ase ⊕ De in
    let BCu := ROL Ase 2 in
    let Esa := BCa ⊕ ((not64 BCe) ∧b BCi ) in
    let Ese := BCe ⊕ ((not64 BCi) ∧b BCo ) in
    let Esi := BCi ⊕ ((not64 BCo) ∧b BCu ) in
    let Eso := BCo ⊕ ((not64 BCu) ∧b BCa ) in
    let Esu := BCu ⊕ ((not64 BCa) ∧b BCe ) in
    Lanes Eba Ebe Ebi Ebo Ebu Ega Ege Egi Ego Egu Eka Eke Eki Eko Eku Ema Eme Emi Emo Emu Esa Ese Esi Eso Esu
  end.

(** Second half: one round from E* to A*.  [rc] is
    KeccakF_RoundConstants[round+1]. *)
(** fips202.c:222-317 *)
Definition keccak_half2 (rc : Z) (st : lanes) : lanes :=
  match st with
  | Lanes Eba Ebe Ebi Ebo Ebu Ega Ege Egi Ego Egu Eka Eke Eki Eko Eku Ema Eme Emi Emo Emu Esa Ese Esi Eso Esu =>
    let BCa := Eba ⊕ Ega ⊕ Eka ⊕ Ema ⊕ Esa in
    let BCe := Ebe ⊕ Ege ⊕ Eke ⊕ Eme ⊕ Ese in
    let BCi := Ebi ⊕ Egi ⊕ Eki ⊕ Emi ⊕ Esi in
    let BCo := Ebo ⊕ Ego ⊕ Eko ⊕ Emo ⊕ Eso in
    let BCu := Ebu ⊕ Egu ⊕ Eku ⊕ Emu ⊕ Esu in
    let Da := BCu ⊕ ROL BCe 1 in
    let De := BCa ⊕ ROL BCi 1 in
    let Di := BCe ⊕ ROL BCo 1 in
    let Do := BCi ⊕ ROL BCu 1 in
    let Du := BCo ⊕ ROL BCa 1 in
    let Eba := Eba ⊕ Da in
    let BCa := Eba in
    let Ege := Ege ⊕ De in
    let BCe := ROL Ege 44 in
    let Eki := Eki ⊕ Di in
    let BCi := ROL Eki 43 in
    let Emo := Emo ⊕ Do in
    let BCo := ROL Emo 21 in
    let Esu := Esu ⊕ Du in
    let BCu := ROL Esu 14 in
    let Aba := BCa ⊕ ((not64 BCe) ∧b BCi ) in
    let Aba := Aba ⊕ rc in
    let Abe := BCe ⊕ ((not64 BCi) ∧b BCo ) in
    let Abi := BCi ⊕ ((not64 BCo) ∧b BCu ) in
    let Abo := BCo ⊕ ((not64 BCu) ∧b BCa ) in
    let Abu := BCu ⊕ ((not64 BCa) ∧b BCe ) in
    let Ebo := Ebo ⊕ Do in
    let BCa := ROL Ebo 28 in
    let Egu := Egu ⊕ Du in
    let BCe := ROL Egu 20 in
    let Eka := Eka ⊕ Da in
    let BCi := ROL Eka 3 in
    let Eme := Eme ⊕ De in
    let BCo := ROL Eme 45 in
    let Esi := Esi ⊕ Di in
    let BCu := ROL Esi 61 in
    let Aga := BCa ⊕ ((not64 BCe) ∧b BCi ) in
    let Age := BCe ⊕ ((not64 BCi) ∧b BCo ) in
    let Agi := BCi ⊕ ((not64 BCo) ∧b BCu ) in
    let Ago := BCo ⊕ ((not64 BCu) ∧b BCa ) in
    let Agu := BCu ⊕ ((not64 BCa) ∧b BCe ) in
    let Ebe := Ebe ⊕ De in
    let BCa := ROL Ebe 1 in
    let Egi := Egi ⊕ Di in
    let BCe := ROL Egi 6 in
    let Eko := Eko ⊕ Do in
    let BCi := ROL Eko 25 in
    let Emu := Emu ⊕ Du in
    let BCo := ROL Emu 8 in
    let Esa := Esa ⊕ Da in
    let BCu := ROL Esa 18 in
    let Aka := BCa ⊕ ((not64 BCe) ∧b BCi ) in
    let Ake := BCe ⊕ ((not64 BCi) ∧b BCo ) in
    let Aki := BCi ⊕ ((not64 BCo) ∧b BCu ) in
    let Ako := BCo ⊕ ((not64 BCu) ∧b BCa ) in
    let Aku := BCu ⊕ ((not64 BCa) ∧b BCe ) in
    let Ebu := Ebu ⊕ Du in
    let BCa := ROL Ebu 27 in
    let Ega := Ega ⊕ Da in
    let BCe := ROL Ega 36 in
    let Eke := Eke ⊕ De in
    let BCi := ROL Eke 10 in
    let Emi := Emi ⊕ Di in
    let BCo := ROL Emi 15 in
    let Eso := Eso ⊕ Do in
    let BCu := ROL Eso 56 in
    let Ama := BCa ⊕ ((not64 BCe) ∧b BCi ) in
    let Ame := BCe ⊕ ((not64 BCi) ∧b BCo ) in
    let Ami := BCi ⊕ ((not64 BCo) ∧b BCu ) in
    let Amo := BCo ⊕ ((not64 BCu) ∧b BCa ) in
    let Amu := BCu ⊕ ((not64 BCa) ∧b BCe ) in
    let Ebi := Ebi ⊕ Di in
    let BCa := ROL Ebi 62 in
    let Ego := Ego ⊕ Do in
    let BCe := ROL Ego 55 in
    let Eku := Eku ⊕ Du in
    let BCi := ROL Eku 39 in
    let Ema := Ema ⊕ Da in
    let BCo := ROL Ema 41 in
    let Ese := Ese ⊕ De in
    let BCu := ROL Ese 2 in
    let Asa := BCa ⊕ ((not64 BCe) ∧b BCi ) in
    let Ase := BCe ⊕ ((not64 BCi) ∧b BCo ) in
    let Asi := BCi ⊕ ((not64 BCo) ∧b BCu ) in
    let Aso := BCo ⊕ ((not64 BCu) ∧b BCa ) in
    let Asu := BCu ⊕ ((not64 BCa) ∧b BCe ) in
    Lanes Aba Abe Abi Abo Abu Aga Age Agi Ago Agu Aka Ake Aki Ako Aku Ama Ame Ami Amo Amu Asa Ase Asi Aso Asu
  end.

(** fips202.c:82-344.  The loop runs for round = 0, 2, ..., 22; iteration [n]
    has round = 2*n. *)
Definition KeccakF1600_StatePermute (state : list Z) : res (list Z) :=
  Aba <- aget state 0 ;;
  Abe <- aget state 1 ;;
  Abi <- aget state 2 ;;
  Abo <- aget state 3 ;;
  Abu <- aget state 4 ;;
  Aga <- aget state 5 ;;
  Age <- aget state 6 ;;
  Agi <- aget state 7 ;;
  Ago <- aget state 8 ;;
  Agu <- aget state 9 ;;
  Aka <- aget state 10 ;;
  Ake <- aget state 11 ;;
  Aki <- aget state 12 ;;
  Ako <- aget state 13 ;;
  Aku <- aget state 14 ;;
  Ama <- aget state 15 ;;
  Ame <- aget state 16 ;;
  Ami <- aget state 17 ;;
  Amo <- aget state 18 ;;
  Amu <- aget state 19 ;;
  Asa <- aget state 20 ;;
  Ase <- aget state 21 ;;
  Asi <- aget state 22 ;;
  Aso <- aget state 23 ;;
  Asu <- aget state 24 ;;
  st <- for_ 12 0 (fun n st =>
    rc <- aget KeccakF_RoundConstants (2 * n) ;;
    let st := keccak_half1 rc st in
    rc <- aget KeccakF_RoundConstants (2 * n + 1) ;;
    ret (keccak_half2 rc st)) (Lanes Aba Abe Abi Abo Abu Aga Age Agi Ago Agu Aka Ake Aki Ako Aku Ama Ame Ami Amo Amu Asa Ase Asi Aso Asu) ;;
  match st with
  | Lanes Aba Abe Abi Abo Abu Aga Age Agi Ago Agu Aka Ake Aki Ako Aku Ama Ame Ami Amo Amu Asa Ase Asi Aso Asu =>
    state <- aset state 0 Aba ;;
    state <- aset state 1 Abe ;;
    state <- aset state 2 Abi ;;
    state <- aset state 3 Abo ;;
    state <- aset state 4 Abu ;;
    state <- aset state 5 Aga ;;
    state <- aset state 6 Age ;;
    state <- aset state 7 Agi ;;
    state <- aset state 8 Ago ;;
    state <- aset state 9 Agu ;;
    state <- aset state 10 Aka ;;
    state <- aset state 11 Ake ;;
    state <- aset state 12 Aki ;;
    state <- aset state 13 Ako ;;
    state <- aset state 14 Aku ;;
    state <- aset state 15 Ama ;;
    state <- aset state 16 Ame ;;
    state <- aset state 17 Ami ;;
    state <- aset state 18 Amo ;;
    state <- aset state 19 Amu ;;
    state <- aset state 20 Asa ;;
    state <- aset state 21 Ase ;;
    state <- aset state 22 Asi ;;
    state <- aset state 23 Aso ;;
    aset state 24 Asu
  end.

(** fips202.c:353-358 *)
Definition keccak_init (s : list Z) : res (list Z) :=
  for_ 25 0 (fun i s => aset s i 0) s.

(** s[i/8] ^= (uint64_t)b << 8*(i%8); *)
Definition xor_byte (s : list Z) (i : nat) (b : Z) : res (list Z) :=
  m <- nmod i 8 ;;
  v <- ushl 64 b (Z.of_nat (8 * m)) ;;
  d <- ndiv i 8 ;;
  x <- aget s d ;;
  aset s d (Z.lxor x v).

(** fips202.c:373-393.  The loop state is (s, pos, in, inlen); the incremented
    pointer [in] is the offset [io].  Sizes are nat: pos+inlen cannot wrap
    since no object is larger than 2^63 bytes.  Precondition pos <= r (else
    the unsigned r-pos would wrap; here it would be truncated).  The fuel
    exceeds the number of iterations: each one after the first consumes r >= 1
    bytes. Returns (s, new pos). *)
Definition keccak_absorb (s : list Z) (pos r : nat) (inp : list Z) (io inlen : nat)
  : res (list Z * nat) :=
  st <- while_ (S (S inlen))
    (fun st => let '(s, pos, io, inlen) := st in test (r <=? pos + inlen)%nat)
    (fun st => let '(s, pos, io, inlen) := st in
      s <- for_ (r - pos) pos (fun i s =>
             b <- aget inp (io + (i - pos)) ;; xor_byte s i b) s ;;
      s <- KeccakF1600_StatePermute s ;;
      ret (s, 0%nat, (io + (r - pos))%nat, (inlen - (r - pos))%nat))
    (s, pos, io, inlen) ;;
  let '(s, pos, io, inlen) := st in
  s <- for_ inlen pos (fun i s =>
         b <- aget inp (io + (i - pos)) ;; xor_byte s i b) s ;;
  ret (s, (pos + inlen)%nat).

(** fips202.c:405-409 *)
Definition keccak_finalize (s : list Z) (pos r : nat) (p : Z) : res (list Z) :=
  s <- xor_byte s pos p ;;
  x <- aget s (r / 8 - 1) ;;
  aset s (r / 8 - 1) (Z.lxor x (2 ^ 63)).

(** fips202.c:426-446.  Loop state (out, oo, outlen, s, pos); [*out++] is the
    offset [oo].  Returns (out, s, pos).  Fuel: every iteration writes at
    least one byte when pos <= r and r > 0. *)
Definition keccak_squeeze (out : list Z) (oo outlen : nat) (s : list Z) (pos r : nat)
  : res (list Z * list Z * nat) :=
  st <- while_ (S outlen)
    (fun st => let '(out, oo, outlen, s, pos) := st in test (negb (outlen =? 0)%nat))
    (fun st => let '(out, oo, outlen, s, pos) := st in
      b <- test (pos =? r)%nat ;;
      '(s, pos) <- (if (b : bool)
                    then (s <- KeccakF1600_StatePermute s ;; ret (s, 0%nat))
                    else ret (s, pos)) ;;
      '(i, out) <- while_ (S r)
        (fun st => let '(i, out) := st in
           test_and (i <? r)%nat (test (i <? pos + outlen)%nat))
        (fun st => let '(i, out) := st in
           m <- nmod i 8 ;;
           d <- ndiv i 8 ;;
           x <- aget s d ;;
           v <- shr 64 x (Z.of_nat (8 * m)) ;;
           out <- aset out (oo + (i - pos)) (u8 v) ;;
           ret (S i, out))
        (pos, out) ;;
      ret (out, (oo + (i - pos))%nat, (outlen - (i - pos))%nat, s, i))
    (out, oo, outlen, s, pos) ;;
  let '(out, oo, outlen, s, pos) := st in
  ret (out, s, pos).

(** fips202.c:461-485 *)
Definition keccak_absorb_once (s : list Z) (r : nat) (inp : list Z) (io inlen : nat) (p : Z)
  : res (list Z) :=
  s <- for_ 25 0 (fun i s => aset s i 0) s ;;
  st <- while_ (S inlen)
    (fun st => let '(s, io, inlen) := st in test (r <=? inlen)%nat)
    (fun st => let '(s, io, inlen) := st in
      s <- for_ (r / 8) 0 (fun i s =>
             x <- aget s i ;;
             v <- load64 inp (io + 8 * i) ;;
             aset s i (Z.lxor x v)) s ;;
      s <- KeccakF1600_StatePermute s ;;
      ret (s, (io + r)%nat, (inlen - r)%nat))
    (s, io, inlen) ;;
  let '(s, io, inlen) := st in
  s <- for_ inlen 0 (fun i s => b <- aget inp (io + i) ;; xor_byte s i b) s ;;
  s <- xor_byte s inlen p ;;
  x <- aget s ((r - 1) / 8) ;;
  aset s ((r - 1) / 8) (Z.lxor x (2 ^ 63)).

(** fips202.c:500-514.  [while(nblocks)] with nblocks -= 1 runs nblocks times;
    [out += r] is the offset oo + r*n. *)
Definition keccak_squeezeblocks (out : list Z) (oo nblocks : nat) (s : list Z) (r : nat)
  : res (list Z * list Z) :=
  for_ nblocks 0 (fun n st =>
    let '(out, s) := st in
    s <- KeccakF1600_StatePermute s ;;
    out <- for_ (r / 8) 0 (fun i out =>
             x <- aget s i ;;
             store64 out (oo + r * n + 8 * i) x) out ;;
    ret (out, s)) (out, s).

(** fips202.h:13-16 *)
Record keccak_state : Type := KState { ks : list Z; kpos : nat }.

(** fips202.c:523-527 and 610-614 *)
Definition shake_init (state : keccak_state) : res keccak_state :=
  s <- keccak_init (ks state) ;;
  ret (KState s 0).
Definition shake128_init := shake_init.
Definition shake256_init := shake_init.

(** fips202.c:538-541, 625-628 *)
Definition shake_absorb (rate : nat) (state : keccak_state) (inp : list Z) (io inlen : nat)
  : res keccak_state :=
  '(s, pos) <- keccak_absorb (ks state) (kpos state) rate inp io inlen ;;
  ret (KState s pos).
Definition shake128_absorb := shake_absorb SHAKE128_RATE.
Definition shake256_absorb := shake_absorb SHAKE256_RATE.

(** fips202.c:550-554, 637-641 *)
Definition shake_finalize (rate : nat) (state : keccak_state) : res keccak_state :=
  s <- keccak_finalize (ks state) (kpos state) rate 0x1F ;;
  ret (KState s rate).
Definition shake128_finalize := shake_finalize SHAKE128_RATE.
Definition shake256_finalize := shake_finalize SHAKE256_RATE.

(** fips202.c:566-569, 653-656 *)
Definition shake_squeeze (rate : nat) (out : list Z) (oo outlen : nat) (state : keccak_state)
  : res (list Z * keccak_state) :=
  '(out, s, pos) <- keccak_squeeze out oo outlen (ks state) (kpos state) rate ;;
  ret (out, KState s pos).
Definition shake128_squeeze := shake_squeeze SHAKE128_RATE.
Definition shake256_squeeze := shake_squeeze SHAKE256_RATE.

(** fips202.c:580-584, 667-671 *)
Definition shake_absorb_once (rate : nat) (state : keccak_state) (inp : list Z) (io inlen : nat)
  : res keccak_state :=
  s <- keccak_absorb_once (ks state) rate inp io inlen 0x1F ;;
  ret (KState s rate).
Definition shake128_absorb_once := shake_absorb_once SHAKE128_RATE.
Definition shake256_absorb_once := shake_absorb_once SHAKE256_RATE.

(** fips202.c:598-601, 685-688; state->pos is left alone *)
Definition shake_squeezeblocks (rate : nat) (out : list Z) (oo nblocks : nat)
  (state : keccak_state) : res (list Z * keccak_state) :=
  '(out, s) <- keccak_squeezeblocks out oo nblocks (ks state) rate ;;
  ret (out, KState s (kpos state)).
Definition shake128_squeezeblocks := shake_squeezeblocks SHAKE128_RATE.
Definition shake256_squeezeblocks := shake_squeezeblocks SHAKE256_RATE.

Section WithJunk.
Context `{Junk}.

(** An uninitialised local keccak_state. *)
Definition local_state : keccak_state := KState (local 25) (Z.to_nat (junk 25)).

(** fips202.c:700-711, 723-734 *)
Definition shake (rate : nat) (out : list Z) (oo outlen : nat) (inp : list Z) (io inlen : nat)
  : res (list Z) :=
  state <- shake_absorb_once rate local_state inp io inlen ;;
  nblocks <- ndiv outlen rate ;;
  '(out, state) <- shake_squeezeblocks rate out oo nblocks state ;;
  let outlen := (outlen - nblocks * rate)%nat in
  let oo := (oo + nblocks * rate)%nat in
  '(out, state) <- shake_squeeze rate out oo outlen state ;;
  ret out.
Definition shake128 := shake SHAKE128_RATE.
Definition shake256 := shake SHAKE256_RATE.

(** fips202.c:745-754.  [in] may alias [h] (hash_g(buf, buf, ..)): all reads of
    [in] happen in keccak_absorb_once, before the first write to [h]. *)
Definition sha3_256 (h : list Z) (ho : nat) (inp : list Z) (io inlen : nat) : res (list Z) :=
  s <- keccak_absorb_once (local 25) SHA3_256_RATE inp io inlen 0x06 ;;
  s <- KeccakF1600_StatePermute s ;;
  for_ 4 0 (fun i h => x <- aget s i ;; store64 h (ho + 8 * i) x) h.

(** fips202.c:765-774 *)
Definition sha3_512 (h : list Z) (ho : nat) (inp : list Z) (io inlen : nat) : res (list Z) :=
  s <- keccak_absorb_once (local 25) SHA3_512_RATE inp io inlen 0x06 ;;
  s <- KeccakF1600_StatePermute s ;;
  for_ 8 0 (fun i h => x <- aget s i ;; store64 h (ho + 8 * i) x) h.

End WithJunk.
