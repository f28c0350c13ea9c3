(** * /repo/avx2/fips202x4.c: four SHAKE instances at a time

    The four input buffers and the four output buffers are distinct objects,
    given as lists of four byte arrays; the pointers point to their first
    element.  An 8-byte access ([_mm256_i64gather_epi64] reads one per input,
    [_mm_storel_pd]/[_mm_storeh_pd] write one each) is the byte loop of
    [load64]/[store64]: accesses outside the buffer are undefined.  Sizes are
    nat, as in Model_Fips202.v. *)
From Coq Require Import ZArith List Bool.
From Verif Require Import CMonad Model_Fips202 Model_AvxKeccak.
Import ListNotations.
Open Scope Z_scope.
Open Scope cmonad_scope.

(** t = _mm256_i64gather_epi64((long long * )pos, idx, 1) *)
Fixpoint gather64 (ins : list (list Z)) (pos : nat) : res (list Z) :=
  match ins with
  | [] => ret []
  | b :: ins' => v <- load64 b pos ;; r <- gather64 ins' pos ;; ret (v :: r)
  end.

(** Lane j of x goes to 8 bytes at offset [off] of buffer j *)
Fixpoint store64_each (outs : list (list Z)) (off : nat) (x : list Z) : res (list (list Z)) :=
  match outs, x with
  | o :: outs', v :: x' =>
      o <- store64 o off v ;; r <- store64_each outs' off x' ;; ret (o :: r)
  | _, _ => ret []
  end.

Section WithJunk.
Context `{Junk}.

(** for(i = 0; i < n; ++i) { t = gather(pos); s[i] = xor(s[i], t); pos += 8; } *)
Definition xor_gathered (ins : list (list Z)) (n : nat) (s : list (list Z)) (pos : nat)
  : res (list (list Z) * nat) :=
  for_ n 0 (fun i st =>
    let '(s, pos) := st in
    t <- gather64 ins pos ;;
    x <- aget s i ;;
    s <- aset s i (v_xor x t) ;;
    ret (s, (pos + 8)%nat)) (s, pos).

(** fips202x4.c:12-58 *)
Definition keccakx4_absorb_once (s : list (list Z)) (r : nat) (ins : list (list Z)) (inlen : nat) (p : Z)
  : res (list (list Z)) :=
  s <- for_ 25 0 (fun i s => aset s i (v_set1 0)) s ;;
  st <- while_ (S inlen)
    (fun st => let '(s, pos, inlen) := st in test (r <=? inlen)%nat)
    (fun st => let '(s, pos, inlen) := st in
      '(s, pos) <- xor_gathered ins (r / 8) s pos ;;
      s <- KeccakF1600_StatePermute4x s ;;
      ret (s, pos, (inlen - r)%nat))
    (s, 0%nat, inlen) ;;
  let '(s, pos, inlen) := st in
  i <- ndiv inlen 8 ;;
  '(s, pos) <- xor_gathered ins i s pos ;;
  let inlen := (inlen - 8 * i)%nat in
  b <- test (negb (inlen =? 0)%nat) ;;
  s <- (if (b : bool)
        then (t <- gather64 ins pos ;;
              m <- ushl 64 1 (Z.of_nat (8 * inlen)) ;;
              let idx := v_set1 (u64 (m - 1)) in
              let t := v_and t idx in
              x <- aget s i ;;
              aset s i (v_xor x t))
        else ret s) ;;
  v <- ushl 64 p (Z.of_nat (8 * inlen)) ;;
  let t := v_set1 v in
  x <- aget s i ;;
  s <- aset s i (v_xor x t) ;;
  let t := v_set1 (2 ^ 63) in
  x <- aget s (r / 8 - 1) ;;
  aset s (r / 8 - 1) (v_xor x t).

(** fips202x4.c:60-88; [while(nblocks > 0)] with --nblocks runs nblocks times
    and [out0 += r] is the offset oo + r*n *)
Definition keccakx4_squeezeblocks (outs : list (list Z)) (oo nblocks r : nat) (s : list (list Z))
  : res (list (list Z) * list (list Z)) :=
  for_ nblocks 0 (fun n st =>
    let '(outs, s) := st in
    s <- KeccakF1600_StatePermute4x s ;;
    outs <- for_ (r / 8) 0 (fun i outs =>
              x <- aget s i ;;
              store64_each outs (oo + r * n + 8 * i) x) outs ;;
    ret (outs, s)) (outs, s).

(** fips202x4.c:90-128; a keccakx4_state is its member s *)
Definition shake128x4_absorb_once (state : list (list Z)) (ins : list (list Z)) (inlen : nat) :=
  keccakx4_absorb_once state SHAKE128_RATE ins inlen 0x1F.
Definition shake128x4_squeezeblocks (outs : list (list Z)) (oo nblocks : nat) (state : list (list Z)) :=
  keccakx4_squeezeblocks outs oo nblocks SHAKE128_RATE state.
Definition shake256x4_absorb_once (state : list (list Z)) (ins : list (list Z)) (inlen : nat) :=
  keccakx4_absorb_once state SHAKE256_RATE ins inlen 0x1F.
Definition shake256x4_squeezeblocks (outs : list (list Z)) (oo nblocks : nat) (state : list (list Z)) :=
  keccakx4_squeezeblocks outs oo nblocks SHAKE256_RATE state.

(** An uninitialised array of n uint8_t *)
Definition local8 (n : nat) : list Z := map u8 (local n).

(** An uninitialised keccakx4_state *)
Definition local_state4 : list (list Z) := repeat v_junk 25.

(** out0[i] = t[0][i]; out1[i] = t[1][i]; ... *)
Fixpoint copy_each (outs ts : list (list Z)) (oo i : nat) : res (list (list Z)) :=
  match outs, ts with
  | o :: outs', t :: ts' =>
      v <- aget t i ;;
      o <- aset o (oo + i) v ;;
      r <- copy_each outs' ts' oo i ;; ret (o :: r)
  | _, _ => ret []
  end.

(** fips202x4.c:130-164, 166-200 *)
Definition shakex4 (rate : nat) (outs : list (list Z)) (outlen : nat) (ins : list (list Z)) (inlen : nat)
  : res (list (list Z)) :=
  nblocks <- ndiv outlen rate ;;
  let t := repeat (local8 rate) 4 in
  state <- keccakx4_absorb_once local_state4 rate ins inlen 0x1F ;;
  '(outs, state) <- keccakx4_squeezeblocks outs 0 nblocks rate state ;;
  let oo := (nblocks * rate)%nat in
  let outlen := (outlen - nblocks * rate)%nat in
  b <- test (negb (outlen =? 0)%nat) ;;
  if (b : bool)
  then ('(t, state) <- keccakx4_squeezeblocks t 0 1 rate state ;;
        for_ outlen 0 (fun i outs => copy_each outs t oo i) outs)
  else ret outs.
Definition shake128x4 := shakex4 SHAKE128_RATE.
Definition shake256x4 := shakex4 SHAKE256_RATE.

End WithJunk.
