(** * /repo/ref/nistkat/rng.c: the deterministic generator of the KAT program

    The AES of OpenSSL is a parameter [E]; its calls succeed (a failure is
    abort()).  unsigned long and unsigned long long are 64 bits. *)
From Coq Require Import ZArith List Bool.
From Verif Require Import CMonad Model_Randombytes.
Import ListNotations.
Open Scope Z_scope.
Open Scope cmonad_scope.

Definition RNG_SUCCESS : Z := 0.
Definition RNG_BAD_MAXLEN : Z := -1.
Definition RNG_BAD_OUTBUF : Z := -2.
Definition RNG_BAD_REQ_LEN : Z := -3.

(** AES_XOF_struct, AES256_CTR_DRBG_struct (rng.h:20-34) *)
Record xof_ctx := { x_buffer : list Z; x_pos : Z; x_remaining : Z; x_key : list Z; x_ctr : list Z }.
Record drbg_ctx := { d_key : list Z; d_v : list Z; d_counter : Z }.

Section WithJunk.
Context `{Junk}.
Section Cipher.
Variable E : list Z -> list Z -> list Z.

(** memset(p, 0, n) *)
Definition zero (p : list Z) (off n : nat) : res (list Z) := kernel_write p off (repeat 0 n).

(** rng.c:115-138 *)
Definition AES256_ECB (key ctr buffer : list Z) (bo : nat) : res (list Z) :=
  if (32 <=? length key)%nat && (16 <=? length ctr)%nat
  then kernel_write buffer bo (E (firstn 32 key) (firstn 16 ctr))
  else UB OutOfBounds.

(** for (j = lo + n - 1; j >= lo; j--) if (v[j] == 0xff) v[j] = 0; else { v[j]++; break; } *)
Fixpoint increment (n lo : nat) (v : list Z) : res (list Z) :=
  match n with
  | O => _ <- test false ;; ret v
  | S n' =>
      _ <- test true ;;
      x <- aget v (lo + n') ;;
      c <- test (x =? 0xff) ;;
      if (c : bool) then (v <- aset v (lo + n') 0 ;; increment n' lo v)
      else aset v (lo + n') (u8 (x + 1))
  end.

(** rng.c:188-212; a null [provided_data] is [None].  Returns (Key, V). *)
Definition AES256_CTR_DRBG_Update (provided : option (list Z)) (key v : list Z) : res (list Z * list Z) :=
  '(v, temp) <- for_ 3 0 (fun i s => let '(v, temp) := s in
      v <- increment 16 0 v ;;
      temp <- AES256_ECB key v temp (16 * i) ;;
      ret (v, temp)) (v, local 48) ;;
  temp <- match provided with
          | None => _ <- test false ;; ret temp
          | Some data =>
              _ <- test true ;;
              for_ 48 0 (fun i temp =>
                x <- aget temp i ;; y <- aget data i ;; aset temp i (u8 (Z.lxor x y))) temp
          end ;;
  key <- memcpy key 0 temp 0 32 ;;
  v <- memcpy v 0 temp 32 16 ;;
  ret (key, v).

(** rng.c:140-155; the global state DRBG_ctx is an argument and the result *)
Definition randombytes_init (st : drbg_ctx) (entropy : list Z) (personalization : option (list Z)) : res drbg_ctx :=
  seed <- memcpy (local 48) 0 entropy 0 48 ;;
  seed <- match personalization with
          | None => _ <- test false ;; ret seed
          | Some p =>
              _ <- test true ;;
              for_ 48 0 (fun i seed =>
                x <- aget seed i ;; y <- aget p i ;; aset seed i (u8 (Z.lxor x y))) seed
          end ;;
  key <- zero (d_key st) 0 32 ;;
  v <- zero (d_v st) 0 16 ;;
  '(key, v) <- AES256_CTR_DRBG_Update (Some seed) key v ;;
  ret {| d_key := key; d_v := v; d_counter := 1 |}.

(** rng.c:157-186; returns (x, DRBG_ctx, return value).  The loop ends after
    at most xlen / 16 + 1 rounds. *)
Definition drbg_randombytes (st : drbg_ctx) (x : list Z) (xo : nat) (xlen : Z) : res (list Z * drbg_ctx * Z) :=
  '(v, block, x, i, xlen) <- while_ (Z.to_nat (xlen / 16 + 2))
    (fun s => let '(v, block, x, i, xlen) := s in test (0 <? xlen))
    (fun s => let '(v, block, x, i, xlen) := s in
       v <- increment 16 0 v ;;
       block <- AES256_ECB (d_key st) v block 0 ;;
       c <- test (15 <? xlen) ;;
       if (c : bool) then
         x <- memcpy x (xo + Z.to_nat i) block 0 16 ;;
         i <- iadd i 16 ;;
         ret (v, block, x, i, xlen - 16)
       else
         x <- memcpy x (xo + Z.to_nat i) block 0 (Z.to_nat xlen) ;;
         ret (v, block, x, i, 0))
    (d_v st, local 16, x, 0, xlen) ;;
  '(key, v) <- AES256_CTR_DRBG_Update None (d_key st) v ;;
  n <- iadd (d_counter st) 1 ;;
  ret (x, {| d_key := key; d_v := v; d_counter := n |}, RNG_SUCCESS).

(** rng.c:25-52; returns (ctx, return value) *)
Definition seedexpander_init (ctx : xof_ctx) (seed diversifier : list Z) (maxlen : Z) : res (xof_ctx * Z) :=
  c <- test (0x100000000 <=? maxlen) ;;
  if (c : bool) then ret (ctx, RNG_BAD_MAXLEN)
  else
    let remaining := maxlen in
    key <- memcpy (x_key ctx) 0 seed 0 32 ;;
    ctr <- memcpy (x_ctr ctx) 0 diversifier 0 8 ;;
    ctr <- aset ctr 11 (u8 (maxlen mod 256)) ;;
    let maxlen := Z.shiftr maxlen 8 in
    ctr <- aset ctr 10 (u8 (maxlen mod 256)) ;;
    let maxlen := Z.shiftr maxlen 8 in
    ctr <- aset ctr 9 (u8 (maxlen mod 256)) ;;
    let maxlen := Z.shiftr maxlen 8 in
    ctr <- aset ctr 8 (u8 (maxlen mod 256)) ;;
    ctr <- zero ctr 12 4 ;;
    buffer <- zero (x_buffer ctx) 0 16 ;;
    ret ({| x_buffer := buffer; x_pos := 16; x_remaining := remaining; x_key := key; x_ctr := ctr |}, RNG_SUCCESS).

(** rng.c:74-101, the loop of seedexpander *)
Fixpoint expander_loop (fuel : nat) (ctx : xof_ctx) (x : list Z) (xo : nat) (offset xlen : Z)
  : res (xof_ctx * list Z) :=
  match fuel with
  | O => Timeout
  | S f =>
      c <- test (0 <? xlen) ;;
      if negb c then ret (ctx, x)
      else
        d <- isub 16 (x_pos ctx) ;;
        c <- test (xlen <=? u64 d) ;;
        if (c : bool) then
          x <- memcpy x (xo + Z.to_nat offset) (x_buffer ctx) (Z.to_nat (x_pos ctx)) (Z.to_nat xlen) ;;
          ret ({| x_buffer := x_buffer ctx; x_pos := i32 (u64 (x_pos ctx + xlen)); x_remaining := x_remaining ctx;
                  x_key := x_key ctx; x_ctr := x_ctr ctx |}, x)
        else
          x <- memcpy x (xo + Z.to_nat offset) (x_buffer ctx) (Z.to_nat (x_pos ctx)) (Z.to_nat (u64 d)) ;;
          let xlen := u64 (xlen - d) in
          let offset := u64 (offset + d) in
          buffer <- AES256_ECB (x_key ctx) (x_ctr ctx) (x_buffer ctx) 0 ;;
          ctr <- increment 4 12 (x_ctr ctx) ;;
          expander_loop f {| x_buffer := buffer; x_pos := 0; x_remaining := x_remaining ctx;
                             x_key := x_key ctx; x_ctr := ctr |} x xo offset xlen
  end.

(** rng.c:60-104; a null [x] is [None].  Returns (ctx, x, return value). *)
Definition seedexpander (ctx : xof_ctx) (x : option (list Z * nat)) (xlen : Z)
  : res (xof_ctx * option (list Z * nat) * Z) :=
  match x with
  | None => _ <- test true ;; ret (ctx, None, RNG_BAD_OUTBUF)
  | Some (x, xo) =>
      _ <- test false ;;
      c <- test (x_remaining ctx <=? xlen) ;;
      if (c : bool) then ret (ctx, Some (x, xo), RNG_BAD_REQ_LEN)
      else
        let ctx := {| x_buffer := x_buffer ctx; x_pos := x_pos ctx; x_remaining := x_remaining ctx - xlen;
                      x_key := x_key ctx; x_ctr := x_ctr ctx |} in
        '(ctx, x) <- expander_loop (Z.to_nat (xlen + 2)) ctx x xo 0 xlen ;;
        ret (ctx, Some (x, xo), RNG_SUCCESS)
  end.

End Cipher.
End WithJunk.
