(** * /repo/avx2/polyvec.c, lines 149-307: the loops over the polynomials of a
    vector.  The functions poly_ntt, poly_invntt_tomont, poly_tobytes,
    poly_frombytes, poly_basemul_montgomery, poly_tomont, poly_reduce and
    poly_nttunpack of avx2/poly.c only call the assembly routine of the same
    purpose with qdata.vec, so those routines are called directly here. *)
From Coq Require Import ZArith List.
From Verif Require Import CMonad Model_Params Model_Polyvec Model_AvxAsm Model_AvxCode Model_AvxC.
Import ListNotations.
Open Scope Z_scope.
Open Scope cmonad_scope.

(** avx2/polyvec.c:158-168.  Kyber1024 writes two bytes past the end. *)
Definition polyvec_compress_avx2 (lv : level) (r : list Z) (ro : nat) (a : polyvec) : res (list Z) :=
  match lv with
  | Kyber1024 => for_ (KYBER_K lv) 0 (fun i r => ai <- aget a i ;; poly_compress11_avx2 r (ro + 352 * i) ai) r
  | _ => for_ (KYBER_K lv) 0 (fun i r => ai <- aget a i ;; poly_compress10_avx2 r (ro + 320 * i) ai) r
  end.

(** avx2/polyvec.c:180-190.  The last polynomial is read with 12 (d = 10) or 10
    (d = 11) bytes past the end. *)
Definition polyvec_decompress_avx2 (lv : level) (r : polyvec) (a : list Z) (ao : nat) : res polyvec :=
  match lv with
  | Kyber1024 =>
      for_ (KYBER_K lv) 0 (fun i r =>
        ri <- aget r i ;; ri <- poly_decompress11_avx2 ri a (ao + 352 * i) ;; aset r i ri) r
  | _ =>
      for_ (KYBER_K lv) 0 (fun i r =>
        ri <- aget r i ;; ri <- poly_decompress10_avx2 ri a (ao + 320 * i) ;; aset r i ri) r
  end.

Section WithJunk.
Context `{Junk}.

(** avx2/polyvec.c:201-206 *)
Definition polyvec_tobytes_avx2 (lv : level) (r : list Z) (ro : nat) (a : polyvec) : res (list Z) :=
  for_ (KYBER_K lv) 0 (fun i r =>
    ai <- aget a i ;;
    ntttobytes_avx r (ro + i * KYBER_POLYBYTES) ai) r.

(** avx2/polyvec.c:218-223 *)
Definition polyvec_frombytes_avx2 (lv : level) (r : polyvec) (a : list Z) (ao : nat) : res polyvec :=
  for_ (KYBER_K lv) 0 (fun i r =>
    ri <- aget r i ;;
    ri <- nttfrombytes_avx ri a (ao + i * KYBER_POLYBYTES) ;;
    aset r i ri) r.

(** avx2/polyvec.c:232-237 *)
Definition polyvec_ntt_avx2 (lv : level) (r : polyvec) : res polyvec :=
  for_ (KYBER_K lv) 0 (fun i r => ri <- aget r i ;; ri <- ntt_avx ri ;; aset r i ri) r.

(** avx2/polyvec.c:247-252 *)
Definition polyvec_invntt_tomont_avx2 (lv : level) (r : polyvec) : res polyvec :=
  for_ (KYBER_K lv) 0 (fun i r => ri <- aget r i ;; ri <- invntt_avx ri ;; aset r i ri) r.

(** avx2/polyvec.c:264-274.  Unlike ref/, no final reduction. *)
Definition polyvec_basemul_acc_montgomery_avx2 (lv : level) (r : list Z) (a b : polyvec) : res (list Z) :=
  a0 <- aget a 0 ;; b0 <- aget b 0 ;;
  r <- basemul_avx r a0 b0 ;;
  s <- for_ (KYBER_K lv - 1) 1 (fun i s =>
    let '(r, tmp) := s in
    ai <- aget a i ;; bi <- aget b i ;;
    tmp <- basemul_avx tmp ai bi ;;
    r <- poly_add_to_avx2 r tmp ;;
    ret (r, tmp)) (r, local_poly) ;;
  ret (fst s).

(** avx2/polyvec.c:285-290 *)
Definition polyvec_reduce_avx2 (lv : level) (r : polyvec) : res polyvec :=
  for_ (KYBER_K lv) 0 (fun i r => ri <- aget r i ;; ri <- reduce_avx ri ;; aset r i ri) r.

(** avx2/polyvec.c:301-306, called with r = a *)
Definition polyvec_add_to_avx2 (lv : level) (r b : polyvec) : res polyvec :=
  for_ (KYBER_K lv) 0 (fun i r =>
    ri <- aget r i ;; bi <- aget b i ;; ri <- poly_add_to_avx2 ri bi ;; aset r i ri) r.

End WithJunk.
